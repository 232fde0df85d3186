(* The ledger of native coins that a transaction should leave behind. *)
From Verif Require Import Lib.Base Lib.Amap Statedb.Model.
Open Scope Z_scope.

(* ------------------------------------------------------------------ *)
(* the ledger a transaction should leave                                *)
(* ------------------------------------------------------------------ *)

(* what a list of reported balance changes does to account a, and in total *)
Definition change (b : bal_change) (a : addr) : Z :=
  match b with BSub x v => if N.eqb x a then - v else 0 | BAdd x v => if N.eqb x a then v else 0 end.
Definition change_total (b : bal_change) : Z := match b with BSub _ v => - v | BAdd _ v => v end.
Definition reported (bs : list bal_change) (a : addr) : Z := fold_right (fun b z => change b a + z) 0 bs.
Definition reported_total (bs : list bal_change) : Z := fold_right (fun b z => change_total b + z) 0 bs.
Definition change_addr (b : bal_change) : addr := match b with BSub x _ | BAdd x _ => x end.

(* every account that is not known to the account module has no coins *)
Definition no_orphans (c : store) : Prop := forall a, st_acct c a = None -> st_bal c a = 0.

(* the store c1 differs from c by the native coins bs reports *)
Record reports (c c1 : store) (bs : list bal_change) : Prop := {
  rp_bal : forall a, st_bal c1 a = st_bal c a + reported bs a;
  rp_supply : st_supply c1 = st_supply c + reported_total bs;
  rp_orphans : no_orphans c -> no_orphans c1
}.
(* a call of a built-in contract either fails, or reports exactly the native coins it moves *)
Definition honest (p : pre_run) (bs : list bal_change) : Prop :=
  forall c, pr_result p c = None \/ pr_result p c = Some bs /\ reports c (pr_effect p c) bs.

(* what one operation of the EVM does to account a, and in total *)
Definition net (moves : pre_run -> list bal_change) (x : op) (a : addr) : Z :=
  match x with
  | AddBalance b v => if N.eqb b a then v else 0
  | SubBalance b v => if N.eqb b a then - v else 0
  | Precompile p => reported (moves p) a
  | _ => 0
  end.
Definition net_total (moves : pre_run -> list bal_change) (x : op) : Z :=
  match x with
  | AddBalance _ v => v
  | SubBalance _ v => - v
  | Precompile p => reported_total (moves p)
  | _ => 0
  end.
Definition nets moves (ops : list op) (a : addr) : Z := fold_right (fun x z => net moves x a + z) 0 ops.
Definition nets_total moves (ops : list op) : Z := fold_right (fun x z => net_total moves x + z) 0 ops.

(* no revert, no self-destruct, and built-in contracts report what they do *)
Definition reporting (moves : pre_run -> list bal_change) (x : op) : Prop :=
  match x with
  | RevertToSnapshot _ | Suicide _ => False
  | Precompile p => honest p (moves p)
  | _ => True
  end.

Definition named moves (x : op) : list addr :=
  match x with
  | AddBalance b _ | SubBalance b _ => [b]
  | Precompile p => map change_addr (moves p)
  | _ => []
  end.
