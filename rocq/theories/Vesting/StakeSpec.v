(* What C114 promises, apart from the model of the delegation itself. *)
From Verif Require Import Lib.Base Lib.Bytes Lib.Coins Vesting.Model Vesting.Spec Vesting.Proofs Vesting.AccProofs Vesting.Keeper Vesting.KeeperProofs Vesting.Props Vesting.PropsKeeper Vesting.Stake.
Open Scope Z_scope.

(* what is not vested at t *)
Definition unvested (v : vacc) (t : Z) (d : bytes) : Z := sum_of (v_vesting v) d - released (v_start v) (v_vesting v) t d.

(* the clock of the events that read it does not go back *)
Definition stime (e : sevent) : option Z :=
  match e with
  | SKeep (EMsg _ t) => Some t
  | SKeep (EBank _ _ _ t) => Some t
  | SDelegate _ _ _ t => Some t
  | _ => None
  end.
Fixpoint sorder (from : Z) (es : list sevent) : Prop :=
  match es with
  | [] => True
  | e :: r => match stime e with Some t => from <= t /\ sorder t r | None => sorder from r end
  end.
Fixpoint slast (from : Z) (es : list sevent) : Z :=
  match es with [] => from | e :: r => slast (match stime e with Some t => t | None => from end) r end.

(* the account does not delegate this coin *)
Definition never_delegates (a : addr) (d : bytes) (es : list sevent) : Prop :=
  Forall (fun e => match e with SDelegate b d' _ _ => b <> a \/ d' <> d | _ => True end) es.

(* the account holds all of its unvested coins *)
Definition holds (s : kst) (a : addr) (d : bytes) (t : Z) : Prop :=
  forall v, accs s a = Some (Vest v) -> unvested v t d <= balance s a d.

(* what a delegation does *)
Definition delegated (s s' : sst) (a : addr) (d : bytes) (x : Z) : Prop :=
  kst_ok (ks (st_g s')) /\
  (forall b e, balance (ks (st_g s')) b e = balance (ks (st_g s)) b e - (if N.eqb b a && beqb e d then x else 0)) /\
  (forall b e, st_staked s' b e = st_staked s b e + (if N.eqb b a && beqb e d then x else 0)) /\
  (forall b, b <> a -> accs (ks (st_g s')) b = accs (ks (st_g s)) b) /\
  (match accs (ks (st_g s)) a with
   | Some (Vest v) => accs (ks (st_g s')) a =
       Some (Vest (Vacc (v_funder v) (v_orig v) (cadd (v_deleg v) [(d, x)]) (v_start v) (v_end v) (v_lockup v) (v_vesting v)))
   | x => accs (ks (st_g s')) a = x
   end) /\
  gov_off (ks (st_g s')) = gov_off (ks (st_g s)) /\ active (ks (st_g s')) = active (ks (st_g s)) /\ live (st_g s') = live (st_g s).

(* when it is made: the amount is compared with the bond coin, whatever coin is delegated *)
Definition may_delegate (bond : bytes) (stakeable : bytes -> bool) (s : sst) (a : addr) (d : bytes) (x t : Z) : Prop :=
  0 < x /\ stakeable d = true /\ x <= balance (ks (st_g s)) a d /\
  match accs (ks (st_g s)) a with
  | None => False
  | Some (Vest v) => x <= balance (ks (st_g s)) a bond - unvested v t bond
  | Some _ => True
  end.

(* what changes when x coins d of a come back from the stake, or are slashed *)
Definition came_back (s s' : sst) (a : addr) (d : bytes) (x : Z) : Prop :=
  (forall b e, balance (ks (st_g s')) b e = balance (ks (st_g s)) b e + (if N.eqb b a && beqb e d then x else 0)) /\
  (forall b e, st_staked s' b e = st_staked s b e - (if N.eqb b a && beqb e d then x else 0)) /\
  (forall b, b <> a -> accs (ks (st_g s')) b = accs (ks (st_g s)) b) /\
  (match accs (ks (st_g s)) a with
   | Some (Vest v) => exists w, accs (ks (st_g s')) a =
       Some (Vest (Vacc (v_funder v) (v_orig v) w (v_start v) (v_end v) (v_lockup v) (v_vesting v))) /\
       forall e, amt w e = if beqb e d then Z.max 0 (amt (v_deleg v) d - x) else amt (v_deleg v) e
   | y => accs (ks (st_g s')) a = y
   end) /\
  gov_off (ks (st_g s')) = gov_off (ks (st_g s)) /\ active (ks (st_g s')) = active (ks (st_g s)) /\ live (st_g s') = live (st_g s).
