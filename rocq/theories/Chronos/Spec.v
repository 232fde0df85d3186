(* What the properties of scheduled tasks say, in terms of balances, task records and
   the queue only. *)
From Verif Require Import Lib.Base Lib.Zmap Chronos.Model.
From Coq Require Import ZArith List Bool.
Import ListNotations.
Open Scope Z_scope.

(* Sum of all balances. *)
Definition total (s : st) : Z := fold_right (fun p acc => snd p + acc) 0 (s_bal s).
Definition money (s : st) (a : addr) : Z := bal (s_bal s) a.

(* A task is live, or has been cancelled. *)
Definition live (s : st) (id : Z) : Prop := exists c, get_cron s id = Some c.

(* An account that can sign: not the account of a task. *)
Definition person (a : addr) : Prop := match a with Wallet _ => False | _ => True end.
Definition signed_by (t : atext) (a : addr) : Prop := decode t = Some a /\ person a.

(* Whose account a step acts for: the signer of a message; nobody for the rest. *)
Definition op_signed (o : op) : Prop :=
  match o with
  | OCreate m | OCreateCb m _ => exists a, signed_by (m_sender m) a
  | OUpdate t _ | OCancel t _ _ => exists a, signed_by t a
  | _ => True
  end.
Definition all_signed (l : list (env * op)) : Prop := Forall (fun p : env * op => op_signed (snd p)) l.
Definition signer (o : op) : option addr :=
  match o with
  | OCreate m | OCreateCb m _ => decode (m_sender m)
  | OUpdate t _ | OCancel t _ _ => decode t
  | _ => None
  end.
Definition is_message (o : op) : Prop :=
  match o with OCreate _ | OCreateCb _ _ | OUpdate _ _ | OCancel _ _ _ => True | _ => False end.

(* What a task is: its owner, its account, what it calls, and its kind. *)
Definition ident (c : cron) : atext * addr * Z * bool := (c_owner c, c_wallet c, c_call c, c_cb c).

(* A task the state says is waiting in the queue (after height 34800). *)
Definition waiting (c : cron) : bool := negb (c_queue c =? -1) && negb (c_queue c =? 0).

(* How often a task stands in the queue under a price. *)
Definition times (id : Z) (l : list (Z * Z)) : nat := length (filter (fun p => fst p =? id) l).
Definition queued_at (s : st) (id k : Z) : nat := times id (ids_at (s_queue s) k).

(* Every waiting task stands in the queue once, under its own price, and nothing else does. *)
Definition queue_exact (s : st) : Prop :=
  (forall id c, get_cron s id = Some c -> waiting c = true -> exists p, c_price c = Some p) /\
  forall id k,
    queued_at s id k =
      match get_cron s id with
      | Some c => if waiting c then match c_price c with Some p => if Z.abs p =? k then 1%nat else 0%nat | None => 0%nat end else 0%nat
      | None => 0%nat
      end.

(* Histories that never change the price of a waiting task, and whose task runs do not
   update tasks or cancel the task being run. *)
Definition quiet_update (s : st) (u : upd) : Prop :=
  forall c, get_cron s (u_id u) = Some c -> waiting c = true ->
            option_map Z.abs (u_price u) = option_map Z.abs (c_price c).
Definition quiet_env (e : env) : Prop :=
  upd0 < e_height e /\ 0 < e_time e /\
  forall c n, match e_evm e c n with
              | EvmErr => True
              | EvmRun _ l => Forall (fun f => match f with EPay _ _ _ => True | ECancel i => i <> c_id c | EUpdate _ => False end) l
              end.
Definition quiet_op (s : st) (o : op) : Prop := match o with OUpdate _ u => quiet_update s u | _ => True end.

Fixpoint quiet_run (s : st) (l : list (env * op)) : Prop :=
  match l with
  | [] => True
  | (e, o) :: l' => quiet_env e /\ quiet_op s o /\ forall s', step s e o = Ok s' -> quiet_run s' l'
  end.

(* No account is overdrawn. *)
Definition solvent (s : st) : Prop := forall a, 0 <= money s a.

(* States a chain that starts with these balances and no task can come to. *)
Definition start (bank : ledger) : st := set_bal init bank.
Definition reached (s : st) : Prop := exists bank l, solvent (start bank) /\ all_signed l /\ run (start bank) l = Ok s.
Definition reached_quietly (s : st) : Prop :=
  exists bank l, solvent (start bank) /\ all_signed l /\ quiet_run (start bank) l /\ run (start bank) l = Ok s.

(* A run that does not cancel or update tasks, except cancelling other tasks than its own. *)
Definition tame (i : Z) (f : effect) : Prop := match f with EPay _ _ _ => True | ECancel j => j <> i | EUpdate _ => False end.

(* The gas of a run lies between zero and the task's limit, which fits 64 bits. *)
Definition gas_ok (e : env) (c : cron) (n : Z) : Prop :=
  0 <= c_gas c < 2 ^ 64 /\ match e_evm e c n with EvmErr => True | EvmRun used _ => 0 <= used <= c_gas c end.

(* A run that only moves money, and none out of the fee collector. *)
Definition pays_only (f : effect) : Prop := match f with EPay Collector _ _ => False | EPay _ _ _ => True | _ => False end.

(* The record a run works from: a callback task first takes its data. *)
Definition run_copy (s : st) (e : env) (c : cron) : option cron :=
  if c_cb c then match zget (s_data s) (c_id c) with None => None | Some d => Some (with_callback c d (u64 (e_height e))) end else Some c.

(* An entry of the queue that has waited too long; the whole queue, lowest price first. *)
Definition late (e : env) (it : Z * Z) : bool := snd it <? u64 (e_time e - queue_timeout).
Definition in_order (s : st) : list (Z * Z) := concat (map snd (s_queue s)).
