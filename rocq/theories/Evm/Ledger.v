(* What the effects of a run can do to accounts: independent notions used by
   the property files. *)
From Verif Require Import Lib.Base Lib.Bytes Evm.Words Evm.World Evm.Interp.
Open Scope N_scope.

(* has the account been destroyed in this transaction? *)
Definition suicided (w : world) (a : N) : bool := match w_acct w a with Some x => x_suicided x | None => false end.

(* the native money of the listed accounts *)
Definition total (w : world) (u : list N) : Z := fold_right Z.add 0%Z (map (balance w) u).

(* no list of accounts that covers those involved gains money *)
Definition no_gain (w w' : world) : Prop :=
  exists l, forall u, NoDup u -> incl l u -> (total w' u <= total w u)%Z.
Definition same_total (w w' : world) : Prop :=
  exists l, forall u, NoDup u -> incl l u -> total w' u = total w u.

(* contracts have a nonce, and nobody has debts *)
Definition sound (w : world) : Prop :=
  (forall a, code w a <> [] -> nonce w a <> 0) /\ (forall a, (0 <= balance w a)%Z).

(* storage on the chain belongs to accounts that exist *)
Definition no_orphans (committed : N -> N -> N) (w : world) : Prop :=
  forall a, exist w a = false -> forall k, committed a k = 0.

(* everything a contract or a user can read about accounts, and the records *)
Definition looks_same (w w' : world) : Prop :=
  (forall a, balance w' a = balance w a) /\ (forall a, nonce w' a = nonce w a) /\ (forall a, code w' a = code w a) /\
  (forall a k, state w' a k = state w a k) /\ (forall a, suicided w' a = suicided w a) /\
  w_logs w' = w_logs w /\ w_refund w' = w_refund w.

(* an account that only gains: it can be paid, nothing else happens to it *)
Definition spared (a : N) (w w' : world) : Prop :=
  (balance w a <= balance w' a)%Z /\ nonce w' a = nonce w a /\ code w' a = code w a /\
  (forall k, state w' a k = state w a k) /\ suicided w' a = suicided w a /\ exist w' a = true.

(* what nobody may do: lower a nonce, replace code, make debts or money *)
Definition fair (w w' : world) : Prop :=
  (forall a, nonce w a <= nonce w' a) /\ (forall a, code w a <> [] -> code w' a = code w a) /\
  (sound w -> sound w') /\ no_gain w w'.

(* a promise about all built-in contracts: Q caller before after *)
Definition pre_does (is_pre : N -> bool)
    (pre_run : bool -> N -> N -> bytes -> N -> N -> world -> bytes * option verr * N * world)
    (Q : N -> world -> world -> Prop) : Prop :=
  forall ro s a input g v w ret used w2, is_pre a = true ->
    pre_run ro s a input g v w = (ret, None, used, w2) -> Q s w w2.

(* nothing readable changes and nobody is forgotten; blank accounts may be made *)
Definition still (w w' : world) : Prop := looks_same w w' /\ forall a, exist w a = true -> exist w' a = true.

(* an account without code that nobody can create a contract at: no hash gives
   its address, or it has sent a transaction before *)
Definition bystander (keccak : bytes -> N) (a : N) (w : world) : Prop :=
  code w a = [] /\ exist w a = true /\ (nonce w a <> 0 \/ forall l, to_addr (keccak l) <> a).

(* destroyed accounts were contracts or users, not blank accounts *)
Definition marked (w : world) : Prop := forall a, suicided w a = true -> nonce w a <> 0.
