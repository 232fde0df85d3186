(* What the record of scheduled tasks should tell, for C122. *)
From Verif Require Import Lib.Base Lib.Bytes Lib.Dec Chronos.Archive.
Open Scope Z_scope.

(* the transactions of a history, in order *)
Fixpoint txs (l : list op) : list tx := match l with [] => [] | Put t :: l' => t :: txs l' | Archive _ :: l' => txs l' end.
(* a text that starts with 0x *)
Definition hash_text (h : bytes) : Prop := exists r, h = (48 :: 120 :: r)%N.
Definition proper (t : tx) : Prop := 0 <= x_nonce t /\ 0 <= x_cron t /\ 0 <= x_block t /\ hash_text (x_hash t).
(* numbers and hashes are used once *)
Definition history (l : list op) : Prop :=
  Forall proper (txs l) /\ NoDup (map x_nonce (txs l)) /\ NoDup (map x_hash (txs l)) /\ forall id, In (Archive id) l -> 0 <= id.
