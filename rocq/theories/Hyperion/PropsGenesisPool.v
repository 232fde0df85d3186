(* C41: transfers and batches across an export and a start from genesis. *)
From Coq Require Import String.
From Verif Require Import Lib.Base Lib.Bytes Hyperion.Pool Hyperion.PoolSpec Hyperion.PoolProofs Hyperion.PropsPool Hyperion.GenesisPool Hyperion.GenesisPoolProofs.
Open Scope list_scope.
Open Scope Z_scope.

(* From any reached state, exporting succeeds for any list of chains.  If the list names
   every chain once, the new chain has the same coins, the same pending transfers, the same
   batches and the same batch counters, and nothing else pending.  Missing: the list of
   waiting transfers and the transfer counter, see the refutations below. *)
Theorem C41_transfers_partial : forall s hs, reached s -> NoDup hs ->
  (forall t, In t (p_pool s) -> In (t_h t) hs) -> (forall b, In b (p_batches s) -> In (b_h b) hs) ->
  exists s', restart s hs = Ok s' /\ same_money s s' /\
    (forall h i, pget s' h i = pget s h i) /\ (forall h n t, bget s' h n t = bget s h n t) /\
    (forall h, In h hs -> p_batchid s' h = p_batchid s h).
Proof.
  intros s hs R N Ct Cb. destruct (reached_full _ R) as [I _]. destruct (restart_ok s hs I N Ct Cb) as (s' & E & M & _ & _ & P & B & C). exists s'. auto 10.
Qed.
Definition again : st := get (restart s1 [1]).
Example C41_transfers_partial_ex : reached s1 /\ (forall t, In t (p_pool s1) -> In (t_h t) [1]) /\ (forall b, In b (p_batches s1) -> In (b_h b) [1]) /\
  map t_id (p_pool again) = [4; 1; 2; 3] /\ map t_id (p_pool s1) = [4; 3; 2; 1] /\ map (fun b => (b_nonce b, map t_id (b_txs b))) (p_batches again) = [(1, [3; 2])] /\
  is_ok (exec (env0 1000) again (Withdraw 1 1 hls orch)) = true.
Proof.
  split; [exact s1_reached|]. split; [apply Forall_forall; vm_compute; repeat constructor|]. split; [apply Forall_forall; vm_compute; repeat constructor|]. vm_compute. auto 10.
Qed.
Print Assumptions C41_transfers_partial.

(* The fee index is not rebuilt.  A transfer that could be cancelled or batched before can be
   neither afterwards, whoever asks and whatever the environment. *)
Theorem C41_waiting_refuted : exists s s', reached s /\ restart s [1] = Ok s' /\
  is_ok (exec (env0 1000) s (CancelSend 1 1 alice)) = true /\ is_ok (exec (env0 1000) s (RequestBatch 1 (B "husdt"))) = true /\
  (exists t, pget s' 1 1 = Some t /\ t_sender t = alice) /\
  (forall e h i a, is_ok (exec e s' (CancelSend h i a)) = false) /\ (forall e h d, is_ok (exec e s' (RequestBatch h d)) = false).
Proof.
  exists s1. destruct (C41_transfers_partial s1 [1] s1_reached) as (s' & E & _); [repeat constructor; intros []|apply C41_transfers_partial_ex|apply C41_transfers_partial_ex|].
  exists s'. split; [exact s1_reached|]. split; [exact E|]. split; [vm_compute; reflexivity|]. split; [vm_compute; reflexivity|].
  assert (X : s' = again) by (unfold again; rewrite E; reflexivity). assert (Ix : p_index s' = []) by (rewrite X; vm_compute; reflexivity).
  split; [exists (mk_tx 1 1 alice (B "0xdest") usdt 100 7 1050); rewrite X; vm_compute; auto|]. split.
  - intros e h i a. cbn [exec]. rewrite no_index_no_refund by exact Ix. reflexivity.
  - intros e h d. cbn [exec]. destruct (no_index_no_batch e s' h d Ix) as [->|Y]; [reflexivity|]. unfold request_batch. rewrite Y. reflexivity.
Qed.
Print Assumptions C41_waiting_refuted.

(* The transfer counter restarts: the next transfer takes the number of a pending one and
   replaces it.  Alice's transfer, already burned, is gone. *)
Definition only_alice : list (env * step) := [a_home 50 3].
Definition lost : list (env * step) := [b_home 60 9].
Theorem C41_transfer_number_refuted : exists s s' s'' t u, run s0 only_alice = Ok s /\ restart s [1] = Ok s' /\ run s' lost = Ok s'' /\
  p_pool s = [t] /\ p_pool s' = [t] /\ t_sender t = alice /\ p_pool s'' = [u] /\ t_sender u = bob /\ t_id u = t_id t /\
  p_bal s'' alice ahelios = p_bal s alice ahelios /\ p_bal s alice ahelios < p_bal s0 alice ahelios.
Proof.
  set (s := get (run s0 only_alice)). set (s' := get (restart s [1])). set (s'' := get (run s' lost)).
  exists s, s', s'', (hd (mk_tx 0 0 [] [] [] 0 0 0) (p_pool s)), (hd (mk_tx 0 0 [] [] [] 0 0 0) (p_pool s'')).
  assert (G : forall r, is_ok r = true -> r = Ok (get r)) by (intros [x| |] H; [reflexivity|discriminate H|discriminate H]).
  split; [apply G; vm_compute; reflexivity|]. split; [apply G; vm_compute; reflexivity|]. split; [apply G; vm_compute; reflexivity|].
  vm_compute. auto 15.
Qed.
Print Assumptions C41_transfer_number_refuted.
