(* What the bridge's key layout and scans are meant to achieve, without keys:
   the store is a set of records, and a scan selects records by their fields. *)
From Verif Require Import Lib.Base Lib.Bytes Lib.Codec Lib.Kv Hyperion.Keys.
Open Scope Z_scope.

(* field sizes: ids, nonces, heights and indexes are uint64; Ethereum addresses
   have 20 bytes, hashes 32, fees 256 bits; chain addresses have at least 8 bytes *)
Definition u64 (x : Z) : Prop := 0 <= x < 2 ^ 64.
Definition sized (n : nat) (b : bytes) : Prop := length b = n /\ bytes_ok b.
Definition chain_addr (b : bytes) : Prop := (8 <= length b)%nat /\ bytes_ok b.
Definition wf (k : skey) : Prop :=
  match k with
  | KEthByVal h v | KLastEvent h v | KOrchestrator h v | KFee h v => u64 h /\ chain_addr v
  | KValByEth h e => u64 h /\ sized 20 e
  | KValset h n | KPoolTx h n | KBatchBlock h n | KExternalBlock h n | KNonceObserved h n | KSkipped h n => u64 h /\ u64 n
  | KValsetConfirm h n v => u64 h /\ u64 n /\ chain_addr v
  | KParams | KLastUnbonding | KLastFinalized => True
  | KAttestation h n c => u64 h /\ u64 n /\ sized 32 c
  | KTxPoolId h | KBatchId h | KLastObservedNonce h | KLastObservedHeight h | KLastSlashedValset h | KLatestValset h
  | KLastSlashedBatch h | KLastObservedValset h | KWhitelist h => u64 h
  | KFeeIndex h t f => u64 h /\ sized 20 t /\ 0 <= f < 2 ^ 256
  | KBatch h n t | KExternal h n t => u64 h /\ u64 n /\ sized 20 t
  | KBatchConfirm h t n v => u64 h /\ sized 20 t /\ u64 n /\ chain_addr v
  | KCheckpoint h c => u64 h /\ sized 32 c
  | KBlacklist e => sized 20 e
  | KFinalized e i => sized 20 e /\ u64 i
  | KOrchData o => chain_addr o
  end.

Section Spec.
Context {V : Type}.

(* the store holds exactly these records, each under its key, in key order *)
Definition holds (st : list (bytes * V)) (recs : list (skey * V)) : Prop :=
  st = map (fun r => (encode (fst r), snd r)) recs /\ ksorted st /\ Forall (fun r : skey * V => wf (fst r)) recs.

(* the records a condition selects, shown under their keys less the first d bytes *)
Definition selected (d : nat) (P : skey -> bool) (recs : list (skey * V)) : list (bytes * V) :=
  map (fun r => (skipn d (encode (fst r)), snd r)) (filter (fun r => P (fst r)) recs).
End Spec.

(* the conditions *)
Definition is_fee h k := match k with KFee h' _ => h =? h' | _ => false end.
Definition is_eth_by_val h k := match k with KEthByVal h' _ => h =? h' | _ => false end.
Definition is_orchestrator h k := match k with KOrchestrator h' _ => h =? h' | _ => false end.
Definition is_index h k := match k with KFeeIndex h' _ _ => h =? h' | _ => false end.
Definition is_any_index k := match k with KFeeIndex _ _ _ => true | _ => false end.
Definition is_index_token h t k := match k with KFeeIndex h' t' _ => (h =? h') && beqb t t' | _ => false end.
Definition is_batch h k := match k with KBatch h' _ _ => h =? h' | _ => false end.
Definition is_any_batch k := match k with KBatch _ _ _ => true | _ => false end.
Definition is_external h k := match k with KExternal h' _ _ => h =? h' | _ => false end.
Definition is_valset_confirm h n k := match k with KValsetConfirm h' n' _ => (h =? h') && (n =? n') | _ => false end.
Definition is_confirm_of h k := match k with KValsetConfirm h' _ _ => h =? h' | _ => false end.
Definition is_batch_confirm h t n k := match k with KBatchConfirm h' t' n' _ => (h =? h') && beqb t t' && (n =? n') | _ => false end.
Definition is_batch_confirm_of h k := match k with KBatchConfirm h' _ _ _ => h =? h' | _ => false end.
Definition is_any_valset k := match k with KValset _ _ => true | _ => false end.
Definition is_valset h k := match k with KValset h' _ => h =? h' | _ => false end.
Definition is_valset_between h lo hi k := match k with KValset h' n => (h =? h') && (lo <=? n) && (n <? hi) | _ => false end.
Definition is_attestation h k := match k with KAttestation h' _ _ => h =? h' | _ => false end.
Definition is_blacklist k := match k with KBlacklist _ => true | _ => false end.
Definition is_finalized e k := match k with KFinalized e' _ => beqb e e' | _ => false end.
Definition is_finalized_between e lo hi k := match k with KFinalized e' i => beqb e e' && (lo <? i) && (i <=? hi) | _ => false end.
Definition is_last_event h k := match k with KLastEvent h' _ => h =? h' | _ => false end.
Definition is_skipped h k := match k with KSkipped h' _ => h =? h' | _ => false end.
Definition is_any_skipped k := match k with KSkipped _ _ => true | _ => false end.
Definition is_nonce_observed h k := match k with KNonceObserved h' _ => h =? h' | _ => false end.
Definition is_batch_block h lo hi k := match k with KBatchBlock h' b => (h =? h') && (lo <=? b) && (b <? hi) | _ => false end.
