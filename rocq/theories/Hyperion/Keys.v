(* The bridge module's store: key layouts, and the scans that read or delete
   records by a part of their key (x/hyperion/types/key.go, keeper/*.go).
   Values are an abstract type: what a scan does with them is not modelled here. *)
From Verif Require Import Lib.Base Lib.Bytes Lib.Codec Lib.Kv.
Open Scope Z_scope.

(* types.UInt64Bytes and sdk.Uint64ToBigEndian: eight bytes, big endian *)
Definition b8 (x : Z) : bytes := be 8 x.

(* ------------------------------------------------------------------ *)
(* Records and their keys                                              *)
(* ------------------------------------------------------------------ *)

(* the kinds of record the module stores; h is the hyperion id of a bridged chain *)
Inductive skey :=
| KEthByVal (h : Z) (v : bytes)
| KValByEth (h : Z) (e : bytes)
| KValset (h n : Z)
| KValsetConfirm (h n : Z) (v : bytes)
| KParams
| KAttestation (h n : Z) (claim : bytes)
| KPoolTx (h id : Z)
| KTxPoolId (h : Z)
| KBatchId (h : Z)
| KFeeIndex (h : Z) (token : bytes) (fee : Z)
| KBatch (h n : Z) (token : bytes)
| KBatchBlock (h block : Z)
| KBatchConfirm (h : Z) (token : bytes) (n : Z) (v : bytes)
| KLastEvent (h : Z) (v : bytes)
| KLastObservedNonce (h : Z)
| KOrchestrator (h : Z) (o : bytes)
| KLastObservedHeight (h : Z)
| KLastSlashedValset (h : Z)
| KLatestValset (h : Z)
| KLastSlashedBatch (h : Z)
| KLastUnbonding
| KLastObservedValset (h : Z)
| KCheckpoint (h : Z) (c : bytes)
| KBlacklist (e : bytes)
| KFinalized (e : bytes) (i : Z)
| KLastFinalized
| KExternal (h n : Z) (contract : bytes)
| KExternalBlock (h block : Z)
| KNonceObserved (h n : Z)
| KFee (h : Z) (v : bytes)
| KOrchData (o : bytes)
| KWhitelist (h : Z)
| KSkipped (h n : Z).

(* types/key.go:28-133: the first byte of each kind *)
Definition tag (k : skey) : N :=
  match k with
  | KEthByVal _ _ => 1 | KValByEth _ _ => 251 | KValset _ _ => 2 | KValsetConfirm _ _ _ => 3 | KParams => 4
  | KAttestation _ _ _ => 5 | KPoolTx _ _ => 6 | KTxPoolId _ => 7 | KBatchId _ => 7 | KFeeIndex _ _ _ => 9
  | KBatch _ _ _ => 10 | KBatchBlock _ _ => 11 | KBatchConfirm _ _ _ _ => 225 | KLastEvent _ _ => 241
  | KLastObservedNonce _ => 242 | KOrchestrator _ _ => 232 | KLastObservedHeight _ => 249 | KLastSlashedValset _ => 245
  | KLatestValset _ => 246 | KLastSlashedBatch _ => 247 | KLastUnbonding => 248 | KLastObservedValset _ => 250
  | KCheckpoint _ _ => 27 | KBlacklist _ => 28 | KFinalized _ _ => 29 | KLastFinalized => 30 | KExternal _ _ _ => 31
  | KExternalBlock _ _ => 32 | KNonceObserved _ _ => 33 | KFee _ _ => 34 | KOrchData _ => 35 | KWhitelist _ => 36 | KSkipped _ _ => 37
  end%N.

(* "lastTxPoolId" and "lastBatchId" in ASCII (types/key.go:79-82) *)
Definition last_tx_pool_id : bytes := [108; 97; 115; 116; 84; 120; 80; 111; 111; 108; 73; 100]%N.
Definition last_batch_id : bytes := [108; 97; 115; 116; 66; 97; 116; 99; 104; 73; 100]%N.

(* What follows the first byte (types/key.go:140-469).  Attestations, last
   observed values and last events live in a prefix store over kind and id
   (keeper/attestation.go:379-607); in the last case the inner key repeats both.
   Observed nonces, skipped nonces and whitelists live in a prefix store over
   the kind, and their inner key repeats it (keeper/keeper.go:1407-1467, 1582-1600). *)
Definition body (k : skey) : bytes :=
  match k with
  | KEthByVal h v => b8 h ++ v                                          (* key.go:158-164 *)
  | KValByEth h e => b8 h ++ e                                          (* key.go:169-175 *)
  | KValset h n => b8 h ++ b8 n                                         (* key.go:188-195 *)
  | KValsetConfirm h n v => b8 h ++ b8 n ++ v                           (* key.go:209-217 *)
  | KParams => []                                                       (* keeper.go:963-981 *)
  | KAttestation h n c => b8 h ++ b8 n ++ c                             (* attestation.go:379, key.go:248-255 *)
  | KPoolTx h id => b8 h ++ b8 id                                       (* key.go:260-267 *)
  | KTxPoolId h => last_tx_pool_id ++ b8 h                              (* key.go:361-363 *)
  | KBatchId h => last_batch_id ++ b8 h                                 (* key.go:357-359 *)
  | KFeeIndex h t f => b8 h ++ t ++ be 32 f                             (* key.go:311-323 *)
  | KBatch h n t => b8 h ++ b8 n ++ t                                   (* key.go:272-280 *)
  | KBatchBlock h b => b8 h ++ b8 b                                     (* key.go:285-291 *)
  | KBatchConfirm h t n v => b8 h ++ t ++ b8 n ++ v                     (* key.go:297-306 *)
  | KLastEvent h v => b8 h ++ 241%N :: b8 h ++ v                        (* attestation.go:577-607, key.go:337-344 *)
  | KLastObservedNonce h => b8 h ++ b8 0                                (* attestation.go:515-533 *)
  | KOrchestrator h o => b8 h ++ o                                      (* key.go:147-153 *)
  | KLastObservedHeight h => b8 h ++ b8 0                               (* attestation.go:539-570 *)
  | KLastSlashedValset h => b8 h                                        (* key.go:234-239 *)
  | KLatestValset h => b8 h                                             (* key.go:197-199 *)
  | KLastSlashedBatch h => b8 h                                         (* key.go:201-203 *)
  | KLastUnbonding => []                                                (* key.go:228-232 *)
  | KLastObservedValset h => b8 h ++ b8 0                               (* attestation.go:488-511 *)
  | KCheckpoint h c => b8 h ++ c                                        (* key.go:349-355 *)
  | KBlacklist e => e                                                   (* key.go:140-142 *)
  | KFinalized e i => e ++ b8 i                                         (* archive_tx.go:47, key.go:365-370 *)
  | KLastFinalized => [0%N]                                             (* archive_tx.go:69-83 *)
  | KExternal h n c => b8 h ++ b8 n ++ c                                (* key.go:416-424 *)
  | KExternalBlock h b => b8 h ++ b8 b                                  (* key.go:429-435 *)
  | KNonceObserved h n => 33%N :: b8 h ++ b8 n                          (* keeper.go:1407-1433, key.go:437-443 *)
  | KFee h v => b8 h ++ v                                               (* key.go:177-183 *)
  | KOrchData o => o                                                    (* key.go:457-462 *)
  | KWhitelist h => 36%N :: b8 h                                        (* keeper.go:1582-1600, key.go:464-469 *)
  | KSkipped h n => 37%N :: b8 h ++ b8 n                                (* keeper.go:1435-1467, key.go:445-451 *)
  end.
Definition encode (k : skey) : bytes := tag k :: body k.

(* ------------------------------------------------------------------ *)
(* PrefixRange, keeper/keeper.go:1186-1226                             *)
(* ------------------------------------------------------------------ *)

(* add one to a big-endian byte string with carry, keeping its length; None on overflow *)
Fixpoint incr (p : bytes) : option bytes :=
  match p with
  | [] => None
  | x :: p' => match incr p' with
               | Some e => Some (x :: e)
               | None => if (x =? 255)%N then None else Some ((x + 1)%N :: map (fun _ => 0%N) p')
               end
  end.
Definition prefix_range (p : bytes) : bytes * option bytes := (p, incr p).

(* ------------------------------------------------------------------ *)
(* Scans                                                               *)
(* ------------------------------------------------------------------ *)

Section Scans.
Context {V : Type}.
Notation store := (list (bytes * V)).

Definition scan_range (st : store) (r : bytes * option bytes) : store := krange st (fst r) (snd r).
Definition pscan_range (st : store) (p : bytes) (r : bytes * option bytes) : store := pscan st p (fst r) (snd r).
Definition prscan_range (st : store) (p : bytes) (r : bytes * option bytes) : store := prscan st p (fst r) (snd r).

(* keeper.go:700-760 (fees), 1116-1150 (delegate keys): the whole store, by prefix *)
Definition scan_fees (st : store) (h : Z) : store := scan_range st (prefix_range (34%N :: b8 h)).
Definition scan_eth_addresses (st : store) (h : Z) : store := scan_range st (prefix_range (1%N :: b8 h)).
Definition scan_orchestrators (st : store) (h : Z) : store := scan_range st (prefix_range (232%N :: b8 h)).
(* pool.go:380-410: reverse *)
Definition scan_pool_index (st : store) (h : Z) : store := rev (scan_range st (prefix_range (9%N :: b8 h))).
(* pool.go:412-440: reverse, every chain *)
Definition scan_pool_index_all (st : store) : store := prscan st [9%N] [] None.
(* pool.go:443-475: reverse, one token *)
Definition scan_pool_index_token (st : store) (h : Z) (t : bytes) : store := prscan_range st [9%N] (prefix_range (b8 h ++ t)).
(* pool.go:525-531, 589-595: forward *)
Definition scan_batch_fees (st : store) (h : Z) : store := pscan_range st [9%N] (prefix_range (b8 h)).
(* batch.go:378-398, 400-415: reverse *)
Definition scan_batches (st : store) (h : Z) : store := prscan_range st [10%N] (prefix_range (b8 h)).
Definition scan_batches_all (st : store) : store := prscan st [10%N] [] None.
(* external_data.go:270-300: reverse *)
Definition scan_external (st : store) (h : Z) : store := prscan_range st [31%N] (prefix_range (b8 h)).
(* keeper.go:453-500 *)
Definition scan_valset_confirms (st : store) (h n : Z) : store := pscan_range st [3%N] (prefix_range (b8 h ++ b8 n)).
(* keeper.go:550-580 *)
Definition scan_batch_confirms (st : store) (h : Z) (t : bytes) (n : Z) : store := pscan_range st [225%N] (prefix_range (b8 h ++ t ++ b8 n)).
(* keeper.go:265-285: reverse, every chain *)
Definition scan_valsets_all (st : store) : store := prscan st [2%N] [] None.
(* attestation.go:428-480 *)
Definition scan_attestations (st : store) (h : Z) : store := pscan st (5%N :: b8 h) [] None.
(* keeper.go:1244-1262 *)
Definition scan_blacklist (st : store) : store := pscan st [28%N] [] None.
(* archive_tx.go:138-170 (before the move to the archive store), 126-136 reverse *)
Definition scan_finalized (st : store) (e : bytes) : store := pscan_range st [29%N] (prefix_range e).
(* archive_tx.go:195-215: from startIndex+1 up to endIndex+1 *)
Definition scan_finalized_range (st : store) (e : bytes) (i j : Z) : store := pscan st [29%N] (e ++ b8 (i + 1)) (Some (e ++ b8 (j + 1))).
(* keeper.go:383-400: valsets not yet slashed for, nonce in [last, max) *)
Definition scan_unslashed_valsets (st : store) (h last max : Z) : store := pscan st (2%N :: b8 h) (b8 last) (Some (b8 max)).
(* batch.go:500-517: no hyperion id in the bounds *)
Definition scan_unslashed_batches (st : store) (last max : Z) : store := pscan st [11%N] (b8 last) (Some (b8 max)).
(* keeper.go:1492-1511 and 1513-1536 *)
Definition scan_skipped (st : store) (h : Z) : store := pscan st (37%N :: b8 h) [] None.
Definition scan_skipped_all (st : store) : store := pscan st [37%N] [] None.

(* types.UInt64FromBytes reads the first eight bytes; keys here are never shorter *)
Definition u64_of (k : bytes) : Z := unbe (firstn 8 k).
(* keeper.go:1492-1511: the nonces reported *)
Definition list_skipped (st : store) (h : Z) : list (Z * V) := map (fun q => (u64_of (fst q), snd q)) (scan_skipped st h).
(* keeper.go:1513-1536: (hyperion id, nonce) reported; both are read from the same bytes *)
Definition list_skipped_all (st : store) : list (Z * Z * V) := map (fun q => (u64_of (firstn 8 (fst q)), u64_of (fst q), snd q)) (scan_skipped_all st).

(* for ; iter.Valid(); iter.Next() { store.Delete(iter.Key()) } *)
Definition pclean (st : store) (p : bytes) : store := fold_left (fun s q => kdel s (p ++ fst q)) (pscan st p [] None) st.
Definition clean_valsets (st : store) (h : Z) : store := pclean st (2%N :: b8 h).            (* keeper.go:218-229 *)
Definition clean_valset_confirms (st : store) (h : Z) : store := pclean st (b8 h).           (* keeper.go:439-450 *)
Definition clean_batch_confirms (st : store) (h : Z) : store := pclean st (225%N :: b8 h).   (* keeper.go:536-547 *)
Definition clean_attestations (st : store) (h : Z) : store := pclean st (5%N :: b8 h).       (* attestation.go:417-427 *)
Definition clean_last_events (st : store) (h : Z) : store := pclean st (241%N :: b8 h).      (* attestation.go:586-597 *)
Definition clean_skipped (st : store) (h : Z) : store := pclean st (37%N :: b8 h).           (* keeper.go:1469-1477 *)
Definition clean_all_skipped (st : store) : store := pclean st [37%N].                       (* keeper.go:1479-1490 *)
Definition clean_nonce_observed (st : store) (h : Z) : store := pclean st [33%N].            (* keeper.go:1538-1546: the id is not used *)
End Scans.
