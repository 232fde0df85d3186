(* The record of what scheduled tasks did, above height 34800: x/chronos/keeper/archive_tx.go
   and the listings of grpc_query_cron.go 233-450. Everything is in one store. *)
From Verif Require Import Lib.Base Lib.Bytes Lib.Kv Lib.Dec.
Open Scope Z_scope.

(* types.CronTransactionResult: its number, the task, the text of its hash, its block *)
Record tx := mk_tx { x_nonce : Z; x_cron : Z; x_hash : bytes; x_block : Z }.
Inductive val := VTx (t : tx) | VMark | VNonce (n : Z) | VHashes (l : list bytes) | VCron (id : Z).
Definition store := list (bytes * val).

(* types/keys.go:91-95: tx:, nid:, b:, r: *)
Definition tx_key (k : bytes) : bytes := (116 :: 120 :: 58 :: k)%N.
Definition nid_key (k : bytes) : bytes := (110 :: 105 :: 100 :: 58 :: k)%N.
Definition b_key (k : bytes) : bytes := (98 :: 58 :: k)%N.
Definition r_key (k : bytes) : bytes := (114 :: 58 :: k)%N.

(* archive_tx.go:250-277 GetBlockTxHashs *)
Definition block_hashes (s : store) (b : Z) : list bytes := match kget s (b_key (udec b)) with Some (VHashes l) => l | _ => [] end.
(* archive_tx.go:326-331 StoreCronTransactionResult, 317-319 StoreSetTransactionNonceByHash,
   279-285 StoreSetTransactionHashInBlock, in the order of keeper.go:827-829 and 937-939 *)
Definition put (s : store) (t : tx) : store :=
  let s1 := kset s (tx_key (udec (x_nonce t))) (VTx t) in
  let s2 := kset s1 (nid_key (udec (x_cron t) ++ udec (x_nonce t))) VMark in
  let s3 := kset s2 (x_hash t) (VNonce (x_nonce t)) in
  kset s3 (b_key (udec (x_block t))) (VHashes (block_hashes s3 (x_block t) ++ [x_hash t])).
(* archive_tx.go:238-243 StoreArchiveCron *)
Definition archive (s : store) (id : Z) : store := kset s (udec id) (VCron id).
Inductive op := Put (t : tx) | Archive (id : Z).
Definition step (s : store) (o : op) : store := match o with Put t => put s t | Archive id => archive s id end.
Definition run (l : list op) : store := fold_left step l [].

(* archive_tx.go:14-23 GetArchivedCron *)
Definition archived (s : store) (id : Z) : bool := match kget s (udec id) with Some (VCron _) => true | _ => false end.
(* archive_tx.go:36-44 GetCronTransactionResultByNonce *)
Definition by_text (s : store) (k : bytes) : option tx := match kget s (tx_key k) with Some (VTx t) => Some t | _ => None end.
Definition by_nonce (s : store) (n : Z) : option tx := by_text s (udec n).
(* archive_tx.go:298-305 GetTxNonceByHash, 57-63 GetCronTransactionResultByHash *)
Definition by_hash (s : store) (h : bytes) : option tx := match kget s h with Some (VNonce n) => by_nonce s n | _ => None end.
Definition found {A B} (f : A -> option B) (l : list A) : list B := flat_map (fun a => match f a with Some b => [b] | None => [] end) l.
(* archive_tx.go:65-83 GetCronTransactionResultsByBlockNumber: the loop ends at 100 *)
Definition by_block (s : store) (b : Z) : list tx := firstn 100 (found (by_hash s) (block_hashes s b)).
(* the keys under a prefix, without it, in order; all pages together *)
Definition under (s : store) (p : bytes) : list bytes := map (fun q : bytes * val => skipn (length p) (fst q)) (filter (fun q => has_prefix p (fst q)) s).
(* grpc_query_cron.go:309-345 QueryGetCronTransactionsByPageAndSize *)
Definition txs_of (s : store) (id : Z) : list tx := found (by_text s) (under s (nid_key (udec id))).
(* grpc_query_cron.go:233-271 QueryGetCronTransactionReceiptsByPageAndSize *)
Definition receipts_of (s : store) (id : Z) : list tx := found (by_text s) (under s (r_key (udec id))).
(* grpc_query_cron.go:451-475 QueryGetAllCronTransactionsByPageAndSize *)
Definition all_txs (s : store) : list tx := found (by_text s) (under s (tx_key [])).
