(* Exporting the bridge to genesis and starting a chain from it: transfers and batches.
   x/hyperion/keeper/genesis.go, pool.go, batch.go. *)
From Verif Require Import Lib.Base Lib.Bytes Hyperion.Pool.
Open Scope list_scope.
Open Scope Z_scope.

(* The fields of GenesisHyperionState about transfers, types/genesis.pb.go *)
Record pool_sub := mk_sub {
  g_h : Z;
  g_batches : list batch;
  g_waiting : list tx;       (* UnbatchedTransfers *)
  g_batch_id : Z;            (* LastOutgoingBatchId *)
  g_pool_id : Z              (* LastOutgoingPoolId *)
}.

(* genesis.go:169-245 ExportGenesis for one counterparty chain.  GetLastOutgoingPoolID
   (pool.go:746-754) reads KeyLastTXPoolID ++ h, which is only ever written with 0 or with
   an imported value of this very field; transfers are numbered under KeyLastTXPoolID. *)
Definition export_pool (s : st) (h : Z) : res pool_sub :=
  rbind (pool_txs s h) (fun l => Ok (mk_sub h (batches_of s h) l (p_batchid s h) 0)).

Fixpoint export_pools (s : st) (hs : list Z) : res (list pool_sub) :=
  match hs with
  | [] => Ok []
  | h :: r => rbind (export_pool s h) (fun g => rbind (export_pools s r) (fun l => Ok (g :: l)))
  end.

(* batch.go:231-248 StoreBatchUnsafe (the block index is left out, as in [bput]) *)
Definition store_batch (s : st) (b : batch) : st := fold_left pput (b_txs b) (bput s b).

(* genesis.go:71-118 InitGenesis for one sub-state.  Writing the pool id under
   KeyLastTXPoolID ++ h changes nothing that is read outside genesis. *)
Definition import_pool (s : st) (g : pool_sub) : st :=
  let s := fold_left store_batch (filter (fun b => b_h b =? g_h g) (g_batches g)) s in
  let s := fold_left pput (filter (fun t => t_h t =? g_h g) (g_waiting g)) s in
  set_batchid s (g_h g) (g_batch_id g).

(* A chain with nothing but the coins and the denom metadata, which x/bank exports and
   imports.  Simplified: no default tokens are linked (genesis.go:58-62). *)
Definition new_chain (s : st) : st :=
  mk_st [] [] [] 0 (fun _ => 0) (p_bal s) (p_supply s) (p_locked s).

(* Export from [s] for the chains [hs] of the parameters and start again. *)
Definition restart (s : st) (hs : list Z) : res st :=
  rbind (export_pools s hs) (fun gs => Ok (fold_left import_pool gs (new_chain s))).
