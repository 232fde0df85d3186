(* The outgoing transfer pool of the bridge: queueing, cancelling, batching,
   executing and refunding transfers, and the coins that move with them.

   Modelled: x/hyperion/keeper/pool.go, keeper/batch.go, the clean-up half of
   abci.go, the message handlers that reach them, and the deposit and withdraw
   branches of keeper/attestation_handler.go.

   Simplifications that hold throughout:
   - Store keys are structured tuples.  That the byte keys of the code are
     unambiguous and that its scans visit exactly the records meant is proved in
     Hyperion/PropsKeys.v (C38, C39).
   - Counters and heights are unbounded integers.
   - Bank accounts are a total function from address and denomination to the
     spendable balance; vesting locks are outside.
   - Events, metrics, logs and the finalized-transfer archive are left out.
   - A scan that deletes while it iterates is a scan over the state at its start. *)
From Verif Require Import Lib.Base Lib.Bytes.
From Coq Require Import String Ascii.
Open Scope list_scope.
Open Scope Z_scope.

(* Characters of a Go string as bytes. *)
Definition ascii_bytes (s : string) : bytes :=
  map (fun c => N_of_ascii c) (list_ascii_of_string s).

(* pool.go:31, sdk.DefaultBondDenom (helios-chain/app config): the fee coin. *)
Definition ahelios : bytes := ascii_bytes "ahelios"%string.
(* types.ModuleName and the distribution module: the two module accounts involved.
   Addresses are opaque byte strings here. *)
Definition mod_acc : bytes := ascii_bytes "hyperion"%string.
Definition comm_acc : bytes := ascii_bytes "distribution"%string.

(* types.OutgoingTransferTx (pool.go:88-97).  Fee.Contract always equals
   Token.Contract (pool.go:83,93), so one field [t_token] stands for both.  TxHash left out. *)
Record tx := mk_tx {
  t_id : Z;
  t_h : Z;            (* HyperionId *)
  t_sender : bytes;
  t_dest : bytes;
  t_token : bytes;    (* 20-byte contract *)
  t_amount : Z;
  t_fee : Z;
  t_timeout : Z
}.

(* types.OutgoingTxBatch (batch.go:66-72). *)
Record batch := mk_batch {
  b_nonce : Z;
  b_h : Z;
  b_token : bytes;
  b_txs : list tx;
  b_timeout : Z;
  b_block : Z
}.

(* Key of the fee index (types/key.go GetFeeSecondIndexKey): bridge, token, fee. *)
Definition fkey : Type := (Z * bytes * Z)%type.

Definition fkey_cmp (a b : fkey) : comparison :=
  let '(h, t, f) := a in
  let '(h', t', f') := b in
  match h ?= h' with
  | Eq => match bcmp t t' with Eq => f ?= f' | c => c end
  | c => c
  end.

Record st := mk_st {
  p_pool : list tx;                      (* OutgoingTXPoolKey ++ h ++ id *)
  p_index : list (fkey * list Z);        (* SecondIndexOutgoingTXFeeKey, ascending *)
  p_batches : list batch;                (* OutgoingTXBatchKey ++ h ++ nonce ++ token, ascending *)
  p_txid : Z;                            (* KeyLastTXPoolID, shared by all bridges *)
  p_batchid : Z -> Z;                    (* KeyLastOutgoingBatchID ++ h *)
  p_bal : bytes -> bytes -> Z;           (* bank: address, denomination *)
  p_supply : bytes -> Z;                 (* bank: total supply *)
  p_locked : Z -> bytes -> Z             (* contract balance kept in the denom metadata *)
}.

(* What a step reads from the rest of the chain. *)
Record env := mk_env {
  e_block : Z;                                  (* ctx.BlockHeight *)
  e_by_denom : Z -> bytes -> option (bytes * bool);   (* GetTokenFromDenom: contract, cosmos-originated *)
  e_by_token : Z -> bytes -> option (bytes * bool);   (* GetTokenFromAddress: denom, cosmos-originated *)
  e_new_denom : Z -> bytes -> option (bytes * bool);  (* CreateOrLinkTokenToChain: denom, pair created *)
  e_eth : Z -> Z;                               (* GetProjectedCurrentEthereumHeight *)
  e_wait_batch : Z -> Z;                        (* TargetBatchTimeout / AverageCounterpartyBlockTime *)
  e_wait_tx : Z -> Z;                           (* TargetOutgoingTxTimeout / AverageCounterpartyBlockTime *)
  e_paused : Z -> bool;
  e_min_fee : Z -> option Z;                    (* lowest fee of a validator *)
  e_blocked : bytes -> bool;                    (* bank BlockedAddr *)
  e_bad_dest : bytes -> bool                    (* InvalidSendToChainAddress *)
}.

Definition set_bank (s : st) (bal : bytes -> bytes -> Z) (sup : bytes -> Z) : st :=
  mk_st (p_pool s) (p_index s) (p_batches s) (p_txid s) (p_batchid s) bal sup (p_locked s).
Definition set_locked (s : st) (l : Z -> bytes -> Z) : st :=
  mk_st (p_pool s) (p_index s) (p_batches s) (p_txid s) (p_batchid s) (p_bal s) (p_supply s) l.
Definition set_pool (s : st) (x : list tx) : st :=
  mk_st x (p_index s) (p_batches s) (p_txid s) (p_batchid s) (p_bal s) (p_supply s) (p_locked s).
Definition set_index (s : st) (x : list (fkey * list Z)) : st :=
  mk_st (p_pool s) x (p_batches s) (p_txid s) (p_batchid s) (p_bal s) (p_supply s) (p_locked s).
Definition set_batches (s : st) (x : list batch) : st :=
  mk_st (p_pool s) (p_index s) x (p_txid s) (p_batchid s) (p_bal s) (p_supply s) (p_locked s).
Definition set_txid (s : st) (x : Z) : st :=
  mk_st (p_pool s) (p_index s) (p_batches s) x (p_batchid s) (p_bal s) (p_supply s) (p_locked s).
Definition set_batchid (s : st) (h x : Z) : st :=
  mk_st (p_pool s) (p_index s) (p_batches s) (p_txid s)
        (fun h' => if h' =? h then x else p_batchid s h') (p_bal s) (p_supply s) (p_locked s).

(* ---- bank ------------------------------------------------------------- *)

Definition badd (bal : bytes -> bytes -> Z) (a d : bytes) (x : Z) : bytes -> bytes -> Z :=
  fun a' d' => if beqb a' a && beqb d' d then bal a' d' + x else bal a' d'.
Definition sadd (sup : bytes -> Z) (d : bytes) (x : Z) : bytes -> Z :=
  fun d' => if beqb d' d then sup d' + x else sup d'.

(* bank SendCoins of one valid coin: the amount must be positive and covered. *)
Definition move (s : st) (a b d : bytes) (x : Z) : option st :=
  if (0 <? x) && (x <=? p_bal s a d)
  then Some (set_bank s (badd (badd (p_bal s) a d (- x)) b d x) (p_supply s))
  else None.

(* The same for [sdk.NewCoins(coin)]: a zero coin is dropped and nothing moves;
   a negative one panics, which the callers see as a failure. *)
Definition move0 (s : st) (a b d : bytes) (x : Z) : option st :=
  if x =? 0 then Some s else move s a b d x.

(* bank SendCoinsFromModuleToAccount: refuses blocked recipients. *)
Definition pay (e : env) (s : st) (b d : bytes) (x : Z) : option st :=
  if e_blocked e b then None else move0 s mod_acc b d x.

(* bank MintCoins / BurnCoins on the module account. *)
Definition mint (s : st) (d : bytes) (x : Z) : st :=
  set_bank s (badd (p_bal s) mod_acc d x) (sadd (p_supply s) d x).
Definition burn (s : st) (d : bytes) (x : Z) : option st :=
  if x <=? p_bal s mod_acc d
  then Some (set_bank s (badd (p_bal s) mod_acc d (- x)) (sadd (p_supply s) d (- x)))
  else None.

(* tokens.go:387-419 Get/SetHyperionContractBalance *)
Definition lock_add (s : st) (h : Z) (t : bytes) (x : Z) : st :=
  set_locked s (fun h' t' => if (h' =? h) && beqb t' t then p_locked s h' t' + x else p_locked s h' t').

(* ---- pool entries ------------------------------------------------------ *)

Definition is_entry (h i : Z) (t : tx) : bool := (t_h t =? h) && (t_id t =? i).

(* pool.go:347-367 GetPoolEntry *)
Definition pget (s : st) (h i : Z) : option tx := find (is_entry h i) (p_pool s).
(* pool.go:371-377 removePoolEntry *)
Definition pdel (s : st) (h i : Z) : st :=
  set_pool s (filter (fun t => negb (is_entry h i t)) (p_pool s)).
(* pool.go:330-343 setPoolEntry *)
Definition pput (s : st) (t : tx) : st :=
  set_pool s (t :: filter (fun t' => negb (is_entry (t_h t) (t_id t) t')) (p_pool s)).

(* ---- the fee index ------------------------------------------------------ *)

(* Read-modify-write of one record; a record that becomes empty is deleted. *)
Fixpoint iupd (k : fkey) (f : list Z -> list Z) (ix : list (fkey * list Z)) : list (fkey * list Z) :=
  match ix with
  | [] => match f [] with [] => [] | l => [(k, l)] end
  | (k', ids) :: r =>
      match fkey_cmp k k' with
      | Lt => match f [] with [] => ix | l => (k, l) :: ix end
      | Eq => match f ids with [] => r | l => (k, l) :: r end
      | Gt => (k', ids) :: iupd k f r
      end
  end.

Fixpoint iget (k : fkey) (ix : list (fkey * list Z)) : list Z :=
  match ix with
  | [] => []
  | (k', ids) :: r => match fkey_cmp k k' with Eq => ids | _ => iget k r end
  end.

(* pool.go:304-312: the first occurrence is cut out. *)
Fixpoint remove1 (i : Z) (l : list Z) : list Z :=
  match l with
  | [] => []
  | j :: r => if j =? i then r else j :: remove1 i r
  end.

Definition has (i : Z) (l : list Z) : bool := existsb (fun j => j =? i) l.

(* pool.go:247-260 appendToUnbatchedTXIndex; 263-277 prependToUnbatchedTXIndex *)
Definition index_append (s : st) (k : fkey) (i : Z) : st :=
  set_index s (iupd k (fun l => l ++ [i]) (p_index s)).
Definition index_prepend (s : st) (k : fkey) (i : Z) : st :=
  set_index s (iupd k (fun l => i :: l) (p_index s)).
(* pool.go:283-316 removeFromUnbatchedTXIndex *)
Definition index_remove (s : st) (k : fkey) (i : Z) : option st :=
  if has i (iget k (p_index s))
  then Some (set_index s (iupd k (remove1 i) (p_index s)))
  else None.

(* pool.go:381-408 GetPoolTransactions: the fee index of the bridge in descending
   order.  [tx.HyperionId] is read before the error is looked at, so an id without
   an entry dereferences nil. *)
Fixpoint entries (s : st) (h : Z) (ids : list Z) : res (list tx) :=
  match ids with
  | [] => Ok []
  | i :: r =>
      match pget s h i with
      | None => Panic
      | Some t => rbind (entries s h r) (fun l => Ok (t :: l))
      end
  end.

Definition index_ids (p : fkey -> bool) (ix : list (fkey * list Z)) : list Z :=
  flat_map snd (rev (filter (fun e => p (fst e)) ix)).

Definition of_bridge (h : Z) (k : fkey) : bool := let '(h', _, _) := k in h' =? h.
Definition of_token (h : Z) (t : bytes) (k : fkey) : bool :=
  let '(h', t', _) := k in (h' =? h) && beqb t' t.

Definition pool_txs (s : st) (h : Z) : res (list tx) :=
  entries s h (index_ids (of_bridge h) (p_index s)).

(* pool.go:442-470 IterateOnSpecificalTokenContractOutgoingPoolByFee: ids without an
   entry are skipped. *)
Fixpoint found (s : st) (h : Z) (ids : list Z) : list tx :=
  match ids with
  | [] => []
  | i :: r => match pget s h i with None => found s h r | Some t => t :: found s h r end
  end.

Definition token_txs (s : st) (h : Z) (token : bytes) : list tx :=
  found s h (index_ids (of_token h token) (p_index s)).

(* ---- batches ------------------------------------------------------------- *)

Definition is_batch (h n : Z) (t : bytes) (b : batch) : bool :=
  (b_h b =? h) && (b_nonce b =? n) && beqb (b_token b) t.

Definition bkey_ltb (a b : batch) : bool :=
  (b_h a <? b_h b)
  || ((b_h a =? b_h b) && ((b_nonce a <? b_nonce b)
      || ((b_nonce a =? b_nonce b) && bltb (b_token a) (b_token b)))).

Fixpoint binsert (b : batch) (l : list batch) : list batch :=
  match l with
  | [] => [b]
  | c :: r =>
      if is_batch (b_h b) (b_nonce b) (b_token b) c then b :: r
      else if bkey_ltb b c then b :: l else c :: binsert b r
  end.

(* batch.go:324-344 GetOutgoingTXBatch *)
Definition bget (s : st) (h n : Z) (t : bytes) : option batch :=
  find (is_batch h n t) (p_batches s).
(* batch.go:230-242 StoreBatch (the block index is left out here) *)
Definition bput (s : st) (b : batch) : st := set_batches s (binsert b (p_batches s)).
(* batch.go:263-271 DeleteBatch *)
Definition bdel (s : st) (h n : Z) (t : bytes) : st :=
  set_batches s (filter (fun b => negb (is_batch h n t b)) (p_batches s)).

(* batch.go:375-392, 414-426 GetOutgoingTxBatches: descending keys *)
Definition batches_of (s : st) (h : Z) : list batch :=
  rev (filter (fun b => b_h b =? h) (p_batches s)).

(* batch.go:441-459 GetLastOutgoingBatchByTokenType *)
Definition last_batch (s : st) (h : Z) (token : bytes) : option batch :=
  snd (fold_left
    (fun acc b => if beqb (b_token b) token && (fst acc <? b_nonce b) then (b_nonce b, Some b) else acc)
    (batches_of s h) (0, None)).

(* types/types.go:265-271 GetFees: the result of sum.Add is dropped. *)
Definition get_fees (b : batch) : Z :=
  fold_left (fun sum (_ : tx) => sum) (b_txs b) 0.

(* ---- fee quotes ------------------------------------------------------------ *)

(* batch.go:19 *)
Definition batch_size : nat := 100.

(* pool.go:527-586 createBatchFees for one token: ascending fees, at most
   [batch_size] of them, records below the minimum skipped.  None: no entry in the map. *)
Fixpoint quote_group (f : Z) (ids : list Z) (n : nat) (acc : option Z) : nat * option Z :=
  match ids with
  | [] => (n, acc)
  | _ :: r =>
      if (batch_size <=? n)%nat then (n, acc)
      else quote_group f r (S n) (Some (match acc with Some a => a + f | None => f end))
  end.

Fixpoint quote_loop (min : Z) (gs : list (Z * list Z)) (n : nat) (acc : option Z) : option Z :=
  match gs with
  | [] => acc
  | (f, ids) :: r =>
      if f <? min then quote_loop min r n acc
      else let '(n', acc') := quote_group f ids n acc in quote_loop min r n' acc'
  end.

Definition fee_groups (ix : list (fkey * list Z)) (h : Z) (token : bytes) : list (Z * list Z) :=
  map (fun e => (snd (fst e), snd e)) (filter (fun e => of_token h token (fst e)) ix).

(* pool.go:477-485 GetBatchFeesByTokenType *)
Definition quote (s : st) (h : Z) (token : bytes) (min : Z) : option Z :=
  quote_loop min (fee_groups (p_index s) h token) 0 None.

(* pool.go:588-669 createBatchFeesOrderedByFee for one token: [potentialBatchsMap] is
   never written, so every id below the limit replaces the record with the whole id set
   of its group and a single fee.  Result: total fees, ids, fees. *)
Definition insert_desc (f : Z) : list Z -> list Z :=
  fix ins l := match l with [] => [f] | g :: r => if g <? f then f :: l else g :: ins r end.
Definition sort_desc (l : list Z) : list Z := fold_left (fun acc f => insert_desc f acc) l [].

Fixpoint quote_ids_group (f : Z) (all ids : list Z) (n : nat) (acc : option (Z * list Z * list Z))
  : nat * option (Z * list Z * list Z) :=
  match ids with
  | [] => (n, acc)
  | i :: r =>
      if (batch_size <=? n)%nat then
        let acc' :=
          match acc with
          | Some (total, l, fees) =>
              let fees := sort_desc fees in
              match fees with
              | g :: _ => if g <? f then Some (total, l ++ [i], fees ++ [f]) else Some (total, l, fees)
              | [] => Some (total, l, fees)
              end
          | None => None
          end in
        quote_ids_group f all r n acc'
      else quote_ids_group f all r (S n) (Some (f, all, [f]))
  end.

Fixpoint quote_ids_loop (min : Z) (gs : list (Z * list Z)) (n : nat) (acc : option (Z * list Z * list Z))
  : option (Z * list Z * list Z) :=
  match gs with
  | [] => acc
  | (f, ids) :: r =>
      if f <? min then quote_ids_loop min r n acc
      else let '(n', acc') := quote_ids_group f ids ids n acc in quote_ids_loop min r n' acc'
  end.

(* pool.go:506-524 GetAllBatchFeesWithIds, one token *)
Definition quote_ids (s : st) (h : Z) (token : bytes) (min : Z) : option (Z * list Z * list Z) :=
  quote_ids_loop min (fee_groups (p_index s) h token) 0 None.

(* ---- queueing --------------------------------------------------------------- *)

Definition ores {A} (o : option A) : res A := match o with Some a => Ok a | None => Err end.

(* msg_server_hyperion.go:125-205 SendToChain and pool.go:27-108 AddToOutgoingPool.
   The chain id of the message is the bridge [h].  Order of the checks kept. *)
Definition send (e : env) (s : st) (h : Z) (sender dest denom : bytes) (amount : Z) (feed : bytes) (fee : Z)
  : res (st * Z) :=
  match e_min_fee e h with
  | None => Err
  | Some low =>
      if negb (beqb feed ahelios) then Err
      else if fee <? low then Err
      else if e_bad_dest e dest then Err
      else if e_paused e h then Err
      else
        match e_by_denom e h denom with
        | None => Err
        | Some (token, orig) =>
            let s1 := if (orig : bool) then lock_add s h token amount else s in
            rbind (ores (move s1 sender mod_acc denom amount)) (fun s2 =>
            rbind (ores (burn s2 denom amount)) (fun s3 =>
            rbind (ores (move0 s3 sender mod_acc ahelios fee)) (fun s4 =>
            let i := p_txid s4 + 1 in
            let t := mk_tx i h sender dest token amount fee (e_eth e h + e_wait_tx e h) in
            let s5 := pput (set_txid s4 i) t in
            Ok (index_append s5 (h, token, fee) i, i))))
        end
  end.

(* ---- refunding ---------------------------------------------------------------- *)

(* pool.go:127-244 RemoveFromOutgoingPoolAndRefund.  [Err]: an error before anything was
   written.  [Ok (s', false)]: an error after the transfer was taken out; a message handler
   discards [s'], the clean-ups keep it. *)
Definition refund (e : env) (s : st) (h i : Z) (sender : bytes) : res (st * bool) :=
  match pget s h i with
  | None => Err
  | Some t =>
      if negb (beqb sender (t_sender t)) then Err
      else
        rbind (pool_txs s (t_h t)) (fun l =>
        if negb (existsb (fun t' => t_id t' =? i) l) then Err
        else
          match index_remove s (t_h t, t_token t, t_fee t) i with
          | None => Err
          | Some s1 =>
              let s2 := pdel s1 (t_h t) i in
              match e_by_token e (t_h t) (t_token t) with
              | None => Ok (s2, false)
              | Some (denom, orig) =>
                  if (orig : bool) && (p_locked s2 (t_h t) (t_token t) <? t_amount t) then Ok (s2, false)
                  else
                    let s3 := if orig then lock_add s2 (t_h t) (t_token t) (- t_amount t) else s2 in
                    let s4 := mint s3 denom (t_amount t) in
                    match pay e s4 sender denom (t_amount t) with
                    | None => Ok (s4, false)
                    | Some s5 =>
                        match pay e s5 sender ahelios (t_fee t) with
                        | None => Ok (s5, true)
                        | Some s6 => Ok (s6, true)
                        end
                    end
              end
          end)
  end.

(* msg_server_helios.go:411-440 CancelSendToChain: all or nothing. *)
Definition cancel_send (e : env) (s : st) (h i : Z) (sender : bytes) : res st :=
  rbind (refund e s h i sender) (fun '(s', ok) => if (ok : bool) then Ok s' else Err).

(* A refund inside a clean-up: errors are logged, what was written stays. *)
Definition refund_kept (e : env) (s : st) (t : tx) : res st :=
  match refund e s (t_h t) (t_id t) (t_sender t) with
  | Ok (s', _) => Ok s'
  | Err => Ok s
  | Panic => Panic
  end.

Fixpoint refund_all (e : env) (s : st) (p : st -> tx -> bool) (l : list tx) : res st :=
  match l with
  | [] => Ok s
  | t :: r => if p s t then rbind (refund_kept e s t) (fun s' => refund_all e s' p r)
              else refund_all e s p r
  end.

(* ---- batching ------------------------------------------------------------------ *)

(* batch.go:283-309 pickUnbatchedTX over the transfers the scan yields. *)
Fixpoint pick (s : st) (h : Z) (token : bytes) (l : list tx) (n : nat) : st * list tx :=
  match l, n with
  | [], _ => (s, [])
  | _, O => (s, [])
  | t :: r, S n' =>
      match index_remove s (h, token, t_fee t) (t_id t) with
      | None => (s, [t])
      | Some s' => let '(s'', sel) := pick s' h token r n' in (s'', t :: sel)
      end
  end.

Definition store_new (e : env) (s : st) (h : Z) (token : bytes) (sel : list tx) : st * batch :=
  let n := p_batchid s h + 1 in
  let b := mk_batch n h token sel (e_eth e h + e_wait_batch e h) (e_block e) in
  (bput (set_batchid s h n) b, b).

(* batch.go:28-80 BuildOutgoingTXBatch with maxElements = 100 *)
Definition build (e : env) (s : st) (h : Z) (token : bytes) : res (st * batch) :=
  let allowed :=
    match last_batch s h token with
    | None => true
    | Some b =>
        match quote s h token 0 with
        | None => false
        | Some current => negb (current <? get_fees b)
        end
    end in
  if negb allowed then Err
  else
    let '(s1, sel) := pick s h token (token_txs s h token) batch_size in
    match sel with
    | [] => Err
    | _ => Ok (store_new e s1 h token sel)
    end.

(* msg_server_hyperion.go:219-258 RequestBatch *)
Definition request_batch (e : env) (s : st) (h : Z) (denom : bytes) : res (st * batch) :=
  match e_by_denom e h denom with
  | None => Err
  | Some (token, _) => build e s h token
  end.

(* batch.go:311-341 pickUnbatchedTXWithIds *)
Fixpoint pick_ids (s : st) (h : Z) (token : bytes) (ids : list Z) (n : nat) : res (st * list tx) :=
  match ids, n with
  | [], _ => Ok (s, [])
  | _, O => Ok (s, [])
  | i :: r, S n' =>
      match pget s h i with
      | None => Err
      | Some t =>
          match index_remove s (h, token, t_fee t) i with
          | None => Err
          | Some s' => rbind (pick_ids s' h token r n') (fun '(s'', sel) => Ok (s'', t :: sel))
          end
      end
  end.

(* batch.go:82-113 BuildOutgoingTXBatchWithIds, msg_server_hyperion.go:260-310
   RequestBatchWithMinimumFee.  The orchestrator checks are outside. *)
Definition request_ids (e : env) (s : st) (h : Z) (denom : bytes) (ids : list Z) : res (st * batch) :=
  match e_by_denom e h denom with
  | None => Err
  | Some (token, _) =>
      rbind (pick_ids s h token ids batch_size) (fun '(s1, sel) =>
      match sel with
      | [] => Err
      | _ => Ok (store_new e s1 h token sel)
      end)
  end.

Fixpoint put_back (s : st) (h : Z) (token : bytes) (l : list tx) : st :=
  match l with
  | [] => s
  | t :: r => put_back (index_prepend s (h, token, t_fee t) (t_id t)) h token r
  end.

(* batch.go:347-373 CancelOutgoingTXBatch *)
Definition cancel_batch (s : st) (h n : Z) (token : bytes) : option st :=
  match bget s h n token with
  | None => None
  | Some b => Some (bdel (put_back s h token (b_txs b)) (b_h b) (b_nonce b) (b_token b))
  end.

(* Cancelling a list of batches, errors logged. *)
Fixpoint cancel_batches (s : st) (l : list batch) : st :=
  match l with
  | [] => s
  | b :: r =>
      cancel_batches (match cancel_batch s (b_h b) (b_nonce b) (b_token b) with Some s' => s' | None => s end) r
  end.

Definition fees_of (l : list tx) : Z := fold_left (fun sum t => sum + t_fee t) l 0.

Fixpoint pdel_all (s : st) (l : list tx) : st :=
  match l with
  | [] => s
  | t :: r => pdel_all (pdel s (t_h t) (t_id t)) r
  end.

(* batch.go:131-228 OutgoingTxBatchExecuted.  A batch that does not exist is ignored.
   A cancellation inside cannot fail: the batch was just listed. *)
Definition executed (e : env) (s : st) (h n : Z) (token orch : bytes) : res st :=
  match bget s h n token with
  | None => Ok s
  | Some b =>
      let s1 := pdel_all s (b_txs b) in
      let s2 := cancel_batches s1
                  (filter (fun c => (b_nonce c <? b_nonce b) && beqb (b_token c) token) (batches_of s1 h)) in
      let s3 := bdel s2 (b_h b) (b_nonce b) (b_token b) in
      match pay e s3 orch ahelios (fees_of (b_txs b)) with
      | None => Panic
      | Some s4 => Ok s4
      end
  end.

(* ---- deposits --------------------------------------------------------------------- *)

(* attestation_handler.go:45-144, deposit branch.  [receiver]: None for an address that does
   not parse or a blacklisted sender.  An error leaves the state as it was (the handler runs
   in a cached context).  A token seen for the first time is created; creating its ERC-20 pair
   mints one unit to the module (tokens.go, erc20 keeper). *)
Definition deposit (e : env) (s : st) (h : Z) (token : bytes) (amount : Z) (receiver : option bytes) : res st :=
  let '(s0, tok) :=
    match e_by_token e h token with
    | Some x => (s, Some x)
    | None =>
        match e_new_denom e h token with
        | None => (s, None)
        | Some (d, fresh) => (if (fresh : bool) then mint s d 1 else s, Some (d, false))
        end
    end in
  match tok with
  | None => Err
  | Some (denom, orig) =>
      let s1 :=
        if (orig : bool) then
          if p_locked s0 h token <? amount then None else Some (lock_add s0 h token (- amount))
        else if 2 ^ 256 <=? p_supply s0 denom + amount then None else Some s0 in
      match s1 with
      | None => Err
      | Some s1 =>
          if amount <=? 0 then Err
          else
            let s2 := mint s1 denom amount in
            let sent := match receiver with Some a => pay e s2 a denom amount | None => None end in
            match sent with
            | Some s3 => Ok s3
            | None => ores (move s2 mod_acc comm_acc denom amount)
            end
      end
  end.

(* ---- clean-ups ----------------------------------------------------------------------- *)

Definition in_batch (s : st) (h : Z) (t : tx) : bool :=
  existsb (fun b => existsb (fun t' => t_id t' =? t_id t) (b_txs b)) (batches_of s h).

(* abci.go:276-293 cleanupTimedOutBatches *)
Definition timeout_batches (e : env) (s : st) (h : Z) : st :=
  cancel_batches s (filter (fun b => (b_timeout b <? e_eth e h) || e_paused e h) (batches_of s h)).

(* abci.go:295-324 cleanupTimedOutOutgoingTx *)
Definition timeout_txs (e : env) (s : st) (h : Z) : res st :=
  rbind (pool_txs s h) (fun l =>
  refund_all e s (fun s t => ((t_timeout t <? e_eth e h) || e_paused e h) && negb (in_batch s h t)) l).

(* keeper.go:1548-1580 CleanAllBatchesAndTxs; msg_server_testnet.go:679-733
   CancelAllPendingOutgoingTxs *)
Definition clean_all (e : env) (s : st) (h : Z) : res st :=
  let s1 := cancel_batches s (batches_of s h) in
  rbind (pool_txs s1 h) (fun l => refund_all e s1 (fun s t => negb (in_batch s h t)) l).

(* msg_server_testnet.go:735-767 CancelPendingOutgoingTxs *)
Definition cancel_some (e : env) (s : st) (h : Z) (n : nat) : res st :=
  rbind (pool_txs s h) (fun l => refund_all e s (fun _ _ => true) (firstn n l)).

(* msg_server_testnet.go:172-216 DeleteChain: DeleteBatchs (batch.go:273-281),
   CleanPoolTransactions (pool.go:110-124), SetLastOutgoingBatchID 0.  SetLastOutgoingPoolID
   writes a key no counter reads (pool.go:746-754 against 75). *)
Definition delete_chain (e : env) (s : st) (h : Z) : res st :=
  let s1 := set_batches s (filter (fun b => negb (b_h b =? h)) (p_batches s)) in
  rbind (pool_txs s1 h) (fun l =>
  rbind (refund_all e s1 (fun _ _ => true) l) (fun s2 => Ok (set_batchid s2 h 0))).

(* ---- histories ------------------------------------------------------------------------ *)

Inductive step :=
| Send (h : Z) (sender dest denom : bytes) (amount : Z) (feed : bytes) (fee : Z)
| CancelSend (h i : Z) (sender : bytes)
| RequestBatch (h : Z) (denom : bytes)
| RequestIds (h : Z) (denom : bytes) (ids : list Z)
| Withdraw (h n : Z) (token orch : bytes)
| Deposit (h : Z) (token : bytes) (amount : Z) (receiver : option bytes)
| TimeoutBatches (h : Z)
| TimeoutTxs (h : Z)
| CleanAll (h : Z)
| CancelSome (h : Z) (n : nat)
| ExternalData (h : Z)                    (* external_data.go:37 takes a batch number *)
| SetLastBatchNonce (h n : Z)             (* msg_server_testnet.go:866-893 *)
| UpdateContract (h : Z)                  (* msg_server_testnet.go:45-116: batch counter to 0; the
                                             clean-up follows in EndBlock, as [CleanAll] *)
| DeleteChain (h : Z)
| Transfer (a b d : bytes) (x : Z).       (* any other bank transfer *)

Definition fst_of {A B} (r : res (A * B)) : res A := rbind r (fun x => Ok (fst x)).

(* One step of the chain.  Err: rejected, nothing written.  Panic: inside a message it is
   caught and the message rejected, inside EndBlock it stops the node. *)
Definition exec (e : env) (s : st) (c : step) : res st :=
  match c with
  | Send h a dst d x fd f => fst_of (send e s h a dst d x fd f)
  | CancelSend h i a => cancel_send e s h i a
  | RequestBatch h d => fst_of (request_batch e s h d)
  | RequestIds h d ids => fst_of (request_ids e s h d ids)
  | Withdraw h n t o => executed e s h n t o
  | Deposit h t x r => deposit e s h t x r
  | TimeoutBatches h => Ok (timeout_batches e s h)
  | TimeoutTxs h => timeout_txs e s h
  | CleanAll h => clean_all e s h
  | CancelSome h n => cancel_some e s h n
  | ExternalData h => Ok (set_batchid s h (p_batchid s h + 1))
  | SetLastBatchNonce h n => if n <? p_batchid s h + 1 then Err else Ok (set_batchid s h n)
  | UpdateContract h => Ok (set_batchid s h 0)
  | DeleteChain h => delete_chain e s h
  | Transfer a b d x => ores (move s a b d x)
  end.

Fixpoint run (s : st) (l : list (env * step)) : res st :=
  match l with
  | [] => Ok s
  | (e, c) :: r =>
      match exec e s c with
      | Ok s' => run s' r
      | Err => run s r
      | Panic => Panic
      end
  end.
