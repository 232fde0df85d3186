(* The transaction indexer: indexer/kv_indexer.go and rpc/types/events.go. The database
   is the list of its writes, oldest first; every write sets both keys of one message
   (saveTxResult). Heights and numbers are non-negative, so the big-endian keys are
   distinct and ordered like the numbers. *)
From Verif Require Import Lib.Base Evmtx.Model.
Open Scope Z_scope.

Record entry := mk_entry { e_height : Z; e_tx : Z; e_msg : Z; e_eth : Z; e_used : Z; e_failed : bool; e_cum : Z }.

(* ---- rpc/types/events.go:79-170 ParseTxResult, event format 2 ---- *)
Record parsed := mk_parsed { p_hash : Z; p_eth : Z; p_used : Z; p_failed : bool }.
Fixpoint set_nth (n : nat) (x : parsed) (l : list parsed) : list parsed :=
  match l, n with
  | [], _ => []
  | _ :: r, O => x :: r
  | y :: r, Datatypes.S n' => y :: set_nth n' x r
  end.
Fixpoint parse_events (evs : list event) (done : nat) (acc : list parsed) : list parsed :=
  match evs with
  | [] => acc
  | EvHash h i :: r => parse_events r done (acc ++ [mk_parsed h i 0 false])
  | EvTx h i u f :: r => parse_events r (Datatypes.S done) (set_nth done (mk_parsed h i u f) acc)
  | EvLogs _ :: r => parse_events r done acc
  end.
(* events.go:120-126: the gas of a single message is the result's *)
Definition parse_ok (used : Z) (evs : list event) : list parsed :=
  match parse_events evs 0 [] with
  | [p] => [mk_parsed (p_hash p) (p_eth p) used (p_failed p)]
  | l => l
  end.

(* rpc/types/utils.go:447-461 TxSucessOrExpectedFailure *)
Definition expected (r : result) : bool :=
  match r with ROk _ _ | RFail KBlock _ | RFail KCommit _ => true | _ => false end.

(* kv_indexer.go:75-107, the messages of one transaction. Returns the writes and the next
   number. *)
Fixpoint index_msgs (h ti : Z) (ps : option (list parsed)) (ms : list msg) (mi eth cum : Z) : list (Z * entry) * Z :=
  match ms with
  | [] => ([], eth)
  | m :: r =>
      match ps with
      | None =>
          let cum' := cum + m_gas m in
          let '(ws, n) := index_msgs h ti ps r (mi + 1) (eth + 1) cum' in
          ((m_hash m, mk_entry h ti mi eth (m_gas m) true cum') :: ws, n)
      | Some l =>
          match nth_error l (Z.to_nat mi) with
          | None => index_msgs h ti ps r (mi + 1) eth cum
          | Some p =>
              let cum' := cum + p_used p in
              let '(ws, n) := index_msgs h ti ps r (mi + 1) (eth + 1) cum' in
              ((m_hash m, mk_entry h ti mi eth (p_used p) (p_failed p) cum') :: ws, n)
          end
      end
  end.
(* kv_indexer.go:48-115 IndexBlock *)
Fixpoint index_txs (h ti eth : Z) (xs : list (tx * list outcome)) (rs : list result) : list (Z * entry) :=
  match xs, rs with
  | (x, _) :: xs', r :: rs' =>
      if expected r then
        let ps := match r with ROk used evs => Some (parse_ok used evs) | _ => None end in
        let '(ws, n) := index_msgs h ti ps (x_msgs x) 0 eth 0 in
        ws ++ index_txs h (ti + 1) n xs' rs'
      else index_txs h (ti + 1) eth xs' rs'
  | _, _ => []
  end.
Definition db := list (Z * entry).
Definition index_block (d : db) (b : block) (r : block_result) : db :=
  d ++ index_txs (c_height (b_cfg b)) 0 0 (b_txs b) (br_results r).
Fixpoint index_chain (d : db) (bs : list block) (rs : list block_result) : db :=
  match bs, rs with
  | b :: bs', r :: rs' => index_chain (index_block d b r) bs' rs'
  | _, _ => d
  end.

(* kv_indexer.go:129-143 GetByTxHash *)
Definition by_hash (d : db) (hash : Z) : option entry :=
  match find (fun w => fst w =? hash) (List.rev d) with Some w => Some (snd w) | None => None end.
(* kv_indexer.go:146-156 GetByBlockAndIndex: the key holds the hash *)
Definition by_number (d : db) (h i : Z) : option entry :=
  match find (fun w => (e_height (snd w) =? h) && (e_eth (snd w) =? i)) (List.rev d) with
  | Some w => by_hash d (fst w)
  | None => None
  end.
(* kv_indexer.go:170-196 LoadLastBlock, LoadFirstBlock *)
Definition last_block (d : db) : Z := fold_right Z.max (-1) (map (fun w => e_height (snd w)) d).
Definition first_block (d : db) : Z :=
  match d with
  | [] => -1
  | w :: r => fold_right Z.min (e_height (snd w)) (map (fun w => e_height (snd w)) r)
  end.
