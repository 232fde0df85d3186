(* The record of finished transfers and the query that pages through transfers:
   x/hyperion/keeper/archive_tx.go, grpc_query_helios.go:329-655, types/key.go:360-410.
   Addresses are numbers: every caller of StoreFinalizedTx writes both addresses in the same
   checksummed form (pool.go:225, batch.go:183, external_data.go:109, abci.go:149). *)
From Verif Require Import Lib.Base Lib.Zmap.
Open Scope Z_scope.

Record ftx := mk_ftx { f_from : Z; f_to : Z; f_data : Z; f_index : Z }.
Definition with_index (x : ftx) (i : Z) : ftx := mk_ftx (f_from x) (f_to x) (f_data x) i.

(* one store: the transfers of an address by number (keys are the address, then the number
   in 8 bytes or 20 digits, so they are ordered by number), and the list of recent ones *)
Record store := mk_store { by_addr : Z -> list (Z * ftx); recent : list ftx }.
(* the ordinary store and, above the update height, the archive store *)
Record arch := mk_arch { a_old : store; a_new : store }.
Definition no_store : store := mk_store (fun _ => []) [].
Definition no_arch : arch := mk_arch no_store no_store.
(* testnet/testnet.go:4 TESTNET_BLOCK_NUMBER_UPDATE_0 = 34800 *)
Section Code.
Variable update : Z.
Definition side (s : arch) (h : Z) : store := if update <? h then a_new s else a_old s.
Definition with_side (s : arch) (h : Z) (x : store) : arch := if update <? h then mk_arch (a_old s) x else mk_arch x (a_new s).

(* archive_tx.go:102-131 FindLastFinalizedTxIndex *)
Definition last_index (s : store) (a : Z) : Z := match rev (by_addr s a) with [] => 0 | (_, x) :: _ => f_index x end.
Definition put_tx (s : store) (a : Z) (x : ftx) : store :=
  mk_store (fun b => if b =? a then zset (by_addr s a) (f_index x) x else by_addr s b) (recent s).
(* archive_tx.go:52-81 StoreLastFinalizedTxIndex *)
Definition keep_last (l : list ftx) : list ftx := if (100 <? length l)%nat then skipn (length l - 100) l else l.
Definition put_recent (s : store) (x : ftx) : store := mk_store (by_addr s) (keep_last (recent s ++ [x])).
(* archive_tx.go:14-50 StoreFinalizedTx *)
Definition store_in (s : store) (x : ftx) : store :=
  let x1 := with_index x (last_index s (f_from x) + 1) in
  let s1 := put_recent (put_tx s (f_from x) x1) x1 in
  if f_to x =? f_from x then s1
  else put_tx s1 (f_to x) (with_index x (last_index s1 (f_to x) + 1)).
Definition store_tx (s : arch) (h : Z) (x : ftx) : arch := with_side s h (store_in (side s h) x).
(* archive_tx.go:133-169 FindFinalizedTxs *)
Definition find_all (s : arch) (h a : Z) : list ftx := zvals (by_addr (side s h) a).
(* archive_tx.go:171-222 FindFinalizedTxsByIndexToIndex: the keys from start+1 to before
   end+1; the test for larger numbers inside the loop never fires *)
Definition find_range (s : arch) (h a start stop : Z) : list ftx :=
  zvals (filter (fun p => (start + 1 <=? fst p) && (fst p <? stop + 1)) (by_addr (side s h) a)).

Definition run (s : arch) (l : list (Z * ftx)) : arch := fold_left (fun s p => store_tx s (fst p) (snd p)) l s.

(* ---- the query ---- *)
Definition wrap (z : Z) : Z := z mod 2 ^ 64.
Section Query.
Context {A : Type}.
(* the loops at 415-426, 484-495 and 588-598: i counts the items of this list *)
Fixpoint pick (i lo hi lim : Z) (txs : list A) (cnt : Z) (l : list A) : list A * Z :=
  match l with
  | [] => (txs, cnt)
  | x :: r =>
      let txs1 := if (lo <=? i) && (i <? hi) then txs ++ [x] else txs in
      if lim <=? Z.of_nat (length txs1) then (txs1, cnt + 1) else pick (i + 1) lo hi lim txs1 (cnt + 1) r
  end.
(* 351-427 and 429-496 *)
Definition stage_out (off lim : Z) (p : list A * Z) (l : list A) : list A * Z :=
  let '(txs, cnt) := p in
  let slots := lim - Z.of_nat (length txs) in
  if 0 <? slots then
    let lo := if cnt <? off then off - cnt else 0 in pick 0 lo (wrap (lo + slots)) lim txs cnt l
  else p.
(* 498-600: the offset and the end of the whole request are used *)
Definition stage_in (off lim : Z) (p : list A * Z) (l : list A) : list A * Z :=
  let '(txs, cnt) := p in
  if 0 <? lim - Z.of_nat (length txs) then pick 0 off (wrap (off + lim)) lim txs cnt l else p.
End Query.

(* what is listed: a transfer under way, or a finished one (of which formatQueryTransferTxs,
   634-655, drops the number) *)
Inductive item := Live (n : Z) | Done (from to data : Z).
Definition show (x : ftx) : item := Done (f_from x) (f_to x) (f_data x).
(* the address as cmn.AnyToHexAddress reads it and as common.HexToAddress reads it; they
   agree for hexadecimal texts *)
Record who := mk_who { w_any : Z; w_hex : Z }.
(* pool, batched, incoming: the lists after filtering and sorting (355-403, 433-472, 502-585) *)
Definition query (s : arch) (h : Z) (w : option who) (off lim : Z) (pool batched incoming : list item) : list item :=
  let '(txs, _) := stage_in off lim (stage_out off lim (stage_out off lim ([], 0) pool) batched) incoming in
  match w with
  | Some a =>
      let slots := lim - Z.of_nat (length txs) in
      if 0 <? slots then
        let last := last_index (side s h) (w_any a) in
        let start := if last <? slots then 0 else last - slots in
        txs ++ map show (rev (find_range s h (w_hex a) start last))
      else txs
  | None => txs ++ map show (rev (recent (side s h)))
  end.
End Code.
