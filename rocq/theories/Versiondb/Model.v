(* The store of historical states: versiondb/tsrocksdb/{comparator,store,iterator}.go,
   versiondb/store.go, over a RocksDB column family whose keys carry a timestamp.
   RocksDB itself is outside the repository; it appears here as the list of its live
   entries in the order of the comparator the code gives it, with Get and iterators as its
   documentation describes them: entries newer than the read timestamp are invisible, and
   of each key the newest visible entry counts. *)
From Verif Require Import Lib.Base Lib.Bytes Lib.Codec.
Open Scope Z_scope.

(* None as value: a deletion *)
Record entry := mk_entry { e_key : bytes; e_ts : Z; e_val : option bytes }.
(* PutCFWithTS stores the key followed by the 8 bytes of the timestamp *)
Definition ikey (e : entry) : bytes := e_key e ++ le 8 (e_ts e).

(* ---- comparator.go ---- *)
(* Go: a[:len(a)-TimestampSize] *)
Definition cut (a : bytes) : bytes := firstn (length a - 8) a.
Definition tail8 (a : bytes) : bytes := skipn (length a - 8) a.
(* 21-35 compareTS *)
Definition compare_ts (a b : bytes) : comparison := unle a ?= unle b.
(* 52-60 compareWithoutTS *)
Definition compare_without_ts (a : bytes) (has_a : bool) (b : bytes) (has_b : bool) : comparison :=
  bcmp (if has_a then cut a else a) (if has_b then cut b else b).
(* 37-48 compare: newer first *)
Definition compare (a b : bytes) : comparison :=
  match compare_without_ts a true b true with
  | Eq => CompOpp (compare_ts (tail8 a) (tail8 b))
  | c => c
  end.

(* ---- RocksDB ---- *)
(* a write replaces the entry with the same key and timestamp *)
Fixpoint put (db : list entry) (e : entry) : list entry :=
  match db with
  | [] => [e]
  | d :: r => match compare (ikey e) (ikey d) with
              | Lt => e :: db
              | Eq => e :: r
              | Gt => d :: put r e
              end
  end.
(* Get at timestamp t: seek to (key, t), the entry there counts if it is one of the key *)
Fixpoint seek (db : list entry) (k : bytes) : list entry :=
  match db with
  | [] => []
  | d :: r => match compare (ikey d) k with Lt => seek r k | _ => db end
  end.
Definition db_get (db : list entry) (key : bytes) (t : Z) : option (bytes * Z) :=
  match seek db (key ++ le 8 t) with
  | [] => None
  | d :: _ => if beqb (e_key d) key then match e_val d with Some v => Some (v, e_ts d) | None => None end else None
  end.
(* what an iterator at timestamp t walks over: [done] is the key already decided *)
Record item := mk_item { i_key : bytes; i_val : bytes; i_ts : Z }.
Fixpoint visible (t : Z) (done : option bytes) (db : list entry) : list item :=
  match db with
  | [] => []
  | d :: r =>
      if (t <? e_ts d) || match done with Some k => beqb k (e_key d) | None => false end then visible t done r else
      match e_val d with
      | Some v => mk_item (e_key d) v (e_ts d) :: visible t (Some (e_key d)) r
      | None => visible t (Some (e_key d)) r
      end
  end.
(* a RocksDB iterator: the items behind it, nearest first, and the items from the current
   one on; no current item: not valid *)
Record cursor := mk_cursor { c_left : list item; c_right : list item }.
Definition seek_first (l : list item) : cursor := mk_cursor [] l.
Definition seek_last (l : list item) : cursor :=
  match rev l with [] => mk_cursor [] [] | x :: r => mk_cursor r [x] end.
Fixpoint seek_key (left l : list item) (k : bytes) : cursor :=
  match l with
  | [] => mk_cursor left []
  | x :: r => if bltb (i_key x) k then seek_key (x :: left) r k else mk_cursor left l
  end.
Definition c_next (c : cursor) : cursor :=
  match c_right c with [] => c | x :: r => mk_cursor (x :: c_left c) r end.
(* moving before the first item leaves the iterator invalid *)
Definition c_prev (c : cursor) : cursor :=
  match c_left c with [] => mk_cursor [] [] | x :: r => mk_cursor r (x :: c_right c) end.

(* ---- iterator.go ---- *)
Record iter := mk_iter { it_cur : cursor; it_start : option bytes; it_end : option bytes; it_rev : bool; it_skip : bool }.
(* 60-97 Valid *)
Definition valid (i : iter) : bool :=
  match c_right (it_cur i) with
  | [] => false
  | x :: _ =>
      if it_rev i then match it_start i with Some s => negb (bltb (i_key x) s) | None => true end
      else match it_end i with Some e => bltb (i_key x) e | None => true end
  end.
Definition move (i : iter) : iter :=
  mk_iter (if it_rev i then c_prev (it_cur i) else c_next (it_cur i)) (it_start i) (it_end i) (it_rev i) (it_skip i).
(* 120-147 Next calls trySkipZeroVersion, which calls Next: together a loop *)
Fixpoint skip_zero (fuel : nat) (i : iter) : iter :=
  match fuel with
  | O => i
  | S f => match c_right (it_cur i) with
           | x :: _ => if it_skip i && valid i && (i_ts x =? 0) then skip_zero f (move i) else i
           | [] => i
           end
  end.
Definition width (c : cursor) : nat := length (c_left c) + length (c_right c).
Definition next (i : iter) : iter := skip_zero (S (width (it_cur i))) (move i).
(* 23-55 newRocksDBIterator *)
Definition new_iter (l : list item) (start end_ : option bytes) (reverse skip : bool) : iter :=
  let c :=
    if reverse then
      match end_ with
      | None => seek_last l
      | Some e => let c := seek_key [] l e in
                  match c_right c with
                  | x :: _ => if bltb (i_key x) e then c else c_prev c
                  | [] => seek_last l
                  end
      end
    else match start with None => seek_first l | Some s => seek_key [] l s end in
  let i := mk_iter c start end_ reverse skip in
  skip_zero (S (width c)) i.
(* reading an iterator to its end: Key drops the prefix, 105-108 *)
Fixpoint collect (fuel : nat) (plen : nat) (i : iter) : list item :=
  match fuel with
  | O => []
  | S f => if valid i then
             match c_right (it_cur i) with
             | x :: _ => mk_item (skipn plen (i_key x)) (i_val x) (i_ts x) :: collect f plen (next i)
             | [] => []
             end
           else []
  end.

(* ---- store.go ---- *)
(* the column family, and the key s/latest of the default one *)
Record st := mk_st { s_db : list entry; s_latest : option Z }.
Definition empty : st := mk_st [] None.
Definition U64 : Z := 2 ^ 64.
Definition u64 (x : Z) : Z := x mod U64.
Definition i64 (x : Z) : Z := if x <? 2 ^ 63 then x else x - U64.

(* 18, 332-334: "s/k:%s/" *)
Definition store_prefix (name : bytes) : bytes := [115; 47; 107; 58]%N ++ name ++ [47]%N.

(* store/types StoreKVPair *)
Record pair := mk_pair { p_store : bytes; p_key : bytes; p_val : option bytes }.
Definition entry_of (version : Z) (p : pair) : entry := mk_entry (store_prefix (p_store p) ++ p_key p) (u64 version) (p_val p).
(* 76-93 PutAtVersion: one atomic batch *)
Definition put_at (s : st) (version : Z) (cs : list pair) : st :=
  mk_st (fold_left (fun db p => put db (entry_of version p)) cs (s_db s)) (Some (u64 version)).
(* 69-73 SetLatestVersion *)
Definition set_latest (s : st) (version : Z) : st := mk_st (s_db s) (Some (u64 version)).
(* 176-196 FeedChangeSet: a single store, the latest version is left alone *)
Definition feed (s : st) (version : Z) (name : bytes) (cs : list (bytes * option bytes)) : st :=
  mk_st (fold_left (fun db kv => put db (entry_of version (mk_pair name (fst kv) (snd kv)))) cs (s_db s)) (s_latest s).
(* 199-226 Import: in batches of 10000 *)
Definition import_some (s : st) (version : Z) (es : list (bytes * bytes * bytes)) : st :=
  mk_st (fold_left (fun db x => put db (entry_of version (mk_pair (fst (fst x)) (snd (fst x)) (Some (snd x))))) es (s_db s)) (s_latest s).
Definition import (s : st) (version : Z) (es : list (bytes * bytes * bytes)) : st := set_latest (import_some s version es) version.
(* the same, stopped after some batches *)
Definition import_interrupted (s : st) (version : Z) (es : list (bytes * bytes * bytes)) (batches : Z) : st :=
  import_some s version (firstn (Z.to_nat (batches * 10000)) es).

(* 316-330 newTSReadOptions; a nil version reads the latest *)
Definition read_ts (version : option Z) : Z := match version with None => U64 - 1 | Some v => u64 v end.
(* 95-124 GetAtVersion *)
Definition get_at (skip : bool) (s : st) (name key : bytes) (version : option Z) : option bytes :=
  match db_get (s_db s) (store_prefix name ++ key) (read_ts version) with
  | Some (v, ts) => if skip && (ts =? 0) then None else Some v
  | None => None
  end.
(* 126-134 HasAtVersion *)
Definition has_at (skip : bool) (s : st) (name key : bytes) (version : option Z) : bool :=
  match get_at skip s name key version with Some _ => true | None => false end.
(* 136-149 GetLatestVersion *)
Definition latest (s : st) : Z := match s_latest s with Some t => i64 t | None => 0 end.

(* 352-375 cpIncr, on the reversed bytes *)
Fixpoint incr (b : bytes) : option bytes :=
  match b with
  | [] => None
  | x :: r => if (x <? 255)%N then Some ((x + 1)%N :: r)
              else match incr r with Some r' => Some (0%N :: r') | None => None end
  end.
Definition cp_incr (b : bytes) : option bytes := match incr (rev b) with Some r => Some (rev r) | None => None end.
(* 377-392 iterateWithPrefix; a nil begin is appended as nothing *)
Definition bounds (prefix : bytes) (start end_ : option bytes) : bytes * option bytes :=
  (prefix ++ match start with Some s => s | None => [] end,
   match end_ with None => cp_incr prefix | Some e => Some (prefix ++ e) end).
(* 160-173 iteratorAtVersion; empty bounds are an error *)
Definition is_empty (o : option bytes) : bool := match o with Some [] => true | _ => false end.
Definition iterate (skip : bool) (s : st) (name : bytes) (start end_ : option bytes) (version : option Z) (reverse : bool) : res (list item) :=
  if is_empty start || is_empty end_ then Err else
  let p := store_prefix name in
  let '(lo, hi) := bounds p start end_ in
  let l := visible (read_ts version) None (s_db s) in
  Ok (collect (S (length l)) (length p) (new_iter l (Some lo) hi reverse skip)).

(* ---- FixData: store.go:228-314 ---- *)
(* 289-314 loadWrongData, without the skip flag *)
Fixpoint parse_wrong (l : list item) : res (list (bytes * Z * bytes)) :=
  match l with
  | [] => Ok []
  | x :: r =>
      if negb (i_ts x =? 0) then parse_wrong r else
      if (length (i_key x) <? 8)%nat then Err else
      rbind (parse_wrong r) (fun ps => Ok ((cut (i_key x), unle (tail8 (i_key x)), i_val x) :: ps))
  end.
(* 243-282 fixDataStore: all reads happen before the batch is written.  [Data()] of a
   missing value is empty. *)
Definition clean (s : st) (name : bytes) (w : bytes * Z * bytes) : bool :=
  let '(k, t, v) := w in
  beqb (match db_get (s_db s) (store_prefix name ++ k) t with Some (o, _) => o | None => [] end) v.
Definition fix_store (s : st) (name : bytes) : res st :=
  rbind (iterate false s name None None (Some 0) false) (fun l =>
  rbind (parse_wrong l) (fun ws =>
  Ok (mk_st (fold_left (fun db w => let '(k, t, v) := w in put db (mk_entry (store_prefix name ++ k) t (Some v)))
                       (filter (fun w => negb (clean s name w)) ws) (s_db s)) (s_latest s)))).
(* 230-241 *)
Fixpoint fix_data (s : st) (names : list bytes) : res st :=
  match names with
  | [] => Ok s
  | n :: r => rbind (fix_store s n) (fun s' => fix_data s' r)
  end.
