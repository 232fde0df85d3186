(* Building the database files out of change sets: versiondb/client/convert_to_sst.go. *)
From Verif Require Import Lib.Base Lib.Bytes Lib.Codec Versiondb.Model.
Open Scope Z_scope.

Notation kv := (bytes * option bytes)%type (only parsing).

(* 212-229 encodeSorterItem *)
Definition encode_item (version : Z) (p : kv) : bytes :=
  fst p ++ le 8 (u64 version) ++ match snd p with None => [1]%N | Some v => 0%N :: v end ++ le 4 (blen (fst p)).
(* 247, 271-272: the last four bytes *)
Definition item_key_len (a : bytes) : nat := Z.to_nat (unle (skipn (length a - 4) a)).
Definition item_key (a : bytes) : bytes := firstn (item_key_len a) a.
Definition item_ts (a : bytes) : bytes := firstn 8 (skipn (item_key_len a) a).
(* 245-266 decodeSorterItem.  Items that no encodeSorterItem made panic; here the slices are
   cut short. *)
Definition decode_item (a : bytes) : bytes * bytes * option bytes :=
  let n := item_key_len a in
  let rest := firstn (length a - 4 - (n + 8)) (skipn (n + 8) a) in
  (item_key a, item_ts a, match rest with 1%N :: _ => None | _ => Some (skipn 1 rest) end).
(* 269-284 compareSorterItem *)
Definition compare_item (a b : bytes) : bool :=
  match bcmp (item_key a) (item_key b) with
  | Lt => true
  | Gt => false
  | Eq => unle (item_ts b) <? unle (item_ts a)
  end.

(* RocksDB's SstFileWriter: a file takes entries in strictly increasing order only and cannot
   be finished empty.  The file is kept backwards. *)
Definition sst_put (file : list entry) (e : entry) : res (list entry) :=
  match file with
  | [] => Ok [e]
  | d :: _ => match compare (ikey d) (ikey e) with Lt => Ok (e :: file) | _ => Err end
  end.
Definition sst_finish (file : list entry) : res (list entry) := match file with [] => Err | _ => Ok (rev file) end.

(* 148-175: the loop over the sorted items; [big]: FileSize() >= sstFileSize *)
Definition item_entry (name : bytes) (it : bytes) : entry :=
  let '(k, t, v) := decode_item it in mk_entry (store_prefix name ++ k) (unle t) v.
Fixpoint write_items (big : list entry -> bool) (name : bytes) (done : list (list entry)) (cur : list entry) (last : bytes) (items : list bytes) : res (list (list entry)) :=
  match items with
  | [] => rbind (sst_finish cur) (fun f => Ok (done ++ [f]))
  | it :: r =>
      let k := item_key it in
      rbind (if big cur && negb (beqb last k) then rbind (sst_finish cur) (fun f => Ok (done ++ [f], [])) else Ok (done, cur)) (fun '(done, cur) =>
      rbind (sst_put cur (item_entry name it)) (fun cur => write_items big name done cur k r))
  end.
(* 101-120: what is fed to the sorter *)
Definition all_items (sets : list (Z * list kv)) : list bytes := flat_map (fun x => map (encode_item (fst x)) (snd x)) sets.
(* 127-130: nothing is written for a store without changes *)
Definition convert (big : list entry -> bool) (name : bytes) (sorted : list bytes) : res (list (list entry)) :=
  match sorted with [] => Ok [] | _ => write_items big name [] [] [] sorted end.
