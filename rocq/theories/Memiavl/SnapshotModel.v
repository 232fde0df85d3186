(* memiavl snapshots: the byte format of the nodes/leaves/kvs/metadata files,
   reading nodes back by offset arithmetic, sequential export and import.
   File writes succeed and are not cancelled (writeSnapshot's error paths
   return before the metadata file exists); the little-endian layout
   (layout_little_endian.go) is the one modelled, layout_native.go reads the
   same bytes on a little-endian machine.  uint32 and uint8 arithmetic wraps
   explicitly.  None stands for a slice-out-of-range panic. *)
From Verif Require Import Lib.Base Lib.Bytes Lib.Codec Memiavl.Model Memiavl.HashModel.
Open Scope Z_scope.

Definition u8 (z : Z) : Z := z mod 256.

(* snapshot.go 467-479 snapshotWriter *)
Record writer := Writer {
  w_nodes : bytes; w_leaves : bytes; w_kvs : bytes;
  w_branches : Z; w_leafs : Z; w_offset : Z }.

Definition new_writer : writer := Writer [] [] [] 0 0 0.

(* snapshot.go 490-511 writeKeyValue: the bytes appended *)
Definition kv_bytes (key value : bytes) : bytes :=
  le 4 (blen key) ++ key ++ le 4 (blen value) ++ value.

(* persisted_node.go 22-27, snapshot.go 522-525: the fixed part of a leaf record and its hash *)
Definition leaf_bytes (ver keylen offset : Z) (hash : bytes) : bytes :=
  le 4 ver ++ le 4 keylen ++ le 8 offset ++ hash.

(* snapshot.go 513-540 writeLeaf *)
Definition write_leaf (w : writer) (ver : Z) (key value hash : bytes) : writer :=
  Writer (w_nodes w)
         (w_leaves w ++ leaf_bytes ver (blen key) (w_offset w) hash)
         (w_kvs w ++ kv_bytes key value)
         (w_branches w) (u32 (w_leafs w + 1))
         ((w_offset w + (4 + 4 + blen key + blen value)) mod 2 ^ 64).

(* persisted_node.go 10-20: a branch record *)
Definition branch_bytes (ver size height pre keyleaf : Z) (hash : bytes) : bytes :=
  le 1 height ++ le 1 pre ++ le 2 0 ++ le 4 ver ++ le 4 size ++ le 4 keyleaf ++ hash.

(* snapshot.go 542-559 writeBranch *)
Definition write_branch (w : writer) (ver size height pre keyleaf : Z) (hash : bytes) : writer :=
  Writer (w_nodes w ++ branch_bytes ver size height pre keyleaf hash)
         (w_leaves w) (w_kvs w) (u32 (w_branches w + 1)) (w_leafs w) (w_offset w).

Section Snapshot.
Variable sha : bytes -> bytes.

(* snapshot.go 563-581 writeRecursive *)
Fixpoint write_rec (w : writer) (n : node) : writer :=
  match n with
  | Leaf k v ver => write_leaf w ver k v (nhash sha n)
  | Branch _ h s ver l r =>
      let pre := u8 (u32 (w_leafs w - w_branches w)) in
      let w1 := write_rec w l in
      let keyleaf := w_leafs w1 in
      let w2 := write_rec w1 r in
      write_branch w2 ver (u32 s) h pre keyleaf (nhash sha n)
  end.

(* the four files of a snapshot directory *)
Record files := Files { f_nodes : bytes; f_leaves : bytes; f_kvs : bytes; f_meta : bytes }.

(* snapshot.go 436-463 *)
Definition meta_bytes (version : Z) : bytes := le 4 1280721225 ++ le 4 0 ++ le 4 version.

Definition finish (w : writer) (flush : Z) (version : Z) : files :=
  if 0 <? flush then Files (w_nodes w) (w_leaves w) (w_kvs w) (meta_bytes version)
  else Files [] [] [] (meta_bytes version).

(* snapshot.go 354-365 WriteSnapshotWithContext *)
Definition write_snapshot (t : tree) : files :=
  match t_root t with
  | None => finish new_writer 0 (t_version t)
  | Some n => let w := write_rec new_writer n in finish w (w_leafs w) (t_version t)
  end.

(* ---------------- reading ---------------- *)

Record brec := BRec { b_height : Z; b_pre : Z; b_version : Z; b_size : Z; b_keyleaf : Z; b_hash : bytes }.
Record lrec := LRec { l_version : Z; l_keylen : Z; l_offset : Z; l_hash : bytes }.

(* layout_little_endian.go 19-52: node i of the nodes file *)
Definition read_branch (f : files) (i : Z) : option brec :=
  obind (slice (f_nodes f) (i * 48) 48) (fun d =>
  obind (slice d 0 1) (fun h => obind (slice d 1 1) (fun p =>
  obind (slice d 4 4) (fun v => obind (slice d 8 4) (fun s =>
  obind (slice d 12 4) (fun k => obind (slice d 16 32) (fun hs =>
  Some (BRec (unle h) (unle p) (unle v) (unle s) (unle k) hs)))))))).

(* layout_little_endian.go 54-88: leaf i of the leaves file *)
Definition read_leaf (f : files) (i : Z) : option lrec :=
  obind (slice (f_leaves f) (i * 48) 48) (fun d =>
  obind (slice d 0 4) (fun v => obind (slice d 4 4) (fun kl =>
  obind (slice d 8 8) (fun o => obind (slice d 16 32) (fun hs =>
  Some (LRec (unle v) (unle kl) (unle o) hs)))))).

(* snapshot.go 276-280 LeafKey *)
Definition leaf_key (f : files) (i : Z) : option bytes :=
  obind (read_leaf f i) (fun l => slice (f_kvs f) (l_offset l + 4) (l_keylen l)).

(* snapshot.go 282-291 LeafKeyValue *)
Definition leaf_key_value (f : files) (i : Z) : option (bytes * bytes) :=
  obind (read_leaf f i) (fun l =>
  let off := l_offset l + 4 in
  obind (slice (f_kvs f) off (l_keylen l)) (fun key =>
  let off := off + l_keylen l in
  obind (slice (f_kvs f) off 4) (fun len =>
  let off := off + 4 in
  obind (slice (f_kvs f) off (unle len)) (fun value => Some (key, value))))).

(* snapshot.go 265-274 KeyValue *)
Definition key_value (f : files) (off : Z) : option (bytes * bytes) :=
  obind (slice (f_kvs f) off 4) (fun klen =>
  let off := off + 4 in
  obind (slice (f_kvs f) off (unle klen)) (fun key =>
  let off := off + unle klen in
  obind (slice (f_kvs f) off 4) (fun vlen =>
  let off := off + 4 in
  obind (slice (f_kvs f) off (unle vlen)) (fun value => Some (key, value))))).

(* persisted_node.go 45-49 PersistedNode: a reference into the files *)
Record pnode := PNode { p_leaf : bool; p_index : Z }.

(* snapshot.go 63-169 OpenSnapshot: version and root *)
Definition open_snapshot (f : files) : res (Z * option pnode) :=
  if negb (blen (f_meta f) =? 12) then Err else
  match slice (f_meta f) 0 4, slice (f_meta f) 4 4, slice (f_meta f) 8 4 with
  | Some magic, Some format, Some version =>
      if negb (unle magic =? 1280721225) then Err else
      if negb (unle format =? 0) then Err else
      if negb (blen (f_nodes f) mod 48 =? 0) then Err else
      if negb (blen (f_leaves f) mod 48 =? 0) then Err else
      let nodes := blen (f_nodes f) / 48 in
      let leaves := blen (f_leaves f) / 48 in
      if ((0 <? leaves) && negb (nodes + 1 =? leaves)) || ((leaves =? 0) && negb (nodes =? 0)) then Err else
      Ok (unle version,
          if 0 <? nodes then Some (PNode false (u32 (nodes - 1)))
          else if 0 <? leaves then Some (PNode true 0) else None)
  | _, _, _ => Panic
  end.

(* persisted_node.go 62-101 accessors *)
Definition p_height (f : files) (p : pnode) : option Z :=
  if p_leaf p then Some 0 else option_map b_height (read_branch f (p_index p)).
Definition p_version (f : files) (p : pnode) : option Z :=
  if p_leaf p then option_map l_version (read_leaf f (p_index p))
  else option_map b_version (read_branch f (p_index p)).
Definition p_size (f : files) (p : pnode) : option Z :=
  if p_leaf p then Some 1 else option_map b_size (read_branch f (p_index p)).
Definition p_key (f : files) (p : pnode) : option bytes :=
  if p_leaf p then leaf_key f (p_index p)
  else obind (read_branch f (p_index p)) (fun b => leaf_key f (b_keyleaf b)).
(* None is the nil slice of a non-leaf or a panic *)
Definition p_value (f : files) (p : pnode) : option bytes :=
  if p_leaf p then option_map snd (leaf_key_value f (p_index p)) else None.
(* persisted_node.go 138-143 *)
Definition p_hash (f : files) (p : pnode) : option bytes :=
  if p_leaf p then option_map l_hash (read_leaf f (p_index p))
  else option_map b_hash (read_branch f (p_index p)).

(* persisted_node.go 218-246 *)
Definition get_start_leaf (index size pre : Z) : Z := u32 (index + 2 - size + pre).
Definition get_end_leaf (index pre : Z) : Z := u32 (index + pre + 1).
Definition get_left_branch (keyleaf pre : Z) : Z := u32 (keyleaf - pre - 2).

(* persisted_node.go 104-117 Left; Left of a leaf panics *)
Definition p_left (f : files) (p : pnode) : option pnode :=
  if p_leaf p then None else
  obind (read_branch f (p_index p)) (fun d =>
  let start := get_start_leaf (p_index p) (b_size d) (b_pre d) in
  Some (if u32 (start + 1) =? b_keyleaf d then PNode true start
        else PNode false (get_left_branch (b_keyleaf d) (b_pre d)))).

(* persisted_node.go 120-132 Right *)
Definition p_right (f : files) (p : pnode) : option pnode :=
  if p_leaf p then None else
  obind (read_branch f (p_index p)) (fun d =>
  Some (if b_keyleaf d =? get_end_leaf (p_index p) (b_pre d) then PNode true (b_keyleaf d)
        else PNode false (u32 (p_index p - 1)))).

(* sort.Search of the Go standard library: least i in [lo,hi) with f i, else
   hi, by bisection; None = f panicked or fuel exhausted *)
Fixpoint go_search (fuel : nat) (lo hi : Z) (f : Z -> option bool) : option Z :=
  match fuel with
  | O => None
  | S fuel' =>
      if lo <? hi then
        let h := (lo + hi) / 2 in
        obind (f h) (fun b => if b then go_search fuel' lo h f else go_search fuel' (h + 1) hi f)
      else Some lo
  end.

Definition p_start_count (f : files) (p : pnode) : option (Z * Z) :=
  if p_leaf p then Some (p_index p, 1)
  else obind (read_branch f (p_index p)) (fun d =>
       Some (get_start_leaf (p_index p) (b_size d) (b_pre d), b_size d)).

(* persisted_node.go 167-197 Get; outer None = panic *)
Definition p_get (f : files) (p : pnode) (key : bytes) : option (option bytes * Z) :=
  obind (p_start_count f p) (fun '(start, count) =>
  obind (go_search (S (Z.to_nat count)) 0 count (fun i =>
           obind (leaf_key f (u32 (start + u32 i))) (fun k =>
           Some (match bcmp k key with Lt => false | _ => true end)))) (fun i =>
  let leaf := u32 (i + start) in
  if u32 (start + count) <=? leaf then Some (None, i)
  else obind (leaf_key_value f leaf) (fun '(k, v) =>
       Some (if beqb k key then Some v else None, i)))).

(* persisted_node.go 199-216 GetByIndex; outer None = panic *)
Definition p_get_by_index (f : files) (p : pnode) (leaf_index : Z) : option (option (bytes * bytes)) :=
  if p_leaf p then
    if negb (leaf_index =? 0) then Some None else option_map Some (leaf_key_value f (p_index p))
  else
    obind (read_branch f (p_index p)) (fun d =>
    let start := get_start_leaf (p_index p) (b_size d) (b_pre d) in
    let en := get_end_leaf (p_index p) (b_pre d) in
    let i := u32 (start + leaf_index) in
    if en <? i then Some None else option_map Some (leaf_key_value f i)).

(* ---------------- export ---------------- *)

(* types.go ExportNode: key, value (None = nil), version, height *)
Record enode := ENode { e_key : bytes; e_value : option bytes; e_version : Z; e_height : Z }.

Definition enode_of (n : node) : enode :=
  match n with
  | Leaf k v ver => ENode k (Some v) ver 0
  | Branch k h _ ver _ _ => ENode k None ver h
  end.

(* tree.go 244-264 ScanPostOrder: explicit stack of (node, expanded) *)
Fixpoint scan_post_order (fuel : nat) (stack : list (node * bool)) : option (list node) :=
  match stack with
  | [] => Some []
  | (n, expanded) :: rest =>
      match fuel with
      | O => None
      | S fuel' =>
          match n, expanded with
          | Branch _ _ _ _ l r, false =>
              scan_post_order fuel' ((l, false) :: (r, false) :: (n, true) :: rest)
          | _, _ => option_map (cons n) (scan_post_order fuel' rest)
          end
      end
  end.

(* tree.go 278-288 Export by traversal *)
Definition export_tree (t : tree) : option (list enode) :=
  match t_root t with
  | None => Some []
  | Some n => option_map (map enode_of) (scan_post_order (2 * node_count n) [(n, false)])
  end.

(* snapshot.go 319-334: emit [count] leaves starting at leaf j *)
Fixpoint export_leaves (f : files) (count : nat) (j : Z) : option (list enode) :=
  match count with
  | O => Some []
  | S c =>
      obind (read_leaf f j) (fun l =>
      obind (key_value f (l_offset l)) (fun '(k, v) =>
      option_map (cons (ENode k (Some v) (l_version l) 0)) (export_leaves f c (u32 (j + 1)))))
  end.

(* snapshot.go 316-347: branches i, i+1, ..., with counters j and pendingTrees *)
Fixpoint export_branches (f : files) (count : nat) (i j pending : Z) : option (list enode) :=
  match count with
  | O => Some []
  | S c =>
      obind (read_branch f i) (fun b =>
      let more := Z.max 0 (b_pre b + 2 - pending) in
      obind (export_leaves f (Z.to_nat more) j) (fun ls =>
      obind (leaf_key f (b_keyleaf b)) (fun k =>
      option_map (fun tl => ls ++ ENode k None (b_version b) (b_height b) :: tl)
        (export_branches f c (i + 1) (u32 (j + more)) (pending + more - 1)))))
  end.

(* snapshot.go 299-348 export (consumer reads to the end) *)
Definition export_snapshot (f : files) : option (list enode) :=
  let nleaves := blen (f_leaves f) / 48 in
  let nnodes := blen (f_nodes f) / 48 in
  if nleaves =? 0 then Some []
  else if nleaves =? 1 then
    obind (leaf_key_value f 0) (fun '(k, v) =>
    obind (read_leaf f 0) (fun l => Some [ENode k (Some v) (l_version l) 0]))
  else export_branches f (Z.to_nat nnodes) 0 0 0.

(* ---------------- import ---------------- *)

(* import.go 159-166 importer.  Of a pending MemNode only size and hash are
   used again; stacks grow at the list head *)
Record importer := Importer { i_w : writer; i_leaves : list Z; i_nodes : list (Z * bytes) }.

(* import.go 168-220 Add; heights are int8 converted to uint8; Panic = stack index out of range *)
Definition import_add (i : importer) (n : enode) : res importer :=
  if 2 ^ 32 - 1 <? e_version n then Err else
  let ver := u32 (e_version n) in
  if e_height n =? 0 then
    let v := match e_value n with Some v => v | None => [] end in
    let h := leaf_hash sha ver (e_key n) v in
    let w := write_leaf (i_w i) ver (e_key n) v h in
    Ok (Importer w (w_leafs w :: i_leaves i) ((1, h) :: i_nodes i))
  else
    match i_leaves i, i_nodes i with
    | _ :: keyleaf :: ls, (rs, rh) :: (lsz, lh) :: ns =>
        let height := u8 (e_height n) in
        let sz := lsz + rs in
        let h := branch_hash sha height sz ver lh rh in
        let pre := u8 (Z.of_nat (length ns)) in
        let w := write_branch (i_w i) ver (u32 sz) height pre keyleaf h in
        Ok (Importer w (w_leafs w :: ls) ((sz, h) :: ns))
    | _, _ => Panic
    end.

Fixpoint import_all (i : importer) (ns : list enode) : res importer :=
  match ns with
  | [] => Ok i
  | n :: ns' => rbind (import_add i n) (fun i' => import_all i' ns')
  end.

(* import.go 132-157 doImport *)
Definition do_import (version : Z) (ns : list enode) : res files :=
  if 2 ^ 32 - 1 <? version then Err else
  rbind (import_all (Importer new_writer [] []) ns) (fun i =>
  match i_leaves i with
  | [] => Ok (finish (i_w i) 0 (u32 version))
  | [_] => Ok (finish (i_w i) (w_leafs (i_w i)) (u32 version))
  | _ => Err
  end).

End Snapshot.

(* node.go 11-33 the Node interface: after changes on top of a loaded snapshot
   the tree mixes in-memory nodes with references to persisted ones *)
Inductive mixed :=
| MPers (p : pnode)
| MLeaf (key value : bytes) (version : Z)
| MBranch (key : bytes) (height size version : Z) (left right : mixed).

Definition m_size (f : files) (m : mixed) : option Z :=
  match m with
  | MPers p => p_size f p
  | MLeaf _ _ _ => Some 1
  | MBranch _ _ s _ _ _ => Some s
  end.

(* mem_node.go 183-199 with PersistedNode children; outer None = panic *)
Fixpoint m_get_by_index (f : files) (m : mixed) (index : Z) : option (option (bytes * bytes)) :=
  match m with
  | MPers p => p_get_by_index f p index
  | MLeaf k v _ => Some (if index =? 0 then Some (k, v) else None)
  | MBranch _ _ _ _ l r =>
      obind (m_size f l) (fun ls =>
      let left_size := u32 ls in
      if index <? left_size then m_get_by_index f l index
      else m_get_by_index f r (u32 (index - left_size)))
  end.

(* mem_node.go 163-181 with PersistedNode children *)
Fixpoint m_get (f : files) (m : mixed) (key : bytes) : option (option bytes * Z) :=
  match m with
  | MPers p => p_get f p key
  | MLeaf k v _ =>
      Some (match bcmp k key with Lt => (None, 1) | Gt => (None, 0) | Eq => (Some v, 0) end)
  | MBranch nk _ s _ l r =>
      if bltb key nk then m_get f l key
      else obind (m_size f r) (fun rs =>
           obind (m_get f r key) (fun '(v, i) => Some (v, u32 (i + u32 s - u32 rs))))
  end.
