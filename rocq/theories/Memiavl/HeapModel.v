(* memiavl nodes as they are in memory: MemNodes live in a heap, are shared
   between a tree and its copies, modified in place when their version is above
   cowVersion, and cache their hash.  Persisted nodes are immutable, so a
   persisted subtree is a value (SnapshotModel.v relates it to the files).
   None results stand for a nil-pointer panic. *)
From Verif Require Import Lib.Base Lib.Bytes Memiavl.Model Memiavl.HashModel.
Open Scope Z_scope.

Section Heap.
Variable sha : bytes -> bytes.

(* node.go 11-31 Node: a pointer to a MemNode or a PersistedNode *)
Inductive ref := RMem (a : nat) | RPers (n : node).

(* mem_node.go 9-19 MemNode *)
Record cell := Cell {
  c_height : Z; c_size : Z; c_version : Z; c_key : bytes; c_value : bytes;
  c_left : option ref; c_right : option ref; c_hash : option bytes }.

Record heap := Heap { cells : nat -> option cell; next_addr : nat }.
Definition empty_heap : heap := Heap (fun _ => None) 0.

Definition store (h : heap) (a : nat) (c : cell) : heap :=
  Heap (fun x => if Nat.eqb x a then Some c else cells h x) (next_addr h).
(* &MemNode{...} *)
Definition alloc (h : heap) (c : cell) : heap * nat :=
  (Heap (fun x => if Nat.eqb x (next_addr h) then Some c else cells h x) (S (next_addr h)), next_addr h).

(* the accessors of both node kinds (mem_node.go 29-60, persisted_node.go
   53-143), as one record *)
Definition load (h : heap) (r : ref) : option cell :=
  match r with
  | RMem a => cells h a
  | RPers (Leaf k v ver) => Some (Cell 0 1 ver k v None None (Some (nhash sha (Leaf k v ver))))
  | RPers (Branch k ht s ver l r) =>
      Some (Cell ht s ver k [] (Some (RPers l)) (Some (RPers r)) (Some (nhash sha (Branch k ht s ver l r))))
  end.

Definition with_version (c : cell) (ver : Z) : cell :=
  Cell (c_height c) (c_size c) ver (c_key c) (c_value c) (c_left c) (c_right c) None.
Definition with_value (c : cell) (v : bytes) : cell :=
  Cell (c_height c) (c_size c) (c_version c) (c_key c) v (c_left c) (c_right c) (c_hash c).
Definition with_key (c : cell) (k : bytes) : cell :=
  Cell (c_height c) (c_size c) (c_version c) k (c_value c) (c_left c) (c_right c) (c_hash c).
Definition c_with_left (c : cell) (l : option ref) : cell :=
  Cell (c_height c) (c_size c) (c_version c) (c_key c) (c_value c) l (c_right c) (c_hash c).
Definition c_with_right (c : cell) (r : option ref) : cell :=
  Cell (c_height c) (c_size c) (c_version c) (c_key c) (c_value c) (c_left c) r (c_hash c).
Definition with_height_size (c : cell) (ht s : Z) : cell :=
  Cell ht s (c_version c) (c_key c) (c_value c) (c_left c) (c_right c) (c_hash c).
Definition with_hash (c : cell) (x : bytes) : cell :=
  Cell (c_height c) (c_size c) (c_version c) (c_key c) (c_value c) (c_left c) (c_right c) (Some x).

(* mem_node.go 62-71 MemNode.Mutate and persisted_node.go 145-165 *)
Definition h_mutate (h : heap) (r : ref) (ver cow : Z) : option (heap * nat) :=
  match r with
  | RMem a =>
      obind (cells h a) (fun c =>
        if c_version c <=? cow then Some (alloc h (with_version c ver))
        else Some (store h a (with_version c ver), a))
  | RPers n => obind (load h r) (fun c => Some (alloc h (with_version c ver)))
  end.

Definition modify (h : heap) (a : nat) (f : cell -> cell) : option heap :=
  obind (cells h a) (fun c => Some (store h a (f c))).

(* mem_node.go 90-93 updateHeightSize *)
Definition h_update (h : heap) (a : nat) : option heap :=
  obind (cells h a) (fun c =>
  obind (c_left c) (fun l => obind (c_right c) (fun r =>
  obind (load h l) (fun lc => obind (load h r) (fun rc =>
    Some (store h a (with_height_size c (Z.max (c_height lc) (c_height rc) + 1) (c_size lc + c_size rc)))))))).

(* mem_node.go 99-101 calcBalance *)
Definition h_balance (h : heap) (r : ref) : option Z :=
  obind (load h r) (fun c =>
  obind (c_left c) (fun l => obind (c_right c) (fun r' =>
  obind (load h l) (fun lc => obind (load h r') (fun rc => Some (c_height lc - c_height rc)))))).

(* mem_node.go 110-117 rotateRight *)
Definition h_rotate_right (h : heap) (a : nat) (ver cow : Z) : option (heap * nat) :=
  obind (cells h a) (fun c => obind (c_left c) (fun l =>
  obind (h_mutate h l ver cow) (fun '(h1, a') =>
  obind (load h1 l) (fun lc =>
  obind (modify h1 a (fun c => c_with_left c (c_right lc))) (fun h2 =>
  obind (modify h2 a' (fun c => c_with_right c (Some (RMem a)))) (fun h3 =>
  obind (h_update h3 a) (fun h4 =>
  obind (h_update h4 a') (fun h5 => Some (h5, a'))))))))).

(* mem_node.go 126-133 rotateLeft *)
Definition h_rotate_left (h : heap) (a : nat) (ver cow : Z) : option (heap * nat) :=
  obind (cells h a) (fun c => obind (c_right c) (fun r =>
  obind (h_mutate h r ver cow) (fun '(h1, a') =>
  obind (load h1 r) (fun rc =>
  obind (modify h1 a (fun c => c_with_right c (c_left rc))) (fun h2 =>
  obind (modify h2 a' (fun c => c_with_left c (Some (RMem a)))) (fun h3 =>
  obind (h_update h3 a) (fun h4 =>
  obind (h_update h4 a') (fun h5 => Some (h5, a'))))))))).

(* mem_node.go 136-161 reBalance *)
Definition h_rebalance (h : heap) (a : nat) (ver cow : Z) : option (heap * nat) :=
  obind (h_balance h (RMem a)) (fun balance =>
  if 1 <? balance then
    obind (cells h a) (fun c => obind (c_left c) (fun l =>
    obind (h_balance h l) (fun lb =>
      if 0 <=? lb then h_rotate_right h a ver cow
      else obind (h_mutate h l ver cow) (fun '(h1, l1) =>
           obind (h_rotate_left h1 l1 ver cow) (fun '(h2, l2) =>
           obind (modify h2 a (fun c => c_with_left c (Some (RMem l2)))) (fun h3 =>
             h_rotate_right h3 a ver cow))))))
  else if balance <? -1 then
    obind (cells h a) (fun c => obind (c_right c) (fun r =>
    obind (h_balance h r) (fun rb =>
      if rb <=? 0 then h_rotate_left h a ver cow
      else obind (h_mutate h r ver cow) (fun '(h1, r1) =>
           obind (h_rotate_right h1 r1 ver cow) (fun '(h2, r2) =>
           obind (modify h2 a (fun c => c_with_right c (Some (RMem r2)))) (fun h3 =>
             h_rotate_left h3 a ver cow))))))
  else Some (h, a)).

Definition leaf_cell (k v : bytes) (ver : Z) : cell := Cell 0 1 ver k v None None None.

(* node.go 37-90 setRecursive on a non-nil node.  The recursion follows
   pointers, so it takes fuel; callers pass the height of the root. *)
Fixpoint h_set (fuel : nat) (h : heap) (r : ref) (key value : bytes) (ver cow : Z)
  : option (heap * nat * bool) :=
  match fuel with
  | O => None
  | S fuel' =>
    obind (load h r) (fun c =>
    if c_height c =? 0 then
      match bcmp key (c_key c) with
      | Lt => let '(h1, a1) := alloc h (leaf_cell key value ver) in
              let '(h2, a2) := alloc h1 (Cell 1 2 ver (c_key c) [] (Some (RMem a1)) (Some r) None) in
              Some (h2, a2, false)
      | Gt => let '(h1, a1) := alloc h (leaf_cell key value ver) in
              let '(h2, a2) := alloc h1 (Cell 1 2 ver key [] (Some r) (Some (RMem a1)) None) in
              Some (h2, a2, false)
      | Eq => obind (h_mutate h r ver cow) (fun '(h1, a1) =>
              obind (modify h1 a1 (fun c => with_value c value)) (fun h2 => Some (h2, a1, true)))
      end
    else if bltb key (c_key c) then
      obind (c_left c) (fun l =>
      obind (h_set fuel' h l key value ver cow) (fun '(h1, l', updated) =>
      obind (h_mutate h1 r ver cow) (fun '(h2, a) =>
      obind (modify h2 a (fun c => c_with_left c (Some (RMem l')))) (fun h3 =>
        if (updated : bool) then Some (h3, a, true)
        else obind (h_update h3 a) (fun h4 =>
             obind (h_rebalance h4 a ver cow) (fun '(h5, a') => Some (h5, a', false)))))))
    else
      obind (c_right c) (fun l =>
      obind (h_set fuel' h l key value ver cow) (fun '(h1, l', updated) =>
      obind (h_mutate h1 r ver cow) (fun '(h2, a) =>
      obind (modify h2 a (fun c => c_with_right c (Some (RMem l')))) (fun h3 =>
        if (updated : bool) then Some (h3, a, true)
        else obind (h_update h3 a) (fun h4 =>
             obind (h_rebalance h4 a ver cow) (fun '(h5, a') => Some (h5, a', false))))))))
  end.

(* node.go 92-137 removeRecursive on a non-nil node *)
Inductive h_removed :=
| HNotFound
| HRemoved (value : bytes) (rest : option ref) (newKey : option bytes).

Fixpoint h_remove (fuel : nat) (h : heap) (r : ref) (key : bytes) (ver cow : Z)
  : option (heap * h_removed) :=
  match fuel with
  | O => None
  | S fuel' =>
    obind (load h r) (fun c =>
    if c_height c =? 0 then
      Some (h, if beqb (c_key c) key then HRemoved (c_value c) None None else HNotFound)
    else if bltb key (c_key c) then
      obind (c_left c) (fun l =>
      obind (h_remove fuel' h l key ver cow) (fun '(h1, res) =>
      match res with
      | HNotFound => Some (h1, HNotFound)
      | HRemoved v None _ => obind (load h1 r) (fun c1 => Some (h1, HRemoved v (c_right c1) (Some (c_key c1))))
      | HRemoved v (Some l') newKey =>
          obind (h_mutate h1 r ver cow) (fun '(h2, a) =>
          obind (modify h2 a (fun c => c_with_left c (Some l'))) (fun h3 =>
          obind (h_update h3 a) (fun h4 =>
          obind (h_rebalance h4 a ver cow) (fun '(h5, a') => Some (h5, HRemoved v (Some (RMem a')) newKey)))))
      end))
    else
      obind (c_right c) (fun l =>
      obind (h_remove fuel' h l key ver cow) (fun '(h1, res) =>
      match res with
      | HNotFound => Some (h1, HNotFound)
      | HRemoved v None _ => obind (load h1 r) (fun c1 => Some (h1, HRemoved v (c_left c1) None))
      | HRemoved v (Some l') newKey =>
          obind (h_mutate h1 r ver cow) (fun '(h2, a) =>
          obind (modify h2 a (fun c => let c' := c_with_right c (Some l') in
                                       match newKey with Some k => with_key c' k | None => c' end)) (fun h3 =>
          obind (h_update h3 a) (fun h4 =>
          obind (h_rebalance h4 a ver cow) (fun '(h5, a') => Some (h5, HRemoved v (Some (RMem a')) None)))))
      end)))
  end.

(* mem_node.go 79-88 Hash, node.go 141-195 HashNode: computes and caches *)
Fixpoint h_hash (fuel : nat) (h : heap) (r : ref) : option (heap * bytes) :=
  match fuel with
  | O => None
  | S fuel' =>
    obind (load h r) (fun c =>
    match c_hash c with
    | Some x => Some (h, x)
    | None =>
        match r with
        | RPers _ => None
        | RMem a =>
            if c_height c =? 0 then
              let x := leaf_hash sha (c_version c) (c_key c) (c_value c) in
              obind (modify h a (fun c => with_hash c x)) (fun h1 => Some (h1, x))
            else
              obind (c_left c) (fun rl => obind (c_right c) (fun rr =>
              obind (h_hash fuel' h rl) (fun '(h1, hl) =>
              obind (h_hash fuel' h1 rr) (fun '(h2, hr) =>
                let x := branch_hash sha (c_height c) (c_size c) (c_version c) hl hr in
                obind (modify h2 a (fun c => with_hash c x)) (fun h3 => Some (h3, x))))))
        end
    end)
  end.

(* mem_node.go 163-181 Get *)
Fixpoint h_get (fuel : nat) (h : heap) (r : ref) (key : bytes) : option (option bytes * Z) :=
  match fuel with
  | O => None
  | S fuel' =>
    obind (load h r) (fun c =>
    if c_height c =? 0 then
      Some (match bcmp (c_key c) key with
            | Lt => (None, 1)
            | Gt => (None, 0)
            | Eq => (Some (c_value c), 0)
            end)
    else if bltb key (c_key c) then obind (c_left c) (fun l => h_get fuel' h l key)
    else obind (c_right c) (fun rr => obind (load h rr) (fun rc =>
         obind (h_get fuel' h rr key) (fun '(v, i) =>
           Some (v, u32 (i + u32 (c_size c) - u32 (c_size rc)))))))
  end.

(* everything the node accessors reveal, read recursively: what ScanPostOrder,
   the iterator, GetByIndex, WriteSnapshot and the exporter see *)
Fixpoint h_view (fuel : nat) (h : heap) (r : ref) : option node :=
  match fuel with
  | O => None
  | S fuel' =>
    obind (load h r) (fun c =>
    if c_height c =? 0 then Some (Leaf (c_key c) (c_value c) (c_version c))
    else obind (c_left c) (fun l => obind (c_right c) (fun rr =>
         obind (h_view fuel' h l) (fun nl => obind (h_view fuel' h rr) (fun nr =>
           Some (Branch (c_key c) (c_height c) (c_size c) (c_version c) nl nr))))))
  end.

(* ---------------- trees over the shared heap (tree.go) ---------------- *)

(* tree.go 22-35 Tree *)
Record htree := HTree {
  ht_version : Z; ht_cow : Z; ht_root : option ref; ht_cache : option (list (bytes * bytes)) }.

Definition h_fuel (h : heap) (r : ref) : nat :=
  match load h r with Some c => S (Z.to_nat (c_height c)) | None => O end.

(* tree.go 141-150 set *)
Definition ht_set (h : heap) (t : htree) (k : bytes) (v : option bytes) : option (heap * htree) :=
  let v := match v with Some v => v | None => [] end in
  obind (match ht_root t with
         | None => Some (alloc h (leaf_cell k v (ht_version t + 1)))
         | Some r => option_map fst (h_set (h_fuel h r) h r k v (ht_version t + 1) (ht_cow t))
         end)
    (fun '(h', a) => Some (h', HTree (ht_version t) (ht_cow t) (Some (RMem a))
                                (option_map (fun c => cache_add c k v) (ht_cache t)))).

(* tree.go 152-157 remove *)
Definition ht_remove (h : heap) (t : htree) (k : bytes) : option (heap * htree) :=
  obind (match ht_root t with
         | None => Some (h, None)
         | Some r =>
             obind (h_remove (h_fuel h r) h r k (ht_version t + 1) (ht_cow t)) (fun '(h', res) =>
               Some (h', match res with HNotFound => Some r | HRemoved _ rest _ => rest end))
         end)
    (fun '(h', r) => Some (h', HTree (ht_version t) (ht_cow t) r
                                 (option_map (fun c => cache_remove c k) (ht_cache t)))).

(* tree.go 174-180 RootHash *)
Definition ht_hash (h : heap) (t : htree) : option (heap * bytes) :=
  match ht_root t with
  | None => Some (h, sha [])
  | Some r => h_hash (h_fuel h r) h r
  end.

(* tree.go 160-172 SaveVersion *)
Definition ht_save (h : heap) (t : htree) (update_hash : bool) : option (heap * htree) :=
  if ht_version t =? 2 ^ 32 - 1 then Some (h, t)
  else obind (if update_hash then option_map fst (ht_hash h t) else Some h)
         (fun h' => Some (h', HTree (ht_version t + 1) (ht_cow t) (ht_root t) (ht_cache t))).

(* tree.go 119-128 Copy: the original with its new cowVersion, and the copy *)
Definition ht_copy (t : htree) (cached : bool) : htree * htree :=
  let cow := match ht_root t with Some (RMem _) => ht_version t | _ => ht_cow t end in
  (HTree (ht_version t) cow (ht_root t) (ht_cache t), HTree (ht_version t) cow (ht_root t) (new_cache cached)).

(* tree.go 216-232 Get (188-198 GetWithIndex) *)
Definition ht_get (h : heap) (t : htree) (k : bytes) : option (option bytes * htree) :=
  match obind (ht_cache t) (fun c => cache_find c k) with
  | Some v => Some (Some v, t)
  | None =>
      obind (match ht_root t with None => Some (None, 0) | Some r => h_get (h_fuel h r) h r k end) (fun '(v, _) =>
        Some (match v with
              | None => (None, t)
              | Some v => (Some v, HTree (ht_version t) (ht_cow t) (ht_root t)
                                     (option_map (fun c => cache_add c k v) (ht_cache t)))
              end))
  end.

(* every tree in the process that shares this heap *)
Record forest := Forest { f_heap : heap; f_trees : list htree }.

Inductive fop :=
| FSet (k : bytes) (v : option bytes)
| FRemove (k : bytes)
| FGet (k : bytes)
| FEvict (k : bytes)
| FHash
| FSave (update_hash : bool)
| FCopy (cached : bool).

Fixpoint set_nth {A} (l : list A) (i : nat) (x : A) : list A :=
  match l, i with
  | [], _ => []
  | _ :: l', O => x :: l'
  | y :: l', S i' => y :: set_nth l' i' x
  end.

(* one call on tree number i; FCopy appends the copy to the list.  Outer None
   = panic, or no such tree *)
Definition fstep (f : forest) (i : nat) (o : fop) : option forest :=
  obind (nth_error (f_trees f) i) (fun t =>
  let put '(h, t') := Some (Forest h (set_nth (f_trees f) i t')) in
  match o with
  | FSet k v => obind (ht_set (f_heap f) t k v) put
  | FRemove k => obind (ht_remove (f_heap f) t k) put
  | FGet k => obind (ht_get (f_heap f) t k) (fun '(_, t') => put (f_heap f, t'))
  | FEvict k => put (f_heap f, HTree (ht_version t) (ht_cow t) (ht_root t)
                                 (option_map (fun c => cache_remove c k) (ht_cache t)))
  | FHash => obind (ht_hash (f_heap f) t) (fun '(h, _) => put (h, t))
  | FSave u => obind (ht_save (f_heap f) t u) put
  | FCopy cached =>
      let '(t1, t2) := ht_copy t cached in
      Some (Forest (f_heap f) (set_nth (f_trees f) i t1 ++ [t2]))
  end).

Fixpoint frun (f : forest) (ops : list (nat * fop)) : option forest :=
  match ops with
  | [] => Some f
  | (i, o) :: ops' => obind (fstep f i o) (fun f' => frun f' ops')
  end.

(* tree.go 44-84: a fresh tree, empty or on top of a snapshot *)
Definition new_forest (version : Z) (base : root) (cached : bool) : forest :=
  Forest empty_heap [HTree version 0 (option_map RPers base) (new_cache cached)].
End Heap.
