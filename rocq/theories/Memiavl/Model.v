(* memiavl: the versioned AVL+ tree (node.go, mem_node.go, tree.go, iterator.go).
   This file models trees as values; sharing and in-place mutation are in
   HeapModel.v, the file format of persisted nodes in SnapshotModel.v.
   Sizes, versions and heights are Z; C02 shows heights stay far below the
   uint8 limit, indexes keep their explicit uint32 wrap-around.
   None results stand for a nil-pointer panic of the Go code. *)
From Verif Require Import Lib.Base Lib.Bytes.
Open Scope Z_scope.

(* mem_node.go 9-19 MemNode.  A leaf has height 0 and size 1 (23-27). *)
Inductive node :=
| Leaf (key value : bytes) (version : Z)
| Branch (key : bytes) (height size version : Z) (left right : node).

(* the root of an empty tree is nil (tree.go 25-26) *)
Definition root := option node.

(* mem_node.go 29-60 accessors *)
Definition nkey (n : node) : bytes := match n with Leaf k _ _ => k | Branch k _ _ _ _ _ => k end.
Definition nheight (n : node) : Z := match n with Leaf _ _ _ => 0 | Branch _ h _ _ _ _ => h end.
Definition nsize (n : node) : Z := match n with Leaf _ _ _ => 1 | Branch _ _ s _ _ _ => s end.
Definition nversion (n : node) : Z := match n with Leaf _ _ v => v | Branch _ _ _ v _ _ => v end.

(* mem_node.go 62-71 Mutate, as a value: only the version changes *)
Definition mutate (n : node) (ver : Z) : node :=
  match n with
  | Leaf k v _ => Leaf k v ver
  | Branch k h s _ l r => Branch k h s ver l r
  end.

(* mem_node.go 90-93 updateHeightSize, for a branch with the given children *)
Definition mk (k : bytes) (ver : Z) (l r : node) : node :=
  Branch k (Z.max (nheight l) (nheight r) + 1) (nsize l + nsize r) ver l r.

(* mem_node.go 99-101 calcBalance; Left()/Right() of a leaf are nil: panic *)
Definition calc_balance (n : node) : option Z :=
  match n with
  | Leaf _ _ _ => None
  | Branch _ _ _ _ l r => Some (nheight l - nheight r)
  end.

(* mem_node.go 110-117 rotateRight *)
Definition rotate_right (n : node) (ver : Z) : option node :=
  match n with
  | Branch k _ _ nv (Branch kl _ _ _ ll lr) r => Some (mk kl ver ll (mk k nv lr r))
  | _ => None
  end.

(* mem_node.go 126-133 rotateLeft *)
Definition rotate_left (n : node) (ver : Z) : option node :=
  match n with
  | Branch k _ _ nv l (Branch kr _ _ _ rl rr) => Some (mk kr ver (mk k nv l rl) rr)
  | _ => None
  end.

Definition obind {A B} (o : option A) (f : A -> option B) : option B :=
  match o with Some a => f a | None => None end.

Definition with_left (n l : node) : node :=
  match n with Branch k h s v _ r => Branch k h s v l r | _ => n end.
Definition with_right (n r : node) : node :=
  match n with Branch k h s v l _ => Branch k h s v l r | _ => n end.

(* mem_node.go 136-161 reBalance *)
Definition rebalance (n : node) (ver : Z) : option node :=
  match n with
  | Leaf _ _ _ => None
  | Branch _ _ _ _ l r =>
      let balance := nheight l - nheight r in
      if 1 <? balance then
        obind (calc_balance l) (fun lb =>
          if 0 <=? lb then rotate_right n ver
          else obind (rotate_left (mutate l ver) ver) (fun l' =>
               rotate_right (with_left n l') ver))
      else if balance <? -1 then
        obind (calc_balance r) (fun rb =>
          if rb <=? 0 then rotate_left n ver
          else obind (rotate_right (mutate r ver) ver) (fun r' =>
               rotate_left (with_right n r') ver))
      else Some n
  end.

(* node.go 37-90 setRecursive on a non-nil node; the boolean is "updated" *)
Fixpoint set_rec (n : node) (key value : bytes) (ver : Z) : option (node * bool) :=
  match n with
  | Leaf nk nv nver =>
      match bcmp key nk with
      | Lt => Some (Branch nk 1 2 ver (Leaf key value ver) n, false)
      | Gt => Some (Branch key 1 2 ver n (Leaf key value ver), false)
      | Eq => Some (Leaf nk value ver, true)
      end
  | Branch nk h s nver l r =>
      if bltb key nk then
        obind (set_rec l key value ver) (fun '(l', updated) =>
          if updated then Some (Branch nk h s ver l' r, true)
          else obind (rebalance (mk nk ver l' r) ver) (fun n' => Some (n', false)))
      else
        obind (set_rec r key value ver) (fun '(r', updated) =>
          if updated then Some (Branch nk h s ver l r', true)
          else obind (rebalance (mk nk ver l r') ver) (fun n' => Some (n', false)))
  end.

(* node.go 92-137 removeRecursive on a non-nil node.  Result of a completed
   call: NotFound = (nil, node, nil); otherwise value, new node (None = nil)
   and new key (None = nil). *)
Inductive removed :=
| NotFound
| Removed (value : bytes) (rest : root) (newKey : option bytes).

Fixpoint remove_rec (n : node) (key : bytes) (ver : Z) : option removed :=
  match n with
  | Leaf nk nv _ => Some (if beqb nk key then Removed nv None None else NotFound)
  | Branch nk h s nver l r =>
      if bltb key nk then
        obind (remove_rec l key ver) (fun res =>
          match res with
          | NotFound => Some NotFound
          | Removed v None _ => Some (Removed v (Some r) (Some nk))
          | Removed v (Some l') newKey =>
              obind (rebalance (mk nk ver l' r) ver) (fun n' => Some (Removed v (Some n') newKey))
          end)
      else
        obind (remove_rec r key ver) (fun res =>
          match res with
          | NotFound => Some NotFound
          | Removed v None _ => Some (Removed v (Some l) None)
          | Removed v (Some r') newKey =>
              let nk' := match newKey with Some k => k | None => nk end in
              obind (rebalance (mk nk' ver l r') ver) (fun n' => Some (Removed v (Some n') None))
          end)
  end.

Definition u32 (z : Z) : Z := z mod 2 ^ 32.

(* mem_node.go 163-181 MemNode.Get: (value or nil, uint32 index) *)
Fixpoint get_rec (n : node) (key : bytes) : option bytes * Z :=
  match n with
  | Leaf nk nv _ =>
      match bcmp nk key with
      | Lt => (None, 1)
      | Gt => (None, 0)
      | Eq => (Some nv, 0)
      end
  | Branch nk _ s _ l r =>
      if bltb key nk then get_rec l key
      else let '(v, i) := get_rec r key in (v, u32 (i + u32 s - u32 (nsize r)))
  end.

(* mem_node.go 183-199 MemNode.GetByIndex; index is a uint32 *)
Fixpoint get_by_index_rec (n : node) (index : Z) : option (bytes * bytes) :=
  match n with
  | Leaf nk nv _ => if index =? 0 then Some (nk, nv) else None
  | Branch _ _ _ _ l r =>
      let left_size := u32 (nsize l) in
      if index <? left_size then get_by_index_rec l index
      else get_by_index_rec r (u32 (index - left_size))
  end.

(* ---------------- tree.go ---------------- *)

(* Tree (tree.go 22-35), without the snapshot handle and with a cache that
   may evict at will: an association list, None when the cache is disabled *)
Record tree := Tree {
  t_version : Z;
  t_root : root;
  t_cache : option (list (bytes * bytes))
}.

Definition new_cache (enabled : bool) : option (list (bytes * bytes)) :=
  if enabled then Some [] else None.

(* tree.go 44-55 NewEmptyTree; the overflow panic is not modelled *)
Definition new_empty_tree (version : Z) (cached : bool) : tree := Tree version None (new_cache cached).

Definition cache_remove (c : list (bytes * bytes)) (k : bytes) : list (bytes * bytes) :=
  filter (fun p => negb (beqb (fst p) k)) c.
Definition cache_add (c : list (bytes * bytes)) (k v : bytes) : list (bytes * bytes) :=
  (k, v) :: cache_remove c k.
Definition cache_find (c : list (bytes * bytes)) (k : bytes) : option bytes :=
  option_map snd (find (fun p => beqb (fst p) k) c).

(* tree.go 141-150 set; value None is nil *)
Definition tree_set (t : tree) (k : bytes) (v : option bytes) : option tree :=
  let v := match v with Some v => v | None => [] end in
  obind (match t_root t with
         | None => Some (Leaf k v (t_version t + 1))
         | Some n => option_map fst (set_rec n k v (t_version t + 1))
         end)
    (fun n => Some (Tree (t_version t) (Some n) (option_map (fun c => cache_add c k v) (t_cache t)))).

(* tree.go 152-157 remove *)
Definition tree_remove (t : tree) (k : bytes) : option tree :=
  obind (match t_root t with
         | None => Some None
         | Some n =>
             obind (remove_rec n k (t_version t + 1)) (fun res =>
               Some (match res with NotFound => Some n | Removed _ rest _ => rest end))
         end)
    (fun r => Some (Tree (t_version t) r (option_map (fun c => cache_remove c k) (t_cache t)))).

(* one key-value pair of a change set (iavl.proto KVPair) *)
Record kvpair := KV { kv_delete : bool; kv_key : bytes; kv_value : option bytes }.

(* tree.go 131-139 ApplyChangeSet *)
Fixpoint apply_change_set (t : tree) (cs : list kvpair) : option tree :=
  match cs with
  | [] => Some t
  | p :: cs' =>
      obind (if kv_delete p then tree_remove t (kv_key p) else tree_set t (kv_key p) (kv_value p))
            (fun t' => apply_change_set t' cs')
  end.

(* tree.go 160-172 SaveVersion (hash left to HashModel.v) *)
Definition save_version (t : tree) : res tree :=
  if t_version t =? 2 ^ 32 - 1 then Err
  else Ok (Tree (t_version t + 1) (t_root t) (t_cache t)).

(* tree.go 188-198 GetWithIndex *)
Definition get_with_index (t : tree) (k : bytes) : Z * option bytes :=
  match t_root t with
  | None => (0, None)
  | Some n => let '(v, i) := get_rec n k in (i, v)
  end.

(* tree.go 200-214 GetByIndex; index is int64 *)
Definition get_by_index (t : tree) (index : Z) : option (bytes * bytes) :=
  if 2 ^ 32 - 1 <? index then None
  else match t_root t with
       | None => None
       | Some n => get_by_index_rec n (u32 index)
       end.

(* tree.go 216-232 Get: answer and tree with updated cache *)
Definition tree_get (t : tree) (k : bytes) : option bytes * tree :=
  match obind (t_cache t) (fun c => cache_find c k) with
  | Some v => (Some v, t)
  | None =>
      match snd (get_with_index t k) with
      | None => (None, t)
      | Some v => (Some v, Tree (t_version t) (t_root t) (option_map (fun c => cache_add c k v) (t_cache t)))
      end
  end.

(* ---------------- iterator.go ---------------- *)

(* iterator.go 5-17; start/end None = nil; top of the stack is the list head *)
Record iterator := Iter {
  it_start : option bytes; it_end : option bytes; it_asc : bool; it_stack : list node }.

(* iterator.go 76-79: bytes.Compare(nil, key) = bytes.Compare(empty, key) *)
Definition start_cmp (start : option bytes) (key : bytes) : comparison :=
  bcmp (match start with Some s => s | None => [] end) key.
Definition after_start (start : option bytes) (key : bytes) : bool :=
  match start with None => true | Some _ => match start_cmp start key with Lt => true | _ => false end end.
Definition before_end (en : option bytes) (key : bytes) : bool :=
  match en with None => true | Some e => bltb key e end.

(* iterator.go 68-107: one turn of the loop in Next.  Left = pair found (with
   the remaining stack), Right = continue with this stack, None = stack empty *)
Definition next_turn (it : iterator) : option ((bytes * bytes) * list node + list node) :=
  match it_stack it with
  | [] => None
  | n :: st =>
      let a := after_start (it_start it) (nkey n) in
      let b := before_end (it_end it) (nkey n) in
      Some (match n with
      | Leaf k v _ =>
          let start_or_after := a || match start_cmp (it_start it) k with Eq => true | _ => false end in
          if start_or_after && b then inl ((k, v), st) else inr st
      | Branch _ _ _ _ l r =>
          if it_asc it then
            inr ((if a then [l] else []) ++ (if b then [r] else []) ++ st)
          else
            inr ((if b then [r] else []) ++ (if a then [l] else []) ++ st)
      end)
  end.

(* number of loop turns that certainly suffices: nodes on the stack *)
Fixpoint node_count (n : node) : nat :=
  match n with Leaf _ _ _ => 1 | Branch _ _ _ _ l r => S (node_count l + node_count r) end.

(* Next with fuel: outer None = fuel exhausted; inner None = Valid() false *)
Fixpoint next (fuel : nat) (it : iterator) : option (option ((bytes * bytes) * iterator)) :=
  match fuel with
  | O => None
  | S fuel' =>
      match next_turn it with
      | None => Some None
      | Some (inl (kv, st)) => Some (Some (kv, Iter (it_start it) (it_end it) (it_asc it) st))
      | Some (inr st) => next fuel' (Iter (it_start it) (it_end it) (it_asc it) st)
      end
  end.

(* NewIterator (19-35) followed by reading all pairs until Valid() is false *)
Fixpoint drain (fuel : nat) (it : iterator) : option (list (bytes * bytes)) :=
  match fuel with
  | O => None
  | S fuel' =>
      match next fuel it with
      | None => None
      | Some None => Some []
      | Some (Some (kv, it')) => option_map (cons kv) (drain fuel' it')
      end
  end.

Definition stack_count (st : list node) : nat := fold_right (fun n acc => (node_count n + acc)%nat) O st.

Definition iterate (t : tree) (start en : option bytes) (asc : bool) : option (list (bytes * bytes)) :=
  let st := match t_root t with Some n => [n] | None => [] end in
  drain (S (stack_count st)) (Iter start en asc st).

(* ---------------- histories ---------------- *)

(* Calls made on a tree.  OpEvict models the LRU cache dropping an entry at any
   moment; OpCopy continues on a copy, which gets a fresh cache (119-128). *)
Inductive op :=
| OpSet (k : bytes) (v : option bytes)
| OpRemove (k : bytes)
| OpGet (k : bytes)
| OpEvict (k : bytes)
| OpSave
| OpCopy (cached : bool).

Definition step (t : tree) (o : op) : option tree :=
  match o with
  | OpSet k v => tree_set t k v
  | OpRemove k => tree_remove t k
  | OpGet k => Some (snd (tree_get t k))
  | OpEvict k => Some (Tree (t_version t) (t_root t) (option_map (fun c => cache_remove c k) (t_cache t)))
  | OpSave => Some (match save_version t with Ok t' => t' | _ => t end)
  | OpCopy cached => Some (Tree (t_version t) (t_root t) (new_cache cached))
  end.

Fixpoint run (t : tree) (ops : list op) : option tree :=
  match ops with
  | [] => Some t
  | o :: ops' => obind (step t o) (fun t' => run t' ops')
  end.
