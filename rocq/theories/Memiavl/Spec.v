(* Specification of a key-value tree: functions from keys to values and sorted
   association lists. *)
From Verif Require Import Lib.Base Lib.Bytes Memiavl.Model.
From Coq Require Export Sorting.Sorted.
Open Scope Z_scope.

(* the map denoted by a history of writes, newest last *)
Definition kvmap := bytes -> option bytes.
Definition empty_map : kvmap := fun _ => None.
Definition upd (m : kvmap) (k : bytes) (v : option bytes) : kvmap :=
  fun x => if beqb k x then v else m x.

Definition apply_pair (m : kvmap) (p : kvpair) : kvmap :=
  upd m (kv_key p)
      (if kv_delete p then None
       else Some (match kv_value p with Some v => v | None => [] end)).
Definition apply_pairs (m : kvmap) (cs : list kvpair) : kvmap := fold_left apply_pair cs m.

(* strictly increasing keys *)
Definition key_lt (a b : bytes * bytes) : Prop := blt (fst a) (fst b).
Definition sorted (l : list (bytes * bytes)) : Prop := StronglySorted key_lt l.

(* l lists exactly the bindings of m, in key order *)
Definition lists (l : list (bytes * bytes)) (m : kvmap) : Prop :=
  sorted l /\ forall k v, In (k, v) l <-> m k = Some v.

(* range [start, end) with None = unbounded *)
Definition in_range (start en : option bytes) (k : bytes) : bool :=
  match start with Some s => negb (bltb k s) | None => true end &&
  match en with Some e => bltb k e | None => true end.

(* shape of a balanced search tree *)
Fixpoint leaves (n : node) : list (bytes * bytes) :=
  match n with
  | Leaf k v _ => [(k, v)]
  | Branch _ _ _ _ l r => leaves l ++ leaves r
  end.

Fixpoint depth (n : node) : Z :=
  match n with Leaf _ _ _ => 0 | Branch _ _ _ _ l r => 1 + Z.max (depth l) (depth r) end.

Fixpoint balanced (n : node) : Prop :=
  match n with
  | Leaf _ _ _ => True
  | Branch _ _ _ _ l r => balanced l /\ balanced r /\ -1 <= depth l - depth r <= 1
  end.

(* the stored height and size fields are the real ones *)
Fixpoint fields_exact (n : node) : Prop :=
  match n with
  | Leaf _ _ _ => True
  | Branch _ h s _ l r =>
      fields_exact l /\ fields_exact r /\ h = depth n /\ s = Z.of_nat (length (leaves n))
  end.

(* the key of an inner node is the smallest key of its right subtree and all
   keys on the left are smaller *)
Fixpoint keys_exact (n : node) : Prop :=
  match n with
  | Leaf _ _ _ => True
  | Branch k _ _ _ l r =>
      keys_exact l /\ keys_exact r /\
      (exists v tl, leaves r = (k, v) :: tl) /\
      (forall x v, In (x, v) (leaves l) -> blt x k)
  end.

Definition root_ok (P : node -> Prop) (r : root) : Prop :=
  match r with None => True | Some n => P n end.
Definition root_leaves (r : root) : list (bytes * bytes) :=
  match r with None => [] | Some n => leaves n end.

(* the map after a history: only sets and removes matter, and only for their
   own key *)
Definition op_map (m : kvmap) (o : op) : kvmap :=
  match o with
  | OpSet k v => upd m k (Some (match v with Some v => v | None => [] end))
  | OpRemove k => upd m k None
  | _ => m
  end.
Definition history_map (ops : list op) : kvmap := fold_left op_map ops empty_map.
