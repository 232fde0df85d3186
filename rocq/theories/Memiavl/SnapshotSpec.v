(* What it means for a persisted node to stand for a tree value. *)
From Verif Require Import Lib.Base Lib.Bytes Lib.Codec Memiavl.Model Memiavl.Spec Memiavl.HashModel
  Memiavl.SnapshotModel.
Open Scope Z_scope.

(* every accessor of the persisted node p answers as the in-memory node n
   would, and so on recursively through Left and Right *)
Fixpoint represents (sha : bytes -> bytes) (f : files) (p : pnode) (n : node) : Prop :=
  p_height f p = Some (nheight n) /\ p_size f p = Some (nsize n) /\
  p_version f p = Some (nversion n) /\ p_key f p = Some (nkey n) /\
  p_hash f p = Some (nhash sha n) /\
  match n with
  | Leaf _ v _ => p_leaf p = true /\ p_value f p = Some v
  | Branch _ _ _ _ l r =>
      p_leaf p = false /\
      exists pl pr, p_left f p = Some pl /\ p_right f p = Some pr /\
        represents sha f pl l /\ represents sha f pr r
  end.

(* limits of the file format: 32-bit versions and lengths, less than 2^63
   bytes of keys and values *)
Fixpoint fits (n : node) : Prop :=
  match n with
  | Leaf k v ver => blen k < 2 ^ 32 /\ blen v < 2 ^ 32 /\ 0 <= ver < 2 ^ 32
  | Branch _ _ _ ver l r => 0 <= ver < 2 ^ 32 /\ fits l /\ fits r
  end.

Fixpoint kvs_size (n : node) : Z :=
  match n with
  | Leaf k v _ => 8 + blen k + blen v
  | Branch _ _ _ _ l r => kvs_size l + kvs_size r
  end.

Definition storable (t : tree) : Prop :=
  0 <= t_version t < 2 ^ 32 /\
  root_ok (fun n => fits n /\ kvs_size n < 2 ^ 63 /\ Z.of_nat (length (leaves n)) < 2 ^ 32) (t_root t).

(* children before parents, left before right *)
Fixpoint post_order (n : node) : list node :=
  match n with
  | Leaf _ _ _ => [n]
  | Branch _ _ _ _ l r => post_order l ++ post_order r ++ [n]
  end.

Definition root_post (r : root) : list node := match r with None => [] | Some n => post_order n end.

(* following Left (false) and Right (true) links *)
Fixpoint node_at (n : node) (path : list bool) {struct path} : option node :=
  match path with
  | [] => Some n
  | b :: path' =>
      match n with
      | Leaf _ _ _ => None
      | Branch _ _ _ _ l r => node_at (if b then r else l) path'
      end
  end.

Fixpoint pnode_at (f : files) (p : pnode) (path : list bool) : option pnode :=
  match path with
  | [] => Some p
  | b :: path' => obind (if b then p_right f p else p_left f p) (fun p' => pnode_at f p' path')
  end.

(* a mixed tree stands for the tree value n: in-memory nodes are equal, the
   rest are persisted nodes standing for subtrees of the snapshotted tree *)
Inductive stands (f : files) (p0 : pnode) (n0 : node) : mixed -> node -> Prop :=
| st_pers path p n : pnode_at f p0 path = Some p -> node_at n0 path = Some n -> stands f p0 n0 (MPers p) n
| st_leaf k v ver : stands f p0 n0 (MLeaf k v ver) (Leaf k v ver)
| st_branch k h s ver l r nl nr : stands f p0 n0 l nl -> stands f p0 n0 r nr ->
    stands f p0 n0 (MBranch k h s ver l r) (Branch k h s ver nl nr).
