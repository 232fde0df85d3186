(* memiavl/proof.go: ICS-23 existence and non-existence proofs.
   The ics23 library itself (verification) is not in /repo; the part of its
   calculation that matters is restated in ProofSpec.v. *)
From Verif Require Import Lib.Base Lib.Bytes Lib.Codec Memiavl.Model Memiavl.HashModel.
Open Scope Z_scope.

(* iavl.ProofInnerNode as built by pathToLeaf; None = nil sibling hash *)
Record inner := Inner { pi_height : Z; pi_size : Z; pi_version : Z; pi_left : option bytes; pi_right : option bytes }.

(* ics23.InnerOp: sha(prefix ++ child ++ suffix) *)
Record inner_op := InnerOp { io_prefix : bytes; io_suffix : bytes }.

(* ics23.ExistenceProof with the leaf op of convertLeafOp (its hash, prehash
   and length operations are constants) *)
Record exist_proof := Exist { ep_key : bytes; ep_value : bytes; ep_leaf_prefix : bytes; ep_path : list inner_op }.

Record nonexist_proof := Nonexist { np_key : bytes; np_left : option exist_proof; np_right : option exist_proof }.

Section Proof.
Variable sha : bytes -> bytes.

(* proof.go 160-200 pathToLeaf on a non-nil node; the boolean is "err == nil".
   The path starts at the root.  int8(height) is kept as height: heights are
   below 128 (C02). *)
Fixpoint path_to_leaf (n : node) (key : bytes) : list inner * node * bool :=
  match n with
  | Leaf k _ _ => ([], n, beqb k key)
  | Branch k h s ver l r =>
      if bltb key k then
        let '(path, leaf, ok) := path_to_leaf l key in
        (Inner h s ver None (Some (nhash sha r)) :: path, leaf, ok)
      else
        let '(path, leaf, ok) := path_to_leaf r key in
        (Inner h s ver (Some (nhash sha l)) None :: path, leaf, ok)
  end.

(* proof.go 95-107 convertLeafOp: the prefix *)
Definition leaf_op_prefix (version : Z) : bytes := varint 0 ++ varint 1 ++ varint version.

(* proof.go 120-147: one step; len(path[i].Left) > 0 *)
Definition convert_inner (p : inner) : inner_op :=
  let prefix := varint (pi_height p) ++ varint (pi_size p) ++ varint (pi_version p) in
  match pi_left p with
  | Some (x :: l) => InnerOp (prefix ++ [32%N] ++ (x :: l) ++ [32%N]) []
  | _ => InnerOp (prefix ++ [32%N]) ([32%N] ++ match pi_right p with Some r => r | None => [] end)
  end.

(* proof.go 110-150 convertInnerOps: from the leaf up *)
Definition convert_inner_ops (path : list inner) : list inner_op := rev (map convert_inner path).

Definition node_value (n : node) : bytes := match n with Leaf _ v _ => v | _ => [] end.

(* proof.go 84-92 createExistenceProof; Panic = nil root, Err = key not found *)
Definition create_existence_proof (r : root) (key : bytes) : res exist_proof :=
  match r with
  | None => Panic
  | Some n =>
      let '(path, leaf, ok) := path_to_leaf n key in
      if ok then Ok (Exist (nkey leaf) (node_value leaf) (leaf_op_prefix (nversion leaf)) (convert_inner_ops path))
      else Err
  end.

(* proof.go 17-28 GetMembershipProof *)
Definition get_membership_proof (t : tree) (key : bytes) : res exist_proof := create_existence_proof (t_root t) key.

(* proof.go 41-75 GetNonMembershipProof *)
Definition get_non_membership_proof (t : tree) (key : bytes) : res nonexist_proof :=
  let '(idx, val) := get_with_index t key in
  match val with
  | Some _ => Err
  | None =>
      rbind (if 1 <=? idx then
               match get_by_index t (idx - 1) with
               | Some (lk, _) => rbind (create_existence_proof (t_root t) lk) (fun p => Ok (Some p))
               | None => rbind (create_existence_proof (t_root t) []) (fun p => Ok (Some p))
               end
             else Ok None) (fun left =>
      rbind (match get_by_index t idx with
             | Some (rk, _) => rbind (create_existence_proof (t_root t) rk) (fun p => Ok (Some p))
             | None => Ok None
             end) (fun right =>
      Ok (Nonexist key left right)))
  end.
End Proof.
