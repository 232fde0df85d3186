(* memiavl node hashes.  SHA-256 is the Section variable [sha]: theorems hold
   for any function, collision statements produce the colliding inputs. *)
From Verif Require Import Lib.Base Lib.Bytes Lib.Codec Memiavl.Model.
Open Scope Z_scope.

Section Hash.
Variable sha : bytes -> bytes.

(* node.go 141-183 writeHashBytes: the bytes hashed for a leaf; EncodeBytes
   (mem_node.go 203-211) is the uvarint length prefix [lp] *)
Definition leaf_preimage (ver : Z) (key vhash : bytes) : bytes :=
  varint 0 ++ varint 1 ++ varint ver ++ lp key ++ lp vhash.

(* ... and for a branch, from the hashes of its children *)
Definition branch_preimage (height size ver : Z) (hl hr : bytes) : bytes :=
  varint height ++ varint size ++ varint ver ++ lp hl ++ lp hr.

Definition leaf_hash (ver : Z) (key value : bytes) : bytes := sha (leaf_preimage ver key (sha value)).
Definition branch_hash (height size ver : Z) (hl hr : bytes) : bytes :=
  sha (branch_preimage height size ver hl hr).

(* node.go 186-195 HashNode, with every child hash computed the same way
   (HeapModel.v deals with the cached hashes) *)
Fixpoint nhash (n : node) : bytes :=
  match n with
  | Leaf k v ver => leaf_hash ver k v
  | Branch _ h s ver l r => branch_hash h s ver (nhash l) (nhash r)
  end.

(* tree.go 174-180 RootHash: the hash of the empty string for a nil root *)
Definition root_hash (r : root) : bytes :=
  match r with None => sha [] | Some n => nhash n end.
End Hash.
