(* What a verifier computes from an existence proof (ICS-23 ExistenceProof
   .Calculate with SHA-256, VAR_PROTO length and pre-hashed value), and what a
   collision is. *)
From Verif Require Import Lib.Base Lib.Bytes Lib.Codec Memiavl.Model Memiavl.Spec Memiavl.ProofModel.
Open Scope Z_scope.

Definition calculate (sha : bytes -> bytes) (p : exist_proof) : bytes :=
  fold_left (fun h op => sha (io_prefix op ++ h ++ io_suffix op)) (ep_path p)
            (sha (ep_leaf_prefix p ++ lp (ep_key p) ++ lp (sha (ep_value p)))).

Definition proves (sha : bytes -> bytes) (root key value : bytes) (p : exist_proof) : Prop :=
  ep_key p = key /\ ep_value p = value /\ calculate sha p = root.

Definition collision (sha : bytes -> bytes) : Prop := exists x y, x <> y /\ sha x = sha y.

(* everything fits in the integer types of the code *)
Fixpoint bounded (n : node) : Prop :=
  match n with
  | Leaf k _ ver => blen k < 2 ^ 63 /\ 0 <= ver < 2 ^ 32
  | Branch _ h s ver l r => 0 <= h < 2 ^ 31 /\ 0 <= s < 2 ^ 63 /\ 0 <= ver < 2 ^ 32 /\ bounded l /\ bounded r
  end.
