(* What a registration on a bridge means, for C121. *)
From Verif Require Import Lib.Base Lib.Zmap Hyperion.Delegate.
Open Scope Z_scope.

Definition acts_for (s : st) (o v : Z) : Prop := zget (s_orch s) o = Some v.
Definition signs_with (s : st) (v key : Z) : Prop := zget (s_key s) v = Some key.
Definition belongs_to (s : st) (key v : Z) : Prop := zget (s_owner s) key = Some v.
Definition asks (s : st) (v fee : Z) : Prop := zget (s_fee s) v = Some fee.
Definition sender (m : msg) : Z :=
  match m with Register v _ _ _ _ | RegisterFee v _ _ _ _ _ _ | UpdateFee v _ _ _ | DeleteFee v | Unregister v _ => v end.
(* nobody acts as o yet, and v has no key yet *)
Definition unused (s : st) (o v : Z) : Prop := (forall w, ~ acts_for s o w) /\ (forall k, ~ signs_with s v k).
(* nothing but the entries of o, v and key can differ *)
Definition others_same (s s' : st) (o v key : Z) : Prop :=
  (forall o' w, o' <> o -> (acts_for s' o' w <-> acts_for s o' w)) /\
  (forall w k, w <> v -> (signs_with s' w k <-> signs_with s w k)) /\
  (forall k w, k <> key -> (belongs_to s' k w <-> belongs_to s k w)) /\
  (forall w f, w <> v -> (asks s' w f <-> asks s w f)).
