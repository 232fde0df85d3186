(* Who should be admitted after a history of messages, for C123. *)
From Verif Require Import Lib.Base Lib.Bytes Hyperion.Whitelist.
Open Scope Z_scope.

Definition m_by (m : msg) : Z := match m with SetAll s _ _ | AddOne s _ _ | RemoveOne s _ _ => s end.
Definition m_id (m : msg) : Z := match m with SetAll _ id _ | AddOne _ id _ | RemoveOne _ id _ => id end.
Definition m_texts (m : msg) : list bytes := match m with SetAll _ _ xs => xs | AddOne _ _ x | RemoveOne _ _ x => [x] end.

Section Spec.
Variable read : bytes -> option Z.
Variable authority : Z.
(* the sender is the authority or set up a bridge to the chain of that number *)
Definition entitled (bs : list bridge) (m : msg) : Prop :=
  exists b before after, bs = before ++ b :: after /\ b_chain b = m_id m /\ (forall c, In c before -> b_chain c <> m_id m) /\ (m_by m = authority \/ m_by m = b_init b).
Definition readable (m : msg) : Prop := forall x, In x (m_texts m) -> exists a, read x = Some a.
(* the accounts a text stands for *)
Definition names (xs : list bytes) (a : Z) : Prop := exists x, In x xs /\ read x = Some a.
(* who is admitted after a message that was accepted, given who was listed before *)
Definition after (m : msg) (before : Z -> Prop) (a : Z) : Prop :=
  match m with
  | SetAll _ _ xs => names xs a
  | AddOne _ _ x => before a \/ read x = Some a
  | RemoveOne _ _ x => before a /\ read x <> Some a
  end.
End Spec.
