From Verif Require Import Lib.Base Lib.Bytes Lib.Codec Extsort.Model.
From Coq Require Export Permutation Sorting.Sorted.
Open Scope Z_scope.

(* a Go less function that is a strict weak order *)
Definition weak_order (less : bytes -> bytes -> bool) : Prop :=
  (forall a b, less a b = true -> less b a = false) /\
  (forall a b c, less b a = false -> less c b = false -> less c a = false).
Definition le_of (less : bytes -> bytes -> bool) (a b : bytes) : Prop := less b a = false.
Definition sorted_by (less : bytes -> bytes -> bool) (l : list bytes) : Prop := StronglySorted (le_of less) l.

(* what sort.Slice promises *)
Definition sorts (less : bytes -> bytes -> bool) (f : list bytes -> list bytes) : Prop :=
  forall l, Permutation l (f l) /\ sorted_by less (f l).

(* a stream that gives these items and then the end *)
Inductive yields : stream -> list bytes -> Prop :=
| yields_nil s : stream_next s = Eof -> yields s []
| yields_cons s x s' l : stream_next s = Item (x, s') -> yields s' l -> yields s (x :: l).

(* items fed by a schedule *)
Fixpoint fed (es : list sstep) : list bytes :=
  match es with [] => [] | SFeed x :: es' => x :: fed es' | SFinish _ :: es' => fed es' end.
