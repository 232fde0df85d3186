(* Go maps with integer-like keys, as association lists. *)
From Coq Require Import ZArith NArith List Bool Lia Permutation Sorted.
Import ListNotations.
Open Scope N_scope.

Section Amap.
Context {V : Type}.
Implicit Types m : list (N * V).

Fixpoint aget m (k : N) : option V :=
  match m with [] => None | (k', v) :: m' => if k' =? k then Some v else aget m' k end.

Fixpoint aset m (k : N) (v : V) : list (N * V) :=
  match m with [] => [(k, v)] | (k', w) :: m' => if k' =? k then (k, v) :: m' else (k', w) :: aset m' k v end.

Fixpoint adel m (k : N) : list (N * V) :=
  match m with [] => [] | (k', w) :: m' => if k' =? k then adel m' k else (k', w) :: adel m' k end.

Definition akeys m : list N := map fst m.

Lemma aget_aset_same m k v : aget (aset m k v) k = Some v.
Proof.
  induction m as [|[k' w] m IH]; cbn; [rewrite N.eqb_refl; reflexivity|].
  destruct (k' =? k) eqn:E; cbn; [rewrite N.eqb_refl; reflexivity|rewrite E; exact IH].
Qed.

Lemma aget_aset_other m k v k2 : k <> k2 -> aget (aset m k v) k2 = aget m k2.
Proof.
  intro H. induction m as [|[k' w] m IH]; cbn.
  - destruct (N.eqb_spec k k2); [contradiction|reflexivity].
  - destruct (N.eqb_spec k' k) as [->|E]; cbn.
    + destruct (N.eqb_spec k k2); [contradiction|reflexivity].
    + destruct (k' =? k2); [reflexivity|exact IH].
Qed.

Lemma aget_aset m k v k2 : aget (aset m k v) k2 = if k =? k2 then Some v else aget m k2.
Proof.
  destruct (N.eqb_spec k k2) as [->|H]; [apply aget_aset_same|apply aget_aset_other; exact H].
Qed.

Lemma aget_adel m k k2 : aget (adel m k) k2 = if k =? k2 then None else aget m k2.
Proof.
  induction m as [|[k' w] m IH]; cbn; [destruct (k =? k2); reflexivity|].
  destruct (N.eqb_spec k' k) as [->|E].
  - rewrite IH. destruct (k =? k2); reflexivity.
  - cbn. rewrite IH. destruct (N.eqb_spec k' k2) as [->|]; [|reflexivity].
    destruct (N.eqb_spec k k2); [congruence|reflexivity].
Qed.

Lemma adel_absent m k : aget m k = None -> adel m k = m.
Proof.
  induction m as [|[k' w] m IH]; cbn; [reflexivity|].
  destruct (k' =? k); [discriminate|]. intro H. rewrite IH by exact H. reflexivity.
Qed.

Lemma adel_aset_absent m k v : aget m k = None -> adel (aset m k v) k = m.
Proof.
  induction m as [|[k' w] m IH]; cbn; [rewrite N.eqb_refl; reflexivity|].
  destruct (k' =? k) eqn:E; [discriminate|]. intro H. cbn. rewrite E, IH by exact H. reflexivity.
Qed.

Lemma aset_present m k v : aget m k = Some v -> aset m k v = m.
Proof.
  induction m as [|[k' w] m IH]; cbn; [discriminate|].
  destruct (N.eqb_spec k' k) as [->|E]; [intro H; injection H as ->; reflexivity|].
  intro H. rewrite IH by exact H. reflexivity.
Qed.

Lemma aset_aset m k v w : aset (aset m k v) k w = aset m k w.
Proof.
  induction m as [|[k' x] m IH]; cbn; [rewrite N.eqb_refl; reflexivity|].
  destruct (k' =? k) eqn:E; cbn; [rewrite N.eqb_refl; reflexivity|rewrite E, IH; reflexivity].
Qed.

Lemma aget_in m k v : aget m k = Some v -> In k (akeys m).
Proof.
  induction m as [|[k' w] m IH]; cbn; [discriminate|].
  destruct (N.eqb_spec k' k); [auto|]. intro H. right. apply IH. exact H.
Qed.

Lemma in_akeys m k : In k (akeys m) -> exists v, aget m k = Some v.
Proof.
  induction m as [|[k' w] m IH]; cbn; [contradiction|].
  destruct (N.eqb_spec k' k) as [->|E]; [eauto|]. intros [H|H]; [contradiction|]. apply IH. exact H.
Qed.

Lemma akeys_in_iff m k : In k (akeys m) <-> aget m k <> None.
Proof.
  split; [intro H; destruct (in_akeys m k H) as [v E]; congruence|].
  destruct (aget m k) eqn:E; [intros _; eapply aget_in; exact E|congruence].
Qed.

Lemma akeys_aset m k v : aget m k <> None -> akeys (aset m k v) = akeys m.
Proof.
  induction m as [|[k' w] m IH]; cbn; [congruence|].
  destruct (N.eqb_spec k' k) as [->|E]; [reflexivity|].
  intro H. cbn. unfold akeys in IH. rewrite IH by exact H. reflexivity.
Qed.

Lemma akeys_aset_new m k v : aget m k = None -> akeys (aset m k v) = akeys m ++ [k].
Proof.
  induction m as [|[k' w] m IH]; cbn; [reflexivity|].
  destruct (N.eqb_spec k' k) as [->|E]; [discriminate|].
  intro H. cbn. unfold akeys in IH. rewrite IH by exact H. reflexivity.
Qed.

Lemma nodup_aset m k v : NoDup (akeys m) -> NoDup (akeys (aset m k v)).
Proof.
  intro H. destruct (aget m k) eqn:E; [rewrite akeys_aset by congruence; exact H|].
  rewrite akeys_aset_new by exact E.
  apply (Permutation_NoDup (l := k :: akeys m)); [apply Permutation_cons_append|].
  constructor; [|exact H]. rewrite akeys_in_iff. congruence.
Qed.

Lemma akeys_adel_incl m k x : In x (akeys (adel m k)) -> In x (akeys m).
Proof.
  induction m as [|[k' w] m IH]; cbn; [auto|].
  destruct (k' =? k); [right; auto|]. cbn. intros [H|H]; auto.
Qed.

Lemma nodup_adel m k : NoDup (akeys m) -> NoDup (akeys (adel m k)).
Proof.
  induction m as [|[k' w] m IH]; cbn; [auto|]. intro H. inversion H as [|? ? Hn Hd]; subst.
  destruct (k' =? k); [apply IH; exact Hd|]. cbn. constructor; [|apply IH; exact Hd].
  intro I. apply Hn. eapply akeys_adel_incl. exact I.
Qed.
End Amap.

(* sort.Slice on fixed-width byte strings: ascending numeric order *)
Fixpoint ninsert (x : N) (l : list N) : list N :=
  match l with [] => [x] | y :: l' => if x <=? y then x :: l else y :: ninsert x l' end.
Definition nsort (l : list N) : list N := fold_right ninsert [] l.

Lemma ninsert_perm x l : Permutation (ninsert x l) (x :: l).
Proof.
  induction l as [|y l IH]; cbn; [reflexivity|].
  destruct (x <=? y); [reflexivity|].
  rewrite IH. apply perm_swap.
Qed.

Lemma nsort_perm l : Permutation (nsort l) l.
Proof.
  induction l as [|x l IH]; cbn; [reflexivity|]. rewrite ninsert_perm, IH. reflexivity.
Qed.

Lemma nsort_in l x : In x (nsort l) <-> In x l.
Proof. split; apply Permutation_in; [|symmetry]; apply nsort_perm. Qed.

Lemma nsort_nodup l : NoDup l -> NoDup (nsort l).
Proof. apply Permutation_NoDup. symmetry. apply nsort_perm. Qed.
