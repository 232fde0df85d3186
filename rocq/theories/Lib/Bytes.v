(* Byte strings with the order of Go's bytes.Compare.  A byte is an N; no
   theorem needs the bound 256 unless it says so. *)
From Verif Require Import Lib.Base.
From Coq Require Import NArith.

Definition bytes := list N.

(* bytes.Compare: lexicographic, a proper prefix is smaller *)
Fixpoint bcmp (a b : bytes) : comparison :=
  match a, b with
  | [], [] => Eq
  | [], _ :: _ => Lt
  | _ :: _, [] => Gt
  | x :: a', y :: b' =>
      match N.compare x y with
      | Eq => bcmp a' b'
      | c => c
      end
  end.

Definition blt (a b : bytes) : Prop := bcmp a b = Lt.
Definition ble (a b : bytes) : Prop := bcmp a b <> Gt.
Definition bltb (a b : bytes) : bool := match bcmp a b with Lt => true | _ => false end.
Definition beqb (a b : bytes) : bool := match bcmp a b with Eq => true | _ => false end.

Lemma bcmp_refl a : bcmp a a = Eq.
Proof. induction a as [|x a IH]; [reflexivity|]. cbn. rewrite N.compare_refl. exact IH. Qed.

Lemma bcmp_eq a b : bcmp a b = Eq <-> a = b.
Proof.
  split; [|intros ->; apply bcmp_refl].
  revert b. induction a as [|x a IH]; intros [|y b]; cbn; try discriminate; [reflexivity|].
  destruct (N.compare_spec x y) as [->|H|H]; try discriminate.
  intros H. f_equal. apply IH. exact H.
Qed.

Lemma bcmp_antisym a b : bcmp b a = CompOpp (bcmp a b).
Proof.
  revert b. induction a as [|x a IH]; intros [|y b]; cbn; try reflexivity.
  rewrite (N.compare_antisym x y). destruct (N.compare x y); cbn; auto.
Qed.

Lemma blt_trans a b c : blt a b -> blt b c -> blt a c.
Proof.
  unfold blt. revert b c. induction a as [|x a IH]; intros [|y b] [|z c]; cbn; try discriminate; try reflexivity.
  destruct (N.compare_spec x y) as [->|H1|H1]; destruct (N.compare_spec y z) as [->|H2|H2];
    try discriminate; intros A B.
  - eapply IH; eassumption.
  - reflexivity.
  - rewrite (proj2 (N.compare_lt_iff _ _)) by lia. reflexivity.
  - rewrite (proj2 (N.compare_lt_iff _ _)) by lia. reflexivity.
Qed.

Lemma blt_irrefl a : ~ blt a a.
Proof. unfold blt. rewrite bcmp_refl. discriminate. Qed.

Lemma bgt_lt a b : bcmp a b = Gt <-> blt b a.
Proof. unfold blt. rewrite (bcmp_antisym a b). destruct (bcmp a b); cbn; split; congruence. Qed.

Lemma ble_lt_or_eq a b : ble a b <-> blt a b \/ a = b.
Proof.
  unfold ble, blt. split.
  - destruct (bcmp a b) eqn:E; intros H; [right; apply bcmp_eq; exact E|left; reflexivity|congruence].
  - intros [H| ->]; [congruence|rewrite bcmp_refl; discriminate].
Qed.

Lemma ble_refl a : ble a a.
Proof. apply ble_lt_or_eq. right; reflexivity. Qed.

Lemma ble_not_lt a b : ble a b <-> ~ blt b a.
Proof. unfold ble. rewrite <- bgt_lt. tauto. Qed.

Lemma blt_le_trans a b c : blt a b -> ble b c -> blt a c.
Proof. intros H1 H2. apply ble_lt_or_eq in H2. destruct H2 as [H2| ->]; [eapply blt_trans; eassumption|exact H1]. Qed.

Lemma ble_lt_trans a b c : ble a b -> blt b c -> blt a c.
Proof. intros H1 H2. apply ble_lt_or_eq in H1. destruct H1 as [H1| ->]; [eapply blt_trans; eassumption|exact H2]. Qed.

Lemma ble_trans a b c : ble a b -> ble b c -> ble a c.
Proof.
  intros H1 H2. apply ble_lt_or_eq in H1. destruct H1 as [H1| ->]; [|exact H2].
  apply ble_lt_or_eq. left. eapply blt_le_trans; eassumption.
Qed.

Lemma blt_le a b : blt a b -> ble a b.
Proof. intros. apply ble_lt_or_eq. auto. Qed.

Lemma bltb_spec a b : bltb a b = true <-> blt a b.
Proof. unfold bltb, blt. destruct (bcmp a b); split; congruence. Qed.

Lemma bltb_false a b : bltb a b = false <-> ble b a.
Proof. rewrite ble_not_lt, <- bltb_spec. destruct (bltb a b); split; congruence. Qed.

Lemma beqb_spec a b : beqb a b = true <-> a = b.
Proof. unfold beqb. rewrite <- bcmp_eq. destruct (bcmp a b); split; congruence. Qed.

Lemma beqb_refl a : beqb a a = true.
Proof. apply beqb_spec. reflexivity. Qed.

Lemma beqb_neq a b : beqb a b = false <-> a <> b.
Proof. rewrite <- beqb_spec. destruct (beqb a b); split; congruence. Qed.

Lemma blt_neq a b : blt a b -> a <> b.
Proof. intros H ->. exact (blt_irrefl _ H). Qed.

Lemma bcmp_spec a b : CompareSpec (a = b) (blt a b) (blt b a) (bcmp a b).
Proof.
  destruct (bcmp a b) eqn:E; constructor.
  - apply bcmp_eq; exact E.
  - exact E.
  - apply bgt_lt; exact E.
Qed.

Lemma bytes_eq_dec (a b : bytes) : {a = b} + {a <> b}.
Proof. apply list_eq_dec. apply N.eq_dec. Qed.

Lemma blt_nil_r a : ~ blt a [].
Proof. destruct a; discriminate. Qed.
