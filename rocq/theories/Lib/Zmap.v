(* A key-value store whose keys are integers, visited in ascending order. *)
From Coq Require Import ZArith List Bool Lia Sorting.Sorted.
Import ListNotations.
Open Scope Z_scope.

Section Zmap.
Context {V : Type}.
Implicit Types m : list (Z * V).

Fixpoint zget m (k : Z) : option V :=
  match m with [] => None | (k', v) :: m' => if k' =? k then Some v else zget m' k end.

Fixpoint zset m (k : Z) (v : V) : list (Z * V) :=
  match m with
  | [] => [(k, v)]
  | (k', w) :: m' => if k <? k' then (k, v) :: m
                     else if k' =? k then (k, v) :: m'
                     else (k', w) :: zset m' k v
  end.

Fixpoint zdel m (k : Z) : list (Z * V) :=
  match m with [] => [] | (k', w) :: m' => if k' =? k then m' else (k', w) :: zdel m' k end.

Definition zkeys m : list Z := map fst m.
Definition zvals m : list V := map snd m.
Definition zsorted m : Prop := StronglySorted Z.lt (zkeys m).

Lemma zget_in m k v : zget m k = Some v -> In (k, v) m.
Proof.
  induction m as [|[k' w] m IH]; cbn; [discriminate|].
  destruct (Z.eqb_spec k' k) as [E|E].
  - intro H. injection H as ->. left. rewrite E. reflexivity.
  - intro H. right. apply IH, H.
Qed.

Lemma zsorted_cons k w m : zsorted ((k, w) :: m) <-> zsorted m /\ Forall (fun k' => k < k') (zkeys m).
Proof.
  unfold zsorted. cbn. split.
  - intro H. inversion H; subst. split; assumption.
  - intros [A B]. constructor; assumption.
Qed.

Lemma zget_below m k : Forall (fun k' => k < k') (zkeys m) -> zget m k = None.
Proof.
  induction m as [|[k' w] m IH]; cbn; [reflexivity|]. intro H.
  pose proof (Forall_inv H) as A. cbn in A. destruct (Z.eqb_spec k' k); [lia|].
  apply IH, (Forall_inv_tail H).
Qed.

Lemma in_zget m k v : zsorted m -> In (k, v) m -> zget m k = Some v.
Proof.
  induction m as [|[k' w] m IH]; cbn; [tauto|]. intros S [E|I].
  - apply pair_equal_spec in E. destruct E as [-> ->]. rewrite Z.eqb_refl. reflexivity.
  - apply zsorted_cons in S. destruct S as [S F]. destruct (Z.eqb_spec k' k) as [E|E]; [|apply IH; assumption].
    exfalso. rewrite Forall_forall in F. specialize (F k (in_map fst _ _ I)). lia.
Qed.

Lemma zget_in_iff m k v : zsorted m -> (zget m k = Some v <-> In (k, v) m).
Proof. intro S. split; [apply zget_in|apply in_zget, S]. Qed.

Lemma zget_zset_same m k v : zget (zset m k v) k = Some v.
Proof.
  induction m as [|[k' w] m IH]; cbn; [rewrite Z.eqb_refl; reflexivity|].
  destruct (Z.ltb_spec k k'); cbn; [rewrite Z.eqb_refl; reflexivity|].
  destruct (Z.eqb_spec k' k) as [E|E]; cbn; [rewrite Z.eqb_refl; reflexivity|].
  destruct (Z.eqb_spec k' k); [contradiction|exact IH].
Qed.

Lemma zget_zset_other m k v k2 : k <> k2 -> zget (zset m k v) k2 = zget m k2.
Proof.
  intro N. induction m as [|[k' w] m IH]; cbn.
  - destruct (Z.eqb_spec k k2); [contradiction|reflexivity].
  - destruct (Z.ltb_spec k k'); cbn; [destruct (Z.eqb_spec k k2); [contradiction|reflexivity]|].
    destruct (Z.eqb_spec k' k) as [E|E]; cbn.
    + destruct (Z.eqb_spec k k2); [contradiction|]. destruct (Z.eqb_spec k' k2); [congruence|reflexivity].
    + rewrite IH. reflexivity.
Qed.

Lemma zget_zset m k v k2 : zget (zset m k v) k2 = if k =? k2 then Some v else zget m k2.
Proof.
  destruct (Z.eqb_spec k k2) as [E|E]; [rewrite <- E; apply zget_zset_same|apply zget_zset_other, E].
Qed.

Lemma zkeys_zset_in m k v x : In x (zkeys (zset m k v)) -> x = k \/ In x (zkeys m).
Proof.
  induction m as [|[k' w] m IH]; cbn; [intuition|].
  destruct (k <? k'); cbn; [intuition|]. destruct (k' =? k); cbn; intuition.
Qed.

Lemma zset_sorted m k v : zsorted m -> zsorted (zset m k v).
Proof.
  induction m as [|[k' w] m IH]; intro S.
  - apply zsorted_cons. split; [constructor|constructor].
  - cbn. pose proof S as S0. apply zsorted_cons in S. destruct S as [S F].
    destruct (Z.ltb_spec k k') as [L|L].
    + apply zsorted_cons. split; [exact S0|]. constructor; [exact L|].
      rewrite Forall_forall in *. intros x I. specialize (F x I). lia.
    + destruct (Z.eqb_spec k' k) as [E|E].
      * apply zsorted_cons. split; [exact S|]. rewrite <- E. exact F.
      * apply zsorted_cons. split; [apply IH, S|]. rewrite Forall_forall in *. intros x I.
        apply zkeys_zset_in in I. destruct I as [->|I]; [lia|apply F, I].
Qed.

Lemma zkeys_zdel_in m k x : In x (zkeys (zdel m k)) -> In x (zkeys m).
Proof.
  induction m as [|[k' w] m IH]; cbn; [tauto|]. destruct (k' =? k); cbn; tauto.
Qed.

Lemma zdel_sorted m k : zsorted m -> zsorted (zdel m k).
Proof.
  induction m as [|[k' w] m IH]; cbn [zdel]; [tauto|]. intro S. apply zsorted_cons in S. destruct S as [S F].
  destruct (k' =? k); [exact S|]. apply zsorted_cons. split; [apply IH, S|].
  rewrite Forall_forall in *. intros x I. apply F, (zkeys_zdel_in _ _ _ I).
Qed.

Lemma zget_zdel m k k2 : zsorted m -> zget (zdel m k) k2 = if k =? k2 then None else zget m k2.
Proof.
  induction m as [|[k' w] m IH]; cbn; [destruct (k =? k2); reflexivity|]. intro S.
  apply zsorted_cons in S. destruct S as [S F].
  destruct (Z.eqb_spec k' k) as [E|E].
  - destruct (Z.eqb_spec k k2) as [E2|E2].
    + apply zget_below. rewrite <- E2, <- E. exact F.
    + destruct (Z.eqb_spec k' k2); [congruence|reflexivity].
  - cbn. rewrite IH by exact S. destruct (Z.eqb_spec k' k2) as [E2|E2]; [|reflexivity].
    destruct (Z.eqb_spec k k2); [congruence|reflexivity].
Qed.

Lemma zdel_absent m k : zget m k = None -> zdel m k = m.
Proof.
  induction m as [|[k' w] m IH]; cbn; [reflexivity|]. destruct (k' =? k); [discriminate|].
  intro H. rewrite IH by exact H. reflexivity.
Qed.

Lemma zdel_length m k v : zget m k = Some v -> S (length (zdel m k)) = length m.
Proof.
  induction m as [|[k' w] m IH]; cbn; [discriminate|]. destruct (k' =? k); [reflexivity|].
  intro H. cbn. rewrite IH by exact H. reflexivity.
Qed.

Lemma zset_length_new m k v : zget m k = None -> length (zset m k v) = S (length m).
Proof.
  induction m as [|[k' w] m IH]; cbn; [reflexivity|]. destruct (k <? k'); [reflexivity|].
  destruct (k' =? k); [discriminate|]. intro H. cbn. rewrite IH by exact H. reflexivity.
Qed.

Lemma zset_length_old m k v w : zsorted m -> zget m k = Some w -> length (zset m k v) = length m.
Proof.
  induction m as [|[k' u] m IH]; cbn; [discriminate|]. intros S H.
  apply zsorted_cons in S. destruct S as [S F].
  destruct (Z.ltb_spec k k') as [L|L].
  - destruct (Z.eqb_spec k' k); [lia|]. exfalso.
    assert (B : zget m k = None) by (apply zget_below; rewrite Forall_forall in *; intros x I; specialize (F x I); lia).
    congruence.
  - destruct (k' =? k); [reflexivity|]. cbn. rewrite IH by assumption. reflexivity.
Qed.

Lemma zkeys_iff m k : In k (zkeys m) <-> zget m k <> None.
Proof.
  induction m as [|[k' w] m IH]; cbn; [split; [tauto|congruence]|].
  destruct (Z.eqb_spec k' k) as [E|E]; [split; [discriminate|tauto]|].
  rewrite <- IH. split; [intros [H|H]; [contradiction|exact H]|tauto].
Qed.

Lemma zsorted_nil : zsorted [].
Proof. constructor. Qed.

Lemma zsorted_nodup m : zsorted m -> NoDup (zkeys m).
Proof.
  unfold zsorted. induction 1 as [|k l S IH F]; constructor; [|exact IH].
  intro I. rewrite Forall_forall in F. specialize (F k I). lia.
Qed.
End Zmap.
