From Coq Require Import Sorting.Permutation.
From Verif Require Import Lib.Base Rpc.Fees Rpc.FeesSpec.
Open Scope Z_scope.

Lemma total_app a b : total (a ++ b) = total a + total b.
Proof. unfold total. rewrite map_app, fold_right_app. induction (map fst a) as [|x l IH]; cbn; lia. Qed.
Lemma up_app a b t : gas_up_to (a ++ b) t = gas_up_to a t + gas_up_to b t.
Proof. unfold gas_up_to. rewrite filter_app. apply total_app. Qed.
Lemma up_all l t : Forall (fun x => snd x <= t) l -> gas_up_to l t = total l.
Proof.
  unfold gas_up_to. induction 1 as [|x l H _ IH]; [reflexivity|]. cbn [filter]. rewrite (proj2 (Z.leb_le _ _) H).
  unfold total in *. cbn. now rewrite IH.
Qed.
Lemma up_none l t : Forall (fun x => t < snd x) l -> gas_up_to l t = 0.
Proof.
  unfold gas_up_to. induction 1 as [|x l H _ IH]; [reflexivity|]. cbn [filter]. now rewrite (proj2 (Z.leb_gt _ _) H).
Qed.
Lemma up_nonneg l t : Forall (fun x => 0 <= fst x) l -> 0 <= gas_up_to l t.
Proof.
  unfold gas_up_to. induction 1 as [|x l H _ IH]; [cbn; lia|]. cbn [filter]. destruct (snd x <=? t); [|exact IH].
  unfold total in *. cbn. lia.
Qed.
Lemma perm_total a b : Permutation a b -> total a = total b.
Proof. unfold total. induction 1; cbn; lia. Qed.
Lemma perm_filter {A} (f : A -> bool) a b : Permutation a b -> Permutation (filter f a) (filter f b).
Proof.
  induction 1; cbn; [constructor| | |etransitivity; eassumption].
  - destruct (f x); [now constructor|assumption].
  - destruct (f x), (f y); try reflexivity. apply perm_swap.
Qed.
Lemma perm_up a b t : Permutation a b -> gas_up_to a t = gas_up_to b t.
Proof. intros H. apply perm_total, perm_filter, H. Qed.
Lemma quantile_perm a b thr r : Permutation a b -> quantile a thr r -> quantile b thr r.
Proof.
  intros H (Q1 & Q2 & Q3). split; [|split].
  - destruct Q1 as [g Hg]. exists g. eapply Permutation_in; eauto.
  - rewrite <- (perm_up _ _ _ H). destruct Q2 as [Q2|Q2]; [now left|right]. intros x Hx. apply Q2.
    eapply Permutation_in; [symmetry; exact H|exact Hx].
  - intros x Hx L. rewrite <- (perm_up _ _ _ H). apply Q3; [|exact L]. eapply Permutation_in; [symmetry; exact H|exact Hx].
Qed.
Lemma quantile_unique l thr r r' : quantile l thr r -> quantile l thr r' -> r = r'.
Proof.
  assert (X : forall a b, quantile l thr a -> quantile l thr b -> ~ a < b).
  { intros a b (A1 & A2 & A3) (B1 & B2 & B3) L. destruct A1 as [g Hg]. destruct B1 as [g' Hg']. specialize (B3 _ Hg L). cbn [snd] in B3.
    destruct A2 as [A2|A2]; [lia|]. specialize (A2 _ Hg'). cbn [snd] in A2. lia. }
  intros Q Q'. assert (A := X _ _ Q Q'). assert (B := X _ _ Q' Q). lia.
Qed.

Fixpoint sorted (l : list (Z * Z)) : Prop :=
  match l with [] => True | x :: r => Forall (fun y => snd x <= snd y) r /\ sorted r end.
Lemma insert_perm x l : Permutation (x :: l) (insert x l).
Proof.
  induction l as [|y r IH]; cbn [insert]; [reflexivity|]. destruct (snd x <=? snd y); [reflexivity|].
  rewrite perm_swap. now constructor.
Qed.
Lemma insert_sorted x l : sorted l -> sorted (insert x l).
Proof.
  induction l as [|y r IH]; cbn [insert sorted]; [auto|]. intros [H S]. destruct (Z.leb_spec (snd x) (snd y)) as [L|L].
  - split; [|split; assumption]. constructor; [exact L|]. eapply Forall_impl; [|exact H]. cbn. lia.
  - split; [|now apply IH]. eapply Permutation_Forall; [apply insert_perm|]. constructor; [lia|exact H].
Qed.
Lemma sort_perm l : Permutation l (sort l).
Proof. induction l as [|x l IH]; cbn; [reflexivity|]. rewrite <- insert_perm. now constructor. Qed.
Lemma sort_sorted l : sorted (sort l).
Proof. induction l as [|x l IH]; cbn; [exact Logic.I|]. now apply insert_sorted. Qed.
Lemma sorted_app a b : sorted (a ++ b) -> sorted a /\ sorted b /\ Forall (fun x => Forall (fun y => snd x <= snd y) b) a.
Proof.
  induction a as [|x a IH]; cbn; [auto|]. intros [H S]. apply IH in S. apply Forall_app in H. destruct S as (S1 & S2 & S3), H as [H1 H2].
  split; [auto|]. split; [exact S2|]. constructor; auto.
Qed.
Lemma split_at l t : sorted l -> exists l1 l2, l = l1 ++ l2 /\ Forall (fun x => snd x <= t) l1 /\ Forall (fun x => t < snd x) l2.
Proof.
  induction l as [|x l IH]; [exists [], []; auto|]. intros [H S]. destruct (Z.leb_spec (snd x) t) as [L|L].
  - destruct (IH S) as (l1 & l2 & -> & A & B). exists (x :: l1), l2. auto.
  - exists [], (x :: l). split; [reflexivity|]. split; [constructor|]. constructor; [exact L|]. eapply Forall_impl; [|exact H]. cbn. lia.
Qed.

(* everything before was passed over because less than thr gas was reached *)
Definition passed (pre : list (Z * Z)) (thr : Z) : Prop := forall p1 y p2, pre = p1 ++ y :: p2 -> total (p1 ++ [y]) < thr.
Lemma advance_spec all rest : forall pre x thr sum, all = pre ++ x :: rest -> sum = total (pre ++ [x]) -> passed pre thr ->
  exists pre' x' rest' sum', advance sum (snd x) rest thr = (sum', snd x', rest') /\ all = pre' ++ x' :: rest' /\
    sum' = total (pre' ++ [x']) /\ passed pre' thr /\ (thr <= sum' \/ rest' = []).
Proof.
  induction rest as [|[g t] rest IH]; intros pre x thr sum E S Pa; cbn [advance].
  - exists pre, x, [], sum. auto 10.
  - destruct (Z.ltb_spec sum thr) as [L|L]; [|exists pre, x, ((g, t) :: rest), sum; auto 10].
    destruct (IH (pre ++ [x]) (g, t) thr (sum + g)) as (pre' & x' & rest' & sum' & A & B & C & D).
    + rewrite <- app_assoc. exact E.
    + rewrite total_app, <- S. unfold total at 1. cbn. lia.
    + intros p1 y p2 Q. destruct p2 as [|z p2] using rev_ind.
      * apply app_inj_tail in Q. destruct Q as [<- <-]. now rewrite <- S.
      * clear IHp2. change (p1 ++ y :: p2 ++ [z]) with (p1 ++ (y :: p2) ++ [z]) in Q. rewrite app_assoc in Q. apply app_inj_tail in Q. destruct Q as [-> _].
        apply (Pa p1 y p2). reflexivity.
    + exists pre', x', rest', sum'. auto 10.
Qed.
Lemma quantile_here all pre x rest thr : all = pre ++ x :: rest -> sorted all -> Forall (fun x => 0 <= fst x) all -> passed pre thr ->
  (thr <= total (pre ++ [x]) \/ rest = []) -> quantile all thr (snd x).
Proof.
  intros -> S Nn Pa St. apply sorted_app in S. destruct S as (Sp & [Sx Sr] & Sb).
  assert (Pl : Forall (fun y => snd y <= snd x) pre).
  { eapply Forall_impl; [|exact Sb]. intros y Hy. now inversion Hy. }
  split; [|split].
  - exists (fst x). apply in_or_app. right. left. now destruct x.
  - destruct St as [St| ->].
    + left. change (pre ++ x :: rest) with (pre ++ [x] ++ rest). rewrite app_assoc, up_app. apply Forall_app in Nn. destruct Nn as [_ Nn].
      inversion Nn; subst. rewrite (up_all (pre ++ [x])) by (apply Forall_app; split; [exact Pl|constructor; [lia|constructor]]).
      assert (0 <= gas_up_to rest (snd x)) by now apply up_nonneg. lia.
    + right. intros y Hy. apply in_app_or in Hy. destruct Hy as [Hy|[->|[]]]; [|lia]. rewrite Forall_forall in Pl. auto.
  - intros y Hy L. assert (Hp : In y pre).
    { apply in_app_or in Hy. destruct Hy as [Hy|[Hy|Hy]]; [exact Hy|subst; lia|]. rewrite Forall_forall in Sx. apply Sx in Hy. lia. }
    destruct (split_at pre (snd y) Sp) as (l1 & l2 & E & A & B).
    assert (G : gas_up_to (pre ++ x :: rest) (snd y) = total l1).
    { rewrite up_app, (up_none (x :: rest)) by (constructor; [exact L|eapply Forall_impl; [|exact Sx]; cbn; lia]).
      rewrite E, up_app, (up_none l2 _ B), (up_all l1 _ A). lia. }
    rewrite G. destruct l1 as [|z l1] using rev_ind.
    + exfalso. cbn in E. subst l2. rewrite Forall_forall in B. apply B in Hp. lia.
    + clear IHl1. apply (Pa l1 z l2). rewrite E, <- app_assoc. reflexivity.
Qed.
Lemma passed_le pre thr thr' : thr <= thr' -> passed pre thr -> passed pre thr'.
Proof. intros L Pa p1 y p2 E. specialize (Pa p1 y p2 E). lia. Qed.
Lemma pick_quantiles all thrs : sorted all -> Forall (fun x => 0 <= fst x) all -> ascending thrs ->
  forall pre x rest sum, all = pre ++ x :: rest -> sum = total (pre ++ [x]) ->
  match thrs with [] => True | thr :: _ => passed pre thr end ->
  Forall2 (quantile all) thrs (pick sum (snd x) rest thrs).
Proof.
  intros S Nn. induction thrs as [|thr thrs IH]; intros As pre x rest sum E Es Pa; cbn [pick]; [constructor|].
  destruct (advance_spec all rest pre x thr sum E Es Pa) as (pre' & x' & rest' & sum' & -> & A & B & C & D). constructor.
  - eapply quantile_here; eauto. now rewrite <- B.
  - apply (IH (match thrs as t return ascending (thr :: t) -> ascending t with [] => fun _ => Logic.I | _ => fun H => proj2 H end As) pre' x'); auto.
    destruct thrs as [|thr' thrs]; [exact Logic.I|]. destruct As as [L _]. exact (passed_le _ _ _ L C).
Qed.
Lemma rewards_quantiles l thrs : l <> [] -> sorted l -> Forall (fun x => 0 <= fst x) l -> ascending thrs ->
  Forall2 (quantile l) thrs (rewards l thrs).
Proof.
  intros Ne S Nn As. destruct l as [|[g t] rest]; [contradiction|]. cbn [rewards].
  apply (pick_quantiles ((g, t) :: rest) thrs S Nn As [] (g, t) rest g); [reflexivity|unfold total; cbn; lia|].
  destruct thrs; [exact Logic.I|]. intros [|? p1] y p2 E; discriminate.
Qed.
Lemma pick_len sum t rest thrs : length (pick sum t rest thrs) = length thrs.
Proof.
  revert sum t rest. induction thrs as [|thr thrs IH]; intros; cbn [pick]; [reflexivity|].
  destruct (advance sum t rest thr) as [[s' t'] r']. cbn. now rewrite IH.
Qed.
Lemma rewards_len l thrs : length (rewards l thrs) = length thrs.
Proof. destruct l as [|[g t] rest]; cbn [rewards]; [now rewrite map_length|apply pick_len]. Qed.
