From Coq Require Import String Ascii NArith Sorted Permutation.
From Verif Require Import Lib.Base Lib.Bytes Lib.Codec Lib.Dec Eip712.Model Eip712.Spec.
Open Scope Z_scope.

Lemma rbind_ok {A B} (r : res A) (f : A -> res B) b :
  rbind r f = Ok b -> exists a, r = Ok a /\ f a = Ok b.
Proof. destruct r; cbn; intros; try discriminate; eauto. Qed.

Lemma json_ind2 (P : json -> Prop) :
  P JNull -> (forall b, P (JBool b)) -> (forall z, P (JNum z)) -> (forall s, P (JStr s)) ->
  (forall l, Forall P l -> P (JArr l)) ->
  (forall kvs, Forall (fun kv => P (snd kv)) kvs -> P (JObj kvs)) ->
  forall j, P j.
Proof.
  intros H1 H2 H3 H4 H5 H6. fix IH 1. intros [ | b | z | s | l | kvs].
  - exact H1.
  - apply H2.
  - apply H3.
  - apply H4.
  - apply H5. induction l; constructor; auto.
  - apply H6. induction kvs; constructor; auto.
Qed.

(* ---- association lists ---- *)
Section Get.
Context {A : Type}.
Implicit Types l : list (bytes * A).

Lemma get_in k l v : get k l = Some v -> In (k, v) l.
Proof.
  induction l as [|[k' a] r IH]; cbn; [discriminate|].
  destruct (beqb k k') eqn:E; [|auto].
  apply beqb_spec in E. intros [= ->]. left. congruence.
Qed.

Lemma get_none k l : get k l = None <-> ~ In k (map fst l).
Proof.
  induction l as [|[k' a] r IH]; cbn; [tauto|].
  destruct (beqb k k') eqn:E.
  - apply beqb_spec in E. subst. split; [discriminate|]. intros H. destruct H. auto.
  - apply beqb_neq in E. rewrite IH. split; intros H; [intros [X|X]; [congruence|tauto]|tauto].
Qed.

Lemma in_get k l : In k (map fst l) -> exists v, get k l = Some v.
Proof.
  intros H. destruct (get k l) eqn:E; eauto. apply get_none in E. tauto.
Qed.

Lemma get_app k l l' : get k (l ++ l') = match get k l with Some v => Some v | None => get k l' end.
Proof. induction l as [|[k' a] r IH]; cbn; auto. destruct (beqb k k'); auto. Qed.

Lemma get_filter (f : bytes -> bool) k l :
  get k (filter (fun kv => f (fst kv)) l) = if f k then get k l else None.
Proof.
  induction l as [|[k' a] r IH]; cbn; [destruct (f k); auto|].
  destruct (f k') eqn:E; cbn.
  - destruct (beqb k k') eqn:E2; auto. apply beqb_spec in E2. subst. rewrite E. auto.
  - rewrite IH. destruct (beqb k k') eqn:E2; auto. apply beqb_spec in E2. subst. rewrite E. auto.
Qed.

Lemma sorted_ext l : forall l', StronglySorted blt (map fst l) -> StronglySorted blt (map fst l') ->
  (forall k, get k l = get k l') -> l = l'.
Proof.
  induction l as [|[a v] r IH]; intros [|[b w] r'] S1 S2 H; auto.
  - specialize (H b). cbn in H. rewrite beqb_refl in H. discriminate.
  - specialize (H a). cbn in H. rewrite beqb_refl in H. discriminate.
  - cbn in S1, S2. inversion S1 as [|? ? S1a F1]; inversion S2 as [|? ? S2a F2]; subst.
    assert (E : a = b).
    { destruct (bcmp_spec a b) as [?|L|L]; auto; exfalso.
      - pose proof (H a) as Ha. cbn in Ha. rewrite beqb_refl in Ha.
        destruct (beqb a b) eqn:E; [apply beqb_spec in E; subst; eapply blt_irrefl; eauto|].
        symmetry in Ha. apply get_in in Ha. apply (in_map fst) in Ha. cbn in Ha.
        rewrite Forall_forall in F2. apply F2 in Ha. eapply blt_irrefl, blt_trans; eauto.
      - pose proof (H b) as Ha. cbn in Ha. rewrite beqb_refl in Ha.
        destruct (beqb b a) eqn:E; [apply beqb_spec in E; subst; eapply blt_irrefl; eauto|].
        apply get_in in Ha. apply (in_map fst) in Ha. cbn in Ha.
        rewrite Forall_forall in F1. apply F1 in Ha. eapply blt_irrefl, blt_trans; eauto. }
    subst b. pose proof (H a) as Ha. cbn in Ha. rewrite beqb_refl in Ha. injection Ha as ->.
    f_equal. apply IH; auto. intros k. specialize (H k). cbn in H.
    destruct (beqb k a) eqn:E; [|exact H]. apply beqb_spec in E. subst k.
    assert (forall r0, Forall (blt a) (map fst r0) -> get a (r0 : list (bytes * A)) = None) as N.
    { intros r0 F. apply get_none. intros X. rewrite Forall_forall in F. apply F in X.
      eapply blt_irrefl; eauto. }
    rewrite !N; auto.
Qed.
End Get.

Lemma get_map {A B} (f : A -> B) k (l : list (bytes * A)) :
  get k (map (fun kv => (fst kv, f (snd kv))) l) = option_map f (get k l).
Proof. induction l as [|[k' a] r IH]; cbn; auto. destruct (beqb k k'); auto. Qed.

Lemma has_get {A} k (l : list (bytes * A)) : has k l = true <-> exists v, get k l = Some v.
Proof. unfold has. destruct (get k l); split; eauto; intros; try discriminate. destruct H; discriminate. Qed.

(* ---- words and texts ---- *)
Lemma word_lacks c b : plain b -> is_word c = false -> lacks c b.
Proof. intros P W I. unfold plain in P. rewrite Forall_forall in P. apply P in I. congruence. Qed.

Definition is_sep (c : N) : bool := N.eqb c 44 || N.eqb c 41.

Lemma split_set (a b : bytes) x y r s :
  Forall (fun c => is_sep c = false) a -> Forall (fun c => is_sep c = false) b ->
  is_sep x = true -> is_sep y = true ->
  a ++ x :: r = b ++ y :: s -> a = b /\ x :: r = y :: s.
Proof.
  revert b. induction a as [|c a IH]; intros [|d b] A B X Y E; cbn in E.
  - auto.
  - injection E as -> _. inversion B; subst. congruence.
  - injection E as <- _. inversion A; subst. congruence.
  - injection E as -> E. inversion A; inversion B; subst.
    destruct (IH b) as [-> ->]; auto.
Qed.

Definition field_clean (f : field) : Prop := plain (fst f) /\ plain (fst (snd f)).
Definition ftext (f : field) : bytes := type_text (snd f) ++ 32%N :: fst f.

Lemma plain_nosep b : plain b -> Forall (fun c => is_sep c = false) b.
Proof.
  intros P. eapply Forall_impl; [|exact P]. intros c W. cbv beta in W.
  unfold is_sep. destruct (N.eqb_spec c 44); subst; [vm_compute in W; discriminate|].
  destruct (N.eqb_spec c 41); subst; [vm_compute in W; discriminate|auto].
Qed.

Lemma ftext_nosep f : field_clean f -> Forall (fun c => is_sep c = false) (ftext f).
Proof.
  intros [P Q]. unfold ftext, type_text. rewrite !Forall_app. repeat split.
  - apply plain_nosep; auto.
  - destruct (snd (snd f)); cbn; repeat constructor.
  - constructor; [reflexivity|]. apply plain_nosep; auto.
Qed.

Lemma ftext_inj f g : field_clean f -> field_clean g -> ftext f = ftext g -> f = g.
Proof.
  destruct f as [n [b a]], g as [n' [b' a']]. intros [P Q] [P' Q'] E.
  unfold ftext, type_text in E. cbn [fst snd] in *.
  apply split_sep in E.
  - destruct E as [E ->].
    assert (b = b' /\ a = a') as [-> ->]; auto.
    assert (L : forall x : bytes, plain x -> lacks 91%N x) by (intros x X; apply word_lacks; auto).
    destruct a, a'; cbn in E; rewrite ?app_nil_r in E.
    + apply split_sep in E; auto. destruct E; auto.
    + exfalso. apply (L b'); auto. rewrite <- E. apply in_or_app. right. left. auto.
    + exfalso. apply (L b); auto. rewrite E. apply in_or_app. right. left. auto.
    + auto.
  - intros I. apply in_app_or in I. destruct I as [I|I]; [eapply word_lacks in I; eauto|].
    destruct a; cbn in I; intuition discriminate.
  - intros I. apply in_app_or in I. destruct I as [I|I]; [eapply word_lacks in I; eauto|].
    destruct a'; cbn in I; intuition discriminate.
Qed.

Definition tail_text (fs : list field) : bytes := concat (map (fun f => 44%N :: ftext f) fs).

Lemma body_text fs f :
  removelast (concat (map (fun f => type_text (snd f) ++ text " " ++ fst f ++ text ",") (f :: fs)))
  = ftext f ++ tail_text fs.
Proof.
  revert f. induction fs as [|g fs IH]; intros f.
  - cbn [map concat tail_text]. rewrite !app_nil_r.
    replace (type_text (snd f) ++ text " " ++ fst f ++ text ",") with (ftext f ++ [44%N]).
    + apply removelast_last.
    + unfold ftext. rewrite <- app_assoc. reflexivity.
  - cbn [map concat] in *. rewrite removelast_app.
    + rewrite IH. unfold tail_text. cbn [map concat]. unfold ftext.
      change (text " ") with [32%N]. change (text ",") with [44%N].
      do 4 (rewrite <- ?app_assoc; cbn [app]). reflexivity.
    + destruct (type_text (snd g)); cbn; discriminate.
Qed.

Definition body (fs : list field) : bytes :=
  removelast (text "(" ++ concat (map (fun f => type_text (snd f) ++ text " " ++ fst f ++ text ",") fs)).

Lemma body_cons f fs : body (f :: fs) = 40%N :: ftext f ++ tail_text fs.
Proof.
  unfold body. rewrite removelast_app.
  - rewrite body_text. reflexivity.
  - cbn [map concat]. intros X. apply (f_equal (@List.length _)) in X.
    rewrite !app_length in X. change (List.length (text " ")) with 1%nat in X. cbn in X. lia.
Qed.

Lemma tail_inj fs : forall gs r s, Forall field_clean fs -> Forall field_clean gs ->
  tail_text fs ++ 41%N :: r = tail_text gs ++ 41%N :: s -> fs = gs.
Proof.
  unfold tail_text. induction fs as [|f fs IH]; intros [|g gs] r s F G E; auto.
  - discriminate.
  - discriminate.
  - cbn [map concat] in E. rewrite <- !app_assoc in E. cbn [app] in E.
    injection E as E. inversion F; inversion G; subst.
    assert (forall l t, exists x u, concat (map (fun f => 44%N :: ftext f) l) ++ 41%N :: t = x :: u
                                    /\ is_sep x = true) as X.
    { intros [|h l] t; cbn; eauto. }
    destruct (X fs r) as (x & u & E1 & S1), (X gs s) as (y & w & E2 & S2).
    rewrite E1, E2 in E. apply split_set in E; auto using ftext_nosep.
    destruct E as [E Et]. apply ftext_inj in E; auto. subst. f_equal.
    eapply IH; eauto. rewrite E1, E2. exact Et.
Qed.

Lemma body_inj fs gs r s : Forall field_clean fs -> Forall field_clean gs ->
  body fs ++ 41%N :: r = body gs ++ 41%N :: s -> fs = gs.
Proof.
  intros F G E. destruct fs as [|f fs], gs as [|g gs]; auto.
  - rewrite body_cons in E. discriminate.
  - rewrite body_cons in E. discriminate.
  - rewrite !body_cons in E. apply (tail_inj (f :: fs) (g :: gs) r s); auto.
    unfold tail_text in *. cbn [map concat app] in *. rewrite <- !app_assoc in *.
    cbn [app] in E. injection E as E. f_equal. exact E.
Qed.

Lemma block_eq T nm fs : get nm T = Some fs -> block T nm = nm ++ body fs ++ [41%N].
Proof.
  intros E. unfold block, body. rewrite E. rewrite removelast_app by (cbn; discriminate).
  rewrite app_assoc. reflexivity.
Qed.

Lemma fold_mem_prefix l : forall found,
  exists r, fold_left (fun found d => if mem d found then found else found ++ [d]) l found = found ++ r.
Proof.
  induction l as [|d l IH]; intros found; cbn; [exists []; rewrite app_nil_r; auto|].
  destruct (mem d found); auto.
  destruct (IH (found ++ [d])) as [r ->]. exists (d :: r). rewrite <- app_assoc. auto.
Qed.

Lemma deps_head n T nm fs : get nm T = Some fs -> exists r, deps (S n) T nm [] = nm :: r.
Proof.
  intros E. cbn [deps]. change (mem nm []) with false. cbv iota. rewrite E.
  change ([] ++ [nm]) with [nm].
  assert (forall (l : list field) found, exists r,
    fold_left (fun found f =>
      fold_left (fun found d => if mem d found then found else found ++ [d])
        (deps n T (fst (snd f)) found) found) l found = found ++ r) as X.
  { induction l as [|f l IH]; intros found; cbn [fold_left]; [exists []; rewrite app_nil_r; auto|].
    destruct (fold_mem_prefix (deps n T (fst (snd f)) found) found) as [r Er].
    destruct (IH (found ++ r)) as [r' Er']. exists (r ++ r'). rewrite app_assoc, <- Er', <- Er.
    reflexivity. }
  destruct (X fs [nm]) as [r Er]. exists r. exact Er.
Qed.

Lemma encode_type_inj T1 T2 nm fs gs :
  get nm T1 = Some fs -> get nm T2 = Some gs -> Forall field_clean fs -> Forall field_clean gs ->
  encode_type T1 nm = encode_type T2 nm -> fs = gs.
Proof.
  intros G1 G2 F1 F2 E. unfold encode_type in E.
  destruct (deps_head (List.length T1) T1 nm fs G1) as [r1 E1].
  destruct (deps_head (List.length T2) T2 nm gs G2) as [r2 E2].
  rewrite E1, E2 in E. rewrite (block_eq _ _ _ G1), (block_eq _ _ _ G2) in E.
  rewrite <- !app_assoc in E. apply app_inv_head in E. cbn [app] in E.
  eapply body_inj; eauto.
Qed.
