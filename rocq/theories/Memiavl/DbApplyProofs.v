(* Applying change sets and upgrades: the pending log of a block replays to the
   live state (C13). *)
From Verif Require Import Lib.Base Lib.Bytes Memiavl.Model Memiavl.HashModel Memiavl.DbModel Memiavl.DbSpec.
From Coq Require Import Sorting.Permutation Sorting.Sorted.
Open Scope Z_scope.

Definition names (m : mtree) : list bytes := map fst (mt_trees m).

Lemma apply_change_set_app t a b :
  apply_change_set t (a ++ b) = obind (apply_change_set t a) (fun t' => apply_change_set t' b).
Proof.
  revert t. induction a as [|p a IH]; intro t; [reflexivity|].
  cbn [app apply_change_set].
  destruct (if kv_delete p then tree_remove t (kv_key p) else tree_set t (kv_key p) (kv_value p)); cbn [obind]; auto.
Qed.

Lemma apply_change_set_wire t ps : apply_change_set t (map wire_pair ps) = apply_change_set t ps.
Proof.
  revert t. induction ps as [|p ps IH]; intro t; [reflexivity|].
  cbn [map apply_change_set].
  assert (H : (if kv_delete (wire_pair p) then tree_remove t (kv_key (wire_pair p))
               else tree_set t (kv_key (wire_pair p)) (kv_value (wire_pair p))) =
              (if kv_delete p then tree_remove t (kv_key p) else tree_set t (kv_key p) (kv_value p))).
  { unfold wire_pair. cbn [kv_delete kv_key kv_value]. destruct (kv_delete p); [reflexivity|].
    destruct (kv_value p) as [[|x v]|]; reflexivity. }
  rewrite H.
  destruct (if kv_delete p then tree_remove t (kv_key p) else tree_set t (kv_key p) (kv_value p)); cbn [obind]; auto.
Qed.

Lemma apply_wire_changes m cs :
  mt_apply_change_sets m (map (fun c => Named (nc_name c) (map wire_pair (nc_pairs c))) cs) = mt_apply_change_sets m cs.
Proof.
  revert m. induction cs as [|c cs IH]; intro m; [reflexivity|].
  cbn [map mt_apply_change_sets nc_name nc_pairs].
  assert (H : mt_apply_change_set m (nc_name c) (map wire_pair (nc_pairs c)) = mt_apply_change_set m (nc_name c) (nc_pairs c)).
  { unfold mt_apply_change_set. destruct (tree_by_name m (nc_name c)); [|reflexivity]. rewrite apply_change_set_wire. reflexivity. }
  rewrite H. destruct (mt_apply_change_set m (nc_name c) (nc_pairs c)); cbn [rbind]; auto.
Qed.

Lemma apply_wal_entry_wire m e : apply_wal_entry m (wire e) = apply_wal_entry m e.
Proof.
  unfold apply_wal_entry, wire. cbn [we_upgrades we_changes].
  destruct (apply_upgrades m (we_upgrades e)); cbn [rbind]; [apply apply_wire_changes|reflexivity|reflexivity].
Qed.

(* ---------------- the effect on each store ---------------- *)

Definition updated (f : bytes -> list kvpair) (p p' : bytes * tree) : Prop :=
  fst p = fst p' /\ apply_change_set (snd p) (f (fst p)) = Some (snd p').

Definition one (name : bytes) (ps : list kvpair) (n : bytes) : list kvpair := if beqb name n then ps else [].

Lemma find_split (ts : list (bytes * tree)) name t :
  NoDup (map fst ts) -> option_map snd (find (fun p => beqb (fst p) name) ts) = Some t ->
  exists a b, ts = a ++ (name, t) :: b /\ ~ In name (map fst a) /\ ~ In name (map fst b).
Proof.
  induction ts as [|[n t'] ts IH]; intros Hnd H; [discriminate|].
  inversion Hnd as [|? ? Hni Hnd']; subst.
  cbn [find fst option_map] in H. destruct (beqb n name) eqn:E.
  - apply beqb_spec in E. subst n. cbn in H. inversion H; subst. exists [], ts. split; [reflexivity|]. split; [intros []|exact Hni].
  - destruct (IH Hnd' H) as [a [b [E2 [Ha Hb]]]]. exists ((n, t') :: a), b. subst ts. split; [reflexivity|]. split; [|exact Hb].
    cbn. intros [<- | Hin]; [rewrite beqb_refl in E; discriminate|exact (Ha Hin)].
Qed.

Lemma put_notin ts name t : ~ In name (map fst ts) -> put_tree ts name t = ts.
Proof.
  induction ts as [|[n x] ts IH]; intro H; [reflexivity|].
  cbn [put_tree map fst]. destruct (beqb n name) eqn:E.
  - apply beqb_spec in E. subst. exfalso. apply H. left. reflexivity.
  - f_equal. apply IH. intro Hi. apply H. right. exact Hi.
Qed.

Lemma updated_id ts name ps : ~ In name (map fst ts) -> Forall2 (updated (one name ps)) ts ts.
Proof.
  induction ts as [|[n x] ts IH]; intro H; constructor.
  - split; [reflexivity|]. unfold one. cbn [fst snd]. destruct (beqb name n) eqn:E; [|reflexivity].
    apply beqb_spec in E. subst. exfalso. apply H. left. reflexivity.
  - apply IH. intro Hi. apply H. right. exact Hi.
Qed.

Lemma find_some_in (ts : list (bytes * tree)) name :
  In name (map fst ts) <-> exists t, option_map snd (find (fun p => beqb (fst p) name) ts) = Some t.
Proof.
  induction ts as [|[n x] ts IH]; cbn [map fst find].
  - split; [intros []|intros [t H]; discriminate].
  - destruct (beqb n name) eqn:E.
    + apply beqb_spec in E. subst. split; [intros _; exists x; reflexivity|intros _; left; reflexivity].
    + rewrite <- IH. split; [intros [-> | H]; [rewrite beqb_refl in E; discriminate|exact H]|intro H; right; exact H].
Qed.

Lemma forall2_updated_fun f ts a b : Forall2 (updated f) ts a -> Forall2 (updated f) ts b -> a = b.
Proof.
  intro H. revert b. induction H as [|p p' ts a Hp _ IH]; intros b Hb; inversion Hb as [|? q ? b' Hq Hb']; subst; [reflexivity|].
  f_equal; [|apply IH; exact Hb']. destruct Hp as [H1 H2], Hq as [H3 H4], p', q; cbn in *. subst. rewrite H2 in H4. congruence.
Qed.

Lemma apply_one_nf m name ps m' : NoDup (names m) ->
  (mt_apply_change_set m name ps = Ok m' <->
   In name (names m) /\ exists ts, m' = with_trees m ts /\ Forall2 (updated (one name ps)) (mt_trees m) ts).
Proof.
  intro Hnd. unfold mt_apply_change_set, tree_by_name, names in *. split.
  - destruct (option_map snd (find (fun p => beqb (fst p) name) (mt_trees m))) as [t|] eqn:E; [|discriminate].
    destruct (apply_change_set t ps) as [t'|] eqn:Ea; [|discriminate]. intro H. inversion H; subst. clear H.
    split; [apply find_some_in; exists t; exact E|]. exists (put_tree (mt_trees m) name t'). split; [reflexivity|].
    destruct (find_split _ _ _ Hnd E) as [a [b [Ets [Ha Hb]]]]. rewrite Ets.
    unfold put_tree. rewrite map_app. fold (put_tree a name t'). cbn [map fst]. rewrite beqb_refl. fold (put_tree b name t').
    rewrite !put_notin by assumption. apply Forall2_app; [apply updated_id; exact Ha|].
    constructor; [|apply updated_id; exact Hb]. split; [reflexivity|]. cbn [fst snd]. unfold one. rewrite beqb_refl. exact Ea.
  - intros [Hin [ts [-> Hf]]]. apply find_some_in in Hin. destruct Hin as [t E]. rewrite E.
    destruct (find_split _ _ _ Hnd E) as [a [b [Ets [Ha Hb]]]]. rewrite Ets in *.
    apply Forall2_app_inv_l in Hf. destruct Hf as [a' [r [Fa [Fr ->]]]]. inversion Fr as [|? q ? b' Hq Fb]; subst.
    pose proof (forall2_updated_fun _ _ _ _ Fa (updated_id a name ps Ha)) as ->.
    pose proof (forall2_updated_fun _ _ _ _ Fb (updated_id b name ps Hb)) as ->.
    destruct Hq as [Hq1 Hq2]. unfold one in Hq2. cbn [fst snd] in *. rewrite beqb_refl in Hq2. rewrite Hq2.
    unfold put_tree. rewrite map_app. fold (put_tree a name (snd q)). cbn [map fst]. rewrite beqb_refl. fold (put_tree b name (snd q)).
    rewrite !put_notin by assumption. destruct q as [qn qt]. cbn in *. subst qn. reflexivity.
Qed.

Lemma updated_names f ts ts' : Forall2 (updated f) ts ts' -> map fst ts' = map fst ts.
Proof. induction 1 as [|p p' ts ts' Hp _ IH]; [reflexivity|]. cbn. destruct Hp as [-> _]. f_equal. exact IH. Qed.

Lemma updated_compose f g ts t1 t2 : Forall2 (updated f) ts t1 -> Forall2 (updated g) t1 t2 ->
  Forall2 (updated (fun n => f n ++ g n)) ts t2.
Proof.
  intro H. revert t2. induction H as [|p p' ts t1 Hp _ IH]; intros t2 H2; inversion H2 as [|? q ? t2' Hq H2']; subst; constructor.
  - destruct Hp as [H1 Ha], Hq as [H3 Hb]. split; [congruence|]. rewrite apply_change_set_app, Ha. cbn [obind]. rewrite H1. exact Hb.
  - apply IH. exact H2'.
Qed.

Lemma updated_split f g ts t2 : Forall2 (updated (fun n => f n ++ g n)) ts t2 ->
  exists t1, Forall2 (updated f) ts t1 /\ Forall2 (updated g) t1 t2.
Proof.
  induction 1 as [|p q ts t2 Hp _ [t1 [IH1 IH2]]]; [exists []; split; constructor|].
  destruct Hp as [H1 H2]. rewrite apply_change_set_app in H2.
  destruct (apply_change_set (snd p) (f (fst p))) as [t|] eqn:E; [|discriminate]. cbn [obind] in H2.
  exists ((fst p, t) :: t1). split; constructor; auto; split; cbn [fst snd]; auto.
Qed.

Lemma updated_nil ts f : (forall n, In n (map fst ts) -> f n = []) -> Forall2 (updated f) ts ts.
Proof.
  induction ts as [|p ts IH]; intro H; constructor.
  - split; [reflexivity|]. rewrite H by (left; reflexivity). reflexivity.
  - apply IH. intros n Hn. apply H. right. exact Hn.
Qed.

Lemma updated_ext f g ts ts' : (forall n, In n (map fst ts) -> f n = g n) -> Forall2 (updated f) ts ts' -> Forall2 (updated g) ts ts'.
Proof.
  intros H F. revert H. induction F as [|p q ts ts' Hp _ IH]; intro H; constructor.
  - destruct Hp as [H1 H2]. split; [exact H1|]. rewrite <- H by (left; reflexivity). exact H2.
  - apply IH. intros n Hn. apply H. right. exact Hn.
Qed.

Theorem apply_nf m cs m' : NoDup (names m) ->
  (mt_apply_change_sets m cs = Ok m' <->
   incl (map nc_name cs) (names m) /\
   exists ts, m' = with_trees m ts /\ Forall2 (updated (fun n => pairs_for n cs)) (mt_trees m) ts).
Proof.
  revert m. induction cs as [|c cs IH]; intros m Hnd; cbn [mt_apply_change_sets].
  - split.
    + intro H. inversion H; subst. split; [intros ? []|]. exists (mt_trees m'). split; [destruct m'; reflexivity|].
      apply updated_nil. reflexivity.
    + intros [_ [ts [-> F]]]. f_equal.
      rewrite (forall2_updated_fun _ _ _ _ F (updated_nil (mt_trees m) (fun n => pairs_for n []) (fun _ _ => eq_refl))).
      destruct m; reflexivity.
  - assert (Hsplit : forall n, pairs_for n (c :: cs) = one (nc_name c) (nc_pairs c) n ++ pairs_for n cs) by reflexivity.
    split.
    + destruct (mt_apply_change_set m (nc_name c) (nc_pairs c)) as [m1| |] eqn:E; cbn [rbind]; try discriminate.
      apply apply_one_nf in E; [|exact Hnd]. destruct E as [Hin [t1 [-> F1]]]. intro H.
      assert (Hn1 : names (with_trees m t1) = names m) by (unfold names; cbn [mt_trees with_trees]; eapply updated_names; exact F1).
      apply IH in H; [|rewrite Hn1; exact Hnd]. destruct H as [Hi [ts [-> F2]]]. cbn [mt_trees with_trees] in F2. rewrite Hn1 in Hi.
      split; [intros x [<- | Hx]; [exact Hin|apply Hi; exact Hx]|].
      exists ts. split; [reflexivity|]. eapply updated_ext; [|eapply updated_compose; [exact F1|exact F2]]. intros n _. symmetry. apply Hsplit.
    + intros [Hi [ts [-> F]]].
      assert (F' : Forall2 (updated (fun n => one (nc_name c) (nc_pairs c) n ++ pairs_for n cs)) (mt_trees m) ts)
        by (eapply updated_ext; [|exact F]; intros n _; apply Hsplit).
      apply updated_split in F'. destruct F' as [t1 [F1 F2]].
      assert (Hn1 : names (with_trees m t1) = names m) by (unfold names; cbn [mt_trees with_trees]; eapply updated_names; exact F1).
      assert (E : mt_apply_change_set m (nc_name c) (nc_pairs c) = Ok (with_trees m t1)).
      { apply apply_one_nf; [exact Hnd|]. split; [apply Hi; left; reflexivity|]. exists t1. split; [reflexivity|exact F1]. }
      rewrite E. cbn [rbind]. apply IH; [rewrite Hn1; exact Hnd|]. rewrite Hn1. split; [intros x Hx; apply Hi; right; exact Hx|].
      exists ts. split; [reflexivity|exact F2].
Qed.

(* ---------------- merging into the pending log ---------------- *)

Lemma pairs_for_app n a b : pairs_for n (a ++ b) = pairs_for n a ++ pairs_for n b.
Proof. unfold pairs_for. apply flat_map_app. Qed.

Lemma pairs_for_notin n cs : ~ In n (map nc_name cs) -> pairs_for n cs = [].
Proof.
  induction cs as [|c cs IH]; intro H; [reflexivity|]. cbn [pairs_for flat_map].
  destruct (beqb (nc_name c) n) eqn:E; [apply beqb_spec in E; subst; exfalso; apply H; left; reflexivity|].
  apply IH. intro Hi. apply H. right. exact Hi.
Qed.

Lemma insert_change_perm c l : Permutation (c :: l) (insert_change c l).
Proof.
  induction l as [|y l IH]; [reflexivity|]. cbn [insert_change]. destruct (bltb (nc_name y) (nc_name c)); [|reflexivity].
  etransitivity; [apply perm_swap|]. constructor. exact IH.
Qed.
Lemma sort_changes_perm l : Permutation l (sort_changes l).
Proof. induction l as [|c l IH]; [reflexivity|]. cbn [sort_changes]. etransitivity; [|apply insert_change_perm]. constructor. exact IH. Qed.

Lemma pairs_for_insert n c l : ~ In (nc_name c) (map nc_name l) -> pairs_for n (insert_change c l) = pairs_for n (c :: l).
Proof.
  induction l as [|y l IH]; intro H; [reflexivity|]. cbn [insert_change]. destruct (bltb (nc_name y) (nc_name c)); [|reflexivity].
  change (pairs_for n (y :: insert_change c l)) with ((if beqb (nc_name y) n then nc_pairs y else []) ++ pairs_for n (insert_change c l)).
  rewrite IH by (intro Hi; apply H; right; exact Hi).
  change (pairs_for n (c :: l)) with ((if beqb (nc_name c) n then nc_pairs c else []) ++ pairs_for n l).
  change (pairs_for n (c :: y :: l)) with ((if beqb (nc_name c) n then nc_pairs c else []) ++ (if beqb (nc_name y) n then nc_pairs y else []) ++ pairs_for n l).
  destruct (beqb (nc_name y) n) eqn:Ey, (beqb (nc_name c) n) eqn:Ec; auto.
  apply beqb_spec in Ey, Ec. exfalso. apply H. left. congruence.
Qed.

Lemma pairs_for_sort n l : NoDup (map nc_name l) -> pairs_for n (sort_changes l) = pairs_for n l.
Proof.
  induction l as [|c l IH]; intro H; [reflexivity|]. inversion H; subst. cbn [sort_changes].
  rewrite pairs_for_insert.
  - change (pairs_for n (c :: sort_changes l)) with ((if beqb (nc_name c) n then nc_pairs c else []) ++ pairs_for n (sort_changes l)).
    rewrite IH by assumption. reflexivity.
  - intro Hi. match goal with X : ~ In _ _ |- _ => apply X end.
    eapply Permutation_in; [|exact Hi]. apply Permutation_map. symmetry. apply sort_changes_perm.
Qed.

Lemma merge_none cs name ps : merge_pending cs name ps = None -> ~ In name (map nc_name cs).
Proof.
  induction cs as [|c cs IH]; cbn [merge_pending]; [intros _ []|].
  destruct (beqb (nc_name c) name) eqn:E; [discriminate|].
  destruct (merge_pending cs name ps) eqn:Em; [discriminate|]. intros _ [H | H]; [apply beqb_neq in E; congruence|exact (IH eq_refl H)].
Qed.

Lemma merge_some cs name ps cs' : NoDup (map nc_name cs) -> merge_pending cs name ps = Some cs' ->
  map nc_name cs' = map nc_name cs /\ In name (map nc_name cs) /\ forall n, pairs_for n cs' = pairs_for n cs ++ one name ps n.
Proof.
  revert cs'. induction cs as [|c cs IH]; intros cs' Hnd; cbn [merge_pending]; [discriminate|].
  inversion Hnd as [|? ? Hni Hnd']; subst.
  destruct (beqb (nc_name c) name) eqn:E.
  - intro H. inversion H; subst. clear H. apply beqb_spec in E. subst name. cbn [map nc_name]. split; [reflexivity|]. split; [left; reflexivity|].
    intro n. cbn [pairs_for flat_map nc_name nc_pairs]. fold (pairs_for n cs). unfold one. destruct (beqb (nc_name c) n) eqn:E.
    + apply beqb_spec in E. subst n. rewrite (pairs_for_notin _ cs Hni), !app_nil_r. reflexivity.
    + rewrite app_nil_r. reflexivity.
  - destruct (merge_pending cs name ps) as [r|]; [|discriminate]. intro H. cbn in H. inversion H; subst. clear H.
    destruct (IH r Hnd' eq_refl) as [H1 [H2 H3]]. cbn [map]. split; [f_equal; exact H1|]. split; [right; exact H2|].
    intro n. cbn [pairs_for flat_map]. fold (pairs_for n r). fold (pairs_for n cs). rewrite H3, app_assoc. reflexivity.
Qed.

Lemma pend_ok cs name ps : NoDup (map nc_name cs) ->
  NoDup (map nc_name (pend cs name ps)) /\
  (forall x, In x (map nc_name (pend cs name ps)) <-> In x (map nc_name cs) \/ x = name) /\
  (forall n, pairs_for n (pend cs name ps) = pairs_for n cs ++ one name ps n).
Proof.
  intro Hnd. unfold pend. destruct (merge_pending cs name ps) as [cs'|] eqn:E.
  - apply merge_some in E; [|exact Hnd]. destruct E as [H1 [H2 H3]]. rewrite H1. split; [exact Hnd|]. split; [|exact H3].
    intro x. split; [auto|intros [H | ->]; assumption].
  - apply merge_none in E.
    assert (Hnd2 : NoDup (map nc_name (cs ++ [Named name ps]))).
    { rewrite map_app. cbn [map nc_name]. apply NoDup_Add with (a := name) (l := map nc_name cs); [|split; assumption].
      rewrite <- (app_nil_r (map nc_name cs)) at 1. apply Add_app. }
    pose proof (Permutation_map nc_name (sort_changes_perm (cs ++ [Named name ps]))) as P.
    split; [eapply Permutation_NoDup; [exact P|exact Hnd2]|]. split.
    + intro x. split; intro H.
      * apply (Permutation_in _ (Permutation_sym P)) in H. rewrite map_app in H. apply in_app_or in H.
        destruct H as [H | [H | []]]; [left; exact H|right; symmetry; exact H].
      * apply (Permutation_in _ P). rewrite map_app. apply in_or_app. destruct H as [H | ->]; [left; exact H|right; left; reflexivity].
    + intro n. rewrite pairs_for_sort by exact Hnd2. rewrite pairs_for_app. f_equal. cbn [pairs_for flat_map nc_name nc_pairs].
      rewrite app_nil_r. reflexivity.
Qed.

(* ---------------- upgrades ---------------- *)

Lemma insert_named_perm {A} (x : bytes * A) l : Permutation (x :: l) (insert_named x l).
Proof.
  induction l as [|y l IH]; [reflexivity|]. cbn [insert_named]. destruct (bltb (fst y) (fst x)); [|reflexivity].
  etransitivity; [apply perm_swap|]. constructor. exact IH.
Qed.
Lemma sort_named_perm {A} (l : list (bytes * A)) : Permutation l (sort_named l).
Proof. induction l as [|c l IH]; [reflexivity|]. cbn [sort_named]. etransitivity; [|apply insert_named_perm]. constructor. exact IH. Qed.

Lemma distinct_nodup {A} (l : list (bytes * A)) : distinct_names l = true <-> NoDup (map fst l).
Proof.
  induction l as [|x l IH]; cbn [distinct_names map]; [split; [constructor|reflexivity]|].
  rewrite andb_true_iff, negb_true_iff, IH. split.
  - intros [H1 H2]. constructor; [|exact H2]. intro Hi. apply in_map_iff in Hi. destruct Hi as [y [E Hy]].
    assert (existsb (fun y => beqb (fst y) (fst x)) l = true) by (apply existsb_exists; exists y; split; [exact Hy|apply beqb_spec; exact E]).
    congruence.
  - intro H. inversion H; subst. split; [|assumption]. apply not_true_iff_false. intro He. apply existsb_exists in He.
    destruct He as [y [Hy E]]. apply beqb_spec in E. match goal with X : ~ In _ _ |- _ => apply X end. rewrite <- E. apply in_map. exact Hy.
Qed.

Definition nle {A} (x y : bytes * A) : Prop := ble (fst x) (fst y).

Lemma insert_named_sorted {A} (x : bytes * A) l : StronglySorted nle l -> StronglySorted nle (insert_named x l).
Proof.
  induction l as [|y l IH]; intro H; cbn [insert_named]; [constructor; constructor|].
  inversion H as [|? ? Hs Hf]; subst. destruct (bltb (fst y) (fst x)) eqn:E.
  - apply bltb_spec in E. constructor; [apply IH; exact Hs|].
    apply Forall_forall. intros z Hz. apply (Permutation_in _ (Permutation_sym (insert_named_perm x l))) in Hz.
    destruct Hz as [<- | Hz]; [apply blt_le; exact E|rewrite Forall_forall in Hf; apply Hf; exact Hz].
  - apply bltb_false in E. constructor; [exact H|]. constructor; [exact E|].
    eapply Forall_impl; [|exact Hf]. intros z Hz. eapply ble_trans; [exact E|exact Hz].
Qed.
Lemma sort_named_sorted {A} (l : list (bytes * A)) : StronglySorted nle (sort_named l).
Proof. induction l as [|x l IH]; [constructor|]. cbn [sort_named]. apply insert_named_sorted. exact IH. Qed.

Lemma sorted_perm_eq {A} (a b : list (bytes * A)) : NoDup (map fst a) -> Permutation a b ->
  StronglySorted nle a -> StronglySorted nle b -> a = b.
Proof.
  revert b. induction a as [|x a IH]; intros b Hnd P Sa Sb.
  - apply Permutation_nil in P. symmetry. exact P.
  - destruct b as [|y b]; [symmetry in P; apply Permutation_nil in P; discriminate|].
    inversion Sa as [|? ? Sa' Fa]; subst. inversion Sb as [|? ? Sb' Fb]; subst. inversion Hnd as [|? ? Hni Hnd']; subst.
    assert (x = y) as <-.
    { assert (Hy : In y (x :: a)) by (eapply Permutation_in; [symmetry; exact P|left; reflexivity]).
      assert (Hx : In x (y :: b)) by (eapply Permutation_in; [exact P|left; reflexivity]).
      destruct Hx as [H | Hx]; [symmetry; exact H|]. destruct Hy as [H | Hy]; [exact H|].
      rewrite Forall_forall in Fa, Fb. pose proof (Fa _ Hy) as L1. pose proof (Fb _ Hx) as L2. unfold nle in L1, L2.
      assert (Ef : fst x = fst y).
      { apply ble_lt_or_eq in L1. destruct L1 as [L1 | E]; [|exact E]. apply ble_not_lt in L2. contradiction. }
      exfalso. apply Hni. rewrite Ef. apply in_map. exact Hy. }
    f_equal. apply IH; auto. eapply Permutation_cons_inv. exact P.
Qed.

Lemma upgrade_list_app m ts a b :
  apply_upgrade_list m ts (a ++ b) = rbind (apply_upgrade_list m ts a) (fun t => apply_upgrade_list m t b).
Proof.
  revert ts. induction a as [|u a IH]; intro ts; [reflexivity|]. cbn [app apply_upgrade_list].
  destruct (apply_upgrade m ts u); cbn [rbind]; auto.
Qed.

Lemma additions m ts us : Forall addition us ->
  apply_upgrade_list m ts us = Ok (ts ++ map (fun u => (up_name u, new_tree_at (next_version (mt_version m) (mt_init m)))) us).
Proof.
  intro H. revert ts. induction H as [|u us Hu _ IH]; intro ts; cbn [apply_upgrade_list map]; [rewrite app_nil_r; reflexivity|].
  destruct Hu as [H1 H2]. unfold apply_upgrade. rewrite H1, H2. cbn [rbind]. rewrite IH, <- app_assoc. reflexivity.
Qed.

Lemma apply_upgrades_cases m us m' : apply_upgrades m us = Ok m' ->
  (us = [] /\ m' = m) \/
  (exists ts, apply_upgrade_list m (mt_trees m) us = Ok ts /\ m' = with_trees m (sort_named ts) /\ NoDup (map fst (sort_named ts))).
Proof.
  unfold apply_upgrades. destruct us as [|u us]; [intro H; inversion H; left; split; reflexivity|].
  destruct (apply_upgrade_list m (mt_trees m) (u :: us)) as [ts| |]; cbn [rbind]; try discriminate.
  destruct (distinct_names (sort_named ts)) eqn:E; [|discriminate]. intro H. inversion H; subst.
  right. exists ts. split; [reflexivity|]. split; [reflexivity|]. apply distinct_nodup. exact E.
Qed.

Lemma apply_upgrades_names m us m' : NoDup (names m) -> apply_upgrades m us = Ok m' -> NoDup (names m').
Proof. intros Hnd H. apply apply_upgrades_cases in H. destruct H as [[-> ->] | [ts [_ [-> H]]]]; [exact Hnd|exact H]. Qed.

(* two upgrade calls, the second one additions only, are one call *)
Lemma apply_upgrades_app m a b m1 m2 : a = [] \/ Forall addition b ->
  apply_upgrades m a = Ok m1 -> apply_upgrades m1 b = Ok m2 -> apply_upgrades m (a ++ b) = Ok m2.
Proof.
  intros Hreg H1 H2. destruct a as [|u a]; [cbn in H1; inversion H1; subst; exact H2|].
  destruct Hreg as [Hreg | Hb]; [discriminate|].
  destruct b as [|v b]; [rewrite app_nil_r; cbn in H2; inversion H2; subst; exact H1|].
  apply apply_upgrades_cases in H1. destruct H1 as [[X _] | [ts [E1 [-> Hn1]]]]; [discriminate|].
  apply apply_upgrades_cases in H2. destruct H2 as [[X _] | [ts2 [E2 [-> Hn2]]]]; [discriminate|].
  cbn [mt_trees with_trees] in E2. rewrite additions in E2 by exact Hb. inversion E2 as [E2']. clear E2. subst ts2.
  cbn [mt_version mt_init with_trees] in *.
  unfold apply_upgrades. cbn [app]. change (u :: a ++ v :: b) with ((u :: a) ++ v :: b).
  rewrite upgrade_list_app, E1. cbn [rbind]. rewrite additions by exact Hb. cbn [rbind].
  set (add := map (fun u0 => (up_name u0, new_tree_at (next_version (mt_version m) (mt_init m)))) (v :: b)) in *.
  assert (Heq : sort_named (sort_named ts ++ add) = sort_named (ts ++ add)).
  { apply sorted_perm_eq; [exact Hn2| |apply sort_named_sorted|apply sort_named_sorted].
    etransitivity; [symmetry; apply sort_named_perm|]. etransitivity; [|apply sort_named_perm].
    apply Permutation_app_tail. symmetry. apply sort_named_perm. }
  rewrite <- Heq. assert (D : distinct_names (sort_named (sort_named ts ++ add)) = true) by (apply distinct_nodup; exact Hn2).
  rewrite D. reflexivity.
Qed.

(* ---------------- the pending log replays to the live state ---------------- *)

Definition live_ok (m0 : mtree) (m : mtree) (p : wal_entry) : Prop :=
  NoDup (map nc_name (we_changes p)) /\
  exists m1, apply_upgrades m0 (we_upgrades p) = Ok m1 /\ NoDup (names m1) /\ mt_apply_change_sets m1 (we_changes p) = Ok m.

Lemma live_replays m0 m p : live_ok m0 m p -> apply_wal_entry m0 p = Ok m.
Proof. intros [_ [m1 [H1 [_ H2]]]]. unfold apply_wal_entry. rewrite H1. exact H2. Qed.

Lemma live_names m0 m p : live_ok m0 m p -> NoDup (names m).
Proof.
  intros [_ [m1 [H1 [Hn H2]]]]. apply apply_nf in H2; [|exact Hn]. destruct H2 as [_ [ts [-> F]]].
  unfold names. cbn [mt_trees with_trees]. rewrite (updated_names _ _ _ F). exact Hn.
Qed.

Lemma live_start m0 : NoDup (names m0) -> live_ok m0 m0 empty_entry.
Proof. intro H. split; [constructor|]. exists m0. repeat split; auto. Qed.

Lemma live_upgrades m0 m p us m' : live_ok m0 m p -> we_changes p = [] ->
  we_upgrades p = [] \/ Forall addition us -> apply_upgrades m us = Ok m' ->
  live_ok m0 m' (WalEntry (we_upgrades p ++ us) (we_changes p)).
Proof.
  intros [Hnd [m1 [H1 [Hn H2]]]] Hc Hreg Hu. rewrite Hc in *. cbn in H2. inversion H2; subst m1. clear H2.
  split; cbn [we_changes we_upgrades]; [constructor|]. exists m'. split; [|split; [|reflexivity]].
  - eapply apply_upgrades_app; eassumption.
  - eapply apply_upgrades_names; eassumption.
Qed.

Lemma live_change_set m0 m p name ps m' : live_ok m0 m p -> mt_apply_change_set m name ps = Ok m' ->
  live_ok m0 m' (WalEntry (we_upgrades p) (pend (we_changes p) name ps)).
Proof.
  intros Hl H. pose proof (live_names _ _ _ Hl) as Hnm. destruct Hl as [Hnd [m1 [H1 [Hn H2]]]].
  destruct (pend_ok (we_changes p) name ps Hnd) as [P1 [P2 P3]]. split; cbn [we_changes we_upgrades]; [exact P1|].
  exists m1. split; [exact H1|]. split; [exact Hn|].
  apply apply_nf in H2; [|exact Hn]. destruct H2 as [Hi [ts [-> F]]].
  apply apply_one_nf in H; [|exact Hnm]. destruct H as [Hin [ts2 [-> F2]]]. cbn [mt_trees with_trees] in *.
  apply apply_nf; [exact Hn|]. unfold names in Hin. cbn [mt_trees with_trees] in Hin. rewrite (updated_names _ _ _ F) in Hin.
  split; [intros x Hx; apply P2 in Hx; destruct Hx as [Hx | ->]; [apply Hi; exact Hx|exact Hin]|].
  exists ts2. split; [reflexivity|]. eapply updated_ext; [|eapply updated_compose; [exact F|exact F2]]. intros n _. symmetry. apply P3.
Qed.

Definition live_db (m0 : mtree) (d : db) : Prop := live_ok m0 (d_mt d) (d_pending d).

Lemma live_db_change_set m0 d name ps d' : live_db m0 d -> db_apply_change_set d name ps = (Ok tt, d') -> live_db m0 d'.
Proof.
  intros Hl. unfold db_apply_change_set. destruct ps as [|p ps]; [intro H; inversion H; subst; exact Hl|].
  destruct (mt_apply_change_set (d_mt d) name (p :: ps)) as [m| |] eqn:E; intro H; inversion H; subst.
  unfold live_db. cbn [d_mt d_pending set_pending]. eapply live_change_set; eassumption.
Qed.

Lemma live_db_each m0 cs : forall d d', live_db m0 d -> db_apply_each d cs = (Ok tt, d') -> live_db m0 d'.
Proof.
  induction cs as [|c cs IH]; intros d d' Hl; cbn [db_apply_each]; [intro H; inversion H; subst; exact Hl|].
  destruct (db_apply_change_set d (nc_name c) (nc_pairs c)) as [[[]| |] d1] eqn:E; try discriminate.
  intro H. eapply IH; [|exact H]. eapply live_db_change_set; eassumption.
Qed.

Lemma live_db_change_sets m0 d cs d' : live_db m0 d -> (we_changes (d_pending d) = [] -> NoDup (map nc_name cs)) ->
  db_apply_change_sets d cs = (Ok tt, d') -> live_db m0 d'.
Proof.
  intros Hl Hreg. unfold db_apply_change_sets. destruct cs as [|c cs]; [intro H; inversion H; subst; exact Hl|].
  destruct (we_changes (d_pending d)) as [|x xs] eqn:Ep.
  - destruct (mt_apply_change_sets (d_mt d) (c :: cs)) as [m| |] eqn:E; intro H; inversion H; subst.
    unfold live_db in *. cbn [d_mt d_pending set_pending]. split; cbn [we_changes we_upgrades]; [apply Hreg; reflexivity|].
    destruct Hl as [Hnd [m1 [H1 [Hn H2]]]]. rewrite Ep in H2. cbn in H2. inversion H2; subst m1. exists (d_mt d). auto.
  - intro H. eapply live_db_each; eassumption.
Qed.

Lemma live_db_upgrades m0 d us d' : live_db m0 d -> we_changes (d_pending d) = [] ->
  (we_upgrades (d_pending d) = [] \/ Forall addition us) -> db_apply_upgrades d us = (Ok tt, d') -> live_db m0 d'.
Proof.
  intros Hl Hc Hreg. unfold db_apply_upgrades. destruct (apply_upgrades (d_mt d) us) as [m| |] eqn:E; intro H; inversion H; subst.
  unfold live_db. cbn [d_mt d_pending set_pending]. eapply live_upgrades; eassumption.
Qed.
