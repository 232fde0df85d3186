(* Whole-tree lemmas: histories, cache, iteration. *)
From Verif Require Import Lib.Base Lib.Bytes Memiavl.Model Memiavl.Spec Memiavl.TreeProofs.
Open Scope Z_scope.

Lemma avl_sorted r : root_ok avl r -> sorted (root_leaves r).
Proof. destruct r as [n|]; cbn; [intros (_ & _ & H); apply keys_sorted; exact H|constructor]. Qed.

Definition tree_inv (t : tree) (m : kvmap) : Prop :=
  root_ok avl (t_root t) /\
  (forall k, look k (root_leaves (t_root t)) = m k) /\
  match t_cache t with None => True | Some c => forall k v, cache_find c k = Some v -> m k = Some v end.

Lemma cache_find_remove c k x : cache_find (cache_remove c k) x = if beqb k x then None else cache_find c x.
Proof.
  unfold cache_find, cache_remove. induction c as [|[k0 v0] c IH]; cbn [filter find fst].
  - destruct (beqb k x); reflexivity.
  - destruct (beqb k0 k) eqn:E1; cbn [negb find fst].
    + rewrite IH. apply beqb_spec in E1. subst k0. destruct (beqb k x); reflexivity.
    + destruct (beqb k0 x) eqn:E2; [|exact IH].
      apply beqb_spec in E2. subst k0. destruct (beqb k x) eqn:E3; [|reflexivity].
      apply beqb_spec in E3. subst k. rewrite beqb_refl in E1. discriminate.
Qed.

Lemma cache_find_add c k v x : cache_find (cache_add c k v) x = if beqb k x then Some v else cache_find c x.
Proof.
  unfold cache_add. unfold cache_find at 1. cbn [find fst].
  destruct (beqb k x) eqn:E; [reflexivity|]. fold (cache_find (cache_remove c k) x).
  rewrite cache_find_remove, E. reflexivity.
Qed.

Lemma tree_get_ok t m k : tree_inv t m -> fst (tree_get t k) = m k /\ tree_inv (snd (tree_get t k)) m /\
  t_root (snd (tree_get t k)) = t_root t.
Proof.
  intros (Ha & Hm & Hc). unfold tree_get.
  assert (Hv : snd (get_with_index t k) = m k).
  { rewrite <- Hm. unfold get_with_index. destruct (t_root t) as [n|]; [|reflexivity].
    pose proof (get_rec_value n k Ha) as H. destruct (get_rec n k). exact H. }
  destruct (obind (t_cache t) (fun c => cache_find c k)) as [v|] eqn:E.
  - destruct (t_cache t) as [c|] eqn:Ec; [|discriminate]. cbn [obind] in E. cbn [fst snd].
    split; [symmetry; apply Hc; exact E|]. split; [|reflexivity].
    unfold tree_inv. rewrite Ec. auto.
  - rewrite Hv. destruct (m k) as [v|] eqn:Em; cbn [fst snd].
    + split; [reflexivity|]. split; [|reflexivity]. unfold tree_inv. cbn [t_root t_cache].
      split; [exact Ha|]. split; [exact Hm|]. destruct (t_cache t) as [c|]; [|exact I].
      cbn [option_map]. intros k' v'. rewrite cache_find_add. destruct (beqb k k') eqn:Ek.
      * intros H; inversion H; subst. apply beqb_spec in Ek. subst. exact Em.
      * apply Hc.
    + split; [reflexivity|]. split; [|reflexivity]. unfold tree_inv. auto.
Qed.

Lemma tree_set_ok t m k v : tree_inv t m ->
  exists t', tree_set t k v = Some t' /\ t_version t' = t_version t /\
    tree_inv t' (upd m k (Some (match v with Some v => v | None => [] end))) /\
    root_leaves (t_root t') = ins k (match v with Some v => v | None => [] end) (root_leaves (t_root t)).
Proof.
  intros (Ha & Hm & Hc). unfold tree_set. set (w := match v with Some v => v | None => [] end).
  assert (Hcache : match option_map (fun c => cache_add c k w) (t_cache t) with
     | None => True | Some c => forall k' v', cache_find c k' = Some v' -> upd m k (Some w) k' = Some v' end).
  { destruct (t_cache t) as [c|]; [|exact I]. cbn [option_map]. intros k' v'. rewrite cache_find_add.
    unfold upd. destruct (beqb k k'); [auto|apply Hc]. }
  destruct (t_root t) as [n|].
  - cbn [root_ok] in Ha.
    destruct (set_rec_ok n k w (t_version t + 1) Ha) as (n' & u & -> & An & Ln & _).
    cbn [option_map fst obind]. eexists. split; [reflexivity|]. cbn [t_version t_root t_cache].
    split; [reflexivity|]. split; [|exact Ln]. split; [exact An|]. split; [|exact Hcache].
    intros x. cbn [root_leaves t_root]. rewrite Ln, look_ins by (apply (avl_sorted (Some n)); exact Ha).
    unfold upd. rewrite <- (Hm x). reflexivity.
  - cbn [obind]. eexists. split; [reflexivity|]. cbn [t_version t_root t_cache].
    split; [reflexivity|]. split; [|reflexivity]. split; [repeat split|]. split; [|exact Hcache].
    intros x. cbn [root_leaves t_root leaves look]. unfold upd. rewrite <- (Hm x). reflexivity.
Qed.

Lemma tree_remove_ok t m k : tree_inv t m ->
  exists t', tree_remove t k = Some t' /\ t_version t' = t_version t /\ tree_inv t' (upd m k None) /\
    root_leaves (t_root t') = del k (root_leaves (t_root t)).
Proof.
  intros (Ha & Hm & Hc). unfold tree_remove.
  assert (Hcache : match option_map (fun c => cache_remove c k) (t_cache t) with
     | None => True | Some c => forall k' v', cache_find c k' = Some v' -> upd m k None k' = Some v' end).
  { destruct (t_cache t) as [c|]; [|exact I]. cbn [option_map]. intros k' v'. rewrite cache_find_remove.
    unfold upd. destruct (beqb k k'); [discriminate|apply Hc]. }
  destruct (t_root t) as [n|].
  - cbn [root_ok] in Ha.
    assert (Hgoal : forall r, root_ok avl r -> root_leaves r = del k (leaves n) ->
       exists t', Some (Tree (t_version t) r (option_map (fun c => cache_remove c k) (t_cache t))) = Some t' /\
         t_version t' = t_version t /\ tree_inv t' (upd m k None) /\ root_leaves (t_root t') = del k (leaves n)).
    { intros r Hr Hl. eexists. split; [reflexivity|]. cbn [t_version t_root]. split; [reflexivity|].
      split; [|exact Hl]. split; [exact Hr|]. split; [|exact Hcache].
      intros x. cbn [t_root]. rewrite Hl, look_del. unfold upd. rewrite <- (Hm x). reflexivity. }
    destruct (remove_rec_ok n k (t_version t + 1) Ha)
      as [[-> Hn]|[(v & -> & Hl & _)|(v & n' & nk & -> & An & Ln & _)]]; cbn [obind].
    + apply (Hgoal (Some n)); [exact Ha|]. cbn [root_leaves]. symmetry. apply del_notin.
      intros v Hi. apply (look_in k v) in Hi; [congruence|]. apply (avl_sorted (Some n)). exact Ha.
    + apply (Hgoal None); [exact I|]. rewrite Hl. cbn [root_leaves del filter fst]. rewrite beqb_refl. reflexivity.
    + apply (Hgoal (Some n')); [exact An|exact Ln].
  - cbn [obind]. eexists. split; [reflexivity|]. cbn [t_version t_root].
    split; [reflexivity|]. split; [|reflexivity]. split; [exact I|]. split; [|exact Hcache].
    intros x. cbn [t_root root_leaves look]. unfold upd. rewrite <- (Hm x). cbn. destruct (beqb k x); reflexivity.
Qed.

Lemma step_ok t m o : tree_inv t m -> exists t', step t o = Some t' /\ tree_inv t' (op_map m o).
Proof.
  intros Hi. destruct o as [k v|k|k|k| |c]; cbn [step op_map].
  - destruct (tree_set_ok t m k v Hi) as (t' & E & _ & H & _). eauto.
  - destruct (tree_remove_ok t m k Hi) as (t' & E & _ & H & _). eauto.
  - eexists. split; [reflexivity|]. apply tree_get_ok. exact Hi.
  - eexists. split; [reflexivity|]. destruct Hi as (Ha & Hm & Hc). split; [exact Ha|]. split; [exact Hm|].
    cbn [t_cache]. destruct (t_cache t) as [c|]; [|exact I]. cbn [option_map].
    intros k' v'. rewrite cache_find_remove. destruct (beqb k k'); [discriminate|apply Hc].
  - eexists. split; [reflexivity|]. unfold save_version. destruct (t_version t =? 2 ^ 32 - 1); exact Hi.
  - eexists. split; [reflexivity|]. destruct Hi as (Ha & Hm & Hc). split; [exact Ha|]. split; [exact Hm|].
    cbn [t_cache]. destruct c; cbn; [discriminate|exact I].
Qed.

Lemma run_ok ops : forall t m, tree_inv t m -> exists t', run t ops = Some t' /\ tree_inv t' (fold_left op_map ops m).
Proof.
  induction ops as [|o ops IH]; intros t m Hi; [exists t; auto|].
  cbn [run fold_left]. destruct (step_ok t m o Hi) as (t1 & -> & H1). cbn [obind]. apply IH. exact H1.
Qed.

Lemma empty_inv v c : tree_inv (new_empty_tree v c) empty_map.
Proof. split; [exact I|]. split; [reflexivity|]. destruct c; cbn; [discriminate|exact I]. Qed.

Lemma run_empty ops v c t : run (new_empty_tree v c) ops = Some t -> tree_inv t (history_map ops).
Proof.
  intros H. destruct (run_ok ops _ _ (empty_inv v c)) as (t' & E & Hi).
  assert (t' = t) by congruence. subst. exact Hi.
Qed.

Lemma inv_lists t m : tree_inv t m -> lists (root_leaves (t_root t)) m.
Proof.
  intros (Ha & Hm & _). pose proof (avl_sorted _ Ha) as Hs. split; [exact Hs|].
  intros k v. rewrite <- Hm. apply look_in. exact Hs.
Qed.

Lemma run_app t a b : run t (a ++ b) = obind (run t a) (fun t' => run t' b).
Proof.
  revert t. induction a as [|o a IH]; intros t; [reflexivity|]. cbn [app run].
  destruct (step t o) as [t'|]; cbn [obind]; [apply IH|reflexivity].
Qed.

Lemma apply_change_set_ok cs : forall t m, tree_inv t m ->
  exists t', apply_change_set t cs = Some t' /\ tree_inv t' (apply_pairs m cs) /\ t_version t' = t_version t.
Proof.
  induction cs as [|[d k v] cs IH]; intros t m Hi; [exists t; auto|].
  cbn [apply_change_set kv_delete kv_key kv_value]. unfold apply_pairs. cbn [fold_left].
  unfold apply_pair at 2. cbn [kv_delete kv_key kv_value].
  destruct d.
  - destruct (tree_remove_ok t m k Hi) as (t' & -> & Hv & H & _). cbn [obind].
    destruct (IH t' _ H) as (t2 & E & Hi2 & Hv2). exists t2. split; [exact E|]. split; [exact Hi2|congruence].
  - destruct (tree_set_ok t m k v Hi) as (t' & -> & Hv & H & _). cbn [obind].
    destruct (IH t' _ H) as (t2 & E & Hi2 & Hv2). exists t2. split; [exact E|]. split; [exact Hi2|congruence].
Qed.

(* ---------- iteration ---------- *)

Definition pick (start en : option bytes) (l : list (bytes * bytes)) : list (bytes * bytes) :=
  filter (fun p => in_range start en (fst p)) l.

Definition expected (it : iterator) (st : list node) : list (bytes * bytes) :=
  flat_map (fun n => if it_asc it then pick (it_start it) (it_end it) (leaves n)
                     else rev (pick (it_start it) (it_end it) (leaves n))) st.

Lemma pick_app s e a b : pick s e (a ++ b) = pick s e a ++ pick s e b.
Proof. apply filter_app. Qed.

Lemma pick_none_start s e l k : all_lt l k -> after_start s k = false -> pick s e l = [].
Proof.
  intros Hl Ha. unfold after_start, start_cmp in Ha. destruct s as [s|]; [|discriminate].
  induction l as [|[k0 v0] l IH]; [reflexivity|]. apply all_lt_cons in Hl. destruct Hl as [H1 H2].
  unfold pick. cbn [filter fst]. unfold in_range at 1.
  assert (bltb k0 s = true) as ->.
  { apply bltb_spec. eapply blt_le_trans; [exact H1|]. apply ble_not_lt. intros H. unfold blt in H.
    rewrite H in Ha. discriminate. }
  cbn [negb andb]. apply IH. exact H2.
Qed.

Lemma pick_none_end s e l k : all_ge l k -> before_end e k = false -> pick s e l = [].
Proof.
  intros Hl Hb. unfold before_end in Hb. destruct e as [e|]; [|discriminate].
  apply bltb_false in Hb.
  induction l as [|[k0 v0] l IH]; [reflexivity|].
  unfold pick. cbn [filter fst]. unfold in_range at 1.
  assert (bltb k0 e = false) as ->.
  { apply bltb_false. eapply ble_trans; [exact Hb|]. apply (Hl k0 v0). left; reflexivity. }
  rewrite andb_false_r. apply IH. intros x y Hi. apply (Hl x y). right; exact Hi.
Qed.

Lemma leaf_in_range s e k :
  ((after_start s k || match start_cmp s k with Eq => true | _ => false end) && before_end e k) = in_range s e k.
Proof.
  unfold after_start, before_end, in_range, start_cmp. f_equal.
  destruct s as [s|]; [|reflexivity].
  unfold bltb. rewrite (bcmp_antisym s k). destruct (bcmp s k); reflexivity.
Qed.

Lemma stack_count_eq n st : stack_count (n :: st) = (node_count n + stack_count st)%nat.
Proof. reflexivity. Qed.

Lemma stack_count_cons n st : (stack_count st < stack_count (n :: st))%nat.
Proof. rewrite stack_count_eq. destruct n; cbn [node_count]; lia. Qed.

Lemma next_turn_ok it n st : Forall keys_exact (n :: st) ->
  it_stack it = n :: st ->
  match next_turn it with
  | None => False
  | Some (inl (kv, st')) => st' = st /\ expected it (n :: st) = kv :: expected it st'
  | Some (inr st') => Forall keys_exact st' /\ (stack_count st' < stack_count (n :: st))%nat /\
                      expected it (n :: st) = expected it st'
  end.
Proof.
  intros Hk Hst. inversion Hk as [|? ? Hn Hst']; subst.
  unfold next_turn. rewrite Hst. destruct n as [k v ver|k h s ver l r].
  - cbn [nkey]. rewrite leaf_in_range.
    destruct (in_range (it_start it) (it_end it) k) eqn:E.
    + split; [reflexivity|]. unfold expected. cbn [flat_map leaves]. unfold pick. cbn [filter fst].
      rewrite E. destruct (it_asc it); reflexivity.
    + split; [exact Hst'|]. split; [apply stack_count_cons|]. unfold expected. cbn [flat_map leaves]. unfold pick at 1 2. cbn [filter fst].
      rewrite E. destruct (it_asc it); reflexivity.
  - cbn [nkey]. cbn [keys_exact] in Hn. destruct Hn as (Kl & Kr & Hh & Hlt).
    set (a := after_start (it_start it) k). set (b := before_end (it_end it) k).
    assert (Hl : a = false -> pick (it_start it) (it_end it) (leaves l) = []).
    { intros Ha. eapply pick_none_start; [exact Hlt|exact Ha]. }
    assert (Hr : b = false -> pick (it_start it) (it_end it) (leaves r) = []).
    { intros Hb. eapply pick_none_end; [apply heads_ge; [exact Kr|exact Hh]|exact Hb]. }
    destruct (it_asc it) eqn:Easc; unfold expected; rewrite Easc; cbn [flat_map leaves]; rewrite pick_app, ?rev_app_distr;
      destruct a, b; cbn [app flat_map]; rewrite ?stack_count_eq; cbn [node_count];
      rewrite ?(Hl eq_refl), ?(Hr eq_refl); cbn [app rev]; rewrite ?app_nil_r, <- ?app_assoc;
      (split; [auto|split; [lia|reflexivity]]).
Qed.

Lemma next_ok fuel : forall it, Forall keys_exact (it_stack it) -> (stack_count (it_stack it) < fuel)%nat ->
  match next fuel it with
  | None => False
  | Some None => expected it (it_stack it) = []
  | Some (Some (kv, it')) => Forall keys_exact (it_stack it') /\
       (stack_count (it_stack it') < stack_count (it_stack it))%nat /\
       it_start it' = it_start it /\ it_end it' = it_end it /\ it_asc it' = it_asc it /\
       expected it (it_stack it) = kv :: expected it' (it_stack it')
  end.
Proof.
  induction fuel as [|fuel IH]; intros it Hk Hf; [lia|].
  cbn [next]. destruct (it_stack it) as [|n st] eqn:Est.
  - unfold next_turn. rewrite Est. reflexivity.
  - pose proof (next_turn_ok it n st Hk Est) as Ht.
    destruct (next_turn it) as [[[kv st']|st']|]; [| |contradiction].
    + destruct Ht as [-> He]. inversion Hk as [|? ? Hk1 Hk2]; subst. cbn [it_stack it_start it_end it_asc].
      split; [exact Hk2|]. split; [apply stack_count_cons|]. repeat (split; [reflexivity|]). exact He.
    + destruct Ht as (Hk' & Hc & He).
      specialize (IH (Iter (it_start it) (it_end it) (it_asc it) st')).
      cbn [it_stack it_start it_end it_asc] in IH. specialize (IH Hk'). rewrite He.
      assert ((stack_count st' < fuel)%nat) as Hf' by lia. specialize (IH Hf').
      destruct (next fuel _) as [[[kv it']|]|]; [| |contradiction].
      * destruct IH as (H1 & H2 & H3 & H4 & H5 & H6). repeat split; try assumption; try lia.
      * exact IH.
Qed.

Lemma drain_ok fuel : forall it, Forall keys_exact (it_stack it) -> (stack_count (it_stack it) < fuel)%nat ->
  drain fuel it = Some (expected it (it_stack it)).
Proof.
  induction fuel as [|fuel IH]; intros it Hk Hf; [lia|].
  cbn [drain]. pose proof (next_ok (S fuel) it Hk Hf) as Hn.
  destruct (next (S fuel) it) as [[[kv it']|]|]; [| |contradiction].
  - destruct Hn as (H1 & H2 & H3 & H4 & H5 & H6). rewrite IH; [|exact H1|lia]. cbn [option_map]. rewrite H6. reflexivity.
  - rewrite Hn. reflexivity.
Qed.

Lemma iterate_ok t start en asc : root_ok avl (t_root t) ->
  iterate t start en asc =
  Some (if asc then pick start en (root_leaves (t_root t)) else rev (pick start en (root_leaves (t_root t)))).
Proof.
  intros Ha. unfold iterate. rewrite drain_ok; cbn [it_stack].
  - unfold expected. cbn [it_asc it_start it_end]. destruct (t_root t) as [n|]; cbn [flat_map root_leaves].
    + rewrite app_nil_r. reflexivity.
    + destruct asc; reflexivity.
  - destruct (t_root t) as [n|]; [|constructor]. constructor; [apply Ha|constructor].
  - lia.
Qed.

Lemma filter_first_k k v : forall l1 l2, sorted (l1 ++ (k, v) :: l2) ->
  length (filter (fun p => bltb (fst p) k) (l1 ++ (k, v) :: l2)) = length l1.
Proof.
  induction l1 as [|[k0 v0] l1 IH]; intros l2 Hs; cbn [app] in *.
  - cbn [filter fst]. apply sorted_cons in Hs. destruct Hs as [_ Hg].
    assert (bltb k k = false) as -> by (apply bltb_false, ble_refl).
    pose proof (rank_all_ge k l2) as Hr. unfold rank in Hr.
    assert (all_ge l2 k) as Hge by (intros x y Hi; apply blt_le, (Hg x y Hi)). specialize (Hr Hge). cbn. lia.
  - cbn [filter fst]. apply sorted_cons in Hs. destruct Hs as [Hs Hg].
    assert (bltb k0 k = true) as ->.
    { apply bltb_spec, (Hg k v). apply in_or_app. right; left; reflexivity. }
    cbn [length]. rewrite IH by exact Hs. reflexivity.
Qed.

