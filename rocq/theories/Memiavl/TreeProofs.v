(* Balance, order and contents of the tree operations. *)
From Verif Require Import Lib.Base Lib.Bytes Memiavl.Model Memiavl.Spec.
Open Scope Z_scope.

(* ---------- sorted association lists ---------- *)

Fixpoint ins (k v : bytes) (l : list (bytes * bytes)) : list (bytes * bytes) :=
  match l with
  | [] => [(k, v)]
  | (k0, v0) :: t =>
      match bcmp k k0 with
      | Lt => (k, v) :: l
      | Eq => (k0, v) :: t
      | Gt => (k0, v0) :: ins k v t
      end
  end.

Definition del (k : bytes) (l : list (bytes * bytes)) : list (bytes * bytes) :=
  filter (fun p => negb (beqb (fst p) k)) l.

Fixpoint look (k : bytes) (l : list (bytes * bytes)) : option bytes :=
  match l with
  | [] => None
  | (k0, v0) :: t => if beqb k0 k then Some v0 else look k t
  end.

Definition all_lt (l : list (bytes * bytes)) (k : bytes) : Prop := forall x v, In (x, v) l -> blt x k.
Definition all_gt (l : list (bytes * bytes)) (k : bytes) : Prop := forall x v, In (x, v) l -> blt k x.
Definition all_ge (l : list (bytes * bytes)) (k : bytes) : Prop := forall x v, In (x, v) l -> ble k x.

Lemma all_lt_cons k0 v0 l k : all_lt ((k0, v0) :: l) k <-> blt k0 k /\ all_lt l k.
Proof.
  unfold all_lt. split.
  - intros H. split; [apply (H k0 v0); left; reflexivity|]. intros x v Hi. apply (H x v). right; exact Hi.
  - intros [H1 H2] x v [E|Hi]; [inversion E; subst; exact H1|apply (H2 x v Hi)].
Qed.

Lemma all_lt_app l1 l2 k : all_lt (l1 ++ l2) k <-> all_lt l1 k /\ all_lt l2 k.
Proof.
  unfold all_lt. split.
  - intros H. split; intros x v Hi; apply (H x v); apply in_or_app; auto.
  - intros [H1 H2] x v Hi. apply in_app_or in Hi. destruct Hi; [eapply H1|eapply H2]; eassumption.
Qed.

Lemma ins_app_r k v l r : all_lt l k -> ins k v (l ++ r) = l ++ ins k v r.
Proof.
  induction l as [|[k0 v0] l IH]; intros H; [reflexivity|]. cbn [app ins].
  apply all_lt_cons in H. destruct H as [H1 H2].
  rewrite (proj2 (bgt_lt k k0) H1). rewrite IH by exact H2. reflexivity.
Qed.

Lemma ins_all_gt k v r : all_gt r k -> ins k v r = (k, v) :: r.
Proof.
  destruct r as [|[k0 v0] r]; intros H; [reflexivity|]. cbn [ins].
  assert (blt k k0) as -> by (apply (H k0 v0); left; reflexivity). reflexivity.
Qed.

Lemma ins_app_l k v l r : all_gt r k -> ins k v (l ++ r) = ins k v l ++ r.
Proof.
  induction l as [|[k0 v0] l IH]; intros H; cbn [app ins].
  - rewrite ins_all_gt by exact H. reflexivity.
  - destruct (bcmp k k0); cbn [app]; try reflexivity. rewrite IH by exact H. reflexivity.
Qed.

Lemma all_gt_trans l a b : blt a b -> all_ge l b -> all_gt l a.
Proof. intros H1 H2 x v Hi. eapply blt_le_trans; [exact H1|apply (H2 x v Hi)]. Qed.

Lemma ins_length k v l : (length l <= length (ins k v l) <= S (length l))%nat.
Proof.
  induction l as [|[k0 v0] l IH]; cbn; [lia|]. destruct (bcmp k k0); cbn; lia.
Qed.

Lemma ins_in k v l x y : In (x, y) (ins k v l) -> (x = k) \/ In (x, y) l.
Proof.
  induction l as [|[k0 v0] l IH]; cbn.
  - intros [E|[]]. inversion E; auto.
  - destruct (bcmp_spec k k0) as [->|H|H]; cbn.
    + intros [E|Hi]; [inversion E; auto|auto].
    + intros [E|Hi]; [inversion E; auto|auto].
    + intros [E|Hi]; [auto|]. destruct (IH Hi); auto.
Qed.

Lemma all_lt_ins k v l b : all_lt l b -> blt k b -> all_lt (ins k v l) b.
Proof. intros H1 H2 x y Hi. apply ins_in in Hi. destruct Hi as [->|Hi]; [exact H2|apply (H1 x y Hi)]. Qed.

Lemma sorted_cons k v l : sorted ((k, v) :: l) <-> sorted l /\ all_gt l k.
Proof.
  unfold sorted. split.
  - intros H. inversion H as [|? ? H1 H2]; subst. split; [exact H1|].
    intros x y Hi. rewrite Forall_forall in H2. apply (H2 (x, y) Hi).
  - intros [H1 H2]. constructor; [exact H1|]. apply Forall_forall. intros [x y] Hi. apply (H2 x y Hi).
Qed.

Lemma sorted_app l1 l2 k : sorted l1 -> sorted l2 -> all_lt l1 k -> all_ge l2 k -> sorted (l1 ++ l2).
Proof.
  intros H1 H2 H3 H4. induction l1 as [|[k0 v0] l1 IH]; [exact H2|]. cbn [app].
  apply sorted_cons in H1. destruct H1 as [H1 H1']. apply all_lt_cons in H3. destruct H3 as [H3 H3'].
  apply sorted_cons. split; [apply IH; assumption|].
  intros x y Hi. apply in_app_or in Hi. destruct Hi as [Hi|Hi]; [apply (H1' x y Hi)|].
  eapply blt_le_trans; [exact H3|apply (H4 x y Hi)].
Qed.

Lemma look_ins k v l x : sorted l -> look x (ins k v l) = if beqb k x then Some v else look x l.
Proof.
  induction l as [|[k0 v0] l IH]; intros Hs; cbn [ins look]; [destruct (beqb k x); reflexivity|].
  apply sorted_cons in Hs. destruct Hs as [Hs Hg].
  destruct (bcmp_spec k k0) as [->|H|H]; cbn [look].
  - destruct (beqb k0 x); reflexivity.
  - destruct (beqb k x); reflexivity.
  - rewrite IH by exact Hs. destruct (beqb k0 x) eqn:E; [|reflexivity].
    apply beqb_spec in E. subst x. destruct (beqb k k0) eqn:E2; [|reflexivity].
    apply beqb_spec in E2. subst k. exfalso. exact (blt_irrefl _ H).
Qed.

Lemma look_del k l x : look x (del k l) = if beqb k x then None else look x l.
Proof.
  induction l as [|[k0 v0] l IH]; cbn [del filter look fst]; [destruct (beqb k x); reflexivity|].
  fold (del k l). destruct (beqb k0 k) eqn:E; cbn [negb look].
  - rewrite IH. apply beqb_spec in E. subst k0. destruct (beqb k x); reflexivity.
  - rewrite IH. destruct (beqb k0 x) eqn:E2; [|reflexivity].
    apply beqb_spec in E2. subst k0. destruct (beqb k x) eqn:E3; [|reflexivity].
    apply beqb_spec in E3. subst k. rewrite beqb_refl in E. discriminate.
Qed.

Lemma del_app k a b : del k (a ++ b) = del k a ++ del k b.
Proof. apply filter_app. Qed.

Lemma del_notin k l : (forall v, ~ In (k, v) l) -> del k l = l.
Proof.
  induction l as [|[k0 v0] l IH]; intros H; [reflexivity|]. cbn [del filter fst]. fold (del k l).
  destruct (beqb k0 k) eqn:E.
  - apply beqb_spec in E. subst k0. exfalso. apply (H v0). left; reflexivity.
  - cbn [negb]. rewrite IH; [reflexivity|]. intros v Hi. apply (H v). right; exact Hi.
Qed.

Lemma look_in k v l : sorted l -> In (k, v) l <-> look k l = Some v.
Proof.
  induction l as [|[k0 v0] l IH]; intros Hs; cbn [In look]; [split; [tauto|discriminate]|].
  apply sorted_cons in Hs. destruct Hs as [Hs Hg]. specialize (IH Hs).
  destruct (beqb k0 k) eqn:E.
  - apply beqb_spec in E. subst k0. split.
    + intros [H|H]; [inversion H; reflexivity|]. exfalso. exact (blt_irrefl _ (Hg k v H)).
    + intros H. inversion H. left; reflexivity.
  - rewrite <- IH. split; [|auto]. intros [H|H]; [|exact H]. inversion H; subst.
    rewrite beqb_refl in E. discriminate.
Qed.

Lemma look_app k l1 l2 : look k (l1 ++ l2) = match look k l1 with Some v => Some v | None => look k l2 end.
Proof.
  induction l1 as [|[k0 v0] l1 IH]; [reflexivity|]. cbn [app look]. destruct (beqb k0 k); [reflexivity|exact IH].
Qed.

Lemma look_none k l : (forall v, ~ In (k, v) l) -> look k l = None.
Proof.
  induction l as [|[k0 v0] l IH]; intros H; [reflexivity|]. cbn [look].
  destruct (beqb k0 k) eqn:E.
  - apply beqb_spec in E. subst. exfalso. apply (H v0). left; reflexivity.
  - apply IH. intros v Hi. apply (H v). right; exact Hi.
Qed.

Lemma all_lt_notin l k : all_lt l k -> forall v, ~ In (k, v) l.
Proof. intros H v Hi. exact (blt_irrefl _ (H k v Hi)). Qed.
Lemma all_gt_notin l k : all_gt l k -> forall v, ~ In (k, v) l.
Proof. intros H v Hi. exact (blt_irrefl _ (H k v Hi)). Qed.

(* ---------- invariants ---------- *)

Definition avl (n : node) : Prop := balanced n /\ fields_exact n /\ keys_exact n.

Definition size (n : node) : Z := Z.of_nat (length (leaves n)).

Lemma size_pos n : 1 <= size n.
Proof.
  unfold size. induction n as [k v ver|k h s ver l IHl r IHr]; cbn [leaves length]; [lia|].
  rewrite app_length. lia.
Qed.

Lemma depth_nonneg n : 0 <= depth n.
Proof. induction n; cbn [depth]; lia. Qed.

Lemma nheight_depth n : fields_exact n -> nheight n = depth n.
Proof. destruct n; cbn [fields_exact nheight depth]; [reflexivity|]. intros (_ & _ & H & _). exact H. Qed.

Lemma nsize_size n : fields_exact n -> nsize n = size n.
Proof. destruct n; cbn [fields_exact nsize]; [reflexivity|]. intros (_ & _ & _ & H). exact H. Qed.

Lemma size_branch k h s v l r : size (Branch k h s v l r) = size l + size r.
Proof. unfold size. cbn [leaves]. rewrite app_length. lia. Qed.

Definition heads (n : node) (k : bytes) : Prop := exists v tl, leaves n = (k, v) :: tl.

Lemma leaves_head n : exists k, heads n k.
Proof.
  induction n as [k v ver|k h s ver l IHl r IHr]; [exists k, v, []; reflexivity|].
  destruct IHl as (k0 & v0 & tl & E). exists k0, v0, (tl ++ leaves r). cbn [leaves]. rewrite E. reflexivity.
Qed.

Lemma keys_sorted n : keys_exact n -> sorted (leaves n).
Proof.
  induction n as [k v ver|k h s ver l IHl r IHr]; cbn [keys_exact leaves].
  - intros _. apply sorted_cons. split; [constructor|intros x y []].
  - intros (Hl & Hr & (v & tl & E) & Hlt). specialize (IHl Hl). specialize (IHr Hr).
    apply (sorted_app _ _ k); try assumption.
    rewrite E in *. apply sorted_cons in IHr. destruct IHr as [_ Hg].
    intros x y [Ei|Hi]; [inversion Ei; apply ble_refl|apply blt_le, (Hg x y Hi)].
Qed.

Lemma heads_ge n k : keys_exact n -> heads n k -> all_ge (leaves n) k.
Proof.
  intros Hk (v & tl & E). pose proof (keys_sorted n Hk) as Hs. rewrite E in *.
  apply sorted_cons in Hs. destruct Hs as [_ Hg].
  intros x y [Ei|Hi]; [inversion Ei; apply ble_refl|apply blt_le, (Hg x y Hi)].
Qed.

Lemma mk_fields k ver l r : fields_exact l -> fields_exact r -> fields_exact (mk k ver l r).
Proof.
  intros Hl Hr. unfold mk. cbn [fields_exact depth leaves].
  rewrite (nheight_depth l Hl), (nheight_depth r Hr), (nsize_size l Hl), (nsize_size r Hr).
  repeat split; try assumption; [lia|]. unfold size. rewrite app_length. lia.
Qed.

Lemma mk_keys k ver l r : keys_exact l -> keys_exact r -> heads r k -> all_lt (leaves l) k ->
  keys_exact (mk k ver l r).
Proof. intros. unfold mk. cbn [keys_exact]. auto. Qed.

Lemma mk_depth k ver l r : depth (mk k ver l r) = 1 + Z.max (depth l) (depth r).
Proof. reflexivity. Qed.

Lemma mk_balanced k ver l r : balanced l -> balanced r -> -1 <= depth l - depth r <= 1 -> balanced (mk k ver l r).
Proof. intros. unfold mk. cbn [balanced]. auto. Qed.

Lemma mk_leaves k ver l r : leaves (mk k ver l r) = leaves l ++ leaves r.
Proof. reflexivity. Qed.

Lemma heads_app_l l r k h s v kk : heads l k -> heads (Branch kk h s v l r) k.
Proof. intros (v0 & tl & E). exists v0, (tl ++ leaves r). cbn [leaves]. rewrite E. reflexivity. Qed.

(* what a completed rebalancing guarantees *)
Definition rebalanced (l r n' : node) : Prop :=
  avl n' /\ leaves n' = leaves l ++ leaves r /\
  depth n' <= 1 + Z.max (depth l) (depth r) /\
  Z.max (depth l) (depth r) <= depth n' /\
  (-1 <= depth l - depth r <= 1 -> depth n' = 1 + Z.max (depth l) (depth r)).

Lemma rebalance_ok k ver l r :
  avl l -> avl r -> heads r k -> all_lt (leaves l) k ->
  -2 <= depth l - depth r <= 2 ->
  exists n', rebalance (mk k ver l r) ver = Some n' /\ rebalanced l r n'.
Proof.
  intros (Bl & Fl & Kl) (Br & Fr & Kr) Hh Hlt Hd.
  unfold rebalance, mk. rewrite (nheight_depth l Fl), (nheight_depth r Fr).
  destruct (1 <? depth l - depth r) eqn:E1.
  - (* left heavy *)
    destruct l as [lk lv lver|lk lh ls lver ll lr]; [cbn [depth] in *; pose proof (depth_nonneg r); lia|].
    cbn [calc_balance obind].
    cbn [balanced fields_exact keys_exact] in Bl, Fl, Kl.
    destruct Bl as (Bll & Blr & Bd), Fl as (Fll & Flr & Fh & Fs), Kl as (Kll & Klr & Hlk & Hllt).
    rewrite (nheight_depth ll Fll), (nheight_depth lr Flr).
    cbn [leaves] in Hlt. apply all_lt_app in Hlt. destruct Hlt as [Hlt1 Hlt2].
    cbn [depth] in Hd, E1.
    destruct (0 <=? depth ll - depth lr) eqn:E2.
    + cbn [rotate_right]. eexists. split; [reflexivity|].
      unfold rebalanced, avl. unfold mk. cbn [depth leaves].
      split; [split; [|split]|split; [|split; [|split]]].
      * apply mk_balanced; [assumption|apply mk_balanced; [assumption|assumption|lia]|unfold mk; cbn [depth]; lia].
      * apply mk_fields; [assumption|apply mk_fields; assumption].
      * apply mk_keys; [assumption|apply mk_keys; assumption| |exact Hllt].
        unfold mk. apply heads_app_l. exact Hlk.
      * rewrite app_assoc. reflexivity.
      * lia.
      * lia.
      * lia.
    + cbn [mutate rotate_left].
      destruct lr as [mk_ mv mver|mk_ mh ms mver ml mr]; [cbn [depth] in *; pose proof (depth_nonneg ll); lia|].
      cbn [obind with_left rotate_right]. unfold mk at 2. cbn [rotate_right].
      eexists. split; [reflexivity|].
      cbn [balanced fields_exact keys_exact] in Blr, Flr, Klr.
      destruct Blr as (Bml & Bmr & Bmd), Flr as (Fml & Fmr & Fmh & Fms), Klr as (Kml & Kmr & Hmk & Hmlt).
      cbn [leaves] in Hlt2. apply all_lt_app in Hlt2. destruct Hlt2 as [Hlt2 Hlt3].
      cbn [depth] in Bd, Hd, E1, E2.
      assert (heads ml lk) as Hml.
      { destruct Hlk as (v0 & tl & E). cbn [leaves] in E.
        destruct (leaves_head ml) as (k1 & v1 & tl1 & E'). rewrite E' in E. cbn [app] in E.
        inversion E; subst. exists v0, tl1. exact E'. }
      assert (blt lk mk_) as Hlkm.
      { destruct Hml as (v0 & tl & E). apply (Hmlt lk v0). rewrite E. left; reflexivity. }
      unfold rebalanced, avl. unfold mk. cbn [depth leaves].
      split; [split; [|split]|split; [|split; [|split]]].
      * apply mk_balanced; [apply mk_balanced; [assumption|assumption|lia]|apply mk_balanced; [assumption|assumption|lia]|unfold mk; cbn [depth]; lia].
      * apply mk_fields; apply mk_fields; assumption.
      * apply mk_keys; [apply mk_keys; assumption|apply mk_keys; assumption| |].
        -- unfold mk. apply heads_app_l. exact Hmk.
        -- unfold mk; cbn [leaves]. apply all_lt_app. split; [|exact Hmlt].
           intros x y Hi. eapply blt_trans; [apply (Hllt x y Hi)|exact Hlkm].
      * rewrite <- !app_assoc. reflexivity.
      * lia.
      * lia.
      * lia.
  - destruct (depth l - depth r <? -1) eqn:E3.
    + (* right heavy *)
      destruct r as [rk rv rver|rk rh rs rver rl rr]; [cbn [depth] in *; pose proof (depth_nonneg l); lia|].
      cbn [calc_balance obind].
      cbn [balanced fields_exact keys_exact] in Br, Fr, Kr.
      destruct Br as (Brl & Brr & Bd), Fr as (Frl & Frr & Fh & Fs), Kr as (Krl & Krr & Hrk & Hrlt).
      rewrite (nheight_depth rl Frl), (nheight_depth rr Frr).
      assert (heads rl k) as Hrl.
      { destruct Hh as (v0 & tl & E). cbn [leaves] in E.
        destruct (leaves_head rl) as (k1 & v1 & tl1 & E'). rewrite E' in E. cbn [app] in E.
        inversion E; subst. exists v0, tl1. exact E'. }
      assert (blt k rk) as Hkrk.
      { destruct Hrl as (v0 & tl & E). apply (Hrlt k v0). rewrite E. left; reflexivity. }
      assert (all_lt (leaves l) rk) as Hlrk.
      { intros x y Hi. eapply blt_trans; [apply (Hlt x y Hi)|exact Hkrk]. }
      cbn [depth] in Hd, E1, E3.
      destruct (depth rl - depth rr <=? 0) eqn:E2.
      * cbn [rotate_left]. eexists. split; [reflexivity|].
        unfold rebalanced, avl. unfold mk. cbn [depth leaves].
        split; [split; [|split]|split; [|split; [|split]]].
        -- apply mk_balanced; [apply mk_balanced; [assumption|assumption|lia]|assumption|unfold mk; cbn [depth]; lia].
        -- apply mk_fields; [apply mk_fields; assumption|assumption].
        -- apply mk_keys; [apply mk_keys; assumption|assumption|exact Hrk|].
           unfold mk; cbn [leaves]. apply all_lt_app. split; [exact Hlrk|exact Hrlt].
        -- rewrite app_assoc. reflexivity.
        -- lia.
        -- lia.
        -- lia.
      * cbn [mutate rotate_right].
        destruct rl as [mk_ mv mver|mk_ mh ms mver ml mr]; [cbn [depth] in *; pose proof (depth_nonneg rr); lia|].
        cbn [obind with_right]. unfold mk at 2. cbn [rotate_left].
        eexists. split; [reflexivity|].
        cbn [balanced fields_exact keys_exact] in Brl, Frl, Krl.
        destruct Brl as (Bml & Bmr & Bmd), Frl as (Fml & Fmr & Fmh & Fms), Krl as (Kml & Kmr & Hmk & Hmlt).
        cbn [depth] in Bd, Hd, E1, E2, E3.
        assert (heads ml k) as Hml.
        { destruct Hrl as (v0 & tl & E). cbn [leaves] in E.
          destruct (leaves_head ml) as (k1 & v1 & tl1 & E'). rewrite E' in E. cbn [app] in E.
          inversion E; subst. exists v0, tl1. exact E'. }
        assert (blt k mk_) as Hkm.
        { destruct Hml as (v0 & tl & E). apply (Hmlt k v0). rewrite E. left; reflexivity. }
        assert (all_lt (leaves mr) rk) as Hmr.
        { intros x y Hi. apply (Hrlt x y). cbn [leaves]. apply in_or_app. right; exact Hi. }
        unfold rebalanced, avl. unfold mk. cbn [depth leaves].
        split; [split; [|split]|split; [|split; [|split]]].
        -- apply mk_balanced; [apply mk_balanced; [assumption|assumption|lia]|apply mk_balanced; [assumption|assumption|lia]|unfold mk; cbn [depth]; lia].
        -- apply mk_fields; apply mk_fields; assumption.
        -- apply mk_keys; [apply mk_keys; assumption|apply mk_keys; assumption| |].
           ++ unfold mk. apply heads_app_l. exact Hmk.
           ++ unfold mk; cbn [leaves]. apply all_lt_app. split; [|exact Hmlt].
              intros x y Hi. eapply blt_trans; [apply (Hlt x y Hi)|exact Hkm].
        -- rewrite <- !app_assoc. reflexivity.
        -- lia.
        -- lia.
        -- lia.
    + (* balanced *)
      eexists. split; [reflexivity|].
      assert (avl (mk k ver l r)) as Ha.
      { split; [|split]; [apply mk_balanced; [assumption|assumption|lia]|apply mk_fields; assumption|apply mk_keys; assumption]. }
      unfold mk in Ha. rewrite (nheight_depth l Fl), (nheight_depth r Fr) in Ha.
      split; [exact Ha|]. cbn [leaves depth]. repeat split; lia.
Qed.

Lemma branch_avl_update k h s v l r l' r' k' v' :
  avl (Branch k h s v l r) -> avl l' -> avl r' ->
  depth l' = depth l -> depth r' = depth r -> size l' = size l -> size r' = size r ->
  heads r' k' -> all_lt (leaves l') k' ->
  avl (Branch k' h s v' l' r').
Proof.
  intros (B & F & K) (Bl & Fl & Kl) (Br & Fr & Kr) D1 D2 S1 S2 Hh Hlt.
  cbn [balanced fields_exact keys_exact] in *. cbn [depth] in F.
  destruct B as (_ & _ & B), F as (_ & _ & F1 & F2).
  unfold size in *. cbn [leaves] in *. rewrite app_length in *.
  repeat split; cbn [balanced fields_exact keys_exact depth leaves]; rewrite ?app_length; try assumption; try lia.
Qed.

Lemma set_rec_ok n key value ver : avl n ->
  exists n' u, set_rec n key value ver = Some (n', u) /\ avl n' /\
    leaves n' = ins key value (leaves n) /\
    (u = true -> depth n' = depth n /\ size n' = size n) /\
    (u = false -> depth n <= depth n' <= depth n + 1 /\ size n' = size n + 1).
Proof.
  induction n as [nk nv nver|nk h s nver l IHl r IHr]; intros Ha.
  - cbn [set_rec leaves ins]. destruct (bcmp_spec key nk) as [->|H|H]; eexists _, _; (split; [reflexivity|]).
    + split; [repeat split|]. split; [reflexivity|]. split; [intros _; cbn; auto|discriminate].
    + split.
      { repeat split; cbn; try lia. { exists nv, []; reflexivity. }
        intros x v [E|[]]. inversion E; subst. exact H. }
      split; [reflexivity|]. split; [discriminate|]. intros _. cbn. unfold size; cbn. lia.
    + split.
      { repeat split; cbn; try lia. { exists value, []; reflexivity. }
        intros x v [E|[]]. inversion E; subst. exact H. }
      split; [reflexivity|]. split; [discriminate|]. intros _. cbn. unfold size; cbn. lia.
  - pose proof Ha as (B & F & K). cbn [balanced fields_exact keys_exact] in B, F, K.
    destruct B as (Bl & Br & Bd), F as (Fl & Fr & Fh & Fs), K as (Kl & Kr & Hh & Hlt).
    assert (avl l) as Al by (split; auto). assert (avl r) as Ar by (split; auto).
    cbn [set_rec]. destruct (bltb key nk) eqn:E.
    + apply bltb_spec in E. destruct (IHl Al) as (l' & u & -> & Al' & Ll' & Hu1 & Hu2).
      assert (all_lt (leaves l') nk) as Hlt' by (rewrite Ll'; apply all_lt_ins; assumption).
      assert (all_gt (leaves r) key) as Hgt by (eapply all_gt_trans; [exact E|apply heads_ge; assumption]).
      cbn [obind]. destruct u.
      * destruct (Hu1 eq_refl) as [D S]. eexists _, _. split; [reflexivity|].
        split; [eapply (branch_avl_update nk h s nver l r); eauto|].
        cbn [leaves]. rewrite Ll', ins_app_l by exact Hgt. split; [reflexivity|].
        split; [|discriminate]. intros _. cbn [depth]. rewrite !size_branch. lia.
      * destruct (Hu2 eq_refl) as [D S].
        destruct (rebalance_ok nk ver l' r Al' Ar Hh Hlt') as (n' & -> & An & Ln & D1 & D2 & D3); [lia|].
        cbn [obind]. eexists _, _. split; [reflexivity|]. split; [exact An|].
        rewrite Ln, Ll'. cbn [leaves]. rewrite ins_app_l by exact Hgt. split; [reflexivity|].
        split; [discriminate|]. intros _. cbn [depth]. split; [lia|].
        unfold size in *. rewrite Ln, app_length. cbn [leaves]. rewrite app_length. lia.
    + apply bltb_false in E. destruct (IHr Ar) as (r' & u & -> & Ar' & Lr' & Hu1 & Hu2).
      assert (all_lt (leaves l) key) as Hltk by (intros x y Hi; eapply blt_le_trans; [apply (Hlt x y Hi)|exact E]).
      assert (heads r' nk) as Hh'.
      { destruct Hh as (v0 & tl & Er). unfold heads. rewrite Lr', Er. cbn [ins].
        destruct (bcmp_spec key nk) as [->|H|H]; [eauto| |eauto].
        exfalso. apply ble_not_lt in E. contradiction. }
      cbn [obind]. destruct u.
      * destruct (Hu1 eq_refl) as [D S]. eexists _, _. split; [reflexivity|].
        split; [eapply (branch_avl_update nk h s nver l r); eauto|].
        cbn [leaves]. rewrite Lr', ins_app_r by exact Hltk. split; [reflexivity|].
        split; [|discriminate]. intros _. cbn [depth]. rewrite !size_branch. lia.
      * destruct (Hu2 eq_refl) as [D S].
        destruct (rebalance_ok nk ver l r' Al Ar' Hh' Hlt) as (n' & -> & An & Ln & D1 & D2 & D3); [lia|].
        cbn [obind]. eexists _, _. split; [reflexivity|]. split; [exact An|].
        rewrite Ln, Lr'. cbn [leaves]. rewrite ins_app_r by exact Hltk. split; [reflexivity|].
        split; [discriminate|]. intros _. cbn [depth]. split; [lia|].
        unfold size in *. rewrite Ln, app_length. cbn [leaves]. rewrite app_length. lia.
Qed.

Lemma remove_rec_ok n key ver : avl n ->
  (remove_rec n key ver = Some NotFound /\ look key (leaves n) = None) \/
  (exists v, remove_rec n key ver = Some (Removed v None None) /\ leaves n = [(key, v)] /\ depth n = 0) \/
  (exists v n' nk, remove_rec n key ver = Some (Removed v (Some n') nk) /\
     avl n' /\ leaves n' = del key (leaves n) /\ look key (leaves n) = Some v /\
     depth n - 1 <= depth n' <= depth n /\
     match nk with
     | Some k => heads n' k
     | None => forall k, heads n k -> heads n' k
     end).
Proof.
  induction n as [nk nv nver|nk h s nver l IHl r IHr]; intros Ha.
  - cbn [remove_rec leaves look]. destruct (beqb nk key) eqn:E.
    + right; left. exists nv. apply beqb_spec in E. subst. auto.
    + left. auto.
  - pose proof Ha as (B & F & K). cbn [balanced fields_exact keys_exact] in B, F, K.
    destruct B as (Bl & Br & Bd), F as (Fl & Fr & Fh & Fs), K as (Kl & Kr & Hh & Hlt).
    assert (avl l) as Al by (split; auto). assert (avl r) as Ar by (split; auto).
    cbn [remove_rec leaves]. destruct (bltb key nk) eqn:E.
    + apply bltb_spec in E.
      assert (all_gt (leaves r) key) as Hgt by (eapply all_gt_trans; [exact E|apply heads_ge; assumption]).
      assert (look key (leaves r) = None) as Hnr by (apply look_none, all_gt_notin; exact Hgt).
      assert (del key (leaves r) = leaves r) as Hdr by (apply del_notin, all_gt_notin; exact Hgt).
      rewrite look_app, del_app, Hdr, Hnr.
      destruct (IHl Al) as [[-> Hn]|[(v & -> & Hl & Hd0)|(v & l' & k' & -> & Al' & Ll' & Hv & D & Hk)]]; cbn [obind].
      * left. rewrite Hn. auto.
      * right; right. exists v, r, (Some nk). split; [reflexivity|].
        rewrite Hl. cbn [del filter fst look]. rewrite beqb_refl. cbn [negb app].
        split; [exact Ar|]. split; [reflexivity|]. split; [reflexivity|].
        split; [cbn [depth]; pose proof (depth_nonneg r); lia|exact Hh].
      * assert (all_lt (leaves l') nk) as Hlt'.
        { rewrite Ll'. intros x y Hi. apply filter_In in Hi. apply (Hlt x y). tauto. }
        destruct (rebalance_ok nk ver l' r Al' Ar Hh Hlt') as (n' & -> & An & Ln & D1 & D2 & D3); [lia|].
        cbn [obind]. right; right. exists v, n', k'. split; [reflexivity|].
        split; [exact An|]. split; [rewrite Ln, Ll'; reflexivity|]. rewrite Hv. split; [reflexivity|].
        split; [cbn [depth]; lia|].
        assert (Hup : forall k0, heads l' k0 -> heads n' k0).
        { intros k0 (v0 & tl & E0). exists v0, (tl ++ leaves r). rewrite Ln, E0. reflexivity. }
        destruct k' as [k'|].
        -- apply Hup. exact Hk.
        -- intros k0 (v0 & tl & E0). cbn [leaves] in E0. apply Hup, Hk.
           destruct (leaves_head l) as (k1 & v1 & tl1 & E1). rewrite E1 in E0. cbn [app] in E0.
           inversion E0; subst. exists v0, tl1. exact E1.
    + apply bltb_false in E.
      assert (all_lt (leaves l) key) as Hltk by (intros x y Hi; eapply blt_le_trans; [apply (Hlt x y Hi)|exact E]).
      assert (look key (leaves l) = None) as Hnl by (apply look_none, all_lt_notin; exact Hltk).
      assert (del key (leaves l) = leaves l) as Hdl by (apply del_notin, all_lt_notin; exact Hltk).
      rewrite look_app, del_app, Hdl, Hnl.
      destruct (IHr Ar) as [[-> Hn]|[(v & -> & Hl & Hd0)|(v & r' & k' & -> & Ar' & Lr' & Hv & D & Hk)]]; cbn [obind].
      * left. auto.
      * right; right. exists v, l, None. split; [reflexivity|].
        rewrite Hl. cbn [del filter fst look]. rewrite beqb_refl. cbn [negb app]. rewrite app_nil_r.
        split; [exact Al|]. split; [reflexivity|]. split; [reflexivity|].
        split; [cbn [depth]; pose proof (depth_nonneg l); lia|].
        intros k0 (v0 & tl & E0). cbn [leaves] in E0.
        destruct (leaves_head l) as (k1 & v1 & tl1 & E1). rewrite E1 in E0. cbn [app] in E0.
        inversion E0; subst. exists v0, tl1. exact E1.
      * set (nk' := match k' with Some k => k | None => nk end).
        assert (heads r' nk') as Hh'.
        { unfold nk'. destruct k' as [k'|]; [exact Hk|]. apply Hk. exact Hh. }
        assert (all_lt (leaves l) nk') as Hlt'.
        { destruct Hh' as (v0 & tl & E0). intros x y Hi.
          eapply blt_le_trans; [apply (Hlt x y Hi)|].
          apply (heads_ge r nk Kr Hh nk' v0).
          assert (In (nk', v0) (del key (leaves r))) as Hin by (rewrite <- Lr', E0; left; reflexivity).
          apply filter_In in Hin. tauto. }
        destruct (rebalance_ok nk' ver l r' Al Ar' Hh' Hlt') as (n' & -> & An & Ln & D1 & D2 & D3); [lia|].
        cbn [obind]. right; right. exists v, n', None. split; [reflexivity|].
        split; [exact An|]. split; [rewrite Ln, Lr'; reflexivity|]. split; [exact Hv|].
        split; [cbn [depth]; lia|].
        intros k0 (v0 & tl & E0). cbn [leaves] in E0.
        destruct (leaves_head l) as (k1 & v1 & tl1 & E1). rewrite E1 in E0. cbn [app] in E0.
        inversion E0; subst. exists v0, (tl1 ++ leaves r'). rewrite Ln, E1. reflexivity.
Qed.

(* ---------- queries ---------- *)

Definition rank (k : bytes) (l : list (bytes * bytes)) : Z :=
  Z.of_nat (length (filter (fun p => bltb (fst p) k) l)).

Lemma rank_app k a b : rank k (a ++ b) = rank k a + rank k b.
Proof. unfold rank. rewrite filter_app, app_length. lia. Qed.

Lemma rank_all_lt k l : all_lt l k -> rank k l = Z.of_nat (length l).
Proof.
  unfold rank. induction l as [|[k0 v0] l IH]; intros H; [reflexivity|].
  apply all_lt_cons in H. destruct H as [H1 H2]. cbn [filter fst].
  apply bltb_spec in H1. rewrite H1. cbn [length]. specialize (IH H2). lia.
Qed.

Lemma rank_all_ge k l : all_ge l k -> rank k l = 0.
Proof.
  unfold rank. induction l as [|[k0 v0] l IH]; intros H; [reflexivity|]. cbn [filter fst].
  assert (bltb k0 k = false) as -> by (apply bltb_false, (H k0 v0); left; reflexivity).
  apply IH. intros x y Hi. apply (H x y). right; exact Hi.
Qed.

Lemma rank_bound k l : 0 <= rank k l <= Z.of_nat (length l).
Proof.
  unfold rank. induction l as [|a l IH]; cbn [filter length]; [lia|].
  destruct (bltb (fst a) k); cbn [length]; lia.
Qed.

Lemma get_rec_value n key : avl n -> fst (get_rec n key) = look key (leaves n).
Proof.
  induction n as [nk nv nver|nk h s nver l IHl r IHr]; intros Ha.
  - cbn [get_rec leaves look]. unfold beqb. destruct (bcmp nk key); reflexivity.
  - destruct Ha as (B & F & K). cbn [balanced fields_exact keys_exact] in B, F, K.
    destruct B as (Bl & Br & Bd), F as (Fl & Fr & Fh & Fs), K as (Kl & Kr & Hh & Hlt).
    assert (avl l) as Al by (split; auto). assert (avl r) as Ar by (split; auto).
    cbn [get_rec leaves]. rewrite look_app. destruct (bltb key nk) eqn:E.
    + apply bltb_spec in E. rewrite IHl by exact Al.
      assert (look key (leaves r) = None) as ->.
      { apply look_none, all_gt_notin. eapply all_gt_trans; [exact E|apply heads_ge; assumption]. }
      destruct (look key (leaves l)); reflexivity.
    + apply bltb_false in E.
      assert (look key (leaves l) = None) as ->.
      { apply look_none, all_lt_notin. intros x y Hi; eapply blt_le_trans; [apply (Hlt x y Hi)|exact E]. }
      specialize (IHr Ar). destruct (get_rec r key) as [v i]. exact IHr.
Qed.

Lemma get_rec_index n key : avl n -> size n < 2 ^ 32 -> snd (get_rec n key) = rank key (leaves n).
Proof.
  induction n as [nk nv nver|nk h s nver l IHl r IHr]; intros Ha Hs.
  - cbn [get_rec leaves]. unfold rank. cbn [filter fst]. unfold bltb.
    destruct (bcmp nk key); reflexivity.
  - destruct Ha as (B & F & K). cbn [balanced fields_exact keys_exact] in B, F, K.
    destruct B as (Bl & Br & Bd), F as (Fl & Fr & Fh & Fs), K as (Kl & Kr & Hh & Hlt).
    assert (avl l) as Al by (split; auto). assert (avl r) as Ar by (split; auto).
    rewrite size_branch in Hs. pose proof (size_pos l). pose proof (size_pos r).
    cbn [get_rec leaves]. rewrite rank_app. destruct (bltb key nk) eqn:E.
    + apply bltb_spec in E. rewrite IHl by (assumption||lia).
      rewrite (rank_all_ge key (leaves r)); [lia|].
      intros x y Hi. apply blt_le. eapply all_gt_trans; [exact E|apply heads_ge; eassumption|exact Hi].
    + apply bltb_false in E. rewrite (rank_all_lt key (leaves l)).
      2:{ intros x y Hi; eapply blt_le_trans; [apply (Hlt x y Hi)|exact E]. }
      specialize (IHr Ar). destruct (get_rec r key) as [v i]. cbn [snd] in *.
      rewrite IHr by lia. rewrite (nsize_size r Fr). fold (size l).
      assert (s = size l + size r) as -> by (rewrite Fs; rewrite <- (size_branch nk h s nver l r); reflexivity).
      pose proof (rank_bound key (leaves r)) as Hrb. fold (size r) in Hrb.
      unfold u32. rewrite (Z.mod_small (size l + size r)) by lia. rewrite (Z.mod_small (size r)) by lia.
      rewrite Z.mod_small by lia. lia.
Qed.

Lemma get_by_index_ok n : forall i, avl n -> size n < 2 ^ 32 -> 0 <= i < 2 ^ 32 ->
  get_by_index_rec n i = nth_error (leaves n) (Z.to_nat i).
Proof.
  induction n as [nk nv nver|nk h s nver l IHl r IHr]; intros i Ha Hs Hi.
  - cbn [get_by_index_rec leaves]. destruct (i =? 0) eqn:E.
    + replace i with 0 by lia. reflexivity.
    + destruct (Z.to_nat i) as [|m] eqn:Em; [lia|]. cbn. destruct m; reflexivity.
  - destruct Ha as (B & F & K). cbn [balanced fields_exact keys_exact] in B, F, K.
    destruct B as (Bl & Br & Bd), F as (Fl & Fr & Fh & Fs), K as (Kl & Kr & Hh & Hlt).
    assert (avl l) as Al by (split; auto). assert (avl r) as Ar by (split; auto).
    rewrite size_branch in Hs. pose proof (size_pos l). pose proof (size_pos r).
    cbn [get_by_index_rec leaves]. rewrite (nsize_size l Fl).
    unfold u32 at 1 2. rewrite (Z.mod_small (size l)) by lia.
    destruct (i <? size l) eqn:E.
    + rewrite IHl by (assumption || lia). rewrite nth_error_app1; [reflexivity|]. unfold size in *. lia.
    + unfold u32. rewrite Z.mod_small by lia. rewrite IHr by (assumption || lia).
      rewrite nth_error_app2 by (unfold size in *; lia). f_equal. unfold size in *. lia.
Qed.

(* ---------- depth bound ---------- *)

Lemma pow2_half_step d : 2 <= d -> 2 ^ (d / 2) = 2 * 2 ^ ((d - 2) / 2).
Proof.
  intros H. rewrite <- Z.pow_succ_r by (apply Z.div_pos; lia). f_equal.
  replace d with ((d - 2) + 1 * 2) at 1 by lia. rewrite Z.div_add by lia. lia.
Qed.

Lemma depth_bound n : balanced n -> 2 ^ (depth n / 2) <= size n.
Proof.
  induction n as [nk nv nver|nk h s nver l IHl r IHr]; intros Ha; [cbn; unfold size; cbn; lia|].
  cbn [balanced] in Ha. destruct Ha as (Bl & Br & Bd). specialize (IHl Bl). specialize (IHr Br).
  rewrite size_branch. cbn [depth].
  pose proof (depth_nonneg l). pose proof (depth_nonneg r).
  destruct (Z.eq_dec (Z.max (depth l) (depth r)) 0) as [E|E].
  - rewrite E. pose proof (size_pos l). pose proof (size_pos r). cbn. lia.
  - rewrite pow2_half_step by lia.
    assert (2 ^ ((1 + Z.max (depth l) (depth r) - 2) / 2) <= 2 ^ (depth l / 2)) as H1.
    { apply Z.pow_le_mono_r; [lia|]. apply Z.div_le_mono; lia. }
    assert (2 ^ ((1 + Z.max (depth l) (depth r) - 2) / 2) <= 2 ^ (depth r / 2)) as H2.
    { apply Z.pow_le_mono_r; [lia|]. apply Z.div_le_mono; lia. }
    lia.
Qed.
