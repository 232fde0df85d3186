From Coq Require Import Sorting.Sorted Sorting.Permutation.
From Verif Require Import Lib.Base Lib.Zmap Hyperion.Valset Hyperion.ValsetSpec.
Open Scope Z_scope.

(* ------------------------------------------------------------------ *)
(* Sums                                                                *)

Lemma zsum_cons x l : zsum (x :: l) = x + zsum l.
Proof. reflexivity. Qed.
Lemma zsum_app l k : zsum (l ++ k) = zsum l + zsum k.
Proof. induction l as [|x l IH]; [reflexivity|]. cbn [app]. rewrite !zsum_cons, IH. lia. Qed.
Lemma zsum_perm l k : Permutation l k -> zsum l = zsum k.
Proof. induction 1; rewrite ?zsum_cons in *; lia. Qed.
Lemma zsum_nonneg l : Forall (fun x => 0 <= x) l -> 0 <= zsum l.
Proof. induction 1; rewrite ?zsum_cons; [cbn; lia|lia]. Qed.
Lemma zsum_le {A} (f g : A -> Z) l : (forall x, In x l -> f x <= g x) -> zsum (map f l) <= zsum (map g l).
Proof.
  induction l as [|x l IH]; intro H; [cbn; lia|]. cbn [map]. rewrite !zsum_cons.
  pose proof (H x (or_introl eq_refl)). specialize (IH (fun y Hy => H y (or_intror Hy))). lia.
Qed.
Lemma zsum_plus {A} (f g : A -> Z) l : zsum (map (fun x => f x + g x) l) = zsum (map f l) + zsum (map g l).
Proof. induction l as [|x l IH]; [reflexivity|]. cbn [map]. rewrite !zsum_cons, IH. lia. Qed.
Lemma zsum_zero {A} (f : A -> Z) l : (forall x, In x l -> f x = 0) -> zsum (map f l) = 0.
Proof.
  induction l as [|x l IH]; intro H; [reflexivity|]. cbn [map]. rewrite zsum_cons, (H x (or_introl eq_refl)), IH; [reflexivity|].
  intros y Hy. apply H. right. exact Hy.
Qed.
Lemma zsum_zero_inv {A} (f : A -> Z) l : (forall x, In x l -> 0 <= f x) -> zsum (map f l) = 0 -> forall x, In x l -> f x = 0.
Proof.
  induction l as [|y l IH]; intros P E x Hx; [destruct Hx|]. cbn [map] in E. rewrite zsum_cons in E.
  pose proof (P y (or_introl eq_refl)). assert (0 <= zsum (map f l)).
  { apply zsum_nonneg. rewrite Forall_map, Forall_forall. intros z Hz. apply P. right. exact Hz. }
  destruct Hx as [Hx|Hx]; [subst; lia|]. apply IH; [intros z Hz; apply P; right; exact Hz|lia|exact Hx].
Qed.
Lemma map_ext_in' {A} (f g : A -> Z) l : (forall x, In x l -> f x = g x) -> zsum (map f l) = zsum (map g l).
Proof. intro H. f_equal. apply map_ext_in. exact H. Qed.

(* ------------------------------------------------------------------ *)
(* Normalisation                                                       *)

Definition as_member (x : sval * Z) : member := mk_member (snd x) (sv_power (fst x)).
Lemma registered_enrolled b l : registered b l = map as_member (enrolled b l).
Proof.
  induction l as [|v l IH]; [reflexivity|]. unfold registered in *. cbn [flat_map enrolled]. rewrite IH. unfold registration.
  destruct (zget (b_eth b) (sv_op v)); reflexivity.
Qed.
Lemma total_voting b l : total (registered b l) = voting (enrolled b l).
Proof. rewrite registered_enrolled. unfold total, voting. rewrite map_map. reflexivity. Qed.
Lemma enrolled_in b l v e : In (v, e) (enrolled b l) <-> In v l /\ zget (b_eth b) (sv_op v) = Some e.
Proof.
  induction l as [|x l IH]; [cbn; tauto|]. cbn [enrolled]. unfold registration. destruct (zget (b_eth b) (sv_op x)) as [e'|] eqn:E.
  - cbn [In]. rewrite IH. split; [intros [H|H]; [inversion H; subst; auto|tauto]|]. intros [[H|H] G]; [left; subst; congruence|right; tauto].
  - rewrite IH. cbn [In]. split; [tauto|]. intros [[H|H] G]; [subst; congruence|tauto].
Qed.

Lemma share_normal p t : 0 < t -> share p t (p * U32 / t).
Proof. intro T. unfold share. pose proof (Z.div_mod (p * U32) t ltac:(lia)). pose proof (Z.mod_pos_bound (p * U32) t T). nia. Qed.
Lemma share_unique p t x y : 0 < t -> share p t x -> share p t y -> x = y.
Proof. unfold share. intros T [A B] [C D]. nia. Qed.
Lemma share_mono p q t x y : 0 < t -> p <= q -> share p t x -> share q t y -> x <= y.
Proof. unfold share, U32. intros T L [A B] [C D]. nia. Qed.
Lemma share_nonneg p t x : 0 < t -> 0 <= p -> share p t x -> 0 <= x.
Proof. unfold share, U32. intros T L [A B]. nia. Qed.

(* the shares of everybody: nothing above the whole, less than one unit lost each *)
Lemma shares_sum t (l : list (Z * Z)) : 0 < t -> Forall (fun x => share (fst x) t (snd x)) l -> zsum (map fst l) = t -> l <> [] ->
  U32 - Z.of_nat (length l) < zsum (map snd l) <= U32.
Proof.
  intros T F E N.
  assert (zsum (map snd l) * t <= zsum (map fst l) * U32) as A.
  { clear E N. induction F as [|[p x] l [H1 H2] F IH]; [cbn; lia|]. cbn [map fst snd] in *. rewrite !zsum_cons. lia. }
  assert (zsum (map fst l) * U32 < (zsum (map snd l) + Z.of_nat (length l)) * t) as B.
  { clear E A. destruct F as [|[p x] l [H1 H2] F]; [congruence|]. clear N.
    assert (zsum (map fst l) * U32 <= (zsum (map snd l) + Z.of_nat (length l)) * t) as IH.
    { clear H1 H2. induction F as [|[q y] l [H1 H2] F IH]; [cbn; lia|]. cbn [map fst snd length] in *. rewrite !zsum_cons. lia. }
    cbn [map fst snd length] in *. rewrite !zsum_cons. lia. }
  rewrite E in A, B. nia.
Qed.

(* ------------------------------------------------------------------ *)
(* Sorting                                                             *)

Section Rank.
Variable rank : Z -> Z.
Lemma insert_perm x l : Permutation (insert rank x l) (x :: l).
Proof.
  induction l as [|y l IH]; [reflexivity|]. cbn [insert]. destruct (before rank y x); [|reflexivity].
  rewrite IH. apply perm_swap.
Qed.
Lemma sort_perm l : Permutation (sort rank l) l.
Proof. induction l as [|x l IH]; [reflexivity|]. unfold sort in *. cbn [fold_right]. rewrite insert_perm, IH. reflexivity. Qed.
Lemma before_ahead x y : before rank x y = true -> ahead rank x y.
Proof. unfold before, ahead. destruct (Z.eqb_spec (m_power x) (m_power y)); lia. Qed.
Lemma not_before_ahead x y : before rank x y = false -> ahead rank y x.
Proof. unfold before, ahead. destruct (Z.eqb_spec (m_power x) (m_power y)); lia. Qed.
Lemma ahead_trans x y z : ahead rank x y -> ahead rank y z -> ahead rank x z.
Proof. unfold ahead. lia. Qed.
Lemma insert_sorted x l : StronglySorted (ahead rank) l -> StronglySorted (ahead rank) (insert rank x l).
Proof.
  induction 1 as [|y l S IH F]; [repeat constructor|]. cbn [insert]. destruct (before rank y x) eqn:E.
  - constructor; [exact IH|]. eapply Permutation_Forall; [symmetry; apply insert_perm|]. constructor; [apply before_ahead; exact E|exact F].
  - apply not_before_ahead in E. constructor; [constructor; assumption|]. constructor; [exact E|]. eapply Forall_impl; [|exact F].
    cbn beta. intros z A. eapply ahead_trans; eassumption.
Qed.
Lemma sort_sorted l : StronglySorted (ahead rank) (sort rank l).
Proof. induction l as [|x l IH]; [constructor|]. apply insert_sorted. exact IH. Qed.

Lemma sorted_unique (inj : forall a b, rank a = rank b -> a = b) l k :
  StronglySorted (ahead rank) l -> StronglySorted (ahead rank) k -> Permutation l k -> l = k.
Proof.
  intro S. revert k. induction S as [|x l S IH F]; intros k K P.
  - apply Permutation_nil in P. congruence.
  - destruct K as [|y k K G]; [symmetry in P; apply Permutation_nil in P; discriminate|].
    assert (x = y) as ->.
    { assert (ahead rank x y \/ x = y) as A.
      { assert (In y (x :: l)) as [H|H] by (eapply Permutation_in; [symmetry; exact P|left; reflexivity]); [auto|].
        left. rewrite Forall_forall in F. apply F. exact H. }
      assert (ahead rank y x \/ x = y) as B.
      { assert (In x (y :: k)) as [H|H] by (eapply Permutation_in; [exact P|left; reflexivity]); [auto|].
        left. rewrite Forall_forall in G. apply G. exact H. }
      destruct A as [A|A]; [|exact A]. destruct B as [B|B]; [|exact B]. unfold ahead in A, B.
      destruct x as [xe xp], y as [ye yp]. cbn in *. assert (xp = yp) by lia. assert (rank xe = rank ye) by lia. f_equal; auto. }
    f_equal. apply IH; [exact K|]. eapply Permutation_cons_inv. exact P.
Qed.
Lemma sort_order_free (inj : forall a b, rank a = rank b -> a = b) l k : Permutation l k -> sort rank l = sort rank k.
Proof.
  intro P. apply sorted_unique; [exact inj|apply sort_sorted|apply sort_sorted|]. rewrite !sort_perm. exact P.
Qed.
End Rank.

(* ------------------------------------------------------------------ *)
(* The difference of two sets                                          *)

Lemma fold_put_sorted l m : zsorted m -> zsorted (fold_left put_power l m).
Proof. revert m. induction l as [|x l IH]; intros m S; [exact S|]. apply IH. apply zset_sorted. exact S. Qed.
Lemma fold_take_sorted l m : zsorted m -> zsorted (fold_left take_power l m).
Proof. revert m. induction l as [|x l IH]; intros m S; [exact S|]. apply IH. apply zset_sorted. exact S. Qed.

Lemma power_of_absent l e : ~ In e (addresses l) -> power_of l e = 0.
Proof.
  induction l as [|x l IH]; intro N; [reflexivity|]. cbn [power_of]. cbn [addresses map In] in N.
  destruct (Z.eqb_spec (m_eth x) e); [tauto|]. apply IH. tauto.
Qed.
Lemma get_put l : NoDup (addresses l) -> forall m e,
  zget (fold_left put_power l m) e = if in_dec Z.eq_dec e (addresses l) then Some (power_of l e) else zget m e.
Proof.
  induction l as [|x l IH]; intros N m e; [destruct (in_dec Z.eq_dec e (addresses [])) as [[]|_]; reflexivity|].
  inversion N as [|? ? N1 N2]; subst. cbn [fold_left]. rewrite IH by exact N2. unfold put_power. rewrite zget_zset. cbn [power_of].
  destruct (in_dec Z.eq_dec e (addresses l)) as [A|A]; destruct (in_dec Z.eq_dec e (addresses (x :: l))) as [B|B]; cbn [addresses map In] in B.
  - destruct (Z.eqb_spec (m_eth x) e) as [E|]; [|reflexivity]. subst. contradiction.
  - tauto.
  - destruct (Z.eqb_spec (m_eth x) e); [reflexivity|tauto].
  - destruct (Z.eqb_spec (m_eth x) e); [tauto|reflexivity].
Qed.
Definition or0 (o : option Z) : Z := match o with Some p => p | None => 0 end.
Lemma get_take l : NoDup (addresses l) -> forall m e,
  zget (fold_left take_power l m) e = if in_dec Z.eq_dec e (addresses l) then Some (or0 (zget m e) - power_of l e) else zget m e.
Proof.
  induction l as [|x l IH]; intros N m e; [destruct (in_dec Z.eq_dec e (addresses [])) as [[]|_]; reflexivity|].
  inversion N as [|? ? N1 N2]; subst. cbn [fold_left]. rewrite IH by exact N2. unfold take_power. rewrite zget_zset. cbn [power_of]. fold (or0 (zget m (m_eth x))).
  destruct (in_dec Z.eq_dec e (addresses l)) as [A|A]; destruct (in_dec Z.eq_dec e (addresses (x :: l))) as [B|B]; cbn [addresses map In] in B.
  - destruct (Z.eqb_spec (m_eth x) e) as [E|]; [|reflexivity]. subst. contradiction.
  - tauto.
  - destruct (Z.eqb_spec (m_eth x) e) as [E|]; [subst; reflexivity|tauto].
  - destruct (Z.eqb_spec (m_eth x) e); [tauto|reflexivity].
Qed.
Lemma vals_by_key (f : Z -> Z) m : zsorted m -> map f (zvals m) = map (fun k => f (or0 (zget m k))) (zkeys m).
Proof.
  intro S. unfold zvals, zkeys. rewrite !map_map. apply map_ext_in. intros [k v] H. cbn [fst snd]. rewrite (in_zget m k v S H). reflexivity.
Qed.

Lemma delta_changed a b : NoDup (addresses a) -> NoDup (addresses b) -> power_delta a b = changed a b (involved a b).
Proof.
  intros A B. unfold power_delta. set (m := fold_left take_power b (fold_left put_power a [])).
  assert (zsorted m) as S by (apply fold_take_sorted, fold_put_sorted, zsorted_nil).
  rewrite vals_by_key by exact S.
  assert (forall e, zget m e = if in_dec Z.eq_dec e (addresses b) then Some (or0 (zget (fold_left put_power a []) e) - power_of b e) else zget (fold_left put_power a []) e) as G.
  { intro e. apply get_take. exact B. }
  assert (Permutation (zkeys m) (involved a b)) as P.
  { apply NoDup_Permutation; [apply zsorted_nodup; exact S|apply NoDup_nodup|]. intro e. unfold involved. rewrite nodup_In, in_app_iff, zkeys_iff, G, get_put by exact A.
    destruct (in_dec Z.eq_dec e (addresses b)); [split; [tauto|intros _; discriminate]|].
    destruct (in_dec Z.eq_dec e (addresses a)); [split; [tauto|intros _; discriminate]|]. cbn [zget]. split; [congruence|tauto]. }
  unfold changed. rewrite (zsum_perm _ _ (Permutation_map _ P)). apply map_ext_in'. intros e _. rewrite G, get_put by exact A.
  destruct (in_dec Z.eq_dec e (addresses b)) as [Hb|Hb]; destruct (in_dec Z.eq_dec e (addresses a)) as [Ha|Ha]; cbn [or0 zget];
    rewrite ?(power_of_absent a e), ?(power_of_absent b e) by assumption; f_equal; lia.
Qed.

(* any list of distinct addresses that covers both sets gives the same sum *)
Lemma changed_cover a b es : NoDup es -> (forall e, In e (addresses a) \/ In e (addresses b) -> In e es) -> changed a b es = changed a b (involved a b).
Proof.
  intros N C. unfold changed.
  assert (exists rest, Permutation es (involved a b ++ rest) /\ forall e, In e rest -> ~ In e (involved a b)) as (rest & P & D).
  { exists (filter (fun e => negb (if in_dec Z.eq_dec e (involved a b) then true else false)) es). split.
    - apply NoDup_Permutation; [exact N| |].
      + assert (forall l k : list Z, NoDup l -> NoDup k -> (forall x, In x k -> ~ In x l) -> NoDup (l ++ k)) as App.
        { induction l as [|x l IH]; intros k L K H; [exact K|]. inversion L; subst. cbn [app]. constructor.
          - rewrite in_app_iff. intros [?|?]; [contradiction|]. eapply H; [eassumption|left; reflexivity].
          - apply IH; [assumption|assumption|]. intros y Hy Hl. eapply H; [exact Hy|right; exact Hl]. }
        apply App; [apply NoDup_nodup|apply NoDup_filter; exact N|]. intros x Hx. apply filter_In in Hx as [_ Hx].
        destruct (in_dec Z.eq_dec x (involved a b)); [discriminate|assumption].
      + intro e. rewrite in_app_iff, filter_In. split.
        * intro He. destruct (in_dec Z.eq_dec e (involved a b)) as [I|I]; [tauto|right; split; [exact He|]].  reflexivity.
        * intros [I|[He _]]; [|exact He]. apply C. unfold involved in I. rewrite nodup_In, in_app_iff in I. exact I.
    - intros e He. apply filter_In in He as [_ He]. destruct (in_dec Z.eq_dec e (involved a b)); [discriminate|assumption]. }
  rewrite (zsum_perm _ _ (Permutation_map _ P)), map_app, zsum_app.
  rewrite (zsum_zero _ rest); [lia|]. intros e He. apply D in He. unfold involved in He. rewrite nodup_In, in_app_iff in He.
  rewrite (power_of_absent a e), (power_of_absent b e) by tauto. reflexivity.
Qed.

Lemma changed_sym a b es : changed a b es = changed b a es.
Proof. unfold changed. apply map_ext_in'. intros e _. lia. Qed.
Lemma changed_self a es : changed a a es = 0.
Proof. apply zsum_zero. intros e _. lia. Qed.
Lemma changed_triangle a b c es : changed a c es <= changed a b es + changed b c es.
Proof. unfold changed. rewrite <- zsum_plus. apply zsum_le. intros e _. lia. Qed.
Lemma changed_nonneg a b es : 0 <= changed a b es.
Proof. unfold changed. apply zsum_nonneg. rewrite Forall_map, Forall_forall. intros e _. lia. Qed.

Lemma delta_sym a b : NoDup (addresses a) -> NoDup (addresses b) -> power_delta a b = power_delta b a.
Proof.
  intros A B. rewrite !delta_changed by assumption. rewrite changed_sym. apply changed_cover; [apply NoDup_nodup|].
  intros e H. unfold involved. rewrite nodup_In, in_app_iff. tauto.
Qed.
Lemma delta_self a : NoDup (addresses a) -> power_delta a a = 0.
Proof. intro A. rewrite delta_changed by assumption. apply changed_self. Qed.
Lemma delta_triangle a b c : NoDup (addresses a) -> NoDup (addresses b) -> NoDup (addresses c) ->
  power_delta a c <= power_delta a b + power_delta b c.
Proof.
  intros A B C. rewrite !delta_changed by assumption. set (es := nodup Z.eq_dec (addresses a ++ addresses b ++ addresses c)).
  assert (forall e, In e (addresses a) \/ In e (addresses b) \/ In e (addresses c) -> In e es) as K.
  { intros e. unfold es. rewrite nodup_In, !in_app_iff. tauto. }
  rewrite <- (changed_cover a c es), <- (changed_cover a b es), <- (changed_cover b c es); try apply NoDup_nodup; try (intros; apply K; tauto).
  apply changed_triangle.
Qed.
Lemma delta_zero a b : NoDup (addresses a) -> NoDup (addresses b) -> power_delta a b = 0 -> forall e, power_of a e = power_of b e.
Proof.
  intros A B E e. rewrite delta_changed in E by assumption. destruct (in_dec Z.eq_dec e (involved a b)) as [I|I].
  - pose proof (zsum_zero_inv (fun e => Z.abs (power_of a e - power_of b e)) (involved a b) (fun _ _ => Z.abs_nonneg _) E e I). cbn beta in H. lia.
  - unfold involved in I. rewrite nodup_In, in_app_iff in I. rewrite !power_of_absent by tauto. reflexivity.
Qed.
