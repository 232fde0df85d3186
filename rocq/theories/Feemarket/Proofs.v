From Verif Require Import Lib.Base Feemarket.Model Feemarket.Spec.
Open Scope Z_scope.

Lemma dec_max_max a b : dec_max a b = Z.max a b.
Proof. unfold dec_max. destruct (a <? b) eqn:?; lia. Qed.

Lemma dec_chk_ok z r : dec_chk z = Ok r -> r = z.
Proof. unfold dec_chk. destruct (Z.abs z <? dec_limit); congruence. Qed.

Lemma dec_chk_small z : Z.abs z < dec_limit -> dec_chk z = Ok z.
Proof. intros H. unfold dec_chk. destruct (Z.abs z <? dec_limit) eqn:E; [reflexivity|lia]. Qed.

(* parameters accepted by Validate, in unfolded form *)
Lemma validate_ok p : validate p = Ok tt ->
  denominator p <> 0 /\ (exists b, base_fee p = Some b /\ 0 <= b) /\
  0 <= enable_height p /\
  (exists m, min_gas_multiplier p = Some m /\ 0 <= m <= one_dec) /\
  (exists m, min_gas_price p = Some m /\ 0 <= m).
Proof.
  unfold validate, validate_multiplier, validate_min_gas_price, rbind.
  destruct (denominator p =? 0) eqn:E1; [discriminate|].
  destruct (base_fee p) as [b|] eqn:E2; [|discriminate].
  destruct (b <? 0) eqn:E3; [discriminate|].
  destruct (enable_height p <? 0) eqn:E4; [discriminate|].
  destruct (min_gas_multiplier p) as [m|] eqn:E5; [|discriminate].
  destruct (m <? 0) eqn:E6; [discriminate|].
  destruct (one_dec <? m) eqn:E7; [discriminate|].
  destruct (min_gas_price p) as [g|] eqn:E8; [|discriminate].
  destruct (g <? 0) eqn:E9; [discriminate|].
  intros _. repeat split; try lia; eexists; (split; [reflexivity|lia]).
Qed.

Lemma change_eq b delta target denom : 0 <= b -> 0 <= delta -> 0 < target -> 0 < denom ->
  Z.quot (Z.quot (b * delta) target) denom = eip1559_change b delta target denom.
Proof.
  intros. unfold eip1559_change.
  rewrite (Z.quot_div_nonneg (b * delta) target) by nia.
  rewrite Z.quot_div_nonneg; [|apply Z.div_pos; nia|lia].
  rewrite Z.div_div by lia. reflexivity.
Qed.

Lemma change_bounds b delta target denom : 0 <= b -> 0 <= delta <= target -> 0 < target -> 0 < denom ->
  0 <= eip1559_change b delta target denom <= b / denom.
Proof.
  intros. unfold eip1559_change. split.
  - apply Z.div_pos; nia.
  - rewrite <- Z.div_div by lia. apply Z.div_le_mono; [lia|].
    apply Z.div_le_upper_bound; nia.
Qed.

Lemma change_nonneg b delta target denom : 0 <= b -> 0 <= delta -> 0 < target -> 0 < denom ->
  0 <= eip1559_change b delta target denom.
Proof. intros. unfold eip1559_change. apply Z.div_pos; nia. Qed.

Lemma change_mono b d1 d2 target denom : 0 <= b -> 0 <= d1 <= d2 -> 0 < target -> 0 < denom ->
  eip1559_change b d1 target denom <= eip1559_change b d2 target denom.
Proof. intros. unfold eip1559_change. apply Z.div_le_mono; nia. Qed.

Definition active (p : params) (height : Z) : Prop :=
  no_base_fee p = false /\ enable_height p < height.

Lemma gas_limit_range mg : (forall m, mg = Some m -> m <= max_int64) ->
  0 <= gas_limit mg <= max_uint64.
Proof.
  intros H. unfold gas_limit, max_uint64, max_int64 in *.
  destruct mg as [m|]; [specialize (H m eq_refl)|]; [destruct (-1 <? m) eqn:?|]; lia.
Qed.

Lemma quot_range a b : 0 <= a -> 0 < b -> 0 <= Z.quot a b <= a /\ Z.quot a b = a / b.
Proof.
  intros. rewrite Z.quot_div_nonneg by lia. split; [|reflexivity]. split.
  - apply Z.div_pos; lia.
  - apply Z.div_le_upper_bound; nia.
Qed.

Lemma calc_unfold p h mg w b m :
  active p h -> base_fee p = Some b -> min_gas_price p = Some m ->
  0 < elasticity p -> 0 < denominator p -> 0 <= b -> 0 <= w ->
  (forall x, mg = Some x -> x <= max_int64) ->
  let target := gas_limit mg / elasticity p in
  0 < target ->
  forall r, calculate_base_fee p h mg w = Ok r ->
  r = Some (eip1559_next b w target (denominator p) m).
Proof.
  intros [Hn He] Hb Hm Hel Hd Hb0 Hw Hmg target Ht r.
  pose proof (gas_limit_range mg Hmg) as Hgl.
  destruct (quot_range (gas_limit mg) (elasticity p)) as [Hq1 Hq2]; try lia.
  unfold calculate_base_fee, base_fee_enabled. rewrite Hn, Hb, Hm.
  cbn [negb andb].
  destruct (enable_height p <=? h) eqn:E1; [|lia]. cbn [negb].
  destruct (h =? enable_height p) eqn:E2; [lia|].
  destruct (elasticity p =? 0) eqn:E3; [lia|].
  rewrite Hq2. fold target. rewrite Hq2 in Hq1. fold target in Hq1.
  destruct ((0 <=? target) && (target <=? max_uint64)) eqn:E4; [cbn [negb]|lia].
  unfold eip1559_next. rewrite Z.gtb_ltb.
  destruct (w =? target) eqn:E5; [intros H; inversion H; reflexivity|].
  destruct (target =? 0) eqn:E6; [lia|].
  unfold rbind, dec_mul_int, dec_quo_int, dec_add, dec_sub.
  destruct (target <? w) eqn:E7.
  - destruct (dec_chk (b * (w - target))) as [x| |] eqn:X; try discriminate.
    apply dec_chk_ok in X. subst x. rewrite E6.
    destruct (denominator p =? 0) eqn:E8; [lia|].
    rewrite change_eq by lia. rewrite dec_max_max.
    destruct (dec_chk (b + _)) as [y| |] eqn:Y; try discriminate.
    apply dec_chk_ok in Y. subst y. intros H; inversion H. reflexivity.
  - destruct (dec_chk (b * (target - w))) as [x| |] eqn:X; try discriminate.
    apply dec_chk_ok in X. subst x. rewrite E6.
    destruct (denominator p =? 0) eqn:E8; [lia|].
    rewrite change_eq by lia.
    destruct (dec_chk (b - _)) as [y| |] eqn:Y; try discriminate.
    apply dec_chk_ok in Y. subst y. rewrite dec_max_max. intros H; inversion H. reflexivity.
Qed.

Lemma next_nonneg b w t d m : 0 <= b -> 0 <= w -> 0 < t -> 0 < d ->
  0 <= m -> 0 <= eip1559_next b w t d m.
Proof.
  intros. unfold eip1559_next. destruct (w =? t) eqn:E1; [lia|].
  destruct (w >? t) eqn:E2; [|lia].
  pose proof (change_nonneg b (w - t) t d). lia.
Qed.

Lemma next_mono b w1 w2 t d m : 0 <= b -> m <= b -> 0 <= w1 <= w2 -> 0 < t -> 0 < d ->
  eip1559_next b w1 t d m <= eip1559_next b w2 t d m.
Proof.
  intros. unfold eip1559_next.
  pose proof (change_nonneg b (w2 - t) t d). pose proof (change_nonneg b (t - w1) t d).
  pose proof (change_nonneg b (t - w2) t d).
  pose proof (change_mono b (w1 - t) (w2 - t) t d).
  pose proof (change_mono b (t - w2) (t - w1) t d).
  destruct (w1 =? t) eqn:E1; destruct (w2 =? t) eqn:E2;
  destruct (w1 >? t) eqn:E3; destruct (w2 >? t) eqn:E4; lia.
Qed.

Lemma next_floor b w t d m : 0 <= b -> m <= b -> 0 <= w -> 0 < t -> 0 < d ->
  m <= eip1559_next b w t d m.
Proof.
  intros. unfold eip1559_next. destruct (w =? t) eqn:E1; [lia|].
  destruct (w >? t) eqn:E2; [|lia].
  pose proof (change_nonneg b (w - t) t d). lia.
Qed.

Lemma next_drop b w t d m : 0 <= b -> 0 <= w -> 0 < t -> 0 < d ->
  b - b / d <= eip1559_next b w t d m.
Proof.
  intros. unfold eip1559_next. assert (0 <= b / d) by (apply Z.div_pos; lia).
  destruct (w =? t) eqn:E1; [lia|].
  destruct (w >? t) eqn:E2.
  - pose proof (change_nonneg b (w - t) t d). lia.
  - pose proof (change_bounds b (t - w) t d). lia.
Qed.

(* the rounding in the multiplication of an integral decimal is exact *)
Lemma chop_integral w m : 0 <= w -> 0 <= m ->
  chop_round (w * one_dec * m) = w * m.
Proof.
  intros. unfold chop_round, one_dec.
  destruct (w * 10 ^ 18 * m <? 0) eqn:E; [nia|].
  unfold chop_round_nonneg, one_dec.
  replace (w * 10 ^ 18 * m) with (w * m * 10 ^ 18) by ring.
  rewrite Z.mod_mul by lia. rewrite Z.div_mul by lia. reflexivity.
Qed.

Lemma end_block_ok s wanted used s' m :
  min_gas_multiplier (st_params s) = Some m -> 0 <= m <= one_dec ->
  0 <= wanted -> 0 <= used ->
  end_block s wanted used = Ok s' ->
  st_params s' = st_params s /\
  st_gas_wanted s' = Z.max ((m * wanted) / 10 ^ 18) used.
Proof.
  intros Hm Hr Hw Hu. unfold end_block. rewrite Hm.
  destruct (max_int64 <? wanted) eqn:E1; [discriminate|].
  destruct (max_int64 <? used) eqn:E2; [discriminate|].
  unfold rbind, dec_mul. rewrite chop_integral by lia.
  destruct (dec_chk (wanted * m)) as [x| |] eqn:X; try discriminate.
  apply dec_chk_ok in X. subst x. rewrite dec_max_max.
  destruct ((0 <=? _) && _) eqn:E3; [|discriminate].
  intros H; inversion H; subst; clear H. cbn [st_params st_gas_wanted]. split; [reflexivity|].
  unfold one_dec. rewrite Z.quot_div_nonneg by nia.
  rewrite (Z.mul_comm m wanted).
  destruct (Z.max_spec (wanted * m) (used * 10 ^ 18)) as [[H1 H2]|[H1 H2]]; rewrite H2.
  - rewrite Z.div_mul by lia.
    assert (wanted * m / 10 ^ 18 <= used); [|lia].
    assert (wanted * m / 10 ^ 18 < used); [|lia].
    apply Z.div_lt_upper_bound; lia.
  - assert (used <= wanted * m / 10 ^ 18); [|lia].
    apply Z.div_le_lower_bound; lia.
Qed.

Lemma end_block_total s wanted used m :
  min_gas_multiplier (st_params s) = Some m -> 0 <= m <= one_dec ->
  0 <= wanted <= max_int64 -> 0 <= used <= max_int64 ->
  exists s', end_block s wanted used = Ok s'.
Proof.
  intros Hm Hr Hw Hu. unfold end_block. rewrite Hm.
  destruct (max_int64 <? wanted) eqn:E1; [lia|].
  destruct (max_int64 <? used) eqn:E2; [lia|].
  unfold rbind, dec_mul. rewrite chop_integral by lia.
  assert (wanted * m <= max_int64 * one_dec) by nia.
  rewrite dec_chk_small; [|rewrite Z.abs_eq by nia; unfold dec_limit, max_int64, one_dec in *; lia].
  rewrite dec_max_max.
  assert (0 <= Z.max (wanted * m) (used * one_dec) <= max_int64 * one_dec) by nia.
  assert (0 <= Z.quot (Z.max (wanted * m) (used * one_dec)) one_dec <= max_int64).
  { rewrite Z.quot_div_nonneg by (unfold one_dec in *; lia). split.
    - apply Z.div_pos; unfold one_dec in *; lia.
    - apply Z.div_le_upper_bound; unfold one_dec in *; lia. }
  destruct ((0 <=? _) && _) eqn:E3; [eauto|].
  unfold max_int64, max_uint64 in *. lia.
Qed.

Lemma calc_total p h mg w :
  validate p = Ok tt -> 0 < elasticity p -> 0 < denominator p ->
  0 <= w <= max_uint64 ->
  (forall x, mg = Some x -> x <= max_int64) ->
  (forall b, base_fee p = Some b -> b < 2 ^ 250) ->
  exists r, calculate_base_fee p h mg w = Ok r.
Proof.
  intros Hv Hel Hd Hw Hmg Hb.
  destruct (validate_ok p Hv) as (_ & (b & Hbf & Hb0) & _ & _ & (m & Hm & Hm0)).
  specialize (Hb b Hbf).
  unfold calculate_base_fee. rewrite Hbf, Hm.
  destruct (negb (base_fee_enabled p h)); [eauto|].
  destruct (h =? enable_height p); [eauto|].
  destruct (elasticity p =? 0) eqn:E3; [lia|].
  set (t := Z.quot _ _).
  destruct (negb _) eqn:E4; [eauto|].
  destruct (w =? t) eqn:E5; [eauto|].
  destruct (t =? 0) eqn:E6; [eauto|].
  assert (0 < t <= max_uint64) as Ht by lia.
  unfold rbind, dec_mul_int, dec_quo_int, dec_add, dec_sub.
  destruct (t <? w) eqn:E7.
  - assert (0 <= b * (w - t) <= b * max_uint64) by nia.
    assert (b * max_uint64 < 2 ^ 314) by (unfold max_uint64 in *; lia).
    rewrite dec_chk_small by (unfold dec_limit; lia). rewrite E6.
    destruct (denominator p =? 0) eqn:E8; [lia|].
    rewrite change_eq by lia. rewrite dec_max_max.
    assert (0 <= eip1559_change b (w - t) t (denominator p) <= b * (w - t)).
    { split; [apply change_nonneg; lia|]. unfold eip1559_change.
      apply Z.div_le_upper_bound; [nia|].
      assert (1 <= t * denominator p) by nia. generalize dependent (b * (w - t)).
      intros. nia. }
    rewrite dec_chk_small; [eauto|]. unfold dec_limit, one_dec in *. lia.
  - assert (0 <= b * (t - w) <= b * max_uint64) by nia.
    assert (b * max_uint64 < 2 ^ 314) by (unfold max_uint64 in *; lia).
    rewrite dec_chk_small by (unfold dec_limit; lia). rewrite E6.
    destruct (denominator p =? 0) eqn:E8; [lia|].
    rewrite change_eq by lia.
    pose proof (change_bounds b (t - w) t (denominator p)).
    assert (b / denominator p <= b) by (apply Z.div_le_upper_bound; nia).
    rewrite dec_chk_small; [eauto|]. unfold dec_limit in *. lia.
Qed.

(* the parameters other than the base fee *)
Definition same_other (p q : params) : Prop :=
  no_base_fee p = no_base_fee q /\ denominator p = denominator q /\
  elasticity p = elasticity q /\ enable_height p = enable_height q /\
  min_gas_price p = min_gas_price q /\ min_gas_multiplier p = min_gas_multiplier q.

Lemma begin_block_floor s h mg s' m b :
  validate (st_params s) = Ok tt -> 0 < elasticity (st_params s) -> 0 < denominator (st_params s) ->
  min_gas_price (st_params s) = Some m -> base_fee (st_params s) = Some b -> m <= b ->
  0 <= st_gas_wanted s -> (forall x, mg = Some x -> x <= max_int64) ->
  0 < gas_limit mg / elasticity (st_params s) ->
  begin_block s h mg = Ok s' ->
  same_other (st_params s) (st_params s') /\ st_gas_wanted s' = st_gas_wanted s /\
  validate (st_params s') = Ok tt /\
  exists b', base_fee (st_params s') = Some b' /\ m <= b' /\ b - b / denominator (st_params s) <= b'.
Proof.
  intros Hv Hel Hd Hm Hb Hmb Hw Hmg Ht. unfold begin_block, rbind.
  destruct (validate_ok _ Hv) as (Hd0 & (b0 & Hbf & Hb0) & Heh & (mu & Hmu & Hmu0) & (m0 & Hm' & Hm0)).
  assert (b0 = b) by congruence. assert (m0 = m) by congruence. subst b0 m0.
  assert (0 <= b / denominator (st_params s)) as Hbd by (apply Z.div_pos; lia).
  destruct (calculate_base_fee _ _ _ _) as [[n|]| |] eqn:E; try discriminate;
    intros H1; inversion H1; subst s'; clear H1; cbn [st_params st_gas_wanted].
  - assert (m <= n /\ b - b / denominator (st_params s) <= n) as [Hn1 Hn2].
    { destruct (Z_lt_le_dec (enable_height (st_params s)) h) as [Hlt|Hge].
      - destruct (no_base_fee (st_params s)) eqn:En.
        { unfold calculate_base_fee, base_fee_enabled in E. rewrite En in E. discriminate. }
        assert (active (st_params s) h) as Ha by (split; assumption).
        pose proof (calc_unfold _ _ _ _ _ _ Ha Hb Hm Hel Hd Hb0 Hw Hmg Ht _ E) as Hn.
        inversion Hn. subst n. split; [apply next_floor|apply next_drop]; lia.
      - unfold calculate_base_fee, base_fee_enabled in E.
        destruct (negb (no_base_fee (st_params s))) eqn:En; cbn [negb andb] in E; [|discriminate].
        destruct (enable_height (st_params s) <=? h) eqn:E1; cbn [negb] in E; [|discriminate].
        destruct (h =? enable_height (st_params s)) eqn:E2; [|lia].
        rewrite Hb in E. inversion E. subst n. split; lia. }
    split; [repeat split; reflexivity|]. split; [reflexivity|]. split.
    + unfold validate, with_base_fee in *. cbn [denominator base_fee enable_height min_gas_multiplier min_gas_price] in *.
      rewrite Hb in Hv. destruct (denominator (st_params s) =? 0); [discriminate|].
      destruct (b <? 0) eqn:Eb; [lia|]. destruct (n <? 0) eqn:En; [lia|exact Hv].
    + exists n. repeat split; try assumption; reflexivity.
  - split; [repeat split; reflexivity|]. split; [reflexivity|]. split; [assumption|].
    exists b. repeat split; [assumption|assumption|lia].
Qed.

Lemma run_blocks_floor bs : forall s s' m b,
  validate (st_params s) = Ok tt -> 0 < elasticity (st_params s) -> 0 < denominator (st_params s) ->
  min_gas_price (st_params s) = Some m -> base_fee (st_params s) = Some b -> m <= b ->
  0 <= st_gas_wanted s -> Forall (block_ok (st_params s)) bs ->
  run_blocks s bs = Ok s' ->
  exists b', base_fee (st_params s') = Some b' /\ m <= b' /\ min_gas_price (st_params s') = Some m.
Proof.
  induction bs as [|bl bs IH]; intros s s' m b Hv Hel Hd Hm Hb Hmb Hw Hall Hrun.
  - inversion Hrun; subst. eauto.
  - cbn [run_blocks] in Hrun. unfold rbind in Hrun.
    destruct (run_block s bl) as [s1| |] eqn:E1; try discriminate.
    unfold run_block, rbind in E1.
    destruct (begin_block s (b_height bl) (b_max_gas bl)) as [s0| |] eqn:E0; try discriminate.
    inversion Hall as [|? ? (Hbw & Hbu & Hbg & Hbt) Hall']; subst.
    destruct (begin_block_floor _ _ _ _ _ _ Hv Hel Hd Hm Hb Hmb Hw Hbg Hbt E0)
      as (Hso & Hgw & Hv0 & b' & Hb' & Hmb' & _).
    destruct (validate_ok _ Hv0) as (_ & _ & _ & (mu & Hmu & Hmur) & _).
    destruct (end_block_ok _ _ _ _ _ Hmu Hmur Hbw Hbu E1) as [Hp1 Hg1].
    destruct Hso as (S1 & S2 & S3 & S4 & S5 & S6).
    apply (IH s1 s' m b').
    + rewrite Hp1. exact Hv0.
    + rewrite Hp1. lia.
    + rewrite Hp1. lia.
    + rewrite Hp1. congruence.
    + rewrite Hp1. exact Hb'.
    + exact Hmb'.
    + rewrite Hg1. lia.
    + eapply Forall_impl; [|exact Hall']. intros a (A1 & A2 & A3 & A4).
      repeat split; try assumption. rewrite Hp1, <- S3. exact A4.
    + exact Hrun.
Qed.
