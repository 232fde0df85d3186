From Verif Require Import Lib.Base Lib.Bytes Lib.Kv Assets.Model Assets.Spec.
From Coq Require Import NArith QArith Lia ZArith.
Open Scope Z_scope.

(** ** Floating point *)

Lemma rne_spec x y : 0 < y -> 2 * Z.abs (rne x y * y - x) <= y.
Proof.
  intros Y. unfold rne. pose proof (Z.div_mod x y ltac:(lia)) as D.
  pose proof (Z.mod_pos_bound x y Y) as B.
  set (q := x / y) in *. set (r := x mod y) in *. clearbody q r.
  destruct (Z.compare_spec (2 * r) y); [destruct (Z.even q)| |]; nia.
Qed.

Lemma fl_below x y : 0 < x -> 0 < y -> x < 2 ^ 52 * y ->
  exists n, 0 < n /\ fl x y = Float (rne (x * 2 ^ n) y) (- n) /\
            2 ^ 52 * y <= x * 2 ^ n < 2 ^ 53 * y.
Proof.
  intros X Y LT. unfold fl. destruct (Z.eqb_spec x 0) as [?|_]; [lia|].
  pose proof (Z.log2_spec x X) as LX. pose proof (Z.log2_spec y Y) as LY.
  pose proof (Z.log2_nonneg x) as NX. pose proof (Z.log2_nonneg y) as NY.
  set (lx := Z.log2 x) in *. set (ly := Z.log2 y) in *. clearbody lx ly.
  rewrite !Z.pow_succ_r in * by lia.
  assert (LE : lx - ly <= 52).
  { destruct (Z_le_gt_dec (lx - ly) 52) as [?|GT]; [assumption|exfalso].
    assert (E : 2 ^ lx = 2 ^ ly * 2 ^ (lx - ly)) by (rewrite <- Z.pow_add_r by lia; f_equal; lia).
    assert (2 ^ 53 <= 2 ^ (lx - ly)) by (apply Z.pow_le_mono_r; lia). nia. }
  destruct (Z.leb_spec 0 (lx - ly - 53)) as [?|NE]; [lia|].
  set (n := - (lx - ly - 53)) in *. assert (N1 : 1 <= n) by lia.
  assert (EN : 2 ^ n * 2 ^ lx = 2 ^ 53 * 2 ^ ly) by (rewrite <- !Z.pow_add_r by lia; f_equal; lia).
  assert (B1 : 2 ^ 52 * y <= x * 2 ^ n) by nia.
  assert (B2 : x * 2 ^ n < 2 ^ 54 * y) by nia.
  destruct (Z.leb_spec (2 ^ 53 * y) (x * 2 ^ n)) as [BIG|SM].
  - assert (EP : 2 ^ n = 2 * 2 ^ (n - 1)).
    { rewrite <- Z.pow_succ_r by lia. f_equal. lia. }
    assert (N2 : n <> 1). { intros ->. change (2 ^ 1) with 2 in *. lia. }
    exists (n - 1). split; [lia|]. split.
    + replace (lx - ly - 53 + 1) with (- (n - 1)) by lia. f_equal. unfold scaled.
      rewrite Z.opp_involutive. destruct (Z.leb_spec 0 (n - 1)); [reflexivity|lia].
    + lia.
  - exists n. split; [lia|]. split.
    + replace (lx - ly - 53) with (- n) by lia. f_equal. unfold scaled.
      rewrite Z.opp_involutive. destruct (Z.leb_spec 0 n); [reflexivity|lia].
    + lia.
Qed.

(** Weights below 2^48 are exact. *)
Lemma f_of_exact w : 0 < w < 2 ^ 48 ->
  exists j, 0 <= j <= 52 /\ f_of w = Float (w * 2 ^ j) (- j).
Proof.
  intros W. unfold f_of.
  destruct (fl_below w 1) as (n & N0 & E & B); [lia|lia|lia|].
  exists n. rewrite E. split.
  - split; [lia|]. destruct (Z_le_gt_dec n 52) as [?|G]; [assumption|exfalso].
    assert (2 ^ 53 <= 2 ^ n) by (apply Z.pow_le_mono_r; lia). nia.
  - f_equal. unfold rne. rewrite Z.div_1_r, Z.mod_1_r. reflexivity.
Qed.

Lemma part_exact w M k p c :
  10 <= w < 2 ^ 48 -> 2 ^ 52 <= M < 2 ^ 53 -> 54 <= k <= 57 ->
  100 * M = p * 2 ^ k + c -> -20 <= c <= 40 -> (exists t, p = 5 * t) -> 0 < p ->
  f_trunc (fmul (f_of w) (Float M (- k))) = w * p / 100.
Proof.
  intros W HM K EM C (t & PT) P0.
  destruct (f_of_exact w ltac:(lia)) as (j & J & ->).
  unfold fmul. cbn [f_man f_exp].
  destruct (Z.leb_spec 0 (- j + - k)) as [?|_]; [lia|].
  replace (- (- j + - k)) with (j + k) by lia.
  assert (PJ : 0 < 2 ^ j) by (apply Z.pow_pos_nonneg; lia).
  assert (PK : 2 ^ 54 <= 2 ^ k) by (apply Z.pow_le_mono_r; lia).
  assert (EY : 2 ^ (j + k) = 2 ^ j * 2 ^ k) by (apply Z.pow_add_r; lia).
  destruct (fl_below (w * 2 ^ j * M) (2 ^ (j + k))) as (n & N0 & E & B).
  - nia.
  - rewrite EY. nia.
  - rewrite EY.
    assert (w * M < 2 ^ 52 * 2 ^ k).
    { apply Z.lt_le_trans with (2 ^ 48 * 2 ^ 53); [nia|]. change (2 ^ 48 * 2 ^ 53) with (2 ^ 52 * 2 ^ 49).
      assert (2 ^ 49 <= 2 ^ k) by (apply Z.pow_le_mono_r; lia). nia. }
    nia.
  - rewrite E. unfold f_trunc. cbn [f_man f_exp].
    destruct (Z.leb_spec 0 (- n)) as [?|_]; [lia|]. rewrite Z.opp_involutive.
    assert (R : 2 * Z.abs (rne (w * 2 ^ j * M * 2 ^ n) (2 ^ (j + k)) * 2 ^ (j + k) - w * 2 ^ j * M * 2 ^ n)
                <= 2 ^ (j + k)) by (apply rne_spec; rewrite EY; nia).
    set (m := rne (w * 2 ^ j * M * 2 ^ n) (2 ^ (j + k))) in *. clearbody m.
    rewrite EY in B, R.
    assert (B' : 2 ^ 52 * 2 ^ k <= w * M * 2 ^ n < 2 ^ 53 * 2 ^ k) by nia.
    assert (R' : 2 * Z.abs (m * 2 ^ k - w * M * 2 ^ n) <= 2 ^ k).
    { assert (EA : Z.abs (m * (2 ^ j * 2 ^ k) - w * 2 ^ j * M * 2 ^ n) = 2 ^ j * Z.abs (m * 2 ^ k - w * M * 2 ^ n)).
      { rewrite <- (Z.abs_eq (2 ^ j)) at 3 by lia. rewrite <- Z.abs_mul. f_equal. ring. }
      rewrite EA in R. nia. }
    assert (PN : 2 ^ 6 <= 2 ^ n).
    { apply Z.pow_le_mono_r; [lia|]. destruct (Z_le_gt_dec 6 n) as [?|G]; [assumption|exfalso].
      assert (2 ^ n <= 2 ^ 5) by (apply Z.pow_le_mono_r; lia).
      assert (w * M < 2 ^ 48 * 2 ^ 53) by nia.
      assert (w * M * 2 ^ n < 2 ^ 48 * 2 ^ 53 * 2 ^ 5) by nia.
      assert (2 ^ 52 * 2 ^ 54 <= 2 ^ 52 * 2 ^ k) by nia.
      change (2 ^ 48 * 2 ^ 53 * 2 ^ 5) with (2 ^ 106) in *. change (2 ^ 52 * 2 ^ 54) with (2 ^ 106) in *. lia. }
    clear B R E EY PJ J N0.
    set (P := 2 ^ n) in *. set (KK := 2 ^ k) in *. clearbody P KK.
    change (2 ^ 6) with 64 in PN.
    pose proof (Z.div_mod (w * p) 100 ltac:(lia)) as DM.
    pose proof (Z.mod_pos_bound (w * p) 100 ltac:(lia)) as SB.
    set (q := w * p / 100) in *. set (s := (w * p) mod 100) in *.
    assert (S95 : s <= 95).
    { assert (exists u, s = 5 * u) as (u & ->) by (exists (w * t - 20 * q); lia). lia. }
    clearbody q s.
    assert (A0 : 0 < w * P) by nia.
    assert (A2 : w * P < 2 * KK).
    { assert (w * P * 2 ^ 52 <= w * M * P) by nia. change (2 ^ 53) with (2 * 2 ^ 52) in B'. nia. }
    assert (EQ : 100 * (w * M * P) = P * (100 * q + s) * KK + w * P * c).
    { rewrite <- DM. transitivity (w * P * (100 * M)); [ring|]. rewrite EM. ring. }
    set (X := w * M * P) in *. clearbody X.
    assert (CB : -40 * KK <= w * P * c <= 80 * KK).
    { clear -C A0 A2. set (A := w * P) in *. clearbody A.
      assert (0 <= A * (c + 20)) by (apply Z.mul_nonneg_nonneg; lia).
      assert (0 <= A * (40 - c)) by (apply Z.mul_nonneg_nonneg; lia). lia. }
    set (Y := w * P * c) in *. clearbody Y.
    clear -R' EQ CB PN SB S95 PK.
    symmetry. apply Z.div_unique with (m - q * P); [|lia].
    left. split.
    + assert (H : -1 * KK < (m - q * P) * KK).
      { assert (0 <= P * s * KK) by (apply Z.mul_nonneg_nonneg; [apply Z.mul_nonneg_nonneg|]; lia).
        replace (P * (100 * q + s) * KK) with (100 * (q * P * KK) + P * s * KK) in EQ by ring.
        rewrite Z.mul_sub_distr_r. lia. }
      assert (-1 < m - q * P); [|lia]. apply (Z.mul_lt_mono_pos_r KK); lia.
    + assert (H : (m - q * P) * KK < P * KK).
      { assert (0 <= P * (95 - s) * KK) by (apply Z.mul_nonneg_nonneg; [apply Z.mul_nonneg_nonneg|]; lia).
        assert (0 <= (P - 64) * KK) by (apply Z.mul_nonneg_nonneg; lia).
        replace (P * (100 * q + s) * KK) with (100 * (q * P * KK) + P * s * KK) in EQ by ring.
        replace (P * (95 - s) * KK) with (95 * (P * KK) - P * s * KK) in * by ring.
        rewrite Z.mul_sub_distr_r in *. lia. }
      apply (Z.mul_lt_mono_pos_r KK); lia.
Qed.

Lemma part_percent w m : 10 <= w < 2 ^ 48 -> m <> OtherMagnitude ->
  f_trunc (fmul (f_of w) (fl (percent m) 100)) = w * percent m / 100.
Proof.
  intros W NM. destruct m; [| | |congruence].
  - change (fl (percent Small) 100) with (Float 7205759403792794 (- (57))).
    apply (part_exact w 7205759403792794 57 5 (40)); [lia|lia|lia|reflexivity|lia|exists 1; reflexivity|lia].
  - change (fl (percent Medium) 100) with (Float 5404319552844595 (- (55))).
    apply (part_exact w 5404319552844595 55 15 (-20)); [lia|lia|lia|reflexivity|lia|exists 3; reflexivity|lia].
  - change (fl (percent High) 100) with (Float 5404319552844595 (- (54))).
    apply (part_exact w 5404319552844595 54 30 (-20)); [lia|lia|lia|reflexivity|lia|exists 6; reflexivity|lia].
Qed.

(** Weights one to nine. *)
Lemma small_cases w : 1 <= w < 10 ->
  In w [1; 2; 3; 4; 5; 6; 7; 8; 9].
Proof. intros W. cbn [In]. lia. Qed.

Lemma part_small w : 1 <= w < 10 -> f_trunc (fmul (f_of w) (fdiv (f_of 1) (f_of w))) = 1.
Proof.
  intros W. apply small_cases in W.
  assert (H : forallb (fun w => f_trunc (fmul (f_of w) (fdiv (f_of 1) (f_of w))) =? 1)
                      [1; 2; 3; 4; 5; 6; 7; 8; 9] = true) by (vm_compute; reflexivity).
  rewrite forallb_forall in H. apply Z.eqb_eq. exact (H w W).
Qed.

Lemma share_small w : 1 <= w < 10 ->
  let h := hundredths (fdiv (f_of 1) (f_of w)) in
  0 < h /\ 2 * Z.abs (h * w - 100) <= w.
Proof.
  intros W h. apply small_cases in W.
  assert (H : forallb (fun w => (0 <? hundredths (fdiv (f_of 1) (f_of w))) &&
                (2 * Z.abs (hundredths (fdiv (f_of 1) (f_of w)) * w - 100) <=? w))
                      [1; 2; 3; 4; 5; 6; 7; 8; 9] = true) by (vm_compute; reflexivity).
  rewrite forallb_forall in H. specialize (H w W). apply andb_prop in H as [H1 H2].
  apply Z.ltb_lt in H1. apply Z.leb_le in H2. split; assumption.
Qed.

(** ** Single decisions *)

(** The share told to the staking module. *)
Definition share (w : Z) (m : magnitude) : Z :=
  if w <? 10 then hundredths (fdiv (f_of 1) (f_of w)) else percent m.

Lemma base_share m : m <> OtherMagnitude -> hundredths (fl (percent m) 100) = percent m.
Proof. destruct m; intros H; try (vm_compute; reflexivity). Qed.

Lemma share_pos w m : 1 <= w -> m <> OtherMagnitude -> 0 < share w m.
Proof.
  intros W NM. unfold share. destruct (Z.ltb_spec w 10).
  - apply share_small. lia.
  - destruct m; cbn [percent]; try lia. congruence.
Qed.

(** The error of the share. *)
Lemma share_close w m : 1 <= w -> m <> OtherMagnitude ->
  (w < 10 -> 2 * Z.abs (share w m * w - 100 * change w m) <= w) /\
  (10 <= w -> 0 <= share w m * w - 100 * change w m < 100).
Proof.
  intros W NM. unfold share, change. destruct (Z.ltb_spec w 10) as [L|L]; split; intros; try lia.
  - destruct (share_small w ltac:(lia)) as [_ H0]. rewrite Z.mul_1_r. exact H0.
Qed.

Lemma change_bound w m : 1 <= w -> m <> OtherMagnitude -> 0 <= change w m /\ change w m <= w /\ (w <> 1 -> change w m < w).
Proof.
  intros W NM. unfold change. destruct (Z.ltb_spec w 10) as [L|L]; [lia|].
  assert (0 <= percent m <= 30) by (destruct m; cbn [percent]; lia).
  assert (w * percent m / 100 <= w * 30 / 100) by (apply Z.div_le_mono; nia).
  assert (w * 30 / 100 < w) by (apply Z.div_lt_upper_bound; lia).
  assert (0 <= w * percent m / 100) by (apply Z.div_pos; nia). lia.
Qed.

Lemma factors_eq w m r : sane_weight w -> m <> OtherMagnitude -> (r = Down -> w <> 1) ->
  factors w m r = Ok (dec (share w m), if w <? 10 then fdiv (f_of 1) (f_of w) else fl (percent m) 100).
Proof.
  intros W NM D. unfold sane_weight in W. unfold factors, share.
  replace (w - (w - 1)) with 1 by lia. replace (w + 1 - w) with 1 by lia.
  assert (E : match m with
        | Small => Ok (fl 5 100) | Medium => Ok (fl 15 100) | High => Ok (fl 30 100)
        | OtherMagnitude => Err end = Ok (fl (percent m) 100)) by (destruct m; [reflexivity..|congruence]).
  rewrite E. cbn [rbind]. destruct (Z.ltb_spec w 10) as [L|L].
  - destruct (Z.eqb_spec w 0); [lia|].
    destruct r; try reflexivity. destruct (Z.eqb_spec w 1); [exfalso; apply D; auto|reflexivity].
  - rewrite base_share by assumption. reflexivity.
Qed.

Lemma adjust_eq w m r : sane_weight w -> m <> OtherMagnitude -> (r = Down -> w <> 1) -> r <> OtherDirection ->
  adjust w r (if w <? 10 then fdiv (f_of 1) (f_of w) else fl (percent m) 100)
  = Ok (changed w m r, match r with Up => true | _ => false end).
Proof.
  intros W NM D NR.
  assert (E : f_trunc (fmul (f_of w) (if w <? 10 then fdiv (f_of 1) (f_of w) else fl (percent m) 100)) = change w m).
  { unfold change, sane_weight in *. destruct (Z.ltb_spec w 10).
    - apply part_small. lia.
    - apply part_percent; [lia|assumption]. }
  unfold adjust, changed. unfold sane_weight in W.
  destruct (change_bound w m ltac:(lia) NM) as (C0 & C1 & _).
  destruct r; [| |congruence]; rewrite E; unfold u64; rewrite Z.mod_small by lia; reflexivity.
Qed.

Section Decisions.

Variable gov : bytes.
Variable contract_exists : bytes -> bool.
Variable stake_ok : list call -> call -> bool.

Definition after_update (st : state) (u : update) (a : asset) : state :=
  State (kset (s_list st) (u_denom u) (Asset (a_info a) (changed (a_weight a) (u_mag u) (u_dir u)) (a_archived a)))
        (Call (u_denom u) (dec (share (a_weight a) (u_mag u))) (match u_dir u with Up => true | _ => false end) 0
         :: s_calls st).

Lemma update_one_spec st u a : listed st (u_denom u) a -> sane_weight (a_weight a) ->
  forall st', update_one stake_ok st u = Ok st' <->
    u_mag u <> OtherMagnitude /\ u_dir u <> OtherDirection /\ (u_dir u = Down -> a_weight a <> 1) /\
    stake_ok (s_calls st) (Call (u_denom u) (dec (share (a_weight a) (u_mag u)))
                                (match u_dir u with Up => true | _ => false end) 0) = true /\
    st' = after_update st u a.
Proof.
  clear gov. intros L W st'. unfold update_one. unfold listed in L. rewrite L.
  assert (W1 : 1 <= a_weight a) by (unfold sane_weight in W; lia).
  assert (GO : forall (NM : u_mag u <> OtherMagnitude) (D : u_dir u = Down -> a_weight a <> 1) (NR : u_dir u <> OtherDirection),
    rbind (factors (a_weight a) (u_mag u) (u_dir u)) (fun pf =>
      rbind (adjust (a_weight a) (u_dir u) (snd pf)) (fun wu =>
      rbind (put st (u_denom u) (Asset (a_info a) (fst wu) (a_archived a))) (fun st' =>
      tell stake_ok st' (Call (u_denom u) (fst pf) (snd wu) 0)))) =
    if stake_ok (s_calls st) (Call (u_denom u) (dec (share (a_weight a) (u_mag u)))
                                (match u_dir u with Up => true | _ => false end) 0)
    then Ok (after_update st u a) else Err).
  { intros NM D NR. rewrite (factors_eq _ _ _ W NM D). cbn [rbind snd fst].
    rewrite (adjust_eq _ _ _ W NM D NR). cbn [rbind snd fst].
    unfold put, is_whitelisted. rewrite L. cbn [rbind]. unfold tell. cbn [c_percent c_from s_calls s_list].
    pose proof (share_pos _ _ W1 NM) as SP. unfold dec.
    destruct (Z.eqb_spec (share (a_weight a) (u_mag u) * 10 ^ 16) 0) as [?|_]; [nia|].
    destruct (Z.ltb_spec (share (a_weight a) (u_mag u) * 10 ^ 16) 0) as [?|_]; [nia|]. reflexivity. }
  split.
  - intros H.
    assert (NM : u_mag u <> OtherMagnitude).
    { intros E. rewrite E in H. discriminate. }
    assert (D : u_dir u = Down -> a_weight a <> 1).
    { intros E E1. rewrite E, E1 in H. unfold factors in H. destruct (u_mag u); discriminate. }
    assert (NR : u_dir u <> OtherDirection).
    { intros E. rewrite E in H. destruct (factors (a_weight a) (u_mag u) OtherDirection); discriminate. }
    rewrite (GO NM D NR) in H.
    match type of H with (if ?c then _ else _) = _ => destruct c eqn:EC; [|discriminate] end.
    repeat split; auto. congruence.
  - intros (NM & NR & D & SO & ->). rewrite (GO NM D NR), SO. reflexivity.
Qed.

Definition after_archive (st : state) (d : bytes) (a : asset) : state :=
  State (kset (s_list st) d (Asset (a_info a) 1 true))
        (if a_weight a <=? 1 then s_calls st else Call d 0 false (a_weight a) :: s_calls st).

Lemma remove_one_spec st d a : listed st d a ->
  forall st', remove_one stake_ok st d = Ok st' <->
    (a_archived a = true /\ st' = st) \/
    (a_archived a = false /\ st' = after_archive st d a /\
     (1 < a_weight a -> stake_ok (s_calls st) (Call d 0 false (a_weight a)) = true)).
Proof.
  clear gov contract_exists. intros L st'. unfold remove_one, is_whitelisted, remove, archive, put, is_whitelisted.
  unfold listed in L. rewrite L. destruct (a_archived a) eqn:AR.
  - split; [intros E; left; split; congruence|intros [[_ ->]|[? _]]; congruence].
  - cbn [rbind]. unfold after_archive. destruct (Z.leb_spec (a_weight a) 1) as [LE|GT].
    + split; [intros E; right; repeat split; [congruence|lia]|].
      intros [[? _]|(_ & -> & _)]; [congruence|reflexivity].
    + unfold tell. cbn [c_percent c_from s_calls s_list].
      destruct (Z.eqb_spec (a_weight a) 0) as [?|_]; [lia|]. cbn [andb Z.eqb Z.ltb Z.compare].
      match goal with |- (if ?c then _ else _) = _ <-> _ => destruct c eqn:SO end.
      * split; [intros E; right; repeat split; congruence|].
        intros [[? _]|(_ & -> & _)]; [congruence|reflexivity].
      * split; [discriminate|]. intros [[? _]|(_ & _ & H)]; [congruence|].
        specialize (H GT). congruence.
Qed.

Lemma remove_one_unlisted st d : unlisted st d -> remove_one stake_ok st d = Err.
Proof. clear gov contract_exists. unfold unlisted, remove_one, is_whitelisted. intros ->. reflexivity. Qed.

Lemma update_one_unlisted st u : unlisted st (u_denom u) -> update_one stake_ok st u = Err.
Proof. clear gov contract_exists. unfold unlisted, update_one. intros ->. reflexivity. Qed.

Definition after_unarchive (st : state) (d : bytes) (a : asset) (w : Z) : state :=
  State (kset (s_list st) d (Asset (a_info a) w false))
        (if w =? 1 then s_calls st else Call d (dec_of (w - 1)) true 0 :: s_calls st).

Lemma add_one_listed st d x a : listed st d a -> 0 <= a_weight x ->
  forall st', add_one contract_exists stake_ok st (d, x) = Ok st' <->
    contract_exists (i_contract (a_info x)) = true /\ a_archived a = true /\ a_weight x <> 0 /\
    st' = after_unarchive st d a (a_weight x) /\
    (1 < a_weight x -> stake_ok (s_calls st) (Call d (dec_of (a_weight x - 1)) true 0) = true).
Proof.
  clear gov. intros L W st'. unfold add_one, add, unarchive, put, is_whitelisted. cbn [fst snd].
  unfold listed in L. rewrite L.
  destruct (contract_exists (i_contract (a_info x))); [|split; [discriminate|intros (? & _); congruence]].
  destruct (a_archived a); cbn [negb]; [|split; [discriminate|intros (_ & ? & _); congruence]].
  destruct (Z.eqb_spec (a_weight x) 0) as [E0|N0]; [split; [discriminate|intros (_ & _ & ? & _); congruence]|].
  cbn [rbind]. unfold after_unarchive.
  destruct (Z.eqb_spec (a_weight x - 1) 0) as [E1|N1].
  - destruct (Z.eqb_spec (a_weight x) 1) as [_|?]; [|lia].
    split; [intros E; repeat split; auto; [congruence|lia]|intros (_ & _ & _ & -> & _); reflexivity].
  - destruct (Z.eqb_spec (a_weight x) 1) as [?|_]; [lia|].
    unfold tell. cbn [c_percent c_from s_calls s_list]. unfold dec_of.
    destruct (Z.eqb_spec ((a_weight x - 1) * 10 ^ 18) 0) as [?|_]; [nia|]. cbn [andb].
    destruct (Z.ltb_spec ((a_weight x - 1) * 10 ^ 18) 0) as [?|_]; [nia|].
    match goal with |- (if ?c then _ else _) = _ <-> _ => destruct c eqn:SO end.
    + split; [intros E; repeat split; auto; congruence|intros (_ & _ & _ & -> & _); reflexivity].
    + split; [discriminate|intros (_ & _ & _ & _ & H)]. exfalso. specialize (H ltac:(lia)). unfold dec_of in H. congruence.
Qed.

Lemma add_one_unlisted st d x : unlisted st d ->
  forall st', add_one contract_exists stake_ok st (d, x) = Ok st' <->
    contract_exists (i_contract (a_info x)) = true /\
    st' = State (kset (s_list st) d (Asset (a_info x) (a_weight x) false)) (s_calls st).
Proof.
  clear gov. intros L st'. unfold add_one, add. cbn [fst snd]. unfold unlisted in L. rewrite L.
  destruct (contract_exists _).
  - split; [intros E; split; congruence|intros (_ & ->); reflexivity].
  - split; [intros E; discriminate|intros (? & _); congruence].
Qed.

(** ** Any decision: what can have happened at all *)

(** The list was changed at most at [d], and calls were made for [d] only. *)
Definition local (d : bytes) (st st' : state) : Prop :=
  (exists cs, s_calls st' = cs ++ s_calls st /\ Forall (fun c => c_denom c = d) cs) /\
  (s_list st' = s_list st \/ exists b, s_list st' = kset (s_list st) d b /\
     forall a, kget (s_list st) d = Some a -> a_info b = a_info a).

Lemma local_tell d c st0 st st' : c_denom c = d -> local d st0 st -> tell stake_ok st c = Ok st' -> local d st0 st'.
Proof.
  intros CD ((cs & E & F) & L) H. unfold tell in H.
  destruct (_ && _); [assert (st' = st) by congruence; subst; split; eauto|].
  destruct (_ <? _); [discriminate|]. destruct (stake_ok _ _); [|discriminate].
  assert (E' : st' = State (s_list st) (c :: s_calls st)) by congruence. subst st'. split; [|exact L].
  exists (c :: cs). cbn [s_calls]. rewrite E. split; [reflexivity|]. constructor; auto.
Qed.

Lemma local_put d a b st st' : kget (s_list st) d = Some a -> a_info b = a_info a -> put st d b = Ok st' -> local d st st'.
Proof.
  intros K I. unfold put, is_whitelisted. rewrite K. intros E.
  assert (E' : st' = State (kset (s_list st) d b) (s_calls st)) by congruence. subst st'. split.
  - exists []. auto.
  - right. exists b. split; [reflexivity|]. intros a' K'. congruence.
Qed.

Lemma local_refl d st : local d st st.
Proof. split; [exists []; auto|auto]. Qed.

Lemma update_one_local st u st' : update_one stake_ok st u = Ok st' -> local (u_denom u) st st'.
Proof.
  clear gov contract_exists. unfold update_one. intros H. destruct (kget _ _) as [a|] eqn:K; [|discriminate].
  destruct (factors _ _ _) as [pf| |]; cbn [rbind] in H; try discriminate.
  destruct (adjust _ _ _) as [wu| |]; cbn [rbind] in H; try discriminate.
  destruct (put _ _ _) as [s1| |] eqn:P; cbn [rbind] in H; try discriminate.
  eapply local_tell; [|eapply local_put; [exact K| |exact P]|exact H]; reflexivity.
Qed.

Lemma archive_local st d st' : archive stake_ok st d = Ok st' -> local d st st'.
Proof.
  unfold archive. intros H. destruct (kget _ _) as [a|] eqn:K; [|discriminate].
  destruct (a_archived a); [discriminate|].
  destruct (put _ _ _) as [s1| |] eqn:P; cbn [rbind] in H; try discriminate.
  assert (LP : local d st s1) by (eapply local_put; [exact K| |exact P]; reflexivity).
  destruct (_ <=? _); [congruence|]. eapply local_tell; [|exact LP|exact H]. reflexivity.
Qed.

Lemma unarchive_local st d w st' : unarchive stake_ok st d w = Ok st' -> local d st st'.
Proof.
  unfold unarchive. intros H. destruct (kget _ _) as [a|] eqn:K; [|discriminate].
  destruct (negb _); [discriminate|]. destruct (w =? 0); [discriminate|].
  destruct (put _ _ _) as [s1| |] eqn:P; cbn [rbind] in H; try discriminate.
  assert (LP : local d st s1) by (eapply local_put; [exact K| |exact P]; reflexivity).
  destruct (_ =? _); [congruence|]. eapply local_tell; [|exact LP|exact H]. reflexivity.
Qed.

Lemma add_local st d x st' : add stake_ok st d x = Ok st' -> local d st st'.
Proof.
  unfold add. intros H. destruct (kget _ _) as [a|] eqn:K.
  - destruct (negb _); [discriminate|]. eapply unarchive_local; eauto.
  - assert (E' : st' = State (kset (s_list st) d (Asset (a_info x) (a_weight x) false)) (s_calls st)) by congruence.
    subst st'. split; [exists []; auto|]. right. eexists. split; [reflexivity|]. intros; congruence.
Qed.

Lemma add_one_local st p st' : add_one contract_exists stake_ok st p = Ok st' -> local (fst p) st st'.
Proof.
  clear gov. unfold add_one. destruct (contract_exists _); [|discriminate]. apply add_local.
Qed.

Lemma remove_one_local st d st' : remove_one stake_ok st d = Ok st' -> local d st st'.
Proof.
  clear gov contract_exists. unfold remove_one, remove. destruct (is_whitelisted _ _); [|discriminate].
  destruct (kget _ _) as [a|]; [|discriminate]. destruct (a_archived a).
  - intros E. assert (st' = st) by congruence. subst. apply local_refl.
  - apply archive_local.
Qed.

(** ** Lists of decisions *)

(** What many local changes leave: the order, the descriptions, everything
    about other assets. *)
Definition keeps (ds : list bytes) (st st' : state) : Prop :=
  (ksorted (s_list st) -> ksorted (s_list st')) /\
  (ksorted (s_list st) -> forall d a, listed st d a -> exists b, listed st' d b /\ a_info b = a_info a) /\
  (ksorted (s_list st) -> forall d, ~ In d ds -> kget (s_list st') d = kget (s_list st) d) /\
  (forall d, ~ In d ds -> factor (s_calls st') d = factor (s_calls st) d).

Lemma factor_local d cs l x : Forall (fun c => c_denom c = d) cs -> x <> d -> factor (cs ++ l) x = factor l x.
Proof.
  intros H NX. induction H as [|c cs E _ IH]; [reflexivity|]. cbn [app factor]. rewrite IH, E.
  assert (B : beqb d x = false) by (apply beqb_neq; congruence). rewrite B. reflexivity.
Qed.

Lemma local_keeps d st st' : local d st st' -> keeps [d] st st'.
Proof.
  intros ((cs & E & F) & L). unfold keeps, listed. split; [|split; [|split]].
  - intros S. destruct L as [->|(b & -> & _)]; [assumption|apply kset_sorted; assumption].
  - intros S x a K. destruct L as [->|(b & -> & IB)]; [eauto|].
    rewrite kget_kset by assumption. destruct (beqb x d) eqn:B; [|eauto].
    apply beqb_spec in B. subst x. eauto.
  - intros S x NI. destruct L as [->|(b & -> & _)]; [reflexivity|].
    rewrite kget_kset by assumption. destruct (beqb x d) eqn:B; [|reflexivity].
    apply beqb_spec in B. subst x. exfalso. apply NI. left. reflexivity.
  - intros x NI. rewrite E. apply (factor_local d); [assumption|]. intros ->. apply NI. left. reflexivity.
Qed.

Lemma keeps_trans d1 d2 a b c : keeps d1 a b -> keeps d2 b c -> keeps (d1 ++ d2) a c.
Proof.
  intros (A1 & A2 & A3 & A4) (B1 & B2 & B3 & B4). split; [|split; [|split]].
  - auto.
  - intros S d x L. destruct (A2 S d x L) as (y & L1 & I1). destruct (B2 (A1 S) d y L1) as (z & L2 & I2).
    exists z. split; [assumption|congruence].
  - intros S d NI. rewrite in_app_iff in NI. rewrite B3, A3 by tauto. reflexivity.
  - intros d NI. rewrite in_app_iff in NI. rewrite B4, A4 by tauto. reflexivity.
Qed.

Lemma keeps_refl st : keeps [] st st.
Proof. unfold keeps. split; [|split; [|split]]; auto. intros _ d a L. eauto. Qed.

Lemma each_keeps {A} (f : state -> A -> res state) (key : A -> bytes) :
  (forall st x st', f st x = Ok st' -> local (key x) st st') ->
  forall l st st', each f st l = Ok st' -> keeps (map key l) st st'.
Proof.
  intros HF. induction l as [|x l IH]; intros st st' H; cbn [each map] in *.
  - assert (st' = st) by congruence. subst. apply keeps_refl.
  - destruct (f st x) as [s1| |] eqn:E; cbn [rbind] in H; try discriminate.
    change (key x :: map key l) with ([key x] ++ map key l).
    eapply keeps_trans; [apply local_keeps; eapply HF; exact E|apply IH; exact H].
Qed.

Lemma perform_keeps st x st' : perform gov contract_exists stake_ok st x = Ok st' -> keeps (about x) st st'.
Proof.
  intros H. destruct x; cbn [perform about] in *;
  match type of H with (if ?c then _ else _) = _ => destruct c; [|discriminate] end.
  all: try (eapply each_keeps; [|exact H]; intros; first [apply add_one_local|apply update_one_local]; assumption).
  all: rewrite <- (map_id l); eapply each_keeps; [|exact H]; intros; apply remove_one_local; assumption.
Qed.

Lemma step_keeps st x : keeps (about x) st (step gov contract_exists stake_ok st x).
Proof.
  unfold step. destruct (perform _ _ _ st x) eqn:E.
  - apply perform_keeps. exact E.
  - pose proof (keeps_refl st) as (A & B & C & D). unfold keeps. split; [|split; [|split]]; auto.
  - pose proof (keeps_refl st) as (A & B & C & D). unfold keeps. split; [|split; [|split]]; auto.
Qed.

Lemma run_keeps l : forall st, keeps (flat_map about l) st (run gov contract_exists stake_ok st l).
Proof.
  induction l as [|x l IH]; intros st; cbn [flat_map]; [apply keeps_refl|].
  eapply keeps_trans; [apply step_keeps|apply IH].
Qed.

Lemma genesis_sorted l : ksorted (s_list (genesis stake_ok l)).
Proof.
  clear gov contract_exists. unfold genesis. assert (S0 : ksorted (s_list (State [] []))) by apply ksorted_nil.
  revert S0. generalize (State [] []). induction l as [|p l IH]; intros st S; [exact S|].
  cbn [fold_left]. apply IH. destruct (add stake_ok st (fst p) (snd p)) eqn:E; [|exact S|exact S].
  apply add_local in E. apply local_keeps in E. apply E. exact S.
Qed.

End Decisions.
