From Coq Require Import NArith Nnat ZArith.
From Verif Require Import Lib.Base Lib.Bytes Evm.Words Evm.WordSpec Evm.Memory Evm.Table Evm.Interp.
Open Scope Z_scope.

Lemma W256_z : Z.of_N W256 = modulus. Proof. reflexivity. Qed.
Lemma W256_pos : (0 < W256)%N. Proof. reflexivity. Qed.
Lemma modulus_pos : 0 < modulus. Proof. reflexivity. Qed.

Lemma lt_bits x n : (forall i, (n <= i)%N -> N.testbit x i = false) -> (x < 2 ^ n)%N.
Proof.
  intros H. destruct (N.eq_dec x 0) as [E|E]; [subst; apply N.neq_0_lt_0, N.pow_nonzero; discriminate|].
  apply N.log2_lt_pow2; [lia|]. destruct (N.lt_ge_cases (N.log2 x) n) as [L|L]; [exact L|].
  specialize (H _ L). rewrite N.bit_log2 in H by exact E. discriminate.
Qed.
Lemma bits_lt x n i : (x < 2 ^ n)%N -> (n <= i)%N -> N.testbit x i = false.
Proof.
  intros H L. destruct (N.eq_dec x 0) as [E|E]; [subst; apply N.bits_0|].
  apply N.bits_above_log2. apply N.log2_lt_pow2 in H; lia.
Qed.

Lemma signed_z x : signed x = as_signed (Z.of_N x).
Proof.
  unfold signed, as_signed. change modulus with (2 ^ 256).
  assert (Q : Z.of_N (2 ^ 255) = 2 ^ 255) by reflexivity.
  destruct (N.ltb_spec x (2 ^ 255)) as [L|L], (Z.ltb_spec (Z.of_N x) (2 ^ 255)) as [L'|L']; try reflexivity; lia.
Qed.
Lemma unsigned_z z : Z.of_N (unsigned z) = z mod modulus.
Proof. unfold unsigned. rewrite Z2N.id; [reflexivity|]. apply Z.mod_pos_bound. reflexivity. Qed.

Lemma flag_z b : Z.of_N (flag b) = truth b. Proof. destruct b; reflexivity. Qed.
Lemma ltb_z x y : (Z.of_N x <? Z.of_N y) = (x <? y)%N.
Proof. destruct (N.ltb_spec x y), (Z.ltb_spec (Z.of_N x) (Z.of_N y)); try reflexivity; lia. Qed.
Lemma eqb_z x y : (Z.of_N x =? Z.of_N y) = (x =? y)%N.
Proof. destruct (N.eqb_spec x y), (Z.eqb_spec (Z.of_N x) (Z.of_N y)); try reflexivity; lia. Qed.
Lemma eqb0_z x : (Z.of_N x =? 0) = (x =? 0)%N.
Proof. apply (eqb_z x 0). Qed.

Lemma w_add_z x y : Z.of_N (w_add x y) = (Z.of_N x + Z.of_N y) mod modulus.
Proof. unfold w_add. rewrite N2Z.inj_mod, N2Z.inj_add by discriminate. reflexivity. Qed.
Lemma w_mul_z x y : Z.of_N (w_mul x y) = (Z.of_N x * Z.of_N y) mod modulus.
Proof. unfold w_mul. rewrite N2Z.inj_mod, N2Z.inj_mul by discriminate. reflexivity. Qed.
Lemma w_sub_z x y : (y < W256)%N -> Z.of_N (w_sub x y) = (Z.of_N x - Z.of_N y) mod modulus.
Proof.
  intros H. unfold w_sub. rewrite N2Z.inj_mod, N2Z.inj_add, N2Z.inj_sub by (try discriminate; lia).
  rewrite W256_z. replace (Z.of_N x + (modulus - Z.of_N y)) with (Z.of_N x - Z.of_N y + 1 * modulus) by lia.
  apply Z.mod_add. discriminate.
Qed.
Lemma w_div_z x y : Z.of_N (w_div x y) = if Z.of_N y =? 0 then 0 else Z.of_N x / Z.of_N y.
Proof.
  unfold w_div. rewrite eqb0_z. destruct (N.eqb_spec y 0) as [E|E]; [reflexivity|]. apply N2Z.inj_div.
Qed.
Lemma w_mod_z x y : Z.of_N (w_mod x y) = if Z.of_N y =? 0 then 0 else Z.of_N x mod Z.of_N y.
Proof.
  unfold w_mod. rewrite eqb0_z. destruct (N.eqb_spec y 0) as [E|E]; [reflexivity|]. apply N2Z.inj_mod.
Qed.
Lemma w_sdiv_z x y : Z.of_N (w_sdiv x y) =
  if Z.of_N y =? 0 then 0 else Z.quot (as_signed (Z.of_N x)) (as_signed (Z.of_N y)) mod modulus.
Proof. unfold w_sdiv. rewrite eqb0_z. destruct (y =? 0)%N; [reflexivity|]. rewrite unsigned_z, !signed_z. reflexivity. Qed.
Lemma w_smod_z x y : Z.of_N (w_smod x y) =
  if Z.of_N y =? 0 then 0 else Z.rem (as_signed (Z.of_N x)) (as_signed (Z.of_N y)) mod modulus.
Proof. unfold w_smod. rewrite eqb0_z. destruct (y =? 0)%N; [reflexivity|]. rewrite unsigned_z, !signed_z. reflexivity. Qed.

Lemma pow_mod_spec x e : pow_mod x e = (x ^ Npos e mod W256)%N.
Proof.
  assert (D : W256 <> 0%N) by discriminate.
  induction e as [e IH|e IH|]; cbn [pow_mod].
  - rewrite IH. replace (Npos (xI e)) with (Npos e + Npos e + 1)%N by lia.
    rewrite !N.pow_add_r, N.pow_1_r.
    rewrite (N.mul_mod ((x ^ N.pos e) mod W256) _ W256 D), !N.mod_mod, <- N.mul_mod by exact D.
    rewrite N.mul_mod_idemp_l by exact D. reflexivity.
  - rewrite IH. replace (Npos (xO e)) with (Npos e + Npos e)%N by lia.
    rewrite N.pow_add_r. rewrite <- N.mul_mod by exact D. reflexivity.
  - rewrite N.pow_1_r. reflexivity.
Qed.
Lemma w_exp_z x y : Z.of_N (w_exp x y) = (Z.of_N x ^ Z.of_N y) mod modulus.
Proof.
  destruct y as [|e]; cbn [w_exp]; [reflexivity|]. rewrite pow_mod_spec, N2Z.inj_mod, N2Z.inj_pow by discriminate. reflexivity.
Qed.

Lemma w_not_z x : (x < W256)%N -> Z.of_N (w_not x) = Z.lnot (Z.of_N x) mod modulus.
Proof.
  intros H. unfold w_not, Z.lnot. rewrite <- (Z.mod_add _ 1) by discriminate.
  assert (Q := W256_z). revert H Q. generalize W256, modulus. intros W M H Q. rewrite Z.mod_small; lia.
Qed.

Lemma gtb_z x y : (Z.of_N x >? Z.of_N y) = (y <? x)%N.
Proof. rewrite Z.gtb_ltb. apply ltb_z. Qed.

Lemma land_z x y : Z.of_N (N.land x y) = Z.land (Z.of_N x) (Z.of_N y).
Proof. destruct x, y; reflexivity. Qed.
Lemma lor_z x y : Z.of_N (N.lor x y) = Z.lor (Z.of_N x) (Z.of_N y).
Proof. destruct x, y; reflexivity. Qed.
Lemma lxor_z x y : Z.of_N (N.lxor x y) = Z.lxor (Z.of_N x) (Z.of_N y).
Proof. destruct x, y; try reflexivity. Qed.

Lemma land_word x y : (x < W256)%N -> (N.land x y < W256)%N.
Proof. intros H. apply lt_bits. intros i L. rewrite N.land_spec, (bits_lt x 256 i H L). reflexivity. Qed.
Lemma lor_word x y : (x < W256)%N -> (y < W256)%N -> (N.lor x y < W256)%N.
Proof. intros H K. apply lt_bits. intros i L. rewrite N.lor_spec, (bits_lt x 256 i H L), (bits_lt y 256 i K L). reflexivity. Qed.
Lemma lxor_word x y : (x < W256)%N -> (y < W256)%N -> (N.lxor x y < W256)%N.
Proof. intros H K. apply lt_bits. intros i L. rewrite N.lxor_spec, (bits_lt x 256 i H L), (bits_lt y 256 i K L). reflexivity. Qed.

Lemma w_byte_z k x : Z.of_N (w_byte k x) = if Z.of_N k <? 32 then (Z.of_N x / 256 ^ (31 - Z.of_N k)) mod 256 else 0.
Proof.
  unfold w_byte. change 32 with (Z.of_N 32). rewrite ltb_z. destruct (N.ltb_spec k 32) as [L|L]; [|reflexivity].
  rewrite N2Z.inj_mod, N2Z.inj_div, N2Z.inj_pow, N2Z.inj_mul, N2Z.inj_sub by (try discriminate; lia).
  change (Z.of_N 31) with 31. change (Z.of_N 8) with 8. change (Z.of_N 2) with 2. change (Z.of_N 256) with 256.
  rewrite Z.pow_mul_r by lia. reflexivity.
Qed.

Lemma w_shl_z k x : Z.of_N (w_shl k x) = (Z.of_N x * 2 ^ Z.of_N k) mod modulus.
Proof.
  unfold w_shl. destruct (N.ltb_spec k 256) as [L|L].
  - rewrite N2Z.inj_mod, N2Z.inj_mul, N2Z.inj_pow by discriminate. reflexivity.
  - symmetry. replace (Z.of_N k) with (256 + (Z.of_N k - 256)) by lia. rewrite Z.pow_add_r by lia.
    change (2 ^ 256) with modulus. rewrite Z.mul_assoc, (Z.mul_comm (Z.of_N x)), <- Z.mul_assoc, Z.mul_comm.
    apply Z.mod_mul. discriminate.
Qed.
Lemma w_shr_z k x : (x < W256)%N -> Z.of_N (w_shr k x) = Z.of_N x / 2 ^ Z.of_N k.
Proof.
  intros H. unfold w_shr. destruct (N.ltb_spec k 256) as [L|L].
  - rewrite N2Z.inj_div, N2Z.inj_pow. reflexivity.
  - symmetry. apply Z.div_small. split; [lia|]. apply Z.lt_le_trans with modulus; [rewrite <- W256_z; lia|].
    change modulus with (2 ^ 256). apply Z.pow_le_mono_r; lia.
Qed.
Lemma as_signed_bounds x : (x < W256)%N -> - 2 ^ 255 <= as_signed (Z.of_N x) < 2 ^ 255.
Proof.
  intros H. assert (0 <= Z.of_N x < modulus) by (rewrite <- W256_z; lia). unfold as_signed.
  assert (modulus = 2 * 2 ^ 255) by reflexivity.
  destruct (Z.ltb_spec (Z.of_N x) (2 ^ 255)); lia.
Qed.
Lemma w_sar_z k x : (x < W256)%N -> Z.of_N (w_sar k x) = (as_signed (Z.of_N x) / 2 ^ Z.of_N k) mod modulus.
Proof.
  intros H. unfold w_sar. rewrite signed_z. assert (Bs := as_signed_bounds x H). set (s := as_signed (Z.of_N x)) in *.
  destruct (N.ltb_spec 256 k) as [L|L].
  - assert (P : 2 ^ 255 <= 2 ^ Z.of_N k) by (apply Z.pow_le_mono_r; lia).
    destruct (Z.leb_spec 0 s).
    + rewrite Z.div_small by lia. reflexivity.
    + assert (E : s / 2 ^ Z.of_N k = -1).
      { assert (2 ^ 255 < 2 ^ Z.of_N k) by (apply Z.pow_lt_mono_r; lia).
        symmetry. apply Z.div_unique with (s + 2 ^ Z.of_N k); [left; lia|lia]. }
      rewrite E. reflexivity.
  - rewrite unsigned_z, Z.shiftr_div_pow2 by lia. reflexivity.
Qed.

Lemma high_bits b i : (b < 256)%N -> N.testbit (W256 - 2 ^ b) i = ((b <=? i)%N && (i <? 256)%N)%bool.
Proof.
  intros L. assert (E : (W256 - 2 ^ b = N.ones (256 - b) * 2 ^ b)%N).
  { rewrite N.ones_equiv. replace (N.pred (2 ^ (256 - b))) with (2 ^ (256 - b) - 1)%N by lia.
    rewrite N.mul_sub_distr_r, <- N.pow_add_r. replace (256 - b + b)%N with 256%N by lia. rewrite N.mul_1_l. reflexivity. }
  rewrite E. destruct (N.leb_spec b i) as [Li|Li]; cbn [andb].
  - rewrite N.mul_pow2_bits_high by exact Li.
    destruct (N.ltb_spec i 256) as [Lj|Lj].
    + apply N.ones_spec_low. lia.
    + apply N.ones_spec_high. lia.
  - apply N.mul_pow2_bits_low, Li.
Qed.
Lemma extend_set b x : (b < 256)%N -> (x < W256)%N ->
  N.lor x (W256 - 2 ^ b) = (x mod 2 ^ b + (W256 - 2 ^ b))%N.
Proof.
  intros L H. rewrite N.add_nocarry_lxor.
  - apply N.bits_inj. intros i. rewrite N.lor_spec, N.lxor_spec, high_bits by exact L.
    destruct (N.leb_spec b i) as [Li|Li].
    + rewrite N.mod_pow2_bits_high by exact Li. cbn [andb]. destruct (N.ltb_spec i 256) as [Lj|Lj]; [now rewrite orb_true_r|].
      rewrite (bits_lt x 256 i H Lj). reflexivity.
    + rewrite N.mod_pow2_bits_low by exact Li. cbn [andb]. now rewrite orb_false_r, xorb_false_r.
  - apply N.bits_inj. intros i. rewrite N.land_spec, high_bits, N.bits_0 by exact L.
    destruct (N.leb_spec b i) as [Li|Li]; [|now rewrite andb_false_r].
    rewrite N.mod_pow2_bits_high by exact Li. reflexivity.
Qed.
Lemma wrap_low W M r p : Z.of_N W = M -> (r < p)%N -> (p * 2 <= W)%N ->
  Z.of_N (r + (W - p)) = (Z.of_N (r + p) - Z.of_N (2 * p)) mod M.
Proof.
  intros E L H. rewrite <- (Z.mod_add _ 1) by lia. rewrite Z.mod_small; lia.
Qed.
Lemma keep_low W M r p : Z.of_N W = M -> (r < p)%N -> (p * 2 <= W)%N -> Z.of_N r = Z.of_N r mod M.
Proof. intros E L H. rewrite Z.mod_small; lia. Qed.
Lemma w_signextend_z k x : (x < W256)%N -> Z.of_N (w_signextend k x) = extend (Z.of_N k) (Z.of_N x).
Proof.
  intros H. unfold w_signextend, extend.
  assert (Hx : 0 <= Z.of_N x < modulus) by (rewrite <- W256_z; lia).
  destruct (N.ltb_spec 31 k) as [L|L].
  { destruct (Z.leb_spec 31 (Z.of_N k)); [reflexivity|lia]. }
  set (b := (8 * k + 7)%N). assert (Lb : (b < 256)%N) by (unfold b; lia).
  (* the low part, and its highest bit *)
  assert (Eb : (x mod 2 ^ (b + 1) = x mod 2 ^ b + (if N.testbit x b then 2 ^ b else 0))%N).
  { rewrite N.pow_add_r, N.pow_1_r. rewrite (N.mod_mul_r x (2 ^ b) 2); [|apply N.pow_nonzero; discriminate|discriminate].
    rewrite N.testbit_eqb. destruct (N.eqb_spec ((x / 2 ^ b) mod 2) 1) as [E|E].
    - rewrite E. lia.
    - assert (Q := N.mod_lt (x / 2 ^ b) 2 ltac:(discriminate)). 
      set (q := ((x / 2 ^ b) mod 2)%N) in *. assert (Eq : q = 0%N) by (clearbody q; lia). rewrite Eq. lia. }
  assert (Lm := N.mod_lt x (2 ^ b) ltac:(apply N.pow_nonzero; discriminate)).
  assert (P1 : (2 ^ (b + 1) = 2 * 2 ^ b)%N) by (rewrite N.pow_add_r, N.pow_1_r; lia).
  assert (P2 : (2 ^ b * 2 <= W256)%N).
  { rewrite N.mul_comm, <- P1. apply N.pow_le_mono_r; [discriminate|lia]. }
  destruct (Z.leb_spec 31 (Z.of_N k)) as [K|K].
  - assert (Ek : b = 255%N) by (unfold b; lia). rewrite Ek in *.
    assert (Ex : (x mod 2 ^ (255 + 1) = x)%N) by (apply N.mod_small; exact H).
    rewrite Ex in Eb. destruct (N.testbit x 255) eqn:T.
    + rewrite extend_set by (try exact H; lia). rewrite Eb at 2.
      replace (W256 - 2 ^ 255)%N with (2 ^ 255)%N by reflexivity. reflexivity.
    + rewrite Eb at 2. rewrite N.add_0_r. reflexivity.
  - set (m := 2 ^ (8 * (Z.of_N k + 1))).
    assert (Em : m = Z.of_N (2 ^ (b + 1))).
    { unfold m. rewrite N2Z.inj_pow. f_equal. unfold b. lia. }
    assert (Eh : m / 2 = Z.of_N (2 ^ b)).
    { rewrite Em, P1, N2Z.inj_mul. change (Z.of_N 2) with 2. rewrite Z.mul_comm. apply Z.div_mul. discriminate. }
    assert (El : Z.of_N x mod m = Z.of_N (x mod 2 ^ (b + 1))).
    { rewrite Em, N2Z.inj_mod. reflexivity. }
    rewrite El, Eh, Eb. rewrite ltb_z. rewrite Em.
    destruct (N.testbit x b) eqn:T.
    + destruct (N.ltb_spec (x mod 2 ^ b + 2 ^ b) (2 ^ b)) as [Q|Q]; [exfalso; clear - Q; lia|].
      rewrite extend_set by assumption. rewrite P1. apply wrap_low; [exact W256_z|exact Lm|exact P2].
    + rewrite N.add_0_r. destruct (N.ltb_spec (x mod 2 ^ b) (2 ^ b)) as [Q|Q]; [|exfalso; clear - Q Lm; lia].
      eapply keep_low; [exact W256_z|exact Lm|exact P2].
Qed.

Lemma w_addmod_z x y z : Z.of_N (w_addmod x y z) = if Z.of_N z =? 0 then 0 else (Z.of_N x + Z.of_N y) mod Z.of_N z.
Proof. unfold w_addmod. rewrite eqb0_z. destruct (N.eqb_spec z 0) as [E|E]; [reflexivity|]. rewrite N2Z.inj_mod, N2Z.inj_add by exact E. reflexivity. Qed.
Lemma w_mulmod_z x y z : Z.of_N (w_mulmod x y z) = if Z.of_N z =? 0 then 0 else (Z.of_N x * Z.of_N y) mod Z.of_N z.
Proof. unfold w_mulmod. rewrite eqb0_z. destruct (N.eqb_spec z 0) as [E|E]; [reflexivity|]. rewrite N2Z.inj_mod, N2Z.inj_mul by exact E. reflexivity. Qed.
