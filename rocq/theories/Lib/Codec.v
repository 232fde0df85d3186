(* Byte codecs used by Go's encoding/binary: fixed-width little and big endian,
   uvarint, zig-zag varint; slicing. *)
From Verif Require Import Lib.Base Lib.Bytes.
From Coq Require Import NArith.
Open Scope Z_scope.

Definition blen (b : bytes) : Z := Z.of_nat (length b).

Lemma blen_app a b : blen (a ++ b) = blen a + blen b.
Proof. unfold blen. rewrite app_length. lia. Qed.
Lemma blen_nonneg a : 0 <= blen a.
Proof. unfold blen. lia. Qed.
Lemma blen_nil : blen [] = 0.
Proof. reflexivity. Qed.
Lemma blen_cons x a : blen (x :: a) = 1 + blen a.
Proof. unfold blen. cbn [length]. lia. Qed.

(* ---- little endian, n bytes (binary.LittleEndian.PutUint32/64) ---- *)
Fixpoint le (n : nat) (x : Z) : bytes :=
  match n with
  | O => []
  | S n' => Z.to_N (x mod 256) :: le n' (x / 256)
  end.

Fixpoint unle (b : bytes) : Z :=
  match b with
  | [] => 0
  | x :: b' => Z.of_N x + 256 * unle b'
  end.

Lemma le_length n x : length (le n x) = n.
Proof. revert x. induction n; intros; cbn [le length]; [reflexivity|]. rewrite IHn. reflexivity. Qed.

Lemma le_blen n x : blen (le n x) = Z.of_nat n.
Proof. unfold blen. rewrite le_length. reflexivity. Qed.

Lemma pow256_pos n : 0 < 256 ^ Z.of_nat n.
Proof. apply Z.pow_pos_nonneg; lia. Qed.

Lemma unle_le n x : unle (le n x) = x mod 256 ^ Z.of_nat n.
Proof.
  revert x. induction n as [|n IH]; intros x; cbn [le unle].
  - rewrite Z.pow_0_r, Z.mod_1_r. reflexivity.
  - rewrite IH. rewrite Z2N.id by (apply Z.mod_pos_bound; lia).
    replace (Z.of_nat (S n)) with (Z.of_nat n + 1) by lia.
    rewrite Z.pow_add_r, Z.pow_1_r by lia. rewrite (Z.mul_comm (256 ^ Z.of_nat n) 256).
    rewrite Z.rem_mul_r; [reflexivity|lia|apply pow256_pos].
Qed.

Lemma unle_le_small n x : 0 <= x < 256 ^ Z.of_nat n -> unle (le n x) = x.
Proof. intros H. rewrite unle_le. apply Z.mod_small. exact H. Qed.

(* ---- big endian (binary.BigEndian, big.Int.FillBytes) ---- *)
Definition be (n : nat) (x : Z) : bytes := rev (le n x).
Definition unbe (b : bytes) : Z := unle (rev b).

Lemma be_length n x : length (be n x) = n.
Proof. unfold be. rewrite rev_length. apply le_length. Qed.

Lemma unbe_be n x : unbe (be n x) = x mod 256 ^ Z.of_nat n.
Proof. unfold be, unbe. rewrite rev_involutive. apply unle_le. Qed.

Lemma be_inj n x y : 0 <= x < 256 ^ Z.of_nat n -> 0 <= y < 256 ^ Z.of_nat n -> be n x = be n y -> x = y.
Proof.
  intros Hx Hy E. apply (f_equal unbe) in E. rewrite !unbe_be in E.
  rewrite !Z.mod_small in E by assumption. exact E.
Qed.

Lemma be_S n x : be (S n) x = be n (x / 256) ++ [Z.to_N (x mod 256)].
Proof. reflexivity. Qed.

Lemma bcmp_app_same a b c : bcmp (a ++ b) (a ++ c) = bcmp b c.
Proof. induction a as [|x a IH]; [reflexivity|]. cbn. rewrite N.compare_refl. exact IH. Qed.

Lemma bcmp_app_diff a a' b c : length a = length a' -> bcmp a a' <> Eq -> bcmp (a ++ b) (a' ++ c) = bcmp a a'.
Proof.
  revert a'. induction a as [|x a IH]; intros [|y a'] Hl Hn; try discriminate; [exfalso; apply Hn; reflexivity|].
  cbn in *. destruct (N.compare x y); try reflexivity. apply IH; [lia|exact Hn].
Qed.

Lemma div_compare x y : 0 <= x -> 0 <= y ->
  (x ?= y) = match x / 256 ?= y / 256 with Eq => x mod 256 ?= y mod 256 | c => c end.
Proof.
  intros Hx Hy. pose proof (Z.div_mod x 256). pose proof (Z.div_mod y 256).
  pose proof (Z.mod_pos_bound x 256). pose proof (Z.mod_pos_bound y 256).
  destruct (Z.compare_spec (x / 256) (y / 256)) as [E|E|E].
  - destruct (Z.compare_spec (x mod 256) (y mod 256)); [apply Z.compare_eq_iff|apply Z.compare_lt_iff|apply Z.compare_gt_iff]; lia.
  - apply Z.compare_lt_iff. lia.
  - apply Z.compare_gt_iff. lia.
Qed.

(* byte order of fixed-width big endian numbers is numeric order *)
Lemma be_compare n x y : 0 <= x < 256 ^ Z.of_nat n -> 0 <= y < 256 ^ Z.of_nat n ->
  bcmp (be n x) (be n y) = (x ?= y).
Proof.
  revert x y. induction n as [|n IH]; intros x y Hx Hy.
  - cbn in *. assert (x = 0) by lia. assert (y = 0) by lia. subst. reflexivity.
  - replace (Z.of_nat (S n)) with (Z.of_nat n + 1) in * by lia.
    rewrite Z.pow_add_r, Z.pow_1_r in * by lia.
    rewrite !be_S. rewrite (div_compare x y) by lia.
    assert (0 <= x / 256 < 256 ^ Z.of_nat n) as Hx' by (split; [apply Z.div_pos; lia|apply Z.div_lt_upper_bound; lia]).
    assert (0 <= y / 256 < 256 ^ Z.of_nat n) as Hy' by (split; [apply Z.div_pos; lia|apply Z.div_lt_upper_bound; lia]).
    rewrite <- (IH _ _ Hx' Hy').
    destruct (bcmp (be n (x / 256)) (be n (y / 256))) eqn:E.
    + apply bcmp_eq in E. rewrite E, bcmp_app_same. cbn.
      rewrite Z2N.inj_compare by (apply Z.mod_pos_bound; lia).
      destruct (x mod 256 ?= y mod 256); reflexivity.
    + rewrite bcmp_app_diff; [exact E|rewrite !be_length; reflexivity|congruence].
    + rewrite bcmp_app_diff; [exact E|rewrite !be_length; reflexivity|congruence].
Qed.

(* ---- slices: data[off : off+len]; None = out of range panic ---- *)
Definition slice (data : bytes) (off len : Z) : option bytes :=
  if (0 <=? off) && (0 <=? len) && (off + len <=? blen data)
  then Some (firstn (Z.to_nat len) (skipn (Z.to_nat off) data)) else None.

Lemma slice_mid a b c off len : off = blen a -> len = blen b -> slice (a ++ b ++ c) off len = Some b.
Proof.
  intros -> ->. unfold slice. rewrite !blen_app.
  pose proof (blen_nonneg a). pose proof (blen_nonneg b). pose proof (blen_nonneg c).
  destruct ((0 <=? blen a) && (0 <=? blen b) && _) eqn:E; [|lia].
  unfold blen. rewrite !Nat2Z.id. rewrite skipn_app, skipn_all, Nat.sub_diag. cbn [app skipn].
  rewrite firstn_app, firstn_all, Nat.sub_diag. cbn [firstn]. rewrite app_nil_r. reflexivity.
Qed.

Lemma slice_end a b off len : off = blen a -> len = blen b -> slice (a ++ b) off len = Some b.
Proof. intros. rewrite <- (app_nil_r b) at 1. apply slice_mid; assumption. Qed.

Lemma slice_slice data off len b : slice data off len = Some b -> blen b = len.
Proof.
  unfold slice. destruct ((0 <=? off) && (0 <=? len) && (off + len <=? blen data)) eqn:E; [|discriminate].
  intros H. inversion H. unfold blen in *. rewrite firstn_length, skipn_length. lia.
Qed.

(* ---- uvarint (binary.PutUvarint): at most 10 bytes for a uint64 ---- *)
Fixpoint uvarint_fuel (fuel : nat) (x : Z) : bytes :=
  match fuel with
  | O => []
  | S f => if x <? 128 then [Z.to_N x] else Z.to_N (x mod 128 + 128) :: uvarint_fuel f (x / 128)
  end.
Definition uvarint (x : Z) : bytes := uvarint_fuel 10 x.

(* binary.Uvarint / ReadUvarint: value and rest; None on truncated input or
   overflow of 64 bits *)
Fixpoint read_uvarint_fuel (fuel : nat) (shift : Z) (acc : Z) (b : bytes) : option (Z * bytes) :=
  match fuel with
  | O => None
  | S f =>
      match b with
      | [] => None
      | x :: b' =>
          let x := Z.of_N x in
          if x <? 128 then
            (* the 10th byte may only be 0 or 1 *)
            if (Nat.eqb f 0) && (1 <? x) then None else Some (acc + x * 2 ^ shift, b')
          else read_uvarint_fuel f (shift + 7) (acc + (x - 128) * 2 ^ shift) b'
      end
  end.
Definition read_uvarint (b : bytes) : option (Z * bytes) := read_uvarint_fuel 10 0 0 b.

Lemma pow128_S f : 128 ^ Z.of_nat (S f) = 128 * 128 ^ Z.of_nat f.
Proof. replace (Z.of_nat (S f)) with (Z.succ (Z.of_nat f)) by lia. apply Z.pow_succ_r. lia. Qed.

(* remaining capacity when f bytes are left: values below 2 * 128^(f-1) *)
Lemma read_uvarint_ok f : forall x shift acc rest,
  0 <= x < 2 * 128 ^ Z.of_nat f -> 0 <= shift ->
  read_uvarint_fuel (S f) shift acc (uvarint_fuel (S f) x ++ rest) = Some (acc + x * 2 ^ shift, rest).
Proof.
  induction f as [|f IH]; intros x shift acc rest Hx Hs.
  - cbn in Hx. cbn [uvarint_fuel read_uvarint_fuel].
    destruct (x <? 128) eqn:E; [|lia]. cbn [app]. rewrite Z2N.id by lia. rewrite E.
    destruct (1 <? x) eqn:E1; [lia|]. reflexivity.
  - change (uvarint_fuel (S (S f)) x) with
      (if x <? 128 then [Z.to_N x] else Z.to_N (x mod 128 + 128) :: uvarint_fuel (S f) (x / 128)).
    destruct (x <? 128) eqn:E.
    + cbn [app read_uvarint_fuel]. rewrite Z2N.id by lia. rewrite E. reflexivity.
    + cbn [app]. remember (uvarint_fuel (S f) (x / 128) ++ rest) as tl eqn:Etl.
      change (read_uvarint_fuel (S (S f)) shift acc (Z.to_N (x mod 128 + 128) :: tl)) with
        (if Z.of_N (Z.to_N (x mod 128 + 128)) <? 128 then
           if (Nat.eqb (S f) 0) && (1 <? Z.of_N (Z.to_N (x mod 128 + 128))) then None
           else Some (acc + Z.of_N (Z.to_N (x mod 128 + 128)) * 2 ^ shift, tl)
         else read_uvarint_fuel (S f) (shift + 7) (acc + (Z.of_N (Z.to_N (x mod 128 + 128)) - 128) * 2 ^ shift) tl).
      pose proof (Z.mod_pos_bound x 128).
      rewrite Z2N.id by lia. destruct (x mod 128 + 128 <? 128) eqn:E2; [lia|].
      subst tl. rewrite pow128_S in Hx.
      rewrite IH; [|split; [apply Z.div_pos; lia|apply Z.div_lt_upper_bound; lia]|lia].
      f_equal. f_equal. rewrite Z.pow_add_r by lia. change (2 ^ 7) with 128.
      rewrite (Z.div_mod x 128) at 3 by lia. ring.
Qed.

Lemma read_uvarint_uvarint x rest : 0 <= x < 2 ^ 64 -> read_uvarint (uvarint x ++ rest) = Some (x, rest).
Proof.
  intros H. unfold read_uvarint, uvarint. rewrite read_uvarint_ok.
  - f_equal. f_equal. rewrite Z.pow_0_r. lia.
  - change (2 * 128 ^ Z.of_nat 9) with (2 ^ 64). exact H.
  - lia.
Qed.

Lemma uvarint_inj x y a b : 0 <= x < 2 ^ 64 -> 0 <= y < 2 ^ 64 ->
  uvarint x ++ a = uvarint y ++ b -> x = y /\ a = b.
Proof.
  intros Hx Hy E. apply (f_equal read_uvarint) in E.
  rewrite !read_uvarint_uvarint in E by assumption. inversion E. auto.
Qed.

(* binary.PutVarint: zig-zag then uvarint *)
Definition varint (x : Z) : bytes := uvarint (if x <? 0 then 2 * (- x) - 1 else 2 * x).

Lemma varint_inj x y a b : - 2 ^ 63 <= x < 2 ^ 63 -> - 2 ^ 63 <= y < 2 ^ 63 ->
  varint x ++ a = varint y ++ b -> x = y /\ a = b.
Proof.
  intros Hx Hy E. unfold varint in E. apply uvarint_inj in E.
  - destruct (x <? 0) eqn:E1; destruct (y <? 0) eqn:E2; destruct E as [E3 E4]; split; auto; lia.
  - destruct (x <? 0) eqn:E1; lia.
  - destruct (y <? 0) eqn:E1; lia.
Qed.

(* memiavl EncodeBytes and similar: uvarint length prefix *)
Definition lp (b : bytes) : bytes := uvarint (blen b) ++ b.

Lemma app_inj_len (a b c d : bytes) : blen a = blen c -> a ++ b = c ++ d -> a = c /\ b = d.
Proof.
  revert c. induction a as [|x a IH]; intros [|y c] Hl E; cbn [app] in *; try (rewrite ?blen_nil, ?blen_cons in Hl; pose proof (blen_nonneg a); pose proof (blen_nonneg c); lia).
  - auto.
  - exfalso. rewrite blen_nil, blen_cons in Hl. pose proof (blen_nonneg c). lia.
  - exfalso. rewrite blen_nil, blen_cons in Hl. pose proof (blen_nonneg a). lia.
  - inversion E; subst. rewrite !blen_cons in Hl. destruct (IH c) as [-> ->]; auto; lia.
Qed.

Lemma lp_inj a b x y : blen a < 2 ^ 64 -> blen b < 2 ^ 64 -> lp a ++ x = lp b ++ y -> a = b /\ x = y.
Proof.
  intros Ha Hb E. unfold lp in E. rewrite <- !app_assoc in E.
  pose proof (blen_nonneg a). pose proof (blen_nonneg b).
  apply uvarint_inj in E; [|lia|lia]. destruct E as [E1 E2].
  apply app_inj_len in E2; auto.
Qed.
