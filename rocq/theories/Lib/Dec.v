(* Decimal printing (Go's %d and big.Int.String) and splitting at a separator. *)
From Verif Require Import Lib.Base Lib.Bytes.
From Coq Require Import NArith ZArith.
Open Scope Z_scope.

Fixpoint dec_fuel (f : nat) (x : Z) : bytes :=
  match f with
  | O => []
  | S f' => if x <? 10 then [Z.to_N (48 + x)] else dec_fuel f' (x / 10) ++ [Z.to_N (48 + x mod 10)]
  end.
Definition udec (x : Z) : bytes := dec_fuel (S (Z.to_nat (Z.log2 x))) x.
Definition dec (x : Z) : bytes := if x <? 0 then 45%N :: udec (- x) else udec x.

Definition undec (b : bytes) : Z := fold_left (fun acc c => 10 * acc + (Z.of_N c - 48)) b 0.

Definition is_digit (c : N) : bool := (48 <=? c)%N && (c <=? 57)%N.

Lemma undec_snoc b c : undec (b ++ [c]) = 10 * undec b + (Z.of_N c - 48).
Proof. unfold undec. rewrite fold_left_app. reflexivity. Qed.

Lemma undec_fuel f : forall x, 0 <= x < 2 ^ Z.of_nat f -> undec (dec_fuel f x) = x.
Proof.
  induction f as [|f IH]; intros x H.
  - cbn in *. lia.
  - cbn [dec_fuel]. destruct (Z.ltb_spec x 10) as [L|L].
    + unfold undec. cbn [fold_left]. rewrite Z2N.id by lia. lia.
    + rewrite undec_snoc, IH.
      * rewrite Z2N.id by (pose proof (Z.mod_pos_bound x 10 ltac:(lia)); lia). pose proof (Z.div_mod x 10 ltac:(lia)). lia.
      * split; [apply Z.div_pos; lia|]. apply Z.div_lt_upper_bound; [lia|].
        rewrite Nat2Z.inj_succ, Z.pow_succ_r in H by lia. lia.
Qed.

Lemma udec_bound x : 0 <= x -> 0 <= x < 2 ^ Z.of_nat (S (Z.to_nat (Z.log2 x))).
Proof.
  intro H. split; [exact H|]. rewrite Nat2Z.inj_succ, Z2Nat.id by apply Z.log2_nonneg.
  destruct (Z.eq_dec x 0) as [->|N]; [reflexivity|]. apply Z.log2_spec. lia.
Qed.
Lemma undec_udec x : 0 <= x -> undec (udec x) = x.
Proof. intro H. apply undec_fuel, udec_bound, H. Qed.

Lemma udec_inj x y : 0 <= x -> 0 <= y -> udec x = udec y -> x = y.
Proof. intros Hx Hy E. rewrite <- (undec_udec x), <- (undec_udec y) by assumption. congruence. Qed.

Lemma dec_fuel_digits f : forall x, 0 <= x -> Forall (fun c => is_digit c = true) (dec_fuel f x).
Proof.
  assert (D : forall d, 0 <= d < 10 -> is_digit (Z.to_N (48 + d)) = true).
  { intros d H. unfold is_digit. apply andb_true_intro. split; apply N.leb_le; lia. }
  induction f as [|f IH]; intros x H; cbn [dec_fuel]; [constructor|].
  destruct (Z.ltb_spec x 10) as [L|L].
  - constructor; [apply D; lia|constructor].
  - apply Forall_app. split; [apply IH, Z.div_pos; lia|]. constructor; [|constructor].
    apply D, Z.mod_pos_bound. lia.
Qed.
Lemma udec_digits x : 0 <= x -> Forall (fun c => is_digit c = true) (udec x).
Proof. apply dec_fuel_digits. Qed.

Lemma udec_nonempty x : udec x <> [].
Proof. unfold udec. cbn [dec_fuel]. destruct (x <? 10); [discriminate|]. intro E. apply app_eq_nil in E. destruct E; discriminate. Qed.

Lemma dec_fuel_len f : forall x n, 0 <= x < 10 ^ Z.of_nat (S n) -> (length (dec_fuel f x) <= S n)%nat.
Proof.
  induction f as [|f IH]; intros x n H; cbn [dec_fuel]; [cbn; lia|].
  destruct (Z.ltb_spec x 10) as [L|L]; [cbn; lia|]. rewrite app_length. cbn [length].
  destruct n as [|n]; [cbn in H; lia|].
  specialize (IH (x / 10) n). assert (0 <= x / 10 < 10 ^ Z.of_nat (S n)).
  { split; [apply Z.div_pos; lia|]. apply Z.div_lt_upper_bound; [lia|].
    rewrite (Nat2Z.inj_succ (S n)), Z.pow_succ_r in H by lia. lia. }
  specialize (IH H0). lia.
Qed.
Lemma udec_len x n : 0 <= x < 10 ^ Z.of_nat (S n) -> (length (udec x) <= S n)%nat.
Proof. apply dec_fuel_len. Qed.

Lemma dec_inj x y : dec x = dec y -> x = y.
Proof.
  assert (NoMinus : forall a b, 0 <= a -> udec a = 45%N :: b -> False).
  { intros a b H E. pose proof (udec_digits a H) as D. rewrite E in D. apply Forall_inv in D. discriminate D. }
  unfold dec. destruct (Z.ltb_spec x 0) as [L|L], (Z.ltb_spec y 0) as [M|M]; intro E.
  - assert (udec (- x) = udec (- y)) as F by congruence. apply udec_inj in F; lia.
  - exfalso. eapply NoMinus; [exact M|]. symmetry. exact E.
  - exfalso. eapply NoMinus; [exact L|]. exact E.
  - apply udec_inj; assumption.
Qed.

(* ---- splitting at the first separator ---- *)

Definition lacks (c : N) (b : bytes) : Prop := ~ In c b.

Lemma split_sep c a b r s : lacks c a -> lacks c b -> a ++ c :: r = b ++ c :: s -> a = b /\ r = s.
Proof.
  revert b. induction a as [|x a IH]; intros [|y b] Ha Hb E; cbn [app] in E.
  - split; congruence.
  - exfalso. apply Hb. left. congruence.
  - exfalso. apply Ha. left. congruence.
  - assert (x = y /\ a ++ c :: r = b ++ c :: s) as [-> F] by (split; congruence).
    destruct (IH b) as [-> ->]; [intro I; apply Ha; right; exact I|intro I; apply Hb; right; exact I|exact F|auto].
Qed.

Lemma digits_lack c b : is_digit c = false -> Forall (fun c => is_digit c = true) b -> lacks c b.
Proof. intros H F I. rewrite Forall_forall in F. specialize (F c I). cbv beta in F. congruence. Qed.

Lemma udec_lacks c x : 0 <= x -> is_digit c = false -> lacks c (udec x).
Proof. intros H D. apply digits_lack; [exact D|apply udec_digits; exact H]. Qed.
Lemma dec_lacks c x : is_digit c = false -> c <> 45%N -> lacks c (dec x).
Proof.
  intros D N. unfold dec. destruct (Z.ltb_spec x 0) as [L|L].
  - intros [E|I]; [congruence|]. exact (udec_lacks c (- x) ltac:(lia) D I).
  - apply udec_lacks; [lia|exact D].
Qed.

Lemma digits_last b : b <> [] -> Forall (fun c => is_digit c = true) b -> exists b' c, b = b' ++ [c] /\ is_digit c = true.
Proof.
  intros N F. destruct (exists_last N) as (b' & c & ->). exists b', c. split; [reflexivity|].
  apply Forall_app in F. destruct F as [_ F]. apply Forall_inv in F. exact F.
Qed.
Lemma udec_last x : 0 <= x -> exists b c, udec x = b ++ [c] /\ is_digit c = true.
Proof. intro H. apply digits_last; [apply udec_nonempty|apply udec_digits, H]. Qed.

Example dec_case : dec 1050 = [49; 48; 53; 48]%N /\ dec (-7) = [45; 55]%N /\ dec 0 = [48%N].
Proof. vm_compute. auto. Qed.
