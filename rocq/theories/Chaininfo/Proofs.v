(* Rounding, and what is reported below the first threshold. *)
From Verif Require Import Lib.Base Chaininfo.Model Chaininfo.Spec.
Open Scope Z_scope.

Lemma year_eq : blocks_per_year = year.
Proof. reflexivity. Qed.

Lemma chop_exact : forall x, 0 <= x -> chop (x * one) = x.
Proof.
  intros x P. unfold chop, chop_pos. assert (0 < one) by reflexivity. destruct (Z.ltb_spec (x * one) 0); [nia|].
  rewrite Z_div_mult, Z_mod_mult by lia. reflexivity.
Qed.

Lemma chop_pos_near : forall x, 0 <= x ->
  2 * Z.abs (one * chop_pos x - x) < one \/ (2 * Z.abs (one * chop_pos x - x) = one /\ Z.Even (chop_pos x)).
Proof.
  intros x P. unfold chop_pos. change one with 1000000000000000000. change (1000000000000000000 / 2) with 500000000000000000.
  pose proof (Z.div_mod x 1000000000000000000 ltac:(lia)). pose proof (Z.mod_pos_bound x 1000000000000000000 ltac:(lia)).
  destruct (Z.ltb_spec (x mod 1000000000000000000) 500000000000000000); [lia|].
  destruct (Z.ltb_spec 500000000000000000 (x mod 1000000000000000000)); [lia|].
  destruct (Z.even (x / 1000000000000000000)) eqn:E.
  - right. split; [lia|]. apply Z.even_spec. exact E.
  - right. split; [lia|]. apply Z.even_spec. rewrite Z.add_1_r, Z.even_succ, <- Z.negb_even, E. reflexivity.
Qed.

(* a quotient by the blocks of a year is rounded to the nearest *)
Lemma quo_year : forall x, 0 <= x -> let q := chop (Z.quot (x * (one * one)) (blocks_per_year * one)) in nearest x year q /\ 0 <= q <= x + 1.
Proof.
  intros x P. cbv zeta. rewrite year_eq. assert (Z.quot (x * (one * one)) (year * one) = x * one / year) as ->.
  { rewrite Z.mul_assoc, Z.quot_mul_cancel_r by discriminate. apply Z.quot_div_nonneg; [|reflexivity]. change one with 1000000000000000000. lia. }
  pose proof (Z.div_mod (x * one) year ltac:(discriminate)) as D. pose proof (Z.mod_pos_bound (x * one) year ltac:(reflexivity)) as M.
  set (t := x * one / year) in *. set (r := (x * one) mod year) in *. assert (0 <= t) as T by (apply Z.div_pos; [change one with 1000000000000000000; lia|reflexivity]).
  unfold chop. destruct (Z.ltb_spec t 0); [lia|]. pose proof (chop_pos_near t T) as C. set (q := chop_pos t) in *. clearbody q t r.
  unfold nearest. change one with 1000000000000000000 in *. unfold year in *.
  split; [|lia]. destruct C as [C|(C & Ev)]; [|right; split; [lia|exact Ev]]. left. lia.
Qed.

Lemma nearest_one : forall n d q q', 0 < d -> nearest n d q -> nearest n d q' -> q = q'.
Proof.
  intros n d q q' P [A|(A & (k & ->))] [B|(B & (k' & ->))]; nia.
Qed.

Lemma quot_whole : forall x, 0 <= x -> whole x (Z.quot x one).
Proof.
  intros x P. rewrite Z.quot_div_nonneg by (try assumption; reflexivity). unfold whole. change (10 ^ 18) with one.
  pose proof (Z.div_mod x one ltac:(discriminate)). pose proof (Z.mod_pos_bound x one ltac:(reflexivity)). change one with 1000000000000000000 in *. lia.
Qed.

Lemma checked_ok : forall x y, checked x = Ok y -> y = Some x.
Proof. intros x y. unfold checked. destruct (_ <? _); congruence. Qed.
Lemma checked_small : forall x, 0 <= x < 2 ^ 315 -> checked x = Ok (Some x).
Proof. intros x B. unfold checked. destruct (Z.ltb_spec (Z.abs x) (2 ^ 315)); [reflexivity|lia]. Qed.

Lemma bind_ok : forall {A B} (x : res A) (f : A -> res B) b, bind x f = Ok b -> exists a, x = Ok a /\ f a = Ok b.
Proof. intros A B [a| |] f b E; cbn in E; try discriminate. exists a. auto. Qed.

(* the rewards of a phase per block *)
Lemma per_block_value : forall t e, 0 <= t -> 0 <= e -> exists q, nearest (t * e) year q /\ 0 <= q <= t * e + 1 /\
  (forall r, per_block t (Some e) = Ok r -> r = Some q) /\ (t * e + 1 < 2 ^ 315 -> per_block t (Some e) = Ok (Some q)).
Proof.
  intros t e T E. assert (chop (t * one * e) = t * e) as C by (replace (t * one * e) with (t * e * one) by lia; apply chop_exact; nia).
  assert (0 <= t * e) as P by nia. destruct (quo_year (t * e) P) as (N & B). exists (chop (Z.quot (t * e * (one * one)) (blocks_per_year * one))).
  split; [exact N|]. split; [exact B|]. unfold per_block, dmul, of_int. rewrite C. split.
  - intros r H. apply bind_ok in H as (y & Y & H). apply checked_ok in Y. subst y. cbn [dquo] in H.
    change (blocks_per_year * one =? 0) with false in H. apply checked_ok in H. exact H.
  - intro S1. rewrite checked_small by lia. cbn [bind dquo]. change (blocks_per_year * one =? 0) with false. cbv iota. apply checked_small. lia.
Qed.

(* adding to nothing *)
Lemma no_sum : forall blocks supply s r l x, sum_phases None blocks supply ((s, r) :: l) <> Ok x.
Proof.
  intros blocks supply s r l x E. cbn [sum_phases] in E. apply bind_ok in E as (a & _ & E). apply bind_ok in E as (b & _ & E).
  apply bind_ok in E as (d & _ & E). discriminate.
Qed.
