(* C120: what the chain reports about its coin. *)
From Verif Require Import Lib.Base Chaininfo.Model Chaininfo.Spec Chaininfo.Proofs.
Open Scope Z_scope.

Section Claims.
Variables t1 t2 t3 : Z.

(* With a supply below the first threshold the answer is: the supply; the yearly provisions
   and the share of a block in them, rounded to 18 decimals and then down; for the rewards
   since genesis the height times the share of a block in the early rate of the threshold;
   and for the genesis supply the supply without these rewards, if any is left. *)
Theorem C120_below_threshold : forall c mi e g m, 0 < t1 <= t2 -> t2 <= t3 < 2 ^ 128 -> ordinary c mi e g m -> 0 < c_supply c < t1 ->
  exists i p q, coin_info t1 t2 t3 c = Ok i /\ i_supply i = c_supply c /\ i_height i = c_height c /\ i_inflation i = 100 * mi_inflation mi /\
    whole (mi_provisions mi) (i_per_year i) /\ nearest (mi_provisions mi) year p /\ whole p (i_per_block i) /\
    nearest (t1 * e) year q /\ whole (q * c_height c) (i_rewards i) /\
    (i_rewards i < c_supply c -> i_genesis i + i_rewards i = c_supply c) /\
    (c_supply c <= i_rewards i -> i_genesis i = c_supply c / 2).
Proof.
  intros c mi e g m T12 T3 (Hd & Hm & He & Hg & Hma & Be & Bg & Bm & Bh & Bp & Bi) Su.
  change (10 ^ 18) with 1000000000000000000 in *.
  change (2 ^ 128) with 340282366920938463463374607431768211456 in T3. change (2 ^ 63) with 9223372036854775808 in Bh.
  destruct (per_block_value t1 e ltac:(lia) ltac:(lia)) as (q & Nq & Bq & _ & Pq).
  destruct (per_block_value t2 g ltac:(lia) ltac:(lia)) as (q2 & _ & _ & _ & P2).
  destruct (per_block_value t3 m ltac:(lia) ltac:(lia)) as (q3 & _ & _ & _ & P3).
  assert (forall t r, 0 <= t < 340282366920938463463374607431768211456 -> 0 <= r <= 1000000000000000000 -> t * r + 1 < 2 ^ 190) as Small.
  { intros t r Bt Br. apply Z.le_lt_trans with (340282366920938463463374607431768211456 * 1000000000000000000 + 1); [nia|reflexivity]. }
  assert (2 ^ 190 < 2 ^ 315) as W by reflexivity.
  pose proof (Small t1 e ltac:(lia) ltac:(lia)) as S1. pose proof (Small t2 g ltac:(lia) ltac:(lia)) as S2. pose proof (Small t3 m ltac:(lia) ltac:(lia)) as S3.
  specialize (Pq ltac:(lia)). specialize (P2 ltac:(lia)). specialize (P3 ltac:(lia)).
  destruct (quo_year (mi_provisions mi) ltac:(lia)) as (Np & Bpp). set (p := chop (Z.quot (mi_provisions mi * (one * one)) (blocks_per_year * one))) in *.
  assert (dquo (Some (mi_provisions mi)) (of_int blocks_per_year) = Ok (Some p)) as Ep.
  { unfold dquo, of_int. change (blocks_per_year * one =? 0) with false. cbv iota. fold p. apply checked_small. assert (2 ^ 200 + 1 < 2 ^ 315) by reflexivity. lia. }
  assert (rewards t1 t2 t3 c (c_supply c) (c_height c) = Ok (Z.quot (q * c_height c) one)) as Er.
  { unfold rewards. rewrite He, Hg, Hma, Pq, P2, P3. destruct (Z.eqb_spec (c_supply c) 0); [lia|]. cbn [bind].
    destruct (Z.ltb_spec (c_supply c) t1); [|lia]. unfold dmul, of_int. replace (q * (c_height c * one)) with (q * c_height c * one) by lia.
    rewrite chop_exact by nia. rewrite checked_small; [reflexivity|]. split; [nia|]. apply Z.lt_trans with (2 ^ 190 * 2 ^ 63); [|reflexivity]. change (2 ^ 63) with 9223372036854775808.
    assert (q < 2 ^ 190) by lia. set (b := 2 ^ 190) in *. clearbody b. nia. }
  unfold coin_info. rewrite Hd, Hm, Ep. cbn [negb bind trunc]. destruct (Z.eqb_spec (c_supply c) 0); [lia|]. rewrite Z.max_r by lia. rewrite Er. cbn [bind].
  rewrite checked_small. 2:{ change (2 ^ 64) with 18446744073709551616 in Bi. split; [lia|]. apply Z.lt_trans with (18446744073709551616 * 100); [lia|reflexivity]. }
  cbn [bind]. eexists. exists p, q. split; [reflexivity|]. cbn [i_supply i_per_block i_rewards i_genesis i_inflation i_per_year i_height].
  clear Pq P2 P3 Small W S1 S2 S3 Ep Er Hd Hm He Hg Hma Bg Bm Bi T3. assert (0 <= q * c_height c) as Pw by (apply Z.mul_nonneg_nonneg; apply Bq || apply Bh).
  split; [reflexivity|]. split; [reflexivity|]. split; [apply Z.mul_comm|]. split; [apply quot_whole; apply Bp|]. split; [exact Np|]. split; [apply quot_whole; apply Bpp|].
  split; [exact Nq|]. split; [apply quot_whole; exact Pw|]. set (w := Z.quot (q * c_height c) one). clearbody w. clear - Su. split.
  - intro L. destruct (Z.ltb_spec w (c_supply c)); lia.
  - intro L. destruct (Z.ltb_spec w (c_supply c)); [lia|]. apply Z.quot_div_nonneg; lia.
Qed.

(* Without any supply everything is zero. *)
Theorem C120_no_supply : forall c, c_denom c = true -> c_supply c = 0 -> coin_info t1 t2 t3 c = Ok (mk_info 0 0 0 0 0 0 (c_height c)).
Proof. intros c D E. unfold coin_info. rewrite D, E. reflexivity. Qed.

(* Where the denomination or the minter cannot be read there is an error. *)
Theorem C120_errors : forall c, c_denom c = false \/ (c_supply c <> 0 /\ c_minter c = None) -> coin_info t1 t2 t3 c = Err.
Proof.
  intros c [D|(S0 & M)]; unfold coin_info; [rewrite D; reflexivity|]. destruct (c_denom c); cbn [negb]; [|reflexivity].
  destruct (Z.eqb_spec (c_supply c) 0); [contradiction|]. rewrite M. reflexivity.
Qed.

(* A supply at or above the first threshold is never answered: the sum of the phases starts
   from a decimal without a value. *)
Theorem C120_never_above_refuted : forall c i, 0 < t1 <= c_supply c -> coin_info t1 t2 t3 c <> Ok i.
Proof.
  intros c i T E. unfold coin_info in E. destruct (c_denom c); cbn [negb] in E; [|discriminate]. destruct (Z.eqb_spec (c_supply c) 0); [lia|].
  destruct (c_minter c) as [mi|]; [|discriminate]. apply bind_ok in E as (r & _ & E). apply bind_ok in E as (w & Ew & _).
  unfold rewards in Ew. destruct (Z.eqb_spec (c_supply c) 0); [lia|]. apply bind_ok in Ew as (e & _ & Ew). apply bind_ok in Ew as (g & _ & Ew). apply bind_ok in Ew as (m & _ & Ew).
  destruct (Z.ltb_spec (c_supply c) t1); [lia|]. cbv zeta in Ew. apply bind_ok in Ew as (tot & Et & _). revert Et.
  destruct (c_supply c <? t2); [apply no_sum|]. destruct (c_supply c <? t3); apply no_sum.
Qed.

(* And it is a panic, not an error, whenever everything can be read. *)
Theorem C120_panics_above_refuted : forall c mi, 0 < t1 <= c_supply c -> c_denom c = true -> c_minter c = Some mi -> coin_info t1 t2 t3 c = Panic.
Proof.
  intros c mi T D M. destruct (coin_info t1 t2 t3 c) as [i| |] eqn:E; [destruct (C120_never_above_refuted c i T E)| |reflexivity].
  exfalso. revert E. unfold coin_info. rewrite D, M. cbn [negb]. destruct (Z.eqb_spec (c_supply c) 0); [lia|].
  assert (forall x, checked x <> Err) as K by (intros x; unfold checked; destruct (_ <? _); discriminate).
  assert (forall x y, dmul x y <> Err) as Km by (intros [x|] [y|]; cbn [dmul]; try discriminate; apply K).
  assert (forall x y, dquo x y <> Err) as Kq by (intros [x|] [y|]; cbn [dquo]; try discriminate; destruct (_ =? _); [discriminate|apply K]).
  assert (forall x y, dadd x y <> Err) as Ka by (intros [x|] [y|]; cbn [dadd]; try discriminate; apply K).
  assert (forall x, trunc x <> Err) as Kt by (intros [x|]; discriminate).
  assert (forall (A B : Type) (x : res A) (f : A -> res B), x <> Err -> (forall a, f a <> Err) -> bind x f <> Err) as Kb.
  { intros A B [a| |] f N F'; cbn [bind]; [apply F'|contradiction|discriminate]. }
  assert (forall t r, per_block t r <> Err) as Kp by (intros; unfold per_block; apply Kb; auto).
  assert (forall l tot b s, sum_phases tot b s l <> Err) as Ks.
  { induction l as [|(s, r) l IH]; intros tot b su; cbn [sum_phases]; [discriminate|]. repeat (apply Kb; [auto|intro]). apply IH. }
  apply Kb; [apply Kb; auto|]. intro r. apply Kb.
  - unfold rewards. destruct (_ =? _); [discriminate|]. repeat (apply Kb; [auto|intro]). destruct (_ <? _); [apply Kb; auto|]. cbv zeta. apply Kb; [destruct (_ <? _); [|destruct (_ <? _)]; apply Ks|].
    intro tot. destruct (_ <=? _); [|apply Kt]. repeat (apply Kb; [auto|intro]). apply Kt.
  - intro w. apply Kb; [apply K|]. intros [i|]; discriminate.
Qed.

(* A rate that cannot be read ends the answer even where it is not needed. *)
Theorem C120_unneeded_rate_refuted : forall c i, c_supply c <> 0 -> c_growth c = None \/ c_mature c = None -> coin_info t1 t2 t3 c <> Ok i.
Proof.
  intros c i Z0 R E. unfold coin_info in E. destruct (c_denom c); cbn [negb] in E; [|discriminate]. destruct (Z.eqb_spec (c_supply c) 0); [lia|].
  destruct (c_minter c) as [mi|]; [|discriminate]. apply bind_ok in E as (r & _ & E). apply bind_ok in E as (w & Ew & _).
  unfold rewards in Ew. destruct (Z.eqb_spec (c_supply c) 0); [lia|]. apply bind_ok in Ew as (e & _ & Ew). apply bind_ok in Ew as (g & Eg & Ew). apply bind_ok in Ew as (m & Em & _).
  destruct R as [R|R]; [rewrite R in Eg; discriminate Eg|rewrite R in Em; discriminate Em].
Qed.

(* The reported genesis supply falls from block to block although neither the supply nor
   the genesis changes. *)
Theorem C120_genesis_supply_moves_refuted : forall c mi e g m, 0 < t1 <= t2 -> t2 <= t3 < 2 ^ 128 -> ordinary c mi e g m -> 0 < c_supply c < t1 ->
  (10 ^ 18 + 1) * year <= t1 * e ->
  forall c' i i', ordinary c' mi e g m -> c_supply c' = c_supply c -> c_height c < c_height c' ->
  coin_info t1 t2 t3 c = Ok i -> coin_info t1 t2 t3 c' = Ok i' -> i_rewards i' < c_supply c -> i_genesis i' < i_genesis i.
Proof.
  intros c mi e g m T12 T3 Oc Su Big c' i i' Oc' Es Hh E E' L. pose proof Oc as Oc0. destruct Oc0 as (_ & _ & _ & _ & _ & _ & _ & _ & Bh & _).
  destruct (C120_below_threshold c mi e g m T12 T3 Oc Su) as (j & p & q & Ej & _ & _ & _ & _ & _ & _ & Nq & Wq & G & _).
  destruct (C120_below_threshold c' mi e g m T12 T3 Oc' ltac:(lia)) as (j' & p' & q' & Ej' & _ & _ & _ & _ & _ & _ & Nq' & Wq' & G' & _).
  assert (j = i) by congruence. assert (j' = i') by congruence. subst j j'. unfold whole in *. unfold year in Big. change (10 ^ 18) with 1000000000000000000 in *.
  assert (1000000000000000000 <= q') as Lq by (unfold nearest, year in Nq'; lia).
  assert (q = q') as -> by (refine (nearest_one _ _ _ _ _ Nq Nq'); reflexivity).
  assert (i_rewards i < i_rewards i') as Lw by (assert (q' * c_height c + 1000000000000000000 <= q' * c_height c') by nia; lia).
  specialize (G' ltac:(lia)). specialize (G ltac:(lia)). lia.
Qed.

(* Where the reported rewards reach the supply, half of the supply is called the genesis
   supply, and the two are more than the whole. *)
Theorem C120_half_refuted : forall c mi e g m i, 0 < t1 <= t2 -> t2 <= t3 < 2 ^ 128 -> ordinary c mi e g m -> 2 <= c_supply c < t1 ->
  coin_info t1 t2 t3 c = Ok i -> c_supply c <= i_rewards i -> i_genesis i = c_supply c / 2 /\ i_supply i < i_genesis i + i_rewards i.
Proof.
  intros c mi e g m i T12 T3 Oc Su E L. destruct (C120_below_threshold c mi e g m T12 T3 Oc ltac:(lia)) as (j & p & q & Ej & Sj & _ & _ & _ & _ & _ & _ & _ & _ & H).
  assert (j = i) by congruence. subst j. specialize (H L). split; [exact H|]. rewrite H, Sj. pose proof (Z.div_le_lower_bound (c_supply c) 2 1 ltac:(lia) ltac:(lia)). lia.
Qed.

(* The reported rewards do not depend on what was minted or on the supply. *)
Theorem C120_rewards_not_counted_refuted : forall c mi e g m c' mi' i i', 0 < t1 <= t2 -> t2 <= t3 < 2 ^ 128 -> ordinary c mi e g m -> ordinary c' mi' e g m ->
  0 < c_supply c < t1 -> 0 < c_supply c' < t1 -> c_height c' = c_height c ->
  coin_info t1 t2 t3 c = Ok i -> coin_info t1 t2 t3 c' = Ok i' -> i_rewards i = i_rewards i'.
Proof.
  intros c mi e g m c' mi' i i' T12 T3 Oc Oc' Su Su' Eh E E'.
  destruct (C120_below_threshold c mi e g m T12 T3 Oc Su) as (j & p & q & Ej & _ & _ & _ & _ & _ & _ & Nq & Wq & _).
  destruct (C120_below_threshold c' mi' e g m T12 T3 Oc' Su') as (j' & p' & q' & Ej' & _ & _ & _ & _ & _ & _ & Nq' & Wq' & _).
  assert (j = i) by congruence. assert (j' = i') by congruence. subst j j'.
  assert (q = q') as -> by (refine (nearest_one _ _ _ _ _ Nq Nq'); reflexivity). rewrite Eh in Wq'. unfold whole in *. change (10 ^ 18) with 1000000000000000000 in *. lia.
Qed.
End Claims.
Print Assumptions C120_below_threshold.
Print Assumptions C120_no_supply.
Print Assumptions C120_errors.
Print Assumptions C120_never_above_refuted.
Print Assumptions C120_panics_above_refuted.
Print Assumptions C120_unneeded_rate_refuted.
Print Assumptions C120_genesis_supply_moves_refuted.
Print Assumptions C120_half_refuted.
Print Assumptions C120_rewards_not_counted_refuted.

(* ---- a case: thresholds of one, two and five billion coins, a rate of 15 % ---- *)
Definition coins (n : Z) : Z := n * 10 ^ 18.
Definition a_chain (supply height : Z) : chain :=
  mk_chain true supply (Some (mk_minter (coins (coins 75000000)) (15 * 10 ^ 16))) height (Some (15 * 10 ^ 16)) (Some (12 * 10 ^ 16)) (Some (5 * 10 ^ 16)) (Some (3 * 10 ^ 16)).
Definition ask (supply height : Z) := coin_info (coins 1000000000) (coins 2000000000) (coins 5000000000) (a_chain supply height).
Example C120_case :
  ordinary (a_chain (coins 500000000) 1000) (mk_minter (coins (coins 75000000)) (15 * 10 ^ 16)) (15 * 10 ^ 16) (12 * 10 ^ 16) (5 * 10 ^ 16) /\
  (10 ^ 18 + 1) * year <= coins 1000000000 * (15 * 10 ^ 16) /\
  ask (coins 500000000) 1000 =
    Ok (mk_info 500000000000000000000000000 11891171993911719939 23782343987823439878234 499976217656012176560121766 15000000000000000000 75000000000000000000000000 1000) /\
  ask (coins 500000000) 2000 =
    Ok (mk_info 500000000000000000000000000 11891171993911719939 47564687975646879756468 499952435312024353120243532 15000000000000000000 75000000000000000000000000 2000) /\
  ask (coins 1000000000) 1000 = Panic /\ ask (coins 6000000000) 0 = Panic /\
  (exists i, ask 100 7 = Ok i /\ i_genesis i = 50 /\ 100 <= i_rewards i).
Proof.
  split; [unfold ordinary; cbn -[Z.pow Z.mul]; repeat match goal with |- _ /\ _ => split end; try reflexivity; vm_compute; congruence|].
  split; [vm_compute; congruence|]. repeat match goal with |- _ /\ _ => split end; try (vm_compute; reflexivity).
  eexists. split; [vm_compute; reflexivity|]. split; [reflexivity|]. vm_compute. congruence.
Qed.
