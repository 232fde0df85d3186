From Verif Require Import Lib.Base Feemarket.Model Feemarket.Spec Feemarket.Proofs.
Open Scope Z_scope.

(* ---------------- C22: EIP-1559 base fee ---------------- *)

Definition demo : params :=
  Params false 100 2 (Some (10 ^ 27)) 0 (Some (10 ^ 27)) (Some (5 * 10 ^ 17)).

(* For accepted parameters with a non-zero elasticity and target, the base fee
   of the next block is exactly the EIP-1559 value. *)
Theorem C22_base_fee_is_eip1559 :
  forall p height max_gas gas_wanted b floor,
  validate p = Ok tt -> no_base_fee p = false -> enable_height p < height ->
  base_fee p = Some b -> min_gas_price p = Some floor ->
  0 < elasticity p -> 0 < denominator p -> 0 <= gas_wanted ->
  (forall x, max_gas = Some x -> x <= 2 ^ 63 - 1) ->
  let limit := match max_gas with Some x => if -1 <? x then x else 2 ^ 64 - 1 | None => 2 ^ 64 - 1 end in
  0 < limit / elasticity p ->
  forall r, calculate_base_fee p height max_gas gas_wanted = Ok r ->
  r = Some (eip1559_next b gas_wanted (limit / elasticity p) (denominator p) floor).
Proof.
  intros p h mg w b m Hv Hn He Hb Hm Hel Hd Hw Hmg limit Ht r.
  destruct (validate_ok p Hv) as (_ & (b' & Hb' & Hb0) & _).
  assert (b' = b) by congruence; subst b'.
  exact (calc_unfold p h mg w b m (conj Hn He) Hb Hm Hel Hd Hb0 Hw Hmg Ht r).
Qed.
Print Assumptions C22_base_fee_is_eip1559.

Example C22_base_fee_is_eip1559_ex :
  validate demo = Ok tt /\
  calculate_base_fee demo 7 (Some 1000) 750 = Ok (Some (10 ^ 27 + 5 * 10 ^ 24)) /\
  calculate_base_fee demo 7 (Some 1000) 250 = Ok (Some (10 ^ 27)).
Proof. vm_compute. repeat split; reflexivity. Qed.

(* consequences of the formula *)
Theorem C22_next_fee_bounds :
  forall b used target denom floor,
  0 <= b -> 0 <= used -> 0 < target -> 0 < denom -> 0 <= floor ->
  0 <= eip1559_next b used target denom floor /\
  b - b / denom <= eip1559_next b used target denom floor /\
  (floor <= b -> floor <= eip1559_next b used target denom floor) /\
  (used > target -> b < eip1559_next b used target denom floor) /\
  (used < target -> eip1559_next b used target denom floor <= Z.max b floor).
Proof.
  intros. repeat split.
  - apply next_nonneg; lia.
  - apply next_drop; lia.
  - intros; apply next_floor; lia.
  - intros. unfold eip1559_next. destruct (used =? target) eqn:?; [lia|].
    destruct (used >? target) eqn:?; lia.
  - intros. unfold eip1559_next. destruct (used =? target) eqn:?; [lia|].
    destruct (used >? target) eqn:?; [lia|].
    pose proof (change_nonneg b (target - used) target denom). lia.
Qed.
Print Assumptions C22_next_fee_bounds.

Theorem C22_next_fee_monotone :
  forall b used1 used2 target denom floor,
  0 <= b -> floor <= b -> 0 <= used1 <= used2 -> 0 < target -> 0 < denom ->
  eip1559_next b used1 target denom floor <= eip1559_next b used2 target denom floor.
Proof. exact next_mono. Qed.
Print Assumptions C22_next_fee_monotone.

Example C22_next_fee_monotone_ex :
  eip1559_next (10 ^ 20) 10 500 8 (10 ^ 18) < eip1559_next (10 ^ 20) 990 500 8 (10 ^ 18).
Proof. vm_compute. reflexivity. Qed.

(* the floor hypothesis is needed: with a stored fee under the minimum gas price
   a block using less gas can raise the fee more than one using more *)
Theorem C22_monotone_without_floor_refuted :
  exists p h mg w1 w2 f1 f2, validate p = Ok tt /\ w1 < w2 /\
    calculate_base_fee p h mg w1 = Ok (Some f1) /\
    calculate_base_fee p h mg w2 = Ok (Some f2) /\ f2 < f1.
Proof.
  exists (Params false 8 2 (Some 0) 0 (Some (10 ^ 27)) (Some 0)), 5, (Some 1000), 499, 500, (10 ^ 27), 0. vm_compute. repeat split; reflexivity.
Qed.
Print Assumptions C22_monotone_without_floor_refuted.

(* over any chain of blocks the fee never drops below the minimum gas price *)
Theorem C22_floor_invariant :
  forall bs s s' floor b,
  validate (st_params s) = Ok tt -> 0 < elasticity (st_params s) -> 0 < denominator (st_params s) ->
  min_gas_price (st_params s) = Some floor -> base_fee (st_params s) = Some b -> floor <= b ->
  0 <= st_gas_wanted s -> Forall (block_ok (st_params s)) bs ->
  run_blocks s bs = Ok s' ->
  exists b', base_fee (st_params s') = Some b' /\ floor <= b' /\
             min_gas_price (st_params s') = Some floor.
Proof. exact run_blocks_floor. Qed.
Print Assumptions C22_floor_invariant.

Example C22_floor_invariant_ex :
  match run_blocks (State demo 0)
     [Block 1 (Some 1000) 2000 900; Block 2 (Some 1000) 10 0; Block 3 (Some 1000) 10 0]
  with Ok s => base_fee (st_params s) | _ => None end = Some (10 ^ 27 + 10 ^ 21) /\
  Forall (block_ok demo) [Block 1 (Some 1000) 2000 900; Block 2 (Some 1000) 10 0; Block 3 (Some 1000) 10 0].
Proof.
  split; [vm_compute; reflexivity|].
  repeat constructor; cbn; try lia; intros x Hx; inversion Hx; unfold max_int64; lia.
Qed.

(* the target hypothesis is needed: a block gas limit below the elasticity
   sets the fee to zero in spite of the minimum gas price *)
Theorem C22_floor_zero_target_refuted :
  exists p h mg w, validate p = Ok tt /\ 0 < elasticity p /\
    base_fee p = min_gas_price p /\ min_gas_price p = Some (10 ^ 27) /\
    calculate_base_fee p h mg w = Ok (Some 0).
Proof.
  exists demo, 5, (Some 1), 1. vm_compute. repeat split; reflexivity.
Qed.
Print Assumptions C22_floor_zero_target_refuted.

(* ---------------- C23: gas accounting ---------------- *)

Theorem C23_gas_wanted_update :
  forall s wanted used s',
  validate (st_params s) = Ok tt -> 0 <= wanted -> 0 <= used ->
  end_block s wanted used = Ok s' ->
  exists m, min_gas_multiplier (st_params s) = Some m /\
    st_params s' = st_params s /\
    st_gas_wanted s' = Z.max ((m * wanted) / 10 ^ 18) used /\
    used <= st_gas_wanted s' <= Z.max wanted used.
Proof.
  intros s w u s' Hv Hw Hu He.
  destruct (validate_ok _ Hv) as (_ & _ & _ & (m & Hm & Hr) & _).
  destruct (end_block_ok _ _ _ _ _ Hm Hr Hw Hu He) as [H1 H2].
  exists m. repeat split; try assumption; rewrite H2; [lia|].
  assert (m * w / 10 ^ 18 <= w); [|lia].
  apply Z.div_le_upper_bound; [lia|]. unfold one_dec in Hr. nia.
Qed.
Print Assumptions C23_gas_wanted_update.

Example C23_gas_wanted_update_ex :
  end_block (State demo 0) 1001 400 = Ok (State demo 500) /\
  end_block (State demo 0) 1001 800 = Ok (State demo 800).
Proof. vm_compute. split; reflexivity. Qed.

(* it fails exactly outside int64, and never panics for accepted parameters *)
Theorem C23_gas_wanted_total :
  forall s wanted used, validate (st_params s) = Ok tt ->
  0 <= wanted <= 2 ^ 64 - 1 -> 0 <= used <= 2 ^ 64 - 1 ->
  (end_block s wanted used = Err <-> (2 ^ 63 - 1 < wanted \/ 2 ^ 63 - 1 < used)) /\
  end_block s wanted used <> Panic.
Proof.
  intros s w u Hv Hw Hu.
  destruct (validate_ok _ Hv) as (_ & _ & _ & (m & Hm & Hr) & _).
  destruct (Z_lt_le_dec max_int64 w) as [H1|H1]; [|destruct (Z_lt_le_dec max_int64 u) as [H2|H2]].
  - unfold end_block. destruct (max_int64 <? w) eqn:?; [|lia].
    split; [|discriminate]. split; [intros _; left; exact H1|reflexivity].
  - unfold end_block. destruct (max_int64 <? w) eqn:?; [lia|].
    destruct (max_int64 <? u) eqn:?; [|lia].
    split; [|discriminate]. split; [intros _; right; exact H2|reflexivity].
  - destruct (end_block_total s w u m) as [s' Hs']; try assumption; try lia.
    rewrite Hs'. split; [|discriminate]. split; [discriminate|].
    unfold max_int64 in *. lia.
Qed.
Print Assumptions C23_gas_wanted_total.

Example C23_gas_wanted_total_ex :
  end_block (State demo 0) (2 ^ 63) 1 = Err /\ is_ok (end_block (State demo 0) (2 ^ 63 - 1) 1) = true.
Proof. vm_compute. split; reflexivity. Qed.

(* ---------------- C24: accepted parameters never panic ---------------- *)

Theorem C24_no_panic_partial :
  forall p height max_gas gas_wanted,
  validate p = Ok tt -> 0 < elasticity p -> 0 < denominator p ->
  0 <= gas_wanted <= 2 ^ 64 - 1 ->
  (forall x, max_gas = Some x -> x <= 2 ^ 63 - 1) ->
  (forall b, base_fee p = Some b -> b < 2 ^ 250) ->
  calculate_base_fee p height max_gas gas_wanted <> Panic.
Proof.
  intros p h mg w Hv Hel Hd Hw Hmg Hb.
  destruct (calc_total p h mg w Hv Hel Hd Hw Hmg Hb) as [r Hr]. rewrite Hr. discriminate.
Qed.
Print Assumptions C24_no_panic_partial.

Example C24_no_panic_partial_ex :
  validate demo = Ok tt /\ is_ok (calculate_base_fee demo 3 None (2 ^ 64 - 1)) = true.
Proof. vm_compute. split; reflexivity. Qed.

(* Params.Validate accepts an elasticity multiplier of 0, and the next block
   divides by it *)
Theorem C24_elasticity_zero_refuted :
  exists p, validate p = Ok tt /\
    forall height max_gas gas_wanted, enable_height p < height ->
    begin_block (State p gas_wanted) height max_gas = Panic.
Proof.
  exists (Params false 100 0 (Some (10 ^ 27)) 0 (Some (10 ^ 27)) (Some (5 * 10 ^ 17))).
  split; [vm_compute; reflexivity|]. cbn [enable_height]. intros h mg w Hh.
  unfold begin_block, calculate_base_fee, base_fee_enabled.
  cbn [st_params st_gas_wanted no_base_fee enable_height base_fee elasticity negb andb].
  destruct (0 <=? h) eqn:?; [|lia]. cbn [negb].
  destruct (h =? 0) eqn:?; [lia|]. reflexivity.
Qed.
Print Assumptions C24_elasticity_zero_refuted.

(* a base fee close to the decimal limit also panics *)
Theorem C24_huge_base_fee_refuted :
  exists p height max_gas gas_wanted, validate p = Ok tt /\ elasticity p = 2 /\
    calculate_base_fee p height max_gas gas_wanted = Panic.
Proof.
  exists (Params false 100 2 (Some (2 ^ 314)) 0 (Some 0) (Some 0)), 1, (Some 10), 1000.
  vm_compute. repeat split; reflexivity.
Qed.
Print Assumptions C24_huge_base_fee_refuted.
