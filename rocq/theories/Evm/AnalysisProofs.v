From Coq Require Import NArith Nnat.
From Verif Require Import Lib.Base Lib.Bytes Evm.Analysis Evm.AnalysisSpec.
Open Scope N_scope.

Definition bit (bits : bytes) (j : N) : bool := N.testbit (nth (N.to_nat (j / 8)) bits 0) (j mod 8).
Definition zeros_from (bits : bytes) (p : N) : Prop := forall j, p <= j -> bit bits j = false.

Lemma testbit_byte x s : s < 8 -> N.testbit (x mod 256) s = N.testbit x s.
Proof. intros H. change 256 with (2 ^ 8). apply N.mod_pow2_bits_low; lia. Qed.

Lemma mod8 j : j mod 8 < 8.
Proof. apply N.mod_lt; lia. Qed.

Lemma bput_ok bits a f : a < N.of_nat (length bits) ->
  exists bits', bput bits a f = Ok bits' /\ length bits' = length bits /\
    forall j, bit bits' j = if j / 8 =? a then N.testbit (f (nth (N.to_nat a) bits 0)) (j mod 8) else bit bits j.
Proof.
  intros H. unfold bput.
  destruct (nth_error bits (N.to_nat a)) as [b|] eqn:E.
  2:{ apply nth_error_None in E. lia. }
  eexists; split; [reflexivity|].
  pose proof (nth_error_split _ _ E) as (l1 & l2 & Hb & Hl).
  assert (F : firstn (N.to_nat a) bits = l1).
  { subst bits. rewrite <- Hl. rewrite firstn_app, Nat.sub_diag, firstn_all. cbn. now rewrite app_nil_r. }
  assert (K : skipn (S (N.to_nat a)) bits = l2).
  { subst bits. rewrite <- Hl. rewrite skipn_app.
    rewrite skipn_all2 by lia. replace (S (length l1) - length l1)%nat with 1%nat by lia. reflexivity. }
  rewrite F, K. split; [subst bits; rewrite !app_length; reflexivity|].
  intros j. unfold bit.
  destruct (N.eqb_spec (j / 8) a) as [Ej|Nj].
  - rewrite Ej, <- Hl, app_nth2, Nat.sub_diag by lia. cbn [nth].
    rewrite testbit_byte by apply mod8. f_equal. f_equal.
    subst bits. rewrite app_nth2, Nat.sub_diag by lia. reflexivity.
  - f_equal. subst bits.
    destruct (Nat.lt_ge_cases (N.to_nat (j / 8)) (length l1)) as [L|L].
    + rewrite !app_nth1 by lia. reflexivity.
    + rewrite !app_nth2 by lia.
      destruct (N.to_nat (j / 8) - length l1)%nat as [|q] eqn:Q; [lia|]. reflexivity.
Qed.

(* finite tables of bits of one byte *)
Definition nums (k : nat) : list N := map N.of_nat (seq 0 k).
Lemma nums_in k x : x < N.of_nat k -> In x (nums k).
Proof. intros H. unfold nums. apply in_map_iff. exists (N.to_nat x). split; [lia|]. apply in_seq. lia. Qed.

Lemma table (P : N -> N -> bool) :
  forallb (fun r => forallb (fun s => P r s) (nums 8)) (nums 8) = true ->
  forall r s, r < 8 -> s < 8 -> P r s = true.
Proof.
  intros H r s Hr Hs. rewrite forallb_forall in H.
  specialize (H r (nums_in 8 r Hr)). rewrite forallb_forall in H. exact (H s (nums_in 8 s Hs)).
Qed.

Lemma bit1 r s : r < 8 -> s < 8 -> N.testbit (N.shiftl 1 r) s = (s =? r).
Proof. intros Hr Hs. apply eqb_prop. revert r s Hr Hs. apply (table (fun r s => eqb (N.testbit (N.shiftl 1 r) s) (s =? r))). vm_compute. reflexivity. Qed.
Lemma bitff r s : r < 8 -> s < 8 -> N.testbit (N.shiftl 255 r mod 256) s = (r <=? s).
Proof. intros Hr Hs. apply eqb_prop. revert r s Hr Hs. apply (table (fun r s => eqb (N.testbit (N.shiftl 255 r mod 256) s) (r <=? s))). vm_compute. reflexivity. Qed.
Lemma bitnff r s : r < 8 -> s < 8 -> N.testbit (bnot (N.shiftl 255 r mod 256)) s = (s <? r).
Proof. intros Hr Hs. apply eqb_prop. revert r s Hr Hs. apply (table (fun r s => eqb (N.testbit (bnot (N.shiftl 255 r mod 256)) s) (s <? r))). vm_compute. reflexivity. Qed.
Lemma bit255 s : s < 8 -> N.testbit 255 s = true.
Proof. intros Hs. apply (table (fun _ s => N.testbit 255 s)) with (r := 0); [vm_compute; reflexivity|lia|exact Hs]. Qed.

Definition flag_of (k : N) : N := 2 ^ k - 1.
Lemma bitlow k r s : 2 <= k < 8 -> r < 8 -> s < 8 ->
  N.testbit ((N.shiftl (flag_of k) r mod 65536) mod 256) s = (r <=? s) && (s <? r + k).
Proof.
  intros Hk Hr Hs. apply eqb_prop.
  assert (T : forallb (fun k => forallb (fun r => forallb (fun s =>
     if (2 <=? k) then eqb (N.testbit ((N.shiftl (flag_of k) r mod 65536) mod 256) s) ((r <=? s) && (s <? r + k)) else true) (nums 8)) (nums 8)) (nums 8) = true) by (vm_compute; reflexivity).
  rewrite forallb_forall in T. specialize (T k (nums_in 8 k ltac:(lia))).
  pose proof (table _ T r s Hr Hs) as E. cbn beta in E.
  destruct (N.leb_spec 2 k); [exact E|lia].
Qed.
Lemma bithigh k r s : 2 <= k < 8 -> r < 8 -> s < 8 ->
  N.testbit (N.shiftr (N.shiftl (flag_of k) r mod 65536) 8 mod 256) s = (s + 8 <? r + k).
Proof.
  intros Hk Hr Hs. apply eqb_prop.
  assert (T : forallb (fun k => forallb (fun r => forallb (fun s =>
     if (2 <=? k) then eqb (N.testbit (N.shiftr (N.shiftl (flag_of k) r mod 65536) 8 mod 256) s) (s + 8 <? r + k) else true) (nums 8)) (nums 8)) (nums 8) = true) by (vm_compute; reflexivity).
  rewrite forallb_forall in T. specialize (T k (nums_in 8 k ltac:(lia))).
  pose proof (table _ T r s Hr Hs) as E. cbn beta in E.
  destruct (N.leb_spec 2 k); [exact E|lia].
Qed.

(* what marking K positions from p on has to do *)
Definition marks (bits bits' : bytes) (p k : N) : Prop :=
  length bits' = length bits /\ forall j, bit bits' j = bit bits j || ((p <=? j) && (j <? p + k)).

(* p and j as eight times a quotient plus a remainder *)
Ltac split8 p := pose proof (N.div_mod' p 8); pose proof (mod8 p).

Lemma set1_marks bits p : zeros_from bits p -> p / 8 < N.of_nat (length bits) ->
  exists b, set1 bits p = Ok b /\ marks bits b p 1.
Proof.
  intros Z L. unfold set1.
  destruct (bput_ok bits (p / 8) (fun b => N.lor b (N.shiftl 1 (p mod 8))) L) as (b & -> & L1 & B1).
  exists b; split; [reflexivity|]. split; [exact L1|]. intros j. rewrite B1.
  split8 p. split8 j.
  destruct (N.eqb_spec (j / 8) (p / 8)) as [E|E].
  - rewrite N.lor_spec, bit1 by lia. unfold bit. rewrite E. f_equal. lia.
  - destruct (bit bits j); cbn; [reflexivity|]. lia.
Qed.

Lemma set8_marks bits p : zeros_from bits p -> p / 8 + 1 < N.of_nat (length bits) ->
  exists b, set8 bits p = Ok b /\ marks bits b p 8.
Proof.
  intros Z L. unfold set8.
  destruct (bput_ok bits (p / 8) (fun b => N.lor b (ff p)) ltac:(lia)) as (b1 & -> & L1 & B1). cbn [rbind].
  destruct (bput_ok b1 (p / 8 + 1) (fun _ => bnot (ff p)) ltac:(lia)) as (b2 & -> & L2 & B2).
  exists b2; split; [reflexivity|]. split; [lia|]. intros j. rewrite B2, B1.
  split8 p. split8 j. unfold ff.
  destruct (N.eqb_spec (j / 8) (p / 8 + 1)) as [E|E].
  - rewrite bitnff by lia. assert (Zj : bit bits j = false) by (apply Z; lia). rewrite Zj. cbn. lia.
  - destruct (N.eqb_spec (j / 8) (p / 8)) as [E1|E1].
    + rewrite N.lor_spec, bitff by lia. unfold bit. rewrite E1. f_equal. lia.
    + destruct (bit bits j); cbn; [reflexivity|]. lia.
Qed.

Lemma set16_marks bits p : zeros_from bits p -> p / 8 + 2 < N.of_nat (length bits) ->
  exists b, set16 bits p = Ok b /\ marks bits b p 16.
Proof.
  intros Z L. unfold set16.
  destruct (bput_ok bits (p / 8) (fun b => N.lor b (ff p)) ltac:(lia)) as (b1 & -> & L1 & B1). cbn [rbind].
  destruct (bput_ok b1 (p / 8 + 1) (fun _ => 255) ltac:(lia)) as (b2 & -> & L2 & B2). cbn [rbind].
  destruct (bput_ok b2 (p / 8 + 2) (fun _ => bnot (ff p)) ltac:(lia)) as (b3 & -> & L3 & B3).
  exists b3; split; [reflexivity|]. split; [lia|]. intros j. rewrite B3, B2, B1.
  split8 p. split8 j. unfold ff.
  destruct (N.eqb_spec (j / 8) (p / 8 + 2)) as [E|E].
  - rewrite bitnff by lia. assert (Zj : bit bits j = false) by (apply Z; lia). rewrite Zj. cbn. lia.
  - destruct (N.eqb_spec (j / 8) (p / 8 + 1)) as [E2|E2].
    + rewrite bit255 by lia. assert (Zj : bit bits j = false) by (apply Z; lia). rewrite Zj. cbn. lia.
    + destruct (N.eqb_spec (j / 8) (p / 8)) as [E1|E1].
      * rewrite N.lor_spec, bitff by lia. unfold bit. rewrite E1. f_equal. lia.
      * destruct (bit bits j); cbn; [reflexivity|]. lia.
Qed.

Lemma setN_marks bits p k : 2 <= k < 8 -> zeros_from bits p -> (p + k) / 8 < N.of_nat (length bits) ->
  exists b, setN bits (flag_of k) p = Ok b /\ marks bits b p k.
Proof.
  intros K Z L. unfold setN.
  assert (L0 : p / 8 < N.of_nat (length bits)) by (assert (p / 8 <= (p + k) / 8) by (apply N.div_le_mono; lia); lia).
  destruct (bput_ok bits (p / 8) (fun b => N.lor b ((N.shiftl (flag_of k) (p mod 8) mod 65536) mod 256)) ltac:(lia)) as (b1 & -> & L1 & B1). cbn [rbind].
  split8 p.
  destruct (N.eqb_spec (N.shiftr (N.shiftl (flag_of k) (p mod 8) mod 65536) 8 mod 256) 0) as [E0|E0].
  - exists b1; split; [reflexivity|]. split; [lia|]. intros j. rewrite B1. split8 j.
    destruct (N.eqb_spec (j / 8) (p / 8)) as [E1|E1].
    + rewrite N.lor_spec, bitlow by lia. unfold bit. rewrite E1. f_equal. lia.
    + destruct (bit bits j); cbn; [reflexivity|].
      assert (F : (0 + 8 <? p mod 8 + k) = false) by (rewrite <- bithigh, E0 by lia; reflexivity).
      lia.
  - assert (L3 : p / 8 + 1 < N.of_nat (length b1)).
    { split8 (p + k).
      destruct (N.lt_ge_cases (p mod 8 + k) 8) as [C|C]; [|lia].
      exfalso. apply E0. apply N.bits_inj_0. intros s.
      destruct (N.lt_ge_cases s 8) as [C8|C8].
      - rewrite bithigh by lia. lia.
      - change 256 with (2 ^ 8). apply N.mod_pow2_bits_high. lia. }
    destruct (bput_ok b1 (p / 8 + 1) (fun _ => N.shiftr (N.shiftl (flag_of k) (p mod 8) mod 65536) 8 mod 256) ltac:(lia)) as (b2 & -> & L2 & B2).
    exists b2; split; [reflexivity|]. split; [lia|]. intros j. rewrite B2, B1. split8 j.
    destruct (N.eqb_spec (j / 8) (p / 8 + 1)) as [E|E].
    + rewrite bithigh by lia. assert (Zj : bit bits j = false) by (apply Z; lia). rewrite Zj. cbn. lia.
    + destruct (N.eqb_spec (j / 8) (p / 8)) as [E1|E1].
      * rewrite N.lor_spec, bitlow by lia. unfold bit. rewrite E1. f_equal. lia.
      * destruct (bit bits j); cbn; [reflexivity|]. lia.
Qed.

Lemma marks_zeros bits b p k : marks bits b p k -> zeros_from bits p -> zeros_from b (p + k).
Proof. intros [_ M] Z j H. rewrite M. rewrite Z by lia. cbn. lia. Qed.

Lemma marks_trans a b c p k q : marks a b p k -> marks b c (p + k) q -> marks a c p (k + q).
Proof.
  intros [L1 M1] [L2 M2]. split; [congruence|]. intros j. rewrite M2, M1.
  destruct (bit a j); cbn; [reflexivity|]. lia.
Qed.

Lemma marks_nil a p : marks a a p 0.
Proof. split; [reflexivity|]. intros j. destruct (bit a j); cbn; [reflexivity|]. lia. Qed.

Lemma by16_marks : forall k bits p n, zeros_from bits p -> (p + n) / 8 < N.of_nat (length bits) -> n < 16 * N.of_nat (S k) ->
  exists b, by16 k bits p n = Ok (b, p + 16 * (n / 16), n mod 16) /\ marks bits b p (16 * (n / 16)).
Proof.
  induction k as [|k IH]; intros bits p n Z L H; cbn [by16].
  - exists bits. replace (n / 16) with 0 by (symmetry; apply N.div_small; lia).
    rewrite N.mod_small, N.mul_0_r, N.add_0_r by lia. split; [reflexivity|apply marks_nil].
  - destruct (N.ltb_spec n 16) as [S16|S16].
    + exists bits. replace (n / 16) with 0 by (symmetry; apply N.div_small; lia).
      rewrite N.mod_small, N.mul_0_r, N.add_0_r by lia. split; [reflexivity|apply marks_nil].
    + destruct (set16_marks bits p Z) as (b & E & M).
      { assert ((p + 16) / 8 <= (p + n) / 8) by (apply N.div_le_mono; lia).
        replace (p + 16) with (p + 2 * 8) in H0 by lia. rewrite N.div_add in H0 by lia. lia. }
      rewrite E. cbn [rbind].
      destruct (IH b (p + 16) (n - 16)) as (b' & E' & M').
      * apply (marks_zeros _ _ _ _ M Z).
      * destruct M as [Lm _]. rewrite Lm. replace (p + 16 + (n - 16)) with (p + n) by lia. exact L.
      * lia.
      * exists b'. rewrite E'.
        assert (Q : n / 16 = (n - 16) / 16 + 1) by (replace n with (n - 16 + 1 * 16) at 1 by lia; rewrite N.div_add by lia; reflexivity).
        assert (R : n mod 16 = (n - 16) mod 16) by (replace n with (n - 16 + 1 * 16) at 1 by lia; rewrite N.mod_add by lia; reflexivity).
        rewrite Q, R. split; [do 3 f_equal; lia|].
        replace (16 * ((n - 16) / 16 + 1)) with (16 + 16 * ((n - 16) / 16)) by lia.
        eapply marks_trans; eassumption.
Qed.

Lemma by8_marks : forall k bits p n, zeros_from bits p -> (p + n) / 8 < N.of_nat (length bits) -> n < 8 * N.of_nat (S k) ->
  exists b, by8 k bits p n = Ok (b, p + 8 * (n / 8), n mod 8) /\ marks bits b p (8 * (n / 8)).
Proof.
  induction k as [|k IH]; intros bits p n Z L H; cbn [by8].
  - exists bits. replace (n / 8) with 0 by (symmetry; apply N.div_small; lia).
    rewrite N.mod_small, N.mul_0_r, N.add_0_r by lia. split; [reflexivity|apply marks_nil].
  - destruct (N.ltb_spec n 8) as [S16|S16].
    + exists bits. replace (n / 8) with 0 by (symmetry; apply N.div_small; lia).
      rewrite N.mod_small, N.mul_0_r, N.add_0_r by lia. split; [reflexivity|apply marks_nil].
    + destruct (set8_marks bits p Z) as (b & E & M).
      { assert ((p + 8) / 8 <= (p + n) / 8) by (apply N.div_le_mono; lia).
        replace (p + 8) with (p + 1 * 8) in H0 by lia. rewrite N.div_add in H0 by lia. lia. }
      rewrite E. cbn [rbind].
      destruct (IH b (p + 8) (n - 8)) as (b' & E' & M').
      * apply (marks_zeros _ _ _ _ M Z).
      * destruct M as [Lm _]. rewrite Lm. replace (p + 8 + (n - 8)) with (p + n) by lia. exact L.
      * lia.
      * exists b'. rewrite E'.
        assert (Q : n / 8 = (n - 8) / 8 + 1) by (replace n with (n - 8 + 1 * 8) at 1 by lia; rewrite N.div_add by lia; reflexivity).
        assert (R : n mod 8 = (n - 8) mod 8) by (replace n with (n - 8 + 1 * 8) at 1 by lia; rewrite N.mod_add by lia; reflexivity).
        rewrite Q, R. split; [do 3 f_equal; lia|].
        replace (8 * ((n - 8) / 8 + 1)) with (8 + 8 * ((n - 8) / 8)) by lia.
        eapply marks_trans; eassumption.
Qed.

Lemma rest_marks bits p n : n < 8 -> zeros_from bits p -> (p + n) / 8 < N.of_nat (length bits) ->
  exists b, rest bits p n = Ok (b, p + n) /\ marks bits b p n.
Proof.
  intros H Z L.
  assert (C : n = 0 \/ n = 1 \/ n = 2 \/ n = 3 \/ n = 4 \/ n = 5 \/ n = 6 \/ n = 7) by lia.
  destruct C as [->|[->|C]].
  - exists bits. split; [cbn; do 2 f_equal; lia|apply marks_nil].
  - destruct (set1_marks bits p Z) as (b & E & M); [assert (p / 8 <= (p + 1) / 8) by (apply N.div_le_mono; lia); lia|]. exists b. cbn [rest]. rewrite E. split; [reflexivity|exact M].
  - destruct (setN_marks bits p n ltac:(lia) Z L) as (b & E & M). exists b.
    destruct C as [->|[->|[->|[->|[->| ->]]]]]; cbn [rest]; vm_compute (flag_of _) in E; rewrite E; (split; [reflexivity|exact M]).
Qed.

(* the positions of data before position p *)
Definition dataset (code : bytes) (bits : bytes) (pc : nat) : Prop :=
  forall j : nat, bit bits (N.of_nat j) = true <-> ((j < pc)%nat /\ data code j).


(* the n-th instruction *)
Fixpoint nth_instr (code : bytes) (n : nat) : option nat :=
  match n with
  | O => Some O
  | S m => match nth_instr code m with
           | Some i => match nth_error code i with
                       | Some op => Some (i + 1 + push_data op)%nat
                       | None => None
                       end
           | None => None
           end
  end.

Lemma instruction_nth code i : instruction code i <-> exists n, nth_instr code n = Some i.
Proof.
  split.
  - induction 1 as [|i op H [n E] Eo]; [exists O; reflexivity|].
    exists (S n). cbn. rewrite E, Eo. reflexivity.
  - intros [n E]. revert i E. induction n as [|n IH]; intros i E; cbn in E.
    + assert (i = O) by congruence. subst. constructor.
    + destruct (nth_instr code n) as [j|] eqn:Ej; [|discriminate].
      destruct (nth_error code j) as [op|] eqn:Eo; [|discriminate].
      assert (i = (j + 1 + push_data op)%nat) by congruence. subst. econstructor; eauto.
Qed.

Lemma nth_instr_later code : forall d n i j, nth_instr code n = Some i -> nth_instr code (d + S n) = Some j ->
  exists op, nth_error code i = Some op /\ (i + push_data op < j)%nat.
Proof.
  induction d as [|d IH]; intros n i j Ei Ej.
  - cbn in Ej. rewrite Ei in Ej. destruct (nth_error code i) as [op|]; [|discriminate].
    exists op. split; [reflexivity|]. assert (j = (i + 1 + push_data op)%nat) by congruence. lia.
  - cbn [Nat.add nth_instr] in Ej.
    destruct (nth_instr code (d + S n)) as [k|] eqn:Ek; [|discriminate].
    destruct (nth_error code k) as [ok|]; [|discriminate].
    destruct (IH n i k Ei Ek) as (op & A & B). exists op. split; [exact A|].
    assert (j = (k + 1 + push_data ok)%nat) by congruence. lia.
Qed.

Lemma instruction_gap code i j : instruction code i -> instruction code j -> (i < j)%nat ->
  exists op, nth_error code i = Some op /\ (i + push_data op < j)%nat.
Proof.
  intros Hi Hj L. apply (proj1 (instruction_nth _ _)) in Hi. apply (proj1 (instruction_nth _ _)) in Hj.
  destruct Hi as [n Ei], Hj as [m Ej].
  destruct (Nat.lt_trichotomy n m) as [C|[C|C]].
  - apply (nth_instr_later code (m - S n) n i j Ei). replace (m - S n + S n)%nat with m by lia. exact Ej.
  - subst. assert (i = j) by congruence. lia.
  - destruct (nth_instr_later code (n - S m) m j i Ej) as (op & A & B).
    + replace (n - S m + S m)%nat with n by lia. exact Ei.
    + lia.
Qed.

Lemma data_not_instruction code p : data code p -> ~ instruction code p.
Proof.
  intros (i & op & Hi & E & L) Hp.
  destruct (instruction_gap code i p Hi Hp ltac:(lia)) as (o & A & B).
  assert (o = op) by congruence. subst. lia.
Qed.

Lemma not_data_instruction code p : (p < length code)%nat -> instruction code p \/ data code p.
Proof.
  intros L.
  assert (F : forall n, (n <= p)%nat -> instruction code n \/ data code n \/ True) by auto.
  (* the last instruction at or before p *)
  assert (G : forall q, (q <= p)%nat -> exists i, instruction code i /\ (i <= q)%nat /\
                forall j, instruction code j -> (j <= q)%nat -> (j <= i)%nat).
  { induction q as [|q IH]; intros Lq.
    - exists O. split; [constructor|]. split; [lia|]. intros; lia.
    - destruct (IH ltac:(lia)) as (i & Hi & Li & M).
      destruct (nth_error code i) as [op|] eqn:E.
      2:{ apply nth_error_None in E. lia. }
      destruct (Nat.eq_dec (i + 1 + push_data op) (S q)) as [Q|Q].
      + exists (S q). split; [rewrite <- Q; econstructor; eauto|]. split; [lia|]. intros; lia.
      + exists i. split; [exact Hi|]. split; [lia|]. intros j Hj Lj.
        destruct (Nat.eq_dec j (S q)) as [->|]; [|apply M; [exact Hj|lia]].
        destruct (instruction_gap code i (S q) Hi Hj ltac:(lia)) as (o & A & B).
        assert (o = op) by congruence. subst o.
        assert (N1 : instruction code (i + 1 + push_data op)) by (econstructor; eauto).
        specialize (M _ N1 ltac:(lia)). lia. }
  destruct (G p ltac:(lia)) as (i & Hi & Li & M).
  destruct (Nat.eq_dec i p) as [->|D]; [left; exact Hi|]. right.
  destruct (nth_error code i) as [op|] eqn:E.
  2:{ apply nth_error_None in E. lia. }
  exists i, op. split; [exact Hi|]. split; [exact E|]. split; [lia|].
  destruct (Nat.lt_ge_cases (i + push_data op) p) as [C|C]; [|lia].
  assert (N1 : instruction code (i + 1 + push_data op)) by (econstructor; eauto).
  specialize (M _ N1 ltac:(lia)). lia.
Qed.

(* one turn of the loop: from an instruction to the next *)
Lemma data_step code i op j : instruction code i -> nth_error code i = Some op ->
  ((j < i + 1 + push_data op)%nat /\ data code j) <->
  (((j < i)%nat /\ data code j) \/ (i < j <= i + push_data op)%nat).
Proof.
  intros Hi E. split.
  - intros [L D]. destruct (Nat.lt_trichotomy j i) as [C|[C|C]].
    + left. auto.
    + subst. exfalso. exact (data_not_instruction _ _ D Hi).
    + right. lia.
  - intros [[L D]|L]; [split; [lia|exact D]|]. split; [lia|]. exists i, op. auto.
Qed.

Lemma push_marks bits p n : 1 <= n <= 32 -> zeros_from bits p -> (p + n) / 8 < N.of_nat (length bits) ->
  exists b, rbind (if 8 <=? n then rbind (by16 3 bits p n) (fun '(b, q, m) => by8 4 b q m)
                   else Ok (bits, p, n)) (fun '(b, q, m) => rest b q m) = Ok (b, p + n) /\ marks bits b p n.
Proof.
  intros H Z L. destruct (N.leb_spec 8 n) as [C|C].
  - destruct (by16_marks 3 bits p n Z L ltac:(lia)) as (b1 & -> & M1). cbn [rbind].
    assert (D16 := N.div_mod' n 16). assert (R16 : n mod 16 < 16) by (apply N.mod_lt; lia).
    assert (Z1 := marks_zeros _ _ _ _ M1 Z).
    destruct (by8_marks 4 b1 (p + 16 * (n / 16)) (n mod 16) Z1) as (b2 & -> & M2).
    { destruct M1 as [-> _]. replace (p + 16 * (n / 16) + n mod 16) with (p + n) by lia. exact L. }
    { lia. }
    cbn [rbind].
    assert (M12 := marks_trans _ _ _ _ _ _ M1 M2).
    assert (Z2 := marks_zeros _ _ _ _ M2 Z1).
    set (r := n mod 16) in *. assert (D8 := N.div_mod' r 8). assert (R8 : r mod 8 < 8) by (apply N.mod_lt; lia).
    destruct (rest_marks b2 _ (r mod 8) R8 Z2) as (b3 & -> & M3).
    { destruct M12 as [-> _]. replace (p + 16 * (n / 16) + 8 * (r / 8) + r mod 8) with (p + n) by lia. exact L. }
    exists b3. split; [do 2 f_equal; lia|].
    replace (p + 16 * (n / 16) + 8 * (r / 8)) with (p + (16 * (n / 16) + 8 * (r / 8))) in M3 by lia.
    replace n with (16 * (n / 16) + 8 * (r / 8) + r mod 8) by lia.
    replace (16 * ((16 * (n / 16) + 8 * (r / 8) + r mod 8) / 16)) with (16 * (n / 16)).
    2:{ replace (16 * (n / 16) + 8 * (r / 8) + r mod 8) with n by lia. reflexivity. }
    eapply marks_trans; eassumption.
  - cbn [rbind]. destruct (rest_marks bits p n C Z L) as (b & E & M). exists b. auto.
Qed.

Lemma push_data_small op : (int8 op <? int8 PUSH1)%Z = true -> op < 256 -> push_data op = O.
Proof. unfold int8, PUSH1, push_data. intros H L. destruct (N.ltb_spec op 128); cbn [N.ltb] in H; change (96 <? 128) with true in H; cbn iota in H;
  destruct (N.leb_spec 0x60 op); destruct (N.leb_spec op 0x7f); cbn; try lia. Qed.
Lemma push_data_big op : (int8 op <? int8 PUSH1)%Z = false -> op < 256 ->
  1 <= op - PUSH1 + 1 <= 32 /\ push_data op = N.to_nat (op - PUSH1 + 1).
Proof. unfold int8, PUSH1, push_data. intros H L. destruct (N.ltb_spec op 128); cbn [N.ltb] in H; change (96 <? 128) with true in H; cbn iota in H;
  destruct (N.leb_spec 0x60 op); destruct (N.leb_spec op 0x7f); cbn; try lia. Qed.

Lemma rbind_assoc {A B C} (x : res A) (f : A -> res B) (g : B -> res C) :
  rbind (rbind x f) g = rbind x (fun a => rbind (f a) g).
Proof. destruct x; reflexivity. Qed.

Lemma loop_ok code : Forall (fun b => b < 256) code ->
  forall k bits pc, instruction code pc -> dataset code bits pc ->
  length bits = (length code / 8 + 5)%nat -> (length code <= pc + k)%nat ->
  exists b, bitmap_loop k code bits (N.of_nat pc) = Ok b /\
            length b = (length code / 8 + 5)%nat /\
            forall j, (j < length code)%nat -> (bit b (N.of_nat j) = true <-> data code j).
Proof.
  intros HB. induction k as [|k IH]; intros bits pc Hi D L F; cbn [bitmap_loop].
  - exists bits. split; [reflexivity|]. split; [exact L|]. intros j Hj. rewrite (D j). split; [tauto|]. intros X. split; [lia|exact X].
  - rewrite Nat2N.id. destruct (nth_error code pc) as [op|] eqn:E.
    2:{ apply nth_error_None in E. exists bits. split; [reflexivity|]. split; [exact L|].
        intros j Hj. rewrite (D j). split; [tauto|]. intros X. split; [lia|exact X]. }
    assert (Hop : op < 256) by (rewrite Forall_forall in HB; apply HB; eapply nth_error_In; eauto).
    assert (Lp : (pc < length code)%nat) by (apply nth_error_Some; congruence).
    assert (Hn : instruction code (pc + 1 + push_data op)) by (econstructor; eauto).
    destruct ((int8 op <? int8 PUSH1)%Z) eqn:C.
    + pose proof (push_data_small op C Hop) as P0. rewrite P0, Nat.add_0_r in Hn.
      replace (N.of_nat pc + 1) with (N.of_nat (pc + 1)) by lia.
      apply IH; [exact Hn| |exact L|lia].
      intros j. rewrite (D j). pose proof (data_step code pc op j Hi E) as X. rewrite P0, !Nat.add_0_r in X. rewrite X.
      split; [auto|]. intros [Y|Y]; [exact Y|lia].
    + destruct (push_data_big op C Hop) as [R P]. set (n := op - PUSH1 + 1) in *.
      replace (N.of_nat pc + 1) with (N.of_nat (pc + 1)) by lia.
      destruct (push_marks bits (N.of_nat (pc + 1)) n R) as (b & Eb & M).
      { intros j Hj. destruct (bit bits j) eqn:T; [|reflexivity].
        rewrite <- (N2Nat.id j) in T. apply D in T. lia. }
      { rewrite L. assert (Q : (N.of_nat (pc + 1) + n) / 8 <= N.of_nat (length code) / 8 + 4).
        { replace (N.of_nat (length code) / 8 + 4) with ((N.of_nat (length code) + 4 * 8) / 8) by (rewrite N.div_add by lia; reflexivity).
          apply N.div_le_mono; lia. }
        rewrite (Nat2N.inj_add (_ / _)), Nat2N.inj_div. change (N.of_nat 8) with 8. lia. }
      match goal with |- exists b, rbind ?x ?f = _ /\ _ =>
        replace (rbind x f) with (rbind (rbind x (fun '(b, p, m) => rest b p m)) (fun '(b', p') => bitmap_loop k code b' p')) end.
      2:{ rewrite rbind_assoc. match goal with |- rbind ?x _ = _ => destruct x as [[[? ?] ?]| |]; reflexivity end. }
      rewrite Eb. cbn [rbind].
      replace (N.of_nat (pc + 1) + n) with (N.of_nat (pc + 1 + push_data op)) by lia.
      destruct M as [Lm Mm].
      apply IH; [exact Hn| |lia|lia].
      intros j. rewrite Mm. rewrite (data_step code pc op j Hi E). rewrite orb_true_iff, (D j).
      assert (K : (N.of_nat (pc + 1) <=? N.of_nat j) && (N.of_nat j <? N.of_nat (pc + 1) + n) = true <-> (pc < j <= pc + push_data op)%nat) by lia.
      rewrite K. reflexivity.
Qed.

Lemma bit_zero k j : bit (repeat 0 k) j = false.
Proof.
  unfold bit. generalize (N.to_nat (j / 8)). intros m.
  replace (nth m (repeat 0 k) 0) with 0; [apply N.bits_0|].
  revert m. induction k as [|k IH]; intros [|m]; cbn; auto.
Qed.

Lemma bitmap_ok code : Forall (fun b => b < 256) code ->
  exists b, code_bitmap code = Ok b /\
            length b = (length code / 8 + 5)%nat /\
            forall j, (j < length code)%nat -> (bit b (N.of_nat j) = true <-> data code j).
Proof.
  intros HB. unfold code_bitmap. apply (loop_ok code HB _ _ 0%nat).
  - constructor.
  - intros j. rewrite bit_zero. split; [discriminate|lia].
  - rewrite repeat_length. lia.
  - lia.
Qed.

Lemma segment_bit b p : p / 8 < N.of_nat (length b) -> code_segment b p = Ok (negb (bit b p)).
Proof.
  intros L. unfold code_segment, bit.
  destruct (nth_error b (N.to_nat (p / 8))) as [x|] eqn:E.
  2:{ apply nth_error_None in E. lia. }
  rewrite (nth_error_nth _ _ _ E). f_equal.
  rewrite N.testbit_eqb. change 1 with (N.ones 1) at 1. rewrite N.land_ones, N.shiftr_div_pow2. change (2 ^ 1) with 2.
  set (y := x / 2 ^ (p mod 8)). assert (y mod 2 < 2) by (apply N.mod_lt; lia).
  destruct (N.eqb_spec (y mod 2) 0), (N.eqb_spec (y mod 2) 1); cbn; lia.
Qed.

Lemma jump_ok code d : Forall (fun b => b < 256) code -> N.of_nat (length code) < 2 ^ 64 ->
  exists b, valid_jumpdest code d = Ok b /\ (b = true <-> destination code (N.to_nat d)).
Proof.
  intros HB LC. unfold valid_jumpdest, destination.
  destruct (N.leb_spec (2 ^ 64) d) as [C|C].
  { exists false. split; [reflexivity|]. split; [discriminate|]. intros [_ E].
    assert (N.to_nat d < length code)%nat by (apply nth_error_Some; congruence). lia. }
  destruct (N.leb_spec (N.of_nat (length code)) d) as [C1|C1].
  { exists false. split; [reflexivity|]. split; [discriminate|]. intros [_ E].
    assert (N.to_nat d < length code)%nat by (apply nth_error_Some; congruence). lia. }
  destruct (nth_error code (N.to_nat d)) as [op|] eqn:E.
  2:{ apply nth_error_None in E. lia. }
  unfold JUMPDEST. destruct (N.eqb_spec op 91) as [->|NE]; cbn [negb].
  2:{ exists false. split; [reflexivity|]. split; [discriminate|]. intros [_ X]. congruence. }
  destruct (bitmap_ok code HB) as (b & -> & Lb & B). cbn [rbind].
  rewrite segment_bit.
  2:{ rewrite Lb. assert (d / 8 <= N.of_nat (length code) / 8) by (apply N.div_le_mono; lia).
      rewrite (Nat2N.inj_add (_ / _)), Nat2N.inj_div. change (N.of_nat 8) with 8. lia. }
  eexists; split; [reflexivity|].
  specialize (B (N.to_nat d) ltac:(lia)). rewrite N2Nat.id in B.
  destruct (bit b d); cbn.
  - split; [discriminate|]. intros [X _]. exfalso. apply (data_not_instruction code (N.to_nat d)); [apply B; reflexivity|exact X].
  - split; [|reflexivity]. intros _. split; [|reflexivity].
    destruct (not_data_instruction code (N.to_nat d) ltac:(lia)) as [X|X]; [exact X|].
    apply B in X. discriminate.
Qed.
