(* C102: an estimate of gas suffices, and the message with less would fail. *)
From Coq Require Import NArith Nnat.
From Verif Require Import Lib.Base Lib.Bytes Evm.Words Evm.World Evm.Memory Evm.Table Evm.Interp Evm.MemoryProofs Evm.RunSpec
  Evm.Example Evm.PropsRun Evm.Message Evm.PropsMessage Evm.Estimate.
Open Scope N_scope.

Definition runs (try : N -> trial) (g : N) : Prop := try g = Runs.
Definition fails (try : N -> trial) (g : N) : Prop := exists why, try g = Fails why.
(* more gas never hurts *)
Definition monotone (try : N -> trial) : Prop := forall g g', g <= g' -> runs try g -> runs try g'.

Lemma middle lo hi : lo + 1 < hi -> hi < 2 ^ 63 -> let mid := ((hi + lo) mod U64) / 2 in
  lo < mid < hi /\ 2 * mid <= hi + lo < 2 * mid + 2.
Proof.
  change (2 ^ 63) with 9223372036854775808. intros L H mid. unfold mid. rewrite U64_val, N.mod_small by lia.
  assert (E := N.div_mod (hi + lo) 2 ltac:(lia)). assert (R := N.mod_upper_bound (hi + lo) 2 ltac:(lia)).
  set (q := (hi + lo) / 2) in *. set (r := (hi + lo) mod 2) in *. clearbody q r. clear mid. lia.
Qed.
Lemma small lo hi : lo < hi -> hi < 2 ^ 63 -> (lo + 1) mod U64 = lo + 1.
Proof. change (2 ^ 63) with 9223372036854775808. intros L H. rewrite U64_val. apply N.mod_small. lia. Qed.

(* The search finds a limit between the bounds that runs, unless it is the upper bound, and the limit just below fails,
   unless it is the lower bound. *)
Lemma found_sound try fuel lo hi h : hi < 2 ^ 63 -> lo < hi -> bin_search try fuel lo hi = Found h ->
  lo < h <= hi /\ (h = hi \/ runs try h) /\ (h = lo + 1 \/ fails try (h - 1)).
Proof.
  intros L. revert lo hi L. induction fuel as [|n IH]; intros lo hi L Lh E; cbn [bin_search] in E; rewrite (small lo hi Lh L) in E.
  - destruct (N.ltb_spec (lo + 1) hi) as [H|H]; [discriminate|]. inversion E. subst. split; [lia|]. split; [now left|left; lia].
  - destruct (N.ltb_spec (lo + 1) hi) as [H|H].
    2: { inversion E. subst. split; [lia|]. split; [now left|left; lia]. }
    destruct (middle lo hi H L) as [[M1 M2] _]. cbn zeta in E. set (mid := ((hi + lo) mod U64) / 2) in *. clearbody mid.
    destruct (try mid) as [|why|] eqn:T; [| |discriminate].
    + apply IH in E; [|lia|exact M1]. destruct E as (B & C & D). split; [lia|]. split; [|exact D].
      right. destruct C as [C|C]; [subst; exact T|exact C].
    + apply IH in E; [|exact L|exact M2]. destruct E as (B & C & D). split; [lia|]. split; [exact C|].
      right. destruct D as [D|D]; [|exact D]. replace (h - 1) with mid by lia. now exists why.
Qed.
(* It ends after as many runs as the distance of the bounds has binary digits. *)
Lemma search_ends try fuel lo hi : hi < 2 ^ 63 -> lo < hi -> hi - lo <= 2 ^ N.of_nat fuel -> bin_search try fuel lo hi <> SLoop.
Proof.
  intros L. revert lo hi L. induction fuel as [|n IH]; intros lo hi L Lh F; cbn [bin_search]; rewrite (small lo hi Lh L).
  - cbn [N.of_nat N.pow] in F. destruct (N.ltb_spec (lo + 1) hi) as [H|H]; [lia|discriminate].
  - destruct (N.ltb_spec (lo + 1) hi) as [H|H]; [|discriminate].
    destruct (middle lo hi H L) as [[M1 M2] M3]. cbn zeta. set (mid := ((hi + lo) mod U64) / 2) in *. clearbody mid.
    rewrite Nat2N.inj_succ, N.pow_succ_r' in F. set (P := 2 ^ N.of_nat n) in *. clearbody P.
    destruct (try mid) as [|why|]; [| |discriminate]; apply IH; lia.
Qed.
Lemma search_aborts try fuel lo hi : hi < 2 ^ 63 -> lo < hi -> (forall g, lo < g < hi -> try g <> Aborts) ->
  bin_search try fuel lo hi <> SAbort.
Proof.
  intros L. revert lo hi L. induction fuel as [|n IH]; intros lo hi L Lh A; cbn [bin_search]; rewrite (small lo hi Lh L).
  - destruct (N.ltb_spec (lo + 1) hi) as [H|H]; discriminate.
  - destruct (N.ltb_spec (lo + 1) hi) as [H|H]; [|discriminate].
    destruct (middle lo hi H L) as [[M1 M2] _]. cbn zeta. set (mid := ((hi + lo) mod U64) / 2) in *. clearbody mid.
    destruct (try mid) as [|why|] eqn:T; [| |now destruct (A mid (conj M1 M2))]; apply IH; try lia; intros g Hg; apply A; lia.
Qed.
Lemma low_bound try fuel hi : hi <= 21000 -> bin_search try fuel 20999 hi = Found hi.
Proof.
  intros H. destruct fuel; cbn [bin_search]; change ((20999 + 1) mod U64) with 21000; rewrite (proj2 (N.ltb_ge _ _) H); reflexivity.
Qed.

(* the funds of the sender do not lower the limit *)
Definition unlimited (q : ask) : Prop :=
  k_fee q = 0 \/ ceiling q * k_fee q + match k_value q with Some v => v | None => 0 end <= k_balance q.

Lemma afford_le q h hi : afford q h = Some hi -> hi <= h /\ (hi = h \/ 21000 <= hi) /\
  (k_fee q <> 0 -> hi * k_fee q + match k_value q with Some v => v | None => 0 end <= k_balance q \/ U64 <= hi).
Proof.
  unfold afford. destruct (N.eqb_spec (k_fee q) 0) as [E|E]; [intros H; inversion H; subst; split; [lia|split; [now left|contradiction]]|].
  set (av := match k_value q with Some v => _ | None => _ end).
  assert (Av : forall x, av = Some x -> x + match k_value q with Some v => v | None => 0 end <= k_balance q).
  { intros x. unfold av. destruct (k_value q) as [v|]; [destruct (N.leb_spec (k_balance q) v); [discriminate|]|]; intros X; inversion X; lia. }
  clearbody av. destruct av as [x|]; [|discriminate]. specialize (Av x eq_refl). set (v := match k_value q with Some v => v | None => 0 end) in *.
  clearbody v. assert (Q : x / k_fee q * k_fee q <= x) by (rewrite N.mul_comm; now apply N.mul_div_le).
  set (al := x / k_fee q) in *. clearbody al.
  destruct (N.ltb_spec al U64) as [H1|H1]; [destruct (N.ltb_spec al h) as [H2|H2]|]; cbn [andb].
  - destruct (N.ltb_spec al 21000); [discriminate|]. intros X. inversion X. subst. split; [lia|]. split; [now right|]. intros _. left. lia.
  - intros X. inversion X. subst. split; [lia|]. split; [now left|]. intros _. left.
    assert (hi * k_fee q <= al * k_fee q) by (apply N.mul_le_mono_r; exact H2). lia.
  - intros X. inversion X. subst. split; [lia|]. split; [now left|]. intros _. destruct (N.ltb_spec hi U64) as [H|H]; [left|now right].
    assert (hi * k_fee q <= al * k_fee q) by (apply N.mul_le_mono_r; lia). lia.
Qed.
Lemma afford_unlimited q : unlimited q -> match k_value q with Some v => v < k_balance q | None => True end ->
  afford q (ceiling q) = Some (ceiling q).
Proof.
  intros U V. unfold afford. destruct (N.eqb_spec (k_fee q) 0) as [E|E]; [reflexivity|].
  destruct U as [U|U]; [contradiction|].
  assert (X : exists x, (match k_value q with Some v => if k_balance q <=? v then None else Some (k_balance q - v) | None => Some (k_balance q) end) = Some x /\
    ceiling q * k_fee q <= x).
  { destruct (k_value q) as [v|]; [|exists (k_balance q); split; [reflexivity|lia]].
    destruct (N.leb_spec (k_balance q) v); [lia|]. exists (k_balance q - v). split; [reflexivity|lia]. }
  destruct X as (x & -> & X). assert (C : ceiling q <= x / k_fee q) by (apply N.div_le_lower_bound; lia).
  rewrite (proj2 (N.ltb_ge (x / k_fee q) (ceiling q)) C). now rewrite andb_false_r.
Qed.
Lemma ceiling_cap q : k_cap q <> 0 -> ceiling q <= k_cap q.
Proof.
  intros H. unfold ceiling. set (h := match _ with Some g => g | None => _ end). clearbody h.
  destruct (N.eqb_spec (k_cap q) 0); [contradiction|]. cbn [negb andb]. destruct (N.ltb_spec (k_cap q) h); lia.
Qed.

(* An estimate is a limit with which the message runs, and with one unit less it fails.  It is at most the limits the
   caller and the node named, and the sender can pay for it.  Said here for senders whose funds do not limit the search. *)
Theorem C102_estimate_runs_partial try fuel q g : k_cap q < 2 ^ 63 -> unlimited q -> estimate try fuel q = Gas g ->
  runs try g /\ (g <= 21000 \/ fails try (g - 1)) /\ g <= ceiling q /\ g <= k_cap q.
Proof.
  intros C63 U. unfold estimate. destruct (N.ltb_spec (k_cap q) 21000) as [|C]; [discriminate|].
  destruct (afford q (ceiling q)) as [hi|] eqn:Af; [|discriminate].
  assert (Hh : hi = ceiling q).
  { assert (V : match k_value q with Some v => k_fee q = 0 \/ v < k_balance q | None => True end).
    { unfold afford in Af. destruct (N.eqb_spec (k_fee q) 0); [destruct (k_value q); auto|].
      destruct (k_value q) as [v|]; [|exact Logic.I]. destruct (N.leb_spec (k_balance q) v); [discriminate|now right]. }
    destruct (N.eqb_spec (k_fee q) 0) as [E|E].
    - unfold afford in Af. rewrite (proj2 (N.eqb_eq _ _) E) in Af. now inversion Af.
    - rewrite afford_unlimited in Af; [now inversion Af|exact U|]. destruct (k_value q); [|exact Logic.I]. destruct V; [contradiction|auto]. }
  assert (Hc := ceiling_cap q ltac:(lia)). clear Af. subst hi.
  destruct (bin_search try fuel 20999 (ceiling q)) as [h| |] eqn:B; [|discriminate..].
  assert (S : h <= ceiling q /\ (h = ceiling q \/ runs try h) /\ (h <= 21000 \/ fails try (h - 1))).
  { destruct (N.ltb_spec 20999 (ceiling q)) as [Q|Q].
    - destruct (found_sound _ _ _ _ _ (N.le_lt_trans _ _ _ Hc C63) Q B) as (S1 & S2 & S3). split; [lia|]. split; [exact S2|].
      destruct S3 as [S3|S3]; [left; lia|now right].
    - rewrite low_bound in B by lia. inversion B. subst. split; [lia|]. split; [now left|left; lia]. }
  destruct S as (S1 & S2 & S3). intros E.
  assert (X : h = g /\ runs try h).
  { destruct (N.eqb_spec h (ceiling q)) as [Q|Q].
    - destruct (try h) as [|[[[] ret]|]|] eqn:T; try discriminate. split; [congruence|exact T].
    - destruct S2 as [S2|S2]; [contradiction|]. split; [congruence|exact S2]. }
  destruct X as [-> X]. split; [exact X|]. split; [exact S3|]. lia.
Qed.
(* When more gas never hurts, it is the least limit with which the message runs. *)
Theorem C102_least_partial try fuel q g : k_cap q < 2 ^ 63 -> unlimited q -> monotone try -> (forall g, g < 21000 -> ~ runs try g) ->
  estimate try fuel q = Gas g -> forall g', runs try g' <-> g <= g'.
Proof.
  intros C63 U Mo Lo E. destruct (C102_estimate_runs_partial _ _ _ _ C63 U E) as (R & Le & _). intros g'. split; [|intros L; exact (Mo _ _ L R)].
  intros R'. destruct (N.leb_spec g g') as [|H]; [auto|]. exfalso.
  destruct Le as [Le|[why Le]].
  - apply (Lo g'); [lia|exact R'].
  - apply (Mo g' (g - 1)) in R'; [|lia]. unfold runs in R'. congruence.
Qed.
(* The sender can pay for what is estimated. *)
Theorem C102_affordable try fuel q g : k_cap q < 2 ^ 63 -> k_fee q <> 0 -> estimate try fuel q = Gas g ->
  g * k_fee q + match k_value q with Some v => v | None => 0 end <= k_balance q.
Proof.
  intros C63 Kf. unfold estimate. destruct (N.ltb_spec (k_cap q) 21000) as [|C]; [discriminate|].
  destruct (afford q (ceiling q)) as [hi|] eqn:Af; [|discriminate]. destruct (afford_le _ _ _ Af) as (A1 & _ & A3).
  assert (Hc := ceiling_cap q ltac:(lia)). specialize (A3 Kf).
  destruct (bin_search try fuel 20999 hi) as [h| |] eqn:B; [|discriminate..].
  assert (Hh : h <= hi).
  { destruct (N.ltb_spec 20999 hi) as [Q|Q].
    - destruct (found_sound _ _ _ _ _ (N.le_lt_trans _ _ _ (N.le_trans _ _ _ A1 Hc) C63) Q B) as (S1 & _). lia.
    - rewrite low_bound in B by lia. inversion B. lia. }
  intros E. assert (X : h = g).
  { destruct (h =? ceiling q); [|now inversion E]. destruct (try h) as [|[[[] ret]|]|]; try discriminate. now inversion E. }
  subst g. destruct A3 as [A3|A3].
  - assert (h * k_fee q <= hi * k_fee q) by (apply N.mul_le_mono_r; exact Hh). lia.
  - exfalso. rewrite U64_val in A3. change (2 ^ 63) with 9223372036854775808 in C63. lia.
Qed.
(* An estimate is given whenever the message runs with the highest limit and nothing breaks the trials; the search makes at
   most 63 of them. *)
Theorem C102_answered try fuel q : k_cap q < 2 ^ 63 -> (63 <= fuel)%nat -> 21000 <= k_cap q -> unlimited q ->
  match k_value q with Some v => v < k_balance q | None => True end ->
  (forall g, g <= ceiling q -> try g <> Aborts) -> runs try (ceiling q) -> exists g, estimate try fuel q = Gas g.
Proof.
  intros C63 F C U V A R. unfold estimate. rewrite (proj2 (N.ltb_ge _ _) C), (afford_unlimited q U V).
  assert (Hc := ceiling_cap q ltac:(lia)).
  assert (B : exists h, bin_search try fuel 20999 (ceiling q) = Found h).
  { destruct (N.ltb_spec 20999 (ceiling q)) as [Q|Q]; [|exists (ceiling q); apply low_bound; lia].
    destruct (bin_search try fuel 20999 (ceiling q)) as [h| |] eqn:E; [eauto| |]; exfalso.
    - apply (search_aborts try fuel 20999 (ceiling q)) in E; [exact E|lia|exact Q|]. intros g Hg. apply A. lia.
    - apply (search_ends try fuel 20999 (ceiling q)) in E; [exact E|lia|exact Q|].
      apply N.le_trans with (2 ^ 63); [lia|]. apply N.pow_le_mono_r; lia. }
  destruct B as [h ->]. destruct (N.eqb_spec h (ceiling q)) as [Q|]; [|eauto]. subst h. rewrite R. eauto.
Qed.
(* A reason for a revert comes from the run with the highest limit. *)
Theorem C102_revert try fuel q ret : estimate try fuel q = Reverts ret -> try (ceiling q) = Fails (Some (EReverted, ret)).
Proof.
  unfold estimate. destruct (k_cap q <? 21000); [discriminate|]. destruct (afford q (ceiling q)); [|discriminate].
  destruct (bin_search _ _ _ _) as [h| |]; [|discriminate..]. destruct (N.eqb_spec h (ceiling q)) as [->|]; [|discriminate].
  destruct (try (ceiling q)) as [|[[[] r]|]|]; try discriminate. now intros [= ->].
Qed.
Print Assumptions C102_estimate_runs_partial.
Print Assumptions C102_least_partial.
Print Assumptions C102_affordable.
Print Assumptions C102_answered.
Print Assumptions C102_revert.

Section Messages.
Variable keccak : bytes -> N.
Variable committed : N -> N -> N.
Variable B : block.
Variable is_pre : N -> bool.
Variable pre_gas : N -> bytes -> N.
Variable pre_run : bool -> N -> N -> bytes -> N -> N -> world -> bytes * option verr * N * world.
Variable call_allowed : N -> N -> bool.
Variable create_allowed : N -> bool.
Variable pre_list : list N.
Let apply_message := apply_message keccak committed B is_pre pre_gas pre_run call_allowed create_allowed pre_list.

(* what the estimate is about: the message with that limit, in that world *)
Definition succeeds (depth : nat) (w : world) (M : msg) (g : N) : Prop :=
  exists r, apply_message depth (with_gas M g) w = Ok r /\ r_err r = None.

Theorem C102_message_partial depth fuel w M q : polite committed is_pre pre_run -> fresh committed w ->
  is_bytes (g_data M) -> blen (g_data M) < 2 ^ 63 -> 200 * k_cap q < 2 ^ 63 -> k_cap q < N.of_nat depth ->
  price_to_send (g_data M) (g_list M) (creates M) < 2 ^ 64 -> (63 <= fuel)%nat -> 21000 <= k_cap q ->
  unlimited q -> match k_value q with Some v => v < k_balance q | None => True end ->
  let answer := estimate (try_message (fun M => apply_message depth M w) M) fuel q in
  (forall g, answer = Gas g -> succeeds depth w M g /\ (g <= 21000 \/ ~ succeeds depth w M (g - 1)) /\ g <= k_cap q) /\
  (succeeds depth w M (ceiling q) -> exists g, answer = Gas g) /\
  answer <> Never.
Proof.
  intros P Fr Ib Lb Cs Cd Pr Fu C2 U V. set (try := try_message _ M).
  assert (Hc := ceiling_cap q ltac:(lia)).
  assert (C63 : k_cap q < 2 ^ 63) by (change (2 ^ 63) with 9223372036854775808 in *; lia).
  assert (T : forall g, g <= k_cap q -> (runs try g <-> succeeds depth w M g) /\ try g <> Aborts).
  { intros g Hg. unfold runs, succeeds, try, try_message. fold (creates M). rewrite (C101_price _ _ _ Pr).
    assert (Pp : proper (with_gas M g)).
    { split; [|exact Pr]. split; [exact Ib|]. split; [exact Lb|]. cbn [g_gas with_gas]. lia. }
    destruct (C101_charge keccak committed B is_pre pre_gas pre_run call_allowed create_allowed pre_list depth (with_gas M g) w P Fr Pp) as [Q1 Q2].
    { cbn [g_gas with_gas]. lia. }
    change (price_to_send (g_data (with_gas M g)) (g_list (with_gas M g)) (creates (with_gas M g))) with (price_to_send (g_data M) (g_list M) (creates M)) in *.
    cbn [g_gas with_gas] in Q1, Q2. fold apply_message in Q1, Q2. destruct (N.ltb_spec g (price_to_send (g_data M) (g_list M) (creates M))) as [L|L].
    - specialize (Q1 L). split; [|discriminate]. split; [discriminate|]. intros (r & E & _). change (apply_message depth (with_gas M g) w = Err) in Q1. congruence.
    - destruct (Q2 L) as (r & sp & E & _). change (apply_message depth (with_gas M g) w = Ok r) in E. rewrite E.
      destruct (r_err r) eqn:Er; (split; [|discriminate]); split; try discriminate.
      + intros (r' & E' & Er'). congruence.
      + intros _. eauto.
      + reflexivity. }
  split; [|split].
  - intros g E. destruct (C102_estimate_runs_partial _ _ _ _ C63 U E) as (R & L & _ & Lc). split; [now apply T|]. split; [|exact Lc].
    destruct L as [L|[why L]]; [now left|right]. intros S. apply (proj1 (T (g - 1) ltac:(lia))) in S. unfold runs in S. congruence.
  - intros S. apply C102_answered; auto; [|apply T; [exact Hc|exact S]]. intros g Hg. apply T. lia.
  - unfold estimate. destruct (k_cap q <? 21000); [discriminate|]. rewrite (afford_unlimited q U V).
    destruct (bin_search try fuel 20999 (ceiling q)) as [h| |] eqn:E; [|discriminate|].
    + destruct (h =? ceiling q); [|discriminate]. destruct (try h) as [|[[[] ret]|]|]; discriminate.
    + exfalso. destruct (N.ltb_spec 20999 (ceiling q)) as [Q|Q]; [|rewrite low_bound in E by lia; discriminate].
      apply (search_ends try fuel 20999 (ceiling q)) in E; [exact E|lia|exact Q|].
      apply N.le_trans with (2 ^ 63); [lia|]. apply N.pow_le_mono_r; lia.
Qed.
End Messages.
Print Assumptions C102_message_partial.

(* a user asks about a call of the storing contract: 21000 + 44200 for two fresh slots' writes + 29, though 4800 are given back *)
Definition xmsg : msg := Msg 0xE0 (Some 0xA1) 3 0 0 [] [].
Definition xtry (w : world) (M : msg) : N -> trial :=
  try_message (fun M => apply_message xhash xcommitted xblock no_pre pre_cost pre_nothing all2 all1 [1; 2] (N.to_nat 200000) M w) M.
Definition xask : ask := Ask None 100000 (-1)%Z 0 None 1000.
Example C102_hypotheses :
  polite xcommitted no_pre pre_nothing /\ fresh xcommitted (xworld storing) /\ is_bytes (g_data xmsg) /\ unlimited xask /\
  200 * k_cap xask < 2 ^ 63 /\ price_to_send (g_data xmsg) (g_list xmsg) (creates xmsg) < 2 ^ 64.
Proof.
  split; [exact xpolite|]. split; [apply xfresh; [repeat (constructor; [reflexivity|]); constructor|reflexivity]|].
  split; [constructor|]. split; [now left|]. split; reflexivity.
Qed.
Example C102_concrete :
  estimate (xtry (xworld storing) xmsg) 63 xask = Gas (21000 + 22100 + 5000 + 29) /\
  xtry (xworld storing) xmsg (21000 + 22100 + 5000 + 29) = Runs /\
  estimate (xtry (xworld looping) xmsg) 63 xask = Refused /\
  estimate (xtry (xworld [0x60;0;0x60;0;0xfd]) xmsg) 63 xask = Reverts [].
Proof. vm_compute. repeat split. Qed.

(* The exception: the highest limit is compared with the one before the funds of the sender were looked at.  Somebody who
   can pay for 30000 gas is told that 30000 suffice, and the transaction then fails. *)
Definition poor_ask : ask := Ask None 100000 (-1)%Z 2 None 60000.
Theorem C102_funds_refuted :
  estimate (xtry (xworld storing) xmsg) 63 poor_ask = Gas 30000 /\
  (exists why, xtry (xworld storing) xmsg 30000 = Fails (Some (EOutOfGas, why))) /\
  estimate (xtry (xworld storing) xmsg) 63 (Ask None 30000 (-1)%Z 0 None 60000) = Refused.
Proof. split; [vm_compute; reflexivity|]. split; [exists []; vm_compute; reflexivity|vm_compute; reflexivity]. Qed.

(* The sum in the search is taken in 64 bits.  With a gas limit and a cap of 2^64-1, which whoever asks may choose, and a message that fails
   with every limit, such as a payment of more than there is, the search never ends. *)
Definition big_ask : ask := Ask (Some 18446744073709551615) 18446744073709551615 (-1)%Z 0 None 1000.
Definition rich_msg : msg := Msg 0xE0 (Some 0xA1) 3 0 2000 [] [].
Lemma never_ends try fuel lo : lo < 9223372036854775808 -> (forall g, fails try g) ->
  bin_search try fuel lo 18446744073709551615 = SLoop.
Proof.
  intros L F. revert lo L. induction fuel as [|n IH]; intros lo L; cbn [bin_search]; rewrite U64_val; rewrite (N.mod_small (lo + 1)) by lia.
  - destruct (N.ltb_spec (lo + 1) 18446744073709551615); [reflexivity|lia].
  - destruct (N.ltb_spec (lo + 1) 18446744073709551615); [|lia]. cbn zeta.
    destruct (F ((18446744073709551615 + lo) mod 18446744073709551616 / 2)) as [why ->]. apply IH.
    apply N.div_lt_upper_bound; [lia|]. change (2 * 9223372036854775808) with 18446744073709551616. apply N.mod_upper_bound. lia.
Qed.
Theorem C102_endless_refuted : forall fuel, estimate (xtry (xworld storing) rich_msg) fuel big_ask = Never.
Proof.
  intros fuel. unfold estimate. change (k_cap big_ask <? 21000) with false. cbv iota.
  change (ceiling big_ask) with 18446744073709551615. change (afford big_ask 18446744073709551615) with (Some 18446744073709551615).
  cbv iota beta zeta. rewrite never_ends; [reflexivity|reflexivity|].
  intros g. unfold fails, xtry, try_message. change (intrinsic _ _ _) with (Ok 21000). cbv iota.
  destruct (N.ltb_spec g 21000) as [L|L]; [eauto|]. unfold apply_message. change (intrinsic _ _ _) with (Ok 21000).
  cbn [rbind g_gas with_gas g_to rich_msg]. rewrite (proj2 (N.ltb_ge _ _) L).
  unfold top_call, evm_call, all2. cbn [negb]. change (1024 <? 0) with false. cbv iota.
  cbn [g_value with_gas g_from rich_msg]. change (2000 =? 0) with false. cbn [negb andb].
  set (w1 := prepare _ _ _ _ _). change (can_transfer w1 0xE0 2000) with false. cbn [negb refuse]. cbv iota beta.
  destruct (N.ltb_spec g (g - 21000)); [lia|]. cbn [r_err r_ret]. eauto.
Qed.
Print Assumptions C102_funds_refuted.
Print Assumptions C102_endless_refuted.
