(* C98: what the instructions that move data do. *)
From Coq Require Import NArith Nnat.
From Verif Require Import Lib.Base Lib.Bytes Evm.Words Evm.World Evm.Memory Evm.Table Evm.Interp Evm.MemoryProofs Evm.TableProofs
  Evm.StepProofs Evm.SafeProofs Evm.AnalysisSpec Evm.Analysis Evm.AnalysisProofs Evm.DataSpec Evm.DataProofs Evm.PropsJump Evm.PropsWords Evm.Example.
Open Scope N_scope.

Section Props.
Variable keccak : bytes -> N.
Variable committed : N -> N -> N.
Variable B : block.
Variable is_pre : N -> bool.
Variable pre_gas : N -> bytes -> N.
Variable pre_run : bool -> N -> N -> bytes -> N -> N -> world -> bytes * option verr * N * world.
Variable call_allowed : N -> N -> bool.
Variable create_allowed : N -> bool.
Variable rec : frame -> mach -> xres.
Let step := step keccak committed B is_pre pre_gas pre_run call_allowed create_allowed rec.
Let execute := execute keccak committed B is_pre pre_gas pre_run call_allowed create_allowed rec.

Lemma step_eq F m op i g : runs F m op -> operation_of op = canon i g ->
  step F m = match pay keccak committed F m (canon i g) with inr r => r | inl (m', cg) => execute F m' cg i end.
Proof. intros R E. apply runs_get in R. unfold step, Interp.step. rewrite R, E. reflexivity. Qed.

(* an instruction with a constant price *)
Lemma plain F m op i g : runs F m op -> operation_of op = canon i g -> dyn_of i = DNone ->
  pops i <= N.of_nat (length (m_stack m)) -> N.of_nat (length (m_stack m)) + pushes i <= 1024 + pops i ->
  (g <= m_gas m -> step F m = execute F (set_gas m (m_gas m - g)) 0 i) /\ (m_gas m < g -> step F m = out_of_gas m).
Proof.
  intros R E D P1 P2. rewrite (step_eq F m op i g R E). unfold pay. cbn [canon op_min op_max op_gas op_dyn op_mem]. rewrite D.
  destruct (N.ltb_spec (N.of_nat (length (m_stack m))) (pops i)) as [|_]; [lia|].
  destruct (N.ltb_spec (1024 + pops i - pushes i) (N.of_nat (length (m_stack m)))) as [|_]; [lia|].
  destruct (N.ltb_spec (m_gas m) g); split; intros; try lia; reflexivity.
Qed.

(* an instruction that pays for memory *)
Lemma memory F m op i g c hi :
  runs F m op -> operation_of op = canon i g -> 
  (dyn_of i = DMem /\ c = 0 \/ exists pos per x, (dyn_of i = DCopy pos /\ per = 3 \/ dyn_of i = DKeccak /\ per = 6 /\ pos = 1%nat \/ dyn_of i = DCreate2 /\ per = 6 /\ pos = 2%nat) /\
     nth_error (m_stack m) pos = Some x /\ (x < U64 \/ U64 <= hi) /\ c = per * ((x + 31) / 32)) ->
  pops i <= N.of_nat (length (m_stack m)) -> N.of_nat (length (m_stack m)) + pushes i <= 1024 + pops i ->
  paid m -> m_gas m < 2 ^ 64 -> g < 2 ^ 32 ->
  mem_size (mem_of i) (m_stack m) = (if hi <? U64 then Ok hi else Err) ->
  (affordable m (g + c) hi ->
     exists m' size, step F m = execute F m' 0 i /\ m_stack m' = m_stack m /\ m_pc m' = m_pc m /\
       m_ret m' = m_ret m /\ m_world m' = m_world m /\ mem_words (mem_of i) (m_stack m) = Ok size /\ m_mem m' = grow (m_mem m) size /\
       blen (grow (m_mem m) size) < 2 ^ 37 /\ charged m (g + c) hi m') /\
  (~ affordable m (g + c) hi -> ends_badly m (step F m)).
Proof.
  intros R E C P1 P2 OK G Gs Ms. rewrite (step_eq F m op i g R E). apply paid_ok in OK.
  destruct (mem_pay keccak committed F m i g c hi (dyn_of i) (m_world m)) as [Y1 Y2]; auto.
  - destruct C as [[-> _]|(pos & per & x & [[-> _]|[[-> _]|[-> _]]] & _)]; discriminate.
  - intros size Em. destruct C as [[-> _]|(pos & per & x & [[-> _]|[[-> _]|[-> _]]] & _)]; cbn [dynamic set_gas m_stack m_mem m_last m_world];
      rewrite Em; reflexivity.
  - intros size fee last' Hh _ Em Hf. destruct C as [[-> ->]|(pos & per & x & Cp & Nx & Lx & ->)].
    + cbn [dynamic set_gas m_stack m_mem m_last m_world]. rewrite Em. cbn [rbind fst snd]. now rewrite N.add_0_r.
    + destruct Lx as [Lx|]; [|lia].
      assert (Lw : (x + 31) / 32 <= 576460752303423488).
      { change 576460752303423488 with ((18446744073709551615 + 31) / 32). apply N.div_le_mono; rewrite ?U64_val in *; lia. }
      assert (W : word_cost (m_stack m) pos per = Ok (per * ((x + 31) / 32))).
      { unfold word_cost, back. rewrite Nx. cbn [rbind]. rewrite words_div by exact Lx.
        destruct (N.leb_spec U64 x) as [|_]; [lia|]. unfold safe_mul. rewrite U64_val.
        destruct (N.leb_spec 18446744073709551616 ((x + 31) / 32 * per)); [|f_equal; lia].
        assert (per <= 6) by lia. assert ((x + 31) / 32 * per <= 576460752303423488 * 6) by (apply N.mul_le_mono; lia). lia. }
      assert (Sa : safe_add fee (per * ((x + 31) / 32)) = Ok (fee + per * ((x + 31) / 32))).
      { unfold safe_add. rewrite U64_val. change (2 ^ 56) with 72057594037927936 in Hf.
        assert (per <= 6) by lia. assert (per * ((x + 31) / 32) <= 6 * 576460752303423488) by (apply N.mul_le_mono; lia).
        destruct (N.leb_spec 18446744073709551616 (fee + per * ((x + 31) / 32))); [lia|reflexivity]. }
      destruct Cp as [[-> ->]|[(-> & -> & ->)|(-> & -> & ->)]]; cbn [dynamic set_gas m_stack m_mem m_last m_world]; rewrite Em; cbn [rbind fst snd];
        rewrite W; cbn [rbind]; rewrite Sa; reflexivity.
  - split.
    + intros A. destruct (Y1 A) as (m' & size & -> & Y). exists m', size. split; [reflexivity|exact Y].
    + intros A. destruct (Y2 A) as (e & g' & -> & Y). exists e, g'. auto.
Qed.

(* ---- memory ---- *)
(* MSTORE writes the 32 bytes of a word, MSTORE8 its last byte; all other bytes of memory stay. *)
Theorem C98_mstore F m off v st :
  runs F m 0x52 -> m_stack m = off :: v :: st -> N.of_nat (length (m_stack m)) <= 1024 -> paid m -> m_gas m < 2 ^ 64 ->
  (affordable m 3 (off + 32) ->
     exists m', step F m = SNext m' /\ charged m 3 (off + 32) m' /\ moved m m' /\ m_stack m' = st /\
       patched (m_mem m) (m_mem m') off 32 (word_byte v)) /\
  (~ affordable m 3 (off + 32) -> ends_badly m (step F m)).
Proof.
  intros R S L P G. rewrite S in L. cbn [length] in L.
  destruct (memory F m 0x52 IMstore 3 0 (off + 32) R eq_refl) as [Y1 Y2]; auto; try reflexivity;
    rewrite ?S; cbn [pops pushes length mem_of mem_size]; try lia.
  { unfold back. cbn [nth_error rbind]. now rewrite calc_uint_reach. }
  split; [|exact Y2]. intros A. destruct (Y1 A) as (m1 & size & Ep & Es & Epc & Er & Ew & Em & Eg & Lb & Ch). clear Y1 Y2.
  rewrite S in Es, Em. destruct (fix_operands _ _ _ _ _ _ Em Lb ltac:(discriminate) (eq_refl : nth_error (off :: v :: st) 0 = Some off)) as [Lo I].
  destruct (mset_patched (m_mem m) size off 32 (to_be 32 v) I) as (mem' & E1 & E2 & E3); [unfold blen; now rewrite to_be_len|].
  eexists. split.
  { rewrite Ep. unfold execute, Interp.execute, local. rewrite Es, Eg, Lo, E1. cbn [rbind]. reflexivity. }
  split. { eapply charged_ext; [exact Ch|reflexivity..|]. cbn [m_mem]. rewrite Eg. exact E2. }
  split. { unfold moved. cbn. rewrite Epc. auto. }
  split; [reflexivity|]. cbn [m_mem]. eapply patched_ext; [exact E3|]. intros i Hi. cbv beta.
  rewrite to_be_bytes by (exact Hi). reflexivity.
Qed.
Theorem C98_mstore8 F m off v st :
  runs F m 0x53 -> m_stack m = off :: v :: st -> N.of_nat (length (m_stack m)) <= 1024 -> paid m -> m_gas m < 2 ^ 64 ->
  (affordable m 3 (off + 1) ->
     exists m', step F m = SNext m' /\ charged m 3 (off + 1) m' /\ moved m m' /\ m_stack m' = st /\
       patched (m_mem m) (m_mem m') off 1 (fun _ => v mod 256)) /\
  (~ affordable m 3 (off + 1) -> ends_badly m (step F m)).
Proof.
  intros R S L P G. rewrite S in L. cbn [length] in L.
  destruct (memory F m 0x53 IMstore8 3 0 (off + 1) R eq_refl) as [Y1 Y2]; auto; try reflexivity;
    rewrite ?S; cbn [pops pushes length mem_of mem_size]; try lia.
  { unfold back. cbn [nth_error rbind]. now rewrite calc_uint_reach. }
  split; [|exact Y2]. intros A. destruct (Y1 A) as (m1 & size & Ep & Es & Epc & Er & Ew & Em & Eg & Lb & Ch). clear Y1 Y2.
  rewrite S in Es, Em. destruct (fix_operands _ _ _ _ _ _ Em Lb ltac:(discriminate) (eq_refl : nth_error (off :: v :: st) 0 = Some off)) as [Lo I].
  destruct (mset_patched (m_mem m) size off 1 [v mod 256] I eq_refl) as (mem' & E1 & E2 & E3).
  eexists. split.
  { rewrite Ep. unfold execute, Interp.execute, local. rewrite Es, Eg, Lo, E1. cbn [rbind]. reflexivity. }
  split. { eapply charged_ext; [exact Ch|reflexivity..|]. cbn [m_mem]. rewrite Eg. exact E2. }
  split. { unfold moved. cbn. rewrite Epc. auto. }
  split; [reflexivity|]. cbn [m_mem]. eapply patched_ext; [exact E3|]. intros i Hi. cbv beta.
  replace i with 0 by lia. reflexivity.
Qed.
(* MLOAD reads the number in the 32 bytes at off; memory reads as before. *)
Theorem C98_mload F m off st :
  runs F m 0x51 -> m_stack m = off :: st -> N.of_nat (length (m_stack m)) <= 1024 -> paid m -> m_gas m < 2 ^ 64 ->
  (affordable m 3 (off + 32) ->
     exists m', step F m = SNext m' /\ charged m 3 (off + 32) m' /\ moved m m' /\
       m_stack m' = number (fun i => byte_at (m_mem m) (off + i)) 32 :: st /\
       forall i, byte_at (m_mem m') i = byte_at (m_mem m) i) /\
  (~ affordable m 3 (off + 32) -> ends_badly m (step F m)).
Proof.
  intros R S L P G. rewrite S in L. cbn [length] in L.
  destruct (memory F m 0x51 IMload 3 0 (off + 32) R eq_refl) as [Y1 Y2]; auto; try reflexivity;
    rewrite ?S; cbn [pops pushes length mem_of mem_size]; try lia.
  { unfold back. cbn [nth_error rbind]. now rewrite calc_uint_reach. }
  split; [|exact Y2]. intros A. destruct (Y1 A) as (m1 & size & Ep & Es & Epc & Er & Ew & Em & Eg & Lb & Ch). clear Y1 Y2.
  rewrite S in Es, Em. destruct (fix_operands _ _ _ _ _ _ Em Lb ltac:(discriminate) (eq_refl : nth_error (off :: st) 0 = Some off)) as [Lo I].
  assert (E1 := mget_area_ok _ _ _ _ I).
  eexists. split.
  { rewrite Ep. unfold execute, Interp.execute, local. rewrite Es, Eg, Lo, E1. cbn [rbind]. reflexivity. }
  split. { eapply charged_ext; [exact Ch|reflexivity..|]. cbn [m_mem]. now rewrite Eg. }
  split. { unfold moved. cbn. rewrite Epc. auto. }
  split.
  - cbn [m_stack]. destruct (mget_bytes _ _ _ _ E1 I) as [La Ba].
    rewrite (be_of (area (m_mem m) off 32) 32 (fun i => byte_at (m_mem m) (off + i)) La); [reflexivity|].
    intros i Hi. rewrite (Ba i Hi). apply byte_at_grow.
  - intros i. cbn [m_mem]. apply byte_at_grow.
Qed.

(* KECCAK256: the hash of an area of memory *)
Theorem C98_keccak F m off len st :
  runs F m 0x20 -> m_stack m = off :: len :: st -> N.of_nat (length (m_stack m)) <= 1024 -> paid m -> m_gas m < 2 ^ 64 ->
  let price := 30 + 6 * ((len + 31) / 32) in
  (affordable m price (reach off len) ->
     exists m', step F m = SNext m' /\ charged m price (reach off len) m' /\ moved m m' /\
       m_stack m' = keccak (area (m_mem m) off len) :: st /\ forall i, byte_at (m_mem m') i = byte_at (m_mem m) i) /\
  (~ affordable m price (reach off len) -> ends_badly m (step F m)).
Proof.
  intros R S L P G price. rewrite S in L. cbn [length] in L.
  destruct (memory F m 0x20 IKeccak 30 (6 * ((len + 31) / 32)) (reach off len) R eq_refl) as [Y1 Y2]; auto; try reflexivity;
    rewrite ?S; cbn [pops pushes length mem_of mem_size]; try lia.
  { right. exists 1%nat, 6, len. split; [right; auto|]. split; [reflexivity|]. split; [|reflexivity].
    unfold reach. destruct (N.eqb_spec len 0) as [->|]; [left; reflexivity|]. destruct (N.ltb_spec len U64); [now left|right; lia]. }
  { unfold back. cbn [nth_error rbind]. now rewrite calc_reach. }
  fold price in Y1, Y2. split; [|exact Y2]. intros A. destruct (Y1 A) as (m1 & size & Ep & Es & Epc & Er & Ew & Em & Eg & Lb & Ch). clear Y1 Y2.
  rewrite S in Es, Em. cbn [mem_of] in Em. assert (E1 := take_at 0 1 _ _ _ off len Em Lb eq_refl eq_refl).
  eexists. split.
  { rewrite Ep. unfold execute, Interp.execute, local. rewrite Es, Eg, E1. cbn [rbind]. reflexivity. }
  split. { eapply charged_ext; [exact Ch|reflexivity..|]. cbn [m_mem]. now rewrite Eg. }
  split. { unfold moved. cbn. rewrite Epc. auto. }
  split; [reflexivity|]. intros i. cbn [m_mem]. apply byte_at_grow.
Qed.

(* CALLDATACOPY and CODECOPY: bytes of the input or of the code, zeros beyond their end *)
Theorem C98_copy F m op src mo off len st :
  (op = 0x37 /\ src = f_input F) \/ (op = 0x39 /\ src = f_code F) ->
  runs F m op -> m_stack m = mo :: off :: len :: st -> N.of_nat (length (m_stack m)) <= 1024 -> paid m -> m_gas m < 2 ^ 64 ->
  blen src < 2 ^ 63 ->
  let price := 3 + 3 * ((len + 31) / 32) in
  (affordable m price (reach mo len) ->
     exists m', step F m = SNext m' /\ charged m price (reach mo len) m' /\ moved m m' /\ m_stack m' = st /\
       patched (m_mem m) (m_mem m') mo len (fun i => byte_at src (off + i))) /\
  (~ affordable m price (reach mo len) -> ends_badly m (step F m)).
Proof.
  intros Op R S L P G Ls price. rewrite S in L. cbn [length] in L.
  set (o := if op =? 0x37 then CCallData else CCode).
  assert (Eop : operation_of op = canon (ICopy o) 3) by (unfold o; destruct Op as [[-> _]|[-> _]]; reflexivity).
  destruct (memory F m op (ICopy o) 3 (3 * ((len + 31) / 32)) (reach mo len) R Eop) as [Y1 Y2]; auto; try reflexivity;
    rewrite ?S; cbn [pops pushes length mem_of mem_size]; try lia.
  { right. exists 2%nat, 3, len. split; [left; auto|]. split; [reflexivity|]. split; [|reflexivity].
    unfold reach. destruct (N.eqb_spec len 0) as [->|]; [left; reflexivity|]. destruct (N.ltb_spec len U64); [now left|right; lia]. }
  { unfold back. cbn [nth_error rbind]. now rewrite calc_reach. }
  fold price in Y1, Y2. split; [|exact Y2]. intros A. destruct (Y1 A) as (m1 & size & Ep & Es & Epc & Er & Ew & Em & Eg & Lb & Ch). clear Y1 Y2.
  rewrite S in Es, Em. cbn [mem_of] in Em.
  destruct (at_operands 0 2 _ _ _ mo len Em Lb eq_refl eq_refl) as (L63 & Ll & _ & _).
  assert (D : exists d, copy_source F m1 o off len = Ok d /\ blen d = len /\ forall i, i < len -> byte_at d i = byte_at src (off + i)).
  { assert (Q : copy_source F m1 o off len = get_data src (clip64 off) len).
    { unfold o. destruct Op as [[-> ->]|[-> ->]]; cbn [copy_source N.eqb Pos.eqb]; now rewrite Ll. }
    rewrite Q. assert (X : exists d, get_data src (clip64 off) len = Ok d).
    { unfold get_data. rewrite U64_val. change (2 ^ 63) with 9223372036854775808 in *.
      set (s := if blen src <? clip64 off then blen src else clip64 off).
      assert (Ls' : s <= blen src) by (unfold s; destruct (N.ltb_spec (blen src) (clip64 off)); lia). clearbody s.
      rewrite N.mod_small by lia.
      destruct (N.ltb_spec (blen src) (s + len)) as [Q1|Q1].
      - destruct (N.ltb_spec (blen src) s); [lia|eauto].
      - destruct (N.ltb_spec (s + len) s); [lia|eauto]. }
    destruct X as [d X]. exists d. split; [exact X|]. destruct (get_data_bytes _ _ _ _ X Ls L63) as [Q1 Q2]. split; [exact Q1|].
    intros i Hi. rewrite (Q2 i Hi). unfold clip64. destruct (N.leb_spec U64 off) as [Big|_]; [|reflexivity].
    change (2 ^ 63) with 9223372036854775808 in *. rewrite U64_val in *. rewrite !byte_at_out by lia. reflexivity. }
  destruct D as (d & D1 & D2 & D3).
  destruct (put_at 0 2 _ _ (m_mem m) mo len d Em Lb eq_refl eq_refl D2) as (mem' & E1 & E2 & E3).
  eexists. split.
  { rewrite Ep. unfold execute, Interp.execute, local. rewrite Es, Eg, D1. cbn [rbind]. rewrite E1. cbn [rbind]. reflexivity. }
  split. { eapply charged_ext; [exact Ch|reflexivity..|]. cbn [m_mem]. rewrite Eg. exact E2. }
  split. { unfold moved. cbn. rewrite Epc. auto. }
  split; [reflexivity|]. cbn [m_mem]. eapply patched_ext; [exact E3|exact D3].
Qed.

(* RETURNDATACOPY: bytes of the data the last call returned; reading beyond their end is an error *)
Theorem C98_returndatacopy F m mo off len st :
  runs F m 0x3e -> m_stack m = mo :: off :: len :: st -> N.of_nat (length (m_stack m)) <= 1024 -> paid m -> m_gas m < 2 ^ 64 ->
  blen (m_ret m) < 2 ^ 64 -> 
  let price := 3 + 3 * ((len + 31) / 32) in
  (affordable m price (reach mo len) -> off + len <= blen (m_ret m) ->
     exists m', step F m = SNext m' /\ charged m price (reach mo len) m' /\ moved m m' /\ m_stack m' = st /\
       patched (m_mem m) (m_mem m') mo len (fun i => byte_at (m_ret m) (off + i))) /\
  (~ (affordable m price (reach mo len) /\ off + len <= blen (m_ret m)) -> off < 2 ^ 256 -> ends_badly m (step F m)).
Proof.
  intros R S L P G Lr price. rewrite S in L. cbn [length] in L.
  destruct (memory F m 0x3e (ICopy CReturnData) 3 (3 * ((len + 31) / 32)) (reach mo len) R eq_refl) as [Y1 Y2]; auto; try reflexivity;
    rewrite ?S; cbn [pops pushes length mem_of mem_size]; try lia.
  { right. exists 2%nat, 3, len. split; [left; auto|]. split; [reflexivity|]. split; [|reflexivity].
    unfold reach. destruct (N.eqb_spec len 0) as [->|]; [left; reflexivity|]. destruct (N.ltb_spec len U64); [now left|right; lia]. }
  { unfold back. cbn [nth_error rbind]. now rewrite calc_reach. }
  fold price in Y1, Y2. change (2 ^ 64) with U64 in Lr.
  assert (X : affordable m price (reach mo len) -> exists m1 size, step F m = execute F m1 0 (ICopy CReturnData) /\
     m_stack m1 = mo :: off :: len :: st /\ m_pc m1 = m_pc m /\ m_ret m1 = m_ret m /\ m_world m1 = m_world m /\
     mem_words (MAt 0 2) (mo :: off :: len :: st) = Ok size /\ m_mem m1 = grow (m_mem m) size /\
     blen (grow (m_mem m) size) < 2 ^ 37 /\ charged m price (reach mo len) m1 /\ len < 2 ^ 63 /\ lo64 len = len).
  { intros A. destruct (Y1 A) as (m1 & size & Ep & Es & Epc & Er & Ew & Em & Eg & Lb & Ch).
    rewrite S in Es, Em. cbn [mem_of] in Em. destruct (at_operands 0 2 _ _ _ mo len Em Lb eq_refl eq_refl) as (L63 & Ll & _ & _).
    exists m1, size. auto 20. }
  split.
  - intros A H. destruct (X A) as (m1 & size & Ep & Es & Epc & Er & Ew & Em & Eg & Lb & Ch & L63 & Ll). clear X Y1 Y2.
    change (2 ^ 63) with 9223372036854775808 in *. rewrite U64_val in *.
    assert (D : copy_source F m1 CReturnData off len = Ok (firstn (N.to_nat len) (skipn (N.to_nat off) (m_ret m)))).
    { cbn [copy_source]. rewrite U64_val, Er. destruct (N.leb_spec 18446744073709551616 off); [lia|].
      rewrite N.mod_small by (apply N.lt_trans with 36893488147419103232; [lia|reflexivity]).
      destruct (N.leb_spec 18446744073709551616 (off + len)); [lia|]. destruct (N.ltb_spec (blen (m_ret m)) (off + len)); [lia|].
      cbn [orb]. destruct (N.ltb_spec (off + len) off); [lia|]. do 3 f_equal. lia. }
    assert (D2 : blen (firstn (N.to_nat len) (skipn (N.to_nat off) (m_ret m))) = len).
    { apply blen_firstn. unfold blen in *. rewrite skipn_length. lia. }
    destruct (put_at 0 2 _ _ (m_mem m) mo len _ Em Lb eq_refl eq_refl D2) as (mem' & E1 & E2 & E3).
    eexists. split.
    { rewrite Ep. unfold execute, Interp.execute, local. rewrite Es, Eg, D. cbn [rbind]. rewrite E1. cbn [rbind]. reflexivity. }
    split. { eapply charged_ext; [exact Ch|reflexivity..|]. cbn [m_mem]. rewrite Eg. exact E2. }
    split. { unfold moved. cbn. rewrite Epc. auto. }
    split; [reflexivity|]. cbn [m_mem]. eapply patched_ext; [exact E3|]. intros i Hi. cbv beta.
    rewrite byte_at_firstn by exact Hi. rewrite byte_at_skipn. f_equal. lia.
  - intros H Lo. destruct (N.le_gt_cases (off + len) (blen (m_ret m))) as [Q|Q]; [apply Y2; intros A; apply H; auto|].
    assert (Dec : affordable m price (reach mo len) \/ ~ affordable m price (reach mo len)).
    { unfold affordable. destruct (N.lt_ge_cases (words_for m (reach mo len)) (2 ^ 32)) as [Q1|Q1]; [|right; intros [Z _]; apply N.lt_nge in Z; contradiction].
      destruct (N.le_gt_cases (price + mem_total (words_for m (reach mo len))) (m_gas m + m_last m)) as [Q2|Q2]; [now left|].
      right. intros [_ Z]. apply N.lt_nge in Q2. contradiction. }
    destruct Dec as [A|A]; [|now apply Y2].
    destruct (X A) as (m1 & size & Ep & Es & Epc & Er & Ew & Em & Eg & Lb & Ch & L63 & Ll). clear X Y1 Y2 H.
    assert (D : copy_source F m1 CReturnData off len = Err).
    { cbn [copy_source]. rewrite Er. destruct (N.leb_spec U64 off) as [|Lo']; [reflexivity|].
      change (2 ^ 63) with 9223372036854775808 in *. rewrite U64_val in *.
      rewrite N.mod_small by (apply N.lt_trans with 36893488147419103232; [lia|reflexivity]).
      destruct (N.leb_spec 18446744073709551616 (off + len)); [reflexivity|]. destruct (N.ltb_spec (blen (m_ret m)) (off + len)); [reflexivity|lia]. }
    exists EReturnData, (m_gas m1). split; [|reflexivity].
    rewrite Ep. unfold execute, Interp.execute, local. rewrite Es, D. cbn [rbind local_err]. unfold fail. now rewrite Ew.
Qed.

(* RETURN and REVERT give the caller an area of memory *)
Theorem C98_return F m op err off len st :
  (op = 0xf3 /\ err = None) \/ (op = 0xfd /\ err = Some EReverted) ->
  runs F m op -> m_stack m = off :: len :: st -> N.of_nat (length (m_stack m)) <= 1024 -> paid m -> m_gas m < 2 ^ 64 ->
  (affordable m 0 (reach off len) ->
     exists gas, step F m = SDone (Out (area (m_mem m) off len) err gas (m_world m)) /\
       gas + mem_total (words_for m (reach off len)) = m_gas m + m_last m) /\
  (~ affordable m 0 (reach off len) -> ends_badly m (step F m)).
Proof.
  intros Op R S L P G. rewrite S in L. cbn [length] in L.
  set (i := if op =? 0xf3 then IReturn else IRevert).
  assert (Eop : operation_of op = canon i 0) by (unfold i; destruct Op as [[-> _]|[-> _]]; reflexivity).
  assert (Di : dyn_of i = DMem /\ mem_of i = MAt 0 1 /\ pops i = 2 /\ pushes i = 0) by (unfold i; destruct (op =? 0xf3); cbn; auto).
  destruct Di as (D1 & D2 & D3 & D4).
  destruct (memory F m op i 0 0 (reach off len) R Eop) as [Y1 Y2]; auto; try reflexivity;
    rewrite ?S, ?D2, ?D3, ?D4; cbn [length mem_of mem_size]; try lia.
  { unfold back. cbn [nth_error rbind]. now rewrite calc_reach. }
  split; [|exact Y2]. intros A. destruct (Y1 A) as (m1 & size & Ep & Es & Epc & Er & Ew & Em & Eg & Lb & Ch). clear Y1 Y2.
  rewrite S, D2 in Em. rewrite S in Es. assert (E1 := take_at 0 1 _ _ _ off len Em Lb eq_refl eq_refl).
  exists (m_gas m1). split.
  - rewrite Ep. unfold i. destruct Op as [[-> ->]|[-> ->]]; cbn [N.eqb Pos.eqb]; unfold execute, Interp.execute, local; rewrite Es, Eg, E1, Ew; reflexivity.
  - destruct Ch as [Ch _]. lia.
Qed.

(* ---- stack and program counter ---- *)
(* PUSHn: the number in the n bytes of code behind the instruction, zeros beyond the end of the code *)
Theorem C98_push F m n : (1 <= n <= 32)%nat ->
  runs F m (0x5f + N.of_nat n) -> N.of_nat (length (m_stack m)) < 1024 ->
  (3 <= m_gas m -> step F m =
     SNext (Mach (m_pc m + 1 + N.of_nat n) (m_gas m - 3)
                 (number (fun i => byte_at (f_code F) (m_pc m + 1 + i)) n :: m_stack m) (m_mem m) (m_last m) (m_ret m) (m_world m))) /\
  (m_gas m < 3 -> step F m = out_of_gas m).
Proof.
  intros Hn R L.
  assert (Eop : operation_of (0x5f + N.of_nat n) = canon (IPush n) 3).
  { unfold operation_of. destruct (N.leb_spec 0x60 (0x5f + N.of_nat n)); [|lia]. destruct (N.leb_spec (0x5f + N.of_nat n) 0x7f); [|lia].
    cbn [andb]. replace (N.to_nat (0x5f + N.of_nat n - 0x5f)) with n by lia. reflexivity. }
  destruct (plain F m _ _ _ R Eop eq_refl) as [Y1 Y2]; cbn [pops pushes]; try lia. split; [|exact Y2].
  intros G. rewrite (Y1 G). unfold execute, Interp.execute, local. cbn [m_pc m_gas m_stack m_mem m_last m_ret m_world set_gas].
  assert (V : push_value (f_code F) (m_pc m) n = number (fun i => byte_at (f_code F) (m_pc m + 1 + i)) n).
  { unfold push_value. set (x := firstn n (skipn (N.to_nat (m_pc m) + 1) (f_code F))).
    assert (Lx : (length x <= n)%nat) by (unfold x; rewrite firstn_length; lia).
    apply be_of.
    - unfold pad_right. rewrite blen_app. unfold blen. rewrite repeat_length. lia.
    - intros i Hi. unfold pad_right. rewrite byte_at_app. destruct (N.ltb_spec i (blen x)) as [Li|Li].
      + unfold x. rewrite <- (Nat2N.id n) at 1. rewrite byte_at_firstn by exact Hi. rewrite byte_at_skipn. f_equal. lia.
      + rewrite byte_at_zeros. symmetry. apply byte_at_out. unfold x, blen in *. rewrite firstn_length, skipn_length in Li. lia. }
  rewrite V. do 2 f_equal. lia.
Qed.
(* DUPn copies entry n from the top; SWAPn exchanges the top with the entry n below it; POP drops the top *)
Theorem C98_dup F m n x : (1 <= n <= 16)%nat ->
  runs F m (0x7f + N.of_nat n) -> nth_error (m_stack m) (n - 1) = Some x -> N.of_nat (length (m_stack m)) < 1024 ->
  (3 <= m_gas m -> step F m = SNext (advance m 3 (x :: m_stack m))) /\ (m_gas m < 3 -> step F m = out_of_gas m).
Proof.
  intros Hn R Nx L.
  assert (Ln : (n - 1 < length (m_stack m))%nat) by (apply nth_error_Some; congruence).
  assert (Eop : operation_of (0x7f + N.of_nat n) = canon (IDup n) 3).
  { unfold operation_of. destruct (N.leb_spec 0x60 (0x7f + N.of_nat n)); [|lia]. destruct (N.leb_spec (0x7f + N.of_nat n) 0x7f); [lia|].
    destruct (N.leb_spec 0x80 (0x7f + N.of_nat n)); [|lia]. destruct (N.leb_spec (0x7f + N.of_nat n) 0x8f); [|lia].
    cbn [andb]. replace (0x7f + N.of_nat n - 0x7f) with (N.of_nat n) by lia. rewrite Nat2N.id. reflexivity. }
  destruct (plain F m _ _ _ R Eop eq_refl) as [Y1 Y2]; cbn [pops pushes]; try lia. split; [|exact Y2].
  intros G. rewrite (Y1 G). unfold execute, Interp.execute, local. cbn [m_pc m_gas m_stack m_mem m_last m_ret m_world set_gas].
  rewrite Nx. reflexivity.
Qed.
Theorem C98_swap F m n x y above below : (1 <= n <= 16)%nat ->
  runs F m (0x8f + N.of_nat n) -> m_stack m = x :: above ++ y :: below -> length above = (n - 1)%nat ->
  N.of_nat (length (m_stack m)) <= 1024 ->
  (3 <= m_gas m -> step F m = SNext (advance m 3 (y :: above ++ x :: below))) /\ (m_gas m < 3 -> step F m = out_of_gas m).
Proof.
  intros Hn R S La L.
  assert (Ls : length (m_stack m) = (n + 1 + length below)%nat) by (rewrite S; cbn [length]; rewrite app_length; cbn [length]; lia).
  assert (Eop : operation_of (0x8f + N.of_nat n) = canon (ISwap n) 3).
  { unfold operation_of. destruct (N.leb_spec 0x60 (0x8f + N.of_nat n)); [|lia]. destruct (N.leb_spec (0x8f + N.of_nat n) 0x7f); [lia|].
    destruct (N.leb_spec 0x80 (0x8f + N.of_nat n)); [|lia]. destruct (N.leb_spec (0x8f + N.of_nat n) 0x8f); [lia|].
    destruct (N.leb_spec 0x90 (0x8f + N.of_nat n)); [|lia]. destruct (N.leb_spec (0x8f + N.of_nat n) 0x9f); [|lia].
    cbn [andb]. replace (0x8f + N.of_nat n - 0x8f) with (N.of_nat n) by lia. rewrite Nat2N.id. reflexivity. }
  destruct (plain F m _ _ _ R Eop eq_refl) as [Y1 Y2]; cbn [pops pushes]; try lia. split; [|exact Y2].
  intros G. rewrite (Y1 G). unfold execute, Interp.execute, local. cbn [m_pc m_gas m_stack m_mem m_last m_ret m_world set_gas].
  assert (E : swap n (m_stack m) = Ok (y :: above ++ x :: below)).
  { rewrite S. unfold swap. replace n with (Datatypes.S (n - 1)) at 1 by lia. cbn [nth_error].
    rewrite nth_error_app2 by lia. replace (n - 1 - length above)%nat with O by lia. cbn [nth_error].
    do 2 f_equal. rewrite <- La. f_equal.
    - rewrite firstn_app, firstn_all, Nat.sub_diag. cbn [firstn]. apply app_nil_r.
    - f_equal. replace n with (length above + 1)%nat by lia. rewrite skipn_app, skipn_all2 by lia.
      replace (length above + 1 - length above)%nat with 1%nat by lia. reflexivity. }
  rewrite E. reflexivity.
Qed.
Theorem C98_pop F m x st :
  runs F m 0x50 -> m_stack m = x :: st -> N.of_nat (length (m_stack m)) <= 1024 ->
  (2 <= m_gas m -> step F m = SNext (advance m 2 st)) /\ (m_gas m < 2 -> step F m = out_of_gas m).
Proof.
  intros R S L. rewrite S in L. cbn [length] in L.
  destruct (plain F m 0x50 IPop 2 R eq_refl eq_refl) as [Y1 Y2]; rewrite ?S; cbn [pops pushes length]; try lia.
  split; [|exact Y2]. intros G. rewrite (Y1 G). unfold execute, Interp.execute, local. cbn [m_stack set_gas]. rewrite S. reflexivity.
Qed.

(* JUMP goes to a JUMPDEST instruction of the code, or the run ends; JUMPI jumps unless its condition is 0 *)
Theorem C98_jump F m dest st : is_code (f_code F) ->
  runs F m 0x56 -> m_stack m = dest :: st -> N.of_nat (length (m_stack m)) <= 1024 -> 8 <= m_gas m ->
  (destination (f_code F) (N.to_nat dest) -> step F m =
     SNext (Mach dest (m_gas m - 8) st (m_mem m) (m_last m) (m_ret m) (m_world m))) /\
  (~ destination (f_code F) (N.to_nat dest) -> ends_badly m (step F m)).
Proof.
  intros C R S L G. rewrite S in L. cbn [length] in L.
  destruct (plain F m 0x56 IJump 8 R eq_refl eq_refl) as [Y1 _]; rewrite ?S; cbn [pops pushes length]; try lia.
  rewrite (Y1 G). unfold execute, Interp.execute, local. cbn [m_pc m_gas m_stack m_mem m_last m_ret m_world set_gas]. rewrite S.
  destruct (C89_jump (f_code F) dest C) as (ok & -> & I). cbn [rbind]. destruct ok; split; intros H; try reflexivity.
  - exfalso. apply H, I. reflexivity.
  - apply I in H. discriminate.
  - eexists _, _. split; reflexivity.
Qed.
Theorem C98_jumpi F m dest cond st : is_code (f_code F) ->
  runs F m 0x57 -> m_stack m = dest :: cond :: st -> N.of_nat (length (m_stack m)) <= 1024 -> 10 <= m_gas m ->
  (cond = 0 -> step F m = SNext (advance m 10 st)) /\
  (cond <> 0 -> destination (f_code F) (N.to_nat dest) -> step F m =
     SNext (Mach dest (m_gas m - 10) st (m_mem m) (m_last m) (m_ret m) (m_world m))) /\
  (cond <> 0 -> ~ destination (f_code F) (N.to_nat dest) -> ends_badly m (step F m)).
Proof.
  intros C R S L G. rewrite S in L. cbn [length] in L.
  destruct (plain F m 0x57 IJumpi 10 R eq_refl eq_refl) as [Y1 _]; rewrite ?S; cbn [pops pushes length]; try lia.
  rewrite (Y1 G). unfold execute, Interp.execute, local. cbn [m_pc m_gas m_stack m_mem m_last m_ret m_world set_gas]. rewrite S.
  destruct (N.eqb_spec cond 0) as [Ec|Nc]; [split; [reflexivity|split; contradiction]|]. split; [contradiction|].
  destruct (C89_jump (f_code F) dest C) as (ok & -> & I). cbn [rbind]. destruct ok; split; intros _ H; try reflexivity.
  - exfalso. apply H, I. reflexivity.
  - apply I in H. discriminate.
  - eexists _, _. split; reflexivity.
Qed.

(* ---- the call and the block ---- *)
Theorem C98_environment F m op price f :
  In (op, price, f) (environment B) -> runs F m op -> N.of_nat (length (m_stack m)) < 1024 ->
  (price <= m_gas m -> step F m = SNext (advance m price (f F m :: m_stack m))) /\ (m_gas m < price -> step F m = out_of_gas m).
Proof.
  intros I R L. unfold environment in I. cbn [In] in I.
  repeat (destruct I as [I|I]; [injection I as <- <- <-;
    match type of R with runs _ _ ?o => let v := eval vm_compute in (op_exec (operation_of o)) in
      destruct (plain F m o v 2 R eq_refl eq_refl) as [Y1 Y2]; cbn [pops pushes]; try lia end;
    (split; [|exact Y2]); intros G; rewrite (Y1 G); reflexivity|]).
  contradiction.
Qed.
(* CALLDATALOAD: 32 bytes of the input as a number, zeros beyond its end *)
Theorem C98_calldataload F m off st :
  runs F m 0x35 -> m_stack m = off :: st -> N.of_nat (length (m_stack m)) <= 1024 -> blen (f_input F) < 2 ^ 63 ->
  (3 <= m_gas m -> step F m = SNext (advance m 3 (number (fun i => byte_at (f_input F) (off + i)) 32 :: st))) /\
  (m_gas m < 3 -> step F m = out_of_gas m).
Proof.
  intros R S L Li. rewrite S in L. cbn [length] in L.
  destruct (plain F m 0x35 (IRead RCallDataLoad) 3 R eq_refl eq_refl) as [Y1 Y2]; rewrite ?S; cbn [pops pushes length]; try lia.
  split; [|exact Y2]. intros G. rewrite (Y1 G). unfold execute, Interp.execute, local.
  cbn [m_pc m_gas m_stack m_mem m_last m_ret m_world set_gas]. rewrite S.
  assert (V : run_read keccak B F (set_gas m (m_gas m - 3)) RCallDataLoad off = Ok (number (fun i => byte_at (f_input F) (off + i)) 32)).
  { cbn [run_read]. change (2 ^ 63) with 9223372036854775808 in *. destruct (N.leb_spec U64 off) as [Big|Small].
    - rewrite U64_val in Big. rewrite (number_ext _ (fun _ => 0)); [reflexivity|]. intros i _. apply byte_at_out. lia.
    - assert (X : exists d, get_data (f_input F) off 32 = Ok d).
      { unfold get_data. rewrite U64_val in *.
        set (s := if blen (f_input F) <? off then blen (f_input F) else off).
        assert (Ls' : s <= blen (f_input F)) by (unfold s; destruct (N.ltb_spec (blen (f_input F)) off); lia). clearbody s.
        rewrite N.mod_small by lia. destruct (N.ltb_spec (blen (f_input F)) (s + 32)) as [Q1|Q1].
        - destruct (N.ltb_spec (blen (f_input F)) s); [lia|eauto].
        - destruct (N.ltb_spec (s + 32) s); [lia|eauto]. }
      destruct X as [d X]. rewrite X. cbn [rbind]. destruct (get_data_bytes _ _ _ _ X Li ltac:(reflexivity)) as [Q1 Q2].
      rewrite (be_of d 32 (fun i => byte_at (f_input F) (off + i)) Q1 Q2). reflexivity. }
  rewrite V. reflexivity.
Qed.
(* BLOCKHASH: one of the last 256 blocks, or 0 *)
Theorem C98_blockhash F m x st :
  runs F m 0x40 -> m_stack m = x :: st -> N.of_nat (length (m_stack m)) <= 1024 -> b_number B < 2 ^ 64 ->
  let v := if (x <? b_number B) && (b_number B <=? x + 256) then b_hash B x else 0 in
  (20 <= m_gas m -> step F m = SNext (advance m 20 (v :: st))) /\ (m_gas m < 20 -> step F m = out_of_gas m).
Proof.
  intros R S L Lb v. rewrite S in L. cbn [length] in L.
  destruct (plain F m 0x40 (IRead RBlockhash) 20 R eq_refl eq_refl) as [Y1 Y2]; rewrite ?S; cbn [pops pushes length]; try lia.
  split; [|exact Y2]. intros G. rewrite (Y1 G). unfold execute, Interp.execute, local.
  cbn [m_pc m_gas m_stack m_mem m_last m_ret m_world set_gas]. rewrite S.
  assert (V : run_read keccak B F (set_gas m (m_gas m - 20)) RBlockhash x = Ok v).
  { cbn [run_read]. change (2 ^ 64) with 18446744073709551616 in Lb. rewrite (lo64_id (b_number B)) by (rewrite U64_val; lia). unfold v.
    rewrite U64_val. destruct (N.leb_spec 18446744073709551616 x) as [Big|Small].
    - destruct (N.ltb_spec x (b_number B)); [lia|reflexivity].
    - destruct (N.ltb_spec (b_number B) 257), (N.ltb_spec x (b_number B)), (N.leb_spec (b_number B) (x + 256)); cbn [andb]; try lia;
        try (destruct (N.leb_spec 0 x); [|lia]); try (destruct (N.leb_spec (b_number B - 256) x); try lia);
        cbn [andb]; reflexivity. }
  rewrite V. reflexivity.
Qed.
End Props.

Print Assumptions C98_mstore.
Print Assumptions C98_mstore8.
Print Assumptions C98_mload.
Print Assumptions C98_keccak.
Print Assumptions C98_copy.
Print Assumptions C98_returndatacopy.
Print Assumptions C98_return.
Print Assumptions C98_push.
Print Assumptions C98_dup.
Print Assumptions C98_swap.
Print Assumptions C98_pop.
Print Assumptions C98_jump.
Print Assumptions C98_jumpi.
Print Assumptions C98_environment.
Print Assumptions C98_calldataload.
Print Assumptions C98_blockhash.

(* a machine with one word of memory, about to write a word at offset 40 *)
Definition xframe (c : bytes) : frame := Frame 0xA1 0xE0 7 c [1; 2; 3] false 1.
Definition xmach (st : list N) : mach := Mach 0 1000 st (repeat 9 32) 3 [] (xworld []).
Example C98_hypotheses :
  runs (xframe [0x52]) (xmach [40; 0xAABB]) 0x52 /\ paid (xmach [40; 0xAABB]) /\ affordable (xmach [40; 0xAABB]) 3 (40 + 32) /\
  ~ affordable (xmach [2 ^ 40; 0xAABB]) 3 (2 ^ 40 + 32) /\
  destination [0x5b] 0 /\ is_code [0x5b].
Proof.
  split; [reflexivity|]. split; [exists 1; vm_compute; auto|]. split; [split; vm_compute; [reflexivity|discriminate]|].
  split; [intros [H _]; vm_compute in H; discriminate|].
  split; [split; [constructor|reflexivity]|]. split; [repeat constructor|reflexivity].
Qed.
Definition xstep (c : bytes) (st : list N) : option (N * list N * bytes) :=
  match step xhash xcommitted xblock no_pre pre_cost pre_nothing all2 all1 (fun _ _ => XPanic) (xframe c) (xmach st) with
  | SNext m => Some (m_gas m, m_stack m, m_mem m) | _ => None end.
(* MSTORE adds two words (6 gas) and writes 71 = 40 + 31 last; MLOAD reads across the end of the memory;
   CALLDATACOPY brings 2, 3 and a zero; SWAP2; PUSH3 cut off by the end of the code *)
Example C98_concrete :
  xstep [0x52] [40; 0xAABB] = Some (991, [], repeat 9 32 ++ repeat 0 38 ++ [0xAA; 0xBB] ++ repeat 0 24) /\
  xstep [0x51] [30] = Some (994, [9 * 256 ^ 31 + 9 * 256 ^ 30], repeat 9 32 ++ repeat 0 32) /\
  xstep [0x37] [4; 1; 3] = Some (994, [], repeat 9 4 ++ [2; 3; 0] ++ repeat 9 25) /\
  xstep [0x91] [1; 2; 3; 4] = Some (997, [3; 2; 1; 4], repeat 9 32) /\
  xstep [0x62; 0xFF] [] = Some (997, [0xFF0000], repeat 9 32) /\
  xstep [0x52] [2 ^ 40; 1] = None.
Proof. vm_compute. repeat split. Qed.
