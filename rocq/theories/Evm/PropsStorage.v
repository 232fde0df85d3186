(* C99: storage, other accounts and events. *)
From Coq Require Import NArith Nnat.
From Verif Require Import Lib.Base Lib.Bytes Evm.Words Evm.World Evm.Memory Evm.Table Evm.Interp Evm.MemoryProofs Evm.TableProofs
  Evm.StepProofs Evm.SafeProofs Evm.RunSpec Evm.DataSpec Evm.DataProofs Evm.PropsWords Evm.PropsData Evm.Example.
Open Scope N_scope.

Section Props.
Variable keccak : bytes -> N.
Variable committed : N -> N -> N.
Variable B : block.
Variable is_pre : N -> bool.
Variable pre_gas : N -> bytes -> N.
Variable pre_run : bool -> N -> N -> bytes -> N -> N -> world -> bytes * option verr * N * world.
Variable call_allowed : N -> N -> bool.
Variable create_allowed : N -> bool.
Variable rec : frame -> mach -> xres.
Let step := step keccak committed B is_pre pre_gas pre_run call_allowed create_allowed rec.
Let execute := execute keccak committed B is_pre pre_gas pre_run call_allowed create_allowed rec.

(* an instruction without memory, priced by its operands and the access list *)
Lemma priced F m op i g c w' :
  runs F m op -> operation_of op = canon i g -> dyn_of i <> DNone -> mem_of i = MNone ->
  pops i <= N.of_nat (length (m_stack m)) -> N.of_nat (length (m_stack m)) + pushes i <= 1024 + pops i ->
  (g <= m_gas m -> dynamic keccak committed (dyn_of i) F (set_gas m (m_gas m - g)) 0 = Ok (Dyn c 0 (m_last m) w')) ->
  (g + c <= m_gas m -> step F m = execute F (Mach (m_pc m) (m_gas m - (g + c)) (m_stack m) (m_mem m) (m_last m) (m_ret m) w') 0 i) /\
  (m_gas m < g + c -> ends_badly m (step F m)).
Proof.
  intros R E D M P1 P2 Dy. unfold step, execute. rewrite (step_eq _ _ _ _ _ _ _ _ _ F m op i g R E).
  assert (Hpp : pushes i <= 1024 + pops i)
    by (destruct i as [|o|o|o| |o|o|o| | | | | | | | | |n'|n'|n'|n'| | |k0| | | |]; cbn [pushes pops]; try lia; destruct k0; lia).
  rewrite pay_dyn; cbn [canon op_min op_max op_gas op_dyn op_mem]; [|exact D|exact P1|lia]. rewrite M.
  change (mem_words MNone (m_stack m)) with (Ok 0). cbv beta iota zeta.
  destruct (N.ltb_spec (m_gas m) g) as [Lg|Lg].
  { split; intros; [lia|]. eexists _, _. split; reflexivity. }
  rewrite (Dy Lg). cbn [d_cost d_last d_world d_call set_gas m_gas].
  destruct (N.ltb_spec (m_gas m - g) c) as [Lc|Lc]; split; intros; try lia.
  - eexists _, _. split; reflexivity.
  - change (grow (m_mem m) 0) with (m_mem m). replace (m_gas m - (g + c)) with (m_gas m - g - c) by lia. reflexivity.
Qed.

(* SLOAD reads the slot of the running contract: 2100 gas the first time in a transaction, 100 afterwards. *)
Theorem C99_sload F m key st :
  runs F m 0x54 -> m_stack m = key :: st -> N.of_nat (length (m_stack m)) <= 1024 ->
  let price := if w_slot (m_world m) (f_self F) key then 100 else 2100 in
  (price <= m_gas m -> exists w', slot_used (m_world m) w' (f_self F) key /\
     step F m = SNext (Mach (m_pc m + 1) (m_gas m - price) (state (m_world m) (f_self F) key :: st)
                            (m_mem m) (m_last m) (m_ret m) w')) /\
  (m_gas m < price -> ends_badly m (step F m)).
Proof.
  intros R S L price. rewrite S in L. cbn [length] in L.
  set (w' := if w_slot (m_world m) (f_self F) key then m_world m else warm_slot (m_world m) (f_self F) key).
  destruct (priced F m 0x54 (IRead RSload) 0 price w' R eq_refl) as [Y1 Y2]; rewrite ?S; cbn [pops pushes length dyn_of mem_of]; try lia; auto; try discriminate.
  { intros _. cbn [dynamic]. unfold back. cbn [set_gas m_stack m_world m_last]. rewrite S. cbn [nth_error rbind].
    unfold price, w'. destruct (w_slot _ _ _); reflexivity. }
  split; [|exact Y2]. intros G. exists w'. split.
  - unfold w', slot_used. destruct (w_slot (m_world m) (f_self F) key) eqn:E; cbn [warm_slot w_acct w_logs w_refund w_slot];
      repeat (split; [reflexivity|]); intros b j; unfold upd;
      destruct (N.eqb_spec b (f_self F)) as [Eb|]; cbn [andb]; try destruct (N.eqb_spec j key) as [Ej|]; subst; rewrite ?E, ?orb_false_r; reflexivity.
  - rewrite (Y1 G). cbn [N.add]. unfold execute, Interp.execute, local. cbn [m_pc m_gas m_stack m_mem m_last m_ret m_world].
    rewrite S. cbn [run_read rbind m_world]. do 3 f_equal. unfold w'. destruct (w_slot _ _ _); reflexivity.
Qed.

(* SSTORE writes the slot of the running contract and nothing else, at the price of EIP-2200, 2929 and
   3529, and moves the refund counter by exactly what they say.  2300 gas or less is not enough. *)
Theorem C99_sstore F m key value st :
  runs F m 0x55 -> m_stack m = key :: value :: st -> N.of_nat (length (m_stack m)) <= 1024 -> m_gas m < 2 ^ 64 ->
  f_ro F = false -> exist (m_world m) (f_self F) = true -> w_addr (m_world m) (f_self F) = true ->
  healthy committed (m_world m) (m_gas m) ->
  let original := committed (f_self F) key in
  let current := state (m_world m) (f_self F) key in
  let price := sstore_price original current value (negb (w_slot (m_world m) (f_self F) key)) in
  (2300 < m_gas m -> price <= m_gas m -> exists w', stored (m_world m) w' (f_self F) key value /\
     Z.of_N (w_refund w') = (Z.of_N (w_refund (m_world m)) + sstore_refund original current value)%Z /\
     step F m = SNext (Mach (m_pc m + 1) (m_gas m - price) st (m_mem m) (m_last m) (m_ret m) w')) /\
  (m_gas m <= 2300 \/ m_gas m < price -> ends_badly m (step F m)).
Proof.
  intros R S L Gu Ro Ex Ad He original current price. rewrite S in L. cbn [length] in L.
  assert (Pr : m_gas m <= 2300 -> ends_badly m (step F m)).
  { intros Lo. unfold step. rewrite (step_eq _ _ _ _ _ _ _ _ _ F m 0x55 ISstore 0 R eq_refl).
    rewrite pay_dyn; cbn [canon op_min op_max op_gas op_dyn op_mem dyn_of mem_of pops pushes]; rewrite ?S; cbn [length]; try lia; [|discriminate].
    change (mem_words MNone (key :: value :: st)) with (Ok 0). cbv beta iota zeta. destruct (N.ltb_spec (m_gas m) 0); [lia|].
    cbn [dynamic set_gas m_gas]. rewrite N.sub_0_r. destruct (N.leb_spec (m_gas m) 2300); [|lia]. eexists _, _. split; reflexivity. }
  destruct (N.le_gt_cases (m_gas m) 2300) as [Lo|Hi].
  { split; [intros; lia|]. intros _. exact (Pr Lo). }
  destruct He as (_ & He & Hr). change (2 ^ 63) with 9223372036854775808 in Hr.
  destruct (sstore_exact committed (f_self F) key value (m_world m) Ex Ad) as (w1 & E1 & A1 & A2 & A3 & A4).
  { intros Nz Cz. assert (X := He [(f_self F, key)]). cbn [length] in X. apply X; [repeat constructor; auto|]. constructor; [auto|constructor]. }
  { rewrite U64_val. lia. }
  destruct (priced F m 0x55 ISstore 0 price w1 R eq_refl) as [Y1 Y2]; rewrite ?S; cbn [pops pushes length dyn_of mem_of]; try lia; auto; try discriminate.
  { intros _. cbn [dynamic set_gas m_gas m_stack m_world m_last]. rewrite N.sub_0_r. destruct (N.leb_spec (m_gas m) 2300); [lia|].
    unfold back. rewrite S. cbn [nth_error rbind]. rewrite E1. reflexivity. }
  split; [|intros [Q|Q]; [lia|exact (Y2 Q)]]. intros _ G. eexists. split; [|split].
  3: { rewrite (Y1 G). cbn [N.add]. unfold execute, Interp.execute, local. cbn [m_pc m_gas m_stack m_mem m_last m_ret m_world].
    rewrite S, Ro. reflexivity. }
  - apply stored_set; assumption.
  - cbn [set_state set_acct w_refund]. exact A4.
Qed.
Theorem C99_sstore_read_only F m key value st :
  runs F m 0x55 -> m_stack m = key :: value :: st -> paid m -> m_gas m < 2 ^ 64 -> f_ro F = true ->
  step F m = SPanic \/ exists e g w', step F m = SDone (Out [] (Some e) g w') /\ reverted e = false.
Proof.
  intros R S P G Ro. unfold step. rewrite (step_eq _ _ _ _ _ _ _ _ _ F m 0x55 ISstore 0 R eq_refl).
  destruct (pay _ _ F m (canon ISstore 0)) as [[m1 cg]|r] eqn:E.
  - apply paid_ok in P. apply pay_inl in E; [|reflexivity|exact P|exact G]. destruct E as (_ & _ & Es & _).
    right. unfold Interp.execute, local. rewrite Es, S, Ro. eexists _, _, _. split; reflexivity.
  - apply (pay_inr keccak committed B is_pre pre_gas pre_run call_allowed create_allowed) in E. destruct E as [-> | (e & g & -> & _ & Re)]; [now left|]. right. eexists _, _, _. split; [reflexivity|exact Re].
Qed.

(* BALANCE, EXTCODESIZE, EXTCODEHASH: the account is named by the low 160 bits; 2600 gas the first time
   in a transaction, 100 afterwards. *)
Definition account_reads (w : world) : list (N * (N -> N -> Prop)) := [
  (0x31, fun a r => Z.of_N r = balance w a);
  (0x3b, fun a r => r = blen (code w a));
  (0x3f, fun a r => r = if empty keccak w a then 0 else code_hash w a)
].
Theorem C99_account F m op ok x st :
  In (op, ok) (account_reads (m_world m)) ->
  runs F m op -> m_stack m = x :: st -> N.of_nat (length (m_stack m)) <= 1024 ->
  (forall a, (0 <= balance (m_world m) a < 2 ^ 256)%Z) ->
  let a := x mod 2 ^ 160 in
  let price := if w_addr (m_world m) a then 100 else 2600 in
  (price <= m_gas m -> exists r w', ok a r /\ account_used (m_world m) w' a /\
     step F m = SNext (Mach (m_pc m + 1) (m_gas m - price) (r :: st) (m_mem m) (m_last m) (m_ret m) w')) /\
  (m_gas m < price -> ends_badly m (step F m)).
Proof.
  intros I R S L Bal a price. rewrite S in L. cbn [length] in L.
  set (w' := if w_addr (m_world m) a then m_world m else warm (m_world m) a).
  assert (Ew : w_acct w' = w_acct (m_world m)) by (unfold w'; destruct (w_addr _ _); reflexivity).
  assert (K : exists o, operation_of op = canon (IRead o) 100 /\ dyn_of (IRead o) = DAccount /\
    exists r, ok a r /\ forall m1, m_world m1 = w' -> run_read keccak B F m1 o x = Ok r).
  { unfold account_reads in I. cbn [In] in I. destruct I as [I|[I|[I|[]]]]; injection I as <- <-.
    - exists RBalance. split; [reflexivity|]. split; [reflexivity|]. exists (unsigned (balance (m_world m) a)). split.
      + unfold unsigned. rewrite Z2N.id by (apply Z.mod_pos_bound; reflexivity). apply Z.mod_small. exact (Bal a).
      + intros m1 E. cbn [run_read]. rewrite E. unfold balance. change (to_addr x) with a. rewrite Ew. reflexivity.
    - exists RExtCodeSize. split; [reflexivity|]. split; [reflexivity|]. eexists. split; [reflexivity|].
      intros m1 E. cbn [run_read]. rewrite E. unfold code. change (to_addr x) with a. rewrite Ew. reflexivity.
    - exists RExtCodeHash. split; [reflexivity|]. split; [reflexivity|]. eexists. split; [reflexivity|].
      intros m1 E. cbn [run_read]. rewrite E. unfold empty, code_hash. change (to_addr x) with a. rewrite Ew. reflexivity. }
  destruct K as (o & Eop & Ed & r & Okr & Rr).
  destruct (priced F m op (IRead o) 100 (price - 100) w' R Eop) as [Y1 Y2]; rewrite ?S, ?Ed; cbn [pops pushes length mem_of]; try lia; auto; try discriminate.
  { intros _. cbn [dynamic]. unfold back. cbn [set_gas m_stack m_world m_last]. rewrite S. cbn [nth_error rbind]. change (to_addr x) with a.
    unfold price, w'. destruct (w_addr _ _); reflexivity. }
  replace (100 + (price - 100)) with price in * by (unfold price; destruct (w_addr _ _); reflexivity).
  split; [|exact Y2]. intros G. exists r, w'. split; [exact Okr|]. split.
  - unfold account_used. rewrite Ew. unfold w'. destruct (w_addr (m_world m) a) eqn:E; cbn [warm w_acct w_logs w_refund w_slot w_addr];
      repeat (split; [reflexivity|]); intros b; unfold upd; destruct (N.eqb_spec b a) as [Eb|]; subst; rewrite ?E, ?orb_false_r, ?orb_true_r; reflexivity.
  - rewrite (Y1 G). unfold execute, Interp.execute, local. cbn [m_pc m_gas m_stack m_mem m_last m_ret m_world].
    rewrite S, Rr by reflexivity. reflexivity.
Qed.
Theorem C99_selfbalance F m : runs F m 0x47 -> N.of_nat (length (m_stack m)) < 1024 ->
  (0 <= balance (m_world m) (f_self F) < 2 ^ 256)%Z ->
  (5 <= m_gas m -> exists r, Z.of_N r = balance (m_world m) (f_self F) /\ step F m = SNext (advance m 5 (r :: m_stack m))) /\
  (m_gas m < 5 -> step F m = out_of_gas m).
Proof.
  intros R L Bal. destruct (plain keccak committed B is_pre pre_gas pre_run call_allowed create_allowed rec F m 0x47 (IEnv VSelfBalance) 5 R eq_refl eq_refl) as [Y1 Y2];
    cbn [pops pushes]; try lia. split; [|exact Y2]. intros G. exists (unsigned (balance (m_world m) (f_self F))). split.
  - unfold unsigned. rewrite Z2N.id by (apply Z.mod_pos_bound; reflexivity). apply Z.mod_small. exact Bal.
  - unfold step. rewrite (Y1 G). reflexivity.
Qed.

(* EXTCODECOPY: bytes of the code of an account, zeros beyond its end *)
Theorem C99_extcodecopy F m x mo off len st :
  runs F m 0x3c -> m_stack m = x :: mo :: off :: len :: st -> N.of_nat (length (m_stack m)) <= 1024 -> paid m -> m_gas m < 2 ^ 64 ->
  let a := x mod 2 ^ 160 in
  blen (code (m_world m) a) < 2 ^ 63 ->
  let price := (if w_addr (m_world m) a then 100 else 2600) + 3 * ((len + 31) / 32) in
  (affordable m price (reach mo len) ->
     exists m', step F m = SNext m' /\ charged m price (reach mo len) m' /\ m_pc m' = m_pc m + 1 /\ m_ret m' = m_ret m /\
       m_stack m' = st /\ account_used (m_world m) (m_world m') a /\
       patched (m_mem m) (m_mem m') mo len (fun i => byte_at (code (m_world m) a) (off + i))) /\
  (~ affordable m price (reach mo len) -> ends_badly m (step F m)).
Proof.
  intros R S L P G a Lc price. rewrite S in L. cbn [length] in L.
  set (w' := if w_addr (m_world m) a then m_world m else warm (m_world m) a).
  assert (Ew : w_acct w' = w_acct (m_world m)) by (unfold w'; destruct (w_addr _ _); reflexivity).
  assert (Len : len < U64 \/ U64 <= reach mo len).
  { unfold reach. destruct (N.eqb_spec len 0) as [->|]; [left; reflexivity|]. destruct (N.ltb_spec len U64); [now left|right; lia]. }
  unfold step. rewrite (step_eq _ _ _ _ _ _ _ _ _ F m 0x3c IExtCodeCopy 100 R eq_refl).
  assert (P' := proj1 (paid_ok m) P). destruct (mem_pay keccak committed F m IExtCodeCopy 100 (price - 100) (reach mo len) DExtCodeCopy w') as [Y1 Y2];
    rewrite ?S; cbn [pops pushes length mem_of mem_size]; auto; try discriminate; try lia.
  { unfold back. cbn [nth_error rbind]. now rewrite calc_reach. }
  { intros size Em. cbn [dynamic set_gas m_stack m_mem m_last m_world]. rewrite Em. reflexivity. }
  { intros size fee last' Hh _ Em Hf. destruct Len as [Len|]; [|lia].
    assert (Lw : (len + 31) / 32 <= 576460752303423488).
    { change 576460752303423488 with ((18446744073709551615 + 31) / 32). apply N.div_le_mono; rewrite ?U64_val in *; lia. }
    change (2 ^ 56) with 72057594037927936 in Hf.
    cbn [dynamic set_gas m_stack m_mem m_last m_world]. rewrite Em, S. cbn [rbind fst snd]. unfold word_cost, back. cbn [nth_error rbind].
    rewrite words_div by exact Len. destruct (N.leb_spec U64 len) as [|_]; [lia|]. unfold safe_mul, safe_add. rewrite U64_val.
    destruct (N.leb_spec 18446744073709551616 ((len + 31) / 32 * 3)); [lia|]. cbn [rbind].
    destruct (N.leb_spec 18446744073709551616 (fee + (len + 31) / 32 * 3)); [lia|]. cbn [rbind]. change (to_addr x) with a.
    unfold w', price. destruct (w_addr (m_world m) a).
    - do 2 f_equal. lia.
    - change (cold_account - warm_read) with 2500.
      destruct (N.leb_spec 18446744073709551616 (fee + (len + 31) / 32 * 3 + 2500)); [lia|]. cbn [rbind]. do 2 f_equal. lia. }
  replace (100 + (price - 100)) with price in * by (unfold price; destruct (w_addr _ _); lia).
  split.
  2: { intros A. destruct (Y2 A) as (e & g' & -> & Re). exists e, g'. auto. }
  intros A. destruct (Y1 A) as (m1 & size & Ep & Es & Epc & Er & Ew1 & Em & Eg & Lb & Ch). clear Y1 Y2.
  rewrite S in Es, Em. rewrite Ep.
  destruct (at_operands 1 3 _ _ _ mo len Em Lb eq_refl eq_refl) as (L63 & Ll & _ & _).
  assert (Ec : code (m_world m1) (to_addr x) = code (m_world m) a) by (unfold code; change (to_addr x) with a; rewrite Ew1, Ew; reflexivity).
  set (src := code (m_world m) a) in *.
  assert (D : exists d, get_data src (clip64 off) len = Ok d /\ blen d = len /\ forall i, i < len -> byte_at d i = byte_at src (off + i)).
  { assert (X : exists d, get_data src (clip64 off) len = Ok d).
    { unfold get_data. rewrite U64_val. change (2 ^ 63) with 9223372036854775808 in *.
      set (s := if blen src <? clip64 off then blen src else clip64 off).
      assert (Ls' : s <= blen src) by (unfold s; destruct (N.ltb_spec (blen src) (clip64 off)); lia). clearbody s.
      rewrite N.mod_small by lia.
      destruct (N.ltb_spec (blen src) (s + len)) as [Q1|Q1].
      - destruct (N.ltb_spec (blen src) s); [lia|eauto].
      - destruct (N.ltb_spec (s + len) s); [lia|eauto]. }
    destruct X as [d X]. exists d. split; [exact X|]. destruct (get_data_bytes _ _ _ _ X Lc L63) as [Q1 Q2]. split; [exact Q1|].
    intros i Hi. rewrite (Q2 i Hi). unfold clip64. destruct (N.leb_spec U64 off) as [Big|_]; [|reflexivity].
    change (2 ^ 63) with 9223372036854775808 in *. rewrite U64_val in *. rewrite !byte_at_out by lia. reflexivity. }
  destruct D as (d & D1 & D2 & D3).
  destruct (put_at 1 3 _ _ (m_mem m) mo len d Em Lb eq_refl eq_refl D2) as (mem' & E1 & E2 & E3).
  eexists. split.
  { unfold Interp.execute, local. rewrite Es, Ec, Eg, Ll. fold src. rewrite D1. cbn [rbind]. rewrite Ll in E1. rewrite E1. cbn [rbind]. reflexivity. }
  split. { eapply charged_ext; [exact Ch|reflexivity..|]. cbn [m_mem]. rewrite Eg. exact E2. }
  cbn [m_pc m_ret m_stack m_world m_mem]. rewrite Epc, Er, Ew1. do 3 (split; [reflexivity|]). split.
  - unfold account_used. rewrite Ew. unfold w'. destruct (w_addr (m_world m) a) eqn:E; cbn [warm w_acct w_logs w_refund w_slot w_addr];
      repeat (split; [reflexivity|]); intros b; unfold upd; destruct (N.eqb_spec b a) as [Eb|]; subst; rewrite ?E, ?orb_false_r, ?orb_true_r; reflexivity.
  - eapply patched_ext; [exact E3|exact D3].
Qed.

(* LOGn appends one event: the running contract, n topics, an area of memory.  Nothing else changes. *)
Theorem C99_log F m n off len topics st : (n <= 4)%nat ->
  runs F m (0xa0 + N.of_nat n) -> m_stack m = off :: len :: topics ++ st -> length topics = n ->
  N.of_nat (length (m_stack m)) <= 1024 -> paid m -> m_gas m < 2 ^ 64 -> f_ro F = false ->
  let price := 375 + 375 * N.of_nat n + 8 * len in
  (affordable m price (reach off len) ->
     exists m', step F m = SNext m' /\ charged m price (reach off len) m' /\ m_pc m' = m_pc m + 1 /\ m_ret m' = m_ret m /\
       m_stack m' = st /\ (forall i, byte_at (m_mem m') i = byte_at (m_mem m) i) /\
       m_world m' = World (w_acct (m_world m)) (w_refund (m_world m))
          (w_logs (m_world m) ++ [Log (f_self F) topics (area (m_mem m) off len)]) (w_addr (m_world m)) (w_slot (m_world m))) /\
  (~ affordable m price (reach off len) -> ends_badly m (step F m)).
Proof.
  intros Hn R S Lt L P G Ro price. rewrite S in L. cbn [length] in L. rewrite app_length, Lt in L.
  assert (Eop : operation_of (0xa0 + N.of_nat n) = canon (ILog n) 0).
  { destruct n as [|[|[|[|[|]]]]]; [reflexivity..|lia]. }
  unfold step. rewrite (step_eq _ _ _ _ _ _ _ _ _ F m _ (ILog n) 0 R Eop).
  assert (P' := proj1 (paid_ok m) P). destruct (mem_pay keccak committed F m (ILog n) 0 price (reach off len) (DLog (N.of_nat n)) (m_world m)) as [Y1 Y2];
    rewrite ?S; cbn [pops pushes length mem_of mem_size]; rewrite ?app_length, ?Lt; auto; try discriminate; try lia.
  { unfold back. cbn [nth_error rbind]. now rewrite calc_reach. }
  { intros size Em. cbn [dynamic set_gas m_stack m_mem m_last m_world]. unfold back. rewrite S. cbn [nth_error rbind].
    destruct (U64 <=? len); [reflexivity|]. rewrite Em. reflexivity. }
  { intros size fee last' Hh Hs Em Hf. change (2 ^ 56) with 72057594037927936 in Hf.
    assert (Len : len <= 137438953440).
    { unfold mem_gas in Em. destruct (N.eqb_spec size 0) as [Z0|Z0].
      - unfold reach in Hs. destruct (N.eqb_spec len 0); lia.
      - destruct (N.ltb_spec 0x1FFFFFFFE0 size); [discriminate|]. unfold reach in Hs. destruct (N.eqb_spec len 0); lia. }
    cbn [dynamic set_gas m_stack m_mem m_last m_world]. unfold back. rewrite S. cbn [nth_error rbind].
    destruct (N.leb_spec U64 len) as [Q|_]; [rewrite U64_val in Q; lia|]. rewrite Em. cbn [rbind fst snd]. unfold safe_add, safe_mul. rewrite U64_val.
    destruct (N.leb_spec 18446744073709551616 (fee + 375)); [lia|]. cbn [rbind].
    destruct (N.leb_spec 18446744073709551616 (fee + 375 + N.of_nat n * 375)); [lia|]. cbn [rbind].
    destruct (N.leb_spec 18446744073709551616 (len * 8)); [lia|]. cbn [rbind].
    destruct (N.leb_spec 18446744073709551616 (fee + 375 + N.of_nat n * 375 + len * 8)); [lia|]. cbn [rbind].
    do 2 f_equal. unfold price. lia. }
  rewrite N.add_0_l in *. split.
  2: { intros A. destruct (Y2 A) as (e & g' & -> & Re). exists e, g'. auto. }
  intros A. destruct (Y1 A) as (m1 & size & Ep & Es & Epc & Er & Ew & Em & Eg & Lb & Ch). clear Y1 Y2.
  rewrite S in Es, Em. cbn [mem_of] in Em. rewrite Ep. assert (E1 := take_at 0 1 _ _ _ off len Em Lb eq_refl eq_refl).
  eexists. split.
  { unfold Interp.execute, local. rewrite Es, Ro. destruct (Nat.ltb_spec (length (topics ++ st)) n) as [Q|_]; [rewrite app_length in Q; lia|].
    rewrite Eg, E1. reflexivity. }
  split. { eapply charged_ext; [exact Ch|reflexivity..|]. cbn [m_mem]. now rewrite Eg. }
  cbn [m_pc m_ret m_stack m_world m_mem]. rewrite Epc, Er. do 2 (split; [reflexivity|]). split.
  { rewrite skipn_app, <- Lt, skipn_all, Nat.sub_diag. reflexivity. }
  split; [intros; apply byte_at_grow|]. unfold add_log. rewrite Ew.
  rewrite firstn_app, <- Lt, firstn_all, Nat.sub_diag. cbn [firstn]. now rewrite app_nil_r.
Qed.
End Props.

Print Assumptions C99_sload.
Print Assumptions C99_sstore.
Print Assumptions C99_sstore_read_only.
Print Assumptions C99_account.
Print Assumptions C99_selfbalance.
Print Assumptions C99_extcodecopy.
Print Assumptions C99_log.

(* in the world of the example slot 9 of the contract held 42 when the transaction began *)
Definition smach (st : list N) : mach := Mach 0 30000 st (repeat 9 32) 3 [] (xworld []).
Definition sstep (c : bytes) (st : list N) : sres :=
  step xhash xcommitted xblock no_pre pre_cost pre_nothing all2 all1 (fun _ _ => XPanic) (xframe c) (smach st).
Example C99_hypotheses : runs (xframe [0x55]) (smach [9; 0]) 0x55 /\ paid (smach [9; 0]) /\
  exist (xworld []) 0xA1 = true /\ w_addr (xworld []) 0xA1 = true /\ healthy xcommitted (xworld []) 30000 /\
  affordable (smach [1; 2; 7; 8]) (375 + 375 * 2 + 8 * 2) (reach 1 2).
Proof.
  split; [reflexivity|]. split; [exists 1; vm_compute; auto|]. split; [reflexivity|]. split; [reflexivity|].
  split; [|split; vm_compute; [reflexivity|discriminate]].
  split; [|split; [|reflexivity]].
  - intros a. unfold code, xworld. cbn. destruct (a =? 0xE0); [split; [constructor|reflexivity]|].
    destruct (a =? 0xA1); split; constructor || reflexivity.
  - intros slots _ H. destruct slots as [|[a k] l]; [discriminate|]. exfalso. inversion H as [|? ? (E & C & Z) _]; subst. cbn in E, C, Z.
    unfold xcommitted in C. unfold exist, state, xworld in E, Z. cbn in E, Z.
    destruct (N.eqb_spec a 0xA1) as [->|]; [|cbn in C; contradiction]. cbn in *. unfold xcommitted in Z. cbn in Z. contradiction.
Qed.
Definition seen (r : sres) : option (N * list N * N * N * list log * bool) :=
  match r with
  | SNext m => Some (m_gas m, m_stack m, state (m_world m) 0xA1 9, w_refund (m_world m), w_logs (m_world m), w_slot (m_world m) 0xA1 9)
  | _ => None end.
Example C99_concrete :
  seen (sstep [0x55] [9; 0]) = Some (30000 - 5000, [], 0, 4800, [], true) /\
  seen (sstep [0x55] [9; 43]) = Some (30000 - 5000, [], 43, 0, [], true) /\
  seen (sstep [0x55] [9; 42]) = Some (30000 - 2200, [], 42, 0, [], true) /\
  seen (sstep [0x55] [3; 1]) = Some (30000 - 22100, [], 42, 0, [], false) /\
  seen (sstep [0x54] [9]) = Some (30000 - 2100, [42], 42, 0, [], true) /\
  seen (sstep [0x31] [0xE0 + 2 ^ 170]) = Some (30000 - 100, [1000], 42, 0, [], false) /\
  seen (sstep [0x31] [0xE1]) = Some (30000 - 2600, [0], 42, 0, [], false) /\
  seen (sstep [0xa2] [31; 2; 7; 8]) = Some (30000 - 1141 - 3, [], 42, 0, [Log 0xA1 [7; 8] [9; 0]], false).
Proof. vm_compute. repeat split. Qed.
