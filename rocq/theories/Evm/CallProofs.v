(* Paying for a call, and bringing its answer home. *)
From Coq Require Import NArith Nnat.
From Verif Require Import Lib.Base Lib.Bytes Evm.Words Evm.World Evm.Memory Evm.Table Evm.Interp Evm.MemoryProofs Evm.TableProofs
  Evm.StepProofs Evm.SafeProofs Evm.WorldProofs Evm.DataSpec Evm.DataProofs Evm.CallSpec.
Open Scope N_scope.

Lemma call_gas_eq avail base req : base <= avail -> avail < U64 -> call_gas avail base req = gas_sent (avail - base) req.
Proof.
  intros L A. unfold call_gas, gas_sent.
  assert (Q : (avail + (U64 - base)) mod U64 = avail - base).
  { rewrite U64_val in *.
    replace (avail + (18446744073709551616 - base)) with (avail - base + 1 * 18446744073709551616) by lia.
    rewrite N.mod_add by lia. apply N.mod_small. lia. }
  rewrite Q. destruct (N.leb_spec U64 req); cbn [orb]; [lia|].
  destruct (N.ltb_spec (avail - base - (avail - base) / 64) req); lia.
Qed.

Lemma mset_part mem size off len v : inside (grow mem size) off len ->
  exists mem', mset (grow mem size) off len v = Ok mem' /\ blen mem' = blen (grow mem size) /\
    patched mem mem' off (N.min len (blen v)) (byte_at v).
Proof.
  intros I. unfold mset. destruct (N.eqb_spec len 0) as [->|Hl].
  { eexists. split; [reflexivity|]. split; [reflexivity|]. intros i. rewrite byte_at_grow.
    destruct (N.leb_spec off i), (N.ltb_spec i (off + N.min 0 (blen v))); cbn [andb]; try reflexivity; lia. }
  destruct I as [|[I1 I2]]; [contradiction|]. change (2 ^ 37) with 137438953472 in I2. rewrite U64_val.
  rewrite N.mod_small by lia.
  destruct (N.ltb_spec (blen (grow mem size)) (off + len)) as [|_]; [lia|].
  destruct (N.leb_spec 18446744073709551616 (off + len)) as [|_]; [lia|].
  set (M := grow mem size) in *. set (u := firstn (N.to_nat len) v).
  assert (Lu : blen u = N.min len (blen v)) by (unfold u, blen in *; rewrite firstn_length; lia).
  assert (L1 : blen (firstn (N.to_nat off) M) = off) by (apply blen_firstn; lia).
  eexists. split; [reflexivity|]. split.
  { unfold blen in *. rewrite !app_length, skipn_length. lia. }
  intros i. rewrite byte_at_app, L1. destruct (N.ltb_spec i off) as [Q|Q].
  { destruct (N.leb_spec off i); [lia|]. cbn [andb]. rewrite byte_at_firstn by exact Q. unfold M. apply byte_at_grow. }
  destruct (N.leb_spec off i) as [_|]; [|lia]. cbn [andb]. rewrite byte_at_app, Lu.
  destruct (N.ltb_spec (i - off) (N.min len (blen v))) as [Q2|Q2].
  - destruct (N.ltb_spec i (off + N.min len (blen v))); [|lia]. unfold u. apply byte_at_firstn. lia.
  - destruct (N.ltb_spec i (off + N.min len (blen v))); [lia|]. rewrite byte_at_skipn.
    replace (N.of_nat (N.to_nat off + length u) + (i - off - N.min len (blen v))) with i by (unfold blen in *; lia).
    unfold M. apply byte_at_grow.
Qed.

Lemma two_operands o l o2 l2 st size mem : mem_words (MTwo o l o2 l2) st = Ok size -> blen (grow mem size) < 2 ^ 37 ->
  forall off len off2 len2, nth_error st o = Some off -> nth_error st l = Some len ->
  nth_error st o2 = Some off2 -> nth_error st l2 = Some len2 ->
  lo64 len = len /\ (len = 0 \/ lo64 off = off) /\ inside (grow mem size) off len /\
  lo64 len2 = len2 /\ (len2 = 0 \/ lo64 off2 = off2) /\ inside (grow mem size) off2 len2.
Proof.
  intros M L off len off2 len2 Eo El Eo2 El2. destruct (mem_words_spec _ _ _ M) as (s & w & E & _ & Ls & Lu & _).
  cbn [mem_size] in E. unfold back in E. rewrite Eo, El, Eo2, El2 in E. cbn [rbind] in E.
  destruct (calc off len) as [x| |] eqn:E1; cbn [rbind] in E; try discriminate.
  destruct (calc off2 len2) as [y| |] eqn:E2; cbn [rbind] in E; try discriminate.
  assert (Hx : x <= s /\ y <= s).
  { assert (s = if y <? x then x else y) by congruence. subst s. destruct (N.ltb_spec y x); lia. }
  assert (G := grow_len mem size).
  assert (P : forall o l x, calc o l = Ok x -> x <= s -> lo64 l = l /\ (l = 0 \/ lo64 o = o) /\ inside (grow mem size) o l).
  { intros o' l' x' C X. rewrite calc_reach in C. destruct (N.ltb_spec (reach o' l') U64) as [Lr|]; [|discriminate].
    assert (x' = reach o' l') by congruence. subst x'. unfold reach in *.
    destruct (N.eqb_spec l' 0) as [El'|Hl]; [rewrite El'; split; [reflexivity|split; [now left|left; reflexivity]]|].
    rewrite !lo64_id by lia. split; [reflexivity|]. split; [now right|]. right. split; [lia|exact L]. }
  destruct (P _ _ _ E1 ltac:(lia)) as (? & ? & ?), (P _ _ _ E2 ltac:(lia)) as (? & ? & ?). auto 10.
Qed.

Definition has_value (k : callop) : bool := match k with KCall | KCallCode => true | _ => false end.
Definition on_stack (k : callop) (q : request) (x : N) : list N :=
  if has_value k then q_gas q :: x :: q_value q :: q_in q :: q_insize q :: q_out q :: q_outsize q :: q_rest q
  else q_gas q :: x :: q_in q :: q_insize q :: q_out q :: q_outsize q :: q_rest q.
Lemma operands_stack k st q : operands k st = Some q -> exists x, st = on_stack k q x /\ q_addr q = to_addr x /\ (has_value k = false -> q_value q = 0).
Proof.
  intros Q. destruct k; cbn [operands] in Q; do 6 (destruct st as [|? st]; [discriminate|]);
    try (destruct st as [|? st]; [discriminate|]); injection Q as <-; eexists; (split; [reflexivity|]); (split; [reflexivity|]); cbn; congruence.
Qed.

Section Pay.
Variable keccak : bytes -> N.
Variable committed : N -> N -> N.
Let pay := pay keccak committed.
Let dynamic := dynamic keccak committed.

Lemma call_pay F m k q :
  operands k (m_stack m) = Some q -> N.of_nat (length (m_stack m)) <= 1024 -> paid m -> m_gas m < U64 ->
  let price := base_price keccak k (m_world m) q in
  let left := gas_left m price (span q) in
  (affordable m price (span q) ->
     exists m' size, pay F m (canon (ICall k) 100) = inl (m', gas_sent left (q_gas q)) /\
       m_stack m' = m_stack m /\ m_pc m' = m_pc m /\ account_used (m_world m) (m_world m') (q_addr q) /\
       mem_words (mem_of (ICall k)) (m_stack m) = Ok size /\ m_mem m' = grow (m_mem m) size /\
       blen (grow (m_mem m) size) < 2 ^ 37 /\ m_gas m' = left - gas_sent left (q_gas q) /\
       blen (m_mem m') = 32 * words_for m (span q) /\ paid m') /\
  (~ affordable m price (span q) -> exists e g', pay F m (canon (ICall k) 100) = inr (SDone (Out [] (Some e) g' (m_world m))) /\ reverted e = false).
Proof.
  intros Q L P Gu price left. apply (proj1 (paid_ok m)) in P.
  destruct (operands_stack _ _ _ Q) as (x & S & Ea & Ev). clear Q.
  set (hi := span q) in *.
  assert (Ln : pops (ICall k) <= N.of_nat (length (m_stack m)) /\ N.of_nat (length (m_stack m)) <= 1024 + pops (ICall k) - pushes (ICall k)).
  { split; [rewrite S; unfold on_stack|]; destruct k; cbn [has_value pops pushes length]; lia. }
  destruct Ln as [P1 P2]. unfold pay. rewrite pay_dyn; cbn [canon op_min op_max op_gas op_dyn op_mem dyn_of]; [|discriminate|exact P1|exact P2].
  assert (Ms : mem_size (mem_of (ICall k)) (m_stack m) = if hi <? U64 then Ok hi else Err).
  { rewrite S. unfold on_stack. destruct k; cbn [mem_of has_value mem_size]; unfold back; cbn [nth_error rbind]; rewrite !calc_reach;
      unfold hi, span; destruct (N.ltb_spec (reach (q_out q) (q_outsize q)) U64), (N.ltb_spec (reach (q_in q) (q_insize q)) U64);
      cbn [rbind]; destruct (N.ltb_spec (N.max (reach (q_in q) (q_insize q)) (reach (q_out q) (q_outsize q))) U64); try lia; try reflexivity;
      destruct (N.ltb_spec (reach (q_in q) (q_insize q)) (reach (q_out q) (q_outsize q))); f_equal; lia. }
  set (a := q_addr q) in *. set (w := m_world m) in *.
  set (w1 := if w_addr w a then w else warm w a).
  assert (Aw : account_used w w1 a).
  { unfold w1. destruct (w_addr w a) eqn:E; (do 4 (split; [reflexivity|])); intros b.
    - destruct (N.eqb_spec b a) as [->|]; [now rewrite E|now rewrite Bool.orb_false_r].
    - unfold warm. cbn [w_addr]. unfold upd. destruct (b =? a); [now rewrite Bool.orb_true_r|now rewrite Bool.orb_false_r]. }
  set (cold := if w_addr w a then 0 else 2500).
  set (b := (if q_value q =? 0 then 0 else 9000) + match k with KCall => if negb (q_value q =? 0) && empty keccak w a then 25000 else 0 | _ => 0 end).
  assert (Cb : call_base keccak k (m_stack m) w1 = Ok b).
  { assert (Em : empty keccak w1 a = empty keccak w a) by (unfold w1; destruct (w_addr w a); reflexivity).
    rewrite S. unfold b, call_base, on_stack, back. destruct k; cbn [has_value nth_error rbind]; try (rewrite (Ev eq_refl); reflexivity).
    - rewrite <- Ea, Em. f_equal. apply N.add_comm.
    - f_equal. symmetry. apply N.add_0_r. }
  assert (Ep : price = 100 + cold + b) by (unfold price, base_price, b, cold; fold a w; destruct (w_addr w a); lia).
  assert (Hc : cold <= 2500) by (unfold cold; destruct (w_addr w a); lia).
  assert (Hb : b <= 34000) by (unfold b; destruct (q_value q =? 0), k, (empty keccak w a); cbn; lia).
  assert (Dy : forall g size, dynamic (DCall k) F (set_gas m g) size =
     if g <? cold then Err else rbind (mem_gas (m_mem m) (m_last m) size) (fun gm => rbind (safe_add b (fst gm)) (fun base =>
       rbind (safe_add base (call_gas (g - cold) base (q_gas q))) (fun t => Ok (Dyn ((t + cold) mod U64) (call_gas (g - cold) base (q_gas q)) (snd gm) w1))))).
  { intros g size. unfold dynamic, Interp.dynamic, set_gas. cbn [m_stack m_world m_last m_mem m_gas]. fold w.
    assert (B1 : back (m_stack m) 1 = Ok x) by (rewrite S; unfold on_stack; destruct k; reflexivity).
    assert (B0 : back (m_stack m) 0 = Ok (q_gas q)) by (rewrite S; unfold on_stack; destruct k; reflexivity).
    rewrite B1. cbn [rbind]. rewrite <- Ea. fold a. change (cold_account - warm_read) with 2500. fold cold w1.
    rewrite Cb, B0. cbn [rbind]. reflexivity. }
  clearbody w1 cold b. clear Cb Ev. clearbody hi a. clear Ea.
  assert (P' := P). destruct P' as (v & Lv & Vv & El0). assert (Pv := mem_price_small v Vv).
  change (2 ^ 56) with 72057594037927936 in *.
  assert (Wv : blen (m_mem m) / 32 = v) by (rewrite Lv, N.mul_comm; apply N.div_mul; discriminate).
  assert (MT : forall w, mem_total w = mem_price w) by reflexivity.
  unfold affordable, words_for. unfold left, gas_left, words_for. rewrite Wv, MT. clearbody price. subst price.
  assert (Mono : mem_price v <= mem_price (N.max v ((hi + 31) / 32))) by (apply mem_price_mono; lia).
  destruct (N.ltb_spec (m_gas m) 100) as [Lg|Lg].
  { split.
    - intros [_ A]. lia.
    - intros _. eexists _, _. split; [reflexivity|reflexivity]. }
  unfold mem_words. rewrite Ms. destruct (N.ltb_spec hi U64) as [Lh|Lh]; cbn [rbind].
  2: { split.
    - intros [A _]. exfalso. rewrite U64_val in Lh. assert (18446744073709551616 / 32 <= (hi + 31) / 32) by (apply N.div_le_mono; lia).
      change (18446744073709551616 / 32) with 576460752303423488 in *. change (2 ^ 32) with 4294967296 in *. lia.
    - intros _. eexists _, _. split; [reflexivity|reflexivity]. }
  rewrite words_div by exact Lh. set (ww := (hi + 31) / 32) in *.
  assert (Dm := N.div_mod (hi + 31) 32 ltac:(discriminate)). assert (Ml := N.mod_lt (hi + 31) 32 ltac:(discriminate)). fold ww in Dm.
  clearbody ww. unfold safe_mul. rewrite U64_val in *. destruct (N.leb_spec 18446744073709551616 (ww * 32)) as [Big|Small].
  { split.
    - intros [A _]. exfalso. change (2 ^ 32) with 4294967296 in A. lia.
    - intros _. eexists _, _. split; [reflexivity|reflexivity]. }
  fold dynamic. cbn zeta. rewrite Dy. cbn [set_gas m_gas].
  destruct (N.ltb_spec (m_gas m - 100) cold) as [Lc|Lc].
  { split.
    - intros [_ A]. lia.
    - intros _. eexists _, _. split; [reflexivity|reflexivity]. }
  destruct (mem_gas (m_mem m) (m_last m) (ww * 32)) as [[fee last']| |] eqn:E; cbn [rbind fst snd].
  - assert (Sp := mem_gas_spec (m_mem m) (m_last m) (ww * 32) fee last' ww P ltac:(lia) ltac:(rewrite U64_val; lia) E).
    change (2 ^ 56) with 72057594037927936 in Sp. destruct Sp as (F1 & F2 & F3 & F4).
    assert (Bl : blen (grow (m_mem m) (ww * 32)) = 32 * N.max v ww) by (rewrite grow_len, Lv; lia).
    assert (El : last' = mem_price (N.max v ww)).
    { destruct F2 as (w2 & B2 & _ & ->). f_equal. lia. }
    assert (Hw : N.max v ww < 2 ^ 32) by (destruct F2 as (w2 & B2 & W2 & _); replace (N.max v ww) with w2 by lia; exact W2).
    assert (Sa : safe_add b fee = Ok (b + fee)).
    { unfold safe_add. rewrite U64_val. destruct (N.leb_spec 18446744073709551616 (b + fee)); [lia|reflexivity]. }
    rewrite Sa. cbn [rbind]. set (avail := m_gas m - 100 - cold) in *. set (base := b + fee) in *.
    destruct (N.le_gt_cases base avail) as [Aff|Naf].
    + assert (Cg := call_gas_eq avail base (q_gas q) Aff ltac:(rewrite U64_val; lia)).
      assert (Cl := call_gas_le avail base (q_gas q) Aff ltac:(rewrite U64_val; lia)).
      assert (Sb : safe_add base (call_gas avail base (q_gas q)) = Ok (base + call_gas avail base (q_gas q))).
      { unfold safe_add. rewrite U64_val. destruct (N.leb_spec 18446744073709551616 (base + call_gas avail base (q_gas q))); [lia|reflexivity]. }
      rewrite Sb. cbn [rbind d_cost d_call d_last d_world].
      rewrite N.mod_small by lia.
      assert (Le : m_gas m + m_last m - (100 + cold + b) - mem_price (N.max v ww) = avail - base) by lia.
      rewrite Le, <- Cg.
      destruct (N.ltb_spec (m_gas m - 100) (base + call_gas avail base (q_gas q) + cold)) as [|_]; [lia|].
      split.
      * intros _. eexists _, (ww * 32). split; [reflexivity|]. cbn [m_stack m_pc m_ret m_world m_mem m_last m_gas set_gas].
        do 2 (split; [reflexivity|]). split; [exact Aw|]. split; [reflexivity|]. split; [reflexivity|]. split; [exact F4|].
        split; [lia|]. split; [exact Bl|]. apply paid_ok. cbn [m_mem m_last]. exact F2.
      * intros A. exfalso. apply A. split; [exact Hw|]. lia.
    + split; [intros [_ A]; lia|]. intros _.
      destruct (safe_add base (call_gas avail base (q_gas q))) as [t| |] eqn:Et; cbn [rbind].
      * destruct (call_gas_spec avail base (q_gas q) t cold) as [C1 C2]; auto; try (rewrite U64_val; lia); try exact Et.
        { change (2 ^ 57) with 144115188075855872. lia. }
        cbn [d_cost]. rewrite U64_val in *. destruct (N.ltb_spec (m_gas m - 100) ((t + cold) mod 18446744073709551616)) as [|Lt].
        -- eexists _, _. split; [reflexivity|reflexivity].
        -- specialize (C2 ltac:(lia)). lia.
      * eexists _, _. split; [reflexivity|reflexivity].
      * exfalso. now apply safe_add_no_panic in Et.
  - split.
    + intros [A _]. exfalso. unfold mem_gas in E. destruct (ww * 32 =? 0); [discriminate|].
      destruct (N.ltb_spec 0x1FFFFFFFE0 (ww * 32)) as [Qq|Qq]; [|destruct (_ <? _); discriminate E].
      change (2 ^ 32) with 4294967296 in A. lia.
    + intros _. eexists _, _. split; [reflexivity|reflexivity].
  - exfalso. now apply mem_gas_no_panic in E.
Qed.
End Pay.
