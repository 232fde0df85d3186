(* C100: what calls and creations pass on and bring back. *)
From Coq Require Import NArith Nnat.
From Verif Require Import Lib.Base Lib.Bytes Evm.Words Evm.World Evm.Memory Evm.Table Evm.Interp Evm.MemoryProofs Evm.TableProofs
  Evm.StepProofs Evm.SafeProofs Evm.WorldProofs Evm.DataSpec Evm.DataProofs Evm.PropsWords Evm.PropsData Evm.CallSpec Evm.CallProofs Evm.Example.
Open Scope N_scope.

Section Props.
Variable keccak : bytes -> N.
Variable committed : N -> N -> N.
Variable B : block.
Variable is_pre : N -> bool.
Variable pre_gas : N -> bytes -> N.
Variable pre_run : bool -> N -> N -> bytes -> N -> N -> world -> bytes * option verr * N * world.
Variable call_allowed : N -> N -> bool.
Variable create_allowed : N -> bool.
Variable rec : frame -> mach -> xres.
Let step := step keccak committed B is_pre pre_gas pre_run call_allowed create_allowed rec.
Let execute := execute keccak committed B is_pre pre_gas pre_run call_allowed create_allowed rec.
Let evm_call := evm_call keccak committed is_pre pre_gas pre_run call_allowed rec.
Let evm_callcode := evm_callcode is_pre pre_gas pre_run call_allowed rec.
Let evm_delegate := evm_delegate is_pre pre_gas pre_run call_allowed rec.
Let evm_static := evm_static keccak committed is_pre pre_gas pre_run call_allowed rec.
Let evm_create := evm_create keccak committed create_allowed rec.

(* the four calls of the machine *)
Definition invoke (k : callop) (F : frame) (q : request) (input : bytes) (gas : N) (w : world) : xres :=
  match k with
  | KCall => evm_call (f_ro F) (f_depth F) (f_self F) (q_addr q) input gas (q_value q) w
  | KCallCode => evm_callcode (f_ro F) (f_depth F) (f_self F) (q_addr q) input gas (q_value q) w
  | KDelegate => evm_delegate (f_ro F) (f_depth F) (f_self F) (f_caller F) (f_value F) (q_addr q) input gas w
  | KStatic => evm_static (f_depth F) (f_self F) (q_addr q) input gas w
  end.

Lemma call_execute F m1 k q x size mem cg input :
  m_stack m1 = on_stack k q x -> q_addr q = to_addr x -> (has_value k = false -> q_value q = 0) ->
  mem_words (mem_of (ICall k)) (m_stack m1) = Ok size -> m_mem m1 = grow mem size -> blen (grow mem size) < 2 ^ 37 ->
  (q_value q <> 0 -> cg + 2300 < U64) -> (k = KCall -> f_ro F = true -> q_value q = 0) -> input = area mem (q_in q) (q_insize q) ->
  execute F m1 cg (ICall k) = after_call m1 (q_rest q) (q_out q) (q_outsize q) (invoke k F q input (with_stipend q cg) (m_world m1)) /\
  (lo64 (q_outsize q) = q_outsize q /\ (q_outsize q = 0 \/ lo64 (q_out q) = q_out q) /\ inside (grow mem size) (q_out q) (q_outsize q)).
Proof.
  intros S Ea Ev Mw Em Lb Lc Ro ->. rewrite S in Mw.
  assert (Op : exists o l o2 l2, mem_of (ICall k) = MTwo o l o2 l2 /\ nth_error (on_stack k q x) o = Some (q_out q) /\
     nth_error (on_stack k q x) l = Some (q_outsize q) /\ nth_error (on_stack k q x) o2 = Some (q_in q) /\ nth_error (on_stack k q x) l2 = Some (q_insize q)).
  { unfold on_stack. destruct k; cbn [has_value mem_of]; do 4 eexists; (split; [reflexivity|]); auto. }
  destruct Op as (o & l & o2 & l2 & Eo & N1 & N2 & N3 & N4). rewrite Eo in Mw.
  destruct (two_operands _ _ _ _ _ _ mem Mw Lb _ _ _ _ N1 N2 N3 N4) as (A1 & A2 & A3 & A4 & A5 & A6). split; [|auto].
  assert (G : mget (m_mem m1) (lo64 (q_in q)) (lo64 (q_insize q)) = Ok (area mem (q_in q) (q_insize q))).
  { rewrite Em, A4. destruct A5 as [E | ->].
    - rewrite E. reflexivity.
    - now apply mget_area_ok. }
  assert (Ws : with_stipend q cg = if q_value q =? 0 then cg else (cg + 2300) mod U64).
  { unfold with_stipend. destruct (N.eqb_spec (q_value q) 0) as [|Hv]; [reflexivity|]. symmetry. apply N.mod_small. auto. }
  rewrite Ws. clear Ws.
  unfold execute, Interp.execute, local. rewrite S. unfold on_stack. destruct k; cbn [has_value]; rewrite G.
  - replace (f_ro F && negb (q_value q =? 0)) with false.
    2: { destruct (f_ro F) eqn:E; [|reflexivity]. rewrite (Ro eq_refl eq_refl). reflexivity. }
    unfold invoke. rewrite Ea. reflexivity.
  - unfold invoke. rewrite Ea. reflexivity.
  - unfold invoke. rewrite Ea, (Ev eq_refl). reflexivity.
  - unfold invoke. rewrite Ea, (Ev eq_refl). reflexivity.
Qed.

(* A call costs its base price, the memory and the gas it sends: what was asked for, but never more than all but a
   64th of what is left.  The callee gets the bytes of memory named, and 2300 gas more with money.  Back come
   a flag, the gas not used, the answer as return data and as much of it as fits into the memory named. *)
Theorem C100_call F m k q :
  runs F m (opcode k) -> operands k (m_stack m) = Some q -> N.of_nat (length (m_stack m)) <= 1024 -> paid m -> m_gas m < 2 ^ 64 ->
  (k = KCall -> f_ro F = true -> q_value q = 0) ->
  let price := base_price keccak k (m_world m) q in
  let left := gas_left m price (span q) in
  let sent := gas_sent left (q_gas q) in
  let input := area (m_mem m) (q_in q) (q_insize q) in
  (affordable m price (span q) ->
     exists w1, account_used (m_world m) w1 (q_addr q) /\
     match invoke k F q input (with_stipend q sent) w1 with
     | XPanic => step F m = SPanic
     | XFuel => step F m = SFuel
     | XOut (Out ret err back w') => back <= with_stipend q sent ->
         exists m', step F m = SNext m' /\ m_pc m' = m_pc m + 1 /\
           m_stack m' = match err with None => 1 | Some _ => 0 end :: q_rest q /\
           m_gas m' = left - sent + back /\ m_ret m' = ret /\ m_world m' = w' /\
           patched (m_mem m) (m_mem m') (q_out q) (copied q ret err) (byte_at ret) /\
           blen (m_mem m') = 32 * words_for m (span q) /\ paid m'
     end) /\
  (~ affordable m price (span q) -> ends_badly m (step F m)).
Proof.
  intros R Q L P G Ro price left sent input. assert (Gu : m_gas m < U64) by exact G.
  destruct (call_pay keccak committed F m k q Q L P Gu) as [Y1 Y2]. fold price in Y1, Y2. fold left in Y1. fold sent in Y1.
  assert (Op : operation_of (opcode k) = canon (ICall k) 100) by (destruct k; reflexivity).
  unfold step. rewrite (step_eq _ _ _ _ _ _ _ _ _ F m _ _ _ R Op). fold execute.
  split.
  2: { intros A. destruct (Y2 A) as (e & g' & -> & Z). exists e, g'. auto. }
  intros A. destruct (Y1 A) as (m1 & size & Ep & Es & Epc & Aw & Mw & Em & Lb & Eg & Bl & Pd). clear Y1 Y2. rewrite Ep.
  destruct (operands_stack _ _ _ Q) as (x & S & Ea & Ev).
  assert (Sl : sent <= left) by (unfold sent, gas_sent; lia).
  assert (Ll : left + price <= m_gas m).
  { destruct A as [_ A]. unfold left, gas_left. assert (Md : m_last m <= mem_total (words_for m (span q))).
    { destruct P as (v & Lv & _ & ->). unfold words_for. rewrite Lv, N.mul_comm, N.div_mul by discriminate. apply mem_price_mono. lia. }
    lia. }
  assert (Vp : q_value q <> 0 -> 9000 <= price).
  { intros Hv. unfold price, base_price. destruct (N.eqb_spec (q_value q) 0); [contradiction|]. destruct (w_addr _ _); lia. }
  assert (Pp : 100 <= price) by (unfold price, base_price; destruct (w_addr _ _); lia).
  rewrite U64_val in Gu.
  assert (Ws : with_stipend q sent = if q_value q =? 0 then sent else sent + 2300) by reflexivity.
  assert (Ss : with_stipend q sent <= sent + 2300) by (rewrite Ws; destruct (q_value q =? 0); lia).
  destruct (call_execute F m1 k q x size (m_mem m) sent input) as [K (O1 & O2 & O3)]; auto; try congruence.
  { intros Hv. specialize (Vp Hv). rewrite U64_val. lia. }
  exists (m_world m1). split; [exact Aw|]. rewrite K. clear K Ro.
  destruct (invoke k F q input (with_stipend q sent) (m_world m1)) as [[ret err back w']| |]; try reflexivity.
  intros Hb. unfold after_call.
  assert (M : exists mem', (if match err with None => true | Some e => reverted e end
       then mset (m_mem m1) (lo64 (q_out q)) (lo64 (q_outsize q)) ret else Ok (m_mem m1)) = Ok mem' /\
       blen mem' = blen (m_mem m1) /\ patched (m_mem m) mem' (q_out q) (copied q ret err) (byte_at ret)).
  { assert (Id : patched (m_mem m) (m_mem m1) (q_out q) 0 (byte_at ret)).
    { intros i. rewrite Em, byte_at_grow. destruct (N.leb_spec (q_out q) i), (N.ltb_spec i (q_out q + 0)); cbn [andb]; try reflexivity; lia. }
    assert (Wr : exists mem', mset (m_mem m1) (lo64 (q_out q)) (lo64 (q_outsize q)) ret = Ok mem' /\ blen mem' = blen (m_mem m1) /\
       patched (m_mem m) mem' (q_out q) (N.min (q_outsize q) (blen ret)) (byte_at ret)).
    { rewrite O1. destruct O2 as [E | ->].
      - rewrite E. exists (m_mem m1). split; [reflexivity|]. split; [reflexivity|]. rewrite N.min_0_l. exact Id.
      - rewrite Em. apply mset_part. exact O3. }
    unfold copied. destruct err as [e|]; [destruct (reverted e)|]; [exact Wr| |exact Wr].
    exists (m_mem m1). auto. }
  destruct M as (mem' & -> & Bm & Pa). eexists. split; [reflexivity|]. cbn [m_pc m_stack m_gas m_ret m_world m_mem].
  split; [now rewrite Epc|]. split; [reflexivity|]. split.
  { rewrite Eg. apply N.mod_small. rewrite U64_val. rewrite Ws in Hb. destruct (N.eqb_spec (q_value q) 0) as [|Hv]; [lia|specialize (Vp Hv); lia]. }
  split; [reflexivity|]. split; [reflexivity|]. split; [exact Pa|]. split; [congruence|].
  destruct Pd as (v & V1 & V2 & V3). exists v. cbn [m_mem m_last]. rewrite Bm. auto.
Qed.

Lemma transfer_pays w from to v : exist w from = true -> exist w to = true -> pays w (transfer keccak committed w from to v) from to v.
Proof.
  intros H1 H2. unfold transfer, add_balance, here, set_acct. cbn [w_acct].
    unfold exist in H1, H2. destruct (w_acct w from) as [af|] eqn:Ef; [|discriminate].
    destruct (w_acct w to) as [at'|] eqn:Et; [|discriminate].
    assert (K : forall b, upd (w_acct w) from (Some (Acct (x_nonce af) (x_bal af + - Z.of_N v) (x_hash af) (x_code af) (x_stor af) (x_suicided af))) b =
      if b =? from then Some (Acct (x_nonce af) (x_bal af + - Z.of_N v) (x_hash af) (x_code af) (x_stor af) (x_suicided af)) else w_acct w b) by reflexivity.
    unfold pays, balance, exist, nonce, code, code_hash, state. cbn [w_acct w_logs w_refund w_addr w_slot]. unfold upd.
    destruct (N.eqb_spec to from) as [->|Hn].
    - split; [|split; [|split]]; [intros b|intros b|intros b j|auto]; cbn [x_nonce x_bal x_hash x_code x_stor];
        destruct (N.eqb_spec b from) as [->|Hb]; rewrite ?Ef; cbn [x_nonce x_bal x_hash x_code x_stor]; auto; try lia.
    - rewrite Et. split; [|split; [|split]]; [intros b|intros b|intros b j|auto];
        destruct (N.eqb_spec b to) as [->|Hb]; cbn [x_nonce x_bal x_hash x_code x_stor];
        try (destruct (N.eqb_spec to from); [contradiction|]); rewrite ?Et; auto; try lia;
        destruct (N.eqb_spec b from) as [->|Hf]; rewrite ?Ef; cbn [x_nonce x_bal x_hash x_code x_stor]; auto; lia.
Qed.
Lemma touch_pays w a : exist w a = true -> pays w (add_balance keccak committed w a 0) a a 0.
Proof.
  intro Ea. unfold add_balance, here, set_acct. unfold exist in Ea. destruct (w_acct w a) as [x|] eqn:E; [|discriminate].
  unfold pays, balance, exist, nonce, code, code_hash, state. cbn [w_acct w_logs w_refund w_addr w_slot]. unfold upd.
  split; [|split; [|split]]; [intros b|intros b|intros b j|auto]; destruct (N.eqb_spec b a) as [->|Hb]; rewrite ?E;
    cbn [x_nonce x_bal x_hash x_code x_stor]; auto; try lia.
Qed.

(* Who runs: CALL hands over the money and runs the callee as itself; CALLCODE and DELEGATECALL run its code on the
   storage of the caller, DELEGATECALL also as if called by the caller's caller with the caller's amount; STATICCALL
   runs it read only.  When the run fails the world is as before, and its gas is lost unless it reverted. *)
Theorem C100_callee k F q input gas w :
  call_allowed (f_self F) (q_addr q) = true -> f_depth F <= 1024 -> is_pre (q_addr q) = false ->
  exist w (f_self F) = true -> exist w (q_addr q) = true -> (Z.of_N (q_value q) <= balance w (f_self F))%Z ->
  exists w2, handed k F q w w2 /\
    (code w (q_addr q) <> [] -> invoke k F q input gas w = seen_by_caller w (rec (callee k F q input w) (start gas w2))) /\
    (code w (q_addr q) = [] -> invoke k F q input gas w = XOut (Out [] None gas w2)).
Proof.
  intros Ca De Pr Es Ea Ba.
  pose proof (transfer_pays w) as T.
  assert (Dl : (1024 <? f_depth F) = false) by (apply N.ltb_ge; exact De).
  assert (Ct : can_transfer w (f_self F) (q_value q) = true) by (unfold can_transfer; apply Z.leb_le; exact Ba).
  destruct k; cbn [handed invoke callee].
  - exists (transfer keccak committed w (f_self F) (q_addr q) (q_value q)). split; [apply T; assumption|].
    unfold evm_call, Interp.evm_call. rewrite Ca, Dl, Ct, Ea, Pr. cbn [negb andb]. rewrite Bool.andb_false_r. unfold run_frame. cbn [f_code].
    destruct (T (f_self F) (q_addr q) (q_value q) Es Ea) as (_ & T2 & _). destruct (T2 (q_addr q)) as (_ & _ & -> & _).
    split; intros H; [|rewrite H; reflexivity]. destruct (code w (q_addr q)); [contradiction|reflexivity].
  - exists w. split; [reflexivity|]. unfold evm_callcode, Interp.evm_callcode. rewrite Ca, Dl, Ct, Pr. cbn [negb]. unfold run_frame. cbn [f_code].
    split; intros H; [|rewrite H; reflexivity]. destruct (code w (q_addr q)); [contradiction|reflexivity].
  - exists w. split; [reflexivity|]. unfold evm_delegate, Interp.evm_delegate. rewrite Ca, Dl, Pr. cbn [negb]. unfold run_frame. cbn [f_code].
    split; intros H; [|rewrite H; reflexivity]. destruct (code w (q_addr q)); [contradiction|reflexivity].
  - exists (add_balance keccak committed w (q_addr q) 0). split.
    + apply touch_pays. exact Ea.
    + unfold evm_static, Interp.evm_static. rewrite Ca, Dl, Pr. cbn [negb]. rewrite code_add_balance. unfold run_frame. cbn [f_code].
      split; intros H; [|rewrite H; reflexivity]. destruct (code w (q_addr q)); [contradiction|reflexivity].
Qed.

(* A built-in contract is asked for its price first, and takes it whatever it does then.  It runs with what is left,
   for the caller; only CALL lets it write, and only CALL and CALLCODE show it an amount.  It gives back what it did
   not use; when it fails the world is as before, and its gas is lost unless it reverted. *)
Theorem C100_built_in_callee k F q input gas w :
  call_allowed (f_self F) (q_addr q) = true -> f_depth F <= 1024 -> is_pre (q_addr q) = true ->
  exist w (f_self F) = true -> exist w (q_addr q) = true -> (Z.of_N (q_value q) <= balance w (f_self F))%Z ->
  let price := pre_gas (q_addr q) input in
  let read_only := match k with KCall => false | _ => true end in
  let amount := match k with KCall | KCallCode => q_value q | _ => 0 end in
  exists w2, handed k F q w w2 /\
    (gas < price -> invoke k F q input gas w = XOut (Out [] (Some EOutOfGas) 0 w)) /\
    (forall ret err used w3, price <= gas -> pre_run read_only (f_self F) (q_addr q) input (gas - price) amount w2 = (ret, err, used, w3) ->
       invoke k F q input gas w = seen_by_caller w (XOut (Out ret err (gas - price - used) w3))).
Proof.
  intros Ca De Pr Es Ea Ba price read_only amount.
  assert (Dl : (1024 <? f_depth F) = false) by (apply N.ltb_ge; exact De).
  assert (Ct : can_transfer w (f_self F) (q_value q) = true) by (unfold can_transfer; apply Z.leb_le; exact Ba).
  exists (match k with KCall => transfer keccak committed w (f_self F) (q_addr q) (q_value q) | KStatic => add_balance keccak committed w (q_addr q) 0 | _ => w end).
  split; [destruct k; cbn [handed]; [apply transfer_pays; assumption|reflexivity|reflexivity|apply touch_pays; exact Ea]|].
  split.
  - intro L. apply N.ltb_lt in L. unfold price in L.
    destruct k; cbn [invoke]; unfold evm_call, evm_callcode, evm_delegate, evm_static, Interp.evm_call, Interp.evm_callcode, Interp.evm_delegate, Interp.evm_static;
      rewrite Ca, Dl, ?Ct, ?Ea, Pr; cbn [negb andb]; rewrite ?Bool.andb_false_r; unfold precompile; rewrite L; reflexivity.
  - intros ret err used w3 L R. apply N.ltb_ge in L. unfold price in L.
    destruct k; cbn [invoke]; unfold evm_call, evm_callcode, evm_delegate, evm_static, Interp.evm_call, Interp.evm_callcode, Interp.evm_delegate, Interp.evm_static;
      rewrite Ca, Dl, ?Ct, ?Ea, Pr; cbn [negb andb]; rewrite ?Bool.andb_false_r; unfold precompile; rewrite L; cbn zeta;
      unfold read_only, amount, price in R; rewrite R; destruct err; reflexivity.
Qed.

(* A call that the chain does not permit, that is too deep or that pays more than there is fails, with its gas back
   and nothing changed; so does nothing a call without money to an account that is not there, which succeeds. *)
Theorem C100_refused k F q input gas w :
  (0 <= balance w (f_self F))%Z ->
  (call_allowed (f_self F) (q_addr q) = false \/ 1024 < f_depth F \/
   ((k = KCall \/ k = KCallCode) /\ (balance w (f_self F) < Z.of_N (q_value q))%Z) ->
   exists e, invoke k F q input gas w = XOut (Out [] (Some e) gas w) /\ reverted e = false) /\
  (k = KCall -> call_allowed (f_self F) (q_addr q) = true -> f_depth F <= 1024 -> is_pre (q_addr q) = false ->
   exist w (q_addr q) = false -> q_value q = 0 -> invoke k F q input gas w = XOut (Out [] None gas w)).
Proof.
  intros Hb. split.
  - intros H.
    destruct (call_allowed (f_self F) (q_addr q)) eqn:Ca.
    2: { exists EHook. split; [|reflexivity]. destruct k; cbn [invoke]; unfold evm_call, evm_callcode, evm_delegate, evm_static,
      Interp.evm_call, Interp.evm_callcode, Interp.evm_delegate, Interp.evm_static; rewrite Ca; reflexivity. }
    destruct (N.ltb_spec 1024 (f_depth F)) as [D|D].
    { exists EDepth. split; [|reflexivity]. destruct k; cbn [invoke]; unfold evm_call, evm_callcode, evm_delegate, evm_static,
      Interp.evm_call, Interp.evm_callcode, Interp.evm_delegate, Interp.evm_static; rewrite Ca; cbn [negb];
      (destruct (N.ltb_spec 1024 (f_depth F)); [reflexivity|lia]). }
    destruct H as [|[|[K V]]]; [discriminate|lia|]. exists EBalance. split; [|reflexivity].
    assert (Ct : can_transfer w (f_self F) (q_value q) = false) by (unfold can_transfer; apply Z.leb_gt; exact V).
    assert (Nz : (q_value q =? 0) = false) by (apply N.eqb_neq; intros E; rewrite E in V; cbn in V; lia).
    destruct K as [-> | ->]; cbn [invoke]; unfold evm_call, evm_callcode, Interp.evm_call, Interp.evm_callcode; rewrite Ca, Ct, ?Nz; cbn [negb andb];
      (destruct (N.ltb_spec 1024 (f_depth F)); [lia|reflexivity]).
  - intros -> Ca De Pr Ex V0. cbn [invoke]. unfold evm_call, Interp.evm_call. rewrite Ca, Ex, Pr, V0. cbn [negb andb N.eqb].
    destruct (N.ltb_spec 1024 (f_depth F)); [lia|reflexivity].
Qed.

(* A read-only run that sends money with CALL ends badly. *)
Theorem C100_read_only F m q :
  runs F m 0xf1 -> operands KCall (m_stack m) = Some q -> N.of_nat (length (m_stack m)) <= 1024 -> paid m -> m_gas m < 2 ^ 64 ->
  f_ro F = true -> q_value q <> 0 ->
  exists e g w, step F m = SDone (Out [] (Some e) g w) /\ reverted e = false /\ w_acct w = w_acct (m_world m) /\ w_logs w = w_logs (m_world m).
Proof.
  intros R Q L P G Ro Hv. assert (Gu : m_gas m < U64) by exact G.
  destruct (call_pay keccak committed F m KCall q Q L P Gu) as [Y1 Y2].
  unfold step. rewrite (step_eq _ _ _ _ _ _ _ _ _ F m _ (ICall KCall) 100 R eq_refl).
  set (A := affordable m (base_price keccak KCall (m_world m) q) (span q)) in *.
  assert (D : A \/ ~ A).
  { unfold A, affordable. destruct (N.lt_ge_cases (words_for m (span q)) (2 ^ 32)) as [H1|H1];
      [|right; intros [H _]; apply N.lt_nge in H; contradiction].
    destruct (N.le_gt_cases (base_price keccak KCall (m_world m) q + mem_total (words_for m (span q))) (m_gas m + m_last m)) as [H2|H2];
      [left; auto|right; intros [_ H]; apply N.lt_nge in H2; contradiction]. }
  destruct D as [D|D].
  - destruct (Y1 D) as (m1 & size & -> & Es & Epc & Aw & Mw & Em & Lb & Eg & Bl & Pd).
    destruct (operands_stack _ _ _ Q) as (x & S & Ea & Ev).
    rewrite S in Mw.
    destruct (two_operands 5 6 3 4 _ _ (m_mem m) Mw Lb (q_out q) (q_outsize q) (q_in q) (q_insize q) eq_refl eq_refl eq_refl eq_refl)
      as (_ & _ & _ & A4 & A5 & A6).
    assert (Gm : mget (m_mem m1) (lo64 (q_in q)) (lo64 (q_insize q)) = Ok (area (m_mem m) (q_in q) (q_insize q))).
    { rewrite Em, A4. destruct A5 as [E | ->]; [rewrite E; reflexivity|now apply mget_area_ok]. }
    exists EWrite, (m_gas m1), (m_world m1). unfold Interp.execute, local. rewrite Es, S. unfold on_stack. cbn [has_value]. rewrite Gm, Ro.
    destruct (N.eqb_spec (q_value q) 0); [contradiction|]. cbn [negb andb]. destruct Aw as (W1 & W2 & _). auto.
  - destruct (Y2 D) as (e & g' & -> & Z). exists e, g', (m_world m). auto.
Qed.

(* A creation runs the bytes of memory named with all but a 64th of the gas left; back come the address or 0, the gas
   not used, and the answer only when it reverted. *)
Theorem C100_create F m (salted : bool) v off len salt st :
  runs F m (if salted then 0xf5 else 0xf0) -> m_stack m = v :: off :: len :: (if salted then salt :: st else st) ->
  N.of_nat (length (m_stack m)) <= 1024 -> paid m -> m_gas m < 2 ^ 64 -> f_ro F = false ->
  let price := 32000 + (if salted then 6 * ((len + 31) / 32) else 0) in
  let left := gas_left m price (reach off len) in
  let sent := left - left / 64 in
  let init := area (m_mem m) off len in
  let addr := if salted then create2_address keccak (f_self F) salt init
              else create_address keccak (f_self F) (nonce (m_world m) (f_self F)) in
  (affordable m price (reach off len) ->
     match evm_create false (f_depth F) (f_self F) addr init sent v (m_world m) with
     | XPanic => step F m = SPanic
     | XFuel => step F m = SFuel
     | XOut (Out ret err back w') => back <= sent ->
         exists m', step F m = SNext m' /\ m_pc m' = m_pc m + 1 /\
           m_stack m' = match err with None => addr | Some _ => 0 end :: st /\
           m_gas m' = left - sent + back /\
           m_ret m' = match err with Some e => if reverted e then ret else [] | None => [] end /\
           m_world m' = w' /\ (forall i, byte_at (m_mem m') i = byte_at (m_mem m) i) /\
           blen (m_mem m') = 32 * words_for m (reach off len) /\ paid m'
     end) /\
  (~ affordable m price (reach off len) -> ends_badly m (step F m)).
Proof.
  intros R S L P G Ro price left sent init addr.
  assert (Len : len < U64 \/ U64 <= reach off len).
  { unfold reach. destruct (N.eqb_spec len 0) as [->|]; [left; reflexivity|]. destruct (N.ltb_spec len U64); [now left|right; lia]. }
  set (i := if salted then ICreate2 else ICreate).
  assert (Op : operation_of (if salted then 0xf5 else 0xf0) = canon i 32000) by (unfold i; destruct salted; reflexivity).
  destruct (PropsData.memory keccak committed B is_pre pre_gas pre_run call_allowed create_allowed rec
    F m _ i 32000 (price - 32000) (reach off len) R Op) as [Y1 Y2]; auto; try reflexivity.
  - unfold i, price. destruct salted.
    + right. exists 2%nat, 6, len. split; [right; right; auto|]. split; [now rewrite S|]. split; [exact Len|]. lia.
    + left. split; [reflexivity|lia].
  - rewrite S. unfold i. destruct salted; cbn [pops length]; lia.
  - rewrite S in *. unfold i. destruct salted; cbn [pops pushes length] in *; lia.
  - assert (E : mem_of i = MAt 1 2) by (unfold i; destruct salted; reflexivity). rewrite E, S. cbn [mem_size]. unfold back. cbn [nth_error rbind].
    apply calc_reach.
  - replace (32000 + (price - 32000)) with price in Y1, Y2 by (unfold price; lia). split; [|exact Y2].
    intros A. destruct (Y1 A) as (m1 & size & Ep & Es & Epc & Er & Ew & Mw & Em & Lb & Ch). clear Y1 Y2.
    assert (E : mem_of i = MAt 1 2) by (unfold i; destruct salted; reflexivity). rewrite E, S in Mw.
    assert (T := take_at _ _ _ _ (m_mem m) off len Mw Lb eq_refl eq_refl). fold init in T.
    destruct Ch as (C1 & C2 & C3).
    assert (El : m_gas m1 = left) by (unfold left, gas_left; lia).
    assert (Le : left <= m_gas m).
    { assert (Md : m_last m <= mem_total (words_for m (reach off len))).
      { destruct P as (v0 & Lv & _ & ->). unfold words_for. rewrite Lv, N.mul_comm, N.div_mul by discriminate. apply mem_price_mono. lia. }
      lia. }
    assert (K : step F m = after_create (set_gas m1 (left - sent)) st addr (evm_create false (f_depth F) (f_self F) addr init sent v (m_world m))).
    { unfold step. rewrite Ep. unfold i, Interp.execute, addr, sent. rewrite <- El, <- Ew. destruct salted; cbn [local]; rewrite Es, S, Ro, Em, T; reflexivity. }
    rewrite K. destruct (evm_create false (f_depth F) (f_self F) addr init sent v (m_world m)) as [[ret err back w']| |]; try reflexivity.
    intros Hb. unfold after_create. eexists. split; [reflexivity|]. cbn [m_pc m_stack m_gas m_ret m_world m_mem set_gas].
    split; [now rewrite Epc|]. split; [reflexivity|]. split.
    { apply N.mod_small. rewrite U64_val. change (2 ^ 64) with 18446744073709551616 in G. unfold sent in *. lia. }
    split; [reflexivity|]. split; [reflexivity|]. split; [intros j; rewrite Em; apply byte_at_grow|].
    split; [exact C2|]. destruct C3 as (v0 & V1 & V2 & V3). exists v0. auto.
Qed.

(* A creation counts in the caller's nonce, also when it fails later.  The new account starts with nonce 1, the money and
   no code; what the init code returns becomes its code, for 200 gas a byte, unless it is too long or begins with 0xEF. *)
Theorem C100_creation depth caller addr init gas v w :
  create_allowed caller = true -> depth <= 1024 -> (Z.of_N v <= balance w caller)%Z -> nonce w caller + 1 < 2 ^ 64 ->
  exist w caller = true -> addr <> caller -> init <> [] ->
  exists w1, counted w w1 caller (nonce w caller + 1) addr /\
  (nonce w addr <> 0 \/ code_hash w addr <> 0 /\ code_hash w addr <> keccak [] ->
     evm_create false depth caller addr init gas v w = XOut (Out [] (Some ECollision) 0 w1)) /\
  (nonce w addr = 0 -> code_hash w addr = 0 \/ code_hash w addr = keccak [] ->
     exists w2, born committed w1 w2 caller addr v /\
     match rec (Frame addr caller v init [] false (depth + 1)) (start gas w2) with
     | XOut (Out ret None g w') =>
         (acceptable ret -> blen ret * 200 <= g -> exist w' addr = true -> exists w'', deployed keccak w' w'' addr ret /\
            evm_create false depth caller addr init gas v w = XOut (Out ret None (g - blen ret * 200) w'')) /\
         (~ acceptable ret \/ g < blen ret * 200 -> exists e,
            evm_create false depth caller addr init gas v w = XOut (Out ret (Some e) 0 w1) /\ reverted e = false)
     | r => evm_create false depth caller addr init gas v w = seen_by_caller w1 r
     end).
Proof.
  intros Ca De Ba No Ex Hn Hi.
  set (w1 := warm (set_nonce keccak committed w caller (nonce w caller + 1)) addr).
  assert (Ct : counted w w1 caller (nonce w caller + 1) addr).
  { unfold w1, counted, warm, set_nonce, here, set_acct, nonce, exist, balance, code, code_hash, state. cbn [w_acct w_logs w_refund w_addr w_slot].
    unfold exist in Ex. destruct (w_acct w caller) as [x|] eqn:E; [|discriminate]. unfold upd.
    split; [|split; [|split; [|do 3 (split; [reflexivity|])]]]; [intros b|intros b|intros b j|intros b];
      try (destruct (N.eqb_spec b caller) as [->|Hb]; rewrite ?E; cbn [x_nonce x_bal x_hash x_code x_stor]; auto; fail).
    destruct (b =? addr); [now rewrite Bool.orb_true_r|now rewrite Bool.orb_false_r]. }
  exists w1. split; [exact Ct|].
  assert (Fr : nonce w1 addr = nonce w addr /\ code_hash w1 addr = code_hash w addr).
  { destruct Ct as (C1 & C2 & _). rewrite C1. destruct (N.eqb_spec addr caller); [contradiction|]. destruct (C2 addr) as (_ & _ & _ & ->). auto. }
  assert (Ev : evm_create false depth caller addr init gas v w =
    if negb (nonce w addr =? 0) || (negb (code_hash w addr =? 0) && negb (code_hash w addr =? keccak []))
    then XOut (Out [] (Some ECollision) 0 w1)
    else settle w1 (deposit keccak committed addr (rec (Frame addr caller v init [] false (depth + 1)) (start gas (new_contract keccak committed w1 caller addr v))))).
  { unfold evm_create, Interp.evm_create. rewrite Ca. cbn [negb].
    destruct (N.ltb_spec 1024 depth); [lia|]. assert (Q : can_transfer w caller v = true) by (unfold can_transfer; apply Z.leb_le; exact Ba).
    rewrite Q. cbn [negb]. change U64 with (2 ^ 64). destruct (N.leb_spec (2 ^ 64) (nonce w caller + 1)) as [Hl|Hl];
      [apply N.lt_nge in No; contradiction|]. fold w1. destruct Fr as [-> ->]. unfold run_frame. cbn [f_code].
    destruct init; [contradiction|]. reflexivity. }
  split.
  - intros H. rewrite Ev. destruct (N.eqb_spec (nonce w addr) 0), (N.eqb_spec (code_hash w addr) 0), (N.eqb_spec (code_hash w addr) (keccak []));
      cbn [negb andb orb]; try reflexivity; exfalso; destruct H as [|[]]; contradiction.
  - intros Hz Hc. set (w2 := new_contract keccak committed w1 caller addr v) in *. exists w2. split.
    { assert (Ex1 : exists y, w_acct w1 caller = Some y).
      { destruct Ct as (_ & C2 & _). destruct (C2 caller) as (C & _). unfold exist in C, Ex. rewrite Ex in C.
        destruct (w_acct w1 caller) as [y|]; [eauto|discriminate]. }
      destruct Ex1 as (y & Ey). clearbody w1. clear -Ey Hn. unfold w2, new_contract, transfer, set_nonce, create_account, add_balance, here, set_acct, blank.
      unfold born, exist, nonce, code, code_hash, state, balance. cbn [w_acct w_logs w_refund w_addr w_slot]. unfold upd.
      rewrite !N.eqb_refl.
      destruct (N.eqb_spec caller addr) as [E|_]; [congruence|].
      destruct (N.eqb_spec addr caller) as [E|_]; [congruence|]. rewrite Ey, ?N.eqb_refl.
      cbn [x_nonce x_bal x_hash x_code x_stor].
      split; [auto|]. split; [|split; [|auto]].
      - intros b. destruct (N.eqb_spec b addr) as [->|Hb]; cbn [x_bal].
        + destruct (N.eqb_spec addr caller); [contradiction|]. destruct (w_acct w1 addr); lia.
        + destruct (N.eqb_spec b caller) as [->|]; [rewrite Ey; cbn [x_bal]; lia|]. destruct (w_acct w1 b); lia.
      - intros b Hb. destruct (N.eqb_spec b addr); [contradiction|].
        destruct (N.eqb_spec b caller) as [->|]; rewrite ?Ey; cbn [x_nonce x_hash x_code x_stor]; auto. }
    assert (Ev2 : evm_create false depth caller addr init gas v w =
      settle w1 (deposit keccak committed addr (rec (Frame addr caller v init [] false (depth + 1)) (start gas w2)))).
    { rewrite Ev. rewrite Hz. cbn [N.eqb negb orb]. destruct Hc as [-> | ->]; [reflexivity|]. rewrite N.eqb_refl. cbn [negb]. now rewrite Bool.andb_false_r. }
    rewrite Ev2. clear Ev Ev2.
    destruct (rec (Frame addr caller v init [] false (depth + 1)) (start gas w2)) as [[ret [e|] g w']| |]; try reflexivity.
    assert (Dp : deposit keccak committed addr (XOut (Out ret None g w')) =
      if 24576 <? blen ret then XOut (Out ret (Some EMaxCode) g w')
      else if byte_at ret 0 =? 0xEF then XOut (Out ret (Some EInvalidCode) g w')
      else if g <? blen ret * 200 then XOut (Out ret (Some ECodeStore) g w')
      else XOut (Out ret None (g - blen ret * 200) (set_code keccak committed w' addr ret))).
    { unfold deposit, byte_at. destruct (24576 <? blen ret); [reflexivity|]. destruct ret as [|b r]; [reflexivity|].
      cbn [nth N.to_nat]. destruct (N.eqb_spec b 0xEF) as [->|Hne]; [reflexivity|].
      destruct b as [|p]; [reflexivity|]. do 8 (destruct p as [p|p|]; try reflexivity). now exfalso. }
    rewrite Dp. split.
    + intros [A1 A2] Hg Ex'. destruct (N.ltb_spec 24576 (blen ret)); [lia|].
      destruct (N.eqb_spec (byte_at ret 0) 0xEF); [contradiction|].
      destruct (N.ltb_spec g (blen ret * 200)); [lia|].
      exists (set_code keccak committed w' addr ret). split; [|reflexivity].
      unfold deployed, set_code, here, set_acct, exist, nonce, code, code_hash, state, balance. cbn [w_acct w_logs w_refund w_addr w_slot]. unfold upd.
      unfold exist in Ex'. destruct (w_acct w' addr) as [x|] eqn:E; [|discriminate].
      split; [|split; [|split; [|split; [|auto]]]]; [intros b|intros b|intros b|intros b j];
        destruct (N.eqb_spec b addr) as [->|]; rewrite ?E; cbn [x_nonce x_bal x_hash x_code x_stor]; auto.
    + intros H. destruct (N.ltb_spec 24576 (blen ret)); [eexists; split; reflexivity|].
      destruct (N.eqb_spec (byte_at ret 0) 0xEF); [eexists; split; reflexivity|].
      destruct (N.ltb_spec g (blen ret * 200)); [eexists; split; reflexivity|].
      exfalso. destruct H as [H|H]; [apply H; split; assumption|lia].
Qed.

End Props.

Print Assumptions C100_call.
Print Assumptions C100_callee.
Print Assumptions C100_built_in_callee.
Print Assumptions C100_refused.
Print Assumptions C100_read_only.
Print Assumptions C100_create.
Print Assumptions C100_creation.

(* 0xA1 calls the contract 0xA2; the callee is any program that uses 10 gas and answers with five bytes about its frame *)
Definition pworld : world :=
  World (fun a => if a =? 0xA1 then Some (contract [0xf1]) else if a =? 0xA2 then Some (contract [0x5b; 0]) else None)
    0 [] (fun a => a =? 0xA1) (fun _ _ => false).
Definition pmach (st : list N) : mach := Mach 0 80000 st (repeat 9 32) 3 [] pworld.
Definition ptell (F : frame) (m : mach) : xres :=
  XOut (Out [f_self F; f_caller F; f_value F; f_depth F; if f_ro F then 1 else 0] (if blen (f_input F) =? 2 then None else Some EReverted)
    (m_gas m - 10) (m_world m)).
Definition pstep (c : bytes) (st : list N) : sres :=
  step xhash xcommitted xblock no_pre pre_cost pre_nothing all2 all1 ptell (xframe c) (pmach st).
Definition pseen (r : sres) : option (N * list N * bytes * bytes * Z * Z) :=
  match r with
  | SNext m => Some (m_gas m, m_stack m, m_ret m, m_mem m, balance (m_world m) 0xA1, balance (m_world m) 0xA2)
  | _ => None end.
Definition pq : list N := [1000; 0xA2; 7; 0; 2; 4; 3; 99].
Example C100_hypotheses :
  runs (xframe [0xf1]) (pmach pq) (opcode KCall) /\
  operands KCall (m_stack (pmach pq)) = Some (Request 1000 0xA2 7 0 2 4 3 [99]) /\ paid (pmach pq) /\
  base_price xhash KCall pworld (Request 1000 0xA2 7 0 2 4 3 [99]) = 11600 /\
  affordable (pmach pq) 11600 (span (Request 1000 0xA2 7 0 2 4 3 [99])) /\
  exist pworld 0xA1 = true /\ exist pworld 0xA2 = true /\ (Z.of_N 7 <= balance pworld 0xA1)%Z /\ code pworld 0xA2 <> [] /\
  acceptable [0x60; 0].
Proof.
  split; [reflexivity|]. split; [reflexivity|]. split; [exists 1; vm_compute; auto|]. split; [reflexivity|].
  split; [split; vm_compute; [reflexivity|discriminate]|]. split; [reflexivity|]. split; [reflexivity|].
  split; [vm_compute; discriminate|]. split; [discriminate|]. split; vm_compute; discriminate.
Qed.
(* CALL: 80000 - 11600 - 1000 + (3300 - 10); three of the five bytes fit.  CALLCODE and DELEGATECALL run as 0xA1, the
   latter for 0xE0 with 7; STATICCALL is read only; a call with one byte of input is reverted, and the money is back. *)
Example C100_concrete :
  pseen (pstep [0xf1] pq) = Some (70690, [1; 99], [0xA2; 0xA1; 7; 2; 0], repeat 9 4 ++ [0xA2; 0xA1; 7] ++ repeat 9 25, 43%Z, 57%Z) /\
  pseen (pstep [0xf2] pq) = Some (70690, [1; 99], [0xA1; 0xA1; 7; 2; 0], repeat 9 4 ++ [0xA1; 0xA1; 7] ++ repeat 9 25, 50%Z, 50%Z) /\
  pseen (pstep [0xf4] [1000; 0xA2; 0; 2; 4; 3; 99]) =
    Some (77390, [1; 99], [0xA1; 0xE0; 7; 2; 0], repeat 9 4 ++ [0xA1; 0xE0; 7] ++ repeat 9 25, 50%Z, 50%Z) /\
  pseen (pstep [0xfa] [1000; 0xA2; 0; 2; 4; 3; 99]) =
    Some (77390, [1; 99], [0xA2; 0xA1; 0; 2; 1], repeat 9 4 ++ [0xA2; 0xA1; 0] ++ repeat 9 25, 50%Z, 50%Z) /\
  pseen (pstep [0xf1] [1000; 0xA2; 7; 0; 1; 4; 30; 99]) =
    Some (70687, [0; 99], [0xA2; 0xA1; 7; 2; 0], repeat 9 4 ++ [0xA2; 0xA1; 7; 2; 0] ++ repeat 9 23 ++ repeat 0 32, 50%Z, 50%Z) /\
  pseen (pstep [0xf1] [1000; 0xA2; 70; 0; 2; 4; 3; 99]) = Some (70700, [0; 99], [], repeat 9 32, 50%Z, 50%Z).
Proof. vm_compute. repeat split. Qed.
(* 0xA2 as a built-in contract that asks for 100 and uses 30 more: called with 3300, then with too little *)
Definition prun (ro : bool) (caller addr : N) (input : bytes) (gas value : N) (w : world) : bytes * option verr * N * world :=
  ([caller; gas mod 256; value; if ro then 1 else 0], if blen input =? 2 then None else Some EPre, 30, w).
Definition pbuilt (c : bytes) (st : list N) : sres :=
  step xhash xcommitted xblock (fun a => a =? 0xA2) (fun _ _ => 100) prun all2 all1 ptell (xframe c) (pmach st).
Example C100_built_in_concrete :
  pseen (pbuilt [0xf1] pq) = Some (70570, [1; 99], [0xA1; 128; 7; 0], repeat 9 4 ++ [0xA1; 128; 7] ++ repeat 9 25, 43%Z, 57%Z) /\
  pseen (pbuilt [0xfa] [1000; 0xA2; 0; 2; 4; 3; 99]) = Some (77270, [1; 99], [0xA1; 132; 0; 1], repeat 9 4 ++ [0xA1; 132; 0] ++ repeat 9 25, 50%Z, 50%Z) /\
  pseen (pbuilt [0xf1] [1000; 0xA2; 7; 0; 1; 4; 3; 99]) = Some (67400, [0; 99], [0xA1; 128; 7; 0], repeat 9 32, 50%Z, 50%Z) /\
  pseen (pbuilt [0xfa] [90; 0xA2; 0; 2; 4; 3; 99]) = Some (77310, [0; 99], [], repeat 9 32, 50%Z, 50%Z).
Proof. vm_compute. repeat split. Qed.
