(* No contract can crash the interpreter, and a run without error is a tree of
   the effects of Effects.v. *)
From Coq Require Import NArith Nnat.
From Verif Require Import Lib.Base Lib.Bytes Evm.Words Evm.World Evm.Memory Evm.Table Evm.Analysis Evm.AnalysisSpec
  Evm.AnalysisProofs Evm.Interp Evm.MemoryProofs Evm.TableProofs Evm.StepProofs Evm.Effects Evm.WorldProofs.
Open Scope N_scope.

(* ---- facts that do not depend on the environment ---- *)
Ltac okd H := match type of H with Ok ?x = Ok ?d => assert (d = x) by congruence; subst d; cbn [d_world] end.
Lemma stack_back st n : (n < length st)%nat -> exists x, back st n = Ok x.
Proof.
  intros H. unfold back. destruct (nth_error st n) as [x|] eqn:E; [eauto|].
  apply nth_error_None in E. lia.
Qed.

Definition mem_needs (k : memk) (n : nat) : bool :=
  match k with
  | MNone => true
  | MAt o l => (o <? n)%nat && (l <? n)%nat
  | MFix o _ => (o <? n)%nat
  | MTwo o l o2 l2 => (o <? n)%nat && (l <? n)%nat && (o2 <? n)%nat && (l2 <? n)%nat
  end.

Lemma calc_no_panic o l : calc o l <> Panic /\ calc_uint o l <> Panic.
Proof.
  assert (X : calc_uint o l <> Panic).
  { unfold calc_uint. destruct (_ =? _); [discriminate|]. destruct (_ <=? _); [discriminate|]. destruct (_ <=? _); discriminate. }
  split; [|exact X]. unfold calc. destruct (_ <=? _); [discriminate|exact X].
Qed.

Lemma mem_words_no_panic k st : mem_needs k (length st) = true -> mem_words k st <> Panic.
Proof.
  intros H. assert (X : mem_size k st <> Panic).
  { destruct k as [|o l|o l|o l o2 l2]; cbn [mem_size mem_needs] in *; [discriminate| | |];
      repeat (apply andb_prop in H; destruct H as [H ?]);
      repeat match goal with X : (?n <? length st)%nat = true |- _ => apply Nat.ltb_lt, stack_back in X; let E := fresh in destruct X as [? E]; rewrite E; clear E; cbn [rbind] end.
    - apply calc_no_panic.
    - apply calc_no_panic.
    - destruct (calc x2 x1) eqn:E1; cbn [rbind]; [|discriminate|now apply calc_no_panic in E1].
      destruct (calc x0 x) eqn:E2; cbn [rbind]; [discriminate|discriminate|now apply calc_no_panic in E2]. }
  unfold mem_words. destruct (mem_size k st); cbn [rbind]; [apply safe_mul_no_panic|discriminate|contradiction].
Qed.

Lemma mem_of_needs i n : pops i <= N.of_nat n -> mem_needs (mem_of i) n = true.
Proof.
  intros H. destruct i as [|o|o|o| |o|o|o| | | | | | | | | |n'|n'|n'|n'| | |k| | | |]; cbn [mem_of mem_needs pops] in *;
    try reflexivity; try (destruct k; cbn [mem_of mem_needs pops] in * ); rewrite ?andb_true_iff, ?Nat.ltb_lt; lia.
Qed.

(* what the memory size of an instruction covers *)
Lemma cover_at o l st size mem : mem_words (MAt o l) st = Ok size -> blen (grow mem size) < 2 ^ 37 ->
  forall off len, nth_error st o = Some off -> nth_error st l = Some len ->
  inside (grow mem size) (lo64 off) (lo64 len) /\ lo64 len < 2 ^ 63.
Proof.
  intros M L off len Eo El. destruct (mem_words_spec _ _ _ M) as (s & w & E & _ & Ls & Lu & _).
  cbn [mem_size] in E. unfold back in E. rewrite Eo, El in E. cbn [rbind] in E.
  apply calc_spec in E. destruct E as [Hl [->|[Es Eu]]].
  - split; [left; reflexivity|reflexivity].
  - assert (G := grow_len mem size). change (2 ^ 37) with 137438953472 in L.
    rewrite U64_val in *. split.
    + right. unfold lo64. rewrite !N.mod_small by (rewrite U64_val; lia). split; [lia|exact L].
    + unfold lo64. rewrite N.mod_small by (rewrite U64_val; lia). change (2 ^ 63) with 9223372036854775808. lia.
Qed.
Lemma cover_fix o len st size mem : mem_words (MFix o len) st = Ok size -> blen (grow mem size) < 2 ^ 37 -> len <> 0 ->
  forall off, nth_error st o = Some off -> inside (grow mem size) (lo64 off) len.
Proof.
  intros M L Z off Eo. destruct (mem_words_spec _ _ _ M) as (s & w & E & _ & Ls & Lu & _).
  cbn [mem_size] in E. unfold back in E. rewrite Eo in E. cbn [rbind] in E.
  apply calc_uint_spec in E. destruct E as [E|[Es Eu]]; [contradiction|].
  assert (G := grow_len mem size). right. unfold lo64. rewrite N.mod_small by lia. split; [lia|exact L].
Qed.
Lemma cover_two o l o2 l2 st size mem : mem_words (MTwo o l o2 l2) st = Ok size -> blen (grow mem size) < 2 ^ 37 ->
  forall off len off2 len2, nth_error st o = Some off -> nth_error st l = Some len ->
  nth_error st o2 = Some off2 -> nth_error st l2 = Some len2 ->
  inside (grow mem size) (lo64 off) (lo64 len) /\ inside (grow mem size) (lo64 off2) (lo64 len2) /\ lo64 len2 < 2 ^ 63.
Proof.
  intros M L off len off2 len2 Eo El Eo2 El2. destruct (mem_words_spec _ _ _ M) as (s & w & E & _ & Ls & Lu & _).
  cbn [mem_size] in E. unfold back in E. rewrite Eo, El, Eo2, El2 in E. cbn [rbind] in E.
  destruct (calc off len) as [x| |] eqn:E1; cbn [rbind] in E; try discriminate.
  destruct (calc off2 len2) as [y| |] eqn:E2; cbn [rbind] in E; try discriminate.
  assert (Hx : x <= s /\ y <= s).
  { assert (s = if y <? x then x else y) by congruence. subst s. destruct (N.ltb_spec y x); lia. }
  assert (G := grow_len mem size).
  assert (P : forall o l x, calc o l = Ok x -> x <= s -> inside (grow mem size) (lo64 o) (lo64 l) /\ lo64 l < 2 ^ 63).
  { intros o' l' x' C X. apply calc_spec in C. destruct C as [Hl [->|[Es Eu]]].
    - split; [left; reflexivity|reflexivity].
    - change (2 ^ 37) with 137438953472 in L. rewrite U64_val in *. unfold lo64. rewrite !N.mod_small by (rewrite U64_val; lia).
      split; [right; split; [lia|exact L]|]. change (2 ^ 63) with 9223372036854775808. lia. }
  destruct (P _ _ _ E1 ltac:(lia)), (P _ _ _ E2 ltac:(lia)). auto.
Qed.


Lemma jump_no_panic code pos : is_bytes code -> blen code < 2 ^ 63 -> valid_jumpdest code pos <> Panic /\ valid_jumpdest code pos <> Err.
Proof.
  intros H L. destruct (jump_ok code pos H) as (ok & E & _).
  - unfold blen in L. change (2 ^ 63) with 9223372036854775808 in L. change (2 ^ 64) with 18446744073709551616. lia.
  - rewrite E. split; discriminate.
Qed.

Section Safe.
Variable keccak : bytes -> N.
Variable committed : N -> N -> N.
Variable B : block.
Variable is_pre : N -> bool.
Variable pre_gas : N -> bytes -> N.
Variable pre_run : bool -> N -> N -> bytes -> N -> N -> world -> bytes * option verr * N * world.
Variable call_allowed : N -> N -> bool.
Variable create_allowed : N -> bool.

Let exec := exec keccak committed B is_pre pre_gas pre_run call_allowed create_allowed.
Let step := step keccak committed B is_pre pre_gas pre_run call_allowed create_allowed.
Let execute := execute keccak committed B is_pre pre_gas pre_run call_allowed create_allowed.
Let effects := effects keccak committed is_pre pre_run.
Let mild := mild committed.
Let world_ok := world_ok committed.

(* precompiles return bytes, and do not write contract storage, install code, change the refund or
   forget accounts *)
Definition pre_ok : Prop := forall ro s a input g v w ret err used w2,
  pre_run ro s a input g v w = (ret, err, used, w2) -> is_bytes ret /\ (is_pre a = true -> err = None -> mild w w2).
Hypothesis Pre : pre_ok.

(* the two facts about worlds that every tree of effects keeps *)
Definition keeps (s : N) (w w' : world) : Prop :=
  (forall a, exist w a = true -> exist w' a = true) /\ (forall a, w_addr w a = true -> w_addr w' a = true) /\
  (world_ok w -> exist w s = true -> w_addr w s = true -> world_ok w').
Lemma keeps_mild s w w' : mild w w' -> keeps s w w'.
Proof.
  intros M. split; [apply M|]. split; [apply M|]. intros H _ _. eapply mild_ok; eassumption.
Qed.

Lemma mild_send w s a v : mild w (send keccak committed w s a v).
Proof.
  unfold send. eapply mild_trans; [|apply mild_transfer]. destruct (exist w a); [apply mild_refl|apply mild_create].
Qed.
Lemma send_exist w s a v : exist (send keccak committed w s a v) a = true.
Proof. unfold send, transfer. apply exist_add_balance. Qed.
Lemma mild_new w s a v : mild w (new_contract keccak committed w s a v).
Proof.
  unfold new_contract. eapply mild_trans; [|apply mild_transfer]. eapply mild_trans; [|apply mild_set_nonce]. apply mild_create.
Qed.
Lemma new_exist w s a v : exist (new_contract keccak committed w s a v) a = true.
Proof. unfold new_contract, transfer. apply exist_add_balance. Qed.

Definition warmed (ro : bool) (s : N) (w w' : world) : Prop := effects ro s w w' /\ keeps s w w'.

Definition phi (w : world) (g : N) : N := w_refund w + 200 * g.

(* ---- states of a run ---- *)
Definition frame_ok (F : frame) (w : world) : Prop :=
  is_bytes (f_code F) /\ blen (f_code F) < 2 ^ 63 /\ is_bytes (f_input F) /\ blen (f_input F) < 2 ^ 63 /\
  exist w (f_self F) = true /\ w_addr w (f_self F) = true.
Definition mach_ok (m : mach) : Prop :=
  mem_ok (m_mem m) (m_last m) /\ is_bytes (m_mem m) /\ is_bytes (m_ret m) /\ world_ok (m_world m) /\
  phi (m_world m) (m_gas m) < 2 ^ 63.

(* a result of a call made by s in world w with gas g *)
Definition csafe (ro : bool) (s : N) (w : world) (g : N) (r : xres) : Prop :=
  match r with
  | XPanic => False
  | XFuel => True
  | XOut o => is_bytes (o_ret o) /\ warmed ro s w (o_world o) /\ phi (o_world o) (o_gas o) <= phi w g
  end.
(* a result of the run of a frame: the world counts only without an error *)
Definition rsafe (F : frame) (w : world) (g : N) (r : xres) : Prop :=
  match r with
  | XPanic => False
  | XFuel => True
  | XOut o => is_bytes (o_ret o) /\
      (o_err o = None -> warmed (f_ro F) (f_self F) w (o_world o) /\ phi (o_world o) (o_gas o) <= phi w g)
  end.
Definition ssafe (F : frame) (w : world) (g : N) (r : sres) : Prop :=
  match r with
  | SPanic => False
  | SFuel => True
  | SNext m' => mach_ok m' /\ warmed (f_ro F) (f_self F) w (m_world m') /\ phi (m_world m') (m_gas m') <= phi w g
  | SDone o => is_bytes (o_ret o) /\
      (o_err o = None -> warmed (f_ro F) (f_self F) w (o_world o) /\ phi (o_world o) (o_gas o) <= phi w g)
  end.
Definition rec_safe (n : nat) (rec : frame -> mach -> xres) : Prop :=
  rec_le n rec /\ forall F m, frame_ok F (m_world m) -> mach_ok m -> rsafe F (m_world m) (m_gas m) (rec F m).

Lemma warmed_refl ro s w : warmed ro s w w.
Proof. split; [apply E_refl|]. split; [auto|]. split; auto. Qed.
Lemma warmed_trans ro s w1 w2 w3 : warmed ro s w1 w2 -> warmed ro s w2 w3 -> warmed ro s w1 w3.
Proof.
  intros [A (P1 & P2 & P3)] [C (Q1 & Q2 & Q3)]. split; [eapply E_trans; eassumption|].
  split; [auto|]. split; [auto|]. intros H E W. apply Q3; auto.
Qed.
Lemma warmed_mild ro s w w' : effects ro s w w' -> mild w w' -> warmed ro s w w'.
Proof. intros. split; [assumption|]. now apply keeps_mild. Qed.

Lemma phi_gas w g : phi w g < 2 ^ 63 -> g < U64.
Proof. unfold phi. rewrite U64_val. change (2 ^ 63) with 9223372036854775808. lia. Qed.

Lemma is_bytes_nil : is_bytes []. Proof. constructor. Qed.

(* ---- dynamic gas ---- *)
Lemma dynamic_world k F m size d ro : dynamic keccak committed k F m size = Ok d -> k <> DSstore ->
  warmed ro (f_self F) (m_world m) (d_world d) /\ w_refund (d_world d) = w_refund (m_world m).
Proof.
  intros H N.
  assert (R : warmed ro (f_self F) (m_world m) (m_world m)) by apply warmed_refl.
  assert (W : forall a, warmed ro (f_self F) (m_world m) (warm (m_world m) a)).
  { intros a. apply warmed_mild; [apply E_warm|apply mild_warm]. }
  assert (P : forall r, rbind (mem_gas (m_mem m) (m_last m) size) (fun g => rbind r (fun c =>
       rbind (safe_add (fst g) c) (fun t => Ok (Dyn t 0 (snd g) (m_world m))))) = Ok d -> d_world d = m_world m).
  { intros r Hr. rb Hr; try (okd Hr; reflexivity). }
  destruct k; cbn [dynamic] in H; try contradiction.
  - okd H. auto.
  - rb H. okd H. auto.
  - rewrite (P _ H). auto.
  - rb H. destruct (U64 <=? _); [discriminate|]. rb H. okd H. auto.
  - rewrite (P _ H). auto.
  - rewrite (P _ H). auto.
  - rb H. okd H. auto.
  - rb H. destruct (w_slot _ _ _); okd H; [auto|]. split; [|reflexivity].
    cbn. apply warmed_mild; [apply E_slot|apply mild_slot].
  - rb H. destruct (w_addr _ _); [okd H; auto|]. rb H. okd H. auto.
  - rb H. destruct (w_addr _ _); okd H; auto.
  - rb H. destruct (m_gas m <? _); [discriminate|]. rb H.
    match type of H with Ok ?x = Ok _ => assert (Q : d = x) by congruence end. subst d. cbn [d_world].
    destruct (w_addr _ _); auto.
  - rb H. match type of H with Ok ?x = Ok _ => assert (Q : d = x) by congruence end. subst d. cbn [d_world].
    destruct (w_addr _ _); auto.
Qed.

Lemma bind_np {A C} (r : res A) (f : A -> res C) : r <> Panic -> (forall a, r = Ok a -> f a <> Panic) -> rbind r f <> Panic.
Proof. intros H K. destruct r; cbn [rbind]; [auto|discriminate|contradiction]. Qed.
Lemma back_np st n : (n < length st)%nat -> back st n <> Panic.
Proof. intros H. destruct (stack_back st n H) as [x ->]. discriminate. Qed.
Lemma word_cost_np st pos per : (pos < length st)%nat -> word_cost st pos per <> Panic.
Proof.
  intros H. apply bind_np; [apply back_np, H|]. intros x _. destruct (_ <=? _); [discriminate|apply safe_mul_no_panic].
Qed.

Lemma dynamic_no_panic i F m size :
  pops i <= N.of_nat (length (m_stack m)) ->
  (forall k v, sstore_gas committed (f_self F) k v (m_world m) <> Panic) ->
  dynamic keccak committed (dyn_of i) F m size <> Panic.
Proof.
  intros H S.
  assert (Mp := mem_gas_no_panic (m_mem m) (m_last m) size).
  assert (P : forall r, r <> Panic -> rbind (mem_gas (m_mem m) (m_last m) size) (fun g => rbind r (fun c =>
       rbind (safe_add (fst g) c) (fun t => Ok (Dyn t 0 (snd g) (m_world m))))) <> Panic).
  { intros r Hr. apply bind_np; [exact Mp|]. intros g _. apply bind_np; [exact Hr|]. intros c _.
    apply bind_np; [apply safe_add_no_panic|]. discriminate. }
  destruct i as [|o|o|o| |o|o|o| | | | | | | | | |n'|n'|n'|n'| | |k| | | |]; cbn [dyn_of pops] in *;
    try discriminate; try (destruct o; cbn [dynamic]); cbn [dynamic]; try discriminate;
    try (apply P; apply word_cost_np; lia);
    try (apply bind_np; [exact Mp|discriminate]);
    try (apply bind_np; [apply back_np; lia|]; intros x _; destruct (w_addr _ _); discriminate).
  - apply bind_np; [apply back_np; lia|]. intros e _. apply bind_np; [apply safe_add_no_panic|discriminate].
  - apply bind_np; [apply back_np; lia|]. intros x _. destruct (w_slot _ _ _); discriminate.
  - apply bind_np; [exact Mp|]. intros g _. apply bind_np; [apply word_cost_np; lia|]. intros c _.
    apply bind_np; [apply safe_add_no_panic|]. intros t _. apply bind_np; [apply back_np; lia|]. intros a _.
    destruct (w_addr _ _); [discriminate|]. apply bind_np; [apply safe_add_no_panic|discriminate].
  - destruct (m_gas m <=? 2300); [discriminate|]. apply bind_np; [apply back_np; lia|]. intros v _.
    apply bind_np; [apply back_np; lia|]. intros k _. apply bind_np; [apply S|discriminate].
  - apply bind_np; [apply back_np; lia|]. intros len _. destruct (U64 <=? len); [discriminate|].
    apply bind_np; [exact Mp|]. intros g _. apply bind_np; [apply safe_add_no_panic|]. intros a _.
    apply bind_np; [apply safe_add_no_panic|]. intros b _. apply bind_np; [apply safe_mul_no_panic|]. intros c _.
    apply bind_np; [apply safe_add_no_panic|discriminate].
  - apply bind_np; [apply back_np; destruct k; lia|]. intros a _. destruct (m_gas m <? _); [discriminate|].
    apply bind_np.
    { destruct k; cbn [call_base]; try discriminate.
      - apply bind_np; [apply back_np; lia|]. intros v _. apply bind_np; [apply back_np; lia|discriminate].
      - apply bind_np; [apply back_np; lia|discriminate]. }
    intros b _. apply bind_np; [exact Mp|]. intros g _. apply bind_np; [apply safe_add_no_panic|]. intros base _.
    apply bind_np; [apply back_np; destruct k; lia|]. intros req _. apply bind_np; [apply safe_add_no_panic|discriminate].
Qed.

(* ---- calls ---- *)
Lemma rec_run n rec F gas w : rec_safe n rec -> frame_ok F w -> world_ok w -> phi w gas < 2 ^ 63 ->
  rsafe F w gas (run_frame rec F gas w) /\ xle n gas (run_frame rec F gas w).
Proof.
  intros [L R] FO WO P. split.
  - unfold run_frame. destruct (f_code F) eqn:E.
    + cbn. split; [constructor|]. intros _. split; [apply warmed_refl|lia].
    + apply (R F (start gas w)); [exact FO|]. split; [apply start_ok|]. split; [constructor|]. split; [constructor|].
      split; [exact WO|exact P].
  - apply (xle_run keccak committed B is_pre pre_gas pre_run call_allowed create_allowed); [exact L|]. eapply phi_gas, P.
Qed.

Lemma refuse_safe ro s w g e : csafe ro s w g (refuse e g w).
Proof. cbn. split; [constructor|]. split; [apply warmed_refl|lia]. Qed.

(* on an error nothing remains; otherwise the effects of the callee count as the caller's *)
Lemma settle_safe n F ro s w w2 g r :
  rsafe F w2 g r -> xle n g r -> w_refund w2 = w_refund w ->
  (forall w', warmed (f_ro F) (f_self F) w2 w' -> warmed ro s w w') -> csafe ro s w g (settle w r).
Proof.
  intros R X Ref K. destruct r as [[ret err gg w']| |]; cbn in *; try contradiction; [|exact Logic.I].
  destruct R as [Bt R]. destruct err as [e|]; cbn.
  - split; [exact Bt|]. split; [apply warmed_refl|]. unfold phi. destruct (reverted e); lia.
  - split; [exact Bt|]. destruct (R eq_refl) as [W P]. split; [apply K, W|]. unfold phi in *. lia.
Qed.

Lemma pre_safe ro pro s a input gas v w0 w : is_pre a = true -> w_refund w = w_refund w0 ->
  warmed ro s w0 w -> csafe ro s w0 gas (settle w0 (precompile pre_gas pre_run pro s a input gas v w)).
Proof.
  intros Ia Rf W. unfold precompile. destruct (N.ltb_spec gas (pre_gas a input)).
  - cbn. split; [constructor|]. split; [apply warmed_refl|]. unfold phi. lia.
  - destruct (pre_run pro s a input (gas - pre_gas a input) v w) as [[[ret err] used] w2] eqn:E.
    destruct (Pre _ _ _ _ _ _ _ _ _ _ _ E) as [Bt M]. destruct err as [e|]; cbn.
    + split; [exact Bt|]. split; [apply warmed_refl|]. unfold phi. destruct (reverted e); lia.
    + split; [exact Bt|]. specialize (M Ia eq_refl). split.
      * eapply warmed_trans; [exact W|]. apply warmed_mild; [|exact M]. eapply E_pre; eassumption.
      * unfold phi. rewrite (mild_refund _ _ _ M). lia.
Qed.

Lemma call_safe n rec ro d s a input gas v w : rec_safe n rec -> world_ok w -> w_addr w a = true ->
  is_bytes input -> blen input < 2 ^ 63 -> phi w gas < 2 ^ 63 -> (ro = true -> v = 0) ->
  csafe ro s w gas (evm_call keccak committed is_pre pre_gas pre_run call_allowed rec ro d s a input gas v w).
Proof.
  intros R WO Wa Bi Li P Rv. unfold evm_call.
  destruct (negb (call_allowed s a)); [apply refuse_safe|]. destruct (1024 <? d); [apply refuse_safe|].
  destruct (negb (v =? 0) && negb (can_transfer w s v)) eqn:Ct; [apply refuse_safe|].
  destruct (negb (exist w a) && negb (is_pre a) && (v =? 0)).
  { cbn. split; [constructor|]. split; [apply warmed_refl|lia]. }
  assert (MS : may_send ro w s v).
  { unfold may_send. destruct (N.eqb_spec v 0) as [->|Nv]; [left; reflexivity|right].
    cbn in Ct. destruct (can_transfer w s v); [|discriminate]. split; [|reflexivity].
    destruct ro; [specialize (Rv eq_refl); contradiction|reflexivity]. }
  fold (send keccak committed w s a v). set (w2 := send keccak committed w s a v).
  assert (M2 : mild w w2) by apply mild_send.
  destruct (is_pre a) eqn:Ia.
  - apply pre_safe; [exact Ia|apply M2|]. apply warmed_mild; [apply E_pay, MS|exact M2].
  - set (F := Frame a s v (code w2 a) input ro (d + 1)).
    assert (WO2 : world_ok w2) by (eapply mild_ok; eassumption).
    assert (FO : frame_ok F w2).
    { destruct WO2 as [C _]. destruct (C a) as [C1 C2]. unfold frame_ok. cbn. do 4 (split; [assumption|]).
      split; [apply send_exist|]. apply M2, Wa. }
    assert (P2 : phi w2 gas < 2 ^ 63) by (unfold phi in *; rewrite (mild_refund _ _ _ M2); exact P).
    destruct (rec_run n rec F gas w2 R FO WO2 P2) as [S X].
    unfold run_frame in *. destruct (f_code F) as [|c0 cs] eqn:Ec.
    + cbn. split; [constructor|]. split; [apply warmed_mild; [apply E_pay, MS|exact M2]|].
      unfold phi. rewrite (mild_refund _ _ _ M2). lia.
    + eapply settle_safe; [exact S|exact X|apply M2|]. intros w' [E (K1 & K2 & K3)]. cbn in E, K3. split.
      * eapply E_call; [exact MS|intros Z; assert (Z' : f_code F = []) by exact Z; rewrite Ec in Z'; discriminate|exact E].
      * split; [intros b Hb; apply K1, M2, Hb|]. split; [intros b Hb; apply K2, M2, Hb|].
        intros _ _ _. apply K3; [exact WO2|apply send_exist|apply M2, Wa].
Qed.

Lemma same_safe n rec ro d s c v v' a input gas w : rec_safe n rec -> world_ok w -> exist w s = true -> w_addr w s = true ->
  is_bytes input -> blen input < 2 ^ 63 -> phi w gas < 2 ^ 63 ->
  csafe ro s w gas (settle w (if is_pre a then precompile pre_gas pre_run true s a input gas v' w
    else run_frame rec (Frame s c v (code w a) input ro (d + 1)) gas w)).
Proof.
  intros R WO Es Ws Bi Li P. destruct (is_pre a) eqn:Ia.
  - apply pre_safe; [exact Ia|reflexivity|apply warmed_refl].
  - set (F := Frame s c v (code w a) input ro (d + 1)).
    assert (FO : frame_ok F w).
    { destruct WO as [C _]. destruct (C a). unfold frame_ok. cbn. do 5 (split; [assumption|]). assumption. }
    destruct (rec_run n rec F gas w R FO WO P) as [S X]. eapply settle_safe; [exact S|exact X|reflexivity|]. auto.
Qed.

Lemma static_safe n rec ro d s a input gas w : rec_safe n rec -> world_ok w -> w_addr w a = true ->
  is_bytes input -> blen input < 2 ^ 63 -> phi w gas < 2 ^ 63 ->
  csafe ro s w gas (evm_static keccak committed is_pre pre_gas pre_run call_allowed rec d s a input gas w).
Proof.
  intros R WO Wa Bi Li P. unfold evm_static.
  destruct (negb (call_allowed s a)); [apply refuse_safe|]. destruct (1024 <? d); [apply refuse_safe|].
  set (w1 := add_balance keccak committed w a 0).
  assert (M1 : mild w w1) by apply mild_add_balance.
  destruct (is_pre a) eqn:Ia.
  - apply pre_safe; [exact Ia|reflexivity|]. apply warmed_mild; [apply E_touch|exact M1].
  - set (F := Frame a s 0 (code w1 a) input true (d + 1)).
    assert (WO1 : world_ok w1) by (eapply mild_ok; eassumption).
    assert (Ex : exist w1 a = true) by apply exist_add_balance.
    assert (FO : frame_ok F w1).
    { destruct WO1 as [C _]. destruct (C a). unfold frame_ok. cbn. do 4 (split; [assumption|]). split; [exact Ex|exact Wa]. }
    destruct (rec_run n rec F gas w1 R FO WO1 P) as [S X].
    unfold run_frame in *. destruct (f_code F) as [|c0 cs] eqn:Ec.
    + cbn. split; [constructor|]. split; [apply warmed_mild; [apply E_touch|exact M1]|]. unfold phi. cbn. lia.
    + eapply settle_safe; [exact S|exact X|reflexivity|]. intros w' [E (K1 & K2 & K3)]. cbn in E, K3. split.
      * eapply E_static; [|exact E]. intros Z. assert (Z' : f_code F = []).
        { change (code w1 a = []). unfold w1. rewrite code_add_balance. exact Z. }
        rewrite Ec in Z'. discriminate.
      * split; [intros b Hb; apply K1, M1, Hb|]. split; [intros b Hb; apply K2, M1, Hb|].
        intros _ _ _. apply K3; [exact WO1|exact Ex|exact Wa].
Qed.

Lemma create_safe n rec d s l init gas v w : rec_safe n rec -> world_ok w -> 
  is_bytes init -> blen init < 2 ^ 63 -> phi w gas < 2 ^ 63 ->
  csafe false s w gas (evm_create keccak committed create_allowed rec false d s (to_addr (keccak l)) init gas v w).
Proof.
  intros R WO Bi Li P. set (a := to_addr (keccak l)). unfold evm_create.
  destruct (negb (create_allowed s)); [apply refuse_safe|]. destruct (1024 <? d); [apply refuse_safe|].
  destruct (can_transfer w s v) eqn:Ct; cbn [negb]; [|apply refuse_safe].
  destruct (N.leb_spec U64 (nonce w s + 1)); [apply refuse_safe|].
  set (w1 := warm (set_nonce keccak committed w s (nonce w s + 1)) a).
  assert (M1 : mild w w1) by (eapply mild_trans; [apply mild_set_nonce|apply mild_warm]).
  assert (W1 : warmed false s w w1) by (apply warmed_mild; [now apply E_bump|exact M1]).
  assert (Ct1 : can_transfer w1 s v = true).
  { unfold can_transfer, balance, w1, set_nonce, World.set_nonce in *. cbn. rewrite upd_same. cbn.
    unfold World.here. destruct (w_acct w s); exact Ct. }
  destruct (negb (nonce w1 a =? 0) || _) eqn:Col.
  { cbn. split; [constructor|]. split; [exact W1|]. unfold phi. rewrite (mild_refund _ _ _ M1). lia. }
  apply orb_false_elim in Col. destruct Col as [Cn Ch].
  set (w2 := new_contract keccak committed w1 s a v).
  assert (M2 : mild w1 w2) by apply mild_new.
  set (F := Frame a s v init [] false (d + 1)).
  assert (WO2 : world_ok w2) by (eapply mild_ok; [exact M2|]; eapply mild_ok; eassumption).
  assert (Wa : w_addr w2 a = true) by (apply M2; unfold w1; cbn; apply upd_same).
  assert (Ea : exist w2 a = true) by apply new_exist.
  assert (FO : frame_ok F w2).
  { unfold frame_ok. cbn. split; [exact Bi|]. split; [exact Li|]. split; [constructor|]. split; [reflexivity|]. auto. }
  assert (R2 : w_refund w2 = w_refund w) by (rewrite (mild_refund _ _ _ M2); apply M1).
  assert (P2 : phi w2 gas < 2 ^ 63) by (unfold phi in *; rewrite R2; exact P).
  destruct (rec_run n rec F gas w2 R FO WO2 P2) as [S X].
  assert (CS : forall g r, xle n g r -> csafe false s w1 g (settle w1 r) -> csafe false s w g (settle w1 r)).
  { intros g r Xr Cr. destruct (settle w1 r) as [[ret err gg w']| |]; cbn in *; auto. destruct Cr as (A1 & A2 & A3).
    split; [exact A1|]. split; [eapply warmed_trans; [exact W1|exact A2]|]. unfold phi in *.
    rewrite (mild_refund _ _ _ M1) in A3. exact A3. }
  apply CS; [apply (xle_deposit keccak committed B is_pre pre_gas pre_run call_allowed create_allowed), X|].
  destruct (run_frame rec F gas w2) as [[ret err gg w']| |]; cbn [deposit]; cbn in S, X; try contradiction; [|exact Logic.I].
  destruct S as [Bt S]. 
  assert (Fail : forall e x, reverted e = false \/ x <= gas -> csafe false s w1 gas (settle w1 (XOut (Out ret (Some e) x w')))).
  { intros e x Hx. cbn. split; [exact Bt|]. split; [apply warmed_refl|]. unfold phi. destruct (reverted e); [destruct Hx; [discriminate|lia]|lia]. }
  destruct err as [e|]; [apply Fail; auto|].
  destruct (N.ltb_spec 24576 (blen ret)); [apply Fail; auto|].
  destruct (S eq_refl) as [[E (K1 & K2 & K3)] Ph]. cbn in E, K3.
  assert (Go : hd 0 ret <> 0xEF -> csafe false s w1 gas (settle w1
     (if gg <? blen ret * 200 then XOut (Out ret (Some ECodeStore) gg w')
      else XOut (Out ret None (gg - blen ret * 200) (set_code keccak committed w' a ret))))).
  { intros Hd. destruct (gg <? blen ret * 200); [apply Fail; auto|]. cbn. split; [exact Bt|]. split; [split|].
    - apply E_create with (l := l) (v := v) (w2 := w'); fold a; auto.
      + apply negb_false_iff, N.eqb_eq in Cn. exact Cn.
      + apply andb_false_elim in Ch. destruct Ch as [Ch|Ch]; apply negb_false_iff, N.eqb_eq in Ch; auto.
    - split; [|split].
      + intros b Hb. assert (X1 := K1 b (mild_exist _ _ _ M2 b Hb)). unfold exist, set_code, World.set_code in *. cbn. unfold upd.
        destruct (b =? a); auto.
      + intros b Hb. apply K2, M2, Hb.
      + intros _ _ _. apply mild_set_code_ok; [exact Bt|lia|]. apply K3; [exact WO2|exact Ea|exact Wa].
    - unfold phi in *. cbn [w_refund set_code World.set_code set_acct]. rewrite R2 in Ph. rewrite (mild_refund _ _ _ M1). lia. }
  destruct ret as [|b ret]; [apply Go; discriminate|].
  destruct (N.eq_dec b 0xEF) as [->|Nb]; [apply Fail; auto|].
  assert (Sel : match b :: ret with
      | 239 :: _ => XOut (Out (b :: ret) (Some EInvalidCode) gg w')
      | _ => if gg <? blen (b :: ret) * 200 then XOut (Out (b :: ret) (Some ECodeStore) gg w')
             else XOut (Out (b :: ret) None (gg - blen (b :: ret) * 200) (set_code keccak committed w' a (b :: ret)))
      end = if gg <? blen (b :: ret) * 200 then XOut (Out (b :: ret) (Some ECodeStore) gg w')
             else XOut (Out (b :: ret) None (gg - blen (b :: ret) * 200) (set_code keccak committed w' a (b :: ret)))).
  { destruct b as [|b]; [reflexivity|]. repeat (destruct b as [b|b|]; try reflexivity). now contradiction Nb. }
  rewrite Sel. apply Go. exact Nb.
Qed.

(* ---- instructions that stay inside the frame ---- *)
Record ready (F : frame) (m : mach) (i : instr) : Prop := {
  R_ok : instr_ok i = true;
  R_pops : pops i <= N.of_nat (length (m_stack m));
  R_size : exists mem0 size, mem_words (mem_of i) (m_stack m) = Ok size /\ m_mem m = grow mem0 size;
  R_len : blen (m_mem m) < 2 ^ 37;
  R_mem : is_bytes (m_mem m);
  R_frame : frame_ok F (m_world m);
  R_ret : is_bytes (m_ret m);
  R_world : world_ok (m_world m)
}.

Definition is_local (i : instr) : bool :=
  match i with
  | IStop | IUndefined | ISstore | ILog _ | IReturn | IRevert | ISelfdestruct | ICreate | ICreate2 | ICall _ => false
  | _ => true
  end.

Lemma copy_safe F m o off len : frame_ok F (m_world m) -> is_bytes (m_ret m) -> lo64 len < 2 ^ 63 -> len < U64 ->
  match copy_source F m o off len with Ok d => is_bytes d | Err => True | Panic => False end.
Proof.
  intros (C1 & C2 & I1 & I2 & _) Br Ll Lu. destruct o; cbn [copy_source].
  - destruct (get_data_ok (f_input F) (clip64 off) (lo64 len) I2 Ll I1) as (r & -> & Bb & _). exact Bb.
  - destruct (get_data_ok (f_code F) (clip64 off) (lo64 len) C2 Ll C1) as (r & -> & Bb & _). exact Bb.
  - destruct (N.leb_spec U64 off); [exact Logic.I|]. rewrite N.mod_small.
    2: { rewrite U64_val in *. change W256 with (18446744073709551616 ^ 4).
         assert (18446744073709551616 * 2 < 18446744073709551616 ^ 4) by reflexivity. lia. }
    destruct (_ || _); [exact Logic.I|]. destruct (N.ltb_spec (off + len) off); [lia|].
    apply is_bytes_firstn, is_bytes_skipn, Br.
Qed.

Lemma cover_len o l st size : mem_words (MAt o l) st = Ok size -> forall off len,
  nth_error st o = Some off -> nth_error st l = Some len -> len < U64.
Proof.
  intros M off len Eo El. destruct (mem_words_spec _ _ _ M) as (s & w & E & _).
  cbn [mem_size] in E. unfold back in E. rewrite Eo, El in E. cbn [rbind] in E.
  apply calc_spec in E. apply E.
Qed.

Ltac need P := repeat match goal with
  | |- context [match ?l with [] => _ | _ :: _ => _ end] =>
      is_var l; destruct l; [exfalso; cbn [length pops] in P; lia|]
  end.

Lemma local_safe F m i : ready F m i ->
  match local keccak B F m i with
  | Some (Ok (st, mem, pc)) => is_bytes mem
  | Some Err => True
  | Some Panic => False
  | None => is_local i = false
  end.
Proof.
  intros [Ok0 P (mem0 & size & Ms & Em) Len Bm Fo Br Wo].
  assert (J : forall pos, match valid_jumpdest (f_code F) pos with Ok _ => True | _ => False end).
  { intros pos. destruct Fo as (C1 & C2 & _). destruct (jump_no_panic (f_code F) pos C1 C2).
    destruct (valid_jumpdest (f_code F) pos); tauto. }
  assert (Jmp : forall pos (st : list N), match rbind (valid_jumpdest (f_code F) pos)
     (fun ok => if ok then Ok (st, m_mem m, pos) else Err) with
     | Ok (_, mem, _) => is_bytes mem | Err => True | Panic => False end).
  { intros pos st. specialize (J pos). destruct (valid_jumpdest _ _) as [[]| |]; cbn [rbind]; auto. }
  destruct m as [pc gas st mem last ret w]. cbn [m_pc m_gas m_stack m_mem m_last m_ret m_world] in *.
  destruct i as [|o|o|o| |o|o|o| | | | | | | | | |n'|n'|n'|n'| | |k0| | | |]; cbn [local m_stack m_mem m_pc m_world];
    cbn [mem_of] in Ms; need P; try exact Bm; try reflexivity.
  - (* keccak *)
    destruct (cover_at _ _ _ _ mem0 Ms ltac:(rewrite <- Em; exact Len) n n0 eq_refl eq_refl) as [In _].
    rewrite <- Em in In. destruct (mget_ok _ _ _ In Bm) as (d & -> & _ & _). exact Bm.
  - (* read *)
    destruct o; cbn [run_read]; try exact Bm.
    + destruct (U64 <=? n); [exact Bm|]. destruct Fo as (_ & _ & I1 & I2 & _).
      destruct (get_data_ok (f_input F) n 32 I2 ltac:(reflexivity) I1) as (r & -> & _). exact Bm.
    + destruct (U64 <=? n); exact Bm.
  - (* copy *)
    destruct (cover_at _ _ _ _ mem0 Ms ltac:(rewrite <- Em; exact Len) n n1 eq_refl eq_refl) as [In Ll].
    rewrite <- Em in In. assert (Lu := cover_len _ _ _ _ Ms n n1 eq_refl eq_refl).
    assert (C := copy_safe F (Mach pc gas (n :: n0 :: n1 :: st) mem last ret w) o n0 n1 Fo Br Ll Lu).
    destruct (copy_source _ _ _ _ _) as [d| |]; cbn [rbind]; [|exact Logic.I|contradiction].
    destruct (mset_ok mem _ _ d In Bm C) as (mem' & -> & B' & _). exact B'.
  - (* extcodecopy *)
    destruct (cover_at _ _ _ _ mem0 Ms ltac:(rewrite <- Em; exact Len) n0 n2 eq_refl eq_refl) as [In Ll].
    rewrite <- Em in In. destruct Wo as [Wc _]. destruct (Wc (to_addr n)) as [C1 C2].
    destruct (get_data_ok _ (clip64 n1) (lo64 n2) C2 Ll C1) as (d & -> & Bd & _). cbn [rbind].
    destruct (mset_ok mem _ _ d In Bm Bd) as (mem' & -> & B' & _). exact B'.
  - assert (In := cover_fix _ _ _ _ mem0 Ms ltac:(rewrite <- Em; exact Len) ltac:(discriminate) n eq_refl).
    rewrite <- Em in In. destruct (mget_ok _ _ _ In Bm) as (d & -> & _ & _). exact Bm.
  - assert (In := cover_fix _ _ _ _ mem0 Ms ltac:(rewrite <- Em; exact Len) ltac:(discriminate) n eq_refl).
    rewrite <- Em in In. destruct (mset_ok mem _ 32 (to_be 32 n0) In Bm (is_bytes_to_be _ _)) as (mem' & -> & B' & _). exact B'.
  - assert (In := cover_fix _ _ _ _ mem0 Ms ltac:(rewrite <- Em; exact Len) ltac:(discriminate) n eq_refl).
    rewrite <- Em in In.
    destruct (mset_ok mem _ 1 [n0 mod 256] In Bm ltac:(repeat constructor; apply N.mod_lt; discriminate)) as (mem' & -> & B' & _). exact B'.
  - apply Jmp.
  - destruct (n0 =? 0); [exact Bm|apply Jmp].
  - (* dup *) cbn [pops instr_ok] in *. apply andb_prop in Ok0. destruct Ok0 as [O1 _]. apply Nat.leb_le in O1.
    destruct (nth_error st (n' - 1)) eqn:E; [exact Bm|]. apply nth_error_None in E. lia.
  - cbn [pops] in P. unfold swap. destruct st as [|x st]; [cbn in P; lia|].
    destruct (nth_error (x :: st) n') eqn:E; [exact Bm|]. apply nth_error_None in E. lia.
Qed.

(* ---- one instruction ---- *)
Lemma ssafe_mono F w g g' r : ssafe F w g r -> g <= g' -> ssafe F w g' r.
Proof.
  intros H L. destruct r as [m'|o| |]; cbn [ssafe] in *; auto.
  - destruct H as (A & C & D). split; [exact A|]. split; [exact C|]. unfold phi in *. lia.
  - destruct H as (A & C). split; [exact A|]. intros E. destruct (C E) as [C1 C2]. split; [exact C1|]. unfold phi in *. lia.
Qed.

Lemma after_call_safe n F m st o l g r :
  csafe (f_ro F) (f_self F) (m_world m) g r -> xle n g r -> world_ok (m_world m) -> frame_ok F (m_world m) ->
  inside (m_mem m) (lo64 o) (lo64 l) -> mem_ok (m_mem m) (m_last m) -> is_bytes (m_mem m) ->
  phi (m_world m) (m_gas m + g) < 2 ^ 63 ->
  ssafe F (m_world m) (m_gas m + g) (after_call m st o l r).
Proof.
  intros C X WO (_ & _ & _ & _ & Fe & Fw) In MO Bm Ph. destruct r as [[ret err gg w]| |]; cbn [after_call]; [|exact C|exact Logic.I].
  cbn in C, X. destruct C as (Br & W & Pw).
  assert (Go : forall mem, is_bytes mem -> blen mem = blen (m_mem m) -> ssafe F (m_world m) (m_gas m + g)
    (SNext (Mach (m_pc m + 1) ((m_gas m + gg) mod U64) (match err with None => 1 | Some _ => 0 end :: st) mem (m_last m) ret w))).
  { intros mem Bb Lb. assert (Hu := phi_gas _ _ Ph). cbn [ssafe m_world m_gas]. rewrite N.mod_small by lia.
    assert (Px : phi w (m_gas m + gg) <= phi (m_world m) (m_gas m + g)) by (unfold phi in *; lia).
    split; [|split; [exact W|exact Px]]. unfold mach_ok. cbn [m_mem m_last m_ret m_world m_gas].
    split; [destruct MO as (k & A1 & A2 & A3); exists k; rewrite Lb; auto|]. split; [exact Bb|]. split; [exact Br|].
    split; [destruct W as [_ (_ & _ & K)]; apply K; assumption|]. lia. }
  destruct (match err with None => true | Some e => reverted e end).
  - destruct (mset_ok _ _ _ ret In Bm Br) as (mem' & -> & Bb & Lb). now apply Go.
  - now apply Go.
Qed.

Lemma after_create_safe n F m st a g r :
  csafe (f_ro F) (f_self F) (m_world m) g r -> xle n g r -> world_ok (m_world m) -> frame_ok F (m_world m) ->
  mem_ok (m_mem m) (m_last m) -> is_bytes (m_mem m) ->
  phi (m_world m) (m_gas m + g) < 2 ^ 63 ->
  ssafe F (m_world m) (m_gas m + g) (after_create m st a r).
Proof.
  intros C X WO (_ & _ & _ & _ & Fe & Fw) MO Bm Ph. destruct r as [[ret err gg w]| |]; cbn [after_create]; [|exact C|exact Logic.I].
  cbn in C, X. destruct C as (Br & W & Pw).
  assert (Hu := phi_gas _ _ Ph). cbn [ssafe m_world m_gas]. rewrite N.mod_small by lia.
  assert (Px : phi w (m_gas m + gg) <= phi (m_world m) (m_gas m + g)) by (unfold phi in *; lia).
  split; [|split; [exact W|exact Px]]. unfold mach_ok. cbn [m_mem m_last m_ret m_world m_gas].
  split; [exact MO|]. split; [exact Bm|]. split.
  - destruct err as [e|]; [|constructor]. destruct (reverted e); [exact Br|constructor].
  - split; [destruct W as [_ (_ & _ & K)]; apply K; assumption|]. lia.
Qed.

Lemma fail_safe F m e g : ssafe F (m_world m) g (fail e m).
Proof. cbn. split; [constructor|discriminate]. Qed.

Lemma mild_destroy w s ben : mild w (suicide (add_balance keccak committed w ben (balance w s)) s).
Proof. eapply mild_trans; [apply mild_add_balance|apply (mild_suicide keccak)]. Qed.

Lemma execute_safe n rec F m cg i gmax : rec_safe n rec -> ready F m i -> mem_ok (m_mem m) (m_last m) ->
  i <> ISstore -> m_gas m + cg + extra (dyn_of i) (m_stack m) <= gmax -> phi (m_world m) gmax < 2 ^ 63 ->
  (forall k a, i = ICall k -> nth_error (m_stack m) 1 = Some a -> w_addr (m_world m) (to_addr a) = true) ->
  ssafe F (m_world m) gmax (execute rec F m cg i).
Proof.
  intros R Rd MO Ns G Ph Wa. assert (L := local_safe F m i Rd). destruct Rd as [Ok0 P (mem0 & size & Ms & Em) Len Bm Fo Br Wo].
  unfold execute, Interp.execute. destruct (local keccak B F m i) as [[[[st mem] pc]| |]|] eqn:Lo.
  - assert (L2 := local_mem _ _ _ _ _ _ _ _ Lo). cbn [ssafe m_world m_gas].
    assert (Pm : phi (m_world m) (m_gas m) <= phi (m_world m) gmax) by (unfold phi; lia).
    split; [|split; [apply warmed_refl|exact Pm]].
    unfold mach_ok. cbn [m_mem m_last m_ret m_world m_gas].
    split; [destruct MO as (k & A1 & A2 & A3); exists k; rewrite L2; auto|]. split; [exact L|]. split; [exact Br|].
    split; [exact Wo|]. lia.
  - apply fail_safe.
  - contradiction.
  - assert (MG : forall o l len off, mem_words (MAt o l) (m_stack m) = Ok size -> nth_error (m_stack m) o = Some off ->
       nth_error (m_stack m) l = Some len -> exists d, mget (m_mem m) (lo64 off) (lo64 len) = Ok d /\ is_bytes d /\ blen d < 2 ^ 63).
    { intros o l len off M0 E1 E2. destruct (cover_at o l _ _ mem0 M0 ltac:(rewrite <- Em; exact Len) off len E1 E2) as [In Ll].
      rewrite <- Em in In. destruct (mget_ok _ _ _ In Bm) as (d & Ed & Bd & Ld). exists d. rewrite Ld. auto. }
    assert (MC : forall o l o2 l2 off len off2 len2, mem_words (MTwo o l o2 l2) (m_stack m) = Ok size ->
       nth_error (m_stack m) o = Some off -> nth_error (m_stack m) l = Some len ->
       nth_error (m_stack m) o2 = Some off2 -> nth_error (m_stack m) l2 = Some len2 ->
       inside (m_mem m) (lo64 off) (lo64 len) /\
       exists d, mget (m_mem m) (lo64 off2) (lo64 len2) = Ok d /\ is_bytes d /\ blen d < 2 ^ 63).
    { intros o l o2 l2 off len off2 len2 M0 E1 E2 E3 E4.
      destruct (cover_two o l o2 l2 _ _ mem0 M0 ltac:(rewrite <- Em; exact Len) off len off2 len2 E1 E2 E3 E4) as (In & In2 & Ll).
      rewrite <- Em in In, In2. destruct (mget_ok _ _ _ In2 Bm) as (d & Ed & Bd & Ld). split; [exact In|]. exists d. rewrite Ld. auto. }
    assert (Pm : phi (m_world m) (m_gas m) <= phi (m_world m) gmax) by (unfold phi; lia).
    assert (Cr : forall st addr l init v, addr = to_addr (keccak l) -> is_bytes init -> blen init < 2 ^ 63 -> f_ro F = false ->
      ssafe F (m_world m) gmax (after_create (set_gas m (m_gas m - (m_gas m - m_gas m / 64))) st addr
         (evm_create keccak committed create_allowed rec (f_ro F) (f_depth F) (f_self F) addr init (m_gas m - m_gas m / 64) v (m_world m)))).
    { intros st addr l init v -> Bi Li Rf. assert (Q : m_gas m / 64 <= m_gas m) by (apply N.div_le_upper_bound; lia).
      assert (Pg : phi (m_world m) (m_gas m - m_gas m / 64) < 2 ^ 63) by (unfold phi in *; lia).
      assert (Hs := phi_gas _ _ Pg). rewrite Rf.
      eapply ssafe_mono; [apply (after_create_safe n F (set_gas m (m_gas m - (m_gas m - m_gas m / 64))) st (to_addr (keccak l)) (m_gas m - m_gas m / 64))|].
      - rewrite Rf. cbn [m_world set_gas]. apply (create_safe n); auto.
      - apply (xle_create keccak committed B is_pre pre_gas pre_run call_allowed create_allowed); [apply R|exact Hs].
      - exact Wo.
      - exact Fo.
      - exact MO.
      - exact Bm.
      - cbn [m_world m_gas set_gas]. replace (_ - _ + _) with (m_gas m) by lia. lia.
      - cbn [m_gas set_gas]. lia. }
    assert (EX : forall k v, (k = KCall \/ k = KCallCode) -> i = ICall k -> nth_error (m_stack m) 2 = Some v ->
        m_gas m + (if v =? 0 then cg else (cg + 2300) mod U64) <= gmax).
    { intros k v Hk -> E. assert (X : extra (dyn_of (ICall k)) (m_stack m) = if v =? 0 then 0 else 9000).
      { destruct Hk as [-> | ->]; cbn [extra dyn_of]; rewrite E; reflexivity. }
      rewrite X in G. destruct (v =? 0); [lia|]. assert (Hu := phi_gas _ _ Ph). rewrite N.mod_small by lia. lia. }
    assert (Ca : forall st o l g r, csafe (f_ro F) (f_self F) (m_world m) g r -> xle n g r ->
       inside (m_mem m) (lo64 o) (lo64 l) -> m_gas m + g <= gmax -> ssafe F (m_world m) gmax (after_call m st o l r)).
    { intros st o l g r C X In Lg. eapply ssafe_mono; [eapply after_call_safe; try eassumption|exact Lg].
      unfold phi in *. lia. }
    destruct m as [pc gas st mem last ret w]. cbn [m_pc m_gas m_stack m_mem m_last m_ret m_world] in *.
    destruct i as [|o|o|o| |o|o|o| | | | | | | | | |n'|n'|n'|n'| | |k0| | | |]; try discriminate L; try (now contradiction Ns); cbn [mem_of] in Ms.
    + (* stop *) cbn. split; [constructor|]. intros _. split; [apply warmed_refl|exact Pm].
    + (* log *)
      cbn [pops] in P. destruct st as [|off [|len st]]; [cbn [length] in P; lia|cbn [length] in P; lia|].
      destruct (f_ro F) eqn:Rf; [exact (fail_safe F (Mach pc gas _ mem last ret w) _ gmax)|].
      destruct (Nat.ltb_spec (length st) n'); [cbn [length] in P; lia|].
      destruct (MG _ _ len off Ms eq_refl eq_refl) as (d & -> & Bd & _). cbn [ssafe m_world m_gas]. rewrite Rf.
      assert (M : mild w (add_log w (Log (f_self F) (firstn n' st) d))) by apply mild_log.
      split; [|split; [apply warmed_mild; [apply E_log|exact M]|exact Pm]].
      unfold mach_ok. cbn [m_mem m_last m_ret m_world m_gas]. split; [exact MO|]. split; [exact Bm|]. split; [exact Br|].
      split; [eapply mild_ok; eassumption|]. unfold phi in *. cbn [w_refund add_log suicide World.suicide add_balance World.add_balance set_acct]. lia.
    + (* create *)
      cbn [pops] in P. destruct st as [|v [|off [|len st]]]; try (cbn [length] in P; lia).
      destruct (f_ro F) eqn:Rf; [exact (fail_safe F (Mach pc gas _ mem last ret w) _ gmax)|].
      destruct (MG _ _ len off Ms eq_refl eq_refl) as (d & -> & Bd & Ld). unfold create_address. eapply Cr; auto.
    + cbn [pops] in P. destruct st as [|v [|off [|len [|salt st]]]]; try (cbn [length] in P; lia).
      destruct (f_ro F) eqn:Rf; [exact (fail_safe F (Mach pc gas _ mem last ret w) _ gmax)|].
      destruct (MG _ _ len off Ms eq_refl eq_refl) as (d & -> & Bd & Ld). unfold create2_address. eapply Cr; auto.
    + destruct k0; cbn [pops mem_of] in P, Ms.
      * destruct st as [|q [|a [|v [|io [|is [|o [|l st]]]]]]]; try (cbn [length] in P; lia).
        destruct (MC _ _ _ _ o l io is Ms eq_refl eq_refl eq_refl eq_refl) as (In & d & -> & Bd & Ld).
        destruct (f_ro F && negb (v =? 0)) eqn:Rv; [exact (fail_safe F (Mach pc gas _ mem last ret w) _ gmax)|].
        assert (E1 := EX KCall v ltac:(auto) eq_refl eq_refl). set (g := if v =? 0 then cg else _) in *.
        assert (Pg : phi w g < 2 ^ 63) by (unfold phi in *; lia).
        eapply Ca; [|apply (xle_call keccak committed B is_pre pre_gas pre_run call_allowed create_allowed); [apply R|eapply phi_gas, Pg]|exact In|exact E1].
        apply (call_safe n); auto.
        -- exact (Wa _ a eq_refl eq_refl).
        -- intros Rt. rewrite Rt in Rv. destruct (N.eqb_spec v 0); [assumption|discriminate].
      * destruct st as [|q [|a [|v [|io [|is [|o [|l st]]]]]]]; try (cbn [length] in P; lia).
        destruct (MC _ _ _ _ o l io is Ms eq_refl eq_refl eq_refl eq_refl) as (In & d & -> & Bd & Ld).
        assert (E1 := EX KCallCode v ltac:(auto) eq_refl eq_refl). set (g := if v =? 0 then cg else _) in *.
        assert (Pg : phi w g < 2 ^ 63) by (unfold phi in *; lia).
        eapply Ca; [|apply (xle_callcode keccak committed B is_pre pre_gas pre_run call_allowed create_allowed); [apply R|eapply phi_gas, Pg]|exact In|exact E1].
        unfold evm_callcode.
        destruct (negb (call_allowed _ _)); [apply refuse_safe|]. destruct (1024 <? _); [apply refuse_safe|].
        destruct (negb _); [apply refuse_safe|]. apply (same_safe n); try assumption; apply Fo.
      * destruct st as [|q [|a [|io [|is [|o [|l st]]]]]]; try (cbn [length] in P; lia).
        destruct (MC _ _ _ _ o l io is Ms eq_refl eq_refl eq_refl eq_refl) as (In & d & -> & Bd & Ld).
        cbn [dyn_of extra] in G. assert (Pg : phi w cg < 2 ^ 63) by (unfold phi in *; lia).
        eapply Ca; [|apply (xle_delegate keccak committed B is_pre pre_gas pre_run call_allowed create_allowed); [apply R|eapply phi_gas, Pg]|exact In|lia].
        unfold evm_delegate.
        destruct (negb (call_allowed _ _)); [apply refuse_safe|]. destruct (1024 <? _); [apply refuse_safe|].
        apply (same_safe n); try assumption; apply Fo.
      * destruct st as [|q [|a [|io [|is [|o [|l st]]]]]]; try (cbn [length] in P; lia).
        destruct (MC _ _ _ _ o l io is Ms eq_refl eq_refl eq_refl eq_refl) as (In & d & -> & Bd & Ld).
        cbn [dyn_of extra] in G. assert (Pg : phi w cg < 2 ^ 63) by (unfold phi in *; lia).
        eapply Ca; [|apply (xle_static keccak committed B is_pre pre_gas pre_run call_allowed create_allowed); [apply R|eapply phi_gas, Pg]|exact In|lia].
        apply (static_safe n); auto. exact (Wa _ a eq_refl eq_refl).
    + (* return *)
      cbn [pops] in P. destruct st as [|off [|len st]]; try (cbn [length] in P; lia).
      destruct (MG _ _ len off Ms eq_refl eq_refl) as (d & -> & Bd & _). cbn. split; [exact Bd|]. intros _.
      split; [apply warmed_refl|exact Pm].
    + cbn [pops] in P. destruct st as [|off [|len st]]; try (cbn [length] in P; lia).
      destruct (MG _ _ len off Ms eq_refl eq_refl) as (d & -> & Bd & _). cbn. split; [exact Bd|]. discriminate.
    + cbn [pops] in P. destruct st as [|ben st]; try (cbn [length] in P; lia).
      destruct (f_ro F) eqn:Rf; [exact (fail_safe F (Mach pc gas _ mem last ret w) _ gmax)|]. cbn [ssafe o_ret o_err o_world o_gas]. rewrite Rf.
      split; [constructor|]. intros _. split; [apply warmed_mild; [apply E_destroy|apply mild_destroy]|].
      assert (Rr := mild_refund _ _ _ (mild_destroy w (f_self F) (to_addr ben))). unfold phi in *. rewrite Rr. exact Pm.
    + exact (fail_safe F (Mach pc gas _ mem last ret w) _ gmax).
Qed.

(* ---- paying ---- *)
Lemma pay_no_panic F m i g : instr_ok i = true -> gas_min i <= g -> frame_ok F (m_world m) -> mach_ok m ->
  pay keccak committed F m (canon i g) <> inr SPanic.
Proof.
  intros I G Fo (MO & Bm & Br & WO & Ph). unfold pay. cbn [canon op_min op_max op_gas op_dyn op_mem].
  destruct (N.ltb_spec (N.of_nat (length (m_stack m))) (pops i)) as [|Hp]; [discriminate|].
  destruct (_ <? _); [discriminate|]. destruct (N.ltb_spec (m_gas m) g); [discriminate|].
  set (m1 := set_gas m (m_gas m - g)).
  assert (K : match mem_words (mem_of i) (m_stack m) with
      | Ok size => match dynamic keccak committed (dyn_of i) F m1 size with
         | Ok d => if m_gas m1 <? d_cost d then inr (fail EOutOfGas m1)
                   else inl (Mach (m_pc m) (m_gas m1 - d_cost d) (m_stack m)
                         (if 0 <? size then resize (m_mem m) size else m_mem m) (d_last d) (m_ret m) (d_world d), d_call d)
         | Err => inr (fail EOutOfGas m1)
         | Panic => inr SPanic end
      | Err => inr (fail EGasOverflow m1)
      | Panic => inr SPanic end <> (inr SPanic : (mach * N) + sres)).
  { destruct (mem_words (mem_of i) (m_stack m)) as [size| |] eqn:Ms; [|discriminate|].
    - destruct (dynamic _ _ _ F m1 size) as [d| |] eqn:Dy; [destruct (_ <? _); discriminate|discriminate|].
      exfalso. revert Dy. apply dynamic_no_panic; [exact Hp|]. intros k v. change (m_world m1) with (m_world m).
      destruct Fo as (_ & _ & _ & _ & Fe & Fw).
      destruct (sstore_ok keccak committed (f_self F) k v _ WO Fe Fw ltac:(unfold phi in Ph; rewrite U64_val; change (2 ^ 63) with 9223372036854775808 in Ph; lia)) as (c & w1 & E & _).
      rewrite E. discriminate.
    - exfalso. revert Ms. apply mem_words_no_panic, mem_of_needs, Hp. }
  destruct (dyn_of i); [discriminate|exact K..].
Qed.

Lemma step_safe n rec F m : rec_safe n rec -> frame_ok F (m_world m) -> mach_ok m -> ssafe F (m_world m) (m_gas m) (step rec F m).
Proof.
  intros R Fo MK. assert (MK' := MK). destruct MK' as (MO & Bm & Br & WO & Ph). assert (Gu := phi_gas _ _ Ph).
  destruct (step_canon keccak committed B is_pre pre_gas pre_run call_allowed create_allowed rec F m) as (i & g & I & Gm & E).
  unfold step. rewrite E. clear E. assert (Np := pay_no_panic F m i g I Gm Fo MK).
  destruct (pay keccak committed F m (canon i g)) as [[m' cg]|r] eqn:P.
  - destruct (pay_inl _ _ _ _ _ _ _ _ P Gm MO Gu) as (Pp & _ & St & _ & Rt & MO' & C & _ & size & d & Ms & Em & Len & Dy & Ew & Dc & Gs & Cg & _ & _).
    assert (Bm' : is_bytes (m_mem m')) by (rewrite Em; apply is_bytes_grow, Bm).
    assert (Cs : i = ISstore \/ i <> ISstore) by (destruct i; auto; right; discriminate).
    destruct Cs as [-> | Ns].
    + cbn [dyn_of dynamic] in Dy. destruct (m_gas _ <=? 2300); [discriminate|]. cbn [pops m_stack set_gas] in *.
      destruct (m_stack m) as [|key [|value st]] eqn:Es; try (cbn [length] in Pp; lia).
      cbn [back nth_error rbind m_world set_gas] in Dy.
      destruct Fo as (F1 & F2 & F3 & F4 & Fe & Fw).
      assert (Rf : w_refund (m_world m) + 19900 < U64) by (unfold phi in Ph; rewrite U64_val; change (2 ^ 63) with 9223372036854775808 in Ph; lia).
      destruct (sstore_ok keccak committed (f_self F) key value _ WO Fe Fw Rf) as (c & w1 & Es1 & Rb & WO1).
      rewrite Es1 in Dy. cbn [rbind fst snd] in Dy. okd Dy. cbn [d_cost d_call d_world] in *.
      unfold Interp.execute. cbn [local]. rewrite St. destruct (f_ro F) eqn:Rr.
      { cbn. split; [constructor|discriminate]. }
      destruct (sstore_gas_frame _ _ _ _ _ _ _ Es1) as (Fa & _ & Fad).
      assert (Px : phi (set_state keccak committed (m_world m') (f_self F) key value) (m_gas m') <= phi (m_world m) (m_gas m)).
      { rewrite Ew. unfold phi. cbn [w_refund set_state World.set_state set_acct]. lia. }
      cbn [ssafe m_world m_gas]. rewrite Rr. split; [|split; [|exact Px]].
      * unfold mach_ok. cbn [m_mem m_last m_ret m_world m_gas]. split; [exact MO'|]. split; [exact Bm'|].
        split; [rewrite Rt; exact Br|]. split; [rewrite Ew; exact WO1|lia].
      * rewrite Ew. split; [eapply E_store; eassumption|]. split; [|split].
        -- intros a Ha. unfold exist, set_state, World.set_state in *. cbn. unfold upd. destruct (a =? f_self F); [reflexivity|].
           rewrite Fa. exact Ha.
        -- intros a Ha. cbn. apply Fad, Ha.
        -- intros _ _ _. exact WO1.
    + assert (Dk : dyn_of i <> DSstore).
      { destruct i as [|o|o|o| |o|o|o| | | | | | | | | |n'|n'|n'|n'| | |k0| | | |]; cbn; try discriminate; try (now contradiction Ns); destruct o; discriminate. }
      destruct (dynamic_world _ F _ size d (f_ro F) Dy Dk) as [W Rf]. cbn [m_world set_gas] in W, Rf.
      rewrite <- Ew in W, Rf. destruct W as [We (K1 & K2 & K3)].
      assert (Fo' := Fo). destruct Fo' as (F1 & F2 & F3 & F4 & Fe & Fw).
      assert (Fo2 : frame_ok F (m_world m')).
      { unfold frame_ok. do 4 (split; [assumption|]). split; auto. }
      assert (WO' : world_ok (m_world m')) by (apply K3; assumption).
      assert (Pe : phi (m_world m') (m_gas m) = phi (m_world m) (m_gas m)) by (unfold phi; rewrite Rf; reflexivity).
      assert (S : ssafe F (m_world m') (m_gas m) (execute rec F m' cg i)).
      { apply (execute_safe n); auto.
        - constructor; auto; try (rewrite St; assumption).
          + exists (m_mem m), size. rewrite St. auto.
          + rewrite Rt. exact Br.
        - rewrite St. lia.
        - rewrite Pe. exact Ph.
        - intros k a -> Ea. cbn [dyn_of dynamic] in Dy. rewrite St in Ea. cbn [m_stack set_gas m_world] in Dy.
          unfold back at 1 in Dy. rewrite Ea in Dy. cbn [rbind] in Dy.
          destruct (m_gas _ <? _); [discriminate|]. rb Dy. okd Dy. rewrite Ew. cbn [d_world].
          destruct (w_addr (m_world m) (to_addr a)) eqn:Ew0; [exact Ew0|]. cbn. apply upd_same. }
      assert (Tr : forall w', warmed (f_ro F) (f_self F) (m_world m') w' -> warmed (f_ro F) (f_self F) (m_world m) w').
      { intros w' W'. eapply warmed_trans; [|exact W']. split; [exact We|]. split; [exact K1|]. split; [exact K2|exact K3]. }
      fold execute. destruct (execute rec F m' cg i) as [m2|o| |]; cbn [ssafe] in *; auto.
      * destruct S as (S1 & S2 & S3). rewrite Pe in S3. auto.
      * destruct S as (S1 & S2). split; [exact S1|]. intros Ee. destruct (S2 Ee) as [S3 S4]. rewrite Pe in S4. auto.
  - destruct (pay_inr keccak committed B is_pre pre_gas pre_run call_allowed create_allowed _ _ _ _ P) as [-> | (e & gg & -> & L & _)]; [now contradiction Np|]. cbn. split; [constructor|discriminate].
Qed.

(* every run from a good state never panics, and without an error it is a tree of effects *)
Theorem exec_safe n : rec_safe n (exec n).
Proof.
  induction n as [|n IH]; (split; [apply exec_le|]); intros F m Fo MK; [exact Logic.I|].
  change (rsafe F (m_world m) (m_gas m) (match step (exec n) F m with
    | SNext m' => exec n F m' | SDone o => XOut o | SPanic => XPanic | SFuel => XFuel end)).
  assert (X := step_safe n (exec n) F m IH Fo MK).
  destruct (step (exec n) F m) as [m'|o| |]; cbn [ssafe] in X; try exact X.
  destruct X as (MK' & W & Ph). assert (W' := W). destruct W' as [We (K1 & K2 & K3)].
  assert (Fo' : frame_ok F (m_world m')).
  { destruct Fo as (F1 & F2 & F3 & F4 & Fe & Fw). unfold frame_ok. do 4 (split; [assumption|]). split; auto. }
  destruct IH as [_ IH]. specialize (IH F m' Fo' MK').
  destruct (exec n F m') as [o| |]; cbn [rsafe] in *; auto.
  destruct IH as [Bo Ho]. split; [exact Bo|]. intros Ee. destruct (Ho Ee) as [W2 P2].
  split; [eapply warmed_trans; eassumption|]. lia.
Qed.
End Safe.
