(* C93-C94: calls that fail and calls that may only read. *)
From Coq Require Import NArith Nnat.
From Verif Require Import Lib.Base Lib.Bytes Evm.Words Evm.World Evm.Memory Evm.Table Evm.Interp Evm.MemoryProofs
  Evm.TableProofs Evm.StepProofs Evm.Effects Evm.WorldProofs Evm.SafeProofs Evm.Ledger Evm.LedgerProofs Evm.EffectsProofs
  Evm.RunSpec Evm.RunProofs Evm.Example.
Open Scope N_scope.

Section Props.
Variable keccak : bytes -> N.
Variable committed : N -> N -> N.
Variable B : block.
Variable is_pre : N -> bool.
Variable pre_gas : N -> bytes -> N.
Variable pre_run : bool -> N -> N -> bytes -> N -> N -> world -> bytes * option verr * N * world.
Variable call_allowed : N -> N -> bool.
Variable create_allowed : N -> bool.
(* the interpreter called for the code of the callee; the theorems on failed calls hold for any *)
Variable rec : frame -> mach -> xres.

Let exec := exec keccak committed B is_pre pre_gas pre_run call_allowed create_allowed.
Let evm_call := evm_call keccak committed is_pre pre_gas pre_run call_allowed.
Let evm_callcode := evm_callcode is_pre pre_gas pre_run call_allowed.
Let evm_delegate := evm_delegate is_pre pre_gas pre_run call_allowed.
Let evm_static := evm_static keccak committed is_pre pre_gas pre_run call_allowed.
Let evm_create := evm_create keccak committed create_allowed.
Let set_nonce := set_nonce keccak committed.

(* refused before anything happened: forbidden, too deep, or not enough money *)
Definition refused (w : world) (allowed : bool) (d s v : N) : Prop :=
  allowed = false \/ 1024 < d \/ can_transfer w s v = false.

Lemma settle_failed w0 r ret e g w' : settle w0 r = XOut (Out ret (Some e) g w') -> w' = w0 /\ (e = EReverted \/ g = 0).
Proof.
  destruct r as [[ret0 [e0|] g0 ww]| |]; cbn; try discriminate. intros H. inversion H. subst. split; [reflexivity|].
  destruct e; cbn; auto.
Qed.
Lemma refuse_failed e0 gas w ret e g w' : refuse e0 gas w = XOut (Out ret (Some e) g w') -> w' = w /\ g = gas /\ ret = [].
Proof. intros H. inversion H. auto. Qed.

(* C93.  A call of any kind that reports an error has changed nothing: no
   balance, nonce, storage, code, record, refund or access list entry.  The gas
   given to it is gone unless the callee reverted or the call was refused at the start. *)
Theorem C93_failed_call ro d s a input gas v w ret e g w' :
  evm_call rec ro d s a input gas v w = XOut (Out ret (Some e) g w') ->
  w' = w /\ (e = EReverted \/ g = 0 \/ (g = gas /\ ret = [] /\ refused w (call_allowed s a) d s v)).
Proof.
  unfold evm_call, Interp.evm_call, refused. destruct (call_allowed s a); cbn [negb].
  2:{ intros H. apply refuse_failed in H. tauto. }
  destruct (N.ltb_spec 1024 d) as [L|L].
  { intros H. apply refuse_failed in H. tauto. }
  destruct (negb (v =? 0) && negb (can_transfer w s v)) eqn:C.
  { intros H. apply refuse_failed in H. apply andb_prop in C. destruct C as [_ C].
    destruct (can_transfer w s v); [discriminate|]. tauto. }
  destruct (negb (exist w a) && negb (is_pre a) && (v =? 0)); [discriminate|].
  intros H. apply settle_failed in H. tauto.
Qed.
Theorem C93_failed_callcode ro d s a input gas v w ret e g w' :
  evm_callcode rec ro d s a input gas v w = XOut (Out ret (Some e) g w') ->
  w' = w /\ (e = EReverted \/ g = 0 \/ (g = gas /\ ret = [] /\ refused w (call_allowed s a) d s v)).
Proof.
  unfold evm_callcode, Interp.evm_callcode, refused. destruct (call_allowed s a); cbn [negb].
  2:{ intros H. apply refuse_failed in H. tauto. }
  destruct (N.ltb_spec 1024 d) as [L|L].
  { intros H. apply refuse_failed in H. tauto. }
  destruct (can_transfer w s v) eqn:C; cbn [negb]; intros H; [apply settle_failed in H|apply refuse_failed in H]; tauto.
Qed.
Theorem C93_failed_delegate ro d s c v a input gas w ret e g w' :
  evm_delegate rec ro d s c v a input gas w = XOut (Out ret (Some e) g w') ->
  w' = w /\ (e = EReverted \/ g = 0 \/ (g = gas /\ ret = [] /\ (call_allowed s a = false \/ 1024 < d))).
Proof.
  unfold evm_delegate, Interp.evm_delegate. destruct (call_allowed s a); cbn [negb].
  2:{ intros H. apply refuse_failed in H. tauto. }
  destruct (N.ltb_spec 1024 d) as [L|L]; intros H; [apply refuse_failed in H|apply settle_failed in H]; tauto.
Qed.
Theorem C93_failed_static d s a input gas w ret e g w' :
  evm_static rec d s a input gas w = XOut (Out ret (Some e) g w') ->
  w' = w /\ (e = EReverted \/ g = 0 \/ (g = gas /\ ret = [] /\ (call_allowed s a = false \/ 1024 < d))).
Proof.
  unfold evm_static, Interp.evm_static. destruct (call_allowed s a); cbn [negb].
  2:{ intros H. apply refuse_failed in H. tauto. }
  destruct (N.ltb_spec 1024 d) as [L|L]; intros H; [apply refuse_failed in H|apply settle_failed in H]; tauto.
Qed.
(* A failed creation leaves at most the nonce of the creator raised by one and the address warm. *)
Theorem C93_failed_create ro d s a init gas v w ret e g w' :
  evm_create rec ro d s a init gas v w = XOut (Out ret (Some e) g w') ->
  (w' = w /\ g = gas /\ ret = [] /\ (refused w (create_allowed s) d s v \/ 2 ^ 64 <= nonce w s + 1)) \/
  (w' = warm (set_nonce w s (nonce w s + 1)) a /\ nonce w s + 1 < 2 ^ 64 /\ (e = EReverted \/ g = 0)).
Proof.
  unfold evm_create, Interp.evm_create, refused. destruct (create_allowed s); cbn [negb].
  2:{ intros H. apply refuse_failed in H. tauto. }
  destruct (N.ltb_spec 1024 d) as [L|L].
  { intros H. apply refuse_failed in H. tauto. }
  destruct (can_transfer w s v) eqn:C; cbn [negb].
  2:{ intros H. apply refuse_failed in H. tauto. }
  change (2 ^ 64) with U64. destruct (N.leb_spec U64 (nonce w s + 1)) as [Ln|Ln].
  { intros H. apply refuse_failed in H. tauto. }
  destruct (_ || _).
  - intros H. inversion H. subst. right. auto.
  - intros H. apply settle_failed in H. tauto.
Qed.
(* Calls nested deeper than 1024 are refused, whatever they are. *)
Theorem C93_depth_limit ro d s a input gas v c w : 1024 < d ->
  let kind r := exists e, r = XOut (Out [] (Some e) gas w) /\ (e = EDepth \/ e = EHook) in
  kind (evm_call rec ro d s a input gas v w) /\ kind (evm_callcode rec ro d s a input gas v w) /\
  kind (evm_delegate rec ro d s c v a input gas w) /\ kind (evm_static rec d s a input gas w) /\
  kind (evm_create rec ro d s a input gas v w).
Proof.
  intros L kind. apply N.ltb_lt in L.
  assert (K : forall e, e = EDepth \/ e = EHook -> kind (refuse e gas w)) by (intros e H; exists e; auto).
  unfold evm_call, evm_callcode, evm_delegate, evm_static, evm_create, Interp.evm_call, Interp.evm_callcode, Interp.evm_delegate,
    Interp.evm_static, Interp.evm_create. rewrite L.
  destruct (call_allowed s a), (create_allowed s); cbn [negb]; repeat split; apply K; auto.
Qed.
(* The caller sees it: a failed call pushes 0, a failed creation pushes 0, and
   memory is written only with what a callee returned or reverted with. *)
Theorem C93_caller_sees_failure m st ro rs ret e g w m' :
  after_call m st ro rs (XOut (Out ret (Some e) g w)) = SNext m' ->
  m_stack m' = 0 :: st /\ m_world m' = w /\ (e <> EReverted -> m_mem m' = m_mem m).
Proof.
  cbn [after_call]. destruct (reverted e) eqn:R.
  - destruct (mset _ _ _ _) as [mem| |]; try discriminate. intros H. inversion H. subst. cbn. repeat split.
    destruct e; try discriminate. congruence.
  - intros H. inversion H. subst. cbn. auto.
Qed.
Theorem C93_creator_sees_failure m st a ret e g w m' :
  after_create m st a (XOut (Out ret (Some e) g w)) = SNext m' ->
  m_stack m' = 0 :: st /\ m_world m' = w /\ m_mem m' = m_mem m.
Proof. intros H. inversion H. subst. cbn. auto. Qed.

(* C94.  A read-only call changes nothing that can be read: no balance, nonce,
   code, storage, record or refund, however deeply it calls, as long as the
   built-in contracts only compute. *)
Theorem C94_static_call_changes_nothing_partial n d s a input gas w o :
  polite committed is_pre pre_run -> pre_does is_pre pre_run (fun _ w w2 => still w w2) ->
  healthy committed w gas -> no_orphans committed w -> w_addr w a = true ->
  is_bytes input -> blen input < 2 ^ 63 ->
  evm_static (exec n) d s a input gas w = XOut o -> looks_same w (o_world o).
Proof.
  intros P St H No Wa I1 I2 E. apply polite_ok in P. apply (proj1 (healthy_ok _ _ _)) in H. destruct H as [Hw Ph].
  assert (S := static_safe keccak committed B is_pre pre_gas pre_run call_allowed create_allowed P n (exec n) true d s a input gas w
    (exec_safe keccak committed B is_pre pre_gas pre_run call_allowed create_allowed P n) Hw Wa I1 I2 Ph).
  unfold evm_static in E. rewrite E in S. destruct S as (_ & (Ef & _) & _).
  exact (proj1 (effects_static keccak committed is_pre pre_run true s w (o_world o) Ef eq_refl St No)).
Qed.
(* A read-only frame also cannot: whatever it calls, every state it goes through looks as the first. *)
Theorem C94_static_frame_changes_nothing_partial n F gas w m :
  polite committed is_pre pre_run -> pre_does is_pre pre_run (fun _ w w2 => still w w2) ->
  healthy committed w gas -> no_orphans committed w -> f_ro F = true ->
  is_bytes (f_code F) -> blen (f_code F) < 2 ^ 63 -> is_bytes (f_input F) -> blen (f_input F) < 2 ^ 63 ->
  exist w (f_self F) = true -> w_addr w (f_self F) = true ->
  reaches (step keccak committed B is_pre pre_gas pre_run call_allowed create_allowed (exec n) F) (start gas w) m ->
  looks_same w (m_world m).
Proof.
  intros P St H No Ro C1 C2 I1 I2 Ex Wa R. apply polite_ok in P. apply (proj1 (healthy_ok _ _ _)) in H. destruct H as [Ok Ph].
  assert (X : mach_ok committed m /\ frame_ok F (m_world m) /\ effects keccak committed is_pre pre_run true (f_self F) w (m_world m)).
  { remember (start gas w) as m0 eqn:E0. induction R as [m|m m1 m2 R IH E]; subst.
    - split; [|split; [repeat split; auto|apply E_refl]]. split; [apply start_ok|]. cbn. split; [constructor|]. split; [constructor|]. auto.
    - destruct (IH eq_refl) as (M1 & F1 & E1).
      assert (S := step_safe keccak committed B is_pre pre_gas pre_run call_allowed create_allowed P n (exec n) F m1
        (exec_safe keccak committed B is_pre pre_gas pre_run call_allowed create_allowed P n) F1 M1).
      rewrite E in S. destruct S as (M2 & (Ef & K) & _). split; [exact M2|]. rewrite Ro in Ef.
      destruct F1 as (a1 & a2 & a3 & a4 & a5 & a6). destruct K as (k1 & k2 & _).
      split; [repeat split; auto|]. eapply E_trans; eassumption. }
  destruct X as (_ & _ & Ef).
  exact (proj1 (effects_static keccak committed is_pre pre_run true (f_self F) w (m_world m) Ef eq_refl St No)).
Qed.
End Props.

(* ---- concrete cases ---- *)
(* a contract that sends 20 to 0xBE and then runs into an undefined instruction, and one that reverts *)
Definition failing : bytes := [0x60;0;0x60;0;0x60;0;0x60;0;0x60;20;0x60;0xBE;0x5a;0xf1;0x0c].
Definition reverting : bytes := [0x60;0;0x60;0;0x60;0;0x60;0;0x60;20;0x60;0xBE;0x5a;0xf1;0x60;0;0x60;0;0xfd].
Example C93_undone :
  err_of (run failing [] 100000 7) = Some EInvalidOp /\ gas_of (run failing [] 100000 7) = Some 0 /\
  balance (world_of (run failing [] 100000 7)) 0xA1 = 50%Z /\ balance (world_of (run failing [] 100000 7)) 0xBE = 0%Z /\
  exist (world_of (run failing [] 100000 7)) 0xBE = false /\
  err_of (run reverting [] 100000 7) = Some EReverted /\ gas_of (run reverting [] 100000 7) = Some 65674 /\
  balance (world_of (run reverting [] 100000 7)) 0xE0 = 1000%Z.
Proof. vm_compute. repeat split. Qed.
(* more money than the caller has: refused, all the gas comes back *)
Example C93_refused : run storing [] 5000 2000 = XOut (Out [] (Some EBalance) 5000 (xworld storing)).
Proof. vm_compute. reflexivity. Qed.

(* a contract that calls 0xA2 with a read-only call and returns 1: nothing readable has changed *)
Example C94_asking : polite xcommitted no_pre pre_nothing /\ pre_does no_pre pre_nothing (fun _ w w2 => still w w2) /\
  no_orphans xcommitted (xworld storing) /\
  evm_static xhash xcommitted no_pre pre_cost pre_nothing all2
    (exec xhash xcommitted xblock no_pre pre_cost pre_nothing all2 all1 200) 0 0xE0 0xA1 [] 50000 (xworld storing) =
  XOut (Out [] (Some EWrite) 0 (xworld storing)) /\
  gas_of (evm_static xhash xcommitted no_pre pre_cost pre_nothing all2
    (exec xhash xcommitted xblock no_pre pre_cost pre_nothing all2 all1 200) 0 0xE0 0xA1 [] 50000 (xworld asking)) = Some 47368.
Proof.
  split. { intros ro s a input g v w ret err used w2 E. inversion E. subst. split; [constructor|discriminate]. }
  split. { intros ro s a input g v w ret used w2 E. discriminate E. }
  split.
  { intros a. unfold exist, xworld, xcommitted. cbn. destruct (N.eqb_spec a 0xE0) as [E|]; [discriminate|].
    destruct (N.eqb_spec a 0xA1) as [E|]; [discriminate|]. reflexivity. }
  split; vm_compute; reflexivity.
Qed.

(* The exception: a read-only call that calls a built-in contract in the plain
   way runs it as if writing were allowed (evm.go:228 passes false whatever
   the frame is).  Here a built-in contract at 0x800 that refuses to work read
   only, and otherwise pays its caller 5. *)
Definition paying_pre (a : N) : bool := a =? 0x800.
Definition paying_run (ro : bool) (c a : N) (i : bytes) (g v : N) (w : world) : bytes * option verr * N * world :=
  if ro then ([], Some EWrite, 0, w) else ([], None, 0, add_balance xhash xcommitted w c 5).
Definition calling_pre : bytes := [0x60;0;0x60;0;0x60;0;0x60;0;0x60;0;0x61;0x08;0x00;0x5a;0xf1;0x00].
Theorem C94_refuted_static_call_changes_state :
  exists o, polite xcommitted paying_pre paying_run /\
    (forall c a i g v w, exists e, paying_run true c a i g v w = ([], Some e, 0, w)) /\
    evm_static xhash xcommitted paying_pre pre_cost paying_run all2
      (exec xhash xcommitted xblock paying_pre pre_cost paying_run all2 all1 200) 0 0xE0 0xA1 [] 50000 (xworld calling_pre) = XOut o /\
    o_err o = None /\ balance (xworld calling_pre) 0xA1 = 50%Z /\ balance (o_world o) 0xA1 = 55%Z.
Proof.
  set (r := evm_static _ _ _ _ _ _ _ _ _ _ _ _ _).
  assert (Ex : exists o, r = XOut o) by (apply is_out_ex; vm_compute; reflexivity).
  destruct Ex as [o Eo]. exists o. split.
  { intros ro s a input g v w ret err used w2 E. unfold paying_run in E. destruct ro; inversion E; subst; (split; [constructor|]); intros Ia Er.
    - discriminate.
    - split; [reflexivity|]. split; [|split; [auto|split]].
      + intros b X. unfold exist, add_balance, set_acct, upd in *. cbn [w_acct]. destruct (b =? s); auto.
      + intros b. apply code_add.
      + clear E Ia Er. intros b k. unfold exist, add_balance, set_acct, upd, state, here. cbn [w_acct].
        destruct (N.eqb_spec b s) as [E1|]; [subst b; cbn [x_stor]; destruct (w_acct w s); reflexivity|].
        destruct (w_acct w b); [reflexivity|discriminate]. }
  split; [intros; exists EWrite; reflexivity|]. split; [exact Eo|].
  assert (X : err_of r = None /\ balance (world_of r) 0xA1 = 55%Z) by (vm_compute; auto). rewrite Eo in X. cbn in X.
  split; [apply X|]. split; [vm_compute; reflexivity|apply X].
Qed.
(* And a read-only call of an address that has no account makes a blank account
   there (evm.go:382 AddBalance of 0). *)
Theorem C94_refuted_static_call_makes_account :
  exists o, run asking [] 50000 0 = XOut o /\ o_err o = None /\
    exist (xworld asking) 0xA2 = false /\ exist (o_world o) 0xA2 = true.
Proof.
  assert (Ex : exists o, run asking [] 50000 0 = XOut o) by (apply is_out_ex; vm_compute; reflexivity).
  destruct Ex as [o Eo]. exists o. split; [exact Eo|].
  assert (X : err_of (run asking [] 50000 0) = None /\ exist (world_of (run asking [] 50000 0)) 0xA2 = true) by (vm_compute; auto).
  rewrite Eo in X. cbn in X. split; [apply X|]. split; [vm_compute; reflexivity|apply X].
Qed.

Print Assumptions C93_failed_call.
Print Assumptions C93_failed_callcode.
Print Assumptions C93_failed_delegate.
Print Assumptions C93_failed_static.
Print Assumptions C93_failed_create.
Print Assumptions C93_depth_limit.
Print Assumptions C93_caller_sees_failure.
Print Assumptions C93_creator_sees_failure.
Print Assumptions C94_static_call_changes_nothing_partial.
Print Assumptions C94_static_frame_changes_nothing_partial.
Print Assumptions C94_refuted_static_call_changes_state.
Print Assumptions C94_refuted_static_call_makes_account.
