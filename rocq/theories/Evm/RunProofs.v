(* Whole calls and creations. *)
From Coq Require Import NArith Nnat.
From Verif Require Import Lib.Base Lib.Bytes Evm.Words Evm.World Evm.Memory Evm.Table Evm.Interp Evm.MemoryProofs
  Evm.TableProofs Evm.StepProofs Evm.Effects Evm.WorldProofs Evm.SafeProofs Evm.Ledger Evm.LedgerProofs Evm.EffectsProofs Evm.RunSpec.
Open Scope N_scope.

(* r' agrees with r unless r ran out of steps *)
Definition xsub (r r' : xres) : Prop := r = XFuel \/ r = r'.
Definition ssub (r r' : sres) : Prop := r = SFuel \/ r = r'.
Lemma xsub_settle w r r' : xsub r r' -> xsub (settle w r) (settle w r').
Proof. intros [-> | ->]; [left; reflexivity|right; reflexivity]. Qed.

Lemma fresh_ok committed w : fresh committed w -> world_ok committed w.
Proof.
  intros (C & R & S). split; [exact C|]. intros L ND F. destruct L as [|p L]; [cbn; lia|].
  exfalso. inversion F as [|? ? (X & Y & Z) _]. subst. rewrite (S _ _ X) in Z. contradiction.
Qed.

Section Run.
Variable keccak : bytes -> N.
Variable committed : N -> N -> N.
Variable B : block.
Variable is_pre : N -> bool.
Variable pre_gas : N -> bytes -> N.
Variable pre_run : bool -> N -> N -> bytes -> N -> N -> world -> bytes * option verr * N * world.
Variable call_allowed : N -> N -> bool.
Variable create_allowed : N -> bool.

Let exec := exec keccak committed B is_pre pre_gas pre_run call_allowed create_allowed.
Let step := step keccak committed B is_pre pre_gas pre_run call_allowed create_allowed.
Let execute := execute keccak committed B is_pre pre_gas pre_run call_allowed create_allowed.
Let top_call := top_call keccak committed B is_pre pre_gas pre_run call_allowed create_allowed.
Let top_create := top_create keccak committed B is_pre pre_gas pre_run call_allowed create_allowed.

(* ---- more steps allowed: the same result ---- *)
Section Mono.
Variables rec rec' : frame -> mach -> xres.
Hypothesis RR : forall F m, xsub (rec F m) (rec' F m).

Lemma run_sub F g w : xsub (run_frame rec F g w) (run_frame rec' F g w).
Proof. unfold run_frame. destruct (f_code F); [right; reflexivity|apply RR]. Qed.
Lemma deposit_sub a r r' : xsub r r' -> xsub (deposit keccak committed a r) (deposit keccak committed a r').
Proof. intros [-> | ->]; [left; reflexivity|right; reflexivity]. Qed.

Ltac go := repeat match goal with
  | |- xsub (if ?b then refuse _ _ _ else _) _ => destruct b; [right; reflexivity|]
  | |- xsub (if ?b then XOut _ else _) _ => destruct b; [right; reflexivity|]
  end.
Lemma call_sub ro d s a input g v w :
  xsub (evm_call keccak committed is_pre pre_gas pre_run call_allowed rec ro d s a input g v w)
       (evm_call keccak committed is_pre pre_gas pre_run call_allowed rec' ro d s a input g v w).
Proof. unfold evm_call. go. apply xsub_settle. destruct (is_pre a); [right; reflexivity|apply run_sub]. Qed.
Lemma callcode_sub ro d s a input g v w :
  xsub (evm_callcode is_pre pre_gas pre_run call_allowed rec ro d s a input g v w)
       (evm_callcode is_pre pre_gas pre_run call_allowed rec' ro d s a input g v w).
Proof. unfold evm_callcode. go. apply xsub_settle. destruct (is_pre a); [right; reflexivity|apply run_sub]. Qed.
Lemma delegate_sub ro d s c v a input g w :
  xsub (evm_delegate is_pre pre_gas pre_run call_allowed rec ro d s c v a input g w)
       (evm_delegate is_pre pre_gas pre_run call_allowed rec' ro d s c v a input g w).
Proof. unfold evm_delegate. go. apply xsub_settle. destruct (is_pre a); [right; reflexivity|apply run_sub]. Qed.
Lemma static_sub d s a input g w :
  xsub (evm_static keccak committed is_pre pre_gas pre_run call_allowed rec d s a input g w)
       (evm_static keccak committed is_pre pre_gas pre_run call_allowed rec' d s a input g w).
Proof. unfold evm_static. go. apply xsub_settle. destruct (is_pre a); [right; reflexivity|apply run_sub]. Qed.
Lemma create_sub ro d s a init g v w :
  xsub (evm_create keccak committed create_allowed rec ro d s a init g v w)
       (evm_create keccak committed create_allowed rec' ro d s a init g v w).
Proof. unfold evm_create. go. apply xsub_settle, deposit_sub, run_sub. Qed.
Lemma after_call_sub m st ro rs r r' : xsub r r' -> ssub (after_call m st ro rs r) (after_call m st ro rs r').
Proof. intros [-> | ->]; [left; reflexivity|right; reflexivity]. Qed.
Lemma after_create_sub m st a r r' : xsub r r' -> ssub (after_create m st a r) (after_create m st a r').
Proof. intros [-> | ->]; [left; reflexivity|right; reflexivity]. Qed.

Lemma execute_sub F m cg i : ssub (execute rec F m cg i) (execute rec' F m cg i).
Proof.
  unfold execute, Interp.execute. destruct (local keccak B F m i) as [[[[st mem] pc]| |]|]; try (right; reflexivity).
  destruct i as [|o|o|o| |o|o|o| | | | | | | | | |n'|n'|n'|n'| | |k0| | | |]; try (right; reflexivity);
  repeat match goal with
  | |- ssub (match ?l with [] => _ | _ :: _ => _ end) _ => destruct l; try (right; reflexivity)
  | |- ssub (match ?l with KCall => _ | _ => _ end) _ => destruct l; try (right; reflexivity)
  | |- ssub (if ?b then _ else _) _ => destruct b; try (right; reflexivity)
  | |- ssub (match mget ?a ?b ?c with Ok _ => _ | _ => _ end) _ => destruct (mget a b c); try (right; reflexivity)
  end.
  - apply after_create_sub, create_sub.
  - apply after_create_sub, create_sub.
  - apply after_call_sub, call_sub.
  - apply after_call_sub, callcode_sub.
  - apply after_call_sub, delegate_sub.
  - apply after_call_sub, static_sub.
Qed.
Lemma step_sub F m : ssub (step rec F m) (step rec' F m).
Proof.
  unfold step, Interp.step. destruct (pay _ _ F m _) as [[m' cg]|r]; [apply execute_sub|right; reflexivity].
Qed.
End Mono.

Lemma exec_S n F m : exec (S n) F m = match step (exec n) F m with
  | SNext m' => exec n F m' | SDone o => XOut o | SPanic => XPanic | SFuel => XFuel end.
Proof. reflexivity. Qed.
Lemma exec_sub n : forall F m, xsub (exec n F m) (exec (S n) F m).
Proof.
  induction n as [|n IH]; intros F m; [left; reflexivity|].
  rewrite (exec_S (S n)), exec_S.
  destruct (step_sub _ _ IH F m) as [-> | ->]; [left; reflexivity|].
  destruct (step (exec (S n)) F m) as [m'|o| |]; [apply IH|right; reflexivity..].
Qed.
Lemma exec_sub_le n k : (n <= k)%nat -> forall F m, xsub (exec n F m) (exec k F m).
Proof.
  induction 1 as [|k _ IH]; intros F m; [right; reflexivity|].
  destruct (IH F m) as [E|E]; [left; exact E|]. rewrite E. apply exec_sub.
Qed.

(* ---- a call or a creation by an account, at depth 0 ---- *)
Lemma polite_ok : polite committed is_pre pre_run -> pre_ok committed is_pre pre_run.
Proof.
  intros P ro s a input g v w ret err used w2 E. destruct (P _ _ _ _ _ _ _ _ _ _ _ E) as [Rt Q].
  split; [exact Rt|]. intros Ia Er. destruct (Q Ia Er) as (Q1 & Q2 & Q3 & Q4 & Q5). constructor; auto.
  intros [b k] (X & Y & Z). cbn in *. assert (S := Q5 b k X). unfold cleared. cbn.
  destruct (exist w b); [|congruence]. repeat split; auto. congruence.
Qed.
Hypothesis Pre : pre_ok committed is_pre pre_run.

Lemma sendable_phi w input gas : fresh committed w -> sendable input gas -> phi w gas < 2 ^ 63.
Proof. intros (_ & R & _) (_ & _ & L). unfold phi. rewrite R. exact L. Qed.

Lemma top_call_safe n c a input gas v w : fresh committed w -> sendable input gas -> w_addr w a = true ->
  csafe keccak committed is_pre pre_run false c w gas (top_call n c a input gas v w) /\ xle n gas (top_call n c a input gas v w).
Proof.
  intros Fr Se Wa. assert (Ph := sendable_phi _ _ _ Fr Se). destruct Se as (S1 & S2 & _). split.
  - eapply (call_safe keccak committed B is_pre pre_gas pre_run call_allowed create_allowed Pre n); auto.
    + apply exec_safe, Pre.
    + now apply fresh_ok.
    + discriminate.
  - apply (xle_call keccak committed B is_pre pre_gas pre_run call_allowed create_allowed); [apply exec_le|]. exact (phi_gas keccak committed is_pre pre_run _ _ Ph).
Qed.
Lemma top_create_safe n c l init gas v w : fresh committed w -> sendable init gas ->
  csafe keccak committed is_pre pre_run false c w gas (top_create n c (to_addr (keccak l)) init gas v w) /\
  xle n gas (top_create n c (to_addr (keccak l)) init gas v w).
Proof.
  intros Fr Se. assert (Ph := sendable_phi _ _ _ Fr Se). destruct Se as (S1 & S2 & _). split.
  - eapply (create_safe keccak committed B is_pre pre_gas pre_run call_allowed create_allowed n); auto.
    + apply exec_safe, Pre.
    + now apply fresh_ok.
  - apply (xle_create keccak committed B is_pre pre_gas pre_run call_allowed create_allowed); [apply exec_le|]. exact (phi_gas keccak committed is_pre pre_run _ _ Ph).
Qed.
End Run.

Lemma healthy_ok committed w g : healthy committed w g <-> world_ok committed w /\ phi w g < 2 ^ 63.
Proof. unfold healthy, world_ok, phi, cleared. tauto. Qed.
Lemma healthy_fresh committed w input gas : fresh committed w -> sendable input gas -> healthy committed w gas.
Proof.
  intros Fr Se. apply healthy_ok. split; [now apply fresh_ok|]. exact (sendable_phi committed w input gas Fr Se).
Qed.
