(* C90-C92: what a contract can do to the machine that runs it. *)
From Coq Require Import NArith Nnat.
From Verif Require Import Lib.Base Lib.Bytes Evm.Words Evm.World Evm.Memory Evm.Table Evm.Interp Evm.MemoryProofs
  Evm.TableProofs Evm.StepProofs Evm.Effects Evm.WorldProofs Evm.SafeProofs Evm.RunSpec Evm.RunProofs Evm.Example.
Open Scope N_scope.

Section Props.
Variable keccak : bytes -> N.
Variable committed : N -> N -> N.
Variable B : block.
Variable is_pre : N -> bool.
Variable pre_gas : N -> bytes -> N.
Variable pre_run : bool -> N -> N -> bytes -> N -> N -> world -> bytes * option verr * N * world.
Variable call_allowed : N -> N -> bool.
Variable create_allowed : N -> bool.

Let exec := exec keccak committed B is_pre pre_gas pre_run call_allowed create_allowed.
Let step := step keccak committed B is_pre pre_gas pre_run call_allowed create_allowed.
Let top_call := top_call keccak committed B is_pre pre_gas pre_run call_allowed create_allowed.
Let top_create := top_create keccak committed B is_pre pre_gas pre_run call_allowed create_allowed.
Let create_address := create_address keccak.

(* C90.  Whatever the code, in every state a frame goes through the memory is a
   whole number of words below the limit, the frame has paid the price of that
   memory out of its gas, and the stack has at most 1024 entries. *)
Theorem C90_memory_is_paid n F gas w m : gas < 2 ^ 64 ->
  reaches (step (exec n) F) (start gas w) m ->
  (exists words, blen (m_mem m) = 32 * words /\ words < 2 ^ 32 /\
     3 * words + words * words / 512 + m_gas m <= gas) /\
  N.of_nat (length (m_stack m)) <= 1024.
Proof.
  intros G R.
  assert (X : mem_ok (m_mem m) (m_last m) /\ m_gas m + m_last m <= gas /\ N.of_nat (length (m_stack m)) <= 1024).
  { remember (start gas w) as m0 eqn:E0. induction R as [m|m m1 m2 R IH E]; subst.
    - split; [exists 0; repeat split|]. cbn. split; lia.
    - destruct (IH eq_refl) as (I1 & I2 & I3).
      assert (L : rec_le n (exec n)) by apply exec_le. change (2 ^ 64) with U64 in G.
      assert (P := step_paid keccak committed B is_pre pre_gas pre_run call_allowed create_allowed n (exec n) F m1 m2 L I1 ltac:(lia) E).
      assert (Q := step_le keccak committed B is_pre pre_gas pre_run call_allowed create_allowed n (exec n) F m1 L I1 ltac:(lia)).
      unfold step in E. rewrite E in Q. cbn [sle] in Q. split; [apply Q|]. split; [lia|].
      exact (step_stack keccak committed B is_pre pre_gas pre_run call_allowed create_allowed n (exec n) F m1 m2 L I1 ltac:(lia) E). }
  destruct X as ((words & X1 & X2 & X3) & X4 & X5). split; [|exact X5].
  exists words. split; [exact X1|]. split; [exact X2|]. unfold mem_price in X3. lia.
Qed.

(* C91.  Every call and every creation ends after at most as many nested steps
   as it has gas, returns no more gas than it got, and allowing more steps makes
   no difference. *)
Lemma ends (f : nat -> xres) gas n : (forall k, xle k gas (f k)) -> (forall k j, (k <= j)%nat -> xsub (f k) (f j)) ->
  gas < N.of_nat n ->
  f n <> XFuel /\ (forall o, f n = XOut o -> o_gas o <= gas) /\ (forall k, (n <= k)%nat -> f k = f n).
Proof.
  intros L S G. assert (Hn : f n <> XFuel). { intros E. specialize (L n). rewrite E in L. cbn in L. lia. }
  split; [exact Hn|]. split.
  - intros o E. specialize (L n). rewrite E in L. exact L.
  - intros k K. destruct (S n k K) as [E|E]; [contradiction|now symmetry].
Qed.
Theorem C91_call_ends n c a input gas v w : gas < 2 ^ 64 -> gas < N.of_nat n ->
  let r k := top_call k c a input gas v w in
  r n <> XFuel /\ (forall o, r n = XOut o -> o_gas o <= gas) /\ (forall k, (n <= k)%nat -> r k = r n).
Proof.
  intros G L r. apply (ends r gas n); [| |exact L].
  - intros k. apply (xle_call keccak committed B is_pre pre_gas pre_run call_allowed create_allowed); [apply exec_le|exact G].
  - intros k j K. apply call_sub. apply exec_sub_le, K.
Qed.
Theorem C91_create_ends n c a init gas v w : gas < 2 ^ 64 -> gas < N.of_nat n ->
  let r k := top_create k c a init gas v w in
  r n <> XFuel /\ (forall o, r n = XOut o -> o_gas o <= gas) /\ (forall k, (n <= k)%nat -> r k = r n).
Proof.
  intros G L r. apply (ends r gas n); [| |exact L].
  - intros k. apply (xle_create keccak committed B is_pre pre_gas pre_run call_allowed create_allowed); [apply exec_le|exact G].
  - intros k j K. apply create_sub. apply exec_sub_le, K.
Qed.
(* a caller that has avail gas, base of which the call costs, keeps a 64th of the rest *)
Theorem C91_caller_keeps_a_64th avail base req : base <= avail -> avail < 2 ^ 64 ->
  let rest := avail - base in
  call_gas avail base req = N.min req (rest - rest / 64).
Proof.
  intros L A rest. assert (Ls : rest / 64 <= rest) by (apply N.div_le_upper_bound; lia).
  unfold call_gas.
  assert (Q : (avail + (U64 - base)) mod U64 = rest).
  { unfold rest. change (2 ^ 64) with 18446744073709551616 in A. rewrite U64_val in *.
    replace (avail + (18446744073709551616 - base)) with (avail - base + 1 * 18446744073709551616) by lia.
    rewrite N.mod_add by lia. apply N.mod_small. lia. }
  rewrite Q. change (2 ^ 64) with 18446744073709551616 in A. destruct (N.leb_spec U64 req) as [H|H]; cbn [orb].
  - rewrite U64_val in H. unfold rest in *. lia.
  - destruct (N.ltb_spec (rest - rest / 64) req); lia.
Qed.

(* C92.  No code, input, gas or value makes the interpreter crash: every
   transaction has an outcome, and the result is bytes. *)
Theorem C92_call_never_crashes n c a input gas v w :
  polite committed is_pre pre_run -> fresh committed w -> sendable input gas -> w_addr w a = true ->
  gas < N.of_nat n ->
  exists o, top_call n c a input gas v w = XOut o /\ is_bytes (o_ret o).
Proof.
  intros P Fr Se Wa G. apply polite_ok in P.
  destruct (top_call_safe keccak committed B is_pre pre_gas pre_run call_allowed create_allowed P n c a input gas v w Fr Se Wa) as [C L].
  unfold top_call. destruct (Interp.top_call _ _ _ _ _ _ _ _ n c a input gas v w) as [o| |]; cbn in C, L.
  - exists o. split; [reflexivity|apply C].
  - contradiction.
  - lia.
Qed.
Theorem C92_create_never_crashes n c k init gas v w :
  polite committed is_pre pre_run -> fresh committed w -> sendable init gas -> gas < N.of_nat n ->
  exists o, top_create n c (create_address c k) init gas v w = XOut o /\ is_bytes (o_ret o).
Proof.
  intros P Fr Se G. apply polite_ok in P.
  destruct (top_create_safe keccak committed B is_pre pre_gas pre_run call_allowed create_allowed P n c (rlp_pair c k) init gas v w Fr Se) as [C L].
  unfold top_create, create_address, Interp.create_address.
  destruct (Interp.top_create _ _ _ _ _ _ _ _ n c _ init gas v w) as [o| |]; cbn in C, L.
  - exists o. split; [reflexivity|apply C].
  - contradiction.
  - lia.
Qed.
(* inside a transaction: every state a frame goes through is healthy again, so nothing that it calls can crash either *)
Theorem C92_frames_stay_healthy n F gas w m :
  polite committed is_pre pre_run -> healthy committed w gas ->
  is_bytes (f_code F) -> blen (f_code F) < 2 ^ 63 -> is_bytes (f_input F) -> blen (f_input F) < 2 ^ 63 ->
  exist w (f_self F) = true -> w_addr w (f_self F) = true ->
  reaches (step (exec n) F) (start gas w) m ->
  healthy committed (m_world m) (m_gas m) /\ step (exec n) F m <> SPanic.
Proof.
  intros P H C1 C2 I1 I2 Ex Wa R. apply polite_ok in P. apply (proj1 (healthy_ok _ _ _)) in H. destruct H as [Ok Ph].
  assert (X : mach_ok committed m /\ frame_ok F (m_world m)).
  { remember (start gas w) as m0 eqn:E0. induction R as [m|m m1 m2 R IH E]; subst.
    - split; [|repeat split; auto]. split; [apply start_ok|]. cbn. split; [constructor|]. split; [constructor|]. auto.
    - destruct (IH eq_refl) as (M1 & F1).
      assert (S := step_safe keccak committed B is_pre pre_gas pre_run call_allowed create_allowed P n (exec n) F m1
        (exec_safe keccak committed B is_pre pre_gas pre_run call_allowed create_allowed P n) F1 M1).
      unfold step in E. rewrite E in S. destruct S as (M2 & (_ & K) & _). split; [exact M2|].
      destruct F1 as (a1 & a2 & a3 & a4 & a5 & a6). destruct K as (k1 & k2 & _). repeat split; auto. }
  destruct X as [M Fo]. split.
  - apply healthy_ok. destruct M as (_ & _ & _ & M4 & M5). split; assumption.
  - intros E.
    assert (S := step_safe keccak committed B is_pre pre_gas pre_run call_allowed create_allowed P n (exec n) F m
        (exec_safe keccak committed B is_pre pre_gas pre_run call_allowed create_allowed P n) Fo M).
    unfold step in E. rewrite E in S. exact S.
Qed.
End Props.

(* ---- concrete cases ---- *)
Lemma xpolite : polite xcommitted no_pre pre_nothing.
Proof. intros ro s a input g v w ret err used w2 E. inversion E. subst. split; [constructor|discriminate]. Qed.
Lemma xfresh c : is_bytes c -> blen c < 2 ^ 63 -> fresh xcommitted (xworld c).
Proof.
  intros H L. split; [|split; [reflexivity|]].
  - intros a. unfold code, xworld. cbn. destruct (a =? 0xE0); [split; [constructor|reflexivity]|].
    destruct (a =? 0xA1); [auto|]. split; [constructor|reflexivity].
  - intros a k. unfold exist, state, xworld. cbn. destruct (N.eqb_spec a 0xE0) as [E|]; [subst; reflexivity|].
    destruct (N.eqb_spec a 0xA1) as [E|]; [subst; reflexivity|discriminate].
Qed.

(* a contract that writes to its storage and memory and returns: 27129 gas, and 4800 to refund *)
Example C92_storing : fresh xcommitted (xworld storing) /\ sendable [] 100000 /\
  w_addr (xworld storing) 0xA1 = true /\ polite xcommitted no_pre pre_nothing /\
  gas_of (run storing [] 100000 7) = Some 72871 /\ w_refund (world_of (run storing [] 100000 7)) = 4800.
Proof.
  split; [apply xfresh; [repeat constructor|reflexivity]|]. split; [repeat split; constructor|]. split; [reflexivity|].
  split; [exact xpolite|]. split; vm_compute; reflexivity.
Qed.
(* a loop ends when the gas is used up; a contract that calls itself with all its gas ends by the 64th it keeps *)
Example C91_loops :
  gas_of (run looping [] 1000 0) = Some 0 /\ err_of (run looping [] 1000 0) = Some EOutOfGas /\
  gas_of (run recursing [] 50000 0) = Some 32706 /\ err_of (run recursing [] 50000 0) = None.
Proof. repeat split; vm_compute; reflexivity. Qed.
(* eleven instructions into the first contract its memory is one word *)
Definition at_step (k : nat) (c : bytes) : option mach :=
  let F := Frame 0xA1 0xE0 7 c [] false 1 in
  let st := step xhash xcommitted xblock no_pre pre_cost pre_nothing all2 all1
    (exec xhash xcommitted xblock no_pre pre_cost pre_nothing all2 all1 5) F in
  fold_left (fun r _ => match r with Some m => match st m with SNext m' => Some m' | _ => None end | None => None end)
    (List.seq 0 k) (Some (start 100000 (xworld c))).
Example C90_one_word :
  option_map (fun m => (blen (m_mem m), m_gas m, m_stack m)) (at_step 11 storing) = Some (32, 72871, [0; 32]).
Proof. vm_compute. reflexivity. Qed.
(* without the called account in the access list, which the keeper fills before the run, a first write would crash *)
Example C92_access_list_needed :
  let w := World (w_acct (xworld storing)) 0 [] (fun _ => false) (fun _ _ => false) in
  top_call xhash xcommitted xblock no_pre pre_cost pre_nothing all2 all1 1000 0xE0 0xA1 [] 100000 0 w = XPanic.
Proof. vm_compute. reflexivity. Qed.

Print Assumptions C90_memory_is_paid.
Print Assumptions C91_call_ends.
Print Assumptions C91_create_ends.
Print Assumptions C91_caller_keeps_a_64th.
Print Assumptions C92_call_never_crashes.
Print Assumptions C92_create_never_crashes.
Print Assumptions C92_frames_stay_healthy.
