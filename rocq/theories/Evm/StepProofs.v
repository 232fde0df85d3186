(* One instruction: what it costs, and what it leaves alone; every run ends
   and gives back no more gas than it got. *)
From Coq Require Import NArith Nnat.
From Verif Require Import Lib.Base Lib.Bytes Evm.Words Evm.World Evm.Memory Evm.Table Evm.Analysis Evm.Interp.
From Verif Require Import Evm.MemoryProofs Evm.TableProofs.
Open Scope N_scope.

Ltac rb H :=
  repeat match type of H with
  | rbind ?r _ = Ok _ => let E := fresh "E" in destruct r eqn:E; cbn [rbind] in H; try discriminate H
  end.

Lemma safe_add_spec a b c : safe_add a b = Ok c -> c = a + b /\ c < U64.
Proof. unfold safe_add. destruct (N.leb_spec U64 (a + b)); [discriminate|]. intros E. split; [congruence|]. assert (c = a + b) by congruence. lia. Qed.
Lemma safe_add_no_panic a b : safe_add a b <> Panic.
Proof. unfold safe_add. destruct (_ <=? _); discriminate. Qed.
Lemma safe_mul_spec a b c : safe_mul a b = Ok c -> c = a * b /\ c < U64.
Proof. unfold safe_mul. destruct (N.leb_spec U64 (a * b)); [discriminate|]. intros E. split; [congruence|]. assert (c = a * b) by congruence. lia. Qed.
Lemma safe_mul_no_panic a b : safe_mul a b <> Panic.
Proof. unfold safe_mul. destruct (_ <=? _); discriminate. Qed.
Lemma back_some st n x : back st n = Ok x <-> nth_error st n = Some x.
Proof. unfold back. destruct (nth_error st n); split; congruence. Qed.

Definition uses_mem (k : dynk) : bool :=
  match k with DNone | DExp | DSload | DSstore | DAccount | DSelfdestruct => false | _ => true end.

(* what the value of a call costs *)
Definition extra (k : dynk) (st : list N) : N :=
  match k with
  | DCall KCall | DCall KCallCode => match nth_error st 2 with Some v => if v =? 0 then 0 else 9000 | None => 0 end
  | _ => 0
  end.

(* gas.go callGas: what is sent along fits into what is left, or the instruction
   costs more than there is; nothing wraps *)
Lemma call_gas_spec avail base req t cold :
  avail + cold < U64 -> base < 2 ^ 57 -> cold <= 2500 ->
  safe_add base (call_gas avail base req) = Ok t ->
  (t + cold) mod U64 = base + call_gas avail base req + cold /\
  ((t + cold) mod U64 <= avail + cold -> base <= avail).
Proof.
  intros A Bb C H. apply safe_add_spec in H. destruct H as [-> H].
  change (2 ^ 57) with 144115188075855872 in *. rewrite U64_val in *.
  assert (N : base + call_gas avail base req + cold < 18446744073709551616).
  { unfold call_gas. rewrite U64_val.
    assert (D := N.div_mod ((avail + (18446744073709551616 - base)) mod 18446744073709551616) 64 ltac:(lia)).
    assert (M := N.mod_lt ((avail + (18446744073709551616 - base)) mod 18446744073709551616) 64 ltac:(lia)).
    assert (M' := N.mod_lt (avail + (18446744073709551616 - base)) 18446744073709551616 ltac:(lia)).
    destruct (N.le_gt_cases base avail) as [L|L].
    - assert (Q : (avail + (18446744073709551616 - base)) mod 18446744073709551616 = avail - base).
      { replace (avail + (18446744073709551616 - base)) with (avail - base + 1 * 18446744073709551616) by lia.
        rewrite N.mod_add by lia. apply N.mod_small. lia. }
      rewrite Q in *.
      destruct (18446744073709551616 <=? req); cbn [orb]; [lia|].
      destruct (N.ltb_spec (avail - base - (avail - base) / 64) req); lia.
    - set (a := (avail + (18446744073709551616 - base)) mod 18446744073709551616) in *.
      destruct (18446744073709551616 <=? req); cbn [orb]; [lia|].
      destruct (N.ltb_spec (a - a / 64) req); lia. }
  rewrite N.mod_small by exact N. split; [reflexivity|]. intros L. lia.
Qed.

Lemma call_gas_le avail base req : base <= avail -> avail < U64 -> call_gas avail base req <= (avail - base) - (avail - base) / 64.
Proof.
  intros L A. unfold call_gas.
  assert (Q : (avail + (U64 - base)) mod U64 = avail - base).
  { rewrite U64_val in *.
    replace (avail + (18446744073709551616 - base)) with (avail - base + 1 * 18446744073709551616) by lia.
    rewrite N.mod_add by lia. apply N.mod_small. lia. }
  rewrite Q. destruct (U64 <=? req); cbn [orb]; [lia|].
  destruct (N.ltb_spec (avail - base - (avail - base) / 64) req); lia.
Qed.

Section Evm.
Variable keccak : bytes -> N.
Variable committed : N -> N -> N.

Lemma sstore_gas_cost self key v w c : sstore_gas committed self key v w = Ok c -> 100 <= fst c.
Proof.
  unfold sstore_gas. intros H. rb H. destruct a as [cost w1].
  destruct (state w self key =? v).
  { assert (c = (cost + warm_read, w1)) by congruence. subst c. unfold warm_read. cbn. lia. }
  destruct (_ =? state w self key).
  - destruct (_ =? 0).
    + assert (c = (cost + 20000, w1)) by congruence. subst c. cbn. lia.
    + assert (Q : fst c = cost + 2900) by (assert (X := f_equal (fun r => match r with Ok y => fst y | _ => 0 end) H); cbn in X; congruence).
      lia.
  - rb H. assert (Q : fst c = cost + warm_read) by (assert (X := f_equal (fun r => match r with Ok y => fst y | _ => 0 end) H); cbn in X; congruence).
    unfold warm_read in Q. lia.
Qed.

Lemma dynamic_cost k F m size d w :
  mem_ok (m_mem m) (m_last m) -> size = 32 * w -> size < U64 -> (uses_mem k = false -> size = 0) ->
  m_gas m < U64 -> dynamic keccak committed k F m size = Ok d -> d_cost d <= m_gas m ->
  exists fee, mem_gas (m_mem m) (m_last m) size = Ok (fee, d_last d) /\
    fee + dyn_min k + d_call d + extra k (m_stack m) <= d_cost d /\
    ((forall c, k <> DCall c) -> d_call d = 0).
Proof.
  intros OK Hw Hs Hu Hg H C.
  assert (Z : uses_mem k = false -> mem_gas (m_mem m) (m_last m) size = Ok (0, m_last m)).
  { intros U. rewrite (Hu U). reflexivity. }
  assert (P : forall r, rbind (mem_gas (m_mem m) (m_last m) size) (fun g => rbind r (fun c =>
       rbind (safe_add (fst g) c) (fun t => Ok (Dyn t 0 (snd g) (m_world m))))) = Ok d ->
       exists fee, mem_gas (m_mem m) (m_last m) size = Ok (fee, d_last d) /\ d_call d = 0 /\ fee <= d_cost d).
  { intros r Hr. rb Hr. destruct a as [fee l]. exists fee. cbn in Hr.
    assert (d = Dyn a1 0 l (m_world m)) by congruence. subst d. apply safe_add_spec in E1. cbn in *.
    split; [reflexivity|]. split; [reflexivity|lia]. }
  destruct k; cbn [dynamic] in H; cbn [dyn_min extra].
  - exists 0. assert (d = Dyn 0 0 (m_last m) (m_world m)) by congruence. subst d.
    split; [auto|]. cbn. split; [lia|reflexivity].
  - rb H. destruct a as [fee l]. exists fee. assert (d = Dyn fee 0 l (m_world m)) by (cbn in H; congruence). subst d.
    split; [reflexivity|]. cbn. split; [lia|reflexivity].
  - destruct (P _ H) as (fee & E & Q & Lf). exists fee. rewrite Q. split; [exact E|]. split; [lia|reflexivity].
  - rb H. destruct (U64 <=? a); [discriminate|]. rb H. destruct a0 as [fee l]. exists fee.
    apply safe_add_spec in E1, E2, E4.
    assert (d = Dyn a4 0 l (m_world m)) by (cbn in *; congruence). subst d. cbn in *.
    split; [reflexivity|]. split; [lia|reflexivity].
  - destruct (P _ H) as (fee & E & Q & Lf). exists fee. rewrite Q. split; [exact E|]. split; [lia|reflexivity].
  - destruct (P _ H) as (fee & E & Q & Lf). exists fee. rewrite Q. split; [exact E|]. split; [lia|reflexivity].
  - rb H. apply safe_add_spec in E0. exists 0. assert (d = Dyn a0 0 (m_last m) (m_world m)) by congruence. subst d.
    split; [auto|]. cbn. split; [lia|reflexivity].
  - rb H. exists 0. destruct (w_slot (m_world m) (f_self F) a).
    + assert (d = Dyn warm_read 0 (m_last m) (m_world m)) by congruence. subst d. split; [auto|].
      cbn. unfold warm_read. split; [lia|reflexivity].
    + assert (Q : d = Dyn cold_sload 0 (m_last m) (warm_slot (m_world m) (f_self F) a)) by congruence. subst d. split; [auto|].
      cbn. unfold cold_sload. split; [lia|reflexivity].
  - destruct (m_gas m <=? 2300); [discriminate|]. rb H. apply sstore_gas_cost in E1. exists 0.
    assert (d = Dyn (fst a1) 0 (m_last m) (snd a1)) by congruence. subst d. split; [auto|].
    cbn. split; [lia|reflexivity].
  - rb H. destruct a as [fee l]. exists fee. cbn [fst snd] in *. apply safe_add_spec in E1. destruct (w_addr _ _).
    + assert (d = Dyn a1 0 l (m_world m)) by congruence. subst d. cbn. split; [reflexivity|]. split; [lia|reflexivity].
    + rb H. apply safe_add_spec in E3. match type of H with Ok ?x = Ok _ => assert (Q : d = x) by congruence end. subst d.
      cbn [d_cost d_last d_call]. split; [reflexivity|]. split; [lia|reflexivity].
  - rb H. exists 0. destruct (w_addr _ _); assert (Q := f_equal (fun r => match r with Ok y => (d_last y, d_call y) | _ => (0, 0) end) H); cbn in Q;
      injection Q as Q1 Q2; rewrite <- Q1, <- Q2; (split; [auto|]; split; [lia|reflexivity]).
  - rename k into kk. rb H.
    set (cold := if w_addr (m_world m) (to_addr a) then 0 else cold_account - warm_read) in *.
    assert (Cc : cold <= 2500) by (unfold cold, cold_account, warm_read; destruct (w_addr _ _); lia).
    destruct (N.ltb_spec (m_gas m) cold); [discriminate|]. rb H. destruct a1 as [fee l]. cbn [fst snd] in *.
    destruct (mem_gas_spec _ _ _ _ _ w OK Hw Hs E1) as (_ & _ & Bf & _).
    apply safe_add_spec in E2. destruct E2 as [-> E2].
    assert (B0 : a0 <= 34000 /\ extra (DCall kk) (m_stack m) <= a0).
    { unfold call_base in E0. cbn [extra]. destruct kk.
      - rb E0. apply (proj1 (back_some _ _ _)) in E5. rewrite E5.
        destruct (N.eqb_spec a1 0); cbn [negb andb] in E0.
        + assert (Q := f_equal (fun r => match r with Ok y => y | _ => 0 end) E0); cbn in Q; lia.
        + destruct (empty _ _ _); assert (Q := f_equal (fun r => match r with Ok y => y | _ => 0 end) E0); cbn in Q; lia.
      - rb E0. apply (proj1 (back_some _ _ _)) in E5. rewrite E5.
        destruct (N.eqb_spec a1 0); assert (Q := f_equal (fun r => match r with Ok y => y | _ => 0 end) E0); cbn in Q; lia.
      - assert (a0 = 0) by congruence. lia.
      - assert (a0 = 0) by congruence. lia. }
    destruct B0 as [B0 B1]. change (2 ^ 56) with 72057594037927936 in Bf.
    destruct (call_gas_spec (m_gas m - cold) (a0 + fee) a3 a4 cold) as [W _];
      [lia|change (2 ^ 57) with 144115188075855872; lia|exact Cc|exact E4|].
    match type of H with Ok ?x = Ok _ => assert (Q : d = x) by congruence end. subst d.
    cbn [d_cost d_last d_call] in *. rewrite W. exists fee. split; [reflexivity|].
    split; [cbn [extra] in *; lia|]. intros X. now contradiction (X kk).
  - rb H. exists 0. assert (Q := f_equal (fun r => match r with Ok y => (d_last y, d_call y) | _ => (0, 0) end) H); cbn in Q.
    injection Q as Q1 Q2. rewrite <- Q1, <- Q2. split; [auto|]. split; [lia|reflexivity].
Qed.

(* what holds once an instruction is paid for *)
Lemma pay_inl F m i g m' cg :
  pay keccak committed F m (canon i g) = inl (m', cg) -> gas_min i <= g ->
  mem_ok (m_mem m) (m_last m) -> m_gas m < U64 ->
  pops i <= N.of_nat (length (m_stack m)) /\ N.of_nat (length (m_stack m)) + pushes i <= 1024 + pops i /\
  m_stack m' = m_stack m /\ m_pc m' = m_pc m /\ m_ret m' = m_ret m /\
  mem_ok (m_mem m') (m_last m') /\
  gas_min i + dyn_min (dyn_of i) + cg + extra (dyn_of i) (m_stack m) + m_gas m' <= m_gas m /\
  (match i with ICall _ => False | _ => True end -> cg = 0) /\
  (exists size d, mem_words (mem_of i) (m_stack m) = Ok size /\ m_mem m' = grow (m_mem m) size /\
     blen (m_mem m') < 2 ^ 37 /\
     dynamic keccak committed (dyn_of i) F (set_gas m (m_gas m - g)) size = Ok d /\ m_world m' = d_world d /\
     d_cost d <= m_gas m - g /\ m_gas m' + g + d_cost d = m_gas m /\ cg = d_call d /\
     m_last m <= m_last m' /\
     gas_min i + dyn_min (dyn_of i) + cg + extra (dyn_of i) (m_stack m) + m_gas m' + m_last m' <= m_gas m + m_last m).
Proof.
  intros H G OK Hg. unfold pay in H. cbn [canon op_min op_max op_gas op_dyn op_mem] in H.
  destruct (N.ltb_spec (N.of_nat (length (m_stack m))) (pops i)) as [|Hp]; [discriminate|].
  destruct (N.ltb_spec (1024 + pops i - pushes i) (N.of_nat (length (m_stack m)))) as [|Hq]; [discriminate|].
  destruct (N.ltb_spec (m_gas m) g) as [|Hgas]; [discriminate|].
  assert (Hpp : pushes i <= 1024 + pops i) 
    by (destruct i as [|o|o|o| |o|o|o| | | | | | | | | |n'|n'|n'|n'| | |k0| | | |]; cbn [pushes pops]; try lia; destruct k0; lia).
  split; [exact Hp|]. split; [lia|].
  assert (U : uses_mem (dyn_of i) = false -> mem_of i = MNone).
  { destruct i as [|o|o|o| |o|o|o| | | | | | | | | |n'|n'|n'|n'| | |k0| | | |]; cbn; try discriminate; try reflexivity;
      destruct o || destruct k0; cbn; discriminate || reflexivity. }
  destruct (dyn_of i) as [| | | | | | | | | | | |] eqn:Dk.
  1: { assert (m' = set_gas m (m_gas m - g) /\ cg = 0) as [-> ->] by (split; congruence).
    cbn [m_stack m_pc m_ret m_mem m_last m_gas set_gas m_world]. do 3 (split; [reflexivity|]). split; [exact OK|].
    cbn [dyn_min extra]. split; [lia|]. split; [reflexivity|].
    exists 0, (Dyn 0 0 (m_last m) (m_world m)). rewrite (U eq_refl).
    split; [reflexivity|]. split; [reflexivity|]. split.
    - destruct OK as (w & L & W & _). rewrite L. change (2 ^ 32) with 4294967296 in W. change (2 ^ 37) with 137438953472. lia.
    - cbn. split; [reflexivity|]. split; [reflexivity|]. split; [lia|]. split; [lia|]. split; [reflexivity|]. split; lia. }
  all: destruct (mem_words (mem_of i) (m_stack m)) as [size| |] eqn:Ms; try discriminate;
    destruct (dynamic _ _ _ F (set_gas m (m_gas m - g)) size) as [d| |] eqn:Dy; try discriminate;
    cbn [m_gas set_gas] in H; destruct (N.ltb_spec (m_gas m - g) (d_cost d)) as [|Hc]; [discriminate|];
    (assert (Q : m' = Mach (m_pc m) (m_gas m - g - d_cost d) (m_stack m)
        (if 0 <? size then resize (m_mem m) size else m_mem m) (d_last d) (m_ret m) (d_world d) /\ cg = d_call d)
       by (split; congruence));
    destruct Q as [-> ->]; clear H; cbn [m_stack m_pc m_ret m_mem m_last m_gas set_gas m_world];
    destruct (mem_words_spec _ _ _ Ms) as (s0 & w & Es & Ew & _ & Lu & Z0);
    destruct (dynamic_cost _ F (set_gas m (m_gas m - g)) size d w OK Ew Lu
       ltac:(intros X; rewrite (U X) in Es; assert (s0 = 0) by (cbn in Es; congruence); auto)
       ltac:(cbn [m_gas set_gas]; lia) Dy ltac:(cbn [m_gas set_gas]; lia)) as (fee & Mg & Cost & Call);
    cbn [m_mem m_last set_gas m_stack] in Mg, Cost;
    destruct (mem_gas_spec _ _ _ _ _ w OK Ew Lu Mg) as (Lst & OK' & _ & L37);
    (do 3 (split; [reflexivity|])); (split; [exact OK'|]); (split; [lia|]);
    (split; [intros X; apply Call; intros c Ec; try discriminate Ec;
             destruct i as [|o|o|o| |o|o|o| | | | | | | | | |n'|n'|n'|n'| | |k0| | | |]; cbn in Dk; try discriminate; try contradiction;
             destruct o || destruct k0; cbn in Dk; discriminate|]);
    exists size, d; (split; [reflexivity|]); (split; [reflexivity|]); (split; [exact L37|]);
    (split; [exact Dy|]); (split; [reflexivity|]); (split; [exact Hc|]); (split; [lia|]); split; [reflexivity|split; lia].
Qed.

Variable B : block.
Variable is_pre : N -> bool.
Variable pre_gas : N -> bytes -> N.
Variable pre_run : bool -> N -> N -> bytes -> N -> N -> world -> bytes * option verr * N * world.
Variable call_allowed : N -> N -> bool.
Variable create_allowed : N -> bool.

Let exec := exec keccak committed B is_pre pre_gas pre_run call_allowed create_allowed.
Let step := step keccak committed B is_pre pre_gas pre_run call_allowed create_allowed.
Let execute := execute keccak committed B is_pre pre_gas pre_run call_allowed create_allowed.

Lemma step_canon rec F m : exists i g, instr_ok i = true /\ gas_min i <= g /\
  step rec F m = match pay keccak committed F m (canon i g) with
                 | inr r => r | inl (m', cg) => execute rec F m' cg i end.
Proof.
  destruct (operation_canon (get_op (f_code F) (m_pc m))) as (i & g & E & Ei & I & G).
  exists i, g. split; [exact I|]. split; [exact G|]. unfold step, Interp.step. rewrite Ei, E. reflexivity.
Qed.

(* a failed payment: an error without a change, or a panic *)
Lemma pay_inr F m o r : pay keccak committed F m o = inr r ->
  r = SPanic \/ exists e g, r = SDone (Out [] (Some e) g (m_world m)) /\ g <= m_gas m /\ reverted e = false.
Proof.
  assert (D : forall e g, g <= m_gas m -> reverted e = false -> inr (SDone (Out [] (Some e) g (m_world m))) = inr r :> (mach * N) + sres ->
    r = SPanic \/ exists e g, r = SDone (Out [] (Some e) g (m_world m)) /\ g <= m_gas m /\ reverted e = false).
  { intros e g L Re [= <-]. right. exists e, g. auto. }
  unfold pay, fail.
  destruct (_ <? op_min o); [apply D; [lia|reflexivity]|].
  destruct (op_max o <? _); [apply D; [lia|reflexivity]|].
  destruct (m_gas m <? op_gas o); [apply D; [lia|reflexivity]|].
  set (m1 := set_gas m (m_gas m - op_gas o)).
  assert (L1 : m_gas m1 <= m_gas m) by (cbn; lia). change (m_world m) with (m_world m1) in D |- *.
  assert (K : forall k, match mem_words (op_mem o) (m_stack m) with
      | Ok size => match dynamic keccak committed k F m1 size with
         | Ok d => if m_gas m1 <? d_cost d then inr (SDone (Out [] (Some EOutOfGas) (m_gas m1) (m_world m1)))
                   else inl (Mach (m_pc m) (m_gas m1 - d_cost d) (m_stack m)
                         (if 0 <? size then resize (m_mem m) size else m_mem m) (d_last d) (m_ret m) (d_world d), d_call d)
         | Err => inr (SDone (Out [] (Some EOutOfGas) (m_gas m1) (m_world m1)))
         | Panic => inr SPanic end
      | Err => inr (SDone (Out [] (Some EGasOverflow) (m_gas m1) (m_world m1)))
      | Panic => inr SPanic end = inr r :> (mach * N) + sres ->
    r = SPanic \/ exists e g, r = SDone (Out [] (Some e) g (m_world m1)) /\ g <= m_gas m /\ reverted e = false).
  { intros k. destruct (mem_words _ _) as [size| |].
    - destruct (dynamic _ _ k F m1 size) as [d| |].
      + destruct (_ <? _); [apply D; [exact L1|reflexivity]|discriminate].
      + apply D; [exact L1|reflexivity].
      + intros [= <-]. auto.
    - apply D; [exact L1|reflexivity].
    - intros [= <-]. auto. }
  destruct (op_dyn o); [discriminate|apply K..].
Qed.

(* r comes back with at most g gas, and runs out of n steps only if g allows for n *)
Definition xle (n : nat) (g : N) (r : xres) : Prop :=
  match r with XOut o => o_gas o <= g | XPanic => True | XFuel => N.of_nat n <= g end.

Definition rec_le (n : nat) (rec : frame -> mach -> xres) : Prop :=
  forall F m, mem_ok (m_mem m) (m_last m) -> m_gas m < U64 -> xle n (m_gas m) (rec F m).

Lemma start_ok gas w : mem_ok (m_mem (start gas w)) (m_last (start gas w)).
Proof. exists 0. repeat split. Qed.

Lemma xle_settle n g w r : xle n g r -> xle n g (settle w r).
Proof. destruct r as [[ret [e|] gg ww]| |]; cbn; auto. intros H. destruct (reverted e); lia. Qed.
Lemma xle_run n rec F gas w : rec_le n rec -> gas < U64 -> xle n gas (run_frame rec F gas w).
Proof.
  intros R G. unfold run_frame. destruct (f_code F); [cbn; lia|].
  apply (R F (start gas w)); [apply start_ok|exact G].
Qed.
Lemma xle_pre n ro c a input gas v w : xle n gas (precompile pre_gas pre_run ro c a input gas v w).
Proof.
  unfold precompile. destruct (_ <? _); [cbn; lia|].
  destruct (pre_run _ _ _ _ _ _ _) as [[[ret err] used] w']. cbn. lia.
Qed.
Lemma xle_deposit n g a r : xle n g r -> xle n g (deposit keccak committed a r).
Proof.
  destruct r as [[ret [e|] gg ww]| |]; cbn [deposit xle]; auto. cbn [o_gas]. intros H.
  destruct (_ <? _); [exact H|].
  assert (X : xle n g (if gg <? blen ret * 200 then XOut (Out ret (Some ECodeStore) gg ww)
     else XOut (Out ret None (gg - blen ret * 200) (set_code keccak committed ww a ret)))).
  { destruct (_ <? _); cbn; lia. }
  destruct ret as [|b ret]; [exact X|].
  destruct b as [|b]; [exact X|]. repeat (destruct b as [b|b|]; try exact X). cbn; lia.
Qed.

Lemma xle_call n rec ro d c a input gas v w : rec_le n rec -> gas < U64 ->
  xle n gas (evm_call keccak committed is_pre pre_gas pre_run call_allowed rec ro d c a input gas v w).
Proof.
  intros R G. unfold evm_call, refuse.
  repeat match goal with |- context [if ?b then XOut _ else _] => destruct b; [cbn; lia|] end.
  apply xle_settle. destruct (is_pre a); [apply xle_pre|apply xle_run; assumption].
Qed.
Lemma xle_callcode n rec ro d s a input gas v w : rec_le n rec -> gas < U64 ->
  xle n gas (evm_callcode is_pre pre_gas pre_run call_allowed rec ro d s a input gas v w).
Proof.
  intros R G. unfold evm_callcode, refuse.
  repeat match goal with |- context [if ?b then XOut _ else _] => destruct b; [cbn; lia|] end.
  apply xle_settle. destruct (is_pre a); [apply xle_pre|apply xle_run; assumption].
Qed.
Lemma xle_delegate n rec ro d s c v a input gas w : rec_le n rec -> gas < U64 ->
  xle n gas (evm_delegate is_pre pre_gas pre_run call_allowed rec ro d s c v a input gas w).
Proof.
  intros R G. unfold evm_delegate, refuse.
  repeat match goal with |- context [if ?b then XOut _ else _] => destruct b; [cbn; lia|] end.
  apply xle_settle. destruct (is_pre a); [apply xle_pre|apply xle_run; assumption].
Qed.
Lemma xle_static n rec d c a input gas w : rec_le n rec -> gas < U64 ->
  xle n gas (evm_static keccak committed is_pre pre_gas pre_run call_allowed rec d c a input gas w).
Proof.
  intros R G. unfold evm_static, refuse.
  repeat match goal with |- context [if ?b then XOut _ else _] => destruct b; [cbn; lia|] end.
  apply xle_settle. destruct (is_pre a); [apply xle_pre|apply xle_run; assumption].
Qed.
Lemma xle_create n rec ro d c a init gas v w : rec_le n rec -> gas < U64 ->
  xle n gas (evm_create keccak committed create_allowed rec ro d c a init gas v w).
Proof.
  intros R G. unfold evm_create, refuse.
  repeat match goal with |- context [if ?b then XOut _ else _] => destruct b; [cbn; lia|] end.
  apply xle_settle, xle_deposit, xle_run; assumption.
Qed.

Definition sle (n : nat) (m : mach) (r : sres) : Prop :=
  match r with
  | SNext m' => m_gas m' < m_gas m /\ mem_ok (m_mem m') (m_last m')
  | SDone o => o_gas o <= m_gas m
  | SPanic => True
  | SFuel => N.of_nat n < m_gas m
  end.

Lemma after_call_le n m0 m st ro rs g r :
  xle n g r -> m_gas m + g < m_gas m0 -> m_gas m0 < U64 -> mem_ok (m_mem m) (m_last m) ->
  sle n m0 (after_call m st ro rs r).
Proof.
  intros X G U OK. destruct r as [[ret err gas w]| |]; cbn [xle o_gas] in X; cbn [after_call sle]; [|auto|lia].
  assert (E : forall mem, blen mem = blen (m_mem m) -> sle n m0
    (SNext (Mach (m_pc m + 1) ((m_gas m + gas) mod U64) (match err with None => 1 | Some _ => 0 end :: st) mem (m_last m) ret w))).
  { intros mem L. cbn [sle m_gas m_mem m_last]. rewrite N.mod_small by lia. split; [lia|].
    destruct OK as (v & A & C & D). exists v. rewrite L. auto. }
  destruct (match err with None => true | Some e => reverted e end).
  - destruct (mset _ _ _ _) as [mem| |] eqn:M; [|exact Logic.I|exact Logic.I]. apply E. eapply mset_len, M.
  - apply E. reflexivity.
Qed.

Lemma after_create_le n m0 m st a g r :
  xle n g r -> m_gas m + g < m_gas m0 -> m_gas m0 < U64 -> mem_ok (m_mem m) (m_last m) ->
  sle n m0 (after_create m st a r).
Proof.
  intros X G U OK. destruct r as [[ret err gas w]| |]; cbn [xle o_gas] in X; cbn [after_create sle]; [|auto|lia].
  cbn [m_gas m_mem m_last]. rewrite N.mod_small by lia. split; [lia|exact OK].
Qed.

(* local instructions keep the length of the memory *)
Lemma local_mem F m i st mem pc : local keccak B F m i = Some (Ok (st, mem, pc)) -> blen mem = blen (m_mem m).
Proof.
  destruct i as [|o|o|o| |o|o|o| | | | | | | | | |n'|n'|n'|n'| | |k0| | | |]; cbn [local]; intros H;
  repeat match type of H with
  | context [match ?l with [] => _ | _ :: _ => _ end] => destruct l; try discriminate H
  | context [match ?l with KCall => _ | _ => _ end] => destruct l; try discriminate H
  | context [if ?b then _ else _] => destruct b; try discriminate H
  | Some (rbind ?r _) = _ => let E := fresh in destruct r eqn:E; cbn [rbind] in H; try discriminate H
  | context [match ?l with Some _ => _ | None => _ end] => destruct l; try discriminate H
  | Some (Ok (_, ?x, _)) = Some (Ok (_, ?y, _)) => assert (y = x) by congruence; clear H; subst
  end; try discriminate H; try reflexivity; try (eapply mset_len; eassumption).
Qed.

Lemma execute_le n rec F m0 m cg i :
  rec_le n rec -> m_gas m0 < U64 -> mem_ok (m_mem m) (m_last m) ->
  gas_min i + dyn_min (dyn_of i) + cg + extra (dyn_of i) (m_stack m) + m_gas m <= m_gas m0 ->
  sle n m0 (execute rec F m cg i).
Proof.
  intros R U OK G. unfold execute, Interp.execute.
  destruct (local keccak B F m i) as [[[[st mem] pc]| |]|] eqn:L.
  - cbn [sle m_gas m_mem m_last]. split.
    + assert (1 <= gas_min i + dyn_min (dyn_of i)); [|lia].
      destruct i as [|o|o|o| |o|o|o| | | | | | | | | |n'|n'|n'|n'| | |k0| | | |]; cbn in L |- *; try discriminate; try lia;
        destruct o || destruct k0; cbn; lia.
    + apply local_mem in L. destruct OK as (v & A & C & D). exists v. rewrite L. auto.
  - cbn. lia.
  - exact Logic.I.
  - assert (EX : forall k v, (k = KCall \/ k = KCallCode) -> i = ICall k -> nth_error (m_stack m) 2 = Some v ->
        m_gas m + (if v =? 0 then cg else (cg + 2300) mod U64) < m_gas m0 /\ (if v =? 0 then cg else (cg + 2300) mod U64) < U64).
    { intros k v Hk -> E. assert (X : extra (dyn_of (ICall k)) (m_stack m) = if v =? 0 then 0 else 9000).
      { destruct Hk as [-> | ->]; cbn [extra dyn_of]; rewrite E; reflexivity. }
      rewrite X in G. cbn [gas_min dyn_of dyn_min] in G. destruct (v =? 0); [lia|].
      rewrite N.mod_small by lia. lia. }
    destruct i as [|o|o|o| |o|o|o| | | | | | | | | |n'|n'|n'|n'| | |k0| | | |]; cbn [gas_min ends dyn_of dyn_min extra] in G;
    repeat match goal with
    | |- sle _ _ (match ?l with [] => _ | _ :: _ => _ end) => destruct l eqn:?; try exact Logic.I
    | |- sle _ _ (match ?l with KCall => _ | _ => _ end) => destruct l; try exact Logic.I
    | |- sle _ _ (if ?b then fail _ _ else _) => destruct b; [cbn; lia|]
    | |- sle _ _ (if ?b then SPanic else _) => destruct b; [exact Logic.I|]
    | |- sle _ _ (match mget ?a ?b ?c with Ok _ => _ | _ => _ end) => destruct (mget a b c); try exact Logic.I
    end; try exact Logic.I; try (cbn; lia); try discriminate L;
    try (cbn [sle m_gas m_mem m_last]; split; [lia|exact OK]).
    + eapply after_create_le with (g := m_gas m - m_gas m / 64); [apply xle_create; [exact R|]| | |exact OK]; try exact U.
      * lia.
      * cbn [m_gas set_gas]. assert (m_gas m / 64 <= m_gas m) by (apply N.div_le_upper_bound; lia). lia.
    + eapply after_create_le with (g := m_gas m - m_gas m / 64); [apply xle_create; [exact R|]| | |exact OK]; try exact U.
      * lia.
      * cbn [m_gas set_gas]. assert (m_gas m / 64 <= m_gas m) by (apply N.div_le_upper_bound; lia). lia.
    + destruct (EX KCall n2 ltac:(auto) eq_refl eq_refl) as [E1 E2].
      eapply after_call_le; [apply xle_call; [exact R|exact E2]|exact E1|exact U|exact OK].
    + destruct (EX KCallCode n2 ltac:(auto) eq_refl eq_refl) as [E1 E2].
      eapply after_call_le; [apply xle_callcode; [exact R|exact E2]|exact E1|exact U|exact OK].
    + eapply after_call_le; [apply xle_delegate; [exact R|]| |exact U|exact OK]; lia.
    + eapply after_call_le; [apply xle_static; [exact R|]| |exact U|exact OK]; lia.
Qed.

Lemma step_le n rec F m : rec_le n rec -> mem_ok (m_mem m) (m_last m) -> m_gas m < U64 -> sle n m (step rec F m).
Proof.
  intros R OK G. destruct (step_canon rec F m) as (i & g & _ & Gm & ->).
  destruct (pay _ _ F m (canon i g)) as [[m' cg]|r] eqn:P.
  - destruct (pay_inl _ _ _ _ _ _ P Gm OK G) as (_ & _ & S & _ & _ & OK' & C & _).
    apply execute_le; auto. rewrite S. exact C.
  - destruct (pay_inr _ _ _ _ P) as [-> | (e & gg & -> & L & _)]; [exact Logic.I|exact L].
Qed.

(* Every run with more steps allowed than gas ends by itself, and none gives back more gas than it got. *)
Lemma exec_le n : rec_le n (exec n).
Proof.
  induction n as [|n IH]; intros F m OK G; [cbn; lia|].
  change (xle (S n) (m_gas m) (match step (exec n) F m with
    | SNext m' => exec n F m' | SDone o => XOut o | SPanic => XPanic | SFuel => XFuel end)).
  assert (X := step_le n (exec n) F m IH OK G).
  destruct (step (exec n) F m) as [m'|o| |]; cbn [sle] in X.
  - destruct X as [L OK']. assert (Y := IH F m' OK' ltac:(lia)).
    destruct (exec n F m') as [o'| |]; cbn [xle] in *; lia.
  - exact X.
  - exact Logic.I.
  - cbn [xle]. lia.
Qed.

Lemma execute_last rec F m cg i m' : execute rec F m cg i = SNext m' -> m_last m' = m_last m.
Proof.
  assert (K : forall pc gas st mem ret w m', SNext (Mach pc gas st mem (m_last m) ret w) = SNext m' -> m_last m' = m_last m)
    by (intros; match goal with X : SNext _ = SNext _ |- _ => injection X as <- end; reflexivity).
  assert (A : forall st ro rs r m', after_call m st ro rs r = SNext m' -> m_last m' = m_last m).
  { intros st ro rs [[ret err gas w]| |] mm; cbn [after_call]; try discriminate.
    match goal with |- context [match ?x with Ok _ => _ | _ => _ end] => destruct x as [mem| |] end; try discriminate. apply K. }
  assert (A2 : forall (g : N) (st : list N) (a : N) (r : xres) m', after_create (set_gas m g) st a r = SNext m' -> m_last m' = m_last m).
  { intros g st a [[ret err gas w]| |] mm; cbn [after_create]; try discriminate. apply K. }
  unfold execute, Interp.execute. destruct (local keccak B F m i) as [[[[st mem] pc]| |]|]; try discriminate; [apply K|].
  destruct i as [|o|o|o| |o|o|o| | | | | | | | | |n'|n'|n'|n'| | |k0| | | |]; intros H;
  repeat match type of H with
  | match ?l with [] => _ | _ :: _ => _ end = _ => destruct l; try discriminate H
  | match ?l with KCall => _ | _ => _ end = _ => destruct l; try discriminate H
  | (if ?b then _ else _) = _ => destruct b; try discriminate H
  | match ?x with Ok _ => _ | _ => _ end = _ => destruct x; try discriminate H
  end; try discriminate H; try (eapply K, H); try (eapply A, H); try (eapply A2, H).
Qed.

(* memory is bought once, out of the gas of the frame *)
Lemma step_paid n rec F m m' : rec_le n rec -> mem_ok (m_mem m) (m_last m) -> m_gas m < U64 ->
  step rec F m = SNext m' -> m_last m <= m_last m' /\ m_gas m' + m_last m' < m_gas m + m_last m.
Proof.
  intros R OK G. destruct (step_canon rec F m) as (i & g & _ & Gm & ->).
  destruct (pay _ _ F m (canon i g)) as [[m1 cg]|r] eqn:P.
  - destruct (pay_inl _ _ _ _ _ _ P Gm OK G) as (_ & _ & S & _ & _ & OK' & _ & _ & size & d & _ & _ & _ & _ & _ & _ & _ & _ & Ll & C).
    intros E. assert (L := execute_last _ _ _ _ _ _ E). rewrite L. split; [exact Ll|].
    assert (X := execute_le n rec F (set_gas m (m_gas m + m_last m - m_last m1)) m1 cg i R).
    cbn [m_gas set_gas] in X. rewrite S in X. specialize (X ltac:(lia) OK' ltac:(lia)). rewrite E in X. cbn [sle] in X.
    destruct X as [X _]. cbn [m_gas set_gas] in X. lia.
  - intros ->. destruct (pay_inr _ _ _ _ P) as [Q | (e & gg & Q & L & _)]; discriminate Q.
Qed.

(* how many entries a local instruction leaves on the stack *)
Lemma local_stack F m i st mem pc : instr_ok i = true -> local keccak B F m i = Some (Ok (st, mem, pc)) ->
  N.of_nat (length st) + pops i = N.of_nat (length (m_stack m)) + pushes i.
Proof.
  assert (Sw : forall n l l', swap n l = Ok l' -> (1 <= n)%nat -> length l' = length l).
  { intros n l l'. unfold swap. destruct l as [|x l]; [discriminate|]. destruct (nth_error (x :: l) n) eqn:E; [|discriminate].
    intros [= <-] Hn. apply nth_error_Some_lt in E || (assert (n < length (x :: l))%nat by (apply nth_error_Some; congruence)).
    cbn [length] in *. rewrite app_length, firstn_length. cbn [length]. rewrite skipn_length. lia. }
  intros I. destruct m as [pc0 gas st0 mem0 last ret w].
  destruct i as [|o|o|o| |o|o|o| | | | | | | | | |n'|n'|n'|n'| | |k0| | | |]; cbn [local m_stack m_mem m_pc m_world]; intros H; cbn [pops pushes];
  repeat match type of H with
  | context [match ?l with [] => _ | _ :: _ => _ end] => destruct l; try discriminate H
  | context [match ?l with KCall => _ | _ => _ end] => destruct l; try discriminate H
  | context [if ?b then _ else _] => destruct b; try discriminate H
  | Some (rbind ?r _) = _ => let E := fresh "E" in destruct r eqn:E; cbn [rbind] in H; try discriminate H
  | context [match ?l with Some _ => _ | None => _ end] => destruct l; try discriminate H
  | Some (Ok (?x, _, _)) = Some (Ok (?y, _, _)) => assert (y = x) by congruence; clear H; subst
  end; try discriminate H; cbn [length]; try lia.
  apply Sw in E; [lia|]. cbn in I. apply andb_prop in I. destruct I as [I _]. now apply Nat.leb_le.
Qed.

Lemma execute_stack rec F m cg i m' : instr_ok i = true -> execute rec F m cg i = SNext m' ->
  N.of_nat (length (m_stack m')) + pops i = N.of_nat (length (m_stack m)) + pushes i.
Proof.
  intros I.
  assert (K : forall pc gas st mem ret w m', SNext (Mach pc gas st mem (m_last m) ret w) = SNext m' -> m_stack m' = st)
    by (intros; match goal with X : SNext _ = SNext _ |- _ => injection X as <- end; reflexivity).
  assert (A : forall st ro rs r m', after_call m st ro rs r = SNext m' -> length (m_stack m') = S (length st)).
  { intros st ro rs [[ret err gas w]| |] mm; cbn [after_call]; try discriminate.
    match goal with |- context [match ?x with Ok _ => _ | _ => _ end] => destruct x as [mem| |] end; try discriminate. intros H. apply K in H. rewrite H. reflexivity. }
  assert (A2 : forall (g : N) (st : list N) (a : N) (r : xres) m', after_create (set_gas m g) st a r = SNext m' -> length (m_stack m') = S (length st)).
  { intros g st a [[ret err gas w]| |] mm; cbn [after_create]; try discriminate. intros H. apply K in H. rewrite H. reflexivity. }
  unfold execute, Interp.execute. destruct (local keccak B F m i) as [[[[st mem] pc]| |]|] eqn:Lo; try discriminate.
  { intros H. apply K in H. rewrite H. eapply local_stack; eassumption. }
  destruct i as [|o|o|o| |o|o|o| | | | | | | | | |n'|n'|n'|n'| | |k0| | | |]; intros H;
  destruct (m_stack m) as [|x0 st0]; try discriminate H;
  repeat match type of H with
  | match ?l with [] => _ | _ :: _ => _ end = _ => destruct l; try discriminate H
  | match ?l with KCall => _ | _ => _ end = _ => destruct l; try discriminate H
  | (if ?b then _ else _) = _ => destruct b eqn:?; try discriminate H
  | match ?x with Ok _ => _ | _ => _ end = _ => destruct x; try discriminate H
  end; try discriminate H; cbn [pops pushes]; try (apply A in H; cbn [length] in *; lia); try (apply A2 in H; cbn [length] in *; lia);
  apply K in H; rewrite H; cbn [length]; try lia.
  rewrite skipn_length. match goal with X : (_ <? _)%nat = false |- _ => apply Nat.ltb_ge in X end. lia.
Qed.

Lemma step_stack n rec F m m' : rec_le n rec -> mem_ok (m_mem m) (m_last m) -> m_gas m < U64 ->
  step rec F m = SNext m' -> N.of_nat (length (m_stack m')) <= 1024.
Proof.
  intros R OK G. destruct (step_canon rec F m) as (i & g & I & Gm & ->).
  destruct (pay _ _ F m (canon i g)) as [[m1 cg]|r] eqn:P.
  - destruct (pay_inl _ _ _ _ _ _ P Gm OK G) as (P1 & P2 & S & _). intros E. apply execute_stack in E; [|exact I]. rewrite S in E. lia.
  - intros ->. destruct (pay_inr _ _ _ _ P) as [Q | (e & gg & Q & L & _)]; discriminate Q.
Qed.
End Evm.
