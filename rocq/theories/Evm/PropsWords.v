(* C97: the arithmetic instructions compute what the specification says. *)
From Coq Require Import NArith Nnat.
From Verif Require Import Lib.Base Lib.Bytes Evm.Words Evm.World Evm.Memory Evm.Table Evm.Interp Evm.WordSpec Evm.WordProofs
  Evm.Example.
Open Scope N_scope.

(* the next state: price paid, this stack, everything else as it was *)
Definition advance (m : mach) (price : N) (st : list N) : mach :=
  Mach (m_pc m + 1) (m_gas m - price) st (m_mem m) (m_last m) (m_ret m) (m_world m).
Definition out_of_gas (m : mach) : sres := SDone (Out [] (Some EOutOfGas) (m_gas m) (m_world m)).

Ltac pick := match goal with |- exists b, operation_of ?o = _ /\ _ =>
  let v := eval vm_compute in (op_exec (operation_of o)) in
  match v with IBin ?b => exists b | IUn ?b => exists b | ITer ?b => exists b end end.

Section Props.
Variable keccak : bytes -> N.
Variable committed : N -> N -> N.
Variable B : block.
Variable is_pre : N -> bool.
Variable pre_gas : N -> bytes -> N.
Variable pre_run : bool -> N -> N -> bytes -> N -> N -> world -> bytes * option verr * N * world.
Variable call_allowed : N -> N -> bool.
Variable create_allowed : N -> bool.
Variable rec : frame -> mach -> xres.
Let step := step keccak committed B is_pre pre_gas pre_run call_allowed create_allowed rec.

(* the instruction at the program counter *)
Definition runs (F : frame) (m : mach) (op : N) : Prop := nth_error (f_code F) (N.to_nat (m_pc m)) = Some op.
Lemma runs_get F m op : runs F m op -> get_op (f_code F) (m_pc m) = op.
Proof. intros H. unfold get_op. now apply nth_error_nth. Qed.

Lemma step_plain F m op i g pop push st' :
  runs F m op -> operation_of op = Table.op i g DNone pop push MNone ->
  pop <= N.of_nat (length (m_stack m)) -> N.of_nat (length (m_stack m)) + push <= 1024 + pop -> push <= 1024 + pop ->
  (forall m1, m_stack m1 = m_stack m -> m_pc m1 = m_pc m -> m_mem m1 = m_mem m ->
     local keccak B F m1 i = Some (Ok (st', m_mem m, m_pc m + 1))) ->
  (g <= m_gas m -> step F m = SNext (advance m g st')) /\ (m_gas m < g -> step F m = out_of_gas m).
Proof.
  intros R E L U P K. apply runs_get in R. unfold step, Interp.step. rewrite R, E. unfold pay, Table.op. cbn [op_min op_max op_gas op_dyn].
  destruct (N.ltb_spec (N.of_nat (length (m_stack m))) pop) as [Q|_]; [lia|].
  destruct (N.ltb_spec (1024 + pop - push) (N.of_nat (length (m_stack m)))) as [Q|_]; [lia|].
  destruct (N.ltb_spec (m_gas m) g) as [Q|Q]; split; intros Hg; try lia; [reflexivity|].
  unfold execute. cbn [op_exec]. rewrite (K (set_gas m (m_gas m - g)) eq_refl eq_refl eq_refl). reflexivity.
Qed.

(* C97.  An instruction with two operands replaces them by the value of its
   function, pays its price, goes to the next instruction and touches nothing else. *)
Theorem C97_binary op price f F m x y st :
  In (op, price, f) binaries -> runs F m op -> m_stack m = x :: y :: st -> N.of_nat (length (m_stack m)) <= 1024 ->
  x < 2 ^ 256 -> y < 2 ^ 256 ->
  exists r, Z.of_N r = f (Z.of_N x) (Z.of_N y) /\ r < 2 ^ 256 /\
    (price <= m_gas m -> step F m = SNext (advance m price (r :: st))) /\
    (m_gas m < price -> step F m = out_of_gas m).
Proof.
  intros I R S L X Y.
  assert (K : exists b, operation_of op = Table.op (IBin b) price DNone 2 1 MNone /\
    Z.of_N (run_bin b x y) = f (Z.of_N x) (Z.of_N y) /\ run_bin b x y < 2 ^ 256).
  { assert (W : forall r z, Z.of_N r = (z mod modulus)%Z -> r < 2 ^ 256).
    { intros r z Q. assert (Q2 := Z.mod_pos_bound z modulus eq_refl). change (2 ^ 256) with W256.
      assert (Q3 := W256_z). lia. }
    assert (Wf : forall b, flag b < 2 ^ 256) by (intros []; reflexivity).
    unfold binaries in I. cbn [In] in I.
    repeat (destruct I as [I|I]; [injection I as <- <- <-; pick; split; [reflexivity|] | ]); [..|contradiction]; cbn [run_bin].
    - split; [apply w_add_z|]. eapply W, w_add_z.
    - split; [apply w_mul_z|]. eapply W, w_mul_z.
    - split; [now apply w_sub_z|]. eapply W. now apply w_sub_z.
    - split; [apply w_div_z|]. unfold w_div. destruct (N.eqb_spec y 0); [reflexivity|].
      apply N.le_lt_trans with x; [|exact X]. apply N.div_le_upper_bound; [assumption|]. nia.
    - split; [apply w_sdiv_z|]. unfold w_sdiv. destruct (y =? 0); [reflexivity|]. eapply W, unsigned_z.
    - split; [apply w_mod_z|]. unfold w_mod. destruct (N.eqb_spec y 0); [reflexivity|].
      apply N.lt_trans with y; [apply N.mod_lt; assumption|exact Y].
    - split; [apply w_smod_z|]. unfold w_smod. destruct (y =? 0); [reflexivity|]. eapply W, unsigned_z.
    - split; [now apply w_signextend_z|]. assert (E := w_signextend_z x y Y). unfold extend in E.
      destruct (31 <=? Z.of_N x)%Z; [|eapply W, E]. apply N2Z.inj in E. rewrite E. exact Y.
    - split; [|apply Wf]. unfold w_lt. rewrite flag_z, ltb_z. reflexivity.
    - split; [|apply Wf]. unfold w_gt. rewrite flag_z, gtb_z. reflexivity.
    - split; [|apply Wf]. unfold w_slt. rewrite flag_z, !signed_z. reflexivity.
    - split; [|apply Wf]. unfold w_sgt. rewrite flag_z, !signed_z, Z.gtb_ltb. reflexivity.
    - split; [|apply Wf]. unfold w_eq. rewrite flag_z, eqb_z. reflexivity.
    - split; [apply land_z|now apply land_word].
    - split; [apply lor_z|now apply lor_word].
    - split; [apply lxor_z|now apply lxor_word].
    - split; [apply w_byte_z|]. unfold w_byte. destruct (x <? 32); [|reflexivity].
      apply N.lt_trans with 256; [apply N.mod_lt; discriminate|reflexivity].
    - split; [apply w_shl_z|]. eapply W, w_shl_z.
    - split; [now apply w_shr_z|]. unfold w_shr. destruct (x <? 256); [|reflexivity].
      apply N.le_lt_trans with y; [|exact Y]. apply N.div_le_upper_bound; [apply N.pow_nonzero; discriminate|].
      assert (Np : 2 ^ x <> 0) by (apply N.pow_nonzero; discriminate). set (q := 2 ^ x) in *. clearbody q. nia.
    - split; [now apply w_sar_z|]. eapply W. now apply w_sar_z. }
  destruct K as (b & E & Ev & Bd). exists (run_bin b x y). split; [exact Ev|]. split; [exact Bd|].
  apply (step_plain F m op (IBin b) price 2 1); auto; rewrite ?S; cbn [length]; try lia.
  - rewrite S in L. cbn [length] in L. lia.
  - intros m1 S1 P1 M1. unfold local. rewrite S1, P1, M1. reflexivity.
Qed.
Theorem C97_unary op price f F m x st :
  In (op, price, f) unaries -> runs F m op -> m_stack m = x :: st -> N.of_nat (length (m_stack m)) <= 1024 -> x < 2 ^ 256 ->
  exists r, Z.of_N r = f (Z.of_N x) /\ r < 2 ^ 256 /\
    (price <= m_gas m -> step F m = SNext (advance m price (r :: st))) /\
    (m_gas m < price -> step F m = out_of_gas m).
Proof.
  intros I R S L X.
  assert (K : exists b, operation_of op = Table.op (IUn b) price DNone 1 1 MNone /\
    Z.of_N (run_un b x) = f (Z.of_N x) /\ run_un b x < 2 ^ 256).
  { unfold unaries in I. cbn [In] in I.
    repeat (destruct I as [I|I]; [injection I as <- <- <-; pick; split; [reflexivity|] | ]); [..|contradiction]; cbn [run_un].
    - unfold w_iszero. split; [rewrite flag_z, eqb0_z; reflexivity|]. destruct (x =? 0); reflexivity.
    - split; [now apply w_not_z|]. unfold w_not. change (2 ^ 256) with W256. pose proof W256_pos. lia. }
  destruct K as (b & E & Ev & Bd). exists (run_un b x). split; [exact Ev|]. split; [exact Bd|].
  apply (step_plain F m op (IUn b) price 1 1); auto; rewrite ?S; cbn [length]; try lia.
  - rewrite S in L. cbn [length] in L. lia.
  - intros m1 S1 P1 M1. unfold local. rewrite S1, P1, M1. reflexivity.
Qed.
Theorem C97_ternary op price f F m x y z st :
  In (op, price, f) ternaries -> runs F m op -> m_stack m = x :: y :: z :: st -> N.of_nat (length (m_stack m)) <= 1024 ->
  z < 2 ^ 256 ->
  exists r, Z.of_N r = f (Z.of_N x) (Z.of_N y) (Z.of_N z) /\ r < 2 ^ 256 /\
    (price <= m_gas m -> step F m = SNext (advance m price (r :: st))) /\
    (m_gas m < price -> step F m = out_of_gas m).
Proof.
  intros I R S L X.
  assert (K : exists b, operation_of op = Table.op (ITer b) price DNone 3 1 MNone /\
    Z.of_N (run_ter b x y z) = f (Z.of_N x) (Z.of_N y) (Z.of_N z) /\ run_ter b x y z < 2 ^ 256).
  { unfold ternaries in I. cbn [In] in I.
    repeat (destruct I as [I|I]; [injection I as <- <- <-; pick; split; [reflexivity|] | ]); [..|contradiction]; cbn [run_ter].
    - split; [apply w_addmod_z|]. unfold w_addmod. destruct (N.eqb_spec z 0); [reflexivity|].
      apply N.lt_trans with z; [apply N.mod_lt; assumption|exact X].
    - split; [apply w_mulmod_z|]. unfold w_mulmod. destruct (N.eqb_spec z 0); [reflexivity|].
      apply N.lt_trans with z; [apply N.mod_lt; assumption|exact X]. }
  destruct K as (b & E & Ev & Bd). exists (run_ter b x y z). split; [exact Ev|]. split; [exact Bd|].
  apply (step_plain F m op (ITer b) price 3 1); auto; rewrite ?S; cbn [length]; try lia.
  - rewrite S in L. cbn [length] in L. lia.
  - intros m1 S1 P1 M1. unfold local. rewrite S1, P1, M1. reflexivity.
Qed.

(* EXP: x to the power y, at 10 and 50 for each byte of the exponent *)
Lemma byte_len_spec y : y < 256 ^ byte_len y /\ (byte_len y = 0 \/ 256 ^ (byte_len y - 1) <= y).
Proof.
  unfold byte_len. destruct (N.eq_dec y 0) as [E|E]; [subst; cbn; split; [reflexivity|auto]|].
  assert (P : forall k, 256 ^ k = 2 ^ (8 * k)) by (intros k; rewrite N.pow_mul_r; reflexivity).
  assert (S : N.size y = N.log2 y + 1) by (rewrite N.size_log2 by exact E; lia).
  destruct (N.log2_spec y ltac:(lia)) as [Lo Hi].
  assert (D := N.div_mod (N.size y + 7) 8 ltac:(discriminate)). assert (M := N.mod_lt (N.size y + 7) 8 ltac:(discriminate)).
  set (q := (N.size y + 7) / 8) in *. set (t := (N.size y + 7) mod 8) in *. clearbody q t. rewrite !P. split.
  - eapply N.lt_le_trans; [exact Hi|]. apply N.pow_le_mono_r; [discriminate|]. lia.
  - right. eapply N.le_trans; [|exact Lo]. apply N.pow_le_mono_r; [discriminate|]. lia.
Qed.
Theorem C97_exp F m x y st :
  runs F m 0x0a -> m_stack m = x :: y :: st -> N.of_nat (length (m_stack m)) <= 1024 -> y < 2 ^ 256 ->
  exists r k, Z.of_N r = (Z.of_N x ^ Z.of_N y mod 2 ^ 256)%Z /\ r < 2 ^ 256 /\
    y < 256 ^ k /\ (k = 0 \/ 256 ^ (k - 1) <= y) /\
    (10 + 50 * k <= m_gas m -> step F m = SNext (advance m (10 + 50 * k) (r :: st))) /\
    (m_gas m < 10 + 50 * k -> step F m = out_of_gas m).
Proof.
  intros R S L Y. exists (w_exp x y), (byte_len y). assert (E := w_exp_z x y). split; [exact E|].
  split. { assert (Q2 := Z.mod_pos_bound (Z.of_N x ^ Z.of_N y) modulus eq_refl). change (2 ^ 256) with W256.
    assert (Q3 := W256_z). lia. }
  destruct (byte_len_spec y) as [K1 K2]. split; [exact K1|]. split; [exact K2|].
  assert (K3 : byte_len y <= 32).
  { unfold byte_len. destruct (N.eq_dec y 0) as [E0|E0]; [subst; cbn; lia|]. rewrite N.size_log2 by exact E0.
    apply N.log2_lt_pow2 in Y; [|lia]. apply N.lt_succ_r. apply N.div_lt_upper_bound; [discriminate|]. lia. }
  apply runs_get in R. unfold step, Interp.step. rewrite R.
  change (operation_of 0x0a) with (Table.op (IBin BExp) 0 DExp 2 1 MNone). unfold pay, Table.op. cbn [op_min op_max op_gas op_dyn op_mem].
  rewrite S in *. cbn [length] in *.
  destruct (N.ltb_spec (N.of_nat (Datatypes.S (Datatypes.S (length st)))) 2) as [Q|_]; [lia|].
  destruct (N.ltb_spec (1024 + 2 - 1) (N.of_nat (Datatypes.S (Datatypes.S (length st))))) as [Q|_]; [lia|].
  destruct (N.ltb_spec (m_gas m) 0) as [Q|_]; [lia|].
  cbn [mem_words mem_size rbind]. unfold mem_words. cbn [mem_size rbind].
  change (safe_mul (word_size 0) 32) with (Ok 0). cbv beta iota. unfold dynamic.
  cbn [set_gas m_stack]. rewrite S. unfold back. cbn [nth_error rbind].
  unfold safe_add. destruct (N.leb_spec U64 (byte_len y * 50 + 10)) as [Q|_]; [change U64 with 18446744073709551616 in Q; lia|].
  cbn [rbind d_cost d_last d_world d_call m_gas]. rewrite N.sub_0_r.
  replace (byte_len y * 50 + 10) with (10 + 50 * byte_len y) by lia. unfold set_gas. cbn [m_gas m_last m_world].
  destruct (N.ltb_spec (m_gas m) (10 + 50 * byte_len y)) as [Q|Q]; split; intros Hg; try lia.
  - unfold fail, out_of_gas, set_gas. cbn [m_gas m_world]. rewrite ?N.sub_0_r. reflexivity.
  - unfold execute, local. cbn [op_exec m_stack]. reflexivity.
Qed.
End Props.

(* -7 / 2 = -3 and -7 mod 2 = -1 (towards zero), -7 >> 1 = -4, sign of byte 0xff extended *)
Definition minus7 : N := 2 ^ 256 - 7.
Definition calc1 (op x y : N) : option (N * N) :=
  match step xhash xcommitted xblock no_pre pre_cost pre_nothing all2 all1 (fun _ _ => XFuel)
    (Frame 0xA1 0xE0 0 [op] [] false 1) (Mach 0 100 [x; y; 99] [] 0 [] (xworld [])) with
  | SNext m => match m_stack m with r :: 99 :: nil => Some (r, m_gas m) | _ => None end
  | _ => None
  end.
Example C97_concrete :
  calc1 0x05 minus7 2 = Some (2 ^ 256 - 3, 95) /\ calc1 0x07 minus7 2 = Some (2 ^ 256 - 1, 95) /\
  calc1 0x1d 1 minus7 = Some (2 ^ 256 - 4, 97) /\ calc1 0x1d 300 minus7 = Some (2 ^ 256 - 1, 97) /\
  calc1 0x0b 0 0xff = Some (2 ^ 256 - 1, 95) /\ calc1 0x0b 1 0xff = Some (0xff, 95) /\
  calc1 0x03 3 5 = Some (2 ^ 256 - 2, 97) /\ calc1 0x0a 3 5 = Some (243, 40) /\ calc1 0x1a 31 0xabcd = Some (0xcd, 97).
Proof. vm_compute. repeat split. Qed.

Print Assumptions C97_binary.
Print Assumptions C97_unary.
Print Assumptions C97_ternary.
Print Assumptions C97_exp.
