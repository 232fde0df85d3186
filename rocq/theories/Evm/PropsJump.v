(* C89: where a contract may jump.  Analysis.v models the bit vector the
   program computes; AnalysisSpec.v says what instructions are. *)
From Coq Require Import NArith Nnat.
From Verif Require Import Lib.Base Lib.Bytes Evm.Analysis Evm.AnalysisSpec Evm.AnalysisProofs.
Open Scope N_scope.

Definition is_code (code : bytes) : Prop := Forall (fun b => b < 256) code /\ N.of_nat (length code) < 2 ^ 64.

(* For every code and every 256-bit number: the question is answered without a crash, and a jump is
   allowed exactly to a JUMPDEST that is an instruction. *)
Theorem C89_jump code dest : is_code code ->
  exists ok, valid_jumpdest code dest = Ok ok /\ (ok = true <-> destination code (N.to_nat dest)).
Proof. intros [H L]. now apply jump_ok. Qed.

(* The analysis itself: it never writes outside its bit vector, whatever the code ends with, and
   tells instructions from data at every position. *)
Theorem C89_analysis code : is_code code ->
  exists bits, code_bitmap code = Ok bits /\
    forall p, p < N.of_nat (length code) ->
      exists is_instr, code_segment bits p = Ok is_instr /\
        (is_instr = true <-> instruction code (N.to_nat p)) /\ (is_instr = false <-> data code (N.to_nat p)).
Proof.
  intros [H L]. destruct (bitmap_ok code H) as (b & E & Lb & B). exists b. split; [exact E|].
  intros p Hp. exists (negb (bit b p)). split.
  - apply segment_bit. rewrite Lb.
    assert (p / 8 <= N.of_nat (length code) / 8) by (apply N.div_le_mono; lia).
    rewrite Nat2N.inj_add, Nat2N.inj_div. change (N.of_nat 8) with 8. lia.
  - specialize (B (N.to_nat p) ltac:(lia)). rewrite N2Nat.id in B.
    assert (X := data_not_instruction code (N.to_nat p)).
    assert (Y := not_data_instruction code (N.to_nat p) ltac:(lia)).
    destruct (bit b p); cbn; intuition congruence.
Qed.

(* Instructions and data never overlap, so both answers above cannot hold at once. *)
Theorem C89_disjoint code p : instruction code p -> ~ data code p.
Proof. intros H D. exact (data_not_instruction code p D H). Qed.

(* Running from an instruction stays on instructions: what the interpreter does after an
   instruction that is no jump. *)
Theorem C89_next code p op : instruction code p -> nth_error code p = Some op ->
  instruction code (p + 1 + push_data op).
Proof. intros H E. econstructor; eauto. Qed.

(* PUSH2 0x5b5b JUMPDEST PUSH32 0x5b (cut off at the end of the code): position 3 is the only
   place to land *)
Definition tricky : bytes := [0x61; 0x5b; 0x5b; 0x5b; 0x7f; 0x5b].
Example C89_tricky : is_code tricky /\
  map (valid_jumpdest tricky) [0; 1; 2; 3; 4; 5; 6; 2 ^ 64 + 3] =
  [Ok false; Ok false; Ok false; Ok true; Ok false; Ok false; Ok false; Ok false] /\
  destination tricky 3 /\ data tricky 5.
Proof.
  split; [split; [repeat constructor|vm_compute; reflexivity]|].
  split; [vm_compute; reflexivity|].
  assert (I3 : instruction tricky 3) by (apply (next_instruction tricky 0 0x61); [constructor|reflexivity]).
  split; [split; [exact I3|reflexivity]|].
  exists 4%nat, 0x7f. split; [apply (next_instruction tricky 3 0x5b); [exact I3|reflexivity]|].
  split; [reflexivity|]. vm_compute. lia.
Qed.

Print Assumptions C89_jump.
Print Assumptions C89_analysis.
Print Assumptions C89_disjoint.
Print Assumptions C89_next.
