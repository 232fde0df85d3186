(* What a reader of the Ethereum yellow paper calls the instructions of a
   code: start at position 0; after an instruction comes the byte behind it,
   or, when it is PUSHn, the byte behind its n bytes of data. *)
From Verif Require Import Lib.Base Lib.Bytes.
Open Scope N_scope.

(* how many bytes of data follow the instruction: PUSH1 is 0x60, PUSH32 0x7f *)
Definition push_data (op : N) : nat :=
  if (0x60 <=? op) && (op <=? 0x7f) then N.to_nat (op - 0x60 + 1) else O.

Inductive instruction (code : bytes) : nat -> Prop :=
| first_instruction : instruction code 0
| next_instruction i op :
    instruction code i -> nth_error code i = Some op -> instruction code (i + 1 + push_data op).

(* a jump may land on the instruction JUMPDEST, 0x5b *)
Definition destination (code : bytes) (p : nat) : Prop :=
  instruction code p /\ nth_error code p = Some 0x5b.

(* data of a PUSH *)
Definition data (code : bytes) (p : nat) : Prop :=
  exists i op, instruction code i /\ nth_error code i = Some op /\ (i < p <= i + push_data op)%nat.
