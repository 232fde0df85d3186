(* What the properties of contract execution are stated with. *)
From Verif Require Import Lib.Base Lib.Bytes Evm.Words Evm.World Evm.Memory Evm.Interp.
Open Scope N_scope.

(* the world at the start of a transaction: code is bytes, nothing to refund
   yet, storage is what the chain holds *)
Definition fresh (committed : N -> N -> N) (w : world) : Prop :=
  (forall a, is_bytes (code w a) /\ blen (code w a) < 2 ^ 63) /\ w_refund w = 0 /\
  (forall a k, exist w a = true -> state w a k = committed a k).

(* a call or creation that can be sent: bytes as input, and so little gas that
   the refund counter (64 bits) cannot overflow *)
Definition sendable (input : bytes) (gas : N) : Prop :=
  is_bytes input /\ blen input < 2 ^ 63 /\ 200 * gas < 2 ^ 63.

(* the machine states a frame goes through *)
Inductive reaches (stp : mach -> sres) : mach -> mach -> Prop :=
| R_start m : reaches stp m m
| R_next m m1 m2 : reaches stp m m1 -> stp m1 = SNext m2 -> reaches stp m m2.

(* Built-in contracts return bytes, and one that ends without an error does not
   write the storage of contracts, install code, change the refund counter or
   make accounts vanish. *)
Definition polite (committed : N -> N -> N) (is_pre : N -> bool)
    (pre_run : bool -> N -> N -> bytes -> N -> N -> world -> bytes * option verr * N * world) : Prop :=
  forall ro s a input g v w ret err used w2, pre_run ro s a input g v w = (ret, err, used, w2) ->
    is_bytes ret /\
    (is_pre a = true -> err = None ->
       w_refund w2 = w_refund w /\
       (forall b, exist w b = true -> exist w2 b = true) /\ (forall b, w_addr w b = true -> w_addr w2 b = true) /\
       (forall b, code w2 b = code w b) /\
       (forall b k, exist w2 b = true -> state w2 b k = if exist w b then state w b k else committed b k)).

(* The world during a transaction: codes are bytes; the refund counter holds at
   least what was added for slots that are empty now and were not on the chain,
   and cannot overflow with the gas that is left. *)
Definition healthy (committed : N -> N -> N) (w : world) (gas : N) : Prop :=
  (forall a, is_bytes (code w a) /\ blen (code w a) < 2 ^ 63) /\
  (forall slots, NoDup slots ->
     Forall (fun p => exist w (fst p) = true /\ committed (fst p) (snd p) <> 0 /\ state w (fst p) (snd p) = 0) slots ->
     4800 * N.of_nat (length slots) <= w_refund w) /\
  w_refund w + 200 * gas < 2 ^ 63.
