(* Bytes, numbers and prices, for the instructions that move data. *)
From Verif Require Import Lib.Base Lib.Bytes Evm.World Evm.Memory Evm.Interp.
Open Scope N_scope.

(* byte i, 0 beyond the end *)
Definition byte_at (l : bytes) (i : N) : N := nth (N.to_nat i) l 0.
(* the number whose n bytes, highest first, are f 0 .. f (n-1) *)
Fixpoint number (f : N -> N) (n : nat) : N :=
  match n with O => 0 | S k => number f k * 256 + f (N.of_nat k) end.
(* byte i of the 32 bytes of a word *)
Definition word_byte (v i : N) : N := (v / 256 ^ (31 - i)) mod 256.
(* len bytes of l, starting at off *)
Definition area (l : bytes) (off len : N) : bytes :=
  map (fun i => byte_at l (off + N.of_nat i)) (seq 0 (N.to_nat len)).
(* l with the len bytes at off given by f *)
Definition patched (l l' : bytes) (off len : N) (f : N -> N) : Prop :=
  forall i, byte_at l' i = if (off <=? i) && (i <? off + len) then f (i - off) else byte_at l i.

(* the price of a memory of w words *)
Definition mem_total (w : N) : N := 3 * w + w * w / 512.
(* the memory is whole words, and the machine has recorded their price *)
Definition paid (m : mach) : Prop :=
  exists words, blen (m_mem m) = 32 * words /\ words < 2 ^ 32 /\ m_last m = mem_total words.

(* the end of the memory area an instruction uses: none if it is empty *)
Definition reach (off len : N) : N := if len =? 0 then 0 else off + len.
(* words of memory once the first hi bytes can be used *)
Definition words_for (m : mach) (hi : N) : N := N.max (blen (m_mem m) / 32) ((hi + 31) / 32).
(* there is gas for an instruction of this price, and for the memory it adds *)
Definition affordable (m : mach) (price hi : N) : Prop :=
  words_for m hi < 2 ^ 32 /\ price + mem_total (words_for m hi) <= m_gas m + m_last m.
(* the price is paid and the memory is as large as needed *)
Definition charged (m : mach) (price hi : N) (m' : mach) : Prop :=
  m_gas m' + price + mem_total (words_for m hi) = m_gas m + m_last m /\
  blen (m_mem m') = 32 * words_for m hi /\ paid m'.
(* the next instruction; return data and world as before *)
Definition moved (m m' : mach) : Prop :=
  m_pc m' = m_pc m + 1 /\ m_ret m' = m_ret m /\ m_world m' = m_world m.
(* the run ends with an error; what is left of the gas is lost, and the world is put back by the caller *)
Definition ends_badly (m : mach) (r : sres) : Prop := exists e g, r = SDone (Out [] (Some e) g (m_world m)) /\ reverted e = false.

(* instructions that push something about the call, the block or the machine: opcode, price, value *)
Definition environment (B : block) : list (N * N * (frame -> mach -> N)) := [
  (0x30, 2, fun F m => f_self F); (0x32, 2, fun F m => b_origin B); (0x33, 2, fun F m => f_caller F);
  (0x34, 2, fun F m => f_value F); (0x36, 2, fun F m => blen (f_input F)); (0x38, 2, fun F m => blen (f_code F));
  (0x3a, 2, fun F m => b_gasprice B); (0x3d, 2, fun F m => blen (m_ret m)); (0x41, 2, fun F m => b_coinbase B);
  (0x42, 2, fun F m => b_time B); (0x43, 2, fun F m => b_number B); (0x44, 2, fun F m => b_difficulty B);
  (0x45, 2, fun F m => b_gaslimit B); (0x46, 2, fun F m => b_chainid B); (0x48, 2, fun F m => b_basefee B);
  (0x58, 2, fun F m => m_pc m); (0x59, 2, fun F m => blen (m_mem m));
  (0x5a, 2, fun F m => m_gas m - 2)      (* GAS: what is left after its own price *)
].

(* EIP-2200 with EIP-2929 and EIP-3529: the price of setting a slot that holds
   current to value, when the transaction found original in it *)
Definition sstore_price (original current value : N) (cold : bool) : N :=
  (if cold then 2100 else 0) +
  (if current =? value then 100
   else if original =? current then if original =? 0 then 20000 else 2900
   else 100).
(* and by how much the refund counter changes: clearing a slot is rewarded, the reward taken back
   when the slot is filled again, and the difference given back when the original is restored *)
Definition sstore_refund (original current value : N) : Z :=
  let when (b : bool) (x : Z) : Z := if b then x else 0%Z in
  let clears := when (negb (original =? 0) && (value =? 0)) 4800%Z in
  let cleared := when (negb (original =? 0) && (current =? 0)) 4800%Z in
  let restores := when (negb (original =? current) && (original =? value)) (if original =? 0 then 19900%Z else 2800%Z) in
  if current =? value then 0%Z else (clears - cleared + restores)%Z.

(* the accounts and the logs stay, and the slot has been used *)
Definition slot_used (w w' : world) (a k : N) : Prop :=
  w_acct w' = w_acct w /\ w_logs w' = w_logs w /\ w_refund w' = w_refund w /\
  (forall b j, w_slot w' b j = w_slot w b j || ((b =? a) && (j =? k))).
(* likewise for an account *)
Definition account_used (w w' : world) (a : N) : Prop :=
  w_acct w' = w_acct w /\ w_logs w' = w_logs w /\ w_refund w' = w_refund w /\ w_slot w' = w_slot w /\
  (forall b, w_addr w' b = w_addr w b || (b =? a)).
(* one slot has a new value, and has been used; everything else about accounts stays *)
Definition stored (w w' : world) (a k v : N) : Prop :=
  (forall b j, state w' b j = if (b =? a) && (j =? k) then v else state w b j) /\
  (forall b, exist w' b = exist w b /\ balance w' b = balance w b /\ nonce w' b = nonce w b /\
             code w' b = code w b /\ code_hash w' b = code_hash w b) /\
  w_logs w' = w_logs w /\ (forall b j, w_slot w' b j = w_slot w b j || ((b =? a) && (j =? k))).
