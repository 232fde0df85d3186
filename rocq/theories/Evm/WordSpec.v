(* The arithmetic instructions of the EVM as functions on integers: what the
   specification of the virtual machine says, without the machine's words. *)
From Verif Require Import Lib.Base.
Open Scope Z_scope.

Definition modulus : Z := 2 ^ 256.
(* two's complement *)
Definition as_signed (x : Z) : Z := if x <? 2 ^ 255 then x else x - modulus.
Definition truth (b : bool) : Z := if b then 1 else 0.
(* the sign of the number in the lowest k + 1 bytes, extended to the whole word *)
Definition extend (k x : Z) : Z :=
  if 31 <=? k then x
  else let m := 2 ^ (8 * (k + 1)) in
       let low := x mod m in
       (if low <? m / 2 then low else low - m) mod modulus.

(* opcode, price, function of the top of the stack and the entry below *)
Definition binaries : list (N * N * (Z -> Z -> Z)) := [
  (0x01%N, 3%N, fun x y => (x + y) mod modulus);
  (0x02%N, 5%N, fun x y => (x * y) mod modulus);
  (0x03%N, 3%N, fun x y => (x - y) mod modulus);
  (0x04%N, 5%N, fun x y => if y =? 0 then 0 else x / y);
  (0x05%N, 5%N, fun x y => if y =? 0 then 0 else Z.quot (as_signed x) (as_signed y) mod modulus);
  (0x06%N, 5%N, fun x y => if y =? 0 then 0 else x mod y);
  (0x07%N, 5%N, fun x y => if y =? 0 then 0 else Z.rem (as_signed x) (as_signed y) mod modulus);
  (0x0b%N, 5%N, extend);
  (0x10%N, 3%N, fun x y => truth (x <? y));
  (0x11%N, 3%N, fun x y => truth (x >? y));
  (0x12%N, 3%N, fun x y => truth (as_signed x <? as_signed y));
  (0x13%N, 3%N, fun x y => truth (as_signed x >? as_signed y));
  (0x14%N, 3%N, fun x y => truth (x =? y));
  (0x16%N, 3%N, Z.land);
  (0x17%N, 3%N, Z.lor);
  (0x18%N, 3%N, Z.lxor);
  (0x1a%N, 3%N, fun k x => if k <? 32 then (x / 256 ^ (31 - k)) mod 256 else 0);
  (0x1b%N, 3%N, fun k x => (x * 2 ^ k) mod modulus);
  (0x1c%N, 3%N, fun k x => x / 2 ^ k);
  (0x1d%N, 3%N, fun k x => (as_signed x / 2 ^ k) mod modulus)
].
Definition unaries : list (N * N * (Z -> Z)) := [
  (0x15%N, 3%N, fun x => truth (x =? 0));
  (0x19%N, 3%N, fun x => Z.lnot x mod modulus)
].
Definition ternaries : list (N * N * (Z -> Z -> Z -> Z)) := [
  (0x08%N, 8%N, fun x y z => if z =? 0 then 0 else (x + y) mod z);
  (0x09%N, 8%N, fun x y z => if z =? 0 then 0 else (x * y) mod z)
].
