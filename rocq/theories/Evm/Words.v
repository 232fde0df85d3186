(* 256-bit words as the interpreter's arithmetic instructions see them.
   x/evm/core/vm/instructions.go computes with github.com/holiman/uint256,
   which is not part of this repository; each function below is what that
   library documents for the method the instruction calls. *)
From Verif Require Import Lib.Base Lib.Bytes.
Open Scope N_scope.

Definition W256 : N := 2 ^ 256.
Definition W160 : N := 2 ^ 160.
Definition U64 : N := 2 ^ 64.

(* a word as a signed number and back (two's complement) *)
Definition signed (x : N) : Z := if x <? 2 ^ 255 then Z.of_N x else (Z.of_N x - 2 ^ 256)%Z.
Definition unsigned (z : Z) : N := Z.to_N (z mod 2 ^ 256)%Z.

Definition flag (b : bool) : N := if b then 1 else 0.

(* instructions.go:29-72 and the operators they call; x is popped first *)
Definition w_add (x y : N) : N := (x + y) mod W256.
Definition w_sub (x y : N) : N := (x + (W256 - y)) mod W256.
Definition w_mul (x y : N) : N := (x * y) mod W256.
Definition w_div (x y : N) : N := if y =? 0 then 0 else x / y.
Definition w_sdiv (x y : N) : N := if y =? 0 then 0 else unsigned (Z.quot (signed x) (signed y)).
Definition w_mod (x y : N) : N := if y =? 0 then 0 else x mod y.
Definition w_smod (x y : N) : N := if y =? 0 then 0 else unsigned (Z.rem (signed x) (signed y)).

(* uint256 Exp: square and multiply *)
Fixpoint pow_mod (x : N) (e : positive) : N :=
  match e with
  | xH => x mod W256
  | xO e' => let r := pow_mod x e' in (r * r) mod W256
  | xI e' => let r := pow_mod x e' in ((r * r) mod W256 * x) mod W256
  end.
Definition w_exp (x y : N) : N := match y with N0 => 1 | Npos e => pow_mod x e end.

(* instructions.go:80-84: back is popped first *)
Definition w_signextend (back num : N) : N :=
  if 31 <? back then num
  else let bit := 8 * back + 7 in
       if N.testbit num bit then N.lor num (W256 - 2 ^ bit) else num mod 2 ^ bit.

Definition w_not (x : N) : N := W256 - 1 - x.
Definition w_lt (x y : N) : N := flag (x <? y).
Definition w_gt (x y : N) : N := flag (y <? x).
Definition w_slt (x y : N) : N := flag (signed x <? signed y)%Z.
Definition w_sgt (x y : N) : N := flag (signed y <? signed x)%Z.
Definition w_eq (x y : N) : N := flag (x =? y).
Definition w_iszero (x : N) : N := flag (x =? 0).
(* instructions.go:173-177: byte number th, counted from the most significant *)
Definition w_byte (th v : N) : N := if th <? 32 then (v / 2 ^ (8 * (31 - th))) mod 256 else 0.
Definition w_addmod (x y z : N) : N := if z =? 0 then 0 else (x + y) mod z.
Definition w_mulmod (x y z : N) : N := if z =? 0 then 0 else (x * y) mod z.
(* instructions.go:198-238: the shift is popped first *)
Definition w_shl (s v : N) : N := if s <? 256 then (v * 2 ^ s) mod W256 else 0.
Definition w_shr (s v : N) : N := if s <? 256 then v / 2 ^ s else 0.
Definition w_sar (s v : N) : N :=
  if 256 <? s then (if (0 <=? signed v)%Z then 0 else W256 - 1)
  else unsigned (Z.shiftr (signed v) (Z.of_N s)).

(* SetBytes and Bytes32: big endian *)
Definition be (l : bytes) : N := fold_left (fun a b => a * 256 + b) l 0.
Fixpoint to_be (k : nat) (x : N) : bytes :=
  match k with O => [] | S k' => to_be k' (x / 256) ++ [x mod 256] end.

(* Bytes20 *)
Definition to_addr (x : N) : N := x mod W160.
