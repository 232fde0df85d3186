(* x/evm/core/vm/analysis.go and contract.go: which positions of a contract's
   code are instructions and which are data of a PUSH, and where a jump may
   land.  Code and bit vectors are lists of bytes; an index out of range is a
   Go panic. *)
From Verif Require Import Lib.Base Lib.Bytes.
Open Scope N_scope.

(* bits[i] op= v *)
Definition bput (bits : bytes) (i : N) (f : N -> N) : res bytes :=
  match nth_error bits (N.to_nat i) with
  | None => Panic
  | Some b => Ok (firstn (N.to_nat i) bits ++ (f b mod 256) :: skipn (S (N.to_nat i)) bits)
  end.

(* analysis.go:32-34 set1; 1 << (pos % 8) is a byte *)
Definition set1 (bits : bytes) (pos : N) : res bytes :=
  bput bits (pos / 8) (fun b => N.lor b (N.shiftl 1 (pos mod 8))).

(* analysis.go:36-42 setN; flag << (pos % 8) is a uint16 *)
Definition setN (bits : bytes) (flag pos : N) : res bytes :=
  let a := N.shiftl flag (pos mod 8) mod 65536 in
  rbind (bput bits (pos / 8) (fun b => N.lor b (a mod 256))) (fun bits1 =>
  let b := N.shiftr a 8 mod 256 in
  if b =? 0 then Ok bits1 else bput bits1 (pos / 8 + 1) (fun _ => b)).

(* byte(0xFF << (pos % 8)) *)
Definition ff (pos : N) : N := N.shiftl 255 (pos mod 8) mod 256.
(* ^a *)
Definition bnot (a : N) : N := N.lxor a 255.

(* analysis.go:44-48 set8 *)
Definition set8 (bits : bytes) (pos : N) : res bytes :=
  rbind (bput bits (pos / 8) (fun b => N.lor b (ff pos))) (fun bits1 =>
  bput bits1 (pos / 8 + 1) (fun _ => bnot (ff pos))).

(* analysis.go:50-55 set16 *)
Definition set16 (bits : bytes) (pos : N) : res bytes :=
  rbind (bput bits (pos / 8) (fun b => N.lor b (ff pos))) (fun bits1 =>
  rbind (bput bits1 (pos / 8 + 1) (fun _ => 255)) (fun bits2 =>
  bput bits2 (pos / 8 + 2) (fun _ => bnot (ff pos)))).

(* analysis.go:58-60 codeSegment *)
Definition code_segment (bits : bytes) (pos : N) : res bool :=
  match nth_error bits (N.to_nat (pos / 8)) with
  | None => Panic
  | Some b => Ok (N.land (N.shiftr b (pos mod 8)) 1 =? 0)
  end.

(* analysis.go:85-92, the loops over whole groups of 16 and 8; numbits is at
   most 32, so that many turns are enough *)
Fixpoint by16 (k : nat) (bits : bytes) (pc n : N) : res (bytes * N * N) :=
  match k with
  | O => Ok (bits, pc, n)
  | S k' => if n <? 16 then Ok (bits, pc, n)
            else rbind (set16 bits pc) (fun b => by16 k' b (pc + 16) (n - 16))
  end.
Fixpoint by8 (k : nat) (bits : bytes) (pc n : N) : res (bytes * N * N) :=
  match k with
  | O => Ok (bits, pc, n)
  | S k' => if n <? 8 then Ok (bits, pc, n)
            else rbind (set8 bits pc) (fun b => by8 k' b (pc + 8) (n - 8))
  end.

(* analysis.go:94-116, the switch on what is left *)
Definition rest (bits : bytes) (pc n : N) : res (bytes * N) :=
  match n with
  | 1 => rbind (set1 bits pc) (fun b => Ok (b, pc + 1))
  | 2 => rbind (setN bits 3 pc) (fun b => Ok (b, pc + 2))
  | 3 => rbind (setN bits 7 pc) (fun b => Ok (b, pc + 3))
  | 4 => rbind (setN bits 15 pc) (fun b => Ok (b, pc + 4))
  | 5 => rbind (setN bits 31 pc) (fun b => Ok (b, pc + 5))
  | 6 => rbind (setN bits 63 pc) (fun b => Ok (b, pc + 6))
  | 7 => rbind (setN bits 127 pc) (fun b => Ok (b, pc + 7))
  | _ => Ok (bits, pc)
  end.

(* int8(op): the byte as a signed number *)
Definition int8 (b : N) : Z := if b <? 128 then Z.of_N b else (Z.of_N b - 256)%Z.

(* opcodes.go: PUSH1, JUMPDEST *)
Definition PUSH1 : N := 96.
Definition JUMPDEST : N := 91.

(* analysis.go:73-118 codeBitmapInternal; every turn moves pc on, so as many
   turns as there are bytes are enough *)
Fixpoint bitmap_loop (k : nat) (code bits : bytes) (pc : N) : res bytes :=
  match k with
  | O => Ok bits
  | S k' =>
    match nth_error code (N.to_nat pc) with
    | None => Ok bits
    | Some op =>
      let pc1 := pc + 1 in
      if (int8 op <? int8 PUSH1)%Z then bitmap_loop k' code bits pc1
      else
        let n := op - PUSH1 + 1 in
        rbind (if 8 <=? n then rbind (by16 3 bits pc1 n) (fun '(b, p, m) => by8 4 b p m)
               else Ok (bits, pc1, n)) (fun '(b, p, m) =>
        rbind (rest b p m) (fun '(b', p') => bitmap_loop k' code b' p'))
    end
  end.

(* analysis.go:63-71 codeBitmap: four bytes longer than necessary *)
Definition code_bitmap (code : bytes) : res bytes :=
  bitmap_loop (length code) code (repeat 0 (length code / 8 + 1 + 4)) 0.

(* contract.go:110-130 validJumpdest, for a contract that is not a precompile.
   isCode (132-166) keeps the analysis of a code by its hash and reuses it;
   the model computes it each time, which gives the same answer as long as no
   two codes share a hash.  dest is a 256-bit number. *)
Definition valid_jumpdest (code : bytes) (dest : N) : res bool :=
  if 2 ^ 64 <=? dest then Ok false
  else if N.of_nat (length code) <=? dest then Ok false
  else match nth_error code (N.to_nat dest) with
       | None => Panic
       | Some op => if negb (op =? JUMPDEST) then Ok false
                    else rbind (code_bitmap code) (fun bits => code_segment bits dest)
       end.
