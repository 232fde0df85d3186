(* The interpreter's memory and what it costs: x/evm/core/vm/memory.go,
   memory_table.go, common.go and memoryGasCost of gas_table.go.  A memory is
   the list of its bytes; numbers are uint64 or 256-bit words. *)
From Verif Require Import Lib.Base Lib.Bytes Evm.Words.
Open Scope N_scope.

(* what a []byte of the program can hold *)
Definition is_bytes (l : bytes) : Prop := Forall (fun b => b < 256) l.

Definition blen (l : bytes) : N := N.of_nat (length l).

(* stack.go:84-86 Back: entry n from the top *)
Definition back (st : list N) (n : nat) : res N := match nth_error st n with Some x => Ok x | None => Panic end.

(* math.SafeAdd, math.SafeMul of go-ethereum *)
Definition safe_add (a b : N) : res N := if U64 <=? a + b then Err else Ok (a + b).
Definition safe_mul (a b : N) : res N := if U64 <=? a * b then Err else Ok (a * b).

(* common.go:33-57 calcMemSize64, calcMemSize64WithUint; Err: overflow.
   The sum wraps exactly when it does not fit. *)
Definition calc_uint (off len : N) : res N :=
  if len =? 0 then Ok 0
  else if U64 <=? off then Err
  else if U64 <=? off + len then Err else Ok (off + len).
Definition calc (off len : N) : res N := if U64 <=? len then Err else calc_uint off len.

(* common.go:74-80 toWordSize *)
Definition word_size (size : N) : N :=
  if U64 - 1 - 31 <? size then (U64 - 1) / 32 + 1 else (size + 31) / 32.

(* memory_table.go:19-114: which entries of the stack are offset and length *)
Inductive memk :=
| MNone
| MAt (off len : nat)
| MFix (off : nat) (len : N)
| MTwo (off len off2 len2 : nat).

Definition mem_size (k : memk) (st : list N) : res N :=
  match k with
  | MNone => Ok 0
  | MAt o l => rbind (back st o) (fun off => rbind (back st l) (fun len => calc off len))
  | MFix o len => rbind (back st o) (fun off => calc_uint off len)
  | MTwo o l o2 l2 =>
      rbind (back st o) (fun off => rbind (back st l) (fun len => rbind (calc off len) (fun x =>
      rbind (back st o2) (fun off2 => rbind (back st l2) (fun len2 => rbind (calc off2 len2) (fun y =>
      Ok (if y <? x then x else y)))))))
  end.

(* interpreter.go:220-230: rounded up to words *)
Definition mem_words (k : memk) (st : list N) : res N :=
  rbind (mem_size k st) (fun s => safe_mul (word_size s) 32).

(* gas_table.go:29-56 memoryGasCost: the fee, and the new lastGasCost.
   params.MemoryGas is 3, params.QuadCoeffDiv 512. *)
Definition mem_gas (mem : bytes) (last size : N) : res (N * N) :=
  if size =? 0 then Ok (0, last)
  else if 0x1FFFFFFFE0 <? size then Err
  else
    let words := word_size size in
    if blen mem <? (words * 32) mod U64 then
      let square := (words * words) mod U64 in
      let total := ((words * 3) mod U64 + square / 512) mod U64 in
      Ok ((total + (U64 - last)) mod U64, total)
    else Ok (0, last).

(* memory.go:62-66 Resize *)
Definition resize (mem : bytes) (size : N) : bytes :=
  if blen mem <? size then mem ++ repeat 0 (N.to_nat (size - blen mem)) else mem.

(* memory.go:35-59 Set, Set32: copy at most size bytes of value *)
Definition mset (mem : bytes) (off size : N) (value : bytes) : res bytes :=
  if size =? 0 then Ok mem
  else if blen mem <? (off + size) mod U64 then Panic
  else if U64 <=? off + size then Panic              (* slice bounds: off > off+size *)
  else
    let v := firstn (N.to_nat size) value in
    Ok (firstn (N.to_nat off) mem ++ v ++ skipn (N.to_nat off + length v) mem).

(* memory.go:69-95 GetCopy, GetPtr.  The arguments are uint64 read as int64;
   slicing beyond the length is taken for a panic (Go allows it up to the
   capacity, so this asks more of the program). *)
Definition int64 (x : N) : Z := if x <? 2 ^ 63 then Z.of_N x else (Z.of_N x - 2 ^ 64)%Z.
Definition mget (mem : bytes) (off size : N) : res bytes :=
  if size =? 0 then Ok []
  else if (int64 off <? Z.of_N (blen mem))%Z then
    if ((int64 off <? 0)%Z || (int64 size <? 0)%Z || (Z.of_N (blen mem) <? int64 off + int64 size)%Z) then Panic
    else Ok (firstn (N.to_nat size) (skipn (N.to_nat off) mem))
  else Ok [].

(* common.go:61-71 getData; RightPadBytes *)
Definition pad_right (l : bytes) (n : N) : bytes := l ++ repeat 0 (N.to_nat n - length l).
Definition get_data (data : bytes) (start size : N) : res bytes :=
  let len := blen data in
  let s := if len <? start then len else start in
  let e0 := (s + size) mod U64 in
  let e := if len <? e0 then len else e0 in
  if e <? s then Panic                               (* slice bounds *)
  else Ok (pad_right (firstn (N.to_nat (e - s)) (skipn (N.to_nat s) data)) size).
