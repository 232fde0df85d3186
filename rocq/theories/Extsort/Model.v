(* versiondb/extsort: delta encoding, chunked external sort, k-way merge. *)
From Verif Require Import Lib.Base Lib.Bytes Lib.Codec.
Open Scope Z_scope.

(* ---------------- delta_encoding.go ---------------- *)

(* delta_encoding.go:75-89, diffOffset: length of the common prefix *)
Fixpoint diff_offset (a b : bytes) : nat :=
  match a, b with
  | x :: a', y :: b' => if N.eqb x y then S (diff_offset a' b') else O
  | _, _ => O
  end.

(* delta_encoding.go:17-36: bytes written for one key (the encoder then
   remembers the key) *)
Definition delta_write (last key : bytes) : bytes :=
  let shared := diff_offset last key in
  uvarint (Z.of_nat shared) ++ uvarint (Z.of_nat (length key - shared)) ++ skipn shared key.

(* result of reading from a stream: io.EOF is a value of its own *)
Inductive rd (A : Type) := Item (a : A) | Eof | Fail | Crash.
Arguments Item {A}. Arguments Eof {A}. Arguments Fail {A}. Arguments Crash {A}.
Definition rd_bind {A B} (r : rd A) (f : A -> rd B) : rd B :=
  match r with Item a => f a | Eof => Eof | Fail => Fail | Crash => Crash end.

(* binary.ReadUvarint: io.EOF only when no byte was read, io.ErrUnexpectedEOF or
   an overflow error otherwise *)
Definition rd_uvarint (b : bytes) : rd (Z * bytes) :=
  match b with [] => Eof | _ => match read_uvarint b with Some r => Item r | None => Fail end end.
(* io.ReadFull into n bytes: io.EOF when n > 0 and no byte was read *)
Definition rd_full (n : nat) (b : bytes) : rd (bytes * bytes) :=
  match n, b with
  | O, _ => Item ([], b)
  | _, [] => Eof
  | _, _ => if (length b <? n)%nat then Fail else Item (firstn n b, skipn n b)
  end.

(* delta_encoding.go:47-67: item and remaining input.  The size wraps at 2^64;
   make panics beyond the int range and slicing panics beyond the capacity,
   which is the length for slices built by make. *)
Definition delta_read (last b : bytes) : rd (bytes * bytes) :=
  rd_bind (rd_uvarint b) (fun '(shared, b1) =>
  rd_bind (rd_uvarint b1) (fun '(non_shared, b2) =>
  let total := (shared + non_shared) mod 2 ^ 64 in
  if (2 ^ 63 <=? total) || (total <? shared) || (blen last <? shared) then Crash
  else rd_bind (rd_full (Z.to_nat (total - shared)) b2) (fun '(t, b3) => Item (firstn (Z.to_nat shared) last ++ t, b3)))).

(* the encoder and decoder driven over a whole chunk (sort.go:233-238, 172-180) *)
Fixpoint delta_encode (last : bytes) (items : list bytes) : bytes :=
  match items with [] => [] | k :: ks => delta_write last k ++ delta_encode k ks end.

(* sort.go:239-251 without delta encoding *)
Fixpoint plain_encode (items : list bytes) : bytes :=
  match items with [] => [] | k :: ks => uvarint (blen k) ++ k ++ plain_encode ks end.
(* sort.go:182-195: io.EOF inside an item is returned as an error here *)
Definition plain_read (b : bytes) : rd (bytes * bytes) :=
  rd_bind (rd_uvarint b) (fun '(size, b1) =>
  if 2 ^ 63 <=? size then Crash
  else match rd_full (Z.to_nat size) b1 with Item r => Item r | Crash => Crash | _ => Fail end).

(* ---------------- one chunk file as a stream ---------------- *)

(* sort.go:160-197: a reader position and the decoder's last item *)
Record stream := Stream { st_delta : bool; st_last : bytes; st_rest : bytes }.
Definition stream_next (s : stream) : rd (bytes * stream) :=
  if st_delta s then rd_bind (delta_read (st_last s) (st_rest s)) (fun '(x, r) => Item (x, Stream true x r))
  else rd_bind (plain_read (st_rest s)) (fun '(x, r) => Item (x, Stream false (st_last s) r)).

(* merge.go:82-85: a heap entry is a value and the stream it came from *)
Notation entry := (bytes * stream)%type.
Notation heap := (list entry).

Section Sort.
(* LesserFunc of the options *)
Variable less : bytes -> bytes -> bool.
(* sort.Slice of the Go library (not stable) *)
Variable sort_slice : list bytes -> list bytes.
(* snappy, or bufio when compression is off *)
Variables compress decompress : bytes -> bytes.

(* sort.go:220-253 *)
Definition save_chunk (delta : bool) (chunk : list bytes) : bytes :=
  let sorted := sort_slice chunk in
  compress (if delta then delta_encode [] sorted else plain_encode sorted).
Definition open_chunk (delta : bool) (file : bytes) : stream := Stream delta [] (decompress file).

(* ---------------- container/heap over merge.go ---------------- *)

Fixpoint upd {A} (h : list A) (i : nat) (x : A) : list A :=
  match h, i with
  | [], _ => []
  | _ :: t, O => x :: t
  | y :: t, S i' => y :: upd t i' x
  end.
(* merge.go:46-48; an index out of range panics *)
Definition less_at (h : heap) (i j : nat) : res bool :=
  match nth_error h i, nth_error h j with
  | Some a, Some b => Ok (less (fst a) (fst b))
  | _, _ => Panic
  end.
(* merge.go:41-43 *)
Definition swap (h : heap) (i j : nat) : res heap :=
  match nth_error h i, nth_error h j with
  | Some a, Some b => Ok (upd (upd h i b) j a)
  | _, _ => Panic
  end.
(* Go standard library, container/heap: down; returns the heap and the final
   position.  Fuel n is enough: the position grows and stays below n. *)
Fixpoint down (fuel : nat) (h : heap) (i n : nat) : res (heap * nat) :=
  match fuel with
  | O => Ok (h, i)
  | S f =>
      let j1 := (2 * i + 1)%nat in
      if (n <=? j1)%nat then Ok (h, i) else
      rbind (if (j1 + 1 <? n)%nat then less_at h (j1 + 1) j1 else Ok false) (fun b =>
      let j := if b then (j1 + 1)%nat else j1 in
      rbind (less_at h j i) (fun b2 => if b2 then rbind (swap h i j) (fun h' => down f h' j n) else Ok (h, i)))
  end.
(* container/heap: up; (j-1)/2 is 0 for j = 0 *)
Fixpoint up (fuel : nat) (h : heap) (j : nat) : res heap :=
  match fuel with
  | O => Ok h
  | S f =>
      let i := Nat.div (j - 1) 2 in
      if (i =? j)%nat then Ok h
      else rbind (less_at h j i) (fun b => if b then rbind (swap h i j) (fun h' => up f h' i) else Ok h)
  end.
(* container/heap: Init, from n/2-1 down to 0 *)
Fixpoint heap_init_from (k : nat) (h : heap) : res heap :=
  match k with
  | O => Ok h
  | S k' => rbind (down (length h) h k' (length h)) (fun '(h', _) => heap_init_from k' h')
  end.
Definition heap_init (h : heap) : res heap := heap_init_from (Nat.div (length h) 2) h.
(* container/heap: Fix *)
Definition heap_fix (h : heap) (i : nat) : res heap :=
  rbind (down (length h) h i (length h)) (fun '(h', i') => if (i <? i')%nat then Ok h' else up (length h') h' i).
(* container/heap: Remove, without the returned entry; merge.go:57-62 drops the last *)
Definition heap_remove (h : heap) (i : nat) : res heap :=
  match length h with
  | O => Panic
  | S n =>
      rbind (if (n =? i)%nat then Ok h
             else rbind (swap h i n) (fun h1 => rbind (down n h1 i n) (fun '(h2, i') => if (i <? i')%nat then Ok h2 else up (length h2) h2 i)))
            (fun h' => Ok (firstn n h'))
  end.

(* merge.go:88-100 and 18-28: streams that are empty at once are dropped *)
Fixpoint new_entries (ss : list stream) : res heap :=
  match ss with
  | [] => Ok []
  | s :: ss' =>
      match stream_next s with
      | Item e => rbind (new_entries ss') (fun h => Ok (e :: h))
      | Eof => new_entries ss'
      | Fail => Err
      | Crash => Panic
      end
  end.
(* merge.go:17-35 *)
Definition new_merge (ss : list stream) : res heap := rbind (new_entries ss) heap_init.

(* merge.go:65-80: Ok (None, _) is the nil item at the end *)
Definition merge_next (h : heap) : res (option bytes * heap) :=
  match h with
  | [] => Ok (None, h)
  | (v, s) :: t =>
      match stream_next s with
      | Item e => rbind (heap_fix (e :: t) 0) (fun h' => Ok (Some v, h'))
      | Eof => rbind (heap_remove ((v, s) :: t) 0) (fun h' => Ok (Some v, h'))
      | Fail => Err
      | Crash => Panic
      end
  end.
(* sort.go:83-93: reading until the nil item *)
Fixpoint drain (fuel : nat) (h : heap) : res (list bytes) :=
  match fuel with
  | O => Err
  | S f => rbind (merge_next h) (fun '(o, h') =>
      match o with None => Ok [] | Some x => rbind (drain f h') (fun l => Ok (x :: l)) end)
  end.

(* ---------------- sort.go: feeding, chunk goroutines ---------------- *)

Record sorter := Sorter {
  s_chunk : list bytes;              (* currentChunk *)
  s_size : Z;                        (* currentChunkSize *)
  s_running : list (list bytes);     (* chunks whose goroutine has not finished *)
  s_files : list bytes }.            (* chunkFiles, in order of completion *)
Definition new_sorter : sorter := Sorter [] 0 [] [].

(* sort.go:119-145; creating the temporary file and writing to it can fail in
   the real program (an error is then returned); not modelled *)
Definition rotate (s : sorter) : sorter := Sorter [] 0 (s_running s ++ [s_chunk s]) (s_files s).
(* sort.go:104-116; the int64 size cannot overflow for MaxChunkSize < 2^62 *)
Definition feed (max_size : Z) (s : sorter) (item : bytes) : res sorter :=
  if 2 ^ 32 - 1 <? blen item then Err
  else
    let s' := Sorter (s_chunk s ++ [item]) (s_size s + blen item + 4) (s_running s) (s_files s) in
    Ok (if max_size <=? s_size s' then rotate s' else s').
(* sort.go:130-143: the i-th running goroutine finishes *)
Definition finish (delta : bool) (s : sorter) (i : nat) : sorter :=
  match nth_error (s_running s) i with
  | None => s
  | Some c => Sorter (s_chunk s) (s_size s) (firstn i (s_running s) ++ skipn (S i) (s_running s)) (s_files s ++ [save_chunk delta c])
  end.
Inductive sstep := SFeed (item : bytes) | SFinish (i : nat).
Definition run_step (max_size : Z) (delta : bool) (s : sorter) (e : sstep) : res sorter :=
  match e with SFeed x => feed max_size s x | SFinish i => Ok (finish delta s i) end.
Fixpoint run (max_size : Z) (delta : bool) (s : sorter) (es : list sstep) : res sorter :=
  match es with [] => Ok s | e :: es' => rbind (run_step max_size delta s e) (fun s' => run max_size delta s' es') end.
(* sort.go:148-202: the last chunk is started, then the remaining goroutines
   finish in the order given by `order`; Err if some have not (the program waits) *)
Definition finalize (delta : bool) (s : sorter) (order : list nat) : res heap :=
  let s1 := if 0 <? s_size s then rotate s else s in
  let s2 := fold_left (finish delta) order s1 in
  match s_running s2 with
  | [] => new_merge (map (open_chunk delta) (s_files s2))
  | _ => Err
  end.

End Sort.
