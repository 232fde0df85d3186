(* memiavl/wal.go: opening a write ahead log and cutting a corrupted tail. *)
From Verif Require Import Lib.Base Lib.Bytes Lib.Codec.
Open Scope Z_scope.

Section Wal.

(* gjson.Get(line, "data") has type String (memiavl/wal.go:82-85); the JSON
   parser is an external library, so its verdict on a line is arbitrary *)
Variable json_data_is_string : bytes -> bool.

Inductive format := Binary | Json.

(* bytes.IndexByte(data, '\n') *)
Fixpoint index_nl (b : bytes) : option nat :=
  match b with
  | [] => None
  | x :: b' => if N.eqb x 10 then Some O else option_map S (index_nl b')
  end.

(* memiavl/wal.go:76-87; None = wal.ErrCorrupt *)
Definition load_next_json_entry (data : bytes) : option nat :=
  match index_nl data with
  | None => None
  | Some idx => if json_data_is_string (firstn idx data) then Some (S idx) else None
  end.

(* memiavl/wal.go:89-99; binary.Uvarint returns n <= 0 on truncated input and
   on overflow, which is None here.  uint64(len(data)-n) cannot wrap because
   n <= len(data), and int(size) cannot because size <= len(data). *)
Definition load_next_binary_entry (data : bytes) : option nat :=
  match read_uvarint data with
  | None => None
  | Some (size, rest) =>
      let n := (length data - length rest)%nat in
      if blen rest <? size then None else Some (n + Z.to_nat size)%nat
  end.

Definition load_next (f : format) (data : bytes) : option nat :=
  match f with Json => load_next_json_entry data | Binary => load_next_binary_entry data end.

(* the loop of truncateCorruptedTail (memiavl/wal.go:53-69): position reached
   and remaining data.  Fuel is the length of the data: each entry has at least
   one byte. *)
Fixpoint scan (f : format) (fuel : nat) (data : bytes) (pos : nat) : nat * bytes :=
  match fuel with
  | O => (pos, data)
  | S fuel' =>
      match data with
      | [] => (pos, data)
      | _ => match load_next f data with
             | None => (pos, data)
             | Some n => scan f fuel' (skipn n data) (pos + n)
             end
      end
  end.

(* memiavl/wal.go:48-74: the content of the file afterwards.  `data` was
   resliced by the loop, so line 70 compares with the length of what remains. *)
Definition truncate_corrupted_tail (f : format) (file : bytes) : bytes :=
  let '(pos, data) := scan f (length file) file 0 in
  if Nat.eqb pos (length data) then file else firstn pos file.

(* what wal.Open does with the last segment: it parses all of it and reports
   ErrCorrupt otherwise (tidwall/wal, external; None = ErrCorrupt) *)
Fixpoint parse (f : format) (fuel : nat) (data : bytes) : option (list bytes) :=
  match fuel with
  | O => match data with [] => Some [] | _ => None end
  | S fuel' =>
      match data with
      | [] => Some []
      | _ => match load_next f data with
             | None => None
             | Some n => option_map (cons (firstn n data)) (parse f fuel' (skipn n data))
             end
      end
  end.
Definition open_segment (f : format) (file : bytes) : option (list bytes) := parse f (length file) file.

(* memiavl/wal.go:17-46 for one segment: file content and entries after the call *)
Definition open_wal (f : format) (file : bytes) : bytes * option (list bytes) :=
  match open_segment f file with
  | Some es => (file, Some es)
  | None => let file' := truncate_corrupted_tail f file in (file', open_segment f file')
  end.

(* memiavl/wal.go:26-32: which directory entry is repaired; a directory entry is
   (name length, is a directory, content), in os.ReadDir order *)
Fixpoint last_segment (fis : list (Z * bool * bytes)) (cur : option bytes) : option bytes :=
  match fis with
  | [] => cur
  | (len, isdir, c) :: fis' => last_segment fis' (if isdir || (len <? 20) then cur else Some c)
  end.

(* how the library appends an entry in binary format: uvarint length, then data *)
Definition append_binary (file e : bytes) : bytes := file ++ lp e.

End Wal.
