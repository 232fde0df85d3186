(* What a well-formed log segment is. *)
From Verif Require Import Lib.Base Lib.Bytes Lib.Codec Wal.Model.
Open Scope Z_scope.

(* one entry: a length and that many bytes, or one line whose "data" is a string *)
Definition entry (json : bytes -> bool) (f : format) (e : bytes) : Prop :=
  match f with
  | Binary => exists size payload, read_uvarint e = Some (size, payload) /\ blen payload = size
  | Json => exists line, e = line ++ [10%N] /\ ~ In 10%N line /\ json line = true
  end.

Definition prefix (p data : bytes) : Prop := exists rest, data = p ++ rest.
Definition entries (json : bytes -> bool) (f : format) (es : list bytes) : Prop := Forall (entry json f) es.

(* es are the entries of the longest prefix of data made of whole entries *)
Definition longest (json : bytes -> bool) (f : format) (data : bytes) (es : list bytes) : Prop :=
  entries json f es /\ prefix (concat es) data /\
  forall es', entries json f es' -> prefix (concat es') data -> exists more, es = es' ++ more.
