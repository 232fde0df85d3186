(* What reading a change set file is to give, in terms of what was written. *)
From Verif Require Import Lib.Base Lib.Bytes Lib.Codec Versiondb.Changeset.
Open Scope Z_scope.

Notation version_set := (Z * list (bytes * option bytes))%type (only parsing).
Definition write_file (vs : list version_set) : bytes := flat_map (fun x => write_set (fst x) (snd x)) vs.
(* versions are int64; the sizes fit the memory of the writer *)
Definition set_ok (x : version_set) : Prop :=
  - 2 ^ 63 <= fst x < 2 ^ 63 /\ blen (write_set (fst x) (snd x)) < 2 ^ 63.
(* the change sets that are completely inside the first n bytes *)
Fixpoint complete (n : Z) (vs : list version_set) : list version_set :=
  match vs with
  | [] => []
  | x :: r => if blen (write_set (fst x) (snd x)) <=? n then x :: complete (n - blen (write_set (fst x) (snd x))) r else []
  end.
(* the callback is given the change sets one after the other until it stops or fails; with
   what it was given, the bytes of the change sets it accepted and the reason of the end;
   [last] is the end if it takes all *)
Fixpoint deliver (f : list version_set -> answer) (show : version_set -> version_set) (last : ending) (vs done : list version_set) (off : Z)
  : list version_set * Z * ending :=
  match vs with
  | [] => (done, off, last)
  | x :: r =>
      let done := done ++ [show x] in
      match f done with
      | Broken => (done, off, CallbackError)
      | Stop => (done, off + blen (write_set (fst x) (snd x)), Fine)
      | GoOn => deliver f show last r done (off + blen (write_set (fst x) (snd x)))
      end
  end.
(* only the version is shown when the pairs are skipped *)
Definition shown (parse : bool) (x : version_set) : version_set := if parse then x else (fst x, []).
