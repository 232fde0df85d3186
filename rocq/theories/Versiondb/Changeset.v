(* Change set files: versiondb/client/changeset.go. *)
From Verif Require Import Lib.Base Lib.Bytes Lib.Codec Extsort.Model.
Open Scope Z_scope.

(* iavl.KVPair; None: a deletion, whose value the code never looks at *)
Notation kv := (bytes * option bytes)%type (only parsing).

(* 351-360 uvarintSize: 64 - leading zeros, in groups of 7 bits *)
Definition bit_len (x : Z) : Z := if x =? 0 then 0 else Z.log2 x + 1.
Definition uvarint_size (x : Z) : Z :=
  let b := bit_len x in
  let size := b / 7 in
  if (0 <? b mod 7) || (size =? 0) then size + 1 else size.
(* 110-119 encodedSizeOfKVPair *)
Definition pair_size (p : kv) : Z :=
  let size := 1 + uvarint_size (blen (fst p)) + blen (fst p) in
  match snd p with
  | None => size
  | Some v => size + uvarint_size (blen v) + blen v
  end.
(* 124-141 encodeKVPair *)
Definition encode_pair (p : kv) : bytes :=
  match snd p with
  | None => [1]%N ++ uvarint (blen (fst p)) ++ fst p
  | Some v => [0]%N ++ uvarint (blen (fst p)) ++ fst p ++ uvarint (blen v) ++ v
  end.
(* 41-66 WriteChangeSet *)
Definition payload (cs : list kv) : bytes := flat_map encode_pair cs.
Definition write_set (version : Z) (cs : list kv) : bytes :=
  le 8 (version mod 2 ^ 64) ++ le 8 (blen (payload cs)) ++ payload cs.

(* ---- reading ---- *)
Definition rd_byte (b : bytes) : rd (N * bytes) := match b with [] => Eof | x :: r => Item (x, r) end.
(* 158-191 readKVPair.  Allocating the buffer for an absurd length kills the process; here the
   read fails instead, as the rest of the input cannot be that long. *)
Definition read_pair (b : bytes) : rd (kv * bytes) :=
  rd_bind (rd_byte b) (fun '(d, b) =>
  rd_bind (rd_uvarint b) (fun '(kl, b) =>
  rd_bind (rd_full (Z.to_nat kl) b) (fun '(k, b) =>
  if N.eqb d 1 then Item ((k, None), b) else
  rd_bind (rd_uvarint b) (fun '(vl, b) =>
  rd_bind (rd_full (Z.to_nat vl) b) (fun '(v, b) => Item ((k, Some v), b)))))).
(* 87-97 the loop over the payload; every pair takes at least one byte *)
Fixpoint read_pairs (fuel : nat) (size offset : Z) (b : bytes) : rd (list kv * Z * bytes) :=
  if offset <? size then
    match fuel with
    | O => Fail
    | S f => rd_bind (read_pair b) (fun '(p, b) =>
             rd_bind (read_pairs f size (offset + pair_size p) b) (fun '(ps, off, b) => Item (p :: ps, off, b)))
    end
  else Item ([], offset, b).
Definition to_i64 (x : Z) : Z := if x <? 2 ^ 63 then x else x - 2 ^ 64.
(* io.CopyN to nowhere: too little input is io.EOF; a negative count reads nothing *)
Definition discard (n : Z) (b : bytes) : rd bytes := if blen b <? n then Eof else Item (skipn (Z.to_nat n) b).
(* 72-105 ReadChangeSet: version, bytes read, pairs, rest *)
Definition read_set (parse : bool) (b : bytes) : rd (Z * Z * list kv * bytes) :=
  rd_bind (rd_full 16 b) (fun '(h, b) =>
  let version := to_i64 (unle (firstn 8 h)) in
  let size := to_i64 (unle (skipn 8 h)) in
  if size =? 0 then Item (version, 16, [], b) else
  if parse then
    rd_bind (read_pairs (S (length b)) size 0 b) (fun '(ps, off, b) =>
    if off =? size then Item (version, size + 16, ps, b) else Fail)
  else rd_bind (discard size b) (fun b => Item (version, size + 16, [], b))).

(* 238-275, 278-314: IterateChangeSets and IterateVersions.  The callback sees what was
   delivered so far and the new change set, and goes on, stops or fails.  Result: delivered
   change sets, lastCompleteOffset, and the error. *)
Inductive answer := GoOn | Stop | Broken.
Inductive ending := Fine | ReadError | CallbackError | Crashed.
Fixpoint iterate_sets (fuel : nat) (parse : bool) (f : list (Z * list kv) -> answer) (b : bytes) (done : list (Z * list kv)) (off : Z)
  : list (Z * list kv) * Z * ending :=
  match fuel with
  | O => (done, off, ReadError)
  | S fuel =>
      match read_set parse b with
      | Eof => (done, off, Fine)
      | Fail => (done, off, ReadError)
      | Crash => (done, off, Crashed)
      | Item (v, n, cs, b) =>
          let done := done ++ [(v, cs)] in
          match f done with
          | Broken => (done, off, CallbackError)
          | Stop => (done, off + n, Fine)
          | GoOn => iterate_sets fuel parse f b done (off + n)
          end
      end
  end.
(* every change set takes at least 16 bytes *)
Definition iterate (parse : bool) (f : list (Z * list kv) -> answer) (b : bytes) := iterate_sets (S (length b)) parse f b [] 0.

(* 317-346 ReadFirstVersion, SortFilesByFirstVerson: files too short for a version fail,
   empty ones are left out.  sort.Slice is not stable; files with the same first version may
   come in any order. *)
Definition first_version (b : bytes) : rd Z := rd_bind (rd_full 8 b) (fun '(h, _) => Item (unle h)).
Fixpoint non_empty (files : list (bytes * bytes)) : res (list (bytes * Z)) :=
  match files with
  | [] => Ok []
  | (name, b) :: r =>
      match first_version b with
      | Item v => rbind (non_empty r) (fun l => Ok ((name, v) :: l))
      | Eof => non_empty r
      | _ => Err
      end
  end.
