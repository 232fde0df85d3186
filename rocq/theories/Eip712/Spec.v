(* What a typed-data signature has to stand for, without the encoder. *)
From Coq Require Import String NArith Sorted.
From Verif Require Import Lib.Base Lib.Bytes Lib.Dec Eip712.Model.
Open Scope Z_scope.

(* Two different texts with one hash. *)
Definition collision (keccak : bytes -> bytes) : Prop :=
  exists x y, x <> y /\ keccak x = keccak y.

(* Names of letters, digits and underscores, as field names of messages are. *)
Definition plain (b : bytes) : Prop := Forall (fun c => is_word c = true) b.

(* Letters and digits only. *)
Definition letter (c : N) : bool := is_word c && negb (N.eqb c 95).
Definition letters (b : bytes) : Prop := Forall (fun c => letter c = true) b.

(* Canonical JSON: in every object the keys are plain and strictly ascending. *)
Fixpoint canonical (j : json) : Prop :=
  match j with
  | JArr l => fold_right (fun x P => canonical x /\ P) True l
  | JObj kvs =>
      StronglySorted blt (map fst kvs) /\ Forall plain (map fst kvs)
      /\ fold_right (fun kv P => canonical (snd kv) /\ P) True kvs
  | _ => True
  end.

(* [fits g j]: wherever [g] has a number, [j] has one too (if it has the place). *)
Fixpoint fits (g j : json) : Prop :=
  match g, j with
  | JNum _, JNum _ => True
  | JNum _, _ => False
  | JArr (x :: _), JArr l => Forall (fits x) l
  | JObj gs, JObj kvs =>
      fold_right (fun kg P =>
        match get (fst kg) kvs with Some v => fits (snd kg) v | None => True end /\ P) True gs
  | _, _ => True
  end.

(* No array mixes numbers and texts: all items fit the first. *)
Definition uniform (j : json) : Prop := fits j j.

(* The messages of a payload. *)
Definition carries (p : list (bytes * json)) (msgs : list json) : Prop :=
  get (text "msgs") p = Some (JArr msgs).

(* The same transaction, as far as a signer can see one. *)
Definition same_transaction (a b : sign_doc) : Prop :=
  d_chain a = d_chain b /\ d_account a = d_account b /\ d_signers a = d_signers b
  /\ d_amount a = d_amount b /\ d_gas a = d_gas b /\ d_memo a = d_memo b
  /\ d_msgs a = d_msgs b /\ d_timeout a = d_timeout b /\ d_extensions a = d_extensions b.
