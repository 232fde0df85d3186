(* What is carried by a transaction, what a fee must cover, what is signed:
   independent of how the checks go through it. *)
From Verif Require Import Lib.Base Ante.Model.
Open Scope Z_scope.

(* m sits, at any depth, inside an exec message of the list l *)
Inductive delegated : list msg -> msg -> Prop :=
| delegated_here l inner m : In (MExec (Some inner)) l -> In m inner -> delegated l m
| delegated_deep l inner m : In (MExec (Some inner)) l -> delegated inner m -> delegated l m.
Definition carried (l : list msg) (m : msg) : Prop := In m l \/ delegated l m.

Definition forbidden (u : url) : Prop := u = eth_url \/ u = vesting_url.

(* nothing forbidden is run or granted on somebody else's authority, and
   everything that is carried can be read *)
Definition harmless (l : list msg) : Prop :=
  (forall u, delegated l (MPlain u) -> ~ forbidden u) /\
  (forall g, carried l (MGrant g) -> exists u, g = Some u /\ ~ forbidden u) /\
  (forall e, carried l (MExec e) -> e <> None).

(* the i-th exec message of a list weighs i, counted from one, plus what it
   carries; a list weighs what its heaviest exec message does *)
Fixpoint weight (m : msg) : nat :=
  match m with
  | MExec (Some l) =>
    (fix heaviest (i : nat) (l : list msg) : nat :=
       match l with
       | [] => O
       | m :: l' => match m with MExec _ => Nat.max (S i + weight m) (heaviest (S i) l') | _ => heaviest i l' end
       end) O l
  | _ => O
  end.
Definition weights (l : list msg) : nat := weight (MExec (Some l)).

(* how deep exec messages are nested *)
Fixpoint depth (m : msg) : nat :=
  match m with
  | MExec (Some l) => S (fold_right (fun m d => Nat.max (depth m) d) O l)
  | MExec None => 1
  | _ => O
  end.

(* ------------------------------------------------------------------ *)

(* the keys of a multi-signature key whose bit is set *)
Fixpoint chosen (ks : list key) (bits : list bool) : list key :=
  match ks, bits with
  | k :: ks', b :: bits' => if b then k :: chosen ks' bits' else chosen ks' bits'
  | _, _ => []
  end.

(* d is a signature by key k that consists of n single signatures, all by
   Ethereum keys *)
Inductive signed : key -> sigdata -> Z -> Prop :=
| signed_eth d : signed KEth d 1
| signed_multi ks bits sigs n :
  (forall i, nth_error bits i = Some true -> (i < length ks)%nat) ->
  signed_all (chosen ks bits) sigs n -> signed (KMulti ks) (DMulti bits sigs) n
with signed_all : list key -> list sigdata -> Z -> Prop :=
| signed_none sigs : signed_all [] sigs 0
| signed_more k ks d sigs n m : signed k d n -> signed_all ks sigs m -> signed_all (k :: ks) (d :: sigs) (n + m).

(* every set bit has a key and a signature, at every level *)
Fixpoint complete (k : key) (d : sigdata) : Prop :=
  match k, d with
  | KMulti ks, DMulti bits sigs =>
    (forall i, nth_error bits i = Some true -> (i < length ks)%nat) /\
    (length (chosen ks bits) <= length sigs)%nat /\
    (fix all (ks : list key) (bits : list bool) (sigs : list sigdata) : Prop :=
       match ks with
       | [] => True
       | k :: ks' => match bits with
                     | [] => True
                     | false :: bits' => all ks' bits' sigs
                     | true :: bits' => match sigs with [] => True | d :: sigs' => complete k d /\ all ks' bits' sigs' end
                     end
       end) ks bits sigs
  | _, _ => True
  end.
