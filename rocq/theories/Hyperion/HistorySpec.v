(* What the record of finished transfers and its pages ought to be, for C117. *)
From Verif Require Import Lib.Base Lib.Zmap Hyperion.History.
Open Scope Z_scope.

(* the transfers that an address sent or received *)
Definition concerns (a : Z) (x : ftx) : bool := (f_from x =? a) || (f_to x =? a).
Definition history (a : Z) (l : list ftx) : list ftx := filter (concerns a) l.
(* the same transfers, numbered from n on *)
Fixpoint numbered (n : Z) (l : list ftx) : list ftx :=
  match l with [] => [] | x :: r => mk_ftx (f_from x) (f_to x) (f_data x) n :: numbered (n + 1) r end.
(* the last n of a list *)
Definition newest {A} (n : nat) (l : list A) : list A := rev (firstn n (rev l)).
(* what is seen of a finished transfer *)
Definition shown (x : ftx) : item := Done (f_from x) (f_to x) (f_data x).
(* a page of a list *)
Definition page {A} (off lim : Z) (l : list A) : list A := firstn (Z.to_nat lim) (skipn (Z.to_nat off) l).
(* all blocks of a history are on the same side of the update *)
Definition one_side (update : Z) (h : Z) (l : list (Z * ftx)) : Prop := Forall (fun p => (update <? fst p) = (update <? h)) l.
