(* What a list of nodes should keep, for C126. *)
From Verif Require Import Lib.Base Lib.Bytes Hyperion.Nodes.
From Coq Require Import Sorting.Sorted Sorting.Permutation.
Open Scope Z_scope.

(* a way to sort by height of last use *)
Definition sorts (srt : list node -> list node) : Prop := forall l, Permutation (srt l) l /\ StronglySorted (fun a b => n_last a <= n_last b) (srt l).
(* each node once, not more than a hundred and one *)
Definition tidy (l : list node) : Prop := NoDup (map n_url l) /\ (length l <= 101)%nat.
(* the entry of a node after a use, given its entry before *)
Definition used (old : option node) (url : bytes) (h : Z) : node := match old with Some n => mk_node url (n_rep n + 1) h | None => mk_node url 1 h end.
Definition entry (l : list node) (url : bytes) : option node := find (fun n => beqb (n_url n) url) l.
