(* The nodes of the other chain that a bridge recommends: x/hyperion/keeper/keeper.go 1374-1405
   UpdateRpcUsed, types/params.go 559-566 RemoveRpcFromSlice. One bridge. *)
From Verif Require Import Lib.Base Lib.Bytes.
Open Scope Z_scope.

(* types.Rpc *)
Record node := mk_node { n_url : bytes; n_rep : Z; n_last : Z }.
Inductive op := Use (url : bytes) (h : Z) | Remove (url : bytes).

Section Nodes.
(* sort.Slice by the height of last use; which order nodes of equal height get is not told *)
Variable srt : list node -> list node.

(* keeper.go:1381-1389 *)
Definition touch (url : bytes) (h : Z) (n : node) : node := if beqb (n_url n) url then mk_node (n_url n) (n_rep n + 1) h else n.
Definition has (url : bytes) (l : list node) : bool := existsb (fun n => beqb (n_url n) url) l.
(* keeper.go:1374-1405 UpdateRpcUsed *)
Definition use (l : list node) (url : bytes) (h : Z) : list node :=
  let s := srt (map (touch url h) l) in
  let c := if (100 <? length s)%nat then firstn 100 s else s in
  if has url l then c else c ++ [mk_node url 1 h].
(* params.go:559-566 RemoveRpcFromSlice *)
Fixpoint remove (l : list node) (url : bytes) : list node := match l with [] => [] | n :: r => if beqb (n_url n) url then r else n :: remove r url end.
Definition step (l : list node) (o : op) : list node := match o with Use u h => use l u h | Remove u => remove l u end.
Definition run (l : list node) (os : list op) : list node := fold_left step os l.
End Nodes.
