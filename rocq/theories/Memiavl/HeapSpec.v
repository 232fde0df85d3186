(* What isolation means: what a tree number j shows, and when it may be copied. *)
From Verif Require Import Lib.Base Lib.Bytes Memiavl.Model Memiavl.Spec Memiavl.HashModel Memiavl.HeapModel.
Open Scope Z_scope.

Fixpoint versions_below (n : node) (v : Z) : Prop :=
  match n with
  | Leaf _ _ ver => ver <= v
  | Branch _ _ _ ver l r => ver <= v /\ versions_below l v /\ versions_below r v
  end.

(* no uncommitted changes: every node was written at a committed version *)
Definition clean (t : tree) : Prop := root_ok (fun n => versions_below n (t_version t)) (t_root t).

(* The same calls on independent value trees: a call on tree i changes tree i
   only, a copy starts as an equal tree with an empty cache. *)
Definition pure_step (ts : list tree) (i : nat) (o : fop) : option (list tree) :=
  obind (nth_error ts i) (fun t =>
  match o with
  | FSet k v => obind (tree_set t k v) (fun t' => Some (set_nth ts i t'))
  | FRemove k => obind (tree_remove t k) (fun t' => Some (set_nth ts i t'))
  | FGet k => Some (set_nth ts i (snd (tree_get t k)))
  | FEvict k => Some (set_nth ts i (Tree (t_version t) (t_root t) (option_map (fun c => cache_remove c k) (t_cache t))))
  | FHash => Some ts
  | FSave _ => Some (set_nth ts i (match save_version t with Ok t' => t' | _ => t end))
  | FCopy cached => Some (ts ++ [Tree (t_version t) (t_root t) (new_cache cached)])
  end).

Fixpoint pure_run (ts : list tree) (ops : list (nat * fop)) : option (list tree) :=
  match ops with
  | [] => Some ts
  | (i, o) :: ops' => obind (pure_step ts i o) (fun ts' => pure_run ts' ops')
  end.

(* every copy in the schedule is taken from a tree without uncommitted changes *)
Fixpoint copies_clean (ts : list tree) (ops : list (nat * fop)) : Prop :=
  match ops with
  | [] => True
  | (i, o) :: ops' =>
      match o with
      | FCopy _ => match nth_error ts i with Some t => clean t | None => True end
      | _ => True
      end /\
      match pure_step ts i o with Some ts' => copies_clean ts' ops' | None => True end
  end.

(* everything readable through tree number j *)
Definition shows (sha : bytes -> bytes) (f : forest) (j : nat) : option (Z * option node) :=
  obind (nth_error (f_trees f) j) (fun t =>
    match ht_root t with
    | None => Some (ht_version t, None)
    | Some r => obind (h_view sha (h_fuel sha (f_heap f) r) (f_heap f) r) (fun n => Some (ht_version t, Some n))
    end).

(* answers of tree number j to Get and RootHash *)
Definition answer_get (sha : bytes -> bytes) (f : forest) (j : nat) (k : bytes) : option (option bytes) :=
  obind (nth_error (f_trees f) j) (fun t => option_map fst (ht_get sha (f_heap f) t k)).
Definition answer_hash (sha : bytes -> bytes) (f : forest) (j : nat) : option bytes :=
  obind (nth_error (f_trees f) j) (fun t => option_map snd (ht_hash sha (f_heap f) t)).
