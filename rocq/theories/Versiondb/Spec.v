(* What a store of historical states is to answer, in terms of the blocks alone. *)
From Coq Require Import Sorting.Sorted.
From Verif Require Import Lib.Base Lib.Bytes Lib.Codec Versiondb.Model.
Open Scope Z_scope.

(* a block: its height and its changes *)
Notation block := (Z * list pair)%type (only parsing).
(* contents of all stores: store name, key *)
Notation contents := (bytes -> bytes -> option bytes) (only parsing).
Definition nothing : contents := fun _ _ => None.
Definition change (c : contents) (p : pair) : contents :=
  fun n k => if beqb n (p_store p) && beqb k (p_key p) then p_val p else c n k.
Definition execute (c : contents) (b : block) : contents := fold_left change (snd b) c.
(* the contents after the blocks, one after the other *)
Definition after (bs : list block) : contents := fold_left execute bs nothing.
(* the contents at height h: only the blocks up to h count *)
Definition at_height (bs : list block) (h : Z) : contents := after (filter (fun b => fst b <=? h) bs).

(* heights as CometBFT numbers them *)
Definition heights_ok (bs : list block) : Prop :=
  StronglySorted (fun a b => fst a < fst b) bs /\ Forall (fun b => 0 <= fst b < 2 ^ 63) bs.
(* no slash in the name of a store *)
Definition plain_name (n : bytes) : Prop := ~ In 47%N n.
Definition names_ok (bs : list block) : Prop := Forall (fun b => Forall (fun p => plain_name (p_store p)) (snd b)) bs.

Definition feed_blocks (s : st) (bs : list block) : st := fold_left (fun s b => put_at s (fst b) (snd b)) bs s.

(* inside [start, end) *)
Definition within (start end_ : option bytes) (k : bytes) : Prop :=
  match start with Some s => ble s k | None => True end /\ match end_ with Some e => blt k e | None => True end.
(* the pairs of one store in key order *)
Definition listing (c : contents) (n : bytes) (start end_ : option bytes) (l : list (bytes * bytes)) : Prop :=
  StronglySorted (fun a b => blt (fst a) (fst b)) l /\
  forall k v, In (k, v) l <-> within start end_ k /\ c n k = Some v.

(* ---- for the repair of wrongly stored data ---- *)
(* a write of value v to key k at height t, stored right, or with the timestamp in the key *)
Definition right_entry (n : bytes) (w : bytes * Z * bytes) : entry :=
  let '(k, t, v) := w in mk_entry (store_prefix n ++ k) t (Some v).
Definition wrong_entry (n : bytes) (w : bytes * Z * bytes) : entry :=
  let '(k, t, v) := w in mk_entry (store_prefix n ++ k ++ le 8 t) 0 (Some v).
(* store n has a write of v to k at height t stored wrong *)
Definition misplaced (s : st) (n k : bytes) (t : Z) (v : bytes) : Prop := 0 < t < 2 ^ 64 /\ In (wrong_entry n (k, t, v)) (s_db s).
(* what store n has at version 0 are such writes, and deletions *)
Definition only_misplaced (s : st) (n : bytes) : Prop :=
  forall d r v, In d (s_db s) -> e_ts d = 0 -> e_key d = store_prefix n ++ r -> e_val d = Some v -> exists k t, r = k ++ le 8 t /\ 0 < t < 2 ^ 64.
(* a read at t finds v; an empty value may also be missing *)
Definition shows (s : st) (n k : bytes) (t : Z) (v : bytes) : Prop :=
  get_at false s n k (Some t) = Some v \/ (get_at false s n k (Some t) = None /\ v = []).
Fixpoint fix_times (m : nat) (s : st) (n : bytes) : res st :=
  match m with O => Ok s | S m => rbind (fix_store s n) (fun s => fix_times m s n) end.
(* the writes of a history: key, height, value or deletion; o is what key k holds at height h *)
Definition holds (ws : list (bytes * Z * option bytes)) (k : bytes) (h : Z) (o : option bytes) : Prop :=
  (exists t, In (k, t, o) ws /\ t <= h /\ forall t' o', In (k, t', o') ws -> t' <= h -> t' <= t) \/
  (o = None /\ forall t' o', In (k, t', o') ws -> h < t').
(* every write of the history is in store n, right or wrong, deletions right, and nothing else;
   one write for a key and height, and no key that is another one followed by a height *)
Definition damaged (s : st) (n : bytes) (ws : list (bytes * Z * option bytes)) : Prop :=
  (forall k t o, In (k, t, o) ws -> 0 < t < 2 ^ 63 /\ o <> Some [] /\
     (In (mk_entry (store_prefix n ++ k) t o) (s_db s) \/ exists v, o = Some v /\ In (wrong_entry n (k, t, v)) (s_db s))) /\
  (forall k t o o', In (k, t, o) ws -> In (k, t, o') ws -> o = o') /\
  (forall k t o k' t' o', In (k, t, o) ws -> In (k', t', o') ws -> k <> k' ++ le 8 t') /\
  (forall d r, In d (s_db s) -> e_key d = store_prefix n ++ r ->
     (exists k t o, In (k, t, o) ws /\ d = mk_entry (store_prefix n ++ k) t o) \/ exists k t v, In (k, t, Some v) ws /\ d = wrong_entry n (k, t, v)).
