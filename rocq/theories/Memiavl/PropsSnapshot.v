From Verif Require Import Lib.Base Lib.Bytes Lib.Codec Memiavl.Model Memiavl.Spec Memiavl.TreeProofs Memiavl.Proofs
  Memiavl.HashModel Memiavl.SnapshotModel Memiavl.SnapshotSpec Memiavl.SnapshotProofs.
Open Scope Z_scope.

(* any 32-byte digest will do for the examples *)
Definition demo_sha (b : bytes) : bytes :=
  firstn 32 (le 8 (fold_left (fun a x => (a * 31 + Z.of_N x) mod 2 ^ 61) b 7) ++ repeat 0%N 24).

Definition demo_sets : list op :=
  map (fun k => OpSet [k]%N (Some [k; 100]%N)) [1; 2; 3; 4; 5; 6; 7; 8]%N.

Lemma history_avl ops v c t : run (new_empty_tree v c) ops = Some t -> root_ok avl (t_root t).
Proof. intros H. apply run_empty in H. apply H. Qed.

(* ---------------- C06 ---------------- *)

(* Writing a snapshot of any tree and opening it gives back the version, the
   root hash and node for node the same tree. *)
Theorem C06_snapshot_round_trip :
  forall (sha : bytes -> bytes), (forall b, blen (sha b) = 32) ->
  forall ops version cached t,
  run (new_empty_tree version cached) ops = Some t -> storable t ->
  let f := write_snapshot sha t in
  match t_root t with
  | None => open_snapshot f = Ok (t_version t, None)
  | Some n => exists p, open_snapshot f = Ok (t_version t, Some p) /\
      represents sha f p n /\ p_hash f p = Some (root_hash sha (t_root t))
  end.
Proof.
  intros sha Hsha ops v c t H HS f.
  destruct (open_written sha Hsha t (history_avl _ _ _ _ H) HS) as (p & E & Hp).
  fold f in E, Hp. destruct (t_root t) as [n|] eqn:Et.
  - destruct Hp as (-> & Hsit). exists (ref 0 0 n). split; [exact E|].
    pose proof (sits_represents sha Hsha f n 0 0 Hsit) as HR. split; [exact HR|].
    destruct n; cbn [represents] in HR; cbn [root_hash]; tauto.
  - subst p. exact E.
Qed.
Print Assumptions C06_snapshot_round_trip.

Definition snap7 : tree :=
  match run (new_empty_tree 0 false) (demo_sets ++ [OpSave; OpRemove [3]%N; OpSave]) with
  | Some t => t | None => new_empty_tree 0 false end.

Example C06_snapshot_round_trip_ex :
  exists t, run (new_empty_tree 0 false) (demo_sets ++ [OpSave; OpRemove [3]%N; OpSave]) = Some t /\ storable t /\
    (blen (f_nodes (write_snapshot demo_sha t)), blen (f_leaves (write_snapshot demo_sha t)),
     blen (f_kvs (write_snapshot demo_sha t)), open_snapshot (write_snapshot demo_sha t))
    = (288, 336, 77, Ok (2, Some (PNode false 5))).
Proof.
  exists snap7. split; [vm_compute; reflexivity|]. split; [|vm_compute; reflexivity].
  vm_compute. repeat split; discriminate.
Qed.

(* Changes made on top of an opened snapshot produce trees mixing in-memory
   and persisted nodes.  Lookups (value and rank) and lookups by rank answer
   as on the plain in-memory tree of the same content. *)
Theorem C06_reads_through_snapshot :
  forall (sha : bytes -> bytes), (forall b, blen (sha b) = 32) ->
  forall ops version cached t n0 p0 m n,
  run (new_empty_tree version cached) ops = Some t -> storable t -> t_root t = Some n0 ->
  let f := write_snapshot sha t in
  open_snapshot f = Ok (t_version t, Some p0) ->
  stands f p0 n0 m n -> avl n -> Z.of_nat (length (leaves n)) < 2 ^ 32 ->
  (forall key, m_get f m key = Some (get_rec n key)) /\
  (forall i, 0 <= i < Z.of_nat (length (leaves n)) -> m_get_by_index f m i = Some (get_by_index_rec n i)).
Proof.
  intros sha Hsha ops v c t n0 p0 m n H HS Ht f Ho Hst HA Hsz.
  destruct (open_written sha Hsha t (history_avl _ _ _ _ H) HS) as (p & E & Hp). fold f in E, Hp.
  rewrite Ht in Hp. destruct Hp as (-> & Hsit). rewrite E in Ho. inversion Ho; subst p0.
  destruct (stands_ok sha Hsha f n0 m n Hsit Hst HA Hsz) as (_ & H1 & H2). split; assumption.
Qed.
Print Assumptions C06_reads_through_snapshot.

Definition snap8 : tree := Tree 1
  (match run (new_empty_tree 0 false) demo_sets with Some t => t_root t | None => None end) None.

(* the root of snap8 after an in-memory update of key 8: left child persisted *)
Example C06_reads_through_snapshot_ex :
  let f := write_snapshot demo_sha snap8 in
  match open_snapshot f, t_root snap8 with
  | Ok (_, Some p0), Some (Branch k h s ver l r) =>
      match p_left f p0 with
      | Some pl =>
          stands f p0 (Branch k h s ver l r) (MBranch k h s 2 (MPers pl) (MLeaf [8]%N [99]%N 2)) (Branch k h s 2 l (Leaf [8]%N [99]%N 2)) /\
          m_get f (MPers pl) [3]%N = Some (Some [3; 100]%N, 2)
      | None => False
      end
  | _, _ => False
  end.
Proof.
  vm_compute. split; [|reflexivity]. apply st_branch; [|apply st_leaf]. apply (st_pers _ _ _ [false]); reflexivity.
Qed.

(* Out of range indexes are not safe on mixed trees: the uint32 addition in
   PersistedNode.GetByIndex wraps.  Here an 8-key snapshot was opened and key
   [1] removed (left half rebuilt in memory, right half still persisted): rank
   2^32-1 does not exist, yet the call returns the removed key. *)
Theorem C03_out_of_range_index_refuted :
  exists t n f p0 m n', t_root t = Some n /\ f = write_snapshot demo_sha t /\
    open_snapshot f = Ok (t_version t, Some p0) /\
    option_map (fun r => match r with Removed _ x _ => x | NotFound => None end) (remove_rec n [1]%N 2) = Some (Some n') /\
    stands f p0 n m n' /\
    m_get_by_index f m (2 ^ 32 - 1) = Some (Some ([1]%N, [1; 100]%N)) /\
    get_by_index_rec n' (2 ^ 32 - 1) = None /\ Z.of_nat (length (leaves n')) = 7.
Proof.
  set (pair := fun k : N => Leaf [k] [k; 100]%N 1).
  set (right := Branch [7]%N 2 4 1 (Branch [6]%N 1 2 1 (pair 5%N) (pair 6%N)) (Branch [8]%N 1 2 1 (pair 7%N) (pair 8%N))).
  set (lright := Branch [4]%N 1 2 1 (pair 3%N) (pair 4%N)).
  exists snap8.
  exists (Branch [5]%N 3 8 1 (Branch [3]%N 2 4 1 (Branch [2]%N 1 2 1 (pair 1%N) (pair 2%N)) lright) right).
  exists (write_snapshot demo_sha snap8), (PNode false 6).
  exists (MBranch [5]%N 3 7 2 (MBranch [3]%N 2 3 2 (MPers (PNode true 1)) (MPers (PNode false 1))) (MPers (PNode false 5))).
  exists (Branch [5]%N 3 7 2 (Branch [3]%N 2 3 2 (pair 2%N) lright) right).
  split; [vm_compute; reflexivity|]. split; [reflexivity|]. split; [vm_compute; reflexivity|].
  split; [vm_compute; reflexivity|].
  split; [|split; [vm_compute; reflexivity|split; [vm_compute; reflexivity|vm_compute; reflexivity]]].
  apply st_branch; [apply st_branch|].
  - apply (st_pers _ _ _ [false; false; true]); vm_compute; reflexivity.
  - apply (st_pers _ _ _ [false; true]); vm_compute; reflexivity.
  - apply (st_pers _ _ _ [true]); vm_compute; reflexivity.
Qed.
Print Assumptions C03_out_of_range_index_refuted.

(* ---------------- C07 ---------------- *)

(* Both exporters emit the post-order of the tree; importing that stream
   rebuilds byte for byte the snapshot of the exported tree. *)
Theorem C07_export_import :
  forall (sha : bytes -> bytes), (forall b, blen (sha b) = 32) ->
  forall ops version cached t,
  run (new_empty_tree version cached) ops = Some t -> storable t ->
  let stream := map enode_of (root_post (t_root t)) in
  export_tree t = Some stream /\
  export_snapshot (write_snapshot sha t) = Some stream /\
  do_import sha (t_version t) stream = Ok (write_snapshot sha t).
Proof.
  intros sha Hsha ops v c t H HS stream. pose proof (history_avl _ _ _ _ H) as HA.
  split; [apply (export_tree_ok sha Hsha)|]. split; [apply export_snapshot_ok; assumption|apply do_import_ok; assumption].
Qed.
Print Assumptions C07_export_import.

(* consequence for a state-synced node: same version, root hash and content *)
Theorem C07_restored_tree :
  forall (sha : bytes -> bytes), (forall b, blen (sha b) = 32) ->
  forall ops version cached t n,
  run (new_empty_tree version cached) ops = Some t -> storable t -> t_root t = Some n ->
  exists stream f p, export_tree t = Some stream /\ do_import sha (t_version t) stream = Ok f /\
    open_snapshot f = Ok (t_version t, Some p) /\ represents sha f p n /\
    p_hash f p = Some (root_hash sha (t_root t)).
Proof.
  intros sha Hsha ops v c t n H HS Ht.
  destruct (C07_export_import sha Hsha ops v c t H HS) as (H1 & _ & H2).
  pose proof (C06_snapshot_round_trip sha Hsha ops v c t H HS) as H3. cbv zeta in H3. rewrite Ht in *.
  destruct H3 as (p & H3 & H4 & H5).
  exists (map enode_of (root_post (Some n))), (write_snapshot sha t), p. auto.
Qed.
Print Assumptions C07_restored_tree.

Example C07_export_import_ex :
  match export_tree snap7, export_snapshot (write_snapshot demo_sha snap7) with
  | Some a, Some b => a = b /\ length a = 13%nat /\
      match do_import demo_sha 2 a with Ok f => f = write_snapshot demo_sha snap7 | _ => False end
  | _, _ => False
  end.
Proof. vm_compute. repeat split. Qed.

(* a damaged stream (a branch without its children) makes the importer panic,
   and leftover subtrees are rejected *)
Example C07_bad_streams_ex :
  do_import demo_sha 1 [ENode [1]%N (Some []) 1 0; ENode [1]%N None 1 1] = Panic /\
  do_import demo_sha 1 [ENode [1]%N (Some []) 1 0; ENode [2]%N (Some []) 1 0] = Err.
Proof. vm_compute. split; reflexivity. Qed.
