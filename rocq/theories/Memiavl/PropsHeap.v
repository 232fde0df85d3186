(* C05: a copy of a tree, and the tree it was copied from, evolve independently
   although they share nodes in memory. *)
From Verif Require Import Lib.Base Lib.Bytes Memiavl.Model Memiavl.Spec Memiavl.TreeProofs Memiavl.HashModel Memiavl.PropsSnapshot
  Memiavl.HeapModel Memiavl.HeapSpec Memiavl.HeapProofs.
Open Scope Z_scope.

(* Any schedule of calls on any number of trees that come from one tree by
   Copy runs without panic exactly when the same calls on unrelated value trees
   do, and then every tree shows the version, nodes, lookups and root hash of
   its own unrelated value tree.  [base] is the opened snapshot, any well-formed
   tree (as C02 and C06 show committed snapshots to be), or None. *)
Theorem C05_copies_behave_as_independent_trees sha version base cached ops :
  0 <= version -> root_ok (fun n => balanced n /\ fields_exact n /\ keys_exact n) base ->
  copies_clean [Tree version base (new_cache cached)] ops ->
  match pure_run [Tree version base (new_cache cached)] ops with
  | None => frun sha (new_forest version base cached) ops = None
  | Some ts => exists f, frun sha (new_forest version base cached) ops = Some f /\
      length (f_trees f) = length ts /\
      forall j p, nth_error ts j = Some p ->
        shows sha f j = Some (t_version p, t_root p) /\
        (forall k, answer_get sha f j k = Some (fst (tree_get p k))) /\
        answer_hash sha f j = Some (root_hash sha (t_root p))
  end.
Proof.
  intros Hv HA HC. pose proof (frun_ok sha ops _ _ _ (new_finv sha version base cached Hv HA) HC) as H.
  destruct (pure_run _ ops) as [ts|]; [|exact H].
  destruct H as (f & fp & E & HI). exists f. split; [exact E|]. split; [apply HI|].
  intros j p Hp. eapply finv_shows; eauto.
Qed.

(* Whatever is done to the other trees, tree j keeps its version, its nodes, its
   answers and its root hash. *)
Theorem C05_other_trees_unaffected sha version base cached before after f f' j :
  0 <= version -> root_ok (fun n => balanced n /\ fields_exact n /\ keys_exact n) base ->
  copies_clean [Tree version base (new_cache cached)] (before ++ after) ->
  frun sha (new_forest version base cached) before = Some f ->
  frun sha f after = Some f' ->
  (j < length (f_trees f))%nat ->
  Forall (fun io => fst io <> j) after ->
  shows sha f' j = shows sha f j /\ shows sha f j <> None /\
  (forall k, answer_get sha f' j k = answer_get sha f j k /\ answer_get sha f j k <> None) /\
  answer_hash sha f' j = answer_hash sha f j /\ answer_hash sha f j <> None.
Proof.
  intros Hv HA HC E1 E2 Hj HF. set (ts0 := [Tree version base (new_cache cached)]) in *.
  pose proof (proj1 (copies_clean_app before after ts0) HC) as [HC1 HC2].
  pose proof (frun_ok sha before _ _ _ (new_finv sha version base cached Hv HA) HC1) as H1.
  change [Tree version base (new_cache cached)] with ts0 in H1.
  destruct (pure_run ts0 before) as [ts1|] eqn:P1; [|congruence].
  destruct H1 as (g & fp & Eg & HI). rewrite E1 in Eg. injection Eg as <-.
  pose proof (frun_ok sha after _ _ _ HI HC2) as H2.
  destruct (pure_run ts1 after) as [ts2|] eqn:P2; [|congruence].
  destruct H2 as (g & fp2 & Eg & HI2). rewrite E2 in Eg. injection Eg as <-.
  destruct (nth_error ts1 j) as [p|] eqn:Ep; [|apply nth_error_None in Ep; destruct HI as [HL _]; lia].
  pose proof (pure_run_other after ts1 ts2 j p P2 HF Ep) as Ep2.
  destruct (finv_shows sha _ _ _ _ _ HI Ep) as (S1 & G1 & R1).
  destruct (finv_shows sha _ _ _ _ _ HI2 Ep2) as (S2 & G2 & R2).
  rewrite S1, S2, R1, R2. split; [reflexivity|]. split; [discriminate|]. split; [|split; [reflexivity|discriminate]].
  intros k. rewrite G1, G2. split; [reflexivity|discriminate].
Qed.

(* The side condition is met right after a commit: in any run, saving a version
   leaves a tree that may be copied (unless the version number is exhausted and
   SaveVersion reports an error). *)
Theorem C05_committed_tree_may_be_copied version base cached ops ts ts' i u t :
  root_ok (fun n => versions_below n version) base ->
  pure_run [Tree version base (new_cache cached)] ops = Some ts ->
  nth_error ts i = Some t -> t_version t <> 2 ^ 32 - 1 ->
  pure_step ts i (FSave u) = Some ts' ->
  exists t', nth_error ts' i = Some t' /\ t_version t' = t_version t + 1 /\ t_root t' = t_root t /\ clean t'.
Proof.
  intros HB HR Ht Hne HS.
  assert (Forall pending ts) as HP.
  { eapply pure_run_pending; [|exact HR]. constructor; [|constructor]. unfold pending. cbn [t_root t_version].
    destruct base; [|exact I]. cbn [root_ok] in *. eapply versions_mono; [|exact HB]. lia. }
  unfold pure_step in HS. rewrite Ht in HS. cbn [obind] in HS. injection HS as <-.
  unfold save_version. destruct (Z.eqb_spec (t_version t) (2 ^ 32 - 1)) as [|_]; [contradiction|].
  eexists. rewrite nth_set_nth, Nat.eqb_refl, Ht. cbn [option_map]. split; [reflexivity|].
  split; [reflexivity|]. split; [reflexivity|]. unfold clean. cbn [t_root t_version].
  assert (pending t) as Hp by (eapply Forall_forall; [exact HP|eapply nth_error_In; exact Ht]). exact Hp.
Qed.

(* Without the side condition isolation fails: tree.go 119-128 does not protect
   nodes written since the last commit.  Here the copy is taken with a pending
   write, then the original overwrites the same key, and the copy changes. *)
Definition key_a : bytes := [97%N].
Definition dirty : list (nat * fop) := [(0%nat, FSet key_a (Some [1%N])); (0%nat, FCopy false)].
Definition later : list (nat * fop) := [(0%nat, FSet key_a (Some [2%N]))].
Theorem C05_copy_with_pending_writes_isolated_refuted :
  exists f f', frun demo_sha (new_forest 0 None false) dirty = Some f /\
    frun demo_sha f later = Some f' /\
    Forall (fun io => fst io <> 1%nat) later /\
    answer_get demo_sha f 1 key_a = Some (Some [1%N]) /\
    answer_get demo_sha f' 1 key_a = Some (Some [2%N]).
Proof.
  destruct (frun demo_sha (new_forest 0 None false) dirty) as [f|] eqn:E1; [|vm_compute in E1; discriminate].
  destruct (frun demo_sha f later) as [f'|] eqn:E2.
  2: { exfalso. vm_compute in E1. injection E1 as <-. vm_compute in E2. discriminate. }
  exists f, f'. split; [reflexivity|]. split; [exact E2|]. split; [constructor; [discriminate|constructor]|].
  vm_compute in E1. injection E1 as <-. split; [reflexivity|]. vm_compute in E2. injection E2 as <-. reflexivity.
Qed.

(* ---------------- the hypotheses are met by a real run ---------------- *)

Definition k1 (i : N) : bytes := [i].
(* fill, commit with hashing, copy, then write to both sides and copy the copy *)
Definition fill : list (nat * fop) :=
  map (fun i => (0%nat, FSet (k1 i) (Some [i; i]))) [1; 2; 3; 4; 5; 6; 7; 8]%N ++ [(0%nat, FSave true); (0%nat, FCopy true)].
Definition diverge : list (nat * fop) :=
  [(0%nat, FSet (k1 3) (Some [33%N])); (0%nat, FRemove (k1 5)); (0%nat, FSet (k1 9) None); (0%nat, FHash); (0%nat, FSave false);
   (0%nat, FCopy false); (2%nat, FRemove (k1 1)); (2%nat, FSet (k1 7) (Some [])); (2%nat, FSave true); (0%nat, FGet (k1 3))].

Example demo_clean : copies_clean [Tree 0 None (new_cache true)] (fill ++ diverge).
Proof. vm_compute. repeat split; discriminate. Qed.

Example demo_trees : option_map (map (fun t => (t_version t, map fst (root_leaves (t_root t)))))
    (pure_run [Tree 0 None (new_cache true)] (fill ++ diverge)) =
  Some [(2, map k1 [1; 2; 3; 4; 6; 7; 8; 9]%N); (1, map k1 [1; 2; 3; 4; 5; 6; 7; 8]%N); (3, map k1 [2; 3; 4; 6; 7; 8; 9]%N)].
Proof. vm_compute. reflexivity. Qed.

Example demo_isolated :
  match obind (frun demo_sha (new_forest 0 None true) fill) (fun f => option_map (fun f' => (f, f')) (frun demo_sha f diverge)) with
  | Some (f, f') =>
      length (f_trees f) = 2%nat /\ length (f_trees f') = 3%nat /\
      answer_get demo_sha f' 1 (k1 5) = Some (Some [5; 5]%N) /\ answer_get demo_sha f' 0 (k1 5) = Some None /\
      answer_get demo_sha f' 2 (k1 7) = Some (Some []) /\ answer_get demo_sha f' 0 (k1 7) = Some (Some [7; 7]%N) /\
      (* nodes really are shared: all three trees use fewer cells than they have nodes *)
      (next_addr (f_heap f') < 2 * (8 + 8 + 7) - 3)%nat
  | None => False
  end.
Proof. vm_compute. repeat split; repeat constructor. Qed.

Print Assumptions C05_copies_behave_as_independent_trees.
Print Assumptions C05_other_trees_unaffected.
Print Assumptions C05_committed_tree_may_be_copied.
Print Assumptions C05_copy_with_pending_writes_isolated_refuted.
