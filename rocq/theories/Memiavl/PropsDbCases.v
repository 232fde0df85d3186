(* C08-C14: concrete runs that meet the hypotheses of the theorems in PropsDb,
   and the histories for which the English claims fail. *)
From Verif Require Import Lib.Base Lib.Bytes Memiavl.Model Memiavl.Spec Memiavl.HashModel Memiavl.PropsSnapshot
  Memiavl.DbModel Memiavl.DbSpec Memiavl.DbApplyProofs Memiavl.DbProofs Memiavl.DbInv Memiavl.PropsDb.
Open Scope Z_scope.

(* ---------------- running schedules ---------------- *)

Definition nil_b {A} (l : list A) : bool := match l with [] => true | _ => false end.
Fixpoint nodup_b (l : list bytes) : bool := match l with [] => true | x :: l' => negb (existsb (beqb x) l') && nodup_b l' end.
Definition regular_b (strict : bool) (d : db) (s : step) : bool :=
  match s with
  | DUpgrades us => nil_b (we_changes (d_pending d)) && (nil_b (we_upgrades (d_pending d)) || forallb (fun u => negb (up_delete u) && nil_b (up_rename_from u)) us)
  | DChangeSets cs => negb (nil_b (we_changes (d_pending d))) || nodup_b (map nc_name cs)
  | DRewrite => nil_b (we_changes (d_pending d)) && nil_b (we_upgrades (d_pending d))
  | DReopen lost => negb strict || ((lost =? 0)%nat && nil_b (d_queue d))
  | DRollback t => strict && (1 <=? t) && nil_b (d_queue d)
  | _ => true
  end.
Lemma nil_b_spec {A} (l : list A) : nil_b l = true -> l = [].
Proof. destruct l; [reflexivity|discriminate]. Qed.
Lemma nodup_b_spec l : nodup_b l = true -> NoDup l.
Proof.
  induction l as [|x l IH]; cbn [nodup_b]; intro H; constructor; apply andb_true_iff in H; destruct H as [H1 H2]; [|exact (IH H2)].
  intro Hi. apply negb_true_iff in H1. assert (existsb (beqb x) l = true) by (apply existsb_exists; exists x; split; [exact Hi|apply beqb_refl]). congruence.
Qed.
Lemma regular_b_spec strict d s : regular_b strict d s = true -> regular strict d s.
Proof.
  destruct s as [us|cs|name ps|b| | | | |lost|t]; cbn [regular_b regular]; intro H; auto.
  - apply andb_true_iff in H. destruct H as [H1 H2]. split; [apply nil_b_spec; exact H1|]. apply orb_true_iff in H2.
    destruct H2 as [H2 | H2]; [left; apply nil_b_spec; exact H2|right]. apply Forall_forall. intros u Hu. rewrite forallb_forall in H2.
    specialize (H2 u Hu). apply andb_true_iff in H2. destruct H2 as [A B]. split; [apply negb_true_iff; exact A|apply nil_b_spec; exact B].
  - intro E. rewrite E in H. cbn in H. apply nodup_b_spec. exact H.
  - apply andb_true_iff in H. destruct H as [H1 H2]. apply nil_b_spec in H1. apply nil_b_spec in H2. destruct (d_pending d). cbn in *. subst. reflexivity.
  - intros ->. cbn in H. apply andb_true_iff in H. destruct H as [H1 H2]. split; [apply Nat.eqb_eq; exact H1|apply nil_b_spec; exact H2].
  - apply andb_true_iff in H. destruct H as [H H3]. apply andb_true_iff in H. destruct H as [H1 H2]. split; [exact H1|]. split; [lia|apply nil_b_spec; exact H3].
Qed.

Fixpoint sim (sha : bytes -> bytes) (strict : bool) (d : db) (tl : list mtree) (ss : list step) : option (db * list mtree) :=
  match ss with
  | [] => Some (d, tl)
  | s :: ss' => if regular_b strict d s then match dstep sha d s with Ok d' => sim sha strict d' (advance_timeline tl s d') ss' | _ => None end else None
  end.
Lemma sim_runs sha strict base async keep ss : forall d tl d' tl', runs sha strict base async keep d tl ->
  sim sha strict d tl ss = Some (d', tl') -> runs sha strict base async keep d' tl'.
Proof.
  induction ss as [|s ss IH]; intros d tl d' tl' R H; cbn [sim] in H; [inversion H; subst; exact R|].
  destruct (regular_b strict d s) eqn:Er; [|discriminate]. destruct (dstep sha d s) as [d1| |] eqn:E; try discriminate.
  eapply IH; [|exact H]. eapply runs_step; [exact R|apply regular_b_spec; exact Er|exact E].
Qed.

Fixpoint steps (sha : bytes -> bytes) (d : db) (ss : list step) : res db :=
  match ss with [] => Ok d | s :: ss' => rbind (dstep sha d s) (fun d' => steps sha d' ss') end.

(* ---------------- data ---------------- *)

Definition sa : bytes := [97%N].
Definition sb : bytes := [98%N].
Definition sx : bytes := [120%N].
Definition sy : bytes := [121%N].
Definition put (k v : N) : kvpair := KV false [k] (Some [v]).
Definition putempty (k : N) : kvpair := KV false [k] (Some []).
Definition del (k : N) : kvpair := KV true [k] None.
Definition add (n : bytes) : upgrade := Upgrade n [] false.

Definition new_base (init : Z) : mtree := MTree init [] 0 [].
Example new_base_ok : base_ok demo_sha (new_base 100).
Proof. split; [left; repeat split; cbn; lia|]. split; [constructor|]. split; [constructor|reflexivity]. Qed.

(* an imported base at version 7: what export and import (C07) leave *)
Definition imported_tree : tree := match apply_change_set (Tree 6 None None) [put 1 1; put 2 2; put 3 3] with
  | Some t => match save_version t with Ok t' => t' | _ => t end | None => Tree 7 None None end.
Definition imported_base : mtree := MTree 8 [(sa, imported_tree)] 7 (build_infos demo_sha [(sa, imported_tree)]).
Example imported_base_ok : base_ok demo_sha imported_base.
Proof.
  split; [right; split; cbn; lia|]. split; [repeat constructor; intros []|]. split; [|reflexivity].
  constructor; [vm_compute; reflexivity|constructor].
Qed.

(* two stores, mixed calls, a background rewrite that interleaves with commits,
   pruning, a second rewrite, a clean restart, a rollback, more commits *)
Definition block (k v : N) : list step :=
  [DChangeSets [Named sa [put k v; del 1]; Named sb [put v k]]; DChangeSet sa [putempty (k + 1)]; DChangeSet sb []; DChangeSets [Named sb [put 9 v]; Named sa [put 2 k]]; DCommit false].
Definition rewrite_steps : list step := [DRewriteStep; DRewriteStep; DRewriteStep].
Definition history : list step :=
  [DUpgrades [add sb]; DUpgrades [add sa]] ++ block 10 1 ++ block 11 2 ++
  [DRewrite; DRewriteStep; DRewriteStep] ++ block 12 3 ++ [DRewriteStep; DRewriteStep] ++ block 13 4 ++ [DRewriteStep; DChangeSet sa [put 5 5]; DCommit true] ++
  [DPruneStep] ++ block 14 5 ++
  [DRewrite; DRewriteStep; DRewriteStep; DRewriteStep; DRewriteStep; DRewriteStep] ++ block 15 6 ++ [DCommit true; DPruneStep; DPruneStep; DReopen 0] ++ block 16 7.
Definition result (strict : bool) (base : mtree) (async : bool) (ss : list step) : option (db * list mtree) :=
  sim demo_sha strict (fresh_db base async 1) [base] ss.

(* decide whether two lists of store infos agree *)
Definition infos_dec (a b : list store_info) : {a = b} + {a <> b}.
Proof. decide equality. decide equality; [apply list_eq_dec; apply N.eq_dec|apply Z.eq_dec|apply list_eq_dec; apply N.eq_dec]. Defined.
Definition differ (a b : list store_info) : bool := if infos_dec a b then false else true.
Lemma differ_spec a b : differ a b = true -> a <> b.
Proof. unfold differ. destruct (infos_dec a b); [discriminate|auto]. Qed.
Definition infos_of (m : mtree) : list store_info := build_infos demo_sha (mt_trees m).
Definition pending_empty (d : db) : bool := nil_b (we_changes (d_pending d)) && nil_b (we_upgrades (d_pending d)).
Lemma pending_empty_spec d : pending_empty d = true -> d_pending d = empty_entry.
Proof. unfold pending_empty. intro H. apply andb_true_iff in H. destruct H as [H1 H2]. apply nil_b_spec in H1. apply nil_b_spec in H2. destruct (d_pending d). cbn in *. subst. reflexivity. Qed.
Definition failed (d : db) : bool := match d_rewrite d with RFailed => true | _ => false end.
Lemma failed_spec d : failed d = true -> d_rewrite d = RFailed.
Proof. unfold failed. destruct (d_rewrite d); try discriminate; reflexivity. Qed.
Definition err_b {A} (r : res A) : bool := match r with Err => true | _ => false end.
Lemma err_spec {A} (r : res A) : err_b r = true -> r = Err.
Proof. destruct r; try discriminate; reflexivity. Qed.

Lemma result_runs strict base async ss d tl : result strict base async ss = Some (d, tl) -> runs demo_sha strict base async 1 d tl.
Proof. unfold result. intro E. exact (sim_runs _ _ _ _ _ _ _ _ _ _ (runs_start _ _ _ _ _) E). Qed.
Global Opaque result steps.
Lemma rbind_inv {A B} (x : res A) (f : A -> res B) v : rbind x f = Ok v -> exists a, x = Ok a /\ f a = Ok v.
Proof. destruct x as [a| |]; cbn [rbind]; try discriminate. eauto. Qed.
Ltac compute_ok := vm_compute; reflexivity.

Example history_runs : exists d tl, runs demo_sha true (new_base 100) false 1 d tl /\ d_queue d = [] /\ d_async d = false /\
  map mt_version tl = [0; 100; 101; 102; 103; 104; 105; 106; 107; 108] /\
  map fst (snaps (d_disk d)) = [101; 105] /\ current (d_disk d) = 105 /\ log_first (log (d_disk d)) = 3 /\ log_last (log (d_disk d)) = 9 /\
  current_tmp (d_disk d) = false /\ d_pending d = empty_entry.
Proof.
  assert (H : option_map (fun '(d, tl) => (nil_b (d_queue d), d_async d, map mt_version tl, map fst (snaps (d_disk d)), current (d_disk d),
                                           (log_first (log (d_disk d)), log_last (log (d_disk d)), current_tmp (d_disk d), pending_empty d)))
                         (result true (new_base 100) false history) =
              Some (true, false, [0; 100; 101; 102; 103; 104; 105; 106; 107; 108], [101; 105], 105, (3, 9, false, true))) by compute_ok.
  destruct (result true (new_base 100) false history) as [[d tl]|] eqn:E; [|discriminate]. cbn [option_map] in H. injection H as H1 H2 H3 H4 H5 H6 H7 H8 H9.
  exists d, tl. split; [exact (result_runs _ _ _ _ _ _ E)|]. split; [apply nil_b_spec; exact H1|]. repeat (split; [assumption|]).
  apply pending_empty_spec. exact H9.
Qed.

(* the same with an imported base, asynchronous commits, lost entries *)
Definition async_history : list step :=
  [DUpgrades [add sb]] ++ block 10 1 ++ block 11 2 ++ [DFlush; DRewrite; DRewriteStep; DRewriteStep; DRewriteStep] ++ block 12 3 ++
  [DFlush; DReopen 1; DChangeSet sb [put 1 1]; DCommit false; DFlush; DCommit false].
Example async_runs : exists d tl, runs demo_sha false imported_base true 1 d tl /\ length (d_queue d) = 1%nat /\
  map mt_version tl = [7; 8; 9; 10] /\ current (d_disk d) = 7 /\ current_tmp (d_disk d) = true /\
  surviving_version (lose (d_disk d) 0) 8 = 9 /\ surviving_version (lose (d_disk d) 1) 8 = 8 /\ surviving_version (lose (d_disk d) 5) 8 = 7.
Proof.
  assert (H : option_map (fun '(d, tl) => (length (d_queue d), map mt_version tl, current (d_disk d), current_tmp (d_disk d),
      (surviving_version (lose (d_disk d) 0) 8, surviving_version (lose (d_disk d) 1) 8, surviving_version (lose (d_disk d) 5) 8)))
      (result false imported_base true async_history) = Some (1%nat, [7; 8; 9; 10], 7, true, (9, 8, 7))) by compute_ok.
  destruct (result false imported_base true async_history) as [[d tl]|] eqn:E; [|discriminate]. cbn [option_map] in H. injection H as H1 H2 H3 H4 H5 H6 H7.
  exists d, tl. split; [exact (result_runs _ _ _ _ _ _ E)|]. repeat (split; [assumption|]). assumption.
Qed.

Example rollback_demo : exists d tl k m, result true (new_base 100) false history = Some (d, tl) /\ rollback demo_sha (d_disk d) 104 = Ok (k, m) /\
  map fst (snaps k) = [101] /\ current k = 101 /\ log_last (log k) = 5 /\ mt_version m = 104.
Proof.
  assert (H : match result true (new_base 100) false history with
              | Some (d, tl) => match rollback demo_sha (d_disk d) 104 with Ok (k, m) => Some (map fst (snaps k), current k, log_last (log k), mt_version m) | _ => None end
              | None => None end = Some ([101], 101, 5, 104)) by compute_ok.
  destruct (result true (new_base 100) false history) as [[d tl]|]; [|discriminate].
  destruct (rollback demo_sha (d_disk d) 104) as [[k m]| |] eqn:Er; try discriminate. injection H as H1 H2 H3 H4.
  exists d, tl, k, m. split; [reflexivity|]. split; [exact Er|]. auto.
Qed.

(* ---------------- refutations ---------------- *)

Definition start : db := fresh_db (new_base 0) false 1.

(* C13.  A first multi-store call that names a store twice, then another call on
   that store: the log merges the later pairs into the first of the two entries. *)
Theorem C13_duplicate_store_in_one_call_refuted : exists d d', d_pending d = empty_entry /\
  steps demo_sha d [DChangeSets [Named sa [put 1 1]; Named sb [put 1 1]; Named sa [put 1 2]]; DChangeSet sa [put 1 3]] = Ok d' /\
  exists m, apply_wal_entry (d_mt d) (wire (d_pending d')) = Ok m /\ infos_of m <> infos_of (d_mt d').
Proof.
  assert (H : rbind (steps demo_sha start [DUpgrades [add sa; add sb]; DCommit false]) (fun d => rbind (steps demo_sha d [DChangeSets [Named sa [put 1 1]; Named sb [put 1 1]; Named sa [put 1 2]]; DChangeSet sa [put 1 3]]) (fun d' => rbind (apply_wal_entry (d_mt d) (wire (d_pending d'))) (fun m => Ok (pending_empty d, differ (infos_of m) (infos_of (d_mt d')))))) = Ok (true, true)) by compute_ok.
  apply rbind_inv in H. destruct H as [d [E0 H]].
  apply rbind_inv in H. destruct H as [d' [E1 H]].
  apply rbind_inv in H. destruct H as [m [E2 H]].
  injection H as H1 H2. exists d, d'. split; [apply pending_empty_spec; exact H1|]. split; [exact E1|]. exists m. split; [exact E2|apply differ_spec; exact H2].
Qed.

(* C13/C10.  A call that returns an error stays in the pending log; if the
   caller goes on and commits, the database can no longer be opened. *)
Theorem C13_failed_call_poisons_log_refuted : exists d d1 d2,
  db_apply_change_set d sx [put 1 1] = (Err, d1) /\ d_mt d1 = d_mt d /\ commit demo_sha d1 false = Ok d2 /\ reopen demo_sha d2 0 = Err.
Proof.
  assert (H : rbind (steps demo_sha start [DUpgrades [add sa]; DCommit false]) (fun d =>
                rbind (commit demo_sha (snd (db_apply_change_set d sx [put 1 1])) false) (fun d2 =>
                Ok (err_b (mt_apply_change_set (d_mt d) sx [put 1 1]), err_b (reopen demo_sha d2 0)))) = Ok (true, true)) by compute_ok.
  apply rbind_inv in H. destruct H as [d [E0 H]].
  apply rbind_inv in H. destruct H as [d2 [E1 H]].
  injection H as H1 H2. apply err_spec in H1. apply err_spec in H2.
  exists d, (snd (db_apply_change_set d sx [put 1 1])), d2. unfold db_apply_change_set in *. rewrite H1 in *. cbn [snd] in *.
  split; [reflexivity|]. split; [reflexivity|]. split; [exact E1|exact H2].
Qed.

(* C13.  Change sets before an upgrade in the same block are replayed after it. *)
Theorem C13_upgrade_after_changes_refuted : exists d d', d_pending d = empty_entry /\
  steps demo_sha d [DChangeSet sa [put 1 1]; DUpgrades [Upgrade sa [] true]; DCommit false] = Ok d' /\ reopen demo_sha d' 0 = Err.
Proof.
  assert (H : rbind (steps demo_sha start [DUpgrades [add sa; add sb]; DCommit false]) (fun d => rbind (steps demo_sha d [DChangeSet sa [put 1 1]; DUpgrades [Upgrade sa [] true]; DCommit false]) (fun d' => Ok (pending_empty d, err_b (reopen demo_sha d' 0)))) = Ok (true, true)) by compute_ok.
  apply rbind_inv in H. destruct H as [d [E0 H]].
  apply rbind_inv in H. destruct H as [d' [E1 H]].
  injection H as H1 H2. exists d, d'. split; [apply pending_empty_spec; exact H1|]. split; [exact E1|apply err_spec; exact H2].
Qed.

(* C13/C08.  Two upgrade calls in one block are replayed as one call, without
   the sorting in between: the wrong store can be deleted, silently. *)
Theorem C13_two_upgrade_calls_refuted : exists d d' d'', d_pending d = empty_entry /\
  steps demo_sha d [DUpgrades [Upgrade sa [] true]; DUpgrades [Upgrade sx sy false; Upgrade sx [] true]; DCommit false] = Ok d' /\
  reopen demo_sha d' 0 = Ok d'' /\ mt_version (d_mt d'') = mt_version (d_mt d') /\ mt_infos (d_mt d'') <> mt_infos (d_mt d').
Proof.
  assert (H : rbind (steps demo_sha start [DUpgrades [add sa; add sx; add sy]; DChangeSets [Named sx [put 1 1]; Named sy [put 1 2]]; DCommit false]) (fun d => rbind (steps demo_sha d [DUpgrades [Upgrade sa [] true]; DUpgrades [Upgrade sx sy false; Upgrade sx [] true]; DCommit false]) (fun d' => rbind (reopen demo_sha d' 0) (fun d'' => Ok (pending_empty d, mt_version (d_mt d''), mt_version (d_mt d'), differ (mt_infos (d_mt d'')) (mt_infos (d_mt d')))))) = Ok (true, 2, 2, true)) by compute_ok.
  apply rbind_inv in H. destruct H as [d [E0 H]].
  apply rbind_inv in H. destruct H as [d' [E1 H]].
  apply rbind_inv in H. destruct H as [d'' [E2 H]].
  injection H as H1 H2 H3 H4. exists d, d', d''. split; [apply pending_empty_spec; exact H1|]. split; [exact E1|]. split; [exact E2|]. split; [congruence|apply differ_spec; exact H4].
Qed.

(* C08.  A snapshot rewrite started with changes pending stores them under the
   previous version: loading that version gives a state it never had. *)
Theorem C08_rewrite_with_pending_changes_refuted : exists d d' m, d_pending d = empty_entry /\
  steps demo_sha d [DChangeSet sa [put 1 2]; DRewrite; DRewriteStep; DRewriteStep; DCommit false] = Ok d' /\
  load demo_sha (d_disk d') (mt_version (d_mt d)) = Ok m /\ mt_version m = mt_version (d_mt d) /\ infos_of m <> infos_of (d_mt d).
Proof.
  assert (H : rbind (steps demo_sha start [DUpgrades [add sa]; DChangeSet sa [put 1 1]; DCommit false]) (fun d => rbind (steps demo_sha d [DChangeSet sa [put 1 2]; DRewrite; DRewriteStep; DRewriteStep; DCommit false]) (fun d' => rbind (load demo_sha (d_disk d') (mt_version (d_mt d))) (fun m => Ok (pending_empty d, mt_version m, mt_version (d_mt d), differ (infos_of m) (infos_of (d_mt d)))))) = Ok (true, 1, 1, true)) by compute_ok.
  apply rbind_inv in H. destruct H as [d [E0 H]].
  apply rbind_inv in H. destruct H as [d' [E1 H]].
  apply rbind_inv in H. destruct H as [m [E2 H]].
  injection H as H1 H2 H3 H4. exists d, d', m. split; [apply pending_empty_spec; exact H1|]. split; [exact E1|]. split; [exact E2|]. split; [congruence|apply differ_spec; exact H4].
Qed.

(* C10.  A crash between creating and renaming the link "current-tmp" leaves the
   link behind (removeTmpDirs skips links); then every later rewrite fails and
   makes a commit return an error. *)
Theorem C10_leftover_link_refuted : exists d d' d'', current_tmp (d_disk d) = false /\
  steps demo_sha d [DRewrite; DRewriteStep; DRewriteStep; DRewriteStep; DReopen 0] = Ok d' /\
  steps demo_sha d' [DChangeSet sa [put 1 2]; DCommit false; DRewrite; DRewriteStep; DRewriteStep; DRewriteStep] = Ok d'' /\
  d_rewrite d'' = RFailed /\ commit demo_sha d'' true = Err.
Proof.
  assert (H : rbind (steps demo_sha start [DUpgrades [add sa]; DCommit false]) (fun d => rbind (steps demo_sha d [DRewrite; DRewriteStep; DRewriteStep; DRewriteStep; DReopen 0]) (fun d' => rbind (steps demo_sha d' [DChangeSet sa [put 1 2]; DCommit false; DRewrite; DRewriteStep; DRewriteStep; DRewriteStep]) (fun d'' => Ok (current_tmp (d_disk d), failed d'', err_b (commit demo_sha d'' true))))) = Ok (false, true, true)) by compute_ok.
  apply rbind_inv in H. destruct H as [d [E0 H]].
  apply rbind_inv in H. destruct H as [d' [E1 H]].
  apply rbind_inv in H. destruct H as [d'' [E2 H]].
  injection H as H1 H2 H3. exists d, d', d''. split; [exact H1|]. split; [exact E1|]. split; [exact E2|]. split; [apply failed_spec; exact H2|apply err_spec; exact H3].
Qed.

(* C10.  If the log loses entries up to a linked snapshot, reopening works but
   the next commit is refused: its log position is not the next one. *)
Theorem C10_commit_after_lost_tail_refuted : exists d d',
  steps demo_sha start [DUpgrades [add sa]; DCommit false; DCommit false; DRewrite; DRewriteStep; DRewriteStep; DRewriteStep; DRewriteStep] = Ok d /\
  reopen demo_sha d 1 = Ok d' /\ mt_version (d_mt d') = 2 /\ commit demo_sha d' false = Err.
Proof.
  assert (H : rbind (steps demo_sha start [DUpgrades [add sa]; DCommit false; DCommit false; DRewrite; DRewriteStep; DRewriteStep; DRewriteStep; DRewriteStep]) (fun d => rbind (reopen demo_sha d 1) (fun d' => Ok (mt_version (d_mt d'), err_b (commit demo_sha d' false)))) = Ok (2, true)) by compute_ok.
  apply rbind_inv in H. destruct H as [d [E0 H]].
  apply rbind_inv in H. destruct H as [d' [E1 H]].
  injection H as H1 H2. exists d, d'. split; [exact E0|]. split; [exact E1|]. split; [exact H1|apply err_spec; exact H2].
Qed.

(* C08/C10.  With lost log entries a snapshot of the lost timeline can stay in
   the directory under a version number that is then committed again: loading
   that version gives the lost state. *)
Theorem C08_stale_snapshot_refuted : exists d d' m,
  steps demo_sha start [DUpgrades [add sa]; DCommit false; DChangeSet sa [put 1 1]; DCommit false; DRewrite; DRewriteStep; DRewriteStep; DReopen 1] = Ok d /\
  mt_version (d_mt d) = 1 /\
  steps demo_sha d [DChangeSet sa [put 1 2]; DCommit false] = Ok d' /\ mt_version (d_mt d') = 2 /\
  load demo_sha (d_disk d') 2 = Ok m /\ mt_version m = 2 /\ mt_infos m <> mt_infos (d_mt d').
Proof.
  assert (H : rbind (steps demo_sha start [DUpgrades [add sa]; DCommit false; DChangeSet sa [put 1 1]; DCommit false; DRewrite; DRewriteStep; DRewriteStep; DReopen 1]) (fun d => rbind (steps demo_sha d [DChangeSet sa [put 1 2]; DCommit false]) (fun d' => rbind (load demo_sha (d_disk d') 2) (fun m => Ok (mt_version (d_mt d), mt_version (d_mt d'), mt_version m, differ (mt_infos m) (mt_infos (d_mt d')))))) = Ok (1, 2, 2, true)) by compute_ok.
  apply rbind_inv in H. destruct H as [d [E0 H]].
  apply rbind_inv in H. destruct H as [d' [E1 H]].
  apply rbind_inv in H. destruct H as [m [E2 H]].
  injection H as H1 H2 H3 H4. exists d, d', m. split; [exact E0|]. split; [exact H1|]. split; [exact E1|]. split; [exact H2|]. split; [exact E2|]. split; [exact H3|apply differ_spec; exact H4].
Qed.

(* C11.  Rolling back to a version whose own log entry is pruned fails, after
   the link has been moved: version 101 is a retained snapshot of the run above. *)
Theorem C11_target_entry_pruned_refuted : exists d tl k1,
  result true (new_base 100) false history = Some (d, tl) /\ In 101 (map fst (snaps (d_disk d))) /\
  is_ok (load demo_sha (d_disk d) 101) = true /\ rollback demo_sha (d_disk d) 101 = Err /\
  relink (d_disk d) 101 = Ok k1 /\ current k1 <> current (d_disk d).
Proof.
  assert (H : match result true (new_base 100) false history with
              | Some (d, tl) => match relink (d_disk d) 101 with
                | Ok k1 => Some (map fst (snaps (d_disk d)), is_ok (load demo_sha (d_disk d) 101), err_b (rollback demo_sha (d_disk d) 101), current k1, current (d_disk d))
                | _ => None end
              | None => None end = Some ([101; 105], true, true, 101, 105)) by compute_ok.
  destruct (result true (new_base 100) false history) as [[d tl]|]; [|discriminate].
  destruct (relink (d_disk d) 101) as [k1| |] eqn:Er; try discriminate. injection H as H1 H2 H3 H4 H5.
  exists d, tl, k1. split; [reflexivity|]. split; [rewrite H1; left; reflexivity|]. split; [exact H2|]. split; [apply err_spec; exact H3|].
  split; [exact Er|congruence].
Qed.

(* C11/C08.  A target above everything stored is not refused when the log holds
   nothing after the newest snapshot: an older version is returned without error. *)
Theorem C11_future_target_refuted : exists d m,
  steps demo_sha start [DUpgrades [add sa]; DCommit false; DRewrite; DRewriteStep; DRewriteStep; DRewriteStep; DRewriteStep; DRewriteStep] = Ok d /\
  load demo_sha (d_disk d) 50 = Ok m /\ mt_version m = 1.
Proof.
  assert (H : rbind (steps demo_sha start [DUpgrades [add sa]; DCommit false; DRewrite; DRewriteStep; DRewriteStep; DRewriteStep; DRewriteStep; DRewriteStep]) (fun d => rbind (load demo_sha (d_disk d) 50) (fun m => Ok (mt_version m))) = Ok (1)) by compute_ok.
  apply rbind_inv in H. destruct H as [d [E0 H]].
  apply rbind_inv in H. destruct H as [m [E1 H]].
  injection H as H1. exists d, m. split; [exact E0|]. split; [exact E1|exact H1].
Qed.

(* C11.  A crash after cutting the log and before removing the newer snapshots
   leaves a snapshot above the target; once that version is committed again,
   loading it gives the state that was rolled back. *)
Theorem C11_crash_during_rollback_refuted : exists d k1 k2 d2 m,
  steps demo_sha start [DUpgrades [add sa]; DCommit false; DChangeSet sa [put 1 1]; DCommit false; DRewrite; DRewriteStep; DRewriteStep; DRewriteStep; DRewriteStep; DRewriteStep; DCommit true] = Ok d /\
  relink (d_disk d) 0 = Ok k1 /\ cut_log k1 0 1 = Ok k2 /\
  steps demo_sha (set_disk d k2) [DReopen 0; DChangeSet sa [put 1 2]; DCommit false] = Ok d2 /\ mt_version (d_mt d2) = 2 /\
  load demo_sha (d_disk d2) 2 = Ok m /\ mt_infos m <> mt_infos (d_mt d2).
Proof.
  assert (H : rbind (steps demo_sha start [DUpgrades [add sa]; DCommit false; DChangeSet sa [put 1 1]; DCommit false; DRewrite; DRewriteStep; DRewriteStep; DRewriteStep; DRewriteStep; DRewriteStep; DCommit true]) (fun d => rbind (relink (d_disk d) 0) (fun k1 => rbind (cut_log k1 0 1) (fun k2 => rbind (steps demo_sha (set_disk d k2) [DReopen 0; DChangeSet sa [put 1 2]; DCommit false]) (fun d2 => rbind (load demo_sha (d_disk d2) 2) (fun m => Ok (mt_version (d_mt d2), differ (mt_infos m) (mt_infos (d_mt d2)))))))) = Ok (2, true)) by compute_ok.
  apply rbind_inv in H. destruct H as [d [E0 H]].
  apply rbind_inv in H. destruct H as [k1 [E1 H]].
  apply rbind_inv in H. destruct H as [k2 [E2 H]].
  apply rbind_inv in H. destruct H as [d2 [E3 H]].
  apply rbind_inv in H. destruct H as [m [E4 H]].
  injection H as H1 H2. exists d, k1, k2, d2, m. split; [exact E0|]. split; [exact E1|]. split; [exact E2|]. split; [exact E3|]. split; [exact H1|]. split; [exact E4|apply differ_spec; exact H2].
Qed.

(* C11/C14.  Snapshot names are parsed as 32-bit numbers although versions are
   uint32: above 2^31-1 loading a target version and pruning stop working. *)
Theorem C11_large_versions_refuted : exists d, snaps d = [(2 ^ 31, MTree 0 [] (2 ^ 31) [])] /\ current d = 2 ^ 31 /\
  is_ok (load demo_sha d 0) = true /\ load demo_sha d (2 ^ 31) = Err.
Proof. exists (Disk [(2 ^ 31, MTree 0 [] (2 ^ 31) [])] (2 ^ 31) false (Wal 1 [])). split; [reflexivity|]. split; [reflexivity|]. split; vm_compute; reflexivity. Qed.

Example C14_demo : let d := Disk (map (fun v => (v, new_base 0)) [3; 5; 8; 9; 12]) 9 false (Wal 2 (repeat empty_entry 12)) in
  map fst (snaps (prune_all d 2 0)) = [5; 8; 9; 12] /\ log_first (log (prune_all d 2 0)) = 6 /\ log_last (log (prune_all d 2 0)) = 13 /\
  map fst (snaps (prune_all d 0 0)) = [9; 12] /\ log_first (log (prune_all d 0 0)) = 10 /\ map fst (snaps (prune_all d 7 0)) = [3; 5; 8; 9; 12].
Proof. vm_compute. repeat split. Qed.

Print Assumptions C09_versions_and_positions_correspond.
Print Assumptions C09_no_wrap_around.
Print Assumptions C09_below_initial_version_refuted.
Print Assumptions C13_pending_log_replays_to_live_state.
Print Assumptions C13_stores_are_independent.
Print Assumptions C08_any_snapshot_replays_to_live_state.
Print Assumptions C08_load_gives_live_state.
Print Assumptions C10_crash_recovery.
Print Assumptions C10_synchronous_commits_survive.
Print Assumptions C11_rollback_is_exact.
Print Assumptions C11_rollback_succeeds.
Print Assumptions C14_pruning_is_exact.
Print Assumptions C13_duplicate_store_in_one_call_refuted.
Print Assumptions C13_failed_call_poisons_log_refuted.
Print Assumptions C13_upgrade_after_changes_refuted.
Print Assumptions C13_two_upgrade_calls_refuted.
Print Assumptions C08_rewrite_with_pending_changes_refuted.
Print Assumptions C08_stale_snapshot_refuted.
Print Assumptions C10_leftover_link_refuted.
Print Assumptions C10_commit_after_lost_tail_refuted.
Print Assumptions C11_target_entry_pruned_refuted.
Print Assumptions C11_future_target_refuted.
Print Assumptions C11_crash_during_rollback_refuted.
Print Assumptions C11_large_versions_refuted.
