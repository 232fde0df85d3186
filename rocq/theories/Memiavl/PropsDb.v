(* C08-C11, C13, C14: the database over every schedule of calls, background
   steps and crashes. *)
From Verif Require Import Lib.Base Lib.Bytes Memiavl.Model Memiavl.Spec Memiavl.HashModel Memiavl.PropsSnapshot
  Memiavl.DbModel Memiavl.DbSpec Memiavl.DbApplyProofs Memiavl.DbProofs Memiavl.DbInv.
From Coq Require Import Sorting.Sorted.
Open Scope Z_scope.

(* ---------------- C09 ---------------- *)

Theorem C09_versions_and_positions_correspond init : 0 <= init ->
  (forall v, wal_version (wal_index v init) init = v) /\
  (forall i, wal_index (wal_version i init) init = i) /\
  (* the first commit of a new database: the initial version, position 1 *)
  next_version 0 init = Z.max 1 init /\ wal_index (next_version 0 init) init = 1 /\
  (* afterwards versions and positions advance together *)
  (forall v, 1 <= v -> next_version v init = v + 1 /\ wal_index (next_version v init) init = wal_index v init + 1).
Proof.
  intro H. unfold wal_version, wal_index, next_version. split; [|split; [|split; [|split]]].
  - intro v. destruct (1 <? init) eqn:E; lia.
  - intro i. destruct (1 <? init) eqn:E; lia.
  - change (0 =? 0) with true. cbn [andb]. destruct (1 <? init) eqn:E; lia.
  - change (0 =? 0) with true. cbn [andb]. destruct (1 <? init) eqn:E; lia.
  - intros v Hv. destruct (v =? 0) eqn:E0; [lia|]. cbn [andb]. destruct (1 <? init) eqn:E; lia.
Qed.

(* Go's unsigned subtraction and conversions do not wrap: for every uint32
   initial version and every int64 version from the initial one on *)
Theorem C09_no_wrap_around init v : 0 <= init < 2 ^ 32 -> 0 <= v < 2 ^ 63 - 1 -> init <= v + 1 ->
  go_wal_index v init = wal_index v init /\
  go_next_version v init = next_version v init /\
  go_wal_version (go_wal_index v init) init = v.
Proof.
  intros Hi Hv Hle. unfold go_wal_index, go_wal_version, go_next_version, wal_index, next_version, u64, i64.
  change (2 ^ 64) with 18446744073709551616. change (2 ^ 63) with 9223372036854775808 in *. change (2 ^ 32) with 4294967296 in *.
  destruct (1 <? init) eqn:E; rewrite ?andb_true_r, ?andb_false_r.
  - rewrite (Z.mod_small v) by lia.
    assert (Eq : ((v - init) mod 18446744073709551616 + 1) mod 18446744073709551616 = v - init + 1).
    { rewrite Zplus_mod_idemp_l. apply Z.mod_small. lia. }
    rewrite Eq. split; [reflexivity|]. split.
    + destruct (v =? 0) eqn:E0; [reflexivity|]. rewrite Z.mod_small by lia. lia.
    + rewrite (Z.mod_small (v - init + 1 + 9223372036854775808)) by lia.
      rewrite (Z.mod_small (v - init + 1 + 9223372036854775808 - 9223372036854775808 + init + 9223372036854775808)) by lia.
      rewrite Z.mod_small by lia. lia.
  - rewrite (Z.mod_small v) by lia. split; [reflexivity|]. rewrite !Z.mod_small by lia. lia.
Qed.

(* below the initial version the position wraps: the side condition is needed *)
Theorem C09_below_initial_version_refuted : exists init v, 0 <= init < 2 ^ 32 /\ 0 <= v /\ go_wal_index v init <> wal_index v init.
Proof. exists 10, 3. vm_compute. repeat split; discriminate. Qed.

Example C09_demo : map (fun v => (go_wal_index v 1000, go_next_version v 1000)) [0; 1000; 1001; 4000000000] =
  [(18446744073709550617, 1000); (1, 1001); (2, 1002); (3999999001, 4000000001)] /\
  go_wal_index 7 0 = 7 /\ go_wal_index 7 1 = 7 /\ go_wal_version 3 1000 = 1002.
Proof. vm_compute. repeat split. Qed.

(* ---------------- C13 ---------------- *)

Inductive calls_run (sha : bytes -> bytes) : db -> list call -> db -> Prop :=
| calls_nil d : calls_run sha d [] d
| calls_cons d c d1 cs d2 : regular false d (call_step c) -> dstep sha d (call_step c) = Ok d1 -> calls_run sha d1 cs d2 -> calls_run sha d (c :: cs) d2.

(* Whatever calls are made between two commits, the entry that will be written,
   read back from the log, takes the state before the calls to the live state. *)
Theorem C13_pending_log_replays_to_live_state sha d calls d' :
  NoDup (map fst (mt_trees (d_mt d))) -> d_pending d = empty_entry -> calls_run sha d calls d' ->
  apply_wal_entry (d_mt d) (wire (d_pending d')) = Ok (d_mt d').
Proof.
  intros Hnd Hp R. rewrite apply_wal_entry_wire. apply live_replays.
  assert (L : live_db (d_mt d) d) by (unfold live_db; rewrite Hp; apply live_start; exact Hnd).
  assert (X : forall m0, live_db m0 d -> live_db m0 d'); [|exact (X _ L)]. clear L Hnd Hp. intros m0 L.
  induction R as [d|d c d1 cs d2 Hreg H R IH]; [exact L|]. apply IH. clear IH R.
  destruct c as [us|xs|name ps]; cbn [call_step dstep regular] in *; apply rlift_ok in H.
  - eapply live_db_upgrades; [exact L|exact (proj1 Hreg)|exact (proj2 Hreg)|exact H].
  - eapply live_db_change_sets; [exact L|exact Hreg|exact H].
  - eapply live_db_change_set; [exact L|exact H].
Qed.

(* the pairs a call contains for a store *)
Definition call_pairs (name : bytes) (c : call) : list kvpair :=
  match c with CChangeSets cs => pairs_for name cs | CChangeSet n ps => if beqb n name then ps else [] | CUpgrades _ => [] end.
Definition is_change (c : call) : Prop := match c with CUpgrades _ => False | _ => True end.

Lemma apply_one_live d name ps d1 : NoDup (names (d_mt d)) -> db_apply_change_set d name ps = (Ok tt, d1) ->
  Forall2 (updated (one name ps)) (mt_trees (d_mt d)) (mt_trees (d_mt d1)).
Proof.
  intros Hnd. unfold db_apply_change_set. destruct ps as [|p ps].
  - intro H. inversion H; subst. apply updated_nil. intros n _. unfold one. destruct (beqb name n); reflexivity.
  - destruct (mt_apply_change_set (d_mt d) name (p :: ps)) as [m| |] eqn:E; intro H; inversion H; subst.
    apply apply_one_nf in E; [|exact Hnd]. destruct E as [_ [ts [-> F]]]. exact F.
Qed.
Lemma apply_each_live cs : forall d d1, NoDup (names (d_mt d)) -> db_apply_each d cs = (Ok tt, d1) ->
  Forall2 (updated (fun n => pairs_for n cs)) (mt_trees (d_mt d)) (mt_trees (d_mt d1)).
Proof.
  induction cs as [|c cs IH]; intros d d1 Hnd H; cbn [db_apply_each] in H.
  - inversion H; subst. apply updated_nil. reflexivity.
  - destruct (db_apply_change_set d (nc_name c) (nc_pairs c)) as [[[]| |] d0] eqn:E; try discriminate.
    pose proof (apply_one_live _ _ _ _ Hnd E) as F.
    assert (Hnd0 : NoDup (names (d_mt d0))) by (unfold names; rewrite (updated_names _ _ _ F); exact Hnd).
    eapply updated_ext; [|eapply updated_compose; [exact F|exact (IH _ _ Hnd0 H)]]. reflexivity.
Qed.

(* Every store ends up with exactly its own pairs applied, in call order; the
   other stores' pairs and the order between stores do not matter. *)
Theorem C13_stores_are_independent sha d calls d' :
  NoDup (map fst (mt_trees (d_mt d))) -> Forall is_change calls -> calls_run sha d calls d' ->
  map fst (mt_trees (d_mt d')) = map fst (mt_trees (d_mt d)) /\
  forall i name t, nth_error (mt_trees (d_mt d)) i = Some (name, t) ->
    exists t', nth_error (mt_trees (d_mt d')) i = Some (name, t') /\
      apply_change_set t (flat_map (call_pairs name) calls) = Some t'.
Proof.
  intros Hnd Hc R.
  assert (F : Forall2 (updated (fun n => flat_map (call_pairs n) calls)) (mt_trees (d_mt d)) (mt_trees (d_mt d'))).
  { induction R as [d|d c d1 cs d2 Hreg H R IH]; [apply updated_nil; reflexivity|]. inversion Hc as [|? ? Hc1 Hc2]; subst.
    assert (F1 : Forall2 (updated (fun n => call_pairs n c)) (mt_trees (d_mt d)) (mt_trees (d_mt d1))).
    { destruct c as [us|xs|name ps]; cbn [call_step dstep is_change] in *; [contradiction| |]; apply rlift_ok in H.
      - unfold db_apply_change_sets in H. destruct xs as [|x xs]; [inversion H; subst; apply updated_nil; reflexivity|].
        destruct (we_changes (d_pending d)); [|apply (apply_each_live (x :: xs)); [exact Hnd|exact H]].
        destruct (mt_apply_change_sets (d_mt d) (x :: xs)) as [m| |] eqn:E; inversion H; subst.
        apply apply_nf in E; [|exact Hnd]. destruct E as [_ [ts [-> F]]]. exact F.
      - eapply updated_ext; [|exact (apply_one_live _ _ _ _ Hnd H)]. reflexivity. }
    eapply updated_ext; [|eapply updated_compose; [exact F1|apply IH; [unfold names in *; rewrite (updated_names _ _ _ F1); exact Hnd|exact Hc2]]].
    reflexivity. }
  split; [eapply updated_names; exact F|].
  intros i name t Hi. revert i Hi. induction F as [|p q ts ts' [H1 H2] F IH]; intros i Hi; [destruct i; discriminate|].
  destruct i as [|i].
  - cbn in Hi. inversion Hi; subst p. destruct q as [qn qt]. cbn [fst snd] in *. subst qn. exists qt. split; [reflexivity|exact H2].
  - destruct (IH ltac:(cbn in Hnd; inversion Hnd; assumption) i Hi) as [t' T]. exists t'. exact T.
Qed.

(* ---------------- C08 ---------------- *)

Lemma seek_total vs t : (forall v, In v vs -> parsable v = true) -> (exists v, In v vs /\ v <= t) -> exists sv, seek vs t = Ok sv.
Proof.
  induction vs as [|v vs IH]; intros Hp [u [Hu Hle]]; [destruct Hu|]. cbn [seek].
  rewrite (Hp v (or_introl eq_refl)). cbn [negb]. destruct (v <=? t) eqn:E; [eexists; reflexivity|].
  apply IH; [intros x Hx; apply Hp; right; exact Hx|]. exists u. split; [destruct Hu as [<- | Hu]; [lia|exact Hu]|exact Hle].
Qed.

Lemma queue_empty sha V iv d tl es a c : inv sha V iv d tl es a c -> d_queue d = [] -> a = length es.
Proof.
  intros I Hq. pose proof (i_queue _ _ _ _ _ _ _ _ I) as Q. pose proof (i_a _ _ _ _ _ _ _ _ I).
  rewrite Hq in Q. apply (f_equal (@length _)) in Q. rewrite length_number, skipn_length in Q. cbn in Q. lia.
Qed.

(* Start from any snapshot still in the directory, replay the log up to any
   committed version: the result is the state the live node had, node for node,
   with the same store infos (versions and root hashes). *)
Theorem C08_any_snapshot_replays_to_live_state sha base async keep d tl :
  base_ok sha base -> runs sha true base async keep d tl -> d_queue d = [] ->
  forall v snap m, In (v, snap) (snaps (d_disk d)) -> In m tl -> v < mt_version m ->
    catchup sha (load_multi_tree snap) (log (d_disk d)) (mt_version m) = Ok m.
Proof.
  intros Hb R Hq v snap m Hs Hm Hlt. pose proof (base_numbers _ _ Hb) as Hn.
  destruct (runs_state _ _ _ _ _ _ _ Hb R) as [es [a [c [I F]]]]. specialize (F eq_refl).
  pose proof (queue_empty _ _ _ _ _ _ _ _ I Hq) as Ea. subst a.
  pose proof (i_chain _ _ _ _ _ _ _ _ I) as C.
  destruct (f_snaps _ _ _ _ _ F v snap Hs) as [i [-> [Hi Hfi]]].
  apply In_nth_error in Hm. destruct Hm as [n Hm].
  pose proof (g_ver _ _ _ _ _ (chain_good _ _ _ _ _ Hn C _ _ Hm)) as Ev. rewrite Ev in Hlt.
  assert (Hin : (i < n)%nat).
  { destruct (Nat.lt_ge_cases i n) as [L | L]; [exact L|]. apply (ver_le _ _ n i Hn) in L. lia. }
  pose proof (nth_lt _ _ _ Hm) as Len. rewrite (ch_len _ _ _ _ _ C) in Len.
  rewrite (load_good _ _ _ _ _ Hn (chain_good _ _ _ _ _ Hn C _ _ Hi)), Ev.
  destruct (catchup_to sha _ _ tl es (log (d_disk d)) i snap n Hn C (i_log _ _ _ _ _ _ _ _ I) Hi Hfi Hin) as [m' [A1 A2]].
  { rewrite (f_gap _ _ _ _ _ F). lia. }
  rewrite A2. congruence.
Qed.

(* Load at a version (db.go Load with TargetVersion), which picks the snapshot
   itself; and loading the latest version. *)
Theorem C08_load_gives_live_state sha base async keep d tl :
  base_ok sha base -> runs sha true base async keep d tl -> d_queue d = [] ->
  Forall (fun p => parsable (fst p) = true) (snaps (d_disk d)) ->
  (forall m, In m tl -> 1 <= mt_version m -> (exists p, In p (snaps (d_disk d)) /\ fst p <= mt_version m) ->
     load sha (d_disk d) (mt_version m) = Ok m) /\
  (exists m, In m tl /\ load sha (d_disk d) 0 = Ok m /\ (forall m', In m' tl -> mt_version m' <= mt_version m) /\
             (d_pending d = empty_entry -> d_mt d = m)).
Proof.
  intros Hb R Hq Hp. pose proof (base_numbers _ _ Hb) as Hn.
  destruct (runs_state _ _ _ _ _ _ _ Hb R) as [es [a [c [I F]]]]. specialize (F eq_refl).
  pose proof (queue_empty _ _ _ _ _ _ _ _ I Hq) as Ea. subst a.
  pose proof (i_chain _ _ _ _ _ _ _ _ I) as C. pose proof (f_gap _ _ _ _ _ F) as Gap. split.
  - intros m Hm Hpos [p [Hps Hle]]. apply In_nth_error in Hm. destruct Hm as [n Hm].
    pose proof (g_ver _ _ _ _ _ (chain_good _ _ _ _ _ Hn C _ _ Hm)) as Ev. rewrite Ev in *.
    pose proof (nth_lt _ _ _ Hm) as Len. rewrite (ch_len _ _ _ _ _ C) in Len.
    destruct (seek_total (versions_desc (d_disk d)) (ver (mt_version base) (mt_init base) n)) as [sv Hsv].
    { intros v Hv. unfold versions_desc in Hv. rewrite <- in_rev in Hv. apply in_map_iff in Hv. destruct Hv as [q [<- Hq']].
      rewrite Forall_forall in Hp. apply Hp. exact Hq'. }
    { exists (fst p). split; [|exact Hle]. unfold versions_desc. rewrite <- in_rev. apply in_map. exact Hps. }
    assert (Hlen : (n <= length es)%nat) by lia.
    assert (Hl : Z.of_nat n <= log_last (log (d_disk d))) by (rewrite Gap; lia).
    destruct (load_at sha _ _ Hn d tl es (length es) c n I F Hlen (or_introl Hl) Hpos sv Hsv) as [m' [i [A1 [A2 _]]]]. congruence.
  - destruct (reopen_ok sha _ _ Hn d tl es (length es) c O I) as [m [A1 [A2 [A3 [A4 A5]]]]].
    exists m. split; [eapply nth_error_In; exact A1|].
    assert (Ek : lose (d_disk d) 0 = d_disk d).
    { unfold lose. rewrite Nat.sub_0_r, firstn_all. destruct (d_disk d) as [? ? ? []]; reflexivity. }
    unfold reopen in A2. rewrite Ek in *. destruct (load sha (d_disk d) 0) as [x| |] eqn:El; cbn [rbind] in A2; try discriminate.
    inversion A2; subst x. split; [reflexivity|].
    assert (Ew : Nat.max c (Z.to_nat (log_last (log (d_disk d)))) = length es).
    { rewrite Gap. destruct (i_snap _ _ _ _ _ _ _ _ I) as [y [Y _]]. pose proof (nth_lt _ _ _ Y) as L. rewrite (ch_len _ _ _ _ _ C) in L. lia. }
    rewrite Ew in A1. split.
    + intros m' Hm'. apply In_nth_error in Hm'. destruct Hm' as [j Hj].
      rewrite (g_ver _ _ _ _ _ (chain_good _ _ _ _ _ Hn C _ _ Hj)), (g_ver _ _ _ _ _ (chain_good _ _ _ _ _ Hn C _ _ A1)).
      apply (ver_le _ _ _ _ Hn). pose proof (nth_lt _ _ _ Hj) as L. rewrite (ch_len _ _ _ _ _ C) in L. lia.
    + intro Hpe. destruct (i_live _ _ _ _ _ _ _ _ I) as [m0 [B1 B2]]. unfold live_db in B2. rewrite Hpe in B2.
      apply live_replays in B2. cbn in B2. congruence.
Qed.

(* ---------------- C10 ---------------- *)

(* the newest version that survives: the linked snapshot or the last log entry left *)
Definition surviving_version (k : disk) (init : Z) : Z :=
  match log_entries (log k) with [] => current k | _ => Z.max (current k) (wal_version (log_last (log k)) init) end.

(* After every schedule of calls, background steps, crashes and lost log tails
   (asynchronous commits included) the next reopening succeeds, yields exactly
   one of the committed states, with nothing pending, and that state is the one
   of the newest surviving version. *)
Theorem C10_crash_recovery sha base async keep d tl :
  base_ok sha base -> runs sha false base async keep d tl -> forall lost,
  exists d', reopen sha d lost = Ok d' /\ In (d_mt d') tl /\ d_pending d' = empty_entry /\ d_queue d' = [] /\
    d_disk d' = lose (d_disk d) lost /\
    mt_version (d_mt d') = surviving_version (lose (d_disk d) lost) (mt_init base) /\
    (forall m, In m tl -> mt_version m = mt_version (d_mt d') -> m = d_mt d').
Proof.
  intros Hb R lost. pose proof (base_numbers _ _ Hb) as Hn.
  destruct (runs_state _ _ _ _ _ _ _ Hb R) as [es [a [c [I _]]]].
  pose proof (i_chain _ _ _ _ _ _ _ _ I) as C.
  destruct (reopen_ok sha _ _ Hn d tl es a c lost I) as [m [A1 [A2 [A3 [A4 A5]]]]].
  eexists. split; [exact A2|]. cbn [d_mt d_pending d_queue d_disk]. split; [eapply nth_error_In; exact A1|].
  split; [reflexivity|]. split; [reflexivity|]. split; [reflexivity|].
  assert (Ev : forall j x, nth_error tl j = Some x -> mt_version x = ver (mt_version base) (mt_init base) j)
    by (intros j x Hx; exact (g_ver _ _ _ _ _ (chain_good _ _ _ _ _ Hn C _ _ Hx))).
  split.
  - rewrite (Ev _ _ A1). set (k := lose (d_disk d) lost) in *. unfold surviving_version.
    change (current k) with (current (d_disk d)). rewrite (i_cur _ _ _ _ _ _ _ _ I).
    pose proof (lo_first _ _ A3) as L1. pose proof (i_first _ _ _ _ _ _ _ _ I) as Fi. change (log_first (log (d_disk d))) with (log_first (log k)) in Fi.
    destruct (log_entries (log k)) as [|e l] eqn:El.
    + f_equal. assert (log_last (log k) = log_first (log k) - 1) by (unfold log_last; rewrite El; cbn; lia). lia.
    + assert (Hpos : 1 <= log_last (log k)) by (unfold log_last; rewrite El; cbn [length]; lia).
      set (n := Z.to_nat (log_last (log k))) in *. assert (En : log_last (log k) = Z.of_nat n) by lia. rewrite En.
      assert (Enn : wal_version (Z.of_nat n) (mt_init base) = ver (mt_version base) (mt_init base) n) by (unfold ver; destruct n; [lia|reflexivity]).
      rewrite Enn. destruct (Nat.max_spec c n) as [[Hlt ->] | [Hle ->]].
      * assert (c <= n)%nat as Hle by lia. apply (ver_le _ _ _ _ Hn) in Hle. lia.
      * apply (ver_le _ _ _ _ Hn) in Hle. lia.
  - intros x Hx E. apply In_nth_error in Hx. destruct Hx as [j Hj]. rewrite (Ev _ _ Hj), (Ev _ _ A1) in E.
    apply (ver_inj _ _ _ _ Hn) in E. subst j. congruence.
Qed.

(* With synchronous commits, a crash of the process alone loses nothing. *)
Theorem C10_synchronous_commits_survive sha base keep d tl m :
  base_ok sha base -> runs sha true base false keep d tl -> d_async d = false -> In m tl ->
  exists d', reopen sha d 0 = Ok d' /\ mt_version m <= mt_version (d_mt d') /\ In (d_mt d') tl.
Proof.
  intros Hb R Ha Hm. pose proof (base_numbers _ _ Hb) as Hn.
  destruct (runs_state _ _ _ _ _ _ _ Hb R) as [es [a [c [I F]]]]. specialize (F eq_refl).
  pose proof (i_chain _ _ _ _ _ _ _ _ I) as C. pose proof (queue_empty _ _ _ _ _ _ _ _ I (i_sync _ _ _ _ _ _ _ _ I Ha)) as ->.
  destruct (reopen_ok sha _ _ Hn d tl es (length es) c O I) as [x [A1 [A2 [A3 [A4 A5]]]]].
  eexists. split; [exact A2|]. cbn [d_mt]. split; [|eapply nth_error_In; exact A1].
  apply In_nth_error in Hm. destruct Hm as [j Hj].
  rewrite (g_ver _ _ _ _ _ (chain_good _ _ _ _ _ Hn C _ _ Hj)), (g_ver _ _ _ _ _ (chain_good _ _ _ _ _ Hn C _ _ A1)).
  apply (ver_le _ _ _ _ Hn). pose proof (nth_lt _ _ _ Hj) as L. rewrite (ch_len _ _ _ _ _ C) in L.
  assert (El : log_last (log (lose (d_disk d) 0)) = log_last (log (d_disk d))).
  { unfold lose, log_last. cbn [log log_first log_entries]. rewrite Nat.sub_0_r, firstn_all. reflexivity. }
  rewrite El, (f_gap _ _ _ _ _ F). lia.
Qed.

(* ---------------- C11 ---------------- *)

(* A rollback that succeeds returns exactly the state of the target version;
   opening the directory afterwards gives it again; no snapshot or log entry
   above it is left and all snapshots up to it are kept.  (Rollback is also a
   step of [runs true], so C08 holds for everything committed afterwards.) *)
Theorem C11_rollback_is_exact sha base async keep d tl target k m :
  base_ok sha base -> runs sha true base async keep d tl -> 1 <= target ->
  rollback sha (d_disk d) target = Ok (k, m) ->
  In m tl /\ mt_version m = target /\ load sha k 0 = Ok m /\
  (forall v x, In (v, x) (snaps k) <-> In (v, x) (snaps (d_disk d)) /\ v <= target) /\
  wal_version (log_last (log k)) (mt_init base) = target /\
  (forall i e, log_read (log k) i = Ok e -> wal_version i (mt_init base) <= target).
Proof.
  intros Hb R Ht H. pose proof (base_numbers _ _ Hb) as Hn.
  destruct (runs_state _ _ _ _ _ _ _ Hb R) as [es [a [c [I F]]]]. specialize (F eq_refl).
  pose proof (i_chain _ _ _ _ _ _ _ _ I) as C.
  destruct (rollback_ok sha _ _ Hn d tl es a c target k m I F Ht H) as [n [i [Et [Hn1 [Hin [Hle [Hm [Hc [Hs [Hf [L1 [L2 [L3 L4]]]]]]]]]]]]].
  pose proof (g_ver _ _ _ _ _ (chain_good _ _ _ _ _ Hn C _ _ Hm)) as Ev.
  split; [eapply nth_error_In; exact Hm|]. split; [congruence|].
  assert (Ew : wal_version (Z.of_nat n) (mt_init base) = target) by (rewrite Et; unfold ver; destruct n; [lia|reflexivity]).
  split; [|split; [|split; [rewrite L2; exact Ew|]]].
  - unfold load. change (0 <? 0) with false. cbn [rbind]. rewrite Hc. destruct Hs as [x [X1 X2]]. rewrite X2.
    rewrite (load_good _ _ _ _ _ Hn (chain_good _ _ _ _ _ Hn C _ _ X1)). change (0 =? 0) with true. cbn [orb].
    destruct (catchup_latest sha _ _ tl es (log k) i x Hn C L1 X1 L4) as [m' [B1 B2]]. rewrite B2. rewrite L2 in B1.
    replace (Nat.max i (Z.to_nat (Z.of_nat n))) with n in B1 by lia. congruence.
  - intros v x. rewrite Hf, filter_In. cbn [fst]. split; intros [P Q]; split; auto; lia.
  - intros j e Hj. unfold log_read in Hj. destruct (j <? log_first (log k)) eqn:E; [discriminate|].
    destruct (nth_error (log_entries (log k)) (Z.to_nat (j - log_first (log k)))) eqn:En; [|discriminate].
    pose proof (nth_lt _ _ _ En) as L. unfold log_last in L2. rewrite <- Ew. unfold wal_version. destruct (1 <? mt_init base); lia.
Qed.

(* It succeeds when the target's own log entry and a snapshot below it are
   still there, all snapshot names are readable and no "current-tmp" is left. *)
Theorem C11_rollback_succeeds sha base async keep d tl m :
  base_ok sha base -> runs sha true base async keep d tl -> d_queue d = [] -> In m tl -> 1 <= mt_version m ->
  Forall (fun p => parsable (fst p) = true) (snaps (d_disk d)) ->
  (exists p, In p (snaps (d_disk d)) /\ fst p <= mt_version m) ->
  log_first (log (d_disk d)) <= wal_index (mt_version m) (mt_init base) <= log_last (log (d_disk d)) ->
  current_tmp (d_disk d) = false ->
  exists k, rollback sha (d_disk d) (mt_version m) = Ok (k, m).
Proof.
  intros Hb R Hq Hm Hpos Hp [p [Hps Hpl]] Hlog Htmp. pose proof (base_numbers _ _ Hb) as Hn.
  destruct (runs_state _ _ _ _ _ _ _ Hb R) as [es [a [c [I F]]]]. specialize (F eq_refl).
  pose proof (i_chain _ _ _ _ _ _ _ _ I) as C.
  pose proof (queue_empty _ _ _ _ _ _ _ _ I Hq) as Ea. subst a.
  destruct (C08_load_gives_live_state sha base async keep d tl Hb R Hq Hp) as [HL _].
  specialize (HL m Hm Hpos (ex_intro _ p (conj Hps Hpl))).
  apply In_nth_error in Hm. destruct Hm as [n Hm]. pose proof (chain_good _ _ _ _ _ Hn C _ _ Hm) as G.
  destruct (seek_total (versions_desc (d_disk d)) (mt_version m)) as [sv Hsv].
  { intros v Hv. unfold versions_desc in Hv. rewrite <- in_rev in Hv. apply in_map_iff in Hv. destruct Hv as [q [<- Hq']].
    rewrite Forall_forall in Hp. apply Hp. exact Hq'. }
  { exists (fst p). split; [|exact Hpl]. unfold versions_desc. rewrite <- in_rev. apply in_map. exact Hps. }
  unfold rollback. rewrite HL. cbn [rbind]. rewrite Hsv. cbn [rbind]. unfold relink. rewrite Htmp.
  assert (Hdrop : forall vs t l, (forall v, In v vs -> parsable v = true) -> exists l', drop_above l vs t = Ok l').
  { induction vs as [|v vs IH]; intros t l Hv; cbn [drop_above]; [eexists; reflexivity|]. rewrite (Hv v (or_introl eq_refl)). cbn [negb].
    destruct (v <=? t); [eexists; reflexivity|]. apply IH. intros x Hx. apply Hv. right. exact Hx. }
  assert (Hcut : exists w, truncate_back (log (d_disk d)) (wal_index (mt_version m) (mt_init m)) = Ok w).
  { unfold truncate_back. rewrite (g_init _ _ _ _ _ G). pose proof (lo_first _ _ (i_log _ _ _ _ _ _ _ _ I)).
    destruct (_ || _ || _) eqn:E; [|eexists; reflexivity]. exfalso. rewrite !orb_true_iff in E. lia. }
  destruct Hcut as [w Hw].
  assert (Hpv : forall v, In v (versions_desc (d_disk d)) -> parsable v = true).
  { intros v Hv. unfold versions_desc in Hv. rewrite <- in_rev in Hv. apply in_map_iff in Hv. destruct Hv as [q [<- Hq']].
    rewrite Forall_forall in Hp. apply Hp. exact Hq'. }
  destruct (sv =? current (d_disk d)); cbn [rbind]; unfold cut_log; cbn [log]; rewrite Hw; cbn [rbind]; unfold drop_newer; cbn [snaps];
    match goal with |- context [drop_above ?l ?vs ?t] => destruct (Hdrop vs t l Hpv) as [l' El] end; rewrite El; cbn [rbind]; eexists; reflexivity.
Qed.

(* ---------------- C14 ---------------- *)

(* how many snapshots lie strictly between v and the current one *)
Definition newer_than (v cur : Z) (vs : list Z) : Z := Z.of_nat (length (filter (fun u => (v <? u) && (u <? cur)) vs)).

Lemma victims_spec vs cur : desc vs -> forall k l, 0 <= k -> victims vs cur k = Ok l ->
  forall v, In v l <-> In v vs /\ v < cur /\ k <= newer_than v cur vs.
Proof.
  induction 1 as [|v0 vs Hs IH Hf]; intros k l Hk H v; cbn [victims] in H.
  - inversion H; subst. cbn. tauto.
  - destruct (negb (parsable v0)); [discriminate|]. rewrite Forall_forall in Hf.
    assert (Hz : newer_than v0 cur vs = 0).
    { unfold newer_than. assert (E : filter (fun u => (v0 <? u) && (u <? cur)) vs = []); [|rewrite E; reflexivity].
      clear -Hf. induction vs as [|u vs IHv]; [reflexivity|]. cbn [filter]. pose proof (Hf u (or_introl eq_refl)).
      destruct ((v0 <? u) && (u <? cur)) eqn:E; [lia|]. apply IHv. intros x Hx. apply Hf. right. exact Hx. }
    assert (Hc : newer_than v cur (v0 :: vs) = (if (v <? v0) && (v0 <? cur) then 1 else 0) + newer_than v cur vs).
    { unfold newer_than. cbn [filter]. destruct ((v <? v0) && (v0 <? cur)); cbn [length]; lia. }
    destruct (cur <=? v0) eqn:E1.
    + rewrite (IH k l Hk H v), Hc. replace ((v <? v0) && (v0 <? cur)) with false by (destruct (v <? v0); cbn; lia).
      cbn [In]. split; [intros [A B]; split; [right; exact A|lia]|]. intros [[<- | A] B]; [lia|]. split; [exact A|lia].
    + destruct (0 <? k) eqn:E2.
      * rewrite (IH (k - 1) l ltac:(lia) H v), Hc. cbn [In]. split.
        -- intros [A [B D]]. specialize (Hf v A). split; [right; exact A|]. split; [exact B|].
           destruct ((v <? v0) && (v0 <? cur)) eqn:E; lia.
        -- intros [[<- | A] [B D]].
           ++ rewrite Z.ltb_irrefl in D. cbn [andb] in D. lia.
           ++ specialize (Hf v A). split; [exact A|]. split; [exact B|]. destruct ((v <? v0) && (v0 <? cur)) eqn:E; lia.
      * destruct (victims vs cur k) as [l'| |] eqn:Ev; cbn [rbind] in H; try discriminate. inversion H; subst. cbn [In].
        rewrite (IH k l' Hk Ev v), Hc. split.
        -- intros [<- | [A [B D]]].
           ++ rewrite Hz, Z.ltb_irrefl. cbn [andb]. split; [left; reflexivity|lia].
           ++ split; [right; exact A|]. split; [exact B|]. destruct ((v <? v0) && (v0 <? cur)); lia.
        -- intros [[<- | A] [B D]]; [left; reflexivity|]. right. split; [exact A|]. split; [exact B|]. unfold newer_than. lia.
Qed.

Lemma fold_prune vs : forall d, let d' := fold_left prune_one vs d in
  log d' = log d /\ current d' = current d /\ current_tmp d' = current_tmp d /\
  (forall p, In p (snaps d') <-> In p (snaps d) /\ ~ In (fst p) vs) /\ (sorted_snaps (snaps d) -> sorted_snaps (snaps d')).
Proof.
  induction vs as [|v vs IH]; intros d d'; [unfold d'; cbn; repeat split; auto; tauto|].
  destruct (IH (prune_one d v)) as [A [B [C [D E]]]]. subst d'. cbn [fold_left]. split; [exact A|]. split; [exact B|]. split; [exact C|].
  split; [|intro Hs; apply E; apply remove_sorted; exact Hs].
  intro p. rewrite D. unfold prune_one, remove_snap. cbn [snaps]. rewrite filter_In, negb_true_iff. cbn [In].
  split; [intros [[H1 H2] H3]; split; [exact H1|intros [H4 | H4]; [lia|contradiction]]|].
  intros [H1 H2]. split; [split; [exact H1|]|]; [apply Z.eqb_neq; intro; apply H2; left; congruence|intro; apply H2; right; assumption].
Qed.

(* Any directory with readable snapshot names, any keep-recent setting: after
   pruning the snapshots left are exactly the current one, newer ones, and the
   [keep] newest below the current one; "current" still points to the same one;
   the log keeps its end and every entry after the oldest snapshot left. *)
Theorem C14_pruning_is_exact d keep init :
  sorted_snaps (snaps d) -> Forall (fun p => parsable (fst p) = true) (snaps d) -> In (current d) (map fst (snaps d)) ->
  0 <= keep -> 0 <= current d ->
  let d' := prune_all d keep init in
  current d' = current d /\ In (current d) (map fst (snaps d')) /\
  (forall v m, In (v, m) (snaps d') <-> In (v, m) (snaps d) /\ (current d <= v \/ newer_than v (current d) (versions_desc d) < keep)) /\
  (forall v m i, In (v, m) (snaps d') -> wal_index (v + 1) init <= i -> log_read (log d') i = log_read (log d) i) /\
  log_last (log d') = log_last (log d).
Proof.
  intros Hs Hp Hc Hk Hcur d'. unfold d', prune_all.
  assert (Pc : parsable (current d) = true).
  { apply in_map_iff in Hc. destruct Hc as [p [<- Hi]]. rewrite Forall_forall in Hp. apply Hp. exact Hi. }
  rewrite Pc. cbn [negb].
  assert (Hpv : forall v, In v (versions_desc d) -> parsable v = true).
  { intros v Hv. unfold versions_desc in Hv. rewrite <- in_rev in Hv. apply in_map_iff in Hv. destruct Hv as [q [<- Hq']].
    rewrite Forall_forall in Hp. apply Hp. exact Hq'. }
  assert (Htot : forall vs cur k, (forall v, In v vs -> parsable v = true) -> exists l, victims vs cur k = Ok l).
  { induction vs as [|v vs IH]; intros cur k Hv; cbn [victims]; [eexists; reflexivity|]. rewrite (Hv v (or_introl eq_refl)). cbn [negb].
    assert (Hv' : forall x, In x vs -> parsable x = true) by (intros; apply Hv; right; assumption).
    destruct (cur <=? v); [apply IH; exact Hv'|]. destruct (0 <? k); [apply IH; exact Hv'|].
    destruct (IH cur k Hv') as [l ->]. eexists. reflexivity. }
  destruct (Htot _ (current d) keep Hpv) as [l El]. rewrite El. pose proof (victims_spec _ _ (desc_versions _ Hs) keep l Hk El) as Hv.
  destruct (fold_prune l d) as [F1 [F2 [F3 [F4 F5]]]]. specialize (F5 Hs). set (k := fold_left prune_one l d) in *.
  assert (Hdk : snaps (prune_log k init) = snaps k /\ current (prune_log k init) = current k)
    by (unfold prune_log; destruct (truncate_front _ _); split; reflexivity).
  destruct Hdk as [Ek1 Ek2]. rewrite Ek1, Ek2, F2.
  assert (Hsn : forall v m, In (v, m) (snaps k) <-> In (v, m) (snaps d) /\ (current d <= v \/ newer_than v (current d) (versions_desc d) < keep)).
  { intros v m. rewrite F4. cbn [fst]. rewrite Hv. split; intros [A B]; split; auto.
    - destruct (Z.lt_ge_cases v (current d)) as [L | L]; [right|left; lia].
      destruct (Z.lt_ge_cases (newer_than v (current d) (versions_desc d)) keep) as [L2 | L2]; [exact L2|]. exfalso. apply B.
      split; [|split; [exact L|lia]]. unfold versions_desc. rewrite <- in_rev. apply in_map_iff. exists (v, m). auto.
    - intros [_ [B1 B2]]. lia. }
  split; [reflexivity|]. split; [|split; [exact Hsn|]].
  - apply in_map_iff in Hc. destruct Hc as [[v m] [E Hi]]. cbn in E. subst v. apply in_map_iff. exists (current d, m). split; [reflexivity|].
    apply Hsn. split; [exact Hi|left; lia].
  - unfold prune_log. rewrite F1. destruct (truncate_front (log d) (wal_index (earliest k + 1) init)) as [w| |] eqn:E; cbn [log]; rewrite ?F1.
    2,3: split; [reflexivity|reflexivity].
    unfold truncate_front in E. destruct (_ || _ || _) eqn:Eo; [discriminate|]. inversion E; subst w. clear E.
    apply orb_false_iff in Eo. destruct Eo as [Eo E3]. apply orb_false_iff in Eo. destruct Eo as [E1 E2].
    unfold log_last in *. unfold log_read. cbn [log_first log_entries]. split; [|rewrite skipn_length; lia].
    intros v m i Hi Hle.
    assert (He : earliest k <= v).
    { destruct (Z.le_gt_cases 0 v) as [L | L]; [eapply earliest_le; eassumption|].
      unfold earliest. destruct (snaps k) as [|[u x] r] eqn:Esn; [destruct Hi|].
      pose proof (sorted_head _ _ _ F5 _ _ Hi) as Hu. destruct (parsable u) eqn:Epu; [exact Hu|]. unfold parsable in Epu.
      change (2 ^ 31) with 2147483648 in Epu. lia. }
    pose proof (index_mono init (earliest k + 1) (v + 1) ltac:(lia)).
    destruct (i <? wal_index (earliest k + 1) init) eqn:Ei; [lia|]. destruct (i <? log_first (log d)) eqn:Ei2; [lia|].
    rewrite nth_skipn. replace (Z.to_nat (wal_index (earliest k + 1) init - log_first (log d)) + Z.to_nat (i - wal_index (earliest k + 1) init))%nat
      with (Z.to_nat (i - log_first (log d))) by lia. reflexivity.
Qed.
