(* C64 queries for logs *)
From Verif Require Import Lib.Base Evmtx.Model Evmtx.Spec Evmtx.Proofs Evmtx.Proofs2 Evmtx.Index Evmtx.Logs
  Evmtx.IndexSpec Evmtx.IndexProofs Evmtx.Props.
Open Scope Z_scope.

Lemma existsb_in a l : existsb (Z.eqb a) l = true <-> In a l.
Proof.
  rewrite existsb_exists. split.
  - intros (x & I & E). apply Z.eqb_eq in E. now subst.
  - intros I. exists a. split; [exact I|apply Z.eqb_refl].
Qed.
Lemma topics_match_spec : forall subs ts, topics_match subs ts = true <->
  forall i sub, nth_error subs i = Some sub -> exists t, nth_error ts i = Some t /\ (sub = [] \/ In t sub).
Proof.
  induction subs as [|sub subs IH]; intros ts; cbn [topics_match].
  - split; [|reflexivity]. intros _ [|i] sub H; discriminate.
  - destruct ts as [|t ts].
    + split; [discriminate|]. intros H. destruct (H 0%nat sub eq_refl) as (t & Q & _). discriminate.
    + rewrite andb_true_iff, IH. split.
      * intros [H1 H2] [|i] s0 E; [|apply H2; exact E]. cbn in E. injection E as <-. exists t. split; [reflexivity|].
        destruct sub as [|a l]; [now left|right]. now apply existsb_in.
      * intros H. split; [|intros i s0 E; exact (H (Datatypes.S i) s0 E)].
        destruct (H 0%nat sub eq_refl) as (t' & E & Q). cbn in E. injection E as <-.
        destruct sub as [|a l]; [reflexivity|]. apply existsb_in. destruct Q; [discriminate|assumption].
Qed.
Lemma wanted_length addrs subs l : wanted addrs subs l -> (length subs <= length (l_topics l))%nat.
Proof.
  intros [_ H]. destruct (Nat.leb_spec (length subs) (length (l_topics l))) as [|L]; [assumption|exfalso].
  assert (E : exists sub, nth_error subs (length (l_topics l)) = Some sub).
  { destruct (nth_error subs (length (l_topics l))) eqn:Q; [eauto|]. apply nth_error_None in Q. lia. }
  destruct E as [sub E]. destruct (H _ _ E) as (t & Q & _).
  assert (nth_error (l_topics l) (length (l_topics l)) <> None) as Z0 by congruence. apply nth_error_Some in Z0. lia.
Qed.
Lemma filter_logs_spec addrs subs p ls : (forall l, p l = true <-> wanted addrs subs l) ->
  filter_logs None None addrs subs ls = filter p ls.
Proof.
  intros P. unfold filter_logs. apply filter_ext. intros l. cbn [negb andb].
  assert (Q : (match addrs with [] => true | _ => includes addrs (l_addr l) end && (length subs <=? length (l_topics l))%nat &&
               topics_match subs (l_topics l)) = true <-> wanted addrs subs l).
  { rewrite !andb_true_iff, topics_match_spec. split.
    - intros [[A _] T]. split; [|exact T]. destruct addrs as [|a l0]; [now left|right]. now apply existsb_in.
    - intros W. pose proof (wanted_length _ _ _ W) as L. destruct W as [A T]. split; [split|exact T].
      + destruct addrs as [|a l0]; [reflexivity|]. destruct A; [discriminate|]. now apply existsb_in.
      + now apply Nat.leb_le. }
  rewrite <- P in Q. destruct (p l).
  - now apply Q.
  - match goal with |- ?b = false => destruct b; [|reflexivity] end. symmetry. now apply Q.
Qed.

Section Masks.
Variable mask_a mask_t : Z -> Z.
Notation run_chain := (run_chain mask_a mask_t).
Notation run_block := (run_block mask_a mask_t).
Notation get_logs := (get_logs mask_a mask_t).
Notation get_block_logs := (get_block_logs mask_a mask_t).
Notation block_logs := (block_logs mask_a mask_t).
Notation scan := (scan mask_a mask_t).

(* the bloom filter of a block passes every wanted log *)
Lemma block_logs_spec s b s' r addrs subs p : 0 <= c_base (b_cfg b) -> run_block s b = (s', r) ->
  (forall l, p l = true <-> wanted addrs subs l) ->
  block_logs addrs subs r = filter p (event_logs (all_events (br_results r))).
Proof.
  intros C H P. pose proof (proj1 (C67_bloom_is_that_of_the_logs _ _ _ _ _ _ C H)) as B.
  unfold Logs.block_logs.
  assert (EL : flat_map (fun x => event_logs (events x)) (br_results r) = event_logs (all_events (br_results r))).
  { clear. unfold all_events. induction (br_results r) as [|x l IH]; [reflexivity|]. cbn [flat_map]. now rewrite event_logs_app, IH. }
  rewrite EL, (filter_logs_spec _ _ p _ P).
  destruct (bloom_filter mask_a mask_t (br_bloom r) addrs subs) eqn:E; [reflexivity|]. symmetry.
  apply not_true_iff_false in E.
  destruct (filter p (event_logs (all_events (br_results r)))) as [|l ls] eqn:F; [reflexivity|]. exfalso. apply E.
  assert (I : In l (filter p (event_logs (all_events (br_results r))))) by (rewrite F; now left).
  apply filter_In in I as [I W]. apply P in W. destruct W as [A T]. destruct (B l I) as [B1 B2].
  unfold bloom_filter. apply andb_true_intro. split.
  - destruct addrs as [|a l0]; [reflexivity|]. destruct A as [A|A]; [discriminate|]. apply existsb_exists.
    exists (l_addr l). split; [exact A|]. apply Z.eqb_eq. exact B1.
  - apply forallb_forall. intros sub S. apply In_nth_error in S as [i S]. destruct (T i sub S) as (t & Q1 & Q2).
    destruct sub as [|a l0]; [reflexivity|]. destruct Q2 as [Q2|Q2]; [discriminate|]. apply existsb_exists.
    exists t. split; [exact Q2|]. apply Z.eqb_eq. apply B2. eapply nth_error_In; eauto.
Qed.
Definition answers (rs : list block_result) (cron : Z -> list log) (p : log -> bool) (h : Z) : list log :=
  filter p (logs_at rs h ++ cron h).
Lemma node_block rs cron h : 0 < h <= Z.of_nat (length rs) -> exists r, n_block (node_of rs cron) h = Some r /\ nth_error rs (Z.to_nat (h - 1)) = Some r.
Proof.
  intros H. cbn [node_of n_block]. destruct (Z.leb_spec h 0); [lia|].
  destruct (nth_error rs (Z.to_nat (h - 1))) eqn:E; [eauto|]. apply nth_error_None in E. lia.
Qed.
Lemma chain_block_logs bs s s' rs addrs subs p h r : Forall (fun b => 0 <= c_base (b_cfg b)) bs ->
  run_chain s bs = (s', rs) -> (forall l, p l = true <-> wanted addrs subs l) ->
  nth_error rs (Z.to_nat (h - 1)) = Some r -> block_logs addrs subs r = filter p (logs_at rs h).
Proof.
  intros C H P E. destruct (run_chain_blocks _ _ _ _ _ _ H C) as [S B].
  destruct (nth_error bs (Z.to_nat (h - 1))) as [b|] eqn:E2.
  - destruct (B _ _ _ E2 E) as (s0 & s1 & R). unfold logs_at. rewrite E. eapply block_logs_spec; eauto.
    rewrite Forall_forall in C. apply C. eapply nth_error_In; eauto.
  - exfalso. assert (L : length bs = length rs). { clear -S. induction S; cbn; congruence. }
    apply nth_error_None in E2. assert (nth_error rs (Z.to_nat (h - 1)) <> None) as Q by congruence. apply nth_error_Some in Q. lia.
Qed.
Lemma scan_spec bs s s' rs cron addrs subs p limit : Forall (fun b => 0 <= c_base (b_cfg b)) bs ->
  run_chain s bs = (s', rs) -> (forall l, p l = true <-> wanted addrs subs l) ->
  forall n h acc, 0 < h -> h + Z.of_nat n <= Z.of_nat (length rs) + 1 -> Z.of_nat (length acc) <= limit \/ n <> O ->
  let all := acc ++ flat_map (answers rs cron p) (numbers h n) in
  scan (node_of rs cron) addrs subs limit h n acc = if limit <? Z.of_nat (length all) then ATooMany else ALogs all.
Proof.
  intros C H P. induction n as [|n IH]; intros h acc Hh L Q; cbn zeta.
  - cbn [Logs.scan numbers List.seq map flat_map]. rewrite app_nil_r. destruct (Z.ltb_spec limit (Z.of_nat (length acc))); [lia|reflexivity].
  - cbn [Logs.scan]. destruct (node_block rs cron h) as (r & -> & E); [lia|].
    rewrite (chain_block_logs _ _ _ _ _ _ _ _ _ C H P E). unfold cron_logs. rewrite (filter_logs_spec _ _ _ _ P). cbn [node_of n_cron].
    change (Datatypes.S n) with (1 + n)%nat. rewrite numbers_app. unfold numbers at 1 3. cbn [List.seq map flat_map app].
    rewrite Z.add_0_r. change (Z.of_nat 1) with 1.
    assert (EA : filter p (logs_at rs h) ++ filter p (cron h) = answers rs cron p h).
    { unfold answers. now rewrite filter_app. }
    assert (EL : (length acc + length (filter p (logs_at rs h)) + length (filter p (cron h)))%nat = length (acc ++ answers rs cron p h)).
    { rewrite <- EA, !app_length. lia. }
    rewrite EA, EL, app_assoc. destruct (Z.ltb_spec limit (Z.of_nat (length (acc ++ answers rs cron p h)))).
    + destruct (Z.ltb_spec limit (Z.of_nat (length ((acc ++ answers rs cron p h) ++ flat_map (answers rs cron p) (numbers (h + 1) n))))); [reflexivity|].
      rewrite (app_length (acc ++ _)) in *. lia.
    + rewrite IH; [reflexivity|lia|lia|now left].
Qed.
Lemma means_bound head x y : means head x y -> bound head x = y.
Proof. unfold means, bound. intros H. destruct (Z.ltb_spec x 0), (Z.eqb_spec x 0); lia. Qed.

(* A query within the chain and the limits returns exactly the wanted logs of the blocks
   in its range, those of each block followed by those of its scheduled tasks, in order:
   none is missed by the bloom filters. Too many wanted logs are an error. *)
Theorem C64_exactly_the_wanted_logs bs s s' rs cron from to f t addrs subs limit blocks p :
  Forall (fun b => 0 <= c_base (b_cfg b)) bs -> run_chain s bs = (s', rs) ->
  (forall l, p l = true <-> wanted addrs subs l) ->
  means (Z.of_nat (length rs)) from f -> means (Z.of_nat (length rs)) to t ->
  1 <= f <= t -> t <= Z.of_nat (length rs) -> t - f <= blocks ->
  let want := flat_map (fun h => filter p (logs_at rs h ++ cron h)) (heights f t) in
  get_logs (node_of rs cron) from to addrs subs limit blocks =
  if limit <? Z.of_nat (length want) then ATooMany else ALogs want.
Proof.
  intros C H P F T L1 L2 L3. cbn zeta. unfold Logs.get_logs. cbn [node_of n_head].
  rewrite (means_bound _ _ _ F), (means_bound _ _ _ T). fold (node_of rs cron).
  destruct (Z.ltb_spec blocks (t - f)); [lia|]. destruct (Z.ltb_spec (Z.of_nat (length rs)) f); [lia|].
  unfold overhang. destruct (Z.ltb_spec (Z.of_nat (length rs) + 600) t); [lia|].
  pose proof (scan_spec bs s s' rs cron addrs subs p limit C H P (Z.to_nat (t + 1 - f)) f [] ltac:(lia) ltac:(lia) ltac:(right; lia)) as Q.
  cbn zeta in Q. cbn [app] in Q. unfold heights. exact Q.
Qed.

(* A wider range than allowed is an error; one that starts after the head is empty. *)
Theorem C64_out_of_range rs cron from to f t addrs subs limit blocks :
  means (Z.of_nat (length rs)) from f -> means (Z.of_nat (length rs)) to t ->
  (blocks < t - f -> get_logs (node_of rs cron) from to addrs subs limit blocks = ATooWide) /\
  (t - f <= blocks -> Z.of_nat (length rs) < f -> get_logs (node_of rs cron) from to addrs subs limit blocks = ALogs []).
Proof.
  intros F T. unfold Logs.get_logs. cbn [node_of n_head]. rewrite (means_bound _ _ _ F), (means_bound _ _ _ T). split.
  - intros L. destruct (Z.ltb_spec blocks (t - f)); [reflexivity|lia].
  - intros L1 L2. destruct (Z.ltb_spec blocks (t - f)); [lia|]. destruct (Z.ltb_spec (Z.of_nat (length rs)) f); [reflexivity|lia].
Qed.

(* A query for one block, named by its hash, returns exactly the wanted logs of its
   transactions. *)
Theorem C64_one_block_by_hash bs s s' rs cron h addrs subs p : Forall (fun b => 0 <= c_base (b_cfg b)) bs ->
  run_chain s bs = (s', rs) -> (forall l, p l = true <-> wanted addrs subs l) -> 1 <= h <= Z.of_nat (length rs) ->
  get_block_logs (node_of rs cron) h addrs subs = ALogs (filter p (logs_at rs h)).
Proof.
  intros C H P L. unfold Logs.get_block_logs. destruct (node_block rs cron h) as (r & -> & E); [lia|].
  now rewrite (chain_block_logs _ _ _ _ _ _ _ _ _ C H P E).
Qed.

(* A range that ends after the head is never answered with a log. *)
Theorem C64_beyond_the_head_nothing rs cron from to f t addrs subs limit blocks ls :
  means (Z.of_nat (length rs)) from f -> means (Z.of_nat (length rs)) to t ->
  1 <= f -> Z.of_nat (length rs) < t ->
  get_logs (node_of rs cron) from to addrs subs limit blocks = ALogs ls -> ls = [].
Proof.
  intros F T L1 L2 G. unfold Logs.get_logs in G. cbn [node_of n_head] in G. fold (node_of rs cron) in G.
  rewrite (means_bound _ _ _ F), (means_bound _ _ _ T) in G.
  destruct (blocks <? t - f); [discriminate|]. destruct (Z.ltb_spec (Z.of_nat (length rs)) f); [injection G; auto|].
  set (t' := if Z.of_nat (length rs) + overhang <? t then Z.of_nat (length rs) + overhang else t) in G.
  assert (T' : Z.of_nat (length rs) < t').
  { unfold t', overhang. destruct (Z.ltb_spec (Z.of_nat (length rs) + 600) t); lia. }
  clearbody t'. clear t T L2.
  assert (Q : forall n h acc, 0 < h -> Z.of_nat (length rs) < h + Z.of_nat n - 1 -> h <= Z.of_nat (length rs) + 1 ->
    Logs.scan mask_a mask_t (node_of rs cron) addrs subs limit h n acc = ALogs ls -> ls = []).
  { induction n as [|n IH]; intros h acc Hh Hn Hl S; [lia|]. cbn [Logs.scan] in S.
    destruct (n_block (node_of rs cron) h) as [r|] eqn:E; [|injection S; auto].
    destruct (limit <? _); [discriminate|].
    assert (h <= Z.of_nat (length rs)).
    { cbn [node_of n_block] in E. destruct (h <=? 0); [discriminate|]. assert (nth_error rs (Z.to_nat (h - 1)) <> None) as Q by congruence.
      apply nth_error_Some in Q. lia. }
    apply IH in S; auto; lia. }
  apply Q in G; auto; lia.
Qed.
End Masks.

(* examples *)
Definition cron0 (h : Z) : list log := if h =? 2 then [mk_log 50 [3] 2 0 0 1 ] else [].
Definition node0 : node := node_of (snd (chain0 [block0; block1])) cron0.
Example ex_C64 :
  get_logs mask_a0 mask_t0 node0 1 (-1) [50] [[3; 9]] 100 10 =
    ALogs [mk_log 50 [3; 4] 1 0 0 1001; mk_log 50 [3] 2 0 0 1] /\
  get_logs mask_a0 mask_t0 node0 0 0 [] [[]; [4]] 100 10 = ALogs [mk_log 50 [3; 4] 1 0 0 1001] /\
  get_logs mask_a0 mask_t0 node0 1 2 [] [] 3 10 = ATooMany /\
  get_block_logs mask_a0 mask_t0 node0 1 [60] [] = ALogs [mk_log 60 [9] 1 2 1 1002].
Proof. vm_compute. repeat split. Qed.
Example ex_C64_wanted : exists p, forall l, p l = true <-> wanted [50] [[3; 9]] l.
Proof.
  exists (fun l => includes [50] (l_addr l) && topics_match [[3; 9]] (l_topics l)). intros l.
  rewrite andb_true_iff, topics_match_spec. unfold wanted, includes. rewrite existsb_in. intuition discriminate.
Qed.

(* The same query with the end one block later loses all its logs. *)
Theorem C64_end_after_head_loses_logs_refuted : exists n l,
  n_head n = 2 /\ get_logs mask_a0 mask_t0 n 1 2 [50] [[4]; []] 100 10 = ALogs [] /\
  get_logs mask_a0 mask_t0 n 1 2 [50] [[]; [4]] 100 10 = ALogs [l] /\
  get_logs mask_a0 mask_t0 n 1 3 [50] [[]; [4]] 100 10 = ALogs [].
Proof. exists node0. eexists. vm_compute. repeat split. Qed.
(* The logs of scheduled tasks are missing when the block is named by its hash. *)
Theorem C64_by_hash_misses_scheduled_tasks_refuted : exists n l,
  get_logs mask_a0 mask_t0 n 2 2 [50] [] 100 10 = ALogs [l] /\ get_block_logs mask_a0 mask_t0 n 2 [50] [] = ALogs [].
Proof. exists node0. eexists. vm_compute. repeat split. Qed.

Print Assumptions C64_exactly_the_wanted_logs.
Print Assumptions C64_out_of_range.
Print Assumptions C64_one_block_by_hash.
Print Assumptions C64_beyond_the_head_nothing.
Print Assumptions C64_end_after_head_loses_logs_refuted.
Print Assumptions C64_by_hash_misses_scheduled_tasks_refuted.
