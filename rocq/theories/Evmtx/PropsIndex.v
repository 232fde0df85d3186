(* C68 the transaction index, C64 queries for logs *)
From Verif Require Import Lib.Base Evmtx.Model Evmtx.Spec Evmtx.Proofs Evmtx.Proofs2 Evmtx.Index Evmtx.Logs
  Evmtx.IndexSpec Evmtx.IndexProofs Evmtx.Props.
Open Scope Z_scope.

(* ---------------- C68 ---------------- *)
Section Masks.
Variable mask_a mask_t : Z -> Z.
Notation run_chain := (run_chain mask_a mask_t).
Notation run_block := (run_block mask_a mask_t).

(* A chain whose signed messages run once, whose hashes bind and whose blocks have
   different heights. *)
Definition regular (bs : list block) : Prop :=
  Forall (fun b => 0 <= c_base (b_cfg b)) bs /\ tidy bs /\ hashes_bind bs /\ NoDup (map (fun b => c_height (b_cfg b)) bs).

Lemma regular_unique bs s s' rs : regular bs -> run_chain s bs = (s', rs) ->
  Forall2 block_sound bs rs /\ NoDup (map fst (index_chain [] bs rs)) /\
  NoDup (map (fun w => (e_height (snd w), e_eth (snd w))) (index_chain [] bs rs)).
Proof.
  intros (C & T & HB & N) H. destruct (run_chain_blocks _ _ _ _ _ _ H C) as [S _]. split; [exact S|].
  split; [|apply index_slots_nodup; assumption]. apply index_hashes_nodup; auto.
  eapply stepped_nodup. eapply run_chain_stepped; eauto.
Qed.
Lemma placed_write bs rs j i k b m res u f : Forall2 block_sound bs rs -> placed bs rs j i k b m res ->
  expected res = true -> (forall x, In m (x_msgs x) -> nth_error (x_msgs x) k = Some m -> nth_error (view res x) k = Some (u, f)) ->
  exists e, In (m_hash m, e) (index_chain [] bs rs) /\ e_height e = c_height (b_cfg b) /\ e_tx e = Z.of_nat i /\
    e_msg e = Z.of_nat k /\ e_used e = u /\ e_failed e = f /\
    exists r, nth_error rs j = Some r /\ e_eth e = before i (b_txs b) (br_results r) + Z.of_nat k.
Proof.
  intros S (r & x & os & P1 & P2 & P3 & P4 & P5) E V.
  assert (SB : block_sound b r).
  { clear -S P1 P2. revert j P1 P2. induction S; intros [|j] J1 J2; try discriminate; cbn in *; [congruence|eauto]. }
  eexists. split.
  - apply index_chain_in. exists j, b, r. split; [exact P1|]. split; [exact P2|].
    apply (index_txs_in _ _ _ SB). exists i, k, x, os, res, m, u, f. repeat split; auto.
    apply V; [eapply nth_error_In; eauto|exact P5].
  - cbn [e_height e_tx e_msg e_used e_failed e_eth]. repeat split; try lia. exists r. split; [exact P2|lia].
Qed.

(* A completed message is found by its hash, with its place, the gas and the verdict its
   events reported; and by the number the index gives it. That is the number the chain gave
   it when no transaction of the block failed to commit. *)
Theorem C68_completed_is_found bs s s' rs j i k b m res num used failed : regular bs -> run_chain s bs = (s', rs) ->
  placed bs rs j i k b m res -> completed res k m num used failed ->
  let d := index_chain [] bs rs in
  exists e, by_hash d (m_hash m) = Some e /\ e_height e = c_height (b_cfg b) /\ e_tx e = Z.of_nat i /\ e_msg e = Z.of_nat k /\
    e_used e = used /\ e_failed e = failed /\ by_number d (c_height (b_cfg b)) (e_eth e) = Some e /\
    (forall r, nth_error rs j = Some r -> no_commit_failure r -> e_eth e = num).
Proof.
  intros R H P (total & evs & -> & K). cbn zeta. destruct (regular_unique _ _ _ _ R H) as (S & N1 & N2).
  destruct (placed_write bs rs j i k b m _ used failed S P eq_refl) as (e & I & E1 & E2 & E3 & E4 & E5 & r & R1 & R2).
  { intros x _ _. cbn [view]. rewrite (map_nth_error _ _ _ K). reflexivity. }
  exists e. split; [now apply by_hash_unique|]. repeat (split; [assumption|]). split.
  - rewrite <- E1. eapply by_number_unique; eauto.
  - intros r' R' NC. rewrite R1 in R'. injection R' as <-. destruct R as (C & _).
    destruct (run_chain_blocks _ _ _ _ _ _ H C) as [_ RB]. destruct P as (r' & x & os & P1 & P2 & P3 & P4 & P5).
    rewrite P2 in R1. injection R1 as ->. destruct (RB _ _ _ P1 P2) as (s0 & s1 & B).
    unfold Model.run_block in B. destruct (deliver_all mask_a mask_t (b_cfg b) (start s0) 0 (b_txs b)) as [s3 rs3] eqn:E3'.
    injection B as <- <-. cbn [br_results] in *.
    assert (C0 : 0 <= c_base (b_cfg b)). { rewrite Forall_forall in C. apply C. eapply nth_error_In; eauto. }
    rewrite (reported_number _ _ _ C0 _ _ _ _ _ E3' i _ _ k _ _ _ _ (fun j' e' _ Q => NC e' (nth_error_In _ _ Q)) P4 K), R2.
    cbn [start t_index]. lia.
Qed.

(* A message of a transaction that failed for want of block gas, or to commit, is found as
   failed, with its whole gas limit. *)
Theorem C68_shown_failure_is_found bs s s' rs j i k b m res : regular bs -> run_chain s bs = (s', rs) ->
  placed bs rs j i k b m res -> shown_failure res ->
  let d := index_chain [] bs rs in
  exists e, by_hash d (m_hash m) = Some e /\ e_height e = c_height (b_cfg b) /\ e_tx e = Z.of_nat i /\ e_msg e = Z.of_nat k /\
    e_used e = m_gas m /\ e_failed e = true /\ by_number d (c_height (b_cfg b)) (e_eth e) = Some e.
Proof.
  intros R H P (evs & F). cbn zeta. destruct (regular_unique _ _ _ _ R H) as (S & N1 & N2).
  destruct (placed_write bs rs j i k b m res (m_gas m) true S P) as (e & I & E1 & E2 & E3 & E4 & E5 & _).
  { destruct F as [->| ->]; reflexivity. }
  { intros x _ K. destruct F as [->| ->]; cbn [view]; rewrite (map_nth_error _ _ _ K); reflexivity. }
  exists e. split; [now apply by_hash_unique|]. repeat (split; [assumption|]). rewrite <- E1. eapply by_number_unique; eauto.
Qed.

(* Whatever the index returns is a message of an accepted transaction with that hash, at the
   place the answer names. *)
Theorem C68_found_is_there bs s s' rs hash e : Forall (fun b => 0 <= c_base (b_cfg b)) bs -> run_chain s bs = (s', rs) ->
  by_hash (index_chain [] bs rs) hash = Some e ->
  exists j i k b m res, placed bs rs j i k b m res /\ m_hash m = hash /\ e_height e = c_height (b_cfg b) /\
    e_tx e = Z.of_nat i /\ e_msg e = Z.of_nat k /\
    (completed res k m (match res with ROk _ evs => nth k (tx_numbers evs) 0 | _ => 0 end) (e_used e) (e_failed e) \/
     shown_failure res /\ e_used e = m_gas m /\ e_failed e = true).
Proof.
  intros C H F. apply by_hash_in in F. destruct (run_chain_blocks _ _ _ _ _ _ H C) as [S _].
  apply index_chain_in in F as (j & b & r & J1 & J2 & F).
  assert (SB : block_sound b r).
  { clear -S J1 J2. revert j J1 J2. induction S; intros [|j] J1 J2; try discriminate; cbn in *; [congruence|eauto]. }
  apply (index_txs_in _ _ _ SB) in F as (i & k & x & os & res & m & u & f & H1 & H2 & H3 & H4 & H5 & E).
  injection E as -> ->. exists j, i, k, b, m, res. split; [exists r, x, os; auto|]. cbn [e_height e_tx e_msg e_used e_failed].
  repeat (split; [auto; lia|]).
  destruct res as [| |kk evs|used evs]; try discriminate.
  - right. cbn [view] in H5. rewrite (map_nth_error _ _ _ H4) in H5. injection H5 as <- <-. split; [|auto].
    destruct kk; try discriminate; exists evs; auto.
  - left. cbn [view] in H5. exists used, evs. split; [reflexivity|].
    destruct (nth_error (reports evs) k) as [[[[hh num] u0] f0]|] eqn:K.
    + rewrite (map_nth_error _ _ _ K) in H5. injection H5 as <- <-.
      assert (SR : sound_result x (ROk used evs)).
      { clear -SB H1 H2. unfold block_sound in SB. revert i H1 H2. induction SB; intros [|i] J1 J2; try discriminate; cbn in *; [|eauto].
        injection J1 as ->. injection J2 as ->. exact H. }
      destruct SR as [_ SR]. apply (f_equal (fun l => nth_error l k)) in SR. rewrite (map_nth_error _ _ _ K), (map_nth_error _ _ _ H4) in SR.
      cbn [fst] in SR. injection SR as ->. do 4 f_equal. symmetry. apply nth_error_nth. rewrite tx_numbers_reports. now rewrite (map_nth_error _ _ _ K).
    + exfalso. assert (nth_error (map (fun p : Z * Z * Z * bool => (snd (fst p), snd p)) (reports evs)) k <> None) as Q by congruence.
      apply nth_error_Some in Q. rewrite map_length in Q. apply nth_error_None in K. lia.
Qed.

(* The index numbers the messages of every block 0, 1, 2, ... *)
Theorem C68_numbers_have_no_gaps s b s' r : 0 <= c_base (b_cfg b) -> run_block s b = (s', r) ->
  let ws := index_block [] b r in map (fun w => e_eth (snd w)) ws = numbers 0 (length ws).
Proof.
  intros C H. cbn zeta. unfold index_block. cbn [app].
  apply (proj1 (index_txs_eths (c_height (b_cfg b)) (b_txs b) (br_results r)
    ltac:(unfold Model.run_block in H; destruct (deliver_all mask_a mask_t (b_cfg b) (start s) 0 (b_txs b)) as [s3 rs3] eqn:E; injection H as <- <-; exact (deliver_all_sound _ _ _ C _ _ _ _ _ E)) 0 0)).
Qed.
End Masks.

(* Indexing a block again, say after a crash, changes no answer. *)
Theorem C68_reindexing_changes_nothing d b r : let d1 := index_block d b r in let d2 := index_block d1 b r in
  (forall h, by_hash d2 h = by_hash d1 h) /\ (forall h i, by_number d2 h i = by_number d1 h i) /\
  last_block d2 = last_block d1.
Proof.
  cbn zeta. unfold index_block. set (ws := index_txs _ _ _ _ _).
  assert (F : forall f : Z * entry -> bool, find f (List.rev ((d ++ ws) ++ ws)) = find f (List.rev (d ++ ws))).
  { intros f. rewrite !rev_app_distr. generalize (List.rev d) as a. generalize (List.rev ws) as w. clear. intros w a.
    assert (G : forall u v : list (Z * entry), find f (u ++ v) = match find f u with Some x => Some x | None => find f v end).
    { induction u; intros v; cbn; [reflexivity|]. destruct (f a0); auto. }
    rewrite !G. destruct (find f w); reflexivity. }
  assert (H1 : forall h, by_hash ((d ++ ws) ++ ws) h = by_hash (d ++ ws) h).
  { intros h. unfold by_hash. now rewrite F. }
  split; [exact H1|]. split.
  - intros h i. unfold by_number. rewrite F. destruct (find _ (List.rev (d ++ ws))); [apply H1|reflexivity].
  - unfold last_block. rewrite !map_app. clear. set (a := map _ d). set (w := map _ ws).
    assert (G : forall (l : list Z) x, fold_right Z.max x l = Z.max x (fold_right Z.max x l)).
    { induction l; intros x; cbn; [lia|]. rewrite IHl. lia. }
    rewrite !fold_right_app.
    assert (M : forall (l : list Z) x, fold_right Z.max x l = Z.max x (fold_right Z.max (-1) l) \/ x < -1).
    { induction l as [|y l IH]; intros x; cbn; [lia|]. specialize (IH x). lia. }
    f_equal. destruct (M w (fold_right Z.max (-1) w)) as [->|Q]; [lia|]. rewrite G in Q. lia.
Qed.

(* The last indexed block is the highest one with a transaction, -1 if there is none. *)
Theorem C68_last_block_is_the_highest d :
  (d = [] -> last_block d = -1 /\ first_block d = -1) /\
  (Forall (fun w => 0 <= e_height (snd w)) d -> d <> [] ->
   (exists w, In w d /\ e_height (snd w) = last_block d) /\ (exists w, In w d /\ e_height (snd w) = first_block d) /\
   Forall (fun w => first_block d <= e_height (snd w) <= last_block d) d).
Proof.
  split; [now intros ->|]. destruct d as [|w0 d0]; [congruence|]. intros P _. set (d := w0 :: d0) in *.
  assert (L : (exists w, In w d /\ e_height (snd w) = last_block d) /\ Forall (fun w => e_height (snd w) <= last_block d) d).
  { assert (Q : forall l : db, Forall (fun w => e_height (snd w) <= last_block l) l /\ -1 <= last_block l /\
               (last_block l = -1 \/ exists w, In w l /\ e_height (snd w) = last_block l)).
    { clear. induction l as [|w l (I1 & I2 & I3)]; [split; [constructor|]; split; [cbn; lia|now left]|]. unfold last_block in *. cbn [map fold_right]. set (x := fold_right _ _ _) in *.
      split; [|split; [lia|]].
      - constructor; [lia|]. eapply Forall_impl; [|exact I1]. cbn. intros a. lia.
      - destruct (Z.max_spec (e_height (snd w)) x) as [[Q ->]|[Q ->]].
        + destruct I3 as [I3|(w' & J1 & J2)]; [now left|]. right. exists w'. split; [now right|exact J2].
        + right. exists w. split; [now left|reflexivity]. }
    destruct (Q d) as (Q1 & Q2 & Q3). split; [|exact Q1]. destruct Q3 as [Q3|Q3]; [|exact Q3]. exfalso.
    inversion P; subst. inversion Q1; subst. lia. }
  assert (F : (exists w, In w d /\ e_height (snd w) = first_block d) /\ Forall (fun w => first_block d <= e_height (snd w)) d).
  { unfold first_block, d. clear. induction d0 as [|w l ((x & I1 & I2) & I3)].
    - cbn. split; [exists w0; auto|]. repeat constructor. lia.
    - cbn [map fold_right]. set (y := fold_right _ _ _) in *. inversion I3 as [|? ? I4 I5]; subst.
      split.
      + destruct (Z.min_spec (e_height (snd w)) y) as [[Q ->]|[Q ->]].
        * exists w. split; [right; now left|reflexivity].
        * exists x. split; [|exact I2]. destruct I1; [now left|right; now right].
      + constructor; [lia|]. constructor; [lia|]. eapply Forall_impl; [|exact I5]. cbn. intros a. lia. }
  destruct L as [L1 L2], F as [F1 F2]. split; [exact L1|]. split; [exact F1|].
  rewrite Forall_forall in *. intros w W. split; [apply F2|apply L2]; exact W.
Qed.

(* examples *)
Lemma regular01 : regular [block0; block1].
Proof.
  split; [repeat constructor; cbn; lia|]. split; [apply ex_C66|]. split.
  - intros b x os m b' x' os' m' Hb Hx Hm Hb' Hx' Hm' E.
    cbn in Hb, Hb'. destruct Hb as [<-|[<-|[]]], Hb' as [<-|[<-|[]]]; cbn in Hx, Hx';
      destruct Hx as [Hx|[Hx|[]]], Hx' as [Hx'|[Hx'|[]]]; injection Hx as <- <-; injection Hx' as <- <-;
      cbn in Hm, Hm'; destruct Hm as [<-|[]], Hm' as [<-|[]]; try discriminate E; auto.
  - cbn. repeat constructor; cbn; intuition lia.
Qed.
Example ex_C68 : let d := index_chain [] [block0; block1] (snd (chain0 [block0; block1])) in
  by_hash d 1002 = Some (mk_entry 1 1 0 1 100000 false 100000) /\ by_number d 1 1 = by_hash d 1002 /\
  by_hash d 1003 = Some (mk_entry 2 0 0 0 100000 true 100000) /\ by_number d 2 1 = None /\ last_block d = 2 /\ first_block d = 1.
Proof. vm_compute. repeat split. Qed.

(* A transaction that fails to commit its state takes a number in the index but not on the
   chain: the next transaction of the block has number 0 in its receipt and logs, but is
   found under number 1. *)
Theorem C68_number_differs_after_a_commit_failure_refuted : exists b e, let '(_, r) := run_block mask_a0 mask_t0 st0 b in
  let d := index_block [] b r in
  by_hash d 1002 = Some e /\ e_eth e = 1 /\ tx_numbers (all_events (br_results r)) = [0] /\
  (forall l, In l (event_logs (all_events (br_results r))) -> l_hash l = 1002 /\ l_txindex l = 0) /\
  exists e0, by_number d 1 0 = Some e0 /\ by_hash d 1001 = Some e0.
Proof.
  exists block2. eexists. vm_compute. split; [reflexivity|]. split; [reflexivity|]. split; [reflexivity|]. split.
  - intros l [<-|[]]. auto.
  - eexists. split; reflexivity.
Qed.

(* A message with too little gas to start is charged, uses up its nonce, and is never
   found. *)
Definition block3 : block := mk_block (cfg0 1) [(tx_of [poor], [OutRun run0])].
Theorem C68_charged_but_not_found_refuted : exists b, let '(s', r) := run_block mask_a0 mask_t0 st0 b in
  nonces s' 1 = 1 /\ bal s' 1 < bal st0 1 /\ map accepted (br_results r) = [true] /\
  by_hash (index_block [] b r) (m_hash poor) = None.
Proof. exists block3. vm_compute. repeat split. Qed.

(* When a message is executed twice, the first place is answered with the second. *)
Theorem C68_wrong_block_after_replay_refuted : exists bs, let '(_, rs) := run_chain mask_a0 mask_t0 st0 bs in
  let d := index_chain [] bs rs in
  exists e, by_number d 1 1 = Some e /\ e_height e = 2.
Proof. exists bundle. vm_compute. eexists. split; reflexivity. Qed.

Print Assumptions C68_completed_is_found.
Print Assumptions C68_shown_failure_is_found.
Print Assumptions C68_found_is_there.
Print Assumptions C68_numbers_have_no_gaps.
Print Assumptions C68_reindexing_changes_nothing.
Print Assumptions C68_last_block_is_the_highest.
Print Assumptions C68_number_differs_after_a_commit_failure_refuted.
Print Assumptions C68_charged_but_not_found_refuted.
Print Assumptions C68_wrong_block_after_replay_refuted.
