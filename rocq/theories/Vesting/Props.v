(* C27-C30: schedules and accounts *)
From Verif Require Import Lib.Base Lib.Bytes Lib.Coins Vesting.Model Vesting.Spec Vesting.Proofs Vesting.AccProofs.
Open Scope Z_scope.

(* denominations, schedules and an account used by the examples *)
Definition da : bytes := [97%N].
Definition db : bytes := [98%N].
Definition ps1 : periods := [Per 10 [(da, 5); (db, 1)]; Per 0 [(da, 2)]; Per 5 [(db, 7)]].
Definition ps2 : periods := [Per 3 [(da, 7)]; Per 12 [(db, 8)]].
Definition ps0 : periods := [Per 0 [(da, 4)]; Per 7 [(db, 3)]].
Definition acc1 : vacc := Vacc 1%N [(da, 7); (db, 8)] [(da, 1)] 100 115 ps2 ps1.
Ltac coins_ok := split; [cbn; repeat split; repeat constructor|repeat constructor; cbn; lia].
Lemma ps1_ok : schedule_ok ps1. Proof. repeat constructor; cbn; try lia; apply cvalidb_spec; reflexivity. Qed.
Lemma ps2_ok : schedule_ok ps2. Proof. repeat constructor; cbn; try lia; apply cvalidb_spec; reflexivity. Qed.
Lemma ps0_ok : schedule_ok ps0. Proof. repeat constructor; cbn; try lia; apply cvalidb_spec; reflexivity. Qed.
Lemma acc1_ok : account_ok acc1.
Proof.
  apply validate_ok; [exact ps2_ok|exact ps1_ok|apply cvalidb_spec; reflexivity|apply cvalidb_spec; reflexivity|vm_compute; reflexivity].
Qed.

(* ---------------- C27 ---------------- *)

(* between events: the sum of the releases whose date has come *)
Theorem C27_read_is_sum_of_elapsed_periods start end_ ps total t :
  schedule_ok ps -> total_is ps total -> start + total_length ps <= end_ ->
  cvalid (read_schedule start end_ ps total t) /\
  forall d, amt (read_schedule start end_ ps total t) d = released start ps t d.
Proof. exact (read_spec start end_ ps total t). Qed.
Print Assumptions C27_read_is_sum_of_elapsed_periods.

Theorem C27_read_bounds start end_ ps total t t' d :
  schedule_ok ps -> total_is ps total -> start + total_length ps <= end_ ->
  (t <= start -> read_schedule start end_ ps total t = []) /\
  (start < t -> end_ <= t -> read_schedule start end_ ps total t = total) /\
  (start < t -> start + total_length ps <= t -> read_schedule start end_ ps total t = total) /\
  0 <= amt (read_schedule start end_ ps total t) d <= amt total d /\
  (t <= t' -> amt (read_schedule start end_ ps total t) d <= amt (read_schedule start end_ ps total t') d).
Proof.
  intros H T He. split; [intro L; unfold read_schedule; replace (t <=? start) with true by lia; reflexivity|].
  split; [intros L1 L2; unfold read_schedule; replace (t <=? start) with false by lia; replace (end_ <=? t) with true by lia; reflexivity|].
  destruct (read_spec start end_ ps total t H T He) as [V E]. destruct (read_spec start end_ ps total t' H T He) as [V' E']. split.
  - intros L1 L2. apply cvalid_ext; [exact V|apply T|]. intro c. rewrite E, (proj2 T). unfold released. replace (t <=? start) with false by lia. apply due_after; assumption.
  - rewrite E, (proj2 T). split; [apply released_bounds; exact H|]. intro L. rewrite E'. apply released_mono; assumption.
Qed.
Print Assumptions C27_read_bounds.

(* the number of elapsed periods agrees with the amount read *)
Theorem C27_count_matches_read start end_ ps total t d :
  schedule_ok ps -> total_is ps total -> start + total_length ps <= end_ ->
  amt (read_schedule start end_ ps total t) d = sum_of (firstn (read_past_period_count start end_ ps t) ps) d.
Proof.
  intros H T He. rewrite (proj2 (read_spec start end_ ps total t H T He)), (count_spec start end_ ps t H He). unfold released.
  destruct (t <=? start); [reflexivity|]. symmetry. apply firstn_due. exact H.
Qed.
Print Assumptions C27_count_matches_read.

Example C27_case : schedule_ok ps1 /\ total_is ps1 (total_amount ps1) /\
  map (read_alone 100 ps1) [99; 100; 109; 110; 114; 115; 400] =
  [[]; []; []; [(da, 7); (db, 1)]; [(da, 7); (db, 1)]; [(da, 7); (db, 8)]; [(da, 7); (db, 8)]].
Proof. split; [exact ps1_ok|]. split; [apply total_amount_is, ps1_ok|vm_compute; reflexivity]. Qed.

(* ---------------- C28 ---------------- *)

(* full statement: the equation at every time.  It fails exactly at the start of the
   later schedule when that schedule releases something at its very start, see
   C28_release_at_start_refuted; off_start excludes that moment. *)
Theorem C28_merge_is_sum_partial sa sb pa pb t start e ps :
  schedule_ok pa -> schedule_ok pb -> disjunct_periods sa sb pa pb = (start, e, ps) ->
  off_start t sa sb pa -> off_start t sb sa pb ->
  start = Z.min sa sb /\ e = start + total_length ps /\ schedule_ok ps /\
  total_amount ps = cadd (total_amount pa) (total_amount pb) /\
  read_schedule start e ps (total_amount ps) t = cadd (read_alone sa pa t) (read_alone sb pb t).
Proof.
  intros Ha Hb H Oa Ob. destruct (disjunct_spec _ _ _ _ _ _ _ Ha Hb H) as [E1 [S [E2 [T R]]]].
  split; [exact E1|]. split; [exact E2|]. split; [exact S|].
  destruct (total_amount_is pa Ha) as [VA TA]. destruct (total_amount_is pb Hb) as [VB TB]. destruct (total_amount_is ps S) as [VS TS].
  split; [apply cvalid_ext; [exact VS|apply cadd_valid; assumption|]; intro d; rewrite amt_cadd, TS, TA, TB by (first [apply VA|apply VB]); apply T|].
  destruct (read_alone_spec sa pa t Ha) as [Va Ea]. destruct (read_alone_spec sb pb t Hb) as [Vb Eb].
  destruct (read_spec start e ps (total_amount ps) t S (total_amount_is ps S) ltac:(lia)) as [Vr Er].
  apply cvalid_ext; [exact Vr|apply cadd_valid; assumption|]. intro d. rewrite amt_cadd by (first [apply Va|apply Vb]). rewrite Er, Ea, Eb. apply R; assumption.
Qed.
Print Assumptions C28_merge_is_sum_partial.
Example C28_merge_case :
  disjunct_periods 100 103 ps1 ps2 = (100, 118, [Per 6 [(da, 7)]; Per 4 [(da, 5); (db, 1)]; Per 0 [(da, 2)]; Per 5 [(db, 7)]; Per 3 [(db, 8)]])
  /\ off_start 103 100 103 ps1 /\ off_start 103 103 100 ps2.
Proof. split; [vm_compute; reflexivity|]. split; intros ? ?; cbn; lia. Qed.

(* with equal starts, or when no period is empty, the equation holds at every time *)
Theorem C28_merge_is_sum_everywhere sa sb pa pb t start e ps :
  schedule_ok pa -> schedule_ok pb -> sa = sb \/ (starts_later pa /\ starts_later pb) ->
  disjunct_periods sa sb pa pb = (start, e, ps) ->
  read_schedule start e ps (total_amount ps) t = cadd (read_alone sa pa t) (read_alone sb pb t).
Proof.
  intros Ha Hb Hs H. eapply (C28_merge_is_sum_partial sa sb pa pb t start e ps Ha Hb H); destruct Hs as [Hs|[H1 H2]]; intros ? ?; try assumption; lia.
Qed.
Print Assumptions C28_merge_is_sum_everywhere.

Theorem C28_release_at_start_refuted : exists sa sb pa pb t start e ps,
  schedule_ok pa /\ schedule_ok pb /\ disjunct_periods sa sb pa pb = (start, e, ps) /\
  read_schedule start e ps (total_amount ps) t <> cadd (read_alone sa pa t) (read_alone sb pb t).
Proof.
  exists 100, 105, ps1, ps0, 105. do 3 eexists. split; [exact ps1_ok|]. split; [exact ps0_ok|]. split; [vm_compute; reflexivity|]. vm_compute. discriminate.
Qed.
Print Assumptions C28_release_at_start_refuted.

(* the same for an account receiving a grant; the account stays well formed *)
Theorem C28_grant_adds_partial v gs gl gv gc t :
  account_ok v -> schedule_ok gl -> schedule_ok gv -> total_is gl gc -> total_is gv gc ->
  off_start t (v_start v) gs (v_vesting v) -> off_start t gs (v_start v) gv ->
  off_start t (v_start v) gs (v_lockup v) -> off_start t gs (v_start v) gl ->
  exists v', add_grant v gs gl gv gc = Ok v' /\ account_ok v' /\ v_funder v' = v_funder v /\ v_deleg v' = v_deleg v /\
  v_orig v' = cadd (v_orig v) gc /\
  vested v' t = cadd (vested v t) (read_alone gs gv t) /\
  unlocked v' t = cadd (unlocked v t) (read_alone gs gl t).
Proof.
  intros H Hl Hv Tl Tv O1 O2 O3 O4. destruct (add_grant_spec v gs gl gv gc H Hl Hv Tl Tv) as [v' [E [OK [Ef [Ed [Eo [Hve Hun]]]]]]].
  exists v'. split; [exact E|]. split; [exact OK|]. split; [exact Ef|]. split; [exact Ed|]. split; [exact Eo|].
  destruct (read_alone_spec gs gv t Hv) as [Vv Ev]. destruct (read_alone_spec gs gl t Hl) as [Vl El].
  destruct (vested_spec v t H) as [V1 _]. destruct (unlocked_spec v t H) as [V2 _]. split.
  - apply cvalid_ext; [apply (vested_spec v' t OK)|apply cadd_valid; assumption|]. intro d. rewrite amt_cadd, Ev by (first [apply V1|apply Vv]). apply Hve; auto.
  - apply cvalid_ext; [apply (unlocked_spec v' t OK)|apply cadd_valid; assumption|]. intro d. rewrite amt_cadd, El by (first [apply V2|apply Vl]). apply Hun; auto.
Qed.
Print Assumptions C28_grant_adds_partial.
Example C28_grant_case : account_ok acc1 /\
  rbind (add_grant acc1 90 ps1 ps1 (total_amount ps1)) (fun v => Ok (v_start v, v_end v, v_orig v, vested v 105, vested v 112)) =
  Ok (90, 115, [(da, 14); (db, 16)], [(da, 7); (db, 8)], [(da, 14); (db, 9)]).
Proof. split; [exact acc1_ok|vm_compute; reflexivity]. Qed.

(* ---------------- C29 ---------------- *)

(* full statement: at every time; same excluded moment as C28 *)
Theorem C29_conjunction_is_minimum_partial sa sb pa pb t :
  schedule_ok pa -> schedule_ok pb -> off_start t sa sb pa -> off_start t sb sa pb ->
  exists start e ps, conjunct_periods sa sb pa pb = Ok (start, e, ps) /\ start = Z.min sa sb /\ e = start + total_length ps /\ schedule_ok ps /\
  total_amount ps = cmin (total_amount pa) (total_amount pb) /\
  read_schedule start e ps (total_amount ps) t = cmin (read_alone sa pa t) (read_alone sb pb t).
Proof.
  intros Ha Hb Oa Ob. destruct (conjunct_spec sa sb pa pb Ha Hb) as [start [e [ps [E [E1 [S [E2 [T R]]]]]]]].
  exists start, e, ps. split; [exact E|]. split; [exact E1|]. split; [exact E2|]. split; [exact S|].
  destruct (total_amount_is pa Ha) as [VA TA]. destruct (total_amount_is pb Hb) as [VB TB]. destruct (total_amount_is ps S) as [VS TS].
  split; [apply cvalid_ext; [exact VS|apply cmin_valid; assumption|]; intro d; rewrite amt_cmin, TS, TA, TB by (first [apply VA|apply VB]); apply T|].
  destruct (read_alone_spec sa pa t Ha) as [Va Ea]. destruct (read_alone_spec sb pb t Hb) as [Vb Eb].
  destruct (read_spec start e ps (total_amount ps) t S (total_amount_is ps S) ltac:(lia)) as [Vr Er].
  apply cvalid_ext; [exact Vr|apply cmin_valid; assumption|]. intro d. rewrite amt_cmin by (first [apply Va|apply Vb]). rewrite Er, Ea, Eb. apply R; assumption.
Qed.
Print Assumptions C29_conjunction_is_minimum_partial.
Example C29_case : rbind (conjunct_periods 100 103 ps1 ps2) (fun '(s, e, ps) => Ok (s, e, ps, map (read_schedule s e ps (total_amount ps)) [103; 106; 110; 115; 118])) =
  Ok (100, 118, [Per 10 [(da, 5)]; Per 0 [(da, 2)]; Per 8 [(db, 8)]], [[]; []; [(da, 7)]; [(da, 7)]; [(da, 7); (db, 8)]])
  /\ map (fun t => cmin (read_alone 100 ps1 t) (read_alone 103 ps2 t)) [103; 106; 110; 115; 118] = [[]; []; [(da, 7)]; [(da, 7)]; [(da, 7); (db, 8)]].
Proof. split; vm_compute; reflexivity. Qed.

Theorem C29_conjunction_is_minimum_everywhere sa sb pa pb t :
  schedule_ok pa -> schedule_ok pb -> sa = sb \/ (starts_later pa /\ starts_later pb) ->
  exists start e ps, conjunct_periods sa sb pa pb = Ok (start, e, ps) /\
  read_schedule start e ps (total_amount ps) t = cmin (read_alone sa pa t) (read_alone sb pb t).
Proof.
  intros Ha Hb Hs. destruct (C29_conjunction_is_minimum_partial sa sb pa pb t Ha Hb) as [st [e [ps [E [_ [_ [_ [_ R]]]]]]]];
    [destruct Hs as [Hs|[H1 H2]]; intros ? ?; try assumption; lia..|]. exists st, e, ps. split; assumption.
Qed.
Print Assumptions C29_conjunction_is_minimum_everywhere.

Theorem C29_release_at_start_refuted : exists sa sb pa pb t start e ps,
  schedule_ok pa /\ schedule_ok pb /\ conjunct_periods sa sb pa pb = Ok (start, e, ps) /\
  read_schedule start e ps (total_amount ps) t <> cmin (read_alone sa pa t) (read_alone sb pb t).
Proof.
  exists 100, 111, ps1, ps0, 111. do 3 eexists. split; [exact ps1_ok|]. split; [exact ps0_ok|]. split; [vm_compute; reflexivity|]. vm_compute. discriminate.
Qed.
Print Assumptions C29_release_at_start_refuted.

(* ---------------- C30 ---------------- *)

(* what an account accepted by Validate is *)
Theorem C30_validated_accounts_are_ok v :
  schedule_ok (v_lockup v) -> schedule_ok (v_vesting v) -> cvalid (v_orig v) -> cvalid (v_deleg v) -> validate v = true -> account_ok v.
Proof. exact (validate_ok v). Qed.
Print Assumptions C30_validated_accounts_are_ok.

(* the account computed by a clawback at t.  The message then stores something else,
   see C30_lockup_survives_refuted. *)
Theorem C30_computed_account_partial v t : account_ok v ->
  exists v' c, compute_clawback v t = Ok (v', c) /\ account_ok v' /\
  v_funder v' = v_funder v /\ v_deleg v' = v_deleg v /\ v_start v' = v_start v /\
  cadd c (v_orig v') = v_orig v /\                                         (* coins are conserved *)
  vesting v t = Ok c /\                                                    (* exactly the unvested coins are taken *)
  v_orig v' = vested v t /\                                                (* what was vested remains *)
  (forall t', t <= t' -> vesting v' t' = Ok []) /\                         (* nothing is unvested any more *)
  (forall t', t' <= t -> vested v' t' = vested v t') /\                    (* the past is unchanged *)
  (forall t', unlocked v' t' = cmin (unlocked v t') (vested v t)) /\       (* the same lockup, capped *)
  (forall t', t <= t' -> unlocked_vested v' t' = cmin (unlocked v t') (vested v t)).
Proof.
  intro H. destruct (clawback_spec v t H) as [v' [c [E [OK [Vc [Ef [Ed [Es [Eo [Hc [Hv Hu]]]]]]]]]]]. exists v', c.
  pose proof (orig_valid v H) as Vo. pose proof (orig_valid v' OK) as Vo'. destruct (vested_spec v t H) as [Vv _].
  split; [exact E|]. split; [exact OK|]. split; [exact Ef|]. split; [exact Ed|]. split; [exact Es|].
  split; [apply cvalid_ext; [apply cadd_valid; assumption|exact Vo|]; intro d; rewrite amt_cadd by (first [apply Vc|apply Vo']); apply Hc|].
  split.
  { destruct (vesting_spec v t H) as [c' [E' [Vc' Ac']]]. rewrite E'. f_equal. apply cvalid_ext; [exact Vc'|exact Vc|]. intro d. rewrite Ac'. specialize (Hc d). rewrite Eo in Hc. lia. }
  split; [exact Eo|]. split.
  { intros t' L. destruct (vesting_spec v' t' OK) as [c' [E' [Vc' Ac']]]. rewrite E'. f_equal. apply cvalid_ext; [exact Vc'|apply cvalid_nil|]. intro d. rewrite Ac', Eo, Hv.
    cbn [amt]. destruct (Z.leb_spec t' t); [replace t' with t by lia|]; lia. }
  split.
  { intros t' L. apply cvalid_ext; [apply (vested_spec v' t' OK)|apply (vested_spec v t' H)|]. intro d. rewrite Hv. replace (t' <=? t) with true by lia. reflexivity. }
  assert (U : forall t', unlocked v' t' = cmin (unlocked v t') (vested v t)).
  { intro t'. destruct (unlocked_spec v t' H) as [Vu _]. apply cvalid_ext; [apply (unlocked_spec v' t' OK)|apply cmin_valid; assumption|]. intro d.
    rewrite amt_cmin by (first [apply Vu|apply Vv]). apply Hu. }
  split; [exact U|]. intros t' L. destruct (unlocked_vested_spec v' t' OK) as [V1 E1]. destruct (unlocked_spec v t' H) as [Vu _].
  apply cvalid_ext; [exact V1|apply cmin_valid; assumption|]. intro d. rewrite E1, Hu, Hv, amt_cmin by (first [apply Vu|apply Vv]).
  destruct (Z.leb_spec t' t); [replace t' with t by lia|]; lia.
Qed.
Print Assumptions C30_computed_account_partial.
Example C30_case : account_ok acc1 /\
  rbind (compute_clawback acc1 112) (fun '(v, c) => Ok (c, v_orig v, v_end v, v_lockup v, v_vesting v, unlocked v 104)) =
  Ok ([(db, 7)], [(da, 7); (db, 1)], 115, [Per 3 [(da, 7)]; Per 12 [(db, 1)]], [Per 10 [(da, 5); (db, 1)]; Per 0 [(da, 2)]], [(da, 7)]).
Proof. split; [exact acc1_ok|vm_compute; reflexivity]. Qed.
