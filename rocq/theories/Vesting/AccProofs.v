From Verif Require Import Lib.Base Lib.Bytes Lib.Coins Vesting.Model Vesting.Spec Vesting.Proofs.
Open Scope Z_scope.

Lemma read_alone_spec s ps t : schedule_ok ps -> cvalid (read_alone s ps t) /\ forall d, amt (read_alone s ps t) d = released s ps t d.
Proof. intro H. apply read_spec; [exact H|apply total_amount_is; exact H|lia]. Qed.

Lemma due_zero_at s other ps t d : schedule_ok ps -> off_start t s other ps -> other < t -> t <= s -> due (releases s ps) t d = 0.
Proof.
  intros H O L1 L2. destruct (Z.eq_dec t s) as [E|E]; [|apply due_before; [exact H|lia]].
  assert (S : starts_later ps) by (apply O; lia). destruct ps as [|p q]; [reflexivity|]. inversion H as [|? ? [_ _] H3]; subst. cbn [starts_later] in S.
  cbn [releases due]. rewrite due_before by (assumption || lia). destruct (Z.leb_spec (s + plen p) s); lia.
Qed.

(* the merge, as dated releases *)
Lemma disjunct_spec sa sb pa pb start e ps : schedule_ok pa -> schedule_ok pb -> disjunct_periods sa sb pa pb = (start, e, ps) ->
  start = Z.min sa sb /\ schedule_ok ps /\ e = start + total_length ps /\ (forall d, sum_of ps d = sum_of pa d + sum_of pb d) /\
  forall t d, off_start t sa sb pa -> off_start t sb sa pb -> released start ps t d = released sa pa t d + released sb pb t d.
Proof.
  intros Ha Hb H. unfold disjunct_periods in H. destruct (disj pa sa sb pb (Z.min sa sb)) as [e' ps'] eqn:E. injection H as <- <- <-.
  assert (Fa : first_ge (Z.min sa sb) sa pa) by (destruct pa as [|p q]; [exact I|]; inversion Ha as [|? ? [L _] _]; subst; cbn; lia).
  assert (Fb : first_ge (Z.min sa sb) sb pb) by (destruct pb as [|p q]; [exact I|]; inversion Hb as [|? ? [L _] _]; subst; cbn; lia).
  destruct (disj_spec pa sa sb pb (Z.min sa sb) Ha Hb Fa Fb) as [S [Ee [T D]]]. rewrite E in *. cbn [fst snd] in *.
  split; [reflexivity|]. split; [exact S|]. split; [exact Ee|]. split; [exact T|]. intros t d Oa Ob. unfold released. rewrite D.
  destruct (Z.leb_spec t (Z.min sa sb)) as [L|L].
  - destruct (Z.leb_spec t sa); destruct (Z.leb_spec t sb); lia.
  - destruct (Z.leb_spec t sa) as [La|La]; destruct (Z.leb_spec t sb) as [Lb|Lb]; try lia.
    + rewrite (due_zero_at sa sb pa t d Ha Oa) by lia. lia.
    + rewrite (due_zero_at sb sa pb t d Hb Ob) by lia. lia.
Qed.
Lemma conjunct_spec sa sb pa pb : schedule_ok pa -> schedule_ok pb ->
  exists start e ps, conjunct_periods sa sb pa pb = Ok (start, e, ps) /\ start = Z.min sa sb /\ schedule_ok ps /\ e = start + total_length ps /\
  (forall d, sum_of ps d = Z.min (sum_of pa d) (sum_of pb d)) /\
  forall t d, off_start t sa sb pa -> off_start t sb sa pb -> released start ps t d = Z.min (released sa pa t d) (released sb pb t d).
Proof.
  intros Ha Hb. unfold conjunct_periods.
  assert (Fa : first_ge (Z.min sa sb) sa pa) by (destruct pa as [|p q]; [exact I|]; inversion Ha as [|? ? [L _] _]; subst; cbn; lia).
  assert (Fb : first_ge (Z.min sa sb) sb pb) by (destruct pb as [|p q]; [exact I|]; inversion Hb as [|? ? [L _] _]; subst; cbn; lia).
  assert (H0 : cst_ok (Cst [] [] [] (Z.min sa sb))) by (repeat split; try constructor).
  destruct (conj_loop_spec pa sa sb pb _ Ha Hb H0 Fa Fb) as [e [ps [E [S [Te D]]]]]. rewrite E. cbn [rbind lastT totA totB resulting] in *.
  exists (Z.min sa sb), e, ps. split; [reflexivity|]. split; [reflexivity|]. split; [exact S|]. split; [exact Te|].
  pose proof (total_length_nonneg pa Ha) as La. pose proof (total_length_nonneg pb Hb) as Lb. pose proof (total_length_nonneg ps S) as Ls. split.
  - intro d. set (t := Z.max (sa + total_length pa) (sb + total_length pb) + total_length ps).
    rewrite <- (due_after ps (Z.min sa sb) t d S) by lia. rewrite D. rewrite (due_after pa) by (assumption || lia). rewrite (due_after pb) by (assumption || lia). cbn [amt]. lia.
  - intros t d Oa Ob. pose proof (due_nonneg pa sa t d Ha). pose proof (due_nonneg pb sb t d Hb). unfold released. rewrite D. cbn [amt].
    destruct (Z.leb_spec t (Z.min sa sb)) as [L|L].
    + destruct (Z.leb_spec t sa); destruct (Z.leb_spec t sb); lia.
    + destruct (Z.leb_spec t sa) as [L1|L1]; destruct (Z.leb_spec t sb) as [L2|L2]; try lia.
      * rewrite (due_zero_at sa sb pa t d Ha Oa) by lia. lia.
      * rewrite (due_zero_at sb sa pb t d Hb Ob) by lia. lia.
Qed.

(* ---------------- accounts ---------------- *)

Lemma vested_spec v t : account_ok v -> cvalid (vested v t) /\ forall d, amt (vested v t) d = released (v_start v) (v_vesting v) t d.
Proof. intros [H1 [H2 [H3 [H4 [H5 [H6 _]]]]]]. apply read_spec; assumption. Qed.
Lemma unlocked_spec v t : account_ok v -> cvalid (unlocked v t) /\ forall d, amt (unlocked v t) d = released (v_start v) (v_lockup v) t d.
Proof. intros [H1 [H2 [H3 [H4 [H5 [H6 _]]]]]]. apply read_spec; assumption. Qed.
Lemma orig_valid v : account_ok v -> cvalid (v_orig v).
Proof. intros [_ [_ [[V _] _]]]. exact V. Qed.
Lemma vested_le v t d : account_ok v -> amt (vested v t) d <= amt (v_orig v) d.
Proof.
  intro H. rewrite (proj2 (vested_spec v t H)). destruct H as [_ [H2 [_ [[_ T] _]]]]. rewrite T. apply released_bounds. exact H2.
Qed.
Lemma unlocked_le v t d : account_ok v -> amt (unlocked v t) d <= amt (v_orig v) d.
Proof.
  intro H. rewrite (proj2 (unlocked_spec v t H)). destruct H as [H1 [_ [[_ T] _]]]. rewrite T. apply released_bounds. exact H1.
Qed.
Lemma unlocked_vested_spec v t : account_ok v ->
  cvalid (unlocked_vested v t) /\ forall d, amt (unlocked_vested v t) d = Z.min (amt (unlocked v t) d) (amt (vested v t) d).
Proof.
  intro H. destruct (vested_spec v t H) as [Vv _]. destruct (unlocked_spec v t H) as [Vu _]. unfold unlocked_vested.
  pose proof (cmin_valid _ _ Vu Vv) as Vm. destruct (cis_zero (cmin (unlocked v t) (vested v t))) eqn:E.
  - split; [apply cvalid_nil|]. intro d. rewrite <- amt_cmin by (first [apply Vu|apply Vv]). symmetry. apply (proj1 (cis_zero_amt _ Vm) E).
  - split; [exact Vm|]. intro d. apply amt_cmin; [apply Vu|apply Vv].
Qed.
Lemma locked_up_vested_spec v t : account_ok v -> exists c, locked_up_vested v t = Ok c /\ cvalid c /\
  forall d, amt c d = amt (vested v t) d - Z.min (amt (unlocked v t) d) (amt (vested v t) d).
Proof.
  intro H. destruct (vested_spec v t H) as [Vv _]. destruct (unlocked_vested_spec v t H) as [Vu Eu].
  destruct (csub_ok (vested v t) (unlocked_vested v t) Vv Vu) as [c [E [Vc Ec]]]; [intro d; rewrite Eu; lia|].
  exists c. split; [exact E|]. split; [exact Vc|]. intro d. rewrite Ec, Eu. reflexivity.
Qed.
Lemma vesting_spec v t : account_ok v -> exists c, vesting v t = Ok c /\ cvalid c /\ forall d, amt c d = amt (v_orig v) d - amt (vested v t) d.
Proof.
  intro H. apply csub_ok; [apply orig_valid; exact H|apply (vested_spec v t H)|]. intro d. apply vested_le. exact H.
Qed.
Lemma locked_up_spec v t : account_ok v -> exists c, locked_up v t = Ok c /\ cvalid c /\ forall d, amt c d = amt (v_orig v) d - amt (unlocked v t) d.
Proof.
  intro H. apply csub_ok; [apply orig_valid; exact H|apply (unlocked_spec v t H)|]. intro d. apply unlocked_le. exact H.
Qed.
Lemma locked_coins_spec v t : account_ok v -> exists c, locked_coins v t = Ok c /\ cvalid c /\
  forall d, let uv := Z.min (amt (unlocked v t) d) (amt (vested v t) d) in
    amt c d = amt (v_orig v) d - uv - Z.min (amt (v_deleg v) d) (amt (vested v t) d - uv).
Proof.
  intro H. unfold locked_coins. destruct (locked_up_vested_spec v t H) as [luv [E [Vl El]]]. rewrite E. cbn [rbind].
  destruct (unlocked_vested_spec v t H) as [Vu Eu]. assert (Vd : cvalid (v_deleg v)) by apply H.
  pose proof (cmin_valid _ _ Vd Vl) as Vm. pose proof (cadd_valid _ _ Vu Vm) as Va. pose proof (orig_valid v H) as Vo.
  assert (Ea : forall d, amt (cadd (unlocked_vested v t) (cmin (v_deleg v) luv)) d =
    Z.min (amt (unlocked v t) d) (amt (vested v t) d) + Z.min (amt (v_deleg v) d) (amt (vested v t) d - Z.min (amt (unlocked v t) d) (amt (vested v t) d))).
  { intro d. rewrite amt_cadd by (first [apply Vu|apply Vm]). rewrite amt_cmin by (first [apply Vd|apply Vl]). rewrite Eu, El. reflexivity. }
  destruct (csafe_sub_spec (v_orig v) (cadd (unlocked_vested v t) (cmin (v_deleg v) luv)) Vo Va) as [S1 [S2 [S3 S4]]].
  destruct (csafe_sub (v_orig v) (cadd (unlocked_vested v t) (cmin (v_deleg v) luv))) as [r neg]. cbn [fst snd] in *.
  assert (Hle : forall d, amt (cadd (unlocked_vested v t) (cmin (v_deleg v) luv)) d <= amt (v_orig v) d).
  { intro d. rewrite Ea. pose proof (vested_le v t d H). lia. }
  rewrite (proj2 S2 Hle). exists r. split; [reflexivity|]. split.
  - apply valid_of; [exact S3|exact S4|]. intro d. rewrite S1. specialize (Hle d). lia.
  - intro d. cbv zeta. rewrite S1, Ea. lia.
Qed.

Lemma coin_eq_spec a b : cvalid a -> cvalid b -> coin_eq a b = true -> a = b.
Proof.
  intros Va Vb H. unfold coin_eq in H. apply andb_prop in H. destruct H as [H1 H2].
  apply cvalid_ext; [exact Va|exact Vb|]. intro d.
  pose proof (proj1 (call_lte_spec a b Va Vb) H1 d). pose proof (proj1 (call_lte_spec b a Vb Va) H2 d). lia.
Qed.
Lemma validate_ok v : schedule_ok (v_lockup v) -> schedule_ok (v_vesting v) -> cvalid (v_orig v) -> cvalid (v_deleg v) -> validate v = true -> account_ok v.
Proof.
  intros Hl Hv Vo Vd H. unfold validate in H. apply andb_prop in H as [H H5]. apply andb_prop in H as [H H4]. apply andb_prop in H as [H H3]. apply andb_prop in H as [H1 H2].
  destruct (total_amount_is _ Hl) as [Vl Tl]. destruct (total_amount_is _ Hv) as [Vv Tv].
  apply coin_eq_spec in H3; [|exact Vl|exact Vo]. apply coin_eq_spec in H5; [|exact Vv|exact Vo].
  split; [exact Hl|]. split; [exact Hv|]. split; [rewrite <- H3; split; assumption|]. split; [rewrite <- H5; split; assumption|]. split; [lia|]. split; [lia|exact Vd].
Qed.

(* ---------------- clawback ---------------- *)

Lemma clawback_spec v t : account_ok v -> exists v' c, compute_clawback v t = Ok (v', c) /\ account_ok v' /\ cvalid c /\
  v_funder v' = v_funder v /\ v_deleg v' = v_deleg v /\ v_start v' = v_start v /\
  v_orig v' = vested v t /\
  (forall d, amt c d + amt (v_orig v') d = amt (v_orig v) d) /\
  (forall t' d, amt (vested v' t') d = if t' <=? t then amt (vested v t') d else amt (vested v t) d) /\
  (forall t' d, amt (unlocked v' t') d = Z.min (amt (unlocked v t') d) (amt (vested v t) d)).
Proof.
  intro H. pose proof H as [Hl [Hv [Tl [Tv [El [Ev Vd]]]]]]. destruct (vested_spec v t H) as [Vv Av].
  unfold compute_clawback. destruct (vesting_spec v t H) as [unv [E [Vu Au]]]. rewrite E. cbn [rbind].
  assert (Hc : schedule_ok [Per 0 (vested v t)]) by (constructor; [split; [cbn; lia|exact Vv]|constructor]).
  destruct (conjunct_spec (v_start v) (v_start v) (v_lockup v) _ Hl Hc) as [st [e [ps [Ec [Est [Sps [Ee [Sum Rel]]]]]]]]. rewrite Ec. cbn [rbind].
  rewrite Z.min_id in Est. subst st.
  set (nv := firstn (passed_count v t) (v_vesting v)). eexists _, unv. split; [reflexivity|].
  assert (Hnv : schedule_ok nv) by (apply firstn_ok; exact Hv).
  assert (Cnt : passed_count v t = if t <=? v_start v then O else due_count (releases (v_start v) (v_vesting v)) t) by (apply count_spec; assumption).
  assert (Snv : forall d, sum_of nv d = amt (vested v t) d).
  { intro d. unfold nv. rewrite Cnt, Av. unfold released. destruct (t <=? v_start v); [reflexivity|]. apply firstn_due. exact Hv. }
  assert (Spp : forall d, sum_of ps d = amt (vested v t) d).
  { intro d. rewrite Sum. cbn [sum_of pamt]. pose proof (vested_le v t d H) as Hle. pose proof (proj2 Tl d) as T1. lia. }
  set (v' := Vacc _ _ _ _ _ _ _).
  assert (OK : account_ok v').
  { unfold v'. split; [exact Sps|]. split; [exact Hnv|]. split; [split; [exact Vv|]; intro d; rewrite Spp; reflexivity|].
    split; [split; [exact Vv|]; intro d; rewrite Snv; reflexivity|]. cbn [v_start v_end v_lockup v_vesting v_deleg].
    split; [lia|]. split; [lia|exact Vd]. }
  split; [exact OK|]. split; [exact Vu|]. split; [reflexivity|]. split; [reflexivity|]. split; [reflexivity|]. split; [reflexivity|].
  split; [intro d; rewrite Au; cbn [v' v_orig]; lia|]. split.
  - intros t' d. rewrite (proj2 (vested_spec v' t' OK)), (proj2 (vested_spec v t' H)), Av. unfold v'. cbn [v_start v_vesting]. unfold nv. rewrite Cnt. unfold released.
    destruct (Z.leb_spec t' t) as [L|L]; destruct (Z.leb_spec t (v_start v)) as [L1|L1]; destruct (Z.leb_spec t' (v_start v)) as [L2|L2]; try lia; try reflexivity.
    + apply firstn_released; [exact Hv|exact L].
    + rewrite <- (firstn_due (v_vesting v)) by exact Hv. apply due_after; [apply firstn_ok; exact Hv|].
      pose proof (firstn_date (v_vesting v) (v_start v) t Hv ltac:(lia)). lia.
  - intros t' d. rewrite (proj2 (unlocked_spec v' t' OK)), (proj2 (unlocked_spec v t' H)). unfold v'. cbn [v_start v_lockup].
    assert (Oa : off_start t' (v_start v) (v_start v) (v_lockup v)) by (intros _ Hlt; lia).
    assert (Ob : off_start t' (v_start v) (v_start v) [Per 0 (vested v t)]) by (intros _ Hlt; lia).
    rewrite (Rel t' d Oa Ob).
    unfold released. cbn [releases due plen pamt]. pose proof (due_nonneg (v_lockup v) (v_start v) t' d Hl). pose proof (valid_nonneg (vested v t) d Vv).
    destruct (Z.leb_spec t' (v_start v)); [lia|]. destruct (Z.leb_spec (v_start v + 0) t'); lia.
Qed.

(* ---------------- grants ---------------- *)

Lemma add_grant_spec v gs gl gv gc : account_ok v -> schedule_ok gl -> schedule_ok gv -> total_is gl gc -> total_is gv gc ->
  exists v', add_grant v gs gl gv gc = Ok v' /\ account_ok v' /\ v_funder v' = v_funder v /\ v_deleg v' = v_deleg v /\
  v_orig v' = cadd (v_orig v) gc /\
  (forall t d, off_start t (v_start v) gs (v_vesting v) -> off_start t gs (v_start v) gv \/ (v_lockup v = [] /\ v_vesting v = []) ->
     amt (vested v' t) d = amt (vested v t) d + released gs gv t d) /\
  (forall t d, off_start t (v_start v) gs (v_lockup v) -> off_start t gs (v_start v) gl \/ (v_lockup v = [] /\ v_vesting v = []) ->
     amt (unlocked v' t) d = amt (unlocked v t) d + released gs gl t d).
Proof.
  intros H Hgl Hgv Tgl Tgv. pose proof H as [Hl [Hv [Tl [Tv [El [Ev Vd]]]]]]. unfold add_grant.
  set (ast := match v_lockup v with [] => match v_vesting v with [] => gs | _ :: _ => v_start v end | _ :: _ => v_start v end).
  destruct (disjunct_periods ast gs (v_lockup v) gl) as [[ls le] lp] eqn:E1. destruct (disjunct_periods ast gs (v_vesting v) gv) as [[vs ve] vp] eqn:E2.
  destruct (disjunct_spec _ _ _ _ _ _ _ Hl Hgl E1) as [S1 [O1 [L1 [T1 R1]]]]. destruct (disjunct_spec _ _ _ _ _ _ _ Hv Hgv E2) as [S2 [O2 [L2 [T2 R2]]]].
  replace (ls =? vs) with true by lia. pose proof (orig_valid v H) as Vo. pose proof (proj1 Tgl) as Vg.
  eexists. split; [reflexivity|]. set (v' := Vacc _ _ _ _ _ _ _).
  assert (Cases : (ast = v_start v) \/ (ast = gs /\ v_lockup v = [] /\ v_vesting v = [])).
  { unfold ast. destruct (v_lockup v); [destruct (v_vesting v)|]; auto. }
  assert (OK : account_ok v').
  { unfold v'. split; [exact O1|]. split; [exact O2|].
    split; [split; [apply cadd_valid; assumption|]; intro d; cbn [v_orig v_lockup]; rewrite amt_cadd by (first [apply Vo|apply Vg]); rewrite T1, (proj2 Tl), (proj2 Tgl); reflexivity|].
    split; [split; [apply cadd_valid; assumption|]; intro d; cbn [v_orig v_vesting]; rewrite amt_cadd by (first [apply Vo|apply Vg]); rewrite T2, (proj2 Tv), (proj2 Tgv); reflexivity|].
    cbn [v_start v_end v_lockup v_vesting v_deleg]. split; [lia|]. split; [lia|exact Vd]. }
  split; [exact OK|]. split; [reflexivity|]. split; [reflexivity|]. split; [reflexivity|]. split.
  - intros t d Oa Ob. rewrite (proj2 (vested_spec v' t OK)), (proj2 (vested_spec v t H)). unfold v'. cbn [v_start v_vesting]. replace ls with vs by lia.
    destruct Cases as [Ec|[Ec [En1 En2]]]; rewrite Ec in *.
    + destruct Ob as [Ob|[En1 En2]]; [apply R2; assumption|].
      rewrite R2; [reflexivity| |]; intros ? ?; try (rewrite En2; exact I).
      subst ast. rewrite En1, En2 in Ec. lia.
    + rewrite R2 by (intros ? ?; lia). rewrite En2. unfold released. cbn [releases due]. destruct (t <=? gs); destruct (t <=? v_start v); lia.
  - intros t d Oa Ob. rewrite (proj2 (unlocked_spec v' t OK)), (proj2 (unlocked_spec v t H)). unfold v'. cbn [v_start v_lockup].
    destruct Cases as [Ec|[Ec [En1 En2]]]; rewrite Ec in *.
    + destruct Ob as [Ob|[En1 En2]]; [apply R1; assumption|].
      rewrite R1; [reflexivity| |]; intros ? ?; try (rewrite En1; exact I).
      subst ast. rewrite En1, En2 in Ec. lia.
    + rewrite R1 by (intros ? ?; lia). rewrite En1. unfold released. cbn [releases due]. destruct (t <=? gs); destruct (t <=? v_start v); lia.
Qed.
