(** C111: which assets can be staked, and with which weight, follows the
    decisions of governance. *)
From Verif Require Import Lib.Base Lib.Bytes Lib.Kv Assets.Model Assets.Spec Assets.Proofs.
From Coq Require Import NArith QArith Qpower Lia ZArith SpecFloat.
Open Scope Z_scope.

Section Claims.

Variable gov : bytes.
Variable contract_exists : bytes -> bool.
Variable stake_ok : list call -> call -> bool.

Local Notation perform := (perform gov contract_exists stake_ok).
Local Notation step := (step gov contract_exists stake_ok).
Local Notation run := (run gov contract_exists stake_ok).
Local Notation genesis := (genesis stake_ok).

(** Only governance changes the list or the power of what is staked. *)
Theorem C111_only_governance : forall st x, step st x <> st -> by_governance gov x.
Proof.
  clear. intros st x H. destruct x as [f l|f l|f l|t s l|t s l|t s l]; cbn [by_governance]; auto;
  unfold Model.step in H; cbn [Model.perform] in H; destruct (beqb gov f) eqn:B;
  (try (apply beqb_spec in B; congruence)); exfalso; apply H; reflexivity.
Qed.

(** The list has each asset once, in the order of the names, whatever was
    decided. *)
Theorem C111_listed_once : forall g l,
  let st := run (genesis g) l in
  ksorted (s_list st) /\ NoDup (map fst (all_assets st)) /\ NoDup (map fst (staking_assets st)).
Proof.
  intros g l st.
  assert (S : ksorted (s_list st)).
  { unfold st. apply (run_keeps gov contract_exists stake_ok l). apply genesis_sorted. }
  assert (ND : forall m : list (bytes * asset), ksorted m -> NoDup (map fst m)).
  { clear. intros m H. induction H as [|p m _ IH F]; cbn [map]; constructor; [|assumption].
    rewrite in_map_iff. intros (q & E & I). rewrite Forall_forall in F. specialize (F q I).
    unfold klt in F. rewrite E in F. exact (blt_irrefl _ F). }
  split; [exact S|]. split; [apply ND; exact S|].
  apply ND. unfold staking_assets. clear -S. induction S as [|p m S IH F]; cbn [filter]; [constructor|].
  destruct (negb _); [|assumption]. constructor; [assumption|].
  rewrite Forall_forall in *. intros q I. apply filter_In in I. apply F. tauto.
Qed.

(** The two lists anybody can ask for show exactly what is listed, and what is
    active. *)
Theorem C111_lists_are_exact : forall st d a, ksorted (s_list st) ->
  (In (d, a) (all_assets st) <-> listed st d a) /\
  (In (d, a) (staking_assets st) <-> listed st d a /\ a_archived a = false).
Proof.
  clear. intros st d a S. unfold all_assets, staking_assets, listed. rewrite filter_In, <- kget_in by assumption.
  cbn [snd]. destruct (a_archived a); cbn [negb]; intuition congruence.
Qed.

(** Nothing is ever struck off: a listed asset stays listed, with the contract,
    chain, decimals and symbol it had. *)
Theorem C111_listed_for_ever : forall l st d a, ksorted (s_list st) -> listed st d a ->
  exists b, listed (run st l) d b /\ a_info b = a_info a.
Proof. intros l st d a S L. apply (run_keeps gov contract_exists stake_ok l st); assumption. Qed.

(** A decision leaves every asset it does not name as it was: its entry and the
    power of what is staked of it. *)
Theorem C111_others_untouched : forall st x d, ksorted (s_list st) -> ~ In d (about x) ->
  kget (s_list (step st x)) d = kget (s_list st) d /\
  factor (s_calls (step st x)) d = factor (s_calls st) d.
Proof.
  intros st x d S NI. destruct (step_keeps gov contract_exists stake_ok st x) as (_ & _ & A & B). auto.
Qed.

(** A decision about several assets is the decisions about each, one after the
    other, all or none. *)
Lemma each_cons {A} (f : state -> A -> res state) st x l st2 :
  each f st (x :: l) = Ok st2 <-> exists st1, each f st [x] = Ok st1 /\ each f st1 l = Ok st2.
Proof.
  clear. cbn [each]. destruct (f st x) as [s1| |]; cbn [rbind].
  - split; [intros H; exists s1; auto|intros (s & E & H); congruence].
  - split; [discriminate|intros (s & E & _); discriminate].
  - split; [discriminate|intros (s & E & _); discriminate].
Qed.

Theorem C111_items_one_by_one :
  (forall st f p l st2, perform st (MsgAdd f (p :: l)) = Ok st2 <->
     exists st1, perform st (MsgAdd f [p]) = Ok st1 /\ perform st1 (MsgAdd f l) = Ok st2) /\
  (forall st f p l st2, perform st (MsgRemove f (p :: l)) = Ok st2 <->
     exists st1, perform st (MsgRemove f [p]) = Ok st1 /\ perform st1 (MsgRemove f l) = Ok st2) /\
  (forall st f p l st2, perform st (MsgUpdate f (p :: l)) = Ok st2 <->
     exists st1, perform st (MsgUpdate f [p]) = Ok st1 /\ perform st1 (MsgUpdate f l) = Ok st2) /\
  (forall st t s p l st2, l <> [] -> (perform st (TextAdd t s (p :: l)) = Ok st2 <->
     exists st1, perform st (TextAdd t s [p]) = Ok st1 /\ perform st1 (TextAdd t s l) = Ok st2)) /\
  (forall st t s p l st2, l <> [] -> (perform st (TextRemove t s (p :: l)) = Ok st2 <->
     exists st1, perform st (TextRemove t s [p]) = Ok st1 /\ perform st1 (TextRemove t s l) = Ok st2)) /\
  (forall st t s p l st2, l <> [] -> (perform st (TextUpdate t s (p :: l)) = Ok st2 <->
     exists st1, perform st (TextUpdate t s [p]) = Ok st1 /\ perform st1 (TextUpdate t s l) = Ok st2)).
Proof.
  assert (V1 : forall t s p l, l <> [] -> add_valid t s (p :: l) = add_valid t s [p] && add_valid t s l).
  { intros t s p [|q l] H; [congruence|]. unfold add_valid. cbn [forallb].
    destruct (blank t), (blank s), (negb (blank (i_contract (a_info (snd p)))) && _); reflexivity. }
  assert (V2 : forall t s p l, l <> [] -> remove_valid t s (p :: l) = remove_valid t s [p] && remove_valid t s l).
  { intros t s p [|q l] H; [congruence|]. unfold remove_valid. cbn [forallb].
    destruct (blank t), (blank s), (blank p); reflexivity. }
  assert (V3 : forall t s p l, l <> [] -> update_valid t s (p :: l) = update_valid t s [p] && update_valid t s l).
  { intros t s p [|q l] H; [congruence|]. unfold update_valid. cbn [forallb].
    destruct (blank t), (blank s), (blank (u_denom p)), (u_mag p), (u_dir p); reflexivity. }
  assert (NO : forall (P : state -> Prop), (exists st1 : state, @Err state = Ok st1 /\ P st1) <-> False).
  { intros P. split; [intros (s & E & _); discriminate|tauto]. }
  assert (NO2 : forall (P : state -> Prop) (s : state), (exists st1 : state, P st1 /\ @Err state = Ok s) <-> False).
  { intros P s. split; [intros (s1 & _ & E); discriminate|tauto]. }
  split; [|split; [|split; [|split; [|split]]]]; intros; cbn [Model.perform].
  1-3: destruct (beqb gov f); [apply each_cons|rewrite NO; split; [discriminate|tauto]].
  - rewrite V1 by assumption. destruct (add_valid t s [p]); cbn [andb].
    + destruct (add_valid t s l); [apply each_cons|rewrite NO2; split; [discriminate|tauto]].
    + rewrite NO; split; [discriminate|tauto].
  - rewrite V2 by assumption. destruct (remove_valid t s [p]); cbn [andb].
    + destruct (remove_valid t s l); [apply each_cons|rewrite NO2; split; [discriminate|tauto]].
    + rewrite NO; split; [discriminate|tauto].
  - rewrite V3 by assumption. destruct (update_valid t s [p]); cbn [andb].
    + destruct (update_valid t s l); [apply each_cons|rewrite NO2; split; [discriminate|tauto]].
    + rewrite NO; split; [discriminate|tauto].
Qed.

(** Adding an asset that was never listed lists it, active, with that weight,
    and tells the staking module nothing; it goes through whenever its contract
    answers like a token. *)
Theorem C111_adding_lists : forall st d x, ksorted (s_list st) -> unlisted st d ->
  (forall st', perform st (MsgAdd gov [(d, x)]) = Ok st' ->
     contract_exists (i_contract (a_info x)) = true /\
     listed st' d (Asset (a_info x) (a_weight x) false) /\ same_but d st st' /\ s_calls st' = s_calls st) /\
  (contract_exists (i_contract (a_info x)) = true -> exists st', perform st (MsgAdd gov [(d, x)]) = Ok st').
Proof.
  intros st d x S U. cbn [Model.perform]. rewrite beqb_refl. cbn [each].
  pose proof (add_one_unlisted contract_exists stake_ok st d x U) as H. split.
  - intros st' E. destruct (add_one _ _ _ _) as [s1| |] eqn:A; cbn [rbind] in E; try discriminate.
    assert (s1 = st') by congruence. subst s1. destruct (proj1 (H st') eq_refl) as (CE & ->).
    split; [exact CE|]. unfold listed, same_but. cbn [s_list s_calls]. split; [|split; [|reflexivity]].
    + rewrite kget_kset by assumption. rewrite beqb_refl. reflexivity.
    + intros y NY. rewrite kget_kset by assumption. apply beqb_neq in NY. rewrite NY. reflexivity.
  - intros CE. eexists. rewrite (proj2 (H _) (conj CE eq_refl)). reflexivity.
Qed.

(** An active asset cannot be added again.  A removed one comes back with the
    new weight and its former description; what is staked of it is told to grow
    by the weight less one. *)
Theorem C111_adding_again : forall st d x a, ksorted (s_list st) -> listed st d a -> 0 <= a_weight x ->
  (a_archived a = false -> forall st', perform st (MsgAdd gov [(d, x)]) <> Ok st') /\
  (forall st', perform st (MsgAdd gov [(d, x)]) = Ok st' ->
     a_weight x <> 0 /\ listed st' d (Asset (a_info a) (a_weight x) false) /\ same_but d st st' /\
     (factor (s_calls st') d == inject_Z (a_weight x) * factor (s_calls st) d)%Q).
Proof.
  intros st d x a S L W. cbn [Model.perform]. rewrite beqb_refl. cbn [each].
  pose proof (add_one_listed contract_exists stake_ok st d x a L W) as H. split.
  - intros AR st' E. destruct (add_one _ _ _ _) as [s1| |] eqn:A; cbn [rbind] in E; try discriminate.
    destruct (proj1 (H s1) eq_refl) as (_ & B & _). congruence.
  - intros st' E. destruct (add_one _ _ _ _) as [s1| |] eqn:A; cbn [rbind] in E; try discriminate.
    assert (s1 = st') by congruence. subst s1. destruct (proj1 (H st') eq_refl) as (_ & _ & N0 & -> & _).
    split; [exact N0|]. unfold after_unarchive, listed, same_but. cbn [s_list s_calls]. split; [|split].
    + rewrite kget_kset by assumption. rewrite beqb_refl. reflexivity.
    + intros y NY. rewrite kget_kset by assumption. apply beqb_neq in NY. rewrite NY. reflexivity.
    + destruct (Z.eqb_spec (a_weight x) 1) as [->|N1]; [symmetry; apply Qmult_1_l|].
      cbn [factor c_denom]. rewrite beqb_refl. apply Qmult_comp; [|reflexivity].
      unfold asked. cbn [c_from c_up c_percent]. cbn [Z.eqb]. unfold dec_of.
      change (10 ^ 18)%positive with 1000000000000000000%positive. change (10 ^ 18) with 1000000000000000000.
      unfold Qeq, Qplus, inject_Z. cbn [Qnum Qden]. lia.
Qed.

(** Removing an asset archives it at weight one, and what is staked of it is
    told to go back to weight one; removing it again does nothing; what is not
    listed cannot be removed. *)
Theorem C111_removing : forall st d, ksorted (s_list st) ->
  (unlisted st d -> perform st (MsgRemove gov [d]) = Err) /\
  (forall a st', listed st d a -> perform st (MsgRemove gov [d]) = Ok st' ->
     (a_archived a = true -> st' = st) /\
     (a_archived a = false ->
        listed st' d (Asset (a_info a) 1 true) /\ same_but d st st' /\ ~ active st' d /\
        (1 <= a_weight a -> (factor (s_calls st') d * inject_Z (a_weight a) == factor (s_calls st) d)%Q))).
Proof.
  intros st d S. cbn [Model.perform]. rewrite beqb_refl. cbn [each]. split.
  - intros U. rewrite remove_one_unlisted by assumption. reflexivity.
  - intros a st' L E. pose proof (remove_one_spec stake_ok st d a L) as H.
    destruct (remove_one _ _ _) as [s1| |] eqn:A; cbn [rbind] in E; try discriminate.
    assert (s1 = st') by congruence. subst s1.
    destruct (proj1 (H st') eq_refl) as [(AR & ->)|(AR & -> & _)]; (split; [try congruence|]); intros B; try congruence.
    unfold after_archive, listed, same_but. cbn [s_list s_calls]. split; [|split; [|split]].
    + rewrite kget_kset by assumption. rewrite beqb_refl. reflexivity.
    + intros y NY. rewrite kget_kset by assumption. apply beqb_neq in NY. rewrite NY. reflexivity.
    + intros (b & LB & AB). unfold listed in LB. cbn [s_list] in LB. rewrite kget_kset, beqb_refl in LB by assumption.
      assert (b = Asset (a_info a) 1 true) by congruence. subst b. discriminate.
    + intros W1. destruct (Z.leb_spec (a_weight a) 1) as [LE|GT].
      * assert (EW : a_weight a = 1) by lia. rewrite EW. apply Qmult_1_r.
      * cbn [factor c_denom]. rewrite beqb_refl. unfold asked. cbn [c_from c_up c_percent].
        destruct (Z.eqb_spec (a_weight a) 0) as [?|_]; [lia|].
        assert (NZ : ~ (inject_Z (a_weight a) == 0)%Q) by (unfold Qeq; cbn; lia).
        field. exact NZ.
Qed.

(** Changing a weight: by one below ten, by 5, 15 or 30 percent rounded down
    from ten on; the asset stays active or removed as it was. *)
Theorem C111_updating : forall st u a, ksorted (s_list st) ->
  listed st (u_denom u) a -> sane_weight (a_weight a) ->
  forall st', perform st (MsgUpdate gov [u]) = Ok st' ->
    u_mag u <> OtherMagnitude /\ u_dir u <> OtherDirection /\
    listed st' (u_denom u) (Asset (a_info a) (changed (a_weight a) (u_mag u) (u_dir u)) (a_archived a)) /\
    same_but (u_denom u) st st' /\
    1 <= changed (a_weight a) (u_mag u) (u_dir u).
Proof.
  intros st u a S L W st'. cbn [Model.perform]. rewrite beqb_refl. cbn [each]. intros E.
  pose proof (update_one_spec stake_ok st u a L W) as H.
  destruct (update_one _ _ _) as [s1| |] eqn:A; cbn [rbind] in E; try discriminate.
  assert (s1 = st') by congruence. subst s1. destruct (proj1 (H st') eq_refl) as (NM & NR & D & _ & ->).
  split; [exact NM|]. split; [exact NR|]. unfold after_update, listed, same_but. cbn [s_list s_calls].
  split; [|split].
  - rewrite kget_kset by assumption. rewrite beqb_refl. reflexivity.
  - intros y NY. rewrite kget_kset by assumption. apply beqb_neq in NY. rewrite NY. reflexivity.
  - unfold sane_weight in W. destruct (change_bound (a_weight a) (u_mag u) ltac:(lia) NM) as (C0 & C1 & C2).
    unfold changed. destruct (u_dir u); [lia| |lia]. specialize (C2 (D eq_refl)). lia.
Qed.

(** It goes through unless it would take a weight below one, or the staking
    module refuses. *)
Theorem C111_updating_goes_through : forall st u a,
  listed st (u_denom u) a -> sane_weight (a_weight a) ->
  u_mag u <> OtherMagnitude -> u_dir u <> OtherDirection -> (u_dir u = Down -> a_weight a <> 1) ->
  (forall cs c, stake_ok cs c = true) ->
  exists st', perform st (MsgUpdate gov [u]) = Ok st'.
Proof.
  intros st u a L W NM NR D SO. cbn [Model.perform]. rewrite beqb_refl. cbn [each].
  pose proof (update_one_spec stake_ok st u a L W) as H.
  exists (after_update st u a).
  assert (E : update_one stake_ok st u = Ok (after_update st u a)).
  { apply H. repeat split; auto. }
  rewrite E. reflexivity.
Qed.

(** A vote on a text does what the message does, when the text passes the
    stateless checks. *)
Theorem C111_texts_do_the_same : forall st t s,
  (forall l st', perform st (TextAdd t s l) = Ok st' ->
     perform st (MsgAdd gov l) = Ok st' /\ l <> [] /\ Forall (fun p => a_weight (snd p) <> 0) l) /\
  (forall l st', perform st (TextRemove t s l) = Ok st' -> perform st (MsgRemove gov l) = Ok st' /\ l <> []) /\
  (forall l st', perform st (TextUpdate t s l) = Ok st' -> perform st (MsgUpdate gov l) = Ok st' /\ l <> []).
Proof.
  intros st t s. cbn [Model.perform]. rewrite beqb_refl.
  split; [|split]; intros l st' H; match type of H with (if ?c then _ else _) = _ => destruct c eqn:V; [|discriminate] end;
  split; try exact H.
  - unfold add_valid in V. apply andb_prop in V as [V V2]. apply andb_prop in V as [_ V1].
    split; [intros ->; discriminate|]. rewrite forallb_forall in V2. apply Forall_forall. intros p I E.
    specialize (V2 p I). apply andb_prop in V2 as [_ V2]. rewrite E in V2. discriminate.
  - unfold remove_valid in V. intros ->. destruct (negb _ && negb _); discriminate.
  - unfold update_valid in V. intros ->. destruct (negb _ && negb _); discriminate.
Qed.

(** ** The power of what is staked *)

(** How far the power that the staking module is told may be from the weight:
    half a percent below ten, less than one unit of weight from ten on. *)
Theorem C111_power_is_close : forall st u a, listed st (u_denom u) a -> sane_weight (a_weight a) ->
  forall st', perform st (MsgUpdate gov [u]) = Ok st' ->
  exists c, s_calls st' = c :: s_calls st /\ c_denom c = u_denom u /\
    let w := a_weight a in
    let new := inject_Z (changed w (u_mag u) (u_dir u)) in
    let told := (asked c * inject_Z w)%Q in
    (w < 10 -> (new - (w # 200) <= told <= new + (w # 200))%Q) /\
    (10 <= w -> u_dir u = Up -> (new <= told < new + 1)%Q) /\
    (10 <= w -> u_dir u = Down -> (new - 1 < told <= new)%Q).
Proof.
  intros st u a L W st'. cbn [Model.perform]. rewrite beqb_refl. cbn [each]. intros E.
  pose proof (update_one_spec stake_ok st u a L W) as H.
  destruct (update_one _ _ _) as [s1| |] eqn:A; cbn [rbind] in E; try discriminate.
  assert (s1 = st') by congruence. subst s1. destruct (proj1 (H st') eq_refl) as (NM & NR & D & _ & ->).
  eexists. split; [reflexivity|]. split; [reflexivity|].
  assert (W1 : 1 <= a_weight a) by (unfold sane_weight in W; lia).
  set (w := a_weight a) in *.
  destruct (share_close w (u_mag u) W1 NM) as [C1 C2].
  unfold asked. cbn [c_from c_up c_percent]. cbn [Z.eqb]. unfold dec.
  change (10 ^ 18)%positive with 1000000000000000000%positive. change (10 ^ 16) with 10000000000000000.
  unfold changed. clear -C1 C2 NR.
  set (h := share w (u_mag u)) in *. set (ch := change w (u_mag u)) in *. clearbody h ch w.
  split; [|split].
  - intros LT. specialize (C1 LT). clear C2.
    destruct (u_dir u); [| |congruence]; unfold Qminus, Qle, Qplus, Qopp, Qmult, inject_Z; cbn [Qnum Qden Qplus Qopp];
    rewrite ?Pos2Z.inj_mul; split; nia.
  - intros LT ->. specialize (C2 LT). clear C1.
    unfold Qminus, Qle, Qlt, Qplus, Qopp, Qmult, inject_Z; cbn [Qnum Qden]; rewrite ?Pos2Z.inj_mul; split; nia.
  - intros LT ->. specialize (C2 LT). clear C1.
    unfold Qminus, Qle, Qlt, Qplus, Qopp, Qmult, inject_Z; cbn [Qnum Qden]; rewrite ?Pos2Z.inj_mul; split; nia.
Qed.

Lemma in_step_set w0 st d a b st' : ksorted (s_list st) -> in_step w0 st -> listed st d a ->
  s_list st' = kset (s_list st) d b ->
  (s_calls st' = s_calls st /\ a_weight b = a_weight a \/
   exists c, s_calls st' = c :: s_calls st /\ c_denom c = d /\ (asked c * inject_Z (a_weight a) == inject_Z (a_weight b))%Q) ->
  in_step w0 st'.
Proof.
  clear. intros S [I1 I2] L EL EC. split.
  - intros x y LY. unfold listed in LY. rewrite EL, kget_kset in LY by assumption.
    destruct (beqb x d) eqn:B.
    + apply beqb_spec in B. subst x. assert (y = b) by congruence. subst y.
      destruct EC as [(-> & ->)|(c & -> & CD & EA)]; [apply I1; exact L|].
      cbn [factor]. rewrite CD, beqb_refl. rewrite <- EA, <- (I1 d a L). ring.
    + destruct EC as [(-> & _)|(c & -> & CD & EA)]; [apply I1; exact LY|].
      cbn [factor]. assert (B2 : beqb (c_denom c) x = false).
      { apply beqb_neq. apply beqb_neq in B. congruence. }
      rewrite B2. apply I1. exact LY.
  - intros x U. unfold unlisted in U. rewrite EL, kget_kset in U by assumption.
    destruct (beqb x d) eqn:B; [discriminate|].
    destruct EC as [(-> & _)|(c & -> & CD & EA)]; [apply I2; exact U|].
    cbn [factor]. assert (B2 : beqb (c_denom c) x = false).
    { apply beqb_neq. apply beqb_neq in B. congruence. }
    rewrite B2. apply I2. exact U.
Qed.

(** Power and weights stay exactly in step as long as every change is one that
    comes out even: new assets, removals, additions of removed assets that have
    weight one, and changes of weights 1, 2, 4, 5 or of those from ten on whose
    percentage is a whole number. *)
Theorem C111_even_changes_keep_step : forall w0 st st', ksorted (s_list st) -> in_step w0 st ->
  (forall u a, listed st (u_denom u) a -> sane_weight (a_weight a) ->
     In (a_weight a) [1; 2; 4; 5] \/ (10 <= a_weight a /\ (a_weight a * percent (u_mag u)) mod 100 = 0) ->
     perform st (MsgUpdate gov [u]) = Ok st' -> in_step w0 st') /\
  (forall d a, listed st d a -> 1 <= a_weight a -> perform st (MsgRemove gov [d]) = Ok st' -> in_step w0 st') /\
  (forall d a x, listed st d a -> a_weight a = 1 -> 0 <= a_weight x ->
     perform st (MsgAdd gov [(d, x)]) = Ok st' -> in_step w0 st') /\
  (forall d x, unlisted st d -> perform st (MsgAdd gov [(d, x)]) = Ok st' -> in_step (set_w0 w0 d (a_weight x)) st').
Proof.
  intros w0 st st' S I. cbn [Model.perform]. rewrite beqb_refl. cbn [each]. split; [|split; [|split]].
  - intros u a L W EV E.
    pose proof (update_one_spec stake_ok st u a L W) as H.
    destruct (update_one _ _ _) as [s1| |] eqn:A; cbn [rbind] in E; try discriminate.
    assert (s1 = st') by congruence. subst s1. destruct (proj1 (H st') eq_refl) as (NM & NR & D & _ & ->).
    eapply in_step_set; [exact S|exact I|exact L|reflexivity|]. right. eexists. split; [reflexivity|]. split; [reflexivity|].
    assert (EX : share (a_weight a) (u_mag u) * a_weight a = 100 * change (a_weight a) (u_mag u)).
    { clear -EV. destruct EV as [EV|(GE & EV)].
      - cbn [In] in EV. destruct EV as [<-|[<-|[<-|[<-|[]]]]]; vm_compute; reflexivity.
      - unfold share, change. destruct (Z.ltb_spec (a_weight a) 10); [lia|].
        pose proof (Z.div_mod (a_weight a * percent (u_mag u)) 100 ltac:(lia)) as DM. rewrite EV in DM. lia. }
    cbn [a_weight]. unfold asked, changed. cbn [c_from c_up c_percent]. cbn [Z.eqb]. unfold dec.
    change (10 ^ 18)%positive with 1000000000000000000%positive. change (10 ^ 16) with 10000000000000000.
    clear -EX NR. set (h := share _ _) in *. set (ch := change _ _) in *. set (w := a_weight a) in *. clearbody h ch w.
    destruct (u_dir u); [| |congruence]; unfold Qminus, Qeq, Qplus, Qopp, Qmult, inject_Z; cbn [Qnum Qden];
    rewrite ?Pos2Z.inj_mul; nia.
  - intros d a L W E. pose proof (remove_one_spec stake_ok st d a L) as H.
    destruct (remove_one _ _ _) as [s1| |] eqn:A; cbn [rbind] in E; try discriminate.
    assert (s1 = st') by congruence. subst s1.
    destruct (proj1 (H st') eq_refl) as [(AR & ->)|(AR & -> & _)]; [exact I|].
    eapply in_step_set; [exact S|exact I|exact L|reflexivity|]. unfold after_archive. cbn [s_calls a_weight].
    destruct (Z.leb_spec (a_weight a) 1) as [LE|GT]; [left; split; [reflexivity|lia]|].
    right. eexists. split; [reflexivity|]. split; [reflexivity|]. unfold asked. cbn [c_from c_up c_percent].
    destruct (Z.eqb_spec (a_weight a) 0) as [?|_]; [lia|].
    assert (NZ : ~ (inject_Z (a_weight a) == 0)%Q) by (unfold Qeq; cbn; lia). 
    change (inject_Z 1) with 1%Q. field. exact NZ.
  - intros d a x L W1 W E. pose proof (add_one_listed contract_exists stake_ok st d x a L W) as H.
    destruct (add_one _ _ _ _) as [s1| |] eqn:A; cbn [rbind] in E; try discriminate.
    assert (s1 = st') by congruence. subst s1. destruct (proj1 (H st') eq_refl) as (_ & _ & N0 & -> & _).
    eapply in_step_set; [exact S|exact I|exact L|reflexivity|]. unfold after_unarchive. cbn [s_calls a_weight].
    destruct (Z.eqb_spec (a_weight x) 1) as [EQ|N1]; [left; split; [reflexivity|lia]|].
    right. eexists. split; [reflexivity|]. split; [reflexivity|]. unfold asked. cbn [c_from c_up c_percent Z.eqb]. unfold dec_of.
    rewrite W1. change (10 ^ 18)%positive with 1000000000000000000%positive. change (10 ^ 18) with 1000000000000000000.
    unfold Qeq, Qplus, Qmult, inject_Z. cbn [Qnum Qden]. rewrite ?Pos2Z.inj_mul. lia.
  - intros d x U E. pose proof (add_one_unlisted contract_exists stake_ok st d x U) as H.
    destruct (add_one _ _ _ _) as [s1| |] eqn:A; cbn [rbind] in E; try discriminate.
    assert (s1 = st') by congruence. subst s1. destruct (proj1 (H st') eq_refl) as (_ & ->).
    destruct I as [I1 I2]. split; cbn [s_calls].
    + intros y b LB. unfold listed in LB. cbn [s_list] in LB. rewrite kget_kset in LB by assumption. unfold set_w0.
      destruct (beqb y d) eqn:B; [|apply I1; exact LB].
      apply beqb_spec in B. subst y. assert (b = Asset (a_info x) (a_weight x) false) by congruence. subst b.
      rewrite (I2 d U). cbn [a_weight]. apply Qmult_1_l.
    + intros y UY. unfold unlisted in UY. cbn [s_list] in UY. rewrite kget_kset in UY by assumption.
      destruct (beqb y d); [discriminate|]. apply I2. exact UY.
Qed.

(** As long as weights stay below 2^48, a history of single decisions that add
    no weight zero never makes a weight zero. *)
Definition positive (st : state) : Prop := forall d a, listed st d a -> 1 <= a_weight a.
Definition below (st : state) : Prop := forall d a, listed st d a -> a_weight a < 2 ^ 48.
Definition single (x : action) : Prop :=
  match x with
  | MsgAdd f l => f = gov -> length l = 1%nat
  | MsgRemove f l => f = gov -> length l = 1%nat
  | MsgUpdate f l => f = gov -> length l = 1%nat
  | TextAdd _ _ l => length l = 1%nat
  | TextRemove _ _ l => length l = 1%nat
  | TextUpdate _ _ l => length l = 1%nat
  end.

Lemma one {A} (l : list A) : length l = 1%nat -> exists x, l = [x].
Proof. clear. destruct l as [|x [|y l]]; intros H; try discriminate. eauto. Qed.

Theorem C111_weights_stay_positive : forall st x, ksorted (s_list st) -> positive st -> below st ->
  single x -> adds_sane x -> positive (step st x).
Proof.
  intros st x S P B SG AS. unfold Model.step.
  assert (EQ : forall st', perform st x = Ok st' ->
     exists y, perform st y = Ok st' /\ adds_sane y /\
       ((exists p, y = MsgAdd gov [p]) \/ (exists d, y = MsgRemove gov [d]) \/ (exists u, y = MsgUpdate gov [u]))).
  { clear P B S. intros st' H. destruct x as [f l|f l|f l|t s l|t s l|t s l]; cbn [single adds_sane] in *.
    1-3: assert (f = gov) by (cbn [Model.perform] in H; destruct (beqb gov f) eqn:BB; [apply beqb_spec in BB; congruence|discriminate]);
         subst f; destruct (one l (SG eq_refl)) as (q & ->).
    4-6: destruct (one l SG) as (q & ->).
    - exists (MsgAdd gov [q]). split; [exact H|]. split; [exact AS|]. left. eauto.
    - exists (MsgRemove gov [q]). split; [exact H|]. split; [exact Logic.I|]. right. left. eauto.
    - exists (MsgUpdate gov [q]). split; [exact H|]. split; [exact Logic.I|]. right. right. eauto.
    - exists (MsgAdd gov [q]). split; [apply (C111_texts_do_the_same st t s); exact H|]. split; [exact AS|]. left. eauto.
    - exists (MsgRemove gov [q]). split; [apply (C111_texts_do_the_same st t s); exact H|]. split; [exact Logic.I|]. right. left. eauto.
    - exists (MsgUpdate gov [q]). split; [apply (C111_texts_do_the_same st t s); exact H|]. split; [exact Logic.I|]. right. right. eauto. }
  destruct (perform st x) as [st'| |] eqn:PF; [|exact P|exact P].
  destruct (EQ st' eq_refl) as (y & PY & AY & K). clear EQ PF AS SG x.
  destruct K as [([d x] & ->)|[(d & ->)|(u & ->)]].
  - cbn [adds_sane] in AY. apply Forall_inv in AY. cbn [snd] in AY. unfold sane_weight in AY.
    destruct (kget (s_list st) d) as [a|] eqn:K.
    + destruct (C111_adding_again st d x a S K ltac:(lia)) as (_ & H). destruct (H st' PY) as (_ & L & SB & _).
      intros e b LB. destruct (bytes_eq_dec e d) as [->|NE].
      * unfold listed in *. assert (b = Asset (a_info a) (a_weight x) false) by congruence. subst b. cbn [a_weight]. lia.
      * apply (P e b). unfold listed in *. rewrite <- (SB e NE). exact LB.
    + destruct (C111_adding_lists st d x S K) as (H & _). destruct (H st' PY) as (_ & L & SB & _).
      intros e b LB. destruct (bytes_eq_dec e d) as [->|NE].
      * unfold listed in *. assert (b = Asset (a_info x) (a_weight x) false) by congruence. subst b. cbn [a_weight]. lia.
      * apply (P e b). unfold listed in *. rewrite <- (SB e NE). exact LB.
  - destruct (C111_removing st d S) as (H1 & H2). destruct (kget (s_list st) d) as [a|] eqn:K; [|rewrite H1 in PY by exact K; discriminate].
    destruct (H2 a st' K PY) as (HA & HB). destruct (a_archived a).
    + rewrite HA by reflexivity. exact P.
    + destruct (HB eq_refl) as (L & SB & _). intros e b LB. destruct (bytes_eq_dec e d) as [->|NE].
      * unfold listed in *. assert (b = Asset (a_info a) 1 true) by congruence. subst b. cbn [a_weight]. lia.
      * apply (P e b). unfold listed in *. rewrite <- (SB e NE). exact LB.
  - destruct (kget (s_list st) (u_denom u)) as [a|] eqn:K.
    + assert (W : sane_weight (a_weight a)) by (split; [apply (P _ _ K)|apply (B _ _ K)]).
      destruct (C111_updating st u a S K W st' PY) as (_ & _ & L & SB & G1).
      intros e b LB. destruct (bytes_eq_dec e (u_denom u)) as [->|NE].
      * unfold listed in *. match type of L with _ = Some ?z => assert (b = z) by congruence end. subst b. exact G1.
      * apply (P e b). unfold listed in *. rewrite <- (SB e NE). exact LB.
    + cbn [Model.perform] in PY. rewrite beqb_refl in PY. cbn [each] in PY.
      rewrite update_one_unlisted in PY by exact K. discriminate.
Qed.

End Claims.

(** ** A concrete chain *)

Definition g0 : bytes := [103%N].
Definition e0 (_ : bytes) : bool := true.
Definition k0 (_ : list call) (_ : call) : bool := true.
Definition desc (n : N) : info := Info [n] [n] [n] 18 [n].
Definition hls : bytes := [97; 104]%N.
Definition tok : bytes := [116]%N.
Definition start (w : Z) : state := genesis k0 [(hls, Asset (desc 1) 100 false); (tok, Asset (desc 2) w false)].

Local Notation step0 := (step g0 e0 k0).
Local Notation run0 := (run g0 e0 k0).
Local Notation perform0 := (perform g0 e0 k0).

(** The floating point numbers of the model are those of IEEE 754 as the
    standard library specifies them: conversion, the three constants, division
    and multiplication, for the first weights and some large ones. *)
Definition sf_of (w : Z) : spec_float := binary_normalize 53 1024 w 0 false.
Definition same_float (f : float) (s : spec_float) : bool :=
  match s with
  | S754_finite false m e => (f_man f =? Zpos m) && (f_exp f =? e)
  | _ => false
  end.
Example C111_floats_are_IEEE :
  forallb (fun w =>
    same_float (f_of w) (sf_of w) &&
    same_float (fdiv (f_of 1) (f_of w)) (SFdiv 53 1024 (sf_of 1) (sf_of w)) &&
    forallb (fun p =>
      same_float (fl p 100) (SFdiv 53 1024 (sf_of p) (sf_of 100)) &&
      same_float (fmul (f_of w) (fl p 100)) (SFmul 53 1024 (sf_of w) (SFdiv 53 1024 (sf_of p) (sf_of 100))))
      [5; 15; 30])
    (map Z.of_nat (List.seq 1 400) ++ [999999; 123456789012345; 2 ^ 48 - 1; 2 ^ 53 + 1; 2 ^ 53 + 3; 2 ^ 63 + 12345; 2 ^ 64 - 2 ^ 12]) = true.
Proof. vm_compute. reflexivity. Qed.

Example C111_concrete :
  let st1 := step0 (start 3) (TextUpdate [1]%N [1]%N [Update tok Small Up; Update hls Medium Down]) in
  let st2 := step0 st1 (MsgRemove g0 [hls]) in
  let st3 := step0 st2 (MsgAdd g0 [(hls, Asset (desc 9) 40 true)]) in
  let st4 := step0 st3 (MsgRemove [1]%N [hls]) in
  let st5 := step0 st4 (MsgUpdate g0 [Update tok Small Up; Update hls OtherMagnitude Up]) in
  map (fun p => (fst p, a_weight (snd p), a_archived (snd p))) (all_assets st1) = [(hls, 85, false); (tok, 4, false)] /\
  map fst (staking_assets st2) = [tok] /\ map fst (all_assets st2) = [hls; tok] /\
  listed st3 hls (Asset (desc 1) 40 false) /\ st4 = st3 /\ st5 = st3 /\
  ksorted (s_list (start 3)) /\ positive (start 3) /\ below (start 3) /\
  map c_percent (s_calls st3) = [39 * 10 ^ 18; 0; 15 * 10 ^ 16; 33 * 10 ^ 16] /\
  unlisted (start 3) [1]%N /\ ~ active st2 hls.
Proof.
  assert (L : forall d a, listed (start 3) d a -> a_weight a = 100 \/ a_weight a = 3).
  { intros d a H. unfold listed in H. rewrite kget_in in H by apply genesis_sorted. vm_compute in H.
    destruct H as [E|[E|[]]]; injection E as <- <-; vm_compute; auto. }
  cbv zeta. repeat match goal with |- _ /\ _ => split end.
  1-6, 10-11: vm_compute; reflexivity.
  - apply genesis_sorted.
  - intros d a H. destruct (L d a H) as [->| ->]; lia.
  - intros d a H. destruct (L d a H) as [->| ->]; lia.
  - intros (a & LA & AR). vm_compute in LA. injection LA as <-. discriminate.
Qed.

(** Power and weight in step, through a removal and a return. *)
Example C111_in_step_concrete :
  in_step (fun d => if beqb d tok then 20 else 100) (start 20) /\
  In 4 [1; 2; 4; 5] /\ (20 * percent Small) mod 100 = 0 /\
  is_ok (perform0 (start 20) (MsgUpdate g0 [Update tok Small Up])) = true /\
  is_ok (perform0 (start 20) (MsgRemove g0 [tok])) = true.
Proof.
  split; [|split; [|split; [|split]]].
  - split.
    + intros d a H. unfold listed in H. rewrite kget_in in H by apply genesis_sorted. vm_compute in H.
      destruct H as [E|[E|[]]]; injection E as <- <-; vm_compute; reflexivity.
    + intros d H. vm_compute. reflexivity.
  - cbn. auto.
  - vm_compute. reflexivity.
  - vm_compute. reflexivity.
  - vm_compute. reflexivity.
Qed.

(** ** What does not hold *)

(** The power of what is staked does not follow the weight: five percent of a
    weight of ten to nineteen is rounded down to nothing in the list, but the
    staking module is told five percent every time.  After any number of such
    votes the weight is still ten and the power has grown without bound. *)
Theorem C111_refuted_power_grows_at_the_same_weight : forall n : nat,
  let st := run0 (start 10) (repeat (TextUpdate [1]%N [1]%N [Update tok Small Up]) n) in
  listed st tok (Asset (desc 2) 10 false) /\
  (factor (s_calls st) tok == (21 # 20) ^ Z.of_nat n)%Q.
Proof.
  intros n st. unfold st. clear st.
  set (cc := Call tok (5 * 10 ^ 16) true 0).
  assert (G : forall cs, run0 (State (s_list (start 10)) cs) (repeat (TextUpdate [1]%N [1]%N [Update tok Small Up]) n)
              = State (s_list (start 10)) (repeat cc n ++ cs)).
  { induction n as [|n IH]; intros cs; [reflexivity|].
    cbn [repeat]. unfold run. cbn [fold_left].
    assert (E : step0 (State (s_list (start 10)) cs) (TextUpdate [1]%N [1]%N [Update tok Small Up])
              = State (s_list (start 10)) (cc :: cs)) by (vm_compute; reflexivity).
    rewrite E. unfold run in IH. rewrite IH. f_equal.
    change (repeat cc n ++ [cc] ++ cs = [cc] ++ repeat cc n ++ cs). rewrite !app_assoc. f_equal.
    clear. induction n as [|n IH]; [reflexivity|]. cbn [repeat app] in *. rewrite IH. reflexivity. }
  assert (ES : start 10 = State (s_list (start 10)) []) by (vm_compute; reflexivity).
  rewrite ES, G, app_nil_r. split; [vm_compute; reflexivity|]. cbn [s_calls].
  clear G ES. induction n as [|n IH]; [reflexivity|].
  cbn [repeat factor]. assert (B : beqb (c_denom cc) tok = true) by (vm_compute; reflexivity). rewrite B, IH.
  assert (EA : (asked cc == 21 # 20)%Q) by (vm_compute; reflexivity). rewrite EA.
  rewrite Nat2Z.inj_succ, <- Z.add_1_l, Qpower_plus by (intros H; discriminate H). reflexivity.
Qed.

(** One step down and one up again lead back to the weight, not to the power:
    thirds are told with two decimals. *)
Theorem C111_refuted_there_and_back : exists l,
  let st := run0 (start 3) l in
  listed st tok (Asset (desc 2) 3 false) /\ ~ (factor (s_calls st) tok == 1)%Q.
Proof.
  exists [MsgUpdate g0 [Update tok Small Down]; MsgUpdate g0 [Update tok Small Up]].
  split; [vm_compute; reflexivity|]. intros H. vm_compute in H. discriminate.
Qed.

(** A removed asset can still be voted up; when it is listed again the return
    starts from weight one all the same, so the power stays doubled. *)
Theorem C111_refuted_removed_assets_gain_weight : exists l,
  let st := run0 (start 1) l in
  (exists l1 l2, l = l1 ++ l2 /\ listed (run0 (start 1) l1) tok (Asset (desc 2) 2 true)) /\
  listed st tok (Asset (desc 2) 1 false) /\ (factor (s_calls st) tok == 2)%Q.
Proof.
  exists ([MsgRemove g0 [tok]; MsgUpdate g0 [Update tok Small Up]] ++ [MsgAdd g0 [(tok, Asset (desc 2) 1 false)]]).
  split; [|split; vm_compute; reflexivity].
  eexists _, _. split; [reflexivity|]. vm_compute. reflexivity.
Qed.

(** The staking contract lets a removed asset be delegated: its check asks
    whether the asset is listed, not whether it is active. *)
Theorem C111_refuted_removed_assets_pass_the_check : exists l,
  let st := run0 (start 5) l in ~ active st tok /\ may_delegate st tok = true.
Proof.
  exists [MsgRemove g0 [tok]]. split; [|vm_compute; reflexivity].
  intros (a & LA & AR). vm_compute in LA. injection LA as <-. discriminate.
Qed.

(** The message, unlike the text, accepts weight zero; no vote can change it
    after that except by removing the asset. *)
Theorem C111_refuted_weight_zero : exists x d,
  let st := step0 (start 5) x in
  listed st d (Asset (desc 3) 0 false) /\
  forall m r st', perform0 st (MsgUpdate g0 [Update d m r]) <> Ok st'.
Proof.
  exists (MsgAdd g0 [([122]%N, Asset (desc 3) 0 false)]), [122]%N. split; [vm_compute; reflexivity|].
  intros m r st' H. destruct m, r; vm_compute in H; discriminate.
Qed.

(** A weight near the end of the range wraps to a small one when it is raised. *)
Theorem C111_refuted_raising_lowers : exists w a,
  listed (step0 (start w) (MsgUpdate g0 [Update tok High Up])) tok a /\ 0 < w < 2 ^ 64 /\ a_weight a < w.
Proof.
  exists (2 ^ 64 - 1). eexists. split; [vm_compute; reflexivity|]. split; [lia|]. vm_compute. reflexivity.
Qed.

Print Assumptions C111_only_governance.
Print Assumptions C111_listed_once.
Print Assumptions C111_lists_are_exact.
Print Assumptions C111_listed_for_ever.
Print Assumptions C111_others_untouched.
Print Assumptions C111_items_one_by_one.
Print Assumptions C111_adding_lists.
Print Assumptions C111_adding_again.
Print Assumptions C111_removing.
Print Assumptions C111_updating.
Print Assumptions C111_updating_goes_through.
Print Assumptions C111_texts_do_the_same.
Print Assumptions C111_power_is_close.
Print Assumptions C111_even_changes_keep_step.
Print Assumptions C111_weights_stay_positive.
Print Assumptions C111_refuted_power_grows_at_the_same_weight.
Print Assumptions C111_refuted_there_and_back.
Print Assumptions C111_refuted_removed_assets_gain_weight.
Print Assumptions C111_refuted_removed_assets_pass_the_check.
Print Assumptions C111_refuted_weight_zero.
Print Assumptions C111_refuted_raising_lowers.
