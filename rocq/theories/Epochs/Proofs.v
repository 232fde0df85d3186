From Verif Require Import Lib.Base Epochs.Model Epochs.Spec.
Open Scope Z_scope.

(* one epoch in isolation *)
Definition tick1 (time height : Z) (e0 : epoch) : epoch * list hook_call :=
  let should_start := negb (started e0) && negb (time <? start_time e0) in
  let should_end := (current_start_time e0 + duration e0 <? time) && negb should_start && negb (time <? start_time e0) in
  let e := set_height e0 height in
  if should_start then (start_initial e, [BeforeEpochStart (identifier e0) 1])
  else if should_end then
    (end_epoch e, [AfterEpochEnd (identifier e0) (current e0 + 1); BeforeEpochStart (identifier e0) (current e0 + 1)])
  else (e0, []).

Lemma tick1_id t h e : identifier (fst (tick1 t h e)) = identifier e.
Proof.
  unfold tick1. destruct (negb (started e) && _); [reflexivity|].
  destruct ((_ <? t) && _ && _); reflexivity.
Qed.

Lemma set_epoch_info_self s e : In e s -> NoDup (map identifier s) ->
  set_epoch_info s e = s.
Proof.
  unfold set_epoch_info. intros Hin Hnd.
  rewrite <- (map_id s) at 2. apply map_ext_in. intros x Hx.
  destruct (String.eqb_spec (identifier x) (identifier e)) as [E|E]; [|reflexivity].
  clear -Hin Hnd Hx E. induction s as [|a s IH]; [contradiction|].
  cbn [map] in Hnd. inversion Hnd as [|? ? Hni Hnd']; subst.
  destruct Hin as [->|Hin], Hx as [->|Hx]; auto.
  - exfalso. apply Hni. rewrite <- E. apply in_map. exact Hx.
  - exfalso. apply Hni. rewrite E. apply in_map. exact Hin.
Qed.

Definition put (s : store) (p : epoch * list hook_call) : store :=
  match snd p with [] => s | _ => set_epoch_info s (fst p) end.

Lemma visit_tick t h s tr e :
  visit t h (s, tr) e = (put s (tick1 t h e),
                         tr ++ snd (tick1 t h e)).
Proof.
  unfold visit, tick1.
  destruct (negb (started e) && negb (t <? start_time e)) eqn:E1; [reflexivity|].
  cbn [negb].
  destruct ((current_start_time e + duration e <? t) && true && negb (t <? start_time e)) eqn:E2; [reflexivity|].
  cbn [fst snd]. rewrite app_nil_r. reflexivity.
Qed.

Lemma set_other s1 e s2 :
  ~ In (identifier e) (map identifier s1) -> ~ In (identifier e) (map identifier s2) ->
  forall e', identifier e' = identifier e ->
  set_epoch_info (s1 ++ e :: s2) e' = s1 ++ e' :: s2.
Proof.
  intros H1 H2 e' He. unfold set_epoch_info. rewrite map_app. cbn [map].
  assert (forall s, ~ In (identifier e) (map identifier s) ->
    map (fun x => if String.eqb (identifier x) (identifier e') then e' else x) s = s) as Hs.
  { intros s Hn. rewrite <- (map_id s) at 2. apply map_ext_in. intros x Hx.
    destruct (String.eqb_spec (identifier x) (identifier e')) as [E|E]; [|reflexivity].
    exfalso. apply Hn. rewrite <- He, <- E. apply in_map. exact Hx. }
  rewrite !Hs by assumption. rewrite <- He, String.eqb_refl. reflexivity.
Qed.

Lemma fold_visit t h : forall todo done tr,
  NoDup (map identifier (done ++ todo)) ->
  fold_left (visit t h) todo (done ++ todo, tr) =
  (done ++ map (fun e => fst (tick1 t h e)) todo,
   tr ++ flat_map (fun e => snd (tick1 t h e)) todo).
Proof.
  induction todo as [|e todo IH]; intros done tr Hnd.
  - cbn. rewrite !app_nil_r. reflexivity.
  - cbn [fold_left map flat_map]. rewrite visit_tick.
    assert (Hs : put (done ++ e :: todo) (tick1 t h e) =
                 (done ++ [fst (tick1 t h e)]) ++ todo).
    { rewrite <- app_assoc. cbn [app].
      rewrite map_app in Hnd. cbn [map] in Hnd.
      pose proof (NoDup_remove_2 _ _ _ Hnd) as Hni. rewrite in_app_iff in Hni.
      unfold put. destruct (snd (tick1 t h e)) eqn:Et.
      - unfold tick1 in Et |- *.
        destruct (negb (started e) && _); [discriminate|].
        destruct ((_ <? t) && _ && _); [discriminate|]. reflexivity.
      - apply set_other; [tauto|tauto|apply tick1_id]. }
    rewrite Hs. rewrite IH.
    + rewrite <- !app_assoc. reflexivity.
    + rewrite <- app_assoc. cbn [app]. rewrite map_app in *. cbn [map] in *.
      rewrite tick1_id. exact Hnd.
Qed.

Lemma begin_blocker_map s t h : NoDup (map identifier s) ->
  begin_blocker s t h = (map (fun e => fst (tick1 t h e)) s, flat_map (fun e => snd (tick1 t h e)) s).
Proof. intros H. unfold begin_blocker. apply (fold_visit t h s [] []). exact H. Qed.

Lemma begin_blocker_ids s t h : NoDup (map identifier s) ->
  map identifier (fst (begin_blocker s t h)) = map identifier s.
Proof.
  intros H. rewrite begin_blocker_map by exact H. cbn [fst]. rewrite map_map.
  apply map_ext. intros e. apply tick1_id.
Qed.

(* a single epoch run through blocks *)
Fixpoint run1 (e : epoch) (bs : list (Z * Z)) : epoch * list hook_call :=
  match bs with
  | [] => (e, [])
  | (t, h) :: bs' =>
      let '(e1, tr1) := tick1 t h e in
      let '(e2, tr2) := run1 e1 bs' in
      (e2, tr1 ++ tr2)
  end.

Lemma tick1_about t h e i :
  filter (about i) (snd (tick1 t h e)) = if String.eqb (identifier e) i then snd (tick1 t h e) else [].
Proof.
  unfold tick1. destruct (negb (started e) && _).
  - cbn. destruct (String.eqb (identifier e) i); reflexivity.
  - destruct ((_ <? t) && _ && _); cbn; destruct (String.eqb (identifier e) i); reflexivity.
Qed.

Lemma find_ext_id (f : epoch -> epoch) id s : (forall e, identifier (f e) = identifier e) ->
  get_epoch_info (map f s) id = option_map f (get_epoch_info s id).
Proof.
  intros Hf. unfold get_epoch_info. induction s as [|e s IH]; [reflexivity|].
  cbn [map find]. rewrite Hf. destruct (String.eqb (identifier e) id); [reflexivity|exact IH].
Qed.

Lemma get_in s id e : get_epoch_info s id = Some e -> In e s /\ identifier e = id.
Proof.
  unfold get_epoch_info. intros H. apply find_some in H. destruct H as [H1 H2].
  apply String.eqb_eq in H2. auto.
Qed.

Lemma flat_map_about t h id : forall s e, NoDup (map identifier s) -> get_epoch_info s id = Some e ->
  filter (about id) (flat_map (fun e => snd (tick1 t h e)) s) = snd (tick1 t h e).
Proof.
  assert (Hnone : forall s, ~ In id (map identifier s) ->
    filter (about id) (flat_map (fun e => snd (tick1 t h e)) s) = []).
  { induction s as [|a s IH]; intros Hn; [reflexivity|]. cbn [flat_map map] in *.
    rewrite filter_app, tick1_about, IH by (intro; apply Hn; right; assumption).
    destruct (String.eqb_spec (identifier a) id) as [E|E]; [|reflexivity].
    exfalso. apply Hn. left. exact E. }
  induction s as [|a s IH]; intros e Hnd Hg; [discriminate|].
  cbn [flat_map map] in *. inversion Hnd as [|? ? Hni Hnd']; subst.
  rewrite filter_app, tick1_about. unfold get_epoch_info in Hg. cbn [find] in Hg.
  destruct (String.eqb_spec (identifier a) id) as [E|E].
  - inversion Hg; subst e. rewrite Hnone by (rewrite <- E; exact Hni). apply app_nil_r.
  - cbn [app]. apply IH; assumption.
Qed.

(* the run of the whole store, seen from one identifier, is the run of that
   epoch alone *)
Lemma run_project id : forall bs s e, NoDup (map identifier s) -> get_epoch_info s id = Some e ->
  get_epoch_info (fst (run s bs)) id = Some (fst (run1 e bs)) /\
  filter (about id) (snd (run s bs)) = snd (run1 e bs).
Proof.
  induction bs as [|[t h] bs IH]; intros s e Hnd Hg.
  - cbn. split; [exact Hg|reflexivity].
  - cbn [run run1]. rewrite begin_blocker_map by exact Hnd.
    pose proof (begin_blocker_ids s t h Hnd) as Hids. rewrite begin_blocker_map in Hids by exact Hnd.
    cbn [fst] in Hids.
    specialize (IH (map (fun e => fst (tick1 t h e)) s) (fst (tick1 t h e))).
    rewrite Hids in IH. specialize (IH Hnd).
    rewrite find_ext_id in IH by (intros; apply tick1_id). rewrite Hg in IH. specialize (IH eq_refl).
    pose proof (flat_map_about t h id s e Hnd Hg) as Hfm.
    destruct (run _ bs) as [s2 tr2]. destruct (tick1 t h e) as [e1 tr1].
    cbn [fst snd] in *. destruct (run1 e1 bs) as [e2 tr3]. cbn [fst snd] in *.
    destruct IH as [IH1 IH2]. split; [exact IH1|]. rewrite filter_app, Hfm, IH2. reflexivity.
Qed.

Lemma run_ids : forall bs s, NoDup (map identifier s) ->
  map identifier (fst (run s bs)) = map identifier s.
Proof.
  induction bs as [|[t h] bs IH]; intros s Hnd; [reflexivity|].
  cbn [run]. pose proof (begin_blocker_ids s t h Hnd) as Hids.
  destruct (begin_blocker s t h) as [s1 tr1]. cbn [fst] in Hids.
  specialize (IH s1). rewrite Hids in IH. specialize (IH Hnd).
  destruct (run s1 bs) as [s2 tr2]. exact IH.
Qed.

Lemma tick1_fixed t h e :
  start_time (fst (tick1 t h e)) = start_time e /\ duration (fst (tick1 t h e)) = duration e /\
  identifier (fst (tick1 t h e)) = identifier e.
Proof.
  unfold tick1. destruct (negb (started e) && _); [auto|].
  destruct ((_ <? t) && _ && _); auto.
Qed.

Lemma tick1_grid t h e : on_grid e -> on_grid (fst (tick1 t h e)).
Proof.
  unfold on_grid, tick1. intros H.
  destruct (negb (started e) && _) eqn:E1.
  - cbn. intros _. lia.
  - destruct ((_ <? t) && _ && _) eqn:E2; cbn; [|exact H].
    intros Hs. specialize (H Hs). lia.
Qed.

Lemma run1_grid : forall bs e, on_grid e -> on_grid (fst (run1 e bs)) /\
  start_time (fst (run1 e bs)) = start_time e /\ duration (fst (run1 e bs)) = duration e /\
  identifier (fst (run1 e bs)) = identifier e.
Proof.
  induction bs as [|[t h] bs IH]; intros e He; [auto|].
  cbn [run1]. pose proof (tick1_grid t h e He) as Hg. pose proof (tick1_fixed t h e) as (F1 & F2 & F3).
  destruct (tick1 t h e) as [e1 tr1]. cbn [fst] in *. specialize (IH e1 Hg).
  destruct (run1 e1 bs) as [e2 tr2]. cbn [fst] in *. intuition congruence.
Qed.

(* one block: the counter stays or grows by one; growing needs time strictly
   after the end of the current epoch *)
Lemma tick1_step t h e : started e = true ->
  (tick1 t h e = (e, [])) \/
  (current_start_time e + duration e < t /\ start_time e <= t /\
   current (fst (tick1 t h e)) = current e + 1 /\ started (fst (tick1 t h e)) = true /\
   current_start_time (fst (tick1 t h e)) = current_start_time e + duration e).
Proof.
  intros Hs. unfold tick1. rewrite Hs. cbn [negb andb].
  destruct ((_ <? t) && true && negb (t <? start_time e)) eqn:E; [right|left; reflexivity].
  cbn. repeat split; try lia; assumption.
Qed.

(* trace of a running epoch *)
Lemma run1_trace_started : forall bs e, started e = true ->
  exists k : nat, snd (run1 e bs) = actual_ticks (identifier e) (current e) k /\
    current (fst (run1 e bs)) = current e + Z.of_nat k /\ (k <= List.length bs)%nat /\
    started (fst (run1 e bs)) = true.
Proof.
  induction bs as [|[t h] bs IH]; intros e Hs.
  - exists O. cbn. repeat split; try lia; assumption.
  - cbn [run1]. destruct (tick1_step t h e Hs) as [E|(H1 & H2 & H3 & H4 & H5)].
    + rewrite E. specialize (IH e Hs). destruct IH as (k & K1 & K2 & K3 & K4).
      destruct (run1 e bs) as [e2 tr2]. cbn [fst snd app] in *. exists k. cbn [List.length]. repeat split; try lia; assumption.
    + assert (Htr : snd (tick1 t h e) = [AfterEpochEnd (identifier e) (current e + 1); BeforeEpochStart (identifier e) (current e + 1)]).
      { unfold tick1. rewrite Hs. cbn [negb andb].
        destruct ((_ <? t) && true && negb (t <? start_time e)) eqn:E; [reflexivity|]. lia. }
      pose proof (tick1_id t h e) as Hid.
      destruct (tick1 t h e) as [e1 tr1]. cbn [fst snd] in *.
      specialize (IH e1 H4). destruct IH as (k & K1 & K2 & K3 & K4).
      destruct (run1 e1 bs) as [e2 tr2]. cbn [fst snd] in *. subst tr1.
      exists (S k). cbn [actual_ticks app List.length]. rewrite K1, Hid, H3. repeat split; try lia; assumption.
Qed.

Lemma run1_trace_fresh : forall bs e, started e = false ->
  (snd (run1 e bs) = [] /\ fst (run1 e bs) = e) \/
  (exists k : nat, snd (run1 e bs) = BeforeEpochStart (identifier e) 1 :: actual_ticks (identifier e) 1 k /\
    current (fst (run1 e bs)) = 1 + Z.of_nat k /\ started (fst (run1 e bs)) = true).
Proof.
  induction bs as [|[t h] bs IH]; intros e Hs.
  - left. auto.
  - cbn [run1]. destruct (t <? start_time e) eqn:Et.
    + assert (tick1 t h e = (e, [])) as ->.
      { unfold tick1. rewrite Hs, Et. cbn [negb andb]. rewrite !andb_false_r. reflexivity. }
      specialize (IH e Hs). destruct (run1 e bs) as [e2 tr2]. cbn [fst snd app] in *. exact IH.
    + right. unfold tick1. rewrite Hs, Et. cbn [negb andb].
      set (e1 := start_initial (set_height e h)).
      destruct (run1_trace_started bs e1 eq_refl) as (k & K1 & K2 & K3 & K4).
      destruct (run1 e1 bs) as [e2 tr2]. cbn [fst snd] in *. exists k.
      cbn [app]. subst tr2. repeat split; assumption.
Qed.

(* the clock never runs ahead of block time, for positive durations *)
Definition not_ahead (e : epoch) (t : Z) : Prop :=
  started e = true -> start_time e <= t /\ (current_start_time e <= t).

Lemma run1_not_ahead : forall bs e t0, 0 < duration e -> non_decreasing t0 bs -> not_ahead e t0 ->
  not_ahead (fst (run1 e bs)) (last_time t0 bs).
Proof.
  induction bs as [|[t h] bs IH]; intros e t0 Hd Hnd Hna; [exact Hna|].
  cbn [run1 non_decreasing] in *. destruct Hnd as [Ht Hnd].
  assert (not_ahead (fst (tick1 t h e)) t) as Hna1.
  { unfold not_ahead, tick1 in *. destruct (negb (started e) && negb (t <? start_time e)) eqn:E1.
    - cbn. intros _. lia.
    - destruct ((_ <? t) && _ && _) eqn:E2; cbn.
      + intros Hs. specialize (Hna Hs). lia.
      + intros Hs. specialize (Hna Hs). lia. }
  pose proof (tick1_fixed t h e) as (_ & F2 & _).
  destruct (tick1 t h e) as [e1 tr1]. cbn [fst] in *.
  specialize (IH e1 t). destruct (run1 e1 bs) as [e2 tr2]. cbn [fst] in *.
  apply IH; [lia|exact Hnd|exact Hna1].
Qed.

(* with block gaps of at most one duration the clock never falls behind *)
Lemma run1_in_sync : forall bs e t0, 0 < duration e -> started e = true ->
  gaps_at_most (duration e) t0 bs -> not_ahead e t0 ->
  t0 <= current_start_time e + duration e ->
  last_time t0 bs <= current_start_time (fst (run1 e bs)) + duration e.
Proof.
  induction bs as [|[t h] bs IH]; intros e t0 Hd Hs Hg Hna Ht0; [exact Ht0|].
  cbn [run1 gaps_at_most] in *. destruct Hg as [Ht Hg].
  pose proof (tick1_fixed t h e) as (_ & F2 & _).
  pose proof (run1_not_ahead [(t, h)] e t0 Hd (conj (proj1 Ht) I) Hna) as Hna1.
  cbn [run1] in Hna1.
  assert (Hcase : started (fst (tick1 t h e)) = true /\ t <= current_start_time (fst (tick1 t h e)) + duration e).
  { destruct (Hna Hs) as [Hna' _].
    unfold tick1. rewrite Hs. cbn [negb andb].
    destruct ((_ <? t) && true && negb (t <? start_time e)) eqn:E; cbn; (split; [assumption|lia]). }
  destruct (tick1 t h e) as [e1 tr1]. cbn [fst] in *.
  specialize (IH e1 t). rewrite F2 in IH.
  destruct (run1 e1 bs) as [e2 tr2]. cbn [fst] in *.
  apply IH; [exact Hd|tauto|exact Hg|exact Hna1|tauto].
Qed.

Lemma genesis_valid_nodup : forall es seen, genesis_valid_from seen es = true ->
  NoDup (map identifier es) /\ (forall e, In e es -> ~ In (identifier e) seen).
Proof.
  induction es as [|e es IH]; intros seen H; cbn in *.
  - split; [constructor|tauto].
  - apply andb_prop in H. destruct H as [H H3]. apply andb_prop in H. destruct H as [H1 H2].
    destruct (IH _ H3) as [Hnd Hin]. split.
    + constructor; [|exact Hnd]. intros Hi. apply in_map_iff in Hi. destruct Hi as (x & Hx & Hxi).
      apply (Hin x Hxi). left. congruence.
    + intros x [->|Hx] Hs.
      * apply negb_true_iff in H1. rewrite <- not_true_iff_false in H1. apply H1.
        apply existsb_exists. exists (identifier x). split; [exact Hs|apply String.eqb_refl].
      * apply (Hin x Hx). right. exact Hs.
Qed.
