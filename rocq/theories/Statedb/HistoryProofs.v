(* Facts about a history that depend only on the operations no revert undid. *)
From Verif Require Import Lib.Base Lib.Bytes Lib.Amap Statedb.Model Statedb.Spec Statedb.Proofs Statedb.RevertProofs Statedb.SimProofs Statedb.CommitProofs.
From Coq Require Import Sorted.
Open Scope Z_scope.

Section Keccak.
Variable keccak : bytes -> word.
Notation step := (step keccak).
Notation run := (run keccak).
Notation db_ok := (db_ok keccak).
Notation ceq := (ceq keccak).
Notation inv := (inv keccak).
Notation get_obj := (get_obj keccak).
Notation get_or_new := (get_or_new keccak).

Section History.
Variable Q : sdb -> list op -> Prop.
Hypothesis Q_step : forall s cur x o s', Q s cur -> db_ok s -> ordinary x -> no_inner_commit x -> step s x = Ok (o, s') -> Q s' (cur ++ [x]).
Hypothesis Q_ceq : forall s t cur, ceq s t -> Q t cur -> Q s cur.

Lemma history ops : forall s ts cur saved os s', inv s ts -> Q s cur -> Forall2 (fun t iw => Q t (snd iw)) ts saved ->
  map fst (d_revs s) = map fst saved -> Forall no_inner_commit ops -> none_failed os -> run s ops = Ok (os, s') ->
  Q s' (survivors_from cur saved (d_next s) ops).
Proof.
  induction ops as [|x ops IH]; intros s ts cur saved os s' I Qs Qt Ids F Nf H; cbn [Model.run] in H; [injection H as <- <-; exact Qs|].
  apply rbind_inv in H as ([o s1] & H1 & H2). apply rbind_inv in H2 as ([os1 s2] & H2 & H3). injection H3 as <- <-.
  assert (No : o <> OPre PreFailed) by (intro X; apply Nf; left; exact X).
  assert (Nf' : none_failed os1) by (intro X; apply Nf; right; exact X).
  destruct (inv_step keccak s ts x o s1 I (Forall_inv F) No H1) as (ts1 & I1 & M).
  assert (Ord : ordinary x -> ts1 = ts /\ d_revs s1 = d_revs s /\ d_next s1 = d_next s -> Q s2 (survivors_from (cur ++ [x]) saved (d_next s) ops)).
  { intros Or (-> & R & Nx). rewrite <- Nx. eapply (IH s1 ts _ _ os1 s2 I1); auto; [|congruence|exact (Forall_inv_tail F)].
    eapply Q_step; [exact Qs|apply I|exact Or|exact (Forall_inv F)|exact H1]. }
  destruct x; try (apply Ord; [exact Logic.I|exact M]); clear Ord; cbn [survivors_from].
  - destruct M as (-> & R & Nx & _). rewrite <- Nx. eapply (IH s1 _ _ _ os1 s2 I1); auto.
    + apply (Q_ceq s1 s); [|exact Qs]. cbn [Model.step] in H1. unfold snapshot in H1. injection H1 as <- <-.
      constructor; auto. intro a. rewrite (see_ext keccak _ s a) by reflexivity. apply oacc_refl.
    + apply forall2_snoc; [exact Qt|exact Qs].
    + rewrite R, !map_app, Ids. reflexivity.
    + exact (Forall_inv_tail F).
  - destruct M as (i & n & t & E & Et & C & -> & R & Nx). pose proof (find_saved_spec saved id) as Fs.
    assert (Nd : NoDup (map fst saved)) by (rewrite <- Ids; apply ids_nodup; apply I).
    assert (Ei : nth_error (map fst saved) i = Some id) by (rewrite <- Ids; apply (map_nth_error fst) in E; exact E).
    destruct (find_saved saved id) as [[b w]|]; [|exfalso; apply Fs; eapply nth_error_In; exact Ei].
    destruct Fs as (j & Ej & -> & _). assert (j = i).
    { eapply nodup_nth_eq; [exact Nd| |exact Ei]. apply (map_nth_error fst) in Ej. exact Ej. }
    subst j. pose proof (forall2_nth_both _ _ _ _ _ _ Qt Et Ej) as Qw. cbn in Qw. rewrite <- Nx.
    eapply (IH s1 _ _ _ os1 s2 I1); auto.
    + eapply Q_ceq; eassumption.
    + apply forall2_firstn. exact Qt.
    + rewrite R, !firstn_map', Ids. reflexivity.
    + exact (Forall_inv_tail F).
Qed.

Lemma history0 st lb ops os s' : Q (new_db st lb) [] -> Forall no_inner_commit ops -> none_failed os -> run (new_db st lb) ops = Ok (os, s') ->
  Q s' (survivors ops).
Proof. intros Q0 F Nf H. eapply (history ops (new_db st lb) [] [] []); eauto. apply inv_new. Qed.
End History.

(* ---------- what the other operations do to the access list and the dirty set ---------- *)

Definition grows (s s' : sdb) : Prop := d_al s' = d_al s /\ (forall a, aget (d_dirties s) a <> None -> aget (d_dirties s') a <> None).
Lemma grows_refl s : grows s s. Proof. split; auto. Qed.
Lemma grows_trans s t u : grows s t -> grows t u -> grows s u.
Proof. intros [A B] [C D]. split; [congruence|auto]. Qed.
Lemma grows_eq s s' : d_al s' = d_al s -> d_dirties s' = d_dirties s -> grows s s'.
Proof. intros A B. split; [exact A|rewrite B; auto]. Qed.
Lemma grows_jappend s e : grows s (jappend s e).
Proof.
  split; [reflexivity|]. intros a H. cbn. destruct (dirtied e) as [b|]; [|exact H]. rewrite aget_aset. destruct (N.eqb b a); [discriminate|exact H].
Qed.
Lemma grows_get s a o s1 : get_obj s a = (o, s1) -> grows s s1.
Proof.
  intro H. apply grows_eq; [|apply (get_obj_ctx keccak _ _ _ _ H)]. unfold Model.get_obj in H.
  destruct (aget (d_objs s) a); [|destruct (k_account _ _ _)]; injection H as <- <-; reflexivity.
Qed.
Lemma grows_set s a o : grows s (set_obj s a o). Proof. apply grows_eq; reflexivity. Qed.
Lemma grows_new s a o s1 : get_or_new s a = (o, s1) -> grows s s1.
Proof.
  unfold Model.get_or_new. destruct (get_obj s a) as [[ob|] s2] eqn:G.
  - intro H; injection H as <- <-. eapply grows_get; exact G.
  - unfold create_object. destruct (get_obj s2 a) as [pv s3] eqn:G2. intro H; injection H as <- <-.
    eapply grows_trans; [eapply grows_get; exact G|]. eapply grows_trans; [eapply grows_get; exact G2|].
    eapply grows_trans; [|apply grows_set]. destruct pv; apply grows_jappend.
Qed.
Lemma grows_setbal s a o v : grows s (set_balance s a o v).
Proof. unfold set_balance. eapply grows_trans; [apply grows_jappend|apply grows_set]. Qed.
Lemma grows_add s a v : grows s (add_balance keccak s a v).
Proof. unfold add_balance. destruct (get_or_new s a) as [o s1] eqn:G. apply grows_new in G. destruct (v =? 0); [exact G|]. eapply grows_trans; [exact G|apply grows_setbal]. Qed.
Lemma grows_sub s a v : grows s (sub_balance keccak s a v).
Proof. unfold sub_balance. destruct (get_or_new s a) as [o s1] eqn:G. apply grows_new in G. destruct (v =? 0); [exact G|]. eapply grows_trans; [exact G|apply grows_setbal]. Qed.

Lemma dirty_jappend s e a : dirtied e = Some a -> aget (d_dirties (jappend s e)) a <> None.
Proof. intro E. cbn. rewrite E, aget_aset_same. discriminate. Qed.

Lemma grows_nonce s a n : grows s (set_nonce keccak s a n) /\ aget (d_dirties (set_nonce keccak s a n)) a <> None.
Proof.
  unfold set_nonce. destruct (get_or_new s a) as [o s1] eqn:G. apply grows_new in G. split.
  - eapply grows_trans; [exact G|]. eapply grows_trans; [apply grows_jappend|apply grows_set].
  - apply (dirty_jappend s1 _ a). reflexivity.
Qed.
Lemma grows_code s a c : grows s (set_code keccak s a c) /\ aget (d_dirties (set_code keccak s a c)) a <> None.
Proof.
  unfold set_code. destruct (get_or_new s a) as [o s1] eqn:G. apply grows_new in G. destruct (obj_code keccak (d_ctx s1) o) as [pv o1]. split.
  - eapply grows_trans; [exact G|]. eapply grows_trans; [apply grows_jappend|apply grows_set].
  - apply (dirty_jappend s1 _ a). reflexivity.
Qed.
Lemma grows_state s a k v : grows s (set_state keccak s a k v).
Proof.
  unfold set_state. destruct (get_or_new s a) as [o s1] eqn:G. apply grows_new in G. destruct (obj_state (d_ctx s1) a o k) as [pv o1].
  destruct (N.eqb pv v); (eapply grows_trans; [exact G|]); [apply grows_set|]. eapply grows_trans; [apply grows_jappend|apply grows_set].
Qed.
Lemma grows_suicide s a b s' : suicide keccak s a = (b, s') -> grows s s'.
Proof.
  unfold suicide. destruct (get_obj s a) as [[o|] s1] eqn:G; apply grows_get in G; intro H; injection H as <- <-; [|exact G].
  eapply grows_trans; [exact G|]. eapply grows_trans; [apply grows_jappend|apply grows_set].
Qed.
Lemma grows_create s a : grows s (create_account keccak s a).
Proof.
  unfold create_account, create_object. destruct (get_obj s a) as [pv s1] eqn:G. apply grows_get in G. eapply grows_trans; [exact G|].
  destruct pv; (eapply grows_trans; [apply grows_jappend|]); [eapply grows_trans|]; apply grows_set.
Qed.
Lemma grows_changes bs : forall s, grows s (fold_left (add_bal_change keccak) bs s).
Proof.
  induction bs as [|b bs IH]; intro s; cbn [fold_left]; [apply grows_refl|]. eapply grows_trans; [|apply IH]. destruct b; [apply grows_sub|apply grows_add].
Qed.
Lemma grows_precompile s p r s' : precompile keccak s p = Ok (r, s') -> grows s s'.
Proof.
  unfold precompile. set (ms := match d_cache s with Some c => c | None => d_ctx s end). set (s1 := with_cache s (Some ms)).
  assert (C : forall t c, grows t (with_cache t c)) by (intros; apply grows_eq; reflexivity).
  destruct (commit_with keccak ms s1) as [c| |]; [|intro H; injection H as _ <-; apply C|discriminate].
  set (s2 := with_cache s1 (Some c)).
  assert (R : forall s3, grows s s3 -> (let c3 := match d_cache s3 with Some c => c | None => d_ctx s3 end in
      let s4 := with_cache s3 (Some (pr_effect p c3)) in
      match pr_result p c3 with None => Ok (PreFailed, s4) | Some bs => Ok (add_precompile_fn keccak (fold_left (add_bal_change keccak) bs s4) (pr_addr p) (d_commits s) (d_ctx s) ms) end) = Ok (r, s') -> grows s s').
  { intros s3 G H. cbv zeta in H. set (s4 := with_cache s3 _) in H. assert (G4 : grows s s4) by (eapply grows_trans; [exact G|apply C]).
    destruct (pr_result p _) as [bs|]; [|injection H as _ <-; exact G4].
    unfold add_precompile_fn in H. destruct (get_or_new (fold_left (add_bal_change keccak) bs s4) (pr_addr p)) as [o s6] eqn:G6. injection H as _ <-.
    eapply grows_trans; [exact G4|]. eapply grows_trans; [apply grows_changes|]. eapply grows_trans; [eapply grows_new; exact G6|].
    eapply grows_trans; [apply grows_jappend|]. apply grows_eq; reflexivity. }
  assert (G2 : grows s s2) by (eapply grows_trans; [apply C|apply C]).
  destruct (pr_commit_first p).
  - unfold commit. cbn [d_cache with_cache s2]. destruct (commit_with keccak c s2) as [st'| |]; cbn [rbind]; [|intro H; injection H as _ <-; exact G2|discriminate].
    apply R. eapply grows_trans; [exact G2|]. apply grows_eq; reflexivity.
  - apply R. exact G2.
Qed.

(* ---------- warmth ---------- *)

Definition warm (s : sdb) (cur : list op) : Prop :=
  (forall a, al_contains_address (d_al s) a = existsb (adds_address a) cur) /\
  (forall a k, al_has (d_al s) a k = existsb (adds_slot a k) cur).

Lemma warm_grows s s' cur x : grows s s' -> (forall a, adds_address a x = false) -> (forall a k, adds_slot a k x = false) -> warm s cur -> warm s' (cur ++ [x]).
Proof.
  intros [E _] A S [W1 W2]. split; intros.
  - rewrite E, W1, existsb_app. cbn. rewrite A, !orb_false_r. reflexivity.
  - rewrite E, W2, existsb_app. cbn. rewrite S, !orb_false_r. reflexivity.
Qed.

Lemma read_code_grows s a c s' : read_code keccak s a = (c, s') -> grows s s'.
Proof.
  unfold read_code. destruct (get_obj s a) as [[o|] s1] eqn:G; apply grows_get in G; [|intro H; injection H as <- <-; exact G].
  destruct (obj_code keccak (d_ctx s1) o). intro H; injection H as <- <-. eapply grows_trans; [exact G|apply grows_set].
Qed.

(* every operation but the two that add to the access list and the reverts *)
Definition not_add (x : op) : Prop := match x with AddAddressToAccessList _ | AddSlotToAccessList _ _ => False | _ => True end.
Lemma step_grows s x o s' : ordinary x -> not_add x -> step s x = Ok (o, s') -> grows s s'.
Proof.
  intros Or Na H. destruct x; try contradiction; cbn [Model.step] in H;
    try (destruct (get_obj s a) as [ob s1] eqn:G; injection H as _ <-; eapply grows_get; exact G);
    try (destruct (read_code keccak s a) as [c s1] eqn:G; injection H as _ <-; eapply read_code_grows; exact G);
    try (injection H as _ <-).
  - destruct (get_obj s a) as [[ob|] s1] eqn:G; apply grows_get in G; [|injection H as _ <-; exact G].
    destruct (obj_state (d_ctx s1) a ob k). injection H as _ <-. eapply grows_trans; [exact G|apply grows_set].
  - destruct (get_obj s a) as [[ob|] s1] eqn:G; apply grows_get in G; [|injection H as _ <-; exact G].
    destruct (obj_committed (d_ctx s1) a ob k). injection H as _ <-. eapply grows_trans; [exact G|apply grows_set].
  - apply grows_refl.
  - apply grows_refl.
  - apply grows_add.
  - apply grows_sub.
  - apply grows_nonce.
  - apply grows_code.
  - apply grows_state.
  - destruct (suicide keccak s a) as [b s1] eqn:G. injection H as _ <-. eapply grows_suicide; exact G.
  - apply grows_create.
  - unfold add_log. eapply grows_trans; [apply grows_jappend|apply grows_eq; reflexivity].
  - unfold add_refund. eapply grows_trans; [apply grows_jappend|apply grows_eq; reflexivity].
  - unfold sub_refund in H. destruct (_ <? _)%N; [discriminate|]. cbn [rbind] in H. injection H as _ <-.
    eapply grows_trans; [apply grows_jappend|apply grows_eq; reflexivity].
  - apply grows_refl.
  - destruct (al_contains (d_al s) a k) as [[? ?]| |]; try discriminate. injection H as _ <-. apply grows_refl.
  - destruct (precompile keccak s p) as [[r s1]| |] eqn:P; try discriminate. injection H as _ <-. eapply grows_precompile; exact P.
Qed.

Lemma add_address_view s a : (forall c, al_contains_address (d_al (add_address s a)) c = (N.eqb c a || al_contains_address (d_al s) c)%bool) /\
  (forall c k, al_has (d_al (add_address s a)) c k = al_has (d_al s) c k) /\
  (forall c, aget (d_dirties s) c <> None -> aget (d_dirties (add_address s a)) c <> None).
Proof.
  unfold add_address. destruct (al_add_address (d_al s) a) as [al b] eqn:E. apply al_add_address_view in E as [E1 E2].
  split; [|split]; destruct b; cbn; auto.
Qed.
Lemma add_slot_view s a k s' : al_ok (d_al s) -> add_slot s a k = Ok s' ->
  (forall c, al_contains_address (d_al s') c = (N.eqb c a || al_contains_address (d_al s) c)%bool) /\
  (forall c k2, al_has (d_al s') c k2 = ((N.eqb c a && N.eqb k2 k) || al_has (d_al s) c k2)%bool) /\
  (forall c, aget (d_dirties s) c <> None -> aget (d_dirties s') c <> None).
Proof.
  intros O H. unfold add_slot in H. destruct (al_add_slot (d_al s) a k) as [[al [am sm]]| |] eqn:E; try discriminate. cbn [rbind] in H. injection H as <-.
  apply al_add_slot_view in E as [E1 E2]; [|exact O]. split; [|split]; destruct am, sm; cbn; auto.
Qed.

Lemma warm_step s cur x o s' : warm s cur -> db_ok s -> ordinary x -> no_inner_commit x -> step s x = Ok (o, s') -> warm s' (cur ++ [x]).
Proof.
  intros W D Or _ H. assert (Oth : not_add x -> (forall a, adds_address a x = false) -> (forall a k, adds_slot a k x = false) -> warm s' (cur ++ [x])).
  { intros. eapply warm_grows; eauto. eapply step_grows; eauto. }
  destruct x; try (apply Oth; [exact I|reflexivity|reflexivity]); clear Oth; cbn [Model.step] in H; destruct W as [W1 W2].
  - injection H as _ <-. destruct (add_address_view s a) as (V1 & V2 & _). split; intros.
    + rewrite V1, W1, existsb_app. cbn. destruct (N.eqb a0 a), (existsb (adds_address a0) cur); reflexivity.
    + rewrite V2, W2, existsb_app. cbn. rewrite !orb_false_r. reflexivity.
  - destruct (add_slot s a k) as [s1| |] eqn:E; try discriminate. injection H as _ <-. apply add_slot_view in E as (V1 & V2 & _); [|apply D].
    split; intros.
    + rewrite V1, W1, existsb_app. cbn. destruct (N.eqb a0 a), (existsb (adds_address a0) cur); reflexivity.
    + rewrite V2, W2, existsb_app. cbn. destruct (N.eqb a0 a && N.eqb k0 k), (existsb (adds_slot a0 k0) cur); reflexivity.
Qed.

Lemma warm_ceq s t cur : ceq s t -> warm t cur -> warm s cur.
Proof. intros C [A B]. split; intros; rewrite (q_al _ _ _ C); auto. Qed.

Theorem warm_run st lb ops os s' : Forall no_inner_commit ops -> none_failed os -> run (new_db st lb) ops = Ok (os, s') -> warm s' (survivors ops).
Proof. apply (history0 warm); [exact warm_step|exact warm_ceq|]. split; reflexivity. Qed.

(* ---------- the dirty set ---------- *)

Definition stamped (s : sdb) (cur : list op) : Prop := forall a, existsb (stamps a) cur = true -> aget (d_dirties s) a <> None.

Lemma stamped_step s cur x o s' : stamped s cur -> db_ok s -> ordinary x -> no_inner_commit x -> step s x = Ok (o, s') -> stamped s' (cur ++ [x]).
Proof.
  intros W D Or _ H a Ha. rewrite existsb_app in Ha. cbn in Ha. rewrite orb_false_r in Ha.
  assert (K : aget (d_dirties s) a <> None -> aget (d_dirties s') a <> None).
  { destruct x; try contradiction; try (apply (step_grows s _ o s' Or I H)); cbn [Model.step] in H.
    - injection H as _ <-. apply add_address_view.
    - destruct (add_slot s a0 k) as [s1| |] eqn:E; try discriminate. injection H as _ <-. apply add_slot_view in E; [|apply D]. apply E. }
  apply orb_true_iff in Ha as [Ha|Ha]; [auto|]. destruct x; try discriminate; cbn in Ha; apply N.eqb_eq in Ha; subst a0; cbn [Model.step] in H; injection H as _ <-.
  - apply grows_nonce.
  - apply grows_code.
Qed.
Lemma stamped_ceq s t cur : ceq s t -> stamped t cur -> stamped s cur.
Proof. intros C H a Ha. rewrite (q_dirties _ _ _ C). auto. Qed.
Theorem stamped_run st lb ops os s' : Forall no_inner_commit ops -> none_failed os -> run (new_db st lb) ops = Ok (os, s') -> stamped s' (survivors ops).
Proof. apply (history0 stamped); [exact stamped_step|exact stamped_ceq|]. intros a H. discriminate. Qed.

(* ---------- PrepareAccessList ---------- *)

Definition listed_addr (l : list (addr * list word)) (a : addr) : bool := existsb (fun t : addr * list word => N.eqb a (fst t)) l.
Definition listed_slot (l : list (addr * list word)) (a : addr) (k : word) : bool :=
  existsb (fun t : addr * list word => N.eqb a (fst t) && existsb (N.eqb k) (snd t)) l.

Lemma add_addresses_steps l : forall s, run s (map AddAddressToAccessList l) = Ok (map (fun _ => OUnit) l, add_addresses s l).
Proof. induction l as [|a l IH]; intro s; cbn; [reflexivity|]. rewrite IH. reflexivity. Qed.

Lemma run_app ops1 : forall s ops2, run s (ops1 ++ ops2) = rbind (run s ops1) (fun '(o1, s1) => rbind (run s1 ops2) (fun '(o2, s2) => Ok (o1 ++ o2, s2))).
Proof.
  induction ops1 as [|x l IH]; intros s ops2; cbn [app Model.run].
  - cbn [rbind]. destruct (run s ops2) as [[? ?]| |]; reflexivity.
  - destruct (step s x) as [[o s1]| |]; cbn [rbind]; try reflexivity. rewrite IH. destruct (run s1 l) as [[o1 s2]| |]; cbn [rbind]; try reflexivity.
    destruct (run s2 ops2) as [[o2 s3]| |]; reflexivity.
Qed.

Definition tuple_ops (l : list (addr * list word)) : list op :=
  flat_map (fun t : addr * list word => AddAddressToAccessList (fst t) :: map (AddSlotToAccessList (fst t)) (snd t)) l.

Definition final (r : res (list out * sdb)) : res sdb := rbind r (fun '(_, s) => Ok s).

Lemma add_slots_steps a l : forall s, final (run s (map (AddSlotToAccessList a) l)) = add_slots s a l.
Proof.
  induction l as [|k l IH]; intro s; cbn [map Model.run add_slots]; [reflexivity|]. cbn [Model.step]. destruct (add_slot s a k) as [s1| |]; cbn [rbind]; try reflexivity.
  rewrite <- IH. destruct (run s1 _) as [[? ?]| |]; reflexivity.
Qed.
Lemma final_app s o1 o2 : final (run s (o1 ++ o2)) = rbind (final (run s o1)) (fun s1 => final (run s1 o2)).
Proof. rewrite run_app. destruct (run s o1) as [[? s1]| |]; cbn; try reflexivity. destruct (run s1 o2) as [[? ?]| |]; reflexivity. Qed.
Lemma add_tuples_steps l : forall s, final (run s (tuple_ops l)) = add_tuples s l.
Proof.
  induction l as [|[a ks] l IH]; intro s; [reflexivity|]. unfold tuple_ops. cbn [flat_map fst snd].
  rewrite <- app_comm_cons. change (AddAddressToAccessList a :: ?x) with ([AddAddressToAccessList a] ++ x). rewrite final_app. cbn [Model.run Model.step rbind final].
  rewrite final_app, add_slots_steps. cbn [add_tuples]. destruct (add_slots (add_address s a) a ks); cbn [rbind]; try reflexivity. apply IH.
Qed.

(* the calls PrepareAccessList makes *)
Definition prepare_ops (sender : addr) (dst : option addr) (pcs : list addr) (l : list (addr * list word)) : list op :=
  AddAddressToAccessList sender :: match dst with Some d => [AddAddressToAccessList d] | None => [] end
    ++ map AddAddressToAccessList pcs ++ tuple_ops l.

Lemma prepare_steps s sender dst pcs l : final (run s (prepare_ops sender dst pcs l)) = prepare_access_list s sender dst pcs l.
Proof.
  unfold prepare_ops, prepare_access_list. change (AddAddressToAccessList sender :: ?x) with ([AddAddressToAccessList sender] ++ x).
  rewrite final_app. cbn [Model.run Model.step rbind final].
  assert (A : forall t, final (run t (map AddAddressToAccessList pcs)) = Ok (add_addresses t pcs)) by (intro t; rewrite add_addresses_steps; reflexivity).
  rewrite final_app. destruct dst as [d|]; cbn [Model.run Model.step rbind final]; rewrite final_app, A; cbn [rbind]; apply add_tuples_steps.
Qed.

Lemma add_slots_ok a l : forall s, db_ok s -> exists s', add_slots s a l = Ok s' /\ db_ok s'.
Proof.
  induction l as [|k l IH]; intros s D; cbn [add_slots]; [eauto|].
  destruct (al_add_slot_spec (d_al s) a k (ro_al _ _ (proj2 D))) as (al & am & sm & E & _).
  assert (X : exists s1, add_slot s a k = Ok s1) by (unfold add_slot; rewrite E; cbn [rbind]; eauto). destruct X as (s1 & X). rewrite X. cbn [rbind].
  assert (D1 : db_ok s1).
  { eapply (g_ok _ _ _ (step_good keccak s (AddSlotToAccessList a k) OUnit s1 D I I ltac:(discriminate) _)). Unshelve. cbn [Model.step]. rewrite X. reflexivity. }
  apply IH. exact D1.
Qed.
Lemma add_address_ok s a : db_ok s -> db_ok (add_address s a).
Proof. intro D. apply (g_ok _ _ _ (step_good keccak s (AddAddressToAccessList a) OUnit (add_address s a) D I I ltac:(discriminate) eq_refl)). Qed.
Lemma add_addresses_ok l : forall s, db_ok s -> db_ok (add_addresses s l).
Proof. induction l; intros s D; cbn; auto using add_address_ok. Qed.
Lemma add_tuples_ok l : forall s, db_ok s -> exists s', add_tuples s l = Ok s' /\ db_ok s'.
Proof.
  induction l as [|[a ks] l IH]; intros s D; cbn [add_tuples]; [eauto|].
  destruct (add_slots_ok a ks (add_address s a) (add_address_ok _ _ D)) as (s1 & E & D1). rewrite E. cbn [rbind]. auto.
Qed.
Theorem prepare_ok s sender dst pcs l : db_ok s -> exists s', prepare_access_list s sender dst pcs l = Ok s'.
Proof.
  intro D. unfold prepare_access_list. edestruct (add_tuples_ok l) as (s' & E & _); [|exists s'; exact E].
  apply add_addresses_ok. destruct dst; auto using add_address_ok.
Qed.

(* ---------- the count of precompile calls ---------- *)

Definition is_ok_call (o : out) : bool := match o with OPre PreOk => true | _ => false end.
Definition is_call (o : out) : bool := match o with OPre PreOk | OPre PreMax => true | _ => false end.
Definition count_by (f : out -> bool) (os : list out) : N := N.of_nat (length (filter f os)).

Lemma get_obj_pre s a o s1 : get_obj s a = (o, s1) -> d_pre s1 = d_pre s.
Proof. unfold Model.get_obj. destruct (aget (d_objs s) a); [|destruct (k_account _ _ _)]; intro H; injection H as <- <-; reflexivity. Qed.
Lemma get_or_new_pre s a o s1 : get_or_new s a = (o, s1) -> d_pre s1 = d_pre s.
Proof.
  unfold Model.get_or_new, create_object. destruct (get_obj s a) as [[ob|] s2] eqn:G; apply get_obj_pre in G; [intro H; injection H as <- <-; exact G|].
  destruct (get_obj s2 a) as [pv s3] eqn:G2. apply get_obj_pre in G2. intro H; injection H as <- <-. destruct pv; cbn; congruence.
Qed.
Lemma setbal_pre s a v f : d_pre (let '(o, s1) := get_or_new s a in if v =? 0 then s1 else set_balance s1 a o (f o)) = d_pre s.
Proof. destruct (get_or_new s a) as [o s1] eqn:G. apply get_or_new_pre in G. destruct (v =? 0); exact G. Qed.
Lemma changes_pre bs : forall s, d_pre (fold_left (add_bal_change keccak) bs s) = d_pre s.
Proof.
  induction bs as [|b bs IH]; intro s; cbn [fold_left]; [reflexivity|]. rewrite IH. destruct b; cbn.
  - apply (setbal_pre s a v (fun o => a_bal (o_acct o) - v)).
  - apply (setbal_pre s a v (fun o => a_bal (o_acct o) + v)).
Qed.

Lemma precompile_pre s p r s' : precompile keccak s p = Ok (r, s') ->
  match r with
  | PreFailed => d_pre s' = d_pre s
  | PreOk => d_pre s' = ((d_pre s + 1) mod 256)%N /\ (d_pre s' <= 7)%N
  | PreMax => d_pre s' = ((d_pre s + 1) mod 256)%N /\ (7 < d_pre s')%N
  end.
Proof.
  unfold precompile. set (ms := match d_cache s with Some c => c | None => d_ctx s end). set (s1 := with_cache s (Some ms)).
  destruct (commit_with keccak ms s1) as [c| |]; [|intro H; injection H as <- <-; reflexivity|discriminate].
  set (s2 := with_cache s1 (Some c)).
  assert (R : forall s3, d_pre s3 = d_pre s -> (let c3 := match d_cache s3 with Some c => c | None => d_ctx s3 end in
      let s4 := with_cache s3 (Some (pr_effect p c3)) in
      match pr_result p c3 with None => Ok (PreFailed, s4) | Some bs => Ok (add_precompile_fn keccak (fold_left (add_bal_change keccak) bs s4) (pr_addr p) (d_commits s) (d_ctx s) ms) end) = Ok (r, s') ->
      match r with
      | PreFailed => d_pre s' = d_pre s
      | PreOk => d_pre s' = ((d_pre s + 1) mod 256)%N /\ (d_pre s' <= 7)%N
      | PreMax => d_pre s' = ((d_pre s + 1) mod 256)%N /\ (7 < d_pre s')%N
      end).
  { intros s3 G H. cbv zeta in H. set (s4 := with_cache s3 _) in H. assert (G4 : d_pre s4 = d_pre s) by exact G.
    destruct (pr_result p _) as [bs|]; [|injection H as <- <-; exact G4].
    unfold add_precompile_fn in H. destruct (get_or_new (fold_left (add_bal_change keccak) bs s4) (pr_addr p)) as [o s6] eqn:G6. apply get_or_new_pre in G6.
    rewrite changes_pre, G4 in G6. cbn [d_pre with_pre jappend with_journal] in H. rewrite G6 in H. unfold max_precompile_calls in H.
    destruct (7 <? (d_pre s + 1) mod 256)%N eqn:L; injection H as <- <-; cbn [d_pre with_pre]; (split; [reflexivity|]); lia. }
  destruct (pr_commit_first p).
  - unfold commit. cbn [d_cache with_cache s2]. destruct (commit_with keccak c s2) as [st'| |]; cbn [rbind]; [|intro H; injection H as <- <-; reflexivity|discriminate].
    apply R. reflexivity.
  - apply R. reflexivity.
Qed.

Lemma revert_entry_pre s e s' : revert_entry keccak s e = Ok s' -> d_pre s' = d_pre s.
Proof.
  destruct e; cbn [revert_entry]; unfold with_live; intro H;
    try (destruct (get_obj s a) as [[o|] s1] eqn:G; apply get_obj_pre in G; try discriminate; injection H as <-; exact G);
    try (injection H as <-; reflexivity).
  - destruct (d_logs s); [discriminate|]. injection H as <-. reflexivity.
  - destruct (al_delete_slot (d_al s) a k); try discriminate. injection H as <-. reflexivity.
Qed.
Lemma pops_pre n : forall s s', pops keccak n s = Ok s' -> d_pre s' = d_pre s.
Proof.
  induction n as [|n IH]; intros s s' H; cbn [pops] in H; [injection H as <-; reflexivity|]. apply rbind_inv in H as (s1 & H1 & H2).
  rewrite (IH _ _ H2). unfold pop in H1. destruct (d_journal s) as [|e j]; [injection H1 as <-; reflexivity|].
  apply rbind_inv in H1 as (s0 & H0 & H1). injection H1 as <-. cbn. eapply revert_entry_pre; exact H0.
Qed.

Lemma step_pre s x o s' : step s x = Ok (o, s') -> no_precompile x -> d_pre s' = d_pre s /\ is_call o = false.
Proof.
  intros H Np. destruct x; try contradiction; cbn [Model.step] in H;
    try (destruct (get_obj s a) as [ob s1] eqn:G; apply get_obj_pre in G; injection H as <- <-; split; [exact G|reflexivity]);
    try (injection H as <- <-; split; [|reflexivity]).
  - unfold read_code in H. destruct (get_obj s a) as [[ob|] s1] eqn:G; apply get_obj_pre in G; [destruct (obj_code keccak (d_ctx s1) ob)|]; injection H as <- <-; auto.
  - unfold read_code in H. destruct (get_obj s a) as [[ob|] s1] eqn:G; apply get_obj_pre in G; [destruct (obj_code keccak (d_ctx s1) ob)|]; injection H as <- <-; auto.
  - destruct (get_obj s a) as [[ob|] s1] eqn:G; apply get_obj_pre in G; [destruct (obj_state (d_ctx s1) a ob k)|]; injection H as <- <-; auto.
  - destruct (get_obj s a) as [[ob|] s1] eqn:G; apply get_obj_pre in G; [destruct (obj_committed (d_ctx s1) a ob k)|]; injection H as <- <-; auto.
  - reflexivity.
  - reflexivity.
  - apply (setbal_pre s a v (fun o => a_bal (o_acct o) + v)).
  - apply (setbal_pre s a v (fun o => a_bal (o_acct o) - v)).
  - unfold set_nonce. destruct (get_or_new s a) as [ob s1] eqn:G. apply get_or_new_pre in G. exact G.
  - unfold set_code. destruct (get_or_new s a) as [ob s1] eqn:G. apply get_or_new_pre in G. destruct (obj_code keccak (d_ctx s1) ob). exact G.
  - unfold set_state. destruct (get_or_new s a) as [ob s1] eqn:G. apply get_or_new_pre in G. destruct (obj_state (d_ctx s1) a ob k). destruct (N.eqb _ v); exact G.
  - unfold suicide in H. destruct (get_obj s a) as [[ob|] s1] eqn:G; apply get_obj_pre in G; injection H as <- <-; auto.
  - unfold create_account, create_object. destruct (get_obj s a) as [pv s1] eqn:G. apply get_obj_pre in G. destruct pv; exact G.
  - reflexivity.
  - reflexivity.
  - unfold sub_refund in H. destruct (_ <? _)%N; [discriminate|]. injection H as <- <-. auto.
  - unfold add_address. destruct (al_add_address (d_al s) a) as [al b]. destruct b; reflexivity.
  - unfold add_slot in H. destruct (al_add_slot (d_al s) a k) as [[al [am sm]]| |]; try discriminate. injection H as <- <-. destruct am, sm; auto.
  - reflexivity.
  - destruct (al_contains (d_al s) a k) as [[? ?]| |]; try discriminate. injection H as <- <-. auto.
  - reflexivity.
  - unfold revert_to_snapshot in H. destruct (nth_error (d_revs s) _) as [[i n]|]; [|discriminate]. destruct (negb _); [discriminate|]. unfold jrevert in H.
    destruct (pops keccak _ s) as [s1| |] eqn:P; try discriminate. injection H as <- <-. split; [|reflexivity]. apply pops_pre in P. exact P.
Qed.

Lemma count_cons f o os : count_by f (o :: os) = ((if f o then 1 else 0) + count_by f os)%N.
Proof. unfold count_by. cbn [filter]. destruct (f o); cbn [length]; lia. Qed.

Theorem calls_run ops : forall s os s', run s ops = Ok (os, s') -> (d_pre s + count_by is_call os < 256)%N ->
  d_pre s' = (d_pre s + count_by is_call os)%N /\
  (count_by is_ok_call os <= 7 - d_pre s)%N /\ (forall n, (d_pre s + N.of_nat n <= 7)%N -> (N.of_nat n <= count_by is_call os)%N -> (N.of_nat n <= count_by is_ok_call os)%N).
Proof.
  induction ops as [|x ops IH]; intros s os s' H L; cbn [Model.run] in H.
  { injection H as <- <-. unfold count_by. cbn. split; [lia|]. split; [lia|]. intros n _ Hn. exact Hn. }
  apply rbind_inv in H as ([o s1] & H1 & H2). apply rbind_inv in H2 as ([os1 s2] & H2 & H3). injection H3 as <- <-.
  rewrite !count_cons in *.
  assert (E : (d_pre s1 = d_pre s /\ is_call o = false) \/ (d_pre s1 = (d_pre s + 1) mod 256 /\ is_call o = true /\ is_ok_call o = (d_pre s1 <=? 7))%N).
  { destruct x; try (left; eapply step_pre; [exact H1|exact I]). cbn [Model.step] in H1. destruct (precompile keccak s p) as [[r s3]| |] eqn:P; try discriminate.
    injection H1 as <- <-. apply precompile_pre in P. destruct r; cbn [is_call is_ok_call]; [right|right|left; auto]; destruct P as [P1 P2]; (split; [exact P1|]); (split; [reflexivity|]); lia. }
  destruct E as [[E1 E2]|[E1 [E2 E3]]].
  - assert (is_ok_call o = false) as -> by (destruct o as [| | | | | | |[| |]]; try reflexivity; discriminate). rewrite E2 in *.
    destruct (IH s1 os1 s2 H2 ltac:(lia)) as (A & B & C). rewrite E1 in *. split; [lia|]. split; [lia|]. intros n Hn Hc. apply C; lia.
  - rewrite E2 in L. rewrite N.mod_small in E1 by lia. rewrite E2, E3.
    destruct (IH s1 os1 s2 H2 ltac:(lia)) as (A & B & C). rewrite E1 in *. split; [lia|].
    destruct (N.leb_spec (d_pre s + 1) 7).
    + split; [lia|]. intros [|n] Hn Hc; [lia|]. specialize (C n ltac:(lia) ltac:(lia)). lia.
    + split; [lia|]. intros n Hn Hc. lia.
Qed.
End Keccak.
