(* The queue: what stands in it, in every quiet history. *)
From Verif Require Import Lib.Base Lib.Bytes Lib.Codec Lib.Zmap Chronos.Model Chronos.Spec Chronos.Proofs.
From Coq Require Import ZArith List Bool Lia.
Import ListNotations.
Open Scope Z_scope.

(* ---- counting --------------------------------------------------------- *)

Lemma times_app id l l' : times id (l ++ l') = (times id l + times id l')%nat.
Proof. unfold times. rewrite filter_app, app_length. reflexivity. Qed.

Lemma times_one id i t : times id [(i, t)] = if i =? id then 1%nat else 0%nat.
Proof. unfold times. cbn. destruct (i =? id); reflexivity. Qed.

Lemma drop_first_none id l : drop_first id l = None <-> times id l = 0%nat.
Proof.
  induction l as [|[i t] l IH]; [cbn; tauto|]. unfold times in *. cbn. destruct (i =? id); cbn; [split; discriminate|].
  destruct (drop_first id l); split; intro H; try discriminate; try tauto. apply IH in H. discriminate.
Qed.

Lemma drop_first_times id l l' : drop_first id l = Some l' ->
  forall j, times j l = (times j l' + (if (id =? j)%Z then 1 else 0))%nat.
Proof.
  revert l'. induction l as [|[i t] l IH]; cbn; [discriminate|]. intros l'. destruct (Z.eqb_spec i id) as [E|E].
  - intro H. injection H as <-. intro j. unfold times. cbn. subst i. destruct (id =? j); cbn; lia.
  - destruct (drop_first id l) as [r|]; [|discriminate]. intro H. injection H as <-. intro j.
    specialize (IH r eq_refl j). unfold times in *. cbn. destruct (i =? j); cbn; lia.
Qed.

Lemma ids_at_zset q k l k' : ids_at (zset q k l) k' = if k =? k' then l else ids_at q k'.
Proof. unfold ids_at. rewrite zget_zset. destruct (k =? k'); reflexivity. Qed.
Lemma ids_at_zdel q k k' : zsorted q -> ids_at (zdel q k) k' = if k =? k' then [] else ids_at q k'.
Proof. intro S. unfold ids_at. rewrite zget_zdel by exact S. destruct (k =? k'); reflexivity. Qed.

(* ---- the invariant ---------------------------------------------------- *)

(* How often a record says it stands under a key. *)
Definition due (c : cron) (k : Z) : nat :=
  if waiting c then match c_price c with Some p => if Z.abs p =? k then 1%nat else 0%nat | None => 0%nat end else 0%nat.
Definition due_opt (o : option cron) (k : Z) : nat := match o with Some c => due c k | None => 0%nat end.

Definition priced (c : cron) : Prop := waiting c = true -> exists p, c_price c = Some p.

Lemma exact_due s : queue_exact s <->
  (forall id c, get_cron s id = Some c -> priced c) /\ forall id k, queued_at s id k = due_opt (get_cron s id) k.
Proof. unfold queue_exact, priced, due_opt, due. reflexivity. Qed.

Definition qinv (D : Z -> Prop) (s : st) : Prop := wf s /\ queue_exact s /\ forall j, D j -> get_cron s j = None.

(* A copy of a task agrees with the live record. *)
Definition fresh (s : st) (c : cron) : Prop :=
  exists c', get_cron s (c_id c) = Some c' /\ c_queue c' = c_queue c /\ c_price c' = c_price c /\ ok_cron c.

Lemma fresh_due s c c' k : get_cron s (c_id c) = Some c' -> c_queue c' = c_queue c -> c_price c' = c_price c -> due c' k = due c k.
Proof. intros _ A B. unfold due, waiting. rewrite A, B. reflexivity. Qed.

Lemma live_fresh s id c : wf s -> get_cron s id = Some c -> fresh s c.
Proof. intros W G. destruct (wf_live _ _ _ W G) as (I & O & _). exists c. rewrite I. auto. Qed.

Lemma waiting_flag h c : upd0 < h -> flagged h c = waiting c.
Proof. intro H. unfold flagged, waiting. replace (upd0 <? h) with true by (symmetry; apply Z.ltb_lt; exact H). reflexivity. Qed.

(* Same queue, records that agree: the invariant carries over. *)
Lemma qinv_same D s s' : wf s' -> s_crons s' = s_crons s -> s_queue s' = s_queue s -> qinv D s -> qinv D s'.
Proof.
  intros W E1 E2 (_ & B & C). split; [exact W|]. unfold queue_exact, queued_at, get_cron in *. rewrite E1, E2. auto.
Qed.

Lemma qinv_send D s a b x s' : qinv D s -> send s a b x = Ok s' -> qinv D s'.
Proof.
  intros Q S. pose proof (send_wf _ _ _ _ _ (proj1 Q) S) as W. rewrite (send_rest _ _ _ _ _ S) in *.
  apply (qinv_same D s); auto.
Qed.

Lemma qinv_record D s r : qinv D s -> qinv D (record s r).
Proof. intro Q. apply (qinv_same D s); auto. apply record_wf, Q. Qed.

Lemma qinv_store D s c c' : qinv D s -> get_cron s (c_id c) = Some c' -> c_queue c = c_queue c' -> c_price c = c_price c' -> ok_cron c ->
  qinv D (store_cron s c).
Proof.
  intros (W & X & Y) G A B O. destruct (wf_live _ _ _ W G) as (_ & _ & L). split; [apply store_wf; assumption|]. split.
  - apply (proj1 (exact_due _)) in X. destruct X as [X1 X2]. apply (proj2 (exact_due _)). split.
    + intros id c2. rewrite get_store. destruct (Z.eqb_spec (c_id c) id) as [E|E]; [|apply X1].
      intro H. injection H as <-. specialize (X1 _ _ G). unfold priced, waiting in *. rewrite A, B. exact X1.
    + intros id k. rewrite get_store. change (queued_at (store_cron s c) id k) with (queued_at s id k). rewrite X2.
      destruct (Z.eqb_spec (c_id c) id) as [E|E]; [|reflexivity]. rewrite <- E, G. cbn [due_opt].
      symmetry. unfold due, waiting. rewrite A, B. reflexivity.
  - intros j DJ. rewrite get_store. destruct (Z.eqb_spec (c_id c) j) as [E|E]; [|apply Y, DJ]. rewrite <- E in DJ. rewrite (Y _ DJ) in G. discriminate.
Qed.

Lemma qinv_append D s t c s' : qinv D s -> get_cron s (c_id c) = Some c -> waiting c = false -> t <> 0 -> t <> -1 ->
  append_queue s t c = Ok s' -> qinv D s'.
Proof.
  intros (W & X & Y) G NW T0 T1 A. pose proof (append_wf _ _ _ _ W G A) as W'. destruct (append_shape _ _ _ _ A) as (k & KQ & ->).
  apply (proj1 (exact_due _)) in X. destruct X as [X1 X2]. unfold queue_key in KQ. destruct (c_price c) as [p|] eqn:P; [|discriminate]. cbn in KQ. injection KQ as <-.
  assert (WT : waiting (with_queue c t) = true).
  { unfold waiting. cbn. destruct (Z.eqb_spec t (-1)); [congruence|]. destruct (Z.eqb_spec t 0); [congruence|]. reflexivity. }
  split; [exact W'|]. split.
  - apply (proj2 (exact_due _)). split.
    + intros id c2. rewrite get_store. cbn [c_id with_queue]. destruct (c_id c =? id); [|apply X1].
      intro H. injection H as <-. intros _. exists p. exact P.
    + intros id k. rewrite get_store. cbn [c_id with_queue]. unfold queued_at. cbn [store_cron set_crons set_queue s_queue].
      rewrite ids_at_zset. change (get_cron (set_queue s (zset (s_queue s) (Z.abs p) (ids_at (s_queue s) (Z.abs p) ++ [(c_id c, t)]))) id) with (get_cron s id).
      specialize (X2 id k). unfold queued_at in X2. destruct (Z.eqb_spec (Z.abs p) k) as [E|E].
      * rewrite times_app, times_one. rewrite <- E in X2 |- *. rewrite X2. destruct (Z.eqb_spec (c_id c) id) as [F|F]; [|lia].
        rewrite <- F, G. cbn [due_opt]. unfold due. rewrite NW, WT. cbn [c_price with_queue]. rewrite P, Z.eqb_refl. reflexivity.
      * rewrite X2. destruct (Z.eqb_spec (c_id c) id) as [F|F]; [|reflexivity]. rewrite <- F, G. cbn [due_opt]. unfold due. rewrite NW, WT.
        cbn [c_price with_queue]. rewrite P. destruct (Z.eqb_spec (Z.abs p) k); [congruence|reflexivity].
  - intros j DJ. rewrite get_store. cbn [c_id with_queue]. destruct (Z.eqb_spec (c_id c) j) as [E|E]; [|apply Y, DJ]. rewrite <- E in DJ. rewrite (Y _ DJ) in G. discriminate.
Qed.

(* Taking a live task out of the queue. *)
Lemma unqueue_spec D s c s' : qinv D s -> get_cron s (c_id c) = Some c -> remove_queue s c = Ok s' ->
  qinv D s' /\ (forall j, j <> c_id c -> get_cron s' j = get_cron s j) /\ (forall k, queued_at s' (c_id c) k = 0%nat) /\ s_bal s' = s_bal s.
Proof.
  intros (W & X & Y) G R. pose proof X as X0. apply (proj1 (exact_due _)) in X. destruct X as [X1 X2]. destruct (wf_live _ _ _ W G) as (_ & O & L).
  unfold remove_queue in R. unfold queue_key in R. destruct (c_price c) as [p|] eqn:P; [|discriminate]. cbn [option_map] in R.
  assert (Z0 : times (c_id c) (ids_at (s_queue s) (Z.abs p)) = 0%nat -> s' = s ->
     qinv D s' /\ (forall j, j <> c_id c -> get_cron s' j = get_cron s j) /\ (forall k, queued_at s' (c_id c) k = 0%nat) /\ s_bal s' = s_bal s).
  { intros T ->. split; [split; [exact W|split; [exact X0|exact Y]]|]. split; [auto|]. split; [|reflexivity].
    intro k. rewrite X2, G. cbn [due_opt]. unfold due. destruct (waiting c) eqn:WC; [|reflexivity]. rewrite P.
    destruct (Z.eqb_spec (Z.abs p) k) as [E|E]; [|reflexivity]. exfalso.
    specialize (X2 (c_id c) (Z.abs p)). unfold queued_at in X2. rewrite T, G in X2. cbn [due_opt] in X2. unfold due in X2. rewrite WC, P, Z.eqb_refl in X2. discriminate. }
  destruct (zget (s_queue s) (Z.abs p)) as [l|] eqn:ZG; [|apply Z0; [unfold ids_at; rewrite ZG; reflexivity|injection R as <-; reflexivity]].
  assert (AT : ids_at (s_queue s) (Z.abs p) = l) by (unfold ids_at; rewrite ZG; reflexivity).
  destruct (drop_first (c_id c) l) as [l'|] eqn:DF; [|apply Z0; [rewrite AT; apply drop_first_none, DF|injection R as <-; reflexivity]].
  pose proof (drop_first_times _ _ _ DF) as TM.
  assert (WC : waiting c = true).
  { specialize (X2 (c_id c) (Z.abs p)). unfold queued_at in X2. rewrite AT, TM, Z.eqb_refl, G in X2. cbn [due_opt] in X2. unfold due in X2.
    destruct (waiting c); [reflexivity|lia]. }
  set (q' := match l' with [] => zdel (s_queue s) (Z.abs p) | _ => zset (s_queue s) (Z.abs p) l' end).
  assert (E : s' = store_cron (set_queue s q') (with_queue c (-1))) by (unfold q'; destruct l'; injection R as <-; reflexivity).
  assert (QA : forall k, ids_at q' k = if Z.abs p =? k then l' else ids_at (s_queue s) k).
  { intro k. unfold q'. destruct l'; [apply ids_at_zdel, W|apply ids_at_zset]. }
  assert (WQ : wf (set_queue s q')) by (unfold q'; destruct l'; [apply qdel_wf|apply qset_wf]; exact W).
  assert (W' : wf s') by (rewrite E; apply store_wf; [exact WQ|exact O|exact L]). clearbody q'.
  assert (GJ : forall j, get_cron s' j = if c_id c =? j then Some (with_queue c (-1)) else get_cron s j) by (intro j; rewrite E, get_store; reflexivity).
  assert (QJ : forall j k, queued_at s' j k = due_opt (get_cron s' j) k).
  { intros j k. rewrite GJ. unfold queued_at. rewrite E. cbn [store_cron set_crons set_queue s_queue]. rewrite QA.
    pose proof (X2 j k) as X2'. unfold queued_at in X2'. pose proof (X2 (c_id c) (Z.abs p)) as X3. unfold queued_at in X3. rewrite G in X3. cbn [due_opt] in X3.
    unfold due in X3. rewrite WC, P, Z.eqb_refl in X3.
    destruct (Z.eqb_spec (Z.abs p) k) as [EK|EK].
    - rewrite <- EK in *. rewrite AT, TM in X2'. rewrite AT, TM, Z.eqb_refl in X3. destruct (Z.eqb_spec (c_id c) j) as [F|F].
      + rewrite <- F. cbn [due_opt]. unfold due, waiting. cbn. lia.
      + rewrite <- X2'. lia.
    - destruct (Z.eqb_spec (c_id c) j) as [F|F]; [|exact X2']. rewrite <- F in *. rewrite G in X2'. cbn [due_opt] in *. unfold due in X2'. rewrite WC, P in X2'.
      destruct (Z.eqb_spec (Z.abs p) k); [congruence|]. rewrite X2'. reflexivity. }
  split; [split; [exact W'|split]|split; [|split]].
  - apply (proj2 (exact_due _)). split; [|exact QJ]. intros j c2. rewrite GJ. destruct (c_id c =? j); [|apply X1]. intro H. injection H as <-. intro H. discriminate H.
  - intros j DJ. rewrite GJ. destruct (Z.eqb_spec (c_id c) j) as [F|F]; [|apply Y, DJ]. rewrite <- F in DJ. rewrite (Y _ DJ) in G. discriminate.
  - intros j N. rewrite GJ. destruct (Z.eqb_spec (c_id c) j); [congruence|reflexivity].
  - intro k. rewrite QJ, GJ, Z.eqb_refl. reflexivity.
  - rewrite E. reflexivity.
Qed.

Lemma qinv_remove D s h id o s' : upd0 < h -> qinv D s -> remove_cron s h id o = Ok s' ->
  qinv (fun j => D j \/ j = id) s'.
Proof.
  intros HH Q R. pose proof (remove_wf _ _ _ _ _ (proj1 Q) R) as W'. destruct (remove_get _ _ _ _ _ (proj1 Q) R) as (R1 & R2).
  destruct (remove_cron_shape _ _ _ _ _ R) as (c & s1 & s2 & G & O & M & F & E).
  destruct (wf_live _ _ _ (proj1 Q) G) as (I & _).
  assert (Q1 : qinv D s1 /\ get_cron s1 id = Some c).
  { destruct M as [[_ M]|[_ ->]]; [|auto]. split; [apply (qinv_send _ _ _ _ _ _ Q M)|]. rewrite (send_rest _ _ _ _ _ M). exact G. }
  destruct Q1 as [Q1 G1].
  assert (Q2 : qinv D s2 /\ (forall k, queued_at s2 id k = 0%nat) /\ forall j, j <> id -> get_cron s2 j = get_cron s1 j).
  { destruct F as [[FL F]|[FL ->]].
    - rewrite <- I in G1. destruct (unqueue_spec _ _ _ _ Q1 G1 F) as (A & B & C & _). rewrite I in *. auto.
    - split; [exact Q1|]. split; [|auto]. intro k. destruct Q1 as (_ & X & _). apply (proj1 (exact_due _)) in X. rewrite (proj2 X), G1. cbn [due_opt]. unfold due.
      rewrite (waiting_flag h c HH) in FL. rewrite FL. reflexivity. }
  destruct Q2 as ((W2 & X2 & Y2) & Z2 & F2).
  assert (GJ : forall j, j <> id -> get_cron s' j = get_cron s2 j).
  { intros j N. rewrite R2, F2 by exact N. destruct M as [[_ M]|[_ ->]]; [rewrite (send_rest _ _ _ _ _ M)|]; reflexivity. }
  assert (QJ : forall j k, queued_at s' j k = queued_at s2 j k) by (intros; rewrite E; reflexivity).
  apply (proj1 (exact_due _)) in X2. destruct X2 as [X2 X3]. split; [exact W'|]. split.
  - apply (proj2 (exact_due _)). split.
    + intros j c2. destruct (Z.eq_dec j id) as [->|N]; [rewrite R1; discriminate|]. rewrite GJ by exact N. apply X2.
    + intros j k. rewrite QJ. destruct (Z.eq_dec j id) as [->|N]; [rewrite R1, Z2; reflexivity|]. rewrite GJ by exact N. apply X3.
  - intros j [DJ|DJ]; [|subst j; exact R1]. destruct (Z.eq_dec j id) as [->|N]; [exact R1|]. rewrite GJ by exact N. apply Y2, DJ.
Qed.

Lemma qinv_less (D D' : Z -> Prop) s : (forall j, D j -> D' j) -> qinv D' s -> qinv D s.
Proof. intros S (A & B & C). split; [exact A|]. split; [exact B|]. intros j H. apply C, S, H. Qed.

Lemma qinv_drop (D : Z -> Prop) i s : qinv (fun j => D j \/ j = i) s -> qinv D s.
Proof. apply qinv_less. intros j H. left. exact H. Qed.

Lemma evict_spec D s h c s' : upd0 < h -> qinv D s -> evict s h c = Ok s' ->
  qinv D s' /\ forall j, j <> c_id c -> get_cron s' j = get_cron s j.
Proof.
  intros HH Q. unfold evict, emit_cancelled. pose proof (qinv_record D s (mk_result (c_id c) h false) Q) as Q1.
  destruct (decode (c_owner c)) as [o|]; [|discriminate].
  destruct (remove_cron _ h (c_id c) o) as [s2| |] eqn:R; [| |discriminate]; intro H; injection H as <-.
  - split; [apply (qinv_drop _ _ _ (qinv_remove _ _ _ _ _ _ HH Q1 R))|].
    intros j N. rewrite (proj2 (remove_get _ _ _ _ _ (proj1 Q1) R) j N). reflexivity.
  - split; [exact Q1|auto].
Qed.

(* ---- the end of a block ----------------------------------------------- *)

Lemma charge_spec D e s c s' : upd0 < e_height e -> qinv D s -> fresh s c -> charge_one s e c = Ok s' ->
  qinv D s' /\ forall j, j <> c_id c -> get_cron s' j = get_cron s j.
Proof.
  intros HH Q (c' & G & A & B & O). unfold charge_one.
  destruct (negb _ && _); [apply evict_spec; assumption|].
  destruct (c_cb c); [intro H; injection H as <-; split; [exact Q|auto]|].
  destruct ((upd0 <? _) && _); [apply evict_spec; assumption|].
  destruct ((cron_balance s c <? 0) || _); [apply evict_spec; assumption|].
  assert (S : forall r, (if e_active e * e_base e =? 0 then Ok s else send s (c_wallet c) Collector (e_active e * e_base e)) = Ok r ->
     qinv D r /\ forall j, get_cron r j = get_cron s j).
  { intro r. destruct (_ =? 0); [intro H; injection H as <-; auto|]. intro S. split; [apply (qinv_send _ _ _ _ _ _ Q S)|].
    intro j. rewrite (send_rest _ _ _ _ _ S). reflexivity. }
  destruct (if e_active e * e_base e =? 0 then _ else _) as [s1| |] eqn:E; [|apply evict_spec; assumption|discriminate].
  destruct (S s1 eq_refl) as [Q1 G1]. destruct (c_price c) as [p|] eqn:P; [|discriminate].
  destruct (imul p (i64 (c_gas c))) as [m| |]; cbn [rbind]; [|discriminate|discriminate].
  destruct (_ <? m).
  - intro H. destruct (evict_spec _ _ _ _ _ HH Q1 H) as [X Y]. split; [exact X|]. intros j N. rewrite Y by exact N. apply G1.
  - intro H. injection H as <-. split.
    + apply (qinv_store D s1 (with_fees c (c_fees c + e_active e * e_base e)) c' Q1); cbn; [rewrite G1; exact G|auto|congruence|exact O].
    + intros j N. rewrite get_store. cbn. destruct (Z.eqb_spec (c_id c) j); [congruence|apply G1].
Qed.

Lemma push_spec D e s c s' : upd0 < e_height e -> 0 < e_time e -> qinv D s -> get_cron s (c_id c) = Some c -> push_one s e c = Ok s' ->
  qinv D s' /\ forall j, j <> c_id c -> get_cron s' j = get_cron s j.
Proof.
  intros HH HT Q G. unfold push_one.
  destruct (c_cb c); [intro H; injection H as <-; auto|].
  rewrite (waiting_flag _ _ HH). destruct (waiting c) eqn:WC; [intro H; injection H as <-; auto|].
  destruct (_ <? 0); [apply evict_spec; assumption|].
  destruct (c_price c) as [p|]; [|discriminate]. destruct (imul p _) as [m| |]; cbn [rbind]; [|discriminate|discriminate].
  destruct (_ <=? m); [apply evict_spec; assumption|]. intro H. split; [apply (qinv_append D s (e_time e) c s' Q G WC); [lia|lia|exact H]|].
  destruct (append_shape _ _ _ _ H) as (k & _ & ->). intros j N. rewrite get_store. cbn. destruct (Z.eqb_spec (c_id c) j); [congruence|reflexivity].
Qed.

(* A pass over tasks read at its start: each is still as it was when its turn comes. *)
Lemma pass_spec (f : st -> cron -> res st) (I : st -> Prop) (l : list cron) :
  (forall s c s', I s -> get_cron s (c_id c) = Some c -> f s c = Ok s' -> I s' /\ forall j, j <> c_id c -> get_cron s' j = get_cron s j) ->
  NoDup (map c_id l) -> forall s s', I s -> (forall c, In c l -> get_cron s (c_id c) = Some c) -> fold_res f l s = Ok s' -> I s'.
Proof.
  intro F. induction l as [|c l IH]; intros ND s s' HI A; cbn; [intro H; injection H as <-; exact HI|].
  intro H. apply rbind_ok in H. destruct H as (s1 & H1 & H2). inversion_clear ND as [|? ? NI ND'].
  destruct (F _ _ _ HI (A c (or_introl eq_refl)) H1) as [I1 G1].
  apply (IH ND' s1 s' I1); [|exact H2]. intros c2 IN. rewrite G1; [apply A; right; exact IN|].
  intro E. apply NI. rewrite <- E. apply in_map, IN.
Qed.

Lemma vals_ids s : wf s -> map c_id (zvals (s_crons s)) = zkeys (s_crons s).
Proof.
  intro W. unfold zvals, zkeys. rewrite map_map. apply map_ext_in. intros [id c] I. cbn.
  pose proof (in_zget _ _ _ (proj1 W) I) as G. apply (wf_live _ _ _ W G).
Qed.

Lemma NoDup_map_filter {A B} (g : A -> B) (p : A -> bool) l : NoDup (map g l) -> NoDup (map g (filter p l)).
Proof.
  induction l as [|a l IH]; cbn; [auto|]. intro H. inversion_clear H as [|? ? N D]. destruct (p a); [|apply IH, D]. cbn. constructor; [|apply IH, D].
  intro I. apply N. apply in_map_iff in I. destruct I as (x & E & I). apply filter_In in I. rewrite <- E. apply in_map, (proj1 I).
Qed.

Lemma charge_all_spec D e s s' : upd0 < e_height e -> qinv D s -> charge_all s e = Ok s' -> qinv D s'.
Proof.
  intros HH Q. unfold charge_all. apply (pass_spec _ (qinv D)).
  - intros s0 c s1 Q0 G. apply charge_spec; [exact HH|exact Q0|]. apply (live_fresh _ _ _ (proj1 Q0) G).
  - rewrite vals_ids by apply Q. apply zsorted_nodup, Q.
  - exact Q.
  - intros c I. apply zvals_get; [apply Q|exact I].
Qed.

Lemma push_all_spec D e s s' : upd0 < e_height e -> 0 < e_time e -> qinv D s -> push_all s e = Ok s' -> qinv D s'.
Proof.
  intros HH HT Q. unfold push_all. apply (pass_spec _ (qinv D)).
  - intros s0 c s1 Q0 G. apply push_spec; assumption.
  - apply NoDup_map_filter. rewrite vals_ids by apply Q. apply zsorted_nodup, Q.
  - exact Q.
  - intros c I. apply filter_In in I. apply zvals_get; [apply Q|apply I].
Qed.

(* Running a task. *)

Lemma tame_effect D e o i s f : upd0 < e_height e -> qinv D s -> tame i f ->
  qinv D (apply_effect e o s f) /\ get_cron (apply_effect e o s f) i = get_cron s i.
Proof.
  intros HH Q T. destruct (effect_cases e o s f) as [->|[(a & b & x & _ & _ & S)|[(id & E & C)|(u & E & U)]]].
  - auto.
  - split; [apply (qinv_send _ _ _ _ _ _ Q S)|]. rewrite (send_rest _ _ _ _ _ S). reflexivity.
  - destruct (cancel_shape _ _ _ _ _ _ C) as (c & w & _ & _ & _ & R). rewrite E in T. cbn in T.
    split; [apply (qinv_drop _ _ _ (qinv_remove _ _ _ _ _ _ HH Q R))|].
    apply (remove_get _ _ _ _ _ (proj1 Q) R). congruence.
  - rewrite E in T. destruct T.
Qed.

Lemma tame_effects D e o i l : upd0 < e_height e -> Forall (tame i) l -> forall s, qinv D s ->
  qinv D (apply_effects e o s l) /\ get_cron (apply_effects e o s l) i = get_cron s i.
Proof.
  intros HH T. unfold apply_effects. induction T as [|f l T _ IH]; intros s Q; cbn; [auto|].
  destruct (tame_effect D e o i s f HH Q T) as [Q1 G1]. destruct (IH _ Q1) as [Q2 G2]. split; [exact Q2|]. rewrite G2. exact G1.
Qed.

(* The record of the task keeps its queue time and price. *)
Definition like (s : st) (c : cron) : Prop := exists c', get_cron s (c_id c) = Some c' /\ c_queue c' = c_queue c /\ c_price c' = c_price c.

Lemma store_like D s c : qinv D s -> like s c -> ok_cron c -> qinv D (store_cron s c) /\ like (store_cron s c) c.
Proof.
  intros Q (c' & G & A & B) O. split; [apply (qinv_store D s c c' Q G); [congruence|congruence|exact O]|].
  exists c. rewrite get_store, Z.eqb_refl. auto.
Qed.

Lemma run_evm_spec D e s c s' out : quiet_env e -> qinv D s -> like s c -> ok_cron c -> run_evm s e c = Ok (s', out) -> qinv D s' /\ like s' c.
Proof.
  intros (HH & HT & QE) Q L O. unfold run_evm. destruct (decode (c_owner c)) as [o|]; [|discriminate].
  destruct (_ || _); [intro H; injection H as <- _; auto|].
  destruct (c_gas c <? _); [intro H; injection H as <- _; auto|].
  destruct (_ =? 0); [discriminate|].
  destruct (send s (c_wallet c) Collector _) as [s1| |] eqn:S1; [|intro H; injection H as <- _; auto|discriminate].
  assert (Q1 : qinv D s1 /\ like s1 c).
  { split; [apply (qinv_send _ _ _ _ _ _ Q S1)|]. destruct L as (c' & G & L). exists c'. rewrite (send_rest _ _ _ _ _ S1). auto. }
  destruct Q1 as [Q1 L1].
  destruct (store_like D s1 (with_fees c (c_fees c + c_gas c * e_base e)) Q1 L1 O) as [Q2 L2].
  specialize (QE c (s_nonce s)). destruct (e_evm e c (s_nonce s)) as [|used effs]; [intro H; injection H as <- _; auto|].
  destruct (tame_effects D e o (c_id c) effs HH QE _ Q2) as [Q3 G3].
  assert (L3 : like (apply_effects e o (store_cron s1 (with_fees c (c_fees c + c_gas c * e_base e))) effs) c).
  { destruct L2 as (c2 & G2 & L2). exists c2. rewrite G3. auto. }
  destruct (send _ Collector (c_wallet c) _) as [s4| |] eqn:S4; [|intro H; injection H as <- _; auto|discriminate].
  assert (Q4 : qinv D s4 /\ like s4 c).
  { split; [apply (qinv_send _ _ _ _ _ _ Q3 S4)|]. destruct L3 as (c3 & G & L3). exists c3. rewrite (send_rest _ _ _ _ _ S4). auto. }
  destruct Q4 as [Q4 L4]. intro H. injection H as <- _. destruct (0 <? _); [|auto].
  apply (store_like D s4 (with_fees c (c_fees c + u64 (c_gas c - used) * e_base e)) Q4 L4 O).
Qed.

Lemma execute_spec D e s c s' out : quiet_env e -> qinv D s -> like s c -> ok_cron c -> execute s e c = Ok (s', out) -> qinv D s'.
Proof.
  intros QE HQ0 HL0 HO0. unfold execute. cbn zeta.
  assert (GO : forall s c, qinv D s -> like s c -> ok_cron c ->
    (if negb (e_pack e c) then Ok (s, None)
     else match c_price c with
          | None => Panic
          | Some p => if p <? e_base e then Ok (s, None)
             else rbind (run_evm s e c) (fun r => let '(s1, out) := r in
               match out with
               | Some g => Ok (record (store_cron s1 (with_run c (u64 (e_height e + c_freq c)))) (mk_result (c_id c) (e_height e) true), Some g)
               | None => Panic end) end) = Ok (s', out) -> qinv D s').
  { clear HQ0 HL0 HO0 s c. intros s c Q L O. destruct (negb _); [intro H; injection H as <- _; exact Q|].
    destruct (c_price c) as [p|]; [|discriminate]. destruct (p <? _); [intro H; injection H as <- _; exact Q|].
    intro H. apply rbind_ok in H. destruct H as ([s1 o1] & H1 & H2). destruct o1 as [g|]; [|discriminate].
    apply (f_equal (fun r => match r with Ok (a, _) => a | _ => s' end)) in H2. cbn in H2. rewrite <- H2. apply qinv_record.
    destruct (run_evm_spec _ _ _ _ _ _ QE Q L O H1) as [Q1 L1].
    apply (store_like D s1 (with_run c (u64 (e_height e + c_freq c))) Q1 L1 O). }
  destruct (c_cb c); [|apply GO; assumption].
  destruct (zget (s_data s) (c_id c)) as [d|]; [|intro H; injection H as <- _; exact HQ0].
  destruct (store_like D s (with_callback c d (u64 (e_height e))) HQ0 HL0 HO0) as [Q1 L1]. apply GO; [exact Q1|exact L1|exact HO0].
Qed.

Lemma live_like s id c : wf s -> get_cron s id = Some c -> like s c.
Proof. intros W G. destruct (wf_live _ _ _ W G) as (I & _). exists c. rewrite I. auto. Qed.

Lemma execute_all_spec D e cur limit ids : quiet_env e -> forall s tot s' g l, qinv D s -> execute_all s e cur tot limit ids = Ok (s', g, l) -> qinv D s'.
Proof.
  intro QE. induction ids as [|id ids IH]; intros s tot s' g l Q; cbn; [intro H; injection H as <- _ _; exact Q|].
  destruct (get_cron s id) as [c|] eqn:G; [|apply IH, Q].
  intro H. apply rbind_ok in H. destruct H as ([s1 out] & H1 & H2).
  assert (Q1 : qinv D s1).
  { eapply execute_spec; [exact QE|exact Q|apply (live_like _ _ _ (proj1 Q) G)|apply (wf_live _ _ _ (proj1 Q) G)|exact H1]. }
  apply rbind_ok in H2. destruct H2 as ([s2 t2] & H2 & H3).
  assert (Q2 : qinv D s2).
  { destruct out as [g0|]; [injection H2 as <- _; exact Q1|]. apply rbind_ok in H2. destruct H2 as (sx & H2 & H4).
    injection H4 as <- _. apply (evict_spec _ _ _ _ _ (proj1 QE) Q1 H2). }
  destruct (limit <=? cur + t2); [injection H3 as <- _ _; exact Q2|].
  apply rbind_ok in H3. destruct H3 as ([[s3 g3] l3] & H3 & H4). injection H4 as <- _ _.
  eapply IH; [exact Q2|exact H3].
Qed.

Lemma unqueue_all_spec D l : forall s s', qinv D s -> fold_res unqueue_one l s = Ok s' -> qinv D s'.
Proof.
  induction l as [|id l IH]; intros s s' Q; cbn; [intro H; injection H as <-; exact Q|].
  intro H. apply rbind_ok in H. destruct H as (s1 & H1 & H2). apply (IH s1); [|exact H2].
  unfold unqueue_one in H1. destruct (get_cron s id) as [c|] eqn:G; [|injection H1 as <-; exact Q].
  destruct (wf_live _ _ _ (proj1 Q) G) as (I & _). rewrite <- I in G. apply (unqueue_spec _ _ _ _ Q G H1).
Qed.

Lemma rounds_spec D e fuel : quiet_env e -> forall s tot s', qinv D s -> rounds fuel s e tot = Ok s' -> qinv D s'.
Proof.
  intro QE. induction fuel as [|n IH]; intros s tot s' Q; cbn; [intro H; injection H as <-; exact Q|].
  intro H. apply rbind_ok in H. destruct H as (bt & _ & H).
  apply rbind_ok in H. destruct H as ([[s1 g] dn] & H1 & H).
  apply rbind_ok in H. destruct H as (s2 & H2 & H). apply rbind_ok in H. destruct H as (s3 & H3 & H).
  pose proof (execute_all_spec _ _ _ _ _ QE _ _ _ _ _ Q H1) as Q1. pose proof (unqueue_all_spec _ _ _ _ Q1 H2) as Q2. pose proof (unqueue_all_spec _ _ _ _ Q2 H3) as Q3.
  destruct (_ || _ || _); [injection H as <-; exact Q3|eapply IH; [exact Q3|exact H]].
Qed.

Lemma end_block_spec D e fuel s s' : quiet_env e -> qinv D s -> end_block fuel s e = Ok s' -> qinv D s'.
Proof.
  intros QE Q. unfold end_block. intro H. apply rbind_ok in H. destruct H as (s1 & H1 & H). apply rbind_ok in H. destruct H as (s2 & H2 & H).
  eapply rounds_spec; [exact QE| |exact H]. eapply push_all_spec; [apply QE|apply QE| |exact H2]. eapply charge_all_spec; [apply QE|exact Q|exact H1].
Qed.

(* ---- steps and histories ---------------------------------------------- *)

Lemma data_qinv D s d : qinv D s -> qinv D (set_data s d).
Proof. exact (fun H => H). Qed.

Lemma callback_qinv D s e id d s' : upd0 < e_height e -> 0 < e_time e -> qinv D s -> store_callback s e id d = Ok s' -> qinv D s'.
Proof.
  intros HH HT Q K. destruct (store_callback_shape _ _ _ _ _ K) as [->|(c & G & F & A)]; [apply data_qinv, Q|].
  rewrite (waiting_flag _ _ HH) in F. destruct (wf_live _ _ _ (proj1 Q) G) as (I & _).
  eapply qinv_append with (t := e_time e); [apply data_qinv, Q| |exact F|lia|lia|exact A]. rewrite I. exact G.
Qed.

Lemma create_qinv (D : Z -> Prop) cb s e m s' id : qinv D s -> (forall j, D j -> j < s_next s) -> (exists a, signed_by (m_sender m) a) ->
  create_any cb s e m = Ok (s', id) -> qinv D s'.
Proof.
  intros (W & X & Y) DL SG C. pose proof (create_wf _ _ _ _ _ _ W SG C) as W'. destruct (create_rest _ _ _ _ _ _ C) as (B1 & _ & _ & B4 & _).
  destruct (create_shape _ _ _ _ _ _ C) as (o & x & s2 & I & G & _). apply (proj1 (exact_due _)) in X. destruct X as [X1 X2].
  assert (GJ : forall j, get_cron s' j = if id =? j then Some (new_cron e m id cb) else get_cron s j) by (intro j; unfold get_cron; rewrite B1; apply zget_zset).
  assert (NW : waiting (new_cron e m id cb) = false) by (destruct cb; reflexivity).
  split; [exact W'|]. split.
  - apply (proj2 (exact_due _)). split.
    + intros j c. rewrite GJ. destruct (id =? j); [|apply X1]. intro H. injection H as <-. unfold priced. rewrite NW. discriminate.
    + intros j k. rewrite GJ. unfold queued_at. rewrite B4. fold (queued_at s j k). rewrite X2. destruct (Z.eqb_spec id j) as [E|E]; [|reflexivity].
      rewrite <- E, G. cbn [due_opt]. unfold due. rewrite NW. reflexivity.
  - intros j DJ. rewrite GJ. destruct (Z.eqb_spec id j) as [E|E]; [|apply Y, DJ]. specialize (DL j DJ). lia.
Qed.

Lemma update_qinv D s t u s' : qinv D s -> quiet_update s u -> update s t u = Ok s' -> qinv D s'.
Proof.
  intros (W & X & Y) QU U. pose proof (update_wf _ _ _ _ W U) as W'. destruct (update_shape _ _ _ _ U) as (c & G & _ & E). subst s'.
  destruct (wf_live _ _ _ W G) as (I & _). apply (proj1 (exact_due _)) in X. destruct X as [X1 X2]. specialize (QU c G). split; [exact W'|]. split.
  - apply (proj2 (exact_due _)). split.
    + intros j c2. rewrite get_store. cbn [c_id with_update]. destruct (c_id c =? j); [|apply X1]. intro H. injection H as <-. intro WT.
      change (waiting c = true) in WT. specialize (QU WT). destruct (X1 _ _ G WT) as (p & P). cbn. rewrite P in QU. destruct (u_price u) as [q|]; [eauto|discriminate].
    + intros j k. rewrite get_store. cbn [c_id with_update]. match goal with |- queued_at ?a j k = _ => change (queued_at a j k) with (queued_at s j k) end.
      rewrite X2. destruct (Z.eqb_spec (c_id c) j) as [E|E]; [|reflexivity]. rewrite <- E, I, G. cbn [due_opt]. unfold due.
      match goal with |- _ = (if waiting ?x then _ else _) => change (waiting x) with (waiting c) end.
      destruct (waiting c) eqn:WC; [|reflexivity]. specialize (QU eq_refl). cbn [c_price with_update].
      destruct (u_price u), (c_price c); cbn in QU; try discriminate; [|reflexivity]. injection QU as ->. reflexivity.
  - intros j DJ. rewrite get_store. cbn [c_id with_update]. destruct (Z.eqb_spec (c_id c) j) as [E|E]; [|apply Y, DJ]. rewrite <- E, I in DJ. rewrite (Y _ DJ) in G. discriminate.
Qed.

Lemma step_qinv (D : Z -> Prop) s e o s' : quiet_env e -> quiet_op s o -> op_signed o -> (forall j, D j -> j < s_next s) -> qinv D s ->
  step s e o = Ok s' -> qinv D s'.
Proof.
  intros QE QO SG DL Q H. destruct (step_cases _ _ _ _ H) as [->|[(m & cb & id & s1 & V & C)|[(t & u & -> & U)|[(t & w & id & _ & C)|[(id & d & _ & K)|[(a & b & x & _ & _ & S)|(fuel & _ & E)]]]]]].
  - exact Q.
  - assert (SM : exists a, signed_by (m_sender m) a) by (destruct V as [(-> & _)|[(-> & _)|(-> & _)]]; exact SG).
    pose proof (create_qinv _ _ _ _ _ _ _ Q DL SM C) as T. destruct V as [(_ & _ & ->)|[(_ & _ & ->)|(_ & _ & K)]]; [exact T|exact T|].
    apply (callback_qinv _ _ _ _ _ _ (proj1 QE) (proj1 (proj2 QE)) T K).
  - apply (update_qinv _ _ _ _ _ Q QO U).
  - destruct (cancel_shape _ _ _ _ _ _ C) as (c & o1 & _ & _ & _ & R).
    apply (qinv_drop _ _ _ (qinv_remove _ _ _ _ _ _ (proj1 QE) Q R)).
  - apply (callback_qinv _ _ _ _ _ _ (proj1 QE) (proj1 (proj2 QE)) Q K).
  - apply (qinv_send _ _ _ _ _ _ Q S).
  - apply (end_block_spec _ _ _ _ _ QE Q E).
Qed.

Lemma run_qinv (D : Z -> Prop) l : forall s s', all_signed l -> quiet_run s l -> (forall j, D j -> j < s_next s) -> qinv D s -> run s l = Ok s' -> qinv D s'.
Proof.
  induction l as [|[e o] l IH]; intros s s' SG QR DL Q; cbn; [intro H; injection H as <-; exact Q|].
  intro H. apply rbind_ok in H. destruct H as (s1 & H1 & H2). destruct QR as (QE & QO & QR).
  pose proof (step_next _ _ _ _ (proj1 Q) H1).
  apply (IH s1 s' (Forall_inv_tail SG) (QR _ H1)); [|apply (step_qinv D _ _ _ _ QE QO (Forall_inv SG) DL Q H1)|exact H2].
  intros j DJ. specialize (DL j DJ). lia.
Qed.

Lemma init_qinv : qinv (fun _ => False) init.
Proof. split; [exact init_wf|]. split; [|tauto]. split; [discriminate|]. intros id k. reflexivity. Qed.
