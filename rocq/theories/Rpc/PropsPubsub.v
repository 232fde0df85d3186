(* C49: the in-memory event bus. Every theorem is about the history of any
   schedule of add, remove, subscribe, unsubscribe, publish and close. *)
From Verif Require Import Lib.Base Rpc.Pubsub Rpc.PubsubSpec Rpc.PubsubProofs.
From Coq Require Import Permutation.
Open Scope Z_scope.

Lemma run_ok evs : inv (fst (run evs)) (snd (run evs)).
Proof. destruct (run evs) as [s log] eqn:E. exact (run_inv evs init [] s log inv_init E). Qed.

(* A message whose publication has ended was offered, once, to exactly the
   subscribers of its topic that were subscribed when the publication began. *)
Theorem C49_offered_to_every_subscriber : forall evs l1 p topic msg l2 l3,
  snd (run evs) = l1 ++ OStart p topic msg :: l2 ++ ODone p :: l3 -> busy p l2 ->
  Permutation (offers p l2) (map (fun id => (id, msg)) (live topic l1)) /\ NoDup (map fst (offers p l2)).
Proof.
  intros evs l1 p topic msg l2 l3 E B. pose proof (run_ok evs) as I.
  destruct (t_done _ _ I _ _ _ _ _ _ E B) as [M P].
  assert (X : offers p l2 = map (fun id => (id, msg)) (map fst (offers p l2))).
  { clear -M. induction (offers p l2) as [|[i m] l IH]; [reflexivity|]. cbn [map fst]. f_equal.
    - f_equal. apply (M i). left. reflexivity.
    - apply IH. intros j m' H. apply (M j). right. exact H. }
  split; [rewrite X; apply Permutation_map; exact P|].
  apply (Permutation_NoDup (Permutation_sym P)).
  (* the live list of a prefix has no repetition: prefixes of runs are covered
     by the subscription numbers being distinct *)
  pose proof (a_subsc _ _ I) as S. rewrite E in S. clear -S.
  assert (G : forall l n, NoDup (subscriptions l) -> NoDup (live n l) /\ incl (live n l) (subscriptions l)).
  { intros l n. induction l as [|o l IH] using rev_ind; intro N; [split; [constructor|intros x []]|].
    rewrite subscriptions_snoc in *. rewrite live_snoc.
    assert (N0 : NoDup (subscriptions l)).
    { clear -N. induction (subscriptions l) as [|a k IHk]; [constructor|]. cbn [app] in N. inversion N; subst. constructor; [|auto].
      intro X. apply H1. apply in_or_app. left. exact X. }
    destruct (IH N0) as [I1 I2].
    destruct o; cbn [live_step]; try (rewrite app_nil_r; split; [exact I1|exact I2]).
    - destruct (name =? n); [|split; [exact I1|intros x X; apply in_or_app; left; auto]].
      split.
      + constructor; [|exact I1]. intro X. apply I2 in X.
        apply (Permutation_NoDup (Permutation_sym (Permutation_cons_append _ _))) in N. inversion N; contradiction.
      + intros x [<-|X]; apply in_or_app; [right; left; reflexivity|left; auto].
    - rewrite app_nil_r. split; [apply NoDup_filter; exact I1|]. intros x X. apply filter_In in X. apply I2. tauto.
    - rewrite app_nil_r. split; [apply NoDup_filter; exact I1|]. intros x X. apply filter_In in X. apply I2. tauto. }
  apply G. unfold subscriptions in *. rewrite flat_map_app in S.
  induction (flat_map (fun o => match o with OSubscribed id _ => [id] | _ => [] end) l1) as [|a k IHk]; [constructor|].
  cbn [app] in S. inversion S; subst. constructor; [|auto]. intro X. apply H1. apply in_or_app. left. exact X.
Qed.

(* Whatever is delivered belongs to a publication on the receiver's own topic;
   the receiver was subscribed to it, had not unsubscribed and its channel was
   open. In particular nothing is delivered after unsubscribe. *)
Theorem C49_delivered_to_subscribers_only : forall evs l1 p id msg l2,
  snd (run evs) = l1 ++ ODeliver p id msg :: l2 ->
  exists topic, In (OStart p topic msg) l1 /\ In id (live topic l1) /\ ~ In (OUnsub id) l1 /\ ~ In id (closings l1).
Proof.
  intros evs l1 p id msg l2 E. eapply (t_deliver _ _ (run_ok evs)); [exact E|]. cbn [offer_of]. rewrite Z.eqb_refl. reflexivity.
Qed.

(* When a source closes, the channels closed are exactly those of the
   subscribers of its topic at that moment. *)
Theorem C49_close_reaches_every_subscriber : forall evs l1 p topic ids l2,
  snd (run evs) = l1 ++ OCloseAll p topic ids :: l2 -> ids = live topic l1.
Proof. intros evs. exact (t_close _ _ (run_ok evs)). Qed.

(* No channel is closed twice, no send goes to a closed channel: the bus never panics. *)
Theorem C49_closed_once_and_no_panic : forall evs,
  NoDup (closings (snd (run evs))) /\ ~ In OPanic (snd (run evs)).
Proof. intro evs. split; [exact (a_once _ _ (run_ok evs))|exact (a_panic _ _ (run_ok evs))]. Qed.

(* Subscriber numbers are never handed out twice. *)
Theorem C49_numbers_never_reused : forall evs, NoDup (subscriptions (snd (run evs))).
Proof. intro evs. exact (a_subsc _ _ (run_ok evs)). Qed.

(* A channel given back through its unsubscribe function is never closed by the bus afterwards. *)
Theorem C49_unsubscribed_is_left_alone : forall evs l1 p topic ids l2 id,
  snd (run evs) = l1 ++ OCloseAll p topic ids :: l2 -> In (OUnsub id) l1 -> ~ In id ids.
Proof.
  intros evs l1 p topic ids l2 id E U. rewrite (C49_close_reaches_every_subscriber _ _ _ _ _ _ E).
  pose proof (a_subsc _ _ (run_ok evs)) as S. rewrite E in S.
  assert (S1 : NoDup (subscriptions l1)).
  { unfold subscriptions in *. rewrite flat_map_app in S. clear -S.
    induction (flat_map (fun o => match o with OSubscribed id _ => [id] | _ => [] end) l1) as [|a k IHk]; [constructor|].
    cbn [app] in S. inversion S; subst. constructor; [|auto]. intro X. apply H1. apply in_or_app. left. exact X. }
  (* a prefix of a run's history that ends at an event boundary is itself a history *)
  assert (PRE : forall evs s log, inv s log -> forall l1 p topic ids l2,
            snd (run_from s log evs) = l1 ++ OCloseAll p topic ids :: l2 -> In (OUnsub id) l1 ->
            (forall k1 q t js k2, log = k1 ++ OCloseAll q t js :: k2 -> In (OUnsub id) k1 -> ~ In id js) -> ~ In id ids).
  { clear. induction evs as [|ev evs IH]; intros s log I l1 p topic ids l2 E U K; cbn [run_from] in E.
    - cbn [snd] in E. eapply K; eassumption.
    - destruct (step s ev) as [s' o] eqn:ST. pose proof (step_inv _ _ _ _ _ I ST) as I'.
      eapply IH; [exact I'|exact E|exact U|]. intros k1 q t js k2 Z0 U0.
      assert (D : o = [] \/ exists ob, o = [ob]).
      { destruct ev; cbn [step] in ST;
          repeat match type of ST with context [match ?x with _ => _ end] => destruct x eqn:? end;
          try (injection ST as _ <-; eauto; fail); try (injection ST as _ <-; right; eexists; reflexivity).
        exfalso. injection ST as _ <-. apply (a_panic _ _ I'). apply in_or_app. right. left. reflexivity. }
      destruct D as [->|[ob ->]]; [rewrite app_nil_r in Z0; eapply K; eassumption|].
      apply snoc_split in Z0. destruct Z0 as [(k2' & Z0 & _)|(Z1 & Z2 & _)]; [eapply K; eassumption|].
      subst k1. rewrite (t_close _ _ I' log q t js []) by (rewrite Z1; reflexivity).
      rewrite (a_live _ _ I). intro X. apply subs_of_in in X. apply (a_unsub _ _ I) in U0. destruct U0 as [_ U0]. apply U0.
      apply in_map_iff. exists (t, id). auto. }
  rewrite <- (C49_close_reaches_every_subscriber _ _ _ _ _ _ E).
  eapply (PRE evs init [] inv_init); [exact E|exact U|]. intros k1 q t js k2 Z0. destruct k1; discriminate Z0.
Qed.

(* With AddTopic calls one at a time and no RemoveTopic, a topic has one publisher. *)
Theorem C49_one_publisher_per_topic : forall evs, serial_adds init evs ->
  NoDup (map p_name (s_pubs (fst (run evs)))).
Proof.
  intros evs D. destruct (run evs) as [s log] eqn:E. cbn [fst].
  apply j_names. eapply (run_serial evs init []); [|exact D|exact E].
  constructor; cbn [init s_pubs s_tasks s_topics map]; [constructor|intros x []|intros k n c []|intros k n c k' n' c' []|intros k t []].
Qed.

(* ---- a history that meets the hypotheses ---- *)
Definition demo : list event :=
  [EAddCheck 7 100; EAddWrite 0; ESubCheck 7; ESubInsert 1; ESubCheck 7; ESubInsert 2; ESubCheck 7; ESubInsert 3;
   EUnsub 2; ERecv 0 55; EOffer 0 3 true; EOffer 0 1 false; EDone 0; ESrcClosed 0; EDelTopic 0; ESubCheck 7].
Example C49_ex_history : snd (run demo) =
  [OAdded 7 100 0; OSubscribed 1 7; OSubscribed 2 7; OSubscribed 3 7; OUnsub 2;
   OStart 0 7 55; ODeliver 0 3 55; ODrop 0 1 55; ODone 0; OCloseAll 0 7 [3; 1]; OGone 0; OSubErr 7].
Proof. vm_compute. reflexivity. Qed.
Example C49_ex_serial : serial_adds init demo.
Proof. cbn [serial_adds demo]. repeat (split; [first [exact Logic.I|vm_compute; tauto]|]). exact Logic.I. Qed.

(* ---- what the code does not give ---- *)
(* A subscriber can be left open when its topic ends: it subscribes (successfully)
   while the publisher is between closing the subscribers and deleting the
   topic. The topic is then gone and no publisher is left, so the channel neither
   delivers nor closes. *)
Theorem C49_subscriber_left_open_refuted : exists evs id topic,
  In (OSubscribed id topic) (snd (run evs)) /\ In (OCloseAll 0 topic []) (snd (run evs)) /\
  s_pubs (fst (run evs)) = [] /\ s_topics (fst (run evs)) = [] /\
  In id (live topic (snd (run evs))) /\ ~ In id (closings (snd (run evs))).
Proof.
  exists [EAddCheck 7 100; EAddWrite 0; ESrcClosed 0; ESubCheck 7; ESubInsert 1; EDelTopic 0], 1, 7.
  vm_compute. repeat split; auto 10.
Qed.
(* The same when the topic ends between Subscribe's check and its insertion. *)
Theorem C49_subscribed_to_nothing_refuted : exists evs id topic,
  snd (run evs) = [OAdded topic 100 0; OCloseAll 0 topic []; OGone 0; OSubscribed id topic] /\
  s_topics (fst (run evs)) = [] /\ s_pubs (fst (run evs)) = [].
Proof.
  exists [EAddCheck 7 100; EAddWrite 0; ESubCheck 7; ESrcClosed 0; EDelTopic 0; ESubInsert 1], 1, 7.
  vm_compute. repeat split.
Qed.
(* Two overlapping AddTopic calls for one name both succeed; a subscriber then
   gets the messages of both sources and is closed by the first that ends. *)
Theorem C49_topic_added_twice_refuted : exists evs,
  snd (run evs) = [OAdded 7 100 0; OAdded 7 200 1; OSubscribed 1 7;
     OStart 0 7 55; ODeliver 0 1 55; ODone 0; OStart 1 7 66; ODeliver 1 1 66; ODone 1; OCloseAll 0 7 [1]].
Proof.
  exists [EAddCheck 7 100; EAddCheck 7 200; EAddWrite 0; EAddWrite 1; ESubCheck 7; ESubInsert 2;
          ERecv 0 55; EOffer 0 1 true; EDone 0; ERecv 1 66; EOffer 1 1 true; EDone 1; ESrcClosed 0].
  vm_compute. reflexivity.
Qed.
(* Removing a topic does not stop its publisher: after the name is added again,
   a new subscriber is served by the old source, and when that source closes the
   new subscriber is closed and the new topic deleted. *)
Theorem C49_removed_topic_lives_on_refuted : exists evs,
  snd (run evs) = [OAdded 7 100 0; ORemoved 7; OAdded 7 200 1; OSubscribed 1 7;
     OStart 0 7 55; ODeliver 0 1 55; ODone 0; OCloseAll 0 7 [1]; OGone 0; OSubErr 7] /\
  map p_src (s_pubs (fst (run evs))) = [200].
Proof.
  exists [EAddCheck 7 100; EAddWrite 0; ERemove 7; EAddCheck 7 200; EAddWrite 1; ESubCheck 7; ESubInsert 2;
          ERecv 0 55; EOffer 0 1 true; EDone 0; ESrcClosed 0; EDelTopic 0; ESubCheck 7].
  vm_compute. split; reflexivity.
Qed.
(* An offer to a subscriber whose reader is not waiting at that moment is lost:
   the subscriber stays subscribed and never sees the message. *)
Theorem C49_slow_reader_misses_messages_refuted : exists evs p id msg,
  In (ODone p) (snd (run evs)) /\ In (OStart p 7 msg) (snd (run evs)) /\ In id (live 7 (snd (run evs))) /\
  ~ In (ODeliver p id msg) (snd (run evs)).
Proof.
  exists [EAddCheck 7 100; EAddWrite 0; ESubCheck 7; ESubInsert 1; ERecv 0 55; EOffer 0 1 false; EDone 0], 0, 1, 55.
  vm_compute. repeat split; auto 10. intros H. repeat (destruct H as [H|H]; [discriminate H|]). destruct H.
Qed.

Print Assumptions C49_offered_to_every_subscriber.
Print Assumptions C49_delivered_to_subscribers_only.
Print Assumptions C49_close_reaches_every_subscriber.
Print Assumptions C49_closed_once_and_no_panic.
Print Assumptions C49_numbers_never_reused.
Print Assumptions C49_unsubscribed_is_left_alone.
Print Assumptions C49_one_publisher_per_topic.
Print Assumptions C49_subscriber_left_open_refuted.
Print Assumptions C49_subscribed_to_nothing_refuted.
Print Assumptions C49_topic_added_twice_refuted.
Print Assumptions C49_removed_topic_lives_on_refuted.
Print Assumptions C49_slow_reader_misses_messages_refuted.
