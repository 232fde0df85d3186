From Coq Require Import Permutation.
From Verif Require Import Lib.Base Rpc.Pubsub Rpc.PubsubSpec.
Open Scope Z_scope.

(* ---------------- lists ---------------- *)
Lemma memz_in x l : memz x l = true <-> In x l.
Proof.
  unfold memz. rewrite existsb_exists. split.
  - intros (y & H & E). apply Z.eqb_eq in E. congruence.
  - intro H. exists x. split; [exact H|apply Z.eqb_refl].
Qed.
Lemma memz_notin x l : memz x l = false <-> ~ In x l.
Proof. rewrite <- memz_in. destruct (memz x l); split; congruence. Qed.
Lemma nodup_map_filter {A B} (f : A -> B) p (l : list A) : NoDup (map f l) -> NoDup (map f (filter p l)).
Proof.
  induction l as [|x l IH]; cbn [filter map]; [auto|]. intro H. inversion H as [|? ? N D]; subst.
  destruct (p x); [|auto]. cbn [map]. constructor; [|auto].
  intro I. apply N. apply in_map_iff in I. destruct I as (y & <- & Y). apply filter_In in Y. apply in_map. tauto.
Qed.
Lemma subs_of_in l n id : In id (subs_of l n) <-> In (n, id) l.
Proof.
  unfold subs_of. rewrite in_map_iff. split.
  - intros ([n' i] & <- & H). apply filter_In in H. cbn [fst snd] in *. destruct H as [H E]. apply Z.eqb_eq in E. congruence.
  - intro H. exists (n, id). split; [reflexivity|]. apply filter_In. split; [exact H|apply Z.eqb_refl].
Qed.
Lemma subs_of_nodup l n : NoDup (map snd l) -> NoDup (subs_of l n).
Proof. intro H. unfold subs_of. apply nodup_map_filter. exact H. Qed.
Lemma subs_of_drop l n n' : subs_of (drop_subs l n) n' = if n =? n' then [] else subs_of l n'.
Proof.
  unfold subs_of, drop_subs. induction l as [|[a i] l IH]; cbn [filter map fst]; [destruct (n =? n'); reflexivity|].
  destruct (Z.eqb_spec a n) as [->|D]; cbn [negb].
  - rewrite IH. destruct (Z.eqb_spec n n'); reflexivity.
  - cbn [filter fst]. destruct (Z.eqb_spec a n') as [->|D2].
    + cbn [map snd]. rewrite IH. destruct (Z.eqb_spec n n'); [congruence|reflexivity].
    + exact IH.
Qed.
Lemma filter_all {A} (p : A -> bool) l : (forall x, In x l -> p x = true) -> filter p l = l.
Proof.
  induction l as [|x l IH]; intro H; [reflexivity|]. cbn [filter]. rewrite H by (left; reflexivity). f_equal. apply IH. intros y Y. apply H. right. exact Y.
Qed.
Lemma filter_none {A} (p : A -> bool) l : (forall x, In x l -> p x = false) -> filter p l = [].
Proof.
  induction l as [|x l IH]; intro H; [reflexivity|]. cbn [filter]. rewrite H by (left; reflexivity). apply IH. intros y Y. apply H. right. exact Y.
Qed.
Lemma nodup_snd (l : list (Z * Z)) a b i : NoDup (map snd l) -> In (a, i) l -> In (b, i) l -> a = b.
Proof.
  induction l as [|[c j] l IH]; cbn [map In snd]; [tauto|]. intros N. inversion N as [|? ? N1 N2]; subst.
  intros [H|H] [G|G]; try congruence; auto.
  - exfalso. apply N1. injection H as -> ->. apply in_map_iff. exists (b, i). auto.
  - exfalso. apply N1. injection G as -> ->. apply in_map_iff. exists (a, i). auto.
Qed.
Lemma subs_of_del l n id n' : NoDup (map snd l) -> (forall m, In (m, id) l -> m = n) ->
  subs_of (del_sub l n id) n' = filter (fun x => negb (x =? id)) (subs_of l n').
Proof.
  intros N F. unfold subs_of, del_sub. induction l as [|[a i] l IH]; [reflexivity|].
  inversion N as [|? ? N1 N2]; subst. cbn [filter fst snd].
  assert (IH' := IH N2 (fun m H => F m (or_intror H))).
  destruct ((a =? n) && (i =? id)) eqn:E; cbn [negb].
  - apply andb_true_iff in E. destruct E as [E1 E2]. apply Z.eqb_eq in E1, E2. subst a i.
    rewrite IH'. destruct (n =? n'); [|reflexivity]. cbn [map filter snd]. rewrite Z.eqb_refl. reflexivity.
  - cbn [filter fst]. destruct (a =? n'); [|exact IH']. cbn [map filter snd]. rewrite IH'.
    destruct (Z.eqb_spec i id) as [->|]; [|reflexivity]. exfalso. specialize (F a (or_introl eq_refl)). subst a. rewrite !Z.eqb_refl in E. discriminate E.
Qed.
Lemma find_handle_in l id n : find_handle l id = Some n -> In (id, n) l.
Proof.
  unfold find_handle. destruct (find (fun x => fst x =? id) l) as [[i m]|] eqn:E; [|discriminate]. cbn [option_map snd].
  intro H. injection H as ->. apply find_some in E. cbn [fst] in E. destruct E as [E1 E2]. apply Z.eqb_eq in E2. congruence.
Qed.
Lemma nodup_fst (l : list (Z * Z)) a b i : NoDup (map fst l) -> In (i, a) l -> In (i, b) l -> a = b.
Proof.
  induction l as [|[c j] l IH]; cbn [map In fst]; [tauto|]. intros N. inversion N as [|? ? N1 N2]; subst.
  intros [H|H] [G|G]; try congruence; auto.
  - exfalso. apply N1. injection H as -> ->. apply in_map_iff. exists (i, b). auto.
  - exfalso. apply N1. injection G as -> ->. apply in_map_iff. exists (i, a). auto.
Qed.
Lemma find_pub_in l p x : find_pub l p = Some x -> In x l /\ p_no x = p.
Proof. unfold find_pub. intro H. apply find_some in H. destruct H as [H E]. apply Z.eqb_eq in E. auto. Qed.
Lemma pub_unique l x y : NoDup (map p_no l) -> In x l -> In y l -> p_no x = p_no y -> x = y.
Proof.
  induction l as [|z l IH]; cbn [map In]; [tauto|]. intros N. inversion N as [|? ? N1 N2]; subst.
  intros [H|H] [G|G] E; subst; auto.
  - exfalso. apply N1. rewrite E. apply in_map. exact G.
  - exfalso. apply N1. rewrite <- E. apply in_map. exact H.
Qed.
Lemma set_stage_in l p g y : In y (set_stage l p g) ->
  exists x, In x l /\ ((p_no x = p /\ y = mk_pub (p_no x) (p_name x) (p_src x) g) \/ (p_no x <> p /\ y = x)).
Proof.
  unfold set_stage. rewrite in_map_iff. intros (x & E & H). exists x. split; [exact H|].
  destruct (Z.eqb_spec (p_no x) p); [left|right]; auto.
Qed.
Lemma set_stage_nos l p g : map p_no (set_stage l p g) = map p_no l.
Proof. unfold set_stage. rewrite map_map. apply map_ext. intro x. destruct (p_no x =? p); reflexivity. Qed.
Lemma set_stage_names l p g : map p_name (set_stage l p g) = map p_name l.
Proof. unfold set_stage. rewrite map_map. apply map_ext. intro x. destruct (p_no x =? p); reflexivity. Qed.
Lemma write_free_none s x msg todo : write_free s = true -> In x (s_pubs s) -> p_stage x <> Offering msg todo.
Proof.
  unfold write_free. rewrite negb_true_iff. intros H I E.
  assert (existsb offering (s_pubs s) = true); [|congruence].
  apply existsb_exists. exists x. split; [exact I|]. unfold offering. rewrite E. reflexivity.
Qed.

(* ---------------- histories ---------------- *)
Lemma split_last {A} (log o : list A) l1 x l2 : log ++ o = l1 ++ x :: l2 ->
  (exists l2', log = l1 ++ x :: l2' /\ l2 = l2' ++ o) \/ (exists o1, o = o1 ++ x :: l2 /\ l1 = log ++ o1).
Proof.
  revert l1. induction log as [|y log IH]; intros l1 E; cbn [app] in E.
  - right. exists l1. auto.
  - destruct l1 as [|z l1]; cbn [app] in E; injection E as E1 E2.
    + left. subst. exists log. auto.
    + apply IH in E2. destruct E2 as [(l2' & -> & ->)|(o1 & -> & ->)]; subst.
      * left. exists l2'. auto.
      * right. exists o1. auto.
Qed.
Lemma one_mid {A} (o1 l2 : list A) x y : [x] = o1 ++ y :: l2 -> o1 = [] /\ y = x /\ l2 = [].
Proof.
  destruct o1 as [|z o1]; cbn [app]; intro E; [injection E as <- <-; auto|].
  injection E as _ E. destruct o1; discriminate E.
Qed.
Lemma snoc_split {A} (log : list A) o l1 x l2 : log ++ [o] = l1 ++ x :: l2 ->
  (exists l2', log = l1 ++ x :: l2' /\ l2 = l2' ++ [o]) \/ (x = o /\ l1 = log /\ l2 = []).
Proof.
  intro E. apply split_last in E. destruct E as [E|(o1 & E & ->)]; [left; exact E|right].
  apply one_mid in E. destruct E as (-> & -> & ->). rewrite app_nil_r. auto.
Qed.
Lemma live_snoc n log o : live n (log ++ [o]) = live_step n (live n log) o.
Proof. unfold live. rewrite fold_left_app. reflexivity. Qed.
Lemma closings_snoc log o : closings (log ++ [o]) = closings log ++ closed_ids o.
Proof. unfold closings. rewrite flat_map_app. cbn [flat_map]. rewrite app_nil_r. reflexivity. Qed.
Lemma offers_snoc p l o : offers p (l ++ [o]) = offers p l ++ offer_of p o.
Proof. unfold offers. rewrite flat_map_app. cbn [flat_map]. rewrite app_nil_r. reflexivity. Qed.
Lemma subscriptions_snoc log o : subscriptions (log ++ [o]) = subscriptions log ++ match o with OSubscribed id _ => [id] | _ => [] end.
Proof. unfold subscriptions. rewrite flat_map_app. cbn [flat_map]. rewrite app_nil_r. reflexivity. Qed.
Lemma busy_snoc p l o : busy p l -> o <> ODone p -> (forall n m, o <> OStart p n m) -> busy p (l ++ [o]).
Proof. intros B D S x H. apply in_app_or in H. destruct H as [H|[<-|[]]]; [exact (B x H)|auto]. Qed.

(* ---------------- the invariant ---------------- *)
Definition progress (log : list obs) (x : pub) (msg : Z) (todo : list Z) : Prop :=
  exists l1 l2, log = l1 ++ OStart (p_no x) (p_name x) msg :: l2 /\ busy (p_no x) l2 /\
    live (p_name x) l1 = live (p_name x) log /\
    (forall i m, In (i, m) (offers (p_no x) l2) -> m = msg) /\
    NoDup (map fst (offers (p_no x) l2) ++ todo) /\
    (forall i, In i (map fst (offers (p_no x) l2) ++ todo) <-> In i (live (p_name x) l1)).

Record inv (s : st) (log : list obs) : Prop := {
  a_live : forall n, live n log = subs_of (s_subs s) n;
  a_ids : NoDup (map snd (s_subs s));
  a_next : forall n id, In (n, id) (s_subs s) -> id <= s_next s;
  a_hand : forall n id, In (n, id) (s_subs s) -> In (id, n) (s_handles s);
  a_hnd : NoDup (map fst (s_handles s));
  a_hnext : forall id n, In (id, n) (s_handles s) -> id <= s_next s;
  a_unsub : forall id, In (OUnsub id) log -> id <= s_next s /\ ~ In id (map snd (s_subs s));
  a_closed : forall id, In id (closings log) <-> In id (s_closed s);
  a_closed2 : forall id, In id (s_closed s) -> id <= s_next s /\ ~ In id (map snd (s_subs s));
  a_once : NoDup (closings log);
  a_subsc : NoDup (subscriptions log);
  a_subnext : forall id, In id (subscriptions log) -> id <= s_next s;
  a_pubs : NoDup (map p_no (s_pubs s));
  a_pnext : forall x, In x (s_pubs s) -> p_no x < s_npub s;
  a_offer : forall x msg todo, In x (s_pubs s) -> p_stage x = Offering msg todo -> progress log x msg todo;
  a_panic : ~ In OPanic log;
  t_deliver : forall l1 o l2 p id msg, log = l1 ++ o :: l2 -> offer_of p o = [(id, msg)] ->
     exists name, In (OStart p name msg) l1 /\ In id (live name l1) /\ ~ In (OUnsub id) l1 /\ ~ In id (closings l1);
  t_done : forall l1 p n m l2 l3, log = l1 ++ OStart p n m :: l2 ++ ODone p :: l3 -> busy p l2 ->
     (forall i m', In (i, m') (offers p l2) -> m' = m) /\ Permutation (map fst (offers p l2)) (live n l1);
  t_close : forall l1 p n ids l2, log = l1 ++ OCloseAll p n ids :: l2 -> ids = live n l1
}.

(* an observation that says nothing about subscribers or messages *)
Definition neutral (o : obs) : Prop :=
  match o with
  | OAdded _ _ _ | OAddErr _ | ORemoved _ | OSubErr _ | OGone _ => True
  | _ => False
  end.

Lemma progress_other log x msg todo o : progress log x msg todo ->
  offer_of (p_no x) o = [] -> o <> ODone (p_no x) -> (forall n m, o <> OStart (p_no x) n m) ->
  (forall l, live_step (p_name x) l o = l) -> progress (log ++ [o]) x msg todo.
Proof.
  intros (l1 & l2 & E & B & L & M & N & P) O D S LS. exists l1, (l2 ++ [o]).
  split; [rewrite E, <- app_assoc; reflexivity|]. split; [apply busy_snoc; assumption|].
  split; [rewrite live_snoc, LS; exact L|]. rewrite offers_snoc, O, app_nil_r. auto.
Qed.

Lemma neutral_log s log o : neutral o -> inv s log -> inv s (log ++ [o]).
Proof.
  intros NE I. destruct I as [B1 B2 B3 B4 B5 B6 B7 B8 B9 B10 B11 B12 B13 B14 B15 B16 B17 B18 B19].
  constructor; try assumption.
  - intro n. rewrite live_snoc. destruct o; destruct NE; cbn [live_step]; apply B1.
  - intros id H. apply in_app_or in H. destruct H as [H|[H|[]]]; [auto|subst o; destruct NE].
  - intro id. rewrite closings_snoc. destruct o; destruct NE; cbn [closed_ids]; rewrite app_nil_r; apply B8.
  - rewrite closings_snoc. destruct o; destruct NE; cbn [closed_ids]; rewrite app_nil_r; exact B10.
  - rewrite subscriptions_snoc. destruct o; destruct NE; rewrite app_nil_r; exact B11.
  - rewrite subscriptions_snoc. destruct o; destruct NE; rewrite app_nil_r; exact B12.
  - intros x msg todo H E. apply progress_other; [exact (B15 x msg todo H E)| | | |]; destruct o; destruct NE; try reflexivity; try discriminate; intros; discriminate.
  - intro H. apply in_app_or in H. destruct H as [H|[H|[]]]; [auto|subst o; destruct NE].
  - intros l1 o' l2 p id msg E O. apply snoc_split in E. destruct E as [(l2' & E & _)|(-> & -> & ->)]; [eapply B17; [exact E|exact O]|].
    exfalso. destruct o; destruct NE; discriminate O.
  - intros l1 p n m l2 l3 E B. 
    assert (X : log ++ [o] = (l1 ++ OStart p n m :: l2) ++ ODone p :: l3) by (rewrite <- app_assoc; exact E).
    apply snoc_split in X. destruct X as [(l3' & X & _)|(X & _)]; [|subst o; destruct NE].
    rewrite <- app_assoc in X. eapply B18; [exact X|exact B].
  - intros l1 p n ids l2 E. apply snoc_split in E. destruct E as [(l2' & E & _)|(X & _)]; [eapply B19; exact E|subst o; destruct NE].
Qed.

(* topics and tasks play no part *)
Lemma inv_core s s' log : s_subs s' = s_subs s -> s_next s' = s_next s -> s_handles s' = s_handles s ->
  s_closed s' = s_closed s -> s_pubs s' = s_pubs s -> s_npub s' = s_npub s -> inv s log -> inv s' log.
Proof.
  intros E1 E2 E3 E4 E5 E6 [B1 B2 B3 B4 B5 B6 B7 B8 B9 B10 B11 B12 B13 B14 B15 B16 B17 B18 B19].
  constructor; rewrite ?E1, ?E2, ?E3, ?E4, ?E5, ?E6; assumption.
Qed.

Lemma inv_init : inv init [].
Proof.
  assert (X : forall l1 (o : obs) l2, [] <> l1 ++ o :: l2) by (intros [|] ? ? E; discriminate E).
  constructor; try solve [cbn; intros; contradiction | constructor | cbn; intros; tauto | reflexivity].
  - intros l1 o l2 p id msg E. destruct (X _ _ _ E).
  - intros l1 p n m l2 l3 E. destruct (X _ _ _ E).
  - intros l1 p n ids l2 E. destruct (X _ _ _ E).
Qed.

(* histories that grow by something other than the end of a publication *)
Lemma done_snoc log o :
  (forall p, o <> ODone p) ->
  (forall l1 p n m l2 l3, log = l1 ++ OStart p n m :: l2 ++ ODone p :: l3 -> busy p l2 ->
     (forall i m', In (i, m') (offers p l2) -> m' = m) /\ Permutation (map fst (offers p l2)) (live n l1)) ->
  (forall l1 p n m l2 l3, log ++ [o] = l1 ++ OStart p n m :: l2 ++ ODone p :: l3 -> busy p l2 ->
     (forall i m', In (i, m') (offers p l2) -> m' = m) /\ Permutation (map fst (offers p l2)) (live n l1)).
Proof.
  intros D H l1 p n m l2 l3 E B.
  assert (X : log ++ [o] = (l1 ++ OStart p n m :: l2) ++ ODone p :: l3) by (rewrite <- app_assoc; exact E).
  apply snoc_split in X. destruct X as [(l3' & X & _)|(X & _)]; [|exfalso; apply (D p); congruence].
  rewrite <- app_assoc in X. eapply H; [exact X|exact B].
Qed.
Lemma deliver_snoc log o (P : Z -> Z -> Z -> list obs -> Prop) :
  (forall p, offer_of p o = []) ->
  (forall l1 o l2 p id msg, log = l1 ++ o :: l2 -> offer_of p o = [(id, msg)] -> P p id msg l1) ->
  (forall l1 o' l2 p id msg, log ++ [o] = l1 ++ o' :: l2 -> offer_of p o' = [(id, msg)] -> P p id msg l1).
Proof.
  intros D H l1 o' l2 p id msg E O. apply snoc_split in E. destruct E as [(l2' & E & _)|(-> & _)]; [eapply H; eassumption|].
  rewrite D in O. discriminate O.
Qed.
Lemma close_snoc log o : (forall p n ids, o <> OCloseAll p n ids) ->
  (forall l1 p n ids l2, log = l1 ++ OCloseAll p n ids :: l2 -> ids = live n l1) ->
  (forall l1 p n ids l2, log ++ [o] = l1 ++ OCloseAll p n ids :: l2 -> ids = live n l1).
Proof.
  intros D H l1 p n ids l2 E. apply snoc_split in E. destruct E as [(l2' & E & _)|(E & _)]; [eapply H; exact E|].
  exfalso. apply (D p n ids). congruence.
Qed.

Lemma last_start_unique p (l1 l2 l1' l2' : list obs) n m n' m' :
  l1 ++ OStart p n m :: l2 = l1' ++ OStart p n' m' :: l2' -> busy p l2 -> busy p l2' ->
  l1 = l1' /\ n = n' /\ m = m' /\ l2 = l2'.
Proof.
  revert l1'. induction l1 as [|x l1 IH]; intros [|y l1'] E B B'; cbn [app] in E; injection E as E1 E2.
  - subst. auto.
  - exfalso. assert (In (OStart p n' m') l2) by (rewrite E2; apply in_or_app; right; left; reflexivity).
    apply (proj2 (B _ H) n' m'). reflexivity.
  - exfalso. assert (In (OStart p n m) l2') by (rewrite <- E2; apply in_or_app; right; left; reflexivity).
    apply (proj2 (B' _ H) n m). reflexivity.
  - apply IH in E2; [|exact B|exact B']. destruct E2 as (-> & -> & -> & ->). subst. auto.
Qed.

Ltac sb := cbn [s_topics s_subs s_next s_handles s_closed s_pubs s_npub s_tasks s_ntask with_topics with_tasks new_task with_pubs with_subs].

Lemma step_inv s ev s' o log : inv s log -> step s ev = (s', o) -> inv s' (log ++ o).
Proof.
  intros I E. destruct ev as [name src|k|name|name|k|id|p msg|p id ready|p|p|p]; cbn [step] in E.
  - (* add, check *)
    destruct (has_topic (s_topics s) name); injection E as <- <-.
    + apply neutral_log; [exact Logic.I|exact I].
    + rewrite app_nil_r. eapply inv_core; [..|exact I]; reflexivity.
  - (* add, write *)
    destruct (find_task (s_tasks s) k) as [[name src|name]|]; injection E as <- <-; try (rewrite app_nil_r; exact I).
    apply neutral_log; [exact Logic.I|].
    destruct I as [B1 B2 B3 B4 B5 B6 B7 B8 B9 B10 B11 B12 B13 B14 B15 B16 B17 B18 B19].
    constructor; sb; try assumption.
    + cbn [map p_no]. constructor; [|exact B13]. intro X. apply in_map_iff in X. destruct X as (x & X1 & X2). apply B14 in X2. lia.
    + intros x [<-|H]; [cbn [p_no]; lia|]. apply B14 in H. lia.
    + intros x msg todo [<-|H]; [cbn [p_stage]; discriminate|]. apply B15. exact H.
  - (* remove *)
    injection E as <- <-. apply neutral_log; [exact Logic.I|]. eapply inv_core; [..|exact I]; reflexivity.
  - (* subscribe, check *)
    destruct (has_topic (s_topics s) name); injection E as <- <-.
    + rewrite app_nil_r. eapply inv_core; [..|exact I]; reflexivity.
    + apply neutral_log; [exact Logic.I|exact I].
  - (* subscribe, insert *)
    destruct (find_task (s_tasks s) k) as [[name src|name]|]; try (injection E as <- <-; rewrite app_nil_r; exact I).
    destruct (write_free s) eqn:WF; [|injection E as <- <-; rewrite app_nil_r; exact I].
    injection E as <- <-.
    destruct I as [B1 B2 B3 B4 B5 B6 B7 B8 B9 B10 B11 B12 B13 B14 B15 B16 B17 B18 B19].
    constructor; sb; try assumption.
    + intro n. rewrite live_snoc. cbn [live_step]. unfold subs_of. cbn [filter fst]. destruct (name =? n); [|apply B1].
      cbn [map snd]. rewrite B1. reflexivity.
    + cbn [map snd]. constructor; [|exact B2]. intro X. apply in_map_iff in X. destruct X as ([n i] & X1 & X2). cbn [snd] in X1. apply B3 in X2. lia.
    + intros n i [X|X]; [injection X as _ <-; lia|apply B3 in X; lia].
    + intros n i [X|X]; [injection X as -> ->; left; reflexivity|right; apply B4; exact X].
    + cbn [map fst]. constructor; [|exact B5]. intro X. apply in_map_iff in X. destruct X as ([i n] & X1 & X2). cbn [fst] in X1. apply B6 in X2. lia.
    + intros i n [X|X]; [injection X as <- _; lia|apply B6 in X; lia].
    + intros i X. apply in_app_or in X. destruct X as [X|[X|[]]]; [|discriminate X]. apply B7 in X. destruct X as [X1 X2]. split; [lia|].
      cbn [map snd]. intros [X|X]; [lia|auto].
    + intro i. rewrite closings_snoc, app_nil_r. apply B8.
    + intros i X. apply B9 in X. destruct X as [X1 X2]. split; [lia|]. cbn [map snd]. intros [X|X]; [lia|auto].
    + rewrite closings_snoc, app_nil_r. exact B10.
    + rewrite subscriptions_snoc. apply (Permutation_NoDup (Permutation_cons_append _ _)). constructor; [|exact B11]. intro X. apply B12 in X. lia.
    + rewrite subscriptions_snoc. intros i X. apply in_app_or in X. destruct X as [X|[<-|[]]]; [apply B12 in X; lia|lia].
    + intros x msg todo H X. exfalso. exact (write_free_none s x msg todo WF H X).
    + intro X. apply in_app_or in X. destruct X as [X|[X|[]]]; [auto|discriminate X].
    + apply deliver_snoc; [reflexivity|exact B17].
    + apply done_snoc; [discriminate|exact B18].
    + apply close_snoc; [discriminate|exact B19].
  - (* unsubscribe *)
    destruct (find_handle (s_handles s) id) as [name|] eqn:FH; [|injection E as <- <-; rewrite app_nil_r; exact I].
    destruct (write_free s) eqn:WF; [|injection E as <- <-; rewrite app_nil_r; exact I].
    injection E as <- <-. apply find_handle_in in FH.
    destruct I as [B1 B2 B3 B4 B5 B6 B7 B8 B9 B10 B11 B12 B13 B14 B15 B16 B17 B18 B19].
    assert (SUB : forall x, In x (del_sub (s_subs s) name id) -> In x (s_subs s)) by (intros x X; apply filter_In in X; tauto).
    assert (SUBI : forall i, In i (map snd (del_sub (s_subs s) name id)) -> In i (map snd (s_subs s))).
    { intros i X. apply in_map_iff in X. destruct X as (y & <- & Y). apply in_map. auto. }
    assert (OWN : forall m, In (m, id) (s_subs s) -> m = name).
    { intros m X. apply B4 in X. exact (nodup_fst _ _ _ _ B5 X FH). }
    constructor; sb; try assumption.
    + intro n. rewrite live_snoc. cbn [live_step]. rewrite B1. symmetry. apply subs_of_del; assumption.
    + apply nodup_map_filter. exact B2.
    + intros n i X. apply (B3 n i). auto.
    + intros n i X. apply (B4 n i). auto.
    + intros i X. apply in_app_or in X. destruct X as [X|[X|[]]].
      * apply B7 in X. destruct X. split; [assumption|auto].
      * injection X as ->. split; [eapply B6; exact FH|]. intro X. apply in_map_iff in X. destruct X as ([m j] & X1 & X2). cbn [snd] in X1. subst j.
        pose proof (OWN m (SUB _ X2)). subst m. apply filter_In in X2. cbn [fst snd] in X2. rewrite !Z.eqb_refl in X2. destruct X2 as [_ X2]. discriminate X2.
    + intro i. rewrite closings_snoc, app_nil_r. apply B8.
    + intros i X. apply B9 in X. destruct X. split; [assumption|auto].
    + rewrite closings_snoc, app_nil_r. exact B10.
    + rewrite subscriptions_snoc, app_nil_r. exact B11.
    + rewrite subscriptions_snoc, app_nil_r. exact B12.
    + intros x msg todo H X. exfalso. exact (write_free_none s x msg todo WF H X).
    + intro X. apply in_app_or in X. destruct X as [X|[X|[]]]; [auto|discriminate X].
    + apply deliver_snoc; [reflexivity|exact B17].
    + apply done_snoc; [discriminate|exact B18].
    + apply close_snoc; [discriminate|exact B19].
  - (* a message arrives *)
    destruct (find_pub (s_pubs s) p) as [[p0 name src [|m0 t0|]]|] eqn:FP; injection E as <- <-; try (rewrite app_nil_r; exact I).
    apply find_pub_in in FP. destruct FP as [FP1 FP2]. cbn [p_no] in FP2. subst p0.
    destruct I as [B1 B2 B3 B4 B5 B6 B7 B8 B9 B10 B11 B12 B13 B14 B15 B16 B17 B18 B19].
    constructor; sb; try assumption.
    + intro n. rewrite live_snoc. apply B1.
    + intros i X. apply in_app_or in X. destruct X as [X|[X|[]]]; [auto|discriminate X].
    + intro i. rewrite closings_snoc, app_nil_r. apply B8.
    + rewrite closings_snoc, app_nil_r. exact B10.
    + rewrite subscriptions_snoc, app_nil_r. exact B11.
    + rewrite subscriptions_snoc, app_nil_r. exact B12.
    + rewrite set_stage_nos. exact B13.
    + intros x H. apply set_stage_in in H. destruct H as (y & Y & [[_ ->]|[_ ->]]); apply B14 in Y; exact Y.
    + intros x msg' todo H X. apply set_stage_in in H. destruct H as (y & Y & [[Y1 ->]|[Y1 ->]]).
      * assert (y = mk_pub p name src Idle) as -> by (apply (pub_unique _ _ _ B13 Y FP1); exact Y1).
        cbn [p_stage p_no p_name] in *. injection X as <- <-.
        exists log, []. cbn [p_no p_name]. split; [reflexivity|]. split; [intros o' []|]. split; [rewrite live_snoc; reflexivity|].
        split; [intros i m []|]. cbn [offers flat_map map app]. split; [apply subs_of_nodup; exact B2|]. intro i. rewrite B1. tauto.
      * apply progress_other; [apply B15; assumption|reflexivity|discriminate|congruence|reflexivity].
    + intro X. apply in_app_or in X. destruct X as [X|[X|[]]]; [auto|discriminate X].
    + apply deliver_snoc; [reflexivity|exact B17].
    + apply done_snoc; [discriminate|exact B18].
    + apply close_snoc; [discriminate|exact B19].
  - (* one offer *)
    destruct (find_pub (s_pubs s) p) as [[p0 name src [|msg todo|]]|] eqn:FP; try (injection E as <- <-; rewrite app_nil_r; exact I).
    destruct (memz id todo) eqn:MT; [|injection E as <- <-; rewrite app_nil_r; exact I].
    apply find_pub_in in FP. destruct FP as [FP1 FP2]. cbn [p_no] in FP2. subst p0.
    apply memz_in in MT.
    destruct I as [B1 B2 B3 B4 B5 B6 B7 B8 B9 B10 B11 B12 B13 B14 B15 B16 B17 B18 B19].
    destruct (B15 _ _ _ FP1 eq_refl) as (l1 & l2 & E1 & E2 & E3 & E4 & E5 & E6). cbn [p_no p_name] in E1, E2, E3, E4, E5, E6.
    assert (LV : In id (subs_of (s_subs s) name)).
    { rewrite <- B1, <- E3. apply E6. apply in_or_app. right. exact MT. }
    assert (SN : In id (map snd (s_subs s))) by (apply subs_of_in in LV; apply in_map_iff; exists (name, id); auto).
    assert (NC : memz id (s_closed s) = false) by (apply memz_notin; intro X; apply B9 in X; tauto).
    rewrite NC in E. set (ob := if ready then ODeliver p id msg else ODrop p id msg) in *.
    assert (OF : forall q, offer_of q ob = if p =? q then [(id, msg)] else []) by (intro q; unfold ob; destruct ready; reflexivity).
    assert (LS : forall n l, live_step n l ob = l) by (intros n l; unfold ob; destruct ready; reflexivity).
    assert (CI : closed_ids ob = []) by (unfold ob; destruct ready; reflexivity).
    assert (SI : match ob with OSubscribed i _ => [i] | _ => [] end = @nil Z) by (unfold ob; destruct ready; reflexivity).
    assert (ND : forall q, ob <> ODone q) by (intro q; unfold ob; destruct ready; discriminate).
    assert (NS : forall q n m, ob <> OStart q n m) by (intros q n m; unfold ob; destruct ready; discriminate).
    assert (NU : forall i, ob <> OUnsub i) by (intros i; unfold ob; destruct ready; discriminate).
    assert (NP : ob <> OPanic) by (unfold ob; destruct ready; discriminate).
    assert (NCL : forall q n ids, ob <> OCloseAll q n ids) by (intros q n ids; unfold ob; destruct ready; discriminate).
    injection E as <- <-. clearbody ob.
    constructor; sb; try assumption.
    + intro n. rewrite live_snoc, LS. apply B1.
    + intros i X. apply in_app_or in X. destruct X as [X|[X|[]]]; [auto|destruct (NU _ X)].
    + intro i. rewrite closings_snoc, CI, app_nil_r. apply B8.
    + rewrite closings_snoc, CI, app_nil_r. exact B10.
    + rewrite subscriptions_snoc, SI, app_nil_r. exact B11.
    + rewrite subscriptions_snoc, SI, app_nil_r. exact B12.
    + rewrite set_stage_nos. exact B13.
    + intros x H. apply set_stage_in in H. destruct H as (y & Y & [[_ ->]|[_ ->]]); apply B14 in Y; exact Y.
    + intros x msg' todo' H X. apply set_stage_in in H. destruct H as (y & Y & [[Y1 ->]|[Y1 ->]]).
      * assert (y = mk_pub p name src (Offering msg todo)) as -> by (apply (pub_unique _ _ _ B13 Y FP1); exact Y1).
        cbn [p_stage p_no p_name] in *. injection X as <- <-.
        exists l1, (l2 ++ [ob]). cbn [p_no p_name]. split; [rewrite E1, <- app_assoc; reflexivity|].
        split; [apply busy_snoc; auto|]. split; [rewrite live_snoc, LS; exact E3|].
        rewrite offers_snoc, OF, Z.eqb_refl, map_app. cbn [map fst].
        split; [intros i m X; apply in_app_or in X; destruct X as [X|[X|[]]]; [eapply E4; exact X|injection X as _ <-; reflexivity]|].
        assert (PE : Permutation (map fst (offers p l2) ++ todo) ((map fst (offers p l2) ++ [id]) ++ filter (fun x => negb (x =? id)) todo)).
        { rewrite <- app_assoc. apply Permutation_app_head.
          assert (NT : NoDup todo). { clear -E5. induction (map fst (offers p l2)) as [|a l IH]; [exact E5|]. cbn [app] in E5. inversion E5; auto. }
          clear -MT NT. induction todo as [|a l IH]; [destruct MT|]. inversion NT as [|? ? N1 N2]; subst. cbn [filter].
          destruct (Z.eqb_spec a id) as [->|D]; cbn [negb].
          - rewrite filter_all; [reflexivity|]. intros y Y. destruct (Z.eqb_spec y id); [subst; contradiction|reflexivity].
          - destruct MT as [->|MT]; [congruence|]. etransitivity; [apply perm_skip; apply (IH MT N2)|]. cbn [app]. apply perm_swap. }
        split; [eapply Permutation_NoDup; [exact PE|exact E5]|].
        intro i. rewrite <- E6. split; apply Permutation_in; [symmetry; exact PE|exact PE].
      * apply progress_other; [apply B15; assumption| |apply ND|apply NS|apply LS].
        rewrite OF. destruct (Z.eqb_spec p (p_no y)); [congruence|reflexivity].
    + intro X. apply in_app_or in X. destruct X as [X|[X|[]]]; [auto|auto].
    + intros k1 o' k2 q i m X O. apply snoc_split in X. destruct X as [(k2' & X & _)|(-> & -> & ->)]; [eapply B17; eassumption|].
      rewrite OF in O. destruct (Z.eqb_spec p q) as [<-|]; [|discriminate O]. injection O as <- <-.
      exists name. split; [rewrite E1; apply in_or_app; right; left; reflexivity|]. split; [rewrite B1; exact LV|].
      split; [intro Y; apply B7 in Y; tauto|]. rewrite B8. apply memz_notin. exact NC.
    + apply done_snoc; [exact ND|exact B18].
    + apply close_snoc; [exact NCL|exact B19].
  - (* end of a publication *)
    destruct (find_pub (s_pubs s) p) as [[p0 name src [|msg [|t todo]|]]|] eqn:FP; injection E as <- <-; try (rewrite app_nil_r; exact I).
    apply find_pub_in in FP. destruct FP as [FP1 FP2]. cbn [p_no] in FP2. subst p0.
    destruct I as [B1 B2 B3 B4 B5 B6 B7 B8 B9 B10 B11 B12 B13 B14 B15 B16 B17 B18 B19].
    destruct (B15 _ _ _ FP1 eq_refl) as (l1 & l2 & E1 & E2 & E3 & E4 & E5 & E6). cbn [p_no p_name] in E1, E2, E3, E4, E5, E6.
    constructor; sb; try assumption.
    + intro n. rewrite live_snoc. apply B1.
    + intros i X. apply in_app_or in X. destruct X as [X|[X|[]]]; [auto|discriminate X].
    + intro i. rewrite closings_snoc, app_nil_r. apply B8.
    + rewrite closings_snoc, app_nil_r. exact B10.
    + rewrite subscriptions_snoc, app_nil_r. exact B11.
    + rewrite subscriptions_snoc, app_nil_r. exact B12.
    + rewrite set_stage_nos. exact B13.
    + intros x H. apply set_stage_in in H. destruct H as (y & Y & [[_ ->]|[_ ->]]); apply B14 in Y; exact Y.
    + intros x msg' todo H X. apply set_stage_in in H. destruct H as (y & Y & [[Y1 ->]|[Y1 ->]]).
      * cbn [p_stage] in X. discriminate X.
      * apply progress_other; [apply B15; assumption|reflexivity|congruence|discriminate|reflexivity].
    + intro X. apply in_app_or in X. destruct X as [X|[X|[]]]; [auto|discriminate X].
    + apply deliver_snoc; [reflexivity|exact B17].
    + intros k1 q n m k2 k3 X B.
      assert (Y : log ++ [ODone p] = (k1 ++ OStart q n m :: k2) ++ ODone q :: k3) by (rewrite <- app_assoc; exact X).
      apply snoc_split in Y. destruct Y as [(k3' & Y & _)|(Y1 & Y2 & Y3)].
      * rewrite <- app_assoc in Y. eapply B18; [exact Y|exact B].
      * injection Y1 as ->. rewrite E1 in Y2. apply last_start_unique in Y2; [|exact B|exact E2]. destruct Y2 as (-> & -> & -> & ->).
        split; [exact E4|]. rewrite app_nil_r in E5, E6. apply NoDup_Permutation; [exact E5| |exact E6].
        rewrite E3, B1. apply subs_of_nodup. exact B2.
    + apply close_snoc; [discriminate|exact B19].
  - (* the source closes *)
    destruct (find_pub (s_pubs s) p) as [[p0 name src [|msg todo|]]|] eqn:FP; try (injection E as <- <-; rewrite app_nil_r; exact I).
    destruct (write_free s) eqn:WF; [|injection E as <- <-; rewrite app_nil_r; exact I].
    apply find_pub_in in FP. destruct FP as [FP1 FP2]. cbn [p_no] in FP2. subst p0.
    destruct I as [B1 B2 B3 B4 B5 B6 B7 B8 B9 B10 B11 B12 B13 B14 B15 B16 B17 B18 B19].
    set (ids := subs_of (s_subs s) name) in *.
    assert (IDS : forall i, In i ids -> In i (map snd (s_subs s))).
    { intros i X. apply subs_of_in in X. apply in_map_iff. exists (name, i). auto. }
    assert (NP : existsb (fun i => memz i (s_closed s)) ids = false).
    { destruct (existsb (fun i => memz i (s_closed s)) ids) eqn:X; [|reflexivity]. exfalso.
      apply existsb_exists in X. destruct X as (i & X1 & X2). apply memz_in in X2. apply B9 in X2. apply IDS in X1. tauto. }
    cbv zeta in E. rewrite NP in E. cbn [app] in E. injection E as <- <-.
    assert (SUB : forall x, In x (drop_subs (s_subs s) name) -> In x (s_subs s)) by (intros x X; apply filter_In in X; tauto).
    assert (SUBI : forall i, In i (map snd (drop_subs (s_subs s) name)) -> In i (map snd (s_subs s))).
    { intros i X. apply in_map_iff in X. destruct X as (y & <- & Y). apply in_map. auto. }
    constructor; sb; try assumption.
    + intro n. rewrite live_snoc. cbn [live_step]. rewrite B1, subs_of_drop. destruct (Z.eqb_spec name n) as [<-|D].
      * apply filter_none. intros x X. apply negb_false_iff. apply memz_in. exact X.
      * apply filter_all. intros x X. apply negb_true_iff. apply memz_notin. intro Y. apply D.
        apply subs_of_in in X. apply subs_of_in in Y. exact (nodup_snd _ _ _ _ B2 Y X).
    + apply nodup_map_filter. exact B2.
    + intros n i X. apply (B3 n i). auto.
    + intros n i X. apply (B4 n i). auto.
    + intros i X. apply in_app_or in X. destruct X as [X|[X|[]]]; [|discriminate X]. apply B7 in X. destruct X. split; [assumption|auto].
    + intro i. rewrite closings_snoc. cbn [closed_ids]. rewrite !in_app_iff, B8. tauto.
    + intros i X. apply in_app_or in X. destruct X as [X|X].
      * split; [apply subs_of_in in X; eapply B3; exact X|]. intro Y. apply in_map_iff in Y. destruct Y as ([n j] & Y1 & Y2). cbn [snd] in Y1. subst j.
        pose proof (SUB _ Y2) as Y3. apply subs_of_in in X. rewrite (nodup_snd _ _ _ _ B2 Y3 X) in Y2.
        apply filter_In in Y2. cbn [fst] in Y2. rewrite Z.eqb_refl in Y2. destruct Y2 as [_ Y2]. discriminate Y2.
      * apply B9 in X. destruct X. split; [assumption|auto].
    + rewrite closings_snoc. cbn [closed_ids].
      assert (ND : NoDup ids) by (apply subs_of_nodup; exact B2).
      assert (DJ : forall i, In i (closings log) -> ~ In i ids) by (intros i X Y; apply B8 in X; apply B9 in X; apply IDS in Y; tauto).
      clear -B10 ND DJ. induction (closings log) as [|a l IH]; [exact ND|]. inversion B10; subst. cbn [app]. constructor.
      * rewrite in_app_iff. intros [X|X]; [contradiction|]. exact (DJ a (or_introl eq_refl) X).
      * apply IH; [assumption|]. intros i X. apply DJ. right. exact X.
    + rewrite subscriptions_snoc, app_nil_r. exact B11.
    + rewrite subscriptions_snoc, app_nil_r. exact B12.
    + rewrite set_stage_nos. exact B13.
    + intros x H. apply set_stage_in in H. destruct H as (y & Y & [[_ ->]|[_ ->]]); apply B14 in Y; exact Y.
    + intros x msg todo H X. exfalso. apply set_stage_in in H. destruct H as (y & Y & [[Y1 ->]|[Y1 ->]]); [discriminate X|].
      exact (write_free_none s y msg todo WF Y X).
    + intro X. apply in_app_or in X. destruct X as [X|[X|[]]]; [auto|discriminate X].
    + apply deliver_snoc; [reflexivity|exact B17].
    + apply done_snoc; [discriminate|exact B18].
    + intros k1 q n jds k2 X. apply snoc_split in X. destruct X as [(k2' & X & _)|(X & -> & _)]; [eapply B19; exact X|].
      injection X as _ -> ->. symmetry. apply B1.
  - (* the topic is deleted *)
    destruct (find_pub (s_pubs s) p) as [[p0 name src [|msg todo|]]|] eqn:FP; injection E as <- <-; try (rewrite app_nil_r; exact I).
    apply neutral_log; [exact Logic.I|].
    destruct I as [B1 B2 B3 B4 B5 B6 B7 B8 B9 B10 B11 B12 B13 B14 B15 B16 B17 B18 B19].
    assert (SUB : forall x, In x (drop_pub (s_pubs s) p) -> In x (s_pubs s)) by (intros x X; apply filter_In in X; tauto).
    constructor; sb; try assumption; auto.
    apply nodup_map_filter. exact B13.
Qed.

Lemma run_inv evs : forall s log s' log', inv s log -> run_from s log evs = (s', log') -> inv s' log'.
Proof.
  induction evs as [|ev evs IH]; intros s log s' log' I E; cbn [run_from] in E.
  - injection E as <- <-. exact I.
  - destruct (step s ev) as [s1 o] eqn:S. eapply IH; [|exact E]. eapply step_inv; [exact I|exact S].
Qed.

(* ---------------- one publisher per topic ---------------- *)
Record serial (s : st) : Prop := {
  j_names : NoDup (map p_name (s_pubs s));
  j_topics : forall x, In x (s_pubs s) -> has_topic (s_topics s) (p_name x) = true;
  j_tasks : forall k n c, In (k, TAdd n c) (s_tasks s) -> has_topic (s_topics s) n = false;
  j_one : forall k n c k' n' c', In (k, TAdd n c) (s_tasks s) -> In (k', TAdd n' c') (s_tasks s) -> k = k';
  j_knext : forall k t, In (k, t) (s_tasks s) -> k < s_ntask s
}.

Lemma has_topic_in l n : has_topic l n = true <-> exists c, In (n, c) l.
Proof.
  unfold has_topic. rewrite existsb_exists. split.
  - intros ([m c] & H & E). cbn [fst] in E. apply Z.eqb_eq in E. subst. eauto.
  - intros [c H]. exists (n, c). split; [exact H|apply Z.eqb_refl].
Qed.
Lemma has_topic_del l n m : has_topic (del_topic l n) m = (if n =? m then false else has_topic l m).
Proof.
  unfold has_topic, del_topic. induction l as [|[a c] l IH]; cbn [filter existsb fst]; [destruct (n =? m); reflexivity|].
  destruct (Z.eqb_spec a n) as [->|D]; cbn [negb].
  - rewrite IH. destruct (Z.eqb_spec n m); reflexivity.
  - cbn [existsb fst]. rewrite IH. destruct (Z.eqb_spec n m) as [E|]; [|reflexivity].
    destruct (Z.eqb_spec a m); [congruence|reflexivity].
Qed.
Lemma has_topic_set l n c m : has_topic (set_topic l n c) m = (n =? m) || has_topic l m.
Proof.
  unfold set_topic. unfold has_topic at 1. cbn [existsb fst]. fold (has_topic (del_topic l n) m). rewrite has_topic_del.
  destruct (n =? m); reflexivity.
Qed.
Lemma find_task_in l k t : find_task l k = Some t -> In (k, t) l.
Proof.
  unfold find_task. destruct (find (fun x => fst x =? k) l) as [[i m]|] eqn:E; [|discriminate]. cbn [option_map snd].
  intro H. injection H as ->. apply find_some in E. cbn [fst] in E. destruct E as [E1 E2]. apply Z.eqb_eq in E2. congruence.
Qed.

Lemma pub_name_unique l (x y : pub) : NoDup (map p_name l) -> In x l -> In y l -> p_name x = p_name y -> x = y.
Proof.
  induction l as [|z l IH]; intros N H F E; [destruct H|]. cbn [map] in N. inversion N as [|? ? N1 N2].
  destruct H as [<-|H], F as [<-|F]; auto.
  - exfalso. apply N1. rewrite E. apply in_map. exact F.
  - exfalso. apply N1. rewrite <- E. apply in_map. exact H.
Qed.

Lemma step_serial s ev : serial s ->
  match ev with ERemove _ => False | EAddCheck _ _ => forall k n c, ~ In (k, TAdd n c) (s_tasks s) | _ => True end ->
  serial (fst (step s ev)).
Proof.
  intros J D. pose proof J as [J1 J2 J3 J4 J5]. destruct ev as [name src|k|name|name|k|id|p msg|p id ready|p|p|p]; cbn [step].
  - destruct (has_topic (s_topics s) name) eqn:H; cbn [fst]; [exact J|]. constructor; sb; try assumption.
    + intros k n c [X|X]; [injection X as _ -> _; exact H|destruct (D _ _ _ X)].
    + intros k n c k' n' c' [X|X] [Y|Y]; [congruence|destruct (D _ _ _ Y)|destruct (D _ _ _ X)|destruct (D _ _ _ X)].
    + intros k t [X|X]; [injection X as <- _; lia|apply J5 in X; lia].
  - destruct (find_task (s_tasks s) k) as [[name src|name]|] eqn:F; cbn [fst]; try exact J. apply find_task_in in F.
    assert (SUB : forall x, In x (drop_task (s_tasks s) k) -> In x (s_tasks s) /\ fst x <> k).
    { intros x X. apply filter_In in X. destruct X as [X1 X2]. split; [exact X1|]. destruct (Z.eqb_spec (fst x) k); [discriminate X2|assumption]. }
    constructor; sb.
    + cbn [map p_name]. constructor; [|exact J1]. intro X. apply in_map_iff in X. destruct X as (x & X1 & X2). apply J2 in X2. rewrite X1 in X2. rewrite (J3 _ _ _ F) in X2. discriminate X2.
    + intros x [<-|X]; rewrite has_topic_set; cbn [p_name]; [rewrite Z.eqb_refl; reflexivity|]. rewrite J2 by exact X. apply orb_true_r.
    + intros k' n c X. apply SUB in X. destruct X as [X1 X2]. exfalso. apply X2. cbn [fst]. exact (J4 _ _ _ _ _ _ X1 F).
    + intros k1 n c k' n' c' X Y. apply SUB in X. apply SUB in Y. destruct X, Y. eapply J4; eassumption.
    + intros k' t X. apply SUB in X. destruct X as [X _]. eapply J5. exact X.
  - destruct D.
  - destruct (has_topic (s_topics s) name) eqn:H; cbn [fst]; [|exact J]. constructor; sb; try assumption.
    + intros k n c [X|X]; [discriminate X|eauto].
    + intros k n c k' n' c' [X|X] [Y|Y]; try discriminate X; try discriminate Y; eauto.
    + intros k t [X|X]; [injection X as <- _; lia|apply J5 in X; lia].
  - destruct (find_task (s_tasks s) k) as [[name src|name]|] eqn:F; cbn [fst]; try exact J.
    destruct (write_free s); [|exact J]. cbn [fst].
    assert (SUB : forall x, In x (drop_task (s_tasks s) k) -> In x (s_tasks s)) by (intros x X; apply filter_In in X; tauto).
    constructor; sb; try assumption; eauto.
  - destruct (find_handle (s_handles s) id); [|exact J]. destruct (write_free s); [|exact J]. constructor; sb; assumption.
  - destruct (find_pub (s_pubs s) p) as [[p0 name src [|m0 t0|]]|]; cbn [fst]; try exact J. constructor; sb; try assumption.
    + rewrite set_stage_names. exact J1.
    + intros x H. apply set_stage_in in H. destruct H as (y & Y & [[_ ->]|[_ ->]]); apply J2 in Y; exact Y.
  - destruct (find_pub (s_pubs s) p) as [[p0 name src [|m0 t0|]]|]; cbn [fst]; try exact J.
    destruct (memz id t0); cbn [fst]; [|exact J]. constructor; sb; try assumption.
    + rewrite set_stage_names. exact J1.
    + intros x H. apply set_stage_in in H. destruct H as (y & Y & [[_ ->]|[_ ->]]); apply J2 in Y; exact Y.
  - destruct (find_pub (s_pubs s) p) as [[p0 name src [|m0 [|? ?]|]]|]; cbn [fst]; try exact J. constructor; sb; try assumption.
    + rewrite set_stage_names. exact J1.
    + intros x H. apply set_stage_in in H. destruct H as (y & Y & [[_ ->]|[_ ->]]); apply J2 in Y; exact Y.
  - destruct (find_pub (s_pubs s) p) as [[p0 name src [|m0 t0|]]|]; cbn [fst]; try exact J.
    destruct (write_free s); cbn [fst]; [|exact J]. constructor; sb; try assumption.
    + rewrite set_stage_names. exact J1.
    + intros x H. apply set_stage_in in H. destruct H as (y & Y & [[_ ->]|[_ ->]]); apply J2 in Y; exact Y.
  - destruct (find_pub (s_pubs s) p) as [[p0 name src [|m0 t0|]]|] eqn:F; cbn [fst]; try exact J.
    apply find_pub_in in F. destruct F as [F1 F2]. cbn [p_no] in F2. subst p0. constructor; sb; try assumption.
    + apply nodup_map_filter. exact J1.
    + intros x H. apply filter_In in H. destruct H as [H1 H2]. rewrite has_topic_del.
      destruct (Z.eqb_spec name (p_name x)) as [E|]; [|apply J2; exact H1]. exfalso.
      assert (x = mk_pub p name src Closing).
      { apply (pub_name_unique _ _ _ J1 H1 F1). symmetry. exact E. }
      subst x. cbn [p_no] in H2. rewrite Z.eqb_refl in H2. discriminate H2.
    + intros k n c X. rewrite has_topic_del. rewrite (J3 _ _ _ X). destruct (name =? n); reflexivity.
Qed.

Lemma run_serial evs : forall s log s' log', serial s -> serial_adds s evs -> run_from s log evs = (s', log') -> serial s'.
Proof.
  induction evs as [|ev evs IH]; intros s log s' log' J D E; cbn [run_from] in E.
  - injection E as <- <-. exact J.
  - destruct D as [D1 D2]. destruct (step s ev) as [s1 o] eqn:S. cbn [fst] in D2.
    eapply IH; [|exact D2|exact E]. pose proof (step_serial s ev J D1) as X. rewrite S in X. exact X.
Qed.
