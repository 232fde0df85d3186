From Verif Require Import Lib.Base Evmtx.Model Evmtx.Spec Evmtx.IndexSpec Evmtx.Logs Evmtx.PropsLogs Rpc.Filters Rpc.FiltersSpec.
Open Scope Z_scope.

Lemma kind_eqb_eq a b : kind_eqb a b = true <-> a = b.
Proof. destruct a, b; cbn; split; congruence. Qed.
Lemma kind_eqb_refl a : kind_eqb a a = true.
Proof. destruct a; reflexivity. Qed.
Lemma kind_dec (a b : kind) : a = b \/ a <> b.
Proof. destruct a, b; (left; reflexivity) || (right; discriminate). Qed.
Lemma topic_in k l : existsb (kind_eqb k) l = true <-> In k l.
Proof.
  rewrite existsb_exists. split; [intros [x [H E]]; apply kind_eqb_eq in E; now subst|].
  intro H. exists k. split; [exact H|apply kind_eqb_refl].
Qed.
Lemma has_in id k l : has id k l = true <-> In (id, k) l.
Proof.
  unfold has. rewrite existsb_exists. split.
  - intros [[i j] [H E]]. cbn [fst snd] in E. apply andb_true_iff in E. destruct E as [E1 E2]. apply N.eqb_eq in E1. apply kind_eqb_eq in E2. now subst.
  - intro H. exists (id, k). split; [exact H|]. cbn [fst snd]. rewrite N.eqb_refl, kind_eqb_refl. reflexivity.
Qed.
Lemma drop_pair_in id k l p : In p (filter (fun q : N * kind => negb (N.eqb (fst q) id && kind_eqb (snd q) k)) l) <-> In p l /\ p <> (id, k).
Proof.
  rewrite filter_In. destruct p as [i j]. cbn [fst snd]. rewrite negb_true_iff. split; intros [H E]; (split; [exact H|]).
  - intro Q. injection Q as -> ->. rewrite N.eqb_refl, kind_eqb_refl in E. discriminate.
  - destruct (N.eqb_spec i id) as [->|n]; cbn [andb]; [|reflexivity]. destruct (kind_eqb j k) eqn:K; [|reflexivity].
    apply kind_eqb_eq in K. subst. contradiction.
Qed.

Lemma find_some id l f : find id l = Some f -> In f l /\ f_id f = id.
Proof. intro H. apply find_some in H. destruct H as [H E]. apply N.eqb_eq in E. auto. Qed.
Lemma find_none id l : find id l = None -> forall f, In f l -> f_id f <> id.
Proof. intros H f I E. pose proof (find_none _ _ H f I) as Q. cbn in Q. subst. rewrite N.eqb_refl in Q. discriminate. Qed.
Lemma in_find l f : NoDup (map f_id l) -> In f l -> find (f_id f) l = Some f.
Proof.
  intros D H. destruct (find (f_id f) l) as [g|] eqn:E; [|exfalso; exact (find_none _ _ E f H eq_refl)].
  apply find_some in E. destruct E as [H' E]. f_equal.
  induction l as [|x l IH]; [contradiction|]. cbn in D. inversion D as [|? ? N1 N2]; subst.
  destruct H as [->|H], H' as [->|H']; auto.
  - exfalso. apply N1. rewrite <- E. now apply in_map.
  - exfalso. apply N1. rewrite E. now apply in_map.
Qed.
Lemma same_id l f g : NoDup (map f_id l) -> In f l -> In g l -> f_id f = f_id g -> f = g.
Proof. intros D F G E. pose proof (in_find l f D F) as A. rewrite E, (in_find l g D G) in A. congruence. Qed.

Lemma nodup_filter (p : filt -> bool) l : NoDup (map f_id l) -> NoDup (map f_id (filter p l)).
Proof.
  induction l as [|x l IH]; cbn; [auto|]. intro D. inversion D as [|? ? N1 N2]; subst. destruct (p x); [|auto].
  cbn. constructor; [|auto]. intro H. apply N1. apply in_map_iff in H. destruct H as [y [E Y]]. apply filter_In in Y. rewrite <- E. apply in_map, Y.
Qed.

Record inv (s : api) : Prop := mk_inv {
  i_nodup : NoDup (map f_id (filters s));
  i_topic : forall f, In f (filters s) -> In (f_kind f) (topics s);
  i_hear : forall f, In f (filters s) -> In (f_id f, f_kind f) (listen s);
  i_real : forall i k, In (i, k) (listen s) -> exists f, In f (filters s) /\ f_id f = i /\ f_kind f = k;
  i_inst : forall k, In k (topics s) -> exists i, In (i, k) (index s);
  i_one : forall i j k, In (i, k) (index s) -> In (j, k) (index s) -> i = j;
  i_live : forall i k, In (i, k) (index s) -> In k (topics s) /\ exists f, In f (filters s) /\ f_id f = i /\ f_kind f = k
}.

Lemma inv0 : inv api0.
Proof. constructor; cbn; intros; try contradiction. constructor. Qed.

Definition hits (s : api) (g f : filt) : Prop := g = f \/ (f_kind g = f_kind f /\ In (f_id g, f_kind g) (index s)).

Lemma without_in id l f : In f (without id l) <-> In f l /\ f_id f <> id.
Proof. unfold without. rewrite filter_In, negb_true_iff, N.eqb_neq. reflexivity. Qed.

Lemma remove_spec s g : inv s -> In g (filters s) ->
  inv (remove s g) /\ (forall f, In f (filters (remove s g)) <-> In f (filters s) /\ ~ hits s g f) /\
  (forall p, In p (index (remove s g)) <-> In p (index s) /\ p <> (f_id g, f_kind g)).
Proof.
  intros I G. unfold remove, uninstall. cbn [index listen filters topics].
  set (index1 := filter _ (index s)). set (listen1 := filter _ (listen s)).
  assert (X1 : forall p, In p index1 <-> In p (index s) /\ p <> (f_id g, f_kind g)) by (intro p; apply drop_pair_in).
  assert (L1 : forall p, In p listen1 <-> In p (listen s) /\ p <> (f_id g, f_kind g)) by (intro p; apply drop_pair_in).
  pose proof (i_topic s I g G) as TG. destruct (i_inst s I _ TG) as [j J].
  assert (S1 : forall f, In f (filters s) -> f_id f = f_id g -> f = g) by (intros f F E; exact (same_id _ _ _ (i_nodup s I) F G E)).
  destruct (N.eq_dec j (f_id g)) as [->|n].
  - (* g is the installed one: all filters of its kind go *)
    assert (E1 : existsb (fun p => kind_eqb (snd p) (f_kind g)) index1 = false).
    { destruct (existsb _ index1) eqn:E; [|reflexivity]. apply existsb_exists in E. destruct E as [[i k] [P Q]]. cbn [snd] in Q.
      apply kind_eqb_eq in Q. subst k. apply X1 in P. destruct P as [P Q]. exfalso. apply Q. f_equal. exact (i_one s I _ _ _ P J). }
    rewrite E1, (proj2 (topic_in _ _) TG).
    assert (F1 : forall f, In f (filter (fun f => negb (has (f_id f) (f_kind g) (listen s))) (without (f_id g) (filters s))) <->
                           In f (filters s) /\ f_kind f <> f_kind g).
    { intro f. rewrite filter_In, without_in, negb_true_iff. split.
      - intros [[H E] K]. split; [exact H|]. intro Q. pose proof (i_hear s I f H) as HH. rewrite Q in HH. apply has_in in HH. congruence.
      - intros [H K]. split; [split; [exact H|intro Q; apply K; rewrite (S1 f H Q); reflexivity]|].
        destruct (has _ _ _) eqn:Q; [|reflexivity]. apply has_in in Q. destruct (i_real s I _ _ Q) as [f' [F' [E' K']]].
        rewrite <- K' in K. exfalso. apply K. f_equal. symmetry. exact (same_id _ _ _ (i_nodup s I) F' H E'). }
    assert (T1 : forall k, In k (filter (fun t => negb (kind_eqb (f_kind g) t)) (topics s)) <-> In k (topics s) /\ k <> f_kind g).
    { intro k. rewrite filter_In, negb_true_iff. split; intros [H K]; (split; [exact H|]).
      - intros ->. rewrite kind_eqb_refl in K. discriminate.
      - destruct (kind_eqb (f_kind g) k) eqn:Q; [|reflexivity]. apply kind_eqb_eq in Q. congruence. }
    assert (L2 : forall i k, In (i, k) (filter (fun p => negb (kind_eqb (snd p) (f_kind g))) listen1) <-> In (i, k) (listen s) /\ k <> f_kind g).
    { intros i k. rewrite filter_In, L1. cbn [snd]. rewrite negb_true_iff. split.
      - intros [[H _] K]. split; [exact H|]. intros ->. rewrite kind_eqb_refl in K. discriminate.
      - intros [H K]. split; [split; [exact H|congruence]|]. destruct (kind_eqb k (f_kind g)) eqn:Q; [|reflexivity]. apply kind_eqb_eq in Q. congruence. }
    split; [|split].
    + constructor; cbn [filters index topics listen].
      * apply nodup_filter, nodup_filter, (i_nodup s I).
      * intros f H. apply F1 in H. apply T1. split; [apply (i_topic s I), H|apply H].
      * intros f H. apply F1 in H. apply L2. split; [apply (i_hear s I), H|apply H].
      * intros i k H. apply L2 in H. destruct H as [H K]. destruct (i_real s I _ _ H) as [f [F [E Q]]]. exists f. split; [|auto].
        apply F1. split; [exact F|congruence].
      * intros k H. apply T1 in H. destruct H as [H K]. destruct (i_inst s I _ H) as [i P]. exists i. apply X1. split; [exact P|congruence].
      * intros i i' k H H'. apply X1 in H, H'. exact (i_one s I _ _ _ (proj1 H) (proj1 H')).
      * intros i k H. apply X1 in H. destruct H as [H K]. destruct (i_live s I _ _ H) as [T [f [F [E Q]]]].
        assert (KK : k <> f_kind g). { intros ->. apply K. f_equal. exact (i_one s I _ _ _ H J). }
        split; [apply T1; auto|]. exists f. split; [apply F1; split; [exact F|congruence]|auto].
    + intro f. cbn [filters]. rewrite F1. unfold hits. split; intros [H K]; (split; [exact H|]).
      * intros [->|[Q _]]; congruence.
      * intro Q. apply K. right. split; [congruence|exact J].
    + exact X1.
  - (* another one is installed: only g goes *)
    assert (E1 : existsb (fun p => kind_eqb (snd p) (f_kind g)) index1 = true).
    { apply existsb_exists. exists (j, f_kind g). split; [apply X1; split; [exact J|congruence]|]. cbn [snd]. apply kind_eqb_refl. }
    rewrite E1. split; [|split].
    + constructor; cbn [filters index topics listen].
      * apply nodup_filter, (i_nodup s I).
      * intros f H. apply without_in in H. apply (i_topic s I), H.
      * intros f H. apply without_in in H. apply L1. split; [apply (i_hear s I), H|]. destruct H. congruence.
      * intros i k H. apply L1 in H. destruct H as [H K]. destruct (i_real s I _ _ H) as [f [F [E Q]]]. exists f. split; [|auto].
        apply without_in. split; [exact F|]. intro Q'. pose proof (S1 f F Q'). subst f. apply K. congruence.
      * intros k H. destruct (i_inst s I _ H) as [i P]. exists i. apply X1. split; [exact P|]. intro Q. apply n. injection Q as -> ->.
        exact (i_one s I _ _ _ J P).
      * intros i i' k H H'. apply X1 in H, H'. exact (i_one s I _ _ _ (proj1 H) (proj1 H')).
      * intros i k H. apply X1 in H. destruct H as [H K]. destruct (i_live s I _ _ H) as [T [f [F [E Q]]]]. split; [exact T|].
        exists f. split; [|auto]. apply without_in. split; [exact F|]. intro Q'. pose proof (S1 f F Q'). subst f. apply K. congruence.
    + intro f. cbn [filters]. rewrite without_in. unfold hits. split; intros [H K]; (split; [exact H|]).
      * intros [->|[_ Q]]; [congruence|]. apply n. exact (i_one s I _ _ _ J Q).
      * intro Q. apply K. left. symmetry. exact (S1 f H Q).
    + exact X1.
Qed.

Definition sweep (s : api) (l : list filt) : api :=
  fold_left (fun s f => match find (f_id f) (filters s) with Some _ => remove s f | None => s end) l s.

Lemma sweep_spec : forall l s, inv s -> (forall g, In g l -> In g (filters s) \/ find (f_id g) (filters s) = None) ->
  inv (sweep s l) /\
  (forall f, In f (filters (sweep s l)) <-> In f (filters s) /\ ~ exists g, In g l /\ In g (filters s) /\ hits s g f).
Proof.
  induction l as [|g l IH]; intros s I H.
  - split; [exact I|]. intro f. cbn. split; [intro F; split; [exact F|intros [g [[] _]]]|intros [F _]; exact F].
  - unfold sweep in *. cbn [fold_left]. destruct (H g (or_introl eq_refl)) as [G|G].
    + rewrite (in_find _ _ (i_nodup s I) G). destruct (remove_spec s g I G) as [I1 [F1 X1]].
      destruct (IH (remove s g) I1) as [I2 F2].
      { intros h Hh. destruct (H h (or_intror Hh)) as [Q|Q].
        - destruct (find (f_id h) (filters (remove s g))) as [h'|] eqn:E; [left|right; reflexivity].
          apply find_some in E. destruct E as [E1 E2]. pose proof (proj1 (proj1 (F1 h') E1)) as E3.
          rewrite <- (same_id _ _ _ (i_nodup s I) E3 Q E2). exact E1.
        - right. destruct (find (f_id h) (filters (remove s g))) as [h'|] eqn:E; [|reflexivity].
          apply find_some in E. destruct E as [E1 E2]. exfalso. exact (find_none _ _ Q h' (proj1 (proj1 (F1 h') E1)) E2). }
      split; [exact I2|]. intro f. rewrite F2, F1. split.
      * intros [[F K] Q]. split; [exact F|]. intros [h [[<-|Hh] [Hf HH]]]; [contradiction|].
        assert (D : In h (filters (remove s g)) \/ hits s g h).
        { destruct (kind_dec (f_kind g) (f_kind h)) as [E|E].
          - destruct (has (f_id g) (f_kind g) (index s)) eqn:P; [right; right; split; [exact E|apply has_in; exact P]|].
            destruct (N.eq_dec (f_id g) (f_id h)) as [E'|E']; [right; left; exact (same_id _ _ _ (i_nodup s I) G Hf E')|].
            left. apply F1. split; [exact Hf|]. intros [->|[_ Q']]; [congruence|]. apply has_in in Q'. congruence.
          - left. apply F1. split; [exact Hf|]. intros [->|[Q' _]]; congruence. }
        destruct D as [D|[<-|[D1 D2]]]; [|contradiction|].
        -- apply Q. exists h. split; [exact Hh|]. split; [exact D|]. destruct HH as [->|[H1 H2]]; [left; reflexivity|right]. split; [exact H1|].
           apply X1. split; [exact H2|]. intro E. pose proof (proj2 (proj1 (F1 h) D)) as N1. apply N1. left. apply (same_id _ _ _ (i_nodup s I) G Hf). congruence.
        -- apply K. right. split; [|exact D2]. destruct HH as [<-|[H1 _]]; congruence.
      * intros [F Q]. split; [split; [exact F|]|].
        -- intro K. apply Q. exists g. split; [left; reflexivity|]. auto.
        -- intros [h [Hh [Hf HH]]]. apply Q. exists h. split; [right; exact Hh|]. split; [apply (F1 h), Hf|].
           destruct HH as [->|[H1 H2]]; [left; reflexivity|right]. split; [exact H1|]. apply X1, H2.
    + rewrite G. destruct (IH s I) as [I2 F2]; [intros h Hh; apply H; right; exact Hh|]. split; [exact I2|].
      intro f. rewrite F2. split; intros [F Q]; (split; [exact F|]).
      * intros [h [[<-|Hh] [Hf HH]]]; [exact (find_none _ _ G g Hf eq_refl)|]. apply Q. exists h. auto.
      * intros [h [Hh [Hf HH]]]. apply Q. exists h. split; [right; exact Hh|auto].
Qed.

Section Steps.
Variables cap latest span : Z.
Notation step := (step cap latest span).
Notation run := (run cap latest span).

Lemma tick_spec s now : inv s -> inv (tick s now) /\
  (forall f, In f (filters (tick s now)) <-> In f (filters s) /\ ~ exists g, f_due g <= now /\ In g (filters s) /\ hits s g f).
Proof.
  intro I. change (tick s now) with (sweep s (filter (fun f => f_due f <=? now) (filters s))).
  destruct (sweep_spec (filter (fun f => f_due f <=? now) (filters s)) s I) as [I1 F1].
  { intros g G. left. apply filter_In in G. apply G. }
  split; [exact I1|]. intro f. rewrite F1. split; intros [F Q]; (split; [exact F|]); intros [g G]; apply Q; exists g.
  - destruct G as [D [G H]]. rewrite filter_In, Z.leb_le. auto.
  - destruct G as [D [G H]]. apply filter_In in D. rewrite Z.leb_le in D. split; [apply D|auto].
Qed.

Lemma map_ids (h : filt -> filt) l : (forall f, f_id (h f) = f_id f) -> map f_id (map h l) = map f_id l.
Proof. intro H. rewrite map_map. apply map_ext. exact H. Qed.

(* a map that keeps ids and kinds keeps the invariant *)
Lemma inv_map (h : filt -> filt) s : (forall f, In f (filters s) -> f_id (h f) = f_id f /\ f_kind (h f) = f_kind f) -> inv s ->
  inv (mk_api (map h (filters s)) (index s) (topics s) (listen s)).
Proof.
  intros H I. constructor; cbn [filters index topics listen].
  - rewrite map_map, (map_ext_in _ f_id); [apply I|]. intros f F. apply H, F.
  - intros f F. apply in_map_iff in F. destruct F as [x [<- F]]. rewrite (proj2 (H x F)). apply (i_topic s I), F.
  - intros f F. apply in_map_iff in F. destruct F as [x [<- F]]. rewrite (proj1 (H x F)), (proj2 (H x F)). apply (i_hear s I), F.
  - intros i k P. destruct (i_real s I _ _ P) as [f [F [E K]]]. exists (h f). split; [now apply in_map|]. rewrite (proj1 (H f F)), (proj2 (H f F)). auto.
  - apply I.
  - apply I.
  - intros i k P. destruct (i_live s I _ _ P) as [T [f [F [E K]]]]. split; [exact T|]. exists (h f). split; [now apply in_map|]. rewrite (proj1 (H f F)), (proj2 (H f F)). auto.
Qed.

Definition heard_by (s : api) (m : msg) (ready : N -> bool) (f : filt) : filt :=
  if heard s m ready f then match take f m with Some l => mk_filt (f_id f) (f_kind f) (f_crit f) (f_due f) (f_wait f ++ l) | None => f end else f.

Lemma offer_eq s m ready : m <> MLogs None -> offer s m ready = mk_api (map (heard_by s m ready) (filters s)) (index s) (topics s) (listen s).
Proof. intro n. unfold offer. destruct m as [h|hs|[r|]]; [reflexivity|reflexivity|reflexivity|contradiction]. Qed.

Lemma heard_by_same s m ready f : f_id (heard_by s m ready f) = f_id f /\ f_kind (heard_by s m ready f) = f_kind f /\
  f_crit (heard_by s m ready f) = f_crit f /\ f_due (heard_by s m ready f) = f_due f.
Proof. unfold heard_by. destruct (heard s m ready f); [|auto]. destruct (take f m); auto. Qed.

Lemma heard_iff s m ready f : inv s -> In f (filters s) -> heard s m ready f = kind_eqb (msg_kind m) (f_kind f) && ready (f_id f).
Proof.
  intros I F. unfold heard. destruct (kind_eqb (msg_kind m) (f_kind f)) eqn:K.
  - apply kind_eqb_eq in K. rewrite K, (proj2 (topic_in _ _) (i_topic s I f F)), (proj2 (has_in _ _ _) (i_hear s I f F)). reflexivity.
  - destruct (has (f_id f) (msg_kind m) (listen s)) eqn:P; [|now rewrite andb_false_r]. exfalso. apply has_in in P.
    destruct (i_real s I _ _ P) as [g [G [E Q]]]. rewrite (same_id _ _ _ (i_nodup s I) G F E) in Q. rewrite Q, kind_eqb_refl in K. discriminate.
Qed.

Lemma put_in g l f : In f (put g l) <-> exists x, In x l /\ f = if N.eqb (f_id x) (f_id g) then g else x.
Proof. unfold put. rewrite in_map_iff. split; intros [x [A B]]; exists x; auto. Qed.

Lemma poll_inv s now id : inv s -> inv (fst (poll span s now id)).
Proof.
  intro I. unfold poll. destruct (find id (filters s)) as [f|] eqn:E; [|exact I]. cbn [fst].
  apply (inv_map _ s); [|exact I]. intros x X. cbn [f_id]. destruct (N.eqb_spec (f_id x) id) as [Q|Q]; [|auto]. cbn [f_id f_kind].
  apply find_some in E. destruct E as [F E]. split; [congruence|]. f_equal. apply (same_id _ _ _ (i_nodup s I) F X). congruence.
Qed.

Lemma new_inv s now id k c ws : inv s -> find id (filters s) = None -> inv (fst (new_filter cap latest span s now id k c ws)).
Proof.
  intros I FN. unfold new_filter. destruct (cap <=? _); [exact I|]. destruct (match k with KLogs => _ | _ => _ end); [exact I|].
  pose proof (find_none _ _ FN) as FR.
  unfold subscribe. destruct (existsb (kind_eqb k) (topics s)) eqn:T; [|destruct ws; [|exact I]]; cbn [fst filters index topics listen].
  - apply topic_in in T. constructor; cbn [filters index topics listen map f_id].
    + constructor; [|apply I]. intro H. apply in_map_iff in H. destruct H as [f [E F]]. exact (FR f F E).
    + intros f [<-|F]; [exact T|apply (i_topic s I), F].
    + intros f [<-|F]; [left; reflexivity|right; apply (i_hear s I), F].
    + intros i k' [Q|Q]; [injection Q as <- <-; eexists; split; [left; reflexivity|auto]|].
      destruct (i_real s I _ _ Q) as [f [F R]]. exists f. split; [right; exact F|exact R].
    + apply I.
    + apply I.
    + intros i k' Q. destruct (i_live s I _ _ Q) as [T' [f [F R]]]. split; [exact T'|]. exists f. split; [right; exact F|exact R].
  - assert (NT : ~ In k (topics s)) by (intro Q; apply topic_in in Q; congruence).
    constructor; cbn [filters index topics listen map f_id].
    + constructor; [|apply I]. intro H. apply in_map_iff in H. destruct H as [f [E F]]. exact (FR f F E).
    + intros f [<-|F]; [left; reflexivity|right; apply (i_topic s I), F].
    + intros f [<-|F]; [left; reflexivity|right; apply (i_hear s I), F].
    + intros i k' [Q|Q]; [injection Q as <- <-; eexists; split; [left; reflexivity|auto]|].
      destruct (i_real s I _ _ Q) as [f [F R]]. exists f. split; [right; exact F|exact R].
    + intros k' [<-|Q]; [exists id; left; reflexivity|]. destruct (i_inst s I _ Q) as [i P]. exists i. right. exact P.
    + intros i j k' [P|P] [Q|Q].
      * congruence.
      * injection P as <- <-. exfalso. apply NT. apply (i_live s I _ _ Q).
      * injection Q as <- <-. exfalso. apply NT. apply (i_live s I _ _ P).
      * exact (i_one s I _ _ _ P Q).
    + intros i k' [Q|Q]; [injection Q as <- <-; split; [left; reflexivity|eexists; split; [left; reflexivity|auto]]|].
      destruct (i_live s I _ _ Q) as [T' [f [F R]]]. split; [right; exact T'|]. exists f. split; [right; exact F|exact R].
Qed.

(* one event that is readable and gives no id that is in use *)
Definition fine (s : api) (e : event) : Prop :=
  match e with ENew id _ _ _ => find id (filters s) = None | EMsg (MLogs None) _ => False | _ => True end.

Lemma step_inv s now e : inv s -> fine s e -> inv (fst (step s now e)).
Proof.
  intros I F. destruct e as [id k c ws|m ready|id|id|]; cbn [Filters.step fst fine] in *.
  - apply new_inv; assumption.
  - rewrite offer_eq by (intros ->; exact F). apply inv_map; [|exact I]. intros f _. split; apply heard_by_same.
  - apply poll_inv, I.
  - destruct (find id (filters s)) as [f|] eqn:E; [|exact I]. cbn [fst]. apply find_some in E. apply remove_spec; [exact I|apply E].
  - apply tick_spec, I.
Qed.

(* ids only come from creations *)
Lemma ids_step s now e f : inv s -> fine s e -> In f (filters (fst (step s now e))) ->
  (exists g, In g (filters s) /\ f_id g = f_id f /\ f_kind g = f_kind f /\ f_crit g = f_crit f) \/
  (exists k c ws, e = ENew (f_id f) k c ws).
Proof.
  intros I F H. destruct e as [id k c ws|m ready|id|id|]; cbn [Filters.step fst fine] in *.
  - unfold new_filter in H. destruct (cap <=? _); [left; exists f; auto|]. destruct (match k with KLogs => _ | _ => _ end); [left; exists f; auto|].
    unfold subscribe in H. destruct (existsb (kind_eqb k) (topics s)); [|destruct ws; [|left; exists f; auto]]; cbn [fst filters] in H;
      (destruct H as [<-|H]; [right; cbn [f_id]; eauto|left; exists f; auto]).
  - rewrite offer_eq in H by (intros ->; exact F). cbn [filters] in H. apply in_map_iff in H. destruct H as [g [<- G]]. left. exists g.
    destruct (heard_by_same s m ready g) as (A & B & C & _). auto.
  - unfold poll in H. destruct (find id (filters s)) as [g|] eqn:E; [|left; exists f; auto]. cbn [fst filters] in H. apply put_in in H.
    destruct H as [x [X ->]]. cbn [f_id]. left. destruct (N.eqb_spec (f_id x) id) as [Q|Q]; [|exists x; auto].
    cbn [f_id f_kind f_crit]. apply find_some in E. exists g. destruct E. auto.
  - destruct (find id (filters s)) as [g|] eqn:E; [|left; exists f; auto]. cbn [fst] in H. apply find_some in E.
    left. exists f. split; [|auto]. exact (proj1 (proj1 (proj1 (proj2 (remove_spec s g I (proj1 E))) f) H)).
  - left. exists f. split; [|auto]. apply (proj2 (tick_spec s now I)), H.
Qed.
End Steps.
