From Verif Require Import Lib.Base Evmtx.Model Evmtx.Spec Evmtx.IndexSpec Evmtx.Logs Evmtx.PropsLogs Rpc.Filters Rpc.FiltersSpec Rpc.FiltersProofs.
Open Scope Z_scope.

Lemma filter_logs_matching c p ls : (forall l, p l = true <-> matching c l) ->
  filter_logs (c_from c) (c_to c) (c_addrs c) (c_topics c) ls = filter p ls.
Proof.
  intro P. unfold filter_logs. apply filter_ext. intro l.
  assert (B : forall a b : bool, (a = true <-> b = true) -> a = b) by (intros [] []; intuition congruence).
  apply B. rewrite P. unfold matching, wanted. rewrite !andb_true_iff, !negb_true_iff, topics_match_spec. split.
  - intros [[[[A1 A2] A3] A4] A5]. split; [|split; [|split; [|exact A5]]].
    + intros f E F. rewrite E in A1. rewrite (proj2 (Z.leb_le 0 f) F) in A1. cbn [andb] in A1. apply Z.ltb_ge in A1. exact A1.
    + intros t E F. rewrite E in A2. rewrite (proj2 (Z.leb_le 0 t) F) in A2. cbn [andb] in A2. apply Z.ltb_ge in A2. exact A2.
    + destruct (c_addrs c) as [|a l0]; [now left|right]. now apply existsb_in.
  - intros (A1 & A2 & A3 & A5). split; [split; [split; [split|]|]|exact A5].
    + destruct (c_from c) as [f|]; [|reflexivity]. destruct (Z.leb_spec 0 f); cbn [andb]; [|reflexivity]. apply Z.ltb_ge. apply A1; auto.
    + destruct (c_to c) as [f|]; [|reflexivity]. destruct (Z.leb_spec 0 f); cbn [andb]; [|reflexivity]. apply Z.ltb_ge. apply A2; auto.
    + destruct (c_addrs c) as [|a l0]; [reflexivity|]. destruct A3; [discriminate|]. now apply existsb_in.
    + apply Nat.leb_le. apply (wanted_length (c_addrs c)). split; assumption.
Qed.

Section Runs.
Variables cap latest span : Z.
Notation step := (step cap latest span).
Notation run := (run cap latest span).

Definition answer_of (id : N) (e : event) (a : answer) : list item :=
  match e, a with EPoll j, AItems x => if N.eqb j id then x else [] | _, _ => [] end.

Lemma polled_cons id now e es a l : polled id ((now, e) :: es) (a :: l) = answer_of id e a ++ polled id es l.
Proof. destruct e, a; reflexivity. Qed.

Lemma items_step s now e f f' p : inv s -> fine s e -> single (now, e) -> In f (filters s) ->
  (forall l, p l = true <-> matching (f_crit f) l) ->
  find (f_id f) (filters (fst (step s now e))) = Some f' ->
  f_kind f' = f_kind f /\ f_crit f' = f_crit f /\
  answer_of (f_id f) e (snd (step s now e)) ++ f_wait f' = f_wait f ++ owed p (f_kind f) (f_id f) (now, e).
Proof.
  intros I F SG H P E. apply find_some in E. destruct E as [E1 E2].
  assert (SAME : In f' (filters s) -> f' = f) by (intro Q; exact (same_id _ _ _ (i_nodup s I) Q H E2)).
  destruct e as [id k c ws|m ready|id|id|]; cbn [Filters.step fst snd fine single owed answer_of app] in *.
  - assert (f' = f).
    { unfold new_filter in E1. destruct (cap <=? _); [auto|]. destruct (match k with KLogs => _ | _ => _ end); [auto|].
      unfold subscribe in E1. destruct (existsb (kind_eqb k) (topics s)); [|destruct ws; [|auto]]; cbn [fst filters] in E1;
        (destruct E1 as [<-|E1]; [exfalso; cbn [f_id] in E2; exact (find_none _ _ F f H (eq_sym E2))|auto]). }
    subst f'. destruct (f_kind f); rewrite app_nil_r; auto.
  - rewrite offer_eq in E1 by (intros ->; exact F). cbn [filters] in E1. apply in_map_iff in E1. destruct E1 as [g [<- G]].
    destruct (heard_by_same s m ready g) as (A & B & C & _). rewrite A in E2. pose proof (same_id _ _ _ (i_nodup s I) G H E2). subst g.
    split; [exact B|]. split; [exact C|]. unfold heard_by. rewrite (heard_iff s m ready f I H).
    destruct (f_kind f), m as [h|[hs|]|[r|]]; cbn [msg_kind kind_eqb andb owed snd]; try contradiction; try (rewrite app_nil_r; reflexivity);
      (destruct (ready (f_id f)); cbn [take f_wait]; [|rewrite ?app_nil_r; reflexivity]); try reflexivity.
    + rewrite (filter_logs_matching _ p _ P). destruct r as [|l [|l' r]]; cbn [first_logs concat]; [reflexivity|rewrite app_nil_r; reflexivity|].
      cbn in SG. lia.
  - unfold poll in *. destruct (find id (filters s)) as [g|] eqn:E; cbn [fst snd filters] in *.
    + apply find_some in E. destruct E as [G Eg]. apply put_in in E1. destruct E1 as [x [X ->]]. cbn [f_id] in *.
      destruct (N.eqb_spec (f_id x) id) as [Q|Q].
      * cbn [f_id f_kind f_crit f_wait] in *. assert (g = f) by (apply (same_id _ _ _ (i_nodup s I) G H); congruence). subst g.
        rewrite E2, N.eqb_refl, app_nil_r. split; [reflexivity|]. split; [reflexivity|]. destruct (f_kind f); rewrite app_nil_r; reflexivity.
      * rewrite (SAME X) in *. destruct (N.eqb_spec id (f_id f)) as [Q'|Q']; [congruence|]. split; [reflexivity|]. split; [reflexivity|].
        destruct (f_kind f); rewrite app_nil_r; reflexivity.
    + rewrite (SAME E1). split; [reflexivity|]. split; [reflexivity|]. destruct (f_kind f); rewrite app_nil_r; reflexivity.
  - assert (f' = f).
    { destruct (find id (filters s)) as [g|] eqn:E; [|auto]. cbn [fst] in E1. apply find_some in E.
      apply SAME. exact (proj1 (proj1 (proj1 (proj2 (remove_spec s g I (proj1 E))) f') E1)). }
    subst f'. split; [reflexivity|]. split; [reflexivity|].
    destruct (find id (filters s)); cbn [snd]; destruct (f_kind f); rewrite app_nil_r; reflexivity.
  - assert (f' = f) by (apply SAME, (proj2 (tick_spec s now I)), E1). subst f'.
    split; [reflexivity|]. split; [reflexivity|]. destruct (f_kind f); rewrite app_nil_r; reflexivity.
Qed.

(* histories whose ids are new and whose results are readable *)
Definition good (s : api) (es : list (Z * event)) : Prop :=
  NoDup (created es) /\ Forall readable es /\ forall f, In f (filters s) -> ~ In (f_id f) (created es).

Lemma good_fine s now e es : good s ((now, e) :: es) -> fine s e.
Proof.
  intros (D & R & U). inversion R as [|? ? R1 R2]; subst. cbn [snd readable] in R1. unfold readable in R1. cbn [snd] in R1.
  destruct e as [id k c ws|[h|hs|[r|]] ready|id|id|]; cbn [fine]; try exact Logic.I; try exact R1.
  destruct (find id (filters s)) as [f|] eqn:E; [|reflexivity]. apply find_some in E. exfalso. apply (U f (proj1 E)). cbn [created]. left. symmetry. apply E.
Qed.

Lemma good_step s now e es : inv s -> good s ((now, e) :: es) -> good (fst (step s now e)) es.
Proof.
  intros I G. pose proof (good_fine _ _ _ _ G) as F. destruct G as (D & R & U). split; [|split].
  - destruct e; cbn [created] in D; try exact D. inversion D; assumption.
  - inversion R; assumption.
  - intros f H. destruct (ids_step cap latest span s now e f I F H) as [[g [Hg [E _]]]|[k [c [ws ->]]]].
    + rewrite <- E. intro Q. apply (U g Hg). destruct e; cbn [created]; try exact Q. right. exact Q.
    + cbn [created] in D. inversion D; assumption.
Qed.

Lemma run_inv : forall es s, inv s -> good s es -> inv (fst (run s es)).
Proof.
  induction es as [|[now e] es IH]; intros s I G; [exact I|]. cbn [Filters.run].
  pose proof (step_inv cap latest span s now e I (good_fine _ _ _ _ G)) as I1. pose proof (good_step s now e es I G) as G1.
  destruct (step s now e) as [s1 a]. cbn [fst] in *. specialize (IH s1 I1 G1). destruct (run s1 es) as [s2 l]. exact IH.
Qed.

Lemma run_app : forall es es' s, fst (run s (es ++ es')) = fst (run (fst (run s es)) es').
Proof.
  induction es as [|[now e] es IH]; intros es' s; [reflexivity|]. cbn [app Filters.run]. destruct (step s now e) as [s1 a].
  specialize (IH es' s1). destruct (run s1 (es ++ es')) as [s2 l], (run s1 es) as [s3 l']. exact IH.
Qed.

Lemma gone_stays : forall es s id, inv s -> good s es -> ~ In id (created es) -> find id (filters s) = None -> find id (filters (fst (run s es))) = None.
Proof.
  induction es as [|[now e] es IH]; intros s id I G NC FN; [exact FN|]. cbn [Filters.run].
  pose proof (good_fine _ _ _ _ G) as F. pose proof (step_inv cap latest span s now e I F) as I1. pose proof (good_step s now e es I G) as G1.
  assert (F1 : find id (filters (fst (step s now e))) = None).
  { destruct (find id (filters (fst (step s now e)))) as [f|] eqn:E; [|reflexivity]. apply find_some in E. destruct E as [E1 E2]. exfalso.
    destruct (ids_step cap latest span s now e f I F E1) as [[g [Hg [E _]]]|[k [c [ws ->]]]].
    - apply (find_none _ _ FN g Hg). congruence.
    - apply NC. cbn [created]. left. exact E2. }
  assert (NC1 : ~ In id (created es)) by (intro Q; apply NC; destruct e; cbn [created]; try exact Q; right; exact Q).
  destruct (step s now e) as [s1 a]. cbn [fst] in *. specialize (IH s1 id I1 G1 NC1 F1). destruct (run s1 es) as [s2 l]. exact IH.
Qed.

Lemma items_run : forall es s f f' p, inv s -> good s es -> Forall single es -> In f (filters s) -> ~ In (f_id f) (created es) ->
  (forall l, p l = true <-> matching (f_crit f) l) ->
  find (f_id f) (filters (fst (run s es))) = Some f' ->
  f_kind f' = f_kind f /\ f_crit f' = f_crit f /\
  polled (f_id f) es (snd (run s es)) ++ f_wait f' = f_wait f ++ flat_map (owed p (f_kind f) (f_id f)) es.
Proof.
  induction es as [|[now e] es IH]; intros s f f' p I G SG H NC P E.
  - cbn in E. rewrite (in_find _ _ (i_nodup s I) H) in E. injection E as <-. cbn [polled flat_map app Filters.run snd]. rewrite app_nil_r. auto.
  - cbn [Filters.run] in *. pose proof (good_fine _ _ _ _ G) as F. pose proof (step_inv cap latest span s now e I F) as I1.
    pose proof (good_step s now e es I G) as G1. inversion SG as [|? ? SG1 SG2]; subst.
    assert (NC1 : ~ In (f_id f) (created es)) by (intro Q; apply NC; destruct e; cbn [created]; try exact Q; right; exact Q).
    pose proof (items_step s now e f) as ST. pose proof (gone_stays es (fst (step s now e)) (f_id f) I1 G1 NC1) as GS.
    destruct (step s now e) as [s1 a]. cbn [fst snd] in *.
    destruct (find (f_id f) (filters s1)) as [f1|] eqn:E1.
    + destruct (ST f1 p I F SG1 H P eq_refl) as (K1 & C1 & W1). apply find_some in E1. destruct E1 as [H1 Q1].
      assert (NC2 : ~ In (f_id f1) (created es)) by (rewrite Q1; exact NC1).
      assert (P1 : forall l, p l = true <-> matching (f_crit f1) l) by (rewrite C1; exact P).
      assert (E' : find (f_id f1) (filters (fst (run s1 es))) = Some f').
      { rewrite Q1. destruct (run s1 es). exact E. }
      destruct (IH s1 f1 f' p I1 G1 SG2 H1 NC2 P1 E') as (K2 & C2 & W2).
      rewrite Q1, K1 in W2. destruct (run s1 es) as [s2 l]. cbn [snd fst] in *.
      split; [congruence|]. split; [congruence|].
      rewrite polled_cons, <- app_assoc, W2, app_assoc, W1, <- app_assoc. reflexivity.
    + specialize (GS eq_refl). destruct (run s1 es) as [s2 l]. cbn [fst] in *. congruence.
Qed.

(* who goes at a step *)
Lemma goes_iff s now e f : inv s -> fine s e -> In f (filters s) ->
  (find (f_id f) (filters (fst (step s now e))) = None <->
   exists g, In g (filters s) /\ asked_to_go now e g /\ (g = f \/ (f_kind g = f_kind f /\ In (f_id g, f_kind g) (index s)))).
Proof.
  intros I F H. pose proof (step_inv cap latest span s now e I F) as I1.
  assert (STAY : forall s', (exists x, In x (filters s') /\ f_id x = f_id f) -> find (f_id f) (filters s') <> None).
  { intros s' [x [X E]] Q. exact (find_none _ _ Q x X E). }
  destruct e as [id k c ws|m ready|id|id|]; cbn [Filters.step fst fine] in *; unfold asked_to_go.
  - split; [intro Q; exfalso; revert Q; apply STAY|intros [g [_ [[D|[D _]] _]]]; discriminate].
    exists f. split; [|reflexivity]. unfold new_filter. destruct (cap <=? _); [exact H|]. destruct (match k with KLogs => _ | _ => _ end); [exact H|].
    unfold subscribe. destruct (existsb (kind_eqb k) (topics s)); [right; exact H|destruct ws; [right; exact H|exact H]].
  - split; [intro Q; exfalso; revert Q; apply STAY|intros [g [_ [[D|[D _]] _]]]; discriminate].
    rewrite offer_eq by (intros ->; exact F). exists (heard_by s m ready f). split; [cbn [filters]; now apply in_map|apply heard_by_same].
  - split; [intro Q; exfalso; revert Q; apply STAY|intros [g [_ [[D|[D _]] _]]]; discriminate].
    unfold poll. destruct (find id (filters s)) as [g|] eqn:E; [|exists f; auto]. cbn [fst filters].
    exists (if N.eqb (f_id f) id then mk_filt id (f_kind g) (f_crit g) (now + span) [] else f). split.
    + apply put_in. exists f. cbn [f_id]. auto.
    + destruct (N.eqb_spec (f_id f) id); cbn [f_id]; congruence.
  - destruct (find id (filters s)) as [g|] eqn:E; cbn [fst] in *.
    + apply find_some in E. destruct E as [Hg Eg]. destruct (remove_spec s g I Hg) as [_ [F1 _]]. split.
      * intro Q. exists g. split; [exact Hg|]. split; [left; congruence|].
        destruct (has (f_id g) (f_kind g) (index s)) eqn:P.
        -- destruct (kind_dec (f_kind g) (f_kind f)) as [K|K]; [right; split; [exact K|now apply has_in]|].
           exfalso. apply (find_none _ _ Q f); [|reflexivity]. apply F1. split; [exact H|]. intros [->|[K' _]]; congruence.
        -- left. destruct (N.eq_dec (f_id g) (f_id f)) as [D|D]; [exact (same_id _ _ _ (i_nodup s I) Hg H D)|].
           exfalso. apply (find_none _ _ Q f); [|reflexivity]. apply F1. split; [exact H|]. intros [->|[_ K']]; [congruence|apply has_in in K'; congruence].
      * intros [g' [Hg' [A B]]]. assert (g' = g) by (destruct A as [A|[A _]]; [injection A as A; apply (same_id _ _ _ (i_nodup s I) Hg' Hg); congruence|discriminate]).
        subst g'. destruct (find (f_id f) (filters (remove s g))) as [f'|] eqn:Q; [|reflexivity]. exfalso. apply find_some in Q. destruct Q as [Q1 Q2].
        apply F1 in Q1. destruct Q1 as [Q1 Q3]. rewrite (same_id _ _ _ (i_nodup s I) Q1 H Q2) in Q3. exact (Q3 B).
    + split; [intro Q; exfalso; exact (find_none _ _ Q f H eq_refl)|].
      intros [g [Hg [[A|[A _]] _]]]; [|discriminate]. injection A as A. exfalso. exact (find_none _ _ E g Hg (eq_sym A)).
  - destruct (tick_spec s now I) as [_ F1]. split.
    + intro Q.
      assert (ND : ~ ~ (exists g, In g (filters s) /\ ((ETick = EUninstall (f_id g) \/ ETick = ETick /\ f_due g <= now)) /\ (g = f \/ (f_kind g = f_kind f /\ In (f_id g, f_kind g) (index s))))).
      { intro NX. apply (find_none _ _ Q f); [|reflexivity]. apply F1. split; [exact H|]. intros [g [D [G HH]]]. apply NX. exists g.
        split; [exact G|]. split; [right; auto|exact HH]. }
      (* the witness is found by looking at the list *)
      destruct (Exists_dec (fun g => f_due g <= now /\ (f_id g = f_id f \/ (f_kind g = f_kind f /\ In (f_id g, f_kind g) (index s)))) (filters s)) as [X|X].
      { intro g. destruct (Z_le_gt_dec (f_due g) now) as [D|D]; [|right; intros [D' _]; lia].
        destruct (N.eq_dec (f_id g) (f_id f)) as [E|E]; [left; auto|].
        destruct (kind_eqb (f_kind g) (f_kind f)) eqn:K; [apply kind_eqb_eq in K|right; intros [_ [E'|[K' _]]]; [contradiction|rewrite K', kind_eqb_refl in K; discriminate]].
        destruct (has (f_id g) (f_kind g) (index s)) eqn:P; [left; split; [exact D|right; split; [exact K|now apply has_in]]|].
        right. intros [_ [E'|[_ P']]]; [contradiction|apply has_in in P'; congruence]. }
      * apply Exists_exists in X. destruct X as [g [G [D HH]]]. exists g. split; [exact G|]. split; [right; auto|].
        destruct HH as [E|R]; [left; exact (same_id _ _ _ (i_nodup s I) G H E)|right; exact R].
      * exfalso. apply ND. intros [g [G [A HH]]]. apply X. apply Exists_exists. exists g. split; [exact G|].
        destruct A as [A|[_ D]]; [discriminate|]. split; [exact D|]. destruct HH as [->|R]; auto.
    + intros [g [G [A HH]]]. destruct A as [A|[_ D]]; [discriminate|].
      destruct (find (f_id f) (filters (tick s now))) as [f'|] eqn:Q; [|reflexivity]. exfalso. apply find_some in Q. destruct Q as [Q1 Q2].
      apply F1 in Q1. destruct Q1 as [Q1 Q3]. rewrite (same_id _ _ _ (i_nodup s I) Q1 H Q2) in Q3. apply Q3. exists g. auto.
Qed.

(* timers *)
Lemma last_use_snoc id es e : last_use id (es ++ [e]) =
  match snd e with ENew j _ _ _ => if N.eqb j id then Some (fst e) else last_use id es | EPoll j => if N.eqb j id then Some (fst e) else last_use id es | _ => last_use id es end.
Proof. unfold last_use. rewrite fold_left_app. reflexivity. Qed.

Lemma created_app es es' : created (es ++ es') = created es ++ created es'.
Proof. induction es as [|[t e] es IH]; [reflexivity|]. cbn [app created]. destruct e; rewrite IH; reflexivity. Qed.

Lemma good_prefix es es' : good api0 (es ++ es') -> good api0 es.
Proof.
  intros (D & R & U). rewrite created_app in D. split; [|split].
  - clear -D. induction (created es) as [|x l IHl]; [constructor|]. inversion D; subst. constructor; [|auto]. intro Q. apply H1. apply in_or_app. now left.
  - apply Forall_app in R. apply R.
  - intros g [].
Qed.

Lemma fine_last es now e : (forall f, In f (filters (fst (run api0 es))) -> In (f_id f) (created es)) -> good api0 (es ++ [(now, e)]) -> fine (fst (run api0 es)) e.
Proof.
  intros IH (D & R & U). apply Forall_app in R. destruct R as [_ R]. inversion R as [|? ? R1 _]; subst. unfold readable in R1. cbn [snd] in R1.
  destruct e as [id k c ws|[h|hs|[r|]] ready|id|id|]; cbn [fine]; try exact Logic.I; try exact R1.
  destruct (find id (filters (fst (run api0 es)))) as [g|] eqn:E; [|reflexivity]. exfalso. apply find_some in E. destruct E as [E1 E2].
  rewrite created_app in D. cbn [created] in D. apply NoDup_remove_2 in D. rewrite app_nil_r in D. apply D. rewrite <- E2. apply IH, E1.
Qed.

Lemma run_one s now e : fst (run s [(now, e)]) = fst (step s now e).
Proof. cbn [Filters.run]. destruct (step s now e). reflexivity. Qed.

Lemma ids_created es : good api0 es -> forall f, In f (filters (fst (run api0 es))) -> In (f_id f) (created es).
Proof.
  induction es as [|[now e] es IH] using rev_ind; [intros _ f []|]. intros G f H.
  specialize (IH (good_prefix _ _ G)). pose proof (fine_last es now e IH G) as F. pose proof (run_inv es api0 inv0 (good_prefix _ _ G)) as I.
  rewrite run_app, run_one in H. rewrite created_app, in_app_iff.
  destruct (ids_step cap latest span _ now e f I F H) as [[g [Hg [E _]]]|[k [c [ws ->]]]].
  - left. rewrite <- E. apply IH, Hg.
  - right. now left.
Qed.

Lemma due_run es : good api0 es -> forall f, In f (filters (fst (run api0 es))) -> exists t, last_use (f_id f) es = Some t /\ f_due f = t + span.
Proof.
  induction es as [|[now e] es IH] using rev_ind; [intros _ f []|]. intros G f H.
  pose proof (good_prefix _ _ G) as G1. specialize (IH G1). pose proof (fine_last es now e (ids_created es G1) G) as F.
  pose proof (run_inv es api0 inv0 G1) as I. rewrite run_app, run_one in H. rewrite last_use_snoc. cbn [snd fst].
  set (s := fst (run api0 es)) in *.
  destruct e as [id k c ws|m ready|id|id|]; cbn [Filters.step fst fine] in *.
  - unfold new_filter in H.
    assert (OLD : In f (filters s) -> exists t, (if N.eqb id (f_id f) then Some now else last_use (f_id f) es) = Some t /\ f_due f = t + span).
    { intro Q. destruct (N.eqb_spec id (f_id f)) as [->|n]; [exfalso; exact (find_none _ _ F f Q eq_refl)|apply IH, Q]. }
    destruct (cap <=? _); [auto|]. destruct (match k with KLogs => _ | _ => _ end); [auto|].
    unfold subscribe in H. destruct (existsb (kind_eqb k) (topics s)); [|destruct ws; [|auto]]; cbn [fst filters] in H;
      (destruct H as [<-|H]; [cbn [f_id f_due]; rewrite N.eqb_refl; eauto|auto]).
  - rewrite offer_eq in H by (intros ->; exact F). cbn [filters] in H. apply in_map_iff in H. destruct H as [g [<- Hg]].
    destruct (heard_by_same s m ready g) as (A & _ & _ & D). rewrite A, D. apply IH, Hg.
  - unfold poll in H. destruct (find id (filters s)) as [g|] eqn:E; cbn [fst filters] in H.
    + apply put_in in H. destruct H as [x [X ->]]. cbn [f_id]. destruct (N.eqb_spec (f_id x) id) as [Q|Q].
      * cbn [f_id f_due]. rewrite N.eqb_refl. eauto.
      * destruct (N.eqb_spec id (f_id x)); [congruence|]. apply IH, X.
    + destruct (N.eqb_spec id (f_id f)) as [->|n]; [exfalso; exact (find_none _ _ E f H eq_refl)|apply IH, H].
  - apply IH. destruct (find id (filters s)) as [g|] eqn:E; [|exact H]. cbn [fst] in H. apply find_some in E.
    exact (proj1 (proj1 (proj1 (proj2 (remove_spec s g I (proj1 E))) f) H)).
  - apply IH. apply (proj2 (tick_spec s now I)), H.
Qed.

Lemma put_length g l : length (put g l) = length l.
Proof. apply map_length. Qed.
Lemma filter_len {B} (p : B -> bool) l : (length (filter p l) <= length l)%nat.
Proof. induction l as [|x l IH]; cbn; [lia|]. destruct (p x); cbn; lia. Qed.
Lemma remove_len s g : (length (filters (remove s g)) <= length (filters s))%nat.
Proof.
  unfold remove, uninstall. cbn [index listen filters topics]. destruct (existsb _ _); [apply filter_len|]. destruct (existsb _ _); cbn [filters].
  - etransitivity; [apply filter_len|apply filter_len].
  - apply filter_len.
Qed.
Lemma sweep_len : forall l s, (length (filters (sweep s l)) <= length (filters s))%nat.
Proof.
  induction l as [|g l IH]; intro s; [cbn; lia|]. unfold sweep in *. cbn [fold_left]. destruct (find _ _); [|apply IH].
  etransitivity; [apply IH|apply remove_len].
Qed.
Lemma cap_step s now e : 0 <= cap -> Z.of_nat (length (filters s)) <= cap -> Z.of_nat (length (filters (fst (step s now e)))) <= cap.
Proof.
  intros C L. destruct e as [id k c ws|m ready|id|id|]; cbn [Filters.step fst].
  - unfold new_filter. destruct (Z.leb_spec cap (Z.of_nat (length (filters s)))); [exact L|]. destruct (match k with KLogs => _ | _ => _ end); [exact L|].
    unfold subscribe. destruct (existsb (kind_eqb k) (topics s)); [|destruct ws; [|exact L]]; cbn [fst filters length]; lia.
  - unfold offer. cbn [filters]. rewrite map_length. exact L.
  - unfold poll. destruct (find id (filters s)); [|exact L]. cbn [fst filters]. rewrite put_length. exact L.
  - destruct (find id (filters s)) as [g|]; [|exact L]. cbn [fst]. pose proof (remove_len s g). lia.
  - pose proof (sweep_len (filter (fun f => f_due f <=? now) (filters s)) s) as Q.
    change (tick s now) with (sweep s (filter (fun f => f_due f <=? now) (filters s))). lia.
Qed.
Lemma cap_run : forall es s, 0 <= cap -> Z.of_nat (length (filters s)) <= cap -> Z.of_nat (length (filters (fst (run s es)))) <= cap.
Proof.
  induction es as [|[now e] es IH]; intros s C L; [exact L|]. cbn [Filters.run]. pose proof (cap_step s now e C L) as L1.
  destruct (step s now e) as [s1 a]. cbn [fst] in L1. specialize (IH s1 C L1). destruct (run s1 es). exact IH.
Qed.
End Runs.
