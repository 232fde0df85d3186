From Verif Require Import Lib.Base Rpc.Filters Rpc.FiltersSpec Rpc.FiltersProofs Rpc.FiltersRun.
Open Scope Z_scope.

(* the installed subscription of a kind is the one of its oldest filter *)
Definition old (s : api) : Prop := forall i k, In (i, k) (index s) -> exists f, oldest s k = Some f /\ f_id f = i.

Lemma find_filter {B} (p q : B -> bool) l x : List.find p l = Some x -> q x = true -> List.find p (filter q l) = Some x.
Proof.
  induction l as [|y l IH]; cbn; [discriminate|]. destruct (p y) eqn:P.
  - intros E Q. injection E as ->. rewrite Q. cbn. rewrite P. reflexivity.
  - intros E Q. destruct (q y); [cbn; rewrite P|]; apply IH; assumption.
Qed.
Lemma find_map_same (h : filt -> filt) k l x : (forall f, f_kind (h f) = f_kind f) ->
  List.find (fun f => kind_eqb (f_kind f) k) l = Some x -> List.find (fun f => kind_eqb (f_kind f) k) (map h l) = Some (h x).
Proof.
  intro H. induction l as [|y l IH]; cbn; [discriminate|]. rewrite H. destruct (kind_eqb (f_kind y) k); [intro E; injection E as ->; reflexivity|exact IH].
Qed.
Lemma find_app_l {B} (p : B -> bool) l l' x : List.find p l = Some x -> List.find p (l ++ l') = Some x.
Proof. induction l as [|y l IH]; cbn; [discriminate|]. destruct (p y); [auto|exact IH]. Qed.
Lemma find_app_r {B} (p : B -> bool) l x : (forall y, In y l -> p y = false) -> p x = true -> List.find p (l ++ [x]) = Some x.
Proof. induction l as [|y l IH]; cbn; intros H P; [rewrite P; reflexivity|]. rewrite (H y (or_introl eq_refl)). apply IH; auto. Qed.
Lemma filter_rev' {B} (p : B -> bool) l : rev (filter p l) = filter p (rev l).
Proof.
  induction l as [|x l IH]; [reflexivity|]. cbn [filter rev]. rewrite filter_app. cbn [filter]. destruct (p x); cbn [rev]; rewrite IH; [reflexivity|rewrite app_nil_r; reflexivity].
Qed.

Lemma oldest_in s k f : oldest s k = Some f -> In f (filters s) /\ f_kind f = k.
Proof. intro H. apply List.find_some in H. destruct H as [H E]. apply in_rev in H. apply kind_eqb_eq in E. auto. Qed.

Lemma old_map (h : filt -> filt) s : (forall f, f_id (h f) = f_id f /\ f_kind (h f) = f_kind f) -> old s ->
  old (mk_api (map h (filters s)) (index s) (topics s) (listen s)).
Proof.
  intros H O i k P. destruct (O i k P) as [f [F E]]. exists (h f). split; [|rewrite (proj1 (H f)); exact E].
  unfold oldest. cbn [filters]. rewrite <- map_rev. apply find_map_same; [intro x; apply H|exact F].
Qed.

Lemma old_remove s g : inv s -> old s -> In g (filters s) -> old (remove s g).
Proof.
  intros I O G i k P. destruct (remove_spec s g I G) as [I1 [F1 X1]]. apply X1 in P. destruct P as [P Q].
  destruct (O i k P) as [f [F E]]. exists f. split; [|exact E]. pose proof (oldest_in _ _ _ F) as [FI FK].
  assert (KP : In f (filters (remove s g))).
  { apply F1. split; [exact FI|]. intros [->|[K J]]; [congruence|]. rewrite K, FK in J. apply Q. f_equal; [|congruence]. exact (i_one s I _ _ _ P J). }
  revert KP. unfold oldest, remove, uninstall, without in *. cbn [index listen filters topics].
  destruct (existsb _ _); [|destruct (existsb _ _)]; cbn [filters]; rewrite ?filter_rev'; intro KP.
  - apply filter_In in KP. apply find_filter; [exact F|apply KP].
  - apply filter_In in KP. destruct KP as [KP K2]. apply filter_In in KP. apply find_filter; [apply find_filter; [exact F|apply KP]|exact K2].
  - apply filter_In in KP. apply find_filter; [exact F|apply KP].
Qed.

Lemma old_sweep : forall l s, inv s -> old s -> (forall g, In g l -> In g (filters s) \/ find (f_id g) (filters s) = None) -> old (sweep s l).
Proof.
  induction l as [|g l IH]; intros s I O H; [exact O|]. unfold sweep in *. cbn [fold_left]. destruct (H g (or_introl eq_refl)) as [G|G].
  - rewrite (in_find _ _ (i_nodup s I) G). destruct (remove_spec s g I G) as [I1 [F1 X1]]. apply IH; [exact I1|apply old_remove; assumption|].
    intros h Hh. destruct (find (f_id h) (filters (remove s g))) as [h'|] eqn:E; [left|right; reflexivity].
    apply find_some in E. destruct E as [E1 E2]. pose proof (proj1 (proj1 (F1 h') E1)) as E3.
    destruct (H h (or_intror Hh)) as [Q|Q]; [rewrite <- (same_id _ _ _ (i_nodup s I) E3 Q E2); exact E1|exfalso; exact (find_none _ _ Q h' E3 E2)].
  - rewrite G. apply IH; [exact I|exact O|intros h Hh; apply H; right; exact Hh].
Qed.

Section Steps.
Variables cap latest span : Z.
Notation step := (step cap latest span).
Notation run := (run cap latest span).

Lemma old_step s now e : inv s -> old s -> fine s e -> old (fst (step s now e)).
Proof.
  intros I O F. destruct e as [id k c ws|m ready|id|id|]; cbn [Filters.step fst fine] in *.
  - unfold new_filter. destruct (cap <=? _); [exact O|]. destruct (match k with KLogs => _ | _ => _ end); [exact O|].
    unfold subscribe. destruct (existsb (kind_eqb k) (topics s)) eqn:T; [|destruct ws; [|exact O]]; cbn [fst filters index topics listen].
    + intros i k' P. destruct (O i k' P) as [f [Q E]]. exists f. split; [|exact E]. unfold oldest. cbn [filters rev]. apply find_app_l. exact Q.
    + intros i k' [P|P].
      * injection P as <- <-. exists (mk_filt id k c (now + span) []). split; [|reflexivity]. unfold oldest. cbn [filters rev].
        apply find_app_r; [|cbn [f_kind]; apply kind_eqb_refl]. intros y Y. apply in_rev in Y. destruct (kind_eqb (f_kind y) k) eqn:K; [|reflexivity].
        apply kind_eqb_eq in K. pose proof (i_topic s I y Y) as Q. rewrite K in Q. apply topic_in in Q. congruence.
      * destruct (O i k' P) as [f [Q E]]. exists f. split; [|exact E]. unfold oldest. cbn [filters rev]. apply find_app_l. exact Q.
  - rewrite offer_eq by (intros ->; exact F). apply old_map; [|exact O]. intro f. split; apply heard_by_same.
  - unfold poll. destruct (find id (filters s)) as [g|] eqn:E; [|exact O]. cbn [fst].
    intros i k P. destruct (O i k P) as [f [Q E']]. apply find_some in E. destruct E as [Hg Eg].
    exists (if N.eqb (f_id f) id then mk_filt id (f_kind g) (f_crit g) (now + span) [] else f).
    split; [|destruct (N.eqb_spec (f_id f) id); cbn [f_id]; congruence].
    unfold oldest in *. cbn [filters]. unfold put. rewrite <- map_rev. cbn [f_id].
    assert (SK : forall x, In x (rev (filters s)) -> f_id x = id -> f_kind x = f_kind g).
    { intros x X Q'. apply in_rev in X. f_equal. apply (same_id _ _ _ (i_nodup s I) X Hg). congruence. }
    revert SK Q. generalize (rev (filters s)) as l. induction l as [|y l IHl]; cbn [List.find map]; [discriminate|]. intros SK Q.
    destruct (N.eqb_spec (f_id y) id) as [Y|Y]; cbn [f_kind].
    + rewrite (SK y (or_introl eq_refl) Y) in Q. destruct (kind_eqb (f_kind g) k).
      * injection Q as ->. rewrite (proj2 (N.eqb_eq _ _) Y). reflexivity.
      * apply IHl; [intros x X; apply SK; right; exact X|exact Q].
    + destruct (kind_eqb (f_kind y) k).
      * injection Q as ->. rewrite (proj2 (N.eqb_neq _ _) Y). reflexivity.
      * apply IHl; [intros x X; apply SK; right; exact X|exact Q].
  - destruct (find id (filters s)) as [g|] eqn:E; [|exact O]. cbn [fst]. apply find_some in E. apply old_remove; [exact I|exact O|apply E].
  - apply (old_sweep (filter (fun f => f_due f <=? now) (filters s)) s I O). intros g G. left. apply filter_In in G. apply G.
Qed.

Lemma old_run : forall es s, inv s -> old s -> good s es -> old (fst (run s es)).
Proof.
  induction es as [|[now e] es IH]; intros s I O G; [exact O|]. cbn [Filters.run]. pose proof (good_fine _ _ _ _ G) as F.
  pose proof (step_inv cap latest span s now e I F) as I1. pose proof (old_step s now e I O F) as O1. pose proof (good_step cap latest span s now e es I G) as G1.
  destruct (step s now e) as [s1 a]. cbn [fst] in *. specialize (IH s1 I1 O1 G1). destruct (run s1 es). exact IH.
Qed.

Lemma installed_oldest s g : inv s -> old s -> In g (filters s) -> (In (f_id g, f_kind g) (index s) <-> oldest s (f_kind g) = Some g).
Proof.
  intros I O G. split; intro H.
  - destruct (O _ _ H) as [f [F E]]. rewrite F. f_equal. apply (same_id _ _ _ (i_nodup s I)); [apply (oldest_in _ _ _ F)|exact G|exact E].
  - destruct (i_inst s I _ (i_topic s I g G)) as [j J]. destruct (O _ _ J) as [f [F E]]. rewrite F in H. injection H as ->. rewrite E. exact J.
Qed.
End Steps.
