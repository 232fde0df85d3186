(* Histories of bridge validator sets, broken into small steps. *)
From Coq Require Import Sorting.Sorted.
From Verif Require Import Lib.Base Lib.Zmap Hyperion.Valset Hyperion.ValsetSpec Hyperion.ValsetProofs.
Open Scope Z_scope.

(* ------------------------------------------------------------------ *)
(* Sorted association lists                                            *)

Lemma filter_keys_sorted {V} (f : Z * V -> bool) m : zsorted m -> zsorted (filter f m).
Proof.
  unfold zsorted, zkeys. induction m as [|x m IH]; intro S; [exact S|]. cbn [map] in S. inversion S as [|? ? S' F]; subst. cbn [filter].
  destruct (f x); [|exact (IH S')]. cbn [map]. constructor; [exact (IH S')|].
  rewrite Forall_forall in *. intros k Hk. apply F. apply in_map_iff in Hk as (y & <- & Hy). apply filter_In in Hy as [Hy _]. apply in_map. exact Hy.
Qed.
Lemma filter_get {V} (f : Z * V -> bool) m k : zsorted m ->
  zget (filter f m) k = match zget m k with Some v => if f (k, v) then Some v else None | None => None end.
Proof.
  intro S. pose proof (filter_keys_sorted f m S) as S'. destruct (zget (filter f m) k) as [v|] eqn:E.
  - apply zget_in in E. apply filter_In in E as [E1 E2]. rewrite (in_zget m k v S E1), E2. reflexivity.
  - destruct (zget m k) as [v|] eqn:G; [|reflexivity]. destruct (f (k, v)) eqn:F; [|reflexivity]. exfalso.
    apply zget_in in G. assert (In (k, v) (filter f m)) as I by (apply filter_In; auto). apply (in_zget _ _ _ S') in I. congruence.
Qed.

Definition keyed (b : bridge) : Prop :=
  zsorted (b_sets b) /\ forall n v, zget (b_sets b) n = Some v -> v_nonce v = n.

Lemma unslashed_in b max v : keyed b ->
  (In v (unslashed b max) <-> zget (b_sets b) (v_nonce v) = Some v /\ b_slashed b < v_nonce v < max).
Proof.
  intros [S K]. unfold unslashed. rewrite filter_In. unfold zvals. rewrite in_map_iff. split.
  - intros [([k w] & E & I) L]. cbn [snd] in E. subst w. apply filter_In in I as [I J]. cbn [fst] in J.
    apply (in_zget _ _ _ S) in I. pose proof (K _ _ I). subst k. split; [exact I|]. lia.
  - intros [G L]. split; [|lia]. exists (v_nonce v, v). split; [reflexivity|]. apply filter_In. cbn [fst]. split; [apply zget_in; exact G|lia].
Qed.
Lemma sorted_filter {A} (R : A -> A -> Prop) f l : StronglySorted R l -> StronglySorted R (filter f l).
Proof.
  induction 1 as [|x l S IH F]; [constructor|]. cbn [filter]. destruct (f x); [|exact IH]. constructor; [exact IH|].
  rewrite Forall_forall in *. intros y Hy. apply filter_In in Hy as [Hy _]. auto.
Qed.
Lemma unslashed_sorted b max : keyed b -> StronglySorted Z.lt (map v_nonce (unslashed b max)).
Proof.
  intros [S K]. unfold unslashed. set (m := filter _ (b_sets b)).
  assert (zsorted m) as Sm by (apply filter_keys_sorted; exact S).
  assert (forall x, In x m -> v_nonce (snd x) = fst x) as Km.
  { intros [n v] I. apply filter_In in I as [I _]. cbn. apply K. apply in_zget; assumption. }
  clearbody m. clear S K. unfold zsorted, zkeys, zvals in *. induction m as [|[n v] m IH]; [constructor|]. cbn [map fst snd] in *.
  inversion Sm as [|? ? S' F]; subst. cbn [filter]. specialize (IH S' (fun x H => Km x (or_intror H))).
  destruct (b_slashed b <? v_nonce v); [|exact IH]. cbn [map]. constructor; [exact IH|]. rewrite Forall_forall in *.
  intros k Hk. apply in_map_iff in Hk as (w & <- & Hw). apply filter_In in Hw as [Hw _]. apply in_map_iff in Hw as ([n' w'] & <- & Hw). cbn [snd].
  pose proof (Km _ (or_intror Hw)) as E'. pose proof (Km (n, v) (or_introl eq_refl)) as E. cbn [fst snd] in E, E'. rewrite E, E'. apply F. apply (in_map fst) in Hw. exact Hw.
Qed.
Lemma last_max l d : StronglySorted Z.lt l -> (forall x, In x l -> d < x) -> (forall x, In x (d :: l) -> x <= last l d) /\ In (last l d) (d :: l).
Proof.
  induction l as [|a l IH] in d |- *; intros S D; [cbn; split; [intros x [?|[]]; lia|auto]|].
  inversion S as [|? ? S' F]; subst. rewrite Forall_forall in F. destruct l as [|b l].
  - cbn. split; [|auto]. intros x [?|[?|[]]]; [subst; specialize (D a (or_introl eq_refl)); lia|lia].
  - change (last (a :: b :: l) d) with (last (b :: l) d). replace (last (b :: l) d) with (last (b :: l) a).
    2:{ clear. revert a d b. induction l as [|c l IH]; intros; [reflexivity|]. change (last (c :: l) a = last (c :: l) d). apply IH. }
    destruct (IH a S' F) as [A B]. split; [|right; exact B].
    intros x [E|H]; [subst x; specialize (D a (or_introl eq_refl)); specialize (A a (or_introl eq_refl)); lia|apply A; exact H].
Qed.

(* ------------------------------------------------------------------ *)
(* Small steps                                                         *)

Section Code.
Variable rank acc_of : Z -> Z.

Inductive micro :=
| MReset (p : cparams)
| MSlash (p : cparams) (bonded : list sval) (unbonding : list uval)
| MCreate (p : cparams) (bonded : list sval)
| MPrune (w h : Z)
| MTick
| MMsg (o : op).

Definition mstep (s : st) (m : micro) : res (st * list event) :=
  match m with
  | MReset p => Ok (reset p s, [])
  | MSlash p b u => Ok (slash acc_of p b u s)
  | MCreate p b => create rank p b s
  | MPrune w h => Ok (prune_one w h s)
  | MTick => Ok (mk_st (s_height s + 1) (s_unbond s) (s_br s), [])
  | MMsg o => match step rank acc_of s o with Ok x => Ok x | Err => Ok (s, []) | Panic => Panic end
  end.
Fixpoint mrun (s : st) (ms : list micro) : res (st * list event) :=
  match ms with
  | [] => Ok (s, [])
  | m :: r =>
      match mstep s m with
      | Ok (s1, e1) => match mrun s1 r with Ok (s2, e2) => Ok (s2, e1 ++ e2) | Err => Err | Panic => Panic end
      | Err => Err
      | Panic => Panic
      end
  end.
Definition chain_micros (all : list cparams) b u (p : cparams) : list micro :=
  MReset p :: MSlash p b u :: MCreate p b :: map (MPrune (p_window p)) (map p_h all).
Definition micros (o : op) : list micro :=
  match o with
  | OBlock b u ps => flat_map (chain_micros ps b u) ps ++ [MTick]
  | _ => [MMsg o]
  end.

Lemma mrun_app s a b : mrun s (a ++ b) =
  match mrun s a with Ok (s1, e1) => match mrun s1 b with Ok (s2, e2) => Ok (s2, e1 ++ e2) | Err => Err | Panic => Panic end | Err => Err | Panic => Panic end.
Proof.
  revert s. induction a as [|m a IH]; intro s.
  - cbn [app mrun]. destruct (mrun s b) as [[s2 e2]| |]; reflexivity.
  - cbn [app mrun]. destruct (mstep s m) as [[s1 e1]| |]; [|reflexivity|reflexivity]. rewrite IH.
    destruct (mrun s1 a) as [[s2 e2]| |]; [|reflexivity|reflexivity]. destruct (mrun s2 b) as [[s3 e3]| |]; [|reflexivity|reflexivity].
    rewrite app_assoc. reflexivity.
Qed.
Lemma prune_micro w hs s : mrun s (map (MPrune w) hs) = Ok (prune w hs s).
Proof.
  revert s. induction hs as [|h hs IH]; intro s; [reflexivity|]. cbn [map mrun mstep prune]. destruct (prune_one w h s) as [s1 e1].
  rewrite IH. destruct (prune w hs s1) as [s2 e2]. reflexivity.
Qed.
Lemma chain_micro all b u p s : chain_end rank acc_of all b u p s = mrun s (chain_micros all b u p).
Proof.
  unfold chain_end, chain_micros. cbn [mrun mstep]. destruct (slash acc_of p b u (reset p s)) as [s1 e1].
  destruct (create rank p b s1) as [[s2 e2]| |]; [|reflexivity|reflexivity]. rewrite prune_micro.
  destruct (prune (p_window p) (map p_h all) s2) as [s3 e3]. reflexivity.
Qed.
Lemma chains_micro all b u ps s : chains_end rank acc_of all b u ps s = mrun s (flat_map (chain_micros all b u) ps).
Proof.
  revert s. induction ps as [|p ps IH]; intro s; [reflexivity|]. cbn [chains_end flat_map]. rewrite mrun_app, chain_micro.
  destruct (mrun s (chain_micros all b u p)) as [[s1 e1]| |]; [|reflexivity|reflexivity]. rewrite IH. reflexivity.
Qed.
Lemma current_no_err b l : current rank b l <> Err.
Proof. unfold current. destruct (registered b l); [discriminate|]. destruct (_ =? 0); discriminate. Qed.
Lemma mstep_no_err s m : mstep s m <> Err.
Proof.
  destruct m; cbn [mstep]; try discriminate.
  - unfold create. pose proof (current_no_err (s_br s (p_h p)) bonded). destruct (current rank (s_br s (p_h p)) bonded) as [ms| |]; [|congruence|discriminate].
    destruct (match zget _ _ with Some v => _ | None => true end); [destruct ms|]; discriminate.
  - destruct (step rank acc_of s o); discriminate.
Qed.
Lemma mrun_no_err ms : forall s, mrun s ms <> Err.
Proof.
  induction ms as [|m ms IH]; intro s; [discriminate|]. cbn [mrun]. pose proof (mstep_no_err s m). destruct (mstep s m) as [[s1 e1]| |]; [|congruence|discriminate].
  specialize (IH s1). destruct (mrun s1 ms) as [[s2 e2]| |]; [discriminate|congruence|discriminate].
Qed.
Lemma step_micro s o :
  mrun s (micros o) = match step rank acc_of s o with Ok x => Ok x | Err => Ok (s, []) | Panic => Panic end.
Proof.
  destruct o; try (cbn [micros mrun mstep]; destruct (step rank acc_of s _) as [[s1 e1]| |]; [rewrite app_nil_r|rewrite ?app_nil_r|]; reflexivity).
  cbn [micros step]. rewrite mrun_app, chains_micro. pose proof (mrun_no_err (flat_map (chain_micros ps bonded unbonding) ps) s).
  destruct (mrun s (flat_map (chain_micros ps bonded unbonding) ps)) as [[s1 e1]| |]; [|congruence|reflexivity].
  cbn [mrun mstep]. rewrite !app_nil_r. reflexivity.
Qed.
Lemma run_micro s os : run rank acc_of s os = mrun s (flat_map micros os).
Proof.
  revert s. induction os as [|o os IH]; intro s; [reflexivity|]. cbn [run flat_map]. rewrite mrun_app, step_micro.
  destruct (step rank acc_of s o) as [[s1 e1]| |]; [rewrite IH; reflexivity| |reflexivity].
  rewrite IH. destruct (mrun s (flat_map micros os)) as [[s2 e2]| |]; reflexivity.
Qed.

(* an invariant of states together with what happened so far *)
Lemma mrun_inv (I : st -> list event -> Prop) (okm : micro -> Prop) :
  (forall s evs m s' e, okm m -> I s evs -> mstep s m = Ok (s', e) -> I s' (evs ++ e)) ->
  forall ms s evs s' e, Forall okm ms -> I s evs -> mrun s ms = Ok (s', e) -> I s' (evs ++ e).
Proof.
  intro St. induction ms as [|m ms IH]; intros s evs s' e F H R; cbn [mrun] in R.
  - injection R as <- <-. rewrite app_nil_r. exact H.
  - inversion F; subst. destruct (mstep s m) as [[s1 e1]| |] eqn:E1; [|discriminate|discriminate].
    destruct (mrun s1 ms) as [[s2 e2]| |] eqn:E2; [|discriminate|discriminate]. injection R as <- <-. rewrite app_assoc.
    eapply IH; [assumption| |exact E2]. eapply St; eassumption.
Qed.

(* ------------------------------------------------------------------ *)
(* What each small step does to one bridge                             *)

Lemma put_same s h b : s_br (put s h b) h = b.
Proof. cbn. rewrite Z.eqb_refl. reflexivity. Qed.
Lemma put_other s h b x : x <> h -> s_br (put s h b) x = s_br s x.
Proof. intro N. cbn. destruct (Z.eqb_spec x h); [contradiction|reflexivity]. Qed.

(* ordinary messages leave the sets alone and produce nothing *)
Definition is_msg (o : op) : Prop := match o with OBlock _ _ _ => False | _ => True end.
Lemma msg_frame s o s' e h : is_msg o -> step rank acc_of s o = Ok (s', e) ->
  e = [] /\ s_height s' = s_height s /\ b_sets (s_br s' h) = b_sets (s_br s h) /\ b_latest (s_br s' h) = b_latest (s_br s h) /\
  b_slashed (s_br s' h) = b_slashed (s_br s h).
Proof.
  intro M. destruct o; cbn [is_msg] in M; try contradiction; cbn [step]; intro R;
    repeat match type of R with context [match ?x with _ => _ end] => destruct x; try discriminate end;
    try (injection R as <- <-; cbn; repeat split; destruct (h =? _) eqn:E; try reflexivity; apply Z.eqb_eq in E; subst; reflexivity);
    injection R as <- <-; repeat split.
Qed.

Definition all_keyed (s : st) : Prop := forall h, keyed (s_br s h).

Lemma create_cases p b s s' e : create rank p b s = Ok (s', e) ->
  exists ms, current rank (s_br s (p_h p)) b = Ok ms /\
   ((s' = s /\ e = [] /\
     (ms = [] \/ exists v, zget (b_sets (s_br s (p_h p))) (b_latest (s_br s (p_h p))) = Some v /\ s_unbond s <> s_height s /\ big_change ms (v_members v) = false))
   \/ (exists v, v = mk_set (s_height s + p_offset p) (s_height s) ms (p_reward p) (p_token p) /\
        s' = put s (p_h p) (store_set (s_br s (p_h p)) v) /\ e = [EvSet (p_h p) v (v_nonce v + p_offset p)] /\ ms <> [] /\
        (zget (b_sets (s_br s (p_h p))) (b_latest (s_br s (p_h p))) = None \/ s_unbond s = s_height s \/
         exists w, zget (b_sets (s_br s (p_h p))) (b_latest (s_br s (p_h p))) = Some w /\ big_change ms (v_members w) = true))).
Proof.
  unfold create. destruct (current rank (s_br s (p_h p)) b) as [ms| |]; [|discriminate|discriminate]. intro R. exists ms. split; [reflexivity|].
  destruct (zget (b_sets (s_br s (p_h p))) (b_latest (s_br s (p_h p)))) as [v|] eqn:G.
  - destruct (Z.eqb_spec (s_unbond s) (s_height s)) as [U|U]; cbn [orb] in R.
    + destruct ms as [|x ms]; [left; injection R as <- <-; auto|]. right. eexists. split; [reflexivity|]. injection R as <- <-.
      repeat split; try discriminate. auto.
    + destruct (big_change ms (v_members v)) eqn:B.
      * destruct ms as [|x ms]; [left; injection R as <- <-; auto|]. right. eexists. split; [reflexivity|]. injection R as <- <-.
        repeat split; try discriminate. right. right. exists v. auto.
      * left. injection R as <- <-. split; [reflexivity|split; [reflexivity|]]. right. exists v. auto.
  - destruct ms as [|x ms]; [left; injection R as <- <-; auto|]. right. eexists. split; [reflexivity|]. injection R as <- <-.
    repeat split; try discriminate. auto.
Qed.

Lemma store_keyed b v : keyed b -> keyed (store_set b v).
Proof.
  intros [S K]. split; cbn [store_set with_sets b_sets]; [apply zset_sorted; exact S|]. intros n w. rewrite zget_zset.
  destruct (Z.eqb_spec (v_nonce v) n); [intro H; injection H as <-; assumption|apply K].
Qed.

Lemma mstep_keyed s m s' e : all_keyed s -> mstep s m = Ok (s', e) -> match m with MMsg o => is_msg o | _ => True end -> all_keyed s'.
Proof.
  intros A R M h. specialize (A h) as B. destruct m; cbn [mstep] in R.
  - injection R as <- <-. unfold reset. destruct (p_reset p); [|exact B]. destruct (Z.eq_dec h (p_h p)) as [->|N].
    + rewrite put_same. split; cbn; [constructor|discriminate].
    + rewrite put_other by exact N. exact B.
  - unfold slash in R. destruct (p_window p <? s_height s); injection R as <- <-; [|exact B]. destruct (Z.eq_dec h (p_h p)) as [->|N].
    + rewrite put_same. exact B.
    + rewrite put_other by exact N. exact B.
  - apply create_cases in R as (ms & _ & [(-> & _)|(v & _ & -> & _)]); [exact B|]. destruct (Z.eq_dec h (p_h p)) as [->|N].
    + rewrite put_same. apply store_keyed. exact B.
    + rewrite put_other by exact N. exact B.
  - unfold prune_one in R. destruct (b_observed (s_br s h0)) as [n|]; [|injection R as <- <-; exact B].
    destruct (s_height s <? w); injection R as <- <-; [exact B|]. destruct (Z.eq_dec h h0) as [->|N].
    + rewrite put_same. destruct B as [S K]. split; cbn [with_sets b_sets]; [apply filter_keys_sorted; exact S|].
      intros k v. rewrite filter_get by exact S. destruct (zget (b_sets (s_br s h0)) k) eqn:G; [|discriminate].
      destruct (negb _); [|discriminate]. intro H. injection H as <-. apply K. exact G.
    + rewrite put_other by exact N. exact B.
  - injection R as <- <-. exact B.
  - destruct (step rank acc_of s o) as [[s1 e1]| |] eqn:E; [|injection R as <- <-; exact B|discriminate]. injection R as <- <-.
    destruct (msg_frame s o s1 e1 h M E) as (_ & _ & Es & _). unfold keyed. rewrite Es. exact B.
Qed.

Definition plain_micro (m : micro) : Prop := match m with MMsg o => is_msg o | _ => True end.
Lemma micros_plain o : Forall plain_micro (micros o).
Proof.
  destruct o; try (repeat constructor; fail). cbn [micros]. apply Forall_app. split; [|repeat constructor].
  rewrite Forall_forall. intros m H. apply in_flat_map in H as (p & _ & H). unfold chain_micros in H.
  destruct H as [H|[H|[H|H]]]; [subst m; exact Logic.I..|]. apply in_map_iff in H as (h & <- & _). exact Logic.I.
Qed.
Lemma all_micros_plain os : Forall plain_micro (flat_map micros os).
Proof. induction os as [|o os IH]; [constructor|]. cbn [flat_map]. apply Forall_app. split; [apply micros_plain|exact IH]. Qed.

Lemma init_keyed h0 : all_keyed (init h0).
Proof. intro h. split; cbn; [constructor|discriminate]. Qed.
Lemma mrun_keyed ms s s' e : Forall plain_micro ms -> all_keyed s -> mrun s ms = Ok (s', e) -> all_keyed s'.
Proof.
  intros F A R. refine (mrun_inv (fun s _ => all_keyed s) plain_micro _ ms s [] s' e F A R).
  intros s1 evs m s2 e2 P K E. eapply mstep_keyed; eassumption.
Qed.
Lemma run_keyed h0 os s evs : run rank acc_of (init h0) os = Ok (s, evs) -> all_keyed s.
Proof. rewrite run_micro. apply mrun_keyed; [apply all_micros_plain|apply init_keyed]. Qed.

(* ------------------------------------------------------------------ *)
(* Judgements                                                          *)

Lemma judged_app h a b : judged h (a ++ b) = judged h a ++ judged h b.
Proof. unfold judged. apply flat_map_app. Qed.
Lemma created_app h a b : created h (a ++ b) = created h a ++ created h b.
Proof. unfold created. apply flat_map_app. Qed.

Lemma slash_events p bonded unb s s' e : slash acc_of p bonded unb s = (s', e) ->
  (forall h, h <> p_h p -> judged h e = []) /\ (forall h, created h e = []) /\
  judged (p_h p) e = (if p_window p <? s_height s then map v_nonce (unslashed (s_br s (p_h p)) (s_height s - p_window p)) else []) /\
  (forall h, h <> p_h p -> s_br s' h = s_br s h) /\ s_height s' = s_height s /\ s_unbond s' = s_unbond s /\
  s_br s' (p_h p) = with_slashed (s_br s (p_h p)) (last (judged (p_h p) e) (b_slashed (s_br s (p_h p)))).
Proof.
  unfold slash. destruct (p_window p <? s_height s).
  - set (b := s_br s (p_h p)). set (l := unslashed b (s_height s - p_window p)). clearbody l. intro R. injection R as <- <-.
    assert (forall h n ops, judged h (map (EvSlash (p_h p) n) ops) = []) as J0.
    { intros h n ops. induction ops as [|o ops IH]; [reflexivity|exact IH]. }
    assert (forall h n ops, created h (map (EvSlash (p_h p) n) ops) = []) as C0.
    { intros h n ops. induction ops as [|o ops IH]; [reflexivity|exact IH]. }
    assert (judged (p_h p) (flat_map (fun v => map (EvSlash (p_h p) (v_nonce v)) (punished acc_of p b bonded unb v) ++ [EvJudged (p_h p) (v_nonce v) (v_height v) (s_height s)]) l) = map v_nonce l) as J.
    { induction l as [|v l IH]; [reflexivity|]. cbn [flat_map map]. rewrite !judged_app, J0, IH. cbn [judged flat_map app]. rewrite Z.eqb_refl. reflexivity. }
    repeat apply conj.
    + intros h N. clear J. induction l as [|v l IH]; [reflexivity|]. cbn [flat_map]. rewrite !judged_app, J0, IH. cbn [judged flat_map app].
      destruct (Z.eqb_spec (p_h p) h); [congruence|reflexivity].
    + intros h. clear J. induction l as [|v l IH]; [reflexivity|]. cbn [flat_map]. rewrite !created_app, C0, IH. reflexivity.
    + exact J.
    + intros h N. apply put_other. exact N.
    + reflexivity.
    + reflexivity.
    + rewrite put_same, J. reflexivity.
  - intro R. injection R as <- <-. repeat split. cbn [judged flat_map last]. destruct (s_br s (p_h p)); reflexivity.
Qed.

Lemma prune_events w h s s' e : prune_one w h s = (s', e) ->
  (forall x, judged x e = []) /\ (forall x, created x e = []) /\ s_height s' = s_height s /\ s_unbond s' = s_unbond s /\
  (forall x, x <> h -> s_br s' x = s_br s x) /\
  (s_br s' h = s_br s h \/ exists f, s_br s' h = with_sets (s_br s h) (filter f (b_sets (s_br s h))) (b_latest (s_br s h))).
Proof.
  unfold prune_one. destruct (b_observed (s_br s h)) as [n|]; [destruct (s_height s <? w)|]; intro R; injection R as <- <-;
    try (repeat split; auto; fail).
  repeat apply conj; try reflexivity.
  - intro x. induction (filter _ (b_sets (s_br s h))) as [|y l IH]; [reflexivity|exact IH].
  - intro x. induction (filter _ (b_sets (s_br s h))) as [|y l IH]; [reflexivity|exact IH].
  - intros x N. apply put_other. exact N.
  - right. eexists. rewrite put_same. reflexivity.
Qed.

Lemma sorted_app (l k : list Z) : StronglySorted Z.lt l -> StronglySorted Z.lt k -> (forall x y, In x l -> In y k -> x < y) -> StronglySorted Z.lt (l ++ k).
Proof.
  induction 1 as [|a l S IH F]; intros K H; [exact K|]. cbn [app]. constructor.
  - apply IH; [exact K|]. intros x y Hx Hy. apply H; [right; exact Hx|exact Hy].
  - apply Forall_app. split; [exact F|]. apply Forall_forall. intros y Hy. apply H; [left; reflexivity|exact Hy].
Qed.

Definition judge_inv (h : Z) (s : st) (evs : list event) : Prop :=
  all_keyed s /\ StronglySorted Z.lt (judged h evs) /\ forall n, In n (judged h evs) -> n <= b_slashed (s_br s h).

Lemma judge_step h s evs m s' e : plain_micro m -> judge_inv h s evs -> mstep s m = Ok (s', e) -> judge_inv h s' (evs ++ e).
Proof.
  intros P (K & S & L) R. split; [eapply mstep_keyed; eassumption|]. rewrite judged_app. destruct m; cbn [mstep] in R.
  - injection R as <- <-. cbn [judged flat_map]. rewrite app_nil_r. split; [exact S|]. unfold reset. destruct (p_reset p); [|exact L].
    destruct (Z.eq_dec h (p_h p)) as [->|N]; [rewrite put_same; exact L|rewrite put_other by exact N; exact L].
  - injection R as R. destruct (slash_events _ _ _ _ _ _ R) as (J & _ & Jp & Fr & _ & _ & B). destruct (Z.eq_dec h (p_h p)) as [->|N].
    + rewrite B. cbn [with_slashed b_slashed]. destruct (p_window p <? s_height s); rewrite Jp.
      * set (b := s_br s (p_h p)) in *. pose proof (unslashed_sorted b (s_height s - p_window p) (K _)) as U.
        assert (forall x, In x (map v_nonce (unslashed b (s_height s - p_window p))) -> b_slashed b < x) as G.
        { intros x Hx. apply in_map_iff in Hx as (v & <- & Hv). apply (unslashed_in b _ v (K (p_h p))) in Hv as [_ Hv]. exact (proj1 Hv). }
        destruct (last_max _ _ U G) as [M _]. split.
        -- apply sorted_app; [exact S|exact U|]. intros x y Hx Hy. specialize (L x Hx). specialize (G y Hy). lia.
        -- intros n Hn. apply in_app_iff in Hn as [Hn|Hn]; [specialize (L n Hn); specialize (M _ (or_introl eq_refl)); lia|apply M; right; exact Hn].
      * rewrite app_nil_r. split; [exact S|exact L].
    + rewrite (J h N), app_nil_r, (Fr h N). auto.
  - apply create_cases in R as (ms & _ & [(-> & -> & _)|(v & _ & -> & -> & _)]); cbn [judged flat_map]; rewrite ?app_nil_r; (split; [exact S|]); [exact L|].
    destruct (Z.eq_dec h (p_h p)) as [->|N]; [rewrite put_same; exact L|rewrite put_other by exact N; exact L].
  - injection R as R. destruct (prune_events _ _ _ _ _ R) as (J & _ & _ & _ & Fr & Pr). rewrite J, app_nil_r. split; [exact S|].
    destruct (Z.eq_dec h h0) as [->|N]; [|rewrite (Fr h N); exact L]. destruct Pr as [->|[f ->]]; exact L.
  - injection R as <- <-. cbn [judged flat_map]. rewrite app_nil_r. auto.
  - destruct (step rank acc_of s o) as [[s1 e1]| |] eqn:E; [|injection R as <- <-; cbn [judged flat_map]; rewrite app_nil_r; auto|discriminate].
    injection R as <- <-. destruct (msg_frame s o s1 e1 h P E) as (-> & _ & _ & _ & ->). cbn [judged flat_map]. rewrite app_nil_r. auto.
Qed.

Lemma judged_once h0 os s evs h : run rank acc_of (init h0) os = Ok (s, evs) -> StronglySorted Z.lt (judged h evs).
Proof.
  rewrite run_micro. intro R. refine (proj1 (proj2 (mrun_inv (judge_inv h) plain_micro (fun s evs m s' e => judge_step h s evs m s' e) _ (init h0) [] s evs (all_micros_plain os) _ R))).
  split; [apply init_keyed|]. split; [constructor|]. intros n [].
Qed.

(* ------------------------------------------------------------------ *)
(* Small steps that do not concern bridge h, except by pruning it      *)

Definition away (h : Z) (m : micro) : Prop :=
  match m with
  | MReset p | MSlash p _ _ | MCreate p _ => p_h p <> h
  | MPrune _ _ => True
  | MTick => False
  | MMsg _ => False
  end.
Definition only_pruned (b b' : bridge) : Prop :=
  exists f, b' = with_sets b (filter f (b_sets b)) (b_latest b).

Lemma filter_true {A} (l : list A) : filter (fun _ => true) l = l.
Proof. induction l as [|x l IH]; [reflexivity|]. cbn. rewrite IH. reflexivity. Qed.
Lemma filter_filter {A} (f g : A -> bool) l : filter g (filter f l) = filter (fun x => f x && g x) l.
Proof. induction l as [|x l IH]; [reflexivity|]. cbn. destruct (f x); cbn; rewrite IH; reflexivity. Qed.
Lemma only_pruned_refl b : only_pruned b b.
Proof. exists (fun _ => true). rewrite filter_true. destruct b; reflexivity. Qed.
Lemma only_pruned_trans a b c : only_pruned a b -> only_pruned b c -> only_pruned a c.
Proof. intros [f ->] [g ->]. exists (fun x => f x && g x). cbn. rewrite filter_filter. reflexivity. Qed.

Definition of_bridge (h : Z) (e : event) : Prop :=
  match e with EvSet h' _ _ | EvJudged h' _ _ _ | EvSlash h' _ _ => h' = h | EvPruned _ _ => False end.

Lemma away_step h s m s' e : away h m -> mstep s m = Ok (s', e) ->
  only_pruned (s_br s h) (s_br s' h) /\ s_height s' = s_height s /\ s_unbond s' = s_unbond s /\ (forall x, In x e -> ~ of_bridge h x).
Proof.
  intros A R. destruct m; cbn [away] in A; try contradiction; cbn [mstep] in R.
  - injection R as <- <-. unfold reset. destruct (p_reset p); [rewrite put_other by congruence|]; (split; [apply only_pruned_refl|]); (split; [reflexivity|]); (split; [reflexivity|]); intros x [].
  - injection R as R. pose proof (slash_events _ _ _ _ _ _ R) as (_ & _ & _ & Fr & Eh & Eu & _). rewrite Fr by congruence.
    split; [apply only_pruned_refl|]. split; [exact Eh|]. split; [exact Eu|]. intros x Hx. unfold slash in R. destruct (p_window p <? s_height s).
    + injection R as _ <-. apply in_flat_map in Hx as (v & _ & Hx). apply in_app_iff in Hx as [Hx|[Hx|[]]].
      * apply in_map_iff in Hx as (o & <- & _). exact A.
      * subst x. exact A.
    + injection R as _ <-. destruct Hx.
  - apply create_cases in R as (ms & _ & [(-> & -> & _)|(v & _ & -> & -> & _)]).
    + split; [apply only_pruned_refl|]. repeat split. intros x [].
    + rewrite put_other by congruence. split; [apply only_pruned_refl|]. repeat split. intros x [Hx|[]]. subst x. exact A.
  - injection R as R. pose proof (prune_events _ _ _ _ _ R) as (_ & _ & Eh & Eu & Fr & Pr). split; [|split; [exact Eh|split; [exact Eu|]]].
    + destruct (Z.eq_dec h h0) as [->|N]; [|rewrite (Fr h N); apply only_pruned_refl]. destruct Pr as [->|[f ->]]; [apply only_pruned_refl|exists f; reflexivity].
    + intros x Hx. unfold prune_one in R. destruct (b_observed (s_br s h0)); [destruct (s_height s <? w)|]; injection R as _ <-; try destruct Hx.
      apply in_map_iff in Hx as (y & <- & _). cbn. tauto.
Qed.
Lemma away_run h ms : forall s s' e, Forall (away h) ms -> mrun s ms = Ok (s', e) ->
  only_pruned (s_br s h) (s_br s' h) /\ s_height s' = s_height s /\ s_unbond s' = s_unbond s /\ (forall x, In x e -> ~ of_bridge h x).
Proof.
  induction ms as [|m ms IH]; intros s s' e F R; cbn [mrun] in R.
  - injection R as <- <-. split; [apply only_pruned_refl|]. repeat split. intros x [].
  - inversion F as [|? ? Fm Fr]; subst. destruct (mstep s m) as [[s1 e1]| |] eqn:E1; [|discriminate|discriminate].
    destruct (mrun s1 ms) as [[s2 e2]| |] eqn:E2; [|discriminate|discriminate]. injection R as <- <-.
    destruct (away_step h s m s1 e1 Fm E1) as (P1 & H1 & U1 & X1). destruct (IH s1 s2 e2 Fr E2) as (P2 & H2 & U2 & X2).
    split; [eapply only_pruned_trans; eassumption|]. split; [congruence|]. split; [congruence|].
    intros x Hx. apply in_app_iff in Hx as [Hx|Hx]; auto.
Qed.
Lemma away_chains h all b u ps : ~ In h (map p_h ps) -> Forall (away h) (flat_map (chain_micros all b u) ps).
Proof.
  intro N. apply Forall_forall. intros m H. apply in_flat_map in H as (p & Hp & H).
  assert (p_h p <> h) as E. { intro E. apply N. apply in_map_iff. exists p. auto. }
  unfold chain_micros in H. destruct H as [H|[H|[H|H]]]; [subst m; exact E..|]. apply in_map_iff in H as (x & <- & _). exact Logic.I.
Qed.
Lemma away_prunes h w hs : Forall (away h) (map (MPrune w) hs).
Proof. apply Forall_forall. intros m H. apply in_map_iff in H as (x & <- & _). exact Logic.I. Qed.

Lemma no_created h e : (forall x, In x e -> ~ of_bridge h x) -> created h e = [].
Proof.
  induction e as [|x e IH]; intro H; [reflexivity|]. cbn [created flat_map]. fold (created h e). rewrite IH by (intros y Hy; apply H; right; exact Hy).
  destruct x; try reflexivity. destruct (Z.eqb_spec h0 h) as [E|]; [|reflexivity]. exfalso. exact (H _ (or_introl eq_refl) E).
Qed.
Lemma no_judged h e : (forall x, In x e -> ~ of_bridge h x) -> judged h e = [].
Proof.
  induction e as [|x e IH]; intro H; [reflexivity|]. cbn [judged flat_map]. fold (judged h e). rewrite IH by (intros y Hy; apply H; right; exact Hy).
  destruct x; try reflexivity. destruct (Z.eqb_spec h0 h) as [E|]; [|reflexivity]. exfalso. exact (H _ (or_introl eq_refl) E).
Qed.

(* A block, seen from bridge h: first only prunings, then its own turn, then only prunings. *)
Lemma block_parts s b u ps s' e h :
  step rank acc_of s (OBlock b u ps) = Ok (s', e) -> NoDup (map p_h ps) ->
  (~ In h (map p_h ps) /\ only_pruned (s_br s h) (s_br s' h) /\ s_height s' = s_height s + 1 /\ (forall x, In x e -> ~ of_bridge h x)) \/
  exists p r1 r2 s1 e1 s2 e2 s3 e3 s4 e4,
    p_h p = h /\ ps = r1 ++ p :: r2 /\
    mrun s (flat_map (chain_micros ps b u) r1) = Ok (s1, e1) /\
    slash acc_of p b u (reset p s1) = (s2, e2) /\
    create rank p b s2 = Ok (s3, e3) /\
    mrun s3 (map (MPrune (p_window p)) (map p_h ps) ++ flat_map (chain_micros ps b u) r2) = Ok (s4, e4) /\
    s' = mk_st (s_height s4 + 1) (s_unbond s4) (s_br s4) /\ e = e1 ++ e2 ++ e3 ++ e4 /\
    ~ In h (map p_h r1) /\ ~ In h (map p_h r2).
Proof.
  intros R N. cbn [step] in R. rewrite chains_micro in R.
  destruct (mrun s (flat_map (chain_micros ps b u) ps)) as [[s9 e9]| |] eqn:E; [|discriminate|discriminate]. injection R as <- <-.
  destruct (in_dec Z.eq_dec h (map p_h ps)) as [I|I].
  - right. apply in_map_iff in I as (p & Hp & I). apply in_split in I as (r1 & r2 & Eq).
    assert (~ In h (map p_h r1) /\ ~ In h (map p_h r2)) as [N1 N2].
    { rewrite Eq, map_app in N. cbn [map] in N. apply NoDup_remove_2 in N. rewrite in_app_iff, Hp in N. tauto. }
    assert (flat_map (chain_micros ps b u) ps = flat_map (chain_micros ps b u) (r1 ++ p :: r2)) as EE by (rewrite <- Eq; reflexivity).
    rewrite EE, flat_map_app, mrun_app in E. cbn [flat_map] in E.
    destruct (mrun s (flat_map (chain_micros ps b u) r1)) as [[s1 e1]| |] eqn:E1; [|discriminate|discriminate].
    unfold chain_micros at 1 in E. cbn [app mrun mstep] in E. destruct (slash acc_of p b u (reset p s1)) as [s2 e2] eqn:E2.
    destruct (create rank p b s2) as [[s3 e3]| |] eqn:E3; [|discriminate|discriminate].
    destruct (mrun s3 (map (MPrune (p_window p)) (map p_h ps) ++ flat_map (chain_micros ps b u) r2)) as [[s4 e4]| |] eqn:E4; [|discriminate|discriminate].
    injection E as <- <-. exists p, r1, r2, s1, e1, s2, e2, s3, e3, s4, e4. repeat split; assumption.
  - left. split; [exact I|]. pose proof (away_run h _ s s9 e9 (away_chains h ps b u ps I) E) as (P & Hh & _ & X). cbn. rewrite Hh. auto.
Qed.
Lemma tail_away h ps b u p r2 : ~ In h (map p_h r2) -> Forall (away h) (map (MPrune (p_window p)) (map p_h ps) ++ flat_map (chain_micros ps b u) r2).
Proof. intro N. apply Forall_app. split; [apply away_prunes|apply away_chains; exact N]. Qed.

Lemma reset_frame p s : s_height (reset p s) = s_height s /\ s_unbond (reset p s) = s_unbond s /\
  b_latest (s_br (reset p s) (p_h p)) = b_latest (s_br s (p_h p)) /\ b_slashed (s_br (reset p s) (p_h p)) = b_slashed (s_br s (p_h p)) /\
  only_pruned (s_br s (p_h p)) (s_br (reset p s) (p_h p)).
Proof.
  unfold reset. destruct (p_reset p).
  - rewrite put_same. repeat split. exists (fun _ => false). f_equal. induction (b_sets (s_br s (p_h p))); [reflexivity|assumption].
  - repeat split. apply only_pruned_refl.
Qed.

(* ------------------------------------------------------------------ *)
(* Numbers of the sets                                                 *)

Lemma block_created s b u ps s' e h o : step rank acc_of s (OBlock b u ps) = Ok (s', e) -> NoDup (map p_h ps) ->
  (forall p, In p ps -> p_h p = h -> p_offset p = o) ->
  s_height s' = s_height s + 1 /\ (created h e = [] \/ exists v, created h e = [v] /\ v_height v = s_height s /\ v_nonce v = s_height s + o).
Proof.
  intros R N O. destruct (block_parts s b u ps s' e h R N) as [(_ & _ & Hh & X)|(p & r1 & r2 & s1 & e1 & s2 & e2 & s3 & e3 & s4 & e4 & <- & Eq & R1 & R2 & R3 & R4 & -> & -> & N1 & N2)].
  - split; [exact Hh|]. left. apply no_created. exact X.
  - pose proof (away_run (p_h p) _ s s1 e1 (away_chains _ ps b u r1 N1) R1) as (_ & H1 & _ & X1).
    pose proof (away_run (p_h p) _ s3 s4 e4 (tail_away _ ps b u p r2 N2) R4) as (_ & H4 & _ & X4).
    destruct (slash_events _ _ _ _ _ _ R2) as (_ & C2 & _ & _ & H2 & _ & _). destruct (reset_frame p s1) as (Hr & _).
    rewrite !created_app, (no_created _ _ X1), (no_created _ _ X4), C2. cbn [app]. rewrite app_nil_r.
    apply create_cases in R3 as (ms & _ & [(E3 & -> & _)|(v & Ev & E3 & -> & _)]).
    + cbn [s_height]. rewrite H4, E3, H2, Hr, H1. split; [reflexivity|]. left. reflexivity.
    + cbn [s_height]. rewrite H4, E3. cbn [put s_height]. rewrite H2, Hr, H1. split; [reflexivity|]. right. exists v.
      cbn [created flat_map app]. rewrite Z.eqb_refl. split; [reflexivity|]. subst v. cbn [v_height v_nonce]. rewrite H2, Hr, H1.
      split; [reflexivity|]. rewrite (O p); [reflexivity| |reflexivity]. rewrite Eq. apply in_app_iff. right. left. reflexivity.
Qed.

Lemma msg_created s o s' e h : is_msg o -> step rank acc_of s o = Ok (s', e) -> created h e = [] /\ s_height s' = s_height s.
Proof. intros M R. destruct (msg_frame s o s' e h M R) as (-> & -> & _). auto. Qed.

Definition numbered (h o h0 : Z) (s : st) (evs : list event) : Prop :=
  h0 <= s_height s /\ StronglySorted Z.lt (map v_nonce (created h evs)) /\
  forall v, In v (created h evs) -> v_nonce v = v_height v + o /\ h0 <= v_height v < s_height s.

Lemma created_numbers h0 os s evs h o : run rank acc_of (init h0) os = Ok (s, evs) -> Forall one_entry os -> Forall (offset_is h o) os ->
  numbered h o h0 s evs.
Proof.
  intros R F1 F2.
  assert (forall os s0 evs0 s evs, numbered h o h0 s0 evs0 -> run rank acc_of s0 os = Ok (s, evs) -> Forall one_entry os -> Forall (offset_is h o) os -> numbered h o h0 s (evs0 ++ evs)) as G.
  { clear. induction os as [|x os IH]; intros s0 evs0 s evs I R F1 F2; cbn [run] in R.
    - injection R as <- <-. rewrite app_nil_r. exact I.
    - inversion F1; subst. inversion F2; subst. destruct (step rank acc_of s0 x) as [[s1 e1]| |] eqn:E1; [|eapply IH; eassumption|discriminate].
      destruct (run rank acc_of s1 os) as [[s2 e2]| |] eqn:E2; [|discriminate|discriminate]. injection R as <- <-. rewrite app_assoc.
      apply (IH s1 (evs0 ++ e1) s2 e2); [|exact E2|assumption|assumption]. clear IH E2.
      destruct I as (L & S & A). unfold numbered. rewrite created_app, map_app.
      assert (is_msg x \/ exists b u ps, x = OBlock b u ps) as [M|(b & u & ps & ->)] by (destruct x; cbn; eauto).
      + destruct (msg_created s0 x s1 e1 h M E1) as [-> ->]. cbn [map]. rewrite !app_nil_r. auto.
      + destruct (block_created _ _ _ _ _ _ h o E1 ltac:(assumption) ltac:(assumption)) as (Hh & [->|(v & -> & Hv & Nv)]); rewrite Hh.
        * cbn [map]. rewrite !app_nil_r. split; [lia|]. split; [exact S|]. intros v Hv. destruct (A v Hv). split; [assumption|lia].
        * split; [lia|]. split.
          -- apply sorted_app; [exact S|repeat constructor|]. intros a c Ha [Hc|[]]. subst c. apply in_map_iff in Ha as (w & <- & Hw).
             destruct (A w Hw). lia.
          -- intros w Hw. apply in_app_iff in Hw as [Hw|[Hw|[]]]; [destruct (A w Hw); split; [assumption|lia]|subst w; lia]. }
  apply (G os (init h0) [] s evs); [|exact R|exact F1|exact F2]. split; [cbn; lia|]. split; [constructor|]. intros v [].
Qed.

(* ------------------------------------------------------------------ *)
(* A created set stays until it is pruned                              *)

Lemma valset_dec (a b : valset) : {a = b} + {a <> b}.
Proof. repeat decide equality. Qed.

Definition no_reset_op (h : Z) (x : op) : Prop := match x with OBlock _ _ ps => forall p, In p ps -> p_h p = h -> p_reset p = false | _ => True end.
Definition no_reset (h : Z) (m : micro) : Prop := plain_micro m /\ match m with MReset p => p_h p = h -> p_reset p = false | _ => True end.
Lemma no_reset_micros h os : Forall (no_reset_op h) os -> Forall (no_reset h) (flat_map micros os).
Proof.
  intro F. apply Forall_forall. intros m Hm. split; [pose proof (all_micros_plain os) as A; rewrite Forall_forall in A; auto|].
  apply in_flat_map in Hm as (o & Ho & Hm). rewrite Forall_forall in F. specialize (F o Ho).
  destruct o; cbn [micros] in Hm; try (destruct Hm as [<-|[]]; exact Logic.I). apply in_app_iff in Hm as [Hm|[<-|[]]]; [|exact Logic.I].
  apply in_flat_map in Hm as (p & Hp & Hm). destruct Hm as [Hm|[Hm|[Hm|Hm]]]; [subst m|subst m; exact Logic.I..|].
  - intro E. apply F; assumption.
  - apply in_map_iff in Hm as (x & <- & _). exact Logic.I.
Qed.
Definition kept (h : Z) (s : st) (evs : list event) : Prop :=
  all_keyed s /\ forall v, In v (created h evs) ->
    zget (b_sets (s_br s h)) (v_nonce v) = Some v \/ In (EvPruned h (v_nonce v)) evs \/
    exists w, In w (created h evs) /\ w <> v /\ v_nonce w = v_nonce v.
Lemma kept_more h s' evs e v : 
  (zget (b_sets (s_br s' h)) (v_nonce v) = Some v \/ In (EvPruned h (v_nonce v)) (evs ++ e) \/ exists w, In w (created h (evs ++ e)) /\ w <> v /\ v_nonce w = v_nonce v) \/
  (In (EvPruned h (v_nonce v)) evs \/ exists w, In w (created h evs) /\ w <> v /\ v_nonce w = v_nonce v) ->
  zget (b_sets (s_br s' h)) (v_nonce v) = Some v \/ In (EvPruned h (v_nonce v)) (evs ++ e) \/ exists w, In w (created h (evs ++ e)) /\ w <> v /\ v_nonce w = v_nonce v.
Proof.
  intros [H|[H|(w & H & G)]]; [exact H|right; left; apply in_app_iff; auto|]. right. right. exists w. split; [|exact G]. rewrite created_app, in_app_iff. auto.
Qed.

Lemma kept_step h s evs m s' e : no_reset h m -> kept h s evs -> mstep s m = Ok (s', e) -> kept h s' (evs ++ e).
Proof.
  intros [P NR] [K A] R. split; [eapply mstep_keyed; eassumption|]. intros v Hv. apply kept_more.
  assert (In v (created h evs) -> (zget (b_sets (s_br s' h)) (v_nonce v) = zget (b_sets (s_br s h)) (v_nonce v)) ->
     (zget (b_sets (s_br s' h)) (v_nonce v) = Some v \/ In (EvPruned h (v_nonce v)) (evs ++ e) \/ exists w, In w (created h (evs ++ e)) /\ w <> v /\ v_nonce w = v_nonce v) \/
     (In (EvPruned h (v_nonce v)) evs \/ exists w, In w (created h evs) /\ w <> v /\ v_nonce w = v_nonce v)) as Same.
  { intros I E. destruct (A v I) as [G|G]; [left; left; congruence|right; exact G]. }
  rewrite created_app, in_app_iff in Hv. destruct m; cbn [mstep] in R.
  - injection R as <- <-. destruct Hv as [Hv|[]]. apply Same; [exact Hv|]. unfold reset. destruct (p_reset p) eqn:E; [|reflexivity].
    rewrite put_other; [reflexivity|]. intro Eh. specialize (NR (eq_sym Eh)). congruence.
  - injection R as R. destruct (slash_events _ _ _ _ _ _ R) as (_ & C & _ & Fr & _ & _ & B). rewrite C in Hv. destruct Hv as [Hv|[]].
    apply Same; [exact Hv|]. destruct (Z.eq_dec h (p_h p)) as [->|N]; [rewrite B|rewrite (Fr h N)]; reflexivity.
  - apply create_cases in R as (ms & _ & [(-> & -> & _)|(x & _ & -> & -> & _)]).
    + destruct Hv as [Hv|[]]. apply Same; [exact Hv|reflexivity].
    + destruct (Z.eq_dec (p_h p) h) as [Eh|N].
      * subst h. cbn [created flat_map app] in Hv. rewrite Z.eqb_refl in Hv. rewrite put_same. cbn [store_set with_sets b_sets]. rewrite zget_zset.
        destruct (Z.eqb_spec (v_nonce x) (v_nonce v)) as [En|Nn].
        -- left. destruct (valset_dec x v) as [->|D]; [left; reflexivity|]. right. right. exists x. split; [|auto].
           rewrite created_app, in_app_iff. right. cbn [created flat_map app]. rewrite Z.eqb_refl. left. reflexivity.
        -- destruct Hv as [Hv|[Hv|[]]]; [|congruence]. destruct (A v Hv) as [G|G]; [left; left; exact G|right; exact G].
      * cbn [created flat_map app] in Hv. destruct (Z.eqb_spec (p_h p) h); [contradiction|]. destruct Hv as [Hv|[]].
        apply Same; [exact Hv|]. rewrite put_other by congruence. reflexivity.
  - injection R as R. pose proof (prune_events _ _ _ _ _ R) as (_ & C & _ & _ & Fr & _). rewrite C in Hv. destruct Hv as [Hv|[]].
    destruct (Z.eq_dec h h0) as [Eh|N]; [|apply Same; [exact Hv|rewrite (Fr h N); reflexivity]]. subst h0. destruct (A v Hv) as [G|G]; [|right; exact G]. left.
    unfold prune_one in R. destruct (b_observed (s_br s h)) as [n|]; [|injection R as <- <-; left; exact G].
    destruct (s_height s <? w); injection R as <- <-; [left; exact G|]. rewrite put_same. cbn [with_sets b_sets]. destruct (K h) as [Ks _].
    rewrite filter_get by exact Ks. rewrite G. cbn [snd]. destruct (stale w (s_height s) n v) eqn:St; cbn [negb]; [|left; reflexivity].
    right. left. apply in_app_iff. right. apply in_map_iff. exists (v_nonce v, v). split; [reflexivity|]. apply filter_In. split; [apply zget_in; exact G|exact St].
  - injection R as <- <-. destruct Hv as [Hv|[]]. apply Same; [exact Hv|reflexivity].
  - destruct (step rank acc_of s o) as [[s1 e1]| |] eqn:E; [|injection R as <- <-; destruct Hv as [Hv|[]]; apply Same; [exact Hv|reflexivity]|discriminate].
    injection R as <- <-. destruct (msg_frame s o s1 e1 h P E) as (-> & _ & Es & _). destruct Hv as [Hv|[]]. apply Same; [exact Hv|]. rewrite Es. reflexivity.
Qed.

Lemma sorted_nonce_unique l v w : StronglySorted Z.lt (map v_nonce l) -> In v l -> In w l -> v_nonce v = v_nonce w -> v = w.
Proof.
  induction l as [|x l IH]; intros S Hv Hw E; [destruct Hv|]. cbn [map] in S. inversion S as [|? ? S' F]; subst. rewrite Forall_forall in F.
  destruct Hv as [->|Hv], Hw as [->|Hw]; auto.
  - specialize (F _ (in_map v_nonce _ _ Hw)). lia.
  - specialize (F _ (in_map v_nonce _ _ Hv)). lia.
Qed.

Lemma sets_kept h0 os s evs h o : run rank acc_of (init h0) os = Ok (s, evs) ->
  Forall one_entry os -> Forall (offset_is h o) os -> Forall (no_reset_op h) os ->
  forall v, In v (created h evs) -> zget (b_sets (s_br s h)) (v_nonce v) = Some v \/ In (EvPruned h (v_nonce v)) evs.
Proof.
  intros R F1 F2 F3 v Hv. destruct (created_numbers _ _ _ _ _ _ R F1 F2) as (_ & S & _). rewrite run_micro in R.
  assert (kept h s ([] ++ evs)) as [_ A].
  { refine (mrun_inv (kept h) (no_reset h) (fun s evs m s' e => kept_step h s evs m s' e) _ (init h0) [] s evs (no_reset_micros h os F3) _ R).
    split; [apply init_keyed|]. intros w []. }
  cbn [app] in A. destruct (A v Hv) as [G|[G|(w & Hw & Nw & Ew)]]; auto. exfalso. apply Nw. eapply sorted_nonce_unique; eassumption.
Qed.

(* every stored set was created *)
Definition all_created (h : Z) (s : st) (evs : list event) : Prop :=
  all_keyed s /\ forall n v, zget (b_sets (s_br s h)) n = Some v -> In v (created h evs).
Lemma all_created_step h s evs m s' e : plain_micro m -> all_created h s evs -> mstep s m = Ok (s', e) -> all_created h s' (evs ++ e).
Proof.
  intros P [K A] R. split; [eapply mstep_keyed; eassumption|]. intros n v. rewrite created_app, in_app_iff. specialize (A n v). destruct m; cbn [mstep] in R.
  - injection R as <- <-. unfold reset. destruct (p_reset p); [|auto]. destruct (Z.eq_dec h (p_h p)) as [->|N]; [rewrite put_same; discriminate|rewrite put_other by exact N; auto].
  - injection R as R. destruct (slash_events _ _ _ _ _ _ R) as (_ & _ & _ & Fr & _ & _ & B). destruct (Z.eq_dec h (p_h p)) as [->|N]; [rewrite B|rewrite (Fr h N)]; auto.
  - apply create_cases in R as (ms & _ & [(-> & -> & _)|(x & _ & -> & -> & _)]); [auto|]. destruct (Z.eq_dec h (p_h p)) as [->|N]; [|rewrite put_other by exact N; auto].
    rewrite put_same. cbn [store_set with_sets b_sets]. rewrite zget_zset. destruct (v_nonce x =? n); [|auto]. intro H. injection H as <-. right.
    cbn [created flat_map app]. rewrite Z.eqb_refl. left. reflexivity.
  - injection R as R. pose proof (prune_events _ _ _ _ _ R) as (_ & _ & _ & _ & Fr & Pr). destruct (Z.eq_dec h h0) as [->|N]; [|rewrite (Fr h N); auto].
    destruct Pr as [->|[f ->]]; [auto|]. cbn [with_sets b_sets]. destruct (K h0) as [Ks _]. rewrite filter_get by exact Ks.
    destruct (zget (b_sets (s_br s h0)) n) as [x|]; [|discriminate]. destruct (f (n, x)); [auto|discriminate].
  - injection R as <- <-. auto.
  - destruct (step rank acc_of s o) as [[s1 e1]| |] eqn:E; [|injection R as <- <-; auto|discriminate].
    injection R as <- <-. destruct (msg_frame s o s1 e1 h P E) as (-> & _ & -> & _). auto.
Qed.

Lemma pruned_get b b' n v : keyed b -> only_pruned b b' -> zget (b_sets b') n = Some v -> zget (b_sets b) n = Some v.
Proof.
  intros [K _] [f ->]. cbn [with_sets b_sets]. rewrite filter_get by exact K. destruct (zget (b_sets b) n) as [x|]; [|discriminate].
  destruct (f (n, x)); [auto|discriminate].
Qed.
End Code.
