(* Lemmas for C116. *)
From Verif Require Import Lib.Base Lib.Zmap Hyperion.Valset Hyperion.ValsetSpec Hyperion.ValsetRuns Hyperion.ValsetHistory Hyperion.Evidence Hyperion.EvidenceSpec.
Open Scope Z_scope.

Section Proofs.
Variables rank acc_of : Z -> Z.
Variable keccak : list Z -> Z.
Variable recover : Z -> Z -> option Z.
Variable reduction : Z.
Notation estep := (estep rank acc_of keccak recover reduction).
Notation erun := (erun rank acc_of keccak recover reduction).
Notation submit := (submit keccak recover reduction).
Notation check := (check keccak recover reduction).
Notation asked := (asked rank acc_of keccak recover reduction).
Notation step := (step rank acc_of).
Notation made := (made keccak).

Lemma erun_app impls e a b : erun impls e (a ++ b) =
  match erun impls e a with Ok e1 => erun impls e1 b | Err => Err | Panic => Panic end.
Proof.
  revert e. induction a as [|o a IH]; intro e; [reflexivity|]. cbn [app Evidence.erun].
  destruct (estep impls e o); [apply IH|apply IH|reflexivity].
Qed.
Lemma erun_no_err impls os : forall e, erun impls e os <> Err.
Proof.
  induction os as [|o os IH]; intro e; [discriminate|]. cbn [Evidence.erun]. destruct (estep impls e o); [apply IH|apply IH|discriminate].
Qed.

(* a property of states and histories that every step keeps *)
Lemma erun_inv impls (P : eop -> Prop) (I : est -> list eop -> Prop) e0 :
  I e0 [] ->
  (forall pre e o e', P o -> erun impls e0 pre = Ok e -> I e pre -> estep impls e o = Ok e' -> I e' (pre ++ [o])) ->
  (forall pre e o, P o -> erun impls e0 pre = Ok e -> I e pre -> estep impls e o = Err -> I e (pre ++ [o])) ->
  forall os e, Forall P os -> erun impls e0 os = Ok e -> I e os.
Proof.
  intros B St Se os. induction os as [|o os IH] using rev_ind; intros e F R.
  - cbn in R. injection R as <-. exact B.
  - apply Forall_app in F as [F Fo]. inversion Fo; subst. rewrite erun_app in R. destruct (erun impls e0 os) as [e1| |] eqn:E1; [|discriminate|discriminate].
    specialize (IH e1 F eq_refl). cbn [Evidence.erun] in R. destruct (estep impls e1 o) as [e2| |] eqn:E2; [|injection R as <-|discriminate].
    + injection R as <-. eapply St; eassumption.
    + eapply Se; eassumption.
Qed.

Lemma past_iff e h c : past e h c = true <-> In (h, c) (e_past e).
Proof.
  clear rank acc_of keccak recover reduction.
  unfold past. rewrite existsb_exists. split.
  - intros ([a b] & H & E). cbn in E. apply andb_prop in E as [E1 E2]. apply Z.eqb_eq in E1, E2. subst. exact H.
  - intro H. exists (h, c). split; [exact H|]. cbn. rewrite !Z.eqb_refl. reflexivity.
Qed.

Lemma slash_inv e v k p f e' : slash reduction e v k p f = Ok e' ->
  0 <= f /\ k_status k <> Unbonded /\
  e' = with_vals e (zset (e_vals e) v (mk_vrec (k_tokens k - burnt reduction k p f) (k_status k) (k_key k))).
Proof.
  clear rank acc_of keccak recover.
  unfold slash. destruct (f <? 0) eqn:F; [discriminate|]. destruct (k_status k); intro R; try discriminate; injection R as <-; repeat split; try lia; discriminate.
Qed.
Lemma check_inv e x sig e' : check e x sig = Ok e' ->
  exists g a v k f, sig = Some g /\ sound x = true /\ ~ In (bridge_of x, keccak (words x)) (e_past e) /\
    recover (keccak (words x)) g = Some a /\ zget (b_byeth (s_br (e_s e) (bridge_of x))) a = Some v /\
    zget (e_vals e) v = Some k /\ k_key k = true /\ k_status k <> Unbonded /\ e_frac e (bridge_of x) = Some f /\ 0 <= f /\
    e' = with_vals e (zset (e_vals e) v (mk_vrec (k_tokens k - burnt reduction k (power reduction k) f) (k_status k) (k_key k))).
Proof.
  clear rank acc_of.
  unfold Evidence.check. destruct (sound x); cbn [negb]; [|discriminate]. destruct (past e _ _) eqn:P; [discriminate|]. destruct sig as [g|]; [|discriminate].
  destruct (recover _ g) as [a|] eqn:A; [|discriminate]. destruct (zget (b_byeth _) a) as [v|] eqn:V; [|discriminate].
  destruct (zget (e_vals e) v) as [k|] eqn:K; [|discriminate]. destruct (k_key k) eqn:Y; cbn [negb]; [|discriminate].
  destruct (e_frac e _) as [f|] eqn:F; [|discriminate]. intro R. apply slash_inv in R as (F0 & U & ->). exists g, a, v, k, f. rewrite Y.
  repeat match goal with |- _ /\ _ => split end; auto. intro H. apply past_iff in H. congruence.
Qed.
Lemma check_ok e x g a v k f : sound x = true -> ~ In (bridge_of x, keccak (words x)) (e_past e) ->
  recover (keccak (words x)) g = Some a -> zget (b_byeth (s_br (e_s e) (bridge_of x))) a = Some v ->
  zget (e_vals e) v = Some k -> k_key k = true -> k_status k <> Unbonded -> e_frac e (bridge_of x) = Some f -> 0 <= f ->
  check e x (Some g) = Ok (with_vals e (zset (e_vals e) v (mk_vrec (k_tokens k - burnt reduction k (power reduction k) f) (k_status k) (k_key k)))).
Proof.
  clear rank acc_of.
  intros S P A V K Y U F F0. unfold Evidence.check. rewrite S. cbn [negb]. destruct (past e _ _) eqn:Q; [apply past_iff in Q; contradiction|].
  rewrite A, V, K, Y. cbn [negb]. rewrite F. unfold slash. destruct (f <? 0) eqn:L; [lia|]. rewrite Y. destruct (k_status k); [reflexivity|reflexivity|congruence].
Qed.
Lemma submit_inv impls e a sig e' : submit impls e a sig = Ok e' ->
  exists x, a = Some (url_of x, Some x) /\ In (url_of x) impls /\ check e x sig = Ok e'.
Proof.
  clear rank acc_of.
  unfold Evidence.submit, unpack. destruct a as [[u y]|]; [|discriminate]. intro R.
  assert (forall u v, url_eqb u v = true -> u = v) as UE by (intros [| | |n] [| | |m]; cbn; try discriminate; try reflexivity; intro H; apply Z.eqb_eq in H; congruence).
  assert ((if existsb (url_eqb u) impls then match y with Some z => if url_eqb u (url_of z) then Ok (Some z) else Err | None => Err end else Err) = @Err (option subject)
    \/ exists x, y = Some x /\ u = url_of x /\ In u impls) as C.
  { destruct (existsb (url_eqb u) impls) eqn:X; [|auto]. destruct y as [z|]; [|auto]. destruct (url_eqb u (url_of z)) eqn:Q; [|auto]. right. exists z. apply UE in Q.
    apply existsb_exists in X as (w & Hw & Ew). apply UE in Ew. subst w. auto. }
  destruct C as [C|(x & -> & -> & Hi)].
  - destruct u; [discriminate| | |]; rewrite C in R; discriminate.
  - exists x. split; [reflexivity|split; [exact Hi|]]. assert (existsb (url_eqb (url_of x)) impls = true) as X.
    { apply existsb_exists. exists (url_of x). split; [exact Hi|]. destruct x; reflexivity. }
    destruct x; cbn [url_of] in *; rewrite X in R; cbn [url_eqb] in R; exact R.
Qed.
Lemma submit_check impls e x sig : In (url_of x) impls -> submit impls e (Some (url_of x, Some x)) sig = check e x sig.
Proof.
  clear rank acc_of.
  intro Hi. assert (existsb (url_eqb (url_of x)) impls = true) as X.
  { apply existsb_exists. exists (url_of x). split; [exact Hi|]. destruct x; reflexivity. }
  unfold Evidence.submit, unpack. destruct x; cbn [url_of] in *; rewrite X; cbn [url_eqb]; reflexivity.
Qed.

(* only the chain's own requests enter the archive *)
Lemma made_in h c o evs : In (h, c) (made o evs) <->
  exists w, c = keccak w /\ ((exists b, o = OBatch h b /\ w = batch_words h b) \/ (exists v n, In (EvSet h v n) evs /\ w = set_words h v)).
Proof.
  clear rank acc_of recover reduction.
  unfold Evidence.made. rewrite in_app_iff, in_flat_map. split.
  - intros [H|(ev & H & E)].
    + destruct o; cbn [In] in H; try contradiction. destruct H as [H|[]]. assert (h0 = h) by congruence. subst h0. exists (batch_words h b). split; [congruence|]. left. exists b. auto.
    + destruct ev; cbn [In] in E; try contradiction. destruct E as [E|[]]. assert (h0 = h) by congruence. subst h0. exists (set_words h v). split; [congruence|]. right. exists v, announced. auto.
  - intros (w & -> & [(b & -> & ->)|(v & n & H & ->)]); [left; left; reflexivity|]. right. exists (EvSet h v n). split; [exact H|left; reflexivity].
Qed.

Lemma asked_more impls e0 os o h w : asked impls e0 os h w -> asked impls e0 (os ++ [o]) h w.
Proof.
  intros (pre & c & post & e1 & s2 & evs & -> & H). exists pre, c, (post ++ [o]), e1, s2, evs. split; [rewrite <- app_assoc; reflexivity|exact H].
Qed.
Lemma asked_last impls e0 os c e s evs h w : erun impls e0 os = Ok e -> step (e_s e) c = Ok (s, evs) ->
  ((exists b, c = OBatch h b /\ w = batch_words h b) \/ (exists v n, In (EvSet h v n) evs /\ w = set_words h v)) ->
  asked impls e0 (os ++ [EChain c]) h w.
Proof. intros R S H. exists os, c, [], e, s, evs. auto. Qed.
Lemma asked_inv impls e0 os o h w e : erun impls e0 os = Ok e -> asked impls e0 (os ++ [o]) h w ->
  asked impls e0 os h w \/ exists c s evs, o = EChain c /\ step (e_s e) c = Ok (s, evs) /\
    ((exists b, c = OBatch h b /\ w = batch_words h b) \/ (exists v n, In (EvSet h v n) evs /\ w = set_words h v)).
Proof.
  intros R (pre & c & post & e1 & s2 & evs & E & R1 & S & H). destruct post as [|x post _] using rev_ind.
  - apply app_inj_tail in E as [-> ->]. right. exists c, s2, evs. rewrite R in R1. injection R1 as <-. auto.
  - rewrite app_comm_cons, app_assoc in E. apply app_inj_tail in E as [-> _]. left. exists pre, c, post, e1, s2, evs. auto.
Qed.

Definition archived (impls : list url) (e0 : est) (e : est) (os : list eop) : Prop :=
  forall h c, In (h, c) (e_past e) <-> exists w, c = keccak w /\ asked impls e0 os h w.
Lemma archived_run impls h0 os e : Forall no_reload os -> erun impls (einit h0) os = Ok e -> archived impls (einit h0) e os.
Proof.
  apply erun_inv.
  - intros h c. cbn. split; [intros []|]. intros (w & _ & pre & x & post & e1 & s2 & evs & E & _). destruct pre; discriminate.
  - intros pre e1 o e2 N R A S h c. unfold no_reload in N. assert (e_past e2 = e_past e1 -> (forall x, o <> EChain x) ->
      (In (h, c) (e_past e2) <-> exists w, c = keccak w /\ asked impls (einit h0) (pre ++ [o]) h w)) as Same.
    { intros E X. rewrite E, (A h c). split.
      - intros (w & Ew & H). exists w. split; [exact Ew|apply asked_more; exact H].
      - intros (w & Ew & H). apply (asked_inv _ _ _ _ _ _ _ R) in H as [H|(x & s & evs & Eo & _)]; [|exfalso; exact (X x Eo)]. exists w. auto. }
    destruct o; cbn [Evidence.estep] in S.
    + destruct (step (e_s e1) o) as [[s evs]| |] eqn:Es; [|discriminate|discriminate]. injection S as <-. cbn [with_past with_s e_past]. rewrite in_app_iff, made_in, (A h c). split.
      * intros [(w & Ew & H)|(w & Ew & H)]; exists w; (split; [exact Ew|]); [eapply asked_last; eassumption|apply asked_more; exact H].
      * intros (w & Ew & H). apply (asked_inv _ _ _ _ _ _ _ R) in H as [H|(x & s' & evs' & Eo & Es' & H)]; [right; exists w; auto|]. left. exists w. split; [exact Ew|].
        assert (x = o) by congruence. subst x. rewrite Es in Es'. assert (evs' = evs) by congruence. subst evs'. exact H.
    + destruct k; injection S as <-; (apply Same; [reflexivity|discriminate]).
    + injection S as <-; (apply Same; [reflexivity|discriminate]).
    + congruence.
    + destruct (submit impls e1 a sig) as [e3| |] eqn:Q; [|discriminate|discriminate]. injection S as <-. apply submit_inv in Q as (x & _ & _ & Q).
      apply check_inv in Q as (g & a' & v & k & f & _ & _ & _ & _ & _ & _ & _ & _ & _ & _ & ->). apply Same; [reflexivity|discriminate].
  - intros pre e1 o _ R A S h c. rewrite (A h c). split.
    + intros (w & Ew & H). exists w. split; [exact Ew|apply asked_more; exact H].
    + intros (w & Ew & H). apply (asked_inv _ _ _ _ _ _ _ R) in H as [H|(x & s' & evs' & Eo & Es' & H)]; [exists w; auto|]. subst o. cbn [Evidence.estep] in S. rewrite Es' in S. discriminate.
Qed.

(* ---- keys ---- *)
Lemma mstep_keys s m s' e h : plain_micro m -> mstep rank acc_of s m = Ok (s', e) ->
  b_byeth (s_br s' h) = b_byeth (s_br s h) \/ exists o, m = MMsg o /\ step s o = Ok (s', e).
Proof.
  intros P R. destruct m; cbn [ValsetRuns.mstep] in R; [left..|].
  - injection R as <- <-. unfold reset. destruct (p_reset p); [|auto]. destruct (Z.eq_dec h (p_h p)) as [->|N]; [rewrite put_same|rewrite put_other by exact N]; auto.
  - injection R as R. unfold Valset.slash in R. destruct (p_window p <? s_height s); injection R as <- <-; [|auto].
    destruct (Z.eq_dec h (p_h p)) as [->|N]; [rewrite put_same|rewrite put_other by exact N]; auto.
  - apply create_cases in R as (ms' & _ & [(-> & _)|(x & _ & -> & _)]); [auto|]. destruct (Z.eq_dec h (p_h p)) as [->|N]; [rewrite put_same|rewrite put_other by exact N]; auto.
  - injection R as R. destruct (prune_events _ _ _ _ _ R) as (_ & _ & _ & _ & Fr & Pr). destruct (Z.eq_dec h h0) as [->|N]; [|rewrite (Fr h N); auto].
    destruct Pr as [->|[f ->]]; auto.
  - injection R as <- <-. auto.
  - destruct (step s o) as [[s1 e1]| |] eqn:E; [injection R as <- <-; right; exists o; auto|injection R as <- <-; left; auto|discriminate].
Qed.
Lemma mrun_keys ms : forall s s' e h, Forall plain_micro ms -> (forall o, ~ In (MMsg o) ms) -> mrun rank acc_of s ms = Ok (s', e) ->
  b_byeth (s_br s' h) = b_byeth (s_br s h).
Proof.
  induction ms as [|m ms IH]; intros s s' e h F N R; cbn [mrun] in R; [injection R as <- _; reflexivity|]. inversion F; subst.
  destruct (mstep rank acc_of s m) as [[s1 e1]| |] eqn:E1; [|discriminate|discriminate].
  destruct (mrun rank acc_of s1 ms) as [[s2 e2]| |] eqn:E2; [|discriminate|discriminate]. injection R as <- _.
  rewrite (IH _ _ _ h H2 (fun o Hi => N o (or_intror Hi)) E2). destruct (mstep_keys _ _ _ _ h H1 E1) as [->|(o & -> & _)]; [reflexivity|].
  exfalso. apply (N o). left. reflexivity.
Qed.
(* what one step does to the index of addresses *)
Lemma step_keys s o s' e h : step s o = Ok (s', e) ->
  b_byeth (s_br s' h) = b_byeth (s_br s h) \/
  (exists v orch a, o = OSetKeys h v orch a true /\ b_byeth (s_br s' h) = zset (b_byeth (s_br s h)) a v) \/
  (exists v a, o = OUnsetKeys h v a /\ b_byeth (s_br s' h) = zdel (b_byeth (s_br s h)) a).
Proof.
  assert (forall g b', b_byeth b' = b_byeth (s_br s g) -> b_byeth (s_br (put s g b') h) = b_byeth (s_br s h)) as Pc.
  { intros g b' E. destruct (Z.eq_dec h g) as [->|N]; [rewrite put_same; exact E|rewrite put_other by exact N; reflexivity]. }
  intro R. destruct o.
  - cbn [Valset.step] in R. destruct (zget _ orch); [discriminate|]. destruct (zget _ sender); [discriminate|]. destruct welcome; [|discriminate]. injection R as <- <-.
    destruct (Z.eq_dec h h0) as [<-|N]; [|left; rewrite put_other by exact N; reflexivity]. right. left. exists sender, orch, eth. split; [reflexivity|]. rewrite put_same. reflexivity.
  - cbn [Valset.step] in R. injection R as <- <-. destruct (Z.eq_dec h h0) as [<-|N]; [|left; rewrite put_other by exact N; reflexivity]. right. right. exists sender, eth. split; [reflexivity|].
    rewrite put_same. reflexivity.
  - cbn [Valset.step] in R. left. destruct (zget (b_sets (s_br s h0)) nonce); [|discriminate]. destruct sig; [|discriminate].
    destruct (zget (b_orch (s_br s h0)) orch) as [w|]; [|discriminate]. destruct (zget (b_eth (s_br s h0)) w); [|discriminate].
    destruct (negb _); [discriminate|]. destruct (has_conf _ _ _); [discriminate|]. injection R as <- <-. apply Pc. reflexivity.
  - cbn [Valset.step] in R. injection R as <- <-. left. apply Pc. reflexivity.
  - cbn [Valset.step] in R. left. destruct (find_batch _ _ _); [|discriminate]. destruct sig; [|discriminate]. destruct (zget _ orch); [|discriminate]. destruct (zget _ _); [|discriminate].
    destruct (negb _); [discriminate|]. destruct (has_bconf _ _ _ _); [discriminate|]. injection R as <- <-. apply Pc. reflexivity.
  - cbn [Valset.step] in R. injection R as <- <-. left. reflexivity.
  - cbn [Valset.step] in R. injection R as <- <-. left. apply Pc. reflexivity.
  - left. pose proof (step_micro rank acc_of s (OBlock bonded unbonding ps)) as M. rewrite R in M. eapply mrun_keys; [apply micros_plain| |exact M].
    intros o H. cbn [micros] in H. apply in_app_iff in H as [H|[H|[]]]; [|discriminate]. apply in_flat_map in H as (p & _ & H). unfold chain_micros in H.
    destruct H as [H|[H|[H|H]]]; try discriminate. apply in_map_iff in H as (x & H & _). discriminate.
Qed.

Definition keys_known (e : est) (os : list eop) : Prop :=
  forall h, zsorted (b_byeth (s_br (e_s e) h)) /\
    forall a v, zget (b_byeth (s_br (e_s e) h)) a = Some v -> exists o, In o os /\ registers h v a o.
Lemma keys_run impls h0 os e : erun impls (einit h0) os = Ok e -> keys_known e os.
Proof.
  intro R. refine (erun_inv impls (fun _ => True) keys_known (einit h0) _ _ _ os e _ R); [| | |apply Forall_forall; auto].
  - intro h. cbn. split; [constructor|discriminate].
  - intros pre e1 o e2 _ _ K S h. destruct (K h) as [So Kn].
    assert (e_s e2 = e_s e1 -> zsorted (b_byeth (s_br (e_s e2) h)) /\ forall a v, zget (b_byeth (s_br (e_s e2) h)) a = Some v -> exists x, In x (pre ++ [o]) /\ registers h v a x) as Same.
    { intros ->. split; [exact So|]. intros a v G. destruct (Kn a v G) as (x & Hx & Rx). exists x. split; [apply in_app_iff; auto|exact Rx]. }
    destruct o; cbn [Evidence.estep] in S.
    + destruct (step (e_s e1) o) as [[s evs]| |] eqn:Es; [|discriminate|discriminate]. injection S as <-. cbn [with_past with_s e_s] in *.
      destruct (step_keys _ _ _ _ h Es) as [E|[(v & orch & a & -> & E)|(v & a & -> & E)]]; rewrite E.
      * split; [exact So|]. intros a v G. destruct (Kn a v G) as (x & Hx & Rx). exists x. split; [apply in_app_iff; auto|exact Rx].
      * split; [apply zset_sorted; exact So|]. intros a' v' G. rewrite zget_zset in G. destruct (Z.eqb_spec a a') as [<-|_].
        { injection G as <-. eexists. split; [apply in_app_iff; right; left; reflexivity|]. exists orch. reflexivity. }
        destruct (Kn a' v' G) as (x & Hx & Rx). exists x. split; [apply in_app_iff; auto|exact Rx].
      * split; [apply zdel_sorted; exact So|]. intros a' v' G. rewrite zget_zdel in G by exact So. destruct (a =? a'); [discriminate|].
        destruct (Kn a' v' G) as (x & Hx & Rx). exists x. split; [apply in_app_iff; auto|exact Rx].
    + destruct k; injection S as <-; apply Same; reflexivity.
    + injection S as <-; apply Same; reflexivity.
    + injection S as <-; apply Same; reflexivity.
    + destruct (submit impls e1 a sig) as [e3| |] eqn:Q; [|discriminate|discriminate]. injection S as <-. apply submit_inv in Q as (x & _ & _ & Q).
      apply check_inv in Q as (g & a' & v & k & f & _ & _ & _ & _ & _ & _ & _ & _ & _ & _ & ->). apply Same. reflexivity.
  - intros pre e1 o _ _ K _ h. destruct (K h) as [So Kn]. split; [exact So|]. intros a v G. destruct (Kn a v G) as (x & Hx & Rx). exists x. split; [apply in_app_iff; auto|exact Rx].
Qed.

(* ---- what can be confirmed is in the archive ---- *)
Lemma step_sets s o s' e h : all_keyed s -> step s o = Ok (s', e) -> all_keyed s' /\
  forall n v, zget (b_sets (s_br s' h)) n = Some v -> zget (b_sets (s_br s h)) n = Some v \/ In v (created h e) \/
    exists n', zget (b_sets (s_br s h)) n' = Some v.
Proof.
  intros K R. pose proof (step_micro rank acc_of s o) as M. rewrite R in M.
  (* pretend that the sets of s were created first *)
  set (ev0 := map (fun x => EvSet h (snd x) 0) (b_sets (s_br s h))).
  assert (created h ev0 = map snd (b_sets (s_br s h))) as C0.
  { unfold ev0. induction (b_sets (s_br s h)) as [|x l IH]; [reflexivity|]. cbn [map created flat_map]. rewrite Z.eqb_refl. cbn [app]. f_equal. exact IH. }
  assert (all_created h s' (ev0 ++ e)) as [K' A].
  { refine (mrun_inv rank acc_of (all_created h) plain_micro (fun s evs m s' e => all_created_step rank acc_of h s evs m s' e) _ s ev0 s' e (micros_plain o) _ M).
    split; [exact K|]. intros n v G. rewrite C0. apply in_map_iff. exists (n, v). split; [reflexivity|]. apply zget_in. exact G. }
  split; [exact K'|]. intros n v G. specialize (A n v G). rewrite created_app, in_app_iff, C0 in A. destruct A as [A|A]; [|auto].
  right. right. apply in_map_iff in A as ([n' w] & <- & A). exists n'. apply in_zget; [apply K|exact A].
Qed.
Lemma step_batches s o s' e h b : step s o = Ok (s', e) -> In b (b_batches (s_br s' h)) -> In b (b_batches (s_br s h)) \/ o = OBatch h b.
Proof.
  assert (forall g b', b_batches b' = b_batches (s_br s g) -> b_batches (s_br (put s g b') h) = b_batches (s_br s h)) as Pc.
  { intros g b' E. destruct (Z.eq_dec h g) as [->|N]; [rewrite put_same; exact E|rewrite put_other by exact N; reflexivity]. }
  intros R H. destruct o.
  - cbn [Valset.step] in R. destruct (zget _ orch); [discriminate|]. destruct (zget _ sender); [discriminate|]. destruct welcome; [|discriminate]. injection R as <- <-. rewrite Pc in H by reflexivity. auto.
  - cbn [Valset.step] in R. injection R as <- <-. rewrite Pc in H by reflexivity. auto.
  - cbn [Valset.step] in R. left. destruct (zget (b_sets (s_br s h0)) nonce); [|discriminate]. destruct sig; [|discriminate].
    destruct (zget (b_orch (s_br s h0)) orch) as [w|]; [|discriminate]. destruct (zget (b_eth (s_br s h0)) w); [|discriminate].
    destruct (negb _); [discriminate|]. destruct (has_conf _ _ _); [discriminate|]. injection R as <- <-. rewrite Pc in H by reflexivity. auto.
  - cbn [Valset.step] in R. injection R as <- <-. destruct (Z.eq_dec h h0) as [<-|N]; [|rewrite put_other in H by exact N; auto]. rewrite put_same in H. destruct H as [->|H]; auto.
  - cbn [Valset.step] in R. left. destruct (find_batch _ _ _); [|discriminate]. destruct sig; [|discriminate]. destruct (zget _ orch); [|discriminate]. destruct (zget _ _); [|discriminate].
    destruct (negb _); [discriminate|]. destruct (has_bconf _ _ _ _); [discriminate|]. injection R as <- <-. rewrite Pc in H by reflexivity. auto.
  - cbn [Valset.step] in R. injection R as <- <-. auto.
  - cbn [Valset.step] in R. injection R as <- <-. rewrite Pc in H by reflexivity. auto.
  - left. pose proof (step_micro rank acc_of s (OBlock bonded unbonding ps)) as M. rewrite R in M. revert M.
    assert (forall o, ~ In (MMsg o) (micros (OBlock bonded unbonding ps))) as N.
    { intros o Ho. cbn [micros] in Ho. apply in_app_iff in Ho as [Ho|[Ho|[]]]; [|discriminate]. apply in_flat_map in Ho as (p & _ & Ho). unfold chain_micros in Ho.
      destruct Ho as [Ho|[Ho|[Ho|Ho]]]; try discriminate. apply in_map_iff in Ho as (x & Ho & _). discriminate. }
    pose proof (micros_plain (OBlock bonded unbonding ps)) as F. revert N F. generalize (micros (OBlock bonded unbonding ps)) as ms. clear - H. intros ms. revert s e.
    induction ms as [|m ms IH]; intros s e N F M; cbn [mrun] in M; [injection M as <- _; exact H|]. inversion F; subst.
    destruct (mstep rank acc_of s m) as [[s1 e1]| |] eqn:E1; [|discriminate|discriminate].
    destruct (mrun rank acc_of s1 ms) as [[s2 e2]| |] eqn:E2; [|discriminate|discriminate]. assert (s2 = s') by congruence. subst s2.
    specialize (IH s1 e2 (fun o Hi => N o (or_intror Hi)) H3 E2). destruct (mstep_confs rank acc_of _ _ _ _ h H2 E1) as [(_ & _ & <-)|(o & -> & _)]; [exact IH|].
    exfalso. apply (N o). left. reflexivity.
Qed.
Definition confirmable (impls : list url) (e0 : est) (e : est) (os : list eop) : Prop :=
  all_keyed (e_s e) /\
  (forall h n v, zget (b_sets (s_br (e_s e) h)) n = Some v -> asked impls e0 os h (set_words h v)) /\
  (forall h b, In b (b_batches (s_br (e_s e) h)) -> asked impls e0 os h (batch_words h b)).
Lemma created_in h evs v : In v (created h evs) <-> exists n, In (EvSet h v n) evs.
Proof.
  clear rank acc_of keccak recover reduction.
  unfold created. rewrite in_flat_map. split.
  - intros (x & Hx & H). destruct x; try contradiction. destruct (Z.eqb_spec h0 h) as [->|]; [|contradiction]. destruct H as [->|[]]. exists announced. exact Hx.
  - intros [n H]. exists (EvSet h v n). split; [exact H|]. rewrite Z.eqb_refl. left. reflexivity.
Qed.
Lemma confirmable_run impls h0 os e : erun impls (einit h0) os = Ok e -> confirmable impls (einit h0) e os.
Proof.
  intro R. refine (erun_inv impls (fun _ => True) (confirmable impls (einit h0)) (einit h0) _ _ _ os e _ R); [| | |apply Forall_forall; auto].
  - split; [apply init_keyed|]. split; [intros h n v; cbn; discriminate|intros h b []].
  - intros pre e1 o e2 _ Rp (K & Cs & Cb) S.
    assert (e_s e2 = e_s e1 -> confirmable impls (einit h0) e2 (pre ++ [o])) as Same.
    { intro E. unfold confirmable. rewrite E. split; [exact K|]. split; intros; apply asked_more; eauto. }
    destruct o; cbn [Evidence.estep] in S.
    + destruct (step (e_s e1) o) as [[s evs]| |] eqn:Es; [|discriminate|discriminate]. injection S as <-. unfold confirmable. cbn [with_past with_s e_s].
      split; [exact (proj1 (step_sets _ _ _ _ 0 K Es))|]. split.
      * intros h n v G. destruct (proj2 (step_sets _ _ _ _ h K Es) n v G) as [G1|[G1|[n' G1]]]; [apply asked_more; eauto| |apply asked_more; eauto].
        eapply asked_last; [exact Rp|exact Es|]. right. apply created_in in G1 as [k G1]. exists v, k. auto.
      * intros h b Hb. destruct (step_batches _ _ _ _ h b Es Hb) as [H|H]; [apply asked_more; eauto|]. eapply asked_last; [exact Rp|exact Es|]. left. exists b. auto.
    + destruct k; injection S as <-; apply Same; reflexivity.
    + injection S as <-; apply Same; reflexivity.
    + injection S as <-; apply Same; reflexivity.
    + destruct (submit impls e1 a sig) as [e3| |] eqn:Q; [|discriminate|discriminate]. injection S as <-. apply submit_inv in Q as (x & _ & _ & Q).
      apply check_inv in Q as (g & a' & v & k & f & _ & _ & _ & _ & _ & _ & _ & _ & _ & _ & ->). apply Same. reflexivity.
  - intros pre e1 o _ _ (K & Cs & Cb) _. split; [exact K|]. split; intros; apply asked_more; eauto.
Qed.

Lemma burnt_fine k f : 0 < reduction -> 0 <= k_tokens k -> 0 <= f -> burnt reduction k (power reduction k) f = fine_of reduction k f.
Proof.
  clear rank acc_of keccak recover.
  intros R T F. unfold burnt, fine_of, power. destruct (k_status k).
  - assert (0 <= k_tokens k / reduction * reduction * f / UNIT); [|lia]. apply Z.div_pos; [|reflexivity]. apply Z.mul_nonneg_nonneg; [|exact F].
    apply Z.mul_nonneg_nonneg; [apply Z.div_pos; lia|lia].
  - cbn [Z.mul]. rewrite Z.div_0_l by discriminate. lia.
  - cbn [Z.mul]. rewrite Z.div_0_l by discriminate. lia.
Qed.
End Proofs.
