(* The stored set follows the voting power; who is judged and slashed; confirmations. *)
From Coq Require Import Sorting.Sorted.
From Verif Require Import Lib.Base Lib.Zmap Hyperion.Valset Hyperion.ValsetSpec Hyperion.ValsetProofs Hyperion.ValsetRuns.
Open Scope Z_scope.

Section Code.
Variable rank acc_of : Z -> Z.
Notation mrun := (mrun rank acc_of).
Notation mstep := (mstep rank acc_of).
Notation step := (step rank acc_of).
Notation run := (run rank acc_of).

Lemma pruned_fields b b' : only_pruned b b' -> b_latest b' = b_latest b /\ b_slashed b' = b_slashed b /\ b_confs b' = b_confs b /\
  b_orch b' = b_orch b /\ b_eth b' = b_eth b /\ b_observed b' = b_observed b.
Proof. intros [f ->]. repeat split. Qed.
Lemma current_keys b b' l : b_eth b' = b_eth b -> current rank b' l = current rank b l.
Proof. intro E. unfold current, registered. rewrite E. reflexivity. Qed.

(* a set that is not older than the observed one survives the prunings *)
Lemma away_keeps h ms : forall s s' e v, Forall (away h) ms -> all_keyed s -> mrun s ms = Ok (s', e) ->
  zget (b_sets (s_br s h)) (v_nonce v) = Some v -> (forall n, b_observed (s_br s h) = Some n -> n <= v_nonce v) ->
  zget (b_sets (s_br s' h)) (v_nonce v) = Some v.
Proof.
  induction ms as [|m ms IH]; intros s s' e v F K R G O; cbn [ValsetRuns.mrun] in R.
  - injection R as <- <-. exact G.
  - inversion F as [|? ? Fm Fr]; subst. destruct (mstep s m) as [[s1 e1]| |] eqn:E1; [|discriminate|discriminate].
    destruct (mrun s1 ms) as [[s2 e2]| |] eqn:E2; [|discriminate|discriminate]. injection R as <- <-.
    pose proof (away_step rank acc_of h s m s1 e1 Fm E1) as (P1 & _).
    apply (IH s1 s2 e2 v Fr); [|exact E2| |].
    + eapply mstep_keyed; [exact K|exact E1|]. destruct m; try exact Logic.I. destruct Fm.
    + clear IH E2. destruct m; cbn [away] in Fm; try contradiction; cbn [ValsetRuns.mstep] in E1.
      * injection E1 as <- <-. unfold reset. destruct (p_reset p); [rewrite put_other by congruence|]; exact G.
      * injection E1 as E1. destruct (slash_events _ _ _ _ _ _ _ E1) as (_ & _ & _ & Fr' & _). rewrite Fr' by congruence. exact G.
      * apply create_cases in E1 as (ms' & _ & [(-> & _)|(x & _ & -> & _)]); [exact G|rewrite put_other by congruence; exact G].
      * injection E1 as E1. unfold prune_one in E1. destruct (b_observed (s_br s h0)) as [n|] eqn:On; [|injection E1 as <- <-; exact G].
        destruct (s_height s <? w); injection E1 as <- <-; [exact G|]. destruct (Z.eq_dec h h0) as [Eh|N]; [|rewrite put_other by exact N; exact G]. subst h0.
        rewrite put_same. cbn [with_sets b_sets]. rewrite filter_get by exact (proj1 (K h)). rewrite G. cbn [snd]. unfold stale.
        specialize (O n On). destruct (Z.ltb_spec (v_nonce v) n); [lia|]. reflexivity.
    + destruct (pruned_fields _ _ P1) as (_ & _ & _ & _ & _ & ->). exact O.
Qed.

Lemma block_follows s b u ps s' e p ms :
  all_keyed s -> step s (OBlock b u ps) = Ok (s', e) -> NoDup (map p_h ps) -> In p ps ->
  current rank (s_br s (p_h p)) b = Ok ms -> ms <> [] ->
  (forall n, b_observed (s_br s' (p_h p)) = Some n -> n <= b_latest (s_br s' (p_h p))) ->
  exists v, zget (b_sets (s_br s' (p_h p))) (b_latest (s_br s' (p_h p))) = Some v /\
    ((v_members v = ms /\ v_height v = s_height s) \/
     (s_unbond s <> s_height s /\ zget (b_sets (s_br s (p_h p))) (b_latest (s_br s (p_h p))) = Some v /\ big_change ms (v_members v) = false)).
Proof.
  intros K R N Hp Cur Ne Ob.
  destruct (block_parts rank acc_of s b u ps s' e (p_h p) R N) as [(I & _)|(q & r1 & r2 & s1 & e1 & s2 & e2 & s3 & e3 & s4 & e4 & Eq & Eps & R1 & R2 & R3 & R4 & -> & -> & N1 & N2)].
  - exfalso. apply I. apply in_map. exact Hp.
  - assert (q = p) as ->.
    { rewrite Eps in Hp. apply in_app_iff in Hp as [Hp|[Hp|Hp]]; [exfalso; apply N1; apply in_map; exact Hp|exact Hp|exfalso; apply N2; apply in_map; exact Hp]. }
    set (h := p_h p) in *. cbn [s_br] in Ob |- *.
    pose proof (away_run rank acc_of h _ s s1 e1 (away_chains _ ps b u r1 N1) R1) as (P1 & H1 & U1 & _).
    pose proof (away_run rank acc_of h _ s3 s4 e4 (tail_away _ ps b u p r2 N2) R4) as (P4 & H4 & U4 & _).
    assert (all_keyed s1) as K1.
    { eapply mrun_keyed; [|exact K|exact R1]. pose proof (away_chains h ps b u r1 N1) as F. eapply Forall_impl; [|exact F]. intros m A. destruct m; try exact Logic.I. destruct A. }
    destruct (reset_frame p s1) as (Hr & Ur & Lr & Sr & Pr). fold h in Lr, Sr, Pr.
    destruct (slash_events _ _ _ _ _ _ _ R2) as (_ & _ & _ & _ & H2 & U2 & B2). fold h in B2.
    assert (all_keyed s2) as K2.
    { assert (all_keyed (reset p s1)) as Kr by (eapply (mstep_keyed rank acc_of s1 (MReset p)); [exact K1|reflexivity|exact Logic.I]).
      eapply (mstep_keyed rank acc_of (reset p s1) (MSlash p b u)); [exact Kr|cbn; rewrite R2; reflexivity|exact Logic.I]. }
    assert (all_keyed s3) as K3 by (eapply (mstep_keyed rank acc_of s2 (MCreate p b)); [exact K2|exact R3|exact Logic.I]).
    assert (b_eth (s_br s2 h) = b_eth (s_br s h)) as Ee.
    { rewrite B2. cbn [with_slashed b_eth]. destruct (pruned_fields _ _ Pr) as (_ & _ & _ & _ & -> & _). destruct (pruned_fields _ _ P1) as (_ & _ & _ & _ & -> & _). reflexivity. }
    assert (b_latest (s_br s2 h) = b_latest (s_br s h)) as El.
    { rewrite B2. cbn [with_slashed b_latest]. rewrite Lr. destruct (pruned_fields _ _ P1) as (-> & _). reflexivity. }
    assert (forall n v, zget (b_sets (s_br s2 h)) n = Some v -> zget (b_sets (s_br s h)) n = Some v) as Es.
    { intros n v. rewrite B2. cbn [with_slashed b_sets]. intro G. eapply pruned_get; [apply K|exact P1|]. eapply pruned_get; [apply K1|exact Pr|exact G]. }
    destruct (pruned_fields _ _ P4) as (L4 & _ & _ & _ & _ & O4). rewrite L4, O4 in Ob. rewrite L4.
    apply create_cases in R3 as (ms' & Cur' & D). fold h in Cur', D. rewrite (current_keys _ _ b Ee), Cur in Cur'. injection Cur' as <-.
    destruct D as [(-> & _ & [->|(v & G & U & B)])|(v & Ev & E3 & _ & _ & _)].
    + congruence.
    + assert (v_nonce v = b_latest (s_br s2 h)) as Nv by (apply (K2 h); exact G). exists v. split.
      * rewrite <- Nv. apply (away_keeps h _ s2 s4 e4 v (tail_away _ ps b u p r2 N2) K2 R4); rewrite Nv; [exact G|exact Ob].
      * right. split; [congruence|]. split; [|exact B]. rewrite <- El. apply Es. exact G.
    + exists v. assert (s_br s3 h = store_set (s_br s2 h) v) as B3 by (rewrite E3; apply put_same).
      assert (b_latest (s_br s3 h) = v_nonce v) as L3 by (rewrite B3; reflexivity). split.
      * rewrite L3 in *. apply (away_keeps h _ s3 s4 e4 v (tail_away _ ps b u p r2 N2) K3 R4); [|exact Ob].
        rewrite B3. cbn [store_set with_sets b_sets]. apply zget_zset_same.
      * left. subst v. cbn [v_members v_height]. split; [reflexivity|congruence].
Qed.

(* ------------------------------------------------------------------ *)
(* Who is slashed                                                      *)

Lemma started_iff o v : started o v = true <-> exists t, o = Some t /\ t < v_height v.
Proof.
  unfold started. destruct o as [t|]; split.
  - intro H. exists t. split; [reflexivity|lia].
  - intros (t' & E & H). injection E as ->. lia.
  - discriminate.
  - intros (t' & E & _). discriminate.
Qed.
Lemma not_confirmed b v w : confirmed b (confs_of b (v_nonce v)) w = false <->
  (forall c e, In c (b_confs b) -> cf_nonce c = v_nonce v -> zget (b_eth b) w = Some e -> cf_eth c <> e).
Proof.
  unfold confirmed, confs_of. split.
  - intros H c e Hc Hn He E. assert (existsb (fun c => match zget (b_eth b) w with Some e => cf_eth c =? e | None => false end) (filter (fun c => cf_nonce c =? v_nonce v) (b_confs b)) = true) as T; [|congruence].
    apply existsb_exists. exists c. split; [apply filter_In; split; [exact Hc|lia]|]. rewrite He. lia.
  - intro H. destruct (existsb _ _) eqn:T; [|reflexivity]. apply existsb_exists in T as (c & Hc & T). apply filter_In in Hc as [Hc Hn].
    destruct (zget (b_eth b) w) as [e|] eqn:He; [|discriminate]. exfalso. apply (H c e Hc); lia || reflexivity.
Qed.
Lemma punish_bonded_iff b v x : punish_bonded acc_of b v x = true <-> owes acc_of b v x.
Proof.
  unfold punish_bonded, owes. rewrite !andb_true_iff, negb_true_iff, started_iff. destruct (zget (b_orch b) (acc_of (sv_op x))) as [w|]; split.
  - rewrite negb_true_iff, not_confirmed. intros [[A B] C]. split; [exact A|]. split; [exact B|]. exists w. auto.
  - intros (A & B & w' & E & C). injection E as <-. split; [auto|]. rewrite negb_true_iff, not_confirmed. exact C.
  - intros [_ D]. discriminate.
  - intros (_ & _ & w & E & _). discriminate.
Qed.
Lemma punish_unbonding_iff p b v x : punish_unbonding acc_of p b v x = true <-> owes_leaving acc_of p b v x.
Proof.
  unfold punish_unbonding, owes_leaving. destruct (zget (b_orch b) (acc_of (uv_op x))) as [w|].
  - rewrite !andb_true_iff, negb_true_iff, started_iff, not_confirmed. split.
    + intros [[[A B] C] D]. split; [exact B|]. split; [exact A|]. split; [lia|]. split; [exists w; reflexivity|exact D].
    + intros (B & A & C & _ & D). split; [split; [split; [exact A|exact B]|lia]|exact D].
  - split; [discriminate|]. intros (_ & _ & _ & [w E] & _). discriminate.
Qed.
Lemma punished_iff p b bonded unb v o : In o (punished acc_of p b bonded unb v) <->
  (exists x, In x bonded /\ sv_op x = o /\ owes acc_of b v x) \/ (exists x, In x unb /\ uv_op x = o /\ owes_leaving acc_of p b v x).
Proof.
  unfold punished. rewrite in_app_iff, !in_map_iff. split; (intros [(x & A & B)|(x & A & B)]; [left|right]); exists x.
  - apply filter_In in B as [B C]. apply punish_bonded_iff in C. auto.
  - apply filter_In in B as [B C]. apply punish_unbonding_iff in C. auto.
  - split; [tauto|]. apply filter_In. split; [exact A|]. apply punish_bonded_iff. tauto.
  - split; [tauto|]. apply filter_In. split; [exact A|]. apply punish_unbonding_iff. tauto.
Qed.
Lemma owes_same b b' v x : b_confs b' = b_confs b -> b_orch b' = b_orch b -> b_eth b' = b_eth b -> owes acc_of b' v x <-> owes acc_of b v x.
Proof. intros A B C. unfold owes. rewrite A, B, C. reflexivity. Qed.
Lemma owes_leaving_same p b b' v x : b_confs b' = b_confs b -> b_orch b' = b_orch b -> b_eth b' = b_eth b -> owes_leaving acc_of p b' v x <-> owes_leaving acc_of p b v x.
Proof. intros A B C. unfold owes_leaving. rewrite A, B, C. reflexivity. Qed.

Definition guilty (p : cparams) (bonded : list sval) (unb : list uval) (b : bridge) (v : valset) (o : Z) : Prop :=
  (exists x, In x bonded /\ sv_op x = o /\ owes acc_of b v x) \/ (exists x, In x unb /\ uv_op x = o /\ owes_leaving acc_of p b v x).
Lemma guilty_same p bonded unb b b' v o : b_confs b' = b_confs b -> b_orch b' = b_orch b -> b_eth b' = b_eth b ->
  guilty p bonded unb b' v o <-> guilty p bonded unb b v o.
Proof.
  intros A B C. unfold guilty. split; (intros [(x & X & Y & W)|(x & X & Y & W)]; [left|right]; exists x; (split; [exact X|]); (split; [exact Y|])).
  - apply (owes_same b b'); assumption.
  - apply (owes_leaving_same p b b'); assumption.
  - apply (owes_same b b'); assumption.
  - apply (owes_leaving_same p b b'); assumption.
Qed.

Lemma slash_who p bonded unb s s' e n o : keyed (s_br s (p_h p)) -> slash acc_of p bonded unb s = (s', e) ->
  (In (EvSlash (p_h p) n o) e <-> p_window p < s_height s /\
     exists v, zget (b_sets (s_br s (p_h p))) n = Some v /\ b_slashed (s_br s (p_h p)) < n < s_height s - p_window p /\ guilty p bonded unb (s_br s (p_h p)) v o).
Proof.
  intros K. unfold slash. destruct (Z.ltb_spec (p_window p) (s_height s)) as [W|W]; intro R; injection R as <- <-.
  - rewrite in_flat_map. split.
    + intros (v & Hv & H). split; [exact W|]. apply in_app_iff in H as [H|[H|[]]]; [|discriminate]. apply in_map_iff in H as (o' & E & H). injection E as E1 E2. subst o' n.
      apply (unslashed_in _ _ _ K) in Hv as [G L]. exists v. split; [exact G|]. split; [exact L|]. apply punished_iff. exact H.
    + intros (_ & v & G & L & H). pose proof (proj2 K _ _ G) as Nv. subst n. exists v. split; [apply (unslashed_in _ _ _ K); auto|]. apply in_app_iff. left.
      apply in_map. apply punished_iff. exact H.
  - split; [intros []|]. intros [H _]. lia.
Qed.

Lemma away_keyed h ms s s' e : Forall (away h) ms -> all_keyed s -> mrun s ms = Ok (s', e) -> all_keyed s'.
Proof. intros F. apply mrun_keyed. eapply Forall_impl; [|exact F]. intros m A. destruct m; try exact Logic.I. destruct A. Qed.

Lemma block_slashes s b u ps s' e h n o : all_keyed s -> step s (OBlock b u ps) = Ok (s', e) -> NoDup (map p_h ps) ->
  In (EvSlash h n o) e ->
  exists p v, In p ps /\ p_h p = h /\ zget (b_sets (s_br s h)) n = Some v /\ b_slashed (s_br s h) < n /\ n + p_window p < s_height s /\
    guilty p b u (s_br s h) v o.
Proof.
  intros K R N H.
  destruct (block_parts rank acc_of s b u ps s' e h R N) as [(_ & _ & _ & X)|(p & r1 & r2 & s1 & e1 & s2 & e2 & s3 & e3 & s4 & e4 & Eq & Eps & R1 & R2 & R3 & R4 & -> & -> & N1 & N2)].
  - exfalso. exact (X _ H eq_refl).
  - subst h. pose proof (away_run rank acc_of (p_h p) _ s s1 e1 (away_chains _ ps b u r1 N1) R1) as (P1 & H1 & _ & X1).
    pose proof (away_run rank acc_of (p_h p) _ s3 s4 e4 (tail_away _ ps b u p r2 N2) R4) as (_ & _ & _ & X4).
    assert (In (EvSlash (p_h p) n o) e2) as H2.
    { rewrite !in_app_iff in H. destruct H as [H|[H|[H|H]]]; [exfalso; exact (X1 _ H eq_refl)|exact H| |exfalso; exact (X4 _ H eq_refl)].
      apply create_cases in R3 as (ms & _ & [(_ & -> & _)|(v & _ & _ & -> & _)]); [destruct H|destruct H as [H|[]]; discriminate]. }
    pose proof (away_keyed _ _ _ _ _ (away_chains _ ps b u r1 N1) K R1) as K1.
    assert (all_keyed (reset p s1)) as Kr by (eapply (mstep_keyed rank acc_of s1 (MReset p)); [exact K1|reflexivity|exact Logic.I]).
    destruct (reset_frame p s1) as (Hr & _ & _ & Sr & Pr).
    apply (slash_who _ _ _ _ _ _ _ _ (Kr _) R2) in H2 as (W & v & G & L & Gu). exists p, v.
    split; [rewrite Eps; apply in_app_iff; right; left; reflexivity|]. split; [reflexivity|].
    split; [eapply pruned_get; [apply K|exact P1|]; eapply pruned_get; [apply K1|exact Pr|exact G]|].
    destruct (pruned_fields _ _ P1) as (_ & S1 & C1 & O1 & E1 & _). destruct (pruned_fields _ _ Pr) as (_ & S2 & C2 & O2 & E2 & _).
    rewrite S2, S1 in L. rewrite Hr, H1 in *. split; [lia|]. split; [lia|]. eapply guilty_same; [| | |exact Gu]; congruence.
Qed.

Lemma block_slashes_first s b u p r s' e n v o : all_keyed s -> step s (OBlock b u (p :: r)) = Ok (s', e) -> p_reset p = false ->
  zget (b_sets (s_br s (p_h p))) n = Some v -> b_slashed (s_br s (p_h p)) < n -> 0 < n -> n + p_window p < s_height s ->
  guilty p b u (s_br s (p_h p)) v o -> In (EvSlash (p_h p) n o) e /\ In (EvJudged (p_h p) n (v_height v) (s_height s)) e.
Proof.
  intros K R Nr G L Pos W Gu. cbn [Valset.step] in R. rewrite chains_micro in R. cbn [flat_map] in R. unfold chain_micros at 1 in R.
  cbn [app ValsetRuns.mrun ValsetRuns.mstep] in R. destruct (slash acc_of p b u (reset p s)) as [s2 e2] eqn:E2.
  assert (reset p s = s) as Er by (unfold reset; rewrite Nr; reflexivity). rewrite Er in E2.
  destruct (create rank p b s2) as [[s3 e3]| |]; [|discriminate|discriminate].
  match type of R with context [ValsetRuns.mrun rank acc_of s3 ?x] => destruct (ValsetRuns.mrun rank acc_of s3 x) as [[s4 e4]| |]; [|discriminate|discriminate] end.
  injection R as <- <-. assert (In (EvSlash (p_h p) n o) e2) as A.
  { apply (slash_who _ _ _ _ _ _ _ _ (K _) E2). split; [lia|]. exists v. split; [exact G|]. split; [lia|exact Gu]. }
  assert (In (EvJudged (p_h p) n (v_height v) (s_height s)) e2) as B.
  { unfold slash in E2. destruct (Z.ltb_spec (p_window p) (s_height s)); [|lia]. injection E2 as _ <-. apply in_flat_map. exists v.
    pose proof (proj2 (K _) _ _ G) as Nv. split; [apply (unslashed_in _ _ _ (K _)); rewrite Nv; split; [exact G|lia]|]. apply in_app_iff. right. left. rewrite Nv. reflexivity. }
  cbn [app]. split; apply in_app_iff; left; assumption.
Qed.

(* ------------------------------------------------------------------ *)
(* Never early                                                         *)

Definition window_at_least (h w : Z) (x : op) : Prop :=
  match x with OBlock _ _ ps => forall p, In p ps -> p_h p = h -> w <= p_window p | _ => True end.
Definition mwindow (h w : Z) (m : micro) : Prop := plain_micro m /\ match m with MSlash p _ _ => p_h p = h -> w <= p_window p | _ => True end.
Lemma mwindow_micros h w os : Forall (window_at_least h w) os -> Forall (mwindow h w) (flat_map micros os).
Proof.
  intro F. apply Forall_forall. intros m Hm. split; [pose proof (all_micros_plain os) as A; rewrite Forall_forall in A; auto|].
  apply in_flat_map in Hm as (o & Ho & Hm). rewrite Forall_forall in F. specialize (F o Ho).
  destruct o; cbn [micros] in Hm; try (destruct Hm as [<-|[]]; exact Logic.I). apply in_app_iff in Hm as [Hm|[<-|[]]]; [|exact Logic.I].
  apply in_flat_map in Hm as (p & Hp & Hm). destruct Hm as [Hm|[Hm|[Hm|Hm]]]; [subst m; exact Logic.I|subst m|subst m; exact Logic.I|].
  - intro E. apply F; assumption.
  - apply in_map_iff in Hm as (x & <- & _). exact Logic.I.
Qed.
Lemma never_early h0 os s evs h w : run (init h0) os = Ok (s, evs) -> Forall (window_at_least h w) os ->
  forall n made now, In (EvJudged h n made now) evs -> n + w < now.
Proof.
  rewrite run_micro. intros R F.
  refine (proj2 (mrun_inv rank acc_of (fun s evs => all_keyed s /\ forall n made now, In (EvJudged h n made now) evs -> n + w < now) (mwindow h w) _ _ (init h0) [] s evs (mwindow_micros h w os F) _ R)).
  - intros s1 ev m s2 e [P W] [K I] E. split; [eapply mstep_keyed; eassumption|]. intros n made now H. apply in_app_iff in H as [H|H]; [eauto|].
    destruct m; cbn [ValsetRuns.mstep] in E.
    + injection E as <- <-. destruct H.
    + injection E as E. unfold slash in E. destruct (Z.ltb_spec (p_window p) (s_height s1)); injection E as <- <-; [|destruct H].
      apply in_flat_map in H as (v & Hv & H). apply in_app_iff in H as [H|[H|[]]]; [apply in_map_iff in H as (o & H & _); discriminate|].
      injection H as A B C D. subst. apply (unslashed_in _ _ _ (K _)) in Hv. specialize (W eq_refl). lia.
    + apply create_cases in E as (ms & _ & [(_ & -> & _)|(v & _ & _ & -> & _)]); [destruct H|destruct H as [H|[]]; discriminate].
    + injection E as E. unfold prune_one in E. destruct (b_observed (s_br s1 h1)); [destruct (s_height s1 <? w0)|]; injection E as _ <-; try destruct H.
      apply in_map_iff in H as (x & H & _). discriminate.
    + injection E as <- <-. destruct H.
    + destruct (step s1 o) as [[s3 e3]| |] eqn:Es; [|injection E as <- <-; destruct H|discriminate]. injection E as <- <-.
      destruct (msg_frame rank acc_of s1 o s3 e3 h P Es) as (-> & _). destruct H.
  - split; [apply init_keyed|]. intros n made now [].
Qed.

(* ------------------------------------------------------------------ *)
(* The first chain: judged before it is pruned                         *)

Definition pruned_after (h : Z) (evs : list event) : Prop :=
  forall a n c, evs = a ++ EvPruned h n :: c -> In n (judged h a).
Lemma split_app {A} (a c l k : list A) x : l ++ k = a ++ x :: c -> (exists c1, l = a ++ x :: c1) \/ exists a2, a = l ++ a2 /\ k = a2 ++ x :: c.
Proof.
  revert a. induction l as [|y l IH]; intros a E; [right; exists a; auto|]. destruct a as [|z a]; cbn [app] in E.
  - injection E as -> E. left. exists l. reflexivity.
  - injection E as -> E. destruct (IH a E) as [[c1 ->]|(a2 & -> & ->)]; [left; exists c1; reflexivity|right; exists a2; auto].
Qed.
Lemma pruned_after_app h evs e : pruned_after h evs -> (forall n, In (EvPruned h n) e -> In n (judged h evs)) -> pruned_after h (evs ++ e).
Proof.
  intros P Q a n c E. destruct (split_app _ _ _ _ _ E) as [[c1 E1]|(a2 & -> & E2)]; [eapply P; exact E1|].
  rewrite judged_app, in_app_iff. left. apply Q. rewrite E2. apply in_app_iff. right. left. reflexivity.
Qed.

Section First.
Variable h w : Z.
Definition first_inv (k f : Z) (s : st) (evs : list event) : Prop :=
  all_keyed s /\ 0 < s_height s /\ b_slashed (s_br s h) < s_height s /\
  (forall v, In v (created h evs) -> v_nonce v = v_height v /\ 0 < v_nonce v < k /\
     (In (v_nonce v) (judged h evs) \/ (zget (b_sets (s_br s h)) (v_nonce v) = Some v /\ b_slashed (s_br s h) < v_nonce v /\ f <= v_nonce v + w))) /\
  (forall n v, zget (b_sets (s_br s h)) n = Some v -> In v (created h evs)) /\
  pruned_after h evs.

(* a step that leaves bridge h alone, except by pruning *)
Lemma first_away k s evs m s' e : away h m -> (match m with MPrune w' _ => w' = w | _ => True end) ->
  first_inv k (s_height s) s evs -> mstep s m = Ok (s', e) -> first_inv k (s_height s') s' (evs ++ e).
Proof.
  intros A Wm (K & Hp & Sl & C & St & Pa) R. pose proof (away_step rank acc_of h s m s' e A R) as (P & Hh & _ & X).
  assert (plain_micro m) as Pm by (destruct m; try exact Logic.I; destruct A).
  assert (all_keyed s') as K' by (eapply mstep_keyed; eassumption). destruct (pruned_fields _ _ P) as (_ & Es & _).
  split; [exact K'|]. rewrite Hh, Es. split; [exact Hp|]. split; [exact Sl|].
  assert (created h (evs ++ e) = created h evs) as Ec by (rewrite created_app, (no_created _ _ X), app_nil_r; reflexivity).
  assert (judged h (evs ++ e) = judged h evs) as Ej by (rewrite judged_app, (no_judged _ _ X), app_nil_r; reflexivity).
  rewrite Ec, Ej.
  assert (forall n v, zget (b_sets (s_br s' h)) n = Some v -> In v (created h evs)) as St'.
  { intros n v G. eapply St. eapply pruned_get; [apply K|exact P|exact G]. }
  destruct m; cbn [away] in A; try contradiction.
  1,2,3: split; [|split; [exact St'|apply pruned_after_app; [exact Pa|]]].
  - cbn [ValsetRuns.mstep] in R. injection R as <- <-. unfold reset. destruct (p_reset p); [rewrite put_other by congruence|]; exact C.
  - cbn [ValsetRuns.mstep] in R. injection R as <- <-. intros n [].
  - cbn [ValsetRuns.mstep] in R. injection R as R. destruct (slash_events _ _ _ _ _ _ _ R) as (_ & _ & _ & Fr & _). rewrite Fr by congruence. exact C.
  - cbn [ValsetRuns.mstep] in R. injection R as R. unfold slash in R. destruct (p_window p <? s_height s); injection R as <- <-; [|intros n []].
    intros n H. apply in_flat_map in H as (v & _ & H). apply in_app_iff in H as [H|[H|[]]]; [apply in_map_iff in H as (o & H & _)|]; discriminate.
  - cbn [ValsetRuns.mstep] in R. apply create_cases in R as (ms' & _ & [(-> & _)|(x & _ & -> & _)]); [exact C|rewrite put_other by congruence; exact C].
  - cbn [ValsetRuns.mstep] in R. apply create_cases in R as (ms' & _ & [(_ & -> & _)|(x & _ & _ & -> & _)]); intros n H; [destruct H|destruct H as [H|[]]; discriminate].
  - subst w0. cbn [ValsetRuns.mstep] in R. injection R as R. unfold prune_one in R.
    destruct (b_observed (s_br s h0)) as [ob|] eqn:Ob.
    2:{ injection R as <- <-. split; [exact C|]. split; [exact St|]. rewrite app_nil_r. exact Pa. }
    destruct (Z.ltb_spec (s_height s) w); injection R as <- <-.
    { split; [exact C|]. split; [exact St|]. rewrite app_nil_r. exact Pa. }
    destruct (Z.eq_dec h h0) as [Eh|N].
    + subst h0. assert (forall v, In v (created h evs) -> stale w (s_height s) ob v = true -> In (v_nonce v) (judged h evs)) as Key.
      { intros v Hv Sv. destruct (C v Hv) as (E1 & E2 & [J|(G & L & Fv)]); [exact J|]. exfalso. unfold stale in Sv. lia. }
      split; [|split; [exact St'|]].
      * intros v Hv. destruct (C v Hv) as (E1 & E2 & D). split; [exact E1|]. split; [exact E2|].
        destruct (stale w (s_height s) ob v) eqn:Sv; [left; apply Key; assumption|]. destruct D as [J|(G & L & Fv)]; [left; exact J|]. right.
        rewrite put_same. cbn [with_sets b_sets]. rewrite filter_get by exact (proj1 (K h)). rewrite G. cbn [snd]. rewrite Sv. auto.
      * apply pruned_after_app; [exact Pa|]. intros n H1. apply in_map_iff in H1 as ([k' v] & E1 & H1). cbn [snd] in E1. injection E1 as E1. subst n.
        apply filter_In in H1 as [H1 Sv]. apply Key; [|exact Sv]. apply (St k'). apply in_zget; [exact (proj1 (K h))|exact H1].
    + split; [|split; [exact St'|]].
      * rewrite put_other by exact N. exact C.
      * apply pruned_after_app; [exact Pa|]. intros n H1. apply in_map_iff in H1 as (y & E1 & _). congruence.
Qed.
Lemma first_away_run k ms : forall s evs s' e, Forall (away h) ms -> Forall (fun m => match m with MPrune w' _ => w' = w | _ => True end) ms ->
  first_inv k (s_height s) s evs -> mrun s ms = Ok (s', e) -> first_inv k (s_height s') s' (evs ++ e).
Proof.
  induction ms as [|m ms IH]; intros s evs s' e F1 F2 I R; cbn [ValsetRuns.mrun] in R.
  - injection R as <- <-. rewrite app_nil_r. exact I.
  - inversion F1; subst. inversion F2; subst. destruct (mstep s m) as [[s1 e1]| |] eqn:E1; [|discriminate|discriminate].
    destruct (mrun s1 ms) as [[s2 e2]| |] eqn:E2; [|discriminate|discriminate]. injection R as <- <-. rewrite app_assoc.
    eapply IH; [assumption|assumption| |exact E2]. eapply first_away; eassumption.
Qed.

Lemma first_slash p b u s evs s' e : p_h p = h -> p_window p = w -> 0 <= w ->
  first_inv (s_height s) (s_height s - 1) s evs -> slash acc_of p b u s = (s', e) -> first_inv (s_height s') (s_height s') s' (evs ++ e).
Proof.
  intros Eh Ew Wp (K & Hp & Sl & C & St & Pa) R. pose proof (slash_events _ _ _ _ _ _ _ R) as (_ & Cr & J & _ & Hh & _ & B). rewrite Eh in *.
  rewrite <- Eh in B, J. rewrite Eh in B, J.
  assert (all_keyed s') as K' by (eapply (mstep_keyed rank acc_of s (MSlash p b u)); [exact K|cbn; rewrite R; reflexivity|exact Logic.I]).
  assert (forall x, In x (judged h e) -> b_slashed (s_br s h) < x /\ x < s_height s - w) as Jb.
  { intros x Hx. rewrite J in Hx. destruct (p_window p <? s_height s); [|destruct Hx]. apply in_map_iff in Hx as (v & <- & Hv). apply (unslashed_in _ _ _ (K _)) in Hv. lia. }
  assert (StronglySorted Z.lt (judged h e)) as Js.
  { rewrite J. destruct (p_window p <? s_height s); [apply unslashed_sorted; apply K|constructor]. }
  pose proof (last_max (judged h e) (b_slashed (s_br s h)) Js (fun x Hx => proj1 (Jb x Hx))) as [M1 M2].
  split; [exact K'|]. rewrite Hh, B. cbn [with_slashed b_slashed b_sets]. split; [exact Hp|]. split.
  { destruct M2 as [M2|M2]; [lia|]. specialize (Jb _ M2). lia. }
  rewrite created_app, (Cr h), app_nil_r. split; [|split; [exact St|apply pruned_after_app; [exact Pa|]]].
  - intros v Hv. destruct (C v Hv) as (E1 & E2 & D). split; [exact E1|]. split; [exact E2|]. rewrite judged_app, in_app_iff.
    destruct D as [Jv|(G & L & Fv)]; [auto|].
    destruct (in_dec Z.eq_dec (v_nonce v) (judged h e)) as [I|I]; [auto|]. right. split; [exact G|].
    assert (s_height s <= v_nonce v + w) as Fr.
    { destruct (Z_lt_le_dec (v_nonce v + w) (s_height s)) as [Lt|]; [|lia]. exfalso. apply I. rewrite J.
      destruct (Z.ltb_spec (p_window p) (s_height s)); [|lia]. apply in_map. apply (unslashed_in _ _ _ (K _)). split; [exact G|lia]. }
    split; [|exact Fr]. destruct M2 as [M2|M2]; [rewrite <- M2; exact L|]. specialize (Jb _ M2). lia.
  - intros n H. unfold slash in R. destruct (p_window p <? s_height s); injection R as <- <-; [|destruct H].
    apply in_flat_map in H as (v & _ & H). apply in_app_iff in H as [H|[H|[]]]; [apply in_map_iff in H as (o & H & _)|]; discriminate.
Qed.

Lemma first_create p b s evs s' e : p_h p = h -> p_offset p = 0 -> 0 <= w ->
  first_inv (s_height s) (s_height s) s evs -> create rank p b s = Ok (s', e) -> first_inv (s_height s' + 1) (s_height s') s' (evs ++ e).
Proof.
  intros Eh Eo Wp (K & Hp & Sl & C & St & Pa) R.
  assert (all_keyed s') as K' by (eapply (mstep_keyed rank acc_of s (MCreate p b)); [exact K|exact R|exact Logic.I]).
  apply create_cases in R as (ms & _ & [(-> & -> & _)|(x & Ex & -> & -> & _)]).
  - rewrite app_nil_r. split; [exact K|]. split; [exact Hp|]. split; [exact Sl|]. split; [|auto]. intros v Hv. destruct (C v Hv) as (E1 & E2 & D). split; [exact E1|]. split; [lia|exact D].
  - rewrite Eh in *. assert (v_nonce x = s_height s /\ v_height x = s_height s) as [Nx Hx] by (subst x; cbn; lia). clear Ex.
    split; [exact K'|]. rewrite put_same. cbn [put s_height store_set with_sets b_sets b_slashed]. split; [exact Hp|]. split; [exact Sl|].
    assert (created h [EvSet h x (v_nonce x + p_offset p)] = [x]) as Ec by (cbn [created flat_map app]; rewrite Z.eqb_refl; reflexivity).
    rewrite created_app, Ec, judged_app. cbn [judged flat_map]. rewrite app_nil_r. fold (judged h evs). split; [|split].
    + intros v Hv. rewrite zget_zset. apply in_app_iff in Hv as [Hv|[Hv|[]]].
      * destruct (C v Hv) as (E1 & E2 & D). split; [exact E1|]. split; [lia|]. destruct (Z.eqb_spec (v_nonce x) (v_nonce v)); [lia|exact D].
      * subst x. rewrite Z.eqb_refl. split; [lia|]. split; [lia|]. right. split; [reflexivity|]. lia.
    + intros n v. rewrite zget_zset, in_app_iff. destruct (v_nonce x =? n); [intro G; injection G as ->; right; left; reflexivity|intro G; left; eapply St; exact G].
    + apply pruned_after_app; [exact Pa|]. intros n [H|[]]. discriminate.
Qed.

Lemma first_block p r b u s evs s' e : p_h p = h -> 0 <= w -> Forall (plain w) (p :: r) -> NoDup (map p_h (p :: r)) ->
  first_inv (s_height s) (s_height s - 1) s evs -> step s (OBlock b u (p :: r)) = Ok (s', e) -> first_inv (s_height s') (s_height s' - 1) s' (evs ++ e).
Proof.
  intros Eh Wp F N I R. inversion F as [|? ? (Po & Pw & Pr) F']; subst x l. inversion N as [|? ? N1 N2]; subst x l.
  cbn [Valset.step] in R. rewrite chains_micro in R. cbn [flat_map] in R. unfold chain_micros at 1 in R. rewrite <- app_comm_cons in R. rewrite <- app_comm_cons in R. rewrite <- app_comm_cons in R.
  cbn [ValsetRuns.mrun ValsetRuns.mstep] in R. destruct (slash acc_of p b u (reset p s)) as [s2 e2] eqn:E2.
  assert (reset p s = s) as Er by (unfold reset; rewrite Pr; reflexivity). rewrite Er in E2.
  destruct (create rank p b s2) as [[s3 e3]| |] eqn:E3; [|discriminate|discriminate].
  match type of R with context [ValsetRuns.mrun rank acc_of s3 ?x] => set (tl := x) in R; destruct (ValsetRuns.mrun rank acc_of s3 tl) as [[s4 e4]| |] eqn:E4; [|discriminate|discriminate] end.
  injection R as <- <-. cbn [app].
  pose proof (first_slash p b u s evs s2 e2 Eh Pw Wp I E2) as I2. pose proof (first_create p b s2 (evs ++ e2) s3 e3 Eh Po Wp I2 E3) as I3.
  assert (first_inv (s_height s3 + 1) (s_height s4) s4 (((evs ++ e2) ++ e3) ++ e4)) as I4.
  { eapply first_away_run; [| |exact I3|exact E4].
    - unfold tl. rewrite Eh in N1. apply tail_away. exact N1.
    - unfold tl. apply Forall_app. split; apply Forall_forall; intros m Hm.
      + apply in_map_iff in Hm as (y & <- & _). exact Pw.
      + apply in_flat_map in Hm as (q & Hq & Hm). rewrite Forall_forall in F'. destruct (F' q Hq) as (_ & Qw & _).
        destruct Hm as [Hm|[Hm|[Hm|Hm]]]; [subst m; exact Logic.I..|]. apply in_map_iff in Hm as (y & <- & _). exact Qw. }
  assert (s_height s4 = s_height s3) as H4.
  { rewrite Eh in N1. pose proof (away_run rank acc_of h tl s3 s4 e4 (tail_away h (p :: r) b u p r N1) E4) as (_ & H4 & _). exact H4. }
  rewrite <- !app_assoc in I4. destruct I4 as (K & Hp & Sl & C & St & Pa). cbn [s_height s_br].
  split; [exact K|]. split; [cbn; lia|]. split; [cbn; lia|]. split; [|auto].
  intros v Hv. destruct (C v Hv) as (A1 & A2 & D). split; [exact A1|]. split; [lia|]. destruct D as [D|(D1 & D2 & D3)]; [left; exact D|]. right. split; [exact D1|]. split; [exact D2|]. lia.
Qed.

Lemma first_msg o k f s evs s' e : is_msg o -> first_inv k f s evs -> step s o = Ok (s', e) -> first_inv k f s' (evs ++ e) /\ s_height s' = s_height s.
Proof.
  intros M (K & Hp & Sl & C & St & Pa) R. destruct (msg_frame rank acc_of s o s' e h M R) as (-> & Hh & Es & _ & Eb). rewrite app_nil_r. split; [|exact Hh].
  split; [|rewrite Hh, Es, Eb; auto 10]. eapply (mstep_keyed rank acc_of s (MMsg o)); [exact K|cbn; rewrite R; reflexivity|exact M].
Qed.

Lemma first_run p r h0 os s evs : p_h p = h -> 0 <= w -> 0 < h0 -> Forall (plain w) (p :: r) -> NoDup (map p_h (p :: r)) ->
  Forall (blocks_use (p :: r)) os -> run (init h0) os = Ok (s, evs) -> first_inv (s_height s) (s_height s - 1) s evs.
Proof.
  intros Eh Wp H0 F N B R.
  assert (forall os s0 evs0 s evs, first_inv (s_height s0) (s_height s0 - 1) s0 evs0 -> Forall (blocks_use (p :: r)) os -> run s0 os = Ok (s, evs) -> first_inv (s_height s) (s_height s - 1) s (evs0 ++ evs)) as G.
  { clear os s evs B R. induction os as [|x os IH]; intros s0 evs0 s evs I B R; cbn [Valset.run] in R.
    - injection R as <- <-. rewrite app_nil_r. exact I.
    - inversion B as [|? ? Bx Br]; subst. destruct (step s0 x) as [[s1 e1]| |] eqn:E1; [|eapply IH; eassumption|discriminate].
      destruct (run s1 os) as [[s2 e2]| |] eqn:E2; [|discriminate|discriminate]. injection R as <- <-. rewrite app_assoc.
      apply (IH s1 (evs0 ++ e1) s2 e2); [|exact Br|exact E2].
      assert (is_msg x \/ exists b u ps, x = OBlock b u ps) as [M|(b & u & ps & ->)] by (destruct x; cbn; eauto).
      + destruct (first_msg x _ _ s0 evs0 s1 e1 M I E1) as [I1 Hh]. rewrite Hh. exact I1.
      + cbn in Bx. subst ps. eapply first_block; eassumption. }
  apply (G os (init h0) [] s evs); [|exact B|exact R]. split; [apply init_keyed|]. cbn. repeat split; try lia; try contradiction; try discriminate.
  intros a n c E. destruct a; discriminate.
Qed.
End First.

(* ------------------------------------------------------------------ *)
(* Confirmations                                                       *)

Lemma mstep_confs s m s' e h : plain_micro m -> mstep s m = Ok (s', e) ->
  (b_confs (s_br s' h) = b_confs (s_br s h) /\ b_bconfs (s_br s' h) = b_bconfs (s_br s h) /\ b_batches (s_br s' h) = b_batches (s_br s h)) \/
  exists o, m = MMsg o /\ step s o = Ok (s', e).
Proof.
  intros P R. destruct m; cbn [ValsetRuns.mstep] in R; [left..|].
  - injection R as <- <-. unfold reset. destruct (p_reset p); [|auto]. destruct (Z.eq_dec h (p_h p)) as [->|N]; [rewrite put_same|rewrite put_other by exact N]; auto.
  - injection R as R. unfold slash in R. destruct (p_window p <? s_height s); injection R as <- <-; [|auto].
    destruct (Z.eq_dec h (p_h p)) as [->|N]; [rewrite put_same|rewrite put_other by exact N]; auto.
  - apply create_cases in R as (ms' & _ & [(-> & _)|(x & _ & -> & _)]); [auto|]. destruct (Z.eq_dec h (p_h p)) as [->|N]; [rewrite put_same|rewrite put_other by exact N]; auto.
  - injection R as R. destruct (prune_events _ _ _ _ _ R) as (_ & _ & _ & _ & Fr & Pr). destruct (Z.eq_dec h h0) as [->|N]; [|rewrite (Fr h N); auto].
    destruct Pr as [->|[f ->]]; auto.
  - injection R as <- <-. auto.
  - destruct (step s o) as [[s1 e1]| |] eqn:E; [injection R as <- <-; right; exists o; auto|injection R as <- <-; left; auto|discriminate].
Qed.

(* what a message can do to the confirmations of a bridge *)
Lemma msg_confs s o s' e h : is_msg o -> step s o = Ok (s', e) ->
  b_confs (s_br s' h) = b_confs (s_br s h) \/
  exists n x a g v w k, o = OConfirm h n x a (Some g) /\ b_confs (s_br s' h) = mk_conf n x a g :: b_confs (s_br s h) /\
    zget (b_sets (s_br s h)) n = Some v /\ zget (b_orch (s_br s h)) x = Some w /\ zget (b_eth (s_br s h)) w = Some k /\
    (forall c, In c (b_confs (s_br s h)) -> ~ (cf_nonce c = n /\ cf_orch c = x)).
Proof.
  intro M. assert (forall g b', b_confs b' = b_confs (s_br s g) -> b_confs (s_br (put s g b') h) = b_confs (s_br s h)) as Pc.
  { intros g b' E. destruct (Z.eq_dec h g) as [->|N]; [rewrite put_same; exact E|rewrite put_other by exact N; reflexivity]. }
  destruct o; cbn [is_msg] in M; try contradiction; cbn [Valset.step]; intro R.
  - destruct (zget _ orch); [discriminate|]. destruct (zget _ sender); [discriminate|]. destruct welcome; [|discriminate]. injection R as <- <-. left. apply Pc. reflexivity.
  - injection R as <- <-. left. apply Pc. reflexivity.
  - destruct (zget (b_sets (s_br s h0)) nonce) as [v|] eqn:Ev; [|discriminate]. destruct sig as [g|]; [|discriminate].
    destruct (zget (b_orch (s_br s h0)) orch) as [w|] eqn:Ew; [|discriminate]. destruct (zget (b_eth (s_br s h0)) w) as [k|] eqn:Ek; [|discriminate].
    destruct (negb _); [discriminate|]. destruct (has_conf (s_br s h0) nonce orch) eqn:Hc; [discriminate|]. injection R as <- <-.
    destruct (Z.eq_dec h h0) as [Eh|N]; [|left; rewrite put_other by exact N; reflexivity]. subst h0. right. exists nonce, orch, eth, g, v, w, k.
    split; [reflexivity|]. rewrite put_same. split; [reflexivity|]. repeat (split; [assumption|]). intros c Hin [A B].
    unfold has_conf in Hc. assert (existsb (fun c => (cf_nonce c =? nonce) && (cf_orch c =? orch)) (b_confs (s_br s h)) = true); [|congruence].
    apply existsb_exists. exists c. split; [exact Hin|lia].
  - injection R as <- <-. left. apply Pc. reflexivity.
  - destruct (find_batch _ _ _); [|discriminate]. destruct sig; [|discriminate]. destruct (zget _ orch); [|discriminate]. destruct (zget _ _); [|discriminate].
    destruct (negb _); [discriminate|]. destruct (has_bconf _ _ _ _); [discriminate|]. injection R as <- <-. left. apply Pc. reflexivity.
  - injection R as <- <-. left. reflexivity.
  - injection R as <- <-. left. apply Pc. reflexivity.
Qed.
Lemma msg_bconfs s o s' e h : is_msg o -> step s o = Ok (s', e) ->
  b_bconfs (s_br s' h) = b_bconfs (s_br s h) \/
  exists t n x a g v w k, o = OConfirmBatch h t n x a (Some g) /\ b_bconfs (s_br s' h) = mk_bconf t n x a g :: b_bconfs (s_br s h) /\
    In v (b_batches (s_br s h)) /\ bt_token v = t /\ bt_nonce v = n /\ zget (b_orch (s_br s h)) x = Some w /\ zget (b_eth (s_br s h)) w = Some k /\
    (forall c, In c (b_bconfs (s_br s h)) -> ~ (bc_token c = t /\ bc_nonce c = n /\ bc_orch c = x)).
Proof.
  intro M. assert (forall g b', b_bconfs b' = b_bconfs (s_br s g) -> b_bconfs (s_br (put s g b') h) = b_bconfs (s_br s h)) as Pc.
  { intros g b' E. destruct (Z.eq_dec h g) as [->|N]; [rewrite put_same; exact E|rewrite put_other by exact N; reflexivity]. }
  destruct o; cbn [is_msg] in M; try contradiction; cbn [Valset.step]; intro R.
  - destruct (zget _ orch); [discriminate|]. destruct (zget _ sender); [discriminate|]. destruct welcome; [|discriminate]. injection R as <- <-. left. apply Pc. reflexivity.
  - injection R as <- <-. left. apply Pc. reflexivity.
  - destruct (zget _ nonce); [|discriminate]. destruct sig; [|discriminate]. destruct (zget _ orch); [|discriminate]. destruct (zget _ _); [|discriminate].
    destruct (negb _); [discriminate|]. destruct (has_conf _ _ _); [discriminate|]. injection R as <- <-. left. apply Pc. reflexivity.
  - injection R as <- <-. left. apply Pc. reflexivity.
  - destruct (find_batch (s_br s h0) token nonce) as [v|] eqn:Ev; [|discriminate]. destruct sig as [g|]; [|discriminate].
    destruct (zget (b_orch (s_br s h0)) orch) as [w|] eqn:Ew; [|discriminate]. destruct (zget (b_eth (s_br s h0)) w) as [k|] eqn:Ek; [|discriminate].
    destruct (negb _); [discriminate|]. destruct (has_bconf (s_br s h0) token nonce orch) eqn:Hc; [discriminate|]. injection R as <- <-.
    destruct (Z.eq_dec h h0) as [Eh|N]; [|left; rewrite put_other by exact N; reflexivity]. subst h0. right. exists token, nonce, orch, signer, g, v, w, k.
    split; [reflexivity|]. rewrite put_same. split; [reflexivity|]. unfold find_batch in Ev. apply find_some in Ev as [Ev1 Ev2].
    split; [exact Ev1|]. split; [lia|]. split; [lia|]. repeat (split; [assumption|]). intros c Hin (A & B & D).
    unfold has_bconf in Hc. assert (existsb (fun c => (bc_token c =? token) && (bc_nonce c =? nonce) && (bc_orch c =? orch)) (b_bconfs (s_br s h)) = true); [|congruence].
    apply existsb_exists. exists c. split; [exact Hin|lia].
  - injection R as <- <-. left. reflexivity.
  - injection R as <- <-. left. apply Pc. reflexivity.
Qed.

Definition confs_inv (h : Z) (s : st) : Prop :=
  NoDup (map (fun c => (cf_nonce c, cf_orch c)) (b_confs (s_br s h))) /\
  NoDup (map (fun c => (bc_token c, bc_nonce c, bc_orch c)) (b_bconfs (s_br s h))).
Lemma confs_step h s m s' e : plain_micro m -> confs_inv h s -> mstep s m = Ok (s', e) ->
  confs_inv h s' /\ (forall c, In c (b_confs (s_br s h)) -> In c (b_confs (s_br s' h))) /\ (forall c, In c (b_bconfs (s_br s h)) -> In c (b_bconfs (s_br s' h))).
Proof.
  intros P [N1 N2] R. destruct (mstep_confs s m s' e h P R) as [(E1 & E2 & _)|(o & -> & Es)].
  - unfold confs_inv. rewrite E1, E2. auto.
  - cbn in P. unfold confs_inv. destruct (msg_confs s o s' e h P Es) as [E1|(n & x & a & g & v & w & k & _ & E1 & _ & _ & _ & U1)];
      destruct (msg_bconfs s o s' e h P Es) as [E2|(t' & n' & x' & a' & g' & v' & w' & k' & _ & E2 & _ & _ & _ & _ & _ & U2)]; rewrite E1, E2;
      (split; [split|split; [intros c Hc|intros c Hc]]); try assumption; try (right; assumption); cbn [map]; constructor; try assumption;
      intro Hin; apply in_map_iff in Hin as (c & Ec & Hc); cbn in Ec; injection Ec as; first [eapply U1; [exact Hc|split; assumption]|eapply U2; [exact Hc|split; [|split]; assumption]].
Qed.
Lemma confs_run h os : forall s s' e, confs_inv h s -> run s os = Ok (s', e) ->
  confs_inv h s' /\ (forall c, In c (b_confs (s_br s h)) -> In c (b_confs (s_br s' h))) /\ (forall c, In c (b_bconfs (s_br s h)) -> In c (b_bconfs (s_br s' h))).
Proof.
  intros s s' e I R. rewrite run_micro in R. pose proof (all_micros_plain os) as F. revert s e I R. induction (flat_map micros os) as [|m ms IH]; intros s e I R; cbn [ValsetRuns.mrun] in R.
  - injection R as <- <-. auto.
  - inversion F as [|? ? Fm Fr]; subst. destruct (mstep s m) as [[s1 e1]| |] eqn:E1; [|discriminate|discriminate].
    destruct (mrun s1 ms) as [[s2 e2]| |] eqn:E2; [|discriminate|discriminate]. injection R as <- <-.
    destruct (confs_step h s m s1 e1 Fm I E1) as (I1 & A1 & B1). destruct (IH Fr s1 e2 I1 E2) as (I2 & A2 & B2). auto.
Qed.

(* a new confirmation comes from one message *)
Lemma step_confs s o s' e h : step s o = Ok (s', e) ->
  b_confs (s_br s' h) = b_confs (s_br s h) \/
  exists n x a g v w k, o = OConfirm h n x a (Some g) /\ b_confs (s_br s' h) = mk_conf n x a g :: b_confs (s_br s h) /\
    zget (b_sets (s_br s h)) n = Some v /\ zget (b_orch (s_br s h)) x = Some w /\ zget (b_eth (s_br s h)) w = Some k /\
    (forall c, In c (b_confs (s_br s h)) -> ~ (cf_nonce c = n /\ cf_orch c = x)).
Proof.
  intro R. assert (is_msg o \/ exists b u ps, o = OBlock b u ps) as [M|(b & u & ps & ->)] by (destruct o; cbn; eauto); [apply (msg_confs s o s' e h M R)|]. left.
  pose proof (step_micro rank acc_of s (OBlock b u ps)) as E. rewrite R in E.
  assert (Forall (fun m => plain_micro m /\ forall o, m <> MMsg o) (micros (OBlock b u ps))) as F.
  { cbn [micros]. apply Forall_app. split; [|repeat constructor; discriminate]. apply Forall_forall. intros m Hm. apply in_flat_map in Hm as (p & _ & Hm).
    destruct Hm as [Hm|[Hm|[Hm|Hm]]]; [subst m; split; [exact Logic.I|discriminate]..|]. apply in_map_iff in Hm as (x & <- & _). split; [exact Logic.I|discriminate]. }
  clear R. revert s e F E. induction (micros (OBlock b u ps)) as [|m ms IH]; intros s e F R; cbn [ValsetRuns.mrun] in R.
  - injection R as <- <-. reflexivity.
  - inversion F as [|? ? [Fm Fo] Fr]; subst. destruct (mstep s m) as [[s1 e1]| |] eqn:E1; [|discriminate|discriminate].
    destruct (mrun s1 ms) as [[s2 e2]| |] eqn:E2; [|discriminate|discriminate]. injection R as <- <-.
    rewrite (IH s1 e2 Fr E2). destruct (mstep_confs s m s1 e1 h Fm E1) as [(Ec & _)|(o & Eo & _)]; [exact Ec|]. exfalso. exact (Fo o Eo).
Qed.
End Code.
