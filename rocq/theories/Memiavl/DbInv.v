(* Every step of a regular schedule keeps the invariant. *)
From Verif Require Import Lib.Base Lib.Bytes Memiavl.Model Memiavl.HashModel Memiavl.DbModel Memiavl.DbSpec Memiavl.DbApplyProofs Memiavl.DbProofs.
From Coq Require Import Sorting.Permutation Sorting.Sorted.
Open Scope Z_scope.

Fixpoint number (i : nat) (l : list wal_entry) : list (Z * wal_entry) :=
  match l with [] => [] | e :: l' => (Z.of_nat i, e) :: number (S i) l' end.

Lemma length_number l : forall i, length (number i l) = length l.
Proof. induction l as [|e l IH]; intro i; cbn; auto. Qed.
Lemma number_app a b : forall i, number i (a ++ b) = number i a ++ number (i + length a) b.
Proof.
  induction a as [|e a IH]; intro i; cbn [app number length]; [rewrite Nat.add_0_r; reflexivity|].
  f_equal. rewrite IH. f_equal. f_equal. lia.
Qed.

Section I.
Variable sha : bytes -> bytes.
Variables V iv : Z.
Notation ver := (ver V iv).
Notation good := (good sha V iv).
Notation chain := (chain sha V iv).

Definition rewrite_ok (r : rewrite) (tl : list mtree) (l : list (Z * mtree)) (c : nat) : Prop :=
  match r with
  | RCopied m | RWritten m | RLoaded m => exists k, (c <= k)%nat /\ nth_error tl k = Some m
  | RRenamed m | RLinkTmp m => exists k, (c <= k)%nat /\ nth_error tl k = Some m /\ find_snap l (mt_version m) = Some m
  | _ => True
  end.

Record inv (d : db) (tl : list mtree) (es : list wal_entry) (a c : nat) : Prop := Inv {
  i_chain : chain tl es;
  i_log : log_ok (log (d_disk d)) es;
  i_queue : d_queue d = number (S a) (skipn a es);
  i_a : (a <= length es)%nat;
  i_gap : log_last (log (d_disk d)) <= Z.of_nat a;
  i_sync : d_async d = false -> d_queue d = [];
  i_cur : current (d_disk d) = ver c;
  i_snap : exists m, nth_error tl c = Some m /\ find_snap (snaps (d_disk d)) (ver c) = Some m;
  i_first : log_first (log (d_disk d)) <= Z.of_nat (S c);
  i_sorted : sorted_snaps (snaps (d_disk d));
  i_rewrite : rewrite_ok (d_rewrite d) tl (snaps (d_disk d)) c;
  i_prune : forall vs, d_prune d = Some vs -> Forall (fun v => v < ver c) vs;
  i_live : exists m, nth_error tl (length es) = Some m /\ live_db m d }.

(* what also holds as long as nothing is lost *)
Record full (d : db) (tl : list mtree) (a : nat) : Prop := Full {
  f_snaps : forall v m, In (v, m) (snaps (d_disk d)) -> exists i, v = ver i /\ nth_error tl i = Some m /\ log_first (log (d_disk d)) <= Z.of_nat (S i);
  f_gap : log_last (log (d_disk d)) = Z.of_nat a }.

Definition state (strict : bool) (d : db) (tl : list mtree) : Prop :=
  exists es a c, inv d tl es a c /\ (strict = true -> full d tl a).

Hypothesis Hb : base_num V iv.

Definition same_rest (d d' : db) : Prop :=
  d_disk d' = d_disk d /\ d_async d' = d_async d /\ d_queue d' = d_queue d /\ d_rewrite d' = d_rewrite d /\ d_prune d' = d_prune d.

Lemma inv_same d d' tl es a c : same_rest d d' -> (forall m, live_db m d -> live_db m d') -> inv d tl es a c -> inv d' tl es a c.
Proof.
  intros [E1 [E2 [E3 [E4 E5]]]] L [q1 q2 q3 q4 q5 q6 q7 q8 q9 q10 q11 q12 q13].
  constructor; rewrite ?E1, ?E2, ?E3, ?E4, ?E5; auto.
  destruct q13 as [m [Hm Hl]]. exists m. auto.
Qed.
Lemma full_same d d' tl a : d_disk d' = d_disk d -> full d tl a -> full d' tl a.
Proof. intros E [f1 f2]. constructor; rewrite E; auto. Qed.

Lemma same_refl d : same_rest d d.
Proof. repeat split. Qed.
Lemma same_trans a b c : same_rest a b -> same_rest b c -> same_rest a c.
Proof. unfold same_rest. intros [A1 [A2 [A3 [A4 A5]]]] [B1 [B2 [B3 [B4 B5]]]]. repeat split; congruence. Qed.
Lemma change_set_rest d name ps : same_rest d (snd (db_apply_change_set d name ps)).
Proof.
  unfold db_apply_change_set. destruct ps as [|p ps]; [apply same_refl|].
  destruct (mt_apply_change_set (d_mt d) name (p :: ps)); repeat split.
Qed.
Lemma each_rest cs : forall d, same_rest d (snd (db_apply_each d cs)).
Proof.
  induction cs as [|c cs IH]; intro d; [apply same_refl|]. cbn [db_apply_each].
  pose proof (change_set_rest d (nc_name c) (nc_pairs c)) as H. destruct (db_apply_change_set d (nc_name c) (nc_pairs c)) as [[[]| |] d1];
    cbn [snd] in *; auto. eapply same_trans; [exact H|apply IH].
Qed.
Lemma change_sets_rest d cs : same_rest d (snd (db_apply_change_sets d cs)).
Proof.
  unfold db_apply_change_sets. destruct cs as [|c cs]; [apply same_refl|]. destruct (we_changes (d_pending d)); [|apply each_rest].
  destruct (mt_apply_change_sets (d_mt d) (c :: cs)); repeat split.
Qed.
Lemma upgrades_rest d us : same_rest d (snd (db_apply_upgrades d us)).
Proof. unfold db_apply_upgrades. destruct (apply_upgrades (d_mt d) us); repeat split. Qed.

Lemma rlift_ok {A} (r : res unit * A) d : rlift r = Ok d -> r = (Ok tt, d).
Proof. destruct r as [[[]| |] x]; cbn; intro H; inversion H; reflexivity. Qed.

Lemma call_inv strict d tl d' r : r = (Ok tt, d') -> same_rest d (snd r) -> (forall m, live_db m d -> live_db m d') ->
  state strict d tl -> state strict d' tl.
Proof.
  intros -> R L [es [a [c [I F]]]]. cbn [snd] in R. exists es, a, c. split; [eapply inv_same; eassumption|].
  intro Hs. eapply full_same; [exact (proj1 R)|exact (F Hs)].
Qed.

(* ---------------- writing the log ---------------- *)

Lemma skipn_cons {A} (l : list A) a x : nth_error l a = Some x -> skipn a l = x :: skipn (S a) l.
Proof. revert l. induction a as [|a IH]; intros [|y l] H; cbn in *; try discriminate; [congruence|]. apply IH. exact H. Qed.

Lemma log_snoc w es e n w' : log_ok w es -> nth_error es n = Some e -> log_write w (Z.of_nat (S n)) e = Ok w' ->
  log_ok w' es /\ log_last w' = Z.of_nat (S n) /\ log_first w' = log_first w.
Proof.
  intros [L1 L2 L3] He H. unfold log_write in H. destruct (Z.of_nat (S n) =? log_last w + 1) eqn:E; [|discriminate]. inversion H; subst w'. clear H.
  unfold log_last in *. cbn [log_first log_entries] in *. pose proof (nth_lt _ _ _ He).
  split; [|split; [rewrite app_length; cbn [length]; lia|reflexivity]].
  constructor; unfold log_last; cbn [log_first log_entries]; [exact L1|rewrite app_length; cbn [length]; lia|].
  intros j e' Hj. apply nth_snoc in Hj. destruct Hj as [Hj | [-> ->]]; [apply L3; exact Hj|]. rewrite <- He. f_equal. lia.
Qed.

Lemma flush_inv d tl es a c d' : inv d tl es a c -> flush_one d = Ok d' ->
  inv d' tl es (S a) c /\ log_last (log (d_disk d')) = Z.of_nat (S a) /\ d_mt d' = d_mt d /\ d_rewrite d' = d_rewrite d /\ d_prune d' = d_prune d /\
  log_first (log (d_disk d')) = log_first (log (d_disk d)) /\ snaps (d_disk d') = snaps (d_disk d) /\ d_async d' = d_async d /\ d_keep d' = d_keep d /\
  d_pending d' = d_pending d.
Proof.
  intros I H. pose proof I as [q1 q2 q3 q4 q5 q6 q7 q8 q9 q10 q11 q12 q13]. unfold flush_one in H.
  destruct (d_queue d) as [|[i e] q] eqn:Eq; [discriminate|].
  destruct (nth_error es a) as [x|] eqn:Ex.
  2:{ apply nth_error_None in Ex. rewrite skipn_all2 in q3 by exact Ex. discriminate. }
  pose proof (skipn_cons _ _ _ Ex) as Es. rewrite Es in q3. cbn [number] in q3. 
  assert (X : i = Z.of_nat (S a) /\ e = x /\ q = number (S (S a)) (skipn (S a) es)) by (split; [congruence|split; congruence]).
  destruct X as [-> [-> ->]]. clear q3.
  destruct (log_write (log (d_disk d)) (Z.of_nat (S a)) x) as [w| |] eqn:Ew; cbn [rbind] in H; try discriminate. inversion H; subst d'. clear H.
  destruct (log_snoc _ _ _ _ _ q2 Ex Ew) as [W1 [W2 W3]]. pose proof (nth_lt _ _ _ Ex).
  split; [|cbn; repeat split; auto].
  constructor; cbn [d_disk d_queue d_async d_rewrite d_prune snaps current log]; auto.
  - rewrite W2. lia.
  - intro Ha. specialize (q6 Ha). discriminate.
  - rewrite W3. exact q9.
Qed.

Lemma flush_all_inv tl es c : forall n d a d', inv d tl es a c -> length (d_queue d) = n ->
  (n <> O \/ log_last (log (d_disk d)) = Z.of_nat (length es)) -> flush_all n d = Ok d' ->
  inv d' tl es (length es) c /\ log_last (log (d_disk d')) = Z.of_nat (length es) /\ d_mt d' = d_mt d /\ d_rewrite d' = d_rewrite d /\
  log_first (log (d_disk d')) = log_first (log (d_disk d)) /\ snaps (d_disk d') = snaps (d_disk d) /\ d_queue d' = [] /\ d_pending d' = d_pending d.
Proof.
  induction n as [|n IH]; intros d a d' I Hn Hl H; cbn [flush_all] in H.
  - inversion H; subst d'. destruct Hl as [Hl | Hl]; [congruence|].
    assert (a = length es) as ->.
    { pose proof (i_queue _ _ _ _ _ I) as Q. pose proof (i_a _ _ _ _ _ I). apply (f_equal (@length _)) in Q.
      rewrite Hn, length_number, skipn_length in Q. lia. }
    split; [exact I|]. split; [exact Hl|]. split; [reflexivity|]. split; [reflexivity|]. split; [reflexivity|]. split; [reflexivity|].
    split; [|reflexivity]. destruct (d_queue d); [reflexivity|discriminate].
  - destruct (flush_one d) as [d1| |] eqn:E; cbn [rbind] in H; try discriminate.
    destruct (flush_inv _ _ _ _ _ _ I E) as [I1 [L1 [M1 [R1 [_ [F1 [S1 [_ [_ P1]]]]]]]]].
    assert (Hn1 : length (d_queue d1) = n).
    { unfold flush_one in E. destruct (d_queue d) as [|[i e] q]; [discriminate|]. destruct (log_write _ _ _); cbn [rbind] in E; try discriminate.
      inversion E; subst. cbn in *. lia. }
    destruct (IH d1 (S a) d' I1 Hn1) as [A1 [A2 [A3 [A4 [A5 [A6 [A7 A8]]]]]]]; [|exact H|].
    + destruct n as [|n]; [right|left; discriminate]. rewrite L1. f_equal.
      pose proof (i_queue _ _ _ _ _ I1) as Q. pose proof (i_a _ _ _ _ _ I1). apply (f_equal (@length _)) in Q.
      rewrite Hn1, length_number, skipn_length in Q. lia.
    + split; [exact A1|]. split; [exact A2|]. split; [congruence|]. split; [congruence|]. split; [congruence|]. split; [congruence|]. split; [exact A7|congruence].
Qed.

(* ---------------- commit ---------------- *)

Lemma log_ok_app w es e : log_ok w es -> log_ok w (es ++ [e]).
Proof.
  intros [L1 L2 L3]. constructor; [exact L1|rewrite app_length; cbn [length]; lia|].
  intros j x Hj. apply nth_old. apply L3. exact Hj.
Qed.
Lemma chain_app tl es m e m' : chain tl es -> nth_error tl (length es) = Some m -> advance sha m e m' -> chain (tl ++ [m']) (es ++ [e]).
Proof.
  intros C Hm A. pose proof (ch_len _ _ _ _ _ C) as L. constructor.
  - rewrite !app_length. cbn [length]. lia.
  - intros x Hx. apply nth_snoc in Hx. destruct Hx as [Hx | [Hx _]]; [eapply ch_good0; eassumption|lia].
  - intros i e0 x y He Hx Hy. apply nth_snoc in He. destruct He as [He | [-> ->]].
    + pose proof (nth_lt _ _ _ He). rewrite nth_error_app1 in Hx by lia. rewrite nth_error_app1 in Hy by lia. eapply ch_next; eassumption.
    + rewrite nth_error_app1 in Hx by lia. assert (x = m) by congruence. subst x.
      rewrite <- L, nth_new in Hy. inversion Hy; subst. exact A.
Qed.
Lemma rewrite_app r tl l c m : rewrite_ok r tl l c -> rewrite_ok r (tl ++ [m]) l c.
Proof.
  destruct r; cbn; auto; intros [k H]; exists k; [destruct H as [H1 H2]|destruct H as [H1 H2]|destruct H as [H1 [H2 H3]]|destruct H as [H1 [H2 H3]]|destruct H as [H1 H2]];
    repeat split; auto; apply nth_old; assumption.
Qed.

Lemma queue_app a es e : (a <= length es)%nat -> number (S a) (skipn a (es ++ [e])) = number (S a) (skipn a es) ++ [(Z.of_nat (S (length es)), e)].
Proof.
  intro H. rewrite skipn_app. replace (a - length es)%nat with O by lia. cbn [skipn]. rewrite number_app. f_equal. cbn [number].
  rewrite skipn_length. f_equal. f_equal. f_equal. lia.
Qed.

(* the first half of a commit, before the background rewrite is polled *)
Definition commit1 (d : db) : res db :=
  rbind (mt_save_version sha (d_mt d) true) (fun m =>
    let i := wal_index (mt_version m) (mt_init m) in
    if d_async d then
      Ok (Db (d_disk d) m empty_entry (d_async d) (d_queue d ++ [(i, d_pending d)]) (d_rewrite d) (d_prune d) (d_keep d))
    else
      rbind (log_write (log (d_disk d)) i (d_pending d)) (fun w =>
        Ok (Db (Disk (snaps (d_disk d)) (current (d_disk d)) (current_tmp (d_disk d)) w)
               m empty_entry (d_async d) (d_queue d) (d_rewrite d) (d_prune d) (d_keep d)))).
Lemma commit_split d b : commit sha d b = rbind (commit1 d) (fun d1 => if b then switch sha d1 else Ok d1).
Proof.
  unfold commit, commit1. destruct (mt_save_version sha (d_mt d) true); cbn [rbind]; auto.
Qed.

Lemma commit1_state strict d tl d' : state strict d tl -> commit1 d = Ok d' ->
  exists es a c, inv d' (tl ++ [d_mt d']) es a c /\ (strict = true -> full d' (tl ++ [d_mt d']) a) /\
    (d_queue d' <> [] \/ log_last (log (d_disk d')) = Z.of_nat (length es)) /\ d_pending d' = empty_entry.
Proof.
  intros [es [a [c [I F]]]] H. pose proof I as [q1 q2 q3 q4 q5 q6 q7 q8 q9 q10 q11 q12 q13].
  destruct q13 as [m0 [Hm0 Hl]]. unfold commit1 in H.
  destruct (mt_save_version sha (d_mt d) true) as [m| |] eqn:Es; cbn [rbind] in H; try discriminate.
  assert (A : advance sha m0 (d_pending d) m).
  { exists (d_mt d). split; [apply live_replays; exact Hl|]. split; [eapply live_names; exact Hl|exact Es]. }
  pose proof (chain_app _ _ _ _ _ q1 Hm0 A) as C'.
  assert (G : good (S (length es)) m) by (eapply advance_good; [exact Hb|exact (chain_good _ _ _ _ _ Hb q1 _ _ Hm0)|exact A]).
  assert (Ei : wal_index (mt_version m) (mt_init m) = Z.of_nat (S (length es))).
  { rewrite (g_ver _ _ _ _ _ G), (g_init _ _ _ _ _ G). apply ver_index. }
  pose proof (ch_len _ _ _ _ _ q1) as Len.
  assert (Hlive : nth_error (tl ++ [m]) (length (es ++ [d_pending d])) = Some m).
  { rewrite app_length. cbn [length]. rewrite Nat.add_1_r, <- Len. apply nth_new. }
  assert (Hlv : live_ok m m empty_entry) by (apply live_start; exact (g_names _ _ _ _ _ G)).
  rewrite Ei in H. destruct (d_async d) eqn:Ea.
  - inversion H; subst d'. clear H. cbn [d_mt].
    exists (es ++ [d_pending d]), a, c. split; [|split; [|split; [left; cbn; destruct (d_queue d); discriminate|reflexivity]]].
    + constructor; cbn [d_disk d_queue d_async d_rewrite d_prune]; auto.
      * apply log_ok_app. exact q2.
      * rewrite queue_app by exact q4. rewrite q3. reflexivity.
      * rewrite app_length. cbn. lia.
      * discriminate.
      * destruct q8 as [x [X1 X2]]. exists x. split; [apply nth_old; exact X1|exact X2].
      * apply rewrite_app. exact q11.
      * exists m. split; [exact Hlive|exact Hlv].
    + intro Hs. destruct (F Hs) as [f1 f2]. constructor; cbn [d_disk]; [|exact f2].
      intros v x Hv. destruct (f1 v x Hv) as [i [Y1 [Y2 Y3]]]. exists i. split; [exact Y1|]. split; [apply nth_old; exact Y2|exact Y3].
  - destruct (log_write (log (d_disk d)) (Z.of_nat (S (length es))) (d_pending d)) as [w| |] eqn:Ew; cbn [rbind] in H; try discriminate.
    inversion H; subst d'. clear H. cbn [d_mt]. specialize (q6 eq_refl).
    destruct (log_snoc _ (es ++ [d_pending d]) _ _ _ (log_ok_app _ _ _ q2) (nth_new _ _) Ew) as [W1 [W2 W3]].
    exists (es ++ [d_pending d]), (S (length es)), c. split; [|split; [|split; [right; cbn [d_disk log]; rewrite W2, app_length; cbn; lia|reflexivity]]].
    + constructor; cbn [d_disk d_queue d_async d_rewrite d_prune snaps current log]; auto.
      * rewrite q6, skipn_all2 by (rewrite app_length; cbn; lia). reflexivity.
      * rewrite app_length. cbn. lia.
      * lia.
      * destruct q8 as [x [X1 X2]]. exists x. split; [apply nth_old; exact X1|exact X2].
      * rewrite W3. exact q9.
      * apply rewrite_app. exact q11.
      * exists m. split; [exact Hlive|exact Hlv].
    + intro Hs. destruct (F Hs) as [f1 f2]. constructor; cbn [d_disk snaps log]; [|exact W2].
      intros v x Hv. destruct (f1 v x Hv) as [i [Y1 [Y2 Y3]]]. exists i. split; [exact Y1|]. split; [apply nth_old; exact Y2|rewrite W3; exact Y3].
Qed.

Lemma victims_below vs cur : forall k l, victims vs cur k = Ok l -> Forall (fun v => v < cur) l.
Proof.
  induction vs as [|v vs IH]; intros k l H; cbn [victims] in H; [inversion H; constructor|].
  destruct (negb (parsable v)); [discriminate|]. destruct (cur <=? v) eqn:E; [eapply IH; exact H|].
  destruct (0 <? k); [eapply IH; exact H|]. destruct (victims vs cur k) as [l'| |] eqn:Ev; cbn [rbind] in H; try discriminate.
  inversion H; subst. constructor; [lia|eapply IH; exact Ev].
Qed.

Lemma switch_inv strict d tl es a c d' : inv d tl es a c -> (strict = true -> full d tl a) ->
  (d_queue d <> [] \/ log_last (log (d_disk d)) = Z.of_nat (length es)) -> switch sha d = Ok d' ->
  state strict d' tl /\ d_mt d' = d_mt d.
Proof.
  intros I F Hl H. unfold switch in H. destruct (d_rewrite d) as [| | | | | |m|] eqn:Er; try discriminate.
  destruct (d_prune d) eqn:Ep; [discriminate|].
  destruct (flush_all (length (d_queue d)) d) as [d1| |] eqn:Ef; cbn [rbind] in H; try discriminate.
  destruct (flush_all_inv tl es c _ d a d1 I eq_refl) as [I1 [L1 [M1 [R1 [F1 [S1 [Q1 P1]]]]]]]; [|exact Ef|].
  { destruct Hl as [Hl | Hl]; [left|right; exact Hl]. intro Hz. apply Hl. apply length_zero_iff_nil. exact Hz. }
  pose proof I1 as [q1 q2 q3 q4 q5 q6 q7 q8 q9 q10 q11 q12 q13]. rewrite R1, Er in q11. destruct q11 as [k [Hk Hm]].
  destruct (catchup_latest sha V iv tl es (log (d_disk d1)) k m Hb q1 q2 Hm) as [m1 [C1 C2]]; [lia|].
  rewrite C2 in H. cbn [rbind] in H. destruct q13 as [m0 [Hm0 Hlive]].
  assert (m1 = m0) as ->.
  { rewrite L1 in C1. pose proof (nth_lt _ _ _ Hm). rewrite (ch_len _ _ _ _ _ q1) in *.
    replace (Nat.max k (Z.to_nat (Z.of_nat (length es)))) with (length es) in C1 by lia. congruence. }
  rewrite (live_replays _ _ _ Hlive) in H. cbn [rbind] in H. inversion H; subst d'. clear H. split; [|exact M1].
  exists es, (length es), c. split.
  - constructor; cbn [d_disk d_queue d_async d_rewrite d_prune rewrite_ok]; auto.
    + intros vs Hvs. destruct (parsable (current (d_disk d1))); [|discriminate].
      destruct (victims (versions_desc (d_disk d1)) (current (d_disk d1)) (d_keep d1)) as [l| |] eqn:Ev; try discriminate.
      inversion Hvs; subst. rewrite <- q7. eapply victims_below; exact Ev.
    + exists m0. split; [exact Hm0|exact Hlive].
  - intro Hs. destruct (F Hs) as [f1 f2]. constructor; cbn [d_disk]; [|exact L1].
    intros v x Hv. rewrite S1 in Hv. rewrite F1. apply f1. exact Hv.
Qed.

Lemma commit_state strict d tl b d' : state strict d tl -> commit sha d b = Ok d' -> state strict d' (tl ++ [d_mt d']).
Proof.
  intros St H. rewrite commit_split in H. destruct (commit1 d) as [d1| |] eqn:E; cbn [rbind] in H; try discriminate.
  destruct (commit1_state _ _ _ _ St E) as [es [a [c [I [F [Hl _]]]]]]. destruct b.
  - destruct (switch_inv strict _ _ _ _ _ _ I F Hl H) as [S1 M1]. rewrite M1. exact S1.
  - inversion H; subst. exists es, a, c. split; assumption.
Qed.

(* ---------------- background steps ---------------- *)

Lemma start_state strict d tl d' : state strict d tl -> d_pending d = empty_entry -> start_rewrite d = Ok d' -> state strict d' tl.
Proof.
  intros [es [a [c [I F]]]] Hp H. unfold start_rewrite in H. destruct (d_rewrite d); try discriminate. inversion H; subst d'. clear H.
  exists es, a, c. split; [|intro Hs; destruct (F Hs); constructor; assumption].
  destruct I as [q1 q2 q3 q4 q5 q6 q7 q8 q9 q10 q11 q12 q13]. constructor; cbn [set_rewrite d_disk d_queue d_async d_rewrite d_prune]; auto.
  destruct q13 as [m0 [Hm0 Hl]]. cbn. exists (length es). split.
  - destruct q8 as [x [X _]]. pose proof (nth_lt _ _ _ X). rewrite (ch_len _ _ _ _ _ q1) in *. lia.
  - unfold live_db in Hl. rewrite Hp in Hl. destruct Hl as [_ [m1 [A1 [_ A2]]]]. cbn in A1, A2. congruence.
Qed.

Lemma rewrite_state strict d tl d' : state strict d tl -> rewrite_step sha d = Ok d' -> state strict d' tl.
Proof.
  intros [es [a [c [I F]]]] H. pose proof I as [q1 q2 q3 q4 q5 q6 q7 q8 q9 q10 q11 q12 q13]. unfold rewrite_step in H.
  assert (Hfail : forall r, rewrite_ok r tl (snaps (d_disk d)) c -> state strict (set_rewrite d r) tl).
  { intros r Hr. exists es, a, c. split; [|intro Hs; destruct (F Hs); constructor; assumption]. constructor; auto. }
  destruct (d_rewrite d) as [|m|m|m|m| |m|] eqn:Er; try discriminate; cbn [rewrite_ok] in q11.
  - inversion H; subst. apply Hfail. exact q11.
  - destruct (find_snap (snaps (d_disk d)) (mt_version m)) eqn:Ef; [inversion H; subst; apply Hfail; exact Logic.I|]. inversion H; subst d'. clear H.
    destruct q11 as [k [Hk Hm]]. pose proof (g_ver _ _ _ _ _ (chain_good _ _ _ _ _ Hb q1 _ _ Hm)) as Ev.
    exists es, a, c. split.
    + constructor; cbn [set_rewrite set_disk d_disk d_queue d_async d_rewrite d_prune snaps current log current_tmp]; auto.
      * destruct q8 as [x [X1 X2]]. exists x. split; [exact X1|]. rewrite find_add. destruct (mt_version m =? ver c) eqn:E; [|exact X2].
        apply Z.eqb_eq in E. rewrite E, X2 in Ef. discriminate.
      * apply add_sorted; assumption.
      * cbn. exists k. split; [exact Hk|]. split; [exact Hm|]. rewrite find_add, Z.eqb_refl. reflexivity.
    + intro Hs. destruct (F Hs) as [f1 f2]. constructor; cbn [set_rewrite set_disk d_disk snaps log]; [|exact f2].
      intros v x Hv. apply in_add in Hv. destruct Hv as [Hv | [-> ->]]; [apply f1; exact Hv|]. exists k. split; [exact Ev|]. split; [exact Hm|lia].
  - destruct (current_tmp (d_disk d)); inversion H; subst d'; [apply Hfail; exact Logic.I|].
    exists es, a, c. split; [|intro Hs; destruct (F Hs); constructor; assumption]. constructor; auto.
  - inversion H; subst d'. clear H. destruct q11 as [k [Hk [Hm Hf]]]. pose proof (g_ver _ _ _ _ _ (chain_good _ _ _ _ _ Hb q1 _ _ Hm)) as Ev.
    exists es, a, k. split; [|intro Hs; destruct (F Hs); constructor; assumption].
    constructor; cbn [set_rewrite set_disk d_disk d_queue d_async d_rewrite d_prune snaps current log current_tmp rewrite_ok]; auto.
    + exists m. split; [exact Hm|]. rewrite <- Ev. exact Hf.
    + lia.
    + intros vs Hvs. eapply Forall_impl; [|apply q12; exact Hvs]. cbn beta. intros v Hv. pose proof (proj1 (ver_le V iv c k Hb) Hk). lia.
  - destruct q8 as [x [X1 X2]]. rewrite q7, X2 in H.
    rewrite (load_good _ _ _ _ _ Hb (chain_good _ _ _ _ _ Hb q1 _ _ X1)) in H.
    destruct (catchup_latest sha V iv tl es (log (d_disk d)) c x Hb q1 q2 X1 q9) as [m' [C1 C2]]. rewrite C2 in H. inversion H; subst d'.
    apply Hfail. cbn. eexists. split; [|exact C1]. lia.
Qed.

Lemma log_front w es i w' : log_ok w es -> truncate_front w i = Ok w' ->
  log_ok w' es /\ log_last w' = log_last w /\ log_first w' = i /\ 1 <= i.
Proof.
  intros [L1 L2 L3] H. unfold truncate_front in H. destruct ((i <? log_first w) || (log_last w <? i) || (i <? 1)) eqn:E; [discriminate|].
  inversion H; subst w'. clear H. apply orb_false_iff in E. destruct E as [E E3]. apply orb_false_iff in E. destruct E as [E1 E2].
  unfold log_last in *. cbn [log_first log_entries] in *.
  assert (El : i + Z.of_nat (length (skipn (Z.to_nat (i - log_first w)) (log_entries w))) - 1 = log_first w + Z.of_nat (length (log_entries w)) - 1)
    by (rewrite skipn_length; lia).
  split; [|split; [exact El|split; [reflexivity|lia]]].
  constructor; unfold log_last; cbn [log_first log_entries]; [lia|lia|].
  intros j e Hj. rewrite nth_skipn in Hj. rewrite <- (L3 _ _ Hj). f_equal. lia.
Qed.

Lemma prune_one_state strict d tl v vs : state strict d tl -> d_prune d = Some (v :: vs) ->
  state strict (Db (prune_one (d_disk d) v) (d_mt d) (d_pending d) (d_async d) (d_queue d) (d_rewrite d) (Some vs) (d_keep d)) tl.
Proof.
  intros [es [a [c [I F]]]] Hp. destruct I as [q1 q2 q3 q4 q5 q6 q7 q8 q9 q10 q11 q12 q13].
  pose proof (q12 _ Hp) as Hvs. inversion Hvs as [|? ? Hv Hvs']; subst.
  exists es, a, c. split.
  - constructor; cbn [prune_one d_disk d_queue d_async d_rewrite d_prune snaps current log current_tmp]; auto.
    + destruct q8 as [x [X1 X2]]. exists x. split; [exact X1|]. rewrite find_remove by lia. exact X2.
    + apply remove_sorted. exact q10.
    + assert (K : forall m k, (c <= k)%nat -> nth_error tl k = Some m -> mt_version m <> v).
      { intros m k Hk Hm. rewrite (g_ver _ _ _ _ _ (chain_good _ _ _ _ _ Hb q1 _ _ Hm)). pose proof (proj1 (ver_le V iv c k Hb) Hk). lia. }
      destruct (d_rewrite d); cbn in *; auto; destruct q11 as [k [Hk [Hm Hf]]]; exists k; repeat split; auto; rewrite find_remove; auto; eapply K; eassumption.
    + intros ws Hws. inversion Hws; subst. exact Hvs'.
  - intro Hs. destruct (F Hs) as [f1 f2]. constructor; cbn [prune_one d_disk snaps log]; [|exact f2].
    intros u x Hu. apply filter_In in Hu. apply f1. exact (proj1 Hu).
Qed.

Lemma prune_log_state strict d tl : state strict d tl ->
  state strict (Db (prune_log (d_disk d) (mt_init (d_mt d))) (d_mt d) (d_pending d) (d_async d) (d_queue d) (d_rewrite d) None (d_keep d)) tl.
Proof.
  intros [es [a [c [I F]]]]. destruct I as [q1 q2 q3 q4 q5 q6 q7 q8 q9 q10 q11 q12 q13].
  assert (Eiv : mt_init (d_mt d) = iv).
  { destruct q13 as [m0 [Hm0 Hl]]. pose proof (chain_good _ _ _ _ _ Hb q1 _ _ Hm0) as G.
    destruct Hl as [_ [m1 [A1 [An A2]]]]. pose proof (apply_upgrades_shape _ _ _ A1) as [B1 _]. apply apply_nf in A2; [|exact An].
    destruct A2 as [_ [ts [-> _]]]. cbn [mt_init with_trees]. rewrite B1. exact (g_init _ _ _ _ _ G). }
  assert (Hcur : In (ver c, match find_snap (snaps (d_disk d)) (ver c) with Some m => m | None => d_mt d end) (snaps (d_disk d))).
  { destruct q8 as [x [X1 X2]]. rewrite X2. apply find_in. exact X2. }
  unfold prune_log. rewrite Eiv. destruct (truncate_front (log (d_disk d)) (wal_index (earliest (d_disk d) + 1) iv)) as [w| |] eqn:E.
  2,3: exists es, a, c; split; [constructor; cbn; auto; discriminate|intro Hs; destruct (F Hs); constructor; assumption].
  destruct (log_front _ _ _ _ q2 E) as [W1 [W2 [W3 W4]]].
  assert (Hearly : forall i m, In (ver i, m) (snaps (d_disk d)) -> log_first w <= Z.of_nat (S i)).
  { intros i m Hi. rewrite W3. pose proof (earliest_le _ _ _ q10 Hi (ver_nonneg V iv i Hb)).
    pose proof (index_mono iv (earliest (d_disk d) + 1) (ver i + 1) ltac:(lia)). pose proof (index_after V iv i Hb). lia. }
  exists es, a, c. split.
  - constructor; cbn [d_disk d_queue d_async d_rewrite d_prune snaps current log current_tmp]; auto; try discriminate.
    + rewrite W2. exact q5.
    + eapply Hearly. exact Hcur.
  - intro Hs. destruct (F Hs) as [f1 f2]. constructor; cbn [d_disk snaps log]; [|rewrite W2; exact f2].
    intros u x Hu. destruct (f1 u x Hu) as [i [Y1 [Y2 _]]]. exists i. split; [exact Y1|]. split; [exact Y2|]. subst u. eapply Hearly. exact Hu.
Qed.

Lemma prune_state strict d tl d' : state strict d tl -> prune_step d = Ok d' -> state strict d' tl.
Proof.
  intros St H. unfold prune_step in H. destruct (d_prune d) as [[|v vs]|] eqn:E; [| |discriminate]; inversion H; subst.
  - apply prune_log_state. exact St.
  - apply prune_one_state; assumption.
Qed.

(* ---------------- reopening ---------------- *)

Lemma chain_firstn tl es w : chain tl es -> (w <= length es)%nat -> chain (firstn (S w) tl) (firstn w es).
Proof.
  intros C H. pose proof (ch_len _ _ _ _ _ C). constructor.
  - rewrite !firstn_length. lia.
  - intros m Hm. apply nth_firstn_some in Hm. eapply ch_good0; [exact C|exact (proj2 Hm)].
  - intros i e m m' H1 H2 H3. apply nth_firstn_some in H1. apply nth_firstn_some in H2. apply nth_firstn_some in H3.
    eapply ch_next; [exact C|exact (proj2 H1)|exact (proj2 H2)|exact (proj2 H3)].
Qed.

Lemma timeline_cut tl es w m : chain tl es -> nth_error tl w = Some m ->
  filter (fun x => mt_version x <=? mt_version m) tl = firstn (S w) tl.
Proof.
  intros C Hm. apply filter_is_firstn. intros i x Hx.
  rewrite (g_ver _ _ _ _ _ (chain_good _ _ _ _ _ Hb C _ _ Hx)), (g_ver _ _ _ _ _ (chain_good _ _ _ _ _ Hb C _ _ Hm)).
  pose proof (ver_le V iv i w Hb). destruct (i <? S w)%nat eqn:E; lia.
Qed.

Lemma log_ok_firstn w es n : log_ok w es -> log_last w <= Z.of_nat n -> (n <= length es)%nat -> log_ok w (firstn n es).
Proof.
  intros [L1 L2 L3] H Hn. constructor; [exact L1|rewrite firstn_length; lia|].
  intros j e Hj. pose proof (nth_lt _ _ _ Hj). unfold log_last in H. rewrite nth_firstn by lia. apply L3. exact Hj.
Qed.
Lemma log_ok_shorter w es k : log_ok w es -> log_ok (Wal (log_first w) (firstn k (log_entries w))) es /\
  log_last (Wal (log_first w) (firstn k (log_entries w))) <= log_last w.
Proof.
  intros [L1 L2 L3]. unfold log_last in *. split; [|cbn [log_first log_entries]; rewrite firstn_length; lia].
  constructor; unfold log_last; cbn [log_first log_entries]; [exact L1|rewrite firstn_length; lia|].
  intros j e Hj. apply nth_firstn_some in Hj. apply L3. exact (proj2 Hj).
Qed.

(* a freshly opened database on a prefix of the timeline *)
Lemma opened_state strict k m async keep tl es c w : chain tl es -> log_ok (log k) es -> log_last (log k) <= Z.of_nat w -> (c <= w)%nat ->
  (w <= length es)%nat -> nth_error tl w = Some m ->
  current k = ver c -> (exists x, nth_error tl c = Some x /\ find_snap (snaps k) (ver c) = Some x) ->
  log_first (log k) <= Z.of_nat (S c) -> sorted_snaps (snaps k) ->
  (strict = true -> (forall v x, In (v, x) (snaps k) -> exists i, v = ver i /\ (i <= w)%nat /\ nth_error tl i = Some x /\ log_first (log k) <= Z.of_nat (S i)) /\
                    log_last (log k) = Z.of_nat w) ->
  state strict (Db k m empty_entry async [] RNone None keep) (filter (fun x => mt_version x <=? mt_version m) tl).
Proof.
  intros C L Lw Hc Hw Hm Ecur Hsnap Hfirst Hsort Hfull. rewrite (timeline_cut tl es w m C Hm).
  assert (Elen : length (firstn w es) = w) by (rewrite firstn_length; lia).
  exists (firstn w es), w, c. split.
  - constructor; cbn [d_disk d_queue d_async d_rewrite d_prune rewrite_ok]; auto.
    + apply chain_firstn; assumption.
    + apply log_ok_firstn; assumption.
    + rewrite skipn_all2 by lia. reflexivity.
    + lia.
    + destruct Hsnap as [x [X1 X2]]. exists x. split; [rewrite nth_firstn by lia; exact X1|exact X2].
    + discriminate.
    + exists m. rewrite Elen. split; [rewrite nth_firstn by lia; exact Hm|].
      apply live_start. exact (g_names _ _ _ _ _ (chain_good _ _ _ _ _ Hb C _ _ Hm)).
  - intro Hs. destruct (Hfull Hs) as [f1 f2]. constructor; cbn [d_disk]; [|exact f2].
    intros v x Hv. destruct (f1 v x Hv) as [i [Y1 [Y2 [Y3 Y4]]]]. exists i. split; [exact Y1|]. split; [rewrite nth_firstn by lia; exact Y3|exact Y4].
Qed.

Lemma reopen_ok d tl es a c lost : inv d tl es a c ->
  let k := lose (d_disk d) lost in
  let w := Nat.max c (Z.to_nat (log_last (log k))) in
  exists m, nth_error tl w = Some m /\ reopen sha d lost = Ok (Db k m empty_entry (d_async d) [] RNone None (d_keep d)) /\
    log_ok (log k) es /\ log_last (log k) <= log_last (log (d_disk d)) /\ (w <= length es)%nat.
Proof.
  intros [q1 q2 q3 q4 q5 q6 q7 q8 q9 q10 q11 q12 q13] k w.
  destruct (log_ok_shorter _ _ (length (log_entries (log (d_disk d))) - lost) q2) as [L1 L2].
  change (Wal (log_first (log (d_disk d))) (firstn (length (log_entries (log (d_disk d))) - lost) (log_entries (log (d_disk d))))) with (log k) in L1, L2.
  destruct q8 as [x [X1 X2]].
  destruct (catchup_latest sha V iv tl es (log k) c x Hb q1 L1 X1 q9) as [m [C1 C2]].
  exists m. split; [exact C1|]. split; [|split; [exact L1|split; [exact L2|]]].
  - unfold reopen. fold k. unfold load. change (0 <? 0) with false. cbn [rbind].
    change (current k) with (current (d_disk d)). change (snaps k) with (snaps (d_disk d)). rewrite q7, X2.
    change (0 =? 0) with true. cbn [orb]. rewrite (load_good _ _ _ _ _ Hb (chain_good _ _ _ _ _ Hb q1 _ _ X1)), C2. reflexivity.
  - pose proof (nth_lt _ _ _ C1) as Lt. rewrite (ch_len _ _ _ _ _ q1) in Lt. fold w in Lt. lia.
Qed.

Lemma reopen_state strict d tl lost d' : state strict d tl -> (strict = true -> lost = O /\ d_queue d = []) -> reopen sha d lost = Ok d' ->
  state strict d' (filter (fun x => mt_version x <=? mt_version (d_mt d')) tl).
Proof.
  intros [es [a [c [I F]]]] Hreg H. destruct (reopen_ok _ _ _ _ _ lost I) as [m [Hm [E [L1 [L2 Hw]]]]]. rewrite E in H. inversion H; subst d'. clear H E.
  destruct I as [q1 q2 q3 q4 q5 q6 q7 q8 q9 q10 q11 q12 q13]. cbn [d_mt].
  eapply (opened_state strict _ m _ _ tl es c); [exact q1|exact L1| | |exact Hw|exact Hm|exact q7|exact q8|exact q9|exact q10|]; [lia|lia|].
  intro Hs. destruct (Hreg Hs) as [-> Hq]. destruct (F Hs) as [f1 f2].
  assert (Ek : log_last (log (lose (d_disk d) 0)) = log_last (log (d_disk d))).
  { unfold lose, log_last. cbn [log log_first log_entries]. rewrite Nat.sub_0_r, firstn_all. reflexivity. }
  assert (Ea : a = length es).
  { rewrite Hq in q3. apply (f_equal (@length _)) in q3. rewrite length_number, skipn_length in q3. cbn in q3. lia. }
  assert (Hc : (c <= length es)%nat) by (destruct q8 as [x [X _]]; pose proof (nth_lt _ _ _ X) as Lt; rewrite (ch_len _ _ _ _ _ q1) in Lt; lia).
  rewrite Ek, f2. split; [|lia]. intros v x Hv. destruct (f1 v x Hv) as [i [Y1 [Y2 Y3]]]. exists i.
  split; [exact Y1|]. split; [|split; [exact Y2|exact Y3]]. pose proof (nth_lt _ _ _ Y2) as Lt. rewrite (ch_len _ _ _ _ _ q1) in Lt. lia.
Qed.

(* ---------------- loading a given version, rolling back ---------------- *)

Lemma full_find d tl es a v m : chain tl es -> full d tl a -> find_snap (snaps (d_disk d)) v = Some m ->
  exists i, v = ver i /\ nth_error tl i = Some m /\ log_first (log (d_disk d)) <= Z.of_nat (S i).
Proof. intros C F H. apply (f_snaps _ _ _ F). apply find_in. exact H. Qed.

Lemma desc_versions k : sorted_snaps (snaps k) -> desc (versions_desc k).
Proof. intro H. apply rev_desc. exact H. Qed.

Lemma load_at d tl es a c n : inv d tl es a c -> full d tl a -> (n <= length es)%nat -> Z.of_nat n <= log_last (log (d_disk d)) \/ (exists x, In (ver n, x) (snaps (d_disk d))) ->
  1 <= ver n ->
  forall sv, seek (versions_desc (d_disk d)) (ver n) = Ok sv ->
  exists m i, nth_error tl n = Some m /\ load sha (d_disk d) (ver n) = Ok m /\ sv = ver i /\ (i <= n)%nat /\
    (exists x, nth_error tl i = Some x /\ find_snap (snaps (d_disk d)) sv = Some x) /\ log_first (log (d_disk d)) <= Z.of_nat (S i).
Proof.
  intros I F Hn Hlog Hpos sv Hseek. pose proof I as [q1 q2 q3 q4 q5 q6 q7 q8 q9 q10 q11 q12 q13].
  destruct (seek_ok _ _ _ (desc_versions _ q10) Hseek) as [S1 [S2 S3]].
  unfold versions_desc in S1. rewrite <- in_rev in S1. destruct (in_find _ _ S1) as [x Hx].
  destruct (full_find _ _ _ _ _ _ q1 F Hx) as [i [-> [Hi Hfi]]].
  assert (Hin : (i <= n)%nat) by (apply (ver_le V iv i n Hb); exact S2).
  unfold load. destruct (0 <? ver n) eqn:E0; [|lia]. rewrite Hseek. cbn [rbind]. rewrite Hx.
  pose proof (chain_good _ _ _ _ _ Hb q1 _ _ Hi) as G. rewrite (load_good _ _ _ _ _ Hb G).
  destruct (ver n =? 0) eqn:Ez; [lia|]. cbn [orb]. rewrite (g_ver _ _ _ _ _ G).
  destruct (ver i <? ver n) eqn:E.
  - assert (Hlt : (i < n)%nat) by (destruct (Nat.eq_dec i n) as [-> | ]; [lia|lia]).
    assert (Hl : Z.of_nat n <= log_last (log (d_disk d))).
    { destruct Hlog as [Hl | [y Hy]]; [exact Hl|]. exfalso. assert (ver n <= ver i); [|lia].
      apply S3; [|lia]. unfold versions_desc. rewrite <- in_rev. apply in_map_iff. exists (ver n, y). auto. }
    destruct (catchup_to sha V iv tl es _ i x n Hb q1 q2 Hi Hfi Hlt Hl) as [m [M1 M2]].
    exists m, i. split; [exact M1|]. split; [exact M2|]. split; [reflexivity|]. split; [exact Hin|]. split; [exists x; auto|exact Hfi].
  - assert (i = n) as -> by (pose proof (proj1 (ver_le V iv i n Hb) Hin); apply (ver_inj V iv); [exact Hb|lia]).
    exists x, n. split; [exact Hi|]. split; [reflexivity|]. split; [reflexivity|]. split; [lia|]. split; [exists x; auto|exact Hfi].
Qed.

Lemma log_back w es i w' : log_ok w es -> truncate_back w i = Ok w' ->
  log_ok w' es /\ log_last w' = i /\ log_first w' = log_first w /\ 1 <= i /\ log_first w <= i <= log_last w.
Proof.
  intros [L1 L2 L3] H. unfold truncate_back in H. destruct ((i <? log_first w) || (log_last w <? i) || (i <? 1)) eqn:E; [discriminate|].
  inversion H; subst w'. clear H. apply orb_false_iff in E. destruct E as [E E3]. apply orb_false_iff in E. destruct E as [E1 E2].
  unfold log_last in *. cbn [log_first log_entries] in *.
  split; [|split; [rewrite firstn_length; lia|split; [reflexivity|lia]]].
  constructor; unfold log_last; cbn [log_first log_entries]; [lia|rewrite firstn_length; lia|].
  intros j e Hj. apply nth_firstn_some in Hj. apply L3. exact (proj2 Hj).
Qed.

Lemma relink_log k sv k1 : relink k sv = Ok k1 -> log k1 = log k /\ snaps k1 = snaps k /\ current k1 = sv.
Proof.
  unfold relink. destruct (sv =? current k) eqn:E; [intro H; inversion H; subst; apply Z.eqb_eq in E; auto|].
  destruct (current_tmp k); [discriminate|]. intro H. inversion H. auto.
Qed.

(* what a successful rollback leaves *)
Lemma rollback_ok d tl es a c t k m : inv d tl es a c -> full d tl a -> 1 <= t -> rollback sha (d_disk d) t = Ok (k, m) ->
  exists n i, t = ver n /\ (1 <= n)%nat /\ (i <= n)%nat /\ (n <= length es)%nat /\ nth_error tl n = Some m /\ current k = ver i /\
    (exists x, nth_error tl i = Some x /\ find_snap (snaps k) (ver i) = Some x) /\
    snaps k = filter (fun p => fst p <=? t) (snaps (d_disk d)) /\
    log_ok (log k) es /\ log_last (log k) = Z.of_nat n /\ log_first (log k) = log_first (log (d_disk d)) /\ log_first (log k) <= Z.of_nat (S i).
Proof.
  intros I F Ht H. pose proof I as [q1 q2 q3 q4 q5 q6 q7 q8 q9 q10 q11 q12 q13]. unfold rollback in H.
  destruct (load sha (d_disk d) t) as [m1| |] eqn:El; cbn [rbind] in H; try discriminate.
  destruct (seek (versions_desc (d_disk d)) t) as [sv| |] eqn:Es; cbn [rbind] in H; try discriminate.
  destruct (relink (d_disk d) sv) as [k1| |] eqn:Er; cbn [rbind] in H; try discriminate.
  destruct (relink_log _ _ _ Er) as [R1 [R2 R3]].
  destruct (cut_log k1 (mt_init m1) t) as [k2| |] eqn:Ec; cbn [rbind] in H; try discriminate.
  destruct (drop_newer k2 t) as [k3| |] eqn:Ed; cbn [rbind] in H; try discriminate. inversion H; subst k3 m1. clear H.
  unfold cut_log in Ec. rewrite R1 in Ec.
  destruct (truncate_back (log (d_disk d)) (wal_index t (mt_init m))) as [w| |] eqn:Et; cbn [rbind] in Ec; try discriminate. inversion Ec; subst k2. clear Ec.
  destruct (log_back _ _ _ _ q2 Et) as [W1 [W2 [W3 [W4 W5]]]].
  assert (Hload : exists j, nth_error tl j = Some m).
  { destruct (seek_ok _ _ _ (desc_versions _ q10) Es) as [S1 _]. unfold versions_desc in S1. rewrite <- in_rev in S1.
    destruct (in_find _ _ S1) as [x Hx]. destruct (full_find _ _ _ _ _ _ q1 F Hx) as [i [Esv [Hi Hfi]]].
    pose proof (chain_good _ _ _ _ _ Hb q1 _ _ Hi) as G.
    unfold load in El. destruct (0 <? t) eqn:E0; [|lia]. rewrite Es in El. cbn [rbind] in El. rewrite Hx, (load_good _ _ _ _ _ Hb G) in El.
    destruct ((t =? 0) || (mt_version x <? t)) eqn:E1; [|inversion El; subst; eauto].
    unfold catchup in El. rewrite (g_init _ _ _ _ _ G), (g_ver _ _ _ _ _ G), ver_next, ver_index in El by exact Hb.
    destruct (log_last (log (d_disk d)) <? Z.of_nat (S i)) eqn:E2; [inversion El; subst; eauto|].
    destruct (t =? 0) eqn:E3; [lia|]. destruct (wal_index t iv <? Z.of_nat (S i)) eqn:E4; [discriminate|].
    destruct (log_last (log (d_disk d)) <? wal_index t iv) eqn:E5; [discriminate|].
    destruct (catchup_core sha V iv tl es (log (d_disk d)) i x (Z.to_nat (wal_index t iv)) Hb q1 q2 Hi Hfi) as [m2 [A1 A2]]; [lia|lia|].
    rewrite Z2Nat.id in A2 by lia. rewrite A2 in El. inversion El; subst. eauto. }
  destruct Hload as [j Hj]. rewrite (g_init _ _ _ _ _ (chain_good _ _ _ _ _ Hb q1 _ _ Hj)) in *.
  set (n := Z.to_nat (wal_index t iv)) in *. assert (Et' : t = ver n) by (apply ver_of_index; exact W4).
  assert (Hn : (n <= length es)%nat) by (pose proof (lo_last _ _ q2); lia).
  rewrite Et' in Es, El.
  assert (Hnl : Z.of_nat n <= log_last (log (d_disk d))) by lia. assert (Hpos : 1 <= ver n) by lia.
  destruct (load_at _ _ _ _ _ n I F Hn (or_introl Hnl) Hpos sv Es) as [m' [i [B1 [B2 [B3 [B4 [B5 B6]]]]]]].
  rewrite El in B2. inversion B2; subst m'. clear B2.
  unfold drop_newer in Ed. destruct (drop_above _ _ t) as [l| |] eqn:Edr; cbn [rbind] in Ed; try discriminate. inversion Ed; subst k. clear Ed.
  cbn [snaps current current_tmp log] in *. rewrite R2 in Edr.
  assert (El' : l = filter (fun p => fst p <=? t) (snaps (d_disk d))).
  { eapply drop_above_ok; cycle 2; [exact Edr| |].
    - unfold versions_desc. cbn [snaps]. rewrite ?R2. apply (desc_versions (d_disk d)). exact q10.
    - intros u x Hu _. unfold versions_desc. cbn [snaps]. rewrite ?R2, <- in_rev. apply in_map_iff. exists (u, x). auto. }
  exists n, i. split; [exact Et'|]. split; [lia|]. split; [exact B4|]. split; [exact Hn|]. split; [exact B1|]. split; [rewrite R3; exact B3|].
  split; [|split; [exact El'|split; [exact W1|split; [lia|split; [exact W3|lia]]]]].
  destruct B5 as [x [X1 X2]]. exists x. split; [exact X1|]. rewrite El', find_filter; [rewrite <- B3; exact X2|].
  rewrite Et'. apply (ver_le V iv); [exact Hb|exact B4].
Qed.

Lemma rollback_state d tl t d' : state true d tl -> 1 <= t -> reopen_at sha d t = Ok d' ->
  state true d' (filter (fun x => mt_version x <=? mt_version (d_mt d')) tl).
Proof.
  intros [es [a [c [I F]]]] Ht H. specialize (F eq_refl). unfold reopen_at in H.
  destruct (rollback sha (d_disk d) t) as [[k m]| |] eqn:E; cbn [rbind] in H; try discriminate. inversion H; subst d'. clear H. cbn [d_mt].
  destruct (rollback_ok _ _ _ _ _ _ _ _ I F Ht E) as [n [i [Et [_ [Hin [Hn [Hm [Hc [Hs [Hf [L1 [L2 [L3 L4]]]]]]]]]]]]].
  destruct I as [q1 q2 q3 q4 q5 q6 q7 q8 q9 q10 q11 q12 q13].
  eapply (opened_state true k m _ _ tl es i n); [exact q1|exact L1|lia|exact Hin|exact Hn|exact Hm|exact Hc|exact Hs|exact L4| |].
  - rewrite Hf. apply filter_sorted. exact q10.
  - intros _. split; [|lia]. intros v x Hv. rewrite Hf in Hv. apply filter_In in Hv. destruct Hv as [Hv Hle]. cbn in Hle.
    destruct (f_snaps _ _ _ F v x Hv) as [j [Y1 [Y2 Y3]]]. exists j. split; [exact Y1|]. split; [|split; [exact Y2|rewrite L3; exact Y3]].
    apply (ver_le V iv j n Hb). lia.
Qed.

(* ---------------- all steps ---------------- *)

Lemma step_state strict d tl s d' : state strict d tl -> regular strict d s -> dstep sha d s = Ok d' ->
  state strict d' (advance_timeline tl s d').
Proof.
  intros St R H. destruct s as [us|cs|name ps|b| | | | |lost|t]; cbn [dstep advance_timeline regular] in *.
  - apply rlift_ok in H. eapply call_inv; [exact H|apply upgrades_rest| |exact St]. intros m L. eapply live_db_upgrades; [exact L|exact (proj1 R)|exact (proj2 R)|exact H].
  - apply rlift_ok in H. eapply call_inv; [exact H|apply change_sets_rest| |exact St]. intros m L. eapply live_db_change_sets; [exact L|exact R|exact H].
  - apply rlift_ok in H. eapply call_inv; [exact H|apply change_set_rest| |exact St]. intros m L. eapply live_db_change_set; [exact L|exact H].
  - eapply commit_state; eassumption.
  - destruct St as [es [a [c [I F]]]]. destruct (flush_inv _ _ _ _ _ _ I H) as [I1 [L1 [_ [_ [_ [F1 [S1 _]]]]]]]. exists es, (S a), c. split; [exact I1|].
    intro Hs. destruct (F Hs) as [f1 f2]. constructor; [|exact L1]. intros v x Hv. rewrite S1 in Hv. rewrite F1. apply f1. exact Hv.
  - eapply start_state; eassumption.
  - eapply rewrite_state; eassumption.
  - eapply prune_state; eassumption.
  - eapply reopen_state; eassumption.
  - destruct R as [-> [Ht _]]. eapply rollback_state; eassumption.
Qed.
End I.

Lemma base_numbers sha base : base_ok sha base -> base_num (mt_version base) (mt_init base).
Proof. intros [[[H1 [_ H2]] | [H1 H2]] _]; [left|right]; split; assumption. Qed.

Lemma base_good sha base : base_ok sha base -> good sha (mt_version base) (mt_init base) 0 base.
Proof.
  intros [H1 [H2 [H3 H4]]]. constructor; cbn [ver]; auto. intro H. destruct H1 as [[_ [H1 _]] | [H1 _]]; [exact H1|cbn in H; lia].
Qed.

Theorem runs_state sha strict base async keep d tl : base_ok sha base -> runs sha strict base async keep d tl ->
  state sha (mt_version base) (mt_init base) strict d tl.
Proof.
  intros Hb R. pose proof (base_numbers _ _ Hb) as Hn. pose proof (base_good _ _ Hb) as G. induction R as [|d tl s d' R IH Hreg H].
  - exists [], O, O. split.
    + constructor; cbn [fresh_db fresh_disk d_disk d_queue d_async d_rewrite d_prune snaps current log rewrite_ok]; auto.
      * constructor; [reflexivity| |]. { intros m Hm. cbn in Hm. inversion Hm; subst. exact G. } { intros [|i] e m m' He; discriminate. }
      * constructor; unfold log_last; cbn; try lia. intros [|j] e He; discriminate.
      * unfold log_last. cbn. lia.
      * exists base. split; [reflexivity|]. unfold find_snap. cbn [find fst ver]. rewrite Z.eqb_refl. reflexivity.
      * cbn. lia.
      * repeat constructor.
      * discriminate.
      * exists base. split; [reflexivity|]. apply live_start. exact (g_names _ _ _ _ _ G).
    + intros _. constructor; cbn [fresh_db fresh_disk d_disk snaps log].
      * intros v m [E | []]. inversion E; subst. exists O. split; [reflexivity|]. split; [reflexivity|cbn; lia].
      * reflexivity.
  - eapply step_state; eassumption.
Qed.
