(* The end of a block, requests and answers, and histories of them. *)
From Coq Require Import Permutation Sorted.
From Verif Require Import Lib.Base Lib.Bytes.
From Verif Require Import Extdata.Model Extdata.Spec Extdata.Proofs.
Open Scope Z_scope.

Lemma perm_filter {A} (f : A -> bool) l l' : Permutation l l' -> Permutation (filter f l) (filter f l').
Proof.
  induction 1; cbn [filter].
  - constructor.
  - destruct (f x); [now constructor|assumption].
  - destruct (f x), (f y); try reflexivity. apply perm_swap.
  - etransitivity; eassumption.
Qed.
Lemma total_incl {A} (g : A -> Z) l1 l2 :
  NoDup l1 -> incl l1 l2 -> (forall x, In x l2 -> 0 <= g x) ->
  total (map g l1) <= total (map g l2).
Proof.
  intro H; revert l2; induction H as [|x l N H IH]; intros l2 I P.
  - apply total_nonneg. intros y Hy. apply in_map_iff in Hy. destruct Hy as (z & <- & Z). now apply P.
  - destruct (in_split x l2) as (a & b & E); [apply I; now left|]. subst l2.
    specialize (IH (a ++ b)). rewrite map_app, total_app in *. cbn [map] in *.
    unfold total in *; cbn [fold_right] in *.
    enough (fold_right Z.add 0 (map g l) <= fold_right Z.add 0 (map g a) + fold_right Z.add 0 (map g b)) by lia.
    apply IH.
    + intros y Hy. assert (Y : In y (a ++ x :: b)) by (apply I; now right).
      apply in_app_iff in Y. apply in_app_iff. destruct Y as [|[->|]]; [now left|contradiction|now right].
    + intros y Hy. apply P. apply in_app_iff in Hy. apply in_app_iff.
      destruct Hy; [now left|right; now right].
Qed.
Lemma total_split {A} (g : A -> Z) (f : A -> bool) l :
  total (map g l) = total (map g (filter f l)) + total (map g (filter (fun x => negb (f x)) l)).
Proof.
  induction l as [|x l IH]; [reflexivity|]. cbn [filter map]. unfold total in *; cbn [fold_right].
  rewrite IH. destruct (f x); cbn [negb map fold_right]; lia.
Qed.
Lemma nodup_key l (r x : req) :
  NoDup (map (fun r => (q_hid r, q_nonce r)) l) -> In r l -> In x l ->
  q_hid r = q_hid x -> q_nonce r = q_nonce x -> r = x.
Proof.
  induction l as [|y l IH]; cbn [map In]; intros N R X H1 H2; [contradiction|].
  inversion N as [|? ? N1 N2]; subst.
  destruct R as [R|R], X as [X|X].
  - congruence.
  - subst y. exfalso. apply N1. apply in_map_iff. exists x. split; [congruence|assumption].
  - subst y. exfalso. apply N1. apply in_map_iff. exists r. split; [congruence|assumption].
  - now apply IH.
Qed.
Lemma nodup_map_inv {A B} (f : A -> B) l : NoDup (map f l) -> NoDup l.
Proof. apply NoDup_map_inv. Qed.
Lemma nodup_map_filter {A B} (f : A -> B) p l : NoDup (map f l) -> NoDup (map f (filter p l)).
Proof.
  induction l as [|x l IH]; cbn [map filter]; intro H; [constructor|].
  inversion H as [|? ? H1 H2]; subst. destruct (p x); [|now apply IH].
  cbn [map]. constructor; [|now apply IH]. intro C. apply H1.
  apply in_map_iff in C. destruct C as (y & E & C). apply filter_In in C.
  apply in_map_iff. exists y. tauto.
Qed.

Lemma expired_iff e r : expired_b e r = true <-> expired e r.
Proof. unfold expired_b, expired. apply Z.ltb_lt. Qed.
Lemma open_iff e r : open_b e r = true <-> open e r.
Proof. unfold open_b, open. rewrite andb_true_iff, !Z.leb_le. tauto. Qed.

Definition times_ok (r : req) : Prop := 50 <= q_timeout r < 2 ^ 64.

(* ---- what is decided about each request ---- *)
Section Decide.
Variables (e : env) (need : Z).
Hypothesis pow : forall v, 0 <= e_power e v.
Hypothesis ord : any_order e.

Lemma voted_nonneg r : 0 <= voted e r.
Proof. apply total_nonneg. intros x H. apply in_map_iff in H. destruct H as (y & <- & _). apply pow. Qed.

Lemma decide_spec acc r : times_ok r ->
  let f := fst (decide e need acc r) in
  let acc' := snd (decide e need acc r) in
  (f = Late <-> expired e r) /\
  (forall c, f = Win c -> open e r /\ best e (q_claims r) = Some c /\ q_votes r <> [] /\ need <= acc + voted e r) /\
  (open e r -> q_votes r <> [] -> q_claims r <> [] -> need <= acc + voted e r -> exists c, f = Win c) /\
  acc <= acc' <= acc + (if open_b e r then voted e r else 0).
Proof.
  intros T. unfold times_ok in T. pose proof (voted_nonneg r) as V.
  unfold decide, expired, open, open_b.
  destruct (Z.ltb_spec (q_timeout r) (e_height e)) as [L|L]; cbn [fst snd].
  - split; [tauto|]. split; [discriminate|]. split; [lia|].
    destruct (_ && _); lia.
  - rewrite Z.mod_small by (unfold W64; lia).
    destruct (Z.ltb_spec (e_height e) (q_timeout r - 50)) as [M|M]; cbn [fst snd].
    + split; [split; [discriminate|lia]|]. split; [discriminate|]. split; [lia|].
      destruct (_ && _); lia.
    + assert (E : (q_timeout r - 50 <=? e_height e) && (e_height e <=? q_timeout r) = true) by lia.
      rewrite E. pose proof (best_none e (q_claims r) ord) as BN.
      destruct (best e (q_claims r)) as [c|] eqn:B; cbn [fst snd].
      * pose proof (tally_spec e need acc (q_votes r) pow) as TS. fold (voted e r) in TS.
        destruct (tally e need acc (q_votes r)) as [hit acc']. cbn [fst snd].
        destruct TS as (T1 & T2 & T3). split; [destruct hit; split; (discriminate || lia)|].
        split.
        { intros c' Hc. destruct hit; [|discriminate]. injection Hc as ->.
          destruct T1 as [T1 _]. destruct (T1 eq_refl). split; [lia|]. tauto. }
        split; [|exact T2].
        intros _ H1 _ H2. destruct hit; [now exists c|]. exfalso.
        destruct T1 as [_ T1]. discriminate T1. tauto.
      * split; [split; [discriminate|lia]|]. split; [discriminate|]. split; [|lia].
        intros _ _ C. exfalso. apply C. now apply BN.
Qed.

Lemma lates_filter l : forall acc, (forall r, In r l -> times_ok r) ->
  lates (fates e need acc l) = filter (expired_b e) l.
Proof.
  induction l as [|r l IH]; intros acc T; [reflexivity|]. cbn [fates filter].
  destruct (decide_spec acc r) as (D & _); [apply T; now left|].
  unfold lates in *. cbn [filter snd fst map].
  assert (E : is_late (fst (decide e need acc r)) = expired_b e r).
  { apply eq_true_iff_eq. rewrite expired_iff, <- D.
    destruct (fst (decide e need acc r)); cbn [is_late]; split; congruence. }
  cbn [is_late snd] in *. rewrite E.
  destruct (expired_b e r); cbn [map fst]; rewrite IH; try reflexivity; intros x Hx; apply T; now right.
Qed.
Lemma wins_in l : forall acc w, (forall r, In r l -> times_ok r) ->
  In w (wins (fates e need acc l)) ->
  In w l /\ open e w /\ q_votes w <> [].
Proof.
  induction l as [|r l IH]; intros acc w T H; [destruct H|].
  destruct (decide_spec acc r) as (_ & D & _); [apply T; now left|].
  unfold wins in H. cbn [fates filter snd fst] in H.
  destruct (fst (decide e need acc r)) as [| |c] eqn:F; cbn [is_win] in H.
  { destruct (IH _ w ltac:(intros; apply T; now right) H) as [A B]; split; [now right|exact B]. }
  { destruct (IH _ w ltac:(intros; apply T; now right) H) as [A B]; split; [now right|exact B]. }
  cbn [map fst In] in H. destruct H as [H|H].
  - subst w. split; [now left|]. destruct (D c eq_refl). tauto.
  - destruct (IH _ w ltac:(intros; apply T; now right) H) as [A B]; split; [now right|exact B].
Qed.
Lemma wins_best l : forall acc r c, (forall r, In r l -> times_ok r) ->
  In (r, Win c) (fates e need acc l) -> best e (q_claims r) = Some c /\ In r (wins (fates e need acc l)).
Proof.
  induction l as [|x l IH]; intros acc r c T H; [destruct H|].
  cbn [fates In] in H. destruct H as [H|H].
  - destruct (decide_spec acc x) as (_ & D & _); [apply T; now left|].
    injection H as -> F. destruct (D c F) as (_ & B & _). split; [exact B|].
    unfold wins. cbn [fates filter snd]. rewrite F. cbn [is_win map fst]. now left.
  - destruct (IH _ r c ltac:(intros; apply T; now right) H) as [A B]. split; [exact A|].
    unfold wins in *. cbn [fates filter snd]. destruct (is_win _); [cbn [map fst]; now right|exact B].
Qed.
Lemma wins_nodup l : forall acc, NoDup l -> NoDup (wins (fates e need acc l)).
Proof.
  intros acc N. unfold wins. apply nodup_map_filter. now rewrite fates_fst.
Qed.
Lemma wins_power l : forall acc w, (forall r, In r l -> times_ok r) ->
  StronglySorted (fun x y => q_nonce x <= q_nonce y) l ->
  In w (wins (fates e need acc l)) ->
  need <= acc + total (map (voted e) (filter (fun r => open_b e r && (q_nonce r <=? q_nonce w)) l)).
Proof.
  induction l as [|r l IH]; intros acc w T S H; [destruct H|].
  inversion S as [|? ? S1 S2]; subst. rewrite Forall_forall in S2.
  destruct (decide_spec acc r) as (_ & D & _ & A); [apply T; now left|].
  assert (Tl : forall r, In r l -> times_ok r) by (intros; apply T; now right).
  assert (P : forall f, 0 <= total (map (voted e) (filter f l))).
  { intro f. apply total_nonneg. intros x Hx. apply in_map_iff in Hx. destruct Hx as (y & <- & _). apply voted_nonneg. }
  assert (Tail : In w (wins (fates e need (snd (decide e need acc r)) l)) ->
    need <= acc + total (map (voted e) (filter (fun r => open_b e r && (q_nonce r <=? q_nonce w)) (r :: l)))).
  { intro I. specialize (IH _ w Tl S1 I). destruct (wins_in _ _ _ Tl I) as [Iw _].
    specialize (S2 w Iw). cbn [filter].
    assert (E : (q_nonce r <=? q_nonce w) = true) by lia. rewrite E, andb_true_r.
    destruct (open_b e r); cbn [map]; unfold total in *; cbn [fold_right]; lia. }
  unfold wins in H. cbn [fates filter snd fst] in H.
  destruct (fst (decide e need acc r)) as [| |c] eqn:F; cbn [is_win] in H; [now apply Tail|now apply Tail|].
  cbn [map fst In] in H. destruct H as [H|H]; [|now apply Tail].
  subst w. destruct (D c eq_refl) as (O1 & _ & _ & O2). cbn [filter].
  apply open_iff in O1. rewrite O1, Z.leb_refl. cbn [andb map].
  specialize (P (fun r0 => open_b e r0 && (q_nonce r0 <=? q_nonce r))).
  unfold total in *; cbn [fold_right]. lia.
Qed.
Lemma wins_enough l : forall acc w, (forall r, In r l -> times_ok r) -> 0 <= acc ->
  In w l -> open e w -> q_votes w <> [] -> q_claims w <> [] -> need <= voted e w ->
  In w (wins (fates e need acc l)).
Proof.
  induction l as [|r l IH]; intros acc w T A I O1 O2 O3 O4; [destruct I|].
  destruct (decide_spec acc r) as (_ & _ & D & B); [apply T; now left|].
  unfold wins. cbn [fates filter snd fst]. destruct I as [I|I].
  - subst r. destruct (D O1 O2 O3) as [c F]; [lia|]. rewrite F. cbn [is_win map fst]. now left.
  - assert (J : In w (wins (fates e need (snd (decide e need acc r)) l))).
    { apply IH; auto; [intros; apply T; now right|lia]. }
    destruct (is_win _); [cbn [map]; now right|exact J].
Qed.
End Decide.

(* ---- the end of a block ---- *)
Definition mine (h : Z) (r : req) : bool := q_hid r =? h.

Lemma required_third e h : (forall v, 0 <= e_power e v) -> required e h = third e h.
Proof.
  intro P. unfold required, third, total_power.
  assert (E : zsum (map (fun v => if e_keyed e h v then e_power e v else 0) (e_vals e)) =
              total (map (e_power e) (filter (e_keyed e h) (e_vals e)))).
  { induction (e_vals e) as [|v l IH]; [reflexivity|]. unfold zsum, total in *. cbn [map filter fold_right].
    rewrite IH. destruct (e_keyed e h v); cbn [map fold_right]; lia. }
  rewrite E, Z.mul_comm. apply Z.quot_div_nonneg; [|lia].
  enough (0 <= total (map (e_power e) (filter (e_keyed e h) (e_vals e)))) by lia.
  apply total_nonneg. intros x H. apply in_map_iff in H. destruct H as (y & <- & _). apply P.
Qed.

Lemma good_times s r : good s -> In r (s_reqs s) -> times_ok r.
Proof. intros G I. destruct (g_each _ G r I) as (_ & _ & _ & _ & _ & A & B & C). unfold times_ok. lia. Qed.

Definition queue (b : bridge) (s : st) : list req := sort (filter (mine (b_hid b)) (s_reqs s)).
Definition winners (e : env) (b : bridge) (s : st) : list req :=
  wins (fates e (required e (b_hid b)) 0 (queue b s)).
Lemma queue_perm b s : Permutation (queue b s) (filter (mine (b_hid b)) (s_reqs s)).
Proof. apply sort_perm. Qed.
Lemma queue_in b s r : In r (queue b s) <-> In r (s_reqs s) /\ q_hid r = b_hid b.
Proof.
  split; intro H.
  - apply (Permutation_in _ (queue_perm b s)) in H. apply filter_In in H.
    unfold mine in H. now rewrite Z.eqb_eq in H.
  - apply (Permutation_in _ (Permutation_sym (queue_perm b s))). apply filter_In.
    unfold mine. now rewrite Z.eqb_eq.
Qed.
Lemma total_queue (g : req -> Z) (f : req -> bool) b s :
  total (map g (filter f (queue b s))) = total (map g (filter (fun r => mine (b_hid b) r && f r) (s_reqs s))).
Proof.
  rewrite <- filter_filter. apply total_perm, Permutation_map, perm_filter, queue_perm.
Qed.

Lemma winners_enough e b s r :
  good s -> any_order e -> (forall v, 0 <= e_power e v) ->
  In r (s_reqs s) -> q_hid r = b_hid b -> open e r -> q_votes r <> [] ->
  third e (b_hid b) <= voted e r -> In r (winners e b s).
Proof.
  intros G Or Po I H O1 O2 O3. unfold winners. apply wins_enough; try assumption.
  - intros x X. apply queue_in in X. eapply good_times; [exact G|apply X].
  - lia.
  - now apply queue_in.
  - destruct (g_each _ G r I) as (_ & _ & _ & V & _). intro C. apply O2. now rewrite V, C.
  - now rewrite required_third.
Qed.
Lemma winners_power e b s w :
  good s -> any_order e -> (forall v, 0 <= e_power e v) -> In w (winners e b s) ->
  third e (b_hid b) <= total (map (voted e)
    (filter (fun r => mine (b_hid b) r && (open_b e r && (q_nonce r <=? q_nonce w))) (s_reqs s))).
Proof.
  intros G Or Po I. rewrite <- (required_third e (b_hid b)) by assumption.
  rewrite <- total_queue.
  change (required e (b_hid b) <= 0 + total (map (voted e)
    (filter (fun r => open_b e r && (q_nonce r <=? q_nonce w)) (queue b s)))).
  apply wins_power; try assumption.
  - intros x X. apply queue_in in X. eapply good_times; [exact G|apply X].
  - apply sort_sorted.
Qed.

Lemma find_none_new s b : good s -> forall c, find_req s (b_hid b) (s_last s (b_hid b) + 1) c = None.
Proof.
  intros G c. unfold find_req. destruct (find _ (s_reqs s)) as [r|] eqn:F; [|reflexivity].
  apply find_some in F. destruct F as [F1 F2]. unfold same_key in F2.
  rewrite !andb_true_iff, !Z.eqb_eq in F2. destruct F2 as [[F2 F3] _].
  destruct (g_each _ G r F1) as (X & _). rewrite F2 in X. lia.
Qed.

Section History.
Variables (BASE ESC : Z) (blocked : Z -> bool).
Variables (parse_err json_err : bytes -> bytes).
Notation end_block := (end_block ESC blocked parse_err json_err).
Notation result := (result parse_err json_err).
Notation safe := (safe BASE ESC blocked).

Lemma block_spec e b s :
  good s -> any_order e -> (forall v, 0 <= e_power e v) -> b_evm b = true ->
  (forall r, In r (s_reqs s) -> q_hid r = b_hid b -> safe e r) ->
  total (map q_fee (filter (mine (b_hid b)) (s_reqs s))) <= s_bal s ESC BASE ->
  let s' := end_block e b s in
  let won := winners e b s in
  let late := filter (fun r => mine (b_hid b) r && expired_b e r) (s_reqs s) in
  s_done s' = s_done s ++ won /\
  NoDup won /\
  (forall w, In w won -> In w (s_reqs s) /\ q_hid w = b_hid b /\ open e w /\ q_votes w <> []) /\
  (exists f, s_reqs s' = filter f (s_reqs s) /\
    forall r, In r (s_reqs s) -> f r = true <->
      (q_hid r = b_hid b -> ~ expired e r /\ ~ In r won /\ forall w, In w won -> ~ overtakes w r)) /\
  (forall a, a <> ESC -> s_bal s' a BASE = s_bal s a BASE
     + total (map (fun r => if q_sender r =? a then q_fee r else 0) late)
     + total (map (fun w => if voter a w then share w else 0) won)) /\
  s_bal s' ESC BASE = s_bal s ESC BASE - total (map q_fee late)
     - total (map (fun w => share w * Z.of_nat (length (q_votes w))) won) /\
  (forall a d, d <> BASE -> s_bal s' a d = s_bal s a d) /\
  (forall w, In w won -> exists c, best e (q_claims w) = Some c /\ s_cb s' (q_cron w) = Some (result c)) /\
  (forall k, ~ In k (map q_cron won) -> s_cb s' k = s_cb s k) /\
  s_last s' = s_last s /\ s_cron s' = s_cron s /\
  (forall h v, s_stats s' h v = add_stat (s_stats s h v)
     (total (map (fun w => if (q_hid w =? h) && voter v w then 1 else 0) won))
     (total (map (fun w => if (q_hid w =? h) && voter v w then q_fee w else 0) won))).
Proof.
  intros G Or Po Ev Sf Hb.
  set (need := required e (b_hid b)). set (l := queue b s). set (fl := fates e need 0 l).
  assert (Tl : forall r, In r l -> times_ok r).
  { intros r H. apply queue_in in H. eapply good_times; [exact G|apply H]. }
  assert (Nd : NoDup l).
  { apply (Permutation_NoDup (Permutation_sym (queue_perm b s))). apply NoDup_filter.
    apply (NoDup_map_inv _ _ (g_keys _ G)). }
  unfold Model.end_block. rewrite Ev. fold need. fold (mine (b_hid b)).
  change (sort (filter (mine (b_hid b)) (s_reqs s))) with l.
  rewrite loop_fates. fold fl.
  destruct (act_loop BASE ESC blocked parse_err json_err e fl s) as (A1 & A2 & A3 & A4 & A5 & A6 & A7).
  { intros r f H. assert (I : In r l).
    { rewrite <- (fates_fst e need l 0). apply in_map_iff. now exists (r, f). }
    apply queue_in in I. now apply Sf. }
  { unfold fl. rewrite fates_fst. unfold l.
    rewrite (total_perm _ _ (Permutation_map q_fee (queue_perm b s))). exact Hb. }
  set (s' := fold_left _ fl s) in *. cbn zeta.
  change (winners e b s) with (wins fl).
  assert (Lt : lates fl = filter (expired_b e) l) by (apply lates_filter; assumption).
  assert (Wi : forall w, In w (wins fl) -> In w (s_reqs s) /\ q_hid w = b_hid b /\ open e w /\ q_votes w <> []).
  { intros w H. apply wins_in in H; try assumption. destruct H as (H1 & H2 & H3).
    apply queue_in in H1. tauto. }
  split; [exact A4|]. split; [now apply wins_nodup|]. split; [exact Wi|].
  split.
  { destruct A1 as (f & F1 & F2). exists f. split; [exact F1|]. intros r Hr. rewrite F2.
    unfold gone. rewrite Lt. split.
    - intros N H. split; [|split].
      + intro X. apply N. left. exists r. split; [|reflexivity]. apply in_app_iff. left.
        apply filter_In. split; [apply queue_in; now split|now apply expired_iff].
      + intro X. apply N. left. exists r. split; [apply in_app_iff; now right|reflexivity].
      + intros w W X. apply N. right. now exists w.
    - intros N [(x & X & K)|(w & W & X)].
      + assert (In x (s_reqs s) /\ q_hid x = b_hid b) as [X1 X2].
        { apply in_app_iff in X. destruct X as [X|X].
          - apply filter_In in X. now apply queue_in.
          - destruct (Wi x X) as (? & ? & _). now split. }
        unfold keyof in K. injection K as K1 K2 K3.
        assert (r = x) by (apply (nodup_key (s_reqs s)); [exact (g_keys _ G)|assumption..]). subst x.
        destruct (N X2) as (N1 & N2 & _). apply in_app_iff in X. destruct X as [X|X]; [|contradiction].
        apply filter_In in X. apply N1. now apply expired_iff.
      + destruct (Wi w W) as (_ & W2 & _). pose proof X as [X1 _].
        destruct (N (eq_trans X1 W2)) as (_ & _ & N3). now apply (N3 w). }
  split.
  { intros a Na. rewrite A5, Z.eqb_refl. unfold gain. rewrite (proj2 (Z.eqb_neq a ESC) Na), Lt. unfold l.
    rewrite total_queue. lia. }
  split.
  { rewrite A5, Z.eqb_refl. unfold gain. rewrite Z.eqb_refl, Lt. unfold l. rewrite total_queue. lia. }
  split.
  { intros a d Nd'. rewrite A5, (proj2 (Z.eqb_neq d BASE) Nd'). lia. }
  split.
  { intros w W. destruct (A6 (q_cron w)) as [(r & c & B1 & B2 & B3)|[B1 _]].
    - destruct (wins_best e need Po Or l 0 r c Tl B1) as [C1 C2]. exists c.
      assert (r = w); [|now subst].
      destruct (Wi r C2) as (R1 & _). destruct (Wi w W) as (W1 & _).
      clear - B2 R1 W1 G. pose proof (g_crons _ G) as N. revert N R1 W1. induction (s_reqs s) as [|y l IH]; intros; [contradiction|].
      cbn [map In] in *. inversion N as [|? ? N1 N2]; subst. destruct R1 as [R1|R1], W1 as [W1|W1].
      + congruence.
      + subst y. exfalso. apply N1. rewrite B2. now apply in_map.
      + subst y. exfalso. apply N1. rewrite <- B2. now apply in_map.
      + now apply IH.
    - exfalso. apply B1. now apply in_map. }
  split.
  { intros k Hk. destruct (A6 k) as [(r & c & B1 & B2 & B3)|[_ B]]; [|exact B].
    exfalso. apply Hk. rewrite <- B2. apply in_map.
    destruct (wins_best e need Po Or l 0 r c Tl B1) as [_ C]. exact C. }
  split; [exact A2|]. split; [exact A3|]. exact A7.
Qed.

End History.

Section Sending.
Variable BASE : Z.
Definition moved (s : st) (from to amt : Z) (s' : st) : Prop :=
  s' = set_bal s (s_bal s') /\
  forall a d, s_bal s' a d = s_bal s a d +
    if d =? BASE then (if a =? from then - amt else 0) + (if a =? to then amt else 0) else 0.
Lemma send_spec s from to amt s' : from <> to -> 0 <= amt ->
  send s BASE from to amt = Some s' -> moved s from to amt s' /\ amt <= Z.max (s_bal s from BASE) 0.
Proof.
  intros N A. unfold send. destruct (Z.eqb_spec amt 0) as [->|NZ].
  - intro H. injection H as <-. split; [|lia]. split; [destruct s; reflexivity|]. intros. zd.
  - destruct (Z.ltb_spec (s_bal s from BASE) amt); [discriminate|]. intro H'. injection H' as <-.
    split; [|lia]. split; [reflexivity|]. intros a d. cbn [s_bal set_bal].
    destruct (Z.eqb_spec a to) as [->|N1].
    + rewrite upd_same. destruct (Z.eqb_spec to from) as [E|_]; [congruence|].
      destruct (Z.eqb_spec d BASE) as [->|N2].
      * rewrite upd_same, upd_other by congruence. lia.
      * rewrite upd_other by assumption. rewrite upd_other by congruence. lia.
    + rewrite upd_other by assumption. destruct (Z.eqb_spec a from) as [->|N3].
      * rewrite upd_same. destruct (Z.eqb_spec d BASE) as [->|N2]; [rewrite upd_same; lia|].
        rewrite upd_other by assumption. lia.
      * rewrite upd_other by assumption. destruct (d =? BASE); lia.
Qed.
Lemma send_can s from to amt : amt <= s_bal s from BASE -> exists s', send s BASE from to amt = Some s'.
Proof.
  intro H. unfold send. destruct (amt =? 0); [eexists; reflexivity|].
  destruct (Z.ltb_spec (s_bal s from BASE) amt); [lia|]. eexists; reflexivity.
Qed.

End Sending.

Section Asking.
Variables (BASE ESC : Z) (cron_acct : Z -> Z).
Notation ask := (ask BASE ESC cron_acct).
(* ---- asking ---- *)
Definition new_req (e : env) (m : ask_msg) (b : bridge) (coin : Z) (s : st) : req :=
  mk_req (b_hid b) (s_last s (b_hid b) + 1) (e_height e) (e_height e + 99) (s_cron s + 1)
    (m_contract m) (m_call m) (m_origin m) coin (m_gas m / 2 * m_price m) [] [].
Definition ask_ok (e : env) (m : ask_msg) (b : bridge) (coin : Z) (s : st) : Prop :=
  m_call m <> [] /\ m_has_callback m = true /\ e_bridge e (m_chain m) = Some b /\
  b_min_gas b <= m_gas m / 2 /\ e_coin e = Some coin /\ e_base_fee e <= m_price m /\
  2 * (m_gas m / 2 * m_price m) < 2 ^ 256 /\ 2 * (m_gas m / 2 * m_price m) <= s_bal s (m_origin m) BASE.
Lemma ask_spec e m s s' :
  good s -> 0 <= m_gas m -> 0 <= e_base_fee e -> m_origin m <> ESC ->
  cron_acct (s_cron s + 1) <> m_origin m -> cron_acct (s_cron s + 1) <> ESC ->
  ask e m s = Ok s' <-> exists b coin, ask_ok e m b coin s /\
    let fee := m_gas m / 2 * m_price m in
    0 <= fee /\
    s' = mk_st (s_reqs s ++ [new_req e m b coin s]) (upd (s_last s) (b_hid b) (s_last s (b_hid b) + 1))
           (s_cron s + 1) (s_bal s') (s_done s) (s_cb s) (s_stats s) /\
    (forall s1 s2, send s BASE (m_origin m) ESC fee = Some s1 ->
       send s1 BASE (m_origin m) (cron_acct (s_cron s + 1)) fee = Some s2 -> s_bal s' = s_bal s2) /\
    forall a d, s_bal s' a d = s_bal s a d + if d =? BASE then
      (if a =? m_origin m then - (2 * fee) else 0) + (if a =? ESC then fee else 0) +
      (if a =? cron_acct (s_cron s + 1) then fee else 0) else 0.
Proof.
  intros G Ga Bf N1 N2 N3.
  unfold Model.ask, ask_ok. unfold W256.
  set (fee := m_gas m / 2 * m_price m).
  assert (Hg : 0 <= m_gas m / 2) by (apply Z.div_pos; lia).
  assert (Main : forall b coin, 0 <= fee -> 2 * fee <= s_bal s (m_origin m) BASE ->
    exists s1 s2 s0, send s BASE (m_origin m) ESC fee = Some s1 /\
      send s1 BASE (m_origin m) (cron_acct (s_cron s1 + 1)) fee = Some s2 /\ s_cron s1 = s_cron s /\
      s0 = put_req (set_last (set_cron s2 (s_cron s1 + 1))
             (upd (s_last s2) (b_hid b) (s_last s2 (b_hid b) + 1)))
             (mk_req (b_hid b) (s_last s2 (b_hid b) + 1) (e_height e) (e_height e + 100 - 1) (s_cron s1 + 1)
                     (m_contract m) (m_call m) (m_origin m) coin fee [] []) /\
      s0 = mk_st (s_reqs s ++ [new_req e m b coin s]) (upd (s_last s) (b_hid b) (s_last s (b_hid b) + 1))
           (s_cron s + 1) (s_bal s2) (s_done s) (s_cb s) (s_stats s) /\
      forall a d, s_bal s2 a d = s_bal s a d + if d =? BASE then
      (if a =? m_origin m then - (2 * fee) else 0) + (if a =? ESC then fee else 0) +
      (if a =? cron_acct (s_cron s + 1) then fee else 0) else 0).
  { intros b coin F0 F1.
    destruct (send_can BASE s (m_origin m) ESC fee ltac:(lia)) as [s1 E1].
    destruct (send_spec _ _ _ _ _ _ N1 F0 E1) as [[M1 M2] _].
    assert (C1 : s_cron s1 = s_cron s) by (rewrite M1; reflexivity).
    destruct (send_can BASE s1 (m_origin m) (cron_acct (s_cron s1 + 1)) fee) as [s2 E2].
    { rewrite M2, !Z.eqb_refl. rewrite (proj2 (Z.eqb_neq (m_origin m) ESC) N1). lia. }
    assert (N2' : m_origin m <> cron_acct (s_cron s1 + 1)) by (rewrite C1; congruence).
    destruct (send_spec _ _ _ _ _ _ N2' F0 E2) as [[L1 L2] _].
    eexists s1, s2, _. split; [exact E1|]. split; [exact E2|]. split; [exact C1|]. split; [reflexivity|].
    assert (Q1 : s_reqs s2 = s_reqs s) by (rewrite L1, M1; reflexivity).
    assert (Q2 : s_last s2 = s_last s) by (rewrite L1, M1; reflexivity).
    assert (Q3 : s_done s2 = s_done s) by (rewrite L1, M1; reflexivity).
    assert (Q4 : s_cb s2 = s_cb s) by (rewrite L1, M1; reflexivity).
    assert (Q5 : s_stats s2 = s_stats s) by (rewrite L1, M1; reflexivity).
    split.
    - unfold put_req. cbn [q_hid q_nonce q_contract]. rewrite Q2, C1.
      assert (Fn : find_req (set_last (set_cron s2 (s_cron s + 1)) (upd (s_last s) (b_hid b) (s_last s (b_hid b) + 1)))
                     (b_hid b) (s_last s (b_hid b) + 1) (m_contract m) = None).
      { unfold find_req. cbn [set_last set_cron s_reqs]. rewrite Q1.
        exact (find_none_new s b G (m_contract m)). }
      rewrite Fn. unfold set_reqs, set_last, set_cron.
      cbn [s_reqs s_last s_cron s_bal s_done s_cb s_stats]. rewrite Q1, Q3, Q4, Q5.
      unfold new_req. fold fee. replace (e_height e + 100 - 1) with (e_height e + 99) by lia. reflexivity.
    - intros a d. rewrite L2, M2, C1. destruct (d =? BASE); [|lia].
      destruct (a =? m_origin m), (a =? ESC), (a =? cron_acct (s_cron s + 1)); lia. }
  split.
  - destruct (m_call m) as [|x xs] eqn:Hc; [cbn; discriminate|]. cbn [length Nat.eqb].
    destruct (m_has_callback m) eqn:Hcb; [|discriminate]. cbn [negb].
    destruct (e_bridge e (m_chain m)) as [b|] eqn:Hbr; [|discriminate].
    destruct (Z.ltb_spec (m_gas m / 2) (b_min_gas b)) as [|L1]; [discriminate|].
    destruct (e_coin e) as [coin|] eqn:Hco; [|discriminate].
    destruct (Z.ltb_spec (m_price m) (e_base_fee e)) as [|L2]; [discriminate|].
    destruct (Z.leb_spec (2 ^ 256) (2 * fee)) as [|L3]; [discriminate|].
    destruct (Z.ltb_spec (s_bal s (m_origin m) BASE) (2 * fee)) as [|L4]; [discriminate|].
    assert (F0 : 0 <= fee) by (unfold fee; apply Z.mul_nonneg_nonneg; lia).
    destruct (Main b coin F0 L4) as (s1 & s2 & s0 & E1 & E2 & E3 & E4 & E5 & E6).
    rewrite E1. cbn zeta. rewrite E2. intro H.
    assert (Hs : s' = s0).
    { rewrite E4. injection H as <-. rewrite <- Hc. reflexivity. }
    assert (B' : s_bal s' = s_bal s2) by (rewrite Hs, E5; reflexivity).
    exists b, coin. split; [|split; [exact F0|split; [|split]]].
    + split; [congruence|]. repeat (split; [first [reflexivity|assumption]|]). exact L4.
    + rewrite Hs at 1. rewrite E5. now rewrite B'.
    + intros t1 t2 T1 T2. injection T1 as <-. rewrite <- E3 in T2. rewrite E2 in T2.
      injection T2 as <-. exact B'.
    + intros a d. rewrite B'. apply E6.
  - intros (b & coin & (A1 & A2 & A3 & A4 & A5 & A6 & A7 & A8) & F0 & Hs & Hsend & _).
    fold fee in F0, Hs, Hsend, A7, A8.
    destruct (m_call m) as [|x xs] eqn:Hc; [congruence|]. cbn [length Nat.eqb].
    rewrite A2, A3, A5. cbn [negb].
    destruct (Z.ltb_spec (m_gas m / 2) (b_min_gas b)) as [|L1]; [lia|].
    destruct (Z.ltb_spec (m_price m) (e_base_fee e)) as [|L2]; [lia|].
    destruct (Z.leb_spec (2 ^ 256) (2 * fee)) as [|L3]; [lia|].
    destruct (Z.ltb_spec (s_bal s (m_origin m) BASE) (2 * fee)) as [|L4]; [lia|].
    destruct (Main b coin F0 L4) as (s1 & s2 & s0 & E1 & E2 & E3 & E4 & E5 & E6).
    rewrite E1. cbn zeta. rewrite E2. cbn [set_cron set_last s_last].
    f_equal. rewrite Hs. rewrite (Hsend s1 s2 E1) by (rewrite <- E3; exact E2).
    rewrite <- E5, E4. rewrite <- Hc. reflexivity.
Qed.
End Asking.

(* ---- answering ---- *)
Definition with_vote (c : claim) (r : req) : req :=
  mk_req (q_hid r) (q_nonce r) (q_block r) (q_timeout r) (q_cron r) (q_contract r) (q_call r)
    (q_sender r) (q_feec r) (q_fee r) (q_claims r ++ [c]) (q_votes r ++ [c_orch c]).
Definition voting (h n ct : Z) (c : claim) (l : list req) : list req :=
  map (fun x => if same_key h n ct x then with_vote c x else x) l.
Definition answer_ok (e : env) (h n ct : Z) (c : claim) (s : st) : Prop :=
  n <> 0 /\ (exists v, e_orch e h (c_orch c) = Some v /\ e_bonded e v = true) /\
  exists r, In r (s_reqs s) /\ q_hid r = h /\ q_nonce r = n /\ q_contract r = ct /\ ~ In (c_orch c) (q_votes r).

Lemma find_one s h n ct r : good s -> In r (s_reqs s) -> q_hid r = h -> q_nonce r = n -> q_contract r = ct ->
  find_req s h n ct = Some r.
Proof.
  intros G I H1 H2 H3. unfold find_req. destruct (find _ (s_reqs s)) as [x|] eqn:F.
  - apply find_some in F. destruct F as [F1 F2]. unfold same_key in F2.
    rewrite !andb_true_iff, !Z.eqb_eq in F2. f_equal. symmetry.
    apply (nodup_key (s_reqs s)); [exact (g_keys _ G)|assumption|assumption|lia|lia].
  - pose proof (find_none _ _ F r I) as X. cbn beta in X. unfold same_key in X. lia.
Qed.
Lemma answer_spec e h n ct c s s' : good s ->
  answer e h n ct c s = Ok s' <->
  answer_ok e h n ct c s /\ s' = set_reqs s (voting h n ct c (s_reqs s)).
Proof.
  intro G. unfold answer, answer_ok.
  assert (Put : forall r, find_req s h n ct = Some r ->
    put_req s (with_vote c r) = set_reqs s (voting h n ct c (s_reqs s))).
  { intros r F. unfold find_req in F. pose proof F as F'. apply find_some in F'. destruct F' as [F1 F2].
    unfold same_key in F2. rewrite !andb_true_iff, !Z.eqb_eq in F2. destruct F2 as [[E1 E2] E3].
    unfold put_req. cbn [with_vote q_hid q_nonce q_contract]. rewrite E1, E2, E3.
    unfold find_req. rewrite F. f_equal. unfold voting. apply map_ext_in. intros x Ix.
    destruct (same_key h n ct x) eqn:K; [|reflexivity].
    unfold same_key in K. rewrite !andb_true_iff, !Z.eqb_eq in K.
    f_equal. apply (nodup_key (s_reqs s)); [exact (g_keys _ G)|assumption|assumption|lia|lia]. }
  split.
  - destruct (Z.eqb_spec n 0) as [|N0]; [discriminate|].
    destruct (e_orch e h (c_orch c)) as [v|] eqn:Eo; [|discriminate].
    destruct (e_bonded e v) eqn:Eb; [|discriminate]. cbn [negb].
    destruct (find_req s h n ct) as [r|] eqn:F; [|discriminate].
    destruct (existsb (Z.eqb (c_orch c)) (q_votes r)) eqn:Ex; [discriminate|]. intro H.
    assert (H' : s' = put_req s (with_vote c r)) by (injection H as <-; reflexivity).
    unfold find_req in F. pose proof F as F'. apply find_some in F'. destruct F' as [F1 F2].
    unfold same_key in F2. rewrite !andb_true_iff, !Z.eqb_eq in F2. destruct F2 as [[E1 E2] E3].
    split; [|rewrite H'; now apply Put].
    split; [exact N0|]. split; [now exists v|]. exists r. repeat (split; [assumption|]).
    intro C. rewrite <- not_true_iff_false in Ex. apply Ex. apply existsb_exists. exists (c_orch c).
    split; [exact C|apply Z.eqb_refl].
  - intros [(N0 & (v & Eo & Eb) & r & I & H1 & H2 & H3 & Nv) ->].
    rewrite (proj2 (Z.eqb_neq n 0) N0), Eo, Eb. cbn [negb].
    pose proof (find_one s h n ct r G I H1 H2 H3) as F. rewrite F.
    assert (Ex : existsb (Z.eqb (c_orch c)) (q_votes r) = false).
    { apply not_true_iff_false. intro C. apply existsb_exists in C. destruct C as (x & C1 & C2).
      apply Z.eqb_eq in C2. subst x. contradiction. }
    rewrite Ex. f_equal. exact (Put r F).
Qed.

(* ---- histories ---- *)
Section Runs.
Variables (BASE ESC COIN : Z) (blocked : Z -> bool) (cron_acct : Z -> Z).
Variables (parse_err json_err : bytes -> bytes).
Notation end_block := (end_block ESC blocked parse_err json_err).
Notation ask := (ask BASE ESC cron_acct).
Notation step := (step BASE ESC blocked cron_acct parse_err json_err).
Notation run := (run BASE ESC blocked cron_acct parse_err json_err).

(* people, not modules: they may receive coins *)
Definition person (a : Z) : Prop := blocked a = false /\ a <> ESC.

Record usual (e : env) (o : op) : Prop := {
  u_height : 0 <= e_height e < 2 ^ 63;
  u_base : 0 <= e_base_fee e;
  u_power : forall v, 0 <= e_power e v;
  u_order : any_order e;
  u_coin : e_coin e = None \/ e_coin e = Some COIN;
  u_pair : e_pair e COIN = Some BASE;
  u_op : match o with
         | Ask m => 0 <= m_gas m /\ person (m_origin m) /\ forall k, cron_acct k <> m_origin m
         | Answer _ _ _ c => person (c_orch c)
         | _ => True
         end
}.
Hypothesis cron_esc : forall k, cron_acct k <> ESC.

Record inv (s : st) : Prop := {
  i_good : good s;
  i_each : forall r, In r (s_reqs s) ->
    q_feec r = COIN /\ person (q_sender r) /\ forall v, In v (q_votes r) -> person v;
  i_full : pending s <= s_bal s ESC BASE
}.

Lemma inv_safe e o s r : usual e o -> inv s -> In r (s_reqs s) -> safe BASE ESC blocked e r.
Proof.
  intros U I R. destruct (i_each _ I r R) as (A & B & C).
  destruct (g_each _ (i_good _ I) r R) as (_ & _ & D & _ & E & _).
  split; auto. rewrite A. apply (u_pair _ _ U).
Qed.
Lemma pending_mine h s : inv s -> total (map q_fee (filter (mine h) (s_reqs s))) <= s_bal s ESC BASE.
Proof.
  intro I. pose proof (i_full _ I) as F. unfold pending in F. rewrite (total_split q_fee (mine h)) in F.
  enough (0 <= total (map q_fee (filter (fun x => negb (mine h x)) (s_reqs s)))) by lia.
  apply total_nonneg. intros x H. apply in_map_iff in H. destruct H as (r & <- & R).
  apply filter_In in R. apply (g_each _ (i_good _ I) r). tauto.
Qed.

Lemma good_filter s s' f : good s -> s_reqs s' = filter f (s_reqs s) -> s_last s' = s_last s ->
  s_cron s' = s_cron s -> good s'.
Proof.
  intros G E L C. split.
  - rewrite E. apply nodup_map_filter, G.
  - rewrite L. apply G.
  - rewrite E. apply nodup_map_filter, G.
  - intros r R. rewrite E in R. apply filter_In in R. destruct R as [R _]. rewrite L, C. now apply (g_each _ G).
Qed.

Lemma end_block_inv e b s : usual e (EndBlock b) -> inv s -> inv (end_block e b s).
Proof.
  intros U I. destruct (b_evm b) eqn:Ev.
  2: { unfold Model.end_block. rewrite Ev. exact I. }
  pose proof (i_good _ I) as G.
  destruct (block_spec BASE ESC blocked parse_err json_err e b s G (u_order _ _ U) (u_power _ _ U) Ev)
    as (A1 & A2 & A3 & (f & F1 & F2) & A5 & A6 & A7 & A8 & A9 & A10 & A11 & _).
  { intros r R _. now apply (inv_safe e (EndBlock b) s). }
  { now apply pending_mine. }
  set (s' := end_block e b s) in *. split.
  - now apply (good_filter s s' f).
  - intros r R. rewrite F1 in R. apply filter_In in R. now apply (i_each _ I).
  - rewrite A6. unfold pending. rewrite F1.
    pose proof (i_full _ I) as Fu. unfold pending in Fu. rewrite (total_split q_fee f) in Fu.
    set (won := winners e b s) in *.
    set (late := filter (fun r => mine (b_hid b) r && expired_b e r) (s_reqs s)) in *.
    assert (Fee : forall r, In r (s_reqs s) -> 0 <= q_fee r) by (intros r R; now apply (g_each _ G r)).
    assert (W : total (map (fun w => share w * Z.of_nat (length (q_votes w))) won) <= total (map q_fee won)).
    { assert (X : forall w, In w won -> share w * Z.of_nat (length (q_votes w)) <= q_fee w).
      { intros w Hw. apply share_bound. apply Fee. now apply A3. }
      clear - X. induction won as [|w l IH]; [cbn; lia|]. cbn [map]. unfold total in *; cbn [fold_right].
      assert (share w * Z.of_nat (length (q_votes w)) <= q_fee w) by (apply X; now left).
      enough (fold_right Z.add 0 (map (fun w0 => share w0 * Z.of_nat (length (q_votes w0))) l) <= fold_right Z.add 0 (map q_fee l)) by lia.
      apply IH. intros; apply X; now right. }
    assert (Out : total (map q_fee (late ++ won)) <= total (map q_fee (filter (fun x => negb (f x)) (s_reqs s)))).
    { apply total_incl.
      - assert (D : forall x, In x late -> ~ In x won).
        { intros x X1 X2. apply filter_In in X1. destruct X1 as [_ X1]. rewrite andb_true_iff, expired_iff in X1.
          destruct (A3 x X2) as (_ & _ & (_ & O) & _). unfold expired in X1. lia. }
        assert (NL : NoDup late) by (apply NoDup_filter; apply (NoDup_map_inv _ _ (g_keys _ G))).
        clear - D NL A2. induction late as [|x l IH]; [exact A2|].
        inversion NL as [|? ? N1 N2]; subst. cbn [app]. constructor.
        + intro C. apply in_app_iff in C. destruct C as [C|C]; [contradiction|]. apply (D x); [now left|exact C].
        + apply IH; [|assumption]. intros y Y. apply D. now right.
      - intros x X. apply in_app_iff in X. apply filter_In. destruct X as [X|X].
        + apply filter_In in X. destruct X as [X1 X2]. split; [exact X1|]. apply negb_true_iff.
          rewrite andb_true_iff, expired_iff in X2. unfold mine in X2. rewrite Z.eqb_eq in X2.
          destruct (f x) eqn:Fx; [|reflexivity]. apply (F2 x X1) in Fx; [|tauto]. tauto.
        + destruct (A3 x X) as (X1 & X2 & _). split; [exact X1|]. apply negb_true_iff.
          destruct (f x) eqn:Fx; [|reflexivity]. apply (F2 x X1) in Fx; [|tauto]. tauto.
      - intros x X. apply filter_In in X. now apply Fee. }
    rewrite map_app, total_app in Out. lia.
Qed.

Lemma same_key_with c h n ct x : same_key h n ct (with_vote c x) = same_key h n ct x.
Proof. reflexivity. Qed.
Lemma voting_in h n ct c l r : In r (voting h n ct c l) ->
  exists x, In x l /\ r = if same_key h n ct x then with_vote c x else x.
Proof. intro H. apply in_map_iff in H. destruct H as (x & <- & I). now exists x. Qed.
Lemma voting_map {B} (f : req -> B) h n ct c l :
  (forall x, f (with_vote c x) = f x) -> map f (voting h n ct c l) = map f l.
Proof.
  intro H. unfold voting. rewrite map_map. apply map_ext. intro x. destruct (same_key h n ct x); [apply H|reflexivity].
Qed.

Lemma step_inv e o s s' : usual e o -> inv s -> step e o s = Ok s' -> inv s'.
Proof.
  intros U I H. pose proof (i_good _ I) as G.
  destruct o as [m|h n ct c|b|h| |a d amt]; cbn [Model.step] in H.
  - destruct (u_op _ _ U) as (Ga & [P1 P2] & P3).
    apply (ask_spec BASE ESC cron_acct e m s s' G Ga (u_base _ _ U) P2 (P3 _) (cron_esc _)) in H.
    destruct H as (b & coin & (_ & _ & _ & _ & Co & _) & F0 & Hs & _ & Hb).
    set (r := new_req e m b coin s) in *.
    assert (Rq : s_reqs s' = s_reqs s ++ [r]) by (rewrite Hs; reflexivity).
    assert (Rl : s_last s' = upd (s_last s) (b_hid b) (s_last s (b_hid b) + 1)) by (rewrite Hs; reflexivity).
    assert (Rc : s_cron s' = s_cron s + 1) by (rewrite Hs; reflexivity).
    assert (Ec : coin = COIN) by (destruct (u_coin _ _ U); congruence). subst coin.
    pose proof (u_height _ _ U) as Hh.
    split.
    + split.
      * rewrite Rq, map_app. cbn [map]. apply (Permutation_NoDup (Permutation_cons_append _ _)).
        constructor; [|exact (g_keys _ G)]. intro C. apply in_map_iff in C. destruct C as (x & E & X).
        injection E as E1 E2. destruct (g_each _ G x X) as (B & _). cbn [r new_req q_nonce q_hid] in *.
        rewrite E1 in B. lia.
      * intro h. rewrite Rl. pose proof (g_last _ G h). pose proof (g_last _ G (b_hid b)).
        unfold upd. destruct (_ =? _); lia.
      * rewrite Rq, map_app. cbn [map]. apply (Permutation_NoDup (Permutation_cons_append _ _)).
        constructor; [|exact (g_crons _ G)]. intro C. apply in_map_iff in C. destruct C as (x & E & X).
        destruct (g_each _ G x X) as (_ & B & _). cbn [r new_req q_cron] in *. lia.
      * intros x X. rewrite Rq in X. apply in_app_iff in X. rewrite Rl, Rc. destruct X as [X|[X|[]]].
        -- destruct (g_each _ G x X) as (B1 & B2 & B3).
           split; [|split; [lia|exact B3]]. unfold upd. destruct (Z.eqb_spec (q_hid x) (b_hid b)) as [E|_]; [rewrite E in B1; lia|exact B1].
        -- subst x. cbn [r new_req q_nonce q_hid q_cron q_fee q_votes q_claims q_block q_timeout].
           rewrite upd_same.
           pose proof (g_last _ G (b_hid b)).
           split; [lia|]. split; [lia|]. split; [exact F0|]. split; [reflexivity|].
           split; [constructor|]. split; [lia|]. split; [reflexivity|].
           change (2 ^ 64) with (2 * 2 ^ 63). lia.
    + intros x X. rewrite Rq in X. apply in_app_iff in X. destruct X as [X|[X|[]]]; [now apply (i_each _ I)|].
      subst x. cbn [r new_req q_feec q_sender q_votes]. split; [reflexivity|]. split; [now split|]. intros v [].
    + unfold pending. rewrite Rq, map_app, total_app, Hb, !Z.eqb_refl.
      rewrite (proj2 (Z.eqb_neq ESC (m_origin m))) by congruence.
      rewrite (proj2 (Z.eqb_neq ESC (cron_acct (s_cron s + 1)))) by (intro C; now apply (cron_esc (s_cron s + 1))).
      pose proof (i_full _ I) as Fu. unfold pending in Fu.
      unfold total at 2. cbn [map fold_right r new_req q_fee]. lia.
  - apply (answer_spec e h n ct c s s' G) in H. destruct H as [(_ & _ & r0 & R0 & K1 & K2 & K3 & Nv) ->].
    pose proof (u_op _ _ U) as Pc. cbn beta iota in Pc.
    split.
    + split; cbn [set_reqs s_reqs s_last s_cron].
      * rewrite voting_map by reflexivity. apply G.
      * apply G.
      * rewrite voting_map by reflexivity. apply G.
      * intros r R. apply voting_in in R. destruct R as (x & X & ->).
        destruct (g_each _ G x X) as (B1 & B2 & B3 & B4 & B5 & B6).
        destruct (same_key h n ct x) eqn:K; [|tauto].
        unfold same_key in K. rewrite !andb_true_iff, !Z.eqb_eq in K.
        assert (x = r0).
        { apply (nodup_key (s_reqs s)); [exact (g_keys _ G)|assumption|assumption|lia|lia]. }
        subst x. cbn [with_vote q_nonce q_hid q_cron q_fee q_votes q_claims q_block q_timeout].
        split; [exact B1|]. split; [exact B2|]. split; [exact B3|].
        split; [rewrite map_app, B4; reflexivity|].
        split; [|exact B6]. apply (Permutation_NoDup (Permutation_cons_append _ _)). now constructor.
    + intros r R. cbn [set_reqs s_reqs] in R. apply voting_in in R. destruct R as (x & X & ->).
      destruct (i_each _ I x X) as (B1 & B2 & B3). destruct (same_key h n ct x); [|tauto].
      cbn [with_vote q_feec q_sender q_votes]. split; [exact B1|]. split; [exact B2|].
      intros v V. apply in_app_iff in V. destruct V as [V|[V|[]]]; [now apply B3|]. subst v. exact Pc.
    + unfold pending. cbn [set_reqs s_reqs s_bal]. rewrite voting_map by reflexivity. apply I.
  - assert (E : s' = end_block e b s) by congruence. subst s'. now apply end_block_inv.
  - assert (E : s' = set_last s (upd (s_last s) h (s_last s h + 1))) by congruence. subst s'.
    split; [split; cbn [set_last s_reqs s_last s_cron]|exact (i_each _ I)|exact (i_full _ I)].
    + apply G.
    + intro k. pose proof (g_last _ G k). pose proof (g_last _ G h). unfold upd. destruct (_ =? _); lia.
    + apply G.
    + intros r R. destruct (g_each _ G r R) as (B1 & B2). split; [|exact B2].
      unfold upd. destruct (Z.eqb_spec (q_hid r) h) as [E|_]; [rewrite E in B1; lia|exact B1].
  - assert (E : s' = set_cron s (s_cron s + 1)) by congruence. subst s'.
    split; [split; cbn [set_cron s_reqs s_last s_cron]|exact (i_each _ I)|exact (i_full _ I)].
    + apply G.
    + apply G.
    + apply G.
    + intros r R. destruct (g_each _ G r R) as (B1 & B2 & B3). split; [exact B1|]. split; [lia|exact B3].
  - destruct (Z.ltb_spec amt 0) as [|L]; [discriminate|].
    assert (E : s' = set_bal s (upd (s_bal s) a (upd (s_bal s a) d (s_bal s a d + amt)))) by congruence. subst s'.
    split; [|exact (i_each _ I)|].
    + split; cbn [set_bal s_reqs s_last s_cron]; apply G.
    + pose proof (i_full _ I) as Fu. unfold pending in *. cbn [set_bal s_reqs s_bal].
      unfold upd. destruct (Z.eqb_spec ESC a) as [<-|_]; [|exact Fu].
      destruct (Z.eqb_spec BASE d) as [<-|_]; [lia|exact Fu].
Qed.

Lemma run_app l1 l2 s : run (l1 ++ l2) s = run l2 (run l1 s).
Proof. revert s; induction l1 as [|[e o] l1 IH]; intro s; cbn [app Model.run]; [reflexivity|apply IH]. Qed.
Lemma run_inv l s : inv s -> Forall (fun q : env * op => usual (fst q) (snd q)) l -> inv (run l s).
Proof.
  revert s; induction l as [|[e o] l IH]; intros s I F; cbn [Model.run]; [exact I|].
  inversion F as [|? ? F1 F2]; subst. cbn [fst snd] in F1. apply IH; [|assumption].
  destruct (step e o s) as [s'| |] eqn:E; cbn [keep]; [|exact I|exact I].
  now apply (step_inv e o s s').
Qed.
Lemma empty_inv stats : inv (empty_st stats).
Proof.
  split; [split|intros r []|cbn; lia]; cbn [empty_st s_reqs s_last s_cron map].
  - constructor.
  - intros; lia.
  - constructor.
  - intros r [].
Qed.

(* every vote on a pending or finished request was cast by an orchestrator of a bonded validator *)
Definition cast (l : list (env * op)) (r : req) (v : Z) : Prop :=
  exists e c val, In (e, Answer (q_hid r) (q_nonce r) (q_contract r) c) l /\ c_orch c = v /\
    e_orch e (q_hid r) v = Some val /\ e_bonded e val = true.
Lemma run_cast l s : inv s -> Forall (fun q : env * op => usual (fst q) (snd q)) l ->
  forall r v, In r (s_reqs (run l s) ++ s_done (run l s)) -> In v (q_votes r) ->
  (exists r0, In r0 (s_reqs s ++ s_done s) /\ keyof r0 = keyof r /\ In v (q_votes r0)) \/ cast l r v.
Proof.
  revert s; induction l as [|[e o] l IH]; intros s I F r v R V; cbn [Model.run] in R.
  { left. now exists r. }
  inversion F as [|? ? F1 F2]; subst. cbn [fst snd] in F1.
  set (s1 := keep s (step e o s)) in *.
  assert (I1 : inv s1).
  { unfold s1. destruct (step e o s) as [s'| |] eqn:E; cbn [keep]; [|exact I|exact I].
    now apply (step_inv e o s s'). }
  destruct (IH s1 I1 F2 r v R V) as [(r0 & R0 & K & V0)|(e' & c & val & A & B)].
  2: { right. exists e', c, val. split; [now right|exact B]. }
  clear R V IH.
  assert (St : (exists r1, In r1 (s_reqs s ++ s_done s) /\ keyof r1 = keyof r0 /\ In v (q_votes r1)) \/
     exists c val, o = Answer (q_hid r0) (q_nonce r0) (q_contract r0) c /\ c_orch c = v /\
       e_orch e (q_hid r0) v = Some val /\ e_bonded e val = true).
  { unfold s1 in R0. destruct (step e o s) as [s'| |] eqn:E; cbn [keep] in R0; [|left; now exists r0|left; now exists r0].
    pose proof (i_good _ I) as G.
    destruct o as [m|h n ct c|b|h| |a d amt]; cbn [Model.step] in E.
    - destruct (u_op _ _ F1) as (Ga & [P1 P2] & P3).
      apply (ask_spec BASE ESC cron_acct e m s s' G Ga (u_base _ _ F1) P2 (P3 _) (cron_esc _)) in E.
      destruct E as (b & coin & _ & _ & Hs & _). rewrite Hs in R0. cbn [s_reqs s_done] in R0.
      apply in_app_iff in R0. left. exists r0. split; [|split; [reflexivity|exact V0]].
      apply in_app_iff. destruct R0 as [R0|R0]; [|now right]. apply in_app_iff in R0.
      destruct R0 as [R0|[R0|[]]]; [now left|]. subst r0. destruct V0.
    - apply (answer_spec e h n ct c s s' G) in E. destruct E as [(_ & (val & E1 & E2) & _) ->].
      cbn [set_reqs s_reqs s_done] in R0. apply in_app_iff in R0. destruct R0 as [R0|R0].
      + apply voting_in in R0. destruct R0 as (x & X & ->).
        destruct (same_key h n ct x) eqn:Kx.
        * cbn [with_vote q_votes] in V0. apply in_app_iff in V0. destruct V0 as [V0|[V0|[]]].
          -- left. exists x. split; [apply in_app_iff; now left|]. now split.
          -- unfold same_key in Kx. rewrite !andb_true_iff, !Z.eqb_eq in Kx. destruct Kx as [[K1 K2] K3].
             right. exists c, val. cbn [with_vote q_hid q_nonce q_contract].
             subst h n ct v. tauto.
        * left. exists x. split; [apply in_app_iff; now left|]. now split.
      + left. exists r0. split; [apply in_app_iff; now right|]. now split.
    - assert (Es : s' = end_block e b s) by congruence. subst s'. left. exists r0.
      split; [|now split]. destruct (b_evm b) eqn:Ev.
      2: { unfold Model.end_block in R0. rewrite Ev in R0. exact R0. }
      destruct (block_spec BASE ESC blocked parse_err json_err e b s G (u_order _ _ F1) (u_power _ _ F1) Ev)
        as (A1 & _ & A3 & (f & B1 & _) & _).
      { intros x X _. now apply (inv_safe e (EndBlock b) s). }
      { now apply pending_mine. }
      apply in_app_iff in R0. apply in_app_iff. destruct R0 as [R0|R0].
      + left. rewrite B1 in R0. now apply filter_In in R0.
      + rewrite A1 in R0. apply in_app_iff in R0. destruct R0 as [R0|R0]; [now right|left; now apply A3].
    - left. exists r0. injection E as <-. now split.
    - left. exists r0. injection E as <-. now split.
    - destruct (amt <? 0); [discriminate|]. left. exists r0. injection E as <-. now split. }
  destruct St as [(r1 & A & B & C)|(c & val & A & B & C & D)].
  - left. exists r1. split; [exact A|]. split; [congruence|exact C].
  - right. unfold keyof in K. injection K as K1 K2 K3. exists e, c, val. rewrite <- K1, <- K2, <- K3.
    split; [left; now rewrite A|]. tauto.
Qed.
End Runs.
