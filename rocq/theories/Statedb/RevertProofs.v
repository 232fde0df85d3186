(* Every operation can be undone; the journal machine agrees with the machine
   that copies. *)
From Verif Require Import Lib.Base Lib.Bytes Lib.Amap Statedb.Model Statedb.Spec Statedb.Proofs.
From Coq Require Import Sorted.
Open Scope Z_scope.

Section Keccak.
Variable keccak : bytes -> word.
Notation get_obj := (get_obj keccak).
Notation see := (see keccak).
Notation see_obj := (see_obj keccak).
Notation step := (step keccak).
Notation run := (run keccak).
Notation sstep := (sstep keccak).
Notation srun := (srun keccak).
Notation pop := (pop keccak).
Notation pops := (pops keccak).
Notation revert_entry := (revert_entry keccak).
Notation good := (good keccak).
Notation db_ok := (db_ok keccak).
Notation undoable := (undoable keccak).
Notation ceq := (ceq keccak).

(* ---------- precompile calls that do not fail ---------- *)

Lemma bal_change_good s b : db_ok s -> good s (add_bal_change keccak s b).
Proof. destruct b; cbn; [apply sub_balance_good|apply add_balance_good]. Qed.

Lemma bal_changes_good bs : forall s, db_ok s -> good s (fold_left (add_bal_change keccak) bs s).
Proof.
  induction bs as [|b bs IH]; intros s D; cbn; [apply good_refl; exact D|].
  pose proof (bal_change_good s b D) as G. eapply good_trans; [exact G|]. apply IH. apply G.
Qed.

Definition not_pre (e : entry) : Prop := match e with EPre _ _ _ => False | _ => True end.
Definition plain (s s' : sdb) : Prop := exists seg, d_journal s' = seg ++ d_journal s /\ Forall not_pre seg.

Lemma plain_refl s : plain s s. Proof. exists []. auto. Qed.
Lemma plain_trans s t u : plain s t -> plain t u -> plain s u.
Proof.
  intros (x & E & F) (y & E' & F'). exists (y ++ x). split; [rewrite E', E, app_assoc; reflexivity|apply Forall_app; auto].
Qed.

Lemma get_or_new_plain s a o s1 : get_or_new keccak s a = (o, s1) -> plain s s1.
Proof.
  unfold get_or_new, create_object, Model.get_obj. destruct (aget (d_objs s) a) eqn:E.
  - intro H; injection H as <- <-. apply plain_refl.
  - destruct (k_account keccak (d_ctx s) a) eqn:K.
    + intro H; injection H as <- <-. exists []. auto.
    + rewrite E, K. intro H; injection H as <- <-. exists [ECreate a]. cbn. repeat constructor.
Qed.

Lemma bal_change_plain s b : plain s (add_bal_change keccak s b).
Proof.
  destruct b; cbn; unfold sub_balance, add_balance; destruct (get_or_new keccak s a) as [o s1] eqn:G; apply get_or_new_plain in G;
    (destruct (v =? 0); [exact G|]); (eapply plain_trans; [exact G|]); eexists [_]; split; [reflexivity| |reflexivity|]; repeat constructor.
Qed.
Lemma bal_changes_plain bs : forall s, plain s (fold_left (add_bal_change keccak) bs s).
Proof.
  induction bs as [|b bs IH]; intros s; cbn; [apply plain_refl|]. eapply plain_trans; [apply bal_change_plain|apply IH].
Qed.

(* undoing other entries does not look at the cache nor at the call counter *)
Definition with_cp (s : sdb) (c : option store) (p : N) : sdb := with_pre (with_cache s c) p.

Lemma get_obj_cp s a c p : get_obj (with_cp s c p) a = (fst (get_obj s a), with_cp (snd (get_obj s a)) c p).
Proof.
  unfold Model.get_obj. cbn. destruct (aget (d_objs s) a); [reflexivity|]. destruct (k_account _ _ _); reflexivity.
Qed.
Lemma with_live_cp s a f c p s' : with_live keccak s a f = Ok s' -> with_live keccak (with_cp s c p) a f = Ok (with_cp s' c p).
Proof.
  unfold with_live. rewrite get_obj_cp. destruct (get_obj s a) as [[o|] s1]; cbn; [|discriminate].
  intro H; injection H as <-. reflexivity.
Qed.
Lemma revert_entry_cp s e c p s' : not_pre e -> revert_entry s e = Ok s' -> revert_entry (with_cp s c p) e = Ok (with_cp s' c p).
Proof.
  intros Np. destruct e; cbn [Model.revert_entry]; intro H; try (apply with_live_cp; exact H); try (injection H as <-; reflexivity).
  - rewrite get_obj_cp. revert H. destruct (get_obj s a) as [[o|] s1]; cbn; intro H; injection H as <-; reflexivity.
  - revert H. cbn. destruct (d_logs s); [discriminate|]. intro H; injection H as <-; reflexivity.
  - revert H. cbn. destruct (al_delete_slot _ _ _); try discriminate. intro H; injection H as <-; reflexivity.
  - contradiction.
Qed.

Lemma pops_cp n : forall s c p s', Forall not_pre (firstn n (d_journal s)) -> pops n s = Ok s' -> pops n (with_cp s c p) = Ok (with_cp s' c p).
Proof.
  induction n as [|n IH]; intros s c p s' F H; [injection H as <-; reflexivity|].
  cbn [Model.pops] in *. apply rbind_inv in H as (s1 & H1 & H2).
  assert (P : pop (with_cp s c p) = Ok (with_cp s1 c p)).
  { unfold Model.pop in *. cbn [d_journal with_cp with_pre with_cache]. destruct (d_journal s) as [|e j] eqn:J.
    - injection H1 as <-. reflexivity.
    - apply rbind_inv in H1 as (s0 & R0 & R1). injection R1 as <-. cbn in F.
      rewrite (revert_entry_cp s e c p s0 (Forall_inv F) R0). reflexivity. }
  rewrite P. cbn [rbind]. apply IH; [|exact H2]. destruct (pop_ctx _ _ _ H1) as (_ & _ & _ & _ & ->).
  destruct (d_journal s); cbn in *; [destruct n; constructor|]. eapply Forall_inv_tail. exact F.
Qed.

Lemma revert_entry_commits s e s' : revert_entry s e = Ok s' -> d_commits s' = d_commits s.
Proof.
  assert (G : forall a o s1, get_obj s a = (o, s1) -> d_commits s1 = d_commits s).
  { intros a o s1. unfold Model.get_obj. destruct (aget (d_objs s) a); [|destruct (k_account _ _ _)]; intro H; injection H as <- <-; reflexivity. }
  destruct e; cbn [Model.revert_entry]; unfold with_live; intro H;
    try (destruct (get_obj s a) as [[o|] s1] eqn:X; apply G in X; try discriminate; injection H as <-; exact X);
    try (injection H as <-; reflexivity).
  - destruct (d_logs s); [discriminate|]. injection H as <-. reflexivity.
  - destruct (al_delete_slot (d_al s) a k); try discriminate. injection H as <-. reflexivity.
Qed.
Lemma pops_commits n : forall s s', pops n s = Ok s' -> d_commits s' = d_commits s.
Proof.
  induction n as [|n IH]; intros s s' H; cbn [Model.pops] in H; [injection H as <-; reflexivity|]. apply rbind_inv in H as (s1 & H1 & H2).
  rewrite (IH _ _ H2). unfold Model.pop in H1. destruct (d_journal s) as [|e j]; [injection H1 as <-; reflexivity|].
  apply rbind_inv in H1 as (s0 & H0 & H1). injection H1 as <-. cbn. eapply revert_entry_commits; exact H0.
Qed.

Lemma precompile_good s p r s' : db_ok s -> pr_commit_first p = false -> precompile keccak s p = Ok (r, s') -> r <> PreFailed -> good s s'.
Proof.
  intros D F H NF. unfold precompile in H. fold (cache_of s) in H. set (ms := cache_of s) in *.
  destruct (commit_with keccak ms (with_cache s (Some ms))) as [c| |]; [|congruence|discriminate].
  rewrite F in H. cbn [d_cache with_cache] in H.
  destruct (pr_result p c) as [bs|]; [|congruence].
  set (s4 := with_cache (with_cache (with_cache s (Some ms)) (Some c)) (Some (pr_effect p c))) in *.
  assert (D4 : db_ok s4) by (destruct D as [O R]; split; [exact O|destruct R; constructor; assumption]).
  pose proof (bal_changes_good bs s4 D4) as G1. pose proof (bal_changes_plain bs s4) as L1.
  set (s5 := fold_left (add_bal_change keccak) bs s4) in *.
  unfold add_precompile_fn in H. destruct (get_or_new keccak s5 (pr_addr p)) as [o s6] eqn:N0.
  pose proof (get_or_new_plain _ _ _ _ N0) as L2. pose proof (plain_trans _ _ _ L1 L2) as (seg & J & Fs).
  apply get_or_new_good in N0; [|apply G1]. destruct N0 as (G2 & _). pose proof (good_trans _ _ _ _ G1 G2) as G.
  injection H as _ <-. destruct G as [[Og Rg0] (n & t & Pn & Qn & On & Ln) Cg Rg Ng Bg].
  set (q := ((d_pre (jappend s6 (EPre (d_commits s) (d_ctx s) ms)) + 1) mod 256)%N).
  constructor; [| |exact Cg|exact Rg|exact Ng|exact Bg].
  - split; [exact Og|]. destruct (rest_ok_append keccak s6 (EPre (d_commits s) (d_ctx s) ms) Rg0 I). constructor; assumption.
  - assert (Hn : firstn n (d_journal s6) = seg).
    { rewrite J in Ln |- *. rewrite app_length in Ln. assert (n = length seg) as -> by lia. rewrite firstn_app, Nat.sub_diag, firstn_all. apply app_nil_r. }
    assert (P : pops n (with_cp s6 (Some ms) q) = Ok (with_cp t (Some ms) q)) by (apply pops_cp; [rewrite Hn; exact Fs|exact Pn]).
    assert (Cm : d_commits s6 = d_commits s) by (rewrite <- (pops_commits _ _ _ Pn); apply Qn).
    exists (S n), (with_cp t (Some ms) q). split; [|split].
    { cbn [Model.pops]. unfold Model.pop at 1. cbn. rewrite Cm, N.eqb_refl. exact P. }
    + destruct Qn. constructor; auto. intro a. rewrite (see_ext keccak (with_cp t (Some ms) q) t a) by reflexivity.
      eapply oacc_trans; [apply q_see|]. rewrite (see_ext keccak s4 s a) by reflexivity. apply oacc_refl.
    + split; [exact On|]. cbn. rewrite Ln. reflexivity.
Qed.

(* ---------- all operations ---------- *)

Definition ordinary (x : op) : Prop :=
  match x with Snapshot | RevertToSnapshot _ => False | _ => True end.

Lemma read_code_good s a c s' : read_code keccak s a = (c, s') -> db_ok s -> good s s' /\ ceq s' s /\ c = match see s a with Some x => x_code x | None => [] end.
Proof.
  intros H D. unfold read_code in H. destruct (get_obj s a) as [[o|] s1] eqn:G.
  - pose proof (get_obj_good _ _ _ _ _ G D) as [Gd Q]. apply get_obj_spec in G; [|apply D]. destruct G as (_ & _ & _ & A & S & K).
    destruct (obj_code keccak (d_ctx s1) o) as [c0 o1] eqn:C. injection H as <- <-. apply obj_code_spec in C.
    destruct C as (C1 & C2 & C3 & C4 & C5 & C6 & C7 & C8). pose proof (g_ctx _ _ _ Gd) as X.
    assert (K1 : obj_ok (d_ctx s1) a o1) by (intros k v; rewrite C2, X; apply K).
    destruct (good_cache keccak s1 a o o1) as [G2 Q2]; auto.
    { apply Gd. }
    { repeat split; cbn; rewrite ?C1, ?C7; auto. intro k. apply slot_of_ext; assumption. }
    split; [eapply good_trans; eassumption|]. split; [eapply ceq_trans; eassumption|]. rewrite S. cbn. rewrite C8, X. reflexivity.
  - pose proof (get_obj_good _ _ _ _ _ G D) as [Gd Q]. apply get_obj_spec in G; [|apply D]. destruct G as (_ & _ & _ & S & _).
    injection H as <- <-. rewrite S. auto.
Qed.

Lemma get_state_good s a k o s' : step s (GetState a k) = Ok (o, s') -> db_ok s ->
  good s s' /\ ceq s' s /\ o = ONat (match see s a with Some x => x_stor x k | None => 0%N end).
Proof.
  cbn [Model.step]. intros H D. destruct (get_obj s a) as [[ob|] s1] eqn:G.
  - pose proof (get_obj_good _ _ _ _ _ G D) as [Gd Q]. apply get_obj_spec in G; [|apply D]. destruct G as (_ & _ & _ & A & S & K).
    pose proof (g_ctx _ _ _ Gd) as X. rewrite <- X in K.
    destruct (obj_state (d_ctx s1) a ob k) as [v o1] eqn:C. injection H as <- <-. apply (obj_state_spec keccak) in C; [|exact K].
    destruct C as (C1 & C2 & C3 & C4 & C5 & C6 & K1 & C8).
    destruct (good_cache keccak s1 a ob o1) as [G2 Q2]; auto.
    { apply Gd. }
    split; [eapply good_trans; eassumption|]. split; [eapply ceq_trans; eassumption|]. rewrite S. cbn. rewrite C1, X. reflexivity.
  - pose proof (get_obj_good _ _ _ _ _ G D) as [Gd Q]. apply get_obj_spec in G; [|apply D]. destruct G as (_ & _ & _ & S & _).
    injection H as <- <-. rewrite S. auto.
Qed.

Lemma get_committed_good s a k o s' : step s (GetCommittedState a k) = Ok (o, s') -> db_ok s ->
  good s s' /\ ceq s' s /\ o = ONat (match see s a with Some _ => k_state (d_ctx s) a k | None => 0%N end).
Proof.
  cbn [Model.step]. intros H D. destruct (get_obj s a) as [[ob|] s1] eqn:G.
  - pose proof (get_obj_good _ _ _ _ _ G D) as [Gd Q]. apply get_obj_spec in G; [|apply D]. destruct G as (_ & _ & _ & A & S & K).
    pose proof (g_ctx _ _ _ Gd) as X. rewrite <- X in K.
    destruct (obj_committed (d_ctx s1) a ob k) as [v o1] eqn:C. injection H as <- <-. apply (obj_committed_spec keccak) in C; [|exact K].
    destruct C as (C1 & C2 & C3 & C4 & C5 & C6 & K1 & C8).
    destruct (good_cache keccak s1 a ob o1) as [G2 Q2]; auto.
    { apply Gd. }
    split; [eapply good_trans; eassumption|]. split; [eapply ceq_trans; eassumption|]. rewrite S. cbn. rewrite C1, X. reflexivity.
  - pose proof (get_obj_good _ _ _ _ _ G D) as [Gd Q]. apply get_obj_spec in G; [|apply D]. destruct G as (_ & _ & _ & S & _).
    injection H as <- <-. rewrite S. auto.
Qed.

Lemma step_good s x o s' : db_ok s -> ordinary x -> no_inner_commit x -> o <> OPre PreFailed -> step s x = Ok (o, s') -> good s s'.
Proof.
  intros D Or Ni Nf H. destruct x; try contradiction;
    try (eapply get_state_good; eassumption); try (eapply get_committed_good; eassumption);
    cbn [Model.step] in H;
    try (destruct (get_obj s a) as [ob s1] eqn:G; injection H as <- <-; eapply get_obj_good; eassumption);
    try (injection H as <- <-;
         first [apply good_refl|apply add_balance_good|apply sub_balance_good|apply set_nonce_good|apply set_code_good|apply set_state_good
               |apply create_account_good|apply add_log_good|apply add_refund_good|apply add_address_good]; exact D).
  - destruct (read_code keccak s a) as [c s1] eqn:G. injection H as <- <-. eapply read_code_good; eassumption.
  - destruct (read_code keccak s a) as [c s1] eqn:G. injection H as <- <-. eapply read_code_good; eassumption.
  - destruct (suicide keccak s a) as [b s1] eqn:G. injection H as <- <-. eapply suicide_good; eassumption.
  - apply rbind_inv in H as (s1 & H1 & H2). injection H2 as <- <-. eapply sub_refund_good; eassumption.
  - destruct (add_slot_good keccak s a k D) as (s1 & E & G). rewrite E in H. injection H as <- <-. exact G.
  - apply rbind_inv in H as ([b c] & H1 & H2). injection H2 as <- <-. apply good_refl. exact D.
  - apply rbind_inv in H as ([b c] & H1 & H2). injection H2 as <- <-. eapply precompile_good; [exact D|exact Ni|exact H1|congruence].
Qed.

(* ---------- snapshots ---------- *)

Lemma forall2_mono {A B} (R R' : A -> B -> Prop) l l' : (forall x y, R x y -> R' x y) -> Forall2 R l l' -> Forall2 R' l l'.
Proof. intros H. induction 1; constructor; auto. Qed.


Definition remembers (s : sdb) (rev : N * nat) (t : sdb) : Prop :=
  snd rev = length (d_journal t) /\ undoable t s /\ db_ok t /\ d_ctx t = d_ctx s /\ d_logbase t = d_logbase s.

Definition rle (r1 r2 : N * nat) : Prop := (fst r1 < fst r2)%N /\ (snd r1 <= snd r2)%nat.

Record inv (s : sdb) (ts : list sdb) : Prop := {
  i_ok : db_ok s;
  i_revs : Forall2 (remembers s) (d_revs s) ts;
  i_sorted : StronglySorted rle (d_revs s);
  i_next : Forall (fun r : N * nat => (fst r < d_next s)%N) (d_revs s)
}.

Lemma inv_new st lb : inv (new_db st lb) [].
Proof.
  constructor; cbn; auto; [|constructor]. split; [intros a o H; discriminate|].
  constructor; cbn; [constructor|discriminate|]. constructor; cbn; try discriminate. contradiction.
Qed.

Lemma inv_good s s' ts : inv s ts -> good s s' -> inv s' ts.
Proof.
  intros [] G. destruct G as [D U C R N0 B]. constructor; rewrite ?R, ?N0; auto.
  eapply forall2_mono; [|exact i_revs0]. intros r t (A & U0 & D0 & C0 & B0). split; [exact A|].
  split; [|split; [exact D0|split; congruence]]. eapply undo_trans; [apply i_ok0|apply i_ok0|exact U0|exact U].
Qed.

Lemma ssorted_snoc {A} (R : A -> A -> Prop) l x : StronglySorted R l -> Forall (fun y => R y x) l -> StronglySorted R (l ++ [x]).
Proof.
  induction 1 as [|y l S IH F]; intro H; cbn; [repeat constructor|].
  constructor; [apply IH; eapply Forall_inv_tail; exact H|]. apply Forall_app. split; [exact F|]. constructor; [exact (Forall_inv H)|constructor].
Qed.

Lemma undoable_len t s : undoable t s -> (length (d_journal t) <= length (d_journal s))%nat.
Proof. intros (n & s0 & _ & _ & _ & L). lia. Qed.

Lemma forall2_in_l {A B} (R : A -> B -> Prop) l l' x : Forall2 R l l' -> In x l -> exists y, In y l' /\ R x y.
Proof. induction 1; cbn; [contradiction|]. intros [->|H1]; [eauto|]. destruct (IHForall2 H1) as (z & ? & ?); eauto. Qed.

Lemma inv_snapshot s ts id s' : inv s ts -> snapshot s = (id, s') -> id = d_next s /\ inv s' (ts ++ [s]).
Proof.
  intros I H. unfold snapshot in H. injection H as <- <-. split; [reflexivity|]. destruct I as [D R S N0].
  assert (U : undoable s (with_revs s (d_revs s ++ [(d_next s, length (d_journal s))]) (d_next s + 1))).
  { apply undo_refl; [constructor; auto; intro a; rewrite (see_ext keccak _ s a) by reflexivity; apply oacc_refl|apply D]. }
  assert (D1 : db_ok (with_revs s (d_revs s ++ [(d_next s, length (d_journal s))]) (d_next s + 1))).
  { destruct D as [O []]. split; [exact O|constructor; assumption]. }
  constructor; cbn [d_revs d_next with_revs].
  - exact D1.
  - apply Forall2_app.
    + eapply forall2_mono; [|exact R]. intros r t (A & U0 & D0 & C0 & B0). split; [exact A|].
      split; [|split; [exact D0|split; assumption]]. eapply undo_trans; [apply D|apply D|exact U0|exact U].
    + constructor; [|constructor]. split; [reflexivity|]. split; [exact U|]. auto.
  - apply ssorted_snoc; [exact S|]. rewrite Forall_forall. intros r Hr. rewrite Forall_forall in N0.
    split; cbn; [apply N0; exact Hr|]. destruct (forall2_in_l _ _ _ _ R Hr) as (t & _ & (A & U0 & _)). rewrite A. apply undoable_len. exact U0.
  - apply Forall_app. split; [|constructor; [cbn; lia|constructor]]. eapply Forall_impl; [|exact N0]. intros r Hr. cbv beta in *. lia.
Qed.

(* ---------- reverting ---------- *)

Lemma search_rev_spec revs id : StronglySorted rle revs ->
  match nth_error revs (search_rev revs id) with
  | Some (i, n) => (id <= i)%N /\ (i = id -> True) /\ (i <> id -> ~ In id (map fst revs))
  | None => ~ In id (map fst revs)
  end.
Proof.
  induction 1 as [|[i n] revs S IH F]; cbn; [tauto|]. destruct (N.leb_spec id i) as [L|L]; cbn.
  - split; [exact L|]. split; [auto|]. intros Ne [E|I]; [congruence|].
    apply in_map_iff in I as (r & E & I). rewrite Forall_forall in F. destruct (F r I) as [F1 _]. cbn in F1. lia.
  - destruct (nth_error revs (search_rev revs id)) as [[i2 n2]|].
    + destruct IH as (A & _ & B). split; [exact A|]. split; [auto|]. intros Ne [E|I]; [lia|]. exact (B Ne I).
    + intros [E|I]; [lia|]. exact (IH I).
Qed.

Lemma forall2_nth {A B} (R : A -> B -> Prop) l l' i x : Forall2 R l l' -> nth_error l i = Some x -> exists y, nth_error l' i = Some y /\ R x y.
Proof. intro H. revert i. induction H; intros [|i]; cbn; try discriminate; [intro E; injection E as ->; eauto|apply IHForall2]. Qed.
Lemma forall2_firstn {A B} (R : A -> B -> Prop) l l' i : Forall2 R l l' -> Forall2 R (firstn i l) (firstn i l').
Proof. intro H. revert i. induction H; intros [|i]; cbn; constructor; auto. Qed.
Lemma ssorted_firstn {A} (R : A -> A -> Prop) l i : StronglySorted R l -> StronglySorted R (firstn i l).
Proof.
  intro H. revert i. induction H; intros [|i]; cbn; constructor; auto.
  rewrite Forall_forall in *. intros x Hx. apply H0. rewrite <- (firstn_skipn i l). apply in_or_app. auto.
Qed.
Lemma ssorted_before {A} (R : A -> A -> Prop) l i x y : StronglySorted R l -> nth_error l i = Some x -> In y (firstn i l) -> R y x.
Proof.
  intro H. revert i. induction H; intros [|i]; cbn; try discriminate; try contradiction.
  intros E [->|I]; [|eapply IHStronglySorted; eassumption]. rewrite Forall_forall in H0. apply H0. eapply nth_error_In. exact E.
Qed.

Lemma forall2_in_firstn {A B} (R : A -> B -> Prop) (P : A -> Prop) l l' : Forall2 R l l' -> (forall x, In x l -> P x) -> Forall2 (fun x y => P x /\ R x y) l l'.
Proof. induction 1; intro H1; constructor; [split; [apply H1; left; reflexivity|assumption]|]. apply IHForall2. intros z Hz. apply H1. right. exact Hz. Qed.

Lemma revert_spec s ts id : inv s ts ->
  match revert_to_snapshot keccak s id with
  | Ok s' => exists i n t, nth_error (d_revs s) i = Some (id, n) /\ nth_error ts i = Some t /\ ceq s' t /\ inv s' (firstn i ts) /\
                           d_revs s' = firstn i (d_revs s) /\ d_next s' = d_next s
  | Err => False
  | Panic => ~ In id (map fst (d_revs s))
  end.
Proof.
  intros [D R S N0]. unfold revert_to_snapshot. pose proof (search_rev_spec (d_revs s) id S) as X.
  set (i := search_rev (d_revs s) id) in *. destruct (nth_error (d_revs s) i) as [[i0 n]|] eqn:E; [|exact X].
  destruct X as (_ & _ & X). destruct (N.eqb_spec i0 id) as [->|Ne]; cbn [negb]; [|exact (X Ne)].
  destruct (forall2_nth _ _ _ _ _ R E) as (t & Et & (A & (m & s0 & P & Q & O & L) & Dt & Ct & Bt)). cbn in A.
  unfold jrevert. replace (length (d_journal s) - n)%nat with m by lia. rewrite P. cbn [rbind].
  destruct (pops_ctx _ _ _ _ P) as (X1 & X2 & X3 & X4 & X5).
  exists i, n, t. split; [exact E|]. split; [exact Et|].
  set (s' := with_revs s0 (firstn i (d_revs s0)) (d_next s0)).
  assert (Q' : ceq s' t).
  { eapply ceq_trans; [|exact Q]. constructor; auto. intro a. rewrite (see_ext keccak s' s0 a) by reflexivity. apply oacc_refl. }
  split; [exact Q'|]. split; [|split; [cbn; rewrite X2; reflexivity|exact X3]].
  constructor; cbn [d_revs d_next s' with_revs]; rewrite ?X2, ?X3.
  - apply db_ok_ceq with (t := t); [exact Q'|exact O|exact Dt].
  - assert (F : Forall2 (fun r u => rle r (id, n) /\ remembers s r u) (firstn i (d_revs s)) (firstn i ts)).
    { apply forall2_in_firstn; [apply forall2_firstn; exact R|]. intros r Hr. eapply ssorted_before; eassumption. }
    eapply forall2_mono; [|exact F]. intros r u ((_ & Le) & (A2 & (m2 & s2 & P2 & Q2 & O2 & L2) & D2 & C2 & B2)). cbn in Le.
    split; [exact A2|]. split; [|split; [exact D2|split; [cbn; congruence|]]].
    + exists (m2 - m)%nat. replace m2 with (m + (m2 - m))%nat in P2 by lia. rewrite pops_plus, P in P2. cbn [rbind] in P2.
      assert (K : ceq s' s0) by (constructor; auto; intro a; rewrite (see_ext keccak s' s0 a) by reflexivity; apply oacc_refl).
      assert (Rk : rest_ok keccak s0) by (eapply rest_ok_ceq; [exact Q|apply Dt]).
      destruct (pops_pair keccak (m2 - m) s' s0 s2 K O O (ro_journal _ _ Rk) P2) as (s3 & P3 & Q3 & O3 & _).
      exists s3. split; [exact P3|]. split; [eapply ceq_trans; eassumption|]. split; [exact O3|].
      change (d_journal s') with (d_journal s0). rewrite X5, skipn_length. lia.
    + rewrite B2. change (d_logbase s') with (d_logbase s0). rewrite <- Bt. symmetry. apply Q.
  - apply ssorted_firstn. exact S.
  - rewrite Forall_forall in *. intros r Hr. apply N0. rewrite <- (firstn_skipn i (d_revs s)). apply in_or_app. auto.
Qed.
End Keccak.
