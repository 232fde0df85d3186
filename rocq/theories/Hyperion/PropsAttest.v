(* C35: observing needs 66% of the power.  C36: each event once.  C44: skipped nonces. *)
From Verif Require Import Lib.Base Lib.Bytes Lib.Codec Lib.Kv Lib.Dec Hyperion.Keys Hyperion.Claims Hyperion.ClaimSpec Hyperion.ClaimProofs Hyperion.PropsClaims
  Hyperion.Attest Hyperion.AttestSpec Hyperion.AttestProofs.
From Coq Require Import NArith ZArith String Permutation.
Open Scope Z_scope.

Section Attestations.
Variable hash : bytes -> bytes.
Variable bech32_ok : bytes -> bool.
Variable app : Type.
Variable handle : env -> app -> claim -> option app.
Notation run := (run hash bech32_ok app handle).
Notation submit := (submit hash bech32_ok app).
Notation fresh := (fresh app).
Notation voted := (voted hash bech32_ok app handle).
Notation executed s := (s_done app s).

(* Whatever history of votes, blocks and cleanings l a bridge went through, every
   claim a block executes has distinct validators behind it whose votes were
   accepted for this very event and claim text and whose power reaches 66% of the
   registered power, rounded down.  Heights above 34800, where a second vote of
   one validator is refused. *)
Theorem C35_observed_needs_quorum n0 a0 l e : all_env env_ok l -> all_env (fun e => 34800 < n_height e) l ->
  all_claims (fun c => u64 (claim_nonce c)) l -> 0 <= sum_power e (counted e) ->
  exists new, executed (run (fresh n0 a0) (l ++ [EndBlock e])) = new ++ executed (run (fresh n0 a0) l) /\
    forall c, In c new -> exists vs, NoDup vs /\ quorum e vs /\
      forall v, In v vs -> exists c', voted (fresh n0 a0) l v c' /\ claim_nonce c' = claim_nonce c /\ claim_hash hash c' = claim_hash hash c.
Proof.
  intros H T U P. rewrite run_snoc. destruct (end_block_done hash bech32_ok app handle e _ (run_keyed hash bech32_ok app handle n0 a0 l)) as (new & E & New).
  exists new. split; [exact E|]. intros c I. destruct (New c I) as (k & a & G & R & <- & ->). rewrite <- total_power_counted in P.
  destruct (ready_quorum hash bech32_ok app handle (fresh n0 a0) l e _ a (fresh_keyed hash app n0 a0) eq_refl H T P G R) as (vs & N & Q & V).
  exists vs. split; [exact N|]. split; [exact Q|]. intros v Iv. destruct (V v Iv) as (c' & W & K). exists c'. split; [exact W|].
  destruct (run_first hash bech32_ok app handle (fresh n0 a0) l (fresh_keyed hash app n0 a0) eq_refl _ _ G) as (v1 & F).
  apply voted_in in W, F. destruct W as (e1 & t1 & I1 & _), F as (e2 & t2 & I2 & _).
  apply (att_key_inj hash); [exact (U _ _ _ I1)|exact (U _ _ _ I2)|exact K].
Qed.

(* The same with the contents: each of those validators voted for a claim that
   agrees with the executed one on every hashed field, unless the hash collides.
   Missing: fields that are not hashed, and the ambiguous texts refuted under C37. *)
Theorem C35_voters_saw_the_claim_partial n0 a0 l e h : (forall s, bech32_ok s = true -> lacks slash s) ->
  all_env env_ok l -> all_env (fun e => 34800 < n_height e) l ->
  all_claims (fun c => claim_u64 c /\ plain c /\ claim_id c = h) l -> 0 <= sum_power e (counted e) ->
  exists new, executed (run (fresh n0 a0) (l ++ [EndBlock e])) = new ++ executed (run (fresh n0 a0) l) /\
    forall c, In c new -> exists vs, NoDup vs /\ quorum e vs /\
      forall v, In v vs -> exists c', voted (fresh n0 a0) l v c' /\ (same_hashed c' c \/ collision hash (claim_path c') (claim_path c)).
Proof.
  intros B H T U P. rewrite run_snoc. destruct (end_block_done hash bech32_ok app handle e _ (run_keyed hash bech32_ok app handle n0 a0 l)) as (new & E & New).
  exists new. split; [exact E|]. intros c I. destruct (New c I) as (k & a & G & R & <- & ->). rewrite <- total_power_counted in P.
  destruct (ready_quorum hash bech32_ok app handle (fresh n0 a0) l e _ a (fresh_keyed hash app n0 a0) eq_refl H T P G R) as (vs & N & Q & V).
  exists vs. split; [exact N|]. split; [exact Q|]. intros v Iv. destruct (V v Iv) as (c' & W & K). exists c'. split; [exact W|].
  destruct (run_first hash bech32_ok app handle (fresh n0 a0) l (fresh_keyed hash app n0 a0) eq_refl _ _ G) as (v1 & F).
  pose proof (voted_valid hash bech32_ok app handle _ _ _ _ W) as W1. pose proof (voted_valid hash bech32_ok app handle _ _ _ _ F) as F1.
  apply voted_in in W, F. destruct W as (e1 & t1 & I1 & _), F as (e2 & t2 & I2 & _). destruct (U _ _ _ I1) as (U1 & P1 & D1), (U _ _ _ I2) as (U2 & P2 & D2).
  assert (Un : forall c, claim_u64 c -> u64 (claim_nonce c)) by (intros [d|d|d|d] X; cbn in X; tauto).
  apply (att_key_inj hash) in K; [|apply Un, U1|apply Un, U2]. destruct K as [Kn Kh].
  apply (C37_shared_bucket_same_claim_partial hash bech32_ok B); [split; assumption|split; assumption|exact P1|exact P2|].
  unfold bucket. congruence.
Qed.

(* The other direction: when distinct validators reaching 66% have cast accepted
   votes for one claim, the next end of block leaves it executed. *)
Theorem C35_quorum_is_observed n0 a0 l e c vs : all_env env_ok l -> ~ In Clean l -> (forall v, 0 <= n_power e v) ->
  vs <> [] -> NoDup vs -> (forall v, In v vs -> exists c', voted (fresh n0 a0) l v c' /\ att_key hash c' = att_key hash c) -> quorum e vs ->
  exists c', In c' (executed (run (fresh n0 a0) (l ++ [EndBlock e]))) /\ att_key hash c' = att_key hash c.
Proof.
  intros H Nc P Nv N V Q. pose proof (run_keyed hash bech32_ok app handle n0 a0 l) as K.
  assert (Hd : forall v, In v vs -> held hash app (run (fresh n0 a0) l) v (att_key hash c)).
  { intros v I. destruct (V v I) as (c' & W & <-). apply (run_held hash bech32_ok app handle); [apply fresh_keyed|exact H|exact Nc|exact W]. }
  rewrite run_snoc. cbn [do]. rewrite prune_done, tally_done.
  destruct (in_dec bytes_eq_dec (att_key hash c) (map (att_key hash) (executed (run (fresh n0 a0) l)))) as [D|D].
  - apply in_map_iff in D. destruct D as (c' & E & I). exists c'. split; [apply in_app_iff; right; exact I|exact E].
  - destruct vs as [|v0 vs0] eqn:Evs; [congruence|]. rewrite <- Evs in *. assert (I0 : In v0 vs) by (rewrite Evs; left; reflexivity).
    destruct (Hd v0 I0) as [X|(a & G & O & _)]; [contradiction|]. assert (Inc : incl vs (map voter (a_votes a))).
    { intros v I. destruct (Hd v I) as [X|(b & Gb & _ & J)]; [contradiction|]. congruence. }
    assert (R : ready e a = true).
    { unfold ready. rewrite O. cbn [negb andb]. apply reached_all; [exact P| |].
      - intro Z. rewrite Z in Inc. exact (Inc v0 I0).
      - pose proof (sum_power_incl e vs _ P N Inc) as L. apply required_spec; [rewrite total_power_counted; apply sum_power_nonneg, P|].
        unfold quorum in Q. rewrite total_power_counted. lia. }
    pose proof G as G2. apply kget_in in G2; [|apply K]. pose proof (proj2 K _ _ G2) as Ek. exists (a_claim a). split; [|symmetry; exact Ek].
    apply in_app_iff. left. rewrite <- in_rev. apply in_map. apply filter_In. split; [|exact R]. rewrite by_nonce_in. apply in_map_iff. exists (att_key hash c, a). auto.
Qed.

(* An attestation short of the quorum stays as it is. *)
Theorem C35_short_of_quorum_unchanged n0 a0 l e k a : (forall v, 0 <= n_power e v) ->
  kget (s_atts app (run (fresh n0 a0) l)) k = Some a -> a_observed a = false -> ~ quorum e (map voter (a_votes a)) ->
  kget (s_atts app (run (fresh n0 a0) (l ++ [EndBlock e]))) k = Some a.
Proof.
  intros P G O Q. pose proof (run_keyed hash bech32_ok app handle n0 a0 l) as K. rewrite run_snoc. cbn [do].
  assert (R : ready e a = false).
  { destruct (ready e a) eqn:R; [|reflexivity]. exfalso. apply Q. unfold ready in R. apply andb_prop in R. destruct R as [_ R]. apply reached_prefix in R.
    destruct R as (p & r & E & _ & S). unfold quorum. rewrite <- total_power_counted. apply required_spec; [rewrite total_power_counted; apply sum_power_nonneg, P|].
    rewrite E, map_app, sum_power_app. pose proof (sum_power_nonneg e (map voter r) P). lia. }
  pose proof (tally_atts hash app handle e _ k K) as T. rewrite G in T. cbn [option_map] in T. rewrite R in T.
  destruct (prune_atts hash app e _ (tally_keyed hash app handle e _ K)) as [_ X]. destruct (X k) as [E|[_ (b & E & Ob & _)]]; congruence.
Qed.

(* ---- C36 ---- *)
(* From height 244300 on, with no cleaning: one claim text is never executed twice. *)
Theorem C36_claim_executed_once n0 a0 l : all_env (fun e => n_height e >= 244300) l -> all_claims (fun c => u64 (claim_nonce c)) l -> no_clean l ->
  NoDup (map (fun c => (claim_nonce c, claim_hash hash c)) (executed (run (fresh n0 a0) l))).
Proof.
  intros H U C. destruct (run_once hash bech32_ok app handle n0 a0 l H U C) as (N & _). revert N. generalize (executed (run (fresh n0 a0) l)). clear.
  induction l as [|c l IH]; cbn [map]; intro N; [constructor|]. inversion N as [|? ? X Y]; subst. constructor; [|apply IH, Y].
  intro I. apply X. apply in_map_iff in I. destruct I as (d & E & I). apply in_map_iff. exists d. split; [|exact I]. apply pair_equal_spec in E. unfold att_key. destruct E as [-> ->]. reflexivity.
Qed.

(* and after an event has been executed, no later vote about it is accepted *)
Theorem C36_no_vote_after_execution n0 a0 l e c d tx : all_env (fun e => n_height e >= 244300) l -> all_claims (fun c => u64 (claim_nonce c)) l -> no_clean l ->
  n_height e >= 244300 -> In d (executed (run (fresh n0 a0) l)) -> claim_nonce c = claim_nonce d -> is_ok (submit e (run (fresh n0 a0) l) c tx) = false.
Proof.
  intros H U C He I E. destruct (run_once hash bech32_ok app handle n0 a0 l H U C) as (_ & D & _). destruct (D d I) as [O _].
  destruct (submit e (run (fresh n0 a0) l) c tx) as [s'| |] eqn:S; [|reflexivity|reflexivity]. exfalso. apply submit_ok in S. destruct S as (v & _ & _ & _ & _ & On & _).
  unfold nonce_already_observed in On. assert (n_height e <? 244300 = false) as X by (apply Z.ltb_ge; lia). rewrite X, E in On.
  destruct (zget (s_nonces app (run (fresh n0 a0) l)) (claim_nonce d)); [discriminate On|congruence].
Qed.

(* Each event is executed at most once, while the validators and their powers stay
   the same (total power at least seven) and no validator votes for two claims
   about one event.  Missing: changing powers and double voters, both refuted below. *)
Theorem C36_event_executed_once_partial n0 a0 e0 l : all_env env_ok l -> all_env (fun e => n_height e >= 244300) l -> all_env (same_staking e0) l ->
  staking_ok e0 -> all_claims (fun c => u64 (claim_nonce c)) l -> no_clean l -> 7 <= sum_power e0 (counted e0) ->
  single_votes hash bech32_ok app handle (fresh n0 a0) l ->
  NoDup (map claim_nonce (executed (run (fresh n0 a0) l))).
Proof.
  intros Ho H S (Nb & P & St) U C T V. destruct (run_once hash bech32_ok app handle n0 a0 l H U C) as (N & D & _).
  assert (H2 : all_env (fun e => 34800 < n_height e) l) by (intros x e I E; specialize (H x e I E); cbv beta in H; lia).
  assert (Q := run_quorums hash bech32_ok app handle n0 a0 e0 l Ho H2 S ltac:(rewrite total_power_counted; lia)).
  assert (Ab : forall c d, In c (executed (run (fresh n0 a0) l)) -> In d (executed (run (fresh n0 a0) l)) -> claim_nonce c = claim_nonce d -> att_key hash c = att_key hash d).
  { intros c d Ic Id E. destruct (bytes_eq_dec (att_key hash c) (att_key hash d)) as [X|X]; [exact X|exfalso].
    destruct (Q c Ic) as (vs & Nv & Qv & Vv), (Q d Id) as (ws & Nw & Qw & Vw).
    assert (Un : forall c', In c' (executed (run (fresh n0 a0) l)) -> u64 (claim_nonce c')) by (intros c' I'; apply (D c' I')).
    assert (Dj : forall v, In v vs -> ~ In v ws).
    { intros v I J. destruct (Vv v I) as (c1 & W1 & E1), (Vw v J) as (c2 & W2 & E2).
      pose proof (voted_in hash bech32_ok app handle _ _ _ _ W1) as (e1 & t1 & I1 & _). pose proof (voted_in hash bech32_ok app handle _ _ _ _ W2) as (e2 & t2 & I2 & _).
      pose proof (proj1 (att_key_inj hash _ _ (U _ _ _ I1) (Un c Ic) E1)). pose proof (proj1 (att_key_inj hash _ _ (U _ _ _ I2) (Un d Id) E2)).
      apply X. rewrite <- E1, <- E2. apply (V v); [exact W1|exact W2|congruence]. }
    assert (Inc : incl (vs ++ ws) (counted e0)).
    { assert (G : forall us c0, (forall v, In v us -> exists c', voted (fresh n0 a0) l v c' /\ att_key hash c' = att_key hash c0) -> incl us (counted e0)).
      { intros us c0 Vu v I. destruct (Vu v I) as (c' & W & _). apply voted_in in W. destruct W as (e1 & t1 & I1 & Ev & Eb).
        destruct (S _ e1 I1 eq_refl) as (S1 & S2 & S3 & S4 & S5). unfold counted. apply filter_In. apply (St (claim_orch c')); [rewrite S4; exact Ev|rewrite S5; exact Eb]. }
      apply incl_app; [exact (G vs c Vv)|exact (G ws d Vw)]. }
    pose proof (sum_power_incl e0 (vs ++ ws) (counted e0) P (nodup_app_intro vs ws Nv Nw Dj) Inc) as L. rewrite sum_power_app in L.
    unfold quorum in Qv, Qw. lia. }
  clear -N Ab. induction (executed (run (fresh n0 a0) l)) as [|c r IH]; cbn [map] in *; [constructor|]. inversion N as [|? ? X Y]; subst. constructor.
  - intro I. apply X. apply in_map_iff in I. destruct I as (d & E & I). apply in_map_iff. exists d. split; [|exact I]. apply Ab; [right; exact I|left; reflexivity|exact E].
  - apply IH; [exact Y|]. intros c' d' I' J'. apply Ab; right; assumption.
Qed.

(* ---- C44 ---- *)
(* The skipped nonces are exactly the gaps: numbers between the start and the last
   observed nonce whose event has not been executed. *)
Theorem C44_skipped_are_the_gaps n0 a0 l n : 0 <= n0 < 2 ^ 64 - 1 -> all_claims (fun c => 0 <= claim_nonce c < 2 ^ 64 - 1) l ->
  zget (s_skipped app (run (fresh n0 a0) l)) n <> None <->
  n0 < n < s_last app (run (fresh n0 a0) l) /\ ~ In n (map claim_nonce (executed (run (fresh n0 a0) l))).
Proof. intros H C. destruct (run_skip hash bech32_ok app handle n0 a0 l H C) as (_ & _ & S & _). apply S. Qed.

(* the last observed nonce is the largest executed one, and never falls *)
Theorem C44_last_is_the_largest n0 a0 l : 0 <= n0 < 2 ^ 64 - 1 -> all_claims (fun c => 0 <= claim_nonce c < 2 ^ 64 - 1) l ->
  let s := run (fresh n0 a0) l in
  (forall c, In c (executed s) -> claim_nonce c <= s_last app s) /\ n0 <= s_last app s /\ (s_last app s = n0 \/ In (s_last app s) (map claim_nonce (executed s))).
Proof.
  intros H C s. destruct (run_skip hash bech32_ok app handle n0 a0 l H C) as (L & D & _ & T & _). fold s in L, D, T. split; [exact D|]. split; [lia|].
  destruct (Z.eq_dec (s_last app s) n0) as [E|E]; [left; exact E|right; apply T; lia].
Qed.
End Attestations.
Print Assumptions C35_observed_needs_quorum.
Print Assumptions C35_voters_saw_the_claim_partial.
Print Assumptions C35_quorum_is_observed.
Print Assumptions C35_short_of_quorum_unchanged.
Print Assumptions C36_claim_executed_once.
Print Assumptions C36_no_vote_after_execution.
Print Assumptions C36_event_executed_once_partial.
Print Assumptions C44_skipped_are_the_gaps.
Print Assumptions C44_last_is_the_largest.

(* ---- concrete bridges ---- *)
Definition idh (x : bytes) : bytes := x.
Definition val (c : N) : bytes := str "val" ++ [c].
Definition orc (c : N) : bytes := str "orc" ++ [c].
Definition look (ps : list (N * Z)) (v : bytes) : option (N * Z) := find (fun p => beqb v (val (fst p))) ps.
(* bonded validators with their powers; those in gone have no registered key any more *)
Definition env_of (h : Z) (ps : list (N * Z)) (gone : list N) : env :=
  {| n_height := h; n_bonded := map (fun p => val (fst p)) ps; n_power := fun v => match look ps v with Some p => snd p | None => 0 end;
     n_keyed := fun v => negb (existsb (fun c => beqb v (val c)) gone);
     n_validator := fun o => option_map (fun p => val (fst p)) (find (fun p => beqb o (orc (fst p))) ps);
     n_is_bonded := fun v => match look ps v with Some _ => true | None => false end; n_data_ok := fun _ => true; n_orch_data := fun _ => true |}.
Definition handle1 (e : env) (a : list claim) (c : claim) : option (list claim) := Some (c :: a).
Notation run1 := (run idh addr_ok (list claim) handle1 (fresh (list claim) 5 [])).
Notation voted1 := (voted idh addr_ok (list claim) handle1 (fresh (list claim) 5 [])).
Notation done1 l := (s_done (list claim) (run1 l)).

(* validators a, b, c are 97, 98, 99 *)
Definition dep_by (c : N) (n amount : Z) : claim := CDeposit {| d_id := 21; d_nonce := n; d_height := 900; d_token := hx 97; d_amount := amount; d_sender := hx 98;
  d_receiver := str "helios1qqq"; d_data := []; d_orch := orc c |}.
Definition tx1 : bytes := str "F00D".
Definition even : list (N * Z) := [(97%N, 10); (98%N, 10); (99%N, 10)].
Definition e1 : env := env_of 300000 even [].

Lemma env_of_ok h ps gone : (forall p, In p ps -> fst p <> 58%N) -> env_ok (env_of h ps gone).
Proof.
  intros H o v E. cbn in E. destruct (find _ ps) as [p|] eqn:F; [|discriminate E]. injection E as <-. apply find_some in F. destruct F as [I _].
  intro X. cbn in X. destruct X as [X|[X|[X|[X|[]]]]]; [discriminate X|discriminate X|discriminate X|]. exact (H p I X).
Qed.
Definition hist1 : list step := [Submit e1 (dep_by 97 7 5000) tx1; Submit e1 (dep_by 98 7 5000) tx1; Submit e1 (dep_by 99 7 4000) tx1; EndBlock e1].
Lemma hist1_env x e : In x hist1 -> step_env x = Some e -> e = e1.
Proof. intros I E. unfold hist1 in I. cbn [In] in I. destruct I as [<-|[<-|[<-|[<-|[]]]]]; cbn in E; injection E as <-; reflexivity. Qed.
Lemma hist1_claims e c tx : In (Submit e c tx) hist1 -> c = dep_by 97 7 5000 \/ c = dep_by 98 7 5000 \/ c = dep_by 99 7 4000.
Proof. intros I. unfold hist1 in I. cbn [In] in I. destruct I as [I|[I|[I|[I|[]]]]]; [| | |discriminate I]; injection I as _ <- _; auto. Qed.
Lemma e1_staking : staking_ok e1.
Proof.
  split; [|split].
  - cbn. repeat constructor; cbn; intuition discriminate.
  - intro v. cbn [e1 env_of n_power]. destruct (look even v) as [p|] eqn:L; [|lia]. apply find_some in L. destruct L as [I _]. cbn in I. destruct I as [<-|[<-|[<-|[]]]]; cbn; lia.
  - intros o v E _. split; [|reflexivity]. cbn [e1 env_of n_validator n_bonded] in *. destruct (find _ even) as [p|] eqn:F; [|discriminate E]. injection E as <-. apply find_some in F.
    apply in_map_iff. exists p. tauto.
Qed.

(* a and b agree, c reports another amount: the deposit of a and b is executed,
   nonce 6 was skipped; every hypothesis of the theorems above holds *)
Example C35_case : all_env env_ok hist1 /\ all_env (fun e => n_height e >= 244300) hist1 /\ all_env (same_staking e1) hist1 /\ staking_ok e1 /\
  all_claims (fun c => claim_u64 c /\ plain c /\ claim_id c = 21) hist1 /\ no_clean hist1 /\ sum_power e1 (counted e1) = 30 /\
  single_votes idh addr_ok (list claim) handle1 (fresh (list claim) 5 []) hist1 /\
  done1 hist1 = [dep_by 97 7 5000] /\ map fst (s_skipped (list claim) (run1 hist1)) = [6] /\ s_last (list claim) (run1 hist1) = 7 /\
  List.length (s_atts (list claim) (run1 hist1)) = 2%nat.
Proof.
  split. { intros x e I E. rewrite (hist1_env x e I E). apply env_of_ok. intros p P. cbn in P. destruct P as [<-|[<-|[<-|[]]]]; discriminate. }
  split. { intros x e I E. rewrite (hist1_env x e I E). cbn. lia. }
  split. { intros x e I E. rewrite (hist1_env x e I E). repeat split. }
  split; [exact e1_staking|]. split.
  { intros e c tx I. apply hist1_claims in I. destruct I as [->|[->| ->]]; (split; [cbn; unfold u64; lia|]); (split; [cbn; intros b x E; destruct b; discriminate E|reflexivity]). }
  split. { split; intro I; unfold hist1 in I; cbn [In] in I; intuition discriminate. }
  split; [vm_compute; reflexivity|]. split.
  { intros v c1 c2 V1 V2 _. apply voted_in in V1, V2. destruct V1 as (x1 & t1 & I1 & W1 & _), V2 as (x2 & t2 & I2 & W2 & _).
    rewrite (hist1_env _ _ I1 eq_refl) in W1. rewrite (hist1_env _ _ I2 eq_refl) in W2.
    apply hist1_claims in I1, I2. destruct I1 as [->|[->| ->]], I2 as [->|[->| ->]]; try reflexivity; vm_compute in W1, W2; congruence. }
  split; [vm_compute; reflexivity|]. split; [vm_compute; reflexivity|]. split; vm_compute; reflexivity.
Qed.

(* later votes about the executed nonce 7 are refused, in the same state *)
Example C36_case : is_ok (submit idh addr_ok (list claim) e1 (run1 hist1) (dep_by 98 7 4000) tx1) = false /\
  is_ok (submit idh addr_ok (list claim) e1 (run1 hist1) (dep_by 98 8 4000) tx1) = true.
Proof. split; vm_compute; reflexivity. Qed.

(* 60% is enough when the total is ten: the threshold is rounded down *)
Theorem C35_two_thirds_reached_refuted : exists l e c, all_env (fun e => n_height e >= 244300) (l ++ [EndBlock e]) /\
  done1 (l ++ [EndBlock e]) = [c] /\ (forall v c', voted1 l v c' -> v = val 97) /\
  sum_power e [val 97] = 6 /\ sum_power e (counted e) = 10 /\ 100 * sum_power e [val 97] < 66 * sum_power e (counted e).
Proof.
  set (e := env_of 300000 [(97%N, 6); (98%N, 4)] []). exists [Submit e (dep_by 97 7 5000) tx1], e, (dep_by 97 7 5000).
  split; [intros x f I E; cbn [app In] in I; destruct I as [<-|[<-|[]]]; cbn in E; injection E as <-; cbn; lia|].
  split; [vm_compute; reflexivity|]. split.
  { intros v c' V. apply voted_in in V. destruct V as (f & t & [I|[]] & W & _). injection I as <- <- <-. vm_compute in W. injection W as <-. reflexivity. }
  split; [vm_compute; reflexivity|]. split; vm_compute; reflexivity.
Qed.
Print Assumptions C35_two_thirds_reached_refuted.

(* with total power one, a vote of a validator without power executes a claim *)
Theorem C35_voters_have_power_refuted : exists l e c, done1 (l ++ [EndBlock e]) = [c] /\ (forall v c', voted1 l v c' -> n_power e v = 0) /\ sum_power e (counted e) = 1.
Proof.
  set (e := env_of 300000 [(97%N, 0); (98%N, 1)] []). exists [Submit e (dep_by 97 7 5000) tx1], e, (dep_by 97 7 5000).
  split; [vm_compute; reflexivity|]. split; [|vm_compute; reflexivity].
  intros v c' V. apply voted_in in V. destruct V as (f & t & [I|[]] & W & _). injection I as <- <- <-. vm_compute in W. injection W as <-. vm_compute. reflexivity.
Qed.
Print Assumptions C35_voters_have_power_refuted.

(* up to height 34800 one validator may vote twice and be counted twice *)
Theorem C35_distinct_voters_refuted : exists l e c, done1 (l ++ [EndBlock e]) = [c] /\ (forall v c', voted1 l v c' -> v = val 97) /\
  sum_power e [val 97] = 40 /\ sum_power e (counted e) = 100.
Proof.
  set (e := env_of 34800 [(97%N, 40); (98%N, 60)] []). exists [Submit e (dep_by 97 7 5000) tx1; Submit e (dep_by 97 7 5000) tx1], e, (dep_by 97 7 5000).
  split; [vm_compute; reflexivity|]. split; [|split; vm_compute; reflexivity].
  intros v c' V. apply voted_in in V. destruct V as (f & t & [I|[I|[]]] & W & _); injection I as <- <- <-; vm_compute in W; injection W as <-; reflexivity.
Qed.
Print Assumptions C35_distinct_voters_refuted.

(* the vote of a validator that has left the bridge counts against a total that no
   longer contains its power *)
Theorem C35_voters_still_registered_refuted : exists l e c, all_env (fun e => n_height e >= 244300) (l ++ [EndBlock e]) /\
  done1 (l ++ [EndBlock e]) = [c] /\ (forall v c', voted1 l v c' -> n_keyed e v = false) /\ sum_power e (counted e) = 60.
Proof.
  set (ps := [(97%N, 40); (98%N, 30); (99%N, 30)]). set (e := env_of 300000 ps []). set (f := env_of 300001 ps [97%N]).
  exists [Submit e (dep_by 97 7 5000) tx1; EndBlock e], f, (dep_by 97 7 5000).
  split; [intros x g I E; cbn [app In] in I; destruct I as [<-|[<-|[<-|[]]]]; cbn in E; injection E as <-; cbn; lia|].
  split; [vm_compute; reflexivity|]. split; [|vm_compute; reflexivity].
  intros v c' V. apply voted_in in V. destruct V as (g & t & [I|[I|[]]] & W & _); [|discriminate I]. injection I as <- <- <-. vm_compute in W. injection W as <-. vm_compute. reflexivity.
Qed.
Print Assumptions C35_voters_still_registered_refuted.

(* The first voter decides what the votes of the others execute: validators holding
   two thirds report a deposit, and a token is registered instead. *)
Definition dep_x (c : N) : claim := CDeposit {| d_id := 21; d_nonce := 7; d_height := 900; d_token := hx 97; d_amount := 5000; d_sender := hx 98;
  d_receiver := str "helios1qqq"; d_data := str "x/18"; d_orch := orc c |}.
Definition tok_x (c : N) : claim := CDeployed {| e_id := 21; e_nonce := 7; e_height := 900; e_denom := hx 97 ++ str "/5000"; e_token := hx 98; e_name := str "helios1qqq"; e_symbol := str "x";
  e_decimals := 18; e_orch := orc c |}.
Theorem C35_majority_claim_executed_refuted : exists l c, all_env (fun e => n_height e >= 244300) l /\ done1 l = [c] /\ is_deployed c /\
  voted1 l (val 98) (dep_x 98) /\ voted1 l (val 99) (dep_x 99) /\ (forall v c', voted1 l v c' -> is_deployed c' -> v = val 97).
Proof.
  exists [Submit e1 (tok_x 97) tx1; Submit e1 (dep_x 98) tx1; Submit e1 (dep_x 99) tx1; EndBlock e1], (tok_x 97).
  split; [intros x g I E; cbn [In] in I; destruct I as [<-|[<-|[<-|[<-|[]]]]]; cbn in E; injection E as <-; cbn; lia|].
  split; [vm_compute; reflexivity|]. split; [exact Logic.I|].
  split; [exists [Submit e1 (tok_x 97) tx1], e1, tx1, [Submit e1 (dep_x 99) tx1; EndBlock e1]; split; [reflexivity|]; split; [|split]; vm_compute; reflexivity|].
  split; [exists [Submit e1 (tok_x 97) tx1; Submit e1 (dep_x 98) tx1], e1, tx1, [EndBlock e1]; split; [reflexivity|]; split; [|split]; vm_compute; reflexivity|].
  intros v c' V D. apply voted_in in V. destruct V as (g & t & I & W & _). cbn [In] in I.
  destruct I as [I|[I|[I|[I|[]]]]]; [| | |discriminate I]; injection I as <- <- <-; [|destruct D|destruct D]. vm_compute in W. injection W as <-. reflexivity.
Qed.
Print Assumptions C35_majority_claim_executed_refuted.

(* one validator voting for both of two conflicting reports of one event makes both run *)
Theorem C36_event_executed_once_refuted : exists l c d, all_env (fun e => n_height e >= 244300) l /\ all_env (same_staking e1) l /\ no_clean l /\
  done1 l = [c; d] /\ claim_nonce c = claim_nonce d /\ c <> d.
Proof.
  exists [Submit e1 (dep_by 97 7 5000) tx1; Submit e1 (dep_by 98 7 5000) tx1; Submit e1 (dep_by 98 7 4000) tx1; Submit e1 (dep_by 99 7 4000) tx1; EndBlock e1],
    (dep_by 97 7 5000), (dep_by 98 7 4000).
  split; [intros x g I E; cbn [In] in I; destruct I as [<-|[<-|[<-|[<-|[<-|[]]]]]]; cbn in E; injection E as <-; cbn; lia|].
  split; [intros x g I E; cbn [In] in I; destruct I as [<-|[<-|[<-|[<-|[<-|[]]]]]]; cbn in E; injection E as <-; repeat split|].
  split; [split; intro I; cbn [In] in I; intuition discriminate|].
  split; [vm_compute; reflexivity|]. split; [reflexivity|discriminate].
Qed.
Print Assumptions C36_event_executed_once_refuted.

(* so does a change of the powers, every validator voting once *)
Theorem C36_powers_may_change_refuted : exists l c d, all_env (fun e => n_height e >= 244300) l /\ no_clean l /\
  single_votes idh addr_ok (list claim) handle1 (fresh (list claim) 5 []) l /\
  done1 l = [c; d] /\ claim_nonce c = claim_nonce d /\ c <> d.
Proof.
  set (f := env_of 300001 [(97%N, 10); (98%N, 10); (99%N, 90)] []).
  exists [Submit e1 (dep_by 97 7 5000) tx1; Submit e1 (dep_by 98 7 5000) tx1; Submit e1 (dep_by 99 7 4000) tx1; EndBlock e1; EndBlock f],
    (dep_by 99 7 4000), (dep_by 97 7 5000).
  split; [intros x g I E; cbn [In] in I; destruct I as [<-|[<-|[<-|[<-|[<-|[]]]]]]; cbn in E; injection E as <-; cbn; lia|].
  split; [split; intro I; cbn [In] in I; intuition discriminate|]. split.
  { intros v c1 c2 V1 V2 _. apply voted_in in V1, V2. destruct V1 as (x1 & t1 & I1 & W1 & _), V2 as (x2 & t2 & I2 & W2 & _). cbn [In] in I1, I2.
    destruct I1 as [I1|[I1|[I1|[I1|[I1|[]]]]]]; try discriminate I1; injection I1 as <- <- <-; destruct I2 as [I2|[I2|[I2|[I2|[I2|[]]]]]]; try discriminate I2; injection I2 as <- <- <-;
      try reflexivity; vm_compute in W1, W2; congruence. }
  split; [vm_compute; reflexivity|]. split; [reflexivity|discriminate].
Qed.
Print Assumptions C36_powers_may_change_refuted.

Definition round (e : env) (n : Z) : list step := [Submit e (dep_by 97 n 5000) tx1; Submit e (dep_by 98 n 5000) tx1; EndBlock e].
(* below height 244300 an executed claim that has been pruned can be voted in again *)
Theorem C36_replay_before_244300_refuted : exists l c, all_env (fun e => 34800 < n_height e < 244300) l /\ no_clean l /\ done1 l = [c; dep_by 97 8 5000; c].
Proof.
  set (e := env_of 50000 even []). exists (round e 7 ++ round e 8 ++ round e 7), (dep_by 97 7 5000).
  split; [intros x g I E; cbn [round app In] in I; destruct I as [<-|[<-|[<-|[<-|[<-|[<-|[<-|[<-|[<-|[]]]]]]]]]]; cbn in E; injection E as <-; cbn; lia|].
  split; [split; intro I; cbn [round app In] in I; intuition discriminate|]. vm_compute. reflexivity.
Qed.
Print Assumptions C36_replay_before_244300_refuted.

(* the cleaning of a different bridge forgets the executed nonces of this one *)
Theorem C36_other_bridge_cleaned_refuted : exists l c, all_env (fun e => n_height e >= 244300) l /\ ~ In Clean l /\ done1 l = [c; dep_by 97 8 5000; c].
Proof.
  exists (round e1 7 ++ round e1 8 ++ [CleanOther] ++ round e1 7), (dep_by 97 7 5000).
  split; [intros x g I E; cbn [round app In] in I; destruct I as [<-|[<-|[<-|[<-|[<-|[<-|[<-|[<-|[<-|[<-|[]]]]]]]]]]]; cbn in E; try discriminate E; injection E as <-; cbn; lia|].
  split; [intro I; cbn [round app In] in I; intuition discriminate|]. vm_compute. reflexivity.
Qed.
Print Assumptions C36_other_bridge_cleaned_refuted.

(* the start height recorded for a skipped nonce is a nonce, not a height *)
Theorem C44_start_height_refuted : exists l h, all_env (fun e => n_height e >= 244300) l /\ all_claims (fun c => claim_height c = 900) l /\
  zget (s_skipped (list claim) (run1 l)) 6 = Some (5, h).
Proof.
  exists hist1, 900. split; [intros x e I E; rewrite (hist1_env x e I E); cbn; lia|].
  split; [|vm_compute; reflexivity]. intros e c tx I. apply hist1_claims in I. destruct I as [->|[->| ->]]; reflexivity.
Qed.
Print Assumptions C44_start_height_refuted.
