(* C41: votes on external events across an export and a start from genesis. *)
From Verif Require Import Lib.Base Lib.Bytes Lib.Codec Lib.Kv Lib.Dec Hyperion.Keys Hyperion.Claims Hyperion.ClaimSpec Hyperion.ClaimProofs Hyperion.PropsClaims
  Hyperion.Attest Hyperion.AttestSpec Hyperion.AttestProofs Hyperion.PropsAttest Hyperion.GenesisVotes Hyperion.GenesisVotesProofs.
From Coq Require Import NArith ZArith.
Open Scope Z_scope.

(* Whatever history a bridge went through, the new chain has the same attestations with the
   same votes, the same last event and height, and has executed nothing more.  Missing: the
   executed and skipped events and the last event of each validator, see below. *)
Theorem C41_votes_partial : forall hash bech32_ok app handle val_of n a l,
  let s := run hash bech32_ok app handle (fresh app n a) l in
  let s' := restart hash app val_of s in
  s_atts app s' = s_atts app s /\ s_last app s' = s_last app s /\ s_eth app s' = s_eth app s /\
  s_app app s' = s_app app s /\ s_done app s' = s_done app s.
Proof.
  intros hash bech32_ok app handle val_of n a l. cbv zeta. destruct (restart_ok hash app val_of _ (run_keyed hash bech32_ok app handle n a l)) as (A & B & C & D & E & _). auto.
Qed.
Print Assumptions C41_votes_partial.

(* no stored vote is an address: the address is followed by a colon and a hash *)
Definition no_address (x : bytes) : option bytes := None.
Definition again (l : list step) : st (list claim) := restart idh (list claim) no_address (run1 l).
Example C41_votes_partial_ex : List.length (s_atts (list claim) (again hist1)) = 2%nat /\ s_last (list claim) (again hist1) = 7 /\
  s_done (list claim) (again hist1) = [dep_by 97 7 5000].
Proof. vm_compute. auto. Qed.

(* After a start from genesis an event that was executed is voted in and executed again. *)
Theorem C41_executed_again_refuted : exists l m c, all_env (fun e => n_height e >= 244300) (l ++ m) /\ no_clean (l ++ m) /\
  In c (done1 l) /\ s_done (list claim) (run idh addr_ok (list claim) handle1 (again l) m) = c :: done1 l.
Proof.
  exists (round e1 7 ++ round e1 8), (round e1 7), (dep_by 97 7 5000).
  split; [intros x g I E; cbn [round app In] in I; destruct I as [<-|[<-|[<-|[<-|[<-|[<-|[<-|[<-|[<-|[]]]]]]]]]]; cbn in E; injection E as <-; cbn; lia|].
  split; [split; intro I; cbn [round app In] in I; intuition discriminate|]. split; [vm_compute; auto|]. vm_compute. reflexivity.
Qed.
Print Assumptions C41_executed_again_refuted.

(* Skipped events are no longer listed, although they are still missing. *)
Theorem C41_skipped_refuted : exists l, map fst (s_skipped (list claim) (run1 l)) = [6] /\ s_skipped (list claim) (again l) = [] /\
  s_last (list claim) (again l) = s_last (list claim) (run1 l).
Proof. exists hist1. vm_compute. auto. Qed.
Print Assumptions C41_skipped_refuted.

(* The last event of every validator is forgotten, in every history in which the stored votes
   do not read as addresses. *)
Theorem C41_last_events_lost : forall hash bech32_ok app handle val_of n a l,
  all_env env_ok l -> (forall v tx, val_of (vote_text v tx) = None) ->
  s_events app (restart hash app val_of (run hash bech32_ok app handle (fresh app n a) l)) = [].
Proof.
  intros hash bech32_ok app handle val_of n a l H V. apply (restart_ok hash app val_of _ (run_keyed hash bech32_ok app handle n a l)).
  intros k b v G I. destruct (run_genuine hash bech32_ok app handle (fresh app n a) l (fresh_keyed hash app n a) eq_refl H k b G v I) as (_ & (w & tx & -> & _) & _). apply V.
Qed.
Print Assumptions C41_last_events_lost.
Theorem C41_last_events_refuted : exists l v, all_env env_ok l /\ kget (s_events (list claim) (run1 l)) v = Some (7, 900) /\ kget (s_events (list claim) (again l)) v = None.
Proof.
  exists hist1, (val 97). split; [apply C35_case|]. split; [vm_compute; reflexivity|]. unfold again. rewrite C41_last_events_lost; [reflexivity|apply C35_case|reflexivity].
Qed.
Print Assumptions C41_last_events_refuted.

(* Where stored votes do read as addresses, the last event of a validator is the newest of the
   stored events it voted for, with its height, and a validator without a vote has none. *)
Section Last.
Variable app : Type.
Variable val_of : bytes -> option bytes.
Notation put_pair := (fun s (p : att * bytes) => put_event app val_of (fst p) s (snd p)).
Lemma put_events_flat l : forall s, fold_left (put_events app val_of) l s = fold_left put_pair (flat_map (fun a => map (fun v => (a, v)) (a_votes a)) l) s.
Proof.
  induction l as [|a r IH]; intros s; [reflexivity|]. cbn [fold_left flat_map]. rewrite fold_left_app, IH. f_equal. unfold put_events. generalize s. induction (a_votes a) as [|v vs IHv]; intros s0; [reflexivity|]. cbn [fold_left map fst snd]. apply IHv.
Qed.
Definition newest_votes (ps : list (att * bytes)) (s : st app) : Prop :=
  ksorted (s_events app s) /\
  (forall v n h, kget (s_events app s) v = Some (n, h) -> exists p, In p ps /\ val_of (snd p) = Some v /\ claim_nonce (a_claim (fst p)) = n /\ claim_height (a_claim (fst p)) = h) /\
  (forall p v, In p ps -> val_of (snd p) = Some v -> 0 < claim_nonce (a_claim (fst p)) -> exists n h, kget (s_events app s) v = Some (n, h) /\ claim_nonce (a_claim (fst p)) <= n).
Lemma newest_all ps : forall s, s_events app s = [] -> newest_votes ps (fold_left put_pair ps s).
Proof.
  induction ps as [|[a w] ps IH] using rev_ind; intros s E.
  - cbn [fold_left]. unfold newest_votes. rewrite E. split; [constructor|]. split; [cbn; discriminate|intros p v []].
  - rewrite fold_left_app. cbn [fold_left fst snd]. destruct (IH s E) as (S & A & B). set (t := fold_left _ ps s) in *. unfold put_event.
    destruct (val_of w) as [x|] eqn:V.
    + set (last := match kget (s_events app t) x with Some (n, _) => n | None => 0 end). destruct (Z.ltb_spec last (claim_nonce (a_claim a))) as [L|L].
      * unfold newest_votes. cbn [with_events s_events]. split; [apply kset_sorted, S|]. split.
        -- intros v n h G. rewrite kget_kset in G by exact S. destruct (beqb v x) eqn:Q.
           ++ apply beqb_spec in Q. subst v. injection G as <- <-. exists (a, w). split; [apply in_or_app; right; left; reflexivity|auto].
           ++ destruct (A v n h G) as (p & I & H). exists p. split; [apply in_or_app; left; exact I|exact H].
        -- intros p v I Hv Hn. rewrite kget_kset by exact S. destruct (beqb v x) eqn:Q.
           ++ apply beqb_spec in Q. subst v. exists (claim_nonce (a_claim a)), (claim_height (a_claim a)). split; [reflexivity|]. apply in_app_or in I. destruct I as [I|[<-|[]]]; [|cbn; lia].
              destruct (B p x I Hv Hn) as (n & h & G & Le). unfold last in L. rewrite G in L. lia.
           ++ apply in_app_or in I. destruct I as [I|[<-|[]]]; [exact (B p v I Hv Hn)|]. cbn [snd] in Hv. exfalso. assert (v = x) by congruence. subst v. assert (beqb x x = true) by (apply beqb_spec; reflexivity). congruence.
      * split; [exact S|]. split.
        -- intros v n h G. destruct (A v n h G) as (p & I & H). exists p. split; [apply in_or_app; left; exact I|exact H].
        -- intros p v I Hv Hn. apply in_app_or in I. destruct I as [I|[<-|[]]]; [exact (B p v I Hv Hn)|]. cbn [fst snd] in *. assert (v = x) by congruence. subst v. unfold last in L. destruct (kget (s_events app t) x) as [[n h]|]; [|lia]. exists n, h. auto.
    + split; [exact S|]. split.
      * intros v n h G. destruct (A v n h G) as (p & I & H). exists p. split; [apply in_or_app; left; exact I|exact H].
      * intros p v I Hv Hn. apply in_app_or in I. destruct I as [I|[<-|[]]]; [exact (B p v I Hv Hn)|]. cbn [snd] in Hv. congruence.
Qed.
End Last.
Theorem C41_last_events_rebuilt : forall hash bech32_ok app handle val_of n a l,
  let s := run hash bech32_ok app handle (fresh app n a) l in
  let s' := restart hash app val_of s in
  (forall v m h, kget (s_events app s') v = Some (m, h) ->
     exists k x w, kget (s_atts app s) k = Some x /\ In w (a_votes x) /\ val_of w = Some v /\ claim_nonce (a_claim x) = m /\ claim_height (a_claim x) = h) /\
  (forall k x w v, kget (s_atts app s) k = Some x -> In w (a_votes x) -> val_of w = Some v -> 0 < claim_nonce (a_claim x) ->
     exists m h, kget (s_events app s') v = Some (m, h) /\ claim_nonce (a_claim x) <= m).
Proof.
  intros hash bech32_ok app handle val_of n a l. cbv zeta. set (s := run hash bech32_ok app handle (fresh app n a) l). pose proof (run_keyed hash bech32_ok app handle n a l) as K. fold s in K. pose proof K as [S Kk].
  unfold restart, import_votes, export_votes. cbn [g_atts g_last g_eth]. rewrite put_events_flat. set (atts := by_nonce (map snd (s_atts app s))).
  destruct (put_atts hash app atts (new_chain app s)) as (_ & R1 & _); [constructor|apply (by_nonce_nodup hash app s K)|]. destruct R1 as (_ & _ & _ & _ & R5 & _).
  match goal with |- context [fold_left _ (flat_map ?f atts) ?s0] => destruct (newest_all app val_of (flat_map f atts) s0) as (_ & A & B); [exact R5|] end.
  assert (M : forall x, In x atts <-> exists k, kget (s_atts app s) k = Some x).
  { intros x. unfold atts. rewrite by_nonce_in, in_map_iff. split; [intros ([k y] & E & I); cbn in E; subst y; exists k; apply (kget_in _ _ _ S); exact I|]. intros [k G]. exists (k, x). split; [reflexivity|]. apply (kget_in _ _ _ S). exact G. }
  split.
  - intros v m h G. destruct (A v m h G) as ([x w] & I & V & E1 & E2). apply in_flat_map in I as (y & Iy & Iw). apply in_map_iff in Iw as (u & E & Iu). injection E as -> ->. apply M in Iy as [k Gk]. exists k, x, w. auto.
  - intros k x w v G Iw V Hn. apply (B (x, w) v); [|exact V|exact Hn]. apply in_flat_map. exists x. split; [apply M; eauto|]. apply in_map. exact Iw.
Qed.
Print Assumptions C41_last_events_rebuilt.
(* with votes that are bare addresses *)
Example C41_last_events_rebuilt_ex : kget (s_events (list claim) (restart idh (list claim) (fun w => Some (firstn (List.length (val 97)) w)) (run1 hist1))) (val 97) = Some (7, 900).
Proof. vm_compute. reflexivity. Qed.
