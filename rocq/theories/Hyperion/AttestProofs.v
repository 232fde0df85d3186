From Verif Require Import Lib.Base Lib.Bytes Lib.Codec Lib.Kv Lib.Dec Hyperion.Keys Hyperion.KeySpec Hyperion.KeyProofs Hyperion.Claims Hyperion.ClaimSpec Hyperion.Attest Hyperion.AttestSpec.
From Coq Require Import NArith ZArith Permutation Sorting.Sorted.
Open Scope Z_scope.

(* ---- number-keyed records ---- *)
Section ZmapFacts.
Context {V : Type}.
Implicit Types m : list (Z * V).
Lemma zget_zdel m k j : zget (zdel m k) j = if j =? k then None else zget m j.
Proof.
  induction m as [|[i v] m IH]; cbn [zdel filter zget fst]; [destruct (j =? k); reflexivity|].
  destruct (Z.eqb_spec k i) as [E|E]; cbn [negb].
  - fold (zdel m k). rewrite IH. subst i. destruct (Z.eqb_spec j k); reflexivity.
  - fold (zdel m k). cbn [zget]. rewrite IH. destruct (Z.eqb_spec j i), (Z.eqb_spec j k); try reflexivity. lia.
Qed.
Lemma zget_zset m k v j : zget (zset m k v) j = if j =? k then Some v else zget m j.
Proof. unfold zset. cbn [zget]. destruct (Z.eqb_spec j k) as [E|E]; [reflexivity|]. rewrite zget_zdel. destruct (Z.eqb_spec j k); [lia|reflexivity]. Qed.
Lemma zget_fold (v : V) l : forall m j, zget (fold_left (fun m k => zset m k v) l m) j = if existsb (Z.eqb j) l then Some v else zget m j.
Proof.
  induction l as [|k l IH]; intros m j; cbn [fold_left existsb]; [reflexivity|]. rewrite IH, zget_zset.
  destruct (existsb (Z.eqb j) l); [rewrite orb_true_r; reflexivity|]. rewrite orb_false_r. reflexivity.
Qed.
End ZmapFacts.

Lemma in_range_iff lo hi x : In x (range lo hi) <-> lo <= x < hi.
Proof.
  unfold range. rewrite in_map_iff. split.
  - intros (i & <- & I). apply in_seq in I. lia.
  - intro H. exists (Z.to_nat (x - lo)). split; [lia|]. apply in_seq. lia.
Qed.

Lemma in_skip_range last n x : 0 <= last < 2 ^ 64 - 1 -> 0 <= n < 2 ^ 64 -> (In x (skip_range last n) <-> last < x < n).
Proof.
  intros L N. unfold skip_range. rewrite (Z.mod_small (last + 1)) by lia.
  destruct (Z.ltb_spec 1 ((n - last) mod 2 ^ 64)) as [H|H].
  - rewrite in_range_iff. lia.
  - split; [intros []|]. intro X. rewrite Z.mod_small in H by lia. lia.
Qed.

(* ---- votes ---- *)
Lemma voter_text v tx : lacks colon v -> voter (vote_text v tx) = v.
Proof.
  unfold vote_text. induction v as [|c v IH]; intro L; cbn [app voter].
  - rewrite N.eqb_refl. reflexivity.
  - destruct (N.eqb_spec c colon) as [E|E]; [exfalso; apply L; left; exact E|]. f_equal. apply IH. intro I. apply L. right. exact I.
Qed.
Lemma has_prefix_voter v x : lacks colon v -> (exists w tx, x = vote_text w tx /\ lacks colon w) ->
  (has_prefix (v ++ [colon]) x = true <-> voter x = v).
Proof.
  intros L (w & tx & -> & W). rewrite voter_text by exact W. rewrite has_prefix_ex. split.
  - intros (r & E). unfold vote_text in E. rewrite <- app_assoc in E. cbn [app] in E. apply split_sep in E; [|exact W|exact L]. tauto.
  - intros ->. exists tx. unfold vote_text. rewrite <- app_assoc. reflexivity.
Qed.

(* ---- sums and thresholds ---- *)
Lemma sum_power_app e a b : sum_power e (a ++ b) = sum_power e a + sum_power e b.
Proof. unfold sum_power. induction a as [|x a IH]; cbn [app fold_right]; [lia|]. rewrite IH. lia. Qed.
Lemma sum_power_perm e a b : Permutation a b -> sum_power e a = sum_power e b.
Proof. unfold sum_power. induction 1; cbn [fold_right] in *; lia. Qed.
Lemma sum_power_nonneg e vs : (forall v, 0 <= n_power e v) -> 0 <= sum_power e vs.
Proof. intro H. unfold sum_power. induction vs as [|v vs IH]; cbn [fold_right]; [lia|]. specialize (H v). lia. Qed.
Lemma sum_power_incl e vs ws : (forall v, 0 <= n_power e v) -> NoDup vs -> incl vs ws -> sum_power e vs <= sum_power e ws.
Proof.
  intro H. revert ws. induction vs as [|v vs IH]; intros ws N I.
  - cbn. apply sum_power_nonneg, H.
  - destruct (in_split v ws (I v (or_introl eq_refl))) as (l1 & l2 & ->).
    rewrite (sum_power_perm e (l1 ++ v :: l2) (v :: l1 ++ l2)) by (symmetry; apply Permutation_middle).
    cbn [sum_power fold_right]. inversion N as [|? ? Nv N' ]; subst.
    assert (sum_power e vs <= sum_power e (l1 ++ l2)) as S.
    { apply IH; [exact N'|]. intros x X. specialize (I x (or_intror X)). apply in_app_iff in I. apply in_app_iff. destruct I as [I|[I|I]]; [tauto| |tauto].
      subst. contradiction. }
    unfold sum_power in *. lia.
Qed.
Lemma total_power_counted e : total_power e = sum_power e (counted e).
Proof.
  unfold total_power, counted. assert (G : forall l a, fold_left (fun acc v => if n_keyed e v then acc + n_power e v else acc) l a = a + sum_power e (filter (n_keyed e) l)).
  { induction l as [|v l IH]; intro a; cbn [fold_left filter]; [cbn; lia|]. rewrite IH. destruct (n_keyed e v); cbn [sum_power fold_right]; unfold sum_power; lia. }
  apply G.
Qed.
Lemma required_spec t x : 0 <= t -> (required_power t 66 <= x <-> 66 * t < 100 * (x + 1)).
Proof.
  intro H. unfold required_power. rewrite Z.quot_div_nonneg by lia. pose proof (Z.div_mod (t * 66) 100 ltac:(lia)). pose proof (Z.mod_pos_bound (t * 66) 100 ltac:(lia)). lia.
Qed.

(* the loop stops at some prefix of the votes *)
Lemma reached_prefix e req votes : forall acc, reached e req acc votes = true ->
  exists l r, votes = l ++ r /\ l <> [] /\ req <= acc + sum_power e (map voter l).
Proof.
  induction votes as [|x votes IH]; intros acc R; cbn [reached] in R; [discriminate R|].
  destruct (Z.leb_spec req (acc + n_power e (voter x))) as [L|L].
  - exists [x], votes. split; [reflexivity|]. split; [discriminate|]. cbn. lia.
  - destruct (IH _ R) as (l & r & -> & N & S). exists (x :: l), r. split; [reflexivity|]. split; [discriminate|]. cbn [map sum_power fold_right].
    unfold sum_power in S. lia.
Qed.
Lemma reached_all e req votes : (forall v, 0 <= n_power e v) -> votes <> [] -> forall acc, req <= acc + sum_power e (map voter votes) -> reached e req acc votes = true.
Proof.
  intro H. induction votes as [|x votes IH]; intros N acc S; [congruence|]. cbn [reached].
  destruct (Z.leb_spec req (acc + n_power e (voter x))) as [L|L]; [reflexivity|].
  destruct votes as [|y votes].
  - cbn in S. lia.
  - apply IH; [discriminate|]. cbn [map sum_power fold_right] in S |- *. lia.
Qed.

(* ---- the order of the tally ---- *)
Lemma insert_nonce_in n l x : In x (insert_nonce n l) <-> x = n \/ In x l.
Proof.
  induction l as [|y l IH]; cbn [insert_nonce In]; [intuition|]. destruct (Z.ltb_spec n y); [cbn [In]; intuition|].
  destruct (Z.eqb_spec n y) as [E|E]; cbn [In]; [subst; intuition|]. rewrite IH. intuition.
Qed.
Lemma insert_nonce_sorted n l : StronglySorted Z.lt l -> StronglySorted Z.lt (insert_nonce n l).
Proof.
  induction l as [|y l IH]; intro S; cbn [insert_nonce]; [repeat constructor|]. inversion S as [|? ? S' F]; subst.
  destruct (Z.ltb_spec n y) as [L|L].
  - constructor; [exact S|]. constructor; [exact L|]. rewrite Forall_forall in F |- *. intros z Z. specialize (F z Z). cbv beta in *. lia.
  - destruct (Z.eqb_spec n y) as [E|E]; [exact S|]. constructor; [apply IH, S'|]. rewrite Forall_forall in F |- *. intros z Z.
    apply insert_nonce_in in Z. destruct Z as [-> |Z]; [lia|apply F, Z].
Qed.
Lemma nonces_sorted l : StronglySorted Z.lt (nonces_of l).
Proof. induction l as [|a l IH]; cbn [nonces_of fold_right]; [constructor|]. apply insert_nonce_sorted, IH. Qed.
Lemma sorted_nodup l : StronglySorted Z.lt l -> NoDup l.
Proof.
  induction 1 as [|x l S IH F]; constructor; [|exact IH]. intro I. rewrite Forall_forall in F. specialize (F x I). cbv beta in F. lia.
Qed.
Lemma nonces_of_in l a : In a l -> In (claim_nonce (a_claim a)) (nonces_of l).
Proof. induction l as [|b l IH]; intro I; [destruct I|]. cbn [nonces_of fold_right]. apply insert_nonce_in. destruct I as [->|I]; [left; reflexivity|right; apply IH, I]. Qed.

Lemma perm_group a l ns : NoDup ns -> In (claim_nonce (a_claim a)) ns ->
  Permutation (flat_map (fun n => filter (fun b => claim_nonce (a_claim b) =? n) (a :: l)) ns)
              (a :: flat_map (fun n => filter (fun b => claim_nonce (a_claim b) =? n) l) ns).
Proof.
  induction ns as [|n ns IH]; intros N I; [destruct I|]. inversion N as [|? ? Nn N']; subst. cbn [flat_map filter].
  destruct (Z.eqb_spec (claim_nonce (a_claim a)) n) as [E|E].
  - cbn [app]. constructor. apply Permutation_app_head. assert (forall m, In m ns -> claim_nonce (a_claim a) <> m) as D by (intros m M X; subst; contradiction).
    clear -D. induction ns as [|m ns IH]; cbn [flat_map filter]; [constructor|]. destruct (Z.eqb_spec (claim_nonce (a_claim a)) m) as [X|X]; [exfalso; exact (D m (or_introl eq_refl) X)|].
    apply Permutation_app_head. apply IH. intros k K. apply D. right. exact K.
  - destruct I as [I|I]; [congruence|]. eapply Permutation_trans; [apply Permutation_app_head, IH; assumption|].
    apply Permutation_sym, Permutation_middle.
Qed.
Lemma group_perm ns : NoDup ns -> forall l, (forall a, In a l -> In (claim_nonce (a_claim a)) ns) ->
  Permutation (flat_map (fun n => filter (fun b => claim_nonce (a_claim b) =? n) l) ns) l.
Proof.
  intros N l. induction l as [|a l IH]; intro H.
  - clear. induction ns as [|n ns IH]; cbn; [constructor|exact IH].
  - eapply Permutation_trans; [apply perm_group; [exact N|apply H; left; reflexivity]|]. constructor. apply IH. intros b B. apply H. right. exact B.
Qed.
Lemma by_nonce_perm l : Permutation (by_nonce l) l.
Proof. apply group_perm; [apply sorted_nodup, nonces_sorted|apply nonces_of_in]. Qed.
Lemma by_nonce_in l a : In a (by_nonce l) <-> In a l.
Proof. split; apply Permutation_in; [apply by_nonce_perm|apply Permutation_sym, by_nonce_perm]. Qed.

(* ------------------------------------------------------------------ *)
Section Facts.
Variable hash : bytes -> bytes.
Variable bech32_ok : bytes -> bool.
Variable app : Type.
Variable handle : env -> app -> claim -> option app.
Notation st := (st app).
Notation run := (run hash bech32_ok app handle).
Notation do := (do hash bech32_ok app handle).
Notation submit := (submit hash bech32_ok app).
Notation attest := (attest hash app).
Notation tally := (tally hash app handle).
Notation try_attestation := (try_attestation hash app handle).
Notation observe := (observe hash app handle).
Notation prune := (prune hash app).
Notation prune_loop := (prune_loop hash app).
Notation att_key := (att_key hash).
Notation s_atts := (s_atts app).
Notation s_done := (s_done app).
Notation s_nonces := (s_nonces app).
Notation s_skipped := (s_skipped app).
Notation s_last := (s_last app).
Notation voted := (voted hash bech32_ok app handle).

Lemma att_key_inj c d : u64 (claim_nonce c) -> u64 (claim_nonce d) -> att_key c = att_key d -> claim_nonce c = claim_nonce d /\ claim_hash hash c = claim_hash hash d.
Proof.
  intros U W E. unfold Attest.att_key in E. apply app_inj_len in E; [|unfold blen; rewrite !b8_len; reflexivity].
  destruct E as [E H]. split; [|exact H]. apply (be_inj 8); assumption.
Qed.

(* stored attestations sit under the key of their own claim *)
Definition keyed (s : st) : Prop := ksorted (s_atts s) /\ forall k a, In (k, a) (s_atts s) -> k = att_key (a_claim a).

Definition ready (e : env) (a : att) : bool := negb (a_observed a) && reached e (required_power (total_power e) 66) 0 (a_votes a).
Definition mark (a : att) : att := {| a_observed := true; a_height := a_height a; a_claim := a_claim a; a_votes := a_votes a |}.

Lemma try_ready e s a : try_attestation e s a = if ready e a then observe e s a else s.
Proof. unfold Attest.try_attestation, ready. destruct (a_observed a); cbn [negb andb]; reflexivity. Qed.

(* each component after observing *)
Lemma observe_atts e s a : s_atts (observe e s a) = kset (s_atts s) (att_key (a_claim a)) (mark a).
Proof.
  unfold Attest.observe, process, store_nonce_observed. cbn zeta. destruct (_ <? _), (_ <? _); cbn; destruct (handle _ _ _); reflexivity.
Qed.
Lemma observe_done e s a : s_done (observe e s a) = a_claim a :: s_done s.
Proof.
  unfold Attest.observe, process, store_nonce_observed. cbn zeta. destruct (_ <? _), (_ <? _); cbn; destruct (handle _ _ _); reflexivity.
Qed.
Lemma observe_last e s a : s_last (observe e s a) = Z.max (s_last s) (claim_nonce (a_claim a)).
Proof.
  unfold Attest.observe, process, store_nonce_observed. cbn zeta. destruct (Z.ltb_spec (s_last s) (claim_nonce (a_claim a))), (_ <? _); cbn; destruct (handle _ _ _); cbn; lia.
Qed.
Lemma observe_nonces e s a : s_nonces (observe e s a) =
  if n_height e <? 244300 then s_nonces s else zset (s_nonces s) (claim_nonce (a_claim a)) (claim_height (a_claim a)).
Proof.
  unfold Attest.observe, process, store_nonce_observed. cbn zeta. destruct (s_last s <? _), (n_height e <? _); cbn; destruct (handle _ _ _); reflexivity.
Qed.
Lemma observe_skipped e s a : s_skipped (observe e s a) =
  zdel (fold_left (fun m k => zset m k (s_last s, claim_height (a_claim a))) (skip_range (s_last s) (claim_nonce (a_claim a))) (s_skipped s)) (claim_nonce (a_claim a)).
Proof.
  unfold Attest.observe, process, store_nonce_observed. cbn zeta. destruct (s_last s <? _), (n_height e <? _); cbn; destruct (handle _ _ _); reflexivity.
Qed.

(* the whole tally *)
Lemma fold_done e l : forall s, s_done (fold_left (try_attestation e) l s) = rev (map a_claim (filter (ready e) l)) ++ s_done s.
Proof.
  induction l as [|a l IH]; intro s; cbn [fold_left filter]; [reflexivity|]. rewrite IH, try_ready. destruct (ready e a); [|reflexivity].
  rewrite observe_done. cbn [map rev]. rewrite <- app_assoc. reflexivity.
Qed.
Lemma tally_done e s : s_done (tally e s) = rev (map a_claim (filter (ready e) (by_nonce (map snd (s_atts s))))) ++ s_done s.
Proof. apply fold_done. Qed.

Lemma fold_atts e l : forall s, ksorted (s_atts s) -> NoDup (map (fun a => att_key (a_claim a)) l) ->
  ksorted (s_atts (fold_left (try_attestation e) l s)) /\
  forall k, kget (s_atts (fold_left (try_attestation e) l s)) k =
    match find (fun a => beqb k (att_key (a_claim a))) l with
    | Some a => if ready e a then Some (mark a) else kget (s_atts s) k
    | None => kget (s_atts s) k
    end.
Proof.
  induction l as [|a l IH]; intros s S N; cbn [fold_left find]; [auto|]. inversion N as [|? ? Na N']; subst.
  assert (S' : ksorted (s_atts (try_attestation e s a))).
  { rewrite try_ready. destruct (ready e a); [|exact S]. rewrite observe_atts. apply kset_sorted, S. }
  destruct (IH _ S' N') as [IS IG]. split; [exact IS|]. intro k. rewrite IG.
  destruct (beqb k (att_key (a_claim a))) eqn:B.
  - apply beqb_spec in B. subst k. destruct (find _ l) as [b|] eqn:F.
    + exfalso. apply find_some in F. destruct F as [I F]. apply beqb_spec in F. apply Na. rewrite F. apply in_map_iff. eauto.
    + rewrite try_ready. destruct (ready e a); [|reflexivity]. rewrite observe_atts, kget_kset, beqb_refl by exact S. reflexivity.
  - assert (kget (s_atts (try_attestation e s a)) k = kget (s_atts s) k) as ->; [|reflexivity].
    rewrite try_ready. destruct (ready e a); [|reflexivity]. rewrite observe_atts, kget_kset, B by exact S. reflexivity.
Qed.

Lemma keyed_nodup s : keyed s -> NoDup (map (fun a => att_key (a_claim a)) (map snd (s_atts s))).
Proof.
  intros [S K]. rewrite map_map. assert (E : map (fun x => att_key (a_claim (snd x))) (s_atts s) = map fst (s_atts s)).
  { apply map_ext_in. intros [k a] I. symmetry. apply (K k a I). }
  rewrite E. clear -S. unfold ksorted in S. induction S as [|[k a] l S IH F]; cbn; constructor; [|exact IH].
  intro I. apply in_map_iff in I. destruct I as ([k2 a2] & E & I). cbn in E. subst. rewrite Forall_forall in F. specialize (F _ I). exact (blt_irrefl _ F).
Qed.
Lemma by_nonce_nodup s : keyed s -> NoDup (map (fun a => att_key (a_claim a)) (by_nonce (map snd (s_atts s)))).
Proof. intro K. eapply Permutation_NoDup; [|apply keyed_nodup, K]. apply Permutation_map, Permutation_sym, by_nonce_perm. Qed.

Lemma tally_atts e s k : keyed s -> kget (s_atts (tally e s)) k = option_map (fun a => if ready e a then mark a else a) (kget (s_atts s) k).
Proof.
  intro K. pose proof (by_nonce_nodup s K) as N. destruct K as [S K]. destruct (fold_atts e _ s S N) as [_ G]. unfold Attest.tally. rewrite G. clear G.
  destruct (find _ _) as [a|] eqn:F.
  - apply find_some in F. destruct F as [I F]. apply beqb_spec in F. subst k. rewrite by_nonce_in in I. apply in_map_iff in I. destruct I as ([k b] & E & I). cbn in E. subst b.
    pose proof (K _ _ I). subst k. rewrite (proj2 (kget_in _ _ _ S) I). cbn [option_map]. destruct (ready e a); reflexivity.
  - destruct (kget (s_atts s) k) as [a|] eqn:G; [|reflexivity]. exfalso. apply (kget_in _ _ _ S) in G. pose proof (K _ _ G). subst k.
    assert (In a (by_nonce (map snd (s_atts s)))) as I by (apply by_nonce_in, in_map_iff; exists (att_key (a_claim a), a); auto).
    pose proof (find_none _ _ F a I) as X. cbv beta in X. rewrite beqb_refl in X. discriminate X.
Qed.

(* pruning *)
Lemma prune_loop_inv (P : st -> Prop) e last l :
  (forall s a, P s -> In a l -> claim_nonce (a_claim a) < last -> a_observed a = true ->
     P (store_nonce_observed app e (with_atts app s (kdel (s_atts s) (att_key (a_claim a)))) (claim_nonce (a_claim a)) (a_height a))) ->
  forall s, P s -> P (prune_loop e last l s).
Proof.
  induction l as [|a l IH]; intros H s X; cbn [Attest.prune_loop]; [exact X|].
  assert (IH' : forall s, P s -> P (prune_loop e last l s)) by (apply IH; intros s' b Ps I L O; apply H; [exact Ps|right; exact I|exact L|exact O]).
  destruct (_ && _) eqn:C; [|apply IH', X]. apply andb_prop in C. destruct C as [C1 C2]. apply Z.ltb_lt in C1.
  pose proof (H s a X (or_introl eq_refl) C1 C2) as Y.
  destruct (a_claim a); try (apply IH'; exact Y). destruct (forallb _ _); [apply IH'; exact Y|exact Y].
Qed.

Lemma prune_done e s : s_done (prune e s) = s_done s.
Proof.
  unfold Attest.prune. apply (prune_loop_inv (fun s' => s_done s' = s_done s)); [|reflexivity].
  intros s' a E _ _ _. unfold store_nonce_observed. destruct (_ <? _); exact E.
Qed.
Lemma prune_last e s : s_last (prune e s) = s_last s.
Proof.
  unfold Attest.prune. apply (prune_loop_inv (fun s' => s_last s' = s_last s)); [|reflexivity].
  intros s' a E _ _ _. unfold store_nonce_observed. destruct (_ <? _); exact E.
Qed.
Lemma prune_skipped e s : s_skipped (prune e s) = s_skipped s.
Proof.
  unfold Attest.prune. apply (prune_loop_inv (fun s' => s_skipped s' = s_skipped s)); [|reflexivity].
  intros s' a E _ _ _. unfold store_nonce_observed. destruct (_ <? _); exact E.
Qed.
(* only observed attestations older than the last event go *)
Lemma prune_atts e s : keyed s -> ksorted (s_atts (prune e s)) /\
  forall k, kget (s_atts (prune e s)) k = kget (s_atts s) k \/
    (kget (s_atts (prune e s)) k = None /\ exists a, kget (s_atts s) k = Some a /\ a_observed a = true /\ claim_nonce (a_claim a) < s_last s).
Proof.
  intros [S K]. unfold Attest.prune.
  apply (prune_loop_inv (fun s' => ksorted (s_atts s') /\ forall k, kget (s_atts s') k = kget (s_atts s) k \/
    (kget (s_atts s') k = None /\ exists a, kget (s_atts s) k = Some a /\ a_observed a = true /\ claim_nonce (a_claim a) < s_last s))); [|auto].
  intros s' a [S' G] I L O. rewrite by_nonce_in in I. apply in_map_iff in I. destruct I as ([k b] & E & I). cbn in E. subst b. pose proof (K _ _ I). subst k.
  assert (Q : s_atts (store_nonce_observed app e (with_atts app s' (kdel (s_atts s') (att_key (a_claim a)))) (claim_nonce (a_claim a)) (a_height a)) = kdel (s_atts s') (att_key (a_claim a))).
  { unfold store_nonce_observed. destruct (_ <? _); reflexivity. }
  rewrite Q. split; [apply kdel_sorted, S'|]. intro k. rewrite kget_kdel. destruct (beqb k (att_key (a_claim a))) eqn:B; [|apply G].
  apply beqb_spec in B. subst k. right. split; [reflexivity|]. exists a. split; [apply (kget_in _ _ _ S), I|]. auto.
Qed.
Lemma prune_nonces e s n : zget (s_nonces s) n <> None -> zget (s_nonces (prune e s)) n <> None.
Proof.
  intro H. unfold Attest.prune. apply (prune_loop_inv (fun s' => zget (s_nonces s') n <> None)); [|exact H].
  intros s' a E _ _ _. unfold store_nonce_observed. destruct (_ <? _); cbn [Attest.s_nonces with_nonces with_atts]; [exact E|]. rewrite zget_zset. destruct (n =? _); [discriminate|exact E].
Qed.

Lemma keyed_kget s : keyed s <-> ksorted (s_atts s) /\ forall k a, kget (s_atts s) k = Some a -> k = att_key (a_claim a).
Proof.
  unfold keyed. split; intros [S K]; (split; [exact S|]); intros k a H; apply K; [apply (kget_in _ _ _ S), H|apply (kget_in _ _ _ S), H].
Qed.
Lemma tally_sorted e s : keyed s -> ksorted (s_atts (tally e s)).
Proof. intro K. apply (fold_atts e); [apply K|apply by_nonce_nodup, K]. Qed.
Lemma tally_keyed e s : keyed s -> keyed (tally e s).
Proof.
  intro K. apply keyed_kget. split; [apply tally_sorted, K|]. intros k a G. rewrite tally_atts in G by exact K.
  destruct (kget (s_atts s) k) as [b|] eqn:E; [|discriminate G]. apply keyed_kget in K. destruct K as [S K]. apply K in E. cbn [option_map] in G.
  destruct (ready e b); injection G as <-; exact E.
Qed.
Lemma prune_keyed e s : keyed s -> keyed (prune e s).
Proof.
  intro K. destruct (prune_atts e s K) as [S G]. apply keyed_kget. split; [exact S|]. intros k a H. apply keyed_kget in K. destruct K as [_ K]. apply K.
  destruct (G k) as [E|[E _]]; congruence.
Qed.

(* what an accepted vote does *)
Definition old_att (e : env) (s : st) (c : claim) : att :=
  match kget (s_atts s) (att_key c) with Some a => a | None => {| a_observed := false; a_height := n_height e; a_claim := c; a_votes := [] |} end.
Lemma submit_ok e s c tx s' : submit e s c tx = Ok s' ->
  exists v, claim_valid bech32_ok c = true /\ n_validator e (claim_orch c) = Some v /\ n_is_bonded e v = true /\
    a_observed (old_att e s c) = false /\ nonce_already_observed app e s (claim_nonce c) = false /\
    (34800 < n_height e -> contains_vote (a_votes (old_att e s c)) v = false) /\
    s_atts s' = kset (s_atts s) (att_key c) {| a_observed := false; a_height := a_height (old_att e s c); a_claim := a_claim (old_att e s c); a_votes := a_votes (old_att e s c) ++ [vote_text v tx] |} /\
    s_done s' = s_done s /\ s_last s' = s_last s /\ s_nonces s' = s_nonces s /\ s_skipped s' = s_skipped s.
Proof.
  unfold Attest.submit. destruct (claim_valid bech32_ok c); cbn [negb]; [|discriminate]. destruct (n_validator e (claim_orch c)) as [v|]; [|discriminate].
  destruct (n_is_bonded e v) eqn:B; cbn [negb]; [|discriminate]. destruct (match c with CDeposit _ => _ | _ => _ end); cbn [negb]; [|discriminate].
  unfold Attest.attest. intro H. exists v.
  set (s1 := match kget (Attest.s_events app s) v with Some (n, h) => _ | None => _ end) in H.
  assert (E1 : s_atts s1 = s_atts s /\ s_done s1 = s_done s /\ s_last s1 = s_last s /\ s_nonces s1 = s_nonces s /\ s_skipped s1 = s_skipped s).
  { unfold s1. destruct (kget (Attest.s_events app s) v) as [[n h]|]; [destruct (_ && _)|]; cbn; auto. }
  clearbody s1. destruct E1 as (A & D & L & N & K). rewrite A in H. fold (old_att e s c) in H.
  assert (O : nonce_already_observed app e s1 (claim_nonce c) = nonce_already_observed app e s (claim_nonce c)) by (unfold nonce_already_observed; rewrite N; reflexivity).
  rewrite O in H. clear O.
  destruct (a_observed (old_att e s c)) eqn:Ob; [discriminate|]. destruct (nonce_already_observed app e s (claim_nonce c)) eqn:On; [discriminate|].
  destruct ((34800 <? n_height e) && contains_vote (a_votes (old_att e s c)) v) eqn:Cv; [discriminate|]. injection H as <-.
  repeat (split; [solve [auto]|]). split.
  { intro G. apply Z.ltb_lt in G. rewrite G in Cv. exact Cv. }
  repeat (split; [first [reflexivity | assumption]|]). assumption.
Qed.
Lemma submit_keyed e s c tx s' : keyed s -> submit e s c tx = Ok s' -> keyed s'.
Proof.
  intros K H. apply submit_ok in H. destruct H as (v & _ & _ & _ & _ & _ & _ & A & _). apply keyed_kget in K. destruct K as [S K]. apply keyed_kget.
  rewrite A. split; [apply kset_sorted, S|]. intros k a. rewrite kget_kset by exact S. destruct (beqb k (att_key c)) eqn:B; [|apply K].
  intro E. injection E as <-. cbn [a_claim]. apply beqb_spec in B. subst k. unfold old_att. destruct (kget (s_atts s) (att_key c)) eqn:G; [apply K, G|reflexivity].
Qed.

Lemma do_keyed s x : keyed s -> keyed (do s x).
Proof.
  intro K. destruct x as [e c tx|e| |]; cbn [Attest.do].
  - destruct (submit e s c tx) eqn:E; [|exact K|exact K]. eapply submit_keyed; eassumption.
  - apply prune_keyed, tally_keyed, K.
  - split; [constructor|intros k a []].
  - exact K.
Qed.
Lemma run_snoc s l x : run s (l ++ [x]) = do (run s l) x.
Proof. unfold Attest.run. rewrite fold_left_app. reflexivity. Qed.
Lemma fresh_keyed n a : keyed (fresh app n a).
Proof. split; [constructor|intros k b []]. Qed.
Lemma run_keyed n a l : keyed (run (fresh app n a) l).
Proof. induction l as [|x l IH] using rev_ind; [apply fresh_keyed|]. rewrite run_snoc. apply do_keyed, IH. Qed.

(* ---- who voted ---- *)
Lemma voted_more s0 l x v c : voted s0 l v c -> voted s0 (l ++ [x]) v c.
Proof. intros (l1 & e & tx & l2 & -> & H). exists l1, e, tx, (l2 ++ [x]). split; [rewrite <- app_assoc; reflexivity|exact H]. Qed.
Lemma voted_now s0 l e c tx v : n_validator e (claim_orch c) = Some v -> n_is_bonded e v = true -> is_ok (submit e (run s0 l) c tx) = true -> voted s0 (l ++ [Submit e c tx]) v c.
Proof. intros V B O. exists l, e, tx, []. auto. Qed.

(* every stored vote was cast, and for the key it is stored under *)
Definition genuine s0 l (s : st) : Prop := forall k a, kget (s_atts s) k = Some a ->
  forall x, In x (a_votes a) -> lacks colon (voter x) /\ (exists w tx, x = vote_text w tx /\ lacks colon w) /\ exists c, voted s0 l (voter x) c /\ att_key c = k.
Definition cast_once (s : st) : Prop := forall k a, kget (s_atts s) k = Some a -> NoDup (map voter (a_votes a)).

Lemma all_env_snoc P l x : all_env P (l ++ [x]) -> all_env P l /\ (forall e, step_env x = Some e -> P e).
Proof. intro H. split; [intros y e I; apply H; apply in_app_iff; left; exact I|intros e E; apply (H x e); [apply in_app_iff; right; left; reflexivity|exact E]]. Qed.
Lemma all_claims_snoc P l x : all_claims P (l ++ [x]) -> all_claims P l /\ (forall e c tx, x = Submit e c tx -> P c).
Proof.
  intro H. split.
  - intros e c tx I. apply (H e c tx). apply in_app_iff. left. exact I.
  - intros e c tx ->. apply (H e c tx). apply in_app_iff. right. left. reflexivity.
Qed.

Lemma mark_votes e b : a_votes (if ready e b then mark b else b) = a_votes b.
Proof. destruct (ready e b); reflexivity. Qed.
(* the end of a block only keeps, marks or removes *)
Lemma end_block_atts e s k a : keyed s -> kget (s_atts (prune e (tally e s))) k = Some a -> exists b, kget (s_atts s) k = Some b /\ a = (if ready e b then mark b else b).
Proof.
  intros K G. destruct (prune_atts e _ (tally_keyed e s K)) as [_ P]. destruct (P k) as [E|[E _]]; [|congruence]. rewrite E in G. rewrite tally_atts in G by exact K.
  destruct (kget (s_atts s) k) as [b|]; [|discriminate G]. exists b. split; [reflexivity|]. cbn in G. congruence.
Qed.

Lemma run_genuine s0 l : keyed s0 -> s_atts s0 = [] -> all_env env_ok l -> genuine s0 l (run s0 l).
Proof.
  intros K0 Z0. induction l as [|x l IH] using rev_ind; intro H.
  - intros k a G. cbn in G. rewrite Z0 in G. discriminate G.
  - apply all_env_snoc in H. destruct H as [H Hx]. specialize (IH H). rewrite run_snoc.
    assert (K : keyed (run s0 l)). { clear -K0. induction l as [|y l IH] using rev_ind; [exact K0|]. rewrite run_snoc. apply do_keyed, IH. }
    assert (Up : genuine s0 (l ++ [x]) (run s0 l)).
    { intros k a G y I. destruct (IH k a G y I) as (A & B & c & V & E). split; [exact A|]. split; [exact B|]. exists c. split; [apply voted_more, V|exact E]. }
    destruct x as [e c tx|e| |]; cbn [Attest.do].
    + destruct (submit e (run s0 l) c tx) as [s'| |] eqn:E; [|exact Up|exact Up].
      pose proof E as E0. apply submit_ok in E. destruct E as (v & Va & Vv & Vb & Ob & On & Cv & A & _).
      intros k a G y I. rewrite A, kget_kset in G by apply K. destruct (beqb k (att_key c)) eqn:B; [|exact (Up k a G y I)].
      apply beqb_spec in B. subst k. injection G as <-. cbn [a_votes] in I. apply in_app_iff in I. destruct I as [I|[<-|[]]].
      * unfold old_att in I. destruct (kget (s_atts (run s0 l)) (att_key c)) as [b|] eqn:G; [|destruct I]. exact (Up _ _ G y I).
      * assert (L : lacks colon v) by (apply (Hx e eq_refl _ _ Vv)). rewrite voter_text by exact L. split; [exact L|]. split; [eauto|].
        exists c. split; [|reflexivity]. apply voted_now; [exact Vv|exact Vb|rewrite E0; reflexivity].
    + intros k a G y I. apply end_block_atts in G; [|exact K]. destruct G as (b & G & ->). rewrite mark_votes in I. exact (Up k b G y I).
    + intros k a G. discriminate G.
    + exact Up.
Qed.

Lemma run_cast_once s0 l : keyed s0 -> s_atts s0 = [] -> all_env env_ok l -> all_env (fun e => 34800 < n_height e) l -> cast_once (run s0 l).
Proof.
  intros K0 Z0. induction l as [|x l IH] using rev_ind; intros H T.
  - intros k a G. cbn in G. rewrite Z0 in G. discriminate G.
  - pose proof H as H0. apply all_env_snoc in H. destruct H as [H Hx]. apply all_env_snoc in T. destruct T as [T Tx]. specialize (IH H T). rewrite run_snoc.
    assert (K : keyed (run s0 l)). { clear -K0. induction l as [|y l IH] using rev_ind; [exact K0|]. rewrite run_snoc. apply do_keyed, IH. }
    destruct x as [e c tx|e| |]; cbn [Attest.do].
    + destruct (submit e (run s0 l) c tx) as [s'| |] eqn:E; [|exact IH|exact IH].
      apply submit_ok in E. destruct E as (v & Va & Vv & Vb & Ob & On & Cv & A & _). specialize (Cv (Tx e eq_refl)).
      assert (L : lacks colon v) by (apply (Hx e eq_refl _ _ Vv)).
      intros k a G. rewrite A, kget_kset in G by apply K. destruct (beqb k (att_key c)) eqn:B; [|exact (IH k a G)].
      injection G as <-. cbn [a_votes]. rewrite map_app. cbn [map]. rewrite voter_text by exact L.
      assert (N : NoDup (map voter (a_votes (old_att e (run s0 l) c)))).
      { unfold old_att. destruct (kget (s_atts (run s0 l)) (att_key c)) as [b|] eqn:G; [exact (IH _ _ G)|constructor]. }
      assert (Nv : ~ In v (map voter (a_votes (old_att e (run s0 l) c)))).
      { intro I. apply in_map_iff in I. destruct I as (y & Y & I). unfold contains_vote in Cv.
        assert (existsb (has_prefix (v ++ [colon])) (a_votes (old_att e (run s0 l) c)) = true) as C; [|congruence].
        apply existsb_exists. exists y. split; [exact I|]. apply has_prefix_voter; [exact L| |exact Y].
        unfold old_att in I. destruct (kget (s_atts (run s0 l)) (att_key c)) as [b|] eqn:G; [|destruct I].
        destruct (run_genuine s0 l K0 Z0 H _ _ G y I) as (_ & X & _). exact X. }
      apply Permutation_NoDup with (l := v :: map voter (a_votes (old_att e (run s0 l) c))); [|constructor; assumption].
      apply Permutation_cons_append.
    + intros k a G. apply end_block_atts in G; [|exact K]. destruct G as (b & G & ->). rewrite mark_votes. exact (IH k b G).
    + intros k a G. discriminate G.
    + exact IH.
Qed.

(* a ready attestation has a quorum of distinct voters *)
Lemma ready_quorum s0 l e k a : keyed s0 -> s_atts s0 = [] -> all_env env_ok l -> all_env (fun e => 34800 < n_height e) l ->
  0 <= total_power e -> kget (s_atts (run s0 l)) k = Some a -> ready e a = true ->
  exists vs, NoDup vs /\ quorum e vs /\ forall v, In v vs -> exists c, voted s0 l v c /\ att_key c = k.
Proof.
  intros K Z H T P G R. unfold ready in R. apply andb_prop in R. destruct R as [_ R]. apply reached_prefix in R. destruct R as (p & r & E & _ & S).
  exists (map voter p). pose proof (run_cast_once s0 l K Z H T _ _ G) as N. rewrite E, map_app in N. split; [|split].
  - clear -N. induction (map voter p) as [|v vs IH]; [constructor|]. cbn in N. inversion N; subst. constructor; [|apply IH; assumption].
    intro I. apply H1. apply in_app_iff. left. exact I.
  - unfold quorum. rewrite <- total_power_counted. apply required_spec; [exact P|]. lia.
  - intros v I. apply in_map_iff in I. destruct I as (x & <- & I). apply (run_genuine s0 l K Z H _ _ G). rewrite E. apply in_app_iff. left. exact I.
Qed.

(* the claims executed by a step *)
Lemma end_block_done e s : keyed s -> exists new, s_done (do s (EndBlock e)) = new ++ s_done s /\
  forall c, In c new -> exists k a, kget (s_atts s) k = Some a /\ ready e a = true /\ a_claim a = c /\ k = att_key c.
Proof.
  intro K. cbn [Attest.do]. rewrite prune_done, tally_done. eexists. split; [reflexivity|]. intros c I. apply in_rev in I. apply in_map_iff in I.
  destruct I as (a & <- & I). apply filter_In in I. destruct I as [I R]. rewrite by_nonce_in in I. apply in_map_iff in I. destruct I as ([k b] & E & I). cbn in E. subst b.
  exists k, a. destruct K as [S K]. split; [apply (kget_in _ _ _ S), I|]. split; [exact R|]. split; [reflexivity|]. apply K, I.
Qed.
Lemma submit_done s e c tx : s_done (do s (Submit e c tx)) = s_done s.
Proof. cbn [Attest.do]. destruct (submit e s c tx) eqn:E; [|reflexivity|reflexivity]. apply submit_ok in E. destruct E as (v & E). tauto. Qed.
Lemma run_fresh_sub s0 l : keyed s0 -> keyed (run s0 l).
Proof. intro K. induction l as [|y l IH] using rev_ind; [exact K|]. rewrite run_snoc. apply do_keyed, IH. Qed.

(* ---- each claim once ---- *)
Definition once (s : st) : Prop :=
  NoDup (map att_key (s_done s)) /\
  (forall c, In c (s_done s) -> zget (s_nonces s) (claim_nonce c) <> None /\ u64 (claim_nonce c)) /\
  (forall k a, kget (s_atts s) k = Some a -> u64 (claim_nonce (a_claim a)) /\ (a_observed a = false -> ~ In k (map att_key (s_done s)))).

Lemma fold_nonces e l n : forall s, n_height e >= 244300 ->
  (zget (s_nonces s) n <> None \/ exists a, In a l /\ ready e a = true /\ claim_nonce (a_claim a) = n) ->
  zget (s_nonces (fold_left (try_attestation e) l s)) n <> None.
Proof.
  induction l as [|a l IH]; intros s Hh D; cbn [fold_left].
  - destruct D as [D|(a & [] & _)]; exact D.
  - apply IH; [exact Hh|]. rewrite try_ready. destruct D as [D|(b & [->|I] & R & E)].
    + left. destruct (ready e a); [|exact D]. rewrite observe_nonces. destruct (n_height e <? 244300); [exact D|]. rewrite zget_zset. destruct (n =? _); [discriminate|exact D].
    + left. rewrite R, observe_nonces. assert (n_height e <? 244300 = false) as -> by (apply Z.ltb_ge; lia). rewrite zget_zset, E, Z.eqb_refl. discriminate.
    + right. eauto.
Qed.

Lemma nodup_app_intro {A} (a b : list A) : NoDup a -> NoDup b -> (forall x, In x a -> ~ In x b) -> NoDup (a ++ b).
Proof.
  induction a as [|x a IH]; intros Na Nb D; [exact Nb|]. inversion Na; subst. cbn. constructor.
  - intro I. apply in_app_iff in I. destruct I as [I|I]; [contradiction|]. exact (D x (or_introl eq_refl) I).
  - apply IH; [assumption|exact Nb|]. intros y Y. apply D. right. exact Y.
Qed.
Lemma nodup_map_filter {A B} (f : A -> B) p l : NoDup (map f l) -> NoDup (map f (filter p l)).
Proof.
  induction l as [|x l IH]; intro N; [exact N|]. cbn [map] in N. inversion N; subst. cbn [filter]. destruct (p x); [|apply IH; assumption].
  cbn [map]. constructor; [|apply IH; assumption]. intro I. apply H1. apply in_map_iff in I. destruct I as (y & E & I). apply in_map_iff. exists y. split; [exact E|].
  apply filter_In in I. tauto.
Qed.

Lemma end_block_once e s : keyed s -> n_height e >= 244300 -> once s -> once (do s (EndBlock e)).
Proof.
  intros K Hh (N & D & A). cbn [Attest.do]. set (t := tally e s). set (new := filter (ready e) (by_nonce (map snd (s_atts s)))).
  assert (Dt : s_done t = rev (map a_claim new) ++ s_done s) by apply tally_done.
  assert (New : forall a, In a new <-> kget (s_atts s) (att_key (a_claim a)) = Some a /\ ready e a = true).
  { intro a. unfold new. rewrite filter_In, by_nonce_in, in_map_iff. split.
    - intros [([k b] & E & I) R]. cbn in E. subst b. destruct K as [S K]. pose proof (K _ _ I). subst k. split; [apply (kget_in _ _ _ S), I|exact R].
    - intros [G R]. split; [|exact R]. exists (att_key (a_claim a), a). split; [reflexivity|]. apply kget_in; [apply K|exact G]. }
  assert (Kt : keyed t) by apply tally_keyed, K.
  assert (Keys : forall k, In k (map att_key (s_done t)) <-> (exists a, In a new /\ k = att_key (a_claim a)) \/ In k (map att_key (s_done s))).
  { intro k. rewrite Dt, map_app, in_app_iff, map_rev, <- in_rev, map_map, in_map_iff. split; intros [X|X]; auto; left; destruct X as (a & X & Y); eauto. }
  unfold once. rewrite prune_done. split; [|split].
  - rewrite Dt, map_app. apply nodup_app_intro; [|exact N|].
    + rewrite map_rev. apply NoDup_rev. rewrite map_map. unfold new. apply nodup_map_filter, by_nonce_nodup, K.
    + intros k I. rewrite map_rev, <- in_rev, map_map, in_map_iff in I. destruct I as (a & <- & I). apply New in I. destruct I as [G R].
      apply (A _ _ G). unfold ready in R. apply andb_prop in R. destruct R as [R _]. apply negb_true_iff in R. exact R.
  - intros c I. rewrite Dt in I. apply in_app_iff in I. destruct I as [I|I].
    + rewrite <- in_rev, in_map_iff in I. destruct I as (a & <- & I). pose proof I as I0. apply New in I. destruct I as [G R]. split; [|apply (A _ _ G)].
      apply prune_nonces. unfold t, Attest.tally. apply fold_nonces; [exact Hh|]. right. exists a. split; [unfold new in I0; apply filter_In in I0; tauto|]. auto.
    + destruct (D c I) as [X U]. split; [|exact U]. apply prune_nonces. unfold t, Attest.tally. apply fold_nonces; [exact Hh|]. left. exact X.
  - intros k a G. apply end_block_atts in G; [|exact K]. destruct G as (b & G & ->).
    split; [destruct (ready e b); exact (proj1 (A _ _ G))|]. intro O. destruct (ready e b) eqn:R; [discriminate O|].
    intro I. apply Keys in I. destruct I as [(a & I & ->)|I]; [|exact (proj2 (A _ _ G) O I)].
    apply New in I. destruct I as [G2 R2]. rewrite G in G2. injection G2 as ->. congruence.
Qed.

Lemma submit_once e s c tx s' : keyed s -> n_height e >= 244300 -> u64 (claim_nonce c) -> once s -> submit e s c tx = Ok s' -> once s'.
Proof.
  intros K Hh U (N & D & A) E. apply submit_ok in E. destruct E as (v & _ & _ & _ & Ob & On & _ & At & Dn & _ & Nn & _).
  unfold nonce_already_observed in On. assert (n_height e <? 244300 = false) as X by (apply Z.ltb_ge; lia). rewrite X in On.
  assert (O : zget (s_nonces s) (claim_nonce c) = None) by (destruct (zget (s_nonces s) (claim_nonce c)); [discriminate On|reflexivity]).
  unfold once. rewrite Dn, Nn. split; [exact N|]. split; [exact D|]. intros k a G. rewrite At, kget_kset in G by apply K.
  destruct (beqb k (att_key c)) eqn:B; [|exact (A k a G)]. apply beqb_spec in B. subst k. injection G as <-. cbn [a_claim a_observed].
  assert (Ua : u64 (claim_nonce (a_claim (old_att e s c)))).
  { unfold old_att. destruct (kget (s_atts s) (att_key c)) eqn:G; [exact (proj1 (A _ _ G))|exact U]. }
  split; [exact Ua|]. intros _ I. apply in_map_iff in I. destruct I as (d & E & I). destruct (D d I) as [X1 X2]. apply att_key_inj in E; [|exact X2|exact U]. destruct E as [E _]. congruence.
Qed.

Lemma run_once n a l : all_env (fun e => n_height e >= 244300) l -> all_claims (fun c => u64 (claim_nonce c)) l -> no_clean l -> once (run (fresh app n a) l).
Proof.
  induction l as [|x l IH] using rev_ind; intros H C Nc.
  - split; [constructor|]. split; [intros c []|intros k b G; discriminate G].
  - apply all_env_snoc in H. destruct H as [H Hx]. apply all_claims_snoc in C. destruct C as [C Cx].
    assert (Nl : no_clean l) by (destruct Nc as [N1 N2]; split; intro I; [apply N1|apply N2]; apply in_app_iff; left; exact I).
    specialize (IH H C Nl). rewrite run_snoc. pose proof (run_keyed n a l) as K. destruct x as [e c tx|e| |].
    + cbn [Attest.do]. destruct (submit e (run (fresh app n a) l) c tx) as [s'| |] eqn:E; [|exact IH|exact IH].
      eapply submit_once; [exact K|exact (Hx e eq_refl)|eapply Cx; reflexivity|exact IH|exact E].
    + apply end_block_once; [exact K|exact (Hx e eq_refl)|exact IH].
    + exfalso. apply (proj1 Nc), in_app_iff. right. left. reflexivity.
    + exfalso. apply (proj2 Nc), in_app_iff. right. left. reflexivity.
Qed.

(* ---- skipped nonces ---- *)
Definition skip_ok (n0 : Z) (s : st) : Prop :=
  n0 <= s_last s < 2 ^ 64 - 1 /\ (forall c, In c (s_done s) -> claim_nonce c <= s_last s) /\
  (forall n, zget (s_skipped s) n <> None <-> n0 < n < s_last s /\ ~ In n (map claim_nonce (s_done s))) /\
  (n0 < s_last s -> In (s_last s) (map claim_nonce (s_done s))) /\
  (forall k a, kget (s_atts s) k = Some a -> 0 <= claim_nonce (a_claim a) < 2 ^ 64 - 1).

Lemma observe_skip n0 e s a : 0 <= n0 -> ksorted (s_atts s) -> 0 <= claim_nonce (a_claim a) < 2 ^ 64 - 1 -> skip_ok n0 s -> skip_ok n0 (observe e s a).
Proof.
  intros H0 So U (L & D & S & T & A). set (n := claim_nonce (a_claim a)) in *.
  unfold skip_ok. rewrite observe_last, observe_done, observe_skipped, observe_atts. fold n. split; [lia|]. split; [|split; [|split]].
  - intros c [<-|I]; [fold n; lia|]. specialize (D c I). lia.
  - intro k. rewrite zget_zdel, zget_fold. cbn [map In]. fold n.
    destruct (Z.eqb_spec k n) as [E|E]; [split; [congruence|intros [_ X]; exfalso; apply X; left; congruence]|].
    destruct (existsb (Z.eqb k) (skip_range (s_last s) n)) eqn:X.
    + apply existsb_exists in X. destruct X as (y & Y & X). apply Z.eqb_eq in X. subst y. apply in_skip_range in Y; [|lia|lia].
      split; [|discriminate]. intros _. split; [lia|]. intros [I|I]; [congruence|]. apply in_map_iff in I. destruct I as (c & Ec & I). specialize (D c I). lia.
    + assert (NI : ~ (s_last s < k < n)).
      { intro I. apply in_skip_range in I; [|lia|lia]. assert (existsb (Z.eqb k) (skip_range (s_last s) n) = true) as Y; [|congruence].
        apply existsb_exists. exists k. split; [exact I|apply Z.eqb_refl]. }
      rewrite S. split.
      * intros [B1 B2]. split; [lia|]. intros [I|I]; [congruence|contradiction].
      * intros [B1 B2]. split; [|intro I; apply B2; right; exact I].
        destruct (Z.eq_dec k (s_last s)) as [Ek|Ek]; [|lia]. exfalso. apply B2. right. rewrite Ek. apply T. lia.
  - intro B. cbn [map]. fold n. destruct (Z.max_spec (s_last s) n) as [[M ->]|[M ->]]; [left; reflexivity|right; apply T; lia].
  - intros k b G. rewrite kget_kset in G by exact So. destruct (beqb k (att_key (a_claim a))); [injection G as <-; exact U|exact (A k b G)].
Qed.

Lemma fold_skip n0 e l : 0 <= n0 -> (forall a, In a l -> 0 <= claim_nonce (a_claim a) < 2 ^ 64 - 1) -> forall s, ksorted (s_atts s) -> skip_ok n0 s ->
  skip_ok n0 (fold_left (try_attestation e) l s).
Proof.
  intro H0. induction l as [|a l IH]; intros U s S X; cbn [fold_left]; [exact X|].
  apply IH; [intros b B; apply U; right; exact B| |]; rewrite try_ready; destruct (ready e a); try assumption.
  - rewrite observe_atts. apply kset_sorted, S.
  - apply observe_skip; [exact H0|exact S|apply U; left; reflexivity|exact X].
Qed.

Lemma do_skip n0 s x : 0 <= n0 -> keyed s -> (forall e c tx, x = Submit e c tx -> 0 <= claim_nonce c < 2 ^ 64 - 1) -> skip_ok n0 s -> skip_ok n0 (do s x).
Proof.
  intros H0 K C X. destruct x as [e c tx|e| |]; cbn [Attest.do].
  - destruct (submit e s c tx) as [s'| |] eqn:E; [|exact X|exact X]. apply submit_ok in E. destruct E as (v & _ & _ & _ & _ & _ & _ & At & Dn & Ln & _ & Sn).
    destruct X as (L & D & S & T & A). unfold skip_ok. rewrite Dn, Ln, Sn. repeat (split; [assumption|]). intros k a G. rewrite At, kget_kset in G by apply K.
    destruct (beqb k (att_key c)); [|exact (A k a G)]. injection G as <-. cbn [a_claim]. unfold old_att. destruct (kget (s_atts s) (att_key c)) eqn:F; [exact (A _ _ F)|eapply C; reflexivity].
  - assert (Y : skip_ok n0 (tally e s)).
    { unfold Attest.tally. apply fold_skip; [exact H0| |apply K|exact X]. intros a I. rewrite by_nonce_in in I. apply in_map_iff in I. destruct I as ([k b] & E & I). cbn in E. subst b.
      destruct X as (_ & _ & _ & _ & A). eapply A. apply kget_in; [apply K|exact I]. }
    destruct Y as (L & D & S & T & A). unfold skip_ok. rewrite prune_done, prune_last, prune_skipped. repeat (split; [assumption|]). intros k a G.
    destruct (prune_atts e _ (tally_keyed e s K)) as [_ P]. destruct (P k) as [E|[E _]]; [|congruence]. apply (A k a). congruence.
  - destruct X as (L & D & S & T & A). repeat (split; [assumption|]). intros k a G. discriminate G.
  - exact X.
Qed.
Lemma run_skip n0 a l : 0 <= n0 < 2 ^ 64 - 1 -> all_claims (fun c => 0 <= claim_nonce c < 2 ^ 64 - 1) l -> skip_ok n0 (run (fresh app n0 a) l).
Proof.
  intro H0. induction l as [|x l IH] using rev_ind; intro C.
  - unfold skip_ok. cbn. split; [lia|]. split; [intros c []|]. split; [intro n; split; [congruence|lia]|]. split; [lia|]. intros k b G. discriminate G.
  - apply all_claims_snoc in C. destruct C as [C Cx]. rewrite run_snoc. apply do_skip; [lia|apply run_keyed|exact Cx|apply IH, C].
Qed.

(* the stored claim is the claim of its first voter *)
Lemma run_first s0 l : keyed s0 -> s_atts s0 = [] -> forall k a, kget (s_atts (run s0 l)) k = Some a -> exists v, voted s0 l v (a_claim a).
Proof.
  intros K0 Z0. induction l as [|x l IH] using rev_ind; intros k a G.
  - cbn in G. rewrite Z0 in G. discriminate G.
  - rewrite run_snoc in G. assert (Up : forall k a, kget (s_atts (run s0 l)) k = Some a -> exists v, voted s0 (l ++ [x]) v (a_claim a)).
    { intros k' a' G'. destruct (IH k' a' G') as [v V]. exists v. apply voted_more, V. }
    pose proof (run_fresh_sub s0 l K0) as K.
    destruct x as [e c tx|e| |]; cbn [Attest.do] in G.
    + destruct (submit e (run s0 l) c tx) as [s'| |] eqn:E; [|eapply Up, G|eapply Up, G].
      pose proof E as E0. apply submit_ok in E. destruct E as (v & Va & Vv & Vb & Ob & On & Cv & A & _).
      rewrite A, kget_kset in G by apply K. destruct (beqb k (att_key c)) eqn:B; [|exact (Up k a G)]. injection G as <-. cbn [a_claim].
      unfold old_att. destruct (kget (s_atts (run s0 l)) (att_key c)) as [b|] eqn:G; [exact (Up _ _ G)|]. cbn [a_claim]. exists v.
      apply voted_now; [exact Vv|exact Vb|rewrite E0; reflexivity].
    + apply end_block_atts in G; [|exact K]. destruct G as (b & G & ->). destruct (Up _ _ G) as [v V]. exists v. destruct (ready e b); exact V.
    + discriminate G.
    + exact (Up _ _ G).
Qed.
Lemma voted_valid s0 l v c : voted s0 l v c -> claim_valid bech32_ok c = true.
Proof. intros (l1 & e & tx & l2 & _ & _ & _ & O). destruct (submit e (run s0 l1) c tx) eqn:E; [|discriminate O|discriminate O]. apply submit_ok in E. destruct E as (w & V & _). exact V. Qed.
Lemma voted_in s0 l v c : voted s0 l v c -> exists e tx, In (Submit e c tx) l /\ n_validator e (claim_orch c) = Some v /\ n_is_bonded e v = true.
Proof. intros (l1 & e & tx & l2 & -> & V & B & _). exists e, tx. split; [apply in_app_iff; right; left; reflexivity|auto]. Qed.

(* an accepted vote stays until its claim is executed *)
Definition held (s : st) v k : Prop := In k (map att_key (s_done s)) \/ exists a, kget (s_atts s) k = Some a /\ a_observed a = false /\ In v (map voter (a_votes a)).
Lemma voted_snoc s0 l x v c : voted s0 (l ++ [x]) v c -> voted s0 l v c \/ exists e tx, x = Submit e c tx /\ n_validator e (claim_orch c) = Some v /\ n_is_bonded e v = true /\ is_ok (submit e (run s0 l) c tx) = true.
Proof.
  intros (l1 & e & tx & l2 & E & V & B & O). destruct l2 as [|y l2 _] using rev_ind.
  - apply app_inj_tail in E. destruct E as [-> ->]. right. exists e, tx. auto.
  - rewrite app_comm_cons, app_assoc in E. apply app_inj_tail in E. destruct E as [-> ->]. left. exists l1, e, tx, l2. auto.
Qed.
Lemma run_held s0 l : keyed s0 -> all_env env_ok l -> ~ In Clean l -> forall v c, voted s0 l v c -> held (run s0 l) v (att_key c).
Proof.
  intro K0. induction l as [|x l IH] using rev_ind; intros H Nc v c V.
  - destruct V as (l1 & e & tx & l2 & E & _). destruct l1; discriminate E.
  - apply all_env_snoc in H. destruct H as [H Hx].
    assert (Nl : ~ In Clean l) by (intro I; apply Nc, in_app_iff; left; exact I). specialize (IH H Nl).
    pose proof (run_fresh_sub s0 l K0) as K. rewrite run_snoc.
    assert (Step : forall v' c', voted s0 l v' c' -> held (do (run s0 l) x) v' (att_key c')).
    { intros w d W. specialize (IH w d W). set (k := att_key d) in *. clearbody k. clear W. destruct x as [e c' tx|e| |]; cbn [Attest.do].
      - destruct (submit e (run s0 l) c' tx) as [s'| |] eqn:E; [|exact IH|exact IH]. apply submit_ok in E. destruct E as (u & _ & _ & _ & Ob & _ & _ & A & D & _).
        destruct IH as [I|(a & G & O & I)]; [left; rewrite D; exact I|]. right. rewrite A. destruct (beqb k (att_key c')) eqn:B.
        + apply beqb_spec in B. subst k. eexists. rewrite kget_kset, beqb_refl by apply K. split; [reflexivity|]. cbn [a_observed a_votes]. split; [reflexivity|].
          rewrite map_app. apply in_app_iff. left. unfold old_att. rewrite G. exact I.
        + exists a. rewrite kget_kset, B by apply K. auto.
      - destruct (end_block_done e (run s0 l) K) as (new & Dn & New).
        destruct IH as [I|(a & G & O & I)]; [left; rewrite prune_done, tally_done, map_app, in_app_iff; right; exact I|].
        pose proof (tally_atts e _ k K) as T. rewrite G in T. cbn [option_map] in T. destruct (ready e a) eqn:R.
        + left. rewrite prune_done, tally_done, map_app, in_app_iff. left. rewrite map_rev, <- in_rev, map_map, in_map_iff. exists a.
          apply kget_in in G; [|apply K]. split; [symmetry; apply (proj2 K _ _ G)|]. apply filter_In. split; [|exact R]. rewrite by_nonce_in. apply in_map_iff. exists (k, a). auto.
        + right. exists a. split; [|auto]. destruct (prune_atts e _ (tally_keyed e _ K)) as [_ P]. destruct (P k) as [E|[_ (b & E & Ob & _)]]; congruence.
      - exfalso. apply Nc, in_app_iff. right. left. reflexivity.
      - exact IH. }
    apply voted_snoc in V. destruct V as [V|(e & tx & -> & V & B & O)]; [apply Step, V|].
    cbn [Attest.do]. destruct (submit e (run s0 l) c tx) as [s'| |] eqn:E; [|discriminate O|discriminate O]. apply submit_ok in E.
    destruct E as (u & _ & Vu & _ & Ob & _ & _ & A & D & _). right. eexists. rewrite A, kget_kset, beqb_refl by apply K. split; [reflexivity|]. cbn [a_observed a_votes].
    split; [reflexivity|]. rewrite map_app. apply in_app_iff. right. cbn [map]. left. rewrite V in Vu. injection Vu as <-. apply voter_text. apply (Hx e eq_refl _ _ V).
Qed.

(* every execution had a quorum of the fixed validator set *)
Lemma run_quorums n a0 e0 l : all_env env_ok l -> all_env (fun e => 34800 < n_height e) l -> all_env (same_staking e0) l -> 0 <= total_power e0 ->
  forall c, In c (s_done (run (fresh app n a0) l)) -> exists vs, NoDup vs /\ quorum e0 vs /\ forall v, In v vs -> exists c', voted (fresh app n a0) l v c' /\ att_key c' = att_key c.
Proof.
  induction l as [|x l IH] using rev_ind; intros H T S P c I; [destruct I|].
  apply all_env_snoc in H. destruct H as [H Hx]. apply all_env_snoc in T. destruct T as [T Tx]. apply all_env_snoc in S. destruct S as [S Sx]. specialize (IH H T S P).
  assert (Up : In c (s_done (run (fresh app n a0) l)) -> exists vs, NoDup vs /\ quorum e0 vs /\ forall v, In v vs -> exists c', voted (fresh app n a0) (l ++ [x]) v c' /\ att_key c' = att_key c).
  { intro J. destruct (IH c J) as (vs & N & Q & V). exists vs. split; [exact N|]. split; [exact Q|]. intros v Iv. destruct (V v Iv) as (c' & W & E). exists c'. split; [apply voted_more, W|exact E]. }
  rewrite run_snoc in I. pose proof (run_keyed n a0 l) as K. destruct x as [e d tx|e| |].
  - rewrite submit_done in I. apply Up, I.
  - destruct (end_block_done e _ K) as (new & E & New). rewrite E in I. apply in_app_iff in I. destruct I as [I|I]; [|apply Up, I].
    destruct (New c I) as (k & a & G & R & <- & ->). destruct (Sx e eq_refl) as (S1 & S2 & S3 & _).
    assert (Tp : total_power e = total_power e0) by (unfold total_power; rewrite S1, S2, S3; reflexivity).
    destruct (ready_quorum (fresh app n a0) l e _ a (fresh_keyed n a0) eq_refl H T ltac:(lia) G R) as (vs & N & Q & V).
    exists vs. split; [exact N|]. split.
    + unfold quorum, counted, sum_power in *. rewrite S1, S2, S3. exact Q.
    + intros v Iv. destruct (V v Iv) as (c' & W & Ec). exists c'. split; [apply voted_more, W|exact Ec].
  - apply Up, I.
  - apply Up, I.
Qed.
End Facts.
