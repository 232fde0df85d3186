(* C103: what eth_feeHistory says about the blocks. *)
From Coq Require Import Sorting.Permutation.
From Verif Require Import Lib.Base Rpc.Fees Rpc.FeesSpec Rpc.FeesProofs.
Open Scope Z_scope.

(* The rewards of a block are the least tips up to which the asked shares of its gas were used, in whatever order equal tips
   are sorted. *)
Theorem C103_rewards_of_a_block l sorted_l thrs : l <> [] -> Permutation l sorted_l -> sorted sorted_l ->
  Forall (fun x => 0 <= fst x) l -> ascending thrs ->
  Forall2 (quantile l) thrs (rewards sorted_l thrs) /\ rewards sorted_l thrs = rewards (sort l) thrs.
Proof.
  intros Ne Pm So Nn As.
  assert (X : forall s, Permutation l s -> sorted s -> Forall2 (quantile l) thrs (rewards s thrs)).
  { intros s Ps Ss. assert (Q : Forall2 (quantile s) thrs (rewards s thrs)).
    { apply rewards_quantiles; [|exact Ss|eapply Permutation_Forall; eauto|exact As].
      intros ->. apply Permutation_sym, Permutation_nil in Ps. contradiction. }
    clear -Q Ps. induction Q as [|a b la lb H _ IH]; constructor; auto. eapply quantile_perm; [symmetry; exact Ps|exact H]. }
  split; [now apply X|]. assert (A := X _ Pm So). assert (B := X _ (sort_perm l) (sort_sorted l)).
  revert A B. generalize (rewards sorted_l thrs), (rewards (sort l) thrs). clear. intros a b A. revert b.
  induction A as [|t x ts xs H _ IH]; intros b B; inversion B; subst; [reflexivity|]. f_equal; [eapply quantile_unique; eauto|auto].
Qed.
Print Assumptions C103_rewards_of_a_block.

Section Props.
Variables F P : Type.
Variable ratio : Z -> Z -> F.
Variable threshold : Z -> P -> Z.
Variable cap : Z.
Hypothesis cap_small : 0 <= cap < 2 ^ 31.        (* an int32 of the configuration *)
Let node := node F.
Let event := event P.
Let run := run F P ratio threshold cap.
Let fee_history := fee_history F P ratio threshold cap.
Let step := step F P ratio threshold cap.
Let entry := entry F.

(* a cached entry is about its block; its rewards are those of percentiles that somebody asked for, its next fee that of the
   newest block when it was made *)
Definition true_entry (allowed : list P -> Prop) (n : node) (id : Z) (e : entry) : Prop :=
  exists b ps, allowed ps /\ block_at F n id = Some b /\ e_fee F e = b_fee b /\ e_ratio F e = ratio (b_used b) (b_limit b) /\
    e_rewards F e = rewards (sort (offers b)) (map (threshold (b_used b)) ps) /\
    exists h hb, id <= h <= head F n /\ block_at F n h = Some hb /\ e_next F e = b_fee hb.
Definition truthful (allowed : list P -> Prop) (n : node) (c : list (Z * entry)) : Prop :=
  forall id e, In (id, e) c -> true_entry allowed n id e.

Lemma block_at_range n id b : block_at F n id = Some b -> (if id =? 0 then 1 else id) <= head F n /\ 0 <= id.
Proof.
  unfold block_at. set (h := if id =? 0 then 1 else id). destruct (Z.leb_spec 1 h) as [L|L]; cbn [andb]; [|discriminate].
  destruct (Z.leb_spec h (head F n)) as [L'|L']; [|discriminate]. intros _. split; [exact L'|]. unfold h in L. destruct (Z.eqb_spec id 0); lia.
Qed.
Lemma block_grows n b id x : block_at F n id = Some x -> block_at F (Node F (n_blocks F n ++ [b]) (n_cache F n)) id = Some x.
Proof.
  unfold block_at, head. cbn [n_blocks]. set (h := if id =? 0 then 1 else id). rewrite app_length. cbn [length].
  destruct (Z.leb_spec 1 h) as [L|L]; cbn [andb]; [|discriminate].
  destruct (Z.leb_spec h (Z.of_nat (length (n_blocks F n)))) as [L'|L']; [|discriminate].
  destruct (Z.leb_spec h (Z.of_nat (length (n_blocks F n) + 1))) as [L''|L'']; [|lia]. intros E. rewrite nth_error_app1; [exact E|lia].
Qed.
Lemma true_grows al n b id e : true_entry al n id e -> true_entry al (Node F (n_blocks F n ++ [b]) (n_cache F n)) id e.
Proof.
  intros (x & ps & A & Bk & E1 & E2 & E3 & h & hb & Hh & Hb & En). exists x, ps. split; [exact A|]. split; [now apply block_grows|].
  split; [exact E1|]. split; [exact E2|]. split; [exact E3|]. exists h, hb. split; [|split; [now apply block_grows|exact En]].
  unfold head in *. cbn [n_blocks]. rewrite app_length. lia.
Qed.
Lemma true_cache al n c id e : true_entry al n id e <-> true_entry al (Node F (n_blocks F n) c) id e.
Proof. reflexivity. Qed.

Lemma cached_in id c e : cached F id c = Some e -> In (id, e) c.
Proof.
  unfold cached. destruct (find _ c) as [[i x]|] eqn:Fd; [|discriminate]. intros [= <-]. apply find_some in Fd.
  destruct Fd as [I' E]. cbn in E. apply Z.eqb_eq in E. now subst.
Qed.
Lemma process_true (al : list P -> Prop) n id b ps e : al ps -> block_at F n id = Some b -> process F P ratio threshold n b ps = Ok e ->
  true_entry al n id e /\ e_rewards F e = rewards (sort (offers b)) (map (threshold (b_used b)) ps).
Proof.
  intros A Bk. unfold process. destruct (b_limit b <=? 0); [discriminate|].
  destruct (block_at F n (head F n)) as [hb|] eqn:Hb; [|discriminate]. intros [= <-]. split; [|reflexivity].
  exists b, ps. repeat (split; [first [exact A|exact Bk|reflexivity]|]). exists (head F n), hb. split; [|auto].
  apply block_at_range in Bk. destruct (Z.eqb_spec id 0); lia.
Qed.
Lemma collect_true (al : list P -> Prop) n ps : al ps -> forall ids c r c', truthful al n c ->
  collect F P ratio threshold n ps ids c = (r, c') ->
  truthful al n c' /\ (forall es, r = Some es -> Forall2 (true_entry al n) ids es) /\
  (forall id e, In (id, e) c' -> In (id, e) c \/ In id ids).
Proof.
  intros A ids. induction ids as [|id ids IH]; intros c r c' T; cbn [collect].
  - intros [= <- <-]. split; [exact T|]. split; [|auto]. intros es [= <-]. constructor.
  - destruct (cached F id c) as [e|] eqn:Ca.
    + destruct (collect F P ratio threshold n ps ids c) as [r0 c0] eqn:Co. intros [= <- <-].
      destruct (IH _ _ _ T Co) as (T' & Es & In'). split; [exact T'|]. split.
      * intros es. destruct r0 as [es0|]; [|discriminate]. intros [= <-]. constructor; [|now apply Es]. apply T. now apply cached_in.
      * intros i x Hi. apply In' in Hi. cbn [In]. tauto.
    + destruct (block_at F n id) as [b|] eqn:Bk; [|intros [= <- <-]; split; [exact T|split; [discriminate|auto]]].
      destruct (process F P ratio threshold n b ps) as [e| |] eqn:Pr;
        [|intros [= <- <-]; split; [exact T|split; [discriminate|auto]]..].
      destruct (collect F P ratio threshold n ps ids ((id, e) :: c)) as [r0 c0] eqn:Co. intros [= <- <-].
      destruct (process_true al n id b ps e A Bk Pr) as [Te _].
      assert (T1 : truthful al n ((id, e) :: c)). { intros i x [Q|Q]; [inversion Q; now subst|now apply T]. }
      destruct (IH _ _ _ T1 Co) as (T' & Es & In'). split; [exact T'|]. split.
      * intros es. destruct r0 as [es0|]; [|discriminate]. intros [= <-]. constructor; [exact Te|now apply Es].
      * intros i x Hi. apply In' in Hi. cbn [In] in *. destruct Hi as [[Q|Q]|Q]; [inversion Q; auto|auto|auto].
Qed.

(* what a history asked *)
Definition asks_only (al : list P -> Prop) (evs : list event) : Prop :=
  Forall (fun e => match e with Query _ _ _ ps => al ps | NewBlock _ _ => True end) evs.
Lemma wrap_small x : - 2 ^ 63 <= x < 2 ^ 63 -> wrap64 x = x.
Proof.
  unfold wrap64. change (2 ^ 63) with 9223372036854775808. change (2 ^ 64) with 18446744073709551616. intros H.
  rewrite Z.mod_small by lia. lia.
Qed.
Lemma query_blocks n count lst ps : n_blocks F (snd (fee_history n count lst ps)) = n_blocks F n.
Proof.
  unfold fee_history, Fees.fee_history. destruct (cap <? wrap64 count); [reflexivity|].
  destruct (_ <? 0); [reflexivity|]. destruct (collect _ _ _ _ _ _ _ _) as [[es|] c]; reflexivity.
Qed.
Lemma query_true (al : list P -> Prop) n count lst ps : al ps -> truthful al n (n_cache F n) ->
  truthful al (snd (fee_history n count lst ps)) (n_cache F (snd (fee_history n count lst ps))).
Proof.
  intros A T. unfold fee_history, Fees.fee_history. destruct (cap <? wrap64 count); [exact T|].
  destruct (_ <? 0); [exact T|]. set (ids := map _ _). destruct (collect F P ratio threshold n ps ids (n_cache F n)) as [r c] eqn:Co.
  destruct (collect_true al n ps A _ _ _ _ T Co) as (T' & _ & _). destruct r as [es|]; cbn [snd n_cache].
  - intros id e Hi. apply filter_In in Hi. apply true_cache. now apply T'.
  - intros id e Hi. apply true_cache. now apply T'.
Qed.
Lemma run_true (al : list P -> Prop) evs : asks_only al evs -> truthful al (run evs) (n_cache F (run evs)).
Proof.
  unfold run, Fees.run. assert (G : forall n, truthful al n (n_cache F n) -> asks_only al evs ->
    truthful al (fold_left step evs n) (n_cache F (fold_left step evs n))).
  { induction evs as [|e evs IH]; intros n T A; [exact T|]. inversion A; subst. cbn [fold_left]. apply IH; [|assumption].
    destruct e as [b|count lst ps]; cbn [step Fees.step].
    - intros id x Hi. apply true_grows. now apply T.
    - now apply (query_true al n count lst ps). }
  intros A. apply (G (Node F [] [])); [|exact A]. intros id e [].
Qed.

Lemma opens n count lst ps h n' : fee_history n count lst ps = (Ok h, n') -> 0 <= count < 2 ^ 63 -> -2 ^ 63 <= lst < 2 ^ 63 - 1 ->
  head F n < 2 ^ 63 - 1 ->
  let k := number_asked (head F n) count lst in let first := first_asked (head F n) count lst in
  0 <= k /\ exists es c, collect F P ratio threshold n ps (map (fun i => first + Z.of_nat i) (seq 0 (Z.to_nat k))) (n_cache F n) = (Some es, c) /\
  h = History F first (fees_of F es) (map (e_ratio F) es) (match ps with [] => None | _ => Some (map (row F P ps) es) end) /\
  n' = Node F (n_blocks F n) (filter (fun p => (head F n - fst p) mod 2 ^ 64 <=? cap) c).
Proof.
  intros E C L Hd k first. unfold fee_history, Fees.fee_history in E. rewrite (wrap_small count) in E by (change (2 ^ 63) with 9223372036854775808 in *; lia).
  destruct (cap <? count); [discriminate|]. assert (H0 : 0 <= head F n) by (unfold head; lia). fold (last_asked (head F n) lst) in E.
  assert (La : 0 <= last_asked (head F n) lst < 2 ^ 63 - 1). { unfold last_asked. destruct (Z.ltb_spec lst 0); lia. }
  rewrite (wrap_small (last_asked _ _ + 1)) in E by (change (2 ^ 63) with 9223372036854775808 in *; lia).
  assert (K : (if last_asked (head F n) lst + 1 <? count then last_asked (head F n) lst + 1 else count) = k).
  { unfold k, number_asked. destruct (Z.ltb_spec (last_asked (head F n) lst + 1) count); [rewrite Z.min_r; lia|rewrite Z.min_l; lia]. }
  rewrite K in E. assert (Kb : 0 <= k <= last_asked (head F n) lst + 1) by (unfold k, number_asked; lia).
  rewrite (wrap_small (_ - k)) in E by (change (2 ^ 63) with 9223372036854775808 in *; lia).
  fold (number_asked (head F n) count lst) in *. change (last_asked (head F n) lst + 1 - k) with first in E.
  destruct (Z.ltb_spec k 0); [lia|]. split; [lia|].
  destruct (collect _ _ _ _ _ _ _ _) as [[es|] c]; [|discriminate]. inversion E. exists es, c. auto.
Qed.

Lemma last_nth {A} (l : list A) d e : nth_error l (length l - 1) = Some e -> last l d = e.
Proof.
  induction l as [|x l IH]; [discriminate|]. cbn [length]. rewrite Nat.sub_succ, Nat.sub_0_r. destruct l as [|y l]; [cbn; congruence|].
  intros H. change (last (x :: y :: l) d) with (last (y :: l) d). apply IH. cbn [length] in *. now rewrite Nat.sub_succ, Nat.sub_0_r.
Qed.

(* An answer lists, for exactly the blocks asked for, their base fees and the shares of gas they used, whatever was asked
   before; the fee after the last one is that of a block not before the last one.  There is a row of rewards for each block. *)
Theorem C103_fees_and_ratios evs count lst ps h n' : 0 <= count < 2 ^ 63 -> - 2 ^ 63 <= lst < 2 ^ 63 - 1 -> head F (run evs) < 2 ^ 63 - 1 ->
  fee_history (run evs) count lst ps = (Ok h, n') ->
  let n := run evs in let k := Z.to_nat (number_asked (head F n) count lst) in let first := first_asked (head F n) count lst in
  h_oldest F h = first /\ n_blocks F n' = n_blocks F n /\ length (h_ratios F h) = k /\ length (h_fees F h) = S k /\
  (forall i, (i < k)%nat -> exists b, block_at F n (first + Z.of_nat i) = Some b /\
     nth_error (h_fees F h) i = Some (Some (b_fee b)) /\ nth_error (h_ratios F h) i = Some (ratio (b_used b) (b_limit b))) /\
  ((0 < k)%nat -> exists at_height b, last_asked (head F n) lst <= at_height <= head F n /\ block_at F n at_height = Some b /\
     nth_error (h_fees F h) k = Some (Some (b_fee b))) /\
  (match h_rewards F h with None => ps = [] | Some rows => ps <> [] /\ length rows = k /\ Forall (fun r => length r = length ps) rows end).
Proof.
  intros C L Hd E n k first. destruct (opens _ _ _ _ _ _ E C L Hd) as (K0 & es & c & Co & -> & ->). fold n in Co, K0. fold first k in Co. cbn [h_oldest h_fees h_ratios h_rewards n_blocks].
  assert (T := run_true (fun _ => True) evs). specialize (T ltac:(apply Forall_forall; intros []; auto)).
  destruct (collect_true (fun _ => True) n ps Logic.I _ _ _ _ T Co) as (_ & Es & _). specialize (Es es eq_refl).
  assert (Le : length es = k).
  { clear -Es. assert (X : length (map (fun i => first + Z.of_nat i) (seq 0 k)) = length es) by (induction Es; cbn; congruence).
    rewrite map_length, seq_length in X. congruence. }
  assert (Nth : forall i, (i < k)%nat -> exists e, nth_error es i = Some e /\ true_entry (fun _ => True) n (first + Z.of_nat i) e).
  { intros i Hi. assert (G : forall (ids : list Z) (l : list entry) j id, Forall2 (true_entry (fun _ => True) n) ids l -> nth_error ids j = Some id ->
      exists e, nth_error l j = Some e /\ true_entry (fun _ => True) n id e).
    { clear. intros ids l j id H. revert j. induction H as [|x y xs ys H _ IH]; intros [|j]; cbn; try discriminate; [intros [= <-]; eauto|apply IH]. }
    apply (G _ es i (first + Z.of_nat i) Es). rewrite nth_error_map.
    rewrite (nth_error_nth' _ 0%nat) by (rewrite seq_length; exact Hi). cbn. now rewrite seq_nth. }
  split; [reflexivity|]. split; [reflexivity|]. split; [now rewrite map_length|].
  assert (Fl : length (fees_of F es) = S k).
  { unfold fees_of. destruct es as [|e0 es']; [now rewrite <- Le|]. rewrite app_length, map_length, Le. cbn. lia. }
  assert (Fn : forall i e, nth_error es i = Some e -> nth_error (fees_of F es) i = Some (Some (e_fee F e))).
  { intros i e Hi. unfold fees_of. destruct es as [|e0 es']; [destruct i; discriminate|].
    assert (i < length (e0 :: es'))%nat by (apply nth_error_Some; congruence).
    rewrite nth_error_app1 by (now rewrite map_length). rewrite nth_error_map, Hi. reflexivity. }
  split; [exact Fl|]. split.
  { intros i Hi. destruct (Nth i Hi) as (e & He & b & ps0 & _ & Bk & E1 & E2 & _). exists b. split; [exact Bk|].
    rewrite (Fn _ _ He), nth_error_map, He. cbn. now rewrite E1, E2. }
  split.
  { intros Kp. destruct (Nth (k - 1)%nat ltac:(lia)) as (e & He & b & ps0 & _ & Bk & _ & _ & _ & ht & hb & Hh & Hb & En).
    exists ht, hb. split.
    { assert (first + Z.of_nat (k - 1) = last_asked (head F n) lst); [|lia]. unfold first, first_asked, k in *. lia. }
    split; [exact Hb|]. unfold fees_of. destruct es as [|e0 es']; [cbn in Le; lia|].
    rewrite nth_error_app2; rewrite map_length, Le; [|lia]. rewrite Nat.sub_diag. cbn [nth_error]. do 2 f_equal. rewrite <- En. f_equal.
    rewrite <- Le in He. now apply last_nth. }
  destruct ps as [|p ps']; [reflexivity|]. split; [discriminate|]. split; [now rewrite map_length|].
  apply Forall_forall. intros r Hr. apply in_map_iff in Hr. destruct Hr as (e & <- & _). unfold row. now rewrite map_length, seq_length.
Qed.

(* The rewards are right as long as everybody asks for the same percentiles. *)
Theorem C103_rewards_partial evs count lst ps rows h n' : 0 <= count < 2 ^ 63 -> - 2 ^ 63 <= lst < 2 ^ 63 - 1 -> head F (run evs) < 2 ^ 63 - 1 ->
  asks_only (eq ps) evs -> fee_history (run evs) count lst ps = (Ok h, n') -> h_rewards F h = Some rows ->
  let n := run evs in let first := first_asked (head F n) count lst in
  forall i r, nth_error rows i = Some r -> exists b, block_at F n (first + Z.of_nat i) = Some b /\
    (offers b = [] -> r = map (fun _ => 0) ps) /\
    (offers b <> [] -> Forall (fun x => 0 <= fst x) (offers b) -> ascending (map (threshold (b_used b)) ps) ->
     Forall2 (fun p x => quantile (offers b) (threshold (b_used b) p) x) ps r).
Proof.
  intros C L Hd A E Hr n first. destruct (opens _ _ _ _ _ _ E C L Hd) as (K0 & es & c & Co & -> & ->). cbn [h_rewards] in Hr.
  fold n in Co, K0. fold first in Co. assert (T := run_true (eq ps) evs A).
  destruct (collect_true (eq ps) n ps eq_refl _ _ _ _ T Co) as (_ & Es & _). specialize (Es es eq_refl).
  destruct ps as [|p0 ps0]; [discriminate|]. set (ps := p0 :: ps0) in *. injection Hr as <-. intros i r Hi.
  rewrite nth_error_map in Hi. destruct (nth_error es i) as [e|] eqn:He; [|discriminate]. injection Hi as <-.
  set (k := Z.to_nat _) in Es.
  assert (G : forall (ids : list Z) (l : list entry) j e, Forall2 (true_entry (eq ps) n) ids l -> nth_error l j = Some e ->
      exists id, nth_error ids j = Some id /\ true_entry (eq ps) n id e).
  { clear. intros ids l j e H. revert j. induction H as [|x y xs ys H _ IH]; intros [|j]; cbn; try discriminate; [intros [= <-]; eauto|apply IH]. }
  destruct (G _ _ _ _ Es He) as (id & Hid & b & ps1 & <- & Bk & _ & _ & Rw & _).
  assert (Ii : (i < k)%nat).
  { assert (nth_error (map (fun i => first + Z.of_nat i) (seq 0 k)) i <> None) by congruence. apply nth_error_Some in H. now rewrite map_length, seq_length in H. }
  rewrite nth_error_map, (nth_error_nth' _ 0%nat) in Hid by (now rewrite seq_length). rewrite seq_nth in Hid by exact Ii. cbn in Hid. injection Hid as <-.
  exists b. split; [exact Bk|].
  assert (Rl : row F P ps e = rewards (sort (offers b)) (map (threshold (b_used b)) ps)).
  { unfold row. rewrite <- Rw. assert (Ln : length (e_rewards F e) = length ps) by (rewrite Rw, rewards_len, map_length; reflexivity).
    rewrite <- Ln. clear. generalize (e_rewards F e). intros l. induction l as [|x l IH]; [reflexivity|]. cbn [length seq map nth].
    f_equal. rewrite <- seq_shift, map_map. exact IH. }
  rewrite Rl. split.
  - intros ->. cbn. now rewrite map_map.
  - intros Ne Nn As. destruct (C103_rewards_of_a_block _ _ _ Ne (sort_perm _) (sort_sorted _) Nn As) as [Q _].
    clear -Q. clearbody ps. remember (map (threshold (b_used b)) ps) as ts. revert ps Heqts. induction Q as [|t x ts xs H _ IH]; intros [|p ps] Hm; try discriminate; [constructor|].
    injection Hm as -> Hm. constructor; [exact H|now apply IH].
Qed.

(* After an answer the cache holds only blocks among the newest cap + 1, each once. *)
Theorem C103_cache_is_bounded evs count lst ps h n' : 0 <= count < 2 ^ 63 -> - 2 ^ 63 <= lst < 2 ^ 63 - 1 -> head F (run evs) < 2 ^ 63 - 1 ->
  fee_history (run evs) count lst ps = (Ok h, n') ->
  (forall id e, In (id, e) (n_cache F n') -> head F n' - cap <= id <= head F n') /\
  NoDup (map fst (n_cache F n')) /\ Z.of_nat (length (n_cache F n')) <= cap + 1.
Proof.
  revert evs count lst ps h n'. assert (Nd : forall evs, NoDup (map fst (n_cache F (run evs)))).
  { assert (Co : forall n ps ids c r c', NoDup (map fst c) -> collect F P ratio threshold n ps ids c = (r, c') -> NoDup (map fst c')).
    { intros n ps ids. induction ids as [|id ids IH]; intros c r c' D; cbn [collect]; [intros [= <- <-]; exact D|].
      destruct (cached F id c) eqn:Ca.
      - destruct (collect F P ratio threshold n ps ids c) eqn:Co. intros [= <- <-]. eapply IH; eauto.
      - destruct (block_at F n id); [|intros [= <- <-]; exact D]. destruct (process _ _ _ _ _ _ _); [|intros [= <- <-]; exact D..].
        destruct (collect F P ratio threshold n ps ids ((id, a) :: c)) eqn:Co. intros [= <- <-]. apply (IH _ _ _) in Co; [exact Co|].
        cbn [map fst]. constructor; [|exact D]. intros Hin. apply in_map_iff in Hin. destruct Hin as ([i x] & Ei & Hi). cbn in Ei. subst i.
        unfold cached in Ca. destruct (find _ c) eqn:Fd; [discriminate|]. apply (find_none _ _ Fd) in Hi. cbn in Hi. apply Z.eqb_neq in Hi. contradiction. }
    assert (Fi : forall (f : Z * entry -> bool) c, NoDup (map fst c) -> NoDup (map fst (filter f c))).
    { intros f c. induction c as [|x c IH]; cbn; [auto|]. intros H. inversion H; subst. destruct (f x); [|auto]. cbn. constructor; [|auto].
      intros Hin. apply H2. apply in_map_iff in Hin. destruct Hin as (y & Ey & Hy). apply filter_In in Hy. apply in_map_iff. exists y. tauto. }
    assert (Q : forall n count lst ps, NoDup (map fst (n_cache F n)) -> NoDup (map fst (n_cache F (snd (fee_history n count lst ps))))).
    { intros n count lst ps D. unfold fee_history, Fees.fee_history. destruct (cap <? wrap64 count); [exact D|]. destruct (_ <? 0); [exact D|].
      destruct (collect F P ratio threshold n ps _ (n_cache F n)) as [[es|] c] eqn:E; cbn [snd n_cache]; [apply Fi|]; eapply Co; eauto. }
    intros evs. unfold run, Fees.run. assert (G : forall n, NoDup (map fst (n_cache F n)) -> NoDup (map fst (n_cache F (fold_left step evs n)))).
    { induction evs as [|e evs IH]; intros n D; [exact D|]. cbn [fold_left]. apply IH. destruct e; [exact D|now apply Q]. }
    apply (G (Node F [] [])). constructor. }
  intros evs count lst ps h n' C L Hd E. assert (Nd' := Nd (evs ++ [Query P count lst ps])). unfold run, Fees.run in Nd'. rewrite fold_left_app in Nd'.
  cbn [fold_left Fees.step] in Nd'. fold (run evs) in Nd'. change (snd (fee_history (run evs) count lst ps)) with (snd (fee_history (run evs) count lst ps)) in Nd'.
  assert (Nd2 : NoDup (map fst (n_cache F n'))). { change n' with (snd (@Ok (history F) h, n')). rewrite <- E. exact Nd'. } clear Nd' Nd.
  destruct (opens _ _ _ _ _ _ E C L Hd) as (K0 & es & c & Co & -> & ->). set (n := run evs) in *.
  assert (T := run_true (fun _ => True) evs). specialize (T ltac:(apply Forall_forall; intros []; auto)).
  destruct (collect_true (fun _ => True) n ps Logic.I _ _ _ _ T Co) as (T' & _ & _).
  assert (R : forall id e, In (id, e) (filter (fun p => (head F n - fst p) mod 2 ^ 64 <=? cap) c) -> head F n - cap <= id <= head F n).
  { intros id e Hi. apply filter_In in Hi. destruct Hi as [Hi K]. cbn [fst] in K. apply Z.leb_le in K.
    destruct (T' _ _ Hi) as (b & _ & _ & Bk & _). apply block_at_range in Bk. destruct Bk as [B1 B2].
    assert (id <= head F n). { destruct (Z.eqb_spec id 0); lia. } rewrite Z.mod_small in K; [lia|].
    change (2 ^ 64) with 18446744073709551616. change (2 ^ 63) with 9223372036854775808 in Hd. lia. }
  cbn [n_cache] in *. split; [exact R|]. split; [exact Nd2|].
  set (kept := filter _ c) in *. clearbody kept. rewrite <- (map_length fst kept).
  assert (Ic : incl (map fst kept) (map (fun i => head F n - cap + Z.of_nat i) (seq 0 (Z.to_nat (cap + 1))))).
  { intros x Hx. apply in_map_iff in Hx. destruct Hx as ([i e] & <- & Hi). apply R in Hi. cbn [fst]. apply in_map_iff.
    exists (Z.to_nat (i - (head F n - cap))). split; [lia|]. apply in_seq. lia. }
  apply NoDup_incl_length in Ic; [|exact Nd2]. rewrite !map_length, seq_length in Ic. rewrite map_length. lia.
Qed.
End Props.
Print Assumptions C103_fees_and_ratios.
Print Assumptions C103_rewards_partial.
Print Assumptions C103_cache_is_bounded.

(* A count that a uint64 can hold, or the highest block number, stops the answer with a panic. *)
Theorem C103_panic_refuted F P ratio threshold cap n ps : 0 <= cap < 2 ^ 31 -> head F n < 2 ^ 63 ->
  fst (fee_history F P ratio threshold cap n (2 ^ 63) (-1) ps) = Panic /\
  fst (fee_history F P ratio threshold cap n 1 (2 ^ 63 - 1) ps) = (if cap <? 1 then Err else Panic).
Proof.
  intros C Hd. assert (H0 : 0 <= head F n) by (unfold head; lia). unfold fee_history.
  assert (W : wrap64 (2 ^ 63) = - 2 ^ 63) by reflexivity. assert (W1 : wrap64 1 = 1) by reflexivity.
  assert (W2 : wrap64 (2 ^ 63 - 1 + 1) = - 2 ^ 63) by reflexivity. split.
  - rewrite W. change (-1 <? 0) with true. cbv iota. change (- 2 ^ 63) with (-9223372036854775808) in *. change (2 ^ 63) with 9223372036854775808 in *.
    destruct (Z.ltb_spec cap (-9223372036854775808)); [lia|].
    assert (-9223372036854775808 <= wrap64 (head F n + 1)).
    { unfold wrap64. change (2 ^ 63) with 9223372036854775808. change (2 ^ 64) with 18446744073709551616.
      pose proof (Z.mod_pos_bound (head F n + 1 + 9223372036854775808) 18446744073709551616). lia. }
    destruct (Z.ltb_spec (wrap64 (head F n + 1)) (-9223372036854775808)); [lia|]. reflexivity.
  - change (2 ^ 63 - 1 <? 0) with false. cbv iota. rewrite W1, W2. destruct (cap <? 1); reflexivity.
Qed.
Print Assumptions C103_panic_refuted.

(* ratios as pairs, percentiles as integers *)
Definition ex_fees := fee_history (Z * Z) Z Datatypes.pair (fun used p => used * p / 100) 100.
Definition ex_run := run (Z * Z) Z Datatypes.pair (fun used p => used * p / 100) 100.
Definition ex_b1 : blk := Blk 1000 90000 1000000 [(21000, [5]); (60000, [2]); (9000, [7])].
Definition ex_b2 : blk := Blk 1100 0 1000000 [].
Definition ex_b3 : blk := Blk 950 42000 1000000 [(42000, [3; 1])].

(* An answer shows rewards for percentiles that somebody else asked for before: here the medians of block 1 come back as the
   minimum, then as zero. *)
Theorem C103_percentiles_refuted :
  option_map (fun h => h_rewards _ h) (match fst (ex_fees (ex_run [NewBlock _ ex_b1]) 1 1 [50]) with Ok h => Some h | _ => None end) = Some (Some [[2]]) /\
  option_map (fun h => h_rewards _ h) (match fst (ex_fees (ex_run [NewBlock _ ex_b1]) 1 1 [90]) with Ok h => Some h | _ => None end) = Some (Some [[5]]) /\
  option_map (fun h => h_rewards _ h)
    (match fst (ex_fees (ex_run [NewBlock _ ex_b1; Query _ 1 1 [50]]) 1 1 [90]) with Ok h => Some h | _ => None end) = Some (Some [[2]]) /\
  option_map (fun h => h_rewards _ h)
    (match fst (ex_fees (ex_run [NewBlock _ ex_b1; Query _ 1 1 []]) 1 1 [90]) with Ok h => Some h | _ => None end) = Some (Some [[0]]).
Proof. vm_compute. auto. Qed.
Print Assumptions C103_percentiles_refuted.

(* The fee after the last block is not the one that the next block has, and an old answer stays when the next block is there. *)
Theorem C103_next_fee_refuted :
  let asked_then := ex_run [NewBlock _ ex_b1; Query _ 1 1 []; NewBlock _ ex_b2; NewBlock _ ex_b3] in
  let never_asked := ex_run [NewBlock _ ex_b1; NewBlock _ ex_b2; NewBlock _ ex_b3] in
  (match fst (ex_fees asked_then 1 1 []) with Ok h => h_fees _ h | _ => [] end) = [Some 1000; Some 1000] /\
  (match fst (ex_fees never_asked 1 1 []) with Ok h => h_fees _ h | _ => [] end) = [Some 1000; Some 950] /\
  block_at _ asked_then 2 = Some ex_b2 /\ b_fee ex_b2 = 1100.
Proof. vm_compute. auto. Qed.
Print Assumptions C103_next_fee_refuted.

(* A transaction with several messages counts with its whole gas for each: the cheaper of two messages fills the block. *)
Theorem C103_bundled_refuted :
  total (offers ex_b3) = 2 * b_used ex_b3 /\
  (match fst (ex_fees (ex_run [NewBlock _ ex_b3]) 1 1 [75; 100]) with Ok h => h_rewards _ h | _ => None end) = Some [[1; 1]].
Proof. vm_compute. auto. Qed.
Print Assumptions C103_bundled_refuted.

(* Percentiles are not checked: out of order, the later ones get the reward of the higher one before. *)
Theorem C103_order_refuted :
  (match fst (ex_fees (ex_run [NewBlock _ ex_b1]) 1 1 [90; 10]) with Ok h => h_rewards _ h | _ => None end) = Some [[5; 5]] /\
  (match fst (ex_fees (ex_run [NewBlock _ ex_b1]) 1 1 [10; 90]) with Ok h => h_rewards _ h | _ => None end) = Some [[2; 5]].
Proof. vm_compute. auto. Qed.
Print Assumptions C103_order_refuted.

(* The hypotheses are met: the same percentiles asked for twice, blocks with and without messages. *)
Example C103_hypotheses :
  let evs := [NewBlock Z ex_b1; Query Z 2 (-1) [10; 50; 90; 100]; NewBlock Z ex_b2; NewBlock Z ex_b3] in
  asks_only Z (eq [10; 50; 90; 100]) evs /\ head _ (ex_run evs) = 3 /\
  first_asked 3 3 (-1) = 1 /\ number_asked 3 3 (-1) = 3 /\ number_asked 3 9 2 = 3 /\ first_asked 3 9 2 = 0 /\
  (exists n', ex_fees (ex_run evs) 3 (-1) [10; 50; 90; 100] =
    (Ok (History _ 1 [Some 1000; Some 1100; Some 950; Some 950] [(90000, 1000000); (0, 1000000); (42000, 1000000)]
       (Some [[2; 2; 5; 7]; [0; 0; 0; 0]; [1; 1; 1; 1]])), n') /\ length (n_cache _ n') = 4%nat) /\
  fst (ex_fees (ex_run evs) 2 4 []) = Err /\ fst (ex_fees (ex_run evs) 101 3 []) = Err.
Proof.
  cbv zeta. split; [repeat constructor|]. vm_compute. do 5 (split; [reflexivity|]). split; [|auto]. eexists. split; reflexivity.
Qed.
Example C103_rewards_hypotheses :
  offers ex_b1 <> [] /\ Forall (fun x => 0 <= fst x) (offers ex_b1) /\ ascending (map (fun p => 90000 * p / 100) [10; 50; 90; 100]) /\
  quantile (offers ex_b1) 81000 5 /\ ~ quantile (offers ex_b1) 81000 2 /\ ~ quantile (offers ex_b1) 81000 7.
Proof.
  assert (Q : quantile (offers ex_b1) 81000 5).
  { split; [exists 21000; vm_compute; auto|]. split; [left; vm_compute; discriminate|].
    intros x [<-|[<-|[<-|[]]]] L; vm_compute in *; try discriminate; auto. }
  split; [discriminate|]. split; [vm_compute; repeat constructor; discriminate|]. split; [vm_compute; repeat split; discriminate|].
  split; [exact Q|]. split; intros Q2; apply (quantile_unique _ _ _ _ Q) in Q2; discriminate.
Qed.
