(* Properties of bridge validator sets: C40, C42, C69, C70. *)
From Coq Require Import Sorting.Sorted Sorting.Permutation.
From Verif Require Import Lib.Base Lib.Zmap Hyperion.Valset Hyperion.ValsetSpec Hyperion.ValsetProofs Hyperion.ValsetRuns Hyperion.ValsetHistory.
Open Scope Z_scope.

(* ---- a small network used in the examples ---- *)
Definition idz (x : Z) : Z := x.
Definition go (h0 : Z) (os : list op) : res (st * list event) := run idz idz (init h0) os.
Definition sv (o p : Z) : sval := mk_sval o p false (Some 0).
Definition two : list sval := [sv 1 3; sv 2 1].
Definition par (h w o : Z) : cparams := mk_params h w 1 o false 0 0.
Definition blk (ps : list cparams) : op := OBlock two [] ps.
(* validators 1 and 2 use their own accounts as orchestrators, addresses 71 and 72 *)
Definition keys : list op := [OSetKeys 1 1 1 71 true; OSetKeys 1 2 2 72 true].
Definition reached (h0 : Z) (os : list op) : st := match go h0 os with Ok (s, _) => s | _ => init 0 end.

(* ================= C40: normalisation ================= *)

(* The members are the enrolled validators, each with its share of 2^32-1 rounded down, in
   bridge order; together they have at most 2^32-1 and less than one unit each is lost. *)
Theorem C40_normalised : forall rank b l ms,
  current rank b l = Ok ms -> Forall (fun v => 0 <= sv_power v) l -> enrolled b l <> [] ->
  0 < voting (enrolled b l) /\
  (exists qs, Permutation ms qs /\
     Forall2 (fun x m => m_eth m = snd x /\ share (sv_power (fst x)) (voting (enrolled b l)) (m_power m)) (enrolled b l) qs) /\
  StronglySorted (ahead rank) ms /\
  length ms = length (enrolled b l) /\
  U32 - Z.of_nat (length ms) < zsum (map m_power ms) <= U32.
Proof.
  intros rank b l ms C P N. unfold current in C. rewrite registered_enrolled in C. destruct (map as_member (enrolled b l)) as [|y r] eqn:E.
  { destruct (enrolled b l); [congruence|discriminate]. }
  rewrite <- E in C. clear E y r.
  assert (total (map as_member (enrolled b l)) = voting (enrolled b l)) as T by (rewrite <- registered_enrolled; apply total_voting). rewrite T in C.
  destruct (Z.eqb_spec (voting (enrolled b l)) 0) as [Z0|Z0]; [discriminate|]. injection C as <-.
  assert (0 < voting (enrolled b l)) as Pos.
  { assert (0 <= voting (enrolled b l)); [|lia]. apply zsum_nonneg. apply Forall_forall. intros x Hx. apply in_map_iff in Hx as ([v e] & <- & Hv).
    apply enrolled_in in Hv as [Hv _]. rewrite Forall_forall in P. apply P. exact Hv. }
  set (t := voting (enrolled b l)) in *. split; [exact Pos|]. set (qs := map (normal t) (map as_member (enrolled b l))).
  assert (Forall2 (fun x m => m_eth m = snd x /\ share (sv_power (fst x)) t (m_power m)) (enrolled b l) qs) as F.
  { unfold qs. clearbody t. clear - Pos. induction (enrolled b l) as [|x k IH]; [constructor|]. cbn [map]. constructor; [|exact IH].
    split; [reflexivity|]. cbn [normal as_member m_power]. apply share_normal. exact Pos. }
  split; [exists qs; split; [apply sort_perm|exact F]|]. split; [apply sort_sorted|].
  assert (length qs = length (enrolled b l)) as Ln by (unfold qs; rewrite !map_length; reflexivity).
  rewrite (Permutation_length (sort_perm rank qs)). split; [exact Ln|]. rewrite (zsum_perm _ _ (Permutation_map m_power (sort_perm rank qs))). rewrite Ln.
  pose proof (shares_sum t (map (fun x => (sv_power (fst x), sv_power (fst x) * U32 / t)) (enrolled b l)) Pos) as S.
  rewrite !map_map, map_length in S. cbn [fst snd] in S. unfold qs. rewrite !map_map. cbn [normal as_member m_power]. apply S.
  - apply Forall_forall. intros x Hx. apply in_map_iff in Hx as (y & <- & _). apply share_normal. exact Pos.
  - reflexivity.
  - destruct (enrolled b l); [congruence|discriminate].
Qed.
Print Assumptions C40_normalised.
Example C40_normalised_example :
  exists ms, current idz (s_br (reached 1 keys) 1) two = Ok ms /\ map m_power ms = [3221225471; 1073741823] /\ map m_eth ms = [71; 72] /\
   zsum (map m_power ms) = U32 - 1.
Proof. eexists. vm_compute. repeat split. Qed.

(* More voting power never gives a smaller share, and the share is a function of the power. *)
Theorem C40_order_kept : forall t p q x y, 0 < t -> share p t x -> share q t y -> (p <= q -> x <= y) /\ (p = q -> x = y).
Proof. intros t p q x y T X Y. split; [intro L; eapply share_mono; eassumption|]. intros <-. eapply share_unique; eassumption. Qed.
Print Assumptions C40_order_kept.
Example C40_order_kept_example : share 3 4 3221225471 /\ share 1 4 1073741823.
Proof. unfold share, U32. lia. Qed.

(* Nobody enrolled: the empty set. The end of the block stops the chain exactly when
   somebody is enrolled and all enrolled voting power together is zero. *)
Theorem C40_nobody_or_no_power : forall rank b l,
  (enrolled b l = [] -> current rank b l = Ok []) /\
  (current rank b l = Panic <-> enrolled b l <> [] /\ voting (enrolled b l) = 0) /\
  current rank b l <> Err.
Proof.
  intros rank b l. unfold current. pose proof (total_voting b l) as T. rewrite registered_enrolled in *.
  destruct (enrolled b l) as [|x k] eqn:E; cbn [map]; [split; [auto|split; [split; [discriminate|tauto]|discriminate]]|].
  change (as_member x :: map as_member k) with (map as_member (x :: k)). rewrite T. destruct (Z.eqb_spec (voting (x :: k)) 0); split; try discriminate; (split; [|discriminate]).
  - split; [intros _; split; [discriminate|assumption]|reflexivity].
  - split; [discriminate|]. intros [_ ?]. contradiction.
Qed.
Print Assumptions C40_nobody_or_no_power.
Example C40_no_power_example : current idz (s_br (reached 1 keys) 1) [sv 1 0] = Panic /\ go 1 (keys ++ [OBlock [sv 1 0] [] [par 1 2 0]]) = Panic.
Proof. vm_compute. auto. Qed.

(* The set does not depend on the order in which staking lists the validators. *)
Lemma enrolled_perm b l l' : Permutation l l' -> Permutation (enrolled b l) (enrolled b l').
Proof.
  induction 1 as [|x l l' P IH|x y l|l1 l2 l3 P1 IH1 P2 IH2]; cbn [enrolled]; [constructor|..].
  - destruct (registration b x); [constructor; exact IH|exact IH].
  - destruct (registration b x), (registration b y); try reflexivity. apply perm_swap.
  - etransitivity; eassumption.
Qed.
Theorem C40_order_free : forall rank b l l',
  (forall x y, rank x = rank y -> x = y) -> Permutation l l' -> current rank b l = current rank b l'.
Proof.
  intros rank b l l' Inj P. unfold current. pose proof (total_voting b l) as T. pose proof (total_voting b l') as T'. rewrite !registered_enrolled in *.
  pose proof (enrolled_perm b l l' P) as Q. assert (voting (enrolled b l) = voting (enrolled b l')) as V by (apply zsum_perm, Permutation_map; exact Q).
  destruct (enrolled b l) as [|x k] eqn:E; [apply Permutation_nil in Q; rewrite Q; reflexivity|].
  destruct (enrolled b l') as [|x' k'] eqn:E'; [symmetry in Q; apply Permutation_nil in Q; discriminate|].
  cbn [map]. change (as_member x :: map as_member k) with (map as_member (x :: k)). change (as_member x' :: map as_member k') with (map as_member (x' :: k')).
  rewrite T, T', V. destruct (voting (x' :: k') =? 0); [reflexivity|]. f_equal. apply sort_order_free; [exact Inj|].
  exact (Permutation_map (normal (voting (x' :: k'))) (Permutation_map as_member Q)).
Qed.
Print Assumptions C40_order_free.
Example C40_order_free_example :
  current idz (s_br (reached 1 keys) 1) [sv 1 2; sv 2 2] = current idz (s_br (reached 1 keys) 1) [sv 2 2; sv 1 2].
Proof. apply C40_order_free; [intros x y H; exact H|apply perm_swap]. Qed.

(* Between sets without repeated addresses, the difference is the sum of the changes of
   power over the addresses involved: a distance. *)
Theorem C40_difference : forall a b c,
  NoDup (addresses a) -> NoDup (addresses b) -> NoDup (addresses c) ->
  power_delta a b = changed a b (involved a b) /\
  power_delta a b = power_delta b a /\
  power_delta a a = 0 /\
  (power_delta a b = 0 -> forall e, power_of a e = power_of b e) /\
  power_delta a c <= power_delta a b + power_delta b c.
Proof.
  intros a b c A B C. split; [apply delta_changed; assumption|]. split; [apply delta_sym; assumption|]. split; [apply delta_self; assumption|].
  split; [apply delta_zero; assumption|apply delta_triangle; assumption].
Qed.
Print Assumptions C40_difference.
Example C40_difference_example :
  power_delta [mk_member 1 10; mk_member 2 5] [mk_member 2 9; mk_member 3 1] = 15 /\
  power_delta [mk_member 2 9; mk_member 3 1] [mk_member 1 10; mk_member 2 5] = 15.
Proof. vm_compute. auto. Qed.

(* Two validators may register the same address: then an unchanged set differs from itself,
   and a new set is stored and must be confirmed in every block. *)
Theorem C40_shared_address_refuted : exists os s evs m,
  go 1 os = Ok (s, evs) /\ os = [OSetKeys 1 1 1 71 true; OSetKeys 1 2 2 71 true] ++ [blk [par 1 2 0]; blk [par 1 2 0]; blk [par 1 2 0]] /\
  map v_members (created 1 evs) = [m; m; m] /\ map v_nonce (created 1 evs) = [1; 2; 3] /\ 0 < power_delta m m.
Proof. exists ([OSetKeys 1 1 1 71 true; OSetKeys 1 2 2 71 true] ++ [blk [par 1 2 0]; blk [par 1 2 0]; blk [par 1 2 0]]). do 3 eexists. split; [vm_compute; reflexivity|]. split; [reflexivity|]. vm_compute. repeat split. Qed.
Print Assumptions C40_shared_address_refuted.

(* ================= C69: the stored set follows the voting power ================= *)

(* After every block, for every bridge with enrolled validators whose observed set is not
   newer than its latest one: the latest set is stored; it is the current one, made in this
   block, or no validator began to unbond and it was already there and differs by at most a twentieth. *)
Theorem C69_set_follows_power : forall rank acc_of h0 os s evs bonded unbonding ps s' e p ms,
  run rank acc_of (init h0) os = Ok (s, evs) -> step rank acc_of s (OBlock bonded unbonding ps) = Ok (s', e) ->
  NoDup (map p_h ps) -> In p ps ->
  current rank (s_br s (p_h p)) bonded = Ok ms -> ms <> [] ->
  (forall n, b_observed (s_br s' (p_h p)) = Some n -> n <= b_latest (s_br s' (p_h p))) ->
  exists v, zget (b_sets (s_br s' (p_h p))) (b_latest (s_br s' (p_h p))) = Some v /\
    ((v_members v = ms /\ v_height v = s_height s) \/
     (s_unbond s <> s_height s /\ zget (b_sets (s_br s (p_h p))) (b_latest (s_br s (p_h p))) = Some v /\
      (NoDup (addresses ms) -> NoDup (addresses (v_members v)) -> 20 * changed ms (v_members v) (involved ms (v_members v)) <= U32))).
Proof.
  intros rank acc_of h0 os s evs bonded unbonding ps s' e p ms R St N Hp C Ne O.
  destruct (block_follows rank acc_of s bonded unbonding ps s' e p ms (run_keyed _ _ _ _ _ _ R) St N Hp C Ne O) as (v & G & [D|(U & G' & B)]); exists v; (split; [exact G|]); [left; exact D|].
  right. split; [exact U|]. split; [exact G'|]. intros A1 A2. unfold big_change in B. rewrite delta_changed in B by assumption. lia.
Qed.
Print Assumptions C69_set_follows_power.
Example C69_set_follows_power_example :
  (exists s e, step idz idz (reached 1 keys) (blk [par 1 2 0]) = Ok (s, e) /\ map v_nonce (created 1 e) = [1]) /\
  (exists s e, step idz idz (reached 1 (keys ++ [blk [par 1 2 0]])) (blk [par 1 2 0]) = Ok (s, e) /\ created 1 e = []) /\
  (exists s e, step idz idz (reached 1 (keys ++ [blk [par 1 2 0]; OUnbond])) (blk [par 1 2 0]) = Ok (s, e) /\ map v_nonce (created 1 e) = [2]) /\
  (exists s e, step idz idz (reached 1 (keys ++ [blk [par 1 2 0]])) (OBlock [sv 1 2; sv 2 2] [] [par 1 2 0]) = Ok (s, e) /\ map v_nonce (created 1 e) = [2]).
Proof. repeat split; do 2 eexists; (split; [vm_compute; reflexivity|vm_compute; reflexivity]). Qed.

(* With an unchanging offset the sets of a bridge are numbered by the height at which they
   were made plus the offset: strictly increasing, never twice the same. *)
Theorem C69_numbers : forall rank acc_of h0 os s evs h o,
  run rank acc_of (init h0) os = Ok (s, evs) -> Forall one_entry os -> Forall (offset_is h o) os ->
  StronglySorted Z.lt (map v_nonce (created h evs)) /\
  forall v, In v (created h evs) -> v_nonce v = v_height v + o /\ h0 <= v_height v < s_height s.
Proof. intros rank acc_of h0 os s evs h o R F1 F2. destruct (created_numbers _ _ _ _ _ _ _ _ R F1 F2) as (_ & A & B). auto. Qed.
Print Assumptions C69_numbers.
(* ... and each stays as it was made until it is pruned. *)
Theorem C69_sets_kept : forall rank acc_of h0 os s evs h o,
  run rank acc_of (init h0) os = Ok (s, evs) -> Forall one_entry os -> Forall (offset_is h o) os -> Forall (no_reset_op h) os ->
  forall v, In v (created h evs) -> zget (b_sets (s_br s h)) (v_nonce v) = Some v \/ In (EvPruned h (v_nonce v)) evs.
Proof. exact sets_kept. Qed.
Print Assumptions C69_sets_kept.
Definition moving : list op := keys ++ [blk [par 1 2 5]; OUnbond; blk [par 1 2 5]; blk [par 1 2 5]; OUnbond; blk [par 1 2 5]; OObserve 1 7; blk [par 1 2 5]].
Example C69_numbers_example : exists s evs, go 1 moving = Ok (s, evs) /\ Forall one_entry moving /\ Forall (offset_is 1 5) moving /\ Forall (no_reset_op 1) moving /\
  map v_nonce (created 1 evs) = [6; 7; 9] /\ map fst (b_sets (s_br s 1)) = [7; 9] /\ In (EvPruned 1 6) evs.
Proof.
  do 2 eexists. split; [vm_compute; reflexivity|].
  split. { repeat constructor; cbn; intuition. }
  split. { repeat constructor; cbn; intros q [<-|[]] _; reflexivity. }
  split. { repeat constructor; cbn; intros q [<-|[]] _; reflexivity. }
  vm_compute. repeat split. tauto.
Qed.

(* If the offset is lowered, a later set takes the number of an earlier one and replaces it. *)
Theorem C69_lowered_offset_refuted : exists os s evs a b,
  go 1 os = Ok (s, evs) /\ created 1 evs = [a; b] /\ v_nonce a = v_nonce b /\ v_height a <> v_height b /\
  zget (b_sets (s_br s 1)) (v_nonce a) = Some b.
Proof.
  exists (keys ++ [blk [par 1 2 2]; OUnbond; blk [par 1 2 1]]). do 4 eexists. split; [vm_compute; reflexivity|]. split; [vm_compute; reflexivity|].
  vm_compute. repeat split; discriminate.
Qed.
Print Assumptions C69_lowered_offset_refuted.
(* The number announced when a set is made contains the offset twice: no such set is stored. *)
Theorem C69_announced_number_refuted : exists os s evs v a,
  go 1 os = Ok (s, evs) /\ In (EvSet 1 v a) evs /\ zget (b_sets (s_br s 1)) a = None /\ zget (b_sets (s_br s 1)) (v_nonce v) = Some v.
Proof. exists (keys ++ [blk [par 1 2 5]]). do 4 eexists. split; [vm_compute; reflexivity|]. split; [left; reflexivity|]. vm_compute. auto. Qed.
Print Assumptions C69_announced_number_refuted.

(* ================= C70: judging those who did not confirm ================= *)

(* No set is judged twice, and sets are judged in the order of their numbers, whatever
   happens to parameters, offsets and stored sets. *)
Theorem C70_judged_once : forall rank acc_of h0 os s evs h,
  run rank acc_of (init h0) os = Ok (s, evs) -> StronglySorted Z.lt (judged h evs).
Proof. exact judged_once. Qed.
Print Assumptions C70_judged_once.
(* No set is judged before its window has passed. *)
Theorem C70_never_early : forall rank acc_of h0 os s evs h w,
  run rank acc_of (init h0) os = Ok (s, evs) -> Forall (window_at_least h w) os ->
  forall n made now, In (EvJudged h n made now) evs -> n + w < now.
Proof. exact never_early. Qed.
Print Assumptions C70_never_early.

(* Whoever is slashed in a block owed a confirmation of a stored set whose window has passed
   and that was not judged before. *)
Theorem C70_only_debtors : forall rank acc_of h0 os s evs bonded unbonding ps s' e h n o,
  run rank acc_of (init h0) os = Ok (s, evs) -> step rank acc_of s (OBlock bonded unbonding ps) = Ok (s', e) -> NoDup (map p_h ps) ->
  In (EvSlash h n o) e ->
  exists p v, In p ps /\ p_h p = h /\ zget (b_sets (s_br s h)) n = Some v /\ b_slashed (s_br s h) < n /\ n + p_window p < s_height s /\
    ((exists x, In x bonded /\ sv_op x = o /\ owes acc_of (s_br s h) v x) \/
     (exists x, In x unbonding /\ uv_op x = o /\ owes_leaving acc_of p (s_br s h) v x)).
Proof. intros rank acc_of h0 os s evs bonded unbonding ps s' e h n o R St N H. exact (block_slashes rank acc_of s bonded unbonding ps s' e h n o (run_keyed _ _ _ _ _ _ R) St N H). Qed.
Print Assumptions C70_only_debtors.
(* On the first bridge of the list everybody who owes is slashed. *)
Theorem C70_all_debtors : forall rank acc_of h0 os s evs bonded unbonding p r s' e n v o,
  run rank acc_of (init h0) os = Ok (s, evs) -> step rank acc_of s (OBlock bonded unbonding (p :: r)) = Ok (s', e) -> p_reset p = false ->
  zget (b_sets (s_br s (p_h p))) n = Some v -> b_slashed (s_br s (p_h p)) < n -> 0 < n -> n + p_window p < s_height s ->
  ((exists x, In x bonded /\ sv_op x = o /\ owes acc_of (s_br s (p_h p)) v x) \/
   (exists x, In x unbonding /\ uv_op x = o /\ owes_leaving acc_of p (s_br s (p_h p)) v x)) ->
  In (EvSlash (p_h p) n o) e /\ In (EvJudged (p_h p) n (v_height v) (s_height s)) e.
Proof.
  intros rank acc_of h0 os s evs bonded unbonding p r s' e n v o R St Nr G L Pos W Gu.
  exact (block_slashes_first rank acc_of s bonded unbonding p r s' e n v o (run_keyed _ _ _ _ _ _ R) St Nr G L Pos W Gu).
Qed.
Print Assumptions C70_all_debtors.
(* A validator that is its own orchestrator, and for whose registered address a confirmation
   is stored, is not slashed for that set as a bonded validator. *)
Theorem C70_confirmed_is_safe : forall acc_of b v x c e,
  zget (b_orch b) (acc_of (sv_op x)) = Some (sv_op x) -> zget (b_eth b) (sv_op x) = Some e ->
  In c (b_confs b) -> cf_nonce c = v_nonce v -> cf_eth c = e -> ~ owes acc_of b v x.
Proof. intros acc_of b v x c e Ho He Hc Hn Ha (_ & _ & w & Hw & H). rewrite Ho in Hw. injection Hw as <-. exact (H c e Hc Hn He Ha). Qed.
Print Assumptions C70_confirmed_is_safe.

(* One bridge first in the list, offset zero, never reset, all bridges with the same window:
   every set is judged as soon as its window has passed, and pruned only after that. *)
Theorem C70_first_bridge_judged_partial : forall rank acc_of w p r h0 os s evs,
  0 <= w -> 0 < h0 -> Forall (plain w) (p :: r) -> NoDup (map p_h (p :: r)) ->
  Forall (blocks_use (p :: r)) os -> run rank acc_of (init h0) os = Ok (s, evs) ->
  (forall v, In v (created (p_h p) evs) -> v_nonce v + w < s_height s - 1 -> In (v_nonce v) (judged (p_h p) evs)) /\
  (forall before n after, evs = before ++ EvPruned (p_h p) n :: after -> In n (judged (p_h p) before)).
Proof.
  intros rank acc_of w p r h0 os s evs Wp H0 F N B R.
  destruct (first_run rank acc_of (p_h p) w p r h0 os s evs eq_refl Wp H0 F N B R) as (_ & _ & _ & C & _ & Pa). split; [|exact Pa].
  intros v Hv L. destruct (C v Hv) as (_ & _ & [J|(_ & _ & Fv)]); [exact J|lia].
Qed.
Print Assumptions C70_first_bridge_judged_partial.

Definition ps2 : list cparams := [par 1 2 0; par 2 2 0].
Definition keys2 : list op := keys ++ [OSetKeys 2 1 1 71 true; OSetKeys 2 2 2 72 true].
(* validator 1 confirms the first set of bridge 1, validator 2 does not *)
Definition trial : list op := keys2 ++ [blk ps2; OConfirm 1 1 1 71 (Some 5); blk ps2; OUnbond; blk ps2; OObserve 1 3; blk ps2; blk ps2].
Example C70_example : exists s evs, go 1 trial = Ok (s, evs) /\ Forall (plain 2) ps2 /\ NoDup (map p_h ps2) /\ Forall (blocks_use ps2) trial /\
  map v_nonce (created 1 evs) = [1; 3] /\ judged 1 evs = [1] /\ slashed 1 1 evs = [2] /\ In (EvPruned 1 1) evs /\ In (EvJudged 1 1 1 4) evs.
Proof.
  do 2 eexists. split; [vm_compute; reflexivity|]. split; [repeat constructor|]. split; [repeat constructor; cbn; intuition discriminate|].
  split; [repeat constructor; reflexivity|]. vm_compute. repeat split; tauto.
Qed.

(* With an offset, sets are pruned before they are judged: nobody answers for them. *)
Theorem C70_offset_refuted : exists os s evs n,
  go 1 os = Ok (s, evs) /\ In (EvPruned 1 n) evs /\ judged 1 evs = [] /\ (forall o, ~ In (EvSlash 1 n o) evs) /\ b_confs (s_br s 1) = [].
Proof.
  exists (keys ++ [blk [par 1 2 100]; OUnbond; blk [par 1 2 100]; OObserve 1 102; blk [par 1 2 100]; blk [par 1 2 100]]). do 2 eexists. exists 101.
  split; [vm_compute; reflexivity|]. split; [vm_compute; tauto|]. split; [vm_compute; reflexivity|]. split; [|vm_compute; reflexivity].
  intros o H. vm_compute in H. intuition discriminate.
Qed.
Print Assumptions C70_offset_refuted.
(* Two bridges with the same window and no offset: the turn of the first prunes the sets of
   the second in the block in which they would have been judged. *)
Theorem C70_second_bridge_refuted : exists os s evs n,
  go 1 os = Ok (s, evs) /\ Forall (blocks_use ps2) os /\ Forall (plain 2) ps2 /\
  In (EvPruned 2 n) evs /\ judged 2 evs = [] /\ (forall o, ~ In (EvSlash 2 n o) evs) /\ b_confs (s_br s 2) = [].
Proof.
  exists (keys2 ++ [blk ps2; OUnbond; blk ps2; OObserve 2 2; blk ps2; blk ps2]). do 2 eexists. exists 1.
  split; [vm_compute; reflexivity|]. split; [repeat constructor; reflexivity|]. split; [repeat constructor|]. split; [vm_compute; tauto|]. split; [vm_compute; reflexivity|]. split; [|vm_compute; reflexivity].
  intros o H. vm_compute in H. intuition discriminate.
Qed.
Print Assumptions C70_second_bridge_refuted.
(* A bridge listed later with a shorter window prunes the sets of the first one unjudged. *)
Theorem C70_other_window_refuted : exists os s evs n ps,
  go 1 os = Ok (s, evs) /\ ps = [par 1 5 0; par 2 1 0] /\ Forall (blocks_use ps) os /\
  In (EvPruned 1 n) evs /\ judged 1 evs = [] /\ (forall o, ~ In (EvSlash 1 n o) evs) /\ b_confs (s_br s 1) = [].
Proof.
  set (q := [par 1 5 0; par 2 1 0]). exists (keys ++ [blk q; OUnbond; blk q; OObserve 1 2; blk q; blk q; blk q; blk q; blk q]). do 2 eexists. exists 1, q.
  split; [vm_compute; reflexivity|]. split; [reflexivity|]. split; [repeat constructor; reflexivity|]. split; [vm_compute; tauto|]. split; [vm_compute; reflexivity|]. split; [|vm_compute; reflexivity].
  intros o H. vm_compute in H. intuition discriminate.
Qed.
Print Assumptions C70_other_window_refuted.

Definition one : list cparams := [par 1 2 0].
Definition wait : list op := [blk one; blk one; blk one; blk one; blk one].
(* A validator with a separate orchestrator account is never slashed, although it confirmed nothing. *)
Theorem C70_separate_key_refuted : exists os s evs,
  go 1 os = Ok (s, evs) /\ os = [OSetKeys 1 1 11 71 true; OSetKeys 1 2 2 72 true] ++ wait /\
  judged 1 evs = [1] /\ b_confs (s_br s 1) = [] /\ slashed 1 1 evs = [2].
Proof. exists ([OSetKeys 1 1 11 71 true; OSetKeys 1 2 2 72 true] ++ wait). do 2 eexists. split; [vm_compute; reflexivity|]. split; [reflexivity|]. vm_compute. auto. Qed.
Print Assumptions C70_separate_key_refuted.
(* Validator 2 names the account of validator 1 as its orchestrator. Validator 1 confirms
   through its own orchestrator 11, under its registered address, and is slashed. *)
Theorem C70_foreign_key_refuted : exists os s evs,
  go 1 os = Ok (s, evs) /\
  os = [OSetKeys 1 2 1 72 true; OSetKeys 1 1 11 71 true; blk one; OConfirm 1 1 11 71 (Some 5); blk one; blk one; blk one] /\
  b_confs (s_br s 1) = [mk_conf 1 11 71 5] /\ zget (b_orch (s_br s 1)) 11 = Some 1 /\ zget (b_eth (s_br s 1)) 1 = Some 71 /\
  slashed 1 1 evs = [1].
Proof. exists ([OSetKeys 1 2 1 72 true; OSetKeys 1 1 11 71 true; blk one; OConfirm 1 1 11 71 (Some 5); blk one; blk one; blk one]). do 2 eexists. split; [vm_compute; reflexivity|]. split; [reflexivity|]. vm_compute. auto. Qed.
Print Assumptions C70_foreign_key_refuted.
(* Validator 2 confirms and names the address of validator 1, which confirms nothing: validator
   1 is spared, and validator 2 is slashed. *)
Theorem C70_named_address_refuted : exists os s evs,
  go 1 os = Ok (s, evs) /\ os = keys ++ [blk one; OConfirm 1 1 2 71 (Some 5); blk one; blk one; blk one] /\
  map cf_orch (b_confs (s_br s 1)) = [2] /\ slashed 1 1 evs = [2].
Proof. exists (keys ++ [blk one; OConfirm 1 1 2 71 (Some 5); blk one; blk one; blk one]). do 2 eexists. split; [vm_compute; reflexivity|]. split; [reflexivity|]. vm_compute. auto. Qed.
Print Assumptions C70_named_address_refuted.
(* If operator addresses cannot be read as account addresses, nobody is ever slashed. *)
Theorem C70_operator_text_refuted : exists os s evs,
  run idz (fun _ => -1) (init 1) os = Ok (s, evs) /\ os = keys ++ wait /\ judged 1 evs = [1] /\ b_confs (s_br s 1) = [] /\ slashed 1 1 evs = [].
Proof. exists (keys ++ wait). do 2 eexists. split; [vm_compute; reflexivity|]. split; [reflexivity|]. vm_compute. auto. Qed.
Print Assumptions C70_operator_text_refuted.

(* ================= C42: confirmations ================= *)

(* A confirmation of a set appears only through a message naming a stored set, from an
   orchestrator registered for a validator with a registered address, that had not confirmed
   this set before; nothing else about the confirmations changes. (Missing: the signature.) *)
Theorem C42_set_confirmation_partial : forall rank acc_of s o s' e h,
  step rank acc_of s o = Ok (s', e) ->
  b_confs (s_br s' h) = b_confs (s_br s h) \/
  exists n x a g v w k, o = OConfirm h n x a (Some g) /\ b_confs (s_br s' h) = mk_conf n x a g :: b_confs (s_br s h) /\
    zget (b_sets (s_br s h)) n = Some v /\ zget (b_orch (s_br s h)) x = Some w /\ zget (b_eth (s_br s h)) w = Some k /\
    (forall c, In c (b_confs (s_br s h)) -> ~ (cf_nonce c = n /\ cf_orch c = x)).
Proof. exact step_confs. Qed.
Print Assumptions C42_set_confirmation_partial.
Theorem C42_batch_confirmation_partial : forall rank acc_of s o s' e h,
  is_msg o -> step rank acc_of s o = Ok (s', e) ->
  b_bconfs (s_br s' h) = b_bconfs (s_br s h) \/
  exists t n x a g v w k, o = OConfirmBatch h t n x a (Some g) /\ b_bconfs (s_br s' h) = mk_bconf t n x a g :: b_bconfs (s_br s h) /\
    In v (b_batches (s_br s h)) /\ bt_token v = t /\ bt_nonce v = n /\ zget (b_orch (s_br s h)) x = Some w /\ zget (b_eth (s_br s h)) w = Some k /\
    (forall c, In c (b_bconfs (s_br s h)) -> ~ (bc_token c = t /\ bc_nonce c = n /\ bc_orch c = x)).
Proof. exact msg_bconfs. Qed.
Print Assumptions C42_batch_confirmation_partial.
(* At most one confirmation per set or batch and orchestrator, and none is ever changed or lost. *)
Theorem C42_once_and_kept : forall rank acc_of h0 os os' s evs s' evs' h,
  run rank acc_of (init h0) os = Ok (s, evs) -> run rank acc_of s os' = Ok (s', evs') ->
  NoDup (map (fun c => (cf_nonce c, cf_orch c)) (b_confs (s_br s' h))) /\
  NoDup (map (fun c => (bc_token c, bc_nonce c, bc_orch c)) (b_bconfs (s_br s' h))) /\
  (forall c, In c (b_confs (s_br s h)) -> In c (b_confs (s_br s' h))) /\
  (forall c, In c (b_bconfs (s_br s h)) -> In c (b_bconfs (s_br s' h))).
Proof.
  intros rank acc_of h0 os os' s evs s' evs' h R R'.
  destruct (confs_run rank acc_of h os (init h0) s evs ltac:(split; constructor) R) as (I & _). destruct (confs_run rank acc_of h os' s s' evs' I R') as ([A B] & C & D). auto.
Qed.
Print Assumptions C42_once_and_kept.
Definition talk : list op := keys ++ [blk one; OConfirm 1 1 1 71 (Some 5); OConfirm 1 1 1 71 (Some 6); OConfirm 1 1 3 73 (Some 7); OConfirm 1 9 2 72 (Some 8);
  OBatch 1 (mk_batch 4 80 100 [(1, 2, 3)]); OConfirmBatch 1 80 4 2 72 (Some 9); OConfirmBatch 1 80 4 2 72 (Some 10); OConfirmBatch 1 80 5 2 72 (Some 9)].
Example C42_example : exists s evs, go 1 talk = Ok (s, evs) /\ b_confs (s_br s 1) = [mk_conf 1 1 71 5] /\ b_bconfs (s_br s 1) = [mk_bconf 80 4 2 72 9].
Proof. do 2 eexists. split; [vm_compute; reflexivity|]. vm_compute. auto. Qed.

(* What is signed: the words of a set fix its number, members in order, powers and reward... *)
Lemma app_same {A} (a b c d : list A) : length a = length c -> a ++ b = c ++ d -> a = c /\ b = d.
Proof.
  revert c. induction a as [|x a IH]; intros [|y c] L E; cbn in L; try discriminate; [auto|]. cbn [app] in E. injection E as -> E.
  destruct (IH c ltac:(lia) E) as [-> ->]. auto.
Qed.
Theorem C42_set_words_bind : forall h h' v v', set_words h v = set_words h' v' ->
  v_nonce v = v_nonce v' /\ v_members v = v_members v' /\ v_reward v = v_reward v' /\ v_token v = v_token v'.
Proof.
  intros h h' v v' E. unfold set_words in E. cbn [app] in E. injection E as En _ Er Et El E.
  assert (length (v_members v) = length (v_members v')) as L by lia.
  apply app_same in E as [E1 E2]; [|rewrite !map_length; exact L]. injection E2 as _ E2.
  split; [exact En|]. split; [|auto]. revert E1 E2. generalize (v_members v), (v_members v'). induction l as [|[a p] l IH]; intros [|[a' p'] l'] E1 E2; try discriminate; [reflexivity|].
  cbn [map m_eth m_power] in *. injection E1 as -> E1. injection E2 as -> E2. f_equal. apply IH; assumption.
Qed.
Print Assumptions C42_set_words_bind.
(* ... those of a batch its number, token, time limit, and amounts and destinations in order... *)
Theorem C42_batch_words_bind : forall h h' b b', batch_words h b = batch_words h' b' ->
  bt_nonce b = bt_nonce b' /\ bt_token b = bt_token b' /\ bt_timeout b = bt_timeout b' /\
  map fst (bt_txs b) = map fst (bt_txs b').
Proof.
  intros h h' b b' E. unfold batch_words in E. cbn [app] in E. injection E as _ _ En Et Eo El E.
  assert (length (bt_txs b) = length (bt_txs b')) as L by lia.
  apply app_same in E as [E1 E2]; [|rewrite !map_length; exact L]. injection E2 as _ E2. apply app_same in E2 as [E2 _]; [|rewrite !map_length; exact L].
  split; [exact En|]. split; [exact Et|]. split; [exact Eo|]. revert E1 E2. generalize (bt_txs b), (bt_txs b'). induction l as [|[[x d] f] l IH]; intros [|[[x' d'] f'] l'] E1 E2; try discriminate; [reflexivity|].
  cbn [map fst snd] in *. injection E1 as -> E1. injection E2 as -> E2. f_equal. apply IH; assumption.
Qed.
Print Assumptions C42_batch_words_bind.
(* ... and a signed set is never a signed batch. *)
Theorem C42_kinds_differ : forall h h' v b, set_words h v <> batch_words h' b.
Proof. intros h h' v b E. unfold set_words, batch_words in E. cbn [app] in E. injection E as E _. unfold word_checkpoint, word_batch in E. discriminate. Qed.
Print Assumptions C42_kinds_differ.

(* Any text of the right form is accepted as a signature. *)
Theorem C42_any_signature_refuted : forall g, exists s evs,
  go 1 (keys ++ [blk one; OConfirm 1 1 1 71 (Some g)]) = Ok (s, evs) /\ b_confs (s_br s 1) = [mk_conf 1 1 71 g].
Proof. intro g. do 2 eexists. split; [vm_compute; reflexivity|]. vm_compute. reflexivity. Qed.
Print Assumptions C42_any_signature_refuted.
(* The address stored with a confirmation need not be the registered one. *)
Theorem C42_named_address_refuted : exists os s evs c w k,
  go 1 os = Ok (s, evs) /\ b_confs (s_br s 1) = [c] /\ zget (b_orch (s_br s 1)) (cf_orch c) = Some w /\ zget (b_eth (s_br s 1)) w = Some k /\ cf_eth c <> k.
Proof. exists (keys ++ [blk one; OConfirm 1 1 1 999 (Some 5)]). do 5 eexists. split; [vm_compute; reflexivity|]. vm_compute. repeat split. discriminate. Qed.
Print Assumptions C42_named_address_refuted.
(* What is signed does not name the bridge: a confirmation is as good on another one. *)
Theorem C42_other_bridge_refuted : forall h h' v b, set_words h v = set_words h' v /\ batch_words h b = batch_words h' b.
Proof. intros. split; reflexivity. Qed.
Print Assumptions C42_other_bridge_refuted.
(* What is signed for a batch does not contain the fees. *)
Theorem C42_fees_refuted : exists h b b', batch_words h b = batch_words h b' /\ bt_txs b <> bt_txs b'.
Proof. exists 1, (mk_batch 1 2 3 [(4, 5, 6)]), (mk_batch 1 2 3 [(4, 5, 7)]). split; [reflexivity|discriminate]. Qed.
Print Assumptions C42_fees_refuted.
