(** C113: the limits on JSON-RPC requests. *)
From Verif Require Import Lib.Base Lib.Bytes Limits.Model Limits.Spec Limits.Proofs.
From Coq Require Import NArith Lia.
Open Scope Z_scope.

(** A setting, and a schedule, for the examples. *)
Definition ip_a : text := [49]%N.
Definition ip_b : text := [50]%N.
Definition slow : text := [115]%N.
Definition ask (k m : text) : request := Request k [] [] m.
Definition g0 : config := Config 2 100 [(slow, 1)] 2 50 1000.
Definition mean2 (a b : Z) : Z := (a + b) / 2.

(** In no window does a client get more requests past its limit than the limit
    says: the window may end at any time, and begin anywhere between requests. *)
Theorem C113_no_client_exceeds_its_limit :
  forall ema g es from, in_order from es -> no_reset es ->
  forall t k, served (g_window g) t k (v_log (run ema g es)) <= Z.max 0 (g_limit g) /\
              count (g_window g) t k (v_log (run ema g es)) <= Z.max 0 (g_limit g).
Proof.
  intros ema g es from O N t k. destruct (count_bound ema g es from O N t k) as [C _].
  pose proof (served_count (g_window g) t k (v_log (run ema g es))). lia.
Qed.

Theorem C113_no_client_exceeds_the_limit_of_a_method :
  forall ema g es from, in_order from es -> no_reset es ->
  forall t k m, count_method (g_window g) t k m (v_log (run ema g es)) <=
                Z.max 0 (limit_of (g_limit g) (g_methods g) m).
Proof. intros ema g es from O N t k m. apply (count_bound ema g es from O N t k). Qed.

Definition es0 : list event :=
  [Arrive 10 (ask ip_a slow); Arrive 20 (ask ip_b []); Finish 30 ip_a slow 20 false;
   Arrive 40 (ask ip_a slow); Arrive 50 (ask ip_a []); Finish 60 ip_b [] 40 false;
   Arrive 115 (ask ip_a [])].

Example C113_limits_ex :
  in_order 0 es0 /\ no_reset es0 /\
  map e_out (v_log (run mean2 g0 es0)) = [Served; Served; TooFastMethod; TooFast; TooMuchTime] /\
  served 100 20 ip_a (v_log (run mean2 g0 es0)) = 1 /\
  count 100 50 ip_a (v_log (run mean2 g0 es0)) = 2 /\
  count 100 115 ip_a (v_log (run mean2 g0 es0)) = 2.
Proof.
  repeat match goal with |- _ /\ _ => split end; try reflexivity; try (cbn; lia).
  repeat apply Forall_cons; try exact Logic.I. apply Forall_nil.
Qed.

(** The answer to every request that gets a connection.  A client below its
    limits is served, whatever the other clients do. *)
Theorem C113_answer_of_every_request :
  forall ema g es from now q,
  in_order from (es ++ [Arrive now q]) -> no_reset es -> sound ema g es ->
  let s := run ema g es in
  let k := client q in
  let w := g_window g in
  exists o, answer (run ema g (es ++ [Arrive now q])) = Some o /\
  v_log (run ema g (es ++ [Arrive now q])) = v_log s ++ [Entry now k (q_method q) o] /\
  (o <> TooManyConnections ->
   o = if g_limit g <=? count w now k (v_log s) then TooFast
       else if limit_of (g_limit g) (g_methods g) (q_method q) <=? count_method w now k (q_method q) (v_log s)
       then TooFastMethod
       else if exempt k || (spent (g_time_window g) now k es + estimate (v_track s) k (q_method q) <=? g_time g)
       then Served else TooMuchTime).
Proof.
  intros ema g es from now q O N SD. cbv zeta.
  exists (verdict g (run ema g es) now q).
  pose proof (verdict_step ema g es from now q O N) as L.
  split; [|split; [exact L|]].
  - unfold answer. rewrite L, rev_app_distr. reflexivity.
  - unfold verdict. destruct (g_conns g <=? _); [congruence|]. intros _.
    destruct (g_limit g <=? _); [reflexivity|]. destruct (limit_of _ _ _ <=? _); [reflexivity|].
    unfold predict, estimate. rewrite <- (entries_spent ema g es SD N).
    destruct (exempt (client q)); reflexivity.
Qed.

(** A client that has not finished a request is expected to need no time; one
    that has, some. *)
Theorem C113_estimate :
  forall c k m, 0 <= estimate c k m /\ (c_entries c k = [] -> estimate c k m = 0) /\
  (c_entries c k <> [] -> 0 < estimate c k m).
Proof.
  intros c k m. unfold estimate. destruct (c_entries c k) as [|x l].
  - repeat split; try lia; congruence.
  - destruct (0 <? c_average c m) eqn:E; unfold default_time; repeat split; try discriminate; intros; lia.
Qed.

Example C113_answer_ex :
  in_order 0 (firstn 4 es0 ++ [Arrive 50 (ask ip_a [])]) /\ no_reset (firstn 4 es0) /\
  sound mean2 g0 (firstn 4 es0) /\
  answer (run mean2 g0 (firstn 4 es0 ++ [Arrive 50 (ask ip_a [])])) = Some TooFast /\
  answer (run mean2 g0 (firstn 2 es0)) = Some Served /\
  estimate (v_track (run mean2 g0 (firstn 3 es0))) ip_a slow = 20.
Proof.
  repeat match goal with |- _ /\ _ => split end; try reflexivity; try (cbn; lia).
  - repeat apply Forall_cons; try exact Logic.I. apply Forall_nil.
  - intros n now k m d o H. destruct n as [|[|[|[|n]]]]; cbn [firstn es0 nth_error] in H; try discriminate.
    + injection H as <- <- <- <- <-. vm_compute. auto.
    + destruct n; discriminate.
Qed.

(** Cleaning up, whenever it is done, changes no answer. *)
Theorem C113_cleaning_changes_no_answer :
  forall us limit window from, uses_in_order from us ->
  answers (new_limiter limit window) us = answers (new_limiter limit window) (filter is_ask us).
Proof. intros us limit window from H. apply same_answers with from; auto. Qed.

Example C113_cleaning_ex :
  let us := [Ask 1 ip_a; Clean 50; Ask 60 ip_a; Ask 61 ip_b; Clean 102; Ask 103 ip_a; Ask 104 ip_a] in
  uses_in_order 0 us /\ answers (new_limiter 2 100) us = [true; true; true; true; false].
Proof. cbn. repeat split; lia. Qed.

(** As long as no client sends a request before its last one is answered, no
    more than the allowed number of requests is served at once, and a request
    is refused a connection exactly when that number is reached. *)
Theorem C113_connections_partial :
  forall ema g es, one_at_a_time ema g es ->
  Z.of_nat (length (v_flying (run ema g es))) <= Z.max 0 (g_conns g) /\
  (forall now q from, in_order from (es ++ [Arrive now q]) -> no_reset es ->
   (answer (run ema g (es ++ [Arrive now q])) = Some TooManyConnections <->
    g_conns g <= Z.of_nat (length (v_flying (run ema g es))))).
Proof.
  intros ema g es H. split; [exact (flying_bound ema g es H)|].
  intros now q from O N. unfold answer. rewrite (verdict_step ema g es from now q O N), rev_app_distr.
  cbn [rev app e_out]. destruct (conns_flying ema g es H) as [E _]. unfold verdict. rewrite E.
  destruct (g_conns g <=? _) eqn:G.
  - apply Z.leb_le in G. tauto.
  - apply Z.leb_gt in G. split; [|lia].
    destruct (g_limit g <=? _); [discriminate|]. destruct (limit_of _ _ _ <=? _); [discriminate|].
    destruct (predict _ _ _ _ _ _); discriminate.
Qed.

Definition es1 : list event := [Arrive 10 (ask ip_a []); Arrive 20 (ask ip_b [])].

Example C113_connections_ex :
  one_at_a_time mean2 g0 es1 /\ in_order 0 (es1 ++ [Arrive 30 (ask slow [])]) /\ no_reset es1 /\
  length (v_flying (run mean2 g0 es1)) = 2%nat /\
  answer (run mean2 g0 (es1 ++ [Arrive 30 (ask slow [])])) = Some TooManyConnections.
Proof.
  repeat match goal with |- _ /\ _ => split end; try reflexivity; try (cbn; lia).
  - intros n now q H. destruct n as [|[|n]]; cbn [es1 nth_error] in H.
    + injection H as <- <-. vm_compute. tauto.
    + injection H as <- <-. vm_compute. intros [C|[]]; discriminate C.
    + destruct n; discriminate.
  - repeat apply Forall_cons; try exact Logic.I. apply Forall_nil.
Qed.

(** Under the same condition the time spent on a client in a window exceeds the
    limit by no more than one request. *)
Theorem C113_computing_time_partial :
  forall ema g es from D, in_order from es -> no_reset es -> one_at_a_time ema g es ->
  sound ema g es -> durations_within D es -> 0 <= D -> 0 <= g_time g ->
  forall k now, exempt k = false -> last_time from es <= now ->
  spent (g_time_window g) now k es <= g_time g + D.
Proof.
  intros ema g es from D O N A SD DW HD HT k now X L.
  pose proof (proj2 (time_bound ema g es from D O N A SD DW HD HT k X)) as B.
  pose proof (spent_mono (g_time_window g) k es D (last_time from es) now DW L). lia.
Qed.

Definition es2 : list event :=
  [Arrive 10 (ask ip_a []); Finish 90 ip_a [] 80 false; Arrive 100 (ask ip_a [])].

Example C113_computing_time_ex :
  in_order 0 es2 /\ no_reset es2 /\ one_at_a_time mean2 g0 es2 /\ sound mean2 g0 es2 /\
  durations_within 80 es2 /\ exempt ip_a = false /\ spent 1000 100 ip_a es2 = 80 /\
  answer (run mean2 g0 es2) = Some TooMuchTime.
Proof.
  repeat match goal with |- _ /\ _ => split end; try reflexivity; try (cbn; lia).
  - repeat apply Forall_cons; try exact Logic.I. apply Forall_nil.
  - intros n now q H. destruct n as [|[|[|n]]]; cbn [es2 nth_error] in H.
    + injection H as <- <-. vm_compute. tauto.
    + discriminate.
    + injection H as <- <-. vm_compute. tauto.
    + destruct n; discriminate.
  - intros n now k m d o H. destruct n as [|[|[|n]]]; cbn [es2 nth_error] in H; try discriminate.
    + injection H as <- <- <- <- <-. vm_compute. auto.
    + destruct n; discriminate.
  - repeat apply Forall_cons; try exact Logic.I; [lia|]. apply Forall_nil.
Qed.

(** ** What does not hold *)

(** A server that serves what comes: the state after n requests. *)
Lemma all_served : forall ema g qs now,
  g_methods g = [] -> 0 <= g_time g -> 0 < g_limit g ->
  (forall n q, nth_error qs n = Some q ->
     g_conns g > Z.of_nat (length (v_conns (run ema g (map (Arrive now) (firstn n qs))))) /\
     g_limit g > count (g_window g) now (client q) (v_log (run ema g (map (Arrive now) (firstn n qs))))) ->
  let s := run ema g (map (Arrive now) qs) in
  v_log s = map (fun q => Entry now (client q) (q_method q) Served) qs /\
  v_flying s = rev (map client qs) /\
  v_conns s = fold_left (fun l q => if mem (client q) l then l else client q :: l) qs [] /\
  v_track s = new_tracker.
Proof.
  intros ema g qs now M T L. induction qs as [|q qs IH] using rev_ind; intros H; cbv zeta.
  - cbn [map]. unfold run. cbn [fold_left start v_log v_flying v_conns v_track]. auto.
  - assert (H' : forall n q0, nth_error qs n = Some q0 ->
     g_conns g > Z.of_nat (length (v_conns (run ema g (map (Arrive now) (firstn n qs))))) /\
     g_limit g > count (g_window g) now (client q0) (v_log (run ema g (map (Arrive now) (firstn n qs))))).
    { intros n q0 E. assert (Lt : (n < length qs)%nat) by (apply nth_error_Some; congruence).
      specialize (H n q0). rewrite nth_error_app1 in H by exact Lt. specialize (H E).
      rewrite firstn_app in H. replace (n - length qs)%nat with 0%nat in H by lia. cbn [firstn] in H.
      rewrite app_nil_r in H. exact H. }
    destruct (IH H') as (E1 & E2 & E3 & E4). clear IH H'.
    specialize (H (length qs) q). rewrite nth_error_app2, Nat.sub_diag in H by lia. specialize (H eq_refl).
    rewrite firstn_app, Nat.sub_diag, firstn_all in H. cbn [firstn] in H. rewrite app_nil_r in H.
    destruct H as [H1 H2].
    assert (OR : in_order now (map (Arrive now) qs)).
    { clear. induction qs; cbn; [exact Logic.I|]. split; [lia|assumption]. }
    assert (NR : no_reset (map (Arrive now) qs)).
    { clear. unfold no_reset. apply Forall_map. apply Forall_forall. cbn. auto. }
    assert (LT : last_time now (map (Arrive now) qs) <= now).
    { clear. unfold last_time. destruct qs as [|a qs] using rev_ind; cbn [map fold_left]; [lia|].
      rewrite map_app, fold_left_app. cbn. lia. }
    pose proof (weaken _ _ _ _ (run_inv ema g _ now OR NR) LT) as V.
    rewrite map_app. cbn [map]. rewrite run_snoc. cbn [step].
    set (s := run ema g (map (Arrive now) qs)) in *.
    pose proof (arrive_shape g s now q V) as SH. cbv zeta in SH.
    assert (VD : verdict g s now q = Served).
    { unfold verdict. rewrite (proj2 (Z.leb_gt (g_conns g) _)) by lia.
      rewrite (proj2 (Z.leb_gt (g_limit g) _)) by lia. rewrite M. cbn [limit_of].
      assert (CM : count_method (g_window g) now (client q) (q_method q) (v_log s) <=
                   count (g_window g) now (client q) (v_log s)).
      { unfold count_method, count. apply inj_le. apply filter_le_len. intros x _ Y.
        apply andb_prop in Y. destruct Y as [Y W]. apply andb_prop in Y. destruct Y as [Y C].
        apply andb_prop in Y. destruct Y as [Y _]. rewrite Y, W. destruct (e_out x); try discriminate; reflexivity. }
      rewrite (proj2 (Z.leb_gt (g_limit g) _)) by lia.
      rewrite E4. unfold predict. destruct (exempt (client q)); [reflexivity|].
      cbn [new_tracker c_entries total filter map fold_right].
      rewrite (proj2 (Z.leb_le (0 + 0) (g_time g))) by lia. reflexivity. }
    rewrite VD in SH. destruct SH as (L1 & L2 & L3 & L4 & _).
    rewrite L1, L2, L3, L4, E1, E2, E3, E4, !map_app, rev_app_distr, fold_left_app.
    repeat match goal with |- _ /\ _ => split end; reflexivity.
Qed.

Lemma count_served : forall now k qs w,
  count w now k (map (fun q => Entry now (client q) (q_method q) Served) qs) <= Z.of_nat (length qs).
Proof.
  intros now k qs w. unfold count. apply inj_le. rewrite <- (map_length (fun q => Entry now (client q) (q_method q) Served)).
  induction (map _ qs) as [|x l IH]; cbn [filter length]; [lia|]. destruct (_ && _); cbn [length]; lia.
Qed.

(** The limit on connections counts clients: with two connections allowed one
    client has any number of requests served at once. *)
Theorem C113_refuted_connections_of_one_client :
  forall ema n k, k <> [] -> exists g es from,
  g_conns g = 2 /\ in_order from es /\ no_reset es /\
  v_flying (run ema g es) = repeat k n.
Proof.
  intros ema n k K. set (g := Config (Z.of_nat n + 1) 1 [] 2 0 1).
  exists g, (map (Arrive 0) (repeat (ask k []) n)), 0.
  assert (C : client (ask k []) = k) by (destruct k; [congruence|reflexivity]).
  assert (A : forall m, (m <= n)%nat ->
    let s := run ema g (map (Arrive 0) (repeat (ask k []) m)) in
    v_log s = map (fun q => Entry 0 (client q) (q_method q) Served) (repeat (ask k []) m) /\
    v_flying s = rev (map client (repeat (ask k []) m)) /\ (length (v_conns s) <= 1)%nat).
  { induction m as [m IH] using lt_wf_ind. intros Lm. cbv zeta.
    assert (FN : forall j, (j < m)%nat -> firstn j (repeat (ask k []) m) = repeat (ask k []) j).
    { intros j Hj. replace m with (j + (m - j))%nat by lia. rewrite repeat_app, firstn_app, repeat_length.
      rewrite Nat.sub_diag. cbn [firstn]. rewrite app_nil_r. rewrite firstn_all2; [reflexivity|].
      rewrite repeat_length. lia. }
    pose proof (all_served ema g (repeat (ask k []) m) 0 eq_refl) as B.
    assert (B1 : 0 <= g_time g) by (cbn; lia). assert (B2 : 0 < g_limit g) by (cbn [g g_limit]; lia).
    specialize (B B1 B2). cbv zeta in B. destruct B as (E1 & E2 & E3 & _).
    { intros j q Hq. assert (Lt : (j < m)%nat).
      { rewrite <- (repeat_length (ask k []) m). apply nth_error_Some. congruence. }
      rewrite (FN j Lt). destruct (IH j Lt ltac:(lia)) as (F1 & _ & F3).
      cbn [g g_conns g_limit]. split; [lia|]. rewrite F1.
      pose proof (count_served 0 (client q) (repeat (ask k []) j) (g_window g)) as Q.
      rewrite repeat_length in Q. lia. }
    split; [exact E1|]. split; [exact E2|]. rewrite E3. clear -C.
    assert (G : forall j l, l = [] \/ l = [k] ->
      (length (fold_left (fun l q => if mem (client q) l then l else client q :: l) (repeat (ask k []) j) l) <= 1)%nat).
    { induction j as [|j IH]; intros l Hl; cbn [repeat fold_left].
      - destruct Hl as [->| ->]; cbn; lia.
      - apply IH. rewrite C. destruct Hl as [->| ->].
        + right. reflexivity.
        + right. cbn [mem existsb]. rewrite beqb_refl. reflexivity. }
    apply G. left. reflexivity. }
  destruct (A n (le_n n)) as (_ & E2 & _).
  repeat match goal with |- _ /\ _ => split end; try reflexivity.
  - clear. induction n; cbn; [exact Logic.I|]. split; [lia|assumption].
  - unfold no_reset. apply Forall_map. apply Forall_forall. cbn. auto.
  - rewrite E2. clear -C. induction n as [|n IH]; [reflexivity|].
    cbn [repeat map rev]. rewrite IH, C. clear. induction n; cbn; [reflexivity|]. f_equal. assumption.
Qed.

(** Requests that name different clients are all served. *)
Lemma named_served : forall ema qs, NoDup (map client qs) ->
  exists g, g_limit g = 1 /\ 
  v_log (run ema g (map (Arrive 0) qs)) = map (fun q => Entry 0 (client q) (q_method q) Served) qs.
Proof.
  intros ema qs ND. set (g := Config 1 1 [] (Z.of_nat (length qs) + 1) 0 1). exists g. split; [reflexivity|].
  assert (CL : forall l ks : list request, (length (fold_left (fun l q => if mem (client q) l then l else client q :: l) l
             (map client ks)) <= length l + length ks)%nat).
  { clear. induction l as [|q l IH]; intros ks; cbn [fold_left length].
    - rewrite map_length. lia.
    - destruct (mem (client q) (map client ks)).
      + specialize (IH ks). lia.
      + specialize (IH (q :: ks)). cbn [map length] in IH. lia. }
  assert (A : forall m, (m <= length qs)%nat ->
    let s := run ema g (map (Arrive 0) (firstn m qs)) in
    v_log s = map (fun q => Entry 0 (client q) (q_method q) Served) (firstn m qs) /\
    (length (v_conns s) <= m)%nat).
  { induction m as [m IH] using lt_wf_ind. intros Lm. cbv zeta.
    pose proof (all_served ema g (firstn m qs) 0 eq_refl) as B.
    assert (B1 : 0 <= g_time g) by (cbn; lia). assert (B2 : 0 < g_limit g) by (cbn [g g_limit]; lia).
    specialize (B B1 B2). cbv zeta in B. destruct B as (E1 & _ & E3 & _).
    { intros j q Hq. assert (Lt : (j < m)%nat).
      { rewrite <- (firstn_length_le qs Lm). apply nth_error_Some. congruence. }
      rewrite firstn_firstn, Nat.min_l by lia. destruct (IH j Lt ltac:(lia)) as (F1 & F3).
      cbn [g g_conns g_limit g_window]. split; [lia|]. rewrite F1.
      assert (Z0 : count 1 0 (client q) (map (fun q => Entry 0 (client q) (q_method q) Served) (firstn j qs)) = 0).
      { assert (Hq' : nth_error qs j = Some q).
        { rewrite <- (firstn_skipn m qs). rewrite nth_error_app1; [exact Hq|]. rewrite firstn_length_le; lia. }
        apply nth_error_split in Hq'. destruct Hq' as (a & b & -> & La).
        rewrite <- La, firstn_app, Nat.sub_diag, firstn_all. cbn [firstn]. rewrite app_nil_r.
        rewrite map_app in ND. cbn [map] in ND. apply NoDup_remove_2 in ND.
        assert (NI : ~ In (client q) (map client a)) by (intros I0; apply ND; apply in_or_app; left; exact I0).
        clear -NI. unfold count. induction a as [|x a IH]; [reflexivity|]. cbn [map filter e_client].
        rewrite (eqb_ne (client q) (client x)); [|intros E; apply NI; left; congruence].
        cbn [andb]. apply IH. intros I0. apply NI. right. exact I0. }
      lia. }
    split; [exact E1|]. rewrite E3. specialize (CL (firstn m qs) []). cbn [map length] in CL.
    pose proof (firstn_le_length m qs). rewrite firstn_length_le in CL by exact Lm. lia. }
  pose proof (A (length qs) (le_n _)) as [E _]. rewrite firstn_all in E. exact E.
Qed.

(** The client of a request without headers is its address with the port: each
    new connection of a host has a limit of its own.  With a limit of one
    request every one of them is served. *)
Theorem C113_refuted_one_limit_per_host :
  forall ema host ports, NoDup ports -> Forall (fun p => p <> [] /\ digits p) ports ->
  exists g, g_limit g = 1 /\
  map e_out (v_log (run ema g (map (fun p => Arrive 0 (from_port host p)) ports))) =
  repeat Served (length ports).
Proof.
  intros ema host ports ND D.
  assert (C : forall p, In p ports -> client (from_port host p) = host ++ 58%N :: p).
  { intros p Hp. destruct (proj1 (Forall_forall _ _) D p Hp) as [NE DG].
    unfold client, from_port. cbn [q_forwarded q_real q_remote].
    destruct (host ++ 58%N :: p) as [|x y] eqn:E; [destruct host; discriminate|]. rewrite <- E. clear E.
    destruct (exists_last NE) as (p' & c & ->). apply Forall_app in DG. destruct DG as [_ DG].
    inversion DG as [|? ? DC _]; subst. cbn beta in DC. unfold strip_colon.
    rewrite app_comm_cons, app_assoc, rev_app_distr. cbn [rev app].
    destruct c as [|c]; [lia|]. destruct (N.eq_dec (N.pos c) 58) as [E|n]; [lia|].
    repeat (destruct c as [c|c|]; try reflexivity; try congruence). }
  assert (ND' : NoDup (map client (map (from_port host) ports))).
  { rewrite map_map. assert (E : map (fun p => client (from_port host p)) ports = map (fun p => host ++ 58%N :: p) ports).
    { apply map_ext_in. exact C. }
    rewrite E. apply FinFun.Injective_map_NoDup; [|exact ND].
    intros a b H. apply app_inv_head in H. congruence. }
  destruct (named_served ema (map (from_port host) ports) ND') as (g & G & L). exists g. split; [exact G|].
  rewrite map_map in L. rewrite L, !map_map. cbn [e_out]. clear. induction ports; cbn; [reflexivity|]. f_equal. assumption.
Qed.

(** A client names itself in a header: the same for the names it makes up. *)
Theorem C113_refuted_clients_cannot_choose_their_name :
  forall ema names, NoDup names -> Forall (fun n => n <> []) names ->
  exists g, g_limit g = 1 /\
  map e_out (v_log (run ema g (map (fun n => Arrive 0 (forwarded n)) names))) =
  repeat Served (length names).
Proof.
  intros ema names ND D.
  assert (E : map client (map forwarded names) = names).
  { clear ND. rewrite map_map. induction D as [|x l H _ IH]; [reflexivity|]. cbn [map]. f_equal; [|exact IH].
    destruct x; [congruence|reflexivity]. }
  destruct (named_served ema (map forwarded names)) as (g & G & L); [rewrite E; exact ND|].
  exists g. split; [exact G|]. rewrite map_map in L. rewrite L, !map_map. cbn [e_out]. clear.
  induction names; cbn; [reflexivity|]. f_equal. assumption.
Qed.

(** One of these names, the local address, also lifts the limit on computing
    time. *)
Theorem C113_refuted_computing_time_of_a_local_name :
  forall limit w c now m, predict limit w c now (client (forwarded local)) m = true.
Proof. intros. reflexivity. Qed.

(** Requests that run into the time limit use up no computing time: any number
    of them, of any length, is served to a client that may use none. *)
Definition cut_off (k : text) (d : Z) (n : nat) : list event :=
  concat (repeat [Arrive 0 (ask k []); Finish 0 k [] d true] n).

Theorem C113_refuted_computing_time_of_cut_off_requests :
  forall ema k d n, k <> [] -> exists g,
  g_time g = 0 /\ 
  map e_out (v_log (run ema g (cut_off k d n))) = repeat Served n /\
  spent (g_time_window g) 0 k (cut_off k d n) = 0.
Proof.
  intros ema k d n K. set (g := Config (Z.of_nat n + 1) 1 [] 1 0 1). exists g. split; [reflexivity|].
  assert (C : client (ask k []) = k) by (destruct k; [congruence|reflexivity]).
  split.
  2: { unfold cut_off. generalize (g_time_window g). clear. intros tw. induction n as [|n IH]; [reflexivity|]. cbn [repeat concat]. rewrite spent_app, IH. reflexivity. }
  assert (A : forall m, (m <= n)%nat ->
     let s := run ema g (cut_off k d m) in
     v_log s = repeat (Entry 0 k [] Served) m /\ v_conns s = [] /\ v_flying s = [] /\
     (forall j, c_entries (v_track s) j = []) /\ in_order 0 (cut_off k d m) /\ no_reset (cut_off k d m) /\
     last_time 0 (cut_off k d m) = 0).
  { induction m as [|m IH]; intros Lm; cbv zeta.
    - repeat match goal with |- _ /\ _ => split end; try reflexivity. constructor.
    - destruct (IH ltac:(lia)) as (L & CN & FL & EN & OR & NR & LT). clear IH.
      assert (SN : cut_off k d (S m) = (cut_off k d m ++ [Arrive 0 (ask k [])]) ++ [Finish 0 k [] d true]).
      { unfold cut_off. clear. rewrite <- app_assoc. cbn [app].
        induction m as [|m IH]; [reflexivity|]. cbn [repeat concat app] in *. do 2 f_equal. exact IH. }
      rewrite SN, !run_snoc. cbn [step].
      pose proof (run_inv ema g _ 0 OR NR) as V. rewrite LT in V.
      set (s := run ema g (cut_off k d m)) in *.
      pose proof (arrive_shape g s 0 (ask k []) V) as SH. cbv zeta in SH.
      assert (LC : forall p : entry -> bool, Z.of_nat (length (filter p (repeat (Entry 0 k [] Served) m))) <= Z.of_nat m).
      { clear. intros p. induction m as [|m IH]; cbn [repeat filter length]; [lia|].
        destruct (p _); cbn [length]; lia. }
      assert (VD : verdict g s 0 (ask k []) = Served).
      { unfold verdict. rewrite CN, L. cbn [length g g_conns g_limit g_methods limit_of Z.of_nat].
        replace (1 <=? 0) with false by reflexivity.
        unfold count, count_method.
        rewrite (proj2 (Z.leb_gt (Z.of_nat n + 1) _)) by (eapply Z.le_lt_trans; [apply LC|lia]).
        rewrite (proj2 (Z.leb_gt (Z.of_nat n + 1) _)) by (eapply Z.le_lt_trans; [apply LC|lia]).
        unfold predict. rewrite EN. destruct (exempt _); reflexivity. }
      rewrite VD in SH. destruct SH as (S1 & S2 & S3 & S4 & _).
      rewrite CN in S2. cbn [conns_after mem existsb] in S2. rewrite C in S1, S2, S4.
      unfold finish. rewrite S4. cbn [mem existsb]. rewrite beqb_refl. cbn [orb].
      cbn [v_log v_conns v_flying v_track track c_entries drop_one]. rewrite beqb_refl, S1, S2, S3, L, FL.
      repeat match goal with |- _ /\ _ => split end; try reflexivity.
      + change (repeat (Entry 0 k [] Served) m ++ repeat (Entry 0 k [] Served) 1 =
                repeat (Entry 0 k [] Served) (S m)). rewrite <- repeat_app. f_equal. lia.
      + cbn [conn_close filter]. rewrite beqb_refl. reflexivity.
      + exact EN.
      + apply in_order_snoc. split; [apply in_order_snoc; split; [exact OR|rewrite LT; cbn; lia]|].
        unfold last_time. rewrite fold_left_app. cbn. lia.
      + apply no_reset_snoc. split; [apply no_reset_snoc; split; [exact NR|exact Logic.I]|exact Logic.I].
      + unfold last_time. rewrite fold_left_app. reflexivity. }
  destruct (A n (le_n n)) as (L & _). rewrite L. clear. induction n; cbn; [reflexivity|]. f_equal. assumption.
Qed.

(** Anybody may reset the limits: a client whose limit is one request gets two
    in a row served. *)
Theorem C113_refuted_limits_survive_a_reset_request :
  forall ema, exists g es, g_limit g = 1 /\ in_order 0 es /\
  served (g_window g) 3 ip_a (v_log (run ema g es)) = 2.
Proof.
  intros ema. exists (Config 1 1000 [] 5 50 1000),
    [Arrive 1 (ask ip_a []); Reset 2; Arrive 3 (ask ip_a [])].
  repeat match goal with |- _ /\ _ => split end; try reflexivity. cbn. lia.
Qed.

(** Somebody who puts another client's address into the header uses up the
    limit of that client. *)
Theorem C113_refuted_a_client_uses_only_its_own_limit :
  forall ema, exists g es victim, q_forwarded victim = [] /\ g_limit g = 1 /\ in_order 0 es /\ no_reset es /\
  answer (run ema g [Arrive 3 victim]) = Some Served /\
  answer (run ema g (es ++ [Arrive 3 victim])) = Some TooFast /\
  Forall (fun e => match e with Arrive _ q => q_remote q <> q_remote victim | _ => True end) es.
Proof.
  intros ema. exists (Config 1 1000 [] 5 50 1000), [Arrive 1 (Request ip_a [] ip_b [])], (Request [] [] ip_a []).
  repeat match goal with |- _ /\ _ => split end; try reflexivity; try (cbn; lia).
  - constructor; [exact Logic.I|constructor].
  - constructor; [discriminate|constructor].
Qed.

Print Assumptions C113_no_client_exceeds_its_limit.
Print Assumptions C113_no_client_exceeds_the_limit_of_a_method.
Print Assumptions C113_answer_of_every_request.
Print Assumptions C113_estimate.
Print Assumptions C113_cleaning_changes_no_answer.
Print Assumptions C113_connections_partial.
Print Assumptions C113_computing_time_partial.
Print Assumptions C113_refuted_connections_of_one_client.
Print Assumptions C113_refuted_one_limit_per_host.
Print Assumptions C113_refuted_clients_cannot_choose_their_name.
Print Assumptions C113_refuted_computing_time_of_a_local_name.
Print Assumptions C113_refuted_computing_time_of_cut_off_requests.
Print Assumptions C113_refuted_limits_survive_a_reset_request.
Print Assumptions C113_refuted_a_client_uses_only_its_own_limit.
