(* C115: a filter gives its owner every wanted item once, in order *)
From Verif Require Import Lib.Base Evmtx.Model Evmtx.Spec Evmtx.IndexSpec Rpc.Filters Rpc.FiltersSpec Rpc.FiltersProofs Rpc.FiltersRun Rpc.FiltersOld.
Open Scope Z_scope.

Section K.
Variables cap latest span : Z.
Notation step := (step cap latest span).
Notation run := (run cap latest span).

(* ids are not given twice, results of transactions can be read *)
Notation plain es := (NoDup (created es) /\ Forall readable es).

Lemma plain_good es : plain es -> good api0 es.
Proof. intros [D R]. split; [exact D|]. split; [exact R|intros f []]. Qed.

(* From its creation on, as long as the filter exists, what its polls returned followed
   by what waits for the next poll is exactly what the node reported to it since, each
   item once and in order.  Partial: transactions hold one Ethereum message, and a
   report counts only if the filter was ready for it. *)
Theorem C115_each_item_once_partial es1 now id k c ws es2 f p :
  plain (es1 ++ (now, ENew id k c ws) :: es2) -> Forall single es2 ->
  (forall l, p l = true <-> matching c l) ->
  let s1 := fst (run api0 es1) in
  snd (step s1 now (ENew id k c ws)) = AId id ->
  let s2 := fst (step s1 now (ENew id k c ws)) in
  find id (filters (fst (run s2 es2))) = Some f ->
  polled id es2 (snd (run s2 es2)) ++ f_wait f = flat_map (owed p k id) es2.
Proof.
  intros G SG P s1 A s2 E. apply plain_good in G. pose proof (good_prefix _ _ G) as G1.
  pose proof (run_inv cap latest span es1 api0 inv0 G1) as I1. fold s1 in I1.
  assert (FR : forall g, In g (filters s1) -> ~ In (f_id g) (created ((now, ENew id k c ws) :: es2))).
  { intros g Hg Q. pose proof (ids_created cap latest span es1 G1 g Hg) as C. destruct G as (D & _). rewrite created_app in D.
    clear -D C Q. revert D C. induction (created es1) as [|x l IH]; intros D C; [contradiction|]. inversion D as [|? ? N1 N2]; subst.
    destruct C as [->|C]; [apply N1; apply in_or_app; now right|exact (IH N2 C)]. }
  assert (G2 : good s1 ((now, ENew id k c ws) :: es2)).
  { destruct G as (D & R & _). split; [|split; [|exact FR]].
    - rewrite created_app in D. clear -D. induction (created es1) as [|x l IH]; [exact D|]. inversion D; auto.
    - apply Forall_app in R. apply R. }
  pose proof (good_fine _ _ _ _ G2) as F. pose proof (step_inv cap latest span s1 now _ I1 F) as I2. fold s2 in I2.
  pose proof (good_step cap latest span s1 now _ es2 I1 G2) as G3. fold s2 in G3.
  assert (H : In (mk_filt id k c (now + span) []) (filters s2)).
  { unfold s2. revert A. cbn [Filters.step]. unfold new_filter. destruct (cap <=? _); [discriminate|].
    destruct (match k with KLogs => _ | _ => _ end); [discriminate|]. destruct (subscribe s1 id k ws); [|discriminate]. intros _. left. reflexivity. }
  assert (NC : ~ In id (created es2)).
  { destruct G2 as (D & _). cbn [created] in D. inversion D; assumption. }
  destruct (items_run cap latest span es2 s2 (mk_filt id k c (now + span) []) f p I2 G3 SG H NC P E) as (_ & _ & W). exact W.
Qed.

(* A filter ends exactly when its owner uninstalls it, when a round of the timeout loop
   finds it expired, or when that happens to the oldest filter of its kind. *)
Theorem C115_when_filters_end es now e f :
  plain (es ++ [(now, e)]) ->
  let s := fst (run api0 es) in
  In f (filters s) ->
  (find (f_id f) (filters (fst (step s now e))) = None <->
   exists g, In g (filters s) /\ asked_to_go now e g /\ (g = f \/ (f_kind g = f_kind f /\ oldest s (f_kind g) = Some g))).
Proof.
  intros G s H. apply plain_good in G. pose proof (good_prefix _ _ G) as G1.
  pose proof (run_inv cap latest span es api0 inv0 G1) as I. fold s in I.
  pose proof (fine_last cap latest span es now e (ids_created cap latest span es G1) G) as F. fold s in F.
  assert (O : old s) by (apply old_run; [exact inv0|intros i k []|exact G1]).
  rewrite (goes_iff cap latest span s now e f I F H). split; intros [g [Hg [A B]]]; exists g; (split; [exact Hg|]); (split; [exact A|]);
    (destruct B as [B|[K B]]; [left; exact B|right; split; [exact K|]]); apply (installed_oldest s g I O Hg); exact B.
Qed.

(* Expired means not created and not polled for the whole time span. *)
Theorem C115_when_filters_expire es f :
  plain es -> In f (filters (fst (run api0 es))) ->
  exists t, last_use (f_id f) es = Some t /\ forall now, asked_to_go now ETick f <-> t + span <= now.
Proof.
  intros G H. apply plain_good in G. destruct (due_run cap latest span es G f H) as [t [L D]]. exists t. split; [exact L|].
  intro now. unfold asked_to_go. rewrite D. split; [intros [Q|[_ Q]]; [discriminate|exact Q]|intro Q; right; auto].
Qed.

(* After a round of the timeout loop only filters used within the span are left. *)
Theorem C115_unused_filters_go es now f :
  plain (es ++ [(now, ETick)]) -> In f (filters (fst (run api0 (es ++ [(now, ETick)])))) ->
  exists t, last_use (f_id f) es = Some t /\ now < t + span.
Proof.
  intros G H. pose proof (plain_good _ G) as G'. pose proof (good_prefix _ _ G') as G1.
  pose proof (run_inv cap latest span es api0 inv0 G1) as I. rewrite run_app, run_one in H. cbn [Filters.step fst] in H.
  apply (proj2 (tick_spec _ now I)) in H. destruct H as [H Q]. destruct (due_run cap latest span es G1 f H) as [t [L D]].
  exists t. split; [exact L|]. destruct (Z_lt_ge_dec now (t + span)) as [X|X]; [exact X|]. exfalso. apply Q. exists f. split; [lia|]. split; [exact H|left; reflexivity].
Qed.

(* There are never more filters than the limit, whatever happens. *)
Theorem C115_limit_of_filters es : 0 <= cap -> Z.of_nat (length (filters (fst (run api0 es)))) <= cap.
Proof. intro C. apply cap_run; [exact C|exact C]. Qed.

(* A filter is made exactly when there are fewer than the limit, the block range makes
   sense, and the node sends such reports already or agrees to; otherwise nothing changes. *)
Theorem C115_new_filters es now id k c ws :
  plain (es ++ [(now, ENew id k c ws)]) ->
  let s := fst (run api0 es) in
  let r := step s now (ENew id k c ws) in
  let from := match c_from c with Some b => b | None => latest end in
  let to := match c_to c with Some b => b | None => latest end in
  let may := Z.of_nat (length (filters s)) < cap /\
             (k = KLogs -> (from = latest /\ to = latest) \/ (0 <= from <= to) \/ (0 <= from /\ to = latest)) /\
             (ws = true \/ exists f, In f (filters s) /\ f_kind f = k) in
  (may -> snd r = AId id /\ filters (fst r) = mk_filt id k c (now + span) [] :: filters s) /\
  (~ may -> snd r = AError /\ fst r = s).
Proof.
  intros G s r from to may. apply plain_good in G. pose proof (good_prefix _ _ G) as G1.
  pose proof (run_inv cap latest span es api0 inv0 G1) as I. fold s in I.
  assert (RG : range_ok latest c = true <-> (from = latest /\ to = latest) \/ (0 <= from <= to) \/ (0 <= from /\ to = latest)).
  { unfold range_ok. fold from to. rewrite !orb_true_iff, !andb_true_iff, !Z.eqb_eq, !Z.leb_le. intuition lia. }
  assert (TP : existsb (kind_eqb k) (topics s) = true <-> exists f, In f (filters s) /\ f_kind f = k).
  { rewrite topic_in. split; [|intros [f [F <-]]; apply (i_topic s I), F]. intro T. destruct (i_inst s I _ T) as [i P].
    destruct (i_live s I _ _ P) as [_ [f [F [_ K]]]]. exists f. auto. }
  unfold r. cbn [Filters.step]. unfold new_filter.
  destruct (Z.leb_spec cap (Z.of_nat (length (filters s)))) as [L|L].
  { split; [intros [Q _]; lia|auto]. }
  assert (RK : (match k with KLogs => negb (range_ok latest c) | _ => false end) = false <-> (k = KLogs -> (from = latest /\ to = latest) \/ (0 <= from <= to) \/ (0 <= from /\ to = latest))).
  { destruct k; [intuition discriminate|intuition discriminate|]. rewrite negb_false_iff, RG. intuition. }
  destruct (match k with KLogs => negb (range_ok latest c) | _ => false end).
  { split; [intros [_ [Q _]]; apply RK in Q; discriminate|auto]. }
  unfold subscribe. destruct (existsb (kind_eqb k) (topics s)).
  { split; [intros _; cbn [fst snd filters]; auto|]. intro N1. exfalso. apply N1. split; [exact L|]. split; [apply RK; reflexivity|right; apply TP; reflexivity]. }
  destruct ws.
  { split; [intros _; cbn [fst snd filters]; auto|]. intro N1. exfalso. apply N1. split; [exact L|]. split; [apply RK; reflexivity|left; reflexivity]. }
  split; [|auto]. intros [_ [_ [Q|Q]]]; [discriminate|]. apply TP in Q. discriminate.
Qed.

(* A poll of an unknown filter is an error; a poll of a filter gives what waits and
   leaves the other filters alone. *)
Theorem C115_polls es now id :
  plain es -> let s := fst (run api0 es) in
  match find id (filters s) with
  | None => step s now (EPoll id) = (s, AError)
  | Some f => snd (step s now (EPoll id)) = AItems (f_wait f) /\
              find id (filters (fst (step s now (EPoll id)))) = Some (mk_filt id (f_kind f) (f_crit f) (now + span) []) /\
              forall j, j <> id -> find j (filters (fst (step s now (EPoll id)))) = find j (filters s)
  end.
Proof.
  intros G s. cbn [Filters.step]. unfold poll. destruct (find id (filters s)) as [f|] eqn:E; [|reflexivity]. cbn [fst snd filters].
  split; [reflexivity|]. unfold put. cbn [f_id]. revert E. generalize (filters s) as l. split.
  - induction l as [|x l IH]; [discriminate|]. cbn [find List.find map] in *. destruct (N.eqb_spec (f_id x) id) as [Q|Q]; cbn [f_id].
    + rewrite N.eqb_refl. injection E as ->. reflexivity.
    + rewrite (proj2 (N.eqb_neq (f_id x) id) Q). apply IH, E.
  - intros j n. clear E. induction l as [|x l IH]; [reflexivity|]. cbn [find List.find map] in *.
    destruct (N.eqb_spec (f_id x) id) as [Q|Q]; cbn [f_id].
    + destruct (N.eqb_spec id j); [congruence|]. destruct (N.eqb_spec (f_id x) j); [congruence|]. exact IH.
    + destruct (N.eqb (f_id x) j); [reflexivity|exact IH].
Qed.
End K.

(* ---------------- cases ---------------- *)
Definition any_log : crit := mk_crit None None [] [].
Definition from7 : crit := mk_crit None None [7] [].
Definition lg (a i : Z) : log := mk_log a [] 5 i 0 0.
Definition rdy : N -> bool := fun _ => true.
Definition before : list (Z * event) := [(0, ENew 1 KBlocks any_log true); (1, ENew 2 KLogs any_log true)].
Definition after : list (Z * event) :=
  [(11, EMsg (MLogs (Some [[lg 7 0; lg 8 1]])) rdy); (12, EPoll 3); (13, EMsg (MBlock 99) rdy); (14, EPoll 1);
   (15, EMsg (MLogs (Some [[lg 7 2]])) rdy); (16, ENew 4 KTxs any_log true); (17, EUninstall 1); (18, EMsg (MLogs (Some [[lg 7 3]])) rdy)].
Notation run0 := (run 200 (-1) 300).
Notation step0 := (step 200 (-1) 300).

Example C115_case :
  NoDup (created (before ++ (10, ENew 3 KLogs from7 true) :: after)) /\ Forall readable (before ++ (10, ENew 3 KLogs from7 true) :: after) /\
  Forall single after /\ (forall l, (l_addr l =? 7) = true <-> matching from7 l) /\
  let s2 := fst (step0 (fst (run0 api0 before)) 10 (ENew 3 KLogs from7 true)) in
  find 3 (filters (fst (run0 s2 after))) = Some (mk_filt 3 KLogs from7 312 [ILog (lg 7 2); ILog (lg 7 3)]) /\
  polled 3 after (snd (run0 s2 after)) = [ILog (lg 7 0)] /\
  oldest s2 KLogs = Some (mk_filt 2 KLogs any_log 301 []) /\
  map f_id (filters (fst (run0 s2 (after ++ [(312, ETick)])))) = [4%N].
Proof.
  split; [cbn; repeat constructor; cbn; intuition discriminate|].
  split; [repeat apply Forall_cons; try apply Forall_nil; exact Logic.I|].
  split; [repeat apply Forall_cons; try apply Forall_nil; cbn; try exact Logic.I; lia|].
  split.
  - intro l. rewrite Z.eqb_eq. unfold matching, wanted. cbn [c_from c_to c_addrs c_topics from7]. split.
    + intro E. split; [discriminate|]. split; [discriminate|]. split; [right; left; symmetry; exact E|]. intros [|i] sub Q; discriminate.
    + intros (_ & _ & [Q|[Q|[]]] & _); [discriminate|symmetry; exact Q].
  - vm_compute. repeat split.
Qed.

(* ---------------- what does not hold ---------------- *)

(* Someone else's filter ends mine: filter 2 is used all the time and never asked to go,
   but when the owner of the older filter 1 uninstalls that one, or forgets about it,
   filter 2 is gone and the items that waited in it are lost. *)
Theorem C115_filters_of_others_refuted : exists es : list (Z * event),
  (NoDup (created es) /\ Forall readable es) /\
  (exists f, find 2 (filters (fst (run0 api0 es))) = Some f /\ f_wait f = [IHash 99]) /\
  last_use 2%N es = Some 299 /\
  (forall e, In e es -> snd e <> EUninstall 2 /\ snd e <> ETick) /\
  (let r := run0 api0 (es ++ [(300, EUninstall 1); (301, EPoll 2)]) in snd r <> [] /\ last (snd r) ANothing = AError) /\
  (let r := run0 api0 (es ++ [(300, ETick); (301, EPoll 2)]) in snd r <> [] /\ last (snd r) ANothing = AError).
Proof.
  exists [(0, ENew 1 KBlocks any_log true); (1, ENew 2 KBlocks any_log true); (299, EPoll 2); (299, EMsg (MBlock 99) rdy)].
  split; [split; [cbn; repeat constructor; cbn; intuition discriminate|repeat apply Forall_cons; try apply Forall_nil; exact Logic.I]|].
  split; [eexists; split; vm_compute; reflexivity|]. split; [reflexivity|]. split.
  - intros e [<-|[<-|[<-|[<-|[]]]]]; split; discriminate.
  - split; vm_compute; (split; [discriminate|reflexivity]).
Qed.

(* Of a transaction with several Ethereum messages only the logs of the first arrive. *)
Theorem C115_logs_of_later_messages_refuted : exists (es : list (Z * event)) l1 l2,
  l1 <> l2 /\ matching any_log l1 /\ matching any_log l2 /\
  es = [(0, ENew 1 KLogs any_log true); (1, EMsg (MLogs (Some [[l1]; [l2]])) rdy); (2, EPoll 1)] /\
  snd (run0 api0 es) = [AId 1; ANothing; AItems [ILog l1]].
Proof.
  exists [(0, ENew 1 KLogs any_log true); (1, EMsg (MLogs (Some [[lg 7 0]; [lg 7 1]])) rdy); (2, EPoll 1)], (lg 7 0), (lg 7 1).
  assert (M : forall l, matching any_log l).
  { intro l. split; [discriminate|]. split; [discriminate|]. split; [left; reflexivity|]. intros [|i] sub Q; discriminate. }
  split; [discriminate|]. split; [apply M|]. split; [apply M|]. split; [reflexivity|]. vm_compute. reflexivity.
Qed.

(* A report that comes while the filter is busy is lost. *)
Theorem C115_busy_filters_refuted : exists (es : list (Z * event)) l,
  matching any_log l /\
  es = [(0, ENew 1 KLogs any_log true); (1, EMsg (MLogs (Some [[l]])) (fun _ => false)); (2, EPoll 1); (3, EPoll 1)] /\
  snd (run0 api0 es) = [AId 1; ANothing; AItems []; AItems []].
Proof.
  exists [(0, ENew 1 KLogs any_log true); (1, EMsg (MLogs (Some [[lg 7 0]])) (fun _ => false)); (2, EPoll 1); (3, EPoll 1)], (lg 7 0).
  split; [|split; [reflexivity|vm_compute; reflexivity]].
  split; [discriminate|]. split; [discriminate|]. split; [left; reflexivity|]. intros [|i] sub Q; discriminate.
Qed.

Print Assumptions C115_each_item_once_partial.
Print Assumptions C115_when_filters_end.
Print Assumptions C115_when_filters_expire.
Print Assumptions C115_unused_filters_go.
Print Assumptions C115_limit_of_filters.
Print Assumptions C115_new_filters.
Print Assumptions C115_polls.
Print Assumptions C115_filters_of_others_refuted.
Print Assumptions C115_logs_of_later_messages_refuted.
Print Assumptions C115_busy_filters_refuted.
