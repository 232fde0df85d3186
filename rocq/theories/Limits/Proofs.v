From Verif Require Import Lib.Base Lib.Bytes Limits.Model Limits.Spec.
From Coq Require Import NArith Lia Permutation.
Open Scope Z_scope.

(** ** Small facts *)

Lemma eqb_ne : forall a b : text, a <> b -> beqb a b = false.
Proof. intros a b H. apply beqb_neq. exact H. Qed.

Lemma upd_same {A} : forall (h : text -> A) k v, upd h k v k = v.
Proof. intros. unfold upd. rewrite ?beqb_refl. reflexivity. Qed.

Lemma upd_other {A} : forall (h : text -> A) k v k', k <> k' -> upd h k v k' = h k'.
Proof. intros h k v k' H. unfold upd. rewrite eqb_ne by exact H. reflexivity. Qed.

Lemma eqb_cases : forall a b : text, (beqb a b = true /\ a = b) \/ (beqb a b = false /\ a <> b).
Proof.
  intros a b. destruct (bytes_eq_dec a b) as [->|n].
  - left. split; [apply beqb_refl|reflexivity].
  - right. split; [apply eqb_ne; exact n|exact n].
Qed.

Lemma recent_app : forall w now a b, recent w now (a ++ b) = recent w now a ++ recent w now b.
Proof. intros. apply filter_app. Qed.

Lemma recent_recent : forall w now now' l, now <= now' -> recent w now' (recent w now l) = recent w now' l.
Proof.
  intros w now now' l H. induction l as [|t l IH]; [reflexivity|].
  unfold recent in *. cbn [filter].
  destruct (now - w <? t) eqn:A; cbn [filter]; destruct (now' - w <? t) eqn:B; try rewrite IH; try reflexivity.
  apply Z.ltb_ge in A. apply Z.ltb_lt in B. lia.
Qed.

Lemma filter_ext_in' {A} : forall (f h : A -> bool) l, (forall x, In x l -> f x = h x) -> filter f l = filter h l.
Proof. intros f h l H. apply filter_ext_in. exact H. Qed.

(** The times of the requests of the log that satisfy a test. *)
Definition times (p : entry -> bool) (log : list entry) : list Z := map e_time (filter p log).

Lemma times_app : forall p a b, times p (a ++ b) = times p a ++ times p b.
Proof. intros. unfold times. rewrite filter_app, map_app. reflexivity. Qed.

Lemma recent_times : forall w now p log, Forall (fun e => e_time e <= now) log ->
  length (recent w now (times p log)) =
  length (filter (fun e => p e && within w now (e_time e)) log).
Proof.
  intros w now p log H. induction H as [|e log He Hl IH]; [reflexivity|].
  unfold times in *. cbn [filter]. destruct (p e); cbn [andb].
  - cbn [map]. unfold recent in *. cbn [filter]. unfold within at 1.
    replace (e_time e <=? now) with true by (symmetry; apply Z.leb_le; exact He).
    rewrite andb_true_r. destruct (now - w <? e_time e); cbn [length]; rewrite IH; reflexivity.
  - exact IH.
Qed.

Definition of_client (k : text) (e : entry) : bool := beqb k (e_client e) && counts (e_out e).
Definition of_method (k m : text) (e : entry) : bool :=
  beqb k (e_client e) && beqb m (e_method e) && counts_method (e_out e).

Lemma count_recent : forall w now k log, Forall (fun e => e_time e <= now) log ->
  count w now k log = Z.of_nat (length (recent w now (times (of_client k) log))).
Proof. intros w now k log H. rewrite (recent_times w now _ _ H). reflexivity. Qed.

Lemma count_method_recent : forall w now k m log, Forall (fun e => e_time e <= now) log ->
  count_method w now k m log = Z.of_nat (length (recent w now (times (of_method k m) log))).
Proof. intros w now k m log H. rewrite (recent_times w now _ _ H). reflexivity. Qed.

(** ** Cleaning *)

Lemma same_answers : forall us rl rl' from,
  l_limit rl = l_limit rl' -> l_window rl = l_window rl' ->
  (forall k t, from <= t -> recent (l_window rl) t (l_reqs rl k) = recent (l_window rl) t (l_reqs rl' k)) ->
  uses_in_order from us -> answers rl us = answers rl' (filter is_ask us).
Proof.
  induction us as [|u us IH]; intros rl rl' from L W E O; [reflexivity|].
  destruct O as [O1 O2]. destruct u as [t ip|t]; cbn [use_time] in *; cbn [filter is_ask answers].
  - unfold allow. rewrite <- L, <- W, <- (E ip t O1).
    destruct (l_limit rl <=? Z.of_nat (length (recent (l_window rl) t (l_reqs rl ip)))); cbn [fst snd].
    + f_equal. apply IH with t; auto. intros k t' Ht. apply E. lia.
    + f_equal. apply IH with t; cbn [l_limit l_window l_reqs]; auto.
      intros k t' Ht. unfold upd. destruct (beqb ip k); [reflexivity|]. apply E. lia.
  - apply IH with t; cbn [cleanup l_limit l_window l_reqs]; auto.
    intros k t' Ht. rewrite recent_recent by exact Ht. apply E. lia.
Qed.

(** ** The state after a run *)

Record inv (g : config) (last : Z) (s : server) : Prop := {
  i_times : Forall (fun e => e_time e <= last) (v_log s);
  i_limit : l_limit (v_rate s) = g_limit g;
  i_window : l_window (v_rate s) = g_window g;
  i_reqs : forall k now, last <= now ->
    recent (g_window g) now (l_reqs (v_rate s) k) = recent (g_window g) now (times (of_client k) (v_log s));
  i_default : ml_default (v_methods s) = g_limit g;
  i_mwindow : ml_window (v_methods s) = g_window g;
  i_mlimit : forall m, l_limit (method_limiter (v_methods s) m) = limit_of (g_limit g) (g_methods g) m;
  i_mlwindow : forall m, l_window (method_limiter (v_methods s) m) = g_window g;
  i_mreqs : forall m k now, last <= now ->
    recent (g_window g) now (l_reqs (method_limiter (v_methods s) m) k) =
    recent (g_window g) now (times (of_method k m) (v_log s))
}.

Lemma set_limits : forall l m0,
  (forall m, l_window (method_limiter m0 m) = ml_window m0) ->
  (forall m k, l_reqs (method_limiter m0 m) k = []) ->
  let m1 := fold_left (fun m p => set_method_limit m (fst p) (snd p)) l m0 in
  ml_default m1 = ml_default m0 /\ ml_window m1 = ml_window m0 /\
  (forall m, l_limit (method_limiter m1 m) = limit_of (l_limit (method_limiter m0 m)) l m) /\
  (forall m, l_window (method_limiter m1 m) = ml_window m0) /\
  (forall m k, l_reqs (method_limiter m1 m) k = []).
Proof.
  induction l as [|[k x] l IH]; intros m0 HW HR m1; cbn [fold_left] in m1.
  - subst m1. cbn [limit_of]. auto 10.
  - cbn [fst snd] in m1.
    specialize (IH (set_method_limit m0 k x)).
    assert (F : forall m, method_limiter (set_method_limit m0 k x) m =
                if beqb k m then new_limiter x (ml_window m0) else method_limiter m0 m).
    { intros m. unfold method_limiter, set_method_limit, upd. cbn [ml_limits ml_default ml_window].
      destruct (beqb k m); reflexivity. }
    assert (A1 : forall m, l_window (method_limiter (set_method_limit m0 k x) m) = ml_window (set_method_limit m0 k x)).
    { intros m. rewrite F. cbn [set_method_limit ml_window]. destruct (beqb k m); [reflexivity|apply HW]. }
    assert (A2 : forall m k', l_reqs (method_limiter (set_method_limit m0 k x) m) k' = []).
    { intros m k'. rewrite F. destruct (beqb k m); [reflexivity|apply HR]. }
    destruct (IH A1 A2) as (B1 & B2 & B3 & B4 & B5). fold m1 in B1, B2, B3, B4, B5.
    repeat match goal with |- _ /\ _ => split end; auto.
    intros m. rewrite B3, F. cbn [limit_of]. destruct (beqb k m); reflexivity.
Qed.

Lemma start_inv : forall g from, inv g from (start g).
Proof.
  intros g from.
  destruct (set_limits (g_methods g) (new_mlimiter (g_limit g) (g_window g))) as (B1 & B2 & B3 & B4 & B5);
    [reflexivity|reflexivity|].
  constructor; cbn [start v_log v_rate v_methods]; auto.
  intros m k now _. rewrite B5. reflexivity.
Qed.

Section Run.
Variable ema : Z -> Z -> Z.

(** What a request that arrives does, given what the log says. *)
Definition verdict (g : config) (s : server) (now : Z) (q : request) : outcome :=
  let k := client q in
  if g_conns g <=? Z.of_nat (length (v_conns s)) then TooManyConnections
  else if g_limit g <=? count (g_window g) now k (v_log s) then TooFast
  else if limit_of (g_limit g) (g_methods g) (q_method q) <=? count_method (g_window g) now k (q_method q) (v_log s)
       then TooFastMethod
  else if predict (g_time g) (g_time_window g) (v_track s) now k (q_method q) then Served else TooMuchTime.

Definition conns_after (o : outcome) (l : list text) (k : text) : list text :=
  match o with
  | TooManyConnections => l
  | Served => if mem k l then l else k :: l
  | _ => conn_close (if mem k l then l else k :: l) k
  end.

Lemma weaken : forall g last now s, inv g last s -> last <= now -> inv g now s.
Proof.
  clear ema. intros g last now s [] H. constructor; auto.
  - eapply Forall_impl; [|exact i_times0]. cbn beta. intros. lia.
  - intros k t Ht. apply i_reqs0. lia.
  - intros m k t Ht. apply i_mreqs0. lia.
Qed.

Lemma arrive_shape : forall g s now q, inv g now s ->
  let o := verdict g s now q in
  let s' := arrive g s now q in
  v_log s' = v_log s ++ [Entry now (client q) (q_method q) o] /\
  v_conns s' = conns_after o (v_conns s) (client q) /\
  v_track s' = v_track s /\
  v_flying s' = (match o with Served => client q :: v_flying s | _ => v_flying s end) /\
  v_rate s' = (if counts o then snd (allow (v_rate s) now (client q)) else v_rate s) /\
  v_methods s' = (match o with TooManyConnections | TooFast => v_methods s
                  | _ => snd (mallow (v_methods s) now (q_method q) (client q)) end) /\
  fst (allow (v_rate s) now (client q)) = negb (g_limit g <=? count (g_window g) now (client q) (v_log s)) /\
  fst (mallow (v_methods s) now (q_method q) (client q)) =
    negb (limit_of (g_limit g) (g_methods g) (q_method q) <=?
          count_method (g_window g) now (client q) (q_method q) (v_log s)).
Proof.
  clear ema. intros g s now q V. cbv zeta.
  assert (A : fst (allow (v_rate s) now (client q)) =
              negb (g_limit g <=? count (g_window g) now (client q) (v_log s))).
  { unfold allow. rewrite (i_window _ _ _ V), (i_limit _ _ _ V), (i_reqs _ _ _ V) by lia.
    rewrite (count_recent _ _ _ _ (i_times _ _ _ V)).
    destruct (g_limit g <=? _); reflexivity. }
  assert (B : fst (mallow (v_methods s) now (q_method q) (client q)) =
    negb (limit_of (g_limit g) (g_methods g) (q_method q) <=?
          count_method (g_window g) now (client q) (q_method q) (v_log s))).
  { unfold mallow. destruct (allow (method_limiter (v_methods s) (q_method q)) now (client q)) as [b l] eqn:E.
    cbn [fst]. unfold allow in E.
    rewrite (i_mlwindow _ _ _ V), (i_mlimit _ _ _ V), (i_mreqs _ _ _ V) in E by lia.
    rewrite <- (count_method_recent _ _ _ _ _ (i_times _ _ _ V)) in E.
    destruct (limit_of _ _ _ <=? _); injection E as <- <-; reflexivity. }
  unfold arrive, verdict, conn_open.
  destruct (allow (v_rate s) now (client q)) as [b1 r1] eqn:E1.
  destruct (mallow (v_methods s) now (q_method q) (client q)) as [b2 r2] eqn:E2.
  cbn [fst snd] in *. subst b1 b2.
  destruct (g_conns g <=? Z.of_nat (length (v_conns s))); cbn [negb conns_after counts];
    [cbn [v_log v_conns v_track v_flying v_rate v_methods]; auto 10|].
  destruct (g_limit g <=? _); cbn [negb conns_after counts];
    [cbn [v_log v_conns v_track v_flying v_rate v_methods]; auto 10|].
  destruct (limit_of _ _ _ <=? _); cbn [negb conns_after counts];
    [cbn [v_log v_conns v_track v_flying v_rate v_methods]; auto 10|].
  destruct (predict _ _ _ _ _ _); cbn [negb conns_after counts];
    cbn [v_log v_conns v_track v_flying v_rate v_methods]; auto 10.
Qed.

Lemma times_one : forall p e, times p [e] = if p e then [e_time e] else [].
Proof. clear ema. intros p e. unfold times. cbn [filter]. destruct (p e); reflexivity. Qed.

Lemma counts_verdict : forall g s now q, counts (verdict g s now q) = true ->
  (g_limit g <=? count (g_window g) now (client q) (v_log s)) = false.
Proof.
  clear ema. intros g s now q. unfold verdict. destruct (g_conns g <=? _); [discriminate|].
  destruct (g_limit g <=? _); [discriminate|]. reflexivity.
Qed.

Lemma counts_method_verdict : forall g s now q, counts_method (verdict g s now q) = true ->
  (limit_of (g_limit g) (g_methods g) (q_method q) <=?
   count_method (g_window g) now (client q) (q_method q) (v_log s)) = false.
Proof.
  clear ema. intros g s now q. unfold verdict. destruct (g_conns g <=? _); [discriminate|].
  destruct (g_limit g <=? _); [discriminate|]. destruct (limit_of _ _ _ <=? _); [discriminate|]. reflexivity.
Qed.

Lemma mallow_limiter : forall M now m k m',
  method_limiter (snd (mallow M now m k)) m' =
  if beqb m m' then snd (allow (method_limiter M m) now k) else method_limiter M m'.
Proof.
  clear ema. intros M now m k m'. unfold mallow. destruct (allow (method_limiter M m) now k) as [b l].
  cbn [snd]. unfold method_limiter, upd. cbn [ml_limits ml_default ml_window].
  destruct (beqb m m'); reflexivity.
Qed.

Lemma allow_keeps : forall rl now k, l_limit (snd (allow rl now k)) = l_limit rl /\
  l_window (snd (allow rl now k)) = l_window rl.
Proof. clear ema. intros. unfold allow. destruct (_ <=? _); split; reflexivity. Qed.

Lemma allow_reqs : forall rl now k k' t, now <= t ->
  recent (l_window rl) t (l_reqs (snd (allow rl now k)) k') =
  recent (l_window rl) t (l_reqs rl k') ++
  (if beqb k k' && fst (allow rl now k) then recent (l_window rl) t [now] else []).
Proof.
  clear ema. intros rl now k k' t H. unfold allow.
  destruct (l_limit rl <=? _); cbn [fst snd]; [rewrite andb_false_r, app_nil_r; reflexivity|].
  cbn [l_reqs]. rewrite andb_true_r. unfold upd.
  destruct (eqb_cases k k') as [[E ->]|[E _]]; rewrite E; [|rewrite app_nil_r; reflexivity].
  rewrite recent_app, recent_recent by exact H. reflexivity.
Qed.

Lemma arrive_inv : forall g s now q, inv g now s -> inv g now (arrive g s now q).
Proof.
  clear ema. intros g s now q V.
  pose proof (arrive_shape g s now q V) as SH. cbv zeta in SH.
  destruct SH as (L & _ & _ & _ & R & M & FA & FM).
  set (o := verdict g s now q) in *.
  assert (RK : l_limit (v_rate (arrive g s now q)) = l_limit (v_rate s) /\
               l_window (v_rate (arrive g s now q)) = l_window (v_rate s)).
  { rewrite R. destruct (counts o); [apply allow_keeps|split; reflexivity]. }
  constructor.
  - rewrite L. apply Forall_app. split; [exact (i_times _ _ _ V)|]. constructor; [cbn; lia|constructor].
  - rewrite (proj1 RK). exact (i_limit _ _ _ V).
  - rewrite (proj2 RK). exact (i_window _ _ _ V).
  - intros k t Ht. rewrite L, R, times_app, recent_app, times_one, <- (i_reqs _ _ _ V) by exact Ht.
    unfold of_client. cbn [e_client e_out e_time].
    destruct (counts o) eqn:C.
    + rewrite <- (i_window _ _ _ V), allow_reqs by exact Ht. f_equal.
      rewrite FA, (counts_verdict g s now q C). cbn [negb]. rewrite !andb_true_r.
      destruct (eqb_cases k (client q)) as [[E ->]|[E n]]; rewrite E.
      * rewrite ?beqb_refl. reflexivity.
      * rewrite (eqb_ne (client q) k) by congruence. reflexivity.
    + rewrite andb_false_r. cbn [recent filter]. rewrite app_nil_r. reflexivity.
  - rewrite M. pose proof (i_default _ _ _ V) as D. unfold mallow.
    destruct o; try exact D; destruct (allow (method_limiter (v_methods s) (q_method q)) now (client q)); exact D.
  - rewrite M. pose proof (i_mwindow _ _ _ V) as D. unfold mallow.
    destruct o; try exact D; destruct (allow (method_limiter (v_methods s) (q_method q)) now (client q)); exact D.
  - intros m. rewrite <- (i_mlimit _ _ _ V), M. destruct o; try reflexivity; rewrite mallow_limiter;
      (destruct (eqb_cases (q_method q) m) as [[E <-]|[E n]]; rewrite E; [apply allow_keeps|reflexivity]).
  - intros m. rewrite <- (i_mlwindow _ _ _ V m), M. destruct o; try reflexivity; rewrite mallow_limiter;
      (destruct (eqb_cases (q_method q) m) as [[E <-]|[E n]]; rewrite E; [apply allow_keeps|reflexivity]).
  - intros m k t Ht. rewrite L, M, times_app, recent_app, times_one, <- (i_mreqs _ _ _ V) by exact Ht.
    unfold of_method. cbn [e_client e_out e_time e_method].
    assert (K : match o with TooManyConnections | TooFast => True
                | _ => counts_method o = fst (mallow (v_methods s) now (q_method q) (client q)) end).
    { rewrite FM. unfold o, verdict. destruct (g_conns g <=? _); [exact Logic.I|].
      destruct (g_limit g <=? _); [exact Logic.I|]. destruct (limit_of _ _ _ <=? _); [reflexivity|].
      destruct (predict _ _ _ _ _ _); reflexivity. }
    assert (N : recent (g_window g) t
      (l_reqs (method_limiter (snd (mallow (v_methods s) now (q_method q) (client q))) m) k) =
      recent (g_window g) t (l_reqs (method_limiter (v_methods s) m) k) ++
      recent (g_window g) t
        (if beqb k (client q) && beqb m (q_method q) && fst (mallow (v_methods s) now (q_method q) (client q))
         then [now] else [])).
    { rewrite mallow_limiter. destruct (eqb_cases (q_method q) m) as [[E <-]|[E n]]; rewrite E.
      - rewrite <- (i_mlwindow _ _ _ V (q_method q)), allow_reqs by exact Ht. f_equal.
        rewrite ?beqb_refl, ?andb_true_r.
        replace (fst (mallow (v_methods s) now (q_method q) (client q)))
          with (fst (allow (method_limiter (v_methods s) (q_method q)) now (client q)))
          by (unfold mallow; destruct (allow (method_limiter (v_methods s) (q_method q)) now (client q)); reflexivity).
        destruct (eqb_cases k (client q)) as [[E' ->]|[E' n]]; rewrite E'.
        + rewrite ?beqb_refl. cbn [andb]. destruct (fst (allow (method_limiter (v_methods s) (q_method q)) now (client q))); reflexivity.
        + rewrite (eqb_ne (client q) k) by congruence. reflexivity.
      - rewrite (eqb_ne m (q_method q)) by congruence. rewrite andb_false_r. cbn [andb recent filter].
        rewrite app_nil_r. reflexivity. }
    destruct o; try (rewrite K; exact N);
      cbn [counts_method]; rewrite andb_false_r; cbn [recent filter]; rewrite app_nil_r; reflexivity.
Qed.

Lemma step_inv : forall g s last e, inv g last s -> last <= time_of e ->
  (match e with Reset _ => False | _ => True end) -> inv g (time_of e) (step ema g s e).
Proof.
  intros g s last e V H N. destruct e as [now q|now k m d o|now]; [| |contradiction]; cbn [time_of step] in *.
  - apply arrive_inv. exact (weaken _ _ _ _ V H).
  - apply (weaken _ _ _ _ V) in H. unfold finish. destruct (mem k (v_flying s)); [|exact H].
    destruct H. constructor; cbn [v_log v_rate v_methods]; auto.
Qed.

Definition last_time (from : Z) (es : list event) : Z := fold_left (fun _ e => time_of e) es from.

Lemma runs_inv : forall g es s from, inv g from s -> in_order from es -> no_reset es ->
  inv g (last_time from es) (fold_left (step ema g) es s).
Proof.
  intros g es. induction es as [|e es IH]; intros s from V O N; [exact V|].
  cbn [fold_left last_time in_order] in *. destruct O as [O1 O2].
  inversion N as [|? ? N1 N2]; subst. apply IH; auto. apply step_inv with from; auto.
Qed.

Lemma run_inv : forall g es from, in_order from es -> no_reset es ->
  inv g (last_time from es) (run ema g es).
Proof. intros. apply runs_inv; auto. apply start_inv. Qed.

Lemma in_order_snoc : forall es from e, in_order from (es ++ [e]) <->
  in_order from es /\ last_time from es <= time_of e.
Proof.
  clear ema. induction es as [|a es IH]; intros from e; cbn [app in_order last_time fold_left].
  - tauto.
  - rewrite IH. unfold last_time. tauto.
Qed.

Lemma no_reset_snoc : forall es e, no_reset (es ++ [e]) <->
  no_reset es /\ match e with Reset _ => False | _ => True end.
Proof.
  clear ema. intros es e. unfold no_reset. rewrite Forall_app. split; intros [A B]; split; auto.
  inversion B; auto.
Qed.

Lemma run_snoc : forall g es e, run ema g (es ++ [e]) = step ema g (run ema g es) e.
Proof. intros. unfold run. rewrite fold_left_app. reflexivity. Qed.

(** ** The bound *)

Lemma filter_le_len {A} : forall (f h : A -> bool) l, (forall x, In x l -> f x = true -> h x = true) ->
  (length (filter f l) <= length (filter h l))%nat.
Proof.
  clear ema. intros f h l H. induction l as [|x l IH]; [reflexivity|].
  assert (IH' : (length (filter f l) <= length (filter h l))%nat) by (apply IH; intros; apply H; auto; right; auto).
  cbn [filter]. destruct (f x) eqn:FX.
  - rewrite (H x (or_introl eq_refl) FX). cbn [length]. lia.
  - destruct (h x); cbn [length]; lia.
Qed.

Lemma count_bound : forall g es from, in_order from es -> no_reset es ->
  forall t k, count (g_window g) t k (v_log (run ema g es)) <= Z.max 0 (g_limit g) /\
  forall m, count_method (g_window g) t k m (v_log (run ema g es)) <=
            Z.max 0 (limit_of (g_limit g) (g_methods g) m).
Proof.
  intros g es. induction es as [|e es IH] using rev_ind; intros from O N t k.
  - split; intros; cbn; lia.
  - apply in_order_snoc in O. apply no_reset_snoc in N. destruct O as [O1 O2], N as [N1 N2].
    specialize (IH from O1 N1 t k). destruct IH as [IH1 IH2]. rewrite run_snoc.
    pose proof (weaken _ _ _ _ (run_inv g es from O1 N1) O2) as V.
    set (s := run ema g es) in *.
    destruct e as [now q|now k' m d o|now]; [| |contradiction]; cbn [step time_of] in *.
    2: { unfold finish. destruct (mem k' (v_flying s)); cbn [v_log]; auto. }
    pose proof (arrive_shape g s now q V) as SH. cbv zeta in SH. destruct SH as (L & _).
    rewrite L. unfold count, count_method in *. split.
    + rewrite filter_app, app_length, Nat2Z.inj_add. cbn [filter e_client e_out e_time].
      destruct (beqb k (client q) && counts (verdict g s now q) && within (g_window g) t now) eqn:E;
        cbn [length]; [|lia].
      apply andb_prop in E. destruct E as [E W]. apply andb_prop in E. destruct E as [E C].
      apply counts_verdict in C. apply Z.leb_gt in C.
      destruct (eqb_cases k (client q)) as [[_ ->]|[E' _]]; [|congruence].
      unfold count in C.
      assert (Q : (length (filter (fun e => beqb (client q) (e_client e) && counts (e_out e) &&
                     within (g_window g) t (e_time e)) (v_log s)) <=
                   length (filter (fun e => beqb (client q) (e_client e) && counts (e_out e) &&
                     within (g_window g) now (e_time e)) (v_log s)))%nat).
      { apply filter_le_len. intros x Hx Y. apply andb_prop in Y. destruct Y as [Y1 Y2]. rewrite Y1.
        pose proof (proj1 (Forall_forall _ _) (i_times _ _ _ V) x Hx) as T. cbn beta in T.
        unfold within in *. lia. }
      lia.
    + intros m. specialize (IH2 m). rewrite filter_app, app_length, Nat2Z.inj_add.
      cbn [filter e_client e_out e_time e_method].
      destruct (beqb k (client q) && beqb m (q_method q) && counts_method (verdict g s now q) &&
                within (g_window g) t now) eqn:E; cbn [length]; [|lia].
      apply andb_prop in E. destruct E as [E W]. apply andb_prop in E. destruct E as [E C].
      apply andb_prop in E. destruct E as [E M].
      apply counts_method_verdict in C. apply Z.leb_gt in C.
      destruct (eqb_cases k (client q)) as [[_ ->]|[E' _]]; [|congruence].
      destruct (eqb_cases m (q_method q)) as [[_ ->]|[M' _]]; [|congruence].
      unfold count_method in C.
      assert (Q : (length (filter (fun e => beqb (client q) (e_client e) && beqb (q_method q) (e_method e) &&
                     counts_method (e_out e) && within (g_window g) t (e_time e)) (v_log s)) <=
                   length (filter (fun e => beqb (client q) (e_client e) && beqb (q_method q) (e_method e) &&
                     counts_method (e_out e) && within (g_window g) now (e_time e)) (v_log s)))%nat).
      { apply filter_le_len. intros x Hx Y. apply andb_prop in Y. destruct Y as [Y1 Y2]. rewrite Y1.
        pose proof (proj1 (Forall_forall _ _) (i_times _ _ _ V) x Hx) as T. cbn beta in T.
        unfold within in *. lia. }
      lia.
Qed.

Lemma served_count : forall w now k log, served w now k log <= count w now k log.
Proof.
  clear ema. intros. unfold served, count. apply inj_le. apply filter_le_len.
  intros x _ H. apply andb_prop in H. destruct H as [H W]. apply andb_prop in H. destruct H as [H C].
  rewrite H, W. destruct (e_out x); try discriminate. reflexivity.
Qed.

Lemma verdict_step : forall g es from now q, in_order from (es ++ [Arrive now q]) -> no_reset es ->
  v_log (run ema g (es ++ [Arrive now q])) =
  v_log (run ema g es) ++ [Entry now (client q) (q_method q) (verdict g (run ema g es) now q)].
Proof.
  intros g es from now q O N. apply in_order_snoc in O. destruct O as [O1 O2].
  pose proof (weaken _ _ _ _ (run_inv g es from O1 N) O2) as V. cbn [time_of] in V.
  rewrite run_snoc. cbn [step]. apply (arrive_shape g _ now q V).
Qed.

(** ** Connections *)

Lemma mem_In : forall k l, mem k l = true <-> In k l.
Proof.
  clear ema. intros k l. unfold mem. rewrite existsb_exists. split.
  - intros (x & Hx & E). destruct (eqb_cases k x) as [[_ ->]|[E' _]]; [exact Hx|congruence].
  - intros H. exists k. split; [exact H|apply beqb_refl].
Qed.

Lemma close_drop : forall k l, NoDup l -> conn_close l k = drop_one k l.
Proof.
  clear ema. intros k l H. induction H as [|x l Hx Hl IH]; [reflexivity|].
  cbn [conn_close filter drop_one]. destruct (eqb_cases k x) as [[E ->]|[E n]]; rewrite E; cbn [negb].
  - unfold conn_close in IH. rewrite IH. clear -Hx. induction l as [|y l IH']; [reflexivity|].
    cbn [drop_one]. rewrite eqb_ne; [|intros ->; apply Hx; left; reflexivity].
    f_equal. apply IH'. intros C. apply Hx. right. exact C.
  - f_equal. exact IH.
Qed.

Lemma close_absent : forall k l, ~ In k l -> conn_close l k = l.
Proof.
  clear ema. intros k l H. induction l as [|x l IH]; [reflexivity|].
  cbn [conn_close filter]. rewrite eqb_ne; [|intros ->; apply H; left; reflexivity].
  cbn [negb]. f_equal. apply IH. intros C. apply H. right. exact C.
Qed.

Lemma nodup_close : forall k l, NoDup l -> NoDup (conn_close l k).
Proof. clear ema. intros k l H. unfold conn_close. apply NoDup_filter. exact H. Qed.

(** A step that keeps to one request at a time. *)
Definition apart (s : server) (e : event) : Prop :=
  match e with Arrive _ q => ~ In (client q) (v_flying s) | _ => True end.

Lemma conns_step : forall g s e, v_conns s = v_flying s -> NoDup (v_flying s) -> apart s e ->
  v_conns (step ema g s e) = v_flying (step ema g s e) /\ NoDup (v_flying (step ema g s e)).
Proof.
  intros g s e E ND A. destruct e as [now q|now k m d o|now]; cbn [step apart] in *.
  - assert (M : mem (client q) (v_conns s) = false).
    { destruct (mem (client q) (v_conns s)) eqn:X; [|reflexivity]. apply mem_In in X. rewrite E in X. contradiction. }
    assert (K : conn_close (client q :: v_conns s) (client q) = v_conns s).
    { cbn [conn_close filter]. rewrite beqb_refl. cbn [negb]. apply close_absent. rewrite E. exact A. }
    unfold arrive, conn_open. rewrite M.
    destruct (g_conns g <=? _); cbn [negb]; [cbn [v_conns v_flying]; auto|].
    destruct (allow _ _ _) as [[|] r]; cbn [negb]; [|cbn [v_conns v_flying]; rewrite K; auto].
    destruct (mallow _ _ _ _) as [[|] r']; cbn [negb]; [|cbn [v_conns v_flying]; rewrite K; auto].
    destruct (predict _ _ _ _ _ _); cbn [negb v_conns v_flying]; [|rewrite K; auto].
    rewrite E. split; [reflexivity|]. constructor; auto.
  - unfold finish. destruct (mem k (v_flying s)); [|auto]. cbn [v_conns v_flying].
    rewrite E, <- close_drop by exact ND. split; [reflexivity|]. apply nodup_close. exact ND.
  - cbn [do_reset v_conns v_flying]. auto.
Qed.

Lemma one_snoc : forall g es e, one_at_a_time ema g (es ++ [e]) ->
  one_at_a_time ema g es /\ apart (run ema g es) e.
Proof.
  intros g es e H. split.
  - intros n now q E. specialize (H n now q).
    assert (L : (n < length es)%nat) by (apply nth_error_Some; congruence).
    rewrite nth_error_app1 in H by exact L. specialize (H E).
    rewrite firstn_app in H. replace (n - length es)%nat with O in H by lia. cbn [firstn] in H.
    rewrite app_nil_r in H. exact H.
  - destruct e as [now q| |]; cbn [apart]; auto.
    specialize (H (length es) now q). rewrite nth_error_app2, Nat.sub_diag in H by lia.
    specialize (H eq_refl). rewrite firstn_app, Nat.sub_diag, firstn_all in H. cbn [firstn] in H.
    rewrite app_nil_r in H. exact H.
Qed.

Lemma sound_snoc : forall g es e, sound ema g (es ++ [e]) ->
  sound ema g es /\ match e with Finish _ k _ _ _ => In k (v_flying (run ema g es)) | _ => True end.
Proof.
  intros g es e H. split.
  - intros n now k m d o E. specialize (H n now k m d o).
    assert (L : (n < length es)%nat) by (apply nth_error_Some; congruence).
    rewrite nth_error_app1 in H by exact L. specialize (H E).
    rewrite firstn_app in H. replace (n - length es)%nat with O in H by lia. cbn [firstn] in H.
    rewrite app_nil_r in H. exact H.
  - destruct e as [|now k m d o|]; auto.
    specialize (H (length es) now k m d o). rewrite nth_error_app2, Nat.sub_diag in H by lia.
    specialize (H eq_refl). rewrite firstn_app, Nat.sub_diag, firstn_all in H. cbn [firstn] in H.
    rewrite app_nil_r in H. exact H.
Qed.

Lemma conns_flying : forall g es, one_at_a_time ema g es ->
  v_conns (run ema g es) = v_flying (run ema g es) /\ NoDup (v_flying (run ema g es)).
Proof.
  intros g es. induction es as [|e es IH] using rev_ind; intros H.
  - split; [reflexivity|constructor].
  - apply one_snoc in H. destruct H as [H A]. destruct (IH H) as [E ND]. rewrite run_snoc.
    apply conns_step; auto.
Qed.

Lemma drop_len : forall k l, (length (drop_one k l) <= length l)%nat.
Proof. clear ema. intros k l. induction l as [|x l IH]; cbn; [lia|]. destruct (beqb k x); cbn; lia. Qed.

Lemma flying_bound : forall g es, one_at_a_time ema g es ->
  Z.of_nat (length (v_flying (run ema g es))) <= Z.max 0 (g_conns g).
Proof.
  intros g es. induction es as [|e es IH] using rev_ind; intros H; [cbn; lia|].
  apply one_snoc in H. destruct H as [H A]. specialize (IH H).
  destruct (conns_flying g es H) as [E _]. rewrite run_snoc. set (s := run ema g es) in *.
  destruct e as [now q|now k m d o|now]; cbn [step].
  - unfold arrive, conn_open.
    destruct (g_conns g <=? Z.of_nat (length (v_conns s))) eqn:G; cbn [negb]; [exact IH|].
    apply Z.leb_gt in G. rewrite E in G.
    destruct (allow _ _ _) as [[|] r]; cbn [negb]; [|exact IH].
    destruct (mallow _ _ _ _) as [[|] r']; cbn [negb]; [|exact IH].
    destruct (predict _ _ _ _ _ _); cbn [negb v_flying length]; [lia|exact IH].
  - unfold finish. destruct (mem k (v_flying s)); [|exact IH]. cbn [v_flying].
    pose proof (drop_len k (v_flying s)). lia.
  - exact IH.
Qed.

(** ** Computing time *)

Lemma total_app : forall w now a b, total w now (a ++ b) = total w now a + total w now b.
Proof.
  clear ema. intros w now a b. unfold total. rewrite filter_app, map_app.
  generalize (map snd (filter (fun e : Z * Z => now - w <? fst e) b)). intros y.
  induction (map snd (filter (fun e : Z * Z => now - w <? fst e) a)) as [|x l IH]; cbn [app fold_right]; lia.
Qed.

Lemma spent_app : forall w now k a b, spent w now k (a ++ b) = spent w now k a + spent w now k b.
Proof.
  clear ema. intros w now k a b. induction a as [|e a IH]; [reflexivity|].
  unfold spent in *. cbn [app fold_right]. destruct e as [| t k' m d o |]; auto.
  destruct o; auto. destruct (beqb k k' && (now - w <? t)); lia.
Qed.

(** The entries of a client: what its requests took, oldest first. *)
Lemma entries_spent : forall g es, sound ema g es -> no_reset es -> forall w now k,
  total w now (c_entries (v_track (run ema g es)) k) = spent w now k es.
Proof.
  intros g es. induction es as [|e es IH] using rev_ind; intros SD N w now k; [reflexivity|].
  apply sound_snoc in SD. apply no_reset_snoc in N. destruct SD as [SD F], N as [N1 N2].
  rewrite run_snoc, spent_app, <- (IH SD N1). set (s := run ema g es) in *.
  destruct e as [t q|t k' m d o|t]; [| |contradiction]; cbn [step].
  - replace (spent w now k [Arrive t q]) with 0 by reflexivity. rewrite Z.add_0_r.
    unfold arrive. destruct (conn_open _ _ _) as [[|] cs]; cbn [negb]; [|reflexivity].
    destruct (allow _ _ _) as [[|] r]; cbn [negb]; [|reflexivity].
    destruct (mallow _ _ _ _) as [[|] r']; cbn [negb]; [|reflexivity].
    destruct (predict _ _ _ _ _ _); reflexivity.
  - unfold finish. rewrite (proj2 (mem_In k' (v_flying s)) F).
    destruct o.
    + cbn [v_track track c_entries spent fold_right]. lia.
    + cbn [v_track track add_time c_entries]. cbn [spent fold_right]. unfold upd.
      destruct (eqb_cases k k') as [[E ->]|[E n]]; rewrite E.
      * rewrite ?beqb_refl, total_app. cbn [andb]. f_equal. unfold total. cbn [filter fst].
        destruct (now - w <? t); reflexivity.
      * rewrite (eqb_ne k' k) by congruence. cbn [andb]. lia.
Qed.

Lemma spent_mono : forall w k es D now now', durations_within D es -> now <= now' ->
  0 <= spent w now' k es <= spent w now k es.
Proof.
  clear ema. intros w k es D now now' H L. induction H as [|e es He Hes IH]; [cbn; lia|].
  unfold spent in *. cbn [fold_right]. destruct e as [| t k' m d o |]; auto. destruct o; auto.
  destruct (beqb k k'); cbn [andb]; auto.
  destruct (now' - w <? t) eqn:A; destruct (now - w <? t) eqn:B; lia.
Qed.

Lemma predict_bound : forall limit w c now k m, exempt k = false ->
  predict limit w c now k m = true -> total w now (c_entries c k) <= limit.
Proof.
  clear ema. intros limit w c now k m X H. unfold predict in H. rewrite X in H.
  apply Z.leb_le in H. destruct (c_entries c k); [lia|].
  destruct (0 <? c_average c m) eqn:P; unfold default_time in H; lia.
Qed.

Lemma drop_not_in : forall k l, NoDup l -> ~ In k (drop_one k l).
Proof.
  clear ema. intros k l H. rewrite <- close_drop by exact H. unfold conn_close. rewrite filter_In.
  rewrite beqb_refl. intros [_ C]. discriminate C.
Qed.

Lemma in_drop : forall k k' l, In k (drop_one k' l) -> In k l.
Proof.
  clear ema. intros k k' l. induction l as [|x l IH]; [contradiction|]. cbn [drop_one].
  destruct (beqb k' x); intros H; [right; exact H|]. destruct H as [->|H]; [left|right]; auto.
Qed.

Lemma time_bound : forall g es from D, in_order from es -> no_reset es -> one_at_a_time ema g es ->
  sound ema g es -> durations_within D es -> 0 <= D -> 0 <= g_time g ->
  forall k, exempt k = false ->
  (In k (v_flying (run ema g es)) ->
   spent (g_time_window g) (last_time from es) k es <= g_time g) /\
  spent (g_time_window g) (last_time from es) k es <= g_time g + D.
Proof.
  intros g es from D. induction es as [|e es IH] using rev_ind; intros O N A SD DW HD HT k X.
  - cbn. split; intros; lia.
  - apply in_order_snoc in O. apply no_reset_snoc in N. destruct O as [O1 O2], N as [N1 N2].
    pose proof (conns_flying g es (proj1 (one_snoc _ _ _ A))) as [EC ND].
    apply one_snoc in A. destruct A as [A AP].
    pose proof (entries_spent g es (proj1 (sound_snoc _ _ _ SD)) N1) as ES.
    apply sound_snoc in SD. destruct SD as [SD F].
    apply Forall_app in DW. destruct DW as [DW1 DW2].
    destruct (IH O1 N1 A SD DW1 HD HT k X) as [I1 I2].
    assert (LT : last_time from (es ++ [e]) = time_of e)
      by (unfold last_time; rewrite fold_left_app; reflexivity).
    rewrite LT, run_snoc, spent_app.
    pose proof (spent_mono (g_time_window g) k es D (last_time from es) (time_of e) DW1 O2) as M.
    set (s := run ema g es) in *.
    destruct e as [t q|t k' m d o|t]; [| |contradiction]; cbn [step time_of] in *.
    + replace (spent (g_time_window g) t k [Arrive t q]) with 0 by reflexivity. rewrite Z.add_0_r.
      split; [|lia]. unfold arrive.
      destruct (conn_open _ _ _) as [[|] cs]; cbn [negb]; [|cbn [v_flying]; intros B; specialize (I1 B); lia].
      destruct (allow _ _ _) as [[|] r]; cbn [negb]; [|cbn [v_flying]; intros B; specialize (I1 B); lia].
      destruct (mallow _ _ _ _) as [[|] r']; cbn [negb]; [|cbn [v_flying]; intros B; specialize (I1 B); lia].
      destruct (predict _ _ _ _ _ _) eqn:P; cbn [negb v_flying]; [|intros B; specialize (I1 B); lia].
      intros [B|B]; [|specialize (I1 B); lia].
      subst k. apply predict_bound in P; [|exact X]. rewrite ES in P. exact P.
    + inversion DW2 as [|? ? DD _]; subst.
      unfold finish. rewrite (proj2 (mem_In k' (v_flying s)) F). cbn [v_flying].
      cbn [spent fold_right].
      destruct (eqb_cases k k') as [[E ->]|[E n]]; rewrite E; cbn [andb].
      * split; [intros B; exfalso; exact (drop_not_in _ _ ND B)|].
        specialize (I1 F). destruct o; [lia|]. destruct (t - g_time_window g <? t); lia.
      * assert (Z0 : (if o then 0 else 0) = 0) by (destruct o; reflexivity).
        rewrite Z0, Z.add_0_r. split; [|lia].
        intros B. apply in_drop in B. specialize (I1 B). lia.
Qed.

End Run.
