(* C41: validator sets, confirmations and keys across an export and a start from genesis. *)
From Verif Require Import Lib.Base Lib.Zmap Hyperion.Valset Hyperion.ValsetSpec Hyperion.ValsetRuns Hyperion.ValsetHistory Hyperion.PropsValset Hyperion.GenesisSets Hyperion.GenesisSetsProofs.
Open Scope Z_scope.

(* batches are stored under their token and number *)
Definition batches_distinct (b : bridge) : Prop := NoDup (map (fun x => (bt_token x, bt_nonce x)) (b_batches b)).

(* Whatever a chain went through, the new chain has the same sets, the same observed set, the
   same batches, and exactly those confirmations whose set or batch is stored.  Missing: the
   keys, the latest and the last judged set, see the refutations below. *)
Theorem C41_sets_partial : forall rank acc_of h0 os s evs hs s', run rank acc_of (init h0) os = Ok (s, evs) ->
  restart rank s hs = Ok s' -> NoDup hs -> (forall h, In h hs -> batches_distinct (s_br s h)) ->
  s_height s' = s_height s /\
  forall h, In h hs -> let b := s_br s h in let b' := s_br s' h in
    b_sets b' = b_sets b /\ b_observed b' = b_observed b /\
    (forall c, In c (b_confs b') <-> In c (b_confs b) /\ zget (b_sets b) (cf_nonce c) <> None) /\
    (forall x, In x (b_batches b') <-> In x (b_batches b)) /\
    (forall c, In c (b_bconfs b') <-> In c (b_bconfs b) /\ exists x, In x (b_batches b) /\ bt_token x = bc_token c /\ bt_nonce x = bc_nonce c).
Proof.
  intros rank acc_of h0 os s evs hs s' R E N D. destruct (restart_ok rank s hs s' E N) as (A & _ & B).
  - intros h H. split; [apply (run_keyed rank acc_of h0 os s evs R)|].
    destruct (confs_run rank acc_of h os (init h0) s evs) as [[C1 C2] _]; [split; constructor|exact R|]. split; [exact C1|]. split; [exact C2|apply D, H].
  - split; [exact A|]. intros h H. destruct (B h H) as (B1 & _ & _ & B4 & B5 & B6 & B7). cbv zeta. auto 10.
Qed.
Print Assumptions C41_sets_partial.

(* The export works exactly when every chain has seen a set on the other side and every
   validator with an address has an orchestrator. *)
Theorem C41_export_works_iff : forall rank s hs, (exists s', restart rank s hs = Ok s') <->
  forall h, In h hs -> b_observed (s_br s h) <> None /\ forall v e, In (v, e) (b_eth (s_br s h)) -> orch_of (s_br s h) v <> None.
Proof.
  intros rank s hs. transitivity (exists gs, export_all rank s hs = Ok gs).
  - unfold restart. split; intros [x E].
    + destruct (export_all rank s hs) as [gs| |]; [eauto|discriminate|discriminate].
    + rewrite E. cbn [rbind]. eauto.
  - rewrite export_all_def. split; intros H h Hh; destruct (H h Hh) as [O K]; (split; [exact O|]).
    + rewrite Forall_forall in K. intros v e I. exact (K (v, e) I).
    + apply Forall_forall. intros [v e] I. exact (K v e I).
Qed.
Print Assumptions C41_export_works_iff.

(* two sets, the first confirmed by one validator and judged, one batch confirmed *)
Definition life : list op := keys ++ [blk one; OConfirm 1 1 1 71 (Some 5); OBatch 1 (mk_batch 4 80 900 []); OConfirmBatch 1 80 4 2 72 (Some 9); OUnbond; blk one; OObserve 1 1; blk one; blk one].
Definition before_stop : st := reached 1 life.
Definition after_start : st := match restart idz before_stop [1] with Ok s => s | _ => init 0 end.
Example C41_sets_partial_ex : (exists evs, go 1 life = Ok (before_stop, evs)) /\ restart idz before_stop [1] = Ok after_start /\ batches_distinct (s_br before_stop 1) /\
  zkeys (b_sets (s_br after_start 1)) = [1; 2] /\ b_confs (s_br after_start 1) = [mk_conf 1 1 71 5] /\ b_bconfs (s_br after_start 1) = [mk_bconf 80 4 2 72 9].
Proof.
  assert (X : is_ok (go 1 life) = true) by (vm_compute; reflexivity). assert (Y : is_ok (restart idz before_stop [1]) = true) by (vm_compute; reflexivity).
  split. { unfold before_stop, reached. destruct (go 1 life) as [[s e]| |]; [eauto|discriminate X|discriminate X]. }
  split. { unfold after_start. destruct (restart idz before_stop [1]); [reflexivity|discriminate Y|discriminate Y]. }
  split; [unfold batches_distinct; vm_compute; repeat constructor; intros []|]. vm_compute. auto.
Qed.

(* Every validator's keys come back together, on bridge 0: the same address, the same
   orchestrator, and the address names the validator.  Other bridges have none. *)
Definition keys_one_to_one (b : bridge) : Prop :=
  zsorted (b_orch b) /\ zsorted (b_eth b) /\
  (forall o o' v, zget (b_orch b) o = Some v -> zget (b_orch b) o' = Some v -> o = o') /\
  (forall v v' e, zget (b_eth b) v = Some e -> zget (b_eth b) v' = Some e -> v = v').
Lemma orch_of_in b v o : zsorted (b_orch b) -> orch_of b v = Some o -> zget (b_orch b) o = Some v.
Proof.
  intros S E. apply (zget_in_iff _ _ _ S). clear S. unfold orch_of in E.
  assert (G : forall l acc, fold_left (fun (acc : option Z) (x : Z * Z) => if snd x =? v then Some (fst x) else acc) l acc = Some o -> In (o, v) l \/ acc = Some o).
  { induction l as [|[a w] r IH]; intros acc H; cbn [fold_left fst snd] in H; [auto|]. destruct (IH _ H) as [I|I]; [left; right; exact I|].
    destruct (Z.eqb_spec w v) as [Ew|]; [injection I as Ia; subst; left; left; reflexivity|auto]. }
  destruct (G _ _ E) as [I|I]; [exact I|discriminate I].
Qed.
Lemma key_list_in b l ks : key_list b l = Ok ks -> forall v o e, In (v, o, e) ks <-> In (v, e) l /\ orch_of b v = Some o.
Proof.
  revert ks. induction l as [|[w f] r IH]; intros ks E v o e; cbn [key_list] in E.
  - injection E as <-. cbn. tauto.
  - destruct (orch_of b w) as [p|] eqn:O; [|discriminate E]. destruct (key_list b r) as [q| |] eqn:K; try discriminate E. cbn [rbind] in E. injection E as <-. cbn [In]. rewrite (IH q eq_refl).
    split; [intros [X|[X Y]]; [injection X as -> -> ->; auto|auto]|]. intros [[X|X] Y]; [left; injection X as -> ->; congruence|auto].
Qed.
Lemma insert_key_in rank k l x : In x (insert_key rank k l) <-> x = k \/ In x l.
Proof. induction l as [|j r IH]; cbn [insert_key]; [cbn; intuition|]. destruct (_ <? _); cbn [In]; [rewrite IH|]; intuition. Qed.
Lemma export_keys_in rank b ks : export_keys rank b = Ok ks -> forall v o e, In (v, o, e) ks <-> In (v, e) (b_eth b) /\ orch_of b v = Some o.
Proof.
  unfold export_keys. destruct (key_list b (b_eth b)) as [q| |] eqn:K; [|discriminate|discriminate]. cbn [rbind]. intros E v o e. injection E as <-. rewrite <- (key_list_in b _ q K).
  clear K. induction q as [|x r IH]; [reflexivity|]. cbn [fold_right]. rewrite insert_key_in, IH. cbn [In]. intuition.
Qed.
Lemma fold_zset l : (forall k a c, In (k, a) l -> In (k, c) l -> a = c) -> forall k a, zget (fold_left (fun m (p : Z * Z) => zset m (fst p) (snd p)) l []) k = Some a <-> In (k, a) l.
Proof.
  induction l as [|[j c] l IH] using rev_ind; intros F k a; [cbn; split; [discriminate|intros []]|]. rewrite fold_left_app. cbn [fold_left fst snd]. rewrite zget_zset, in_app_iff.
  destruct (Z.eqb_spec j k) as [->|N].
  - split; [intros E; injection E as ->; right; left; reflexivity|]. intros H. f_equal. apply (F k); [apply in_or_app; right; left; reflexivity|apply in_app_iff; exact H].
  - rewrite IH by (intros x y z X Y; apply (F x); apply in_or_app; left; assumption). split; [auto|]. intros [H|[H|[]]]; [exact H|injection H as H _; contradiction].
Qed.
Lemma put_keys_fields ks : forall b, let b' := fold_left put_key ks b in
  b_orch b' = fold_left (fun m (p : Z * Z) => zset m (fst p) (snd p)) (map (fun k => (snd (fst k), fst (fst k))) ks) (b_orch b) /\
  b_eth b' = fold_left (fun m (p : Z * Z) => zset m (fst p) (snd p)) (map (fun k => (fst (fst k), snd k)) ks) (b_eth b) /\
  b_byeth b' = fold_left (fun m (p : Z * Z) => zset m (fst p) (snd p)) (map (fun k => (snd k, fst (fst k))) ks) (b_byeth b).
Proof. induction ks as [|[[v o] e] r IH]; intros b; cbn [fold_left map fst snd]; [auto|]. apply (IH (put_key b (v, o, e))). Qed.
Theorem C41_keys_partial : forall rank s h s', restart rank s [h] = Ok s' -> keys_one_to_one (s_br s h) ->
  let b := s_br s h in let b0 := s_br s' 0 in
  (forall v e, zget (b_eth b0) v = Some e <-> zget (b_eth b) v = Some e) /\
  (forall o v, zget (b_orch b0) o = Some v <-> zget (b_orch b) o = Some v /\ zget (b_eth b) v <> None) /\
  (forall e v, zget (b_byeth b0) e = Some v <-> zget (b_eth b) v = Some e) /\
  (forall h', h' <> 0 -> b_orch (s_br s' h') = [] /\ b_eth (s_br s' h') = [] /\ b_byeth (s_br s' h') = []).
Proof.
  intros rank s h s' R (So & Se & Io & Ie) b b0. unfold restart in R. cbn [export_all] in R. destruct (export_one rank s h) as [g| |] eqn:E1; [|discriminate R|discriminate R]. cbn [rbind fold_left] in R. injection R as R.
  assert (Gk : export_keys rank b = Ok (g_keys g)).
  { unfold export_one in E1. fold b in E1. destruct (export_keys rank b) as [ks| |]; [|discriminate E1|discriminate E1]. cbn [rbind] in E1. destruct (b_observed b); [|discriminate E1]. injection E1 as <-. reflexivity. }
  pose proof (export_keys_in rank b _ Gk) as In_ks. pose proof (export_keys_ok rank b _ Gk) as Def. rewrite Forall_forall in Def.
  assert (B0 : exists c, keysof c = ([], [], []) /\ b0 = fold_left put_key (g_keys g) c).
  { unfold b0. rewrite <- R. unfold import_one. rewrite put_same. eexists. split; [|reflexivity]. destruct (Z.eq_dec 0 (g_h g)) as [E|E]; [|rewrite put_other by exact E; reflexivity]. rewrite <- E, put_same.
    destruct (store_fields (g_sets g) (s_br (init (s_height s)) 0)) as (_ & _ & _ & _ & _ & F1 & F2 & F3). unfold keysof. cbn. cbn in F1, F2, F3. congruence. }
  destruct B0 as (c & Kc & Eb). unfold keysof in Kc. apply pair_equal_spec in Kc as [Kc Kc3]. apply pair_equal_spec in Kc as [Kc1 Kc2].
  destruct (put_keys_fields (g_keys g) c) as (F1 & F2 & F3). rewrite <- Eb, Kc1 in F1. rewrite <- Eb, Kc2 in F2. rewrite <- Eb, Kc3 in F3. fold b in So, Se, Io, Ie.
  assert (K : forall v o e, In (v, o, e) (g_keys g) <-> zget (b_eth b) v = Some e /\ zget (b_orch b) o = Some v).
  { intros v o e. rewrite In_ks, (zget_in_iff _ _ _ Se). split; intros [X Y]; (split; [exact X|]); [exact (orch_of_in b v o So Y)|].
    specialize (Def (v, e) X). cbn [fst] in Def. destruct (orch_of b v) as [o'|] eqn:O; [|congruence]. f_equal. apply (Io o' o v); [exact (orch_of_in b v o' So O)|exact Y]. }
  assert (T : forall v e, zget (b_eth b) v = Some e -> exists o, In (v, o, e) (g_keys g)).
  { intros v e X. apply (zget_in_iff _ _ _ Se) in X. pose proof (Def (v, e) X) as D. cbn [fst] in D. destruct (orch_of b v) as [o|] eqn:O; [|congruence]. exists o. apply In_ks. auto. }
  rewrite F1, F2, F3. split; [|split; [|split]].
  - intros v e. rewrite fold_zset.
    + rewrite in_map_iff. split; [intros ([[v0 o0] e0] & X & Y); cbn in X; injection X as -> ->; apply K in Y; tauto|]. intros X. destruct (T v e X) as [o I]. exists (v, o, e). auto.
    + intros k a d A D. apply in_map_iff in A as ([[v1 o1] e1] & A1 & A2). apply in_map_iff in D as ([[v2 o2] e2] & D1 & D2). cbn in A1, D1. injection A1 as -> ->. injection D1 as -> ->. apply K in A2, D2. destruct A2, D2. congruence.
  - intros o v. rewrite fold_zset.
    + rewrite in_map_iff. split.
      * intros ([[v0 o0] e0] & X & Y). cbn in X. injection X as -> ->. apply K in Y as [Y1 Y2]. split; [exact Y2|congruence].
      * intros [X Y]. destruct (zget (b_eth b) v) as [e|] eqn:E; [|congruence]. exists (v, o, e). split; [reflexivity|]. apply K. auto.
    + intros k a d A D. apply in_map_iff in A as ([[v1 o1] e1] & A1 & A2). apply in_map_iff in D as ([[v2 o2] e2] & D1 & D2). cbn in A1, D1. injection A1 as -> ->. injection D1 as -> ->. apply K in A2, D2. destruct A2, D2. congruence.
  - intros e v. rewrite fold_zset.
    + rewrite in_map_iff. split; [intros ([[v0 o0] e0] & X & Y); cbn in X; injection X as -> ->; apply K in Y; tauto|]. intros X. destruct (T v e X) as [o I]. exists (v, o, e). auto.
    + intros k a d A D. apply in_map_iff in A as ([[v1 o1] e1] & A1 & A2). apply in_map_iff in D as ([[v2 o2] e2] & D1 & D2). cbn in A1, D1. injection A1 as -> ->. injection D1 as -> ->. apply K in A2, D2. destruct A2 as [A3 _], D2 as [D3 _]. exact (Ie _ _ _ A3 D3).
  - intros h' N. rewrite <- R. pose proof (import_keys (init (s_height s)) g h' N) as X. unfold keysof in X. cbn [init s_br empty_bridge b_orch b_eth b_byeth] in X. apply pair_equal_spec in X as [X ->]. apply pair_equal_spec in X. tauto.
Qed.
Print Assumptions C41_keys_partial.
Example C41_keys_partial_ex : keys_one_to_one (s_br before_stop 1) /\ restart idz before_stop [1] = Ok after_start /\
  map (fun o => zget (b_orch (s_br after_start 0)) o) [1; 2; 3] = map (fun o => zget (b_orch (s_br before_stop 1)) o) [1; 2; 3] /\ zget (b_orch (s_br before_stop 1)) 2 <> None.
Proof.
  split; [|split; [apply C41_sets_partial_ex|split; [vm_compute; reflexivity|vm_compute; discriminate]]].
  assert (A : b_orch (s_br before_stop 1) = [(1, 1); (2, 2)]) by (vm_compute; reflexivity). assert (B : b_eth (s_br before_stop 1) = [(1, 71); (2, 72)]) by (vm_compute; reflexivity).
  unfold keys_one_to_one. rewrite A, B. split; [repeat constructor|]. split; [repeat constructor|]. split; intros x y z X Y; apply zget_in in X, Y; cbn in X, Y; destruct X as [X|[X|[]]], Y as [Y|[Y|[]]]; congruence.
Qed.

(* A bridge that has not yet seen a set on the other side cannot be exported. *)
Theorem C41_export_unobserved_refuted : exists os s evs, go 1 os = Ok (s, evs) /\ restart idz s [1] = Panic.
Proof. exists (keys ++ [blk one]). do 2 eexists. split; vm_compute; reflexivity. Qed.
Print Assumptions C41_export_unobserved_refuted.
(* An orchestrator that takes its key back makes the export of the whole chain impossible. *)
Theorem C41_export_unset_key_refuted : exists os s evs s1, go 1 os = Ok (s, evs) /\ restart idz s [1] = Ok s1 /\
  match step idz idz s (OUnsetKeys 1 11 71) with Ok (s2, _) => restart idz s2 [1] = Panic | _ => False end.
Proof. exists [OSetKeys 1 1 11 71 true; blk one; OObserve 1 1]. do 3 eexists. split; [vm_compute; reflexivity|]. split; vm_compute; reflexivity. Qed.
Print Assumptions C41_export_unset_key_refuted.

(* The keys of every bridge come back on bridge 0, so nobody can confirm anything. *)
Theorem C41_keys_refuted : exists s s', restart idz s [1] = Ok s' /\ s = before_stop /\
  is_ok (step idz idz s (OConfirm 1 2 1 71 (Some 6))) = true /\
  (forall n o e g, is_ok (step idz idz s' (OConfirm 1 n o e g)) = false) /\
  zkeys (b_orch (s_br s 1)) = [1; 2] /\ zkeys (b_orch (s_br s 0)) = [] /\ zkeys (b_orch (s_br s' 1)) = [] /\ zkeys (b_orch (s_br s' 0)) = [1; 2].
Proof.
  exists before_stop, after_start. split; [apply C41_sets_partial_ex|]. split; [reflexivity|]. split; [vm_compute; reflexivity|]. split; [|vm_compute; auto].
  intros n o e g. assert (X : b_orch (s_br after_start 1) = []) by (vm_compute; reflexivity). cbn [step]. rewrite X. cbn [zget].
  destruct (zget _ n), g; reflexivity.
Qed.
Print Assumptions C41_keys_refuted.

(* The oldest stored set becomes the latest. *)
Theorem C41_latest_set_refuted : exists s s', restart idz s [1] = Ok s' /\ s = before_stop /\ b_latest (s_br s 1) = 2 /\ b_latest (s_br s' 1) = 1.
Proof. exists before_stop, after_start. split; [apply C41_sets_partial_ex|]. vm_compute. auto. Qed.
Print Assumptions C41_latest_set_refuted.

(* A set that was judged is judged again: once the validators have registered again, those
   punished for it are punished a second time. *)
Theorem C41_judged_again_refuted : exists s s' e1 e2 s2, go 1 life = Ok (s, e1) /\ restart idz s [1] = Ok s' /\
  run idz idz s' (keys ++ [blk one]) = Ok (s2, e2) /\ slashed 1 1 e1 = [2] /\ slashed 1 1 e2 = [2] /\ judged 1 e1 = [1] /\ In 1 (judged 1 e2).
Proof.
  set (s := before_stop). set (s' := after_start). exists s, s'.
  destruct C41_sets_partial_ex as ([e1 E1] & E2 & _). exists e1. assert (Y : is_ok (run idz idz s' (keys ++ [blk one])) = true) by (vm_compute; reflexivity).
  destruct (run idz idz s' (keys ++ [blk one])) as [[s2 e2]| |] eqn:E3; [|discriminate Y|discriminate Y]. exists e2, s2.
  split; [exact E1|]. split; [exact E2|]. split; [reflexivity|].
  assert (X1 : match go 1 life with Ok (_, e) => slashed 1 1 e = [2] /\ judged 1 e = [1] | _ => False end) by (vm_compute; auto). rewrite E1 in X1.
  assert (X2 : match run idz idz s' (keys ++ [blk one]) with Ok (_, e) => slashed 1 1 e = [2] /\ In 1 (judged 1 e) | _ => False end) by (vm_compute; auto). rewrite E3 in X2.
  tauto.
Qed.
Print Assumptions C41_judged_again_refuted.
