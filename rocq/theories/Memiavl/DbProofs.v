(* The invariant of the database over all schedules of calls, background steps
   and crashes. *)
From Verif Require Import Lib.Base Lib.Bytes Memiavl.Model Memiavl.HashModel Memiavl.DbModel Memiavl.DbSpec Memiavl.DbApplyProofs.
From Coq Require Import Sorting.Permutation Sorting.Sorted.
Open Scope Z_scope.

(* ---------------- lists ---------------- *)

Lemma nth_firstn {A} (l : list A) n i : (i < n)%nat -> nth_error (firstn n l) i = nth_error l i.
Proof.
  revert l i. induction n as [|n IH]; intros l i H; [lia|]. destruct l as [|x l]; [destruct i; reflexivity|].
  destruct i as [|i]; [reflexivity|]. cbn [firstn nth_error]. apply IH. lia.
Qed.
Lemma nth_firstn_some {A} (l : list A) n i x : nth_error (firstn n l) i = Some x -> (i < n)%nat /\ nth_error l i = Some x.
Proof.
  intro H. assert (Hi : (i < length (firstn n l))%nat) by (apply nth_error_Some; congruence).
  rewrite firstn_length in Hi. split; [lia|]. rewrite <- (nth_firstn l n i) by lia. exact H.
Qed.
Lemma nth_skipn {A} (l : list A) n i : nth_error (skipn n l) i = nth_error l (n + i).
Proof. revert l. induction n as [|n IH]; intro l; [reflexivity|]. destruct l as [|x l]; [destruct i; reflexivity|]. cbn. apply IH. Qed.
Lemma nth_lt {A} (l : list A) i x : nth_error l i = Some x -> (i < length l)%nat.
Proof. intro H. apply nth_error_Some. congruence. Qed.
Lemma nth_ex {A} (l : list A) i : (i < length l)%nat -> exists x, nth_error l i = Some x.
Proof. intro H. destruct (nth_error l i) eqn:E; [eauto|]. apply nth_error_None in E. lia. Qed.
Lemma nth_snoc {A} (l : list A) x i y : nth_error (l ++ [x]) i = Some y ->
  nth_error l i = Some y \/ (i = length l /\ y = x).
Proof.
  intro H. destruct (Nat.lt_ge_cases i (length l)) as [L | L].
  - left. rewrite nth_error_app1 in H by exact L. exact H.
  - right. rewrite nth_error_app2 in H by exact L. destruct (i - length l)%nat as [|k] eqn:E.
    + cbn in H. split; [lia|congruence].
    + cbn in H. destruct k; discriminate.
Qed.
Lemma nth_old {A} (l : list A) x i y : nth_error l i = Some y -> nth_error (l ++ [x]) i = Some y.
Proof. intro H. rewrite nth_error_app1; [exact H|eapply nth_lt; exact H]. Qed.
Lemma nth_new {A} (l : list A) (x : A) : nth_error (l ++ [x]) (length l) = Some x.
Proof. rewrite nth_error_app2 by lia. rewrite Nat.sub_diag. reflexivity. Qed.

Lemma filter_is_firstn {A} (p : A -> bool) l : forall n,
  (forall i m, nth_error l i = Some m -> p m = (i <? n)%nat) -> filter p l = firstn n l.
Proof.
  induction l as [|x l IH]; intros n H; [destruct n; reflexivity|].
  pose proof (H O x eq_refl) as H0. cbn [filter]. destruct n as [|n].
  - cbn in H0. rewrite H0. cbn [firstn]. rewrite (IH O); [reflexivity|]. intros i m Hm. rewrite (H (S i) m Hm). reflexivity.
  - change (0 <? S n)%nat with true in H0. rewrite H0. cbn [firstn]. f_equal. apply IH. intros i m Hm. rewrite (H (S i) m Hm). reflexivity.
Qed.

(* ---------------- versions ---------------- *)

Definition base_num (V iv : Z) : Prop := V = 0 /\ 0 <= iv \/ 1 <= V /\ iv = V + 1.
Definition ver (V iv : Z) (i : nat) : Z := match i with O => V | S _ => wal_version (Z.of_nat i) iv end.

Ltac vers := unfold base_num, ver, wal_version, wal_index, next_version in *.

Lemma ver_next V iv i : base_num V iv -> next_version (ver V iv i) iv = ver V iv (S i).
Proof.
  intro H. vers. destruct i as [|i].
  - destruct H as [[-> H] | [H ->]].
    + change (0 =? 0) with true. cbn [andb]. destruct (1 <? iv) eqn:E; lia.
    + destruct (V =? 0) eqn:E0; [lia|]. cbn [andb]. destruct (1 <? V + 1) eqn:E; lia.
  - destruct (1 <? iv) eqn:E; rewrite ?andb_true_r, ?andb_false_r; [|lia].
    destruct (Z.of_nat (S i) + iv - 1 =? 0) eqn:E0; lia.
Qed.
Lemma ver_index V iv i : wal_index (ver V iv (S i)) iv = Z.of_nat (S i).
Proof. vers. destruct (1 <? iv) eqn:E; lia. Qed.
Lemma ver_lt V iv i j : base_num V iv -> (i < j)%nat -> ver V iv i < ver V iv j.
Proof. intros H L. vers. destruct j as [|j]; [lia|]. destruct i as [|i]; destruct (1 <? iv) eqn:E; lia. Qed.
Lemma ver_le V iv i j : base_num V iv -> (i <= j)%nat <-> ver V iv i <= ver V iv j.
Proof.
  intro H. split; intro L.
  - destruct (Nat.eq_dec i j) as [-> | N]; [lia|]. pose proof (ver_lt V iv i j H ltac:(lia)). lia.
  - destruct (Nat.lt_ge_cases j i) as [X | X]; [|lia]. pose proof (ver_lt V iv j i H X). lia.
Qed.
Lemma ver_inj V iv i j : base_num V iv -> ver V iv i = ver V iv j -> i = j.
Proof. intros H E. pose proof (ver_le V iv i j H). pose proof (ver_le V iv j i H). lia. Qed.
Lemma ver_nonneg V iv i : base_num V iv -> 0 <= ver V iv i.
Proof. intro H. vers. destruct i as [|i]; [|destruct (1 <? iv) eqn:E]; lia. Qed.
Lemma ver_pos V iv i : base_num V iv -> 1 <= ver V iv (S i).
Proof. intro H. pose proof (ver_lt V iv O (S i) H ltac:(lia)). pose proof (ver_nonneg V iv O H). lia. Qed.
Lemma ver_of_index V iv t : 1 <= wal_index t iv -> t = ver V iv (Z.to_nat (wal_index t iv)).
Proof.
  intro H. destruct (Z.to_nat (wal_index t iv)) as [|n] eqn:E; [lia|]. unfold ver. rewrite <- E, Z2Nat.id by lia.
  vers. destruct (1 <? iv); lia.
Qed.
(* the log position after a snapshot is at most one past its index *)
Lemma index_after V iv i : base_num V iv -> wal_index (ver V iv i + 1) iv <= Z.of_nat i + 1.
Proof. intro H. vers. destruct i as [|i]; destruct (1 <? iv) eqn:E; lia. Qed.
Lemma index_mono iv a b : a <= b -> wal_index a iv <= wal_index b iv.
Proof. intro H. vers. destruct (1 <? iv); lia. Qed.

(* ---------------- states on the timeline ---------------- *)

Section P.
Variable sha : bytes -> bytes.
Variables V iv : Z.

Record good (i : nat) (m : mtree) : Prop := Good {
  g_init : mt_init m = iv;
  g_ver : mt_version m = ver V iv i;
  g_names : NoDup (names m);
  g_trees : Forall (fun p => t_version (snd p) = ver V iv i) (mt_trees m);
  g_zero : ver V iv i = 0 -> mt_trees m = [];
  g_infos : mt_infos m = build_infos sha (mt_trees m) }.

Definition advance (m : mtree) (e : wal_entry) (m' : mtree) : Prop :=
  exists m1, apply_wal_entry m e = Ok m1 /\ NoDup (names m1) /\ mt_save_version sha m1 true = Ok m'.

Lemma tree_set_version t k v t' : tree_set t k v = Some t' -> t_version t' = t_version t.
Proof.
  unfold tree_set. destruct (t_root t) as [n|]; [destruct (option_map fst _)|]; cbn [obind]; try discriminate;
    intro H; inversion H; reflexivity.
Qed.
Lemma tree_remove_version t k t' : tree_remove t k = Some t' -> t_version t' = t_version t.
Proof.
  unfold tree_remove. destruct (t_root t) as [n|]; [destruct (remove_rec n k (t_version t + 1))|]; cbn [obind]; try discriminate;
    intro H; inversion H; reflexivity.
Qed.
Lemma apply_version ps : forall t t', apply_change_set t ps = Some t' -> t_version t' = t_version t.
Proof.
  induction ps as [|p ps IH]; intros t t' H; cbn [apply_change_set] in H; [inversion H; reflexivity|].
  destruct (kv_delete p).
  - destruct (tree_remove t (kv_key p)) as [t1|] eqn:E; [|discriminate]. cbn [obind] in H. rewrite (IH _ _ H). eapply tree_remove_version; exact E.
  - destruct (tree_set t (kv_key p) (kv_value p)) as [t1|] eqn:E; [|discriminate]. cbn [obind] in H. rewrite (IH _ _ H). eapply tree_set_version; exact E.
Qed.

Lemma updated_versions f ts ts' (P : Z -> Prop) : Forall2 (updated f) ts ts' ->
  Forall (fun p => P (t_version (snd p))) ts -> Forall (fun p => P (t_version (snd p))) ts'.
Proof.
  induction 1 as [|p q ts ts' [_ H] _ IH]; intro F; inversion F; subst; constructor; auto. rewrite (apply_version _ _ _ H). assumption.
Qed.

Lemma replace_at_forall {A} (P : A -> Prop) l i x : Forall P l -> P x -> Forall P (replace_at l i x).
Proof. intro F. revert i. induction F as [|y l Hy F IH]; intros i Hx; destruct i; cbn [replace_at]; constructor; auto. Qed.
Lemma firstn_forall {A} (P : A -> Prop) n l : Forall P l -> Forall P (firstn n l).
Proof. intro F. revert n. induction F; intros [|n]; cbn; constructor; auto. Qed.
Lemma nth_forall {A} (P : A -> Prop) l i x : Forall P l -> nth_error l i = Some x -> P x.
Proof. intros F H. rewrite Forall_forall in F. apply F. eapply nth_error_In; exact H. Qed.

Lemma upgrade_forall m ts u ts' n : n = next_version (mt_version m) (mt_init m) -> 1 <= n ->
  Forall (fun p => t_version (snd p) + 1 = n) ts -> apply_upgrade m ts u = Ok ts' -> Forall (fun p => t_version (snd p) + 1 = n) ts'.
Proof.
  intros En Hn F H. unfold apply_upgrade in H. destruct (up_delete u).
  - destruct (index_named ts (up_name u)) as [i|]; [|discriminate]. inversion H; subst ts'. clear H. unfold swap_delete.
    destruct (nth_error ts (length ts - 1)) as [x|] eqn:E; [|exact F].
    apply firstn_forall. apply replace_at_forall; [exact F|]. apply (nth_forall _ _ _ _ F E).
  - destruct (up_rename_from u) as [|a r].
    + inversion H; subst ts'. apply Forall_app. split; [exact F|]. constructor; [|constructor]. cbn [snd]. rewrite <- En.
      unfold new_tree_at. cbn [t_version]. destruct (n <=? 1) eqn:E; lia.
    + destruct (index_named ts (a :: r)) as [i|]; [|discriminate]. destruct (nth_error ts i) as [[x t]|] eqn:E; [|discriminate].
      inversion H; subst ts'. apply replace_at_forall; [exact F|]. apply (nth_forall _ _ _ _ F E).
Qed.
Lemma upgrades_forall m us n : n = next_version (mt_version m) (mt_init m) -> 1 <= n -> forall ts ts',
  Forall (fun p => t_version (snd p) + 1 = n) ts -> apply_upgrade_list m ts us = Ok ts' -> Forall (fun p => t_version (snd p) + 1 = n) ts'.
Proof.
  intros En Hn. induction us as [|u us IH]; intros ts ts' F H; cbn [apply_upgrade_list] in H; [inversion H; subst; exact F|].
  destruct (apply_upgrade m ts u) as [t1| |] eqn:E; cbn [rbind] in H; try discriminate.
  eapply IH; [|exact H]. eapply upgrade_forall; eassumption.
Qed.

Lemma apply_upgrades_shape m us m' : apply_upgrades m us = Ok m' -> mt_init m' = mt_init m /\ mt_version m' = mt_version m /\ mt_infos m' = mt_infos m.
Proof. intro H. apply apply_upgrades_cases in H. destruct H as [[_ ->] | [ts [_ [-> _]]]]; repeat split. Qed.

Lemma wal_entry_facts m e m1 n : NoDup (names m) -> apply_wal_entry m e = Ok m1 ->
  n = next_version (mt_version m) (mt_init m) -> 1 <= n -> Forall (fun p => t_version (snd p) + 1 = n) (mt_trees m) ->
  mt_init m1 = mt_init m /\ mt_version m1 = mt_version m /\ NoDup (names m1) /\ Forall (fun p => t_version (snd p) + 1 = n) (mt_trees m1).
Proof.
  intros Hnd H En Hn F. unfold apply_wal_entry in H. destruct (apply_upgrades m (we_upgrades e)) as [m0| |] eqn:E; cbn [rbind] in H; try discriminate.
  pose proof (apply_upgrades_names _ _ _ Hnd E) as Hnd0. pose proof (apply_upgrades_shape _ _ _ E) as [S1 [S2 _]].
  assert (F0 : Forall (fun p => t_version (snd p) + 1 = n) (mt_trees m0)).
  { apply apply_upgrades_cases in E. destruct E as [[_ ->] | [ts [E [-> _]]]]; [exact F|]. cbn [mt_trees with_trees].
    eapply Permutation_Forall; [apply sort_named_perm|]. eapply upgrades_forall; eassumption. }
  apply apply_nf in H; [|exact Hnd0]. destruct H as [_ [ts [-> F2]]]. cbn [mt_init mt_version mt_trees with_trees].
  split; [exact S1|]. split; [exact S2|]. split; [unfold names; cbn [mt_trees with_trees]; rewrite (updated_names _ _ _ F2); exact Hnd0|].
  eapply (updated_versions _ _ _ (fun v => v + 1 = n)); [exact F2|exact F0].
Qed.

Lemma save_trees_ok ts : forall ts', save_trees ts = Ok ts' ->
  map fst ts' = map fst ts /\ forall n, Forall (fun p => t_version (snd p) + 1 = n) ts -> Forall (fun p => t_version (snd p) = n) ts'.
Proof.
  induction ts as [|[name t] ts IH]; intros ts' H; cbn [save_trees] in H.
  - inversion H; subst. split; [reflexivity|]. intros; constructor.
  - destruct (save_version t) as [t'| |] eqn:E; cbn [rbind] in H; try discriminate.
    destruct (save_trees ts) as [l| |]; cbn [rbind] in H; try discriminate. inversion H; subst. clear H.
    destruct (IH l eq_refl) as [I1 I2]. cbn [map fst]. split; [f_equal; exact I1|].
    intros n F. inversion F; subst. constructor; [|apply I2; assumption]. cbn [snd] in *.
    unfold save_version in E. destruct (t_version t =? 2 ^ 32 - 1); [discriminate|]. inversion E; subst. reflexivity.
Qed.

Lemma advance_good i m e m' : base_num V iv -> good i m -> advance m e m' -> good (S i) m'.
Proof.
  intros Hb G [m1 [H1 [_ H2]]]. destruct G as [g1 g2 g3 g4 g5 g6].
  assert (En : ver V iv (S i) = next_version (mt_version m) (mt_init m)) by (rewrite g1, g2; symmetry; apply ver_next; exact Hb).
  pose proof (ver_pos V iv i Hb) as Hpos.
  assert (F : Forall (fun p => t_version (snd p) + 1 = ver V iv (S i)) (mt_trees m)).
  { rewrite <- ver_next by exact Hb. unfold next_version. destruct ((ver V iv i =? 0) && (1 <? iv)) eqn:E.
    - rewrite g5 by lia. constructor.
    - eapply Forall_impl; [|exact g4]. cbn beta. intros p ->. reflexivity. }
  destruct (wal_entry_facts _ _ _ _ g3 H1 En Hpos F) as [a1 [a2 [a3 a4]]].
  unfold mt_save_version in H2. destruct (save_trees (mt_trees m1)) as [ts| |] eqn:Es; cbn [rbind] in H2; try discriminate.
  inversion H2; subst m'. clear H2. destruct (save_trees_ok _ _ Es) as [s1 s2]. unfold update_commit_info. cbn [mt_init mt_trees mt_version].
  constructor; cbn [mt_init mt_version mt_trees mt_infos names].
  - congruence.
  - rewrite a1, a2, g1, g2. apply ver_next; exact Hb.
  - unfold names. cbn [mt_trees]. rewrite s1. exact a3.
  - apply s2. exact a4.
  - lia.
  - reflexivity.
Qed.

Lemma set_initial_id a n ts : 0 < n -> Forall (fun p => t_version (snd p) = n) ts ->
  map (fun p : bytes * tree => (fst p, tree_set_initial a (snd p))) ts = ts.
Proof.
  intros Hn. induction 1 as [|[x t] ts Hp F IH]; [reflexivity|]. cbn [map fst snd] in *. rewrite IH.
  unfold tree_set_initial. destruct (0 <? t_version t) eqn:E; [reflexivity|lia].
Qed.
Lemma load_good i m : base_num V iv -> good i m -> load_multi_tree m = m.
Proof.
  intros Hb G. unfold load_multi_tree, mt_set_initial. destruct m as [a ts v inf]. cbn [mt_init mt_trees mt_version mt_infos]. f_equal.
  destruct (1 <? a); [|reflexivity]. pose proof (g_trees _ _ G) as F. pose proof (g_zero _ _ G) as Z0. cbn [mt_trees] in *.
  pose proof (ver_nonneg V iv i Hb).
  destruct (Z.eq_dec (ver V iv i) 0) as [E | E]; [rewrite Z0 by exact E; reflexivity|].
  apply (set_initial_id a (ver V iv i)); [lia|exact F].
Qed.

Definition infos_as (m : mtree) (x : list store_info) : mtree := MTree (mt_init m) (mt_trees m) (mt_version m) x.
Definition rmap {A B} (f : A -> B) (r : res A) : res B := rbind r (fun a => Ok (f a)).

Lemma apply_upgrade_list_infos m x us : forall ts, apply_upgrade_list (infos_as m x) ts us = apply_upgrade_list m ts us.
Proof. induction us as [|u us IH]; intro ts; [reflexivity|]. cbn [apply_upgrade_list]. change (apply_upgrade (infos_as m x) ts u) with (apply_upgrade m ts u).
  destruct (apply_upgrade m ts u); cbn [rbind]; auto. Qed.
Lemma apply_upgrades_infos m x us : apply_upgrades (infos_as m x) us = rmap (fun m => infos_as m x) (apply_upgrades m us).
Proof.
  unfold apply_upgrades. destruct us as [|u us]; [reflexivity|]. rewrite apply_upgrade_list_infos. cbn [mt_trees infos_as].
  destruct (apply_upgrade_list m (mt_trees m) (u :: us)); cbn [rbind rmap]; auto. destruct (distinct_names (sort_named a)); reflexivity.
Qed.
Lemma apply_changes_infos cs x : forall m, mt_apply_change_sets (infos_as m x) cs = rmap (fun m => infos_as m x) (mt_apply_change_sets m cs).
Proof.
  induction cs as [|c cs IH]; intro m; [reflexivity|]. cbn [mt_apply_change_sets].
  assert (H : mt_apply_change_set (infos_as m x) (nc_name c) (nc_pairs c) = rmap (fun m => infos_as m x) (mt_apply_change_set m (nc_name c) (nc_pairs c))).
  { unfold mt_apply_change_set. change (tree_by_name (infos_as m x) (nc_name c)) with (tree_by_name m (nc_name c)).
    destruct (tree_by_name m (nc_name c)); [|reflexivity]. destruct (apply_change_set t (nc_pairs c)); reflexivity. }
  rewrite H. destruct (mt_apply_change_set m (nc_name c) (nc_pairs c)); cbn [rmap rbind]; auto.
Qed.
Lemma apply_entry_infos m x e : apply_wal_entry (infos_as m x) e = rmap (fun m => infos_as m x) (apply_wal_entry m e).
Proof.
  unfold apply_wal_entry. rewrite apply_upgrades_infos. destruct (apply_upgrades m (we_upgrades e)); cbn [rmap rbind]; auto. apply apply_changes_infos.
Qed.

Lemma advance_replay m e m' x : advance m e m' ->
  exists m1, apply_wal_entry (infos_as m x) (wire e) = Ok m1 /\ mt_save_version sha m1 false = Ok (infos_as m' []).
Proof.
  intros [m1 [H1 [_ H2]]]. exists (infos_as m1 x). rewrite apply_wal_entry_wire, apply_entry_infos, H1. split; [reflexivity|].
  unfold mt_save_version in *. change (mt_trees (infos_as m1 x)) with (mt_trees m1).
  destruct (save_trees (mt_trees m1)) as [ts| |]; cbn [rbind] in *; try discriminate. inversion H2; subst. reflexivity.
Qed.

(* ---------------- the chain and the log ---------------- *)

Record chain (tl : list mtree) (es : list wal_entry) : Prop := Chain {
  ch_len : length tl = S (length es);
  ch_good0 : forall m, nth_error tl 0 = Some m -> good 0 m;
  ch_next : forall i e m m', nth_error es i = Some e -> nth_error tl i = Some m -> nth_error tl (S i) = Some m' -> advance m e m' }.

Lemma chain_good tl es : base_num V iv -> chain tl es -> forall i m, nth_error tl i = Some m -> good i m.
Proof.
  intros Hb C. induction i as [|i IH]; intros m H; [apply (ch_good0 _ _ C); exact H|].
  pose proof (nth_lt _ _ _ H) as L. rewrite (ch_len _ _ C) in L.
  destruct (nth_ex tl i) as [m0 H0]; [rewrite (ch_len _ _ C); lia|]. destruct (nth_ex es i) as [e He]; [lia|].
  eapply advance_good; [exact Hb|apply IH; exact H0|]. eapply ch_next; eassumption.
Qed.

Record log_ok (w : wal) (es : list wal_entry) : Prop := LogOk {
  lo_first : 1 <= log_first w;
  lo_last : log_last w <= Z.of_nat (length es);
  lo_nth : forall j e, nth_error (log_entries w) j = Some e -> nth_error es (Z.to_nat (log_first w - 1) + j) = Some e }.

Lemma log_read_ok w es j : log_ok w es -> log_first w <= Z.of_nat (S j) <= log_last w ->
  exists e, nth_error es j = Some e /\ log_read w (Z.of_nat (S j)) = Ok e.
Proof.
  intros [L1 L2 L3] H. unfold log_last in *. unfold log_read. destruct (Z.of_nat (S j) <? log_first w) eqn:E; [lia|].
  destruct (nth_ex (log_entries w) (Z.to_nat (Z.of_nat (S j) - log_first w))) as [e He]; [lia|].
  rewrite He. exists e. split; [|reflexivity]. rewrite <- (L3 _ _ He). f_equal. lia.
Qed.

Lemma replay_ok tl es w count : chain tl es -> log_ok w es -> forall i m x,
  nth_error tl i = Some m -> log_first w <= Z.of_nat (S i) -> Z.of_nat (i + count) <= log_last w ->
  exists m' y, nth_error tl (i + count) = Some m' /\ replay sha count (infos_as m x) w (Z.of_nat (S i)) = Ok (infos_as m' y).
Proof.
  intros C L. induction count as [|c IH]; intros i m x H H1 H2.
  - exists m, x. rewrite Nat.add_0_r. split; [exact H|reflexivity].
  - destruct (log_read_ok w es i L) as [e [He Hr]]; [lia|].
    destruct (nth_ex tl (S i)) as [m' Hm']; [rewrite (ch_len _ _ C); pose proof (nth_lt _ _ _ He); lia|].
    pose proof (ch_next _ _ C _ _ _ _ He H Hm') as A. destruct (advance_replay _ _ _ x A) as [m1 [A1 A2]].
    cbn [replay]. rewrite Hr. cbn [rbind]. rewrite A1. cbn [rbind]. rewrite A2. cbn [rbind].
    destruct (IH (S i) m' [] Hm') as [m2 [y [B1 B2]]]; [lia|lia|].
    exists m2, y. split; [rewrite <- B1; f_equal; lia|]. rewrite <- B2. f_equal. lia.
Qed.

Lemma infos_same m : infos_as m (mt_infos m) = m.
Proof. destruct m; reflexivity. Qed.

Lemma catchup_core tl es w i m n : base_num V iv -> chain tl es -> log_ok w es -> nth_error tl i = Some m ->
  log_first w <= Z.of_nat (S i) -> (i < n)%nat -> Z.of_nat n <= log_last w ->
  exists m', nth_error tl n = Some m' /\
    rbind (replay sha (Z.to_nat (Z.of_nat n - Z.of_nat (S i) + 1)) m w (Z.of_nat (S i))) (fun m' => Ok (update_commit_info sha m')) = Ok m'.
Proof.
  intros Hb C L H H1 H2 H3.
  destruct (replay_ok tl es w (n - i) C L i m (mt_infos m) H H1) as [m' [y [A1 A2]]]; [lia|].
  rewrite infos_same in A2. replace (i + (n - i))%nat with n in A1 by lia.
  exists m'. split; [exact A1|]. replace (Z.to_nat (Z.of_nat n - Z.of_nat (S i) + 1)) with (n - i)%nat by lia.
  rewrite A2. cbn [rbind]. f_equal. pose proof (g_infos _ _ (chain_good _ _ Hb C _ _ A1)) as Ei. unfold update_commit_info, infos_as.
  cbn [mt_init mt_trees mt_version]. rewrite <- Ei. destruct m'; reflexivity.
Qed.

Lemma catchup_latest tl es w i m : base_num V iv -> chain tl es -> log_ok w es -> nth_error tl i = Some m ->
  log_first w <= Z.of_nat (S i) ->
  exists m', nth_error tl (Nat.max i (Z.to_nat (log_last w))) = Some m' /\ catchup sha m w 0 = Ok m'.
Proof.
  intros Hb C L H H1. pose proof (chain_good _ _ Hb C _ _ H) as G. unfold catchup.
  rewrite (g_init _ _ G), (g_ver _ _ G), ver_next, ver_index by exact Hb.
  destruct (log_last w <? Z.of_nat (S i)) eqn:E.
  - exists m. split; [|reflexivity]. rewrite <- H. f_equal. lia.
  - change (0 =? 0) with true. cbn [andb]. rewrite E, Z.ltb_irrefl.
    destruct (catchup_core tl es w i m (Z.to_nat (log_last w)) Hb C L H H1) as [m' [A1 A2]]; [lia|lia|].
    exists m'. split; [rewrite <- A1; f_equal; lia|]. rewrite Z2Nat.id in A2 by lia. exact A2.
Qed.

Lemma catchup_to tl es w i m n : base_num V iv -> chain tl es -> log_ok w es -> nth_error tl i = Some m ->
  log_first w <= Z.of_nat (S i) -> (i < n)%nat -> Z.of_nat n <= log_last w ->
  exists m', nth_error tl n = Some m' /\ catchup sha m w (ver V iv n) = Ok m'.
Proof.
  intros Hb C L H H1 H2 H3. pose proof (chain_good _ _ Hb C _ _ H) as G. unfold catchup.
  rewrite (g_init _ _ G), (g_ver _ _ G), ver_next, ver_index by exact Hb.
  destruct n as [|n]; [lia|]. pose proof (ver_pos V iv n Hb).
  destruct (log_last w <? Z.of_nat (S i)) eqn:E; [lia|]. destruct (ver V iv (S n) =? 0) eqn:E0; [lia|].
  rewrite ver_index. destruct (Z.of_nat (S n) <? Z.of_nat (S i)) eqn:E1; [lia|]. destruct (log_last w <? Z.of_nat (S n)) eqn:E2; [lia|].
  apply (catchup_core tl es w i m (S n) Hb C L H H1); lia.
Qed.

(* ---------------- snapshots ---------------- *)

Definition sorted_snaps (l : list (Z * mtree)) : Prop := StronglySorted Z.lt (map fst l).

Lemma find_add l v m u : find_snap (add_snap l v m) u = if v =? u then Some m else find_snap l u.
Proof.
  unfold find_snap. induction l as [|[a x] l IH]; cbn [add_snap].
  - cbn [find fst]. destruct (v =? u); reflexivity.
  - destruct (a <? v) eqn:E.
    + cbn [find fst]. destruct (a =? u) eqn:Ea; [|exact IH]. destruct (v =? u) eqn:Ev; [lia|reflexivity].
    + cbn [find fst]. destruct (v =? u); reflexivity.
Qed.
Lemma find_remove l v u : u <> v -> find_snap (remove_snap l v) u = find_snap l u.
Proof.
  intro H. unfold find_snap, remove_snap. induction l as [|[a x] l IH]; [reflexivity|]. cbn [filter fst find].
  destruct (a =? v) eqn:E; cbn [negb find fst].
  - destruct (a =? u) eqn:Eu; [lia|exact IH].
  - destruct (a =? u); [reflexivity|exact IH].
Qed.
Lemma find_in l v m : find_snap l v = Some m -> In (v, m) l.
Proof.
  unfold find_snap. intro H. destruct (find (fun p => fst p =? v) l) as [[a x]|] eqn:E; [|discriminate]. cbn in H. inversion H; subst.
  apply find_some in E. destruct E as [Hi E]. cbn in E. apply Z.eqb_eq in E. subst. exact Hi.
Qed.
Lemma in_find l v : In v (map fst l) -> exists m, find_snap l v = Some m.
Proof.
  intro H. unfold find_snap. destruct (find (fun p => fst p =? v) l) as [[a x]|] eqn:E; [exists x; reflexivity|].
  apply in_map_iff in H. destruct H as [[a x] [E1 Hi]]. cbn in E1. subst a. pose proof (find_none _ _ E _ Hi) as N. cbn in N. lia.
Qed.
Lemma in_add l v m u x : In (u, x) (add_snap l v m) -> In (u, x) l \/ (u = v /\ x = m).
Proof.
  induction l as [|[a y] l IH]; cbn [add_snap].
  - intros [H | []]. inversion H. right. auto.
  - destruct (a <? v).
    + intros [H | H]; [left; left; exact H|]. destruct (IH H) as [H' | H']; [left; right; exact H'|right; exact H'].
    + intros [H | H]; [inversion H; right; auto|left; exact H].
Qed.
Lemma filter_sorted (p : Z * mtree -> bool) l : sorted_snaps l -> sorted_snaps (filter p l).
Proof.
  unfold sorted_snaps. induction l as [|x l IH]; intro H; [constructor|]. cbn [map] in H. inversion H as [|? ? Hs Hf]; subst. cbn [filter].
  destruct (p x); [|apply IH; exact Hs]. cbn [map]. constructor; [apply IH; exact Hs|].
  rewrite Forall_forall in *. intros z Hz. apply Hf. apply in_map_iff in Hz. destruct Hz as [q [<- Hq]]. apply filter_In in Hq.
  apply in_map. exact (proj1 Hq).
Qed.
Lemma remove_sorted l v : sorted_snaps l -> sorted_snaps (remove_snap l v).
Proof. apply filter_sorted. Qed.
Lemma add_sorted l v m : sorted_snaps l -> find_snap l v = None -> sorted_snaps (add_snap l v m).
Proof.
  unfold sorted_snaps. induction l as [|[a x] l IH]; intros H Hn; [repeat constructor|].
  cbn [map fst] in H. inversion H as [|? ? Hs Hf]; subst. cbn [add_snap].
  assert (Hav : a <> v /\ find_snap l v = None).
  { unfold find_snap in *. cbn [find fst] in Hn. destruct (a =? v) eqn:E; [discriminate|]. split; [lia|exact Hn]. }
  destruct Hav as [Hav Hn']. destruct (a <? v) eqn:E; cbn [map fst].
  - constructor; [apply IH; assumption|]. rewrite Forall_forall in *. intros z Hz. apply in_map_iff in Hz.
    destruct Hz as [[u y] [<- Hz]]. apply in_add in Hz. destruct Hz as [Hz | [-> _]]; [apply Hf; apply in_map_iff; exists (u, y); auto|cbn; lia].
  - constructor; [exact H|]. constructor; [lia|]. eapply Forall_impl; [|exact Hf]. cbn. intros; lia.
Qed.
Lemma sorted_head l v x : sorted_snaps ((v, x) :: l) -> forall u m, In (u, m) ((v, x) :: l) -> v <= u.
Proof.
  intros H u m [E | Hi]; [inversion E; lia|]. inversion H as [|? ? _ Hf]; subst. rewrite Forall_forall in Hf.
  cbn [fst] in Hf. specialize (Hf u). rewrite in_map_iff in Hf. assert (v < u); [apply Hf; exists (u, m); auto|lia].
Qed.
Lemma earliest_le d u m : sorted_snaps (snaps d) -> In (u, m) (snaps d) -> 0 <= u -> earliest d <= u.
Proof.
  intros H Hi Hu. unfold earliest. destruct (snaps d) as [|[v x] l] eqn:E; [lia|]. destruct (parsable v); [|lia]. eapply sorted_head; eassumption.
Qed.

Definition desc (l : list Z) : Prop := StronglySorted (fun a b => b < a) l.
Lemma desc_app a b : desc a -> desc b -> (forall x y, In x a -> In y b -> y < x) -> desc (a ++ b).
Proof.
  unfold desc. induction a as [|x a IH]; intros Ha Hb H; [exact Hb|]. inversion Ha as [|? ? Ha' Fa]; subst. cbn [app].
  constructor; [apply IH; auto; intros; apply H; [right; assumption|assumption]|]. apply Forall_app. split; [exact Fa|].
  apply Forall_forall. intros y Hy. apply H; [left; reflexivity|exact Hy].
Qed.
Lemma rev_desc l : StronglySorted Z.lt l -> desc (rev l).
Proof.
  induction 1 as [|x l Hs IH Hf]; [constructor|]. cbn [rev]. apply desc_app; [exact IH|repeat constructor|].
  intros a b Ha [<- | []]. rewrite Forall_forall in Hf. apply Hf. apply in_rev. exact Ha.
Qed.

Lemma seek_ok vs t sv : desc vs -> seek vs t = Ok sv -> In sv vs /\ sv <= t /\ forall v, In v vs -> v <= t -> v <= sv.
Proof.
  induction 1 as [|v vs Hs IH Hf]; cbn [seek]; [discriminate|]. destruct (negb (parsable v)); [discriminate|].
  destruct (v <=? t) eqn:E.
  - intro H. inversion H; subst. split; [left; reflexivity|]. split; [lia|]. intros u [<- | Hu] _; [lia|].
    rewrite Forall_forall in Hf. specialize (Hf u Hu). lia.
  - intro H. destruct (IH H) as [A [B D]]. split; [right; exact A|]. split; [exact B|]. intros u [<- | Hu] L; [lia|apply D; assumption].
Qed.

Lemma drop_above_ok vs t : desc vs -> forall l l', (forall u m, In (u, m) l -> t < u -> In u vs) ->
  drop_above l vs t = Ok l' -> l' = filter (fun p => fst p <=? t) l.
Proof.
  induction 1 as [|v vs Hs IH Hf]; intros l l' Hin H; cbn [drop_above] in H.
  - inversion H; subst. clear H. induction l' as [|[u m] l' IHl]; [reflexivity|]. cbn [filter fst]. destruct (u <=? t) eqn:E.
    + f_equal. apply IHl. intros u' m' Hi L. apply (Hin u' m'); [right; exact Hi|exact L].
    + exfalso. apply (Hin u m); [left; reflexivity|lia].
  - destruct (negb (parsable v)); [discriminate|]. destruct (v <=? t) eqn:E.
    + inversion H; subst. clear H. assert (A : forall u m, In (u, m) l' -> u <= t).
      { intros u m Hi. destruct (Z.le_gt_cases u t) as [L | L]; [exact L|]. destruct (Hin u m Hi L) as [<- | Hv]; [lia|].
        rewrite Forall_forall in Hf. specialize (Hf u Hv). lia. }
      clear -A. induction l' as [|[u m] l' IHl]; [reflexivity|]. cbn [filter fst].
      pose proof (A u m (or_introl eq_refl)). destruct (u <=? t) eqn:E; [|lia]. f_equal. apply IHl. intros u' m' Hi. apply (A u' m'). right. exact Hi.
    + assert (Hin' : forall u m, In (u, m) (remove_snap l v) -> t < u -> In u vs).
      { intros u m Hi L. unfold remove_snap in Hi. apply filter_In in Hi. destruct Hi as [Hi Hn]. cbn in Hn.
        destruct (Hin u m Hi L) as [<- | Hv]; [lia|exact Hv]. }
      rewrite (IH _ _ Hin' H). unfold remove_snap. clear -E. induction l as [|[u m] l IHl]; [reflexivity|]. cbn [filter fst].
      destruct (u =? v) eqn:Eu; cbn [negb filter fst].
      * destruct (u <=? t) eqn:Et; [lia|]. exact IHl.
      * destruct (u <=? t); [f_equal|]; exact IHl.
Qed.

Lemma find_filter l t v : v <= t -> find_snap (filter (fun p => fst p <=? t) l) v = find_snap l v.
Proof.
  intro H. unfold find_snap. induction l as [|[a x] l IH]; [reflexivity|]. cbn [filter fst find].
  destruct (a <=? t) eqn:E; cbn [find fst].
  - destruct (a =? v); [reflexivity|exact IH].
  - destruct (a =? v) eqn:Ea; [lia|exact IH].
Qed.
End P.
