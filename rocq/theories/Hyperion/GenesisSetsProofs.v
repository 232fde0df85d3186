(* Proofs about the restart of validator sets, confirmations and keys. *)
From Coq Require Import Sorting.Sorted.
From Verif Require Import Lib.Base Lib.Zmap Hyperion.Valset Hyperion.ValsetSpec Hyperion.ValsetRuns Hyperion.ValsetHistory Hyperion.GenesisSets.
Open Scope Z_scope.

Lemma zsorted_ext {V} (a b : list (Z * V)) : zsorted a -> zsorted b -> (forall k, zget a k = zget b k) -> a = b.
Proof.
  revert b. induction a as [|[k v] r IH]; intros [|[j w] q] Sa Sb E.
  - reflexivity.
  - specialize (E j). cbn in E. rewrite Z.eqb_refl in E. discriminate.
  - specialize (E k). cbn in E. rewrite Z.eqb_refl in E. discriminate.
  - apply zsorted_cons in Sa as [Sa Fa]. apply zsorted_cons in Sb as [Sb Fb]. rewrite Forall_forall in Fa, Fb.
    assert (k = j) as <-.
    { destruct (Z.lt_trichotomy k j) as [L|[L|L]]; [|exact L|].
      - pose proof (E k) as X. cbn in X. rewrite Z.eqb_refl in X. destruct (Z.eqb_spec j k); [lia|]. symmetry in X. apply zget_in in X. apply (in_map fst) in X. cbn in X. specialize (Fb k X). lia.
      - pose proof (E j) as X. cbn in X. rewrite Z.eqb_refl in X. destruct (Z.eqb_spec k j); [lia|]. apply zget_in in X. apply (in_map fst) in X. cbn in X. specialize (Fa j X). lia. }
    pose proof (E k) as X. cbn in X. rewrite Z.eqb_refl in X. injection X as <-. f_equal. apply IH; [exact Sa|exact Sb|].
    intro x. pose proof (E x) as X. cbn in X. destruct (Z.eqb_spec k x) as [Ex|]; [|exact X]. subst x.
    transitivity (@None V); [|symmetry]; apply zget_below; apply Forall_forall; auto.
Qed.

(* ---- storing sets ---- *)
Lemma stores_sets l : forall b, zsorted (b_sets b) -> NoDup (map v_nonce l) ->
  let b' := fold_left store_set l b in
  zsorted (b_sets b') /\ (forall k, zget (b_sets b') k = match find (fun v => v_nonce v =? k) l with Some v => Some v | None => zget (b_sets b) k end) /\
  b_latest b' = last (map v_nonce l) (b_latest b).
Proof.
  induction l as [|v r IH]; intros b S N; cbn [fold_left].
  - split; [exact S|]. split; [intro k; reflexivity|reflexivity].
  - cbn [map] in N. inversion N as [|? ? Nv Nr]; subst. destruct (IH (store_set b v)) as (S1 & G1 & L1); [cbn [store_set with_sets b_sets]; apply zset_sorted, S|exact Nr|].
    split; [exact S1|]. split.
    + intro k. rewrite G1. cbn [find store_set with_sets b_sets]. rewrite zget_zset. destruct (Z.eqb_spec (v_nonce v) k) as [E|E]; [|reflexivity].
      destruct (find _ r) as [w|] eqn:F; [|reflexivity]. apply find_some in F as [F1 F2]. exfalso. apply Nv. apply in_map_iff. exists w. split; [lia|exact F1].
    + rewrite L1. cbn [store_set with_sets b_latest map]. destruct r as [|w r]; [reflexivity|]. clear. cbn [map]. generalize (v_nonce w). induction (map v_nonce r); intro; cbn in *; auto.
Qed.
Lemma store_fields l : forall b, let b' := fold_left store_set l b in
  b_slashed b' = b_slashed b /\ b_confs b' = b_confs b /\ b_observed b' = b_observed b /\ b_batches b' = b_batches b /\ b_bconfs b' = b_bconfs b /\
  b_orch b' = b_orch b /\ b_eth b' = b_eth b /\ b_byeth b' = b_byeth b.
Proof. induction l as [|v r IH]; intro b; cbn [fold_left]; [repeat split|]. destruct (IH (store_set b v)) as (A & B & C & D & E & F & G & H). repeat split; assumption. Qed.

(* the sets of a map, last to first, stored from nothing *)
Lemma last_rev_hd (l : list Z) d : last (rev l) d = hd d l.
Proof. destruct l as [|x r]; [reflexivity|]. cbn [rev hd]. apply last_last. Qed.
Lemma vals_nonces b : keyed b -> map v_nonce (zvals (b_sets b)) = zkeys (b_sets b).
Proof.
  intros [S K]. unfold zvals, zkeys. rewrite map_map. apply map_ext_in. intros [k v] I. cbn. symmetry. apply (in_zget _ _ _ S) in I. apply K in I. cbn in I. lia.
Qed.
Lemma sets_back b c : keyed b -> b_sets c = [] -> b_latest c = 0 ->
  let c' := fold_left store_set (rev (zvals (b_sets b))) c in
  b_sets c' = b_sets b /\ b_latest c' = hd 0 (zkeys (b_sets b)).
Proof.
  intros Kb E L. pose proof Kb as [S K]. pose proof (vals_nonces b Kb) as V.
  assert (Nr : NoDup (map v_nonce (rev (zvals (b_sets b))))) by (rewrite map_rev, V; apply NoDup_rev, zsorted_nodup, S).
  destruct (stores_sets (rev (zvals (b_sets b))) c) as (S1 & G1 & L1); [rewrite E; apply zsorted_nil|exact Nr|].
  split.
  - apply zsorted_ext; [exact S1|exact S|]. intro k. rewrite G1, E. cbn [zget]. destruct (find _ _) as [v|] eqn:F.
    + apply find_some in F as [F1 F2]. apply in_rev in F1. unfold zvals in F1. apply in_map_iff in F1 as ([j w] & Ew & I). cbn in Ew. subst w.
      pose proof (in_zget _ _ _ S I) as G. pose proof (K _ _ G) as Kv. symmetry. replace k with j by lia. exact G.
    + destruct (zget (b_sets b) k) as [v|] eqn:G; [|reflexivity]. exfalso. pose proof (K _ _ G) as Kv.
      assert (In v (rev (zvals (b_sets b)))) as I by (apply -> in_rev; unfold zvals; apply in_map_iff; exists (k, v); split; [reflexivity|apply zget_in; exact G]).
      apply (find_none _ _ F v) in I. lia.
  - rewrite L1, map_rev, V, L. apply last_rev_hd.
Qed.

(* ---- replacing in lists by key ---- *)
Section Put.
Context {A K : Type} (key : A -> K) (same : A -> A -> bool).
Hypothesis same_spec : forall x y, same x y = true <-> key x = key y.
Definition put1 (l : list A) (c : A) : list A := c :: filter (fun d => negb (same d c)) l.
Lemma put1_new l c : ~ In (key c) (map key l) -> put1 l c = c :: l.
Proof.
  intro N. unfold put1. f_equal. induction l as [|d r IH]; cbn; [reflexivity|]. destruct (same d c) eqn:E; cbn [negb].
  - exfalso. apply N. left. apply same_spec, E.
  - f_equal. apply IH. intro X. apply N. right. exact X.
Qed.
Lemma puts_new l : forall acc, NoDup (map key (l ++ acc)) -> fold_left put1 l acc = rev l ++ acc.
Proof.
  induction l as [|c r IH]; intros acc N; cbn [fold_left rev]; [reflexivity|]. rewrite put1_new.
  - rewrite IH; [rewrite <- app_assoc; reflexivity|]. rewrite map_app in *. cbn [app map] in N |- *. inversion N as [|? ? N1 N2]; subst.
    apply NoDup_Add with (a := key c) (l := map key r ++ map key acc); [apply Add_app|]. split; [exact N2|exact N1].
  - cbn [app map] in N. inversion N as [|? ? N1 _]; subst. intro X. apply N1. rewrite map_app. apply in_or_app. right. exact X.
Qed.
End Put.

Lemma nodup_flat {A B K} (key : B -> K) (f : A -> list B) l :
  (forall x, In x l -> NoDup (map key (f x))) ->
  (forall x y k, In x l -> In y l -> In k (map key (f x)) -> In k (map key (f y)) -> x = y) -> NoDup l -> NoDup (map key (flat_map f l)).
Proof.
  intros H D N. induction N as [|x r Nx Nr IH]; cbn [flat_map map]; [constructor|]. rewrite map_app.
  assert (forall l1 l2 : list K, NoDup l1 -> NoDup l2 -> (forall k, In k l1 -> ~ In k l2) -> NoDup (l1 ++ l2)) as App.
  { intros l1 l2 N1 N2 X. induction N1 as [|k q Nk Nq IHq]; cbn; [exact N2|]. constructor; [|apply IHq; intros j J; apply X; right; exact J].
    intro Y. apply in_app_or in Y as [Y|Y]; [exact (Nk Y)|]. exact (X k (or_introl eq_refl) Y). }
  apply App; [apply H; left; reflexivity|apply IH; [intros y Y; apply H; right; exact Y|intros y z k Y Z; apply D; right; assumption]|].
  intros k Kx Kr. apply in_map_iff in Kr as (b & Eb & Ib). apply in_flat_map in Ib as (y & Iy & Fy).
  assert (x = y) as -> by (eapply D; [left; reflexivity|right; exact Iy|exact Kx|rewrite <- Eb; apply in_map; exact Fy]). exact (Nx Iy).
Qed.
Lemma nodup_map_filter {A K} (key : A -> K) f l : NoDup (map key l) -> NoDup (map key (filter f l)).
Proof.
  induction l as [|x r IH]; cbn; intro N; [constructor|]. inversion N as [|? ? N1 N2]; subst. destruct (f x); [|auto]. cbn. constructor; [|auto].
  intro X. apply N1. apply in_map_iff in X as (y & <- & Y). apply filter_In in Y. apply in_map. apply Y.
Qed.
Lemma nodup_of_map {A K} (key : A -> K) l : NoDup (map key l) -> NoDup l.
Proof. induction l as [|x r IH]; cbn; intro N; [constructor|]. inversion N as [|? ? N1 N2]; subst. constructor; [|auto]. intro X. apply N1, in_map, X. Qed.
Lemma nodup_map_inj {A K} (key : A -> K) l x y : NoDup (map key l) -> In x l -> In y l -> key x = key y -> x = y.
Proof.
  induction l as [|z r IH]; cbn; intros N X Y E; [destruct X|]. inversion N as [|? ? N1 N2]; subst. destruct X as [->|X], Y as [->|Y]; [reflexivity| | |auto].
  - exfalso. apply N1. rewrite E. apply in_map, Y.
  - exfalso. apply N1. rewrite <- E. apply in_map, X.
Qed.

Definition ckey (c : conf) := (cf_nonce c, cf_orch c).
Definition bckey (c : bconf) := (bc_token c, bc_nonce c, bc_orch c).
Definition btkey (x : batch) := (bt_token x, bt_nonce x).

Lemma confs_back b : keyed b -> NoDup (map ckey (b_confs b)) ->
  forall c, In c (fold_left put_conf (flat_map (fun v => confs_of b (v_nonce v)) (rev (zvals (b_sets b)))) []) <->
            In c (b_confs b) /\ zget (b_sets b) (cf_nonce c) <> None.
Proof.
  intros Kb N c. pose proof Kb as [S K]. set (l := flat_map _ _).
  change (fold_left put_conf l []) with (fold_left (put1 (fun d c => (cf_nonce d =? cf_nonce c) && (cf_orch d =? cf_orch c))) l []).
  rewrite (puts_new ckey).
  - rewrite app_nil_r, <- in_rev. unfold l. rewrite in_flat_map. split.
    + intros (v & Iv & Ic). apply in_rev in Iv. unfold confs_of in Ic. apply filter_In in Ic as [Ic E]. split; [exact Ic|].
      unfold zvals in Iv. apply in_map_iff in Iv as ([k w] & Ew & I). cbn in Ew. subst w. apply (in_zget _ _ _ S) in I. pose proof (K _ _ I) as Kv. replace (cf_nonce c) with k by lia. congruence.
    + intros [Ic Z]. destruct (zget (b_sets b) (cf_nonce c)) as [v|] eqn:G; [|congruence]. exists v. pose proof (K _ _ G) as Kv. split.
      * apply -> in_rev. unfold zvals. apply in_map_iff. exists (cf_nonce c, v). split; [reflexivity|]. apply zget_in, G.
      * unfold confs_of. apply filter_In. split; [exact Ic|lia].
  - intros x y. unfold ckey. rewrite andb_true_iff, !Z.eqb_eq. split; [intros [-> ->]; reflexivity|intro E; apply pair_equal_spec in E; exact E].
  - rewrite app_nil_r. unfold l. apply nodup_flat.
    + intros v _. apply nodup_map_filter, N.
    + intros v w k Iv Iw Kv Kw. apply in_map_iff in Kv as (x & Ex & Ix), Kw as (y & Ey & Iy). unfold confs_of in Ix, Iy. apply filter_In in Ix as [_ Ix], Iy as [_ Iy].
      assert (v_nonce v = v_nonce w) as E by (unfold ckey in *; assert (cf_nonce x = cf_nonce y) by congruence; lia).
      apply (nodup_map_inj v_nonce (rev (zvals (b_sets b)))); [rewrite map_rev, (vals_nonces b Kb); apply NoDup_rev, zsorted_nodup, S|exact Iv|exact Iw|exact E].
    + apply (nodup_of_map v_nonce). rewrite map_rev, (vals_nonces b Kb). apply NoDup_rev, zsorted_nodup, S.
Qed.

Lemma batches_back l : NoDup (map btkey l) -> fold_left put_batch l [] = rev l.
Proof.
  intro N. change (fold_left put_batch l []) with (fold_left (put1 same_batch) l []). rewrite (puts_new btkey).
  - apply app_nil_r.
  - intros x y. unfold same_batch, btkey. rewrite andb_true_iff, !Z.eqb_eq. split; [intros [-> ->]; reflexivity|intro E; apply pair_equal_spec in E; exact E].
  - rewrite app_nil_r. exact N.
Qed.
Lemma bconfs_back b : NoDup (map btkey (b_batches b)) -> NoDup (map bckey (b_bconfs b)) ->
  forall c, In c (fold_left put_bconf (flat_map (bconfs_of b) (b_batches b)) []) <->
            In c (b_bconfs b) /\ exists x, In x (b_batches b) /\ bt_token x = bc_token c /\ bt_nonce x = bc_nonce c.
Proof.
  intros Nb N c. set (l := flat_map _ _).
  change (fold_left put_bconf l []) with (fold_left (put1 (fun d c => (bc_token d =? bc_token c) && (bc_nonce d =? bc_nonce c) && (bc_orch d =? bc_orch c))) l []).
  rewrite (puts_new bckey).
  - rewrite app_nil_r, <- in_rev. unfold l. rewrite in_flat_map. split.
    + intros (v & Iv & Ic). unfold bconfs_of in Ic. apply filter_In in Ic as [Ic E]. split; [exact Ic|]. exists v. split; [exact Iv|lia].
    + intros [Ic (x & Ix & E1 & E2)]. exists x. split; [exact Ix|]. unfold bconfs_of. apply filter_In. split; [exact Ic|lia].
  - intros x y. unfold bckey. rewrite !andb_true_iff, !Z.eqb_eq. split; [intros [[-> ->] ->]; reflexivity|intro E; apply pair_equal_spec in E as [E ->]; apply pair_equal_spec in E; tauto].
  - rewrite app_nil_r. unfold l. apply nodup_flat.
    + intros v _. apply nodup_map_filter, N.
    + intros v w k Iv Iw Kv Kw. apply in_map_iff in Kv as (x & Ex & Ix), Kw as (y & Ey & Iy). unfold bconfs_of in Ix, Iy. apply filter_In in Ix as [_ Ix], Iy as [_ Iy].
      apply (nodup_map_inj btkey (b_batches b)); [exact Nb|exact Iv|exact Iw|]. unfold btkey, bckey in *. assert (bc_token x = bc_token y /\ bc_nonce x = bc_nonce y) by (split; congruence).
      apply pair_equal_spec. lia.
    + apply (nodup_of_map btkey), Nb.
Qed.

(* ---- the whole import ---- *)
Section Code.
Variable rank : Z -> Z.

Definition fields (b : bridge) := (b_sets b, b_latest b, b_slashed b, b_confs b, b_observed b, b_batches b, b_bconfs b).
Definition keysof (b : bridge) := (b_orch b, b_eth b, b_byeth b).
Lemma keys_fields l : forall b, fields (fold_left put_key l b) = fields b.
Proof. induction l as [|[[v o] e] r IH]; intro b; cbn [fold_left]; [reflexivity|]. rewrite IH. reflexivity. Qed.

Definition loaded (b : bridge) (g : set_sub) : bridge :=
  let b := fold_left store_set (g_sets g) b in
  let b := with_confs b (fold_left put_conf (g_confs g) (b_confs b)) in
  let b := with_batches b (fold_left put_batch (g_batches g) (b_batches b)) in
  let b := with_bconfs b (fold_left put_bconf (g_bconfs g) (b_bconfs b)) in
  with_observed b (g_observed g).
Lemma import_fields s g h : fields (s_br (import_one s g) h) = if h =? g_h g then fields (loaded (s_br s h) g) else fields (s_br s h).
Proof.
  unfold import_one. fold (loaded (s_br s (g_h g)) g). destruct (Z.eq_dec h 0) as [->|N0].
  - rewrite put_same, keys_fields. destruct (Z.eqb_spec 0 (g_h g)) as [E|E]; [rewrite <- E, put_same; reflexivity|rewrite put_other by exact E; reflexivity].
  - rewrite put_other by exact N0. destruct (Z.eqb_spec h (g_h g)) as [E|E]; [rewrite E, put_same; reflexivity|rewrite put_other by exact E; reflexivity].
Qed.
Lemma import_keys s g h : h <> 0 -> keysof (s_br (import_one s g) h) = keysof (s_br s h).
Proof.
  intro N0. unfold import_one. fold (loaded (s_br s (g_h g)) g). rewrite put_other by exact N0.
  destruct (Z.eq_dec h (g_h g)) as [E|E]; [|rewrite put_other by exact E; reflexivity]. rewrite E, put_same.
  destruct (store_fields (g_sets g) (s_br s (g_h g))) as (_ & _ & _ & _ & _ & F & G & H). unfold keysof, loaded. cbn. congruence.
Qed.
Lemma import_height s g : s_height (import_one s g) = s_height s /\ s_unbond (import_one s g) = s_unbond s.
Proof. split; reflexivity. Qed.

Lemma imports_fields gs : forall s, NoDup (map g_h gs) ->
  let s' := fold_left import_one gs s in
  s_height s' = s_height s /\
  (forall h, h <> 0 -> keysof (s_br s' h) = keysof (s_br s h)) /\
  (forall h, ~ In h (map g_h gs) -> fields (s_br s' h) = fields (s_br s h)) /\
  (forall g, In g gs -> exists b, fields b = fields (s_br s (g_h g)) /\ fields (s_br s' (g_h g)) = fields (loaded b g)).
Proof.
  induction gs as [|g r IH]; intros s N; cbn [fold_left].
  - split; [reflexivity|]. split; [reflexivity|]. split; [reflexivity|]. intros g [].
  - cbn [map] in N. inversion N as [|? ? Ng Nr]; subst. destruct (IH (import_one s g) Nr) as (A & B & C & D). split; [rewrite A; apply import_height|]. split; [|split].
    + intros h H. rewrite B by exact H. apply import_keys, H.
    + intros h H. rewrite C by (intro X; apply H; right; exact X). rewrite import_fields. destruct (Z.eqb_spec h (g_h g)) as [E|E]; [|reflexivity]. exfalso. apply H. left. congruence.
    + intros g' [Eg|X].
      * subst g'. exists (s_br s (g_h g)). split; [reflexivity|]. rewrite C by exact Ng. rewrite import_fields, Z.eqb_refl. reflexivity.
      * destruct (D g' X) as (b & E1 & E2). exists b. split; [|exact E2]. rewrite E1, import_fields. destruct (Z.eqb_spec (g_h g') (g_h g)) as [E|E]; [|reflexivity].
        exfalso. apply Ng. rewrite <- E. apply in_map, X.
Qed.

Lemma export_keys_ok b ks : export_keys rank b = Ok ks -> Forall (fun x => orch_of b (fst x) <> None) (b_eth b).
Proof.
  unfold export_keys. intro E. assert (exists ks, key_list b (b_eth b) = Ok ks) as [k K] by (destruct (key_list b (b_eth b)) as [k| |]; [eauto|discriminate|discriminate]).
  clear E ks. revert k K. induction (b_eth b) as [|[v e] r IH]; intros k K; [constructor|]. cbn [key_list] in K. destruct (orch_of b v) as [o|] eqn:E; [|discriminate].
  destruct (key_list b r) as [q| |]; [|discriminate|discriminate]. constructor; [cbn; congruence|]. apply (IH q eq_refl).
Qed.
Lemma export_keys_def b : Forall (fun x => orch_of b (fst x) <> None) (b_eth b) -> exists ks, export_keys rank b = Ok ks.
Proof.
  intro F. unfold export_keys. assert (exists ks, key_list b (b_eth b) = Ok ks) as [k ->]; [|cbn [rbind]; eauto].
  induction F as [|[v e] r H F (k & IH)]; cbn [key_list]; [eauto|]. cbn in H. destruct (orch_of b v); [|congruence]. rewrite IH. cbn [rbind]. eauto.
Qed.
Lemma export_all_ok s hs gs : export_all rank s hs = Ok gs -> map g_h gs = hs /\
  forall g, In g gs -> export_one rank s (g_h g) = Ok g.
Proof.
  revert gs. induction hs as [|h r IH]; intros gs E; cbn [export_all] in E.
  - injection E as <-. split; [reflexivity|]. intros g [].
  - destruct (export_one rank s h) as [g| |] eqn:E1; [|discriminate|discriminate]. cbn [rbind] in E.
    destruct (export_all rank s r) as [l| |] eqn:E2; [|discriminate|discriminate]. cbn [rbind] in E. injection E as <-. destruct (IH l eq_refl) as [M H].
    assert (g_h g = h) as Eh. { unfold export_one in E1. destruct (export_keys rank (s_br s h)); [|discriminate|discriminate]. cbn [rbind] in E1. destruct (b_observed (s_br s h)); [|discriminate]. injection E1 as <-. reflexivity. }
    split; [cbn [map]; congruence|]. intros x [<-|X]; [rewrite Eh; exact E1|auto].
Qed.
Lemma export_all_def s hs : (exists gs, export_all rank s hs = Ok gs) <->
  forall h, In h hs -> b_observed (s_br s h) <> None /\ Forall (fun x => orch_of (s_br s h) (fst x) <> None) (b_eth (s_br s h)).
Proof.
  induction hs as [|h r IH]; cbn [export_all].
  - split; [intros _ h []|intros _; eauto].
  - split.
    + intros [gs E] x X. destruct (export_one rank s h) as [g| |] eqn:E1; [|discriminate|discriminate]. cbn [rbind] in E.
      destruct (export_all rank s r) as [l| |] eqn:E2; [|discriminate|discriminate]. destruct X as [<-|X]; [|apply (proj1 IH); eauto].
      unfold export_one in E1. destruct (export_keys rank (s_br s h)) as [ks| |] eqn:K; [|discriminate|discriminate]. cbn [rbind] in E1.
      split; [destruct (b_observed (s_br s h)); [discriminate|discriminate]|]. eapply export_keys_ok, K.
    + intro H. destruct (H h (or_introl eq_refl)) as [O K]. destruct (export_keys_def _ K) as [ks Ek]. unfold export_one. rewrite Ek. cbn [rbind].
      destruct (b_observed (s_br s h)) as [n|]; [|congruence]. cbn [rbind]. destruct (proj2 IH) as [gs ->]; [intros x X; apply H; right; exact X|]. cbn [rbind]. eauto.
Qed.

Lemma restart_ok s hs s' : restart rank s hs = Ok s' -> NoDup hs ->
  (forall h, In h hs -> keyed (s_br s h) /\ NoDup (map ckey (b_confs (s_br s h))) /\ NoDup (map bckey (b_bconfs (s_br s h))) /\ NoDup (map btkey (b_batches (s_br s h)))) ->
  s_height s' = s_height s /\
  (forall h, h <> 0 -> b_orch (s_br s' h) = [] /\ b_eth (s_br s' h) = [] /\ b_byeth (s_br s' h) = []) /\
  forall h, In h hs -> let b := s_br s h in let b' := s_br s' h in
    b_sets b' = b_sets b /\ b_latest b' = hd 0 (zkeys (b_sets b)) /\ b_slashed b' = 0 /\ b_observed b' = b_observed b /\
    (forall c, In c (b_confs b') <-> In c (b_confs b) /\ zget (b_sets b) (cf_nonce c) <> None) /\
    (forall x, In x (b_batches b') <-> In x (b_batches b)) /\
    (forall c, In c (b_bconfs b') <-> In c (b_bconfs b) /\ exists x, In x (b_batches b) /\ bt_token x = bc_token c /\ bt_nonce x = bc_nonce c).
Proof.
  intros R N H. unfold restart in R. destruct (export_all rank s hs) as [gs| |] eqn:E; [|discriminate|discriminate]. cbn [rbind] in R. injection R as <-.
  destruct (export_all_ok s hs gs E) as [M G]. rewrite <- M in N. destruct (imports_fields gs (init (s_height s)) N) as (A & B & _ & D).
  split; [exact A|]. split.
  - intros h Nh. pose proof (B h Nh) as X. unfold keysof in X. cbn [init s_br empty_bridge b_orch b_eth b_byeth] in X. apply pair_equal_spec in X as [X ->]. apply pair_equal_spec in X. tauto.
  - intros h Ih. cbv zeta. set (s' := fold_left import_one gs (init (s_height s))) in *. pose proof Ih as Ig. rewrite <- M in Ig. apply in_map_iff in Ig as (g & Eg & Ig).
    destruct (D g Ig) as (b & F1 & F2). pose proof (G g Ig) as X. rewrite Eg in *. destruct (H h Ih) as (Hk & Hc & Hbc & Hb).
    unfold export_one in X. destruct (export_keys rank (s_br s h)) as [ks| |]; [|discriminate|discriminate]. cbn [rbind] in X.
    destruct (b_observed (s_br s h)) as [n|] eqn:O; [|discriminate]. injection X as Xg. rewrite <- Xg in F2.
    unfold fields in F1. cbn [init s_br empty_bridge b_sets b_latest b_slashed b_confs b_observed b_batches b_bconfs] in F1.
    assert (b_sets b = [] /\ b_latest b = 0 /\ b_slashed b = 0 /\ b_confs b = [] /\ b_batches b = [] /\ b_bconfs b = []) as (Q1 & Q2 & Q3 & Q4 & Q5 & Q6).
    { injection F1. intros. auto 10. }
    destruct (sets_back (s_br s h) b Hk Q1 Q2) as [S1 S2]. destruct (store_fields (rev (zvals (b_sets (s_br s h)))) b) as (T1 & T2 & T3 & T4 & T5 & _).
    unfold fields, loaded in F2. cbn [g_sets g_confs g_batches g_bconfs g_observed with_confs with_batches with_bconfs with_observed b_sets b_latest b_slashed b_confs b_observed b_batches b_bconfs] in F2.
    rewrite S1, S2, T1, T2, T4, T5, Q3, Q4, Q5, Q6 in F2. injection F2. intros -> -> -> -> -> -> ->.
    split; [reflexivity|]. split; [reflexivity|]. split; [reflexivity|]. split; [reflexivity|]. split; [apply confs_back; assumption|]. split; [|apply bconfs_back; assumption].
    intro x. rewrite batches_back by exact Hb. symmetry. apply in_rev.
Qed.
End Code.
