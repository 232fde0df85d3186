(* What the store of the record contains. *)
From Verif Require Import Lib.Base Lib.Bytes Lib.Kv Lib.Dec Chronos.Archive Chronos.ArchiveSpec.
From Coq Require Import Sorting.Sorted.
Open Scope Z_scope.

Definition tells (s : store) (l : list op) : Prop :=
  ksorted s /\
  (forall n v, 0 <= n -> (kget s (tx_key (udec n)) = Some v <-> exists t, In t (txs l) /\ x_nonce t = n /\ v = VTx t)) /\
  (forall h v, hash_text h -> (kget s h = Some v <-> exists t, In t (txs l) /\ x_hash t = h /\ v = VNonce (x_nonce t))) /\
  (forall b, 0 <= b -> kget s (b_key (udec b)) = match map x_hash (filter (fun t => x_block t =? b) (txs l)) with [] => None | hs => Some (VHashes hs) end) /\
  (forall r, kget s (nid_key r) <> None <-> exists t, In t (txs l) /\ r = udec (x_cron t) ++ udec (x_nonce t)) /\
  (forall r, kget s (r_key r) = None) /\
  (forall id v, 0 <= id -> (kget s (udec id) = Some v <-> In (Archive id) l /\ v = VCron id)) /\
  (forall r, (forall n, 0 <= n -> r <> udec n) -> kget s (tx_key r) = None).

Lemma udec_first : forall x, 0 <= x -> exists c r, udec x = c :: r /\ is_digit c = true.
Proof.
  intros x P. pose proof (udec_digits x P) as D. pose proof (udec_nonempty x) as N. destruct (udec x) as [|c r]; [congruence|]. exists c, r. inversion D. auto.
Qed.
Lemma udec_not : forall x c r, 0 <= x -> is_digit c = false -> udec x <> c :: r.
Proof. intros x c r P D E. destruct (udec_first x P) as (c' & r' & E' & D'). congruence. Qed.
Lemma udec_not_hash : forall x h, 0 <= x -> hash_text h -> udec x <> h.
Proof. intros x h P (r & ->) E. pose proof (udec_digits x P) as D. rewrite E in D. inversion D as [|? ? _ D']. inversion D' as [|? ? D2 _]. discriminate. Qed.

Lemma txs_snoc : forall l o, txs (l ++ [o]) = txs l ++ match o with Put t => [t] | Archive _ => [] end.
Proof. induction l as [|[t|i] l IH]; intro o; cbn [app txs]; [destruct o; reflexivity|rewrite IH; reflexivity|apply IH]. Qed.

Lemma beqb_no : forall a b, a <> b -> beqb a b = false.
Proof. intros. apply beqb_neq. assumption. Qed.

Lemma tells_archive : forall s l id, tells s l -> 0 <= id -> tells (archive s id) (l ++ [Archive id]).
Proof.
  intros s l id (So & T & H & B & M & R & C & X) P. unfold archive. pose proof (fun k => kget_kset s (udec id) (VCron id) k So) as G. unfold tells. rewrite txs_snoc, app_nil_r.
  split; [apply kset_sorted; exact So|]. repeat match goal with |- _ /\ _ => split end.
  - intros n v Pn. rewrite G, beqb_no; [apply T; exact Pn|]. intro E. symmetry in E. revert E. apply udec_not; [exact P|reflexivity].
  - intros h v Ph. rewrite G, beqb_no; [apply H; exact Ph|]. intro E. symmetry in E. revert E. apply udec_not_hash; assumption.
  - intros b Pb. rewrite G, beqb_no; [apply B; exact Pb|]. intro E. symmetry in E. revert E. apply udec_not; [exact P|reflexivity].
  - intro r. rewrite G, beqb_no; [apply M|]. intro E. symmetry in E. revert E. apply udec_not; [exact P|reflexivity].
  - intro r. rewrite G, beqb_no; [apply R|]. intro E. symmetry in E. revert E. apply udec_not; [exact P|reflexivity].
  - intros i v Pi. rewrite G. destruct (beqb (udec i) (udec id)) eqn:E.
    + apply beqb_spec in E. apply udec_inj in E; [|assumption..]. subst i. rewrite in_app_iff. cbn. split; [intro Q; split; [auto|congruence]|intros (_ & ->); reflexivity].
    + apply beqb_neq in E. rewrite (C i v Pi), in_app_iff. cbn. split; [tauto|]. intros ([I|[I|[]]] & V); [auto|]. congruence.
  - intros r Nr. rewrite G, beqb_no; [apply X; exact Nr|]. intro E. symmetry in E. revert E. apply udec_not; [exact P|reflexivity].
Qed.

Lemma tells_put : forall s l t, tells s l -> proper t -> ~ In (x_nonce t) (map x_nonce (txs l)) -> ~ In (x_hash t) (map x_hash (txs l)) -> tells (put s t) (l ++ [Put t]).
Proof.
  intros s l t (So & T & H & B & M & R & C & X) (Pn & Pc & Pb & Ph) Nn Nh. unfold put. cbv zeta.
  set (k1 := tx_key (udec (x_nonce t))). set (k2 := nid_key (udec (x_cron t) ++ udec (x_nonce t))). set (k4 := b_key (udec (x_block t))).
  set (s1 := kset s k1 (VTx t)). set (s2 := kset s1 k2 VMark). set (s3 := kset s2 (x_hash t) (VNonce (x_nonce t))).
  assert (ksorted s1) as S1 by (apply kset_sorted; exact So). assert (ksorted s2) as S2 by (apply kset_sorted; exact S1). assert (ksorted s3) as S3 by (apply kset_sorted; exact S2).
  pose proof (fun k => kget_kset s k1 (VTx t) k So) as G1. fold s1 in G1. pose proof (fun k => kget_kset s1 k2 VMark k S1) as G2. fold s2 in G2.
  pose proof (fun k => kget_kset s2 (x_hash t) (VNonce (x_nonce t)) k S2) as G3. fold s3 in G3.
  set (hs := block_hashes s3 (x_block t) ++ [x_hash t]). pose proof (fun k => kget_kset s3 k4 (VHashes hs) k S3) as G4.
  pose proof Ph as (hr & Eh).
  assert (forall b, 0 <= b -> kget s3 (b_key (udec b)) = kget s (b_key (udec b))) as Gb.
  { intros b Pb'. rewrite G3, beqb_no, G2, beqb_no, G1, beqb_no; try reflexivity; try (unfold k1, k2; discriminate). rewrite Eh. discriminate. }
  unfold tells. rewrite txs_snoc. split; [apply kset_sorted; exact S3|]. repeat match goal with |- _ /\ _ => split end.
  - intros n v Pn'. rewrite G4, beqb_no by discriminate. rewrite G3, beqb_no by (rewrite Eh; discriminate). rewrite G2, beqb_no by discriminate. rewrite G1.
    destruct (beqb (tx_key (udec n)) k1) eqn:E.
    + apply beqb_spec in E. assert (udec n = udec (x_nonce t)) as E' by (unfold k1, tx_key in E; congruence). apply udec_inj in E'; [|assumption..]. subst n.
      split; [intro Q; exists t; rewrite in_app_iff; cbn; repeat split; auto; congruence|].
      intros (t' & I & E' & ->). apply in_app_iff in I as [I|[->|[]]]; [|reflexivity]. destruct Nn. rewrite <- E'. apply in_map. exact I.
    + rewrite (T n v Pn'). apply beqb_neq in E. split; intros (t' & I & E' & V); exists t'; rewrite ?in_app_iff in *; cbn in *; [auto|].
      destruct I as [I|[->|[]]]; [auto|]. destruct E. unfold k1. rewrite E'. reflexivity.
  - intros h v (r & Er). rewrite G4, beqb_no by (rewrite Er; discriminate). rewrite G3. destruct (beqb h (x_hash t)) eqn:E.
    + apply beqb_spec in E. clear Er. split; [intro Q; exists t; rewrite in_app_iff; cbn; repeat split; auto; congruence|].
      intros (t' & I & E' & ->). apply in_app_iff in I as [I|[->|[]]]; [|reflexivity]. destruct Nh. rewrite <- E, <- E'. apply in_map. exact I.
    + rewrite G2, beqb_no by (rewrite Er; discriminate). rewrite G1, beqb_no by (rewrite Er; discriminate). rewrite (H h v) by (exists r; exact Er). apply beqb_neq in E.
      split; intros (t' & I & E' & V); exists t'; rewrite ?in_app_iff in *; cbn in *; [auto|]. destruct I as [I|[->|[]]]; [auto|]. congruence.
  - intros b Pb'. rewrite G4, filter_app, map_app. cbn [filter]. destruct (beqb (b_key (udec b)) k4) eqn:E.
    + apply beqb_spec in E. assert (udec b = udec (x_block t)) as E' by (unfold k4, b_key in E; congruence). apply udec_inj in E'; [|assumption..]. subst b. rewrite Z.eqb_refl.
      unfold hs, block_hashes. rewrite (Gb (x_block t) Pb), (B (x_block t) Pb). cbn [map]. destruct (map x_hash (filter (fun t0 => x_block t0 =? x_block t) (txs l))); reflexivity.
    + apply beqb_neq in E. destruct (Z.eqb_spec (x_block t) b) as [<-|Nb]; [destruct E; reflexivity|]. cbn [map]. rewrite app_nil_r, (Gb b Pb'). apply B. exact Pb'.
  - intro r. rewrite G4, beqb_no by discriminate. rewrite G3, beqb_no by (rewrite Eh; discriminate). rewrite G2. destruct (beqb (nid_key r) k2) eqn:E.
    + apply beqb_spec in E. assert (r = udec (x_cron t) ++ udec (x_nonce t)) as E' by (unfold k2, nid_key in E; congruence). split; [intros _; exists t; rewrite in_app_iff; cbn; auto|discriminate].
    + rewrite G1, beqb_no by discriminate. rewrite (M r). apply beqb_neq in E. split; intros (t' & I & E'); exists t'; rewrite ?in_app_iff in *; cbn in *; [auto|].
      destruct I as [I|[->|[]]]; [auto|]. destruct E. unfold k2. rewrite E'. reflexivity.
  - intro r. rewrite G4, beqb_no by discriminate. rewrite G3, beqb_no by (rewrite Eh; discriminate). rewrite G2, beqb_no by discriminate. rewrite G1, beqb_no by discriminate. apply R.
  - intros i v Pi. rewrite G4, beqb_no by (apply udec_not; [exact Pi|reflexivity]). rewrite G3, beqb_no by (apply udec_not_hash; assumption).
    rewrite G2, beqb_no by (apply udec_not; [exact Pi|reflexivity]). rewrite G1, beqb_no by (apply udec_not; [exact Pi|reflexivity]). rewrite (C i v Pi), in_app_iff. cbn.
    split; [tauto|]. intros ([I|[I|[]]] & V); [auto|discriminate].
  - intros r Nr. rewrite G4, beqb_no by discriminate. rewrite G3, beqb_no by (rewrite Eh; discriminate). rewrite G2, beqb_no by discriminate. rewrite G1, beqb_no; [apply X; exact Nr|].
    intro E. apply (Nr (x_nonce t) Pn). unfold k1, tx_key in E. congruence.
Qed.

Lemma nodup_snoc : forall A (l : list A) a, NoDup (l ++ [a]) -> NoDup l /\ ~ In a l.
Proof. intros A l a N. apply NoDup_remove in N as (N & I). rewrite app_nil_r in *. auto. Qed.

Lemma run_tells : forall l, history l -> tells (run l) l.
Proof.
  intro l. induction l as [|o l IH] using rev_ind; intro Hy.
  - unfold tells. cbn. split; [apply ksorted_nil|]. repeat match goal with |- _ /\ _ => split end; intros; try reflexivity.
    + split; [discriminate|intros (? & [] & _)].
    + split; [discriminate|intros (? & [] & _)].
    + split; [congruence|intros (? & [] & _)].
    + split; [discriminate|intros ([] & _)].
  - destruct Hy as (Fp & Nn & Nh & Ar). unfold run. rewrite fold_left_app. cbn [fold_left]. fold (run l). rewrite txs_snoc in Fp, Nn, Nh. destruct o as [t|id]; cbn [step].
    + apply Forall_app in Fp as (Fp & Pt). rewrite map_app in Nn, Nh. cbn [map] in Nn, Nh. apply nodup_snoc in Nn as (Nn & In1). apply nodup_snoc in Nh as (Nh & In2).
      apply tells_put; [apply IH; repeat split; try assumption; intros id I; apply Ar; apply in_or_app; auto|inversion Pt; assumption|assumption..].
    + rewrite app_nil_r in *. apply tells_archive; [apply IH; repeat split; try assumption; intros i I; apply Ar; apply in_or_app; auto|]. apply Ar. apply in_or_app. right. left. reflexivity.
Qed.

Lemma in_found : forall A B (f : A -> option B) l b, In b (found f l) <-> exists a, In a l /\ f a = Some b.
Proof.
  intros A B f l b. unfold found. rewrite in_flat_map. split; intros (a & I & E); exists a; (split; [exact I|]); destruct (f a); cbn in *; try tauto; try discriminate.
  - destruct E as [->|[]]; reflexivity.
  - left. congruence.
Qed.
Lemma in_under : forall s p k, ksorted s -> (In k (under s p) <-> kget s (p ++ k) <> None).
Proof.
  intros s p k So. unfold under. rewrite in_map_iff. split.
  - intros ((q & v) & E & I). apply filter_In in I as (I & P). cbn [fst] in *. apply has_prefix_spec in P. rewrite <- E, <- P.
    apply (kget_in s q v So) in I. rewrite I. discriminate.
  - intro N. destruct (kget s (p ++ k)) as [v|] eqn:E; [|congruence]. apply (kget_in s _ v So) in E. exists (p ++ k, v). cbn [fst]. split.
    + rewrite skipn_app, skipn_all, Nat.sub_diag. reflexivity.
    + apply filter_In. split; [exact E|]. apply has_prefix_app.
Qed.
