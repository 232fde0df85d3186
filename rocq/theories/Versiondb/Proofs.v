(* The database as a sorted list of entries; reads; histories of blocks. *)
From Coq Require Import Sorting.Sorted.
From Verif Require Import Lib.Base Lib.Bytes Lib.Codec Versiondb.Model Versiondb.Spec.
Open Scope Z_scope.

(* ---- the comparator ---- *)
Lemma cut_app a b : length b = 8%nat -> cut (a ++ b) = a.
Proof. intros H. unfold cut. rewrite app_length, H, Nat.add_sub, firstn_app, Nat.sub_diag, firstn_O, app_nil_r. apply firstn_all. Qed.
Lemma tail8_app a b : length b = 8%nat -> tail8 (a ++ b) = b.
Proof. intros H. unfold tail8. rewrite app_length, H, Nat.add_sub, skipn_app, Nat.sub_diag, skipn_all. reflexivity. Qed.

Definition ts_ok (t : Z) : Prop := 0 <= t < U64.
Lemma pow8 : 256 ^ Z.of_nat 8 = U64.
Proof. reflexivity. Qed.
Lemma unle8 t : ts_ok t -> unle (le 8 t) = t.
Proof. intros H. apply unle_le_small. rewrite pow8. exact H. Qed.

Lemma compare_spec k t k' t' : ts_ok t -> ts_ok t' ->
  compare (k ++ le 8 t) (k' ++ le 8 t') = match bcmp k k' with Eq => t' ?= t | c => c end.
Proof.
  intros H H'. unfold compare, compare_without_ts, compare_ts.
  rewrite !cut_app, !tail8_app, !unle8 by (auto using le_length). destruct (bcmp k k'); auto. rewrite <- Z.compare_antisym. reflexivity.
Qed.

(* e comes before d *)
Definition elt (e d : entry) : Prop := blt (e_key e) (e_key d) \/ (e_key e = e_key d /\ e_ts d < e_ts e).
Definition ent_ok (e : entry) : Prop := ts_ok (e_ts e).
Definition db_ok (db : list entry) : Prop := StronglySorted elt db /\ Forall ent_ok db.
Definition same_at (e d : entry) : Prop := e_key e = e_key d /\ e_ts e = e_ts d.

Lemma compare_elt e d : ent_ok e -> ent_ok d -> CompareSpec (same_at e d) (elt e d) (elt d e) (compare (ikey e) (ikey d)).
Proof.
  intros H H'. unfold ikey. rewrite compare_spec by assumption. unfold same_at, elt.
  destruct (bcmp_spec (e_key e) (e_key d)) as [E|L|G].
  - destruct (Z.compare_spec (e_ts d) (e_ts e)); constructor; auto.
  - constructor. auto.
  - constructor. auto.
Qed.
Lemma elt_trans a b c : elt a b -> elt b c -> elt a c.
Proof.
  intros [H|[H H2]] [K|[K K2]]; unfold elt.
  - left. eapply blt_trans; eauto.
  - left. rewrite <- K. exact H.
  - left. rewrite H. exact K.
  - right. split; [congruence|lia].
Qed.
Lemma elt_irrefl a b : elt a b -> ~ same_at a b.
Proof. intros [H|[_ H]] [E F]; [rewrite E in H; exact (blt_irrefl _ H)|lia]. Qed.
Lemma elt_asym a b : elt a b -> ~ elt b a.
Proof. intros H K. apply (elt_irrefl a a); [eapply elt_trans; eauto|split; reflexivity]. Qed.

(* ---- writing ---- *)
Lemma put_in db e x : db_ok db -> ent_ok e -> (In x (put db e) <-> x = e \/ (In x db /\ ~ same_at e x)).
Proof.
  intros [S F] He. induction db as [|d r IH]; cbn [put].
  - split; [intros [<-|[]]; auto|intros [->|[[] _]]; left; reflexivity].
  - inversion S as [|? ? Sr Sd]; subst. pose proof (Forall_inv F) as Fd. pose proof (Forall_inv_tail F) as Fr.
    rewrite Forall_forall in Sd. specialize (IH Sr Fr). destruct (compare_elt e d He Fd) as [E|L|G].
    + cbn [In]. split.
      * intros [<-|H]; [auto|]. right. split; [auto|]. intros [A B]. destruct E as [E1 E2].
        apply (elt_irrefl d x (Sd x H)). split; congruence.
      * intros [->|[[<-|H] N]]; auto. exfalso. exact (N E).
    + cbn [In]. split.
      * intros [<-|[<-|H]]; auto; right; (split; [auto|]).
        -- intros E. exact (elt_irrefl _ _ L E).
        -- intros E. apply (elt_irrefl e x); [eapply elt_trans; [exact L|apply Sd; exact H]|exact E].
      * intros [->|[[<-|H] N]]; auto.
    + cbn [In]. rewrite IH. split.
      * intros [<-|[->|[H N]]]; auto. right. split; auto. intros [E1 E2]. apply (elt_irrefl _ _ G). split; congruence.
      * intros [->|[[<-|H] N]]; auto.
Qed.
Lemma put_ok db e : db_ok db -> ent_ok e -> db_ok (put db e).
Proof.
  intros H He. split.
  - destruct H as [S F]. induction db as [|d r IH]; cbn [put]; [repeat constructor|].
    inversion S as [|? ? Sr Sd]; subst. pose proof (Forall_inv F) as Fd. pose proof (Forall_inv_tail F) as Fr.
    destruct (compare_elt e d He Fd) as [E|L|G].
    + constructor; [exact Sr|]. rewrite Forall_forall in *. intros x Hx. specialize (Sd x Hx). destruct E as [E1 E2].
      unfold elt in *. rewrite E1, E2. exact Sd.
    + constructor; [exact S|]. constructor; [exact L|]. rewrite Forall_forall in *. intros x Hx. eapply elt_trans; eauto.
    + constructor; [auto|]. rewrite Forall_forall in *. intros x Hx. apply put_in in Hx; [|split; [exact Sr|apply Forall_forall; exact Fr]|exact He].
      destruct Hx as [->|[Hx _]]; auto.
  - apply Forall_forall. intros x Hx. apply put_in in Hx; auto. destruct Hx as [->|[Hx _]]; auto. destruct H as [_ F]. rewrite Forall_forall in F. auto.
Qed.
Definition puts (db : list entry) (es : list entry) : list entry := fold_left put es db.
Lemma puts_ok es : forall db, db_ok db -> Forall ent_ok es -> db_ok (puts db es).
Proof.
  induction es as [|e r IH]; intros db H F; [exact H|]. inversion F; subst. cbn. apply IH; [apply put_ok; assumption|assumption].
Qed.
Lemma db_ok_nil : db_ok [].
Proof. split; constructor. Qed.

(* two databases with the same entries are the same *)
Lemma db_ext : forall a b, db_ok a -> db_ok b -> (forall x, In x a <-> In x b) -> a = b.
Proof.
  induction a as [|x r IH]; intros b [Sa Fa] [Sb Fb] E.
  - destruct b as [|y b]; auto. exfalso. apply (E y). left; reflexivity.
  - destruct b as [|y b]; [exfalso; apply (E x); left; reflexivity|].
    inversion Sa as [|? ? Sr Sx]; inversion Sb as [|? ? Sb' Sy]; subst. rewrite Forall_forall in Sx, Sy.
    assert (x = y) as <-.
    { destruct (proj1 (E x) (or_introl eq_refl)) as [H|H]; [auto|].
      destruct (proj2 (E y) (or_introl eq_refl)) as [K|K]; [auto|].
      exfalso. exact (elt_asym _ _ (Sx _ K) (Sy _ H)). }
    f_equal. apply IH; [split; [exact Sr|exact (Forall_inv_tail Fa)]|split; [exact Sb'|exact (Forall_inv_tail Fb)]|].
    intros z. split; intros Hz.
    + destruct (proj1 (E z) (or_intror Hz)) as [<-|H]; auto. exfalso. apply (elt_irrefl _ _ (Sx _ Hz)). split; reflexivity.
    + destruct (proj2 (E z) (or_intror Hz)) as [<-|H]; auto. exfalso. apply (elt_irrefl _ _ (Sy _ Hz)). split; reflexivity.
Qed.

(* ---- reading ---- *)
Definition hit (k : bytes) (t : Z) (d : entry) : bool := beqb (e_key d) k && (e_ts d <=? t).
Definition newest (db : list entry) (k : bytes) (t : Z) : option entry := find (hit k t) db.
Lemma hit_iff k t d : hit k t d = true <-> e_key d = k /\ e_ts d <= t.
Proof. unfold hit. rewrite andb_true_iff, beqb_spec, Z.leb_le. tauto. Qed.

Lemma compare_probe d k t : ent_ok d -> ts_ok t ->
  CompareSpec (e_key d = k /\ e_ts d = t) (blt (e_key d) k \/ (e_key d = k /\ t < e_ts d)) (blt k (e_key d) \/ (e_key d = k /\ e_ts d < t)) (compare (ikey d) (k ++ le 8 t)).
Proof.
  intros H H'. unfold ikey. rewrite compare_spec by assumption. destruct (bcmp_spec (e_key d) k) as [E|L|G].
  - destruct (Z.compare_spec t (e_ts d)); constructor; auto.
  - constructor; auto.
  - constructor; auto.
Qed.
Lemma find_above k t l : (forall x, In x l -> blt k (e_key x)) -> find (hit k t) l = None.
Proof.
  induction l as [|d r IH]; intros H; [reflexivity|]. cbn [find]. destruct (hit k t d) eqn:E.
  - apply hit_iff in E. destruct E as [E _]. specialize (H d (or_introl eq_refl)). rewrite E in H. destruct (blt_irrefl _ H).
  - apply IH. intros x Hx. apply H. right; exact Hx.
Qed.
Lemma db_get_newest db k t : db_ok db -> ts_ok t ->
  db_get db k t = match newest db k t with Some d => match e_val d with Some v => Some (v, e_ts d) | None => None end | None => None end.
Proof.
  intros [S F] Ht. unfold db_get, newest. induction db as [|d r IH]; [reflexivity|].
  inversion S as [|? ? Sr Sd]; subst. pose proof (Forall_inv F) as Fd. rewrite Forall_forall in Sd.
  cbn [seek find]. destruct (compare_probe d k t Fd Ht) as [[E1 E2]|L|G].
  - assert (hit k t d = true) as -> by (apply hit_iff; split; [exact E1|lia]). rewrite (proj2 (beqb_spec _ _) E1). reflexivity.
  - assert (hit k t d = false) as ->.
    { apply not_true_iff_false. rewrite hit_iff. intros [A B]. destruct L as [L|[_ L]]; [rewrite A in L; exact (blt_irrefl _ L)|lia]. }
    apply IH; [exact Sr|exact (Forall_inv_tail F)].
  - destruct G as [G|[G1 G2]].
    + assert (beqb (e_key d) k = false) as -> by (apply beqb_neq; intros E; rewrite E in G; exact (blt_irrefl _ G)).
      unfold hit at 1. assert (beqb (e_key d) k = false) as -> by (apply beqb_neq; intros E; rewrite E in G; exact (blt_irrefl _ G)).
      cbn [andb]. rewrite find_above; [reflexivity|]. intros x Hx. destruct (Sd x Hx) as [A|[A _]]; [eapply blt_trans; eauto|rewrite <- A; exact G].
    + assert (hit k t d = true) as -> by (apply hit_iff; split; [exact G1|lia]). rewrite (proj2 (beqb_spec _ _) G1). reflexivity.
Qed.

(* the newest entry is the one with the largest timestamp among those that count *)
Lemma newest_spec db k t e : db_ok db ->
  (newest db k t = Some e <-> In e db /\ e_key e = k /\ e_ts e <= t /\ forall d, In d db -> e_key d = k -> e_ts d <= t -> e_ts d <= e_ts e).
Proof.
  intros [S F]. unfold newest. induction db as [|d r IH].
  - cbn. split; [discriminate|intros [[] _]].
  - inversion S as [|? ? Sr Sd]; subst. rewrite Forall_forall in Sd. specialize (IH Sr (Forall_inv_tail F)). cbn [find].
    destruct (hit k t d) eqn:E.
    + apply hit_iff in E. destruct E as [E1 E2]. split.
      * intros H. inversion H; subst e. split; [left; reflexivity|]. split; [exact E1|]. split; [exact E2|].
        intros x [<-|Hx] Kx Tx; [lia|]. destruct (Sd x Hx) as [A|[_ A]]; [|lia]. rewrite E1, Kx in A. destruct (blt_irrefl _ A).
      * intros (H & K & T & M). destruct H as [->|H]; [reflexivity|]. exfalso.
        destruct (Sd e H) as [A|[_ A]]; [rewrite E1, K in A; exact (blt_irrefl _ A)|].
        specialize (M d (or_introl eq_refl) E1 E2). lia.
    + rewrite IH. split.
      * intros (H & K & T & M). split; [right; exact H|]. split; [exact K|]. split; [exact T|].
        intros x [<-|Hx] Kx Tx; [|auto]. exfalso. assert (hit k t d = true) by (apply hit_iff; auto). congruence.
      * intros (H & K & T & M). destruct H as [->|H]; [exfalso; assert (hit k t e = true) by (apply hit_iff; auto); congruence|].
        split; [exact H|]. split; [exact K|]. split; [exact T|]. intros x Hx. apply M. right; exact Hx.
Qed.
Lemma newest_none db k t : newest db k t = None <-> forall d, In d db -> e_key d = k -> t < e_ts d.
Proof.
  unfold newest. split.
  - intros H d Hd K. apply (find_none _ _ H) in Hd. destruct (Z.le_gt_cases (e_ts d) t); [|lia].
    assert (hit k t d = true) by (apply hit_iff; auto). congruence.
  - intros H. destruct (find (hit k t) db) eqn:E; [|reflexivity]. apply find_some in E. destruct E as [A B]. apply hit_iff in B.
    specialize (H _ A (proj1 B)). lia.
Qed.
Lemma newest_in db k t e : newest db k t = Some e -> In e db /\ e_key e = k /\ e_ts e <= t.
Proof. unfold newest. intros H. apply find_some in H. destruct H as [A B]. apply hit_iff in B. tauto. Qed.

(* a write that is not older than what its key has *)
Lemma newest_put db e k t : db_ok db -> ent_ok e -> (forall d, In d db -> e_key d = e_key e -> e_ts d <= e_ts e) ->
  newest (put db e) k t = if beqb (e_key e) k && (e_ts e <=? t) then Some e else newest db k t.
Proof.
  intros H He M. destruct (beqb (e_key e) k && (e_ts e <=? t)) eqn:B.
  - apply hit_iff in B. destruct B as [B1 B2]. apply newest_spec; [apply put_ok; assumption|].
    split; [apply put_in; auto|]. split; [exact B1|]. split; [exact B2|]. intros d Hd Kd Td.
    apply put_in in Hd; auto. destruct Hd as [->|[Hd _]]; [lia|]. apply M; [exact Hd|congruence].
  - destruct (newest db k t) as [x|] eqn:E.
    + apply newest_spec in E; [|exact H]. destruct E as (X1 & X2 & X3 & X4). apply newest_spec; [apply put_ok; assumption|].
      split. { apply put_in; auto. right. split; [exact X1|]. intros [A C]. assert (hit k t e = true) by (apply hit_iff; split; [congruence|lia]). unfold hit in *. congruence. }
      split; [exact X2|]. split; [exact X3|]. intros d Hd Kd Td. apply put_in in Hd; auto. destruct Hd as [->|[Hd _]]; auto.
      assert (hit k t e = true) by (apply hit_iff; auto). unfold hit in *. congruence.
    + apply newest_none. intros d Hd Kd. apply put_in in Hd; auto. destruct Hd as [->|[Hd _]].
      * destruct (Z.le_gt_cases (e_ts e) t); [|lia]. assert (hit k t e = true) by (apply hit_iff; auto). unfold hit in *. congruence.
      * rewrite newest_none in E. auto.
Qed.

(* ---- store names ---- *)
Lemma prefix_inj n k n' k' : plain_name n -> plain_name n' -> store_prefix n ++ k = store_prefix n' ++ k' -> n = n' /\ k = k'.
Proof.
  unfold store_prefix. intros P P' H. rewrite <- !app_assoc in H. apply app_inv_head in H.
  revert n' P' H. induction n as [|a n IH]; intros n' P' H; destruct n' as [|b n']; cbn in H.
  - inversion H. auto.
  - inversion H. exfalso. apply P'. left. congruence.
  - inversion H. exfalso. apply P. left. congruence.
  - inversion H. destruct (IH (fun X => P (or_intror X)) n' (fun X => P' (or_intror X)) H2) as [-> ->]. auto.
Qed.
