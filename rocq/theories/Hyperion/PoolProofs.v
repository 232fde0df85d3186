(* Proofs about the outgoing pool. *)
From Verif Require Import Lib.Base Lib.Bytes Hyperion.Pool Hyperion.PoolSpec.
From Coq Require Import Sorting.Sorted.
Open Scope list_scope.
Open Scope Z_scope.

(* ---- keys of the fee index -------------------------------------------------- *)

Definition flt (a b : fkey) : Prop := fkey_cmp a b = Lt.

Lemma fkey_cmp_eq a b : fkey_cmp a b = Eq <-> a = b.
Proof.
  destruct a as [[h t] f], b as [[h' t'] f']. unfold fkey_cmp. split.
  - destruct (Z.compare_spec h h') as [E|E|E]; try discriminate.
    destruct (bcmp t t') eqn:C; try discriminate. apply bcmp_eq in C.
    intros F. apply Z.compare_eq in F. congruence.
  - intros H. inversion H; subst. rewrite Z.compare_refl, bcmp_refl. apply Z.compare_refl.
Qed.

Lemma fkey_cmp_refl a : fkey_cmp a a = Eq.
Proof. apply fkey_cmp_eq. reflexivity. Qed.

Lemma flt_trans a b c : flt a b -> flt b c -> flt a c.
Proof.
  destruct a as [[h t] f], b as [[h' t'] f'], c as [[h2 t2] f2]. unfold flt, fkey_cmp.
  destruct (Z.compare_spec h h') as [E|E|E]; try discriminate;
  destruct (Z.compare_spec h' h2) as [E2|E2|E2]; try discriminate; subst;
  try (intros; destruct (Z.compare_spec h h2); try lia; reflexivity);
  try (intros; destruct (Z.compare_spec h' h2); try lia; reflexivity).
  rewrite Z.compare_refl.
  destruct (bcmp_spec t t') as [B|B|B]; try discriminate;
  destruct (bcmp_spec t' t2) as [B2|B2|B2]; try discriminate; subst.
  - rewrite bcmp_refl. rewrite !Z.compare_lt_iff. lia.
  - intros. rewrite B2. reflexivity.
  - intros. rewrite B. reflexivity.
  - intros. rewrite (blt_trans _ _ _ B B2). reflexivity.
Qed.

Lemma flt_irrefl a : ~ flt a a.
Proof. unfold flt. rewrite fkey_cmp_refl. discriminate. Qed.

Lemma fkey_cmp_gt a b : fkey_cmp a b = Gt -> flt b a.
Proof.
  destruct a as [[h t] f], b as [[h' t'] f']. unfold flt, fkey_cmp.
  destruct (Z.compare_spec h h') as [E|E|E]; try discriminate; subst.
  - rewrite Z.compare_refl. rewrite (bcmp_antisym t t').
    destruct (bcmp t t') eqn:B; cbn [CompOpp]; try discriminate; try reflexivity.
    rewrite Z.compare_gt_iff, Z.compare_lt_iff. lia.
  - intros _. destruct (Z.compare_spec h' h); try lia; reflexivity.
Qed.

Definition fsorted (ix : list (fkey * list Z)) : Prop := StronglySorted (fun a b => flt (fst a) (fst b)) ix.

Lemma fsorted_nodup ix k l1 l2 : fsorted ix -> In (k, l1) ix -> In (k, l2) ix -> l1 = l2.
Proof.
  induction 1 as [|[k' ids] r S IH F]; [contradiction|]. rewrite Forall_forall in F.
  intros [A|A] [B|B]; [congruence| | |auto].
  - injection A as -> ->. apply F in B. cbn in B. elim (flt_irrefl _ B).
  - injection B as -> ->. apply F in A. cbn in A. elim (flt_irrefl _ A).
Qed.

Lemma iget_in ix k ids : fsorted ix -> In (k, ids) ix -> iget k ix = ids.
Proof.
  induction ix as [|[k' l] r IH]; [contradiction|]. intros S I. inversion S as [|? ? S' F]; subst.
  cbn [iget]. destruct I as [I|I].
  - injection I as -> ->. rewrite fkey_cmp_refl. reflexivity.
  - rewrite Forall_forall in F. specialize (F _ I). cbn in F.
    destruct (fkey_cmp k k') eqn:E; auto.
    apply fkey_cmp_eq in E. subst. elim (flt_irrefl _ F).
Qed.

Lemma iget_some ix k i : In i (iget k ix) -> exists ids, In (k, ids) ix /\ In i ids.
Proof.
  induction ix as [|[k' l] r IH]; cbn [iget]; [contradiction|].
  destruct (fkey_cmp k k') eqn:E; intros I;
    try (destruct (IH I) as [ids [A B]]; exists ids; split; [right; exact A|exact B]).
  apply fkey_cmp_eq in E. subst. exists l. split; [left; reflexivity|exact I].
Qed.

Lemma iget_lt ix k : fsorted ix -> Forall (fun e => flt k (fst e)) ix -> iget k ix = [].
Proof.
  intros _ F. induction F as [|[k' l] r H F IH]; [reflexivity|]. cbn [iget]. cbn in H. unfold flt in H.
  rewrite H. exact IH.
Qed.

Lemma iupd_in ix k f k' l :
  In (k', l) (iupd k f ix) -> (k' = k /\ l <> [] /\ (l = f (iget k ix) \/ l = f [])) \/ In (k', l) ix.
Proof.
  induction ix as [|[k2 l2] r IH]; cbn [iupd iget].
  - destruct (f []) as [|a b] eqn:E; [contradiction|]. intros [H|[]]. injection H as <- <-.
    left. repeat split; auto. discriminate.
  - destruct (fkey_cmp k k2) eqn:C.
    + destruct (f l2) as [|a b] eqn:E; [right; right; exact H|].
      intros [H|H]; [|right; right; exact H]. injection H as <- <-. left. repeat split; auto. discriminate.
    + destruct (f []) as [|a b] eqn:E; [auto|].
      intros [H|H]; [|auto]. injection H as <- <-. left. repeat split; auto. discriminate.
    + intros [H|H]; [right; left; exact H|]. destruct (IH H) as [X|X]; [left; exact X|right; right; exact X].
Qed.

Lemma iupd_in_sorted ix k f k' l : fsorted ix ->
  In (k', l) (iupd k f ix) -> (k' = k /\ l <> [] /\ l = f (iget k ix)) \/ (In (k', l) ix /\ k' <> k).
Proof.
  induction ix as [|[k2 l2] r IH]; cbn [iupd iget]; intros S.
  - destruct (f []) as [|a b] eqn:E; [contradiction|]. intros [H|[]]. injection H as <- <-.
    left. repeat split; auto. discriminate.
  - inversion S as [|? ? S' F]; subst. rewrite Forall_forall in F.
    destruct (fkey_cmp k k2) eqn:C.
    + apply fkey_cmp_eq in C. subst k2.
      assert (R : In (k', l) r -> In (k', l) ((k, l2) :: r) /\ k' <> k).
      { intros H. split; [right; exact H|]. intros ->. apply F in H. elim (flt_irrefl _ H). }
      destruct (f l2) as [|a b] eqn:E; [right; auto|].
      intros [H|H]; [|right; auto]. injection H as <- <-. left. repeat split; auto. discriminate.
    + assert (G : iget k r = []).
      { apply iget_lt; [exact S'|]. apply Forall_forall. intros x X. apply F in X. cbn in X.
        eapply flt_trans; eassumption. }
      assert (R : In (k', l) ((k2, l2) :: r) -> In (k', l) ((k2, l2) :: r) /\ k' <> k).
      { intros H. split; [exact H|]. intros ->. destruct H as [H|H].
        - injection H as -> ->. elim (flt_irrefl _ C).
        - apply F in H. cbn in H. elim (flt_irrefl k). eapply flt_trans; eassumption. }
      destruct (f []) as [|a b] eqn:E; [auto|].
      intros [H|H]; [|auto]. injection H as <- <-. left. rewrite G. repeat split; auto. discriminate.
    + intros [H|H].
      * injection H as <- <-. right. split; [left; reflexivity|]. intros ->. rewrite fkey_cmp_refl in C. discriminate.
      * destruct (IH S' H) as [X|[X Y]]; [left; exact X|right; split; [right; exact X|exact Y]].
Qed.

Lemma iupd_keep ix k f k' l : In (k', l) ix -> k' <> k -> In (k', l) (iupd k f ix).
Proof.
  induction ix as [|[k2 l2] r IH]; [contradiction|]. cbn [iupd]. intros I N.
  destruct (fkey_cmp k k2) eqn:C.
  - apply fkey_cmp_eq in C. subst k2. destruct I as [I|I]; [congruence|].
    destruct (f l2); [exact I|right; exact I].
  - destruct (f []); [exact I|right; exact I].
  - destruct I as [I|I]; [left; exact I|right; auto].
Qed.

Lemma iupd_sorted ix k f : fsorted ix -> fsorted (iupd k f ix).
Proof.
  induction ix as [|[k2 l2] r IH]; cbn [iupd]; intros S.
  - destruct (f []); repeat constructor.
  - inversion S as [|? ? S' F]; subst.
    destruct (fkey_cmp k k2) eqn:C.
    + apply fkey_cmp_eq in C. subst k2. destruct (f l2); [exact S'|]. constructor; [exact S'|exact F].
    + destruct (f []); [exact S|]. constructor; [exact S|]. constructor; [exact C|].
      rewrite Forall_forall in *. intros x X. apply F in X. cbn in *. eapply flt_trans; eassumption.
    + apply fkey_cmp_gt in C. constructor; [apply IH; exact S'|].
      apply Forall_forall. intros [k' l'] X. apply iupd_in in X. cbn.
      destruct X as [[-> _]|X]; [exact C|]. rewrite Forall_forall in F. apply F in X. exact X.
Qed.

Lemma iupd_iget ix k f k' : fsorted ix ->
  iget k' (iupd k f ix) = match fkey_cmp k' k with Eq => f (iget k ix) | _ => iget k' ix end.
Proof.
  intros S. destruct (fkey_cmp k' k) eqn:E.
  - apply fkey_cmp_eq in E. subst k'.
    destruct (iget k (iupd k f ix)) as [|i l] eqn:G.
    + destruct (f (iget k ix)) as [|j m] eqn:H; [reflexivity|exfalso].
      revert G H. induction ix as [|[k2 l2] r IH]; cbn [iupd iget].
      * intros G H. rewrite H in G. cbn [iget] in G. rewrite fkey_cmp_refl in G. discriminate.
      * inversion S as [|? ? S' F]; subst. destruct (fkey_cmp k k2) eqn:C.
        -- intros G H. rewrite H in G. cbn [iget] in G. rewrite fkey_cmp_refl in G. discriminate.
        -- assert (X : iget k r = []).
           { apply iget_lt; [exact S'|]. rewrite Forall_forall in *. intros x X. apply F in X. cbn in X.
             eapply flt_trans; eassumption. }
           rewrite X. intros G H. rewrite H in G. cbn [iget] in G. rewrite fkey_cmp_refl in G. discriminate.
        -- cbn [iget]. rewrite C. apply IH. exact S'.
    + assert (I : In i (iget k (iupd k f ix))) by (rewrite G; left; reflexivity).
      apply iget_some in I. destruct I as [ids [I J]].
      rewrite (iget_in _ _ _ (iupd_sorted _ _ _ S) I) in G. subst ids.
      apply (iupd_in_sorted _ _ _ _ _ S) in I. destruct I as [[_ [_ I]]|[_ I]]; [exact I|congruence].
  - assert (N : k' <> k) by (intros ->; rewrite fkey_cmp_refl in E; discriminate).
    destruct (iget k' ix) as [|i l] eqn:G.
    + destruct (iget k' (iupd k f ix)) as [|i l] eqn:H; [reflexivity|].
      assert (I : In i (iget k' (iupd k f ix))) by (rewrite H; left; reflexivity).
      apply iget_some in I. destruct I as [ids [I J]]. apply (iupd_in_sorted _ _ _ _ _ S) in I.
      destruct I as [[I _]|[I _]]; [congruence|]. rewrite (iget_in _ _ _ S I) in G. subst. contradiction.
    + assert (I : In i (iget k' ix)) by (rewrite G; left; reflexivity).
      apply iget_some in I. destruct I as [ids [I J]]. rewrite (iget_in _ _ _ S I) in G. subst.
      apply iget_in; [apply iupd_sorted; exact S|]. apply iupd_keep; assumption.
  - assert (N : k' <> k) by (intros ->; rewrite fkey_cmp_refl in E; discriminate).
    destruct (iget k' ix) as [|i l] eqn:G.
    + destruct (iget k' (iupd k f ix)) as [|i l] eqn:H; [reflexivity|].
      assert (I : In i (iget k' (iupd k f ix))) by (rewrite H; left; reflexivity).
      apply iget_some in I. destruct I as [ids [I J]]. apply (iupd_in_sorted _ _ _ _ _ S) in I.
      destruct I as [[I _]|[I _]]; [congruence|]. rewrite (iget_in _ _ _ S I) in G. subst. contradiction.
    + assert (I : In i (iget k' ix)) by (rewrite G; left; reflexivity).
      apply iget_some in I. destruct I as [ids [I J]]. rewrite (iget_in _ _ _ S I) in G. subst.
      apply iget_in; [apply iupd_sorted; exact S|]. apply iupd_keep; assumption.
Qed.

(* ---- counting ------------------------------------------------------------------ *)

Definition qdec (a b : Z * Z) : {a = b} + {a <> b}.
Proof. decide equality; apply Z.eq_dec. Defined.

(* Number of occurrences, as an integer. *)
Definition cz (q : Z * Z) (l : list (Z * Z)) : Z := Z.of_nat (count_occ qdec l q).

Lemma cz_nil q : cz q [] = 0.
Proof. reflexivity. Qed.
Lemma cz_cons q a l : cz q (a :: l) = (if qdec a q then 1 else 0) + cz q l.
Proof. unfold cz. cbn [count_occ]. destruct (qdec a q); lia. Qed.
Lemma cz_app q a b : cz q (a ++ b) = cz q a + cz q b.
Proof. induction a as [|x a IH]; [reflexivity|]. cbn [app]. rewrite !cz_cons, IH. lia. Qed.
Lemma cz_pos q l : 0 <= cz q l.
Proof. unfold cz. lia. Qed.
Lemma cz_in q l : In q l <-> 0 < cz q l.
Proof. unfold cz. rewrite (count_occ_In qdec). lia. Qed.
Lemma cz_nodup l : NoDup l <-> forall q, cz q l <= 1.
Proof.
  rewrite (NoDup_count_occ qdec). unfold cz. split; intros H q; specialize (H q); lia.
Qed.

Definition tkey (t : tx) : Z * Z := (t_h t, t_id t).
Definition fh (k : fkey) : Z := fst (fst k).
Definition tag (k : fkey) (ids : list Z) : list (Z * Z) := map (pair (fh k)) ids.
Definition ikeys (ix : list (fkey * list Z)) : list (Z * Z) := flat_map (fun e => tag (fst e) (snd e)) ix.
Definition bkeys (bs : list batch) : list (Z * Z) := flat_map (fun b => map tkey (b_txs b)) bs.
Definition pkeys (l : list tx) : list (Z * Z) := map tkey l.

Lemma tag_nil k : tag k [] = [].
Proof. reflexivity. Qed.
Lemma ikeys_cons k l r : ikeys ((k, l) :: r) = tag k l ++ ikeys r.
Proof. reflexivity. Qed.

Lemma iupd_count ix k f q : fsorted ix ->
  cz q (ikeys (iupd k f ix)) = cz q (ikeys ix) - cz q (tag k (iget k ix)) + cz q (tag k (f (iget k ix))).
Proof.
  induction ix as [|[k2 l2] r IH]; cbn [iupd iget]; intros S.
  - destruct (f []) as [|a b]; [reflexivity|]. rewrite ikeys_cons, cz_app, tag_nil.
    change (ikeys []) with (@nil (Z * Z)). rewrite cz_nil. lia.
  - inversion S as [|? ? S' F]; subst.
    destruct (fkey_cmp k k2) eqn:C.
    + apply fkey_cmp_eq in C. subst k2.
      destruct (f l2) as [|a b] eqn:E; rewrite ?ikeys_cons, ?cz_app, ?tag_nil, ?cz_nil; lia.
    + assert (G : iget k r = []).
      { apply iget_lt; [exact S'|]. rewrite Forall_forall in *. intros x X. apply F in X. cbn in X.
        eapply flt_trans; eassumption. }
      rewrite G.
      destruct (f []) as [|a b] eqn:E; rewrite ?ikeys_cons, ?cz_app, ?tag_nil, ?cz_nil; lia.
    + rewrite !ikeys_cons, !cz_app, (IH S'). lia.
Qed.

Lemma remove1_count i l k q : In i l ->
  cz q (tag k (remove1 i l)) = cz q (tag k l) - (if qdec (fh k, i) q then 1 else 0).
Proof.
  unfold tag. induction l as [|j r IH]; [contradiction|]. cbn [remove1]. intros I.
  destruct (Z.eqb_spec j i) as [->|N].
  - cbn [map]. rewrite cz_cons. lia.
  - destruct I as [I|I]; [congruence|]. cbn [map]. rewrite !cz_cons, (IH I). lia.
Qed.

Lemma remove1_in i j l : In j (remove1 i l) -> In j l.
Proof.
  induction l as [|k r IH]; [contradiction|]. cbn [remove1].
  destruct (k =? i); [right; assumption|]. intros [H|H]; [left; exact H|right; auto].
Qed.

Lemma has_in i l : has i l = true <-> In i l.
Proof.
  unfold has. rewrite existsb_exists. split.
  - intros [j [A B]]. apply Z.eqb_eq in B. subst. exact A.
  - intros I. exists i. split; [exact I|apply Z.eqb_refl].
Qed.

(* ---- entries ---------------------------------------------------------------------- *)

Lemma is_entry_spec h i t : is_entry h i t = true <-> tkey t = (h, i).
Proof.
  unfold is_entry, tkey. rewrite andb_true_iff, !Z.eqb_eq. split; [intros [-> ->]; reflexivity|].
  intros H. apply pair_equal_spec in H. exact H.
Qed.

Lemma nodup_key_in l t u : NoDup (pkeys l) -> In t l -> In u l -> tkey t = tkey u -> t = u.
Proof.
  unfold pkeys. induction l as [|x l IH]; [contradiction|]. cbn [map]. intros N A B E.
  inversion N as [|? ? H N']; subst.
  destruct A as [A|A], B as [B|B]; subst; auto.
  - elim H. rewrite E. apply in_map. exact B.
  - elim H. rewrite <- E. apply in_map. exact A.
Qed.

Lemma find_entry l h i t : NoDup (pkeys l) -> In t l -> tkey t = (h, i) -> find (is_entry h i) l = Some t.
Proof.
  intros N I K. destruct (find (is_entry h i) l) as [u|] eqn:F.
  - apply find_some in F. destruct F as [A B]. apply is_entry_spec in B. f_equal.
    eapply nodup_key_in; [exact N|exact A|exact I|congruence].
  - exfalso. eapply find_none in F; [|exact I]. apply is_entry_spec in K. congruence.
Qed.

Lemma pget_some s h i t : pget s h i = Some t -> In t (p_pool s) /\ tkey t = (h, i).
Proof.
  unfold pget. intros F. apply find_some in F. destruct F as [A B]. split; [exact A|].
  apply is_entry_spec. exact B.
Qed.

Definition without (h i : Z) (l : list tx) : list tx := filter (fun t => negb (is_entry h i t)) l.

Lemma without_in h i l t : In t (without h i l) <-> In t l /\ tkey t <> (h, i).
Proof.
  unfold without. rewrite filter_In, negb_true_iff. split; intros [A B]; split; auto.
  - intros K. apply is_entry_spec in K. congruence.
  - destruct (is_entry h i t) eqn:E; [|reflexivity]. apply is_entry_spec in E. congruence.
Qed.

Lemma without_count h i l q : NoDup (pkeys l) -> In (h, i) (pkeys l) ->
  cz q (pkeys (without h i l)) = cz q (pkeys l) - (if qdec (h, i) q then 1 else 0).
Proof.
  unfold pkeys, without. induction l as [|x l IH]; [contradiction|]. cbn [map filter]. intros N I.
  inversion N as [|? ? H N']; subst. destruct (is_entry h i x) eqn:E; cbn [negb].
  - apply is_entry_spec in E. rewrite cz_cons. rewrite E in *.
    assert (X : filter (fun t => negb (is_entry h i t)) l = l).
    { clear -H. induction l as [|y l IH]; [reflexivity|]. cbn [filter map] in *.
      destruct (is_entry h i y) eqn:E.
      - apply is_entry_spec in E. elim H. left. exact E.
      - cbn [negb]. rewrite IH; [reflexivity|]. intros I. apply H. right. exact I. }
    rewrite X. lia.
  - assert (X : tkey x <> (h, i)) by (intros K; apply is_entry_spec in K; congruence).
    destruct I as [I|I]; [congruence|]. cbn [map]. rewrite !cz_cons, (IH N' I). lia.
Qed.

Lemma without_sum (f : tx -> Z) h i l t : NoDup (pkeys l) -> In t l -> tkey t = (h, i) ->
  sum_by f (without h i l) = sum_by f l - f t.
Proof.
  unfold pkeys, without. induction l as [|x l IH]; [contradiction|]. cbn [map filter sum_by fold_right]. intros N I K.
  inversion N as [|? ? H N']; subst. destruct (is_entry h i x) eqn:E; cbn [negb].
  - apply is_entry_spec in E. assert (x = t).
    { destruct I as [I|I]; [exact I|]. elim H. rewrite E, <- K. apply in_map. exact I. }
    subst x.
    assert (X : filter (fun t => negb (is_entry h i t)) l = l).
    { rewrite E in H. clear -H. induction l as [|y l IH]; [reflexivity|]. cbn [filter map] in *.
      destruct (is_entry h i y) eqn:E.
      - apply is_entry_spec in E. elim H. left. exact E.
      - cbn [negb]. rewrite IH; [reflexivity|]. intros I. apply H. right. exact I. }
    rewrite X. unfold sum_by. lia.
  - destruct I as [I|I].
    + subst x. apply is_entry_spec in K. congruence.
    + cbn [sum_by fold_right]. fold (sum_by f (filter (fun t => negb (is_entry h i t)) l)).
      fold (sum_by f l). rewrite (IH N' I K). lia.
Qed.

Lemma without_nodup h i l : NoDup (pkeys l) -> NoDup (pkeys (without h i l)).
Proof.
  unfold pkeys, without. induction l as [|x l IH]; [trivial|]. cbn [map filter]. intros N.
  inversion N as [|? ? H N']; subst. destruct (negb (is_entry h i x)); [|auto].
  cbn [map]. constructor; [|auto]. intros I. apply H. apply in_map_iff in I. destruct I as [y [A B]].
  apply filter_In in B. rewrite <- A. apply in_map. apply B.
Qed.

(* ---- the batch table ----------------------------------------------------------------- *)

Definition bkey (b : batch) : Z * Z * bytes := (b_h b, b_nonce b, b_token b).

Lemma is_batch_spec h n t b : is_batch h n t b = true <-> bkey b = (h, n, t).
Proof.
  unfold is_batch, bkey. rewrite !andb_true_iff, !Z.eqb_eq, beqb_spec. split.
  - intros [[-> ->] ->]. reflexivity.
  - intros H. apply pair_equal_spec in H. destruct H as [H ->]. apply pair_equal_spec in H.
    destruct H as [-> ->]. repeat split; reflexivity.
Qed.

Lemma bkey_nodup_in bs b c : NoDup (map bkey bs) -> In b bs -> In c bs -> bkey b = bkey c -> b = c.
Proof.
  induction bs as [|x l IH]; [contradiction|]. cbn [map]. intros N A B E.
  inversion N as [|? ? H N']; subst.
  destruct A as [A|A], B as [B|B]; subst; auto.
  - elim H. rewrite E. apply in_map. exact B.
  - elim H. rewrite <- E. apply in_map. exact A.
Qed.

Lemma bget_some s h n t b : bget s h n t = Some b -> In b (p_batches s) /\ bkey b = (h, n, t).
Proof.
  unfold bget. intros F. apply find_some in F. rewrite is_batch_spec in F. exact F.
Qed.

Lemma find_batch bs h n t b : NoDup (map bkey bs) -> In b bs -> bkey b = (h, n, t) ->
  find (is_batch h n t) bs = Some b.
Proof.
  intros N I K. destruct (find (is_batch h n t) bs) as [u|] eqn:F.
  - apply find_some in F. destruct F as [A B]. apply is_batch_spec in B. f_equal.
    eapply bkey_nodup_in; [exact N|exact A|exact I|congruence].
  - exfalso. eapply find_none in F; [|exact I]. apply is_batch_spec in K. congruence.
Qed.

Lemma bkeys_cons b r : bkeys (b :: r) = pkeys (b_txs b) ++ bkeys r.
Proof. reflexivity. Qed.

Definition bwithout (h n : Z) (t : bytes) (bs : list batch) : list batch :=
  filter (fun b => negb (is_batch h n t b)) bs.

Lemma bwithout_in h n t bs b : In b (bwithout h n t bs) <-> In b bs /\ bkey b <> (h, n, t).
Proof.
  unfold bwithout. rewrite filter_In, negb_true_iff. split; intros [A B]; split; auto.
  - intros K. apply is_batch_spec in K. congruence.
  - destruct (is_batch h n t b) eqn:E; [|reflexivity]. apply is_batch_spec in E. congruence.
Qed.

Lemma bwithout_id h n t bs : (forall b, In b bs -> bkey b <> (h, n, t)) -> bwithout h n t bs = bs.
Proof.
  unfold bwithout. induction bs as [|x l IH]; [reflexivity|]. intros H. cbn [filter].
  destruct (is_batch h n t x) eqn:E.
  - apply is_batch_spec in E. elim (H x); [left; reflexivity|exact E].
  - cbn [negb]. rewrite IH; [reflexivity|]. intros b I. apply H. right. exact I.
Qed.

Lemma bwithout_nodup h n t bs : NoDup (map bkey bs) -> NoDup (map bkey (bwithout h n t bs)).
Proof.
  unfold bwithout. induction bs as [|x l IH]; [trivial|]. cbn [map filter]. intros N.
  inversion N as [|? ? H N']; subst. destruct (negb (is_batch h n t x)); [|auto].
  cbn [map]. constructor; [|auto]. intros I. apply H. apply in_map_iff in I. destruct I as [y [A B]].
  apply filter_In in B. rewrite <- A. apply in_map. apply B.
Qed.

Lemma bwithout_count h n t bs b q : NoDup (map bkey bs) -> In b bs -> bkey b = (h, n, t) ->
  cz q (bkeys (bwithout h n t bs)) = cz q (bkeys bs) - cz q (pkeys (b_txs b)).
Proof.
  intros N I K. induction bs as [|x l IH]; [contradiction|]. cbn [map] in N.
  inversion N as [|? ? H N']; subst. unfold bwithout in *. cbn [filter].
  destruct (is_batch h n t x) eqn:E; cbn [negb].
  - apply is_batch_spec in E. assert (x = b).
    { destruct I as [I|I]; [exact I|]. elim H. rewrite E, <- K. apply in_map. exact I. }
    subst x. change (filter (fun b0 => negb (is_batch h n t b0)) l) with (bwithout h n t l).
    rewrite bwithout_id; [rewrite bkeys_cons, cz_app; lia|].
    intros c C X. apply H. rewrite E, <- X. apply in_map. exact C.
  - destruct I as [I|I].
    + subst x. apply is_batch_spec in K. congruence.
    + rewrite !bkeys_cons, !cz_app, (IH N' I). lia.
Qed.

Lemma binsert_in b bs c : (forall x, In x bs -> bkey x <> bkey b) ->
  In c (binsert b bs) <-> c = b \/ In c bs.
Proof.
  induction bs as [|x l IH]; cbn [binsert]; intros H.
  - cbn. intuition.
  - destruct (is_batch (b_h b) (b_nonce b) (b_token b) x) eqn:E.
    + apply is_batch_spec in E. elim (H x); [left; reflexivity|exact E].
    + destruct (bkey_ltb b x).
      * cbn. intuition.
      * cbn [In]. rewrite IH; [intuition|]. intros y Y. apply H. right. exact Y.
Qed.

Lemma binsert_count b bs q : (forall x, In x bs -> bkey x <> bkey b) ->
  cz q (bkeys (binsert b bs)) = cz q (bkeys bs) + cz q (pkeys (b_txs b)).
Proof.
  induction bs as [|x l IH]; cbn [binsert]; intros H.
  - rewrite bkeys_cons, cz_app. lia.
  - destruct (is_batch (b_h b) (b_nonce b) (b_token b) x) eqn:E.
    + apply is_batch_spec in E. elim (H x); [left; reflexivity|exact E].
    + destruct (bkey_ltb b x); rewrite !bkeys_cons, !cz_app; [lia|].
      rewrite IH; [lia|]. intros y Y. apply H. right. exact Y.
Qed.

Lemma binsert_nodup b bs : (forall x, In x bs -> bkey x <> bkey b) ->
  NoDup (map bkey bs) -> NoDup (map bkey (binsert b bs)).
Proof.
  induction bs as [|x l IH]; cbn [binsert]; intros H N.
  - repeat constructor. intros [].
  - cbn [map] in N. inversion N as [|? ? G N']; subst.
    destruct (is_batch (b_h b) (b_nonce b) (b_token b) x) eqn:E.
    + apply is_batch_spec in E. elim (H x); [left; reflexivity|exact E].
    + destruct (bkey_ltb b x).
      * cbn [map]. constructor; [|exact N]. intros I.
        change (bkey x :: map bkey l) with (map bkey (x :: l)) in I.
        apply in_map_iff in I. destruct I as [y [A B]]. elim (H y B A).
      * cbn [map]. constructor.
        -- intros I. apply in_map_iff in I. destruct I as [y [A B]]. apply binsert_in in B.
           ++ destruct B as [->|B]; [elim (H x); [left; reflexivity|congruence]|].
              apply G. rewrite <- A. apply in_map. exact B.
           ++ intros z Z. apply H. right. exact Z.
        -- apply IH; [|exact N']. intros z Z. apply H. right. exact Z.
Qed.

(* ---- the invariant ---------------------------------------------------------------------- *)

(* [hand]: transfers taken out of the index or of a batch by the operation in progress. *)
Record okc (pool : list tx) (ix : list (fkey * list Z)) (bs : list batch) (hand : list tx) : Prop := {
  o_count : forall q, cz q (pkeys pool) = cz q (ikeys ix) + cz q (bkeys bs) + cz q (pkeys hand);
  o_nodup : NoDup (pkeys pool);
  o_sorted : fsorted ix;
  o_index : forall k ids i, In (k, ids) ix -> In i ids ->
              exists t, In t pool /\ tkey t = (fh k, i) /\ k = (t_h t, t_token t, t_fee t);
  o_full : forall k, ~ In (k, []) ix;
  o_batch : forall b t, In b bs -> In t (b_txs b) -> In t pool /\ t_h t = b_h b /\ t_token t = b_token b;
  o_bnodup : NoDup (map bkey bs);
  o_hand : forall t, In t hand -> In t pool
}.

Lemma okc_same_hand pool ix bs l m :
  (forall q, cz q (pkeys l) = cz q (pkeys m)) -> (forall t, In t m -> In t l) ->
  okc pool ix bs l -> okc pool ix bs m.
Proof.
  intros C I [A1 A2 A3 A4 A5 A6 A7 A8]. constructor; auto. intros q. rewrite A1, C. reflexivity.
Qed.

Lemma okc_rev_hand pool ix bs l : okc pool ix bs (rev l) -> okc pool ix bs l.
Proof.
  apply okc_same_hand.
  - intros q. unfold pkeys. rewrite map_rev. unfold cz. f_equal.
    induction (map tkey l) as [|x m IH]; [reflexivity|]. cbn [rev].
    rewrite count_occ_app, IH. cbn [count_occ]. destruct (qdec x q); lia.
  - intros t. rewrite <- in_rev. trivial.
Qed.

(* Taking a waiting transfer. *)
Lemma okc_take pool ix bs hand t k :
  okc pool ix bs hand -> In t pool -> fh k = t_h t -> In (t_id t) (iget k ix) ->
  k = (t_h t, t_token t, t_fee t) /\ okc pool (iupd k (remove1 (t_id t)) ix) bs (t :: hand).
Proof.
  intros [A1 A2 A3 A4 A5 A6 A7 A8] P H I.
  destruct (iget_some _ _ _ I) as [ids [J1 J2]].
  destruct (A4 _ _ _ J1 J2) as [u [U1 [U2 U3]]].
  assert (u = t).
  { eapply nodup_key_in; [exact A2|exact U1|exact P|]. rewrite U2, H. reflexivity. }
  subst u. split; [exact U3|]. constructor; auto.
  - intros q. rewrite A1, (iupd_count _ _ _ _ A3), (remove1_count _ _ _ _ I).
    cbn [pkeys map]. unfold pkeys. cbn [map]. rewrite cz_cons. rewrite <- U2.
    lia.
  - apply iupd_sorted. exact A3.
  - intros k' l i X Y. apply (iupd_in_sorted _ _ _ _ _ A3) in X. destruct X as [[-> [_ ->]]|[X _]].
    + apply remove1_in in Y. destruct (iget_some _ _ _ Y) as [l [L1 L2]]. eapply A4; eassumption.
    + eapply A4; eassumption.
  - intros k' X. apply (iupd_in_sorted _ _ _ _ _ A3) in X. destruct X as [[_ [X _]]|[X _]]; [congruence|].
    exact (A5 _ X).
  - intros u [<-|U]; auto.
Qed.

(* Putting one back into the index, anywhere in its record. *)
Lemma okc_give pool ix bs hand t f :
  (forall l q, cz q (tag (t_h t, t_token t, t_fee t) (f l))
               = cz q (tag (t_h t, t_token t, t_fee t) l) + cz q [tkey t]) ->
  (forall l i, In i (f l) <-> i = t_id t \/ In i l) ->
  okc pool ix bs (t :: hand) ->
  okc pool (iupd (t_h t, t_token t, t_fee t) f ix) bs hand.
Proof.
  intros F1 F2 [A1 A2 A3 A4 A5 A6 A7 A8]. constructor; auto.
  - intros q. rewrite A1, (iupd_count _ _ _ _ A3), F1. unfold pkeys. cbn [map]. rewrite !cz_cons, cz_nil. lia.
  - apply iupd_sorted. exact A3.
  - intros k' l i X Y. apply (iupd_in_sorted _ _ _ _ _ A3) in X. destruct X as [[-> [_ ->]]|[X _]].
    + apply F2 in Y. destruct Y as [->|Y].
      * exists t. repeat split. apply A8. left. reflexivity.
      * destruct (iget_some _ _ _ Y) as [l [L1 L2]]. eapply A4; eassumption.
    + eapply A4; eassumption.
  - intros k' X. apply (iupd_in_sorted _ _ _ _ _ A3) in X. destruct X as [[_ [X _]]|[X _]]; [congruence|].
    exact (A5 _ X).
  - intros u U. apply A8. right. exact U.
Qed.

Lemma okc_prepend pool ix bs hand t :
  okc pool ix bs (t :: hand) ->
  okc pool (iupd (t_h t, t_token t, t_fee t) (fun l => t_id t :: l) ix) bs hand.
Proof.
  apply okc_give.
  - intros l q. unfold tag. cbn [map]. rewrite !cz_cons, cz_nil. unfold tkey, fh. cbn [fst snd]. lia.
  - intros l i. cbn. intuition.
Qed.

Lemma okc_append pool ix bs hand t :
  okc pool ix bs (t :: hand) ->
  okc pool (iupd (t_h t, t_token t, t_fee t) (fun l => l ++ [t_id t]) ix) bs hand.
Proof.
  apply okc_give.
  - intros l q. unfold tag. rewrite map_app, cz_app. cbn [map]. unfold tkey, fh. cbn [fst snd]. lia.
  - intros l i. rewrite in_app_iff. cbn. intuition.
Qed.

(* Dropping a transfer for good. *)
Lemma okc_drop pool ix bs hand t :
  okc pool ix bs (t :: hand) -> okc (without (t_h t) (t_id t) pool) ix bs hand.
Proof.
  intros [A1 A2 A3 A4 A5 A6 A7 A8].
  assert (T : In t pool) by (apply A8; left; reflexivity).
  assert (K : In (t_h t, t_id t) (pkeys pool)) by (apply (in_map tkey); exact T).
  assert (ONE : cz (tkey t) (ikeys ix) + cz (tkey t) (bkeys bs) + cz (tkey t) (pkeys hand) = 0).
  { pose proof (A1 (tkey t)) as C. pose proof (proj1 (cz_nodup _) A2 (tkey t)) as D.
    unfold pkeys in C at 2. cbn [map] in C. rewrite cz_cons in C. destruct (qdec (tkey t) (tkey t)); [|congruence].
    fold (pkeys hand) in C.
    pose proof (cz_pos (tkey t) (ikeys ix)). pose proof (cz_pos (tkey t) (bkeys bs)).
    pose proof (cz_pos (tkey t) (pkeys hand)). lia. }
  pose proof (cz_pos (tkey t) (ikeys ix)) as P1. pose proof (cz_pos (tkey t) (bkeys bs)) as P2.
  pose proof (cz_pos (tkey t) (pkeys hand)) as P3.
  constructor; auto.
  - intros q. rewrite without_count by assumption. rewrite A1. unfold pkeys. cbn [map]. rewrite cz_cons.
    change (t_h t, t_id t) with (tkey t). lia.
  - apply without_nodup. exact A2.
  - intros k l i X Y. destruct (A4 _ _ _ X Y) as [u [U1 [U2 U3]]]. exists u. split; [|split; assumption].
    apply without_in. split; [exact U1|]. intros E.
    assert (In (tkey t) (ikeys ix)); [|apply cz_in in H; lia].
    unfold ikeys. apply in_flat_map. exists (k, l). split; [exact X|]. cbn [fst snd]. unfold tag.
    rewrite U2 in E. change (t_h t, t_id t) with (tkey t) in E. rewrite <- E. apply in_map. exact Y.
  - intros b u B U. destruct (A6 _ _ B U) as [X Y]. split; [|exact Y]. apply without_in. split; [exact X|].
    intros E. assert (In (tkey t) (bkeys bs)); [|apply cz_in in H; lia].
    unfold bkeys. apply in_flat_map. exists b. split; [exact B|].
    change (t_h t, t_id t) with (tkey t) in E. rewrite <- E. apply in_map. exact U.
  - intros u U. apply without_in. split; [apply A8; right; exact U|].
    intros E. assert (In (tkey t) (pkeys hand)); [|apply cz_in in H; lia].
    change (t_h t, t_id t) with (tkey t) in E. rewrite <- E. apply in_map. exact U.
Qed.

(* A new transfer. *)
Lemma okc_new pool ix bs hand t :
  ~ In (tkey t) (pkeys pool) -> okc pool ix bs hand -> okc (t :: pool) ix bs (t :: hand).
Proof.
  intros N [A1 A2 A3 A4 A5 A6 A7 A8]. constructor; auto.
  - intros q. unfold pkeys in *. cbn [map]. rewrite !cz_cons, A1. lia.
  - unfold pkeys in *. cbn [map]. constructor; assumption.
  - intros k l i X Y. destruct (A4 _ _ _ X Y) as [u [U1 U2]]. exists u. split; [right; exact U1|exact U2].
  - intros b u B U. destruct (A6 _ _ B U) as [X Y]. split; [right; exact X|exact Y].
  - intros u [->|U]; [left; reflexivity|right; auto].
Qed.

(* Making a batch of what is in hand. *)
Lemma okc_store pool ix bs b :
  (forall x, In x bs -> bkey x <> bkey b) ->
  (forall t, In t (b_txs b) -> t_h t = b_h b /\ t_token t = b_token b) ->
  okc pool ix bs (b_txs b) -> okc pool ix (binsert b bs) [].
Proof.
  intros F T [A1 A2 A3 A4 A5 A6 A7 A8]. constructor; auto.
  - intros q. rewrite A1, (binsert_count _ _ _ F). unfold pkeys at 3. cbn [map]. rewrite cz_nil. lia.
  - intros c t C I. apply (binsert_in _ _ _ F) in C. destruct C as [->|C]; [|apply A6; assumption].
    split; [apply A8; exact I|apply T; exact I].
  - apply binsert_nodup; assumption.
  - intros t [].
Qed.

(* Taking a batch apart. *)
Lemma okc_open pool ix bs hand b :
  In b bs -> okc pool ix bs hand ->
  okc pool ix (bwithout (b_h b) (b_nonce b) (b_token b) bs) (b_txs b ++ hand).
Proof.
  intros B [A1 A2 A3 A4 A5 A6 A7 A8]. constructor; auto.
  - intros q. rewrite A1, (bwithout_count _ _ _ _ b); try assumption; [|reflexivity].
    unfold pkeys at 3. rewrite map_app, cz_app. unfold pkeys. lia.
  - intros c t C I. apply bwithout_in in C. apply A6; [apply C|exact I].
  - apply bwithout_nodup. exact A7.
  - intros t I. apply in_app_iff in I. destruct I as [I|I]; [|auto]. apply (A6 b t B I).
Qed.

(* ---- states ----------------------------------------------------------------------------------- *)

Record Inv (s : st) : Prop := {
  i_ok : okc (p_pool s) (p_index s) (p_batches s) [];
  i_nonce : forall b, In b (p_batches s) -> b_nonce b <= p_batchid s (b_h b);
  i_id : forall t, In t (p_pool s) -> t_id t <= p_txid s;
  i_pos : forall t, In t (p_pool s) -> 0 < t_amount t /\ 0 <= t_fee t
}.

(* Same records, whatever the coins. *)
Definition same_book (s s' : st) : Prop :=
  p_pool s' = p_pool s /\ p_index s' = p_index s /\ p_batches s' = p_batches s
  /\ p_txid s' = p_txid s /\ p_batchid s' = p_batchid s.

(* Same coins, whatever the records. *)
Definition same_coins (s s' : st) : Prop :=
  p_bal s' = p_bal s /\ p_supply s' = p_supply s /\ p_locked s' = p_locked s.

Lemma same_book_refl s : same_book s s.
Proof. repeat split. Qed.
Lemma same_book_trans a b c : same_book a b -> same_book b c -> same_book a c.
Proof. unfold same_book. intuition congruence. Qed.
Lemma same_coins_refl s : same_coins s s.
Proof. repeat split. Qed.
Lemma same_coins_trans a b c : same_coins a b -> same_coins b c -> same_coins a c.
Proof. unfold same_coins. intuition congruence. Qed.

Lemma Inv_book s s' : same_book s s' -> Inv s -> Inv s'.
Proof.
  intros [A [B [C [D E]]]] [I1 I2 I3 I4]. constructor; rewrite ?A, ?B, ?C, ?D, ?E; assumption.
Qed.

(* [x] at one account and denomination, nothing elsewhere. *)
Definition at2 (a d : bytes) (x : Z) (a' d' : bytes) : Z := if beqb a' a && beqb d' d then x else 0.
Definition at1 (d : bytes) (x : Z) (d' : bytes) : Z := if beqb d' d then x else 0.
Definition atl (h : Z) (t : bytes) (x : Z) (h' : Z) (t' : bytes) : Z := if (h' =? h) && beqb t' t then x else 0.

Lemma badd_at bal a d x a' d' : badd bal a d x a' d' = bal a' d' + at2 a d x a' d'.
Proof. unfold badd, at2. destruct (beqb a' a && beqb d' d); lia. Qed.
Lemma sadd_at sup d x d' : sadd sup d x d' = sup d' + at1 d x d'.
Proof. unfold sadd, at1. destruct (beqb d' d); lia. Qed.
Lemma at2_opp a d x a' d' : at2 a d (- x) a' d' = - at2 a d x a' d'.
Proof. unfold at2. destruct (beqb a' a && beqb d' d); lia. Qed.
Lemma at1_opp d x d' : at1 d (- x) d' = - at1 d x d'.
Proof. unfold at1. destruct (beqb d' d); lia. Qed.
Lemma at2_zero a d a' d' : at2 a d 0 a' d' = 0.
Proof. unfold at2. destruct (beqb a' a && beqb d' d); reflexivity. Qed.
Lemma at2_same a d x : at2 a d x a d = x.
Proof. unfold at2. rewrite !beqb_refl. reflexivity. Qed.
Lemma at2_pos a d x a' d' : 0 <= x -> 0 <= at2 a d x a' d'.
Proof. unfold at2. destruct (beqb a' a && beqb d' d); lia. Qed.
Lemma at2_acc a b d x d' : b <> a -> at2 a d x b d' = 0.
Proof. intros N. unfold at2. apply beqb_neq in N. rewrite N. reflexivity. Qed.

Lemma move_spec s a b d x s' : move s a b d x = Some s' ->
  0 < x /\ x <= p_bal s a d /\ same_book s s' /\ p_supply s' = p_supply s /\ p_locked s' = p_locked s
  /\ forall a' d', p_bal s' a' d' = p_bal s a' d' - at2 a d x a' d' + at2 b d x a' d'.
Proof.
  unfold move. destruct ((0 <? x) && (x <=? p_bal s a d)) eqn:E; [|discriminate].
  apply andb_true_iff in E. destruct E as [E1 E2]. intros H. injection H as <-.
  split; [lia|]. split; [lia|]. split; [repeat split|]. split; [reflexivity|]. split; [reflexivity|].
  intros a' d'. cbn [p_bal set_bank]. rewrite !badd_at, at2_opp. lia.
Qed.

Lemma move0_spec s a b d x s' : move0 s a b d x = Some s' ->
  0 <= x /\ (x = 0 \/ x <= p_bal s a d) /\ same_book s s' /\ p_supply s' = p_supply s /\ p_locked s' = p_locked s
  /\ forall a' d', p_bal s' a' d' = p_bal s a' d' - at2 a d x a' d' + at2 b d x a' d'.
Proof.
  unfold move0. destruct (Z.eqb_spec x 0) as [->|N].
  - intros H. injection H as <-. split; [lia|]. split; [auto|]. split; [repeat split|]. split; [reflexivity|].
    split; [reflexivity|]. intros. rewrite !at2_zero. lia.
  - intros H. apply move_spec in H. destruct H as [A [B C]]. split; [lia|]. split; [auto|exact C].
Qed.

Lemma move0_ok s a b d x : 0 <= x -> x <= p_bal s a d -> exists s', move0 s a b d x = Some s'.
Proof.
  intros A B. unfold move0, move. destruct (Z.eqb_spec x 0); [eexists; reflexivity|].
  replace ((0 <? x) && (x <=? p_bal s a d)) with true by (symmetry; apply andb_true_iff; lia).
  eexists; reflexivity.
Qed.

Lemma pay_spec e s b d x s' : pay e s b d x = Some s' ->
  e_blocked e b = false /\
  0 <= x /\ (x = 0 \/ x <= p_bal s mod_acc d) /\ same_book s s' /\ p_supply s' = p_supply s /\ p_locked s' = p_locked s
  /\ forall a' d', p_bal s' a' d' = p_bal s a' d' - at2 mod_acc d x a' d' + at2 b d x a' d'.
Proof.
  unfold pay. destruct (e_blocked e b); [discriminate|]. intros H. split; [reflexivity|].
  apply move0_spec. exact H.
Qed.

Lemma pay_ok e s b d x : e_blocked e b = false -> 0 <= x -> x <= p_bal s mod_acc d ->
  exists s', pay e s b d x = Some s'.
Proof. intros A. unfold pay. rewrite A. apply move0_ok. Qed.

Lemma lock_add_at s h t x h' t' : p_locked (lock_add s h t x) h' t' = p_locked s h' t' + atl h t x h' t'.
Proof. unfold lock_add, atl. cbn [p_locked set_locked]. destruct ((h' =? h) && beqb t' t); lia. Qed.

Lemma mint_spec s d x :
  same_book s (mint s d x) /\ p_locked (mint s d x) = p_locked s
  /\ (forall d', p_supply (mint s d x) d' = p_supply s d' + at1 d x d')
  /\ (forall a' d', p_bal (mint s d x) a' d' = p_bal s a' d' + at2 mod_acc d x a' d').
Proof.
  split; [repeat split|]. split; [reflexivity|]. split; intros.
  - apply sadd_at.
  - apply badd_at.
Qed.

Lemma burn_spec s d x s' : burn s d x = Some s' ->
  x <= p_bal s mod_acc d /\ same_book s s' /\ p_locked s' = p_locked s
  /\ (forall d', p_supply s' d' = p_supply s d' - at1 d x d')
  /\ (forall a' d', p_bal s' a' d' = p_bal s a' d' - at2 mod_acc d x a' d').
Proof.
  unfold burn. destruct (x <=? p_bal s mod_acc d) eqn:E; [|discriminate]. intros H. injection H as <-.
  split; [lia|]. split; [repeat split|]. split; [reflexivity|]. split; intros; cbn [p_bal p_supply set_bank].
  - rewrite sadd_at, at1_opp. lia.
  - rewrite badd_at, at2_opp. lia.
Qed.

(* ---- queueing ------------------------------------------------------------------------------------- *)

Definition new_tx (e : env) (s : st) (h : Z) (sender dest token : bytes) (amount fee : Z) : tx :=
  mk_tx (p_txid s + 1) h sender dest token amount fee (e_eth e h + e_wait_tx e h).

Lemma send_spec e s h a dst d x fd f s' i :
  send e s h a dst d x fd f = Ok (s', i) ->
  exists token orig,
    e_by_denom e h d = Some (token, orig) /\ fd = ahelios /\ e_paused e h = false /\
    i = p_txid s + 1 /\ 0 < x /\ 0 <= f /\
    x <= p_bal s a d /\
    p_pool s' = (let t := new_tx e s h a dst token x f in t :: without h i (p_pool s)) /\
    p_index s' = iupd (h, token, f) (fun l => l ++ [i]) (p_index s) /\
    p_batches s' = p_batches s /\ p_txid s' = i /\ p_batchid s' = p_batchid s /\
    (forall d', p_supply s' d' = p_supply s d' - at1 d x d') /\
    (forall h' t', p_locked s' h' t' = p_locked s h' t' + (if (orig : bool) then atl h token x h' t' else 0)) /\
    (forall a' d', p_bal s' a' d' = p_bal s a' d' - at2 a d x a' d' - at2 a ahelios f a' d'
                                     + at2 mod_acc ahelios f a' d') /\
    (f = 0 \/ f <= p_bal s a ahelios - at2 a d x a ahelios).
Proof.
  unfold send. destruct (e_min_fee e h); [|discriminate].
  destruct (beqb fd ahelios) eqn:FD; cbn [negb]; [|discriminate]. apply beqb_spec in FD.
  destruct (f <? z); [discriminate|]. destruct (e_bad_dest e dst); [discriminate|].
  destruct (e_paused e h) eqn:PA; [discriminate|]. destruct (e_by_denom e h d) as [[token orig]|] eqn:D; [|discriminate].
  set (s1 := if orig then lock_add s h token x else s).
  assert (S1 : same_book s s1 /\ p_bal s1 = p_bal s /\ p_supply s1 = p_supply s
     /\ forall h' t', p_locked s1 h' t' = p_locked s h' t' + (if orig then atl h token x h' t' else 0)).
  { unfold s1. destruct orig.
    - split; [repeat split|]. split; [reflexivity|]. split; [reflexivity|]. intros. apply lock_add_at.
    - split; [repeat split|]. split; [reflexivity|]. split; [reflexivity|]. intros. lia. }
  clearbody s1. destruct S1 as [B1 [C1 [C2 C3]]].
  destruct (move s1 a mod_acc d x) as [s2|] eqn:M; cbn [ores rbind]; [|discriminate].
  apply move_spec in M. destruct M as [M1 [M2 [M3 [M4 [M5 M6]]]]].
  destruct (burn s2 d x) as [s3|] eqn:BU; cbn [ores rbind]; [|discriminate].
  apply burn_spec in BU. destruct BU as [U1 [U2 [U3 [U4 U5]]]].
  destruct (move0 s3 a mod_acc ahelios f) as [s4|] eqn:MF; cbn [ores rbind]; [|discriminate].
  apply move0_spec in MF. destruct MF as [F1 [F2 [F3 [F4 [F5 F6]]]]].
  pose proof (same_book_trans _ _ _ (same_book_trans _ _ _ (same_book_trans _ _ _ B1 M3) U2) F3) as SB.
  destruct SB as [Q1 [Q2 [Q3 [Q4 Q5]]]].
  intros H. apply f_equal with (f := fun r => match r with Ok p => Some p | _ => None end) in H.
  injection H as <- <-. exists token, orig.
  split; [reflexivity|]. split; [exact FD|]. split; [reflexivity|]. split; [rewrite Q4; reflexivity|].
  split; [exact M1|]. split; [exact F1|]. split; [rewrite <- C1; exact M2|].
  split. { unfold new_tx, index_append, pput, set_txid, set_index, set_pool, without.
           cbn [p_pool t_h t_id]. rewrite Q1, Q4. reflexivity. }
  split. { unfold index_append, pput, set_txid, set_index, set_pool. cbn [p_index]. rewrite Q2. reflexivity. }
  split; [exact Q3|]. split; [reflexivity|]. split; [exact Q5|].
  unfold index_append, pput, set_txid, set_index, set_pool. cbn [p_supply p_locked p_bal].
  split; [|split; [|split]].
  - intros d'. rewrite F4, U4, M4, C2. reflexivity.
  - intros h' t'. rewrite F5, U3, M5. apply C3.
  - intros a' d'. rewrite F6, U5, M6, C1. lia.
  - destruct F2 as [F2|F2]; [left; exact F2|right]. rewrite U5, M6, C1 in F2. lia.
Qed.

Lemma fresh_key s h i : Inv s -> p_txid s < i -> ~ In (h, i) (pkeys (p_pool s)).
Proof.
  intros I L H. apply in_map_iff in H. destruct H as [t [A B]]. apply (i_id _ I) in B.
  unfold tkey in A. apply pair_equal_spec in A. destruct A as [_ A]. lia.
Qed.

Lemma without_fresh h i l : ~ In (h, i) (pkeys l) -> without h i l = l.
Proof.
  unfold without, pkeys. induction l as [|x l IH]; [reflexivity|]. cbn [map filter]. intros N.
  destruct (is_entry h i x) eqn:E.
  - apply is_entry_spec in E. elim N. left. exact E.
  - cbn [negb]. rewrite IH; [reflexivity|]. intros I. apply N. right. exact I.
Qed.

Lemma send_inv e s h a dst d x fd f s' i :
  Inv s -> send e s h a dst d x fd f = Ok (s', i) -> Inv s'.
Proof.
  intros I H. apply send_spec in H.
  destruct H as (token & orig & _ & _ & _ & -> & X & F & _ & P & IX & B & T & BI & _).
  assert (N : ~ In (h, p_txid s + 1) (pkeys (p_pool s))) by (apply fresh_key; [exact I|lia]).
  cbn zeta in P. rewrite (without_fresh _ _ _ N) in P.
  pose proof (i_ok _ I) as K. constructor.
  - rewrite P, IX, B. set (t := new_tx e s h a dst token x f).
    change (h, token, f) with (t_h t, t_token t, t_fee t).
    change (p_txid s + 1) with (t_id t). apply okc_append. apply okc_new; [exact N|exact K].
  - rewrite B, BI. apply (i_nonce _ I).
  - rewrite P, T. intros t [<-|J]; [cbn; lia|]. apply (i_id _ I) in J. lia.
  - rewrite P. intros t [<-|J]; [cbn; lia|]. apply (i_pos _ I). exact J.
Qed.

(* ---- reading the index --------------------------------------------------------------------------------- *)

Lemma index_ids_in p ix i : In i (index_ids p ix) <-> exists k ids, In (k, ids) ix /\ p k = true /\ In i ids.
Proof.
  unfold index_ids. rewrite in_flat_map. split.
  - intros [[k ids] [A B]]. apply in_rev in A. apply filter_In in A. exists k, ids. cbn in *. intuition.
  - intros [k [ids [A [B C]]]]. exists (k, ids). split; [|exact C]. apply -> in_rev. apply filter_In. auto.
Qed.

Lemma entries_ok s h ids :
  NoDup (pkeys (p_pool s)) ->
  (forall i, In i ids -> exists t, In t (p_pool s) /\ tkey t = (h, i)) ->
  exists l, entries s h ids = Ok l /\ found s h ids = l /\ map tkey l = map (pair h) ids
            /\ (forall t, In t l -> In t (p_pool s)).
Proof.
  intros N. induction ids as [|i r IH]; intros H.
  - exists []. repeat split; auto. intros t [].
  - destruct IH as [l [A [B [C D]]]]; [intros j J; apply H; right; exact J|].
    destruct (H i (or_introl eq_refl)) as [t [T1 T2]].
    assert (G : pget s h i = Some t) by (apply find_entry; assumption).
    exists (t :: l). cbn [entries found]. rewrite G, A, B. cbn [rbind]. repeat split.
    + cbn [map]. rewrite C, T2. reflexivity.
    + intros u [<-|U]; auto.
Qed.

Lemma of_bridge_fh h k : of_bridge h k = true <-> fh k = h.
Proof. destruct k as [[a b] c]. unfold of_bridge, fh. cbn. apply Z.eqb_eq. Qed.

Lemma of_token_spec h t k : of_token h t k = true <-> exists f, k = (h, t, f).
Proof.
  destruct k as [[a b] c]. unfold of_token. rewrite andb_true_iff, Z.eqb_eq, beqb_spec. split.
  - intros [-> ->]. exists c. reflexivity.
  - intros [f E]. apply pair_equal_spec in E. destruct E as [E _]. apply pair_equal_spec in E. exact E.
Qed.

Lemma pool_txs_ok s h hand bs : okc (p_pool s) (p_index s) bs hand ->
  exists l, pool_txs s h = Ok l /\ map tkey l = map (pair h) (index_ids (of_bridge h) (p_index s))
            /\ (forall t, In t l -> In t (p_pool s)).
Proof.
  intros K. unfold pool_txs. destruct (entries_ok s h (index_ids (of_bridge h) (p_index s))) as [l [A [_ [C D]]]].
  - apply (o_nodup _ _ _ _ K).
  - intros i I. apply index_ids_in in I. destruct I as [k [ids [A [B C]]]].
    destruct (o_index _ _ _ _ K _ _ _ A C) as [t [T1 [T2 _]]]. exists t. split; [exact T1|].
    apply of_bridge_fh in B. rewrite T2, B. reflexivity.
  - exists l. auto.
Qed.

(* A pool entry is in the index exactly where its token and fee say. *)
Lemma waiting_iff pool ix bs hand t : okc pool ix bs hand -> In t pool ->
  (In (t_id t) (index_ids (of_bridge (t_h t)) ix) <-> In (t_id t) (iget (t_h t, t_token t, t_fee t) ix)).
Proof.
  intros K P. rewrite index_ids_in. split.
  - intros [k [ids [A [B C]]]]. apply of_bridge_fh in B.
    destruct (o_index _ _ _ _ K _ _ _ A C) as [u [U1 [U2 U3]]].
    assert (u = t).
    { eapply nodup_key_in; [apply (o_nodup _ _ _ _ K)|exact U1|exact P|]. rewrite U2, B. reflexivity. }
    subst u. rewrite <- U3. rewrite (iget_in _ _ _ (o_sorted _ _ _ _ K) A). exact C.
  - intros I. apply iget_some in I. destruct I as [ids [A B]]. eexists _, ids. split; [exact A|].
    split; [|exact B]. apply of_bridge_fh. reflexivity.
Qed.

(* ---- refunding ----------------------------------------------------------------------------------------- *)

(* What a refund does to coins, by how far it gets. *)
Inductive repaid (e : env) (s : st) (t : tx) (s' : st) : bool -> Prop :=
| rp_unlinked : e_by_token e (t_h t) (t_token t) = None -> same_coins s s' -> repaid e s t s' false
| rp_unbacked d : e_by_token e (t_h t) (t_token t) = Some (d, true) ->
    p_locked s (t_h t) (t_token t) < t_amount t -> same_coins s s' -> repaid e s t s' false
| rp_blocked d (orig : bool) : e_by_token e (t_h t) (t_token t) = Some (d, orig) ->
    e_blocked e (t_sender t) = true ->
    (forall d', p_supply s' d' = p_supply s d' + at1 d (t_amount t) d') ->
    (forall h k, p_locked s' h k = p_locked s h k - (if orig then atl (t_h t) (t_token t) (t_amount t) h k else 0)) ->
    (forall a k, p_bal s' a k = p_bal s a k + at2 mod_acc d (t_amount t) a k) -> repaid e s t s' false
| rp_paid d (orig : bool) fee : e_by_token e (t_h t) (t_token t) = Some (d, orig) ->
    (orig = true -> t_amount t <= p_locked s (t_h t) (t_token t)) ->
    e_blocked e (t_sender t) = false ->
    (forall d', p_supply s' d' = p_supply s d' + at1 d (t_amount t) d') ->
    (forall h k, p_locked s' h k = p_locked s h k - (if orig then atl (t_h t) (t_token t) (t_amount t) h k else 0)) ->
    (forall a k, p_bal s' a k = p_bal s a k + at2 (t_sender t) d (t_amount t) a k
                                 - at2 mod_acc ahelios fee a k + at2 (t_sender t) ahelios fee a k) ->
    (fee = t_fee t \/ (fee = 0 /\ p_bal s mod_acc ahelios < t_fee t)) ->
    fee <= p_bal s mod_acc ahelios + at2 (t_sender t) d (t_amount t) mod_acc ahelios -> repaid e s t s' true.

Definition took_out (s s' : st) (t : tx) : Prop :=
  p_pool s' = without (t_h t) (t_id t) (p_pool s)
  /\ p_index s' = iupd (t_h t, t_token t, t_fee t) (remove1 (t_id t)) (p_index s)
  /\ p_batches s' = p_batches s /\ p_txid s' = p_txid s /\ p_batchid s' = p_batchid s.

Lemma atl_opp h t x h' t' : atl h t (- x) h' t' = - atl h t x h' t'.
Proof. unfold atl. destruct ((h' =? h) && beqb t' t); lia. Qed.

Definition nonneg (s : st) : Prop := forall a d, 0 <= p_bal s a d.

Lemma refund_spec e s h i a : Inv s -> nonneg s ->
  match refund e s h i a with
  | Panic => False
  | Err => True
  | Ok (s', ok) => exists t, In t (p_pool s) /\ tkey t = (h, i) /\ a = t_sender t
                    /\ In i (iget (t_h t, t_token t, t_fee t) (p_index s))
                    /\ took_out s s' t /\ repaid e s t s' ok
  end.
Proof.
  intros IV NN. pose proof (i_ok _ IV) as K. unfold refund.
  destruct (pget s h i) as [t|] eqn:G; [|exact I]. apply pget_some in G. destruct G as [P KT].
  destruct (beqb a (t_sender t)) eqn:EA; cbn [negb]; [|exact I]. apply beqb_spec in EA. subst a.
  destruct (pool_txs_ok s (t_h t) _ _ K) as [l [L _]]. rewrite L. cbn [rbind].
  destruct (existsb (fun t' => t_id t' =? i) l); cbn [negb]; [|exact I].
  unfold index_remove. destruct (has i (iget (t_h t, t_token t, t_fee t) (p_index s))) eqn:HS; [|exact I].
  apply has_in in HS.
  assert (KH : t_h t = h /\ t_id t = i) by (unfold tkey in KT; apply pair_equal_spec in KT; exact KT).
  destruct KH as [KH KI].
  set (s2 := pdel (set_index s (iupd (t_h t, t_token t, t_fee t) (remove1 i) (p_index s))) (t_h t) i).
  assert (TO : took_out s s2 t).
  { unfold took_out, s2, pdel, set_index, set_pool, without. cbn. rewrite KI. repeat split. }
  assert (SC : same_coins s s2) by (repeat split).
  clearbody s2.
  destruct (e_by_token e (t_h t) (t_token t)) as [[d orig]|] eqn:TK.
  2:{ exists t. split; [exact P|]. split; [exact KT|]. split; [reflexivity|]. split; [exact HS|].
      split; [exact TO|]. apply rp_unlinked; assumption. }
  destruct SC as [SC1 [SC2 SC3]].
  destruct (orig && (p_locked s2 (t_h t) (t_token t) <? t_amount t)) eqn:OL.
  { apply andb_true_iff in OL. destruct OL as [-> OL]. rewrite SC3 in OL.
    exists t. split; [exact P|]. split; [exact KT|]. split; [reflexivity|]. split; [exact HS|].
    split; [exact TO|]. eapply rp_unbacked; [exact TK|lia|repeat split; assumption]. }
  set (s3 := if orig then lock_add s2 (t_h t) (t_token t) (- t_amount t) else s2).
  assert (S3 : same_book s2 s3 /\ p_bal s3 = p_bal s /\ p_supply s3 = p_supply s
     /\ forall h' t', p_locked s3 h' t' = p_locked s h' t' - (if orig then atl (t_h t) (t_token t) (t_amount t) h' t' else 0)).
  { unfold s3. destruct orig.
    - split; [repeat split|]. split; [exact SC1|]. split; [exact SC2|]. intros. rewrite lock_add_at, atl_opp, SC3. lia.
    - split; [repeat split|]. split; [exact SC1|]. split; [exact SC2|]. intros. rewrite SC3. lia. }
  clearbody s3. destruct S3 as [B3 [C1 [C2 C3]]].
  pose proof (mint_spec s3 d (t_amount t)) as M. set (s4 := mint s3 d (t_amount t)) in *.
  clearbody s4. destruct M as [M1 [M2 [M3 M4]]].
  assert (TB : forall x, same_book s2 x -> took_out s x t).
  { intros x [X1 [X2 [X3 [X4 X5]]]]. destruct TO as [T1 [T2 [T3 [T4 T5]]]]. unfold took_out. intuition congruence. }
  destruct (pay e s4 (t_sender t) d (t_amount t)) as [s5|] eqn:PY.
  2:{ exists t. split; [exact P|]. split; [exact KT|]. split; [reflexivity|]. split; [exact HS|].
      split; [apply TB; eapply same_book_trans; eassumption|].
      eapply rp_blocked; [exact TK| | | |].
      - destruct (e_blocked e (t_sender t)) eqn:EB; [reflexivity|].
        destruct (pay_ok e s4 (t_sender t) d (t_amount t) EB) as [z Z].
        + pose proof (i_pos _ IV _ P). lia.
        + rewrite M4, at2_same, C1. pose proof (NN mod_acc d). lia.
        + congruence.
      - intros d'. rewrite M3, C2. reflexivity.
      - intros h' k. rewrite M2. apply C3.
      - intros a' k. rewrite M4, C1. reflexivity. }
  apply pay_spec in PY. destruct PY as [Y0 [Y1 [_ [Y2 [Y3 [Y4 Y5]]]]]].
  pose proof (i_pos _ IV _ P) as [AP FP].
  assert (FIN : forall s6 fee, same_book s5 s6 -> p_supply s6 = p_supply s5 -> p_locked s6 = p_locked s5 ->
     (forall a' k, p_bal s6 a' k = p_bal s5 a' k - at2 mod_acc ahelios fee a' k + at2 (t_sender t) ahelios fee a' k) ->
     (fee = t_fee t \/ (fee = 0 /\ p_bal s mod_acc ahelios < t_fee t)) ->
     fee <= p_bal s mod_acc ahelios + at2 (t_sender t) d (t_amount t) mod_acc ahelios ->
     exists t0, In t0 (p_pool s) /\ tkey t0 = (h, i) /\ t_sender t = t_sender t0
                    /\ In i (iget (t_h t0, t_token t0, t_fee t0) (p_index s))
                    /\ took_out s s6 t0 /\ repaid e s t0 s6 true).
  { intros s6 fee Z1 Z2 Z3 Z4 Z5 Z6.
    exists t. split; [exact P|]. split; [exact KT|]. split; [reflexivity|]. split; [exact HS|].
    split; [apply TB; eapply same_book_trans; [|exact Z1]; eapply same_book_trans; [|exact Y2];
            eapply same_book_trans; eassumption|].
    eapply rp_paid with (fee := fee); [exact TK| |exact Y0| | | |exact Z5|exact Z6].
    - intros ->. cbn [andb] in OL. rewrite SC3 in OL. lia.
    - intros d'. rewrite Z2, Y3, M3, C2. reflexivity.
    - intros h' k. rewrite Z3, Y4, M2. apply C3.
    - intros a' k. rewrite Z4, Y5, M4, C1. lia. }
  destruct (pay e s5 (t_sender t) ahelios (t_fee t)) as [s6|] eqn:PF.
  - apply pay_spec in PF. destruct PF as [_ [_ [Z0 [Z1 [Z2 [Z3 Z4]]]]]].
    apply FIN with (fee := t_fee t); auto. pose proof (NN mod_acc ahelios).
    pose proof (at2_pos (t_sender t) d (t_amount t) mod_acc ahelios).
    destruct Z0 as [Z0|Z0]; [lia|]. rewrite Y5, M4, C1 in Z0. lia.
  - apply FIN with (fee := 0); auto.
    + repeat split.
    + intros a' k. rewrite !at2_zero. lia.
    + right. split; [reflexivity|].
      destruct (Z_lt_le_dec (p_bal s mod_acc ahelios) (t_fee t)) as [L1|L1]; [exact L1|exfalso].
      destruct (pay_ok e s5 (t_sender t) ahelios (t_fee t) Y0 FP) as [z Z]; [|congruence].
      rewrite Y5, M4, C1. pose proof (at2_pos (t_sender t) d (t_amount t) mod_acc ahelios). lia.
    + pose proof (NN mod_acc ahelios). pose proof (at2_pos (t_sender t) d (t_amount t) mod_acc ahelios). lia.
Qed.

Lemma took_out_inv s s' t : Inv s -> In t (p_pool s) -> In (t_id t) (iget (t_h t, t_token t, t_fee t) (p_index s)) ->
  took_out s s' t -> Inv s'.
Proof.
  intros I P W [T1 [T2 [T3 [T4 T5]]]]. pose proof (i_ok _ I) as K. constructor.
  - rewrite T1, T2, T3. apply okc_drop. eapply okc_take; [exact K|exact P|reflexivity|exact W].
  - rewrite T3, T5. apply (i_nonce _ I).
  - rewrite T1, T4. intros u U. apply without_in in U. apply (i_id _ I). apply U.
  - rewrite T1. intros u U. apply without_in in U. apply (i_pos _ I). apply U.
Qed.

Lemma at2_bound a d x a' d' (f : bytes -> bytes -> Z) : x <= f a d -> (forall a d, 0 <= f a d) ->
  at2 a d x a' d' <= f a' d'.
Proof.
  intros L N. unfold at2. destruct (beqb a' a && beqb d' d) eqn:E; [|apply N].
  apply andb_true_iff in E. rewrite !beqb_spec in E. destruct E as [-> ->]. exact L.
Qed.

Lemma repaid_nonneg e s t s' ok : nonneg s -> 0 < t_amount t -> 0 <= t_fee t ->
  repaid e s t s' ok -> nonneg s'.
Proof.
  intros N A F R. destruct R as [? [C _]|d ? ? [C _]|d o ? ? ? ? B|d o fee ? ? ? ? ? B FF FL]; intros a k.
  - rewrite C. apply N.
  - rewrite C. apply N.
  - rewrite B. pose proof (N a k). pose proof (at2_pos mod_acc d (t_amount t) a k). lia.
  - rewrite B. assert (G : 0 <= fee) by lia. pose proof (at2_pos (t_sender t) ahelios fee a k G).
    pose proof (at2_bound mod_acc ahelios fee a k (fun a k => p_bal s a k + at2 (t_sender t) d (t_amount t) a k)) as X.
    cbn beta in X. enough (0 <= p_bal s a k + at2 (t_sender t) d (t_amount t) a k - at2 mod_acc ahelios fee a k) by lia.
    enough (at2 mod_acc ahelios fee a k <= p_bal s a k + at2 (t_sender t) d (t_amount t) a k) by lia.
    apply X; [exact FL|]. intros a0 d0. pose proof (N a0 d0).
    pose proof (at2_pos (t_sender t) d (t_amount t) a0 d0). lia.
Qed.

(* One refund inside a clean-up. *)
Definition gave_back (e : env) (s s' : st) : Prop :=
  exists t ok, In t (p_pool s) /\ In (t_id t) (iget (t_h t, t_token t, t_fee t) (p_index s))
               /\ took_out s s' t /\ repaid e s t s' ok.

Inductive chain {A} (R : A -> A -> Prop) : A -> A -> Prop :=
| ch_nil x : chain R x x
| ch_cons x y z : R x y -> chain R y z -> chain R x z.

Lemma chain_inv {A} (R : A -> A -> Prop) (P : A -> Prop) :
  (forall x y, R x y -> P x -> P y) -> forall x y, chain R x y -> P x -> P y.
Proof. intros H x y C. induction C; auto. intros. apply IHC. eapply H; eassumption. Qed.

Lemma gave_back_inv e s s' : gave_back e s s' -> Inv s /\ nonneg s -> Inv s' /\ nonneg s'.
Proof.
  intros [t [ok [P [W [T R]]]]] [I N]. pose proof (i_pos _ I _ P) as [A B]. split.
  - eapply took_out_inv; eassumption.
  - eapply repaid_nonneg; eassumption.
Qed.

Lemma refund_all_chain e p l : forall s, Inv s -> nonneg s ->
  exists s', refund_all e s p l = Ok s' /\ chain (gave_back e) s s'.
Proof.
  induction l as [|t r IH]; intros s I N; cbn [refund_all].
  - exists s. split; [reflexivity|constructor].
  - destruct (p s t); [|apply IH; assumption]. unfold refund_kept.
    pose proof (refund_spec e s (t_h t) (t_id t) (t_sender t) I N) as R.
    destruct (refund e s (t_h t) (t_id t) (t_sender t)) as [[s1 ok]| |]; [| |contradiction].
    + destruct R as [u [P [K [_ [W [T R]]]]]].
      assert (G : gave_back e s s1).
      { exists u, ok. split; [exact P|]. split; [|split; assumption]. unfold tkey in K. apply pair_equal_spec in K.
        destruct K as [_ ->]. exact W. }
      destruct (gave_back_inv _ _ _ G (conj I N)) as [I1 N1].
      destruct (IH s1 I1 N1) as [s' [A B]]. exists s'. cbn [rbind]. split; [exact A|]. econstructor; eassumption.
    + cbn [rbind]. apply IH; assumption.
Qed.

(* ---- picking ------------------------------------------------------------------------------------------- *)

Lemma index_remove_spec s k i s' : index_remove s k i = Some s' ->
  In i (iget k (p_index s)) /\ s' = set_index s (iupd k (remove1 i) (p_index s)).
Proof.
  unfold index_remove. destruct (has i (iget k (p_index s))) eqn:E; [|discriminate]. apply has_in in E.
  intros H. injection H as <-. auto.
Qed.

Lemma remove1_keep i j l : In j l -> j <> i -> In j (remove1 i l).
Proof.
  induction l as [|k r IH]; [contradiction|]. cbn [remove1]. intros I N.
  destruct (Z.eqb_spec k i) as [->|E].
  - destruct I as [I|I]; [congruence|exact I].
  - destruct I as [I|I]; [left; exact I|right; auto].
Qed.

Lemma pick_spec h token l : forall s n hand s' sel,
  okc (p_pool s) (p_index s) (p_batches s) hand ->
  (forall t, In t l -> In t (p_pool s) /\ t_h t = h /\ In (t_id t) (iget (h, token, t_fee t) (p_index s))) ->
  NoDup (map t_id l) ->
  pick s h token l n = (s', sel) ->
  sel = firstn n l /\ p_pool s' = p_pool s /\ p_batches s' = p_batches s /\ p_txid s' = p_txid s
  /\ p_batchid s' = p_batchid s /\ same_coins s s'
  /\ okc (p_pool s') (p_index s') (p_batches s') (rev sel ++ hand)
  /\ (forall k, fh k <> h \/ snd (fst k) <> token -> iget k (p_index s') = iget k (p_index s)).
Proof.
  induction l as [|t r IH]; intros s n hand s' sel K W N.
  - cbn [pick]. intros H. apply pair_equal_spec in H. destruct H as [<- <-]. rewrite firstn_nil.
    repeat (split; [first [reflexivity|apply same_coins_refl|exact K]|]). intros; reflexivity.
  - destruct n as [|n]; cbn [pick].
    { intros H. apply pair_equal_spec in H. destruct H as [<- <-].
      repeat (split; [first [reflexivity|apply same_coins_refl|exact K]|]). intros; reflexivity. }
    destruct (W t (or_introl eq_refl)) as [P [TH I]].
    unfold index_remove. pose proof (proj2 (has_in _ _) I) as HI. rewrite HI.
    set (s1 := set_index s (iupd (h, token, t_fee t) (remove1 (t_id t)) (p_index s))).
    destruct (pick s1 h token r n) as [s2 sel2] eqn:PK. intros H. apply pair_equal_spec in H.
    destruct H as [<- <-]. cbn [map] in N. inversion N as [|? ? NI N']; subst.
    assert (K1 : okc (p_pool s1) (p_index s1) (p_batches s1) (t :: hand)).
    { eapply okc_take; [exact K|exact P|reflexivity|exact I]. }
    apply (IH s1 n (t :: hand)) in PK; [|exact K1| |exact N'].
    + destruct PK as (A & B & C & D & E & F & G & J). cbn [firstn rev]. rewrite A at 1.
      rewrite <- app_assoc. cbn [app].
      split; [reflexivity|]. split; [exact B|]. split; [exact C|]. split; [exact D|]. split; [exact E|].
      split; [exact F|]. split; [exact G|].
      intros k KN. rewrite (J k KN). unfold s1. cbn [p_index set_index].
      rewrite iupd_iget by apply K. destruct (fkey_cmp k (t_h t, token, t_fee t)) eqn:X; try reflexivity.
      apply fkey_cmp_eq in X. subst k. cbn in KN. destruct KN as [Y|Y]; congruence.
    + intros u U. destruct (W u (or_intror U)) as [PU [UH IU]]. split; [exact PU|]. split; [exact UH|].
      unfold s1. cbn [p_index set_index]. rewrite iupd_iget by apply K.
      destruct (fkey_cmp (t_h t, token, t_fee u) (t_h t, token, t_fee t)) eqn:X; try exact IU.
      apply fkey_cmp_eq in X. rewrite <- X. apply remove1_keep; [exact IU|].
      intros Y. apply NI. rewrite <- Y. apply in_map. exact U.
Qed.

Lemma found_app s h a b : found s h (a ++ b) = found s h a ++ found s h b.
Proof.
  induction a as [|i r IH]; [reflexivity|]. cbn [app found]. destruct (pget s h i); rewrite IH; reflexivity.
Qed.

Lemma cz_flat_rev h (l : list (fkey * list Z)) q :
  cz q (map (pair h) (flat_map snd (rev l))) = cz q (map (pair h) (flat_map snd l)).
Proof.
  induction l as [|a l IH]; [reflexivity|]. cbn [rev]. rewrite flat_map_app, map_app, cz_app, IH.
  cbn [flat_map]. rewrite app_nil_r, map_app, cz_app. lia.
Qed.

Lemma cz_index_ids h p ix q : (forall k, p k = true -> fh k = h) ->
  cz q (map (pair h) (index_ids p ix)) <= cz q (ikeys ix).
Proof.
  intros P. unfold index_ids. rewrite cz_flat_rev. induction ix as [|[k l] r IH]; [cbn; lia|].
  cbn [filter fst]. rewrite ikeys_cons, cz_app. destruct (p k) eqn:E.
  - cbn [flat_map snd]. rewrite map_app, cz_app. unfold tag. rewrite (P _ E). lia.
  - pose proof (cz_pos q (tag k l)). lia.
Qed.

Lemma ikeys_le pool ix bs hand q : okc pool ix bs hand -> cz q (ikeys ix) <= 1.
Proof.
  intros K. pose proof (o_count _ _ _ _ K q). pose proof (proj1 (cz_nodup _) (o_nodup _ _ _ _ K) q).
  pose proof (cz_pos q (bkeys bs)). pose proof (cz_pos q (pkeys hand)). lia.
Qed.

Lemma nodup_pair {A} (h : A) (l : list Z) : NoDup (map (pair h) l) -> NoDup l.
Proof. apply NoDup_map_inv. Qed.

Lemma token_txs_spec s h token hand : okc (p_pool s) (p_index s) (p_batches s) hand ->
  NoDup (map t_id (token_txs s h token))
  /\ (forall t, In t (token_txs s h token) <->
        In t (p_pool s) /\ t_h t = h /\ t_token t = token
        /\ In (t_id t) (iget (h, token, t_fee t) (p_index s))).
Proof.
  intros K. unfold token_txs. set (ids := index_ids (of_token h token) (p_index s)).
  destruct (entries_ok s h ids (o_nodup _ _ _ _ K)) as [l [_ [B [C D]]]].
  { intros i I. apply index_ids_in in I. destruct I as [k [l [A [P I]]]].
    destruct (o_index _ _ _ _ K _ _ _ A I) as [t [T1 [T2 _]]]. exists t. split; [exact T1|].
    apply of_token_spec in P. destruct P as [f ->]. exact T2. }
  rewrite B.
  assert (NI : NoDup (map (pair h) ids)).
  { apply cz_nodup. intros q. pose proof (cz_index_ids h (of_token h token) (p_index s) q) as X.
    pose proof (ikeys_le _ _ _ _ q K). unfold ids. enough (cz q (map (pair h) (index_ids (of_token h token) (p_index s))) <= cz q (ikeys (p_index s))) by lia.
    apply X. intros k E. apply of_token_spec in E. destruct E as [f ->]. reflexivity. }
  assert (MI : map t_id l = ids).
  { pose proof (f_equal (map snd) C) as E. rewrite !map_map in E. cbn [tkey snd] in E.
    rewrite map_id in E. exact E. }
  split; [rewrite MI; apply nodup_pair with (h := h); exact NI|].
  intros t. split.
  - intros I. assert (P : In t (p_pool s)) by (apply D; exact I).
    assert (X : In (tkey t) (map (pair h) ids)) by (rewrite <- C; apply in_map; exact I).
    apply in_map_iff in X. destruct X as [i [E X]]. unfold tkey in E. apply pair_equal_spec in E.
    destruct E as [E1 E2]. subst i. unfold ids in X. apply index_ids_in in X.
    destruct X as [k [l' [A [O J]]]]. apply of_token_spec in O. destruct O as [f ->].
    destruct (o_index _ _ _ _ K _ _ _ A J) as [u [U1 [U2 U3]]].
    assert (u = t).
    { eapply nodup_key_in; [apply (o_nodup _ _ _ _ K)|exact U1|exact P|]. rewrite U2. unfold tkey, fh. cbn. congruence. }
    subst u. apply pair_equal_spec in U3. destruct U3 as [U3 UF]. apply pair_equal_spec in U3. destruct U3 as [UH UT].
    split; [exact P|]. split; [congruence|]. split; [congruence|].
    rewrite <- UF. rewrite (iget_in _ _ _ (o_sorted _ _ _ _ K) A). exact J.
  - intros [P [TH [TT I]]]. apply iget_some in I. destruct I as [l' [A J]].
    assert (X : In (t_id t) ids).
    { apply index_ids_in. exists (h, token, t_fee t), l'. split; [exact A|]. split; [|exact J].
      apply of_token_spec. exists (t_fee t). reflexivity. }
    assert (Y : In (tkey t) (map tkey l)).
    { rewrite C. apply in_map_iff. exists (t_id t). split; [unfold tkey; congruence|exact X]. }
    apply in_map_iff in Y. destruct Y as [u [E U]].
    assert (u = t).
    { eapply nodup_key_in; [apply (o_nodup _ _ _ _ K)|apply D; exact U|exact P|exact E]. }
    subst u. exact U.
Qed.

(* ---- best-paying first ------------------------------------------------------------------------------------ *)

Definition by_fee (t u : tx) : Prop := t_fee u <= t_fee t.

Lemma ss_app {A} (R : A -> A -> Prop) l m :
  StronglySorted R l -> StronglySorted R m -> (forall a b, In a l -> In b m -> R a b) -> StronglySorted R (l ++ m).
Proof.
  induction l as [|x l IH]; intros SL SM H; [exact SM|]. inversion SL as [|? ? S F]; subst. cbn [app]. constructor.
  - apply IH; auto. intros a b Ia Ib. apply H; [right; exact Ia|exact Ib].
  - apply Forall_forall. intros b B. apply in_app_iff in B. destruct B as [B|B].
    + rewrite Forall_forall in F. apply F. exact B.
    + apply H; [left; reflexivity|exact B].
Qed.

Lemma ss_const (l : list tx) f : (forall t, In t l -> t_fee t = f) -> StronglySorted by_fee l.
Proof.
  induction l as [|t l IH]; intros H; constructor.
  - apply IH. intros u U. apply H. right. exact U.
  - apply Forall_forall. intros u U. unfold by_fee. rewrite (H t), (H u); [lia|right; exact U|left; reflexivity].
Qed.

Lemma ss_filter {A} (R : A -> A -> Prop) p l : StronglySorted R l -> StronglySorted R (filter p l).
Proof.
  induction 1 as [|x l S IH F]; [constructor|]. cbn [filter]. destruct (p x); [|exact IH].
  constructor; [exact IH|]. rewrite Forall_forall in *. intros y Y. apply filter_In in Y. apply F. apply Y.
Qed.

Lemma ss_rev {A} (R : A -> A -> Prop) l : StronglySorted R l -> StronglySorted (fun a b => R b a) (rev l).
Proof.
  induction 1 as [|x l S IH F]; [constructor|]. cbn [rev]. apply ss_app; [exact IH|repeat constructor|].
  intros a b Ia [<-|[]]. apply in_rev in Ia. rewrite Forall_forall in F. apply F. exact Ia.
Qed.

Lemma ss_firstn_rest l n t u : StronglySorted by_fee l -> In t (firstn n l) -> In u (skipn n l) -> t_fee u <= t_fee t.
Proof.
  revert n. induction l as [|x l IH]; intros n S; [rewrite firstn_nil; contradiction|].
  destruct n as [|n]; [contradiction|]. cbn [firstn skipn]. inversion S as [|? ? S' F]; subst.
  intros [<-|T] U; [|eapply IH; eassumption].
  rewrite Forall_forall in F. apply F. rewrite <- (firstn_skipn n l). apply in_app_iff. right. exact U.
Qed.

Lemma ss_firstn {A} (R : A -> A -> Prop) l n : StronglySorted R l -> StronglySorted R (firstn n l).
Proof.
  intros S. revert n. induction S as [|x l S IH F]; intros [|n]; cbn [firstn]; try constructor; auto.
  rewrite Forall_forall in *. intros y Y. apply F. rewrite <- (firstn_skipn n l). apply in_app_iff. left. exact Y.
Qed.

Lemma found_in s h ids t : In t (found s h ids) -> exists i, In i ids /\ pget s h i = Some t.
Proof.
  induction ids as [|i r IH]; [contradiction|]. cbn [found]. destruct (pget s h i) as [u|] eqn:G.
  - intros [<-|I]; [exists i; split; [left; reflexivity|exact G]|].
    destruct (IH I) as [j [A B]]. exists j. split; [right; exact A|exact B].
  - intros I. destruct (IH I) as [j [A B]]. exists j. split; [right; exact A|exact B].
Qed.

Lemma token_txs_sorted s h token hand : okc (p_pool s) (p_index s) (p_batches s) hand ->
  StronglySorted by_fee (token_txs s h token).
Proof.
  intros K. unfold token_txs, index_ids.
  set (gs := rev (filter (fun e => of_token h token (fst e)) (p_index s))).
  assert (S : StronglySorted (fun a b => flt (fst b) (fst a)) gs).
  { unfold gs. apply (ss_rev (fun a b => flt (fst a) (fst b))). apply ss_filter. apply (o_sorted _ _ _ _ K). }
  assert (G : forall k ids, In (k, ids) gs -> In (k, ids) (p_index s) /\ exists f, k = (h, token, f)).
  { intros k ids I. unfold gs in I. apply in_rev in I. apply filter_In in I. cbn in I. destruct I as [I O].
    split; [exact I|]. apply of_token_spec. exact O. }
  clearbody gs.
  assert (FE : forall f ids t, In ((h, token, f), ids) gs -> In t (found s h ids) -> t_fee t = f).
  { intros f ids t I T. apply found_in in T. destruct T as [i [J Q]]. apply pget_some in Q. destruct Q as [Q1 Q2].
    destruct (G _ _ I) as [I' _]. destruct (o_index _ _ _ _ K _ _ _ I' J) as [u [U1 [U2 U3]]].
    assert (u = t).
    { eapply nodup_key_in; [apply (o_nodup _ _ _ _ K)|exact U1|exact Q1|]. rewrite U2, Q2. reflexivity. }
    subst u. apply pair_equal_spec in U3. destruct U3 as [_ U3]. congruence. }
  induction gs as [|[k ids] r IH]; [constructor|]. inversion S as [|? ? S' F]; subst. cbn [flat_map snd].
  rewrite found_app. destruct (G k ids (or_introl eq_refl)) as [_ [f ->]].
  apply ss_app.
  - apply ss_const with (f := f). intros t T. eapply FE; [left; reflexivity|exact T].
  - apply IH; [exact S'|intros; apply G; right; assumption|intros; eapply FE; [right; eassumption|assumption]].
  - intros a b A B. unfold by_fee. rewrite (FE f ids a (or_introl eq_refl) A).
    apply found_in in B. destruct B as [i [J Q]]. apply in_flat_map in J. destruct J as [[k' ids'] [J1 J2]].
    cbn in J2. destruct (G k' ids' (or_intror J1)) as [_ [f' ->]].
    rewrite (FE f' ids' b (or_intror J1)).
    + rewrite Forall_forall in F. specialize (F _ J1). cbn in F. unfold flt, fkey_cmp in F.
      rewrite Z.compare_refl, bcmp_refl in F. rewrite Z.compare_lt_iff in F.
      lia.
    + clear -J2 Q. induction ids' as [|j m IHm]; [contradiction|]. cbn [found]. destruct J2 as [->|J2].
      * rewrite Q. left. reflexivity.
      * destruct (pget s h j); [right|]; apply IHm; exact J2.
Qed.

(* ---- building ------------------------------------------------------------------------------------------------ *)

Lemma fresh_batch s h token n : Inv s -> p_batchid s h < n ->
  forall x, In x (p_batches s) -> bkey x <> (h, n, token).
Proof.
  intros I L x X E. apply (i_nonce _ I) in X. unfold bkey in E. apply pair_equal_spec in E. destruct E as [E _].
  apply pair_equal_spec in E. destruct E as [E1 E2]. rewrite E1, E2 in X. lia.
Qed.

Definition new_batch (e : env) (s : st) (h : Z) (token : bytes) (sel : list tx) : batch :=
  mk_batch (p_batchid s h + 1) h token sel (e_eth e h + e_wait_batch e h) (e_block e).

Lemma store_new_inv e s1 s h token sel s' b :
  Inv s -> p_pool s1 = p_pool s -> p_batches s1 = p_batches s -> p_txid s1 = p_txid s -> p_batchid s1 = p_batchid s ->
  okc (p_pool s1) (p_index s1) (p_batches s1) sel ->
  (forall t, In t sel -> t_h t = h /\ t_token t = token) ->
  store_new e s1 h token sel = (s', b) ->
  b = new_batch e s h token sel /\ Inv s' /\ p_pool s' = p_pool s /\ p_index s' = p_index s1
  /\ p_batches s' = binsert b (p_batches s)
  /\ (forall c, In c (p_batches s') <-> c = b \/ In c (p_batches s)) /\ same_coins s1 s'
  /\ p_txid s' = p_txid s
  /\ (forall h', p_batchid s' h' = if h' =? h then p_batchid s h + 1 else p_batchid s h').
Proof.
  intros I P B T BI K W H. unfold store_new in H. apply pair_equal_spec in H. destruct H as [H1 H2].
  rewrite BI in *. assert (EB : b = new_batch e s h token sel) by (rewrite <- H2; reflexivity).
  subst s'. rewrite H2. clear H2.
  assert (FR : forall x, In x (p_batches s) -> bkey x <> bkey b).
  { intros x X. subst b. apply (fresh_batch s h token); [exact I|cbn; lia|exact X]. }
  split; [exact EB|].
  assert (NB : p_batches (bput (set_batchid s1 h (p_batchid s h + 1)) b) = binsert b (p_batches s)).
  { unfold bput, set_batches, set_batchid. cbn [p_batches]. rewrite B. reflexivity. }
  assert (NI : forall h', p_batchid (bput (set_batchid s1 h (p_batchid s h + 1)) b) h'
               = if h' =? h then p_batchid s h + 1 else p_batchid s h').
  { intros h'. unfold bput, set_batches, set_batchid. cbn [p_batchid]. rewrite BI. reflexivity. }
  split; [|split; [exact P|]; split; [reflexivity|]; split; [exact NB|]; split; [|split; [repeat split|]; split; [exact T|exact NI]]].
  - constructor.
    + rewrite NB. unfold bput, set_batches, set_batchid. cbn [p_pool p_index].
      rewrite <- B. apply okc_store; [rewrite B; exact FR| |].
      * subst b. exact W.
      * subst b. exact K.
    + intros c C. rewrite NB in C. apply (binsert_in _ _ _ FR) in C. rewrite NI. destruct C as [->|C].
      * subst b. cbn [new_batch b_nonce b_h]. rewrite Z.eqb_refl. lia.
      * apply (i_nonce _ I) in C. destruct (Z.eqb_spec (b_h c) h) as [E|E]; [rewrite E in C; lia|exact C].
    + intros t X. change (t_id t <= p_txid s1). rewrite T. apply (i_id _ I). rewrite <- P. exact X.
    + intros t X. apply (i_pos _ I). rewrite <- P. exact X.
  - intros c. rewrite NB. apply (binsert_in _ _ _ FR).
Qed.

Lemma build_spec e s h token s' b : Inv s -> build e s h token = Ok (s', b) ->
  b = new_batch e s h token (firstn batch_size (token_txs s h token)) /\ b_txs b <> [] /\
  Inv s' /\ p_pool s' = p_pool s /\ p_batches s' = binsert b (p_batches s)
  /\ (forall c, In c (p_batches s') <-> c = b \/ In c (p_batches s)) /\ same_coins s s'
  /\ p_txid s' = p_txid s
  /\ (forall h', p_batchid s' h' = if h' =? h then p_batchid s h + 1 else p_batchid s h')
  /\ (forall k, fh k <> h \/ snd (fst k) <> token -> iget k (p_index s') = iget k (p_index s)).
Proof.
  intros I H. unfold build in H.
  match type of H with (if ?c then _ else _) = _ => destruct c; [discriminate|] end.
  destruct (pick s h token (token_txs s h token) batch_size) as [s1 sel] eqn:PK.
  pose proof (i_ok _ I) as K. destruct (token_txs_spec s h token _ K) as [N W].
  apply (pick_spec h token _ s batch_size []) in PK; [|exact K| |exact N].
  - destruct PK as (A & B & C & D & E & F & G & J). rewrite app_nil_r in G. apply okc_rev_hand in G.
    assert (HS : Ok (store_new e s1 h token sel) = Ok (s', b) /\ sel <> []).
    { destruct sel; [discriminate|]. split; [exact H|discriminate]. }
    destruct HS as [HS NE]. apply f_equal with (f := fun r => match r with Ok p => p | _ => (s, b) end) in HS.
    apply (store_new_inv e s1 s h token sel s' b I B C D E G) in HS.
    + destruct HS as (R1 & R2 & R3 & R4 & R5 & R6 & R7 & R8 & R9). rewrite A in R1.
      split; [exact R1|]. split; [rewrite R1; cbn [new_batch b_txs]; rewrite <- A; exact NE|].
      split; [exact R2|]. split; [exact R3|]. split; [exact R5|]. split; [exact R6|].
      split; [eapply same_coins_trans; eassumption|]. split; [exact R8|]. split; [exact R9|].
      intros k KK. rewrite R4. apply J. exact KK.
    + rewrite A. intros t T. assert (X : In t (token_txs s h token)).
      { rewrite <- (firstn_skipn batch_size (token_txs s h token)). apply in_app_iff. left. exact T. }
      apply W in X. split; apply X.
  - intros t T. apply W in T. split; [apply T|]. split; apply T.
Qed.

Lemma pick_ids_spec h token ids : forall s n hand s' sel,
  okc (p_pool s) (p_index s) (p_batches s) hand ->
  pick_ids s h token ids n = Ok (s', sel) ->
  p_pool s' = p_pool s /\ p_batches s' = p_batches s /\ p_txid s' = p_txid s
  /\ p_batchid s' = p_batchid s /\ same_coins s s'
  /\ okc (p_pool s') (p_index s') (p_batches s') (rev sel ++ hand)
  /\ map t_id sel = firstn n ids
  /\ (forall t, In t sel -> In t (p_pool s) /\ t_h t = h /\ t_token t = token).
Proof.
  induction ids as [|i r IH]; intros s n hand s' sel K.
  - cbn [pick_ids]. intros H. injection H as <- <-. rewrite firstn_nil.
    repeat (split; [first [reflexivity|apply same_coins_refl|exact K]|]). intros t [].
  - destruct n as [|n]; cbn [pick_ids].
    { intros H. injection H as <- <-.
      repeat (split; [first [reflexivity|apply same_coins_refl|exact K]|]). intros t []. }
    destruct (pget s h i) as [t|] eqn:G; [|discriminate]. apply pget_some in G. destruct G as [P KT].
    destruct (index_remove s (h, token, t_fee t) i) as [s1|] eqn:R; [|discriminate].
    apply index_remove_spec in R. destruct R as [I ->].
    unfold tkey in KT. apply pair_equal_spec in KT. destruct KT as [TH TI]. subst i.
    destruct (okc_take _ _ _ _ t (h, token, t_fee t) K P (eq_sym TH) I) as [KE K1].
    set (s1 := set_index s (iupd (h, token, t_fee t) (remove1 (t_id t)) (p_index s))) in *.
    destruct (pick_ids s1 h token r n) as [[s2 sel2]| |] eqn:PK; cbn [rbind]; try discriminate.
    intros H. injection H as <- <-.
    apply (IH s1 n (t :: hand)) in PK; [|exact K1].
    destruct PK as (A & B & C & D & E & F & G & J). cbn [rev firstn map]. rewrite <- app_assoc. cbn [app].
    split; [exact A|]. split; [exact B|]. split; [exact C|]. split; [exact D|]. split; [exact E|].
    split; [exact F|]. split; [rewrite G; reflexivity|].
    intros u [<-|U]; [|exact (J u U)]. split; [exact P|]. split; [exact TH|].
    apply pair_equal_spec in KE. destruct KE as [KE _]. apply pair_equal_spec in KE. symmetry. apply KE.
Qed.

Lemma request_ids_spec e s h d ids s' b : Inv s -> request_ids e s h d ids = Ok (s', b) ->
  exists token orig, e_by_denom e h d = Some (token, orig) /\
  b = new_batch e s h token (b_txs b) /\ b_txs b <> [] /\ map t_id (b_txs b) = firstn batch_size ids /\
  (forall t, In t (b_txs b) -> In t (p_pool s) /\ t_h t = h /\ t_token t = token) /\
  Inv s' /\ p_pool s' = p_pool s
  /\ (forall c, In c (p_batches s') <-> c = b \/ In c (p_batches s)) /\ same_coins s s'
  /\ p_txid s' = p_txid s
  /\ (forall h', p_batchid s' h' = if h' =? h then p_batchid s h + 1 else p_batchid s h').
Proof.
  intros I H. unfold request_ids in H. destruct (e_by_denom e h d) as [[token orig]|]; [|discriminate].
  destruct (pick_ids s h token ids batch_size) as [[s1 sel]| |] eqn:PK; cbn [rbind] in H; try discriminate.
  exists token, orig. split; [reflexivity|].
  apply (pick_ids_spec h token ids s batch_size []) in PK; [|apply (i_ok _ I)].
  destruct PK as (A & B & C & D & E & F & G & J). rewrite app_nil_r in F. apply okc_rev_hand in F.
  assert (HS : Ok (store_new e s1 h token sel) = Ok (s', b) /\ sel <> []).
  { destruct sel; [discriminate|]. split; [exact H|discriminate]. }
  destruct HS as [HS NE]. apply f_equal with (f := fun r => match r with Ok p => p | _ => (s, b) end) in HS.
  apply (store_new_inv e s1 s h token sel s' b I A B C D F) in HS.
  - destruct HS as (R1 & R2 & R3 & R4 & R5 & R6 & R7 & R8 & R9).
    assert (X : b_txs b = sel) by (rewrite R1; reflexivity). rewrite X.
    split; [exact R1|]. split; [exact NE|]. split; [exact G|]. split; [exact J|].
    split; [exact R2|]. split; [exact R3|]. split; [exact R6|].
    split; [eapply same_coins_trans; eassumption|]. split; [exact R8|exact R9].
  - intros t T. apply J in T. split; apply T.
Qed.

(* ---- cancelling batches ------------------------------------------------------------------------------------------ *)

Lemma put_back_frame h token l : forall s,
  p_pool (put_back s h token l) = p_pool s /\ p_batches (put_back s h token l) = p_batches s
  /\ p_txid (put_back s h token l) = p_txid s /\ p_batchid (put_back s h token l) = p_batchid s
  /\ same_coins s (put_back s h token l).
Proof.
  induction l as [|t r IH]; intros s; cbn [put_back]; [repeat split|].
  destruct (IH (index_prepend s (h, token, t_fee t) (t_id t))) as (A & B & C & D & E).
  rewrite A, B, C, D. repeat (split; [reflexivity|]). eapply same_coins_trans; [|exact E]. repeat split.
Qed.

Lemma put_back_okc h token l : forall s pool bs hand,
  okc pool (p_index s) bs (l ++ hand) -> (forall t, In t l -> t_h t = h /\ t_token t = token) ->
  okc pool (p_index (put_back s h token l)) bs hand.
Proof.
  induction l as [|t r IH]; intros s pool bs hand K W; cbn [put_back app] in *; [exact K|].
  apply IH; [|intros u U; apply W; right; exact U].
  destruct (W t (or_introl eq_refl)) as [<- <-]. apply okc_prepend. exact K.
Qed.

Lemma filter_comm {A} (p q : A -> bool) l : filter p (filter q l) = filter q (filter p l).
Proof.
  induction l as [|x l IH]; [reflexivity|]. cbn [filter]. destruct (q x) eqn:Q, (p x) eqn:P; cbn [filter]; rewrite ?Q, ?P, IH; reflexivity.
Qed.

Lemma cancel_batch_okc s c (p : batch -> bool) hand s' :
  NoDup (map bkey (p_batches s)) ->
  okc (p_pool s) (p_index s) (filter p (p_batches s)) hand ->
  (forall x, bkey x = bkey c -> p x = true) ->
  cancel_batch s (b_h c) (b_nonce c) (b_token c) = Some s' ->
  NoDup (map bkey (p_batches s')) /\
  okc (p_pool s') (p_index s') (filter p (p_batches s')) hand /\
  p_pool s' = p_pool s /\ p_batches s' = bwithout (b_h c) (b_nonce c) (b_token c) (p_batches s)
  /\ p_txid s' = p_txid s /\ p_batchid s' = p_batchid s /\ same_coins s s'.
Proof.
  intros N K PC H. unfold cancel_batch in H.
  destruct (bget s (b_h c) (b_nonce c) (b_token c)) as [b|] eqn:G; [|discriminate]. apply bget_some in G.
  destruct G as [IB KB]. assert (KB' : bkey b = bkey c) by exact KB.
  injection H as <-.
  destruct (put_back_frame (b_h c) (b_token c) (b_txs b) s) as (A & B & C & D & E).
  assert (EQ : b_h b = b_h c /\ b_nonce b = b_nonce c /\ b_token b = b_token c).
  { unfold bkey in KB'. apply pair_equal_spec in KB'. destruct KB' as [X ->]. apply pair_equal_spec in X.
    destruct X as [-> ->]. auto. }
  destruct EQ as [EH [EN ET]].
  set (sp := put_back s (b_h c) (b_token c) (b_txs b)) in *.
  assert (NB : p_batches (bdel sp (b_h b) (b_nonce b) (b_token b)) = bwithout (b_h c) (b_nonce c) (b_token c) (p_batches s)).
  { unfold bdel, set_batches. cbn [p_batches]. rewrite B, EH, EN, ET. reflexivity. }
  assert (IF : In b (filter p (p_batches s))) by (apply filter_In; split; [exact IB|apply PC; exact KB']).
  split; [rewrite NB; apply bwithout_nodup; exact N|]. split; [|].
  - rewrite NB. unfold bdel, set_batches. cbn [p_pool p_index]. rewrite A.
    unfold bwithout. rewrite filter_comm.
    pose proof (okc_open _ _ _ _ b IF K) as K1. rewrite EH, EN, ET in K1.
    unfold sp. apply put_back_okc; [exact K1|].
    intros t T. destruct (o_batch _ _ _ _ K b t IF T) as [_ [X Y]]. rewrite EH in X. rewrite ET in Y. auto.
  - split; [exact A|]. split; [exact NB|]. split; [exact C|]. split; [exact D|]. exact E.
Qed.

Lemma cancel_batches_okc (p : batch -> bool) l : forall s hand,
  NoDup (map bkey (p_batches s)) ->
  okc (p_pool s) (p_index s) (filter p (p_batches s)) hand ->
  (forall c x, In c l -> bkey x = bkey c -> p x = true) ->
  NoDup (map bkey (p_batches (cancel_batches s l))) /\
  okc (p_pool (cancel_batches s l)) (p_index (cancel_batches s l)) (filter p (p_batches (cancel_batches s l))) hand /\
  p_pool (cancel_batches s l) = p_pool s /\ p_txid (cancel_batches s l) = p_txid s
  /\ p_batchid (cancel_batches s l) = p_batchid s /\ same_coins s (cancel_batches s l)
  /\ (forall b, In b (p_batches (cancel_batches s l)) <->
         In b (p_batches s) /\ forall c, In c l -> bkey b <> bkey c).
Proof.
  induction l as [|c r IH]; intros s hand N K W; cbn [cancel_batches].
  - repeat (split; [first [assumption|reflexivity|apply same_coins_refl]|]). intros b. split.
    + intros I. split; [exact I|]. intros c [].
    + intros [I _]. exact I.
  - assert (W' : forall c0 x, In c0 r -> bkey x = bkey c0 -> p x = true).
    { intros c0 x I E. apply (W c0 x (or_intror I) E). }
    destruct (cancel_batch s (b_h c) (b_nonce c) (b_token c)) as [s1|] eqn:CB.
    + assert (CB' := CB). apply (cancel_batch_okc s c p hand) in CB'; [|exact N|exact K|intros x E; apply (W c x (or_introl eq_refl) E)].
      destruct CB' as (A & B & C & D & E & F & G).
      destruct (IH s1 hand A B W') as (A2 & B2 & C2 & D2 & E2 & F2 & G2).
      split; [exact A2|]. split; [exact B2|]. split; [congruence|]. split; [congruence|]. split; [congruence|].
      split; [eapply same_coins_trans; eassumption|].
      intros b. rewrite G2, D, bwithout_in. split.
      * intros [[X Y] Z]. split; [exact X|]. intros c0 [<-|I]; [exact Y|apply Z; exact I].
      * intros [X Y]. split; [split; [exact X|]|].
        -- apply (Y c (or_introl eq_refl)).
        -- intros c0 I. apply Y. right. exact I.
    + destruct (IH s hand N K W') as (A2 & B2 & C2 & D2 & E2 & F2 & G2).
      split; [exact A2|]. split; [exact B2|]. split; [exact C2|]. split; [exact D2|]. split; [exact E2|].
      split; [exact F2|]. intros b. rewrite G2. split.
      * intros [X Z]. split; [exact X|]. intros c0 [<-|I]; [|apply Z; exact I]. intros Y.
        unfold cancel_batch in CB. unfold bget in CB.
        rewrite (find_batch (p_batches s) (b_h c) (b_nonce c) (b_token c) b N X Y) in CB. discriminate.
      * intros [X Y]. split; [exact X|]. intros c0 I. apply Y. right. exact I.
Qed.

Lemma filter_true {A} (l : list A) : filter (fun _ => true) l = l.
Proof. induction l as [|x l IH]; [reflexivity|]. cbn [filter]. rewrite IH. reflexivity. Qed.

Lemma cancel_batches_inv s l : Inv s ->
  Inv (cancel_batches s l) /\ p_pool (cancel_batches s l) = p_pool s /\ same_coins s (cancel_batches s l)
  /\ (forall b, In b (p_batches (cancel_batches s l)) <->
         In b (p_batches s) /\ forall c, In c l -> bkey b <> bkey c)
  /\ p_txid (cancel_batches s l) = p_txid s /\ p_batchid (cancel_batches s l) = p_batchid s.
Proof.
  intros I. pose proof (i_ok _ I) as K.
  destruct (cancel_batches_okc (fun _ => true) l s [] (o_bnodup _ _ _ _ K)) as (A & B & C & D & E & F & G).
  - rewrite filter_true. exact K.
  - reflexivity.
  - rewrite filter_true in B. split; [|split; [exact C|split; [exact F|split; [exact G|split; [exact D|exact E]]]]].
    constructor.
    + exact B.
    + intros b X. rewrite E. apply G in X. apply (i_nonce _ I). apply X.
    + rewrite C, D. apply (i_id _ I).
    + rewrite C. apply (i_pos _ I).
Qed.

(* ---- executing ----------------------------------------------------------------------------------------------------- *)

Lemma pdel_all_spec l : forall s ix bs hand,
  okc (p_pool s) ix bs (l ++ hand) ->
  okc (p_pool (pdel_all s l)) ix bs hand
  /\ (forall f, sum_by f (p_pool (pdel_all s l)) = sum_by f (p_pool s) - sum_by f l)
  /\ (forall t, In t (p_pool (pdel_all s l)) <-> In t (p_pool s) /\ forall u, In u l -> tkey t <> tkey u)
  /\ p_index (pdel_all s l) = p_index s /\ p_batches (pdel_all s l) = p_batches s
  /\ p_txid (pdel_all s l) = p_txid s /\ p_batchid (pdel_all s l) = p_batchid s /\ same_coins s (pdel_all s l).
Proof.
  induction l as [|t r IH]; intros s ix bs hand K; cbn [pdel_all app] in *.
  - split; [exact K|]. split; [intros; unfold sum_by; cbn [fold_right]; lia|]. split.
    + intros t. split; [intros I; split; [exact I|intros u []]|intros [I _]; exact I].
    + repeat split.
  - assert (T : In t (p_pool s)) by (apply (o_hand _ _ _ _ K); left; reflexivity).
    assert (N := o_nodup _ _ _ _ K).
    apply okc_drop in K. change (without (t_h t) (t_id t) (p_pool s)) with (p_pool (pdel s (t_h t) (t_id t))) in K.
    destruct (IH _ _ _ _ K) as (A & B & C & D). split; [exact A|]. split; [|split].
    + intros f. rewrite B. unfold pdel. cbn [p_pool set_pool]. fold (without (t_h t) (t_id t) (p_pool s)).
      rewrite (without_sum f _ _ _ t N T eq_refl). unfold sum_by. cbn [fold_right]. lia.
    + intros u. rewrite C. unfold pdel. cbn [p_pool set_pool]. fold (without (t_h t) (t_id t) (p_pool s)).
      rewrite without_in. change (t_h t, t_id t) with (tkey t). split.
      * intros [[X Y] Z]. split; [exact X|]. intros v [<-|V]; [exact Y|apply Z; exact V].
      * intros [X Y]. split; [split; [exact X|apply Y; left; reflexivity]|]. intros v V. apply Y. right. exact V.
    + exact D.
Qed.

Lemma sum_by_nonneg {A} (f : A -> Z) l : (forall a, In a l -> 0 <= f a) -> 0 <= sum_by f l.
Proof.
  unfold sum_by. induction l as [|a l IH]; intros H; cbn [fold_right]; [lia|].
  pose proof (H a (or_introl eq_refl)). assert (0 <= fold_right (fun a r => f a + r) 0 l); [|lia].
  apply IH. intros b B. apply H. right. exact B.
Qed.

Lemma fees_of_sum l : fees_of l = sum_by t_fee l.
Proof.
  unfold fees_of, sum_by. assert (H : forall a, fold_left (fun sum t => sum + t_fee t) l a = a + fold_right (fun t r => t_fee t + r) 0 l).
  { induction l as [|t l IH]; intros a; cbn [fold_left fold_right]; [lia|]. rewrite IH. lia. }
  rewrite H. lia.
Qed.

Record executed_ok (e : env) (s s' : st) (h n : Z) (token orch : bytes) (b : batch) : Prop := {
  x_inv : Inv s';
  x_pool : forall t, In t (p_pool s') <-> In t (p_pool s) /\ forall u, In u (b_txs b) -> tkey t <> tkey u;
  x_sum : forall f, sum_by f (p_pool s') = sum_by f (p_pool s) - sum_by f (b_txs b);
  x_batches : forall c, In c (p_batches s') <->
       In c (p_batches s) /\ ~ (b_h c = h /\ b_token c = token /\ b_nonce c <= n);
  x_txid : p_txid s' = p_txid s;
  x_batchid : p_batchid s' = p_batchid s;
  x_supply : p_supply s' = p_supply s;
  x_locked : p_locked s' = p_locked s;
  x_bal : forall a d, p_bal s' a d = p_bal s a d - at2 mod_acc ahelios (sum_by t_fee (b_txs b)) a d
                                     + at2 orch ahelios (sum_by t_fee (b_txs b)) a d;
  x_covered : sum_by t_fee (b_txs b) = 0 \/ sum_by t_fee (b_txs b) <= p_bal s mod_acc ahelios
}.

Lemma bget_none s h n t : bget s h n t = None -> forall b, In b (p_batches s) -> bkey b <> (h, n, t).
Proof.
  unfold bget. intros H b I E. eapply find_none in H; [|exact I]. apply is_batch_spec in E. congruence.
Qed.

Lemma executed_spec e s h n token orch : Inv s ->
  match executed e s h n token orch with
  | Err => False
  | Panic => exists b, In b (p_batches s) /\ bkey b = (h, n, token) /\
               (e_blocked e orch = true \/ p_bal s mod_acc ahelios < sum_by t_fee (b_txs b))
  | Ok s' => ((forall b, In b (p_batches s) -> bkey b <> (h, n, token)) /\ s' = s)
             \/ exists b, In b (p_batches s) /\ bkey b = (h, n, token) /\ executed_ok e s s' h n token orch b
  end.
Proof.
  intros I. pose proof (i_ok _ I) as K. unfold executed.
  destruct (bget s h n token) as [b|] eqn:G.
  2:{ left. split; [|reflexivity]. intros b B. eapply bget_none; eassumption. }
  apply bget_some in G. destruct G as [IB KB].
  assert (EQ : b_h b = h /\ b_nonce b = n /\ b_token b = token).
  { unfold bkey in KB. apply pair_equal_spec in KB. destruct KB as [X ->]. apply pair_equal_spec in X.
    destruct X as [-> ->]. auto. }
  destruct EQ as [EH [EN ET]].
  pose proof (okc_open _ _ _ _ b IB K) as K1. rewrite EH, EN, ET in K1.
  destruct (pdel_all_spec (b_txs b) s _ _ _ K1) as (A1 & A2 & A3 & A4 & A5 & A6 & A7 & A8).
  set (s1 := pdel_all s (b_txs b)) in *.
  set (low := filter (fun c => (b_nonce c <? b_nonce b) && beqb (b_token c) token) (batches_of s1 h)).
  assert (LOW : forall c, In c low <-> In c (p_batches s) /\ b_h c = h /\ b_token c = token /\ b_nonce c < n).
  { intros c. unfold low, batches_of. rewrite filter_In, <- in_rev, filter_In, A5, andb_true_iff, beqb_spec, Z.eqb_eq.
    rewrite EN. split; [intros [[X Y] [Z W]]|intros [X [Y [Z W]]]].
    - split; [exact X|]. split; [exact Y|]. split; [exact W|lia].
    - split; [split; [exact X|exact Y]|]. split; [lia|exact Z]. }
  clearbody low. clearbody s1.
  destruct (cancel_batches_okc (fun c => negb (is_batch h n token c)) low s1 []) as (C1 & C2 & C3 & C4 & C5 & C6 & C7).
  { rewrite A5. apply (o_bnodup _ _ _ _ K). }
  { rewrite A4, A5. exact A1. }
  { intros c x X E. destruct (is_batch h n token x) eqn:Y; [|reflexivity]. apply is_batch_spec in Y.
    apply LOW in X. rewrite Y in E. unfold bkey in E. apply pair_equal_spec in E. destruct E as [E _].
    apply pair_equal_spec in E. destruct E as [_ E]. lia. }
  set (s2 := cancel_batches s1 low) in *. clearbody s2.
  set (s3 := bdel s2 (b_h b) (b_nonce b) (b_token b)).
  assert (S3 : same_coins s s3).
  { eapply same_coins_trans; [exact A8|]. eapply same_coins_trans; [exact C6|]. repeat split. }
  destruct S3 as [S31 [S32 S33]].
  assert (B3 : p_batches s3 = filter (fun c => negb (is_batch h n token c)) (p_batches s2)).
  { unfold s3, bdel, set_batches. cbn [p_batches]. rewrite EH, EN, ET. reflexivity. }
  assert (P3 : p_pool s3 = p_pool s1) by exact C3.
  assert (I3 : p_index s3 = p_index s2) by reflexivity.
  assert (X3 : p_txid s3 = p_txid s) by (transitivity (p_txid s1); [exact C4|exact A6]).
  assert (Y3 : p_batchid s3 = p_batchid s) by (transitivity (p_batchid s1); [exact C5|exact A7]).
  clearbody s3.
  assert (BI : forall c, In c (p_batches s3) <->
       In c (p_batches s) /\ ~ (b_h c = h /\ b_token c = token /\ b_nonce c <= n)).
  { intros c. rewrite B3, filter_In, C7, A5, negb_true_iff. split.
    - intros [[X Y] Z]. split; [exact X|]. intros [W1 [W2 W3]].
      destruct (Z.eq_dec (b_nonce c) n) as [E|E].
      + assert (is_batch h n token c = true); [|congruence]. apply is_batch_spec. unfold bkey. congruence.
      + apply (Y c); [|reflexivity]. apply LOW. repeat split; auto. lia.
    - intros [X Y]. split; [split; [exact X|]|].
      + intros c' L E. apply LOW in L. destruct L as [_ [L1 [L2 L3]]]. apply Y. unfold bkey in E.
        apply pair_equal_spec in E. destruct E as [E ->]. apply pair_equal_spec in E. destruct E as [-> ->].
        repeat split; auto. lia.
      + destruct (is_batch h n token c) eqn:E; [|reflexivity]. apply is_batch_spec in E. elim Y. unfold bkey in E.
        apply pair_equal_spec in E. destruct E as [E ->]. apply pair_equal_spec in E. destruct E as [-> ->].
        repeat split; auto. lia. }
  assert (I3' : Inv s3).
  { constructor.
    - rewrite P3, I3, B3, <- C3. exact C2.
    - intros c X. rewrite Y3. apply (i_nonce _ I). apply BI in X. apply X.
    - intros t X. rewrite X3. apply (i_id _ I). rewrite P3 in X. apply A3 in X. apply X.
    - intros t X. apply (i_pos _ I). rewrite P3 in X. apply A3 in X. apply X. }
  assert (FN : 0 <= sum_by t_fee (b_txs b)).
  { apply sum_by_nonneg. intros t T. apply (i_pos _ I). apply (o_batch _ _ _ _ K b t IB T). }
  rewrite fees_of_sum.
  destruct (pay e s3 orch ahelios (sum_by t_fee (b_txs b))) as [s4|] eqn:PY.
  - right. exists b. split; [exact IB|]. split; [exact KB|].
    apply pay_spec in PY. destruct PY as (_ & _ & PC & PB & PS & PL & PX).
    pose proof PB as PB'. destruct PB' as (Q1 & Q2 & Q3 & Q4 & Q5).
    constructor.
    + eapply Inv_book; eassumption.
    + intros t. rewrite Q1, P3. apply A3.
    + intros f. rewrite Q1, P3. apply A2.
    + intros c. rewrite Q3. apply BI.
    + rewrite Q4. exact X3.
    + rewrite Q5. exact Y3.
    + rewrite PS. exact S32.
    + rewrite PL. exact S33.
    + intros a d. rewrite PX, S31. reflexivity.
    + rewrite <- S31. exact PC.
  - exists b. split; [exact IB|]. split; [exact KB|].
    destruct (e_blocked e orch) eqn:EB; [left; reflexivity|right].
    destruct (Z_lt_le_dec (p_bal s mod_acc ahelios) (sum_by t_fee (b_txs b))) as [L|L]; [exact L|exfalso].
    destruct (pay_ok e s3 orch ahelios _ EB FN) as [z Z]; [rewrite S31; exact L|congruence].
Qed.

(* ---- deposits --------------------------------------------------------------------------------------------------------- *)

Lemma deposit_spec e s h token x r s' : deposit e s h token x r = Ok s' ->
  exists d (orig : bool) extra to,
    0 < x /\ same_book s s' /\
    (e_by_token e h token = Some (d, orig) /\ extra = 0
     \/ e_by_token e h token = None /\ orig = false /\
        exists fresh, e_new_denom e h token = Some (d, fresh) /\ extra = (if (fresh : bool) then 1 else 0)) /\
    (orig = true -> x <= p_locked s h token) /\
    (forall d', p_supply s' d' = p_supply s d' + at1 d (x + extra) d') /\
    (forall h' t', p_locked s' h' t' = p_locked s h' t' - (if orig then atl h token x h' t' else 0)) /\
    (forall a d', p_bal s' a d' = p_bal s a d' + at2 mod_acc d extra a d' + at2 to d x a d') /\
    (to = comm_acc \/ r = Some to).
Proof.
  unfold deposit.
  set (pre := match e_by_token e h token with
    | Some x0 => (s, Some x0)
    | None => match e_new_denom e h token with
              | None => (s, None)
              | Some (d, fresh) => (if (fresh : bool) then mint s d 1 else s, Some (d, false))
              end
    end).
  assert (PRE : forall s0 d orig, pre = (s0, Some (d, orig)) -> exists extra,
    same_book s s0 /\ p_locked s0 = p_locked s /\
    (e_by_token e h token = Some (d, orig) /\ extra = 0
     \/ e_by_token e h token = None /\ orig = false /\
        exists fresh, e_new_denom e h token = Some (d, fresh) /\ extra = (if (fresh : bool) then 1 else 0)) /\
    (forall d', p_supply s0 d' = p_supply s d' + at1 d extra d') /\
    (forall a d', p_bal s0 a d' = p_bal s a d' + at2 mod_acc d extra a d')).
  { intros s0 d orig E. unfold pre in E.
    destruct (e_by_token e h token) as [[d0 o0]|].
    - apply pair_equal_spec in E. destruct E as [<- E]. injection E as -> ->. exists 0.
      split; [repeat split|]. split; [reflexivity|]. split; [left; auto|].
      split; intros; [unfold at1; destruct (beqb d' d)|rewrite at2_zero]; lia.
    - destruct (e_new_denom e h token) as [[d0 fr]|]; [|discriminate].
      apply pair_equal_spec in E. destruct E as [<- E]. injection E as -> <-.
      destruct fr.
      + exists 1. destruct (mint_spec s d 1) as [M1 [M2 [M3 M4]]].
        split; [exact M1|]. split; [exact M2|]. split; [right; split; [reflexivity|]; split; [reflexivity|]; exists true; auto|].
        split; assumption.
      + exists 0. split; [repeat split|]. split; [reflexivity|].
        split; [right; split; [reflexivity|]; split; [reflexivity|]; exists false; auto|].
        split; intros; [unfold at1; destruct (beqb d' d)|rewrite at2_zero]; lia. }
  clearbody pre. destruct pre as [s0 [[d orig]|]]; [|discriminate].
  destruct (PRE s0 d orig eq_refl) as (extra & P1 & P2 & P3 & P4 & P5). clear PRE.
  set (lk := if orig then if p_locked s0 h token <? x then None else Some (lock_add s0 h token (- x))
             else if 2 ^ 256 <=? p_supply s0 d + x then None else Some s0).
  assert (LK : forall s1, lk = Some s1 -> same_book s0 s1 /\ p_bal s1 = p_bal s0 /\ p_supply s1 = p_supply s0 /\
     (orig = true -> x <= p_locked s h token) /\
     forall h' t', p_locked s1 h' t' = p_locked s h' t' - (if orig then atl h token x h' t' else 0)).
  { intros s1 E. unfold lk in E. destruct orig.
    - destruct (p_locked s0 h token <? x) eqn:L; [discriminate|]. injection E as <-.
      split; [repeat split|]. split; [reflexivity|]. split; [reflexivity|]. rewrite P2 in L. split; [lia|].
      intros. rewrite lock_add_at, atl_opp, P2. lia.
    - destruct (2 ^ 256 <=? p_supply s0 d + x); [discriminate|]. injection E as <-.
      split; [repeat split|]. split; [reflexivity|]. split; [reflexivity|]. split; [discriminate|].
      intros. rewrite P2. lia. }
  clearbody lk. destruct lk as [s1|]; [|discriminate].
  destruct (LK s1 eq_refl) as (L1 & L2 & L3 & L4 & L5). clear LK.
  destruct (x <=? 0) eqn:X; [discriminate|].
  destruct (mint_spec s1 d x) as [M1 [M2 [M3 M4]]]. set (s2 := mint s1 d x) in *. clearbody s2.
  assert (FIN : forall s3 to, same_book s2 s3 -> p_supply s3 = p_supply s2 -> p_locked s3 = p_locked s2 ->
     (forall a' d', p_bal s3 a' d' = p_bal s2 a' d' - at2 mod_acc d x a' d' + at2 to d x a' d') ->
     (to = comm_acc \/ r = Some to) -> s3 = s' ->
     exists d (orig : bool) extra to,
    0 < x /\ same_book s s' /\
    (e_by_token e h token = Some (d, orig) /\ extra = 0
     \/ e_by_token e h token = None /\ orig = false /\
        exists fresh, e_new_denom e h token = Some (d, fresh) /\ extra = (if (fresh : bool) then 1 else 0)) /\
    (orig = true -> x <= p_locked s h token) /\
    (forall d', p_supply s' d' = p_supply s d' + at1 d (x + extra) d') /\
    (forall h' t', p_locked s' h' t' = p_locked s h' t' - (if orig then atl h token x h' t' else 0)) /\
    (forall a d', p_bal s' a d' = p_bal s a d' + at2 mod_acc d extra a d' + at2 to d x a d') /\
    (to = comm_acc \/ r = Some to)).
  { intros s3 to F1 F2 F3 F4 F5 <-. exists d, orig, extra, to.
    split; [lia|]. split; [eapply same_book_trans; [exact P1|]; eapply same_book_trans; [exact L1|];
      eapply same_book_trans; eassumption|]. split; [exact P3|]. split; [exact L4|].
    split; [|split; [|split; [|exact F5]]].
    - intros d'. rewrite F2, M3, L3, P4. unfold at1. destruct (beqb d' d); lia.
    - intros h' t'. rewrite F3, M2. apply L5.
    - intros a d'. rewrite F4, M4, L2, P5. lia. }
  destruct (match r with Some a => pay e s2 a d x | None => None end) as [s3|] eqn:SN.
  - intros H. injection H as H. destruct r as [a|]; [|discriminate]. apply pay_spec in SN.
    destruct SN as (_ & _ & _ & Q1 & Q2 & Q3 & Q4). eapply FIN; eauto.
  - destruct (move s2 mod_acc comm_acc d x) as [s3|] eqn:MV; [|discriminate]. cbn [ores]. intros H. injection H as H.
    apply move_spec in MV. destruct MV as (_ & _ & Q1 & Q2 & Q3 & Q4). eapply FIN; eauto.
Qed.

(* ---- coins over one refund ------------------------------------------------------------------------------------------------ *)

Definition full (s : st) : Prop := Inv s /\ solvent s.

Lemma took_out_sum s s' t f : Inv s -> In t (p_pool s) -> took_out s s' t ->
  sum_by f (p_pool s') = sum_by f (p_pool s) - f t.
Proof.
  intros I P [T _]. rewrite T. apply without_sum; [apply (o_nodup _ _ _ _ (i_ok _ I))|exact P|reflexivity].
Qed.

Lemma sum_by_le {A} (f : A -> Z) a l : (forall a, In a l -> 0 <= f a) -> In a l -> f a <= sum_by f l.
Proof.
  unfold sum_by. induction l as [|b l IH]; [contradiction|]. intros N [->|I]; cbn [fold_right].
  - assert (0 <= fold_right (fun a r => f a + r) 0 l); [|lia]. apply (sum_by_nonneg f).
    intros c C. apply N. right. exact C.
  - pose proof (N b (or_introl eq_refl)). enough (f a <= fold_right (fun a r => f a + r) 0 l) by lia.
    apply IH; [|exact I]. intros c C. apply N. right. exact C.
Qed.

Lemma fee_covered s t : Inv s -> solvent s -> In t (p_pool s) -> t_fee t <= p_bal s mod_acc ahelios.
Proof.
  intros I [_ S] P. enough (t_fee t <= fees_pending s) by lia. apply sum_by_le; [|exact P].
  intros u U. apply (i_pos _ I _ U).
Qed.

Lemma gave_back_full e s s' : gave_back e s s' -> full s -> full s'.
Proof.
  intros G [I [N S]]. destruct (gave_back_inv _ _ _ G (conj I N)) as [I' N'].
  split; [exact I'|]. split; [exact N'|].
  destruct G as [t [ok [P [W [T R]]]]]. unfold fees_pending in *. rewrite (took_out_sum _ _ _ _ I P T).
  pose proof (i_pos _ I _ P) as [AP FP].
  pose proof (fee_covered s t I (conj N S) P) as FC.
  destruct R as [? [C _]|d ? ? [C _]|d o ? ? ? ? B|d o fee ? ? ? ? ? B FF FL].
  - rewrite C. lia.
  - rewrite C. lia.
  - rewrite B. pose proof (at2_pos mod_acc d (t_amount t) mod_acc ahelios). lia.
  - rewrite B, at2_same. assert (fee = t_fee t) by lia. subst fee.
    pose proof (at2_pos (t_sender t) d (t_amount t) mod_acc ahelios).
    pose proof (at2_pos (t_sender t) ahelios (t_fee t) mod_acc ahelios FP). lia.
Qed.

Lemma chain_full e s s' : chain (gave_back e) s s' -> full s -> full s'.
Proof. apply chain_inv. apply gave_back_full. Qed.

(* The same with coins and backing. *)
Lemma at1_if d x d' : at1 d x d' = if beqb d d' then x else 0.
Proof.
  unfold at1. destruct (beqb d' d) eqn:A, (beqb d d') eqn:B; try reflexivity.
  - apply beqb_spec in A. subst. rewrite beqb_refl in B. discriminate.
  - apply beqb_spec in B. subst. rewrite beqb_refl in A. discriminate.
Qed.

Lemma gave_back_backed reg e s s' : sees reg e -> gave_back e s s' -> full s -> backed reg s ->
  backed reg s' /\ forall d, p_supply s' d + owed reg s' d = p_supply s d + owed reg s d.
Proof.
  intros [SE1 SE2] [t [ok [P [W [T R]]]]] [I SO] [B1 B2].
  pose proof (i_pos _ I _ P) as [AP FP].
  assert (OT : forall h k, owed_token s' h k = owed_token s h k - atl (t_h t) (t_token t) (t_amount t) h k).
  { intros h k. unfold owed_token. rewrite (took_out_sum _ _ _ _ I P T). unfold atl.
    rewrite (Z.eqb_sym h). replace (beqb (t_token t) k) with (beqb k (t_token t)); [reflexivity|].
    destruct (beqb k (t_token t)) eqn:A, (beqb (t_token t) k) eqn:B; try reflexivity.
    - apply beqb_spec in A. subst. rewrite beqb_refl in B. discriminate.
    - apply beqb_spec in B. subst. rewrite beqb_refl in A. discriminate. }
  assert (OD : forall d o, reg (t_h t) (t_token t) = Some (d, o) -> forall d', owed reg s' d' = owed reg s d' - at1 d (t_amount t) d').
  { intros d o E d'. unfold owed. rewrite (took_out_sum _ _ _ _ I P T). rewrite at1_if. f_equal. unfold denom_is. rewrite E. reflexivity. }
  assert (K1 : forall u, In u (p_pool s') -> reg (t_h u) (t_token u) <> None).
  { intros u U. destruct T as [T _]. rewrite T in U. apply without_in in U. apply B1. apply U. }
  assert (OW : t_amount t <= owed_token s (t_h t) (t_token t)).
  { unfold owed_token. pose proof (sum_by_le (fun u => if (t_h u =? t_h t) && beqb (t_token u) (t_token t) then t_amount u else 0) t (p_pool s)) as X.
    cbn beta in X. rewrite Z.eqb_refl, beqb_refl in X. cbn [andb] in X. apply X; [|exact P].
    intros u U. pose proof (i_pos _ I _ U). destruct ((t_h u =? t_h t) && beqb (t_token u) (t_token t)); lia. }
  destruct R as [E C|d E L C|d o E BL SU LK B|d o fee E LE BL SU LK B FF FL].
  - rewrite SE1 in E. elim (B1 t P E).
  - rewrite SE1 in E. specialize (B2 _ _ _ E). lia.
  - rewrite SE1 in E. split.
    + split; [exact K1|]. intros h k d0 E0. rewrite OT, LK. specialize (B2 _ _ _ E0).
      destruct o; [lia|]. unfold atl. destruct ((h =? t_h t) && beqb k (t_token t)) eqn:X; [|lia].
      apply andb_true_iff in X. rewrite Z.eqb_eq, beqb_spec in X. destruct X as [-> ->]. congruence.
    + intros d'. rewrite SU, (OD _ _ E). lia.
  - rewrite SE1 in E. split.
    + split; [exact K1|]. intros h k d0 E0. rewrite OT, LK. specialize (B2 _ _ _ E0).
      destruct o; [lia|]. unfold atl. destruct ((h =? t_h t) && beqb k (t_token t)) eqn:X; [|lia].
      apply andb_true_iff in X. rewrite Z.eqb_eq, beqb_spec in X. destruct X as [-> ->]. congruence.
    + intros d'. rewrite SU, (OD _ _ E). lia.
Qed.

Lemma chain_backed reg e s s' : sees reg e -> chain (gave_back e) s s' -> full s -> backed reg s ->
  backed reg s' /\ forall d, p_supply s' d + owed reg s' d = p_supply s d + owed reg s d.
Proof.
  intros SE C. induction C as [x|x y z R C IH]; intros F B; [split; [exact B|reflexivity]|].
  destruct (gave_back_backed _ _ _ _ SE R F B) as [B' E]. pose proof (gave_back_full _ _ _ R F) as F'.
  destruct (IH F' B') as [B2 E2]. split; [exact B2|]. intros d. rewrite E2. apply E.
Qed.

(* Senders get back exactly what they put in. *)
Lemma gave_back_due reg e s s' a d : sees reg e -> gave_back e s s' -> full s -> backed reg s ->
  a <> mod_acc -> (forall t, In t (p_pool s) -> e_blocked e (t_sender t) = false) ->
  p_bal s' a d + due reg a d (p_pool s') = p_bal s a d + due reg a d (p_pool s)
  /\ forall t, In t (p_pool s') -> e_blocked e (t_sender t) = false.
Proof.
  intros [SE1 SE2] [t [ok [P [W [T R]]]]] [I SO] [B1 B2] NM NB.
  pose proof (i_pos _ I _ P) as [AP FP]. split.
  2:{ intros u U. destruct T as [T _]. rewrite T in U. apply without_in in U. apply NB. apply U. }
  unfold due. rewrite (took_out_sum _ _ _ _ I P T).
  assert (OW : t_amount t <= owed_token s (t_h t) (t_token t)).
  { unfold owed_token. pose proof (sum_by_le (fun u => if (t_h u =? t_h t) && beqb (t_token u) (t_token t) then t_amount u else 0) t (p_pool s)) as X.
    cbn beta in X. rewrite Z.eqb_refl, beqb_refl in X. cbn [andb] in X. apply X; [|exact P].
    intros u U. pose proof (i_pos _ I _ U). destruct ((t_h u =? t_h t) && beqb (t_token u) (t_token t)); lia. }
  destruct R as [E C|d0 E L C|d0 o E BL SU LK B|d0 o fee E LE BL SU LK B FF FL].
  - rewrite SE1 in E. elim (B1 t P E).
  - rewrite SE1 in E. specialize (B2 _ _ _ E). lia.
  - rewrite (NB t P) in BL. discriminate.
  - rewrite SE1 in E. rewrite B. pose proof (fee_covered s t I SO P). assert (fee = t_fee t) by lia. subst fee.
    rewrite (at2_acc mod_acc a ahelios _ d NM). unfold at2, denom_is. rewrite E.
    destruct (beqb a (t_sender t)); cbn [andb]; [|lia].
    replace (beqb d0 d) with (beqb d d0); [destruct (beqb d d0), (beqb d ahelios); lia|].
    destruct (beqb d d0) eqn:A, (beqb d0 d) eqn:A'; try reflexivity.
    + apply beqb_spec in A. subst. rewrite beqb_refl in A'. discriminate.
    + apply beqb_spec in A'. subst. rewrite beqb_refl in A. discriminate.
Qed.

Lemma chain_due reg e s s' a d : sees reg e -> chain (gave_back e) s s' -> full s -> backed reg s ->
  a <> mod_acc -> (forall t, In t (p_pool s) -> e_blocked e (t_sender t) = false) ->
  p_bal s' a d + due reg a d (p_pool s') = p_bal s a d + due reg a d (p_pool s).
Proof.
  intros SE C. induction C as [x|x y z R C IH]; intros F B NM NB; [reflexivity|].
  destruct (gave_back_due reg e _ _ a d SE R F B NM NB) as [E NB'].
  destruct (gave_back_backed _ _ _ _ SE R F B) as [B' _].
  rewrite (IH (gave_back_full _ _ _ R F) B' NM NB'). exact E.
Qed.

(* ---- one step of the chain ------------------------------------------------------------------------------------------------ *)

Lemma full_coins s s' : Inv s' -> p_pool s' = p_pool s -> same_coins s s' -> full s -> full s'.
Proof.
  intros I P [B _] [_ [N S]]. split; [exact I|]. split.
  - intros a d. rewrite B. apply N.
  - unfold fees_pending in *. rewrite P, B. exact S.
Qed.

Lemma at2_le a d x a' d' (f : bytes -> bytes -> Z) : x <= f a d -> 0 <= f a' d' -> at2 a d x a' d' <= f a' d'.
Proof.
  intros A B. unfold at2. destruct (beqb a' a && beqb d' d) eqn:E; [|exact B].
  apply andb_true_iff in E. rewrite !beqb_spec in E. destruct E as [-> ->]. exact A.
Qed.

Lemma send_full e s h a dst d x fd f s' i :
  full s -> a <> mod_acc -> send e s h a dst d x fd f = Ok (s', i) -> full s'.
Proof.
  intros [I [N S]] NM H. pose proof (send_inv _ _ _ _ _ _ _ _ _ _ _ I H) as I'. apply send_spec in H.
  destruct H as (token & orig & _ & _ & _ & -> & X & F & XB & P & IX & B & T & BI & SU & LK & BA & FB).
  split; [exact I'|]. cbn zeta in P.
  rewrite without_fresh in P by (apply fresh_key; [exact I|lia]). split.
  - intros a' d'. rewrite BA. pose proof (at2_pos mod_acc ahelios f a' d' F). pose proof (N a' d').
    pose proof (N a ahelios).
    destruct (beqb a' a) eqn:EA.
    2:{ unfold at2 at 1 2. rewrite EA. cbn [andb]. lia. }
    apply beqb_spec in EA. subst a'. rewrite (at2_acc mod_acc a ahelios f d' NM).
    unfold at2 in *. rewrite !beqb_refl in *. cbn [andb] in *.
    destruct (beqb d' ahelios) eqn:E1.
    + apply beqb_spec in E1. subst d'. destruct (beqb ahelios d) eqn:E2; [apply beqb_spec in E2; subst d|]; lia.
    + destruct (beqb d' d) eqn:E2; [apply beqb_spec in E2; subst d|]; lia.
  - unfold fees_pending in *. rewrite P. unfold sum_by in *. cbn [fold_right new_tx t_fee].
    rewrite BA, at2_same, !at2_acc by congruence. lia.
Qed.

Lemma move_full s a b d x s' : full s -> a <> mod_acc -> move s a b d x = Some s' -> full s'.
Proof.
  intros [I [N S]] NM H. apply move_spec in H. destruct H as (X & XB & SB & _ & _ & BA).
  split; [eapply Inv_book; eassumption|]. destruct SB as [P _]. split.
  - intros a' d'. rewrite BA. pose proof (at2_le a d x a' d' (p_bal s) XB (N a' d')).
    pose proof (at2_pos b d x a' d'). lia.
  - unfold fees_pending in *. rewrite P, BA, (at2_acc a) by congruence.
    pose proof (at2_pos b d x mod_acc ahelios). lia.
Qed.

Lemma deposit_full e s h t x r s' : full s -> deposit e s h t x r = Ok s' -> full s'.
Proof.
  intros [I [N S]] H. apply deposit_spec in H.
  destruct H as (d & orig & extra & to & X & SB & EX & _ & _ & _ & BA & _).
  assert (0 <= extra). { destruct EX as [[_ ->]|(_ & _ & fr & _ & ->)]; [lia|destruct fr; lia]. }
  split; [eapply Inv_book; eassumption|]. destruct SB as [P _]. split.
  - intros a' d'. rewrite BA. pose proof (at2_pos mod_acc d extra a' d'). pose proof (at2_pos to d x a' d').
    pose proof (N a' d'). lia.
  - unfold fees_pending in *. rewrite P, BA. pose proof (at2_pos mod_acc d extra mod_acc ahelios).
    pose proof (at2_pos to d x mod_acc ahelios). lia.
Qed.

Lemma batch_in_pool s b t : Inv s -> In b (p_batches s) -> In t (b_txs b) -> In t (p_pool s).
Proof. intros I B T. apply (o_batch _ _ _ _ (i_ok _ I) b t B T). Qed.

Lemma batch_sum_le s b f : Inv s -> In b (p_batches s) -> (forall t, In t (p_pool s) -> 0 <= f t) ->
  sum_by f (b_txs b) <= sum_by f (p_pool s).
Proof.
  intros I B N. pose proof (okc_open _ _ _ _ b B (i_ok _ I)) as K1.
  destruct (pdel_all_spec (b_txs b) s _ _ _ K1) as (A1 & A2 & A3 & _).
  specialize (A2 f). enough (0 <= sum_by f (p_pool (pdel_all s (b_txs b)))) by lia.
  apply sum_by_nonneg. intros t T. apply A3 in T. apply N. apply T.
Qed.

Lemma executed_full e s s' h n token o b : full s -> In b (p_batches s) -> executed_ok e s s' h n token o b -> full s'.
Proof.
  intros [I [N S]] B X. split; [apply (x_inv _ _ _ _ _ _ _ _ X)|].
  assert (P : 0 <= sum_by t_fee (b_txs b)).
  { apply sum_by_nonneg. intros t T. apply (i_pos _ I). eapply batch_in_pool; eassumption. }
  assert (L : sum_by t_fee (b_txs b) <= p_bal s mod_acc ahelios).
  { destruct (x_covered _ _ _ _ _ _ _ _ X) as [E|E]; [rewrite E; apply N|exact E]. }
  split.
  - intros a d. rewrite (x_bal _ _ _ _ _ _ _ _ X).
    pose proof (at2_le mod_acc ahelios _ a d (p_bal s) L (N a d)). pose proof (at2_pos o ahelios _ a d P). lia.
  - unfold fees_pending in *. rewrite (x_sum _ _ _ _ _ _ _ _ X), (x_bal _ _ _ _ _ _ _ _ X), at2_same.
    pose proof (at2_pos o ahelios _ mod_acc ahelios P). lia.
Qed.

Lemma cancel_send_spec e s h i a s' : Inv s -> nonneg s -> cancel_send e s h i a = Ok s' ->
  exists t, In t (p_pool s) /\ tkey t = (h, i) /\ a = t_sender t
            /\ In i (iget (t_h t, t_token t, t_fee t) (p_index s))
            /\ took_out s s' t /\ repaid e s t s' true.
Proof.
  intros I N H. unfold cancel_send in H. pose proof (refund_spec e s h i a I N) as R.
  destruct (refund e s h i a) as [[s1 ok]| |]; cbn [rbind] in H; [|discriminate H|contradiction].
  destruct ok; [|discriminate H]. assert (E : s1 = s') by congruence. subst s1. exact R.
Qed.

Lemma cancel_send_back e s h i a s' : Inv s -> nonneg s -> cancel_send e s h i a = Ok s' -> gave_back e s s'.
Proof.
  intros I N H. destruct (cancel_send_spec _ _ _ _ _ _ I N H) as (t & P & K & _ & W & T & R).
  exists t, true. split; [exact P|]. split; [|split; assumption].
  unfold tkey in K. apply pair_equal_spec in K. destruct K as [_ ->]. exact W.
Qed.

Lemma batchid_inv s h n : Inv s -> p_batchid s h <= n -> Inv (set_batchid s h n).
Proof.
  intros [A B C D] L. constructor; try assumption. intros b I. cbn [p_batchid set_batchid].
  specialize (B b I). destruct (Z.eqb_spec (b_h b) h) as [E|E]; [rewrite E in B; lia|exact B].
Qed.

Lemma batchid_full s h n : full s -> p_batchid s h <= n -> full (set_batchid s h n).
Proof. intros [I S] L. split; [apply batchid_inv; assumption|exact S]. Qed.

(* How a clean-up proceeds: cancellations, then refunds. *)
Definition cleaned (e : env) (s s' : st) : Prop :=
  exists l, chain (gave_back e) (cancel_batches s l) s'.

Lemma cancel_full s l : full s -> full (cancel_batches s l).
Proof.
  intros F. destruct (cancel_batches_inv s l (proj1 F)) as (I & P & C & _). eapply full_coins; eassumption.
Qed.

Lemma pool_txs_full s h : full s -> exists l, pool_txs s h = Ok l.
Proof. intros [I _]. destruct (pool_txs_ok s h _ _ (i_ok _ I)) as [l [L _]]. exists l. exact L. Qed.

Lemma clean_all_spec e s h : full s -> exists s', clean_all e s h = Ok s' /\ cleaned e s s'.
Proof.
  intros F. unfold clean_all. pose proof (cancel_full s (batches_of s h) F) as F1.
  destruct (pool_txs_full _ h F1) as [l L]. rewrite L. cbn [rbind].
  destruct (refund_all_chain e (fun s t => negb (in_batch s h t)) l _ (proj1 F1) (proj1 (proj2 F1))) as [s' [A B]].
  exists s'. split; [exact A|]. exists (batches_of s h). exact B.
Qed.

Lemma timeout_txs_spec e s h : full s -> exists s', timeout_txs e s h = Ok s' /\ chain (gave_back e) s s'.
Proof.
  intros F. unfold timeout_txs. destruct (pool_txs_full _ h F) as [l L]. rewrite L. cbn [rbind].
  apply refund_all_chain; [exact (proj1 F)|exact (proj1 (proj2 F))].
Qed.

Lemma cancel_some_spec e s h n : full s -> exists s', cancel_some e s h n = Ok s' /\ chain (gave_back e) s s'.
Proof.
  intros F. unfold cancel_some. destruct (pool_txs_full _ h F) as [l L]. rewrite L. cbn [rbind].
  apply refund_all_chain; [exact (proj1 F)|exact (proj1 (proj2 F))].
Qed.

Lemma gave_back_ids e s s' : gave_back e s s' -> p_txid s' = p_txid s /\ p_batchid s' = p_batchid s.
Proof. intros (t & ok & _ & _ & T & _). destruct T as (_ & _ & _ & T1 & T2). split; assumption. Qed.

Lemma chain_ids e s s' : chain (gave_back e) s s' -> p_txid s' = p_txid s /\ p_batchid s' = p_batchid s.
Proof.
  intros C. induction C as [x|x y z R C IH]; [split; reflexivity|]. apply gave_back_ids in R.
  destruct IH, R. split; congruence.
Qed.

Theorem exec_full e s c : full s -> user_step c -> resets c = false ->
  match exec e s c with
  | Ok s' => full s' /\ p_txid s <= p_txid s' /\ forall h, p_batchid s h <= p_batchid s' h
  | Err => True
  | Panic => exists h n t o, c = Withdraw h n t o /\ e_blocked e o = true
  end.
Proof.
  intros F U R. pose proof F as [I [N S]].
  destruct c; cbn [exec resets user_step] in *; try discriminate R.
  - unfold fst_of. destruct (send e s h sender dest denom amount feed fee) as [[s' i]| |] eqn:E; cbn [rbind fst].
    + pose proof (send_spec _ _ _ _ _ _ _ _ _ _ _ E) as (token & orig & X).
      destruct X as (_ & _ & _ & X1 & _ & _ & _ & _ & _ & _ & X2 & X3 & _).
      split; [eapply send_full; eassumption|]. rewrite X2, X3. split; [lia|]. intros; lia.
    + exact Coq.Init.Logic.I.
    + exfalso. revert E. unfold send. destruct (e_min_fee e h); [|discriminate].
      destruct (negb (beqb feed ahelios)); [discriminate|]. destruct (fee <? z); [discriminate|].
      destruct (e_bad_dest e dest); [discriminate|]. destruct (e_paused e h); [discriminate|].
      destruct (e_by_denom e h denom) as [[token orig]|]; [|discriminate].
      match goal with |- context [move ?a ?b ?c ?d ?x] => destruct (move a b c d x) end; cbn [ores rbind]; [|discriminate].
      match goal with |- context [burn ?a ?b ?c] => destruct (burn a b c) end; cbn [ores rbind]; [|discriminate].
      match goal with |- context [move0 ?a ?b ?c ?d ?x] => destruct (move0 a b c d x) end; cbn [ores rbind]; discriminate.
  - destruct (cancel_send e s h i sender) as [s'| |] eqn:E; [|exact Coq.Init.Logic.I|].
    + pose proof (cancel_send_back _ _ _ _ _ _ I N E) as G. split; [eapply gave_back_full; eassumption|].
      destruct (gave_back_ids _ _ _ G) as [-> ->]. split; [lia|]. intros; lia.
    + exfalso. unfold cancel_send in E. pose proof (refund_spec e s h i sender I N) as X.
      destruct (refund e s h i sender) as [[s1 ok]| |]; cbn [rbind] in E; [|discriminate E|contradiction].
      destruct ok; discriminate E.
  - unfold fst_of, request_batch. destruct (e_by_denom e h denom) as [[token o]|]; [|exact Coq.Init.Logic.I].
    destruct (build e s h token) as [[s' b]| |] eqn:E; cbn [rbind fst]; [|exact Coq.Init.Logic.I|].
    + apply (build_spec _ _ _ _ _ _ I) in E. destruct E as (_ & _ & A & B & _ & _ & C & D & EE & _).
      split; [eapply full_coins; eassumption|]. rewrite D. split; [lia|]. intros h'. rewrite EE.
      destruct (Z.eqb_spec h' h) as [->|]; lia.
    + exfalso. revert E. unfold build.
      match goal with |- (if ?c then _ else _) = _ -> _ => destruct c; [discriminate|] end.
      destruct (pick s h token (token_txs s h token) batch_size) as [s1 sel]. destruct sel; discriminate.
  - unfold fst_of. destruct (request_ids e s h denom ids) as [[s' b]| |] eqn:E; cbn [rbind fst]; [|exact Coq.Init.Logic.I|].
    + apply (request_ids_spec _ _ _ _ _ _ _ I) in E.
      destruct E as (token & o & _ & _ & _ & _ & _ & A & B & _ & C & D & EE).
      split; [eapply full_coins; eassumption|]. rewrite D. split; [lia|]. intros h'. rewrite EE.
      destruct (Z.eqb_spec h' h) as [->|]; lia.
    + exfalso. revert E. unfold request_ids. destruct (e_by_denom e h denom) as [[token o]|]; [|discriminate].
      assert (NP : forall n s0, pick_ids s0 h token ids n <> Panic).
      { induction ids as [|i r IH]; intros [|n] s0; cbn [pick_ids]; try discriminate.
        destruct (pget s0 h i); [|discriminate]. destruct (index_remove s0 (h, token, t_fee t) i); [|discriminate].
        specialize (IH n s1). destruct (pick_ids s1 h token r n) as [[s2 sel]| |]; cbn [rbind]; try discriminate.
        intros; apply IH; reflexivity. }
      specialize (NP batch_size s). destruct (pick_ids s h token ids batch_size) as [[s1 sel]| |]; cbn [rbind]; try discriminate.
      * destruct sel; discriminate.
      * intros _. apply NP. reflexivity.
  - pose proof (executed_spec e s h n token orch I) as X. destruct (executed e s h n token orch) as [s'| |].
    + destruct X as [[_ ->]|(b & B & K & X)].
      * split; [exact F|]. split; [lia|]. intros; lia.
      * split; [eapply executed_full; eassumption|].
        rewrite (x_txid _ _ _ _ _ _ _ _ X), (x_batchid _ _ _ _ _ _ _ _ X). split; [lia|]. intros; lia.
    + exact Coq.Init.Logic.I.
    + destruct X as (b & B & K & [X|X]).
      * exists h, n, token, orch. split; [reflexivity|exact X].
      * exfalso. assert (sum_by t_fee (b_txs b) <= fees_pending s).
        { apply batch_sum_le; [exact I|exact B|]. intros t T. apply (i_pos _ I _ T). }
        lia.
  - destruct (deposit e s h token amount receiver) as [s'| |] eqn:E; [|exact Coq.Init.Logic.I|].
    + split; [eapply deposit_full; eassumption|]. apply deposit_spec in E.
      destruct E as (d & orig & extra & to & _ & SB & _). destruct SB as (_ & _ & _ & -> & ->). split; [lia|]. intros; lia.
    + exfalso. revert E. unfold deposit.
      destruct (match e_by_token e h token with Some x0 => _ | None => _ end) as [s0 [[d orig]|]]; [|discriminate].
      match goal with |- match ?c with Some _ => _ | None => _ end = _ -> _ => destruct c as [s1|]; [|discriminate] end.
      destruct (amount <=? 0); [discriminate|].
      match goal with |- match ?c with Some _ => _ | None => _ end = _ -> _ => destruct c as [s2|]; [discriminate|] end.
      match goal with |- ores ?c = _ -> _ => destruct c; discriminate end.
  - unfold timeout_batches. split; [apply cancel_full; exact F|].
    match goal with |- context [cancel_batches s ?l] => destruct (cancel_batches_inv s l I) as (_ & _ & _ & _ & -> & ->) end.
    split; [lia|]. intros; lia.
  - destruct (timeout_txs_spec e s h F) as [s' [-> C]]. split; [eapply chain_full; eassumption|].
    destruct (chain_ids _ _ _ C) as [-> ->]. split; [lia|]. intros; lia.
  - destruct (clean_all_spec e s h F) as [s' [-> [l C]]]. split; [eapply chain_full; [exact C|]; apply cancel_full; exact F|].
    destruct (chain_ids _ _ _ C) as [-> ->]. destruct (cancel_batches_inv s l I) as (_ & _ & _ & _ & -> & ->).
    split; [lia|]. intros; lia.
  - destruct (cancel_some_spec e s h n F) as [s' [-> C]]. split; [eapply chain_full; eassumption|].
    destruct (chain_ids _ _ _ C) as [-> ->]. split; [lia|]. intros; lia.
  - split; [apply batchid_full; [exact F|lia]|]. cbn [p_txid p_batchid set_batchid]. split; [lia|]. intros h'.
    destruct (Z.eqb_spec h' h) as [->|]; lia.
  - destruct (n <? p_batchid s h + 1) eqn:E; [exact Coq.Init.Logic.I|].
    split; [apply batchid_full; [exact F|lia]|]. cbn [p_txid p_batchid set_batchid]. split; [lia|]. intros h'.
    destruct (Z.eqb_spec h' h) as [->|]; lia.
  - destruct (move s a b d x) as [s'|] eqn:E; cbn [ores]; [|exact Coq.Init.Logic.I].
    split; [eapply move_full; eassumption|]. apply move_spec in E. destruct E as (_ & _ & SB & _).
    destruct SB as (_ & _ & _ & -> & ->). split; [lia|]. intros; lia.
Qed.

(* ---- where transfers are ------------------------------------------------------------------------------------------------- *)

Lemma count_occ_app_z (a b : list Z) i : count_occ Z.eq_dec (a ++ b) i = (count_occ Z.eq_dec a i + count_occ Z.eq_dec b i)%nat.
Proof. apply count_occ_app. Qed.

Lemma cz_pair h' h i l : cz (h, i) (map (pair h') l) = if h' =? h then Z.of_nat (count_occ Z.eq_dec l i) else 0.
Proof.
  induction l as [|x l IH]; cbn [map].
  - rewrite cz_nil. destruct (h' =? h); reflexivity.
  - rewrite cz_cons, IH. cbn [count_occ]. destruct (qdec (h', x) (h, i)) as [E|E], (Z.eqb_spec h' h) as [A|A].
    + apply pair_equal_spec in E. destruct E as [_ ->]. destruct (Z.eq_dec i i); [lia|congruence].
    + apply pair_equal_spec in E. destruct E. contradiction.
    + destruct (Z.eq_dec x i) as [B|B]; [subst; congruence|lia].
    + lia.
Qed.

Lemma waiting_count s h i : Z.of_nat (times_waiting s h i) = cz (h, i) (ikeys (p_index s)).
Proof.
  unfold times_waiting. induction (p_index s) as [|[k l] r IH]; [reflexivity|].
  cbn [filter fst snd]. rewrite ikeys_cons, cz_app, <- IH. unfold tag. rewrite cz_pair.
  change (fst (fst k)) with (fh k). destruct (fh k =? h); [|lia].
  cbn [flat_map snd]. rewrite count_occ_app. lia.
Qed.

Lemma cz_tkey h i l : Z.of_nat (List.length (filter (fun t => (t_h t =? h) && (t_id t =? i)) l)) = cz (h, i) (map tkey l).
Proof.
  induction l as [|t l IH]; [reflexivity|]. cbn [filter map]. rewrite cz_cons, <- IH.
  destruct (qdec (tkey t) (h, i)) as [E|E]; unfold tkey in E.
  - apply pair_equal_spec in E. destruct E as [E1 E2]. rewrite (proj2 (Z.eqb_eq _ _) E1), (proj2 (Z.eqb_eq _ _) E2).
    cbn [andb List.length]. lia.
  - destruct ((t_h t =? h) && (t_id t =? i)) eqn:X; [|lia]. apply andb_true_iff in X. rewrite !Z.eqb_eq in X.
    elim E. apply pair_equal_spec. exact X.
Qed.

Lemma batched_count s h i : Z.of_nat (times_batched s h i) = cz (h, i) (bkeys (p_batches s)).
Proof.
  unfold times_batched. rewrite cz_tkey. unfold bkeys. f_equal.
  induction (p_batches s) as [|b r IH]; [reflexivity|]. cbn [flat_map]. rewrite map_app, IH. reflexivity.
Qed.

Theorem inv_well_placed s : Inv s -> well_placed s.
Proof.
  intros I. pose proof (i_ok _ I) as K. pose proof (o_nodup _ _ _ _ K) as ND.
  assert (U : forall h i t u, pending s h i t -> pending s h i u -> t = u).
  { intros h i t u (A & B & C) (D & E & F). eapply nodup_key_in; [exact ND|exact A|exact D|]. unfold tkey. congruence. }
  constructor.
  - exact U.
  - eapply NoDup_map_inv. exact ND.
  - intros h i t (A & B & C). pose proof (o_count _ _ _ _ K (h, i)) as CN.
    pose proof (waiting_count s h i). pose proof (batched_count s h i). change (pkeys []) with (@nil (Z * Z)) in CN.
    rewrite cz_nil in CN.
    assert (cz (h, i) (pkeys (p_pool s)) = 1).
    { pose proof (proj1 (cz_nodup _) ND (h, i)). assert (X : In (h, i) (pkeys (p_pool s))).
      { apply in_map_iff. exists t. split; [unfold tkey; congruence|exact A]. }
      apply cz_in in X. lia. }
    lia.
  - intros h i N. pose proof (o_count _ _ _ _ K (h, i)) as CN.
    pose proof (waiting_count s h i). pose proof (batched_count s h i). change (pkeys []) with (@nil (Z * Z)) in CN.
    rewrite cz_nil in CN. pose proof (cz_pos (h, i) (ikeys (p_index s))). pose proof (cz_pos (h, i) (bkeys (p_batches s))).
    assert (cz (h, i) (pkeys (p_pool s)) = 0).
    { pose proof (cz_pos (h, i) (pkeys (p_pool s))). destruct (Z.eq_dec (cz (h, i) (pkeys (p_pool s))) 0) as [E|E]; [exact E|].
      assert (X : In (h, i) (pkeys (p_pool s))) by (apply cz_in; lia).
      apply in_map_iff in X. destruct X as [t [T1 T2]]. unfold tkey in T1. apply pair_equal_spec in T1.
      destruct T1 as [T1 T3]. elim (N t). split; [exact T2|split; assumption]. }
    lia.
  - intros h tok fee ids i A B. destruct (o_index _ _ _ _ K _ _ _ A B) as [t [T1 [T2 T3]]].
    exists t. cbn [fh fst] in T2. unfold tkey in T2. apply pair_equal_spec in T2. destruct T2 as [T2 T4].
    apply pair_equal_spec in T3. destruct T3 as [T3 T5]. apply pair_equal_spec in T3. destruct T3 as [_ T3].
    split; [split; [exact T1|split; assumption]|split; congruence].
  - intros b t A B. apply (o_batch _ _ _ _ K b t A B).
Qed.

Lemma run_full l : forall s s', full s -> run s l = Ok s' ->
  Forall (fun ec : env * step => user_step (snd ec) /\ resets (snd ec) = false) l ->
  full s' /\ p_txid s <= p_txid s' /\ forall h, p_batchid s h <= p_batchid s' h.
Proof.
  induction l as [|[e c] r IH]; intros s s' F H G; cbn [run] in H.
  - assert (E : s = s') by congruence. subst s'. split; [exact F|]. split; [lia|]. intros; lia.
  - pose proof (Forall_inv G) as [U R]. apply Forall_inv_tail in G. cbn [snd] in U, R.
    pose proof (exec_full e s c F U R) as X. destruct (exec e s c) as [s1| |]; [| |discriminate H].
    + destruct X as (F1 & T1 & B1). destruct (IH _ _ F1 H G) as (F2 & T2 & B2).
      split; [exact F2|]. split; [lia|]. intros h. specialize (B1 h). specialize (B2 h). lia.
    + apply (IH _ _ F H G).
Qed.

(* ---- coins over a history --------------------------------------------------------------------------------------------------- *)

Lemma sum_by_ext {A} (f g : A -> Z) l : (forall a, In a l -> f a = g a) -> sum_by f l = sum_by g l.
Proof.
  unfold sum_by. induction l as [|a l IH]; [reflexivity|]. intros H. cbn [fold_right].
  rewrite (H a (or_introl eq_refl)), IH; [reflexivity|]. intros b B. apply H. right. exact B.
Qed.

Lemma sum_by_zero {A} (f : A -> Z) l : (forall a, In a l -> f a = 0) -> sum_by f l = 0.
Proof.
  unfold sum_by. induction l as [|a l IH]; [reflexivity|]. intros H. cbn [fold_right].
  rewrite (H a (or_introl eq_refl)), IH; [reflexivity|]. intros b B. apply H. right. exact B.
Qed.

Lemma sum_by_unique {A B} (key : A -> B) (p : A -> bool) (f : A -> Z) k l a :
  NoDup (map key l) -> (forall x, p x = true <-> key x = k) -> In a l -> key a = k ->
  sum_by (fun x => if p x then f x else 0) l = f a.
Proof.
  intros N P. induction l as [|b l IH]; [contradiction|]. intros I K. cbn [map] in N. apply NoDup_cons_iff in N.
  destruct N as [N1 N2]. unfold sum_by in *. cbn [fold_right]. destruct I as [->|I].
  - rewrite (proj2 (P a) K). change (f a + sum_by (fun x => if p x then f x else 0) l = f a).
    rewrite sum_by_zero; [lia|]. intros c C. destruct (p c) eqn:E; [|reflexivity].
    apply P in E. elim N1. rewrite K, <- E. apply in_map. exact C.
  - rewrite (IH N2 I K). destruct (p b) eqn:E; [|lia]. apply P in E. elim N1. rewrite E, <- K. apply in_map. exact I.
Qed.

Lemma released_batch reg s b d : Inv s -> In b (p_batches s) ->
  released reg s (b_h b) (b_nonce b) (b_token b) d
  = sum_by (fun t => if denom_is reg d t then t_amount t else 0) (b_txs b).
Proof.
  intros I B. unfold released.
  apply (sum_by_unique bkey (is_batch (b_h b) (b_nonce b) (b_token b))
          (fun b => sum_by (fun t => if denom_is reg d t then t_amount t else 0) (b_txs b)) (bkey b)).
  - apply (o_bnodup _ _ _ _ (i_ok _ I)).
  - intros x. apply is_batch_spec.
  - exact B.
  - reflexivity.
Qed.

Lemma released_none reg s h n t d : (forall b, In b (p_batches s) -> bkey b <> (h, n, t)) ->
  released reg s h n t d = 0.
Proof.
  intros N. unfold released. apply sum_by_zero. intros b B. destruct (is_batch h n t b) eqn:E; [|reflexivity].
  apply is_batch_spec in E. elim (N b B E).
Qed.

(* Same pool and coins: nothing to add. *)
Lemma backed_same reg s s' : p_pool s' = p_pool s -> same_coins s s' -> backed reg s ->
  backed reg s' /\ forall d, p_supply s' d + owed reg s' d = p_supply s d + owed reg s d.
Proof.
  intros P (_ & S & L) [B1 B2]. split.
  - split; [rewrite P; exact B1|]. intros h t d E. unfold owed_token. rewrite P, L. apply (B2 _ _ _ E).
  - intros d. unfold owed. rewrite P, S. reflexivity.
Qed.

Theorem exec_backed reg e s c s' : full s -> backed reg s -> user_step c -> resets c = false -> sees reg e ->
  honest_step reg s c -> exec e s c = Ok s' ->
  backed reg s' /\ forall d, p_supply s' d + owed reg s' d = p_supply s d + owed reg s d + net_step reg e s c d.
Proof.
  intros F B U R SE HO X. pose proof F as [I [N S]].
  assert (Z0 : forall Q : Prop, (Q /\ forall d, p_supply s' d + owed reg s' d = p_supply s d + owed reg s d) ->
               Q /\ forall d, p_supply s' d + owed reg s' d = p_supply s d + owed reg s d + 0).
  { intros Q [A C]. split; [exact A|]. intros d. rewrite C. lia. }
  destruct c; cbn [resets user_step] in *; try discriminate R.
  - cbn [net_step]. apply Z0. cbn [exec] in X. unfold fst_of in X.
    destruct (send e s h sender dest denom amount feed fee) as [[s1 i]| |] eqn:E; cbn [rbind fst] in X; try discriminate X.
    assert (s1 = s') by congruence. subst s1. apply send_spec in E.
    destruct E as (token & orig & D & _ & _ & -> & XP & FP & XB & P & IX & BB & T & BI & SU & LK & BA & FB).
    cbn zeta in P. rewrite without_fresh in P by (apply fresh_key; [exact I|lia]).
    pose proof (proj2 SE _ _ _ _ D) as RG. destruct B as [B1 B2]. split.
    + split.
      * rewrite P. intros t [<-|T0]; [cbn [new_tx t_h t_token]; congruence|apply B1; exact T0].
      * intros h' t' d' E'. unfold owed_token in *. rewrite P, LK. unfold sum_by in *. cbn [fold_right new_tx t_h t_token t_amount].
        specialize (B2 _ _ _ E'). unfold atl.
        destruct (Z.eqb_spec h h') as [E1|E1].
        -- subst h'. rewrite Z.eqb_refl. cbn [andb]. destruct (beqb token t') eqn:E2.
           ++ apply beqb_spec in E2. subst t'. rewrite beqb_refl. rewrite RG in E'. assert (orig = true) by congruence. subst orig. lia.
           ++ replace (beqb t' token) with false; [destruct orig; lia|]. symmetry. apply beqb_neq. apply beqb_neq in E2. congruence.
        -- cbn [andb]. assert (h' =? h = false) as -> by (apply Z.eqb_neq; congruence). cbn [andb]. destruct orig; lia.
    + intros d'. unfold owed. rewrite P, SU. unfold sum_by. cbn [fold_right].
      unfold denom_is at 1. cbn [new_tx t_h t_token t_amount]. rewrite RG. rewrite at1_if. lia.
  - cbn [net_step]. apply Z0. cbn [exec] in X. eapply gave_back_backed; [exact SE| |exact F|exact B].
    eapply cancel_send_back; eassumption.
  - cbn [net_step]. apply Z0. cbn [exec] in X. unfold fst_of, request_batch in X.
    destruct (e_by_denom e h denom) as [[token o]|]; [|discriminate X].
    destruct (build e s h token) as [[s1 b]| |] eqn:E; cbn [rbind fst] in X; try discriminate X.
    assert (s1 = s') by congruence. subst s1. apply (build_spec _ _ _ _ _ _ I) in E.
    destruct E as (_ & _ & _ & P & _ & _ & C & _). apply backed_same; assumption.
  - cbn [net_step]. apply Z0. cbn [exec] in X. unfold fst_of in X.
    destruct (request_ids e s h denom ids) as [[s1 b]| |] eqn:E; cbn [rbind fst] in X; try discriminate X.
    assert (s1 = s') by congruence. subst s1. apply (request_ids_spec _ _ _ _ _ _ _ I) in E.
    destruct E as (token & o & _ & _ & _ & _ & _ & _ & P & _ & C & _). apply backed_same; assumption.
  - cbn [net_step]. cbn [exec] in X. pose proof (executed_spec e s h n token orch I) as Y. rewrite X in Y.
    destruct Y as [[Y ->]|(b & IB & K & Y)].
    + split; [exact B|]. intros d. rewrite released_none by exact Y. lia.
    + unfold bkey in K. apply pair_equal_spec in K. destruct K as [K <-]. apply pair_equal_spec in K. destruct K as [<- <-].
      destruct B as [B1 B2]. split.
      * split.
        -- intros t T. apply (x_pool _ _ _ _ _ _ _ _ Y) in T. apply B1. apply T.
        -- intros h' t' d' E. unfold owed_token. rewrite (x_sum _ _ _ _ _ _ _ _ Y), (x_locked _ _ _ _ _ _ _ _ Y).
           specialize (B2 _ _ _ E). unfold owed_token in B2.
           match goal with |- _ - ?x <= _ => assert (0 <= x) end; [|lia].
           apply sum_by_nonneg. intros t T. pose proof (i_pos _ I t (batch_in_pool _ _ _ I IB T)).
           destruct ((t_h t =? h') && beqb (t_token t) t'); lia.
      * intros d. unfold owed. rewrite (x_sum _ _ _ _ _ _ _ _ Y), (x_supply _ _ _ _ _ _ _ _ Y), (released_batch _ _ _ _ I IB). lia.
  - cbn [net_step]. rewrite X. cbn [exec] in X. cbn [honest_step] in HO.
    apply deposit_spec in X. destruct X as (d & orig & extra & to & XP & SB & EX & OB & SU & LK & BA & _).
    pose proof (proj1 SE h token) as RG. destruct (reg h token) as [[d0 o0]|] eqn:RR; [|contradiction].
    destruct EX as [[E1 ->]|[E1 _]]; [|congruence]. rewrite E1 in RG. assert (d0 = d /\ o0 = orig) as [-> ->] by (split; congruence).
    destruct SB as (P & _). destruct B as [B1 B2]. split.
    + split; [rewrite P; exact B1|]. intros h' t' d' E'. unfold owed_token in *. rewrite P, LK.
      specialize (B2 _ _ _ E'). destruct orig; [|lia]. unfold atl.
      destruct ((h' =? h) && beqb t' token) eqn:Q; [|lia]. apply andb_true_iff in Q.
      rewrite Z.eqb_eq, beqb_spec in Q. destruct Q as [-> ->]. lia.
    + intros d'. unfold owed. rewrite P, SU. unfold at1. destruct (beqb d' d); lia.
  - cbn [net_step]. apply Z0. cbn [exec] in X. unfold timeout_batches in X.
    match type of X with Ok (cancel_batches s ?l) = _ => destruct (cancel_batches_inv s l I) as (_ & P & C & _) end.
    assert (E : cancel_batches s (filter (fun b => (b_timeout b <? e_eth e h) || e_paused e h) (batches_of s h)) = s') by congruence.
    rewrite E in P, C. apply backed_same; assumption.
  - cbn [net_step]. apply Z0. cbn [exec] in X. destruct (timeout_txs_spec e s h F) as [s1 [E C]].
    assert (s1 = s') by congruence. subst s1. eapply chain_backed; eassumption.
  - cbn [net_step]. apply Z0. cbn [exec] in X. destruct (clean_all_spec e s h F) as [s1 [E [l C]]].
    assert (s1 = s') by congruence. subst s1.
    destruct (cancel_batches_inv s l I) as (_ & P & CC & _).
    destruct (backed_same reg _ _ P CC B) as [B1 E1].
    destruct (chain_backed reg e _ _ SE C (cancel_full s l F) B1) as [B2 E2].
    split; [exact B2|]. intros d. rewrite E2. apply E1.
  - cbn [net_step]. apply Z0. cbn [exec] in X. destruct (cancel_some_spec e s h n F) as [s1 [E C]].
    assert (s1 = s') by congruence. subst s1. eapply chain_backed; eassumption.
  - cbn [net_step]. apply Z0. cbn [exec] in X. assert (E : set_batchid s h (p_batchid s h + 1) = s') by congruence. subst s'.
    apply backed_same; [reflexivity|repeat split|exact B].
  - cbn [net_step]. apply Z0. cbn [exec] in X. destruct (n <? p_batchid s h + 1); [discriminate X|].
    assert (E : set_batchid s h n = s') by congruence. subst s'.
    apply backed_same; [reflexivity|repeat split|exact B].
  - cbn [net_step]. apply Z0. cbn [exec] in X. destruct (move s a b d x) as [s1|] eqn:E; cbn [ores] in X; [|discriminate X].
    assert (s1 = s') by congruence. subst s1. apply move_spec in E. destruct E as (_ & _ & SB & SU & LK & _).
    destruct SB as (P & _). destruct B as [B1 B2]. split.
    + split; [rewrite P; exact B1|]. intros h t d' E. unfold owed_token. rewrite P, LK. apply (B2 _ _ _ E).
    + intros d'. unfold owed. rewrite P, SU. reflexivity.
Qed.

Lemma run_backed reg l : forall s s', full s -> backed reg s -> run s l = Ok s' ->
  Forall (fun ec : env * step => user_step (snd ec) /\ resets (snd ec) = false /\ sees reg (fst ec)) l ->
  honest reg s l ->
  backed reg s' /\ forall d, p_supply s' d + owed reg s' d = p_supply s d + owed reg s d + net reg s l d.
Proof.
  induction l as [|[e c] r IH]; intros s s' F B H G HO; cbn [run net honest] in *.
  - assert (E : s = s') by congruence. subst s'. split; [exact B|]. intros; lia.
  - pose proof (Forall_inv G) as (U & R & SE). apply Forall_inv_tail in G. cbn [fst snd] in U, R, SE.
    destruct HO as [H1 H2].
    pose proof (exec_full e s c F U R) as X. pose proof (fun s' => exec_backed reg e s c s' F B U R SE H1) as Y.
    destruct (exec e s c) as [s1| |] eqn:EX; [| |discriminate H].
    + destruct (Y s1 eq_refl) as [B1 E1]. destruct X as (F1 & _). destruct (IH _ _ F1 B1 H G H2) as [B2 E2].
      split; [exact B2|]. intros d. rewrite E2, E1. lia.
    + destruct (IH _ _ F B H G H2) as [B2 E2]. split; [exact B2|]. intros d. rewrite E2.
      assert (Z0 : net_step reg e s c d = 0).
      { destruct c; cbn [net_step]; try reflexivity.
        - cbn [exec] in EX. pose proof (executed_spec e s h n token orch (proj1 F)) as Q. rewrite EX in Q. contradiction.
        - rewrite EX. reflexivity. }
      lia.
Qed.
