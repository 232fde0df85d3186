(* Ordered key-value stores: strictly increasing lists of (key, value), as the
   Cosmos SDK's KVStore shows them. *)
From Verif Require Import Lib.Base Lib.Bytes.
From Coq Require Import Sorting.Sorted.
Open Scope N_scope.

Section Kv.
Context {V : Type}.
Implicit Types st : list (bytes * V).

Fixpoint kget st (k : bytes) : option V :=
  match st with [] => None | (k', v) :: st' => if beqb k k' then Some v else kget st' k end.
Fixpoint kset st (k : bytes) (v : V) : list (bytes * V) :=
  match st with
  | [] => [(k, v)]
  | (k', v') :: st' => match bcmp k k' with Lt => (k, v) :: st | Eq => (k, v) :: st' | Gt => (k', v') :: kset st' k v end
  end.
Definition kdel st (k : bytes) : list (bytes * V) := filter (fun p => negb (beqb k (fst p))) st.

Definition klt (p q : bytes * V) : Prop := blt (fst p) (fst q).
Definition ksorted st : Prop := StronglySorted klt st.

Lemma ksorted_nil : ksorted [].
Proof. constructor. Qed.

Lemma kget_above st k : Forall (fun p : bytes * V => blt k (fst p)) st -> kget st k = None.
Proof.
  induction 1 as [|[k' v] st H _ IH]; cbn; [reflexivity|]. cbn in H. destruct (beqb k k') eqn:E; [|exact IH].
  apply beqb_spec in E. subst. destruct (blt_irrefl _ H).
Qed.

Lemma kset_in st k v q : In q (kset st k v) -> q = (k, v) \/ In q st.
Proof.
  induction st as [|[k' v'] st IH]; cbn; [intros [<-|[]]; auto|]. destruct (bcmp k k'); intros [<-|H]; auto.
  destruct (IH H); auto.
Qed.
Lemma kset_sorted st k v : ksorted st -> ksorted (kset st k v).
Proof.
  unfold ksorted. induction 1 as [|[k' v'] st H IH F]; cbn; [repeat constructor|].
  destruct (bcmp_spec k k') as [->|L|L].
  - constructor; [assumption|]. exact F.
  - constructor; [constructor; assumption|]. constructor; [exact L|]. eapply Forall_impl; [|exact F]. intros a Ha. unfold klt in *. cbn in *. eapply blt_trans; eassumption.
  - constructor; [assumption|]. apply Forall_forall. intros q Hq. apply kset_in in Hq as [->|Hq]; [exact L|]. rewrite Forall_forall in F. apply F. exact Hq.
Qed.
Lemma kget_kset st k v k2 : ksorted st -> kget (kset st k v) k2 = if beqb k2 k then Some v else kget st k2.
Proof.
  unfold ksorted. induction 1 as [|[k' v'] st H IH F]; cbn; [reflexivity|].
  destruct (bcmp_spec k k') as [->|L|L]; cbn.
  - destruct (beqb k2 k'); reflexivity.
  - reflexivity.
  - rewrite IH. destruct (beqb k2 k') eqn:E; [|reflexivity]. apply beqb_spec in E. subst k2.
    destruct (beqb k' k) eqn:E2; [|reflexivity]. apply beqb_spec in E2. subst. destruct (blt_irrefl _ L).
Qed.
Lemma kdel_sorted st k : ksorted st -> ksorted (kdel st k).
Proof.
  unfold ksorted. induction 1 as [|[k' v'] st H IH F]; cbn; [constructor|]. destruct (negb _); [|exact IH].
  constructor; [exact IH|]. apply Forall_forall. intros q Hq. apply filter_In in Hq as [Hq _]. rewrite Forall_forall in F. auto.
Qed.
Lemma kget_kdel st k k2 : kget (kdel st k) k2 = if beqb k2 k then None else kget st k2.
Proof.
  induction st as [|[k' v'] st IH]; cbn; [destruct (beqb k2 k); reflexivity|].
  fold (kdel st k). destruct (beqb k k') eqn:E; cbn; fold (kdel st k); rewrite IH.
  - apply beqb_spec in E. subst k'. destruct (beqb k2 k); reflexivity.
  - destruct (beqb k2 k') eqn:E2; [|reflexivity]. apply beqb_spec in E2. subst k'. destruct (beqb k2 k) eqn:E3; [|reflexivity].
    apply beqb_spec in E3. subst. rewrite beqb_refl in E. discriminate.
Qed.
Lemma kget_in st k v : ksorted st -> (kget st k = Some v <-> In (k, v) st).
Proof.
  unfold ksorted. induction 1 as [|[k' v'] st H IH F]; cbn; [split; [discriminate|contradiction]|].
  destruct (beqb k k') eqn:E.
  - apply beqb_spec in E. subst k'. split; [intro X; injection X as ->; auto|]. intros [X|X]; [injection X as ->; reflexivity|].
    rewrite Forall_forall in F. specialize (F _ X). destruct (blt_irrefl _ F).
  - rewrite IH. split; [auto|]. intros [X|X]; [|exact X]. injection X as -> ->. rewrite beqb_refl in E. discriminate.
Qed.
Lemma ksorted_ext a : forall b, ksorted a -> ksorted b -> (forall k, kget a k = kget b k) -> a = b.
Proof.
  induction a as [|[k v] a IH]; intros [|[k' v'] b] Sa Sb H; [reflexivity| | |].
  - specialize (H k'). cbn in H. rewrite beqb_refl in H. discriminate.
  - specialize (H k). cbn in H. rewrite beqb_refl in H. discriminate.
  - apply StronglySorted_inv in Sa as [Sa Fa]. apply StronglySorted_inv in Sb as [Sb Fb].
    assert (Na : forall x, ~ blt k x -> kget a x = None).
    { intros x Hx. apply kget_above. eapply Forall_impl; [|exact Fa]. intros q Hq. unfold klt in Hq. cbn in Hq. destruct (bcmp_spec k x) as [<-|L|L]; [exact Hq|contradiction|eapply blt_trans; eassumption]. }
    assert (Nb : forall x, ~ blt k' x -> kget b x = None).
    { intros x Hx. apply kget_above. eapply Forall_impl; [|exact Fb]. intros q Hq. unfold klt in Hq. cbn in Hq. destruct (bcmp_spec k' x) as [<-|L|L]; [exact Hq|contradiction|eapply blt_trans; eassumption]. }
    assert (k = k' /\ v = v') as [-> ->].
    { destruct (bcmp_spec k k') as [->|L|L].
      - specialize (H k'). cbn in H. rewrite beqb_refl in H. injection H as ->. auto.
      - pose proof (H k) as X. cbn in X. rewrite beqb_refl in X. destruct (beqb k k') eqn:E; [apply beqb_spec in E; subst; destruct (blt_irrefl _ L)|].
        rewrite Nb in X; [discriminate|]. intro Y. apply (blt_irrefl k). eapply blt_trans; eassumption.
      - pose proof (H k') as X. cbn in X. rewrite beqb_refl in X. destruct (beqb k' k) eqn:E; [apply beqb_spec in E; subst; destruct (blt_irrefl _ L)|].
        rewrite Na in X; [discriminate|]. intro Y. apply (blt_irrefl k'). eapply blt_trans; eassumption. }
    f_equal. apply IH; [assumption|assumption|]. intro x. specialize (H x). cbn in H. destruct (beqb x k') eqn:E; [|exact H].
    apply beqb_spec in E. subst. rewrite Na, Nb; [reflexivity| |]; apply blt_irrefl.
Qed.

(* KVStore.Iterator(start, end): end nil means no bound; ReverseIterator is its reverse *)
Definition in_range (lo : bytes) (hi : option bytes) (k : bytes) : bool :=
  negb (bltb k lo) && match hi with None => true | Some h => bltb k h end.
Definition krange st (lo : bytes) (hi : option bytes) : list (bytes * V) := filter (fun p => in_range lo hi (fst p)) st.

Fixpoint has_prefix (p k : bytes) : bool :=
  match p, k with [], _ => true | x :: p', y :: k' => (x =? y) && has_prefix p' k' | _, [] => false end.

(* storetypes.PrefixEndBytes: drop trailing 0xFF, add one to the last byte *)
Fixpoint prefix_end (p : bytes) : option bytes :=
  match p with
  | [] => None
  | x :: p' => match prefix_end p' with
               | Some e => Some (x :: e)
               | None => if x =? 255 then None else Some [x + 1]
               end
  end.

Fixpoint take_while (f : bytes * V -> bool) (l : list (bytes * V)) : list (bytes * V) :=
  match l with [] => [] | x :: l' => if f x then x :: take_while f l' else [] end.

(* prefix.NewStore(parent, p).Iterator(lo, hi): the parent's range, cut at the
   first key without the prefix; keys lose the prefix *)
Definition strip (n : nat) (l : list (bytes * V)) : list (bytes * V) := map (fun q => (skipn n (fst q), snd q)) l.
Definition pbounds (p lo : bytes) (hi : option bytes) : bytes * option bytes :=
  (p ++ lo, match hi with None => prefix_end p | Some e => Some (p ++ e) end).
Definition pscan st (p lo : bytes) (hi : option bytes) : list (bytes * V) :=
  let '(l, h) := pbounds p lo hi in
  strip (length p) (take_while (fun q => has_prefix p (fst q)) (krange st l h)).
Definition prscan st (p lo : bytes) (hi : option bytes) : list (bytes * V) :=
  let '(l, h) := pbounds p lo hi in
  strip (length p) (take_while (fun q => has_prefix p (fst q)) (rev (krange st l h))).
End Kv.

Lemma has_prefix_app p k : has_prefix p (p ++ k) = true.
Proof. induction p as [|x p IH]; cbn; [destruct k; reflexivity|]. rewrite N.eqb_refl. exact IH. Qed.
Lemma has_prefix_spec p k : has_prefix p k = true <-> k = p ++ skipn (length p) k.
Proof.
  revert k. induction p as [|x p IH]; intros [|y k]; cbn; try (split; [reflexivity|reflexivity]); [split; discriminate|].
  rewrite andb_true_iff, N.eqb_eq, IH. split; [intros [-> ->]; f_equal; rewrite skipn_app, Nat.sub_diag, skipn_all; reflexivity|].
  intro H. injection H as -> H. auto.
Qed.
Lemma has_prefix_ex p k : has_prefix p k = true <-> exists r, k = p ++ r.
Proof. split; [rewrite has_prefix_spec; eauto|]. intros (r & ->). apply has_prefix_app. Qed.

Definition bytes_ok (k : bytes) : Prop := Forall (fun x : N => x < 256) k.

(* keys from the prefix up to an extension of the prefix carry the prefix *)
Lemma between_prefix p k lo hi : ~ blt k (p ++ lo) -> blt k (p ++ hi) -> has_prefix p k = true.
Proof.
  unfold blt. revert k. induction p as [|x p IH]; intros k H1 H2; [destruct k; reflexivity|].
  destruct k as [|y k]; cbn in *; [congruence|]. destruct (y ?= x) eqn:E; try congruence.
  apply N.compare_eq in E. subst. rewrite N.eqb_refl. cbn. apply IH; auto.
Qed.
Lemma prefix_end_spec p k : bytes_ok k -> bytes_ok p ->
  in_range p (prefix_end p) k = has_prefix p k.
Proof.
  unfold in_range. revert k. induction p as [|x p IH]; intros k Hk Hp.
  - destruct k; reflexivity.
  - destruct k as [|y k]; [reflexivity|]. inversion Hk; inversion Hp; subst. specialize (IH k ltac:(assumption) ltac:(assumption)).
    cbn [prefix_end has_prefix]. unfold bltb in *. cbn [bcmp].
    destruct (N.compare_spec y x) as [->|L|L]; cbn.
    + rewrite N.eqb_refl. cbn. rewrite <- IH. destruct (bcmp k p); cbn; try reflexivity; destruct (prefix_end p) as [e|]; cbn.
      * rewrite N.compare_refl. reflexivity.
      * destruct (x =? 255) eqn:E; cbn; [reflexivity|]. destruct (N.compare_spec x (x + 1)); [lia|reflexivity|lia].
      * rewrite N.compare_refl. reflexivity.
      * destruct (x =? 255) eqn:E; cbn; [reflexivity|]. destruct (N.compare_spec x (x + 1)); [lia|reflexivity|lia].
    + replace (x =? y) with false by (symmetry; apply N.eqb_neq; lia). reflexivity.
    + replace (x =? y) with false by (symmetry; apply N.eqb_neq; lia). cbn. destruct (prefix_end p) as [e|]; cbn.
      * destruct (N.compare_spec y x); [lia|lia|reflexivity].
      * destruct (N.eqb_spec x 255); [lia|]. cbn. destruct (N.compare_spec y (x + 1)); [|lia|reflexivity]. destruct k; reflexivity.
Qed.

Lemma take_while_all {V} f (l : list (bytes * V)) : (forall q, In q l -> f q = true) -> take_while f l = l.
Proof. induction l as [|x l IH]; cbn; intro H; [reflexivity|]. rewrite H, IH by auto. reflexivity. Qed.

(* what a prefix store iterates over *)
Definition pmatch (p lo : bytes) (hi : option bytes) (k : bytes) : bool :=
  has_prefix p k && in_range lo hi (skipn (length p) k).

Lemma bcmp_prefix p a b : bcmp (p ++ a) (p ++ b) = bcmp a b.
Proof. induction p as [|x p IH]; cbn; [reflexivity|]. rewrite N.compare_refl. exact IH. Qed.

Lemma pbounds_match p lo hi k : bytes_ok k -> bytes_ok p ->
  in_range (fst (pbounds p lo hi)) (snd (pbounds p lo hi)) k = pmatch p lo hi k.
Proof.
  intros Hk Hp. unfold pmatch, pbounds. cbn [fst snd]. destruct (has_prefix p k) eqn:E; cbn [andb].
  - apply has_prefix_ex in E as (r & ->). rewrite skipn_app, Nat.sub_diag, skipn_all. cbn [app skipn].
    unfold in_range, bltb. rewrite bcmp_prefix. f_equal. destruct hi as [h|]; [rewrite bcmp_prefix; reflexivity|].
    pose proof (prefix_end_spec p (p ++ r) Hk Hp) as X. rewrite has_prefix_app in X. unfold in_range in X. apply andb_true_iff in X as [_ X]. exact X.
  - unfold in_range. destruct (bltb k (p ++ lo)) eqn:L; [reflexivity|]. cbn [negb andb].
    assert (NL : ~ blt k (p ++ lo)) by (intro X; apply bltb_spec in X; congruence).
    destruct hi as [h|].
    + destruct (bltb k (p ++ h)) eqn:L2; [|reflexivity]. apply bltb_spec in L2. rewrite (between_prefix p k lo h NL L2) in E. discriminate.
    + pose proof (prefix_end_spec p k Hk Hp) as X. rewrite E in X. unfold in_range in X. apply andb_false_iff in X as [X|X]; [|exact X].
      apply negb_false_iff, bltb_spec in X. exfalso. apply NL. eapply blt_le_trans; [exact X|]. clear. unfold ble. induction p as [|x p IH]; cbn; [destruct lo; discriminate|].
      rewrite N.compare_refl. exact IH.
Qed.

Section Scans.
Context {V : Type}.
Implicit Types st : list (bytes * V).
Definition keys_ok st : Prop := Forall (fun q : bytes * V => bytes_ok (fst q)) st.

Lemma krange_pbounds st p lo hi : keys_ok st -> bytes_ok p ->
  krange st (fst (pbounds p lo hi)) (snd (pbounds p lo hi)) = filter (fun q => pmatch p lo hi (fst q)) st.
Proof.
  intros K Hp. unfold krange. apply filter_ext_in. intros q Hq. unfold keys_ok in K. rewrite Forall_forall in K. apply pbounds_match; auto.
Qed.
Lemma pscan_filter st p lo hi : keys_ok st -> bytes_ok p -> pscan st p lo hi = strip (length p) (filter (fun q => pmatch p lo hi (fst q)) st).
Proof.
  intros K Hp. unfold pscan. pose proof (krange_pbounds st p lo hi K Hp) as E. unfold pbounds in *. cbn [fst snd] in E. rewrite E.
  rewrite take_while_all; [reflexivity|]. intros q Hq. apply filter_In in Hq as [_ Hq]. unfold pmatch in Hq. apply andb_true_iff in Hq as [Hq _]. exact Hq.
Qed.
Lemma prscan_filter st p lo hi : keys_ok st -> bytes_ok p -> prscan st p lo hi = rev (pscan st p lo hi).
Proof.
  intros K Hp. rewrite pscan_filter by assumption. unfold prscan. pose proof (krange_pbounds st p lo hi K Hp) as E. unfold pbounds in *. cbn [fst snd] in E. rewrite E.
  rewrite take_while_all; [unfold strip; rewrite map_rev; reflexivity|]. intros q Hq. apply in_rev in Hq. apply filter_In in Hq as [_ Hq]. unfold pmatch in Hq. apply andb_true_iff in Hq as [Hq _]. exact Hq.
Qed.

Lemma keys_ok_kset st k v : bytes_ok k -> keys_ok st -> keys_ok (kset st k v).
Proof. intros Hk K. apply Forall_forall. intros q Hq. apply kset_in in Hq as [->|Hq]; [exact Hk|]. unfold keys_ok in K. rewrite Forall_forall in K. auto. Qed.
Lemma keys_ok_kdel st k : keys_ok st -> keys_ok (kdel st k).
Proof. intro K. apply Forall_forall. intros q Hq. apply filter_In in Hq as [Hq _]. unfold keys_ok in K. rewrite Forall_forall in K. auto. Qed.
End Scans.
