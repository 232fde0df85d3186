From Coq Require Import Sorting.Sorted.
From Verif Require Import Lib.Base Lib.Bytes Lib.Codec Lib.Kv Hyperion.Keys Hyperion.KeySpec.
Open Scope Z_scope.

(* ---------- bytes ---------- *)

Lemma le_bytes_ok n : forall x, bytes_ok (le n x).
Proof.
  induction n as [|n IH]; intro x; cbn [le]; [constructor|]. constructor; [|apply IH].
  pose proof (Z.mod_pos_bound x 256 ltac:(lia)). lia.
Qed.
Lemma be_bytes_ok n x : bytes_ok (be n x).
Proof. unfold be. apply Forall_rev, le_bytes_ok. Qed.
Lemma b8_len x : length (b8 x) = 8%nat. Proof. apply be_length. Qed.
Lemma b8_inj x y : u64 x -> u64 y -> b8 x = b8 y -> x = y.
Proof. apply (be_inj 8). Qed.
Lemma beqb_be n x y : 0 <= x < 256 ^ Z.of_nat n -> 0 <= y < 256 ^ Z.of_nat n -> beqb (be n x) (be n y) = (x =? y).
Proof.
  intros Hx Hy. destruct (Z.eqb_spec x y) as [->|Ne]; [apply beqb_refl|]. apply beqb_neq. intro E. apply Ne. eapply be_inj; eassumption.
Qed.
Lemma beqb_b8 x y : u64 x -> u64 y -> beqb (b8 x) (b8 y) = (x =? y).
Proof. apply (beqb_be 8). Qed.
Lemma app_inj (a b c d : bytes) : length a = length c -> a ++ b = c ++ d -> a = c /\ b = d.
Proof. intro L. apply app_inj_len. unfold blen. congruence. Qed.

Lemma has_prefix_same a a' p k : length a = length a' -> has_prefix (a ++ p) (a' ++ k) = beqb a a' && has_prefix p k.
Proof.
  revert a'. induction a as [|x a IH]; intros [|y a'] L; try discriminate; [reflexivity|]. injection L as L. cbn [app has_prefix].
  rewrite (IH a' L). unfold beqb. cbn [bcmp]. destruct (N.compare_spec x y) as [->|X|X].
  - rewrite N.eqb_refl. reflexivity.
  - replace (x =? y)%N with false by (symmetry; apply N.eqb_neq; lia). reflexivity.
  - replace (x =? y)%N with false by (symmetry; apply N.eqb_neq; lia). reflexivity.
Qed.
Lemma has_prefix_nil k : has_prefix [] k = true. Proof. destruct k; reflexivity. Qed.
Lemma has_prefix_b8 x y p k : u64 x -> u64 y -> has_prefix (b8 x ++ p) (b8 y ++ k) = (x =? y) && has_prefix p k.
Proof. intros Hx Hy. rewrite has_prefix_same by (rewrite !b8_len; reflexivity). rewrite beqb_b8 by assumption. reflexivity. Qed.
Lemma has_prefix_b8_end x y k : u64 x -> u64 y -> has_prefix (b8 x) (b8 y ++ k) = (x =? y).
Proof. intros Hx Hy. rewrite <- (app_nil_r (b8 x)). rewrite has_prefix_b8, has_prefix_nil, andb_true_r by assumption. reflexivity. Qed.
Lemma has_prefix_sized n t t' p k : sized n t -> sized n t' -> has_prefix (t ++ p) (t' ++ k) = beqb t t' && has_prefix p k.
Proof. intros [A _] [B _]. apply has_prefix_same. congruence. Qed.
Lemma has_prefix_sized_end n t t' k : sized n t -> sized n t' -> has_prefix t (t' ++ k) = beqb t t'.
Proof. intros A B. rewrite <- (app_nil_r t) at 1. rewrite (has_prefix_sized n), has_prefix_nil, andb_true_r by assumption. reflexivity. Qed.

(* ---------- PrefixRange ---------- *)

Lemma not_below_zeros (p k : bytes) : (length p <= length k)%nat -> bltb k (map (fun _ => 0%N) p) = false.
Proof.
  revert k. induction p as [|x p IH]; intros k L; [destruct k; reflexivity|]. destruct k as [|y k]; [cbn in L; lia|]. cbn in L.
  unfold bltb. cbn [map bcmp]. destruct (N.compare_spec y 0) as [->|X|X]; [|lia|reflexivity]. apply (IH k). lia.
Qed.
Lemma incr_spec p : forall k, bytes_ok k -> bytes_ok p -> (length p <= length k)%nat -> in_range p (incr p) k = has_prefix p k.
Proof.
  unfold in_range. induction p as [|x p IH]; intros k Hk Hp L.
  - destruct k; reflexivity.
  - destruct k as [|y k]; [cbn in L; lia|]. cbn in L. inversion Hk; inversion Hp; subst. specialize (IH k ltac:(assumption) ltac:(assumption) ltac:(lia)).
    cbn [incr has_prefix]. unfold bltb in *. cbn [bcmp]. destruct (N.compare_spec y x) as [->|X|X]; cbn.
    + rewrite N.eqb_refl. cbn. rewrite <- IH. destruct (bcmp k p); cbn; try reflexivity; destruct (incr p) as [e|]; cbn; try (rewrite N.compare_refl; reflexivity);
        destruct (x =? 255)%N eqn:E; cbn; try reflexivity; destruct (N.compare_spec x (x + 1)); try lia; reflexivity.
    + replace (x =? y)%N with false by (symmetry; apply N.eqb_neq; lia). reflexivity.
    + replace (x =? y)%N with false by (symmetry; apply N.eqb_neq; lia). cbn. destruct (incr p) as [e|]; cbn.
      * destruct (N.compare_spec y x); [lia|lia|reflexivity].
      * destruct (N.eqb_spec x 255); [lia|]. cbn. destruct (N.compare_spec y (x + 1)); [|lia|reflexivity].
        pose proof (not_below_zeros p k ltac:(lia)) as Z. unfold bltb in Z. exact Z.
Qed.
(* a key that starts elsewhere is never in the range *)
Lemma incr_far t p y k : (y < 256)%N -> (y < t \/ t + 1 < y)%N -> in_range (t :: p) (incr (t :: p)) (y :: k) = false.
Proof.
  intros B H. unfold in_range, bltb. cbn [incr bcmp]. destruct (N.compare_spec y t) as [->|X|X]; [lia|reflexivity|]. cbn.
  destruct (incr p) as [e|]; cbn.
  - destruct (N.compare_spec y t); [lia|lia|reflexivity].
  - destruct (N.eqb_spec t 255) as [->|Ne]; [exfalso; lia|].
    cbn. destruct (N.compare_spec y (t + 1)); [lia|lia|reflexivity].
Qed.

(* ---------- keys ---------- *)

Lemma tag_byte k : (tag k < 256)%N.
Proof. destruct k; reflexivity. Qed.
Lemma bytes_ok_app a b : bytes_ok a -> bytes_ok b -> bytes_ok (a ++ b).
Proof. intros. apply Forall_app. auto. Qed.
Lemma b8_ok x : bytes_ok (b8 x). Proof. apply be_bytes_ok. Qed.
Lemma encode_ok k : wf k -> bytes_ok (encode k).
Proof.
  intro W. unfold encode. constructor; [apply tag_byte|].
  destruct k; cbn [body wf] in *; repeat match goal with H : _ /\ _ |- _ => destruct H | H : sized _ _ |- _ => destruct H | H : chain_addr _ |- _ => destruct H end;
    repeat match goal with
      | |- Forall _ ?b => change (bytes_ok b)
      | |- bytes_ok [] => apply Forall_nil
      | |- bytes_ok (_ ++ _) => apply bytes_ok_app
      | |- bytes_ok (b8 _) => apply b8_ok
      | |- bytes_ok (be _ _) => apply be_bytes_ok
      | |- bytes_ok (_ :: _) => apply Forall_cons; [lia|]
      | |- bytes_ok last_tx_pool_id => unfold last_tx_pool_id
      | |- bytes_ok last_batch_id => unfold last_batch_id
      | H : bytes_ok ?b |- bytes_ok ?b => exact H
      end.
Qed.

Lemma cons_inj (x y : N) (a b : bytes) : x :: a = y :: b -> a = b.
Proof. congruence. Qed.
Lemma be32_inj x y : 0 <= x < 2 ^ 256 -> 0 <= y < 2 ^ 256 -> be 32 x = be 32 y -> x = y.
Proof. apply (be_inj 32). Qed.
Lemma encode_inj j k : wf j -> wf k -> encode j = encode k -> j = k.
Proof.
  intros Wj Wk E. unfold encode in E. injection E as Et Eb.
  destruct j, k; cbn [tag] in Et; try discriminate Et; cbn [body wf] in *; clear Et;
    repeat match goal with H : _ /\ _ |- _ => destruct H | H : sized _ _ |- _ => destruct H | H : chain_addr _ |- _ => destruct H end;
    repeat match type of Eb with
      | _ :: _ = _ :: _ => apply cons_inj in Eb
      | b8 _ = b8 _ => apply b8_inj in Eb; [|assumption|assumption]; subst
      | be 32 _ = be 32 _ => apply be32_inj in Eb; [|assumption|assumption]; subst
      | ?a ++ _ = ?b ++ _ => let X := fresh "X" in apply app_inj in Eb as [X Eb]; [|rewrite ?b8_len; congruence];
          first [apply b8_inj in X; [|assumption|assumption] | idtac]; subst
      end; try reflexivity; try congruence.
  - exfalso. apply (f_equal (@length N)) in Eb. rewrite !app_length, !b8_len in Eb. discriminate Eb.
  - exfalso. apply (f_equal (@length N)) in Eb. rewrite !app_length, !b8_len in Eb. discriminate Eb.
  - f_equal. apply be32_inj; [split; assumption|split; assumption|exact Eb].
Qed.

Lemma encode_long k : wf k -> (9 <= length (encode k))%nat \/ k = KParams \/ k = KLastUnbonding \/ k = KLastFinalized.
Proof.
  intro W. unfold encode. destruct k; cbn [body wf] in *; auto; left; cbn [length]; rewrite ?app_length, ?b8_len, ?be_length;
    repeat match goal with H : _ /\ _ |- _ => destruct H | H : sized _ _ |- _ => destruct H as [-> _] | H : chain_addr _ |- _ => destruct H end; try lia.
Qed.

(* ---------- scans ---------- *)

Section Scan.
Context {V : Type}.
Implicit Types (st : list (bytes * V)) (recs : list (skey * V)).

Lemma holds_ok st recs : holds st recs -> keys_ok st.
Proof.
  intros (-> & _ & W). unfold keys_ok. apply Forall_map. eapply Forall_impl; [|exact W]. intros r Hr. cbn. apply encode_ok. exact Hr.
Qed.
Lemma filter_recs st recs (f : bytes -> bool) (P : skey -> bool) : holds st recs -> (forall k, wf k -> f (encode k) = P k) ->
  filter (fun q => f (fst q)) st = map (fun r => (encode (fst r), snd r)) (filter (fun r => P (fst r)) recs).
Proof.
  intros (-> & _ & W) H. induction W as [|[k v] recs Hk W IH]; cbn; [reflexivity|]. rewrite (H k Hk). destruct (P k); cbn; rewrite IH; reflexivity.
Qed.
Lemma strip_recs n (P : skey -> bool) recs : strip n (map (fun r => (encode (fst r), snd r)) (filter (fun r => P (fst r)) recs)) = selected n P recs.
Proof. unfold strip, selected. rewrite map_map. reflexivity. Qed.

(* a scan of the whole store by kind and id *)
Lemma scan_sel st recs t h P : holds st recs -> (t < 256)%N ->
  (t <> 3 /\ t <> 4 /\ t <> 247 /\ t <> 248 /\ t <> 29 /\ t <> 30)%N -> (forall k, wf k -> has_prefix (t :: b8 h) (encode k) = P k) ->
  scan_range st (prefix_range (t :: b8 h)) = selected 0 P recs.
Proof.
  intros Ho Ht Hs HP. unfold scan_range, prefix_range, krange. cbn [fst snd].
  assert (F : forall k, wf k -> in_range (t :: b8 h) (incr (t :: b8 h)) (encode k) = P k).
  { intros k Wk. rewrite <- HP by exact Wk. destruct (encode_long k Wk) as [L|S].
    - apply incr_spec; [apply encode_ok; exact Wk|constructor; [exact Ht|apply b8_ok]|]. cbn [length]. rewrite b8_len. exact L.
    - assert (T : (tag k = 4 \/ tag k = 248 \/ tag k = 30)%N) by (destruct S as [->|[->| ->]]; cbn; auto).
      unfold encode. rewrite incr_far; [|apply tag_byte|lia]. cbn [has_prefix]. destruct (N.eqb_spec t (tag k)); [lia|reflexivity]. }
  rewrite (filter_recs st recs _ P Ho F). unfold selected. cbn [skipn]. reflexivity.
Qed.

(* a scan of a prefix store *)
Lemma pscan_sel st recs p lo hi P : holds st recs -> bytes_ok p -> (forall k, wf k -> pmatch p lo hi (encode k) = P k) ->
  pscan st p lo hi = selected (length p) P recs.
Proof.
  intros Ho Hp HP. rewrite pscan_filter; [|eapply holds_ok; exact Ho|exact Hp]. rewrite (filter_recs st recs _ P Ho HP). apply strip_recs.
Qed.
Lemma prscan_sel st recs p lo hi P : holds st recs -> bytes_ok p -> (forall k, wf k -> pmatch p lo hi (encode k) = P k) ->
  prscan st p lo hi = rev (selected (length p) P recs).
Proof.
  intros Ho Hp HP. rewrite prscan_filter; [|eapply holds_ok; exact Ho|exact Hp]. rewrite (pscan_sel st recs p lo hi P Ho Hp HP). reflexivity.
Qed.

Lemma in_range_all k : in_range [] None k = true.
Proof. unfold in_range, bltb. destruct k; reflexivity. Qed.
Lemma pmatch_all p k : pmatch p [] None k = has_prefix p k.
Proof. unfold pmatch. rewrite in_range_all. apply andb_true_r. Qed.

Lemma filter_filter {A} (f g : A -> bool) l : filter f (filter g l) = filter (fun x => g x && f x) l.
Proof. induction l as [|x l IH]; cbn; [reflexivity|]. destruct (g x); cbn; rewrite IH; reflexivity. Qed.
(* deleting what a scan returns *)
Lemma kdel_fold (l : list (bytes * V)) p : forall st,
  fold_left (fun s q => kdel s (p ++ fst q)) l st = filter (fun q => negb (existsb (fun r => beqb (p ++ fst r) (fst q)) l)) st.
Proof.
  induction l as [|x l IH]; intro st; cbn [fold_left existsb].
  - induction st as [|y st IHs]; [reflexivity|]. cbn. f_equal. exact IHs.
  - rewrite IH. unfold kdel. rewrite filter_filter. apply filter_ext. intro q. rewrite negb_orb. reflexivity.
Qed.
Lemma pclean_sel st recs p P : holds st recs -> bytes_ok p -> (forall k, wf k -> has_prefix p (encode k) = P k) ->
  holds (pclean st p) (filter (fun r => negb (P (fst r))) recs).
Proof.
  intros Ho Hp HP. unfold pclean. rewrite kdel_fold. rewrite pscan_filter; [|eapply holds_ok; exact Ho|exact Hp].
  assert (E : filter (fun q => negb (existsb (fun r => beqb (p ++ fst r) (fst q)) (strip (length p) (filter (fun q => pmatch p [] None (fst q)) st)))) st
            = filter (fun q => negb (has_prefix p (fst q))) st).
  { apply filter_ext_in. intros q Hq. f_equal. destruct (has_prefix p (fst q)) eqn:E.
    - apply existsb_exists. exists (skipn (length p) (fst q), snd q). split; [|cbn; apply beqb_spec; symmetry; apply has_prefix_spec; exact E].
      unfold strip. apply (in_map (fun q : bytes * V => (skipn (length p) (fst q), snd q))). apply filter_In. rewrite pmatch_all. auto.
    - apply not_true_is_false. intro X. apply existsb_exists in X as (r & _ & Hr). apply beqb_spec in Hr. rewrite <- Hr, has_prefix_app in E. discriminate. }
  rewrite E. rewrite (filter_recs st recs (fun k => negb (has_prefix p k)) (fun k => negb (P k)) Ho) by (intros k Wk; rewrite HP by exact Wk; reflexivity).
  destruct Ho as (-> & S & W). split; [reflexivity|]. split; [|apply Forall_forall; intros r Hr; apply filter_In in Hr as [Hr _]; rewrite Forall_forall in W; auto].
  clear -S. induction recs as [|[k v] recs IH]; cbn; [constructor|]. cbn in S. apply StronglySorted_inv in S as [S F]. destruct (negb (P k)); [|apply IH; exact S].
  cbn. constructor; [apply IH; exact S|]. apply Forall_forall. intros q Hq. apply in_map_iff in Hq as (r & <- & Hr). apply filter_In in Hr as [Hr _].
  rewrite Forall_forall in F. apply F. apply (in_map (fun r : skey * V => (encode (fst r), snd r))). exact Hr.
Qed.

(* every store written through the module's keys holds records *)
Lemma holds_nil : holds (V := V) [] [].
Proof. split; [reflexivity|]. split; constructor. Qed.
Lemma holds_kset st recs k v : wf k -> holds st recs -> exists recs', holds (kset st (encode k) v) recs' /\
  (forall k' v', In (k', v') recs' <-> (k' = k /\ v' = v) \/ (k' <> k /\ In (k', v') recs)).
Proof.
  intros Wk (-> & S & W).
  assert (Ex : exists recs', kset (map (fun r => (encode (fst r), snd r)) recs) (encode k) v = map (fun r => (encode (fst r), snd r)) recs' /\
    Forall (fun r : skey * V => wf (fst r)) recs').
  { clear S. induction W as [|[j u] recs Wj W IH]; cbn [map kset fst snd].
    - exists [(k, v)]. split; [reflexivity|]. repeat constructor. exact Wk.
    - destruct (bcmp (encode k) (encode j)).
      + exists ((k, v) :: recs). split; [reflexivity|constructor; assumption].
      + exists ((k, v) :: (j, u) :: recs). split; [reflexivity|]. constructor; [exact Wk|constructor; assumption].
      + destruct IH as (recs' & -> & W'). exists ((j, u) :: recs'). split; [reflexivity|constructor; assumption]. }
  destruct Ex as (recs' & E & W'). exists recs'. assert (S' : ksorted (kset (map (fun r => (encode (fst r), snd r)) recs) (encode k) v)) by (apply kset_sorted; exact S).
  split; [split; [exact E|split; [exact S'|exact W']]|].
  assert (Get : forall l k' v', Forall (fun r : skey * V => wf (fst r)) l -> ksorted (map (fun r => (encode (fst r), snd r)) l) ->
    (In (k', v') l <-> wf k' /\ kget (map (fun r => (encode (fst r), snd r)) l) (encode k') = Some v')).
  { intros l k' v' Wl Sl. rewrite kget_in by exact Sl. rewrite Forall_forall in Wl. split.
    - intro H. split; [exact (Wl _ H)|]. apply (in_map (fun r : skey * V => (encode (fst r), snd r)) l (k', v')). exact H.
    - intros [Wk' H]. apply in_map_iff in H as ([a b] & Eq & Hin). apply pair_equal_spec in Eq as [Eq1 Eq2]. cbn [fst snd] in Eq1, Eq2. apply encode_inj in Eq1; [subst; exact Hin|exact (Wl _ Hin)|exact Wk']. }
  intros k' v'. rewrite E in S'. rewrite (Get recs' k' v' W' S'), <- E, kget_kset by exact S. rewrite (Get recs k' v' W S).
  destruct (beqb (encode k') (encode k)) eqn:B.
  - apply beqb_spec in B. split.
    + intros [Wk' X]. injection X as <-. apply encode_inj in B; [|exact Wk'|exact Wk]. auto.
    + intros [[-> ->]|[Ne [Wk' _]]]; [auto|]. apply encode_inj in B; [|exact Wk'|exact Wk]. contradiction.
  - apply beqb_neq in B. split; [intros X; right; split; [intros ->; congruence|exact X]|].
    intros [[-> _]|[_ X]]; [congruence|exact X].
Qed.
End Scan.
