(* Histories of blocks: reads at a height. *)
From Coq Require Import Sorting.Sorted.
From Verif Require Import Lib.Base Lib.Bytes Lib.Codec Versiondb.Model Versiondb.Spec Versiondb.Proofs.
Open Scope Z_scope.

Definition block_entries (b : Z * list pair) : list entry := map (entry_of (fst b)) (snd b).
Lemma put_at_db s v cs : s_db (put_at s v cs) = puts (s_db s) (map (entry_of v) cs).
Proof.
  unfold put_at, puts. cbn [s_db]. generalize (s_db s). induction cs as [|p r IH]; intros db; [reflexivity|]. cbn. apply IH.
Qed.
Lemma feed_blocks_app s a b : feed_blocks s (a ++ b) = feed_blocks (feed_blocks s a) b.
Proof. unfold feed_blocks. apply fold_left_app. Qed.
Lemma puts_app db a b : puts db (a ++ b) = puts (puts db a) b.
Proof. apply fold_left_app. Qed.
Lemma feed_blocks_db bs : forall s, s_db (feed_blocks s bs) = puts (s_db s) (flat_map block_entries bs).
Proof.
  induction bs as [|b r IH]; intros s; [reflexivity|]. cbn [feed_blocks fold_left flat_map]. rewrite puts_app.
  change (fold_left _ r ?x) with (feed_blocks x r). rewrite IH, put_at_db. reflexivity.
Qed.

Lemma u64_ok v : ts_ok (u64 v).
Proof. unfold ts_ok, u64, U64. apply Z.mod_pos_bound. reflexivity. Qed.
Lemma u64_small v : 0 <= v < 2 ^ 63 -> u64 v = v.
Proof. intros H. unfold u64, U64. apply Z.mod_small. lia. Qed.
Lemma entries_ok v cs : Forall ent_ok (map (entry_of v) cs).
Proof. apply Forall_forall. intros x Hx. apply in_map_iff in Hx. destruct Hx as (p & <- & _). unfold ent_ok. cbn. apply u64_ok. Qed.
Lemma all_entries_ok bs : Forall ent_ok (flat_map block_entries bs).
Proof.
  induction bs as [|b r IH]; [constructor|]. cbn. apply Forall_app. split; [apply entries_ok|exact IH].
Qed.
Lemma feed_ok bs s : db_ok (s_db s) -> db_ok (s_db (feed_blocks s bs)).
Proof. intros H. rewrite feed_blocks_db. apply puts_ok; [exact H|apply all_entries_ok]. Qed.

(* what the entries say about key k of store n at timestamp t *)
Definition said (db : list entry) (n k : bytes) (t : Z) : option bytes :=
  match newest db (store_prefix n ++ k) t with Some d => e_val d | None => None end.

Lemma puts_bound h es : forall db, db_ok db -> Forall ent_ok es -> (forall d, In d db -> e_ts d <= h) -> (forall d, In d es -> e_ts d <= h) ->
  forall d, In d (puts db es) -> e_ts d <= h.
Proof.
  induction es as [|e r IH]; intros db Hok F D E d Hd; [auto|]. inversion F; subst. cbn in Hd.
  apply (IH (put db e)); auto using put_ok.
  - intros x Hx. apply put_in in Hx; auto. destruct Hx as [->|[Hx _]]; [apply E; left; reflexivity|auto].
  - intros x Hx. apply E. right; exact Hx.
Qed.

Lemma one_block h t ps : forall db c, 0 <= h < 2 ^ 63 -> db_ok db -> (forall d, In d db -> e_ts d <= h) ->
  Forall (fun p => plain_name (p_store p)) ps ->
  (forall n k, plain_name n -> said db n k t = c n k) ->
  forall n k, plain_name n -> said (puts db (map (entry_of h) ps)) n k t = (if h <=? t then fold_left change ps c else c) n k.
Proof.
  induction ps as [|p r IH]; intros db c Hh Hok B F E n k Pn; cbn [map puts fold_left].
  - change (puts db []) with db. rewrite E by exact Pn. destruct (h <=? t); reflexivity.
  - inversion F as [|? ? Pp Fr]; subst.
    assert (He : ent_ok (entry_of h p)) by (apply u64_ok).
    assert (Hts : e_ts (entry_of h p) = h) by (cbn; apply u64_small; exact Hh).
    change (fold_left put ?l ?d) with (puts d l).
    assert (X : forall n k, plain_name n -> said (put db (entry_of h p)) n k t = (if h <=? t then change c p else c) n k).
    { intros n' k' Pn'. unfold said. rewrite newest_put by (auto; intros d Hd _; rewrite Hts; auto).
      rewrite Hts. cbn [entry_of e_key]. destruct (h <=? t).
      - rewrite andb_true_r. unfold change. destruct (beqb (store_prefix (p_store p) ++ p_key p) (store_prefix n' ++ k')) eqn:B'.
        + apply beqb_spec in B'. apply prefix_inj in B'; auto. destruct B' as [-> ->]. rewrite !beqb_refl. reflexivity.
        + destruct (beqb n' (p_store p)) eqn:B1; [|apply E; exact Pn']. destruct (beqb k' (p_key p)) eqn:B2; [|apply E; exact Pn'].
          apply beqb_spec in B1, B2. subst. rewrite beqb_refl in B'. discriminate.
      - rewrite andb_false_r. apply E. exact Pn'. }
    rewrite (IH (put db (entry_of h p)) (if h <=? t then change c p else c)); auto using put_ok.
    + destruct (h <=? t); reflexivity.
    + intros d Hd. apply put_in in Hd; auto. destruct Hd as [->|[Hd _]]; [lia|auto].
Qed.

Lemma filter_app' {A} (f : A -> bool) a b : filter f (a ++ b) = filter f a ++ filter f b.
Proof. apply filter_app. Qed.
Lemma sorted_app_inv {A} (R : A -> A -> Prop) l x : StronglySorted R (l ++ [x]) -> StronglySorted R l /\ Forall (fun y => R y x) l.
Proof.
  induction l as [|a r IH]; intros H; [split; constructor|]. inversion H as [|? ? S F]; subst. destruct (IH S) as [A1 A2].
  apply Forall_app in F. destruct F as [F1 F2]. split; constructor; auto. inversion F2; auto.
Qed.

Theorem said_at_height bs : forall t, heights_ok bs -> names_ok bs -> forall n k, plain_name n ->
  said (s_db (feed_blocks empty bs)) n k t = at_height bs t n k.
Proof.
  intros t [S F] N. enough (G : (forall h, (forall b, In b bs -> fst b <= h) -> forall d, In d (s_db (feed_blocks empty bs)) -> e_ts d <= h) /\
     forall n k, plain_name n -> said (s_db (feed_blocks empty bs)) n k t = at_height bs t n k) by (apply G).
  induction bs as [|b bs IH] using rev_ind.
  - split; [intros h _ d []|]. intros n k _. reflexivity.
  - apply sorted_app_inv in S. destruct S as [S Sb]. apply Forall_app in F. destruct F as [F Fb]. apply Forall_app in N. destruct N as [N Nb].
    destruct (IH S F N) as [G1 G2]. clear IH. inversion Fb as [|? ? Hb _]; subst. inversion Nb as [|? ? Nb' _]; subst.
    assert (Hok : db_ok (s_db (feed_blocks empty bs))) by (apply feed_ok, db_ok_nil).
    rewrite feed_blocks_app. cbn [feed_blocks fold_left]. change (fold_left _ bs empty) with (feed_blocks empty bs). rewrite put_at_db.
    assert (BB : forall d, In d (s_db (feed_blocks empty bs)) -> e_ts d <= fst b).
    { intros d Hd. apply (G1 (fst b)); [|exact Hd]. intros b' Hb'. rewrite Forall_forall in Sb. specialize (Sb b' Hb'). lia. }
    split.
    + intros h Hh d Hd. eapply puts_bound; [exact Hok|apply entries_ok| |  |exact Hd].
      * intros x Hx. specialize (BB x Hx). assert (Hx' := Hh b ltac:(apply in_or_app; right; left; reflexivity)). lia.
      * intros x Hx. apply in_map_iff in Hx. destruct Hx as (p & <- & _). cbn. rewrite u64_small by exact Hb. apply Hh, in_or_app. right; left; reflexivity.
    + intros n k Pn. rewrite (one_block (fst b) t (snd b) _ (at_height bs t)); auto.
      unfold at_height. rewrite filter_app. cbn [filter]. destruct (fst b <=? t); [|rewrite app_nil_r; reflexivity].
      unfold after. rewrite fold_left_app. reflexivity.
Qed.

(* reads *)
Lemma read_ts_ok v : ts_ok (read_ts v).
Proof. destruct v as [v|]; [apply u64_ok|]. unfold ts_ok, read_ts, U64. lia. Qed.
Lemma get_at_said skip s n k v : db_ok (s_db s) -> (forall d, In d (s_db s) -> e_ts d <> 0 \/ skip = false) ->
  get_at skip s n k v = said (s_db s) n k (read_ts v).
Proof.
  intros H Z. unfold get_at, said. rewrite db_get_newest by (auto using read_ts_ok).
  destruct (newest (s_db s) (store_prefix n ++ k) (read_ts v)) as [d|] eqn:E; [|reflexivity].
  destruct (e_val d) as [x|]; [|reflexivity]. apply newest_in in E. destruct E as [E _]. destruct (Z d E) as [N| ->]; [|reflexivity].
  assert (e_ts d =? 0 = false) as -> by lia. rewrite andb_false_r. reflexivity.
Qed.

Lemma at_height_all bs t : (forall b, In b bs -> fst b <= t) -> at_height bs t = after bs.
Proof.
  intros H. unfold at_height. f_equal. induction bs as [|b r IH]; [reflexivity|]. cbn [filter].
  assert (fst b <=? t = true) as -> by (apply Z.leb_le, H; left; reflexivity). f_equal. apply IH. intros x Hx. apply H. right; exact Hx.
Qed.

Lemma in_feed_ts bs d : In d (s_db (feed_blocks empty bs)) -> exists b, In b bs /\ e_ts d = u64 (fst b).
Proof.
  rewrite feed_blocks_db. cbn [empty s_db].
  enough (G : forall es db, db_ok db -> Forall ent_ok es -> In d (puts db es) -> In d db \/ In d es).
  { intros H. apply G in H; [|apply db_ok_nil|apply all_entries_ok]. destruct H as [[]|H]. apply in_flat_map in H.
    destruct H as (b & Hb & H). apply in_map_iff in H. destruct H as (p & <- & _). exists b. split; [exact Hb|reflexivity]. }
  clear. induction es as [|e r IH]; intros db Hok F H; [auto|]. inversion F; subst. cbn in H.
  apply IH in H; auto using put_ok. destruct H as [H|H]; [|right; right; exact H]. apply put_in in H; auto. cbn. intuition auto.
Qed.

Lemma get_height bs skip n k h : heights_ok bs -> names_ok bs -> plain_name n -> (skip = true -> Forall (fun b => fst b <> 0) bs) ->
  (forall v, h = Some v -> 0 <= v < 2 ^ 63) ->
  get_at skip (feed_blocks empty bs) n k h = match h with Some v => at_height bs v n k | None => after bs n k end.
Proof.
  intros Hh N P Z V. rewrite get_at_said.
  - rewrite said_at_height by assumption. destruct h as [v|]; cbn [read_ts].
    + rewrite u64_small by (apply V; reflexivity). reflexivity.
    + rewrite at_height_all; [reflexivity|]. intros b Hb. destruct Hh as [_ F]. rewrite Forall_forall in F. specialize (F b Hb). unfold U64. lia.
  - apply feed_ok, db_ok_nil.
  - intros d Hd. destruct skip; [left|right; reflexivity]. apply in_feed_ts in Hd. destruct Hd as (b & Hb & E).
    destruct Hh as [_ F]. rewrite Forall_forall in F. rewrite E, u64_small by (apply F; exact Hb).
    specialize (Z eq_refl). rewrite Forall_forall in Z. apply Z. exact Hb.
Qed.

(* ---- writing the same block again ---- *)
Lemma put_same db e : db_ok db -> ent_ok e -> In e db -> put db e = db.
Proof.
  intros H He Hin. apply db_ext; [apply put_ok; assumption|exact H|]. intros x. rewrite put_in by assumption. split.
  - intros [->|[X _]]; auto.
  - intros X. destruct (bytes_eq_dec (e_key e) (e_key x)) as [E|E]; [|right; split; [exact X|intros [A _]; auto]].
    destruct (Z.eq_dec (e_ts e) (e_ts x)) as [T|T]; [|right; split; [exact X|intros [_ A]; auto]]. left.
    destruct H as [S _]. clear He. revert Hin X S E T. clear. induction db as [|d r IH]; intros Hin X S E T; [destruct Hin|].
    inversion S as [|? ? Sr Sd]; subst. rewrite Forall_forall in Sd. destruct Hin as [->|Hin], X as [<-|X]; auto.
    + exfalso. apply (elt_irrefl _ _ (Sd _ X)). split; auto.
    + exfalso. apply (elt_irrefl _ _ (Sd _ Hin)). split; auto.
Qed.

(* the last write to key k at timestamp t *)
Definition same_atb (k : bytes) (t : Z) (e : entry) : bool := beqb (e_key e) k && (e_ts e =? t).
Definition last_write (es : list entry) (k : bytes) (t : Z) : option entry := find (same_atb k t) (rev es).
Lemma same_atb_iff k t e : same_atb k t e = true <-> e_key e = k /\ e_ts e = t.
Proof. unfold same_atb. rewrite andb_true_iff, beqb_spec, Z.eqb_eq. tauto. Qed.
Lemma find_app {A} (f : A -> bool) a b : find f (a ++ b) = match find f a with Some x => Some x | None => find f b end.
Proof. induction a as [|x r IH]; [reflexivity|]. cbn. destruct (f x); auto. Qed.
Lemma puts_in es db x : db_ok db -> Forall ent_ok es ->
  (In x (puts db es) <-> last_write es (e_key x) (e_ts x) = Some x \/ (last_write es (e_key x) (e_ts x) = None /\ In x db)).
Proof.
  intros Hok. induction es as [|e es IH] using rev_ind; intros F.
  - cbn. split; [auto|]. intros [H|[_ H]]; [discriminate|exact H].
  - apply Forall_app in F. destruct F as [F Fe]. inversion Fe as [|? ? He _]; subst. specialize (IH F).
    rewrite puts_app. cbn [puts fold_left]. change (fold_left put es db) with (puts db es).
    rewrite put_in by (auto using puts_ok). rewrite IH. unfold last_write. rewrite rev_app_distr. cbn [rev app find].
    change (find (same_atb (e_key x) (e_ts x)) (rev es)) with (last_write es (e_key x) (e_ts x)).
    destruct (same_atb (e_key x) (e_ts x) e) eqn:B.
    + apply same_atb_iff in B. split.
      * intros [->|[_ N]]; [left; reflexivity|]. exfalso. apply N. split; tauto.
      * intros [H|[H _]]; [|discriminate]. left. congruence.
    + split.
      * intros [->|[H _]]; [|exact H]. exfalso. rewrite (proj2 (same_atb_iff _ _ _)) in B; [discriminate|auto].
      * intros H. right. split; [exact H|]. intros [A C]. rewrite (proj2 (same_atb_iff _ _ _)) in B; [discriminate|auto].
Qed.
Lemma puts_twice db es : db_ok db -> Forall ent_ok es -> puts (puts db es) es = puts db es.
Proof.
  intros H F. apply db_ext; auto using puts_ok. intros x. rewrite (puts_in es (puts db es)) by auto using puts_ok.
  rewrite puts_in by assumption. split; intuition auto.
Qed.
Lemma put_at_twice s v cs : db_ok (s_db s) -> put_at (put_at s v cs) v cs = put_at s v cs.
Proof.
  intros H. assert (A : s_db (put_at (put_at s v cs) v cs) = s_db (put_at s v cs)).
  { rewrite (put_at_db (put_at s v cs) v cs), (put_at_db s v cs). apply puts_twice; auto using entries_ok. }
  assert (B : s_latest (put_at (put_at s v cs) v cs) = s_latest (put_at s v cs)) by reflexivity.
  destruct (put_at (put_at s v cs) v cs), (put_at s v cs). cbn in *. congruence.
Qed.
