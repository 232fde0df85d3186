(* Lemmas for C117. *)
From Verif Require Import Lib.Base Lib.Zmap Hyperion.History Hyperion.HistorySpec.
Open Scope Z_scope.

Definition keyed (l : list ftx) : list (Z * ftx) := map (fun x => (f_index x, x)) l.

Lemma numbered_app l : forall n k, numbered n (l ++ k) = numbered n l ++ numbered (n + Z.of_nat (length l)) k.
Proof.
  induction l as [|x l IH]; intros n k; cbn [app numbered length]; [f_equal; lia|]. rewrite IH. do 3 f_equal. lia.
Qed.
Lemma numbered_length l : forall n, length (numbered n l) = length l.
Proof. induction l as [|x l IH]; intro n; [reflexivity|]. cbn [numbered length]. rewrite IH. reflexivity. Qed.
Lemma numbered_shown l : forall n, map shown (numbered n l) = map shown l.
Proof. induction l as [|x l IH]; intro n; [reflexivity|]. cbn [numbered map]. rewrite IH. reflexivity. Qed.
Lemma numbered_keys l : forall n, Forall (fun k => n <= k < n + Z.of_nat (length l)) (zkeys (keyed (numbered n l))).
Proof.
  induction l as [|x l IH]; intro n; cbn [numbered keyed map zkeys length]; constructor; [cbn; lia|].
  specialize (IH (n + 1)). eapply Forall_impl; [|exact IH]. intros k H. cbn beta in *. lia.
Qed.
Lemma zset_end {V} (m : list (Z * V)) k v : Forall (fun k' => k' < k) (zkeys m) -> zset m k v = m ++ [(k, v)].
Proof.
  induction m as [|[k' w] m IH]; intro F; [reflexivity|]. inversion F; subst. cbn [zset app fst] in *.
  rewrite IH by assumption. replace (k <? k') with false by lia. replace (k' =? k) with false by lia. reflexivity.
Qed.
Lemma keyed_vals l : zvals (keyed l) = l.
Proof. unfold zvals, keyed. rewrite map_map. apply map_id. Qed.

Lemma last_numbered s a L : by_addr s a = keyed (numbered 1 L) -> last_index s a = Z.of_nat (length L).
Proof.
  intro E. unfold last_index. rewrite E. clear E. induction L as [|x L _] using rev_ind; [reflexivity|].
  rewrite numbered_app. unfold keyed. rewrite map_app, rev_app_distr. cbn [numbered map rev app f_index]. rewrite app_length. cbn [length]. lia.
Qed.
Lemma put_numbered s a L x i : by_addr s a = keyed (numbered 1 L) -> i = Z.of_nat (length L) + 1 ->
  by_addr (put_tx s a (with_index x i)) a = keyed (numbered 1 (L ++ [x])).
Proof.
  intros E ->. unfold put_tx. cbn [by_addr]. rewrite Z.eqb_refl, E. cbn [with_index f_index]. rewrite zset_end.
  - rewrite numbered_app. unfold keyed. rewrite map_app. cbn [numbered map f_index]. rewrite (Z.add_comm 1). reflexivity.
  - eapply Forall_impl; [|apply numbered_keys]. cbn beta. lia.
Qed.
Lemma put_others s a x b : b <> a -> by_addr (put_tx s a x) b = by_addr s b.
Proof. intro N. unfold put_tx. cbn [by_addr]. destruct (Z.eqb_spec b a); [contradiction|reflexivity]. Qed.

(* the newest of a list *)
Lemma newest_skipn {A} n (l : list A) : newest n l = skipn (length l - n) l.
Proof. unfold newest. rewrite firstn_rev, rev_involutive. reflexivity. Qed.
Lemma skip_skip {A} a b (l : list A) : skipn a (skipn b l) = skipn (b + a) l.
Proof. revert l. induction b as [|b IH]; intro l; [reflexivity|]. destruct l; cbn [skipn Nat.add]; [apply skipn_nil|apply IH]. Qed.
Lemma keep_newest l : keep_last l = newest 100 l.
Proof.
  unfold keep_last. rewrite newest_skipn. destruct (100 <? length l)%nat eqn:E; [reflexivity|]. apply Nat.ltb_ge in E.
  replace (length l - 100)%nat with 0%nat by lia. reflexivity.
Qed.
Lemma newest_map {A B} (f : A -> B) n l : map f (newest n l) = newest n (map f l).
Proof. unfold newest. rewrite map_rev, <- firstn_map, map_rev. reflexivity. Qed.
Lemma newest_snoc {A} n (l : list A) x : newest n (newest n l ++ [x]) = newest n (l ++ [x]).
Proof.
  unfold newest. rewrite !rev_app_distr, rev_involutive. cbn [rev app]. f_equal. destruct n as [|n]; [reflexivity|]. rewrite !firstn_cons. f_equal.
  rewrite firstn_firstn. f_equal. lia.
Qed.

Definition good (s : store) (l : list ftx) : Prop :=
  (forall a, by_addr s a = keyed (numbered 1 (history a l))) /\ map shown (recent s) = map shown (newest 100 l).
Lemma history_snoc a l x : history a (l ++ [x]) = if concerns a x then history a l ++ [x] else history a l.
Proof. unfold history. rewrite filter_app. cbn [filter]. destruct (concerns a x); [reflexivity|apply app_nil_r]. Qed.
Lemma store_good s l x : good s l -> good (store_in s x) (l ++ [x]).
Proof.
  intros [G Rc]. unfold store_in. set (x1 := with_index x (last_index s (f_from x) + 1)). set (s1 := put_recent (put_tx s (f_from x) x1) x1).
  assert (map shown (recent s1) = map shown (newest 100 (l ++ [x]))) as R1.
  { unfold s1, put_recent, put_tx. cbn [recent]. rewrite keep_newest, newest_map, map_app, Rc, newest_map. cbn [map]. change (shown x1) with (shown x).
    rewrite newest_snoc, newest_map, map_app. reflexivity. }
  assert (by_addr s1 (f_from x) = keyed (numbered 1 (history (f_from x) l ++ [x]))) as B1.
  { unfold s1. cbn [put_recent by_addr]. unfold x1. apply put_numbered; [apply G|]. rewrite (last_numbered s (f_from x) _ (G _)). reflexivity. }
  assert (forall a, a <> f_from x -> by_addr s1 a = keyed (numbered 1 (history a l))) as B2.
  { intros a N. unfold s1. cbn [put_recent by_addr]. change (by_addr (put_tx s (f_from x) x1) a = keyed (numbered 1 (history a l))). rewrite put_others by exact N. apply G. }
  destruct (Z.eqb_spec (f_to x) (f_from x)) as [E|N].
  - split; [|exact R1]. intro a. rewrite history_snoc. unfold concerns. rewrite E, orb_diag. destruct (Z.eqb_spec (f_from x) a) as [<-|N]; [exact B1|apply B2; congruence].
  - split; [|exact R1]. intro a. rewrite history_snoc. unfold concerns. destruct (Z.eqb_spec (f_to x) a) as [<-|N2].
    + rewrite orb_true_r. apply put_numbered; [apply B2; exact N|]. rewrite (last_numbered s1 (f_to x) _ (B2 _ N)). reflexivity.
    + rewrite put_others by congruence. rewrite orb_false_r. destruct (Z.eqb_spec (f_from x) a) as [<-|N3]; [exact B1|apply B2; congruence].
Qed.

Section Update.
Variable update : Z.
Notation run := (run update).
Notation side := (side update).
Lemma side_store s h k x : (update <? k) = (update <? h) -> side (store_tx update s k x) h = store_in (side s h) x.
Proof. intro E. unfold store_tx, with_side, History.side. rewrite E. destruct (update <? h); reflexivity. Qed.
Lemma run_good s0 h l : good (side s0 h) [] -> one_side update h l -> good (side (run s0 l) h) (map snd l).
Proof.
  intros G F. induction l as [|[k x] l IH] using rev_ind; [exact G|]. apply Forall_app in F as [F Fx]. inversion Fx; subst. cbn [fst] in *.
  unfold History.run. rewrite fold_left_app. cbn [fold_left fst snd]. rewrite map_app. cbn [map snd]. rewrite side_store by assumption. apply store_good. apply IH. exact F.
Qed.
Lemma other_side s0 h l : Forall (fun p => (update <? fst p) = negb (update <? h)) l -> side (run s0 l) h = side s0 h.
Proof.
  intro F. induction l as [|[k x] l IH] using rev_ind; [reflexivity|]. apply Forall_app in F as [F Fx]. inversion Fx; subst. cbn [fst] in *.
  unfold History.run. rewrite fold_left_app. cbn [fold_left fst snd]. fold (run s0 l). rewrite <- (IH F). unfold store_tx, with_side, History.side. rewrite H1.
  destruct (update <? h); reflexivity.
Qed.
End Update.

(* ranges of numbers *)
Lemma range_numbered L : forall n lo hi, n <= lo ->
  zvals (filter (fun p => (lo <=? fst p) && (fst p <? hi)) (keyed (numbered n L))) = firstn (Z.to_nat (hi - lo)) (skipn (Z.to_nat (lo - n)) (numbered n L)).
Proof.
  induction L as [|x L IH]; intros n lo hi Hn; cbn [numbered]; [rewrite skipn_nil, firstn_nil; reflexivity|]. cbn [keyed map filter fst f_index].
  change (map (fun x => (f_index x, x)) (numbered (n + 1) L)) with (keyed (numbered (n + 1) L)).
  destruct (Z.leb_spec lo n) as [C|C].
  - assert (lo = n) by lia. subst lo. replace (Z.to_nat (n - n)) with 0%nat by lia. cbn [andb skipn]. destruct (Z.ltb_spec n hi) as [D|D].
    + cbn [zvals map snd]. replace (Z.to_nat (hi - n)) with (S (Z.to_nat (hi - (n + 1)))) by lia. cbn [firstn]. f_equal.
      change (zvals (filter (fun p => (n <=? fst p) && (fst p <? hi)) (keyed (numbered (n + 1) L))) = firstn (Z.to_nat (hi - (n + 1))) (numbered (n + 1) L)).
      specialize (IH (n + 1) (n + 1) hi ltac:(lia)). replace (Z.to_nat (n + 1 - (n + 1))) with 0%nat in IH by lia. cbn [skipn] in IH. rewrite <- IH. f_equal.
      apply filter_ext_in. intros [k y] H. cbn [fst]. pose proof (numbered_keys L (n + 1)) as K. rewrite Forall_forall in K. specialize (K k (in_map fst _ _ H)). cbn beta in K.
      replace (n <=? k) with true by lia. replace (n + 1 <=? k) with true by lia. reflexivity.
    + replace (Z.to_nat (hi - n)) with 0%nat by lia. cbn [firstn].
      assert (filter (fun p => (n <=? fst p) && (fst p <? hi)) (keyed (numbered (n + 1) L)) = []) as ->; [|reflexivity].
      pose proof (numbered_keys L (n + 1)) as K. clear - K D. induction (keyed (numbered (n + 1) L)) as [|[k y] m IH]; [reflexivity|]. inversion K; subst. cbn [filter fst] in *.
      replace (k <? hi) with false by lia. rewrite andb_false_r. apply IH. assumption.
  - cbn [andb]. rewrite IH by lia. replace (Z.to_nat (lo - n)) with (S (Z.to_nat (lo - (n + 1)))) by lia. reflexivity.
Qed.

(* ---- the loops ---- *)
Section Pages.
Context {A : Type}.
Definition sl (i lo hi : Z) (l : list A) : list A := firstn (Z.to_nat (hi - Z.max lo i)) (skipn (Z.to_nat (lo - i)) l).
Lemma sl_cons i lo hi x r : sl i lo hi (x :: r) = if (lo <=? i) && (i <? hi) then x :: sl (i + 1) lo hi r else sl (i + 1) lo hi r.
Proof.
  unfold sl. destruct (Z.leb_spec lo i) as [C|C]; cbn [andb].
  - replace (Z.to_nat (lo - i)) with 0%nat by lia. replace (Z.to_nat (lo - (i + 1))) with 0%nat by lia. cbn [skipn]. destruct (Z.ltb_spec i hi) as [D|D].
    + replace (Z.to_nat (hi - Z.max lo i)) with (S (Z.to_nat (hi - Z.max lo (i + 1)))) by lia. reflexivity.
    + replace (Z.to_nat (hi - Z.max lo i)) with 0%nat by lia. replace (Z.to_nat (hi - Z.max lo (i + 1))) with 0%nat by lia. reflexivity.
  - replace (Z.to_nat (lo - i)) with (S (Z.to_nat (lo - (i + 1)))) by lia. cbn [skipn]. do 2 f_equal. lia.
Qed.
Lemma pick_spec l : forall i lo hi lim (txs : list A) cnt, Z.of_nat (length txs) < lim ->
  fst (pick i lo hi lim txs cnt l) = txs ++ firstn (Z.to_nat lim - length txs) (sl i lo hi l) /\
  (Z.of_nat (length (fst (pick i lo hi lim txs cnt l))) < lim -> snd (pick i lo hi lim txs cnt l) = cnt + Z.of_nat (length l)).
Proof.
  induction l as [|x r IH]; intros i lo hi lim txs cnt H; cbn [pick fst snd length].
  - unfold sl. rewrite skipn_nil, !firstn_nil, app_nil_r. split; [reflexivity|lia].
  - rewrite sl_cons. destruct ((lo <=? i) && (i <? hi)).
    + destruct (Z.leb_spec lim (Z.of_nat (length (txs ++ [x])))) as [C|C]; cbn [fst snd]; rewrite app_length in C; cbn [length] in C.
      * replace (Z.to_nat lim - length txs)%nat with 1%nat by lia. cbn [firstn]. rewrite ?firstn_O. split; [reflexivity|]. rewrite app_length. cbn [length]. lia.
      * specialize (IH (i + 1) lo hi lim (txs ++ [x]) (cnt + 1)). rewrite app_length in IH. cbn [length] in IH. destruct (IH C) as [I1 I2]. rewrite I1. split.
        { rewrite <- app_assoc. cbn [app]. replace (Z.to_nat lim - length txs)%nat with (S (Z.to_nat lim - (length txs + 1))) by lia. reflexivity. }
        rewrite I1 in I2. intro L. rewrite I2 by exact L. lia.
    + destruct (Z.leb_spec lim (Z.of_nat (length txs))) as [C|C]; [lia|]. specialize (IH (i + 1) lo hi lim txs (cnt + 1) H). destruct IH as [I1 I2]. split; [exact I1|]. intro L. rewrite I2 by exact L. lia.
Qed.

Definition so_far (off lim : Z) (K : list A) (p : list A * Z) : Prop :=
  fst p = page off lim K /\ (Z.of_nat (length (fst p)) < lim -> snd p = Z.of_nat (length K)).
Lemma page_length off lim (K : list A) : 0 <= lim -> Z.of_nat (length (page off lim K)) <= lim.
Proof. intro H. unfold page. rewrite firstn_length. lia. Qed.
Lemma page_app off lim (K l : list A) : page off lim (K ++ l) =
  page off lim K ++ firstn (Z.to_nat lim - length (skipn (Z.to_nat off) K)) (skipn (Z.to_nat off - length K) l).
Proof. unfold page. rewrite skipn_app, firstn_app. reflexivity. Qed.
Lemma page_short off lim (K : list A) : 0 <= lim -> Z.of_nat (length (page off lim K)) < lim -> page off lim K = skipn (Z.to_nat off) K.
Proof. unfold page. rewrite firstn_length. intros L H. apply firstn_all2. lia. Qed.
Lemma page_full off lim (K l : list A) : 0 <= lim -> lim <= Z.of_nat (length (page off lim K)) -> page off lim (K ++ l) = page off lim K.
Proof.
  intros L H. rewrite page_app. unfold page in H. rewrite firstn_length in H. replace (Z.to_nat lim - length (skipn (Z.to_nat off) K))%nat with 0%nat by lia. cbn [firstn]. apply app_nil_r.
Qed.
Lemma out_page off lim K p l : 0 <= off -> 0 <= lim -> off + lim < 2 ^ 64 -> so_far off lim K p -> so_far off lim (K ++ l) (stage_out off lim p l).
Proof.
  intros Ho Hl Hw [E1 E2]. destruct p as [txs cnt]. cbn [fst snd] in *. unfold stage_out. destruct (Z.ltb_spec 0 (lim - Z.of_nat (length txs))) as [C|C].
  - specialize (E2 ltac:(lia)). rewrite E2.
    set (lo := if Z.of_nat (length K) <? off then off - Z.of_nat (length K) else 0). assert (lo = Z.max 0 (off - Z.of_nat (length K))) as Elo by (unfold lo; destruct (Z.ltb_spec (Z.of_nat (length K)) off); lia). clearbody lo.
    assert (wrap (lo + (lim - Z.of_nat (length txs))) = lo + (lim - Z.of_nat (length txs))) as -> by (unfold wrap; apply Z.mod_small; lia).
    destruct (pick_spec l 0 lo (lo + (lim - Z.of_nat (length txs))) lim txs (Z.of_nat (length K)) ltac:(lia)) as [P1 P2]. split.
    + rewrite P1. rewrite page_app, <- E1. f_equal. assert (length (skipn (Z.to_nat off) K) = length txs) as Ls by (rewrite E1, (page_short off lim K) by (rewrite <- ?E1; lia); reflexivity).
      rewrite Ls. unfold sl. rewrite firstn_firstn. replace (Z.to_nat lo - 0)%nat with (Z.to_nat lo) by lia. f_equal; [lia|f_equal; lia].
    + intro L. rewrite P2 by exact L. rewrite app_length. lia.
  - split; cbn [fst snd].
    + rewrite E1. symmetry. apply page_full; [exact Hl|rewrite <- E1; lia].
    + lia.
Qed.
Lemma in_first lim K p l : 0 <= lim -> lim < 2 ^ 64 -> so_far 0 lim K p -> so_far 0 lim (K ++ l) (stage_in 0 lim p l).
Proof.
  intros Hl Hw S. pose proof (out_page 0 lim K p l ltac:(lia) Hl ltac:(lia) S) as [O1 O2]. destruct S as [E1 E2]. destruct p as [txs cnt]. cbn [fst snd] in *.
  unfold stage_in. destruct (Z.ltb_spec 0 (lim - Z.of_nat (length txs))) as [C|C].
  - specialize (E2 ltac:(lia)). assert (wrap (0 + lim) = lim) as -> by (unfold wrap; rewrite Z.mod_small; lia).
    destruct (pick_spec l 0 0 lim lim txs cnt ltac:(lia)) as [P1 P2]. split.
    + rewrite P1. rewrite page_app, <- E1. f_equal. assert (length (skipn (Z.to_nat 0) K) = length txs) as Ls by (rewrite E1, (page_short 0 lim K) by (rewrite <- ?E1; lia); reflexivity).
      rewrite Ls. unfold sl. rewrite firstn_firstn. cbn [Z.to_nat Z.sub Z.opp Z.add Nat.sub]. f_equal. lia.
    + intro L. rewrite P2 by exact L. rewrite app_length. lia.
  - split; cbn [fst snd]; [rewrite E1; symmetry; apply page_full; [exact Hl|rewrite <- E1; lia]|lia].
Qed.
Lemma in_nothing off lim p (l : list A) : 0 <= off -> Z.of_nat (length l) <= off -> fst (stage_in off lim p l) = fst p.
Proof.
  intros Ho H. destruct p as [txs cnt]. unfold stage_in. destruct (Z.ltb_spec 0 (lim - Z.of_nat (length txs))) as [C|C]; [|reflexivity].
  destruct (pick_spec l 0 off (wrap (off + lim)) lim txs cnt ltac:(lia)) as [P1 _]. rewrite P1. unfold sl. rewrite (skipn_all2 l) by lia. rewrite !firstn_nil. cbn [fst]. apply app_nil_r.
Qed.
Lemma in_full off lim p (l : list A) : lim <= Z.of_nat (length (fst p)) -> stage_in off lim p l = p.
Proof. intro H. destruct p as [txs cnt]. cbn [fst] in H. unfold stage_in. destruct (Z.ltb_spec 0 (lim - Z.of_nat (length txs))); [lia|reflexivity]. Qed.
Lemma in_length off lim p (l : list A) : Z.of_nat (length (fst p)) <= lim -> Z.of_nat (length (fst (stage_in off lim p l))) <= lim.
Proof.
  destruct p as [txs cnt]. cbn [fst]. intro H. unfold stage_in. destruct (Z.ltb_spec 0 (lim - Z.of_nat (length txs))) as [C|C]; [|exact H].
  destruct (pick_spec l 0 off (wrap (off + lim)) lim txs cnt ltac:(lia)) as [P1 _]. rewrite P1, app_length, firstn_length. lia.
Qed.
End Pages.

(* the finished part *)
Lemma finished_part (s : store) a L slots : by_addr s a = keyed (numbered 1 L) -> 0 < slots ->
  let last := last_index s a in let start := if last <? slots then 0 else last - slots in
  map show (rev (zvals (filter (fun p => (start + 1 <=? fst p) && (fst p <? last + 1)) (by_addr s a)))) = firstn (Z.to_nat slots) (map shown (rev L)).
Proof.
  intros E P. cbv zeta. rewrite (last_numbered s a L E), E. set (n := Z.of_nat (length L)). set (start := if n <? slots then 0 else n - slots).
  assert (start = Z.max 0 (n - slots)) as Es by (unfold start; destruct (Z.ltb_spec n slots); lia). clearbody start. rewrite range_numbered by lia.
  replace (Z.to_nat (start + 1 - 1)) with (Z.to_nat start) by lia. replace (Z.to_nat (n + 1 - (start + 1))) with (Z.to_nat (n - start)) by lia.
  rewrite firstn_all2 by (rewrite skipn_length, numbered_length; lia). change show with shown. rewrite map_rev, <- skipn_map, numbered_shown, map_rev.
  rewrite firstn_rev, map_length. f_equal. f_equal. lia.
Qed.
