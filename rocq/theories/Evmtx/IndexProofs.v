From Verif Require Import Lib.Base Evmtx.Model Evmtx.Spec Evmtx.Proofs Evmtx.Proofs2 Evmtx.Index Evmtx.Logs Evmtx.IndexSpec.
Open Scope Z_scope.

Definition of_report (p : Z * Z * Z * bool) : parsed := let '(h, i, u, f) := p in mk_parsed h i u f.
Definition sound_result (x : tx) (res : result) : Prop :=
  match res with
  | ROk used evs => parse_ok used evs = map of_report (reports evs) /\
                    map (fun p => fst (fst (fst p))) (reports evs) = map m_hash (x_msgs x)
  | _ => True
  end.

(* ---------------- parsing ---------------- *)
Lemma parse_hashes {A} (f g : A -> Z) (l : list A) rest : forall done acc,
  parse_events (map (fun a => EvHash (f a) (g a)) l ++ rest) done acc =
  parse_events rest done (acc ++ map (fun a => mk_parsed (f a) (g a) 0 false) l).
Proof.
  induction l as [|a l IH]; intros done acc; cbn [map app parse_events]; [now rewrite app_nil_r|].
  rewrite IH, <- app_assoc. reflexivity.
Qed.
Lemma set_nth_mid pre x y tl : set_nth (length pre) x (pre ++ y :: tl) = pre ++ x :: tl.
Proof. induction pre; cbn; [reflexivity|]. now rewrite IHpre. Qed.
Lemma parse_shown ms : forall i bs lss c pre tl, logs_owned c i ms bs lss -> length tl = length ms ->
  parse_events (shown i ms bs lss) (length pre) (pre ++ tl) = pre ++ map of_report (reports (shown i ms bs lss)).
Proof.
  induction ms as [|m ms IH]; intros i bs lss c pre tl O L; destruct bs as [|b bs], lss as [|ls lss]; try destruct O.
  - destruct tl; [reflexivity|discriminate].
  - destruct H0 as [_ O]. destruct tl as [|y tl]; [discriminate|]. cbn [shown parse_events].
    rewrite set_nth_mid. replace (pre ++ mk_parsed (m_hash m) i (bl_used b) (bl_failed b) :: tl)
      with ((pre ++ [mk_parsed (m_hash m) i (bl_used b) (bl_failed b)]) ++ tl) by (rewrite <- app_assoc; reflexivity).
    replace (Datatypes.S (length pre)) with (length (pre ++ [mk_parsed (m_hash m) i (bl_used b) (bl_failed b)])) by (rewrite app_length; cbn; lia).
    rewrite (IH _ _ _ c); [|assumption|cbn in L; lia]. rewrite <- app_assoc. reflexivity.
Qed.

Section Masks.
Variable mask_a mask_t : Z -> Z.
Notation deliver := (deliver mask_a mask_t).
Notation deliver_all := (deliver_all mask_a mask_t).
Notation run_block := (run_block mask_a mask_t).
Notation run_chain := (run_chain mask_a mask_t).

Lemma deliver_sound c s bg x os s' bg' r : 0 <= c_base c -> deliver c s bg x os = (s', bg', r) -> sound_result x r.
Proof.
  intros C0 H. destruct r as [| | |used evs]; try exact Logic.I.
  pose proof (deliver_ok_facts _ _ _ _ _ _ _ _ _ _ _ C0 H) as (bs & F). split; [|exact (of_hashes _ _ _ _ _ _ _ _ _ _ F)].
  apply deliver_ok in H as (s1 & ev1 & ev2 & A & R & -> & _ & _).
  apply ante_inv in A as (A & _). apply ante_msgs_facts in A as (_ & _ & _ & _ & _ & AE).
  apply run_msgs_facts in R as (bs' & lss & M); [|assumption]. destruct M. subst ev2.
  pose proof (of_hashes _ _ _ _ _ _ _ _ _ _ F) as EH.
  assert (RE : reports (ev1 ++ shown (t_index s1) (x_msgs x) bs' lss) = reports (shown (t_index s1) (x_msgs x) bs' lss)).
  { rewrite reports_app. rewrite AE.
    destruct (hash_events_quiet (fun im : nat * msg => m_hash (snd im)) (fun im => t_index (fresh s) + 0 + Z.of_nat (fst im)) (combine (List.seq 0 (length (x_msgs x))) (x_msgs x))) as (Q1 & _).
    cbn zeta in Q1. rewrite Q1. reflexivity. }
  assert (PE : parse_events (ev1 ++ shown (t_index s1) (x_msgs x) bs' lss) 0 [] = map of_report (reports (shown (t_index s1) (x_msgs x) bs' lss))).
  { rewrite AE, parse_hashes. rewrite app_nil_l. set (tl := map _ _).
    assert (L : length tl = length (x_msgs x)); [|exact (parse_shown _ _ _ _ c [] tl mf_owned L)]. unfold tl.
    rewrite map_length, combine_length, seq_length. apply Nat.min_id. }
  unfold parse_ok. rewrite PE, RE.
  pose proof (of_reports _ _ _ _ _ _ _ _ _ _ F) as ER. pose proof (of_used _ _ _ _ _ _ _ _ _ _ F) as EU. rewrite RE in ER.
  destruct (reports (shown (t_index s1) (x_msgs x) bs' lss)) as [|[[[h i] u] f] [|? ?]]; cbn [map of_report]; try reflexivity.
  destruct bs as [|b0 [|? ?]]; try discriminate. cbn in ER, EU. injection ER as -> ->.
  cbn [p_hash p_eth p_failed]. do 2 f_equal. lia.
Qed.
Lemma deliver_all_sound c : 0 <= c_base c -> forall xs s bg s' rs, deliver_all c s bg xs = (s', rs) ->
  Forall2 (fun x r => sound_result (fst x) r) xs rs.
Proof.
  intros C0. induction xs as [|[x os] xs IH]; intros s bg s' rs H.
  - injection H as <- <-. constructor.
  - cbn [Model.deliver_all] in H. destruct (deliver c s bg x os) as [[s1 bg1] r1] eqn:E.
    destruct (deliver_all c s1 bg1 xs) as [s2 rs2] eqn:E2. injection H as <- <-.
    constructor; [eapply deliver_sound; eauto|eauto].
Qed.
End Masks.

(* ---------------- the writes of a block ---------------- *)
Definition view (res : result) (x : tx) : list (Z * bool) :=
  match res with
  | ROk _ evs => map (fun p => (snd (fst p), snd p)) (reports evs)
  | _ => map (fun m => (m_gas m, true)) (x_msgs x)
  end.
Fixpoint zipw (h ti : Z) (ms : list msg) (vs : list (Z * bool)) (mi eth cum : Z) : list (Z * entry) :=
  match ms, vs with
  | m :: ms', (u, f) :: vs' =>
      (m_hash m, mk_entry h ti mi eth u f (cum + u)) :: zipw h ti ms' vs' (mi + 1) (eth + 1) (cum + u)
  | _, _ => []
  end.
Lemma index_msgs_none h ti ms : forall mi eth cum,
  index_msgs h ti None ms mi eth cum = (zipw h ti ms (map (fun m => (m_gas m, true)) ms) mi eth cum, eth + Z.of_nat (length ms)).
Proof.
  induction ms as [|m ms IH]; intros mi eth cum; cbn [index_msgs zipw map length]; [f_equal; lia|].
  rewrite IH. f_equal. lia.
Qed.
Lemma index_msgs_some h ti ms : forall pre tl mi eth cum, 0 <= mi -> Z.to_nat mi = length pre -> length tl = length ms ->
  index_msgs h ti (Some (pre ++ tl)) ms mi eth cum =
  (zipw h ti ms (map (fun p => (p_used p, p_failed p)) tl) mi eth cum, eth + Z.of_nat (length ms)).
Proof.
  induction ms as [|m ms IH]; intros pre tl mi eth cum M P L; cbn [index_msgs length].
  - destruct tl; [|discriminate]. cbn. f_equal. lia.
  - destruct tl as [|p tl]; [discriminate|].
    rewrite P, nth_error_app2, Nat.sub_diag by lia. cbn [nth_error map zipw].
    replace (pre ++ p :: tl) with ((pre ++ [p]) ++ tl) by (rewrite <- app_assoc; reflexivity).
    rewrite IH; [f_equal; lia|lia|rewrite app_length; cbn; lia|cbn in L; lia].
Qed.
Lemma index_msgs_view h ti x res eth : sound_result x res -> expected res = true ->
  index_msgs h ti (match res with ROk used evs => Some (parse_ok used evs) | _ => None end) (x_msgs x) 0 eth 0 =
  (zipw h ti (x_msgs x) (view res x) 0 eth 0, eth + Z.of_nat (length (x_msgs x))) /\ length (view res x) = length (x_msgs x).
Proof.
  intros S E. destruct res as [| |k evs|used evs]; try discriminate.
  - rewrite index_msgs_none. split; [reflexivity|]. cbn. now rewrite map_length.
  - destruct S as [S1 S2]. rewrite S1.
    assert (L : length (reports evs) = length (x_msgs x)).
    { rewrite <- (map_length m_hash), <- S2, map_length. reflexivity. }
    pose proof (index_msgs_some h ti (x_msgs x) [] (map of_report (reports evs)) 0 eth 0) as Q. cbn [app] in Q.
    rewrite Q; [|lia|reflexivity|rewrite map_length; assumption]. rewrite map_map. cbn [view]. split.
    + do 2 f_equal. apply map_ext. intros [[[h0 i0] u0] f0]. reflexivity.
    + now rewrite map_length.
Qed.
Lemma zipw_nth h ti ms : forall vs mi eth cum k, length vs = length ms ->
  nth_error (zipw h ti ms vs mi eth cum) k =
  match nth_error ms k, nth_error vs k with
  | Some m, Some (u, f) => Some (m_hash m, mk_entry h ti (mi + Z.of_nat k) (eth + Z.of_nat k) u f (cum + sum (map fst (firstn (Datatypes.S k) vs))))
  | _, _ => None
  end.
Proof.
  induction ms as [|m ms IH]; intros [|[u f] vs] mi eth cum k L; try discriminate.
  - destruct k; reflexivity.
  - destruct k as [|k].
    + cbn. rewrite !Z.add_0_r. reflexivity.
    + cbn [zipw nth_error]. rewrite IH by (cbn in L; lia).
      destruct (nth_error ms k); [|reflexivity]. destruct (nth_error vs k) as [[u' f']|]; [|reflexivity].
      change (firstn (Datatypes.S (Datatypes.S k)) ((u, f) :: vs)) with ((u, f) :: firstn (Datatypes.S k) vs).
      cbn [map fst sum fold_right]. unfold sum. do 3 f_equal; lia.
Qed.
Lemma zipw_hashes h ti ms : forall vs mi eth cum, length vs = length ms -> map fst (zipw h ti ms vs mi eth cum) = map m_hash ms.
Proof. induction ms; intros [|[u f] vs] mi eth cum L; try discriminate; [reflexivity|]. cbn. f_equal. apply IHms. cbn in L. lia. Qed.
Lemma zipw_eths h ti ms : forall vs mi eth cum, length vs = length ms ->
  map (fun w => e_eth (snd w)) (zipw h ti ms vs mi eth cum) = numbers eth (length ms).
Proof.
  induction ms as [|m ms IH]; intros [|[u f] vs] mi eth cum L; try discriminate; [reflexivity|].
  change (eth :: map (fun w => e_eth (snd w)) (zipw h ti ms vs (mi + 1) (eth + 1) (cum + u)) = numbers eth (1 + length ms)).
  rewrite IH by (cbn in L; lia). rewrite numbers_app. unfold numbers at 2. cbn. now rewrite Z.add_0_r.
Qed.
Lemma zipw_heights h ti ms : forall vs mi eth cum, Forall (fun w => e_height (snd w) = h) (zipw h ti ms vs mi eth cum).
Proof. induction ms; intros [|[u f] vs] mi eth cum; cbn; constructor; [reflexivity|apply IHms]. Qed.

(* messages in indexed transactions before transaction i *)
Fixpoint before (i : nat) (xs : list (tx * list outcome)) (rs : list result) : Z :=
  match i, xs, rs with
  | Datatypes.S i', (x, _) :: xs', r :: rs' =>
      (if expected r then Z.of_nat (length (x_msgs x)) else 0) + before i' xs' rs'
  | _, _, _ => 0
  end.
Lemma index_txs_unfold h ti eth x os xs r rs : sound_result x r ->
  index_txs h ti eth ((x, os) :: xs) (r :: rs) =
  (if expected r then zipw h ti (x_msgs x) (view r x) 0 eth 0 else []) ++
  index_txs h (ti + 1) (eth + if expected r then Z.of_nat (length (x_msgs x)) else 0) xs rs.
Proof.
  intros S. cbn [index_txs]. destruct (expected r) eqn:E.
  - destruct (index_msgs_view h ti x r eth S E) as [-> _]. reflexivity.
  - cbn [app]. now rewrite Z.add_0_r.
Qed.
Lemma index_txs_in h : forall xs rs, Forall2 (fun x r => sound_result (fst x) r) xs rs -> forall ti eth w,
  In w (index_txs h ti eth xs rs) <->
  exists i k x os r m u f, nth_error xs i = Some (x, os) /\ nth_error rs i = Some r /\ expected r = true /\
    nth_error (x_msgs x) k = Some m /\ nth_error (view r x) k = Some (u, f) /\
    w = (m_hash m, mk_entry h (ti + Z.of_nat i) (Z.of_nat k) (eth + before i xs rs + Z.of_nat k) u f
                     (sum (map fst (firstn (Datatypes.S k) (view r x))))).
Proof.
  induction 1 as [|[x os] r xs rs S F IH]; intros ti eth w.
  - split; [intros []|]. intros (i & k & x & os & r & m & u & f & H & _). destruct i; discriminate.
  - rewrite index_txs_unfold by exact S. rewrite in_app_iff, IH. split.
    + intros [H|H].
      * destruct (expected r) eqn:E; [|destruct H]. destruct (index_msgs_view h ti x r eth S E) as [_ L].
        apply In_nth_error in H as [k H]. rewrite zipw_nth in H by assumption.
        destruct (nth_error (x_msgs x) k) as [m|] eqn:E1; [|discriminate].
        destruct (nth_error (view r x) k) as [[u f]|] eqn:E2; [|discriminate]. injection H as <-.
        exists 0%nat, k, x, os, r, m, u, f. cbn [nth_error before]. repeat split; auto. do 2 f_equal; lia.
      * destruct H as (i & k & x' & os' & r' & m & u & f & H1 & H2 & H3 & H4 & H5 & ->).
        exists (Datatypes.S i), k, x', os', r', m, u, f. cbn [nth_error before]. repeat split; auto. do 2 f_equal; lia.
    + intros (i & k & x' & os' & r' & m & u & f & H1 & H2 & H3 & H4 & H5 & ->). destruct i as [|i].
      * left. cbn in H1, H2. injection H1 as <- <-. injection H2 as <-. rewrite H3.
        destruct (index_msgs_view h ti x r eth S H3) as [_ L].
        apply (nth_error_In _ k). rewrite zipw_nth by assumption. rewrite H4, H5. cbn [before]. do 3 f_equal; lia.
      * right. exists i, k, x', os', r', m, u, f. cbn [nth_error before] in *. repeat split; auto. do 2 f_equal; lia.
Qed.
Lemma index_txs_eths h : forall xs rs, Forall2 (fun x r => sound_result (fst x) r) xs rs -> forall ti eth,
  map (fun w => e_eth (snd w)) (index_txs h ti eth xs rs) = numbers eth (length (index_txs h ti eth xs rs)) /\
  Forall (fun w => e_height (snd w) = h) (index_txs h ti eth xs rs) /\
  map fst (index_txs h ti eth xs rs) =
    flat_map (fun xr => if expected (snd xr) then map m_hash (x_msgs (fst (fst xr))) else []) (combine xs rs).
Proof.
  induction 1 as [|[x os] r xs rs S F IH]; intros ti eth; [repeat constructor|].
  rewrite index_txs_unfold by exact S. rewrite !map_app, app_length. cbn [combine flat_map snd fst].
  destruct (expected r) eqn:E.
  - destruct (index_msgs_view h ti x r eth S E) as [_ L]. destruct (IH (ti + 1) (eth + Z.of_nat (length (x_msgs x)))) as (I1 & I2 & I3).
    rewrite I1, I3, zipw_hashes, zipw_eths by assumption.
    assert (LZ : length (zipw h ti (x_msgs x) (view r x) 0 eth 0) = length (x_msgs x)).
    { rewrite <- (map_length fst), zipw_hashes, map_length by assumption. reflexivity. }
    split; [|split; [|reflexivity]].
    + rewrite LZ, numbers_app. reflexivity.
    + apply Forall_app. split; [apply zipw_heights|exact I2].
  - destruct (IH (ti + 1) (eth + 0)) as (I1 & I2 & I3). rewrite I1, I3. cbn [app length]. rewrite Z.add_0_r in *. auto.
Qed.

(* ---------------- lookups ---------------- *)
Lemma find_rev_unique {A} (f : A -> bool) (l : list A) a : In a l -> f a = true ->
  (forall b, In b l -> f b = true -> b = a) -> find f (List.rev l) = Some a.
Proof.
  intros I F U. destruct (find f (List.rev l)) as [b|] eqn:E.
  - apply find_some in E as [E1 E2]. apply in_rev in E1. f_equal. auto.
  - pose proof (find_none _ _ E a) as Q. rewrite <- in_rev in Q. rewrite (Q I) in F. discriminate.
Qed.
Lemma nodup_map_inj {A B} (f : A -> B) (l : list A) : NoDup (map f l) -> forall a b, In a l -> In b l -> f a = f b -> a = b.
Proof.
  induction l as [|x l IH]; intros N a b Ha Hb E; [destruct Ha|]. cbn in N. inversion N as [|? ? N1 N2]; subst.
  destruct Ha as [->|Ha], Hb as [->|Hb]; auto.
  - exfalso. apply N1. rewrite E. now apply in_map.
  - exfalso. apply N1. rewrite <- E. now apply in_map.
Qed.
Lemma by_hash_unique d h e : NoDup (map fst d) -> In (h, e) d -> by_hash d h = Some e.
Proof.
  intros N I. unfold by_hash. rewrite (find_rev_unique _ _ (h, e)); [reflexivity|exact I|cbn; apply Z.eqb_refl|].
  intros b Hb E. apply (nodup_map_inj _ _ N); auto. cbn. lia.
Qed.
Lemma by_hash_in d h e : by_hash d h = Some e -> In (h, e) d.
Proof.
  unfold by_hash. destruct (find _ (List.rev d)) as [[h' e']|] eqn:E; [|discriminate]. intros H. injection H as ->.
  apply find_some in E as [E1 E2]. apply in_rev in E1. cbn in E2. assert (h' = h) by lia. now subst.
Qed.
Lemma by_number_unique d h e : NoDup (map fst d) -> NoDup (map (fun w => (e_height (snd w), e_eth (snd w))) d) ->
  In (h, e) d -> by_number d (e_height e) (e_eth e) = Some e.
Proof.
  intros N N2 I. unfold by_number. rewrite (find_rev_unique _ _ (h, e)).
  - apply by_hash_unique; assumption.
  - exact I.
  - cbn. now rewrite !Z.eqb_refl.
  - intros b Hb E. apply andb_prop in E as [E1 E2]. apply (nodup_map_inj _ _ N2); auto. cbn. f_equal; lia.
Qed.

Lemma index_chain_app : forall bs rs d, index_chain d bs rs = d ++ index_chain [] bs rs.
Proof.
  induction bs as [|b bs IH]; intros [|r rs] d; cbn [index_chain]; rewrite ?app_nil_r; auto.
  rewrite (IH rs (index_block d b r)), (IH rs (index_block [] b r)). unfold index_block. cbn [app]. now rewrite app_assoc.
Qed.
Definition block_sound (b : block) (r : block_result) : Prop :=
  Forall2 (fun x r => sound_result (fst x) r) (b_txs b) (br_results r).
Lemma index_chain_in bs rs w : In w (index_chain [] bs rs) <->
  exists j b r, nth_error bs j = Some b /\ nth_error rs j = Some r /\
    In w (index_txs (c_height (b_cfg b)) 0 0 (b_txs b) (br_results r)).
Proof.
  revert rs. induction bs as [|b bs IH]; intros [|r rs]; cbn [index_chain].
  1, 2: split; [intros []|]; intros (j & b' & r' & H1 & H2 & _); destruct j; discriminate.
  - split; [intros []|]. intros (j & b' & r' & H1 & H2 & _). destruct j; discriminate.
  - rewrite index_chain_app, in_app_iff, IH. unfold index_block. cbn [app]. split.
    + intros [H|(j & b' & r' & H)]; [exists 0%nat, b, r; auto|]. exists (Datatypes.S j), b', r'. exact H.
    + intros (j & b' & r' & H1 & H2 & H3). destruct j as [|j].
      * left. cbn in H1, H2. injection H1 as <-. injection H2 as <-. exact H3.
      * right. exists j, b', r'. auto.
Qed.
Lemma nodup_app_disj {A} (l1 l2 : list A) : NoDup l1 -> NoDup l2 -> (forall x, In x l1 -> ~ In x l2) -> NoDup (l1 ++ l2).
Proof.
  induction l1 as [|a l IH]; intros N1 N2 D; [exact N2|]. inversion N1; subst. cbn. constructor.
  - rewrite in_app_iff. intros [H|H]; [auto|]. apply (D a); [now left|exact H].
  - apply IH; auto. intros x Hx. apply D. now right.
Qed.
Lemma numbers_nodup i n : NoDup (numbers i n).
Proof.
  revert i. induction n; intros i; [constructor|]. change (Datatypes.S n) with (1 + n)%nat. rewrite numbers_app. cbn.
  constructor; [|apply IHn]. unfold numbers. rewrite in_map_iff. intros (k & E & _). lia.
Qed.
Lemma index_slots_nodup : forall bs rs, Forall2 block_sound bs rs -> NoDup (map (fun b => c_height (b_cfg b)) bs) ->
  NoDup (map (fun w => (e_height (snd w), e_eth (snd w))) (index_chain [] bs rs)).
Proof.
  induction 1 as [|b r bs rs S F IH]; intros N; [constructor|]. cbn [map] in N. inversion N as [|? ? N1 N2]; subst.
  cbn [index_chain]. rewrite index_chain_app, map_app. unfold index_block. cbn [app].
  destruct (index_txs_eths (c_height (b_cfg b)) _ _ S 0 0) as (E1 & E2 & _).
  apply nodup_app_disj; [|apply IH; exact N2|].
  - pose proof (numbers_nodup 0 (length (index_txs (c_height (b_cfg b)) 0 0 (b_txs b) (br_results r)))) as NN. rewrite <- E1 in NN.
    clear -NN. induction (index_txs _ _ _ _ _) as [|w l IH]; [constructor|]. cbn in *. inversion NN as [|? ? Q1 Q2]; subst.
    constructor; [|auto]. intros I. apply Q1. apply in_map_iff in I as (w' & E & I). injection E as _ E. rewrite <- E. now apply (in_map (fun w => e_eth (snd w))).
  - intros p I1 I2. apply in_map_iff in I1 as (w1 & <- & I1). apply in_map_iff in I2 as (w2 & E & I2).
    rewrite Forall_forall in E2. pose proof (E2 _ I1) as H1. injection E as E _. rewrite H1 in E.
    apply index_chain_in in I2 as (j & b' & r' & J1 & J2 & J3).
    assert (S' : block_sound b' r').
    { clear -F J1 J2. revert j J1 J2. induction F; intros [|j] J1 J2; try discriminate; cbn in *; [congruence|eauto]. }
    destruct (index_txs_eths (c_height (b_cfg b')) _ _ S' 0 0) as (_ & E3 & _). rewrite Forall_forall in E3.
    rewrite (E3 _ J3) in E. apply N1. rewrite <- E. apply (in_map (fun b => c_height (b_cfg b))). eapply nth_error_In; eauto.
Qed.

(* hashes *)
Definition exp_msgs (b : block) (r : block_result) : list msg :=
  flat_map (fun xr => if expected (snd xr) then x_msgs (fst (fst xr)) else []) (combine (b_txs b) (br_results r)).
Definition acc_msgs (b : block) (r : block_result) : list msg :=
  flat_map (fun xr => if accepted (snd xr) then x_msgs (fst (fst xr)) else []) (combine (b_txs b) (br_results r)).
Lemma index_hashes : forall bs rs, Forall2 block_sound bs rs ->
  map fst (index_chain [] bs rs) = map m_hash (flat_map (fun br => exp_msgs (fst br) (snd br)) (combine bs rs)).
Proof.
  induction 1 as [|b r bs rs S F IH]; [reflexivity|]. cbn [index_chain combine flat_map fst snd].
  rewrite index_chain_app, !map_app, IH. f_equal. unfold index_block. cbn [app].
  destruct (index_txs_eths (c_height (b_cfg b)) _ _ S 0 0) as (_ & _ & E). rewrite E. unfold exp_msgs. clear.
  induction (combine (b_txs b) (br_results r)) as [|[[x os] r0] l IHl]; [reflexivity|]. cbn [flat_map fst snd]. rewrite map_app, <- IHl.
  destruct (expected r0); reflexivity.
Qed.
Lemma chain_ids_acc : forall bs rs, chain_ids bs rs = ids (flat_map (fun br => acc_msgs (fst br) (snd br)) (combine bs rs)).
Proof.
  assert (E : forall xs rs, used_ids xs rs = ids (flat_map (fun xr : (tx * list outcome) * result => if accepted (snd xr) then x_msgs (fst (fst xr)) else []) (combine xs rs))).
  { induction xs as [|[x os] xs IH]; intros [|r rs]; try reflexivity. cbn [used_ids combine flat_map fst snd]. unfold ids in *. rewrite map_app, <- IH.
    destruct (accepted r); reflexivity. }
  induction bs as [|b bs IH]; intros [|r rs]; try reflexivity. cbn [chain_ids combine flat_map fst snd]. unfold ids in *. rewrite map_app, <- IH, E. reflexivity.
Qed.
Inductive sub {A} : list A -> list A -> Prop :=
| sub_nil : sub [] []
| sub_skip a l1 l2 : sub l1 l2 -> sub l1 (a :: l2)
| sub_keep a l1 l2 : sub l1 l2 -> sub (a :: l1) (a :: l2).
Lemma sub_refl {A} (l : list A) : sub l l.
Proof. induction l; constructor; assumption. Qed.
Lemma sub_nil_l {A} (l : list A) : sub [] l.
Proof. induction l; constructor; assumption. Qed.
Lemma sub_app {A} (a b c d : list A) : sub a b -> sub c d -> sub (a ++ c) (b ++ d).
Proof. intros H K. induction H; cbn; [exact K|apply sub_skip; assumption|apply sub_keep; assumption]. Qed.
Lemma sub_in {A} (l1 l2 : list A) : sub l1 l2 -> forall x, In x l1 -> In x l2.
Proof. induction 1; intros x H'; [exact H'| |]; cbn in *; [right; auto|]. destruct H'; [now left|right; auto]. Qed.
Lemma sub_nodup {A B} (f : A -> B) (l1 l2 : list A) : sub l1 l2 -> NoDup (map f l2) -> NoDup (map f l1).
Proof.
  induction 1; intros N; cbn in *; auto; inversion N; subst; auto. constructor; [|auto].
  intros I. apply H2. apply in_map_iff in I as (y & E & I). rewrite <- E. apply in_map. eapply sub_in; eauto.
Qed.
Lemma exp_sub_acc bs rs : sub (flat_map (fun br => exp_msgs (fst br) (snd br)) (combine bs rs)) (flat_map (fun br => acc_msgs (fst br) (snd br)) (combine bs rs)).
Proof.
  induction (combine bs rs) as [|[b r] l IH]; [constructor|]. cbn [flat_map fst snd]. apply sub_app; [|exact IH].
  unfold exp_msgs, acc_msgs. induction (combine (b_txs b) (br_results r)) as [|[[x os] r0] l0 IH0]; [constructor|].
  cbn [flat_map fst snd]. apply sub_app; [|exact IH0]. destruct r0 as [| |[]|]; try apply sub_refl; apply sub_nil_l.
Qed.
Lemma acc_in bs rs m : In m (flat_map (fun br => acc_msgs (fst br) (snd br)) (combine bs rs)) ->
  exists b x os, In b bs /\ In (x, os) (b_txs b) /\ In m (x_msgs x).
Proof.
  intros H. apply in_flat_map in H as ([b r] & H1 & H2). apply in_combine_l in H1. unfold acc_msgs in H2.
  apply in_flat_map in H2 as ([[x os] r0] & H3 & H4). apply in_combine_l in H3. cbn [fst snd] in *.
  exists b, x, os. destruct (accepted r0); [auto|destruct H4].
Qed.
Lemma index_hashes_nodup bs rs : Forall2 block_sound bs rs -> hashes_bind bs -> NoDup (chain_ids bs rs) ->
  NoDup (map fst (index_chain [] bs rs)).
Proof.
  intros S H N. rewrite index_hashes by exact S. rewrite chain_ids_acc in N. unfold ids in N.
  apply (sub_nodup _ _ _ (exp_sub_acc bs rs)).
  assert (Q : forall l, NoDup (map (fun m => (m_from m, m_nonce m)) l) ->
     (forall m, In m l -> In m (flat_map (fun br => acc_msgs (fst br) (snd br)) (combine bs rs))) -> NoDup (map m_hash l)).
  { induction l as [|m l IH]; intros N' I; cbn in *; [constructor|]. inversion N' as [|? ? Q1 Q2]; subst. constructor.
    - intros J. apply Q1. apply in_map_iff in J as (m' & E & J).
      destruct (acc_in bs rs m (I m (or_introl eq_refl))) as (b1 & x1 & o1 & A1 & A2 & A3).
      destruct (acc_in bs rs m' (I m' (or_intror J))) as (b2 & x2 & o2 & B1 & B2 & B3).
      destruct (H _ _ _ _ _ _ _ _ A1 A2 A3 B1 B2 B3 (eq_sym E)) as [E1 E2]. rewrite E1, E2.
      apply (in_map (fun m => (m_from m, m_nonce m))). exact J.
    - apply IH; auto. }
  apply Q; auto.
Qed.

(* ---------------- numbers ---------------- *)
Section Masks2.
Variable mask_a mask_t : Z -> Z.
Notation deliver := (deliver mask_a mask_t).
Notation deliver_all := (deliver_all mask_a mask_t).
Notation run_block := (run_block mask_a mask_t).
Notation run_chain := (run_chain mask_a mask_t).

Lemma deliver_kblock c s bg x os s' bg' evs : deliver c s bg x os = (s', bg', RFail KBlock evs) -> c_limit c < bg'.
Proof.
  unfold Model.deliver. intros H. destruct (c_limit c <=? bg); [discriminate|].
  destruct (ante c s x) as [[s1 ev1]|]; [|discriminate].
  destruct (Model.run_msgs mask_a mask_t c s1 (x_msgs x) os) as [k'|[s2 ev2]] eqn:E.
  - destruct (Z.ltb_spec (c_limit c) (bg + x_gas x)); [injection H as <- <- <-; assumption|].
    injection H as <- <- -> <-. exfalso. revert E. clear. revert s1 os. induction (x_msgs x) as [|m ms IH]; intros s1 os E; [discriminate|].
    cbn [Model.run_msgs] in E. destruct (apply_tx mask_a mask_t c s1 m (hd OutErr os)) as [[[[s0 u] f] ls]|].
    + destruct (Model.run_msgs mask_a mask_t c s0 ms (tl os)) as [k|[s3 e3]] eqn:E3; [|discriminate].
      injection E as ->. eapply IH; eauto.
    + injection E as E. destruct (hd OutErr os); discriminate.
  - destruct (Z.ltb_spec (c_limit c) (bg + t_gas s2)); [injection H as <- <- <-; assumption|discriminate].
Qed.
Lemma deliver_all_full c : forall xs s bg s' rs, c_limit c <= bg -> deliver_all c s bg xs = (s', rs) ->
  Forall (fun r => r = RSkip) rs.
Proof.
  induction xs as [|[x os] xs IH]; intros s bg s' rs L H.
  - injection H as <- <-. constructor.
  - cbn [Model.deliver_all] in H. unfold Model.deliver in H. destruct (Z.leb_spec (c_limit c) bg); [|lia].
    destruct (deliver_all c s bg xs) as [s2 rs2] eqn:E2. injection H as <- <-. constructor; [reflexivity|]. eapply IH; eauto.
Qed.
Lemma reported_number c : 0 <= c_base c -> forall xs s bg s' rs, deliver_all c s bg xs = (s', rs) ->
  forall i used evs k h num u f, (forall j e, (j < i)%nat -> nth_error rs j <> Some (RFail KCommit e)) ->
  nth_error rs i = Some (ROk used evs) -> nth_error (reports evs) k = Some (h, num, u, f) ->
  num = t_index s + before i xs rs + Z.of_nat k.
Proof.
  intros C0. induction xs as [|[x os] xs IH]; intros s bg s' rs H i used evs k h num u f NC HR HK.
  - injection H as <- <-. destruct i; discriminate.
  - cbn [Model.deliver_all] in H. destruct (deliver c s bg x os) as [[s1 bg1] r1] eqn:E.
    destruct (deliver_all c s1 bg1 xs) as [s2 rs2] eqn:E2. injection H as <- <-. destruct i as [|i].
    + cbn in HR. injection HR as ->. apply deliver_ok_facts in E as (bs & F); [|assumption].
      pose proof (of_numbers _ _ _ _ _ _ _ _ _ _ F) as N. rewrite tx_numbers_reports in N.
      apply (f_equal (fun l => nth_error l k)) in N. rewrite (map_nth_error _ _ _ HK) in N. cbn [fst snd] in N.
      unfold numbers in N. symmetry in N. cbn [before].
      assert (K : (k < length (x_msgs x))%nat).
      { apply (f_equal (fun o => match o with Some _ => true | None => false end)) in N.
        destruct (nth_error (map (fun i => t_index s + Z.of_nat i) (List.seq 0 (length (x_msgs x)))) k) eqn:Q; [|discriminate].
        assert (nth_error (map (fun i => t_index s + Z.of_nat i) (List.seq 0 (length (x_msgs x)))) k <> None) as Q2 by congruence.
        apply nth_error_Some in Q2. rewrite map_length, seq_length in Q2. exact Q2. }
      rewrite (map_nth_error _ _ (List.seq 0 (length (x_msgs x))) (d := k)) in N.
      * injection N as <-. lia.
      * rewrite (nth_error_nth' _ 0%nat) by (now rewrite seq_length). now rewrite seq_nth.
    + cbn [nth_error before] in *.
      assert (NC' : forall j e, (j < i)%nat -> nth_error rs2 j <> Some (RFail KCommit e)).
      { intros j e J. apply (NC (Datatypes.S j) e). lia. }
      pose proof (IH _ _ _ _ E2 i _ _ _ _ _ _ _ NC' HR HK) as R.
      pose proof (deliver_counts _ _ _ _ _ _ _ _ _ _ C0 E) as CN.
      destruct r1 as [| |kk e|u1 e1].
      * apply deliver_rejected in E as (-> & _); [|reflexivity]. cbn [expected]. lia.
      * apply deliver_rejected in E as (-> & _); [|reflexivity]. cbn [expected]. lia.
      * destruct kk.
        -- apply deliver_kblock in E. assert (L : c_limit c <= bg1) by lia.
           pose proof (deliver_all_full _ _ _ _ _ _ L E2) as Q. rewrite Forall_forall in Q. apply nth_error_In in HR. apply Q in HR. discriminate.
        -- exfalso. apply (NC 0%nat e); [lia|reflexivity].
        -- apply deliver_fail_facts in E as []. destruct ff_rest as (_ & _ & R3 & _). cbn [expected]. lia.
      * apply deliver_ok_facts in E as (bs & F); [|assumption]. pose proof (of_index _ _ _ _ _ _ _ _ _ _ F). cbn [expected]. lia.
Qed.
Lemma run_chain_blocks : forall bs s s' rs, run_chain s bs = (s', rs) -> Forall (fun b => 0 <= c_base (b_cfg b)) bs ->
  Forall2 block_sound bs rs /\
  forall j b r, nth_error bs j = Some b -> nth_error rs j = Some r -> exists s0 s1, run_block s0 b = (s1, r).
Proof.
  induction bs as [|b bs IH]; intros s s' rs H C.
  - injection H as <- <-. split; [constructor|]. intros [|j]; discriminate.
  - cbn [Model.run_chain] in H. destruct (run_block s b) as [s1 r1] eqn:E.
    destruct (run_chain s1 bs) as [s2 rs2] eqn:E2. injection H as <- <-. inversion C; subst.
    destruct (IH _ _ _ E2 H2) as [I1 I2]. split.
    + constructor; [|exact I1]. unfold block_sound. pose proof E as E0. unfold Model.run_block in E0.
      destruct (deliver_all (b_cfg b) (start s) 0 (b_txs b)) as [s3 rs3] eqn:E3. injection E0 as <- <-.
      cbn [br_results]. eapply deliver_all_sound; eauto.
    + intros [|j] b' r' J1 J2; cbn in *; [|eauto]. injection J1 as <-. injection J2 as <-. eauto.
Qed.
End Masks2.
