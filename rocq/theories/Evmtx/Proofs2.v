From Coq Require Import FinFun.
From Verif Require Import Lib.Base Evmtx.Model Evmtx.Spec Evmtx.Proofs.
Open Scope Z_scope.

Definition fresh (s : st) : st :=
  mk_st (bal s) (nonces s) (code s) (revs s) (t_index s) (t_logs s) (t_bloom s) 0 (tx_total s).
Lemma ante_inv c s x s1 evs : ante c s x = Some (s1, evs) ->
  ante_msgs c (fresh s) 0 (x_msgs x) = Some (s1, evs) /\
  x_fee x = sum (map max_fee (x_msgs x)) /\ x_gas x = sum (map m_gas (x_msgs x)) /\
  sum (map m_gas (x_msgs x)) <= c_limit c /\ x_msgs x <> [].
Proof.
  unfold ante. intros H. destruct (x_msgs x) as [|m ms] eqn:E; [discriminate|]. fold (fresh s) in H.
  destruct (ante_msgs c (fresh s) 0 (m :: ms)) as [[s0 ev]|]; [|discriminate].
  destruct (Z.eqb_spec (x_fee x) (sum (map max_fee (m :: ms)))); [|discriminate].
  destruct (Z.eqb_spec (x_gas x) (sum (map m_gas (m :: ms)))); [|discriminate]. cbn [negb] in H.
  destruct (Z.ltb_spec (c_limit c) (sum (map m_gas (m :: ms)))); [discriminate|].
  injection H as <- <-. repeat split; auto; congruence.
Qed.

Lemma bill_moves_split c ms : forall bs os k, bills_for c ms os bs ->
  net (fee_moves c ms) k + net (all_moves (refund_moves c) ms bs) k = net (all_moves (bill_moves c) ms bs) k.
Proof.
  induction ms as [|m ms IH]; intros [|b bs] os k H; try destruct H; [reflexivity|].
  specialize (IH _ _ k H0). cbn [fee_moves map all_moves]. unfold fee_moves in IH.
  rewrite !net_app. unfold refund_moves at 1, bill_moves at 1. rewrite !net_cons. rewrite <- IH.
  assert (E : effect (m_from m, c_fc c, price c m * m_gas m) k + effect (c_fc c, m_from m, price c m * (m_gas m - bl_used b)) k
          = effect (m_from m, c_fc c, price c m * bl_used b) k).
  { unfold effect. destruct (k =? c_fc c), (k =? m_from m); ring. }
  lia.
Qed.

Lemma announced_map {A} (f : A -> Z) (g : A -> Z) (l : list A) :
  announced (map (fun a => EvHash (f a) (g a)) l) = map (fun a => (f a, g a)) l.
Proof. induction l; cbn; [reflexivity|]. f_equal. assumption. Qed.
Lemma announced_app e1 e2 : announced (e1 ++ e2) = announced e1 ++ announced e2.
Proof. apply flat_map_app. Qed.
Lemma reports_app e1 e2 : reports (e1 ++ e2) = reports e1 ++ reports e2.
Proof. apply flat_map_app. Qed.
Lemma event_logs_app e1 e2 : event_logs (e1 ++ e2) = event_logs e1 ++ event_logs e2.
Proof. apply flat_map_app. Qed.
Lemma tx_numbers_app e1 e2 : tx_numbers (e1 ++ e2) = tx_numbers e1 ++ tx_numbers e2.
Proof. apply flat_map_app. Qed.
Lemma hash_events_quiet {A} (f : A -> Z) (g : A -> Z) (l : list A) :
  let e := map (fun a => EvHash (f a) (g a)) l in reports e = [] /\ event_logs e = [] /\ tx_numbers e = [].
Proof. induction l; cbn in *; auto. Qed.
Lemma tx_numbers_reports evs : tx_numbers evs = map (fun p => snd (fst (fst p))) (reports evs).
Proof. induction evs as [|[]]; cbn; [reflexivity|assumption|f_equal; assumption|assumption]. Qed.

Lemma bills_length c ms : forall os bs, bills_for c ms os bs -> length bs = length ms.
Proof.
  induction ms as [|m ms IH]; intros os [|b bs] H; try destruct H; [reflexivity|]. cbn. f_equal. eauto.
Qed.
Lemma shown_facts c ms : forall i bs lss, logs_owned c i ms bs lss ->
  let e := shown i ms bs lss in
  tx_numbers e = numbers i (length ms) /\ event_logs e = concat lss /\ announced e = [] /\
  map (fun p => (snd (fst p), snd p)) (reports e) = map (fun b => (bl_used b, bl_failed b)) bs /\
  map (fun p => fst (fst (fst p))) (reports e) = map m_hash ms /\
  (forall l, In l (event_logs e) -> l_block l = c_height c /\
     exists used, In (EvTx (l_hash l) (l_txindex l) used false) e).
Proof.
  induction ms as [|m ms IH]; intros i bs lss O; destruct bs as [|b bs], lss as [|ls lss]; try destruct O.
  - cbn. repeat split; auto; try contradiction.
  - destruct H0 as [H0 O]. destruct (IH _ _ _ O) as (I1 & I2 & I3 & I4 & I5 & I6). cbn [shown] in *.
    set (e := shown (i + 1) ms bs lss) in *. cbn zeta. split; [|split; [|split; [|split; [|split]]]].
    + change (i :: tx_numbers e = numbers i (1 + length ms)). rewrite numbers_app, I1. unfold numbers at 2. cbn. now rewrite Z.add_0_r.
    + change (ls ++ event_logs e = ls ++ concat lss). now rewrite I2.
    + exact I3.
    + change ((bl_used b, bl_failed b) :: map (fun p => (snd (fst p), snd p)) (reports e) = (bl_used b, bl_failed b) :: map (fun b => (bl_used b, bl_failed b)) bs). now rewrite I4.
    + change (m_hash m :: map (fun p => fst (fst (fst p))) (reports e) = m_hash m :: map m_hash ms). now rewrite I5.
    + intros l Hl. change (In l (ls ++ event_logs e)) in Hl. apply in_app_iff in Hl as [Hl|Hl].
      * destruct (bl_failed b) eqn:F; [rewrite H0 in Hl by reflexivity; destruct Hl|].
        rewrite Forall_forall in H. destruct (H l Hl) as (-> & -> & ->). split; [reflexivity|].
        exists (bl_used b). left. reflexivity.
      * destruct (I6 l Hl) as (H1 & u & H2). split; [exact H1|]. exists u. right. right. exact H2.
Qed.

Lemma combine_ids {B} (ms : list B) (h : B -> Z) i : forall n,
  map (fun im => (h (snd im), i + Z.of_nat (fst im))) (combine (List.seq n (length ms)) ms) =
  combine (map h ms) (map (fun k => i + Z.of_nat k) (List.seq n (length ms))).
Proof. induction ms as [|m ms IH]; intros n; [reflexivity|]. cbn. now rewrite IH. Qed.
Lemma reports_pairs evs : map fst (map fst (reports evs)) = combine (map (fun p => fst (fst (fst p))) (reports evs)) (tx_numbers evs).
Proof.
  rewrite tx_numbers_reports. induction (reports evs) as [|[[[h i] u] f] l IH]; [reflexivity|]. cbn. f_equal. exact IH.
Qed.
Record fail_facts (c : cfg) (s s' : st) (x : tx) (evs : list event) : Prop := mk_ff {
  ff_bal : forall k, bal s' k = bal s k + net (fee_moves c (x_msgs x)) k;
  ff_nonces : nonces s' = nonces_after (nonces s) (x_msgs x);
  ff_rest : code s' = code s /\ revs s' = revs s /\ t_index s' = t_index s /\ t_logs s' = t_logs s /\
            t_bloom s' = t_bloom s /\ tx_total s' = tx_total s;
  ff_quiet : reports evs = [] /\ event_logs evs = [] /\ tx_numbers evs = [];
  ff_announced : announced evs = combine (map m_hash (x_msgs x)) (numbers (t_index s) (length (x_msgs x)))
}.
Definition moved (s s' : st) : Prop := exists ts, forall k, bal s' k = bal s k + net ts k.
Lemma moved_refl s s' : bal s' = bal s -> moved s s'.
Proof. intros H. exists []. intros k. rewrite H, net_nil. lia. Qed.
Lemma moved_trans s1 s2 s3 : moved s1 s2 -> moved s2 s3 -> moved s1 s3.
Proof. intros [t1 H1] [t2 H2]. exists (t1 ++ t2). intros k. rewrite net_app, H2, H1. lia. Qed.
Definition stepped (f : Z -> Z) (l : list (Z * Z)) (g : Z -> Z) : Prop :=
  forall a, nonces_of a l = numbers (f a) (length (nonces_of a l)) /\ g a = f a + Z.of_nat (length (nonces_of a l)).
Lemma nonces_of_app a l1 l2 : nonces_of a (l1 ++ l2) = nonces_of a l1 ++ nonces_of a l2.
Proof. unfold nonces_of. now rewrite filter_app, map_app. Qed.
Lemma stepped_nil f : stepped f [] f.
Proof. intros a. cbn. split; [reflexivity|lia]. Qed.
Lemma stepped_app f l1 g l2 h : stepped f l1 g -> stepped g l2 h -> stepped f (l1 ++ l2) h.
Proof.
  intros H1 H2 a. destruct (H1 a) as [A1 B1], (H2 a) as [A2 B2]. rewrite nonces_of_app, app_length. split; [|lia].
  rewrite numbers_app, <- B1, <- A1, <- A2. reflexivity.
Qed.
Lemma stepped_ext f l g g' : stepped f l g -> (forall a, g' a = g a) -> stepped f l g'.
Proof. intros H E a. destruct (H a). split; [assumption|]. rewrite E. assumption. Qed.
Lemma stepped_ext_l f f' l g : stepped f l g -> (forall a, f' a = f a) -> stepped f' l g.
Proof. intros H E a. destruct (H a). rewrite E. auto. Qed.
Lemma in_sequence_stepped ms : forall f, in_sequence f ms -> stepped f (ids ms) (nonces_after f ms).
Proof.
  induction ms as [|m ms IH]; intros f H; [apply stepped_nil|]. destruct H as [H1 H2].
  cbn [ids map nonces_after]. change ((m_from m, m_nonce m) :: _) with ([(m_from m, m_nonce m)] ++ ids ms).
  apply stepped_app with (g := upd f (m_from m) (m_nonce m + 1)); [|auto].
  intros a. unfold nonces_of. cbn [filter fst]. unfold upd. rewrite (Z.eqb_sym a).
  destruct (Z.eqb_spec (m_from m) a) as [E|E]; cbn [map snd length].
  - subst a. rewrite H1. unfold numbers. cbn. split; [f_equal; lia|lia].
  - split; [reflexivity|lia].
Qed.
Lemma stepped_nodup f l g : stepped f l g -> NoDup l.
Proof.
  assert (N : forall i n, NoDup (numbers i n)).
  { intros i n. unfold numbers. apply Injective_map_NoDup; [|apply seq_NoDup]. intros x y E. lia. }
  intros H. assert (G : forall a, NoDup (nonces_of a l)).
  { intros a. destruct (H a) as [-> _]. apply N. }
  clear H N. induction l as [|[a n] l IH]; constructor.
  - intros I. specialize (G a). unfold nonces_of in G. cbn [filter fst] in G. rewrite Z.eqb_refl in G.
    cbn [map snd] in G. inversion G as [|? ? Q]; subst. apply Q. apply (in_map snd) with (x := (a, n)).
    apply filter_In. split; [exact I|]. cbn. apply Z.eqb_refl.
  - apply IH. intros b. specialize (G b). unfold nonces_of in *. cbn [filter fst] in G.
    destruct (a =? b); [|exact G]. cbn [map] in G. now inversion G.
Qed.
Lemma nonces_after_other ms : forall f a, Forall (fun m' => m_from m' <> a) ms -> nonces_after f ms a = f a.
Proof.
  induction ms as [|m ms IH]; intros f a H; [reflexivity|]. inversion H; subst. cbn [nonces_after].
  rewrite IH by assumption. unfold upd. destruct (Z.eqb_spec a (m_from m)); [congruence|reflexivity].
Qed.
Lemma creations_last_after ms : forall f, creations_last ms ->
  forall m, In m ms -> m_to m = None -> nonces_after f ms (m_from m) = m_nonce m + 1.
Proof.
  induction ms as [|m0 ms IH]; intros f H m I T; [destruct I|]. destruct H as [H1 H2].
  destruct I as [E|I].
  - subst m0. cbn [nonces_after]. rewrite nonces_after_other by auto. unfold upd. now rewrite Z.eqb_refl.
  - cbn [nonces_after]. apply IH; assumption.
Qed.
Lemma nonces_run_same ms : forall bs g, (forall m, In m ms -> m_to m = None -> g (m_from m) = m_nonce m + 1) ->
  forall a, nonces_run g ms bs a = g a.
Proof.
  induction ms as [|m ms IH]; intros [|b bs] g H a; try reflexivity. cbn [nonces_run].
  set (g' := if bl_failed b then g else _).
  assert (E : forall x, g' x = g x).
  { intros x. unfold g'. destruct (bl_failed b); [reflexivity|]. destruct (m_to m) eqn:T; [reflexivity|].
    unfold upd. destruct (Z.eqb_spec x (m_from m)) as [->|]; [|reflexivity]. symmetry. apply H; [now left|exact T]. }
  rewrite IH; [apply E|]. intros m' I T. rewrite E. apply H; [now right|exact T].
Qed.
Lemma numbers_length i n : length (numbers i n) = n.
Proof. unfold numbers. now rewrite map_length, seq_length. Qed.
Lemma in_bloom_lor_l a b m : in_bloom a m -> in_bloom (Z.lor a b) m.
Proof. unfold in_bloom. intros H. rewrite Z.land_lor_distr_l, H. rewrite Z.lor_comm. apply Z.bits_inj'. intros n Hn. rewrite Z.lor_spec, Z.land_spec. destruct (Z.testbit b n), (Z.testbit m n); reflexivity. Qed.
Lemma in_bloom_lor_r a b m : in_bloom b m -> in_bloom (Z.lor a b) m.
Proof. rewrite Z.lor_comm. apply in_bloom_lor_l. Qed.
Lemma in_bloom_refl m : in_bloom m m.
Proof. apply Z.land_diag. Qed.
Lemma in_bloom_trans a b m : in_bloom a b -> in_bloom b m -> in_bloom a m.
Proof. unfold in_bloom. intros H1 H2. rewrite <- H2 at 1. rewrite Z.land_assoc, H1. exact H2. Qed.

Section Exec.
Variable mask_a mask_t : Z -> Z.
Notation run_msgs := (run_msgs mask_a mask_t).
Notation deliver := (deliver mask_a mask_t).
Notation deliver_all := (deliver_all mask_a mask_t).
Notation run_block := (run_block mask_a mask_t).
Notation run_chain := (run_chain mask_a mask_t).

(* ---------------- one transaction ---------------- *)
Lemma deliver_rejected c s bg x os s' bg' r : deliver c s bg x os = (s', bg', r) -> accepted r = false ->
  s' = s /\ bg' = bg /\ events r = [].
Proof.
  unfold Model.deliver. intros H A. destruct (c_limit c <=? bg).
  { injection H as <- <- <-. auto. }
  destruct (ante c s x) as [[s1 ev1]|].
  - destruct (run_msgs c s1 (x_msgs x) os) as [k|[s2 ev2]].
    + injection H as <- <- <-. discriminate.
    + destruct (_ <? _); injection H as <- <- <-; discriminate.
  - injection H as <- <- <-. auto.
Qed.
Lemma deliver_fail c s bg x os s' bg' k evs : deliver c s bg x os = (s', bg', RFail k evs) ->
  ante c s x = Some (s', evs).
Proof.
  unfold Model.deliver. intros H. destruct (c_limit c <=? bg); [discriminate|].
  destruct (ante c s x) as [[s1 ev1]|]; [|discriminate].
  destruct (run_msgs c s1 (x_msgs x) os) as [k'|[s2 ev2]].
  - injection H as <- <- _ <-. reflexivity.
  - destruct (_ <? _); [|discriminate]. injection H as <- <- _ <-. reflexivity.
Qed.
Lemma deliver_ok c s bg x os s' bg' used evs : deliver c s bg x os = (s', bg', ROk used evs) ->
  exists s1 ev1 ev2, ante c s x = Some (s1, ev1) /\ run_msgs c s1 (x_msgs x) os = inr (s', ev2) /\
    evs = ev1 ++ ev2 /\ used = t_gas s' /\ bg' = bg + used /\ bg' <= c_limit c.
Proof.
  unfold Model.deliver. intros H. destruct (c_limit c <=? bg); [discriminate|].
  destruct (ante c s x) as [[s1 ev1]|]; [|discriminate].
  destruct (run_msgs c s1 (x_msgs x) os) as [k'|[s2 ev2]] eqn:E; [discriminate|].
  destruct (Z.ltb_spec (c_limit c) (bg + t_gas s2)); [discriminate|].
  injection H as <- <- <- <-. exists s1, ev1, ev2. auto 10.
Qed.
Lemma deliver_accepted c s bg x os s' bg' r : deliver c s bg x os = (s', bg', r) -> accepted r = true ->
  exists s1 ev1, ante c s x = Some (s1, ev1).
Proof.
  intros H A. destruct r; try discriminate.
  - apply deliver_fail in H. eauto.
  - apply deliver_ok in H as (s1 & ev1 & _ & H & _). eauto.
Qed.

Record ok_facts (c : cfg) (s s' : st) (x : tx) (os : list outcome) (used : Z) (evs : list event) (bs : list bill) : Prop := mk_ok {
  of_bills : bills_for c (x_msgs x) os bs;
  of_bal : forall k, bal s' k = bal s k + net (all_moves (bill_moves c) (x_msgs x) bs) k;
  of_used : used = sum (map bl_used bs);
  of_nonces : nonces s' = nonces_run (nonces_after (nonces s) (x_msgs x)) (x_msgs x) bs;
  of_index : t_index s' = t_index s + Z.of_nat (length (x_msgs x));
  of_total : tx_total s' = tx_total s;
  of_numbers : tx_numbers evs = numbers (t_index s) (length (x_msgs x));
  of_announced : announced evs = map fst (map fst (reports evs));
  of_reports : map (fun p => (snd (fst p), snd p)) (reports evs) = map (fun b => (bl_used b, bl_failed b)) bs;
  of_hashes : map (fun p => fst (fst (fst p))) (reports evs) = map m_hash (x_msgs x);
  of_logs : t_logs s' = t_logs s + Z.of_nat (length (event_logs evs));
  of_lognum : map l_index (event_logs evs) = numbers (t_logs s) (length (event_logs evs));
  of_bloom : t_bloom s' = Z.lor (t_bloom s) (logs_mask mask_a mask_t (raw_logs (event_logs evs)));
  of_owned : forall l, In l (event_logs evs) -> l_block l = c_height c /\
     exists u, In (EvTx (l_hash l) (l_txindex l) u false) evs
}.
Lemma deliver_ok_facts c s bg x os s' bg' used evs : 0 <= c_base c ->
  deliver c s bg x os = (s', bg', ROk used evs) -> exists bs, ok_facts c s s' x os used evs bs.
Proof.
  intros C0 H. apply deliver_ok in H as (s1 & ev1 & ev2 & A & R & -> & -> & _).
  apply ante_inv in A as (A & _). apply ante_msgs_facts in A as (_ & _ & AB & AN & (A1 & A2 & A3 & A4 & A5 & A6 & A7) & AE).
  apply run_msgs_facts in R as (bs & lss & M); [|assumption]. destruct M.
  destruct (shown_facts c (x_msgs x) _ _ _ mf_owned) as (S1 & S2 & S3 & S4 & S5 & S6).
  rewrite <- mf_evs in *. cbn [fresh nonces bal t_index t_logs t_bloom t_gas tx_total] in *.
  destruct (hash_events_quiet (fun im : nat * msg => m_hash (snd im)) (fun im => t_index s + 0 + Z.of_nat (fst im)) (combine (List.seq 0 (length (x_msgs x))) (x_msgs x))) as (Q1 & Q2 & Q3).
  cbn zeta in Q1, Q2, Q3. rewrite <- AE in Q1, Q2, Q3.
  exists bs. split.
  - exact mf_bills.
  - intros k. rewrite mf_bal, AB, <- (bill_moves_split _ _ _ _ k mf_bills). lia.
  - rewrite mf_gas, A6. cbn. reflexivity.
  - rewrite mf_nonces, AN. reflexivity.
  - lia.
  - congruence.
  - rewrite tx_numbers_app, Q3, S1, A3. reflexivity.
  - rewrite announced_app, reports_app, S3, Q1, app_nil_r. cbn [app]. rewrite reports_pairs, S5, S1.
    rewrite AE, announced_map. rewrite combine_ids, A3. unfold numbers. rewrite Z.add_0_r. reflexivity.
  - rewrite reports_app, Q1. exact S4.
  - rewrite reports_app, Q1. exact S5.
  - rewrite event_logs_app, Q2, S2. cbn [app]. lia.
  - rewrite event_logs_app, Q2, S2. cbn [app]. rewrite <- A4. exact mf_numbers.
  - rewrite event_logs_app, Q2, S2. cbn [app]. rewrite <- A5. exact mf_bloom.
  - intros l Hl. rewrite event_logs_app, Q2 in Hl. destruct (S6 l Hl) as (H1 & u & H2). split; [exact H1|].
    exists u. apply in_or_app. now right.
Qed.
Lemma deliver_fail_facts c s bg x os s' bg' k evs :
  deliver c s bg x os = (s', bg', RFail k evs) -> fail_facts c s s' x evs.
Proof.
  intros H. apply deliver_fail in H. apply ante_inv in H as (A & _).
  apply ante_msgs_facts in A as (_ & _ & AB & AN & (A1 & A2 & A3 & A4 & A5 & A6 & A7) & AE).
  cbn [fresh nonces bal t_index t_logs t_bloom t_gas tx_total code revs] in *.
  split; auto.
  - repeat split; assumption.
  - rewrite AE. apply (hash_events_quiet (fun im : nat * msg => m_hash (snd im)) (fun im => t_index s + 0 + Z.of_nat (fst im))).
  - rewrite AE, announced_map, combine_ids. unfold numbers. now rewrite Z.add_0_r.
Qed.

(* ---------------- money over a chain ---------------- *)
Lemma deliver_moved c s bg x os s' bg' r : 0 <= c_base c -> deliver c s bg x os = (s', bg', r) -> moved s s'.
Proof.
  intros C0 H. destruct (accepted r) eqn:A.
  - destruct r; try discriminate.
    + apply deliver_fail_facts in H as []. eexists. eassumption.
    + apply deliver_ok_facts in H as (bs & []); [|assumption]. eexists. eassumption.
  - apply deliver_rejected in H as (-> & _); [|assumption]. now apply moved_refl.
Qed.
Lemma deliver_solvent c s bg x os s' bg' r : cfg_ok c -> outcomes_ok c (x_msgs x) os ->
  deliver c s bg x os = (s', bg', r) -> solvent s -> solvent s'.
Proof.
  intros C O H S. destruct (accepted r) eqn:A.
  - destruct r; try discriminate.
    + apply deliver_fail in H. apply ante_inv in H as (H & _). apply (ante_msgs_solvent _ C _ _ _ _ _ H). exact S.
    + apply deliver_ok in H as (s1 & ev1 & ev2 & H & R & _). apply ante_inv in H as (H & _).
      apply (run_msgs_solvent _ _ _ C _ _ _ _ _ R O). apply (ante_msgs_solvent _ C _ _ _ _ _ H). exact S.
  - apply deliver_rejected in H as (-> & _); assumption.
Qed.
Lemma deliver_all_money c : cfg_ok c -> forall xs s bg s' rs,
  Forall (fun x => outcomes_ok c (x_msgs (fst x)) (snd x)) xs ->
  deliver_all c s bg xs = (s', rs) -> moved s s' /\ (solvent s -> solvent s').
Proof.
  intros C. induction xs as [|[x os] xs IH]; intros s bg s' rs O H.
  - injection H as <- <-. split; [now apply moved_refl|auto].
  - cbn [Model.deliver_all] in H. destruct (deliver c s bg x os) as [[s1 bg1] r1] eqn:E.
    destruct (deliver_all c s1 bg1 xs) as [s2 rs2] eqn:E2. injection H as <- <-.
    inversion O; subst. destruct (IH _ _ _ _ H2 E2) as [M S]. split.
    + eapply moved_trans; [|exact M]. eapply deliver_moved; [apply C|exact E].
    + intros S0. apply S. eapply deliver_solvent; eauto.
Qed.
Lemma run_chain_money : forall bs s s' rs, Forall block_ok bs -> run_chain s bs = (s', rs) ->
  moved s s' /\ (solvent s -> solvent s').
Proof.
  induction bs as [|b bs IH]; intros s s' rs O H.
  - injection H as <- <-. split; [now apply moved_refl|auto].
  - cbn [Model.run_chain] in H. destruct (run_block s b) as [s1 r1] eqn:E.
    destruct (run_chain s1 bs) as [s2 rs2] eqn:E2. injection H as <- <-.
    inversion O as [|? ? [C O1] O2]; subst. destruct (IH _ _ _ O2 E2) as [M S].
    unfold Model.run_block in E. destruct (deliver_all (b_cfg b) (start s) 0 (b_txs b)) as [s3 rs3] eqn:E3.
    injection E as <- <-. destruct (deliver_all_money _ C _ _ _ _ _ O1 E3) as [M3 S3]. split.
    + eapply moved_trans; [|exact M]. destruct M3 as [ts T]. exists ts. exact T.
    + intros S0. apply S. unfold solvent in *. cbn [bal]. apply S3. exact S0.
Qed.

(* ---------------- nonces ---------------- *)
Lemma deliver_stepped c s bg x os s' bg' r : 0 <= c_base c -> creations_last (x_msgs x) ->
  deliver c s bg x os = (s', bg', r) -> stepped (nonces s) (if accepted r then ids (x_msgs x) else []) (nonces s').
Proof.
  intros C0 T H. destruct (accepted r) eqn:A.
  - pose proof (deliver_accepted _ _ _ _ _ _ _ _ H A) as (s1 & ev1 & AN). apply ante_inv in AN as (AN & _).
    apply ante_msgs_facts in AN as (_ & Q & _). cbn [fresh nonces] in Q. apply in_sequence_stepped in Q.
    destruct r; try discriminate.
    + apply deliver_fail_facts in H as []. now rewrite ff_nonces0.
    + apply deliver_ok_facts in H as (bs & []); [|assumption].
      eapply stepped_ext; [exact Q|]. intros a. rewrite of_nonces0. apply nonces_run_same.
      intros m I N. now apply creations_last_after.
  - apply deliver_rejected in H as (-> & _); [|assumption]. apply stepped_nil.
Qed.
Lemma deliver_all_stepped c : 0 <= c_base c -> forall xs s bg s' rs, Forall (fun x => creations_last (x_msgs (fst x))) xs ->
  deliver_all c s bg xs = (s', rs) -> stepped (nonces s) (used_ids xs rs) (nonces s').
Proof.
  intros C0. induction xs as [|[x os] xs IH]; intros s bg s' rs T H.
  - injection H as <- <-. apply stepped_nil.
  - cbn [Model.deliver_all] in H. destruct (deliver c s bg x os) as [[s1 bg1] r1] eqn:E.
    destruct (deliver_all c s1 bg1 xs) as [s2 rs2] eqn:E2. injection H as <- <-. inversion T; subst.
    cbn [used_ids]. eapply stepped_app; [eapply deliver_stepped; eauto|eauto].
Qed.
Lemma run_chain_stepped : forall bs s s' rs, Forall (fun b => 0 <= c_base (b_cfg b)) bs -> tidy bs ->
  run_chain s bs = (s', rs) -> stepped (nonces s) (chain_ids bs rs) (nonces s').
Proof.
  induction bs as [|b bs IH]; intros s s' rs C T H.
  - injection H as <- <-. apply stepped_nil.
  - cbn [Model.run_chain] in H. destruct (run_block s b) as [s1 r1] eqn:E.
    destruct (run_chain s1 bs) as [s2 rs2] eqn:E2. injection H as <- <-. inversion C; subst. inversion T; subst.
    unfold Model.run_block in E. destruct (deliver_all (b_cfg b) (start s) 0 (b_txs b)) as [s3 rs3] eqn:E3.
    injection E as <- <-. cbn [chain_ids br_results].
    apply deliver_all_stepped in E3; auto. apply IH in E2; auto. cbn [start nonces] in *.
    eapply stepped_app; eassumption.
Qed.

(* ---------------- numbering ---------------- *)
Record block_facts (c : cfg) (s s' : st) (rs : list result) : Prop := mk_bf {
  bf_numbers : tx_numbers (all_events rs) = numbers (t_index s) (length (tx_numbers (all_events rs)));
  bf_index : t_index s' = t_index s + Z.of_nat (length (tx_numbers (all_events rs)));
  bf_lognum : map l_index (event_logs (all_events rs)) = numbers (t_logs s) (length (event_logs (all_events rs)));
  bf_logs : t_logs s' = t_logs s + Z.of_nat (length (event_logs (all_events rs)));
  bf_bloom : t_bloom s' = Z.lor (t_bloom s) (logs_mask mask_a mask_t (raw_logs (event_logs (all_events rs))));
  bf_owned : forall r l, In r rs -> In l (event_logs (events r)) -> l_block l = c_height c /\
     exists u, In (EvTx (l_hash l) (l_txindex l) u false) (events r);
  bf_total : tx_total s' = tx_total s
}.
Lemma deliver_counts c s bg x os s' bg' r : 0 <= c_base c -> deliver c s bg x os = (s', bg', r) ->
  block_facts c s s' [r].
Proof.
  intros C0 H.
  assert (EE : all_events [r] = events r) by (cbn; apply app_nil_r).
  destruct (accepted r) eqn:A.
  - destruct r; try discriminate.
    + apply deliver_fail_facts in H as []. destruct ff_rest0 as (R1 & R2 & R3 & R4 & R5 & R6).
      destruct ff_quiet0 as (Q1 & Q2 & Q3).
      split; rewrite ?EE; cbn [events]; rewrite ?Q2, ?Q3; cbn; rewrite ?Z.lor_0_r; auto; try lia.
      intros r l [<-|[]] I. cbn [events] in I. rewrite Q2 in I. destruct I.
    + apply deliver_ok_facts in H as (bs & F); [|assumption]. destruct F.
      split; rewrite ?EE; cbn [events]; auto.
      * rewrite of_numbers0, numbers_length. reflexivity.
      * rewrite of_numbers0, numbers_length. assumption.
      * intros r l [<-|[]] I. auto.
  - apply deliver_rejected in H as (-> & _ & Q); [|assumption].
    split; rewrite ?EE, ?Q; cbn; rewrite ?Z.lor_0_r; auto; try lia.
    intros r' l [<-|[]] I. rewrite Q in I. destruct I.
Qed.
Lemma block_facts_app c s s1 s2 r1 r2 : block_facts c s s1 r1 -> block_facts c s1 s2 r2 -> block_facts c s s2 (r1 ++ r2).
Proof.
  intros [] []. assert (EA : all_events (r1 ++ r2) = all_events r1 ++ all_events r2) by apply flat_map_app.
  split; rewrite ?EA, ?tx_numbers_app, ?event_logs_app, ?app_length, ?map_app.
  - rewrite numbers_app, <- bf_index0, <- bf_numbers0, <- bf_numbers1. reflexivity.
  - lia.
  - rewrite numbers_app, <- bf_logs0, <- bf_lognum0, <- bf_lognum1. reflexivity.
  - lia.
  - unfold raw_logs. rewrite map_app, logs_mask_app, Z.lor_assoc. unfold raw_logs in *. now rewrite <- bf_bloom0.
  - intros r l I. apply in_app_iff in I as [I|I]; eauto.
  - congruence.
Qed.
Lemma deliver_all_counts c : 0 <= c_base c -> forall xs s bg s' rs, deliver_all c s bg xs = (s', rs) -> block_facts c s s' rs.
Proof.
  intros C0. induction xs as [|[x os] xs IH]; intros s bg s' rs H.
  - injection H as <- <-. split; cbn; rewrite ?Z.lor_0_r; auto; try lia; try contradiction.
  - cbn [Model.deliver_all] in H. destruct (deliver c s bg x os) as [[s1 bg1] r1] eqn:E.
    destruct (deliver_all c s1 bg1 xs) as [s2 rs2] eqn:E2. injection H as <- <-.
    change (r1 :: rs2) with ([r1] ++ rs2). eapply block_facts_app; [eapply deliver_counts; eauto|eauto].
Qed.

(* bloom filters *)
Lemma log_mask_addr a ts : in_bloom (log_mask mask_a mask_t a ts) (mask_a a).
Proof. unfold log_mask. induction ts; cbn; [apply in_bloom_refl|now apply in_bloom_lor_r]. Qed.
Lemma log_mask_topic a ts t : In t ts -> in_bloom (log_mask mask_a mask_t a ts) (mask_t t).
Proof.
  unfold log_mask. induction ts as [|t0 ts IH]; intros H; [destruct H|]. cbn. destruct H as [->|H].
  - apply in_bloom_lor_l, in_bloom_refl.
  - apply in_bloom_lor_r. auto.
Qed.
Lemma logs_mask_covers ls l : In l ls -> in_bloom (logs_mask mask_a mask_t (raw_logs ls)) (log_mask mask_a mask_t (l_addr l) (l_topics l)).
Proof.
  induction ls as [|l0 ls IH]; intros H; [destruct H|]. unfold raw_logs, logs_mask in *. cbn [map fold_right fst snd]. destruct H as [->|H].
  - apply in_bloom_lor_l, in_bloom_refl.
  - apply in_bloom_lor_r. auto.
Qed.
End Exec.
