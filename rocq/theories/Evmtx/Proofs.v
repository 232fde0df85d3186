From Verif Require Import Lib.Base Evmtx.Model Evmtx.Spec.
Open Scope Z_scope.

Lemma ONE_pos : 0 < ONE.
Proof. reflexivity. Qed.
Global Opaque ONE.

Lemma sum_app l1 l2 : sum (l1 ++ l2) = sum l1 + sum l2.
Proof. induction l1; simpl; lia. Qed.
Lemma net_cons t l k : net (t :: l) k = effect t k + net l k.
Proof. reflexivity. Qed.
Lemma net_nil k : net [] k = 0.
Proof. reflexivity. Qed.
Lemma net_app l1 l2 k : net (l1 ++ l2) k = net l1 k + net l2 k.
Proof. unfold net. rewrite map_app. apply sum_app. Qed.

Lemma move_effect b a c x k : move b a c x k = b k + effect (a, c, x) k.
Proof.
  unfold move, upd, effect.
  destruct (Z.eqb_spec k c) as [E|], (Z.eqb_spec k a) as [E2|], (Z.eqb_spec c a) as [E3|]; subst; try congruence; lia.
Qed.
Lemma moves_effect l : forall b b' k, moves b l = Some b' -> b' k = b k + net l k.
Proof.
  induction l as [|[[a c] x] l IH]; intros b b' k H.
  - injection H as <-. rewrite net_nil. lia.
  - simpl in H. destruct (b a <? x); [discriminate|]. apply (IH _ _ k) in H. rewrite move_effect in H.
    rewrite net_cons. lia.
Qed.
Lemma move_nonneg b a c x : (forall k, 0 <= b k) -> 0 <= x -> x <= b a -> forall k, 0 <= move b a c x k.
Proof.
  intros Hb Hx Ha k. rewrite move_effect. unfold effect. specialize (Hb k).
  destruct (Z.eqb_spec k c), (Z.eqb_spec k a); subst; lia.
Qed.
Lemma moves_nonneg l fc : Forall (fun t => let '(a, _, x) := t in a <> fc /\ 0 <= x) l ->
  forall b b', moves b l = Some b' -> (forall k, 0 <= b k) -> (forall k, 0 <= b' k) /\ b fc <= b' fc.
Proof.
  induction 1 as [|[[a c] x] l [Ha Hx] Hl IH]; intros b b' H Hb.
  - injection H as <-. split; [exact Hb|lia].
  - simpl in H. destruct (Z.ltb_spec (b a) x); [discriminate|]. apply IH in H as [H1 H2].
    + split; [exact H1|]. rewrite move_effect in H2. unfold effect in H2.
      destruct (Z.eqb_spec fc c), (Z.eqb_spec fc a); subst; try congruence; lia.
    + apply move_nonneg; auto; lia.
Qed.

Lemma effect_sum_zero t l : NoDup l -> (let '(a, c, _) := t in In a l /\ In c l) -> sum (map (effect t) l) = 0.
Proof.
  destruct t as [[a c] x]. intros N [Ha Hc].
  assert (E : forall l, sum (map (effect (a, c, x)) l) =
    sum (map (fun k => if k =? c then x else 0) l) - sum (map (fun k => if k =? a then x else 0) l)).
  { induction l0; simpl; [reflexivity|]. rewrite IHl0. lia. }
  assert (F : forall d, ~ In d l -> sum (map (fun k => if k =? d then x else 0) l) = 0).
  { clear. intros d H. induction l as [|k l IH]; [reflexivity|]. simpl. destruct (Z.eqb_spec k d) as [E|].
    - subst. exfalso. apply H. now left.
    - rewrite IH; [reflexivity|]. intros Q. apply H. now right. }
  assert (G : forall d, In d l -> sum (map (fun k => if k =? d then x else 0) l) = x).
  { clear E F Ha Hc. induction N as [|k l Hk Hn IH]; intros d H; [destruct H|]. simpl. destruct (Z.eqb_spec k d) as [E|E].
    - subst. assert (forall d, ~ In d l -> sum (map (fun k => if k =? d then x else 0) l) = 0).
      { clear. intros d H. induction l as [|k l IH]; [reflexivity|]. simpl. destruct (Z.eqb_spec k d) as [E|].
        - subst. exfalso. apply H. now left.
        - rewrite IH; [reflexivity|]. intros Q. apply H. now right. }
      rewrite (H0 d Hk). lia.
    - rewrite IH; [lia|]. destruct H; [congruence|assumption]. }
  rewrite E, (G a Ha), (G c Hc). lia.
Qed.
Lemma net_sum_zero ts l : NoDup l -> Forall (fun t => let '(a, c, _) := t in In a l /\ In c l) ts ->
  sum (map (net ts) l) = 0.
Proof.
  intros N H. induction H as [|t ts Ht _ IH].
  - clear. induction l; simpl; auto.
  - assert (E : forall l, sum (map (net (t :: ts)) l) = sum (map (effect t) l) + sum (map (net ts) l)).
    { clear. induction l as [|k l IH]; [reflexivity|]. cbn [map sum fold_right] in *. unfold sum in *. cbn [map fold_right] in *.
      rewrite IH, net_cons. lia. }
    rewrite E, IH, (effect_sum_zero t l N Ht). reflexivity.
Qed.

(* ---------------- prices and gas ---------------- *)
Lemma effective_price_price c m : effective_price c m = price c m.
Proof. unfold effective_price, price. destruct (m_dyn m); [|reflexivity]. now rewrite Z.add_comm. Qed.
Lemma message_price_price c m : 0 <= c_base c -> message_price c m = price c m.
Proof. intros H. unfold message_price, price. destruct (m_dyn m); [|lia]. now rewrite Z.add_comm. Qed.
Lemma gas_used_billed c m r : gas_used c m r = billed_gas c m r.
Proof.
  unfold gas_used, billed_gas. cbn zeta. set (u := m_intrinsic m + r_burn r - _).
  pose proof ONE_pos as P. apply Z.le_antisymm.
  - destruct (Z.max_spec (m_gas m * c_mult c) (u * ONE)) as [[H ->]|[H ->]].
    + rewrite Z.div_mul by lia. lia.
    + lia.
  - apply Z.max_lub.
    + apply Z.div_le_mono; lia.
    + rewrite <- (Z.div_mul u ONE) at 1 by lia. apply Z.div_le_mono; lia.
Qed.
Lemma billed_bounds c m r : cfg_ok c -> 0 <= m_intrinsic m -> run_ok c m r ->
  0 <= billed_gas c m r <= m_gas m.
Proof.
  intros (_ & [M1 M2] & _) I (B & L & R & _). unfold billed_gas. cbn zeta.
  set (u := m_intrinsic m + r_burn r) in *. assert (0 <= u) by (unfold u; lia).
  pose proof ONE_pos as P.
  assert (0 <= u / 5) by (apply Z.div_pos; lia).
  assert (u / 5 <= u) by (apply Z.div_le_upper_bound; lia).
  assert (m_gas m * c_mult c / ONE <= m_gas m).
  { apply Z.div_le_upper_bound; [lia|]. nia. }
  lia.
Qed.
Lemma price_nonneg c m : cfg_ok c -> basic_ok m = true -> 0 <= price c m.
Proof.
  intros (B & _) H. unfold basic_ok in H. unfold price.
  repeat (apply andb_prop in H as [H ?]). destruct (m_dyn m); simpl in *.
  - apply andb_prop in H0 as [? ?]. lia.
  - lia.
Qed.

(* ---------------- the ante handler ---------------- *)
Definition fee_moves (c : cfg) (ms : list msg) : list (Z * Z * Z) :=
  map (fun m => (m_from m, c_fc c, price c m * m_gas m)) ms.

Record ante_facts (c : cfg) (s s1 : st) (m : msg) : Prop := mk_af {
  af_basic : basic_ok m = true;
  af_cost : m_cap m * m_gas m + m_value m <= bal s (m_from m);
  af_base : c_base c <= m_cap m;
  af_min : c_minprice c = 0 \/ c_minprice c <= price c m * ONE;
  af_kind : kind_ok c m = true;
  af_code : code s (m_from m) = false;
  af_nonce : nonces s (m_from m) = m_nonce m;
  af_bal : forall k, bal s1 k = bal s k + effect (m_from m, c_fc c, price c m * m_gas m) k;
  af_nonces : nonces s1 = upd (nonces s) (m_from m) (m_nonce m + 1);
  af_rest : code s1 = code s /\ revs s1 = revs s /\ t_index s1 = t_index s /\ t_logs s1 = t_logs s /\
            t_bloom s1 = t_bloom s /\ t_gas s1 = t_gas s /\ tx_total s1 = tx_total s
}.
Lemma ante_msg_facts c s m s1 : ante_msg c s m = Some s1 -> ante_facts c s s1 m.
Proof.
  unfold ante_msg. intros H.
  destruct (basic_ok m) eqn:E1; [|discriminate].
  destruct (global_fee_ok c m) eqn:E2; [|discriminate].
  destruct (kind_ok c m) eqn:E3; [|discriminate].
  destruct (code s (m_from m)) eqn:E4; [discriminate|].
  destruct (Z.ltb_spec (bal s (m_from m)) (cost m)); [discriminate|].
  destruct (Z.ltb_spec (m_cap m) (c_base c)); [discriminate|].
  destruct ((0 <? m_value m) && (bal s (m_from m) <? m_value m)); [discriminate|].
  destruct (Z.ltb_spec (bal s (m_from m)) (effective_fee c m)); [discriminate|].
  destruct (Z.eqb_spec (nonces s (m_from m)) (m_nonce m)); [|discriminate].
  injection H as <-. split; auto.
  - unfold global_fee_ok in E2. apply orb_prop in E2 as [E2|E2].
    + left. lia.
    + right. assert (0 < m_gas m) as G.
      { unfold basic_ok in E1. repeat (apply andb_prop in E1 as [E1 ?]). lia. }
      apply Z.leb_le in E2. unfold price. unfold effective_fee, effective_price, max_fee in E2.
      destruct (m_dyn m).
      * rewrite (Z.add_comm (c_base c)). nia.
      * nia.
  - intros k. cbn [bal]. rewrite move_effect. unfold effective_fee. now rewrite effective_price_price.
  - cbn. repeat split.
Qed.
Lemma ante_fee_nonneg c s s1 m : cfg_ok c -> ante_facts c s s1 m ->
  0 <= price c m * m_gas m <= bal s (m_from m).
Proof.
  intros C A. pose proof (price_nonneg c m C (af_basic _ _ _ _ A)) as P.
  pose proof (af_basic _ _ _ _ A) as B. unfold basic_ok in B.
  repeat (apply andb_prop in B as [B ?]). pose proof (af_cost _ _ _ _ A).
  assert (price c m <= m_cap m) by (unfold price; destruct (m_dyn m); lia).
  nia.
Qed.

(* what the loop over the messages does *)
Fixpoint nonces_after (f : Z -> Z) (ms : list msg) : Z -> Z :=
  match ms with [] => f | m :: r => nonces_after (upd f (m_from m) (m_nonce m + 1)) r end.
Fixpoint in_sequence (f : Z -> Z) (ms : list msg) : Prop :=
  match ms with
  | [] => True
  | m :: r => f (m_from m) = m_nonce m /\ in_sequence (upd f (m_from m) (m_nonce m + 1)) r
  end.
Lemma ante_msgs_facts c : forall ms s i s1 evs, ante_msgs c s i ms = Some (s1, evs) ->
  Forall (fun m => basic_ok m = true /\ c_base c <= m_cap m /\ (c_minprice c = 0 \/ c_minprice c <= price c m * ONE)
                   /\ kind_ok c m = true /\ code s (m_from m) = false) ms /\
  in_sequence (nonces s) ms /\
  (forall k, bal s1 k = bal s k + net (fee_moves c ms) k) /\
  nonces s1 = nonces_after (nonces s) ms /\
  (code s1 = code s /\ revs s1 = revs s /\ t_index s1 = t_index s /\ t_logs s1 = t_logs s /\
            t_bloom s1 = t_bloom s /\ t_gas s1 = t_gas s /\ tx_total s1 = tx_total s) /\
  evs = map (fun im => EvHash (m_hash (snd im)) (t_index s + i + Z.of_nat (fst im))) (combine (List.seq 0 (length ms)) ms).
Proof.
  induction ms as [|m ms IH]; intros s i s1 evs H.
  - injection H as <- <-. split; [constructor|]. split; [exact Logic.I|]. split; [intros k; cbn; lia|].
    split; [reflexivity|]. split; [|reflexivity]. repeat split.
  - cbn [ante_msgs] in H. destruct (ante_msg c s m) as [s0|] eqn:E; [|discriminate].
    destruct (ante_msgs c s0 (i + 1) ms) as [[s2 ev]|] eqn:E2; [|discriminate].
    injection H as <- <-. apply ante_msg_facts in E as A. apply IH in E2 as (F & Q & B & N & (R1 & R2 & R3 & R4 & R5 & R6 & R7) & EV).
    destruct A as [a1 a2 a3 a4 a5 a6 a7 a8 a9 (b1 & b2 & b3 & b4 & b5 & b6 & b7)].
    split; [|split; [|split; [|split; [|split]]]].
    + constructor; [auto|]. rewrite b1 in F. exact F.
    + split; [exact a7|]. rewrite <- a9. exact Q.
    + intros k. rewrite B, a8. unfold fee_moves. cbn [map]. rewrite net_cons. unfold fee_moves in *. lia.
    + cbn [nonces_after]. rewrite N, a9. reflexivity.
    + repeat split; congruence.
    + cbn [length List.seq combine map fst snd]. rewrite EV, b3. f_equal; [f_equal; lia|].
      rewrite <- seq_shift. clear. generalize (List.seq 0 (length ms)). intros l. revert ms.
      induction l as [|n l IHl]; intros [|m ms]; try reflexivity. cbn [map combine fst snd]. rewrite IHl. f_equal. f_equal. lia.
Qed.
Lemma ante_msgs_solvent c : cfg_ok c -> forall ms s i s1 evs, ante_msgs c s i ms = Some (s1, evs) ->
  solvent s -> solvent s1.
Proof.
  intros C. induction ms as [|m ms IH]; intros s i s1 evs H S.
  - injection H as <- <-. exact S.
  - cbn [ante_msgs] in H. destruct (ante_msg c s m) as [s0|] eqn:E; [|discriminate].
    destruct (ante_msgs c s0 (i + 1) ms) as [[s2 ev]|] eqn:E2; [|discriminate].
    injection H as <- <-. apply (IH _ _ _ _ E2). apply ante_msg_facts in E as A.
    pose proof (ante_fee_nonneg _ _ _ _ C A) as P. intros k. rewrite (af_bal _ _ _ _ A).
    rewrite <- move_effect. apply move_nonneg; [exact S|lia|lia].
Qed.

(* ---------------- execution ---------------- *)
Definition refund_moves (c : cfg) (m : msg) (b : bill) : list (Z * Z * Z) :=
  (c_fc c, m_from m, price c m * (m_gas m - bl_used b)) :: (c_fc c, bl_dev_to b, bl_dev b) :: bl_moved b.

Lemma number_facts h txi hash : forall raw idx,
  length (number h idx txi hash raw) = length raw /\
  map l_index (number h idx txi hash raw) = numbers idx (length raw) /\
  Forall (fun l => l_block l = h /\ l_txindex l = txi /\ l_hash l = hash) (number h idx txi hash raw) /\
  map (fun l => (l_addr l, l_topics l)) (number h idx txi hash raw) = raw.
Proof.
  induction raw as [|[a ts] raw IH]; intros idx.
  - repeat split; constructor.
  - destruct (IH (idx + 1)) as (H1 & H2 & H3 & H4). cbn [number length map]. split; [now f_equal|].
    split; [|split].
    + rewrite H2. unfold numbers. cbn [List.seq map]. cbn [l_index]. f_equal; [lia|].
      rewrite <- seq_shift, map_map. apply map_ext. intros n. lia.
    + constructor; [cbn; auto|exact H3].
    + rewrite H4. reflexivity.
Qed.
Lemma pay_dev_facts c s m used : exists w x,
  (forall k, bal (pay_dev c s m used) k = bal s k + effect (c_fc c, w, x) k) /\
  nonces (pay_dev c s m used) = nonces s /\ code (pay_dev c s m used) = code s /\ revs (pay_dev c s m used) = revs s /\
  0 <= x /\ (x = 0 \/ x <= bal s (c_fc c)) /\
  (x = 0 \/ exists k, m_to m = Some k /\ c_rev c = true /\ c_precompile c k = false /\
            revs s k = Some w /\ x = c_share c * (used * message_price c m) / ONE).
Proof.
  unfold pay_dev. destruct (dev_fee c s m used) as [[w x]|] eqn:E.
  - destruct (Z.leb_spec x 0); cbn [orb].
    + exists 0, 0. split; [intros k; unfold effect; destruct (k =? 0), (k =? c_fc c); lia|]. repeat split; auto; lia.
    + destruct (Z.ltb_spec (bal s (c_fc c)) x).
      * exists 0, 0. split; [intros k; unfold effect; destruct (k =? 0), (k =? c_fc c); lia|]. repeat split; auto; lia.
      * exists w, x. split; [intros k; cbn [with_bal bal]; apply move_effect|]. repeat split; auto; try lia.
        right. unfold dev_fee in E. destruct (m_to m) as [k|]; [|discriminate].
        destruct (message_price c m <=? 0); [discriminate|].
        destruct (c_rev c); [|discriminate]. destruct (c_share c =? 0); [discriminate|].
        destruct (c_precompile c k) eqn:P; [discriminate|].
        destruct (revs s k) as [w'|] eqn:R; [|discriminate]. injection E as <- <-.
        exists k. auto.
  - exists 0, 0. split; [intros k; unfold effect; destruct (k =? 0), (k =? c_fc c); lia|]. repeat split; auto; lia.
Qed.

Lemma dev_le c m b o : cfg_ok c -> 0 <= price c m -> 0 <= bl_used b -> bill_for c m o b -> 0 <= bl_dev b <= price c m * bl_used b.
Proof.
  intros (_ & _ & S1 & S2) P U (r & _ & _ & _ & [D|(k & _ & _ & _ & D)]).
  - rewrite D. nia.
  - rewrite D. pose proof ONE_pos. split.
    + apply Z.div_pos; [|lia]. apply Z.mul_nonneg_nonneg; [lia|]. nia.
    + apply Z.div_le_upper_bound; [lia|]. assert (0 <= bl_used b * price c m) by nia. nia.
Qed.
Fixpoint nonces_run (f : Z -> Z) (ms : list msg) (bs : list bill) : Z -> Z :=
  match ms, bs with
  | m :: ms', b :: bs' =>
      nonces_run (if bl_failed b then f else match m_to m with None => upd f (m_from m) (m_nonce m + 1) | Some _ => f end) ms' bs'
  | _, _ => f
  end.
Fixpoint shown (i : Z) (ms : list msg) (bs : list bill) (lss : list (list log)) : list event :=
  match ms, bs, lss with
  | m :: ms', b :: bs', ls :: lss' =>
      EvTx (m_hash m) i (bl_used b) (bl_failed b) :: EvLogs ls :: shown (i + 1) ms' bs' lss'
  | _, _, _ => []
  end.
Fixpoint logs_owned (c : cfg) (i : Z) (ms : list msg) (bs : list bill) (lss : list (list log)) : Prop :=
  match ms, bs, lss with
  | [], [], [] => True
  | m :: ms', b :: bs', ls :: lss' =>
      Forall (fun l => l_block l = c_height c /\ l_txindex l = i /\ l_hash l = m_hash m) ls /\
      (bl_failed b = true -> ls = []) /\ logs_owned c (i + 1) ms' bs' lss'
  | _, _, _ => False
  end.
Definition raw_logs (ls : list log) : list (Z * list Z) := map (fun l => (l_addr l, l_topics l)) ls.

Lemma numbers_shift i n m : map (fun k => i + Z.of_nat k) (List.seq n m) = numbers (i + Z.of_nat n) m.
Proof.
  revert i n. induction m; intros i n; [reflexivity|]. unfold numbers in *. cbn [List.seq map]. f_equal; [lia|].
  rewrite IHm, <- seq_shift, map_map. apply map_ext. intros k. lia.
Qed.
Lemma numbers_app i n m : numbers i (n + m) = numbers i n ++ numbers (i + Z.of_nat n) m.
Proof. unfold numbers at 1 2. rewrite seq_app, map_app. f_equal. cbn [plus]. apply numbers_shift. Qed.
Definition pays (c : cfg) (ms : list msg) : Z := sum (map (fun m => price c m * m_gas m) ms).
Lemma pays_nonneg c ms : cfg_ok c -> Forall (fun m => basic_ok m = true) ms -> 0 <= pays c ms.
Proof.
  intros C. induction 1 as [|m ms H _ IH]; [cbn; lia|]. unfold pays in *. cbn [map sum fold_right]. unfold sum in IH.
  pose proof (price_nonneg _ _ C H). unfold basic_ok in H. repeat (apply andb_prop in H as [H ?]). nia.
Qed.

Section Exec.
Variable mask_a mask_t : Z -> Z.
Notation apply_tx := (apply_tx mask_a mask_t).
Notation run_msgs := (run_msgs mask_a mask_t).
Notation deliver := (deliver mask_a mask_t).

Record exec_facts (c : cfg) (s s1 : st) (m : msg) (o : outcome) (b : bill) (ls : list log) : Prop := mk_ef {
  ef_bill : bill_for c m o b;
  ef_bal : forall k, bal s1 k = bal s k + net (refund_moves c m b) k;
  ef_nonces : nonces s1 = (if bl_failed b then nonces s else
                match m_to m with None => upd (nonces s) (m_from m) (m_nonce m + 1) | Some _ => nonces s end);
  ef_index : t_index s1 = t_index s + 1;
  ef_logs : t_logs s1 = t_logs s + Z.of_nat (length ls);
  ef_gas : t_gas s1 = t_gas s + bl_used b;
  ef_total : tx_total s1 = tx_total s;
  ef_numbers : map l_index ls = numbers (t_logs s) (length ls);
  ef_ls : Forall (fun l => l_block l = c_height c /\ l_txindex l = t_index s /\ l_hash l = m_hash m) ls;
  ef_bloom : t_bloom s1 = Z.lor (t_bloom s) (logs_mask mask_a mask_t (map (fun l => (l_addr l, l_topics l)) ls));
  ef_quiet : bl_failed b = true -> ls = [] /\ code s1 = code s /\ revs s1 = revs s;
  ef_raw : bl_failed b = false -> exists r, o = OutRun r /\ map (fun l => (l_addr l, l_topics l)) ls = r_logs r
}.

Lemma apply_tx_facts c s m o s1 used failed ls : 0 <= c_base c ->
  apply_tx c s m o = Some (s1, used, failed, ls) ->
  exists b, exec_facts c s s1 m o b ls /\ bl_used b = used /\ bl_failed b = failed /\ m_intrinsic m <= m_gas m.
Proof.
  intros C0 H. unfold Model.apply_tx in H. destruct o as [| |r]; try discriminate.
  destruct (Z.ltb_spec (m_gas m) (m_intrinsic m)) as [|G]; [discriminate|].
  destruct (if r_failed r then None else moves (bal s) (r_moves r)) as [bb|] eqn:E.
  - destruct (pay_dev_facts c (committed c s m r bb) m (gas_used c m r)) as (w & x & PB & PN & PC & PR & PX & _ & PD).
    set (sp := pay_dev c (committed c s m r bb) m (gas_used c m r)) in *.
    destruct ((_ <? 0) || _); [discriminate|]. injection H as <- <- <- <-.
    exists (mk_bill (gas_used c m r) false (r_moves r) w x). cbn [bl_used bl_failed]. split; [|auto].
    destruct (r_failed r) eqn:F; [discriminate|].
    destruct (number_facts (c_height c) (t_index s) (m_hash m) (r_logs r) (t_logs s)) as (N1 & N2 & N3 & N4).
    split; cbn [bl_used bl_failed bl_moved bl_dev bl_dev_to].
    + exists r. split; [reflexivity|]. cbn [bl_used bl_failed bl_moved bl_dev]. split; [apply gas_used_billed|].
      split; [right; auto|]. destruct PD as [PD|(k & K1 & K2 & K3 & _ & K5)]; [now left|right].
      exists k. repeat split; auto. rewrite K5, message_price_price by assumption. reflexivity.
    + intros k. cbn [bal]. rewrite move_effect, PB. cbn [committed bal]. rewrite (moves_effect _ _ _ k E).
      unfold refund_moves. cbn [bl_used bl_dev_to bl_dev bl_moved]. rewrite !net_cons, message_price_price by assumption.
      rewrite (Z.mul_comm (price c m)). lia.
    + cbn [nonces]. rewrite PN. reflexivity.
    + reflexivity.
    + cbn [t_logs]. rewrite N1. reflexivity.
    + reflexivity.
    + reflexivity.
    + rewrite N1. exact N2.
    + exact N3.
    + cbn [t_bloom]. rewrite N4. reflexivity.
    + discriminate.
    + intros _. exists r. auto.
  - destruct ((_ <? 0) || _); [discriminate|]. injection H as <- <- <- <-.
    exists (mk_bill (gas_used c m r) true [] 0 0). cbn [bl_used bl_failed]. split; [|auto].
    split; cbn [bl_used bl_failed bl_moved bl_dev bl_dev_to].
    + exists r. split; [reflexivity|]. cbn [bl_used bl_failed bl_moved bl_dev]. split; [apply gas_used_billed|]. auto.
    + intros k. cbn [bal]. rewrite move_effect. unfold refund_moves. cbn [bl_used bl_dev_to bl_dev bl_moved].
      rewrite !net_cons, net_nil, message_price_price by assumption. rewrite (Z.mul_comm (price c m)).
      assert (effect (c_fc c, 0, 0) k = 0) as -> by (unfold effect; destruct (k =? 0), (k =? c_fc c); lia). lia.
    + reflexivity.
    + reflexivity.
    + reflexivity.
    + reflexivity.
    + reflexivity.
    + reflexivity.
    + constructor.
    + reflexivity.
    + auto.
    + discriminate.
Qed.

(* money stays non-negative and the refund is always there *)
Lemma apply_tx_ok c s m r rest : cfg_ok c -> msg_ok c m -> basic_ok m = true -> m_intrinsic m <= m_gas m -> run_ok c m r ->
  solvent s -> 0 <= rest -> price c m * m_gas m + rest <= bal s (c_fc c) ->
  exists s1 used failed ls, apply_tx c s m (OutRun r) = Some (s1, used, failed, ls) /\ solvent s1 /\ rest <= bal s1 (c_fc c).
Proof.
  intros C [Mf M0] BO G R S RR HB. pose proof (price_nonneg _ _ C BO) as P.
  pose proof (billed_bounds _ _ _ C M0 R) as U. rewrite <- gas_used_billed in U.
  assert (C0 : 0 <= c_base c) by apply C. destruct C as (C1 & C2 & C3).
  destruct R as (R1 & R2 & R3 & R4).
  unfold Model.apply_tx. destruct (Z.ltb_spec (m_gas m) (m_intrinsic m)); [lia|].
  rewrite message_price_price by assumption.
  set (used := gas_used c m r) in *.
  destruct (if r_failed r then None else moves (bal s) (r_moves r)) as [bb|] eqn:E.
  - destruct (r_failed r); [discriminate|].
    destruct (moves_nonneg _ _ R4 _ _ E S) as [B1 B2].
    destruct (pay_dev_facts c (committed c s m r bb) m used) as (w & x & PB & PN & PC & PR & PX & PL & PD).
    set (sp := pay_dev c (committed c s m r bb) m used) in *.
    assert (X : x <= price c m * used).
    { destruct PD as [->|(k & _ & _ & _ & _ & ->)]; [nia|]. rewrite message_price_price by assumption.
      pose proof ONE_pos. apply Z.div_le_upper_bound; [lia|]. assert (0 <= used * price c m) by nia. nia. }
    assert (SP : forall k, 0 <= bal sp k).
    { intros k. rewrite PB. rewrite <- move_effect. apply move_nonneg; [exact B1|lia|]. cbn [committed bal] in *.
      destruct PL as [->|PL]; [apply B1|exact PL]. }
    assert (FC : price c m * m_gas m - price c m * used + rest <= bal sp (c_fc c)).
    { rewrite PB. cbn [committed bal]. unfold effect. rewrite Z.eqb_refl.
      destruct (Z.eqb_spec (c_fc c) w); lia. }
    assert (BK : 0 <= (m_gas m - used) * price c m) by nia.
    destruct (Z.ltb_spec ((m_gas m - used) * price c m) 0); [lia|].
    destruct (Z.ltb_spec (bal sp (c_fc c)) ((m_gas m - used) * price c m)); [nia|].
    cbn [orb]. do 4 eexists. split; [reflexivity|]. cbn [bal]. split.
    + intros k. apply move_nonneg; auto.
    + cbn [bal]. rewrite move_effect. unfold effect. rewrite Z.eqb_refl.
      destruct (Z.eqb_spec (c_fc c) (m_from m)); [congruence|]. nia.
  - assert (BK : 0 <= (m_gas m - used) * price c m) by nia.
    destruct (Z.ltb_spec ((m_gas m - used) * price c m) 0); [lia|].
    destruct (Z.ltb_spec (bal s (c_fc c)) ((m_gas m - used) * price c m)); [nia|].
    cbn [orb]. do 4 eexists. split; [reflexivity|]. cbn [bal]. split.
    + intros k. apply move_nonneg; auto.
    + cbn [bal]. rewrite move_effect. unfold effect. rewrite Z.eqb_refl.
      destruct (Z.eqb_spec (c_fc c) (m_from m)); [congruence|]. nia.
Qed.
Lemma apply_tx_solvent c s m o s1 used failed ls : cfg_ok c -> 0 <= c_base c ->
  outcome_ok c m o -> apply_tx c s m o = Some (s1, used, failed, ls) -> solvent s -> solvent s1.
Proof.
  intros C C0 R H S. unfold Model.apply_tx in H. destruct o as [| |r]; try discriminate.
  destruct (Z.ltb_spec (m_gas m) (m_intrinsic m)) as [|G]; [discriminate|].
  destruct (R G) as (_ & _ & _ & R4).
  destruct (if r_failed r then None else moves (bal s) (r_moves r)) as [bb|] eqn:E.
  - destruct (r_failed r); [discriminate|].
    destruct (moves_nonneg _ _ R4 _ _ E S) as [B1 _].
    destruct (pay_dev_facts c (committed c s m r bb) m (gas_used c m r)) as (w & x & PB & _ & _ & _ & PX & PL & _).
    set (sp := pay_dev c (committed c s m r bb) m (gas_used c m r)) in *.
    assert (SP : forall k, 0 <= bal sp k).
    { intros k. rewrite PB. rewrite <- move_effect. apply move_nonneg; [exact B1|lia|]. cbn [committed bal] in *.
      destruct PL as [->|PL]; [apply B1|exact PL]. }
    destruct (Z.ltb_spec ((m_gas m - gas_used c m r) * message_price c m) 0); [discriminate|].
    destruct (Z.ltb_spec (bal sp (c_fc c)) ((m_gas m - gas_used c m r) * message_price c m)); [discriminate|].
    injection H as <- <- <- <-. intros k. cbn [bal]. apply move_nonneg; auto.
  - destruct (Z.ltb_spec ((m_gas m - gas_used c m r) * message_price c m) 0); [discriminate|].
    destruct (Z.ltb_spec (bal s (c_fc c)) ((m_gas m - gas_used c m r) * message_price c m)); [discriminate|].
    injection H as <- <- <- <-. intros k. cbn [bal]. apply move_nonneg; auto.
Qed.

(* ---------------- all messages of a transaction ---------------- *)
(* the events of the messages *)
Record msgs_facts (c : cfg) (s s1 : st) (ms : list msg) (os : list outcome) (evs : list event) (bs : list bill) (lss : list (list log)) : Prop := mk_mf {
  mf_bills : bills_for c ms os bs;
  mf_bal : forall k, bal s1 k = bal s k + net (all_moves (refund_moves c) ms bs) k;
  mf_nonces : nonces s1 = nonces_run (nonces s) ms bs;
  mf_index : t_index s1 = t_index s + Z.of_nat (length ms);
  mf_logs : t_logs s1 = t_logs s + Z.of_nat (length (concat lss));
  mf_gas : t_gas s1 = t_gas s + sum (map bl_used bs);
  mf_total : tx_total s1 = tx_total s;
  mf_evs : evs = shown (t_index s) ms bs lss;
  mf_numbers : map l_index (concat lss) = numbers (t_logs s) (length (concat lss));
  mf_owned : logs_owned c (t_index s) ms bs lss;
  mf_bloom : t_bloom s1 = Z.lor (t_bloom s) (logs_mask mask_a mask_t (raw_logs (concat lss)))
}.
Lemma logs_mask_app l1 l2 : logs_mask mask_a mask_t (l1 ++ l2) = Z.lor (logs_mask mask_a mask_t l1) (logs_mask mask_a mask_t l2).
Proof.
  unfold logs_mask. induction l1 as [|x l IH]; [reflexivity|]. cbn [app map fold_right]. rewrite IH. apply Z.lor_assoc.
Qed.

Lemma run_msgs_facts c : 0 <= c_base c -> forall ms s os s1 evs, run_msgs c s ms os = inr (s1, evs) ->
  exists bs lss, msgs_facts c s s1 ms os evs bs lss.
Proof.
  intros C0. induction ms as [|m ms IH]; intros s os s1 evs H.
  - injection H as <- <-. exists [], []. split; try exact Logic.I; try reflexivity; cbn; try lia.
    rewrite Z.lor_0_r. reflexivity.
  - cbn [Model.run_msgs] in H. destruct (apply_tx c s m (hd OutErr os)) as [[[[s0 used] failed] ls]|] eqn:E; [|discriminate].
    destruct (run_msgs c s0 ms (tl os)) as [|[s2 ev]] eqn:E2; [discriminate|].
    injection H as <- <-. apply apply_tx_facts in E as (b & F & <- & <- & _); [|assumption].
    destruct (IH _ _ _ _ E2) as (bs & lss & G). destruct F, G.
    exists (b :: bs), (ls :: lss). split.
    + split; assumption.
    + intros k. rewrite mf_bal0, ef_bal0. cbn [all_moves]. rewrite net_app. lia.
    + cbn [nonces_run]. rewrite mf_nonces0, ef_nonces0. reflexivity.
    + cbn [length]. lia.
    + cbn [concat]. rewrite app_length. lia.
    + cbn [map sum fold_right]. unfold sum in *. lia.
    + congruence.
    + cbn [shown]. rewrite mf_evs0, ef_index0. reflexivity.
    + cbn [concat]. rewrite map_app, app_length, ef_numbers0, mf_numbers0, ef_logs0. symmetry. apply numbers_app.
    + cbn [logs_owned]. split; [assumption|]. split; [intros Q; now apply ef_quiet0|]. rewrite <- ef_index0. assumption.
    + cbn [concat]. unfold raw_logs in *. rewrite map_app, logs_mask_app, Z.lor_assoc, <- ef_bloom0. assumption.
Qed.
Lemma run_msgs_solvent c : cfg_ok c -> forall ms s os s1 evs, run_msgs c s ms os = inr (s1, evs) ->
  outcomes_ok c ms os -> solvent s -> solvent s1.
Proof.
  intros C. induction ms as [|m ms IH]; intros s os s1 evs H O S.
  - injection H as <- <-. exact S.
  - cbn [Model.run_msgs] in H. destruct (apply_tx c s m (hd OutErr os)) as [[[[s0 used] failed] ls]|] eqn:E; [|discriminate].
    destruct (run_msgs c s0 ms (tl os)) as [|[s2 ev]] eqn:E2; [discriminate|].
    injection H as <- <-. destruct O as (_ & O1 & O2).
    apply (IH _ _ _ _ E2 O2). apply (apply_tx_solvent _ _ _ _ _ _ _ _ C (proj1 C) O1 E S).
Qed.
Lemma run_msgs_ok c : cfg_ok c -> forall ms s os, outcomes_ok c ms os ->
  Forall (fun m => basic_ok m = true /\ m_intrinsic m <= m_gas m) ms ->
  (forall i, (i < length ms)%nat -> exists r, nth_error os i = Some (OutRun r)) ->
  solvent s -> pays c ms <= bal s (c_fc c) ->
  exists s1 evs, run_msgs c s ms os = inr (s1, evs).
Proof.
  intros C. induction ms as [|m ms IH]; intros s os O B R S P.
  - eexists _, _. reflexivity.
  - destruct O as (O0 & O1 & O2). inversion B as [|? ? [B1 B2] B3]; subst.
    destruct (R 0%nat) as [r Hr]; [cbn; lia|]. destruct os as [|o os]; [discriminate|]. injection Hr as ->.
    cbn [hd tl] in *.
    assert (PN : 0 <= pays c ms).
    { apply pays_nonneg; [assumption|]. eapply Forall_impl; [|exact B3]. cbn. tauto. }
    destruct (apply_tx_ok c s m r (pays c ms) C O0 B1 B2 (O1 B2) S PN) as (s1 & used & failed & ls & E & S1 & P1).
    { unfold pays in *. cbn [map sum fold_right] in P. unfold sum. lia. }
    cbn [Model.run_msgs hd tl]. rewrite E.
    destruct (IH s1 os O2 B3) as (s2 & evs & E2); auto.
    { intros i Hi. apply (R (Datatypes.S i)). cbn. lia. }
    rewrite E2. eexists _, _. reflexivity.
Qed.
End Exec.
