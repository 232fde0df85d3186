(* C65 what Ethereum transactions cost, C66 how often a signed transaction runs,
   C67 how transactions and logs are numbered. *)
From Verif Require Import Lib.Base Evmtx.Model Evmtx.Spec Evmtx.Proofs Evmtx.Proofs2.
Open Scope Z_scope.

(* ---------------- a concrete chain ---------------- *)
Definition half : Z := 500000000000000000.
Definition fifth : Z := 200000000000000000.
Definition cfg0 (h : Z) : cfg :=
  mk_cfg h 10 0 half 1000000 true true true fifth (fun k => k =? 8) 99.
Definition st0 : st :=
  mk_st (fun a => if a =? 1 then 100000000 else if a =? 2 then 50000000 else 0) (fun _ => 0)
    (fun a => a =? 50) (fun k => if k =? 50 then Some 7 else None) 0 0 0 0 0.
Definition mask_a0 (a : Z) : Z := 2 ^ (a mod 16).
Definition mask_t0 (t : Z) : Z := 2 ^ (16 + t mod 16).
(* account 1 calls contract 50, sending 5; account 2 creates a contract *)
Definition call0 : msg := mk_msg 1 0 100000 true 15 2 (Some 50) 5 1001 21000.
Definition create0 : msg := mk_msg 2 0 200000 false 11 0 None 0 1002 53000.
Definition run0 : run := mk_run 50000 1000 false [(1, 50, 5)] [(50, [3; 4]); (50, [5])] 0.
Definition run1 : run := mk_run 20000 0 false [] [(60, [9])] 60.
Definition run2 : run := mk_run 79000 0 true [] [] 0.
Definition tx_of (ms : list msg) : tx := mk_tx ms (sum (map max_fee ms)) (sum (map m_gas ms)).
Definition call1 : msg := mk_msg 1 1 100000 false 12 0 (Some 50) 0 1003 21000.
Definition block0 : block := mk_block (cfg0 1) [(tx_of [call0], [OutRun run0]); (tx_of [create0], [OutRun run1])].
Definition block1 : block := mk_block (cfg0 2) [(tx_of [call1], [OutRun run2]); (tx_of [call0], [OutRun run0])].

(* ---------------- C65 ---------------- *)
Section Masks.
Variable mask_a mask_t : Z -> Z.
Notation deliver := (deliver mask_a mask_t).
Notation run_chain := (run_chain mask_a mask_t).
Notation run_block := (run_block mask_a mask_t).

(* A completed transaction: every message is billed, and the balances change by exactly
   the transfers of the bills: the sender pays the price times the gas billed to the fee
   collector, the developer's part comes out of it, and the run's own transfers happen
   only if it did not fail. The events report the same gas and verdicts. *)
Theorem C65_completed_pays_for_its_gas c s bg x os s' bg' used evs : cfg_ok c ->
  deliver c s bg x os = (s', bg', ROk used evs) ->
  exists bs, bills_for c (x_msgs x) os bs /\
    (forall k, bal s' k = bal s k + net (all_moves (bill_moves c) (x_msgs x) bs) k) /\
    used = sum (map bl_used bs) /\
    map (fun p => fst (fst (fst p))) (reports evs) = map m_hash (x_msgs x) /\
    map (fun p => (snd (fst p), snd p)) (reports evs) = map (fun b => (bl_used b, bl_failed b)) bs.
Proof.
  intros C H. apply deliver_ok_facts in H as (bs & []); [|apply C]. exists bs. auto.
Qed.

(* A bill never exceeds the gas limit nor undercuts the minimum share of it, and the
   developer never gets more than the fee. *)
Theorem C65_bill_within_limits c m r b : cfg_ok c -> 0 <= m_intrinsic m -> run_ok c m r -> 0 <= price c m ->
  bill_for c m (OutRun r) b ->
  m_gas m * c_mult c / ONE <= bl_used b <= m_gas m /\ 0 <= bl_dev b <= price c m * bl_used b.
Proof.
  intros C I R P B. pose proof (billed_bounds _ _ _ C I R) as U.
  destruct B as (r' & E & EU & B). injection E as <-. split.
  - rewrite EU. split; [unfold billed_gas; cbn zeta; lia|apply U].
  - apply (dev_le _ _ _ (OutRun r) C P); [lia|]. exists r. auto.
Qed.

(* A transaction that fails after it was accepted costs its whole gas limit and changes
   nothing else. *)
Theorem C65_failed_pays_the_whole_limit c s bg x os s' bg' k evs :
  deliver c s bg x os = (s', bg', RFail k evs) ->
  (forall a, bal s' a = bal s a + net (map (fun m => (m_from m, c_fc c, price c m * m_gas m)) (x_msgs x)) a) /\
  code s' = code s /\ revs s' = revs s /\ t_index s' = t_index s /\ t_logs s' = t_logs s /\ t_bloom s' = t_bloom s /\
  reports evs = [] /\ event_logs evs = [].
Proof.
  intros H. apply deliver_fail_facts in H as [B N (R1 & R2 & R3 & R4 & R5 & R6) (Q1 & Q2 & Q3) _]. repeat split; assumption.
Qed.

(* A transaction that is not accepted costs nothing and changes nothing. *)
Theorem C65_rejected_changes_nothing c s bg x os s' bg' r :
  deliver c s bg x os = (s', bg', r) -> accepted r = false -> s' = s /\ bg' = bg /\ events r = [].
Proof. intros H A. eapply deliver_rejected; eauto. Qed.

(* Whoever is accepted pays at least the base fee and the chain's minimum, at most what
   they offered, and their wrapper states exactly what they offered. *)
Theorem C65_accepted_price_is_fair c s bg x os s' bg' r : cfg_ok c ->
  deliver c s bg x os = (s', bg', r) -> accepted r = true ->
  x_fee x = sum (map (fun m => m_cap m * m_gas m) (x_msgs x)) /\
  x_gas x = sum (map m_gas (x_msgs x)) /\ x_gas x <= c_limit c /\
  Forall (fun m => c_base c <= price c m <= m_cap m /\ c_minprice c <= Z.max 0 (price c m * ONE) /\
                   code s (m_from m) = false) (x_msgs x).
Proof.
  intros C H A. destruct (deliver_accepted _ _ _ _ _ _ _ _ _ _ H A) as (s1 & ev1 & E).
  apply ante_inv in E as (E & F & G & L & _). apply ante_msgs_facts in E as (FF & _).
  split; [exact F|]. split; [exact G|]. split; [lia|].
  eapply Forall_impl; [|exact FF]. intros m (B & CB & M & _ & K). cbn beta.
  pose proof (price_nonneg c m C B) as PN. pose proof ONE_pos.
  split; [|split; [|exact K]].
  - unfold price in *. unfold basic_ok in B. repeat (apply andb_prop in B as [B ?]).
    destruct (m_dyn m); [|lia]. cbn in *. lia.
  - nia.
Qed.

(* Over any chain nobody's balance goes below zero. *)
Theorem C65_nobody_in_debt bs s s' rs : Forall block_ok bs -> run_chain s bs = (s', rs) ->
  solvent s -> solvent s'.
Proof. intros O H. apply (proj2 (run_chain_money _ _ _ _ _ _ O H)). Qed.

(* Over any chain money only moves: the change of all balances is a list of transfers, so
   every group of accounts that contains both ends of them keeps its total. *)
Theorem C65_money_only_moves bs s s' rs : Forall block_ok bs -> run_chain s bs = (s', rs) ->
  exists ts, (forall a, bal s' a = bal s a + net ts a) /\
    forall group, NoDup group -> Forall (fun t => let '(a, b, _) := t in In a group /\ In b group) ts ->
      sum (map (bal s') group) = sum (map (bal s) group).
Proof.
  intros O H. destruct (proj1 (run_chain_money _ _ _ _ _ _ O H)) as [ts T]. exists ts. split; [exact T|].
  intros g N F. assert (E : sum (map (bal s') g) = sum (map (bal s) g) + sum (map (net ts) g)).
  { clear N F. induction g as [|a g IH]; [reflexivity|]. cbn [map sum fold_right]. unfold sum in IH. rewrite IH, T. lia. }
  rewrite E, (net_sum_zero _ _ N F). lia.
Qed.

(* The refund never fails: if every message has enough gas to start and the EVM returns
   from every run, the transaction completes, unless the block is out of gas. *)
Theorem C65_refund_is_always_there c s bg x os s' bg' k evs : cfg_ok c -> outcomes_ok c (x_msgs x) os -> solvent s ->
  Forall (fun m => m_intrinsic m <= m_gas m) (x_msgs x) ->
  (forall i, (i < length (x_msgs x))%nat -> exists r, nth_error os i = Some (OutRun r)) ->
  deliver c s bg x os = (s', bg', RFail k evs) -> k = KBlock.
Proof.
  intros C O S G R H. pose proof (deliver_fail _ _ _ _ _ _ _ _ _ _ _ H) as E.
  apply ante_inv in E as (E & _). pose proof (ante_msgs_facts _ _ _ _ _ _ E) as (F & _ & B & _).
  pose proof (ante_msgs_solvent _ C _ _ _ _ _ E S) as S1.
  destruct (run_msgs_ok mask_a mask_t c C (x_msgs x) s' os O) as (s2 & ev & E2); auto.
  - rewrite Forall_forall in *. intros m I. split; [apply (F m I)|apply (G m I)].
  - rewrite B. cbn [fresh bal].
    assert (forall ms, Forall (fun m => m_from m <> c_fc c) ms -> net (fee_moves c ms) (c_fc c) = pays c ms) as Q.
    { clear. induction 1 as [|m ms H _ IH]; [reflexivity|]. cbn [fee_moves map]. rewrite net_cons. unfold fee_moves in IH. rewrite IH.
      unfold pays. cbn [map sum fold_right]. unfold effect. rewrite Z.eqb_refl.
      destruct (Z.eqb_spec (c_fc c) (m_from m)); [congruence|]. unfold sum. lia. }
    rewrite Q; [pose proof (S (c_fc c)); lia|].
    clear -O. revert os O. induction (x_msgs x) as [|m ms IH]; intros os O; constructor; [apply O|]. apply (IH (tl os)). apply O.
  - unfold Model.deliver in H. destruct (c_limit c <=? bg); [discriminate|].
    destruct (ante c s x) as [[s1 ev1]|]; [|discriminate].
    destruct (run_msgs mask_a mask_t c s1 (x_msgs x) os) as [k'|[s3 ev3]] eqn:E3.
    + destruct (c_limit c <? bg + x_gas x); [injection H; auto|]. injection H as <- <- <- <-. congruence.
    + destruct (c_limit c <? bg + t_gas s3); [injection H; auto|discriminate].
Qed.

(* ---------------- C66 ---------------- *)
(* Along any chain whose transactions put creations last, the accepted messages of every
   account carry exactly its next nonces, in order: none is skipped, repeated or out of
   turn, and the account's nonce at the end counts them. *)
Theorem C66_nonces_in_order bs s s' rs : Forall (fun b => 0 <= c_base (b_cfg b)) bs -> tidy bs ->
  run_chain s bs = (s', rs) ->
  forall a, nonces_of a (chain_ids bs rs) = numbers (nonces s a) (length (nonces_of a (chain_ids bs rs))) /\
            nonces s' a = nonces s a + Z.of_nat (length (nonces_of a (chain_ids bs rs))).
Proof. intros C T H. eapply run_chain_stepped; eauto. Qed.
(* so no signed message is executed twice *)
Theorem C66_executed_at_most_once bs s s' rs : Forall (fun b => 0 <= c_base (b_cfg b)) bs -> tidy bs ->
  run_chain s bs = (s', rs) -> NoDup (chain_ids bs rs).
Proof. intros C T H. eapply stepped_nodup. eapply run_chain_stepped; eauto. Qed.
(* in particular when every transaction carries one message *)
Theorem C66_single_messages_run_once bs s s' rs : Forall (fun b => 0 <= c_base (b_cfg b)) bs ->
  Forall (fun b => Forall (fun x => length (x_msgs (fst x)) = 1%nat) (b_txs b)) bs ->
  run_chain s bs = (s', rs) -> NoDup (chain_ids bs rs).
Proof.
  intros C L H. eapply C66_executed_at_most_once; [exact C| |exact H].
  eapply Forall_impl; [|exact L]. intros b Hb. eapply Forall_impl; [|exact Hb]. intros [x os] E. cbn [fst] in *.
  destruct (x_msgs x) as [|m [|]]; try discriminate. split; [constructor|exact Logic.I].
Qed.
(* A transaction whose first message does not carry its sender's nonce is not accepted. *)
Theorem C66_wrong_nonce_rejected c s bg x os s' bg' r m ms : deliver c s bg x os = (s', bg', r) ->
  x_msgs x = m :: ms -> m_nonce m <> nonces s (m_from m) -> accepted r = false /\ s' = s.
Proof.
  intros H E N. destruct (accepted r) eqn:A.
  - exfalso. destruct (deliver_accepted _ _ _ _ _ _ _ _ _ _ H A) as (s1 & ev1 & AN).
    apply ante_inv in AN as (AN & _). apply ante_msgs_facts in AN as (_ & Q & _). rewrite E in Q.
    destruct Q as [Q _]. cbn [fresh nonces] in Q. congruence.
  - split; [reflexivity|]. eapply deliver_rejected; eauto.
Qed.

(* ---------------- C67 ---------------- *)
(* The completed transactions of a block are numbered 0, 1, 2, ... and so are its logs; the
   chain's total grows by their number. *)
Theorem C67_numbered_from_zero s b s' r : 0 <= c_base (b_cfg b) -> run_block s b = (s', r) ->
  let evs := all_events (br_results r) in
  tx_numbers evs = numbers 0 (length (tx_numbers evs)) /\
  map l_index (event_logs evs) = numbers 0 (length (event_logs evs)) /\
  (0 < c_height (b_cfg b) -> tx_total s' = tx_total s + Z.of_nat (length (tx_numbers evs))).
Proof.
  intros C H. unfold Model.run_block in H. destruct (deliver_all mask_a mask_t (b_cfg b) (start s) 0 (b_txs b)) as [s1 rs] eqn:E.
  injection H as <- <-. apply deliver_all_counts in E as []; [|assumption]. cbn [br_results start t_index t_logs tx_total] in *.
  split; [assumption|]. split; [assumption|]. intros P. destruct (Z.leb_spec (c_height (b_cfg b)) 0); lia.
Qed.
(* Every log of a block is in the events of the transaction it names, which did not fail,
   and carries the block's height. *)
Theorem C67_logs_name_their_transaction s b s' r : 0 <= c_base (b_cfg b) -> run_block s b = (s', r) ->
  forall res l, In res (br_results r) -> In l (event_logs (events res)) ->
  l_block l = c_height (b_cfg b) /\ exists used, In (EvTx (l_hash l) (l_txindex l) used false) (events res).
Proof.
  intros C H. unfold Model.run_block in H. destruct (deliver_all mask_a mask_t (b_cfg b) (start s) 0 (b_txs b)) as [s1 rs] eqn:E.
  injection H as <- <-. apply deliver_all_counts in E as []; [|assumption]. exact bf_owned.
Qed.
(* The number announced before a completed transaction runs is the number it gets. *)
Theorem C67_announced_number_is_kept c s bg x os s' bg' used evs : 0 <= c_base c ->
  deliver c s bg x os = (s', bg', ROk used evs) ->
  announced evs = map (fun p => (fst (fst (fst p)), snd (fst (fst p)))) (reports evs) /\
  map fst (announced evs) = map m_hash (x_msgs x).
Proof.
  intros C H. apply deliver_ok_facts in H as (bs & []); [|assumption]. rewrite map_map in of_announced.
  assert (E : map (fun p : Z * Z * Z * bool => fst (fst p)) (reports evs) = map (fun p => (fst (fst (fst p)), snd (fst (fst p)))) (reports evs)).
  { apply map_ext. intros [[[h i] u] f]. reflexivity. }
  rewrite E in of_announced. split; [assumption|]. rewrite of_announced, map_map. cbn [fst]. exact of_hashes.
Qed.
(* The bloom filter of a block is the union of those of its logs: it covers the address and
   the topics of each, and holds nothing else. *)
Theorem C67_bloom_is_that_of_the_logs s b s' r : 0 <= c_base (b_cfg b) -> run_block s b = (s', r) ->
  let ls := event_logs (all_events (br_results r)) in
  (forall l, In l ls -> in_bloom (br_bloom r) (mask_a (l_addr l)) /\
                        forall t, In t (l_topics l) -> in_bloom (br_bloom r) (mask_t t)) /\
  br_bloom r = fold_right Z.lor 0 (map (fun l => fold_right Z.lor (mask_a (l_addr l)) (map mask_t (l_topics l))) ls).
Proof.
  intros C H. unfold Model.run_block in H. destruct (deliver_all mask_a mask_t (b_cfg b) (start s) 0 (b_txs b)) as [s1 rs] eqn:E.
  injection H as <- <-. apply deliver_all_counts in E as []; [|assumption]. cbn [br_results br_bloom start t_bloom] in *.
  rewrite Z.lor_0_l in bf_bloom. rewrite bf_bloom. split.
  - intros l I. pose proof (logs_mask_covers mask_a mask_t _ _ I) as K. split.
    + eapply in_bloom_trans; [exact K|apply log_mask_addr].
    + intros t T. eapply in_bloom_trans; [exact K|apply log_mask_topic; exact T].
  - unfold logs_mask, raw_logs. rewrite map_map. reflexivity.
Qed.
End Masks.

(* ---------------- examples ---------------- *)
Notation chain0 bs := (run_chain mask_a0 mask_t0 st0 bs).
Lemma block0_ok : block_ok block0 /\ block_ok block1.
Proof.
  split; (split; [vm_compute; repeat split; congruence|]); repeat constructor; cbn; try (intros; split); vm_compute; repeat split; try congruence; repeat constructor; try discriminate.
Qed.
(* the call is billed 71000 - 1000 = 70000 gas at 12, its developer gets a fifth; the
   creation is billed the minimum, half its limit *)
Example ex_C65 : let s := fst (chain0 [block0]) in
  bal s 1 = 100000000 - 70000 * 12 - 5 /\ bal s 50 = 5 /\ bal s 7 = 70000 * 12 / 5 /\
  bal s 2 = 50000000 - 100000 * 11 /\ bal s 99 = 70000 * 12 - 70000 * 12 / 5 + 100000 * 11.
Proof. vm_compute. repeat split. Qed.
Example ex_C65_bill : bill_for (cfg0 1) call0 (OutRun run0) (mk_bill 70000 false [(1, 50, 5)] 7 168000).
Proof.
  exists run0. split; [reflexivity|]. split; [vm_compute; reflexivity|]. split; [right; auto|].
  right. exists 50. vm_compute. auto.
Qed.
(* the failed call of the second block costs all its gas; the old call is rejected *)
Example ex_C65_failed : let '(s, rs) := chain0 [block0; block1] in
  map (fun r => map accepted (br_results r)) rs = [[true; true]; [true; false]] /\
  bal s 1 = 100000000 - 70000 * 12 - 5 - 100000 * 12 /\ nonces s 1 = 2.
Proof. vm_compute. repeat split. Qed.
Example ex_C66 : let rs := snd (chain0 [block0; block1]) in
  chain_ids [block0; block1] rs = [(1, 0); (2, 0); (1, 1)] /\ tidy [block0; block1].
Proof. split; [vm_compute; reflexivity|]. repeat constructor. Qed.
Example ex_C67 : let '(s, rs) := chain0 [block0; block1] in
  map (fun r => tx_numbers (all_events (br_results r))) rs = [[0; 1]; [0]] /\
  map (fun r => map l_index (event_logs (all_events (br_results r)))) rs = [[0; 1; 2]; []] /\
  map (fun r => map l_txindex (event_logs (all_events (br_results r)))) rs = [[0; 0; 1]; []] /\ tx_total s = 3.
Proof. vm_compute. repeat split. Qed.
(* a transaction that does not fit in the block any more *)
Example ex_C65_block_full :
  let '(_, _, r) := deliver mask_a0 mask_t0 (cfg0 1) st0 960000 (tx_of [call0]) [OutRun run0] in
  match r with RFail KBlock e => announced e = [(1001, 0)] | _ => False end.
Proof. vm_compute. reflexivity. Qed.

(* ---------------- what does not hold ---------------- *)
(* Anybody can bundle two signed messages of account 2 into one transaction: a creation
   and then a call. Executing the creation puts the nonce back, so the call is accepted and
   executed again in the next block. *)
Definition call2 : msg := mk_msg 2 1 100000 false 12 0 (Some 1) 7 1004 21000.
Definition run3 : run := mk_run 0 0 false [(2, 1, 7)] [] 0.
Definition bundle : list block :=
  [mk_block (cfg0 1) [(tx_of [create0; call2], [OutRun run1; OutRun run3])];
   mk_block (cfg0 2) [(tx_of [call2], [OutRun run3])]].
Theorem C66_bundled_message_replayed_refuted : exists bs s' rs,
  run_chain mask_a0 mask_t0 st0 bs = (s', rs) /\ Forall block_ok bs /\
  map (fun r => map (fun x => match x with ROk _ _ => true | _ => false end) (br_results r)) rs = [[true]; [true]] /\
  ~ NoDup (chain_ids bs rs) /\ bal s' 1 = bal st0 1 + 7 + 7.
Proof.
  exists bundle, (fst (chain0 bundle)), (snd (chain0 bundle)). split; [destruct (chain0 bundle); reflexivity|].
  split.
  { unfold bundle. repeat constructor; cbn; try (intros; split); vm_compute; repeat split; try congruence; repeat constructor; try discriminate. }
  split; [vm_compute; reflexivity|]. split; [|vm_compute; reflexivity].
  assert (E : chain_ids bundle (snd (chain0 bundle)) = [(2, 0); (2, 1); (2, 1)]) by (vm_compute; reflexivity).
  rewrite E. intros N. inversion N as [|? ? N1 N2]; subst. inversion N2 as [|? ? N3 N4]; subst. apply N3. now left.
Qed.

(* A transaction that fails to commit its state announces a number that the next
   transaction of the block gets too. *)
Definition block2 : block := mk_block (cfg0 1) [(tx_of [call0], [OutCommit]); (tx_of [create0], [OutRun run1])].
Theorem C67_failed_transaction_shares_a_number_refuted : exists b r1 r2,
  br_results (snd (run_block mask_a0 mask_t0 st0 b)) = [r1; r2] /\ accepted r1 = true /\
  announced (events r1) = [(1001, 0)] /\ map (fun p => fst (fst p)) (reports (events r2)) = [(1002, 0)].
Proof. exists block2. do 2 eexists. split; [vm_compute; reflexivity|]. vm_compute. repeat split. Qed.

(* A message with too little gas to start at all is accepted in a block: its sender pays
   for the whole limit, nothing runs and no event reports it. *)
Definition poor : msg := mk_msg 1 0 20000 false 12 0 (Some 50) 0 1005 21000.
Theorem C65_charged_without_running_refuted : exists x s' bg' k evs,
  deliver mask_a0 mask_t0 (cfg0 1) st0 0 x [OutRun run0] = (s', bg', RFail k evs) /\
  bal s' 1 = bal st0 1 - 20000 * 12 /\ reports evs = [].
Proof. exists (tx_of [poor]). do 4 eexists. split; [vm_compute; reflexivity|]. vm_compute. auto. Qed.

Print Assumptions C65_completed_pays_for_its_gas.
Print Assumptions C65_bill_within_limits.
Print Assumptions C65_failed_pays_the_whole_limit.
Print Assumptions C65_rejected_changes_nothing.
Print Assumptions C65_accepted_price_is_fair.
Print Assumptions C65_nobody_in_debt.
Print Assumptions C65_money_only_moves.
Print Assumptions C65_refund_is_always_there.
Print Assumptions C65_charged_without_running_refuted.
Print Assumptions C66_nonces_in_order.
Print Assumptions C66_executed_at_most_once.
Print Assumptions C66_single_messages_run_once.
Print Assumptions C66_wrong_nonce_rejected.
Print Assumptions C66_bundled_message_replayed_refuted.
Print Assumptions C67_numbered_from_zero.
Print Assumptions C67_logs_name_their_transaction.
Print Assumptions C67_announced_number_is_kept.
Print Assumptions C67_bloom_is_that_of_the_logs.
Print Assumptions C67_failed_transaction_shares_a_number_refuted.
