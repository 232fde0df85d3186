(* C87: asking a contract on another chain: fees, votes, refunds and rewards. *)
From Coq Require Import Permutation.
From Verif Require Import Lib.Base Lib.Bytes.
From Verif Require Import Extdata.Model Extdata.Spec Extdata.Proofs Extdata.HistoryProofs Extdata.Example.
Open Scope Z_scope.

Section C87.
(* the chain's coin, its contract, the account of the bridge module, accounts that may not
   receive, the accounts of jobs, the texts of decoding errors *)
Variables (BASE COIN ESC : Z) (blocked : Z -> bool) (cron_acct : Z -> Z).
Variables (parse_err json_err : bytes -> bytes).
Notation end_block := (end_block ESC blocked parse_err json_err).
Notation ask := (ask BASE ESC cron_acct).
Notation run := (run BASE ESC blocked cron_acct parse_err json_err).
Notation person := (person ESC blocked).
Notation usual := (usual BASE ESC COIN blocked cron_acct).

(* Asking. A request is taken exactly when the call is not empty, the caller has the callback,
   the bridge is known, half of the gas is at least the minimum, the price at least the base
   fee, and the sender of the transaction holds twice the fee. It then takes exactly the fee
   into the bridge module and as much for the callback; the request is new, is the last of
   the list, and nothing else changes. *)
Theorem C87_ask e m s :
  good s -> 0 <= m_gas m -> 0 <= e_base_fee e -> m_origin m <> ESC ->
  cron_acct (s_cron s + 1) <> m_origin m -> cron_acct (s_cron s + 1) <> ESC ->
  let fee := m_gas m / 2 * m_price m in
  (forall s', ask e m s = Ok s' -> exists b coin,
     (m_call m <> [] /\ m_has_callback m = true /\ e_bridge e (m_chain m) = Some b /\
      b_min_gas b <= m_gas m / 2 /\ e_coin e = Some coin /\ e_base_fee e <= m_price m /\
      2 * fee <= s_bal s (m_origin m) BASE) /\
     s_reqs s' = s_reqs s ++
       [mk_req (b_hid b) (s_last s (b_hid b) + 1) (e_height e) (e_height e + 99) (s_cron s + 1)
               (m_contract m) (m_call m) (m_origin m) coin fee [] []] /\
     s_bal s' (m_origin m) BASE = s_bal s (m_origin m) BASE - 2 * fee /\
     s_bal s' ESC BASE = s_bal s ESC BASE + fee /\
     s_bal s' (cron_acct (s_cron s + 1)) BASE = s_bal s (cron_acct (s_cron s + 1)) BASE + fee /\
     (forall a d, d <> BASE \/ (a <> m_origin m /\ a <> ESC /\ a <> cron_acct (s_cron s + 1)) ->
        s_bal s' a d = s_bal s a d) /\
     s_last s' (b_hid b) = s_last s (b_hid b) + 1 /\
     (forall h, h <> b_hid b -> s_last s' h = s_last s h) /\ s_cron s' = s_cron s + 1 /\
     s_done s' = s_done s /\ s_cb s' = s_cb s /\ s_stats s' = s_stats s) /\
  (forall b coin,
     m_call m <> [] -> m_has_callback m = true -> e_bridge e (m_chain m) = Some b ->
     b_min_gas b <= m_gas m / 2 -> e_coin e = Some coin -> e_base_fee e <= m_price m ->
     2 * fee < 2 ^ 256 -> 2 * fee <= s_bal s (m_origin m) BASE -> exists s', ask e m s = Ok s').
Proof.
  intros G Ga Bf N1 N2 N3 fee. split.
  - intros s' H. apply (ask_spec BASE ESC cron_acct e m s s' G Ga Bf N1 N2 N3) in H.
    destruct H as (b & coin & (A1 & A2 & A3 & A4 & A5 & A6 & A7 & A8) & F0 & Hs & _ & Hb).
    fold fee in A8, F0, Hb. exists b, coin.
    split; [tauto|].
    assert (Q : s_reqs s' = s_reqs s ++ [new_req e m b coin s]) by (rewrite Hs; reflexivity).
    split; [exact Q|].
    assert (X1 : m_origin m =? ESC = false) by (now apply Z.eqb_neq).
    assert (X2 : m_origin m =? cron_acct (s_cron s + 1) = false) by (apply Z.eqb_neq; congruence).
    assert (X3 : ESC =? m_origin m = false) by (apply Z.eqb_neq; congruence).
    assert (X4 : ESC =? cron_acct (s_cron s + 1) = false) by (apply Z.eqb_neq; congruence).
    assert (X5 : cron_acct (s_cron s + 1) =? m_origin m = false) by (now apply Z.eqb_neq).
    assert (X6 : cron_acct (s_cron s + 1) =? ESC = false) by (now apply Z.eqb_neq).
    split; [rewrite Hb, !Z.eqb_refl, X1, X2; lia|].
    split; [rewrite Hb, !Z.eqb_refl, X3, X4; lia|].
    split; [rewrite Hb, !Z.eqb_refl, X5, X6; lia|].
    split.
    { intros a d [Nd|(Na & Nb & Nc)]; rewrite Hb.
      - rewrite (proj2 (Z.eqb_neq d BASE) Nd). lia.
      - rewrite (proj2 (Z.eqb_neq _ _) Na), (proj2 (Z.eqb_neq _ _) Nb), (proj2 (Z.eqb_neq _ _) Nc).
        destruct (d =? BASE); lia. }
    assert (L : s_last s' = upd (s_last s) (b_hid b) (s_last s (b_hid b) + 1)) by (rewrite Hs; reflexivity).
    split; [rewrite L; apply upd_same|]. split; [intros h Nh; rewrite L; now apply upd_other|].
    split; [rewrite Hs; reflexivity|]. split; [rewrite Hs; reflexivity|].
    split; rewrite Hs; reflexivity.
  - intros b coin A1 A2 A3 A4 A5 A6 A7 A8.
    assert (F0 : 0 <= fee) by (apply Z.mul_nonneg_nonneg; [apply Z.div_pos; lia|lia]).
    destruct (send_can BASE s (m_origin m) ESC fee ltac:(lia)) as [s1 E1].
    destruct (send_spec BASE s (m_origin m) ESC fee s1 N1 F0 E1) as [[M1 M2] _].
    destruct (send_can BASE s1 (m_origin m) (cron_acct (s_cron s + 1)) fee) as [s2 E2].
    { rewrite M2, !Z.eqb_refl, (proj2 (Z.eqb_neq _ _) N1). lia. }
    assert (N2' : m_origin m <> cron_acct (s_cron s + 1)) by congruence.
    destruct (send_spec BASE s1 _ _ fee s2 N2' F0 E2) as [[L1 L2] _].
    exists (mk_st (s_reqs s ++ [new_req e m b coin s]) (upd (s_last s) (b_hid b) (s_last s (b_hid b) + 1))
           (s_cron s + 1) (s_bal s2) (s_done s) (s_cb s) (s_stats s)).
    apply (ask_spec BASE ESC cron_acct e m s _ G Ga Bf N1 N2 N3).
    exists b, coin. split; [unfold ask_ok; tauto|]. split; [exact F0|]. split; [reflexivity|].
    cbn [s_bal]. split.
    + intros t1 t2 T1 T2. change (send s BASE (m_origin m) ESC fee = Some t1) in T1.
      change (send t1 BASE (m_origin m) (cron_acct (s_cron s + 1)) fee = Some t2) in T2.
      rewrite E1 in T1. injection T1 as <-. rewrite E2 in T2. now injection T2 as <-.
    + intros a d. change (s_bal s2 a d = s_bal s a d + if d =? BASE then
        (if a =? m_origin m then - (2 * fee) else 0) + (if a =? ESC then fee else 0) +
        (if a =? cron_acct (s_cron s + 1) then fee else 0) else 0).
      rewrite L2, M2. destruct (d =? BASE); [|lia].
      destruct (a =? m_origin m), (a =? ESC), (a =? cron_acct (s_cron s + 1)); lia.
Qed.

(* Answering. A claim is taken exactly when its sender is the registered orchestrator of a
   bonded validator, the request is pending, and the sender has not answered it before. It
   adds this claim and this vote to that request and changes nothing else. *)
Theorem C87_answer e h n ct c s :
  good s ->
  (is_ok (answer e h n ct c s) = true <->
     n <> 0 /\ (exists v, e_orch e h (c_orch c) = Some v /\ e_bonded e v = true) /\
     exists r, In r (s_reqs s) /\ q_hid r = h /\ q_nonce r = n /\ q_contract r = ct /\
               ~ In (c_orch c) (q_votes r)) /\
  (forall s', answer e h n ct c s = Ok s' ->
     s_reqs s' = map (fun r => if (q_hid r =? h) && (q_nonce r =? n) && (q_contract r =? ct)
                      then mk_req (q_hid r) (q_nonce r) (q_block r) (q_timeout r) (q_cron r)
                             (q_contract r) (q_call r) (q_sender r) (q_feec r) (q_fee r)
                             (q_claims r ++ [c]) (q_votes r ++ [c_orch c])
                      else r) (s_reqs s) /\
     s_bal s' = s_bal s /\ s_last s' = s_last s /\ s_cron s' = s_cron s /\ s_done s' = s_done s /\
     s_cb s' = s_cb s /\ s_stats s' = s_stats s).
Proof.
  intro G. split.
  - split.
    + destruct (answer e h n ct c s) as [s'| |] eqn:A; [|discriminate|discriminate]. intros _.
      now apply (answer_spec e h n ct c s s' G) in A.
    + intro H. assert (A : answer e h n ct c s = Ok (set_reqs s (voting h n ct c (s_reqs s)))).
      { apply answer_spec; [exact G|]. now split. }
      now rewrite A.
  - intros s' A. apply (answer_spec e h n ct c s s' G) in A. destruct A as [_ ->].
    repeat (split; [reflexivity|]). reflexivity.
Qed.

(* The end of a block, for a bridge. Some requests win: they are open and somebody answered.
   Exactly these go into the archive, and each of their voters gets the fee divided by the
   number of voters. Exactly the expired requests are refunded, in full. What is left are the
   requests that did neither and were not overtaken by a winning later request to the same
   contract; nothing else changes. *)
Theorem C87_block e b s :
  good s -> any_order e -> (forall v, 0 <= e_power e v) -> b_evm b = true ->
  (forall r, In r (s_reqs s) -> q_hid r = b_hid b ->
     e_pair e (q_feec r) = Some BASE /\ person (q_sender r) /\ forall v, In v (q_votes r) -> person v) ->
  total (map q_fee (filter (fun r => q_hid r =? b_hid b) (s_reqs s))) <= s_bal s ESC BASE ->
  let s' := end_block e b s in
  let late := filter (fun r => (q_hid r =? b_hid b) && expired_b e r) (s_reqs s) in
  exists won,
    s_done s' = s_done s ++ won /\ NoDup won /\
    (forall w, In w won -> In w (s_reqs s) /\ q_hid w = b_hid b /\ open e w /\ q_votes w <> []) /\
    (forall r, In r (s_reqs s') <-> In r (s_reqs s) /\
       (q_hid r = b_hid b -> ~ expired e r /\ ~ In r won /\ forall w, In w won -> ~ overtakes w r)) /\
    (forall a, a <> ESC -> s_bal s' a BASE = s_bal s a BASE
       + total (map (fun r => if q_sender r =? a then q_fee r else 0) late)
       + total (map (fun w => if voter a w then share w else 0) won)) /\
    s_bal s' ESC BASE = s_bal s ESC BASE - total (map q_fee late)
       - total (map (fun w => share w * Z.of_nat (length (q_votes w))) won) /\
    (forall a d, d <> BASE -> s_bal s' a d = s_bal s a d) /\
    (forall h v n f, s_stats s h v = Some (n, f) -> s_stats s' h v = Some
       (n + total (map (fun w => if (q_hid w =? h) && voter v w then 1 else 0) won),
        f + total (map (fun w => if (q_hid w =? h) && voter v w then q_fee w else 0) won))) /\
    (forall k, ~ In k (map q_cron won) -> s_cb s' k = s_cb s k) /\
    s_last s' = s_last s /\ s_cron s' = s_cron s.
Proof.
  intros G Or Po Ev Sf Hb s' late. exists (winners e b s).
  destruct (block_spec BASE ESC blocked parse_err json_err e b s G Or Po Ev)
    as (A1 & A2 & A3 & (f & F1 & F2) & A5 & A6 & A7 & A8 & A9 & A10 & A11 & A12).
  { intros r R H. destruct (Sf r R H) as (B1 & B2 & B3).
    destruct (g_each _ G r R) as (_ & _ & D & _ & E & _). now split. }
  { exact Hb. }
  split; [exact A1|]. split; [exact A2|]. split; [exact A3|]. split.
  { intro r. fold s' in F1. rewrite F1, filter_In. split.
    - intros [R Fr]. split; [exact R|]. now apply F2.
    - intros [R Fr]. split; [exact R|]. now apply F2. }
  split; [exact A5|]. split; [exact A6|]. split; [exact A7|].
  split. { intros h v n g H. fold s' in A12. rewrite A12, H. reflexivity. }
  split; [exact A9|]. now split.
Qed.

(* A bridge of another kind is left alone. *)
Theorem C87_other_kind e b s : b_evm b = false -> end_block e b s = s.
Proof. intro H. unfold Model.end_block. now rewrite H. Qed.

(* An open request wins as soon as its voters hold 33 percent of the power. *)
Theorem C87_enough e b s r :
  good s -> any_order e -> (forall v, 0 <= e_power e v) -> b_evm b = true ->
  (forall r, In r (s_reqs s) -> q_hid r = b_hid b ->
     e_pair e (q_feec r) = Some BASE /\ person (q_sender r) /\ forall v, In v (q_votes r) -> person v) ->
  total (map q_fee (filter (fun r => q_hid r =? b_hid b) (s_reqs s))) <= s_bal s ESC BASE ->
  In r (s_reqs s) -> q_hid r = b_hid b -> open e r -> q_votes r <> [] ->
  third e (b_hid b) <= voted e r ->
  exists won, s_done (end_block e b s) = s_done s ++ won /\ In r won.
Proof.
  intros G Or Po Ev Sf Hb R H1 H2 H3 H4. exists (winners e b s).
  destruct (block_spec BASE ESC blocked parse_err json_err e b s G Or Po Ev) as (A1 & _).
  { intros x X H. destruct (Sf x X H) as (B1 & B2 & B3).
    destruct (g_each _ G x X) as (_ & _ & D & _ & E & _). now split. }
  { exact Hb. }
  split; [exact A1|]. now apply winners_enough.
Qed.

(* The converse holds only for the voters of all the open requests up to the winner put
   together (see C87_few_votes_refuted): for a request that is the only open one it is what
   one expects. *)
Theorem C87_power_partial e b s won w :
  good s -> any_order e -> (forall v, 0 <= e_power e v) -> b_evm b = true ->
  (forall r, In r (s_reqs s) -> q_hid r = b_hid b ->
     e_pair e (q_feec r) = Some BASE /\ person (q_sender r) /\ forall v, In v (q_votes r) -> person v) ->
  total (map q_fee (filter (fun r => q_hid r =? b_hid b) (s_reqs s))) <= s_bal s ESC BASE ->
  s_done (end_block e b s) = s_done s ++ won -> In w won ->
  third e (b_hid b) <= total (map (voted e)
    (filter (fun r => (q_hid r =? b_hid b) && (open_b e r && (q_nonce r <=? q_nonce w))) (s_reqs s))) /\
  ((forall r, In r (s_reqs s) -> q_hid r = b_hid b -> open e r -> r = w) ->
   third e (b_hid b) <= voted e w).
Proof.
  intros G Or Po Ev Sf Hb D W.
  destruct (block_spec BASE ESC blocked parse_err json_err e b s G Or Po Ev) as (A1 & _ & A3 & _).
  { intros x X H. destruct (Sf x X H) as (B1 & B2 & B3).
    destruct (g_each _ G x X) as (_ & _ & D' & _ & E & _). now split. }
  { exact Hb. }
  rewrite A1 in D. apply app_inv_head in D. subst won.
  pose proof (winners_power e b s w G Or Po W) as P. split; [exact P|].
  intro U. destruct (A3 w W) as (W1 & W2 & W3 & _).
  etransitivity; [exact P|].
  assert (N : NoDup (s_reqs s)) by (apply (NoDup_map_inv _ _ (g_keys _ G))).
  set (f := fun r => mine (b_hid b) r && (open_b e r && (q_nonce r <=? q_nonce w))).
  etransitivity; [apply (total_incl (voted e) (filter f (s_reqs s)) [w])|].
  - now apply NoDup_filter.
  - intros x X. apply filter_In in X. destruct X as [X1 X2]. left. symmetry. unfold f, mine in X2.
    rewrite !andb_true_iff, Z.eqb_eq, open_iff in X2. apply U; tauto.
  - intros x _. now apply voted_nonneg.
  - unfold total. cbn [map fold_right]. lia.
Qed.

(* Histories. In every state the numbers of requests differ, nobody votes twice on a request,
   and the votes are those of the claims. *)
Theorem C87_votes_once l stats :
  (forall k, cron_acct k <> ESC) -> Forall (fun q : env * op => usual (fst q) (snd q)) l ->
  let s := run l (empty_st stats) in
  good s /\
  forall r v, In r (s_reqs s ++ s_done s) -> In v (q_votes r) ->
  exists e c val, In (e, Answer (q_hid r) (q_nonce r) (q_contract r) c) l /\ c_orch c = v /\
    e_orch e (q_hid r) v = Some val /\ e_bonded e val = true.
Proof.
  intros Ce F s.
  assert (I0 := empty_inv BASE ESC COIN blocked cron_acct Ce stats).
  assert (I : inv BASE ESC COIN blocked s) by (eapply run_inv; eassumption).
  split; [exact (i_good _ _ _ _ _ I)|]. intros r v R V.
  destruct (run_cast BASE ESC COIN blocked cron_acct parse_err json_err Ce l (empty_st stats) I0 F r v R V)
    as [(r0 & [] & _)|C]; exact C.
Qed.

(* Histories. The bridge module always holds the fees of all pending requests: refunds and
   rewards never fail for want of coins. *)
Theorem C87_escrow l stats :
  (forall k, cron_acct k <> ESC) -> Forall (fun q : env * op => usual (fst q) (snd q)) l ->
  let s := run l (empty_st stats) in
  total (map q_fee (s_reqs s)) <= s_bal s ESC BASE /\
  forall r, In r (s_reqs s) -> 0 <= q_fee r /\ q_feec r = COIN /\ person (q_sender r) /\
    forall v, In v (q_votes r) -> person v.
Proof.
  intros Ce F s.
  assert (I0 := empty_inv BASE ESC COIN blocked cron_acct Ce stats).
  assert (I : inv BASE ESC COIN blocked s) by (eapply run_inv; eassumption).
  split; [exact (i_full _ _ _ _ _ I)|]. intros r R.
  destruct (i_each _ _ _ _ _ I r R) as (A & B & C).
  split; [apply (g_each _ (i_good _ _ _ _ _ I) r R)|]. tauto.
Qed.
End C87.


(* the hypotheses of the histories are met, and the fees of both requests are held *)
Example C87_two : fine two /\ length (s_reqs (from two)) = 2%nat /\ s_bal (from two) ESC BASE = 20.
Proof. split; [exact two_fine|]. now vm_compute. Qed.

(* a block at height 60: the second request wins, validators 1 and 2 get 5 each *)
Example C87_two_block :
  let s := from two in let s' := ex_end (at_height 60) evm s in
  map q_nonce (s_done s') = [2] /\ s_bal s' 1 BASE = 5 /\ s_bal s' 2 BASE = 5 /\
  third (at_height 60) 21 = 33 /\ map (voted (at_height 60)) (s_reqs s) = [0; 70] /\
  total (map q_fee (filter (fun r => q_hid r =? b_hid evm) (s_reqs s))) <= s_bal s ESC BASE.
Proof. vm_compute. repeat split; try reflexivity; discriminate. Qed.
(* a block after the time is over: both get their fee back *)
Example C87_two_late :
  let s := from two in let s' := ex_end (at_height 110) evm s in
  s_reqs s' = [] /\ s_done s' = [] /\ s_bal s' 50 BASE = 990 /\ s_bal s 50 BASE = 980 /\
  s_bal s' 60 BASE = 990 /\ s_bal s' ESC BASE = 0.
Proof. vm_compute. repeat split; reflexivity. Qed.
(* an answer is taken once *)
Example C87_two_again :
  answer (at_height 21) 21 2 7 (no 1) (from two) = Err /\
  is_ok (answer (at_height 21) 21 2 7 (no 3) (from two)) = true /\
  is_ok (answer (at_height 21) 21 1 7 (no 1) (from two)) = true /\
  answer (at_height 21) 21 1 7 (no 9) (from two) = Err.
Proof. vm_compute. repeat split; reflexivity. Qed.

(* Not so: "who gets no answer gets the fee back". A request that nobody answered is thrown
   away without a refund as soon as a later request to the same contract, of anybody, wins. *)
Theorem C87_overtaken_refuted :
  exists l e r, fine l /\ In r (s_reqs (from l)) /\ 0 < q_fee r /\ open e r /\
    usual BASE ESC COIN blocked cron_acct e (EndBlock evm) /\
    let s' := ex_end e evm (from l) in
    s_reqs s' = [] /\ ~ In r (s_done s') /\
    s_bal s' (q_sender r) BASE = s_bal (from l) (q_sender r) BASE.
Proof.
  exists two, (at_height 60), (mk_req 21 1 10 109 1 7 [1%N] 50 COIN 10 [] []).
  split; [exact two_fine|]. split; [vm_compute; now left|]. split; [now vm_compute|].
  split; [vm_compute; split; discriminate|].
  split; [apply usual_intro; [lia|intro; apply Permutation_refl|exact Logic.I]|].
  cbn zeta. split; [now vm_compute|]. split; [|now vm_compute].
  vm_compute. intros [C|[]]. discriminate C.
Qed.

(* Not so: "a request wins only with 33 percent of the power". The votes on an earlier open
   request are counted again for a later one. *)
Definition carried : list (env * op) :=
  [(at_height 10, Ask (question 50 7000 7 1)); (at_height 10, Ask (question 60 7000 8 1));
   (at_height 20, Answer 21 1 7 (yes 2)); (at_height 20, Answer 21 2 8 (yes 4))].
Theorem C87_few_votes_refuted :
  exists l e r, fine l /\ usual BASE ESC COIN blocked cron_acct e (EndBlock evm) /\
    In r (s_done (ex_end e evm (from l))) /\ s_done (from l) = [] /\
    voted e r = 10 /\ third e 21 = 33.
Proof.
  exists carried, (at_height 60), (mk_req 21 2 10 109 2 8 [1%N] 60 COIN 10 [yes 4] [4]).
  split; [unfold carried, start; fine_tac|].
  split; [apply usual_intro; [lia|intro; apply Permutation_refl|exact Logic.I]|].
  split; [vm_compute; now left|]. repeat split; now vm_compute.
Qed.

(* Not so: "a request that every validator answered wins". The power is looked up under the
   address of the orchestrator, so validators that answer with a separate key count nothing
   and are not paid. *)
Definition separate : list (env * op) :=
  let w := world other_key (fun l => l) in
  [(w 10, Ask (question 50 7000 7 1));
   (w 20, Answer 21 1 7 (yes 71)); (w 20, Answer 21 1 7 (yes 72));
   (w 20, Answer 21 1 7 (yes 73)); (w 20, Answer 21 1 7 (yes 74))].
Theorem C87_separate_key_refuted :
  exists l e r, fine l /\ usual BASE ESC COIN blocked cron_acct e (EndBlock evm) /\
    In r (s_reqs (from l)) /\ open e r /\
    (forall v, In v (e_vals e) -> exists o, In o (q_votes r) /\ e_orch e 21 o = Some v) /\
    In r (s_reqs (ex_end e evm (from l))) /\ s_done (ex_end e evm (from l)) = [].
Proof.
  exists separate, (world other_key (fun l => l) 60),
    (mk_req 21 1 10 109 1 7 [1%N] 50 COIN 10 [yes 71; yes 72; yes 73; yes 74] [71; 72; 73; 74]).
  split; [unfold separate, start; fine_tac|].
  split; [apply usual_intro; [lia|intro; apply Permutation_refl|exact Logic.I]|].
  split; [vm_compute; now left|]. split; [vm_compute; split; discriminate|].
  split; [|split; [vm_compute; now left|now vm_compute]].
  intros v V. exists (70 + v). cbn [world e_vals] in V.
  destruct V as [<-|[<-|[<-|[<-|[]]]]]; (split; [cbn; tauto|reflexivity]).
Qed.

(* Not so: "the module keeps nothing of the fees". What is left of the division stays there. *)
Definition three : list (env * op) :=
  [(at_height 10, Ask (question 50 7000 7 1)); (at_height 20, Answer 21 1 7 (yes 1));
   (at_height 20, Answer 21 1 7 (yes 2)); (at_height 20, Answer 21 1 7 (no 3));
   (at_height 60, EndBlock evm)].
Theorem C87_left_over_refuted :
  exists l, fine l /\ s_reqs (from l) = [] /\ s_bal (from l) ESC BASE = 1 /\
    s_bal (from []) ESC BASE = 0.
Proof.
  exists three. split; [unfold three, start; fine_tac|]. repeat split; now vm_compute.
Qed.

(* Not so: "only what I send with a call can be spent". The fee is taken from the sender of the
   transaction, however deep the call: any contract on the way can ask, at a price it chooses,
   and take all the sender has. *)
Theorem C87_any_contract_refuted :
  exists l m s', fine l /\ m_caller m <> m_origin m /\ s_bal (from l) (m_origin m) BASE = 1000 /\
    ask BASE ESC cron_acct (at_height 10) m (from l) = Ok s' /\ s_bal s' (m_origin m) BASE = 0 /\
    forall c, ask BASE ESC cron_acct (at_height 10)
      (mk_ask (m_origin m) c (m_chain m) (m_contract m) (m_call m) (m_has_callback m) (m_price m) (m_gas m))
      (from l) = Ok s'.
Proof.
  exists [], (question 50 7000 7 50). eexists. split; [unfold start; fine_tac|].
  split; [now vm_compute|]. split; [now vm_compute|].
  split; [lazy; reflexivity|]. split; [now vm_compute|]. intro c. lazy. reflexivity.
Qed.

(* Not so: "the fees collected that are shown for validators add up to the fees paid". The whole
   fee is added for every voter. *)
Theorem C87_statistics_refuted :
  exists l, fine l /\
    let s := from l in
    s_stats s 21 1 = Some (1, 10) /\ s_stats s 21 2 = Some (1, 10) /\ s_stats s 21 3 = Some (1, 10) /\
    map q_fee (s_done s) = [10] /\ s_bal s 1 BASE = 3.
Proof.
  exists three. split; [unfold three, start; fine_tac|]. repeat split; now vm_compute.
Qed.

Print Assumptions C87_ask.
Print Assumptions C87_answer.
Print Assumptions C87_block.
Print Assumptions C87_other_kind.
Print Assumptions C87_enough.
Print Assumptions C87_power_partial.
Print Assumptions C87_votes_once.
Print Assumptions C87_escrow.
Print Assumptions C87_overtaken_refuted.
Print Assumptions C87_few_votes_refuted.
Print Assumptions C87_separate_key_refuted.
Print Assumptions C87_left_over_refuted.
Print Assumptions C87_any_contract_refuted.
Print Assumptions C87_statistics_refuted.
