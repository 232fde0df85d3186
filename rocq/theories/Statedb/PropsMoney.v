(* C106: native coins moved by built-in contracts. *)
From Verif Require Import Lib.Base Lib.Bytes Lib.Amap Statedb.Model Statedb.Spec Statedb.CommitProofs Statedb.MoneySpec Statedb.MoneyProofs Statedb.Props.
Open Scope Z_scope.

(* If built-in contracts report the native coins they move, then after any
   transaction without reverts and self-destructs every account holds what it
   held before plus what the EVM credited, less what it debited, plus what the
   built-in contracts moved: nothing is undone, doubled, minted or burned. *)
Theorem C106_reported_money_arrives_once_partial keccak st lb moves ops os s s' :
  no_orphans st -> Forall (reporting moves) ops -> run keccak (new_db st lb) ops = Ok (os, s) -> none_failed os -> commit keccak s = Ok s' ->
  (forall a, st_bal (d_ctx s') a = st_bal st a + nets moves ops a) /\
  st_supply (d_ctx s') = st_supply st + nets_total moves ops /\ no_orphans (d_ctx s').
Proof. apply ledger_exact. Qed.

(* and at every moment a contract that asks sees exactly that balance *)
Theorem C106_contracts_see_the_moved_money keccak st lb moves ops os s a o s1 :
  no_orphans st -> Forall (reporting moves) ops -> run keccak (new_db st lb) ops = Ok (os, s) -> none_failed os ->
  step keccak s (GetBalance a) = Ok (o, s1) -> o = OInt (st_bal st a + nets moves ops a).
Proof. apply seen_exact. Qed.

(* ------------------------------------------------------------------ *)
(* built-in contracts that report what they do                          *)
(* ------------------------------------------------------------------ *)

(* the bank's transfer of v native coins; it creates the receiver's account
   (cosmos-sdk x/bank SendCoins) *)
Definition bank_send (x y : addr) (v : Z) (c : store) : store :=
  let b1 := upd (st_bal c) x (st_bal c x - v) in
  with_bal (with_acct c (upd (st_acct c) y (match st_acct c y with Some n => Some n | None => Some 0%N end)))
           (upd b1 y (b1 y + v)) (st_supply c).

(* the ERC-20 contract of the native coin: precompiles/erc20/tx.go:69-115 *)
Definition native_transfer (at_ x y : addr) (v : Z) : pre_run :=
  PreRun at_ false (fun c => if st_bal c x <? v then c else bank_send x y v c)
         (fun c => if st_bal c x <? v then None else Some [BSub x v; BAdd y v]).

(* the wrapped native coin takes the value sent to it and sends it straight back:
   precompiles/werc20/tx.go:26-62 *)
Definition native_deposit (at_ caller : addr) (v : Z) : pre_run :=
  PreRun at_ false (fun c => if st_bal c at_ <? v then c else bank_send at_ caller v c)
         (fun c => if st_bal c at_ <? v then None else Some [BAdd caller v; BSub at_ v]).

Lemma bank_send_reports c x y v bs : st_bal c x >= v -> v >= 0 -> bs = [BSub x v; BAdd y v] \/ bs = [BAdd y v; BSub x v] -> reports c (bank_send x y v c) bs.
Proof.
  intros Ge V Hb.
  assert (R : forall a, reported bs a = (if N.eqb x a then - v else 0) + (if N.eqb y a then v else 0)).
  { intro a. destruct Hb as [-> | ->]; cbn; lia. }
  assert (T : reported_total bs = 0) by (destruct Hb as [-> | ->]; cbn; lia).
  assert (B : forall a, st_bal (bank_send x y v c) a = st_bal c a + reported bs a).
  { intro a. rewrite R. cbn. unfold upd. destruct (N.eqb_spec a y) as [E1|N1].
    - subst a. rewrite N.eqb_refl. destruct (N.eqb_spec y x) as [E2|N2]; [subst; rewrite N.eqb_refl; lia|]. destruct (N.eqb_spec x y); [congruence|lia].
    - destruct (N.eqb_spec y a); [congruence|]. destruct (N.eqb_spec a x) as [E2|N2]; [subst a; rewrite N.eqb_refl; lia|]. destruct (N.eqb_spec x a); [congruence|lia]. }
  split; [exact B| |].
  - rewrite T. cbn. lia.
  - intros W a Ha. cbn in Ha. unfold upd in Ha. rewrite B, R. destruct (N.eqb_spec a y) as [E1|N1]; [destruct (st_acct c y); discriminate Ha|].
    destruct (N.eqb_spec y a); [congruence|]. rewrite (W a Ha). destruct (N.eqb_spec x a) as [E2|]; [|lia]. subst a. rewrite (W x Ha) in Ge. lia.
Qed.

Theorem C106_native_token_reports_exactly at_ x y v : v >= 0 ->
  honest (native_transfer at_ x y v) [BSub x v; BAdd y v] /\ honest (native_deposit at_ y v) [BAdd y v; BSub at_ v].
Proof.
  intro V. split; intro c; cbn; (destruct (Z.ltb_spec (st_bal c x) v) || destruct (Z.ltb_spec (st_bal c at_) v)).
  - left. reflexivity.
  - right. split; [reflexivity|]. apply bank_send_reports; [lia|exact V|auto].
  - destruct (Z.ltb_spec (st_bal c at_) v); [left; reflexivity|right; split; [reflexivity|apply bank_send_reports; [lia|exact V|auto]]].
  - destruct (Z.ltb_spec (st_bal c at_) v); [left; reflexivity|right; split; [reflexivity|apply bank_send_reports; [lia|exact V|auto]]].
Qed.

Lemma chain_orphans : no_orphans chain.
Proof. intros a. cbn. destruct (N.eqb a 1); [discriminate|]. destruct (N.eqb a 2); [discriminate|]. destruct (N.eqb a 3); [discriminate|reflexivity]. Qed.

(* user 1 pays 10 to contract 2, which passes 7 to the new account 9 through the
   native token contract and wraps 3 *)
Definition paying : list op :=
  [SetNonce 1 6; SubBalance 1 10; AddBalance 2 10; Precompile (native_transfer 100 2 9 7); SubBalance 2 3; AddBalance 100 3;
   Precompile (native_deposit 100 2 3); GetBalance 9].
Definition paying_moves (p : pre_run) : list bal_change :=
  match pr_result p (with_bal chain (fun _ => 100) 0) with Some bs => bs | None => [] end.
Example C106_reported_money_arrives_once_case :
  no_orphans chain /\ Forall (reporting paying_moves) paying /\
  rbind (run toy (new_db chain 0) paying) (fun '(os, s) => rbind (commit toy s) (fun s' =>
    Ok (os, map (st_bal (d_ctx s')) [1; 2; 3; 9; 100]%N, st_supply (d_ctx s')))) =
  Ok ([OUnit; OUnit; OUnit; OPre PreOk; OUnit; OUnit; OPre PreOk; OInt 7], [90; 53; 4; 7; 0], 154).
Proof.
  split; [apply chain_orphans|]. split; [|vm_compute; reflexivity].
  unfold paying. repeat apply Forall_cons; try exact I; [| |apply Forall_nil].
  - apply (C106_native_token_reports_exactly 100 2 9 7). discriminate.
  - apply (C106_native_token_reports_exactly 100 2 2 3). discriminate.
Qed.
Example C106_contracts_see_the_moved_money_case :
  nets paying_moves paying 9 = 7 /\ nets paying_moves paying 2 = 3 /\ nets paying_moves paying 100 = 0 /\ nets_total paying_moves paying = 0.
Proof. vm_compute. auto. Qed.
Example C106_native_token_reports_exactly_case :
  pr_result (native_transfer 100 2 9 7) chain = Some [BSub 2 7; BAdd 9 7] /\ pr_result (native_transfer 100 3 9 7) chain = None.
Proof. vm_compute. auto. Qed.

(* ------------------------------------------------------------------ *)
(* built-in contracts that do not                                       *)
(* ------------------------------------------------------------------ *)

(* the staking contract called directly by user 1: it delegates 5 native coins to
   the pool 7 and reports nothing, because the caller is the origin
   (precompiles/staking/tx.go:162-255, the condition at 241) *)
Definition delegate_direct : pre_run := PreRun 100 false (bank_send 1 7 5) (fun _ => Some []).

(* ... the user sends 1 coin along: the 5 delegated coins come back *)
Theorem C106_refuted_direct_delegation_with_value_is_free :
  exists ops os s s', ops = [SubBalance 1 1; AddBalance 100 1; Precompile delegate_direct] /\
  run toy (new_db chain 0) ops = Ok (os, s) /\ commit toy s = Ok s' /\ none_failed os /\
  (forall c, st_supply (bank_send 1 7 5 c) = st_supply c) /\
  st_bal (d_ctx s') 1 = st_bal chain 1 - 1 /\ st_bal (d_ctx s') 7 = st_bal chain 7 + 5 /\ st_supply (d_ctx s') = st_supply chain + 5.
Proof.
  eexists. destruct (commit_case chain [SubBalance 1 1; AddBalance 100 1; Precompile delegate_direct]
    (fun os s s' => (os, st_supply (d_ctx s'), st_bal (d_ctx s') 1, st_bal (d_ctx s') 7)) ([OUnit; OUnit; OPre PreOk], 159, 99, 5) ltac:(vm_compute; reflexivity)) as (os & s & s' & R & C & O0).
  injection O0 as O0 O1 O2 O3. exists os, s, s'. split; [reflexivity|]. split; [exact R|]. split; [exact C|]. split; [rewrite O0; intros [X|[X|[X|[]]]]; discriminate X|].
  split; [reflexivity|]. split; [exact O2|]. split; [exact O3|exact O1].
Qed.
(* without the coin sent along user 1 pays *)
Example C106_direct_delegation_case :
  rbind (run toy (new_db chain 0) [SubBalance 1 0; AddBalance 100 0; Precompile delegate_direct]) (fun '(os, s) => rbind (commit toy s) (fun s' =>
    Ok (st_supply (d_ctx s'), st_bal (d_ctx s') 1, st_bal (d_ctx s') 7))) = Ok (154, 95, 5).
Proof. vm_compute. reflexivity. Qed.

(* the staking contract called by contract 2 to delegate 5 units of another token
   of contract 2: no native coin moves, but a native amount is reported
   (tx.go:250-251 looks at the amount only, not at its denom) *)
Definition delegate_other : pre_run := PreRun 100 false (fun c => c) (fun _ => Some [BSub 2 5]).
Theorem C106_refuted_delegating_another_token_burns_native_coins :
  exists ops os s s', ops = [Precompile delegate_other] /\
  run toy (new_db chain 0) ops = Ok (os, s) /\ commit toy s = Ok s' /\ none_failed os /\
  st_bal (d_ctx s') 2 = st_bal chain 2 - 5 /\ st_supply (d_ctx s') = st_supply chain - 5.
Proof.
  eexists. destruct (commit_case chain [Precompile delegate_other]
    (fun os s s' => (os, st_supply (d_ctx s'), st_bal (d_ctx s') 2)) ([OPre PreOk], 149, 45) ltac:(vm_compute; reflexivity)) as (os & s & s' & R & C & O0).
  injection O0 as O0 O1 O2. exists os, s, s'. split; [reflexivity|]. split; [exact R|]. split; [exact C|]. split; [rewrite O0; intros [X|[]]; discriminate X|].
  split; [exact O2|exact O1].
Qed.

(* the staking contract called by contract 2 to undelegate its stake: the pending
   rewards, 3 coins from the pool 3, are paid out on the way and nothing is
   reported (tx.go:259-340 has no entry at all) *)
Definition undelegate_with_rewards : pre_run := PreRun 100 false (bank_send 3 2 3) (fun _ => Some []).
Theorem C106_refuted_rewards_paid_on_undelegation_are_burned :
  exists ops os s s', ops = [SubBalance 1 1; AddBalance 2 1; Precompile undelegate_with_rewards] /\
  run toy (new_db chain 0) ops = Ok (os, s) /\ commit toy s = Ok s' /\ none_failed os /\
  st_bal (d_ctx s') 3 = st_bal chain 3 - 3 /\ st_bal (d_ctx s') 2 = st_bal chain 2 + 1 /\ st_supply (d_ctx s') = st_supply chain - 3.
Proof.
  eexists. destruct (commit_case chain [SubBalance 1 1; AddBalance 2 1; Precompile undelegate_with_rewards]
    (fun os s s' => (os, st_supply (d_ctx s'), st_bal (d_ctx s') 2, st_bal (d_ctx s') 3)) ([OUnit; OUnit; OPre PreOk], 151, 51, 1) ltac:(vm_compute; reflexivity)) as (os & s & s' & R & C & O0).
  injection O0 as O0 O1 O2 O3. exists os, s, s'. split; [reflexivity|]. split; [exact R|]. split; [exact C|]. split; [rewrite O0; intros [X|[X|[X|[]]]]; discriminate X|].
  split; [exact O3|]. split; [exact O2|exact O1].
Qed.

(* a report is not enough when it comes after an unreported payment: user 1
   collects 3 coins of rewards with a direct call; contracts called later in the
   same transaction still see the old balance, since accounts are read from the
   store below the cache *)
Theorem C106_refuted_unreported_coins_are_not_seen :
  exists ops os s, ops = [Precompile (PreRun 100 false (bank_send 3 1 3) (fun _ => Some [])); GetBalance 1; GetBalance 3] /\
  run toy (new_db chain 0) ops = Ok (os, s) /\ os = [OPre PreOk; OInt (st_bal chain 1); OInt (st_bal chain 3)] /\
  st_bal (cur s) 1 = st_bal chain 1 + 3.
Proof.
  eexists. destruct (run_case chain [Precompile (PreRun 100 false (bank_send 3 1 3) (fun _ => Some [])); GetBalance 1; GetBalance 3]
    (fun os s => (os, st_bal (cur s) 1)) ([OPre PreOk; OInt 100; OInt 4], 103) ltac:(vm_compute; reflexivity)) as (os & s & R & O0).
  injection O0 as O0 O1. exists os, s. split; [reflexivity|]. split; [exact R|]. split; [exact O0|exact O1].
Qed.

Print Assumptions C106_reported_money_arrives_once_partial.
Print Assumptions C106_contracts_see_the_moved_money.
Print Assumptions C106_native_token_reports_exactly.
Print Assumptions C106_refuted_direct_delegation_with_value_is_free.
Print Assumptions C106_refuted_delegating_another_token_burns_native_coins.
Print Assumptions C106_refuted_rewards_paid_on_undelegation_are_burned.
Print Assumptions C106_refuted_unreported_coins_are_not_seen.
