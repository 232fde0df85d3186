(* C114: coins that are not vested are not staked, and a clawback finds them *)
From Verif Require Import Lib.Base Lib.Bytes Lib.Coins Vesting.Model Vesting.Spec Vesting.Proofs Vesting.AccProofs Vesting.Keeper Vesting.KeeperProofs Vesting.Props Vesting.PropsKeeper Vesting.Stake Vesting.StakeSpec Vesting.StakeProofs.
From Coq Require Import Lia.
Open Scope Z_scope.

(* the chain of C51 - C53, nothing staked yet; da is the bond coin *)
Definition stake0 : sst := Sst (Gst chain0 []) (fun _ _ => 0).
Notation run0 := (srun 9%N 8%N (fun a => N.eqb a 8) (fun _ => false) da (fun _ => true)).

Section K.
Variables (authority distr : addr) (blocked is_contract : addr -> bool) (bond : bytes) (stakeable : bytes -> bool).
Notation run := (srun authority distr blocked is_contract bond stakeable).

(* Whatever messages, transfers, delegations, returns and slashes follow, the account
   goes on holding every bond coin that is not vested.  The same for another coin as
   long as the account does not delegate it. *)
Theorem C114_unvested_coins_stay_partial s es a d t t' v :
  kst_ok (ks (st_g s)) -> holds (ks (st_g s)) a d t -> sorder t es -> slast t es <= t' ->
  d = bond \/ never_delegates a d es ->
  accs (ks (st_g (run s es))) a = Some (Vest v) ->
  exists u, vesting v t' = Ok u /\ amt u d = unvested v t' d /\ amt u d <= balance (ks (st_g (run s es))) a d.
Proof.
  intros K H O L C Ev.
  pose proof (srun_ok authority distr blocked is_contract bond stakeable es s K) as K'.
  pose proof (holds_run authority distr blocked is_contract bond stakeable es s a d t K H O C) as H'.
  apply (holds_later _ _ _ _ t' K') in H'; [|exact L]. specialize (H' v Ev).
  destruct (unvested_vesting v t' (proj1 K' a v Ev)) as [u [Eu [_ Au]]]. exists u. rewrite Au. auto.
Qed.

(* An address that is not a vesting account when the history begins meets the condition. *)
Theorem C114_new_accounts_hold s a d t : (forall v, accs s a <> Some (Vest v)) -> holds s a d t.
Proof. intros H v Ev. exfalso. exact (H v Ev). Qed.

(* A delegation of the bond coin is made exactly for amounts up to the balance less
   what is not vested: vested coins can be staked, locked or not.  It moves the amount
   from the balance to the stake and changes nothing else. *)
Theorem C114_delegation_of_the_bond_coin s a x t v :
  kst_ok (ks (st_g s)) -> accs (ks (st_g s)) a = Some (Vest v) -> stakeable bond = true -> 0 < x ->
  (x <= balance (ks (st_g s)) a bond - unvested v t bond ->
   exists s', delegate bond stakeable s a bond x t = Ok s' /\ delegated s s' a bond x) /\
  (balance (ks (st_g s)) a bond - unvested v t bond < x -> delegate bond stakeable s a bond x t = Err).
Proof.
  intros K Ea Sb P. pose proof (unvested_nonneg v t bond (proj1 K a v Ea)) as U.
  destruct (delegate_spec bond stakeable s a bond x t K) as [[M D]|[M E]]; unfold may_delegate in M; rewrite Ea in M; split; intro L.
  - exact D.
  - lia.
  - exfalso. apply M. split; [exact P|]. split; [exact Sb|]. split; lia.
  - exact E.
Qed.

(* All delegations: who may delegate what, and what it does. *)
Theorem C114_every_delegation s a d x t : kst_ok (ks (st_g s)) ->
  (may_delegate bond stakeable s a d x t /\ exists s', delegate bond stakeable s a d x t = Ok s' /\ delegated s s' a d x) \/
  (~ may_delegate bond stakeable s a d x t /\ delegate bond stakeable s a d x t = Err).
Proof. exact (delegate_spec bond stakeable s a d x t). Qed.

(* Stake that comes back is added to the balance, no more than was staked; a slash
   burns staked coins and touches neither balances nor schedules. *)
Theorem C114_stake_that_comes_back s a d x : kst_ok (ks (st_g s)) ->
  (0 < x <= st_staked s a d -> came_back s (run s [SReturn a d x]) a d x) /\
  (~ 0 < x <= st_staked s a d -> run s [SReturn a d x] = s).
Proof.
  intro K. cbn [srun fold_left sstep]. split; [apply give_back_exact; exact K|].
  intro n. unfold give_back. destruct (Z.ltb_spec 0 x); [|reflexivity]. destruct (Z.leb_spec x (st_staked s a d)); [exfalso; lia|reflexivity].
Qed.

Theorem C114_slashes s a d x :
  (0 < x <= st_staked s a d -> st_g (run s [SSlash a d x]) = st_g s /\
    forall b e, st_staked (run s [SSlash a d x]) b e = st_staked s b e - (if N.eqb b a && beqb e d then x else 0)) /\
  (~ 0 < x <= st_staked s a d -> run s [SSlash a d x] = s).
Proof.
  cbn [srun fold_left sstep]. destruct (Z.ltb_spec 0 x) as [P|P], (Z.leb_spec x (st_staked s a d)) as [Q|Q]; cbn [andb]; split; intro H;
    try reflexivity; try (exfalso; lia).
  split; [reflexivity|]. intros b e. cbn [st_staked]. unfold add_staked. destruct (N.eqb b a && beqb e d); lia.
Qed.

(* A clawback that the funder, or governance, may make finds the coins, at any time
   after any history in which the account delegated only the bond coin. *)
Theorem C114_clawback_finds_the_coins_partial s es a t t' v f dest :
  kst_ok (ks (st_g s)) -> (forall d, holds (ks (st_g s)) a d t) -> sorder t es -> slast t es <= t' ->
  (forall d, d <> bond -> never_delegates a d es) ->
  accs (ks (st_g (run s es))) a = Some (Vest v) -> v_lockup v <> [] \/ v_vesting v <> [] ->
  may_claw authority (ks (st_g (run s es))) v f a ->
  (f <> authority -> blocked (match dest with Some d => d | None => f end) = false) ->
  exists s', handle authority distr blocked is_contract (ks (st_g (run s es))) (MClawback f a dest) t' = Ok s'.
Proof.
  intros K H O L C Ev NE MC BL. cbn [handle].
  pose proof (srun_ok authority distr blocked is_contract bond stakeable es s K) as K'.
  apply (clawback_goes authority distr blocked _ f a dest t' v K' Ev NE MC BL).
  intro d. apply (holds_later _ _ _ (slast t es)); [exact K'| |exact L].
  apply holds_run; [exact K|apply H|exact O|]. destruct (bytes_eq_dec d bond) as [->|n]; [left; reflexivity|right; apply C; exact n].
Qed.
End K.

Definition sevents0 : list sevent :=
  [SDelegate 2 da 1 112; SKeep (EMsg (MFund 1 2 104 [Per 5 [(da, 4)]] [Per 20 [(da, 4)]]) 113); SDelegate 2 da 3 114;
   SKeep (EBank 2 3 [(da, 2)] 115); SReturn 2 da 1; SDelegate 2 da 2 130].

Example C114_case :
  kst_ok (ks (st_g stake0)) /\ (forall d, holds (ks (st_g stake0)) 2%N d 100) /\ sorder 100 sevents0 /\ slast 100 sevents0 <= 131 /\
  (forall d, d <> da -> never_delegates 2%N d sevents0) /\
  (exists v, accs (ks (st_g (run0 stake0 sevents0))) 2%N = Some (Vest v) /\ v_vesting v <> [] /\
     may_claw 9%N (ks (st_g (run0 stake0 sevents0))) v 1%N 2%N) /\
  st_staked (run0 stake0 sevents0) 2%N da = 5 /\ st_staked (run0 stake0 (sevents0 ++ [SReturn 2 da 2; SSlash 2 da 1])) 2%N da = 2.
Proof.
  split; [exact chain0_ok|]. split; [|split; [cbn; repeat split; lia|split; [cbn; lia|split; [|split]]]].
  - intros d v Ev. cbn in Ev. injection Ev as <-. unfold unvested, balance.
    destruct acc1_ok as (_ & Hv & _ & [_ T] & _). rewrite <- T. pose proof (released_bounds (v_start acc1) (v_vesting acc1) 100 d Hv).
    change (bank (ks (st_g stake0)) 2%N) with (v_orig acc1). lia.
  - intros d n. unfold sevents0, never_delegates. repeat apply Forall_cons; try apply Forall_nil; try exact Logic.I; right; congruence.
  - destruct (accs (ks (st_g (run0 stake0 sevents0))) 2) as [[|v|]|] eqn:E; try (vm_compute in E; discriminate).
    exists v. vm_compute in E. injection E as <-. split; [reflexivity|]. split; [discriminate|]. right. split; [discriminate|]. split; reflexivity.
  - vm_compute. split; reflexivity.
Qed.

(* ---------------- what does not hold ---------------- *)

(* The amount is compared with the bond coin whatever coin is delegated: coins of
   another denomination that are not vested can be staked.  The clawback, by the
   funder or by governance, then fails as a whole and nothing comes back. *)
Theorem C114_unvested_coins_of_other_kinds_refuted : exists s s' a d x t v f,
  kst_ok (ks (st_g s)) /\ (forall e, holds (ks (st_g s)) a e t) /\ accs (ks (st_g s)) a = Some (Vest v) /\
  balance (ks (st_g s)) a d - x < unvested v t d /\
  may_claw 9%N (ks (st_g s)) v f a /\
  (exists k, h0 (ks (st_g s)) (MClawback f a None) t = Ok k) /\              (* the clawback would succeed *)
  delegate da (fun _ => true) s a d x t = Ok s' /\                             (* unvested coins are staked *)
  h0 (ks (st_g s')) (MClawback f a None) t = Err /\                            (* now it fails *)
  h0 (ks (st_g s')) (MClawback 9%N a None) t = Err.
Proof.
  destruct (delegate da (fun _ => true) stake0 2 db 5 112) as [s'| |] eqn:E; [|vm_compute in E; discriminate|vm_compute in E; discriminate].
  exists stake0, s', 2%N, db, 5, 112, acc1, 1%N.
  split; [exact chain0_ok|]. split; [|split; [reflexivity|split; [vm_compute; reflexivity|split; [|split; [|split; [exact E|]]]]]].
  - intros d v Ev. cbn in Ev. injection Ev as <-. unfold unvested, balance.
    destruct acc1_ok as (_ & Hv & _ & [_ T] & _). rewrite <- T. pose proof (released_bounds (v_start acc1) (v_vesting acc1) 112 d Hv).
    change (bank (ks (st_g stake0)) 2%N) with (v_orig acc1). lia.
  - right. split; [discriminate|]. split; reflexivity.
  - destruct (h0 (ks (st_g stake0)) (MClawback 1 2 None) 112) as [k| |] eqn:Ek; [|vm_compute in Ek; discriminate|vm_compute in Ek; discriminate].
    exists k. reflexivity.
  - vm_compute in E. injection E as <-. split; vm_compute; reflexivity.
Qed.

(* And coins of another denomination that the account owns freely cannot be staked
   when it has fewer bond coins. *)
Theorem C114_free_coins_of_other_kinds_refuted : exists s a d x t v,
  kst_ok (ks (st_g s)) /\ accs (ks (st_g s)) a = Some (Vest v) /\ (forall u, unvested v u d = 0) /\
  0 < x <= balance (ks (st_g s)) a d /\ delegate da (fun _ => true) s a d x t = Err.
Proof.
  pose (dc := [99%N]).
  exists (Sst (Gst (set_bank chain0 2%N [(da, 7); (db, 8); (dc, 50)]) []) (fun _ _ => 0)), 2%N, dc, 20, 104, acc1.
  split; [|split; [reflexivity|split; [|split; [vm_compute; split; [reflexivity|discriminate]|vm_compute; reflexivity]]]].
  - destruct chain0_ok as [K1 K2]. split; [exact K1|]. intro b. cbn [st_g ks set_bank bank]. unfold upd.
    destruct (N.eqb b 2); [apply cvalidb_spec; reflexivity|apply K2].
  - intro u. destruct acc1_ok as (_ & Hv & _). unfold unvested.
    pose proof (released_bounds (v_start acc1) (v_vesting acc1) u dc Hv) as B.
    assert (S0 : sum_of (v_vesting acc1) dc = 0) by (vm_compute; reflexivity). lia.
Qed.

Print Assumptions C114_unvested_coins_stay_partial.
Print Assumptions C114_new_accounts_hold.
Print Assumptions C114_delegation_of_the_bond_coin.
Print Assumptions C114_every_delegation.
Print Assumptions C114_stake_that_comes_back.
Print Assumptions C114_slashes.
Print Assumptions C114_clawback_finds_the_coins_partial.
Print Assumptions C114_unvested_coins_of_other_kinds_refuted.
Print Assumptions C114_free_coins_of_other_kinds_refuted.
