(** C104: a contract moves a user's stake only as far as the user allowed. *)
From Coq Require Import List ZArith NArith Bool Lia.
From Verif Require Import Precompiles.Staking Precompiles.StakingSpec Precompiles.StakingProofs.
Import ListNotations.
Open Scope Z_scope.

Section Claims.
Variable W : Type.
Variable serve : smsg -> W -> option W.
Variable unjailed : W -> list addr.
Variable whitelisted : W -> denom -> bool.
Variable serve_unjail : addr -> W -> option W.
Variable bond : denom.
Variable lifetime : Z.
Notation step := (step W serve unjailed whitelisted serve_unjail bond lifetime).
Notation history := (history W serve unjailed whitelisted serve_unjail bond lifetime).

(** Without a contract in between, a signer acts for itself only, and no
    approval is touched. *)
Theorem C104_a_signer_acts_for_itself : forall v m s s',
  e_caller v = e_origin v ->
  step v (Do m) s = (Done, s') ->
  m_delegator m = e_origin v /\
  s_grants s' = s_grants s /\
  serve (as_sent bond m) (s_world s) = Some (s_world s').
Proof.
  intros v m s s' CO ST.
  apply perform_cases in ST as [[E _]|(_ & _ & DE & w & SV & [(_ & _ & ->)|(NE & _)])];
    [discriminate| |congruence].
  cbn. split; [destruct DE; congruence|auto].
Qed.

(** A contract gets through only with an approval of the transaction's signer
    that is alive, covers the validator and the amount, and is reduced by
    exactly that amount (or removed when used up); no other approval changes. *)
Theorem C104_a_contract_uses_up_its_approval : forall v m s s',
  e_caller v <> e_origin v ->
  step v (Do m) s = (Done, s') ->
  (m_delegator m = e_origin v \/ m_delegator m = e_caller v) /\
  serve (as_sent bond m) (s_world s) = Some (s_world s') /\
  only_at (e_caller v) (e_origin v) (m_kind m) (s_grants s) (s_grants s') /\
  exists x a,
    live (s_grants s) (e_now v) (e_caller v) (e_origin v) (m_kind m) x /\
    g_auth x = Some a /\ covers a (m_validator m) /\
    let after := s_grants s' (e_caller v) (e_origin v) (m_kind m) in
    match a_max a with
    | None => after = Some x
    | Some (d, l) =>
        d = m_denom (as_sent bond m) /\ m_amount m <= l /\
        (m_amount m = l -> after = None) /\
        (m_amount m < l ->
         after = Some (Grant (Some (Auth (a_allow a) (a_deny a) (Some (d, l - m_amount m))))
                             (g_exp x)))
    end.
Proof.
  intros v m s s' NE ST.
  apply perform_cases in ST as [[E _]|(_ & _ & DE & w & SV & [(CO & _)|(_ & x & a & M & AC)])];
    [discriminate|congruence|].
  apply may_eq in M as (L & A & _).
  destruct (accept _ _ _ _ _ _ _) as [g|] eqn:AE; destruct AC as [O1 ->]; [|discriminate].
  pose proof (accept_eq _ _ _ _ _ _ _ _ (proj1 L) A AE) as (C & OA & MX).
  rewrite as_sent_kind in *. rewrite as_sent_amount in *. rewrite as_sent_validator in C.
  cbn [s_world s_grants]. split; [exact DE|]. split; [exact SV|]. split; [exact OA|].
  exists x, a. split; [exact L|]. split; [exact A|]. split; [exact C|]. cbv zeta.
  destruct (a_max a) as [[d l]|]; [exact MX|]. rewrite MX. exact (proj1 L).
Qed.

(** A contract without a live approval, or asking for more than is left, or
    naming somebody who neither signed nor calls, is refused before anything
    happens. *)
Theorem C104_without_approval_nothing_happens : forall v m s,
  (e_caller v <> e_origin v /\
   forall x a, live (s_grants s) (e_now v) (e_caller v) (e_origin v) (m_kind m) x ->
               g_auth x = Some a -> exists d l, a_max a = Some (d, l) /\ l < m_amount m) \/
  (m_delegator m <> e_origin v /\ m_delegator m <> e_caller v) ->
  step v (Do m) s = (Failed, s).
Proof.
  intros v m s H. destruct (step v (Do m) s) as [o s'] eqn:ST.
  apply perform_cases in ST as [[-> ->]|(_ & _ & DE & w & SV & [(CO & _)|(NE & x & a & M & _)])].
  - reflexivity.
  - destruct H as [[? _]|[? ?]]; [congruence|destruct DE; congruence].
  - apply may_eq in M as (L & A & LE). rewrite as_sent_kind in L. rewrite as_sent_amount in LE.
    destruct H as [[_ H]|[? ?]]; [|destruct DE; congruence].
    destruct (H x a L A) as (d & l & MX & LT). rewrite MX in LE. lia.
Qed.

(** Over any history of calls by anybody in which the user neither approves
    nor raises, what a contract got done in the user's transactions stays
    within the approval it started with, in the approved token. *)
Theorem C104_an_approval_bounds_all_later_use : forall e r k d l x a s0 s,
  e <> r -> 0 <= l ->
  s_grants s0 e r k = Some x -> g_auth x = Some a -> a_max a = Some (d, l) ->
  history (fun v c => ~ raises e r k v c) s0 s ->
  exists new, s_log s = new ++ s_log s0 /\
    total e r k new <= l /\
    (forall y, In y new -> by_pair e r k y = true -> m_denom (v_msg y) = d) /\
    (forall x' a', s_grants s e r k = Some x' -> g_auth x' = Some a' ->
       exists l', a_max a' = Some (d, l') /\ 0 <= l' /\ total e r k new + l' <= l).
Proof.
  intros e r k d l x a s0 s NE L0 G A M H.
  apply (history_within W serve unjailed whitelisted serve_unjail bond lifetime e r k d l s0 s NE) in H.
  - destruct H as (new & E & B & C & D). exists new. split; [exact E|].
    destruct (s_grants s e r k) as [y|].
    + destruct D as (b & l' & A' & M' & P1 & P2). split; [lia|]. split; [exact B|].
      intros x' a' E1 E2. injection E1 as <-. rewrite A' in E2. injection E2 as <-. eauto.
    + split; [exact D|]. split; [exact B|]. discriminate.
  - exists []. split; [reflexivity|]. split; [intros ? []|]. split; [apply Z.le_refl|].
    rewrite G. exists a, l. change (total e r k []) with 0. auto with zarith.
Qed.

(** Without any approval, nothing at all. *)
Theorem C104_no_approval_no_use : forall e r k s0 s,
  e <> r -> s_grants s0 e r k = None ->
  history (fun v c => ~ raises e r k v c) s0 s ->
  s_grants s e r k = None /\
  exists new, s_log s = new ++ s_log s0 /\
    forall y, In y new -> v_caller y = e -> v_origin y = r -> m_kind (v_msg y) <> k.
Proof.
  intros e r k s0 s NE G H. induction H as [|s s' v c o H [IH1 (new & IH2 & IH3)] P ST].
  - split; [exact G|]. exists []. split; [reflexivity|]. intros ? [].
  - assert (KEEP : forall q, step v c s = (q, s') -> s_log s' = s_log s ->
      s_grants s' e r k = None ->
      s_grants s' e r k = None /\ exists new, s_log s' = new ++ s_log s0 /\
      forall y, In y new -> v_caller y = e -> v_origin y = r -> m_kind (v_msg y) <> k).
    { intros q _ EL EG. split; [exact EG|]. exists new. rewrite EL. auto. }
    destruct c as [e1 am us|e1 us|e1 am us|e1 am us|m|w1].
    + eapply KEEP; [exact ST| |].
      * unfold Staking.step in ST; cbv zeta in ST.
        destruct (args_ok _ _ _); [|injection ST as <- <-; reflexivity].
        apply with_grants_eq in ST as (_ & EL & _). exact EL.
      * rewrite <- IH1. eapply step_frame; [exact ST|]. intros (-> & -> & I1).
        apply P. split; cbn; auto.
    + pose proof ST as ST2. unfold Staking.step in ST2; cbv zeta in ST2.
      destruct (args_ok _ _ _).
      2:{ eapply KEEP; [exact ST|injection ST2 as <- <-; reflexivity|injection ST2 as <- <-; exact IH1]. }
      destruct (each _ _ _) as [q g] eqn:E.
      apply with_grants_eq in ST2 as (_ & EL & EG & _).
      eapply KEEP; [exact ST|exact EL|].
      destruct EG as [-> | ->]; [|exact IH1]. cbn [snd].
      refine (each_inv (fun h => h e r k = None) _ _ _ _ _ _ IH1 E).
      intros k1 h h' _ I1 F. unfold of_option in F.
      destruct (delete _ _ _ _) as [h2|] eqn:DE in F; [|discriminate]. injection F as <-.
      apply delete_eq in DE as [-> _]. unfold set_grant. now destruct (_ && _).
    + eapply KEEP; [exact ST| |].
      * unfold Staking.step in ST; cbv zeta in ST.
        destruct (args_ok _ _ _); [|injection ST as <- <-; reflexivity].
        apply with_grants_eq in ST as (_ & EL & _). exact EL.
      * rewrite <- IH1. eapply step_frame; [exact ST|]. intros (-> & -> & I1).
        apply P. split; cbn; auto.
    + pose proof ST as ST2. unfold Staking.step in ST2; cbv zeta in ST2.
      destruct (args_ok _ _ _).
      2:{ eapply KEEP; [exact ST|injection ST2 as <- <-; reflexivity|injection ST2 as <- <-; exact IH1]. }
      destruct (each _ _ _) as [q g] eqn:E.
      apply with_grants_eq in ST2 as (_ & EL & EG & _).
      eapply KEEP; [exact ST|exact EL|].
      destruct EG as [-> | ->]; [|exact IH1]. cbn [snd].
      refine (each_inv (fun h => h e r k = None) _ _ _ _ _ _ IH1 E).
      intros k1 h h' _ I1 F. apply decrease_eq in F as (OA & x & a & [L _] & A & MX).
      destruct (N.eq_dec e1 e) as [E1|N1]; [destruct (N.eq_dec (e_origin v) r) as [E2|N2];
        [destruct (kind_eqb_spec k1 k) as [E3|N3]|]|].
      * rewrite E1, E2, E3 in L. congruence.
      * rewrite (OA e r k) by congruence. exact I1.
      * rewrite (OA e r k) by congruence. exact I1.
      * rewrite (OA e r k) by congruence. exact I1.
    + pose proof ST as ST2. cbn [Staking.step] in ST2.
      apply perform_cases in ST2
        as [[_ ->]|(_ & _ & _ & w & _ & [(CO & _ & ->)|(N1 & x & a & M & AC)])].
      * split; [exact IH1|]. exists new. auto.
      * split; [exact IH1|]. eexists (_ :: new). cbn [s_log]. rewrite IH2.
        split; [reflexivity|]. intros y [<-|I1]; [cbn; congruence|now apply IH3].
      * apply may_eq in M as ([L _] & A & _). rewrite as_sent_kind in L.
        assert (NN : ~ (e_caller v = e /\ e_origin v = r /\ m_kind m = k)).
        { intros (E1 & E2 & E3). rewrite E1, E2, E3 in L. congruence. }
        assert (EL : exists b, s_log s' = Served (e_caller v) (e_origin v) (as_sent bond m) b :: s_log s).
        { destruct (accept _ _ _ _ _ _ _); destruct AC as [_ ->]; cbn; eauto. }
        destruct EL as [b EL]. split.
        -- rewrite <- IH1. eapply step_frame; [exact ST|]. cbn.
           intros (-> & -> & _ & ->). apply NN. auto.
        -- eexists (_ :: new). rewrite EL, IH2. split; [reflexivity|].
           intros y [<-|I1]; [|now apply IH3]. cbn. rewrite as_sent_kind. tauto.
    + unfold Staking.step in ST. destruct (w1 =? 0)%N; [injection ST as <- <-; split; eauto|].
      destruct (serve_unjail _ _); injection ST as <- <-; split; eauto.
Qed.

(** Nobody's approvals change in somebody else's transactions, and in the
    user's own only the ones the call is about. *)
Theorem C104_approvals_change_only_in_own_transactions : forall v c s o s' e r k,
  step v c s = (o, s') ->
  s_grants s' e r k <> s_grants s e r k ->
  r = e_origin v /\
  match c with
  | Approve e' _ us | Increase e' _ us | Decrease e' _ us | Revoke e' us =>
      e = e' /\ In (Known k) us
  | Do m => e = e_caller v /\ e_caller v <> e_origin v /\ k = m_kind m
  | Unjail _ => False
  end.
Proof.
  intros v c s o s' e r k ST NE.
  assert (DN : names v c e r k \/ ~ names v c e r k).
  { unfold names. destruct (N.eq_dec r (e_origin v)); [|tauto].
    assert (DI : forall us, In (Known k) us \/ ~ In (Known k) us).
    { intros us. destruct (in_dec (fun x y : url => ltac:(repeat decide equality) : {x = y} + {x <> y})
        (Known k) us); auto. }
    destruct c as [e1 ? us|e1 us|e1 ? us|e1 ? us|m|?];
      try (destruct (N.eq_dec e e1); [destruct (DI us)|]; tauto).
    - destruct (N.eq_dec e (e_caller v)), (N.eq_dec (e_caller v) (e_origin v)),
        (kind_eqb_spec k (m_kind m)); tauto.
    - tauto. }
  destruct DN as [D|D]; [exact D|].
  exfalso. apply NE. eapply step_frame; eauto.
Qed.

(** Approving sets exactly the stated limit for every listed message, over the
    validators that are not jailed, until the set time. *)
Theorem C104_approve_sets_the_limit : forall v e amount us s s',
  step v (Approve e amount us) s = (Done, s') ->
  s_world s' = s_world s /\ s_log s' = s_log s /\
  forall k, In (Known k) us ->
    s_grants s' e (e_origin v) k =
    if amount =? 0 then None
    else Some (Grant
      (Some (Auth (unjailed (s_world s)) []
               (if amount =? 2 ^ 256 - 1 then None else Some (bond, amount))))
      (Some (e_now v + lifetime))).
Proof.
  intros v e amount us s s' ST.
  unfold Staking.step in ST; cbv zeta in ST.
  destruct (args_ok e amount us) eqn:AO; [|discriminate].
  assert (AM : 0 <= amount).
  { unfold args_ok in AO. rewrite !andb_true_iff in AO. apply Z.leb_le. tauto. }
  destruct (each _ _ _) as [q g] eqn:E.
  apply with_grants_eq in ST as (EW & EL & _ & EO & EG). cbn in EO. subst q.
  rewrite EG by discriminate. split; [exact EW|]. split; [exact EL|]. cbn [snd].
  set (want := if amount =? 0 then None else _).
  assert (ONE : forall k h h',
    of_option (grant_or_delete W unjailed bond lifetime (e_now v) (s_world s) e (e_origin v)
                 (coin_of amount) k h) = Got h' ->
    h' e (e_origin v) k = want /\ only_at e (e_origin v) k h h').
  { intros k h h' F. unfold of_option in F.
    destruct (grant_or_delete _ _ _ _ _ _ _ _ _ _) as [h2|] eqn:GD in F; [|discriminate].
    injection F as <-. split; [|eapply grant_or_delete_only; eauto].
    unfold grant_or_delete, coin_of in GD. unfold want.
    change max_word with (2 ^ 256 - 1) in GD.
    destruct (Z.eqb_spec amount (2 ^ 256 - 1)) as [E1|N1].
    - assert (Z0 : (amount =? 0) = false) by (rewrite E1; reflexivity).
      rewrite Z0. unfold create in GD. destruct (unjailed (s_world s)); [discriminate|].
      apply save_eq in GD as [-> _]. now rewrite set_same.
    - destruct (Z.eqb_spec amount 0) as [E0|N0].
      + subst amount. change (0 <=? 0) with true in GD. cbv iota in GD.
        apply delete_eq in GD as [-> _]. now rewrite set_same.
      + destruct (Z.leb_spec amount 0); [lia|].
        unfold create in GD. destruct (unjailed (s_world s)); [discriminate|].
        apply save_eq in GD as [-> _]. now rewrite set_same. }
  clearbody want. clear AO EG EL EW.
  revert E. generalize (s_grants s). induction us as [|u us IH]; intros h E k I1; [destruct I1|].
  cbn [each] in E. destruct u as [k1|?]; [|discriminate].
  destruct (of_option _) as [h1| |] eqn:F in E; try discriminate.
  apply ONE in F as [F1 F2].
  assert (DK : {In (Known k) us} + {~ In (Known k) us}).
  { apply in_dec. repeat decide equality. }
  destruct DK as [I2|N2]; [now apply (IH h1)|].
  destruct I1 as [E1|I1]; [|tauto]. injection E1 as ->.
  transitivity (h1 e (e_origin v) k); [|exact F1].
  eapply (each_only _ us h1 Done g e (e_origin v)); [|exact E|tauto].
  intros k2 ha hb F3. now apply ONE in F3.
Qed.

(** Revoking removes every listed approval. *)
Theorem C104_revoke_removes : forall v e us s s',
  step v (Revoke e us) s = (Done, s') ->
  s_world s' = s_world s /\ s_log s' = s_log s /\
  forall k, In (Known k) us -> s_grants s' e (e_origin v) k = None.
Proof.
  intros v e us s s' ST.
  unfold Staking.step in ST; cbv zeta in ST.
  destruct (args_ok e 0 us); [|discriminate].
  destruct (each _ _ _) as [q g] eqn:E.
  apply with_grants_eq in ST as (EW & EL & _ & EO & EG). cbn in EO. subst q.
  rewrite EG by discriminate. split; [exact EW|]. split; [exact EL|]. cbn [snd].
  clear EG EL EW.
  revert E. generalize (s_grants s). induction us as [|u us IH]; intros h E k I1; [destruct I1|].
  cbn [each] in E. destruct u as [k1|?]; [|discriminate].
  destruct (delete e (e_origin v) k1 h) as [h1|] eqn:F; [|discriminate]. cbn [of_option] in E.
  apply delete_eq in F as [-> _].
  assert (DK : {In (Known k) us} + {~ In (Known k) us}).
  { apply in_dec. repeat decide equality. }
  destruct DK as [I2|N2]; [now eapply IH; eauto|].
  destruct I1 as [E1|I1]; [|tauto]. injection E1 as ->.
  transitivity (set_grant h e (e_origin v) k None e (e_origin v) k); [|apply set_same].
  eapply (each_only _ us _ Done g e (e_origin v)); [|exact E|tauto].
  intros k2 ha hb F3. cbv beta in F3. destruct (delete e (e_origin v) k2 ha) eqn:DE; [|discriminate F3].
  cbn in F3. injection F3 as <-. apply delete_eq in DE as [-> _]. apply set_other.
Qed.

(** Raising and lowering change a limited approval by the stated amount and
    keep its validators and its end; a lowering never goes below zero. *)
Theorem C104_raise_and_lower_by_the_amount : forall v e amount k s s' x a d l,
  s_grants s e (e_origin v) k = Some x -> g_auth x = Some a -> a_max a = Some (d, l) ->
  (step v (Increase e amount [Known k]) s = (Done, s') ->
   k <> Cancel /\ s_world s' = s_world s /\
   s_grants s' e (e_origin v) k =
   Some (Grant (Some (Auth (a_allow a) (a_deny a) (Some (d, l + amount)))) (g_exp x))) /\
  (step v (Decrease e amount [Known k]) s = (Done, s') ->
   amount <= l /\ s_world s' = s_world s /\
   s_grants s' e (e_origin v) k =
   Some (Grant (Some (Auth (a_allow a) (a_deny a) (Some (d, l - amount)))) (g_exp x))).
Proof.
  intros v e amount k s s' x a d l G A M.
  assert (CO : forall c, coin_of amount = Some c -> c = amount).
  { unfold coin_of. intros c. destruct (amount =? max_word); congruence. }
  split; intros ST; unfold Staking.step in ST; cbv zeta in ST;
    (destruct (args_ok _ _ _); [|discriminate]).
  - assert (NC : k <> Cancel) by (intros ->; cbn in ST; discriminate).
    assert (E0 : map no_cancel [Known k] = [Known k]) by (destruct k; auto; congruence).
    rewrite E0 in ST. cbn [each] in ST.
    destruct (increase _ _ _ _ _ _) as [h| |] eqn:F; try discriminate.
    apply with_grants_eq in ST as (EW & _ & _ & _ & EG). rewrite EG by discriminate. cbn [snd].
    apply increase_eq in F as (_ & y & b & [L _] & A' & MX).
    rewrite G in L. injection L as <-. rewrite A in A'. injection A' as <-. rewrite M in MX.
    destruct MX as (c & EC & ->). apply CO in EC as ->. auto.
  - cbn [each] in ST.
    destruct (decrease _ _ _ _ _ _) as [h| |] eqn:F; try discriminate.
    apply with_grants_eq in ST as (EW & _ & _ & _ & EG). rewrite EG by discriminate. cbn [snd].
    apply decrease_eq in F as (_ & y & b & [L _] & A' & MX).
    rewrite G in L. injection L as <-. rewrite A in A'. injection A' as <-. rewrite M in MX.
    destruct MX as (c & EC & LE & ->). apply CO in EC as ->. auto.
Qed.

End Claims.

Print Assumptions C104_a_signer_acts_for_itself.
Print Assumptions C104_a_contract_uses_up_its_approval.
Print Assumptions C104_without_approval_nothing_happens.
Print Assumptions C104_an_approval_bounds_all_later_use.
Print Assumptions C104_no_approval_no_use.
Print Assumptions C104_approvals_change_only_in_own_transactions.
Print Assumptions C104_approve_sets_the_limit.
Print Assumptions C104_revoke_removes.
Print Assumptions C104_raise_and_lower_by_the_amount.

(** Creating and editing a validator is open to its owner only, directly. *)
Theorem C104_only_the_owner_edits_a_validator : forall v x,
  validator_call_ok v x = true <->
  x <> 0%N /\ e_caller v = x /\ e_origin v = x.
Proof.
  intros v x. unfold validator_call_ok. rewrite !andb_true_iff, negb_true_iff, !N.eqb_eq, N.eqb_neq.
  intuition congruence.
Qed.
Print Assumptions C104_only_the_owner_edits_a_validator.

(** A concrete chain: two validators (70, 71), token 1 is the staking token and
    token 2 is whitelisted too; the staking module notes who delegated how
    much of what, and who was unjailed. *)
Definition ledger := list (N * N * Z).
Definition srv (m : smsg) (w : ledger) : option ledger :=
  if m_amount m <=? 0 then None else Some ((m_delegator m, m_denom m, m_amount m) :: w).
Definition vals (_ : ledger) : list addr := [70%N; 71%N].
Definition white (_ : ledger) (d : denom) : bool := (d =? 1)%N || (d =? 2)%N.
Definition free (v : addr) (w : ledger) : option ledger := Some ((v, 0%N, 0) :: w).
Definition stepx := step ledger srv vals white free 1%N 1000.

Definition user := 5%N.
Definition app := 9%N.
Definition direct := Env user user 100.
Definition via := Env user app 100.
Definition none : state ledger := State (fun _ _ _ => None) [] [].
Definition deleg (who v d : N) (n : Z) : smsg := Smsg Delegate who v d n 0.

(** The user approves 10, the contract uses 6, then 4; a further 1 is
    refused. *)
Definition approved := snd (stepx direct (Approve app 10 [Known Delegate; Known Undelegate]) none).
Definition used6 := snd (stepx via (Do (deleg user 70 1 6)) approved).
Definition used10 := snd (stepx via (Do (deleg user 71 1 4)) used6).

Example C104_example_approved :
  fst (stepx direct (Approve app 10 [Known Delegate; Known Undelegate]) none) = Done /\
  s_grants approved app user Delegate =
    Some (Grant (Some (Auth [70%N; 71%N] [] (Some (1%N, 10)))) (Some 1100)).
Proof. vm_compute. auto. Qed.

Example C104_example_used :
  fst (stepx via (Do (deleg user 70 1 6)) approved) = Done /\
  s_grants used6 app user Delegate =
    Some (Grant (Some (Auth [70%N; 71%N] [] (Some (1%N, 4)))) (Some 1100)) /\
  fst (stepx via (Do (deleg user 71 1 4)) used6) = Done /\
  s_grants used10 app user Delegate = None /\
  s_world used10 = [(user, 1%N, 4); (user, 1%N, 6)] /\
  total app user Delegate (s_log used10) = 10 /\
  stepx via (Do (deleg user 71 1 1)) used10 = (Failed, used10).
Proof. vm_compute. auto 10. Qed.

Example C104_example_bound :
  exists x a, app <> user /\ s_grants approved app user Delegate = Some x /\
    g_auth x = Some a /\ a_max a = Some (1%N, 10) /\
    history ledger srv vals white free 1%N 1000
      (fun v c => ~ raises app user Delegate v c) approved used10.
Proof.
  eexists _, _. split; [discriminate|]. split; [vm_compute; reflexivity|].
  split; [reflexivity|]. split; [reflexivity|].
  eapply (h_step _ _ _ _ _ _ _ _ _ used6 used10 via (Do (deleg user 71 1 4)) Done).
  - eapply (h_step _ _ _ _ _ _ _ _ _ approved used6 via (Do (deleg user 70 1 6)) Done).
    + apply h_start.
    + intros [_ []].
    + vm_compute. reflexivity.
  - intros [_ []].
  - vm_compute. reflexivity.
Qed.

Example C104_example_direct :
  fst (stepx direct (Do (deleg user 70 1 3)) none) = Done.
Proof. reflexivity. Qed.

Example C104_example_revoke :
  fst (stepx direct (Revoke app [Known Undelegate; Known Delegate]) approved) = Done.
Proof. reflexivity. Qed.

Example C104_example_raise_lower :
  fst (stepx direct (Increase app 5 [Known Delegate]) approved) = Done /\
  fst (stepx direct (Decrease app 10 [Known Delegate]) approved) = Done.
Proof. vm_compute. auto. Qed.

Example C104_example_no_history :
  s_grants none app user Delegate = None /\
  history ledger srv vals white free 1%N 1000
    (fun v c => ~ raises app user Delegate v c) none
    (snd (stepx direct (Do (deleg user 70 1 3)) none)).
Proof.
  split; [reflexivity|].
  eapply (h_step _ _ _ _ _ _ _ _ _ none _ direct (Do (deleg user 70 1 3)) Done).
  - apply h_start.
  - intros [_ []].
  - vm_compute. reflexivity.
Qed.

(** Not so: calls that fail can move stake.  The message is carried out before
    the approval's validators and token are looked at, and a failed call's
    writes stay in the transaction when the contract swallows the failure
    (Statedb: C18_revert_after_failed_precompile_refuted).  With an approval of
    10 for validators 70 and 71, a contract stakes 20 with validator 72 and 10 of
    another token, and still has its approval of 10. *)
Theorem C104_failed_calls_move_nothing_refuted :
  exists s,
    stepx via (Do (deleg user 72 1 10)) approved = (Failed, s) /\ s_world s = [(user, 1%N, 10)] /\
  exists s2,
    stepx via (Do (deleg user 72 1 10)) s = (Failed, s2) /\
  exists s3,
    stepx via (Do (deleg user 70 2 10)) s2 = (Failed, s3) /\
    s_world s3 = [(user, 2%N, 10); (user, 1%N, 10); (user, 1%N, 10)] /\
    s_grants s3 app user Delegate = s_grants approved app user Delegate.
Proof.
  eexists. split; [vm_compute; reflexivity|]. split; [reflexivity|].
  eexists. split; [vm_compute; reflexivity|].
  eexists. split; [vm_compute; reflexivity|]. split; reflexivity.
Qed.
Print Assumptions C104_failed_calls_move_nothing_refuted.

(** Not so: an approval that fails as a whole leaves its first entries in
    place. *)
Theorem C104_failed_approvals_grant_nothing_refuted :
  exists s, stepx direct (Approve app 10 [Known Delegate; Other 1]) none = (Failed, s) /\
    s_grants s app user Delegate <> None.
Proof. eexists. split; [vm_compute; reflexivity|]. vm_compute. discriminate. Qed.
Print Assumptions C104_failed_approvals_grant_nothing_refuted.

(** Not so: a contract can approve itself.  The approval is recorded for the
    transaction's signer whoever makes the call, so a contract the user merely
    calls gives itself an approval without limit and stakes the user's coins in
    the same transaction. *)
Theorem C104_only_the_user_approves_refuted :
  exists s, stepx via (Approve app (2 ^ 256 - 1) [Known Delegate]) none = (Done, s) /\
  exists s2, stepx via (Do (deleg user 70 1 1000)) s = (Done, s2) /\
    s_world s2 = [(user, 1%N, 1000)].
Proof.
  eexists. split; [vm_compute; reflexivity|].
  eexists. split; [vm_compute; reflexivity|]. reflexivity.
Qed.
Print Assumptions C104_only_the_user_approves_refuted.

(** Not so: the approval is only used up by the user's own coins.  A contract
    that stakes its own coins in the user's transaction uses it up too. *)
Theorem C104_only_the_users_coins_count_refuted :
  exists s, stepx via (Do (deleg app 70 1 10)) approved = (Done, s) /\
    s_world s = [(app, 1%N, 10)] /\ s_grants s app user Delegate = None.
Proof. eexists. split; [vm_compute; reflexivity|]. split; reflexivity. Qed.
Print Assumptions C104_only_the_users_coins_count_refuted.

(** Not so: only a validator's owner unjails it. *)
Theorem C104_only_the_owner_unjails_refuted :
  forall v x s, x <> 0%N ->
  exists s', stepx v (Unjail x) s = (Done, s') /\ In (x, 0%N, 0) (s_world s').
Proof.
  intros v x s NE. unfold stepx, step. apply N.eqb_neq in NE. rewrite NE.
  eexists. split; [reflexivity|]. now left.
Qed.
Print Assumptions C104_only_the_owner_unjails_refuted.

(** Not so: every approval can be raised and lowered.  Lowering by "no limit"
    crashes, and the cancel approval can be given and lowered but not raised. *)
Theorem C104_approvals_can_be_adjusted_refuted :
  fst (stepx direct (Decrease app (2 ^ 256 - 1) [Known Delegate]) approved) = Crashed /\
  exists s, stepx direct (Approve app 10 [Known Cancel]) none = (Done, s) /\
    fst (stepx direct (Decrease app 1 [Known Cancel]) s) = Done /\
    fst (stepx direct (Increase app 1 [Known Cancel]) s) = Failed.
Proof.
  split; [reflexivity|]. eexists. split; [vm_compute; reflexivity|]. vm_compute. auto.
Qed.
Print Assumptions C104_approvals_can_be_adjusted_refuted.

(** Not so: a new validator gets the commission limits it asked for. *)
Theorem C104_commission_limits_kept_refuted :
  exists r mr mc, commission_of r mr mc <> (r, mr, mc).
Proof. exists 5, 20, 1. discriminate. Qed.
Print Assumptions C104_commission_limits_kept_refuted.

(** Not so: fields marked "leave" are left and the others are set. *)
Theorem C104_edits_touch_what_they_name_refuted :
  edit_of (-1) (-1) 7 = (None, None, None) /\
  edit_of (-1) 7 (-1) = (None, Some 7, Some (-1)).
Proof. split; reflexivity. Qed.
Print Assumptions C104_edits_touch_what_they_name_refuted.

(** Not so: the contract tells the EVM about native coins only.  Staking token
    2 from a contract takes that amount of native coins from the balance the
    EVM believes in. *)
Theorem C104_only_native_coins_are_reported_refuted :
  reported via (deleg user 70 2 10) = [(user, -10)] /\
  reported via (deleg user 70 1 10) = [(user, -10)] /\
  reported direct (deleg user 70 1 10) = [].
Proof. repeat split. Qed.
Print Assumptions C104_only_native_coins_are_reported_refuted.
