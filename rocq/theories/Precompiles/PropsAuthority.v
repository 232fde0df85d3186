(** C105: built-in contracts act only for the account that signed or called. *)
From Coq Require Import List ZArith NArith Bool.
From Verif Require Import Precompiles.Staking Precompiles.Authority.
Import ListNotations.

Definition is_unjail (m : method) : bool := match m with UnjailOf _ => true | _ => false end.

(** Whatever is called, however it is reached: the account acted for signed
    the transaction or is the contract that calls (unjail apart). *)
Theorem C105_acts_for_signer_or_caller : forall f v ap m a,
  authority f v ap m = Some a -> is_unjail m = false ->
  f = Call /\ (a = e_origin v \/ a = e_caller v).
Proof.
  intros f v ap m a H U. destruct f; try discriminate. split; [reflexivity|].
  destruct m as [op who|op|k who|who|who|who]; cbn in H, U; try discriminate.
  - destruct (N.eqb_spec (e_caller v) who), (N.eqb_spec (e_origin v) who); cbn in H;
      try discriminate; injection H as <-; auto.
  - injection H as <-. auto.
  - destruct (N.eqb_spec (e_caller v) who), (N.eqb_spec (e_origin v) who); cbn in H;
      try discriminate;
      destruct (N.eqb (e_caller v) (e_origin v)); try destruct (ap_stake _ _ _ _);
      try discriminate; injection H as <-; auto.
  - destruct (N.eqb_spec (e_caller v) who), (N.eqb_spec (e_origin v) who); cbn in H;
      try discriminate;
      destruct (N.eqb (e_caller v) (e_origin v)); try destruct (ap_transfer _ _ _);
      try discriminate; injection H as <-; auto.
  - unfold validator_call_ok in H.
    destruct (N.eqb_spec (e_origin v) who); [|rewrite !andb_false_r in H; discriminate].
    destruct (_ && _); [|discriminate]. injection H as <-. auto.
Qed.
Print Assumptions C105_acts_for_signer_or_caller.

(** Over any history in which an account neither signs nor calls a built-in
    contract, nothing is done in its name, whatever approvals are in force. *)
Theorem C105_bystanders_are_left_alone : forall es r m,
  (forall f v ap m', In (f, v, ap, m') es -> e_origin v <> r /\ e_caller v <> r) ->
  In (r, m) (deeds es) -> is_unjail m = true.
Proof.
  induction es as [|[[[f v] ap] m'] es IH]; intros r m H I1; [destruct I1|].
  cbn [deeds] in I1.
  assert (T : In (r, m) (deeds es) -> is_unjail m = true).
  { apply IH. intros. eapply H. right. eassumption. }
  destruct (authority f v ap m') as [a|] eqn:A; [|auto].
  destruct I1 as [E|I1]; [|auto]. injection E as -> ->.
  destruct (is_unjail m) eqn:U; [reflexivity|].
  destruct (C105_acts_for_signer_or_caller _ _ _ _ _ A U) as [_ D].
  destruct (H f v ap m (or_introl eq_refl)) as [N1 N2]. destruct D; congruence.
Qed.
Print Assumptions C105_bystanders_are_left_alone.

(** An account that calls directly can do everything for itself and nothing
    that names another. *)
Theorem C105_direct_calls_need_no_approval : forall v ap m,
  e_caller v = e_origin v -> is_unjail m = false ->
  match m with
  | Named _ who | StakeFor _ who | IbcTransfer who =>
      (who = e_origin v -> authority Call v ap m = Some who) /\
      (who <> e_origin v -> authority Call v ap m = None)
  | OwnValidator who =>
      (who = e_origin v -> who <> 0%N -> authority Call v ap m = Some who) /\
      (who <> e_origin v -> authority Call v ap m = None)
  | AsOrigin _ => authority Call v ap m = Some (e_origin v)
  | UnjailOf _ => True
  end.
Proof.
  intros v ap m E U. destruct m as [op who|op|k who|who|who|who]; cbn; rewrite ?E; auto.
  - destruct (N.eqb_spec (e_origin v) who); cbn; split; intros; congruence.
  - rewrite N.eqb_refl. destruct (N.eqb_spec (e_origin v) who); cbn; split; intros; congruence.
  - rewrite N.eqb_refl. destruct (N.eqb_spec (e_origin v) who); cbn; split; intros; congruence.
  - unfold validator_call_ok. rewrite E, N.eqb_refl.
    destruct (N.eqb_spec (e_origin v) who); cbn [negb andb]; rewrite ?andb_false_r, ?andb_true_r;
      split; intros; try congruence.
    destruct (N.eqb_spec who 0); cbn; congruence.
Qed.
Print Assumptions C105_direct_calls_need_no_approval.

(** Staking and transfers from a contract happen only with the signer's
    approval; a validator is made or edited by no contract at all. *)
Theorem C105_contracts_need_approval_to_stake_or_transfer : forall f v ap m a,
  e_caller v <> e_origin v -> authority f v ap m = Some a ->
  match m with
  | StakeFor k _ => ap_stake ap k (e_caller v) (e_origin v) = true
  | IbcTransfer _ => ap_transfer ap (e_caller v) (e_origin v) = true
  | OwnValidator _ => False
  | _ => True
  end.
Proof.
  intros f v ap m a NE H. destruct f; try discriminate.
  apply N.eqb_neq in NE.
  destruct m as [op who|op|k who|who|who|who]; cbn in H; auto.
  - destruct (_ && _); [discriminate|]. rewrite NE in H. destruct (ap_stake _ _ _ _); congruence.
  - destruct (_ && _); [discriminate|]. rewrite NE in H. destruct (ap_transfer _ _ _); congruence.
  - unfold validator_call_ok in H. rewrite NE, andb_false_r in H. discriminate.
Qed.
Print Assumptions C105_contracts_need_approval_to_stake_or_transfer.

Open Scope N_scope.

Definition nobody := Approvals (fun _ _ _ => false) (fun _ _ => false).
Definition all_ok := Approvals (fun _ _ _ => true) (fun _ _ => true).

Example C105_example :
  authority Call (Env 5 9 0) all_ok (StakeFor Delegate 5) = Some 5%N /\
  authority Call (Env 5 9 0) nobody (StakeFor Delegate 5) = None /\
  authority Call (Env 5 9 0) nobody (Named Vote 9) = Some 9%N /\
  authority Call (Env 5 9 0) all_ok (Named Vote 6) = None /\
  authority StaticCall (Env 5 9 0) all_ok (Named Vote 5) = None /\
  authority Call (Env 5 5 0) nobody (OwnValidator 5) = Some 5%N.
Proof. repeat split. Qed.

Example C105_example_history :
  let es := [(Call, Env 5 9 0, all_ok, StakeFor Delegate 5); (Call, Env 6 9 0, nobody, Named Vote 9);
             (Call, Env 6 9 0, nobody, UnjailOf 7)] in
  (forall f v ap m', In (f, v, ap, m') es -> e_origin v <> 7%N /\ e_caller v <> 7%N) /\
  deeds es = [(5%N, StakeFor Delegate 5); (9%N, Named Vote 9); (7%N, UnjailOf 7)].
Proof.
  split; [|reflexivity]. intros f v ap m' I1.
  destruct I1 as [I1|[I1|[I1|[]]]]; injection I1 as _ <- _ _; split; discriminate.
Qed.

(** Not so: a contract needs the user's approval.  For every method that names
    an account and every method that names none, any contract the user's
    transaction reaches acts for the user though nobody approved anything: it
    redirects the user's rewards, votes, pays proposal deposits, sends the
    user's coins over the bridge, and gives itself approvals. *)
Theorem C105_contracts_need_approval_refuted : forall user app now,
  user <> app ->
  (forall op, authority Call (Env user app now) nobody (Named op user) = Some user) /\
  (forall op, authority Call (Env user app now) nobody (AsOrigin op) = Some user).
Proof.
  intros user app now NE. split; intros op; cbn; [|reflexivity].
  rewrite N.eqb_refl, andb_false_r. reflexivity.
Qed.
Print Assumptions C105_contracts_need_approval_refuted.

Example C105_example_user : 5%N <> 9%N. Proof. discriminate. Qed.

(** Not so: nothing is done for a bystander.  Anybody unjails anybody. *)
Theorem C105_bystanders_are_never_acted_for_refuted : forall v ap who,
  authority Call v ap (UnjailOf who) = Some who.
Proof. reflexivity. Qed.
Print Assumptions C105_bystanders_are_never_acted_for_refuted.

(** Not so: a contract can always move its own stake and send its own coins.
    It needs the approval of whoever signed the transaction that reaches it. *)
Theorem C105_contracts_dispose_of_their_own_refuted : forall user app now,
  user <> app ->
  authority Call (Env user app now) nobody (StakeFor Undelegate app) = None /\
  authority Call (Env user app now) nobody (IbcTransfer app) = None.
Proof.
  intros user app now NE. cbn. rewrite N.eqb_refl. cbn.
  destruct (N.eqb_spec app user); [congruence|auto].
Qed.
Print Assumptions C105_contracts_dispose_of_their_own_refuted.
