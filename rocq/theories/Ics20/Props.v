(** C110: a contract sends a user's tokens to another chain only as far as the
    user allowed. *)
From Verif Require Import Lib.Base Lib.Bytes Lib.Coins Ics20.Model Ics20.Spec Ics20.Proofs.
From Coq Require Import NArith.
Open Scope Z_scope.

Section Claims.
Variable W : Type.
Variable send : tmsg -> W -> option W.
Variable has_channel : W -> bytes -> bytes -> bool.
Variable memo_ok : bytes -> list bytes -> bool.
Variable name_ok : bytes -> bool.
Variable denom_ok : bytes -> bool.
Variable msg_ok : tmsg -> bool.
Variable lifetime : Z.
Notation step := (step W send has_channel memo_ok name_ok denom_ok msg_ok lifetime).
Notation history := (history W send has_channel memo_ok name_ok denom_ok msg_ok lifetime).

(** Stored approvals stay well formed whatever happens. *)
Theorem C110_approvals_stay_well_formed : forall P s0 s,
  all_well_formed (s_grants s0) -> history P s0 s -> all_well_formed (s_grants s).
Proof.
  intros P s0 s WF H. induction H as [|s s' v k o H IH _ ST]; [exact WF|].
  eapply step_wf; eauto.
Qed.

Lemma done_body v k (s s' : state W) : step v k s = (Done, s') ->
  body W send has_channel memo_ok name_ok denom_ok msg_ok lifetime v k s = (Done, s').
Proof.
  intros ST. apply step_body in ST as [(_ & E & _)|(o' & B & [E|[E _]])]; try discriminate. now subst o'.
Qed.

(** Without a contract in between, a signer sends its own tokens only, and no
    approval is touched. *)
Theorem C110_a_signer_acts_for_itself : forall v m s s',
  e_caller v = e_origin v ->
  step v (Transfer m) s = (Done, s') ->
  t_sender m = e_origin v /\
  s_grants s' = s_grants s /\
  send m (s_world s) = Some (s_world s').
Proof.
  intros v m s s' CO ST. apply done_body in ST. cbn [body] in ST.
  apply transfer_cases in ST
    as [[E _]|(_ & _ & _ & _ & SE & w & SD & [(E & _)|[(_ & _ & ->)|(_ & NE & _)]])]; try discriminate.
  - cbn. split; [destruct SE; congruence|auto].
  - congruence.
Qed.

(** A contract gets through only with an approval of the transaction's signer
    that has not ended, names the port and channel, allows the receiver and the
    memo, and covers the amount.  Afterwards that one limit is smaller by
    exactly the amount (unless it was "no limit", 2^256-1), every other limit,
    the receivers, the memo keys and the end are as before, and so are all
    other approvals. *)
Theorem C110_a_contract_uses_up_its_approval : forall v m s s',
  all_well_formed (s_grants s) ->
  e_caller v <> e_origin v ->
  step v (Transfer m) s = (Done, s') ->
  let e := e_caller v in let r := e_origin v in
  (t_sender m = e \/ t_sender m = r) /\
  send m (s_world s) = Some (s_world s') /\
  alive (s_grants s) (e_now v) e r /\
  (exists a, at_place (s_grants s) e r (t_port m) (t_chan m) a /\
     (al_allow a = [] \/ In (t_receiver m) (al_allow a)) /\
     memo_ok (t_memo m) (al_memo a) = true) /\
  only_at e r (s_grants s) (s_grants s') /\
  0 < t_amount m <= limit (s_grants s) e r (t_port m) (t_chan m) (t_denom m) /\
  (limit (s_grants s) e r (t_port m) (t_chan m) (t_denom m) = 2 ^ 256 - 1 ->
   s_grants s' = s_grants s) /\
  (limit (s_grants s) e r (t_port m) (t_chan m) (t_denom m) <> 2 ^ 256 - 1 ->
   limit (s_grants s') e r (t_port m) (t_chan m) (t_denom m) =
     limit (s_grants s) e r (t_port m) (t_chan m) (t_denom m) - t_amount m) /\
  (forall p c d, (p, c, d) <> (t_port m, t_chan m, t_denom m) ->
     limit (s_grants s') e r p c d = limit (s_grants s) e r p c d) /\
  (forall p c b', at_place (s_grants s') e r p c b' ->
     exists b, at_place (s_grants s) e r p c b /\
       al_allow b' = al_allow b /\ al_memo b' = al_memo b) /\
  (forall x', s_grants s' e r = Some x' ->
     exists x, s_grants s e r = Some x /\ g_exp x' = g_exp x).
Proof.
  intros v m s s' WF NE ST e r. apply done_body in ST. cbn [body] in ST.
  apply transfer_cases in ST
    as [[E _]|(_ & _ & X0 & _ & SE & w & SD & [(E & _)|[(_ & CO & _)|(_ & _ & l & t & x & g & GA & AC & UP & ->)]])];
    try discriminate; [congruence|].
  fold e r in SE, GA, UP. pose proof (get_auth_eq _ _ _ _ _ GA) as [GE TL].
  pose proof (WF _ _ _ GE) as OK. cbn in OK.
  destruct (accept_update _ _ _ _ _ _ _ _ _ _ OK (proj1 X0) GE AC UP)
    as (OA & _ & a & FA & AL & MO & C).
  pose proof (ok_found _ _ _ _ OK FA) as (IA & PA & CA & VA).
  cbn [s_world s_grants].
  assert (LIM : limit (s_grants s) e r (t_port m) (t_chan m) (t_denom m) = amt (al_limit a) (t_denom m)).
  { rewrite (limit_found _ _ _ _ _ _ _ _ GE). now rewrite FA. }
  rewrite LIM. change (2 ^ 256 - 1) with max_word.
  split; [exact SE|]. split; [exact SD|]. split; [exists (Grant (Some l) t); auto|].
  split; [exists a; split; [exists (Grant (Some l) t), l; auto 10|auto]|].
  split; [exact OA|].
  destruct C as [(EM & ->)|(NM & LE & FR & LF)].
  - rewrite EM. split; [lia|]. split; [reflexivity|]. split; [congruence|]. split; [reflexivity|].
    split; [intros p c b' H; exists b'; auto|]. intros x' E. eauto.
  - split; [lia|]. split; [congruence|]. split.
    { intros _. rewrite LF, LIM. unfold same_place. rewrite !beqb_refl. cbn [andb]. reflexivity. }
    split.
    { intros p c d N1. rewrite LF. destruct (same_place _ _ p c) eqn:SP; [|cbn [andb]; lia].
      apply same_place_iff in SP as [<- <-]. destruct (beqb d (t_denom m)) eqn:ED; [|cbn [andb]; lia].
      apply beqb_spec in ED. subst d. congruence. }
    split.
    + intros p c b' (y & l' & E1 & E2 & I1 & E3 & E4). destruct (FR y E1) as (_ & l2 & E5 & H2).
      rewrite E2 in E5. injection E5 as <-. destruct (H2 b' I1) as (b & I2 & F1 & F2 & F3 & F4).
      exists b. split; [exists (Grant (Some l) t), l; repeat split; auto; congruence|auto].
    + intros x' E. destruct (FR x' E) as [E1 _]. exists (Grant (Some l) t). auto.
Qed.

(** A contract is refused before anything happens when the approval is missing
    or has ended, when too little is left for that port, channel and token,
    when the receiver is not among the allowed ones, or when the sender named
    neither signed nor calls. *)
Theorem C110_without_approval_nothing_happens : forall v m s,
  all_well_formed (s_grants s) ->
  (t_sender m <> e_origin v /\ t_sender m <> e_caller v) \/
  (e_caller v <> e_origin v /\
   (~ alive (s_grants s) (e_now v) (e_caller v) (e_origin v) \/
    limit (s_grants s) (e_caller v) (e_origin v) (t_port m) (t_chan m) (t_denom m) < t_amount m \/
    (forall a, at_place (s_grants s) (e_caller v) (e_origin v) (t_port m) (t_chan m) a ->
       al_allow a <> [] /\ ~ In (t_receiver m) (al_allow a)))) ->
  step v (Transfer m) s = (Failed, s).
Proof.
  intros v m s WF H.
  assert (T : transfer W send has_channel memo_ok denom_ok msg_ok v m s = (Failed, s)).
  { destruct H as [[N1 N2]|[NE H]].
    - destruct (transfer _ _ _ _ _ _ v m s) as [o s'] eqn:ST. apply transfer_cases in ST
        as [[-> ->]|(_ & _ & _ & _ & [E|E] & _)]; [reflexivity|congruence|congruence].
    - apply transfer_refused; [exact NE|]. intros l t GA X0. apply get_auth_eq in GA as [GE TL].
      pose proof (WF _ _ _ GE) as OK. cbn in OK. destruct H as [H|[H|H]].
      + exfalso. apply H. exists (Grant (Some l) t). auto.
      + rewrite (limit_found _ _ _ _ _ _ _ _ GE) in H.
        destruct (find_alloc (t_port m) (t_chan m) l) as [a|] eqn:FA.
        * eapply accept_limit; eauto.
        * unfold accept. now rewrite FA.
      + apply accept_receiver. intros a I1 E1 E2. apply H. exists (Grant (Some l) t), l. auto 10. }
  unfold Model.step, body. rewrite T. now destruct (e_gas v).
Qed.

(** Over any history of calls by anybody, with any amounts of gas, in which the
    user neither approves that contract anew nor raises that limit, what the
    contract sent of that token through that port and channel and settled stays
    within the limit it started with, together with what is left. *)
Theorem C110_an_approval_bounds_all_later_use : forall e r p c d s0 s,
  e <> r -> all_well_formed (s_grants s0) ->
  limit (s_grants s0) e r p c d < 2 ^ 256 - 1 ->
  history (fun v k => ~ raises e r p c d v k) s0 s ->
  exists new, s_log s = new ++ s_log s0 /\
    total e r p c d new <= limit (s_grants s0) e r p c d /\
    total e r p c d new + limit (s_grants s) e r p c d <= limit (s_grants s0) e r p c d.
Proof.
  intros e r p c d s0 s NE WF LT H.
  apply history_bound in H as (WF1 & new & EL & T0 & B); auto.
  exists new. split; [exact EL|].
  pose proof (limit_nonneg (s_grants s) e r p c d (WF1 e r)). lia.
Qed.

(** Where nothing is allowed nothing is sent, however the gas is chosen. *)
Theorem C110_nothing_without_an_allowance : forall e r p c d s0 s,
  e <> r -> all_well_formed (s_grants s0) ->
  limit (s_grants s0) e r p c d = 0 ->
  history (fun v k => ~ raises e r p c d v k) s0 s ->
  limit (s_grants s) e r p c d = 0 /\
  exists new, s_log s = new ++ s_log s0 /\
    forall y, In y new -> v_caller y = e -> v_origin y = r ->
      ~ (t_port (v_msg y) = p /\ t_chan (v_msg y) = c /\ t_denom (v_msg y) = d).
Proof.
  intros e r p c d s0 s NE WF L0 H.
  induction H as [|s s' v k o H (LS & new & EL & IH) NR ST].
  - split; [exact L0|]. exists []. split; [reflexivity|]. intros ? [].
  - pose proof (C110_approvals_stay_well_formed _ _ _ WF H) as WF1.
    pose proof (step_wf _ _ _ _ _ _ _ _ _ _ _ _ _ WF1 ST) as [WF2 _].
    assert (LT : limit (s_grants s) e r p c d < max_word) by (rewrite LS; reflexivity).
    destruct (step_bound _ _ _ _ _ _ _ _ e r p c d _ _ _ _ _ NE WF1 LT NR ST) as (n2 & E2 & B2).
    pose proof (limit_nonneg (s_grants s') e r p c d (WF2 e r)) as P1.
    pose proof (total_nonneg_new _ _ _ _ _ _ _ _ e r p c d _ _ _ _ _ _ ST E2) as P2.
    split; [lia|]. exists (n2 ++ new). split; [rewrite E2, EL; apply app_assoc|].
    intros y I1. apply in_app_or in I1 as [I1|I1]; [|now apply IH].
    intros E3 E4 (E5 & E6 & E7).
    assert (HK : exists m b, k = Transfer m /\ n2 = [line v m b] /\ 0 < t_amount m).
    { apply step_body in ST as [(-> & _)|(o' & B & _)].
      { exfalso. replace n2 with (@nil sent) in I1; [destruct I1|].
        symmetry. apply app_inv_tail with (l := s_log s). cbn. congruence. }
      assert (NO : s_log s' = s_log s -> False).
      { intros E. replace n2 with (@nil sent) in I1; [destruct I1|].
        symmetry. apply app_inv_tail with (l := s_log s). cbn. congruence. }
      destruct k as [e1 l|e1|e1 p1 c1 d1 x|e1 p1 c1 d1 x|m]; cbn [body] in B;
        try (apply with_grants_eq in B as [(_ & -> & _)|(_ & h & E & ->)]; exfalso; now apply NO).
      exists m.
      assert (EN : forall b, s_log s' = line v m b :: s_log s -> n2 = [line v m b]).
      { intros b E. apply app_inv_tail with (l := s_log s). cbn. congruence. }
      apply transfer_cases in B
        as [[_ ->]|(_ & _ & X0 & _ & _ & w & _ & [(_ & -> & _)|[(_ & CO & ->)|(_ & N2 & l & t & x & g & GA & AC & UP & ->)]])].
      - exfalso; now apply NO.
      - exists false. split; [reflexivity|]. split; [now apply EN|lia].
      - exists true. split; [reflexivity|]. split; [now apply EN|lia].
      - exists true. split; [reflexivity|]. split; [now apply EN|lia]. }
    destruct HK as (m & b & -> & -> & X0). destruct I1 as [<-|[]]. cbn [line v_caller v_origin v_msg] in *.
    assert (RF : step v (Transfer m) s = (Failed, s)).
    { apply C110_without_approval_nothing_happens; [exact WF1|]. right.
      split; [congruence|]. right; left. rewrite E3, E4, E5, E6, E7, LS. exact X0. }
    rewrite RF in ST. injection ST as <- <-.
    assert (E : length (s_log s) = length ([line v m b] ++ s_log s)) by congruence.
    cbn in E. clear -E. lia.
Qed.

(** A call that fails has changed nothing, if the gas was enough and no
    approval ends at this very instant. *)
Theorem C110_a_failed_call_changes_nothing : forall v k s s',
  e_gas v = Enough ->
  (forall x t, s_grants s (e_caller v) (e_origin v) = Some x -> g_exp x = Some t -> t <> e_now v) ->
  step v k s = (Failed, s') -> s' = s.
Proof.
  intros v k s s' EG NX ST. unfold Model.step in ST. rewrite EG in ST.
  destruct k as [e l|e|e p c d x|e p c d x|m]; cbn [body] in ST;
    try (apply with_grants_eq in ST as [(_ & -> & _)|(E & _)]; [reflexivity|discriminate]).
  apply transfer_cases in ST
    as [[_ ->]|(_ & _ & _ & _ & _ & w & _ & [(_ & _ & [E|(x & t & E1 & E2 & E3)])|[(E & _)|(E & _)]])];
    try reflexivity; try discriminate; [congruence|].
  exfalso. eapply NX; eauto.
Qed.

(** Nobody's approvals change in somebody else's transactions, and in the
    user's own only the one the call is about. *)
Theorem C110_approvals_change_only_in_own_transactions : forall v k s o s' e r,
  all_well_formed (s_grants s) ->
  step v k s = (o, s') ->
  s_grants s' e r <> s_grants s e r ->
  r = e_origin v /\
  match k with
  | Approve e' _ | Revoke e' | Increase e' _ _ _ _ | Decrease e' _ _ _ _ => e = e'
  | Transfer _ => e = e_caller v
  end.
Proof.
  intros v k s o s' e r WF ST NE. apply step_wf in ST as [_ OA]; [|exact WF].
  destruct (N.eq_dec e (fst (names v k))) as [E1|N1]; [destruct (N.eq_dec r (snd (names v k))) as [E2|N2]|].
  - destruct k; cbn in *; auto.
  - exfalso. apply NE. apply OA. congruence.
  - exfalso. apply NE. apply OA. congruence.
Qed.

(** Approving stores exactly the stated allocations, over existing channels,
    until the set time, in place of what was there. *)
Theorem C110_approve_sets_the_limits : forall v e l s s',
  step v (Approve e l) s = (Done, s') ->
  s_grants s' e (e_origin v) = Some (Grant (Some l) (Some (e_now v + lifetime))) /\
  only_at e (e_origin v) (s_grants s) (s_grants s') /\
  s_world s' = s_world s /\ s_log s' = s_log s /\
  l <> [] /\ well_formed (Grant (Some l) (Some (e_now v + lifetime))) /\
  (forall a, In a l -> has_channel (s_world s) (al_port a) (al_chan a) = true).
Proof.
  intros v e l s s' ST. apply done_body in ST. cbn [body] in ST.
  apply with_grants_eq in ST as [(E & _)|(_ & h & E & ->)]; [discriminate|].
  apply approve_eq in E as (OK & NN & CH & ->). cbn [s_grants s_world s_log].
  split; [apply set_same|]. split; [apply set_other|]. split; [reflexivity|]. split; [reflexivity|].
  split; [exact NN|]. split; [exact OK|]. now apply Forall_forall.
Qed.

(** Revoking removes the approval and nothing else. *)
Theorem C110_revoke_removes : forall v e s s',
  step v (Revoke e) s = (Done, s') ->
  s_grants s' e (e_origin v) = None /\
  only_at e (e_origin v) (s_grants s) (s_grants s') /\
  s_world s' = s_world s /\ s_log s' = s_log s.
Proof.
  intros v e s s' ST. apply done_body in ST. cbn [body] in ST.
  apply with_grants_eq in ST as [(E & _)|(_ & h & E & ->)]; [discriminate|].
  apply revoke_eq in E as ->. cbn [s_grants s_world s_log].
  split; [apply set_same|]. split; [apply set_other|]. auto.
Qed.

(** Raising and lowering change one limit by the stated amount and nothing
    else; a limit is never raised beyond 2^256-1 nor lowered below zero. *)
Theorem C110_raise_and_lower_by_the_amount : forall v e p c d x s s' b,
  all_well_formed (s_grants s) ->
  step v (if b : bool then Increase e p c d x else Decrease e p c d x) s = (Done, s') ->
  let r := e_origin v in
  0 <= x /\ alive (s_grants s) (e_now v) e r /\
  limit (s_grants s') e r p c d =
    (if b then limit (s_grants s) e r p c d + x else limit (s_grants s) e r p c d - x) /\
  0 <= limit (s_grants s') e r p c d /\
  (b = true -> limit (s_grants s') e r p c d <= 2 ^ 256 - 1) /\
  0 < limit (s_grants s) e r p c d /\
  (forall p' c' d', (p', c', d') <> (p, c, d) ->
     limit (s_grants s') e r p' c' d' = limit (s_grants s) e r p' c' d') /\
  (forall p' c' a', at_place (s_grants s') e r p' c' a' ->
     exists a, at_place (s_grants s) e r p' c' a /\
       al_allow a' = al_allow a /\ al_memo a' = al_memo a) /\
  (exists y y', s_grants s e r = Some y /\ s_grants s' e r = Some y' /\ g_exp y' = g_exp y) /\
  only_at e r (s_grants s) (s_grants s') /\
  s_world s' = s_world s /\ s_log s' = s_log s.
Proof.
  intros v e p c d x s s' b WF ST r.
  assert (WFP : forall y, s_grants s e r = Some y -> well_formed y) by (intros; eapply WF; eauto).
  assert (SELF : same_place p c p c && beqb d d = true).
  { unfold same_place. now rewrite !beqb_refl. }
  assert (OTHER : forall p' c' d', (p', c', d') <> (p, c, d) -> same_place p c p' c' && beqb d' d = false).
  { intros p' c' d' N1. apply not_true_iff_false. intros E. apply andb_prop in E as [E1 E2].
    apply same_place_iff in E1 as [<- <-]. apply beqb_spec in E2. congruence. }
  apply done_body in ST. destruct b; cbn [body] in ST;
    (apply with_grants_eq in ST as [(E & _)|(_ & h & E & ->)]; [discriminate|]); fold r in E; cbn [s_grants s_world s_log].
  - apply increase_eq in E as (X0 & OA & l & l' & t & GE & GE' & OK & TL & (a & FA & FC & TOP) & EL & LIM); [|exact WFP].
    pose proof (WFP _ GE) as OKL. cbn in OKL. pose proof (ok_found _ _ _ _ OKL FA) as (_ & _ & _ & VA).
    assert (LA : limit (s_grants s) e r p c d = amt (al_limit a) d).
    { rewrite (limit_found _ _ _ _ _ _ _ _ GE). now rewrite FA. }
    assert (POS : 0 < amt (al_limit a) d).
    { apply find_coin_in in FC. destruct VA as [_ V]. rewrite Forall_forall in V. apply (V _ FC). }
    assert (LN : limit h e r p c d = limit (s_grants s) e r p c d + x) by (rewrite LIM, SELF; reflexivity).
    split; [exact X0|]. split; [exists (Grant (Some l) t); auto|]. split; [exact LN|].
    rewrite LN, LA. change (2 ^ 256 - 1) with max_word. split; [lia|]. split; [auto|]. split; [exact POS|].
    split; [intros p' c' d' N1; rewrite LIM, (OTHER _ _ _ N1); lia|].
    split; [|split; [exists (Grant (Some l) t), (Grant (Some l') t); auto|auto]].
    intros p' c' a' (y & l2 & E1 & E2 & I1 & E3 & E4). rewrite GE' in E1. injection E1 as <-.
    cbn in E2. injection E2 as <-. subst l'. apply in_replace in I1 as (b & I2 & [->|[_ ->]]);
      exists b; (split; [exists (Grant (Some l) t), l; auto 10|auto]).
  - apply decrease_eq in E as (X0 & OA & l & l' & t & GE & GE' & OK & TL & (a & FA & FC & TOP) & EL & LIM); [|exact WFP].
    pose proof (WFP _ GE) as OKL. cbn in OKL. pose proof (ok_found _ _ _ _ OKL FA) as (_ & _ & _ & VA).
    assert (LA : limit (s_grants s) e r p c d = amt (al_limit a) d).
    { rewrite (limit_found _ _ _ _ _ _ _ _ GE). now rewrite FA. }
    assert (POS : 0 < amt (al_limit a) d).
    { apply find_coin_in in FC. destruct VA as [_ V]. rewrite Forall_forall in V. apply (V _ FC). }
    assert (LN : limit h e r p c d = limit (s_grants s) e r p c d - x) by (rewrite LIM, SELF; reflexivity).
    split; [exact X0|]. split; [exists (Grant (Some l) t); auto|]. split; [exact LN|].
    rewrite LN, LA. split; [lia|]. split; [discriminate|]. split; [exact POS|].
    split; [intros p' c' d' N1; rewrite LIM, (OTHER _ _ _ N1); lia|].
    split; [|split; [exists (Grant (Some l) t), (Grant (Some l') t); auto|auto]].
    intros p' c' a' (y & l2 & E1 & E2 & I1 & E3 & E4). rewrite GE' in E1. injection E1 as <-.
    cbn in E2. injection E2 as <-. subst l'. apply in_replace in I1 as (b & I2 & [->|[_ ->]]);
      exists b; (split; [exists (Grant (Some l) t), l; auto 10|auto]).
Qed.

(** The allowance query shows the limits a use would meet. *)
Theorem C110_the_query_shows_what_counts : forall now e r g,
  (forall l, query now e r g = Some l -> alive g now e r ->
   forall p c d, limit g e r p c d =
     match find (fun a => beqb (al_port a) p && beqb (al_chan a) c) l with
     | Some a => amt (al_limit a) d
     | None => 0
     end) /\
  (~ alive g now e r -> query now e r g = Some []) /\
  (forall x l, g e r = Some x -> g_allocs x = Some l -> alive g now e r -> query now e r g = Some l).
Proof.
  intros now e r g. unfold query. split; [|split].
  - intros l Q (x & GE & TL) p c d. rewrite (get_auth_some _ _ _ _ _ GE TL) in Q.
    unfold limit. rewrite GE. destruct x as [a t]. cbn in Q. rewrite Q. reflexivity.
  - intros NA. destruct (get_auth g now e r) as [x|] eqn:GA; [|reflexivity].
    exfalso. apply NA. apply get_auth_eq in GA as [GE TL]. exists x. auto.
  - intros x l GE GL (y & GE2 & TL). rewrite (get_auth_some _ _ _ _ _ GE2 TL).
    congruence.
Qed.

End Claims.

(** ** A concrete chain *)

(** The world is what has been sent so far; everything is syntactically fine. *)
Definition w_send (m : tmsg) (w : Z) : option Z := Some (w + t_amount m).
Definition w_chan (w : Z) (p c : bytes) : bool := beqb c [7%N] || beqb c [8%N].
Definition w_memo (m : bytes) (l : list bytes) : bool := match m with [] => true | _ => false end.
Definition yes {A} (x : A) : bool := true.
Definition run := step Z w_send w_chan w_memo yes yes yes 1000.

Definition user : addr := 1%N.
Definition shop : addr := 2%N.
Definition tok : bytes := [9%N].
Definition oth : bytes := [10%N].
Definition port : bytes := [6%N].
Definition ch : bytes := [7%N].
Definition bob : bytes := [66%N].

Definition no_grants : grants := fun _ _ => None.
Definition start : state Z := State no_grants 0 [].
Definition by_user (g : gas) : env := Env user user 5 g.
Definition by_shop (g : gas) : env := Env user shop 5 g.
Definition ten : list alloc :=
  [Alloc port ch [(tok, 10); (oth, 3)] [bob] []; Alloc port [8%N] [(tok, 4)] [] []].
Definition out (x : Z) (from : addr) : tmsg := Tmsg port ch tok x from bob 0 [].
Definition approved : state Z := snd (run (by_user Enough) (Approve shop ten) start).

Definition lims (s : state Z) (p c d : bytes) : Z := limit (s_grants s) shop user p c d.

Example C110_concrete :
  fst (run (by_user Enough) (Approve shop ten) start) = Done /\
  (let '(o, s) := run (by_shop Enough) (Transfer (out 4 user)) approved in
   o = Done /\ s_world s = 4 /\ lims s port ch tok = 6 /\ lims s port ch oth = 3 /\
   lims s port [8%N] tok = 4 /\
   fst (run (by_shop Enough) (Transfer (out 7 user)) s) = Failed /\
   let '(o2, s2) := run (by_shop Enough) (Transfer (out 6 user)) s in
   o2 = Done /\ lims s2 port ch tok = 0 /\ lims s2 port ch oth = 3 /\
   fst (run (by_shop Enough) (Transfer (out 1 user)) s2) = Failed) /\
  (let '(o, s) := run (by_user Enough) (Increase shop port ch tok 5) approved in
   o = Done /\ lims s port ch tok = 15) /\
  (let '(o, s) := run (by_user Enough) (Decrease shop port ch tok 10) approved in
   o = Done /\ lims s port ch tok = 0 /\ lims s port ch oth = 3) /\
  (let '(o, s) := run (by_user Enough) (Revoke shop) approved in
   o = Done /\ lims s port ch oth = 0) /\
  (let '(o, s) := run (by_user Enough) (Transfer (out 40 user)) approved in
   o = Done /\ s_world s = 40 /\ lims s port ch tok = 10).
Proof. vm_compute. repeat split. Qed.

Lemma start_well_formed : all_well_formed (s_grants start).
Proof. intros e r x E. discriminate. Qed.

(** The hypotheses of the bound are met by a history with uses in it. *)
Example C110_bound_concrete :
  shop <> user /\ all_well_formed (s_grants approved) /\
  limit (s_grants approved) shop user port ch tok < 2 ^ 256 - 1 /\
  exists s, history Z w_send w_chan w_memo yes yes yes 1000
              (fun v k => ~ raises shop user port ch tok v k) approved s /\
    total shop user port ch tok (s_log s) = 10 /\
    limit (s_grants s) shop user port ch tok = 0.
Proof.
  split; [discriminate|].
  assert (WA : all_well_formed (s_grants approved)).
  { destruct (run (by_user Enough) (Approve shop ten) start) as [o s] eqn:E.
    unfold approved. rewrite E. eapply step_wf; [exact start_well_formed|exact E]. }
  split; [exact WA|]. split; [reflexivity|].
  set (s1 := snd (run (by_shop Enough) (Transfer (out 4 user)) approved)).
  exists (snd (run (by_shop Enough) (Transfer (out 6 user)) s1)).
  split; [|vm_compute; auto].
  apply (h_step Z w_send w_chan w_memo yes yes yes 1000 _ _ s1 _ (by_shop Enough) (Transfer (out 6 user)) Done);
    [|intros [_ []]|vm_compute; reflexivity].
  apply (h_step Z w_send w_chan w_memo yes yes yes 1000 _ _ approved _ (by_shop Enough) (Transfer (out 4 user)) Done);
    [|intros [_ []]|vm_compute; reflexivity].
  apply h_start.
Qed.

(** ** What does not hold *)

Fixpoint repeated (n : nat) (s : state Z) : state Z :=
  match n with
  | O => s
  | S n => snd (run (by_shop Out_after_sending) (Transfer (out 10 user)) (repeated n s))
  end.

Lemma repeated_grants n : s_grants (repeated n approved) = s_grants approved.
Proof.
  induction n as [|n IH]; [reflexivity|]. cbn [repeated].
  destruct (repeated n approved) as [g w l]. cbn in IH. subst g. reflexivity.
Qed.

Lemma repeated_world n : s_world (repeated n approved) = 10 * Z.of_nat n.
Proof.
  induction n as [|n IH]; [reflexivity|]. cbn [repeated].
  pose proof (repeated_grants n) as G.
  destruct (repeated n approved) as [g w l]. cbn [s_world s_grants] in IH, G. subst g.
  transitivity (w + 10); [reflexivity|]. subst w. lia.
Qed.

(** "A contract never sends more than was allowed" fails when it hands over
    just enough gas for the transfer but not for writing off the approval, and
    goes on after the failure: it sends any multiple of the allowed amount. *)
Theorem C110_refuted_gas_runs_out_after_sending : forall n,
  history Z w_send w_chan w_memo yes yes yes 1000
    (fun v k => e_caller v = shop /\ k = Transfer (out 10 user)) approved (repeated n approved) /\
  limit (s_grants approved) shop user port ch tok = 10 /\
  s_world (repeated n approved) = 10 * Z.of_nat n /\
  limit (s_grants (repeated n approved)) shop user port ch tok = 10.
Proof.
  intros n. split; [|split; [reflexivity|split; [apply repeated_world|rewrite repeated_grants; reflexivity]]].
  induction n as [|n IH]; [apply h_start|]. cbn [repeated].
  eapply (h_step Z w_send w_chan w_memo yes yes yes 1000 _ _ _ _
            (by_shop Out_after_sending) (Transfer (out 10 user)) Failed); [exact IH|split; reflexivity|].
  pose proof (repeated_grants n) as G. destruct (repeated n approved) as [g w l].
  cbn [s_grants] in G. subst g. reflexivity.
Qed.

(** "Only the user approves" fails: a contract called in the user's transaction
    approves itself in the user's name, and uses that at once. *)
Theorem C110_refuted_a_contract_approves_itself :
  exists s1 s2,
    run (by_shop Enough) (Approve shop ten) start = (Done, s1) /\
    run (by_shop Enough) (Transfer (out 10 user)) s1 = (Done, s2) /\
    s_world s2 = 10 /\ t_sender (out 10 user) = user.
Proof. eexists. eexists. split; [reflexivity|]. split; [reflexivity|]. vm_compute. auto. Qed.

(** "The user's approval is about the user's tokens" fails: a contract sending
    its own tokens is refused without an approval of the signer and uses it up
    when there is one. *)
Theorem C110_refuted_own_tokens_need_no_approval :
  run (by_shop Enough) (Transfer (out 4 shop)) start = (Failed, start) /\
  exists s, run (by_shop Enough) (Transfer (out 4 shop)) approved = (Done, s) /\
    limit (s_grants approved) shop user port ch tok = 10 /\
    limit (s_grants s) shop user port ch tok = 6.
Proof. split; [reflexivity|]. eexists. split; [reflexivity|]. vm_compute. auto. Qed.

(** "Raising by one raises by one" fails at the top: the largest limit raised
    by one means "no limit" and is then never used up. *)
Theorem C110_refuted_raised_to_no_limit :
  let top := [Alloc port ch [(tok, 2 ^ 256 - 2)] [] []] in
  exists s1 s2 s3,
    run (by_user Enough) (Approve shop top) start = (Done, s1) /\
    run (by_user Enough) (Increase shop port ch tok 1) s1 = (Done, s2) /\
    run (by_shop Enough) (Transfer (out (2 ^ 256 - 1) user)) s2 = (Done, s3) /\
    s_grants s3 = s_grants s2 /\
    limit (s_grants s3) shop user port ch tok = 2 ^ 256 - 1.
Proof.
  cbv zeta. do 3 eexists. split; [vm_compute; reflexivity|]. split; [vm_compute; reflexivity|].
  split; [vm_compute; reflexivity|]. split; [reflexivity|]. vm_compute. reflexivity.
Qed.

Print Assumptions C110_approvals_stay_well_formed.
Print Assumptions C110_a_signer_acts_for_itself.
Print Assumptions C110_a_contract_uses_up_its_approval.
Print Assumptions C110_without_approval_nothing_happens.
Print Assumptions C110_an_approval_bounds_all_later_use.
Print Assumptions C110_nothing_without_an_allowance.
Print Assumptions C110_a_failed_call_changes_nothing.
Print Assumptions C110_approvals_change_only_in_own_transactions.
Print Assumptions C110_approve_sets_the_limits.
Print Assumptions C110_revoke_removes.
Print Assumptions C110_raise_and_lower_by_the_amount.
Print Assumptions C110_the_query_shows_what_counts.
Print Assumptions C110_refuted_gas_runs_out_after_sending.
Print Assumptions C110_refuted_a_contract_approves_itself.
Print Assumptions C110_refuted_own_tokens_need_no_approval.
Print Assumptions C110_refuted_raised_to_no_limit.
