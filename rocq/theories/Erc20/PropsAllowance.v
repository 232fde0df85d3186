(* C78: allowances through a coin's ERC-20 face. *)
From Verif Require Import Lib.Base Lib.Bytes Lib.Coins Lib.Zmap Erc20.Model Erc20.Spec Erc20.Proofs Erc20.PropsToken.
Open Scope Z_scope.

Lemma bank_same s s' : s_bank s' = s_bank s -> same_balances s s'.
Proof. intros H d a. unfold balance_of, coins_of. rewrite H. reflexivity. Qed.

(* A successful approve sets the caller's allowance for the spender, in this token, to
   the amount; every other allowance (of any token, owner, spender) stays as it was,
   now and at any later time, and no balance changes. *)
Theorem C78_approve : forall t e s caller spender x s', wf s -> uint256 x -> run t e s caller (CApprove spender x) = Ok s' ->
  wf s' /\ allowance_becomes e (t_denom t) caller spender x s s' /\ others_same e (t_denom t) caller spender s s' /\
  same_balances s s' /\ length (s_logs s') = S (length (s_logs s)).
Proof.
  intros t e s caller spender x s' W U E. destruct (approve_effect t e s caller spender x s' W U E) as (_ & A & B & L & C & D & _).
  split; [exact A|]. split; [exact C|]. split; [exact D|]. split; [exact (bank_same _ _ B)|]. rewrite L, app_length. cbn. lia.
Qed.
Print Assumptions C78_approve.

(* increaseAllowance adds, decreaseAllowance subtracts; nothing else changes. *)
Theorem C78_increase : forall t e s caller spender x s', wf s -> uint256 x -> run t e s caller (CIncrease spender x) = Ok s' ->
  wf s' /\ allowance_becomes e (t_denom t) caller spender (allowances e s (t_denom t) caller spender + x) s s' /\
  others_same e (t_denom t) caller spender s s' /\ same_balances s s'.
Proof.
  intros t e s caller spender x s' W U E. destruct (increase_effect t e s caller spender x s' W U E) as (_ & _ & A & B & L & C & D & _).
  split; [exact A|]. split; [exact C|]. split; [exact D|]. exact (bank_same _ _ B).
Qed.
Print Assumptions C78_increase.
Theorem C78_decrease : forall t e s caller spender x s', wf s -> run t e s caller (CDecrease spender x) = Ok s' ->
  wf s' /\ 0 < x <= allowances e s (t_denom t) caller spender /\
  allowance_becomes e (t_denom t) caller spender (allowances e s (t_denom t) caller spender - x) s s' /\
  others_same e (t_denom t) caller spender s s' /\ same_balances s s'.
Proof.
  intros t e s caller spender x s' W E. destruct (decrease_effect t e s caller spender x s' W E) as (_ & X & A & B & L & C & D & _).
  split; [exact A|]. split; [exact X|]. split; [exact C|]. split; [exact D|]. exact (bank_same _ _ B).
Qed.
Print Assumptions C78_decrease.

(* When they go through.  Outside the exceptions (a grant of the generic kind between
   the two, a grant at its very last instant) approve of a positive amount always
   succeeds; increase exactly if the sum fits in 256 bits; decrease exactly if the
   allowance covers it. *)
Theorem C78_when : forall t e s caller spender x, wf s -> uint256 x -> caller <> spender -> ~ live_generic e s caller spender -> ~ last_instant e s caller spender ->
  (0 < x -> is_ok (run t e s caller (CApprove spender x)) = true) /\
  (is_ok (run t e s caller (CApprove spender 0)) = true <-> get_authorization e s spender caller = None \/ 0 < allowances e s (t_denom t) caller spender) /\
  (is_ok (run t e s caller (CIncrease spender x)) = true <-> 0 < x /\ allowances e s (t_denom t) caller spender + x <= max_uint256) /\
  (is_ok (run t e s caller (CDecrease spender x)) = true <-> 0 < x <= allowances e s (t_denom t) caller spender).
Proof.
  intros t e s caller spender x W U Hop NG NL. cbn [run]. split; [|split; [|split]].
  - intro Hx. destruct (approve_ok t e s caller spender x W U Hop NG NL (or_introl Hx)) as (s' & ->). reflexivity.
  - assert (U0 : uint256 0) by (split; [lia|unfold max_uint256; lia]). split.
    + intro E. destruct (get_authorization e s spender caller) as [q|] eqn:G; [|auto]. right.
      pose proof (allowances_nonneg e s (t_denom t) caller spender W) as P. destruct (Z.eq_dec (allowances e s (t_denom t) caller spender) 0) as [Z0|]; [|lia].
      rewrite (approve_err t e s caller spender 0 W U0) in E; [discriminate|]. right. right. right. split; [reflexivity|]. split; [rewrite G; discriminate|exact Z0].
    + intro C. destruct (approve_ok t e s caller spender 0 W U0 Hop NG NL (or_intror C)) as (s' & ->). reflexivity.
  - split.
    + intro E. destruct (Z.le_gt_cases x 0); [rewrite increase_err in E by auto; discriminate|]. split; [lia|].
      destruct (Z.le_gt_cases (allowances e s (t_denom t) caller spender + x) max_uint256); [assumption|].
      rewrite increase_err in E; [discriminate|exact W| |exact U]. right. right. right. right. lia.
    + intros [Hx M]. destruct (increase_ok t e s caller spender x W U Hop Hx NG NL M) as (s' & ->). reflexivity.
  - split.
    + intro E. destruct (decrease_allowance t e s caller spender x) as [s'| |] eqn:Q; [|discriminate|discriminate]. exact (proj1 (proj2 (decrease_effect _ _ _ _ _ _ _ W Q))).
    + intro Hx. destruct (decrease_ok t e s caller spender x W Hop Hx NL) as (s' & ->). reflexivity.
Qed.
Print Assumptions C78_when.

(* Over any run of calls by anybody to any tokens: what a spender took from an owner
   in total, plus what the grant still allows, is at most what the grant allowed at
   the beginning plus everything the owner granted meanwhile.  In particular an
   allowance is never spent twice. *)
Lemma step_limit p s d o q : wf s -> step_ok p -> o <> q ->
  limit_of (exec s p) d o q + taken d o q s [p] <= limit_of s d o q + granted d o q s [p].
Proof.
  intros W [P1 P2] Hoq. unfold exec, taken, granted, succeeds. destruct (run (p_tok p) (p_env p) s (p_caller p) (p_call p)) as [s'| |] eqn:E.
  2-3: destruct (p_call p); cbn; lia.
  cbn [is_ok]. set (t := p_tok p) in *. set (e := p_env p) in *. set (c := p_caller p) in *.
  assert (SG : s_grants s' = s_grants s -> limit_of s' d o q = limit_of s d o q) by (intro H; rewrite !limit_get, H; reflexivity).
  destruct (p_call p) as [to x|from to x|r x|r x|r x] eqn:Ec.
  - destruct (C77_transfer t e s c to x P1 W) as [_ H].
    assert (s_grants s' = s_grants s).
    { cbn [run] in E. unfold transfer in E. rewrite Z.eqb_refl in E. destruct (x <=? 0) eqn:Hx; [discriminate|]. unfold msg_send, send_coins in E.
      destruct (negb _); [discriminate|]. destruct (e_blocked _ _); [discriminate|]. destruct (_ <? _); [discriminate|]. destruct (_ <? _); [discriminate|].
      destruct (csub _ _); [|discriminate|discriminate]. cbn in E. injection E as <-. reflexivity. }
    rewrite SG by assumption. lia.
  - destruct (C77_transfer_from t e s c from to x P1 W) as [IF H]. rewrite E in IF. destruct (proj1 IF eq_refl) as (Hx & CS & C). clear IF H.
    cbn [run] in E. unfold transfer in E. replace (x <=? 0) with false in E by lia. destruct (Z.eqb_spec c from) as [Ecf|Hne].
    + destruct (msg_send_ok e s from to (t_denom t) x P1 W Hx CS) as (s1 & E1 & _ & _ & G & _). rewrite E1 in E. cbn [rbind fst snd] in E. injection E as <-.
      rewrite SG by (cbn; exact G). destruct (Z.eqb_spec from o) as [Ef|]; [|rewrite andb_false_r; cbn; lia].
      replace (c =? q) with false by lia. rewrite !andb_false_r. lia.
    + destruct C as [C|[Al RA]]; [congruence|]. destruct (authz_allowance t e s c from) as [[[[l al] exp] y]|]; [|discriminate].
      assert (Hne' : from <> c) by congruence.
      destruct (dispatch_ok t e s c from to x P1 W Hne' Hx CS RA Al) as (s1 & E1 & _ & _ & _ & _ & L1 & L2). rewrite E1 in E. cbn [rbind fst snd] in E. injection E as <-.
      change (limit_of s1 d o q + ((if true && beqb (t_denom t) d && (from =? o) && (c =? q) then x else 0) + 0) <= limit_of s d o q + 0).
      cbn [andb]. rewrite (beqb_sym (t_denom t) d). destruct (beqb d (t_denom t) && (from =? o) && (c =? q)) eqn:M.
      * apply andb_prop in M. destruct M as [M M3]. apply andb_prop in M. destruct M as [M1 M2]. apply (proj1 (beqb_spec _ _)) in M1. apply Z.eqb_eq in M2. apply Z.eqb_eq in M3. subst d o q. lia.
      * specialize (L2 d o q). rewrite (Z.eqb_sym from o), (Z.eqb_sym c q) in M. specialize (L2 M). lia.
  - destruct (approve_effect t e s c r x s' W P2 E) as (_ & _ & _ & _ & _ & _ & L1 & L2). cbn [andb]. rewrite (beqb_sym (t_denom t) d).
    destruct (beqb d (t_denom t) && (c =? o) && (r =? q)) eqn:M.
    + apply andb_prop in M. destruct M as [M M3]. apply andb_prop in M. destruct M as [M1 M2]. apply (proj1 (beqb_spec _ _)) in M1. apply Z.eqb_eq in M2. apply Z.eqb_eq in M3.
      rewrite <- M1, M2, M3 in L1. lia.
    + specialize (L2 d o q). rewrite (Z.eqb_sym c o), (Z.eqb_sym r q) in M. specialize (L2 M). lia.
  - destruct (increase_effect t e s c r x s' W P2 E) as (Hcr & Hx & _ & _ & _ & _ & _ & L1 & L2). cbn [andb]. rewrite (beqb_sym (t_denom t) d).
    destruct (beqb d (t_denom t) && (c =? o) && (r =? q)) eqn:M.
    + apply andb_prop in M. destruct M as [M M3]. apply andb_prop in M. destruct M as [M1 M2]. apply (proj1 (beqb_spec _ _)) in M1. apply Z.eqb_eq in M2. apply Z.eqb_eq in M3.
      pose proof (allow_le_limit e s (t_denom t) c r W Hcr) as AL. rewrite <- M1, M2, M3 in *. lia.
    + specialize (L2 d o q). rewrite (Z.eqb_sym c o), (Z.eqb_sym r q) in M. specialize (L2 M). lia.
  - destruct (decrease_effect t e s c r x s' W E) as (Hcr & Hx & _ & _ & _ & _ & _ & L1 & L2).
    destruct (beqb d (t_denom t) && (o =? c) && (q =? r)) eqn:M.
    + apply andb_prop in M. destruct M as [M M3]. apply andb_prop in M. destruct M as [M1 M2]. apply (proj1 (beqb_spec _ _)) in M1. apply Z.eqb_eq in M2. apply Z.eqb_eq in M3.
      pose proof (allow_le_limit e s (t_denom t) c r W Hcr) as AL. rewrite <- M1, <- M2, <- M3 in *. lia.
    + specialize (L2 d o q M). lia.
Qed.
Theorem C78_never_overspent : forall ps s d owner spender, wf s -> Forall step_ok ps -> owner <> spender ->
  limit_of (fold_left exec ps s) d owner spender + taken d owner spender s ps <= limit_of s d owner spender + granted d owner spender s ps.
Proof.
  induction ps as [|p ps IH]; intros s d o q W F Hoq; [cbn; lia|]. pose proof (step_limit p s d o q W (Forall_inv F) Hoq) as S1.
  pose proof (C77_run_supply [p] s W (Forall_cons p (Forall_inv F) (Forall_nil _))) as [W1 _]. cbn [fold_left] in W1.
  specialize (IH (exec s p) d o q W1 (Forall_inv_tail F) Hoq). cbn [taken granted] in *. cbn [fold_left]. lia.
Qed.
Print Assumptions C78_never_overspent.

(* without any earlier grant: what was taken is at most what was granted *)
Theorem C78_taken_le_granted : forall ps s d owner spender, wf s -> Forall step_ok ps -> owner <> spender ->
  pget (s_grants s) (spender, owner) = None -> taken d owner spender s ps <= granted d owner spender s ps.
Proof.
  intros ps s d o q W F Hoq N. pose proof (C78_never_overspent ps s d o q W F Hoq) as H. pose proof (C77_run_supply ps s W F) as [W1 _].
  pose proof (limit_nonneg (fold_left exec ps s) d o q W1) as P. assert (limit_of s d o q = 0) by (rewrite limit_get, N; reflexivity). lia.
Qed.
Print Assumptions C78_taken_le_granted.

(* A first approval is good for a year. *)
Theorem C78_first_year : forall t e s caller spender x s', wf s -> uint256 x -> pget (s_grants s) (spender, caller) = None ->
  run t e s caller (CApprove spender x) = Ok s' ->
  forall e', e_now e <= e_now e' <= e_now e + year -> allowances e' s' (t_denom t) caller spender = x.
Proof.
  intros t e s o p x s' W [U0 U1] N E e' T. cbn [run] in E. unfold approve in E. destruct (Z.eqb_spec p o) as [|Hop]; [discriminate|].
  assert (G : get_authorization e s p o = None) by (rewrite get_auth, N; reflexivity). rewrite G in E. replace (x <? 0) with false in E by lia.
  destruct (Z.ltb_spec 0 x).
  - unfold create_authorization in E. replace (max_uint256 <? x) with false in E by lia.
    replace (limit_ok [(t_denom t, x)]) with true in E by (unfold limit_ok; cbn; destruct (Z.ltb_spec 0 x); [reflexivity|lia]). cbn [negb] in E.
    rewrite save_grant_spec in E. unfold fresh in E.
    replace (e_now e <? e_now e + year) with true in E by (unfold year; lia). cbn [rbind] in E. injection E as <-.
    rewrite allowances_get. replace (o =? p) with false by lia. cbn [add_log set_grants s_grants pset pget]. rewrite keq_refl. unfold allow_of, live. cbn [g_auth g_exp amt].
    rewrite beqb_refl. replace (e_now e + year <? e_now e') with false by lia. reflexivity.
  - cbn [rbind] in E. injection E as <-. rewrite allowances_get. replace (o =? p) with false by lia. cbn [add_log s_grants]. rewrite N. cbn. lia.
Qed.
Print Assumptions C78_first_year.

(* ---- concrete cases and exceptions ---- *)
Example C78_ex : let s := start in
  let ps := [mk_step (env0 10) gold 2 (CTransferFrom 1 3 5); mk_step (env0 10) gold 1 (CIncrease 2 4); mk_step (env0 10) gold 2 (CTransferFrom 1 3 25);
             mk_step (env0 10) gold 2 (CTransferFrom 1 3 19); mk_step (env0 11) iron 1 (CApprove 2 6); mk_step (env0 12) iron 2 (CTransferFrom 1 2 2)] in
  Forall step_ok ps /\ taken [103]%N 1 2 s ps = 24 /\ granted [103]%N 1 2 s ps = 4 /\ limit_of s [103]%N 1 2 = 20 /\ limit_of (fold_left exec ps s) [103]%N 1 2 = 0 /\
  limit_of (fold_left exec ps s) [105]%N 1 2 = 4.
Proof.
  cbv zeta. split; [|vm_compute; repeat split; reflexivity].
  repeat constructor; try (apply env0_ok); vm_compute; intro; discriminate.
Qed.
Example C78_when_ex : ~ live_generic (env0 10) start 1 2 /\ ~ last_instant (env0 10) start 1 2 /\ is_ok (run gold (env0 10) start 1 (CApprove 2 0)) = true /\
  is_ok (run gold (env0 10) start 1 (CDecrease 2 21)) = false /\ is_ok (run gold (env0 10) start 1 (CDecrease 2 20)) = true /\
  is_ok (run gold (env0 10) start 1 (CIncrease 2 (max_uint256 - 20))) = true /\ is_ok (run gold (env0 10) start 1 (CIncrease 2 (max_uint256 - 19))) = false.
Proof. split; [intros [u H]; vm_compute in H; discriminate|]. split; [intros [u H]; vm_compute in H; discriminate|]. vm_compute. repeat split; reflexivity. Qed.
Example C78_first_year_ex : pget (s_grants start) (3, 1) = None /\ is_ok (run gold (env0 10) start 1 (CApprove 3 9)) = true.
Proof. vm_compute. auto. Qed.

(* Setting an allowance to zero fails when the grant covers other tokens only,
   although ERC-20 lets an owner approve zero at any time. *)
Theorem C78_approve_zero_refuted :
  ~ (forall t e s caller spender, wf s -> caller <> spender -> ~ live_generic e s caller spender -> ~ last_instant e s caller spender ->
       is_ok (run t e s caller (CApprove spender 0)) = true).
Proof.
  intro H. specialize (H iron (env0 10) start 1 2 start_wf ltac:(lia)).
  assert (is_ok (run iron (env0 10) start 1 (CApprove 2 0)) = true) as X by (apply H; intros [u G]; vm_compute in G; discriminate). vm_compute in X. discriminate.
Qed.
Print Assumptions C78_approve_zero_refuted.

(* A later approval does not get its own year: it inherits the expiration of the grant
   that is already there, even if that one was made for another token. *)
Theorem C78_every_year_refuted :
  ~ (forall t e s caller spender x s', wf s -> uint256 x -> run t e s caller (CApprove spender x) = Ok s' ->
       forall e', e_now e <= e_now e' <= e_now e + year -> allowances e' s' (t_denom t) caller spender = x).
Proof.
  intro H. destruct (run iron (env0 499) start 1 (CApprove 2 7)) as [s'| |] eqn:E; [|vm_compute in E; discriminate|vm_compute in E; discriminate].
  pose proof (H iron (env0 499) start 1 2 7 s' start_wf ltac:(split; [lia|unfold max_uint256; lia]) E (env0 501) ltac:(cbn; unfold year; lia)) as X.
  vm_compute in E. injection E as <-. vm_compute in X. discriminate.
Qed.
Print Assumptions C78_every_year_refuted.

(* The Approval event of approve does not name the owner: it names the contract. *)
Theorem C78_event_owner_refuted :
  ~ (forall t e s caller spender x s', wf s -> uint256 x -> run t e s caller (CApprove spender x) = Ok s' ->
       In (t_addr t, Approval caller spender x) (s_logs s')).
Proof.
  intro H. destruct (run gold (env0 10) start 1 (CApprove 2 7)) as [s'| |] eqn:E; [|vm_compute in E; discriminate|vm_compute in E; discriminate].
  pose proof (H gold (env0 10) start 1 2 7 s' start_wf ltac:(split; [lia|unfold max_uint256; lia]) E) as X.
  vm_compute in E. injection E as <-. vm_compute in X. destruct X as [X|[]]. inversion X.
Qed.
Print Assumptions C78_event_owner_refuted.

(* At the last instant of a grant its allowance is shown, but it can no longer be
   changed; a grant of the generic kind blocks approve altogether. *)
Theorem C78_always_changeable_refuted :
  ~ (forall t e s caller spender x, wf s -> uint256 x -> 0 < x -> caller <> spender -> is_ok (run t e s caller (CApprove spender x)) = true).
Proof.
  intro H. specialize (H gold (env0 500) start 1 2 7 start_wf ltac:(split; [lia|unfold max_uint256; lia]) ltac:(lia) ltac:(lia)). vm_compute in H. discriminate.
Qed.
Print Assumptions C78_always_changeable_refuted.

(* A list of receivers in an earlier grant survives a new approval: the approved
   amount cannot be sent to others. *)
Theorem C78_receivers_kept_refuted :
  ~ (forall t e s owner spender x s' to, env_ok e -> wf s -> uint256 x -> 0 < x -> run t e s owner (CApprove spender x) = Ok s' ->
       can_send e s' (t_denom t) owner to x -> is_ok (run t e s' spender (CTransferFrom owner to x)) = true).
Proof.
  intro H. set (s := mk_st (s_bank start) [((2, 1), mk_grant (Send [([103]%N, 20)] [4]) None)] []).
  assert (W : wf s) by (split; [apply start_wf|split; [apply start_wf|repeat constructor; try apply cvalidb_spec; reflexivity]]).
  destruct (run gold (env0 10) s 1 (CApprove 2 7)) as [s'| |] eqn:E; [|vm_compute in E; discriminate|vm_compute in E; discriminate].
  assert (C : can_send (env0 10) s' (t_denom gold) 1 3 7) by (vm_compute in E; injection E as <-; unfold can_send; vm_compute; repeat split; discriminate).
  pose proof (H gold (env0 10) s 1 2 7 s' 3 (env0_ok 10) W ltac:(split; [lia|unfold max_uint256; lia]) ltac:(lia) E C) as X.
  vm_compute in E. injection E as <-. vm_compute in X. discriminate.
Qed.
Print Assumptions C78_receivers_kept_refuted.
