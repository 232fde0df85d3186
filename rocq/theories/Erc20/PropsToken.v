(* C77: transfers through a coin's ERC-20 face. *)
From Verif Require Import Lib.Base Lib.Bytes Lib.Coins Lib.Zmap Erc20.Model Erc20.Spec Erc20.Proofs.
Open Scope Z_scope.

(* transfer succeeds exactly if the amount is positive and the bank lets it through;
   it moves that amount and changes nothing else: no other balance of any
   denomination, no allowance, no supply; it leaves one Transfer event. *)
Theorem C77_transfer : forall t e s caller to x, env_ok e -> wf s ->
  (is_ok (run t e s caller (CTransfer to x)) = true <-> 0 < x /\ can_send e s (t_denom t) caller to x) /\
  (forall s', run t e s caller (CTransfer to x) = Ok s' ->
     wf s' /\ moved (t_denom t) caller to x s s' /\ (forall e', same_allowances e' s s') /\
     (forall d, total_supply s' d = total_supply s d) /\
     s_logs s' = s_logs s ++ [(t_addr t, Transfer caller to x)]).
Proof.
  intros t e s caller to x Ee W. cbn [run]. unfold transfer. rewrite Z.eqb_refl.
  assert (D : can_send e s (t_denom t) caller to x \/ ~ can_send e s (t_denom t) caller to x).
  { unfold can_send. destruct (e_send_enabled e (t_denom t)); [|right; intros [X _]; discriminate]. destruct (e_blocked e to); [right; intros (_ & X & _); discriminate|].
    destruct (Z.le_gt_cases (e_locked e caller (t_denom t) + x) (balance_of s (t_denom t) caller)); [left; auto|right; lia]. }
  destruct (Z.leb_spec x 0) as [L|L].
  - split; [|discriminate]. split; [discriminate|lia].
  - destruct D as [CS|CS].
    + destruct (msg_send_ok e s caller to (t_denom t) x Ee W L CS) as (s1 & -> & W1 & M & G & Lg & T). cbn [rbind fst]. split; [split; [auto|reflexivity]|].
      intros s' E. injection E as <-. split; [exact W1|]. split; [exact M|]. split; [intros e' d o p; rewrite !allowances_get; cbn; rewrite G; reflexivity|].
      split; [exact T|]. cbn. rewrite Lg. reflexivity.
    + rewrite (msg_send_err _ _ _ _ _ _ CS). split; [|discriminate]. split; [discriminate|tauto].
Qed.
Print Assumptions C77_transfer.

(* transferFrom by somebody else needs, in addition, an allowance that covers the
   amount (and, if the grant names receivers, a named one); it uses up exactly that
   much of the allowance.  By the owner it is a transfer. *)
Theorem C77_transfer_from : forall t e s caller from to x, env_ok e -> wf s ->
  (is_ok (run t e s caller (CTransferFrom from to x)) = true <->
     0 < x /\ can_send e s (t_denom t) from to x /\
     (caller = from \/ (x <= allowances e s (t_denom t) from caller /\ receiver_allowed s from caller to))) /\
  (forall s', run t e s caller (CTransferFrom from to x) = Ok s' ->
     wf s' /\ moved (t_denom t) from to x s s' /\
     (if caller =? from then forall e', same_allowances e' s s'
      else allowance_becomes e (t_denom t) from caller (allowances e s (t_denom t) from caller - x) s s' /\
           others_same e (t_denom t) from caller s s') /\
     (forall d, total_supply s' d = total_supply s d) /\
     s_logs s' = s_logs s ++ [(t_addr t, Transfer from to x);
       (t_addr t, Approval from caller (if caller =? from then max_uint256 else allowances e s' (t_denom t) from caller))]).
Proof.
  intros t e s caller from to x Ee W. cbn [run]. unfold transfer.
  assert (D : can_send e s (t_denom t) from to x \/ ~ can_send e s (t_denom t) from to x).
  { unfold can_send. destruct (e_send_enabled e (t_denom t)); [|right; intros [X _]; discriminate]. destruct (e_blocked e to); [right; intros (_ & X & _); discriminate|].
    destruct (Z.le_gt_cases (e_locked e from (t_denom t) + x) (balance_of s (t_denom t) from)); [left; auto|right; lia]. }
  destruct (Z.leb_spec x 0) as [L|L].
  { split; [|discriminate]. split; [discriminate|lia]. }
  destruct (Z.eqb_spec caller from) as [->|Hop].
  - destruct D as [CS|CS].
    + destruct (msg_send_ok e s from to (t_denom t) x Ee W L CS) as (s1 & -> & W1 & M & G & Lg & T). cbn [rbind fst snd]. split; [split; [auto|reflexivity]|].
      intros s' E. injection E as <-. split; [exact W1|]. split; [exact M|]. split; [intros e' d o p; rewrite !allowances_get; cbn; rewrite G; reflexivity|].
      split; [exact T|]. cbn. rewrite Lg, <- app_assoc. reflexivity.
    + rewrite (msg_send_err _ _ _ _ _ _ CS). split; [|discriminate]. split; [discriminate|tauto].
  - assert (Hop' : from <> caller) by congruence.
    assert (D2 : receiver_allowed s from caller to \/ ~ receiver_allowed s from caller to).
    { unfold receiver_allowed. destruct (pget (s_grants s) (caller, from)) as [[[l a|] u]|]; auto. destruct a as [|y a]; [auto|].
      destruct (in_dec Z.eq_dec to (y :: a)); [auto|right; intros [X|X]; [discriminate|contradiction]]. }
    destruct (authz_allowance t e s caller from) as [[[[l al] exp] y]|] eqn:AA.
    + assert (Y : y = allowances e s (t_denom t) from caller).
      { unfold authz_allowance in AA. destruct (get_authorization e s caller from) as [[[l' a'|] u']|] eqn:G; try discriminate. injection AA as <- <- <- <-.
        symmetry. exact (get_allow _ _ _ _ _ _ _ _ Hop' G). }
      assert (D3 : (can_send e s (t_denom t) from to x /\ receiver_allowed s from caller to /\ x <= allowances e s (t_denom t) from caller) \/
                   ~ (can_send e s (t_denom t) from to x /\ receiver_allowed s from caller to /\ x <= allowances e s (t_denom t) from caller)).
      { destruct D; [|tauto]. destruct D2; [|tauto]. destruct (Z.le_gt_cases x (allowances e s (t_denom t) from caller)); [tauto|right; lia]. }
      destruct D3 as [(CS & RA & Al)|ND].
      * destruct (dispatch_ok t e s caller from to x Ee W Hop' L CS RA Al) as (s1 & -> & (W1 & M & T) & Lg & A1 & A2 & _). cbn [rbind fst snd].
        split; [split; [intros _; split; [exact L|split; [exact CS|right; auto]]|reflexivity]|].
        intros s' E. injection E as <-. split; [exact W1|]. split; [exact M|]. split; [split; [exact A1|exact A2]|]. split; [exact T|].
        cbn. rewrite Lg, <- app_assoc. cbn [app]. 
        assert (Q : allowances e (add_log t (add_log t s1 (Transfer from to x)) (Approval from caller (y - x))) (t_denom t) from caller = y - x).
        { change (allowances e s1 (t_denom t) from caller = y - x). rewrite (A1 (t_denom t) from caller), beqb_refl, !Z.eqb_refl. cbn [andb]. lia. }
        rewrite Q. reflexivity.
      * pose proof (dispatch_err t e s caller from to x W Hop' L ND ltac:(rewrite AA; discriminate)) as R.
        destruct (dispatch e s caller from to (t_denom t) x); [discriminate| |].
        -- split; [|discriminate]. split; [discriminate|]. intros (_ & A & [B|[B1 B2]]); [congruence|tauto].
        -- split; [|discriminate]. split; [discriminate|]. intros (_ & A & [B|[B1 B2]]); [congruence|tauto].
    + split; [|discriminate]. split; [discriminate|]. intros (_ & _ & [B|[B1 _]]); [congruence|]. exfalso.
      unfold authz_allowance in AA. destruct (get_authorization e s caller from) as [[[l a|] u]|] eqn:G; try discriminate.
      * destruct (get_some _ _ _ _ _ _ G) as [G1 G2]. rewrite allowances_get, G1 in B1. replace (from =? caller) with false in B1 by lia. cbn in B1. lia.
      * rewrite (get_allow_none _ _ _ _ _ Hop' G) in B1. lia.
Qed.
Print Assumptions C77_transfer_from.

(* Whatever is called, with whatever arguments, no denomination's supply changes. *)
Theorem C77_supply : forall t e s caller c s', env_ok e -> wf s -> call_ok c -> run t e s caller c = Ok s' ->
  wf s' /\ forall d, total_supply s' d = total_supply s d.
Proof.
  intros t e s caller c s' Ee W U E. destruct c as [to x|from to x|p x|p x|p x].
  - destruct (C77_transfer t e s caller to x Ee W) as [_ H]. destruct (H s' E) as (A & _ & _ & B & _). auto.
  - destruct (C77_transfer_from t e s caller from to x Ee W) as [_ H]. destruct (H s' E) as (A & _ & _ & B & _). auto.
  - destruct (approve_effect t e s caller p x s' W U E) as (_ & A & B & _). split; [exact A|]. intro d. unfold total_supply. rewrite B. reflexivity.
  - destruct (increase_effect t e s caller p x s' W U E) as (_ & _ & A & B & _). split; [exact A|]. intro d. unfold total_supply. rewrite B. reflexivity.
  - destruct (decrease_effect t e s caller p x s' W E) as (_ & _ & A & B & _). split; [exact A|]. intro d. unfold total_supply. rewrite B. reflexivity.
Qed.
Print Assumptions C77_supply.

(* Nobody loses coins without consent: if a call lowers a's balance of some
   denomination, the call goes to that denomination's contract and its caller is a,
   or somebody to whom a had allowed at least the difference. *)
Theorem C77_consent : forall t e s caller c s' d a, env_ok e -> wf s -> call_ok c -> run t e s caller c = Ok s' ->
  balance_of s' d a < balance_of s d a ->
  d = t_denom t /\ (caller = a \/ balance_of s d a - balance_of s' d a <= allowances e s d a caller).
Proof.
  intros t e s caller c s' d a Ee W U E Lt.
  assert (SB : s_bank s' = s_bank s -> False) by (intro H; unfold balance_of, coins_of in Lt; rewrite H in Lt; lia).
  assert (MV : forall from to x, 0 < x -> moved (t_denom t) from to x s s' -> d = t_denom t /\ a = from /\ balance_of s d a - balance_of s' d a <= x).
  { intros from to x Hx M. rewrite (M d a) in *. destruct (beqb d (t_denom t)) eqn:D; [|lia]. apply (proj1 (beqb_spec _ _)) in D. split; [exact D|].
    destruct (Z.eqb_spec a from); [|destruct (a =? to); lia]. split; [assumption|]. destruct (a =? to); lia. }
  destruct c as [to x|from to x|p x|p x|p x].
  - destruct (C77_transfer t e s caller to x Ee W) as [I H]. rewrite E in I. destruct (proj1 I eq_refl) as [Hx _]. destruct (H s' E) as (_ & M & _).
    destruct (MV _ _ _ Hx M) as (A & B & _). split; [exact A|]. left. congruence.
  - destruct (C77_transfer_from t e s caller from to x Ee W) as [I H]. rewrite E in I. destruct (proj1 I eq_refl) as (Hx & _ & C). destruct (H s' E) as (_ & M & _).
    destruct (MV _ _ _ Hx M) as (A & B & Q). split; [exact A|]. subst d from. destruct C as [C|[C _]]; [left; exact C|right; lia].
  - destruct (approve_effect t e s caller p x s' W U E) as (_ & _ & B & _). destruct (SB B).
  - destruct (increase_effect t e s caller p x s' W U E) as (_ & _ & _ & B & _). destruct (SB B).
  - destruct (decrease_effect t e s caller p x s' W E) as (_ & _ & _ & B & _). destruct (SB B).
Qed.
Print Assumptions C77_consent.

(* A failing call leaves nothing: the EVM takes its state back; over any run of calls
   by anybody to any contracts, supplies never change. *)
Theorem C77_run_supply : forall ps s, wf s -> Forall step_ok ps ->
  wf (fold_left exec ps s) /\ forall d, total_supply (fold_left exec ps s) d = total_supply s d.
Proof.
  induction ps as [|p ps IH]; intros s W F; [cbn; auto|]. cbn [fold_left]. pose proof (Forall_inv F) as [P1 P2].
  assert (Q : wf (exec s p) /\ forall d, total_supply (exec s p) d = total_supply s d).
  { unfold exec. destruct (run (p_tok p) (p_env p) s (p_caller p) (p_call p)) as [s'| |] eqn:E; [|auto|auto]. exact (C77_supply _ _ _ _ _ _ P1 W P2 E). }
  destruct Q as [Q1 Q2]. destruct (IH _ Q1 (Forall_inv_tail F)) as [R1 R2]. split; [exact R1|]. intro d. rewrite R2. apply Q2.
Qed.
Print Assumptions C77_run_supply.

(* The wrapped native coin: deposit and withdraw change no balance at all; deposit
   goes through whenever the caller can pay the value. *)
Theorem C77_wrapped : forall t e s caller x, env_ok e -> wf s -> 0 <= x ->
  (forall s', deposit t e s caller x = Ok s' -> wf s' /\ same_balances s s' /\ s_grants s' = s_grants s /\ s_logs s' = s_logs s ++ [(t_addr t, Deposit caller x)]) /\
  (forall s', withdraw t s caller x = Ok s' -> wf s' /\ same_balances s s' /\ s_grants s' = s_grants s /\ s_logs s' = s_logs s ++ [(t_addr t, Withdrawal caller x)]) /\
  (e_locked e (t_addr t) (t_denom t) = 0 -> x <= balance_of s (t_denom t) caller -> is_ok (deposit t e s caller x) = true) /\
  (is_ok (withdraw t s caller x) = true <-> x <= balance_of s (t_denom t) caller).
Proof.
  intros t e s caller x Ee W Hx. split; [|split; [|split]].
  - intros s' E. unfold deposit, evm_move in E. destruct (Z.ltb_spec (balance_of s (t_denom t) caller) x); [discriminate|]. destruct (Z.eqb_spec x 0) as [->|Nx].
    + cbn [rbind] in E. injection E as <-. split; [exact W|]. split; [intros d a; reflexivity|]. split; reflexivity.
    + destruct (move_spec s caller (t_addr t) (t_denom t) x W ltac:(lia) ltac:(lia)) as (b & Eb & W1 & M1 & G1 & L1 & T1). rewrite Eb in E. cbn [rbind] in E.
      set (s1 := set_coins (set_coins s caller b) (t_addr t) (cadd (coins_of (set_coins s caller b) (t_addr t)) [(t_denom t, x)])) in *.
      destruct (Z.le_gt_cases (e_locked e (t_addr t) (t_denom t) + x) (balance_of s1 (t_denom t) (t_addr t))) as [Lk|Lk].
      * destruct (send_coins_ok e s1 (t_addr t) caller (t_denom t) x W1 ltac:(lia) (Ee _ _) Lk) as (s2 & E2 & W2 & M2 & G2 & L2 & _). rewrite E2 in E. cbn [rbind] in E. injection E as <-.
        split; [exact W2|]. split; [|split; [cbn; congruence|cbn; rewrite L2, L1; reflexivity]].
        intros d a. change (balance_of s2 d a = balance_of s d a). rewrite (M2 d a), (M1 d a). destruct (beqb d (t_denom t)); lia.
      * rewrite (send_coins_err _ _ _ _ _ _ Lk) in E. discriminate.
  - intros s' E. unfold withdraw in E. destruct (_ <? _); [discriminate|]. injection E as <-. split; [exact W|]. split; [intros d a; reflexivity|]. split; reflexivity.
  - intros Lk B. unfold deposit, evm_move. replace (balance_of s (t_denom t) caller <? x) with false by lia. destruct (Z.eqb_spec x 0) as [->|Nx]; [reflexivity|].
    destruct (move_spec s caller (t_addr t) (t_denom t) x W ltac:(lia) ltac:(lia)) as (b & Eb & W1 & M1 & G1 & L1 & T1). rewrite Eb. cbn [rbind].
    set (s1 := set_coins (set_coins s caller b) (t_addr t) (cadd (coins_of (set_coins s caller b) (t_addr t)) [(t_denom t, x)])) in *.
    destruct (send_coins_ok e s1 (t_addr t) caller (t_denom t) x W1 ltac:(lia) (Ee _ _)) as (s2 & E2 & _).
    { rewrite Lk, (M1 (t_denom t) (t_addr t)), beqb_refl, Z.eqb_refl. pose proof (valid_nonneg _ (t_denom t) (coins_of_valid s (t_addr t) W)) as P. unfold balance_of in *.
      destruct (Z.eqb_spec (t_addr t) caller) as [Eq|]; [rewrite Eq in *; lia|lia]. }
    rewrite E2. reflexivity.
  - unfold withdraw. destruct (Z.ltb_spec (balance_of s (t_denom t) caller) x); cbn [is_ok]; split; try discriminate; try reflexivity; lia.
Qed.
Print Assumptions C77_wrapped.

(* ---- a concrete case ---- *)
Definition gold : token := mk_token [103]%N 1000.
Definition iron : token := mk_token [105]%N 1001.
Definition env0 (now : Z) : env := mk_env now (fun a d => if (a =? 1) && beqb d [103]%N then 5 else 0) (fun _ => true) (fun a => a =? 99).
Definition start : st := mk_st [(1, [([103]%N, 50); ([105]%N, 7)]); (2, [([103]%N, 3)])] [((2, 1), mk_grant (Send [([103]%N, 20)] []) (Some 500))] [].
Lemma start_wf : wf start.
Proof.
  split; [cbn; repeat constructor|]. split; repeat constructor; try apply cvalidb_spec; try reflexivity.
Qed.
Lemma env0_ok n : env_ok (env0 n).
Proof. intros a d. cbn. destruct (_ && _); lia. Qed.
Example C77_ex : wf start /\ env_ok (env0 10) /\
  can_send (env0 10) start (t_denom gold) 1 3 20 /\ receiver_allowed start 1 2 3 /\
  match run gold (env0 10) start 2 (CTransferFrom 1 3 20) with
  | Ok s' => map (balance_of s' [103]%N) [1; 2; 3] = [30; 3; 20] /\ allowances (env0 10) s' [103]%N 1 2 = 0 /\ s_grants s' = [] /\
             is_ok (run gold (env0 10) s' 2 (CTransferFrom 1 3 1)) = false
  | _ => False
  end /\
  (* five units are locked *)
  is_ok (run gold (env0 10) start 1 (CTransfer 3 46)) = false /\ is_ok (run gold (env0 10) start 1 (CTransfer 3 45)) = true /\
  (* a blocked receiver, an expired grant *)
  is_ok (run gold (env0 10) start 1 (CTransfer 99 1)) = false /\ is_ok (run gold (env0 501) start 2 (CTransferFrom 1 3 1)) = false.
Proof. split; [exact start_wf|]. split; [exact (env0_ok 10)|]. split; [unfold can_send; vm_compute; repeat split; discriminate|]. split; [left; reflexivity|]. vm_compute. repeat split; reflexivity. Qed.
Example C77_wrapped_ex : is_ok (deposit iron (env0 10) start 1 7) = true /\ is_ok (deposit iron (env0 10) start 1 8) = false.
Proof. vm_compute. auto. Qed.

(* ERC-20 asks that a transfer of zero succeeds like any other.  Here it fails, for
   everybody and in every state. *)
Theorem C77_zero_transfer_refuted :
  ~ (forall t e s caller to, env_ok e -> wf s -> can_send e s (t_denom t) caller to 0 -> is_ok (run t e s caller (CTransfer to 0)) = true).
Proof.
  intro H. specialize (H gold (env0 10) start 1 3 (env0_ok 10) start_wf). assert (C : can_send (env0 10) start (t_denom gold) 1 3 0) by (unfold can_send; vm_compute; repeat split; discriminate).
  specialize (H C). vm_compute in H. discriminate.
Qed.
Print Assumptions C77_zero_transfer_refuted.
