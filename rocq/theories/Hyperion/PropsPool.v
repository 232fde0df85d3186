(* C31-C34, C43 and C56: the outgoing transfer pool. *)
From Verif Require Import Lib.Base Lib.Bytes Hyperion.Pool Hyperion.PoolSpec Hyperion.PoolProofs.
From Coq Require Import String Sorting.Sorted Permutation.
Open Scope list_scope.
Open Scope Z_scope.

(* ---- reachable states ------------------------------------------------------ *)

Lemma start_full s : start s -> full s.
Proof.
  intros [(P & X & B) N]. split.
  - constructor; rewrite ?P, ?B; try contradiction. rewrite X. constructor; try contradiction.
    + reflexivity.
    + constructor.
    + constructor.
    + intros k [].
    + constructor.
  - split; [exact N|]. unfold fees_pending. rewrite P. apply N.
Qed.

Lemma reached_full s : reached s -> full s.
Proof.
  intros (s0 & l & S & O & R). apply (run_full l s0 s (start_full _ S) R O).
Qed.

(* ---- a concrete bridge --------------------------------------------------------- *)

Definition B (s : string) : bytes := ascii_bytes s.
Definition usdt := B "0xusdt".       (* a token of the other chain *)
Definition hls := B "0xhls".         (* this chain's coin over there *)
Definition alice := B "alice".
Definition bob := B "bob".
Definition orch := B "orch".
Definition dust := B "dust".

Definition reg0 : Z -> bytes -> option (bytes * bool) := fun h t =>
  if h =? 1 then if beqb t usdt then Some (B "husdt", false)
                 else if beqb t hls then Some (ahelios, true) else None
  else None.

Definition by_denom0 (h : Z) (d : bytes) : option (bytes * bool) :=
  if h =? 1 then if beqb d (B "husdt") then Some (usdt, false)
                 else if beqb d ahelios then Some (hls, true) else None
  else None.

Definition env0 (eth : Z) : env :=
  mk_env 10 by_denom0 reg0 (fun _ t => if beqb t (B "0xnew") then Some (B "hnew", true) else None)
         (fun _ => eth) (fun _ => 100) (fun _ => 50)
         (fun _ => false) (fun _ => Some 1) (fun a => beqb a dust) (fun _ => false).

Definition genesis_bank : bytes -> bytes -> Z := fun a d =>
  if beqb a alice then if beqb d ahelios then 1000 else if beqb d (B "husdt") then 500 else 0
  else if beqb a bob then if beqb d ahelios then 1000 else 0
  else if beqb a dust then if beqb d ahelios then 100 else 0
  else 0.

Definition s0 : st :=
  mk_st [] [] [] 0 (fun _ => 0) genesis_bank
        (fun d => if beqb d ahelios then 2100 else if beqb d (B "husdt") then 500 else 0) (fun _ _ => 0).

Definition E (c : step) : env * step := (env0 1000, c).
Definition a_send (x f : Z) := E (Send 1 alice (B "0xdest") (B "husdt") x ahelios f).
Definition a_home (x f : Z) := E (Send 1 alice (B "0xdest") ahelios x ahelios f).
Definition b_home (x f : Z) := E (Send 1 bob (B "0xdest") ahelios x ahelios f).

Lemma s0_start : start s0.
Proof.
  split; [repeat split|]. intros a d. cbn [p_bal s0]. unfold genesis_bank.
  repeat match goal with |- context [if ?c then _ else _] => destruct c end; lia.
Qed.

Definition get (r : res st) : st := match r with Ok s => s | _ => s0 end.

(* Four transfers, two of them in a batch. *)
Definition hist1 := [a_send 100 7; a_home 50 3; b_home 60 9; E (RequestBatch 1 ahelios); a_send 20 5].
Definition s1 := get (run s0 hist1).

Lemma ordinary_hist1 : ordinary hist1.
Proof. repeat constructor; try reflexivity; cbn; intros X; apply (f_equal (fun l => nth 0 l 0%N)) in X; vm_compute in X; discriminate X. Qed.

Lemma s1_run : run s0 hist1 = Ok s1.
Proof.
  assert (H : match run s0 hist1 with Ok _ => true | _ => false end = true) by (vm_compute; reflexivity).
  unfold s1. destruct (run s0 hist1); [reflexivity|discriminate H|discriminate H].
Qed.

Lemma s1_reached : reached s1.
Proof. exists s0, hist1. split; [exact s0_start|]. split; [exact ordinary_hist1|exact s1_run]. Qed.

(* ---- C32 --------------------------------------------------------------------------- *)

(* Every pending transfer is listed exactly once as waiting or is in exactly one batch,
   under its own bridge, token and fee; nothing else is listed. *)
Theorem C32_exactly_one_place : forall s, reached s -> well_placed s.
Proof. intros s R. apply inv_well_placed. apply (reached_full _ R). Qed.

Example C32_exactly_one_place_ex :
  reached s1 /\ map (fun i => (times_waiting s1 1 i, times_batched s1 1 i)) [1; 2; 3; 4; 5]
                = [(1, 0); (0, 1); (0, 1); (1, 0); (0, 0)]%nat
  /\ map t_id (p_pool s1) = [4; 3; 2; 1].
Proof. split; [exact s1_reached|]. vm_compute. split; reflexivity. Qed.

(* A cancellation succeeds only for a transfer that waits and is in no batch, only for its
   sender, and takes out this transfer and nothing else. *)
Theorem C32_cancel_only_unbatched : forall e s h i a s', reached s -> exec e s (CancelSend h i a) = Ok s' ->
  times_waiting s h i = 1%nat /\ times_batched s h i = 0%nat
  /\ (exists t, pending s h i t /\ t_sender t = a)
  /\ p_batches s' = p_batches s
  /\ forall t, In t (p_pool s') <-> In t (p_pool s) /\ ~ (t_h t = h /\ t_id t = i).
Proof.
  intros e s h i a s' R X. cbn [exec] in X. destruct (reached_full _ R) as [I [N _]].
  destruct (cancel_send_spec _ _ _ _ _ _ I N X) as (t & P & K & SA & W & T & _).
  pose proof K as KK. unfold tkey in KK. apply pair_equal_spec in KK. destruct KK as [KH KI].
  pose proof (inv_well_placed _ I) as WP.
  assert (PT : pending s h i t) by (split; [exact P|split; assumption]).
  assert (0 < times_waiting s h i)%nat.
  { pose proof (waiting_count s h i). pose proof (iget_some _ _ _ W) as [ids [A C]].
    assert (Q : 0 < cz (h, i) (ikeys (p_index s))).
    { apply cz_in. unfold ikeys. apply in_flat_map. eexists. split; [exact A|]. cbn [fst snd]. unfold tag.
      apply in_map_iff. exists i. split; [cbn [fh fst]; congruence|exact C]. }
    lia. }
  pose proof (wp_once _ WP _ _ _ PT). split; [lia|]. split; [lia|]. split; [exists t; split; [exact PT|congruence]|].
  destruct T as (T1 & _ & T3 & _). split; [exact T3|]. intros u. rewrite T1, without_in. unfold tkey.
  rewrite KH, KI. split; intros [A C]; split; try exact A; intros D; apply C.
  - apply pair_equal_spec. exact D.
  - apply pair_equal_spec in D. exact D.
Qed.

Example C32_cancel_only_unbatched_ex :
  is_ok (exec (env0 1000) s1 (CancelSend 1 1 alice)) = true
  /\ exec (env0 1000) s1 (CancelSend 1 2 alice) = Err      (* in a batch *)
  /\ exec (env0 1000) s1 (CancelSend 1 1 bob) = Err        (* not theirs *)
  /\ exec (env0 1000) s1 (CancelSend 1 9 alice) = Err.
Proof. vm_compute. repeat split. Qed.

(* The lookups that would dereference a missing pool entry never do. *)
Theorem C32_no_missing_entry : forall e s c, reached s -> user_step c -> resets c = false ->
  exec e s c = Panic -> exists h n t o, c = Withdraw h n t o /\ e_blocked e o = true.
Proof.
  intros e s c R U Z X. pose proof (exec_full e s c (reached_full _ R) U Z) as Y. rewrite X in Y. exact Y.
Qed.

Example C32_no_missing_entry_ex :
  is_ok (exec (env0 5000) s1 (CleanAll 1)) = true /\ is_ok (exec (env0 5000) s1 (TimeoutTxs 1)) = true.
Proof. vm_compute. split; reflexivity. Qed.

(* Deleting a chain drops its batches but keeps their transfers: they stay pending,
   waiting nowhere and in no batch, and can be neither cancelled nor timed out. *)
Theorem C32_deleted_chain_limbo_refuted : exists s s' t,
  reached s /\ exec (env0 1000) s (DeleteChain 1) = Ok s' /\ pending s' 1 2 t
  /\ times_waiting s' 1 2 = 0%nat /\ times_batched s' 1 2 = 0%nat
  /\ exec (env0 1000) s' (CancelSend 1 2 alice) = Err
  /\ is_ok (run s' [(env0 9000, TimeoutTxs 1); (env0 9000, TimeoutBatches 1); (env0 9000, CleanAll 1)]) = true
  /\ pending (get (run s' [(env0 9000, TimeoutTxs 1); (env0 9000, TimeoutBatches 1); (env0 9000, CleanAll 1)])) 1 2 t.
Proof.
  exists s1. set (s' := get (exec (env0 1000) s1 (DeleteChain 1))).
  exists s', (nth 1 (p_pool s') (mk_tx 0 0 [] [] [] 0 0 0)).
  split; [exact s1_reached|].
  assert (O : exec (env0 1000) s1 (DeleteChain 1) = Ok s').
  { assert (H : match exec (env0 1000) s1 (DeleteChain 1) with Ok _ => true | _ => false end = true) by (vm_compute; reflexivity).
    unfold s'. destruct (exec (env0 1000) s1 (DeleteChain 1)); [reflexivity|discriminate H|discriminate H]. }
  split; [exact O|]. split; [vm_compute; tauto|]. split; [vm_compute; reflexivity|]. split; [vm_compute; reflexivity|].
  split; [vm_compute; reflexivity|]. split; [vm_compute; reflexivity|vm_compute; tauto].
Qed.

(* Updating the bridge contract sets the batch counter to zero.  A batch requested in the
   same block, before the clean-up of EndBlock, takes the number of a pending one and
   overwrites it. *)
Theorem C32_overwritten_batch_refuted : exists s t,
  run s1 [E (UpdateContract 1); a_home 10 1; E (RequestBatch 1 ahelios)] = Ok s
  /\ pending s 1 2 t /\ times_waiting s 1 2 = 0%nat /\ times_batched s 1 2 = 0%nat
  /\ map b_nonce (p_batches s1) = [1] /\ map b_nonce (p_batches s) = [1].
Proof.
  set (l := [E (UpdateContract 1); a_home 10 1; E (RequestBatch 1 ahelios)]).
  set (s := get (run s1 l)). exists s, (nth 3 (p_pool s) (mk_tx 0 0 [] [] [] 0 0 0)).
  assert (O : run s1 l = Ok s).
  { assert (H : match run s1 l with Ok _ => true | _ => false end = true) by (vm_compute; reflexivity).
    unfold s. destruct (run s1 l); [reflexivity|discriminate H|discriminate H]. }
  split; [exact O|]. split; [vm_compute; tauto|]. repeat (split; [vm_compute; reflexivity|]). vm_compute; reflexivity.
Qed.

(* ---- C31 --------------------------------------------------------------------------- *)

(* Queueing takes exactly the amount and the fee from the sender.  The amount leaves the
   supply, the fee goes to the module account, no other balance changes, and exactly one
   transfer becomes pending, for this amount and fee. *)
Theorem C31_queueing_takes_amount_and_fee : forall e s h a dst d x fd f s' i,
  reached s -> send e s h a dst d x fd f = Ok (s', i) ->
  exists token orig, e_by_denom e h d = Some (token, orig) /\
    (forall a' d', p_bal s' a' d' = p_bal s a' d' - on a d x a' d' - on a ahelios f a' d' + on mod_acc ahelios f a' d') /\
    (forall d', p_supply s' d' = p_supply s d' - (if beqb d' d then x else 0)) /\
    (forall h' t', p_locked s' h' t' = p_locked s h' t' + (if orig && (h' =? h) && beqb t' token then x else 0)) /\
    (exists t, p_pool s' = t :: p_pool s /\ t_id t = i /\ t_h t = h /\ t_sender t = a /\ t_dest t = dst
               /\ t_token t = token /\ t_amount t = x /\ t_fee t = f) /\
    0 < x /\ 0 <= f /\ x <= p_bal s a d.
Proof.
  intros e s h a dst d x fd f s' i R X. pose proof (reached_full _ R) as [I _]. apply send_spec in X.
  destruct X as (token & orig & D & _ & _ & -> & XP & FP & XB & P & _ & _ & _ & _ & SU & LK & BA & _).
  cbn zeta in P. rewrite without_fresh in P by (apply fresh_key; [exact I|lia]).
  exists token, orig. split; [exact D|]. split; [exact BA|]. split; [exact SU|].
  split. { intros h' t'. rewrite LK. unfold atl. destruct orig; reflexivity. }
  split; [|split; [exact XP|split; [exact FP|exact XB]]].
  eexists. split; [exact P|]. cbn. repeat split.
Qed.

Example C31_queueing_takes_amount_and_fee_ex :
  match send (env0 1000) s1 1 alice (B "0xdest") ahelios 40 ahelios 6 with
  | Ok (s', i) => (i, p_bal s1 alice ahelios - p_bal s' alice ahelios, p_bal s' mod_acc ahelios - p_bal s1 mod_acc ahelios,
                   p_supply s1 ahelios - p_supply s' ahelios, p_bal s' bob ahelios - p_bal s1 bob ahelios)
                  = (5, 46, 6, 40, 0)
  | _ => False
  end.
Proof. vm_compute. reflexivity. Qed.

(* Cancelling gives the sender exactly the amount and the fee back, and nothing to anybody else. *)
Theorem C31_cancelling_returns_amount_and_fee : forall e s h i a s',
  reached s -> exec e s (CancelSend h i a) = Ok s' ->
  exists t d orig, pending s h i t /\ t_sender t = a /\ e_by_token e h (t_token t) = Some (d, orig) /\
    (forall a' d', p_bal s' a' d' = p_bal s a' d' + on a d (t_amount t) a' d' + on a ahelios (t_fee t) a' d'
                                     - on mod_acc ahelios (t_fee t) a' d') /\
    (forall d', p_supply s' d' = p_supply s d' + (if beqb d' d then t_amount t else 0)) /\
    (forall h' t', p_locked s' h' t' = p_locked s h' t'
                                     - (if orig && (h' =? h) && beqb t' (t_token t) then t_amount t else 0)).
Proof.
  intros e s h i a s' R X. cbn [exec] in X. pose proof (reached_full _ R) as [I SO].
  destruct (cancel_send_spec _ _ _ _ _ _ I (proj1 SO) X) as (t & P & K & SA & W & T & RP).
  unfold tkey in K. apply pair_equal_spec in K. destruct K as [KH KI]. inversion RP as [| | |d orig fee D L BL SU LK BA FE FL]. subst.
  pose proof (fee_covered s t I SO P) as FC. assert (fee = t_fee t) by lia. subst fee.
  exists t, d, orig. split; [split; [exact P|split; reflexivity]|]. split; [reflexivity|]. split; [exact D|].
  split; [|split; [exact SU|]].
  - intros a' d'. rewrite BA. unfold at2, on. lia.
  - intros h' t'. rewrite LK. unfold atl. destruct orig; reflexivity.
Qed.

Example C31_cancelling_returns_amount_and_fee_ex :
  match exec (env0 1000) s1 (CancelSend 1 1 alice) with
  | Ok s' => (p_bal s' alice (B "husdt") - p_bal s1 alice (B "husdt"), p_bal s' alice ahelios - p_bal s1 alice ahelios,
              p_bal s' mod_acc ahelios - p_bal s1 mod_acc ahelios, p_supply s' (B "husdt") - p_supply s1 (B "husdt"))
             = (100, 7, -7, 100)
  | _ => False
  end.
Proof. vm_compute. reflexivity. Qed.

(* Executing a batch pays the sum of its fees to the orchestrator, from the module account.
   Its transfers stop being pending and no others; this batch and the older ones of the token
   go; supply and contract balances stay. *)
Theorem C31_executing_pays_the_fees : forall e s h n token o b s',
  reached s -> In b (p_batches s) -> b_h b = h -> b_nonce b = n -> b_token b = token ->
  exec e s (Withdraw h n token o) = Ok s' ->
  (forall a d, p_bal s' a d = p_bal s a d + on o ahelios (sum_by t_fee (b_txs b)) a d
                              - on mod_acc ahelios (sum_by t_fee (b_txs b)) a d) /\
  p_supply s' = p_supply s /\ p_locked s' = p_locked s /\
  (forall t, In t (p_pool s') <-> In t (p_pool s) /\ ~ In t (b_txs b)) /\
  (forall c, In c (p_batches s') <-> In c (p_batches s) /\ ~ (b_h c = h /\ b_token c = token /\ b_nonce c <= n)).
Proof.
  intros e s h n token o b s' R IB EH EN ET X. cbn [exec] in X. pose proof (reached_full _ R) as [I _].
  pose proof (executed_spec e s h n token o I) as Y. rewrite X in Y. destruct Y as [[Y _]|(c & IC & K & Y)].
  { elim (Y b IB). unfold bkey. congruence. }
  assert (c = b).
  { eapply bkey_nodup_in; [apply (o_bnodup _ _ _ _ (i_ok _ I))|exact IC|exact IB|]. rewrite K. unfold bkey. congruence. }
  subst c. split.
  { intros a d. rewrite (x_bal _ _ _ _ _ _ _ _ Y). unfold at2, on. lia. }
  split; [apply (x_supply _ _ _ _ _ _ _ _ Y)|]. split; [apply (x_locked _ _ _ _ _ _ _ _ Y)|].
  split; [|apply (x_batches _ _ _ _ _ _ _ _ Y)].
  intros t. rewrite (x_pool _ _ _ _ _ _ _ _ Y). split; intros [A C]; (split; [exact A|]).
  - intros T. apply (C t T). reflexivity.
  - intros u U KU. apply C. replace t with u; [exact U|]. symmetry.
    eapply nodup_key_in; [apply (o_nodup _ _ _ _ (i_ok _ I))|exact A|eapply batch_in_pool; eassumption|exact KU].
Qed.

Example C31_executing_pays_the_fees_ex :
  match exec (env0 1000) s1 (Withdraw 1 1 hls orch) with
  | Ok s' => (p_bal s' orch ahelios - p_bal s1 orch ahelios, map t_id (p_pool s'), List.length (p_batches s'))
             = (12, [4; 1], 0%nat)
  | _ => False
  end.
Proof. vm_compute. reflexivity. Qed.

(* The module account always holds the fees of everything pending, so a batch can always be
   paid, unless the orchestrator's account may not receive coins. *)
Theorem C31_fees_always_covered : forall s, reached s ->
  (forall a d, 0 <= p_bal s a d) /\ fees_pending s <= p_bal s mod_acc ahelios.
Proof. intros s R. apply (reached_full _ R). Qed.

Example C31_fees_always_covered_ex : reached s1 /\ fees_pending s1 = 24 /\ p_bal s1 mod_acc ahelios = 24.
Proof. split; [exact s1_reached|]. vm_compute. split; reflexivity. Qed.

Theorem C31_batch_always_payable : forall e s h n t o, reached s -> e_blocked e o = false ->
  is_ok (exec e s (Withdraw h n t o)) = true.
Proof.
  intros e s h n t o R BL. pose proof (exec_full e s (Withdraw h n t o) (reached_full _ R) I eq_refl) as X.
  pose proof (executed_spec e s h n t o (proj1 (reached_full _ R))) as Y. cbn [exec] in *.
  destruct (executed e s h n t o); [reflexivity|contradiction|].
  destruct X as (h' & n' & t' & o' & EQ & BL'). assert (o' = o) by congruence. congruence.
Qed.

Example C31_batch_always_payable_ex : is_ok (exec (env0 1000) s1 (Withdraw 1 1 hls orch)) = true
  /\ exec (env0 1000) s1 (Withdraw 1 1 hls dust) = Panic.
Proof. vm_compute. split; reflexivity. Qed.

(* Over any history in which the other chain returns no more of this chain's coins than were
   sent there: the supply plus what is on its way out changes by deposits and executed batches
   and by nothing else, for every coin, and no refund can lack cover. *)
Theorem C31_value_conserved : forall reg s0 l s, start s0 -> (forall h t d, reg h t = Some (d, true) -> 0 <= p_locked s0 h t) ->
  ordinary l -> Forall (fun ec : env * step => sees reg (fst ec)) l -> honest reg s0 l -> run s0 l = Ok s ->
  (forall d, p_supply s d + owed reg s d = p_supply s0 d + net reg s0 l d) /\
  (forall t, In t (p_pool s) -> reg (t_h t) (t_token t) <> None) /\
  (forall h t d, reg h t = Some (d, true) -> owed_token s h t <= p_locked s h t).
Proof.
  intros reg s0 l s S L O SE HO R. pose proof (start_full _ S) as F. destruct S as [(P & _) N].
  assert (BK : backed reg s0).
  { split; [rewrite P; contradiction|]. intros h t d E. unfold owed_token. rewrite P. apply (L _ _ _ E). }
  destruct (run_backed reg l s0 s F BK R) as [[B1 B2] C]; [|exact HO|].
  - clear - O SE. unfold ordinary in O. rewrite Forall_forall in *. intros ec IN. specialize (O ec IN). specialize (SE ec IN). tauto.
  - split; [|split; assumption]. intros d. rewrite C. unfold owed at 1. rewrite P. unfold sum_by. cbn [fold_right]. lia.
Qed.

Lemma sees0 eth : sees reg0 (env0 eth).
Proof.
  split; [reflexivity|]. intros h d t o. cbn [e_by_denom env0]. unfold by_denom0, reg0. destruct (h =? 1); [|discriminate].
  destruct (beqb d (B "husdt")) eqn:E1.
  - apply beqb_spec in E1. subst d. intros H. injection H as <- <-. vm_compute. reflexivity.
  - destruct (beqb d ahelios) eqn:E2; [|discriminate]. apply beqb_spec in E2. subst d. intros H. injection H as <- <-. vm_compute. reflexivity.
Qed.

(* Two deposits, one of them of coins sent out before, an execution, a cancellation. *)
Definition hist2 := hist1 ++ [E (Withdraw 1 1 hls orch); E (Deposit 1 hls 30 (Some bob)); E (Deposit 1 usdt 1000 None);
                              E (CancelSend 1 4 alice)].
Example C31_value_conserved_ex :
  is_ok (run s0 hist2) = true /\ honest reg0 s0 hist2 /\
  map (fun d => net reg0 s0 hist2 d) [ahelios; B "husdt"] = [-80; 1000] /\
  map (fun d => p_supply (get (run s0 hist2)) d) [ahelios; B "husdt"] = [2020; 1400] /\
  map (fun d => owed reg0 (get (run s0 hist2)) d) [ahelios; B "husdt"] = [0; 100].
Proof.
  split; [vm_compute; reflexivity|]. split; [|vm_compute; repeat split].
  cbn [hist2 hist1 app honest a_send a_home b_home E honest_step]. vm_compute. repeat split; discriminate.
Qed.

(* What a clean-up of timed-out transfers gives back, for every account but the module's:
   exactly what it was owed for the transfers that stopped being pending. *)
Theorem C31_cleanups_return_what_is_due : forall reg e s c s' a d,
  reached s -> backed reg s -> sees reg e -> a <> mod_acc ->
  (forall t, In t (p_pool s) -> e_blocked e (t_sender t) = false) ->
  (exists h, c = TimeoutTxs h \/ c = CleanAll h \/ c = TimeoutBatches h \/ exists n, c = CancelSome h n) ->
  exec e s c = Ok s' ->
  p_bal s' a d - p_bal s a d = due reg a d (p_pool s) - due reg a d (p_pool s').
Proof.
  intros reg e s c s' a d R BK SE NM NB [h C] X. pose proof (reached_full _ R) as F.
  destruct C as [->|[->|[->|[n ->]]]]; cbn [exec] in X.
  - destruct (timeout_txs_spec e s h F) as [s2 [Y CH]]. assert (s2 = s') by congruence. subst s2.
    pose proof (chain_due reg e s s' a d SE CH F BK NM NB). lia.
  - destruct (clean_all_spec e s h F) as [s2 [Y [l CH]]]. assert (s2 = s') by congruence. subst s2.
    destruct (cancel_batches_inv s l (proj1 F)) as (_ & P & CO & _).
    pose proof (chain_due reg e _ s' a d SE CH (cancel_full s l F) (proj1 (backed_same reg _ _ P CO BK)) NM) as Q.
    rewrite P in Q. specialize (Q NB). destruct CO as [CB _]. rewrite CB in Q. lia.
  - unfold timeout_batches in X. match type of X with Ok ?t = _ => assert (Y : t = s') by congruence end.
    match type of Y with cancel_batches s ?l = _ => destruct (cancel_batches_inv s l (proj1 F)) as (_ & P & CO & _) end.
    rewrite Y in P, CO. destruct CO as [CB _]. rewrite CB, P. lia.
  - destruct (cancel_some_spec e s h n F) as [s2 [Y CH]]. assert (s2 = s') by congruence. subst s2.
    pose proof (chain_due reg e s s' a d SE CH F BK NM NB). lia.
Qed.

Lemma s1_backed : backed reg0 s1.
Proof.
  destruct (C31_value_conserved reg0 s0 hist1 s1) as (_ & A & C).
  - exact s0_start.
  - intros. cbn. lia.
  - exact ordinary_hist1.
  - repeat (apply Forall_cons; [apply sees0|]). constructor.
  - cbn [hist1 honest a_send a_home b_home E honest_step]. vm_compute. tauto.
  - exact s1_run.
  - split; assumption.
Qed.

(* Both waiting transfers of alice time out; the batch is untouched. *)
Example C31_cleanups_return_what_is_due_ex :
  match exec (env0 1051) s1 (TimeoutTxs 1) with
  | Ok s' => (p_bal s' alice (B "husdt") - p_bal s1 alice (B "husdt"), p_bal s' alice ahelios - p_bal s1 alice ahelios,
              due reg0 alice (B "husdt") (p_pool s1) - due reg0 alice (B "husdt") (p_pool s'),
              due reg0 alice ahelios (p_pool s1) - due reg0 alice ahelios (p_pool s'),
              map t_id (p_pool s'))
             = (120, 12, 120, 12, [3; 2])
  | _ => False
  end.
Proof. vm_compute. reflexivity. Qed.

(* A batch that timed out is put back and its transfers are refunded.  When the claim that the
   other chain executed it arrives later it is accepted and nothing is taken back: the sender
   has both the refund and the coins over there, and the orchestrator gets no fee. *)
Definition hist_late := [a_send 100 7; E (RequestBatch 1 (B "husdt")); (env0 9000, TimeoutBatches 1);
                         (env0 9000, TimeoutTxs 1); E (Withdraw 1 1 usdt orch)].
Theorem C31_executed_after_refund_refuted : exists l s, ordinary l /\ run s0 l = Ok s /\
  nth_error l 4 = Some (E (Withdraw 1 1 usdt orch)) /\ p_pool s = [] /\ p_batches s = [] /\
  p_bal s alice (B "husdt") = p_bal s0 alice (B "husdt") /\ p_bal s alice ahelios = p_bal s0 alice ahelios /\
  p_bal s orch ahelios = 0 /\
  exists s2, run s0 (firstn 2 l) = Ok s2 /\ released reg0 s2 1 1 usdt (B "husdt") = 100.
Proof.
  exists hist_late, (get (run s0 hist_late)). split.
  { repeat constructor; try reflexivity; cbn; intros X; apply (f_equal (fun l => nth 0 l 0%N)) in X; vm_compute in X; discriminate X. }
  split.
  { assert (H : match run s0 hist_late with Ok _ => true | _ => false end = true) by (vm_compute; reflexivity).
    destruct (run s0 hist_late); [reflexivity|discriminate H|discriminate H]. }
  split; [reflexivity|]. repeat (split; [vm_compute; reflexivity|]).
  exists (get (run s0 (firstn 2 hist_late))). split; [|vm_compute; reflexivity].
  assert (H : match run s0 (firstn 2 hist_late) with Ok _ => true | _ => false end = true) by (vm_compute; reflexivity).
  destruct (run s0 (firstn 2 hist_late)); [reflexivity|discriminate H|discriminate H].
Qed.

(* A timed-out transfer whose token is no longer linked is taken out and nobody is paid. *)
Definition env_unlinked : env :=
  mk_env 10 (fun _ _ => None) (fun _ _ => None) (fun _ _ => None) (fun _ => 9000) (fun _ => 100) (fun _ => 50)
         (fun _ => false) (fun _ => Some 1) (fun _ => false) (fun _ => false).
Theorem C31_refund_lost_refuted : exists s s', reached s /\ exec env_unlinked s (TimeoutTxs 1) = Ok s' /\
  In 1 (map t_id (p_pool s)) /\ ~ In 1 (map t_id (p_pool s')) /\
  p_bal s' alice (B "husdt") = p_bal s alice (B "husdt") /\ p_bal s' alice ahelios = p_bal s alice ahelios /\
  p_supply s' (B "husdt") + owed reg0 s' (B "husdt") < p_supply s (B "husdt") + owed reg0 s (B "husdt").
Proof.
  exists s1, (get (exec env_unlinked s1 (TimeoutTxs 1))). split; [exact s1_reached|]. split.
  { assert (H : match exec env_unlinked s1 (TimeoutTxs 1) with Ok _ => true | _ => false end = true) by (vm_compute; reflexivity).
    destruct (exec env_unlinked s1 (TimeoutTxs 1)); [reflexivity|discriminate H|discriminate H]. }
  split; [vm_compute; tauto|]. split; [vm_compute; intuition discriminate|].
  repeat (split; [vm_compute; reflexivity|]). vm_compute. reflexivity.
Qed.

(* A sender that may not receive coins: the amount is minted to the module account and stays
   there, the fee stays too, and the transfer is gone. *)
Definition hist_dust := [E (Send 1 dust (B "0xdest") ahelios 40 ahelios 6)].
Theorem C31_blocked_sender_refuted : exists s s', reached s /\ exec (env0 9000) s (TimeoutTxs 1) = Ok s' /\
  map t_sender (p_pool s) = [dust] /\ p_pool s' = [] /\
  p_bal s' dust ahelios = p_bal s dust ahelios /\ p_bal s' mod_acc ahelios = 46.
Proof.
  set (s := get (run s0 hist_dust)). exists s, (get (exec (env0 9000) s (TimeoutTxs 1))). split.
  { exists s0, hist_dust. split; [exact s0_start|]. split.
    - repeat constructor; try reflexivity; cbn; intros X; apply (f_equal (fun l => nth 0 l 0%N)) in X; vm_compute in X; discriminate X.
    - assert (H : match run s0 hist_dust with Ok _ => true | _ => false end = true) by (vm_compute; reflexivity).
      unfold s. destruct (run s0 hist_dust); [reflexivity|discriminate H|discriminate H]. }
  split.
  { assert (H : match exec (env0 9000) s (TimeoutTxs 1) with Ok _ => true | _ => false end = true) by (vm_compute; reflexivity).
    destruct (exec (env0 9000) s (TimeoutTxs 1)); [reflexivity|discriminate H|discriminate H]. }
  repeat (split; [vm_compute; reflexivity|]). vm_compute. reflexivity.
Qed.

(* The first deposit of a token mints one unit more than was deposited. *)
Theorem C31_first_deposit_extra_unit_refuted : exists s', exec (env0 1000) s0 (Deposit 1 (B "0xnew") 500 (Some bob)) = Ok s' /\
  p_supply s0 (B "hnew") = 0 /\ p_supply s' (B "hnew") = 501 /\ p_bal s' bob (B "hnew") = 500 /\ p_bal s' mod_acc (B "hnew") = 1.
Proof.
  exists (get (exec (env0 1000) s0 (Deposit 1 (B "0xnew") 500 (Some bob)))). split.
  { match goal with |- ?x = _ => assert (H : match x with Ok _ => true | _ => false end = true) by (vm_compute; reflexivity) end.
    destruct (exec (env0 1000) s0 (Deposit 1 (B "0xnew") 500 (Some bob))); [reflexivity|discriminate H|discriminate H]. }
  repeat (split; [vm_compute; reflexivity|]). vm_compute. reflexivity.
Qed.

(* ---- C33 --------------------------------------------------------------------------- *)

Lemma available_iff s h token t : Inv s -> available s h token t <-> In t (token_txs s h token).
Proof.
  intros I. pose proof (i_ok _ I) as K. destruct (token_txs_spec s h token _ K) as [_ W]. rewrite W. unfold available.
  split; intros (A & C & D & F); (split; [exact A|split; [exact C|split; [exact D|]]]).
  - pose proof (waiting_iff _ _ _ _ t K A) as X. rewrite C, D in X. apply X.
    pose proof (waiting_count s h (t_id t)) as Y. rewrite F in Y.
    assert (Q : 0 < cz (h, t_id t) (ikeys (p_index s))) by lia. apply cz_in in Q.
    unfold ikeys in Q. apply in_flat_map in Q. destruct Q as [[k ids] [Q1 Q2]]. cbn [fst snd] in Q2. unfold tag in Q2.
    apply in_map_iff in Q2. destruct Q2 as [i [Q3 Q4]]. apply pair_equal_spec in Q3. destruct Q3 as [Q3 Q5]. subst i.
    apply index_ids_in. exists k, ids. split; [exact Q1|]. split; [apply of_bridge_fh; exact Q3|exact Q4].
  - apply iget_some in F. destruct F as [ids [F1 F2]].
    pose proof (waiting_count s h (t_id t)) as Y. pose proof (ikeys_le _ _ _ _ (h, t_id t) K) as Z.
    assert (Q : 0 < cz (h, t_id t) (ikeys (p_index s))).
    { apply cz_in. unfold ikeys. apply in_flat_map. eexists. split; [exact F1|]. cbn [fst snd]. unfold tag.
      apply in_map_iff. exists (t_id t). split; [reflexivity|exact F2]. }
    lia.
Qed.

Lemma available_list_in s h token t : Inv s -> In t (available_list s h token) <-> available s h token t.
Proof.
  intros I. unfold available_list, availableb, available. rewrite filter_In, !andb_true_iff, Z.eqb_eq, beqb_spec, Nat.eqb_eq. tauto.
Qed.

Lemma available_perm s h token : Inv s -> Permutation (available_list s h token) (token_txs s h token).
Proof.
  intros I. pose proof (i_ok _ I) as K. apply NoDup_Permutation.
  - unfold available_list. apply NoDup_filter. apply (wp_nodup _ (inv_well_placed _ I)).
  - eapply NoDup_map_inv. apply (token_txs_spec s h token _ K).
  - intros t. rewrite available_list_in by exact I. apply available_iff. exact I.
Qed.

Lemma nodup_app_l {A} (a b : list A) : NoDup (a ++ b) -> NoDup a.
Proof.
  induction a as [|x a IH]; [constructor|]. cbn [app]. intros N. apply NoDup_cons_iff in N. destruct N as [N1 N2].
  constructor; [|auto]. intros I. apply N1. apply in_app_iff. left. exact I.
Qed.

(* A new batch of a token takes as many waiting transfers as fit, all of this bridge and token,
   each once, and none that it leaves pays more than one it takes.  It is added to the batches
   with the next number, nothing else changes hands. *)
Theorem C33_best_paying : forall e s h d s' b, reached s -> request_batch e s h d = Ok (s', b) ->
  exists token orig, e_by_denom e h d = Some (token, orig) /\
  b_h b = h /\ b_token b = token /\ b_nonce b = p_batchid s h + 1 /\
  List.length (b_txs b) = Nat.min 100 (List.length (available_list s h token)) /\ b_txs b <> [] /\
  NoDup (map t_id (b_txs b)) /\
  (forall t, In t (b_txs b) -> available s h token t) /\
  (forall t u, In t (b_txs b) -> available s h token u -> ~ In u (b_txs b) -> t_fee u <= t_fee t) /\
  StronglySorted (fun t u => t_fee u <= t_fee t) (b_txs b) /\
  (forall c, In c (p_batches s') <-> c = b \/ In c (p_batches s)) /\
  p_pool s' = p_pool s /\ same_money s s' /\
  (forall h' token' t, available s' h' token' t <-> available s h' token' t /\ ~ In t (b_txs b)).
Proof.
  intros e s h d s' b R X. unfold request_batch in X. destruct (e_by_denom e h d) as [[token orig]|]; [|discriminate].
  pose proof (reached_full _ R) as [I _]. pose proof (i_ok _ I) as K.
  apply (build_spec _ _ _ _ _ _ I) in X. destruct X as (EB & NE & I' & P & BE & BS & CO & T & BI & IX).
  destruct (token_txs_spec s h token _ K) as [ND W].
  exists token, orig. split; [reflexivity|].
  assert (TX : b_txs b = firstn batch_size (token_txs s h token)) by (rewrite EB; reflexivity).
  assert (AV : forall t, In t (b_txs b) -> available s h token t).
  { intros t IT. apply (available_iff s h token t I). rewrite TX in IT. rewrite <- (firstn_skipn batch_size). apply in_app_iff. left. exact IT. }
  split; [rewrite EB; reflexivity|]. split; [rewrite EB; reflexivity|]. split; [rewrite EB; reflexivity|].
  split. { rewrite TX, firstn_length. rewrite (Permutation_length (available_perm s h token I)). reflexivity. }
  split; [exact NE|].
  split. { rewrite TX, <- firstn_map. rewrite <- (firstn_skipn batch_size (map t_id _)) in ND. revert ND. apply nodup_app_l. }
  split; [exact AV|].
  split. { intros t u IT AU NU. rewrite TX in IT. apply (available_iff s h token u I) in AU.
           rewrite <- (firstn_skipn batch_size) in AU. apply in_app_iff in AU. destruct AU as [AU|AU].
           - elim NU. rewrite TX. exact AU.
           - eapply ss_firstn_rest; [apply (token_txs_sorted s h token _ K)|exact IT|exact AU]. }
  split. { rewrite TX. apply ss_firstn. apply (token_txs_sorted s h token _ K). }
  split; [exact BS|]. split; [exact P|]. split; [exact CO|].
  (* the count moves from waiting to batched for exactly the transfers of the batch *)
  assert (BK : forall q, cz q (bkeys (p_batches s')) = cz q (bkeys (p_batches s)) + cz q (pkeys (b_txs b))).
  { intros q. rewrite BE. apply binsert_count. intros x XX. rewrite EB. apply (fresh_batch s h token); [exact I|cbn; lia|exact XX]. }
  pose proof (inv_well_placed _ I) as WP. pose proof (inv_well_placed _ I') as WP'.
  intros h' token' t. unfold available. rewrite P.
  assert (Q : In t (p_pool s) -> (times_waiting s' (t_h t) (t_id t) = 1)%nat <->
                                 (times_waiting s (t_h t) (t_id t) = 1)%nat /\ ~ In t (b_txs b)).
  { intros IT.
    pose proof (wp_once _ WP _ _ _ (conj IT (conj eq_refl eq_refl))) as O1.
    assert (IT' : In t (p_pool s')) by (rewrite P; exact IT).
    pose proof (wp_once _ WP' _ _ _ (conj IT' (conj eq_refl eq_refl))) as O2.
    pose proof (batched_count s (t_h t) (t_id t)) as C1. pose proof (batched_count s' (t_h t) (t_id t)) as C2.
    rewrite BK in C2. pose proof (cz_pos (t_h t, t_id t) (pkeys (b_txs b))) as C3.
    assert (M : In t (b_txs b) <-> 0 < cz (t_h t, t_id t) (pkeys (b_txs b))).
    { rewrite <- cz_in. unfold pkeys. rewrite in_map_iff. split.
      - intros A. exists t. split; [reflexivity|exact A].
      - intros [u [U1 U2]]. replace t with u; [exact U2|].
        eapply nodup_key_in; [apply (o_nodup _ _ _ _ K)|apply (AV u U2)|exact IT|exact U1]. }
    rewrite M. lia. }
  split.
  - intros (A & <- & C & D). apply Q in D; [|exact A]. tauto.
  - intros [(A & <- & C & D) N]. split; [exact A|]. split; [reflexivity|]. split; [exact C|]. apply Q; tauto.
Qed.

(* A hundred and three transfers with fees 1 to 7; the three left pay the lowest fee. *)
Definition many : list (env * step) := map (fun n => a_send 1 (Z.of_nat n mod 7 + 1)) (seq 0 103).
Definition s2 := get (run s0 many).
Example C33_best_paying_ex :
  is_ok (run s0 many) = true /\
  match request_batch (env0 1000) s2 1 (B "husdt") with
  | Ok (s', b) => (List.length (available_list s2 1 usdt), List.length (b_txs b), map t_fee (available_list s' 1 usdt),
                   map t_fee (firstn 3 (b_txs b)), t_fee (nth 99 (b_txs b) (mk_tx 0 0 [] [] [] 0 0 0)))
                  = (103%nat, 100%nat, [1; 1; 1], [7; 7; 7], 1)
  | _ => False
  end.
Proof. vm_compute. split; reflexivity. Qed.

(* A batch requested by identifiers holds exactly these, in this order: the caller decides. *)
Theorem C33_requested_ids : forall e s h d ids s' b, reached s -> request_ids e s h d ids = Ok (s', b) ->
  exists token orig, e_by_denom e h d = Some (token, orig) /\
  b_h b = h /\ b_token b = token /\ b_nonce b = p_batchid s h + 1 /\
  map t_id (b_txs b) = firstn 100 ids /\ b_txs b <> [] /\
  (forall t, In t (b_txs b) -> In t (p_pool s) /\ t_h t = h /\ t_token t = token) /\
  (forall c, In c (p_batches s') <-> c = b \/ In c (p_batches s)) /\
  p_pool s' = p_pool s /\ same_money s s' /\ well_placed s'.
Proof.
  intros e s h d ids s' b R X. apply (request_ids_spec _ _ _ _ _ _ _ (proj1 (reached_full _ R))) in X.
  destruct X as (token & orig & D & EB & NE & ID & W & I' & P & BS & CO & _ & _).
  exists token, orig. split; [exact D|]. split; [rewrite EB; reflexivity|]. split; [rewrite EB; reflexivity|].
  split; [rewrite EB; reflexivity|]. split; [exact ID|]. split; [exact NE|]. split; [exact W|]. split; [exact BS|].
  split; [exact P|]. split; [exact CO|]. apply inv_well_placed. exact I'.
Qed.

Example C33_requested_ids_ex :
  match request_ids (env0 1000) s2 1 (B "husdt") [9; 4] with
  | Ok (_, b) => map t_id (b_txs b) = [9; 4] | _ => False end
  /\ request_ids (env0 1000) s2 1 (B "husdt") [9; 4; 9] = Err.
Proof. vm_compute. split; reflexivity. Qed.

(* Such a batch can leave out better-paying transfers although it has room for them. *)
Theorem C33_requested_ids_not_best_refuted : exists s b s' t u, reached s /\
  request_ids (env0 1000) s 1 (B "husdt") [4] = Ok (s', b) /\ In t (b_txs b) /\ (List.length (b_txs b) < 100)%nat /\
  available s' 1 usdt u /\ t_fee t < t_fee u.
Proof.
  set (r := request_ids (env0 1000) s1 1 (B "husdt") [4]).
  set (s' := match r with Ok (x, _) => x | _ => s0 end).
  set (b := match r with Ok (_, x) => x | _ => mk_batch 0 0 [] [] 0 0 end).
  exists s1, b, s', (nth 0 (b_txs b) (mk_tx 0 0 [] [] [] 0 0 0)), (nth 3 (p_pool s1) (mk_tx 0 0 [] [] [] 0 0 0)).
  split; [exact s1_reached|]. split.
  { fold r. assert (H : match r with Ok _ => true | _ => false end = true) by (vm_compute; reflexivity).
    unfold s', b. destruct r as [[x y]| |]; [reflexivity|discriminate H|discriminate H]. }
  split; [vm_compute; tauto|]. split; [vm_compute; lia|]. split; [|vm_compute; reflexivity].
  split; [vm_compute; tauto|]. vm_compute. repeat split.
Qed.

(* ---- C34 --------------------------------------------------------------------------- *)

Lemma refund_txid e s h i a s' ok : refund e s h i a = Ok (s', ok) -> p_txid s' = p_txid s.
Proof.
  unfold refund. destruct (pget s h i) as [t|]; [|discriminate]. destruct (negb (beqb a (t_sender t))); [discriminate|].
  destruct (pool_txs s (t_h t)) as [l| |]; cbn [rbind]; try discriminate.
  destruct (negb (existsb (fun t' => t_id t' =? i) l)); [discriminate|].
  unfold index_remove. destruct (has i (iget (t_h t, t_token t, t_fee t) (p_index s))); [|discriminate].
  set (s2 := pdel _ _ _). assert (T2 : p_txid s2 = p_txid s) by reflexivity. clearbody s2.
  assert (OK : forall x y : st * bool, Ok x = Ok y -> x = y) by congruence.
  destruct (e_by_token e (t_h t) (t_token t)) as [[d o]|].
  2:{ intros H. apply OK, pair_equal_spec in H. destruct H as [<- _]. exact T2. }
  destruct (o && (p_locked s2 (t_h t) (t_token t) <? t_amount t)).
  { intros H. apply OK, pair_equal_spec in H. destruct H as [<- _]. exact T2. }
  set (s4 := mint _ _ _). assert (T4 : p_txid s4 = p_txid s) by (unfold s4; destruct o; exact T2). clearbody s4.
  destruct (pay e s4 a d (t_amount t)) as [s5|] eqn:P1.
  2:{ intros H. apply OK, pair_equal_spec in H. destruct H as [<- _]. exact T4. }
  apply pay_spec in P1. destruct P1 as (_ & _ & _ & (_ & _ & _ & T5 & _) & _).
  destruct (pay e s5 a ahelios (t_fee t)) as [s6|] eqn:P2.
  - apply pay_spec in P2. destruct P2 as (_ & _ & _ & (_ & _ & _ & T6 & _) & _).
    intros H. apply OK, pair_equal_spec in H. destruct H as [<- _]. congruence.
  - intros H. apply OK, pair_equal_spec in H. destruct H as [<- _]. congruence.
Qed.

Lemma refund_all_txid e p l : forall s s', refund_all e s p l = Ok s' -> p_txid s' = p_txid s.
Proof.
  induction l as [|t r IH]; intros s s' H; cbn [refund_all] in H; [congruence|].
  destruct (p s t); [|apply (IH _ _ H)]. unfold refund_kept in H.
  destruct (refund e s (t_h t) (t_id t) (t_sender t)) as [[s1' ok]| |] eqn:R; cbn [rbind] in H; [| |discriminate H].
  - apply IH in H. apply refund_txid in R. congruence.
  - apply (IH _ _ H).
Qed.

Lemma put_back_txid h token l : forall s, p_txid (put_back s h token l) = p_txid s.
Proof. induction l as [|t r IH]; intros s; cbn [put_back]; [reflexivity|]. rewrite IH. reflexivity. Qed.

Lemma cancel_batches_txid l : forall s, p_txid (cancel_batches s l) = p_txid s.
Proof.
  induction l as [|b r IH]; intros s; cbn [cancel_batches]; [reflexivity|]. rewrite IH. unfold cancel_batch.
  destruct (bget s (b_h b) (b_nonce b) (b_token b)); [|reflexivity].
  change (p_txid (put_back s (b_h b) (b_token b) (b_txs b0)) = p_txid s). apply put_back_txid.
Qed.

Lemma pick_txid h token l : forall s n, p_txid (fst (pick s h token l n)) = p_txid s.
Proof.
  induction l as [|t r IH]; intros s [|n]; cbn [pick]; try reflexivity. unfold index_remove.
  destruct (has (t_id t) (iget (h, token, t_fee t) (p_index s))); [|reflexivity].
  match goal with |- context [pick ?s' h token r n] => pose proof (IH s' n) as X; destruct (pick s' h token r n) as [s'' sel] end.
  cbn [fst] in *. rewrite X. reflexivity.
Qed.

Lemma pick_ids_txid h token ids : forall s n s' sel, pick_ids s h token ids n = Ok (s', sel) -> p_txid s' = p_txid s.
Proof.
  induction ids as [|i r IH]; intros s [|n] s' sel H; cbn [pick_ids] in H.
  1-3: assert (X : (s, @nil tx) = (s', sel)) by congruence; apply pair_equal_spec in X; destruct X as [-> _]; reflexivity.
  destruct (pget s h i) as [t|]; [|discriminate H]. unfold index_remove in H.
  destruct (has i (iget (h, token, t_fee t) (p_index s))); [|discriminate H].
  match type of H with context [pick_ids ?a h token r n] => pose proof (IH a n) as X; destruct (pick_ids a h token r n) as [[s2' sel2]| |] end;
    cbn [rbind] in H; try discriminate H.
  assert (Y : (s2', t :: sel2) = (s', sel)) by congruence. apply pair_equal_spec in Y. destruct Y as [<- _].
  rewrite (X _ _ eq_refl). reflexivity.
Qed.

Lemma pdel_all_txid l : forall s, p_txid (pdel_all s l) = p_txid s.
Proof. induction l as [|t r IH]; intros s; cbn [pdel_all]; [reflexivity|]. rewrite IH. reflexivity. Qed.

Lemma exec_txid e s c s' : exec e s c = Ok s' ->
  p_txid s' = p_txid s + match c with Send _ _ _ _ _ _ _ => 1 | _ => 0 end.
Proof.
  intros X. destruct c; cbn [exec] in X.
  - unfold fst_of in X. destruct (send e s h sender dest denom amount feed fee) as [[s1' i]| |] eqn:Y; cbn [rbind fst] in X; try discriminate X.
    assert (s1' = s') by congruence. subst s1'. apply send_spec in Y.
    destruct Y as (token & orig & _ & _ & _ & Y1 & _ & _ & _ & _ & _ & _ & Y2 & _). lia.
  - unfold cancel_send in X. destruct (refund e s h i sender) as [[s1' ok]| |] eqn:Y; cbn [rbind] in X; try discriminate X.
    destruct ok; [|discriminate X]. apply refund_txid in Y. assert (s1' = s') by congruence. subst. lia.
  - unfold fst_of, request_batch in X. destruct (e_by_denom e h denom) as [[token o]|]; [|discriminate X].
    unfold build in X. match type of X with context [negb ?q] => destruct (negb q); [discriminate X|] end.
    pose proof (pick_txid h token (token_txs s h token) s batch_size) as Y.
    destruct (pick s h token (token_txs s h token) batch_size) as [s1' sel]. cbn [fst] in Y.
    destruct sel; cbn [rbind] in X; [discriminate X|]. match type of X with Ok ?q = _ => assert (q = s') by congruence end.
    subst s'. cbn. lia.
  - unfold fst_of, request_ids in X. destruct (e_by_denom e h denom) as [[token o]|]; [|discriminate X].
    destruct (pick_ids s h token ids batch_size) as [[s1' sel]| |] eqn:Y; cbn [rbind] in X; try discriminate X.
    apply pick_ids_txid in Y.
    destruct sel; cbn [rbind] in X; [discriminate X|]. match type of X with Ok ?q = _ => assert (q = s') by congruence end.
    subst s'. cbn. lia.
  - unfold executed in X. destruct (bget s h n token) as [b|]; [|assert (s = s') by congruence; subst; lia]. cbn zeta in X.
    match type of X with match pay e ?q ?o ahelios ?f with _ => _ end = _ => destruct (pay e q o ahelios f) as [s4|] eqn:P; [|discriminate X] end.
    apply pay_spec in P. destruct P as (_ & _ & _ & (_ & _ & _ & T & _) & _). assert (s4 = s') by congruence. subst s4.
    rewrite T. cbn [bdel set_batches p_txid]. rewrite cancel_batches_txid, pdel_all_txid. lia.
  - apply deposit_spec in X. destruct X as (d & o & ex & to & _ & (_ & _ & _ & T & _) & _). lia.
  - match type of X with Ok ?q = _ => assert (q = s') by congruence end. subst s'. unfold timeout_batches.
    rewrite cancel_batches_txid. lia.
  - unfold timeout_txs in X. destruct (pool_txs s h) as [l| |]; cbn [rbind] in X; try discriminate X. apply refund_all_txid in X. lia.
  - unfold clean_all in X. destruct (pool_txs _ h) as [l| |]; cbn [rbind] in X; try discriminate X.
    apply refund_all_txid in X. rewrite cancel_batches_txid in X. lia.
  - unfold cancel_some in X. destruct (pool_txs s h) as [l| |]; cbn [rbind] in X; try discriminate X. apply refund_all_txid in X. lia.
  - match type of X with Ok ?q = _ => assert (q = s') by congruence end. subst s'. cbn. lia.
  - destruct (n <? p_batchid s h + 1); [discriminate X|].
    match type of X with Ok ?q = _ => assert (q = s') by congruence end. subst s'. cbn. lia.
  - match type of X with Ok ?q = _ => assert (q = s') by congruence end. subst s'. cbn. lia.
  - unfold delete_chain in X. destruct (pool_txs _ h) as [l| |]; cbn [rbind] in X; try discriminate X.
    destruct (refund_all _ _ _ l) as [s2'| |] eqn:Y; cbn [rbind] in X; try discriminate X. apply refund_all_txid in Y.
    match type of X with Ok ?q = _ => assert (q = s') by congruence end. subst s'. cbn in *. lia.
  - destruct (move s a b d x) as [s1'|] eqn:Y; cbn [ores] in X; [|discriminate X]. assert (s1' = s') by congruence. subst.
    apply move_spec in Y. destruct Y as (_ & _ & (_ & _ & _ & T & _) & _). lia.
Qed.

Lemma run_txid l : forall s s', run s l = Ok s' -> p_txid s <= p_txid s'.
Proof.
  induction l as [|[e c] r IH]; intros s s' H; cbn [run] in H; [assert (s = s') by congruence; subst; lia|].
  destruct (exec e s c) as [s1'| |] eqn:X; [| |discriminate H].
  - apply exec_txid in X. apply IH in H. destruct c; lia.
  - apply (IH _ _ H).
Qed.

(* Whatever happens in between, administrator messages included, a later transfer gets a larger
   number, over all bridges together. *)
Theorem C34_transfer_ids_increase : forall e1 sa h1 a1 dst1 d1 x1 fd1 f1 sb i l sc e2 h2 a2 dst2 d2 x2 fd2 f2 sd j,
  send e1 sa h1 a1 dst1 d1 x1 fd1 f1 = Ok (sb, i) -> run sb l = Ok sc ->
  send e2 sc h2 a2 dst2 d2 x2 fd2 f2 = Ok (sd, j) -> i < j.
Proof.
  intros. apply run_txid in H0. apply send_spec in H. apply send_spec in H1.
  destruct H as (? & ? & _ & _ & _ & A & _ & _ & _ & _ & _ & _ & A2 & _).
  destruct H1 as (? & ? & _ & _ & _ & C & _). lia.
Qed.

Example C34_transfer_ids_increase_ex :
  match send (env0 1000) s1 1 alice [] ahelios 1 ahelios 1 with
  | Ok (sb, i) => match run sb [E (DeleteChain 1); E (UpdateContract 1)] with
                  | Ok sc => match send (env0 1000) sc 1 bob [] ahelios 1 ahelios 1 with
                             | Ok (_, j) => (i, j) = (5, 6) | _ => False end
                  | _ => False end
  | _ => False end.
Proof. vm_compute. reflexivity. Qed.

(* The numbers of a bridge's batches increase, and no pending batch has a number not yet given. *)
Theorem C34_batch_numbers_increase : forall e1 sa h d1 sb b l sc e2 d2 sd c,
  reached sa -> request_batch e1 sa h d1 = Ok (sb, b) -> ordinary l -> run sb l = Ok sc ->
  request_batch e2 sc h d2 = Ok (sd, c) -> b_nonce b < b_nonce c
  /\ (forall x, In x (p_batches sc) -> b_h x = h -> b_nonce x < b_nonce c).
Proof.
  intros e1 sa h d1 sb b l sc e2 d2 sd c R X O Y Z. unfold request_batch in *.
  destruct (e_by_denom e1 h d1) as [[t1 o1]|]; [|discriminate X]. destruct (e_by_denom e2 h d2) as [[t2 o2]|]; [|discriminate Z].
  pose proof (reached_full _ R) as F. pose proof X as X0. apply (build_spec _ _ _ _ _ _ (proj1 F)) in X.
  destruct X as (EB & _ & I' & P & _ & _ & CO & T & BI & _).
  assert (F' : full sb) by (eapply full_coins; eassumption).
  destruct (run_full l sb sc F' Y O) as (Fc & _ & M). apply (build_spec _ _ _ _ _ _ (proj1 Fc)) in Z.
  destruct Z as (EC & _). rewrite EB, EC. cbn [new_batch b_nonce]. specialize (M h). rewrite BI, Z.eqb_refl in M.
  split; [lia|]. intros x IX HX. pose proof (i_nonce _ (proj1 Fc) x IX) as Q. rewrite HX in Q. lia.
Qed.

Example C34_batch_numbers_increase_ex :
  match request_batch (env0 1000) s1 1 (B "husdt") with
  | Ok (sb, b) => match run sb [a_home 5 2; E (Withdraw 1 2 usdt orch); E (TimeoutBatches 1)] with
      | Ok sc => match request_batch (env0 1000) sc 1 ahelios with
                 | Ok (_, c) => (b_nonce b, b_nonce c) = (2, 3) | _ => False end
      | _ => False end
  | _ => False end.
Proof. vm_compute. reflexivity. Qed.

(* After the contract was updated or the chain deleted the numbers start again: a number a
   batch already had is given to another one. *)
Theorem C34_batch_number_reused_refuted : exists s b c s' s'',
  run s1 [E (Withdraw 1 1 hls orch); E (UpdateContract 1)] = Ok s /\
  In b (p_batches s1) /\ request_batch (env0 1000) s 1 (B "husdt") = Ok (s', c) /\ b_nonce b = b_nonce c /\ b_h b = b_h c /\
  run s [a_home 5 2; E (UpdateContract 1); E (RequestBatch 1 ahelios)] = Ok s'' /\
  (exists x, In x (p_batches s'') /\ b_nonce x = b_nonce b /\ b_h x = b_h b /\ b_token x = b_token b /\ b_txs x <> b_txs b).
Proof.
  set (s := get (run s1 [E (Withdraw 1 1 hls orch); E (UpdateContract 1)])).
  set (r := request_batch (env0 1000) s 1 (B "husdt")).
  set (s'' := get (run s [a_home 5 2; E (UpdateContract 1); E (RequestBatch 1 ahelios)])).
  set (z := mk_batch 0 0 [] [] 0 0).
  exists s, (nth 0 (p_batches s1) z), (match r with Ok (_, x) => x | _ => z end), (match r with Ok (x, _) => x | _ => s0 end), s''.
  split.
  { assert (H : match run s1 [E (Withdraw 1 1 hls orch); E (UpdateContract 1)] with Ok _ => true | _ => false end = true) by (vm_compute; reflexivity).
    unfold s. destruct (run s1 [E (Withdraw 1 1 hls orch); E (UpdateContract 1)]); [reflexivity|discriminate H|discriminate H]. }
  split; [vm_compute; tauto|]. split.
  { fold r. assert (H : match r with Ok _ => true | _ => false end = true) by (vm_compute; reflexivity).
    destruct r as [[x y]| |]; [reflexivity|discriminate H|discriminate H]. }
  split; [vm_compute; reflexivity|]. split; [vm_compute; reflexivity|]. split.
  { assert (H : match run s [a_home 5 2; E (UpdateContract 1); E (RequestBatch 1 ahelios)] with Ok _ => true | _ => false end = true) by (vm_compute; reflexivity).
    unfold s''. destruct (run s [a_home 5 2; E (UpdateContract 1); E (RequestBatch 1 ahelios)]); [reflexivity|discriminate H|discriminate H]. }
  exists (nth 0 (p_batches s'') z). split; [vm_compute; tauto|]. split; [vm_compute; reflexivity|]. split; [vm_compute; reflexivity|].
  split; [vm_compute; reflexivity|]. intros H. apply (f_equal (map t_id)) in H. vm_compute in H. discriminate H.
Qed.

(* ---- C56 --------------------------------------------------------------------------- *)

Definition group_fees (g : Z * list Z) : list Z := repeat (fst g) (List.length (snd g)).
Definition sumz (l : list Z) : Z := fold_right Z.add 0 l.

Definition plus_all (acc : option Z) (l : list Z) : option Z :=
  match l with [] => acc | _ => Some (match acc with Some a => a | None => 0 end + sumz l) end.

Lemma plus_all_app acc a b : plus_all (plus_all acc a) b = plus_all acc (a ++ b).
Proof.
  destruct a as [|x a]; [reflexivity|]. destruct b as [|y b]; [rewrite app_nil_r; reflexivity|].
  cbn [plus_all app]. f_equal. unfold sumz. change (x :: a ++ y :: b) with ((x :: a) ++ (y :: b)).
  rewrite fold_right_app. generalize (x :: a), (y :: b). intros p q.
  assert (G : forall z, fold_right Z.add z p = fold_right Z.add 0 p + z).
  { induction p as [|u p IH]; intros z; cbn [fold_right]; [lia|]. rewrite IH. lia. }
  rewrite (G (fold_right Z.add 0 q)). lia.
Qed.

Lemma quote_group_spec f ids : forall n acc,
  quote_group f ids n acc = ((n + List.length (firstn (100 - n) ids))%nat, plus_all acc (firstn (100 - n) (repeat f (List.length ids)))).
Proof.
  induction ids as [|i r IH]; intros n acc; cbn [quote_group].
  - cbn [List.length repeat]. rewrite !firstn_nil. cbn [List.length plus_all]. f_equal. lia.
  - unfold batch_size. destruct (100 <=? n)%nat eqn:Q.
    + apply Nat.leb_le in Q. replace (100 - n)%nat with 0%nat by lia. cbn [firstn List.length plus_all]. f_equal. lia.
    + apply Nat.leb_gt in Q. rewrite IH. replace (100 - n)%nat with (S (100 - S n)) by lia.
      cbn [firstn List.length repeat]. f_equal; [lia|].
      change (f :: firstn (100 - S n) (repeat f (List.length r))) with ([f] ++ firstn (100 - S n) (repeat f (List.length r))).
      rewrite <- plus_all_app. f_equal. cbn [plus_all sumz fold_right]. destruct acc; f_equal; lia.
Qed.

Lemma quote_loop_spec min gs : forall n acc, (n <= 100)%nat ->
  quote_loop min gs n acc = plus_all acc (firstn (100 - n) (flat_map group_fees (filter (fun g => min <=? fst g) gs))).
Proof.
  induction gs as [|[f ids] r IH]; intros n acc L; cbn [quote_loop filter flat_map fst].
  - rewrite firstn_nil. reflexivity.
  - destruct (Z.ltb_spec f min) as [A|A], (Z.leb_spec min f) as [C|C]; try lia; [apply IH; exact L|].
    rewrite quote_group_spec. assert (Q := firstn_length (100 - n) ids).
    rewrite IH by lia. rewrite plus_all_app. cbn [flat_map]. rewrite firstn_app. f_equal. f_equal.
    f_equal. unfold group_fees. cbn [fst snd]. rewrite repeat_length. rewrite Q. lia.
Qed.

Lemma found_fees s h token f ids : Inv s -> In ((h, token, f), ids) (p_index s) ->
  map t_fee (found s h ids) = repeat f (List.length ids).
Proof.
  intros I IX. pose proof (i_ok _ I) as K.
  assert (G : forall i, In i ids -> exists t, pget s h i = Some t /\ t_fee t = f).
  { intros i J. destruct (o_index _ _ _ _ K _ _ _ IX J) as [t [T1 [T2 T3]]]. exists t. split.
    - unfold pget. apply find_entry; [apply (o_nodup _ _ _ _ K)|exact T1|exact T2].
    - apply pair_equal_spec in T3. destruct T3. congruence. }
  clear IX. induction ids as [|i r IH]; [reflexivity|]. cbn [found List.length repeat].
  destruct (G i (or_introl eq_refl)) as [t [-> <-]]. cbn [map]. f_equal. apply IH. intros j J. apply G. right. exact J.
Qed.

Lemma fees_ascending s h token : Inv s ->
  Permutation (flat_map group_fees (fee_groups (p_index s) h token)) (map t_fee (available_list s h token)) /\
  StronglySorted Z.le (flat_map group_fees (fee_groups (p_index s) h token)).
Proof.
  intros I. pose proof (i_ok _ I) as K.
  assert (EQ : map t_fee (token_txs s h token) = flat_map group_fees (rev (fee_groups (p_index s) h token))).
  { unfold token_txs, index_ids, fee_groups. rewrite <- map_rev.
    set (gs := rev _). assert (G : forall k ids, In (k, ids) gs -> In (k, ids) (p_index s) /\ exists f, k = (h, token, f)).
    { intros k ids J. unfold gs in J. apply in_rev in J. apply filter_In in J. cbn in J. destruct J as [J O].
      split; [exact J|]. apply of_token_spec. exact O. }
    clearbody gs. induction gs as [|[k ids] r IH]; [reflexivity|]. cbn [flat_map map snd fst]. rewrite found_app, map_app.
    rewrite IH by (intros; apply G; right; assumption). f_equal.
    destruct (G k ids (or_introl eq_refl)) as [J [f ->]]. unfold group_fees. cbn [fst snd].
    eapply found_fees; eassumption. }
  assert (RV : forall gs, Permutation (flat_map group_fees gs) (flat_map group_fees (rev gs))).
  { induction gs as [|g r IH]; [reflexivity|]. cbn [rev flat_map]. rewrite flat_map_app. cbn [flat_map]. rewrite app_nil_r.
    rewrite IH. apply Permutation_app_comm. }
  split.
  - rewrite RV, <- EQ. apply Permutation_map. apply Permutation_sym. apply available_perm. exact I.
  - assert (S : StronglySorted (fun a b : Z * list Z => fst a < fst b) (fee_groups (p_index s) h token)).
    { pose proof (ss_filter (fun a b => flt (fst a) (fst b)) (fun e => of_token h token (fst e)) _ (o_sorted _ _ _ _ K)) as S.
      unfold fee_groups. set (gs := filter _ _) in *.
      assert (G : forall k ids, In (k, ids) gs -> exists f, k = (h, token, f)).
      { intros k ids J. unfold gs in J. apply filter_In in J. cbn in J. destruct J as [_ O]. apply of_token_spec. exact O. }
      clearbody gs. induction gs as [|[k ids] r IH]; [constructor|]. apply StronglySorted_inv in S. destruct S as [S1 S2].
      cbn [map]. constructor; [apply IH; [exact S1|intros; eapply G; right; eassumption]|].
      rewrite Forall_forall in *. intros [f' ids'] J. apply in_map_iff in J. destruct J as [[k2 ids2] [J1 J2]].
      cbn [fst snd] in *. apply pair_equal_spec in J1. destruct J1 as [<- <-]. specialize (S2 _ J2). cbn [fst] in S2.
      destruct (G k ids (or_introl eq_refl)) as [f1 ->]. destruct (G k2 ids2 (or_intror J2)) as [f2 ->].
      unfold flt, fkey_cmp in S2. rewrite Z.compare_refl, bcmp_refl in S2. rewrite Z.compare_lt_iff in S2. exact S2. }
    clear EQ. induction S as [|[f ids] r S IH F]; [constructor|]. cbn [flat_map]. apply ss_app.
    + unfold group_fees. cbn [fst snd]. induction (List.length ids) as [|n IHn]; cbn [repeat]; constructor; [exact IHn|].
      apply Forall_forall. intros x X. apply repeat_spec in X. subst. lia.
    + exact IH.
    + intros a b A C. unfold group_fees in A. cbn [fst snd] in A. apply repeat_spec in A. subst a.
      apply in_flat_map in C. destruct C as [[g ids'] [C1 C2]]. unfold group_fees in C2. cbn [fst snd] in C2.
      apply repeat_spec in C2. subst b. rewrite Forall_forall in F. specialize (F _ C1). cbn [fst] in F. lia.
Qed.

(* The fees quoted for the next batch of a token are those of the lowest-paying hundred. *)
Theorem C56_quote_is_lowest_hundred : forall s h token, reached s ->
  exists fees, Permutation fees (map t_fee (available_list s h token)) /\ StronglySorted Z.le fees /\
    quote s h token 0 = match fees with [] => None | _ => Some (sumz (firstn 100 fees)) end.
Proof.
  intros s h token R. pose proof (proj1 (reached_full _ R)) as I. destruct (fees_ascending s h token I) as [P S].
  eexists. split; [exact P|]. split; [exact S|]. unfold quote. rewrite quote_loop_spec by lia. cbn [Nat.sub].
  assert (F : filter (fun g => 0 <=? fst g) (fee_groups (p_index s) h token) = fee_groups (p_index s) h token).
  { assert (G : forall g, In g (fee_groups (p_index s) h token) -> 0 <= fst g).
    { intros [f ids] J. unfold fee_groups in J. apply in_map_iff in J. destruct J as [[k ids2] [J1 J2]]. cbn [fst snd] in *.
      apply filter_In in J2. destruct J2 as [J2 O]. cbn [fst] in O. apply of_token_spec in O. destruct O as [f1 ->].
      apply pair_equal_spec in J1. destruct J1 as [<- <-]. cbn [snd].
      destruct ids2 as [|i r]; [elim (o_full _ _ _ _ (i_ok _ I) _ J2)|].
      destruct (o_index _ _ _ _ (i_ok _ I) _ _ i J2 (or_introl eq_refl)) as [t [T1 [_ T3]]].
      apply pair_equal_spec in T3. destruct T3 as [_ ->]. apply (i_pos _ I _ T1). }
    clear - G. induction (fee_groups (p_index s) h token) as [|g r IH]; [reflexivity|]. cbn [filter].
    pose proof (G g (or_introl eq_refl)). replace (0 <=? fst g) with true by (symmetry; apply Z.leb_le; lia).
    rewrite IH; [reflexivity|]. intros; apply G; right; assumption. }
  rewrite F. destruct (flat_map group_fees (fee_groups (p_index s) h token)); reflexivity.
Qed.

Example C56_quote_is_lowest_hundred_ex : quote s1 1 usdt 0 = Some 12 /\ quote s1 1 (B "0xnew") 0 = None /\ quote s2 1 usdt 0 = Some 386.
Proof. vm_compute. repeat split. Qed.

Lemma sumz_perm a b : Permutation a b -> sumz a = sumz b.
Proof. intros P. unfold sumz. induction P; cbn [fold_right]; lia. Qed.
Lemma sumz_map f (l : list tx) : sumz (map f l) = sum_by f l.
Proof. unfold sumz, sum_by. induction l as [|t r IH]; cbn [map fold_right]; [reflexivity|]. rewrite IH. reflexivity. Qed.

(* When all available transfers fit into one batch, the quote is what the next batch pays. *)
Theorem C56_quote_exact_partial : forall e s h d s' b token orig, reached s ->
  e_by_denom e h d = Some (token, orig) -> (List.length (available_list s h token) <= 100)%nat ->
  request_batch e s h d = Ok (s', b) -> quote s h token 0 = Some (sum_by t_fee (b_txs b)).
Proof.
  intros e s h d s' b token orig R D L X.
  destruct (C56_quote_is_lowest_hundred s h token R) as [fees [P [S Q]]].
  pose proof (proj1 (reached_full _ R)) as I. unfold request_batch in X. rewrite D in X.
  apply (build_spec _ _ _ _ _ _ I) in X. destruct X as (EB & NE & _).
  assert (LT : List.length (token_txs s h token) = List.length (available_list s h token)) by (symmetry; apply Permutation_length, available_perm, I).
  assert (TX : b_txs b = token_txs s h token) by (rewrite EB; cbn [new_batch b_txs]; apply firstn_all2; unfold batch_size; lia).
  rewrite Q. rewrite TX. rewrite <- sumz_map.
  assert (PM : Permutation fees (map t_fee (token_txs s h token))).
  { rewrite P. apply Permutation_map, available_perm, I. }
  rewrite <- (sumz_perm _ _ PM). rewrite firstn_all2.
  - destruct fees; [|reflexivity]. apply Permutation_nil in PM. apply map_eq_nil in PM. congruence.
  - rewrite (Permutation_length PM), map_length. lia.
Qed.

Example C56_quote_exact_partial_ex : quote s1 1 usdt 0 = Some 12 /\
  match request_batch (env0 1000) s1 1 (B "husdt") with Ok (_, b) => sum_by t_fee (b_txs b) = 12 | _ => False end.
Proof. vm_compute. split; reflexivity. Qed.

Lemma s2_reached : reached s2.
Proof.
  exists s0, many. split; [exact s0_start|]. split.
  - unfold ordinary, many. apply Forall_forall. intros ec J. apply in_map_iff in J. destruct J as [n [<- _]].
    split; [|reflexivity]. cbn. intros X; apply (f_equal (fun l => nth 0 l 0%N)) in X; vm_compute in X; discriminate X.
  - assert (H : match run s0 many with Ok _ => true | _ => false end = true) by (vm_compute; reflexivity).
    unfold s2. destruct (run s0 many); [reflexivity|discriminate H|discriminate H].
Qed.

(* With more than a hundred available the quote is too low. *)
Theorem C56_quote_too_low_refuted : exists s s' b q, reached s /\ request_batch (env0 1000) s 1 (B "husdt") = Ok (s', b) /\
  quote s 1 usdt 0 = Some q /\ q < sum_by t_fee (b_txs b).
Proof.
  set (r := request_batch (env0 1000) s2 1 (B "husdt")).
  exists s2, (match r with Ok (x, _) => x | _ => s0 end), (match r with Ok (_, x) => x | _ => mk_batch 0 0 [] [] 0 0 end), 386.
  split; [exact s2_reached|]. split.
  { fold r. assert (H : match r with Ok _ => true | _ => false end = true) by (vm_compute; reflexivity).
    destruct r as [[x y]| |]; [reflexivity|discriminate H|discriminate H]. }
  split; vm_compute; reflexivity.
Qed.

(* The quote with identifiers names only the transfers of the highest fee and one single fee,
   although more are available and fit. *)
Theorem C56_quote_with_ids_refuted : exists s, reached s /\ quote_ids s 1 usdt 0 = Some (7, [1], [7]) /\
  map t_id (available_list s 1 usdt) = [4; 1] /\ sum_by t_fee (available_list s 1 usdt) = 12.
Proof. exists s1. split; [exact s1_reached|]. vm_compute. repeat split. Qed.

(* ---- C43 --------------------------------------------------------------------------- *)

Lemma get_fees_zero b : get_fees b = 0.
Proof. unfold get_fees. induction (b_txs b) as [|t r IH]; [reflexivity|]. cbn [fold_left]. exact IH. Qed.

(* What is guaranteed: a new batch needs available transfers and leaves pending batches alone. *)
Theorem C43_needs_available_partial : forall e s h d s' b, reached s -> request_batch e s h d = Ok (s', b) ->
  (exists token orig, e_by_denom e h d = Some (token, orig) /\ available_list s h token <> []) /\
  forall c, In c (p_batches s) -> In c (p_batches s').
Proof.
  intros e s h d s' b R X. destruct (C33_best_paying _ _ _ _ _ _ R X) as (token & orig & D & _ & _ & _ & L & NE & _ & _ & _ & _ & BS & _).
  split.
  - exists token, orig. split; [exact D|]. intros Z. rewrite Z in L. cbn in L. apply NE. destruct (b_txs b); [reflexivity|discriminate L].
  - intros c C. apply BS. right. exact C.
Qed.

Example C43_needs_available_partial_ex : is_ok (request_batch (env0 1000) s1 1 (B "husdt")) = true
  /\ request_batch (env0 1000) s1 1 ahelios = Err.
Proof. vm_compute. split; reflexivity. Qed.

(* The comparison with the pending batch never refuses anything: whenever a transfer is
   available a batch is built, however much more the pending one pays. *)
Theorem C43_comparison_never_refuses : forall e s h d token orig, reached s -> e_by_denom e h d = Some (token, orig) ->
  available_list s h token <> [] -> is_ok (request_batch e s h d) = true.
Proof.
  intros e s h d token orig R D A. pose proof (proj1 (reached_full _ R)) as I. unfold request_batch. rewrite D.
  destruct (C56_quote_is_lowest_hundred s h token R) as [fees [P [S Q]]].
  assert (NF : fees <> []).
  { intros ->. apply Permutation_nil in P. apply map_eq_nil in P. contradiction. }
  assert (FP : forall x, In x fees -> 0 <= x).
  { intros x J. apply (Permutation_in _ P) in J. apply in_map_iff in J. destruct J as [t [<- J]].
    apply (available_list_in s h token t I) in J. apply (i_pos _ I t (proj1 J)). }
  assert (QP : exists q, quote s h token 0 = Some q /\ 0 <= q).
  { destruct fees as [|f r]; [congruence|]. exists (sumz (firstn 100 (f :: r))). split; [exact Q|].
    assert (G : forall l, (forall x, In x l -> 0 <= x) -> 0 <= sumz l).
    { induction l as [|x l IH]; cbn [sumz fold_right]; intros H; [lia|]. pose proof (H x (or_introl eq_refl)).
      enough (0 <= sumz l) by (unfold sumz in *; lia). apply IH. intros y Y. apply H. right. exact Y. }
    apply G. intros x X. apply FP. rewrite <- (firstn_skipn 100 (f :: r)). apply in_app_iff. left. exact X. }
  destruct QP as [q [Q1 Q2]]. unfold build.
  match goal with |- context [negb ?c] => assert (AL : c = true) end.
  { destruct (last_batch s h token) as [c|]; [|reflexivity]. rewrite Q1, get_fees_zero. destruct (Z.ltb_spec q 0); [lia|reflexivity]. }
  rewrite AL. cbn [negb].
  pose proof (i_ok _ I) as K. destruct (token_txs_spec s h token _ K) as [N W].
  destruct (pick s h token (token_txs s h token) batch_size) as [s1' sel] eqn:PK.
  apply (pick_spec h token _ s batch_size []) in PK; [|exact K| |exact N].
  - destruct PK as (EQ & _). destruct sel as [|t sel]; [|reflexivity].
    assert (NT : token_txs s h token <> []).
    { intros Z. pose proof (available_perm s h token I) as AP. rewrite Z in AP. apply Permutation_sym, Permutation_nil in AP. contradiction. }
    destruct (token_txs s h token); [congruence|discriminate EQ].
  - intros t T. apply W in T. split; [apply T|]. split; apply T.
Qed.

(* A batch with a fee of 1 built while one with fees of 12 is pending. *)
Theorem C43_cheaper_batch_refuted : exists s s' b c, reached s /\ request_batch (env0 1000) s 1 ahelios = Ok (s', b) /\
  In c (p_batches s) /\ b_h c = 1 /\ b_token c = b_token b /\ sum_by t_fee (b_txs b) < sum_by t_fee (b_txs c).
Proof.
  set (l := hist1 ++ [a_home 5 1]). set (s := get (run s0 l)). set (r := request_batch (env0 1000) s 1 ahelios).
  exists s, (match r with Ok (x, _) => x | _ => s0 end), (match r with Ok (_, x) => x | _ => mk_batch 0 0 [] [] 0 0 end),
     (nth 0 (p_batches s) (mk_batch 0 0 [] [] 0 0)).
  split.
  { exists s0, l. split; [exact s0_start|]. split.
    - repeat constructor; try reflexivity; cbn; intros X; apply (f_equal (fun l => nth 0 l 0%N)) in X; vm_compute in X; discriminate X.
    - assert (H : match run s0 l with Ok _ => true | _ => false end = true) by (vm_compute; reflexivity).
      unfold s. destruct (run s0 l); [reflexivity|discriminate H|discriminate H]. }
  split.
  { fold r. assert (H : match r with Ok _ => true | _ => false end = true) by (vm_compute; reflexivity).
    destruct r as [[x y]| |]; [reflexivity|discriminate H|discriminate H]. }
  split; [vm_compute; tauto|]. repeat (split; [vm_compute; reflexivity|]). vm_compute. reflexivity.
Qed.

Print Assumptions C32_exactly_one_place.
Print Assumptions C32_cancel_only_unbatched.
Print Assumptions C32_no_missing_entry.
Print Assumptions C32_deleted_chain_limbo_refuted.
Print Assumptions C32_overwritten_batch_refuted.
Print Assumptions C31_queueing_takes_amount_and_fee.
Print Assumptions C31_cancelling_returns_amount_and_fee.
Print Assumptions C31_executing_pays_the_fees.
Print Assumptions C31_fees_always_covered.
Print Assumptions C31_batch_always_payable.
Print Assumptions C31_value_conserved.
Print Assumptions C31_cleanups_return_what_is_due.
Print Assumptions C31_executed_after_refund_refuted.
Print Assumptions C31_refund_lost_refuted.
Print Assumptions C31_blocked_sender_refuted.
Print Assumptions C31_first_deposit_extra_unit_refuted.
Print Assumptions C33_best_paying.
Print Assumptions C33_requested_ids.
Print Assumptions C33_requested_ids_not_best_refuted.
Print Assumptions C34_transfer_ids_increase.
Print Assumptions C34_batch_numbers_increase.
Print Assumptions C34_batch_number_reused_refuted.
Print Assumptions C56_quote_is_lowest_hundred.
Print Assumptions C56_quote_exact_partial.
Print Assumptions C56_quote_too_low_refuted.
Print Assumptions C56_quote_with_ids_refuted.
Print Assumptions C43_needs_available_partial.
Print Assumptions C43_comparison_never_refuses.
Print Assumptions C43_cheaper_batch_refuted.
