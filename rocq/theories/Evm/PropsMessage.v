(* C101: what a whole message costs and leaves behind. *)
From Coq Require Import NArith Nnat.
From Verif Require Import Lib.Base Lib.Bytes Evm.Words Evm.World Evm.Memory Evm.Table Evm.Interp Evm.MemoryProofs
  Evm.TableProofs Evm.StepProofs Evm.Effects Evm.WorldProofs Evm.SafeProofs Evm.Ledger Evm.LedgerProofs Evm.EffectsProofs
  Evm.RunSpec Evm.RunProofs Evm.Example Evm.PropsRun Evm.PropsCalls Evm.PropsMoney Evm.Message.
Open Scope N_scope.

(* the price of sending a message: 21000, or 53000 for a new contract; 16 for each byte that is not 0, 4 for each that is;
   2400 for each account and 1900 for each slot announced *)
Definition price_to_send (data : bytes) (list : list (N * list N)) (creation : bool) : N :=
  (if creation then 53000 else 21000) +
  fold_right N.add 0 (map (fun b => if b =? 0 then 4 else 16) data) +
  fold_right N.add 0 (map (fun el => 2400 + 1900 * N.of_nat (length (snd el))) list).
Definition creates (M : msg) : bool := match g_to M with None => true | Some _ => false end.

Lemma data_price data : fold_right N.add 0 (map (fun b => if b =? 0 then 4 else 16) data) =
  16 * blen (filter (fun b => negb (b =? 0)) data) + 4 * (blen data - blen (filter (fun b => negb (b =? 0)) data)) /\
  blen (filter (fun b => negb (b =? 0)) data) <= blen data.
Proof.
  induction data as [|b d IH]; [split; reflexivity || lia|]. cbn [map fold_right filter]. unfold blen in *.
  destruct (b =? 0); cbn [negb length]; rewrite ?Nat2N.inj_succ; lia.
Qed.
Lemma list_price (l : list (N * list N)) : fold_right N.add 0 (map (fun el => 2400 + 1900 * N.of_nat (length (snd el))) l) =
  N.of_nat (length l) * 2400 + N.of_nat (length (concat (map snd l))) * 1900.
Proof. induction l as [|el l IH]; [reflexivity|]. cbn [map fold_right concat length]. rewrite app_length, IH. lia. Qed.

Theorem C101_price data list creation : price_to_send data list creation < 2 ^ 64 ->
  intrinsic data list creation = Ok (price_to_send data list creation).
Proof.
  intros L. unfold price_to_send, intrinsic in *. destruct (data_price data) as [Dp Dl]. rewrite Dp, list_price in *.
  set (nz := blen (filter _ data)) in *. set (A := N.of_nat (length list) * 2400) in *. set (K := N.of_nat (length (concat _)) * 1900) in *.
  change (2 ^ 64) with 18446744073709551616 in L. rewrite U64_val.
  assert (E : match data with [] => Ok (if creation then 53000 else 21000)
     | _ => if (18446744073709551616 - 1 - (if creation then 53000 else 21000)) / 16 <? nz then Err
            else if (18446744073709551616 - 1 - ((if creation then 53000 else 21000) + nz * 16)) / 4 <? blen data - nz then Err
                 else Ok ((if creation then 53000 else 21000) + nz * 16 + (blen data - nz) * 4) end =
     Ok ((if creation then 53000 else 21000) + nz * 16 + (blen data - nz) * 4)).
  { destruct data as [|b d]; [cbn; now rewrite !N.add_0_r|].
    set (g0 := if creation then 53000 else 21000) in *.
    destruct (N.ltb_spec ((18446744073709551616 - 1 - g0) / 16) nz) as [H|H].
    { exfalso. apply N.div_lt_upper_bound in H || idtac.
      assert (nz <= (18446744073709551616 - 1 - g0) / 16) by (apply N.div_le_lower_bound; lia). lia. }
    destruct (N.ltb_spec ((18446744073709551616 - 1 - (g0 + nz * 16)) / 4) (blen (b :: d) - nz)) as [H2|H2]; [|reflexivity].
    exfalso. assert (blen (b :: d) - nz <= (18446744073709551616 - 1 - (g0 + nz * 16)) / 4) by (apply N.div_le_lower_bound; lia). lia. }
  cbn zeta. rewrite E. cbn [rbind]. f_equal. rewrite N.mod_small by lia. lia.
Qed.
Print Assumptions C101_price.

Section Props.
Variable keccak : bytes -> N.
Variable committed : N -> N -> N.
Variable B : block.
Variable is_pre : N -> bool.
Variable pre_gas : N -> bytes -> N.
Variable pre_run : bool -> N -> N -> bytes -> N -> N -> world -> bytes * option verr * N * world.
Variable call_allowed : N -> N -> bool.
Variable create_allowed : N -> bool.
Variable pre_list : list N.
Let apply_message := apply_message keccak committed B is_pre pre_gas pre_run call_allowed create_allowed pre_list.
Let prepare := prepare pre_list.
Let top_call := top_call keccak committed B is_pre pre_gas pre_run call_allowed create_allowed.
Let top_create := top_create keccak committed B is_pre pre_gas pre_run call_allowed create_allowed.
Let set_nonce := set_nonce keccak committed.
Let transaction := transaction keccak committed B is_pre pre_gas pre_run call_allowed create_allowed.

(* only the access list differs *)
Definition same_but_access (w w' : world) : Prop := w_acct w' = w_acct w /\ w_refund w' = w_refund w /\ w_logs w' = w_logs w.

Lemma sba_trans w1 w2 w3 : same_but_access w1 w2 -> same_but_access w2 w3 -> same_but_access w1 w3.
Proof. unfold same_but_access. intros (? & ? & ?) (? & ? & ?). repeat split; congruence. Qed.
Lemma sba_fold {A} (f : world -> A -> world) l w : (forall w x, same_but_access w (f w x)) -> same_but_access w (fold_left f l w).
Proof.
  intros H. revert w. induction l as [|x l IH]; intros w; [repeat split|]. cbn [fold_left]. eapply sba_trans; [apply H|apply IH].
Qed.
Lemma prepare_same w from to list : same_but_access w (prepare w from to list).
Proof.
  unfold prepare, Message.prepare. eapply sba_trans.
  2: { apply sba_fold. intros w0 [a ks]. cbn [fst snd]. apply sba_trans with (warm w0 a); [repeat split|].
       apply sba_fold. intros; repeat split. }
  eapply sba_trans; [|apply sba_fold; intros; repeat split]. destruct to; repeat split.
Qed.
Lemma fold_warm l w a : w_addr (fold_left warm l w) a = true <-> w_addr w a = true \/ In a l.
Proof.
  revert w. induction l as [|x l IH]; intros w; cbn [fold_left In]; [tauto|]. rewrite IH. unfold warm at 1. cbn [w_addr]. unfold upd.
  destruct (N.eqb_spec a x) as [->|Hn]; [tauto|]. split; [tauto|]. intros [H|[H|H]]; auto; congruence.
Qed.
Lemma fold_slots ks x w a : w_addr (fold_left (fun w k => warm_slot w x k) ks w) a = true <-> w_addr w a = true \/ (a = x /\ ks <> []).
Proof.
  revert w. induction ks as [|k ks IH]; intros w; cbn [fold_left]; [split; [tauto|intros [H|[_ []]]; auto]|].
  rewrite IH. unfold warm_slot at 1. cbn [w_addr]. unfold upd. destruct (N.eqb_spec a x) as [->|Hn].
  - split; [intros _|intros _; left; reflexivity]. right. split; [reflexivity|discriminate].
  - split; [intros [H|[H _]]|intros [H|[H _]]]; auto; contradiction.
Qed.
Lemma fold_slots_slot ks x w a k : w_slot (fold_left (fun w k => warm_slot w x k) ks w) a k = true <->
  w_slot w a k = true \/ (a = x /\ In k ks).
Proof.
  revert w. induction ks as [|k' ks IH]; intros w; cbn [fold_left In]; [tauto|].
  rewrite IH. unfold warm_slot at 1. cbn [w_slot]. unfold upd. destruct (N.eqb_spec a x) as [->|Hn].
  - destruct (N.eqb_spec k k') as [->|Hk]; [tauto|]. split; [tauto|]. intros [H|[H1 [H|H]]]; auto; congruence.
  - split; tauto.
Qed.
(* A transaction starts with exactly these accounts and slots already paid for: the sender, the one called, the built-in
   contracts, and what the access list names. *)
Theorem C101_access_list w from to list :
  (forall a, w_addr (prepare w from to list) a = true <->
     w_addr w a = true \/ a = from \/ to = Some a \/ In a pre_list \/ exists ks, In (a, ks) list) /\
  (forall a k, w_slot (prepare w from to list) a k = true <->
     w_slot w a k = true \/ exists ks, In (a, ks) list /\ In k ks) /\
  same_but_access w (prepare w from to list).
Proof.
  set (w3 := fold_left warm pre_list (match to with Some a => warm (warm w from) a | None => warm w from end)).
  assert (E3 : forall a, w_addr w3 a = true <-> w_addr w a = true \/ a = from \/ to = Some a \/ In a pre_list).
  { intros a. unfold w3. rewrite fold_warm. destruct to as [t|]; unfold warm; cbn [w_addr]; unfold upd.
    - destruct (N.eqb_spec a t) as [->|Ht]; [tauto|]. destruct (N.eqb_spec a from) as [->|Hf]; [tauto|].
      split; [tauto|]. intros [H|[H|[H|H]]]; auto; congruence.
    - destruct (N.eqb_spec a from) as [->|Hf]; [tauto|]. split; [tauto|]. intros [H|[H|[H|H]]]; auto; congruence. }
  assert (S3 : w_slot w3 = w_slot w).
  { assert (F : forall l u, w_slot (fold_left warm l u) = w_slot u).
    { induction l as [|x l IH]; intros u; [reflexivity|]. cbn [fold_left]. now rewrite IH. }
    unfold w3. rewrite F. destruct to; reflexivity. }
  set (f := fun w el => fold_left (fun w k => warm_slot w (fst el) k) (snd el) (warm w (fst el)) : world).
  change (prepare w from to list) with (fold_left f list w3).
  assert (A : forall l u, (forall a, w_addr (fold_left f l u) a = true <-> w_addr u a = true \/ exists ks, In (a, ks) l) /\
     (forall a k, w_slot (fold_left f l u) a k = true <-> w_slot u a k = true \/ exists ks, In (a, ks) l /\ In k ks)).
  { induction l as [|[x ks] l IH]; intros u; cbn [fold_left].
    - split; intros a; [split; [tauto|intros [H|(? & [])]; auto]|intros k; split; [tauto|intros [H|(? & [] & _)]; auto]].
    - destruct (IH (f u (x, ks))) as [I1 I2]. split.
      + intros a. rewrite I1. unfold f at 1. cbn [fst snd]. rewrite fold_slots. unfold warm. cbn [w_addr]. unfold upd. cbn [In].
        destruct (N.eqb_spec a x) as [->|Hn].
        * split; [intros _; right; exists ks; auto|intros _; left; left; reflexivity].
        * split.
          -- intros [[H|[H _]]|(k & H)]; [auto|contradiction|right; exists k; auto].
          -- intros [H|(k & [H|H])]; [auto|congruence|right; exists k; auto].
      + intros a k. rewrite I2. unfold f at 1. cbn [fst snd]. rewrite fold_slots_slot. unfold warm. cbn [w_slot In]. split.
        * intros [[H|[-> H]]|(j & H1 & H2)]; [auto|right; exists ks; auto|right; exists j; auto].
        * intros [H|(j & [H1|H1] & H2)]; [auto| |right; exists j; auto]. inversion H1; subst. auto. }
  destruct (A list w3) as [A1 A2]. split; [|split].
  - intros a. rewrite A1, E3. tauto.
  - intros a k. rewrite A2, S3. tauto.
  - exact (prepare_same w from to list).
Qed.

(* the world in which the interpreter starts, its run, and what is done to the world afterwards *)
Let begins (M : msg) (w : world) : world :=
  let w1 := prepare w (g_from M) (g_to M) (g_list M) in
  match g_to M with Some _ => w1 | None => set_nonce w1 (g_from M) (g_nonce M) end.
Let runs (fuel : nat) (M : msg) (gas : N) (w : world) : xres :=
  match g_to M with
  | Some a => top_call fuel (g_from M) a (g_data M) gas (g_value M) w
  | None => top_create fuel (g_from M) (create_address keccak (g_from M) (g_nonce M)) (g_data M) gas (g_value M) w
  end.
Let ends_in (M : msg) (w : world) : world :=
  match g_to M with Some _ => w | None => set_nonce w (g_from M) (g_nonce M + 1) end.

Lemma nonce_set w a n b : nonce (set_nonce w a n) b = if b =? a then n else nonce w b.
Proof. unfold set_nonce, World.set_nonce, set_acct, nonce, upd. cbn [w_acct]. now destruct (b =? a). Qed.
Lemma balance_set w a n b : balance (set_nonce w a n) b = balance w b.
Proof.
  unfold set_nonce, World.set_nonce, set_acct, balance, upd, here. cbn [w_acct]. destruct (N.eqb_spec b a) as [E|]; [subst|reflexivity].
  now destruct (w_acct w a).
Qed.
Lemma code_set w a n b : code (set_nonce w a n) b = code w b.
Proof.
  unfold set_nonce, World.set_nonce, set_acct, code, upd, here. cbn [w_acct]. destruct (N.eqb_spec b a) as [E|]; [subst|reflexivity].
  now destruct (w_acct w a).
Qed.
Lemma suicided_set w a n b : suicided (set_nonce w a n) b = suicided w b.
Proof.
  unfold set_nonce, World.set_nonce, set_acct, suicided, upd, here. cbn [w_acct]. destruct (N.eqb_spec b a) as [E|]; [subst|reflexivity].
  now destruct (w_acct w a).
Qed.
Lemma state_set w a n b k : exist w a = true -> state (set_nonce w a n) b k = state w b k.
Proof.
  unfold set_nonce, World.set_nonce, set_acct, state, exist, upd, here. cbn [w_acct]. intros H.
  destruct (N.eqb_spec b a) as [E|]; [subst|reflexivity]. now destruct (w_acct w a).
Qed.
Lemma exist_set w a n b : exist (set_nonce w a n) b = (b =? a) || exist w b.
Proof. unfold set_nonce, World.set_nonce, set_acct, exist, upd. cbn [w_acct]. now destruct (b =? a). Qed.

Lemma opens fuel M w : price_to_send (g_data M) (g_list M) (creates M) < 2 ^ 64 ->
  let cost := price_to_send (g_data M) (g_list M) (creates M) in
  apply_message fuel M w =
  if g_gas M <? cost then Err
  else match runs fuel M (g_gas M - cost) (begins M w) with
       | XOut o => if g_gas M <? o_gas o then Err
                   else let used := g_gas M - o_gas o in
                        Ok (MRes (o_ret o) (o_err o) (used - N.min (w_refund (o_world o)) (used / 5)) (ends_in M (o_world o)))
       | _ => Panic
       end.
Proof.
  intros L cost. unfold apply_message, Message.apply_message. fold (creates M). rewrite (C101_price _ _ _ L). cbn [rbind]. fold cost.
  destruct (g_gas M <? cost); [reflexivity|]. cbn zeta.
  assert (Mn : forall a b, (if a <? b then a else b) = N.min a b).
  { intros a b. destruct (N.ltb_spec a b); [rewrite N.min_l; lia|rewrite N.min_r; lia]. }
  unfold runs, begins, ends_in. destruct (g_to M) as [a|].
  - change (Message.prepare pre_list) with prepare. fold top_call.
    destruct (top_call _ _ _ _ _ _ _) as [[ret err lo w3]| |]; [|reflexivity..]. cbn [o_gas o_world o_ret o_err]. now rewrite Mn.
  - change (Message.prepare pre_list) with prepare. fold top_create. change (World.set_nonce keccak committed) with set_nonce.
    rewrite nonce_set, N.eqb_refl.
    destruct (top_create _ _ _ _ _ _ _) as [[ret err lo w3]| |]; [|reflexivity..]. cbn [o_gas o_world o_ret o_err].
    rewrite Mn. reflexivity.
Qed.

(* A message that can be sent: its data are bytes, its price fits 64 bits, and it has so little gas that the refund counter
   cannot overflow. *)
Definition proper (M : msg) : Prop :=
  sendable (g_data M) (g_gas M) /\ price_to_send (g_data M) (g_list M) (creates M) < 2 ^ 64.

Lemma acct_fresh w w' : w_acct w' = w_acct w -> w_refund w' = w_refund w -> fresh committed w -> fresh committed w'.
Proof. intros A R (F1 & F2 & F3). unfold fresh, code, exist, state in *. rewrite A, R. auto. Qed.
Lemma fresh_begins M w : fresh committed w -> fresh committed (begins M w).
Proof.
  intros Fr. destruct (prepare_same w (g_from M) (g_to M) (g_list M)) as (A & R & _).
  assert (F := acct_fresh _ _ A R Fr). unfold begins. cbn zeta. clearbody prepare.
  destruct (g_to M); [exact F|]. destruct F as (F1 & F2 & F3). split; [|split].
  - intros b. rewrite code_set. apply F1.
  - exact F2.
  - intros b k. rewrite exist_set. destruct (exist (prepare w (g_from M) None (g_list M)) (g_from M)) eqn:E.
    + rewrite state_set by exact E. intros X. apply F3. destruct (N.eqb_spec b (g_from M)) as [Q|]; [now subst|exact X].
    + unfold set_nonce, World.set_nonce, set_acct, state, upd. cbn [w_acct]. destruct (N.eqb_spec b (g_from M)) as [Q|Hn].
      * subst b. intros _. cbn [x_stor]. unfold here. unfold exist in E. now destruct (w_acct _ (g_from M)).
      * intros X. apply F3. exact X.
Qed.
Lemma begins_warm M w a : g_to M = Some a -> w_addr (begins M w) a = true.
Proof.
  intros E. unfold begins. rewrite E. destruct (C101_access_list w (g_from M) (g_to M) (g_list M)) as [A _]. rewrite E in A.
  apply A. tauto.
Qed.
Lemma sendable_less data g g' : g' <= g -> sendable data g -> sendable data g'.
Proof. intros L (A & B' & C). split; [exact A|split; [exact B'|]]. lia. Qed.
Lemma runs_out fuel M w : polite committed is_pre pre_run -> fresh committed w -> proper M -> g_gas M < N.of_nat fuel ->
  let gas := g_gas M - price_to_send (g_data M) (g_list M) (creates M) in
  exists o, runs fuel M gas (begins M w) = XOut o /\ o_gas o <= gas /\ is_bytes (o_ret o) /\
    forall k, (fuel <= k)%nat -> runs k M gas (begins M w) = XOut o.
Proof.
  intros P Fr [Se Pr] Fu gas. assert (Gl : gas <= g_gas M) by (unfold gas; lia).
  assert (Se' := sendable_less _ _ _ Gl Se). assert (G64 : gas < 2 ^ 64).
  { destruct Se as (_ & _ & S3). change (2 ^ 63) with 9223372036854775808 in S3. change (2 ^ 64) with 18446744073709551616. clear -Gl S3. lia. }
  assert (Fu' : gas < N.of_nat fuel) by lia. assert (Fb := fresh_begins M w Fr). clearbody gas. unfold runs.
  destruct (g_to M) as [a|] eqn:To.
  - assert (Wa := begins_warm M w a To).
    destruct (C92_call_never_crashes keccak committed B is_pre pre_gas pre_run call_allowed create_allowed fuel (g_from M) a (g_data M) gas
      (g_value M) _ P Fb Se' Wa Fu') as (o & E & Ib).
    destruct (C91_call_ends keccak committed B is_pre pre_gas pre_run call_allowed create_allowed fuel (g_from M) a (g_data M) gas
      (g_value M) (begins M w) G64 Fu') as (_ & Lo & K).
    exists o. split; [exact E|]. split; [now apply Lo|]. split; [exact Ib|]. intros k Hk. rewrite <- E. now apply K.
  - destruct (C92_create_never_crashes keccak committed B is_pre pre_gas pre_run call_allowed create_allowed fuel (g_from M) (g_nonce M)
      (g_data M) gas (g_value M) _ P Fb Se' Fu') as (o & E & Ib).
    destruct (C91_create_ends keccak committed B is_pre pre_gas pre_run call_allowed create_allowed fuel (g_from M)
      (create_address keccak (g_from M) (g_nonce M)) (g_data M) gas (g_value M) (begins M w) G64 Fu') as (_ & Lo & K).
    exists o. split; [exact E|]. split; [now apply Lo|]. split; [exact Ib|]. intros k Hk. rewrite <- E. now apply K.
Qed.

(* A message that does not bring the price of sending it is refused.  Any other has a result: it spends at least that price
   and at most what it brings, and is charged what it spent less the refund, at most a fifth. *)
Theorem C101_charge fuel M w : polite committed is_pre pre_run -> fresh committed w -> proper M -> g_gas M < N.of_nat fuel ->
  let price := price_to_send (g_data M) (g_list M) (creates M) in
  (g_gas M < price -> apply_message fuel M w = Err) /\
  (price <= g_gas M -> exists r spent, apply_message fuel M w = Ok r /\ price <= spent <= g_gas M /\
     r_used r = spent - N.min (w_refund (r_world r)) (spent / 5) /\ is_bytes (r_ret r) /\
     forall k, (fuel <= k)%nat -> apply_message k M w = Ok r).
Proof.
  intros P Fr Pr Fu price. destruct (runs_out fuel M w P Fr Pr Fu) as (o & E & Lo & Ib & K). destruct Pr as [_ Pr]. split.
  - intros L. rewrite (opens _ _ _ Pr). cbn zeta. fold price. now rewrite (proj2 (N.ltb_lt _ _) L).
  - intros L. fold price in E, Lo, K.
    assert (X : forall k, runs k M (g_gas M - price) (begins M w) = XOut o ->
      apply_message k M w = Ok (MRes (o_ret o) (o_err o) (g_gas M - o_gas o - N.min (w_refund (o_world o)) ((g_gas M - o_gas o) / 5)) (ends_in M (o_world o)))).
    { intros k Ek. rewrite (opens _ _ _ Pr). cbn zeta. fold price. rewrite (proj2 (N.ltb_ge _ _) L), Ek.
      rewrite (proj2 (N.ltb_ge (g_gas M) (o_gas o))) by lia. reflexivity. }
    eexists. exists (g_gas M - o_gas o). split; [exact (X _ E)|]. split; [lia|]. cbn [r_used r_world r_ret]. split; [|split; [exact Ib|]].
    + f_equal. f_equal. unfold ends_in. now destruct (g_to M).
    + intros k Hk. apply X, K, Hk.
Qed.

Lemma inverts fuel M w r : price_to_send (g_data M) (g_list M) (creates M) < 2 ^ 64 -> apply_message fuel M w = Ok r ->
  let price := price_to_send (g_data M) (g_list M) (creates M) in
  price <= g_gas M /\ exists o, runs fuel M (g_gas M - price) (begins M w) = XOut o /\ o_gas o <= g_gas M /\
    r = MRes (o_ret o) (o_err o) (g_gas M - o_gas o - N.min (w_refund (o_world o)) ((g_gas M - o_gas o) / 5)) (ends_in M (o_world o)).
Proof.
  intros Pr E price. rewrite (opens _ _ _ Pr) in E. cbn zeta in E. fold price in E.
  destruct (N.ltb_spec (g_gas M) price) as [|L]; [discriminate|]. split; [exact L|].
  destruct (runs fuel M (g_gas M - price) (begins M w)) as [o| |]; [|discriminate..]. exists o. split; [reflexivity|].
  destruct (N.ltb_spec (g_gas M) (o_gas o)) as [|Lo]; [discriminate|]. split; [exact Lo|]. now inversion E.
Qed.

(* A message that fails changes no balance, code, storage or record and gets no refund.  The nonce of the sender of a new
   contract becomes the one after the message's, other nonces stay.  The whole gas is charged unless the contract reverted
   or the message was refused: forbidden, too poor, or the nonce is at its limit. *)
Theorem C101_failed fuel M w r e : proper M -> fresh committed w -> exist w (g_from M) = true ->
  apply_message fuel M w = Ok r -> r_err r = Some e ->
  let w' := r_world r in
  (forall a, balance w' a = balance w a) /\ (forall a, code w' a = code w a) /\ (forall a k, state w' a k = state w a k) /\
  (forall a, suicided w' a = suicided w a) /\ (forall a, exist w' a = exist w a) /\ w_logs w' = w_logs w /\ w_refund w' = 0 /\
  (forall a, nonce w' a = if (creates M && (a =? g_from M))%bool then g_nonce M + 1 else nonce w a) /\
  (e = EReverted \/ r_used r = g_gas M \/
   (r_used r = price_to_send (g_data M) (g_list M) (creates M) /\ r_ret r = [] /\
    (match g_to M with Some a => call_allowed (g_from M) a = false | None => create_allowed (g_from M) = false end \/
     (balance w (g_from M) < Z.of_N (g_value M))%Z \/ (creates M = true /\ 2 ^ 64 <= g_nonce M + 1)))).
Proof.
  intros [_ Pr] Fr Ex E Er w'. destruct (inverts _ _ _ _ Pr E) as (L & o & Eo & Lo & ->). cbn [r_err r_world r_used r_ret] in *.
  destruct o as [ret err g wo]. cbn [o_err o_ret o_gas o_world] in *. subst err.
  destruct (prepare_same w (g_from M) (g_to M) (g_list M)) as (A & R & Lg).
  set (price := price_to_send _ _ _) in *. set (wp := prepare w (g_from M) (g_to M) (g_list M)) in *.
  assert (Bp : forall a, balance wp a = balance w a) by (intros; unfold balance; now rewrite A).
  assert (Cp : forall a, code wp a = code w a) by (intros; unfold code; now rewrite A).
  assert (Sp : forall a k, state wp a k = state w a k) by (intros; unfold state; now rewrite A).
  assert (Up : forall a, suicided wp a = suicided w a) by (intros; unfold suicided; now rewrite A).
  assert (Xp : forall a, exist wp a = exist w a) by (intros; unfold exist; now rewrite A).
  assert (Np : forall a, nonce wp a = nonce w a) by (intros; unfold nonce; now rewrite A).
  assert (R0 : w_refund wp = 0) by (rewrite R; apply Fr).
  unfold w', runs, begins, ends_in in *. unfold creates. fold wp in Eo. clearbody wp. clear w'.
  destruct (g_to M) as [t|] eqn:To.
  - apply (C93_failed_call keccak committed is_pre pre_gas pre_run call_allowed create_allowed) in Eo. destruct Eo as [-> Why]. cbn [andb]. do 5 (split; [assumption|]). split; [congruence|]. split; [exact R0|].
    split; [exact Np|]. rewrite R0, N.min_0_l, N.sub_0_r.
    destruct Why as [->|[->|(-> & -> & [Ha|[Hd|Hb]])]]; [now left|right; left; lia| | |].
    + right; right. split; [lia|]. auto.
    + lia.
    + right; right. split; [lia|]. split; [reflexivity|]. right; left. rewrite <- Bp. apply Z.leb_gt. exact Hb.
  - set (a' := create_address keccak _ _) in *.
    assert (Q : (forall a, balance wo a = balance wp a) /\ (forall a, code wo a = code wp a) /\ (forall a k, state wo a k = state wp a k) /\
      (forall a, suicided wo a = suicided wp a) /\ (forall a, exist wo a = exist wp a) /\ w_logs wo = w_logs wp /\ w_refund wo = w_refund wp /\
      (forall a, a <> g_from M -> nonce wo a = nonce wp a)).
    { assert (Ep : exist wp (g_from M) = true) by (rewrite Xp; exact Ex).
      assert (Et : forall n a, exist (set_nonce wp (g_from M) n) a = exist wp a).
      { intros n a. rewrite exist_set. destruct (N.eqb_spec a (g_from M)) as [Q|]; [subst; now rewrite Ep|reflexivity]. }
      apply (C93_failed_create keccak committed is_pre pre_gas pre_run call_allowed create_allowed) in Eo. destruct Eo as [(-> & _)|(-> & _)].
      - fold set_nonce. split; [intros; apply balance_set|]. split; [intros; apply code_set|]. split; [intros; now apply state_set|].
        split; [intros; apply suicided_set|]. split; [apply Et|]. split; [reflexivity|]. split; [reflexivity|].
        intros a Ha. rewrite nonce_set. now rewrite (proj2 (N.eqb_neq _ _) Ha).
      - fold set_nonce. set (wn := set_nonce wp (g_from M) (g_nonce M)).
        assert (Ew : forall a, exist (set_nonce wn (g_from M) (nonce wn (g_from M) + 1)) a = exist wp a).
        { intros a. rewrite exist_set. unfold wn. rewrite Et. destruct (N.eqb_spec a (g_from M)) as [Q|]; [subst; now rewrite Ep|reflexivity]. }
        set (wm := set_nonce wn _ _) in *.
        assert (Bm : forall a, balance wm a = balance wp a) by (intros; unfold wm, wn; now rewrite !balance_set).
        assert (Cm : forall a, code wm a = code wp a) by (intros; unfold wm, wn; now rewrite !code_set).
        assert (Um : forall a, suicided wm a = suicided wp a) by (intros; unfold wm, wn; now rewrite !suicided_set).
        assert (Sm : forall a k, state wm a k = state wp a k).
        { intros; unfold wm. rewrite state_set; [unfold wn; now rewrite state_set|]. unfold wn. now rewrite Et. }
        assert (Nm : forall a, a <> g_from M -> nonce wm a = nonce wp a).
        { intros a Ha. unfold wm, wn. rewrite !nonce_set. now rewrite (proj2 (N.eqb_neq _ _) Ha). }
        do 5 (split; [assumption|]). split; [reflexivity|]. split; [reflexivity|]. exact Nm. }
    destruct Q as (Q1 & Q2 & Q3 & Q4 & Q5 & Q6 & Q7 & Q8).
    assert (Eo' : exist wo (g_from M) = true) by (rewrite Q5, Xp; exact Ex).
    split; [intros; rewrite balance_set; congruence|]. split; [intros; rewrite code_set; congruence|].
    split; [intros; rewrite state_set by exact Eo'; congruence|]. split; [intros; rewrite suicided_set; congruence|].
    split. { intros a. rewrite exist_set. destruct (N.eqb_spec a (g_from M)) as [Q|]; [subst; now rewrite Ex|cbn [orb]; congruence]. }
    split; [change (w_logs wo = w_logs w); congruence|]. split; [change (w_refund wo = 0); congruence|].
    split. { intros a. rewrite nonce_set. cbn [andb]. destruct (N.eqb_spec a (g_from M)) as [Q|Hn]; [reflexivity|rewrite Q8 by exact Hn; congruence]. }
    rewrite Q7, R0, N.min_0_l, N.sub_0_r. apply (C93_failed_create keccak committed is_pre pre_gas pre_run call_allowed create_allowed) in Eo. fold set_nonce in Eo.
    destruct Eo as [(_ & -> & -> & [[Ha|[Hd|Hb]]|Hn])|(_ & _ & [->| ->])].
    + right; right. split; [lia|]. auto.
    + lia.
    + right; right. split; [lia|]. split; [reflexivity|]. right; left. apply Z.leb_gt in Hb. rewrite balance_set, Bp in Hb. exact Hb.
    + right; right. split; [lia|]. split; [reflexivity|]. right; right. rewrite nonce_set, N.eqb_refl in Hn. auto.
    + now left.
    + right; left. lia.
Qed.

(* The sender of a new contract has the nonce after the message's, whatever happened; a contract that was made is at the
   address that the sender and the nonce of the message give. *)
Theorem C101_creation fuel M w r : proper M -> apply_message fuel M w = Ok r -> creates M = true ->
  nonce (r_world r) (g_from M) = g_nonce M + 1 /\
  (r_err r = None -> let a := create_address keccak (g_from M) (g_nonce M) in a <> g_from M ->
   code (r_world r) a = r_ret r /\ blen (r_ret r) <= 24576 /\ nonce w a = 0 /\
   (code_hash w a = 0 \/ code_hash w a = keccak [])).
Proof.
  intros [_ Pr] E Cr. destruct (inverts _ _ _ _ Pr E) as (L & o & Eo & Lo & ->). cbn [r_err r_world r_ret]. unfold creates in Cr.
  unfold ends_in, runs, begins in *. destruct (g_to M) as [t|] eqn:To; [discriminate|]. split; [rewrite nonce_set, N.eqb_refl; reflexivity|].
  set (a := create_address keccak (g_from M) (g_nonce M)) in *. intros Er Ha. destruct (prepare_same w (g_from M) None (g_list M)) as (A & _).
  destruct (C96_creation _ _ _ _ _ _ _ _ _ _ _ _ _ _ _ _ Eo Er (fun H => Ha (eq_sym H))) as (K1 & K2 & _ & K3 & K4).
  rewrite code_set. split; [exact K1|]. split; [exact K2|].
  rewrite nonce_set in K3. rewrite (proj2 (N.eqb_neq _ _) Ha) in K3.
  split; [unfold nonce in *; now rewrite A in K3|].
  unfold set_nonce, World.set_nonce, set_acct, code_hash, upd in K4. cbn [w_acct] in K4. rewrite (proj2 (N.eqb_neq _ _) Ha) in K4.
  unfold code_hash. now rewrite A in K4.
Qed.

(* No message makes money or changes code that is there; other accounts' nonces do not go back, nor does that of the sender of a call. *)
Theorem C101_money fuel M w r : polite committed is_pre pre_run -> pre_does is_pre pre_run (fun _ w w2 => fair w w2) ->
  fresh committed w -> sound w -> code w (g_from M) = [] -> proper M -> apply_message fuel M w = Ok r ->
  no_gain w (r_world r) /\ sound (r_world r) /\ (forall a, code w a <> [] -> code (r_world r) a = code w a) /\
  (forall a, creates M = false \/ a <> g_from M -> nonce w a <= nonce (r_world r) a).
Proof.
  intros P Pf Fr So Cf [Se Pr] E. destruct (inverts _ _ _ _ Pr E) as (L & o & Eo & Lo & ->). cbn [r_world].
  set (price := price_to_send _ _ _) in *.
  assert (T : transaction (g_from M) (begins M w) o).
  { exists fuel, (g_data M), (g_gas M - price), (g_value M). split; [apply (sendable_less _ (g_gas M)); [lia|exact Se]|].
    unfold runs in Eo. destruct (g_to M) as [t|] eqn:To; [left|right; now exists (g_nonce M)].
    exists t. split; [now apply begins_warm|exact Eo]. }
  assert (Fb := fresh_begins M w Fr). destruct (prepare_same w (g_from M) (g_to M) (g_list M)) as (A & _).
  assert (Bb : forall a, balance (begins M w) a = balance w a).
  { intros a. unfold begins. destruct (g_to M); [|rewrite balance_set]; unfold balance; now rewrite A. }
  assert (Cb : forall a, code (begins M w) a = code w a).
  { intros a. unfold begins. destruct (g_to M); [|rewrite code_set]; unfold code; now rewrite A. }
  assert (Nb : forall a, creates M = false \/ a <> g_from M -> nonce (begins M w) a = nonce w a).
  { intros a Ha. unfold begins, creates in *. destruct (g_to M).
    - unfold nonce; now rewrite A.
    - destruct Ha as [|Ha]; [discriminate|]. rewrite nonce_set, (proj2 (N.eqb_neq _ _) Ha). unfold nonce; now rewrite A. }
  assert (Sb : sound (begins M w)).
  { destruct So as [So1 So2]. split.
    - intros a Ha. rewrite Cb in Ha. destruct (N.eqb_spec a (g_from M)) as [Q|Hn]; [subst; contradiction|]. rewrite Nb by auto. now apply So1.
    - intros a. rewrite Bb. apply So2. }
  destruct (C95_no_money_made _ _ _ _ _ _ _ _ _ _ _ P Pf Fb Sb T) as [G So']. destruct (C96_code_is_for_ever _ _ _ _ _ _ _ _ _ _ _ P Pf Fb Sb T) as [Cc Nn].
  assert (Be : forall a, balance (ends_in M (o_world o)) a = balance (o_world o) a).
  { intros a. unfold ends_in. destruct (g_to M); [reflexivity|apply balance_set]. }
  assert (Ce : forall a, code (ends_in M (o_world o)) a = code (o_world o) a).
  { intros a. unfold ends_in. destruct (g_to M); [reflexivity|apply code_set]. }
  split; [|split; [|split]].
  - destruct G as [l Hl]. exists l. intros u Nu Iu. specialize (Hl u Nu Iu). unfold total in *.
    assert (Te : forall w1 w2, (forall a, balance w1 a = balance w2 a) -> map (balance w1) u = map (balance w2) u).
    { intros w1 w2 H. apply map_ext. exact H. }
    now rewrite (Te _ _ Be), <- (Te _ _ Bb).
  - destruct So' as [S1 S2]. split.
    + intros a Ha. rewrite Ce in Ha. apply S1 in Ha. unfold ends_in. destruct (g_to M); [exact Ha|]. rewrite nonce_set.
      destruct (a =? g_from M); [lia|exact Ha].
    + intros a. rewrite Be. apply S2.
  - intros a Ha. rewrite Ce. rewrite <- (Cb a). apply Cc. now rewrite Cb.
  - intros a Ha. rewrite <- (Nb a Ha). etransitivity; [apply Nn|]. unfold ends_in, creates in *. destruct (g_to M); [lia|].
    destruct Ha as [|Ha]; [discriminate|]. rewrite nonce_set, (proj2 (N.eqb_neq _ _) Ha). lia.
Qed.
End Props.
Print Assumptions C101_access_list.
Print Assumptions C101_charge.
Print Assumptions C101_failed.
Print Assumptions C101_creation.
Print Assumptions C101_money.

(* a user who calls the storing contract with 10 wei, three data bytes and an announced slot, and one who deploys *)
Definition xcall : msg := Msg 0xE0 (Some 0xA1) 3 100000 10 [1; 0; 2] [(0xA1, [9; 10])].
Definition xmake (v : N) : msg := Msg 0xE0 None 3 200000 v initing [].
Definition xapply (M : msg) (w : world) : res mres :=
  apply_message xhash xcommitted xblock no_pre pre_cost pre_nothing all2 all1 [1; 2] (N.to_nat 200001) M w.
Definition used_of (r : res mres) : option N := match r with Ok x => Some (r_used x) | _ => None end.
Definition left_in (r : res mres) : world := match r with Ok x => r_world x | _ => xworld [] end.
Definition failed_of (r : res mres) : option verr := match r with Ok x => r_err x | _ => None end.
Example C101_hypotheses :
  polite xcommitted no_pre pre_nothing /\ fresh xcommitted (xworld storing) /\ proper xcall /\ proper (xmake 4) /\
  sound (xworld storing) /\ pre_does no_pre pre_nothing (fun _ w w2 => fair w w2) /\
  exist (xworld storing) 0xE0 = true /\ code (xworld storing) 0xE0 = [].
Proof.
  split; [exact xpolite|]. split.
  { apply xfresh; [|reflexivity]. repeat (constructor; [reflexivity|]). constructor. }
  split. { split; [|reflexivity]. split; [|split; reflexivity]. repeat (constructor; [reflexivity|]). constructor. }
  split. { split; [|reflexivity]. split; [|split; reflexivity]. repeat (constructor; [reflexivity|]). constructor. }
  split. { split; intros a; unfold code, nonce, balance, xworld; cbn; destruct (a =? 0xE0); cbn; try lia; destruct (a =? 0xA1); cbn; try lia; congruence. }
  split. { intros ro s a input g v w ret used w2 E. discriminate E. }
  split; reflexivity.
Qed.
(* the price is 21000 + 4 + 2*16 + 2400 + 2*1900; storing empties a slot, which gives 4800 back;
   the deployment sends 4; a deployment sending more than the user has costs its price and the nonce *)
Example C101_concrete :
  price_to_send (g_data xcall) (g_list xcall) (creates xcall) = 27236 /\
  used_of (xapply xcall (xworld storing)) = Some (27236 + 22100 + 2900 + 29 - 4800) /\
  balance (left_in (xapply xcall (xworld storing))) 0xA1 = 60%Z /\
  nonce (left_in (xapply xcall (xworld storing))) 0xE0 = 3 /\
  nonce (left_in (xapply (xmake 4) (xworld []))) 0xE0 = 4 /\
  code (left_in (xapply (xmake 4) (xworld []))) (create_address xhash 0xE0 3) = [0] /\
  failed_of (xapply (xmake 2000) (xworld [])) = Some EBalance /\
  used_of (xapply (xmake 2000) (xworld [])) = Some (price_to_send initing [] true) /\
  nonce (left_in (xapply (xmake 2000) (xworld []))) 0xE0 = 4.
Proof. vm_compute. repeat split. Qed.
