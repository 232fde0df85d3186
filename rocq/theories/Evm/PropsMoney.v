(* C95-C96: what running contracts can do to accounts and their money. *)
From Coq Require Import NArith Nnat.
From Verif Require Import Lib.Base Lib.Bytes Evm.Words Evm.World Evm.Memory Evm.Table Evm.Interp Evm.MemoryProofs
  Evm.TableProofs Evm.StepProofs Evm.Effects Evm.WorldProofs Evm.SafeProofs Evm.Ledger Evm.LedgerProofs Evm.EffectsProofs
  Evm.RunSpec Evm.RunProofs Evm.Example Evm.PropsRun.
Open Scope N_scope.

Section Props.
Variable keccak : bytes -> N.
Variable committed : N -> N -> N.
Variable B : block.
Variable is_pre : N -> bool.
Variable pre_gas : N -> bytes -> N.
Variable pre_run : bool -> N -> N -> bytes -> N -> N -> world -> bytes * option verr * N * world.
Variable call_allowed : N -> N -> bool.
Variable create_allowed : N -> bool.

Let top_call := top_call keccak committed B is_pre pre_gas pre_run call_allowed create_allowed.
Let top_create := top_create keccak committed B is_pre pre_gas pre_run call_allowed create_allowed.
Let create_address := create_address keccak.

(* a transaction of c: a call, or the creation of a contract, with a result *)
Definition transaction (c : N) (w : world) (o : out) : Prop :=
  exists n input gas v, sendable input gas /\
    ((exists a, w_addr w a = true /\ top_call n c a input gas v w = XOut o) \/
     (exists k, top_create n c (create_address c k) input gas v w = XOut o)).

Lemma transaction_effects c w o : polite committed is_pre pre_run -> fresh committed w -> transaction c w o ->
  effects keccak committed is_pre pre_run false c w (o_world o).
Proof.
  intros P Fr (n & input & gas & v & Se & [(a & Wa & E) | (k & E)]); apply polite_ok in P.
  - destruct (top_call_safe keccak committed B is_pre pre_gas pre_run call_allowed create_allowed P n c a input gas v w Fr Se Wa) as [C _].
    unfold top_call in E. rewrite E in C. apply C.
  - destruct (top_create_safe keccak committed B is_pre pre_gas pre_run call_allowed create_allowed P n c (rlp_pair c k) input gas v w Fr Se) as [C _].
    unfold top_create, create_address, Interp.create_address in E. rewrite E in C. apply C.
Qed.

(* C95.  Running contracts makes no money and no debts: if the built-in
   contracts do not, the accounts together never have more than before and no
   account has less than nothing. *)
Theorem C95_no_money_made c w o :
  polite committed is_pre pre_run -> pre_does is_pre pre_run (fun _ w w2 => fair w w2) ->
  fresh committed w -> sound w -> transaction c w o ->
  no_gain w (o_world o) /\ sound (o_world o).
Proof.
  intros P Pf Fr So T. destruct (effects_fair _ _ _ _ _ _ _ _ (transaction_effects _ _ _ P Fr T) Pf So) as (_ & _ & S & G). auto.
Qed.
(* Nor is any lost, unless a contract was destroyed in the transaction. *)
Theorem C95_no_money_lost c w o :
  polite committed is_pre pre_run -> pre_does is_pre pre_run (fun _ w w2 => w_acct w2 = w_acct w) ->
  fresh committed w -> sound w -> (forall a, suicided w a = false) -> nonce w c <> 0 -> transaction c w o ->
  (forall a, suicided (o_world o) a = false) -> same_total w (o_world o).
Proof.
  intros P Pa Fr So Ns Nc T. apply (effects_exact _ _ _ _ _ _ _ _ (transaction_effects _ _ _ P Fr T) Pa So); [|exact Nc].
  intros a. rewrite Ns. discriminate.
Qed.
(* Somebody else's account without code can only be paid: its balance does not
   drop, and nonce, code and storage stay. *)
Theorem C95_bystanders_are_spared c w o b :
  polite committed is_pre pre_run ->
  pre_does is_pre pre_run (fun s w w2 => s <> b -> exist w b = true -> spared b w w2) ->
  pre_does is_pre pre_run (fun _ w w2 => fair w w2) ->
  fresh committed w -> sound w -> c <> b -> bystander keccak b w -> transaction c w o ->
  spared b w (o_world o).
Proof.
  intros P Ps Pf Fr So Nb By T.
  exact (effects_spared keccak committed is_pre pre_run false c w (o_world o) b (transaction_effects _ _ _ P Fr T) Ps Pf So Nb By).
Qed.
(* A call of an account without code moves exactly the value. *)
Theorem C95_plain_payment n c a input gas v w :
  call_allowed c a = true -> is_pre a = false -> code w a = [] -> can_transfer w c v = true -> c <> a ->
  exists o, top_call n c a input gas v w = XOut o /\ o_err o = None /\ o_gas o = gas /\
    balance (o_world o) a = (balance w a + Z.of_N v)%Z /\ balance (o_world o) c = (balance w c - Z.of_N v)%Z /\
    (forall b, b <> a -> b <> c -> balance (o_world o) b = balance w b) /\
    (forall b, nonce (o_world o) b = nonce w b) /\ (forall b, code (o_world o) b = code w b).
Proof.
  intros A Np C Ct Ne. unfold top_call, Interp.top_call, evm_call. rewrite A, Np, Ct. cbn [negb andb N.ltb N.compare].
  rewrite !andb_false_r. rewrite andb_true_r.
  destruct (negb (exist w a) && (v =? 0)) eqn:Q.
  - apply andb_prop in Q. destruct Q as [_ Q]. apply N.eqb_eq in Q. subst v.
    eexists. split; [reflexivity|]. cbn [o_err o_gas o_world]. repeat split; cbn; intros; lia.
  - assert (Cd : code (send keccak committed w c a v) a = []) by (rewrite send_code; exact C).
    unfold send in Cd. rewrite Cd. unfold run_frame. cbn [f_code settle].
    eexists. split; [reflexivity|]. cbn [o_err o_gas o_world].
    change (transfer keccak committed (if exist w a then w else create_account keccak committed w a) c a v)
      with (send keccak committed w c a v).
    repeat split; intros; rewrite ?send_bal, ?send_nonce, ?send_code; try reflexivity.
    + rewrite N.eqb_refl. destruct (N.eqb_spec a c) as [E|]; [congruence|]. lia.
    + rewrite N.eqb_refl. destruct (N.eqb_spec c a) as [E|]; [congruence|]. lia.
    + destruct (N.eqb_spec b a); [congruence|]. destruct (N.eqb_spec b c); [congruence|]. lia.
Qed.

(* C96.  Code is never replaced and nonces never go back: after any transaction
   an account that had code has the same code, and every account has at least
   the nonce it had. *)
Theorem C96_code_is_for_ever c w o :
  polite committed is_pre pre_run -> pre_does is_pre pre_run (fun _ w w2 => fair w w2) ->
  fresh committed w -> sound w -> transaction c w o ->
  (forall a, code w a <> [] -> code (o_world o) a = code w a) /\ (forall a, nonce w a <= nonce (o_world o) a).
Proof.
  intros P Pf Fr So T. destruct (effects_fair _ _ _ _ _ _ _ _ (transaction_effects _ _ _ P Fr T) Pf So) as (N1 & C1 & _). auto.
Qed.
(* A creation that succeeds put the returned bytes at the address, with nonce at least 1; they are at most 24576 and do
   not start with 0xEF; and nobody had sent a transaction from there or put code there before. *)
Theorem C96_creation n c a init gas v w o :
  top_create n c a init gas v w = XOut o -> o_err o = None -> c <> a ->
  code (o_world o) a = o_ret o /\ blen (o_ret o) <= 24576 /\ hd 0 (o_ret o) <> 0xEF /\
  nonce w a = 0 /\ (code_hash w a = 0 \/ code_hash w a = keccak []).
Proof.
  unfold top_create, Interp.top_create, evm_create. destruct (create_allowed c); cbn [negb]; [|intros H; inversion H; subst; discriminate].
  cbn [N.ltb N.compare]. destruct (can_transfer w c v); cbn [negb]; [|intros H; inversion H; subst; discriminate].
  destruct (U64 <=? nonce w c + 1); [intros H; inversion H; subst; discriminate|].
  set (w1 := warm (set_nonce keccak committed w c (nonce w c + 1)) a).
  destruct (negb (nonce w1 a =? 0) || _) eqn:Col; [intros H; inversion H; subst; discriminate|].
  intros H He Ne. apply orb_false_iff in Col. destruct Col as [C1 C2]. apply negb_false_iff, N.eqb_eq in C1.
  assert (W1 : w_acct w1 a = w_acct w a).
  { unfold w1. cbn. unfold upd. destruct (N.eqb_spec a c); [congruence|reflexivity]. }
  unfold nonce, code_hash in C1, C2. rewrite W1 in C1, C2. fold (nonce w a) in C1. fold (code_hash w a) in C2.
  assert (D : code_hash w a = 0 \/ code_hash w a = keccak []).
  { destruct (N.eqb_spec (code_hash w a) 0) as [E|]; [auto|]. cbn in C2. apply negb_false_iff, N.eqb_eq in C2. auto. }
  unfold settle in H. unfold deposit in H.
  match type of H with context [run_frame ?r ?F ?g ?ww] => destruct (run_frame r F g ww) as [[ret [e|] g1 w2]| |] end; try discriminate.
  { inversion H. subst. discriminate. }
  destruct (N.ltb_spec 24576 (blen ret)) as [L|L].
  { inversion H. subst. discriminate. }
  assert (K : hd 0 ret <> 0xEF /\ o = Out ret None (g1 - blen ret * 200) (set_code keccak committed w2 a ret)).
  { destruct (N.eqb_spec (hd 0 ret) 0xEF) as [E|E].
    - destruct ret as [|b ret]; [discriminate|]. cbn in E. subst b. inversion H. subst. discriminate.
    - split; [exact E|]. destruct (N.ltb_spec g1 (blen ret * 200)) as [L2|L2].
      + exfalso. destruct ret as [|b ret]; [inversion H; subst; discriminate|].
        cbn in E. destruct b as [|p]; [inversion H; subst; discriminate|].
        do 8 (destruct p; try (inversion H; subst; discriminate)); congruence.
      + destruct ret as [|b ret]; [inversion H; reflexivity|].
        cbn in E. destruct b as [|p]; [inversion H; reflexivity|].
        do 8 (destruct p; try (inversion H; reflexivity)); congruence. }
  destruct K as [K ->]. cbn [o_ret o_world]. split; [|repeat split; auto].
  unfold code, set_code, set_acct, upd. cbn. rewrite N.eqb_refl. reflexivity.
Qed.
End Props.

(* ---- concrete cases ---- *)
Example C95_concrete : fresh xcommitted (xworld leaving) /\ sound (xworld leaving) /\
  (forall a, suicided (xworld leaving) a = false) /\ nonce (xworld leaving) 0xE0 <> 0 /\
  bystander xhash 0xE0 (xworld leaving) /\
  pre_does no_pre pre_nothing (fun _ w w2 => fair w w2) /\
  total (world_of (run leaving [] 50000 10)) [0xA1; 0xBE; 0xE0] = total (xworld leaving) [0xA1; 0xBE; 0xE0] /\
  balance (world_of (run leaving [] 50000 10)) 0xBE = 60%Z.
Proof.
  split; [apply xfresh; [repeat constructor|reflexivity]|].
  split. { split; intros a; unfold code, nonce, balance, xworld; cbn; destruct (a =? 0xE0); cbn; try lia; destruct (a =? 0xA1); cbn; try lia; congruence. }
  split. { intros a. unfold suicided, xworld. cbn. destruct (a =? 0xE0); [reflexivity|]. destruct (a =? 0xA1); reflexivity. }
  split; [vm_compute; discriminate|]. split.
  { split; [reflexivity|]. split; [reflexivity|]. left. vm_compute. discriminate. }
  split. { intros ro s a input g v w ret used w2 E. discriminate E. }
  split; vm_compute; reflexivity.
Qed.
(* a contract made by a transaction: its code is the one byte 0 and it has the 4 sent along *)
Example C96_deployed :
  err_of (deploy initing 100000 4) = None /\ ret_of (deploy initing 100000 4) = [0] /\
  code (world_of (deploy initing 100000 4)) (create_address xhash 0xE0 3) = [0] /\
  nonce (world_of (deploy initing 100000 4)) (create_address xhash 0xE0 3) = 1 /\
  balance (world_of (deploy initing 100000 4)) (create_address xhash 0xE0 3) = 4%Z.
Proof. vm_compute. repeat split. Qed.

(* The exception: a contract that destroys itself in favour of itself burns what it had. *)
Theorem C95_refuted_money_is_never_lost :
  exists o, run burning [] 50000 0 = XOut o /\ o_err o = None /\
    total (xworld burning) [0xA1; 0xE0] = 1050%Z /\ total (o_world o) [0xA1; 0xE0] = 1000%Z /\
    forall b, b <> 0xA1 -> balance (o_world o) b = balance (xworld burning) b.
Proof.
  assert (Ex : exists o, run burning [] 50000 0 = XOut o) by (apply is_out_ex; vm_compute; reflexivity).
  destruct Ex as [o Eo]. exists o. split; [exact Eo|].
  assert (X : err_of (run burning [] 50000 0) = None /\ total (world_of (run burning [] 50000 0)) [0xA1; 0xE0] = 1000%Z) by (vm_compute; auto).
  rewrite Eo in X. cbn in X. split; [apply X|]. split; [vm_compute; reflexivity|]. split; [apply X|].
  intros b Nb. assert (Q : world_of (XOut o) = o_world o) by reflexivity. rewrite <- Q, <- Eo.
  assert (R : forall w', balance w' b = match w_acct w' b with Some x => x_bal x | None => 0%Z end) by reflexivity.
  rewrite !R. apply N.eqb_neq in Nb.
  change (match w_acct (world_of (run burning [] 50000 0)) b with Some x => x_bal x | None => 0%Z end =
    match w_acct (xworld burning) b with Some x => x_bal x | None => 0%Z end).
  vm_compute in Nb |- *. destruct b as [|p]; [reflexivity|]. do 8 (destruct p; try reflexivity; try discriminate).
Qed.

Print Assumptions C95_no_money_made.
Print Assumptions C95_no_money_lost.
Print Assumptions C95_bystanders_are_spared.
Print Assumptions C95_plain_payment.
Print Assumptions C95_refuted_money_is_never_lost.
Print Assumptions C96_code_is_for_ever.
Print Assumptions C96_creation.
