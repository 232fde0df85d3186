(* C18-C21, C54, C55: the state of an EVM transaction. *)
From Verif Require Import Lib.Base Lib.Bytes Lib.Amap Statedb.Model Statedb.Spec Statedb.Proofs Statedb.RevertProofs Statedb.SimProofs
  Statedb.CommitProofs Statedb.HistoryProofs.
Open Scope Z_scope.

(* ------------------------------------------------------------------ *)
(* a concrete chain for the examples                                   *)
(* ------------------------------------------------------------------ *)

(* an injective stand-in for Keccak *)
Fixpoint toy (b : bytes) : word := match b with [] => 0%N | x :: b' => (2 ^ x * (2 * toy b' + 1))%N end.

Lemma odd_part x y a b : (2 ^ x * (2 * a + 1) = 2 ^ y * (2 * b + 1))%N -> x = y /\ a = b.
Proof.
  assert (L : forall x y a b, (x < y)%N -> (2 ^ x * (2 * a + 1) = 2 ^ y * (2 * b + 1))%N -> False).
  { clear. intros x y a b L H. replace y with (x + N.succ (y - x - 1))%N in H by lia. rewrite N.pow_add_r, <- N.mul_assoc in H.
    apply N.mul_cancel_l in H; [|apply N.pow_nonzero; lia]. rewrite N.pow_succ_r' in H. lia. }
  intro H. destruct (N.lt_trichotomy x y) as [X|[X|X]]; [destruct (L _ _ _ _ X H)| |destruct (L _ _ _ _ X (eq_sym H))].
  subst y. apply N.mul_cancel_l in H; [|apply N.pow_nonzero; lia]. lia.
Qed.
Lemma toy_inj x : forall y, toy x = toy y -> x = y.
Proof.
  induction x as [|a x IH]; intros [|b y] H; cbn [toy] in H; [reflexivity| | |].
  - exfalso. assert (2 ^ b <> 0)%N by (apply N.pow_nonzero; lia). lia.
  - exfalso. assert (2 ^ a <> 0)%N by (apply N.pow_nonzero; lia). lia.
  - apply odd_part in H as [-> H]. f_equal. apply IH. exact H.
Qed.

(* two accounts: 1 with 100 coins and nonce 5, and the contract 2 with code [1;2], 50 coins and slot 7 holding 9;
   3 has 4 coins and was never used *)
Definition chain : store :=
  Store (fun a => if N.eqb a 1 then Some 5%N else if N.eqb a 2 then Some 1%N else if N.eqb a 3 then Some 0%N else None)
        (fun a => if N.eqb a 1 then 100 else if N.eqb a 2 then 50 else if N.eqb a 3 then 4 else 0)
        (fun a => if N.eqb a 2 then Some (toy [1; 2]%N) else None)
        (fun h => if N.eqb h (toy [1; 2]%N) then Some [1; 2]%N else None)
        (fun a k => if N.eqb a 2 && N.eqb k 7 then Some 9%N else None)
        (fun _ => 0) (fun _ => false) 154.
Lemma chain_ok : store_ok toy chain.
Proof.
  constructor.
  - intros h c. cbn [st_code chain]. destruct (N.eqb_spec h (toy [1; 2]%N)) as [->|]; [|discriminate]. intro H; injection H as <-. reflexivity.
  - intros a h. cbn [st_chash st_code chain]. destruct (N.eqb a 2); [|discriminate]. intro H; injection H as <-. intros _. rewrite N.eqb_refl. discriminate.
Qed.

(* a concrete run and its commit, seen through f *)
Lemma commit_case {A} st ops (f : list out -> sdb -> sdb -> A) r :
  rbind (run toy (new_db st 0) ops) (fun '(os, s) => rbind (commit toy s) (fun s' => Ok (f os s s'))) = Ok r ->
  exists os s s', run toy (new_db st 0) ops = Ok (os, s) /\ commit toy s = Ok s' /\ f os s s' = r.
Proof.
  intro H. apply rbind_inv in H as ([os s] & H1 & H2). apply rbind_inv in H2 as (s' & H2 & H3). injection H3 as H3. eauto 10.
Qed.
Lemma run_case {A} st ops (f : list out -> sdb -> A) r :
  rbind (run toy (new_db st 0) ops) (fun '(os, s) => Ok (f os s)) = Ok r -> exists os s, run toy (new_db st 0) ops = Ok (os, s) /\ f os s = r.
Proof. intro H. apply rbind_inv in H as ([os s] & H1 & H2). injection H2 as H2. eauto 10. Qed.

Lemma inv_run keccak ops : forall s0 ts os s, inv keccak s0 ts -> Forall no_inner_commit ops -> none_failed os -> run keccak s0 ops = Ok (os, s) ->
  exists ts', inv keccak s ts'.
Proof.
  induction ops as [|x l IH]; intros s0 ts os s I F Nf H; cbn [run] in H; [injection H as <- <-; eauto|].
  apply rbind_inv in H as ([o t1] & H1 & H2). apply rbind_inv in H2 as ([os1 t2] & H2 & H3). injection H3 as <- <-.
  destruct (inv_step keccak s0 ts x o t1 I (Forall_inv F) (fun X => Nf (or_introl X)) H1) as (ts1 & I1 & _).
  eapply (IH t1 ts1 os1); [exact I1|exact (Forall_inv_tail F)| |exact H2]. intro X; apply Nf; right; exact X.
Qed.

Lemma run_ctx keccak st lb ops os s : store_ok keccak st -> Forall no_precompile ops -> run keccak (new_db st lb) ops = Ok (os, s) -> d_ctx s = st.
Proof.
  intros S F H. revert H. generalize (cinv_new keccak st lb S). generalize (@nil sdb), (@nil N).
  assert (G : forall l t ts m os s, cinv keccak t ts m -> Forall no_precompile l -> run keccak t l = Ok (os, s) -> d_ctx s = d_ctx t).
  { clear. induction l as [|x l IH]; intros t ts m os s I F H; cbn [run] in H; [injection H as <- <-; reflexivity|].
    apply rbind_inv in H as ([o t1] & H1 & H2). apply rbind_inv in H2 as ([os1 t2] & H2 & H3). injection H3 as <- <-.
    destruct (cinv_step keccak _ _ _ _ _ _ I (Forall_inv F) H1) as (ts1 & I1). rewrite (IH _ _ _ _ _ I1 (Forall_inv_tail F) H2).
    assert (Ord : ordinary x -> d_ctx t1 = d_ctx t) by (intro Or; eapply ks_ctx; eapply okstep_step; [apply I|apply I|apply I|exact Or|exact (Forall_inv F)|exact H1]).
    destruct x; try (apply Ord; exact Logic.I); cbn [step] in H1; [unfold snapshot in H1; injection H1 as _ <-; reflexivity|].
    unfold revert_to_snapshot in H1. destruct (nth_error (d_revs t) _) as [[i n]|]; [|discriminate]. destruct (negb _); [discriminate|]. unfold jrevert in H1.
    destruct (pops keccak _ t) as [s1| |] eqn:P; try discriminate. injection H1 as _ <-. apply (pops_ctx _ _ _ _ P). }
  intros l l0 c H. exact (G _ _ _ _ _ _ c F H).
Qed.

(* ------------------------------------------------------------------ *)
(* C18: reverting                                                      *)
(* ------------------------------------------------------------------ *)

(* Without precompile calls the journal is invisible: every answer of every
   operation is the answer of the machine that copies the whole state at
   Snapshot and puts the copy back at RevertToSnapshot, and one panics exactly
   when the other does (an unknown snapshot, a refund below zero). *)
Theorem C18_journal_acts_as_copying keccak st lb ops : Forall no_precompile ops ->
  match run keccak (new_db st lb) ops, srun keccak (spec0 keccak st lb) ops with
  | Ok (os, _), Ok (os', _) => os = os'
  | Panic, Panic => True
  | _, _ => False
  end.
Proof.
  intro F. pose proof (run_sim keccak ops _ _ _ (sim0 keccak st lb) F) as H.
  destruct (run keccak (new_db st lb) ops) as [[os s]| |], (srun keccak (spec0 keccak st lb) ops) as [[os' p]| |]; try contradiction; [apply H|exact I].
Qed.
Print Assumptions C18_journal_acts_as_copying.

Definition ops1 : list op :=
  [SetState 2 7 1; Snapshot; SubBalance 1 30; AddBalance 2 30; SetState 2 7 2; AddSlotToAccessList 2 7; Snapshot; Suicide 2; CreateAccount 4;
   AddBalance 4 8; GetBalance 2; HasSuicided 2; RevertToSnapshot 1; GetBalance 2; Exist 4; GetState 2 7; RevertToSnapshot 0;
   GetBalance 2; GetState 2 7; GetCommittedState 2 7; SlotInAccessList 2 7].
Example C18_copying_case : Forall no_precompile ops1 /\
  (rbind (run toy (new_db chain 0) ops1) (fun '(os, _) => Ok (skipn 10 os))) =
  Ok [OInt 0; OBool true; OUnit; OInt 80; OBool false; ONat 2; OUnit; OInt 50; ONat 1; ONat 9; OBool2 false false].
Proof. split; [repeat constructor|vm_compute; reflexivity]. Qed.

(* With precompile calls in between: reverting to a live snapshot succeeds and
   gives back everything that can be read, called or committed, provided no
   precompile call failed and none commits the transaction by itself. *)
Theorem C18_revert_restores_partial keccak st lb ops os s id s1 ops' os' s2 :
  run keccak (new_db st lb) ops = Ok (os, s) ->
  step keccak s Snapshot = Ok (ONat id, s1) ->
  run keccak s1 ops' = Ok (os', s2) ->
  (forall j, In (RevertToSnapshot j) ops' -> (id < j)%N) ->                 (* the snapshot itself was not given up *)
  Forall no_inner_commit (ops ++ ops') -> none_failed (os ++ os') ->
  exists s3, step keccak s2 (RevertToSnapshot id) = Ok (OUnit, s3) /\ same_reads keccak s3 s.
Proof.
  intros H Hs H' Hj F Nf. apply Forall_app in F as [F F'].
  assert (N1 : none_failed os) by (intro X; apply Nf; apply in_or_app; auto). assert (N2 : none_failed os') by (intro X; apply Nf; apply in_or_app; auto).
  destruct (inv_run keccak ops _ _ _ _ (inv_new keccak st lb) F N1 H) as (ts & I1).
  assert (No : ONat id <> OPre PreFailed) by discriminate.
  destruct (inv_step keccak s ts Snapshot _ s1 I1 I No Hs) as (ts1 & I2 & -> & R & Nx & E). injection E as ->.
  assert (Ln : length (d_revs s) = length ts) by (pose proof (i_revs _ _ _ I1) as Q; clear -Q; induction Q; cbn; lia).
  assert (A : nth_error (d_revs s1) (length ts) = Some (d_next s, length (d_journal s))) by (rewrite R, nth_error_app2, Ln, Nat.sub_diag by lia; reflexivity).
  assert (B : nth_error (ts ++ [s]) (length ts) = Some s) by (rewrite nth_error_app2, Nat.sub_diag by lia; reflexivity).
  destruct (live_run keccak ops' s1 _ os' s2 _ _ _ _ I2 A B F' N2 Hj H') as (ts2 & I3 & A3 & B3).
  pose proof (revert_spec keccak s2 ts2 (d_next s) I3) as V. cbn [step]. destruct (revert_to_snapshot keccak s2 (d_next s)) as [s3| |] eqn:Er; [|contradiction|].
  - exists s3. split; [reflexivity|]. destruct V as (i & n & t & Ei & Et & Q & _).
    assert (i = length ts).
    { eapply nodup_nth_eq; [apply ids_nodup; apply (i_sorted _ _ _ I3)| |]; [apply (map_nth_error fst) in Ei; exact Ei|apply (map_nth_error fst) in A3; exact A3]. }
    subst i. assert (t = s) by congruence. subst t. destruct Q. unfold same_reads. auto 10.
  - exfalso. apply V. apply in_map_iff. exists (d_next s, length (d_journal s)). split; [reflexivity|]. eapply nth_error_In. exact A3.
Qed.
Print Assumptions C18_revert_restores_partial.

(* a precompile that moves 5 coins from account 1 to account 9 and records it *)
Definition move5 (st : store) : store :=
  with_bal st (upd (upd (st_bal st) 1 (st_bal st 1%N - 5)) 9 (st_bal st 9%N + 5)) (st_supply st).
Definition good_call : pre_run := PreRun 100 false move5 (fun _ => Some [BSub 1 5; BAdd 9 5]).
Example C18_revert_case :
  let ops' := [SetNonce 1 6; Precompile good_call; Snapshot; SetState 2 7 3; RevertToSnapshot 1] in
  Forall no_inner_commit ops' /\
  rbind (run toy (new_db chain 0) (Snapshot :: ops' ++ [GetBalance 9; RevertToSnapshot 0; GetBalance 9; GetNonce 1])) (fun '(os, s) => Ok (os, d_dirties s)) =
  Ok ([ONat 0; OUnit; OPre PreOk; ONat 1; OUnit; OUnit; OInt 5; OUnit; OInt 0; ONat 5], []).
Proof. split; [repeat constructor|vm_compute; reflexivity]. Qed.

(* The first condition is needed.  Calls of precompiles first write the pending
   changes to the cache; if the call then fails nothing is journalled, and the
   revert that follows the failure does not take the writes back.  Here the
   transaction reverts everything and ends; slot 7 of contract 2 was 9 and is
   committed as 1. *)
Definition failing_call : pre_run := PreRun 100 false (fun st => st) (fun _ => None).
Theorem C18_revert_after_failed_precompile_refuted :
  exists st ops os s s', run toy (new_db st 0) (Snapshot :: ops ++ [RevertToSnapshot 0]) = Ok (os, s) /\
  Forall no_inner_commit ops /\ d_dirties s = [] /\ commit toy s = Ok s' /\ k_state st 2 7 = 9%N /\ k_state (d_ctx s') 2 7 = 1%N.
Proof.
  exists chain, [SetState 2 7 1; Precompile failing_call].
  destruct (commit_case chain (Snapshot :: [SetState 2 7 1; Precompile failing_call] ++ [RevertToSnapshot 0]) (fun os s s' => (d_dirties s, k_state (d_ctx s') 2 7)) ([], 1%N) ltac:(vm_compute; reflexivity)) as (os & s & s' & R & C & O).
  injection O as O1 O2. exists os, s, s'. split; [exact R|]. split; [repeat constructor|]. split; [exact O1|]. split; [exact C|]. split; [reflexivity|exact O2].
Qed.
Print Assumptions C18_revert_after_failed_precompile_refuted.

(* The second condition is needed too: the chronos, hyperion, gov and logos
   precompiles commit the transaction's pending writes; a later revert leaves
   them in the chain state.  The call itself succeeds. *)
Definition committing_call : pre_run := PreRun 100 true (fun st => st) (fun _ => Some []).
Theorem C18_revert_after_committing_precompile_refuted :
  exists st ops os s s', run toy (new_db st 0) (Snapshot :: ops ++ [RevertToSnapshot 0]) = Ok (os, s) /\
  none_failed os /\ d_dirties s = [] /\ commit toy s = Ok s' /\ k_state st 2 7 = 9%N /\ k_state (d_ctx s') 2 7 = 1%N.
Proof.
  exists chain, [SetState 2 7 1; Precompile committing_call].
  destruct (commit_case chain (Snapshot :: [SetState 2 7 1; Precompile committing_call] ++ [RevertToSnapshot 0]) (fun os s s' => (os, d_dirties s, k_state (d_ctx s') 2 7)) ([ONat 0; OUnit; OPre PreOk; OUnit], [], 1%N) ltac:(vm_compute; reflexivity)) as (os & s & s' & R & C & O).
  injection O as O0 O1 O2. exists os, s, s'. split; [exact R|]. split; [rewrite O0; intros [X|[X|[X|[X|[]]]]]; discriminate X|].
  split; [exact O1|]. split; [exact C|]. split; [reflexivity|exact O2].
Qed.
Print Assumptions C18_revert_after_committing_precompile_refuted.

(* ------------------------------------------------------------------ *)
(* C19: what a commit touches                                          *)
(* ------------------------------------------------------------------ *)

(* a transaction that reverts everything commits, and leaves the chain as it was *)
Theorem C19_reverted_commits_nothing_partial keccak st lb ops os s :
  (forall j, In (RevertToSnapshot j) ops -> (0 < j)%N) -> Forall no_inner_commit ops -> none_failed os ->
  run keccak (new_db st lb) (Snapshot :: ops ++ [RevertToSnapshot 0]) = Ok (os, s) ->
  exists s', commit keccak s = Ok s' /\ d_ctx s' = st.
Proof.
  intros Hj F Nf H. change (Snapshot :: ops ++ [RevertToSnapshot 0]) with ([Snapshot] ++ (ops ++ [RevertToSnapshot 0])) in H.
  rewrite !run_app in H. apply rbind_inv in H as ([o1 s1] & H1 & H). apply rbind_inv in H as ([o2 s2] & H & E). injection E as <- <-.
  rewrite run_app in H. apply rbind_inv in H as ([o3 s3] & H3 & H). apply rbind_inv in H as ([o4 s4] & H4 & E). injection E as <- <-.
  cbn [run] in H1. apply rbind_inv in H1 as ([o t] & H1 & E). injection E as <- <-.
  assert (H1' : step keccak (new_db st lb) Snapshot = Ok (ONat 0, t)) by (injection H1 as H0 H1; cbn [step]; rewrite <- H1; reflexivity).
  destruct (C18_revert_restores_partial keccak st lb [] [] (new_db st lb) 0%N t ops o3 s3 eq_refl H1' H3) as (s5 & R & S); auto.
  { intro X. apply Nf. apply in_or_app. right. apply in_or_app. left. exact X. }
  cbn [run] in H4. rewrite R in H4. cbn [rbind] in H4. injection H4 as _ <-. destruct S as (_ & _ & _ & _ & Sd & Sc & Sh).
  unfold commit, commit_with. fold (cache_of s5). rewrite Sd, Sh. cbn. eexists. split; reflexivity.
Qed.
Print Assumptions C19_reverted_commits_nothing_partial.
Example C19_reverted_case :
  is_ok (run toy (new_db chain 0) (Snapshot :: [SetState 2 7 1; Suicide 1; Precompile good_call; CreateAccount 4] ++ [RevertToSnapshot 0])) = true.
Proof. vm_compute. reflexivity. Qed.

(* accounts that were not changed are not written *)
Theorem C19_untouched_accounts_not_written keccak (inj : forall x y, keccak x = keccak y -> x = y) st lb ops os s s' a :
  store_ok keccak st -> Forall no_precompile ops -> run keccak (new_db st lb) ops = Ok (os, s) -> commit keccak s = Ok s' ->
  aget (d_dirties s) a = None ->
  st_acct (d_ctx s') a = st_acct st a /\ st_bal (d_ctx s') a = st_bal st a /\ st_chash (d_ctx s') a = st_chash st a /\ st_stor (d_ctx s') a = st_stor st a.
Proof.
  intros S F H C D. destruct (cinv_run keccak ops _ _ _ _ _ (cinv_new keccak st lb S) F H) as (ts & I).
  pose proof (run_ctx keccak st lb ops os s S F H) as E.
  destruct (commit_frame keccak inj s ts _ s' a I C D) as (A1 & A2 & A3 & A4). rewrite E in *. auto.
Qed.
Print Assumptions C19_untouched_accounts_not_written.
Example C19_untouched_case :
  rbind (run toy (new_db chain 0) (ops1 ++ [SetNonce 1 6])) (fun '(_, s) => rbind (commit toy s) (fun s' => Ok (aget (d_dirties s) 4, st_acct (d_ctx s') 4, st_acct (d_ctx s') 1))) =
  Ok (None, None, Some 6%N).
Proof. vm_compute. reflexivity. Qed.

(* committing never panics *)
Theorem C19_commit_never_panics keccak (inj : forall x y, keccak x = keccak y -> x = y) st lb ops os s :
  store_ok keccak st -> Forall no_precompile ops -> run keccak (new_db st lb) ops = Ok (os, s) -> commit keccak s <> Panic.
Proof.
  intros S F H. destruct (cinv_run keccak ops _ _ _ _ _ (cinv_new keccak st lb S) F H) as (ts & I). eapply commit_no_panic; eassumption.
Qed.
Print Assumptions C19_commit_never_panics.
Example C19_panic_case : rbind (run toy (new_db chain 0) ops1) (fun '(_, s) => Ok (is_ok (commit toy s))) = Ok true.
Proof. vm_compute. reflexivity. Qed.

(* a reverted write of a slot is remembered with its old value, so a later commit of the account stores an explicit zero
   where there was no entry (the raw state, hence the app hash, changes although nothing observable did) *)
Theorem C19_reverted_slot_not_written_refuted :
  exists st ops os s s', run toy (new_db st 0) ops = Ok (os, s) /\ commit toy s = Ok s' /\
  ops = [Snapshot; SetState 2 8 1; RevertToSnapshot 0; SetNonce 2 1] /\ st_stor st 2 8 = None /\ st_stor (d_ctx s') 2 8 = Some 0%N.
Proof.
  exists chain, [Snapshot; SetState 2 8 1; RevertToSnapshot 0; SetNonce 2 1].
  destruct (commit_case chain [Snapshot; SetState 2 8 1; RevertToSnapshot 0; SetNonce 2 1] (fun os s s' => st_stor (d_ctx s') 2 8) (Some 0%N) ltac:(vm_compute; reflexivity)) as (os & s & s' & R & C & O).
  exists os, s, s'. split; [exact R|]. split; [exact C|]. split; [reflexivity|]. split; [reflexivity|exact O].
Qed.
Print Assumptions C19_reverted_slot_not_written_refuted.

(* ------------------------------------------------------------------ *)
(* C20: warmth                                                         *)
(* ------------------------------------------------------------------ *)

(* warm is exactly: some Add call that no revert undid named it *)
Theorem C20_warm_exactly keccak st lb ops os s a k :
  run keccak (new_db st lb) ops = Ok (os, s) -> Forall no_inner_commit ops -> none_failed os ->
  step keccak s (AddressInAccessList a) = Ok (OBool (existsb (adds_address a) (survivors ops)), s) /\
  step keccak s (SlotInAccessList a k) = Ok (OBool2 (existsb (adds_address a) (survivors ops)) (existsb (adds_slot a k) (survivors ops)), s).
Proof.
  intros H F Nf. destruct (warm_run keccak st lb ops os s F Nf H) as [W1 W2]. cbn [step]. rewrite W1. split; [reflexivity|].
  rewrite <- W1, <- W2. unfold al_contains, al_contains_address, al_has. destruct (aget (al_addr (d_al s)) a) as [[i|]|] eqn:E; try reflexivity.
  destruct (nth_error (al_slots (d_al s)) i) eqn:M; [reflexivity|]. exfalso. apply nth_error_None in M.
  destruct (inv_run keccak ops _ _ _ _ (inv_new keccak st lb) F Nf H) as (ts & I1). pose proof (al_range _ (ro_al _ _ (proj2 (i_ok _ _ _ I1))) _ _ E). lia.
Qed.
Print Assumptions C20_warm_exactly.
Example C20_warm_case :
  let ops := [AddSlotToAccessList 2 7; Snapshot; AddSlotToAccessList 2 8; AddAddressToAccessList 3; Snapshot; AddSlotToAccessList 5 1; RevertToSnapshot 1;
              AddAddressToAccessList 6; RevertToSnapshot 0; AddSlotToAccessList 2 9] in
  survivors ops = [AddSlotToAccessList 2 7; AddSlotToAccessList 2 9] /\
  is_ok (run toy (new_db chain 0) ops) = true.
Proof. vm_compute. auto. Qed.

(* PrepareAccessList never panics and is the corresponding Add calls; hence
   after it exactly the sender, the recipient, the precompiles and the listed
   entries are warm *)
Theorem C20_prepare keccak st lb sender dst pcs l :
  exists s, prepare_access_list (new_db st lb) sender dst pcs l = Ok s /\
  (forall a, al_contains_address (d_al s) a = (N.eqb a sender || (match dst with Some d => N.eqb a d | None => false end) || existsb (N.eqb a) pcs || listed_addr l a)%bool) /\
  (forall a k, al_contains (d_al s) a k = Ok (al_contains_address (d_al s) a, listed_slot l a k)) /\
  exists os, run keccak (new_db st lb) (prepare_ops sender dst pcs l) = Ok (os, s).
Proof.
  destruct (prepare_ok keccak (new_db st lb) sender dst pcs l (i_ok _ _ _ (inv_new keccak st lb))) as (s & E).
  pose proof (prepare_steps keccak (new_db st lb) sender dst pcs l) as P. rewrite E in P.
  destruct (run keccak (new_db st lb) (prepare_ops sender dst pcs l)) as [[os s1]| |] eqn:R; try discriminate. cbn in P. injection P as ->.
  exists s. split; [exact E|].
  assert (Pl : forall x, In x (prepare_ops sender dst pcs l) -> exists a, x = AddAddressToAccessList a \/ exists k, x = AddSlotToAccessList a k).
  { intros x [<-|Hx]; [eauto|]. apply in_app_or in Hx as [Hx|Hx]; [destruct dst; [destruct Hx as [<-|[]]; eauto|destruct Hx]|].
    apply in_app_or in Hx as [Hx|Hx]; [apply in_map_iff in Hx as (b & <- & _); eauto|].
    unfold tuple_ops in Hx. apply in_flat_map in Hx as ([b ks] & _ & [<-|Hx]); [eauto|]. apply in_map_iff in Hx as (k & <- & _). eauto. }
  assert (Sv : forall ops cur n, (forall x, In x ops -> exists a, x = AddAddressToAccessList a \/ exists k, x = AddSlotToAccessList a k) -> survivors_from cur [] n ops = cur ++ ops).
  { induction ops as [|x ops IH]; intros cur n H; cbn [survivors_from]; [rewrite app_nil_r; reflexivity|].
    assert (T : forall y, In y ops -> exists a, y = AddAddressToAccessList a \/ exists k, y = AddSlotToAccessList a k) by (intros y Hy; apply H; right; exact Hy).
    destruct (H x (or_introl eq_refl)) as (a & [->|(k & ->)]); rewrite IH by exact T; rewrite <- app_assoc; reflexivity. }
  assert (Fn : Forall no_inner_commit (prepare_ops sender dst pcs l)) by (apply Forall_forall; intros x Hx; destruct (Pl x Hx) as (a & [->|(k & ->)]); exact I).
  assert (Nf : none_failed os).
  { assert (G : forall ops s0 os0 s1, (forall x, In x ops -> exists a, x = AddAddressToAccessList a \/ exists k, x = AddSlotToAccessList a k) ->
      run keccak s0 ops = Ok (os0, s1) -> Forall (eq OUnit) os0).
    { induction ops as [|x ops IH]; intros s0 os0 s1 H X; cbn [run] in X; [injection X as <- <-; constructor|].
      apply rbind_inv in X as ([o t1] & H1 & H2). apply rbind_inv in H2 as ([os1 t2] & H2 & H3). injection H3 as <- <-.
      constructor; [|eapply IH; [|exact H2]; intros y Hy; apply H; right; exact Hy].
      destruct (H x (or_introl eq_refl)) as (a & [->|(k & ->)]); cbn [step] in H1; [injection H1 as <- _; reflexivity|].
      destruct (add_slot s0 a k); try discriminate. injection H1 as <- _. reflexivity. }
    specialize (G _ _ _ _ Pl R). rewrite Forall_forall in G. intro X. specialize (G _ X). discriminate. }
  destruct (warm_run keccak st lb _ os s Fn Nf R) as [W1 W2]. unfold survivors in W1, W2. rewrite Sv in W1, W2 by exact Pl. cbn [app] in W1, W2.
  assert (T1 : forall a, existsb (adds_address a) (tuple_ops l) = listed_addr l a).
  { intro a. unfold tuple_ops, listed_addr. clear. induction l as [|[b ks] l' IH]; [reflexivity|]. cbn [flat_map existsb fst snd app]. rewrite existsb_app, IH. cbn [existsb adds_address].
    assert (X : existsb (adds_address a) (map (AddSlotToAccessList b) ks) = (N.eqb a b && negb (match ks with [] => true | _ => false end))%bool).
    { clear. induction ks as [|k ks IH]; cbn; [rewrite andb_false_r; reflexivity|]. rewrite IH. destruct (N.eqb a b), ks; reflexivity. }
    rewrite X. destruct (N.eqb a b), ks; reflexivity. }
  assert (T2 : forall a k, existsb (adds_slot a k) (tuple_ops l) = listed_slot l a k).
  { intros a k. unfold tuple_ops, listed_slot. clear. induction l as [|[b ks] l' IH]; [reflexivity|]. cbn [flat_map existsb fst snd]. rewrite existsb_app. cbn [existsb adds_slot orb]. rewrite IH. f_equal.
    clear. induction ks as [|j ks IH]; cbn; [rewrite andb_false_r; reflexivity|]. rewrite IH. destruct (N.eqb a b); reflexivity. }
  assert (P1 : forall a ks, existsb (adds_address a) (map AddAddressToAccessList ks) = existsb (N.eqb a) ks) by (intros a ks; induction ks as [|j ks IH]; cbn; [reflexivity|rewrite IH; reflexivity]).
  assert (P2 : forall a k ks, existsb (adds_slot a k) (map AddAddressToAccessList ks) = false) by (intros a k ks; induction ks as [|j ks IH]; cbn; [reflexivity|exact IH]).
  split; [|split; [|eauto]].
  - intro a. rewrite W1. unfold prepare_ops. cbn [existsb adds_address]. rewrite !existsb_app, T1, P1. destruct dst; cbn; rewrite ?orb_false_r, ?orb_assoc; reflexivity.
  - intros a k. destruct (C20_warm_exactly keccak st lb _ os s a k R Fn Nf) as [_ X]. cbn [step] in X.
    destruct (al_contains (d_al s) a k) as [[b c]| |]; try discriminate. cbn [rbind] in X. injection X as -> ->. f_equal.
    unfold survivors. rewrite Sv by exact Pl. cbn [app]. rewrite <- W1. f_equal. unfold prepare_ops. cbn [existsb adds_slot orb].
    rewrite !existsb_app, T2, P2. destruct dst; reflexivity.
Qed.
Print Assumptions C20_prepare.
Example C20_prepare_case :
  rbind (prepare_access_list (new_db chain 0) 1 (Some 2%N) [100; 101]%N [(2, [7; 7; 8]); (5, []); (2, [9])]%N) (fun s =>
    Ok (map (al_contains_address (d_al s)) [1; 2; 3; 5; 101]%N, al_contains (d_al s) 2 9, al_contains (d_al s) 5 9)) =
  Ok ([true; true; false; true; true], Ok (true, true), Ok (true, false)).
Proof. vm_compute. reflexivity. Qed.

(* adding what is already there changes nothing at all *)
Theorem C20_adding_twice_is_idempotent s a k : 
  (al_contains_address (d_al s) a = true -> add_address s a = s) /\
  (al_contains (d_al s) a k = Ok (true, true) -> add_slot s a k = Ok s).
Proof.
  unfold add_address, al_add_address, al_contains_address, add_slot, al_add_slot, al_contains. split.
  - destruct (aget (al_addr (d_al s)) a); [|discriminate]. intros _. destruct s; reflexivity.
  - destruct (aget (al_addr (d_al s)) a) as [[i|]|]; try discriminate. destruct (nth_error (al_slots (d_al s)) i) as [m|]; [|discriminate].
    destruct (aget m k); [|discriminate]. intros _. cbn [rbind]. destruct s; reflexivity.
Qed.
Print Assumptions C20_adding_twice_is_idempotent.
Example C20_idempotent_case : rbind (add_slot (new_db chain 0) 2 7) (fun s => Ok (al_contains (d_al s) 2 7)) = Ok (Ok (true, true)).
Proof. vm_compute. reflexivity. Qed.

(* ------------------------------------------------------------------ *)
(* C21: the cap                                                        *)
(* ------------------------------------------------------------------ *)

(* within 255 calls (counting those refused, not those that failed by
   themselves), at most seven succeed: the first seven; reverts give none back *)
Theorem C21_at_most_seven_calls_partial keccak st lb ops os s :
  run keccak (new_db st lb) ops = Ok (os, s) -> (count_by is_call os < 256)%N ->
  count_by is_ok_call os = N.min 7 (count_by is_call os).
Proof.
  intros H L. destruct (calls_run keccak ops _ _ _ H L) as (_ & A & B). cbn in A, B.
  assert (D : (count_by is_ok_call os <= count_by is_call os)%N).
  { clear. unfold count_by. induction os as [|o os IH]; cbn [filter]; [lia|]. destruct o as [| | | | | | |[| |]]; cbn; lia. }
  destruct (N.le_gt_cases 7 (count_by is_call os)) as [G|G].
  - specialize (B 7%nat ltac:(lia) ltac:(lia)). lia.
  - specialize (B (N.to_nat (count_by is_call os)) ltac:(lia) ltac:(lia)). lia.
Qed.
Print Assumptions C21_at_most_seven_calls_partial.
Definition quiet_call : pre_run := PreRun 100 false (fun st => st) (fun _ => Some []).
Example C21_case :
  rbind (run toy (new_db chain 0) (Snapshot :: repeat (Precompile quiet_call) 5 ++ [RevertToSnapshot 0] ++ repeat (Precompile quiet_call) 5)) (fun '(os, _) => Ok (skipn 7 os)) =
  Ok [OPre PreOk; OPre PreOk; OPre PreMax; OPre PreMax; OPre PreMax].
Proof. vm_compute. reflexivity. Qed.

(* the counter is one byte: the 256th call and the seven after it succeed again *)
Theorem C21_cap_holds_for_every_number_of_calls_refuted :
  exists ops os s, run toy (new_db chain 0) ops = Ok (os, s) /\ ops = repeat (Precompile quiet_call) 263 /\ count_by is_ok_call os = 15%N.
Proof.
  exists (repeat (Precompile quiet_call) 263).
  destruct (run_case chain (repeat (Precompile quiet_call) 263) (fun os s => count_by is_ok_call os) 15%N ltac:(vm_compute; reflexivity)) as (os & s & R & O).
  exists os, s. split; [exact R|]. split; [reflexivity|exact O].
Qed.
Print Assumptions C21_cap_holds_for_every_number_of_calls_refuted.

(* a call that fails is not counted, so any number of them can be made *)
Theorem C21_failing_calls_are_counted_refuted :
  exists ops os s, run toy (new_db chain 0) ops = Ok (os, s) /\ ops = repeat (Precompile failing_call) 20 ++ repeat (Precompile quiet_call) 7 /\
  nth_error os 26 = Some (OPre PreOk).
Proof.
  exists (repeat (Precompile failing_call) 20 ++ repeat (Precompile quiet_call) 7).
  destruct (run_case chain (repeat (Precompile failing_call) 20 ++ repeat (Precompile quiet_call) 7) (fun os s => nth_error os 26) (Some (OPre PreOk)) ltac:(vm_compute; reflexivity)) as (os & s & R & O).
  exists os, s. split; [exact R|]. split; [reflexivity|exact O].
Qed.
Print Assumptions C21_failing_calls_are_counted_refuted.

(* ------------------------------------------------------------------ *)
(* C54: what is committed                                              *)
(* ------------------------------------------------------------------ *)

Lemma stamped_dirty keccak st lb ops os s a :
  Forall no_precompile ops -> run keccak (new_db st lb) ops = Ok (os, s) ->
  ~ In (CreateAccount a) ops \/ existsb (stamps a) (survivors ops) = true ->
  ~ In a (created ops) \/ aget (d_dirties s) a <> None.
Proof.
  intros F H Ha.
  destruct Ha as [Ha|Ha].
    - left. intro X. apply Ha. unfold created in X. apply in_flat_map in X as (x & Hx & Hx2). destruct x; try contradiction. destruct Hx2 as [<-|[]]. exact Hx.
    - right. eapply (stamped_run keccak st lb ops); [| |exact H|exact Ha].
      + eapply Forall_impl; [|exact F]. intros x Hx. destruct x; try exact Logic.I. contradiction.
      + intro X. clear -F H X. revert F H X. generalize (new_db st lb). revert os. induction ops as [|x l IH]; intros os s0 F H X; cbn [run] in H; [injection H as <- <-; destruct X|].
        apply rbind_inv in H as ([o t1] & H1 & H2). apply rbind_inv in H2 as ([os1 t2] & H2 & H3). injection H3 as <- <-.
        destruct X as [X|X]; [|eapply IH; [exact (Forall_inv_tail F)|exact H2|exact X]]. subst o. pose proof (Forall_inv F) as Np.
        destruct x; try contradiction; cbn [step] in H1;
          repeat match type of H1 with context [get_obj keccak ?s ?a] => destruct (get_obj keccak s a) as [[?|] ?] end;
          repeat match type of H1 with
            | context [obj_state ?a ?b ?c ?d] => destruct (obj_state a b c d)
            | context [obj_committed ?a ?b ?c ?d] => destruct (obj_committed a b c d)
            | context [read_code ?a ?b ?c] => destruct (read_code a b c)
            | context [suicide ?a ?b ?c] => destruct (suicide a b c)
            | context [sub_refund ?a ?b] => destruct (sub_refund a b)
            | context [add_slot ?a ?b ?c] => destruct (add_slot a b c)
            | context [al_contains ?a ?b ?c] => destruct (al_contains a b c) as [[? ?]| |]
            | context [snapshot ?a] => destruct (snapshot a)
            | context [revert_to_snapshot ?a ?b ?c] => destruct (revert_to_snapshot a b c)
            end; discriminate.
Qed.

(* The next transaction starts from exactly the accounts this one ended with,
   without those that self-destructed.  An account made by CreateAccount has to
   be given a nonce or code as well, as the EVM's create always does. *)
Theorem C54_next_transaction_reads_the_result_partial keccak (inj : forall x y, keccak x = keccak y -> x = y) st lb ops os s s' os' p a :
  store_ok keccak st -> Forall no_precompile ops ->
  run keccak (new_db st lb) ops = Ok (os, s) -> commit keccak s = Ok s' ->
  srun keccak (spec0 keccak st lb) ops = Ok (os', p) ->
  ~ In (CreateAccount a) ops \/ existsb (stamps a) (survivors ops) = true ->
  oacc_eq (w_acct (world0 keccak (d_ctx s')) a) (survives (w_acct (p_now p) a)).
Proof.
  intros S F H C Hs Ha. destruct (cinv_run keccak ops _ _ _ _ _ (cinv_new keccak st lb S) F H) as (ts & I). rewrite app_nil_r in I.
  pose proof (run_sim keccak ops _ _ _ (sim0 keccak st lb) F) as V. rewrite H, Hs in V. destruct V as (-> & ts2 & Sm).
  pose proof (stamped_dirty keccak st lb ops _ s a F H Ha) as Hm.
  pose proof (commit_exact keccak inj s ts _ s' 0%N a I C Hm) as E.
  pose proof (r_acct _ _ _ (m_rel _ _ _ _ (sim0 keccak (d_ctx s') 0%N)) a) as E0. pose proof (r_acct _ _ _ (m_rel _ _ _ _ Sm) a) as E1. cbn [p_now spec0] in E0.
  eapply oacc_trans; [apply oacc_sym; exact E0|]. eapply oacc_trans; [exact E|]. clear -E1.
  destruct (see keccak s a) as [x|], (w_acct (p_now p) a) as [y|]; try contradiction; [|exact Logic.I]. cbn [survives].
  assert (x_suicided x = x_suicided y) as -> by apply E1. destruct (x_suicided y); [exact Logic.I|exact E1].
Qed.
Print Assumptions C54_next_transaction_reads_the_result_partial.
Example C54_case : store_ok toy chain /\
  let ops := [SubBalance 1 20; CreateAccount 4; SetNonce 4 1; AddBalance 4 20; SetCode 4 (Some [5; 6]%N); SetState 2 7 3; Suicide 2] in
  existsb (stamps 4) (survivors ops) = true /\
  rbind (run toy (new_db chain 0) ops) (fun '(_, s) => rbind (commit toy s) (fun s' =>
    Ok (match w_acct (world0 toy (d_ctx s')) 4 with Some x => Some (x_nonce x, x_bal x, x_code x) | None => None end, st_acct (d_ctx s') 2, st_bal (d_ctx s') 1, st_supply (d_ctx s')))) =
  Ok (Some (1%N, 20, [5; 6]%N), None, 80, 104).
Proof. split; [exact chain_ok|]. vm_compute. auto. Qed.

(* An account that self-destructs leaves nothing behind in the chain's store:
   no account record, coins, code hash or storage slot that a later contract at
   the same address could see. *)
Theorem C54_destroyed_account_leaves_nothing keccak (inj : forall x y, keccak x = keccak y -> x = y) st lb ops os s s' os' p a y :
  store_ok keccak st -> Forall no_precompile ops ->
  run keccak (new_db st lb) ops = Ok (os, s) -> commit keccak s = Ok s' ->
  srun keccak (spec0 keccak st lb) ops = Ok (os', p) ->
  ~ In (CreateAccount a) ops \/ existsb (stamps a) (survivors ops) = true ->
  w_acct (p_now p) a = Some y -> x_suicided y = true -> st_acct st a <> None ->
  st_acct (d_ctx s') a = None /\ st_bal (d_ctx s') a = 0 /\ st_chash (d_ctx s') a = None /\ forall k, st_stor (d_ctx s') a k = None.
Proof.
  intros S F H C Hs Ha Hy Sy Ex. destruct (cinv_run keccak ops _ _ _ _ _ (cinv_new keccak st lb S) F H) as (ts & I). rewrite app_nil_r in I.
  pose proof (run_sim keccak ops _ _ _ (sim0 keccak st lb) F) as V. rewrite H, Hs in V. destruct V as (-> & ts2 & Sm).
  pose proof (stamped_dirty keccak st lb ops _ s a F H Ha) as Hm.
  pose proof (r_acct _ _ _ (m_rel _ _ _ _ Sm) a) as E1. rewrite Hy in E1. destruct (see keccak s a) as [x|] eqn:Ex1; [|contradiction].
  apply (commit_destroyed keccak inj s ts _ s' a x I C Hm Ex1).
  - rewrite <- Sy. apply E1.
  - enough (d_ctx s = st) as -> by exact Ex. exact (run_ctx keccak st lb ops _ s S F H).
Qed.
Print Assumptions C54_destroyed_account_leaves_nothing.
Example C54_destroyed_case : st_acct chain 2 <> None /\
  let ops := [SetState 2 7 3; Suicide 2] in
  (rbind (srun toy (spec0 toy chain 0) ops) (fun '(_, p) => Ok (match w_acct (p_now p) 2 with Some y => x_suicided y | None => false end))) = Ok true /\
  rbind (run toy (new_db chain 0) ops) (fun '(_, s) => rbind (commit toy s) (fun s' => Ok (st_acct (d_ctx s') 2, st_bal (d_ctx s') 2, st_stor (d_ctx s') 2 7%N))) = Ok (None, 0, None).
Proof. split; [vm_compute; discriminate|]. vm_compute. auto. Qed.

(* CreateAccount over an existing account is not journalled as a change of it:
   without a further write the account keeps its old nonce and code *)
Theorem C54_created_account_is_written_refuted :
  exists ops os s s', run toy (new_db chain 0) ops = Ok (os, s) /\ commit toy s = Ok s' /\ ops = [CreateAccount 2; GetNonce 2] /\
  os = [OUnit; ONat 0] /\ st_acct (d_ctx s') 2 = Some 1%N.
Proof.
  exists [CreateAccount 2; GetNonce 2].
  destruct (commit_case chain [CreateAccount 2; GetNonce 2] (fun os s s' => (os, st_acct (d_ctx s') 2)) ([OUnit; ONat 0], Some 1%N) ltac:(vm_compute; reflexivity)) as (os & s & s' & R & C & O).
  injection O as O1 O2. exists os, s, s'. split; [exact R|]. split; [exact C|]. split; [reflexivity|]. split; [exact O1|exact O2].
Qed.
Print Assumptions C54_created_account_is_written_refuted.

(* The commit of a transaction the EVM finished can still fail: address 3 holds
   coins before a contract is created there; if that contract self-destructs in
   the same transaction, deleting the account is refused as it has no code on
   the chain. *)
Theorem C54_commit_succeeds_refuted :
  exists ops os s, run toy (new_db chain 0) ops = Ok (os, s) /\ commit toy s = Err /\
  ops = [CreateAccount 3; SetNonce 3 1; SetCode 3 (Some [9]%N); AddBalance 1 4; Suicide 3].
Proof.
  exists [CreateAccount 3; SetNonce 3 1; SetCode 3 (Some [9]%N); AddBalance 1 4; Suicide 3].
  destruct (run_case chain [CreateAccount 3; SetNonce 3 1; SetCode 3 (Some [9]%N); AddBalance 1 4; Suicide 3] (fun os s => match commit toy s with Err => true | _ => false end) true ltac:(vm_compute; reflexivity)) as (os & s & R & O).
  exists os, s. split; [exact R|]. split; [|reflexivity]. clear R. destruct (commit toy s); [discriminate O|reflexivity|discriminate O].
Qed.
Print Assumptions C54_commit_succeeds_refuted.

(* ------------------------------------------------------------------ *)
(* C55: coins                                                          *)
(* ------------------------------------------------------------------ *)

Lemma total_app st u v : total st (u ++ v) = total st u + total st v.
Proof. induction u; cbn; lia. Qed.
Lemma total_same st st' v : (forall a, In a v -> st_bal st' a = st_bal st a) -> total st' v = total st v.
Proof. induction v as [|a v IH]; cbn; intro H; [reflexivity|]. rewrite H, IH; auto. Qed.

(* the bank's supply changes by exactly what the balances of the transaction changed *)
Theorem C55_supply_follows_balances_partial keccak (inj : forall x y, keccak x = keccak y -> x = y) st lb ops os s s' u :
  store_ok keccak st -> Forall no_precompile ops -> run keccak (new_db st lb) ops = Ok (os, s) -> commit keccak s = Ok s' ->
  NoDup u -> (forall a, st_bal (d_ctx s') a <> st_bal st a -> In a u) ->
  st_supply (d_ctx s') - st_supply st = total (d_ctx s') u - total st u.
Proof.
  intros S F H C Nd Hu. destruct (cinv_run keccak ops _ _ _ _ _ (cinv_new keccak st lb S) F H) as (ts & I).
  pose proof (run_ctx keccak st lb ops os s S F H) as Ec.
  set (e := filter (fun a => negb (existsb (N.eqb a) u)) (nodup N.eq_dec (akeys (d_dirties s)))).
  assert (Ie : forall a, In a e <-> (~ In a u /\ aget (d_dirties s) a <> None)).
  { intro a. unfold e. rewrite filter_In, nodup_In, akeys_in_iff, negb_true_iff. rewrite <- not_true_iff_false, existsb_exists.
    split; intros [A B]; split; auto; intro X.
    - apply B. exists a. rewrite N.eqb_refl. auto.
    - destruct X as (b & Hb & Eb). apply N.eqb_eq in Eb. subst b. exact (A Hb). }
  rewrite <- Ec. rewrite (commit_supply keccak inj s ts _ s' (u ++ e) I C).
  - rewrite !total_app. assert (T : total (d_ctx s') e = total (d_ctx s) e); [|lia]. apply total_same. intros a Ha. apply Ie in Ha as [Ha _]. rewrite Ec.
    destruct (Z.eq_dec (st_bal (d_ctx s') a) (st_bal st a)) as [|Ne]; [assumption|destruct (Ha (Hu a Ne))].
  - assert (Nd' : NoDup e) by (apply NoDup_filter, NoDup_nodup). clear -Nd Nd' Ie.
    assert (X : forall a, In a e -> ~ In a u) by (intros a Ha; apply Ie in Ha; apply Ha). clear Ie. clearbody e. revert Nd X. induction u as [|b u IH]; intros Nd X; [exact Nd'|].
    cbn. inversion Nd; subst. constructor; [|apply IH; [assumption|]; intros a Ha Y; apply (X a Ha); right; exact Y].
    intro Y. apply in_app_or in Y as [Y|Y]; [contradiction|]. apply (X b Y). left. reflexivity.
  - intros a Ha. apply in_or_app. destruct (in_dec N.eq_dec a u); [auto|]. right. apply Ie. auto.
Qed.
Print Assumptions C55_supply_follows_balances_partial.
Example C55_case : NoDup [1; 2]%N /\
  rbind (run toy (new_db chain 0) [SubBalance 1 30; AddBalance 2 30]) (fun '(_, s) => rbind (commit toy s) (fun s' =>
    Ok (st_bal (d_ctx s') 1, st_bal (d_ctx s') 2, st_supply (d_ctx s')))) = Ok (70, 80, 154).
Proof. split; [|vm_compute; reflexivity]. constructor; [intros [X|[]]; discriminate|]. constructor; [intros []|constructor]. Qed.

(* in particular: if the balances the transaction ended with add up to those it started with, no coin is minted or burned *)
Theorem C55_transfers_keep_the_supply_partial keccak (inj : forall x y, keccak x = keccak y -> x = y) st lb ops os s s' os' p u :
  store_ok keccak st -> Forall no_precompile ops -> run keccak (new_db st lb) ops = Ok (os, s) -> commit keccak s = Ok s' ->
  srun keccak (spec0 keccak st lb) ops = Ok (os', p) ->
  NoDup u -> (forall a, st_bal (d_ctx s') a <> st_bal st a -> In a u) ->
  (forall a, In (CreateAccount a) ops -> existsb (stamps a) (survivors ops) = true) ->
  (forall a, In a u -> match w_acct (p_now p) a with Some x => x_suicided x = false | None => False end) ->
  fold_right (fun a n => match w_acct (p_now p) a with Some x => x_bal x | None => 0 end + n) 0 u = total st u ->
  st_supply (d_ctx s') = st_supply st.
Proof.
  intros S F H C Hs Nd Hu Hc Hl Hsum. pose proof (C55_supply_follows_balances_partial keccak inj st lb ops os s s' u S F H C Nd Hu) as E.
  assert (T : total (d_ctx s') u = fold_right (fun a n => match w_acct (p_now p) a with Some x => x_bal x | None => 0 end + n) 0 u); [|lia].
  clear Hsum E Nd Hu. induction u as [|a u IH]; [reflexivity|]. cbn [total fold_right]. rewrite IH by (intros b Hb; apply Hl; right; exact Hb). f_equal.
  assert (Ha : ~ In (CreateAccount a) ops \/ existsb (stamps a) (survivors ops) = true).
  { destruct (existsb (stamps a) (survivors ops)) eqn:X; [right; reflexivity|left]. intro Y. apply Hc in Y. congruence. }
  pose proof (C54_next_transaction_reads_the_result_partial keccak inj st lb ops os s s' os' p a S F H C Hs Ha) as Q.
  specialize (Hl a (or_introl eq_refl)). destruct (w_acct (p_now p) a) as [x|]; [|contradiction]. cbn [survives] in Q. rewrite Hl in Q. cbn [w_acct world0] in Q.
  destruct (st_acct (d_ctx s') a); [|contradiction]. apply Q.
Qed.
Print Assumptions C55_transfers_keep_the_supply_partial.

(* A precompile that moves coins in the bank without recording the change in
   the state database (chronos.createCron takes the deposit this way) mints
   them: account 1 is already changed in this transaction, so its balance as
   the state database knows it is written back at the end. *)
Definition cron_call : pre_run := PreRun 100 true move5 (fun _ => Some []).
Theorem C55_precompiles_conserve_coins_refuted :
  exists ops os s s', run toy (new_db chain 0) ops = Ok (os, s) /\ commit toy s = Ok s' /\ none_failed os /\
  ops = [SubBalance 1 1; AddBalance 2 1; Precompile cron_call] /\ (forall st, st_supply (move5 st) = st_supply st) /\
  st_supply (d_ctx s') = st_supply chain + 5 /\ st_bal (d_ctx s') 1 = 99 /\ st_bal (d_ctx s') 9 = 5.
Proof.
  exists [SubBalance 1 1; AddBalance 2 1; Precompile cron_call].
  destruct (commit_case chain [SubBalance 1 1; AddBalance 2 1; Precompile cron_call] (fun os s s' => (os, st_supply (d_ctx s'), st_bal (d_ctx s') 1, st_bal (d_ctx s') 9)) ([OUnit; OUnit; OPre PreOk], 159, 99, 5) ltac:(vm_compute; reflexivity)) as (os & s & s' & R & C & O).
  injection O as O0 O1 O2 O3. exists os, s, s'. split; [exact R|]. split; [exact C|]. split; [rewrite O0; intros [X|[X|[X|[]]]]; discriminate X|].
  split; [reflexivity|]. split; [reflexivity|]. split; [exact O1|]. split; [exact O2|exact O3].
Qed.
Print Assumptions C55_precompiles_conserve_coins_refuted.
