(* The properties of scheduled tasks. *)
From Verif Require Import Lib.Base Lib.Bytes Lib.Codec Lib.Zmap Chronos.Model Chronos.Spec Chronos.Proofs Chronos.QueueProofs Chronos.RunProofs.
From Coq Require Import ZArith List Bool Lia.
Import ListNotations.
Open Scope Z_scope.

Lemma start_wf bank : wf (start bank).
Proof. apply set_bal_wf, init_wf. Qed.
Lemma reached_wf s : reached s -> wf s /\ solvent s.
Proof.
  intros (bank & l & SO & SG & R). split; [apply (run_wf _ _ _ SG (start_wf bank) R)|apply (run_solvent _ _ _ SO R)].
Qed.
Lemma quietly_reached s : reached_quietly s -> reached s.
Proof. intros (bank & l & A & B & _ & C). exists bank, l. auto. Qed.
Lemma quietly_qinv s : reached_quietly s -> qinv (fun _ => False) s.
Proof.
  intros (bank & l & A & B & C & D). apply (run_qinv _ l (start bank) s B C); [tauto| |exact D].
  split; [apply start_wf|]. split; [|tauto]. split; [discriminate|]. intros; reflexivity.
Qed.

(* ---- a chain to speak about ------------------------------------------- *)

Definition alice := Acct 1.
Definition bob := Acct 2.
Definition ex_bank : ledger := [(alice, 100000); (bob, 5000); (Collector, 7)].

(* A block at height 50000 + n; every call uses 40 gas and does what [evm] says. *)
Definition block (n : Z) (evm : cron -> Z -> evm_out) : env :=
  mk_env (50000 + n) (1700000000 + n) 1 5 2 (fun _ => Some true) (fun _ => true) (fun _ => 10) evm.
Definition plain : cron -> Z -> evm_out := fun _ _ => EvmRun 40 [].
Definition task (o : atext) (price amount : Z) : create_msg :=
  mk_create o o 9 true [] 1 0 100 (Some price) (Some amount).

Definition hist1 : list (env * op) :=
  [(block 0 plain, OCreate (task (print alice) 3 1000)); (block 0 plain, OCreate (task (print bob) 2 700))].
Definition ex_state (l : list (env * op)) : st := match run (start ex_bank) l with Ok s => s | _ => init end.
Definition ex1 : st := ex_state hist1.

Lemma ex_bank_solvent : solvent (start ex_bank).
Proof.
  intro a. unfold money, start, ex_bank, alice, bob. cbn. destruct a as [n|i|]; cbn; [|lia|lia].
  destruct n as [|[p|[]|]|p]; cbn; try lia; destruct p; cbn; lia.
Qed.
Lemma ex_reached l : all_signed l -> is_ok (run (start ex_bank) l) = true -> reached (ex_state l).
Proof.
  intros SG OK. exists ex_bank, l. split; [exact ex_bank_solvent|]. split; [exact SG|]. unfold ex_state. destruct (run _ l); [reflexivity|discriminate OK|discriminate OK].
Qed.
Ltac signed := repeat constructor; cbn; first [exact I|eexists; split; [reflexivity|exact I]].
Lemma hist1_signed : all_signed hist1.
Proof. signed. Qed.
Lemma ex1_reached : reached ex1.
Proof. apply ex_reached; [exact hist1_signed|vm_compute; reflexivity]. Qed.

(* ---- C45: deposits ---------------------------------------------------- *)

(* Creating a task moves exactly the deposit from the signer to the new task's own account. *)
Theorem C45_creating_moves_the_deposit_partial : forall s e m s' id,
  reached s -> (create s e m = Ok (s', id) \/ create_cb s e m = Ok (s', id)) -> op_signed (OCreate m) ->
  exists o x, decode (m_sender m) = Some o /\ m_amount m = Some x /\
    (0 <= x ->
       money s' o = money s o - x /\ money s' (Wallet id) = money s (Wallet id) + x /\
       forall z, z <> o -> z <> Wallet id -> money s' z = money s z).
Proof.
  intros s e m s' id _ C SG.
  assert (X : exists cb, create_any cb s e m = Ok (s', id)) by (destruct C as [C|C]; [exists false|exists true]; exact C).
  destruct X as (cb & X). destruct (create_money _ _ _ _ _ _ X) as (o & x & D & A & M).
  destruct (create_shape _ _ _ _ _ _ X) as (_ & _ & _ & _ & _ & SE & _).
  exists o, x. rewrite SE. split; [exact D|]. split; [exact A|]. intro P. rewrite Z.max_l in M by lia.
  destruct SG as (a & DA & PA). rewrite SE, D in DA. injection DA as <-.
  split; [|split].
  - rewrite M, addr_eqb_refl. replace (addr_eqb (Wallet id) o) with false by (destruct o; [reflexivity|destruct PA|reflexivity]). lia.
  - rewrite M, addr_eqb_refl, (person_not_wallet o id PA). lia.
  - intros z Z1 Z2. rewrite M. destruct (addr_eqb_spec o z); [congruence|]. destruct (addr_eqb_spec (Wallet id) z); [congruence|]. lia.
Qed.

Example C45_creating_example :
  is_ok (create (start ex_bank) (block 0 plain) (task (print alice) 3 1000)) = true /\
  (money ex1 alice, money ex1 bob, money ex1 (Wallet 1), money ex1 (Wallet 2)) = (99000, 4300, 1000, 700).
Proof. vm_compute. auto. Qed.

(* A negative deposit is accepted from an account without money: no deposit is moved. *)
Theorem C45_negative_deposit_accepted_refuted : exists s e m s' id,
  reached s /\ op_signed (OCreateCb m false) /\ m_amount m = Some (-5) /\ create_cb s e m = Ok (s', id) /\
  live s' id /\ forall a, money s' a = money s a.
Proof.
  pose (s := start ex_bank). pose (m := mk_create (print (Acct 3)) (print (Acct 3)) 9 true [] 0 0 100 (Some 1) (Some (-5))).
  assert (K : is_ok (create_cb s (block 0 plain) m) = true) by (vm_compute; reflexivity).
  destruct (create_cb s (block 0 plain) m) as [[s' id]| |] eqn:C; [|discriminate K|discriminate K].
  exists s, (block 0 plain), m, s', id.
  assert (RS : reached s) by (apply (ex_reached []); [constructor|reflexivity]).
  split; [exact RS|]. split; [eexists; split; [reflexivity|exact I]|]. split; [reflexivity|]. split; [exact C|].
  destruct (create_rest true _ _ _ _ _ C) as (B1 & _). destruct (create_money true _ _ _ _ _ C) as (o & x & D & A & M).
  split; [exists (new_cron (block 0 plain) m id true); unfold get_cron; rewrite B1, zget_zset, Z.eqb_refl; reflexivity|].
  intro a. rewrite M. cbn in A. injection A as <-. change (Z.max (-5) 0) with 0. destruct (addr_eqb o a), (addr_eqb (Wallet id) a); lia.
Qed.

(* Cancelling returns the account's whole balance to the owner; nobody else's money moves. *)
Theorem C45_cancelling_returns_everything : forall s h sender owner id s' c,
  reached s -> get_cron s id = Some c -> cancel s h sender owner id = Ok s' ->
  exists o, decode (c_owner c) = Some o /\ sender = c_owner c /\
    money s' o = money s o + money s (Wallet id) /\ money s' (Wallet id) = 0 /\
    (forall z, z <> o -> z <> Wallet id -> money s' z = money s z) /\
    get_cron s' id = None /\ zget (s_arch s') id = Some c /\
    forall j, j <> id -> get_cron s' j = get_cron s j /\ zget (s_arch s') j = zget (s_arch s) j.
Proof.
  intros s h sender owner id s' c RS G C. destruct (reached_wf _ RS) as [W SO].
  destruct (cancel_shape _ _ _ _ _ _ C) as (c' & o & G' & O & D & R). replace c' with c in * by congruence.
  destruct (remove_exact _ _ _ _ _ _ W SO G R) as (A1 & A2 & A3 & A4 & A5 & A6 & A7).
  exists o. rewrite A1. split; [reflexivity|]. split; [congruence|]. split; [exact A6|]. split; [exact A5|]. split; [exact A7|]. auto.
Qed.

(* And it always succeeds for an owner recorded in lower case whose task, if it waits in the queue, has a price. *)
Theorem C45_owner_can_always_cancel_partial : forall s h o id c,
  reached s -> get_cron s id = Some c -> c_owner c = print o -> c_price c <> None ->
  exists s', cancel s h (print o) (print o) id = Ok s'.
Proof.
  intros s h o id c RS G O P. destruct (reached_wf _ RS) as [W SO].
  destruct (remove_succeeds s h id o c W SO G O (fun _ => P)) as (s' & R). exists s'.
  unfold cancel. rewrite G, O. destruct (atext_eqb_spec (print o) (print o)); [|congruence]. cbn. exact R.
Qed.

Definition ex_cancelled : st := ex_state (hist1 ++ [(block 3 plain, OCancel (print alice) (print alice) 1)]).
Example C45_cancelling_example :
  live ex1 1 /\ (money ex_cancelled alice, money ex_cancelled (Wallet 1), money ex_cancelled (Wallet 2)) = (100000, 0, 700) /\
  get_cron ex_cancelled 1 = None.
Proof. split; [eexists; vm_compute; reflexivity|]. vm_compute. auto. Qed.

(* A task whose owner was written in upper case: created, charged, but its owner (or anyone
   else) can never cancel it, in any continuation. *)
Theorem C45_upper_case_owner_never_refunded_refuted : exists s id c,
  reached s /\ get_cron s id = Some c /\ decode (c_owner c) = Some alice /\ money s (Wallet id) = 1000 /\
  forall l s', all_signed l -> run s l = Ok s' ->
    live s' id /\ forall h sender owner, is_ok (cancel s' h sender owner id) = false.
Proof.
  pose (l0 := [(block 0 plain, OCreate (task (Bech alice true) 3 1000))]).
  assert (RS : reached (ex_state l0)) by (apply ex_reached; [signed|vm_compute; reflexivity]).
  exists (ex_state l0), 1. destruct (get_cron (ex_state l0) 1) as [c|] eqn:G; [|vm_compute in G; discriminate G].
  assert (O : c_owner c = Bech alice true) by (vm_compute in G; injection G as <-; reflexivity).
  exists c. split; [exact RS|]. split; [reflexivity|]. split; [rewrite O; reflexivity|]. split; [vm_compute; reflexivity|].
  intros l s' SG R. destruct (reached_wf _ RS) as [W _].
  assert (K : stuck 1 (Bech alice true) s') by (apply (stuck_run 1 alice l (ex_state l0) s' SG W); [exists c; auto|exact R]).
  split; [destruct K as (c' & G' & _); exists c'; exact G'|]. intros h sender owner.
  destruct (cancel s' h sender owner 1) as [s2| |] eqn:C; [|reflexivity|reflexivity].
  destruct (cancel_shape _ _ _ _ _ _ C) as (c2 & o & G2 & O2 & _ & R2). destruct (remove_cron_facts _ _ _ _ _ R2) as (c3 & G3 & O3 & _).
  destruct K as (c' & G' & O'). replace c3 with c' in O3 by congruence. rewrite O' in O3. discriminate O3.
Qed.

(* No history of any messages, runs and payments changes the sum of balances. *)
Theorem C45_sum_of_balances_constant : forall s l s', run s l = Ok s' -> total s' = total s.
Proof. intros s l s' H. apply (run_total _ _ _ H). Qed.

(* Nor does any overdraw an account. *)
Theorem C45_no_account_overdrawn : forall s, reached s -> forall a, 0 <= money s a.
Proof. intros s RS. apply (reached_wf _ RS). Qed.

Definition hist2 := hist1 ++ [(block 1 plain, OEndBlock 10)].
Lemma hist2_signed : all_signed hist2.
Proof. signed. Qed.
Example C45_sum_example : is_ok (run (start ex_bank) hist2) = true /\ total (ex_state hist2) = 105007.
Proof. vm_compute. auto. Qed.

(* ---- C46: only the owner ---------------------------------------------- *)

Theorem C46_only_the_owner : forall s e o s' a,
  reached s -> is_message o -> op_signed o -> signer o = Some a -> step s e o = Ok s' ->
  (forall id c, get_cron s id = Some c -> decode (c_owner c) <> Some a ->
     get_cron s' id = Some c /\ money s' (Wallet id) = money s (Wallet id)) /\
  (forall z, z <> a -> person z -> money s' z = money s z).
Proof.
  intros s e o s' a RS IM SG SI H. destruct (reached_wf _ RS) as [W SO]. apply (message_frame s e o s' a W SO SG IM SI H).
Qed.

(* Messages by anyone but the recorded owner fail and leave the state as it was. *)
Theorem C46_others_change_nothing : forall s e t u w id,
  (forall c, get_cron s (u_id u) = Some c -> c_owner c <> t) -> (forall c, get_cron s id = Some c -> c_owner c <> t) ->
  step s e (OUpdate t u) = Ok s /\ step s e (OCancel t w id) = Ok s.
Proof.
  intros s e t u w id HU HC. cbn. split.
  - destruct (update s t u) as [s1| |] eqn:U; [|reflexivity|reflexivity]. destruct (update_shape _ _ _ _ U) as (c & G & O & _). destruct (HU c G O).
  - destruct (cancel s (e_height e) t w id) as [s1| |] eqn:U; [|reflexivity|reflexivity]. destruct (cancel_shape _ _ _ _ _ _ U) as (c & o & G & O & _). destruct (HC c G O).
Qed.

Example C46_other_example :
  step ex1 (block 3 plain) (OCancel (print bob) (print bob) 1) = Ok ex1 /\
  is_ok (cancel ex1 50003 (print alice) (print alice) 1) = true.
Proof. vm_compute. auto. Qed.

(* Owner, account, call and kind of a task never change, in any history; nor is its record ever lost. *)
Theorem C46_tasks_keep_their_identity : forall s l s' id c,
  reached s -> all_signed l -> run s l = Ok s' -> any_cron s id = Some c ->
  exists c', any_cron s' id = Some c' /\ ident c' = ident c.
Proof.
  intros s l s' id c (bank & l0 & SO & SG0 & R0) SG R A.
  destruct (named_run l0 (start bank) s (fun _ => None) SG0 (start_wf bank)) as (F & N & _); [|exact R0|].
  { split; [discriminate|]. split; [discriminate|]. intros j X. congruence. }
  destruct (run_wf _ _ _ SG0 (start_wf bank) R0) as [W _].
  destruct (named_run l s s' F SG W N R) as (F' & N' & E).
  pose proof (named_any _ _ _ _ N A) as FA.
  assert (L : id < s_next s).
  { unfold any_cron in A. destruct (get_cron s id) eqn:G; [apply (wf_live _ _ _ W G)|apply (wf_arch _ _ _ W A)]. }
  rewrite <- (E id L) in FA. destruct (any_cron s' id) as [c'|] eqn:A'.
  - exists c'. split; [reflexivity|]. pose proof (named_any _ _ _ _ N' A') as FA'. congruence.
  - exfalso. apply (proj2 (proj2 N') id); [congruence|exact A'].
Qed.

Example C46_identity_example : any_cron ex1 2 <> None /\ is_ok (run ex1 [(block 1 plain, OEndBlock 10)]) = true.
Proof. vm_compute. split; [discriminate|reflexivity]. Qed.

(* A task that is gone stays gone, if runs of tasks never cancel the task being run. *)
Theorem C46_cancelled_stays_gone_partial : forall s l s' id,
  reached_quietly s -> all_signed l -> quiet_run s l -> run s l = Ok s' ->
  id < s_next s -> get_cron s id = None -> get_cron s' id = None.
Proof.
  intros s l s' id RS SG QR R L G. pose proof (quietly_qinv _ RS) as (W & X & _).
  apply (run_qinv (fun j => j = id) l s s' SG QR); [intros j ->; exact L| |exact R|reflexivity].
  split; [exact W|]. split; [exact X|]. intros j ->. exact G.
Qed.

(* A task that cancels itself while it runs is paid out, and is there again after the run. *)
Definition suicidal : cron -> Z -> evm_out := fun c _ => EvmRun 40 [ECancel (c_id c)].
Theorem C46_self_cancelled_task_returns_refuted : exists s e s1 s2 c,
  reached s /\ get_cron s 1 = Some c /\ 
  e_evm e c (s_nonce s) = EvmRun 40 [ECancel 1] /\ s1 = apply_effect e alice s (ECancel 1) /\ get_cron s1 1 = None /\
  step s e (OEndBlock 10) = Ok s2 /\ live s2 1 /\ zget (s_arch s2) 1 <> None.
Proof.
  pose (s := ex1). pose (e := block 1 suicidal).
  assert (RS : reached s) by exact ex1_reached.
  destruct (get_cron s 1) as [c|] eqn:G; [|vm_compute in G; discriminate G].
  assert (K : is_ok (step s e (OEndBlock 10)) = true) by (vm_compute; reflexivity).
  destruct (step s e (OEndBlock 10)) as [s2| |] eqn:R; [|discriminate K|discriminate K].
  exists s, e, (apply_effect e alice s (ECancel 1)), s2, c. split; [exact RS|]. split; [exact G|].
  assert (I1 : c_id c = 1) by (vm_compute in G; injection G as <-; reflexivity).
  split; [unfold e, block, suicidal; cbn; rewrite I1; reflexivity|]. split; [reflexivity|]. split; [vm_compute; reflexivity|]. split; [exact R|].
  assert (V : match step s e (OEndBlock 10) with Ok x => match get_cron x 1, zget (s_arch x) 1 with Some _, Some _ => true | _, _ => false end | _ => false end = true) by (vm_compute; reflexivity).
  rewrite R in V. unfold live. destruct (get_cron s2 1) as [c2|]; [|discriminate V]. destruct (zget (s_arch s2) 1); [|discriminate V].
  split; [exists c2; reflexivity|discriminate].
Qed.

(* An update by the owner during their task's own run reports success and is lost. *)
Definition retuning : cron -> Z -> evm_out := fun c _ => EvmRun 40 [EUpdate (mk_upd 1 77 [] 0 100 (Some 3))].
Theorem C46_update_during_run_lost_refuted : exists s e s1 s2,
  reached s /\ update s (print alice) (mk_upd 1 77 [] 0 100 (Some 3)) = Ok s1 /\ option_map c_freq (get_cron s1 1) = Some 77 /\
  (forall c n, e_evm e c n = EvmRun 40 [EUpdate (mk_upd 1 77 [] 0 100 (Some 3))]) /\
  step s e (OEndBlock 10) = Ok s2 /\ option_map c_freq (get_cron s2 1) = Some 1.
Proof.
  pose (s := ex1). pose (e := block 1 retuning).
  assert (K : is_ok (step s e (OEndBlock 10)) = true) by (vm_compute; reflexivity).
  destruct (step s e (OEndBlock 10)) as [s2| |] eqn:R; [|discriminate K|discriminate K].
  assert (K1 : is_ok (update s (print alice) (mk_upd 1 77 [] 0 100 (Some 3))) = true) by (vm_compute; reflexivity).
  destruct (update s (print alice) (mk_upd 1 77 [] 0 100 (Some 3))) as [s1| |] eqn:R1; [|discriminate K1|discriminate K1].
  exists s, e, s1, s2. split; [exact ex1_reached|]. split; [exact R1|].
  assert (V1 : match update s (print alice) (mk_upd 1 77 [] 0 100 (Some 3)) with Ok x => option_map c_freq (get_cron x 1) | _ => None end = Some 77) by (vm_compute; reflexivity).
  rewrite R1 in V1. split; [exact V1|]. split; [reflexivity|]. split; [exact R|].
  assert (V : match step s e (OEndBlock 10) with Ok x => option_map c_freq (get_cron x 1) | _ => None end = Some 1) by (vm_compute; reflexivity).
  rewrite R in V. exact V.
Qed.

(* ---- C47: the queue --------------------------------------------------- *)

(* In histories after height 34800 that never change the price of a waiting task: every
   waiting task stands in the queue once, under its own price, and nothing else does. *)
Theorem C47_queue_exact_partial : forall s, reached_quietly s -> queue_exact s.
Proof. intros s RS. apply (quietly_qinv _ RS). Qed.

Theorem C47_removed_task_not_queued_partial : forall s id,
  reached_quietly s -> get_cron s id = None -> forall k, queued_at s id k = 0%nat.
Proof.
  intros s id RS G k. destruct (quietly_qinv _ RS) as (_ & (_ & X) & _). rewrite X, G. reflexivity.
Qed.

(* A waiting task: a callback task that has its data. *)
Definition cbtask (o : atext) (amount : Z) : create_msg := mk_create o o 9 true [] 0 0 100 (Some 3) (Some amount).
Definition hist3 : list (env * op) := hist1 ++ [(block 0 plain, OCreateCb (cbtask (print alice) 500) true)].
Definition ex3 : st := ex_state hist3.

Lemma plain_quiet n : 0 <= n -> quiet_env (block n plain).
Proof. intro H. split; [change (34800 < 50000 + n); lia|]. split; [change (0 < 1700000000 + n); lia|]. intros c k. constructor. Qed.
Lemma hist3_signed : all_signed hist3.
Proof. signed. Qed.
Lemma hist3_quiet : quiet_run (start ex_bank) hist3.
Proof.
  cbn [hist3 hist1 app quiet_run]. split; [apply plain_quiet; lia|]. split; [exact I|]. intros s1 _.
  split; [apply plain_quiet; lia|]. split; [exact I|]. intros s2 _. split; [apply plain_quiet; lia|]. split; [exact I|]. intros s3 _. exact I.
Qed.
Lemma ex3_quietly : reached_quietly ex3.
Proof.
  exists ex_bank, hist3. split; [exact ex_bank_solvent|]. split; [exact hist3_signed|]. split; [exact hist3_quiet|].
  assert (K : is_ok (run (start ex_bank) hist3) = true) by (vm_compute; reflexivity). unfold ex3, ex_state.
  destruct (run (start ex_bank) hist3); [reflexivity|discriminate K|discriminate K].
Qed.
Example C47_queue_example : reached_quietly ex3 /\ option_map waiting (get_cron ex3 3) = Some true /\ queued_at ex3 3 3 = 1%nat.
Proof. split; [exact ex3_quietly|]. vm_compute. auto. Qed.

(* Changing the price of a waiting task: it is then not in the queue under its price, and
   after cancelling it the old entry stays. *)
Theorem C47_repriced_task_stays_queued_refuted : exists s e s1 s2 c,
  reached_quietly s /\ step s e (OUpdate (print alice) (mk_upd 3 0 [] 0 100 (Some 8))) = Ok s1 /\
  get_cron s1 3 = Some c /\ waiting c = true /\ c_price c = Some 8 /\ queued_at s1 3 8 = 0%nat /\
  step s1 e (OCancel (print alice) (print alice) 3) = Ok s2 /\ get_cron s2 3 = None /\ queued_at s2 3 3 = 1%nat.
Proof.
  pose (s1 := ex_state (hist3 ++ [(block 1 plain, OUpdate (print alice) (mk_upd 3 0 [] 0 100 (Some 8)))])).
  pose (s2 := ex_state (hist3 ++ [(block 1 plain, OUpdate (print alice) (mk_upd 3 0 [] 0 100 (Some 8))); (block 1 plain, OCancel (print alice) (print alice) 3)])).
  destruct (get_cron s1 3) as [c|] eqn:G; [|vm_compute in G; discriminate G].
  exists ex3, (block 1 plain), s1, s2, c. split; [exact ex3_quietly|]. split; [vm_compute; reflexivity|]. split; [exact G|].
  vm_compute in G. injection G as <-. split; [reflexivity|]. split; [reflexivity|]. split; [vm_compute; reflexivity|].
  split; [vm_compute; reflexivity|]. split; vm_compute; reflexivity.
Qed.

(* Up to height 34800 a new task counts as waiting although it is not in the queue, so it never gets there. *)
Theorem C47_new_task_counts_as_waiting_refuted : exists s c h,
  reached s /\ get_cron s 1 = Some c /\ h <= upd0 /\ flagged h c = true /\ forall k, queued_at s 1 k = 0%nat.
Proof.
  destruct (get_cron ex1 1) as [c|] eqn:G; [|vm_compute in G; discriminate G].
  exists ex1, c, 34800. split; [exact ex1_reached|]. split; [exact G|]. split; [unfold upd0; lia|].
  vm_compute in G. injection G as <-. split; [reflexivity|]. intro k. reflexivity.
Qed.

(* ---- C57: the cost of a run ------------------------------------------- *)

(* A run takes from the task's account at most the gas used at the block's gas price, which is at most the
   task's own price; with nothing else happening, exactly that, and nobody else pays. *)
Theorem C57_a_run_costs_its_gas_partial : forall s e c c1 s' g,
  reached s -> get_cron s (c_id c) = Some c -> run_copy s e c = Some c1 -> 0 <= e_base e -> gas_ok e c1 (s_nonce s) ->
  (forall l u, e_evm e c1 (s_nonce s) = EvmRun u l -> Forall (tame (c_id c)) l) ->
  execute s e c = Ok (s', Some g) ->
  0 <= g <= c_gas c /\ (exists l, e_evm e c1 (s_nonce s) = EvmRun g l) /\
  (exists p, c_price c = Some p /\ e_base e <= p) /\
  money s (Wallet (c_id c)) - g * e_base e <= money s' (Wallet (c_id c)) /\
  (e_evm e c1 (s_nonce s) = EvmRun g [] ->
     money s' (Wallet (c_id c)) = money s (Wallet (c_id c)) - g * e_base e /\
     money s' Collector = money s Collector + g * e_base e /\
     forall z, z <> Wallet (c_id c) -> z <> Collector -> money s' z = money s z).
Proof.
  intros s e c c1 s' g RS G RC B GO TM X. destruct (reached_wf _ RS) as [W SO]. apply (execute_cost s e c c1 s' g W SO G RC B GO TM X).
Qed.

Example C57_cost_example :
  match get_cron ex1 1 with
  | Some c => match execute ex1 (block 1 plain) c with
              | Ok (s', Some g) => (g, money s' (Wallet 1), money s' Collector, money s' alice) = (40, 960, 47, 99000)
              | _ => False end
  | None => False end.
Proof. vm_compute. reflexivity. Qed.

(* A task with money on both accounts runs. *)
Theorem C57_funded_task_runs : forall s e c o used l,
  reached s -> get_cron s (c_id c) = Some c -> c_cb c = false -> decode (c_owner c) = Some o ->
  e_pack e c = true -> (exists p, c_price c = Some p /\ e_base e <= p) -> 0 < e_base e -> e_intr e c <= c_gas c -> 0 < c_gas c < 2 ^ 64 ->
  c_gas c * e_base e <= money s o -> c_gas c * e_base e <= money s (Wallet (c_id c)) ->
  e_evm e c (s_nonce s) = EvmRun used l -> 0 <= used <= c_gas c -> Forall pays_only l ->
  exists s', execute s e c = Ok (s', Some used).
Proof.
  intros s e c o used l RS G CB D PK P BP IN GB OM WM EV UB PO. destruct (reached_wf _ RS) as [W SO].
  apply (funded_runs s e c o used l W SO G CB D PK P BP IN GB OM WM EV UB PO).
Qed.

(* The total of fees recorded on a task is not what its account was charged: after one block
   with a standing charge of 5 and a run of 40, it says 5. *)
Theorem C57_recorded_fees_wrong_refuted : exists s e s' c,
  reached s /\ step s e (OEndBlock 10) = Ok s' /\ get_cron s' 1 = Some c /\
  money s (Wallet 1) - money s' (Wallet 1) = 45 /\ c_fees c = 5.
Proof.
  pose (s' := ex_state hist2). destruct (get_cron s' 1) as [c|] eqn:G; [|vm_compute in G; discriminate G].
  exists ex1, (block 1 plain), s', c. split; [exact ex1_reached|]. split; [vm_compute; reflexivity|]. split; [exact G|].
  split; [vm_compute; reflexivity|]. vm_compute in G. injection G as <-. reflexivity.
Qed.

(* ---- C58: which tasks run first --------------------------------------- *)

(* What is picked for a round: the first entries, lowest price first, that have not waited too long. *)
Theorem C58_what_is_picked : forall s e, 0 < e_limit e -> exists b, get_batch s e = Ok b /\
  b_ids b = firstn (Z.to_nat (e_limit e)) (map fst (filter (fun it => negb (late e it)) (in_order s))) /\
  b_expired b = map fst (filter (late e) (in_order s)).
Proof. intros s e L. apply get_batch_ok, L. Qed.

(* So the best-paying task is left out: three tasks wait, two may run, and the one paying 9 is not among them. *)
Definition hist4 : list (env * op) :=
  map (fun p => (block 0 plain, OCreateCb (mk_create (print alice) (print alice) 9 true [] 0 0 100 (Some p) (Some 2000)) true)) [9; 1; 2].
Theorem C58_best_paying_left_out_refuted : exists s e b,
  reached s /\ e_limit e = 2 /\ get_batch s e = Ok b /\ b_ids b = [2; 3] /\
  option_map c_price (get_cron s 1) = Some (Some 9) /\ queued_at s 1 9 = 1%nat /\
  option_map c_price (get_cron s 2) = Some (Some 1) /\ option_map c_price (get_cron s 3) = Some (Some 2).
Proof.
  assert (RS : reached (ex_state hist4)) by (apply ex_reached; [signed|vm_compute; reflexivity]).
  destruct (get_batch_ok (ex_state hist4) (block 1 plain)) as (b & E & A & _); [cbn; lia|].
  exists (ex_state hist4), (block 1 plain), b. split; [exact RS|]. split; [reflexivity|]. split; [exact E|]. split; [rewrite A; vm_compute; reflexivity|].
  split; [vm_compute; reflexivity|]. split; [vm_compute; reflexivity|]. split; vm_compute; reflexivity.
Qed.

(* ---- C59: the end of a block ------------------------------------------ *)

(* A task may stop the chain: its owner spends the rest of their money, and the run that the task's own
   account could pay for ends in a nil dereference. *)
Definition hist_poor : list (env * op) :=
  [(block 0 plain, OCreate (task (print bob) 3 1000)); (block 0 plain, OPay bob alice 4000)].
Theorem C59_poor_owner_stops_the_chain_refuted : exists s e c,
  reached s /\ get_cron s 1 = Some c /\ money s (Wallet 1) = 1000 /\ c_gas c * e_base e = 100 /\
  forall fuel, (0 < fuel)%nat -> step s e (OEndBlock fuel) = Panic.
Proof.
  assert (RS : reached (ex_state hist_poor)) by (apply ex_reached; [signed|vm_compute; reflexivity]).
  destruct (get_cron (ex_state hist_poor) 1) as [c|] eqn:G; [|vm_compute in G; discriminate G].
  exists (ex_state hist_poor), (block 1 plain), c. split; [exact RS|]. split; [exact G|]. split; [vm_compute; reflexivity|].
  vm_compute in G. injection G as <-. split; [reflexivity|]. intros [|n] H; [lia|]. vm_compute. reflexivity.
Qed.

(* So does a call whose execution returns an error. *)
Theorem C59_failing_call_stops_the_chain_refuted : exists s e,
  reached s /\ (forall c n, e_evm e c n = EvmErr) /\ forall fuel, (0 < fuel)%nat -> step s e (OEndBlock fuel) = Panic.
Proof.
  exists ex1, (block 1 (fun _ _ => EvmErr)). split; [exact ex1_reached|]. split; [reflexivity|]. intros [|n] H; [lia|]. vm_compute. reflexivity.
Qed.

(* So does an update that leaves the price out. *)
Theorem C59_missing_price_stops_the_chain_refuted : exists s e u s1,
  reached s /\ u_price u = None /\ step s e (OUpdate (print alice) u) = Ok s1 /\ forall fuel, step s1 e (OEndBlock fuel) = Panic.
Proof.
  pose (u := mk_upd 1 1 [] 0 100 None). pose (s1 := ex_state (hist1 ++ [(block 1 plain, OUpdate (print alice) u)])).
  exists ex1, (block 1 plain), u, s1. split; [exact ex1_reached|]. split; [reflexivity|]. split; [vm_compute; reflexivity|]. intro fuel. vm_compute. reflexivity.
Qed.

(* So does an update to a price whose product with the gas limit leaves 256 bits. *)
Theorem C59_huge_price_stops_the_chain_refuted : exists s e u s1,
  reached s /\ u_price u = Some (2 ^ 255) /\ step s e (OUpdate (print alice) u) = Ok s1 /\ forall fuel, step s1 e (OEndBlock fuel) = Panic.
Proof.
  pose (u := mk_upd 1 1 [] 0 100 (Some (2 ^ 255))). pose (s1 := ex_state (hist1 ++ [(block 1 plain, OUpdate (print alice) u)])).
  exists ex1, (block 1 plain), u, s1. split; [exact ex1_reached|]. split; [reflexivity|]. split; [vm_compute; reflexivity|]. intro fuel. vm_compute. reflexivity.
Qed.

(* So does a limit of zero executions per block once a task waits. *)
Theorem C59_zero_limit_stops_the_chain_refuted : exists s e,
  reached s /\ e_limit e = 0 /\ forall fuel, (0 < fuel)%nat -> step s e (OEndBlock fuel) = Panic.
Proof.
  exists ex3, (mk_env 50001 1700000001 1 5 0 (fun _ => Some true) (fun _ => true) (fun _ => 10) plain).
  split; [apply quietly_reached, ex3_quietly|]. split; [reflexivity|]. intros [|n] H; [lia|]. vm_compute. reflexivity.
Qed.

(* ---- C60: numbers ----------------------------------------------------- *)

(* A new task has a number no task, live or cancelled, ever had. *)
Theorem C60_task_numbers_never_reused : forall s e m s' id,
  reached s -> (create s e m = Ok (s', id) \/ create_cb s e m = Ok (s', id)) ->
  any_cron s id = None /\ (forall j c, any_cron s j = Some c -> j < id) /\ s_next s' = id + 1.
Proof.
  intros s e m s' id RS C. destruct (reached_wf _ RS) as [W _].
  assert (X : exists cb, create_any cb s e m = Ok (s', id)) by (destruct C as [C|C]; [exists false|exists true]; exact C).
  destruct X as (cb & X). destruct (create_shape _ _ _ _ _ _ X) as (o & x & s2 & I & G & _). destruct (create_rest _ _ _ _ _ _ X) as (_ & _ & B3 & _).
  assert (LT : forall j c, any_cron s j = Some c -> j < id).
  { intros j c A. rewrite I. unfold any_cron in A. destruct (get_cron s j) eqn:GJ; [apply (wf_live _ _ _ W GJ)|apply (wf_arch _ _ _ W A)]. }
  split; [|split; [exact LT|lia]]. destruct (any_cron s id) as [c|] eqn:A; [|reflexivity]. specialize (LT _ _ A). lia.
Qed.

(* Results are numbered one after the other, and a stored result is never changed. *)
Theorem C60_results_kept : forall s l s', run s l = Ok s' ->
  s_nonce s <= s_nonce s' /\
  (forall n, n < s_nonce s -> zget (s_results s') n = zget (s_results s) n) /\
  (forall n, s_nonce s <= n < s_nonce s' -> zget (s_results s') n <> None).
Proof. intros s l s' R. apply (kept_run _ _ _ R). Qed.

Example C60_results_example : is_ok (run ex1 [(block 1 plain, OEndBlock 10)]) = true /\ s_nonce ex1 = 1 /\ s_nonce (ex_state hist2) = 3.
Proof. vm_compute. auto. Qed.
Example C60_numbers_example : is_ok (create ex_cancelled (block 4 plain) (task (print alice) 3 1000)) = true /\ get_cron ex_cancelled 1 = None.
Proof. vm_compute. auto. Qed.

(* ---- C61: the listing by owner ---------------------------------------- *)

(* On a chain past height 40600 from the start, the tasks listed for an owner are exactly theirs. *)
Theorem C61_owner_listing_exact_partial : forall bank l s o c,
  solvent (start bank) -> all_signed l -> Forall (fun p : env * op => upd1 < e_height (fst p)) l -> run (start bank) l = Ok s ->
  (In c (by_owner s o) <-> exists id, any_cron s id = Some c /\ decode (c_owner c) = Some o).
Proof.
  intros bank l s o c SO SG HH R.
  destruct (run_listed l (start bank) s (fun _ => None) SG HH (start_wf bank)) as (F & N & L); [| |reflexivity|exact R|].
  { split; [discriminate|]. split; [discriminate|]. intros j X. congruence. }
  { intros a id. split; [intros []|]. intros (t & w & k & b & X & _). discriminate X. }
  rewrite by_owner_in. split.
  - intros (id & I & A). exists id. split; [exact A|]. apply L in I. destruct I as (t & w & k & b & X & D).
    pose proof (named_any _ _ _ _ N A) as FA. unfold ident in FA. rewrite X in FA. injection FA as FA _ _ _. rewrite <- FA. exact D.
  - intros (id & A & D). exists id. split; [|exact A]. apply L. pose proof (named_any _ _ _ _ N A) as FA.
    exists (c_owner c), (c_wallet c), (c_call c), (c_cb c). split; [exact FA|exact D].
Qed.
Example C61_listing_example : map c_id (by_owner ex_cancelled alice) = [1] /\ map c_id (by_owner ex_cancelled bob) = [2].
Proof. vm_compute. auto. Qed.

(* Tasks made earlier are never listed. *)
Theorem C61_old_task_not_listed_refuted : exists s,
  reached s /\ option_map c_owner (get_cron s 1) = Some (print alice) /\ by_owner s alice = [].
Proof.
  pose (e := mk_env 40600 1700000001 1 5 2 (fun _ => Some true) (fun _ => true) (fun _ => 10) plain).
  exists (ex_state [(e, OCreate (task (print alice) 3 1000))]). split; [apply ex_reached; [signed|vm_compute; reflexivity]|]. vm_compute. auto.
Qed.

(* ---- C62: genesis ----------------------------------------------------- *)

(* Every live task survives, unchanged. *)
Theorem C62_tasks_survive_partial : forall s bank h, reached s ->
  (forall id, get_cron (import bank h (export s)) id = get_cron s id) /\ s_bal (import bank h (export s)) = bank.
Proof.
  intros s bank h RS. destruct (reached_wf _ RS) as [W _]. split; [apply round_trip_tasks, W|].
  unfold import. destruct (import_fields h (export s) (set_bal init bank)) as (A & _). exact A.
Qed.
Example C62_tasks_example : live ex1 1 /\ live (import ex_bank 60000 (export ex1)) 2.
Proof. split; eexists; vm_compute; reflexivity. Qed.

(* The next number is not: after import no task can be created, by anyone. *)
Theorem C62_no_creation_after_import_refuted : exists s e m,
  reached s /\ is_ok (create s e m) = true /\
  forall e' m', is_ok (create (import (s_bal s) 60000 (export s)) e' m') = false /\ is_ok (create_cb (import (s_bal s) 60000 (export s)) e' m') = false.
Proof.
  exists ex1, (block 2 plain), (task (print alice) 3 1000). split; [exact ex1_reached|]. split; [vm_compute; reflexivity|].
  assert (LV : live (import (s_bal ex1) 60000 (export ex1)) (s_next (import (s_bal ex1) 60000 (export ex1)))) by (eexists; vm_compute; reflexivity).
  intros e' m'. split; [apply (create_blocked false _ _ _ LV)|apply (create_blocked true _ _ _ LV)].
Qed.

(* Nor is the queue: a waiting task counts as waiting but will never be picked. *)
Theorem C62_queue_lost_refuted : exists s c,
  reached s /\ queue_exact s /\ get_cron (import (s_bal s) 60000 (export s)) 3 = Some c /\ waiting c = true /\
  forall k, queued_at (import (s_bal s) 60000 (export s)) 3 k = 0%nat.
Proof.
  destruct (get_cron (import (s_bal ex3) 60000 (export ex3)) 3) as [c|] eqn:G; [|vm_compute in G; discriminate G].
  exists ex3, c. split; [apply quietly_reached, ex3_quietly|]. split; [apply (quietly_qinv _ ex3_quietly)|]. split; [exact G|].
  split; [vm_compute in G; injection G as <-; reflexivity|]. intro k. vm_compute. reflexivity.
Qed.

(* ---- C63: a deposit covers a run -------------------------------------- *)

Theorem C63_deposit_covers_a_run_partial : forall s e m s' id,
  reached s -> op_signed (OCreate m) -> create s e m = Ok (s', id) -> 0 <= m_gas m < 2 ^ 63 ->
  exists p, m_price m = Some p /\ (0 <= p -> p * m_gas m < money s' (Wallet id)).
Proof.
  intros s e m s' id RS SG C GB. destruct (reached_wf _ RS) as [_ SO].
  destruct (create_shape false _ _ _ _ _ C) as (o & x & s2 & I & _ & SE & D & A & _ & _ & _ & _ & X).
  destruct (X eq_refl) as (_ & _ & p & P & L). exists p. split; [exact P|]. intro PP.
  assert (GE : i64 (m_gas m) = m_gas m).
  { unfold i64. rewrite Z.mod_small by lia. destruct (Z.ltb_spec (m_gas m) (2 ^ 63)); [reflexivity|lia]. }
  rewrite GE in L. destruct (create_money false _ _ _ _ _ C) as (o2 & x2 & D2 & A2 & M).
  replace x2 with x in M by congruence. replace o2 with o in M by congruence.
  destruct SG as (a & DA & PA). rewrite SE, D in DA. injection DA as <-.
  rewrite M, addr_eqb_refl, (person_not_wallet o id PA). pose proof (SO (Wallet id)). lia.
Qed.
Example C63_example : match create (start ex_bank) (block 0 plain) (task (print alice) 3 1000) with Ok (s', id) => 3 * 100 < money s' (Wallet id) | _ => False end.
Proof. vm_compute. reflexivity. Qed.

(* With a gas limit of 2^63 the check wraps around and no deposit at all is enough. *)
Theorem C63_huge_gas_needs_no_deposit_refuted : exists s e m s' id,
  reached s /\ op_signed (OCreate m) /\ m_gas m = 2 ^ 63 /\ m_price m = Some 3 /\ m_amount m = Some 0 /\ create s e m = Ok (s', id) /\ money s' (Wallet id) = 0.
Proof.
  pose (m := mk_create (print alice) (print alice) 9 true [] 1 0 (2 ^ 63) (Some 3) (Some 0)).
  exists (start ex_bank), (block 0 plain), m, (ex_state [(block 0 plain, OCreate m)]), 1.
  split; [apply (ex_reached []); [constructor|reflexivity]|]. split; [eexists; split; [reflexivity|exact I]|]. split; [reflexivity|]. split; [reflexivity|]. split; [reflexivity|].
  split; vm_compute; reflexivity.
Qed.

Print Assumptions C45_creating_moves_the_deposit_partial.
Print Assumptions C45_negative_deposit_accepted_refuted.
Print Assumptions C45_cancelling_returns_everything.
Print Assumptions C45_owner_can_always_cancel_partial.
Print Assumptions C45_upper_case_owner_never_refunded_refuted.
Print Assumptions C45_sum_of_balances_constant.
Print Assumptions C45_no_account_overdrawn.
Print Assumptions C46_only_the_owner.
Print Assumptions C46_others_change_nothing.
Print Assumptions C46_tasks_keep_their_identity.
Print Assumptions C46_cancelled_stays_gone_partial.
Print Assumptions C46_self_cancelled_task_returns_refuted.
Print Assumptions C46_update_during_run_lost_refuted.
Print Assumptions C47_queue_exact_partial.
Print Assumptions C47_removed_task_not_queued_partial.
Print Assumptions C47_repriced_task_stays_queued_refuted.
Print Assumptions C47_new_task_counts_as_waiting_refuted.
Print Assumptions C57_a_run_costs_its_gas_partial.
Print Assumptions C57_funded_task_runs.
Print Assumptions C57_recorded_fees_wrong_refuted.
Print Assumptions C58_what_is_picked.
Print Assumptions C58_best_paying_left_out_refuted.
Print Assumptions C59_poor_owner_stops_the_chain_refuted.
Print Assumptions C59_failing_call_stops_the_chain_refuted.
Print Assumptions C59_missing_price_stops_the_chain_refuted.
Print Assumptions C59_huge_price_stops_the_chain_refuted.
Print Assumptions C59_zero_limit_stops_the_chain_refuted.
Print Assumptions C60_task_numbers_never_reused.
Print Assumptions C60_results_kept.
Print Assumptions C61_owner_listing_exact_partial.
Print Assumptions C61_old_task_not_listed_refuted.
Print Assumptions C62_tasks_survive_partial.
Print Assumptions C62_no_creation_after_import_refuted.
Print Assumptions C62_queue_lost_refuted.
Print Assumptions C63_deposit_covers_a_run_partial.
Print Assumptions C63_huge_gas_needs_no_deposit_refuted.
