(* C116: whoever signs what the chain never asked for can be punished, and nobody else. *)
From Verif Require Import Lib.Base Lib.Zmap Hyperion.Valset Hyperion.ValsetSpec Hyperion.ValsetRuns Hyperion.Evidence Hyperion.EvidenceSpec Hyperion.EvidenceProofs.
Open Scope Z_scope.

Section Props.
Variables rank acc_of : Z -> Z.
Variable keccak : list Z -> Z.
Variable recover : Z -> Z -> option Z.
Variable reduction : Z.
Notation estep := (estep rank acc_of keccak recover reduction).
Notation erun := (erun rank acc_of keccak recover reduction).
Notation submit := (submit keccak recover reduction).
Notation asked := (asked rank acc_of keccak recover reduction).

(* As the code is, no evidence is ever accepted, so forgers go free: the kinds of things
   that are signed are not registered for decoding. A history with evidence ends in the same
   state as the history without it. *)
Theorem C116_forgers_go_free_refuted :
  (forall e a sig, submit code_impls e a sig = Err) /\
  (forall os e, erun code_impls e os = erun code_impls e (filter (fun o => negb (is_evidence o)) os)).
Proof.
  assert (forall e a sig, submit code_impls e a sig = Err) as A by (intros e [[[| | |n] [x|]]|] sig; reflexivity).
  split; [exact A|]. induction os as [|o os IH]; intro e; [reflexivity|]. cbn [filter]. destruct o; cbn [is_evidence negb Evidence.erun].
  1-4: destruct (estep code_impls e _) as [e1| |]; [apply IH|apply IH|reflexivity].
  cbn [Evidence.estep]. rewrite A. apply IH.
Qed.

(* The rest is about the check itself: it holds for any registration, hence also for one that
   names both kinds. *)

(* Whatever the chain asked for on a bridge, at any time before, is never evidence on that
   bridge; nor is any set or batch that can be confirmed now. *)
Theorem C116_asked_signatures_are_safe_partial : forall impls h0 os e, Forall no_reload os -> erun impls (einit h0) os = Ok e ->
  (forall h w, asked impls (einit h0) os h w -> forall x u sig, bridge_of x = h -> words x = w -> is_ok (submit impls e (Some (u, Some x)) sig) = false) /\
  (forall h n v, zget (b_sets (s_br (e_s e) h)) n = Some v -> forall u f sig, is_ok (submit impls e (Some (u, Some (SSet h v f))) sig) = false) /\
  (forall h t n b, find_batch (s_br (e_s e) h) t n = Some b -> forall u sig, is_ok (submit impls e (Some (u, Some (SBatch h b))) sig) = false).
Proof.
  intros impls h0 os e F R. pose proof (archived_run rank acc_of keccak recover reduction impls h0 os e F R) as A.
  destruct (confirmable_run rank acc_of keccak recover reduction impls h0 os e R) as (_ & Cs & Cb).
  assert (forall h w, asked impls (einit h0) os h w -> forall x u sig, bridge_of x = h -> words x = w -> is_ok (submit impls e (Some (u, Some x)) sig) = false) as Main.
  { intros h w H x u sig Eb Ew. destruct (submit impls e (Some (u, Some x)) sig) as [e'| |] eqn:S; [|reflexivity|reflexivity].
    apply submit_inv in S as (y & Ey & _ & S). assert (y = x) by congruence. subst y.
    apply check_inv in S as (g & a & v & k & f & _ & _ & P & _). exfalso. apply P. apply (A (bridge_of x) (keccak (words x))). exists w. rewrite Eb, Ew. split; [reflexivity|exact H]. }
  split; [exact Main|]. split.
  - intros h n v G u f sig. exact (Main h (set_words h v) (Cs h n v G) (SSet h v f) u sig eq_refl eq_refl).
  - intros h t n b G u sig. apply find_some in G as [G _]. exact (Main h (batch_words h b) (Cb h b G) (SBatch h b) u sig eq_refl eq_refl).
Qed.

(* Evidence is accepted exactly when a registered validator's key signed what the chain never
   asked for on that bridge; then that validator alone loses the set fraction of its stake,
   and nothing else changes. Two different requests are assumed not to have the same hash. *)
Theorem C116_what_evidence_does : forall h0 os e x sig, (forall a b, keccak a = keccak b -> a = b) -> 0 < reduction ->
  Forall no_reload os -> erun both_impls (einit h0) os = Ok e -> Forall (fun p => 0 <= k_tokens (snd p)) (e_vals e) ->
  forall e', submit both_impls e (Some (url_of x, Some x)) sig = Ok e' <->
  exists g a v k f, sig = Some g /\ complete x /\ ~ asked both_impls (einit h0) os (bridge_of x) (words x) /\
    recover (keccak (words x)) g = Some a /\ zget (b_byeth (s_br (e_s e) (bridge_of x))) a = Some v /\
    zget (e_vals e) v = Some k /\ k_key k = true /\ k_status k <> Unbonded /\ e_frac e (bridge_of x) = Some f /\ 0 <= f /\
    e' = mk_est (e_s e) (e_past e) (zset (e_vals e) v (mk_vrec (k_tokens k - fine_of reduction k f) (k_status k) (k_key k))) (e_frac e).
Proof.
  intros h0 os e x sig Inj Red F R Nn e'. pose proof (archived_run rank acc_of keccak recover reduction both_impls h0 os e F R) as A.
  rewrite submit_check by (destruct x; cbn; auto).
  assert (In (bridge_of x, keccak (words x)) (e_past e) <-> asked both_impls (einit h0) os (bridge_of x) (words x)) as AA.
  { rewrite (A (bridge_of x) (keccak (words x))). split; [|intro H; exists (words x); auto]. intros (w & Ew & H). apply Inj in Ew. subst w. exact H. }
  assert (sound x = true <-> complete x) as So by (destruct x; cbn; split; auto).
  assert (forall v k, zget (e_vals e) v = Some k -> 0 <= k_tokens k) as Tk.
  { intros v k G. apply zget_in in G. rewrite Forall_forall in Nn. exact (Nn _ G). }
  split.
  - intro S. apply check_inv in S as (g & a & v & k & f & E1 & E2 & P & E3 & E4 & E5 & E6 & E7 & E8 & E9 & ->). exists g, a, v, k, f.
    rewrite AA in P. rewrite So in E2. rewrite burnt_fine by eauto. repeat match goal with |- _ /\ _ => split end; auto.
  - intros (g & a & v & k & f & -> & E2 & P & E3 & E4 & E5 & E6 & E7 & E8 & E9 & ->). rewrite <- AA in P. rewrite <- So in E2.
    rewrite (check_ok keccak recover reduction e x g a v k f) by assumption. rewrite burnt_fine by eauto. reflexivity.
Qed.

(* Whoever is punished registered the key that made the signature, on that bridge. *)
Theorem C116_the_signer_pays : forall impls h0 os e x sig e' u, erun impls (einit h0) os = Ok e -> submit impls e (Some (u, Some x)) sig = Ok e' ->
  exists g a v o, sig = Some g /\ recover (keccak (words x)) g = Some a /\ In o os /\ registers (bridge_of x) v a o /\
    forall w, w <> v -> zget (e_vals e') w = zget (e_vals e) w.
Proof.
  intros impls h0 os e x sig e' u R S. apply submit_inv in S as (y & Ey & _ & S). assert (y = x) by congruence. subst y.
  apply check_inv in S as (g & a & v & k & f & -> & _ & _ & Er & G & _ & _ & _ & _ & _ & ->).
  destruct (keys_run rank acc_of keccak recover reduction impls h0 os e R (bridge_of x)) as [_ K]. destruct (K a v G) as (o & Ho & Ro).
  exists g, a, v, o. repeat match goal with |- _ /\ _ => split end; auto. intros w N. cbn [with_vals e_vals]. apply zget_zset_other. congruence.
Qed.

(* What is signed does not name the bridge. So whoever signs the batch their own chain made
   for one bridge can be punished by presenting it as one for another bridge: for any hash,
   any batch and any signature that recovers to a key. *)
Theorem C116_honest_signers_refuted : forall b g a, recover (keccak (batch_words 1 b)) g = Some a -> 0 < reduction ->
  exists os e e', Forall no_reload os /\ erun both_impls (einit 1) os = Ok e /\ asked both_impls (einit 1) os 1 (batch_words 1 b) /\
    submit both_impls e (Some (UBatch, Some (SBatch 2 b))) (Some g) = Ok e' /\
    zget (e_vals e) 7 = Some (mk_vrec (10 * reduction) Bonded true) /\ zget (e_vals e') 7 = Some (mk_vrec (9 * reduction) Bonded true).
Proof.
  intros b g a G Red.
  set (os := [EChain (OSetKeys 1 7 7 a true); EChain (OSetKeys 2 7 7 a true); EChain (OBatch 1 b);
              EStake 7 (Some (mk_vrec (10 * reduction) Bonded true)); EParam 2 (Some 100000000000000000)]).
  set (e := match erun both_impls (einit 1) os with Ok e => e | _ => einit 0 end).
  assert (erun both_impls (einit 1) os = Ok e) as R by reflexivity.
  assert (batch_words 2 b = batch_words 1 b) as Ew by reflexivity.
  assert (burnt reduction (mk_vrec (10 * reduction) Bonded true) (power reduction (mk_vrec (10 * reduction) Bonded true)) 100000000000000000 = reduction) as B.
  { rewrite burnt_fine; cbn [k_tokens]; [|lia|lia|lia]. unfold fine_of. cbn [k_status k_tokens]. rewrite Z.div_mul by lia.
    replace (10 * reduction * 100000000000000000) with (reduction * UNIT) by (unfold UNIT; lia). rewrite Z.div_mul by discriminate. lia. }
  exists os, e. eexists. split; [repeat apply Forall_cons; try apply Forall_nil; discriminate|]. split; [exact R|]. split.
  { exists [EChain (OSetKeys 1 7 7 a true); EChain (OSetKeys 2 7 7 a true)], (OBatch 1 b). do 4 eexists. split; [reflexivity|]. split; [reflexivity|]. split; [reflexivity|]. left. exists b. auto. }
  split.
  { rewrite (submit_check keccak recover reduction both_impls e (SBatch 2 b)) by (cbn; auto).
    apply (check_ok keccak recover reduction e (SBatch 2 b) g a 7 (mk_vrec (10 * reduction) Bonded true) 100000000000000000); try reflexivity; try discriminate; try lia.
    - cbn [bridge_of words]. change (e_past e) with [(1, keccak (batch_words 1 b))]. intros [H|[]]. assert (1 = 2) by congruence. discriminate.
    - exact G.
    - change (zget (zset [] a 7) a = Some 7). apply zget_zset_same. }
  split; [reflexivity|]. cbn [with_vals e_vals]. rewrite zget_zset_same. rewrite B. cbn [k_tokens k_status k_key]. do 2 f_equal. lia.
Qed.

(* The same evidence can be used again and again. *)
Theorem C116_punished_again_refuted : forall impls e a sig e', submit impls e a sig = Ok e' -> exists e'', submit impls e' a sig = Ok e''.
Proof.
  intros impls e a sig e' S. apply submit_inv in S as (x & -> & Hi & S). rewrite submit_check by exact Hi.
  apply check_inv in S as (g & ad & v & k & f & -> & Sx & P & Er & G & K & Y & U & F & F0 & ->). eexists.
  eapply (check_ok keccak recover reduction _ x g ad v _ f); cbn [with_vals e_s e_past e_vals e_frac]; [exact Sx|exact P|exact Er|exact G|apply zget_zset_same|exact Y|exact U|exact F|exact F0].
Qed.

(* Whoever begins to unbond loses nothing by it. *)
Theorem C116_leaving_is_free_refuted : forall e x sig e' v, 0 < reduction -> submit both_impls e (Some (url_of x, Some x)) sig = Ok e' ->
  (exists k, zget (e_vals e) v = Some k /\ k_status k = Unbonding /\ 0 <= k_tokens k) -> zget (e_vals e') v = zget (e_vals e) v.
Proof.
  intros e x sig e' v Red S (k & G & St & T). rewrite submit_check in S by (destruct x; cbn; auto).
  apply check_inv in S as (g & a & w & k' & f & _ & _ & _ & _ & _ & G' & _ & _ & _ & F0 & ->). cbn [with_vals e_vals]. rewrite zget_zset.
  destruct (Z.eqb_spec w v) as [->|N]; [|reflexivity]. assert (k' = k) by congruence. subst k'. rewrite burnt_fine by assumption. unfold fine_of. rewrite St, G.
  destruct k as [t s y]. cbn [k_tokens k_status k_key] in *. rewrite St, Z.sub_0_r. reflexivity.
Qed.

(* Anybody can shield a forger by a message that names the forger's address: no evidence that
   leads to this address on this bridge is accepted afterwards. *)
Theorem C116_anyone_shields_refuted : forall impls h0 os e h who a, erun impls (einit h0) os = Ok e ->
  exists e1, estep impls e (EChain (OUnsetKeys h who a)) = Ok e1 /\
    forall x u g, bridge_of x = h -> recover (keccak (words x)) g = Some a -> is_ok (submit impls e1 (Some (u, Some x)) (Some g)) = false.
Proof.
  intros impls h0 os e h who a R. eexists. split; [reflexivity|]. intros x u g Eb Er.
  destruct (keys_run rank acc_of keccak recover reduction impls h0 os e R h) as [So _].
  destruct (submit _ _ (Some (u, Some x)) (Some g)) as [e'| |] eqn:S; [|reflexivity|reflexivity]. exfalso.
  apply submit_inv in S as (y & Ey & _ & S). assert (y = x) by congruence. subst y.
  apply check_inv in S as (g' & a' & v & k & f & Eg & _ & _ & Er' & G & _). assert (g' = g) by congruence. subst g'. assert (a' = a) by congruence. subst a'.
  rewrite Eb in G. cbn [with_past with_s e_s] in G. rewrite put_same in G. cbn [with_keys b_byeth] in G. rewrite zget_zdel in G by exact So. rewrite Z.eqb_refl in G. discriminate.
Qed.

(* The record of what was asked is not exported: on a chain started from an export, what was
   signed on request before is evidence. *)
Theorem C116_new_chain_forgets_refuted : forall b g a, recover (keccak (batch_words 1 b)) g = Some a -> 0 < reduction ->
  exists os e e', erun both_impls (einit 1) os = Ok e /\ asked both_impls (einit 1) os 1 (batch_words 1 b) /\
    In b (b_batches (s_br (e_s e) 1)) /\ submit both_impls e (Some (UBatch, Some (SBatch 1 b))) (Some g) = Ok e'.
Proof.
  intros b g a G Red.
  set (os := [EChain (OSetKeys 1 7 7 a true); EChain (OBatch 1 b); EReload;
              EStake 7 (Some (mk_vrec (10 * reduction) Bonded true)); EParam 1 (Some 100000000000000000)]).
  set (e := match erun both_impls (einit 1) os with Ok e => e | _ => einit 0 end).
  assert (erun both_impls (einit 1) os = Ok e) as R by reflexivity.
  exists os, e. eexists. split; [exact R|]. split.
  { exists [EChain (OSetKeys 1 7 7 a true)], (OBatch 1 b). do 4 eexists. split; [reflexivity|]. split; [reflexivity|]. split; [reflexivity|]. left. exists b. auto. }
  split; [left; reflexivity|]. rewrite (submit_check keccak recover reduction both_impls e (SBatch 1 b)) by (cbn; auto).
  apply (check_ok keccak recover reduction e (SBatch 1 b) g a 7 (mk_vrec (10 * reduction) Bonded true) 100000000000000000); try reflexivity; try discriminate; try lia.
  - intros [].
  - exact G.
  - change (zget (zset [] a 7) a = Some 7). apply zget_zset_same.
Qed.
End Props.
Print Assumptions C116_forgers_go_free_refuted.
Print Assumptions C116_asked_signatures_are_safe_partial.
Print Assumptions C116_what_evidence_does.
Print Assumptions C116_the_signer_pays.
Print Assumptions C116_honest_signers_refuted.
Print Assumptions C116_punished_again_refuted.
Print Assumptions C116_leaving_is_free_refuted.
Print Assumptions C116_anyone_shields_refuted.
Print Assumptions C116_new_chain_forgets_refuted.

(* ---- a case: two validators, one batch and one set asked for, one forged batch ---- *)
(* an injective hash of lists of numbers, and signatures that are the signer's address *)
Definition ev_code (z : Z) : positive := match z with Z0 => 1%positive | Zpos p => xO p | Zneg p => xI p end.
Fixpoint ev_unary (p : positive) (r : positive) : positive :=
  match p with xH => xI (xI r) | xO q => xO (xO (ev_unary q r)) | xI q => xO (xI (ev_unary q r)) end.
Definition ev_hash (l : list Z) : Z := Zpos (fold_right (fun z r => ev_unary (ev_code z) r) xH l).
Definition ev_recover (c g : Z) : option Z := if g <? 0 then None else Some g.
Definition ev_id (x : Z) : Z := x.
Definition ev_run := erun ev_id ev_id ev_hash ev_recover 100.
Definition ev_submit := submit ev_hash ev_recover 100.
Definition ev_batch : batch := mk_batch 1 9 50 [(10, 20, 1)].
Definition ev_forged : batch := mk_batch 2 9 50 [(10000, 66, 1)].
Definition ev_ops : list eop :=
  [EStake 1 (Some (mk_vrec 1050 Bonded true)); EStake 2 (Some (mk_vrec 700 Unbonding true)); EParam 1 (Some 100000000000000000);
   EChain (OSetKeys 1 1 11 71 true); EChain (OSetKeys 1 2 12 72 true);
   EChain (OBlock [mk_sval 1 3 false (Some 0)] [] [mk_params 1 10 1 0 false 0 0]); EChain (OBatch 1 ev_batch)].
Definition ev_state : est := match ev_run both_impls (einit 5) ev_ops with Ok e => e | _ => einit 0 end.

Example C116_case :
  ev_run both_impls (einit 5) ev_ops = Ok ev_state /\ length (e_past ev_state) = 2%nat /\ Forall no_reload ev_ops /\
  (* on request: refused *)
  ev_submit both_impls ev_state (Some (UBatch, Some (SBatch 1 ev_batch))) (Some 71) = Err /\
  (* forged: validator 1 loses a tenth of its ten units of power *)
  (exists e', ev_submit both_impls ev_state (Some (UBatch, Some (SBatch 1 ev_forged))) (Some 71) = Ok e' /\ zget (e_vals e') 1 = Some (mk_vrec 950 Bonded true) /\
     (* and again *)
     exists e'', ev_submit both_impls e' (Some (UBatch, Some (SBatch 1 ev_forged))) (Some 71) = Ok e'' /\ zget (e_vals e'') 1 = Some (mk_vrec 860 Bonded true)) /\
  (* validator 2 is leaving *)
  (exists e', ev_submit both_impls ev_state (Some (UBatch, Some (SBatch 1 ev_forged))) (Some 72) = Ok e' /\ zget (e_vals e') 2 = Some (mk_vrec 700 Unbonding true)) /\
  (* a stranger's signature *)
  ev_submit both_impls ev_state (Some (UBatch, Some (SBatch 1 ev_forged))) (Some 73) = Err /\
  (* the code as it is *)
  ev_submit code_impls ev_state (Some (UBatch, Some (SBatch 1 ev_forged))) (Some 71) = Err.
Proof.
  split; [reflexivity|]. split; [vm_compute; reflexivity|]. split; [repeat apply Forall_cons; try apply Forall_nil; discriminate|].
  split; [vm_compute; reflexivity|]. split; [eexists; split; [vm_compute; reflexivity|split; [vm_compute; reflexivity|]]; eexists; split; vm_compute; reflexivity|].
  split; [eexists; split; vm_compute; reflexivity|]. split; vm_compute; reflexivity.
Qed.
(* the hash of the case keeps different requests apart *)
Example C116_case_hash : forall a b, ev_hash a = ev_hash b -> a = b.
Proof.
  assert (forall p q r s, ev_unary p r = ev_unary q s -> p = q /\ r = s) as U.
  { induction p as [p IH|p IH|]; intros [q|q|] r s; cbn [ev_unary]; intro E; try discriminate; try (injection E as E; apply IH in E as [-> ->]; auto). injection E as ->. auto. }
  assert (forall x y, ev_code x = ev_code y -> x = y) as C by (intros [|p|p] [|q|q]; cbn; intro E; congruence).
  intros a b E. unfold ev_hash in E. assert (fold_right (fun z r => ev_unary (ev_code z) r) xH a = fold_right (fun z r => ev_unary (ev_code z) r) xH b) as H by congruence. clear E.
  revert b H. induction a as [|x a IH]; intros [|y b] H; cbn [fold_right] in H; [reflexivity| | |].
  - destruct (ev_code y); discriminate.
  - destruct (ev_code x); discriminate.
  - apply U in H as [H1 H2]. apply C in H1. apply IH in H2. congruence.
Qed.
