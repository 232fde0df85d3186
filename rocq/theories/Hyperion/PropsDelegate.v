(* C121: who may act for a validator on a bridge. *)
From Verif Require Import Lib.Base Lib.Zmap Hyperion.Delegate Hyperion.DelegateSpec.
Open Scope Z_scope.

Lemma zget_del_same : forall A (m : list (Z * A)) k, zget (del m k) k = None.
Proof.
  intros A m k. induction m as [|(a, x) m IH]; [reflexivity|]. cbn [del filter fst]. destruct (Z.eqb_spec a k) as [E|E]; cbn [negb]; [exact IH|].
  cbn [zget]. fold (del m k). repeat match goal with |- context [?p =? ?q] => destruct (Z.eqb_spec p q); try congruence end.
Qed.
Lemma zget_del_other : forall A (m : list (Z * A)) k k', k <> k' -> zget (del m k) k' = zget m k'.
Proof.
  intros A m k k' N. induction m as [|(a, x) m IH]; [reflexivity|]. cbn [del filter fst]. fold (del m k). destruct (Z.eqb_spec a k) as [E|E]; cbn [negb zget];
  repeat match goal with |- context [?p =? ?q] => destruct (Z.eqb_spec p q); try congruence end.
Qed.

Lemma has_false : forall A (m : list (Z * A)) k, has m k = false <-> zget m k = None.
Proof. intros. unfold has. destruct (zget m k); split; congruence. Qed.

Lemma free_unused : forall s v o va li, free s v o va li = true <-> va = true /\ li = true /\ unused s o v.
Proof.
  intros s v o va li. unfold free, unused, acts_for, signs_with, has.
  destruct va; cbn [negb]; [|split; [discriminate|intros (H & _); discriminate]].
  destruct (zget (s_orch s) o) as [w|]; cbn [orb]; [split; [discriminate|intros (_ & _ & H & _); destruct (H w eq_refl)]|].
  destruct (zget (s_key s) v) as [k|]; [split; [discriminate|intros (_ & _ & _ & H); destruct (H k eq_refl)]|].
  split; [intros ->; repeat split; intros; discriminate|intros (_ & H & _); exact H].
Qed.

Ltac zm := repeat match goal with
  | |- context [zget (zset _ ?a _) ?a] => rewrite zget_zset_same
  | H : ?a <> ?b |- context [zget (zset _ ?b _) ?a] => rewrite zget_zset_other by congruence
  | H : ?a <> ?b |- context [zget (zset _ ?a _) ?b] => rewrite zget_zset_other by congruence
  end.

Section Claims.
Variable self : Z -> Z.
Let step := step self.
Let run := run self.

(* A registration is accepted exactly when the sender is a validator without a key, the
   orchestrator is on the whitelist and acts for nobody. The orchestrator then acts for the
   sender, who signs with the key; nothing else changes. *)
Theorem C121_register : forall s v va li orch key, let o := match orch with Some o => o | None => v end in
  (va = true /\ li = true /\ unused s o v ->
   exists s', step s (Register v va li orch key) = Ok s' /\ acts_for s' o v /\ signs_with s' v key /\ belongs_to s' key v /\
     (forall f, asks s' v f <-> asks s v f) /\ others_same s s' o v key) /\
  (~ (va = true /\ li = true /\ unused s o v) -> step s (Register v va li orch key) = Err).
Proof.
  intros s v va li orch key. cbv zeta. fold (orch_of v orch). unfold step, Delegate.step. cbv zeta. split; intro H.
  - apply free_unused in H. rewrite H. eexists. split; [reflexivity|]. unfold others_same, acts_for, signs_with, belongs_to, asks. cbn [s_orch s_key s_owner s_fee].
    repeat match goal with |- _ /\ _ => split end; intros; zm; try reflexivity.
  - destruct (free s v (orch_of v orch) va li) eqn:E; [|reflexivity]. destruct (H (proj1 (free_unused _ _ _ _ _) E)).
Qed.

(* The same with fees, for the key that has the validator's own bytes. *)
Theorem C121_register_with_fee : forall s v va li coin orch tx batch, let o := match orch with Some o => o | None => v end in
  (coin = true /\ va = true /\ li = true /\ unused s o v ->
   exists s', step s (RegisterFee v va li coin orch tx batch) = Ok s' /\ acts_for s' o v /\ signs_with s' v (self v) /\ belongs_to s' (self v) v /\
     asks s' v tx /\ zget (s_data s') o = Some (tx, batch) /\ others_same s s' o v (self v)) /\
  (~ (coin = true /\ va = true /\ li = true /\ unused s o v) -> step s (RegisterFee v va li coin orch tx batch) = Err).
Proof.
  intros s v va li coin orch tx batch. cbv zeta. fold (orch_of v orch). unfold step, Delegate.step. cbv zeta. split; intro H.
  - destruct H as (-> & H). apply free_unused in H. cbn [negb]. rewrite H. eexists. split; [reflexivity|]. unfold others_same, acts_for, signs_with, belongs_to, asks. cbn [s_orch s_key s_owner s_fee s_data].
    repeat match goal with |- _ /\ _ => split end; intros; zm; try reflexivity.
  - destruct coin; cbn [negb]; [|reflexivity]. destruct (free s v (orch_of v orch) va li) eqn:E; [|reflexivity]. destruct (H (conj eq_refl (proj1 (free_unused _ _ _ _ _) E))).
Qed.

(* Ending a registration is always accepted: the sender has no key and no fee then, the account
   acts for nobody, and the key in the message belongs to nobody. *)
Theorem C121_unregister : forall s v key, exists s', step s (Unregister v key) = Ok s' /\
  (forall k, ~ signs_with s' v k) /\ (forall f, ~ asks s' v f) /\ (forall w, ~ acts_for s' v w) /\ (forall w, ~ belongs_to s' key w) /\ others_same s s' v v key.
Proof.
  intros s v key. eexists. split; [reflexivity|]. unfold others_same, acts_for, signs_with, belongs_to, asks. cbn [s_orch s_key s_owner s_fee].
  repeat match goal with |- _ /\ _ => split end; intros; try (rewrite zget_del_same; discriminate); rewrite zget_del_other by congruence; reflexivity.
Qed.

(* A fee is changed or removed only where there is one, and only this fee. *)
Theorem C121_fees : forall s v,
  (forall coin tx batch, (exists f, asks s v f) /\ coin = true /\ (exists d, zget (s_data s) v = Some d) ->
     exists s', step s (UpdateFee v coin tx batch) = Ok s' /\ asks s' v tx /\ zget (s_data s') v = Some (tx, batch) /\
       s_orch s' = s_orch s /\ s_key s' = s_key s /\ s_owner s' = s_owner s /\ (forall w f, w <> v -> (asks s' w f <-> asks s w f))) /\
  ((exists f, asks s v f) -> exists s', step s (DeleteFee v) = Ok s' /\ (forall f, ~ asks s' v f) /\
       s_orch s' = s_orch s /\ s_key s' = s_key s /\ s_owner s' = s_owner s /\ s_data s' = s_data s /\ (forall w f, w <> v -> (asks s' w f <-> asks s w f))) /\
  ((forall f, ~ asks s v f) -> step s (DeleteFee v) = Err /\ forall coin tx batch, step s (UpdateFee v coin tx batch) = Err).
Proof.
  intros s v. unfold asks, step, Delegate.step, has. split; [|split].
  - intros coin tx batch ((f & ->) & -> & (d & ->)). cbn [negb]. eexists. split; [reflexivity|]. cbn [s_orch s_key s_owner s_fee s_data].
    repeat match goal with |- _ /\ _ => split end; intros; zm; try reflexivity.
  - intros (f & ->). cbn [negb]. eexists. split; [reflexivity|]. cbn [s_orch s_key s_owner s_fee s_data].
    repeat match goal with |- _ /\ _ => split end; intros; try reflexivity; [rewrite zget_del_same; discriminate|rewrite zget_del_other by congruence; reflexivity].
  - intro H. destruct (zget (s_fee s) v) as [f|]; [destruct (H f eq_refl)|]. split; reflexivity.
Qed.

(* Nobody but the validator changes its key or its fee or lets someone act for it, and whoever
   acts for it goes on until they themselves or the validator send a message. *)
Theorem C121_only_self : forall s m s' v, step s m = Ok s' -> sender m <> v ->
  (forall k, signs_with s' v k <-> signs_with s v k) /\ (forall f, asks s' v f <-> asks s v f) /\
  (forall o, acts_for s' o v -> acts_for s o v) /\ (forall o, sender m <> o -> acts_for s o v -> acts_for s' o v).
Proof.
  intros s m s' v E N. unfold signs_with, asks, acts_for. destruct m as [w va li orch key|w va li coin orch tx batch|w coin tx batch|w|w key]; cbn [sender] in N; unfold step, Delegate.step in E; cbv zeta in E.
  - destruct (free s w (orch_of w orch) va li) eqn:Fr; [|discriminate]. apply free_unused in Fr as (_ & _ & Fo & _). injection E as <-. cbn [s_orch s_key s_owner s_fee].
    repeat match goal with |- _ /\ _ => split end; intros; zm; try reflexivity.
    + destruct (Z.eq_dec o (orch_of w orch)) as [->|No]; [rewrite zget_zset_same in H; congruence|rewrite zget_zset_other in H by congruence; exact H].
    + destruct (Z.eq_dec o (orch_of w orch)) as [->|No]; [destruct (Fo v H0)|rewrite zget_zset_other by congruence; exact H0].
  - destruct (negb coin); [discriminate|]. destruct (free s w (orch_of w orch) va li) eqn:Fr; [|discriminate]. apply free_unused in Fr as (_ & _ & Fo & _). injection E as <-. cbn [s_orch s_key s_owner s_fee].
    repeat match goal with |- _ /\ _ => split end; intros; zm; try reflexivity.
    + destruct (Z.eq_dec o (orch_of w orch)) as [->|No]; [rewrite zget_zset_same in H; congruence|rewrite zget_zset_other in H by congruence; exact H].
    + destruct (Z.eq_dec o (orch_of w orch)) as [->|No]; [destruct (Fo v H0)|rewrite zget_zset_other by congruence; exact H0].
  - destruct (negb (has (s_fee s) w)); [discriminate|]. destruct (negb coin); [discriminate|]. destruct (has (s_data s) w); [|discriminate]. injection E as <-. cbn [s_orch s_key s_owner s_fee].
    repeat match goal with |- _ /\ _ => split end; intros; zm; try reflexivity; assumption.
  - destruct (negb (has (s_fee s) w)); [discriminate|]. injection E as <-. cbn [s_orch s_key s_owner s_fee].
    repeat match goal with |- _ /\ _ => split end; intros; try rewrite zget_del_other by congruence; try reflexivity; assumption.
  - injection E as <-. cbn [s_orch s_key s_owner s_fee].
    repeat match goal with |- _ /\ _ => split end; intros; try rewrite zget_del_other by congruence; try reflexivity; try assumption.
    + destruct (Z.eq_dec o w) as [->|No]; [rewrite zget_del_same in H; discriminate|rewrite zget_del_other in H by congruence; exact H].
    + cbn [sender] in H. rewrite zget_del_other by congruence. exact H0.
Qed.

(* So a registration lasts through everything that others do. *)
Theorem C121_lasts : forall l s o v k, acts_for s o v -> signs_with s v k -> Forall (fun m => sender m <> v /\ sender m <> o) l ->
  acts_for (run s l) o v /\ signs_with (run s l) v k.
Proof.
  induction l as [|m l IH]; intros s o v k A K Fo; [split; assumption|]. inversion Fo as [|x y (Nv & No) Fl]. subst x y. change (run s (m :: l)) with (run (process self s m) l).
  unfold process. destruct (Delegate.step self s m) as [s'| |] eqn:E; try (apply IH; assumption). destruct (C121_only_self s m s' v E Nv) as (C1 & _ & _ & C4).
  apply IH; [apply C4; assumption|apply C1; exact K|exact Fl].
Qed.

(* One key can be used by any number of validators; it counts as that of the last one. *)
Theorem C121_shared_key_refuted : forall s v w a b key, v <> w -> a <> b -> unused s a v -> unused s b w ->
  exists s', run s [Register v true true (Some a) key; Register w true true (Some b) key] = s' /\
  signs_with s' v key /\ signs_with s' w key /\ belongs_to s' key w /\ ~ belongs_to s' key v.
Proof.
  intros s v w a b key Nv Na U1 U2. destruct (C121_register s v true true (Some a) key) as (R1 & _). destruct (R1 (conj eq_refl (conj eq_refl U1))) as (s1 & E1 & A1 & K1 & B1 & _ & O1).
  destruct (C121_register s1 w true true (Some b) key) as (R2 & _). destruct R2 as (s2 & E2 & A2 & K2 & B2 & _ & O2).
  - destruct O1 as (O1a & O1b & _). split; [reflexivity|]. split; [reflexivity|]. split.
    + intros x Hx. apply O1a in Hx; [|congruence]. destruct U2 as (U2 & _). exact (U2 x Hx).
    + intros x Hx. apply O1b in Hx; [|congruence]. destruct U2 as (_ & U2). exact (U2 x Hx).
  - exists s2. split; [change (process self (process self s (Register v true true (Some a) key)) (Register w true true (Some b) key) = s2); unfold process; unfold step in E1, E2; rewrite E1, E2; reflexivity|].
    split; [apply O2; assumption|]. split; [exact K2|]. split; [exact B2|]. unfold belongs_to in *. congruence.
Qed.

(* Anyone, validator or not, can make the chain forget whose key a key is, though it is still
   used. *)
Theorem C121_forgotten_key_refuted : forall s v key a, signs_with s v key -> a <> v ->
  exists s', step s (Unregister a key) = Ok s' /\ signs_with s' v key /\ forall w, ~ belongs_to s' key w.
Proof.
  intros s v key a K N. eexists. split; [reflexivity|]. unfold signs_with, belongs_to. cbn [s_key s_owner]. rewrite zget_del_other by congruence. split; [exact K|].
  intros w H. rewrite zget_del_same in H. discriminate.
Qed.

(* Ending a registration does not end the right of another account to act for the validator,
   who cannot register with that account again. *)
Theorem C121_still_acts_refuted : forall s o v key, acts_for s o v -> o <> v ->
  exists s', step s (Unregister v key) = Ok s' /\ acts_for s' o v /\ (forall k, ~ signs_with s' v k) /\
  forall va li k, step s' (Register v va li (Some o) k) = Err.
Proof.
  intros s o v key A N. eexists. split; [reflexivity|]. assert (zget (del (s_orch s) v) o = Some v) as A' by (rewrite zget_del_other by congruence; exact A).
  unfold acts_for, signs_with. cbn [s_key s_orch]. split; [exact A'|]. split; [intros k H; rewrite zget_del_same in H; discriminate|].
  intros va li k. apply C121_register. intros (_ & _ & U & _). exact (U v A').
Qed.

(* With another key in the message, the old key still belongs to the validator afterwards. *)
Theorem C121_old_key_stays_refuted : forall s v key other, belongs_to s key v -> other <> key ->
  exists s', step s (Unregister v other) = Ok s' /\ belongs_to s' key v /\ forall k, ~ signs_with s' v k.
Proof.
  intros s v key other B N. eexists. split; [reflexivity|]. unfold belongs_to, signs_with. cbn [s_key s_owner]. rewrite zget_del_other by congruence. split; [exact B|].
  intros k H. rewrite zget_del_same in H. discriminate.
Qed.

(* A validator can name another one as its orchestrator without being asked, which keeps the
   other from registering for itself. *)
Theorem C121_taken_refuted : forall s v w key, unused s w v -> v <> w ->
  exists s', step s (Register v true true (Some w) key) = Ok s' /\ acts_for s' w v /\ forall va li k, step s' (Register w va li None k) = Err.
Proof.
  intros s v w key U N. destruct (C121_register s v true true (Some w) key) as (R & _). destruct (R (conj eq_refl (conj eq_refl U))) as (s' & E & A & _).
  exists s'. split; [exact E|]. split; [exact A|]. intros va li k. apply C121_register. intros (_ & _ & U' & _). exact (U' v A).
Qed.

(* A validator for whom another account acts cannot change its fee. *)
Theorem C121_fee_stuck_refuted : forall v o tx batch, v <> o -> forall s, step start (RegisterFee v true true true (Some o) tx batch) = Ok s ->
  asks s v tx /\ forall coin tx' batch', step s (UpdateFee v coin tx' batch') = Err.
Proof.
  intros v o tx batch N s E. cbn in E. injection E as <-. unfold asks. cbn [s_fee]. split; [unfold zget; cbn; rewrite Z.eqb_refl; reflexivity|].
  intros coin tx' batch'. cbn. destruct (has _ v); [|reflexivity]. cbn [negb]. destruct (negb coin); [reflexivity|].
  replace (has [(o, (tx, batch))] v) with false; [reflexivity|]. symmetry. apply has_false. cbn. destruct (Z.eqb_spec o v); [congruence|]. destruct (Z.eqb_spec v o); congruence.
Qed.
End Claims.
Print Assumptions C121_register.
Print Assumptions C121_register_with_fee.
Print Assumptions C121_unregister.
Print Assumptions C121_fees.
Print Assumptions C121_only_self.
Print Assumptions C121_lasts.
Print Assumptions C121_shared_key_refuted.
Print Assumptions C121_forgotten_key_refuted.
Print Assumptions C121_still_acts_refuted.
Print Assumptions C121_old_key_stays_refuted.
Print Assumptions C121_taken_refuted.
Print Assumptions C121_fee_stuck_refuted.

(* ---- a case: 1 registers itself, 2 through 20 with fees, and others try ---- *)
Definition dg_self (v : Z) : Z := 1000 + v.
Example C121_case :
  let s := run dg_self start [Register 1 true true None 51; RegisterFee 2 true true true (Some 20) 7 8; Register 3 true true (Some 20) 53;
                              Register 4 false true None 54; Register 1 true true (Some 21) 55; UpdateFee 2 true 9 9; Unregister 9 51] in
  s_orch s = [(1, 1); (20, 2)] /\ s_key s = [(1, 51); (2, 1002)] /\ s_owner s = [(1002, 2)] /\ s_fee s = [(2, 7)] /\
  acts_for s 20 2 /\ signs_with s 2 1002 /\ unused s 3 3 /\ s_orch (run dg_self s [Unregister 2 1002]) = [(1, 1); (20, 2)].
Proof. vm_compute. repeat match goal with |- _ /\ _ => split end; try reflexivity; intros; discriminate. Qed.
