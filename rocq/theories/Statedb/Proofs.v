(* Undoing journal entries restores the visible state. *)
From Verif Require Import Lib.Base Lib.Bytes Lib.Amap Statedb.Model Statedb.Spec.
From Coq Require Import Sorted.
Open Scope Z_scope.

Section Keccak.
Variable keccak : bytes -> word.
Notation get_obj := (get_obj keccak).
Notation see := (see keccak).
Notation see_obj := (see_obj keccak).
Notation step := (step keccak).
Notation pop := (pop keccak).
Notation pops := (pops keccak).
Notation revert_entry := (revert_entry keccak).

(* ---------- small facts ---------- *)
Ltac acc6 := split; [|split; [|split; [|split; [|split]]]].
Lemma acc_eq_refl x : acc_eq x x. Proof. acc6; reflexivity. Qed.
Lemma acc_eq_sym x y : acc_eq x y -> acc_eq y x.
Proof. intros (A & B & C & D & E & F). acc6; auto. Qed.
Lemma acc_eq_trans x y z : acc_eq x y -> acc_eq y z -> acc_eq x z.
Proof.
  intros (A & B & C & D & E & F) (A' & B' & C' & D' & E' & F').
  acc6; try congruence.
Qed.
Lemma oacc_refl x : oacc_eq x x. Proof. destruct x; cbn; auto using acc_eq_refl. Qed.
Lemma oacc_sym x y : oacc_eq x y -> oacc_eq y x.
Proof. destruct x, y; cbn; try tauto. apply acc_eq_sym. Qed.
Lemma oacc_trans x y z : oacc_eq x y -> oacc_eq y z -> oacc_eq x z.
Proof. destruct x, y, z; cbn; try tauto. apply acc_eq_trans. Qed.

Lemma rbind_inv {A B} (r : res A) (f : A -> res B) b : rbind r f = Ok b -> exists a, r = Ok a /\ f a = Ok b.
Proof. destruct r; cbn; try discriminate. eauto. Qed.

(* ---------- invariants ---------- *)

(* cached committed slots are the chain's *)
Definition obj_ok (st : store) (a : addr) (o : obj) : Prop :=
  forall k v, aget (o_origin o) k = Some v -> v = k_state st a k.
Definition objs_ok (s : sdb) : Prop := forall a o, aget (d_objs s) a = Some o -> obj_ok (d_ctx s) a o.

Definition entry_ok (st : store) (e : entry) : Prop :=
  match e with
  | EReset a p => obj_ok st a p
  | ECreate a => k_account keccak st a = None
  | _ => True
  end.

Record al_ok (al : alist) : Prop := {
  al_range : forall a i, aget (al_addr al) a = Some (Some i) -> (i < length (al_slots al))%nat;
  al_inj : forall a b i, aget (al_addr al) a = Some (Some i) -> aget (al_addr al) b = Some (Some i) -> a = b;
  al_full : forall m, In m (al_slots al) -> m <> []
}.

Record rest_ok (s : sdb) : Prop := {
  ro_journal : Forall (entry_ok (d_ctx s)) (d_journal s);
  ro_dirties : forall a, aget (d_dirties s) a <> Some 0%N;
  ro_al : al_ok (d_al s)
}.
Definition db_ok (s : sdb) : Prop := objs_ok s /\ rest_ok s.

(* same contents, up to what is cached *)
Record ceq (s t : sdb) : Prop := {
  q_see : forall a, oacc_eq (see s a) (see t a);
  q_ctx : d_ctx s = d_ctx t;
  q_journal : d_journal s = d_journal t;
  q_dirties : d_dirties s = d_dirties t;
  q_refund : d_refund s = d_refund t;
  q_base : d_logbase s = d_logbase t;
  q_logs : d_logs s = d_logs t;
  q_al : d_al s = d_al t;
  q_cache : cache_of s = cache_of t;
  q_commits : d_commits s = d_commits t
}.

Lemma ceq_refl s : ceq s s. Proof. constructor; auto. intro; apply oacc_refl. Qed.
Lemma ceq_sym s t : ceq s t -> ceq t s.
Proof. intros []; constructor; auto. intro; apply oacc_sym; auto. Qed.
Lemma ceq_trans s t u : ceq s t -> ceq t u -> ceq s u.
Proof. intros [] []; constructor; try congruence. intro a. eapply oacc_trans; eauto. Qed.

Lemma rest_ok_ceq s t : ceq s t -> rest_ok t -> rest_ok s.
Proof.
  intros [] []. constructor; [rewrite q_ctx0, q_journal0|rewrite q_dirties0|rewrite q_al0]; assumption.
Qed.

(* ---------- seeing through the map of objects ---------- *)

Lemma slot_of_spec st a o k : obj_ok st a o ->
  slot_of st a o k = match aget (o_dirty o) k with Some v => v | None => k_state st a k end.
Proof.
  intro H. unfold slot_of, obj_state, obj_committed.
  destruct (aget (o_dirty o) k); [reflexivity|].
  destruct (aget (o_origin o) k) eqn:E; [cbn; apply (H k); exact E|reflexivity].
Qed.

Lemma slot_of_ext st a o1 o2 k : o_origin o1 = o_origin o2 -> o_dirty o1 = o_dirty o2 -> slot_of st a o1 k = slot_of st a o2 k.
Proof.
  intros A B. unfold slot_of, obj_state, obj_committed. rewrite A, B. destruct (aget (o_dirty o2) k); [reflexivity|].
  destruct (aget (o_origin o2) k); reflexivity.
Qed.

Lemma see_live s a o : aget (d_objs s) a = Some o -> see s a = Some (see_obj (d_ctx s) a o).
Proof. intro H. unfold Spec.see, Model.get_obj. rewrite H. reflexivity. Qed.

Lemma see_absent s a : aget (d_objs s) a = None ->
  see s a = match k_account keccak (d_ctx s) a with Some x => Some (see_obj (d_ctx s) a (new_object x)) | None => None end.
Proof. intro H. unfold Spec.see, Model.get_obj. rewrite H. destruct (k_account _ _ _); reflexivity. Qed.

(* see depends on the objects and the context only *)
Lemma see_ext s t a : d_objs s = d_objs t -> d_ctx s = d_ctx t -> see s a = see t a.
Proof.
  intros H1 H2. unfold Spec.see, Model.get_obj. rewrite H1, H2.
  destruct (aget (d_objs t) a); [reflexivity|]. destruct (k_account _ _ _); reflexivity.
Qed.

Lemma see_set s a o b :
  see (set_obj s a o) b = if N.eqb a b then Some (see_obj (d_ctx s) a o) else see s b.
Proof.
  destruct (N.eqb_spec a b) as [<-|H].
  - apply (see_live (set_obj s a o) a o). cbn. apply aget_aset_same.
  - unfold Spec.see, Model.get_obj. cbn. rewrite aget_aset_other by exact H.
    destruct (aget (d_objs s) b); [reflexivity|]. destruct (k_account _ _ _); reflexivity.
Qed.

Lemma see_del s a b :
  see (with_objs s (adel (d_objs s) a)) b =
  if N.eqb a b then match k_account keccak (d_ctx s) a with Some x => Some (see_obj (d_ctx s) a (new_object x)) | None => None end else see s b.
Proof.
  unfold Spec.see, Model.get_obj. cbn. rewrite aget_adel. destruct (N.eqb_spec a b) as [<-|].
  - destruct (k_account _ _ _); reflexivity.
  - destruct (aget (d_objs s) b); [reflexivity|]. destruct (k_account _ _ _); reflexivity.
Qed.

Lemma new_ok st a x : obj_ok st a (new_object x).
Proof. intros k v H. discriminate. Qed.

Lemma objs_ok_set s a o : objs_ok s -> obj_ok (d_ctx s) a o -> objs_ok (set_obj s a o).
Proof.
  intros H Ho b ob. cbn. rewrite aget_aset. destruct (N.eqb_spec a b) as [<-|E].
  - intro X; injection X as <-. exact Ho.
  - apply H.
Qed.

(* getStateObject *)
Lemma get_obj_spec s a o s1 : get_obj s a = (o, s1) -> objs_ok s ->
  ceq s1 s /\ objs_ok s1 /\ (exists m, s1 = with_objs s m) /\
  match o with
  | Some ob => aget (d_objs s1) a = Some ob /\ see s a = Some (see_obj (d_ctx s) a ob) /\ obj_ok (d_ctx s) a ob
  | None => see s a = None /\ s1 = s /\ aget (d_objs s) a = None /\ k_account keccak (d_ctx s) a = None
  end.
Proof.
  intros H Hok. assert (S : see s a = match o with Some ob => Some (see_obj (d_ctx s) a ob) | None => None end)
    by (unfold Spec.see; rewrite H; reflexivity).
  unfold Model.get_obj in H. destruct (aget (d_objs s) a) as [ob|] eqn:E.
  - injection H as <- <-. split; [apply ceq_refl|]. split; [exact Hok|]. split; [exists (d_objs s); destruct s; reflexivity|].
    split; [exact E|]. split; [exact S|]. apply Hok. exact E.
  - destruct (k_account keccak (d_ctx s) a) as [x|] eqn:K.
    + injection H as <- <-. split.
      { constructor; auto. intro b. rewrite see_set. destruct (N.eqb_spec a b) as [<-|]; [|apply oacc_refl].
        rewrite S. apply oacc_refl. }
      split; [apply objs_ok_set; [exact Hok|apply new_ok]|]. split; [eexists; reflexivity|].
      split; [cbn; apply aget_aset_same|]. split; [exact S|apply new_ok].
    + injection H as <- <-. split; [apply ceq_refl|]. split; [exact Hok|]. split; [exists (d_objs s); destruct s; reflexivity|]. auto.
Qed.

(* ---------- changes to an object seen from outside ---------- *)

Lemma see_set_balance_eq st a o b : acc_eq (see_obj st a (obj_set_balance o b))
  (Sacc (a_nonce (o_acct o)) b (a_hash (o_acct o)) (code_of keccak st o) (slot_of st a o) (o_suicided o)).
Proof.
  repeat split.
  - cbn. unfold code_of, obj_code. cbn. destruct (o_code o); [reflexivity|]. destruct (N.eqb _ _); reflexivity.
  - intro k. cbn. unfold slot_of, obj_state, obj_committed. cbn. destruct (aget (o_dirty o) k); [reflexivity|].
    destruct (aget (o_origin o) k); reflexivity.
Qed.

Lemma see_set_nonce_eq st a o n : acc_eq (see_obj st a (obj_set_nonce o n))
  (Sacc n (a_bal (o_acct o)) (a_hash (o_acct o)) (code_of keccak st o) (slot_of st a o) (o_suicided o)).
Proof.
  repeat split.
  - cbn. unfold code_of, obj_code. cbn. destruct (o_code o); [reflexivity|]. destruct (N.eqb _ _); reflexivity.
  - intro k. cbn. unfold slot_of, obj_state, obj_committed. cbn. destruct (aget (o_dirty o) k); [reflexivity|].
    destruct (aget (o_origin o) k); reflexivity.
Qed.

Lemma see_set_suicided_eq st a o b x : acc_eq (see_obj st a (obj_set_balance (obj_set_suicided o x) b))
  (Sacc (a_nonce (o_acct o)) b (a_hash (o_acct o)) (code_of keccak st o) (slot_of st a o) x).
Proof.
  repeat split.
  - cbn. unfold code_of, obj_code. cbn. destruct (o_code o); [reflexivity|]. destruct (N.eqb _ _); reflexivity.
  - intro k. cbn. unfold slot_of, obj_state, obj_committed. cbn. destruct (aget (o_dirty o) k); [reflexivity|].
    destruct (aget (o_origin o) k); reflexivity.
Qed.

(* the code seen with hash h when the cached slice is c *)
Definition code_at (st : store) (h : word) (c : option bytes) : bytes :=
  match c with Some b => b | None => if N.eqb h (empty_hash keccak) then [] else bytes_of (k_code st h) end.
Lemma code_of_at st o : code_of keccak st o = code_at st (a_hash (o_acct o)) (o_code o).
Proof. unfold code_of, obj_code, code_at. destruct (o_code o); [reflexivity|]. destruct (N.eqb _ _); reflexivity. Qed.

Lemma see_set_code_eq st a o h c : acc_eq (see_obj st a (obj_set_code o h c))
  (Sacc (a_nonce (o_acct o)) (a_bal (o_acct o)) h (code_at st h c) (slot_of st a o) (o_suicided o)).
Proof.
  repeat split.
  - cbn. rewrite code_of_at. reflexivity.
  - intro k. cbn. unfold slot_of, obj_state, obj_committed. cbn. destruct (aget (o_dirty o) k); [reflexivity|].
    destruct (aget (o_origin o) k); reflexivity.
Qed.

Lemma see_set_state_eq st a o k v : obj_ok st a o -> acc_eq (see_obj st a (obj_set_state o k v))
  (Sacc (a_nonce (o_acct o)) (a_bal (o_acct o)) (a_hash (o_acct o)) (code_of keccak st o) (upd (slot_of st a o) k v) (o_suicided o)).
Proof.
  intro H. repeat split.
  - cbn. rewrite !code_of_at. reflexivity.
  - intro k2. cbn [x_stor Spec.see_obj]. rewrite slot_of_spec by exact H. cbn. rewrite aget_aset. unfold upd.
    rewrite slot_of_spec by exact H. rewrite (N.eqb_sym k2 k). destruct (N.eqb_spec k k2) as [<-|]; reflexivity.
Qed.

Lemma obj_code_spec st o c o1 : obj_code keccak st o = (c, o1) ->
  o_acct o1 = o_acct o /\ o_origin o1 = o_origin o /\ o_dirty o1 = o_dirty o /\ o_suicided o1 = o_suicided o /\
  o_dirty_code o1 = o_dirty_code o /\
  code_at st (a_hash (o_acct o)) c = code_of keccak st o /\ code_of keccak st o1 = code_of keccak st o /\ bytes_of c = code_of keccak st o.
Proof.
  intro H. assert (B : bytes_of c = code_of keccak st o) by (unfold code_of; rewrite H; reflexivity).
  unfold obj_code in H. rewrite !code_of_at in *. destruct (o_code o) as [b|] eqn:E.
  - injection H as <- <-. rewrite E in *. repeat split; auto.
  - destruct (N.eqb (a_hash (o_acct o)) (empty_hash keccak)) eqn:N0.
    + injection H as <- <-. rewrite E in *. repeat split; auto.
    + injection H as <- <-. cbn [o_acct o_origin o_dirty o_suicided o_dirty_code o_code].
      repeat split; auto; unfold code_at; rewrite N0; destruct (k_code st _); reflexivity.
Qed.

Lemma obj_committed_spec st a o k v o1 : obj_committed st a o k = (v, o1) -> obj_ok st a o ->
  v = k_state st a k /\ o_acct o1 = o_acct o /\ o_code o1 = o_code o /\ o_dirty o1 = o_dirty o /\ o_suicided o1 = o_suicided o /\
  o_dirty_code o1 = o_dirty_code o /\ obj_ok st a o1 /\ acc_eq (see_obj st a o1) (see_obj st a o).
Proof.
  intros H Hok. unfold obj_committed in H. destruct (aget (o_origin o) k) as [x|] eqn:E.
  - injection H as <- <-. split; [apply (Hok k); exact E|]. repeat split; auto.
  - injection H as <- <-. split; [reflexivity|].
    assert (O1 : obj_ok st a (Obj (o_acct o) (o_code o) (aset (o_origin o) k (k_state st a k)) (o_dirty o) (o_dirty_code o) (o_suicided o))).
    { intros k2 v2. cbn. rewrite aget_aset. destruct (N.eqb_spec k k2) as [<-|]; [intro X; injection X as <-; reflexivity|apply Hok]. }
    split; [reflexivity|]. split; [reflexivity|]. split; [reflexivity|]. split; [reflexivity|]. split; [reflexivity|].
    split; [exact O1|]. repeat split.
    + cbn. rewrite !code_of_at. reflexivity.
    + intro k2. cbn [x_stor Spec.see_obj]. rewrite !slot_of_spec by assumption. reflexivity.
Qed.

Lemma obj_state_spec st a o k v o1 : obj_state st a o k = (v, o1) -> obj_ok st a o ->
  v = slot_of st a o k /\ o_acct o1 = o_acct o /\ o_code o1 = o_code o /\ o_dirty o1 = o_dirty o /\ o_suicided o1 = o_suicided o /\
  o_dirty_code o1 = o_dirty_code o /\ obj_ok st a o1 /\ acc_eq (see_obj st a o1) (see_obj st a o).
Proof.
  intros H Hok. assert (V : v = slot_of st a o k) by (unfold slot_of; rewrite H; reflexivity).
  split; [exact V|]. unfold obj_state in H. destruct (aget (o_dirty o) k).
  - injection H as <- <-. repeat split; auto.
  - apply obj_committed_spec in H; [|exact Hok]. tauto.
Qed.

(* ---------- undoing one entry respects ceq ---------- *)

Lemma acc_eq_of_see st a o x : acc_eq (see_obj st a o) x <->
  (a_nonce (o_acct o) = x_nonce x /\ a_bal (o_acct o) = x_bal x /\ a_hash (o_acct o) = x_hash x /\ code_of keccak st o = x_code x /\
   (forall k, slot_of st a o k = x_stor x k) /\ o_suicided o = x_suicided x).
Proof. unfold acc_eq. cbn. tauto. Qed.

(* objects seen alike stay alike after the same setter *)
Definition same_obj st a (o1 o2 : obj) : Prop := acc_eq (see_obj st a o1) (see_obj st a o2).

Lemma live_pair s t a : ceq s t -> objs_ok s -> objs_ok t ->
  match get_obj s a, get_obj t a with
  | (Some o1, s1), (Some o2, t1) => same_obj (d_ctx t) a o1 o2 /\ ceq s1 s /\ ceq t1 t /\ objs_ok s1 /\ objs_ok t1 /\
                                     obj_ok (d_ctx t) a o1 /\ obj_ok (d_ctx t) a o2
  | (None, s1), (None, t1) => s1 = s /\ t1 = t
  | _, _ => False
  end.
Proof.
  intros Q Hs Ht. destruct (get_obj s a) as [o1 s1] eqn:G1, (get_obj t a) as [o2 t1] eqn:G2.
  apply get_obj_spec in G1; [|exact Hs]. apply get_obj_spec in G2; [|exact Ht].
  destruct G1 as (C1 & O1 & _ & M1), G2 as (C2 & O2 & _ & M2). pose proof (q_see _ _ Q a) as S. pose proof (q_ctx _ _ Q) as X.
  destruct o1 as [o1|], o2 as [o2|].
  - destruct M1 as (_ & S1 & K1), M2 as (_ & S2 & K2). rewrite S1, S2 in S. cbn in S. rewrite X in *.
    split; [exact S|]. tauto.
  - destruct M1 as (_ & S1 & _), M2 as (S2 & _). rewrite S1, S2 in S. exact S.
  - destruct M1 as (S1 & _), M2 as (_ & S2 & _). rewrite S1, S2 in S. exact S.
  - tauto.
Qed.

Lemma ceq_set s t a o1 o2 : ceq s t -> same_obj (d_ctx t) a o1 o2 -> ceq (set_obj s a o1) (set_obj t a o2).
Proof.
  intros Q S. destruct Q. constructor; auto. intro b. rewrite !see_set. destruct (N.eqb a b); [|apply q_see0].
  cbn. rewrite q_ctx0. exact S.
Qed.

Lemma same_set_balance st a o1 o2 b : same_obj st a o1 o2 -> same_obj st a (obj_set_balance o1 b) (obj_set_balance o2 b).
Proof.
  intro H. unfold same_obj in *. eapply acc_eq_trans; [apply see_set_balance_eq|]. apply acc_eq_sym. eapply acc_eq_trans; [apply see_set_balance_eq|].
  destruct H as (A & B & C & D & E & F). cbn in *. repeat split; cbn; auto.
Qed.
Lemma same_set_nonce st a o1 o2 b : same_obj st a o1 o2 -> same_obj st a (obj_set_nonce o1 b) (obj_set_nonce o2 b).
Proof.
  intro H. unfold same_obj in *. eapply acc_eq_trans; [apply see_set_nonce_eq|]. apply acc_eq_sym. eapply acc_eq_trans; [apply see_set_nonce_eq|].
  destruct H as (A & B & C & D & E & F). cbn in *. repeat split; cbn; auto.
Qed.
Lemma same_set_suicided st a o1 o2 x b : same_obj st a o1 o2 ->
  same_obj st a (obj_set_balance (obj_set_suicided o1 x) b) (obj_set_balance (obj_set_suicided o2 x) b).
Proof.
  intro H. unfold same_obj in *. eapply acc_eq_trans; [apply see_set_suicided_eq|]. apply acc_eq_sym. eapply acc_eq_trans; [apply see_set_suicided_eq|].
  destruct H as (A & B & C & D & E & F). cbn in *. repeat split; cbn; auto.
Qed.
Lemma same_set_code st a o1 o2 h c : same_obj st a o1 o2 -> same_obj st a (obj_set_code o1 h c) (obj_set_code o2 h c).
Proof.
  intro H. unfold same_obj in *. eapply acc_eq_trans; [apply see_set_code_eq|]. apply acc_eq_sym. eapply acc_eq_trans; [apply see_set_code_eq|].
  destruct H as (A & B & C & D & E & F). cbn in *. repeat split; cbn; auto.
Qed.
Lemma same_set_state st a o1 o2 k v : obj_ok st a o1 -> obj_ok st a o2 -> same_obj st a o1 o2 ->
  same_obj st a (obj_set_state o1 k v) (obj_set_state o2 k v).
Proof.
  intros K1 K2 H. unfold same_obj in *. eapply acc_eq_trans; [apply see_set_state_eq; exact K1|]. apply acc_eq_sym. eapply acc_eq_trans; [apply see_set_state_eq; exact K2|].
  destruct H as (A & B & C & D & E & F). cbn in *. repeat split; cbn; auto. intro k2. unfold upd. destruct (N.eqb k2 k); [reflexivity|auto].
Qed.

Lemma with_live_pair s t a f t' : ceq s t -> objs_ok s -> objs_ok t ->
  (forall o1 o2, obj_ok (d_ctx t) a o1 -> obj_ok (d_ctx t) a o2 -> same_obj (d_ctx t) a o1 o2 -> same_obj (d_ctx t) a (f o1) (f o2)) ->
  (forall o, obj_ok (d_ctx t) a o -> obj_ok (d_ctx t) a (f o)) ->
  with_live keccak t a f = Ok t' ->
  exists s', with_live keccak s a f = Ok s' /\ ceq s' t' /\ objs_ok s' /\ objs_ok t'.
Proof.
  intros Q Hs Ht Hf Hk. pose proof (live_pair s t a Q Hs Ht) as P. unfold with_live.
  destruct (get_obj s a) as [[o1|] s1], (get_obj t a) as [[o2|] t1]; try contradiction; [|discriminate].
  destruct P as (S & C1 & C2 & O1 & O2 & K1 & K2). intro H; injection H as <-. eexists; split; [reflexivity|].
  pose proof (q_ctx _ _ C1). pose proof (q_ctx _ _ C2). pose proof (q_ctx _ _ Q).
  split; [|split].
  - apply ceq_set; [eapply ceq_trans; [exact C1|eapply ceq_trans; [exact Q|apply ceq_sym; exact C2]]|].
    rewrite H0. apply Hf; assumption.
  - apply objs_ok_set; [exact O1|]. rewrite H, H1. apply Hk. exact K1.
  - apply objs_ok_set; [exact O2|]. rewrite H0. apply Hk. exact K2.
Qed.

Lemma see_rest s s' t t' a : d_objs s' = d_objs s -> d_ctx s' = d_ctx s -> d_objs t' = d_objs t -> d_ctx t' = d_ctx t ->
  oacc_eq (see s a) (see t a) -> oacc_eq (see s' a) (see t' a).
Proof. intros A B C D H. rewrite (see_ext s' s a A B), (see_ext t' t a C D). exact H. Qed.
Ltac ceq_rest Q s t := destruct Q; constructor; auto; try (let b := fresh in intro b; apply (see_rest s _ t _); solve [auto]).

Lemma revert_entry_pair s t e t' : ceq s t -> objs_ok s -> objs_ok t -> entry_ok (d_ctx t) e ->
  revert_entry t e = Ok t' -> exists s', revert_entry s e = Ok s' /\ ceq s' t' /\ objs_ok s' /\ objs_ok t'.
Proof.
  intros Q Hs Ht He H. pose proof (q_ctx _ _ Q) as X. destruct e; cbn [Model.revert_entry] in *.
  - injection H as <-. eexists; split; [reflexivity|]. split; [|split].
    + destruct Q; constructor; auto. intro b. rewrite !see_del. destruct (N.eqb a b); [|apply q_see0]. rewrite X. apply oacc_refl.
    + intros b o. cbn. rewrite aget_adel. destruct (N.eqb a b); [discriminate|]. apply Hs.
    + intros b o. cbn. rewrite aget_adel. destruct (N.eqb a b); [discriminate|]. apply Ht.
  - injection H as <-. eexists; split; [reflexivity|]. cbn in He. split; [|split].
    + apply ceq_set; [exact Q|apply acc_eq_refl].
    + apply objs_ok_set; [exact Hs|]. rewrite X. exact He.
    + apply objs_ok_set; [exact Ht|exact He].
  - pose proof (live_pair s t a Q Hs Ht) as P.
    destruct (get_obj s a) as [[o1|] s1], (get_obj t a) as [[o2|] t1]; try contradiction.
    + destruct P as (S & C1 & C2 & O1 & O2 & K1 & K2). injection H as <-. eexists; split; [reflexivity|].
      pose proof (q_ctx _ _ C1). pose proof (q_ctx _ _ C2). split; [|split].
      * apply ceq_set; [eapply ceq_trans; [exact C1|eapply ceq_trans; [exact Q|apply ceq_sym; exact C2]]|].
        rewrite H0. apply same_set_suicided. exact S.
      * apply objs_ok_set; [exact O1|]. rewrite H, X. exact K1.
      * apply objs_ok_set; [exact O2|]. rewrite H0. exact K2.
    + destruct P as [-> ->]. injection H as <-. eauto.
  - eapply with_live_pair; [exact Q|exact Hs|exact Ht|intros; apply same_set_balance; assumption|intros ? W; exact W|exact H].
  - eapply with_live_pair; [exact Q|exact Hs|exact Ht|intros; apply same_set_nonce; assumption|intros ? W; exact W|exact H].
  - eapply with_live_pair; [exact Q|exact Hs|exact Ht|intros; apply same_set_state; assumption|intros ? W; exact W|exact H].
  - eapply with_live_pair; [exact Q|exact Hs|exact Ht|intros; apply same_set_code; assumption|intros ? W; exact W|exact H].
  - injection H as <-. eexists; split; [reflexivity|]. split; [|split; assumption]. ceq_rest Q s t.
  - rewrite (q_logs _ _ Q). revert H. destruct (d_logs t) eqn:L; [discriminate|]. intro H. injection H as <-. eexists; split; [reflexivity|].
    split; [|split; assumption]. ceq_rest Q s t.
  - injection H as <-. eexists; split; [reflexivity|]. split; [|split; assumption]. ceq_rest Q s t. cbn. rewrite q_al0. reflexivity.
  - rewrite (q_al _ _ Q). revert H. destruct (al_delete_slot (d_al t) a k) as [al| |]; try discriminate. cbn [rbind]. intro H. injection H as <-.
    eexists; split; [reflexivity|]. split; [|split; assumption]. ceq_rest Q s t.
  - injection H as <-. eexists; split; [reflexivity|]. split; [|split; assumption]. ceq_rest Q s t. cbn. rewrite q_commits0, q_ctx0. reflexivity.
Qed.

(* undoing an entry leaves the journal and the counters alone *)
Lemma with_live_same s a f s' : with_live keccak s a f = Ok s' ->
  d_ctx s' = d_ctx s /\ d_journal s' = d_journal s /\ d_dirties s' = d_dirties s /\ d_al s' = d_al s /\
  d_revs s' = d_revs s /\ d_next s' = d_next s /\ d_pre s' = d_pre s.
Proof.
  unfold with_live, Model.get_obj. destruct (aget (d_objs s) a); [|destruct (k_account _ _ _)]; try discriminate; intro H; injection H as <-; repeat split.
Qed.

Lemma revert_entry_same s e s' : revert_entry s e = Ok s' ->
  d_ctx s' = d_ctx s /\ d_journal s' = d_journal s /\ d_dirties s' = d_dirties s /\
  d_revs s' = d_revs s /\ d_next s' = d_next s /\ d_pre s' = d_pre s.
Proof.
  destruct e; cbn [Model.revert_entry]; intro H;
    try (injection H as <-; repeat split; fail);
    try (apply with_live_same in H; tauto).
  - revert H. unfold Model.get_obj. destruct (aget (d_objs s) a); [|destruct (k_account _ _ _)]; intro H; injection H as <-; repeat split.
  - revert H. destruct (d_logs s); [discriminate|]. intro H; injection H as <-; repeat split.
  - revert H. destruct (al_delete_slot _ _ _); try discriminate. intro H; injection H as <-; repeat split.
Qed.

Lemma pop_pair s t t' : ceq s t -> objs_ok s -> objs_ok t -> Forall (entry_ok (d_ctx t)) (d_journal t) ->
  pop t = Ok t' -> exists s', pop s = Ok s' /\ ceq s' t' /\ objs_ok s' /\ objs_ok t'.
Proof.
  intros Q Hs Ht Hj H. unfold Model.pop in *. rewrite (q_journal _ _ Q). destruct (d_journal t) as [|e j] eqn:J.
  - injection H as <-. eauto.
  - apply rbind_inv in H as (t1 & H1 & H2). injection H2 as <-.
    destruct (revert_entry_pair s t e t1 Q Hs Ht (Forall_inv Hj) H1) as (s1 & E1 & Q1 & O1 & O2).
    rewrite E1. cbn [rbind]. eexists; split; [reflexivity|].
    split; [|split; assumption].
    ceq_rest Q1 s1 t1. cbn. rewrite q_dirties0. reflexivity.
Qed.

Lemma pop_ctx s s' : pop s = Ok s' -> d_ctx s' = d_ctx s /\ d_revs s' = d_revs s /\ d_next s' = d_next s /\
  d_pre s' = d_pre s /\ d_journal s' = tl (d_journal s).
Proof.
  unfold Model.pop. destruct (d_journal s) as [|e j] eqn:J; [intro H; injection H as <-; rewrite J; repeat split|].
  intro H. apply rbind_inv in H as (s1 & H1 & H2). injection H2 as <-. apply revert_entry_same in H1.
  cbn. tauto.
Qed.

Lemma pops_ctx n : forall s s', pops n s = Ok s' -> d_ctx s' = d_ctx s /\ d_revs s' = d_revs s /\ d_next s' = d_next s /\
  d_pre s' = d_pre s /\ d_journal s' = skipn n (d_journal s).
Proof.
  induction n; intros s s' H.
  - injection H as <-. repeat split.
  - cbn [Model.pops] in H. apply rbind_inv in H as (s1 & H1 & H2). apply pop_ctx in H1. apply IHn in H2.
    destruct H1 as (A & B & C & D & E), H2 as (A' & B' & C' & D' & E').
    repeat split; try congruence. rewrite E', E. destruct (d_journal s); [destruct n; reflexivity|reflexivity].
Qed.

Lemma pops_pair n : forall s t t', ceq s t -> objs_ok s -> objs_ok t -> Forall (entry_ok (d_ctx t)) (d_journal t) ->
  pops n t = Ok t' -> exists s', pops n s = Ok s' /\ ceq s' t' /\ objs_ok s' /\ objs_ok t'.
Proof.
  induction n; intros s t t' Q Hs Ht Hj H.
  - injection H as <-. exists s. cbn. auto.
  - cbn [Model.pops] in *. apply rbind_inv in H as (t1 & H1 & H2).
    destruct (pop_pair s t t1 Q Hs Ht Hj H1) as (s1 & E1 & Q1 & O1 & O2). rewrite E1. cbn [rbind].
    apply (IHn s1 t1 t' Q1 O1 O2); [|exact H2].
    destruct (pop_ctx _ _ H1) as (X & _ & _ & _ & Y). rewrite X, Y.
    destruct (d_journal t); [constructor|]. eapply Forall_inv_tail. exact Hj.
Qed.

Lemma pops_plus n m s : pops (n + m) s = rbind (pops n s) (pops m).
Proof.
  revert s. induction n; intro s; [reflexivity|]. cbn [Nat.add Model.pops]. destruct (pop s); cbn; auto.
Qed.

(* ---------- undoable ---------- *)

Definition undoable (s s' : sdb) : Prop :=
  exists n s0, pops n s' = Ok s0 /\ ceq s0 s /\ objs_ok s0 /\ length (d_journal s') = (n + length (d_journal s))%nat.

Lemma undo_refl s s' : ceq s' s -> objs_ok s' -> undoable s s'.
Proof. intros Q K. exists 0%nat, s'. cbn. repeat (split; [auto; fail|]). rewrite (q_journal _ _ Q). reflexivity. Qed.

Lemma undo_trans s s1 s2 : objs_ok s1 -> rest_ok s1 -> undoable s s1 -> undoable s1 s2 -> undoable s s2.
Proof.
  intros O1 R1 (n & s0 & P & Q & O & L) (m & t & P' & Q' & O' & L').
  destruct (pops_pair n t s1 s0 Q' O' O1 (ro_journal _ R1) P) as (t0 & P0 & Q0 & O0 & _).
  exists (m + n)%nat, t0. rewrite pops_plus, P'. cbn. split; [exact P0|].
  split; [eapply ceq_trans; eassumption|]. split; [exact O0|]. lia.
Qed.

(* one appended entry *)
Lemma undo_one s s' e s0 : d_journal s' = e :: d_journal s -> pop s' = Ok s0 -> ceq s0 s -> objs_ok s0 -> undoable s s'.
Proof.
  intros J P Q O. exists 1%nat, s0. cbn [Model.pops]. rewrite P. cbn. repeat (split; [auto; fail|]). rewrite J. reflexivity.
Qed.

Lemma drop_add d a : (forall b, aget d b <> Some 0%N) -> drop_dirty (aset d a (count d a + 1)%N) a = d.
Proof.
  intro H. unfold drop_dirty. assert (C : count (aset d a (count d a + 1)%N) a = (count d a + 1)%N) by (unfold count at 1; rewrite aget_aset_same; reflexivity).
  rewrite C. replace (count d a + 1 - 1)%N with (count d a) by lia. unfold count.
  destruct (aget d a) as [n|] eqn:E.
  - destruct (N.eqb_spec n 0) as [->|]; [exfalso; apply (H a); exact E|].
    rewrite aset_aset. apply aset_present. exact E.
  - cbn. apply adel_aset_absent. exact E.
Qed.

Lemma dirties_add d a : (forall b, aget d b <> Some 0%N) -> forall b, aget (aset d a (count d a + 1)%N) b <> Some 0%N.
Proof.
  intros H b. rewrite aget_aset. destruct (N.eqb a b); [|apply H]. intro X; injection X. lia.
Qed.

Lemma jappend_dirties_ok s e : (forall b, aget (d_dirties s) b <> Some 0%N) -> forall b, aget (d_dirties (jappend s e)) b <> Some 0%N.
Proof. intro H. cbn. destruct (dirtied e); [apply dirties_add; exact H|exact H]. Qed.

Lemma rest_ok_append s e : rest_ok s -> entry_ok (d_ctx s) e -> rest_ok (jappend s e).
Proof.
  intros [] He. constructor; cbn; [constructor; assumption|apply jappend_dirties_ok; exact ro_dirties0|exact ro_al0].
Qed.

(* the state after appending e and setting object a, when undoing e puts back
   an object seen like the old one *)
Lemma undo_set s a o o' e : objs_ok s -> rest_ok s -> aget (d_objs s) a = Some o -> obj_ok (d_ctx s) a o' ->
  dirtied e = Some a ->
  (exists f, (forall t, revert_entry t e = with_live keccak t a f) /\ same_obj (d_ctx s) a (f o') o /\ obj_ok (d_ctx s) a (f o')) ->
  undoable s (set_obj (jappend s e) a o').
Proof.
  intros O R G K D (f & Hf & Sf & Kf).
  eapply undo_one with (e := e); [reflexivity| | |].
  - unfold Model.pop. cbn [d_journal set_obj with_objs jappend with_journal]. rewrite Hf. unfold with_live, Model.get_obj.
    cbn [d_objs set_obj with_objs]. rewrite aget_aset_same. cbn [rbind]. reflexivity.
  - constructor; auto; cbn.
    + intro b. rewrite (see_ext _ (set_obj s a (f o')) b); [|cbn; rewrite aset_aset; reflexivity|reflexivity].
      rewrite see_set. destruct (N.eqb_spec a b) as [<-|]; [|apply oacc_refl]. rewrite (see_live s a o G). exact Sf.
    + rewrite D. apply drop_add. apply R.
  - intros b ob. cbn. rewrite aset_aset, aget_aset. destruct (N.eqb_spec a b) as [<-|]; [|apply O].
    intro X; injection X as <-. exact Kf.
Qed.

Lemma db_ok_set_append s a o e : db_ok s -> obj_ok (d_ctx s) a o -> entry_ok (d_ctx s) e -> db_ok (set_obj (jappend s e) a o).
Proof.
  intros [O R] K E. split; [apply objs_ok_set; [exact O|exact K]|].
  pose proof (rest_ok_append s e R E) as []. constructor; assumption.
Qed.

Lemma db_ok_ceq s t : ceq s t -> objs_ok s -> db_ok t -> db_ok s.
Proof. intros Q O [_ R]. split; [exact O|eapply rest_ok_ceq; eassumption]. Qed.

(* ---------- steps: good means ok, undoable, revisions kept ---------- *)

Record good (s s' : sdb) : Prop := {
  g_ok : db_ok s';
  g_undo : undoable s s';
  g_ctx : d_ctx s' = d_ctx s;
  g_revs : d_revs s' = d_revs s;
  g_next : d_next s' = d_next s;
  g_base : d_logbase s' = d_logbase s
}.

Lemma good_trans s s1 s2 : good s s1 -> good s1 s2 -> good s s2.
Proof.
  intros [[K1 K2] U1 C1 R1 N1 B1] [D U2 C2 R2 N2 B2]. constructor; try congruence.
  exact (undo_trans s s1 s2 K1 K2 U1 U2).
Qed.

Lemma good_ceq s m : db_ok s -> ceq (with_objs s m) s -> objs_ok (with_objs s m) -> good s (with_objs s m).
Proof.
  intros D Q O. constructor; auto; [eapply db_ok_ceq; eassumption|apply undo_refl; assumption].
Qed.

Lemma good_refl s : db_ok s -> good s s.
Proof. intro D. constructor; auto. apply undo_refl; [apply ceq_refl|apply D]. Qed.

Lemma get_obj_good s a o s1 : get_obj s a = (o, s1) -> db_ok s -> good s s1 /\ ceq s1 s.
Proof.
  intros G D. apply get_obj_spec in G; [|apply D]. destruct G as (Q & O & (m & ->) & _).
  split; [apply good_ceq; assumption|exact Q].
Qed.

(* writing back an object that reads the same *)
Lemma good_cache s a o o1 : db_ok s -> aget (d_objs s) a = Some o -> obj_ok (d_ctx s) a o1 -> same_obj (d_ctx s) a o1 o ->
  good s (set_obj s a o1) /\ ceq (set_obj s a o1) s.
Proof.
  intros D G K S.
  assert (Q : ceq (set_obj s a o1) s).
  { constructor; auto. intro b. rewrite see_set. destruct (N.eqb_spec a b) as [<-|]; [|apply oacc_refl].
    rewrite (see_live s a o G). exact S. }
  split; [|exact Q]. apply good_ceq; [exact D|exact Q|]. apply objs_ok_set; [apply D|exact K].
Qed.

Lemma get_or_new_good s a o s1 : get_or_new keccak s a = (o, s1) -> db_ok s ->
  good s s1 /\ aget (d_objs s1) a = Some o /\ obj_ok (d_ctx s1) a o /\
  (forall b, oacc_eq (see s1 b) (if N.eqb a b then Some (match see s a with Some x => x | None => see_obj (d_ctx s) a (blank_object keccak) end) else see s b)).
Proof.
  intros H D. unfold get_or_new in H. destruct (get_obj s a) as [[ob|] s0] eqn:G.
  - injection H as <- <-. pose proof (get_obj_good _ _ _ _ G D) as [Gd Q].
    apply get_obj_spec in G; [|apply D]. destruct G as (_ & _ & (m & E) & A & S & K).
    split; [exact Gd|]. split; [exact A|]. split; [rewrite (g_ctx _ _ Gd); exact K|].
    intro b. rewrite S. destruct (N.eqb_spec a b) as [<-|]; [rewrite <- S; apply Q|apply Q].
  - apply get_obj_spec in G; [|apply D]. destruct G as (_ & _ & _ & S & -> & A & K).
    unfold create_object, Model.get_obj in H. rewrite A, K in H. injection H as <- <-.
    assert (Kb : obj_ok (d_ctx s) a (blank_object keccak)) by apply new_ok.
    split; [|split; [cbn; apply aget_aset_same|split; [exact Kb|]]].
    + constructor; auto.
      * apply db_ok_set_append; [exact D|exact Kb|exact K].
      * eapply undo_one with (e := ECreate a); [reflexivity|reflexivity| |].
        -- constructor; auto; cbn.
           ++ intro b. rewrite (see_ext _ s b); [apply oacc_refl| |reflexivity]. cbn. apply adel_aset_absent. exact A.
           ++ apply drop_add. apply D.
        -- intros b ob. cbn. rewrite adel_aset_absent by exact A. apply D.
    + intro b. rewrite see_set, S. destruct (N.eqb a b); [apply acc_eq_refl|].
      rewrite (see_ext _ s b) by reflexivity. apply oacc_refl.
Qed.

(* ---------- the account operations ---------- *)

Ltac acc_done := acc6; cbn; rewrite ?code_of_at; try reflexivity; intro; apply slot_of_ext; reflexivity.
Ltac use_new s a := let o := fresh "o" in let s1 := fresh "s1" in let G := fresh "G" in
  destruct (get_or_new keccak s a) as [o s1] eqn:G.

Lemma set_balance_good s a o v : db_ok s -> aget (d_objs s) a = Some o ->
  good s (set_balance s a o v).
Proof.
  intros D A. assert (K : obj_ok (d_ctx s) a o) by (apply D; exact A).
  constructor; auto; [apply db_ok_set_append; [exact D|exact K|exact I]|].
  apply undo_set with (o := o); [apply D|apply D|exact A|exact K|reflexivity|].
  exists (fun ob => obj_set_balance ob (a_bal (o_acct o))). split; [reflexivity|]. split; [|exact K].
  unfold same_obj. eapply acc_eq_trans; [apply see_set_balance_eq|]. acc_done.
Qed.

Lemma add_balance_good s a v : db_ok s -> good s (add_balance keccak s a v).
Proof.
  intro D. unfold add_balance. use_new s a. apply get_or_new_good in G; [|exact D]. destruct G as (Gd & A & K & _).
  destruct (v =? 0); [exact Gd|]. eapply good_trans; [exact Gd|]. apply set_balance_good; [apply Gd|exact A].
Qed.
Lemma sub_balance_good s a v : db_ok s -> good s (sub_balance keccak s a v).
Proof.
  intro D. unfold sub_balance. use_new s a. apply get_or_new_good in G; [|exact D]. destruct G as (Gd & A & K & _).
  destruct (v =? 0); [exact Gd|]. eapply good_trans; [exact Gd|]. apply set_balance_good; [apply Gd|exact A].
Qed.

Lemma set_nonce_good s a n : db_ok s -> good s (set_nonce keccak s a n).
Proof.
  intro D. unfold set_nonce. use_new s a. apply get_or_new_good in G; [|exact D]. destruct G as (Gd & A & K & _).
  eapply good_trans; [exact Gd|]. pose proof (g_ok _ _ Gd) as D1.
  constructor; auto; [apply db_ok_set_append; [exact D1|exact K|exact I]|].
  apply undo_set with (o := o); [apply D1|apply D1|exact A|exact K|reflexivity|].
  exists (fun ob => obj_set_nonce ob (a_nonce (o_acct o))). split; [reflexivity|]. split; [|exact K].
  unfold same_obj. eapply acc_eq_trans; [apply see_set_nonce_eq|]. acc_done.
Qed.

Lemma set_code_good s a c : db_ok s -> good s (set_code keccak s a c).
Proof.
  intro D. unfold set_code. use_new s a. apply get_or_new_good in G; [|exact D]. destruct G as (Gd & A & K & _).
  destruct (obj_code keccak (d_ctx s1) o) as [prev o1] eqn:C. apply obj_code_spec in C.
  destruct C as (C1 & C2 & C3 & C4 & C5 & C6 & C7 & C8).
  eapply good_trans; [exact Gd|]. pose proof (g_ok _ _ Gd) as D1.
  assert (K1 : obj_ok (d_ctx s1) a o1) by (intros k v; rewrite C2; apply K).
  constructor; auto; [apply db_ok_set_append; [exact D1|exact K1|exact I]|].
  apply undo_set with (o := o); [apply D1|apply D1|exact A|exact K1|reflexivity|].
  exists (fun ob => obj_set_code ob (a_hash (o_acct o1)) prev). split; [reflexivity|]. split; [|exact K1].
  unfold same_obj. eapply acc_eq_trans; [apply see_set_code_eq|]. repeat split; cbn; try congruence.
  intro k. rewrite !slot_of_spec; [cbn; rewrite C3; reflexivity|exact K|exact K1].
Qed.

Lemma set_state_good s a k v : db_ok s -> good s (set_state keccak s a k v).
Proof.
  intro D. unfold set_state. use_new s a. apply get_or_new_good in G; [|exact D]. destruct G as (Gd & A & K & _).
  destruct (obj_state (d_ctx s1) a o k) as [prev o1] eqn:C. apply obj_state_spec in C; [|exact K].
  destruct C as (C1 & C2 & C3 & C4 & C5 & C6 & K1 & C8). pose proof (g_ok _ _ Gd) as D1.
  eapply good_trans; [exact Gd|]. destruct (N.eqb prev v).
  - apply (good_cache s1 a o o1); assumption.
  - constructor; auto; [apply db_ok_set_append; [exact D1|exact K1|exact I]|].
    apply undo_set with (o := o); [apply D1|apply D1|exact A|exact K1|reflexivity|].
    exists (fun ob => obj_set_state ob k prev). split; [reflexivity|]. split; [|exact K1].
    unfold same_obj. repeat split; cbn; rewrite ?code_of_at; cbn; try congruence.
    intro k2. rewrite !slot_of_spec; [|exact K|exact K1]. cbn. rewrite aset_aset, aget_aset, C4.
    destruct (N.eqb_spec k k2) as [<-|]; [|reflexivity]. rewrite C1, slot_of_spec by exact K. reflexivity.
Qed.

Lemma suicide_good s a b s' : suicide keccak s a = (b, s') -> db_ok s -> good s s'.
Proof.
  intros H D. unfold suicide in H. destruct (get_obj s a) as [[o|] s1] eqn:G.
  - injection H as <- <-. pose proof (get_obj_good _ _ _ _ G D) as [Gd Q]. apply get_obj_spec in G; [|apply D].
    destruct G as (_ & _ & _ & A & S & K). eapply good_trans; [exact Gd|]. pose proof (g_ok _ _ Gd) as D1.
    rewrite <- (g_ctx _ _ Gd) in K.
    constructor; auto; [apply db_ok_set_append; [exact D1|exact K|exact I]|].
    eapply undo_one with (e := ESuicide a (o_suicided o) (a_bal (o_acct o))); [reflexivity| | |].
    + unfold Model.pop. cbn [d_journal set_obj with_objs jappend with_journal Model.revert_entry]. unfold Model.get_obj.
      cbn [d_objs set_obj with_objs]. rewrite aget_aset_same. cbn [rbind]. reflexivity.
    + constructor; auto; cbn.
      * intro b0. rewrite (see_ext _ (set_obj s1 a (obj_set_balance (obj_set_suicided (obj_set_balance (obj_set_suicided o true) 0) (o_suicided o)) (a_bal (o_acct o)))) b0);
          [|cbn; rewrite aset_aset; reflexivity|reflexivity].
        rewrite see_set. destruct (N.eqb_spec a b0) as [<-|]; [|apply oacc_refl]. rewrite (see_live s1 a o A). cbn.
        eapply acc_eq_trans; [apply see_set_suicided_eq|]. acc_done.
      * apply drop_add. apply D1.
    + intros b0 ob. cbn. rewrite aset_aset, aget_aset. destruct (N.eqb_spec a b0) as [<-|]; [|apply D1].
      intro X; injection X as <-. exact K.
  - injection H as <- <-. eapply get_obj_good; eassumption.
Qed.

Lemma create_account_good s a : db_ok s -> good s (create_account keccak s a).
Proof.
  intro D. unfold create_account, create_object. destruct (get_obj s a) as [[p|] s1] eqn:G.
  - pose proof (get_obj_good _ _ _ _ G D) as [Gd Q]. apply get_obj_spec in G; [|apply D].
    destruct G as (_ & _ & _ & A & S & K). eapply good_trans; [exact Gd|]. pose proof (g_ok _ _ Gd) as D1.
    rewrite <- (g_ctx _ _ Gd) in K.
    set (nb := obj_set_balance (blank_object keccak) (a_bal (o_acct p))).
    assert (E : set_obj (set_obj (jappend s1 (EReset a p)) a (blank_object keccak)) a nb = set_obj (jappend s1 (EReset a p)) a nb)
      by (unfold set_obj, with_objs; cbn; rewrite aset_aset; reflexivity).
    rewrite E. assert (Kb : obj_ok (d_ctx s1) a nb) by (intros k v X; discriminate).
    constructor; auto; [apply db_ok_set_append; [exact D1|exact Kb|exact K]|].
    eapply undo_one with (e := EReset a p); [reflexivity|reflexivity| |].
    + constructor; auto. intro b. cbn. rewrite (see_ext _ (set_obj s1 a p) b); [|cbn; rewrite aset_aset; reflexivity|reflexivity].
      rewrite see_set. destruct (N.eqb_spec a b) as [<-|]; [|apply oacc_refl]. rewrite (see_live s1 a p A). apply acc_eq_refl.
    + intros b ob. cbn. rewrite aset_aset, aget_aset. destruct (N.eqb_spec a b) as [<-|]; [|apply D1].
      intro X; injection X as <-. exact K.
  - pose proof (get_or_new_good s a) as N0. unfold get_or_new, create_object in N0. rewrite G in N0.
    apply get_obj_spec in G; [|apply D]. destruct G as (_ & _ & _ & S & -> & A & K).
    unfold Model.get_obj in N0. rewrite A, K in N0. destruct (N0 _ _ eq_refl D) as [Gd _]. exact Gd.
Qed.

(* ---------- refund, logs, access list ---------- *)

Lemma undo_rest s s' e s0 : d_journal s' = e :: d_journal s -> pop s' = Ok s0 ->
  d_objs s0 = d_objs s -> d_ctx s0 = d_ctx s -> d_journal s0 = d_journal s -> d_dirties s0 = d_dirties s -> d_refund s0 = d_refund s ->
  d_logbase s0 = d_logbase s -> d_logs s0 = d_logs s -> d_al s0 = d_al s -> cache_of s0 = cache_of s -> d_commits s0 = d_commits s -> objs_ok s ->
  undoable s s'.
Proof.
  intros J P A B C E F G H I0 K Kc O. eapply undo_one; [exact J|exact P| |].
  - constructor; auto. intro a. rewrite (see_ext _ s a) by assumption. apply oacc_refl.
  - intros a o. rewrite A, B. apply O.
Qed.

Lemma add_refund_good s g : db_ok s -> good s (add_refund s g).
Proof.
  intros [O R]. constructor; auto.
  - split; [exact O|]. destruct (rest_ok_append s (ERefund (d_refund s)) R I). constructor; assumption.
  - eapply undo_rest; [reflexivity|reflexivity|..]; auto.
Qed.
Lemma sub_refund_good s g s' : sub_refund s g = Ok s' -> db_ok s -> good s s'.
Proof.
  unfold sub_refund. intros H [O R]. destruct (d_refund (jappend s (ERefund (d_refund s))) <? g)%N; [discriminate|]. injection H as <-. constructor; auto.
  - split; [exact O|]. destruct (rest_ok_append s (ERefund (d_refund s)) R I). constructor; assumption.
  - eapply undo_rest; [reflexivity|reflexivity|..]; auto.
Qed.

Lemma add_log_good s p : db_ok s -> good s (add_log s p).
Proof.
  intros [O R]. constructor; auto.
  - split; [exact O|]. destruct (rest_ok_append s ELog R I). constructor; assumption.
  - eapply undo_rest; [reflexivity| |..].
    + unfold Model.pop. cbn -[removelast]. destruct (d_logs s ++ _) eqn:E; [destruct (d_logs s); discriminate|]. rewrite <- E. reflexivity.
    + reflexivity.
    + reflexivity.
    + reflexivity.
    + reflexivity.
    + reflexivity.
    + reflexivity.
    + cbn -[removelast]. rewrite removelast_last. reflexivity.
    + reflexivity.
    + reflexivity.
    + reflexivity.
    + exact O.
Qed.

Lemma list_set_same {A} (l : list A) i x : nth_error l i = Some x -> list_set l i x = l.
Proof.
  revert i. induction l as [|y l IH]; intros [|i]; cbn; try discriminate; [intro H; injection H as ->; reflexivity|].
  intro H. unfold list_set in IH. f_equal. apply IH. exact H.
Qed.
Lemma list_set_length {A} (l : list A) i x : (i < length l)%nat -> length (list_set l i x) = length l.
Proof. intro H. unfold list_set. rewrite app_length. cbn [length]. rewrite firstn_length, skipn_length. lia. Qed.
Lemma list_set_nth {A} (l : list A) i x j : (i < length l)%nat -> nth_error (list_set l i x) j = if Nat.eqb i j then Some x else nth_error l j.
Proof.
  revert i j. induction l as [|y l IH]; intros i j H; [cbn in H; lia|].
  destruct i as [|i]; [destruct j; reflexivity|]. destruct j as [|j]; [reflexivity|]. cbn in *. apply (IH i j). lia.
Qed.
Lemma list_set_set {A} (l : list A) i x y : (i < length l)%nat -> list_set (list_set l i x) i y = list_set l i y.
Proof.
  revert i. induction l as [|z l IH]; intros i H; [cbn in H; lia|].
  destruct i as [|i]; [reflexivity|]. cbn in *. f_equal. apply (IH i). lia.
Qed.
Lemma list_set_in {A} (l : list A) i x y : In y (list_set l i x) -> y = x \/ In y l.
Proof.
  unfold list_set. intro H. apply in_app_or in H as [H|[H|H]]; auto.
  - right. rewrite <- (firstn_skipn i l). apply in_or_app. auto.
  - right. rewrite <- (firstn_skipn (S i) l). apply in_or_app. auto.
Qed.

Lemma add_address_good s a : db_ok s -> good s (add_address s a).
Proof.
  intros D. unfold add_address, al_add_address. destruct (aget (al_addr (d_al s)) a) eqn:E.
  - replace (with_al s (d_al s)) with s by (destruct s; reflexivity). apply good_refl. exact D.
  - destruct D as [O [J Di [A1 A2 A3]]]. constructor; auto.
    + split; [exact O|]. constructor; [constructor; [exact I|exact J]|exact Di|]. constructor; cbn.
      * intros b i. rewrite aget_aset. destruct (N.eqb a b); [discriminate|apply A1].
      * intros b c i. rewrite !aget_aset. destruct (N.eqb a b); [discriminate|]. destruct (N.eqb a c); [discriminate|apply A2].
      * exact A3.
    + eapply undo_rest; [reflexivity|reflexivity|..]; auto. cbn. unfold al_delete_address. cbn.
      rewrite adel_aset_absent by exact E. destruct (d_al s); reflexivity.
Qed.

(* adding a slot: what the access list becomes, and how it is undone *)
Lemma al_add_slot_spec al a k : al_ok al -> exists al' am sm, al_add_slot al a k = Ok (al', (am, sm)) /\ al_ok al' /\
  (sm = false -> am = false /\ al' = al) /\
  (sm = true -> exists al1, al_delete_slot al' a k = Ok al1 /\ (if am then al_delete_address al1 a = al else al1 = al)).
Proof.
  intros [A1 A2 A3]. unfold al_add_slot. destruct (aget (al_addr al) a) as [[i|]|] eqn:E.
  - pose proof (A1 a i E) as Hi. destruct (nth_error (al_slots al) i) as [m|] eqn:Nm; [|apply nth_error_None in Nm; lia].
    destruct (aget m k) eqn:Ek.
    + exists al, false, false. split; [reflexivity|]. split; [constructor; assumption|]. split; [auto|discriminate].
    + eexists _, false, true. split; [reflexivity|]. split; [|split; [discriminate|]].
      * constructor; cbn; [intros b j H; rewrite list_set_length by exact Hi; eauto|exact A2|].
        intros m' H. apply list_set_in in H as [->|H]; [|apply A3; exact H]. destruct m as [|[k0 []] m0]; cbn; [discriminate|].
        destruct (N.eqb k0 k); discriminate.
      * intros _. unfold al_delete_slot. cbn [al_addr al_slots]. rewrite E, list_set_nth by exact Hi.
        rewrite Nat.eqb_refl. rewrite adel_aset_absent by exact Ek.
        assert (Hm : m <> []) by (apply A3; eapply nth_error_In; exact Nm). destruct m as [|p m0]; [congruence|].
        eexists; split; [reflexivity|]. rewrite list_set_set by exact Hi. rewrite list_set_same by exact Nm. destruct al; reflexivity.
  - eexists _, false, true. split; [reflexivity|]. split; [|split; [discriminate|]].
    + constructor; cbn.
      * intros b j. rewrite aget_aset, app_length. cbn. destruct (N.eqb a b); [intro H; injection H; lia|]. intro H. apply A1 in H. lia.
      * intros b c j. rewrite !aget_aset. destruct (N.eqb_spec a b), (N.eqb_spec a c); try congruence; intros H1 H2.
        -- injection H1 as <-. apply A1 in H2. lia.
        -- injection H2 as <-. apply A1 in H1. lia.
        -- eapply A2; eassumption.
      * intros m H. apply in_app_or in H as [H|[<-|[]]]; [apply A3; exact H|discriminate].
    + intros _. unfold al_delete_slot. cbn [al_addr al_slots]. rewrite aget_aset_same.
      rewrite nth_error_app2 by lia. rewrite Nat.sub_diag. cbn [nth_error adel]. rewrite N.eqb_refl.
      eexists; split; [reflexivity|]. rewrite aset_aset, firstn_app, Nat.sub_diag, firstn_all. cbn. rewrite app_nil_r.
      rewrite aset_present by exact E. destruct al; reflexivity.
  - eexists _, true, true. split; [reflexivity|]. split; [|split; [discriminate|]].
    + constructor; cbn.
      * intros b j. rewrite aget_aset, app_length. cbn. destruct (N.eqb a b); [intro H; injection H; lia|]. intro H. apply A1 in H. lia.
      * intros b c j. rewrite !aget_aset. destruct (N.eqb_spec a b), (N.eqb_spec a c); try congruence; intros H1 H2.
        -- injection H1 as <-. apply A1 in H2. lia.
        -- injection H2 as <-. apply A1 in H1. lia.
        -- eapply A2; eassumption.
      * intros m H. apply in_app_or in H as [H|[<-|[]]]; [apply A3; exact H|discriminate].
    + intros _. unfold al_delete_slot. cbn [al_addr al_slots]. rewrite aget_aset_same.
      rewrite nth_error_app2 by lia. rewrite Nat.sub_diag. cbn [nth_error adel]. rewrite N.eqb_refl.
      eexists; split; [reflexivity|]. rewrite aset_aset, firstn_app, Nat.sub_diag, firstn_all. cbn. rewrite app_nil_r.
      unfold al_delete_address. cbn. rewrite adel_aset_absent by exact E. destruct al; reflexivity.
Qed.

Lemma add_slot_good s a k : db_ok s -> exists s', add_slot s a k = Ok s' /\ good s s'.
Proof.
  intros D. pose proof D as [O [J Di Al]]. destruct (al_add_slot_spec (d_al s) a k Al) as (al' & am & sm & E & Ok' & F & T).
  unfold add_slot. rewrite E. cbn [rbind]. eexists; split; [reflexivity|]. destruct sm.
  - destruct (T eq_refl) as (al1 & E1 & E2). constructor; auto; try (destruct am; reflexivity).
    + split; [destruct am; exact O|]. constructor; [destruct am; cbn; repeat constructor; exact J|destruct am; exact Di|destruct am; exact Ok'].
    + destruct am.
      * exists 2%nat. eexists. split.
        { cbn [Model.pops Model.pop]. cbn. rewrite E1. cbn. reflexivity. }
        split; [constructor; auto; cbn; [intro b; rewrite (see_ext _ s b) by reflexivity; apply oacc_refl]|].
        split; [exact O|reflexivity].
      * eapply undo_rest; [reflexivity| |..]; [unfold Model.pop; cbn; rewrite E1; cbn; reflexivity|..]; auto.
  - destruct (F eq_refl) as [-> ->]. replace (with_al s (d_al s)) with s by (destruct s; reflexivity). apply good_refl. exact D.
Qed.

(* ---------- precompile calls that do not fail ---------- *)

Lemma bal_change_good s b : db_ok s -> good s (add_bal_change keccak s b).
Proof. destruct b; cbn; [apply sub_balance_good|apply add_balance_good]. Qed.

Lemma bal_changes_good bs : forall s, db_ok s -> good s (fold_left (add_bal_change keccak) bs s).
Proof.
  induction bs as [|b bs IH]; intros s D; cbn; [apply good_refl; exact D|].
  pose proof (bal_change_good s b D) as G. eapply good_trans; [exact G|]. apply IH. apply G.
Qed.

End Keccak.
