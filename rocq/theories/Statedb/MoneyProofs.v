(* What the bank holds after a transaction in which built-in contracts moved
   coins themselves and reported it to the EVM. *)
From Verif Require Import Lib.Base Lib.Bytes Lib.Amap Statedb.Model Statedb.Spec Statedb.Proofs Statedb.RevertProofs Statedb.SimProofs
  Statedb.CommitProofs Statedb.MoneySpec.
Open Scope Z_scope.

Section Keccak.
Variable keccak : bytes -> word.
Notation get_obj := (get_obj keccak).
Notation step := (step keccak).
Notation run := (run keccak).

Definition cur (s : sdb) : store := match d_cache s with Some c => c | None => d_ctx s end.

(* ------------------------------------------------------------------ *)
(* the objects agree with the ledger                                    *)
(* ------------------------------------------------------------------ *)

Record agrees (s : sdb) (D : addr -> Z) : Prop := {
  ag_obj : forall a o, aget (d_objs s) a = Some o -> o_suicided o = false /\ a_bal (o_acct o) = D a;
  ag_ctx : forall a, aget (d_objs s) a = None -> st_bal (d_ctx s) a = D a /\ (st_acct (d_ctx s) a = None -> D a = 0);
  ag_dirty : forall a, aget (d_dirties s) a <> None -> aget (d_objs s) a <> None
}.

Definition stores (s s1 : sdb) : Prop := d_ctx s1 = d_ctx s /\ d_cache s1 = d_cache s.
Lemma stores_refl s : stores s s. Proof. split; reflexivity. Qed.
Lemma stores_trans s s1 s2 : stores s s1 -> stores s1 s2 -> stores s s2.
Proof. intros [A B] [C E]. split; congruence. Qed.

(* what was dirty stays dirty *)
Definition keeps (s s1 : sdb) : Prop := forall a, aget (d_dirties s1) a = None -> aget (d_dirties s) a = None.

(* the operation keeps the stores and the dirty accounts, and moves the ledger to D1 *)
Definition moved (s : sdb) (D : addr -> Z) (s1 : sdb) (D1 : addr -> Z) : Prop :=
  agrees s1 D1 /\ stores s s1 /\ keeps s s1.

Lemma moved_refl s D : agrees s D -> moved s D s D.
Proof. intro H. split; [exact H|]. split; [split; reflexivity|intros a E; exact E]. Qed.
Lemma moved_trans s D s1 D1 s2 D2 : moved s D s1 D1 -> moved s1 D1 s2 D2 -> moved s D s2 D2.
Proof. intros (A & B & C) (A' & B' & C'). split; [exact A'|]. split; [eapply stores_trans; eassumption|]. intros a E. auto. Qed.

(* only objects, dirty accounts and the stores matter *)
Lemma moved_other s D s1 D1 s2 : moved s D s1 D1 -> d_objs s2 = d_objs s1 -> d_dirties s2 = d_dirties s1 -> stores s1 s2 -> moved s D s2 D1.
Proof.
  intros M E1 E2 St. eapply moved_trans; [exact M|]. destruct M as ([A B C] & _ & _). split; [|split; [exact St|]].
  - destruct St as [S1 S2]. split; [rewrite E1; exact A|rewrite E1, S1; exact B|rewrite E1, E2; exact C].
  - intro a. rewrite E2. auto.
Qed.

Lemma agrees_ext s D D1 : agrees s D -> (forall a, D1 a = D a) -> agrees s D1.
Proof.
  intros [A B C] E. split; [|intros a H; rewrite E; auto|exact C]. intros a o H. rewrite E. auto.
Qed.

Lemma get_moved s D a r s1 : agrees s D -> get_obj s a = (r, s1) ->
  moved s D s1 D /\
  match r with
  | Some o => aget (d_objs s1) a = Some o
  | None => aget (d_objs s1) a = None /\ D a = 0
  end.
Proof.
  intros Ag. unfold Model.get_obj. destruct (aget (d_objs s) a) as [o|] eqn:E.
  - intro H. injection H as <- <-. split; [apply moved_refl; exact Ag|exact E].
  - destruct (k_account keccak (d_ctx s) a) as [x|] eqn:K.
    + intro H. injection H as <- <-. split; [|cbn; apply aget_aset_same].
      unfold k_account in K. destruct (st_acct (d_ctx s) a) eqn:Ka; [|discriminate]. injection K as <-.
      split; [|split; [split; reflexivity|intros b Eb; exact Eb]]. destruct Ag as [A B C]. split; cbn.
      * intros b o. rewrite aget_aset. destruct (N.eqb_spec a b) as [Eb|].
        -- intro H. injection H as <-. cbn. split; [reflexivity|]. subst b. apply B. exact E.
        -- apply A.
      * intros b. rewrite aget_aset. destruct (N.eqb_spec a b); [discriminate|]. apply B.
      * intros b Hb. rewrite aget_aset. destruct (N.eqb a b); [discriminate|]. apply C. exact Hb.
    + intro H. injection H as <- <-. split; [apply moved_refl; exact Ag|]. split; [exact E|].
      unfold k_account in K. destruct (st_acct (d_ctx s) a) eqn:Ka; [discriminate|]. destruct Ag as [A B C]. apply (B a E). exact Ka.
Qed.

(* a live object is replaced by one with the same balance *)
Lemma touch_moved s D a o1 : agrees s D -> o_suicided o1 = false -> a_bal (o_acct o1) = D a -> moved s D (set_obj s a o1) D.
Proof.
  intros [A B C] So Bo. split; [|split; [split; reflexivity|intros b Eb; exact Eb]]. split; cbn.
  - intros b o. rewrite aget_aset. destruct (N.eqb_spec a b) as [Eb|]; [|apply A]. intro H. injection H as <-. subst b. split; assumption.
  - intros b. rewrite aget_aset. destruct (N.eqb_spec a b); [discriminate|]. apply B.
  - intros b Hb. rewrite aget_aset. destruct (N.eqb a b); [discriminate|]. apply C. exact Hb.
Qed.

(* a journalled write of account a *)
Lemma write_moved s D a e o1 D1 : agrees s D -> dirtied e = Some a -> o_suicided o1 = false -> a_bal (o_acct o1) = D1 a ->
  (forall b, b <> a -> D1 b = D b) ->
  moved s D (set_obj (jappend s e) a o1) D1 /\ aget (d_dirties (set_obj (jappend s e) a o1)) a <> None.
Proof.
  intros [A B C] De So Bo Ot. unfold jappend. rewrite De. split.
  - split; [|split; [split; reflexivity|]].
    + split; cbn.
      * intros b o. rewrite aget_aset. destruct (N.eqb_spec a b) as [Eb|Nb].
        -- intro H. injection H as <-. subst b. split; assumption.
        -- intro H. rewrite Ot by congruence. apply A. exact H.
      * intros b. rewrite aget_aset. destruct (N.eqb_spec a b) as [|Nb]; [discriminate|]. intro H. rewrite Ot by congruence. apply B. exact H.
      * intros b. rewrite !aget_aset. destruct (N.eqb a b); [discriminate|]. apply C.
    + intros b. cbn. rewrite aget_aset. destruct (N.eqb a b); [discriminate|]. auto.
  - cbn. rewrite aget_aset_same. discriminate.
Qed.

(* a journal entry that dirties nothing *)
Lemma append_moved s D e : agrees s D -> dirtied e = None -> moved s D (jappend s e) D.
Proof.
  intros Ag De. eapply moved_other; [apply moved_refl; exact Ag|reflexivity| |split; reflexivity]. unfold jappend. rewrite De. reflexivity.
Qed.

Lemma get_or_new_moved s D a o s1 : agrees s D -> get_or_new keccak s a = (o, s1) ->
  moved s D s1 D /\ aget (d_objs s1) a = Some o.
Proof.
  intros Ag. unfold get_or_new. destruct (get_obj s a) as [r s2] eqn:G. destruct (get_moved s D a r s2 Ag G) as [M R]. destruct r as [o2|].
  - intro H. injection H as <- <-. split; [exact M|exact R].
  - destruct R as [R0 D0]. unfold create_object. destruct (get_obj s2 a) as [r3 s3] eqn:G3. destruct M as (A2 & M1 & M2).
    destruct (get_moved s2 D a r3 s3 A2 G3) as [M3 R3].
    assert (r3 = None /\ s3 = s2) as [-> ->].
    { revert G G3. unfold Model.get_obj. destruct (aget (d_objs s) a) eqn:E; [intro X; discriminate X|]. destruct (k_account keccak (d_ctx s) a) eqn:K; [intro X; discriminate X|].
      intro X. injection X as <-. rewrite E, K. intro Y. injection Y as <- <-. auto. }
    intro H. injection H as <- <-. split; [|cbn; apply aget_aset_same].
    eapply moved_trans; [split; [exact A2|split; [exact M1|exact M2]]|].
    apply (write_moved s2 D a (ECreate a) (blank_object keccak) D A2); [reflexivity|reflexivity|cbn; auto|reflexivity].
Qed.

Definition plus (D : addr -> Z) (a : addr) (v : Z) : addr -> Z := fun b => D b + (if N.eqb a b then v else 0).

Lemma set_balance_moved s D a o v : agrees s D -> aget (d_objs s) a = Some o ->
  moved s D (set_balance s a o (a_bal (o_acct o) + v)) (plus D a v) /\ aget (d_dirties (set_balance s a o (a_bal (o_acct o) + v))) a <> None.
Proof.
  intros Ag E. destruct (ag_obj _ _ Ag a o E) as [So Bo]. unfold set_balance. apply write_moved; [exact Ag|reflexivity|exact So| |].
  - cbn. unfold plus. rewrite N.eqb_refl, Bo. reflexivity.
  - intros b Hb. unfold plus. destruct (N.eqb_spec a b); [congruence|lia].
Qed.

Lemma add_moved s D a v : agrees s D ->
  moved s D (add_balance keccak s a v) (plus D a v) /\ (aget (d_dirties (add_balance keccak s a v)) a = None -> v = 0).
Proof.
  intro Ag. unfold add_balance. destruct (get_or_new keccak s a) as [o s1] eqn:G. destruct (get_or_new_moved s D a o s1 Ag G) as [M R].
  destruct (Z.eqb_spec v 0) as [->|Nv].
  - split; [|reflexivity]. destruct M as (M1 & M2 & M3). split; [|split; assumption]. eapply agrees_ext; [exact M1|].
    intro b. unfold plus. destruct (N.eqb a b); lia.
  - destruct M as (M1 & M2 & M3). destruct (set_balance_moved s1 D a o v M1 R) as [W1 W2]. split; [|intro X; contradiction].
    eapply moved_trans; [|exact W1]. split; [exact M1|split; assumption].
Qed.

Lemma sub_moved s D a v : agrees s D ->
  moved s D (sub_balance keccak s a v) (plus D a (- v)) /\ (aget (d_dirties (sub_balance keccak s a v)) a = None -> v = 0).
Proof.
  intro Ag. unfold sub_balance. destruct (get_or_new keccak s a) as [o s1] eqn:G. destruct (get_or_new_moved s D a o s1 Ag G) as [M R].
  destruct (Z.eqb_spec v 0) as [->|Nv].
  - split; [|reflexivity]. destruct M as (M1 & M2 & M3). split; [|split; assumption]. eapply agrees_ext; [exact M1|].
    intro b. unfold plus. destruct (N.eqb a b); lia.
  - destruct M as (M1 & M2 & M3). destruct (set_balance_moved s1 D a o (- v) M1 R) as [W1 W2].
    replace (a_bal (o_acct o) + - v) with (a_bal (o_acct o) - v) in W1, W2 by lia. split; [|intro X; contradiction].
    eapply moved_trans; [|exact W1]. split; [exact M1|split; assumption].
Qed.

Lemma changes_moved bs : forall s D, agrees s D ->
  moved s D (fold_left (add_bal_change keccak) bs s) (fun a => D a + reported bs a).
Proof.
  induction bs as [|b bs IH]; intros s D Ag; cbn [fold_left reported fold_right].
  - destruct (moved_refl s D Ag) as (M1 & M2 & M3). split; [|split; assumption]. eapply agrees_ext; [exact M1|]. intro a. lia.
  - assert (X : moved s D (add_bal_change keccak s b) (fun a => D a + change b a)).
    { destruct b as [x v|x v]; cbn [add_bal_change change]; [destruct (sub_moved s D x v Ag) as [(M1 & M2 & M3) _]|destruct (add_moved s D x v Ag) as [(M1 & M2 & M3) _]];
        (split; [|split; assumption]; eapply agrees_ext; [exact M1|]; intro a; reflexivity). }
    pose proof X as (X1 & _ & _). specialize (IH _ _ X1). eapply moved_trans; [exact X|].
    destruct IH as (M1 & M2 & M3). split; [|split; assumption]. eapply agrees_ext; [exact M1|]. intro a. cbn beta. unfold reported. lia.
Qed.

Lemma obj_code_same st o c o1 : obj_code keccak st o = (c, o1) -> o_acct o1 = o_acct o /\ o_suicided o1 = o_suicided o.
Proof.
  unfold obj_code. destruct (o_code o); [intro H; injection H as <- <-; auto|]. destruct (N.eqb _ _); intro H; injection H as <- <-; auto.
Qed.
Lemma obj_committed_same st a o k v o1 : obj_committed st a o k = (v, o1) -> o_acct o1 = o_acct o /\ o_suicided o1 = o_suicided o.
Proof. unfold obj_committed. destruct (aget _ k); intro H; injection H as <- <-; auto. Qed.
Lemma obj_state_same st a o k v o1 : obj_state st a o k = (v, o1) -> o_acct o1 = o_acct o /\ o_suicided o1 = o_suicided o.
Proof. unfold obj_state. destruct (aget (o_dirty o) k); [intro H; injection H as <- <-; auto|apply obj_committed_same]. Qed.

Lemma read_code_moved s D a c s1 : agrees s D -> read_code keccak s a = (c, s1) -> moved s D s1 D.
Proof.
  intros Ag. unfold read_code. destruct (get_obj s a) as [r s2] eqn:G. destruct (get_moved s D a r s2 Ag G) as [M R]. destruct r as [o|].
  - destruct (obj_code keccak (d_ctx s2) o) as [c1 o1] eqn:Oc. intro H. injection H as _ <-. eapply moved_trans; [exact M|].
    destruct M as (M1 & _ & _). apply obj_code_same in Oc as [E1 E2]. destruct (ag_obj _ _ M1 a o R) as [So Bo].
    apply touch_moved; [exact M1|congruence|rewrite E1; exact Bo].
  - intro H. injection H as _ <-. exact M.
Qed.

Lemma set_nonce_moved s D a n : agrees s D -> moved s D (set_nonce keccak s a n) D.
Proof.
  intro Ag. unfold set_nonce. destruct (get_or_new keccak s a) as [o s1] eqn:G. destruct (get_or_new_moved s D a o s1 Ag G) as [M R].
  eapply moved_trans; [exact M|]. destruct M as (M1 & _ & _). destruct (ag_obj _ _ M1 a o R) as [So Bo].
  apply write_moved; [exact M1|reflexivity|exact So|exact Bo|reflexivity].
Qed.

Lemma set_code_moved s D a c : agrees s D -> moved s D (set_code keccak s a c) D.
Proof.
  intro Ag. unfold set_code. destruct (get_or_new keccak s a) as [o s1] eqn:G. destruct (get_or_new_moved s D a o s1 Ag G) as [M R].
  destruct (obj_code keccak (d_ctx s1) o) as [pc o1] eqn:Oc. apply obj_code_same in Oc as [E1 E2].
  eapply moved_trans; [exact M|]. destruct M as (M1 & _ & _). destruct (ag_obj _ _ M1 a o R) as [So Bo].
  apply write_moved; [exact M1|reflexivity|cbn; congruence|cbn; rewrite E1; exact Bo|reflexivity].
Qed.

Lemma set_state_moved s D a k v : agrees s D -> moved s D (set_state keccak s a k v) D.
Proof.
  intro Ag. unfold set_state. destruct (get_or_new keccak s a) as [o s1] eqn:G. destruct (get_or_new_moved s D a o s1 Ag G) as [M R].
  destruct (obj_state (d_ctx s1) a o k) as [pv o1] eqn:Os. apply obj_state_same in Os as [E1 E2].
  eapply moved_trans; [exact M|]. destruct M as (M1 & _ & _). destruct (ag_obj _ _ M1 a o R) as [So Bo]. destruct (N.eqb pv v).
  - apply touch_moved; [exact M1|congruence|rewrite E1; exact Bo].
  - apply write_moved; [exact M1|reflexivity|cbn; congruence|cbn; rewrite E1; exact Bo|reflexivity].
Qed.

Lemma create_account_moved s D a : agrees s D -> moved s D (create_account keccak s a) D.
Proof.
  intro Ag. unfold create_account, create_object. destruct (get_obj s a) as [r s1] eqn:G. destruct (get_moved s D a r s1 Ag G) as [M R].
  destruct r as [p|].
  - (* the balance of the old object is carried over *)
    eapply moved_trans; [exact M|]. destruct M as (M1 & _ & _). destruct (ag_obj _ _ M1 a p R) as [So Bo].
    replace (set_obj (set_obj (jappend s1 (EReset a p)) a (blank_object keccak)) a (obj_set_balance (blank_object keccak) (a_bal (o_acct p))))
      with (set_obj (jappend s1 (EReset a p)) a (obj_set_balance (blank_object keccak) (a_bal (o_acct p)))) by (unfold set_obj, with_objs; cbn; rewrite aset_aset; reflexivity).
    pose proof (append_moved s1 D (EReset a p) M1 eq_refl) as Y. eapply moved_trans; [exact Y|]. destruct Y as (Y1 & _ & _).
    apply touch_moved; [exact Y1|reflexivity|exact Bo].
  - destruct R as [R0 D0]. eapply moved_trans; [exact M|]. destruct M as (M1 & _ & _).
    apply write_moved; [exact M1|reflexivity|reflexivity|cbn; auto|reflexivity].
Qed.

Lemma add_address_moved s D a : agrees s D -> moved s D (add_address s a) D.
Proof.
  intro Ag. unfold add_address. destruct (al_add_address (d_al s) a) as [al ad].
  assert (X : moved s D (with_al s al) D) by (eapply moved_other; [apply moved_refl; exact Ag|reflexivity|reflexivity|split; reflexivity]).
  destruct ad; [|exact X]. eapply moved_trans; [exact X|]. destruct X as (X1 & _ & _). apply append_moved; [exact X1|reflexivity].
Qed.

Lemma add_slot_moved s D a k s1 : agrees s D -> add_slot s a k = Ok s1 -> moved s D s1 D.
Proof.
  intros Ag H. unfold add_slot in H. apply rbind_inv in H as ([al [am sm]] & _ & H). injection H as <-.
  assert (X : moved s D (with_al s al) D) by (eapply moved_other; [apply moved_refl; exact Ag|reflexivity|reflexivity|split; reflexivity]).
  assert (Y : moved s D (if am then jappend (with_al s al) (EAlAddr a) else with_al s al) D).
  { destruct am; [|exact X]. eapply moved_trans; [exact X|]. destruct X as (X1 & _ & _). apply append_moved; [exact X1|reflexivity]. }
  destruct sm; [|exact Y]. eapply moved_trans; [exact Y|]. destruct Y as (Y1 & _ & _). apply append_moved; [exact Y1|reflexivity].
Qed.

(* every operation but a call of a built-in contract *)
Lemma step_moved moves s D x o s1 : agrees s D -> reporting moves x -> (forall p, x <> Precompile p) -> step s x = Ok (o, s1) ->
  moved s D s1 (fun a => D a + net moves x a) /\ (forall a, aget (d_dirties s1) a = None -> net moves x a = 0).
Proof.
  intros Ag Rp Np H.
  assert (Z0 : forall s2, moved s D s2 D -> moved s D s2 (fun a => D a + 0)).
  { intros s2 (M1 & M2 & M3). split; [|split; assumption]. eapply agrees_ext; [exact M1|]. intro a. lia. }
  assert (Get : forall a (r : option obj) s2, get_obj s a = (r, s2) -> moved s D s2 D) by (intros a r s2 G; apply (get_moved s D a r s2 Ag G)).
  destruct x; cbn [Model.step reporting] in *; try contradiction; try (exfalso; apply (Np p); reflexivity);
    try (split; [|intros; reflexivity]; cbn [net]; apply Z0);
    try (destruct (get_obj s a) as [r s2] eqn:G; injection H as _ <-; eapply Get; exact G);
    try (destruct (read_code keccak s a) as [c s2] eqn:G; injection H as _ <-; eapply read_code_moved; [exact Ag|exact G]);
    try (injection H as _ <-; apply moved_refl; exact Ag).
  - destruct (get_obj s a) as [r s2] eqn:G. destruct (get_moved s D a r s2 Ag G) as [M R]. destruct r as [ob|]; [|injection H as _ <-; exact M].
    destruct (obj_state (d_ctx s2) a ob k) as [v o1] eqn:Os. apply obj_state_same in Os as [E1 E2]. injection H as _ <-.
    eapply moved_trans; [exact M|]. destruct M as (M1 & _ & _). destruct (ag_obj _ _ M1 a ob R) as [So Bo]. apply touch_moved; [exact M1|congruence|rewrite E1; exact Bo].
  - destruct (get_obj s a) as [r s2] eqn:G. destruct (get_moved s D a r s2 Ag G) as [M R]. destruct r as [ob|]; [|injection H as _ <-; exact M].
    destruct (obj_committed (d_ctx s2) a ob k) as [v o1] eqn:Os. apply obj_committed_same in Os as [E1 E2]. injection H as _ <-.
    eapply moved_trans; [exact M|]. destruct M as (M1 & _ & _). destruct (ag_obj _ _ M1 a ob R) as [So Bo]. apply touch_moved; [exact M1|congruence|rewrite E1; exact Bo].
  - injection H as _ <-. destruct (add_moved s D a v Ag) as [M Q]. split; [exact M|]. intros b Eb. cbn [net]. destruct (N.eqb_spec a b) as [E|]; [subst b; auto|reflexivity].
  - injection H as _ <-. destruct (sub_moved s D a v Ag) as [M Q]. split; [exact M|]. intros b Eb. cbn [net]. destruct (N.eqb_spec a b) as [E|]; [subst b; rewrite (Q Eb); reflexivity|reflexivity].
  - injection H as _ <-. apply set_nonce_moved. exact Ag.
  - injection H as _ <-. apply set_code_moved. exact Ag.
  - injection H as _ <-. apply set_state_moved. exact Ag.
  - injection H as _ <-. apply create_account_moved. exact Ag.
  - injection H as _ <-. eapply moved_other; [apply (append_moved s D ELog); [exact Ag|reflexivity]|reflexivity|reflexivity|split; reflexivity].
  - injection H as _ <-. eapply moved_other; [apply (append_moved s D (ERefund (d_refund s))); [exact Ag|reflexivity]|reflexivity|reflexivity|split; reflexivity].
  - apply rbind_inv in H as (s2 & H1 & H2). injection H2 as _ <-. unfold sub_refund in H1. destruct (_ <? _)%N; [discriminate|]. injection H1 as <-.
    eapply moved_other; [apply (append_moved s D (ERefund (d_refund s))); [exact Ag|reflexivity]|reflexivity|reflexivity|split; reflexivity].
  - injection H as _ <-. apply add_address_moved. exact Ag.
  - apply rbind_inv in H as (s2 & H1 & H2). injection H2 as _ <-. eapply add_slot_moved; [exact Ag|exact H1].
  - apply rbind_inv in H as ([b c] & H1 & H2). injection H2 as _ <-. apply moved_refl. exact Ag.
  - unfold snapshot in H. injection H as _ <-. eapply moved_other; [apply moved_refl; exact Ag|reflexivity|reflexivity|split; reflexivity].
Qed.

(* ------------------------------------------------------------------ *)
(* writing the objects to a store                                       *)
(* ------------------------------------------------------------------ *)

Lemma commit_obj_money st a o st1 : o_suicided o = false -> commit_obj keccak st a o = Ok st1 ->
  st_bal st1 a = a_bal (o_acct o) /\ (forall b, b <> a -> st_bal st1 b = st_bal st b) /\
  st_acct st1 a <> None /\ (forall b, b <> a -> st_acct st1 b = st_acct st b) /\
  st_supply st1 - st_supply st = st_bal st1 a - st_bal st a.
Proof.
  intros So H. unfold commit_obj in H. rewrite So in H.
  set (st2 := match o_code o with
              | Some c => if o_dirty_code o then match c with [] => k_delete_code st (a_hash (o_acct o)) | _ => k_set_code st (a_hash (o_acct o)) c end else st
              | None => st end) in *.
  assert (S2 : st_acct st2 = st_acct st /\ st_bal st2 = st_bal st /\ st_supply st2 = st_supply st).
  { unfold st2. destruct (o_code o) as [c|]; [|auto]. destruct (o_dirty_code o); [|auto]. destruct c; auto. }
  destruct S2 as (A & B & C). apply rbind_inv in H as (st3 & H1 & H2). injection H2 as H2.
  apply set_account_spec in H1. destruct H1 as (I1 & I2 & I3 & I4 & I5 & I6 & I7).
  apply commit_slots_spec in H2. destruct H2 as (_ & J2 & J3 & J4 & J5 & J6 & J7).
  rewrite J2, J3, J6. split; [exact I2|]. split; [intros b Hb; destruct (I6 b Hb) as (K1 & K2 & K3 & K4); congruence|].
  split; [rewrite I1; discriminate|]. split; [intros b Hb; destruct (I6 b Hb) as (K1 & K2 & K3 & K4); congruence|]. rewrite B, C in I7. exact I7.
Qed.

Lemma commit_addrs_money l : forall st objs D st1,
  (forall a o, aget objs a = Some o -> o_suicided o = false /\ a_bal (o_acct o) = D a) ->
  commit_addrs keccak st objs l = Ok st1 ->
  (forall a, In a l -> st_bal st1 a = D a) /\ (forall a, ~ In a l -> st_bal st1 a = st_bal st a) /\
  (no_orphans st -> no_orphans st1) /\
  (forall u, NoDup u -> (forall a, ~ In a u -> st_bal st a = D a) -> st_supply st1 - total st1 u = st_supply st - total st u).
Proof.
  induction l as [|a l IH]; intros st objs D st1 Ob H; cbn [commit_addrs] in H.
  - injection H as <-. split; [intros a []|]. auto.
  - destruct (aget objs a) as [o|] eqn:Ea; [|discriminate]. apply rbind_inv in H as (st2 & H1 & H2). destruct (Ob a o Ea) as [So Bo].
    destruct (commit_obj_money st a o st2 So H1) as (A & B & C & E & F).
    destruct (IH st2 objs D st1 Ob H2) as (R1 & R2 & R3 & R4).
    split; [|split; [|split]].
    + intros b Hb. destruct (in_dec N.eq_dec b l) as [I0|N0]; [apply R1; exact I0|]. destruct Hb as [<-|Hb]; [|contradiction]. rewrite R2 by exact N0. congruence.
    + intros b Hb. rewrite R2 by (intro X; apply Hb; right; exact X). apply B. intros ->. apply Hb. left. reflexivity.
    + intro W. apply R3. intros b Hb. destruct (N.eq_dec b a) as [->|Ne]; [contradiction|]. rewrite B by exact Ne. apply W. rewrite <- E by exact Ne. exact Hb.
    + intros u Nd Out. rewrite R4; [|exact Nd|].
      * destruct (in_dec N.eq_dec a u) as [I0|N0].
        -- pose proof (total_one keccak st st2 a u B Nd I0). lia.
        -- pose proof (total_other st st2 a u B N0). rewrite (Out a N0) in F. lia.
      * intros b Hb. destruct (N.eq_dec b a) as [->|Ne]; [congruence|]. rewrite B by exact Ne. apply Out. exact Hb.
Qed.

(* ------------------------------------------------------------------ *)
(* the whole transaction                                                *)
(* ------------------------------------------------------------------ *)

Section From.
Variables (st : store) (u : list addr).
Hypothesis nodup_u : NoDup u.

(* the store that the next commit starts from, against the ledger *)
Record books (s : sdb) (D : addr -> Z) : Prop := {
  bk_agrees : agrees s D;
  bk_clean : forall a, aget (d_dirties s) a = None -> st_bal (cur s) a = D a;
  bk_orphans : no_orphans (cur s);
  bk_outside : forall a, ~ In a u -> D a = st_bal st a /\ st_bal (cur s) a = st_bal st a;
  bk_supply : st_supply (cur s) - total (cur s) u = st_supply st - total st u
}.

Lemma books_commit s D c : books s D -> commit_with keccak (cur s) s = Ok c ->
  (forall a, st_bal c a = D a) /\ no_orphans c /\ st_supply c - total c u = st_supply st - total st u.
Proof.
  intros [Ag Cl Orp Out Sup] H. unfold commit_with in H.
  destruct (commit_addrs_money _ _ _ D _ (ag_obj _ _ Ag) H) as (A & B & C & E). split; [|split].
  - intro a. destruct (in_dec N.eq_dec a (nsort (akeys (d_dirties s)))) as [I0|N0]; [auto|]. rewrite B by exact N0. apply Cl.
    destruct (aget (d_dirties s) a) eqn:X; [|reflexivity]. exfalso. apply N0. apply nsort_in. eapply aget_in. exact X.
  - auto.
  - rewrite E; [exact Sup|exact nodup_u|]. intros a Na. destruct (Out a Na) as [X Y]. congruence.
Qed.

Lemma total_plus (c c1 : store) (f : addr -> Z) l : (forall a, st_bal c1 a = st_bal c a + f a) ->
  total c1 l = total c l + fold_right (fun a z => f a + z) 0 l.
Proof. intro H. induction l as [|a l IH]; cbn; [reflexivity|]. rewrite H, IH. lia. Qed.

Lemma sum_one b (v : Z) l : NoDup l -> In b l -> fold_right (fun a z => (if N.eqb b a then v else 0) + z) 0 l = v.
Proof.
  assert (Zr : forall l, ~ In b l -> fold_right (fun a z => (if N.eqb b a then v else 0) + z) 0 l = 0).
  { clear. induction l as [|a l IH]; cbn; [reflexivity|]. intro H. rewrite IH by tauto. destruct (N.eqb_spec b a) as [E|]; [exfalso; apply H; auto|lia]. }
  induction 1 as [|a l Na Nd IH]; cbn; [contradiction|]. intros [E|I0].
  - subst a. rewrite N.eqb_refl, Zr by exact Na. lia.
  - rewrite IH by exact I0. destruct (N.eqb_spec b a) as [E|]; [subst; contradiction|lia].
Qed.

Lemma sum_add (f g : addr -> Z) l : fold_right (fun a z => f a + g a + z) 0 l = fold_right (fun a z => f a + z) 0 l + fold_right (fun a z => g a + z) 0 l.
Proof. induction l as [|a l IH]; cbn; [reflexivity|]. rewrite IH. lia. Qed.

Lemma sum_reported bs : incl (map change_addr bs) u -> fold_right (fun a z => reported bs a + z) 0 u = reported_total bs.
Proof.
  induction bs as [|b bs IH]; intro Inc; cbn [reported reported_total fold_right].
  - clear. induction u as [|a l IH]; cbn; [reflexivity|exact IH].
  - rewrite (sum_add (change b) (reported bs)). rewrite IH by (intros x Hx; apply Inc; right; exact Hx). f_equal.
    destruct b as [x v|x v]; cbn [change change_total]; apply sum_one; auto; apply Inc; left; reflexivity.
Qed.

Lemma reported_out bs a : incl (map change_addr bs) u -> ~ In a u -> reported bs a = 0.
Proof.
  intros Inc Na. induction bs as [|b bs IH]; cbn [reported fold_right]; [reflexivity|]. fold (reported bs a). rewrite IH by (intros x Hx; apply Inc; right; exact Hx).
  assert (change b a = 0); [|lia]. destruct b as [x v|x v]; cbn [change]; (destruct (N.eqb_spec x a) as [E|]; [exfalso; apply Na; subst a; apply Inc; left; reflexivity|reflexivity]).
Qed.

Lemma precompile_books moves s D p r s1 : books s D -> honest p (moves p) -> incl (map change_addr (moves p)) u ->
  precompile keccak s p = Ok (r, s1) -> r <> PreFailed -> books s1 (fun a => D a + reported (moves p) a).
Proof.
  intros Bk Ho Inc H Nf. unfold precompile in H. fold (cur s) in H.
  change (commit_with keccak (cur s) (with_cache s (Some (cur s)))) with (commit_with keccak (cur s) s) in H.
  destruct (commit_with keccak (cur s) s) as [c| |] eqn:Cw; [|congruence|discriminate].
  destruct (books_commit s D c Bk Cw) as (C1 & C2 & C3). destruct Bk as [Ag Cl Orp Out Sup].
  set (s2 := with_cache (with_cache s (Some (cur s))) (Some c)) in *.
  assert (A2 : agrees s2 D) by (destruct Ag as [A B C]; split; assumption).
  (* both ways lead to a state whose cache holds the whole ledger *)
  assert (Fin : forall s3 c3 k1 k2 k3, agrees s3 D -> cur s3 = c3 -> (forall a, st_bal c3 a = D a) -> no_orphans c3 ->
    st_supply c3 - total c3 u = st_supply st - total st u -> reports c3 (pr_effect p c3) (moves p) ->
    Ok (add_precompile_fn keccak (fold_left (add_bal_change keccak) (moves p) (with_cache s3 (Some (pr_effect p c3)))) (pr_addr p) k1 k2 k3) = Ok (r, s1) ->
    books s1 (fun a => D a + reported (moves p) a)).
  { clear H Cw. intros s3 c3 k1 k2 k3 A3 Ec B3 O3 S3 [Rb Rs Ro] H. injection H as H.
    assert (A4 : agrees (with_cache s3 (Some (pr_effect p c3))) D) by (destruct A3 as [A B C]; split; assumption).
    pose proof (changes_moved (moves p) _ _ A4) as (A5 & St5 & _).
    unfold add_precompile_fn in H. set (s5 := fold_left (add_bal_change keccak) (moves p) (with_cache s3 (Some (pr_effect p c3)))) in *.
    destruct (get_or_new keccak s5 (pr_addr p)) as [o s6] eqn:G. destruct (get_or_new_moved s5 _ (pr_addr p) o s6 A5 G) as [(A6 & St6 & _) _].
    injection H as _ <-.
    assert (M7 : moved s6 (fun a => D a + reported (moves p) a) (with_pre (jappend s6 (EPre k1 k2 k3)) ((d_pre (jappend s6 (EPre k1 k2 k3)) + 1) mod 256)%N) (fun a => D a + reported (moves p) a)).
    { eapply moved_other; [apply (append_moved s6 _ (EPre k1 k2 k3)); [exact A6|reflexivity]|reflexivity|reflexivity|split; reflexivity]. }
    destruct M7 as (A7 & St7 & _).
    set (s7 := with_pre _ _) in *.
    assert (Cur7 : cur s7 = pr_effect p c3).
    { unfold cur. destruct St5 as [_ X5], St6 as [_ X6], St7 as [_ X7]. rewrite X7, X6, X5. reflexivity. }
    assert (B7 : forall a, st_bal (pr_effect p c3) a = D a + reported (moves p) a) by (intro a; rewrite Rb, B3; reflexivity).
    split; rewrite ?Cur7.
    - exact A7.
    - intros a _. apply B7.
    - apply Ro. exact O3.
    - intros a Na. rewrite B7, (reported_out _ a Inc Na). destruct (Out a Na) as [X Y]. rewrite X. lia.
    - rewrite (total_plus c3 (pr_effect p c3) (reported (moves p)) u Rb), (sum_reported _ Inc), Rs. lia. }
  destruct (pr_commit_first p).
  - destruct (commit keccak s2) as [s3| |] eqn:Cm; [|congruence|discriminate]. unfold commit in Cm. cbn [d_cache s2 with_cache] in Cm.
    apply rbind_inv in Cm as (c3 & Cw3 & E3). injection E3 as <-. cbn [d_cache with_commits with_ctx with_cache] in H.
    assert (Bk2 : books s2 D).
    { split; [exact A2| | | |]; unfold cur, s2; cbn [d_cache with_cache].
      - intros a _. apply C1.
      - exact C2.
      - intros a Na. destruct (Out a Na) as [X Y]. rewrite C1. auto.
      - exact C3. }
    destruct (books_commit s2 D c3 Bk2 Cw3) as (G1 & G2 & G3).
    destruct (Ho c3) as [X|[X Rp]]; rewrite X in H; [congruence|]. eapply Fin; [| |exact G1|exact G2|exact G3|exact Rp|exact H]; [|reflexivity].
    destruct A2 as [A B C]. split; cbn; [exact A| |exact C]. intros a Ea. split; [apply G1|]. intro Y. rewrite <- G1. apply G2. exact Y.
  - cbn [d_cache s2 with_cache] in H. destruct (Ho c) as [X|[X Rp]]; rewrite X in H; [congruence|]. eapply Fin; [exact A2|reflexivity|exact C1|exact C2|exact C3|exact Rp|exact H].
Qed.

Lemma step_books moves s D x o s1 : books s D -> reporting moves x -> incl (named moves x) u -> o <> OPre PreFailed ->
  step s x = Ok (o, s1) -> books s1 (fun a => D a + net moves x a).
Proof.
  intros Bk Rp Inc Nf H.
  assert (Cases : (exists p, x = Precompile p) \/ forall p, x <> Precompile p) by (destruct x; try (right; intros q Hq; discriminate Hq); left; eauto).
  destruct Cases as [[p ->]|Np].
  - cbn [Model.step reporting named net] in *. apply rbind_inv in H as ([r s2] & H1 & H2). injection H2 as <- <-.
    apply (precompile_books moves s D p r s2); auto. congruence.
  - destruct Bk as [Ag Cl Orp Out Sup]. destruct (step_moved moves s D x o s1 Ag Rp Np H) as [(M1 & [M2 M2'] & M3) Q].
    assert (Ec : cur s1 = cur s) by (unfold cur; rewrite M2, M2'; reflexivity).
    split; rewrite ?Ec; auto.
    + intros a Ea. rewrite (Q a Ea). rewrite Cl; [lia|]. apply M3. exact Ea.
    + intros a Na. destruct (Out a Na) as [X Y]. split; [|exact Y]. rewrite X.
      assert (net moves x a = 0); [|lia].
      destruct x; cbn [net named] in *; try reflexivity; try (destruct (N.eqb_spec a0 a) as [E|]; [exfalso; apply Na; subst a; apply Inc; left; reflexivity|reflexivity]).
      exfalso. apply (Np p). reflexivity.
Qed.

Lemma run_books moves ops : forall s D os s1, books s D -> Forall (reporting moves) ops -> incl (flat_map (named moves) ops) u -> none_failed os ->
  run s ops = Ok (os, s1) -> books s1 (fun a => D a + nets moves ops a).
Proof.
  induction ops as [|x ops IH]; intros s D os s1 Bk Rp Inc Nf H; cbn [Model.run] in H.
  - injection H as _ <-. destruct Bk as [Ag Cl Orp Out Sup]. split; auto.
    + eapply agrees_ext; [exact Ag|]. intro a. cbn. lia.
    + intros a Ea. cbn. rewrite Cl by exact Ea. lia.
    + intros a Na. cbn. destruct (Out a Na) as [X Y]. split; [lia|exact Y].
  - apply rbind_inv in H as ([o s2] & H1 & H2). apply rbind_inv in H2 as ([os2 s3] & H2 & H3). injection H3 as <- <-.
    inversion Rp; subst.
    assert (B2 : books s2 (fun a => D a + net moves x a)).
    { eapply step_books; [exact Bk|assumption| | |exact H1]; [intros z Hz; apply Inc; cbn; apply in_or_app; left; exact Hz|intros ->; apply Nf; left; reflexivity]. }
    assert (B3 : books s3 (fun a => D a + net moves x a + nets moves ops a)).
    { eapply IH; [exact B2|assumption| | |exact H2]; [intros z Hz; apply Inc; cbn; apply in_or_app; right; exact Hz|intro X; apply Nf; right; exact X]. }
    destruct B3 as [Ag Cl Orp Out Sup].
    assert (Eq : forall a, D a + nets moves (x :: ops) a = D a + net moves x a + nets moves ops a) by (intro a; cbn; unfold nets; lia).
    split; auto.
    + eapply agrees_ext; [exact Ag|]. intro a. apply Eq.
    + intros a Ea. rewrite Eq. apply Cl. exact Ea.
    + intros a Na. rewrite Eq. apply Out. exact Na.
Qed.
End From.

Lemma sum_nets moves ops u : NoDup u -> incl (flat_map (named moves) ops) u -> fold_right (fun a z => nets moves ops a + z) 0 u = nets_total moves ops.
Proof.
  intros Nd. induction ops as [|x ops IH]; intro Inc; cbn [nets nets_total fold_right].
  - clear. induction u as [|a l IH]; cbn; [reflexivity|exact IH].
  - rewrite (sum_add (net moves x) (nets moves ops)). rewrite IH by (intros z Hz; apply Inc; cbn; apply in_or_app; right; exact Hz). f_equal.
    assert (Ix : incl (named moves x) u) by (intros z Hz; apply Inc; cbn; apply in_or_app; left; exact Hz).
    assert (Zr : fold_right (fun (_ : addr) z => 0 + z) 0 u = 0) by (clear; induction u as [|a l IH]; cbn; [reflexivity|exact IH]).
    destruct x; cbn [net net_total named] in *; try exact Zr; try (apply sum_one; [exact Nd|apply Ix; left; reflexivity]).
    apply sum_reported; assumption.
Qed.

Theorem ledger_exact st lb moves ops os s s' :
  no_orphans st -> Forall (reporting moves) ops -> run (new_db st lb) ops = Ok (os, s) -> none_failed os -> commit keccak s = Ok s' ->
  (forall a, st_bal (d_ctx s') a = st_bal st a + nets moves ops a) /\
  st_supply (d_ctx s') = st_supply st + nets_total moves ops /\ no_orphans (d_ctx s').
Proof.
  intros Orp Rp R Nf C. set (u := nodup N.eq_dec (flat_map (named moves) ops)).
  assert (Nd : NoDup u) by apply NoDup_nodup.
  assert (Inc : incl (flat_map (named moves) ops) u) by (intros z Hz; apply nodup_In; exact Hz).
  assert (B0 : books st u (new_db st lb) (st_bal st)).
  { split; unfold cur; cbn; auto. split; cbn; [discriminate|auto|congruence]. }
  pose proof (run_books st u Nd moves ops _ _ os s B0 Rp Inc Nf R) as B1.
  unfold commit in C. fold (cur s) in C. apply rbind_inv in C as (c & Cw & E). injection E as <-. cbn [d_ctx with_commits with_ctx].
  destruct (books_commit st u Nd s _ c B1 Cw) as (A1 & A2 & A3). split; [exact A1|]. split; [|exact A2].
  rewrite (total_plus st c (nets moves ops) u A1), (sum_nets moves ops u Nd Inc) in A3. lia.
Qed.

(* what the contracts see at any moment *)
Theorem seen_exact st lb moves ops os s a o s1 :
  no_orphans st -> Forall (reporting moves) ops -> run (new_db st lb) ops = Ok (os, s) -> none_failed os ->
  step s (GetBalance a) = Ok (o, s1) -> o = OInt (st_bal st a + nets moves ops a).
Proof.
  intros Orp Rp R Nf H. set (u := nodup N.eq_dec (flat_map (named moves) ops)).
  assert (Nd : NoDup u) by apply NoDup_nodup.
  assert (Inc : incl (flat_map (named moves) ops) u) by (intros z Hz; apply nodup_In; exact Hz).
  assert (B0 : books st u (new_db st lb) (st_bal st)).
  { split; unfold cur; cbn; auto. split; cbn; [discriminate|auto|congruence]. }
  pose proof (run_books st u Nd moves ops _ _ os s B0 Rp Inc Nf R) as [Ag _ _ _ _].
  cbn [Model.step] in H. destruct (get_obj s a) as [r s2] eqn:G. injection H as <- <-.
  destruct (get_moved s _ a r s2 Ag G) as [(M1 & _ & _) M2]. destruct r as [ob|].
  - destruct (ag_obj _ _ M1 a ob M2) as [_ Bo]. rewrite Bo. reflexivity.
  - destruct M2 as [_ M2]. rewrite M2. reflexivity.
Qed.
End Keccak.
