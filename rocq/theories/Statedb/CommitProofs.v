(* What Commit writes is what the transaction ended with. *)
From Verif Require Import Lib.Base Lib.Bytes Lib.Amap Statedb.Model Statedb.Spec Statedb.Proofs Statedb.RevertProofs Statedb.SimProofs.
From Coq Require Import Sorted.
Open Scope Z_scope.

Ltac acc6 := split; [|split; [|split; [|split; [|split]]]].

Section Keccak.
Variable keccak : bytes -> word.
Notation get_obj := (get_obj keccak).
Notation see := (see keccak).
Notation see_obj := (see_obj keccak).
Notation step := (step keccak).
Notation run := (run keccak).
Notation sstep := (sstep keccak).
Notation srun := (srun keccak).
Notation good := (good keccak).
Notation db_ok := (db_ok keccak).
Notation ceq := (ceq keccak).
Notation inv := (inv keccak).
Notation pop := (pop keccak).
Notation pops := (pops keccak).
Notation revert_entry := (revert_entry keccak).

(* the chain's code table is keyed by hash, and holds the code of every contract *)
Record store_ok (st : store) : Prop := {
  so_hash : forall h c, st_code st h = Some c -> keccak c = h;
  so_code : forall a h, st_chash st a = Some h -> h <> keccak [] -> st_code st h <> None
}.

(* ---------- code held by objects ---------- *)

Definition oc (st : store) (h : word) (c : option bytes) (dirty : bool) : Prop :=
  match c with
  | Some b => keccak b = h /\ (dirty = false -> st_code st h = Some b)
  | None => h = keccak [] \/ st_code st h <> None
  end.
Definition obj_oc st o := oc st (a_hash (o_acct o)) (o_code o) (o_dirty_code o).
Definition ent_oc st e := match e with EReset _ p => obj_oc st p | ECode _ c h => oc st h c true | _ => True end.

Definition code_ok (s : sdb) : Prop :=
  (forall a o, aget (d_objs s) a = Some o -> obj_oc (d_ctx s) o) /\ Forall (ent_oc (d_ctx s)) (d_journal s).

Lemma oc_weaken st h c d : oc st h c d -> oc st h c true.
Proof. destruct c; cbn; [|auto]. intros [A B]. split; [exact A|discriminate]. Qed.

Lemma new_oc st a x : store_ok st -> k_account keccak st a = Some x -> obj_oc st (new_object x).
Proof.
  intros S H. unfold k_account in H. destruct (st_acct st a); [|discriminate]. injection H as <-. cbn. unfold k_code_hash.
  destruct (st_chash st a) as [h|] eqn:E; [|left; reflexivity]. destruct (N.eq_dec h (keccak [])) as [->|Ne]; [left; reflexivity|right; eapply so_code; eassumption].
Qed.

Lemma code_ok_set s a o : code_ok s -> obj_oc (d_ctx s) o -> code_ok (set_obj s a o).
Proof.
  intros [A B] H. split; [|exact B]. intros b ob. cbn. rewrite aget_aset. destruct (N.eqb a b); [intro E; injection E as <-; exact H|apply A].
Qed.
Lemma code_ok_jappend s e : code_ok s -> ent_oc (d_ctx s) e -> code_ok (jappend s e).
Proof. intros [A B] H. split; [exact A|]. constructor; assumption. Qed.

Lemma code_ok_get s a o s1 : store_ok (d_ctx s) -> get_obj s a = (o, s1) -> code_ok s -> code_ok s1.
Proof.
  intros S H C. unfold Model.get_obj in H. destruct (aget (d_objs s) a); [injection H as <- <-; exact C|].
  destruct (k_account keccak (d_ctx s) a) eqn:K; injection H as <- <-; [|exact C]. apply code_ok_set; [exact C|eapply new_oc; eassumption].
Qed.

Lemma blank_oc st : obj_oc st (blank_object keccak). Proof. left. reflexivity. Qed.

Lemma get_obj_ctx s a o s1 : get_obj s a = (o, s1) -> d_ctx s1 = d_ctx s /\ d_journal s1 = d_journal s /\ d_dirties s1 = d_dirties s.
Proof.
  unfold Model.get_obj. destruct (aget (d_objs s) a); [|destruct (k_account _ _ _)]; intro H; injection H as <- <-; auto.
Qed.

(* what is live stays live, unless the account is unknown to the chain *)
Definition keep (t s : sdb) : Prop :=
  forall a, aget (d_objs t) a <> None -> k_account keccak (d_ctx t) a <> None -> aget (d_objs s) a <> None.
Definition live (s : sdb) : Prop := forall a, aget (d_dirties s) a <> None -> aget (d_objs s) a <> None.

Lemma keep_refl s : keep s s. Proof. intros a H _. exact H. Qed.
Lemma keep_trans s t u : d_ctx t = d_ctx s -> keep s t -> keep t u -> keep s u.
Proof. intros E A B a H K. apply B; [apply A; assumption|rewrite E; exact K]. Qed.

(* changes to an address show in its dirty count *)
Definition tracked (s s' : sdb) (x : option addr) : Prop :=
  forall b, x <> Some b -> aget (d_dirties s') b = None -> aget (d_dirties s) b = None /\ oacc_eq (see s' b) (see s b).

Record okstep (s s' : sdb) (x : option addr) : Prop := {
  ks_ctx : d_ctx s' = d_ctx s;
  ks_code : code_ok s -> code_ok s';
  ks_live : live s -> live s';
  ks_keep : forall a, aget (d_objs s) a <> None -> aget (d_objs s') a <> None;
  ks_track : tracked s s' x;
  ks_cache : d_cache s' = d_cache s
}.

Lemma okstep_refl s : okstep s s None.
Proof. constructor; auto. intros b _ H. split; [exact H|apply oacc_refl]. Qed.
Lemma okstep_trans s t u x : okstep s t None -> okstep t u x -> okstep s u x.
Proof.
  intros A B. destruct A, B. constructor; auto; try congruence.
  intros b Hb H. destruct (ks_track1 b Hb H) as [H1 S1]. destruct (ks_track0 b ltac:(discriminate) H1) as [H2 S2].
  split; [exact H2|eapply oacc_trans; eassumption].
Qed.

Lemma okstep_get s a o s1 : store_ok (d_ctx s) -> db_ok s -> get_obj s a = (o, s1) -> okstep s s1 None.
Proof.
  intros S D H. pose proof (get_obj_ctx _ _ _ _ H) as (C & J & Di).
  pose proof (get_obj_good _ _ _ _ _ H D) as [_ Q].
  assert (M : forall b, aget (d_objs s) b <> None -> aget (d_objs s1) b <> None).
  { intros b Hb. unfold Model.get_obj in H. destruct (aget (d_objs s) a); [injection H as <- <-; exact Hb|].
    destruct (k_account _ _ _); injection H as <- <-; [|exact Hb]. cbn. rewrite aget_aset. destruct (N.eqb a b); [discriminate|exact Hb]. }
  constructor; auto.
  - intro K. eapply code_ok_get; eassumption.
  - intros L b Hb. apply M. apply L. rewrite <- Di. exact Hb.
  - intros b _ Hb. split; [rewrite <- Di; exact Hb|apply Q].
  - unfold Model.get_obj in H. destruct (aget (d_objs s) a); [|destruct (k_account _ _ _)]; injection H as <- <-; reflexivity.
Qed.

(* append an entry that dirties a and store an object at a *)
Lemma okstep_write s e a o : dirtied e = Some a -> ent_oc (d_ctx s) e -> (code_ok s -> obj_oc (d_ctx s) o) -> okstep s (set_obj (jappend s e) a o) None.
Proof.
  intros E Ee Ho. constructor; auto.
  - intro K. apply code_ok_set; [apply code_ok_jappend; assumption|apply Ho; exact K].
  - intros L b. cbn. rewrite E, !aget_aset. destruct (N.eqb a b); [discriminate|]. apply L.
  - intros b Hb. cbn. rewrite aget_aset. destruct (N.eqb a b); [discriminate|exact Hb].
  - intros b _. cbn. rewrite E, aget_aset. destruct (N.eqb_spec a b) as [|Ne]; [discriminate|]. intro Hb. split; [exact Hb|].
    rewrite see_set_jappend, see_set. destruct (N.eqb_spec a b); [contradiction|apply oacc_refl].
Qed.

Lemma okstep_new s a o s1 : store_ok (d_ctx s) -> db_ok s -> get_or_new keccak s a = (o, s1) -> okstep s s1 None.
Proof.
  intros S D H. unfold get_or_new in H. destruct (get_obj s a) as [[ob|] s0] eqn:G.
  - injection H as <- <-. eapply okstep_get; eassumption.
  - apply get_obj_spec in G; [|apply D]. destruct G as (_ & _ & _ & _ & -> & A & K).
    unfold create_object, Model.get_obj in H. rewrite A, K in H. injection H as <- <-.
    apply okstep_write; [reflexivity|exact I|]. intros _. apply blank_oc.
Qed.

Lemma gon_live s a o s1 : db_ok s -> get_or_new keccak s a = (o, s1) -> aget (d_objs s1) a = Some o.
Proof. intros D G. apply get_or_new_good in G; [|exact D]. tauto. Qed.

Lemma okstep_balance s a o v : aget (d_objs s) a = Some o -> okstep s (set_balance s a o v) None.
Proof. intro A. apply okstep_write; [reflexivity|exact I|]. intros [K _]. exact (K a o A). Qed.

Lemma okstep_add s a v : store_ok (d_ctx s) -> db_ok s -> okstep s (add_balance keccak s a v) None.
Proof.
  intros S D. unfold add_balance. destruct (get_or_new keccak s a) as [o s1] eqn:G. pose proof (okstep_new _ _ _ _ S D G) as K.
  destruct (v =? 0); [exact K|]. eapply okstep_trans; [exact K|]. apply okstep_balance. eapply gon_live; eassumption.
Qed.
Lemma okstep_sub s a v : store_ok (d_ctx s) -> db_ok s -> okstep s (sub_balance keccak s a v) None.
Proof.
  intros S D. unfold sub_balance. destruct (get_or_new keccak s a) as [o s1] eqn:G. pose proof (okstep_new _ _ _ _ S D G) as K.
  destruct (v =? 0); [exact K|]. eapply okstep_trans; [exact K|]. apply okstep_balance. eapply gon_live; eassumption.
Qed.
Lemma okstep_nonce s a v : store_ok (d_ctx s) -> db_ok s -> okstep s (set_nonce keccak s a v) None.
Proof.
  intros S D. unfold set_nonce. destruct (get_or_new keccak s a) as [o s1] eqn:G. pose proof (okstep_new _ _ _ _ S D G) as K.
  eapply okstep_trans; [exact K|]. apply okstep_write; [reflexivity|exact I|]. intros [Kc _]. exact (Kc a o (gon_live _ _ _ _ D G)).
Qed.

Lemma obj_code_oc st o c o1 : store_ok st -> obj_oc st o -> obj_code keccak st o = (c, o1) ->
  obj_oc st o1 /\ oc st (a_hash (o_acct o1)) c true.
Proof.
  intros S H E. unfold obj_code, empty_hash in E. unfold obj_oc in H. destruct (o_code o) as [b|] eqn:Eb.
  - injection E as <- <-. unfold obj_oc. rewrite Eb. split; [exact H|]. eapply oc_weaken. exact H.
  - destruct (N.eqb_spec (a_hash (o_acct o)) (keccak [])) as [Eh|Eh].
    + injection E as <- <-. unfold obj_oc. rewrite Eb. split; [exact H|left; exact Eh].
    + cbn in H. destruct H as [H|H]; [contradiction|]. injection E as <- <-. unfold obj_oc. cbn. unfold k_code.
      destruct (st_code st (a_hash (o_acct o))) as [b|] eqn:Ec; [|congruence]. cbn.
      split; (split; [eapply so_hash; eassumption|auto]); discriminate.
Qed.

Lemma okstep_code s a c : store_ok (d_ctx s) -> db_ok s -> code_ok s -> okstep s (set_code keccak s a c) None.
Proof.
  intros S D Kc. unfold set_code. destruct (get_or_new keccak s a) as [o s1] eqn:G. pose proof (okstep_new _ _ _ _ S D G) as K.
  pose proof (gon_live _ _ _ _ D G) as A. pose proof (ks_code _ _ _ K Kc) as [Ko _]. specialize (Ko a o A).
  destruct (obj_code keccak (d_ctx s1) o) as [p o1] eqn:E. apply obj_code_oc in E; [|rewrite (ks_ctx _ _ _ K); exact S|exact Ko]. destruct E as [E1 E2].
  eapply okstep_trans; [exact K|]. apply okstep_write; [reflexivity|exact E2|].
  intros _. destruct c; cbn; [split; [reflexivity|discriminate]|left; reflexivity].
Qed.

Lemma okstep_cache s a o o1 : db_ok s -> aget (d_objs s) a = Some o -> obj_ok (d_ctx s) a o1 -> same_obj keccak (d_ctx s) a o1 o ->
  (code_ok s -> obj_oc (d_ctx s) o1) -> okstep s (set_obj s a o1) None.
Proof.
  intros D A K E Ho. destruct (good_cache keccak s a o o1 D A K E) as [G Q]. constructor; auto.
  - intro Kc. apply code_ok_set; [exact Kc|apply Ho; exact Kc].
  - intros L b Hb. cbn in *. rewrite aget_aset. destruct (N.eqb a b); [discriminate|apply L; exact Hb].
  - intros b Hb. cbn. rewrite aget_aset. destruct (N.eqb a b); [discriminate|exact Hb].
  - intros b _ Hb. split; [exact Hb|apply Q].
Qed.

Lemma okstep_state s a k v : store_ok (d_ctx s) -> db_ok s -> okstep s (set_state keccak s a k v) None.
Proof.
  intros S D. unfold set_state. destruct (get_or_new keccak s a) as [o s1] eqn:G. pose proof (okstep_new _ _ _ _ S D G) as K.
  pose proof G as G'. apply get_or_new_good in G'; [|exact D]. destruct G' as (Gd & A & Ko & _).
  destruct (obj_state (d_ctx s1) a o k) as [p o1] eqn:E. apply (obj_state_spec keccak) in E; [|exact Ko].
  destruct E as (E1 & E2 & E3 & E4 & E5 & E6 & K1 & E8).
  assert (Hc : code_ok s1 -> obj_oc (d_ctx s1) o1).
  { intros [Kc _]. unfold obj_oc. rewrite E2, E3, E6. apply (Kc a). exact A. }
  eapply okstep_trans; [exact K|]. destruct (N.eqb p v).
  - eapply okstep_cache; [apply Gd|exact A|exact K1|exact E8|exact Hc].
  - apply okstep_write; [reflexivity|exact I|]. exact Hc.
Qed.

Lemma okstep_suicide s a b s' : store_ok (d_ctx s) -> db_ok s -> suicide keccak s a = (b, s') -> okstep s s' None.
Proof.
  intros S D H. unfold suicide in H. destruct (get_obj s a) as [[o|] s1] eqn:G; injection H as <- <-.
  - pose proof (okstep_get _ _ _ _ S D G) as K. apply get_obj_spec in G; [|apply D]. destruct G as (_ & _ & _ & A & _).
    eapply okstep_trans; [exact K|]. apply okstep_write; [reflexivity|exact I|]. intros [Kc _]. exact (Kc a o A).
  - eapply okstep_get; eassumption.
Qed.

Lemma okstep_create s a : store_ok (d_ctx s) -> db_ok s -> code_ok s -> okstep s (create_account keccak s a) (Some a).
Proof.
  intros S D Kc. unfold create_account, create_object. destruct (get_obj s a) as [[o|] s1] eqn:G.
  - pose proof (okstep_get _ _ _ _ S D G) as K. apply get_obj_spec in G; [|apply D]. destruct G as (_ & _ & _ & A & _).
    eapply okstep_trans; [exact K|]. pose proof (ks_code _ _ _ K Kc) as Kc1.
    constructor; auto.
    + intro Kc2. apply code_ok_set; [|left; reflexivity]. apply code_ok_set; [|apply blank_oc]. apply code_ok_jappend; [exact Kc2|].
      apply (proj1 Kc2 a). exact A.
    + intros L b Hb. cbn in *. rewrite !aget_aset. destruct (N.eqb a b); [discriminate|]. apply L. exact Hb.
    + intros b Hb. cbn. rewrite !aget_aset. destruct (N.eqb a b); [discriminate|exact Hb].
    + intros b Nb Hb. split; [exact Hb|]. rewrite see_set, see_set_jappend, see_set.
      destruct (N.eqb_spec a b); [congruence|apply oacc_refl].
  - apply get_obj_spec in G; [|apply D]. destruct G as (_ & _ & _ & _ & -> & A & K).
    assert (W : okstep s (set_obj (jappend s (ECreate a)) a (blank_object keccak)) None)
      by (apply okstep_write; [reflexivity|exact I|intros _; apply blank_oc]).
    destruct W. constructor; auto. intros b _ Hb. apply ks_track0; [discriminate|exact Hb].
Qed.

(* steps that touch no account *)
Lemma okstep_other s s' : d_ctx s' = d_ctx s -> d_objs s' = d_objs s -> d_dirties s' = d_dirties s -> d_cache s' = d_cache s ->
  (code_ok s -> Forall (ent_oc (d_ctx s)) (d_journal s')) -> okstep s s' None.
Proof.
  intros A B C Ch J. constructor; auto.
  - intros Kc. split; [rewrite A, B; apply Kc|rewrite A; apply J; exact Kc].
  - intros L b. rewrite C, B. apply L.
  - intros b. rewrite B. auto.
  - intros b _ Hb. rewrite C in Hb. split; [exact Hb|]. rewrite (see_ext keccak s' s b) by assumption. apply oacc_refl.
Qed.

Definition creates (x : op) : option addr := match x with CreateAccount a => Some a | _ => None end.

Lemma okstep_step s x o s' : store_ok (d_ctx s) -> db_ok s -> code_ok s -> ordinary x -> no_precompile x -> step s x = Ok (o, s') ->
  okstep s s' (creates x).
Proof.
  intros S D Kc Or Np H.
  assert (Rd : forall a ob s1, get_obj s a = (ob, s1) -> okstep s s1 None) by (intros; eapply okstep_get; eassumption).
  assert (Jp : forall e, ent_oc (d_ctx s) e -> code_ok s -> Forall (ent_oc (d_ctx s)) (e :: d_journal s)) by (intros e E [_ J]; constructor; assumption).
  assert (RC : forall a c s1, read_code keccak s a = (c, s1) -> okstep s s1 None).
  { intros a c s1 E. unfold read_code in E. destruct (get_obj s a) as [[ob|] s2] eqn:G; [|injection E as <- <-; eauto].
    pose proof (Rd _ _ _ G) as K. pose proof (get_obj_good _ _ _ _ _ G D) as [Gd Q]. apply get_obj_spec in G; [|apply D].
    destruct G as (_ & _ & _ & A & _ & Ko). destruct (obj_code keccak (d_ctx s2) ob) as [c0 o1] eqn:C. injection E as <- <-.
    pose proof C as C'. apply obj_code_spec in C. destruct C as (C1 & C2 & C3 & C4 & C5 & C6 & C7 & C8).
    assert (K1 : obj_ok (d_ctx s2) a o1) by (intros k v; rewrite C2, (g_ctx _ _ _ Gd); apply Ko).
    eapply okstep_trans; [exact K|]. eapply okstep_cache; [apply Gd|exact A|exact K1| |].
    - acc6; cbn; try congruence. intro k. apply slot_of_ext; assumption.
    - intros [Kc2 _]. apply obj_code_oc in C'; [apply C'|rewrite (ks_ctx _ _ _ K); exact S|]. apply (Kc2 a). exact A. }
  destruct x; try contradiction; cbn [Model.step creates] in *;
    try (destruct (get_obj s a) as [ob s1] eqn:G; injection H as <- <-; eapply Rd; exact G);
    try (destruct (read_code keccak s a) as [c s1] eqn:G; injection H as <- <-; eapply RC; exact G);
    try (injection H as <- <-; first [apply okstep_refl|apply okstep_add|apply okstep_sub|apply okstep_nonce|apply okstep_code|apply okstep_state|apply okstep_create]; assumption).
  - destruct (get_obj s a) as [[ob|] s1] eqn:G; [|injection H as <- <-; eapply Rd; exact G].
    pose proof (Rd _ _ _ G) as K. pose proof (get_obj_good _ _ _ _ _ G D) as [Gd Q]. apply get_obj_spec in G; [|apply D].
    destruct G as (_ & _ & _ & A & _ & Ko). rewrite <- (g_ctx _ _ _ Gd) in Ko.
    destruct (obj_state (d_ctx s1) a ob k) as [v o1] eqn:E. injection H as <- <-. apply (obj_state_spec keccak) in E; [|exact Ko].
    destruct E as (E1 & E2 & E3 & E4 & E5 & E6 & K1 & E8). eapply okstep_trans; [exact K|].
    eapply okstep_cache; [apply Gd|exact A|exact K1|exact E8|]. intros [Kc2 _]. unfold obj_oc. rewrite E2, E3, E6. apply (Kc2 a). exact A.
  - destruct (get_obj s a) as [[ob|] s1] eqn:G; [|injection H as <- <-; eapply Rd; exact G].
    pose proof (Rd _ _ _ G) as K. pose proof (get_obj_good _ _ _ _ _ G D) as [Gd Q]. apply get_obj_spec in G; [|apply D].
    destruct G as (_ & _ & _ & A & _ & Ko). rewrite <- (g_ctx _ _ _ Gd) in Ko.
    destruct (obj_committed (d_ctx s1) a ob k) as [v o1] eqn:E. injection H as <- <-. apply (obj_committed_spec keccak) in E; [|exact Ko].
    destruct E as (E1 & E2 & E3 & E4 & E5 & E6 & K1 & E8). eapply okstep_trans; [exact K|].
    eapply okstep_cache; [apply Gd|exact A|exact K1|exact E8|]. intros [Kc2 _]. unfold obj_oc. rewrite E2, E3, E6. apply (Kc2 a). exact A.
  - destruct (suicide keccak s a) as [b s1] eqn:G. injection H as <- <-. eapply okstep_suicide; eassumption.
  - injection H as <- <-. apply okstep_other; try reflexivity. apply Jp. exact I.
  - injection H as <- <-. apply okstep_other; try reflexivity. apply Jp. exact I.
  - apply rbind_inv in H as (s1 & H & H'). injection H' as <- <-. unfold sub_refund in H. revert H. destruct (_ <? g)%N; [discriminate|].
    intro H. injection H as <-. apply okstep_other; try reflexivity. apply Jp. exact I.
  - injection H as <- <-. unfold add_address. destruct (al_add_address (d_al s) a) as [al []]; apply okstep_other; try reflexivity; [apply Jp; exact I|intros [_ J]; exact J].
  - apply rbind_inv in H as (s1 & H & H'). injection H' as <- <-. unfold add_slot in H. apply rbind_inv in H as ([al [am sm]] & H & H').
    injection H' as <-. destruct am, sm; apply okstep_other; try reflexivity; intros [_ J]; cbn; repeat constructor; exact J.
  - apply rbind_inv in H as ([b c] & H & H'). injection H' as <- <-. apply okstep_refl.
Qed.

(* ---------- undoing ---------- *)

Lemma with_live_code s a f s' : store_ok (d_ctx s) -> with_live keccak s a f = Ok s' -> code_ok s ->
  (forall o, obj_oc (d_ctx s) o -> obj_oc (d_ctx s) (f o)) -> code_ok s' /\ (forall b, aget (d_objs s) b <> None -> aget (d_objs s') b <> None).
Proof.
  intros S H Kc F. unfold with_live in H. destruct (get_obj s a) as [[o|] s1] eqn:G; [|discriminate]. injection H as <-.
  pose proof (get_obj_ctx _ _ _ _ G) as (C & _). pose proof (code_ok_get _ _ _ _ S G Kc) as K1.
  unfold Model.get_obj in G. destruct (aget (d_objs s) a) as [ob|] eqn:A.
  - injection G as <- <-. split; [apply code_ok_set; [exact Kc|]; apply F, (proj1 Kc a), A|]. intros b Hb. cbn. rewrite aget_aset. destruct (N.eqb a b); [discriminate|exact Hb].
  - destruct (k_account keccak (d_ctx s) a) eqn:K; [|discriminate]. injection G as <- <-.
    split; [apply code_ok_set; [exact K1|]; cbn; apply F; eapply new_oc; eassumption|].
    intros b Hb. cbn. rewrite !aget_aset. destruct (N.eqb a b); [discriminate|exact Hb].
Qed.

Lemma revert_entry_code s e s' : store_ok (d_ctx s) -> entry_ok keccak (d_ctx s) e -> ent_oc (d_ctx s) e -> revert_entry s e = Ok s' -> code_ok s ->
  code_ok s' /\ keep s s'.
Proof.
  intros S Eo Ec H Kc.
  assert (W : forall f a, with_live keccak s a f = Ok s' -> (forall o, obj_oc (d_ctx s) o -> obj_oc (d_ctx s) (f o)) -> code_ok s' /\ keep s s').
  { intros f a E F. destruct (with_live_code _ _ _ _ S E Kc F) as [A B]. split; [exact A|]. intros b Hb _. apply B. exact Hb. }
  destruct e; cbn [Model.revert_entry] in H;
    try (injection H as <-; split; [exact Kc|intros b Hb _; exact Hb]);
    try (eapply W; [exact H|]; intros ob Ho; exact Ho).
  - injection H as <-. split.
    + split; [|apply Kc]. intros b ob. cbn. rewrite aget_adel. destruct (N.eqb a b); [discriminate|]. apply (proj1 Kc).
    + intros b Hb Kb. cbn. rewrite aget_adel. destruct (N.eqb_spec a b) as [<-|]; [|exact Hb]. exfalso. apply Kb. exact Eo.
  - injection H as <-. split; [apply code_ok_set; assumption|]. intros b Hb _. cbn. rewrite aget_aset. destruct (N.eqb a b); [discriminate|exact Hb].
  - destruct (get_obj s a) as [[ob|] s1] eqn:G.
    + apply (W (fun o => obj_set_balance (obj_set_suicided o prev) prevbal) a); [unfold with_live; rewrite G; exact H|]. intros o Ho. exact Ho.
    + injection H as <-. unfold Model.get_obj in G. destruct (aget (d_objs s) a); [discriminate|]. destruct (k_account _ _ _); [discriminate|]. injection G as <-.
      split; [exact Kc|apply keep_refl].
  - eapply W; [exact H|]. intros ob Ho. exact Ec.
  - revert H. destruct (d_logs s); [discriminate|]. intro H; injection H as <-. split; [exact Kc|intros b Hb _; exact Hb].
  - revert H. destruct (al_delete_slot _ _ _); try discriminate. intro H; injection H as <-. split; [exact Kc|intros b Hb _; exact Hb].
Qed.

Lemma pops_code n : forall s s', store_ok (d_ctx s) -> Forall (entry_ok keccak (d_ctx s)) (d_journal s) -> pops n s = Ok s' -> code_ok s -> code_ok s' /\ keep s s'.
Proof.
  induction n as [|n IH]; intros s s' S F H Kc; [injection H as <-; split; [exact Kc|apply keep_refl]|].
  cbn [Model.pops] in H. apply rbind_inv in H as (s1 & H1 & H2). pose proof (pop_ctx _ _ _ H1) as (C & _ & _ & _ & J).
  assert (P : code_ok s1 /\ keep s s1).
  { unfold Model.pop in H1. destruct (d_journal s) as [|e j] eqn:Ej; [injection H1 as <-; split; [exact Kc|apply keep_refl]|].
    apply rbind_inv in H1 as (s0 & R0 & R1). injection R1 as <-. pose proof (proj2 Kc) as Fe. rewrite Ej in Fe.
    destruct (revert_entry_code s e s0 S (Forall_inv F) (Forall_inv Fe) R0 Kc) as [K0 Ke].
    split; [|exact Ke]. split; [apply K0|]. cbn in *. rewrite C. eapply Forall_inv_tail. exact Fe. }
  destruct P as [K1 Ke]. assert (S1 : store_ok (d_ctx s1)) by (rewrite C; exact S).
  assert (F1 : Forall (entry_ok keccak (d_ctx s1)) (d_journal s1)).
  { rewrite C, J. destruct (d_journal s); [constructor|]. eapply Forall_inv_tail. exact F. }
  destruct (IH s1 s' S1 F1 H2 K1) as [K2 Ke2]. split; [exact K2|]. eapply keep_trans; eassumption.
Qed.

(* ---------- the invariant of a transaction without precompile calls ---------- *)

Definition dirty_or_same (s : sdb) (made : list addr) : Prop :=
  forall a, ~ In a made -> aget (d_dirties s) a = None -> oacc_eq (see s a) (see (new_db (d_ctx s) 0) a).

Record cinv (s : sdb) (ts : list sdb) (made : list addr) : Prop := {
  c_inv : inv s ts;
  c_store : store_ok (d_ctx s);
  c_code : code_ok s;
  c_live : live s;
  c_same : dirty_or_same s made;
  c_cache : cache_of s = d_ctx s;
  c_past : Forall (fun t => live t /\ dirty_or_same t made /\ keep t s /\ cache_of t = d_ctx t) ts
}.

Lemma same_mono s m m' : incl m m' -> dirty_or_same s m -> dirty_or_same s m'.
Proof. intros I H a Ha. apply H. intro X. apply Ha. apply I. exact X. Qed.

Definition created (ops : list op) : list addr := flat_map (fun x => match x with CreateAccount a => [a] | _ => [] end) ops.

Lemma cinv_new st lb : store_ok st -> cinv (new_db st lb) [] [].
Proof.
  intro S. constructor; auto.
  - apply inv_new.
  - split; [intros a o H; discriminate|constructor].
  - intros a H. cbn in H. congruence.
  - intros a _ _. rewrite (see_ext keccak (new_db st lb) (new_db st 0) a) by reflexivity. apply oacc_refl.
Qed.

Lemma cinv_step s ts made x o s' : cinv s ts made -> no_precompile x -> step s x = Ok (o, s') -> exists ts', cinv s' ts' (created [x] ++ made).
Proof.
  intros [I S Kc L Sm Ch P] Np H. pose proof (i_ok _ _ _ I) as D.
  assert (Ord : ordinary x -> exists ts', cinv s' ts' (created [x] ++ made)).
  { intro Or. pose proof (okstep_step s x o s' S D Kc Or Np H) as K.
    assert (G : good s s') by (eapply step_good; [exact D|exact Or| | |exact H];
      [destruct x; exact Logic.I || contradiction|
       destruct x; try contradiction; cbn [Model.step] in H; intro X; subst o;
       repeat match type of H with context [get_obj ?s ?a] => destruct (get_obj s a) as [[?|] ?] end;
       repeat match type of H with
         | context [obj_state ?a ?b ?c ?d] => destruct (obj_state a b c d)
         | context [obj_committed ?a ?b ?c ?d] => destruct (obj_committed a b c d)
         | context [read_code ?a ?b ?c] => destruct (read_code a b c)
         | context [suicide ?a ?b ?c] => destruct (suicide a b c)
         | context [sub_refund ?a ?b] => destruct (sub_refund a b)
         | context [add_slot ?a ?b ?c] => destruct (add_slot a b c)
         | context [al_contains ?a ?b ?c] => destruct (al_contains a b c) as [[? ?]| |]
         end; try discriminate]).
    exists ts. constructor.
    - eapply inv_good; eassumption.
    - rewrite (ks_ctx _ _ _ K). exact S.
    - apply (ks_code _ _ _ K Kc).
    - apply (ks_live _ _ _ K L).
    - intros a Ha Hd. assert (Na : creates x <> Some a).
      { destruct x; cbn; try discriminate. intro E; injection E as ->. apply Ha. left. reflexivity. }
      destruct (ks_track _ _ _ K a Na Hd) as [Hd' Se]. eapply oacc_trans; [exact Se|]. rewrite (ks_ctx _ _ _ K). apply Sm; [|exact Hd'].
      intro X. apply Ha. apply in_or_app. right. exact X.
    - unfold cache_of in *. rewrite (ks_cache _ _ _ K), (ks_ctx _ _ _ K). exact Ch.
    - assert (F : Forall (fun t => d_ctx t = d_ctx s) ts).
      { clear -I. destruct I as [_ R _ _]. induction R as [|r t l l' (_ & _ & _ & C & _)]; constructor; auto. }
      rewrite Forall_forall in *. intros t Ht. destruct (P t Ht) as (P1 & P2 & P3 & P4). split; [exact P1|]. split; [|split; [|exact P4]].
      + eapply same_mono; [|exact P2]. intros z Hz. apply in_or_app. right. exact Hz.
      + intros b Hb Kb. apply (ks_keep _ _ _ K). apply P3; assumption. }
  destruct x; try (apply Ord; exact Logic.I); clear Ord.
  - cbn [Model.step] in H. destruct (snapshot s) as [id s1] eqn:E. injection H as <- <-. destruct (inv_snapshot _ _ _ _ _ I E) as [-> I'].
    unfold snapshot in E. injection E as <-. exists (ts ++ [s]). cbn [created flat_map app]. constructor; auto.
    + intros a Ha Hd. rewrite (see_ext keccak _ s a) by reflexivity. apply Sm; assumption.
    + apply Forall_app. split; [exact P|]. constructor; [|constructor]. split; [exact L|]. split; [exact Sm|]. split; [intros b Hb _; exact Hb|exact Ch].
  - cbn [Model.step] in H. pose proof (revert_spec keccak s ts id I) as R.
    unfold revert_to_snapshot in H, R. destruct (nth_error (d_revs s) (search_rev (d_revs s) id)) as [[i0 n]|] eqn:E; [|discriminate].
    destruct (negb (N.eqb i0 id)); [discriminate|]. unfold jrevert in *.
    destruct (pops (length (d_journal s) - n) s) as [s0| |] eqn:Pn; try discriminate. cbn [rbind] in *. injection H as <- <-.
    destruct R as (i & m & t & _ & Et & Q & I' & _ & _).
    destruct (pops_code _ _ _ S (ro_journal _ _ (proj2 D)) Pn Kc) as [K0 Ke]. destruct (pops_ctx _ _ _ _ Pn) as (C0 & _).
    set (s1 := with_revs s0 (firstn (search_rev (d_revs s) id) (d_revs s0)) (d_next s0)) in *.
    pose proof P as Pall. rewrite Forall_forall in P. destruct (P t (nth_error_In _ _ Et)) as (P1 & P2 & P3 & P4).
    assert (Ct : d_ctx t = d_ctx s) by (rewrite <- (q_ctx _ _ _ Q); exact C0).
    exists (firstn i ts). cbn [created flat_map app]. constructor.
    + exact I'.
    + change (d_ctx s1) with (d_ctx s0). rewrite C0. exact S.
    + exact K0.
    + intros a Ha. rewrite (q_dirties _ _ _ Q) in Ha. pose proof (P1 a Ha) as La.
      destruct (k_account keccak (d_ctx s) a) eqn:Ka.
      * change (d_objs s1) with (d_objs s0). apply Ke; [|congruence]. apply P3; [exact La|congruence].
      * pose proof (q_see _ _ _ Q a) as Se. destruct (aget (d_objs t) a) eqn:At; [|congruence]. rewrite (see_live keccak t a _ At) in Se.
        intro X. rewrite (see_absent keccak s1 a X) in Se. change (d_ctx s1) with (d_ctx s0) in Se. rewrite C0, Ka in Se. exact Se.
    + intros a Ha Hd. rewrite (q_dirties _ _ _ Q) in Hd. eapply oacc_trans; [apply Q|].
      change (d_ctx s1) with (d_ctx s0). rewrite C0, <- Ct. apply P2; assumption.
    + rewrite (q_cache _ _ _ Q), (q_ctx _ _ _ Q). exact P4.
    + rewrite Forall_forall. intros u Hu. assert (Iu : In u ts) by (rewrite <- (firstn_skipn i ts); apply in_or_app; left; exact Hu).
      destruct (P u Iu) as (U1 & U2 & U3 & U4). split; [exact U1|]. split; [exact U2|]. split; [|exact U4].
      assert (Cu : d_ctx u = d_ctx s).
      { destruct (In_nth_error _ _ Iu) as (j & Ej). pose proof (i_revs _ _ _ I) as Rv. clear -Rv Ej.
        revert j Ej. induction Rv as [|r t l l' (_ & _ & _ & C & _) F IH]; intros [|j] E; try discriminate; [injection E as <-; exact C|eapply IH; exact E]. }
      intros b Hb Kb. change (d_objs s1) with (d_objs s0). apply Ke; [apply U3; assumption|]. congruence.
Qed.

Lemma created_app l1 l2 : created (l1 ++ l2) = created l1 ++ created l2.
Proof. apply flat_map_app. Qed.

Lemma cinv_made s ts m m' : incl m m' -> cinv s ts m -> cinv s ts m'.
Proof.
  intros H []. constructor; auto; [eapply same_mono; eassumption|].
  eapply Forall_impl; [|exact c_past0]. intros t (A & B & C & D). repeat split; auto. eapply same_mono; eassumption.
Qed.

Lemma cinv_run ops : forall s ts made os s', cinv s ts made -> Forall no_precompile ops -> run s ops = Ok (os, s') ->
  exists ts', cinv s' ts' (created ops ++ made).
Proof.
  induction ops as [|x ops IH]; intros s ts made os s' C F H; cbn [Model.run] in H; [injection H as <- <-; eauto|].
  apply rbind_inv in H as ([o s1] & H1 & H2). apply rbind_inv in H2 as ([os1 s2] & H2 & H3). injection H3 as <- <-.
  destruct (cinv_step _ _ _ _ _ _ C (Forall_inv F) H1) as (ts1 & C1).
  destruct (IH _ _ _ _ _ C1 (Forall_inv_tail F) H2) as (ts2 & C2). exists ts2.
  eapply cinv_made; [|exact C2]. change (x :: ops) with ([x] ++ ops). rewrite created_app.
  intros z. rewrite !in_app_iff. tauto.
Qed.

(* ---------- writing one account ---------- *)

Definition same_at (st0 st : store) (a : addr) : Prop :=
  st_acct st a = st_acct st0 a /\ st_bal st a = st_bal st0 a /\ st_chash st a = st_chash st0 a /\ st_stor st a = st_stor st0 a.

Definition done_at (o : obj) (st0 st : store) (a : addr) : Prop :=
  if o_suicided o then st_acct st a = None /\ (st_acct st0 a <> None -> st_bal st a = 0 /\ st_chash st a = None /\ forall k, st_stor st a k = None)
  else st_acct st a = Some (a_nonce (o_acct o)) /\ st_bal st a = a_bal (o_acct o) /\ k_code_hash keccak st a = a_hash (o_acct o) /\
       (forall k, k_state st a k = match aget (o_dirty o) k with Some v => v | None => k_state st0 a k end) /\
       (forall c, o_code o = Some c -> o_dirty_code o = true -> c <> [] -> st_code st (a_hash (o_acct o)) = Some c).

Definition table (st0 st : store) : Prop :=
  (forall h c, st_code st h = Some c -> keccak c = h) /\
  (forall h c, h <> keccak [] -> st_code st0 h = Some c -> st_code st h = Some c).

Lemma same_at_refl st a : same_at st st a. Proof. repeat split. Qed.
Lemma same_at_trans st st1 st2 a : same_at st st1 a -> same_at st1 st2 a -> same_at st st2 a.
Proof. intros (A & B & C & D) (A' & B' & C' & D'). repeat split; congruence. Qed.
Lemma table_refl st : store_ok st -> table st st. Proof. intros []. split; auto. Qed.

(* supply minus the balances listed *)
Fixpoint total (st : store) (l : list addr) : Z := match l with [] => 0 | a :: l' => st_bal st a + total st l' end.

Lemma total_other st st1 a l : (forall b, b <> a -> st_bal st1 b = st_bal st b) -> ~ In a l -> total st1 l = total st l.
Proof.
  intro H. induction l as [|b l IH]; cbn; [reflexivity|]. intro N0. rewrite H, IH; [reflexivity| |]; intro X; apply N0; auto.
Qed.
Lemma total_one st st1 a l : (forall b, b <> a -> st_bal st1 b = st_bal st b) -> NoDup l -> In a l ->
  total st1 l - total st l = st_bal st1 a - st_bal st a.
Proof.
  intros H. induction 1 as [|b l N0 Nd IH]; cbn; [contradiction|]. intros [->|I0].
  - rewrite (total_other st st1 a l H N0). lia.
  - assert (b <> a) by (intros ->; contradiction). rewrite H by assumption. specialize (IH I0). lia.
Qed.

Lemma set_balance_spec st a v st1 : k_set_balance st a v = Ok st1 ->
  st_bal st1 a = v /\ (forall b, b <> a -> st_bal st1 b = st_bal st b) /\ st_supply st1 - st_supply st = st_bal st1 a - st_bal st a /\
  st_acct st1 = st_acct st /\ st_chash st1 = st_chash st /\ st_code st1 = st_code st /\ st_stor st1 = st_stor st.
Proof.
  unfold k_set_balance. intro H.
  assert (U : st_bal (with_bal st (upd (st_bal st) a v) (st_supply st + (v - st_bal st a))) a = v /\
    (forall b, b <> a -> st_bal (with_bal st (upd (st_bal st) a v) (st_supply st + (v - st_bal st a))) b = st_bal st b)).
  { cbn. unfold upd. rewrite N.eqb_refl. split; [reflexivity|]. intros b Hb. destruct (N.eqb_spec b a); [contradiction|reflexivity]. }
  destruct U as [U1 U2]. destruct (Z.ltb_spec 0 (v - st_bal st a)).
  - destruct (st_blocked st a); [discriminate|]. injection H as <-. split; [exact U1|]. split; [exact U2|]. split; [rewrite U1; cbn; lia|auto].
  - destruct (Z.ltb_spec (v - st_bal st a) 0).
    + destruct (_ <? _); [discriminate|]. injection H as <-. split; [exact U1|]. split; [exact U2|]. split; [rewrite U1; cbn; lia|auto].
    + injection H as <-. split; [lia|]. split; [auto|]. split; [lia|auto].
Qed.

Lemma upd_same {A} (f : N -> A) k v : upd f k v k = v. Proof. unfold upd. rewrite N.eqb_refl. reflexivity. Qed.
Lemma upd_other {A} (f : N -> A) k v x : x <> k -> upd f k v x = f x.
Proof. intro H. unfold upd. destruct (N.eqb_spec x k); [contradiction|reflexivity]. Qed.

Lemma set_account_spec st a x st1 : k_set_account keccak st a x = Ok st1 ->
  st_acct st1 a = Some (a_nonce x) /\ st_bal st1 a = a_bal x /\ k_code_hash keccak st1 a = a_hash x /\
  st_stor st1 = st_stor st /\ st_code st1 = st_code st /\ (forall b, b <> a -> same_at st st1 b) /\
  st_supply st1 - st_supply st = st_bal st1 a - st_bal st a.
Proof.
  unfold k_set_account. intro H.
  set (st2 := if N.eqb (a_hash x) (empty_hash keccak) then with_chash st (upd (st_chash st) a None) else with_chash st (upd (st_chash st) a (Some (a_hash x)))) in *.
  apply set_balance_spec in H. destruct H as (A & B & C & D & E & F & G).
  assert (S2 : st_acct st2 = st_acct st /\ st_bal st2 = st_bal st /\ st_stor st2 = st_stor st /\ st_code st2 = st_code st /\ st_supply st2 = st_supply st /\
    k_code_hash keccak st2 a = a_hash x /\ (forall b, b <> a -> st_chash st2 b = st_chash st b)).
  { unfold st2, k_code_hash, empty_hash. destruct (N.eqb_spec (a_hash x) (keccak [])) as [Eh|]; cbn; rewrite upd_same; repeat split; auto; intros; apply upd_other; assumption. }
  destruct S2 as (S1 & S2 & S3 & S4 & S5 & S6 & S7). cbn in *.
  rewrite D, upd_same. split; [reflexivity|]. split; [exact A|]. split; [unfold k_code_hash in *; rewrite E; exact S6|].
  split; [congruence|]. split; [congruence|]. split; [|rewrite S5, S2 in C; exact C].
  intros b Hb. split; [rewrite D, upd_other by exact Hb; congruence|]. split; [rewrite B by exact Hb; congruence|]. split; [rewrite E; auto|congruence].
Qed.

Lemma commit_slots_spec ks : forall st a o st1, commit_slots st a o ks = st1 ->
  ((forall k v, aget (o_dirty o) k = Some v -> In k ks \/ k_state st a k = v -> k_state st1 a k = v) /\
   (forall k, aget (o_dirty o) k = None -> k_state st1 a k = k_state st a k)) /\
  st_acct st1 = st_acct st /\ st_bal st1 = st_bal st /\ st_chash st1 = st_chash st /\ st_code st1 = st_code st /\ st_supply st1 = st_supply st /\
  (forall b, b <> a -> st_stor st1 b = st_stor st b).
Proof.
  induction ks as [|k ks IH]; intros st a o st1 H.
  - cbn in H. subst st1. split; [|auto 10]. split; [|reflexivity]. intros k v _ [[]|E]. exact E.
  - cbn [commit_slots fold_left] in H. fold (commit_slots (match aget (o_dirty o) k with Some v => k_set_state st a k v | None => st end) a o ks) in H.
    apply IH in H. destruct H as ((A1 & A2) & B & C & D & E & F & G). destruct (aget (o_dirty o) k) as [v|] eqn:Ek.
    + assert (Ks : forall k2, k_state (k_set_state st a k v) a k2 = if N.eqb k2 k then v else k_state st a k2).
      { intro k2. unfold k_state, k_set_state, with_stor. cbn [st_stor]. rewrite upd_same. unfold upd. destruct (N.eqb k2 k); reflexivity. }
      split; [split|split; [rewrite B; reflexivity|split; [rewrite C; reflexivity|split; [rewrite D; reflexivity|split; [rewrite E; reflexivity|split; [rewrite F; reflexivity|]]]]]].
      * intros k2 v2 E2 Hin. apply A1; [exact E2|]. rewrite Ks. destruct (N.eqb_spec k2 k) as [->|Ne]; [right; congruence|].
        destruct Hin as [[X|X]|X]; [congruence|left; exact X|right; exact X].
      * intros k2 E2. rewrite A2 by exact E2. rewrite Ks. destruct (N.eqb_spec k2 k) as [->|]; [congruence|reflexivity].
      * intros b Hb. rewrite G by exact Hb. unfold k_set_state, with_stor. cbn [st_stor]. apply upd_other. exact Hb.
    + split; [|auto 10]. split; [|exact A2]. intros k2 v2 E2 Hin. apply A1; [exact E2|]. destruct Hin as [[X|X]|X]; [congruence|left; exact X|right; exact X].
Qed.

Hypothesis keccak_inj : forall x y, keccak x = keccak y -> x = y.

Lemma commit_obj_spec st0 st a o st1 : table st0 st -> obj_oc st0 o -> (same_at st0 st a \/ done_at o st0 st a) ->
  commit_obj keccak st a o = Ok st1 ->
  done_at o st0 st1 a /\ (forall b, b <> a -> same_at st st1 b) /\ table st0 st1 /\
  (forall h c, h <> keccak [] -> st_code st h = Some c -> st_code st1 h = Some c) /\
  st_supply st1 - st_supply st = st_bal st1 a - st_bal st a.
Proof.
  intros [T1 T2] Oc Pre H. unfold commit_obj in H. unfold done_at in *. destruct (o_suicided o).
  - unfold k_delete_account in H. destruct (st_acct st a) eqn:Ea.
    + destruct (st_chash st a) eqn:Ec; [|discriminate]. apply rbind_inv in H as (st2 & H1 & H2). injection H2 as <-.
      apply set_balance_spec in H1. destruct H1 as (A & B & C & D & E & F & G). cbn.
      split; [rewrite !upd_same; split; [reflexivity|intros _; split; [exact A|split; [reflexivity|intro k; reflexivity]]]|]. split; [|split; [|split; [rewrite F; auto|exact C]]].
      * intros b Hb. unfold same_at. cbn. rewrite !upd_other by exact Hb. rewrite D, E, G. auto.
      * split; cbn; rewrite F; [exact T1|exact T2].
    + injection H as <-. split; [|].
      { destruct Pre as [Pre|Pre]; [|split; [exact Ea|apply Pre]]. split; [exact Ea|]. intro X. destruct Pre as (P & _). rewrite <- P in X. congruence. }
      split; [intros; apply same_at_refl|]. split; [split; assumption|]. split; [auto|lia].
  - set (st2 := match o_code o with
                | Some c => if o_dirty_code o then match c with [] => k_delete_code st (a_hash (o_acct o)) | _ => k_set_code st (a_hash (o_acct o)) c end else st
                | None => st end) in *.
    assert (S2 : st_acct st2 = st_acct st /\ st_bal st2 = st_bal st /\ st_chash st2 = st_chash st /\ st_stor st2 = st_stor st /\ st_supply st2 = st_supply st /\
      (forall h c, st_code st2 h = Some c -> keccak c = h) /\ (forall h c, h <> keccak [] -> st_code st h = Some c -> st_code st2 h = Some c) /\
      (forall c, o_code o = Some c -> o_dirty_code o = true -> c <> [] -> st_code st2 (a_hash (o_acct o)) = Some c)).
    { unfold obj_oc, oc in Oc. unfold st2. destruct (o_code o) as [c|]; [|repeat split; auto; discriminate].
      destruct (o_dirty_code o); [|repeat split; auto; discriminate]. destruct Oc as [Oc _]. destruct c as [|b c].
      - repeat split; auto; cbn.
        + intros h c0. unfold upd. destruct (N.eqb h (a_hash (o_acct o))); [discriminate|apply T1].
        + intros h c0 Hh E. unfold upd. destruct (N.eqb_spec h (a_hash (o_acct o))); [congruence|exact E].
        + intros c0 E _ Ne. congruence.
      - repeat split; auto; cbn.
        + intros h c0. unfold upd. destruct (N.eqb_spec h (a_hash (o_acct o))) as [->|]; [intro E; injection E as <-; exact Oc|apply T1].
        + intros h c0 Hh E. unfold upd. destruct (N.eqb_spec h (a_hash (o_acct o))) as [->|]; [|exact E].
          f_equal. apply keccak_inj. rewrite Oc. symmetry. apply T1. exact E.
        + intros c0 E _ _. injection E as <-. apply upd_same. }
    destruct S2 as (A & B & C & D & E & F & G & G2). apply rbind_inv in H as (st3 & H1 & H2). injection H2 as H2.
    apply set_account_spec in H1. destruct H1 as (I1 & I2 & I3 & I4 & I5 & I6 & I7).
    apply commit_slots_spec in H2. destruct H2 as ((J1 & J1') & J2 & J3 & J4 & J5 & J6 & J7).
    split; [|split; [|split; [|split]]].
    + split; [rewrite J2; exact I1|]. split; [rewrite J3; exact I2|]. split; [unfold k_code_hash in *; rewrite J4; exact I3|].
      split; [|intros; rewrite J5, I5; auto]. intro k.
      destruct (aget (o_dirty o) k) as [v|] eqn:Ek.
      * apply J1; [exact Ek|]. left. apply nsort_in. eapply aget_in. exact Ek.
      * rewrite J1' by exact Ek. unfold k_state at 1. rewrite I4, D. fold (k_state st a k).
        destruct Pre as [(_ & _ & _ & P)|(_ & _ & _ & P & _)]; [unfold k_state; rewrite P; reflexivity|rewrite P, Ek; reflexivity].
    + intros b Hb. destruct (I6 b Hb) as (K1 & K2 & K3 & K4). unfold same_at. rewrite J2, J3, J4, J7 by exact Hb. rewrite K1, K2, K3, K4, A, B, C, D. auto.
    + split; rewrite J5, I5; [exact F|]. intros h c Hh Eh. apply G; [exact Hh|]. apply T2; assumption.
    + rewrite J5, I5. exact G.
    + rewrite J6, J3. rewrite E, B in I7. exact I7.
Qed.

Lemma commit_addrs_spec l : forall st0 st objs st1,
  (forall a o, In a l -> aget objs a = Some o -> obj_oc st0 o /\ (same_at st0 st a \/ done_at o st0 st a)) ->
  table st0 st -> commit_addrs keccak st objs l = Ok st1 ->
  (forall a, In a l -> exists o, aget objs a = Some o /\ done_at o st0 st1 a) /\ (forall a, ~ In a l -> same_at st st1 a) /\ table st0 st1 /\
  (forall h c, h <> keccak [] -> st_code st h = Some c -> st_code st1 h = Some c) /\
  (forall u, NoDup u -> incl l u -> total st1 u - total st u = st_supply st1 - st_supply st).
Proof.
  induction l as [|a l IH]; intros st0 st objs st1 Pre T H; cbn [commit_addrs] in H.
  - injection H as <-. split; [intros a []|]. split; [intros; apply same_at_refl|]. split; [exact T|]. split; [auto|]. intros. lia.
  - destruct (aget objs a) as [o|] eqn:Ea; [|discriminate]. apply rbind_inv in H as (st2 & H1 & H2).
    destruct (Pre a o (or_introl eq_refl) Ea) as [Oc Pa].
    destruct (commit_obj_spec st0 st a o st2 T Oc Pa H1) as (D & S & T2 & Cd & Sup).
    assert (Carry : forall b ob, b <> a -> done_at ob st0 st b -> done_at ob st0 st2 b).
    { intros b ob Hb. unfold done_at. destruct (S b Hb) as (A1 & A2 & A3 & A4). unfold k_code_hash, k_state. rewrite A1, A2, A3, A4.
      destruct (o_suicided ob); [auto|]. intros (B1 & B2 & B3 & B4 & B5). split; [exact B1|]. split; [exact B2|]. split; [exact B3|]. split; [exact B4|].
      intros c E1 E2 E3. pose proof (B5 c E1 E2 E3) as X. apply Cd; [|exact X]. destruct T as [T1 _]. rewrite <- (T1 _ _ X). intro Y. apply keccak_inj in Y. congruence. }
    destruct (IH st0 st2 objs st1) as (R1 & R2 & R3 & R4 & R5); [|exact T2|exact H2|].
    { intros b ob Hb Eb. destruct (N.eq_dec b a) as [->|Ne].
      - assert (ob = o) by congruence. subst ob. split; [exact Oc|right; exact D].
      - destruct (Pre b ob (or_intror Hb) Eb) as [O2 P2]. split; [exact O2|]. destruct P2 as [P2|P2].
        + left. eapply same_at_trans; [exact P2|]. apply S. exact Ne.
        + right. apply Carry; assumption. }
    split; [|split; [|split; [exact R3|split]]].
    + intros b Hb. destruct (in_dec N.eq_dec b l) as [I0|N0]; [apply R1; exact I0|]. destruct Hb as [<-|Hb]; [|contradiction].
      exists o. split; [exact Ea|]. destruct (R2 a N0) as (A1 & A2 & A3 & A4). unfold done_at in *. unfold k_code_hash, k_state in *. rewrite A1, A2, A3, A4.
      destruct (o_suicided o); [exact D|]. destruct D as (B1 & B2 & B3 & B4 & B5). split; [exact B1|]. split; [exact B2|]. split; [exact B3|]. split; [exact B4|].
      intros c E1 E2 E3. pose proof (B5 c E1 E2 E3) as X. apply R4; [|exact X]. destruct T2 as [T1 _]. rewrite <- (T1 _ _ X). intro Y. apply keccak_inj in Y. congruence.
    + intros b Hb. eapply same_at_trans; [apply S; intros ->; apply Hb; left; reflexivity|]. apply R2. intro X. apply Hb. right. exact X.
    + intros h c Hh E. apply R4; [exact Hh|]. apply Cd; assumption.
    + intros u Nd Iu. assert (Ia : In a u) by (apply Iu; left; reflexivity).
      pose proof (total_one st st2 a u ltac:(intros b Hb; apply (S b Hb)) Nd Ia) as X.
      assert (Iu' : incl l u) by (intros z Hz; apply Iu; right; exact Hz). specialize (R5 u Nd Iu'). lia.
Qed.

Lemma commit_addrs_no_panic l : forall st objs, (forall a, In a l -> aget objs a <> None) -> commit_addrs keccak st objs l <> Panic.
Proof.
  induction l as [|a l IH]; intros st objs H; cbn; [discriminate|]. destruct (aget objs a) as [o|] eqn:E; [|exfalso; apply (H a (or_introl eq_refl) E)].
  assert (Np : commit_obj keccak st a o <> Panic).
  { unfold commit_obj, k_delete_account, k_set_account, k_set_balance. destruct (o_suicided o).
    - destruct (st_acct st a); [|discriminate]. destruct (st_chash st a); [|discriminate]. destruct (_ <? _); [destruct (st_blocked st a); discriminate|].
      destruct (_ <? _); [destruct (_ <? _); discriminate|discriminate].
    - destruct (_ <? _); [destruct (st_blocked _ a); discriminate|]. destruct (_ <? _); [destruct (_ <? _); discriminate|discriminate]. }
  destruct (commit_obj keccak st a o); try congruence; cbn; [|discriminate]. apply IH. intros b Hb. apply H. right. exact Hb.
Qed.

(* ---------- the whole commit ---------- *)

Definition survives (x : option sacc) : option sacc :=
  match x with Some y => if x_suicided y then None else Some y | None => None end.

Lemma see_new_store st st' lb lb' a : same_at st st' a -> store_ok st -> (forall h c, h <> keccak [] -> st_code st h = Some c -> st_code st' h = Some c) ->
  oacc_eq (see (new_db st' lb) a) (see (new_db st lb') a).
Proof.
  intros (A & B & C & D) S T. unfold Spec.see, Model.get_obj. cbn. unfold k_account, k_code_hash. rewrite A, B, C. destruct (st_acct st a); cbn; [|exact I].
  acc6; cbn; try reflexivity.
  - rewrite !code_of_at. cbn. unfold code_at, empty_hash, k_code.
    destruct (st_chash st a) as [h|] eqn:Eh; [|rewrite N.eqb_refl; reflexivity]. destruct (N.eqb_spec h (keccak [])) as [|Ne]; [reflexivity|].
    pose proof (so_code _ S a h Eh Ne) as X. destruct (st_code st h) as [c|] eqn:Ec; [|congruence]. rewrite (T h c Ne Ec). reflexivity.
  - intro k. unfold slot_of, obj_state, obj_committed. cbn. unfold k_state. rewrite D. reflexivity.
Qed.

Theorem commit_exact s ts made s' lb a : cinv s ts made -> commit keccak s = Ok s' -> (~ In a made \/ aget (d_dirties s) a <> None) ->
  oacc_eq (see (new_db (d_ctx s') lb) a) (survives (see s a)).
Proof.
  intros [I S Kc L Sm Ch P] H Ha. unfold commit in H. fold (cache_of s) in H. rewrite Ch in H. apply rbind_inv in H as (st' & H & H'). injection H' as <-. cbn [d_ctx with_ctx].
  unfold commit_with in H. apply (commit_addrs_spec _ (d_ctx s) (d_ctx s)) in H.
  - destruct H as (R1 & R2 & R3 & R4 & R5). destruct (in_dec N.eq_dec a (nsort (akeys (d_dirties s)))) as [Ia|Na].
    + destruct (R1 a Ia) as (o & Eo & D). rewrite (see_live keccak s a o Eo). cbn [survives]. unfold done_at in D. cbn [x_suicided Spec.see_obj].
      unfold Spec.see, Model.get_obj. cbn. unfold k_account. destruct (o_suicided o) eqn:Es; [rewrite (proj1 D); exact Logic.I|].
      destruct D as (D1 & D2 & D3 & D4 & D5). rewrite D1, D2, D3. cbn. pose proof (proj1 Kc a o Eo) as Oc. unfold obj_oc, oc in Oc.
      acc6; cbn; auto.
      * rewrite !code_of_at. cbn. unfold code_at, empty_hash, k_code. destruct (o_code o) as [c|] eqn:Eb.
        -- destruct Oc as [Oc Od]. destruct (N.eqb_spec (a_hash (o_acct o)) (keccak [])) as [Eh|Ne]; [apply keccak_inj; congruence|].
           assert (X : st_code st' (a_hash (o_acct o)) = Some c); [|rewrite X; reflexivity].
           destruct (o_dirty_code o); [apply D5; auto; intros ->; congruence|apply R4; [exact Ne|apply Od; reflexivity]].
        -- destruct (N.eqb_spec (a_hash (o_acct o)) (keccak [])) as [Eh|Ne]; [reflexivity|]. destruct Oc as [Oc|Oc]; [contradiction|].
           destruct (st_code (d_ctx s) (a_hash (o_acct o))) as [c|] eqn:Ec; [|congruence]. rewrite (R4 _ _ Ne Ec). reflexivity.
      * intro k. unfold slot_of at 1, obj_state, obj_committed. cbn. rewrite D4. symmetry. apply slot_of_spec. apply (i_ok _ _ _ I). exact Eo.
    + assert (Hd : aget (d_dirties s) a = None).
      { destruct (aget (d_dirties s) a) eqn:E; [|reflexivity]. exfalso. apply Na. apply nsort_in. eapply aget_in. exact E. }
      destruct Ha as [Ha|Ha]; [|congruence]. eapply oacc_trans; [apply (see_new_store (d_ctx s) st' lb 0%N); [apply R2; exact Na|exact S|exact R4]|].
      pose proof (Sm a Ha Hd) as X. rewrite (see_absent keccak (new_db (d_ctx s) 0) a eq_refl) in X |- *. cbn [d_ctx new_db] in *.
      destruct (k_account keccak (d_ctx s) a).
      * destruct (see s a) as [y|]; [|contradiction]. cbn in X. cbn [survives]. assert (x_suicided y = false) as -> by apply X. cbn. apply acc_eq_sym. exact X.
      * destruct (see s a) as [y|]; [contradiction|exact Logic.I].
  - intros b o Hb Eb. split; [apply (proj1 Kc b); exact Eb|left; apply same_at_refl].
  - apply table_refl. exact S.
Qed.

Theorem commit_destroyed s ts made s' a y : cinv s ts made -> commit keccak s = Ok s' -> (~ In a made \/ aget (d_dirties s) a <> None) ->
  see s a = Some y -> x_suicided y = true -> st_acct (d_ctx s) a <> None ->
  st_acct (d_ctx s') a = None /\ st_bal (d_ctx s') a = 0 /\ st_chash (d_ctx s') a = None /\ forall k, st_stor (d_ctx s') a k = None.
Proof.
  intros [I S Kc L Sm Ch P] H Ha Hy Sy Ex. unfold commit in H. fold (cache_of s) in H. rewrite Ch in H. apply rbind_inv in H as (st' & H & H'). injection H' as <-. cbn [d_ctx with_ctx].
  unfold commit_with in H. apply (commit_addrs_spec _ (d_ctx s) (d_ctx s)) in H.
  - destruct H as (R1 & _). destruct (in_dec N.eq_dec a (nsort (akeys (d_dirties s)))) as [Ia|Na].
    + destruct (R1 a Ia) as (o & Eo & D). rewrite (see_live keccak s a o Eo) in Hy. injection Hy as <-. unfold done_at in D. cbn [x_suicided Spec.see_obj] in Sy. rewrite Sy in D. destruct D as [D1 D2].
      destruct (D2 Ex) as (D3 & D4 & D5). auto.
    + assert (Hd : aget (d_dirties s) a = None).
      { destruct (aget (d_dirties s) a) eqn:E; [|reflexivity]. exfalso. apply Na. apply nsort_in. eapply aget_in. exact E. }
      destruct Ha as [Ha|Ha]; [|congruence]. pose proof (Sm a Ha Hd) as X. rewrite (see_absent keccak (new_db (d_ctx s) 0) a eq_refl), Hy in X. cbn [d_ctx new_db] in X.
      destruct (k_account keccak (d_ctx s) a); [|contradiction]. assert (x_suicided y = false) by apply X. congruence.
  - intros b o Hb Eb. split; [apply (proj1 Kc b); exact Eb|left; apply same_at_refl].
  - apply table_refl. exact S.
Qed.

Theorem commit_no_panic s ts made : cinv s ts made -> commit keccak s <> Panic.
Proof.
  intros [I S Kc L Sm Ch P]. unfold commit. fold (cache_of s). unfold commit_with.
  pose proof (commit_addrs_no_panic (nsort (akeys (d_dirties s))) (cache_of s) (d_objs s)) as X.
  destruct (commit_addrs keccak (cache_of s) (d_objs s) _); cbn; try discriminate. exfalso. apply X; [|reflexivity].
  intros a Ha. apply L. rewrite nsort_in in Ha. apply akeys_in_iff. exact Ha.
Qed.

Theorem commit_frame s ts made s' a : cinv s ts made -> commit keccak s = Ok s' -> aget (d_dirties s) a = None -> same_at (d_ctx s) (d_ctx s') a.
Proof.
  intros [I S Kc L Sm Ch P] H Hd. unfold commit in H. fold (cache_of s) in H. rewrite Ch in H. apply rbind_inv in H as (st' & H & H'). injection H' as <-. cbn [d_ctx with_ctx].
  unfold commit_with in H. apply (commit_addrs_spec _ (d_ctx s) (d_ctx s)) in H.
  - apply H. intro X. rewrite nsort_in in X. apply akeys_in_iff in X. congruence.
  - intros b o Hb Eb. split; [apply (proj1 Kc b); exact Eb|left; apply same_at_refl].
  - apply table_refl. exact S.
Qed.

Theorem commit_supply s ts made s' u : cinv s ts made -> commit keccak s = Ok s' -> NoDup u -> (forall a, aget (d_dirties s) a <> None -> In a u) ->
  st_supply (d_ctx s') - st_supply (d_ctx s) = total (d_ctx s') u - total (d_ctx s) u.
Proof.
  intros [I S Kc L Sm Ch P] H Nd Iu. unfold commit in H. fold (cache_of s) in H. rewrite Ch in H. apply rbind_inv in H as (st' & H & H'). injection H' as <-. cbn [d_ctx with_ctx].
  unfold commit_with in H. apply (commit_addrs_spec _ (d_ctx s) (d_ctx s)) in H.
  - destruct H as (_ & _ & _ & _ & R). symmetry. apply R; [exact Nd|]. intros a Ha. apply Iu. rewrite nsort_in in Ha. apply akeys_in_iff. exact Ha.
  - intros b o Hb Eb. split; [apply (proj1 Kc b); exact Eb|left; apply same_at_refl].
  - apply table_refl. exact S.
Qed.
End Keccak.
