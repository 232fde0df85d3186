(* The journal machine gives the answers of the machine that copies. *)
From Verif Require Import Lib.Base Lib.Bytes Lib.Amap Statedb.Model Statedb.Spec Statedb.Proofs Statedb.RevertProofs.
From Coq Require Import Sorted.
Open Scope Z_scope.

Ltac acc6 := split; [|split; [|split; [|split; [|split]]]].

Section Keccak.
Variable keccak : bytes -> word.
Notation get_obj := (get_obj keccak).
Notation see := (see keccak).
Notation see_obj := (see_obj keccak).
Notation step := (step keccak).
Notation run := (run keccak).
Notation sstep := (sstep keccak).
Notation srun := (srun keccak).
Notation good := (good keccak).
Notation db_ok := (db_ok keccak).
Notation undoable := (undoable keccak).
Notation ceq := (ceq keccak).
Notation inv := (inv keccak).
Notation here := (here keccak).
Notation fresh := (fresh keccak).
Notation touch := (touch keccak).

(* slot membership in the access list *)
Definition al_has (al : alist) (a : addr) (k : word) : bool :=
  match aget (al_addr al) a with
  | Some (Some i) => match nth_error (al_slots al) i with
                     | Some m => match aget m k with Some _ => true | None => false end
                     | None => false
                     end
  | _ => false
  end.

Record rel (s : sdb) (w : world) : Prop := {
  r_acct : forall a, oacc_eq (see s a) (w_acct w a);
  r_refund : d_refund s = w_refund w;
  r_logs : d_logs s = w_logs w;
  r_addr : forall a, al_contains_address (d_al s) a = w_addr w a;
  r_slot : forall a k, al_has (d_al s) a k = w_slot w a k
}.

Lemma rel_ceq s t w : ceq s t -> rel t w -> rel s w.
Proof.
  intros [] []. constructor; try congruence.
  intro a. eapply oacc_trans; [apply q_see|apply r_acct0].
Qed.

(* the account an operation starts from *)
Definition base (s : sdb) (a : addr) : sacc :=
  match see s a with Some x => x | None => see_obj (d_ctx s) a (blank_object keccak) end.

Lemma blank_fresh s p a : (forall a k, p_committed p a k = k_state (d_ctx s) a k) ->
  acc_eq (see_obj (d_ctx s) a (blank_object keccak)) (fresh p a 0).
Proof.
  intro H. acc6; try reflexivity.
  - cbn. rewrite code_of_at. cbn. unfold code_at, empty_hash. rewrite N.eqb_refl. reflexivity.
  - intro k. cbn. rewrite H. reflexivity.
Qed.

Lemma base_here s p a : rel s (p_now p) -> (forall a k, p_committed p a k = k_state (d_ctx s) a k) -> acc_eq (base s a) (here p a).
Proof.
  intros R H. unfold base, Spec.here. pose proof (r_acct _ _ R a) as X. destruct (see s a), (w_acct (p_now p) a); try contradiction; [exact X|].
  apply blank_fresh. exact H.
Qed.

Definition proper (F : sacc -> sacc) : Prop := forall x y, acc_eq x y -> acc_eq (F x) (F y).

(* the new state shows F applied to account a, the rest as before *)
Definition changed (s s' : sdb) (a : addr) (F : sacc -> sacc) : Prop :=
  (forall b, oacc_eq (see s' b) (if N.eqb a b then Some (F (base s a)) else see s b)) /\
  d_refund s' = d_refund s /\ d_logs s' = d_logs s /\ d_al s' = d_al s.

Lemma rel_touch s s' p a F : rel s (p_now p) -> (forall a k, p_committed p a k = k_state (d_ctx s) a k) ->
  proper F -> changed s s' a F -> rel s' (p_now (touch p a F)).
Proof.
  intros R H P (C & C1 & C2 & C3). pose proof (base_here s p a R H) as B. destruct R. constructor; cbn; try congruence.
  intro b. eapply oacc_trans; [apply C|]. unfold upd. rewrite (N.eqb_sym b a). destruct (N.eqb_spec a b) as [<-|]; [|apply r_acct0].
  cbn. apply P. exact B.
Qed.

Lemma get_or_new_keeps s a o s1 : get_or_new keccak s a = (o, s1) ->
  d_refund s1 = d_refund s /\ d_logs s1 = d_logs s /\ d_al s1 = d_al s.
Proof.
  unfold get_or_new, create_object, Model.get_obj. destruct (aget (d_objs s) a) eqn:E.
  - intro H; injection H as <- <-. auto.
  - destruct (k_account keccak (d_ctx s) a) eqn:K; rewrite ?E, ?K; intro H; injection H as <- <-; auto.
Qed.

Lemma changed_new s a o s1 s' o' F : db_ok s -> get_or_new keccak s a = (o, s1) ->
  (forall b, see s' b = see (set_obj s1 a o') b) ->
  d_refund s' = d_refund s1 /\ d_logs s' = d_logs s1 /\ d_al s' = d_al s1 ->
  proper F -> acc_eq (see_obj (d_ctx s) a o') (F (see_obj (d_ctx s) a o)) -> changed s s' a F.
Proof.
  intros D G S (K1 & K2 & K3) P A. pose proof (get_or_new_keeps _ _ _ _ G) as (L1 & L2 & L3).
  apply get_or_new_good in G; [|exact D]. destruct G as (Gd & Ag & _ & V).
  split; [|repeat split; congruence]. intro b. rewrite S, see_set. pose proof (V b) as Vb.
  destruct (N.eqb_spec a b) as [Eb|]; [|exact Vb]. rewrite <- Eb in Vb. rewrite (see_live keccak s1 a o Ag) in Vb. rewrite (g_ctx _ _ _ Gd) in *.
  cbn in *. eapply acc_eq_trans; [exact A|]. apply P. exact Vb.
Qed.

Lemma see_jappend s e b : see (jappend s e) b = see s b.
Proof. apply see_ext; reflexivity. Qed.

Definition f_bal v x := Sacc (x_nonce x) (x_bal x + v) (x_hash x) (x_code x) (x_stor x) (x_suicided x).
Definition f_sub v x := Sacc (x_nonce x) (x_bal x - v) (x_hash x) (x_code x) (x_stor x) (x_suicided x).
Definition f_nonce n x := Sacc n (x_bal x) (x_hash x) (x_code x) (x_stor x) (x_suicided x).
Definition f_code c x := Sacc (x_nonce x) (x_bal x) (keccak (bytes_of c)) (bytes_of c) (x_stor x) (x_suicided x).
Definition f_stor k v x := Sacc (x_nonce x) (x_bal x) (x_hash x) (x_code x) (upd (x_stor x) k v) (x_suicided x).
Definition f_die x := Sacc (x_nonce x) 0 (x_hash x) (x_code x) (x_stor x) true.

Ltac prop := intros x y (A & B & C & D & E & F); acc6; cbn; try congruence.
Lemma proper_bal v : proper (f_bal v). Proof. prop. Qed.
Lemma proper_sub v : proper (f_sub v). Proof. prop. Qed.
Lemma proper_nonce v : proper (f_nonce v). Proof. prop. Qed.
Lemma proper_code v : proper (f_code v). Proof. prop. Qed.
Lemma proper_stor k v : proper (f_stor k v).
Proof. prop. intro k2. unfold upd. destruct (N.eqb k2 k); auto. Qed.
Lemma proper_die : proper f_die. Proof. prop. Qed.

Lemma see_set_jappend s a o e b : see (set_obj (jappend s e) a o) b = see (set_obj s a o) b.
Proof. rewrite !see_set. destruct (N.eqb a b); [reflexivity|apply see_jappend]. Qed.
Lemma see_set_id s a o b : aget (d_objs s) a = Some o -> see s b = see (set_obj s a o) b.
Proof. intro H. apply see_ext; cbn; [rewrite aset_present by exact H|]; reflexivity. Qed.

Lemma add_balance_changed s a v : db_ok s -> changed s (add_balance keccak s a v) a (f_bal v).
Proof.
  intro D. unfold add_balance. destruct (get_or_new keccak s a) as [o s1] eqn:G. pose proof G as G'. apply get_or_new_good in G'; [|exact D].
  destruct G' as (Gd & A & K & _). destruct (Z.eqb_spec v 0) as [->|].
  - eapply changed_new; [exact D|exact G|intro b; apply see_set_id; exact A|auto|apply proper_bal|].
    acc6; try reflexivity. cbn. lia.
  - eapply changed_new; [exact D|exact G|intro b; apply see_set_jappend|auto|apply proper_bal|]. eapply acc_eq_trans; [apply see_set_balance_eq|]. acc6; reflexivity.
Qed.
Lemma sub_balance_changed s a v : db_ok s -> changed s (sub_balance keccak s a v) a (f_sub v).
Proof.
  intro D. unfold sub_balance. destruct (get_or_new keccak s a) as [o s1] eqn:G. pose proof G as G'. apply get_or_new_good in G'; [|exact D].
  destruct G' as (Gd & A & K & _). destruct (Z.eqb_spec v 0) as [->|].
  - eapply changed_new; [exact D|exact G|intro b; apply see_set_id; exact A|auto|apply proper_sub|].
    acc6; try reflexivity. cbn. lia.
  - eapply changed_new; [exact D|exact G|intro b; apply see_set_jappend|auto|apply proper_sub|]. eapply acc_eq_trans; [apply see_set_balance_eq|]. acc6; reflexivity.
Qed.
Lemma set_nonce_changed s a v : db_ok s -> changed s (set_nonce keccak s a v) a (f_nonce v).
Proof.
  intro D. unfold set_nonce. destruct (get_or_new keccak s a) as [o s1] eqn:G.
  eapply changed_new; [exact D|exact G|intro b; apply see_set_jappend|auto|apply proper_nonce|]. eapply acc_eq_trans; [apply see_set_nonce_eq|]. acc6; reflexivity.
Qed.
Lemma set_code_changed s a c : db_ok s -> changed s (set_code keccak s a c) a (f_code c).
Proof.
  intro D. unfold set_code. destruct (get_or_new keccak s a) as [o s1] eqn:G. pose proof G as G'. apply get_or_new_good in G'; [|exact D].
  destruct G' as (Gd & A & K & _). pose proof (g_ctx _ _ _ Gd) as X. rewrite X in *.
  destruct (obj_code keccak (d_ctx s) o) as [prev o1] eqn:C. apply obj_code_spec in C.
  destruct C as (C1 & C2 & C3 & C4 & C5 & C6 & C7 & C8).
  eapply changed_new; [exact D|exact G|intro b; apply see_set_jappend|auto|apply proper_code|].
  eapply acc_eq_trans; [apply see_set_code_eq|]. acc6; cbn; try congruence.
  - reflexivity.
  - unfold code_at, empty_hash. destruct c; cbn [bytes_of]; [reflexivity|]. rewrite N.eqb_refl. reflexivity.
  - intro k. apply slot_of_ext; assumption.
Qed.
Lemma set_state_changed s a k v : db_ok s -> changed s (set_state keccak s a k v) a (f_stor k v).
Proof.
  intro D. unfold set_state. destruct (get_or_new keccak s a) as [o s1] eqn:G. pose proof G as G'. apply get_or_new_good in G'; [|exact D].
  destruct G' as (Gd & A & K & _). pose proof (g_ctx _ _ _ Gd) as X. rewrite X in *.
  destruct (obj_state (d_ctx s) a o k) as [prev o1] eqn:C. apply (obj_state_spec keccak) in C; [|exact K].
  destruct C as (C1 & C2 & C3 & C4 & C5 & C6 & K1 & C8).
  destruct C8 as (E1 & E2 & E3 & E4 & E5 & E6). cbn in E1, E2, E3, E4, E5, E6.
  destruct (N.eqb_spec prev v) as [<-|].
  - eapply changed_new; [exact D|exact G|intro b; reflexivity|auto|apply proper_stor|].
    acc6; cbn; auto. intro k2. unfold upd. destruct (N.eqb_spec k2 k) as [->|]; [rewrite C1|]; apply E5.
  - eapply changed_new; [exact D|exact G|intro b; apply see_set_jappend|auto|apply proper_stor|].
    eapply acc_eq_trans; [apply see_set_state_eq; exact K1|]. acc6; cbn; auto.
    intro k2. unfold upd. destruct (N.eqb k2 k); [reflexivity|apply E5].
Qed.

Lemma get_obj_keeps s a o s1 : get_obj s a = (o, s1) -> d_refund s1 = d_refund s /\ d_logs s1 = d_logs s /\ d_al s1 = d_al s.
Proof.
  unfold Model.get_obj. destruct (aget (d_objs s) a); [|destruct (k_account _ _ _)]; intro H; injection H as <- <-; auto.
Qed.

Lemma suicide_changed s a : db_ok s ->
  match suicide keccak s a with
  | (true, s') => see s a <> None /\ changed s s' a f_die
  | (false, s') => see s a = None /\ s' = s
  end.
Proof.
  intro D. unfold suicide. destruct (get_obj s a) as [[o|] s1] eqn:G.
  - pose proof (get_obj_keeps _ _ _ _ G) as (L1 & L2 & L3).
    apply get_obj_spec in G; [|apply D]. destruct G as (Q & _ & _ & A & S & K). split; [congruence|].
    split; [|auto]. intro b. rewrite see_set_jappend, see_set. destruct (N.eqb_spec a b) as [<-|]; [|apply Q].
    unfold base. rewrite S, (q_ctx _ _ _ Q). eapply acc_eq_trans; [apply see_set_suicided_eq|]. acc6; reflexivity.
  - apply get_obj_spec in G; [|apply D]. destruct G as (_ & _ & _ & S & -> & _). auto.
Qed.

Lemma create_account_changed s a : db_ok s ->
  changed s (create_account keccak s a) a (fun x => Sacc 0 (x_bal x) (keccak []) [] (k_state (d_ctx s) a) false).
Proof.
  intro D. unfold create_account, create_object. destruct (get_obj s a) as [[o|] s1] eqn:G.
  - pose proof (get_obj_keeps _ _ _ _ G) as (L1 & L2 & L3).
    apply get_obj_spec in G; [|apply D]. destruct G as (Q & _ & _ & A & S & K).
    split; [|auto]. intro b. rewrite see_set. destruct (N.eqb_spec a b) as [<-|Ne].
    + unfold base. rewrite S. cbn [d_ctx set_obj with_objs jappend with_journal]. rewrite (q_ctx _ _ _ Q). eapply acc_eq_trans; [apply see_set_balance_eq|].
      acc6; try reflexivity. cbn. rewrite code_of_at. cbn. unfold code_at, empty_hash. rewrite N.eqb_refl. reflexivity.
    + rewrite see_set_jappend, see_set. destruct (N.eqb_spec a b); [contradiction|]. apply Q.
  - apply get_obj_spec in G; [|apply D]. destruct G as (_ & _ & _ & S & -> & _).
    split; [|auto]. intro b. rewrite see_set_jappend, see_set. destruct (N.eqb_spec a b) as [<-|Ne]; [|apply oacc_refl].
    unfold base. rewrite S. acc6; try reflexivity. cbn. rewrite code_of_at. cbn. unfold code_at, empty_hash. rewrite N.eqb_refl. reflexivity.
Qed.

(* ---------- access list ---------- *)

Lemma al_add_address_view al a al' b : al_add_address al a = (al', b) ->
  (forall c, al_contains_address al' c = (N.eqb c a || al_contains_address al c)%bool) /\ (forall c k, al_has al' c k = al_has al c k).
Proof.
  unfold al_add_address, al_contains_address, al_has. destruct (aget (al_addr al) a) eqn:E; intro H; injection H as <- <-; cbn.
  - split; [|reflexivity]. intro c. destruct (N.eqb_spec c a) as [->|]; [rewrite E|]; reflexivity.
  - split.
    + intro c. rewrite aget_aset, (N.eqb_sym c a). destruct (N.eqb a c); reflexivity.
    + intros c k. rewrite aget_aset. destruct (N.eqb_spec a c) as [<-|]; [rewrite E|]; reflexivity.
Qed.

Lemma al_add_slot_view al a k al' b : al_ok al -> al_add_slot al a k = Ok (al', b) ->
  (forall c, al_contains_address al' c = (N.eqb c a || al_contains_address al c)%bool) /\
  (forall c k2, al_has al' c k2 = ((N.eqb c a && N.eqb k2 k) || al_has al c k2)%bool).
Proof.
  intros [R I F] H. unfold al_add_slot in H.
  assert (New : match aget (al_addr al) a with Some (Some _) => False | _ => True end ->
    (forall c, al_contains_address (Alist (aset (al_addr al) a (Some (length (al_slots al)))) (al_slots al ++ [[(k, tt)]])) c = (N.eqb c a || al_contains_address al c)%bool) /\
    (forall c k2, al_has (Alist (aset (al_addr al) a (Some (length (al_slots al)))) (al_slots al ++ [[(k, tt)]])) c k2 = ((N.eqb c a && N.eqb k2 k) || al_has al c k2)%bool)).
  { intro E. unfold al_contains_address, al_has. cbn [al_addr al_slots]. split.
    - intro c. rewrite aget_aset, (N.eqb_sym c a). destruct (N.eqb a c); reflexivity.
    - intros c k2. rewrite aget_aset, (N.eqb_sym c a). destruct (N.eqb_spec a c) as [<-|Ne].
      + rewrite nth_error_app2 by lia. rewrite Nat.sub_diag. cbn. rewrite (N.eqb_sym k k2).
        destruct (aget (al_addr al) a) as [[i|]|]; [contradiction| |]; destruct (N.eqb k2 k); reflexivity.
      + cbn. destruct (aget (al_addr al) c) as [[i|]|] eqn:Ec; try reflexivity. rewrite nth_error_app1 by (eapply R; exact Ec). reflexivity. }
  destruct (aget (al_addr al) a) as [[i|]|] eqn:E.
  - destruct (nth_error (al_slots al) i) as [m|] eqn:M; [|discriminate]. pose proof (R _ _ E) as Li.
    destruct (aget m k) eqn:K; injection H as <- <-.
    + unfold al_contains_address, al_has. split.
      * intro c. destruct (N.eqb_spec c a) as [->|]; [rewrite E|]; reflexivity.
      * intros c k2. destruct (N.eqb_spec c a) as [->|]; [|reflexivity]. destruct (N.eqb_spec k2 k) as [->|]; [|reflexivity]. rewrite E, M, K. reflexivity.
    + unfold al_contains_address, al_has. cbn [al_addr al_slots]. split.
      * intro c. destruct (N.eqb_spec c a) as [->|]; [rewrite E|]; reflexivity.
      * intros c k2. destruct (aget (al_addr al) c) as [[j|]|] eqn:Ec.
        -- rewrite list_set_nth by exact Li. destruct (Nat.eqb_spec i j) as [<-|Nij].
           ++ rewrite M, (I _ _ _ Ec E), N.eqb_refl, aget_aset, (N.eqb_sym k k2). destruct (N.eqb k2 k); reflexivity.
           ++ destruct (N.eqb_spec c a) as [->|]; [congruence|]. reflexivity.
        -- destruct (N.eqb_spec c a) as [->|]; [congruence|reflexivity].
        -- destruct (N.eqb_spec c a) as [->|]; [congruence|reflexivity].
  - injection H as <- <-. apply New. exact Logic.I.
  - injection H as <- <-. apply New. exact Logic.I.
Qed.

(* ---------- one step ---------- *)

Definition ctx_ok (s : sdb) (p : spec) : Prop :=
  (forall a k, p_committed p a k = k_state (d_ctx s) a k) /\ d_logbase s = p_logbase p.

Definition match_out (r : res (out * sdb)) (q : res (out * spec)) (P : sdb -> spec -> Prop) : Prop :=
  match r, q with
  | Ok (o, s'), Ok (o', p') => o = o' /\ P s' p'
  | Panic, Panic => True
  | _, _ => False
  end.

Definition same_meta (p p' : spec) : Prop :=
  p_saved p' = p_saved p /\ p_next p' = p_next p /\ p_committed p' = p_committed p /\ p_logbase p' = p_logbase p.

Lemma sim_get s a o s1 p : get_obj s a = (o, s1) -> db_ok s -> rel s (p_now p) ->
  good s s1 /\ rel s1 (p_now p) /\
  match o, w_acct (p_now p) a with
  | Some ob, Some x => a_nonce (o_acct ob) = x_nonce x /\ a_bal (o_acct ob) = x_bal x /\ a_hash (o_acct ob) = x_hash x /\ o_suicided ob = x_suicided x
  | None, None => True
  | _, _ => False
  end.
Proof.
  intros G D R. pose proof (get_obj_good _ _ _ _ _ G D) as [Gd Q]. split; [exact Gd|]. split; [eapply rel_ceq; eassumption|].
  pose proof (r_acct _ _ R a) as X. apply get_obj_spec in G; [|apply D]. destruct G as (_ & _ & _ & M). destruct o as [ob|].
  - destruct M as (_ & S & _). rewrite S in X. destruct (w_acct (p_now p) a); [|contradiction]. destruct X as (A & B & C & _ & _ & F). auto.
  - destruct M as (S & _). rewrite S in X. destruct (w_acct (p_now p) a); [contradiction|exact I].
Qed.

Ltac fin Gd R1 := split; [first [reflexivity|congruence]|split; [exact Gd|split; [exact R1|repeat split]]].

Lemma step_sim s p x : db_ok s -> rel s (p_now p) -> ctx_ok s p -> ordinary x -> no_precompile x ->
  match_out (step s x) (sstep p x) (fun s' p' => good s s' /\ rel s' (p_now p') /\ same_meta p p').
Proof.
  intros D R [C L] Or Np.
  assert (Tch : forall s' a F, good s s' -> changed s s' a F -> proper F ->
            good s s' /\ rel s' (p_now (touch p a F)) /\ same_meta p (touch p a F)).
  { intros s' a F G Ch Pf. split; [exact G|]. split; [eapply rel_touch; eassumption|]. repeat split. }
  destruct x; try contradiction; cbn [Model.step Spec.sstep].
  - destruct (get_obj s a) as [o s1] eqn:G. destruct (sim_get _ _ _ _ _ G D R) as (Gd & R1 & M). cbn.
    destruct o, (w_acct (p_now p) a); try contradiction; fin Gd R1.
  - destruct (get_obj s a) as [o s1] eqn:G. destruct (sim_get _ _ _ _ _ G D R) as (Gd & R1 & M). cbn.
    destruct o, (w_acct (p_now p) a); try contradiction; [|fin Gd R1].
    destruct M as (M1 & M2 & M3 & _). split; [|split; [exact Gd|split; [exact R1|repeat split]]]. unfold obj_empty, empty_hash. rewrite M1, M2, M3. reflexivity.
  - destruct (get_obj s a) as [o s1] eqn:G. destruct (sim_get _ _ _ _ _ G D R) as (Gd & R1 & M). cbn.
    destruct o, (w_acct (p_now p) a); try contradiction; [|fin Gd R1]. destruct M as (M1 & M2 & M3 & M4).
    fin Gd R1.
  - destruct (get_obj s a) as [o s1] eqn:G. destruct (sim_get _ _ _ _ _ G D R) as (Gd & R1 & M). cbn.
    destruct o, (w_acct (p_now p) a); try contradiction; [|fin Gd R1]. destruct M as (M1 & M2 & M3 & M4).
    fin Gd R1.
  - destruct (read_code keccak s a) as [c s1] eqn:G. destruct (read_code_good _ _ _ _ _ G D) as (Gd & Q & ->). cbn.
    split; [|split; [exact Gd|split; [eapply rel_ceq; eassumption|repeat split]]].
    pose proof (r_acct _ _ R a) as X. destruct (see s a), (w_acct (p_now p) a); try contradiction; [|reflexivity]. f_equal. apply X.
  - destruct (read_code keccak s a) as [c s1] eqn:G. destruct (read_code_good _ _ _ _ _ G D) as (Gd & Q & ->). cbn.
    split; [|split; [exact Gd|split; [eapply rel_ceq; eassumption|repeat split]]].
    pose proof (r_acct _ _ R a) as X. destruct (see s a), (w_acct (p_now p) a); try contradiction; [|reflexivity]. do 3 f_equal. apply X.
  - destruct (get_obj s a) as [o s1] eqn:G. destruct (sim_get _ _ _ _ _ G D R) as (Gd & R1 & M). cbn.
    destruct o, (w_acct (p_now p) a); try contradiction; [|fin Gd R1]. destruct M as (M1 & M2 & M3 & M4).
    fin Gd R1.
  - pose proof (get_state_good keccak s a k) as Gs. cbn [Model.step] in Gs.
    destruct (get_obj s a) as [[ob|] s1].
    + destruct (obj_state (d_ctx s1) a ob k) as [v o1]. destruct (Gs _ _ eq_refl D) as (Gd & Q & E). cbn.
      split; [|split; [exact Gd|split; [eapply rel_ceq; eassumption|repeat split]]]. rewrite E.
      pose proof (r_acct _ _ R a) as X. destruct (see s a), (w_acct (p_now p) a); try contradiction; [|reflexivity]. f_equal. apply X.
    + destruct (Gs _ _ eq_refl D) as (Gd & Q & E). cbn.
      split; [|split; [exact Gd|split; [eapply rel_ceq; eassumption|repeat split]]]. rewrite E.
      pose proof (r_acct _ _ R a) as X. destruct (see s a), (w_acct (p_now p) a); try contradiction; [|reflexivity]. f_equal. apply X.
  - pose proof (get_committed_good keccak s a k) as Gs. cbn [Model.step] in Gs.
    destruct (get_obj s a) as [[ob|] s1].
    + destruct (obj_committed (d_ctx s1) a ob k) as [v o1]. destruct (Gs _ _ eq_refl D) as (Gd & Q & E). cbn.
      split; [|split; [exact Gd|split; [eapply rel_ceq; eassumption|repeat split]]]. rewrite E.
      pose proof (r_acct _ _ R a) as X. destruct (see s a), (w_acct (p_now p) a); try contradiction; [|reflexivity]. rewrite C. reflexivity.
    + destruct (Gs _ _ eq_refl D) as (Gd & Q & E). cbn.
      split; [|split; [exact Gd|split; [eapply rel_ceq; eassumption|repeat split]]]. rewrite E.
      pose proof (r_acct _ _ R a) as X. destruct (see s a), (w_acct (p_now p) a); try contradiction; [|reflexivity]. rewrite C. reflexivity.
  - cbn. split; [f_equal; apply R|]. split; [apply good_refl; exact D|]. split; [exact R|repeat split].
  - destruct (get_obj s a) as [o s1] eqn:G. destruct (sim_get _ _ _ _ _ G D R) as (Gd & R1 & M). cbn.
    destruct o, (w_acct (p_now p) a); try contradiction; [|fin Gd R1]. destruct M as (M1 & M2 & M3 & M4).
    fin Gd R1.
  - cbn. split; [f_equal; apply R|]. split; [apply good_refl; exact D|]. split; [exact R|repeat split].
  - split; [reflexivity|]. apply Tch with (F := f_bal v); [apply add_balance_good; exact D|apply add_balance_changed; exact D|apply proper_bal].
  - split; [reflexivity|]. apply Tch with (F := f_sub v); [apply sub_balance_good; exact D|apply sub_balance_changed; exact D|apply proper_sub].
  - split; [reflexivity|]. apply Tch with (F := f_nonce n); [apply set_nonce_good; exact D|apply set_nonce_changed; exact D|apply proper_nonce].
  - split; [reflexivity|]. apply Tch with (F := f_code c); [apply set_code_good; exact D|apply set_code_changed; exact D|apply proper_code].
  - split; [reflexivity|]. apply Tch with (F := f_stor k v); [apply set_state_good; exact D|apply set_state_changed; exact D|apply proper_stor].
  - pose proof (suicide_changed s a D) as S. destruct (suicide keccak s a) as [[|] s1] eqn:E; destruct S as [S Ch].
    + pose proof (r_acct _ _ R a) as X. destruct (see s a); [|congruence]. destruct (w_acct (p_now p) a) eqn:W; [|contradiction]. cbn.
      split; [reflexivity|]. apply Tch with (F := f_die); [eapply suicide_good; eassumption|exact Ch|apply proper_die].
    + pose proof (r_acct _ _ R a) as X. rewrite S in X. destruct (w_acct (p_now p) a) eqn:W; [contradiction|]. cbn.
      subst s1. split; [reflexivity|]. split; [apply good_refl; exact D|]. split; [exact R|repeat split].
  - split; [reflexivity|]. apply Tch; [apply create_account_good; exact D| |].
    + destruct (create_account_changed s a D) as (V & V1 & V2 & V3). split; [|auto]. intro b. eapply oacc_trans; [apply V|].
      destruct (N.eqb a b); [|apply oacc_refl]. acc6; try reflexivity. intro k. cbn. symmetry. apply C.
    + intros x y (A1 & A2 & _). acc6; cbn; auto.
  - cbn. split; [reflexivity|]. split; [apply add_log_good; exact D|]. split; [|repeat split]. destruct R. constructor; cbn; auto.
    + intro b. rewrite (see_ext keccak _ s b) by reflexivity. apply r_acct0.
    + rewrite r_logs0, L. reflexivity.
  - cbn. split; [reflexivity|]. split; [apply add_refund_good; exact D|]. split; [|repeat split]. destruct R. constructor; cbn; auto.
    + intro b. rewrite (see_ext keccak _ s b) by reflexivity. apply r_acct0.
    + rewrite r_refund0. reflexivity.
  - pose proof (sub_refund_good keccak s g) as Gs. unfold sub_refund in *. cbn [d_refund jappend with_journal] in *. rewrite <- (r_refund _ _ R).
    destruct (d_refund s <? g)%N; cbn [rbind match_out]; [exact I|]. split; [reflexivity|]. split; [apply Gs; [reflexivity|exact D]|].
    split; [|repeat split]. destruct R. constructor; cbn; auto. intro b. rewrite (see_ext keccak _ s b) by reflexivity. apply r_acct0.
  - pose proof (add_address_good keccak s a D) as Gd. unfold add_address in *.
    destruct (al_add_address (d_al s) a) as [al' b] eqn:E. apply al_add_address_view in E as [E1 E2]. cbn [match_out].
    split; [reflexivity|]. split; [exact Gd|]. split; [|repeat split]. destruct R. constructor; destruct b; cbn; auto;
      try (intro c; rewrite (see_ext keccak _ s c) by reflexivity; apply r_acct0);
      try (intro c; rewrite E1; unfold upd; destruct (N.eqb c a); [reflexivity|apply r_addr0]);
      intros c k; rewrite E2; apply r_slot0.
  - destruct (add_slot_good keccak s a k D) as (s1 & E & Gd). rewrite E. cbn [rbind match_out]. split; [reflexivity|]. split; [exact Gd|]. split; [|repeat split].
    unfold add_slot in E. apply rbind_inv in E as ([al' [am sm]] & E & E'). injection E' as <-.
    apply al_add_slot_view in E as [E1 E2]; [|apply D]. destruct R. constructor; destruct am, sm; cbn; auto;
      try (intro c; rewrite (see_ext keccak _ s c) by reflexivity; apply r_acct0);
      try (intro c; rewrite E1; unfold upd; destruct (N.eqb c a); [reflexivity|apply r_addr0]);
      intros c k2; rewrite E2; unfold upd; (destruct (N.eqb_spec c a) as [->|]; [destruct (N.eqb k2 k); [reflexivity|apply r_slot0]|apply r_slot0]).
  - cbn. split; [f_equal; apply R|]. split; [apply good_refl; exact D|]. split; [exact R|repeat split].
  - assert (E : al_contains (d_al s) a k = Ok (al_contains_address (d_al s) a, al_has (d_al s) a k)).
    { unfold al_contains, al_contains_address, al_has. destruct (aget (al_addr (d_al s)) a) as [[i|]|] eqn:E; try reflexivity.
      destruct (nth_error (al_slots (d_al s)) i) eqn:M; [reflexivity|]. apply nth_error_None in M.
      pose proof (al_range _ (ro_al _ _ (proj2 D)) _ _ E). lia. }
    rewrite E. cbn. split; [rewrite (r_addr _ _ R), (r_slot _ _ R); reflexivity|]. split; [apply good_refl; exact D|]. split; [exact R|repeat split].
Qed.

(* ---------- histories ---------- *)

Record sim (s : sdb) (p : spec) (ts : list sdb) : Prop := {
  m_inv : inv s ts;
  m_rel : rel s (p_now p);
  m_ctx : ctx_ok s p;
  m_next : d_next s = p_next p;
  m_ids : map fst (d_revs s) = map fst (p_saved p);
  m_saved : Forall2 (fun t iw => rel t (snd iw)) ts (p_saved p)
}.

Lemma find_saved_spec {A} (l : list (N * A)) id : match find_saved l id with
  | Some (b, w) => exists i, nth_error l i = Some (id, w) /\ b = firstn i l /\ ~ In id (map fst (firstn i l))
  | None => ~ In id (map fst l)
  end.
Proof.
  induction l as [|[i w] l IH]; [cbn; tauto|]. cbn [find_saved]. destruct (N.eqb_spec i id) as [->|Ne].
  - exists O. cbn. tauto.
  - destruct (find_saved l id) as [[b w2]|].
    + destruct IH as (j & E & -> & N0). exists (S j). cbn. repeat split; auto. tauto.
    + cbn. tauto.
Qed.

Lemma ids_nodup l : StronglySorted rle l -> NoDup (map fst l).
Proof.
  induction 1 as [|r l S IH F]; cbn; [constructor|]. constructor; [|exact IH]. intro I. apply in_map_iff in I as (r2 & E & I).
  rewrite Forall_forall in F. destruct (F r2 I) as [X _]. lia.
Qed.

Lemma nodup_nth_eq (l : list N) i j x : NoDup l -> nth_error l i = Some x -> nth_error l j = Some x -> i = j.
Proof.
  intros H A B. eapply NoDup_nth_error; [exact H| |congruence]. apply nth_error_Some. congruence.
Qed.

Lemma forall2_nth_both {A B} (R : A -> B -> Prop) l l' i x y : Forall2 R l l' -> nth_error l i = Some x -> nth_error l' i = Some y -> R x y.
Proof. intro H. revert i. induction H; intros [|i]; cbn; try discriminate; [intros E F; injection E as <-; injection F as <-; assumption|apply IHForall2]. Qed.

Lemma firstn_map' {A B} (f : A -> B) l i : map f (firstn i l) = firstn i (map f l).
Proof. revert i. induction l; intros [|i]; cbn; congruence. Qed.

Lemma forall2_snoc {A B} (R : A -> B -> Prop) l l' x y : Forall2 R l l' -> R x y -> Forall2 R (l ++ [x]) (l' ++ [y]).
Proof. intros. apply Forall2_app; auto. Qed.

Lemma sim_step s p ts x : sim s p ts -> no_precompile x ->
  match_out (step s x) (sstep p x) (fun s' p' => exists ts', sim s' p' ts').
Proof.
  intros [I R C Nx Ids Sv] Np.
  assert (Ord : ordinary x -> match_out (step s x) (sstep p x) (fun s' p' => exists ts', sim s' p' ts')).
  { intro Or. pose proof (step_sim s p x (i_ok _ _ _ I) R C Or Np) as H. unfold match_out in *.
    destruct (step s x) as [[o s']| |], (sstep p x) as [[o' p']| |]; try contradiction; auto.
    destruct H as (-> & G & R' & (E1 & E2 & E3 & E4)). split; [reflexivity|]. exists ts. constructor.
    - eapply inv_good; eassumption.
    - exact R'.
    - destruct C as [C1 C2]. split; [intros; rewrite E3, (g_ctx _ _ _ G); apply C1|rewrite E4, (g_base _ _ _ G); exact C2].
    - rewrite E2, (g_next _ _ _ G). exact Nx.
    - rewrite E1, (g_revs _ _ _ G). exact Ids.
    - rewrite E1. exact Sv. }
  destruct x; try (apply Ord; exact Logic.I).
  - cbn [Model.step Spec.sstep]. destruct (snapshot s) as [id s'] eqn:E. destruct (inv_snapshot _ _ _ _ _ I E) as [-> I'].
    unfold snapshot in E. injection E as E. cbn. split; [congruence|]. exists (ts ++ [s]). subst s'. constructor; cbn.
    + exact I'.
    + destruct R. constructor; auto. intro a. rewrite (see_ext keccak _ s a) by reflexivity. apply r_acct0.
    + exact C.
    + rewrite Nx. reflexivity.
    + rewrite !map_app, Ids, Nx. reflexivity.
    + apply forall2_snoc; [exact Sv|exact R].
  - cbn [Model.step Spec.sstep]. pose proof (revert_spec keccak s ts id I) as H. pose proof (find_saved_spec (p_saved p) id) as F.
    destruct (revert_to_snapshot keccak s id) as [s'| |]; [|contradiction|].
    + destruct H as (i & n & t & E & Et & Q & I' & Rv & Nx'). cbn [rbind].
      assert (Nd : NoDup (map fst (p_saved p))) by (rewrite <- Ids; apply ids_nodup; apply I).
      assert (Ei : nth_error (map fst (p_saved p)) i = Some id) by (rewrite <- Ids; apply (map_nth_error fst) in E; exact E).
      destruct (find_saved (p_saved p) id) as [[b w]|]; [|exfalso; apply F; eapply nth_error_In; exact Ei].
      destruct F as (j & Ej & -> & _). assert (j = i).
      { eapply nodup_nth_eq; [exact Nd| |exact Ei]. apply (map_nth_error fst) in Ej. exact Ej. }
      subst j. pose proof (forall2_nth_both _ _ _ _ _ _ Sv Et Ej) as Rt. cbn in Rt.
      split; [reflexivity|]. exists (firstn i ts). constructor; cbn.
      * exact I'.
      * eapply rel_ceq; eassumption.
      * destruct (forall2_nth _ _ _ _ _ (i_revs _ _ _ I) E) as (t2 & Et2 & (_ & _ & _ & Ct & Bt)). assert (t2 = t) by congruence. subst t2.
        destruct C as [C1 C2]. split; cbn; [intros; rewrite (q_ctx _ _ _ Q), Ct; apply C1|rewrite (q_base _ _ _ Q), Bt; exact C2].
      * rewrite Nx'. exact Nx.
      * rewrite Rv, !firstn_map', Ids. reflexivity.
      * apply forall2_firstn. exact Sv.
    + cbn. destruct (find_saved (p_saved p) id) as [[b w]|]; [|exact Logic.I]. destruct F as (j & Ej & _). apply H. rewrite Ids.
      apply in_map_iff. exists (id, w). split; [reflexivity|]. eapply nth_error_In. exact Ej.
Qed.

Lemma sim0 st lb : sim (new_db st lb) (spec0 keccak st lb) [].
Proof.
  constructor; cbn; auto.
  - apply inv_new.
  - constructor; cbn; auto.
    intro a. unfold Spec.see, Model.get_obj. cbn. unfold k_account. destruct (st_acct st a); cbn; [|exact I].
    acc6; cbn; auto; try (intro; reflexivity).
    rewrite code_of_at. cbn. unfold code_at, empty_hash, k_code. reflexivity.
  - split; reflexivity.
Qed.

Theorem run_sim ops : forall s p ts, sim s p ts -> Forall no_precompile ops ->
  match run s ops, srun p ops with
  | Ok (os, s'), Ok (os', p') => os = os' /\ exists ts', sim s' p' ts'
  | Panic, Panic => True
  | _, _ => False
  end.
Proof.
  induction ops as [|x ops IH]; intros s p ts S F; cbn [Model.run Spec.srun]; [eauto|].
  pose proof (sim_step s p ts x S (Forall_inv F)) as H. unfold match_out in H.
  destruct (step s x) as [[o s1]| |], (sstep p x) as [[o' p1]| |]; try contradiction; [|exact I]. cbn [rbind].
  destruct H as (-> & ts1 & S1). specialize (IH s1 p1 ts1 S1 (Forall_inv_tail F)).
  destruct (run s1 ops) as [[os s2]| |], (srun p1 ops) as [[os' p2]| |]; try contradiction; [|exact I]. cbn [rbind].
  destruct IH as (-> & S2). auto.
Qed.

(* ---------- with precompiles that succeed ---------- *)

Lemma inv_step s ts x o s' : inv s ts -> no_inner_commit x -> o <> OPre PreFailed -> step s x = Ok (o, s') ->
  exists ts', inv s' ts' /\
    match x with
    | Snapshot => ts' = ts ++ [s] /\ d_revs s' = d_revs s ++ [(d_next s, length (d_journal s))] /\ d_next s' = (d_next s + 1)%N /\ o = ONat (d_next s)
    | RevertToSnapshot id => exists i n t, nth_error (d_revs s) i = Some (id, n) /\ nth_error ts i = Some t /\ ceq s' t /\
                             ts' = firstn i ts /\ d_revs s' = firstn i (d_revs s) /\ d_next s' = d_next s
    | _ => ts' = ts /\ d_revs s' = d_revs s /\ d_next s' = d_next s
    end.
Proof.
  intros I Ni Nf H.
  assert (Ord : ordinary x -> exists ts', inv s' ts' /\ ts' = ts /\ d_revs s' = d_revs s /\ d_next s' = d_next s).
  { intro Or. pose proof (step_good keccak s x o s' (i_ok _ _ _ I) Or Ni Nf H) as G. exists ts.
    split; [eapply inv_good; eassumption|]. split; [reflexivity|]. split; apply G. }
  destruct x; try (apply Ord; exact Logic.I).
  - cbn [Model.step] in H. destruct (snapshot s) as [id s1] eqn:E. injection H as <- <-.
    destruct (inv_snapshot _ _ _ _ _ I E) as [-> I']. unfold snapshot in E. injection E as <-. eexists; split; [exact I'|]. repeat split.
  - cbn [Model.step] in H. pose proof (revert_spec keccak s ts id I) as R. destruct (revert_to_snapshot keccak s id) as [s1| |]; try discriminate.
    injection H as <- <-. destruct R as (i & n & t & A & B & C & D & E & F). exists (firstn i ts). split; [exact D|]. exists i, n, t. auto 10.
Qed.

Lemma nth_error_firstn' {A} (l : list A) i j : (i < j)%nat -> nth_error (firstn j l) i = nth_error l i.
Proof.
  revert i j. induction l as [|x l IH]; intros i [|j] H; try lia; [destruct i; reflexivity|].
  destruct i as [|i]; [reflexivity|]. cbn. apply IH. lia.
Qed.

(* a snapshot at position i of the list survives as long as no earlier or equal one is reverted to *)
Lemma live_run ops : forall s ts os s' i id n t, inv s ts -> nth_error (d_revs s) i = Some (id, n) -> nth_error ts i = Some t ->
  Forall no_inner_commit ops -> none_failed os -> (forall j, In (RevertToSnapshot j) ops -> (id < j)%N) ->
  run s ops = Ok (os, s') ->
  exists ts', inv s' ts' /\ nth_error (d_revs s') i = Some (id, n) /\ nth_error ts' i = Some t.
Proof.
  induction ops as [|x ops IH]; intros s ts os s' i id n t I E Et F Nf Hj H; cbn [Model.run] in H; [injection H as <- <-; eauto|].
  apply rbind_inv in H as ([o s1] & H1 & H2). apply rbind_inv in H2 as ([os1 s2] & H2 & H3). injection H3 as <- <-.
  assert (No : o <> OPre PreFailed) by (intro X; apply Nf; left; exact X).
  assert (No' : none_failed os1) by (intro X; apply Nf; right; exact X).
  destruct (inv_step s ts x o s1 I (Forall_inv F) No H1) as (ts1 & I1 & M).
  assert (Live : nth_error (d_revs s1) i = Some (id, n) /\ nth_error ts1 i = Some t).
  { destruct x; try (destruct M as (-> & -> & _); split; assumption).
    - destruct M as (-> & -> & _). split; rewrite nth_error_app1; auto; apply nth_error_Some; congruence.
    - destruct M as (j & m & u & A & B & _ & -> & -> & _). assert (L : (i < j)%nat).
      { assert (Lt : (id < id0)%N) by (apply Hj; left; reflexivity).
        destruct (Nat.lt_ge_cases i j) as [|Ge]; [assumption|]. exfalso.
        destruct (Nat.eq_dec i j) as [->|Ne]; [rewrite E in A; injection A; lia|].
        assert (R : rle (id0, m) (id, n)).
        { eapply ssorted_before; [apply I|exact E|]. apply nth_error_In with (n := j). rewrite nth_error_firstn' by lia. exact A. }
        destruct R as [R _]. cbn in R. lia. }
      split; rewrite nth_error_firstn' by lia; assumption. }
  destruct Live as [L1 L2].
  eapply (IH s1 ts1 os1 s2 i id n t I1 L1 L2 (Forall_inv_tail F) No'); [|exact H2]. intros j X. apply Hj. right. exact X.
Qed.
End Keccak.
