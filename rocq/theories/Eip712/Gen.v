(* What the generated types look like. *)
From Coq Require Import String Ascii NArith Sorted Permutation.
From Verif Require Import Lib.Base Lib.Bytes Lib.Codec Lib.Dec
  Eip712.Model Eip712.Spec Eip712.Proofs Eip712.Inject.
Open Scope Z_scope.

Lemma some_inj {A} (x y : A) : Some x = Some y -> x = y.
Proof. congruence. Qed.

Ltac conjs := repeat match goal with |- _ /\ _ => split end.

Section Gen.
Variable title : bytes -> bytes.
Hypothesis title_letters : forall b, letters b -> letters (title b).
Hypothesis title_upper : forall c b, is_upper c = true -> letters (c :: b) -> title (c :: b) = c :: b.

Notation sanitize := (sanitize title).
Notation gen := (gen title).
Notation run := (run title).

Lemma letters_app a b : letters (a ++ b) <-> letters a /\ letters b.
Proof. apply Forall_app. Qed.

Lemma letters_concat l : Forall letters l -> letters (concat l).
Proof. induction 1; cbn; [constructor|]. apply letters_app. auto. Qed.

Lemma letters_plain b : letters b -> plain b.
Proof. apply Forall_impl. intros c H. apply andb_prop in H. tauto. Qed.

Lemma split_letters b : plain b -> Forall letters (split_on 95%N b).
Proof.
  induction 1 as [|c b W P IH]; cbn; [repeat constructor|].
  destruct (N.eqb_spec c 95) as [->|NE]; [constructor; auto; constructor|].
  assert (letter c = true) as L.
  { unfold letter. rewrite W. apply N.eqb_neq in NE. rewrite NE. reflexivity. }
  destruct (split_on 95 b) as [|p ps]; [repeat constructor; auto|].
  inversion IH; subst. constructor; auto. constructor; auto.
Qed.

Lemma split_none c b : ~ In c b -> split_on c b = [b].
Proof.
  induction b as [|x b IH]; cbn; auto. intros H.
  destruct (N.eqb_spec x c); [subst; tauto|]. rewrite IH by tauto. auto.
Qed.

Lemma type_letters : letters (text "Type").
Proof. repeat constructor. Qed.

Definition type_name (nm : bytes) : Prop := exists s, nm = text "Type" ++ s.

Lemma sanitize_letters ps : Forall plain ps -> letters (sanitize ps).
Proof.
  intros H. unfold Model.sanitize. apply letters_concat. apply Forall_map.
  eapply Forall_impl; [|exact H]. intros p P. cbv beta.
  destruct (beqb p root_prefix); [apply type_letters|].
  apply letters_concat. apply Forall_map. eapply Forall_impl; [|apply split_letters; exact P].
  auto.
Qed.

Lemma sanitize_root ps : type_name (sanitize (root_prefix :: ps)).
Proof. unfold type_name, Model.sanitize. cbn [map concat]. rewrite beqb_refl. eauto. Qed.

Lemma sanitize_again nm : type_name nm -> letters nm -> sanitize [nm] = nm.
Proof.
  intros [s ->] L. unfold Model.sanitize. cbn [map concat].
  change (beqb (text "Type" ++ s) root_prefix) with false. cbv iota.
  rewrite split_none.
  - cbn [map concat]. rewrite !app_nil_r. apply (title_upper 84%N (text "ype" ++ s)); auto.
  - intros I. unfold letters in L. rewrite Forall_forall in L. apply L in I. discriminate.
Qed.

Lemma udec_letters z : 0 <= z -> letters (udec z).
Proof.
  intros H. eapply Forall_impl; [|apply udec_digits; auto]. intros c D. cbv beta in D.
  unfold letter, is_word. rewrite D. rewrite orb_true_r. cbn [orb andb].
  destruct (N.eqb_spec c 95); auto. subst. discriminate.
Qed.

(* ---- growing sets of types ---- *)
Definition ext (T T' : types) : Prop :=
  forall n fs, n <> tx_name -> get n T = Some fs -> get n T' = Some fs.

Lemma ext_refl T : ext T T.
Proof. red; auto. Qed.

Lemma ext_trans A B C : ext A B -> ext B C -> ext A C.
Proof. unfold ext. eauto. Qed.

Inductive describes (T : types) : tref -> json -> Prop :=
| ds_bool b : describes T (t_bool, false) (JBool b)
| ds_num z : describes T (t_int64, false) (JNum z)
| ds_str s : describes T (t_string, false) (JStr s)
| ds_empty : describes T (t_string, true) (JArr [])
| ds_arr b x l : describes T (b, false) x -> describes T (b, true) (JArr (x :: l))
| ds_obj b fs kvs : b <> tx_name -> get b T = Some fs ->
    (forall k t, In (k, t) fs -> get k kvs <> None) ->
    (forall k t v, In (k, t) fs -> get k kvs = Some v -> describes T t v) ->
    describes T (b, false) (JObj kvs).

Lemma describes_ext T T' t j : ext T T' -> describes T t j -> describes T' t j.
Proof. intros E. induction 1; econstructor; eauto. Qed.

Lemma describes_typed T t g : good T -> describes T t g -> forall j, fits g j -> typed T t j.
Proof.
  intros G. pose proof G as (_ & N1 & N2 & N3). induction 1 as [b|z|s| |b x l D IH|b fs kvs NE E P D IH];
    intros j F.
  - apply typed_prim; auto. discriminate.
  - apply typed_prim; auto. intros _. destruct j; cbn in F; try tauto. eauto.
  - apply typed_prim; auto. discriminate.
  - apply typed_array. intros l x -> I. apply typed_prim; auto. discriminate.
  - apply typed_array. intros l0 y -> I. apply IH. cbn in F. rewrite Forall_forall in F. auto.
  - eapply typed_struct; eauto. intros kvs' k t v -> I V.
    destruct (get k kvs) as [v0|] eqn:V0; [|edestruct P; eauto].
    eapply IH; eauto. cbn [fits] in F. apply get_in in V0. clear -F V0 V.
    induction kvs as [|[k' x] r IH]; [destruct V0|]. cbn in F. destruct F as [F1 F2].
    destruct V0 as [[= -> ->]|V0]; auto. cbn in F1. rewrite V in F1. auto.
Qed.

(* Every type has its fields once, with plain names; names of types are the four
   fixed ones or begin with "Type". *)
Definition tinv (T : types) : Prop :=
  (forall nm fs, get nm T = Some fs ->
     NoDup (map fst fs) /\ Forall plain (map fst fs)
     /\ (type_name nm \/ In nm [text "EIP712Domain"; tx_name; text "Fee"; text "Coin"])).

Lemma fields_eqb_eq a : forall b, fields_eqb a b = true -> a = b.
Proof.
  induction a as [|[k [n x]] a IH]; intros [|[k' [n' x']] b] H; cbn in H; try discriminate; auto.
  apply andb_prop in H. destruct H as [H H3]. apply andb_prop in H. destruct H as [H1 H2].
  unfold tref_eqb in H2. cbn in H2. apply andb_prop in H2. destruct H2 as [H2 H4].
  apply beqb_spec in H1, H2. apply eqb_prop in H4. subst. f_equal. auto.
Qed.

Lemma add_from_inv fuel : forall i T def fs T' nm, 0 <= i -> type_name def ->
  tinv T -> NoDup (map fst fs) -> Forall plain (map fst fs) ->
  add_from fuel i T def fs = Ok (T', nm) ->
  tinv T' /\ ext T T' /\ get nm T' = Some fs /\ type_name nm /\ (letters def -> letters nm)
  /\ get tx_name T' = get tx_name T.
Proof.
  induction fuel as [|fuel IH]; intros i T def fs T' nm I D V N P H; [discriminate|].
  cbn [add_from] in H. cbv zeta in H.
  assert (TN : type_name (def ++ udec i)).
  { destruct D as [s ->]. exists (s ++ udec i). rewrite app_assoc. auto. }
  assert (LL : letters def -> letters (def ++ udec i)).
  { intros L. apply letters_app. split; auto. apply udec_letters; auto. }
  destruct (get (def ++ udec i) T) as [fs'|] eqn:G.
  - destruct (fields_eqb fs fs') eqn:E.
    + apply fields_eqb_eq in E. injection H as <- <-. subst fs'.
      conjs; auto using ext_refl; eapply V; eauto.
    + apply (IH (i + 1) T def fs T' nm); auto; lia.
  - injection H as <- <-.
    assert (X : forall k, get k (T ++ [(def ++ udec i, fs)]) =
      match get k T with Some v => Some v | None => if beqb k (def ++ udec i) then Some fs else None end).
    { intros k. rewrite get_app. cbn. auto. }
    conjs; auto.
    + intros n0 f A. rewrite X in A. destruct (get n0 T) eqn:B.
      * injection A as <-. eapply V; eauto.
      * destruct (beqb n0 (def ++ udec i)) eqn:B2; [|discriminate]. injection A as <-.
        apply beqb_spec in B2. subst. auto.
    + intros k f _ A. rewrite X, A. auto.
    + rewrite X, G, beqb_refl. auto.
    + rewrite X. destruct (get tx_name T) eqn:B; auto.
      destruct (beqb tx_name (def ++ udec i)) eqn:B2; auto. apply beqb_spec in B2.
      destruct TN as [s S]. rewrite S in B2. discriminate.
Qed.

(* ---- sorting keeps the entries ---- *)
Lemma insert_desc_perm {A} (x : bytes * A) l : Permutation (insert_desc x l) (x :: l).
Proof.
  induction l as [|y l IH]; cbn; auto. destruct (bltb (fst x) (fst y)); auto.
  rewrite IH. apply perm_swap.
Qed.

Lemma sort_desc_perm {A} (l : list (bytes * A)) : Permutation (sort_desc l) l.
Proof.
  induction l as [|x l IH]; cbn; auto. rewrite insert_desc_perm. auto.
Qed.

(* ---- the recursion ---- *)
Definition gen_ok (root : bytes) (j : json) : Prop := forall rest T T' nm,
  Forall plain rest -> tinv T -> canonical j ->
  gen root j (root_prefix :: rest) T = Ok (T', nm) ->
  tinv T' /\ ext T T' /\ get tx_name T' = get tx_name T /\ type_name nm
  /\ (rest <> [] -> letters nm) /\ describes T' (nm, false) j.

Definition gen_ok2 (root : bytes) (j : json) : Prop :=
  gen_ok root j /\ match j with JArr (x :: _) => gen_ok root x | _ => True end.

Definition plan_ok (root : bytes) (v : json) (p : plan) : Prop :=
  match p with
  | PSkip => True
  | PFixed t => forall T, describes T t v
  | PStruct arr g => exists x, g = gen root x /\ gen_ok root x /\ canonical x
      /\ (if arr then exists l, v = JArr (x :: l) else v = x)
  end.

Lemma root_plain : plain root_prefix.
Proof. repeat constructor. Qed.

Lemma run_inv root kvs rest : Forall plain rest -> forall ps T T' fs,
  Forall (fun kp => plain (fst kp) /\ exists v, get (fst kp) kvs = Some v /\ plan_ok root v (snd kp)) ps ->
  NoDup (map fst ps) -> tinv T -> run ps (root_prefix :: rest) T = Ok (T', fs) ->
  tinv T' /\ ext T T' /\ get tx_name T' = get tx_name T
  /\ NoDup (map fst fs) /\ incl (map fst fs) (map fst ps)
  /\ (forall k t, In (k, t) fs -> exists v, get k kvs = Some v /\ describes T' t v).
Proof.
  intros R. induction ps as [|[k p] ps IH]; intros T T' fs F N V H.
  - cbn in H. injection H as <- <-. conjs; auto using ext_refl; cbn; try constructor.
    intros x []. intros k t [].
  - inversion F as [|? ? [P1 (v & G & PO)] F']; subst. cbn in N. inversion N as [|? ? N1 N2]; subst.
    cbn [fst snd] in *. destruct p as [|t|arr g]; cbn [Model.run] in H.
    + destruct (IH _ _ _ F' N2 V H) as (A & B & B' & C & D & E).
      conjs; auto. apply incl_tl. auto.
    + apply rbind_ok in H. destruct H as ([T2 fs2] & H & [= <- <-]).
      destruct (IH _ _ _ F' N2 V H) as (A & B & B' & C & D & E).
      conjs; auto; cbn [map fst In].
      * constructor; auto.
      * intros x [<-|X]; [left; auto|right; auto].
      * intros k0 t0 [[= <- <-]|X]; [|auto]. exists v. auto.
    + destruct PO as (x & -> & GO & CX & PO).
      apply rbind_ok in H. destruct H as ([T1 nm] & H1 & H).
      apply rbind_ok in H. destruct H as ([T2 fs2] & H & [= <- <-]).
      assert (R' : Forall plain (rest ++ [k])) by (apply Forall_app; auto).
      destruct (GO (rest ++ [k]) T T1 nm R' V CX H1) as (A1 & B1 & B1' & C1 & D1 & E1).
      assert (L : letters nm) by (apply D1; destruct rest; discriminate).
      destruct (IH _ _ _ F' N2 A1 H) as (A & B & B' & C & D & E).
      conjs; auto; cbn [map fst In].
      * eapply ext_trans; eauto.
      * congruence.
      * constructor; auto.
      * intros y [<-|X]; [left; auto|right; auto].
      * intros k0 t0 [[= <- <-]|X]; [|auto]. exists v. split; auto.
        rewrite sanitize_again by auto. apply (describes_ext T1); auto.
        destruct arr; [destruct PO as [l ->]; apply ds_arr; auto|subst; auto].
Qed.

Lemma NoDup_sorted (l : list bytes) : StronglySorted blt l -> NoDup l.
Proof.
  induction 1 as [|x l S IH F]; constructor; auto. intros I.
  rewrite Forall_forall in F. apply F in I. eapply blt_irrefl; eauto.
Qed.

Lemma nodup_get {A} (l : list (bytes * A)) k v : NoDup (map fst l) -> In (k, v) l -> get k l = Some v.
Proof.
  induction l as [|[k' a] l IH]; cbn; [intros _ []|]. intros N [[= -> ->]|I].
  - rewrite beqb_refl. auto.
  - inversion N; subst. destruct (beqb k k') eqn:E; auto. apply beqb_spec in E. subst.
    apply (in_map fst) in I. cbn in I. tauto.
Qed.

Lemma gen_all root : type_name root -> forall j, gen_ok2 root j.
Proof.
  intros RT. induction j using json_ind2; split; try exact I;
    try (intros rest T T' nm R V C H'; discriminate).
  - destruct l as [|x l]; auto. inversion H; subst. match goal with X : gen_ok2 root x |- _ => apply X end.
  - intros rest T T' nm R V C HG. cbn [Model.gen] in HG. cbv zeta beta in HG.
    apply rbind_ok in HG. destruct HG as ([T1 fs] & HR & HA).
    match type of HR with run (sort_desc ?p) _ _ = _ => set (ps := p) in * end.
    destruct C as (S & PL & CF).
    assert (CE : forall k v, In (k, v) kvs -> canonical v).
    { clear -CF. induction kvs as [|x r IH]; [intros ? ? []|]. cbn in CF. destruct CF as [C CF].
      intros k v [-> |I]; eauto. }
    assert (MF : map fst ps = map fst kvs).
    { unfold ps. rewrite map_map. apply map_ext. auto. }
    assert (ND : NoDup (map fst kvs)) by (apply NoDup_sorted; auto).
    destruct (run_inv root kvs rest R (sort_desc ps) T T1 fs) as (A & B & B' & N & IN & D); auto.
    + apply (Permutation_Forall (Permutation_sym (sort_desc_perm ps))).
      apply Forall_forall. intros [k p] I. unfold ps in I. apply in_map_iff in I.
      destruct I as ([k' v] & [= <- <-] & I). cbn [fst snd].
      split; [rewrite Forall_forall in PL; apply PL; apply (in_map fst) in I; exact I|].
      exists v. split; [apply nodup_get; auto|].
      rewrite Forall_forall in H. pose proof (H _ I) as [G1 G2]. cbn [snd] in G1, G2.
      pose proof (CE _ _ I) as CV.
      destruct v as [ | b | z | s | l | kv']; cbn [plan_ok]; auto; try (intros; constructor).
      * destruct l as [|x l]; [intros; constructor|].
        destruct x as [ | b | z | s | l' | kv']; cbn [plan_ok]; auto; try (intros; constructor; constructor).
        exists (JObj kv'). split; auto. split; auto. split; [|eauto].
        apply (canonical_items (JObj kv' :: l)); [exact CV|left; auto].
      * exists (JObj kv'). auto.
    + apply (Permutation_NoDup (l := map fst ps)); [|rewrite MF; auto].
      apply Permutation_map, Permutation_sym, sort_desc_perm.
    + assert (IN' : incl (map fst fs) (map fst kvs)).
      { intros x X. apply IN in X. rewrite <- MF.
        eapply Permutation_in; [|exact X]. apply Permutation_map, sort_desc_perm. }
      destruct (add_from_inv max_duplicates 0 T1 (type_def title (root_prefix :: rest) root) fs T' nm)
        as (A2 & B2 & C2 & D2 & E2 & F2); auto; try lia.
      * unfold type_def. destruct rest as [|r rest]; [rewrite beqb_refl; auto|apply sanitize_root].
      * apply Forall_forall. intros x X. rewrite Forall_forall in PL. auto.
      * split; auto. split; [eapply ext_trans; eauto|]. split; [congruence|]. split; auto. split.
        -- intros NE. apply E2. unfold type_def. destruct rest; [tauto|].
           apply sanitize_letters. constructor; auto using root_plain.
        -- eapply ds_obj; eauto.
           ++ destruct D2 as [s ->]. discriminate.
           ++ intros k t X. destruct (D _ _ X) as (v & Gv & _). congruence.
           ++ intros k t v X Y. destruct (D _ _ X) as (v' & Gv & Dv). rewrite Y in Gv.
              injection Gv as <-. eapply describes_ext; eauto.
Qed.

(* ---- all messages ---- *)
Definition tx_base : list field :=
  [(text "account_number", (t_string, false)); (text "chain_id", (t_string, false));
   (text "fee", (text "Fee", false)); (text "memo", (t_string, false));
   (text "sequence", (t_string, false))].

(* Names of the message types, in order. *)
Definition tx_fields (nms : list bytes) (i : nat) : list field :=
  map (fun p => (msg_field (fst p), (snd p, false))) (combine (List.seq i (List.length nms)) nms).

Lemma get_add_tx T f nm k : get k (add_tx_field T f nm) =
  if beqb k tx_name then option_map (fun fs => fs ++ [(f, (nm, false))]) (get k T) else get k T.
Proof.
  unfold add_tx_field. induction T as [|[n fs] T IH]; cbn [map get]; [destruct (beqb k tx_name); auto|].
  cbn [fst snd]. destruct (beqb n tx_name) eqn:E; cbn [get fst snd].
  - apply beqb_spec in E. subst n. destruct (beqb k tx_name); auto.
  - destruct (beqb k n) eqn:E2; auto. apply beqb_spec in E2. subst. rewrite E. auto.
Qed.

Lemma msg_field_inj i j : msg_field i = msg_field j -> i = j.
Proof.
  unfold msg_field. intros H. apply app_inv_head in H. apply udec_inj in H; lia.
Qed.

Lemma msg_field_plain i : plain (msg_field i).
Proof.
  unfold msg_field, plain. apply Forall_app. split; [repeat constructor|].
  apply letters_plain, udec_letters. lia.
Qed.

Lemma msg_field_not i nm : In nm (map fst tx_base ++ [text "msgs"]) -> msg_field i <> nm.
Proof.
  clear title title_letters title_upper.
  intros H. assert (exists c r, udec (Z.of_nat i) = c :: r /\ is_digit c = true) as (c & r & E & D).
  { pose proof (udec_nonempty (Z.of_nat i)) as NE.
    pose proof (udec_digits (Z.of_nat i) ltac:(lia)) as DG.
    destruct (udec (Z.of_nat i)) as [|c r]; [tauto|]. inversion DG; eauto. }
  unfold msg_field. rewrite E. cbn in H.
  repeat (destruct H as [<-|H]; [try (vm_compute; discriminate);
    cbn; intros X; injection X as X; subst c; discriminate|]). destruct H.
Qed.

Lemma root_type m root : msg_root_type m = Ok root -> type_name root.
Proof.
  unfold msg_root_type, type_name. destruct (get (text "type") m) as [[]|]; try discriminate.
  destruct (beqb s []); [discriminate|]. intros H. apply ok_inj in H. eauto.
Qed.

Lemma gen_msgs_inv kvs : forall n i T T',
  (forall k m, get k kvs = Some m -> canonical m) -> tinv T ->
  (exists fs, get tx_name T = Some (tx_base ++ fs) /\ incl (map fst fs) (map msg_field (List.seq 0 i))) ->
  gen_msgs title n i kvs T = Ok T' ->
  tinv T' /\ ext T T' /\
  exists nms, List.length nms = n
    /\ get tx_name T' = option_map (fun fs => fs ++ tx_fields nms i) (get tx_name T)
    /\ (forall p nm, nth_error nms p = Some nm ->
          exists m, get (msg_field (i + p)) kvs = Some m /\ describes T' (nm, false) m).
Proof.
  induction n as [|n IH]; intros i T T' C V X H.
  - cbn in H. injection H as <-. split; auto. split; [apply ext_refl|]. exists []. split; auto.
    split; [|intros [] ? ?; discriminate]. unfold tx_fields.
    destruct (get tx_name T); cbn [option_map List.length List.seq combine map]; rewrite ?app_nil_r; auto.
  - cbn [gen_msgs] in H. destruct (get (msg_field i) kvs) as [[ | | | | |m]|] eqn:G; try discriminate.
    apply rbind_ok in H. destruct H as (root & HR & H). apply rbind_ok in H. destruct H as ([T1 nm] & HG & H).
    apply root_type in HR.
    destruct (proj1 (gen_all root HR (JObj m)) [] T T1 nm) as (A & B & B' & TN & _ & D); auto.
    { eapply C; eauto. }
    set (T2 := add_tx_field T1 (msg_field i) nm) in *.
    assert (E12 : ext T1 T2).
    { intros k fs NE Gk. unfold T2. rewrite get_add_tx. apply beqb_neq in NE. rewrite NE. auto. }
    destruct X as (fs & X1 & X2).
    assert (GT : get tx_name T2 = Some (tx_base ++ fs ++ [(msg_field i, (nm, false))])).
    { unfold T2. rewrite get_add_tx, beqb_refl, B', X1. cbn [option_map]. rewrite app_assoc. auto. }
    assert (V2 : tinv T2).
    { intros k f Gk. destruct (beqb k tx_name) eqn:E.
      - apply beqb_spec in E. subst k. rewrite GT in Gk. apply some_inj in Gk. subst f.
        destruct (V _ _ X1) as (N & P & _). rewrite !map_app in *.
        change (map fst [(msg_field i, (nm, false))]) with [msg_field i].
        conjs; [| |right; right; left; auto].
        + rewrite app_assoc. apply (Permutation_NoDup (l := msg_field i :: map fst tx_base ++ map fst fs)).
          * apply Permutation_cons_append.
          * constructor; auto. intros I. apply in_app_or in I. destruct I as [I|I].
            -- eapply (msg_field_not i); [|reflexivity]. apply in_or_app. auto.
            -- apply X2 in I. apply in_map_iff in I. destruct I as (q & E & I).
               apply msg_field_inj in E. subst. apply in_seq in I. lia.
        + rewrite app_assoc. apply Forall_app. split; auto. constructor; auto. apply msg_field_plain.
      - unfold T2 in Gk. rewrite get_add_tx, E in Gk. eapply A; eauto. }
    destruct (IH (S i) T2 T') as (V3 & E3 & nms & L & GN & DN); auto.
    { exists (fs ++ [(msg_field i, (nm, false))]). split; [rewrite GT; auto|].
      rewrite map_app. cbn [map fst]. rewrite seq_S, map_app. cbn [map].
      apply incl_app; [apply incl_appl; auto|]. intros y [<-|[]]. apply in_or_app. right. left. auto. }
    split; auto. split; [eapply ext_trans; [exact B|]; eapply ext_trans; eauto|].
    exists (nm :: nms). split; [cbn; auto|]. split.
    + rewrite GN, GT, X1. cbn [option_map]. f_equal. unfold tx_fields. cbn [List.length List.seq combine map fst snd].
      rewrite <- !app_assoc. reflexivity.
    + intros [|p] nm' E; cbn in E.
      * injection E as <-. exists (JObj m). rewrite Nat.add_0_r. split; auto.
        apply (describes_ext T1); auto. eapply ext_trans; eauto.
      * destruct (DN _ _ E) as (m' & Gm & Dm). exists m'. rewrite <- Nat.add_succ_comm. auto.
Qed.

Fixpoint distinct (l : list bytes) : bool :=
  match l with [] => true | x :: r => negb (mem x r) && distinct r end.

Lemma distinct_spec l : distinct l = true -> NoDup l.
Proof.
  induction l as [|x r IH]; cbn; [constructor|]. intros H. apply andb_prop in H. destruct H as [H1 H2].
  constructor; auto. intros I. apply negb_true_iff in H1.
  assert (mem x r = true); [|congruence]. apply existsb_exists. exists x. rewrite beqb_refl. auto.
Qed.

Lemma plain_spec l : forallb (forallb is_word) l = true -> Forall plain l.
Proof.
  intros H. rewrite forallb_forall in H. apply Forall_forall. intros x X. apply H in X.
  rewrite forallb_forall in X. apply Forall_forall. auto.
Qed.

Lemma base_tinv : tinv base_types.
Proof.
  assert (A : forallb (fun e => distinct (map fst (snd e)) && forallb (forallb is_word) (map fst (snd e))
    && mem (fst e) [text "EIP712Domain"; tx_name; text "Fee"; text "Coin"]) base_types = true)
    by (vm_compute; reflexivity).
  intros nm fs H. apply get_in in H. rewrite forallb_forall in A. apply A in H.
  apply andb_prop in H. destruct H as [H H3]. apply andb_prop in H. destruct H as [H1 H2].
  split; [apply distinct_spec; auto|]. split; [apply plain_spec; auto|]. right.
  apply existsb_exists in H3. destruct H3 as (x & I & E). apply beqb_spec in E. cbn [fst] in E. subst. auto.
Qed.
End Gen.
