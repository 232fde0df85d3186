(** Proofs for C112. *)
From Verif Require Import Lib.Base Lib.Bytes Lib.Codec Ethmsg.Rlp Ethmsg.Model Ethmsg.Spec.
From Coq Require Import NArith Lia ZArith.
Open Scope Z_scope.

(** ** Parts of the byte form *)

Lemma d_num_r x : 0 <= x -> d_num (r_num x) = Some x.
Proof. intros H. unfold d_num, r_num. rewrite bemin_lead, unbe_bemin by exact H. reflexivity. Qed.

Lemma d_u64_r x : 0 <= x < 2 ^ 64 -> d_u64 (r_num x) = Some x.
Proof.
  intros H. unfold d_u64. rewrite d_num_r by lia. cbn [obind].
  destruct (x <? 2 ^ 64) eqn:E; [reflexivity|lia].
Qed.

Lemma d_num_inv r x : rlp_ok r -> d_num r = Some x -> r = r_num x /\ 0 <= x.
Proof.
  destruct r as [b|l]; [|discriminate]. cbn [rlp_ok d_num]. intros Hb H.
  destruct (no_lead b) eqn:E; [|discriminate]. assert (unbe b = x) as <- by congruence.
  split; [|apply unbe_nonneg]. unfold r_num. rewrite bemin_unbe; auto.
Qed.

Lemma d_u64_inv r x : rlp_ok r -> d_u64 r = Some x -> r = r_num x /\ 0 <= x < 2 ^ 64.
Proof.
  unfold d_u64. intros Hr H. destruct (d_num r) as [y|] eqn:E; [|discriminate]. cbn [obind] in H.
  destruct (y <? 2 ^ 64) eqn:L; [|discriminate]. assert (y = x) as -> by congruence.
  apply d_num_inv in E; [|exact Hr]. destruct E. split; [assumption|lia].
Qed.

Lemma d_fix_r n b : fixed n b -> d_fix n (RStr b) = Some b.
Proof. intros [_ L]. cbn [d_fix]. rewrite L, Z.eqb_refl. reflexivity. Qed.

Lemma d_fix_inv n r b : rlp_ok r -> d_fix n r = Some b -> r = RStr b /\ fixed n b.
Proof.
  destruct r as [c|l]; [|discriminate]. cbn [d_fix rlp_ok]. intros Hc H.
  destruct (blen c =? n) eqn:E; [|discriminate]. assert (c = b) as -> by congruence.
  split; [reflexivity|]. split; [assumption|lia].
Qed.

Lemma d_to_r o : match o with Some a => fixed 20 a | None => True end -> d_to (r_to o) = Some o.
Proof.
  destruct o as [a|]; [|reflexivity]. intros H. unfold d_to, r_to.
  destruct a as [|x a]; [destruct H as [_ H]; rewrite blen_nil in H; lia|].
  rewrite d_fix_r by exact H. reflexivity.
Qed.

Lemma d_to_inv r o : rlp_ok r -> d_to r = Some o ->
  r = r_to o /\ match o with Some a => fixed 20 a | None => True end.
Proof.
  intros Hr H. destruct r as [[|x b]|l]; [|  |discriminate].
  - cbn [d_to] in H. assert (None = o) as <- by congruence. split; auto.
  - unfold d_to in H. destruct (d_fix 20 (RStr (x :: b))) as [a|] eqn:E; [|discriminate].
    cbn [obind] in H. assert (Some a = o) as <- by congruence.
    apply d_fix_inv in E; [|exact Hr]. exact E.
Qed.

Lemma d_all_map {A} (f : rlp -> option A) (g : A -> rlp) l :
  (forall a, In a l -> f (g a) = Some a) -> d_all f (map g l) = Some l.
Proof.
  induction l as [|a l IH]; intros H; [reflexivity|]. cbn [map d_all].
  rewrite H by (left; reflexivity). cbn [obind].
  rewrite IH by (intros; apply H; right; assumption). reflexivity.
Qed.

Lemma d_all_inv {A} (f : rlp -> option A) (g : A -> rlp) (P : A -> Prop) l :
  (forall r a, rlp_ok r -> f r = Some a -> r = g a /\ P a) ->
  forall q, rlps_ok l -> d_all f l = Some q -> l = map g q /\ Forall P q.
Proof.
  intros H. induction l as [|r l IH]; intros q Hl D; cbn [d_all] in D.
  - injection D as <-. split; [reflexivity|constructor].
  - inversion Hl as [|? ? Hr Hl']; subst.
    destruct (f r) as [a|] eqn:E; [|discriminate]. cbn [obind] in D.
    destruct (d_all f l) as [q'|] eqn:E2; [|discriminate]. cbn [obind] in D.
    assert (a :: q' = q) as <- by congruence.
    destruct (H _ _ Hr E) as [-> Ha]. destruct (IH _ Hl' eq_refl) as [-> Hq].
    split; [reflexivity|constructor; assumption].
Qed.

Definition r_tuple (p : bytes * list bytes) : rlp := RList [RStr (fst p); RList (map RStr (snd p))].

Definition tuple_ok (p : bytes * list bytes) : Prop := fixed 20 (fst p) /\ Forall (fixed 32) (snd p).

Lemma d_tuple_r p : tuple_ok p -> d_tuple (r_tuple p) = Some p.
Proof.
  destruct p as [a ks]. intros [Ha Hk]. unfold d_tuple, r_tuple. cbn [fst snd] in *.
  rewrite d_fix_r by exact Ha. cbn [obind].
  rewrite d_all_map; [reflexivity|]. intros k Hin. apply d_fix_r.
  rewrite Forall_forall in Hk. auto.
Qed.

Lemma d_tuple_inv r p : rlp_ok r -> d_tuple r = Some p -> r = r_tuple p /\ tuple_ok p.
Proof.
  intros Hr H. unfold d_tuple in H.
  destruct r as [b|[|a [|[b|ks] [|]]]]; try discriminate.
  destruct (d_fix 20 a) as [x|] eqn:E1; [|discriminate]. cbn [obind] in H.
  destruct (d_all (d_fix 32) ks) as [q|] eqn:E2; [|discriminate]. cbn [obind] in H.
  assert ((x, q) = p) as <- by congruence.
  apply rlp_ok_list in Hr. inversion Hr as [|? ? Ha Hr']; subst. inversion Hr' as [|? ? Hk _]; subst.
  apply rlp_ok_list in Hk.
  apply d_fix_inv in E1; [|exact Ha]. destruct E1 as [-> F1].
  apply (d_all_inv _ RStr (fixed 32)) in E2; [|intros; apply d_fix_inv; assumption|exact Hk].
  destruct E2 as [-> F2]. split; [reflexivity|]. split; assumption.
Qed.

Lemma d_access_r al : wf_access al -> d_access (r_access al) = Some al.
Proof.
  intros H. unfold d_access, r_access. apply (d_all_map d_tuple r_tuple).
  intros p Hin. apply d_tuple_r. unfold wf_access in H. rewrite Forall_forall in H. apply H, Hin.
Qed.

Lemma d_access_inv r al : rlp_ok r -> d_access r = Some al -> r = r_access al /\ wf_access al.
Proof.
  intros Hr H. destruct r as [b|l]; [discriminate|]. cbn [d_access] in H. apply rlp_ok_list in Hr.
  apply (d_all_inv _ r_tuple tuple_ok) in H; [|intros; apply d_tuple_inv; assumption|exact Hr].
  destruct H as [-> F0]. split; [reflexivity|exact F0].
Qed.

Lemma d_body_r b : wf_body b ->
  d_body (r_num (b_nonce b)) (r_num (b_gas b)) (r_to (b_to b)) (r_num (b_value b)) (RStr (b_data b))
         (r_num (b_v b)) (r_num (b_r b)) (r_num (b_s b)) = Some b.
Proof.
  intros (H1 & H2 & H3 & H4 & H5 & H6 & H7 & H8). unfold d_body.
  rewrite d_u64_r by exact H1. cbn [obind]. rewrite d_u64_r by exact H2. cbn [obind].
  rewrite d_to_r by exact H3. cbn [obind]. rewrite d_num_r by exact H5. cbn [obind d_str].
  rewrite !d_num_r by assumption. cbn [obind]. destruct b; reflexivity.
Qed.

Lemma obind_some {A B} (o : option A) (f : A -> option B) y :
  obind o f = Some y -> exists x, o = Some x /\ f x = Some y.
Proof. destruct o as [x|]; [|discriminate]. intros H. exists x. auto. Qed.

Lemma d_body_inv n g t a d v r s b : rlps_ok [n; g; t; a; d; v; r; s] ->
  d_body n g t a d v r s = Some b ->
  (n = r_num (b_nonce b) /\ g = r_num (b_gas b) /\ t = r_to (b_to b) /\ a = r_num (b_value b) /\
   d = RStr (b_data b) /\ v = r_num (b_v b) /\ r = r_num (b_r b) /\ s = r_num (b_s b)) /\ wf_body b.
Proof.
  intros Hok H. unfold rlps_ok in Hok.
  repeat match goal with Hk : Forall _ (_ :: _) |- _ => inversion Hk; subst; clear Hk end.
  unfold d_body in H.
  repeat match goal with Hk : obind _ _ = Some _ |- _ => apply obind_some in Hk; destruct Hk as (? & ? & Hk) end.
  injection H as <-.
  match goal with Hk : d_str d = Some _ |- _ => destruct d as [dd|]; [|discriminate]; cbn [d_str] in Hk; injection Hk as <- end.
  repeat match goal with
  | Hk : d_u64 ?z = Some _ |- _ => apply d_u64_inv in Hk; [|assumption]; destruct Hk as [-> ?]
  | Hk : d_num ?z = Some _ |- _ => apply d_num_inv in Hk; [|assumption]; destruct Hk as [-> ?]
  | Hk : d_to ?z = Some _ |- _ => apply d_to_inv in Hk; [|assumption]; destruct Hk as [-> ?]
  end.
  split; [auto 10|]. unfold wf_body. cbn [b_nonce b_gas b_to b_value b_data b_v b_r b_s]. auto 12.
Qed.

(** ** Whole transactions *)

Lemma rnum_ok x : rlp_ok (r_num x).
Proof. apply bemin_ok. Qed.

Lemma raccess_ok al : wf_access al -> rlp_ok (r_access al).
Proof.
  intros H. apply rlp_ok_list. unfold rlps_ok. apply Forall_map. unfold wf_access in H.
  eapply Forall_impl; [|exact H]. intros [a ks] [Ha Hk]. cbn [fst snd] in *.
  apply rlp_ok_list. constructor; [apply Ha|]. constructor; [|constructor].
  apply rlp_ok_list. unfold rlps_ok. apply Forall_map. eapply Forall_impl; [|exact Hk].
  intros k [Hk' _]. exact Hk'.
Qed.

Lemma rto_ok o : match o with Some a => fixed 20 a | None => True end -> rlp_ok (r_to o).
Proof. destruct o as [a|]; intros H; cbn; [apply H|constructor]. Qed.

Lemma fields_ok t : wf_tx t -> rlps_ok (fields t).
Proof.
  assert (G : forall b, wf_body b -> rlp_ok (r_to (b_to b)) /\ rlp_ok (RStr (b_data b))).
  { intros b (_ & _ & H3 & H4 & _). split; [apply rto_ok, H3|exact H4]. }
  destruct t as [p b|c p al b|c q p al b]; cbn [wf_tx fields]; intros W.
  - destruct W as (_ & Wb). destruct (G b Wb). unfold rlps_ok.
    repeat apply Forall_cons; try apply Forall_nil; auto using rnum_ok.
  - destruct W as (_ & _ & Wa & Wb). destruct (G b Wb). unfold rlps_ok.
    repeat apply Forall_cons; try apply Forall_nil; auto using rnum_ok, raccess_ok.
  - destruct W as (_ & _ & _ & Wa & Wb). destruct (G b Wb). unfold rlps_ok.
    repeat apply Forall_cons; try apply Forall_nil; auto using rnum_ok, raccess_ok.
Qed.

Lemma marshal_len t : blen (enc (RList (fields t))) <= blen (marshal t).
Proof. unfold marshal. rewrite blen_app. pose proof (blen_nonneg (type_bytes t)). lia. Qed.

Lemma elen_head n : exists x r, elen 192 n = x :: r /\ (0 <= n -> (192 <= x)%N).
Proof.
  unfold elen. destruct (n <? 56).
  - eexists; eexists; split; [reflexivity|]. lia.
  - eexists; eexists; split; [reflexivity|]. pose proof (blen_nonneg (bemin n)). lia.
Qed.

Lemma unmarshal_marshal t : wf_tx t -> blen (marshal t) < 2 ^ 64 -> unmarshal (marshal t) = Some t.
Proof.
  intros W L. pose proof (marshal_len t) as ML.
  assert (D : d_list (enc (RList (fields t))) = Some (fields t)).
  { unfold d_list. rewrite dec_enc; [reflexivity|apply rlp_ok_list, fields_ok, W|lia]. }
  unfold marshal. destruct t as [p b|c p al b|c q p al b].
  - change (type_bytes (ELegacy p b)) with (@nil N). cbn [app].
    destruct (elen_head (blen (encs (fields (ELegacy p b))))) as (x & r & E & X).
    specialize (X (blen_nonneg _)).
    assert (Q : exists r', enc (RList (fields (ELegacy p b))) = x :: r').
    { rewrite enc_list, E. eexists. reflexivity. }
    destruct Q as [r' Q]. unfold unmarshal. rewrite Q. rewrite <- Q.
    destruct (127 <? x)%N eqn:G; [|lia]. rewrite D. cbn [obind fields d_legacy].
    destruct W as (W1 & Wb). rewrite d_num_r by exact W1. cbn [obind]. rewrite d_body_r by exact Wb. reflexivity.
  - change (type_bytes (EAccess c p al b)) with [1%N]. cbn [app unmarshal N.ltb N.compare].
    change (127 <? 1)%N with false. cbv iota. rewrite D. cbn [obind fields d_accesstx].
    destruct W as (W1 & W2 & Wa & Wb). rewrite !d_num_r by assumption. cbn [obind].
    rewrite d_access_r by exact Wa. cbn [obind]. rewrite d_body_r by exact Wb. reflexivity.
  - change (type_bytes (EDynamic c q p al b)) with [2%N]. cbn [app unmarshal].
    change (127 <? 2)%N with false. cbv iota. rewrite D. cbn [obind fields d_dynamic].
    destruct W as (W1 & W2 & W3 & Wa & Wb). rewrite !d_num_r by assumption. cbn [obind].
    rewrite d_access_r by exact Wa. cbn [obind]. rewrite d_body_r by exact Wb. reflexivity.
Qed.

Lemma d_list_inv b l : bytes_ok b -> d_list b = Some l -> enc (RList l) = b /\ rlps_ok l.
Proof.
  unfold d_list. intros Hb H. destruct (dec b) as [[s|q]|] eqn:D; try discriminate.
  assert (q = l) as -> by congruence. apply enc_dec in D; [|exact Hb].
  destruct D as [E R]. split; [exact E|apply rlp_ok_list, R].
Qed.

Ltac forall_inv :=
  repeat match goal with Hk : Forall _ (_ :: _) |- _ => inversion Hk; subst; clear Hk end.

Ltac in_list l :=
  repeat match goal with
  | |- Forall _ [] => constructor
  | |- Forall _ (_ :: _) => constructor; [assumption|]
  end.

Lemma d_legacy_inv l t : rlps_ok l -> d_legacy l = Some t -> l = fields t /\ type_bytes t = [] /\ wf_tx t.
Proof.
  intros Hl H. unfold d_legacy in H.
  destruct l as [|x1 [|x2 [|x3 [|x4 [|x5 [|x6 [|x7 [|x8 [|x9 [|]]]]]]]]]]; try discriminate.
  apply obind_some in H. destruct H as (p & E1 & H). apply obind_some in H. destruct H as (b & E2 & H).
  injection H as <-. unfold rlps_ok in Hl. forall_inv.
  apply d_body_inv in E2; [|unfold rlps_ok; in_list 0]. destruct E2 as ((-> & -> & -> & -> & -> & -> & -> & ->) & Wb).
  apply d_num_inv in E1; [|assumption]. destruct E1 as [-> P]. cbn [fields type_bytes wf_tx]. auto.
Qed.

Lemma d_accesstx_inv l t : rlps_ok l -> d_accesstx l = Some t -> l = fields t /\ type_bytes t = [1%N] /\ wf_tx t.
Proof.
  intros Hl H. unfold d_accesstx in H.
  destruct l as [|x1 [|x2 [|x3 [|x4 [|x5 [|x6 [|x7 [|x8 [|x9 [|x10 [|x11 [|]]]]]]]]]]]]; try discriminate.
  apply obind_some in H. destruct H as (c & E0 & H). apply obind_some in H. destruct H as (p & E1 & H).
  apply obind_some in H. destruct H as (al & Ea & H). apply obind_some in H. destruct H as (b & E2 & H).
  injection H as <-. unfold rlps_ok in Hl. forall_inv.
  apply d_body_inv in E2; [|unfold rlps_ok; in_list 0]. destruct E2 as ((-> & -> & -> & -> & -> & -> & -> & ->) & Wb).
  apply d_num_inv in E1; [|assumption]. destruct E1 as [-> P].
  apply d_num_inv in E0; [|assumption]. destruct E0 as [-> P0].
  apply d_access_inv in Ea; [|assumption]. destruct Ea as [-> Wa].
  cbn [fields type_bytes wf_tx]. auto 6.
Qed.

Lemma d_dynamic_inv l t : rlps_ok l -> d_dynamic l = Some t -> l = fields t /\ type_bytes t = [2%N] /\ wf_tx t.
Proof.
  intros Hl H. unfold d_dynamic in H.
  destruct l as [|x1 [|x2 [|x3 [|x4 [|x5 [|x6 [|x7 [|x8 [|x9 [|x10 [|x11 [|x12 [|]]]]]]]]]]]]]; try discriminate.
  apply obind_some in H. destruct H as (c & E0 & H). apply obind_some in H. destruct H as (q & E3 & H).
  apply obind_some in H. destruct H as (p & E1 & H).
  apply obind_some in H. destruct H as (al & Ea & H). apply obind_some in H. destruct H as (b & E2 & H).
  injection H as <-. unfold rlps_ok in Hl. forall_inv.
  apply d_body_inv in E2; [|unfold rlps_ok; in_list 0]. destruct E2 as ((-> & -> & -> & -> & -> & -> & -> & ->) & Wb).
  apply d_num_inv in E1; [|assumption]. destruct E1 as [-> P].
  apply d_num_inv in E3; [|assumption]. destruct E3 as [-> P3].
  apply d_num_inv in E0; [|assumption]. destruct E0 as [-> P0].
  apply d_access_inv in Ea; [|assumption]. destruct Ea as [-> Wa].
  cbn [fields type_bytes wf_tx]. auto 7.
Qed.

Lemma marshal_unmarshal b t : bytes_ok b -> unmarshal b = Some t -> marshal t = b /\ wf_tx t.
Proof.
  intros Hb H. destruct b as [|x r]; [discriminate|]. unfold unmarshal in H.
  destruct (127 <? x)%N eqn:G.
  - apply obind_some in H. destruct H as (l & D & H). apply d_list_inv in D; [|exact Hb].
    destruct D as [E R]. apply d_legacy_inv in H; [|exact R]. destruct H as (-> & T & W).
    split; [|exact W]. unfold marshal. rewrite T. exact E.
  - inversion Hb as [|? ? _ Hr]; subst.
    assert (A : (x = 1%N /\ obind (d_list r) d_accesstx = Some t) \/
                (x = 2%N /\ obind (d_list r) d_dynamic = Some t)).
    { destruct x as [|[[]|[]|]]; try discriminate; auto. }
    clear H. destruct A as [[-> H]|[-> H]].
    + apply obind_some in H. destruct H as (l & D & H). apply d_list_inv in D; [|exact Hr].
      destruct D as [E R]. apply d_accesstx_inv in H; [|exact R]. destruct H as (-> & T & W).
      split; [|exact W]. unfold marshal. rewrite T, E. reflexivity.
    + apply obind_some in H. destruct H as (l & D & H). apply d_list_inv in D; [|exact Hr].
      destruct D as [E R]. apply d_dynamic_inv in H; [|exact R]. destruct H as (-> & T & W).
      split; [|exact W]. unfold marshal. rewrite T, E. reflexivity.
Qed.

Lemma wf_writable t : wf_tx t -> writable t = true.
Proof.
  unfold writable. intros W. apply forallb_forall. intros x Hx.
  destruct t as [p b|c p al b|c q p al b]; cbn [wf_tx numbers] in *; unfold wf_body in W;
    cbn [In] in Hx; repeat destruct Hx as [<-|Hx]; try contradiction; lia.
Qed.

(** ** Hexadecimal text *)

Lemma undig_dig u d : (d < 16)%N -> undig (dig u d) = Some d.
Proof.
  intros H. unfold dig. destruct (d <? 10)%N eqn:E.
  - unfold undig. replace ((48 <=? 48 + d) && (48 + d <=? 57))%N%bool with true.
    + f_equal. lia.
    + symmetry. apply andb_true_intro. lia.
  - destruct u; unfold undig.
    + replace ((48 <=? 55 + d) && (55 + d <=? 57))%N%bool with false by (symmetry; apply andb_false_intro2; lia).
      replace ((97 <=? 55 + d) && (55 + d <=? 102))%N%bool with false by (symmetry; apply andb_false_intro1; lia).
      replace ((65 <=? 55 + d) && (55 + d <=? 70))%N%bool with true by (symmetry; apply andb_true_intro; lia).
      f_equal. lia.
    + replace ((48 <=? 87 + d) && (87 + d <=? 57))%N%bool with false by (symmetry; apply andb_false_intro2; lia).
      replace ((97 <=? 87 + d) && (87 + d <=? 102))%N%bool with true by (symmetry; apply andb_true_intro; lia).
      f_equal. lia.
Qed.

Lemma byte_split x : byte_ok x -> (x / 16 < 16)%N /\ (x mod 16 < 16)%N /\ (16 * (x / 16) + x mod 16 = x)%N.
Proof.
  unfold byte_ok. intros H. split; [apply N.div_lt_upper_bound; lia|].
  split; [apply N.mod_lt; lia|]. symmetry. apply N.div_mod'.
Qed.

Lemma unhex_hexs up b : bytes_ok b -> forall i, unhex (hexs up i b) = b.
Proof.
  induction 1 as [|x b Hx _ IH]; intros i; [reflexivity|]. cbn [hexs unhex].
  destruct (byte_split x Hx) as (A & B & C). rewrite !undig_dig by assumption.
  rewrite IH. f_equal. exact C.
Qed.

Lemma hexs_length up b : forall i, length (hexs up i b) = (2 * length b)%nat.
Proof. induction b as [|x b IH]; intros i; [reflexivity|]. cbn [hexs length]. rewrite IH. lia. Qed.

Lemma strip_hex0x up b : strip (hex0x up b) = hexs up 0 b.
Proof. reflexivity. Qed.

Lemma from_hex_hex0x up b : bytes_ok b -> from_hex (hex0x up b) = b.
Proof.
  intros H. unfold from_hex. rewrite strip_hex0x, hexs_length.
  replace (Nat.odd (2 * length b)) with false.
  - apply unhex_hexs, H.
  - symmetry. rewrite Nat.odd_mul. reflexivity.
Qed.

Lemma fit_same n b : length b = n -> fit n b = b.
Proof. intros <-. unfold fit. rewrite Nat.leb_refl, Nat.sub_diag. reflexivity. Qed.

Lemma fixed_len n b : fixed (Z.of_nat n) b -> length b = n.
Proof. intros [_ L]. unfold blen in L. lia. Qed.

Lemma address_back up a : fixed 20 a -> hex_to_address (hex0x up a) = a.
Proof.
  intros H. unfold hex_to_address. rewrite from_hex_hex0x by apply H.
  apply fit_same, fixed_len. exact H.
Qed.

Lemma key_back up k : fixed 32 k -> hex_to_hash (hex0x up k) = k.
Proof.
  intros H. unfold hex_to_hash. rewrite from_hex_hex0x by apply H.
  apply fit_same, fixed_len. exact H.
Qed.

Lemma hexs_digits up b : bytes_ok b -> forall i,
  forallb (fun c => match undig c with Some _ => true | None => false end) (hexs up i b) = true.
Proof.
  induction 1 as [|x b Hx _ IH]; intros i; [reflexivity|]. cbn [hexs forallb].
  destruct (byte_split x Hx) as (A & B & C). rewrite !undig_dig by assumption. apply IH.
Qed.

Lemma address_valid up a : fixed 20 a -> is_hex_address (hex0x up a) = true.
Proof.
  intros H. unfold is_hex_address. rewrite strip_hex0x, hexs_length.
  rewrite (fixed_len 20 a H). cbn [Nat.mul Nat.add Nat.eqb andb]. apply hexs_digits, H.
Qed.

Lemma hex0x_inj a b : bytes_ok a -> bytes_ok b -> hex0x lower a = hex0x lower b -> a = b.
Proof.
  intros Ha Hb E. rewrite <- (from_hex_hex0x lower a Ha), <- (from_hex_hex0x lower b Hb), E. reflexivity.
Qed.

Lemma undig_lt c d : undig c = Some d -> (d < 16)%N.
Proof.
  unfold undig.
  destruct ((48 <=? c) && (c <=? 57))%N%bool eqn:E1; [intros H; injection H as <-; apply andb_prop in E1; lia|].
  destruct ((97 <=? c) && (c <=? 102))%N%bool eqn:E2; [intros H; injection H as <-; apply andb_prop in E2; lia|].
  destruct ((65 <=? c) && (c <=? 70))%N%bool eqn:E3; [intros H; injection H as <-; apply andb_prop in E3; lia|].
  discriminate.
Qed.

Lemma unhex_ok n : forall s, (length s < n)%nat -> bytes_ok (unhex s).
Proof.
  induction n as [|n IH]; intros s L; [lia|].
  destruct s as [|x [|y r]]; cbn [unhex]; try constructor.
  cbn [length] in L. destruct (undig x) as [a|] eqn:A; [|constructor].
  destruct (undig y) as [b|] eqn:B; [|constructor].
  apply undig_lt in A. apply undig_lt in B.
  constructor; [unfold byte_ok; lia|]. apply IH. lia.
Qed.

Lemma fit_fixed n b : bytes_ok b -> fixed (Z.of_nat n) (fit n b).
Proof.
  intros H. unfold fit. destruct (Nat.leb n (length b)) eqn:E.
  - apply Nat.leb_le in E. split.
    + apply (bytes_ok_app (firstn (length b - n) b)). rewrite firstn_skipn. exact H.
    + unfold blen. rewrite skipn_length. lia.
  - apply Nat.leb_gt in E. split.
    + apply bytes_ok_app. split; [|exact H]. unfold bytes_ok. apply Forall_forall.
      intros x Hx. apply repeat_spec in Hx. subst. unfold byte_ok. lia.
    + unfold blen. rewrite app_length, repeat_length. lia.
Qed.

Lemma hex_to_address_fixed s : fixed 20 (hex_to_address s).
Proof. apply (fit_fixed 20). unfold from_hex. eapply unhex_ok. apply Nat.lt_succ_diag_r. Qed.

Lemma hex_to_hash_fixed s : fixed 32 (hex_to_hash s).
Proof. apply (fit_fixed 32). unfold from_hex. eapply unhex_ok. apply Nat.lt_succ_diag_r. Qed.

Lemma to_eth_access_wf al : wf_access (to_eth_access al).
Proof.
  unfold wf_access, to_eth_access. apply Forall_map, Forall_forall. intros [a ks] _. cbn [fst snd].
  split; [apply hex_to_address_fixed|]. apply Forall_map, Forall_forall. intros k _. apply hex_to_hash_fixed.
Qed.

Lemma access_back caps al : wf_access al -> to_eth_access (new_access caps al) = al.
Proof.
  unfold wf_access, to_eth_access, new_access. intros H. rewrite map_map.
  rewrite <- (map_id al) at 2. apply map_ext_in. intros [a ks] Hin.
  rewrite Forall_forall in H. destruct (H _ Hin) as [Ha Hk]. cbn [fst snd] in *.
  rewrite address_back by exact Ha. f_equal. rewrite map_map.
  rewrite <- (map_id ks) at 2. apply map_ext_in. intros k Hk'. rewrite Forall_forall in Hk. apply key_back, Hk, Hk'.
Qed.

(** ** Into a message and out of it *)

Lemma valid256_spec x : 0 <= x -> valid256 x = true <-> x < 2 ^ 256.
Proof. intros H. unfold valid256. rewrite Z.abs_eq by exact H. apply Z.ltb_lt. Qed.

Lemma valid256_nonneg x : 0 <= x -> valid256 x = (x <? 2 ^ 256).
Proof. intros H. unfold valid256. rewrite Z.abs_eq by exact H. reflexivity. Qed.

Lemma as_new_body caps b : wf_body b -> as_body (new_body caps b (b_value b)) = b.
Proof.
  intros (H1 & H2 & H3 & H4 & H5 & H6 & H7 & H8). unfold as_body, new_body.
  cbn [p_nonce p_gas p_to p_amount p_data p_v p_r p_s num]. unfold sig_value.
  rewrite !Z.abs_eq, !unbe_bemin by assumption.
  destruct b as [n g [a|] v d sv sr ss]; cbn [b_nonce b_gas b_to b_value b_data b_v b_r b_s] in *.
  - unfold get_to. change (hex0x (caps a) a) with (48%N :: 120%N :: hexs (caps a) 0 a) at 1.
    cbv iota. rewrite address_back by exact H3. reflexivity.
  - reflexivity.
Qed.

Lemma data_back caps t d : wf_tx t -> new_tx_data caps t = Ok d -> as_tx d = t.
Proof.
  intros W H. unfold new_tx_data in H. unfold safe_int, must_int in H.
  destruct (valid256 (b_value (tx_body t))); [|discriminate]. cbn [rbind] in H.
  destruct t as [p b|c p al b|c q p al b]; cbn [tx_body wf_tx] in *.
  - destruct (valid256 p); [|discriminate]. cbn [rbind] in H. injection H as <-.
    cbn [as_tx num]. rewrite as_new_body by apply W. reflexivity.
  - destruct (valid256 p); [|discriminate]. cbn [rbind] in H.
    destruct (valid256 c); [|discriminate]. cbn [rbind] in H. injection H as <-.
    cbn [as_tx num]. rewrite as_new_body, access_back by apply W. reflexivity.
  - destruct (valid256 p); [|discriminate]. cbn [rbind] in H.
    destruct (valid256 q); [|discriminate]. cbn [rbind] in H.
    destruct (valid256 c); [|discriminate]. cbn [rbind] in H. injection H as <-.
    cbn [as_tx num]. rewrite as_new_body, access_back by apply W. reflexivity.
Qed.

(** When the conversion succeeds, refuses or stops the program. *)
Lemma new_data_cases caps t : wf_tx t ->
  let small := tx_value t < 2 ^ 256 /\ max_price t < 2 ^ 256 /\ max_tip t < 2 ^ 256 in
  (is_ok (new_tx_data caps t) = true <-> small /\ chain_number t < 2 ^ 256) /\
  (new_tx_data caps t = Panic <-> small /\ 2 ^ 256 <= chain_number t).
Proof.
  intros W. cbv zeta. unfold new_tx_data, tx_value, safe_int, must_int.
  assert (V0 : 0 <= b_value (tx_body t)) by (destruct t; cbn [wf_tx tx_body] in *; unfold wf_body in W; tauto).
  rewrite (valid256_nonneg _ V0).
  destruct t as [p b|c p al b|c q p al b]; cbn [wf_tx tx_body max_price max_tip chain_number] in *.
  - destruct W as (W1 & _). rewrite (valid256_nonneg _ W1).
    destruct (b_value b <? 2 ^ 256) eqn:E1; cbn [rbind];
      [|split; (split; [discriminate|lia])].
    destruct (p <? 2 ^ 256) eqn:E2; cbn [rbind is_ok]; split; split; try discriminate; try lia; reflexivity.
  - destruct W as (W1 & W2 & _). rewrite (valid256_nonneg _ W1), (valid256_nonneg _ W2).
    destruct (b_value b <? 2 ^ 256) eqn:E1; cbn [rbind];
      [|split; (split; [discriminate|lia])].
    destruct (p <? 2 ^ 256) eqn:E2; cbn [rbind]; [|split; (split; [discriminate|lia])].
    destruct (c <? 2 ^ 256) eqn:E3; cbn [rbind is_ok]; split; split; try discriminate; try lia; reflexivity.
  - destruct W as (W1 & W2 & W3 & _). rewrite (valid256_nonneg _ W1), (valid256_nonneg _ W2), (valid256_nonneg _ W3).
    destruct (b_value b <? 2 ^ 256) eqn:E1; cbn [rbind];
      [|split; (split; [discriminate|lia])].
    destruct (p <? 2 ^ 256) eqn:E2; cbn [rbind]; [|split; (split; [discriminate|lia])].
    destruct (q <? 2 ^ 256) eqn:E4; cbn [rbind]; [|split; (split; [discriminate|lia])].
    destruct (c <? 2 ^ 256) eqn:E3; cbn [rbind is_ok]; split; split; try discriminate; try lia; reflexivity.
Qed.

(** What is asked of a message is asked of its transaction. *)
Lemma asked d :
  p_gas (td_body d) = tx_gas (as_tx d) /\
  fee d = max_price (as_tx d) * tx_gas (as_tx d) /\
  cost d = max_price (as_tx d) * tx_gas (as_tx d) + tx_value (as_tx d) /\
  (forall base, effective_price base d = price_at base (as_tx d)) /\
  (forall base, effective_fee base d = price_at base (as_tx d) * tx_gas (as_tx d)) /\
  (forall base, effective_cost base d = price_at base (as_tx d) * tx_gas (as_tx d) + tx_value (as_tx d)).
Proof.
  assert (E : forall base, effective_price base d = price_at base (as_tx d)).
  { intros base. destruct d as [p b|c p al b|c q p al b]; cbn [effective_price as_tx price_at]; try reflexivity.
    destruct (num q + base <? num p) eqn:L; lia. }
  assert (G : p_gas (td_body d) = tx_gas (as_tx d)) by (destruct d; reflexivity).
  assert (V : num (p_amount (td_body d)) = tx_value (as_tx d)) by (destruct d; reflexivity).
  assert (F0 : fee d = max_price (as_tx d) * tx_gas (as_tx d)) by (destruct d; reflexivity).
  unfold effective_cost, effective_fee, cost. repeat match goal with |- _ /\ _ => split end; auto; intros.
  - rewrite F0, V. reflexivity.
  - rewrite E, G. reflexivity.
  - rewrite E, G, V. reflexivity.
Qed.

Lemma derive_names v : match derive_chain_id v with Some _ => true | None => false end = true <->
  v = 27 \/ v = 28 \/ 35 <= v.
Proof.
  unfold derive_chain_id.
  destruct (v <? 1) eqn:E1; [split; [discriminate|lia]|].
  destruct (v <? 2 ^ 64) eqn:E2; [|split; [lia|reflexivity]].
  destruct ((v =? 27) || (v =? 28)) eqn:E3.
  - apply Bool.orb_prop in E3. split; [lia|reflexivity].
  - apply Bool.orb_false_elim in E3. destruct (v <? 35) eqn:E4; split; try discriminate; try lia; reflexivity.
Qed.

Lemma beqb_true a b : beqb a b = true <-> a = b.
Proof. unfold beqb. rewrite <- bcmp_eq. destruct (bcmp a b); split; congruence. Qed.

(** The checks of a message that the node built itself. *)
Lemma built_validate keccak caps t m : wf_tx t -> from_eth keccak caps t = Ok m ->
  validate_basic keccak m = true <->
  1 <= tx_gas t < 2 ^ 63 /\ max_tip t <= max_price t /\ max_price t * tx_gas t < 2 ^ 256 /\ names_chain t.
Proof.
  intros W H. unfold from_eth in H. destruct (new_tx_data caps t) as [d| |] eqn:D; try discriminate.
  cbn [rbind] in H. injection H as <-.
  pose proof (data_back _ _ _ W D) as B. pose proof (asked d) as (G & F0 & _).
  rewrite B in G, F0.
  unfold validate_basic. cbn [m_data m_size m_hash m_from to_ok Z.eqb].
  rewrite B. rewrite (proj2 (beqb_true _ _) eq_refl), G.
  assert (R : validate d = true <-> max_tip t <= max_price t /\ valid256 (fee d) = true /\ names_chain t).
  { unfold new_tx_data, safe_int, must_int in D.
    destruct (valid256 (b_value (tx_body t))) eqn:V; [|discriminate]. cbn [rbind] in D.
    assert (TO : forall b, wf_body b -> to_ok (match b_to b with Some a => hex0x (caps a) a | None => [] end) = true).
    { intros b (_ & _ & H3 & _). destruct (b_to b) as [a|]; [|reflexivity].
      change (is_hex_address (hex0x (caps a) a) = true). apply address_valid, H3. }
    assert (AM : forall b, wf_body b -> valid256 (b_value b) = true -> (0 <=? b_value b) && valid256 (b_value b) = true).
    { intros b (_ & _ & _ & _ & H5 & _) ->. rewrite (proj2 (Z.leb_le _ _) H5). reflexivity. }
    destruct t as [p b|c p al b|c q p al b]; cbn [tx_body wf_tx names_chain max_tip max_price] in *.
    - destruct (valid256 p) eqn:E2; [|discriminate]. cbn [rbind] in D. injection D as <-.
      destruct W as (W1 & Wb). unfold validate.
      cbn [price_ok td_body new_body p_amount p_to amount_ok chain_id p_v].
      rewrite E2, (TO b Wb), (AM b Wb V), (proj2 (Z.leb_le _ _) W1). cbn [andb].
      rewrite !Bool.andb_true_r, Bool.andb_true_iff. unfold sig_value.
      assert (0 <= b_v b) by (unfold wf_body in Wb; tauto).
      rewrite Z.abs_eq, unbe_bemin by assumption. rewrite derive_names. split; [intros [? ?]|intros (? & ? & ?)]; auto with zarith.
    - destruct (valid256 p) eqn:E2; [|discriminate]. cbn [rbind] in D.
      destruct (valid256 c) eqn:E3; [|discriminate]. cbn [rbind] in D. injection D as <-.
      destruct W as (W0 & W1 & Wa & Wb). unfold validate.
      cbn [price_ok td_body new_body p_amount p_to amount_ok chain_id p_v].
      rewrite E2, (TO b Wb), (AM b Wb V), (proj2 (Z.leb_le _ _) W1). cbn [andb].
      rewrite !Bool.andb_true_r. split; [intros ?|intros (? & ? & ?)]; auto with zarith.
    - destruct (valid256 p) eqn:E2; [|discriminate]. cbn [rbind] in D.
      destruct (valid256 q) eqn:E4; [|discriminate]. cbn [rbind] in D.
      destruct (valid256 c) eqn:E3; [|discriminate]. cbn [rbind] in D. injection D as <-.
      destruct W as (W0 & W1 & W2 & Wa & Wb). unfold validate.
      cbn [price_ok td_body new_body p_amount p_to amount_ok chain_id p_v num].
      rewrite E2, E4, (TO b Wb), (AM b Wb V), (proj2 (Z.leb_le _ _) W1), (proj2 (Z.leb_le _ _) W2). cbn [andb].
      rewrite !Bool.andb_true_r, Bool.andb_true_iff, Z.leb_le. tauto. }
  rewrite !Bool.andb_true_iff, Bool.negb_true_iff, Z.eqb_neq, Z.ltb_lt, R.
  assert (P : 0 <= max_price t * tx_gas t /\ 0 <= tx_gas t).
  { assert (0 <= max_price t /\ 0 <= tx_gas t); [|nia].
    unfold tx_gas. destruct t; cbn [wf_tx max_price tx_body] in *; unfold wf_body in W; lia. }
  destruct P as [P P2]. rewrite F0, (valid256_spec _ P). intuition lia.
Qed.
