(* Equal encodings come from equal values. *)
From Coq Require Import String Ascii NArith Sorted Permutation.
From Verif Require Import Lib.Base Lib.Bytes Lib.Codec Lib.Dec Eip712.Model Eip712.Spec Eip712.Proofs.
Open Scope Z_scope.

Section Inject.
Variable keccak : bytes -> bytes.
Variable read_int : bytes -> option Z.
Hypothesis keccak_len : forall b, List.length (keccak b) = 32%nat.

Notation enc := (enc keccak read_int).
Notation item := (item keccak read_int).
Notation enc_prim := (enc_prim keccak read_int).
Notation coll := (collision keccak).

Lemma keccak_inj x y : keccak x = keccak y -> x = y \/ coll.
Proof.
  intros E. destruct (bytes_eq_dec x y) as [|N]; auto. right. exists x, y. auto.
Qed.

(* One field of an object. *)
Definition encv (T : types) (v : json) (t : tref) : res bytes :=
  match v with
  | JArr l =>
      if snd t
      then rbind (cat (map (fun x => item T (enc T x) x (fst t)) l)) (fun d => Ok (keccak d))
      else item T (fun _ => Err) v (fst t)
  | _ => if snd t then Err else item T (enc T v) v (fst t)
  end.

Lemma encv_single T v b : encv T v (b, false) = item T (enc T v) v b.
Proof. destruct v; reflexivity. Qed.

Lemma encv_array T v b a : encv T v (b, true) = Ok a ->
  exists l d, v = JArr l /\ a = keccak d /\ cat (map (fun x => encv T x (b, false)) l) = Ok d.
Proof.
  destruct v; cbn [encv snd fst]; try discriminate. intros H. apply rbind_ok in H.
  destruct H as (d & E & [= <-]). exists l, d. split; [auto|]. split; [auto|].
  rewrite <- E. f_equal. apply map_ext. intros x. apply encv_single.
Qed.

Lemma enc_obj T kvs nm :
  enc T (JObj kvs) nm =
  let fs := match get nm T with Some fs => fs | None => [] end in
  if (List.length fs <? List.length kvs)%nat then Err
  else rbind (enc_fields fs (map (fun kv => (fst kv, encv T (snd kv))) kvs))
             (fun b => Ok (type_hash keccak T nm ++ b)).
Proof. reflexivity. Qed.

Lemma ok_inj {A} (x y : A) : Ok x = Ok y -> x = y.
Proof. congruence. Qed.

Lemma u256_len z : List.length (u256 z) = 32%nat.
Proof. unfold u256. apply be_length. Qed.

Lemma item_len T e v b a : item T e v b = Ok a -> List.length a = 32%nat.
Proof.
  unfold Model.item. destruct (has b T).
  - intros H. apply rbind_ok in H. destruct H as (d & _ & [= <-]). apply keccak_len.
  - unfold Model.enc_prim. intros H.
    destruct (beqb b t_bool); [destruct v; try discriminate; injection H as <-; apply u256_len|].
    destruct (beqb b t_string); [destruct v; try discriminate; injection H as <-; apply keccak_len|].
    destruct (beqb b t_int64); [|discriminate].
    apply rbind_ok in H. destruct H as (z & _ & H). injection H as <-. apply u256_len.
Qed.

Lemma encv_len T v t a : encv T v t = Ok a -> List.length a = 32%nat.
Proof.
  destruct t as [b [|]].
  - intros H. apply encv_array in H. destruct H as (l & d & _ & -> & _). auto.
  - rewrite encv_single. apply item_len.
Qed.

Lemma app_inj32 (a b c d : bytes) : List.length a = 32%nat -> List.length c = 32%nat ->
  a ++ b = c ++ d -> a = c /\ b = d.
Proof. clear keccak read_int keccak_len. intros A C. apply app_inj_len. unfold blen. lia. Qed.

Lemma fields_present T fs kvs b :
  enc_fields fs (map (fun kv => (fst kv, encv T (snd kv))) kvs) = Ok b ->
  forall k t, In (k, t) fs -> exists v a, get k kvs = Some v /\ encv T v t = Ok a.
Proof.
  revert b. induction fs as [|[k0 t0] fs IH]; intros b E k t I; [destruct I|].
  cbn [enc_fields] in E. rewrite get_map in E. destruct (get k0 kvs) as [v|] eqn:G; [|discriminate].
  cbn [option_map] in E. apply rbind_ok in E. destruct E as (a & Ea & E).
  apply rbind_ok in E. destruct E as (b' & Eb & _).
  destruct I as [[= <- <-]|I]; eauto.
Qed.

Lemma fields_inj T1 T2 fs k1 k2 b :
  enc_fields fs (map (fun kv => (fst kv, encv T1 (snd kv))) k1) = Ok b ->
  enc_fields fs (map (fun kv => (fst kv, encv T2 (snd kv))) k2) = Ok b ->
  forall k t, In (k, t) fs -> exists v1 v2 a,
    get k k1 = Some v1 /\ get k k2 = Some v2 /\ encv T1 v1 t = Ok a /\ encv T2 v2 t = Ok a.
Proof.
  revert b. induction fs as [|[k0 t0] fs IH]; intros b E1 E2 k t I; [destruct I|].
  cbn [enc_fields] in E1, E2. rewrite get_map in E1, E2.
  destruct (get k0 k1) as [v1|] eqn:G1; [|discriminate].
  destruct (get k0 k2) as [v2|] eqn:G2; [|discriminate].
  cbn [option_map] in E1, E2.
  apply rbind_ok in E1. destruct E1 as (a1 & A1 & E1). apply rbind_ok in E1. destruct E1 as (b1 & B1 & [= H1]).
  apply rbind_ok in E2. destruct E2 as (a2 & A2 & E2). apply rbind_ok in E2. destruct E2 as (b2 & B2 & [= H2]).
  rewrite <- H2 in H1. apply app_inj32 in H1; eauto using encv_len. destruct H1 as [-> ->].
  destruct I as [[= <- <-]|I]; [|eauto].
  exists v1, v2, a2. auto.
Qed.

Lemma cat_inj T1 T2 b : forall l1 l2 d,
  cat (map (fun x => encv T1 x (b, false)) l1) = Ok d ->
  cat (map (fun x => encv T2 x (b, false)) l2) = Ok d ->
  Forall2 (fun x y => exists a, encv T1 x (b, false) = Ok a /\ encv T2 y (b, false) = Ok a) l1 l2.
Proof.
  induction l1 as [|x l1 IH]; intros [|y l2] d E1 E2; cbn [map cat] in E1, E2; auto.
  - injection E1 as <-. apply rbind_ok in E2. destruct E2 as (a & A & E). apply rbind_ok in E.
    destruct E as (c & _ & [= X]). apply encv_len in A. destruct a; [discriminate|discriminate].
  - injection E2 as <-. apply rbind_ok in E1. destruct E1 as (a & A & E). apply rbind_ok in E.
    destruct E as (c & _ & [= X]). apply encv_len in A. destruct a; [discriminate|discriminate].
  - apply rbind_ok in E1. destruct E1 as (a1 & A1 & E1). apply rbind_ok in E1. destruct E1 as (b1 & B1 & [= H1]).
    apply rbind_ok in E2. destruct E2 as (a2 & A2 & E2). apply rbind_ok in E2. destruct E2 as (b2 & B2 & [= H2]).
    rewrite <- H2 in H1. apply app_inj32 in H1; eauto using encv_len. destruct H1 as [-> ->].
    constructor; eauto.
Qed.

(* What the generated types are known to satisfy. *)
Definition good (T : types) : Prop :=
  (forall nm fs, get nm T = Some fs -> NoDup (map fst fs) /\ Forall field_clean fs)
  /\ get t_string T = None /\ get t_bool T = None /\ get t_int64 T = None.

(* Wherever the type says number, the value is a number. *)
Inductive typed (T : types) : tref -> json -> Prop :=
| typed_prim b j : get b T = None -> (b = t_int64 -> exists z, j = JNum z) -> typed T (b, false) j
| typed_struct b fs j : get b T = Some fs ->
    (forall kvs k t v, j = JObj kvs -> In (k, t) fs -> get k kvs = Some v -> typed T t v) ->
    typed T (b, false) j
| typed_array b j : (forall l x, j = JArr l -> In x l -> typed T (b, false) x) -> typed T (b, true) j.

Lemma enc_prim_names b j a : enc_prim b j = Ok a -> b = t_bool \/ b = t_string \/ b = t_int64.
Proof.
  unfold Model.enc_prim. intros H.
  destruct (beqb b t_bool) eqn:E1; [apply beqb_spec in E1; auto|].
  destruct (beqb b t_string) eqn:E2; [apply beqb_spec in E2; auto|].
  destruct (beqb b t_int64) eqn:E3; [apply beqb_spec in E3; auto|discriminate].
Qed.

Lemma u256_inj x y : Z.abs x < 2 ^ 64 -> Z.abs y < 2 ^ 64 -> u256 x = u256 y -> x = y.
Proof.
  intros X Y E. unfold u256 in E. apply be_inj in E.
  - change (2 ^ 256) with (2 ^ 64 * 2 ^ 192) in E.
    assert (0 < 2 ^ 192) by lia. assert (2 ^ 64 < 2 ^ 192) by lia.
    assert (P : 2 ^ 64 * 2 ^ 192 > 2 * 2 ^ 64) by nia.
    set (m := 2 ^ 64 * 2 ^ 192) in *. set (h := 2 ^ 64) in *. clearbody m h.
    clear -E X Y P.
    assert (forall z, Z.abs z < h -> z mod m = z \/ z mod m = z + m) as M.
    { intros z Z0. destruct (Z.le_gt_cases 0 z).
      - left. apply Z.mod_small. lia.
      - right. symmetry. apply Z.mod_unique with (q := -1); lia. }
    destruct (M x X), (M y Y); lia.
  - change (256 ^ Z.of_nat 32) with (2 ^ 256). apply Z.mod_pos_bound. reflexivity.
  - change (256 ^ Z.of_nat 32) with (2 ^ 256). apply Z.mod_pos_bound. reflexivity.
Qed.

Lemma prim_inj b j1 j2 a :
  (b = t_int64 -> exists z, j1 = JNum z) -> (b = t_int64 -> exists z, j2 = JNum z) ->
  enc_prim b j1 = Ok a -> enc_prim b j2 = Ok a -> j1 = j2 \/ coll.
Proof.
  intros N1 N2 E1 E2. destruct (enc_prim_names _ _ _ E1) as [-> |[-> | ->]]; unfold Model.enc_prim in *.
  - rewrite beqb_refl in *. destruct j1; try discriminate. destruct j2; try discriminate.
    apply ok_inj in E1, E2. rewrite <- E1 in E2. left. f_equal.
    apply u256_inj in E2; [|destruct b0; reflexivity|destruct b; reflexivity].
    destruct b, b0; auto; discriminate.
  - change (beqb t_string t_bool) with false in *. rewrite beqb_refl in *. cbv iota in *.
    destruct j1; try discriminate. destruct j2; try discriminate.
    injection E1 as <-. injection E2 as E2. apply keccak_inj in E2. destruct E2 as [->|]; auto.
  - change (beqb t_int64 t_bool) with false in *. change (beqb t_int64 t_string) with false in *.
    rewrite beqb_refl in *. cbv iota in *.
    destruct N1 as [z1 ->]; auto. destruct N2 as [z2 ->]; auto.
    apply rbind_ok in E1. destruct E1 as (w1 & P1 & Q1). apply ok_inj in Q1.
    apply rbind_ok in E2. destruct E2 as (w2 & P2 & Q2). apply ok_inj in Q2.
    unfold parse_int64 in P1, P2.
    match type of P1 with (if ?c then _ else _) = _ => destruct c eqn:R1; [|discriminate] end.
    match type of P2 with (if ?c then _ else _) = _ => destruct c eqn:R2; [|discriminate] end.
    apply ok_inj in P1, P2. subst w1 w2. left. f_equal.
    rewrite <- Q2 in Q1. apply u256_inj in Q1; auto.
    + apply andb_prop in R1. destruct R1. assert (2 ^ 63 < 2 ^ 64) by reflexivity. lia.
    + apply andb_prop in R2. destruct R2. assert (2 ^ 63 < 2 ^ 64) by reflexivity. lia.
Qed.

Definition inj_at (j1 : json) : Prop := forall T1 T2 t j2 a,
  good T1 -> good T2 -> canonical j1 -> canonical j2 -> typed T1 t j1 -> typed T2 t j2 ->
  encv T1 j1 t = Ok a -> encv T2 j2 t = Ok a -> j1 = j2 \/ coll.

Lemma names_cover (fs : list field) (kvs : list (bytes * json)) :
  NoDup (map fst fs) -> (List.length kvs <= List.length fs)%nat ->
  (forall k t, In (k, t) fs -> exists v, get k kvs = Some v) ->
  forall k, In k (map fst kvs) -> In k (map fst fs).
Proof.
  intros N L H. apply NoDup_length_incl; auto.
  - rewrite !map_length. auto.
  - intros k I. apply in_map_iff in I. destruct I as ([k' t] & <- & I).
    destruct (H _ _ I) as [v G]. apply get_in in G. apply (in_map fst) in G. exact G.
Qed.

Lemma canonical_in kvs k v : canonical (JObj kvs) -> get k kvs = Some v -> canonical v.
Proof.
  cbn [canonical]. intros (_ & _ & F) G. apply get_in in G. clear -F G.
  induction kvs as [|x r IH]; [destruct G|]. cbn in F. destruct F as [C F].
  destruct G as [-> |G]; auto.
Qed.

(* Objects: equal encodings under one type name mean equal contents. *)
Lemma obj_inj T1 T2 k1 k2 nm fs1 fs2 d :
  Forall (fun kv => inj_at (snd kv)) k1 ->
  good T1 -> good T2 ->
  (forall k v, get k k1 = Some v -> canonical v) -> (forall k v, get k k2 = Some v -> canonical v) ->
  get nm T1 = Some fs1 -> get nm T2 = Some fs2 ->
  (forall k t v, In (k, t) fs1 -> get k k1 = Some v -> typed T1 t v) ->
  (forall k t v, In (k, t) fs2 -> get k k2 = Some v -> typed T2 t v) ->
  enc T1 (JObj k1) nm = Ok d -> enc T2 (JObj k2) nm = Ok d ->
  (fs1 = fs2 /\ forall k, get k k1 = get k k2) \/ coll.
Proof.
  intros IH G1 G2 C1 C2 E1 E2 Y1 Y2 H1 H2. rewrite enc_obj in H1, H2. cbv zeta in H1, H2.
  rewrite E1 in H1. rewrite E2 in H2.
  destruct (Nat.ltb_spec (List.length fs1) (List.length k1)) as [|L1]; [discriminate|].
  destruct (Nat.ltb_spec (List.length fs2) (List.length k2)) as [|L2]; [discriminate|].
  apply rbind_ok in H1. destruct H1 as (b1 & B1 & [= D1]).
  apply rbind_ok in H2. destruct H2 as (b2 & B2 & [= D2]).
  rewrite <- D2 in D1. apply app_inj32 in D1; try apply keccak_len. destruct D1 as [Dt ->].
  apply keccak_inj in Dt. destruct Dt as [Dt|]; [|auto].
  destruct (proj1 G1 _ _ E1) as [N1 F1]. destruct (proj1 G2 _ _ E2) as [N2 F2].
  assert (fs1 = fs2) by (eapply encode_type_inj; eauto). subst fs2.
  pose proof (fields_inj _ _ _ _ _ _ B1 B2) as FI.
  assert (P : forall l, incl l fs1 -> (forall k t, In (k, t) l -> get k k1 = get k k2) \/ coll).
  { induction l as [|[k t] l IHl]; intros I; [left; intros ? ? []|].
    destruct IHl as [A|]; [intros x X; apply I; right; auto| |auto].
    destruct (FI k t) as (v1 & v2 & a & V1 & V2 & A1 & A2); [apply I; left; auto|].
    rewrite Forall_forall in IH. pose proof (IH (k, v1) (get_in _ _ _ V1)) as J.
    destruct (J T1 T2 t v2 a) as [E|]; eauto.
    - eapply Y1; eauto. apply I. left; auto.
    - eapply Y2; eauto. apply I. left; auto.
    - left. intros k' t' [[= <- <-]|X]; [cbn in E; congruence|eauto]. }
  destruct (P fs1 (incl_refl _)) as [A|]; [|auto]. left. split; auto. intros k.
  assert (Q1 : forall k t, In (k, t) fs1 -> exists v, get k k1 = Some v).
  { intros k' t I. destruct (FI _ _ I) as (v1 & _ & _ & V & _). eauto. }
  assert (Q2 : forall k t, In (k, t) fs1 -> exists v, get k k2 = Some v).
  { intros k' t I. destruct (FI _ _ I) as (_ & v2 & _ & _ & V & _). eauto. }
  pose proof (names_cover _ _ N1 L1 Q1 k) as K1. pose proof (names_cover _ _ N1 L2 Q2 k) as K2.
  destruct (in_dec bytes_eq_dec k (map fst fs1)) as [I|I].
  - apply in_map_iff in I. destruct I as ([k' t] & <- & I). eauto.
  - replace (get k k1) with (@None json) by (symmetry; apply get_none; tauto).
    symmetry. apply get_none. tauto.
Qed.

Lemma canonical_items l x : canonical (JArr l) -> In x l -> canonical x.
Proof.
  cbn [canonical]. induction l as [|y l IH]; [intros _ []|]. cbn. intros [C F] [-> |I]; auto.
Qed.

Lemma enc_is_obj T j nm d : enc T j nm = Ok d -> exists kvs, j = JObj kvs.
Proof. destruct j; try discriminate. eauto. Qed.

Lemma Forall2_eq_or {A} (R : A -> A -> Prop) (C : Prop) l1 l2 :
  Forall2 R l1 l2 -> (forall x y, In x l1 -> In y l2 -> R x y -> x = y \/ C) -> l1 = l2 \/ C.
Proof.
  induction 1 as [|x y l1 l2 H F IH]; intros P; auto.
  destruct (P x y) as [-> |]; cbn; auto.
  destruct IH as [-> |]; auto. intros u w U W. apply P; right; auto.
Qed.

Lemma inj_all j : inj_at j.
Proof.
  assert (S : forall j1, (forall kvs, j1 = JObj kvs -> Forall (fun kv => inj_at (snd kv)) kvs) ->
    forall T1 T2 b j2 a, good T1 -> good T2 -> canonical j1 -> canonical j2 ->
      typed T1 (b, false) j1 -> typed T2 (b, false) j2 ->
      encv T1 j1 (b, false) = Ok a -> encv T2 j2 (b, false) = Ok a -> j1 = j2 \/ coll).
  { intros j1 IH T1 T2 b j2 a G1 G2 C1 C2 Y1 Y2 E1 E2. rewrite encv_single in E1, E2.
    unfold Model.item in E1, E2.
    assert (X : forall T k e, good T -> has b T = true -> enc_prim b k = Ok e -> False).
    { intros T k e (_ & A & B & D) HH P. apply has_get in HH. destruct HH as [v V].
      apply enc_prim_names in P. destruct P as [-> |[-> | ->]]; congruence. }
    destruct (has b T1) eqn:H1, (has b T2) eqn:H2.
    - apply rbind_ok in E1. destruct E1 as (d1 & E1 & [= K1]).
      apply rbind_ok in E2. destruct E2 as (d2 & E2 & [= K2]).
      rewrite <- K2 in K1. apply keccak_inj in K1. destruct K1 as [-> |]; [|auto].
      destruct (enc_is_obj _ _ _ _ E1) as [k1 ->]. destruct (enc_is_obj _ _ _ _ E2) as [k2 ->].
      apply has_get in H1, H2. destruct H1 as [fs1 F1], H2 as [fs2 F2].
      inversion Y1 as [? ? Z1|? ? ? Z1 W1|]; subst; [congruence|].
      inversion Y2 as [? ? Z2|? ? ? Z2 W2|]; subst; [congruence|].
      rewrite F1 in Z1. injection Z1 as <-. rewrite F2 in Z2. injection Z2 as <-.
      destruct (obj_inj T1 T2 k1 k2 b fs1 fs2 d2) as [[_ EQ]|]; eauto using canonical_in.
      left. f_equal. destruct C1 as (S1 & _), C2 as (S2 & _). apply sorted_ext; auto.
    - exfalso. eapply (X T1); eauto.
    - exfalso. eapply (X T2); eauto.
    - eapply prim_inj; eauto.
      + intros ->. inversion Y1 as [? ? _ Q|? ? ? Q _|]; subst; auto.
        destruct G1 as (_ & _ & _ & N). congruence.
      + intros ->. inversion Y2 as [? ? _ Q|? ? ? Q _|]; subst; auto.
        destruct G2 as (_ & _ & _ & N). congruence. }
  assert (A : forall l, Forall inj_at l -> forall T1 T2 b j2 a,
    good T1 -> good T2 -> canonical (JArr l) -> canonical j2 ->
    typed T1 (b, true) (JArr l) -> typed T2 (b, true) j2 ->
    encv T1 (JArr l) (b, true) = Ok a -> encv T2 j2 (b, true) = Ok a -> JArr l = j2 \/ coll).
  { intros l IH T1 T2 b j2 a G1 G2 C1 C2 Y1 Y2 E1 E2.
    apply encv_array in E1. destruct E1 as (l1 & d1 & [= <-] & -> & D1).
    apply encv_array in E2. destruct E2 as (l2 & d2 & -> & K & D2).
    apply keccak_inj in K. destruct K as [-> |]; [|auto].
    pose proof (cat_inj _ _ _ _ _ _ D1 D2) as F.
    assert (l = l2 \/ coll) as [-> |]; auto.
    eapply Forall2_eq_or; [exact F|]. intros x y X Y (a & A1 & A2).
    rewrite Forall_forall in IH. eapply (IH x X T1 T2 (b, false)); eauto using canonical_items.
    - inversion Y1 as [| |? ? W]; subst. eapply W; eauto.
    - inversion Y2 as [| |? ? W]; subst. eapply W; eauto. }
  induction j using json_ind2; intros T1 T2 [tb arr] j2 a G1 G2 C1 C2 Y1 Y2 E1 E2; destruct arr;
    try (refine (S _ _ T1 T2 tb j2 a _ _ _ _ _ _ _ _); try assumption; intros; discriminate);
    try (apply encv_array in E1; destruct E1 as (? & ? & ? & _); discriminate).
  - apply (A l H T1 T2 tb j2 a); assumption.
  - refine (S _ _ T1 T2 tb j2 a _ _ _ _ _ _ _ _); try assumption. intros kvs0 [= <-]. exact H.
Qed.
End Inject.
