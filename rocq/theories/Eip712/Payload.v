(* Whole payloads and sign documents. *)
From Coq Require Import String Ascii NArith Sorted Permutation.
From Verif Require Import Lib.Base Lib.Bytes Lib.Codec Lib.Dec
  Eip712.Model Eip712.Spec Eip712.Proofs Eip712.Inject Eip712.Gen.
Open Scope Z_scope.

Definition numbered (i : nat) (msgs : list json) : list (bytes * json) :=
  combine (map msg_field (List.seq i (List.length msgs))) msgs.

Lemma add_msgs_inv msgs : forall i kvs kvs', add_msgs i msgs kvs = Ok kvs' ->
  kvs' = kvs ++ numbered i msgs
  /\ forall q, (q < List.length msgs)%nat -> get (msg_field (i + q)) kvs = None.
Proof.
  induction msgs as [|m msgs IH]; intros i kvs kvs' H; cbn [add_msgs] in H.
  - injection H as <-. unfold numbered. cbn. rewrite app_nil_r. split; auto. intros; lia.
  - destruct (has (msg_field i) kvs) eqn:E; [discriminate|]. destruct m; try discriminate.
    apply IH in H. destruct H as [-> H]. split.
    + unfold numbered. cbn [List.length List.seq map combine]. rewrite <- app_assoc. auto.
    + intros [|q] L; cbn in L.
      * rewrite Nat.add_0_r. unfold has in E. destruct (get (msg_field i) kvs); [discriminate|auto].
      * specialize (H q ltac:(lia)). rewrite get_app in H. rewrite <- Nat.add_succ_comm.
        destruct (get (msg_field (S i + q)) kvs); [discriminate|auto].
Qed.

Lemma get_numbered msgs : forall i q, get (msg_field (i + q)) (numbered i msgs) = nth_error msgs q.
Proof.
  induction msgs as [|m msgs IH]; intros i q; [destruct q; auto|].
  unfold numbered in *. cbn [List.length List.seq map combine get].
  destruct q as [|q]; cbn [nth_error].
  - rewrite Nat.add_0_r, beqb_refl. auto.
  - rewrite <- Nat.add_succ_comm. destruct (beqb (msg_field (S i + q)) (msg_field i)) eqn:E; [|apply IH].
    apply beqb_spec in E. apply msg_field_inj in E. lia.
Qed.

Lemma numbered_keys msgs i k v : get k (numbered i msgs) = Some v ->
  exists q, (q < List.length msgs)%nat /\ k = msg_field (i + q) /\ nth_error msgs q = Some v.
Proof.
  revert i. induction msgs as [|m msgs IH]; intros i; [discriminate|].
  unfold numbered in *. cbn [List.length List.seq map combine get].
  destruct (beqb k (msg_field i)) eqn:E.
  - apply beqb_spec in E. intros [= ->]. exists 0%nat. rewrite Nat.add_0_r. cbn. split; [lia|auto].
  - intros H. apply IH in H. destruct H as (q & L & -> & N). exists (S q). rewrite <- Nat.add_succ_comm.
    split; [lia|auto].
Qed.

Lemma flatten_inv p msgs m n : carries p msgs -> flatten p = Ok (m, n) ->
  n = List.length msgs /\ (forall q, (q < n)%nat -> get (msg_field q) p = None)
  /\ forall k, get k m = if beqb k (text "msgs") then None
                         else match get k p with Some v => Some v | None => get k (numbered 0 msgs) end.
Proof.
  unfold carries, flatten. intros C H. rewrite C in H. apply rbind_ok in H.
  destruct H as (p' & A & [= <- <-]). apply add_msgs_inv in A. destruct A as [-> A].
  split; auto. split; [exact A|]. intros k. unfold without_msgs.
  rewrite (get_filter (fun k => negb (beqb k (text "msgs")))).
  destruct (beqb k (text "msgs")); cbn [negb]; auto. apply get_app.
Qed.

Section Payload.
Variable keccak : bytes -> bytes.
Variable title : bytes -> bytes.
Variable read_int : bytes -> option Z.
Hypothesis keccak_len : forall b, List.length (keccak b) = 32%nat.
Hypothesis title_letters : forall b, letters b -> letters (title b).
Hypothesis title_upper : forall c b, is_upper c = true -> letters (c :: b) -> title (c :: b) = c :: b.

Notation enc := (enc keccak read_int).
Notation coll := (collision keccak).
Notation raw_data := (raw_data keccak title read_int).

Lemma good_types T : tinv T -> valid_types T = true -> good T.
Proof.
  intros V W.
  assert (X : forall n, ~ type_name n -> ~ In n [text "EIP712Domain"; tx_name; text "Fee"; text "Coin"] ->
    get n T = None).
  { intros n A B. destruct (get n T) as [fs|] eqn:G; auto. destruct (V _ _ G) as (_ & _ & [D|D]); tauto. }
  assert (Y : forall n, mem n [text "EIP712Domain"; tx_name; text "Fee"; text "Coin"] = false ->
    hd 0%N n <> 84%N -> get n T = None).
  { intros n A B. apply X.
    - intros [s ->]. apply B. reflexivity.
    - intros I. apply Bool.not_true_iff_false in A. apply A. apply existsb_exists. exists n.
      rewrite beqb_refl. auto. }
  split; [|repeat split; apply Y; try reflexivity; vm_compute; discriminate].
  intros nm fs G. destruct (V _ _ G) as (N & P & _). split; auto.
  unfold valid_types in W. rewrite forallb_forall in W. pose proof (W _ (get_in _ _ _ G)) as F.
  apply andb_prop in F. destruct F as [_ F]. cbn [fst snd] in F. rewrite forallb_forall in F.
  apply Forall_forall. intros [k [b arr]] I. split.
  - cbn [fst]. rewrite Forall_forall in P. apply P. apply (in_map fst) in I. exact I.
  - apply F in I. unfold valid_field in I. cbn [fst snd]. apply andb_prop in I. destruct I as [_ I].
    destruct b as [|c r]; [discriminate|]. apply andb_prop in I. destruct I as [_ I].
    destruct (is_upper c) eqn:U.
    + apply andb_prop in I. destruct I as [_ I]. rewrite forallb_forall in I.
      constructor; [unfold is_word; rewrite U; auto|]. apply Forall_forall. auto.
    + assert (Q : forall l : list bytes, forallb (forallb is_word) l = true -> forall x, In x l -> plain x).
      { intros l H x Hx. apply plain_spec in H. rewrite Forall_forall in H. auto. }
      apply (Q [t_string; t_bool; t_int64; text "uint256"]); [reflexivity|].
      repeat (apply orb_prop in I; destruct I as [I|I]); apply beqb_spec in I; rewrite I; cbn [In]; auto 10.
Qed.

Lemma enc_keys T m nm fs d : good T -> get nm T = Some fs -> enc T (JObj m) nm = Ok d ->
  (forall k, In k (map fst m) -> In k (map fst fs))
  /\ (forall k t, In (k, t) fs -> exists v, get k m = Some v).
Proof.
  intros G E H. rewrite enc_obj in H. cbv zeta in H. rewrite E in H.
  destruct (Nat.ltb_spec (List.length fs) (List.length m)) as [|L]; [discriminate|].
  apply rbind_ok in H. destruct H as (b & B & _).
  assert (P : forall k t, In (k, t) fs -> exists v, get k m = Some v).
  { intros k t I. destruct (fields_present _ _ _ _ _ _ B k t I) as (v & _ & V & _). eauto. }
  split; auto. apply names_cover; auto. apply (proj1 G _ _ E).
Qed.

(* What an accepted payload is made of. *)
Lemma raw_inv cid p msgs b : carries p msgs -> canonical (JObj p) -> Forall uniform msgs ->
  raw_data cid p = Ok b ->
  exists m T d ds nms, b = [25; 1]%N ++ ds ++ keccak d /\ List.length ds = 32%nat
    /\ good T /\ enc T (JObj m) tx_name = Ok d
    /\ List.length nms = List.length msgs
    /\ get tx_name T = Some (tx_base ++ tx_fields nms 0)
    /\ get (text "Fee") T = Some [(text "amount", (text "Coin", true)); (text "gas", (t_string, false))]
    /\ (forall q, (q < List.length msgs)%nat -> get (msg_field q) p = None)
    /\ (forall k, get k m = if beqb k (text "msgs") then None
                 else match get k p with Some v => Some v | None => get k (numbered 0 msgs) end)
    /\ (forall k v, get k m = Some v -> canonical v)
    /\ (forall k t v, In (k, t) (tx_base ++ tx_fields nms 0) -> get k m = Some v -> typed T t v).
Proof.
  intros C CN U H. unfold Model.raw_data in H. apply rbind_ok in H. destruct H as ([m n] & HF & H).
  destruct (flatten_inv _ _ _ _ C HF) as (-> & NP & GM).
  apply rbind_ok in H. destruct H as (T & HT & H).
  destruct (valid_types T) eqn:VT; [|discriminate]. cbn [negb] in H.
  apply rbind_ok in H. destruct H as (ds & HD & H). apply rbind_ok in H. destruct H as (d & HE & H).
  apply ok_inj in H.
  assert (CM : forall k v, get k m = Some v -> canonical v).
  { intros k v. rewrite GM. destruct (beqb k (text "msgs")); [discriminate|].
    destruct (get k p) eqn:G; [intros [= <-]; eapply canonical_in; eauto|].
    intros X. apply numbered_keys in X. destruct X as (q & _ & _ & X). apply nth_error_In in X.
    eapply canonical_items; [|exact X]. eapply canonical_in; [exact CN|exact C]. }
  unfold create_types in HT.
  destruct (gen_msgs_inv title title_letters title_upper m (List.length msgs) 0 base_types T)
    as (V & X & nms & L & GT & DN); auto.
  { apply base_tinv. }
  { exists []. split; [reflexivity|intros x []]. }
  change (get tx_name base_types) with (Some tx_base) in GT. cbn [option_map] in GT.
  assert (GD : good T) by (apply good_types; auto).
  assert (GF : get (text "Fee") T = Some [(text "amount", (text "Coin", true)); (text "gas", (t_string, false))]).
  { apply X; [discriminate|reflexivity]. }
  assert (GC : get (text "Coin") T = Some [(text "denom", (t_string, false)); (text "amount", (t_string, false))]).
  { apply X; [discriminate|reflexivity]. }
  exists m, T, d, ds, nms. conjs; auto.
  - unfold domain_separator in HD. cbv zeta in HD.
    match type of HD with (if ?c then _ else _) = _ => destruct c; [discriminate|] end.
    apply ok_inj in HD. rewrite <- HD. apply keccak_len.
  - intros k t v I Gk. pose proof GD as (_ & NS & _ & _).
    assert (ST : forall j, typed T (t_string, false) j).
    { intros j. apply typed_prim; auto. discriminate. }
    apply in_app_or in I. destruct I as [I|I].
    + assert (FE : typed T (text "Fee", false) v).
      { eapply typed_struct; [exact GF|]. intros kvs k0 t0 v0 _ I0 _. destruct I0 as [I0|[I0|[]]].
        - injection I0 as _ <-. apply typed_array. intros l x _ _. eapply typed_struct; [exact GC|].
          intros kvs' k1 t1 v1 _ I1 _. destruct I1 as [I1|[I1|[]]]; injection I1 as _ <-; apply ST.
        - injection I0 as _ <-. apply ST. }
      assert (t = (t_string, false) \/ t = (text "Fee", false)) as [-> | ->]; auto.
      clear -I. unfold tx_base in I.
      repeat (destruct I as [I|I]; [injection I as _ <-; auto|]). destruct I.
    + unfold tx_fields in I. apply in_map_iff in I. destruct I as ([q nm] & E & I). cbn [fst snd] in E.
      injection E as <- <-.
      assert (nth_error nms q = Some nm /\ (q < List.length nms)%nat) as [NQ LQ].
      { clear -I. assert (G : forall l i, In (q, nm) (combine (List.seq i (List.length l)) l) ->
          (i <= q)%nat /\ nth_error l (q - i) = Some nm).
        { induction l as [|x l IH]; intros i J; [destruct J|]. cbn in J. destruct J as [[= -> ->]|J].
          - rewrite Nat.sub_diag. auto.
          - apply IH in J. destruct J as [J1 J2]. split; [lia|].
            replace (q - i)%nat with (S (q - S i)) by lia. auto. }
        apply G in I. rewrite Nat.sub_0_r in I. destruct I as [_ I]. split; auto.
        apply nth_error_Some. congruence. }
      destruct (DN _ _ NQ) as (m' & Gm & Dm). cbn [Nat.add] in Gm. rewrite Gk in Gm. apply some_inj in Gm. subst m'.
      eapply describes_typed; eauto.
      rewrite GM in Gk. destruct (beqb (msg_field q) (text "msgs")); [discriminate|].
      rewrite NP in Gk by lia. apply numbered_keys in Gk. destruct Gk as (q' & _ & _ & Gk).
      apply nth_error_In in Gk. rewrite Forall_forall in U. apply U; auto.
Qed.

Lemma tx_names_msg nms q : In (msg_field q) (map fst (tx_base ++ tx_fields nms 0)) -> (q < List.length nms)%nat.
Proof.
  rewrite map_app. intros I. apply in_app_or in I. destruct I as [I|I].
  - exfalso. eapply (msg_field_not q); [|reflexivity]. apply in_or_app. left. exact I.
  - unfold tx_fields in I. rewrite map_map in I. cbn [fst] in I. apply in_map_iff in I.
    destruct I as ([q' nm] & E & I). cbn [fst] in E. apply msg_field_inj in E. subst q'.
    apply in_combine_l in I. apply in_seq in I. lia.
Qed.

Lemma nth_error_ext {A} (l : list A) : forall l', (forall q, nth_error l q = nth_error l' q) -> l = l'.
Proof.
  induction l as [|x l IH]; intros [|y l'] H; auto.
  - specialize (H 0%nat). discriminate.
  - specialize (H 0%nat). discriminate.
  - pose proof (H 0%nat) as E. cbn in E. injection E as ->. f_equal. apply IH. intros q. apply (H (S q)).
Qed.

Theorem payload_inj c1 c2 p1 p2 msgs1 msgs2 b :
  carries p1 msgs1 -> carries p2 msgs2 -> canonical (JObj p1) -> canonical (JObj p2) ->
  Forall uniform msgs1 -> Forall uniform msgs2 ->
  raw_data c1 p1 = Ok b -> raw_data c2 p2 = Ok b -> p1 = p2 \/ coll.
Proof.
  intros K1 K2 C1 C2 U1 U2 R1 R2.
  destruct (raw_inv _ _ _ _ K1 C1 U1 R1) as (m1 & T1 & d1 & ds1 & n1 & B1 & L1 & G1 & E1 & N1 & X1 & F1 & P1 & M1 & CM1 & Y1).
  destruct (raw_inv _ _ _ _ K2 C2 U2 R2) as (m2 & T2 & d2 & ds2 & n2 & B2 & L2 & G2 & E2 & N2 & X2 & F2 & P2 & M2 & CM2 & Y2).
  rewrite B1 in B2. apply app_inv_head in B2. apply app_inj32 in B2; auto. destruct B2 as [_ B].
  apply keccak_inj in B. destruct B as [B|]; [subst d2|auto].
  assert (IH : Forall (fun kv => inj_at keccak read_int (snd kv)) m1).
  { apply Forall_forall. intros kv _. apply inj_all; auto. }
  pose proof (obj_inj keccak read_int keccak_len T1 T2 m1 m2 tx_name _ _ d1
    IH G1 G2 CM1 CM2 X1 X2 Y1 Y2 E1 E2) as [[_ EQ]|]; [|auto].
  left.
  pose proof (proj1 (enc_keys _ _ _ _ _ G1 X1 E1)) as A1.
  pose proof (proj1 (enc_keys _ _ _ _ _ G2 X2 E2)) as A2.
  assert (MF : forall q, beqb (msg_field q) (text "msgs") = false).
  { intros q. apply beqb_neq. apply msg_field_not. apply in_or_app. right. left. auto. }
  assert (Z : forall p m msgs n T, (forall q, (q < List.length msgs)%nat -> get (msg_field q) p = None) ->
    List.length n = List.length msgs ->
    (forall k, get k m = if beqb k (text "msgs") then None
                 else match get k p with Some v => Some v | None => get k (numbered 0 msgs) end) ->
    (forall k, In k (map fst m) -> In k (map fst (tx_base ++ tx_fields n 0))) -> get tx_name (T : types) = get tx_name T ->
    forall q, get (msg_field q) m = nth_error msgs q).
  { intros p m msgs n _ P N M A _ q. destruct (Nat.lt_ge_cases q (List.length msgs)) as [L|L].
    - rewrite M, MF, P by auto. apply (get_numbered msgs 0 q).
    - replace (nth_error msgs q) with (@None json) by (symmetry; apply nth_error_None; auto).
      apply get_none. intros I. apply A in I. apply tx_names_msg in I. lia. }
  assert (EM : msgs1 = msgs2).
  { apply nth_error_ext. intros q.
    rewrite <- (Z p1 m1 msgs1 n1 T1 P1 N1 M1 A1 eq_refl), <- (Z p2 m2 msgs2 n2 T2 P2 N2 M2 A2 eq_refl). auto. }
  subst msgs2. apply sorted_ext; [apply C1|apply C2|]. intros k.
  destruct (beqb k (text "msgs")) eqn:EK; [apply beqb_spec in EK; subst; congruence|].
  pose proof (EQ k) as Q. rewrite M1, M2, EK in Q.
  destruct (get k p1) as [v1|] eqn:V1, (get k p2) as [v2|] eqn:V2; auto; exfalso.
  - symmetry in Q. apply numbered_keys in Q. destruct Q as (q & L & -> & _). cbn [Nat.add] in V1.
    rewrite P1 in V1 by auto. discriminate.
  - apply numbered_keys in Q. destruct Q as (q & L & -> & _). cbn [Nat.add] in V2.
    rewrite P2 in V2 by auto. discriminate.
Qed.

(* Nothing else can be in an accepted payload or its fee. *)
Theorem payload_keys cid p msgs b :
  carries p msgs -> canonical (JObj p) -> Forall uniform msgs -> raw_data cid p = Ok b ->
  (forall k, In k (map fst p) <->
     In k [text "account_number"; text "chain_id"; text "fee"; text "memo"; text "msgs"; text "sequence"])
  /\ exists fee, get (text "fee") p = Some (JObj fee)
     /\ forall k, In k (map fst fee) <-> In k [text "amount"; text "gas"].
Proof.
  intros K C U R.
  destruct (raw_inv _ _ _ _ K C U R) as (m & T & d & ds & n & B & L & G & E & N & X & F & P & M & CM & Y).
  destruct (enc_keys _ _ _ _ _ G X E) as [A1 A2].
  assert (BK : forall k, In k (map fst tx_base) -> get k m = get k p).
  { intros k I. rewrite M.
    destruct (beqb k (text "msgs")) eqn:EK.
    - apply beqb_spec in EK. subst. exfalso. clear -I. cbn [map tx_base fst In] in I.
      repeat (destruct I as [I|I]; [discriminate|]). destruct I.
    - destruct (get k p) eqn:V; auto. destruct (get k (numbered 0 msgs)) eqn:W; auto.
      apply numbered_keys in W. destruct W as (q & _ & -> & _). exfalso.
      eapply (msg_field_not (0 + q)); [|reflexivity]. apply in_or_app. left. exact I. }
  split.
  - intros k. split; intros I.
    + destruct (beqb k (text "msgs")) eqn:EK; [apply beqb_spec in EK; subst; cbn [In]; auto 10|].
      destruct (in_get _ _ I) as [v V].
      assert (GM : get k m = Some v) by (rewrite M, EK, V; auto).
      apply get_in in GM. apply (in_map fst) in GM. apply A1 in GM. cbn [fst] in GM.
      rewrite map_app in GM. apply in_app_or in GM. destruct GM as [GM|GM].
      * cbn [map tx_base fst In] in GM. cbn [In]. intuition auto 10.
      * exfalso. assert (exists q, k = msg_field q) as [q ->].
        { unfold tx_fields in GM. rewrite map_map in GM. cbn [fst] in GM. apply in_map_iff in GM.
          destruct GM as ([q nm] & <- & _). eauto. }
        assert (LQ : (q < List.length n)%nat).
        { apply tx_names_msg. rewrite map_app. apply in_or_app. auto. }
        rewrite P in V by lia. discriminate.
    + assert (I' : In k (map fst tx_base) \/ k = text "msgs").
      { cbn [In] in I. cbn [map tx_base fst In]. intuition auto 10. }
      destruct I' as [I'| ->].
      * pose proof I' as J. apply in_map_iff in J. destruct J as ([k' t] & EK & J). cbn [fst] in EK. subst k'.
        destruct (A2 k t) as [v V]; [apply in_or_app; auto|]. rewrite BK in V by auto.
        apply get_in in V. apply (in_map fst) in V. exact V.
      * apply get_in in K. apply (in_map fst) in K. exact K.
  - rewrite enc_obj in E. cbv zeta in E. rewrite X in E.
    match type of E with (if ?c then _ else _) = _ => destruct c; [discriminate|] end.
    apply rbind_ok in E. destruct E as (b0 & E & _).
    destruct (fields_present _ _ _ _ _ _ E (text "fee") (text "Fee", false)) as (v & a & V & A).
    { apply in_or_app. left. cbn [tx_base In]. auto 10. }
    rewrite encv_single in A. unfold item in A.
    assert (has (text "Fee") T = true) as HF by (apply has_get; eauto). rewrite HF in A.
    apply rbind_ok in A. destruct A as (d' & A & _).
    destruct (enc_is_obj _ _ _ _ _ _ A) as [fee ->]. exists fee. split.
    { rewrite <- BK; auto. cbn [map tx_base fst In]. auto 10. }
    destruct (enc_keys _ _ _ _ _ G F A) as [Q1 Q2]. intros k. split.
    + intros I. apply Q1 in I. exact I.
    + intros I. assert (exists t, In (k, t) [(text "amount", (text "Coin", true)); (text "gas", (t_string, false))]) as [t J].
      { cbn [In] in *. destruct I as [<-|[<-|[]]]; eauto. }
      destruct (Q2 _ _ J) as [v W]. apply get_in in W. apply (in_map fst) in W. exact W.
Qed.
End Payload.

Lemma coin_inj c1 c2 : coin_json c1 = coin_json c2 -> c1 = c2.
Proof.
  destruct c1 as [n1 a1], c2 as [n2 a2]. unfold coin_json. cbn [fst snd]. intros H.
  assert (A : JStr (dec a1) = JStr (dec a2)) by congruence.
  assert (B : JStr n1 = JStr n2) by congruence.
  injection B as ->. f_equal. apply dec_inj. congruence.
Qed.

Lemma coins_inj l1 : forall l2, map coin_json l1 = map coin_json l2 -> l1 = l2.
Proof.
  induction l1 as [|c l1 IH]; intros [|c2 l2] H; try discriminate; auto.
  cbn [map] in H. assert (A : coin_json c = coin_json c2) by congruence.
  assert (B : map coin_json l1 = map coin_json l2) by congruence.
  apply coin_inj in A. apply IH in B. subst. auto.
Qed.

Fixpoint ascending (l : list bytes) : bool :=
  match l with
  | [] => true
  | x :: r => forallb (bltb x) r && ascending r
  end.

Lemma ascending_spec l : ascending l = true -> StronglySorted blt l.
Proof.
  induction l as [|x l IH]; cbn; intros H; constructor; apply andb_prop in H; destruct H as [H1 H2]; auto.
  rewrite forallb_forall in H1. apply Forall_forall. intros y Y. apply bltb_spec. auto.
Qed.

Lemma canonical_obj kvs : ascending (map fst kvs) = true ->
  forallb (forallb is_word) (map fst kvs) = true -> Forall (fun kv => canonical (snd kv)) kvs ->
  canonical (JObj kvs).
Proof.
  intros A B C. cbn [canonical]. split; [apply ascending_spec; auto|]. split; [apply plain_spec; auto|].
  induction C; cbn; auto.
  cbn in A, B. apply andb_prop in A, B. destruct A, B. auto.
Qed.

Lemma canonical_arr l : Forall canonical l -> canonical (JArr l).
Proof. cbn [canonical]. induction 1; cbn; auto. Qed.

Lemma payload_canonical d s : Forall canonical (d_msgs d) -> canonical (JObj (payload d s)).
Proof.
  intros H. apply canonical_obj; [reflexivity|reflexivity|].
  repeat apply Forall_cons; try apply Forall_nil; cbn [snd]; try exact I.
  - apply canonical_obj; [reflexivity|reflexivity|].
    repeat apply Forall_cons; try apply Forall_nil; cbn [snd]; try exact I.
    apply canonical_arr. apply Forall_map. apply Forall_forall. intros c _.
    apply canonical_obj; [reflexivity|reflexivity|].
    repeat apply Forall_cons; try apply Forall_nil; exact I.
  - apply canonical_arr. auto.
Qed.

Section Docs.
Variable keccak : bytes -> bytes.
Variable title : bytes -> bytes.
Variable read_int : bytes -> option Z.
Variable chain_number : bytes -> option Z.
Variable signers : json -> option (list bytes).
Hypothesis keccak_len : forall b, List.length (keccak b) = 32%nat.
Hypothesis title_letters : forall b, letters b -> letters (title b).
Hypothesis title_upper : forall c b, is_upper c = true -> letters (c :: b) -> title (c :: b) = c :: b.

Notation doc_bytes := (doc_bytes keccak title read_int chain_number signers).

Lemma doc_inv d b : doc_bytes d = Ok b ->
  d_timeout d = 0 /\ d_extensions d = 0%nat /\ exists s c, d_signers d = [s]
    /\ chain_number (d_chain d) = Some c
    /\ raw_data keccak title read_int (c mod 2 ^ 64) (payload d s) = Ok b.
Proof.
  unfold Model.doc_bytes. intros H.
  destruct (Z.eqb_spec (d_timeout d) 0) as [E|]; [|discriminate].
  destruct (Nat.eqb_spec (d_extensions d) 0) as [E2|]; [|discriminate].
  cbn [negb orb] in H. destruct (d_signers d) as [|s [|]]; try discriminate.
  destruct (one_signer signers (d_msgs d)); [|discriminate]. cbn [negb] in H.
  destruct (chain_number (d_chain d)) as [c|]; [|discriminate]. eauto 10.
Qed.

Theorem doc_inj d1 d2 b :
  Forall canonical (d_msgs d1) -> Forall canonical (d_msgs d2) ->
  Forall uniform (d_msgs d1) -> Forall uniform (d_msgs d2) ->
  0 <= d_account d1 -> 0 <= d_account d2 -> 0 <= d_gas d1 -> 0 <= d_gas d2 ->
  Forall (Z.le 0) (d_signers d1) -> Forall (Z.le 0) (d_signers d2) ->
  doc_bytes d1 = Ok b -> doc_bytes d2 = Ok b ->
  same_transaction d1 d2 \/ collision keccak.
Proof.
  intros C1 C2 U1 U2 A1 A2 G1 G2 S1 S2 H1 H2.
  apply doc_inv in H1. destruct H1 as (T1 & X1 & s1 & c1 & Q1 & _ & R1).
  apply doc_inv in H2. destruct H2 as (T2 & X2 & s2 & c2 & Q2 & _ & R2).
  assert (K : forall d s, carries (payload d s) (d_msgs d)) by (intros; reflexivity).
  destruct (payload_inj keccak title read_int keccak_len title_letters title_upper
    _ _ _ _ _ _ _ (K d1 s1) (K d2 s2) (payload_canonical d1 s1 C1) (payload_canonical d2 s2 C2) U1 U2 R1 R2)
    as [E|]; [left|auto].
  rewrite Q1 in S1. rewrite Q2 in S2. inversion S1; inversion S2; subst.
  assert (J : forall k, get k (payload d1 s1) = get k (payload d2 s2)) by (intros; congruence).
  assert (Ja : JStr (udec (d_account d1)) = JStr (udec (d_account d2))) by (apply some_inj, (J (text "account_number"))).
  assert (Jc : JStr (d_chain d1) = JStr (d_chain d2)) by (apply some_inj, (J (text "chain_id"))).
  assert (Jm : JStr (d_memo d1) = JStr (d_memo d2)) by (apply some_inj, (J (text "memo"))).
  assert (Js : JStr (udec s1) = JStr (udec s2)) by (apply some_inj, (J (text "sequence"))).
  assert (Jg : JArr (d_msgs d1) = JArr (d_msgs d2)) by (apply some_inj, (J (text "msgs"))).
  assert (Jf : JObj [(text "amount", JArr (map coin_json (d_amount d1))); (text "gas", JStr (udec (d_gas d1)))]
             = JObj [(text "amount", JArr (map coin_json (d_amount d2))); (text "gas", JStr (udec (d_gas d2)))])
    by (apply some_inj, (J (text "fee"))).
  assert (Jf1 : JArr (map coin_json (d_amount d1)) = JArr (map coin_json (d_amount d2))) by congruence.
  assert (Jf2 : JStr (udec (d_gas d1)) = JStr (udec (d_gas d2))) by congruence.
  red. conjs; try congruence.
  - apply udec_inj; auto. congruence.
  - rewrite Q1, Q2. f_equal. apply udec_inj; auto. congruence.
  - apply coins_inj. congruence.
  - apply udec_inj; auto. congruence.
Qed.
End Docs.
