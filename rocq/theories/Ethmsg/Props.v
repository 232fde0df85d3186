(** C112: an Ethereum transaction put into a message and taken out again is
    the same transaction. *)
From Verif Require Import Lib.Base Lib.Bytes Lib.Codec Ethmsg.Rlp Ethmsg.Model Ethmsg.Spec Ethmsg.Proofs.
From Coq Require Import NArith Lia ZArith.
Open Scope Z_scope.

Lemma as_tx_wf d : wf_tdata d -> validate d = true -> chain_not_negative d -> wf_tx (as_tx d).
Proof.
  intros W V C. unfold validate in V. rewrite !Bool.andb_true_iff in V.
  destruct V as ((((V1 & _) & V3) & _) & _).
  assert (Bd : wf_pbody (td_body d) -> amount_ok (p_amount (td_body d)) = true -> wf_body (as_body (td_body d))).
  { clear. set (p := td_body d). intros (W1 & W2 & W3 & W4 & W5 & W6 & W7 & W8) A. unfold wf_body, as_body.
    cbn [b_nonce b_gas b_to b_value b_data b_v b_r b_s]. unfold sig_value.
    repeat match goal with |- _ /\ _ => split end; try apply unbe_nonneg; try tauto; try lia.
    - unfold get_to. destruct (p_to p); [exact Logic.I|apply hex_to_address_fixed].
    - unfold amount_ok in A. destruct (p_amount p) as [a|]; cbn [num]; [|lia].
      apply andb_prop in A. lia. }
  assert (PR : forall o, price_ok o = true -> 0 <= num o).
  { intros [x|] P; [|discriminate]. cbn [price_ok num] in *. apply andb_prop in P. lia. }
  destruct d as [p b|c p al b|c q p al b]; cbn [wf_tdata as_tx wf_tx td_body chain_not_negative] in *.
  - split; [apply PR, V1|]. apply Bd; tauto.
  - repeat match goal with |- _ /\ _ => split end; auto using to_eth_access_wf; try (apply PR; assumption).
    apply Bd; tauto.
  - apply andb_prop in V1. destruct V1 as [V1 _]. apply andb_prop in V1.
    repeat match goal with |- _ /\ _ => split end; auto using to_eth_access_wf; try (apply PR; tauto).
    apply Bd; tauto.
Qed.

Lemma digit_spec c : match undig c with Some _ => true | None => false end = true <-> hex_digit c.
Proof.
  unfold undig, hex_digit.
  destruct ((48 <=? c) && (c <=? 57))%N%bool eqn:E1; [apply andb_prop in E1; split; [lia|reflexivity]|].
  destruct ((97 <=? c) && (c <=? 102))%N%bool eqn:E2; [apply andb_prop in E2; split; [lia|reflexivity]|].
  destruct ((65 <=? c) && (c <=? 70))%N%bool eqn:E3; [apply andb_prop in E3; split; [lia|reflexivity]|].
  apply Bool.andb_false_iff in E1. apply Bool.andb_false_iff in E2. apply Bool.andb_false_iff in E3.
  split; [discriminate|lia].
Qed.

Lemma digits_spec l :
  forallb (fun c => match undig c with Some _ => true | None => false end) l = true <-> Forall hex_digit l.
Proof.
  induction l as [|c l IH]; cbn [forallb]; [split; [constructor|reflexivity]|].
  rewrite Bool.andb_true_iff, digit_spec, IH. split; [intros []; constructor; assumption|].
  intros Q. inversion Q; auto.
Qed.

Lemma strip_cases s : (exists x, (x = 120%N \/ x = 88%N) /\ s = 48%N :: x :: strip s) \/
  (strip s = s /\ forall x r, s = 48%N :: x :: r -> x <> 120%N /\ x <> 88%N).
Proof.
  destruct s as [|c s]; [right; split; [reflexivity|discriminate]|].
  destruct (N.eq_dec c 48) as [->|NC].
  - destruct s as [|x r]; [right; split; [reflexivity|discriminate]|]. cbn [strip].
    destruct ((x =? 120) || (x =? 88))%N%bool eqn:E.
    + left. exists x. apply Bool.orb_prop in E. split; [lia|reflexivity].
    + right. apply Bool.orb_false_elim in E. split; [reflexivity|]. intros y q Q. injection Q as <- <-. lia.
  - right. assert (Q : strip (c :: s) = c :: s).
    { cbn [strip]. destruct c as [|p]; [reflexivity|].
      repeat (destruct p as [p|p|]; try reflexivity). exfalso. apply NC. reflexivity. }
    split; [exact Q|]. intros x r Q2. injection Q2 as -> ->. congruence.
Qed.

Lemma is_hex_address_spec s : is_hex_address s = true <-> address_text s.
Proof.
  unfold is_hex_address, address_text. rewrite Bool.andb_true_iff, Nat.eqb_eq, digits_spec. split.
  - intros [L D]. destruct (strip_cases s) as [(x & X & E)|[E _]].
    + exists [48%N; x], (strip s). repeat split; auto. destruct X as [->| ->]; auto.
    + exists [], s. rewrite E in *. repeat split; auto.
  - intros (p & d & -> & P & L & D). destruct P as [->|[->| ->]]; try (split; [exact L|exact D]).
    cbn [app]. destruct (strip_cases d) as [(x & X & E)|[E _]]; [|rewrite E; auto].
    exfalso. rewrite E in D. inversion D as [|? ? _ D2]; subst. inversion D2 as [|? ? D3 _]; subst.
    unfold hex_digit in D3. lia.
Qed.

Lemma to_ok_spec s : to_ok s = true <-> s = [] \/ address_text s.
Proof.
  destruct s as [|c s]; [split; auto|]. change (to_ok (c :: s)) with (is_hex_address (c :: s)).
  rewrite is_hex_address_spec. split; [auto|]. intros [Q|Q]; [discriminate|exact Q].
Qed.

Lemma price_present o : price_ok o = true -> present o.
Proof. destruct o as [x|]; [|discriminate]. cbn [price_ok]. intros P. apply andb_prop in P. exists x. split; [reflexivity|lia]. Qed.

(** Every transaction has one byte form and every byte form is of one
    transaction: what is written can be read back, and only what is written
    that way can be read. *)
Theorem C112_bytes_and_transactions_match :
  (forall t, wf_tx t -> blen (marshal t) < 2 ^ 64 -> unmarshal (marshal t) = Some t) /\
  (forall b t, bytes_ok b -> unmarshal b = Some t -> marshal t = b /\ wf_tx t).
Proof. split; [exact unmarshal_marshal|exact marshal_unmarshal]. Qed.

Theorem C112_one_transaction_one_byte_form : forall t u,
  wf_tx t -> wf_tx u -> blen (marshal t) < 2 ^ 64 -> marshal t = marshal u -> t = u.
Proof.
  intros t u Wt Wu L E. pose proof (unmarshal_marshal t Wt L) as A.
  rewrite E in L, A. rewrite (unmarshal_marshal u Wu L) in A. congruence.
Qed.

Section Claims.

Variable keccak : bytes -> bytes.
Variable caps : bytes -> nat -> bool.

Local Notation from_eth := (from_eth keccak caps).
Local Notation validate_basic := (validate_basic keccak).
Local Notation send_raw := (send_raw keccak caps).

(** The transaction comes out as it went in, under its own hash. *)
Theorem C112_comes_out_as_it_went_in : forall t m, wf_tx t -> from_eth t = Ok m ->
  as_tx (m_data m) = t /\ m_hash m = hex0x lower (keccak (marshal t)).
Proof.
  intros t m W H. unfold Model.from_eth in H. destruct (new_tx_data caps t) as [d| |] eqn:D; try discriminate.
  cbn [rbind] in H. injection H as <-. cbn [m_data m_hash].
  split; [apply (data_back caps); assumption|].
  unfold tx_hash, hashed. rewrite wf_writable by exact W. reflexivity.
Qed.

(** When a transaction can be put into a message at all. *)
Theorem C112_which_transactions_go_in : forall t, wf_tx t ->
  let small := tx_value t < 2 ^ 256 /\ max_price t < 2 ^ 256 /\ max_tip t < 2 ^ 256 in
  (is_ok (from_eth t) = true <-> small /\ chain_number t < 2 ^ 256) /\
  (from_eth t = Panic <-> small /\ 2 ^ 256 <= chain_number t).
Proof.
  intros t W. cbv zeta. pose proof (new_data_cases caps t W) as C. cbv zeta in C.
  unfold Model.from_eth. destruct (new_tx_data caps t) as [d| |]; cbn [rbind is_ok] in *;
    destruct C as [C1 C2]; (split; [exact C1|]); split; intros Q; try discriminate Q;
    try (apply C2 in Q; discriminate Q); [apply C2|]; reflexivity.
Qed.

(** Gas, fees and the total a sender must hold are those of the transaction. *)
Theorem C112_charged_as_the_transaction_says : forall d,
  let t := as_tx d in
  p_gas (td_body d) = tx_gas t /\
  fee d = max_price t * tx_gas t /\
  cost d = max_price t * tx_gas t + tx_value t /\
  forall base,
    effective_price base d = price_at base t /\
    effective_fee base d = price_at base t * tx_gas t /\
    effective_cost base d = price_at base t * tx_gas t + tx_value t.
Proof.
  intros d. cbv zeta. destruct (asked d) as (A & B & C & D & E & G).
  repeat match goal with |- _ /\ _ => split end; auto.
Qed.

(** It never pays more than it offered, and never less than nothing. *)
Theorem C112_never_above_the_offer : forall d base,
  effective_price base d <= max_price (as_tx d) /\
  (wf_tx (as_tx d) -> 0 <= base -> 0 <= effective_price base d).
Proof.
  intros d base. destruct d as [p b|c p al b|c q p al b];
    cbn [effective_price as_tx max_price wf_tx]; split; intros; lia.
Qed.

(** Sending raw bytes works for exactly the transactions a chain with 256-bit
    amounts and 63-bit gas can take. *)
Theorem C112_taken_exactly_when : forall allow b, bytes_ok b ->
  is_ok (send_raw allow b) = true <->
  exists t, unmarshal b = Some t /\ takes t /\ (allow = true \/ for_one_chain t).
Proof.
  intros allow b Hb. unfold Model.send_raw. destruct (unmarshal b) as [t|] eqn:U.
  2:{ split; [discriminate|]. intros (t & Q & _). discriminate. }
  destruct (marshal_unmarshal _ _ Hb U) as [M W].
  assert (PR : protected t = true <-> for_one_chain t).
  { destruct t as [p bd|c p al bd|c q p al bd]; cbn [protected for_one_chain]; try tauto.
    rewrite Bool.negb_true_iff, !Bool.orb_false_iff, !Z.eqb_neq. tauto. }
  destruct (negb allow && negb (protected t)) eqn:A.
  { split; [discriminate|]. intros (t' & Q & _ & T). assert (t = t') as <- by congruence.
    apply andb_prop in A. rewrite !Bool.negb_true_iff in A. destruct A as [A1 A2].
    destruct T as [T|T]; [congruence|]. apply PR in T. congruence. }
  assert (AL : allow = true \/ for_one_chain t).
  { apply Bool.andb_false_iff in A. rewrite !Bool.negb_false_iff in A. rewrite <- PR. exact A. }
  pose proof (C112_which_transactions_go_in t W) as [C _].
  assert (TG : takes t -> (tx_value t < 2 ^ 256 /\ max_price t < 2 ^ 256 /\ max_tip t < 2 ^ 256) /\ chain_number t < 2 ^ 256).
  { unfold takes. intros (T1 & T2 & T3 & T4 & T5 & T6).
    assert (max_price t < 2 ^ 256); [|lia].
    assert (0 <= max_price t) by (destruct t; cbn [wf_tx max_price] in *; lia). nia. }
  destruct (from_eth t) as [m| |] eqn:F0; cbn [rbind is_ok] in *.
  - pose proof (built_validate _ _ _ _ W F0) as BV.
    pose proof (C112_comes_out_as_it_went_in _ _ W F0) as [BK _].
    destruct (proj1 C eq_refl) as ((S1 & S2 & S3) & S4).
    destruct (validate_basic m) eqn:V.
    + destruct (proj1 BV eq_refl) as (G1 & G2 & G3 & G4).
      assert (0 <= max_price t) by (destruct t; cbn [wf_tx max_price] in *; lia).
      unfold build_tx, must_int.
      destruct (asked (m_data m)) as (_ & FE & _). rewrite BK in FE. rewrite FE.
      rewrite (proj2 (valid256_spec _ (Z.mul_nonneg_nonneg (max_price t) (tx_gas t) ltac:(lia) ltac:(lia))) G3). cbn [rbind is_ok].
      split; [|reflexivity]. intros _. exists t. unfold takes. auto 10.
    + split; [discriminate|]. intros (t' & Q & T & _). assert (t = t') as <- by congruence.
      apply BV. unfold takes in T. tauto.
  - split; [discriminate|]. intros (t' & Q & T & _). assert (t = t') as <- by congruence. apply C, TG, T.
  - split; [discriminate|]. intros (t' & Q & T & _). assert (t = t') as <- by congruence. apply C, TG, T.
Qed.

(** What is broadcast is the transaction that was sent, byte for byte; the
    answer is the hash of those bytes, and the Cosmos transaction around it
    offers the fee and the gas limit that the transaction names. *)
Theorem C112_what_was_sent_is_broadcast : forall allow b s, bytes_ok b ->
  send_raw allow b = Ok s ->
  exists t, unmarshal b = Some t /\
    as_tx (m_data (s_msg s)) = t /\
    marshal (as_tx (m_data (s_msg s))) = b /\
    s_hash s = keccak b /\
    m_hash (s_msg s) = hex0x lower (keccak b) /\
    m_from (s_msg s) = [] /\
    s_fee s = max_price t * tx_gas t /\
    s_gas s = tx_gas t /\
    validate_basic (s_msg s) = true.
Proof.
  intros allow b s Hb H. unfold Model.send_raw in H.
  destruct (unmarshal b) as [t|] eqn:U; [|discriminate].
  destruct (marshal_unmarshal _ _ Hb U) as [M W].
  destruct (negb allow && negb (protected t)); [discriminate|].
  destruct (from_eth t) as [m| |] eqn:F0; try discriminate. cbn [rbind] in H.
  destruct (validate_basic m) eqn:V; [|discriminate].
  destruct (C112_comes_out_as_it_went_in _ _ W F0) as [BK HH].
  destruct (asked (m_data m)) as (GA & FE & _). rewrite BK in GA, FE.
  unfold build_tx, must_int in H. destruct (valid256 (fee (m_data m))); [|discriminate].
  cbn [rbind] in H.
  assert (MF : m_from m = []).
  { unfold Model.from_eth in F0. destruct (new_tx_data caps t); try discriminate.
    cbn [rbind] in F0. injection F0 as <-. reflexivity. }
  assert (E : s = Sent (Emsg (m_data m) (m_size m) (m_hash m) []) (fee (m_data m))
                       (p_gas (td_body (m_data m))) (tx_hash keccak (as_tx (m_data m)))) by congruence.
  clear H. subst s. cbn [s_msg s_fee s_gas s_hash m_data m_hash m_from].
  exists t. repeat match goal with |- _ /\ _ => split end; auto.
  - rewrite BK. exact M.
  - rewrite BK. unfold tx_hash, hashed. rewrite wf_writable by exact W. rewrite M. reflexivity.
  - rewrite HH, M. reflexivity.
  - rewrite <- MF. destruct m; exact V.
Qed.

(** Two different byte strings are never broadcast as the same message. *)
Theorem C112_different_bytes_different_messages : forall allow a b s u,
  bytes_ok a -> bytes_ok b -> send_raw allow a = Ok s -> send_raw allow b = Ok u ->
  m_data (s_msg s) = m_data (s_msg u) -> a = b.
Proof.
  intros allow a b s u Ha Hb A B E.
  destruct (C112_what_was_sent_is_broadcast _ _ _ Ha A) as (t1 & _ & _ & M1 & _).
  destruct (C112_what_was_sent_is_broadcast _ _ _ Hb B) as (t2 & _ & _ & M2 & _).
  rewrite <- M1, <- M2, E. reflexivity.
Qed.

(** A message anybody made that passes the checks: it stands for a transaction
    of Ethereum the chain can take, and the hash written in it is the hash of
    that transaction. *)
Theorem C112_a_checked_message : forall m,
  wf_tdata (m_data m) -> chain_not_negative (m_data m) -> validate_basic m = true ->
  let t := as_tx (m_data m) in
  wf_tx t /\ takes t /\ m_hash m = hex0x lower (keccak (marshal t)).
Proof.
  intros m W C V. cbv zeta. unfold Model.validate_basic in V. rewrite !Bool.andb_true_iff in V.
  destruct V as (((((V1 & V2) & V3) & V4) & V5) & V6).
  pose proof (as_tx_wf _ W V5 C) as WT. split; [exact WT|].
  apply beqb_true in V6. unfold tx_hash, hashed in V6. rewrite wf_writable in V6 by exact WT.
  split; [|exact V6].
  destruct (asked (m_data m)) as (GA & FE & _). rewrite GA in *.
  unfold validate in V5. rewrite !Bool.andb_true_iff in V5. destruct V5 as ((((P1 & P2) & P3) & P4) & P5).
  assert (PS : 0 <= max_price (as_tx (m_data m)) /\ 0 <= tx_gas (as_tx (m_data m))).
  { unfold tx_gas. destruct (as_tx (m_data m)); cbn [wf_tx max_price tx_body] in *; unfold wf_body in WT; lia. }
  rewrite FE in P2. apply valid256_spec in P2; [|nia].
  rewrite Bool.negb_true_iff, Z.eqb_neq in V3. rewrite Z.ltb_lt in V4.
  unfold takes. repeat match goal with |- _ /\ _ => split end; auto; try lia.
  - destruct (m_data m) as [p b|c p al b|c q p al b]; cbn [as_tx max_tip max_price]; try lia.
  - unfold amount_ok in P3. unfold tx_value.
    assert (Q : b_value (tx_body (as_tx (m_data m))) = num (p_amount (td_body (m_data m)))) by (destruct (m_data m); reflexivity).
    rewrite Q. destruct (p_amount (td_body (m_data m))) as [a|]; cbn [num]; [|lia].
    apply andb_prop in P3. destruct P3 as [P3 P3']. apply valid256_spec in P3'; lia.
  - assert (I2 : forall o, int_ok o -> num o < 2 ^ 256) by (intros [x|] Hx; cbn [int_ok num] in *; lia).
    destruct (m_data m) as [p b|c p al b|c q p al b]; cbn [as_tx chain_number wf_tdata] in *; [lia| |];
      apply I2; tauto.
  - destruct (m_data m) as [p b|c p al b|c q p al b]; cbn [as_tx names_chain chain_id] in *; try exact Logic.I.
    apply derive_names in P5. exact P5.
Qed.

(** Exactly these messages pass the checks. *)
Theorem C112_a_message_passes_exactly_when : forall m,
  wf_tdata (m_data m) -> chain_not_negative (m_data m) ->
  validate_basic m = true <->
  well_written m /\ takes (as_tx (m_data m)) /\
  m_hash m = hex0x lower (keccak (marshal (as_tx (m_data m)))).
Proof.
  intros m W C. split.
  - intros V. destruct (C112_a_checked_message m W C V) as (_ & T & H). split; [|auto].
    unfold Model.validate_basic, validate in V. rewrite !Bool.andb_true_iff in V.
    destruct V as (((((V1 & V2) & _) & _) & ((((P1 & _) & P3) & P4) & P5)) & _).
    unfold well_written. rewrite to_ok_spec in V1, P4. rewrite Z.eqb_eq in V2.
    split; [exact V1|]. split; [exact V2|]. split; [exact P4|]. split.
    + unfold amount_ok in P3. destruct (p_amount (td_body (m_data m))) as [a|]; [|left; reflexivity].
      right. apply andb_prop in P3. exists a. split; [reflexivity|lia].
    + destruct (m_data m) as [p b|c p al b|c q p al b]; cbn [chain_id] in P5.
      * apply price_present, P1.
      * split; [apply price_present, P1|]. destruct c; [discriminate|discriminate P5].
      * apply andb_prop in P1. destruct P1 as [P1 _]. apply andb_prop in P1.
        split; [apply price_present, P1|]. split; [apply price_present, P1|].
        destruct c; [discriminate|discriminate P5].
  - intros ((W1 & W2 & W3 & W4 & W5) & T & H).
    assert (I2 : forall o, int_ok o -> present o -> price_ok o = true).
    { intros o Ho (x & -> & Hx). cbn [price_ok int_ok] in *. apply andb_true_intro.
      split; [lia|]. apply valid256_spec; lia. }
    assert (AM : amount_ok (p_amount (td_body (m_data m))) = true).
    { assert (IO : int_ok (p_amount (td_body (m_data m)))).
      { destruct (m_data m); cbn [wf_tdata td_body] in *; unfold wf_pbody in W; tauto. }
      destruct W4 as [->|P]; [reflexivity|]. apply I2 in P; [|exact IO].
      destruct (p_amount (td_body (m_data m))); [exact P|discriminate]. }
    destruct (asked (m_data m)) as (GA & FE & _).
    assert (MX : price_ok (match m_data m with TLegacy p _ => p | TAccess _ p _ _ => p | TDynamic _ _ p _ _ => p end) = true).
    { destruct (m_data m); cbn [wf_tdata] in *; apply I2; tauto. }
    assert (MN : 0 <= max_price (as_tx (m_data m))).
    { destruct (m_data m) as [p b|c p al b|c q p al b]; cbn [as_tx max_price];
        destruct p; cbn [price_ok num] in *; try discriminate; apply andb_prop in MX; lia. }
    destruct T as (T1 & T2 & T3 & T4 & T5 & T6).
    assert (V : validate (m_data m) = true).
    { unfold validate. rewrite AM, (proj2 (to_ok_spec _) W3), FE.
      rewrite (proj2 (valid256_spec _ (Z.mul_nonneg_nonneg (max_price (as_tx (m_data m))) (tx_gas (as_tx (m_data m))) MN ltac:(lia))) T3).
      destruct (m_data m) as [p b|c p al b|c q p al b]; cbn [wf_tdata as_tx names_chain max_tip max_price chain_id] in *.
      - rewrite MX. cbn [andb]. apply derive_names. exact T6.
      - rewrite MX. destruct c as [c|]; [reflexivity|tauto].
      - rewrite MX, (I2 q) by tauto. rewrite (proj2 (Z.leb_le _ _) T2). destruct c as [c|]; [reflexivity|tauto]. }
    unfold Model.validate_basic. rewrite V, W2, (proj2 (to_ok_spec _) W1), GA.
    rewrite (proj2 (Z.ltb_lt _ _)) by lia. rewrite (proj2 (Z.eqb_neq (tx_gas (as_tx (m_data m))) 0)) by lia. cbn [Z.eqb negb andb].
    apply beqb_true. rewrite H. unfold tx_hash, hashed.
    rewrite wf_writable by (apply as_tx_wf; assumption). reflexivity.
Qed.

(** Two checked messages with the same hash stand for the same transaction,
    unless two different byte strings with the same hash are at hand. *)
Theorem C112_the_hash_names_the_transaction : forall m m',
  (forall b, bytes_ok (keccak b)) ->
  wf_tdata (m_data m) -> chain_not_negative (m_data m) -> validate_basic m = true ->
  wf_tdata (m_data m') -> chain_not_negative (m_data m') -> validate_basic m' = true ->
  blen (marshal (as_tx (m_data m))) < 2 ^ 64 ->
  m_hash m = m_hash m' ->
  as_tx (m_data m) = as_tx (m_data m') \/
  exists x y, x <> y /\ keccak x = keccak y.
Proof.
  intros m m' K W C V W' C' V' L E.
  destruct (C112_a_checked_message m W C V) as (T & _ & Hm).
  destruct (C112_a_checked_message m' W' C' V') as (T' & _ & Hm').
  assert (KE : keccak (marshal (as_tx (m_data m))) = keccak (marshal (as_tx (m_data m')))).
  { apply hex0x_inj; auto. congruence. }
  destruct (bytes_eq_dec (marshal (as_tx (m_data m))) (marshal (as_tx (m_data m')))) as [Q|Q].
  - left. apply C112_one_transaction_one_byte_form; auto.
  - right. eauto.
Qed.

(** Whatever form a checked message has, the node can rebuild it in its own
    form: same transaction, same hash, and that one passes the checks too. *)
Theorem C112_the_node_has_its_own_form : forall m,
  wf_tdata (m_data m) -> chain_not_negative (m_data m) -> validate_basic m = true ->
  exists m', from_eth (as_tx (m_data m)) = Ok m' /\
    as_tx (m_data m') = as_tx (m_data m) /\ m_hash m' = m_hash m /\ validate_basic m' = true.
Proof.
  intros m W C V. destruct (C112_a_checked_message m W C V) as (T & K & Hm).
  destruct (C112_which_transactions_go_in _ T) as [G _].
  assert (MP : 0 <= max_price (as_tx (m_data m))) by (destruct (as_tx (m_data m)); cbn [wf_tx max_price] in *; lia).
  destruct (from_eth (as_tx (m_data m))) as [m'| |] eqn:F0; cbn [is_ok] in G.
  2-3: exfalso; assert (false = true) as Q; [apply G|discriminate Q]; unfold takes in K;
       destruct K as (K1 & K2 & K3 & K4 & K5 & K6);
       assert (max_price (as_tx (m_data m)) < 2 ^ 256) by nia; lia.
  exists m'. destruct (C112_comes_out_as_it_went_in _ _ T F0) as [BK HH].
  split; [reflexivity|]. split; [exact BK|]. split; [congruence|].
  apply (built_validate _ _ _ _ T F0). unfold takes in K. tauto.
Qed.

End Claims.

(** ** Where the plain claims fail *)

Definition form_a : pbody := Pbody 5 21000 (hex0x lower (repeat 171%N 20)) (Some 0) [] [37%N] [1%N] [2%N].
Definition form_b : pbody := Pbody 5 21000 (hex0x (fun _ => true) (repeat 171%N 20)) None [] [0%N; 37%N] [0%N; 1%N] [0%N; 0%N; 2%N].

(** "One transaction, one message" is false: letter case, leading zeros of
    signature values and a left out zero amount give messages, all passing the
    checks, that differ and stand for the same transaction. *)
Theorem C112_refuted_one_message_per_transaction : forall keccak, exists m m',
  m <> m' /\ m_hash m = m_hash m' /\
  validate_basic keccak m = true /\ validate_basic keccak m' = true /\
  wf_tdata (m_data m) /\ wf_tdata (m_data m') /\
  as_tx (m_data m) = as_tx (m_data m').
Proof.
  intros keccak.
  set (h := hex0x lower (tx_hash keccak (as_tx (TLegacy (Some 7) form_a)))).
  exists (Emsg (TLegacy (Some 7) form_a) 0 h []), (Emsg (TLegacy (Some 7) form_b) 0 h []).
  assert (E : as_tx (TLegacy (Some 7) form_b) = as_tx (TLegacy (Some 7) form_a)) by (vm_compute; reflexivity).
  assert (BO : forall b, forallb (fun x => (x <? 256)%N) b = true -> bytes_ok b).
  { intros b Hf. apply Forall_forall. intros x Hx. rewrite forallb_forall in Hf. specialize (Hf x Hx).
    unfold byte_ok. lia. }
  assert (R : forall m, validate_basic keccak m =
    (to_ok (m_from m) && (m_size m =? 0) && negb (p_gas (td_body (m_data m)) =? 0)
     && (p_gas (td_body (m_data m)) <? 2 ^ 63) && validate (m_data m))
    && beqb (m_hash m) (hex0x lower (tx_hash keccak (as_tx (m_data m))))) by reflexivity.
  split; [intros Q; apply (f_equal (fun m => p_r (td_body (m_data m)))) in Q; discriminate Q|].
  split; [reflexivity|].
  split; [rewrite R; apply andb_true_intro; split; [vm_compute; reflexivity|apply beqb_true; reflexivity]|].
  split; [rewrite R; apply andb_true_intro; split; [vm_compute; reflexivity|apply beqb_true; cbn [m_hash m_data]; rewrite E; reflexivity]|].
  split; [|split; [|symmetry; exact E]].
  - cbn [m_data wf_tdata]. split; [cbv [int_ok]; lia|]. unfold wf_pbody, form_a.
    cbn [p_nonce p_gas p_to p_amount p_data p_v p_r p_s].
    repeat match goal with |- _ /\ _ => split end; try (apply BO; vm_compute; reflexivity); try lia.
    cbv [int_ok]; lia.
  - cbn [m_data wf_tdata]. split; [cbv [int_ok]; lia|]. unfold wf_pbody, form_b.
    cbn [p_nonce p_gas p_to p_amount p_data p_v p_r p_s].
    repeat match goal with |- _ /\ _ => split end; try (apply BO; vm_compute; reflexivity); try lia.
    exact Logic.I.
Qed.

(** The entries of an access list are not checked at all: words that are not
    hexadecimal pass, and stand for the address 0. *)
Definition odd_list (a : text) : tdata :=
  TDynamic (Some 42000) (Some 1) (Some 2) [(a, [])] (Pbody 5 21000 [] None [] [1%N] [1%N] [2%N]).

Theorem C112_refuted_access_lists_are_checked : forall keccak, exists m m',
  m_data m = odd_list [104%N; 101%N; 108%N; 108%N; 111%N] /\ m_data m' = odd_list [] /\
  validate_basic keccak m = true /\ validate_basic keccak m' = true /\ m_hash m = m_hash m' /\
  as_tx (m_data m) = as_tx (m_data m') /\
  as_tx (m_data m) = EDynamic 42000 1 2 [(repeat 0%N 20, [])] (Body 5 21000 None 0 [] 1 1 2).
Proof.
  intros keccak.
  set (h := hex0x lower (tx_hash keccak (as_tx (odd_list [])))).
  exists (Emsg (odd_list [104%N; 101%N; 108%N; 108%N; 111%N]) 0 h []), (Emsg (odd_list []) 0 h []).
  assert (E : as_tx (odd_list [104%N; 101%N; 108%N; 108%N; 111%N]) = as_tx (odd_list [])) by (vm_compute; reflexivity).
  assert (R : forall m, validate_basic keccak m =
    (to_ok (m_from m) && (m_size m =? 0) && negb (p_gas (td_body (m_data m)) =? 0)
     && (p_gas (td_body (m_data m)) <? 2 ^ 63) && validate (m_data m))
    && beqb (m_hash m) (hex0x lower (tx_hash keccak (as_tx (m_data m))))) by reflexivity.
  split; [reflexivity|]. split; [reflexivity|].
  split; [rewrite R; apply andb_true_intro; split; [vm_compute; reflexivity|apply beqb_true; cbn [m_hash m_data]; rewrite E; reflexivity]|].
  split; [rewrite R; apply andb_true_intro; split; [vm_compute; reflexivity|apply beqb_true; reflexivity]|].
  split; [reflexivity|]. split; [exact E|]. vm_compute. reflexivity.
Qed.

(** Nor is the chain id: a negative one passes, and then the hash is that of
    the single byte naming the kind of transaction, the same for every such
    message.  (The sender cannot be recovered from it, so it stops later.) *)
Definition negative (n : Z) (value : Z) : tdata :=
  TDynamic (Some n) (Some 1) (Some 2) [] (Pbody 5 21000 [] (Some value) [] [1%N] [1%N] [2%N]).

Theorem C112_refuted_chain_ids_are_checked : forall keccak n value, n < 0 -> 0 <= value < 2 ^ 256 ->
  validate_basic keccak (Emsg (negative n value) 0 (hex0x lower (keccak [2%N])) []) = true.
Proof.
  intros keccak n value Hn Hv.
  unfold validate_basic. cbn [m_from m_size m_data m_hash].
  assert (Hh : tx_hash keccak (as_tx (negative n value)) = keccak [2%N]).
  { unfold tx_hash, hashed, writable. cbn [negative as_tx numbers num forallb].
    destruct (0 <=? n) eqn:E; [lia|]. reflexivity. }
  rewrite Hh. rewrite (proj2 (beqb_true _ _) eq_refl), Bool.andb_true_r.
  assert (V : validate (negative n value) = true).
  { unfold validate. cbn [negative td_body p_amount p_to price_ok amount_ok chain_id to_ok num].
    rewrite (proj2 (valid256_spec value (proj1 Hv)) (proj2 Hv)), (proj2 (Z.leb_le _ _) (proj1 Hv)).
    vm_compute. reflexivity. }
  rewrite V. reflexivity.
Qed.

(** A chain id of more than 256 bits in raw bytes is not refused: it stops the
    request (sdkmath.NewIntFromBigInt panics). *)
Definition huge : etx := EDynamic (2 ^ 256) 1 2 [] (Body 5 21000 None 0 [] 1 1 2).

Theorem C112_refuted_bad_bytes_are_refused : forall keccak caps allow, exists b,
  bytes_ok b /\ unmarshal b = Some huge /\ send_raw keccak caps allow b = Panic.
Proof.
  intros keccak caps allow. exists (marshal huge).
  assert (B : forallb (fun x => (x <? 256)%N) (marshal huge) = true) by (vm_compute; reflexivity).
  assert (U : unmarshal (marshal huge) = Some huge) by (vm_compute; reflexivity).
  split; [|split; [exact U|]].
  - apply Forall_forall. intros x Hx. rewrite forallb_forall in B. specialize (B x Hx). unfold byte_ok. lia.
  - unfold send_raw. rewrite U. change (protected huge) with true. rewrite Bool.andb_false_r. reflexivity.
Qed.

(** A real one: an EIP-1559 call with an access list, through and back. *)
Definition example_tx : etx :=
  EDynamic 42000 1000000000 30000000000 [(repeat 17%N 20, [repeat 1%N 32; repeat 255%N 32])]
    (Body 9 60000 (Some (repeat 202%N 20)) (10 ^ 18) [169%N; 5%N; 156%N; 187%N] 1 (2 ^ 255 + 3) (2 ^ 254 + 5)).

Definition toy_keccak (b : bytes) : bytes := be 32 (unbe b).

Example C112_example :
  wf_tx example_tx /\ takes example_tx /\ for_one_chain example_tx /\
  blen (marshal example_tx) < 2 ^ 64 /\ bytes_ok (marshal example_tx) /\
  unmarshal (marshal example_tx) = Some example_tx /\
  match send_raw toy_keccak (fun _ => Nat.even) false (marshal example_tx) with
  | Ok s => as_tx (m_data (s_msg s)) = example_tx /\ s_fee s = 30000000000 * 60000 /\ s_gas s = 60000 /\
            effective_fee 2000000000 (m_data (s_msg s)) = 3000000000 * 60000 /\
            wf_tdata (m_data (s_msg s)) /\ chain_not_negative (m_data (s_msg s))
  | _ => False
  end.
Proof.
  assert (BO : forall b, forallb (fun x => (x <? 256)%N) b = true -> bytes_ok b).
  { intros b Hf. apply Forall_forall. intros x Hx. rewrite forallb_forall in Hf. specialize (Hf x Hx).
    unfold byte_ok. lia. }
  repeat match goal with |- _ /\ _ => split end.
  - unfold example_tx, wf_tx, wf_body, wf_access.
    cbn [b_nonce b_gas b_to b_value b_data b_v b_r b_s].
    repeat match goal with |- _ /\ _ => split end; try lia.
    + repeat apply Forall_cons; try apply Forall_nil. cbn [fst snd]. split; [split; [apply BO|]; vm_compute; reflexivity|].
      repeat apply Forall_cons; try apply Forall_nil; (split; [apply BO|]; vm_compute; reflexivity).
    + split; [apply BO|]; vm_compute; reflexivity.
    + apply BO; vm_compute; reflexivity.
  - unfold takes, example_tx, tx_gas, tx_value. cbn [tx_body b_gas b_value max_price max_tip chain_number names_chain].
    lia.
  - exact Logic.I.
  - vm_compute. reflexivity.
  - apply BO. vm_compute. reflexivity.
  - vm_compute. reflexivity.
  - destruct (send_raw toy_keccak (fun _ => Nat.even) false (marshal example_tx)) as [s| |] eqn:E;
      [|vm_compute in E; discriminate E|vm_compute in E; discriminate E].
    vm_compute in E. injection E as <-.
    repeat match goal with |- _ /\ _ => split end; try (vm_compute; reflexivity); try (vm_compute; discriminate).
    cbn [s_msg m_data wf_tdata wf_pbody p_nonce p_gas p_to p_amount p_data p_v p_r p_s int_ok].
    unfold wf_pbody. cbn [p_nonce p_gas p_to p_amount p_data p_v p_r p_s int_ok].
    repeat match goal with |- _ /\ _ => split end; try lia; apply BO; vm_compute; reflexivity.
Qed.

Example C112_a_checked_message_example : forall keccak,
  let d := TLegacy (Some 7) form_b in
  let m := Emsg d 0 (hex0x lower (tx_hash keccak (as_tx d))) [] in
  chain_not_negative (m_data m) /\ validate_basic keccak m = true /\
  (p_to form_b = [] \/ address_text (p_to form_b)) /\
  as_tx d = ELegacy 7 (Body 5 21000 (Some (repeat 171%N 20)) 0 [] 37 1 2).
Proof.
  intros keccak. cbv zeta. split; [exact Logic.I|]. split.
  2:{ split; [|vm_compute; reflexivity]. apply to_ok_spec. vm_compute. reflexivity. }
  unfold validate_basic. apply andb_true_intro. split; [vm_compute; reflexivity|]. apply beqb_true. reflexivity.
Qed.

Print Assumptions C112_bytes_and_transactions_match.
Print Assumptions C112_one_transaction_one_byte_form.
Print Assumptions C112_comes_out_as_it_went_in.
Print Assumptions C112_which_transactions_go_in.
Print Assumptions C112_charged_as_the_transaction_says.
Print Assumptions C112_never_above_the_offer.
Print Assumptions C112_taken_exactly_when.
Print Assumptions C112_what_was_sent_is_broadcast.
Print Assumptions C112_different_bytes_different_messages.
Print Assumptions C112_a_checked_message.
Print Assumptions C112_a_message_passes_exactly_when.
Print Assumptions C112_the_hash_names_the_transaction.
Print Assumptions C112_the_node_has_its_own_form.
Print Assumptions C112_refuted_one_message_per_transaction.
Print Assumptions C112_refuted_access_lists_are_checked.
Print Assumptions C112_refuted_chain_ids_are_checked.
Print Assumptions C112_refuted_bad_bytes_are_refused.
