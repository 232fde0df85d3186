(* C109: a typed-data signature authorises exactly one transaction. *)
From Coq Require Import String Ascii NArith Sorted.
From Verif Require Import Lib.Base Lib.Bytes Lib.Codec Lib.Dec
  Eip712.Model Eip712.Spec Eip712.Proofs Eip712.Inject Eip712.Gen Eip712.Payload.
Open Scope Z_scope.

(* Concrete companions for the examples: a stand-in for the hash with 32 bytes, the
   capitaliser on letters and digits, decimal texts, and chain numbers. *)
Definition toy_hash (b : bytes) : bytes :=
  be 32 (fold_left (fun a c => (a * 257 + Z.of_N c + 1) mod 2 ^ 256) b 7).
Definition capital (b : bytes) : bytes :=
  match b with [] => [] | c :: r => (if is_lower c then c - 32 else c)%N :: r end.
Definition read_dec (s : bytes) : option Z :=
  match s with [] => None | _ => if forallb is_digit s then Some (undec s) else None end.
Definition toy_chain (_ : bytes) : option Z := Some 4242.
Definition toy_signers (_ : json) : option (list bytes) := Some [text "alice"].

Lemma toy_hash_len b : List.length (toy_hash b) = 32%nat.
Proof. apply be_length. Qed.

Lemma capital_letters b : letters b -> letters (capital b).
Proof.
  intros H. destruct b as [|c r]; auto. inversion H as [|? ? L P]; subst. constructor; auto.
  destruct (is_lower c) eqn:E; auto. unfold is_lower in E. unfold letter, is_word, is_upper.
  apply andb_prop in E. destruct E as [E1 E2]. apply N.leb_le in E1, E2.
  replace ((65 <=? c - 32)%N && (c - 32 <=? 90)%N) with true.
  - cbn [orb andb]. destruct (N.eqb_spec (c - 32) 95); auto. lia.
  - symmetry. apply andb_true_intro. split; apply N.leb_le; lia.
Qed.

Lemma capital_upper c b : is_upper c = true -> letters (c :: b) -> capital (c :: b) = c :: b.
Proof.
  intros U _. cbn. destruct (is_lower c) eqn:E; auto. unfold is_upper, is_lower in *.
  apply andb_prop in U, E. destruct U as [_ U], E as [E _]. apply N.leb_le in U, E. lia.
Qed.

(* Two payloads that lead to the same signed bytes are the same payload, down to
   the last field of the last message (or the hash has been broken). *)
Theorem C109_one_payload :
  forall (keccak title : bytes -> bytes) (read_int : bytes -> option Z),
  (forall b, List.length (keccak b) = 32%nat) ->
  (forall b, letters b -> letters (title b)) ->
  (forall c b, is_upper c = true -> letters (c :: b) -> title (c :: b) = c :: b) ->
  forall chain1 chain2 p1 p2 msgs1 msgs2 signed,
  carries p1 msgs1 -> carries p2 msgs2 ->
  canonical (JObj p1) -> canonical (JObj p2) ->
  Forall uniform msgs1 -> Forall uniform msgs2 ->
  raw_data keccak title read_int chain1 p1 = Ok signed ->
  raw_data keccak title read_int chain2 p2 = Ok signed ->
  p1 = p2 \/ collision keccak.
Proof. exact payload_inj. Qed.
Print Assumptions C109_one_payload.

(* A sign document: the same signed bytes mean the same chain, account, sequence,
   fee, gas, memo and messages, and no timeout or extension. *)
Theorem C109_one_transaction :
  forall (keccak title : bytes -> bytes) (read_int chain_number : bytes -> option Z)
         (signers : json -> option (list bytes)),
  (forall b, List.length (keccak b) = 32%nat) ->
  (forall b, letters b -> letters (title b)) ->
  (forall c b, is_upper c = true -> letters (c :: b) -> title (c :: b) = c :: b) ->
  forall d1 d2 signed,
  Forall canonical (d_msgs d1) -> Forall canonical (d_msgs d2) ->
  Forall uniform (d_msgs d1) -> Forall uniform (d_msgs d2) ->
  0 <= d_account d1 -> 0 <= d_account d2 -> 0 <= d_gas d1 -> 0 <= d_gas d2 ->
  Forall (Z.le 0) (d_signers d1) -> Forall (Z.le 0) (d_signers d2) ->
  doc_bytes keccak title read_int chain_number signers d1 = Ok signed ->
  doc_bytes keccak title read_int chain_number signers d2 = Ok signed ->
  same_transaction d1 d2 \/ collision keccak.
Proof. exact doc_inj. Qed.
Print Assumptions C109_one_transaction.

(* What the typed data has no room for is refused: an accepted payload has exactly
   the six known entries and its fee exactly amount and gas. *)
Theorem C109_nothing_left_out :
  forall (keccak title : bytes -> bytes) (read_int : bytes -> option Z),
  (forall b, List.length (keccak b) = 32%nat) ->
  (forall b, letters b -> letters (title b)) ->
  (forall c b, is_upper c = true -> letters (c :: b) -> title (c :: b) = c :: b) ->
  forall chain p msgs signed,
  carries p msgs -> canonical (JObj p) -> Forall uniform msgs ->
  raw_data keccak title read_int chain p = Ok signed ->
  (forall k, In k (map fst p) <->
     In k [text "account_number"; text "chain_id"; text "fee"; text "memo"; text "msgs"; text "sequence"])
  /\ exists fee, get (text "fee") p = Some (JObj fee)
     /\ forall k, In k (map fst fee) <-> In k [text "amount"; text "gas"].
Proof. exact payload_keys. Qed.
Print Assumptions C109_nothing_left_out.

(* ... and a message with a null in it, or with an array of arrays, is refused. *)
Fixpoint expressible (j : json) : bool :=
  match j with
  | JNull => false
  | JArr l => forallb (fun x => match x with JArr _ => false | _ => expressible x end) l
  | JObj kvs => forallb (fun kv => expressible (snd kv)) kvs
  | _ => true
  end.

Lemma encv_expressible keccak read_int : forall j T t a,
  good T -> encv keccak read_int T j t = Ok a -> expressible j = true
    /\ (snd t = false -> match j with JArr _ => False | _ => True end).
Proof.
  induction j using json_ind2; intros T [b0 arr] a G E; destruct arr.
  all: try (apply encv_array in E; destruct E as (l0 & d & E0 & _ & C); try discriminate).
  all: try (split; [reflexivity|auto; fail]).
  - rewrite encv_single in E. unfold item in E. destruct (has b0 T); [discriminate|].
    unfold enc_prim, parse_int64 in E. destruct (beqb b0 t_bool), (beqb b0 t_string), (beqb b0 t_int64); discriminate.
  - injection E0 as <-. split; [|discriminate]. cbn [expressible].
    clear a. revert d C. induction H as [|x l P F IH]; intros d C; [reflexivity|].
    cbn [map cat] in C. apply rbind_ok in C. destruct C as (a1 & C1 & C).
    apply rbind_ok in C. destruct C as (b1 & C2 & _). cbn [forallb].
    destruct (P _ _ _ G C1) as [Q1 Q2]. specialize (Q2 eq_refl). rewrite (IH _ C2).
    destruct x; try tauto; rewrite Q1; auto.
  - exfalso. rewrite encv_single in E. unfold item in E. destruct (has b0 T); [discriminate|].
    unfold enc_prim, parse_int64 in E. destruct (beqb b0 t_bool), (beqb b0 t_string), (beqb b0 t_int64); discriminate.
  - split; [|auto]. rewrite encv_single in E. unfold item in E. destruct (has b0 T) eqn:HB.
    + apply rbind_ok in E. destruct E as (d & E & _). rewrite enc_obj in E. cbv zeta in E.
      apply has_get in HB. destruct HB as [fs HB]. rewrite HB in E.
      destruct (Nat.ltb_spec (List.length fs) (List.length kvs)) as [|L]; [discriminate|].
      apply rbind_ok in E. destruct E as (b & E & _).
      pose proof (fields_present _ _ _ _ _ _ E) as FP.
      assert (CV : forall k, In k (map fst kvs) -> In k (map fst fs)).
      { apply names_cover; auto; [apply (proj1 G _ _ HB)|]. intros k t J.
        destruct (FP _ _ J) as (v & _ & V & _). eauto. }
      cbn [expressible]. apply forallb_forall. intros [k v] J.
      (* every key is declared; but only the first of equal keys is read *)
      assert (ND : NoDup (map fst kvs)).
      { apply (@NoDup_incl_NoDup bytes (map fst fs)).
        - apply (proj1 G _ _ HB).
        - rewrite !map_length. auto.
        - intros x X. apply in_map_iff in X. destruct X as ([k' t] & <- & X).
          destruct (FP _ _ X) as (v' & _ & V & _). apply get_in in V. apply (in_map fst) in V. exact V. }
      pose proof (nodup_get _ _ _ ND J) as V.
      pose proof (CV k (in_map fst _ _ J)) as I1. apply in_map_iff in I1. destruct I1 as ([k' t] & EK & I1).
      cbn [fst] in EK. subst k'. destruct (FP _ _ I1) as (v' & a' & V' & E'). rewrite V in V'.
      apply some_inj in V'. subst v'. rewrite Forall_forall in H.
      apply (H _ J _ _ _ G E').
    + exfalso. unfold enc_prim, parse_int64 in E.
      destruct (beqb b0 t_bool), (beqb b0 t_string), (beqb b0 t_int64); discriminate.
Qed.

Theorem C109_only_what_can_be_shown :
  forall (keccak title : bytes -> bytes) (read_int : bytes -> option Z),
  (forall b, List.length (keccak b) = 32%nat) ->
  (forall b, letters b -> letters (title b)) ->
  (forall c b, is_upper c = true -> letters (c :: b) -> title (c :: b) = c :: b) ->
  forall chain p msgs signed,
  carries p msgs -> canonical (JObj p) -> Forall uniform msgs ->
  raw_data keccak title read_int chain p = Ok signed ->
  Forall (fun m => expressible m = true) msgs.
Proof.
  intros keccak title read_int KL TL TU chain p msgs b K C U R.
  destruct (raw_inv keccak title read_int KL TL TU _ _ _ _ K C U R)
    as (m & T & d & ds & n & B & L & G & E & N & X & F & P & M & CM & Y).
  apply Forall_forall. intros x J. apply In_nth_error in J. destruct J as [q J].
  assert (Q : (q < List.length msgs)%nat) by (apply nth_error_Some; congruence).
  assert (GM : get (msg_field q) m = Some x).
  { rewrite M. replace (beqb (msg_field q) (text "msgs")) with false.
    - rewrite P by auto. rewrite <- J. apply (get_numbered msgs 0 q).
    - symmetry. apply beqb_neq. apply msg_field_not. apply in_or_app. right. left. auto. }
  destruct (enc_keys _ _ _ _ _ _ _ G X E) as [A1 _].
  assert (I1 : In (msg_field q) (map fst (tx_base ++ tx_fields n 0))).
  { apply A1. apply get_in in GM. apply (in_map fst) in GM. exact GM. }
  apply in_map_iff in I1. destruct I1 as ([k t] & EK & I1). cbn [fst] in EK. subst k.
  rewrite enc_obj in E. cbv zeta in E. rewrite X in E.
  match type of E with (if ?c then _ else _) = _ => destruct c; [discriminate|] end.
  apply rbind_ok in E. destruct E as (b0 & E & _).
  destruct (fields_present _ _ _ _ _ _ E _ _ I1) as (v & a & V & A). rewrite GM in V.
  apply some_inj in V. subst v. eapply encv_expressible; eauto.
Qed.
Print Assumptions C109_only_what_can_be_shown.

(* The claim fails for who pays: whatever payer and granter a sign document names,
   the signed bytes are the same. *)
Definition paid_by (payer granter : bytes) (d : sign_doc) : sign_doc :=
  mkDoc (d_chain d) (d_account d) (d_signers d) (d_amount d) (d_gas d) payer granter
        (d_memo d) (d_timeout d) (d_extensions d) (d_msgs d).

Definition example_msg : json :=
  JObj [(text "type", JStr (text "cosmos-sdk/MsgSend"));
        (text "value", JObj [
          (text "amount", JArr [JObj [(text "amount", JStr (text "5")); (text "denom", JStr (text "ahelios"))];
                                JObj [(text "amount", JStr (text "7")); (text "denom", JStr (text "uatom"))]]);
          (text "flags", JArr [JNum 1; JNum (-2)]);
          (text "from_address", JStr (text "alice"));
          (text "memo_lines", JArr []);
          (text "ok", JBool true);
          (text "to_address", JStr (text "bob"))])].

Definition example_vote : json :=
  JObj [(text "type", JStr (text "cosmos-sdk/MsgVote"));
        (text "value", JObj [(text "option", JNum 1); (text "proposal_id", JStr (text "12"));
                             (text "voter", JStr (text "alice"))])].

Definition example_doc : sign_doc :=
  mkDoc (text "helios_4242-1") 17 [5] [(text "ahelios", 1000)] 200000 [] [] (text "rent") 0 0
        [example_msg; example_vote].

Theorem C109_refuted_who_pays_is_not_signed :
  (forall keccak title read_int chain_number signers d payer granter,
     doc_bytes keccak title read_int chain_number signers (paid_by payer granter d)
     = doc_bytes keccak title read_int chain_number signers d)
  /\ forall keccak : bytes -> bytes,
     is_ok (doc_bytes keccak capital read_dec toy_chain toy_signers
              (paid_by (text "bob") (text "carol") example_doc)) = true.
Proof. split; [reflexivity|]. intros keccak. vm_compute. reflexivity. Qed.
Print Assumptions C109_refuted_who_pays_is_not_signed.

(* Why arrays must not mix numbers and texts: otherwise two payloads share bytes. *)
Definition mixed (second : json) : list (bytes * json) :=
  [ (text "account_number", JStr (text "17"));
    (text "chain_id", JStr (text "helios_4242-1"));
    (text "fee", JObj [(text "amount", JArr []); (text "gas", JStr (text "1"))]);
    (text "memo", JStr []);
    (text "msgs", JArr [JObj [(text "type", JStr (text "m/Mix"));
                              (text "value", JObj [(text "list", JArr [JNum 1; second])])]]);
    (text "sequence", JStr (text "0")) ].

Theorem C109_refuted_mixed_arrays :
  forall keccak : bytes -> bytes,
  mixed (JNum 1) <> mixed (JStr (text "1"))
  /\ is_ok (raw_data keccak capital read_dec 4242 (mixed (JNum 1))) = true
  /\ raw_data keccak capital read_dec 4242 (mixed (JNum 1))
     = raw_data keccak capital read_dec 4242 (mixed (JStr (text "1"))).
Proof. intros keccak. split; [discriminate|]. split; vm_compute; reflexivity. Qed.
Print Assumptions C109_refuted_mixed_arrays.

(* The hypotheses are met by a transfer and a vote. *)
Fixpoint canonicalb (j : json) : bool :=
  match j with
  | JArr l => forallb canonicalb l
  | JObj kvs => ascending (map fst kvs) && forallb (forallb is_word) (map fst kvs)
                && forallb (fun kv => canonicalb (snd kv)) kvs
  | _ => true
  end.

Lemma canonicalb_spec j : canonicalb j = true -> canonical j.
Proof.
  induction j using json_ind2; intros E; try exact I.
  - cbn [canonicalb] in E. rewrite forallb_forall in E. apply canonical_arr. rewrite Forall_forall in *. auto.
  - cbn [canonicalb] in E. apply andb_prop in E. destruct E as [E E3]. apply andb_prop in E. destruct E as [E1 E2].
    apply canonical_obj; auto. rewrite forallb_forall in E3. rewrite Forall_forall in *. auto.
Qed.

Example C109_concrete :
  Forall canonical (d_msgs example_doc) /\ Forall uniform (d_msgs example_doc)
  /\ (exists signed,
        doc_bytes toy_hash capital read_dec toy_chain toy_signers example_doc = Ok signed
        /\ List.length signed = 66%nat)
  /\ is_ok (doc_bytes toy_hash capital read_dec toy_chain toy_signers
              (mkDoc (text "helios_4242-1") 17 [5] [] 1 [] [] [] 9 0 [example_vote])) = false
  /\ (forall b, List.length (toy_hash b) = 32%nat)
  /\ (forall b, letters b -> letters (capital b))
  /\ (forall c b, is_upper c = true -> letters (c :: b) -> capital (c :: b) = c :: b).
Proof.
  split; [repeat apply Forall_cons; try apply Forall_nil; apply canonicalb_spec; reflexivity|].
  split; [repeat apply Forall_cons; try apply Forall_nil; cbn; repeat constructor|].
  split; [eexists; split; vm_compute; reflexivity|].
  split; [vm_compute; reflexivity|].
  split; [exact toy_hash_len|]. split; [exact capital_letters|exact capital_upper].
Qed.
