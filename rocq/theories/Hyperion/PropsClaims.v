(* C37: votes counted together are votes for the same claim. *)
From Verif Require Import Lib.Base Lib.Bytes Lib.Dec Hyperion.Claims Hyperion.ClaimSpec Hyperion.ClaimProofs.
From Coq Require Import NArith ZArith String Ascii.
Open Scope Z_scope.

Section C37.
Variable hash : bytes -> bytes.
Variable bech32_ok : bytes -> bool.
(* a bech32 address is letters and digits *)
Hypothesis bech32_plain : forall s, bech32_ok s = true -> lacks slash s.

Definition accepted c := claim_u64 c /\ claim_valid bech32_ok c = true.

(* Two accepted claims with one bucket agree on every hashed field, unless the
   hash function collides on their two texts.  Missing from the full property:
   the height of a withdrawal and the reward of a validator set are not hashed,
   and token claims and numeric deposit data are excluded (refuted below). *)
Theorem C37_shared_bucket_same_claim_partial c1 c2 : accepted c1 -> accepted c2 -> plain c1 -> plain c2 ->
  bucket hash c1 = bucket hash c2 -> same_hashed c1 c2 \/ collision hash (claim_path c1) (claim_path c2).
Proof.
  intros [U1 V1] [U2 V2] P1 P2 B. unfold bucket, claim_hash in B. apply pair_equal_spec in B. destruct B as [B H]. apply pair_equal_spec in B. destruct B as [I N].
  destruct (bytes_eq_dec (claim_path c1) (claim_path c2)) as [E|E].
  - left. eapply path_determines; try eassumption; auto.
  - right. split; assumption.
Qed.

(* without token claims no condition on the contents is needed *)
Theorem C37_transfers_and_valsets_same_claim_partial c1 c2 : accepted c1 -> accepted c2 -> ~ is_deployed c1 -> ~ is_deployed c2 ->
  bucket hash c1 = bucket hash c2 -> same_hashed c1 c2 \/ collision hash (claim_path c1) (claim_path c2).
Proof.
  intros [U1 V1] [U2 V2] P1 P2 B. unfold bucket, claim_hash in B. apply pair_equal_spec in B. destruct B as [B H]. apply pair_equal_spec in B. destruct B as [I N].
  destruct (bytes_eq_dec (claim_path c1) (claim_path c2)) as [E|E].
  - left. eapply path_determines; try eassumption; tauto.
  - right. split; assumption.
Qed.

(* a deposit is executed with the token, amount, sender, receiver and data its voters saw *)
Theorem C37_deposits_same_claim a b : accepted (CDeposit a) -> accepted (CDeposit b) ->
  bucket hash (CDeposit a) = bucket hash (CDeposit b) -> same_effect (CDeposit a) (CDeposit b) \/ collision hash (deposit_path a) (deposit_path b).
Proof. intros A B E. apply (C37_transfers_and_valsets_same_claim_partial (CDeposit a) (CDeposit b)); auto. Qed.

(* the other way round: claims that agree on the hashed fields always share a bucket,
   so honest votes are counted together *)
Theorem C37_same_claim_shared_bucket c1 c2 : same_hashed c1 c2 -> bucket hash c1 = bucket hash c2.
Proof.
  intro S. destruct c1 as [a|a|a|a], c2 as [b|b|b|b]; try contradiction; destruct a, b; cbn in S; unfold bucket, claim_hash; cbn [claim_id claim_nonce claim_path];
    unfold deposit_path, withdraw_path, deployed_path, valset_path; cbn;
    repeat match goal with H : _ /\ _ |- _ => destruct H end; subst; reflexivity.
Qed.
End C37.
Print Assumptions C37_shared_bucket_same_claim_partial.
Print Assumptions C37_transfers_and_valsets_same_claim_partial.
Print Assumptions C37_deposits_same_claim.
Print Assumptions C37_same_claim_shared_bucket.

(* ---- concrete claims ---- *)

Definition alnum (c : N) : bool := is_digit c || ((97 <=? c)%N && (c <=? 122)%N).
Definition addr_ok (s : bytes) : bool := negb (List.length s =? 0)%nat && forallb alnum s.
Lemma addr_ok_plain s : addr_ok s = true -> lacks slash s.
Proof.
  unfold addr_ok. intros H I. apply andb_prop in H. destruct H as [_ H]. rewrite forallb_forall in H. specialize (H _ I). discriminate H.
Qed.
Definition hx (c : N) : bytes := str "0x" ++ repeat c 40.
Definition dep : deposit := {| d_id := 21; d_nonce := 7; d_height := 900; d_token := hx 97; d_amount := 5000; d_sender := hx 98;
  d_receiver := str "helios1qqq"; d_data := []; d_orch := str "helios1orch" |}.

Ltac u64s := repeat match goal with |- _ /\ _ => split | |- u64 _ => unfold u64; lia | |- Forall _ _ => constructor | |- _ => progress cbn end.
Example C37_case : accepted addr_ok (CDeposit dep) /\ plain (CDeposit dep) /\
  claim_path (CDeposit dep) = str "7/900/0xaaaaaaaaaaaaaaaaaaaaaaaaaaaaaaaaaaaaaaaa/5000/0xbbbbbbbbbbbbbbbbbbbbbbbbbbbbbbbbbbbbbbbb/helios1qqq/".
Proof.
  split; [split; [cbn; u64s|vm_compute; reflexivity]|]. split; [|vm_compute; reflexivity].
  cbn. intros b x E. destruct b; discriminate E.
Qed.

Example C37_members_case : members_text [{| m_power := 9; m_addr := hx 97 |}; {| m_power := 0; m_addr := hx 98 |}] =
  str "[power:9 ethereum_address:" ++ [34%N] ++ hx 97 ++ [34%N] ++ str "  ethereum_address:" ++ [34%N] ++ hx 98 ++ [34%N] ++ str " ]".
Proof. vm_compute. reflexivity. Qed.

(* Two token claims for different names share a bucket: the free text fields are
   joined with the separator they may contain. *)
Theorem C37_token_claims_distinct_refuted : exists a b, accepted addr_ok (CDeployed a) /\ accepted addr_ok (CDeployed b) /\
  e_name a <> e_name b /\ e_symbol a <> e_symbol b /\ forall hash, bucket hash (CDeployed a) = bucket hash (CDeployed b).
Proof.
  set (mk := fun n s => {| e_id := 21; e_nonce := 8; e_height := 900; e_denom := str "ahelios"; e_token := hx 97; e_name := str n; e_symbol := str s;
    e_decimals := 18; e_orch := str "helios1orch" |}).
  exists (mk "a/b"%string "c"%string), (mk "a"%string "b/c"%string).
  split; [split; [cbn; u64s|vm_compute; reflexivity]|]. split; [split; [cbn; u64s|vm_compute; reflexivity]|].
  split; [discriminate|]. split; [discriminate|]. intro hash. reflexivity.
Qed.
Print Assumptions C37_token_claims_distinct_refuted.

(* A deposit and a token claim share a bucket, so votes for the deposit can
   execute the token claim of whoever voted first, and the other way round.
   The sender of the deposit chooses the data. *)
Theorem C37_deposit_is_not_a_token_claim_refuted : exists d e, accepted addr_ok (CDeposit d) /\ accepted addr_ok (CDeployed e) /\
  d_data d = str "x/18" /\ e_denom e = hx 97 ++ str "/5000" /\ forall hash, bucket hash (CDeposit d) = bucket hash (CDeployed e).
Proof.
  exists {| d_id := 21; d_nonce := 7; d_height := 900; d_token := hx 97; d_amount := 5000; d_sender := hx 98; d_receiver := str "helios1qqq";
    d_data := str "x/18"; d_orch := str "helios1orch" |}.
  exists {| e_id := 21; e_nonce := 7; e_height := 900; e_denom := hx 97 ++ str "/5000"; e_token := hx 98; e_name := str "helios1qqq"; e_symbol := str "x";
    e_decimals := 18; e_orch := str "helios1orch" |}.
  split; [split; [cbn; u64s|vm_compute; reflexivity]|]. split; [split; [cbn; u64s|vm_compute; reflexivity]|].
  split; [reflexivity|]. split; [reflexivity|]. intro hash. reflexivity.
Qed.
Print Assumptions C37_deposit_is_not_a_token_claim_refuted.

(* the same without any separator inside a field: a forty-digit amount is a
   well-formed address, since the 0x is optional *)
Theorem C37_separator_free_fields_suffice_refuted : exists d e, accepted addr_ok (CDeposit d) /\ accepted addr_ok (CDeployed e) /\
  lacks slash (d_data d) /\ plain (CDeployed e) /\ forall hash, bucket hash (CDeposit d) = bucket hash (CDeployed e).
Proof.
  exists {| d_id := 21; d_nonce := 7; d_height := 900; d_token := hx 97; d_amount := 10 ^ 39; d_sender := hx 98; d_receiver := str "helios1qqq";
    d_data := str "18"; d_orch := str "helios1orch" |}.
  exists {| e_id := 21; e_nonce := 7; e_height := 900; e_denom := hx 97; e_token := 49%N :: repeat 48%N 39; e_name := hx 98; e_symbol := str "helios1qqq";
    e_decimals := 18; e_orch := str "helios1orch" |}.
  assert (L : forall s, forallb (fun c => negb (c =? slash)%N) s = true -> lacks slash s).
  { intros s H I. rewrite forallb_forall in H. specialize (H _ I). discriminate H. }
  split; [split; [cbn -[Z.pow]; u64s|vm_compute; reflexivity]|]. split; [split; [cbn; u64s|vm_compute; reflexivity]|].
  split; [apply L; reflexivity|]. split; [cbn [plain e_denom e_name e_symbol]; split; [|split]; apply L; vm_compute; reflexivity|].
  intro hash. unfold bucket, claim_hash. cbn [claim_id claim_nonce d_id d_nonce e_id e_nonce]. f_equal; f_equal; vm_compute; reflexivity.
Qed.
Print Assumptions C37_separator_free_fields_suffice_refuted.

(* The height of a withdrawal is read on execution (it becomes the last observed
   height of the other chain) but is not hashed. *)
Theorem C37_withdrawal_height_hashed_refuted : exists a b, accepted addr_ok (CWithdraw a) /\ accepted addr_ok (CWithdraw b) /\
  w_height a <> w_height b /\ forall hash, bucket hash (CWithdraw a) = bucket hash (CWithdraw b).
Proof.
  set (mk := fun h => {| w_id := 21; w_nonce := 8; w_height := h; w_batch := 3; w_token := hx 97; w_orch := str "helios1orch" |}).
  exists (mk 900), (mk (2 ^ 63)).
  split; [split; [cbn; u64s|vm_compute; reflexivity]|]. split; [split; [cbn; u64s|vm_compute; reflexivity]|].
  split; [discriminate|]. intro hash. reflexivity.
Qed.
Print Assumptions C37_withdrawal_height_hashed_refuted.

(* The reward of a validator set is stored on execution but is not hashed. *)
Theorem C37_valset_reward_hashed_refuted : exists a b, accepted addr_ok (CValset a) /\ accepted addr_ok (CValset b) /\
  v_reward a <> v_reward b /\ v_reward_token a <> v_reward_token b /\ forall hash, bucket hash (CValset a) = bucket hash (CValset b).
Proof.
  set (mk := fun r t => {| v_id := 21; v_nonce := 8; v_height := 900; v_valset := 3; v_members := [{| m_power := 2 ^ 32 - 1; m_addr := hx 99 |}];
    v_reward := r; v_reward_token := hx t; v_orch := str "helios1orch" |}).
  exists (mk 0 97%N), (mk (10 ^ 30) 98%N).
  split; [split; [cbn; u64s|vm_compute; reflexivity]|]. split; [split; [cbn; u64s|vm_compute; reflexivity]|].
  split; [discriminate|]. split; [discriminate|]. intro hash. reflexivity.
Qed.
Print Assumptions C37_valset_reward_hashed_refuted.
