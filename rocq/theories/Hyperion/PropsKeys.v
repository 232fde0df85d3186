(* C38, C39 and the listing half of C44: the bridge's store keys and scans. *)
From Coq Require Import Sorting.Sorted.
From Verif Require Import Lib.Base Lib.Bytes Lib.Codec Lib.Kv Hyperion.Keys Hyperion.KeySpec Hyperion.KeyProofs.
Open Scope Z_scope.

(* ------------------------------------------------------------------ *)
(* C38                                                                 *)
(* ------------------------------------------------------------------ *)

(* two records of any kinds share a key only if they are the same record *)
Theorem C38_keys_are_unambiguous j k : wf j -> wf k -> encode j = encode k -> j = k.
Proof. apply encode_inj. Qed.
Print Assumptions C38_keys_are_unambiguous.

(* so writing or deleting one record never touches another *)
Theorem C38_write_touches_one_record {V} (st : list (bytes * V)) j k v : ksorted st -> wf j -> wf k ->
  kget (kset st (encode j) v) (encode j) = Some v /\ kget (kdel st (encode j)) (encode j) = None /\
  (j <> k -> kget (kset st (encode j) v) (encode k) = kget st (encode k) /\ kget (kdel st (encode j)) (encode k) = kget st (encode k)).
Proof.
  intros S Wj Wk. rewrite kget_kset, kget_kdel, beqb_refl by exact S. split; [reflexivity|]. split; [reflexivity|]. intro Ne.
  rewrite kget_kset, kget_kdel by exact S. assert (beqb (encode k) (encode j) = false) as ->; [|auto].
  apply beqb_neq. intro E. apply Ne. symmetry. apply encode_inj; assumption.
Qed.
Print Assumptions C38_write_touches_one_record.

(* byte order is numeric order, field by field *)
Lemma cmp_b8 x y a b : u64 x -> u64 y -> bcmp (b8 x ++ a) (b8 y ++ b) = match x ?= y with Eq => bcmp a b | c => c end.
Proof.
  intros Hx Hy. pose proof (be_compare 8 x y Hx Hy) as E. fold (b8 x) (b8 y) in E. destruct (Z.compare_spec x y) as [->|L|L].
  - apply bcmp_app_same.
  - rewrite bcmp_app_diff; [exact E|rewrite !b8_len; reflexivity|congruence].
  - rewrite bcmp_app_diff; [exact E|rewrite !b8_len; reflexivity|congruence].
Qed.
Lemma cmp_b8_end x y : u64 x -> u64 y -> bcmp (b8 x) (b8 y) = (x ?= y).
Proof. intros Hx Hy. apply (be_compare 8 x y Hx Hy). Qed.
Theorem C38_keys_sort_numerically :
  (forall h n h' n', wf (KValset h n) -> wf (KValset h' n') ->
     bcmp (encode (KValset h n)) (encode (KValset h' n')) = match h ?= h' with Eq => n ?= n' | c => c end) /\
  (forall h n h' n', wf (KPoolTx h n) -> wf (KPoolTx h' n') ->
     bcmp (encode (KPoolTx h n)) (encode (KPoolTx h' n')) = match h ?= h' with Eq => n ?= n' | c => c end) /\
  (forall h n t h' n' t', wf (KBatch h n t) -> wf (KBatch h' n' t') ->
     bcmp (encode (KBatch h n t)) (encode (KBatch h' n' t')) = match h ?= h' with Eq => match n ?= n' with Eq => bcmp t t' | c => c end | c => c end) /\
  (forall h t f h' t' f', wf (KFeeIndex h t f) -> wf (KFeeIndex h' t' f') ->
     bcmp (encode (KFeeIndex h t f)) (encode (KFeeIndex h' t' f')) = match h ?= h' with Eq => match bcmp t t' with Eq => f ?= f' | c => c end | c => c end) /\
  (forall h n c h' n' c', wf (KAttestation h n c) -> wf (KAttestation h' n' c') ->
     bcmp (encode (KAttestation h n c)) (encode (KAttestation h' n' c')) = match h ?= h' with Eq => match n ?= n' with Eq => bcmp c c' | x => x end | x => x end) /\
  (forall e i e' i', wf (KFinalized e i) -> wf (KFinalized e' i') ->
     bcmp (encode (KFinalized e i)) (encode (KFinalized e' i')) = match bcmp e e' with Eq => i ?= i' | c => c end).
Proof.
  assert (Sz : forall n t t' a b, sized n t -> sized n t' -> bcmp (t ++ a) (t' ++ b) = match bcmp t t' with Eq => bcmp a b | c => c end).
  { intros n t t' a b [L _] [L' _]. destruct (bcmp t t') eqn:E.
    - apply bcmp_eq in E. subst. apply bcmp_app_same.
    - rewrite bcmp_app_diff; [exact E|congruence|congruence].
    - rewrite bcmp_app_diff; [exact E|congruence|congruence]. }
  repeat match goal with |- _ /\ _ => split end; cbn [wf encode]; unfold encode; cbn [tag body].
  - intros h n h' n' [A B] [A' B']. cbn [bcmp]. rewrite N.compare_refl, cmp_b8, cmp_b8_end by assumption. reflexivity.
  - intros h n h' n' [A B] [A' B']. cbn [bcmp]. rewrite N.compare_refl, cmp_b8, cmp_b8_end by assumption. reflexivity.
  - intros h n t h' n' t' (A & B & C) (A' & B' & C'). cbn [bcmp]. rewrite N.compare_refl, !cmp_b8 by assumption. reflexivity.
  - intros h t f h' t' f' (A & B & C) (A' & B' & C'). cbn [bcmp]. rewrite N.compare_refl, cmp_b8, (Sz 20%nat) by assumption.
    rewrite (be_compare 32 f f'); [reflexivity|exact C|exact C'].
  - intros h n t h' n' t' (A & B & C) (A' & B' & C'). cbn [bcmp]. rewrite N.compare_refl, !cmp_b8 by assumption. reflexivity.
  - intros e i e' i' (A & B) (A' & B'). cbn [bcmp]. rewrite N.compare_refl, (Sz 20%nat), cmp_b8_end by assumption. reflexivity.
Qed.
Print Assumptions C38_keys_sort_numerically.

Definition tok (x : N) : bytes := repeat x 20.
Example C38_case : wf (KFeeIndex 21 (tok 7) 255) /\ wf (KFeeIndex 21 (tok 7) 256) /\
  bltb (encode (KFeeIndex 21 (tok 7) 255)) (encode (KFeeIndex 21 (tok 7) 256)) = true /\
  bltb (encode (KBatch 1 255 (tok 9))) (encode (KBatch 1 256 (tok 3))) = true /\ encode (KBatchId 5) <> encode (KTxPoolId 5).
Proof.
  assert (T : sized 20 (tok 7)) by (split; [reflexivity|repeat constructor]).
  split; [split; [|split; [exact T|]]; [unfold u64; lia|lia]|]. split; [split; [|split; [exact T|]]; [unfold u64; lia|lia]|].
  split; [vm_compute; reflexivity|]. split; [vm_compute; reflexivity|]. vm_compute. discriminate.
Qed.

(* ------------------------------------------------------------------ *)
(* C39: the range of a prefix                                          *)
(* ------------------------------------------------------------------ *)

(* for keys at least as long as the prefix the range is exact *)
Theorem C39_prefix_range_is_exact p k : bytes_ok p -> bytes_ok k -> (length p <= length k)%nat ->
  (in_range (fst (prefix_range p)) (snd (prefix_range p)) k = true <-> exists r, k = p ++ r).
Proof. intros Hp Hk L. cbn [prefix_range fst snd]. rewrite incr_spec by assumption. apply has_prefix_ex. Qed.
Print Assumptions C39_prefix_range_is_exact.
Example C39_prefix_range_case : prefix_range [15; 42; 255; 255]%N = ([15; 42; 255; 255]%N, Some [15; 43; 0; 0]%N) /\
  prefix_range [255; 255]%N = ([255; 255]%N, None) /\ in_range [1; 3; 4]%N (snd (prefix_range [1; 3; 4]%N)) [1; 3; 4; 255; 9]%N = true.
Proof. vm_compute. auto. Qed.

(* every key with the prefix is in the range, whatever its length *)
Theorem C39_prefix_range_is_complete p r : bytes_ok p -> bytes_ok r -> in_range (fst (prefix_range p)) (snd (prefix_range p)) (p ++ r) = true.
Proof.
  intros Hp Hr. cbn [prefix_range fst snd]. rewrite incr_spec; [apply has_prefix_app|apply bytes_ok_app; assumption|exact Hp|]. rewrite app_length. lia.
Qed.
Print Assumptions C39_prefix_range_is_complete.

(* a shorter key without the prefix can be in the range *)
Theorem C39_short_key_is_outside_refuted : exists p k, bytes_ok p /\ bytes_ok k /\
  in_range (fst (prefix_range p)) (snd (prefix_range p)) k = true /\ has_prefix p k = false.
Proof. exists [15; 42; 255; 255]%N, [15; 43]%N. split; [repeat constructor|]. split; [repeat constructor|]. vm_compute. auto. Qed.
Print Assumptions C39_short_key_is_outside_refuted.

(* ------------------------------------------------------------------ *)
(* C39: every scan of the module                                       *)
(* ------------------------------------------------------------------ *)

Ltac kinds W := unfold encode; match goal with |- context [body ?k] => destruct k end; cbn [tag body wf] in *;
  cbn [has_prefix N.eqb Pos.eqb andb app]; try reflexivity;
  repeat match type of W with _ /\ _ => let X := fresh "W" in destruct W as [X W] end.

Section Scans.
Context {V : Type}.
Variable st : list (bytes * V).
Variable recs : list (skey * V).
Hypothesis Ho : holds st recs.

Lemma one_ok t : (t < 256)%N -> bytes_ok [t]. Proof. repeat constructor. assumption. Qed.
Lemma kind_ok t h : (t < 256)%N -> bytes_ok (t :: b8 h). Proof. intro. constructor; [assumption|apply b8_ok]. Qed.

(* prefix-store matching: the kind byte, then a range over the body *)
Lemma pm_one t lo hi k : pmatch [t] lo hi (encode k) = ((t =? tag k)%N && in_range lo hi (body k)).
Proof. unfold pmatch, encode. cbn [has_prefix length skipn]. rewrite andb_true_r. reflexivity. Qed.
Lemma pm_range t p k : wf k -> bytes_ok p -> (tag k = t -> (length p <= length (body k))%nat) ->
  pmatch [t] p (incr p) (encode k) = has_prefix (t :: p) (encode k).
Proof.
  intros W Hp L. rewrite pm_one. unfold encode. cbn [has_prefix]. destruct (N.eqb_spec t (tag k)) as [E|]; [|reflexivity]. cbn [andb].
  apply incr_spec; [|exact Hp|apply L; symmetry; exact E]. pose proof (encode_ok k W) as B. apply Forall_inv_tail in B. exact B.
Qed.

(* the records of one chain, and of one nonce or token where asked for, in key order (or reversed), each once *)
Theorem C39_scans_return_exactly_their_records h n t e i j : u64 h -> u64 n -> sized 20 t -> sized 20 e -> 0 <= i < 2 ^ 64 - 1 -> 0 <= j < 2 ^ 64 - 1 ->
  scan_fees st h = selected 0 (is_fee h) recs /\
  scan_eth_addresses st h = selected 0 (is_eth_by_val h) recs /\
  scan_orchestrators st h = selected 0 (is_orchestrator h) recs /\
  scan_pool_index st h = rev (selected 0 (is_index h) recs) /\
  scan_pool_index_all st = rev (selected 1 is_any_index recs) /\
  scan_pool_index_token st h t = rev (selected 1 (is_index_token h t) recs) /\
  scan_batch_fees st h = selected 1 (is_index h) recs /\
  scan_batches st h = rev (selected 1 (is_batch h) recs) /\
  scan_batches_all st = rev (selected 1 is_any_batch recs) /\
  scan_external st h = rev (selected 1 (is_external h) recs) /\
  scan_valset_confirms st h n = selected 1 (is_valset_confirm h n) recs /\
  scan_batch_confirms st h t n = selected 1 (is_batch_confirm h t n) recs /\
  scan_valsets_all st = rev (selected 1 is_any_valset recs) /\
  scan_attestations st h = selected 9 (is_attestation h) recs /\
  scan_blacklist st = selected 1 is_blacklist recs /\
  scan_finalized st e = selected 1 (is_finalized e) recs /\
  scan_finalized_range st e i j = selected 1 (is_finalized_between e i j) recs /\
  scan_unslashed_valsets st h i j = selected 9 (is_valset_between h i j) recs.
Proof.
  intros Hh Hn Ht He Hi Hj.
  assert (Len : forall x, length (x :: b8 h) = 9%nat) by (intro; cbn [length]; rewrite b8_len; reflexivity).
  split; [|split; [|split; [|split]]].
  1: { unfold scan_fees. apply (scan_sel st recs); [exact Ho|lia|lia|]. intros k W. kinds W. apply has_prefix_b8_end; assumption. }
  1: { unfold scan_eth_addresses. apply (scan_sel st recs); [exact Ho|lia|lia|]. intros k W. kinds W. apply has_prefix_b8_end; assumption. }
  1: { unfold scan_orchestrators. apply (scan_sel st recs); [exact Ho|lia|lia|]. intros k W. kinds W. apply has_prefix_b8_end; assumption. }
  1: { unfold scan_pool_index. f_equal. apply (scan_sel st recs); [exact Ho|lia|lia|]. intros k W. kinds W. apply has_prefix_b8_end; assumption. }
  assert (Pr : forall tg p P, (tg < 256)%N -> bytes_ok p -> (forall k, wf k -> tag k = tg -> (length p <= length (body k))%nat) ->
    (forall k, wf k -> has_prefix (tg :: p) (encode k) = P k) ->
    pscan_range st [tg] (prefix_range p) = selected 1 P recs /\ prscan_range st [tg] (prefix_range p) = rev (selected 1 P recs)).
  { intros tg p P Htg Hp L HP. split; [apply (pscan_sel st recs [tg])|apply (prscan_sel st recs [tg])]; try exact Ho; try (apply one_ok; exact Htg);
      intros k W; cbn [prefix_range fst snd]; rewrite pm_range; auto. }
  assert (Pa : forall tg P, (tg < 256)%N -> (forall k, wf k -> (tg =? tag k)%N = P k) ->
    pscan st [tg] [] None = selected 1 P recs /\ prscan st [tg] [] None = rev (selected 1 P recs)).
  { intros tg P Htg HP. split; [apply (pscan_sel st recs [tg])|apply (prscan_sel st recs [tg])]; try exact Ho; try (apply one_ok; exact Htg);
      intros k W; rewrite pm_one, in_range_all, andb_true_r; auto. }
  assert (L8 : forall k, wf k -> (tag k = 9 \/ tag k = 10 \/ tag k = 31)%N -> (length (b8 h) <= length (body k))%nat).
  { intros k W T. destruct (encode_long k W) as [X|[->|[->| ->]]]; [|cbn in T; lia..]. unfold encode in X. cbn [length] in X. rewrite b8_len. lia. }
  split; [apply (Pa 9%N); [lia|intros k W; destruct k; reflexivity]|].
  split; [apply (Pr 9%N)|].
  { lia. } { apply bytes_ok_app; [apply b8_ok|apply Ht]. }
  { intros k W T. destruct k; try discriminate T. cbn [wf body] in *. destruct W as (_ & [L _] & _). destruct Ht as [Lt _]. rewrite !app_length, !b8_len. lia. }
  { intros k W. kinds W. rewrite has_prefix_b8 by assumption. rewrite (has_prefix_sized_end 20) by assumption. reflexivity. }
  split; [apply (Pr 9%N); [lia|apply b8_ok|intros; apply L8; auto|]; intros k W; kinds W; apply has_prefix_b8_end; assumption|].
  split; [apply (Pr 10%N); [lia|apply b8_ok|intros; apply L8; auto|]; intros k W; kinds W; apply has_prefix_b8_end; assumption|].
  split; [apply (Pa 10%N); [lia|intros k W; destruct k; reflexivity]|].
  split; [apply (Pr 31%N); [lia|apply b8_ok|intros; apply L8; auto|]; intros k W; kinds W; apply has_prefix_b8_end; assumption|].
  split; [apply (Pr 3%N)|].
  { lia. } { apply bytes_ok_app; apply b8_ok. }
  { intros k W T. destruct k; try discriminate T. cbn [body]. rewrite !app_length, !b8_len. lia. }
  { intros k W. kinds W. rewrite has_prefix_b8 by assumption. rewrite has_prefix_b8_end by assumption. reflexivity. }
  split; [apply (Pr 225%N)|].
  { lia. } { apply bytes_ok_app; [apply b8_ok|]. apply bytes_ok_app; [apply Ht|apply b8_ok]. }
  { intros k W T. destruct k; try discriminate T. cbn [body wf] in *. destruct W as (_ & [L _] & _). destruct Ht as [Lt _]. rewrite !app_length, !b8_len. lia. }
  { intros k W. kinds W. rewrite has_prefix_b8 by assumption. rewrite (has_prefix_sized 20) by assumption. rewrite has_prefix_b8_end by assumption. apply andb_assoc. }
  split; [apply (Pa 2%N); [lia|intros k W; destruct k; reflexivity]|].
  split.
  { unfold scan_attestations. rewrite (pscan_sel st recs (5%N :: b8 h) [] None (is_attestation h) Ho); [rewrite Len; reflexivity|apply kind_ok; lia|].
    intros k W. rewrite pmatch_all. kinds W. apply has_prefix_b8_end; assumption. }
  split; [apply (Pa 28%N); [lia|intros k W; destruct k; reflexivity]|].
  split; [apply (Pr 29%N)|].
  { lia. } { apply He. }
  { intros k W T. destruct k; try discriminate T. cbn [body wf] in *. destruct W as ([L _] & _). destruct He as [Le _]. rewrite !app_length. lia. }
  { intros k W. kinds W. apply (has_prefix_sized_end 20); assumption. }
  split.
  { unfold scan_finalized_range. apply (pscan_sel st recs [29%N]); [exact Ho|apply one_ok; lia|]. intros k W. rewrite pm_one. destruct k; try reflexivity.
    cbn [tag N.eqb Pos.eqb andb body wf is_finalized_between] in *. destruct W as [We Wi]. unfold in_range, bltb.
    assert (Sz : forall a b, bcmp (e0 ++ a) (e ++ b) = match bcmp e0 e with Eq => bcmp a b | c => c end).
    { intros a b. destruct We as [L _], He as [L' _]. destruct (bcmp e0 e) eqn:E.
      - apply bcmp_eq in E. subst. apply bcmp_app_same.
      - rewrite bcmp_app_diff; [exact E|congruence|congruence].
      - rewrite bcmp_app_diff; [exact E|congruence|congruence]. }
    assert (U : forall x, 0 <= x < 2 ^ 64 - 1 -> u64 (x + 1)) by (intros x Hx; unfold u64; lia).
    rewrite !Sz, !cmp_b8_end by (try assumption; apply U; assumption). unfold beqb. rewrite (bcmp_antisym e0 e). destruct (bcmp e0 e); cbn [CompOpp]; try reflexivity.
    cbn [andb]. destruct (Z.compare_spec i0 (i + 1)), (Z.compare_spec i0 (j + 1)), (Z.ltb_spec i i0), (Z.leb_spec i0 j); try lia; reflexivity. }
  { unfold scan_unslashed_valsets. rewrite (pscan_sel st recs (2%N :: b8 h) (b8 i) (Some (b8 j)) (is_valset_between h i j) Ho); [rewrite Len; reflexivity|apply kind_ok; lia|].
    intros k W. unfold pmatch. rewrite Len. unfold encode. destruct k; try reflexivity.
    cbn [tag body wf has_prefix N.eqb Pos.eqb andb is_valset_between] in *. destruct W as [Wh Wn].
    rewrite has_prefix_b8_end by assumption. destruct (h =? h0); [|reflexivity]. cbn [andb].
    change (skipn 9 (2%N :: b8 h0 ++ b8 n0)) with (skipn 8 (b8 h0 ++ b8 n0)). rewrite skipn_app, b8_len, Nat.sub_diag, skipn_all2 by (rewrite b8_len; lia). cbn [app skipn]. unfold in_range, bltb.
    rewrite !cmp_b8_end by (try assumption; unfold u64; lia).
    destruct (Z.compare_spec n0 i), (Z.compare_spec n0 j), (Z.leb_spec i n0), (Z.ltb_spec n0 j); try lia; reflexivity. }
Qed.

(* deleting by scan removes exactly the records of that chain *)
Theorem C39_cleaning_removes_exactly_its_records h : u64 h ->
  holds (clean_valsets st h) (filter (fun r => negb (is_valset h (fst r))) recs) /\
  holds (clean_batch_confirms st h) (filter (fun r => negb (is_batch_confirm_of h (fst r))) recs) /\
  holds (clean_attestations st h) (filter (fun r => negb (is_attestation h (fst r))) recs) /\
  holds (clean_last_events st h) (filter (fun r => negb (is_last_event h (fst r))) recs) /\
  holds (clean_all_skipped st) (filter (fun r => negb (is_any_skipped (fst r))) recs).
Proof.
  intro Hh. split; [|split; [|split; [|split]]].
  - apply pclean_sel; [exact Ho|apply kind_ok; lia|]. intros k W. kinds W. apply has_prefix_b8_end; assumption.
  - apply pclean_sel; [exact Ho|apply kind_ok; lia|]. intros k W. kinds W. apply has_prefix_b8_end; assumption.
  - apply pclean_sel; [exact Ho|apply kind_ok; lia|]. intros k W. kinds W. apply has_prefix_b8_end; assumption.
  - apply pclean_sel; [exact Ho|apply kind_ok; lia|]. intros k W. kinds W. apply has_prefix_b8_end; assumption.
  - apply pclean_sel; [exact Ho|apply one_ok; lia|]. intros k W. kinds W. 
Qed.
End Scans.
Print Assumptions C39_scans_return_exactly_their_records.
Print Assumptions C39_cleaning_removes_exactly_its_records.

(* a store with records of several kinds on chains 1, 2 and 2^64-1 *)
Definition put (ks : list (skey * N)) : list (bytes * N) := fold_left (fun s r => kset s (encode (fst r)) (snd r)) ks [].
Definition addr (x : N) : bytes := repeat x 20.
Definition sample : list (skey * N) :=
  [(KPoolTx 1 5, 10); (KFeeIndex 1 (tok 7) 300, 11); (KFeeIndex 1 (tok 7) 2, 12); (KFeeIndex 1 (tok 8) 9, 13); (KFeeIndex 2 (tok 7) 4, 14);
   (KValset 1 100, 15); (KValset 1 300, 16); (KValset 2 100, 17); (KValsetConfirm 1 100 (addr 3), 18); (KValsetConfirm 1 100 (addr 4), 19); (KValsetConfirm 1 101 (addr 3), 20);
   (KFee (2 ^ 64 - 1) (addr 3), 21); (KOrchData (addr 0), 22); (KParams, 23); (KBatchBlock 1 5000, 24); (KBatchBlock 2000 100, 25);
   (KNonceObserved 1 4, 26); (KNonceObserved 2 4, 27); (KSkipped 1 6, 28); (KSkipped 2 7, 29); (KFinalized (tok 1) 1, 30); (KFinalized (tok 1) 2, 31); (KFinalized (tok 1) 3, 32)]%N.

Lemma put_holds ks : Forall (fun r : skey * N => wf (fst r)) ks -> exists recs, holds (put ks) recs.
Proof.
  intro W. unfold put. assert (X : forall s recs, holds s recs -> exists recs', holds (fold_left (fun s r => kset s (encode (fst r)) (snd r)) ks s) recs').
  { induction W as [|[k v] ks Wk W IH]; intros s recs H; cbn [fold_left]; [eauto|]. destruct (holds_kset s recs k v Wk H) as (recs' & H' & _). eapply IH. exact H'. }
  apply (X [] []). apply holds_nil.
Qed.
Lemma sample_wf : Forall (fun r : skey * N => wf (fst r)) sample.
Proof.
  unfold sample. repeat apply Forall_cons; try apply Forall_nil; cbn [fst wf]; unfold u64, sized, chain_addr, tok, addr;
    repeat match goal with |- _ /\ _ => split end; try exact I; try lia; try reflexivity; try (cbn; lia); repeat constructor.
Qed.
Example C39_case : (exists recs, holds (put sample) recs) /\
  map snd (scan_pool_index_token (put sample) 1 (tok 7)) = [11; 12]%N /\ map snd (scan_batch_fees (put sample) 1) = [12; 11; 13]%N /\
  map snd (scan_valset_confirms (put sample) 1 100) = [18; 19]%N /\ map snd (scan_fees (put sample) (2 ^ 64 - 1)) = [21]%N /\
  map snd (scan_unslashed_valsets (put sample) 1 0 300) = [15]%N /\ map snd (scan_finalized_range (put sample) (tok 1) 1 3) = [31; 32]%N /\
  map snd (clean_valsets (put sample) 1) <> map snd (put sample).
Proof. split; [apply put_holds, sample_wf|]. vm_compute. repeat split; try reflexivity. discriminate. Qed.

(* ---------- iteration order ---------- *)

Lemma sorted_map {A} (key : A -> bytes) (f : A -> Z) (l : list A) :
  StronglySorted (fun a b => blt (key a) (key b)) l -> (forall a b, In a l -> In b l -> blt (key a) (key b) -> f a < f b) -> StronglySorted Z.lt (map f l).
Proof.
  induction 1 as [|a l S IH F]; intro H; cbn; constructor.
  - apply IH. intros. apply H; auto; right; assumption.
  - apply Forall_map. rewrite Forall_forall in F |- *. intros b Hb. apply H; [left; reflexivity|right; exact Hb|apply F; exact Hb].
Qed.
Lemma sorted_filter {A} (R : A -> A -> Prop) (p : A -> bool) l : StronglySorted R l -> StronglySorted R (filter p l).
Proof.
  induction 1 as [|a l S IH F]; cbn; [constructor|]. destruct (p a); [|exact IH]. constructor; [exact IH|].
  rewrite Forall_forall in F |- *. intros b Hb. apply filter_In in Hb as [Hb _]. auto.
Qed.
Definition fee_of (k : skey) : Z := match k with KFeeIndex _ _ f => f | _ => 0 end.
Definition nonce_of (k : skey) : Z := match k with KBatch _ n _ | KValset _ n => n | _ => 0 end.
Definition index_of (k : skey) : Z := match k with KFinalized _ i => i | _ => 0 end.
Lemma holds_sorted {V} (st : list (bytes * V)) recs : holds st recs -> StronglySorted (fun a b : skey * V => blt (encode (fst a)) (encode (fst b))) recs.
Proof.
  intros (-> & S & _). induction recs as [|r recs IH]; [constructor|]. cbn [map] in S. apply StronglySorted_inv in S as [S F]. constructor; [apply IH; exact S|].
  rewrite Forall_forall in F |- *. intros b Hb. exact (F _ (in_map (fun r : skey * V => (encode (fst r), snd r)) _ _ Hb)).
Qed.

(* the fee index of one token is stored, hence scanned, in strictly increasing
   order of fee, the valsets of one chain in increasing order of nonce, and the
   finalised transfers of one address in increasing order of index *)
Theorem C38_iteration_is_numeric {V} (st : list (bytes * V)) recs h t e : holds st recs ->
  StronglySorted Z.lt (map (fun r => fee_of (fst r)) (filter (fun r => is_index_token h t (fst r)) recs)) /\
  StronglySorted Z.lt (map (fun r => nonce_of (fst r)) (filter (fun r => is_valset h (fst r)) recs)) /\
  StronglySorted Z.lt (map (fun r => index_of (fst r)) (filter (fun r => is_finalized e (fst r)) recs)).
Proof.
  intro Ho. pose proof (holds_sorted st recs Ho) as S. destruct Ho as (_ & _ & W). rewrite Forall_forall in W.
  destruct C38_keys_sort_numerically as (Cv & _ & _ & Cf & _ & Ci). split; [|split].
  - apply (sorted_map (fun r => encode (fst r))); [apply sorted_filter; exact S|]. intros a b Ha Hb L. apply filter_In in Ha as [Ia Ha]. apply filter_In in Hb as [Ib Hb].
    apply W in Ia, Ib. destruct (fst a) as [| | | | | | | | |ha ta fa| | | | | | | | | | | | | | | | | | | | | | |]; try discriminate Ha.
    destruct (fst b) as [| | | | | | | | |hb tb fb| | | | | | | | | | | | | | | | | | | | | | |]; try discriminate Hb. cbn [is_index_token] in Ha, Hb. apply andb_true_iff in Ha as [Ea Ta], Hb as [Eb Tb].
    apply Z.eqb_eq in Ea, Eb. apply beqb_spec in Ta, Tb. subst. unfold blt in L. rewrite Cf, Z.compare_refl, bcmp_refl in L by assumption. exact L.
  - apply (sorted_map (fun r => encode (fst r))); [apply sorted_filter; exact S|]. intros a b Ha Hb L. apply filter_In in Ha as [Ia Ha]. apply filter_In in Hb as [Ib Hb].
    apply W in Ia, Ib. destruct (fst a) as [| |ha na| | | | | | | | | | | | | | | | | | | | | | | | | | | | | |]; try discriminate Ha.
    destruct (fst b) as [| |hb nb| | | | | | | | | | | | | | | | | | | | | | | | | | | | | |]; try discriminate Hb. cbn [is_valset] in Ha, Hb.
    apply Z.eqb_eq in Ha, Hb. subst. unfold blt in L. rewrite Cv, Z.compare_refl in L by assumption. exact L.
  - apply (sorted_map (fun r => encode (fst r))); [apply sorted_filter; exact S|]. intros a b Ha Hb L. apply filter_In in Ha as [Ia Ha]. apply filter_In in Hb as [Ib Hb].
    apply W in Ia, Ib. destruct (fst a) as [| | | | | | | | | | | | | | | | | | | | | | | |ea ia| | | | | | | |]; try discriminate Ha.
    destruct (fst b) as [| | | | | | | | | | | | | | | | | | | | | | | |eb ib| | | | | | | |]; try discriminate Hb. cbn [is_finalized] in Ha, Hb.
    apply beqb_spec in Ha, Hb. subst. unfold blt in L. rewrite Ci, bcmp_refl in L by assumption. exact L.
Qed.
Print Assumptions C38_iteration_is_numeric.

(* ---------- scans that select something else ---------- *)

(* cleaning the valset confirmations of a chain uses a prefix without the kind
   byte: the confirmations stay, and for some ids other records go *)
Theorem C39_clean_valset_confirms_refuted :
  (exists st h, st = put [(KValsetConfirm 1 100 (addr 3), 18%N)] /\ h = 1 /\ clean_valset_confirms st h = st /\ st <> []) /\
  (exists st h, st = put [(KPoolTx 1 5, 10%N)] /\ u64 h /\ h <> 1 /\ clean_valset_confirms st h = [] /\ st <> []).
Proof.
  split.
  - eexists. exists 1. split; [reflexivity|]. split; [reflexivity|]. split; [vm_compute; reflexivity|vm_compute; discriminate].
  - eexists. exists (6 * 2 ^ 56). split; [reflexivity|]. split; [unfold u64; lia|]. split; [lia|]. split; [vm_compute; reflexivity|vm_compute; discriminate].
Qed.
Print Assumptions C39_clean_valset_confirms_refuted.

(* batches to slash for are looked up by block, but the keys start with the
   chain's id: a later block of chain 1 is found, an earlier one of chain 2000 is not *)
Theorem C39_unslashed_batches_refuted :
  exists st, st = put [(KBatchBlock 1 5000, 24%N); (KBatchBlock 2000 100, 25%N)] /\
  map snd (scan_unslashed_batches st 0 1000) = [24%N].
Proof. eexists. split; [reflexivity|]. vm_compute. reflexivity. Qed.
Print Assumptions C39_unslashed_batches_refuted.

(* forgetting the observed nonces of chain 1 forgets those of chain 2 *)
Theorem C39_clean_nonce_observed_refuted :
  exists st, st = put [(KNonceObserved 1 4, 26%N); (KNonceObserved 2 4, 27%N)] /\
  kget st (encode (KNonceObserved 2 4)) = Some 27%N /\ kget (clean_nonce_observed st 1) (encode (KNonceObserved 2 4)) = None.
Proof. eexists. split; [reflexivity|]. vm_compute. auto. Qed.
Print Assumptions C39_clean_nonce_observed_refuted.

(* ------------------------------------------------------------------ *)
(* C44: listing skipped nonces                                         *)
(* ------------------------------------------------------------------ *)

Lemma b8_head h : exists r, b8 h = Z.to_N ((h / 2 ^ 56) mod 256) :: r.
Proof.
  exists (rev (le 7 h)). unfold b8, be. cbn [le rev app]. rewrite !Z.div_div by lia. reflexivity.
Qed.

(* a record is found under its own key ... *)
Theorem C44_skipped_nonce_is_stored_partial (st : list (bytes * N)) h n h' n' v : ksorted st -> u64 h -> u64 n -> u64 h' -> u64 n' ->
  kget (kset st (encode (KSkipped h n)) v) (encode (KSkipped h' n')) = (if (h =? h') && (n =? n') then Some v else kget st (encode (KSkipped h' n'))) /\
  kget (kdel st (encode (KSkipped h n))) (encode (KSkipped h' n')) = (if (h =? h') && (n =? n') then None else kget st (encode (KSkipped h' n'))).
Proof.
  intros S A B A' B'. rewrite kget_kset, kget_kdel by exact S.
  assert (beqb (encode (KSkipped h' n')) (encode (KSkipped h n)) = ((h =? h') && (n =? n'))) as ->; [|auto].
  destruct (Z.eqb_spec h h') as [<-|Nh]; [destruct (Z.eqb_spec n n') as [<-|Nn]; [apply beqb_refl|]|]; apply beqb_neq; intro E; apply encode_inj in E; try (split; assumption); congruence.
Qed.
Print Assumptions C44_skipped_nonce_is_stored_partial.
Example C44_stored_case : kget (put sample) (encode (KSkipped 1 6)) = Some 28%N /\ kget (kdel (put sample) (encode (KSkipped 1 6))) (encode (KSkipped 2 7)) = Some 29%N.
Proof. vm_compute. auto. Qed.

(* ... but the listing of a chain, and its cleaning, look under another prefix:
   for every id below 37 * 2^56 nothing is ever listed and nothing removed *)
Theorem C44_skipped_nonces_are_listed_refuted :
  (forall (st : list (bytes * N)) recs h, holds st recs -> 0 <= h < 37 * 2 ^ 56 -> list_skipped st h = [] /\ holds (clean_skipped st h) recs) /\
  (exists st, st = put [(KSkipped 1 6, 28%N)] /\ kget st (encode (KSkipped 1 6)) = Some 28%N /\ list_skipped st 1 = [] /\ clean_skipped st 1 = st).
Proof.
  split.
  - intros st recs h Ho Hh. destruct (b8_head h) as (r & Er).
    assert (Hb : (Z.to_N ((h / 2 ^ 56) mod 256) < 37)%N).
    { assert (0 <= h / 2 ^ 56 < 37) by (split; [apply Z.div_pos; lia|apply Z.div_lt_upper_bound; lia]). rewrite Z.mod_small by lia. lia. }
    assert (No : forall k, wf k -> has_prefix (37%N :: b8 h) (encode k) = false).
    { intros k W. rewrite Er. unfold encode. cbn [has_prefix]. destruct k; try reflexivity. cbn [tag body N.eqb Pos.eqb andb has_prefix].
      destruct (N.eqb_spec (Z.to_N ((h / 2 ^ 56) mod 256)) 37) as [E|]; [lia|reflexivity]. }
    split.
    + unfold list_skipped, scan_skipped. rewrite (pscan_sel st recs (37%N :: b8 h) [] None (fun _ => false) Ho); [|apply kind_ok; lia|intros k W; rewrite pmatch_all; apply No; exact W].
      unfold selected. assert (F : forall l : list (skey * N), filter (fun r => false) l = []) by (induction l; auto). rewrite F. reflexivity.
    + pose proof (pclean_sel st recs (37%N :: b8 h) (fun _ => false) Ho ltac:(apply kind_ok; lia) No) as X. cbn [negb] in X.
      assert (F : forall l : list (skey * N), filter (fun r => true) l = l) by (induction l as [|a l IH]; cbn; [reflexivity|f_equal; exact IH]). rewrite F in X. exact X.
  - eexists. split; [reflexivity|]. vm_compute. auto.
Qed.
Print Assumptions C44_skipped_nonces_are_listed_refuted.

(* the listing over all chains finds every record, but reports neither id nor nonce *)
Theorem C44_full_listing_reports_ids_refuted :
  exists st, st = put [(KSkipped 1 6, 28%N); (KSkipped 2 7, 29%N)] /\
  list_skipped_all st = [(37 * 2 ^ 56, 37 * 2 ^ 56, 28%N); (37 * 2 ^ 56, 37 * 2 ^ 56, 29%N)].
Proof. eexists. split; [reflexivity|]. vm_compute. reflexivity. Qed.
Print Assumptions C44_full_listing_reports_ids_refuted.
