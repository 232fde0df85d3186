(* Facts about the interpreter's memory. *)
From Coq Require Import NArith Nnat.
From Verif Require Import Lib.Base Lib.Bytes Evm.Words Evm.Memory.
Open Scope N_scope.


(* the yellow paper's price of a memory of w words *)
Definition mem_price (w : N) : N := 3 * w + w * w / 512.

(* whole words, all paid for, below the limit *)
Definition mem_ok (mem : bytes) (last : N) : Prop :=
  exists w, blen mem = 32 * w /\ w < 2 ^ 32 /\ last = mem_price w.

Lemma U64_val : U64 = 18446744073709551616. Proof. reflexivity. Qed.

Lemma mem_price_mono a b : a <= b -> mem_price a <= mem_price b.
Proof.
  intros H. unfold mem_price.
  assert (a * a / 512 <= b * b / 512) by (apply N.div_le_mono; [lia|apply N.mul_le_mono; lia]).
  lia.
Qed.

Lemma mem_price_small w : w < 2 ^ 32 -> mem_price w < 2 ^ 56.
Proof.
  intros H. unfold mem_price.
  assert (w * w <= 2 ^ 32 * 2 ^ 32) by (apply N.mul_le_mono; lia).
  assert (w * w / 512 <= 2 ^ 32 * 2 ^ 32 / 512) by (apply N.div_le_mono; lia).
  change (2 ^ 32 * 2 ^ 32 / 512) with (2 ^ 55) in *.
  change (2 ^ 32) with 4294967296 in *. change (2 ^ 55) with 36028797018963968 in *.
  change (2 ^ 56) with 72057594037927936. lia.
Qed.

Lemma word_size_le s : s < U64 -> s <= 32 * word_size s.
Proof.
  intros H. unfold word_size. rewrite U64_val in *.
  assert (D := N.div_mod (s + 31) 32 ltac:(lia)). assert (M := N.mod_lt (s + 31) 32 ltac:(lia)).
  destruct (N.ltb_spec (18446744073709551616 - 1 - 31) s).
  - change ((18446744073709551616 - 1) / 32 + 1) with 576460752303423488. lia.
  - lia.
Qed.

Lemma mem_size_bound k st s : mem_size k st = Ok s -> s < U64.
Proof.
  assert (C : forall o l x, calc_uint o l = Ok x -> x < U64).
  { intros o l x. unfold calc_uint. rewrite U64_val.
    destruct (N.eqb_spec l 0); [intros [= <-]; lia|].
    destruct (N.leb_spec 18446744073709551616 o); [discriminate|].
    destruct (N.leb_spec 18446744073709551616 (o + l)); [discriminate|]. intros [= <-]. lia. }
  assert (C' : forall o l x, calc o l = Ok x -> x < U64).
  { intros o l x. unfold calc. destruct (U64 <=? l); [discriminate|]. apply C. }
  destruct k as [|o l|o l|o l o2 l2]; cbn [mem_size].
  - intros [= <-]. reflexivity.
  - destruct (back st o); cbn; try discriminate. destruct (back st l); cbn; try discriminate. apply C'.
  - destruct (back st o); cbn; try discriminate. apply C.
  - destruct (back st o); cbn; try discriminate. destruct (back st l); cbn; try discriminate.
    destruct (calc a a0) as [x| |] eqn:E1; cbn; try discriminate.
    destruct (back st o2); cbn; try discriminate. destruct (back st l2); cbn; try discriminate.
    destruct (calc a1 a2) as [y| |] eqn:E2; cbn; try discriminate.
    apply C' in E1, E2. intros [= <-]. destruct (y <? x); assumption.
Qed.

(* the size asked of the memory: whole words, at least what the instruction needs *)
Lemma mem_words_spec k st size : mem_words k st = Ok size ->
  exists s w, mem_size k st = Ok s /\ size = 32 * w /\ s <= size /\ size < U64 /\ (s = 0 -> size = 0).
Proof.
  unfold mem_words. destruct (mem_size k st) as [s| |] eqn:E; cbn [rbind]; try discriminate.
  intros H. assert (B := mem_size_bound _ _ _ E). exists s, (word_size s). split; [reflexivity|].
  unfold safe_mul in H. destruct (N.leb_spec U64 (word_size s * 32)); [discriminate|].
  assert (size = word_size s * 32) by congruence. subst size. clear H.
  assert (L := word_size_le s B).
  split; [lia|]. split; [lia|]. split; [assumption|]. intros ->. reflexivity.
Qed.

Lemma blen_app a b : blen (a ++ b) = blen a + blen b.
Proof. unfold blen. rewrite app_length. lia. Qed.
Lemma blen_repeat x n : blen (repeat x (N.to_nat n)) = n.
Proof. unfold blen. rewrite repeat_length. lia. Qed.

Lemma resize_len mem size : blen (resize mem size) = N.max (blen mem) size.
Proof.
  unfold resize. destruct (N.ltb_spec (blen mem) size); [|lia].
  rewrite blen_app, blen_repeat. lia.
Qed.

Definition grow (mem : bytes) (size : N) : bytes := if 0 <? size then resize mem size else mem.
Lemma grow_len mem size : blen (grow mem size) = N.max (blen mem) size.
Proof.
  unfold grow. destruct (N.ltb_spec 0 size); [apply resize_len|]. lia.
Qed.

Lemma is_bytes_app a b : is_bytes a -> is_bytes b -> is_bytes (a ++ b).
Proof. intros. apply Forall_app. auto. Qed.
Lemma is_bytes_zeros n : is_bytes (repeat 0 n).
Proof. apply Forall_forall. intros x H. apply repeat_spec in H. subst. lia. Qed.
Lemma is_bytes_firstn n l : is_bytes l -> is_bytes (firstn n l).
Proof. intros H. rewrite <- (firstn_skipn n l) in H. apply Forall_app in H. tauto. Qed.
Lemma is_bytes_skipn n l : is_bytes l -> is_bytes (skipn n l).
Proof. intros H. rewrite <- (firstn_skipn n l) in H. apply Forall_app in H. tauto. Qed.
Lemma is_bytes_grow mem size : is_bytes mem -> is_bytes (grow mem size).
Proof.
  intros H. unfold grow, resize. destruct (0 <? size); [|assumption].
  destruct (blen mem <? size); [|assumption]. apply is_bytes_app; [assumption|apply is_bytes_zeros].
Qed.
Lemma to_be_len k x : length (to_be k x) = k.
Proof. revert x. induction k as [|k IH]; intros; cbn; [reflexivity|]. rewrite app_length, IH. cbn. lia. Qed.
Lemma is_bytes_to_be k x : is_bytes (to_be k x).
Proof.
  revert x. induction k as [|k IH]; intros; cbn; [constructor|].
  apply is_bytes_app; [apply IH|]. repeat constructor. apply N.mod_lt. lia.
Qed.

(* the fee is exactly the difference of the prices, and the memory stays paid for *)
Lemma mem_gas_spec mem last size fee last' w : mem_ok mem last -> size = 32 * w -> size < U64 ->
  mem_gas mem last size = Ok (fee, last') ->
  fee + last = last' /\ mem_ok (grow mem size) last' /\ fee < 2 ^ 56 /\ blen (grow mem size) < 2 ^ 37.
Proof.
  intros (v & L & V & ->) Hs Hu. assert (P := mem_price_small v V).
  assert (V' : v < 4294967296) by exact V.
  unfold mem_gas. destruct (N.eqb_spec size 0) as [Z|Z].
  { intros H. assert (fee = 0 /\ last' = mem_price v) as [-> ->] by (split; congruence).
    split; [lia|]. split; [|split; [reflexivity|]].
    - exists v. rewrite grow_len, Z, L. split; [lia|]. split; [exact V|reflexivity].
    - rewrite grow_len, Z, L. change (2 ^ 37) with 137438953472. lia. }
  destruct (N.ltb_spec 0x1FFFFFFFE0 size); [discriminate|].
  assert (W : word_size size = w).
  { unfold word_size. rewrite U64_val. destruct (N.ltb_spec (18446744073709551616 - 1 - 31) size); [lia|].
    subst size. replace (32 * w + 31) with (31 + w * 32) by lia. rewrite N.div_add by lia. reflexivity. }
  rewrite W. assert (W32 : w < 4294967296) by lia.
  rewrite (N.mod_small (w * 32)) by (rewrite U64_val; lia).
  assert (Q : w * w <= 4294967295 * 4294967295) by (apply N.mul_le_mono; lia).
  rewrite (N.mod_small (w * w)) by (rewrite U64_val; lia).
  rewrite (N.mod_small (w * 3)) by (rewrite U64_val; lia).
  assert (Pw := mem_price_small w W32).
  assert (E : (w * 3 + w * w / 512) mod U64 = mem_price w).
  { unfold mem_price in *. change (2 ^ 56) with 72057594037927936 in Pw.
    rewrite N.mod_small by (rewrite U64_val; lia). lia. }
  rewrite E. destruct (N.ltb_spec (blen mem) (w * 32)).
  - intros H'. assert (A : fee = (mem_price w + (U64 - mem_price v)) mod U64 /\ last' = mem_price w) by (split; congruence).
    destruct A as [-> ->]. clear H'.
    assert (M := mem_price_mono v w ltac:(lia)).
    change (2 ^ 56) with 72057594037927936 in *. rewrite U64_val.
    replace (mem_price w + (18446744073709551616 - mem_price v))
      with (mem_price w - mem_price v + 1 * 18446744073709551616) by lia.
    rewrite N.mod_add by lia. rewrite N.mod_small by lia.
    split; [lia|]. split; [|split; [lia|]].
    + exists w. rewrite grow_len. split; [lia|]. split; [exact W32|reflexivity].
    + rewrite grow_len. change (2 ^ 37) with 137438953472. lia.
  - intros H'. assert (fee = 0 /\ last' = mem_price v) as [-> ->] by (split; congruence).
    split; [lia|]. split; [|split; [reflexivity|]].
    + exists v. rewrite grow_len. split; [lia|]. split; [exact V|reflexivity].
    + rewrite grow_len. change (2 ^ 37) with 137438953472. lia.
Qed.

Lemma mem_gas_no_panic mem last size : mem_gas mem last size <> Panic.
Proof. unfold mem_gas. destruct (_ =? _); [discriminate|]. destruct (_ <? _); [discriminate|]. destruct (_ <? _); discriminate. Qed.

(* an area is inside the memory, or empty *)
Definition inside (mem : bytes) (off len : N) : Prop := len = 0 \/ (off + len <= blen mem /\ blen mem < 2 ^ 37).

Lemma calc_uint_spec o l x : calc_uint o l = Ok x -> l = 0 \/ (o + l = x /\ x < U64).
Proof.
  unfold calc_uint. destruct (N.eqb_spec l 0); [auto|].
  destruct (U64 <=? o); [discriminate|]. destruct (N.leb_spec U64 (o + l)); [discriminate|].
  intros H'. right. split; [congruence|]. assert (x = o + l) by congruence. lia.
Qed.
Lemma calc_spec o l x : calc o l = Ok x -> l < U64 /\ (l = 0 \/ (o + l = x /\ x < U64)).
Proof. unfold calc. destruct (N.leb_spec U64 l); [discriminate|]. intros E. apply calc_uint_spec in E. auto. Qed.

Lemma inside_lo mem off len : inside mem off len -> len < U64 -> (len = 0 \/ (off < U64)) ->
  inside mem (off mod U64) (len mod U64).
Proof.
  intros [->|I] L O; [left; reflexivity|]. destruct O as [->|O]; [left; reflexivity|].
  right. rewrite !N.mod_small by assumption. exact I.
Qed.

Lemma mget_ok mem off len : inside mem off len -> is_bytes mem ->
  exists d, mget mem off len = Ok d /\ is_bytes d /\ blen d = len.
Proof.
  intros I Bm. unfold mget. destruct (N.eqb_spec len 0) as [->|Z].
  { exists []. split; [reflexivity|]. split; [constructor|reflexivity]. }
  destruct I as [|[I L]]; [contradiction|]. change (2 ^ 37) with 137438953472 in L.
  unfold int64. change (2 ^ 63) with 9223372036854775808.
  destruct (N.ltb_spec off 9223372036854775808); [|lia].
  destruct (N.ltb_spec len 9223372036854775808); [|lia].
  destruct (Z.ltb_spec (Z.of_N off) (Z.of_N (blen mem))); [|lia].
  destruct (Z.ltb_spec (Z.of_N off) 0); [lia|]. destruct (Z.ltb_spec (Z.of_N len) 0); [lia|].
  destruct (Z.ltb_spec (Z.of_N (blen mem)) (Z.of_N off + Z.of_N len)); [lia|].
  cbn [orb]. eexists. split; [reflexivity|].
  split; [apply is_bytes_firstn, is_bytes_skipn; assumption|].
  unfold blen in *. rewrite firstn_length, skipn_length. lia.
Qed.

Lemma mset_ok mem off len v : inside mem off len -> is_bytes mem -> is_bytes v ->
  exists mem', mset mem off len v = Ok mem' /\ is_bytes mem' /\ blen mem' = blen mem.
Proof.
  intros I Bm Bv. unfold mset. destruct (N.eqb_spec len 0) as [->|Z].
  { exists mem. auto. }
  destruct I as [|[I L]]; [contradiction|]. change (2 ^ 37) with 137438953472 in L.
  rewrite (N.mod_small (off + len)) by (rewrite U64_val; lia).
  destruct (N.ltb_spec (blen mem) (off + len)); [lia|].
  destruct (N.leb_spec U64 (off + len)); [rewrite U64_val in *; lia|].
  eexists. split; [reflexivity|]. split.
  - apply is_bytes_app; [apply is_bytes_firstn; assumption|].
    apply is_bytes_app; [apply is_bytes_firstn; assumption|apply is_bytes_skipn; assumption].
  - unfold blen in *. rewrite !app_length, skipn_length, !firstn_length. lia.
Qed.

Lemma mset_len mem off len v mem' : mset mem off len v = Ok mem' -> blen mem' = blen mem.
Proof.
  unfold mset. destruct (len =? 0); [congruence|].
  destruct (N.ltb_spec (blen mem) ((off + len) mod U64)); [discriminate|].
  destruct (N.leb_spec U64 (off + len)); [discriminate|].
  intros H'. assert (E : firstn (N.to_nat off) mem ++ firstn (N.to_nat len) v
     ++ skipn (N.to_nat off + length (firstn (N.to_nat len) v)) mem = mem') by congruence.
  rewrite <- E. rewrite N.mod_small in H by assumption.
  unfold blen in *. rewrite !app_length, skipn_length, !firstn_length. lia.
Qed.

Lemma get_data_ok d start size : blen d < 2 ^ 63 -> size < 2 ^ 63 -> is_bytes d ->
  exists r, get_data d start size = Ok r /\ is_bytes r /\ blen r = size.
Proof.
  intros L S Bd. unfold get_data. change (2 ^ 63) with 9223372036854775808 in *.
  set (s := if blen d <? start then blen d else start).
  assert (Hs : s <= blen d) by (unfold s; destruct (N.ltb_spec (blen d) start); lia).
  rewrite N.mod_small by (rewrite U64_val; lia).
  set (e := if blen d <? s + size then blen d else s + size).
  assert (He : s <= e /\ e <= s + size) by (unfold e; destruct (N.ltb_spec (blen d) (s + size)); lia).
  assert (He' : e <= blen d) by (unfold e; destruct (N.ltb_spec (blen d) (s + size)); lia).
  destruct (N.ltb_spec e s); [lia|]. eexists. split; [reflexivity|]. split.
  - unfold pad_right. apply is_bytes_app; [apply is_bytes_firstn, is_bytes_skipn; assumption|apply is_bytes_zeros].
  - unfold pad_right. unfold blen in *. rewrite app_length, repeat_length, firstn_length, skipn_length. lia.
Qed.
