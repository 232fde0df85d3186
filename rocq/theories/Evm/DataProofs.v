From Coq Require Import NArith Nnat.
From Verif Require Import Lib.Base Lib.Bytes Evm.Words Evm.World Evm.Memory Evm.Table Evm.Interp Evm.MemoryProofs Evm.TableProofs
  Evm.StepProofs Evm.WorldProofs Evm.SafeProofs Evm.DataSpec.
Open Scope N_scope.

Lemma paid_ok m : paid m <-> mem_ok (m_mem m) (m_last m).
Proof.
  unfold paid, mem_ok, mem_price, mem_total. split; intros (w & A & C & D); exists w; (split; [exact A|]); (split; [exact C|]); lia.
Qed.

Lemma byte_at_out l i : blen l <= i -> byte_at l i = 0.
Proof. intros H. unfold byte_at. apply nth_overflow. unfold blen in H. lia. Qed.
Lemma byte_at_app a b i : byte_at (a ++ b) i = if i <? blen a then byte_at a i else byte_at b (i - blen a).
Proof.
  unfold byte_at, blen. destruct (N.ltb_spec i (N.of_nat (length a))).
  - apply app_nth1. lia.
  - rewrite app_nth2 by lia. f_equal. lia.
Qed.
Lemma byte_at_zeros n i : byte_at (repeat 0 n) i = 0.
Proof.
  unfold byte_at. destruct (Nat.lt_ge_cases (N.to_nat i) n) as [H|H].
  - apply nth_repeat.
  - apply nth_overflow. rewrite repeat_length. exact H.
Qed.
Lemma byte_at_grow mem size i : byte_at (grow mem size) i = byte_at mem i.
Proof.
  unfold grow, resize. destruct (0 <? size); [|reflexivity]. destruct (blen mem <? size); [|reflexivity].
  rewrite byte_at_app. destruct (N.ltb_spec i (blen mem)); [reflexivity|].
  rewrite byte_at_zeros. symmetry. now apply byte_at_out.
Qed.
Lemma blen_firstn n l : n <= blen l -> blen (firstn (N.to_nat n) l) = n.
Proof. intros H. unfold blen in *. rewrite firstn_length. lia. Qed.
Lemma byte_at_firstn n l i : i < n -> byte_at (firstn (N.to_nat n) l) i = byte_at l i.
Proof.
  intros H. unfold byte_at. destruct (Nat.lt_ge_cases (N.to_nat i) (length l)) as [L|L].
  - rewrite <- (firstn_skipn (N.to_nat n) l) at 2. rewrite app_nth1; [reflexivity|]. rewrite firstn_length. lia.
  - rewrite !nth_overflow; [reflexivity|lia|]. rewrite firstn_length. lia.
Qed.
Lemma byte_at_skipn n l i : byte_at (skipn n l) i = byte_at l (N.of_nat n + i).
Proof.
  unfold byte_at. replace (N.to_nat (N.of_nat n + i)) with (n + N.to_nat i)%nat by lia.
  revert l. induction n as [|n IH]; intros l; [reflexivity|]. destruct l as [|x l]; [cbn; destruct (N.to_nat i); reflexivity|]. apply IH.
Qed.

Lemma mset_bytes mem off len v mem' : mset mem off len v = Ok mem' -> inside mem off len -> blen v = len ->
  forall i, byte_at mem' i = if (off <=? i) && (i <? off + len) then byte_at v (i - off) else byte_at mem i.
Proof.
  intros H I L i. unfold mset in H. destruct (N.eqb_spec len 0) as [E|E].
  - assert (mem' = mem) by congruence. subst mem' len. rewrite E.
    destruct (N.leb_spec off i), (N.ltb_spec i (off + 0)); cbn; try reflexivity. lia.
  - destruct I as [I|[I1 I2]]; [contradiction|]. change (2 ^ 37) with 137438953472 in I2. rewrite U64_val in H.
    destruct (blen mem <? (off + len) mod 18446744073709551616); [discriminate|].
    destruct (18446744073709551616 <=? off + len); [discriminate|].
    rewrite (firstn_all2 v) in H by (unfold blen in L; lia).
    assert (Q : mem' = firstn (N.to_nat off) mem ++ v ++ skipn (N.to_nat off + length v) mem) by congruence. subst mem'. clear H.
    rewrite byte_at_app, blen_firstn by lia. destruct (N.ltb_spec i off) as [Li|Li].
    + rewrite byte_at_firstn by exact Li. destruct (N.leb_spec off i); [lia|reflexivity].
    + rewrite byte_at_app. rewrite L. destruct (N.leb_spec off i) as [_|]; [|lia]. cbn [andb].
      destruct (N.ltb_spec (i - off) len), (N.ltb_spec i (off + len)); try lia.
      rewrite byte_at_skipn. f_equal. unfold blen in L. lia.
Qed.
Lemma mget_eq mem off len : inside mem off len -> len <> 0 ->
  mget mem off len = Ok (firstn (N.to_nat len) (skipn (N.to_nat off) mem)).
Proof.
  intros I E. unfold mget. destruct (N.eqb_spec len 0) as [|_]; [contradiction|].
  destruct I as [|[I L]]; [contradiction|]. change (2 ^ 37) with 137438953472 in L.
  unfold int64. change (2 ^ 63) with 9223372036854775808.
  destruct (N.ltb_spec off 9223372036854775808); [|lia].
  destruct (N.ltb_spec len 9223372036854775808); [|lia].
  destruct (Z.ltb_spec (Z.of_N off) (Z.of_N (blen mem))); [|lia].
  destruct (Z.ltb_spec (Z.of_N off) 0); [lia|]. destruct (Z.ltb_spec (Z.of_N len) 0); [lia|].
  destruct (Z.ltb_spec (Z.of_N (blen mem)) (Z.of_N off + Z.of_N len)); [lia|]. reflexivity.
Qed.
Lemma mget_bytes mem off len d : mget mem off len = Ok d -> inside mem off len ->
  blen d = len /\ forall i, i < len -> byte_at d i = byte_at mem (off + i).
Proof.
  intros H I. destruct (N.eq_dec len 0) as [E|E].
  - subst len. assert (d = []) by (cbn in H; congruence). subst. split; [reflexivity|]. intros; lia.
  - rewrite (mget_eq _ _ _ I E) in H. destruct I as [I|[I1 _]]; [contradiction|].
    assert (Q : d = firstn (N.to_nat len) (skipn (N.to_nat off) mem)) by congruence. subst d. clear H.
    split.
    + apply blen_firstn. unfold blen in *. rewrite skipn_length. lia.
    + intros i Hi. rewrite byte_at_firstn by exact Hi. rewrite byte_at_skipn. f_equal. lia.
Qed.
Lemma get_data_bytes data s size d : get_data data s size = Ok d -> blen data < 2 ^ 63 -> size < 2 ^ 63 ->
  blen d = size /\ forall i, i < size -> byte_at d i = byte_at data (s + i).
Proof.
  intros H L S. unfold get_data in H. change (2 ^ 63) with 9223372036854775808 in *.
  set (s' := if blen data <? s then blen data else s) in H.
  assert (Ls : s' <= blen data /\ (s <= blen data -> s' = s) /\ (blen data < s -> s' = blen data)).
  { unfold s'. destruct (N.ltb_spec (blen data) s); repeat split; lia. }
  clearbody s'. rewrite N.mod_small in H by (rewrite U64_val; lia).
  set (e := if blen data <? s' + size then blen data else s' + size) in H.
  assert (Le : s' <= e /\ e <= blen data /\ e <= s' + size /\ (s' + size <= blen data -> e = s' + size) /\ (blen data < s' + size -> e = blen data)).
  { unfold e. destruct (N.ltb_spec (blen data) (s' + size)); repeat split; lia. }
  clearbody e. destruct (N.ltb_spec e s'); [lia|].
  assert (Q : d = pad_right (firstn (N.to_nat (e - s')) (skipn (N.to_nat s') data)) size) by congruence. subst d. clear H.
  unfold pad_right. set (x := firstn _ _).
  assert (Bx : blen x = e - s'). { unfold x. apply blen_firstn. unfold blen in *. rewrite skipn_length. lia. }
  split.
  - rewrite blen_app. unfold blen in *. rewrite repeat_length. lia.
  - intros i Hi. rewrite byte_at_app, Bx. destruct (N.ltb_spec i (e - s')) as [Li|Li].
    + unfold x. rewrite byte_at_firstn by exact Li. rewrite byte_at_skipn. f_equal. lia.
    + rewrite byte_at_zeros. symmetry. apply byte_at_out. lia.
Qed.

Lemma to_be_bytes k x i : (i < N.of_nat k) -> byte_at (to_be k x) i = (x / 256 ^ (N.of_nat k - 1 - i)) mod 256.
Proof.
  revert x i. induction k as [|k IH]; intros x i H; [lia|].
  cbn [to_be]. rewrite byte_at_app. assert (Lb : blen (to_be k (x / 256)) = N.of_nat k) by (unfold blen; rewrite to_be_len; reflexivity).
  rewrite Lb. destruct (N.ltb_spec i (N.of_nat k)) as [L|L].
  - rewrite IH by exact L. rewrite N.div_div; [|discriminate|apply N.pow_nonzero; discriminate].
    replace (N.of_nat (S k) - 1 - i) with (N.succ (N.of_nat k - 1 - i)) by lia. rewrite N.pow_succ_r'. reflexivity.
  - replace (i - N.of_nat k) with 0 by lia. replace (N.of_nat (S k) - 1 - i) with 0 by lia. cbn. rewrite N.div_1_r. reflexivity.
Qed.
Lemma number_ext f g n : (forall i, i < N.of_nat n -> f i = g i) -> number f n = number g n.
Proof.
  induction n as [|n IH]; intros H; [reflexivity|]. cbn [number]. rewrite IH, H by (try lia; intros; apply H; lia). reflexivity.
Qed.
Lemma be_app a b : be (a ++ [b]) = be a * 256 + b.
Proof. unfold be. rewrite fold_left_app. reflexivity. Qed.
Lemma be_number l : be l = number (byte_at l) (length l).
Proof.
  induction l as [|b l IH] using rev_ind; [reflexivity|].
  rewrite be_app, app_length, Nat.add_comm. cbn [length Nat.add number]. rewrite IH. f_equal.
  - f_equal. apply number_ext. intros i Hi. rewrite byte_at_app. unfold blen. destruct (N.ltb_spec i (N.of_nat (length l))); [reflexivity|lia].
  - unfold byte_at. rewrite Nat2N.id, app_nth2, Nat.sub_diag by lia. reflexivity.
Qed.
Lemma be_of l n f : blen l = N.of_nat n -> (forall i, i < N.of_nat n -> byte_at l i = f i) -> be l = number f n.
Proof.
  intros L H. rewrite be_number. assert (E : length l = n) by (unfold blen in L; lia). rewrite E. apply number_ext, H.
Qed.

Lemma area_len l off len : blen (area l off len) = len.
Proof. unfold area, blen. rewrite map_length, seq_length. lia. Qed.
Lemma area_eq l off len d : blen d = len -> (forall i, i < len -> byte_at d i = byte_at l (off + i)) -> d = area l off len.
Proof.
  intros L H. apply nth_ext with (d := 0) (d' := 0).
  - assert (A := area_len l off len). unfold blen in *. lia.
  - intros n Hn. assert (Hi : N.of_nat n < len) by (unfold blen in L; lia). assert (Q := H (N.of_nat n) Hi).
    unfold byte_at at 1 in Q. rewrite Nat2N.id in Q. rewrite Q. unfold area.
    set (f := fun i => byte_at l (off + N.of_nat i)). rewrite nth_indep with (d' := f O).
    + rewrite map_nth, seq_nth by lia. reflexivity.
    + rewrite map_length, seq_length. lia.
Qed.
Lemma mget_area mem size off len d : mget (grow mem size) off len = Ok d -> inside (grow mem size) off len ->
  d = area mem off len.
Proof.
  intros H I. destruct (mget_bytes _ _ _ _ H I) as [L Q]. apply area_eq; [exact L|].
  intros i Hi. rewrite Q by exact Hi. apply byte_at_grow.
Qed.
Lemma mget_area_ok mem size off len : inside (grow mem size) off len -> mget (grow mem size) off len = Ok (area mem off len).
Proof.
  intros I. destruct (N.eq_dec len 0) as [E|E].
  - subst. reflexivity.
  - assert (M := mget_eq _ _ _ I E). assert (M' := M). apply mget_area in M'; [|exact I]. rewrite M. now f_equal.
Qed.
(* writing always succeeds inside *)
Lemma mset_patched mem size off len v : inside (grow mem size) off len -> blen v = len ->
  exists mem', mset (grow mem size) off len v = Ok mem' /\ blen mem' = blen (grow mem size) /\
    patched mem mem' off len (byte_at v).
Proof.
  intros I L. assert (X : exists mem', mset (grow mem size) off len v = Ok mem').
  { unfold mset. destruct (N.eqb_spec len 0) as [E|E]; [eauto|].
    destruct I as [|[I1 I2]]; [contradiction|]. change (2 ^ 37) with 137438953472 in I2. rewrite U64_val.
    rewrite N.mod_small by lia. destruct (N.ltb_spec (blen (grow mem size)) (off + len)); [lia|].
    destruct (N.leb_spec 18446744073709551616 (off + len)); [lia|]. eauto. }
  destruct X as [mem' X]. exists mem'. split; [exact X|]. split; [now apply mset_len in X|].
  intros i. rewrite (mset_bytes _ _ _ _ _ X I L). destruct (_ && _); [reflexivity|apply byte_at_grow].
Qed.

(* what the memory size function of a table entry says *)
Lemma calc_reach off len : calc off len = if reach off len <? U64 then Ok (reach off len) else Err.
Proof.
  unfold calc, calc_uint, reach. rewrite U64_val. destruct (N.eqb_spec len 0) as [->|E]; [reflexivity|].
  destruct (N.ltb_spec (off + len) 18446744073709551616), (N.leb_spec 18446744073709551616 len),
    (N.leb_spec 18446744073709551616 off), (N.leb_spec 18446744073709551616 (off + len)); try lia; reflexivity.
Qed.
Lemma calc_uint_reach off len : len < U64 -> calc_uint off len = if reach off len <? U64 then Ok (reach off len) else Err.
Proof.
  intros L. rewrite <- calc_reach. unfold calc. destruct (N.leb_spec U64 len); [lia|reflexivity].
Qed.

(* the words an area needs *)
Lemma words_div hi : hi < U64 -> word_size hi = (hi + 31) / 32.
Proof.
  intros H. unfold word_size. rewrite U64_val in *. destruct (N.ltb_spec (18446744073709551616 - 1 - 31) hi) as [Q|Q]; [|reflexivity].
  change ((18446744073709551616 - 1) / 32 + 1) with 576460752303423488.
  apply N.div_unique with (r := hi + 31 - 18446744073709551616); lia.
Qed.

Section Pay.
Variable keccak : bytes -> N.
Variable committed : N -> N -> N.
Let dynamic := dynamic keccak committed.
Let pay := pay keccak committed.

Lemma pay_dyn F m o : op_dyn o <> DNone -> op_min o <= N.of_nat (length (m_stack m)) -> N.of_nat (length (m_stack m)) <= op_max o ->
  pay F m o =
  if m_gas m <? op_gas o then inr (fail EOutOfGas m)
  else
    let m1 := set_gas m (m_gas m - op_gas o) in
    match mem_words (op_mem o) (m_stack m) with
    | Err => inr (fail EGasOverflow m1)
    | Panic => inr SPanic
    | Ok size =>
      match dynamic (op_dyn o) F m1 size with
      | Err => inr (fail EOutOfGas m1)
      | Panic => inr SPanic
      | Ok d =>
        if m_gas m1 <? d_cost d then inr (fail EOutOfGas m1)
        else inl (Mach (m_pc m) (m_gas m1 - d_cost d) (m_stack m)
                       (grow (m_mem m) size) (d_last d) (m_ret m) (d_world d), d_call d)
      end
    end.
Proof.
  intros H L1 L2. unfold pay, Interp.pay.
  destruct (N.ltb_spec (N.of_nat (length (m_stack m))) (op_min o)) as [|_]; [lia|].
  destruct (N.ltb_spec (op_max o) (N.of_nat (length (m_stack m)))) as [|_]; [lia|].
  destruct (op_dyn o); try contradiction; reflexivity.
Qed.

(* Paying for an instruction whose price is g, and c more for what it does
   besides using the first hi bytes of memory. *)
Lemma mem_pay F m i g c hi k w' :
  dyn_of i = k -> k <> DNone ->
  pops i <= N.of_nat (length (m_stack m)) -> N.of_nat (length (m_stack m)) + pushes i <= 1024 + pops i ->
  mem_ok (m_mem m) (m_last m) -> m_gas m < U64 ->
  mem_size (mem_of i) (m_stack m) = (if hi <? U64 then Ok hi else Err) ->
  (forall size, mem_gas (m_mem m) (m_last m) size = Err -> dynamic k F (set_gas m (m_gas m - g)) size = Err) ->
  (forall size fee last', hi < U64 -> hi <= size -> mem_gas (m_mem m) (m_last m) size = Ok (fee, last') -> fee < 2 ^ 56 ->
     dynamic k F (set_gas m (m_gas m - g)) size = Ok (Dyn (fee + c) 0 last' w')) ->
  (affordable m (g + c) hi ->
     exists m' size, pay F m (canon i g) = inl (m', 0) /\ m_stack m' = m_stack m /\ m_pc m' = m_pc m /\
       m_ret m' = m_ret m /\ m_world m' = w' /\ mem_words (mem_of i) (m_stack m) = Ok size /\ m_mem m' = grow (m_mem m) size /\
       blen (grow (m_mem m) size) < 2 ^ 37 /\ charged m (g + c) hi m') /\
  (~ affordable m (g + c) hi -> exists e g', pay F m (canon i g) = inr (SDone (Out [] (Some e) g' (m_world m))) /\ reverted e = false).
Proof.
  intros Dk Dn P1 P2 OK Gu Ms De Do.
  assert (Hpp : pushes i <= 1024 + pops i)
    by (destruct i as [|o|o|o| |o|o|o| | | | | | | | | |n'|n'|n'|n'| | |k0| | | |]; cbn [pushes pops]; try lia; destruct k0; lia).
  rewrite pay_dyn; cbn [canon op_min op_max op_gas op_dyn op_mem]; [|rewrite Dk; exact Dn|exact P1|lia]. rewrite Dk.
  assert (OK' := OK). destruct OK' as (v & Lv & Vv & Ev). assert (Pv := mem_price_small v Vv).
  change (2 ^ 56) with 72057594037927936 in *.
  assert (Wv : blen (m_mem m) / 32 = v) by (rewrite Lv, N.mul_comm; apply N.div_mul; discriminate).
  assert (MT : forall w, mem_total w = mem_price w) by reflexivity.
  unfold affordable, charged, words_for. rewrite Wv.
  assert (Mono : mem_price v <= mem_price (N.max v ((hi + 31) / 32))) by (apply mem_price_mono; lia).
  destruct (N.ltb_spec (m_gas m) g) as [Lg|Lg].
  { split.
    - intros [_ A]. rewrite MT in A. lia.
    - intros _. eexists _, _. split; [reflexivity|reflexivity]. }
  unfold mem_words. rewrite Ms. destruct (N.ltb_spec hi U64) as [Lh|Lh]; cbn [rbind].
  2: { split.
    - intros [A _]. exfalso. rewrite U64_val in Lh. assert (18446744073709551616 / 32 <= (hi + 31) / 32) by (apply N.div_le_mono; lia).
      change (18446744073709551616 / 32) with 576460752303423488 in *. change (2 ^ 32) with 4294967296 in *. lia.
    - intros _. eexists _, _. split; [reflexivity|reflexivity]. }
  rewrite words_div by exact Lh. set (w := (hi + 31) / 32) in *.
  assert (Dm := N.div_mod (hi + 31) 32 ltac:(discriminate)). assert (Ml := N.mod_lt (hi + 31) 32 ltac:(discriminate)). fold w in Dm.
  clearbody w. unfold safe_mul. rewrite U64_val in *. destruct (N.leb_spec 18446744073709551616 (w * 32)) as [Big|Small].
  { split.
    - intros [A _]. exfalso. change (2 ^ 32) with 4294967296 in A. lia.
    - intros _. eexists _, _. split; [reflexivity|reflexivity]. }
  destruct (mem_gas (m_mem m) (m_last m) (w * 32)) as [[fee last']| |] eqn:E.
  - assert (Sp := mem_gas_spec (m_mem m) (m_last m) (w * 32) fee last' w OK ltac:(lia) ltac:(rewrite U64_val; lia) E).
    change (2 ^ 56) with 72057594037927936 in Sp. destruct Sp as (F1 & F2 & F3 & F4).
    rewrite (Do (w * 32) fee last' Lh ltac:(lia) E ltac:(exact F3)). cbn [d_cost d_call d_last d_world].
    assert (Bl : blen (grow (m_mem m) (w * 32)) = 32 * N.max v w) by (rewrite grow_len, Lv; lia).
    assert (El : last' = mem_price (N.max v w)).
    { destruct F2 as (w2 & B2 & _ & ->). f_equal. lia. }
    assert (Hw : N.max v w < 2 ^ 32) by (destruct F2 as (w2 & B2 & W2 & _); replace (N.max v w) with w2 by lia; exact W2).
    cbn [set_gas m_gas]. destruct (N.ltb_spec (m_gas m - g) (fee + c)) as [Lc|Lc].
    + split.
      * intros [_ A]. rewrite MT in A. lia.
      * intros _. eexists _, _. split; [reflexivity|reflexivity].
    + split.
      * intros _. eexists _, (w * 32). split; [reflexivity|]. cbn [m_stack m_pc m_ret m_world m_mem m_last m_gas set_gas].
        do 5 (split; [reflexivity|]). split; [reflexivity|]. split; [exact F4|].
        split; [rewrite MT; lia|]. split; [exact Bl|]. apply paid_ok. cbn [m_mem m_last]. exact F2.
      * intros A. exfalso. apply A. split; [exact Hw|]. rewrite MT. lia.
  - rewrite (De _ E). split.
    + intros [A _]. exfalso. unfold mem_gas in E. destruct (w * 32 =? 0); [discriminate|].
      destruct (N.ltb_spec 0x1FFFFFFFE0 (w * 32)) as [Q|Q]; [|destruct (_ <? _); discriminate E].
      change (2 ^ 32) with 4294967296 in A. lia.
    + intros _. eexists _, _. split; [reflexivity|reflexivity].
  - exfalso. now apply mem_gas_no_panic in E.
Qed.
End Pay.

(* the operands of an instruction, once its memory is paid for *)
Lemma lo64_id x : x < U64 -> lo64 x = x.
Proof. apply N.mod_small. Qed.
Lemma at_operands o l st size mem off len : mem_words (MAt o l) st = Ok size -> blen (grow mem size) < 2 ^ 37 ->
  nth_error st o = Some off -> nth_error st l = Some len ->
  len < 2 ^ 63 /\ lo64 len = len /\ (len = 0 \/ lo64 off = off) /\ inside (grow mem size) off len.
Proof.
  intros M L Eo El. destruct (cover_at o l st size mem M L off len Eo El) as [I L63]. assert (Lu := cover_len o l st size M off len Eo El).
  rewrite (lo64_id len Lu) in *. split; [exact L63|]. split; [reflexivity|].
  destruct (N.eq_dec len 0) as [E|E]; [split; now left|].
  destruct (mem_words_spec _ _ _ M) as (s & w & Ms & _). cbn [mem_size] in Ms. unfold back in Ms. rewrite Eo, El in Ms. cbn [rbind] in Ms.
  rewrite calc_reach in Ms. unfold reach in Ms. destruct (N.eqb_spec len 0); [contradiction|].
  destruct (N.ltb_spec (off + len) U64) as [Lo|]; [|discriminate].
  assert (Q : lo64 off = off) by (apply lo64_id; lia). rewrite Q in I. auto.
Qed.
Lemma fix_operands o len st size mem off : mem_words (MFix o len) st = Ok size -> blen (grow mem size) < 2 ^ 37 -> len <> 0 ->
  nth_error st o = Some off -> lo64 off = off /\ inside (grow mem size) off len.
Proof.
  intros M L E Eo. assert (I := cover_fix o len st size mem M L E off Eo).
  destruct (mem_words_spec _ _ _ M) as (s & w & Ms & _). cbn [mem_size] in Ms. unfold back in Ms. rewrite Eo in Ms. cbn [rbind] in Ms.
  apply calc_uint_spec in Ms. destruct Ms as [Ms|[Ms Lu]]; [contradiction|].
  assert (Q : lo64 off = off) by (apply lo64_id; lia). rewrite Q in I. auto.
Qed.
Lemma take_at o l st size mem off len : mem_words (MAt o l) st = Ok size -> blen (grow mem size) < 2 ^ 37 ->
  nth_error st o = Some off -> nth_error st l = Some len ->
  mget (grow mem size) (lo64 off) (lo64 len) = Ok (area mem off len).
Proof.
  intros M L Eo El. destruct (at_operands _ _ _ _ _ _ _ M L Eo El) as (_ & -> & [E | ->] & I).
  - subst. reflexivity.
  - now apply mget_area_ok.
Qed.
Lemma put_at o l st size mem off len v : mem_words (MAt o l) st = Ok size -> blen (grow mem size) < 2 ^ 37 ->
  nth_error st o = Some off -> nth_error st l = Some len -> blen v = len ->
  exists mem', mset (grow mem size) (lo64 off) (lo64 len) v = Ok mem' /\ blen mem' = blen (grow mem size) /\
    patched mem mem' off len (byte_at v).
Proof.
  intros M L Eo El Lv. destruct (at_operands _ _ _ _ _ _ _ M L Eo El) as (_ & -> & [E | ->] & I).
  - subst len. rewrite E. exists (grow mem size). split; [reflexivity|]. split; [reflexivity|].
    intros i. destruct (N.leb_spec off i), (N.ltb_spec i (off + 0)); cbn [andb]; try apply byte_at_grow; lia.
  - now apply mset_patched.
Qed.
Lemma charged_ext m p h m1 m2 : charged m p h m1 -> m_gas m2 = m_gas m1 -> m_last m2 = m_last m1 ->
  blen (m_mem m2) = blen (m_mem m1) -> charged m p h m2.
Proof. unfold charged, paid. intros H -> -> ->. exact H. Qed.
Lemma patched_ext l l' off len f g : patched l l' off len f -> (forall i, i < len -> f i = g i) -> patched l l' off len g.
Proof.
  intros H E i. rewrite H. destruct (N.leb_spec off i), (N.ltb_spec i (off + len)); cbn [andb]; try reflexivity. apply E. lia.
Qed.

Lemma sstore_exact committed s k v w : exist w s = true -> w_addr w s = true ->
  (committed s k <> 0 -> state w s k = 0 -> 4800 <= w_refund w) -> w_refund w + 24700 < U64 ->
  exists w1, sstore_gas committed s k v w = Ok (sstore_price (committed s k) (state w s k) v (negb (w_slot w s k)), w1) /\
    w_acct w1 = w_acct w /\ w_logs w1 = w_logs w /\
    (forall b j, w_slot w1 b j = w_slot w b j || ((b =? s) && (j =? k))) /\
    Z.of_N (w_refund w1) = (Z.of_N (w_refund w) + sstore_refund (committed s k) (state w s k) v)%Z.
Proof.
  intros Ex Ad Pay Rf. unfold sstore_gas.
  set (first := if w_slot w s k then Ok (0, w) else if w_addr w s then Ok (cold_sload, warm_slot w s k) else Panic).
  assert (First : exists u, first = Ok ((if negb (w_slot w s k) then 2100 else 0), u) /\ w_refund u = w_refund w /\ w_acct u = w_acct w /\
     w_logs u = w_logs w /\ forall b j, w_slot u b j = w_slot w b j || ((b =? s) && (j =? k))).
  { unfold first. rewrite Ad. destruct (w_slot w s k) eqn:E; eexists; (split; [reflexivity|]); cbn; repeat (split; [reflexivity|]).
    - intros b j. destruct (N.eqb_spec b s) as [->|]; [destruct (N.eqb_spec j k) as [->|]|]; cbn; rewrite ?orb_false_r, ?E; reflexivity.
    - intros b j. unfold upd. destruct (N.eqb_spec b s) as [->|]; [destruct (N.eqb_spec j k) as [->|]|]; cbn; rewrite ?orb_false_r, ?E; reflexivity. }
  destruct First as (u & -> & Ru & Au & Lu & Su). cbn [rbind].
  assert (Or : committed_state committed u s k = committed s k).
  { unfold committed_state. rewrite Au. unfold exist in Ex. destruct (w_acct w s); [reflexivity|discriminate]. }
  rewrite Or. clear Or. set (cur := state w s k) in *. set (orig := committed s k) in *. clearbody cur orig.
  set (cold := if negb (w_slot w s k) then 2100 else 0).
  unfold sstore_price, sstore_refund. fold cold. clearbody cold.
  assert (Ra : forall x y, w_refund x = w_refund w \/ w_refund x + 4800 = w_refund w -> y <= 19900 -> w_refund (add_refund x y) = w_refund x + y).
  { intros x y Hx Hy. apply refund_add. lia. }
  assert (Fa : forall x y, w_acct (add_refund x y) = w_acct x /\ w_logs (add_refund x y) = w_logs x /\ w_slot (add_refund x y) = w_slot x) by (repeat split).
  assert (Fin : forall (c : N) (u' : world), w_acct u' = w_acct u -> w_logs u' = w_logs u -> w_slot u' = w_slot u ->
     forall d, Z.of_N (w_refund u') = (Z.of_N (w_refund w) + d)%Z -> forall price : N, c = price ->
     exists w1, Ok (c, u') = Ok (price, w1) /\ w_acct w1 = w_acct w /\ w_logs w1 = w_logs w /\
       (forall b j, w_slot w1 b j = w_slot w b j || ((b =? s) && (j =? k))) /\ Z.of_N (w_refund w1) = (Z.of_N (w_refund w) + d)%Z).
  { intros c u' A1 A2 A3 d Hd price ->. exists u'. split; [reflexivity|]. rewrite A1, A2, Au, Lu. do 2 (split; [reflexivity|]).
    split; [intros; rewrite A3; apply Su|exact Hd]. }
  destruct (N.eqb_spec cur v) as [Ecv|Ncv].
  { apply Fin; auto; unfold warm_read; lia. }
  destruct (N.eqb_spec orig cur) as [Eoc|Noc].
  { destruct (N.eqb_spec orig 0) as [Eo|No].
    - apply Fin; auto. cbn [negb andb]. lia.
    - cbn [negb andb]. destruct (N.eqb_spec v 0) as [Ev|Nv].
      + destruct (Fa u 4800) as (F1 & F2 & F3). apply Fin; auto.
        rewrite Ra by (auto; lia). destruct (N.eqb_spec cur 0); [congruence|]. lia.
      + destruct (N.eqb_spec cur 0); [congruence|]. apply Fin; auto. lia. }
  destruct (N.eqb_spec orig 0) as [Eo|No]; cbn [negb andb rbind].
  { destruct (N.eqb_spec orig v) as [Eov|Nov].
    - destruct (Fa u 19900) as (F1 & F2 & F3). apply Fin; auto. rewrite Ra by (auto; lia). lia.
    - apply Fin; auto. lia. }
  destruct (N.eqb_spec cur 0) as [Ec|Nc].
  - assert (P := Pay No Ec). unfold sub_refund. rewrite Ru. destruct (N.ltb_spec (w_refund w) 4800); [lia|]. cbn [rbind].
    destruct (N.eqb_spec v 0) as [|Nv]; [congruence|].
    destruct (N.eqb_spec orig v) as [Eov|Nov].
    + apply Fin; auto. rewrite Ra by (cbn [w_refund]; lia). cbn [w_refund]. lia.
    + apply Fin; auto. cbn [w_refund]. lia.
  - cbn [rbind]. destruct (N.eqb_spec v 0) as [Ev|Nv].
    + destruct (N.eqb_spec orig v) as [|Nov]; [congruence|].
      destruct (Fa u 4800) as (F1 & F2 & F3). apply Fin; auto. rewrite Ra by (auto; lia). lia.
    + destruct (N.eqb_spec orig v) as [Eov|Nov].
      * destruct (Fa u 2800) as (F1 & F2 & F3). apply Fin; auto. rewrite Ra by (auto; lia). lia.
      * apply Fin; auto. lia.
Qed.

Lemma stored_set keccak committed w w1 a k v : w_acct w1 = w_acct w -> w_logs w1 = w_logs w -> exist w a = true ->
  (forall b j, w_slot w1 b j = w_slot w b j || ((b =? a) && (j =? k))) -> stored w (set_state keccak committed w1 a k v) a k v.
Proof.
  intros A1 A2 Ex S. unfold exist in Ex. destruct (w_acct w a) as [x|] eqn:E; [|discriminate].
  unfold stored, state, exist, balance, nonce, code, code_hash, set_state, here. rewrite A1, E. cbn. unfold upd.
  split; [|split; [|split; [exact A2|exact S]]].
  - intros b j. destruct (N.eqb_spec b a) as [Eb|]; [subst b; rewrite E; cbn; reflexivity|]. rewrite A1. reflexivity.
  - intros b. destruct (N.eqb_spec b a) as [Eb|]; [subst b; rewrite E; cbn; auto|]. rewrite A1. auto.
Qed.
