(* Reading the world after each operation, and what all operations but writing
   to storage and installing code have in common. *)
From Coq Require Import NArith Nnat.
From Verif Require Import Lib.Base Lib.Bytes Evm.Words Evm.World Evm.Memory Evm.Table Evm.Interp Evm.MemoryProofs.
Open Scope N_scope.

Lemma upd_same {A} (f : N -> A) k v : upd f k v k = v.
Proof. unfold upd. now rewrite N.eqb_refl. Qed.
Lemma upd_other {A} (f : N -> A) k v x : x <> k -> upd f k v x = f x.
Proof. unfold upd. intros. destruct (N.eqb_spec x k); [contradiction|reflexivity]. Qed.

Section World.
Variable keccak : bytes -> N.
Variable committed : N -> N -> N.
Let add_balance := add_balance keccak committed.
Let set_nonce := set_nonce keccak committed.
Let set_code := set_code keccak committed.
Let set_state := set_state keccak committed.
Let create_account := create_account keccak committed.
Let transfer := transfer keccak committed.
Let here := here keccak committed.

(* a slot the transaction has emptied *)
Definition cleared (w : world) (p : N * N) : Prop :=
  exist w (fst p) = true /\ committed (fst p) (snd p) <> 0 /\ state w (fst p) (snd p) = 0.

(* neither storage written nor code installed nor anything forgotten *)
Record mild (w w' : world) : Prop := {
  mild_refund : w_refund w' = w_refund w;
  mild_exist : forall a, exist w a = true -> exist w' a = true;
  mild_addr : forall a, w_addr w a = true -> w_addr w' a = true;
  mild_cleared : forall p, cleared w' p -> cleared w p;
  mild_code : forall a, code w' a = code w a \/ code w' a = []
}.

Lemma mild_refl w : mild w w.
Proof. constructor; auto. Qed.
Lemma mild_trans w1 w2 w3 : mild w1 w2 -> mild w2 w3 -> mild w1 w3.
Proof.
  intros [A1 B1 C1 D1 E1] [A2 B2 C2 D2 E2]. constructor; auto; [congruence|].
  intros a. destruct (E1 a), (E2 a); [left; congruence|right; congruence|right; congruence|right; congruence].
Qed.

(* an account replaced by one with the same storage and the same or no code *)
Lemma mild_set_acct w a x :
  (forall k, x_stor x k = x_stor (here w a) k \/ x_stor x k = committed a k) ->
  x_code x = code w a \/ x_code x = [] ->
  mild w (set_acct w a x).
Proof.
  intros S C. constructor; cbn; auto.
  - intros b. unfold exist. cbn. unfold upd. destruct (b =? a); auto.
  - intros [b k] (X & Y & Z). cbn in *. unfold exist, state in *. cbn in *. unfold upd in *.
    unfold cleared, exist, state. cbn. destruct (N.eqb_spec b a) as [->|]; [|auto].
    assert (P : x_stor (here w a) k = 0).
    { destruct (S k) as [E|E]; rewrite E in Z; [exact Z|contradiction]. }
    unfold here, World.here in P. destruct (w_acct w a) as [y|]; [auto|cbn in P; contradiction].
  - intros b. unfold code, set_acct. cbn. unfold upd. destruct (N.eqb_spec b a) as [->|]; [|left; reflexivity].
    destruct C as [C|C]; [left|right]; exact C.
Qed.

Lemma here_code w a : x_code (here w a) = code w a.
Proof. unfold here, World.here, code. destruct (w_acct w a); reflexivity. Qed.

Lemma mild_add_balance w a v : mild w (add_balance w a v).
Proof. apply mild_set_acct; [left; reflexivity|left]. cbn. apply here_code. Qed.
Lemma mild_set_nonce w a n : mild w (set_nonce w a n).
Proof. apply mild_set_acct; [left; reflexivity|left]. cbn. apply here_code. Qed.
Lemma mild_create w a : mild w (create_account w a).
Proof. apply mild_set_acct; [right; reflexivity|right; reflexivity]. Qed.
Lemma mild_suicide w a : mild w (suicide w a).
Proof.
  unfold suicide. destruct (w_acct w a) as [x|] eqn:E; [|apply mild_refl].
  apply mild_set_acct; unfold here, World.here, code; rewrite E; [left; reflexivity|left; reflexivity].
Qed.
Lemma mild_transfer w a b v : mild w (transfer w a b v).
Proof. eapply mild_trans; [|apply mild_add_balance]. apply mild_add_balance. Qed.
Lemma mild_warm w a : mild w (warm w a).
Proof.
  constructor; cbn; auto. intros b. unfold upd. destruct (b =? a); auto.
Qed.
Lemma mild_slot w a k : mild w (warm_slot w a k).
Proof.
  constructor; cbn; auto. intros b. unfold upd. destruct (b =? a); auto.
Qed.
Lemma mild_log w l : mild w (add_log w l).
Proof. constructor; cbn; auto. Qed.

(* reading after writing *)
Lemma exist_add_balance w a v : exist (add_balance w a v) a = true.
Proof. unfold exist, add_balance, World.add_balance. cbn. now rewrite upd_same. Qed.
Lemma code_add_balance w a v b : code (add_balance w a v) b = code w b.
Proof.
  unfold code at 1, add_balance, World.add_balance. cbn. unfold upd. destruct (N.eqb_spec b a) as [->|]; [|reflexivity].
  cbn. apply here_code.
Qed.

(* the refund covers every emptied slot; codes are short strings of bytes *)
Definition world_ok (w : world) : Prop :=
  (forall a, is_bytes (code w a) /\ blen (code w a) < 2 ^ 63) /\
  (forall L, NoDup L -> Forall (cleared w) L -> 4800 * N.of_nat (length L) <= w_refund w).

Lemma mild_ok w w' : mild w w' -> world_ok w -> world_ok w'.
Proof.
  intros [R _ _ C D] [H1 H2]. split.
  - intros a. destruct (D a) as [E|E]; rewrite E; [apply H1|]. split; [constructor|reflexivity].
  - intros L ND F. rewrite R. apply H2; [exact ND|]. rewrite Forall_forall in *. auto.
Qed.

Lemma mild_set_code_ok w a c : is_bytes c -> blen c <= 24576 -> world_ok w -> world_ok (set_code w a c).
Proof.
  intros Bc Lc [H1 H2]. split.
  - intros b. unfold code, set_code, World.set_code. cbn. unfold upd. destruct (N.eqb_spec b a) as [->|].
    + cbn. split; [exact Bc|]. change (2 ^ 63) with 9223372036854775808. lia.
    + apply (H1 b).
  - intros L ND F. apply H2; [exact ND|]. rewrite Forall_forall in *. intros p Hp. specialize (F p Hp).
    destruct p as [b k]. unfold cleared, exist, state, set_code, World.set_code in *. cbn in *. unfold upd in *.
    destruct (N.eqb_spec b a) as [->|]; [|exact F]. cbn in F. destruct F as (_ & Y & Z).
    unfold World.here in Z. destruct (w_acct w a); [auto|]. cbn in Z. contradiction.
Qed.

(* ---- writing to storage ---- *)
Lemma refund_add w g : w_refund w + g < U64 -> w_refund (add_refund w g) = w_refund w + g.
Proof. intros H. cbn [add_refund w_refund]. rewrite N.mod_small; [reflexivity|exact H]. Qed.

Lemma pair_dec (p q : N * N) : {p = q} + {p <> q}.
Proof. decide equality; apply N.eq_dec. Qed.

Lemma nodup_remove (l : list (N * N)) p : NoDup l -> NoDup (remove pair_dec p l).
Proof.
  induction 1 as [|x l H ND IH]; cbn; [constructor|]. destruct (pair_dec p x); [exact IH|].
  constructor; [|exact IH]. intros X. apply in_remove in X. tauto.
Qed.
Lemma remove_len (l : list (N * N)) p : NoDup l -> (length l <= S (length (remove pair_dec p l)))%nat.
Proof.
  induction 1 as [|x l H ND IH]; cbn; [lia|]. destruct (pair_dec p x) as [<-|]; cbn; [|lia].
  rewrite notin_remove by exact H. lia.
Qed.

(* everything the gas function of SSTORE leaves alone *)
Lemma sstore_gas_frame s k v w c w1 : sstore_gas committed s k v w = Ok (c, w1) ->
  w_acct w1 = w_acct w /\ w_logs w1 = w_logs w /\ (forall a, w_addr w a = true -> w_addr w1 a = true).
Proof.
  assert (A : forall w x, w_acct (add_refund w x) = w_acct w /\ w_logs (add_refund w x) = w_logs w /\ w_addr (add_refund w x) = w_addr w)
    by (repeat split).
  assert (Su : forall w x w', sub_refund w x = Ok w' -> w_acct w' = w_acct w /\ w_logs w' = w_logs w /\ w_addr w' = w_addr w).
  { intros u x u'. unfold sub_refund. destruct (_ <? _); [discriminate|]. intros [= <-]. repeat split. }
  unfold sstore_gas. destruct (if w_slot w s k then _ else _) as [[cost u]| |] eqn:E; cbn [rbind]; try discriminate.
  assert (U : w_acct u = w_acct w /\ w_logs u = w_logs w /\ (forall a, w_addr w a = true -> w_addr u a = true)).
  { destruct (w_slot w s k); [injection E as _ <-; auto|]. destruct (w_addr w s); [|discriminate]. injection E as _ <-.
    cbn. split; [reflexivity|]. split; [reflexivity|]. intros a. unfold upd. destruct (a =? s); auto. }
  destruct (_ =? v); [intros H; assert (w1 = u) by congruence; subst; exact U|].
  destruct (_ =? state w s k).
  - destruct (_ =? 0); [intros H; assert (w1 = u) by congruence; subst; exact U|].
    destruct (v =? 0); intros H.
    + assert (w1 = add_refund u 4800) by congruence. subst w1. destruct (A u 4800) as (-> & -> & ->). exact U.
    + assert (w1 = u) by congruence. subst. exact U.
  - destruct (if negb _ then _ else _) as [u2| |] eqn:E2; cbn [rbind]; try discriminate.
    assert (U2 : w_acct u2 = w_acct u /\ w_logs u2 = w_logs u /\ w_addr u2 = w_addr u).
    { destruct (negb _); [|injection E2 as <-; auto]. destruct (_ =? 0); [now apply Su in E2|].
      injection E2 as <-. destruct (_ =? 0); auto. }
    destruct U2 as (P & Q & R). intros H.
    assert (w1 = (if committed_state committed u s k =? v then add_refund u2 (if committed_state committed u s k =? 0 then 19900 else 2800) else u2)) by congruence.
    subst w1. destruct (_ =? v); cbn [add_refund w_acct w_logs w_addr]; rewrite P, Q, R; exact U.
Qed.

(* the refund after SSTORE: never more than 199 per gas paid, and always enough for the slots that are empty now *)
Lemma sstore_ok s k v w : world_ok w -> exist w s = true -> w_addr w s = true -> w_refund w + 19900 < U64 ->
  exists c w1, sstore_gas committed s k v w = Ok (c, w1) /\ w_refund w1 <= w_refund w + 199 * c /\
    world_ok (set_state w1 s k v).
Proof.
  intros [Wc Wr] Ex Ad Rf. rewrite U64_val in Rf.
  assert (Fr := fun c w1 => sstore_gas_frame s k v w c w1).
  assert (Code : forall c w1, sstore_gas committed s k v w = Ok (c, w1) -> forall a, code (set_state w1 s k v) a = code w a).
  { intros c w1 E a. destruct (Fr c w1 E) as (P & _). unfold code, set_state, World.set_state. cbn. unfold upd.
    destruct (N.eqb_spec a s) as [->|]; [|rewrite P; reflexivity]. cbn. unfold World.here. rewrite P.
    destruct (w_acct w s); reflexivity. }
  (* the slots emptied afterwards *)
  assert (Cl : forall c w1, sstore_gas committed s k v w = Ok (c, w1) -> forall p, cleared (set_state w1 s k v) p ->
     (p <> (s, k) /\ cleared w p) \/ (p = (s, k) /\ v = 0 /\ committed s k <> 0)).
  { intros c w1 E [b j] (X & Y & Z). cbn in X, Y, Z. destruct (Fr c w1 E) as (P & _).
    unfold exist, state, set_state, World.set_state in X, Z. cbn in X, Z. unfold upd in X, Z.
    destruct (N.eqb_spec b s) as [->|Nb].
    - cbn in Z. unfold upd in Z. destruct (N.eqb_spec j k) as [->|Nj].
      + right. auto.
      + left. split; [congruence|]. unfold cleared. cbn. split; [exact Ex|]. split; [exact Y|].
        unfold World.here in Z. rewrite P in Z. unfold state. unfold exist in Ex. destruct (w_acct w s); [exact Z|discriminate].
    - left. split; [congruence|]. unfold cleared, exist, state. cbn. rewrite <- P. auto. }
  (* enough: unchanged or more when the slot was and stays as it was; and so on *)
  assert (Fin : forall c w1, sstore_gas committed s k v w = Ok (c, w1) ->
     (v = 0 -> committed s k <> 0 -> (cleared w (s, k) /\ w_refund w <= w_refund w1) \/ w_refund w + 4800 <= w_refund w1) ->
     (v <> 0 \/ committed s k = 0 -> w_refund w <= w_refund w1 \/ (cleared w (s, k) /\ w_refund w <= w_refund w1 + 4800)) ->
     world_ok (set_state w1 s k v)).
  { intros c w1 E H1 H2. split; [intros a; rewrite (Code c w1 E); apply Wc|].
    change (w_refund (set_state w1 s k v)) with (w_refund w1).
    intros L ND F.
    set (L' := remove pair_dec (s, k) L).
    assert (ND' : NoDup L') by (apply nodup_remove, ND).
    assert (F' : Forall (cleared w) L').
    { apply Forall_forall. intros p Hp. apply in_remove in Hp. destruct Hp as [Hp Ne].
      rewrite Forall_forall in F. destruct (Cl c w1 E p (F p Hp)) as [[_ X]|[X _]]; [exact X|contradiction]. }
    assert (A := Wr L' ND' F').
    assert (Len := remove_len L (s, k) ND). fold L' in Len.
    assert (NotIn : ~ In (s, k) L -> length L = length L') by (intros X; unfold L'; rewrite notin_remove by exact X; reflexivity).
    assert (Add : cleared w (s, k) -> 4800 * N.of_nat (length L' + 1) <= w_refund w).
    { intros X. assert (Y := Wr ((s, k) :: L')). cbn [length] in Y. rewrite Nat.add_1_r. apply Y.
      - constructor; [|exact ND']. unfold L'. apply remove_In.
      - constructor; assumption. }
    destruct (N.eq_dec v 0) as [Hv|Hv]; [destruct (N.eq_dec (committed s k) 0) as [Hc|Hc]|].
    - assert (NI : ~ In (s, k) L).
      { intros X. rewrite Forall_forall in F. destruct (F _ X) as (_ & Y & _). cbn in Y. contradiction. }
      rewrite (NotIn NI). destruct (H2 (or_intror Hc)) as [G|[G G']]; [lia|]. specialize (Add G). lia.
    - destruct (H1 Hv Hc) as [[G G']|G]; [specialize (Add G); lia|lia].
    - assert (NI : ~ In (s, k) L).
      { intros X. rewrite Forall_forall in F. destruct (Cl c w1 E _ (F _ X)) as [[Y _]|[_ [Y _]]]; [now apply Y|contradiction]. }
      rewrite (NotIn NI). destruct (H2 (or_introl Hv)) as [G|[G G']]; [lia|]. specialize (Add G). lia. }
  unfold sstore_gas in *.
  set (first := if w_slot w s k then Ok (0, w) else if w_addr w s then Ok (cold_sload, warm_slot w s k) else Panic) in *.
  assert (First : exists cost u, first = Ok (cost, u) /\ w_refund u = w_refund w /\ w_acct u = w_acct w).
  { unfold first. rewrite Ad. destruct (w_slot w s k); do 2 eexists; (split; [reflexivity|]; split; reflexivity). }
  destruct First as (cost & u & -> & Ru & Au). cbn [rbind] in *.
  assert (Ex' := Ex). unfold exist in Ex'.
  assert (Or : committed_state committed u s k = committed s k).
  { unfold committed_state. rewrite Au. destruct (w_acct w s); [reflexivity|discriminate]. }
  rewrite Or in *. set (cur := state w s k) in *. set (orig := committed s k) in *.
  assert (Clr : orig <> 0 -> cur = 0 -> cleared w (s, k)) by (intros; split; [exact Ex|]; split; assumption).
  assert (Pay : orig <> 0 -> cur = 0 -> 4800 <= w_refund w).
  { intros X Y. assert (Z := Wr [(s, k)]). cbn [length] in Z. apply Z; [repeat constructor; auto|].
    constructor; [auto|constructor]. }
  unfold warm_read, sub_refund in *. rewrite Ru in *.
  destruct (N.eqb_spec cur v) as [Ecv|Ncv].
  { do 2 eexists. split; [reflexivity|]. split; [lia|]. eapply Fin; [reflexivity| |]; rewrite Ru.
    - intros -> Ho. left. split; [apply Clr; assumption|lia].
    - intros _. left. lia. }
  destruct (N.eqb_spec orig cur) as [Eoc|Noc].
  { destruct (N.eqb_spec orig 0) as [Eo|No].
    - do 2 eexists. split; [reflexivity|]. split; [lia|]. eapply Fin; [reflexivity| |]; rewrite Ru.
      + intros _ Ho. contradiction.
      + intros _. left. lia.
    - destruct (N.eqb_spec v 0) as [Ev|Nv].
      + do 2 eexists. split; [reflexivity|]. rewrite refund_add by (rewrite Ru, U64_val; lia). rewrite Ru.
        split; [lia|]. eapply Fin; [reflexivity| |]; rewrite refund_add by (rewrite Ru, U64_val; lia); rewrite Ru.
        * intros _ _. right. lia.
        * intros _. left. lia.
      + do 2 eexists. split; [reflexivity|]. split; [lia|]. eapply Fin; [reflexivity| |]; rewrite Ru.
        * intros X. contradiction.
        * intros _. left. lia. }
  destruct (N.eqb_spec orig 0) as [Eo|No]; cbn [negb rbind] in *.
  { destruct (N.eqb_spec orig v) as [Eov|Nov].
    - do 2 eexists. split; [reflexivity|]. rewrite refund_add by (rewrite Ru, U64_val; lia). rewrite Ru.
      split; [lia|]. eapply Fin; [reflexivity| |]; rewrite refund_add by (rewrite Ru, U64_val; lia); rewrite Ru.
      + intros _ X. contradiction.
      + intros _. left. lia.
    - do 2 eexists. split; [reflexivity|]. split; [lia|]. eapply Fin; [reflexivity| |]; rewrite Ru.
      + intros _ X. contradiction.
      + intros _. left. lia. }
  destruct (N.eqb_spec cur 0) as [Ec|Nc].
  { specialize (Pay No Ec). destruct (N.ltb_spec (w_refund w) 4800); [lia|]. cbn [rbind] in *.
    set (u2 := World (w_acct u) (w_refund w - 4800) (w_logs u) (w_addr u) (w_slot u)) in *.
    assert (R2 : w_refund u2 = w_refund w - 4800) by reflexivity.
    destruct (N.eqb_spec orig v) as [Eov|Nov].
    - do 2 eexists. split; [reflexivity|]. rewrite refund_add by (rewrite R2, U64_val; lia). rewrite R2.
      split; [lia|]. eapply Fin; [reflexivity| |]; rewrite refund_add by (rewrite R2, U64_val; lia); rewrite R2.
      + intros X. congruence.
      + intros _. right. split; [auto|lia].
    - do 2 eexists. split; [reflexivity|]. rewrite R2. split; [lia|]. eapply Fin; [reflexivity| |]; rewrite R2.
      + intros X. congruence.
      + intros _. right. split; [auto|lia]. }
  cbn [rbind] in *. destruct (N.eqb_spec v 0) as [Ev|Nv].
  { destruct (N.eqb_spec orig v) as [Eov|Nov]; [congruence|].
    do 2 eexists. split; [reflexivity|]. rewrite refund_add by (rewrite Ru, U64_val; lia). rewrite Ru.
    split; [lia|]. eapply Fin; [reflexivity| |]; rewrite refund_add by (rewrite Ru, U64_val; lia); rewrite Ru.
    - intros _ _. right. lia.
    - intros _. left. lia. }
  destruct (N.eqb_spec orig v) as [Eov|Nov].
  - do 2 eexists. split; [reflexivity|]. rewrite refund_add by (rewrite Ru, U64_val; lia). rewrite Ru.
    split; [lia|]. eapply Fin; [reflexivity| |]; rewrite refund_add by (rewrite Ru, U64_val; lia); rewrite Ru.
    + intros X. contradiction.
    + intros _. left. lia.
  - do 2 eexists. split; [reflexivity|]. split; [lia|]. eapply Fin; [reflexivity| |]; rewrite Ru.
    + intros X. contradiction.
    + intros _. left. lia.
Qed.
End World.
