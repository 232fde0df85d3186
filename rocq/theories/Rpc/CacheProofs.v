From Coq Require Import String Ascii NArith Nnat.
From Verif Require Import Lib.Base Rpc.Cache Rpc.CacheSpec.
Open Scope Z_scope.

(* ---------------- equality tests ---------------- *)
Lemma list_eqb_true {A} (eqb : A -> A -> bool) (H : forall x y, eqb x y = true <-> x = y) :
  forall a b, list_eqb eqb a b = true <-> a = b.
Proof.
  induction a as [|x a IH]; destruct b as [|y b]; cbn [list_eqb]; try (split; congruence).
  rewrite andb_true_iff, H, IH. split; [intros [-> ->]; reflexivity|intro E; injection E; auto].
Qed.
Lemma uchar_eqb_true a b : uchar_eqb a b = true <-> a = b.
Proof. destruct a, b; cbn [uchar_eqb]; rewrite ?N.eqb_eq; split; congruence. Qed.
Lemma key_eqb_true a b : key_eqb a b = true <-> a = b.
Proof.
  destruct a, b; cbn [key_eqb]; try (split; congruence).
  - rewrite (list_eqb_true N.eqb N.eqb_eq). split; congruence.
  - rewrite (list_eqb_true uchar_eqb uchar_eqb_true). split; congruence.
Qed.
Lemma key_eqb_refl a : key_eqb a a = true.
Proof. apply key_eqb_true. reflexivity. Qed.
Lemma key_eqb_false a b : key_eqb a b = false <-> a <> b.
Proof. rewrite <- key_eqb_true. destruct (key_eqb a b); split; congruence. Qed.
Lemma key_dec (a b : key) : {a = b} + {a <> b}.
Proof. destruct (key_eqb a b) eqn:E; [left; apply key_eqb_true; exact E|right; apply key_eqb_false; exact E]. Qed.

(* ---------------- keys ---------------- *)
Lemma hex_digit_inj a b : (a < 16)%N -> (b < 16)%N -> hex_digit a = hex_digit b -> a = b.
Proof. unfold hex_digit. destruct (N.ltb_spec a 10), (N.ltb_spec b 10); lia. Qed.

Inductive esc_kind : N -> list N -> Prop :=
| ek_quote n : (n = 34 \/ n = 92)%N -> esc_kind n [92; n]%N
| ek_short n x : In (n, x) [(10, 110); (13, 114); (9, 116); (8, 98); (12, 102)]%N -> esc_kind n [92; x]%N
| ek_u n : (n < 32 \/ n = 60 \/ n = 62 \/ n = 38)%N ->
    esc_kind n [92; 117; 48; 48; hex_digit (n / 16); hex_digit (n mod 16)]%N
| ek_sep n : (n = 8232 \/ n = 8233)%N -> esc_kind n [92; 117; 50; 48; 50; hex_digit (n mod 16)]%N
| ek_plain n : (n <> 34 /\ n <> 92)%N -> esc_kind n [n].

Lemma esc_kinds n : esc_kind n (esc (Rune n)).
Proof.
  cbn [esc].
  destruct ((n =? 34) || (n =? 92))%N eqn:E1; [constructor; lia|].
  destruct (N.eqb_spec n 10) as [->|]; [apply ek_short; cbn; auto 9|].
  destruct (N.eqb_spec n 13) as [->|]; [apply ek_short; cbn; auto 9|].
  destruct (N.eqb_spec n 9) as [->|]; [apply ek_short; cbn; auto 9|].
  destruct (N.eqb_spec n 8) as [->|]; [apply ek_short; cbn; auto 9|].
  destruct (N.eqb_spec n 12) as [->|]; [apply ek_short; cbn; auto 9|].
  destruct ((n <? 32) || (n =? 60) || (n =? 62) || (n =? 38))%N eqn:E2; [constructor; lia|].
  destruct ((n =? 8232) || (n =? 8233))%N eqn:E3; [constructor; lia|].
  constructor. lia.
Qed.

Lemma div16 n : (n < 256 -> n / 16 < 16)%N.
Proof. intro H. apply N.div_lt_upper_bound; lia. Qed.
Lemma mod16 n : (n mod 16 < 16)%N.
Proof. apply N.mod_lt. lia. Qed.

Lemma esc_first n : exists x l, esc (Rune n) = x :: l /\ x <> 34%N.
Proof.
  destruct (esc_kinds n) as [m [E|E]|m x I|m H|m H|m H]; subst; eexists _, _; (split; [reflexivity|]); lia.
Qed.

Lemma short_cases n x : In (n, x) [(10, 110); (13, 114); (9, 116); (8, 98); (12, 102)]%N ->
  (n = 10 /\ x = 110 \/ n = 13 /\ x = 114 \/ n = 9 /\ x = 116 \/ n = 8 /\ x = 98 \/ n = 12 /\ x = 102)%N.
Proof.
  cbn [In]. intros [E|[E|[E|[E|[E|[]]]]]]; apply pair_equal_spec in E; lia.
Qed.

Lemma esc_inj n n' x y : esc (Rune n) ++ x = esc (Rune n') ++ y -> n = n' /\ x = y.
Proof.
  destruct (esc_kinds n) as [a H|a z H|a H|a H|a H], (esc_kinds n') as [b G|b w G|b G|b G|b G];
    try apply short_cases in H; try apply short_cases in G;
    cbn [app]; intro E; injection E as E; intros; subst; try (split; [lia|congruence]); try lia; try congruence.
  - split; [|congruence].
    assert (a / 16 < 16)%N by (apply div16; lia). assert (b / 16 < 16)%N by (apply div16; lia).
    pose proof (mod16 a). pose proof (mod16 b).
    apply hex_digit_inj in E; [|assumption|assumption].
    match goal with K : hex_digit (a mod 16) = _ |- _ => apply hex_digit_inj in K; [|assumption|assumption] end.
    rewrite (N.div_mod a 16), (N.div_mod b 16) by lia. congruence.
  - split; [|congruence].
    apply hex_digit_inj in E; [|apply mod16|apply mod16].
    destruct H as [->| ->], G as [->| ->]; cbn in E; try reflexivity; discriminate E.
Qed.

Lemma quoted_body_inj t t' r r' : Forall plain_char t -> Forall plain_char t' ->
  flat_map esc t ++ 34%N :: r = flat_map esc t' ++ 34%N :: r' -> t = t' /\ r = r'.
Proof.
  intro P. revert t'. induction P as [|c t Pc P IH]; intros t' P' E.
  - destruct t' as [|c' t']; cbn [flat_map app] in E; [injection E; auto|].
    pose proof (Forall_inv P') as Q. destruct c' as [n|n]; [|destruct Q].
    destruct (esc_first n) as (x & l & Ex & D). rewrite Ex in E. cbn [app] in E. injection E as E. congruence.
  - destruct c as [n|]; [|destruct Pc]. cbn [flat_map] in E.
    destruct t' as [|c' t'].
    + destruct (esc_first n) as (x & l & Ex & D). rewrite Ex in E. cbn [flat_map app] in E. injection E as E. congruence.
    + pose proof (Forall_inv P') as Q. destruct c' as [n'|]; [|destruct Q]. cbn [flat_map] in E.
      rewrite <- !app_assoc in E. apply esc_inj in E. destruct E as [-> E].
      apply IH in E; [|exact (Forall_inv_tail P')]. destruct E as [-> ->]. auto.
Qed.

Lemma quoted_inj t t' r r' : Forall plain_char t -> Forall plain_char t' ->
  quoted t ++ r = quoted t' ++ r' -> t = t' /\ r = r'.
Proof.
  intros P P' E. unfold quoted in E. cbn [app] in E. injection E as E. rewrite <- !app_assoc in E.
  cbn [app] in E. apply quoted_body_inj; assumption.
Qed.

(* decimal digits *)
Definition dstep (a d : N) : N := (a * 10 + (d - 48))%N.
Lemma digits_aux_val f : forall n acc, (n < 2 ^ N.of_nat f)%N ->
  fold_left dstep (digits_aux f n acc) 0%N = fold_left dstep acc n.
Proof.
  induction f as [|f IH]; intros n acc H.
  - cbn in H. assert (n = 0)%N by lia. subst. reflexivity.
  - cbn [digits_aux]. cbv zeta.
    assert (D : (48 + n mod 10 - 48 = n mod 10)%N) by lia.
    destruct (N.ltb_spec n 10) as [L|L].
    + cbn [fold_left]. f_equal. unfold dstep. rewrite D, N.mod_small by lia. lia.
    + rewrite IH.
      * cbn [fold_left]. f_equal. unfold dstep. rewrite D. rewrite (N.div_mod n 10) at 3 by lia. lia.
      * rewrite Nat2N.inj_succ, N.pow_succ_r in H by lia.
        apply N.div_lt_upper_bound; lia.
Qed.
Lemma digits_val n : fold_left dstep (digits n) 0%N = n.
Proof.
  unfold digits. rewrite digits_aux_val; [reflexivity|].
  rewrite Nat2N.inj_succ, N2Nat.id. destruct (N.eq_dec n 0) as [->|Z0]; [cbn; lia|].
  apply N.log2_spec. lia.
Qed.
Definition is_digit (d : N) : Prop := (48 <= d <= 57)%N.
Lemma digits_aux_digits f : forall n acc, Forall is_digit acc -> Forall is_digit (digits_aux f n acc).
Proof.
  induction f as [|f IH]; intros n acc H; [exact H|]. cbn [digits_aux]. cbv zeta.
  assert (G : Forall is_digit ((48 + n mod 10)%N :: acc)).
  { constructor; [|exact H]. unfold is_digit. pose proof (N.mod_lt n 10). lia. }
  destruct (n <? 10)%N; [exact G|apply IH; exact G].
Qed.
Lemma digits_digits n : Forall is_digit (digits n).
Proof. apply digits_aux_digits. constructor. Qed.
Lemma digits_aux_ne f : forall n acc, acc <> [] -> digits_aux f n acc <> [].
Proof.
  induction f as [|f IH]; intros n acc H; [exact H|]. cbn [digits_aux]. cbv zeta.
  destruct (n <? 10)%N; [congruence|apply IH; congruence].
Qed.
Lemma digits_ne n : digits n <> [].
Proof.
  unfold digits. cbn [digits_aux]. cbv zeta. destruct (n <? 10)%N; [congruence|apply digits_aux_ne; congruence].
Qed.

Lemma span_inj (l l' : list N) c c' r r' : Forall is_digit l -> Forall is_digit l' ->
  ~ is_digit c -> ~ is_digit c' -> l ++ c :: r = l' ++ c' :: r' -> l = l' /\ c :: r = c' :: r'.
Proof.
  intro P. revert l'. induction P as [|x l Px P IH]; intros l' P' C C' E.
  - destruct l' as [|x' l']; [auto|]. cbn [app] in E. injection E as E E2. pose proof (Forall_inv P'). congruence.
  - destruct l' as [|x' l']; cbn [app] in E; injection E as E E2; [congruence|].
    apply IH in E2; [|exact (Forall_inv_tail P')|exact C|exact C']. destruct E2 as [-> ->]. subst. auto.
Qed.

Lemma sep_nodigit c : c = 44%N \/ c = 93%N -> ~ is_digit c.
Proof. unfold is_digit. intros [->| ->]; lia. Qed.

Lemma enc_param_inj p p' a a' c c' r r' : plain_param p -> plain_param p' ->
  enc_param p = Some a -> enc_param p' = Some a' ->
  (c = 44 \/ c = 93)%N -> (c' = 44 \/ c' = 93)%N ->
  a ++ c :: r = a' ++ c' :: r' -> p = p' /\ c = c' /\ r = r'.
Proof.
  intros P P' E E' C C' H. destruct p as [t|n|t], p' as [t'|n'|t']; try contradiction P; try contradiction P';
    cbn [enc_param] in E, E'; injection E as <-; injection E' as <-.
  - apply quoted_inj in H; [|assumption|assumption]. destruct H as [-> H]. injection H; auto.
  - exfalso. unfold quoted in H. cbn [app] in H. pose proof (digits_digits n') as D.
    destruct (digits n') as [|d l] eqn:En; [exact (digits_ne n' En)|].
    cbn [app] in H. injection H as H _. pose proof (Forall_inv D) as Q. unfold is_digit in Q. lia.
  - exfalso. unfold quoted in H. cbn [app] in H. pose proof (digits_digits n) as D.
    destruct (digits n) as [|d l] eqn:En; [exact (digits_ne n En)|].
    cbn [app] in H. injection H as H _. pose proof (Forall_inv D) as Q. unfold is_digit in Q. lia.
  - apply span_inj in H; [|apply digits_digits|apply digits_digits|apply sep_nodigit; assumption|apply sep_nodigit; assumption].
    destruct H as [H1 H2]. injection H2. intros. rewrite <- (digits_val n), <- (digits_val n'), H1. auto.
Qed.

Lemma enc_param_first p a : plain_param p -> enc_param p = Some a -> exists x l, a = x :: l /\ x <> 93%N /\ x <> 44%N.
Proof.
  destruct p as [t|n|t]; intros P E; [| |destruct P]; cbn [enc_param] in E; injection E as <-.
  - eexists _, _. split; [reflexivity|lia].
  - pose proof (digits_digits n) as D. destruct (digits n) as [|d l] eqn:En; [destruct (digits_ne n En)|].
    eexists _, _. split; [reflexivity|]. pose proof (Forall_inv D) as Q. unfold is_digit in Q. lia.
Qed.

Lemma enc_params_inj ps : forall ps' b b' r r', plain ps -> plain ps' ->
  enc_params ps = Some b -> enc_params ps' = Some b' -> b ++ 93%N :: r = b' ++ 93%N :: r' -> ps = ps' /\ r = r'.
Proof.
  assert (CONS : forall p q qs b, enc_params (p :: q :: qs) = Some b ->
            exists a c, enc_param p = Some a /\ enc_params (q :: qs) = Some c /\ b = a ++ 44%N :: c).
  { intros p q qs b E. cbn [enc_params] in E. destruct (enc_param p) as [a|]; [|discriminate E].
    change (match enc_params (q :: qs) with Some b0 => Some (a ++ 44%N :: b0) | None => None end = Some b) in E.
    destruct (enc_params (q :: qs)) as [c|]; [|discriminate E]. injection E as <-. eauto. }
  assert (NIL : forall p qs b r r', plain (p :: qs) -> enc_params (p :: qs) = Some b -> 93%N :: r = b ++ 93%N :: r' -> False).
  { intros p qs b r r' P E H.
    assert (exists a l, enc_param p = Some a /\ b = a ++ l) as (a & l & Ea & ->).
    { destruct qs as [|q qs]; [exists b, []; rewrite app_nil_r; auto|].
      apply CONS in E. destruct E as (a & c & Ea & _ & ->). eauto. }
    destruct (enc_param_first p a (Forall_inv P) Ea) as (x & l' & -> & D1 & _).
    cbn [app] in H. injection H as H. congruence. }
  induction ps as [|p ps IH]; intros ps' b b' r r' P P' E E' H.
  - cbn [enc_params] in E. injection E as <-. destruct ps' as [|p' ps'].
    + cbn [enc_params] in E'. injection E' as <-. cbn [app] in H. injection H; auto.
    + exfalso. exact (NIL _ _ _ _ _ P' E' H).
  - destruct ps' as [|p' ps'].
    { exfalso. cbn [enc_params] in E'. injection E' as <-. symmetry in H. exact (NIL _ _ _ _ _ P E H). }
    pose proof (Forall_inv P) as P1. pose proof (Forall_inv P') as P1'.
    destruct ps as [|q ps], ps' as [|q' ps'].
    + destruct (enc_param_inj p p' b b' 93%N 93%N r r' P1 P1' E E') as (-> & _ & ->); auto.
    + exfalso. apply CONS in E'. destruct E' as (a' & c' & Ea' & _ & ->). rewrite <- app_assoc in H. cbn [app] in H.
      edestruct (enc_param_inj p p' b a' 93%N 44%N) as (_ & X & _); [exact P1|exact P1'|exact E|exact Ea'|auto|auto|exact H|]. discriminate X.
    + exfalso. apply CONS in E. destruct E as (a & c & Ea & _ & ->). rewrite <- app_assoc in H. cbn [app] in H.
      edestruct (enc_param_inj p p' a b' 44%N 93%N) as (_ & X & _); [exact P1|exact P1'|exact Ea|exact E'|auto|auto|exact H|]. discriminate X.
    + apply CONS in E. destruct E as (a & c & Ea & Ec & ->). apply CONS in E'. destruct E' as (a' & c' & Ea' & Ec' & ->).
      rewrite <- !app_assoc in H. cbn [app] in H.
      edestruct (enc_param_inj p p' a a' 44%N 44%N) as (-> & _ & X); [exact P1|exact P1'|exact Ea|exact Ea'|auto|auto|exact H|].
      destruct (IH (q' :: ps') c c' r r' (Forall_inv_tail P) (Forall_inv_tail P') Ec Ec' X) as [-> ->]. auto.
Qed.

Lemma enc_params_plain ps : plain ps -> exists b, enc_params ps = Some b.
Proof.
  induction 1 as [|p ps Pp P [b IH]]; [eexists; reflexivity|].
  assert (exists a, enc_param p = Some a) as [a Ea] by (destruct p; [| |destruct Pp]; eexists; reflexivity).
  destruct ps as [|q qs]; [exists a; exact Ea|]. exists (a ++ 44%N :: b).
  change (match enc_param p with Some a => match enc_params (q :: qs) with Some b => Some (a ++ 44%N :: b) | None => None end | None => None end = Some (a ++ 44%N :: b)).
  rewrite Ea, IH. reflexivity.
Qed.

Lemma ascii_text_plain m : Forall plain_char (ascii_text m).
Proof. induction m; cbn [ascii_text]; constructor; [exact I|assumption]. Qed.
Lemma ascii_text_inj m : forall m', ascii_text m = ascii_text m' -> m = m'.
Proof.
  induction m as [|a m IH]; intros [|a' m'] E; cbn [ascii_text] in E; try discriminate E; [reflexivity|].
  injection E as E1 E2. f_equal; [|apply IH; exact E2].
  rewrite <- (ascii_N_embedding a), <- (ascii_N_embedding a'). congruence.
Qed.

Lemma json_inj m ps m' ps' j : plain ps -> plain ps' -> json m ps = Some j -> json m' ps' = Some j -> m = m' /\ ps = ps'.
Proof.
  unfold json. intros P P' E E'.
  destruct (enc_params ps) as [b|] eqn:Eb; [|discriminate E]. destruct (enc_params ps') as [b'|] eqn:Eb'; [|discriminate E'].
  assert (H : codes "{""method"":" ++ quoted (ascii_text m) ++ codes ",""params"":[" ++ b ++ codes "]}" =
              codes "{""method"":" ++ quoted (ascii_text m') ++ codes ",""params"":[" ++ b' ++ codes "]}") by congruence.
  clear E E'. apply app_inv_head in H. apply quoted_inj in H; [|apply ascii_text_plain|apply ascii_text_plain].
  destruct H as [H1 H2]. apply ascii_text_inj in H1. apply app_inv_head in H2. split; [exact H1|].
  change (codes "]}") with (93%N :: [125%N]) in H2.
  destruct (enc_params_inj ps ps' b b' _ _ P P' Eb Eb' H2). assumption.
Qed.

Lemma gen_key_inj sha m ps m' ps' : plain ps -> plain ps' -> gen_key sha m ps = gen_key sha m' ps' ->
  (m = m' /\ ps = ps') \/ exists x y, x <> y /\ sha x = sha y.
Proof.
  intros P P' E. unfold gen_key in E.
  assert (exists j, json m ps = Some j) as [j Ej].
  { unfold json. destruct (enc_params_plain ps P) as [b ->]. eauto. }
  assert (exists j, json m' ps' = Some j) as [j' Ej'].
  { unfold json. destruct (enc_params_plain ps' P') as [b ->]. eauto. }
  rewrite Ej, Ej' in E. injection E as E.
  destruct (list_eq_dec N.eq_dec j j') as [<-|D]; [left; exact (json_inj _ _ _ _ _ P P' Ej Ej')|right; eauto].
Qed.

(* ---------------- the LRU store ---------------- *)
Section Lru.
Context {V : Type}.
Implicit Types l : list (key * entry V).

Lemma remove_in l k x : In x (lru_remove V l k) <-> In x l /\ fst x <> k.
Proof.
  induction l as [|[k' e] l IH]; cbn [lru_remove]; [cbn; tauto|].
  destruct (key_eqb k' k) eqn:E.
  - apply key_eqb_true in E. subst. rewrite IH. cbn [In]. split; [tauto|]. intros [[<-|H] D]; [destruct D; reflexivity|auto].
  - apply key_eqb_false in E. cbn [In]. rewrite IH. split; [intros [<-|H]; tauto|tauto].
Qed.
Lemma find_in l k e : lru_find V l k = Some e -> In (k, e) l.
Proof.
  induction l as [|[k' e'] l IH]; cbn [lru_find]; [discriminate|].
  destruct (key_eqb k' k) eqn:E; [|right; auto]. apply key_eqb_true in E. intro H. injection H as ->. left. congruence.
Qed.
Lemma find_none l k : lru_find V l k = None <-> ~ In k (map fst l).
Proof.
  induction l as [|[k' e'] l IH]; cbn [lru_find map In]; [tauto|]. cbn [fst].
  destruct (key_eqb k' k) eqn:E.
  - apply key_eqb_true in E. split; [discriminate|tauto].
  - apply key_eqb_false in E. rewrite IH. tauto.
Qed.
Lemma remove_keys l k x : In x (map fst (lru_remove V l k)) <-> In x (map fst l) /\ x <> k.
Proof.
  rewrite !in_map_iff. split.
  - intros (y & <- & H). apply remove_in in H. destruct H. eauto.
  - intros [(y & <- & H) D]. exists y. split; [reflexivity|]. apply remove_in. auto.
Qed.
Lemma remove_nodup l k : NoDup (map fst l) -> NoDup (map fst (lru_remove V l k)).
Proof.
  induction l as [|[k' e'] l IH]; cbn [lru_remove map]; [auto|]. intro H. inversion H as [|? ? N D]; subst.
  destruct (key_eqb k' k); [auto|]. cbn [map fst]. constructor; [|auto]. rewrite remove_keys. tauto.
Qed.
Lemma remove_absent l k : ~ In k (map fst l) -> lru_remove V l k = l.
Proof.
  induction l as [|[k' e'] l IH]; cbn [lru_remove map In fst]; [auto|]. intro H.
  destruct (key_eqb k' k) eqn:E; [apply key_eqb_true in E; tauto|]. rewrite IH; tauto.
Qed.
Lemma remove_app l l' k : lru_remove V (l ++ l') k = lru_remove V l k ++ lru_remove V l' k.
Proof.
  induction l as [|[k' e'] l IH]; cbn [lru_remove app]; [reflexivity|]. destruct (key_eqb k' k); cbn [app]; rewrite IH; reflexivity.
Qed.
Lemma remove_len l k : (length (lru_remove V l k) <= length l)%nat.
Proof. induction l as [|[k' e'] l IH]; cbn [lru_remove length]; [lia|]. destruct (key_eqb k' k); cbn [length]; lia. Qed.
Lemma remove_len_found l k e : lru_find V l k = Some e -> (S (length (lru_remove V l k)) <= length l)%nat.
Proof.
  induction l as [|[k' e'] l IH]; cbn [lru_remove lru_find length]; [discriminate|].
  destruct (key_eqb k' k); cbn [length]; intro H; [pose proof (remove_len l k); lia|]. apply IH in H. lia.
Qed.
Lemma find_app_notin l l' k : ~ In k (map fst l) -> lru_find V (l ++ l') k = lru_find V l' k.
Proof.
  induction l as [|[k' e'] l IH]; cbn [lru_find app map In fst]; [auto|]. intro H.
  destruct (key_eqb k' k) eqn:E; [apply key_eqb_true in E; tauto|]. apply IH. tauto.
Qed.
Lemma find_nodup l k e : NoDup (map fst l) -> In (k, e) l -> lru_find V l k = Some e.
Proof.
  induction l as [|[k' e'] l IH]; cbn [lru_find map In fst]; [tauto|]. intros N [E|H]; inversion N as [|? ? N1 N2]; subst.
  - injection E as -> ->. rewrite key_eqb_refl. reflexivity.
  - destruct (key_eqb k' k) eqn:E; [|auto]. apply key_eqb_true in E. subst. destruct N1. apply in_map_iff. exists (k, e). auto.
Qed.
Lemma in_firstn {A} n (l : list A) x : In x (firstn n l) -> In x l.
Proof. revert n. induction l as [|y l IH]; intros [|n]; cbn [firstn In]; try tauto. intros [H|H]; eauto. Qed.
Lemma nodup_firstn {A} n (l : list A) : NoDup l -> NoDup (firstn n l).
Proof.
  intro H. revert n. induction H as [|x l N D IH]; intros [|n]; cbn [firstn]; try constructor; [|apply IH].
  intro X. apply N. eapply in_firstn. exact X.
Qed.

Lemma cleanup_gen now (xs : list (key * entry V)) : forall done,
  NoDup (map fst (done ++ xs)) ->
  fold_left (clean_one V now) (rev (map fst xs)) (done ++ xs) =
  filter (fun s => negb (e_expires (snd s) <? now)) xs ++ done.
Proof.
  induction xs as [|[k e] xs IH] using rev_ind; intros done H.
  - rewrite app_nil_r. reflexivity.
  - rewrite map_app, rev_app_distr. cbn [map rev app fold_left fst].
    rewrite filter_app. cbn [filter snd].
    assert (N : ~ In k (map fst (done ++ xs))).
    { rewrite app_assoc, map_app in H. cbn [map fst] in H. apply NoDup_remove_2 in H. rewrite app_nil_r in H. exact H. }
    assert (H2 : NoDup (map fst (done ++ xs))).
    { rewrite app_assoc, map_app in H. cbn [map fst] in H. apply NoDup_remove_1 in H. rewrite app_nil_r in H. exact H. }
    assert (C : clean_one V now (done ++ xs ++ [(k, e)]) k = (if e_expires e <? now then done else (k, e) :: done) ++ xs).
    { unfold clean_one, lru_get. rewrite (app_assoc done xs). rewrite find_app_notin by exact N. cbn [lru_find]. rewrite key_eqb_refl.
      assert (R : lru_remove V ((done ++ xs) ++ [(k, e)]) k = done ++ xs).
      { rewrite remove_app, remove_absent by exact N. cbn [lru_remove]. rewrite key_eqb_refl. apply app_nil_r. }
      destruct (e_expires e <? now).
      - cbn [lru_remove]. rewrite key_eqb_refl, R. apply remove_absent. exact N.
      - rewrite R. reflexivity. }
    rewrite C. destruct (e_expires e <? now); cbn [negb].
    + rewrite IH by exact H2. rewrite app_nil_r. reflexivity.
    + rewrite IH.
      * rewrite <- app_assoc. reflexivity.
      * cbn [app map fst]. constructor; [exact N|exact H2].
Qed.
Lemma cleanup_filter now l : NoDup (map fst l) -> cleanup V now l = filter (fun s => negb (e_expires (snd s) <? now)) l.
Proof. intro H. unfold cleanup. etransitivity; [exact (cleanup_gen now l [] H)|apply app_nil_r]. Qed.

Lemma nodup_map_filter {A B} (f : A -> B) p (l : list A) : NoDup (map f l) -> NoDup (map f (filter p l)).
Proof.
  induction l as [|x l IH]; cbn [filter map]; [auto|]. intro H. inversion H as [|? ? N D]; subst.
  destruct (p x); [|auto]. cbn [map]. constructor; [|auto].
  intro I. apply N. apply in_map_iff in I. destruct I as (y & <- & Y). apply filter_In in Y. apply in_map. tauto.
Qed.
Lemma filter_len {A} (p : A -> bool) (l : list A) : (length (filter p l) <= length l)%nat.
Proof. induction l as [|x l IH]; cbn [filter length]; [lia|]. destruct (p x); cbn [length]; lia. Qed.

(* lookup *)
Lemma get_block_spec now l k l' r : get_block V now l k = (l', r) ->
  (exists e, lru_find V l k = Some e /\ now <= e_expires e /\ r = Some (e_data e) /\ l' = (k, e) :: lru_remove V l k) \/
  (r = None /\ l' = lru_remove V l k /\ forall e, lru_find V l k = Some e -> e_expires e < now).
Proof.
  unfold get_block, lru_get. destruct (lru_find V l k) as [e|] eqn:E.
  - destruct (Z.ltb_spec (e_expires e) now) as [L|L]; intro H; injection H as <- <-.
    + right. split; [reflexivity|]. split.
      * cbn [lru_remove]. rewrite key_eqb_refl. apply remove_absent. rewrite remove_keys. tauto.
      * intros e' X. congruence.
    + left. exists e. auto.
  - intro H. injection H as <- <-. right. split; [reflexivity|]. split; [|congruence].
    symmetry. apply remove_absent. apply find_none. exact E.
Qed.
End Lru.

(* ---------------- histories ---------------- *)
Lemma since_clear_app {V} (l : list (obs V)) o :
  since_clear V (l ++ [o]) = match o with OClear _ => [] | _ => since_clear V l ++ [o] end.
Proof. unfold since_clear. rewrite fold_left_app. reflexivity. Qed.
Lemma since_clear_mono {V} (l o : list (obs V)) x : ~ In (OClear V) o -> In x (since_clear V l) -> In x (since_clear V (l ++ o)).
Proof.
  induction o as [|y o IH] using rev_ind; intros N H; [rewrite app_nil_r; exact H|].
  rewrite app_assoc, since_clear_app.
  assert (In x (since_clear V (l ++ o))) by (apply IH; [intro; apply N; apply in_or_app; auto|exact H]).
  destruct y; try (apply in_or_app; left; assumption). destruct N. apply in_or_app. right. left. reflexivity.
Qed.
Lemma since_clear_sub {V} (l : list (obs V)) x : In x (since_clear V l) -> In x l.
Proof.
  induction l as [|y l IH] using rev_ind; [tauto|]. rewrite since_clear_app. rewrite in_app_iff.
  destruct y; try (rewrite in_app_iff; intros [H|H]; [left; apply IH; exact H|right; exact H]). intros [].
Qed.

Section Run.
Variable sha : list N -> list N.
Variable V : Type.
Variable cap : nat.
Variable ttl_of : string -> option Z.
Variable node : Z -> string -> list param -> answer V.
Notation step := (step sha V cap ttl_of node).
Notation run_from := (run_from sha V cap ttl_of node).
Notation obs := (obs V).
Notation st := (st V).
Notation OCall := (OCall V). Notation OFetch := (OFetch V). Notation OStore := (OStore V).
Notation OReturn := (OReturn V). Notation OClear := (OClear V).

(* every entry of the cache comes from a stored answer *)
Definition slot_ok (now : Z) (log : list obs) (x : key * entry V) : Prop :=
  exists c m ps t2 t3 ttl, fst x = gen_key sha m ps /\ ttl_of m = Some ttl /\
    In (OFetch c m ps t2 (AVal (e_data (snd x)))) log /\ node t2 m ps = AVal (e_data (snd x)) /\
    In (OStore c m ps t3 (e_data (snd x))) (since_clear V log) /\ t2 <= t3 <= now /\ e_expires (snd x) = t3 + ttl.
Definition flight_ok (now : Z) (log : list obs) (f : flight V) : Prop :=
  exists t1, In (OCall (f_no V f) (f_method V f) (f_params V f) t1) log /\ t1 <= now /\
    match f_stage V f with
    | Looking _ => True
    | Got _ a => exists t2, In (OFetch (f_no V f) (f_method V f) (f_params V f) t2 a) log /\
                            t1 <= t2 <= now /\ a = node t2 (f_method V f) (f_params V f)
    end.
Definition ret_ok (l1 : list obs) (c : Z) (m : string) (ps : list param) (t : Z) (a : answer V) : Prop :=
  computed_for V node l1 c m ps t a \/
  (exists v m' ps', a = AVal v /\ ttl_of m <> None /\ (exists t1, In (OCall c m ps t1) l1 /\ t1 <= t) /\
     gen_key sha m ps = gen_key sha m' ps' /\ stored_answer V node ttl_of l1 m' ps' t v).

Record inv (s : st) (log : list obs) : Prop := {
  i_slots : forall x, In x (s_cache V s) -> slot_ok (s_now V s) log x;
  i_flights : forall f, In f (s_flights V s) -> flight_ok (s_now V s) log f;
  i_rets : forall l1 c m ps t a l2, log = l1 ++ OReturn c m ps t a :: l2 -> ret_ok l1 c m ps t a;
  i_nodup : NoDup (map fst (s_cache V s));
  i_cap : (length (s_cache V s) <= cap)%nat;
  i_numbers : forall f, In f (s_flights V s) -> f_no V f < s_next V s;
  i_fnodup : NoDup (map (f_no V) (s_flights V s));
  i_retnum : forall c m ps t a, In (OReturn c m ps t a) log ->
     c < s_next V s /\ ~ In c (map (f_no V) (s_flights V s));
  i_once : forall l1 c m ps t a l2 m' ps' t' a',
     log = l1 ++ OReturn c m ps t a :: l2 -> ~ In (OReturn c m' ps' t' a') l1
}.

Lemma slot_ok_mono now now' log o x : now <= now' -> ~ In OClear o -> slot_ok now log x -> slot_ok now' (log ++ o) x.
Proof.
  intros L N (c & m & ps & t2 & t3 & ttl & H1 & H2 & H3 & H4 & H5 & H6 & H7).
  exists c, m, ps, t2, t3, ttl. repeat (split; [assumption|]). split; [apply in_or_app; auto|]. split; [assumption|].
  split; [apply since_clear_mono; assumption|]. split; [lia|assumption].
Qed.
Lemma flight_ok_mono now now' log o f : now <= now' -> flight_ok now log f -> flight_ok now' (log ++ o) f.
Proof.
  intros L (t1 & H1 & H2 & H3). exists t1. split; [apply in_or_app; auto|]. split; [lia|].
  destruct (f_stage V f); [exact I|]. destruct H3 as (t2 & A & B & C). exists t2. split; [apply in_or_app; auto|]. split; [lia|exact C].
Qed.

Lemma find_flight_in l c f : find_flight V l c = Some f -> In f l /\ f_no V f = c.
Proof using V. clear sha cap ttl_of node.
  induction l as [|g l IH]; cbn [find_flight]; [discriminate|].
  destruct (Z.eqb_spec (f_no V g) c).
  - intro H. injection H as <-. cbn. auto.
  - intro H. apply IH in H. cbn. tauto.
Qed.
Lemma drop_flight_in l c f : In f (drop_flight V l c) <-> In f l /\ f_no V f <> c.
Proof using V. clear sha cap ttl_of node. unfold drop_flight. rewrite filter_In. destruct (Z.eqb_spec (f_no V f) c); cbn [negb]; intuition congruence. Qed.
Lemma drop_flight_nodup l c : NoDup (map (f_no V) l) -> NoDup (map (f_no V) (drop_flight V l c)).
Proof. apply nodup_map_filter. Qed.
Lemma drop_flight_keys l c x : In x (map (f_no V) (drop_flight V l c)) <-> In x (map (f_no V) l) /\ x <> c.
Proof using V. clear sha cap ttl_of node.
  rewrite !in_map_iff. split.
  - intros (f & <- & H). apply drop_flight_in in H. destruct H. eauto.
  - intros [(f & <- & H) D]. exists f. split; [reflexivity|]. apply drop_flight_in. auto.
Qed.

(* splitting a history at its last entry *)
Lemma split_last {A} (log o : list A) l1 x l2 : log ++ o = l1 ++ x :: l2 ->
  (exists l2', log = l1 ++ x :: l2') \/ (exists o1, o = o1 ++ x :: l2 /\ l1 = log ++ o1).
Proof.
  revert l1. induction log as [|y log IH]; intros l1 E; cbn [app] in E.
  - right. exists l1. auto.
  - destruct l1 as [|z l1]; cbn [app] in E; injection E as E1 E2.
    + left. subst. exists log. reflexivity.
    + apply IH in E2. destruct E2 as [[l2' ->]|(o1 & -> & ->)]; subst.
      * left. exists l2'. reflexivity.
      * right. exists o1. auto.
Qed.

Definition quiet (o : list obs) : Prop := forall c m ps t a, ~ In (OReturn c m ps t a) o.

Lemma rets_quiet log o : quiet o ->
  (forall l1 c m ps t a l2, log = l1 ++ OReturn c m ps t a :: l2 -> ret_ok l1 c m ps t a) ->
  (forall l1 c m ps t a l2, log ++ o = l1 ++ OReturn c m ps t a :: l2 -> ret_ok l1 c m ps t a).
Proof.
  intros Q H l1 c m ps t a l2 E. apply split_last in E. destruct E as [[l2' E]|(o1 & E & ->)]; [eapply H; exact E|].
  exfalso. apply (Q c m ps t a). rewrite E. apply in_or_app. right. left. reflexivity.
Qed.
Lemma once_quiet log o : quiet o ->
  (forall l1 c m ps t a l2 m' ps' t' a', log = l1 ++ OReturn c m ps t a :: l2 -> ~ In (OReturn c m' ps' t' a') l1) ->
  (forall l1 c m ps t a l2 m' ps' t' a', log ++ o = l1 ++ OReturn c m ps t a :: l2 -> ~ In (OReturn c m' ps' t' a') l1).
Proof.
  intros Q H l1 c m ps t a l2 m' ps' t' a' E. apply split_last in E. destruct E as [[l2' E]|(o1 & E & ->)]; [eapply H; exact E|].
  exfalso. apply (Q c m ps t a). rewrite E. apply in_or_app. right. left. reflexivity.
Qed.
Lemma ret_end log o c m ps t a l1 c' m' ps' t' a' l2 : quiet o ->
  log ++ o ++ [OReturn c m ps t a] = l1 ++ OReturn c' m' ps' t' a' :: l2 ->
  (exists l2', log = l1 ++ OReturn c' m' ps' t' a' :: l2') \/
  (l1 = log ++ o /\ (c', m', ps', t', a') = (c, m, ps, t, a)).
Proof.
  intros Q E. apply split_last in E. destruct E as [E|(o1 & E & ->)]; [left; exact E|]. right.
  apply split_last in E. destruct E as [[l2' E]|(o2 & E & ->)].
  - exfalso. apply (Q c' m' ps' t' a'). rewrite E. apply in_or_app. right. left. reflexivity.
  - destruct o2 as [|y o2]; cbn [app] in E; [|injection E as _ E; destruct o2; discriminate E].
    injection E as -> -> -> -> -> _. rewrite app_nil_r. auto.
Qed.

Lemma inv_init t0 : inv (init V t0) [].
Proof.
  constructor; cbn [init s_cache s_flights s_next map length]; try (intros; contradiction); try constructor; try lia.
  - intros. destruct l1; discriminate H.
  - intros. destruct l1; discriminate H.
Qed.

Ltac sb := cbn [s_now s_cache s_next s_flights].

Lemma slots_get now l k l' r : get_block V now l k = (l', r) ->
  (forall x, In x l' -> In x l) /\ (NoDup (map fst l) -> NoDup (map fst l')) /\ (length l' <= length l)%nat.
Proof.
  intro G. apply get_block_spec in G. destruct G as [(e & F & _ & _ & ->)|(_ & -> & _)].
  - split; [|split].
    + intros x [<-|H]; [apply find_in; exact F|apply remove_in in H; tauto].
    + intro N. cbn [map fst]. constructor; [rewrite remove_keys; tauto|apply remove_nodup; exact N].
    + cbn [length]. apply (remove_len_found _ _ _ F).
  - split; [|split].
    + intros x H. apply remove_in in H. tauto.
    + apply remove_nodup.
    + apply remove_len.
Qed.

Lemma step_inv s ev s' o log : inv s log -> step s ev = (s', o) -> inv s' (log ++ o).
Proof.
  intros [HS HF HR HN HC HM HFN HT HO] E. destruct ev as [d|m ps|c|c| |]; cbn [Cache.step] in E.
  - (* tick *)
    injection E as <- <-. rewrite app_nil_r.
    constructor; sb; try assumption.
    + intros x H. rewrite <- (app_nil_r log). eapply slot_ok_mono; [| |apply HS; exact H]; [lia|intros []].
    + intros f H. rewrite <- (app_nil_r log). eapply flight_ok_mono; [|apply HF; exact H]; lia.
  - (* call *)
    set (c := s_next V s) in *. set (called := OCall c m ps (s_now V s)) in *.
    assert (Q : quiet [called]) by (intros ? ? ? ? ? [X|[]]; discriminate X).
    assert (NC : ~ In OClear [called]) by (intros [X|[]]; discriminate X).
    assert (MISS : forall l', (forall x, In x l' -> In x (s_cache V s)) -> NoDup (map fst l') -> (length l' <= cap)%nat ->
       inv (mk_st V (s_now V s) l' (c + 1) (mk_flight V c m ps (Looking V) :: s_flights V s)) (log ++ [called])).
    { intros l' I1 I2 I3. constructor; sb; try assumption.
      - intros x H. eapply slot_ok_mono; [| |apply HS; auto]; [lia|exact NC].
      - intros f [<-|H].
        + exists (s_now V s). cbn [f_no f_method f_params f_stage]. split; [apply in_or_app; right; left; reflexivity|]. split; [lia|exact I].
        + eapply flight_ok_mono; [|apply HF; exact H]. lia.
      - apply rets_quiet; assumption.
      - intros f [<-|H]; [cbn [f_no]; lia|]. apply HM in H. unfold c. lia.
      - cbn [map f_no]. constructor; [|exact HFN]. intro X. apply in_map_iff in X. destruct X as (f & X1 & X2). apply HM in X2. unfold c in X1. lia.
      - intros c' m' ps' t' a' H. apply in_app_or in H. destruct H as [H|H]; [|destruct (Q _ _ _ _ _ H)].
        apply HT in H. destruct H as [H1 H2]. split; [unfold c; lia|]. cbn [map f_no In]. unfold c. intros [X|X]; [lia|auto].
      - apply once_quiet; assumption. }
    destruct (ttl_of m) as [ttl|] eqn:T; [|injection E as <- <-; apply MISS; auto].
    destruct (get_block V (s_now V s) (s_cache V s) (gen_key sha m ps)) as [l' r] eqn:G.
    destruct (slots_get _ _ _ _ _ G) as (G1 & G2 & G3).
    destruct r as [v|]; injection E as <- <-; [|apply MISS; auto; lia].
    apply get_block_spec in G. destruct G as [(e & F & L & R & ->)|(R & _)]; [|discriminate R]. injection R as ->.
    change ([called; OReturn c m ps (s_now V s) (AVal (e_data e))]) with ([called] ++ [OReturn c m ps (s_now V s) (AVal (e_data e))]).
    assert (NC2 : ~ In OClear ([called] ++ [OReturn c m ps (s_now V s) (AVal (e_data e))])).
    { cbn [app In]. intros [X|[X|[]]]; discriminate X. }
    constructor; sb; auto.
    + intros x H. eapply slot_ok_mono; [| |apply HS; apply G1; exact H]; [lia|exact NC2].
    + intros f H. eapply flight_ok_mono; [|apply HF; exact H]. lia.
    + intros l1 c' m' ps' t' a' l2 X. apply ret_end in X; [|exact Q]. destruct X as [[l2' X]|[-> X]]; [eapply HR; exact X|].
      injection X as -> -> -> -> ->. right.
      destruct (HS (gen_key sha m ps, e) (find_in _ _ _ F)) as (c1 & m1 & ps1 & t2 & t3 & ttl1 & A1 & A2 & A3 & A4 & A5 & A6 & A7).
      cbn [fst snd] in A1, A3, A4, A5, A7.
      exists (e_data e), m1, ps1. split; [reflexivity|]. split; [rewrite T; discriminate|].
      split; [exists (s_now V s); split; [apply in_or_app; right; left; reflexivity|lia]|].
      split; [exact A1|]. exists c1, t2, t3, ttl1. split; [exact A2|]. split; [apply in_or_app; auto|]. split; [exact A4|].
      split; [apply since_clear_mono; assumption|]. lia.
    + lia.
    + intros f H. apply HM in H. unfold c. lia.
    + intros c' m' ps' t' a' H. rewrite app_assoc in H. apply in_app_or in H. destruct H as [H|H].
      * apply in_app_or in H. destruct H as [H|H]; [|destruct (Q _ _ _ _ _ H)].
        apply HT in H. destruct H as [H1 H2]. split; [unfold c; lia|exact H2].
      * destruct H as [H|[]]. injection H as <- _ _ _ _. split; [lia|]. intro X. apply in_map_iff in X. destruct X as (f & X1 & X2). apply HM in X2. unfold c in X1. lia.
    + intros l1 c' m' ps' t' a' l2 m2 ps2 t2 a2 X. apply ret_end in X; [|exact Q]. destruct X as [[l2' X]|[-> X]]; [eapply HO; exact X|].
      injection X as -> -> -> -> ->. intro Y. apply in_app_or in Y. destruct Y as [Y|Y]; [|destruct (Q _ _ _ _ _ Y)].
      apply HT in Y. unfold c in Y. lia.
  - (* fetch *)
    destruct (find_flight V (s_flights V s) c) as [[c0 m ps [|a]]|] eqn:F; try (injection E as <- <-; rewrite app_nil_r; constructor; assumption).
    apply find_flight_in in F. destruct F as [F1 F2]. cbn [f_no] in F2. subst c0. injection E as <- <-.
    set (a := node (s_now V s) m ps) in *.
    assert (Q : quiet [OFetch c m ps (s_now V s) a]) by (intros ? ? ? ? ? [X|[]]; discriminate X).
    constructor; sb; try assumption.
    + intros x H. eapply slot_ok_mono; [| |apply HS; exact H]; [lia|intros [X|[]]; discriminate X].
    + intros f [<-|H].
      * destruct (HF _ F1) as (t1 & A & B & _). cbn [f_no f_method f_params f_stage] in *. exists t1.
        split; [apply in_or_app; auto|]. split; [exact B|]. exists (s_now V s). split; [apply in_or_app; right; left; reflexivity|]. split; [lia|reflexivity].
      * apply drop_flight_in in H. eapply flight_ok_mono; [|apply HF; apply H]. lia.
    + apply rets_quiet; assumption.
    + intros f [<-|H]; [apply (HM _ F1)|]. apply drop_flight_in in H. apply HM. tauto.
    + cbn [map f_no]. constructor; [rewrite drop_flight_keys; tauto|apply drop_flight_nodup; exact HFN].
    + intros c' m' ps' t' a' H. apply in_app_or in H. destruct H as [H|H]; [|destruct (Q _ _ _ _ _ H)].
      apply HT in H. destruct H as [H1 H2]. split; [exact H1|]. cbn [map f_no In]. rewrite drop_flight_keys.
      intros [X|X]; [|tauto]. subst c'. apply H2. change c with (f_no V (mk_flight V c m ps (Looking V))). apply in_map. exact F1.
    + apply once_quiet; assumption.
  - (* finish *)
    destruct (find_flight V (s_flights V s) c) as [[c0 m ps [|a]]|] eqn:F; try (injection E as <- <-; rewrite app_nil_r; constructor; assumption).
    apply find_flight_in in F. destruct F as [F1 F2]. cbn [f_no] in F2. subst c0. cbv zeta in E.
    destruct (HF _ F1) as (t1 & A1 & A2 & t2 & A3 & A4 & A5). cbn [f_no f_method f_params f_stage] in A1, A3, A5.
    assert (GEN : forall l' o1, quiet o1 -> ~ In OClear o1 ->
       (forall x, In x l' -> slot_ok (s_now V s) (log ++ o1 ++ [OReturn c m ps (s_now V s) a]) x) ->
       NoDup (map fst l') -> (length l' <= cap)%nat ->
       inv (mk_st V (s_now V s) l' (s_next V s) (drop_flight V (s_flights V s) c)) (log ++ o1 ++ [OReturn c m ps (s_now V s) a])).
    { intros l' o1 Q NC I1 I2 I3. constructor; sb; try assumption.
      - intros f H. apply drop_flight_in in H. eapply flight_ok_mono; [|apply HF; apply H]. lia.
      - intros l1 c' m' ps' t' a' l2 X. apply ret_end in X; [|exact Q]. destruct X as [[l2' X]|[-> X]]; [eapply HR; exact X|].
        injection X as -> -> -> -> ->. left. exists t1, t2.
        split; [apply in_or_app; auto|]. split; [apply in_or_app; auto|]. split; [lia|exact A5].
      - intros f H. apply drop_flight_in in H. apply HM. tauto.
      - apply drop_flight_nodup. exact HFN.
      - intros c' m' ps' t' a' H. rewrite drop_flight_keys. apply in_app_or in H. destruct H as [H|H].
        + apply HT in H. tauto.
        + apply in_app_or in H. destruct H as [H|[H|[]]]; [destruct (Q _ _ _ _ _ H)|]. injection H as <- _ _ _ _.
          split; [apply (HM _ F1)|tauto].
      - intros l1 c' m' ps' t' a' l2 m2 ps2 t3 a2 X. apply ret_end in X; [|exact Q]. destruct X as [[l2' X]|[-> X]]; [eapply HO; exact X|].
        injection X as -> -> -> -> ->. intro Y. apply in_app_or in Y. destruct Y as [Y|Y]; [|destruct (Q _ _ _ _ _ Y)].
        apply HT in Y. destruct Y as [_ Y]. apply Y. change c with (f_no V (mk_flight V c m ps (Got V a))). apply in_map. exact F1. }
    assert (KEEP : inv (mk_st V (s_now V s) (s_cache V s) (s_next V s) (drop_flight V (s_flights V s) c)) (log ++ [OReturn c m ps (s_now V s) a])).
    { apply (GEN (s_cache V s) []); auto.
      - intros ? ? ? ? ? [].
      - intros x H. eapply slot_ok_mono; [| |apply HS; exact H]; [lia|]. intros [X|[]]; discriminate X. }
    destruct (ttl_of m) as [ttl|] eqn:T; [|injection E as <- <-; exact KEEP].
    destruct a as [v| |]; [|injection E as <- <-; exact KEEP|injection E as <- <-; exact KEEP].
    injection E as <- <-. change ([OStore c m ps (s_now V s) v; OReturn c m ps (s_now V s) (AVal v)]) with ([OStore c m ps (s_now V s) v] ++ [OReturn c m ps (s_now V s) (AVal v)]).
    assert (NC2 : ~ In OClear ([OStore c m ps (s_now V s) v] ++ [OReturn c m ps (s_now V s) (AVal v)])).
    { cbn [app In]. intros [X|[X|[]]]; discriminate X. }
    apply GEN.
    + intros ? ? ? ? ? [X|[]]; discriminate X.
    + intros [X|[]]; discriminate X.
    + unfold set_block, lru_add. intros x H. apply in_firstn in H. destruct H as [<-|H].
      * exists c, m, ps, t2, (s_now V s), ttl. cbn [fst snd e_data e_expires]. split; [reflexivity|]. split; [exact T|].
        split; [apply in_or_app; auto|]. split; [symmetry; exact A5|]. split; [|lia].
        rewrite app_assoc, !since_clear_app. apply in_or_app. left. apply in_or_app. right. left. reflexivity.
      * apply remove_in in H. eapply slot_ok_mono; [| |apply HS; apply H]; [lia|exact NC2].
    + unfold set_block, lru_add. rewrite <- firstn_map. apply nodup_firstn. cbn [map fst].
      constructor; [rewrite remove_keys; tauto|apply remove_nodup; exact HN].
    + unfold set_block, lru_add. rewrite firstn_length. lia.
  - (* cleanup *)
    injection E as <- <-. rewrite app_nil_r. constructor; sb; try assumption; rewrite cleanup_filter by exact HN.
    + intros x H. apply filter_In in H. apply HS. tauto.
    + apply nodup_map_filter. exact HN.
    + pose proof (filter_len (fun s0 : key * entry V => negb (e_expires (snd s0) <? s_now V s)) (s_cache V s)). lia.
  - (* clear *)
    injection E as <- <-.
    assert (Q : quiet [OClear]) by (intros ? ? ? ? ? [X|[]]; discriminate X).
    constructor; sb; try assumption.
    + intros x [].
    + intros f H. eapply flight_ok_mono; [|apply HF; exact H]. lia.
    + apply rets_quiet; assumption.
    + constructor.
    + cbn [length]. lia.
    + intros c' m' ps' t' a' H. apply in_app_or in H. destruct H as [H|H]; [|destruct (Q _ _ _ _ _ H)]. eapply HT. exact H.
    + apply once_quiet; assumption.
Qed.

Lemma run_inv evs : forall s log s' log', inv s log -> run_from s log evs = (s', log') -> inv s' log'.
Proof.
  induction evs as [|ev evs IH]; intros s log s' log' I E; cbn [Cache.run_from] in E.
  - injection E as <- <-. exact I.
  - destruct (step s ev) as [s1 o] eqn:S. eapply IH; [|exact E]. eapply step_inv; [exact I|exact S].
Qed.
End Run.
