(* Lemmas for C119. *)
From Verif Require Import Lib.Base Lib.Zmap Lib.Dec Hyperion.NewToken Hyperion.NewTokenSpec.
Open Scope Z_scope.

Lemma letter_iff c : is_letter c = true <-> latin c.
Proof. unfold is_letter, latin. lia. Qed.
Lemma allowed_iff c : allowed c = true <-> usual c.
Proof. unfold allowed, is_letter, usual, latin. lia. Qed.
Lemma all_usual t : forallb allowed t = true <-> Forall usual t.
Proof. rewrite forallb_forall, Forall_forall. split; intros H x I; apply allowed_iff, H, I. Qed.
Lemma wu_filter t u : without_unusual t u <-> u = filter allowed t.
Proof.
  split.
  - induction 1 as [|c t u U W ->|c t u U W ->]; [reflexivity|..]; cbn [filter]; rewrite <- allowed_iff in U.
    + rewrite U. reflexivity.
    + destruct (allowed c); [contradiction|reflexivity].
  - intros ->. induction t as [|c t IH]; [constructor|]. cbn [filter]. destruct (allowed c) eqn:A; constructor; auto; rewrite <- allowed_iff; congruence.
Qed.
Lemma same_eq a b : same a b = true <-> a = b.
Proof.
  revert b. induction a as [|x a IH]; intros [|y b]; cbn [same]; split; intro H; try discriminate; try reflexivity.
  - apply andb_prop in H as [E H]. apply IH in H. apply Z.eqb_eq in E. congruence.
  - assert (x = y /\ a = b) as [-> ->] by (split; congruence). rewrite Z.eqb_refl. apply IH. reflexivity.
Qed.
Lemma filter_all t : forallb allowed t = true -> filter allowed t = t.
Proof. induction t as [|c t IH]; [reflexivity|]. cbn [forallb filter]. intro H. apply andb_prop in H as [-> H]. rewrite IH by exact H. reflexivity. Qed.
Lemma filter_allowed t : forallb allowed (filter allowed t) = true.
Proof. apply forallb_forall. intros x I. apply filter_In in I. apply I. Qed.
Lemma filter_len t : (length (filter allowed t) <= length t)%nat.
Proof. induction t as [|c t IH]; cbn [filter length]; [lia|]. destruct (allowed c); cbn [length]; lia. Qed.
Lemma blank_filter t : blank t = true -> filter allowed t = [].
Proof.
  unfold blank. induction t as [|c t IH]; [reflexivity|]. cbn [forallb filter]. intro H. apply andb_prop in H as [S H]. rewrite (IH H).
  assert (allowed c = false) as -> by (unfold allowed, is_letter; lia). reflexivity.
Qed.
Lemma blank_letter c t : is_letter c = true -> blank (c :: t) = false.
Proof. unfold blank, is_letter. cbn [forallb]. intro H. apply andb_false_intro1. lia. Qed.
Lemma letter_allowed c : is_letter c = true -> allowed c = true.
Proof. unfold allowed. intros ->. reflexivity. Qed.

(* the symbol as a function *)
Definition shown_fn (t : text) : option text :=
  match filter allowed t with
  | [] => None
  | c :: r => if (2 <=? length r)%nat then if is_letter c then Some (c :: r) else None
              else if forallb allowed t then Some (hel ++ t) else None
  end.
Lemma shown_fn_spec t s : t <> [] -> (shown_as t s <-> shown_fn t = Some s).
Proof.
  intro Ne. unfold shown_fn. split.
  - intros [t' c r W L Lc|t' N L U].
    + apply wu_filter in W. rewrite <- W. destruct (Nat.leb_spec 2 (length r)); [|lia]. apply letter_iff in Lc. rewrite Lc. reflexivity.
    + apply all_usual in U. rewrite (filter_all _ U), U. destruct t' as [|c r]; [contradiction|]. cbn [length] in L. destruct (Nat.leb_spec 2 (length r)); [lia|]. reflexivity.
  - destruct (filter allowed t) as [|c r] eqn:F; [discriminate|]. destruct (Nat.leb_spec 2 (length r)) as [L|L].
    + destruct (is_letter c) eqn:Lc; [|discriminate]. intro E. assert (s = c :: r) as -> by congruence. apply sh_long; [apply wu_filter; auto|exact L|apply letter_iff, Lc].
    + destruct (forallb allowed t) eqn:U; [|discriminate]. intro E. assert (s = hel ++ t) as -> by congruence. cbn [hel app]. rewrite (filter_all _ U) in F.
      apply sh_short; [exact Ne|rewrite F; cbn [length]; lia|apply all_usual, U].
Qed.

Lemma create_fn base t d : denom_ok base = true -> (length t <= 30)%nat -> (40 <= length base)%nat -> t <> [] ->
  create base t d = if d <=? 0 then None else option_map (fun s => mk_tok s d) (shown_fn t).
Proof.
  intros B L Lb Ne. assert (forall s, (length s <= 34)%nat -> same s base = false) as Ns.
  { intros s Ls. destruct (same s base) eqn:E; [|reflexivity]. apply same_eq in E. subst s. lia. }
  unfold create, validate. rewrite B. cbn [negb]. unfold shown_fn. destruct (blank t) eqn:Bl.
  { rewrite (blank_filter t Bl). destruct (d <=? 0); reflexivity. }
  destruct (denom_ok t) eqn:D; cbn [negb].
  - rewrite Ns by lia. destruct t as [|c r]; [contradiction|]. cbn [denom_ok] in D. apply andb_prop in D as [D D4]. apply andb_prop in D as [D D3]. apply andb_prop in D as [D1 D2].
    rewrite (filter_all (c :: r)) by (cbn [forallb]; rewrite (letter_allowed c D1), D2; reflexivity). rewrite D3, D1. cbn [option_map]. destruct (d <=? 0); reflexivity.
  - unfold sanitize. pose proof (filter_len t) as Fl. pose proof (filter_allowed t) as Fa. destruct (filter allowed t) as [|c r] eqn:F.
    + rewrite Bl, D. cbn [negb]. destruct (d <=? 0); reflexivity.
    + destruct (Nat.ltb_spec 127 (length (c :: r))) as [X|_]; [lia|]. cbn [length] in Fl. destruct (Nat.ltb_spec (length (c :: r)) 3) as [Sh|Sh]; cbn [length] in Sh.
      * destruct (Nat.leb_spec 2 (length r)) as [Y|_]; [lia|]. cbn [hel app]. rewrite (blank_letter 72) by reflexivity.
        assert (denom_ok (72 :: 69 :: 76 :: 45 :: t) = forallb allowed t) as ->.
        { cbn [denom_ok forallb is_letter length]. destruct (Nat.leb_spec 2 (S (S (S (length t))))); [|lia]. destruct (Nat.leb_spec (S (S (S (length t)))) 127); [|lia].
          change (is_letter 72) with true. change (allowed 69) with true. change (allowed 76) with true. change (allowed 45) with true. cbn [andb]. rewrite !andb_true_r. reflexivity. }
        rewrite Ns by (cbn [length]; lia). destruct (forallb allowed t); cbn [negb option_map]; destruct (d <=? 0); reflexivity.
      * destruct (Nat.leb_spec 2 (length r)) as [_|Y]; [|lia].
        assert (blank (c :: r) = false) as ->.
        { destruct (blank (c :: r)) eqn:Q; [|reflexivity]. apply blank_filter in Q. rewrite (filter_all _ Fa) in Q. discriminate. }
        assert (denom_ok (c :: r) = is_letter c) as ->.
        { cbn [denom_ok]. cbn [forallb] in Fa. apply andb_prop in Fa as [_ ->]. destruct (Nat.leb_spec 2 (length r)); [|lia]. destruct (Nat.leb_spec (length r) 127); [|lia]. rewrite !andb_true_r. reflexivity. }
        rewrite Ns by (cbn [length]; lia). destruct (is_letter c); cbn [negb option_map]; destruct (d <=? 0); reflexivity.
Qed.

Lemma denom_good h a c : 0 <= h < 2 ^ 64 -> address_text (a c) -> denom_ok (denom h a c) = true /\ (40 <= length (denom h a c))%nat /\ blank (denom h a c) = false.
Proof.
  intros H [L U]. pose proof (udec_len h 19 ltac:(lia)) as D. pose proof (udec_digits h ltac:(lia)) as Dg. unfold denom. split; [|split].
  - cbn [hyperion_dash app denom_ok]. change (is_letter 104) with true. cbn [andb]. apply andb_true_intro; split; [apply andb_true_intro; split|].
    + cbn [forallb]. change (allowed 121) with true. change (allowed 112) with true. change (allowed 101) with true. change (allowed 114) with true. change (allowed 105) with true.
      change (allowed 111) with true. change (allowed 110) with true. change (allowed 45) with true. cbn [andb].
      rewrite forallb_app. cbn [forallb]. change (allowed 45) with true. cbn [andb]. apply andb_true_intro. split; [|apply all_usual, U].
      apply forallb_forall. intros x I. apply in_map_iff in I as (y & <- & I). rewrite Forall_forall in Dg. specialize (Dg y I). unfold is_digit in Dg. unfold allowed. lia.
    + apply Nat.leb_le. cbn [length]. lia.
    + apply Nat.leb_le. cbn [length]. rewrite app_length, map_length. cbn [length]. lia.
  - rewrite app_length. cbn [hyperion_dash length]. rewrite app_length. cbn [length]. lia.
  - apply blank_letter. reflexivity.
Qed.
Lemma default_fails h a c d : 0 <= h < 2 ^ 64 -> address_text (a c) -> create (denom h a c) (denom h a c) d = None.
Proof.
  intros H A. destruct (denom_good h a c H A) as (O & _ & B). unfold create, validate. rewrite B, O. cbn [negb]. destruct (d <=? 0); [reflexivity|].
  assert (same (denom h a c) (denom h a c) = true) as -> by (apply same_eq; reflexivity). reflexivity.
Qed.
(* what a new token needs *)
Lemma known_new h a s c d : 0 <= h < 2 ^ 64 -> address_text (a c) -> zget (s_tok s) c = None -> forall s1,
  (known h a s c d = Some s1 <-> exists m t, told d m /\ 1 <= m_dec m /\ shown_as (m_symbol m) (t_symbol t) /\ t_dec t = m_dec m /\
     s1 = give (mk_st (zset (s_tok s) c t) (s_bal s) (s_sup s)) c module_acc 1).
Proof.
  intros H A N s1. destruct (denom_good h a c H A) as (O & Lb & B). unfold known. rewrite N.
  assert (forall m, told d m -> extract d (mk_meta (denom h a c) (denom h a c) 18) = m) as Told.
  { intros m (-> & Ne & L1 & L2 & L3). unfold extract, meta_ok. replace (m_dec m <=? 18) with true by lia.
    destruct (Nat.leb_spec (length (m_name m)) 100); [|lia]. destruct (Nat.leb_spec (length (m_symbol m)) 30); [|lia]. cbn [andb]. destruct (m_symbol m); [contradiction|reflexivity]. }
  assert ((exists m, told d m) \/ extract d (mk_meta (denom h a c) (denom h a c) 18) = mk_meta (denom h a c) (denom h a c) 18) as [[m T]|E].
  { destruct d as [| |[m|]]; try (right; reflexivity). unfold extract. destruct (meta_ok m) eqn:M; [|right; reflexivity]. destruct (m_symbol m) as [|x r] eqn:Sy; [right; reflexivity|].
    left. exists m. unfold meta_ok in M. apply andb_prop in M as [M M3]. apply andb_prop in M as [M1 M2]. apply Nat.leb_le in M2. apply Nat.leb_le in M3. unfold told. rewrite Sy in *. repeat split; try assumption; try discriminate. lia. }
  - rewrite (Told m T). pose proof T as (Ed & Ne & L1 & _ & _). rewrite create_fn by (try exact L1; assumption). destruct (Z.leb_spec (m_dec m) 0) as [Z0|Z0].
    + split; [discriminate|]. intros (m' & t & T' & D & _). assert (m' = m) as -> by (rewrite <- (Told m' T'); apply Told, T). lia.
    + destruct (shown_fn (m_symbol m)) as [y|] eqn:F; cbn [option_map].
      * split.
        -- intro Q. exists m, (mk_tok y (m_dec m)). repeat match goal with |- _ /\ _ => split end; try exact T; try lia; try reflexivity.
           ++ apply shown_fn_spec; [exact Ne|exact F].
           ++ congruence.
        -- intros (m' & t & T' & D & Sh & Dt & ->). assert (m' = m) as -> by (rewrite <- (Told m' T'); apply Told, T). apply shown_fn_spec in Sh; [|exact Ne].
           assert (t = mk_tok y (m_dec m)) as -> by (destruct t; cbn in *; congruence). reflexivity.
      * split; [discriminate|]. intros (m' & t & T' & D & Sh & _). assert (m' = m) as -> by (rewrite <- (Told m' T'); apply Told, T). apply shown_fn_spec in Sh; [|exact Ne]. congruence.
  - rewrite E. cbn [m_symbol m_dec]. rewrite default_fails by assumption. split; [discriminate|]. intros (m & t & T & D & Sh & _). exfalso. rewrite (Told m T) in E.
    destruct T as (_ & _ & L1 & _). rewrite E in L1. cbn [m_symbol] in L1. lia.
Qed.

Lemma give_credited s c a n : credited s (give s c a n) c a n.
Proof.
  unfold credited, give. cbn [s_bal s_sup]. rewrite !Z.eqb_refl. cbn [andb]. repeat match goal with |- _ /\ _ => split end; try reflexivity.
  - intros c' a' N. destruct (Z.eqb_spec c' c) as [->|]; cbn [andb]; [|lia]. destruct (Z.eqb_spec a' a) as [->|]; [contradiction|lia].
  - intros c' N. destruct (Z.eqb_spec c' c) as [->|]; [contradiction|lia].
Qed.
Lemma process_tok h a s x c t : zget (s_tok s) c = Some t -> zget (s_tok (process h a s x)) c = Some t.
Proof.
  intro G. unfold process, handle. destruct (d_sender x); cbn [negb]; [|exact G]. destruct (known h a s (d_contract x) (d_data x)) as [s1|] eqn:K; [|exact G].
  assert (zget (s_tok s1) c = Some t) as G1.
  { unfold known in K. destruct (zget (s_tok s) (d_contract x)) eqn:Q; [congruence|]. destruct (create _ _ _) as [t'|]; [|discriminate].
    assert (s1 = give (mk_st (zset (s_tok s) (d_contract x) t') (s_bal s) (s_sup s)) (d_contract x) module_acc 1) as -> by congruence. cbn [give s_tok].
    rewrite zget_zset_other by (intro E; subst c; congruence). exact G. }
  destruct (_ <=? _); [exact G|]. exact G1.
Qed.
Lemma run_tok h a l s c t : zget (s_tok s) c = Some t -> zget (s_tok (run h a s l)) c = Some t.
Proof. revert s. induction l as [|x l IH]; intros s G; cbn [run fold_left]; [exact G|]. apply IH, process_tok, G. Qed.
