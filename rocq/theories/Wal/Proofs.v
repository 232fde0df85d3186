From Verif Require Import Lib.Base Lib.Bytes Lib.Codec Wal.Model Wal.Spec.
Open Scope Z_scope.

Lemma read_uvarint_fuel_app fuel : forall sh acc b v rest more,
  read_uvarint_fuel fuel sh acc b = Some (v, rest) -> read_uvarint_fuel fuel sh acc (b ++ more) = Some (v, rest ++ more).
Proof.
  induction fuel as [|f IH]; intros sh acc b v rest more H; [discriminate|].
  destruct b as [|x b]; [discriminate|]. cbn [app read_uvarint_fuel] in *.
  destruct (Z.of_N x <? 128).
  - destruct ((f =? 0)%nat && (1 <? Z.of_N x)); [discriminate|]. inversion H; subst. reflexivity.
  - apply IH. exact H.
Qed.
Lemma read_uvarint_fuel_suffix fuel : forall sh acc b v rest,
  read_uvarint_fuel fuel sh acc b = Some (v, rest) -> exists h, b = h ++ rest /\ h <> [] /\ read_uvarint_fuel fuel sh acc h = Some (v, []).
Proof.
  induction fuel as [|f IH]; intros sh acc b v rest H; [discriminate|].
  destruct b as [|x b]; [discriminate|]. cbn [read_uvarint_fuel] in H.
  destruct (Z.of_N x <? 128) eqn:Ex.
  - exists [x]. cbn [read_uvarint_fuel]. rewrite Ex. destruct ((f =? 0)%nat && (1 <? Z.of_N x)); [discriminate|]. inversion H; subst.
    split; [reflexivity|]. split; [discriminate|reflexivity].
  - destruct (IH _ _ _ _ _ H) as [h [-> [_ Hh]]]. exists (x :: h). split; [reflexivity|]. split; [discriminate|].
    cbn [read_uvarint_fuel]. rewrite Ex. exact Hh.
Qed.
Lemma read_uvarint_fuel_nonneg fuel : forall sh acc b v rest, 0 <= sh -> 0 <= acc ->
  read_uvarint_fuel fuel sh acc b = Some (v, rest) -> 0 <= v.
Proof.
  induction fuel as [|f IH]; intros sh acc b v rest Hs Ha H; [discriminate|].
  destruct b as [|x b]; [discriminate|]. cbn [read_uvarint_fuel] in H.
  pose proof (Z.pow_nonneg 2 sh). destruct (Z.of_N x <? 128) eqn:Ex.
  - destruct ((f =? 0)%nat && (1 <? Z.of_N x)); [discriminate|]. inversion H; subst. nia.
  - eapply IH; [| |exact H]; nia.
Qed.

Section P.
Variable json : bytes -> bool.

Lemma index_nl_spec b i : index_nl b = Some i -> (exists l r, b = l ++ 10%N :: r /\ length l = i /\ ~ In 10%N l).
Proof.
  revert i. induction b as [|x b IH]; intros i H; [discriminate|]. cbn [index_nl] in H. destruct (N.eqb x 10) eqn:E.
  - apply N.eqb_eq in E. inversion H; subst. exists [], b. auto.
  - destruct (index_nl b) as [j|]; [|discriminate]. inversion H; subst. destruct (IH j eq_refl) as [l [r [-> [Hl Hi]]]].
    exists (x :: l), r. split; [reflexivity|]. split; [cbn; lia|]. intros [A|A]; [subst; apply N.eqb_neq in E; apply E; reflexivity|auto].
Qed.
Lemma index_nl_app l r : ~ In 10%N l -> index_nl (l ++ 10%N :: r) = Some (length l).
Proof.
  induction l as [|x l IH]; intro H; [reflexivity|]. cbn [app index_nl]. destruct (N.eqb x 10) eqn:E.
  - apply N.eqb_eq in E. exfalso. apply H. left. exact E.
  - rewrite IH; [reflexivity|]. intro A. apply H. right. exact A.
Qed.
Lemma index_nl_none b : index_nl b = None -> ~ In 10%N b.
Proof.
  induction b as [|x b IH]; intros H; [intros []|]. cbn [index_nl] in H. destruct (N.eqb x 10) eqn:E; [discriminate|].
  destruct (index_nl b); [discriminate|]. intros [A|A]; [subst; apply N.eqb_neq in E; apply E; reflexivity|]. exact (IH eq_refl A).
Qed.

(* the reader finds exactly the entries *)
Lemma load_next_entry f e rest : entry json f e -> load_next json f (e ++ rest) = Some (length e).
Proof.
  destruct f; cbn [entry load_next].
  - intros [size [payload [H1 H2]]]. unfold load_next_binary_entry.
    unfold read_uvarint in *. rewrite (read_uvarint_fuel_app _ _ _ _ _ _ rest H1).
    destruct (read_uvarint_fuel_suffix _ _ _ _ _ _ H1) as [h [-> _]].
    rewrite blen_app. pose proof (blen_nonneg rest). replace (blen payload + blen rest <? size) with false by lia.
    f_equal. rewrite !app_length. unfold blen in H2. lia.
  - intros [line [-> [H1 H2]]]. unfold load_next_json_entry. rewrite <- app_assoc. cbn [app]. rewrite index_nl_app by exact H1.
    rewrite firstn_app, firstn_all, Nat.sub_diag. cbn [firstn]. rewrite app_nil_r, H2. rewrite app_length. cbn. f_equal. lia.
Qed.
Lemma load_next_some f data n : load_next json f data = Some n -> exists e rest, data = e ++ rest /\ length e = n /\ entry json f e.
Proof.
  destruct f; cbn [entry load_next].
  - unfold load_next_binary_entry. destruct (read_uvarint data) as [[size rest]|] eqn:E; [|discriminate].
    destruct (blen rest <? size) eqn:El; [discriminate|]. intro H. inversion H; subst n. clear H.
    unfold read_uvarint in E. pose proof (read_uvarint_fuel_nonneg _ _ _ _ _ _ (Z.le_refl 0) (Z.le_refl 0) E) as Hs.
    destruct (read_uvarint_fuel_suffix _ _ _ _ _ _ E) as [h [-> [Hh Hr]]]. unfold blen in El.
    exists (h ++ firstn (Z.to_nat size) rest), (skipn (Z.to_nat size) rest).
    split; [rewrite <- app_assoc, firstn_skipn; reflexivity|]. split; [rewrite !app_length, firstn_length; lia|].
    exists size, (firstn (Z.to_nat size) rest). split; [unfold read_uvarint; rewrite (read_uvarint_fuel_app _ _ _ _ _ _ _ Hr); reflexivity|].
    unfold blen. rewrite firstn_length. lia.
  - unfold load_next_json_entry. destruct (index_nl data) as [i|] eqn:E; [|discriminate].
    destruct (json (firstn i data)) eqn:Ej; [|discriminate]. intro H. inversion H; subst n. clear H.
    apply index_nl_spec in E. destruct E as [l [r [-> [Hl Hi]]]]. subst i.
    rewrite firstn_app, firstn_all, Nat.sub_diag in Ej. cbn [firstn] in Ej. rewrite app_nil_r in Ej.
    exists (l ++ [10%N]), r. split; [rewrite <- app_assoc; reflexivity|]. split; [rewrite app_length; cbn; lia|].
    exists l. auto.
Qed.
Lemma load_next_none f data e rest : load_next json f data = None -> data = e ++ rest -> ~ entry json f e.
Proof. intros H -> He. rewrite (load_next_entry f e rest He) in H. discriminate. Qed.
Lemma entry_pos f e : entry json f e -> (1 <= length e)%nat.
Proof.
  destruct f; cbn.
  - intros [s [p [H _]]]. destruct e; [discriminate|cbn; lia].
  - intros [l [-> _]]. rewrite app_length. cbn. lia.
Qed.
(* entries form a prefix code *)
Lemma entry_prefix f a b x y : entry json f a -> entry json f b -> a ++ x = b ++ y -> a = b /\ x = y.
Proof.
  intros Ha Hb E. pose proof (load_next_entry f a x Ha) as H1. rewrite E, (load_next_entry f b y Hb) in H1. inversion H1.
  apply app_inj_len; [unfold blen; lia|exact E].
Qed.

Lemma skipn_app_len {A} (a b : list A) : skipn (length a) (a ++ b) = b.
Proof. induction a; [reflexivity|exact IHa]. Qed.
Lemma firstn_app_len {A} (a b : list A) : firstn (length a) (a ++ b) = a.
Proof. induction a; [reflexivity|]. cbn. rewrite IHa. reflexivity. Qed.

Lemma scan_spec f fuel : forall data pos, (length data <= fuel)%nat ->
  exists es rest, data = concat es ++ rest /\ entries json f es /\
    scan json f fuel data pos = ((pos + length (concat es))%nat, rest) /\ (rest = [] \/ load_next json f rest = None).
Proof.
  induction fuel as [|fuel IH]; intros data pos Hl.
  - exists [], data. cbn. destruct data; [|cbn in Hl; lia]. split; [reflexivity|]. split; [constructor|]. split; [f_equal; lia|auto].
  - cbn [scan]. destruct data as [|x data].
    + exists [], []. cbn. split; [reflexivity|]. split; [constructor|]. split; [f_equal; lia|auto].
    + destruct (load_next json f (x :: data)) as [n|] eqn:E.
      * destruct (load_next_some _ _ _ E) as [e [rest [Ed [Hn He]]]]. pose proof (entry_pos _ _ He) as Hp.
        assert (L : (length rest <= fuel)%nat) by (apply (f_equal (@length _)) in Ed; rewrite app_length in Ed; cbn [length] in *; lia).
        destruct (IH rest (pos + n)%nat L) as [es [r [Hr [Hes [Hsc Hend]]]]].
        exists (e :: es), r. split; [rewrite Ed, Hr; cbn [concat]; rewrite <- app_assoc; reflexivity|].
        split; [constructor; assumption|]. split; [|exact Hend].
        rewrite Ed. rewrite <- Hn, skipn_app_len. rewrite Hn, Hsc. cbn [concat]. rewrite app_length. f_equal. lia.
      * exists [], (x :: data). cbn [concat app length]. split; [reflexivity|]. split; [constructor|]. split; [f_equal; lia|auto].
Qed.

(* two decompositions into entries: one extends the other *)
Lemma entries_prefix f es : forall es' rest, entries json f es -> entries json f es' ->
  (rest = [] \/ load_next json f rest = None) -> prefix (concat es') (concat es ++ rest) -> exists more, es = es' ++ more.
Proof.
  induction es as [|e es IH]; intros es' rest He He' Hr [r Hp].
  - destruct es' as [|e' es']; [exists []; reflexivity|]. exfalso. cbn [concat app] in Hp. pose proof (Forall_inv He') as A.
    rewrite <- app_assoc in Hp. destruct Hr as [-> | Hr].
    + pose proof (entry_pos _ _ A). destruct e'; [cbn in *; lia|discriminate].
    + exact (load_next_none _ _ _ _ Hr Hp A).
  - destruct es' as [|e' es']; [exists (e :: es); reflexivity|]. pose proof (Forall_inv He) as A. pose proof (Forall_inv_tail He) as B. pose proof (Forall_inv He') as A'. pose proof (Forall_inv_tail He') as B'.
    cbn [concat] in Hp. rewrite <- !app_assoc in Hp. destruct (entry_prefix _ _ _ _ _ A A' Hp) as [-> Hp'].
    destruct (IH es' rest B B' Hr) as [more ->]; [exists r; exact Hp'|]. exists more. reflexivity.
Qed.
Lemma longest_exists f data : exists es rest, data = concat es ++ rest /\ longest json f data es /\
  scan json f (length data) data 0 = (length (concat es), rest) /\ (rest = [] \/ load_next json f rest = None).
Proof.
  destruct (scan_spec f (length data) data 0%nat (Nat.le_refl _)) as [es [rest [Hd [He [Hs Hr]]]]]. exists es, rest. split; [exact Hd|].
  split; [|split; [exact Hs|exact Hr]]. split; [exact He|]. split; [exists rest; exact Hd|].
  intros es' He' Hp. rewrite Hd in Hp. exact (entries_prefix f es es' rest He He' Hr Hp).
Qed.
Lemma longest_unique f data a b : longest json f data a -> longest json f data b -> a = b.
Proof.
  intros [A1 [A2 A3]] [B1 [B2 B3]]. destruct (A3 b B1 B2) as [m1 E1]. destruct (B3 a A1 A2) as [m2 E2].
  rewrite E2 in E1. rewrite <- app_assoc in E1. assert (m2 ++ m1 = []) by (apply (app_inv_head a); rewrite app_nil_r; auto).
  apply app_eq_nil in H. destruct H as [-> ->]. rewrite E2, app_nil_r. reflexivity.
Qed.

Lemma parse_entries f es : forall fuel, entries json f es -> (length (concat es) <= fuel)%nat -> parse json f fuel (concat es) = Some es.
Proof.
  induction es as [|e es IH]; intros fuel He Hl; [destruct fuel; reflexivity|]. inversion He as [|? ? A B]; subst.
  pose proof (entry_pos _ _ A) as Hp. cbn [concat] in *. rewrite app_length in Hl. destruct fuel as [|fuel]; [lia|].
  cbn [parse]. destruct (e ++ concat es) as [|x d] eqn:Ed; [destruct e; [cbn in Hp; lia|discriminate]|]. rewrite <- Ed.
  rewrite (load_next_entry f e (concat es) A). rewrite skipn_app_len, firstn_app_len, IH; [reflexivity|exact B|lia].
Qed.
Lemma parse_sound f fuel : forall data es, parse json f fuel data = Some es -> data = concat es /\ entries json f es.
Proof.
  induction fuel as [|fuel IH]; intros data es H; cbn [parse] in H.
  - destruct data; [|discriminate]. inversion H; subst. split; [reflexivity|constructor].
  - destruct data as [|x data]; [inversion H; subst; split; [reflexivity|constructor]|].
    destruct (load_next json f (x :: data)) as [n|] eqn:E; [|discriminate].
    destruct (load_next_some _ _ _ E) as [e [rest [Ed [Hn He]]]]. rewrite Ed in H. rewrite <- Hn, skipn_app_len, firstn_app_len in H.
    destruct (parse json f fuel rest) as [es'|] eqn:Ep; [|discriminate]. inversion H; subst es. destruct (IH _ _ Ep) as [-> Hes].
    split; [exact Ed|constructor; assumption].
Qed.
Lemma open_segment_iff f data es : open_segment json f data = Some es <-> data = concat es /\ entries json f es.
Proof.
  split; [apply parse_sound|]. intros [-> H]. apply parse_entries; [exact H|lia].
Qed.
Lemma longest_concat f es : entries json f es -> longest json f (concat es) es.
Proof.
  intro H. split; [exact H|]. split; [exists []; rewrite app_nil_r; reflexivity|]. intros es' He' Hp.
  apply (entries_prefix f es es' []); auto. rewrite app_nil_r. exact Hp.
Qed.

Lemma lp_entry e : blen e < 2 ^ 64 -> entry json Binary (lp e).
Proof.
  intro H. cbn. exists (blen e), e. split; [|reflexivity]. unfold lp. pose proof (blen_nonneg e). apply read_uvarint_uvarint. lia.
Qed.
(* a proper prefix of an entry is no entry and holds none *)
Lemma torn_none f e torn more : entry json f e -> e = torn ++ more -> more <> [] -> torn = [] \/ load_next json f torn = None.
Proof.
  intros He Ee Hm. destruct (load_next json f torn) as [n|] eqn:E; [|right; reflexivity]. left.
  destruct (load_next_some _ _ _ E) as [e' [rest [Et [_ He']]]]. exfalso.
  assert (X : e ++ [] = e' ++ (rest ++ more)) by (rewrite app_nil_r, app_assoc, <- Et; exact Ee).
  destruct (entry_prefix _ _ _ _ _ He He' X) as [_ Y]. symmetry in Y. apply app_eq_nil in Y. destruct Y as [_ Y]. exact (Hm Y).
Qed.
Lemma longest_torn f es torn : entries json f es -> (torn = [] \/ load_next json f torn = None) -> longest json f (concat es ++ torn) es.
Proof.
  intros He Ht. split; [exact He|]. split; [exists torn; reflexivity|]. intros es' He' Hp. exact (entries_prefix f es es' torn He He' Ht Hp).
Qed.

Lemma truncate_spec f data es : longest json f data es ->
  truncate_corrupted_tail json f data = if (2 * length (concat es) =? length data)%nat then data else concat es.
Proof.
  intro Hl. destruct (longest_exists f data) as [es' [rest [Hd [Hl' [Hs Hr]]]]]. assert (es' = es) by (eapply longest_unique; eassumption). subst es'.
  unfold truncate_corrupted_tail. rewrite Hs.
  assert (L : length data = (length (concat es) + length rest)%nat) by (rewrite Hd at 1; apply app_length).
  destruct (length (concat es) =? length rest)%nat eqn:E.
  - replace (2 * length (concat es) =? length data)%nat with true; [reflexivity|]. symmetry. apply Nat.eqb_eq. apply Nat.eqb_eq in E. lia.
  - replace (2 * length (concat es) =? length data)%nat with false; [rewrite Hd; apply firstn_app_len|]. symmetry. apply Nat.eqb_neq. apply Nat.eqb_neq in E. lia.
Qed.
End P.
