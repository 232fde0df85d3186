From Verif Require Import Lib.Base Lib.Bytes Lib.Coins Vesting.Model Vesting.Spec.
Open Scope Z_scope.

(* ---------------- dated releases ---------------- *)

Lemma due_before ps : forall from t d, schedule_ok ps -> t < from -> due (releases from ps) t d = 0.
Proof.
  induction ps as [|p q IH]; intros from t d H Ht; [reflexivity|]. inversion H as [|? ? [H1 H2] H3]; subst. cbn [releases due].
  rewrite (IH _ t d H3) by lia. destruct (Z.leb_spec (from + plen p) t); lia.
Qed.
Lemma total_length_nonneg ps : schedule_ok ps -> 0 <= total_length ps.
Proof. induction 1 as [|p q [H1 _] _ IH]; cbn; lia. Qed.
Lemma due_after ps : forall from t d, schedule_ok ps -> from + total_length ps <= t -> due (releases from ps) t d = sum_of ps d.
Proof.
  induction ps as [|p q IH]; intros from t d H Ht; [reflexivity|]. inversion H as [|? ? [H1 H2] H3]; subst. cbn [releases due sum_of total_length] in *.
  pose proof (total_length_nonneg q H3). rewrite IH by (assumption || lia). destruct (Z.leb_spec (from + plen p) t); lia.
Qed.
Lemma due_nonneg ps : forall from t d, schedule_ok ps -> 0 <= due (releases from ps) t d <= sum_of ps d.
Proof.
  induction ps as [|p q IH]; intros from t d H; [cbn; lia|]. inversion H as [|? ? [H1 H2] H3]; subst. cbn [releases due sum_of].
  specialize (IH (from + plen p) t d H3). pose proof (valid_nonneg _ d H2). destruct (from + plen p <=? t); lia.
Qed.
Lemma due_mono ps : forall from t t' d, schedule_ok ps -> t <= t' -> due (releases from ps) t d <= due (releases from ps) t' d.
Proof.
  induction ps as [|p q IH]; intros from t t' d H Ht; [cbn; lia|]. inversion H as [|? ? [H1 H2] H3]; subst. cbn [releases due].
  specialize (IH (from + plen p) t t' d H3 Ht). pose proof (valid_nonneg _ d H2).
  destruct (Z.leb_spec (from + plen p) t); destruct (Z.leb_spec (from + plen p) t'); lia.
Qed.
Lemma sum_nonneg ps d : schedule_ok ps -> 0 <= sum_of ps d.
Proof. intro H. pose proof (due_nonneg ps 0 0 d H). lia. Qed.

Lemma total_amount_from_spec ps : forall acc, schedule_ok ps -> cvalid acc ->
  cvalid (total_amount_from acc ps) /\ forall d, amt (total_amount_from acc ps) d = amt acc d + sum_of ps d.
Proof.
  induction ps as [|p q IH]; intros acc H Ha; cbn [total_amount_from sum_of]; [split; [exact Ha|intro; lia]|].
  inversion H as [|? ? [H1 H2] H3]; subst. destruct (IH (cadd acc (pamt p)) H3 (cadd_valid _ _ Ha H2)) as [V E]. split; [exact V|].
  intro d. rewrite E, amt_cadd; [lia|apply Ha|apply H2].
Qed.
Lemma total_amount_is ps : schedule_ok ps -> total_is ps (total_amount ps).
Proof.
  intro H. destruct (total_amount_from_spec ps [] H cvalid_nil) as [V E]. split; [exact V|]. intro d. unfold total_amount. rewrite E. reflexivity.
Qed.

(* ---------------- reading ---------------- *)

Lemma read_loop_spec t ps : forall e acc, schedule_ok ps -> cvalid acc ->
  cvalid (read_loop t e acc ps) /\ forall d, amt (read_loop t e acc ps) d = amt acc d + due (releases e ps) t d.
Proof.
  induction ps as [|p q IH]; intros e acc H Ha; cbn [read_loop releases due]; [split; [exact Ha|intro; lia]|].
  inversion H as [|? ? [H1 H2] H3]; subst. destruct (Z.ltb_spec t (e + plen p)).
  - split; [exact Ha|]. intro d. rewrite due_before by assumption. destruct (Z.leb_spec (e + plen p) t); lia.
  - destruct (IH (e + plen p) (cadd acc (pamt p)) H3 (cadd_valid _ _ Ha H2)) as [V E]. split; [exact V|]. intro d.
    rewrite E, amt_cadd by (first [apply Ha|apply H2]). destruct (Z.leb_spec (e + plen p) t); lia.
Qed.
Lemma read_spec start end_ ps total t : schedule_ok ps -> total_is ps total -> start + total_length ps <= end_ ->
  cvalid (read_schedule start end_ ps total t) /\ forall d, amt (read_schedule start end_ ps total t) d = released start ps t d.
Proof.
  intros H [V T] He. unfold read_schedule, released. destruct (Z.leb_spec t start); [split; [apply cvalid_nil|reflexivity]|].
  destruct (Z.leb_spec end_ t).
  - split; [exact V|]. intro d. rewrite T. symmetry. apply due_after; [exact H|lia].
  - destruct (read_loop_spec t ps start [] H cvalid_nil) as [Vr Er]. split; [exact Vr|]. intro d. rewrite Er. reflexivity.
Qed.
Lemma released_bounds start ps t d : schedule_ok ps -> 0 <= released start ps t d <= sum_of ps d.
Proof.
  intro H. unfold released. pose proof (due_nonneg ps start t d H). destruct (t <=? start); lia.
Qed.
Lemma released_mono start ps t t' d : schedule_ok ps -> t <= t' -> released start ps t d <= released start ps t' d.
Proof.
  intros H Ht. unfold released. pose proof (due_mono ps start t t' d H Ht). pose proof (due_nonneg ps start t' d H).
  destruct (Z.leb_spec t start); destruct (Z.leb_spec t' start); lia.
Qed.

(* number of releases whose date has come *)
Fixpoint due_count (rs : list (Z * coins)) (t : Z) : nat :=
  match rs with [] => O | (e, _) :: q => Nat.add (if e <=? t then 1%nat else 0%nat) (due_count q t) end.
Lemma due_count_before ps : forall from t, schedule_ok ps -> t < from -> due_count (releases from ps) t = O.
Proof.
  induction ps as [|p q IH]; intros from t H Ht; [reflexivity|]. inversion H as [|? ? [H1 H2] H3]; subst. cbn [releases due_count].
  rewrite (IH _ t H3) by lia. destruct (Z.leb_spec (from + plen p) t); lia.
Qed.
Lemma due_count_after ps : forall from t, schedule_ok ps -> from + total_length ps <= t -> due_count (releases from ps) t = length ps.
Proof.
  induction ps as [|p q IH]; intros from t H Ht; [reflexivity|]. inversion H as [|? ? [H1 H2] H3]; subst. cbn [releases due_count length total_length] in *.
  pose proof (total_length_nonneg q H3). rewrite IH by (assumption || lia). destruct (Z.leb_spec (from + plen p) t); lia.
Qed.
Lemma count_loop_spec t ps : forall e, schedule_ok ps -> count_loop t e ps = due_count (releases e ps) t.
Proof.
  induction ps as [|p q IH]; intros e H; [reflexivity|]. inversion H as [|? ? [H1 H2] H3]; subst. cbn [count_loop releases due_count].
  destruct (Z.ltb_spec t (e + plen p)).
  - rewrite due_count_before by assumption. destruct (Z.leb_spec (e + plen p) t); lia.
  - rewrite (IH _ H3). destruct (Z.leb_spec (e + plen p) t); lia.
Qed.
Lemma count_spec start end_ ps t : schedule_ok ps -> start + total_length ps <= end_ ->
  read_past_period_count start end_ ps t = if t <=? start then O else due_count (releases start ps) t.
Proof.
  intros H He. unfold read_past_period_count. destruct (t <=? start); [reflexivity|]. destruct (Z.leb_spec end_ t).
  - symmetry. apply due_count_after; [exact H|lia].
  - apply count_loop_spec. exact H.
Qed.
(* the first [due_count] periods are exactly those whose date has come *)
Lemma firstn_due ps : forall from t d, schedule_ok ps ->
  sum_of (firstn (due_count (releases from ps) t) ps) d = due (releases from ps) t d.
Proof.
  induction ps as [|p q IH]; intros from t d H; [reflexivity|]. inversion H as [|? ? [H1 H2] H3]; subst. cbn [releases due_count due].
  destruct (Z.leb_spec (from + plen p) t).
  - cbn [Nat.add firstn sum_of]. rewrite (IH _ t d H3). lia.
  - rewrite due_count_before, due_before by (assumption || lia). reflexivity.
Qed.
Lemma firstn_date ps : forall from t, schedule_ok ps -> from <= t -> from + total_length (firstn (due_count (releases from ps) t) ps) <= t.
Proof.
  induction ps as [|p q IH]; intros from t H Hf; [cbn; lia|]. inversion H as [|? ? [H1 H2] H3]; subst. cbn [releases due_count].
  destruct (Z.leb_spec (from + plen p) t) as [L|L].
  - cbn [Nat.add firstn total_length]. specialize (IH _ t H3 L). lia.
  - rewrite due_count_before by (assumption || lia). cbn. lia.
Qed.
Lemma firstn_ok n ps : schedule_ok ps -> schedule_ok (firstn n ps).
Proof. unfold schedule_ok. rewrite !Forall_forall. intros H p Hp. apply H. rewrite <- (firstn_skipn n ps). apply in_or_app. left. exact Hp. Qed.
Lemma firstn_released ps : forall from t t' d, schedule_ok ps -> t' <= t ->
  due (releases from (firstn (due_count (releases from ps) t) ps)) t' d = due (releases from ps) t' d.
Proof.
  induction ps as [|p q IH]; intros from t t' d H Hle; [reflexivity|]. inversion H as [|? ? [H1 H2] H3]; subst. cbn [releases due_count].
  destruct (Z.leb_spec (from + plen p) t) as [L|L].
  - cbn [Nat.add firstn releases due]. rewrite IH by assumption. reflexivity.
  - rewrite due_count_before by (assumption || lia). cbn [Nat.add firstn releases due]. rewrite due_before by (assumption || lia).
    destruct (Z.leb_spec (from + plen p) t'); lia.
Qed.

(* ---------------- merging ---------------- *)

(* e is not after the first date of a schedule *)
Definition first_ge (e t : Z) (ps : periods) : Prop := match ps with [] => True | p :: _ => e <= t + plen p end.
Lemma first_ge_ok t ps : schedule_ok ps -> first_ge t t ps.
Proof. destruct 1 as [|p q [H1 _] _]; cbn; lia. Qed.

Lemma disj_spec pa : forall ta tb pb e, schedule_ok pa -> schedule_ok pb -> first_ge e ta pa -> first_ge e tb pb ->
  schedule_ok (snd (disj pa ta tb pb e)) /\ fst (disj pa ta tb pb e) = e + total_length (snd (disj pa ta tb pb e)) /\
  (forall d, sum_of (snd (disj pa ta tb pb e)) d = sum_of pa d + sum_of pb d) /\
  forall t d, due (releases e (snd (disj pa ta tb pb e))) t d = due (releases ta pa) t d + due (releases tb pb) t d.
Proof.
  induction pa as [|a pa IHa]; intros ta tb pb; revert tb.
  - induction pb as [|b pb IHb]; intros tb e Ha Hb Fa Fb.
    + cbn. repeat split; try constructor; intros; lia.
    + inversion Hb as [|? ? [L V] Hb']; subst. cbn [first_ge] in Fb.
      change (disj [] ta tb (b :: pb) e) with (emit e (tb + plen b) (pamt b) (disj [] ta (tb + plen b) pb (tb + plen b))).
      destruct (IHb (tb + plen b) (tb + plen b) Ha Hb' I (first_ge_ok _ _ Hb')) as [S [E [T D]]].
      unfold emit. cbn [fst snd]. split; [constructor; [split; [cbn [plen]; lia|exact V]|exact S]|].
      split; [cbn [total_length plen]; lia|]. split; [intro d; cbn [sum_of pamt]; rewrite T; cbn [sum_of]; lia|].
      intros t d. cbn [releases due plen pamt]. replace (e + (tb + plen b - e)) with (tb + plen b) by lia. rewrite D. cbn [releases due]. lia.
  - induction pb as [|b pb IHb]; intros tb e Ha Hb Fa Fb; inversion Ha as [|? ? [La Va] Ha']; subst; cbn [first_ge] in Fa.
    + change (disj (a :: pa) ta tb [] e) with (emit e (ta + plen a) (pamt a) (disj pa (ta + plen a) tb [] (ta + plen a))).
      destruct (IHa (ta + plen a) tb [] (ta + plen a) Ha' Hb (first_ge_ok _ _ Ha') I) as [S [E [T D]]].
      unfold emit. cbn [fst snd]. split; [constructor; [split; [cbn [plen]; lia|exact Va]|exact S]|].
      split; [cbn [total_length plen]; lia|]. split; [intro d; cbn [sum_of pamt]; rewrite T; cbn [sum_of]; lia|].
      intros t d. cbn [releases due plen pamt]. replace (e + (ta + plen a - e)) with (ta + plen a) by lia. rewrite D. cbn [releases due]. lia.
    + inversion Hb as [|? ? [Lb Vb] Hb']; subst. cbn [first_ge] in Fb.
      change (disj (a :: pa) ta tb (b :: pb) e) with
        (match ta + plen a ?= tb + plen b with
         | Lt => emit e (ta + plen a) (pamt a) (disj pa (ta + plen a) tb (b :: pb) (ta + plen a))
         | Gt => emit e (tb + plen b) (pamt b) (disj (a :: pa) ta (tb + plen b) pb (tb + plen b))
         | Eq => emit e (ta + plen a) (cadd (pamt a) (pamt b)) (disj pa (ta + plen a) (ta + plen a) pb (ta + plen a)) end).
      destruct (Z.compare_spec (ta + plen a) (tb + plen b)) as [C|C|C].
      * destruct (IHa (ta + plen a) (ta + plen a) pb (ta + plen a) Ha' Hb' (first_ge_ok _ _ Ha') (first_ge_ok _ _ Hb')) as [S [E [T D]]].
        unfold emit. cbn [fst snd]. split; [constructor; [split; [cbn [plen]; lia|apply cadd_valid; assumption]|exact S]|].
        split; [cbn [total_length plen]; lia|].
        split; [intro d; cbn [sum_of pamt]; rewrite T, amt_cadd by (first [apply Va|apply Vb]); lia|].
        intros t d. cbn [releases due plen pamt]. replace (e + (ta + plen a - e)) with (ta + plen a) by lia. rewrite D, amt_cadd by (first [apply Va|apply Vb]).
        rewrite <- C. destruct (ta + plen a <=? t); lia.
      * assert (F : first_ge (ta + plen a) tb (b :: pb)) by (cbn; lia).
        destruct (IHa (ta + plen a) tb (b :: pb) (ta + plen a) Ha' Hb (first_ge_ok _ _ Ha') F) as [S [E [T D]]].
        unfold emit. cbn [fst snd]. split; [constructor; [split; [cbn [plen]; lia|exact Va]|exact S]|].
        split; [cbn [total_length plen]; lia|]. split; [intro d; cbn [sum_of pamt]; rewrite T; cbn [sum_of]; lia|].
        intros t d. cbn [releases due plen pamt]. replace (e + (ta + plen a - e)) with (ta + plen a) by lia. rewrite D. cbn [releases due]. lia.
      * assert (F : first_ge (tb + plen b) ta (a :: pa)) by (cbn; lia).
        destruct (IHb (tb + plen b) (tb + plen b) Ha Hb' F (first_ge_ok _ _ Hb')) as [S [E [T D]]].
        unfold emit. cbn [fst snd]. split; [constructor; [split; [cbn [plen]; lia|exact Vb]|exact S]|].
        split; [cbn [total_length plen]; lia|]. split; [intro d; cbn [sum_of pamt]; rewrite T; cbn [sum_of]; lia|].
        intros t d. cbn [releases due plen pamt]. replace (e + (tb + plen b - e)) with (tb + plen b) by lia. rewrite D. cbn [releases due]. lia.
Qed.

(* ---------------- conjunction ---------------- *)

Definition cst_ok (s : cst) : Prop :=
  cvalid (totA s) /\ cvalid (totB s) /\ cvalid (resulting s) /\ forall d, amt (resulting s) d = Z.min (amt (totA s) d) (amt (totB s) d).

(* what one event may do: emit the growth of the minimum, or nothing when it has not grown *)
Definition step_ok (next : Z) (s : cst) (a b : coins) (o : option period) (s' : cst) : Prop :=
  totA s' = a /\ totB s' = b /\ cst_ok s' /\
  match o with
  | None => s' = Cst a b (resulting s) (lastT s)
  | Some p => plen p = next - lastT s /\ lastT s' = next /\ cvalid (pamt p) /\ forall d, amt (pamt p) d = amt (resulting s') d - amt (resulting s) d
  end.

Lemma conj_emit_spec next a b r l : cvalid a -> cvalid b -> cvalid r -> (forall d, amt r d <= Z.min (amt a d) (amt b d)) ->
  exists o s', conj_emit next (Cst a b r l) = Ok (o, s') /\ step_ok next (Cst a b r l) a b o s'.
Proof.
  intros Va Vb Vr Hle. unfold conj_emit. cbn [totA totB resulting lastT]. pose proof (cmin_valid a b Va Vb) as Vm.
  assert (Hm : forall d, amt r d <= amt (cmin a b) d) by (intro d; rewrite amt_cmin by (first [apply Va|apply Vb]); apply Hle).
  rewrite (proj2 (call_lte_spec r (cmin a b) Vr Vm) Hm). destruct (csub_ok _ _ Vm Vr Hm) as [diff [E [Vd Ed]]]. rewrite E. cbn [rbind].
  destruct (cis_zero diff) eqn:Z0.
  - eexists _, _. split; [reflexivity|]. split; [reflexivity|]. split; [reflexivity|]. split; [|reflexivity].
    split; [exact Va|]. split; [exact Vb|]. split; [exact Vr|]. intro d. cbn [totA totB resulting].
    pose proof (proj1 (cis_zero_amt diff Vd) Z0 d) as Zd. rewrite Ed, amt_cmin in Zd by (first [apply Va|apply Vb]). lia.
  - eexists _, _. split; [reflexivity|]. split; [reflexivity|]. split; [reflexivity|]. split.
    + split; [exact Va|]. split; [exact Vb|]. split; [apply cadd_valid; assumption|]. intro d. cbn [totA totB resulting].
      rewrite amt_cadd by (first [apply Vr|apply Vd]). rewrite Ed, amt_cmin by (first [apply Va|apply Vb]). lia.
    + cbn [plen pamt lastT resulting]. split; [reflexivity|]. split; [reflexivity|]. split; [exact Vd|]. intro d.
      rewrite amt_cadd by (first [apply Vr|apply Vd]). lia.
Qed.

(* the remaining loop on state s with remaining dated releases ra, rb *)
Definition conj_done (s : cst) (da db : Z -> bytes -> Z) (r : res (Z * periods)) : Prop :=
  exists e ps, r = Ok (e, ps) /\ schedule_ok ps /\ e = lastT s + total_length ps /\
    forall t d, due (releases (lastT s) ps) t d = Z.min (amt (totA s) d + da t d) (amt (totB s) d + db t d) - amt (resulting s) d.

Lemma conj_step_spec next s a b taken k da db :
  cst_ok s -> lastT s <= next ->
  (forall d, amt (totA s) d <= amt a d) -> (forall d, amt (totB s) d <= amt b d) ->
  (exists o s', taken = Ok (o, s') /\ step_ok next s a b o s') ->
  (forall s', cst_ok s' -> totA s' = a -> totB s' = b -> lastT s' <= next -> conj_done s' da db (k s')) ->
  (forall t d, t < next -> da t d = 0 /\ db t d = 0) ->
  conj_done s (fun t d => (if next <=? t then amt a d - amt (totA s) d else 0) + da t d)
              (fun t d => (if next <=? t then amt b d - amt (totB s) d else 0) + db t d) (conj_step taken k).
Proof.
  intros Hs Hl Ha Hb [o [s' [Et [EA [EB [Os Ho]]]]]] Hk Hbefore. unfold conj_step. rewrite Et. cbn [rbind].
  destruct Hs as [_ [_ [_ Hmin]]]. pose proof Os as [_ [_ [_ Hmin']]].
  destruct o as [p|].
  - destruct Ho as [Lp [Ll [Vp Ep]]]. assert (L' : lastT s' <= next) by lia.
    destruct (Hk s' Os EA EB L') as [e [ps [Ek [Sk [Te D]]]]]. rewrite Ek. cbn [rbind]. exists e, (p :: ps). split; [reflexivity|].
    split; [constructor; [split; [lia|exact Vp]|exact Sk]|]. split; [cbn [total_length]; lia|].
    intros t d. cbn [releases due]. replace (lastT s + plen p) with (lastT s') by lia. rewrite D, Ep, Ll, EA, EB. rewrite (Hmin' d), (Hmin d), EA, EB.
    specialize (Ha d). specialize (Hb d). destruct (Z.leb_spec next t); [lia|]. destruct (Hbefore t d H) as [-> ->]. lia.
  - subst s'. cbn [totA totB resulting lastT] in *. assert (L' : lastT s <= next) by lia.
    destruct (Hk _ Os eq_refl eq_refl L') as [e [ps [Ek [Sk [Te D]]]]]. rewrite Ek. cbn [rbind]. exists e, ps. split; [reflexivity|].
    split; [exact Sk|]. split; [exact Te|]. intros t d. cbn [totA totB resulting lastT] in *. rewrite D. rewrite (Hmin' d).
    pose proof (Hmin d) as Hm. rewrite (Hmin' d) in Hm.
    specialize (Ha d). specialize (Hb d). destruct (Z.leb_spec next t); [lia|]. destruct (Hbefore t d H) as [-> ->]. lia.
Qed.
Lemma conj_done_ext s da db da' db' r : (forall t d, da t d = da' t d) -> (forall t d, db t d = db' t d) -> conj_done s da db r -> conj_done s da' db' r.
Proof.
  intros EA EB [e [ps [H1 [H2 [H3 H4]]]]]. exists e, ps. split; [exact H1|]. split; [exact H2|]. split; [exact H3|]. intros t d. rewrite H4, EA, EB. reflexivity.
Qed.

Lemma take_a_spec next s a : cst_ok s -> cvalid a -> exists o s', take_a a next s = Ok (o, s') /\ step_ok next s (cadd (totA s) a) (totB s) o s'.
Proof.
  intros [Va [Vb [Vr Hm]]] V. unfold take_a.
  destruct (conj_emit_spec next (cadd (totA s) a) (totB s) (resulting s) (lastT s) (cadd_valid _ _ Va V) Vb Vr) as [o [s' [E H]]].
  { intro d. rewrite amt_cadd by (first [apply Va|apply V]). pose proof (valid_nonneg a d V). rewrite Hm. lia. }
  exists o, s'. split; [exact E|]. exact H.
Qed.
Lemma take_b_spec next s b : cst_ok s -> cvalid b -> exists o s', take_b b next s = Ok (o, s') /\ step_ok next s (totA s) (cadd (totB s) b) o s'.
Proof.
  intros [Va [Vb [Vr Hm]]] V. unfold take_b.
  destruct (conj_emit_spec next (totA s) (cadd (totB s) b) (resulting s) (lastT s) Va (cadd_valid _ _ Vb V) Vr) as [o [s' [E H]]].
  { intro d. rewrite amt_cadd by (first [apply Vb|apply V]). pose proof (valid_nonneg b d V). rewrite Hm. lia. }
  exists o, s'. split; [exact E|]. exact H.
Qed.
Lemma conj_take_spec next s a b : cst_ok s -> cvalid a -> cvalid b ->
  exists o s', conj_take a b next s = Ok (o, s') /\ step_ok next s (cadd (totA s) a) (cadd (totB s) b) o s'.
Proof.
  intros [Va [Vb [Vr Hm]]] VA VB. unfold conj_take.
  destruct (conj_emit_spec next (cadd (totA s) a) (cadd (totB s) b) (resulting s) (lastT s) (cadd_valid _ _ Va VA) (cadd_valid _ _ Vb VB) Vr) as [o [s' [E H]]].
  { intro d. rewrite !amt_cadd by (first [apply Va|apply Vb|apply VA|apply VB]). pose proof (valid_nonneg a d VA). pose proof (valid_nonneg b d VB). rewrite Hm. lia. }
  exists o, s'. split; [exact E|]. exact H.
Qed.

Lemma conj_loop_spec pa : forall ta tb pb s, schedule_ok pa -> schedule_ok pb -> cst_ok s -> first_ge (lastT s) ta pa -> first_ge (lastT s) tb pb ->
  conj_done s (due (releases ta pa)) (due (releases tb pb)) (conj_loop pa ta tb pb s).
Proof.
  induction pa as [|a pa IHa]; intros ta tb pb; revert tb.
  - induction pb as [|b pb IHb]; intros tb s Ha Hb Hs Fa Fb.
    + exists (lastT s), []. split; [reflexivity|]. split; [constructor|]. split; [cbn; lia|]. intros t d. cbn [releases due].
      destruct Hs as [_ [_ [_ Hm]]]. rewrite Hm. lia.
    + inversion Hb as [|? ? [L V] Hb']; subst. cbn [first_ge] in Fb.
      change (conj_loop [] ta tb (b :: pb) s) with (conj_step (take_b (pamt b) (tb + plen b) s) (conj_loop [] ta (tb + plen b) pb)).
      pose proof Hs as [Va [Vb _]].
      eapply conj_done_ext; [| |eapply (conj_step_spec (tb + plen b) s (totA s) (cadd (totB s) (pamt b)) _ _ (due (releases ta [])) (due (releases (tb + plen b) pb)) Hs Fb)].
      * intros t d. cbn [releases due]. destruct (tb + plen b <=? t); lia.
      * intros t d. cbn [releases due]. rewrite amt_cadd by (first [apply Vb|apply V]). destruct (tb + plen b <=? t); lia.
      * intro d. lia.
      * intro d. rewrite amt_cadd by (first [apply Vb|apply V]). pose proof (valid_nonneg (pamt b) d V). lia.
      * apply take_b_spec; assumption.
      * intros s' Hs' EA EB Hl. apply IHb; try assumption. destruct pb as [|b' pb']; [exact I|]. inversion Hb' as [|? ? [L' _] _]; subst. cbn. lia.
      * intros t d Ht. split; [reflexivity|apply due_before; assumption].
  - induction pb as [|b pb IHb]; intros tb s Ha Hb Hs Fa Fb; inversion Ha as [|? ? [La VA] Ha']; subst; cbn [first_ge] in Fa; pose proof Hs as [Va [Vb _]].
    + change (conj_loop (a :: pa) ta tb [] s) with (conj_step (take_a (pamt a) (ta + plen a) s) (conj_loop pa (ta + plen a) tb [])).
      eapply conj_done_ext; [| |eapply (conj_step_spec (ta + plen a) s (cadd (totA s) (pamt a)) (totB s) _ _ (due (releases (ta + plen a) pa)) (due (releases tb [])) Hs Fa)].
      * intros t d. cbn [releases due]. rewrite amt_cadd by (first [apply Va|apply VA]). destruct (ta + plen a <=? t); lia.
      * intros t d. cbn [releases due]. destruct (ta + plen a <=? t); lia.
      * intro d. rewrite amt_cadd by (first [apply Va|apply VA]). pose proof (valid_nonneg (pamt a) d VA). lia.
      * intro d. lia.
      * apply take_a_spec; assumption.
      * intros s' Hs' EA EB Hl. apply IHa; try assumption; try exact I. destruct pa as [|a' pa']; [exact I|]. inversion Ha' as [|? ? [L' _] _]; subst. cbn. lia.
      * intros t d Ht. split; [apply due_before; assumption|reflexivity].
    + inversion Hb as [|? ? [Lb VB] Hb']; subst. cbn [first_ge] in Fb.
      change (conj_loop (a :: pa) ta tb (b :: pb) s) with
        (match ta + plen a ?= tb + plen b with
         | Lt => conj_step (take_a (pamt a) (ta + plen a) s) (conj_loop pa (ta + plen a) tb (b :: pb))
         | Gt => conj_step (take_b (pamt b) (tb + plen b) s) (conj_loop (a :: pa) ta (tb + plen b) pb)
         | Eq => conj_step (conj_take (pamt a) (pamt b) (ta + plen a) s) (conj_loop pa (ta + plen a) (ta + plen a) pb) end).
      destruct (Z.compare_spec (ta + plen a) (tb + plen b)) as [C|C|C].
      * eapply conj_done_ext; [| |eapply (conj_step_spec (ta + plen a) s (cadd (totA s) (pamt a)) (cadd (totB s) (pamt b)) _ _ (due (releases (ta + plen a) pa)) (due (releases (ta + plen a) pb)) Hs Fa)].
        -- intros t d. cbn [releases due]. rewrite amt_cadd by (first [apply Va|apply VA]). destruct (ta + plen a <=? t); lia.
        -- intros t d. cbn [releases due]. rewrite amt_cadd by (first [apply Vb|apply VB]). rewrite C. destruct (tb + plen b <=? t); lia.
        -- intro d. rewrite amt_cadd by (first [apply Va|apply VA]). pose proof (valid_nonneg (pamt a) d VA). lia.
        -- intro d. rewrite amt_cadd by (first [apply Vb|apply VB]). pose proof (valid_nonneg (pamt b) d VB). lia.
        -- apply conj_take_spec; assumption.
        -- intros s' Hs' EA EB Hl. apply IHa; try assumption.
           ++ destruct pa as [|a' pa']; [exact I|]. inversion Ha' as [|? ? [L' _] _]; subst. cbn. lia.
           ++ destruct pb as [|b' pb']; [exact I|]. inversion Hb' as [|? ? [L' _] _]; subst. cbn. lia.
        -- intros t d Ht. split; apply due_before; assumption.
      * eapply conj_done_ext; [| |eapply (conj_step_spec (ta + plen a) s (cadd (totA s) (pamt a)) (totB s) _ _ (due (releases (ta + plen a) pa)) (due (releases tb (b :: pb))) Hs Fa)].
        -- intros t d. cbn [releases due]. rewrite amt_cadd by (first [apply Va|apply VA]). destruct (ta + plen a <=? t); lia.
        -- intros t d. cbv beta. destruct (ta + plen a <=? t); lia.
        -- intro d. rewrite amt_cadd by (first [apply Va|apply VA]). pose proof (valid_nonneg (pamt a) d VA). lia.
        -- intro d. lia.
        -- apply take_a_spec; assumption.
        -- intros s' Hs' EA EB Hl. apply IHa; try assumption; [|cbn; lia].
           destruct pa as [|a' pa']; [exact I|]. inversion Ha' as [|? ? [L' _] _]; subst. cbn. lia.
        -- intros t d Ht. split; [apply due_before; assumption|]. cbn [releases due]. rewrite due_before by (assumption || lia). destruct (Z.leb_spec (tb + plen b) t); lia.
      * eapply conj_done_ext; [| |eapply (conj_step_spec (tb + plen b) s (totA s) (cadd (totB s) (pamt b)) _ _ (due (releases ta (a :: pa))) (due (releases (tb + plen b) pb)) Hs Fb)].
        -- intros t d. cbv beta. destruct (tb + plen b <=? t); lia.
        -- intros t d. cbn [releases due]. rewrite amt_cadd by (first [apply Vb|apply VB]). destruct (tb + plen b <=? t); lia.
        -- intro d. lia.
        -- intro d. rewrite amt_cadd by (first [apply Vb|apply VB]). pose proof (valid_nonneg (pamt b) d VB). lia.
        -- apply take_b_spec; assumption.
        -- intros s' Hs' EA EB Hl. apply IHb; try assumption; [cbn; lia|].
           destruct pb as [|b' pb']; [exact I|]. inversion Hb' as [|? ? [L' _] _]; subst. cbn. lia.
        -- intros t d Ht. split; [|apply due_before; assumption]. cbn [releases due]. rewrite due_before by (assumption || lia). destruct (Z.leb_spec (ta + plen a) t); lia.
Qed.
