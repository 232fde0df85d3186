From Verif Require Import Lib.Base Lib.Bytes Lib.Codec Extsort.Model Extsort.Spec.
Open Scope Z_scope.

(* ---------------- codecs ---------------- *)

Lemma rd_uvarint_uvarint x rest : 0 <= x < 2 ^ 64 -> rd_uvarint (uvarint x ++ rest) = Item (x, rest).
Proof.
  intro H. pose proof (read_uvarint_uvarint x rest H) as E. unfold rd_uvarint. destruct (uvarint x ++ rest); [discriminate|]. rewrite E. reflexivity.
Qed.
Lemma rd_full_app a b : rd_full (length a) (a ++ b) = Item (a, b).
Proof.
  destruct a as [|x a]; [reflexivity|]. cbn [rd_full app length].
  replace (S (length (a ++ b)) <? S (length a))%nat with false by (symmetry; apply Nat.ltb_ge; rewrite app_length; lia).
  cbn [firstn skipn]. f_equal. f_equal.
  - f_equal. induction a; [reflexivity|]. cbn. rewrite IHa. reflexivity.
  - induction a; [reflexivity|]. cbn. exact IHa.
Qed.
Lemma diff_offset_spec a : forall b, (diff_offset a b <= length a)%nat /\ (diff_offset a b <= length b)%nat /\ firstn (diff_offset a b) a = firstn (diff_offset a b) b.
Proof.
  induction a as [|x a IH]; intros [|y b]; cbn [diff_offset]; try (cbn; repeat split; lia).
  destruct (N.eqb x y) eqn:E; [|cbn; repeat split; lia]. apply N.eqb_eq in E. subst y. destruct (IH b) as [H1 [H2 H3]].
  cbn [length firstn]. rewrite H3. repeat split; lia.
Qed.
Lemma delta_read_write last key rest : blen key < 2 ^ 63 -> delta_read last (delta_write last key ++ rest) = Item (key, rest).
Proof.
  intro Hk. unfold delta_write, delta_read. destruct (diff_offset_spec last key) as [H1 [H2 H3]]. set (sh := diff_offset last key) in *.
  unfold blen in *. rewrite <- !app_assoc. rewrite rd_uvarint_uvarint by lia. cbn [rd_bind]. rewrite rd_uvarint_uvarint by lia. cbn [rd_bind].
  rewrite Z.mod_small by lia.
  destruct ((2 ^ 63 <=? Z.of_nat sh + Z.of_nat (length key - sh)) || (Z.of_nat sh + Z.of_nat (length key - sh) <? Z.of_nat sh) || (Z.of_nat (length last) <? Z.of_nat sh)) eqn:E.
  { exfalso. apply orb_true_iff in E. destruct E as [E|E]; [apply orb_true_iff in E; destruct E as [E|E]|]; lia. }
  replace (Z.to_nat (Z.of_nat sh + Z.of_nat (length key - sh) - Z.of_nat sh)) with (length (skipn sh key)) by (rewrite skipn_length; lia).
  rewrite rd_full_app. cbn [rd_bind]. rewrite Nat2Z.id, H3, firstn_skipn. reflexivity.
Qed.
Lemma plain_read_write key rest : blen key < 2 ^ 63 -> plain_read (uvarint (blen key) ++ key ++ rest) = Item (key, rest).
Proof.
  intro Hk. unfold plain_read. pose proof (blen_nonneg key). rewrite rd_uvarint_uvarint by lia. cbn [rd_bind].
  replace (2 ^ 63 <=? blen key) with false by lia. unfold blen. rewrite Nat2Z.id, rd_full_app. reflexivity.
Qed.
Lemma yields_delta items : forall last, Forall (fun k => blen k < 2 ^ 63) items -> yields (Stream true last (delta_encode last items)) items.
Proof.
  induction items as [|k ks IH]; intros last H; cbn [delta_encode].
  - constructor. reflexivity.
  - inversion H; subst. eapply yields_cons; [|apply IH; assumption]. unfold stream_next. cbn [st_delta st_last st_rest].
    rewrite delta_read_write by assumption. reflexivity.
Qed.
Lemma yields_plain items : forall last, Forall (fun k => blen k < 2 ^ 63) items -> yields (Stream false last (plain_encode items)) items.
Proof.
  induction items as [|k ks IH]; intros last H; cbn [plain_encode].
  - constructor. reflexivity.
  - inversion H; subst. eapply yields_cons; [|apply IH; assumption]. unfold stream_next. cbn [st_delta st_last st_rest].
    rewrite plain_read_write by assumption. reflexivity.
Qed.

(* ---------------- arrays ---------------- *)

Lemma upd_length {A} (h : list A) i x : length (upd h i x) = length h.
Proof. revert i. induction h; intros [|i]; cbn; auto. Qed.
Lemma nth_upd_eq {A} (h : list A) i x : (i < length h)%nat -> nth_error (upd h i x) i = Some x.
Proof. revert i. induction h; intros [|i] H; cbn in *; try lia; [reflexivity|]. apply IHh. lia. Qed.
Lemma nth_upd_ne {A} (h : list A) i j x : i <> j -> nth_error (upd h i x) j = nth_error h j.
Proof. revert i j. induction h; intros [|i] [|j] H; cbn; try reflexivity; try lia. apply IHh. lia. Qed.
Lemma upd_app {A} (a b : list A) i x : (i < length a)%nat -> upd (a ++ b) i x = upd a i x ++ b.
Proof. revert i. induction a; intros [|i] H; cbn in *; try lia; [reflexivity|]. rewrite IHa by lia. reflexivity. Qed.

Section H.
Variable less : bytes -> bytes -> bool.
Hypothesis W : weak_order less.
Notation le := (le_of less).
Lemma le_refl a : le a a.
Proof. unfold le_of. destruct (less a a) eqn:E; [|reflexivity]. pose proof (proj1 W a a E). congruence. Qed.
Lemma le_trans a b c : le a b -> le b c -> le a c.
Proof. unfold le_of. intros. exact (proj2 W a b c H H0). Qed.
Lemma less_le a b : less a b = true -> le a b.
Proof. intro H. exact (proj1 W a b H). Qed.

Lemma swap_ok h i j : (i < length h)%nat -> (j < length h)%nat -> i <> j -> exists h', swap h i j = Ok h' /\ length h' = length h /\ Permutation h h' /\
  nth_error h' i = nth_error h j /\ nth_error h' j = nth_error h i /\ (forall k, k <> i -> k <> j -> nth_error h' k = nth_error h k).
Proof.
  intros Hi Hj Hn. unfold swap. destruct (nth_error h i) as [a|] eqn:Ea; [|apply nth_error_None in Ea; lia].
  destruct (nth_error h j) as [b|] eqn:Eb; [|apply nth_error_None in Eb; lia]. exists (upd (upd h i b) j a).
  assert (L : length (upd (upd h i b) j a) = length h) by (rewrite !upd_length; reflexivity).
  assert (A1 : nth_error (upd (upd h i b) j a) i = Some b) by (rewrite nth_upd_ne by lia; apply nth_upd_eq; exact Hi).
  assert (A2 : nth_error (upd (upd h i b) j a) j = Some a) by (apply nth_upd_eq; rewrite upd_length; exact Hj).
  assert (A3 : forall k, k <> i -> k <> j -> nth_error (upd (upd h i b) j a) k = nth_error h k) by (intros; rewrite !nth_upd_ne by lia; reflexivity).
  split; [reflexivity|]. split; [exact L|]. split; [|auto].
  apply Permutation_nth_error. split; [symmetry; exact L|].
  exists (fun k => if (k =? i)%nat then j else if (k =? j)%nat then i else k). split.
  - intros x y. destruct (Nat.eqb_spec x i), (Nat.eqb_spec x j), (Nat.eqb_spec y i), (Nat.eqb_spec y j); lia.
  - intro k. destruct (Nat.eqb_spec k i); [subst; congruence|]. destruct (Nat.eqb_spec k j); [subst; congruence|]. auto.
Qed.
Lemma less_at_ok h i j : (i < length h)%nat -> (j < length h)%nat -> exists a b, nth_error h i = Some a /\ nth_error h j = Some b /\ less_at less h i j = Ok (less (fst a) (fst b)).
Proof.
  intros Hi Hj. unfold less_at. destruct (nth_error h i) as [a|] eqn:Ea; [|apply nth_error_None in Ea; lia].
  destruct (nth_error h j) as [b|] eqn:Eb; [|apply nth_error_None in Eb; lia]. eauto.
Qed.

(* ---------------- heap order ---------------- *)

Definition child (p k : nat) : Prop := k = (2 * p + 1)%nat \/ k = (2 * p + 2)%nat.
Definition edge (h : heap) (p k : nat) : Prop := forall a b, nth_error h p = Some a -> nth_error h k = Some b -> le (fst a) (fst b).
Definition heap_from (lo : nat) (h : heap) : Prop := forall p k, (lo <= p)%nat -> child p k -> edge h p k.
(* all edges but those below i, and the edges that would appear if i were lifted *)
Definition hole (lo i : nat) (h : heap) : Prop :=
  (forall p k, (lo <= p)%nat -> child p k -> p <> i -> edge h p k) /\
  (forall q k, (lo <= q)%nat -> child q i -> child i k -> edge h q k).

Lemma down_ok fuel : forall h i lo, hole lo i h -> (lo <= i)%nat -> (i < length h)%nat -> (length h <= fuel + i)%nat ->
  exists h' i', down less fuel h i (length h) = Ok (h', i') /\ Permutation h h' /\ length h' = length h /\ heap_from lo h' /\ (i <= i')%nat.
Proof.
  induction fuel as [|f IH]; intros h i lo Hh Hlo Hi Hf; [lia|]. cbn [down].
  destruct Hh as [Hh1 Hh2]. destruct (Nat.leb_spec (length h) (2 * i + 1)) as [Hl|Hl].
  { exists h, i. split; [reflexivity|]. split; [apply Permutation_refl|]. split; [reflexivity|]. split; [|lia].
    intros p k Hp Hc. destruct (Nat.eq_dec p i) as [->|Hne]; [|exact (Hh1 p k Hp Hc Hne)].
    intros a b _ Hb. exfalso. assert (k < length h)%nat by (apply nth_error_Some; congruence). destruct Hc; lia. }
  set (j1 := (2 * i + 1)%nat) in *.
  assert (J : exists b, (if (j1 + 1 <? length h)%nat then less_at less h (j1 + 1) j1 else Ok false) = Ok b /\
            let j := if b then (j1 + 1)%nat else j1 in (j < length h)%nat /\ child i j /\ (forall k, child i k -> edge h j k)).
  { destruct (Nat.ltb_spec (j1 + 1) (length h)) as [H2|H2].
    - destruct (less_at_ok h (j1 + 1) j1 H2 Hl) as [a [b [Ea [Eb Ec]]]]. rewrite Ec. eexists. split; [reflexivity|]. cbv zeta.
      destruct (less (fst a) (fst b)) eqn:Eab.
      + split; [exact H2|]. split; [right; lia|]. intros k [Hk|Hk] x y Hx Hy.
        * replace k with j1 in Hy by lia. rewrite Ea in Hx. rewrite Eb in Hy. inversion Hx; inversion Hy; subst. apply less_le. exact Eab.
        * replace k with (j1 + 1)%nat in Hy by lia. rewrite Ea in *. inversion Hx; inversion Hy; subst. apply le_refl.
      + split; [exact Hl|]. split; [left; lia|]. intros k [Hk|Hk] x y Hx Hy.
        * replace k with j1 in Hy by lia. rewrite Eb in *. inversion Hx; inversion Hy; subst. apply le_refl.
        * replace k with (j1 + 1)%nat in Hy by lia. rewrite Eb in Hx. rewrite Ea in Hy. inversion Hx; inversion Hy; subst. exact Eab.
    - exists false. split; [reflexivity|]. cbv zeta. split; [exact Hl|]. split; [left; lia|]. intros k [Hk|Hk] x y Hx Hy.
      + replace k with j1 in Hy by lia. rewrite Hx in Hy. inversion Hy; subst. apply le_refl.
      + exfalso. assert (k < length h)%nat by (apply nth_error_Some; congruence). lia. }
  destruct J as [b [-> HJ]]. cbn [rbind]. cbv zeta in HJ. set (j := if b then (j1 + 1)%nat else j1) in *. destruct HJ as [Hj [Hc Hmin]].
  assert (Hij : (i < j)%nat) by (destruct Hc; lia).
  destruct (less_at_ok h j i Hj Hi) as [xj [xi [Exj [Exi Ec]]]]. rewrite Ec. cbn [rbind]. destruct (less (fst xj) (fst xi)) eqn:El.
  - destruct (swap_ok h i j Hi Hj ltac:(lia)) as [h' [Es [Ln [Pm [Si [Sj So]]]]]]. rewrite Es. cbn [rbind]. rewrite <- Ln.
    destruct (IH h' j lo) as [h2 [i2 [E2 [P2 [L2 [Hf2 Hi2]]]]]].
    + split.
      * intros p k Hp Hck Hne. destruct (Nat.eq_dec p i) as [->|Hpi].
        -- destruct (Nat.eq_dec k j) as [->|Hkj].
           ++ intros x y Hx Hy. rewrite Si in Hx. rewrite Sj in Hy. rewrite Exj in Hx. rewrite Exi in Hy. inversion Hx; inversion Hy; subst. apply less_le. exact El.
           ++ intros x y Hx Hy. rewrite Si in Hx. rewrite So in Hy by (destruct Hck; lia). exact (Hmin k Hck x y Hx Hy).
        -- destruct (Nat.eq_dec k i) as [->|Hki].
           ++ intros x y Hx Hy. rewrite So in Hx by (destruct Hck; lia). rewrite Si in Hy. exact (Hh2 p j Hp Hck Hc x y Hx Hy).
           ++ assert (k <> j) by (intro; subst k; destruct Hck, Hc; lia). intros x y Hx Hy. rewrite So in Hx by lia. rewrite So in Hy by lia.
              exact (Hh1 p k Hp Hck Hpi x y Hx Hy).
      * intros q k Hq Hqj Hjk. assert (q = i) by (destruct Hqj, Hc; lia). subst q. intros x y Hx Hy. rewrite Si in Hx.
        rewrite So in Hy by (destruct Hjk; lia). exact (Hh1 j k ltac:(lia) Hjk ltac:(lia) x y Hx Hy).
    + lia.
    + lia.
    + lia.
    + exists h2, i2. split; [exact E2|]. split; [eapply Permutation_trans; eassumption|]. split; [lia|]. split; [exact Hf2|lia].
  - exists h, i. split; [reflexivity|]. split; [apply Permutation_refl|]. split; [reflexivity|]. split; [|lia].
    intros p k Hp Hck. destruct (Nat.eq_dec p i) as [->|Hne]; [|exact (Hh1 p k Hp Hck Hne)].
    intros x y Hx Hy. rewrite Exi in Hx. inversion Hx; subst. eapply le_trans; [|exact (Hmin k Hck xj y Exj Hy)]. exact El.
Qed.
Lemma heap_init_from_ok k : forall h, (2 * k <= length h)%nat -> heap_from k h ->
  exists h', heap_init_from less k h = Ok h' /\ Permutation h h' /\ length h' = length h /\ heap_from 0 h'.
Proof.
  induction k as [|k IH]; intros h Hk Hh; cbn [heap_init_from].
  - exists h. auto.
  - destruct (down_ok (length h) h k k) as [h' [i' [E [P [L [Hf _]]]]]]; [|lia|lia|lia|].
    + split.
      * intros p c Hp Hc Hne. apply Hh; [lia|exact Hc].
      * intros q c Hq Hc. exfalso. destruct Hc; lia.
    + rewrite E. cbn [rbind]. rewrite <- L in Hk. destruct (IH h' ltac:(lia) Hf) as [h2 [E2 [P2 [L2 Hf2]]]].
      exists h2. split; [exact E2|]. split; [eapply Permutation_trans; eassumption|]. split; [lia|exact Hf2].
Qed.
Lemma heap_init_ok h : exists h', heap_init less h = Ok h' /\ Permutation h h' /\ heap_from 0 h'.
Proof.
  unfold heap_init. pose proof (Nat.div_mod (length h) 2 ltac:(lia)) as D. pose proof (Nat.mod_upper_bound (length h) 2 ltac:(lia)).
  destruct (heap_init_from_ok (length h / 2) h) as [h' [E [P [_ Hf]]]]; [lia| |exists h'; auto].
  intros p k Hp Hc a b _ Hb. exfalso. assert (k < length h)%nat by (apply nth_error_Some; congruence). destruct Hc; lia.
Qed.
Lemma up_0 fuel h : up less fuel h 0 = Ok h.
Proof. destruct fuel; reflexivity. Qed.
Lemma heap_fix_ok h : h <> [] -> hole 0 0 h -> exists h', heap_fix less h 0 = Ok h' /\ Permutation h h' /\ heap_from 0 h'.
Proof.
  intros Hn Hh. unfold heap_fix. destruct (down_ok (length h) h 0 0 Hh) as [h' [i' [E [P [L [Hf _]]]]]]; [lia|destruct h; [congruence|cbn; lia]|lia|].
  rewrite E. cbn [rbind]. exists h'. split; [|auto]. destruct (0 <? i')%nat; [reflexivity|apply up_0].
Qed.

(* only the first n entries matter to down *)
Lemma less_at_app a b i j : (i < length a)%nat -> (j < length a)%nat -> less_at less (a ++ b) i j = less_at less a i j.
Proof. intros. unfold less_at. rewrite !nth_error_app1 by assumption. reflexivity. Qed.
Lemma swap_app a b i j : (i < length a)%nat -> (j < length a)%nat -> swap (a ++ b) i j = rbind (swap a i j) (fun a' => Ok (a' ++ b)).
Proof.
  intros. unfold swap. rewrite !nth_error_app1 by assumption. destruct (nth_error a i); [|reflexivity]. destruct (nth_error a j); [|reflexivity].
  cbn [rbind]. rewrite !upd_app by (rewrite ?upd_length; assumption). reflexivity.
Qed.
Lemma down_app fuel : forall a b i, (i < length a)%nat ->
  down less fuel (a ++ b) i (length a) = rbind (down less fuel a i (length a)) (fun '(a', i') => Ok (a' ++ b, i')).
Proof.
  induction fuel as [|f IH]; intros a b i Hi; [reflexivity|]. cbn [down].
  destruct (Nat.leb_spec (length a) (2 * i + 1)) as [Hl|Hl]; [reflexivity|].
  set (j1 := (2 * i + 1)%nat) in *.
  replace (if (j1 + 1 <? length a)%nat then less_at less (a ++ b) (j1 + 1) j1 else Ok false)
     with (if (j1 + 1 <? length a)%nat then less_at less a (j1 + 1) j1 else Ok false)
     by (destruct (Nat.ltb_spec (j1 + 1) (length a)); [rewrite less_at_app by lia; reflexivity|reflexivity]).
  destruct (if (j1 + 1 <? length a)%nat then less_at less a (j1 + 1) j1 else Ok false) as [c| |] eqn:Ec; try reflexivity. cbn [rbind].
  set (j := if c then (j1 + 1)%nat else j1).
  assert (Hj : (j < length a)%nat).
  { unfold j. destruct c; [|lia]. destruct (Nat.ltb_spec (j1 + 1) (length a)); [lia|discriminate]. }
  rewrite less_at_app by lia. destruct (less_at less a j i) as [c2| |]; try reflexivity. cbn [rbind]. destruct c2; [|reflexivity].
  rewrite swap_app by lia. destruct (swap_ok a i j ltac:(lia) Hj ltac:(unfold j; destruct c; lia)) as [a' [E [L _]]]. rewrite E. cbn [rbind].
  rewrite <- L. rewrite IH by lia. reflexivity.
Qed.

Lemma heap_from_firstn h n : heap_from 0 h -> forall p k, child p k -> (p <> 0)%nat -> (k < n)%nat -> edge (firstn n h) p k.
Proof.
  intros Hh p k Hc Hp Hk a b Ha Hb. assert (X : forall m x, nth_error (firstn n h) m = Some x -> nth_error h m = Some x).
  { intros m x Hx. revert Hx. clear. revert m h. induction n; intros m h Hx; [destruct m; discriminate|]. destruct h; [destruct m; discriminate|].
    destruct m; [exact Hx|]. exact (IHn m h Hx). }
  apply (Hh p k ltac:(lia) Hc); apply X; assumption.
Qed.

(* removing the root *)
Lemma heap_remove_ok v t : heap_from 0 (v :: t) -> exists h', heap_remove less (v :: t) 0 = Ok h' /\ Permutation t h' /\ heap_from 0 h'.
Proof.
  intro Hh. unfold heap_remove. cbn [length]. destruct t as [|w t].
  - cbn. exists []. split; [reflexivity|]. split; [apply Permutation_refl|]. intros p k _ _ a b Ha. destruct p; discriminate.
  - destruct (@exists_last _ (w :: t) ltac:(discriminate)) as [m [z Ez]].
    cbn [length]. destruct (Nat.eqb_spec (S (length t)) 0) as [X|_]; [lia|].
    assert (Lm : length m = length t) by (apply (f_equal (@length _)) in Ez; rewrite app_length in Ez; cbn in Ez; lia).
    assert (Es : swap (v :: w :: t) 0 (S (length t)) = Ok ((z :: m) ++ [v])).
    { rewrite Ez. unfold swap. cbn [nth_error]. rewrite <- Lm. rewrite nth_error_app2, Nat.sub_diag by lia. cbn [nth_error].
      f_equal. cbn [upd]. cbn [app]. f_equal. clear. induction m; [reflexivity|]. cbn. f_equal. exact IHm. }
    rewrite Es. cbn [rbind]. replace (S (length t)) with (length (z :: m)) by (cbn; lia). rewrite down_app by (cbn; lia).
    destruct (down_ok (length (z :: m)) (z :: m) 0 0) as [h' [i' [E [P [L [Hf _]]]]]]; [|lia|cbn; lia|lia|].
    { split; [|intros q k _ Hc; destruct Hc; lia].
      intros p k _ Hc Hp a b Ha Hb. apply (Hh p k ltac:(lia) Hc).
      - rewrite Ez. destruct p as [|p]; [congruence|]. cbn [nth_error] in *. rewrite nth_error_app1; [exact Ha|]. apply nth_error_Some. congruence.
      - rewrite Ez. destruct k as [|k]; [destruct Hc; lia|]. cbn [nth_error] in *. rewrite nth_error_app1; [exact Hb|]. apply nth_error_Some. congruence. }
    rewrite E. cbn [rbind].
    exists h'. split.
    + rewrite up_0. assert (X : firstn (length (z :: m)) (h' ++ [v]) = h') by (rewrite <- L, firstn_app, firstn_all, Nat.sub_diag; cbn [firstn]; apply app_nil_r).
      destruct (0 <? i')%nat; cbn [rbind]; f_equal; exact X.
    + split; [|exact Hf]. rewrite Ez. eapply Permutation_trans; [|exact P]. rewrite Permutation_app_comm. apply Permutation_refl.
Qed.

(* the root is below every entry *)
Lemma heap_root h r : heap_from 0 h -> nth_error h 0 = Some r -> forall k x, nth_error h k = Some x -> le (fst r) (fst x).
Proof.
  intros Hh Hr k. induction k as [k IH] using (well_founded_induction Wf_nat.lt_wf). intros x Hx.
  destruct k as [|k]; [rewrite Hr in Hx; inversion Hx; subst; apply le_refl|].
  set (p := Nat.div k 2). pose proof (Nat.div_mod k 2 ltac:(lia)) as D. pose proof (Nat.mod_upper_bound k 2 ltac:(lia)). fold p in D.
  assert (Hc : child p (S k)) by (unfold child; lia).
  destruct (nth_error h p) as [y|] eqn:Ey.
  - eapply le_trans; [apply (IH p ltac:(lia) y Ey)|]. exact (Hh p (S k) ltac:(lia) Hc y x Ey Hx).
  - exfalso. apply nth_error_None in Ey. assert (S k < length h)%nat by (apply nth_error_Some; congruence). lia.
Qed.

(* ---------------- merging ---------------- *)

(* an entry that stands for a non-empty sorted list *)
Definition holds (e : entry) (l : list bytes) : Prop := exists tl, l = fst e :: tl /\ yields (snd e) tl /\ sorted_by less l.
Definition merging (h : heap) (items : list bytes) : Prop := heap_from 0 h /\ exists ls, Forall2 holds h ls /\ Permutation (concat ls) items.

Lemma concat_perm {A} (a b : list (list A)) : Permutation a b -> Permutation (concat a) (concat b).
Proof.
  induction 1; cbn; [apply Permutation_refl|apply Permutation_app_head; assumption| |eapply Permutation_trans; eassumption].
  rewrite !app_assoc. apply Permutation_app_tail. apply Permutation_app_comm.
Qed.
Lemma Forall2_perm {A B} (R : A -> B -> Prop) a a' : Permutation a a' -> forall b, Forall2 R a b -> exists b', Forall2 R a' b' /\ Permutation b b'.
Proof.
  induction 1; intros b F.
  - inversion F; subst. exists []. split; [constructor|apply Permutation_refl].
  - inversion F; subst. destruct (IHPermutation _ H4) as [b' [F' P']]. exists (y :: b'). split; [constructor; assumption|]. constructor. exact P'.
  - inversion F as [|? y1 ? l1 R1 F1]; subst. inversion F1 as [|? y2 ? l2 R2 F2]; subst. exists (y2 :: y1 :: l2). split; [repeat constructor; assumption|]. apply perm_swap.
  - destruct (IHPermutation1 _ F) as [b1 [F1 P1]]. destruct (IHPermutation2 _ F1) as [b2 [F2 P2]]. exists b2. split; [exact F2|]. eapply Permutation_trans; eassumption.
Qed.
Lemma holds_all e l : holds e l -> Forall (le (fst e)) l.
Proof. intros [tl [-> [_ S]]]. inversion S; subst. constructor; [apply le_refl|assumption]. Qed.

Lemma root_min h e ls : heap_from 0 (e :: h) -> Forall2 holds (e :: h) ls -> Forall (le (fst e)) (concat ls).
Proof.
  intros Hh F. assert (A : Forall (fun l => Forall (le (fst e)) l) ls).
  { apply Forall_forall. intros l Hl. destruct (In_nth_error _ _ Hl) as [k Hk].
    assert (B : exists x, nth_error (e :: h) k = Some x /\ holds x l).
    { revert Hk. clear Hh Hl. revert k. induction F as [|x y a b R F IH]; intros [|k] Hk; try discriminate.
      - inversion Hk; subst. exists x. auto.
      - destruct (IH k Hk) as [z Hz]. exists z. exact Hz. }
    destruct B as [x [Hx Hxl]]. pose proof (heap_root _ e Hh eq_refl k x Hx) as Hle.
    eapply Forall_impl; [|exact (holds_all x l Hxl)]. intros a Ha. eapply le_trans; eassumption. }
  clear F Hh. induction A; cbn; [constructor|]. apply Forall_app. auto.
Qed.

Lemma merge_next_ok h items : merging h items ->
  (h = [] /\ items = [] /\ merge_next less h = Ok (None, [])) \/
  (exists x h' rest, merge_next less h = Ok (Some x, h') /\ merging h' rest /\ Permutation (x :: rest) items /\ Forall (le x) rest).
Proof.
  intros [Hh [ls [F P]]]. destruct h as [|[v s] t].
  - left. inversion F; subst. cbn in P. apply Permutation_nil in P. auto.
  - right. pose proof (root_min _ _ _ Hh F) as Hmin. inversion F as [|? l ? ls' Rl F']; subst. destruct Rl as [tl [-> [Y S]]]. cbn [fst snd] in *.
    cbn [concat] in *. inversion Hmin as [|? ? _ Hmin']; subst. unfold merge_next.
    inversion Y as [s0 En | s0 y s' tl' En Y' Es Et]; subst; rewrite En.
    + destruct (heap_remove_ok (v, s) t Hh) as [h' [E [Pt Hf]]]. rewrite E. cbn [rbind].
      destruct (Forall2_perm _ _ _ Pt _ F') as [ls2 [F2 P2]]. exists v, h', (concat ls').
      split; [reflexivity|]. split; [|split; [exact P|exact Hmin']].
      split; [exact Hf|]. exists ls2. split; [exact F2|]. apply concat_perm. apply Permutation_sym. exact P2.
    + assert (Hh' : hole 0 0 ((y, s') :: t)).
      { split; [|intros q k _ Hc; destruct Hc; lia]. intros p k Hp Hc Hne a b Ha Hb. apply (Hh p k Hp Hc); [destruct p; [congruence|exact Ha]|].
        destruct k; [destruct Hc; lia|exact Hb]. }
      destruct (heap_fix_ok ((y, s') :: t) ltac:(discriminate) Hh') as [h' [E [Pt Hf]]]. rewrite E. cbn [rbind].
      assert (F0 : Forall2 holds ((y, s') :: t) ((y :: tl') :: ls')).
      { constructor; [|exact F']. exists tl'. cbn. split; [reflexivity|]. split; [exact Y'|]. inversion S; assumption. }
      destruct (Forall2_perm _ _ _ Pt _ F0) as [ls2 [F2 P2]]. exists v, h', (concat ((y :: tl') :: ls')).
      split; [reflexivity|]. split; [|split; [exact P|exact Hmin']].
      split; [exact Hf|]. exists ls2. split; [exact F2|]. apply concat_perm. apply Permutation_sym. exact P2.
Qed.
Lemma drain_ok fuel : forall h items, merging h items -> (length items < fuel)%nat ->
  exists out, drain less fuel h = Ok out /\ Permutation out items /\ sorted_by less out.
Proof.
  induction fuel as [|f IH]; intros h items Hm Hf; [lia|]. cbn [drain].
  destruct (merge_next_ok h items Hm) as [[-> [-> E]] | [x [h' [rest [E [Hm' [P Hx]]]]]]]; rewrite E; cbn [rbind].
  - exists []. split; [reflexivity|]. split; [apply Permutation_refl|constructor].
  - assert (L : length items = S (length rest)) by (rewrite <- (Permutation_length P); reflexivity).
    destruct (IH h' rest Hm' ltac:(lia)) as [out [E2 [P2 S2]]]. rewrite E2. cbn [rbind]. exists (x :: out). split; [reflexivity|].
    split; [eapply Permutation_trans; [apply perm_skip; exact P2|exact P]|].
    constructor; [exact S2|]. eapply Permutation_Forall; [apply Permutation_sym; exact P2|exact Hx].
Qed.
Lemma new_entries_ok ss : forall ls, Forall2 (fun s l => yields s l /\ sorted_by less l) ss ls ->
  exists h ls', new_entries ss = Ok h /\ Forall2 holds h ls' /\ concat ls' = concat ls.
Proof.
  induction ss as [|s ss IH]; intros ls F.
  - inversion F; subst. exists [], []. split; [reflexivity|]. split; [constructor|reflexivity].
  - inversion F as [|? l ? ls0 [Y S] F']; subst. destruct (IH ls0 F') as [h [ls' [E [Fh C]]]]. cbn [new_entries].
    inversion Y as [s0 En | s0 y s' tl' En Y' Es Et]; subst; rewrite En.
    + exists h, ls'. cbn [concat app]. auto.
    + rewrite E. cbn [rbind]. exists ((y, s') :: h), ((y :: tl') :: ls'). split; [reflexivity|]. cbn [concat]. rewrite C. split; [|reflexivity].
      constructor; [|exact Fh]. exists tl'. auto.
Qed.
Lemma new_merge_ok ss ls : Forall2 (fun s l => yields s l /\ sorted_by less l) ss ls ->
  exists h, new_merge less ss = Ok h /\ merging h (concat ls).
Proof.
  intro F. destruct (new_entries_ok ss ls F) as [h [ls' [E [Fh C]]]]. unfold new_merge. rewrite E. cbn [rbind].
  destruct (heap_init_ok h) as [h' [Ei [P Hf]]]. exists h'. split; [exact Ei|]. split; [exact Hf|].
  destruct (Forall2_perm _ _ _ P _ Fh) as [ls2 [F2 P2]]. exists ls2. split; [exact F2|]. rewrite <- C. apply concat_perm. apply Permutation_sym. exact P2.
Qed.

(* ---------------- the sorter ---------------- *)

Variable sort_slice : list bytes -> list bytes.
Variables compress decompress : bytes -> bytes.
Hypothesis Hsort : sorts less sort_slice.
Hypothesis Hsnappy : forall b, decompress (compress b) = b.
Notation run := (run sort_slice compress).
Notation finish := (finish sort_slice compress).
Notation save := (save_chunk sort_slice compress).

Definition small (x : bytes) : Prop := blen x <= 2 ^ 32 - 1.
(* a state that has taken in exactly these items *)
Definition contains (delta : bool) (s : sorter) (items : list bytes) : Prop :=
  exists cs, s_files s = map (save delta) cs /\ Permutation (concat cs ++ concat (s_running s) ++ s_chunk s) items /\
    Forall (Forall small) cs /\ Forall (Forall small) (s_running s) /\ Forall small (s_chunk s) /\ 0 <= s_size s /\ (s_size s = 0 -> s_chunk s = []).

Lemma rotate_contains delta s items : contains delta s items -> contains delta (rotate s) items.
Proof.
  intros [cs [H1 [H2 [H3 [H4 [H5 [H6 H7]]]]]]]. exists cs. unfold rotate. cbn [s_files s_running s_chunk s_size].
  split; [exact H1|]. split; [rewrite concat_app; cbn [concat]; rewrite !app_nil_r; exact H2|]. split; [exact H3|].
  split; [apply Forall_app; split; [exact H4|constructor; [exact H5|constructor]]|]. split; [constructor|]. split; [lia|reflexivity].
Qed.
Lemma feed_contains max delta s items x s' : contains delta s items -> feed max s x = Ok s' -> contains delta s' (items ++ [x]).
Proof.
  intros [cs [H1 [H2 [H3 [H4 [H5 [H6 H7]]]]]]] E. unfold feed in E. destruct (2 ^ 32 - 1 <? blen x) eqn:El; [discriminate|].
  set (s1 := Sorter (s_chunk s ++ [x]) (s_size s + blen x + 4) (s_running s) (s_files s)) in E.
  assert (C : contains delta s1 (items ++ [x])).
  { exists cs. unfold s1. cbn [s_files s_running s_chunk s_size]. split; [exact H1|]. split; [rewrite !app_assoc; apply Permutation_app_tail; rewrite <- app_assoc; exact H2|].
    split; [exact H3|]. split; [exact H4|]. split; [apply Forall_app; split; [exact H5|constructor; [unfold small; lia|constructor]]|].
    pose proof (blen_nonneg x). split; [lia|intro; lia]. }
  destruct (max <=? s_size s1); injection E as <-; [apply rotate_contains; exact C|exact C].
Qed.
Lemma split_nth {A} (l : list A) i x : nth_error l i = Some x -> l = firstn i l ++ x :: skipn (S i) l.
Proof. revert i. induction l; intros [|i] H; try discriminate; cbn in *; [inversion H; reflexivity|]. f_equal. apply IHl. exact H. Qed.
Lemma finish_contains delta s items i : contains delta s items -> contains delta (finish delta s i) items.
Proof.
  intros C. unfold Model.finish. destruct (nth_error (s_running s) i) as [c|] eqn:E; [|exact C].
  destruct C as [cs [H1 [H2 [H3 [H4 [H5 [H6 H7]]]]]]]. pose proof (split_nth _ _ _ E) as Es. rewrite Es in H4. apply Forall_app in H4. destruct H4 as [H4 H4'].
  inversion H4' as [|? ? Hc H4'']; subst. exists (cs ++ [c]). cbn [s_files s_running s_chunk s_size].
  split; [rewrite H1, map_app; reflexivity|]. split.
  - eapply Permutation_trans; [|exact H2]. rewrite Es at 3. rewrite !concat_app. cbn [concat]. rewrite !app_nil_r.
    rewrite <- !app_assoc. apply Permutation_app_head. rewrite !app_assoc. apply Permutation_app_tail. apply Permutation_app_tail. apply Permutation_app_comm.
  - split; [apply Forall_app; split; [exact H3|constructor; [exact Hc|constructor]]|]. split; [apply Forall_app; split; assumption|]. auto.
Qed.
Lemma run_contains max delta es : forall s items s', contains delta s items -> run max delta s es = Ok s' -> contains delta s' (items ++ fed es).
Proof.
  induction es as [|e es IH]; intros s items s' C E; cbn [Model.run fed] in *.
  - inversion E; subst. rewrite app_nil_r. exact C.
  - destruct e as [x|i]; cbn [run_step] in E.
    + destruct (feed max s x) as [s1| |] eqn:Ef; try discriminate. cbn [rbind] in E.
      pose proof (IH _ _ _ (feed_contains _ _ _ _ _ _ C Ef) E) as R. rewrite <- app_assoc in R. exact R.
    + cbn [rbind] in E. exact (IH _ _ _ (finish_contains _ _ _ i C) E).
Qed.
Lemma fold_finish delta order : forall s items, contains delta s items -> contains delta (fold_left (finish delta) order s) items.
Proof. induction order as [|i order IH]; intros s items C; [exact C|]. cbn [fold_left]. apply IH. apply finish_contains. exact C. Qed.
Lemma fold_finish_chunk delta order : forall s, s_chunk (fold_left (finish delta) order s) = s_chunk s.
Proof.
  induction order as [|i order IH]; intros s; [reflexivity|]. cbn [fold_left]. rewrite IH. unfold Model.finish. destruct (nth_error (s_running s) i); reflexivity.
Qed.
Lemma chunk_stream delta c : Forall small c -> yields (open_chunk decompress delta (save delta c)) (sort_slice c) /\ sorted_by less (sort_slice c).
Proof.
  intro Hs. destruct (Hsort c) as [P S]. split; [|exact S].
  assert (B : Forall (fun k => blen k < 2 ^ 63) (sort_slice c)).
  { eapply Permutation_Forall; [exact P|]. eapply Forall_impl; [|exact Hs]. unfold small. intros; lia. }
  unfold open_chunk, save_chunk. rewrite Hsnappy. destruct delta; [apply yields_delta; exact B|apply yields_plain; exact B].
Qed.
Lemma finalize_ok delta s items order h : contains delta s items -> finalize less sort_slice compress decompress delta s order = Ok h -> merging h items.
Proof.
  intros C E. unfold finalize in E.
  set (s1 := if 0 <? s_size s then rotate s else s) in *.
  assert (C1 : contains delta s1 items /\ s_chunk s1 = []).
  { unfold s1. destruct (0 <? s_size s) eqn:Ez; [split; [apply rotate_contains; exact C|reflexivity]|]. split; [exact C|].
    destruct C as [cs [_ [_ [_ [_ [_ [H6 H7]]]]]]]. apply H7. lia. }
  destruct C1 as [C1 Ec].
  assert (Ec2 : s_chunk (fold_left (finish delta) order s1) = []).
  { rewrite fold_finish_chunk. exact Ec. }
  pose proof (fold_finish delta order s1 items C1) as C2. set (s2 := fold_left (finish delta) order s1) in *.
  destruct (s_running s2) eqn:Er; [|discriminate]. destruct C2 as [cs [H1 [H2 [H3 _]]]]. rewrite Er, Ec2 in H2. cbn in H2. rewrite app_nil_r in H2.
  rewrite H1, map_map in E.
  assert (F : Forall2 (fun st l => yields st l /\ sorted_by less l) (map (fun c => open_chunk decompress delta (save delta c)) cs) (map sort_slice cs)).
  { clear - H3 Hsort Hsnappy. induction H3; cbn [map]; constructor; [apply chunk_stream; assumption|assumption]. }
  destruct (new_merge_ok _ _ F) as [h' [E' M]]. rewrite E' in E. inversion E; subst. destruct M as [Hf [ls [Fl Pl]]]. split; [exact Hf|]. exists ls. split; [exact Fl|].
  eapply Permutation_trans; [exact Pl|]. eapply Permutation_trans; [|exact H2]. clear - Hsort. induction cs as [|c cs IH]; [apply Permutation_refl|].
  cbn [map concat]. apply Permutation_app; [apply Permutation_sym; apply Hsort|exact IH].
Qed.
Lemma finalize_succeeds delta s items order : contains delta s items ->
  s_running (fold_left (finish delta) order (if 0 <? s_size s then rotate s else s)) = [] ->
  exists h, finalize less sort_slice compress decompress delta s order = Ok h.
Proof.
  intros C Er. unfold finalize. set (s1 := if 0 <? s_size s then rotate s else s) in *.
  assert (C1 : contains delta s1 items) by (unfold s1; destruct (0 <? s_size s); [apply rotate_contains; exact C|exact C]).
  destruct (fold_finish delta order s1 items C1) as [cs [H1 [H2 [H3 _]]]]. rewrite Er, H1, map_map.
  assert (F : Forall2 (fun st l => yields st l /\ sorted_by less l) (map (fun c => open_chunk decompress delta (save delta c)) cs) (map sort_slice cs)).
  { clear - H3 Hsort Hsnappy. induction H3; cbn [map]; constructor; [apply chunk_stream; assumption|assumption]. }
  destruct (new_merge_ok _ _ F) as [h' [E' M]]. exists h'. exact E'.
Qed.
End H.
