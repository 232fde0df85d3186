(* sdk.Coins of cosmos-sdk (external library): a list of denominations with
   amounts, sorted by denomination, without zero amounts.  Amounts are unbounded
   here (the library panics beyond 256 bits). *)
From Verif Require Import Lib.Base Lib.Bytes.
Open Scope Z_scope.

Definition coins := list (bytes * Z).

(* Coins.AmountOf *)
Fixpoint amt (c : coins) (d : bytes) : Z :=
  match c with [] => 0 | (e, x) :: c' => if beqb d e then x else amt c' d end.

Definition keep (d : bytes) (x : Z) (l : coins) : coins := if x =? 0 then l else (d, x) :: l.
(* merge of two sorted lists; zero results are dropped *)
Fixpoint cmerge (f : Z -> Z -> Z) (a : coins) : coins -> coins :=
  fix aux (b : coins) : coins :=
    match a with
    | [] => match b with [] => [] | (e, y) :: b' => keep e (f 0 y) (aux b') end
    | (d, x) :: a' =>
        match b with
        | [] => keep d (f x 0) (cmerge f a' [])
        | (e, y) :: b' =>
            match bcmp d e with
            | Lt => keep d (f x 0) (cmerge f a' b)
            | Eq => keep d (f x y) (cmerge f a' b')
            | Gt => keep e (f 0 y) (aux b')
            end
        end
    end.

(* Coins.Add *)
Definition cadd (a b : coins) : coins := cmerge Z.add a b.
(* Coins.Min *)
Definition cmin (a b : coins) : coins := cmerge Z.min a b.
(* Coins.SafeSub: difference and whether some amount is negative *)
Definition csafe_sub (a b : coins) : coins * bool :=
  let r := cmerge Z.sub a b in (r, existsb (fun '(_, x) => x <? 0) r).
(* Coins.Sub: panics on a negative amount *)
Definition csub (a b : coins) : res coins := let '(r, neg) := csafe_sub a b in if neg then Panic else Ok r.
(* Coins.IsZero *)
Definition cis_zero (a : coins) : bool := forallb (fun '(_, x) => x =? 0) a.
(* a.IsAllLTE(b) = b.IsAllGTE(a) *)
Definition call_lte (a b : coins) : bool :=
  match a with
  | [] => true
  | _ => match b with [] => false | _ => forallb (fun '(d, x) => x <=? amt b d) a end
  end.

(* ---------------- facts ---------------- *)

Fixpoint sorted (c : coins) : Prop :=
  match c with [] => True | (d, x) :: c' => Forall (fun p : bytes * Z => blt d (fst p)) c' /\ sorted c' end.
Definition nonzero (c : coins) : Prop := Forall (fun p : bytes * Z => snd p <> 0) c.
(* Coins.IsValid: sorted and positive (denomination syntax is not modelled) *)
Definition cvalid (c : coins) : Prop := sorted c /\ Forall (fun p : bytes * Z => 0 < snd p) c.

Lemma amt_below c d : Forall (fun p : bytes * Z => blt d (fst p)) c -> amt c d = 0.
Proof.
  induction 1 as [|[e x] c H _ IH]; [reflexivity|]. cbn [amt fst] in *. destruct (beqb d e) eqn:E; [|exact IH].
  apply beqb_spec in E. subst. exfalso. exact (blt_irrefl _ H).
Qed.
Lemma below_trans c d e : blt d e -> Forall (fun p : bytes * Z => blt e (fst p)) c -> Forall (fun p : bytes * Z => blt d (fst p)) c.
Proof. intros H. apply Forall_impl. intros p Hp. exact (blt_trans _ _ _ H Hp). Qed.
Lemma below_keep d e x l : blt d e -> Forall (fun p : bytes * Z => blt d (fst p)) l -> Forall (fun p : bytes * Z => blt d (fst p)) (keep e x l).
Proof. intros. unfold keep. destruct (x =? 0); [assumption|]. constructor; assumption. Qed.
Lemma sorted_keep d x l : Forall (fun p : bytes * Z => blt d (fst p)) l -> sorted l -> sorted (keep d x l).
Proof. intros. unfold keep. destruct (x =? 0); [assumption|]. cbn. auto. Qed.
Lemma nonzero_keep d x l : nonzero l -> nonzero (keep d x l).
Proof. intros. unfold keep. destruct (x =? 0) eqn:E; [assumption|]. constructor; [cbn; lia|assumption]. Qed.
Lemma amt_keep d x l e : Forall (fun p : bytes * Z => blt d (fst p)) l -> amt (keep d x l) e = if beqb e d then x else amt l e.
Proof.
  intros H. unfold keep. destruct (x =? 0) eqn:E; [|reflexivity]. destruct (beqb e d) eqn:Ed; [|reflexivity].
  apply beqb_spec in Ed. subst. rewrite (amt_below _ _ H). lia.
Qed.

Lemma cmerge_spec f : f 0 0 = 0 -> forall a b, sorted a -> sorted b ->
  sorted (cmerge f a b) /\ nonzero (cmerge f a b) /\
  (forall d, Forall (fun p : bytes * Z => blt d (fst p)) a -> Forall (fun p : bytes * Z => blt d (fst p)) b -> Forall (fun p : bytes * Z => blt d (fst p)) (cmerge f a b)) /\
  (forall d, amt (cmerge f a b) d = f (amt a d) (amt b d)).
Proof.
  intros f0. induction a as [|[d x] a IHa].
  - induction b as [|[e y] b IHb]; intros Sa Sb.
    + cbn. repeat split; auto. constructor.
    + destruct Sb as [Lb Sb]. destruct (IHb I Sb) as [H1 [H2 [H3 H4]]]. change (cmerge f [] ((e, y) :: b)) with (keep e (f 0 y) (cmerge f [] b)).
      assert (L : Forall (fun p : bytes * Z => blt e (fst p)) (cmerge f [] b)) by (apply H3; [constructor|exact Lb]).
      split; [apply sorted_keep; assumption|]. split; [apply nonzero_keep; assumption|]. split.
      * intros c _ Hb. inversion Hb; subst. apply below_keep; [assumption|]. apply H3; [constructor|assumption].
      * intro c. rewrite amt_keep by exact L. rewrite H4. cbn [amt]. destruct (beqb c e); reflexivity.
  - induction b as [|[e y] b IHb]; intros Sa Sb; destruct Sa as [La Sa].
    + destruct (IHa [] Sa I) as [H1 [H2 [H3 H4]]]. change (cmerge f ((d, x) :: a) []) with (keep d (f x 0) (cmerge f a [])).
      assert (L : Forall (fun p : bytes * Z => blt d (fst p)) (cmerge f a [])) by (apply H3; [exact La|constructor]).
      split; [apply sorted_keep; assumption|]. split; [apply nonzero_keep; assumption|]. split.
      * intros c Ha _. inversion Ha; subst. apply below_keep; [assumption|]. apply H3; [assumption|constructor].
      * intro c. rewrite amt_keep by exact L. rewrite H4. cbn [amt]. destruct (beqb c d) eqn:E; reflexivity.
    + destruct Sb as [Lb Sb].
      change (cmerge f ((d, x) :: a) ((e, y) :: b)) with
        (match bcmp d e with Lt => keep d (f x 0) (cmerge f a ((e, y) :: b)) | Eq => keep d (f x y) (cmerge f a b) | Gt => keep e (f 0 y) (cmerge f ((d, x) :: a) b) end).
      destruct (bcmp_spec d e) as [E|E|E].
      * subst e. destruct (IHa b Sa Sb) as [H1 [H2 [H3 H4]]].
        assert (L : Forall (fun p : bytes * Z => blt d (fst p)) (cmerge f a b)) by (apply H3; assumption).
        split; [apply sorted_keep; assumption|]. split; [apply nonzero_keep; assumption|]. split.
        -- intros c Ha Hb. inversion Ha; inversion Hb; subst. apply below_keep; [assumption|]. apply H3; assumption.
        -- intro c. rewrite amt_keep by exact L. rewrite H4. cbn [amt]. destruct (beqb c d); reflexivity.
      * destruct (IHa ((e, y) :: b) Sa (conj Lb Sb)) as [H1 [H2 [H3 H4]]].
        assert (Le : Forall (fun p : bytes * Z => blt d (fst p)) ((e, y) :: b)) by (constructor; [exact E|exact (below_trans _ _ _ E Lb)]).
        assert (L : Forall (fun p : bytes * Z => blt d (fst p)) (cmerge f a ((e, y) :: b))) by (apply H3; assumption).
        split; [apply sorted_keep; assumption|]. split; [apply nonzero_keep; assumption|]. split.
        -- intros c Ha Hb. inversion Ha; subst. apply below_keep; [assumption|]. apply H3; assumption.
        -- intro c. rewrite amt_keep by exact L. rewrite H4. destruct (beqb c d) eqn:Ec; [|cbn [amt]; rewrite Ec; reflexivity].
           apply beqb_spec in Ec. subst c. rewrite (amt_below _ _ Le). cbn [amt]. rewrite beqb_refl. reflexivity.
      * destruct (IHb (conj La Sa) Sb) as [H1 [H2 [H3 H4]]].
        assert (Ld : Forall (fun p : bytes * Z => blt e (fst p)) ((d, x) :: a)) by (constructor; [exact E|exact (below_trans _ _ _ E La)]).
        assert (L : Forall (fun p : bytes * Z => blt e (fst p)) (cmerge f ((d, x) :: a) b)) by (apply H3; assumption).
        split; [apply sorted_keep; assumption|]. split; [apply nonzero_keep; assumption|]. split.
        -- intros c Ha Hb. inversion Hb; subst. apply below_keep; [assumption|]. apply H3; assumption.
        -- intro c. rewrite amt_keep by exact L. rewrite H4. destruct (beqb c e) eqn:Ec; [|cbn [amt]; rewrite Ec; reflexivity].
           apply beqb_spec in Ec. subst c. rewrite (amt_below _ _ Ld). cbn [amt]. rewrite beqb_refl. reflexivity.
Qed.

(* sorted lists without zeros are determined by their amounts *)
Lemma coins_ext a : forall b, sorted a -> sorted b -> nonzero a -> nonzero b -> (forall d, amt a d = amt b d) -> a = b.
Proof.
  induction a as [|[d x] a IH]; intros [|[e y] b] Sa Sb Na Nb H.
  - reflexivity.
  - exfalso. inversion Nb; subst. specialize (H e). cbn [amt snd] in *. rewrite beqb_refl in H. congruence.
  - exfalso. inversion Na; subst. specialize (H d). cbn [amt snd] in *. rewrite beqb_refl in H. congruence.
  - destruct Sa as [La Sa]. destruct Sb as [Lb Sb]. inversion Na as [|? ? Nx Na']; subst. inversion Nb as [|? ? Ny Nb']; subst. cbn [snd] in *.
    assert (E : d = e).
    { destruct (bcmp_spec d e) as [E|E|E]; [exact E| |]; exfalso.
      - pose proof (H d) as Hd. cbn [amt] in Hd. rewrite beqb_refl in Hd. rewrite (proj2 (beqb_neq d e) (blt_neq _ _ E)) in Hd.
        rewrite (amt_below b d (below_trans _ _ _ E Lb)) in Hd. congruence.
      - pose proof (H e) as Hd. cbn [amt] in Hd. rewrite beqb_refl in Hd. rewrite (proj2 (beqb_neq e d) (blt_neq _ _ E)) in Hd.
        rewrite (amt_below a e (below_trans _ _ _ E La)) in Hd. congruence. }
    subst e. assert (x = y) by (pose proof (H d) as Hd; cbn [amt] in Hd; rewrite beqb_refl in Hd; exact Hd). subst y. f_equal.
    apply IH; try assumption. intro c. destruct (beqb c d) eqn:Ec.
    + apply beqb_spec in Ec. subst. rewrite (amt_below _ _ La), (amt_below _ _ Lb). reflexivity.
    + pose proof (H c) as Hc. cbn [amt] in Hc. rewrite Ec in Hc. exact Hc.
Qed.

Lemma amt_in c d x : sorted c -> In (d, x) c -> amt c d = x.
Proof.
  induction c as [|[e y] c IH]; intros S H; [destruct H|]. destruct H as [H|H].
  - inversion H; subst. cbn. rewrite beqb_refl. reflexivity.
  - destruct S as [L S]. cbn [amt]. destruct (beqb d e) eqn:E; [|apply IH; assumption].
    apply beqb_spec in E. subst. rewrite Forall_forall in L. exfalso. exact (blt_irrefl _ (L _ H)).
Qed.
Lemma amt_zero_or_in c d : amt c d = 0 \/ In (d, amt c d) c.
Proof.
  induction c as [|[e y] c IH]; [left; reflexivity|]. cbn [amt]. destruct (beqb d e) eqn:E; [right; left; apply beqb_spec in E; subst; reflexivity|].
  destruct IH; [left; assumption|right; right; assumption].
Qed.
Lemma valid_nonneg c d : cvalid c -> 0 <= amt c d.
Proof.
  intros [S P]. destruct (amt_zero_or_in c d) as [H|H]; [lia|]. rewrite Forall_forall in P. specialize (P _ H). cbn in P. lia.
Qed.
Lemma valid_nonzero c : cvalid c -> nonzero c.
Proof. intros [_ P]. eapply Forall_impl; [|exact P]. cbn. intros; lia. Qed.
Lemma valid_of c : sorted c -> nonzero c -> (forall d, 0 <= amt c d) -> cvalid c.
Proof.
  intros S N H. split; [exact S|]. apply Forall_forall. intros [d x] Hin. pose proof (amt_in _ _ _ S Hin) as E.
  unfold nonzero in N. rewrite Forall_forall in N. specialize (N _ Hin). cbn in *. specialize (H d). lia.
Qed.
Lemma cvalid_nil : cvalid [].
Proof. split; [exact I|constructor]. Qed.
Lemma cvalid_ext a b : cvalid a -> cvalid b -> (forall d, amt a d = amt b d) -> a = b.
Proof. intros Ha Hb. apply coins_ext; [apply Ha|apply Hb|apply valid_nonzero; exact Ha|apply valid_nonzero; exact Hb]. Qed.

Lemma amt_cadd a b d : sorted a -> sorted b -> amt (cadd a b) d = amt a d + amt b d.
Proof. intros Sa Sb. apply (cmerge_spec Z.add eq_refl a b Sa Sb). Qed.
Lemma amt_cmin a b d : sorted a -> sorted b -> amt (cmin a b) d = Z.min (amt a d) (amt b d).
Proof. intros Sa Sb. apply (cmerge_spec Z.min eq_refl a b Sa Sb). Qed.
Lemma cadd_valid a b : cvalid a -> cvalid b -> cvalid (cadd a b).
Proof.
  intros Ha Hb. destruct (cmerge_spec Z.add eq_refl a b (proj1 Ha) (proj1 Hb)) as [H1 [H2 [_ H4]]].
  apply valid_of; [exact H1|exact H2|]. intro d. unfold cadd. rewrite H4. pose proof (valid_nonneg a d Ha). pose proof (valid_nonneg b d Hb). lia.
Qed.
Lemma cmin_valid a b : cvalid a -> cvalid b -> cvalid (cmin a b).
Proof.
  intros Ha Hb. destruct (cmerge_spec Z.min eq_refl a b (proj1 Ha) (proj1 Hb)) as [H1 [H2 [_ H4]]].
  apply valid_of; [exact H1|exact H2|]. intro d. unfold cmin. rewrite H4. pose proof (valid_nonneg a d Ha). pose proof (valid_nonneg b d Hb). lia.
Qed.
Lemma csafe_sub_spec a b : cvalid a -> cvalid b ->
  (forall d, amt (fst (csafe_sub a b)) d = amt a d - amt b d) /\
  (snd (csafe_sub a b) = false <-> forall d, amt b d <= amt a d) /\
  sorted (fst (csafe_sub a b)) /\ nonzero (fst (csafe_sub a b)).
Proof.
  intros Ha Hb. destruct (cmerge_spec Z.sub eq_refl a b (proj1 Ha) (proj1 Hb)) as [H1 [H2 [_ H4]]].
  unfold csafe_sub. cbn [fst snd]. split; [exact H4|]. split; [|auto]. split.
  - intros H d. destruct (amt_zero_or_in (cmerge Z.sub a b) d) as [E|E]; [rewrite H4 in E; lia|].
    destruct (Z.ltb_spec (amt a d - amt b d) 0) as [L|L]; [|lia]. exfalso.
    assert (X : existsb (fun '(_, x) => x <? 0) (cmerge Z.sub a b) = true) by (apply existsb_exists; exists (d, amt (cmerge Z.sub a b) d); split; [exact E|rewrite H4; lia]).
    congruence.
  - intro H. destruct (existsb _ _) eqn:E; [|reflexivity]. exfalso. apply existsb_exists in E. destruct E as [[d x] [Hin Hx]].
    pose proof (amt_in _ _ _ H1 Hin) as Ex. rewrite H4 in Ex. specialize (H d). lia.
Qed.
Lemma csub_ok a b : cvalid a -> cvalid b -> (forall d, amt b d <= amt a d) ->
  exists r, csub a b = Ok r /\ cvalid r /\ forall d, amt r d = amt a d - amt b d.
Proof.
  intros Ha Hb H. destruct (csafe_sub_spec a b Ha Hb) as [H1 [H2 [H3 H4]]]. unfold csub. destruct (csafe_sub a b) as [r neg] eqn:E. cbn [fst snd] in *.
  rewrite (proj2 H2 H). exists r. split; [reflexivity|]. split; [|exact H1]. apply valid_of; [exact H3|exact H4|]. intro d. rewrite H1. specialize (H d). lia.
Qed.
Lemma csub_inv a b r : cvalid a -> cvalid b -> csub a b = Ok r -> (forall d, amt b d <= amt a d) /\ cvalid r /\ forall d, amt r d = amt a d - amt b d.
Proof.
  intros Ha Hb H. destruct (csafe_sub_spec a b Ha Hb) as [H1 [H2 [H3 H4]]]. unfold csub in H. destruct (csafe_sub a b) as [r' neg] eqn:E. cbn [fst snd] in *.
  destruct neg; [discriminate|]. inversion H; subst r'. pose proof (proj1 H2 eq_refl) as Hle. split; [exact Hle|]. split; [|exact H1].
  apply valid_of; [exact H3|exact H4|]. intro d. rewrite H1. specialize (Hle d). lia.
Qed.
Lemma cis_zero_spec c : cvalid c -> (cis_zero c = true <-> c = []).
Proof.
  intros [_ P]. destruct c as [|[d x] c]; [split; reflexivity|]. split; [|discriminate]. inversion P; subst. cbn in *. replace (x =? 0) with false by lia. discriminate.
Qed.
Lemma cis_zero_amt c : cvalid c -> (cis_zero c = true <-> forall d, amt c d = 0).
Proof.
  intro V. rewrite (cis_zero_spec c V). split; [intros ->; reflexivity|]. intro H. apply (cvalid_ext c [] V cvalid_nil). exact H.
Qed.
Lemma call_lte_spec a b : cvalid a -> cvalid b -> (call_lte a b = true <-> forall d, amt a d <= amt b d).
Proof.
  intros Ha Hb. unfold call_lte. destruct a as [|p a]; [split; [intros _ d; cbn; apply valid_nonneg; exact Hb|reflexivity]|].
  assert (F : forallb (fun '(d, x) => x <=? amt b d) (p :: a) = true <-> forall d, amt (p :: a) d <= amt b d).
  { rewrite forallb_forall. split.
    - intros H d. destruct (amt_zero_or_in (p :: a) d) as [E|E]; [rewrite E; apply valid_nonneg; exact Hb|]. specialize (H _ E). apply Z.leb_le in H. exact H.
    - intros H [d x] Hin. rewrite <- (amt_in _ _ _ (proj1 Ha) Hin). specialize (H d). lia. }
  destruct b as [|q b]; [|exact F]. split; [discriminate|]. intro H. exfalso. destruct p as [d x]. destruct Ha as [_ P]. inversion P; subst. specialize (H d).
  cbn [amt snd] in *. rewrite beqb_refl in H. lia.
Qed.
Lemma cadd_comm a b : cvalid a -> cvalid b -> cadd a b = cadd b a.
Proof.
  intros Ha Hb. apply cvalid_ext; [apply cadd_valid; assumption|apply cadd_valid; assumption|]. intro d.
  rewrite !amt_cadd by (first [apply Ha|apply Hb]). lia.
Qed.
Lemma cadd_assoc a b c : cvalid a -> cvalid b -> cvalid c -> cadd (cadd a b) c = cadd a (cadd b c).
Proof.
  intros Ha Hb Hc. apply cvalid_ext; [repeat apply cadd_valid; assumption|repeat apply cadd_valid; assumption|]. intro d.
  pose proof (cadd_valid a b Ha Hb) as V1. pose proof (cadd_valid b c Hb Hc) as V2.
  rewrite !amt_cadd by (first [apply Ha|apply Hb|apply Hc|apply V1|apply V2]). lia.
Qed.
Lemma cadd_nil_l a : cvalid a -> cadd [] a = a.
Proof.
  intro Ha. apply cvalid_ext; [apply cadd_valid; [apply cvalid_nil|exact Ha]|exact Ha|]. intro d. rewrite amt_cadd; [reflexivity|exact I|apply Ha].
Qed.

(* Coins.IsValid as a check (denomination syntax is not modelled) *)
Fixpoint cvalidb (c : coins) : bool :=
  match c with
  | [] => true
  | (d, x) :: c' => (0 <? x) && (match c' with [] => true | (e, _) :: _ => bltb d e end) && cvalidb c'
  end.
Lemma cvalidb_spec c : cvalidb c = true -> cvalid c.
Proof.
  induction c as [|[d x] c IH]; intro H; [apply cvalid_nil|]. cbn [cvalidb] in H. apply andb_prop in H as [H H3]. apply andb_prop in H as [H1 H2].
  destruct (IH H3) as [S P]. split; [|constructor; [cbn; lia|exact P]]. split; [|exact S]. destruct c as [|[e y] c]; [constructor|].
  apply bltb_spec in H2. constructor; [exact H2|]. destruct S as [L _]. exact (below_trans _ _ _ H2 L).
Qed.
