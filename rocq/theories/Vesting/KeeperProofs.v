From Verif Require Import Lib.Base Lib.Bytes Lib.Coins Vesting.Model Vesting.Spec Vesting.Proofs Vesting.AccProofs Vesting.Keeper.
Open Scope Z_scope.

Definition kst_ok (s : kst) : Prop :=
  (forall a v, accs s a = Some (Vest v) -> account_ok v) /\ (forall a, cvalid (bank s a)).

Lemma upd_same {A} (f : addr -> A) a x : upd f a x a = x.
Proof. unfold upd. rewrite N.eqb_refl. reflexivity. Qed.
Lemma upd_other {A} (f : addr -> A) a b x : b <> a -> upd f a x b = f b.
Proof. intro H. unfold upd. rewrite (proj2 (N.eqb_neq b a) H). reflexivity. Qed.

Lemma cvalid_cvalidb c : cvalid c -> cvalidb c = true.
Proof.
  induction c as [|[d x] c IH]; intros [S P]; [reflexivity|]. destruct S as [L S]. inversion P as [|? ? P1 P2]; subst. cbn [snd] in P1. cbn [cvalidb].
  rewrite (IH (conj S P2)). replace (0 <? x) with true by lia. destruct c as [|[e y] c]; [reflexivity|]. inversion L; subst.
  rewrite (proj2 (bltb_spec d e)); [reflexivity|assumption].
Qed.

Lemma locked_of_ok s a t : kst_ok s -> exists l, locked_of s a t = Ok l /\ cvalid l.
Proof.
  intros [Ha _]. unfold locked_of. destruct (accs s a) as [[|v|]|] eqn:E; try (eexists; split; [reflexivity|apply cvalid_nil]).
  destruct (locked_coins_spec v t (Ha a v E)) as [c [E1 [V _]]]. exists c. split; assumption.
Qed.

(* effect of a bank transfer *)
Definition moved (s s' : kst) (from to : addr) (c : coins) : Prop :=
  forall a d, amt (bank s' a) d = amt (bank s a) d - (if N.eqb a from then amt c d else 0) + (if N.eqb a to then amt c d else 0).
Definition moved_ok (s s' : kst) (from to : addr) (c : coins) : Prop :=
  moved s s' from to c /\ (forall a, cvalid (bank s' a)) /\
  (forall a, accs s' a = accs s a \/ (a = to /\ accs s a = None /\ accs s' a = Some Base)) /\
  gov_off s' = gov_off s /\ active s' = active s.

Lemma send_coins_spec s from to c t : kst_ok s ->
  (exists s', send_coins s from to c t = Ok s' /\ moved_ok s s' from to c /\
     exists l, locked_of s from t = Ok l /\ forall d, 0 < amt c d -> amt c d <= amt (bank s from) d - amt l d)
  \/ send_coins s from to c t = Err.
Proof.
  intros K. pose proof K as [Ha Hb]. unfold send_coins. destruct (locked_of_ok s from t K) as [l [El Vl]]. rewrite El. cbn [rbind].
  destruct (cvalidb c) eqn:Vc; [|right; reflexivity]. cbn [andb].
  destruct (forallb _ c) eqn:F; [|right; reflexivity]. left. apply cvalidb_spec in Vc. rewrite forallb_forall in F.
  assert (Hle : forall d, 0 < amt c d -> amt c d <= amt (bank s from) d - amt l d).
  { intros d Hd. destruct (amt_zero_or_in c d) as [E|E]; [lia|]. specialize (F _ E). apply Z.leb_le in F. exact F. }
  assert (Hle0 : forall d, amt c d <= amt (bank s from) d).
  { intro d. pose proof (valid_nonneg c d Vc). pose proof (valid_nonneg l d Vl). pose proof (valid_nonneg _ d (Hb from)).
    destruct (Z.eq_dec (amt c d) 0) as [E|E]; [lia|]. specialize (Hle d). lia. }
  destruct (csafe_sub_spec (bank s from) c (Hb from) Vc) as [S1 [S2 [S3 S4]]].
  set (r := fst (csafe_sub (bank s from) c)) in *.
  assert (Vr : cvalid r) by (apply valid_of; [exact S3|exact S4|]; intro d; rewrite S1; specialize (Hle0 d); lia).
  set (s1 := set_bank s from r). set (s2 := set_bank s1 to (cadd (bank s1 to) c)).
  assert (V1 : forall a, cvalid (bank s1 a)) by (intro a; unfold s1; cbn [set_bank bank]; unfold upd; destruct (N.eqb a from); [exact Vr|apply Hb]).
  assert (V2 : forall a, cvalid (bank s2 a)) by (intro a; unfold s2; cbn [set_bank bank]; unfold upd; destruct (N.eqb a to); [apply cadd_valid; [apply V1|exact Vc]|apply V1]).
  assert (M : moved s s2 from to c).
  { intros a d. unfold s2. cbn [set_bank bank]. unfold upd at 1. destruct (N.eqb a to) eqn:Et.
    - apply N.eqb_eq in Et. subst a. rewrite amt_cadd by (first [apply (V1 to)|apply Vc]). unfold s1. cbn [set_bank bank]. unfold upd.
      destruct (N.eqb to from) eqn:Ef; [apply N.eqb_eq in Ef; subst; rewrite S1|]; lia.
    - unfold s1. cbn [set_bank bank]. unfold upd. destruct (N.eqb a from) eqn:Ef; [apply N.eqb_eq in Ef; subst; rewrite S1|]; lia. }
  eexists. split; [reflexivity|]. split; [|exists l; split; [reflexivity|exact Hle]].
  destruct (accs s2 to) as [x|] eqn:Et.
  - split; [exact M|]. split; [exact V2|]. split; [intro a; left; reflexivity|]. split; reflexivity.
  - split; [exact M|]. split; [exact V2|]. split; [|split; reflexivity]. intro a. cbn [set_acc accs]. unfold upd. destruct (N.eqb a to) eqn:E; [|left; reflexivity].
    apply N.eqb_eq in E. subst. right. split; [reflexivity|]. split; [exact Et|reflexivity].
Qed.
Lemma moved_kst_ok s s' from to c : kst_ok s -> moved_ok s s' from to c -> kst_ok s'.
Proof.
  intros [Ha Hb] [_ [V [A _]]]. split; [|exact V]. intros a v E. destruct (A a) as [E'|[_ [_ E']]]; [|congruence]. apply (Ha a). congruence.
Qed.
Lemma set_acc_ok s a x : kst_ok s -> (forall v, x = Vest v -> account_ok v) -> kst_ok (set_acc s a x).
Proof.
  intros [Ha Hb] Hx. split; [|exact Hb]. intros b v E. cbn [set_acc accs] in E. unfold upd in E. destruct (N.eqb b a); [injection E as E; apply Hx; exact E|apply (Ha b); exact E].
Qed.
Lemma set_gov_off_ok s a b : kst_ok s -> kst_ok (set_gov_off s a b).
Proof. intros [Ha Hb]. split; assumption. Qed.

(* ---------------- funding ---------------- *)

Lemma periods_basic_ok ps : periods_basic ps = true -> schedule_ok ps.
Proof.
  unfold periods_basic, schedule_ok. rewrite forallb_forall, Forall_forall. intros H p Hp. specialize (H p Hp). apply andb_prop in H as [H1 H2].
  split; [lia|apply cvalidb_spec; exact H2].
Qed.
Definition fund_schedules (lock vest : periods) : periods * periods * coins :=
  let vc := total_amount vest in let lc := total_amount lock in
  let '(lock1, lc1) := match lock with [] => if cis_zero vc then (lock, lc) else ([Per 0 vc], vc) | _ => (lock, lc) end in
  let '(vest1, vc1) := match vest with [] => if cis_zero lc1 then (vest, vc) else ([Per 0 lc1], lc1) | _ => (vest, vc) end in
  (lock1, vest1, vc1).
Lemma single_ok c : cvalid c -> schedule_ok [Per 0 c] /\ total_is [Per 0 c] c.
Proof.
  intro V. split; [constructor; [split; [cbn; lia|exact V]|constructor]|]. split; [exact V|]. intro d. cbn. lia.
Qed.
Lemma fund_schedules_ok lock vest l v c : fund_basic lock vest = true -> fund_schedules lock vest = (l, v, c) ->
  schedule_ok l /\ schedule_ok v /\ total_is l c /\ total_is v c /\ (lock <> [] -> l = lock) /\ (vest <> [] -> v = vest).
Proof.
  intros B H. unfold fund_basic in B. apply andb_prop in B as [B B4]. apply andb_prop in B as [B B3]. apply andb_prop in B as [B1 B2].
  pose proof (periods_basic_ok _ B1) as Ol. pose proof (periods_basic_ok _ B2) as Ov.
  destruct (total_amount_is lock Ol) as [Vl Tl]. destruct (total_amount_is vest Ov) as [Vv Tv]. unfold fund_schedules in H.
  destruct lock as [|p lock]; destruct vest as [|q vest].
  - discriminate B3.
  - change (total_amount []) with (@nil (bytes * Z)) in *. destruct (cis_zero (total_amount (q :: vest))) eqn:Z0.
    + apply (cis_zero_spec _ Vv) in Z0. rewrite Z0 in B3. discriminate.
    + injection H as <- <- <-. destruct (single_ok _ Vv) as [S T]. split; [exact S|]. split; [exact Ov|]. split; [exact T|]. split; [split; assumption|]. split; [congruence|reflexivity].
  - change (total_amount []) with (@nil (bytes * Z)) in *. destruct (cis_zero (total_amount (p :: lock))) eqn:Z0.
    + apply (cis_zero_spec _ Vl) in Z0. rewrite Z0 in B3. discriminate.
    + injection H as <- <- <-. destruct (single_ok _ Vl) as [S T]. split; [exact Ol|]. split; [exact S|]. split; [split; assumption|]. split; [exact T|]. split; [reflexivity|congruence].
  - apply coin_eq_spec in B4; [|exact Vl|exact Vv]. injection H as <- <- <-.
    split; [exact Ol|]. split; [exact Ov|]. split; [rewrite <- B4; split; assumption|]. split; [split; assumption|]. split; reflexivity.
Qed.

Lemma convert_spec s a t : kst_ok s ->
  (exists v, convert s a t = Ok (set_acc (set_gov_off s a false) a Base) /\ accs s a = Some (Vest v) /\
     forall d, amt (vested v t) d = amt (v_orig v) d /\ amt (unlocked v t) d = amt (v_orig v) d)
  \/ convert s a t = Err.
Proof.
  intro K. unfold convert. destruct (accs s a) as [[|v|]|] eqn:E; try (right; reflexivity). pose proof (proj1 K a v E) as OK.
  destruct (vesting_spec v t OK) as [c [Ec [Vc Ac]]]. rewrite Ec. cbn [rbind]. destruct (cis_zero c) eqn:Zc; [cbn [negb]|right; reflexivity].
  destruct (locked_up_spec v t OK) as [l [El [Vl Al]]]. rewrite El. cbn [rbind]. destruct (cis_zero l) eqn:Zl; [cbn [negb]|right; reflexivity].
  left. exists v. split; [reflexivity|]. split; [reflexivity|]. intro d. pose proof (proj1 (cis_zero_amt c Vc) Zc d). pose proof (proj1 (cis_zero_amt l Vl) Zl d).
  rewrite Ac in *. rewrite Al in *. lia.
Qed.

Section Props.
Variables (authority distr : addr) (blocked is_contract : addr -> bool).

Lemma fund_spec s f a st lock vest t : kst_ok s ->
  (exists s' v v' l ve c, fund blocked s f a st lock vest t = Ok s' /\ accs s a = Some (Vest v) /\ f = v_funder v /\ blocked a = false /\
     fund_basic lock vest = true /\ fund_schedules lock vest = (l, ve, c) /\ add_grant v st l ve c = Ok v' /\ account_ok v' /\
     moved_ok (set_acc s a (Vest v')) s' f a c)
  \/ fund blocked s f a st lock vest t = Err.
Proof.
  intro K. unfold fund. destruct (fund_basic lock vest) eqn:B; [cbn [negb]|right; reflexivity]. destruct (blocked a) eqn:Bl; [right; reflexivity|].
  destruct (accs s a) as [[|v|]|] eqn:E; try (right; reflexivity).
  destruct (fund_schedules lock vest) as [[l ve] c] eqn:FS. destruct (fund_schedules_ok _ _ _ _ _ B FS) as [Ol [Ov [Tl [Tv _]]]].
  unfold fund_schedules in FS.
  destruct (match lock with [] => if cis_zero (total_amount vest) then (lock, total_amount lock) else ([Per 0 (total_amount vest)], total_amount vest) | _ :: _ => (lock, total_amount lock) end) as [lock1 lc1].
  destruct (match vest with [] => if cis_zero lc1 then (vest, total_amount vest) else ([Per 0 lc1], lc1) | _ :: _ => (vest, total_amount vest) end) as [vest1 vc1].
  injection FS as -> -> ->.
  destruct (N.eqb f (v_funder v)) eqn:Ef; [cbn [negb]|right; reflexivity]. apply N.eqb_eq in Ef.
  destruct (add_grant_spec v st l ve c (proj1 K a v E) Ol Ov Tl Tv) as [v' [Eg [OK _]]]. rewrite Eg. cbn [rbind].
  assert (K1 : kst_ok (set_acc s a (Vest v'))) by (apply set_acc_ok; [exact K|]; intros w Hw; injection Hw as <-; exact OK).
  destruct (send_coins_spec (set_acc s a (Vest v')) f a c t K1) as [[s' [Es [M _]]]|Es]; rewrite Es; [|right; reflexivity].
  left. exists s', v, v', l, ve, c. split; [reflexivity|]. repeat (split; [first [reflexivity|assumption]|]). exact M.
Qed.

(* the addresses a clawback may be asked for by: the funder, or governance *)
Definition may_claw (s : kst) (v : vacc) (f a : addr) : Prop :=
  (f = authority /\ gov_off s a = false) \/ (f <> authority /\ f = v_funder v /\ active s a = false).
Definition claw_dest (f : addr) (dest : option addr) : addr :=
  if N.eqb f authority then distr else match dest with Some d => d | None => f end.

Lemma clawback_msg_spec s f a dest t : kst_ok s ->
  (exists s' v v' c, clawback authority distr blocked s f a dest t = Ok s' /\ accs s a = Some (Vest v) /\ may_claw s v f a /\
     compute_clawback v t = Ok (v', c) /\ moved_ok (set_gov_off (set_acc s a Base) a false) s' a (claw_dest f dest) c)
  \/ clawback authority distr blocked s f a dest t = Err.
Proof.
  intro K. unfold clawback. set (dst := match dest with Some d => d | None => f end).
  destruct (negb (N.eqb f authority) && (active s a || blocked dst)) eqn:G; [right; reflexivity|].
  destruct (accs s a) as [[|v|]|] eqn:E; try (right; reflexivity).
  assert (X : forall dd, (forall s', transfer_clawback s a v dd t = Ok s' -> may_claw s v f a /\ dd = claw_dest f dest) ->
    (exists s' v0 v' c, transfer_clawback s a v dd t = Ok s' /\ Some (Vest v) = Some (Vest v0) /\ may_claw s v0 f a /\ compute_clawback v0 t = Ok (v', c) /\
       moved_ok (set_gov_off (set_acc s a Base) a false) s' a (claw_dest f dest) c) \/ transfer_clawback s a v dd t = Err).
  { intros dd Hd. unfold transfer_clawback in *. destruct (clawback_spec v t (proj1 K a v E)) as [v' [c [Ec _]]]. rewrite Ec in *. cbn [rbind] in *.
    assert (K1 : kst_ok (set_gov_off (set_acc s a Base) a false)) by (apply set_gov_off_ok, set_acc_ok; [exact K|intros; discriminate]).
    destruct (send_coins_spec _ a dd c t K1) as [[s' [Es [M _]]]|Es]; [|right; exact Es]. destruct (Hd s' Es) as [Hm ->].
    left. exists s', v, v', c. split; [exact Es|]. split; [reflexivity|]. split; [exact Hm|]. split; [exact Ec|exact M]. }
  assert (Y : (if N.eqb authority f then if gov_off s a then Err else transfer_clawback s a v distr t
               else if negb (N.eqb (v_funder v) f) then Err else transfer_clawback s a v dst t) = Err \/
    (exists dd, (if N.eqb authority f then if gov_off s a then Err else transfer_clawback s a v distr t
               else if negb (N.eqb (v_funder v) f) then Err else transfer_clawback s a v dst t) = transfer_clawback s a v dd t /\ may_claw s v f a /\ dd = claw_dest f dest)).
  { unfold may_claw, claw_dest. rewrite (N.eqb_sym f authority) in *. destruct (N.eqb authority f) eqn:Ea.
    - apply N.eqb_eq in Ea. destruct (gov_off s a); [left; reflexivity|]. right. exists distr. split; [reflexivity|]. split; [left; auto|reflexivity].
    - apply N.eqb_neq in Ea. destruct (N.eqb (v_funder v) f) eqn:Ef; [|left; reflexivity]. apply N.eqb_eq in Ef. right. exists dst. split; [reflexivity|].
      cbn [negb andb] in G. apply orb_false_elim in G. split; [right; split; [congruence|]; split; [congruence|apply G]|reflexivity]. }
  destruct (v_vesting v) as [|p ps]; destruct (v_lockup v) as [|q qs]; try (right; reflexivity);
    (destruct Y as [Y|[dd [Y [Hm Hd]]]]; rewrite Y; [right; reflexivity|]; apply X; intros; split; assumption).
Qed.

Lemma fresh_ok f : account_ok (Vacc f [] [] (-62135596800) 0 [] []).
Proof. repeat (split; [try constructor; try (cbn; lia)|]); try constructor; try (cbn; lia). all: intros; reflexivity. Qed.

Lemma handle_ok s m t : kst_ok s -> (exists s', handle authority distr blocked is_contract s m t = Ok s' /\ kst_ok s') \/ handle authority distr blocked is_contract s m t = Err.
Proof.
  intro K. destruct m as [f a e|f a st l v|f a d|f n a|a]; cbn [handle].
  - unfold create. destruct (blocked a); [right; reflexivity|]. destruct (accs s a) as [[|w|]|]; try (right; reflexivity). destruct (is_contract a); [right; reflexivity|].
    left. eexists. split; [reflexivity|]. assert (K1 : kst_ok (set_acc s a (Vest (Vacc f [] [] (-62135596800) 0 [] [])))) by (apply set_acc_ok; [exact K|]; intros w Hw; injection Hw as <-; apply fresh_ok).
    destruct e; [exact K1|apply set_gov_off_ok; exact K1].
  - destruct (fund_spec s f a st l v t K) as [[s' [w [w' [l' [ve [c [E [Ea [_ [_ [_ [_ [_ [OK M]]]]]]]]]]]]]]|E]; [left|right; exact E].
    exists s'. split; [exact E|]. eapply moved_kst_ok; [|exact M]. apply set_acc_ok; [exact K|]. intros x Hx. injection Hx as <-. exact OK.
  - destruct (clawback_msg_spec s f a d t K) as [[s' [v [v' [c [E [_ [_ [_ M]]]]]]]]|E]; [left|right; exact E].
    exists s'. split; [exact E|]. eapply moved_kst_ok; [|exact M]. apply set_gov_off_ok, set_acc_ok; [exact K|intros; discriminate].
  - unfold update_funder. destruct (N.eqb f n); [right; reflexivity|]. destruct (active s a); [right; reflexivity|]. destruct (blocked n); [right; reflexivity|].
    destruct (accs s a) as [[|v|]|] eqn:E; try (right; reflexivity). destruct (negb (N.eqb (v_funder v) f)); [right; reflexivity|].
    left. eexists. split; [reflexivity|]. apply set_acc_ok; [exact K|]. intros w Hw. injection Hw as <-. exact (proj1 K a v E).
  - destruct (convert_spec s a t K) as [[v [E _]]|E]; [left|right; exact E]. eexists. split; [exact E|]. apply set_acc_ok; [apply set_gov_off_ok; exact K|intros; discriminate].
Qed.
End Props.
