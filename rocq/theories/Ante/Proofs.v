From Verif Require Import Lib.Base Ante.Model Ante.Spec.
Open Scope Z_scope.

(* ------------------------------------------------------------------ *)
(* messages                                                             *)
(* ------------------------------------------------------------------ *)

Section MsgInd.
Variable P : msg -> Prop.
Hypothesis Hnone : P (MExec None).
Hypothesis Hexec : forall l, Forall P l -> P (MExec (Some l)).
Hypothesis Hgrant : forall g, P (MGrant g).
Hypothesis Hplain : forall u, P (MPlain u).
Fixpoint msg_deep (m : msg) : P m :=
  match m with
  | MExec None => Hnone
  | MExec (Some l) => Hexec l ((fix go (l : list msg) : Forall P l := match l with [] => Forall_nil P | m :: l' => Forall_cons m (msg_deep m) (go l') end) l)
  | MGrant g => Hgrant g
  | MPlain u => Hplain u
  end.
End MsgInd.

Lemma check_exec inner lvl l : check_msg inner lvl (MExec (Some l)) =
  if (max_nested <=? S lvl)%nat then None else match check_loop true (S lvl) l with None => None | Some _ => Some (S lvl) end.
Proof.
  cbn [check_msg]. destruct (max_nested <=? S lvl)%nat; [reflexivity|].
  assert (E : forall l k, (fix loop (k : nat) (l : list msg) : option nat :=
             match l with
             | [] => Some k
             | m :: l' => match check_msg true k m with None => None | Some k1 => loop k1 l' end
             end) k l = check_loop true k l).
  { clear. induction l as [|m l IH]; intro k; cbn; [reflexivity|]. destruct (check_msg true k m); [apply IH|reflexivity]. }
  rewrite E. reflexivity.
Qed.

Fixpoint heaviest (i : nat) (l : list msg) : nat :=
  match l with
  | [] => O
  | m :: l' => match m with MExec _ => Nat.max (S i + weight m) (heaviest (S i) l') | _ => heaviest i l' end
  end.
Lemma weights_heaviest l : weights l = heaviest 0 l.
Proof.
  unfold weights. cbn [weight].
  enough (E : forall l i, (fix heaviest (i : nat) (l : list msg) : nat :=
       match l with
       | [] => O
       | m :: l' => match m with MExec _ => Nat.max (S i + weight m) (heaviest (S i) l') | _ => heaviest i l' end
       end) i l = heaviest i l) by (exact (E l O)).
  clear. induction l as [|m l IH]; intro i; [reflexivity|]. cbn [heaviest]. destruct m; [|apply IH|apply IH].
  rewrite IH. reflexivity.
Qed.

Fixpoint execs (l : list msg) : nat := match l with [] => O | MExec _ :: l' => S (execs l') | _ :: l' => execs l' end.

Lemma heaviest_none l : forall i, execs l = O -> heaviest i l = O.
Proof. induction l as [|m l IH]; intros i H; [reflexivity|]. destruct m; cbn in *; [discriminate|auto|auto]. Qed.
Lemma heaviest_shift l : forall i, execs l <> O -> heaviest i l = (i + heaviest 0 l)%nat.
Proof.
  induction l as [|m l IH]; intros i H; [cbn in H; congruence|]. destruct m; cbn [execs heaviest] in *; [|auto|auto].
  destruct (Nat.eq_dec (execs l) 0) as [E|E].
  - rewrite !(heaviest_none l) by exact E. lia.
  - rewrite (IH (S i) E), (IH 1%nat E). lia.
Qed.

(* harmless, and at the inner level plain messages are allowed too *)
Definition ok_at (inner : bool) (l : list msg) : Prop :=
  harmless l /\ (inner = true -> forall u, In (MPlain u) l -> ~ forbidden u).

Lemma delegated_cons m l x : delegated (m :: l) x <-> delegated [m] x \/ delegated l x.
Proof.
  split.
  - intro H. inversion H as [l0 i0 m0 H0 H1|l0 i0 m0 H0 H1]; subst; destruct H0 as [->|H0].
    + left. eapply delegated_here; [left; reflexivity|exact H1].
    + right. eapply delegated_here; eassumption.
    + left. eapply delegated_deep; [left; reflexivity|exact H1].
    + right. eapply delegated_deep; eassumption.
  - intros [H|H]; inversion H as [l0 i0 m0 H0 H1|l0 i0 m0 H0 H1]; subst.
    + destruct H0 as [->|[]]. eapply delegated_here; [left; reflexivity|exact H1].
    + destruct H0 as [->|[]]. eapply delegated_deep; [left; reflexivity|exact H1].
    + eapply delegated_here; [right; exact H0|exact H1].
    + eapply delegated_deep; [right; exact H0|exact H1].
Qed.
Lemma delegated_exec l x : delegated [MExec (Some l)] x <-> carried l x.
Proof.
  split.
  - intro H. inversion H as [l0 i0 m0 H0 H1|l0 i0 m0 H0 H1]; subst; destruct H0 as [E|[]]; injection E as ->; [left|right]; exact H1.
  - intros [H|H]; [eapply delegated_here|eapply delegated_deep]; try (left; reflexivity); exact H.
Qed.
Lemma carried_cons m l x : carried (m :: l) x <-> carried [m] x \/ carried l x.
Proof. unfold carried. rewrite delegated_cons. cbn. tauto. Qed.

Lemma ok_cons inner m l : ok_at inner (m :: l) <-> ok_at inner [m] /\ ok_at inner l.
Proof.
  unfold ok_at, harmless. split.
  - intros ((A & B & C) & D). split; (split; [split; [|split]|]).
    + intros u H. apply A. apply delegated_cons. auto.
    + intros g H. apply B. apply carried_cons. auto.
    + intros e H. apply C. apply carried_cons. auto.
    + intros E u [->|[]]. apply D; [exact E|left; reflexivity].
    + intros u H. apply A. apply delegated_cons. auto.
    + intros g H. apply B. apply carried_cons. auto.
    + intros e H. apply C. apply carried_cons. auto.
    + intros E u H. apply D; [exact E|right; exact H].
  - intros (((A & B & C) & D) & (A' & B' & C') & D'). split; [split; [|split]|].
    + intros u H. apply delegated_cons in H as [H|H]; auto.
    + intros g H. apply carried_cons in H as [H|H]; auto.
    + intros e H. apply carried_cons in H as [H|H]; auto.
    + intros E u [->|H]; [apply D; [exact E|left; reflexivity]|apply D'; assumption].
Qed.
Lemma ok_nil inner : ok_at inner [].
Proof.
  assert (N1 : forall x, ~ delegated [] x) by (intros x H; inversion H as [l i m H0 _|l i m H0 _]; destruct H0).
  split; [split; [|split]|].
  - intros u H. destruct (N1 _ H).
  - intros g [[]|H]. destruct (N1 _ H).
  - intros e [[]|H]. destruct (N1 _ H).
  - intros _ u [].
Qed.
Lemma ok_exec inner l : ok_at inner [MExec (Some l)] <-> ok_at true l.
Proof.
  unfold ok_at, harmless. split.
  - intros ((A & B & C) & D). split; [split; [|split]|].
    + intros u H. apply A. apply delegated_exec. right. exact H.
    + intros g H. apply B. right. apply delegated_exec. exact H.
    + intros e H. apply C. right. apply delegated_exec. exact H.
    + intros _ u H. apply A. apply delegated_exec. left. exact H.
  - intros ((A & B & C) & D). split; [split; [|split]|].
    + intros u H. apply delegated_exec in H as [H|H]; [apply D; [reflexivity|exact H]|auto].
    + intros g [[H|[]]|H]; [discriminate H|]. apply delegated_exec in H. auto.
    + intros e [[H|[]]|H]; [injection H as <-; discriminate|]. apply delegated_exec in H. auto.
    + intros _ u [H|[]]. discriminate H.
Qed.

Lemma disabled_spec u : disabled u = true <-> forbidden u.
Proof. unfold disabled, forbidden. rewrite Bool.orb_true_iff, !N.eqb_eq. reflexivity. Qed.
Lemma disabled_false u : disabled u = false <-> ~ forbidden u.
Proof. rewrite <- disabled_spec. destruct (disabled u); split; congruence. Qed.

Definition check_ok (m : msg) : Prop := forall inner lvl k,
  check_msg inner lvl m = Some k <-> k = (lvl + execs [m])%nat /\ ok_at inner [m] /\ (execs [m] = O \/ (lvl + heaviest 0 [m] <= 6)%nat).

Lemma loop_ok l : Forall check_ok l -> forall inner lvl k,
  check_loop inner lvl l = Some k <-> k = (lvl + execs l)%nat /\ ok_at inner l /\ (execs l = O \/ (lvl + heaviest 0 l <= 6)%nat).
Proof.
  induction 1 as [|m l Hm Hl IH]; intros inner lvl k; cbn [check_loop].
  - cbn. split.
    + intro H. injection H as <-. split; [lia|]. split; [apply ok_nil|left; reflexivity].
    + intros (-> & _). f_equal. lia.
  - assert (E : execs (m :: l) = (execs [m] + execs l)%nat) by (destruct m; reflexivity).
    assert (W : execs (m :: l) = O \/ (lvl + heaviest 0 (m :: l) <= 6)%nat <->
                (execs [m] = O \/ (lvl + heaviest 0 [m] <= 6)%nat) /\ (execs l = O \/ (lvl + execs [m] + heaviest 0 l <= 6)%nat)).
    { destruct m as [e|g|u].
      - cbn [execs heaviest]. destruct (Nat.eq_dec (execs l) 0) as [E0|E0].
        + rewrite (heaviest_none l 1 E0). rewrite E0. split; [intros [X|X]; [discriminate X|]|intros [X Y]; right]; [split; [right; lia|left; reflexivity]|destruct X; [discriminate|lia]].
        + rewrite (heaviest_shift l 1 E0). split.
          * intros [X|X]; [discriminate X|]. split; right; lia.
          * intros [[X|X] [Y|Y]]; try discriminate X; try (exfalso; lia). right. lia.
      - cbn [execs heaviest]. split; [intros [X|X]; (split; [left; reflexivity|])|intros [_ [X|X]]]; [left; exact X|right; lia|left; exact X|right; lia].
      - cbn [execs heaviest]. split; [intros [X|X]; (split; [left; reflexivity|])|intros [_ [X|X]]]; [left; exact X|right; lia|left; exact X|right; lia]. }
    rewrite W, E, ok_cons. destruct (check_msg inner lvl m) as [k1|] eqn:C.
    + apply (proj1 (Hm inner lvl k1)) in C. destruct C as (-> & A & B). rewrite (IH inner _ k). split.
      * intros (-> & A2 & B2). split; [lia|]. auto.
      * intros (-> & (A1 & A2) & (B1 & B2)). split; [lia|]. auto.
    + split; [discriminate|]. intros (_ & (A1 & _) & (B1 & _)). exfalso.
      assert (X : check_msg inner lvl m = Some (lvl + execs [m])%nat) by (apply Hm; auto). congruence.
Qed.

Lemma check_all m : check_ok m.
Proof.
  induction m as [|l IH|g|u] using msg_deep; intros inner lvl k.
  - cbn [check_msg]. split; [discriminate|]. intros (_ & ((_ & _ & A) & _) & _). exfalso. apply (A None); [left; left; reflexivity|reflexivity].
  - rewrite check_exec, ok_exec. cbn [execs heaviest]. fold (weights l). rewrite weights_heaviest.
    destruct (Nat.leb_spec max_nested (S lvl)) as [L|L]; unfold max_nested in L.
    + split; [discriminate|]. intros (_ & _ & [X|X]); [discriminate X|exfalso; lia].
    + destruct (check_loop true (S lvl) l) as [k1|] eqn:C.
      * apply (proj1 (loop_ok l IH _ _ _)) in C. destruct C as (-> & A & B). split.
        -- intro H. injection H as <-. split; [lia|]. split; [exact A|]. right. destruct B as [B|B]; [rewrite (heaviest_none l 0 B)|]; lia.
        -- intros (-> & _). f_equal. lia.
      * split; [discriminate|]. intros (_ & A & [B|B]); [discriminate B|]. exfalso.
        assert (X : check_loop true (S lvl) l = Some (S lvl + execs l)%nat) by (apply loop_ok; [exact IH|]; split; [reflexivity|]; split; [exact A|right; lia]). congruence.
  - cbn [check_msg execs]. destruct g as [u|].
    + destruct (disabled u) eqn:D.
      * split; [discriminate|]. intros (_ & ((_ & A & _) & _) & _). exfalso. destruct (A (Some u)) as (u' & E & F); [left; left; reflexivity|].
        injection E as <-. apply F. apply disabled_spec. exact D.
      * split; [|intros (-> & _); f_equal; lia]. intro H. injection H as <-. split; [lia|]. split; [|left; reflexivity]. apply disabled_false in D.
        assert (N1 : forall x, ~ delegated [MGrant (Some u)] x) by (intros x X; inversion X as [l i m0 Q _|l i m0 Q _]; destruct Q as [Q|[]]; discriminate Q).
        split; [split; [|split]|].
        -- intros v X. destruct (N1 _ X).
        -- intros g [[X|[]]|X]; [|destruct (N1 _ X)]. injection X as <-. eauto.
        -- intros e [[X|[]]|X]; [discriminate X|destruct (N1 _ X)].
        -- intros _ v [X|[]]. discriminate X.
    + split; [discriminate|]. intros (_ & ((_ & A & _) & _) & _). exfalso. destruct (A None) as (u' & E & F); [left; left; reflexivity|discriminate E].
  - cbn [check_msg execs].
    assert (N1 : forall x, ~ delegated [MPlain u] x) by (intros x X; inversion X as [l i m0 Q _|l i m0 Q _]; destruct Q as [Q|[]]; discriminate Q).
    destruct (inner && disabled u) eqn:D.
    + apply Bool.andb_true_iff in D as [D1 D2]. split; [discriminate|]. intros (_ & (_ & A) & _). exfalso. apply (A D1 u); [left; reflexivity|]. apply disabled_spec. exact D2.
    + split; [|intros (-> & _); f_equal; lia]. intro H. injection H as <-. split; [lia|]. split; [|left; reflexivity].
      split; [split; [|split]|].
      * intros v X. destruct (N1 _ X).
      * intros g [[X|[]]|X]; [discriminate X|destruct (N1 _ X)].
      * intros e [[X|[]]|X]; [discriminate X|destruct (N1 _ X)].
      * intros E v [X|[]]. injection X as <-. rewrite E in D. apply disabled_false. exact D.
Qed.

Lemma check_exact l : (exists k, check_disabled false 1 l = Some k) <-> harmless l /\ (weights l <= 5)%nat.
Proof.
  unfold check_disabled. cbn [max_nested Nat.leb]. rewrite weights_heaviest.
  assert (F : Forall check_ok l) by (apply Forall_forall; intros m _; apply check_all).
  split.
  - intros [k H]. apply (proj1 (loop_ok l F _ _ _)) in H. destruct H as (_ & (A & _) & B). split; [exact A|].
    destruct B as [B|B]; [rewrite (heaviest_none l 0 B)|]; lia.
  - intros [A B]. exists (1 + execs l)%nat. apply loop_ok; [exact F|]. split; [reflexivity|]. split; [|right; lia]. split; [exact A|discriminate].
Qed.

Lemma depth_weight m : (depth m <= 1 + weight m)%nat.
Proof.
  induction m as [|l IH|g|u] using msg_deep; cbn [depth weight]; try lia.
  fold (weights l). change (S (fold_right (fun m d => Nat.max (depth m) d) O l) <= 1 + weights l)%nat. rewrite weights_heaviest.
  enough (fold_right (fun m d => Nat.max (depth m) d) O l <= heaviest 0 l)%nat by lia.
  induction IH as [|m l Hm Hl IH]; [cbn; lia|]. cbn [fold_right heaviest]. destruct m as [e|g|u].
  - destruct (Nat.eq_dec (execs l) 0) as [E|E].
    + rewrite (heaviest_none l 0 E) in IH. lia.
    + rewrite (heaviest_shift l 1 E). lia.
  - cbn [depth]. lia.
  - cbn [depth]. lia.
Qed.

Lemma reject_spec l : reject_messages l = true <-> ~ In (MPlain eth_url) l.
Proof.
  unfold reject_messages. rewrite Bool.negb_true_iff. split.
  - intros H X. assert (Y : existsb is_eth l = true) by (apply existsb_exists; exists (MPlain eth_url); auto). congruence.
  - intro H. destruct (existsb is_eth l) eqn:E; [|reflexivity]. apply existsb_exists in E as (m & Hm & E). destruct m as [e|g|u]; try discriminate.
    cbn in E. apply N.eqb_eq in E. subst u. contradiction.
Qed.

(* ------------------------------------------------------------------ *)
(* fees                                                                 *)
(* ------------------------------------------------------------------ *)

Lemma one_pos : 0 < one. Proof. reflexivity. Qed.
Lemma ceil_spec d : ceil_int d * one >= d /\ (ceil_int d - 1) * one < d.
Proof.
  unfold ceil_int. pose proof (Z.div_mod d one) as D. pose proof (Z.mod_pos_bound d one one_pos) as B. pose proof one_pos.
  destruct (Z.eqb_spec (d mod one) 0); nia.
Qed.
Lemma ceil_unique d z : z * one >= d -> (z - 1) * one < d -> ceil_int d = z.
Proof. intros A B. destruct (ceil_spec d) as [C E]. pose proof one_pos. nia. Qed.

Lemma min_gas_price_spec base mgp gas fee : min_gas_price base mgp false gas fee = true -> 0 <= mgp -> 0 <= gas ->
  (coin_list fee = [] \/ exists a, coin_list fee = [(base, a)]) /\ (0 < mgp -> mgp * gas <= amount_of (coin_list fee) base * one).
Proof.
  unfold min_gas_price. intros H Hm Hg. cbn [negb] in H.
  assert (V : coin_list fee = [] \/ exists a, coin_list fee = [(base, a)]).
  { destruct (coin_list fee) as [|[d a] [|]]; [auto| |discriminate H]. destruct (N.eqb_spec d base) as [->|]; [eauto|discriminate H]. }
  split; [exact V|]. intro M.
  assert (H2 : match fee with None => false | Some l => if 0 <? ceil_int (mgp * gas) then existsb (fun '(d, a) => N.eqb d base && (ceil_int (mgp * gas) <=? a)) l else false end = true).
  { destruct (_ && true); [discriminate H|]. rewrite Bool.orb_false_r in H. destruct (Z.eqb_spec mgp 0); [lia|]. exact H. }
  clear H. destruct fee as [l|]; [|discriminate H2]. cbn [coin_list] in *. destruct (0 <? ceil_int (mgp * gas)); [|discriminate H2].
  destruct V as [->|[a ->]]; [discriminate H2|]. cbn in H2. rewrite N.eqb_refl, Bool.orb_false_r in H2. cbn in H2. apply Z.leb_le in H2.
  unfold amount_of. cbn [find fst]. rewrite N.eqb_refl. cbn [snd]. destruct (ceil_spec (mgp * gas)) as [C _]. pose proof one_pos. nia.
Qed.

Lemma fee_checker_spec bf tip gas fee v p : 0 <= fee -> 0 <= gas -> (forall b, bf = Some b -> 0 <= b) ->
  fee_checker bf tip gas fee = Some (v, p) ->
  let b := match bf with Some b => b | None => 0 end in
  0 < gas /\ 0 <= tip_cap tip /\ b * gas <= fee * one /\
  v <= fee /\ b * gas <= v * one /\
  v * one < (b + tip_cap tip) * gas + one /\
  ((b + tip_cap tip) * gas >= fee * one -> gas <= one -> v = fee) /\
  ((b + tip_cap tip) * gas <= v * one \/ fee * one - gas < v * one) /\
  0 <= p <= max_int64.
Proof.
  intros Hf Hg Hb H b. unfold fee_checker in H. fold b in H.
  assert (B0 : 0 <= b) by (unfold b; destruct bf; [auto|lia]).
  destruct (Z.ltb_spec (tip_cap tip) 0) as [|T]; [discriminate|]. destruct (Z.eqb_spec gas 0) as [|G]; [discriminate|].
  set (t := tip_cap tip) in *. pose proof one_pos as O1.
  assert (Gp : 0 < gas) by lia.
  assert (Hfo : 0 <= fee * one) by nia.
  rewrite (Z.quot_div_nonneg (fee * one) gas) in H by lia.
  set (cap := fee * one / gas) in *.
  assert (Cap : cap * gas <= fee * one < cap * gas + gas).
  { pose proof (Z.div_mod (fee * one) gas G) as D. pose proof (Z.mod_pos_bound (fee * one) gas Gp). fold cap in D. nia. }
  destruct (Z.ltb_spec cap b) as [|C]; [discriminate|].
  set (price := Z.min (t + b) cap) in *. injection H as Hv Hp.
  assert (P1 : b <= price) by lia. assert (P2 : price <= cap) by lia. assert (P3 : price <= t + b) by lia.
  destruct (ceil_spec (price * gas)) as [C1 C2]. rewrite Hv in C1, C2. clear Hv.
  assert (PG : price * gas <= cap * gas) by nia.
  assert (PT : price * gas <= (t + b) * gas) by nia.
  assert (PB : b * gas <= price * gas) by nia.
  assert (Vf : v <= fee) by (clear -C2 PG Cap O1; nia).
  split; [exact Gp|]. split; [exact T|]. split; [lia|]. split; [exact Vf|]. split; [lia|]. split; [lia|].
  split; [|split].
  - intros A L. assert (Pc : price = cap).
    { unfold price. apply Z.min_r. destruct (Z.le_gt_cases cap (t + b)) as [X|X]; [exact X|]. exfalso.
      assert (cap * gas >= (t + b) * gas + gas) by nia. lia. }
    rewrite Pc in *. clear -C1 C2 Cap L O1 Vf. nia.
  - destruct (Z.min_spec (t + b) cap) as [[X1 X2]|[X1 X2]]; fold price in X2; rewrite X2 in *; [left|right]; lia.
  - assert (Q0 : 0 <= Z.quot (Z.quot (price - b) priority_reduction) one).
    { apply Z.quot_pos; [apply Z.quot_pos; [lia|unfold priority_reduction; lia]|lia]. }
    set (q := Z.quot (Z.quot (price - b) priority_reduction) one) in *.
    match type of Hp with (if ?c then _ else _) = _ => destruct c eqn:E end.
    + apply Bool.andb_true_iff in E as [_ E]. apply Z.leb_le in E. rewrite <- Hp. split; assumption.
    + subst p. unfold max_int64. lia.
Qed.

(* who bids more per unit of gas is not served later *)
Lemma priority_mono bf tip1 tip2 gas1 gas2 fee1 fee2 v1 v2 p1 p2 :
  fee_checker bf tip1 gas1 fee1 = Some (v1, p1) -> fee_checker bf tip2 gas2 fee2 = Some (v2, p2) ->
  tip_cap tip1 <= tip_cap tip2 -> Z.quot (fee1 * one) gas1 <= Z.quot (fee2 * one) gas2 -> p1 <= p2.
Proof.
  unfold fee_checker. set (b := match bf with Some b => b | None => 0 end).
  set (t1 := tip_cap tip1). set (t2 := tip_cap tip2). set (c1 := Z.quot (fee1 * one) gas1). set (c2 := Z.quot (fee2 * one) gas2).
  destruct (Z.ltb_spec t1 0) as [|T1]; [discriminate|]. destruct (Z.eqb gas1 0); [discriminate|]. destruct (Z.ltb_spec c1 b) as [|C1]; [discriminate|].
  destruct (Z.ltb_spec t2 0) as [|T2]; [discriminate|]. destruct (Z.eqb gas2 0); [discriminate|]. destruct (Z.ltb_spec c2 b) as [|C2]; [discriminate|].
  intros H1 H2 Lt Lc. injection H1 as _ H1. injection H2 as _ H2.
  set (q1 := Z.quot (Z.quot (Z.min (t1 + b) c1 - b) priority_reduction) one) in *.
  set (q2 := Z.quot (Z.quot (Z.min (t2 + b) c2 - b) priority_reduction) one) in *.
  clearbody b t1 t2 c1 c2.
  assert (Q : 0 <= q1 <= q2).
  { unfold q1, q2. clear H1 H2 q1 q2. assert (0 <= Z.min (t1 + b) c1 - b <= Z.min (t2 + b) c2 - b) by lia.
    assert (0 <= Z.quot (Z.min (t1 + b) c1 - b) priority_reduction <= Z.quot (Z.min (t2 + b) c2 - b) priority_reduction).
    { split; [apply Z.quot_pos; [lia|unfold priority_reduction; lia]|apply Z.quot_le_mono; [unfold priority_reduction; lia|lia]]. }
    split; [apply Z.quot_pos; [lia|apply one_pos]|apply Z.quot_le_mono; [apply one_pos|lia]]. }
  assert (M : 0 < max_int64) by reflexivity.
  clearbody q1 q2.
  assert (E : forall q, 0 <= q -> (-9223372036854775808 <=? q) = true) by (intros q X; apply Z.leb_le; lia).
  rewrite E in H1, H2 by lia. clear E. cbn [andb] in *.
  destruct (Z.leb_spec q1 max_int64) as [A1|A1]; destruct (Z.leb_spec q2 max_int64) as [A2|A2]; subst p1 p2; lia.
Qed.

Lemma deduct_spec b payer collector v b1 : deduct b payer collector v = Some b1 -> 0 <= v ->
  (v <= b payer \/ v = 0) /\ forall a, b1 a = b a - (if N.eqb a payer then v else 0) + (if N.eqb a collector then v else 0).
Proof.
  unfold deduct. destruct (Z.eqb_spec v 0) as [->|].
  - intros H _. injection H as <-. split; [auto|]. intro a. destruct (N.eqb a payer), (N.eqb a collector); lia.
  - destruct (Z.ltb_spec (b payer) v) as [|L]; [discriminate|]. intros H _. injection H as <-. split; [auto|]. intro a.
    destruct (N.eqb a payer), (N.eqb a collector); lia.
Qed.

(* ------------------------------------------------------------------ *)
(* signatures                                                           *)
(* ------------------------------------------------------------------ *)

Lemma rbind_inv {A B} (r : res A) (f : A -> res B) b : rbind r f = Ok b -> exists a, r = Ok a /\ f a = Ok b.
Proof. destruct r; cbn; [eauto|discriminate|discriminate]. Qed.

Section KeyInd.
Variable P : key -> Prop.
Hypothesis Heth : P KEth.
Hypothesis Hed : P KEd25519.
Hypothesis Hmulti : forall ks, Forall P ks -> P (KMulti ks).
Hypothesis Hother : P KOther.
Fixpoint key_deep (k : key) : P k :=
  match k with
  | KEth => Heth
  | KEd25519 => Hed
  | KMulti ks => Hmulti ks ((fix go (l : list key) : Forall P l := match l with [] => Forall_nil P | m :: l' => Forall_cons m (key_deep m) (go l') end) ks)
  | KOther => Hother
  end.
End KeyInd.

Fixpoint gas_loop (ks : list key) (bits : list bool) (sigs : list sigdata) : res Z :=
  match ks with
  | [] => if existsb (fun b => b) bits then Panic else Ok 0
  | k :: ks' =>
    match bits with
    | [] => Ok 0
    | false :: bits' => gas_loop ks' bits' sigs
    | true :: bits' =>
      match sigs with
      | [] => Panic
      | d :: sigs' => rbind (sig_gas k d) (fun g => rbind (gas_loop ks' bits' sigs') (fun g' => Ok (g + g')))
      end
    end
  end.
Lemma sig_gas_multi ks bits sigs : sig_gas (KMulti ks) (DMulti bits sigs) = gas_loop ks bits sigs.
Proof.
  cbn [sig_gas]. revert bits sigs. induction ks as [|k ks IH]; intros bits sigs; [reflexivity|]. cbn [gas_loop].
  destruct bits as [|[] bits]; [reflexivity| |apply IH]. destruct sigs as [|d sigs]; [reflexivity|].
  destruct (sig_gas k d); [|reflexivity|reflexivity]. cbn [rbind]. rewrite IH. reflexivity.
Qed.

Definition covered (ks : list key) (bits : list bool) : Prop := forall i, nth_error bits i = Some true -> (i < length ks)%nat.
Lemma covered_nil bits : covered [] bits <-> existsb (fun b => b) bits = false.
Proof.
  unfold covered. split.
  - intro H. destruct (existsb (fun b => b) bits) eqn:E; [|reflexivity]. apply existsb_exists in E as (b & Hb & ->).
    apply In_nth_error in Hb as (i & Hi). specialize (H i Hi). cbn in H. lia.
  - intros H i Hi. exfalso. assert (existsb (fun b => b) bits = true) by (apply existsb_exists; exists true; split; [eapply nth_error_In; exact Hi|reflexivity]). congruence.
Qed.
Lemma covered_cons k ks b bits : covered (k :: ks) (b :: bits) <-> covered ks bits.
Proof.
  unfold covered. split.
  - intros H i Hi. specialize (H (S i) Hi). cbn in H. lia.
  - intros H [|i] Hi; cbn in *; [lia|]. specialize (H i Hi). lia.
Qed.

Lemma gas_exact k : forall d g, sig_gas k d = Ok g <-> exists n, signed k d n /\ g = eth_cost * n.
Proof.
  induction k as [| |ks IH|] using key_deep; intros d g.
  - cbn [sig_gas]. split; [intro H; injection H as <-; exists 1; split; [constructor|reflexivity]|]. intros (n & H & ->). inversion H; subst. reflexivity.
  - split; [discriminate|]. intros (n & H & _). inversion H.
  - destruct d as [|bits sigs].
    + split; [discriminate|]. intros (n & H & _). inversion H.
    + rewrite sig_gas_multi.
      assert (L : forall bits sigs g, gas_loop ks bits sigs = Ok g <-> exists n, covered ks bits /\ signed_all (chosen ks bits) sigs n /\ g = eth_cost * n).
      { clear bits sigs g. induction IH as [|k ks Hk Hks IHks]; intros bits sigs g; cbn [gas_loop chosen].
        - destruct (existsb (fun b => b) bits) eqn:E.
          + split; [discriminate|]. intros (n & C & _). apply covered_nil in C. congruence.
          + split.
            * intro H. injection H as <-. exists 0. split; [apply covered_nil; exact E|]. split; [constructor|reflexivity].
            * intros (n & _ & H & ->). inversion H; subst. reflexivity.
        - destruct bits as [|[] bits].
          + split.
            * intro H. injection H as <-. exists 0. split; [intros [|i] Hi; discriminate Hi|]. split; [constructor|reflexivity].
            * intros (n & _ & H & ->). inversion H; subst. reflexivity.
          + destruct sigs as [|d sigs].
            * split; [discriminate|]. intros (n & _ & H & _). inversion H.
            * split.
              -- intro H. apply rbind_inv in H as (g1 & H1 & H). apply rbind_inv in H as (g2 & H2 & H). injection H as <-.
                 apply (proj1 (Hk d g1)) in H1 as (n1 & S1 & ->). apply (proj1 (IHks bits sigs g2)) in H2 as (n2 & C2 & S2 & ->).
                 exists (n1 + n2). split; [apply covered_cons; exact C2|]. split; [constructor; assumption|ring].
              -- intros (n & C & H & ->). inversion H as [|k0 ks0 d0 sigs0 n1 n2 S1 S2]; subst. apply covered_cons in C.
                 assert (E1 : sig_gas k d = Ok (eth_cost * n1)) by (apply Hk; eauto).
                 assert (E2 : gas_loop ks bits sigs = Ok (eth_cost * n2)) by (apply IHks; eauto).
                 rewrite E1, E2. cbn [rbind]. f_equal. ring.
          + rewrite IHks. split; intros (n & C & R); exists n; (split; [|exact R]); [apply covered_cons; exact C|apply covered_cons in C; exact C]. }
      rewrite L. split.
      * intros (n & C & S1 & ->). exists n. split; [constructor; assumption|reflexivity].
      * intros (n & H & ->). inversion H; subst. exists n. auto.
  - split; [discriminate|]. intros (n & H & _). inversion H.
Qed.

Fixpoint complete_loop (ks : list key) (bits : list bool) (sigs : list sigdata) : Prop :=
  match ks with
  | [] => True
  | k :: ks' => match bits with
                | [] => True
                | false :: bits' => complete_loop ks' bits' sigs
                | true :: bits' => match sigs with [] => True | d :: sigs' => complete k d /\ complete_loop ks' bits' sigs' end
                end
  end.
Lemma complete_multi ks bits sigs : complete (KMulti ks) (DMulti bits sigs) <->
  covered ks bits /\ (length (chosen ks bits) <= length sigs)%nat /\ complete_loop ks bits sigs.
Proof.
  cbn [complete]. unfold covered.
  assert (E : forall ks bits sigs, (fix all (ks : list key) (bits : list bool) (sigs : list sigdata) : Prop :=
       match ks with
       | [] => True
       | k :: ks' => match bits with
                     | [] => True
                     | false :: bits' => all ks' bits' sigs
                     | true :: bits' => match sigs with [] => True | d :: sigs' => complete k d /\ all ks' bits' sigs' end
                     end
       end) ks bits sigs <-> complete_loop ks bits sigs).
  { clear. induction ks as [|k ks IH]; intros bits sigs; cbn; [reflexivity|]. destruct bits as [|[] bits]; [reflexivity| |apply IH].
    destruct sigs as [|d sigs]; [reflexivity|]. rewrite IH. reflexivity. }
  rewrite E. reflexivity.
Qed.

Lemma complete_no_panic k : forall d, complete k d -> sig_gas k d <> Panic.
Proof.
  induction k as [| |ks IH|] using key_deep; intros d; try discriminate.
  destruct d as [|bits sigs]; [discriminate|]. rewrite complete_multi, sig_gas_multi. revert bits sigs.
  induction IH as [|k ks Hk Hks IHks]; intros bits sigs (C & L & A); cbn [gas_loop].
  - apply covered_nil in C. rewrite C. discriminate.
  - destruct bits as [|[] bits]; [discriminate| |].
    + destruct sigs as [|d sigs]; [cbn in L; lia|]. cbn [complete_loop] in A. destruct A as [A1 A2]. apply covered_cons in C. cbn in L.
      specialize (Hk d A1). destruct (sig_gas k d) as [g| |]; [|discriminate|congruence]. cbn [rbind].
      assert (X : gas_loop ks bits sigs <> Panic) by (apply IHks; split; [exact C|split; [lia|exact A2]]).
      destruct (gas_loop ks bits sigs); [discriminate|discriminate|congruence].
    + apply covered_cons in C. apply IHks. split; [exact C|]. split; [exact L|exact A].
Qed.
