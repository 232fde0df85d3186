(* C30 at message level, C51 (who may change an account), C52 (accounts stay
   consistent), C53 (governance clawback votes) *)
From Verif Require Import Lib.Base Lib.Bytes Lib.Coins Vesting.Model Vesting.Spec Vesting.Proofs Vesting.AccProofs Vesting.Keeper Vesting.KeeperProofs Vesting.Props.
Open Scope Z_scope.

(* every account's balance, described by amounts *)
Definition balance (s : kst) (a : addr) (d : bytes) : Z := amt (bank s a) d.

(* a concrete chain: 9 is governance, 8 the distribution module, 1 the funder, 2 the
   vesting account acc1, 3 a bystander *)
Definition chain0 : kst :=
  Kst (fun a => if N.eqb a 1 then Some Base else if N.eqb a 2 then Some (Vest acc1) else if N.eqb a 8 then Some Other else None)
      (fun a => if N.eqb a 1 then [(da, 100); (db, 100)] else if N.eqb a 2 then [(da, 7); (db, 8)] else [])
      (fun _ => false) (fun _ => false).
Notation h0 := (handle 9%N 8%N (fun a => N.eqb a 8) (fun _ => false)).
Lemma chain0_ok : kst_ok chain0.
Proof.
  split.
  - intros a v. unfold chain0. cbn [accs]. destruct (N.eqb a 1); [discriminate|]. destruct (N.eqb a 2); [|destruct (N.eqb a 8); discriminate].
    intro H. injection H as <-. exact acc1_ok.
  - intro a. unfold chain0. cbn [bank]. destruct (N.eqb a 1); [apply cvalidb_spec; reflexivity|]. destruct (N.eqb a 2); [apply cvalidb_spec; reflexivity|apply cvalid_nil].
Qed.

Section K.
Variables (authority distr : addr) (blocked is_contract : addr -> bool).
Notation handle := (handle authority distr blocked is_contract).

(* ---------------- C30, message ---------------- *)

(* a successful clawback moves exactly the unvested coins, to the community pool for
   governance and to the funder or the chosen destination otherwise *)
Theorem C30_message_moves_unvested s f a dest t s' :
  kst_ok s -> handle s (MClawback f a dest) t = Ok s' ->
  exists v c, accs s a = Some (Vest v) /\ vesting v t = Ok c /\
  let dst := if N.eqb f authority then distr else match dest with Some x => x | None => f end in
  forall b d, balance s' b d = balance s b d - (if N.eqb b a then amt c d else 0) + (if N.eqb b dst then amt c d else 0).
Proof.
  intros K H. cbn [Keeper.handle] in H. destruct (clawback_msg_spec authority distr blocked s f a dest t K) as [[s1 [v [v' [c [E [Ea [_ [Ec M]]]]]]]]|E]; [|congruence].
  assert (s1 = s') by congruence. subst s1. exists v, c. split; [exact Ea|].
  destruct (C30_computed_account_partial v t (proj1 K a v Ea)) as [v2 [c2 [E2 [_ [_ [_ [_ [_ [Ev _]]]]]]]]]. rewrite Ec in E2. injection E2 as <- <-.
  split; [exact Ev|]. intros dst b d. destruct M as [M _]. exact (M b d).
Qed.

(* ---------------- C51 ---------------- *)

(* the only ways in which a message changes a vesting account *)
Theorem C51_only_funder_or_governance s m t s' a v :
  kst_ok s -> handle s m t = Ok s' -> accs s a = Some (Vest v) ->
  accs s' a = accs s a \/
  (exists st l ve v', m = MFund (v_funder v) a st l ve /\ accs s' a = Some (Vest v') /\ v_funder v' = v_funder v /\ v_deleg v' = v_deleg v /\
     exists g, v_orig v' = cadd (v_orig v) g) \/
  (exists n, m = MUpdateFunder (v_funder v) n a /\ active s a = false /\
     accs s' a = Some (Vest (Vacc n (v_orig v) (v_deleg v) (v_start v) (v_end v) (v_lockup v) (v_vesting v)))) \/
  (exists f dest, m = MClawback f a dest /\ accs s' a = Some Base /\
     ((f = authority /\ gov_off s a = false) \/ (f = v_funder v /\ active s a = false))) \/
  (m = MConvert a /\ accs s' a = Some Base /\ vesting v t = Ok [] /\ locked_up v t = Ok []).
Proof.
  intros K H Ea. pose proof (proj1 K a v Ea) as OKv. destruct m as [f b e|f b st l ve|f b d|f n b|b]; cbn [Keeper.handle] in H.
  - left. unfold create in H. destruct (blocked b); [discriminate|]. destruct (accs s b) as [[|w|]|] eqn:E; try discriminate. destruct (is_contract b); [discriminate|].
    injection H as <-. assert (a <> b) by congruence. destruct e; cbn [accs set_gov_off set_acc]; rewrite upd_other by assumption; reflexivity.
  - destruct (fund_spec blocked s f b st l ve t K) as [[s1 [w [w' [l' [ve' [c [E [Eb [Ef [_ [B [FS [Eg [_ M]]]]]]]]]]]]]]|E]; [|congruence].
    assert (s1 = s') by congruence. subst s1. destruct M as [_ [_ [A _]]]. destruct (N.eq_dec a b) as [->|Ne].
    + right. left. assert (w = v) by congruence. subst w. exists st, l, ve, w'. split; [congruence|].
      destruct (A b) as [E'|[_ [E' _]]]; cbn [accs set_acc] in E'; rewrite upd_same in E'; [|discriminate]. split; [exact E'|].
      destruct (fund_schedules_ok _ _ _ _ _ B FS) as [O1 [O2 [T1 [T2 _]]]]. destruct (add_grant_spec v st l' ve' c OKv O1 O2 T1 T2) as [v2 [E2 [_ [F2 [D2 [G2 _]]]]]].
      assert (v2 = w') by congruence. subst v2. split; [exact F2|]. split; [exact D2|]. exists c. exact G2.
    + left. destruct (A a) as [E'|[_ [E' _]]]; cbn [accs set_acc] in E'; rewrite upd_other in E' by exact Ne; congruence.
  - destruct (clawback_msg_spec authority distr blocked s f b d t K) as [[s1 [w [w' [c [E [Eb [Hm [_ M]]]]]]]]|E]; [|congruence].
    assert (s1 = s') by congruence. subst s1. destruct M as [_ [_ [A _]]]. destruct (N.eq_dec a b) as [->|Ne].
    + right. right. right. left. assert (w = v) by congruence. subst w. exists f, d. split; [reflexivity|].
      destruct (A b) as [E'|[_ [E' _]]]; cbn [accs set_acc set_gov_off] in E'; rewrite upd_same in E'; [|discriminate]. split; [exact E'|].
      destruct Hm as [Hm|[_ Hm]]; [left|right]; exact Hm.
    + left. destruct (A a) as [E'|[_ [E' _]]]; cbn [accs set_acc set_gov_off] in E'; rewrite upd_other in E' by exact Ne; congruence.
  - unfold update_funder in H. destruct (N.eqb f n); [discriminate|]. destruct (active s b) eqn:Eact; [discriminate|]. destruct (blocked n); [discriminate|].
    destruct (accs s b) as [[|w|]|] eqn:Eb; try discriminate. destruct (N.eqb (v_funder w) f) eqn:Ef; [|discriminate]. cbn [negb] in H. injection H as <-. apply N.eqb_eq in Ef.
    destruct (N.eq_dec a b) as [->|Ne].
    + right. right. left. assert (w = v) by congruence. subst w. exists n. split; [congruence|]. split; [exact Eact|]. cbn [accs set_acc]. apply upd_same.
    + left. cbn [accs set_acc]. rewrite upd_other by exact Ne. reflexivity.
  - destruct (convert_spec s b t K) as [[w [E [Eb Hd]]]|E]; [|congruence]. rewrite E in H. injection H as <-. destruct (N.eq_dec a b) as [->|Ne].
    + right. right. right. right. assert (w = v) by congruence. subst w. split; [reflexivity|]. split; [cbn [accs set_acc]; apply upd_same|].
      destruct (vesting_spec v t OKv) as [c1 [E1 [V1 A1]]]. destruct (locked_up_spec v t OKv) as [c2 [E2 [V2 A2]]]. rewrite E1, E2.
      split; f_equal; (apply cvalid_ext; [assumption|apply cvalid_nil|]; intro d; first [rewrite A1|rewrite A2]; destruct (Hd d) as [H1 H2]; cbn [amt]; lia).
    + left. cbn [accs set_acc set_gov_off]. rewrite upd_other by exact Ne. reflexivity.
Qed.

(* and the only ways in which a message lowers a balance: funding lowers the signer's
   own, a clawback lowers the account's by its unvested coins *)
Theorem C51_only_these_balances_fall s m t s' a d :
  kst_ok s -> handle s m t = Ok s' -> balance s' a d < balance s a d ->
  (exists b st l ve, m = MFund a b st l ve) \/
  (exists f dest v c, m = MClawback f a dest /\ accs s a = Some (Vest v) /\ vesting v t = Ok c /\ balance s' a d = balance s a d - amt c d).
Proof.
  intros K H L. destruct m as [f b e|f b st l ve|f b dst|f n b|b].
  - cbn [Keeper.handle] in H. unfold create in H. destruct (blocked b); [discriminate|]. destruct (accs s b) as [[|w|]|]; try discriminate. destruct (is_contract b); [discriminate|].
    injection H as <-. unfold balance in L. destruct e; cbn in L; lia.
  - cbn [Keeper.handle] in H. destruct (fund_spec blocked s f b st l ve t K) as [[s1 [w [w' [l' [ve' [c [E [_ [_ [_ [B [FS [_ [_ M]]]]]]]]]]]]]]|E]; [|congruence].
    assert (s1 = s') by congruence. subst s1. destruct M as [M _]. left. exists b, st, l, ve. f_equal. destruct (N.eq_dec f a) as [Eq|Ne]; [exact Eq|exfalso].
    destruct (fund_schedules_ok _ _ _ _ _ B FS) as [_ [_ [[V _] _]]]. pose proof (valid_nonneg c d V).
    specialize (M a d). cbn [bank set_acc] in M. unfold balance in L. rewrite (proj2 (N.eqb_neq a f)) in M by congruence. destruct (N.eqb a b); lia.
  - destruct (C30_message_moves_unvested s f b dst t s' K H) as [v [c [Ea [Ev Hb]]]]. cbv zeta in Hb.
    destruct (vesting_spec v t (proj1 K b v Ea)) as [c' [E' [V' _]]]. assert (c' = c) by congruence. subst c'. pose proof (valid_nonneg c d V').
    pose proof (Hb a d) as Ha. destruct (N.eqb a b) eqn:E.
    + apply N.eqb_eq in E. subst b. right. exists f, dst, v, c. split; [reflexivity|]. split; [exact Ea|]. split; [exact Ev|].
      match type of Ha with context [if ?x then amt c d else 0] => destruct x end; lia.
    + match type of Ha with context [if ?x then amt c d else 0] => destruct x end; lia.
  - cbn [Keeper.handle] in H. unfold update_funder in H. destruct (N.eqb f n); [discriminate|]. destruct (active s b); [discriminate|]. destruct (blocked n); [discriminate|].
    destruct (accs s b) as [[|w|]|]; try discriminate. destruct (N.eqb (v_funder w) f); [|discriminate]. injection H as <-. unfold balance in L. cbn in L. lia.
  - cbn [Keeper.handle] in H. destruct (convert_spec s b t K) as [[w [E _]]|E]; [|congruence]. rewrite E in H. injection H as <-. unfold balance in L. cbn in L. lia.
Qed.

(* ---------------- C52 ---------------- *)

Definition run (g : gst) (es : list event) : gst := fold_left (gstep authority distr blocked is_contract) es g.

Lemma after_fold_accs ts : forall s, accs (fold_left (fun s b => set_active s b false) ts s) = accs s /\ bank (fold_left (fun s b => set_active s b false) ts s) = bank s
  /\ gov_off (fold_left (fun s b => set_active s b false) ts s) = gov_off s.
Proof. induction ts as [|b ts IH]; intro s; [auto|]. cbn [fold_left]. destruct (IH (set_active s b false)) as [-> [-> ->]]. auto. Qed.
Lemma deposit_loop_accs ts : forall s done, accs (fst (deposit_loop s done ts)) = accs s /\ bank (fst (deposit_loop s done ts)) = bank s.
Proof.
  induction ts as [|a ts IH]; intros s dn; cbn [deposit_loop]; [auto|]. destruct (gov_off s a); [cbn [fst]; destruct (after_fold_accs dn s) as [-> [-> _]]; auto|].
  destruct (IH (set_active s a true) (dn ++ [a])) as [-> ->]. auto.
Qed.
Lemma gstep_ok g e : kst_ok (ks g) -> kst_ok (ks (gstep authority distr blocked is_contract g e)).
Proof.
  intro K. destruct e as [m t|pid ts|pid|f to c tm]; cbn [gstep].
  - destruct (handle_ok authority distr blocked is_contract (ks g) m t K) as [[s' [E K']]|E]; rewrite E; [exact K'|exact K].
  - unfold after_deposit. destruct (deposit_loop_accs ts (ks g) []) as [E1 E2]. destruct (deposit_loop (ks g) [] ts) as [s kept]. cbn [fst ks] in *.
    destruct K as [Ka Kb]. split; [intros a v; rewrite E1; apply Ka|intro a; rewrite E2; apply Kb].
  - destruct (find _ _) as [[p ts]|]; [|exact K]. cbn [ks]. unfold after_voting. destruct (after_fold_accs ts (ks g)) as [E1 [E2 _]].
    destruct K as [Ka Kb]. split; [intros a v; rewrite E1; apply Ka|intro a; rewrite E2; apply Kb].
  - destruct (send_coins_spec (ks g) f to c tm K) as [[s' [E [M _]]]|E]; rewrite E; [|exact K]. cbn [ks]. eapply moved_kst_ok; eassumption.
Qed.
Lemma run_ok es : forall g, kst_ok (ks g) -> kst_ok (ks (run g es)).
Proof. induction es as [|e es IH]; intros g K; [exact K|]. cbn [run fold_left]. apply IH. apply gstep_ok. exact K. Qed.

(* after any history every vesting account answers every query without panicking, its
   parts add up, and unvested coins are never spendable *)
Theorem C52_accounts_stay_consistent g es a v t :
  kst_ok (ks g) -> accs (ks (run g es)) a = Some (Vest v) ->
  (forall d, sum_of (v_lockup v) d = amt (v_orig v) d /\ sum_of (v_vesting v) d = amt (v_orig v) d) /\
  exists unv luv lck, vesting v t = Ok unv /\ locked_up_vested v t = Ok luv /\ locked_coins v t = Ok lck /\
  forall d, amt (vested v t) d + amt unv d = amt (v_orig v) d /\
            amt (unlocked_vested v t) d + amt luv d = amt (vested v t) d /\
            amt unv d <= amt lck d <= amt (v_orig v) d /\
            (amt (v_deleg v) d = 0 -> amt lck d = amt (v_orig v) d - amt (unlocked_vested v t) d).
Proof.
  intros K E. pose proof (proj1 (run_ok es g K) a v E) as OK. split.
  { intro d. destruct OK as [_ [_ [[_ T1] [[_ T2] _]]]]. rewrite T1, <- T2, T1. auto. }
  destruct (vesting_spec v t OK) as [unv [E1 [V1 A1]]]. destruct (locked_up_vested_spec v t OK) as [luv [E2 [V2 A2]]]. destruct (locked_coins_spec v t OK) as [lck [E3 [V3 A3]]].
  exists unv, luv, lck. split; [exact E1|]. split; [exact E2|]. split; [exact E3|]. intro d. destruct (unlocked_vested_spec v t OK) as [V4 A4].
  rewrite A1, A2, A4. pose proof (A3 d) as Hd. cbv zeta in Hd. rewrite Hd. assert (0 <= amt (v_deleg v) d) by (apply valid_nonneg, OK).
  destruct (unlocked_spec v t OK) as [V5 _]. destruct (vested_spec v t OK) as [V6 _]. pose proof (valid_nonneg _ d V5). pose proof (valid_nonneg _ d V6).
  split; [lia|]. split; [lia|]. split; [lia|]. intros ->. lia.
Qed.

(* no message can panic *)
Theorem C52_messages_never_panic g es m t : kst_ok (ks g) -> handle (ks (run g es)) m t <> Panic.
Proof.
  intros K H. destruct (handle_ok authority distr blocked is_contract (ks (run g es)) m t (run_ok es g K)) as [[s' [E _]]|E]; congruence.
Qed.

(* a bank transfer never touches locked coins *)
Theorem C52_locked_coins_not_spendable s f to c t s' v l d :
  kst_ok s -> accs s f = Some (Vest v) -> locked_coins v t = Ok l -> f <> to -> send_coins s f to c t = Ok s' ->
  0 < amt c d -> amt l d <= balance s' f d.
Proof.
  intros K Ef El Ne H Hd. destruct (send_coins_spec s f to c t K) as [[s1 [E [M [l' [E' Hle]]]]]|E]; [|congruence]. assert (s1 = s') by congruence. subst s1.
  unfold locked_of in E'. rewrite Ef in E'. assert (l' = l) by congruence. subst l'. specialize (Hle d Hd). destruct M as [M _]. unfold balance. rewrite (M f d), N.eqb_refl, (proj2 (N.eqb_neq f to) Ne). lia.
Qed.

(* ---------------- C53 ---------------- *)

(* every account named by a proposal under vote carries the flag *)
Definition flagged (g : gst) : Prop := forall pid ts a, In (pid, ts) (live g) -> In a ts -> active (ks g) a = true.
(* no account is named by two different proposals *)
Definition apart (g : gst) (e : event) : Prop :=
  match e with
  | EDeposit pid ts => forall q us a, In (q, us) (live g) -> q <> pid -> In a us -> ~ In a ts
  | _ => True
  end.
Definition apart_live (g : gst) : Prop := forall p ts q us a, In (p, ts) (live g) -> In (q, us) (live g) -> p <> q -> In a ts -> ~ In a us.
Fixpoint apart_run (g : gst) (es : list event) : Prop :=
  match es with [] => True | e :: es' => apart g e /\ apart_run (gstep authority distr blocked is_contract g e) es' end.

Lemma handle_active s m t s' : kst_ok s -> handle s m t = Ok s' -> active s' = active s.
Proof.
  intros K H. destruct m as [f b e|f b st l ve|f b d|f n b|b]; cbn [Keeper.handle] in H.
  - unfold create in H. destruct (blocked b); [discriminate|]. destruct (accs s b) as [[|w|]|]; try discriminate. destruct (is_contract b); [discriminate|]. injection H as <-. destruct e; reflexivity.
  - destruct (fund_spec blocked s f b st l ve t K) as [[s1 [w [w' [l' [ve' [c [E [_ [_ [_ [_ [_ [_ [_ M]]]]]]]]]]]]]]|E]; [|congruence]. assert (s1 = s') by congruence. subst s1.
    destruct M as [_ [_ [_ [_ A]]]]. exact A.
  - destruct (clawback_msg_spec authority distr blocked s f b d t K) as [[s1 [w [w' [c [E [_ [_ [_ M]]]]]]]]|E]; [|congruence]. assert (s1 = s') by congruence. subst s1.
    destruct M as [_ [_ [_ [_ A]]]]. exact A.
  - unfold update_funder in H. destruct (N.eqb f n); [discriminate|]. destruct (active s b); [discriminate|]. destruct (blocked n); [discriminate|].
    destruct (accs s b) as [[|w|]|]; try discriminate. destruct (N.eqb (v_funder w) f); [|discriminate]. injection H as <-. reflexivity.
  - destruct (convert_spec s b t K) as [[w [E _]]|E]; [|congruence]. rewrite E in H. injection H as <-. reflexivity.
Qed.
Lemma fold_clear ts : forall s a, active (fold_left (fun s b => set_active s b false) ts s) a = if existsb (N.eqb a) ts then false else active s a.
Proof.
  induction ts as [|b ts IH]; intros s a; [reflexivity|]. cbn [fold_left existsb]. rewrite IH. cbn [active set_active]. unfold upd.
  destruct (N.eqb a b); cbn [orb]; [destruct (existsb (N.eqb a) ts); reflexivity|reflexivity].
Qed.
Lemma existsb_in a ts : existsb (N.eqb a) ts = true <-> In a ts.
Proof. rewrite existsb_exists. split; [intros [x [H E]]; apply N.eqb_eq in E; subst; exact H|intro H; exists a; split; [exact H|apply N.eqb_refl]]. Qed.
Lemma deposit_loop_active ts : forall s dn a,
  active (fst (deposit_loop s dn ts)) a =
  if snd (deposit_loop s dn ts) then active s a || existsb (N.eqb a) ts
  else if existsb (N.eqb a) dn then false else
       if existsb (N.eqb a) ts then active (fst (deposit_loop s dn ts)) a else active s a.
Proof.
  induction ts as [|b ts IH]; intros s dn a; cbn [deposit_loop].
  - cbn [fst snd existsb]. rewrite orb_false_r. reflexivity.
  - destruct (gov_off s b).
    + cbn [fst snd]. rewrite fold_clear. destruct (existsb (N.eqb a) dn); [reflexivity|]. destruct (existsb (N.eqb a) (b :: ts)); reflexivity.
    + pose proof (IH (set_active s b true) (dn ++ [b]) a) as H. destruct (deposit_loop (set_active s b true) (dn ++ [b]) ts) as [s' k]. cbn [fst snd] in *. destruct k.
      * rewrite H. cbn [active set_active existsb]. unfold upd. destruct (N.eqb a b); cbn [orb]; [rewrite orb_true_r; reflexivity|reflexivity].
      * rewrite existsb_app in H. cbn [existsb] in *. rewrite orb_false_r in H. cbn [active set_active] in H. unfold upd in H.
        revert H. destruct (existsb (N.eqb a) dn); destruct (N.eqb a b); cbn [orb]; try (intro H; exact H). reflexivity.
Qed.

Lemma flagged_step g e : kst_ok (ks g) -> flagged g -> apart_live g -> apart g e ->
  flagged (gstep authority distr blocked is_contract g e) /\ apart_live (gstep authority distr blocked is_contract g e).
Proof.
  intros K F P A. destruct e as [m t|pid ts|pid|f to c tm]; cbn [gstep].
  - destruct (handle (ks g) m t) as [s'| |] eqn:E; [|split; assumption|split; assumption]. split; [|exact P]. intros p us a Hin Ha. cbn [ks live] in *.
    rewrite (handle_active _ _ _ _ K E). eapply F; eassumption.
  - unfold after_deposit. pose proof (deposit_loop_active ts (ks g) []) as D. destruct (deposit_loop (ks g) [] ts) as [s kept]. cbn [fst snd existsb] in D. cbn [apart] in A. destruct kept.
    + split.
      * intros p us a Hin Ha. cbn [ks live] in *. rewrite D. destruct Hin as [Hin|Hin]; [injection Hin as <- <-; apply existsb_in in Ha; rewrite Ha; apply orb_true_r|].
        rewrite (F p us a Hin Ha). reflexivity.
      * intros p us q ws a H1 H2 Ne Ha. cbn [live] in *. destruct H1 as [H1|H1]; destruct H2 as [H2|H2].
        -- injection H1 as <- <-. injection H2 as <- <-. congruence.
        -- injection H1 as <- <-. intro Hb. exact (A q ws a H2 (fun X => Ne (eq_sym X)) Hb Ha).
        -- injection H2 as <- <-. exact (A p us a H1 Ne Ha).
        -- exact (P p us q ws a H1 H2 Ne Ha).
    + split.
      * intros p us a Hin Ha. cbn [ks live] in *. apply filter_In in Hin as [Hin Hp]. cbn [fst] in Hp. assert (Np : p <> pid) by (intro X; subst; rewrite N.eqb_refl in Hp; discriminate).
        rewrite D. destruct (existsb (N.eqb a) ts) eqn:X; [exfalso; apply existsb_in in X; exact (A p us a Hin Np Ha X)|]. exact (F p us a Hin Ha).
      * intros p us q ws a H1 H2. cbn [live] in *. apply filter_In in H1 as [H1 _]. apply filter_In in H2 as [H2 _]. exact (P p us q ws a H1 H2).
  - destruct (find (fun p => N.eqb (fst p) pid) (live g)) as [[p ts]|] eqn:E; [|split; assumption]. apply find_some in E as [Hin Hp]. cbn [fst] in Hp. apply N.eqb_eq in Hp. subst p. split.
    + intros p us a H1 Ha. cbn [ks live] in *. apply filter_In in H1 as [H1 Hp]. cbn [fst] in Hp. assert (Np : p <> pid) by (intro X; subst; rewrite N.eqb_refl in Hp; discriminate).
      unfold after_voting. rewrite fold_clear. destruct (existsb (N.eqb a) ts) eqn:X; [exfalso; apply existsb_in in X; exact (P pid ts p us a Hin H1 (fun Y => Np (eq_sym Y)) X Ha)|].
      exact (F p us a H1 Ha).
    + intros p us q ws a H1 H2. cbn [live] in *. apply filter_In in H1 as [H1 _]. apply filter_In in H2 as [H2 _]. exact (P p us q ws a H1 H2).
  - destruct (send_coins_spec (ks g) f to c tm K) as [[s' [E [M _]]]|E]; rewrite E; [|split; assumption]. split; [|exact P]. intros p us a Hin Ha. cbn [ks live] in *.
    destruct M as [_ [_ [_ [_ ->]]]]. eapply F; eassumption.
Qed.
Lemma flagged_run es : forall g, kst_ok (ks g) -> flagged g -> apart_live g -> apart_run g es -> flagged (run g es) /\ kst_ok (ks (run g es)).
Proof.
  induction es as [|e es IH]; intros g K F P A; [split; assumption|]. destruct A as [A1 A2]. destruct (flagged_step g e K F P A1) as [F' P'].
  cbn [run fold_left]. apply IH; [apply gstep_ok; exact K|exact F'|exact P'|exact A2].
Qed.

(* full statement: for every history.  Proved when no account is named by two
   proposals under vote at once; see C53_overlapping_proposals_refuted. *)
Theorem C53_vote_blocks_manual_clawback_partial s es pid ts a :
  kst_ok s -> apart_run (Gst s []) es -> In (pid, ts) (live (run (Gst s []) es)) -> In a ts ->
  (forall f dest t, f <> authority -> handle (ks (run (Gst s []) es)) (MClawback f a dest) t = Err) /\
  (forall f n t, handle (ks (run (Gst s []) es)) (MUpdateFunder f n a) t = Err).
Proof.
  intros K A Hin Ha. destruct (flagged_run es (Gst s []) K) as [F _]; [intros ? ? ? []|intros ? ? ? ? ? []|exact A|]. pose proof (F pid ts a Hin Ha) as Act. split.
  - intros f dest t Nf. cbn [Keeper.handle]. unfold clawback. rewrite (proj2 (N.eqb_neq f authority) Nf), Act. reflexivity.
  - intros f n t. cbn [Keeper.handle]. unfold update_funder. rewrite Act. destruct (N.eqb f n); reflexivity.
Qed.
End K.
Print Assumptions C30_message_moves_unvested.
Print Assumptions C51_only_funder_or_governance.
Print Assumptions C51_only_these_balances_fall.
Print Assumptions C52_accounts_stay_consistent.
Print Assumptions C52_messages_never_panic.
Print Assumptions C52_locked_coins_not_spendable.
Print Assumptions C53_vote_blocks_manual_clawback_partial.

Definition obs (r : res kst) : option (list (coins * bool)) :=
  match r with
  | Ok s => Some (map (fun a => (bank s a, match accs s a with Some (Vest _) => true | _ => false end)) [1%N; 2%N; 8%N])
  | _ => None
  end.
(* the funder claws back at 112; another sender cannot; funding adds to the account *)
Example C51_case : kst_ok chain0 /\
  obs (h0 chain0 (MClawback 1%N 2%N None) 112) = Some [([(da, 100); (db, 107)], false); ([(da, 7); (db, 1)], false); ([], false)] /\
  obs (h0 chain0 (MClawback 9%N 2%N None) 112) = Some [([(da, 100); (db, 100)], false); ([(da, 7); (db, 1)], false); ([(db, 7)], false)] /\
  obs (h0 chain0 (MClawback 3%N 2%N None) 112) = None /\
  obs (h0 chain0 (MFund 1%N 2%N 200 [] [Per 5 [(da, 3)]]) 112) = Some [([(da, 97); (db, 100)], false); ([(da, 10); (db, 8)], true); ([], false)] /\
  obs (h0 chain0 (MFund 3%N 2%N 200 [] [Per 5 [(da, 3)]]) 112) = None.
Proof. split; [exact chain0_ok|]. repeat split; vm_compute; reflexivity. Qed.
Example C52_case : kst_ok (ks (Gst chain0 [])) /\
  match accs (ks (run 9%N 8%N (fun a => N.eqb a 8) (fun _ => false) (Gst chain0 [])
    [EMsg (MFund 1%N 2%N 105 [] [Per 5 [(da, 3)]]) 101; EDeposit 7%N [2%N]; EMsg (MUpdateFunder 1%N 3%N 2%N) 102; EEnd 7%N; EMsg (MUpdateFunder 1%N 3%N 2%N) 103])) 2%N with
  | Some (Vest v) => v_orig v = [(da, 10); (db, 8)] /\ v_funder v = 3%N | _ => False end.
Proof. split; [exact chain0_ok|]. vm_compute. split; reflexivity. Qed.
Example C53_case : live (run 9%N 8%N (fun a => N.eqb a 8) (fun _ => false) (Gst chain0 []) [EDeposit 7%N [2%N]]) = [(7%N, [2%N])]
  /\ apart_run 9%N 8%N (fun a => N.eqb a 8) (fun _ => false) (Gst chain0 []) [EDeposit 7%N [2%N]].
Proof. split; [reflexivity|]. split; [intros ? ? ? []|exact I]. Qed.

(* the stored account after a clawback is a plain account: coins that were vested but
   still locked until 115 can be spent at once *)
Theorem C30_lockup_survives_refuted : exists s a v t s' c to,
  kst_ok s /\ accs s a = Some (Vest v) /\ h0 s (MClawback (v_funder v) a None) t = Ok s' /\
  cvalid c /\ send_coins s a to c t = Err /\                                 (* locked before *)
  (exists v' u, compute_clawback v t = Ok (v', u) /\ amt (unlocked v' t) db = 0 /\ amt (v_orig v') db = amt c db) /\ (* locked in the computed account *)
  exists s'', send_coins s' a to c t = Ok s''.                               (* spendable afterwards *)
Proof.
  exists chain0, 2%N, acc1, 112. destruct (h0 chain0 (MClawback (v_funder acc1) 2%N None) 112) as [s'| |] eqn:E; [|vm_compute in E; discriminate|vm_compute in E; discriminate].
  exists s', [(db, 1)], 3%N. split; [exact chain0_ok|]. split; [reflexivity|]. split; [reflexivity|]. split; [apply cvalidb_spec; reflexivity|].
  split; [vm_compute; reflexivity|]. split; [eexists _, _; split; [vm_compute; reflexivity|]; vm_compute; split; reflexivity|].
  assert (X : obs (rbind (h0 chain0 (MClawback (v_funder acc1) 2%N None) 112) (fun s => send_coins s 2%N 3%N [(db, 1)] 112)) <> None) by (vm_compute; discriminate).
  rewrite E in X. cbn [rbind] in X. destruct (send_coins s' 2%N 3%N [(db, 1)] 112) as [s''| |]; [exists s''; reflexivity|exfalso; apply X; reflexivity|exfalso; apply X; reflexivity].
Qed.
Print Assumptions C30_lockup_survives_refuted.

(* two proposals name one account; when the first ends the funder can claw back
   although the second is still being voted on *)
Theorem C53_overlapping_proposals_refuted : exists s es pid ts a f t,
  kst_ok s /\ In (pid, ts) (live (run 9%N 8%N (fun a => N.eqb a 8) (fun _ => false) (Gst s []) es)) /\ In a ts /\ f <> 9%N /\
  exists s', h0 (ks (run 9%N 8%N (fun a => N.eqb a 8) (fun _ => false) (Gst s []) es)) (MClawback f a None) t = Ok s'.
Proof.
  exists chain0, [EDeposit 7%N [2%N]; EDeposit 5%N [2%N]; EEnd 7%N], 5%N, [2%N], 2%N, 1%N, 112.
  split; [exact chain0_ok|]. split; [vm_compute; left; reflexivity|]. split; [left; reflexivity|]. split; [discriminate|].
  match goal with |- exists s', ?r = Ok s' => assert (X : obs r <> None) by (vm_compute; discriminate); destruct r as [s'| |]; [exists s'; reflexivity|exfalso; apply X; reflexivity|exfalso; apply X; reflexivity] end.
Qed.
Print Assumptions C53_overlapping_proposals_refuted.
