From Verif Require Import Lib.Base Lib.Bytes Lib.Coins Vesting.Model Vesting.Spec Vesting.Proofs Vesting.AccProofs Vesting.Keeper Vesting.KeeperProofs Vesting.Props Vesting.PropsKeeper Vesting.Stake Vesting.StakeSpec.
From Coq Require Import Lia.
Open Scope Z_scope.

Lemma unvested_vesting v t : account_ok v -> exists u, vesting v t = Ok u /\ cvalid u /\ forall d, amt u d = unvested v t d.
Proof.
  intro H. destruct (vesting_spec v t H) as [u [E [V A]]]. exists u. split; [exact E|]. split; [exact V|].
  intro d. rewrite A, (proj2 (vested_spec v t H)). unfold unvested. destruct H as [_ [_ [_ [[_ T] _]]]]. rewrite T. reflexivity.
Qed.
Lemma unvested_nonneg v t d : account_ok v -> 0 <= unvested v t d.
Proof. intros [_ [H _]]. unfold unvested. pose proof (released_bounds (v_start v) (v_vesting v) t d H). lia. Qed.
Lemma unvested_mono v t t' d : account_ok v -> t <= t' -> unvested v t' d <= unvested v t d.
Proof. intros [_ [H _]] L. unfold unvested. pose proof (released_mono (v_start v) (v_vesting v) t t' d H L). lia. Qed.
Lemma unvested_locked v t d : account_ok v -> exists l, locked_coins v t = Ok l /\ unvested v t d <= amt l d.
Proof.
  intro H. destruct (locked_coins_spec v t H) as [l [E [_ A]]]. exists l. split; [exact E|]. specialize (A d). cbv zeta in A.
  rewrite A, (proj2 (vested_spec v t H)). unfold unvested. destruct H as [_ [_ [_ [[_ T] _]]]]. rewrite T. lia.
Qed.

(* merging a grant makes at most the grant unvested *)
Lemma grant_unvested v gs gl gv gc v' t d : account_ok v -> schedule_ok gl -> schedule_ok gv -> total_is gl gc -> total_is gv gc ->
  add_grant v gs gl gv gc = Ok v' -> unvested v' t d <= unvested v t d + amt gc d.
Proof.
  intros H Hgl Hgv Tgl Tgv E. pose proof H as [Hl [Hv _]]. unfold add_grant in E.
  set (ast := match v_lockup v with [] => match v_vesting v with [] => gs | _ :: _ => v_start v end | _ :: _ => v_start v end) in E.
  destruct (disjunct_periods ast gs (v_lockup v) gl) as [[ls le] lp] eqn:E1.
  destruct (disjunct_periods ast gs (v_vesting v) gv) as [[vs ve] vp] eqn:E2.
  destruct (ls =? vs) eqn:Es; cbn [negb] in E; [|discriminate]. injection E as <-. apply Z.eqb_eq in Es. subst ls.
  assert (Cases : (ast = v_start v) \/ (ast = gs /\ v_vesting v = [])).
  { unfold ast. destruct (v_lockup v); [destruct (v_vesting v)|]; auto. }
  destruct (disjunct_spec _ _ _ _ _ _ _ Hv Hgv E2) as [S2 [_ [_ [T2 _]]]].
  unfold disjunct_periods in E2. destruct (disj (v_vesting v) ast gs gv (Z.min ast gs)) as [e' ps'] eqn:E3. injection E2 as <- <- <-.
  assert (Fa : first_ge (Z.min ast gs) ast (v_vesting v)) by (destruct (v_vesting v) as [|p q]; [exact I|]; inversion Hv as [|? ? [L _] _]; subst; cbn; lia).
  assert (Fb : first_ge (Z.min ast gs) gs gv) by (destruct gv as [|p q]; [exact I|]; inversion Hgv as [|? ? [L _] _]; subst; cbn; lia).
  destruct (disj_spec (v_vesting v) ast gs gv (Z.min ast gs) Hv Hgv Fa Fb) as [_ [_ [_ D]]]. rewrite E3 in D. cbn [snd] in D.
  unfold unvested. cbn [v_vesting v_start]. rewrite T2, (proj2 Tgv). unfold released. rewrite D.
  pose proof (due_nonneg gv gs t d Hgv). pose proof (due_nonneg (v_vesting v) ast t d Hv).
  destruct Cases as [Ec|[Ec En]].
  - rewrite Ec in *. destruct (Z.leb_spec t (Z.min (v_start v) gs)); destruct (Z.leb_spec t (v_start v)); lia.
  - rewrite En in *. cbn [releases due] in *. destruct (t <=? Z.min ast gs); destruct (t <=? v_start v); lia.
Qed.

(* ---------------- keeping the unvested coins ---------------- *)

Lemma holds_keep s s' a d t : holds s a d t -> accs s' a = accs s a -> balance s a d <= balance s' a d -> holds s' a d t.
Proof. intros H E L v Ev. rewrite E in Ev. specialize (H v Ev). lia. Qed.

Lemma holds_later s a d t t' : kst_ok s -> holds s a d t -> t <= t' -> holds s a d t'.
Proof. intros K H L v Ev. pose proof (unvested_mono v t t' d (proj1 K a v Ev) L). specialize (H v Ev). lia. Qed.

Lemma send_coins_valid_amt s f to c t s' d : send_coins s f to c t = Ok s' -> 0 <= amt c d.
Proof.
  unfold send_coins. destruct (locked_of s f t) as [l| |]; cbn [rbind]; try discriminate.
  destruct (cvalidb c) eqn:V; cbn [andb]; [|discriminate]. intros _. apply valid_nonneg. apply cvalidb_spec. exact V.
Qed.

Lemma holds_send s f to c t s' a d : kst_ok s -> holds s a d t -> send_coins s f to c t = Ok s' -> holds s' a d t.
Proof.
  intros K H E v Ev. destruct (send_coins_spec s f to c t K) as [[s1 [E1 [[M [_ [A _]]] [l [El Hl]]]]]|E1]; [|congruence].
  assert (s1 = s') by congruence. subst s1.
  destruct (A a) as [Ea|[_ [_ Ea]]]; [|congruence]. rewrite Ea in Ev. specialize (H v Ev). unfold balance in *. rewrite (M a d).
  pose proof (send_coins_valid_amt s f to c t s' d E) as Pc.
  destruct (N.eqb_spec a f) as [->|n]; [|destruct (N.eqb a to); lia].
  destruct (unvested_locked v t d (proj1 K f v Ev)) as [l' [El' Hl']]. unfold locked_of in El. rewrite Ev in El.
  assert (l' = l) by congruence. subst l'.
  destruct (Z.eq_dec (amt c d) 0) as [Z0|NZ]; [destruct (N.eqb f to); lia|].
  specialize (Hl d ltac:(lia)). destruct (N.eqb f to); lia.
Qed.

Lemma holds_handle authority distr blocked is_contract s m t s' a d : kst_ok s -> holds s a d t ->
  handle authority distr blocked is_contract s m t = Ok s' -> holds s' a d t.
Proof.
  intros K H E. destruct m as [f b en|f b st lock vest|f b dest|f n b|b]; cbn [handle] in E.
  - unfold create in E. destruct (blocked b); [discriminate|]. destruct (accs s b) as [[|w|]|]; try discriminate.
    destruct (is_contract b); [discriminate|].
    assert (H1 : holds (set_acc s b (Vest (Vacc f [] [] (-62135596800) 0 [] []))) a d t).
    { intros v Ev. cbn [set_acc accs] in Ev. unfold upd in Ev. destruct (N.eqb_spec a b) as [->|n].
      - injection Ev as <-. unfold unvested, balance. cbn [v_vesting sum_of v_start]. unfold released. cbn [releases due].
        pose proof (valid_nonneg (bank s b) d (proj2 K b)). cbn [set_acc bank]. destruct (_ <=? _); lia.
      - exact (H v Ev). }
    injection E as <-. destruct en; exact H1.
  - destruct (fund_spec blocked s f b st lock vest t K) as [[s1 [v [v' [l [ve [c [E1 [Eb [Ef [Bl [FB [FS [AG [OK M]]]]]]]]]]]]]]|E1]; [|congruence].
    assert (s1 = s') by congruence. subst s1.
    destruct (fund_schedules_ok lock vest l ve c FB FS) as [Ol [Ov [Tl [Tv _]]]].
    (* the transfer *)
    assert (SC : send_coins (set_acc s b (Vest v')) f b c t = Ok s').
    { unfold fund in E. rewrite FB, Bl, Eb in E. cbn [negb] in E. unfold fund_schedules in FS.
      destruct (match lock with [] => _ | _ => _ end) as [lock1 lc1] in E, FS.
      destruct (match vest with [] => _ | _ => _ end) as [vest1 vc1] in E, FS.
      injection FS as -> -> ->. rewrite Ef, N.eqb_refl in E. cbn [negb] in E. rewrite AG in E. cbn [rbind] in E. rewrite Ef. exact E. }
    assert (K1 : kst_ok (set_acc s b (Vest v'))) by (apply set_acc_ok; [exact K|]; intros w Hw; injection Hw as <-; exact OK).
    pose proof (valid_nonneg c d (proj1 Tv)) as Pc.
    destruct (N.eq_dec a b) as [->|n].
    + intros w Ew. destruct (send_coins_spec (set_acc s b (Vest v')) f b c t K1) as [[s2 [E2 [[Mv [_ [A _]]] [lk [El Hl]]]]]|E2]; [|rewrite SC in E2; discriminate].
      assert (s2 = s') by congruence. subst s2.
      destruct (A b) as [Ea|[_ [Ea _]]]; [|cbn [set_acc accs] in Ea; rewrite upd_same in Ea; discriminate].
      rewrite Ea in Ew. cbn [set_acc accs] in Ew. rewrite upd_same in Ew. injection Ew as <-.
      unfold balance. rewrite (Mv b d), N.eqb_refl. cbn [set_acc bank].
      pose proof (grant_unvested v st l ve c v' t d (proj1 K b v Eb) Ol Ov Tl Tv AG) as G.
      pose proof (H v Eb) as Hb. unfold balance in Hb.
      destruct (N.eqb_spec b f) as [->|nf]; [|lia].
      destruct (unvested_locked v' t d OK) as [l' [El' Hl']]. unfold locked_of in El. cbn [set_acc accs] in El. rewrite upd_same in El.
      assert (l' = lk) by congruence. subst l'. cbn [set_acc bank] in Hl.
      destruct (Z.eq_dec (amt c d) 0) as [Z0|NZ]; [lia|]. specialize (Hl d ltac:(lia)). lia.
    + refine (holds_send _ f b c t s' a d K1 _ SC). intros w Ew. cbn [set_acc accs] in Ew. rewrite upd_other in Ew by exact n. exact (H w Ew).
  - destruct (clawback_msg_spec authority distr blocked s f b dest t K) as [[s1 [v [v' [c [E1 [Eb [_ [CC [M [_ [A _]]]]]]]]]]]|E1]; [|congruence].
    assert (s1 = s') by congruence. subst s1. intros w Ew.
    destruct (A a) as [Ea|[_ [_ Ea]]]; [|congruence]. rewrite Ea in Ew. cbn [set_gov_off set_acc accs] in Ew. unfold upd in Ew.
    destruct (N.eqb_spec a b) as [->|n]; [discriminate|]. specialize (H w Ew). unfold balance in *. rewrite (M a d).
    rewrite (proj2 (N.eqb_neq a b) n). cbn [set_gov_off set_acc bank].
    destruct (clawback_spec v t (proj1 K b v Eb)) as [v2 [c2 [E2 [_ [Vc _]]]]]. assert (c2 = c) by congruence. subst c2.
    pose proof (valid_nonneg c d Vc). destruct (N.eqb _ _); lia.
  - unfold update_funder in E. destruct (N.eqb f n); [discriminate|]. destruct (active s b); [discriminate|]. destruct (blocked n); [discriminate|].
    destruct (accs s b) as [[|w|]|] eqn:Eb; try discriminate. destruct (N.eqb (v_funder w) f); [|discriminate]. cbn [negb] in E. injection E as <-.
    intros v Ev. cbn [set_acc accs] in Ev. unfold upd in Ev. destruct (N.eqb_spec a b) as [->|ne].
    + injection Ev as <-. exact (H w Eb).
    + exact (H v Ev).
  - destruct (convert_spec s b t K) as [[w [E1 _]]|E1]; [|congruence]. rewrite E1 in E. injection E as <-.
    intros v Ev. cbn [set_gov_off set_acc accs] in Ev. unfold upd in Ev. destruct (N.eqb_spec a b) as [->|ne]; [discriminate|]. exact (H v Ev).
Qed.

Lemma holds_gstep authority distr blocked is_contract g e a d t : kst_ok (ks g) -> holds (ks g) a d t ->
  match stime (SKeep e) with Some t' => t' = t | None => True end ->
  holds (ks (gstep authority distr blocked is_contract g e)) a d t.
Proof.
  intros K H T. destruct e as [m tm|pid ts|pid|f to c tm]; cbn [gstep stime] in *.
  - subst tm. destruct (handle authority distr blocked is_contract (ks g) m t) as [s'| |] eqn:E; [|exact H|exact H].
    cbn [ks]. exact (holds_handle _ _ _ _ _ _ _ _ _ _ K H E).
  - unfold after_deposit. destruct (deposit_loop_accs ts (ks g) []) as [E1 E2]. destruct (deposit_loop (ks g) [] ts) as [s kept]. cbn [fst ks] in *.
    apply (holds_keep _ _ _ _ _ H); unfold balance; rewrite ?E1, ?E2; [reflexivity|lia].
  - destruct (find _ _) as [[p ts]|]; [|exact H]. cbn [ks]. unfold after_voting. destruct (after_fold_accs ts (ks g)) as [E1 [E2 _]].
    apply (holds_keep _ _ _ _ _ H); unfold balance; rewrite ?E1, ?E2; [reflexivity|lia].
  - subst tm. destruct (send_coins (ks g) f to c t) as [s'| |] eqn:E; [|exact H|exact H]. cbn [ks]. exact (holds_send _ _ _ _ _ _ _ _ K H E).
Qed.

(* ---------------- delegations ---------------- *)

Lemma one_coin d x : 0 < x -> cvalid [(d, x)].
Proof. intro H. apply cvalidb_spec. cbn. rewrite (proj2 (Z.ltb_lt 0 x) H). reflexivity. Qed.
Lemma amt_one d x e : amt [(d, x)] e = if beqb e d then x else 0.
Proof. reflexivity. Qed.

Lemma sub_one c d x : cvalid c -> 0 < x -> x <= amt c d ->
  cvalid (fst (csafe_sub c [(d, x)])) /\ forall e, amt (fst (csafe_sub c [(d, x)])) e = amt c e - (if beqb e d then x else 0).
Proof.
  intros V P L. pose proof (one_coin d x P) as V1.
  destruct (csub_ok c [(d, x)] V V1) as [r [E [Vr Ar]]].
  { intro e. rewrite amt_one. pose proof (valid_nonneg c e V). destruct (bytes_eq_dec e d) as [->|n]; [rewrite beqb_refl; lia|].
    rewrite (proj2 (beqb_neq e d) n). lia. }
  unfold csub in E. destruct (csafe_sub c [(d, x)]) as [r' b]. destruct b; [discriminate|]. injection E as ->. cbn [fst].
  split; [exact Vr|]. intro e. rewrite Ar, amt_one. reflexivity.
Qed.

Lemma delegate_spec bond stakeable s a d x t : kst_ok (ks (st_g s)) ->
  (may_delegate bond stakeable s a d x t /\ exists s', delegate bond stakeable s a d x t = Ok s' /\ delegated s s' a d x) \/
  (~ may_delegate bond stakeable s a d x t /\ delegate bond stakeable s a d x t = Err).
Proof.
  intro K. unfold may_delegate, delegate. destruct (Z.leb_spec x 0) as [P|P]; [right; split; [lia|reflexivity]|].
  unfold not_unvested, delegate_coins, balance. set (k := ks (st_g s)) in *.
  assert (SB : x <= amt (bank k a) d -> cvalid (fst (csafe_sub (bank k a) [(d, x)])) /\
     forall e, amt (fst (csafe_sub (bank k a) [(d, x)])) e = amt (bank k a) e - (if beqb e d then x else 0))
    by (intro L; apply sub_one; [apply (proj2 K)|exact P|exact L]).
  assert (BN : x <= amt (bank k a) d -> forall b e, amt (upd (bank k) a (fst (csafe_sub (bank k a) [(d, x)])) b) e =
     amt (bank k b) e - (if N.eqb b a && beqb e d then x else 0)).
  { intros L b e. unfold upd. destruct (N.eqb_spec b a) as [->|n]; cbn [andb]; [apply (SB L)|lia]. }
  assert (ST : forall b e, add_staked (st_staked s) a d x b e = st_staked s b e + (if N.eqb b a && beqb e d then x else 0))
    by (intros b e; unfold add_staked; destruct (N.eqb b a && beqb e d); lia).
  destruct (accs k a) as [[|v|]|] eqn:Ea.
  - cbn [rbind]. destruct (stakeable d); cbn [negb]; [|right; split; [intuition congruence|reflexivity]].
    destruct (Z.ltb_spec (amt (bank k a) d) x) as [L|L]; cbn [rbind]; [right; split; [intuition lia|reflexivity]|].
    left. split; [auto|]. eexists. split; [reflexivity|]. unfold delegated. cbn [st_g ks st_staked live]. fold k. rewrite Ea. cbn [set_bank accs bank gov_off active].
    split; [|split; [|split; [|split; [|split]]]]; auto; try exact (BN L).
    split; [exact (proj1 K)|]. intro b. cbn [set_bank bank]. unfold upd. destruct (N.eqb b a); [apply (SB L)|apply (proj2 K)].
  - destruct (unvested_vesting v t (proj1 K a v Ea)) as [u [Eu [Vu Au]]]. rewrite Eu. cbn [rbind]. rewrite Au.
    set (free := amt (bank k a) bond - unvested v t bond) in *.
    destruct (Z.ltb_spec (if free <? 0 then 0 else free) x) as [F|F]; cbn [rbind].
    { right. split; [|reflexivity]. intros (_ & _ & _ & Q). destruct (Z.ltb_spec free 0); lia. }
    destruct (stakeable d); cbn [negb]; [|right; split; [intuition congruence|reflexivity]].
    destruct (Z.ltb_spec (amt (bank k a) d) x) as [L|L]; cbn [rbind]; [right; split; [intuition lia|reflexivity]|].
    cbn [track_delegation]. rewrite (proj2 (Z.eqb_neq x 0)), (proj2 (Z.ltb_ge (amt (bank k a) d) x)) by lia. cbn [orb rbind].
    left. split; [split; [lia|]; split; [reflexivity|]; split; [lia|]; destruct (Z.ltb_spec free 0); lia|].
    eexists. split; [reflexivity|]. unfold delegated. cbn [st_g ks st_staked live]. fold k. rewrite Ea. cbn [set_bank set_acc accs bank gov_off active].
    split; [|split; [|split; [|split; [|split]]]]; auto; try exact (BN L).
    + apply set_acc_ok.
      * split; [exact (proj1 K)|]. intro b. cbn [set_bank bank]. unfold upd. destruct (N.eqb b a); [apply (SB L)|apply (proj2 K)].
      * intros w Hw. injection Hw as <-. destruct (proj1 K a v Ea) as (A1 & A2 & A3 & A4 & A5 & A6 & A7).
        repeat (split; [assumption|]). cbn [v_deleg]. apply cadd_valid; [exact A7|apply one_coin; exact P].
    + intros b n. apply upd_other. exact n.
    + apply upd_same.
  - cbn [rbind]. destruct (stakeable d); cbn [negb]; [|right; split; [intuition congruence|reflexivity]].
    destruct (Z.ltb_spec (amt (bank k a) d) x) as [L|L]; cbn [rbind]; [right; split; [intuition lia|reflexivity]|].
    left. split; [auto|]. eexists. split; [reflexivity|]. unfold delegated. cbn [st_g ks st_staked live]. fold k. rewrite Ea. cbn [set_bank accs bank gov_off active].
    split; [|split; [|split; [|split; [|split]]]]; auto; try exact (BN L).
    split; [exact (proj1 K)|]. intro b. cbn [set_bank bank]. unfold upd. destruct (N.eqb b a); [apply (SB L)|apply (proj2 K)].
  - right. split; [tauto|reflexivity].
Qed.

Lemma keep_valid d x : 0 <= x -> cvalid (keep d x []).
Proof. intro H. unfold keep. destruct (Z.eqb_spec x 0); [apply cvalid_nil|apply one_coin; lia]. Qed.
Lemma amt_keep1 d x e : amt (keep d x []) e = if beqb e d then x else 0.
Proof. unfold keep. destruct (Z.eqb_spec x 0) as [->|]; [cbn; destruct (beqb e d); reflexivity|reflexivity]. Qed.

Lemma track_undelegation_ok v d x : account_ok v -> 0 < x -> account_ok (track_undelegation v d x).
Proof.
  intros (A1 & A2 & A3 & A4 & A5 & A6 & A7) P. unfold track_undelegation.
  repeat (split; [assumption|]). cbn [v_deleg].
  pose proof (valid_nonneg (v_deleg v) d A7) as N0.
  assert (V : cvalid (keep d (Z.min (amt (v_deleg v) d) x) [])) by (apply keep_valid; lia).
  destruct (csub_ok (v_deleg v) _ A7 V) as [r [E [Vr _]]].
  { intro e. rewrite amt_keep1. pose proof (valid_nonneg (v_deleg v) e A7). destruct (bytes_eq_dec e d) as [->|n]; [rewrite beqb_refl; lia|].
    rewrite (proj2 (beqb_neq e d) n). lia. }
  unfold csub in E. destruct (csafe_sub _ _) as [r' b]. destruct b; [discriminate|]. injection E as ->. exact Vr.
Qed.

Lemma give_back_spec s a d x : kst_ok (ks (st_g s)) -> kst_ok (ks (st_g (give_back s a d x))) /\
  forall b e t, holds (ks (st_g s)) b e t -> holds (ks (st_g (give_back s a d x))) b e t.
Proof.
  intro K. unfold give_back. destruct (Z.ltb_spec 0 x) as [P|P]; cbn [andb]; [|auto].
  destruct (x <=? st_staked s a d); [|auto]. cbn [st_g ks]. set (k := ks (st_g s)) in *.
  pose proof (one_coin d x P) as V1.
  assert (K1 : kst_ok (set_bank k a (cadd (bank k a) [(d, x)]))).
  { split; [exact (proj1 K)|]. intro b. cbn [set_bank bank]. unfold upd. destruct (N.eqb b a); [apply cadd_valid; [apply (proj2 K)|exact V1]|apply (proj2 K)]. }
  assert (BL : forall b e, amt (bank k b) e <= amt (upd (bank k) a (cadd (bank k a) [(d, x)]) b) e).
  { intros b e. unfold upd. destruct (N.eqb_spec b a) as [->|n]; [|lia].
    rewrite amt_cadd by (first [apply (proj2 K)|apply V1]). rewrite amt_one. destruct (beqb e d); lia. }
  destruct (accs k a) as [[|v|]|] eqn:Ea.
  2: { split.
       - apply set_acc_ok; [exact K1|]. intros w Hw. injection Hw as <-. apply track_undelegation_ok; [exact (proj1 K a v Ea)|exact P].
       - intros b e t H w Ew. cbn [set_acc set_bank accs] in Ew. unfold balance. cbn [set_acc set_bank bank]. specialize (BL b e).
         unfold upd at 1 in Ew. destruct (N.eqb_spec b a) as [->|n].
         + injection Ew as <-. specialize (H v Ea). unfold balance in H. unfold unvested in *. cbn [track_undelegation v_vesting v_start]. lia.
         + specialize (H w Ew). unfold balance in H. lia. }
  all: split; [exact K1|]; intros b e t H; apply (holds_keep _ _ _ _ _ H); [reflexivity|unfold balance; cbn [set_bank bank]; apply BL].
Qed.

Lemma track_undelegation_amt v d x e : account_ok v -> 0 < x ->
  amt (v_deleg (track_undelegation v d x)) e = if beqb e d then Z.max 0 (amt (v_deleg v) d - x) else amt (v_deleg v) e.
Proof.
  intros (A1 & A2 & A3 & A4 & A5 & A6 & A7) P. unfold track_undelegation. cbn [v_deleg].
  pose proof (valid_nonneg (v_deleg v) d A7) as N0.
  assert (V : cvalid (keep d (Z.min (amt (v_deleg v) d) x) [])) by (apply keep_valid; lia).
  destruct (csub_ok (v_deleg v) _ A7 V) as [r [E [Vr Ar]]].
  { intro e'. rewrite amt_keep1. pose proof (valid_nonneg (v_deleg v) e' A7). destruct (bytes_eq_dec e' d) as [->|n]; [rewrite beqb_refl; lia|].
    rewrite (proj2 (beqb_neq e' d) n). lia. }
  unfold csub in E. destruct (csafe_sub _ _) as [r' b]. destruct b; [discriminate|]. injection E as ->. cbn [fst]. rewrite Ar, amt_keep1.
  destruct (bytes_eq_dec e d) as [->|n]; [rewrite beqb_refl; lia|rewrite (proj2 (beqb_neq e d) n); lia].
Qed.

Lemma give_back_exact s a d x : kst_ok (ks (st_g s)) -> 0 < x <= st_staked s a d -> came_back s (give_back s a d x) a d x.
Proof.
  intros K [P Q]. unfold give_back. rewrite (proj2 (Z.ltb_lt 0 x) P), (proj2 (Z.leb_le x (st_staked s a d)) Q). cbn [andb].
  pose proof (one_coin d x P) as V1. unfold came_back, balance. cbn [st_g ks st_staked live].
  assert (BL : forall b e, amt (upd (bank (ks (st_g s))) a (cadd (bank (ks (st_g s)) a) [(d, x)]) b) e = amt (bank (ks (st_g s)) b) e + (if N.eqb b a && beqb e d then x else 0)).
  { intros b e. unfold upd. destruct (N.eqb_spec b a) as [->|n]; cbn [andb]; [|lia].
    rewrite amt_cadd by (first [apply (proj2 K)|apply V1]). rewrite amt_one. reflexivity. }
  assert (SK : forall b e, add_staked (st_staked s) a d (- x) b e = st_staked s b e - (if N.eqb b a && beqb e d then x else 0)).
  { intros b e. unfold add_staked. destruct (N.eqb b a && beqb e d); lia. }
  destruct (accs (ks (st_g s)) a) as [[|v|]|] eqn:Ea; cbn [set_acc set_bank bank accs gov_off active].
  2: { split; [exact BL|]. split; [exact SK|]. split; [intros b n; unfold upd; destruct (N.eqb_spec b a); [contradiction|reflexivity]|].
       split; [|auto]. exists (v_deleg (track_undelegation v d x)). split; [unfold upd; rewrite N.eqb_refl; reflexivity|].
       intro e. apply track_undelegation_amt; [exact (proj1 K a v Ea)|exact P]. }
  all: split; [exact BL|split; [exact SK|auto]].
Qed.

Section Run.
Variables (authority distr : addr) (blocked is_contract : addr -> bool) (bond : bytes) (stakeable : bytes -> bool).
Notation sstep := (sstep authority distr blocked is_contract bond stakeable).
Notation srun := (srun authority distr blocked is_contract bond stakeable).

Lemma sstep_ok s e : kst_ok (ks (st_g s)) -> kst_ok (ks (st_g (sstep s e))).
Proof.
  intro K. destruct e as [e|a d x t|a d x|a d x]; cbn [Stake.sstep].
  - cbn [st_g]. apply gstep_ok. exact K.
  - destruct (delegate_spec bond stakeable s a d x t K) as [[_ [s' [E D]]]|[_ E]]; rewrite E; [apply D|exact K].
  - apply give_back_spec. exact K.
  - destruct ((0 <? x) && (x <=? st_staked s a d)); exact K.
Qed.
Lemma srun_ok es : forall s, kst_ok (ks (st_g s)) -> kst_ok (ks (st_g (srun s es))).
Proof. induction es as [|e es IH]; intros s K; [exact K|]. cbn [Stake.srun fold_left]. apply IH. apply sstep_ok. exact K. Qed.

Lemma holds_step s e a d t t' : kst_ok (ks (st_g s)) -> holds (ks (st_g s)) a d t ->
  (match stime e with Some u => t <= u /\ t' = u | None => t' = t end) ->
  d = bond \/ match e with SDelegate b d' _ _ => b <> a \/ d' <> d | _ => True end ->
  holds (ks (st_g (sstep s e))) a d t'.
Proof.
  intros K H T C. assert (H' : holds (ks (st_g s)) a d t').
  { destruct (stime e); [destruct T as [T ->]|subst t'; exact H]. exact (holds_later _ _ _ _ _ K H T). }
  destruct e as [e|b d' x u|b d' x|b d' x]; cbn [Stake.sstep].
  - cbn [st_g]. apply holds_gstep; [exact K|exact H'|]. destruct (stime (SKeep e)); [destruct T; congruence|exact Logic.I].
  - cbn [stime] in T. destruct T as [T ->].
    destruct (delegate_spec bond stakeable s b d' x u K) as [[Q [s' [E D]]]|[_ E]]; rewrite E; [|exact H'].
    destruct D as (_ & B & _ & O & A & _). destruct (N.eq_dec a b) as [<-|n].
    + intros v' Ev'. rewrite (B a d), N.eqb_refl. cbn [andb].
      destruct Q as (Q1 & _ & _ & Q4). destruct (accs (ks (st_g s)) a) as [[|v|]|] eqn:Ea; try congruence.
      rewrite A in Ev'. injection Ev' as <-. unfold unvested in *. cbn [v_vesting v_start]. specialize (H' v Ea). unfold unvested in H'.
      destruct (bytes_eq_dec d d') as [<-|nd]; [|rewrite (proj2 (beqb_neq d d') nd); lia].
      rewrite beqb_refl. destruct C as [->|[C|C]]; [lia|congruence|congruence].
    + apply (holds_keep _ _ _ _ _ H'); [apply O; exact n|]. rewrite (B a d), (proj2 (N.eqb_neq a b) n). cbn [andb]. lia.
  - apply give_back_spec; [exact K|exact H'].
  - destruct ((0 <? x) && (x <=? st_staked s b d')); exact H'.
Qed.

Lemma holds_run es : forall s a d t, kst_ok (ks (st_g s)) -> holds (ks (st_g s)) a d t -> sorder t es ->
  d = bond \/ never_delegates a d es -> holds (ks (st_g (srun s es))) a d (slast t es).
Proof.
  induction es as [|e es IH]; intros s a d t K H O C; [exact H|]. cbn [Stake.srun fold_left slast sorder] in *.
  assert (C1 : d = bond \/ match e with SDelegate b d' _ _ => b <> a \/ d' <> d | _ => True end)
    by (destruct C as [C|C]; [left; exact C|right; inversion C; assumption]).
  assert (C2 : d = bond \/ never_delegates a d es) by (destruct C as [C|C]; [left; exact C|right; inversion C; assumption]).
  apply IH; [apply sstep_ok; exact K| | |exact C2].
  - apply (holds_step s e a d t); [exact K|exact H| |exact C1]. destruct (stime e); [destruct O; auto|reflexivity].
  - destruct (stime e); [apply O|exact O].
Qed.
End Run.

(* ---------------- the clawback ---------------- *)

Lemma send_coins_goes s f to c t : kst_ok s -> accs s f = Some Base -> cvalid c -> (forall d, amt c d <= amt (bank s f) d) ->
  exists s', send_coins s f to c t = Ok s'.
Proof.
  intros K Ef V L. unfold send_coins, locked_of. rewrite Ef. cbn [rbind]. rewrite (cvalid_cvalidb c V). cbn [andb].
  assert (F : forallb (fun '(d, x) => x <=? amt (bank s f) d - amt [] d) c = true).
  { apply forallb_forall. intros [d x] Hin. cbn [amt]. pose proof (amt_in c d x (proj1 V) Hin) as A. specialize (L d). apply Z.leb_le. lia. }
  rewrite F. eexists. reflexivity.
Qed.

Lemma clawback_goes authority distr blocked s f a dest t v : kst_ok s -> accs s a = Some (Vest v) ->
  (v_lockup v <> [] \/ v_vesting v <> []) -> may_claw authority s v f a ->
  (f <> authority -> blocked (match dest with Some d => d | None => f end) = false) ->
  (forall d, holds s a d t) ->
  exists s', clawback authority distr blocked s f a dest t = Ok s'.
Proof.
  intros K Ea NE MC BL H. unfold clawback.
  destruct (clawback_spec v t (proj1 K a v Ea)) as [v' [c [CC [_ [Vc _]]]]].
  destruct (C30_computed_account_partial v t (proj1 K a v Ea)) as [v2 [c2 [E2 [_ [_ [_ [_ [_ [Ev _]]]]]]]]]. rewrite CC in E2. injection E2 as <- <-.
  destruct (unvested_vesting v t (proj1 K a v Ea)) as [u [Eu [_ Au]]]. assert (u = c) by congruence. subst u.
  assert (TC : forall dst, exists s', transfer_clawback s a v dst t = Ok s').
  { intro dst. unfold transfer_clawback. rewrite CC. cbn [rbind]. apply send_coins_goes.
    - apply set_gov_off_ok. apply set_acc_ok; [exact K|discriminate].
    - cbn [set_gov_off set_acc accs]. apply upd_same.
    - exact Vc.
    - intro d. rewrite Au. exact (H d v Ea). }
  assert (P : forall A (x y : A), match v_vesting v, v_lockup v with [], [] => x | _, _ => y end = y).
  { intros A x y. destruct (v_vesting v); [|reflexivity]. destruct (v_lockup v); [|reflexivity]. destruct NE; congruence. }
  destruct MC as [[-> G]|[NA [-> G]]].
  - rewrite N.eqb_refl. cbn [negb andb]. rewrite Ea, P, G. apply TC.
  - rewrite (proj2 (N.eqb_neq (v_funder v) authority) NA), G, (BL NA). cbn [negb andb orb]. rewrite Ea, P, N.eqb_refl.
    rewrite (proj2 (N.eqb_neq authority (v_funder v))) by congruence. cbn [negb]. apply TC.
Qed.
