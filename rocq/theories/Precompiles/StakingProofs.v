(** Proofs about the staking contract's approvals. *)
From Coq Require Import List ZArith NArith Bool Lia.
From Verif Require Import Precompiles.Staking Precompiles.StakingSpec.
Import ListNotations.
Open Scope Z_scope.

Lemma kind_eqb_spec a b : reflect (a = b) (kind_eqb a b).
Proof. destruct a, b; constructor; congruence. Qed.

Lemma set_same g e r k v : set_grant g e r k v e r k = v.
Proof.
  unfold set_grant. rewrite !N.eqb_refl. destruct (kind_eqb_spec k k); [reflexivity|congruence].
Qed.

Lemma set_other g e r k v : only_at e r k g (set_grant g e r k v).
Proof.
  intros e' r' k' NE. unfold set_grant.
  destruct (N.eqb_spec e e'), (N.eqb_spec r r'), (kind_eqb_spec k k'); cbn; try reflexivity.
  exfalso; apply NE; congruence.
Qed.

Lemma only_refl e r k g : only_at e r k g g.
Proof. intros ? ? ? _; reflexivity. Qed.

Lemma get_auth_live g now e r k x :
  get_auth g now e r k = Some x <-> live g now e r k x.
Proof.
  unfold get_auth, live. destruct (g e r k) as [y|].
  - destruct (g_exp y) as [t|] eqn:E.
    + destruct (Z.ltb_spec t now); split.
      * discriminate.
      * intros [E1 H1]. injection E1 as <-. rewrite E in H1. lia.
      * intros E1; injection E1 as <-. rewrite E. split; [reflexivity|lia].
      * intros [E1 _]. exact E1.
    + split.
      * intros E1; injection E1 as <-. rewrite E. auto.
      * intros [E1 _]. exact E1.
  - split; [discriminate|intros [? _]; discriminate].
Qed.

Lemma save_eq now e r k x g g' :
  save now e r k x g = Some g' ->
  g' = set_grant g e r k (Some x) /\ match g_exp x with Some t => now < t | None => True end.
Proof.
  unfold save. destruct (g_exp x) as [t|].
  - destruct (Z.ltb_spec now t); [|discriminate]. intros E; injection E as <-; auto.
  - intros E; injection E as <-; auto.
Qed.

Lemma delete_eq e r k g g' :
  delete e r k g = Some g' -> g' = set_grant g e r k None /\ exists x, g e r k = Some x.
Proof.
  unfold delete. destruct (g e r k) as [x|] eqn:E; [|discriminate].
  intros E1; injection E1 as <-. eauto.
Qed.

Lemma existsb_in v l : existsb (N.eqb v) l = true <-> In v l.
Proof.
  rewrite existsb_exists. split.
  - intros [x [I1 E]]. apply N.eqb_eq in E. now subst.
  - intros I1. exists v. now rewrite N.eqb_refl.
Qed.

(** What an accepted use does to the grants. *)
Lemma accept_eq now e r x a m g g' :
  g e r (m_kind m) = Some x -> g_auth x = Some a ->
  accept now e r x a m g = Some g' ->
  covers a (m_validator m) /\
  only_at e r (m_kind m) g g' /\
  match a_max a with
  | None => g' e r (m_kind m) = g e r (m_kind m)
  | Some (d, l) =>
      d = m_denom m /\ m_amount m <= l /\
      (m_amount m = l -> g' e r (m_kind m) = None) /\
      (m_amount m < l ->
       g' e r (m_kind m) =
       Some (Grant (Some (Auth (a_allow a) (a_deny a) (Some (d, l - m_amount m)))) (g_exp x)))
  end.
Proof.
  intros E A. unfold accept.
  destruct (existsb (N.eqb (m_validator m)) (a_deny a)) eqn:D; [discriminate|].
  assert (ND : ~ In (m_validator m) (a_deny a)).
  { intros I1. apply existsb_in in I1. congruence. }
  destruct (negb _ && negb _) eqn:AL; [discriminate|].
  assert (C : covers a (m_validator m)).
  { split; [exact ND|]. destruct (a_allow a) as [|b bs]; [now left|right].
    cbn [negb andb] in AL. apply negb_false_iff in AL. now apply existsb_in. }
  destruct (a_max a) as [[d l]|].
  - destruct (N.eqb_spec d (m_denom m)) as [ED|]; cbn [negb]; [|discriminate].
    destruct (Z.ltb_spec (l - m_amount m) 0); [discriminate|].
    destruct (Z.eqb_spec (l - m_amount m) 0).
    + intros H1. apply delete_eq in H1 as [-> _].
      split; [exact C|]. split; [apply set_other|].
      split; [exact ED|]. split; [lia|]. split; [intros _; apply set_same|lia].
    + intros H1. apply save_eq in H1 as [-> _].
      split; [exact C|]. split; [apply set_other|].
      split; [exact ED|]. split; [lia|]. split; [lia|intros _; apply set_same].
  - intros H1. apply save_eq in H1 as [-> _].
    split; [exact C|]. split; [apply set_other|]. rewrite set_same. now rewrite E.
Qed.

Section Contract.
Variable W : Type.
Variable serve : smsg -> W -> option W.
Variable unjailed : W -> list addr.
Variable whitelisted : W -> denom -> bool.
Variable serve_unjail : addr -> W -> option W.
Variable bond : denom.
Variable lifetime : Z.
Notation perform := (perform W serve whitelisted bond).
Notation step := (step W serve unjailed whitelisted serve_unjail bond lifetime).
Notation as_sent := (as_sent bond).
Notation state := (state W).

Lemma as_sent_kind m : m_kind (as_sent m) = m_kind m.
Proof. unfold StakingSpec.as_sent. destruct (m_kind m) eqn:E; try exact E. reflexivity. Qed.
Lemma as_sent_delegator m : m_delegator (as_sent m) = m_delegator m.
Proof. unfold StakingSpec.as_sent. destruct (m_kind m); reflexivity. Qed.
Lemma as_sent_validator m : m_validator (as_sent m) = m_validator m.
Proof. unfold StakingSpec.as_sent. destruct (m_kind m); reflexivity. Qed.
Lemma as_sent_amount m : m_amount (as_sent m) = m_amount m.
Proof. unfold StakingSpec.as_sent. destruct (m_kind m); reflexivity. Qed.

Lemma perform_cases (v : env) (m : smsg) (s : state) o s' :
  perform v m s = (o, s') ->
  (o = Failed /\ s' = s) \/
  (0 <= m_amount m /\ m_kind m <> Redelegate /\
   (m_delegator m = e_origin v \/ m_delegator m = e_caller v) /\
   exists w, serve (as_sent m) (s_world s) = Some w /\
   ((e_caller v = e_origin v /\ o = Done /\
     s' = State (s_grants s) w (Served (e_caller v) (e_origin v) (as_sent m) true :: s_log s)) \/
    (e_caller v <> e_origin v /\
     exists x a, may (s_grants s) (e_now v) (e_caller v) (e_origin v) (as_sent m) = Some (x, a) /\
     match accept (e_now v) (e_caller v) (e_origin v) x a (as_sent m) (s_grants s) with
     | Some g => o = Done /\
         s' = State g w (Served (e_caller v) (e_origin v) (as_sent m) true :: s_log s)
     | None => o = Failed /\
         s' = State (s_grants s) w (Served (e_caller v) (e_origin v) (as_sent m) false :: s_log s)
     end))).
Proof.
  unfold Staking.perform. fold (as_sent m). cbv zeta.
  rewrite as_sent_kind, as_sent_delegator, as_sent_validator, as_sent_amount.
  destruct (match m_kind m with Redelegate => true | _ => false end) eqn:R.
  { intros E; injection E as <- <-; auto. }
  destruct ((m_delegator m =? 0)%N || (m_validator m =? 0)%N || (m_amount m <? 0)) eqn:Z0.
  { intros E; injection E as <- <-; auto. }
  destruct (match m_kind m with Cancel => false | _ => negb (whitelisted (s_world s) (m_denom (as_sent m))) end).
  { intros E; injection E as <- <-; auto. }
  apply orb_false_iff in Z0 as [_ Z0]. apply Z.ltb_ge in Z0.
  assert (NR : m_kind m <> Redelegate) by (intros E; now rewrite E in R).
  destruct (N.eqb_spec (e_caller v) (m_delegator m)) as [CD|CD];
  destruct (N.eqb_spec (e_origin v) (m_delegator m)) as [OD|OD]; cbn [negb andb].
  4: { intros E; injection E as <- <-; auto. }
  all: destruct (N.eqb_spec (e_caller v) (e_origin v)) as [CO|CO].
  all: try (destruct (may _ _ _ _ _) as [[x a]|] eqn:M;
            [|intros E; injection E as <- <-; now left]).
  all: destruct (serve (as_sent m) (s_world s)) as [w|] eqn:SV;
       [|intros E; injection E as <- <-; now left].
  all: intros E; right; split; [exact Z0|]; split; [exact NR|];
       split; [(now left) || (now right)|]; exists w; split; [reflexivity|].
  all: try (left; injection E as <- <-; split; [congruence|auto]; fail).
  all: right; split; [assumption|]; exists x, a; split; [reflexivity|].
  all: destruct (accept _ _ _ _ _ _ _) as [g|]; injection E as <- <-; auto.
Qed.

Lemma may_eq g now e r m x a :
  may g now e r m = Some (x, a) ->
  live g now e r (m_kind m) x /\ g_auth x = Some a /\
  match a_max a with Some (_, l) => m_amount m <= l | None => True end.
Proof.
  unfold may. destruct (get_auth g now e r (m_kind m)) as [y|] eqn:G; [|discriminate].
  apply get_auth_live in G.
  destruct (g_auth y) as [b|] eqn:A; [|discriminate].
  destruct (a_max b) as [[d l]|] eqn:M.
  - destruct (Z.ltb_spec l (m_amount m)); [discriminate|].
    intros E; injection E as <- <-. rewrite M. auto.
  - intros E; injection E as <- <-. rewrite M. auto.
Qed.

(** What one entry of an administrative call can touch. *)
Lemma grant_or_delete_only now w e r coin k g g' :
  grant_or_delete W unjailed bond lifetime now w e r coin k g = Some g' -> only_at e r k g g'.
Proof.
  unfold grant_or_delete, create. intros H.
  destruct coin as [c|].
  - destruct (c <=? 0).
    + apply delete_eq in H as [-> _]. apply set_other.
    + destruct (unjailed w); [discriminate|]. apply save_eq in H as [-> _]. apply set_other.
  - destruct (unjailed w); [discriminate|]. apply save_eq in H as [-> _]. apply set_other.
Qed.

Lemma decrease_eq now e r coin k g g' :
  decrease now e r coin k g = Got g' ->
  only_at e r k g g' /\
  exists x a, live g now e r k x /\ g_auth x = Some a /\
  match a_max a with
  | None => g' = g
  | Some (d, l) => exists c, coin = Some c /\ c <= l /\
      g' e r k = Some (Grant (Some (Auth (a_allow a) (a_deny a) (Some (d, l - c)))) (g_exp x))
  end.
Proof.
  unfold decrease. destruct (get_auth g now e r k) as [x|] eqn:G; [|discriminate].
  apply get_auth_live in G.
  destruct (g_auth x) as [a|] eqn:A; [|discriminate].
  destruct (a_max a) as [[d l]|] eqn:M.
  - destruct coin as [c|]; [|discriminate].
    destruct (Z.ltb_spec l c); [discriminate|].
    unfold of_option. destruct (save _ _ _ _ _ _) as [h|] eqn:SV; [|discriminate].
    intros E; injection E as <-. apply save_eq in SV as [-> _].
    split; [apply set_other|]. exists x, a. split; [exact G|]. split; [exact A|].
    rewrite M. exists c. split; [reflexivity|]. split; [lia|]. apply set_same.
  - intros E; injection E as <-. split; [apply only_refl|].
    exists x, a. split; [exact G|]. split; [exact A|]. now rewrite M.
Qed.

Lemma increase_eq now e r coin k g g' :
  increase now e r coin k g = Got g' ->
  only_at e r k g g' /\
  exists x a, live g now e r k x /\ g_auth x = Some a /\
  match a_max a with
  | None => g' = g
  | Some (d, l) => exists c, coin = Some c /\
      g' e r k = Some (Grant (Some (Auth (a_allow a) (a_deny a) (Some (d, l + c)))) (g_exp x))
  end.
Proof.
  unfold increase. destruct (get_auth g now e r k) as [x|] eqn:G; [|discriminate].
  apply get_auth_live in G.
  destruct (g_auth x) as [a|] eqn:A; [|discriminate].
  destruct (a_max a) as [[d l]|] eqn:M.
  - destruct coin as [c|]; [|discriminate].
    destruct (fits (l + c)); [|discriminate].
    unfold of_option. destruct (save _ _ _ _ _ _) as [h|] eqn:SV; [|discriminate].
    intros E; injection E as <-. apply save_eq in SV as [-> _].
    split; [apply set_other|]. exists x, a. split; [exact G|]. split; [exact A|].
    rewrite M. exists c. split; [reflexivity|]. apply set_same.
  - intros E; injection E as <-. split; [apply only_refl|].
    exists x, a. split; [exact G|]. split; [exact A|]. now rewrite M.
Qed.

(** An invariant of each entry is an invariant of the loop. *)
Lemma each_inv (I1 : grants -> Prop) f us g o g' :
  (forall k h h', In (Known k) us -> I1 h -> f k h = Got h' -> I1 h') ->
  I1 g -> each f us g = (o, g') -> I1 g'.
Proof.
  revert g. induction us as [|u us IH]; intros g P G; cbn [each].
  - intros E; injection E as _ <-. exact G.
  - destruct u as [k|?].
    + destruct (f k g) as [h| |] eqn:F.
      * apply IH; [|eapply P; eauto; now left].
        intros k' h1 h2 I2. apply P. now right.
      * intros E; injection E as _ <-. exact G.
      * intros E; injection E as _ <-. exact G.
    + intros E; injection E as _ <-. exact G.
Qed.

Lemma each_frame f us g o g' (touch : kind -> addr -> addr -> kind -> Prop) :
  (forall k h h', f k h = Got h' ->
     forall e' r' k', ~ touch k e' r' k' -> h' e' r' k' = h e' r' k') ->
  each f us g = (o, g') ->
  forall e' r' k', (forall k, In (Known k) us -> ~ touch k e' r' k') -> g' e' r' k' = g e' r' k'.
Proof.
  intros P E e' r' k' NT.
  refine (each_inv (fun h => h e' r' k' = g e' r' k') f us g o g' _ eq_refl E).
  intros k h h' I1 E1 F. rewrite <- E1. eapply P; [exact F|]. now apply NT.
Qed.

(** With [only_at]: the loop touches only the listed kinds. *)
Lemma each_only f us g o g' e r :
  (forall k h h', f k h = Got h' -> only_at e r k h h') ->
  each f us g = (o, g') ->
  forall e' r' k', ~ (e' = e /\ r' = r /\ In (Known k') us) -> g' e' r' k' = g e' r' k'.
Proof.
  intros P E e' r' k' NT.
  refine (each_frame f us g o g' (fun k e1 r1 k1 => (e1, r1, k1) = (e, r, k)) _ E e' r' k' _).
  - intros k h h' F e1 r1 k1 NE. exact (P k h h' F e1 r1 k1 NE).
  - intros k I1 E1. injection E1 as -> -> ->. auto.
Qed.

Lemma with_grants_eq (s : state) r o s' :
  with_grants W s r = (o, s') ->
  s_world s' = s_world s /\ s_log s' = s_log s /\
  (s_grants s' = snd r \/ s_grants s' = s_grants s) /\ o = fst r /\
  (o <> Crashed -> s_grants s' = snd r).
Proof.
  destruct r as [q g]. destruct q; cbn; intros E; injection E as <- <-; cbn; auto 8.
  repeat (split; [reflexivity|]). split; [now right|]. split; [reflexivity|congruence].
Qed.

Lemma in_no_cancel k us : In (Known k) (map no_cancel us) -> In (Known k) us /\ k <> Cancel.
Proof.
  rewrite in_map_iff. intros [u [E I1]].
  destruct u as [q|?]; cbn in E; [|discriminate].
  destruct q; try discriminate; injection E as <-; split; auto; discriminate.
Qed.

(** Only calls of the granter's own transactions touch its grants, and each
    only the ones it names. *)
Definition names (v : env) (c : call) (e r : addr) (k : kind) : Prop :=
  r = e_origin v /\
  match c with
  | Approve e' _ us | Increase e' _ us | Decrease e' _ us | Revoke e' us =>
      e = e' /\ In (Known k) us
  | Do m => e = e_caller v /\ e_caller v <> e_origin v /\ k = m_kind m
  | Unjail _ => False
  end.

Lemma step_frame v c (s : state) o s' e r k :
  step v c s = (o, s') -> ~ names v c e r k -> s_grants s' e r k = s_grants s e r k.
Proof.
  intros ST NN. unfold names in NN. destruct c as [e1 am us|e1 us|e1 am us|e1 am us|m|x];
    unfold Staking.step in ST; cbv zeta in ST.
  - destruct (args_ok _ _ _); [|injection ST as <- <-; reflexivity].
    destruct (each _ _ _) as [q g] eqn:E.
    apply with_grants_eq in ST as (_ & _ & [-> | ->] & _); [|reflexivity]. cbn [snd].
    eapply (each_only _ us _ q g e1 (e_origin v)); [|exact E|tauto].
    intros k1 h h' H1. unfold of_option in H1.
    destruct (grant_or_delete _ _ _ _ _ _ _ _ _ _) eqn:GD in H1; [|discriminate].
    injection H1 as <-. eapply grant_or_delete_only; eauto.
  - destruct (args_ok _ _ _); [|injection ST as <- <-; reflexivity].
    destruct (each _ _ _) as [q g] eqn:E.
    apply with_grants_eq in ST as (_ & _ & [-> | ->] & _); [|reflexivity]. cbn [snd].
    eapply (each_only _ us _ q g e1 (e_origin v)); [|exact E|tauto].
    intros k1 h h' H1. unfold of_option in H1.
    destruct (delete _ _ _ _) eqn:GD in H1; [|discriminate].
    injection H1 as <-. apply delete_eq in GD as [-> _]. apply set_other.
  - destruct (args_ok _ _ _); [|injection ST as <- <-; reflexivity].
    destruct (each _ _ _) as [q g] eqn:E.
    apply with_grants_eq in ST as (_ & _ & [-> | ->] & _); [|reflexivity]. cbn [snd].
    eapply (each_only _ _ _ q g e1 (e_origin v)); [|exact E|].
    + intros k1 h h' H1. now apply increase_eq in H1.
    + intros (-> & -> & I1). apply in_no_cancel in I1 as [I1 _]. tauto.
  - destruct (args_ok _ _ _); [|injection ST as <- <-; reflexivity].
    destruct (each _ _ _) as [q g] eqn:E.
    apply with_grants_eq in ST as (_ & _ & [-> | ->] & _); [|reflexivity]. cbn [snd].
    eapply (each_only _ us _ q g e1 (e_origin v)); [|exact E|tauto].
    intros k1 h h' H1. now apply decrease_eq in H1.
  - apply perform_cases in ST as [[_ ->]|(_ & _ & _ & w & _ & [(_ & _ & ->)|(NE & x & a & M & AC)])];
      [reflexivity|reflexivity|].
    apply may_eq in M as (L & A & _). destruct L as [L _].
    destruct (accept _ _ _ _ _ _ _) as [g|] eqn:AE; destruct AC as [_ ->]; [|reflexivity].
    cbn [s_grants]. eapply accept_eq in AE as (_ & OA & _); eauto. apply OA.
    intros E. injection E as -> -> ->. rewrite as_sent_kind in NN. tauto.
  - destruct (x =? 0)%N; [injection ST as <- <-; reflexivity|].
    destruct (serve_unjail _ _); injection ST as <- <-; reflexivity.
Qed.

Definition room (e r : addr) (k : kind) (d : denom) (l t : Z) (g : grants) : Prop :=
  match g e r k with
  | None => t <= l
  | Some x => exists a l', g_auth x = Some a /\ a_max a = Some (d, l') /\ 0 <= l' /\ t + l' <= l
  end.

(** What remains of a limited approval, and what was used of it. *)
Definition within (e r : addr) (k : kind) (d : denom) (l : Z) (log0 : list served) (s : state) : Prop :=
  exists new, s_log s = new ++ log0 /\
  (forall x, In x new -> by_pair e r k x = true -> m_denom (v_msg x) = d) /\
  0 <= total e r k new /\
  match s_grants s e r k with
  | None => total e r k new <= l
  | Some x => exists a l', g_auth x = Some a /\ a_max a = Some (d, l') /\ 0 <= l' /\
              total e r k new + l' <= l
  end.

Lemma total_app e r k a b : total e r k (a ++ b) = total e r k a + total e r k b.
Proof.
  induction a as [|x a IH]; [reflexivity|]. cbn [app total fold_right].
  fold (total e r k (a ++ b)). fold (total e r k a). lia.
Qed.

Lemma by_pair_true e r k x :
  by_pair e r k x = true <->
  v_caller x = e /\ v_origin x = r /\ m_kind (v_msg x) = k /\ v_ok x = true.
Proof.
  unfold by_pair. rewrite !andb_true_iff, !N.eqb_eq.
  destruct (kind_eqb_spec (m_kind (v_msg x)) k); intuition congruence.
Qed.

Lemma within_same e r k d l log0 (s s' : state) :
  within e r k d l log0 s -> s_log s' = s_log s -> s_grants s' e r k = s_grants s e r k ->
  within e r k d l log0 s'.
Proof. intros (new & A & B). intros E1 E2. exists new. now rewrite E1, E2. Qed.

Lemma within_idle e r k d l log0 (s s' : state) x :
  within e r k d l log0 s -> s_log s' = x :: s_log s -> by_pair e r k x = false ->
  s_grants s' e r k = s_grants s e r k -> within e r k d l log0 s'.
Proof.
  intros (new & A & B & C & D) E1 E3 E2. exists (x :: new). rewrite E1, A, E2.
  split; [reflexivity|].
  assert (T : total e r k (x :: new) = total e r k new).
  { cbn [total fold_right]. rewrite E3. reflexivity. }
  rewrite T. split; [|auto].
  intros y [<-|I1] Y; [congruence|]. now apply B.
Qed.

Lemma decrease_within now e r coin k d l t g g' :
  room e r k d l t g ->
  (match coin with Some c => 0 <= c | None => True end) ->
  decrease now e r coin k g = Got g' -> room e r k d l t g'.
Proof.
  unfold room. intros G C D. apply decrease_eq in D as (_ & x & a & [L _] & A & D).
  rewrite L in G. destruct G as (a' & l' & A' & M & L0 & L1).
  rewrite A in A'. injection A' as <-. rewrite M in D.
  destruct D as (c & -> & LE & ->). cbn. exists (Auth (a_allow a) (a_deny a) (Some (d, l' - c))), (l' - c).
  repeat split; lia.
Qed.

Lemma coin_nonneg amount : 0 <= amount ->
  match coin_of amount with Some c => 0 <= c | None => True end.
Proof. unfold coin_of. destruct (amount =? max_word); auto. Qed.

Lemma step_within e r k d l log0 v c (s : state) o s' :
  e <> r -> within e r k d l log0 s -> ~ raises e r k v c ->
  step v c s = (o, s') -> within e r k d l log0 s'.
Proof.
  intros NER WI NR ST.
  destruct c as [e1 am us|e1 us|e1 am us|e1 am us|m|x].
  - (* approve *)
    pose proof ST as ST2.
    unfold Staking.step in ST; cbv zeta in ST.
    destruct (args_ok _ _ _); [|injection ST as <- <-; exact WI].
    apply with_grants_eq in ST as (_ & EL & _ & _).
    eapply within_same; [exact WI|exact EL|].
    eapply step_frame; [exact ST2|]. unfold names. cbn. unfold raises in NR. cbn in NR. 
    intros (-> & -> & ?). apply NR. auto.
  - (* revoke *)
    unfold Staking.step in ST; cbv zeta in ST.
    destruct (args_ok _ _ _); [|injection ST as <- <-; exact WI].
    destruct (each _ _ _) as [q g] eqn:E.
    apply with_grants_eq in ST as (_ & EL & EG & _). destruct WI as (new & A & B & C & D).
    exists new. rewrite EL. split; [exact A|]. split; [exact B|]. split; [exact C|].
    destruct EG as [-> | ->]; [|exact D]. cbn [snd].
    refine (each_inv (room e r k d l (total e r k new)) _ _ _ _ _ _ D E). unfold room.
    intros k1 h h' _ IH F. unfold of_option in F.
    destruct (delete _ _ _ _) as [h2|] eqn:DE in F; [|discriminate]. injection F as <-.
    apply delete_eq in DE as [-> _]. unfold set_grant.
    destruct (_ && _); [|exact IH].
    destruct (h e r k) as [x|]; [|exact IH]. destruct IH as (a & l' & _ & _ & ? & ?). lia.
  - (* increase *)
    pose proof ST as ST2.
    unfold Staking.step in ST; cbv zeta in ST.
    destruct (args_ok _ _ _); [|injection ST as <- <-; exact WI].
    apply with_grants_eq in ST as (_ & EL & _ & _).
    eapply within_same; [exact WI|exact EL|].
    eapply step_frame; [exact ST2|]. unfold names. cbn. unfold raises in NR. cbn in NR. 
    intros (-> & -> & ?). apply NR. auto.
  - (* decrease *)
    unfold Staking.step in ST; cbv zeta in ST.
    destruct (args_ok e1 am us) eqn:AO; [|injection ST as <- <-; exact WI].
    assert (AM : 0 <= am).
    { unfold args_ok in AO. rewrite !andb_true_iff in AO. apply Z.leb_le. tauto. }
    destruct (each _ _ _) as [q g] eqn:E.
    apply with_grants_eq in ST as (_ & EL & EG & _). destruct WI as (new & A & B & C & D).
    exists new. rewrite EL. split; [exact A|]. split; [exact B|]. split; [exact C|].
    destruct EG as [-> | ->]; [|exact D]. cbn [snd].
    refine (each_inv (room e r k d l (total e r k new)) _ _ _ _ _ _ D E). unfold room.
    intros k1 h h' _ IH F.
    destruct (N.eq_dec e1 e) as [->|NE]; [destruct (N.eq_dec (e_origin v) r) as [RE|NE];
      [destruct (kind_eqb_spec k1 k) as [->|NE]|]|].
    + rewrite RE in F. exact (decrease_within _ _ _ _ _ _ _ _ _ _ IH (coin_nonneg _ AM) F).
    + apply decrease_eq in F as [OA _]. rewrite (OA e r k) by congruence. exact IH.
    + apply decrease_eq in F as [OA _]. rewrite (OA e r k) by congruence. exact IH.
    + apply decrease_eq in F as [OA _]. rewrite (OA e r k) by congruence. exact IH.
  - (* use *)
    cbn [Staking.step] in ST.
    pose proof ST as ST2. 
    apply perform_cases in ST as [[_ ->]|(AM & _ & _ & w & _ & [(CO & _ & ->)|(NE & x & a & M & AC)])].
    + exact WI.
    + eapply within_idle; [exact WI|reflexivity| |reflexivity].
      apply not_true_is_false. rewrite by_pair_true. cbn. intros (? & ? & _). congruence.
    + apply may_eq in M as (L & A & _). destruct L as [L _].
      destruct (accept _ _ _ _ _ _ _) as [g|] eqn:AE; destruct AC as [_ ->].
      2:{ eapply within_idle; [exact WI|reflexivity| |reflexivity].
          apply not_true_is_false. rewrite by_pair_true. cbn. intros (_ & _ & _ & ?). congruence. }
      pose proof (accept_eq _ _ _ _ _ _ _ _ L A AE) as (_ & OA & MX).
      destruct (by_pair e r k (Served (e_caller v) (e_origin v) (as_sent m) true)) eqn:BP.
      * apply by_pair_true in BP. cbn in BP. destruct BP as (EC & EO & EK & _).
        rewrite EK, EC, EO in *. 
        destruct WI as (new & LA & B & C & D). rewrite L in D.
        destruct D as (a' & l' & A' & M' & L0 & L1). rewrite A in A'. injection A' as <-.
        rewrite M' in MX. destruct MX as (ED & LE & MZ & MP). rewrite as_sent_amount in *.
        exists (Served e r (as_sent m) true :: new).
        assert (T : total e r k (Served e r (as_sent m) true :: new) = m_amount m + total e r k new).
        { cbn [total fold_right]. replace (by_pair e r k _) with true.
          - cbn [v_msg]. now rewrite as_sent_amount.
          - symmetry. apply by_pair_true. cbn. auto. }
        rewrite T. cbn [s_log s_grants]. split; [now rewrite LA|].
        split; [intros y [<-|I1] Y; [cbn; congruence|now apply B]|].
        split; [lia|].
        destruct (Z.eq_dec (m_amount m) l') as [EQ|NQ].
        -- rewrite (MZ EQ). lia.
        -- rewrite MP by lia. cbn.
           exists (Auth (a_allow a) (a_deny a) (Some (d, l' - m_amount m))), (l' - m_amount m).
           repeat split; lia.
      * eapply within_idle; [exact WI|reflexivity|exact BP|].
        cbn [s_grants]. apply OA. intros E. injection E as E1 E2 E3. rewrite E1, E2, E3 in BP.
        apply not_true_iff_false in BP. apply BP. apply by_pair_true. cbn. auto.
  - cbn [Staking.step] in ST.
    destruct (x =? 0)%N; [injection ST as <- <-; exact WI|].
    destruct (serve_unjail _ _); injection ST as <- <-; exact WI.
Qed.

Lemma history_within e r k d l (s0 s : state) :
  e <> r -> within e r k d l (s_log s0) s0 ->
  history W serve unjailed whitelisted serve_unjail bond lifetime (fun v c => ~ raises e r k v c) s0 s ->
  within e r k d l (s_log s0) s.
Proof.
  intros NE W0 H. induction H as [|s s' v c o H IH P ST]; [exact W0|].
  eapply step_within; eauto.
Qed.

End Contract.
