(* Proofs about scheduled tasks. *)
From Verif Require Import Lib.Base Lib.Bytes Lib.Codec Lib.Zmap Chronos.Model Chronos.Spec.
From Coq Require Import ZArith List Bool Lia.
Import ListNotations.
Open Scope Z_scope.

(* ---- small facts ------------------------------------------------------ *)

Lemma addr_eqb_spec a b : reflect (a = b) (addr_eqb a b).
Proof.
  destruct a, b; cbn; try (constructor; congruence).
  - destruct (Z.eqb_spec n n0); constructor; congruence.
  - destruct (Z.eqb_spec id id0); constructor; congruence.
Qed.

Lemma addr_eqb_refl a : addr_eqb a a = true.
Proof. destruct (addr_eqb_spec a a); congruence. Qed.

Lemma atext_eqb_spec a b : reflect (a = b) (atext_eqb a b).
Proof.
  destruct a as [a x|n], b as [b y|m]; cbn; try (constructor; congruence).
  - destruct (addr_eqb_spec a b) as [E|E]; cbn; [|constructor; congruence].
    destruct x, y; cbn; constructor; congruence.
  - destruct (Z.eqb_spec n m); constructor; congruence.
Qed.

Lemma bal_badd l a x b : bal (badd l a x) b = bal l b + (if addr_eqb a b then x else 0).
Proof.
  induction l as [|[c y] l IH]; cbn.
  - destruct (addr_eqb a b); lia.
  - destruct (addr_eqb_spec c a) as [E|E]; cbn.
    + rewrite E. destruct (addr_eqb a b); lia.
    + rewrite IH. destruct (addr_eqb_spec c b) as [F|F]; [|reflexivity].
      destruct (addr_eqb_spec a b); [congruence|lia].
Qed.

Definition lsum (l : ledger) : Z := fold_right (fun p acc => snd p + acc) 0 l.
Lemma lsum_badd l a x : lsum (badd l a x) = lsum l + x.
Proof.
  induction l as [|[c y] l IH]; cbn; [lia|]. destruct (addr_eqb c a); cbn; [|fold (lsum (badd l a x)); rewrite IH]; unfold lsum; lia.
Qed.

Lemma rbind_ok {A B} (r : res A) (f : A -> res B) b : rbind r f = Ok b -> exists a, r = Ok a /\ f a = Ok b.
Proof. destruct r; cbn; [eauto|discriminate|discriminate]. Qed.

(* What [send] does. *)
Lemma send_ok s a b x s' : send s a b x = Ok s' ->
  0 <= x /\ (x = 0 \/ x <= money s a) /\ (x = 0 /\ s' = s \/ 0 < x /\ s' = set_bal s (badd (badd (s_bal s) a (- x)) b x)).
Proof.
  unfold send, money. destruct (Z.ltb_spec x 0); [discriminate|]. destruct (Z.eqb_spec x 0) as [E|E].
  - intro H0. injection H0 as <-. split; [lia|]. split; [left; exact E|left; split; [exact E|reflexivity]].
  - destruct (Z.leb_spec x (bal (s_bal s) a)); [|discriminate]. intro H1. injection H1 as <-.
    split; [lia|]. split; [right; lia|right; split; [lia|reflexivity]].
Qed.

Lemma send_money s a b x s' : send s a b x = Ok s' ->
  forall z, money s' z = money s z - (if addr_eqb a z then x else 0) + (if addr_eqb b z then x else 0).
Proof.
  intros H z. destruct (send_ok _ _ _ _ _ H) as (_ & _ & [[-> ->]|[_ ->]]).
  - destruct (addr_eqb a z), (addr_eqb b z); lia.
  - unfold money. cbn. rewrite !bal_badd. destruct (addr_eqb a z), (addr_eqb b z); lia.
Qed.

Lemma send_total s a b x s' : send s a b x = Ok s' -> total s' = total s.
Proof.
  intros H. destruct (send_ok _ _ _ _ _ H) as (_ & _ & [[-> ->]|[_ ->]]); [reflexivity|].
  unfold total. cbn. fold (lsum (badd (badd (s_bal s) a (- x)) b x)). rewrite !lsum_badd.
  fold (lsum (s_bal s)). lia.
Qed.

Lemma send_rest s a b x s' : send s a b x = Ok s' ->
  s' = set_bal s (s_bal s').
Proof.
  intros H. destruct (send_ok _ _ _ _ _ H) as (_ & _ & [[-> ->]|[_ ->]]); destruct s; reflexivity.
Qed.

(* ---- a principle: what all parts of the end of a block preserve -------- *)

Section Principle.
Variable e : env.
Variable P : st -> Prop.
Variable Q : cron -> Prop.
Hypothesis Hlive : forall s id c, P s -> get_cron s id = Some c -> Q c.
Hypothesis Hvals : forall s c, P s -> In c (zvals (s_crons s)) -> Q c.
Hypothesis Qqueue : forall c x, Q c -> Q (with_queue c x).
Hypothesis Qfees : forall c x, Q c -> Q (with_fees c x).
Hypothesis Qcb : forall c p x, Q c -> Q (with_callback c p x).
Hypothesis Qrun : forall c x, Q c -> Q (with_run c x).
Hypothesis Pfee : forall s c x s', P s -> Q c -> send s (c_wallet c) Collector x = Ok s' -> P s'.
Hypothesis Prefund : forall s c x s', P s -> Q c -> send s Collector (c_wallet c) x = Ok s' -> P s'.
Hypothesis Pstore : forall s c, P s -> Q c -> P (store_cron s c).
Hypothesis Pqset : forall s k l, P s -> P (set_queue s (zset (s_queue s) k l)).
Hypothesis Pqdel : forall s k, P s -> P (set_queue s (zdel (s_queue s) k)).
Hypothesis Premove : forall s id o s', P s -> remove_cron s (e_height e) id o = Ok s' -> P s'.
Hypothesis Precord : forall s r, P s -> P (record s r).
Hypothesis Peffect : forall s o f, P s -> P (apply_effect e o s f).

Lemma pr_append s t c s' : P s -> Q c -> append_queue s t c = Ok s' -> P s'.
Proof.
  unfold append_queue. destruct (queue_key c); [|discriminate]. intros HP HQ H. injection H as <-.
  apply Pstore; [apply Pqset, HP|apply Qqueue, HQ].
Qed.

Lemma pr_unqueue s c s' : P s -> Q c -> remove_queue s c = Ok s' -> P s'.
Proof.
  unfold remove_queue. destruct (queue_key c) as [k|]; [|discriminate]. intros HP HQ.
  destruct (zget (s_queue s) k) as [l|]; [|intro H; injection H as <-; exact HP].
  destruct (drop_first (c_id c) l) as [[|x l']|]; intro H; injection H as <-;
    [| |exact HP]; (apply Pstore; [first [apply Pqset, HP|apply Pqdel, HP]|apply Qqueue, HQ]).
Qed.

Lemma pr_evict s c s' : P s -> evict s (e_height e) c = Ok s' -> P s'.
Proof.
  unfold evict, emit_cancelled. intros HP. destruct (decode (c_owner c)) as [o|]; [|discriminate].
  destruct (remove_cron _ _ _ o) as [s2| |] eqn:R; [| |discriminate]; intro H; injection H as <-.
  - eapply Premove; [|exact R]. apply Precord, HP.
  - apply Precord, HP.
Qed.

Lemma pr_charge_one s c s' : P s -> Q c -> charge_one s e c = Ok s' -> P s'.
Proof.
  intros HP HQ. unfold charge_one.
  destruct (negb _ && _); [apply pr_evict, HP|].
  destruct (c_cb c); [intro H; injection H as <-; exact HP|].
  destruct ((upd0 <? _) && _); [apply pr_evict, HP|].
  destruct ((cron_balance s c <? 0) || _); [apply pr_evict, HP|].
  assert (S : forall r, (if e_active e * e_base e =? 0 then Ok s else send s (c_wallet c) Collector (e_active e * e_base e)) = Ok r -> P r).
  { intro r. destruct (_ =? 0); [intro H; injection H as <-; exact HP|apply Pfee; assumption]. }
  destruct (if e_active e * e_base e =? 0 then _ else _) as [s1| |] eqn:E; [|apply pr_evict, HP|discriminate].
  specialize (S s1 eq_refl). destruct (c_price c) as [p|]; [|discriminate].
  destruct (imul p (i64 (c_gas c))) as [m| |]; cbn; [|discriminate|discriminate].
  destruct (_ <? m); [apply pr_evict, S|]. intro H. injection H as <-. apply Pstore; [exact S|apply Qfees, HQ].
Qed.

Lemma pr_fold {A} (f : st -> A -> res st) (l : list A) :
  (forall s x s', P s -> In x l -> f s x = Ok s' -> P s') -> forall s s', P s -> fold_res f l s = Ok s' -> P s'.
Proof.
  induction l as [|x l IH]; intros F s s' HP; cbn; [intro H; injection H as <-; exact HP|].
  intro H. apply rbind_ok in H. destruct H as (s1 & H1 & H2). eapply IH; [|eapply F; [exact HP|left; reflexivity|exact H1]|exact H2].
  intros s0 y s0' A1 A2. apply F; [exact A1|right; exact A2].
Qed.

Lemma pr_charge_all s s' : P s -> charge_all s e = Ok s' -> P s'.
Proof.
  intros HP. unfold charge_all. apply pr_fold; [|exact HP].
  intros s0 c s0' P0 I. apply pr_charge_one; [exact P0|apply (Hvals s), I; exact HP].
Qed.

Lemma pr_push_one s c s' : P s -> Q c -> push_one s e c = Ok s' -> P s'.
Proof.
  intros HP HQ. unfold push_one.
  destruct (c_cb c); [intro H; injection H as <-; exact HP|].
  destruct (flagged _ c); [intro H; injection H as <-; exact HP|].
  destruct (_ <? 0); [apply pr_evict, HP|].
  destruct (c_price c) as [p|]; [|discriminate]. destruct (imul p _) as [m| |]; cbn; [|discriminate|discriminate].
  destruct (_ <=? m); [apply pr_evict, HP|apply pr_append; assumption].
Qed.

Lemma pr_push_all s s' : P s -> push_all s e = Ok s' -> P s'.
Proof.
  intros HP. unfold push_all. apply pr_fold; [|exact HP].
  intros s0 c s0' P0 I. apply filter_In in I. apply pr_push_one; [exact P0|apply (Hvals s), (proj1 I); exact HP].
Qed.

Lemma pr_effects o l : forall s, P s -> P (apply_effects e o s l).
Proof.
  unfold apply_effects. induction l as [|f l IH]; intros s HP; cbn; [exact HP|]. apply IH, Peffect, HP.
Qed.

Lemma pr_run_evm s c s' out : P s -> Q c -> run_evm s e c = Ok (s', out) -> P s'.
Proof.
  intros HP HQ. unfold run_evm. destruct (decode (c_owner c)) as [o|]; [|discriminate].
  destruct (_ || _); [intro H; injection H as <- _; exact HP|].
  destruct (c_gas c <? _); [intro H; injection H as <- _; exact HP|].
  destruct (_ =? 0); [discriminate|].
  destruct (send s (c_wallet c) Collector _) as [s1| |] eqn:S1; [|intro H; injection H as <- _; exact HP|discriminate].
  assert (P1 : P s1) by (eapply Pfee; [exact HP|exact HQ|exact S1]).
  assert (P2 : P (store_cron s1 (with_fees c (c_fees c + c_gas c * e_base e)))) by (apply Pstore; [exact P1|apply Qfees, HQ]).
  destruct (e_evm e c (s_nonce s)) as [|used effs]; [intro H; injection H as <- _; exact P2|].
  pose proof (pr_effects o effs _ P2) as P3.
  destruct (send _ Collector (c_wallet c) _) as [s4| |] eqn:S4; [|intro H; injection H as <- _; exact P3|discriminate].
  assert (P4 : P s4) by (eapply Prefund; [exact P3|exact HQ|exact S4]).
  intro H. injection H as <- _. destruct (0 <? _); [apply Pstore; [exact P4|apply Qfees, HQ]|exact P4].
Qed.

Lemma pr_execute s c s' out : P s -> Q c -> execute s e c = Ok (s', out) -> P s'.
Proof.
  intros HP0 HQ0. unfold execute. cbn zeta.
  assert (GO : forall s c, P s -> Q c ->
    (if negb (e_pack e c) then Ok (s, None)
     else match c_price c with
          | None => Panic
          | Some p => if p <? e_base e then Ok (s, None)
             else rbind (run_evm s e c) (fun r => let '(s1, out) := r in
               match out with
               | Some g => Ok (record (store_cron s1 (with_run c (u64 (e_height e + c_freq c)))) (mk_result (c_id c) (e_height e) true), Some g)
               | None => Panic end) end) = Ok (s', out) -> P s').
  { clear HP0 HQ0 s c. intros s c HP HQ. destruct (negb _); [intro H; injection H as <- _; exact HP|].
    destruct (c_price c) as [p|]; [|discriminate]. destruct (p <? _); [intro H; injection H as <- _; exact HP|].
    intro H. apply rbind_ok in H. destruct H as ([s1 o1] & H1 & H2). destruct o1 as [g|]; [|discriminate].
    injection H2 as <- _. apply Precord, Pstore; [eapply pr_run_evm; eassumption|apply Qrun, HQ]. }
  destruct (c_cb c); [|apply GO; assumption].
  destruct (zget (s_data s) (c_id c)) as [d|]; [|intro H; injection H as <- _; exact HP0].
  apply GO; [apply Pstore; [exact HP0|apply Qcb, HQ0]|apply Qcb, HQ0].
Qed.

Lemma pr_execute_all cur limit ids : forall s tot s' g l, P s -> execute_all s e cur tot limit ids = Ok (s', g, l) -> P s'.
Proof.
  induction ids as [|id ids IH]; intros s tot s' g l HP; cbn; [intro H; injection H as <- _ _; exact HP|].
  destruct (get_cron s id) as [c|] eqn:G; [|apply IH, HP].
  intro H. apply rbind_ok in H. destruct H as ([s1 out] & H1 & H2).
  assert (P1 : P s1) by (eapply pr_execute; [exact HP|eapply Hlive; [exact HP|exact G]|exact H1]).
  apply rbind_ok in H2. destruct H2 as ([s2 t2] & H2 & H3).
  assert (P2 : P s2).
  { destruct out as [g0|]; [injection H2 as <- _; exact P1|]. apply rbind_ok in H2. destruct H2 as (sx & H2 & H4).
    injection H4 as <- _. eapply pr_evict; [exact P1|exact H2]. }
  destruct (limit <=? cur + t2); [injection H3 as <- _ _; exact P2|].
  apply rbind_ok in H3. destruct H3 as ([[s3 g3] l3] & H3 & H4). injection H4 as <- _ _.
  eapply IH; [exact P2|exact H3].
Qed.

Lemma pr_unqueue_one s id s' : P s -> unqueue_one s id = Ok s' -> P s'.
Proof.
  unfold unqueue_one. intro HP. destruct (get_cron s id) as [c|] eqn:G; [|intro H; injection H as <-; exact HP].
  apply pr_unqueue; [exact HP|eapply Hlive; [exact HP|exact G]].
Qed.

Lemma pr_rounds fuel : forall s tot s', P s -> rounds fuel s e tot = Ok s' -> P s'.
Proof.
  induction fuel as [|n IH]; intros s tot s' HP; cbn; [intro H; injection H as <-; exact HP|].
  intro H. apply rbind_ok in H. destruct H as (bt & _ & H).
  apply rbind_ok in H. destruct H as ([[s1 g] dn] & H1 & H).
  apply rbind_ok in H. destruct H as (s2 & H2 & H). apply rbind_ok in H. destruct H as (s3 & H3 & H).
  assert (P3 : P s3).
  { eapply (pr_fold unqueue_one dn); [intros; eapply pr_unqueue_one; eassumption| |exact H3].
    eapply (pr_fold unqueue_one (b_expired bt)); [intros; eapply pr_unqueue_one; eassumption| |exact H2].
    eapply pr_execute_all; eassumption. }
  destruct (_ || _ || _); [injection H as <-; exact P3|eapply IH; [exact P3|exact H]].
Qed.

Theorem pr_end_block fuel s s' : P s -> end_block fuel s e = Ok s' -> P s'.
Proof.
  unfold end_block. intros HP H. apply rbind_ok in H. destruct H as (s1 & H1 & H). apply rbind_ok in H. destruct H as (s2 & H2 & H).
  eapply pr_rounds; [|exact H]. eapply pr_push_all; [|exact H2]. eapply pr_charge_all; [exact HP|exact H1].
Qed.
End Principle.

(* ---- removing a task -------------------------------------------------- *)

Lemma remove_queue_shape s c s' : remove_queue s c = Ok s' ->
  s' = s \/ exists q, s' = store_cron (set_queue s q) (with_queue c (-1)) /\ exists k, q = zdel (s_queue s) k \/ exists l, q = zset (s_queue s) k l.
Proof.
  unfold remove_queue. destruct (queue_key c) as [k|]; [|discriminate].
  destruct (zget (s_queue s) k) as [l|]; [|intro H; injection H as <-; left; reflexivity].
  destruct (drop_first (c_id c) l) as [[|x l']|]; intro H; injection H as <-;
    [right; eexists; split; [reflexivity|]; exists k; left; reflexivity
    |right; eexists; split; [reflexivity|]; exists k; right; eexists; reflexivity|left; reflexivity].
Qed.

Lemma remove_cron_shape s h id o s' : remove_cron s h id o = Ok s' ->
  exists c s1 s2,
    get_cron s id = Some c /\ c_owner c = print o /\
    (0 < cron_balance s c /\ send s (c_wallet c) o (cron_balance s c) = Ok s1 \/ cron_balance s c <= 0 /\ s1 = s) /\
    (flagged h c = true /\ remove_queue s1 c = Ok s2 \/ flagged h c = false /\ s2 = s1) /\
    s' = mk_st (s_bal s2) (zdel (s_crons s2) id) (zset (s_arch s2) id c) (s_next s2) (s_queue s2)
               (s_nonce s2) (s_results s2) (s_data s2) (s_count s2 - 1) (s_acount s2 + 1) (s_owned s2).
Proof.
  unfold remove_cron. destruct (get_cron s id) as [c|] eqn:G; [|discriminate].
  destruct (atext_eqb_spec (c_owner c) (print o)) as [E|E]; cbn [negb]; [|discriminate].
  intro H. apply rbind_ok in H. destruct H as (s1 & H1 & H). apply rbind_ok in H. destruct H as (s2 & H2 & H).
  injection H as <-. exists c, s1, s2. split; [reflexivity|]. split; [exact E|]. split; [|split; [|reflexivity]].
  - destruct (Z.ltb_spec 0 (cron_balance s c)) as [L|L].
    + left. split; [exact L|]. unfold cron_out in H1.
      replace (cron_balance s c <? 0) with false in H1 by (symmetry; apply Z.ltb_ge; lia). cbn [andb] in H1.
      replace (0 <? cron_balance s c) with true in H1 by (symmetry; apply Z.ltb_lt; lia).
      rewrite E in H1. cbn in H1. exact H1.
    + right. split; [exact L|]. injection H1 as <-. reflexivity.
  - destruct (flagged h c); [left; split; [reflexivity|exact H2]|right; split; [reflexivity|]]. injection H2 as <-. reflexivity.
Qed.

(* The ledger after a removal, and everything removal never touches. *)
Lemma remove_cron_facts s h id o s' : remove_cron s h id o = Ok s' ->
  exists c,
    get_cron s id = Some c /\ c_owner c = print o /\
    (s_bal s' = s_bal s /\ cron_balance s c <= 0 \/
     exists s1, 0 < cron_balance s c /\ send s (c_wallet c) o (cron_balance s c) = Ok s1 /\ s_bal s' = s_bal s1) /\
    (s_crons s' = zdel (s_crons s) id \/ s_crons s' = zdel (zset (s_crons s) (c_id c) (with_queue c (-1))) id) /\
    s_arch s' = zset (s_arch s) id c /\ s_next s' = s_next s /\ s_nonce s' = s_nonce s /\
    s_results s' = s_results s /\ s_data s' = s_data s /\ s_owned s' = s_owned s /\
    s_count s' = s_count s - 1 /\ s_acount s' = s_acount s + 1 /\
    (s_queue s' = s_queue s \/ exists k, s_queue s' = zdel (s_queue s) k \/ exists l, s_queue s' = zset (s_queue s) k l).
Proof.
  intro H. destruct (remove_cron_shape _ _ _ _ _ H) as (c & s1 & s2 & G & O & M & F & E). exists c.
  assert (R1 : s1 = set_bal s (s_bal s1)).
  { destruct M as [[_ M]|[_ ->]]; [apply (send_rest _ _ _ _ _ M)|destruct s; reflexivity]. }
  assert (R2 : s_bal s2 = s_bal s1 /\ (s_crons s2 = s_crons s1 \/ s_crons s2 = zset (s_crons s1) (c_id c) (with_queue c (-1))) /\
               s_arch s2 = s_arch s1 /\ s_next s2 = s_next s1 /\ s_nonce s2 = s_nonce s1 /\ s_results s2 = s_results s1 /\
               s_data s2 = s_data s1 /\ s_owned s2 = s_owned s1 /\ s_count s2 = s_count s1 /\ s_acount s2 = s_acount s1 /\
               (s_queue s2 = s_queue s1 \/ exists k, s_queue s2 = zdel (s_queue s1) k \/ exists l, s_queue s2 = zset (s_queue s1) k l)).
  { destruct F as [[_ F]|[_ ->]].
    - destruct (remove_queue_shape _ _ _ F) as [->|(q & -> & k & KK)]; cbn; [intuition|].
      repeat (split; [auto|]). right. exists k. exact KK.
    - intuition. }
  destruct R2 as (B & C & A1 & A2 & A3 & A4 & A5 & A6 & A7 & A8 & A9).
  assert (X : s_crons s1 = s_crons s /\ s_arch s1 = s_arch s /\ s_next s1 = s_next s /\ s_nonce s1 = s_nonce s /\
              s_results s1 = s_results s /\ s_data s1 = s_data s /\ s_owned s1 = s_owned s /\ s_count s1 = s_count s /\ s_acount s1 = s_acount s /\ s_queue s1 = s_queue s).
  { rewrite R1. cbn. intuition. }
  destruct X as (X1 & X2 & X3 & X4 & X5 & X6 & X7 & X8 & X9 & X10). rewrite X10 in A9.
  rewrite E. cbn. rewrite A1, A2, A3, A4, A5, A6, A7, A8, X2, X3, X4, X5, X6, X7, X8, X9.
  split; [exact G|]. split; [exact O|]. split.
  - rewrite B. destruct M as [[L M]|[L ->]]; [right; exists s1; auto|left; auto].
  - split; [rewrite X1 in C; destruct C as [->| ->]; auto|]. intuition.
Qed.

(* ---- sums and signs --------------------------------------------------- *)

Lemma remove_total s h id o s' : remove_cron s h id o = Ok s' -> total s' = total s.
Proof.
  intro H. destruct (remove_cron_facts _ _ _ _ _ H) as (c & _ & _ & [[B _]|(s1 & _ & S & B)] & _); unfold total; rewrite B; [reflexivity|].
  apply (send_total _ _ _ _ _ S).
Qed.

Lemma update_shape s t u s' : update s t u = Ok s' ->
  exists c, get_cron s (u_id u) = Some c /\ c_owner c = t /\
            s' = store_cron s (with_update c (u_freq u) (u_params u) (u_exp u) (u_gas u) (u_price u)).
Proof.
  unfold update. destruct (get_cron s (u_id u)) as [c|] eqn:G; [|discriminate].
  destruct (atext_eqb_spec (c_owner c) t) as [E|E]; cbn [negb]; [|discriminate].
  intro H. injection H as <-. exists c. auto.
Qed.

Lemma cancel_shape s h t w id s' : cancel s h t w id = Ok s' ->
  exists c o, get_cron s id = Some c /\ c_owner c = t /\ decode w = Some o /\ remove_cron s h id o = Ok s'.
Proof.
  unfold cancel. destruct (get_cron s id) as [c|] eqn:G; [|discriminate].
  destruct (atext_eqb_spec (c_owner c) t) as [E|E]; cbn [negb]; [|discriminate].
  destruct (decode w) as [o|]; [|discriminate]. intro H. exists c, o. auto.
Qed.

(* An effect is a payment that succeeded, a cancellation, an update, or nothing. *)
Lemma effect_cases e o s f :
  apply_effect e o s f = s \/
  (exists a b x, person a /\ f = EPay a b x /\ send s a b x = Ok (apply_effect e o s f)) \/
  (exists id, f = ECancel id /\ cancel s (e_height e) (print o) (print o) id = Ok (apply_effect e o s f)) \/
  (exists u, f = EUpdate u /\ update s (print o) u = Ok (apply_effect e o s f)).
Proof.
  destruct f as [a b x|id|u].
  - destruct a as [n|w|]; cbn.
    + destruct (send s (Acct n) b x) as [s1| |] eqn:E; cbn; [|left; reflexivity|left; reflexivity].
      right. left. exists (Acct n), b, x. split; [exact I|split; [reflexivity|exact E]].
    + left. reflexivity.
    + destruct (send s Collector b x) as [s1| |] eqn:E; cbn; [|left; reflexivity|left; reflexivity].
      right. left. exists Collector, b, x. split; [exact I|split; [reflexivity|exact E]].
  - cbn. destruct (cancel _ _ _ _ id) as [s1| |] eqn:E; cbn; [|left; reflexivity|left; reflexivity].
    right. right. left. exists id. split; [reflexivity|exact E].
  - cbn. destruct (update s (print o) u) as [s1| |] eqn:E; cbn; [|left; reflexivity|left; reflexivity].
    right. right. right. exists u. split; [reflexivity|exact E].
Qed.

Lemma cancel_total s h t w id s' : cancel s h t w id = Ok s' -> total s' = total s.
Proof. intro H. destruct (cancel_shape _ _ _ _ _ _ H) as (c & o & _ & _ & _ & R). apply (remove_total _ _ _ _ _ R). Qed.
Lemma update_total s t u s' : update s t u = Ok s' -> total s' = total s.
Proof. intro H. destruct (update_shape _ _ _ _ H) as (c & _ & _ & ->). reflexivity. Qed.

Lemma effect_total e o s f : total (apply_effect e o s f) = total s.
Proof.
  destruct (effect_cases e o s f) as [->|[(a & b & x & _ & _ & S)|[(id & _ & C)|(u & _ & U)]]];
    [reflexivity|apply (send_total _ _ _ _ _ S)|apply (cancel_total _ _ _ _ _ _ C)|apply (update_total _ _ _ _ U)].
Qed.

Lemma end_block_total fuel s e s' : end_block fuel s e = Ok s' -> total s' = total s.
Proof.
  intro H. apply (pr_end_block e (fun x => total x = total s) (fun _ => True)) with (fuel := fuel) (s := s); auto.
  - intros s0 c x s1 A _ S. rewrite <- A. apply (send_total _ _ _ _ _ S).
  - intros s0 c x s1 A _ S. rewrite <- A. apply (send_total _ _ _ _ _ S).
  - intros s0 id o s1 A R. rewrite <- A. apply (remove_total _ _ _ _ _ R).
  - intros s0 o f A. rewrite <- A. apply effect_total.
Qed.

(* ---- creating --------------------------------------------------------- *)

(* What a successful creation is: the record, and the deposit (or nothing, for a
   deposit that is not positive). *)
Lemma cron_in_ok s c o x s' : decode (c_owner c) = Some o -> 0 <= money s o -> cron_in s c x = Ok s' ->
  0 < money s o /\ send s o (c_wallet c) x = Ok s' \/ money s o = 0 /\ s' = s.
Proof.
  unfold cron_in. intros D N. rewrite D. fold (money s o).
  replace (money s o <? 0) with false by (symmetry; apply Z.ltb_ge; lia). cbn [andb].
  destruct (Z.ltb_spec 0 (money s o)); [intro; left; auto|]. intro H1. injection H1 as <-. right. split; [lia|reflexivity].
Qed.

Definition new_cron (e : env) (m : create_msg) (id : Z) (cb : bool) : cron :=
  if cb then mk_cron id (Wallet id) (m_owner m) (m_call m) [] 0 (u64 (e_height e)) (m_exp m) (m_gas m) (m_price m) 0 0 0 true
  else mk_cron id (Wallet id) (m_owner m) (m_call m) (m_params m) (m_freq m) (u64 (e_height e + m_freq m)) (m_exp m) (m_gas m) (m_price m) 0 0 0 false.

Definition create_any (cb : bool) := if cb then create_cb else create.

Lemma create_shape cb s e m s' id : create_any cb s e m = Ok (s', id) ->
  exists o x s2,
    id = s_next s /\ get_cron s id = None /\ m_sender m = m_owner m /\ decode (m_owner m) = Some o /\
    m_amount m = Some x /\ 0 <= money s o /\ x <= money s o /\
    cron_in (set_next s (s_next s + 1)) (new_cron e m id cb) x = Ok s2 /\
    s' = add_cron s2 (e_height e) (new_cron e m id cb) /\
    (cb = false -> m_freq m <> 0 /\ (m_exp m = 0 \/ m_freq m < m_exp m) /\
                   exists p, m_price m = Some p /\ p * i64 (m_gas m) < x).
Proof.
  destruct cb; cbn [create_any]; [unfold create_cb|unfold create].
  - destruct (decode (m_owner m)) as [o|] eqn:D; [|discriminate]. destruct (negb (m_texts_ok m)); [discriminate|].
    destruct (atext_eqb_spec (m_owner m) (m_sender m)) as [E|E]; cbn [negb]; [|discriminate].
    unfold next_id. cbn [get_cron set_next s_crons s_next s_bal]. change (get_cron (set_next s (s_next s + 1)) (s_next s)) with (get_cron s (s_next s)).
    destruct (get_cron s (s_next s)) eqn:G; [discriminate|]. destruct (m_amount m) as [x|] eqn:A; [|discriminate].
    fold (money s o). destruct (Z.ltb_spec (money s o) 0); [discriminate|]. destruct (Z.ltb_spec (money s o) x); [discriminate|].
    cbn [orb]. destruct (cron_in _ _ x) as [s2| |] eqn:C; [|discriminate|discriminate]. intro H1. apply (f_equal (fun r => match r with Ok p => Some p | _ => None end)) in H1.
    injection H1 as H1 H2. exists o, x, s2. subst id. do 7 (split; [first [assumption|reflexivity|lia|congruence]|]).
    split; [exact C|]. split; [symmetry; exact H1|discriminate].
  - destruct (decode (m_owner m)) as [o|] eqn:D; [|discriminate]. destruct (negb (m_texts_ok m)); [discriminate|].
    destruct (Z.eqb_spec (m_freq m) 0) as [F|F]; [discriminate|].
    destruct (negb (m_exp m =? 0) && (m_exp m <=? m_freq m)) eqn:X; [discriminate|].
    destruct (atext_eqb_spec (m_owner m) (m_sender m)) as [E|E]; cbn [negb]; [|discriminate].
    unfold next_id. change (get_cron (set_next s (s_next s + 1)) (s_next s)) with (get_cron s (s_next s)).
    destruct (get_cron s (s_next s)) eqn:G; [discriminate|]. destruct (m_amount m) as [x|] eqn:A; [|discriminate].
    destruct (e_code e (m_call m)) as [[|]|]; [|discriminate|discriminate].
    cbn [set_next s_bal]. fold (money s o).
    destruct (Z.ltb_spec (money s o) 0); [discriminate|]. destruct (Z.ltb_spec (money s o) x); [discriminate|].
    cbn [orb]. destruct (m_price m) as [p|] eqn:PR; [|discriminate].
    intro H1. apply rbind_ok in H1. destruct H1 as (fee & I & H1). unfold imul in I. destruct (_ <? 2 ^ 256); [|discriminate]. injection I as <-.
    destruct (Z.leb_spec x (p * i64 (m_gas m))); [discriminate|].
    destruct (cron_in _ _ x) as [s2| |] eqn:C; [|discriminate|discriminate].
    apply (f_equal (fun r => match r with Ok p => Some p | _ => None end)) in H1.
    injection H1 as H1 H3. exists o, x, s2. subst id. do 7 (split; [first [assumption|reflexivity|lia|congruence]|]).
    unfold new_cron. rewrite PR. split; [exact C|]. split; [symmetry; exact H1|]. intros _. split; [exact F|]. split; [|exists p; split; [reflexivity|lia]].
    apply andb_false_iff in X. destruct X as [X|X]; [left; apply negb_false_iff, Z.eqb_eq in X; exact X|right; apply Z.leb_gt in X; lia].
Qed.

(* The balances after a creation. *)
Lemma create_money cb s e m s' id : create_any cb s e m = Ok (s', id) ->
  exists o x, decode (m_owner m) = Some o /\ m_amount m = Some x /\
    forall z, money s' z = money s z - (if addr_eqb o z then Z.max x 0 else 0) + (if addr_eqb (Wallet id) z then Z.max x 0 else 0).
Proof.
  intro H. destruct (create_shape _ _ _ _ _ _ H) as (o & x & s2 & I & G & SE & D & A & N & C & CI & E & _).
  exists o, x. split; [exact D|]. split; [exact A|]. intro z.
  assert (D' : decode (c_owner (new_cron e m id cb)) = Some o) by (destruct cb; exact D).
  assert (W : c_wallet (new_cron e m id cb) = Wallet id) by (destruct cb; reflexivity).
  assert (M : money s' z = money s2 z) by (rewrite E; reflexivity). rewrite M.
  destruct (cron_in_ok (set_next s (s_next s + 1)) _ _ _ _ D' N CI) as [[L S]|[L ->]].
  - rewrite (send_money _ _ _ _ _ S z), W. destruct (send_ok _ _ _ _ _ S) as [X _].
    change (money (set_next s (s_next s + 1)) z) with (money s z). rewrite Z.max_l by lia. reflexivity.
  - change (money (set_next s (s_next s + 1)) o) with (money s o) in L.
    change (money (set_next s (s_next s + 1)) z) with (money s z).
    rewrite Z.max_r by lia. destruct (addr_eqb o z), (addr_eqb (Wallet id) z); lia.
Qed.

Lemma create_total cb s e m s' id : create_any cb s e m = Ok (s', id) -> total s' = total s.
Proof.
  intro H. destruct (create_shape _ _ _ _ _ _ H) as (o & x & s2 & I & G & SE & D & A & N & C & CI & E & _).
  assert (D' : decode (c_owner (new_cron e m id cb)) = Some o) by (destruct cb; exact D).
  rewrite E. change (total (add_cron s2 (e_height e) (new_cron e m id cb))) with (total s2).
  destruct (cron_in_ok (set_next s (s_next s + 1)) _ _ _ _ D' N CI) as [[L S]|[L ->]]; [rewrite (send_total _ _ _ _ _ S)|]; reflexivity.
Qed.

(* Everything a creation leaves alone. *)
Lemma create_rest cb s e m s' id : create_any cb s e m = Ok (s', id) ->
  s_crons s' = zset (s_crons s) id (new_cron e m id cb) /\ s_arch s' = s_arch s /\ s_next s' = s_next s + 1 /\
  s_queue s' = s_queue s /\ s_nonce s' = s_nonce s /\ s_results s' = s_results s /\ s_data s' = s_data s /\
  s_count s' = s_count s + 1 /\ s_acount s' = s_acount s.
Proof.
  intro H. destruct (create_shape _ _ _ _ _ _ H) as (o & x & s2 & I & G & SE & D & A & N & C & CI & E & _).
  assert (D' : decode (c_owner (new_cron e m id cb)) = Some o) by (destruct cb; exact D).
  assert (J : c_id (new_cron e m id cb) = id) by (destruct cb; reflexivity).
  assert (R : s2 = set_bal (set_next s (s_next s + 1)) (s_bal s2)).
  { destruct (cron_in_ok (set_next s (s_next s + 1)) _ _ _ _ D' N CI) as [[L S]|[L ->]]; [apply (send_rest _ _ _ _ _ S)|reflexivity]. }
  rewrite E, R. unfold add_cron, store_cron. cbn. rewrite J. intuition.
Qed.

Lemma store_callback_shape s e id d s' : store_callback s e id d = Ok s' ->
  let s1 := set_data s (zset (s_data s) id d) in
  s' = s1 \/ exists c, get_cron s id = Some c /\ flagged (e_height e) c = false /\ append_queue s1 (e_time e) c = Ok s'.
Proof.
  cbn zeta. unfold store_callback. change (get_cron (set_data s (zset (s_data s) id d)) id) with (get_cron s id).
  destruct (get_cron s id) as [c|]; [|intro H; injection H as <-; left; reflexivity].
  destruct (flagged (e_height e) c) eqn:F; [intro H; injection H as <-; left; reflexivity|].
  intro H. right. exists c. auto.
Qed.

Lemma append_shape s t c s' : append_queue s t c = Ok s' -> exists k, queue_key c = Some k /\
  s' = store_cron (set_queue s (zset (s_queue s) k (ids_at (s_queue s) k ++ [(c_id c, t)]))) (with_queue c t).
Proof.
  unfold append_queue. destruct (queue_key c) as [k|]; [|discriminate]. intro H. injection H as <-. exists k. auto.
Qed.

Lemma store_callback_total s e id d s' : store_callback s e id d = Ok s' -> total s' = total s.
Proof.
  intro H. destruct (store_callback_shape _ _ _ _ _ H) as [->|(c & _ & _ & A)]; [reflexivity|].
  destruct (append_shape _ _ _ _ A) as (k & _ & ->). reflexivity.
Qed.

(* The cases of a step that changed something. *)
Lemma step_cases s e o s' : step s e o = Ok s' ->
  s' = s \/
  (exists m cb id s1, (o = OCreate m /\ cb = false /\ s' = s1 \/
                       o = OCreateCb m false /\ cb = true /\ s' = s1 \/
                       o = OCreateCb m true /\ cb = true /\ store_callback s1 e id [1000] = Ok s') /\
                      create_any cb s e m = Ok (s1, id)) \/
  (exists t u, o = OUpdate t u /\ update s t u = Ok s') \/
  (exists t w id, o = OCancel t w id /\ cancel s (e_height e) t w id = Ok s') \/
  (exists id d, o = OCallback id d /\ store_callback s e id d = Ok s') \/
  (exists a b x, o = OPay a b x /\ person a /\ send s a b x = Ok s') \/
  (exists fuel, o = OEndBlock fuel /\ end_block fuel s e = Ok s').
Proof.
  destruct o as [m|m now|t u|t w id|id d|a b x|fuel]; cbn.
  - intro H. injection H as <-. destruct (create s e m) as [[s1 id]| |] eqn:C; [|left; reflexivity|left; reflexivity].
    right. left. exists m, false, id, s1. auto.
  - intro H. destruct (create_cb s e m) as [[s1 id]| |] eqn:C; [|left; injection H as <-; reflexivity|left; injection H as <-; reflexivity].
    destruct now.
    + destruct (store_callback s1 e id [1000]) as [s2| |] eqn:K; cbn in H; injection H as <-; [|left; reflexivity|left; reflexivity].
      right. left. exists m, true, id, s1. split; [right; right; auto|exact C].
    + injection H as <-. right. left. exists m, true, id, s1. split; [right; left; auto|exact C].
  - intro H. injection H as <-. destruct (update s t u) as [s1| |] eqn:C; cbn; [|left; reflexivity|left; reflexivity].
    right. right. left. exists t, u. auto.
  - intro H. injection H as <-. destruct (cancel _ _ t w id) as [s1| |] eqn:C; cbn; [|left; reflexivity|left; reflexivity].
    right. right. right. left. exists t, w, id. auto.
  - intro H. right. right. right. right. left. exists id, d. auto.
  - destruct a as [n|i|]; intro H; injection H as <-; [|left; reflexivity|].
    + destruct (send s (Acct n) b x) as [s1| |] eqn:C; cbn; [|left; reflexivity|left; reflexivity].
      do 5 right. left. exists (Acct n), b, x. split; [reflexivity|split; [exact I|exact C]].
    + destruct (send s Collector b x) as [s1| |] eqn:C; cbn; [|left; reflexivity|left; reflexivity].
      do 5 right. left. exists Collector, b, x. split; [reflexivity|split; [exact I|exact C]].
  - intro H. do 6 right. exists fuel. auto.
Qed.

Lemma step_total s e o s' : step s e o = Ok s' -> total s' = total s.
Proof.
  intro H. destruct (step_cases _ _ _ _ H) as [->|[(m & cb & id & s1 & W & C)|[(t & u & _ & U)|[(t & w & id & _ & C)|[(id & d & _ & K)|[(a & b & x & _ & _ & S)|(fuel & _ & E)]]]]]].
  - reflexivity.
  - pose proof (create_total _ _ _ _ _ _ C) as T. destruct W as [(_ & _ & ->)|[(_ & _ & ->)|(_ & _ & K)]]; [exact T|exact T|].
    rewrite (store_callback_total _ _ _ _ _ K). exact T.
  - apply (update_total _ _ _ _ U).
  - apply (cancel_total _ _ _ _ _ _ C).
  - apply (store_callback_total _ _ _ _ _ K).
  - apply (send_total _ _ _ _ _ S).
  - apply (end_block_total _ _ _ _ E).
Qed.

Lemma run_ind (R : st -> Prop) l : (forall s e o s', In (e, o) l -> R s -> step s e o = Ok s' -> R s') ->
  forall s s', R s -> run s l = Ok s' -> R s'.
Proof.
  induction l as [|[e o] l IH]; intros F s s' HR; cbn; [intro H; injection H as <-; exact HR|].
  intro H. apply rbind_ok in H. destruct H as (s1 & H1 & H2).
  eapply IH; [|eapply F; [left; reflexivity|exact HR|exact H1]|exact H2]. intros s0 e0 o0 s0' I. apply F. right. exact I.
Qed.

Lemma run_total l s s' : run s l = Ok s' -> total s' = total s.
Proof.
  intro H. apply (run_ind (fun x => total x = total s) l) with (s := s); [|reflexivity|exact H].
  intros s0 e o s1 _ E S. rewrite <- E. apply (step_total _ _ _ _ S).
Qed.

(* ---- balances never negative ------------------------------------------ *)


Lemma send_solvent s a b x s' : solvent s -> send s a b x = Ok s' -> solvent s'.
Proof.
  intros N S z. rewrite (send_money _ _ _ _ _ S z). destruct (send_ok _ _ _ _ _ S) as (X & C & _).
  pose proof (N z) as NZ. pose proof (N a) as NA. destruct (addr_eqb_spec a z) as [E|E]; [rewrite E in *|]; destruct (addr_eqb b z); lia.
Qed.

Lemma remove_solvent s h id o s' : solvent s -> remove_cron s h id o = Ok s' -> solvent s'.
Proof.
  intros N H. destruct (remove_cron_facts _ _ _ _ _ H) as (c & _ & _ & [[B _]|(s1 & _ & S & B)] & _);
    intro z; unfold money; rewrite B; [apply N|apply (send_solvent _ _ _ _ _ N S)].
Qed.

Lemma effect_solvent e o s f : solvent s -> solvent (apply_effect e o s f).
Proof.
  intro N. destruct (effect_cases e o s f) as [->|[(a & b & x & _ & _ & S)|[(id & _ & C)|(u & _ & U)]]].
  - exact N.
  - apply (send_solvent _ _ _ _ _ N S).
  - destruct (cancel_shape _ _ _ _ _ _ C) as (c & w & _ & _ & _ & R). apply (remove_solvent _ _ _ _ _ N R).
  - destruct (update_shape _ _ _ _ U) as (c & _ & _ & ->). exact N.
Qed.

Lemma step_solvent s e o s' : solvent s -> step s e o = Ok s' -> solvent s'.
Proof.
  intros N H. destruct (step_cases _ _ _ _ H) as [->|[(m & cb & id & s1 & W & C)|[(t & u & _ & U)|[(t & w & id & _ & C)|[(id & d & _ & K)|[(a & b & x & _ & _ & S)|(fuel & _ & E)]]]]]].
  - exact N.
  - assert (T : solvent s1).
    { destruct (create_money _ _ _ _ _ _ C) as (o1 & x & D & A & M). intro z. rewrite M.
      destruct (create_shape _ _ _ _ _ _ C) as (o2 & x2 & s2 & _ & _ & _ & D2 & A2 & N2 & C2 & _).
      replace o2 with o1 in * by congruence. replace x2 with x in * by congruence.
      pose proof (N z). destruct (addr_eqb_spec o1 z) as [EE|EE]; [rewrite EE in *|]; destruct (addr_eqb (Wallet id) z); lia. }
    assert (KK : forall s2, store_callback s1 e id [1000] = Ok s2 -> solvent s2).
    { intros s2 K. destruct (store_callback_shape _ _ _ _ _ K) as [->|(c & _ & _ & A)]; [exact T|].
      destruct (append_shape _ _ _ _ A) as (k & _ & ->). exact T. }
    destruct W as [(_ & _ & ->)|[(_ & _ & ->)|(_ & _ & K)]]; [exact T|exact T|apply KK, K].
  - destruct (update_shape _ _ _ _ U) as (c & _ & _ & ->). exact N.
  - destruct (cancel_shape _ _ _ _ _ _ C) as (c & o1 & _ & _ & _ & R). apply (remove_solvent _ _ _ _ _ N R).
  - destruct (store_callback_shape _ _ _ _ _ K) as [->|(c & _ & _ & A)]; [exact N|].
    destruct (append_shape _ _ _ _ A) as (k & _ & ->). exact N.
  - apply (send_solvent _ _ _ _ _ N S).
  - apply (pr_end_block e solvent (fun _ => True)) with (fuel := fuel) (s := s); auto.
    + intros s0 c x s1 A _ S. apply (send_solvent _ _ _ _ _ A S).
    + intros s0 c x s1 A _ S. apply (send_solvent _ _ _ _ _ A S).
    + intros s0 id o1 s1 A R. apply (remove_solvent _ _ _ _ _ A R).
    + intros s0 o1 f A. apply effect_solvent, A.
Qed.

(* ---- well-formed states ----------------------------------------------- *)

Definition ok_cron (c : cron) : Prop :=
  c_wallet c = Wallet (c_id c) /\ exists o, decode (c_owner c) = Some o /\ person o.

Definition wf (s : st) : Prop :=
  zsorted (s_crons s) /\ zsorted (s_arch s) /\ zsorted (s_queue s) /\ zsorted (s_results s) /\
  (forall id c, get_cron s id = Some c -> c_id c = id /\ ok_cron c /\ id < s_next s) /\
  (forall id c, zget (s_arch s) id = Some c -> c_id c = id /\ ok_cron c /\ id < s_next s) /\
  (forall n r, zget (s_results s) n = Some r -> n < s_nonce s).

Lemma init_wf : wf init.
Proof. unfold wf. cbn. do 4 (split; [apply zsorted_nil|]). split; [discriminate|]. split; discriminate. Qed.

Lemma set_bal_wf s b : wf (set_bal s b) <-> wf s.
Proof. unfold wf. cbn. tauto. Qed.

Lemma send_wf s a b x s' : wf s -> send s a b x = Ok s' -> wf s'.
Proof. intros W S. rewrite (send_rest _ _ _ _ _ S). apply set_bal_wf, W. Qed.

Lemma store_wf s c : wf s -> ok_cron c -> c_id c < s_next s -> wf (store_cron s c).
Proof.
  intros (A1 & A2 & A3 & A4 & A5 & A6 & A7) O L. unfold wf, store_cron. cbn.
  split; [apply zset_sorted, A1|]. do 3 (split; [assumption|]). split; [|split; assumption].
  intros id c'. unfold get_cron. cbn. rewrite zget_zset. destruct (Z.eqb_spec (c_id c) id) as [E|E].
  - intro H. injection H as <-. split; [exact E|]. split; [exact O|]. rewrite <- E. exact L.
  - apply A5.
Qed.

Lemma qset_wf s k l : wf s -> wf (set_queue s (zset (s_queue s) k l)).
Proof. intros (A1 & A2 & A3 & A4 & A5 & A6 & A7). unfold wf. cbn. do 2 (split; [assumption|]). split; [apply zset_sorted, A3|]. auto. Qed.
Lemma qdel_wf s k : wf s -> wf (set_queue s (zdel (s_queue s) k)).
Proof. intros (A1 & A2 & A3 & A4 & A5 & A6 & A7). unfold wf. cbn. do 2 (split; [assumption|]). split; [apply zdel_sorted, A3|]. auto. Qed.

Lemma record_wf s r : wf s -> wf (record s r).
Proof.
  intros (A1 & A2 & A3 & A4 & A5 & A6 & A7). unfold wf, record. cbn. do 3 (split; [assumption|]).
  split; [apply zset_sorted, A4|]. do 2 (split; [assumption|]). intros n r'. rewrite zget_zset.
  destruct (Z.eqb_spec (s_nonce s) n); [lia|]. intro H. specialize (A7 _ _ H). lia.
Qed.

Lemma ok_with_queue c x : ok_cron c -> ok_cron (with_queue c x).
Proof. exact (fun H => H). Qed.

(* After a removal: the task is gone, the others are as before. *)
Lemma remove_get s h id o s' : wf s -> remove_cron s h id o = Ok s' ->
  get_cron s' id = None /\ forall j, j <> id -> get_cron s' j = get_cron s j.
Proof.
  intros W H. destruct (remove_cron_facts _ _ _ _ _ H) as (c & G & _ & _ & CC & _).
  destruct W as (A1 & _ & _ & _ & A5 & _). destruct (A5 _ _ G) as (I & _). rewrite I in CC.
  assert (S2 : zsorted (zset (s_crons s) id (with_queue c (-1)))) by (apply zset_sorted, A1).
  unfold get_cron. split; [|intros j N]; destruct CC as [->| ->]; rewrite zget_zdel by assumption.
  - rewrite Z.eqb_refl. reflexivity.
  - rewrite Z.eqb_refl. reflexivity.
  - destruct (Z.eqb_spec id j); [congruence|reflexivity].
  - destruct (Z.eqb_spec id j); [congruence|]. apply zget_zset_other. congruence.
Qed.

Lemma remove_wf s h id o s' : wf s -> remove_cron s h id o = Ok s' -> wf s'.
Proof.
  intros W H. pose proof (remove_get _ _ _ _ _ W H) as (R1 & R2).
  destruct (remove_cron_facts _ _ _ _ _ H) as (c & G & _ & _ & CC & AR & NX & NO & RE & _ & _ & _ & _ & QQ).
  destruct W as (A1 & A2 & A3 & A4 & A5 & A6 & A7). destruct (A5 _ _ G) as (I & O & L).
  unfold wf. split; [|split; [|split; [|split; [|split; [|split]]]]].
  - destruct CC as [->| ->]; apply zdel_sorted; [exact A1|apply zset_sorted, A1].
  - rewrite AR. apply zset_sorted, A2.
  - destruct QQ as [->|(k & [->|(l & ->)])]; [exact A3|apply zdel_sorted, A3|apply zset_sorted, A3].
  - rewrite RE. exact A4.
  - intros j c'. destruct (Z.eq_dec j id) as [->|N]; [rewrite R1; discriminate|]. rewrite R2 by exact N. rewrite NX. apply A5.
  - intros j c'. rewrite AR, zget_zset. rewrite NX. destruct (Z.eqb_spec id j) as [E|E]; [|apply A6].
    intro X. injection X as <-. rewrite <- E. auto.
  - rewrite RE, NO. exact A7.
Qed.

Lemma update_wf s t u s' : wf s -> update s t u = Ok s' -> wf s'.
Proof.
  intros W H. destruct (update_shape _ _ _ _ H) as (c & G & _ & ->). destruct (proj1 (proj2 (proj2 (proj2 (proj2 W)))) _ _ G) as (I & O & L).
  apply store_wf; [exact W|exact O|cbn; lia].
Qed.

Lemma cancel_wf s h t w id s' : wf s -> cancel s h t w id = Ok s' -> wf s'.
Proof. intros W H. destruct (cancel_shape _ _ _ _ _ _ H) as (c & o & _ & _ & _ & R). apply (remove_wf _ _ _ _ _ W R). Qed.

Lemma effect_wf e o s f : wf s -> wf (apply_effect e o s f).
Proof.
  intro W. destruct (effect_cases e o s f) as [->|[(a & b & x & _ & _ & S)|[(id & _ & C)|(u & _ & U)]]].
  - exact W.
  - apply (send_wf _ _ _ _ _ W S).
  - apply (cancel_wf _ _ _ _ _ _ W C).
  - apply (update_wf _ _ _ _ W U).
Qed.

Lemma effect_next e o s f : s_next (apply_effect e o s f) = s_next s.
Proof.
  destruct (effect_cases e o s f) as [->|[(a & b & x & _ & _ & S)|[(id & _ & C)|(u & _ & U)]]].
  - reflexivity.
  - rewrite (send_rest _ _ _ _ _ S). reflexivity.
  - destruct (cancel_shape _ _ _ _ _ _ C) as (c & w & _ & _ & _ & R). destruct (remove_cron_facts _ _ _ _ _ R) as (c' & F). apply F.
  - destruct (update_shape _ _ _ _ U) as (c & _ & _ & ->). reflexivity.
Qed.

Lemma append_wf s t c s' : wf s -> get_cron s (c_id c) = Some c -> append_queue s t c = Ok s' -> wf s'.
Proof.
  intros W G A. destruct (append_shape _ _ _ _ A) as (k & _ & ->).
  destruct (proj1 (proj2 (proj2 (proj2 (proj2 W)))) _ _ G) as (I & O & L).
  apply store_wf; [apply qset_wf, W|exact O|exact L].
Qed.

Lemma data_wf s d : wf s -> wf (set_data s d).
Proof. exact (fun H => H). Qed.

Lemma store_callback_wf s e id d s' : wf s -> store_callback s e id d = Ok s' -> wf s'.
Proof.
  intros W K. destruct (store_callback_shape _ _ _ _ _ K) as [->|(c & G & _ & A)]; [apply data_wf, W|].
  destruct (proj1 (proj2 (proj2 (proj2 (proj2 W)))) _ _ G) as (I & _).
  eapply append_wf; [apply data_wf, W| |exact A]. change (get_cron s (c_id c) = Some c). rewrite I. exact G.
Qed.

Lemma create_wf cb s e m s' id : wf s -> (exists a, signed_by (m_sender m) a) -> create_any cb s e m = Ok (s', id) -> wf s'.
Proof.
  intros W SG C. destruct (create_rest _ _ _ _ _ _ C) as (B1 & B2 & B3 & B4 & B5 & B6 & _).
  destruct (create_shape _ _ _ _ _ _ C) as (o & x & s2 & I & G & SE & D & _).
  destruct W as (A1 & A2 & A3 & A4 & A5 & A6 & A7). unfold wf, get_cron. rewrite B1, B2, B3, B4, B5, B6.
  split; [apply zset_sorted, A1|]. do 3 (split; [assumption|]). split; [|split; [|exact A7]].
  - intros j c. rewrite zget_zset. destruct (Z.eqb_spec id j) as [E|E].
    + intro H. injection H as <-. split; [destruct cb; exact E|]. split; [|lia].
      destruct SG as (a & SD & SP). split; [destruct cb; reflexivity|]. exists a.
      split; [|exact SP]. rewrite SE in SD. destruct cb; exact SD.
    + intro H. destruct (A5 _ _ H) as (X & Y & Z). split; [exact X|]. split; [exact Y|lia].
  - intros j c H. destruct (A6 _ _ H) as (X & Y & Z). split; [exact X|]. split; [exact Y|lia].
Qed.

Lemma zvals_get s c : wf s -> In c (zvals (s_crons s)) -> get_cron s (c_id c) = Some c.
Proof.
  intros W I. unfold zvals in I. apply in_map_iff in I. destruct I as ([id c'] & E & I). cbn in E. rewrite E in I. clear c' E.
  pose proof (in_zget _ _ _ (proj1 W) I) as G. destruct (proj1 (proj2 (proj2 (proj2 (proj2 W)))) _ _ G) as (J & _).
  rewrite J. exact G.
Qed.

(* The principle again, with well-formedness built in. *)
Lemma end_block_keeps (e : env) (N : Z) (R : st -> Prop) (Q : cron -> Prop) fuel s s' :
  (forall s id c, wf s -> s_next s = N -> R s -> get_cron s id = Some c -> Q c) ->
  (forall c x, Q c -> Q (with_queue c x)) -> (forall c x, Q c -> Q (with_fees c x)) ->
  (forall c p x, Q c -> Q (with_callback c p x)) -> (forall c x, Q c -> Q (with_run c x)) ->
  (forall s c x s', wf s -> R s -> ok_cron c -> Q c -> send s (c_wallet c) Collector x = Ok s' -> R s') ->
  (forall s c x s', wf s -> R s -> ok_cron c -> Q c -> send s Collector (c_wallet c) x = Ok s' -> R s') ->
  (forall s c, wf s -> R s -> ok_cron c -> Q c -> c_id c < N -> R (store_cron s c)) ->
  (forall s q, wf s -> R s -> R (set_queue s q)) ->
  (forall s id o s', wf s -> R s -> remove_cron s (e_height e) id o = Ok s' -> R s') ->
  (forall s r, wf s -> R s -> R (record s r)) ->
  (forall s o f, wf s -> R s -> R (apply_effect e o s f)) ->
  wf s -> s_next s = N -> R s -> end_block fuel s e = Ok s' -> wf s' /\ s_next s' = N /\ R s'.
Proof.
  intros H1 H2 H3 H4 H5 H6 H7 H8 H9 H10 H11 H12 W NX HR E.
  apply (pr_end_block e (fun s => wf s /\ s_next s = N /\ R s) (fun c => ok_cron c /\ c_id c < N /\ Q c)) with (fuel := fuel) (s := s).
  - intros s0 id c (W0 & N0 & R0) G. destruct (proj1 (proj2 (proj2 (proj2 (proj2 W0)))) _ _ G) as (I & O & L).
    split; [exact O|]. split; [lia|]. apply (H1 s0 id c W0 N0 R0 G).
  - intros s0 c (W0 & N0 & R0) I. pose proof (zvals_get _ _ W0 I) as G.
    destruct (proj1 (proj2 (proj2 (proj2 (proj2 W0)))) _ _ G) as (_ & O & L).
    split; [exact O|]. split; [lia|]. apply (H1 s0 _ c W0 N0 R0 G).
  - intros c x (O & L & q). split; [exact O|]. split; [exact L|apply H2, q].
  - intros c x (O & L & q). split; [exact O|]. split; [exact L|apply H3, q].
  - intros c p x (O & L & q). split; [exact O|]. split; [exact L|apply H4, q].
  - intros c x (O & L & q). split; [exact O|]. split; [exact L|apply H5, q].
  - intros s0 c x s1 (W0 & N0 & R0) (O & L & q) S. split; [apply (send_wf _ _ _ _ _ W0 S)|]. split; [rewrite (send_rest _ _ _ _ _ S); exact N0|].
    apply (H6 _ _ _ _ W0 R0 O q S).
  - intros s0 c x s1 (W0 & N0 & R0) (O & L & q) S. split; [apply (send_wf _ _ _ _ _ W0 S)|]. split; [rewrite (send_rest _ _ _ _ _ S); exact N0|].
    apply (H7 _ _ _ _ W0 R0 O q S).
  - intros s0 c (W0 & N0 & R0) (O & L & q). split; [apply store_wf; [exact W0|exact O|lia]|]. split; [exact N0|apply H8; assumption].
  - intros s0 k l (W0 & N0 & R0). split; [apply qset_wf, W0|]. split; [exact N0|apply H9; assumption].
  - intros s0 k (W0 & N0 & R0). split; [apply qdel_wf, W0|]. split; [exact N0|apply H9; assumption].
  - intros s0 id o s1 (W0 & N0 & R0) X. split; [apply (remove_wf _ _ _ _ _ W0 X)|]. split; [|apply (H10 _ _ _ _ W0 R0 X)].
    destruct (remove_cron_facts _ _ _ _ _ X) as (c' & F). rewrite <- N0. apply F.
  - intros s0 r (W0 & N0 & R0). split; [apply record_wf, W0|]. split; [exact N0|apply H11; assumption].
  - intros s0 o f (W0 & N0 & R0). split; [apply effect_wf, W0|]. split; [rewrite effect_next; exact N0|apply H12; assumption].
  - auto.
  - exact E.
Qed.

Lemma end_block_wf fuel s e s' : wf s -> end_block fuel s e = Ok s' -> wf s' /\ s_next s' = s_next s.
Proof.
  intros W E. destruct (end_block_keeps e (s_next s) (fun _ => True) (fun _ => True) fuel s s') as (A & B & _); auto.
Qed.

Lemma step_wf s e o s' : op_signed o -> wf s -> step s e o = Ok s' -> wf s'.
Proof.
  intros SG W H. destruct (step_cases _ _ _ _ H) as [->|[(m & cb & id & s1 & V & C)|[(t & u & _ & U)|[(t & w & id & _ & C)|[(id & d & _ & K)|[(a & b & x & _ & _ & S)|(fuel & _ & E)]]]]]].
  - exact W.
  - assert (SM : exists a, signed_by (m_sender m) a) by (destruct V as [(-> & _)|[(-> & _)|(-> & _)]]; exact SG).
    pose proof (create_wf _ _ _ _ _ _ W SM C) as T. destruct V as [(_ & _ & ->)|[(_ & _ & ->)|(_ & _ & K)]]; [exact T|exact T|].
    apply (store_callback_wf _ _ _ _ _ T K).
  - apply (update_wf _ _ _ _ W U).
  - apply (cancel_wf _ _ _ _ _ _ W C).
  - apply (store_callback_wf _ _ _ _ _ W K).
  - apply (send_wf _ _ _ _ _ W S).
  - apply (end_block_wf _ _ _ _ W E).
Qed.

Lemma step_next s e o s' : wf s -> step s e o = Ok s' -> s_next s <= s_next s'.
Proof.
  intros W H. destruct (step_cases _ _ _ _ H) as [->|[(m & cb & id & s1 & V & C)|[(t & u & _ & U)|[(t & w & id & _ & C)|[(id & d & _ & K)|[(a & b & x & _ & _ & S)|(fuel & _ & E)]]]]]].
  - lia.
  - destruct (create_rest _ _ _ _ _ _ C) as (_ & _ & B3 & _). destruct V as [(_ & _ & ->)|[(_ & _ & ->)|(_ & _ & K)]]; [lia|lia|].
    destruct (store_callback_shape _ _ _ _ _ K) as [->|(c & _ & _ & A)]; [cbn; lia|].
    destruct (append_shape _ _ _ _ A) as (k & _ & ->). cbn. lia.
  - destruct (update_shape _ _ _ _ U) as (c & _ & _ & ->). cbn. lia.
  - destruct (cancel_shape _ _ _ _ _ _ C) as (c & w' & _ & _ & _ & R). destruct (remove_cron_facts _ _ _ _ _ R) as (c' & F).
    assert (X : s_next s' = s_next s) by apply F. lia.
  - destruct (store_callback_shape _ _ _ _ _ K) as [->|(c & _ & _ & A)]; [cbn; lia|].
    destruct (append_shape _ _ _ _ A) as (k & _ & ->). cbn. lia.
  - rewrite (send_rest _ _ _ _ _ S). cbn. lia.
  - pose proof (proj2 (end_block_wf _ _ _ _ W E)). lia.
Qed.

(* ---- what a task is never changes -------------------------------------- *)

Lemma wf_live s id c : wf s -> get_cron s id = Some c -> c_id c = id /\ ok_cron c /\ id < s_next s.
Proof. intros W. apply (proj1 (proj2 (proj2 (proj2 (proj2 W))))). Qed.
Lemma wf_arch s id c : wf s -> zget (s_arch s) id = Some c -> c_id c = id /\ ok_cron c /\ id < s_next s.
Proof. intros W. apply (proj1 (proj2 (proj2 (proj2 (proj2 (proj2 W)))))). Qed.

Lemma get_store s c j : get_cron (store_cron s c) j = if c_id c =? j then Some c else get_cron s j.
Proof. unfold get_cron, store_cron. cbn. apply zget_zset. Qed.

Definition named (F : Z -> option (atext * addr * Z * bool)) (s : st) : Prop :=
  (forall id c, get_cron s id = Some c -> F id = Some (ident c)) /\
  (forall id c, zget (s_arch s) id = Some c -> F id = Some (ident c)) /\
  (forall id, F id <> None -> any_cron s id <> None).

Lemma named_same F s s' : s_crons s' = s_crons s -> s_arch s' = s_arch s -> named F s -> named F s'.
Proof. unfold named, any_cron, get_cron. intros -> ->. auto. Qed.

Lemma named_store F s c : named F s -> F (c_id c) = Some (ident c) -> named F (store_cron s c).
Proof.
  intros (A & B & C) E. split; [|split].
  - intros id c'. rewrite get_store. destruct (Z.eqb_spec (c_id c) id) as [<-|N]; [|apply A]. intro H. injection H as <-. exact E.
  - exact B.
  - intros id X. unfold any_cron. rewrite get_store. destruct (c_id c =? id); [discriminate|]. apply C, X.
Qed.

Lemma named_remove F s h id o s' : wf s -> named F s -> remove_cron s h id o = Ok s' -> named F s'.
Proof.
  intros W (A & B & C) R. destruct (remove_get _ _ _ _ _ W R) as (R1 & R2).
  destruct (remove_cron_facts _ _ _ _ _ R) as (c & G & _ & _ & _ & AR & _). split; [|split].
  - intros j c'. destruct (Z.eq_dec j id) as [->|N]; [rewrite R1; discriminate|]. rewrite R2 by exact N. apply A.
  - intros j c'. rewrite AR, zget_zset. destruct (Z.eqb_spec id j) as [<-|N]; [|apply B]. intro H. injection H as <-. apply A, G.
  - intros j X. unfold any_cron. rewrite AR, zget_zset. destruct (Z.eqb_spec id j) as [<-|N]; [rewrite R1; discriminate|].
    rewrite R2 by congruence. apply C, X.
Qed.

Lemma named_update F s t u s' : wf s -> named F s -> update s t u = Ok s' -> named F s'.
Proof.
  intros W Nm H. destruct (update_shape _ _ _ _ H) as (c & G & _ & ->). apply named_store; [exact Nm|].
  destruct (wf_live _ _ _ W G) as (I & _). cbn. rewrite I. apply (proj1 Nm _ _ G).
Qed.

Lemma named_effect F e o s f : wf s -> named F s -> named F (apply_effect e o s f).
Proof.
  intros W Nm. destruct (effect_cases e o s f) as [->|[(a & b & x & _ & _ & S)|[(id & _ & C)|(u & _ & U)]]].
  - exact Nm.
  - rewrite (send_rest _ _ _ _ _ S). exact Nm.
  - destruct (cancel_shape _ _ _ _ _ _ C) as (c & w & _ & _ & _ & R). apply (named_remove _ _ _ _ _ _ W Nm R).
  - apply (named_update _ _ _ _ _ W Nm U).
Qed.

Lemma named_end_block F fuel s e s' : wf s -> named F s -> end_block fuel s e = Ok s' -> named F s'.
Proof.
  intros W Nm E. apply (end_block_keeps e (s_next s) (named F) (fun c => F (c_id c) = Some (ident c)) fuel s s'); auto.
  - intros s0 id c W0 _ N0 G. destruct (wf_live _ _ _ W0 G) as (I & _). rewrite I. apply (proj1 N0 _ _ G).
  - intros s0 c x s1 _ N0 _ _ S. rewrite (send_rest _ _ _ _ _ S). exact N0.
  - intros s0 c x s1 _ N0 _ _ S. rewrite (send_rest _ _ _ _ _ S). exact N0.
  - intros s0 c _ N0 _ q _. apply named_store; assumption.
  - intros s0 id o s1 W0 N0 R. apply (named_remove _ _ _ _ _ _ W0 N0 R).
  - intros s0 o f W0 N0. apply named_effect; assumption.
Qed.

Lemma named_append F s t c s' : wf s -> named F s -> get_cron s (c_id c) = Some c -> append_queue s t c = Ok s' -> named F s'.
Proof.
  intros W Nm G A. destruct (append_shape _ _ _ _ A) as (k & _ & ->). apply named_store; [exact Nm|]. apply (proj1 Nm _ _ G).
Qed.

Lemma named_callback F s e id d s' : wf s -> named F s -> store_callback s e id d = Ok s' -> named F s'.
Proof.
  intros W Nm K. destruct (store_callback_shape _ _ _ _ _ K) as [->|(c & G & _ & A)]; [exact Nm|].
  destruct (wf_live _ _ _ W G) as (I & _).
  eapply named_append; [apply data_wf, W|exact Nm| |exact A]. change (get_cron s (c_id c) = Some c). rewrite I. exact G.
Qed.

Lemma named_step s e o s' F : op_signed o -> wf s -> named F s -> step s e o = Ok s' ->
  exists F', named F' s' /\ forall id, id < s_next s -> F' id = F id.
Proof.
  intros SG W Nm H. destruct (step_cases _ _ _ _ H) as [->|[(m & cb & id & s1 & V & C)|[(t & u & _ & U)|[(t & w & id & _ & C)|[(id & d & _ & K)|[(a & b & x & _ & _ & S)|(fuel & _ & E)]]]]]].
  - exists F. auto.
  - assert (SM : exists a, signed_by (m_sender m) a) by (destruct V as [(-> & _)|[(-> & _)|(-> & _)]]; exact SG).
    pose proof (create_wf _ _ _ _ _ _ W SM C) as W1. destruct (create_rest _ _ _ _ _ _ C) as (B1 & B2 & _).
    destruct (create_shape _ _ _ _ _ _ C) as (o1 & x & s2 & I & _).
    exists (fun j => if j =? id then Some (ident (new_cron e m id cb)) else F j).
    assert (N1 : named (fun j => if j =? id then Some (ident (new_cron e m id cb)) else F j) s1).
    { destruct Nm as (A1 & A2 & A3). unfold named, any_cron, get_cron. rewrite B1, B2. split; [|split].
      - intros j c. rewrite zget_zset, (Z.eqb_sym j id). destruct (id =? j); [intro X; injection X as <-; reflexivity|apply A1].
      - intros j c X. destruct (wf_arch _ _ _ W X) as (_ & _ & L). destruct (Z.eqb_spec j id); [lia|apply A2, X].
      - intros j X. rewrite zget_zset, (Z.eqb_sym id j). destruct (j =? id); [discriminate|apply A3, X]. }
    split; [|intros j L; destruct (Z.eqb_spec j id); [lia|reflexivity]].
    destruct V as [(_ & _ & ->)|[(_ & _ & ->)|(_ & _ & K)]]; [exact N1|exact N1|apply (named_callback _ _ _ _ _ _ W1 N1 K)].
  - exists F. split; [apply (named_update _ _ _ _ _ W Nm U)|reflexivity].
  - exists F. destruct (cancel_shape _ _ _ _ _ _ C) as (c & o1 & _ & _ & _ & R). split; [apply (named_remove _ _ _ _ _ _ W Nm R)|reflexivity].
  - exists F. split; [apply (named_callback _ _ _ _ _ _ W Nm K)|reflexivity].
  - exists F. rewrite (send_rest _ _ _ _ _ S). split; [exact Nm|reflexivity].
  - exists F. split; [apply (named_end_block _ _ _ _ _ W Nm E)|reflexivity].
Qed.

Lemma run_wf l : forall s s', all_signed l -> wf s -> run s l = Ok s' -> wf s' /\ s_next s <= s_next s'.
Proof.
  induction l as [|[e o] l IH]; intros s s' SG W; cbn; [intro H; injection H as <-; split; [exact W|lia]|].
  intro H. apply rbind_ok in H. destruct H as (s1 & H1 & H2).
  pose proof (step_wf _ _ _ _ (Forall_inv SG) W H1) as W1. pose proof (step_next _ _ _ _ W H1).
  destruct (IH _ _ (Forall_inv_tail SG) W1 H2). split; [assumption|lia].
Qed.

Lemma named_run l : forall s s' F, all_signed l -> wf s -> named F s -> run s l = Ok s' ->
  exists F', named F' s' /\ forall id, id < s_next s -> F' id = F id.
Proof.
  induction l as [|[e o] l IH]; intros s s' F SG W Nm; cbn; [intro H; injection H as <-; exists F; auto|].
  intro H. apply rbind_ok in H. destruct H as (s1 & H1 & H2).
  pose proof (step_wf _ _ _ _ (Forall_inv SG) W H1) as W1. pose proof (step_next _ _ _ _ W H1) as L1.
  destruct (named_step _ _ _ _ _ (Forall_inv SG) W Nm H1) as (F1 & N1 & E1).
  destruct (IH _ _ _ (Forall_inv_tail SG) W1 N1 H2) as (F2 & N2 & E2). exists F2. split; [exact N2|].
  intros id L. rewrite E2 by lia. apply E1, L.
Qed.

Lemma init_named : named (fun _ => None) init.
Proof. split; [|split]; cbn; try discriminate. intros id H. congruence. Qed.

Lemma named_any F s id c : named F s -> any_cron s id = Some c -> F id = Some (ident c).
Proof.
  intros (A & B & _). unfold any_cron. destruct (get_cron s id) eqn:G; [intro H; injection H as <-; apply A, G|apply B].
Qed.

(* ---- results ---------------------------------------------------------- *)

Definition kept (R0 : list (Z * result)) (n0 : Z) (s : st) : Prop :=
  n0 <= s_nonce s /\ (forall n, n < n0 -> zget (s_results s) n = zget R0 n) /\
  forall n, n0 <= n < s_nonce s -> zget (s_results s) n <> None.

Lemma kept_same R0 n0 s s' : s_nonce s' = s_nonce s -> s_results s' = s_results s -> kept R0 n0 s -> kept R0 n0 s'.
Proof. unfold kept. intros -> ->. auto. Qed.

Lemma kept_record R0 n0 s r : kept R0 n0 s -> kept R0 n0 (record s r).
Proof.
  intros (A & B & C). unfold kept, record. cbn. split; [lia|]. split.
  - intros n L. rewrite zget_zset. destruct (Z.eqb_spec (s_nonce s) n); [lia|apply B, L].
  - intros n L. rewrite zget_zset. destruct (Z.eqb_spec (s_nonce s) n); [discriminate|]. apply C. lia.
Qed.

Lemma remove_results s h id o s' : remove_cron s h id o = Ok s' -> s_nonce s' = s_nonce s /\ s_results s' = s_results s.
Proof. intro H. destruct (remove_cron_facts _ _ _ _ _ H) as (c & F). split; apply F. Qed.

Lemma kept_effect R0 n0 e o s f : kept R0 n0 s -> kept R0 n0 (apply_effect e o s f).
Proof.
  intro K. destruct (effect_cases e o s f) as [->|[(a & b & x & _ & _ & S)|[(id & _ & C)|(u & _ & U)]]].
  - exact K.
  - rewrite (send_rest _ _ _ _ _ S). exact K.
  - destruct (cancel_shape _ _ _ _ _ _ C) as (c & w & _ & _ & _ & R). destruct (remove_results _ _ _ _ _ R) as [X Y]. apply (kept_same _ _ _ _ X Y K).
  - destruct (update_shape _ _ _ _ U) as (c & _ & _ & ->). exact K.
Qed.

Lemma kept_step s e o s' : step s e o = Ok s' -> kept (s_results s) (s_nonce s) s'.
Proof.
  assert (K0 : kept (s_results s) (s_nonce s) s) by (unfold kept; split; [lia|]; split; [auto|intros; lia]).
  intro H. destruct (step_cases _ _ _ _ H) as [->|[(m & cb & id & s1 & V & C)|[(t & u & _ & U)|[(t & w & id & _ & C)|[(id & d & _ & K)|[(a & b & x & _ & _ & S)|(fuel & _ & E)]]]]]].
  - exact K0.
  - destruct (create_rest _ _ _ _ _ _ C) as (_ & _ & _ & _ & B5 & B6 & _). pose proof (kept_same _ _ _ _ B5 B6 K0) as K1.
    destruct V as [(_ & _ & ->)|[(_ & _ & ->)|(_ & _ & K)]]; [exact K1|exact K1|].
    destruct (store_callback_shape _ _ _ _ _ K) as [->|(c & _ & _ & A)]; [exact K1|]. destruct (append_shape _ _ _ _ A) as (k & _ & ->). exact K1.
  - destruct (update_shape _ _ _ _ U) as (c & _ & _ & ->). exact K0.
  - destruct (cancel_shape _ _ _ _ _ _ C) as (c & w' & _ & _ & _ & R). destruct (remove_results _ _ _ _ _ R) as [X Y]. apply (kept_same _ _ _ _ X Y K0).
  - destruct (store_callback_shape _ _ _ _ _ K) as [->|(c & _ & _ & A)]; [exact K0|]. destruct (append_shape _ _ _ _ A) as (k & _ & ->). exact K0.
  - rewrite (send_rest _ _ _ _ _ S). exact K0.
  - apply (pr_end_block e (kept (s_results s) (s_nonce s)) (fun _ => True)) with (fuel := fuel) (s := s); auto.
    + intros s0 c x s1 A _ S. rewrite (send_rest _ _ _ _ _ S). exact A.
    + intros s0 c x s1 A _ S. rewrite (send_rest _ _ _ _ _ S). exact A.
    + intros s0 id o1 s1 A R. destruct (remove_results _ _ _ _ _ R) as [X Y]. apply (kept_same _ _ _ _ X Y A).
    + intros s0 r A. apply kept_record, A.
    + intros s0 o1 f A. apply kept_effect, A.
Qed.

Lemma kept_trans s s1 s2 : kept (s_results s) (s_nonce s) s1 -> kept (s_results s1) (s_nonce s1) s2 -> kept (s_results s) (s_nonce s) s2.
Proof.
  intros (A & B & C) (A' & B' & C'). split; [lia|]. split.
  - intros n L. rewrite B' by lia. apply B, L.
  - intros n L. destruct (Z.lt_ge_cases n (s_nonce s1)); [rewrite B' by assumption|]; [apply C|apply C']; lia.
Qed.

Lemma kept_run l : forall s s', run s l = Ok s' -> kept (s_results s) (s_nonce s) s'.
Proof.
  induction l as [|[e o] l IH]; intros s s'; cbn.
  - intro H. injection H as <-. unfold kept. split; [lia|]. split; [auto|intros; lia].
  - intro H. apply rbind_ok in H. destruct H as (s1 & H1 & H2). eapply kept_trans; [eapply kept_step; exact H1|apply IH, H2].
Qed.

(* ---- messages --------------------------------------------------------- *)

Lemma person_not_wallet a id : person a -> addr_eqb a (Wallet id) = false.
Proof. destruct a; cbn; tauto. Qed.

(* A removal, exactly. *)
Lemma remove_exact s h id o s' c : wf s -> solvent s -> get_cron s id = Some c -> remove_cron s h id o = Ok s' ->
  c_owner c = print o /\ get_cron s' id = None /\ zget (s_arch s') id = Some c /\
  (forall j, j <> id -> get_cron s' j = get_cron s j /\ zget (s_arch s') j = zget (s_arch s) j) /\
  money s' (Wallet id) = 0 /\ money s' o = money s o + money s (Wallet id) /\
  forall z, z <> o -> z <> Wallet id -> money s' z = money s z.
Proof.
  intros W SO G R. destruct (remove_get _ _ _ _ _ W R) as (R1 & R2).
  destruct (remove_cron_facts _ _ _ _ _ R) as (c' & G' & O & M & _ & AR & _).
  replace c' with c in * by congruence. clear c' G'.
  destruct (wf_live _ _ _ W G) as (I & (WA & p & D & P) & _). rewrite O in D. cbn in D. injection D as <-.
  rewrite I in WA. split; [exact O|]. split; [exact R1|]. split; [rewrite AR, zget_zset, Z.eqb_refl; reflexivity|]. split.
  { intros j N. split; [apply R2, N|]. rewrite AR, zget_zset. destruct (Z.eqb_spec id j); [congruence|reflexivity]. }
  unfold cron_balance in M. rewrite WA in M. fold (money s (Wallet id)) in M.
  pose proof (SO (Wallet id)) as N0.
  destruct M as [[B L]|(s1 & L & S & B)].
  - unfold money in *. rewrite B. assert (X : bal (s_bal s) (Wallet id) = 0) by lia. rewrite X. split; [reflexivity|]. split; [lia|auto].
  - assert (MM : forall z, money s' z = money s1 z) by (intro z; unfold money; rewrite B; reflexivity).
    rewrite !MM. rewrite !(send_money _ _ _ _ _ S). rewrite !addr_eqb_refl.
    rewrite (person_not_wallet o id P). replace (addr_eqb (Wallet id) o) with false by (destruct o; [reflexivity|destruct P|reflexivity]).
    split; [lia|]. split; [lia|]. intros z Z1 Z2. rewrite MM, (send_money _ _ _ _ _ S).
    destruct (addr_eqb_spec (Wallet id) z); [congruence|]. destruct (addr_eqb_spec o z); [congruence|]. lia.
Qed.

(* The recorded owner can always cancel, if the owner was written in lower case. *)
Lemma remove_succeeds s h id o c : wf s -> solvent s -> get_cron s id = Some c -> c_owner c = print o ->
  (flagged h c = true -> c_price c <> None) -> exists s', remove_cron s h id o = Ok s'.
Proof.
  intros W SO G O FP. unfold remove_cron. rewrite G. destruct (atext_eqb_spec (c_owner c) (print o)); [|congruence]. cbn [negb].
  assert (X : exists s1, (if 0 <? cron_balance s c then cron_out s c (cron_balance s c) else Ok s) = Ok s1).
  { destruct (Z.ltb_spec 0 (cron_balance s c)) as [L|L]; [|eauto]. unfold cron_out.
    replace (cron_balance s c <? 0) with false by (symmetry; apply Z.ltb_ge; lia). cbn [andb].
    replace (0 <? cron_balance s c) with true by (symmetry; apply Z.ltb_lt; lia). rewrite O. cbn. unfold send.
    replace (cron_balance s c <? 0) with false by (symmetry; apply Z.ltb_ge; lia).
    destruct (cron_balance s c =? 0); [eauto|]. fold (cron_balance s c). rewrite Z.leb_refl. eauto. }
  destruct X as (s1 & ->). cbn [rbind].
  assert (Y : exists s2, (if flagged h c then remove_queue s1 c else Ok s1) = Ok s2).
  { destruct (flagged h c); [|eauto]. unfold remove_queue, queue_key. destruct (c_price c); [|exfalso; apply FP; reflexivity]. cbn [option_map].
    destruct (zget _ _); [|eauto]. destruct (drop_first _ _) as [[|]|]; eauto. }
  destruct Y as (s2 & ->). cbn [rbind]. eauto.
Qed.

(* A message touches only what its signer owns. *)
Lemma create_frame cb s e m s' id : create_any cb s e m = Ok (s', id) ->
  forall o, decode (m_sender m) = Some o ->
  (forall j, j <> id -> get_cron s' j = get_cron s j) /\ get_cron s id = None /\
  forall z, z <> o -> z <> Wallet id -> money s' z = money s z.
Proof.
  intros C o D. destruct (create_rest _ _ _ _ _ _ C) as (B1 & _). destruct (create_shape _ _ _ _ _ _ C) as (o1 & x & s2 & _ & G & SE & D1 & _).
  destruct (create_money _ _ _ _ _ _ C) as (o2 & x2 & D2 & _ & M). split; [|split; [exact G|]].
  - intros j N. unfold get_cron. rewrite B1, zget_zset. destruct (Z.eqb_spec id j); [congruence|reflexivity].
  - intros z Z1 Z2. rewrite M. destruct (addr_eqb_spec o2 z); [congruence|]. destruct (addr_eqb_spec (Wallet id) z); [congruence|]. lia.
Qed.

Lemma callback_frame s e id d s' : wf s -> store_callback s e id d = Ok s' ->
  s_bal s' = s_bal s /\ s_arch s' = s_arch s /\ forall j, j <> id -> get_cron s' j = get_cron s j.
Proof.
  intros W K. destruct (store_callback_shape _ _ _ _ _ K) as [->|(c & G & _ & A)]; [auto|].
  destruct (append_shape _ _ _ _ A) as (k & _ & ->). split; [reflexivity|]. split; [reflexivity|].
  intros j N. rewrite get_store. destruct (wf_live _ _ _ W G) as (I & _). cbn. rewrite I.
  destruct (Z.eqb_spec id j); [congruence|reflexivity].
Qed.

Lemma message_frame s e o s' a : wf s -> solvent s -> op_signed o -> is_message o -> signer o = Some a -> step s e o = Ok s' ->
  (forall id c, get_cron s id = Some c -> decode (c_owner c) <> Some a ->
     get_cron s' id = Some c /\ money s' (Wallet id) = money s (Wallet id)) /\
  (forall z, z <> a -> person z -> money s' z = money s z).
Proof.
  intros W SO SG IM SI H. destruct (step_cases _ _ _ _ H) as [->|[(m & cb & id & s1 & V & C)|[(t & u & -> & U)|[(t & w & id & -> & C)|[(id & d & -> & K)|[(a1 & b & x & -> & _ & S)|(fuel & -> & E)]]]]]].
  - auto.
  - assert (D : decode (m_sender m) = Some a) by (destruct V as [(-> & _)|[(-> & _)|(-> & _)]]; exact SI).
    assert (SM : exists b, signed_by (m_sender m) b) by (destruct V as [(-> & _)|[(-> & _)|(-> & _)]]; exact SG).
    assert (PA : person a) by (destruct SM as (b & D' & P); rewrite D in D'; injection D' as <-; exact P).
    destruct (create_frame _ _ _ _ _ _ C a D) as (F1 & F2 & F3).
    assert (X : s_bal s' = s_bal s1 /\ forall j, j <> id -> get_cron s' j = get_cron s1 j).
    { destruct V as [(_ & _ & ->)|[(_ & _ & ->)|(_ & _ & K)]]; [auto|auto|].
      destruct (callback_frame _ _ _ _ _ (create_wf _ _ _ _ _ _ W SM C) K) as (X1 & _ & X2). auto. }
    destruct X as [X1 X2]. assert (XM : forall z, money s' z = money s1 z) by (intro z; unfold money; rewrite X1; reflexivity). split.
    + intros j c G NO. assert (j <> id) by congruence. rewrite X2, F1 by assumption. split; [exact G|]. rewrite XM. apply F3; [|congruence].
      intro E. rewrite <- E in PA. exact PA.
    + intros z Z P. rewrite XM. apply F3; [exact Z|]. intro E. rewrite E in P. exact P.
  - destruct (update_shape _ _ _ _ U) as (c & G & O & ->). split; [|auto].
    intros j c' G' NO. split; [|reflexivity]. rewrite get_store. cbn. destruct (wf_live _ _ _ W G) as (I & _). rewrite I.
    destruct (Z.eqb_spec (u_id u) j) as [E|E]; [|exact G']. rewrite E in G. cbn in SI. congruence.
  - destruct (cancel_shape _ _ _ _ _ _ C) as (c & w' & G & O & _ & R). destruct (remove_exact _ _ _ _ _ _ W SO G R) as (O' & A1 & A2 & A3 & A4 & A5 & A6).
    assert (EA : w' = a) by (cbn in SI; rewrite <- O, O' in SI; cbn in SI; congruence). subst w'. split.
    + intros j c' G' NO. assert (N : j <> id). { intros ->. apply NO. replace c' with c by congruence. rewrite O'. reflexivity. }
      split; [rewrite (proj1 (A3 j N)); exact G'|]. apply A6; [|congruence].
      destruct (wf_live _ _ _ W G) as (_ & (_ & p & D & P) & _). rewrite O' in D. cbn in D. injection D as <-. intro E. rewrite <- E in P. exact P.
    + intros z Z P. apply A6; [exact Z|]. intro E. rewrite E in P. exact P.
  - destruct IM.
  - destruct IM.
  - destruct IM.
Qed.

(* A task whose owner is written in upper case can never be removed. *)
Definition stuck (id : Z) (t : atext) (s : st) : Prop := exists c, get_cron s id = Some c /\ c_owner c = t.

Lemma stuck_remove id a s h i o s' : wf s -> stuck id (Bech a true) s -> remove_cron s h i o = Ok s' -> i <> id /\ stuck id (Bech a true) s'.
Proof.
  intros W (c & G & O) R. destruct (remove_get _ _ _ _ _ W R) as (_ & R2). destruct (remove_cron_facts _ _ _ _ _ R) as (c' & G' & O' & _).
  assert (N : i <> id) by (intros ->; replace c' with c in O' by congruence; rewrite O in O'; discriminate O').
  split; [exact N|]. exists c. rewrite R2 by congruence. auto.
Qed.

Lemma stuck_store id t s c : stuck id t s -> (c_id c = id -> c_owner c = t) -> stuck id t (store_cron s c).
Proof.
  intros (c' & G & O) E. unfold stuck. rewrite get_store. destruct (Z.eqb_spec (c_id c) id); [exists c|exists c']; auto.
Qed.

Lemma stuck_update id t s t' u s' : wf s -> stuck id t s -> update s t' u = Ok s' -> stuck id t s'.
Proof.
  intros W K U. destruct (update_shape _ _ _ _ U) as (c & G & O & ->). apply stuck_store; [exact K|].
  destruct K as (c' & G' & O'). cbn. destruct (wf_live _ _ _ W G) as (I & _). intro E. assert (u_id u = id) by congruence. congruence.
Qed.

Lemma stuck_effect id a e o s f : wf s -> stuck id (Bech a true) s -> stuck id (Bech a true) (apply_effect e o s f).
Proof.
  intros W K. destruct (effect_cases e o s f) as [->|[(x & b & y & _ & _ & S)|[(i & _ & C)|(u & _ & U)]]].
  - exact K.
  - rewrite (send_rest _ _ _ _ _ S). exact K.
  - destruct (cancel_shape _ _ _ _ _ _ C) as (c & w & _ & _ & _ & R). apply (stuck_remove _ _ _ _ _ _ _ W K R).
  - apply (stuck_update _ _ _ _ _ _ W K U).
Qed.

Lemma stuck_callback id t s e i d s' : wf s -> stuck id t s -> store_callback s e i d = Ok s' -> stuck id t s'.
Proof.
  intros W K X. destruct (store_callback_shape _ _ _ _ _ X) as [->|(c & G & _ & A)]; [exact K|].
  destruct (append_shape _ _ _ _ A) as (k & _ & ->). apply stuck_store; [exact K|].
  destruct K as (c' & G' & O'). cbn. destruct (wf_live _ _ _ W G) as (I & _). intro E. assert (i = id) by congruence. congruence.
Qed.

Lemma stuck_step id a s e o s' : op_signed o -> wf s -> stuck id (Bech a true) s -> step s e o = Ok s' -> stuck id (Bech a true) s'.
Proof.
  intros SG W K H. destruct (step_cases _ _ _ _ H) as [->|[(m & cb & i & s1 & V & C)|[(t & u & _ & U)|[(t & w & i & _ & C)|[(i & d & _ & X)|[(x & b & y & _ & _ & S)|(fuel & _ & E)]]]]]].
  - exact K.
  - assert (SM : exists b, signed_by (m_sender m) b) by (destruct V as [(-> & _)|[(-> & _)|(-> & _)]]; exact SG).
    assert (K1 : stuck id (Bech a true) s1).
    { destruct SM as (b & D & _). destruct (create_frame _ _ _ _ _ _ C b D) as (F1 & F2 & _).
      destruct K as (c & G & O). exists c. rewrite F1 by congruence. auto. }
    destruct V as [(_ & _ & ->)|[(_ & _ & ->)|(_ & _ & X)]]; [exact K1|exact K1|].
    apply (stuck_callback _ _ _ _ _ _ _ (create_wf _ _ _ _ _ _ W SM C) K1 X).
  - apply (stuck_update _ _ _ _ _ _ W K U).
  - destruct (cancel_shape _ _ _ _ _ _ C) as (c & o1 & _ & _ & _ & R). apply (stuck_remove _ _ _ _ _ _ _ W K R).
  - apply (stuck_callback _ _ _ _ _ _ _ W K X).
  - rewrite (send_rest _ _ _ _ _ S). exact K.
  - apply (end_block_keeps e (s_next s) (stuck id (Bech a true)) (fun c => c_id c = id -> c_owner c = Bech a true) fuel s s'); auto.
    + intros s0 i c W0 _ (c' & G' & O') G X. destruct (wf_live _ _ _ W0 G) as (I & _). assert (i = id) by congruence. congruence.
    + intros s0 c x s1 _ K0 _ _ S. rewrite (send_rest _ _ _ _ _ S). exact K0.
    + intros s0 c x s1 _ K0 _ _ S. rewrite (send_rest _ _ _ _ _ S). exact K0.
    + intros s0 c _ K0 _ q _. apply stuck_store; assumption.
    + intros s0 i o1 s1 W0 K0 R. apply (stuck_remove _ _ _ _ _ _ _ W0 K0 R).
    + intros s0 o1 f W0 K0. apply stuck_effect; assumption.
Qed.

Lemma stuck_run id a l : forall s s', all_signed l -> wf s -> stuck id (Bech a true) s -> run s l = Ok s' -> stuck id (Bech a true) s'.
Proof.
  induction l as [|[e o] l IH]; intros s s' SG W K; cbn; [intro H; injection H as <-; exact K|].
  intro H. apply rbind_ok in H. destruct H as (s1 & H1 & H2).
  pose proof (step_wf _ _ _ _ (Forall_inv SG) W H1) as W1.
  apply (IH _ _ (Forall_inv_tail SG) W1 (stuck_step _ _ _ _ _ _ (Forall_inv SG) W K H1) H2).
Qed.

Lemma run_solvent l s s' : solvent s -> run s l = Ok s' -> solvent s'.
Proof. intros SO H. apply (run_ind solvent l) with (s := s); [|exact SO|exact H]. intros s0 e o s1 _ A B. apply (step_solvent _ _ _ _ A B). Qed.
