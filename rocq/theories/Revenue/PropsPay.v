(* C86: the author of a contract is paid the set share of the fees of its calls. *)
From Verif Require Import Lib.Base Lib.Bytes Lib.Kv Revenue.Model Revenue.Spec Revenue.Proofs Revenue.HistoryProofs Revenue.PropsRegistry.
Open Scope Z_scope.

(* A transaction that did not fail pays what is due from the fee collector to the account
   to be paid, if that is something, the account may receive and the collector has it; it
   changes nothing else, and it never makes the transaction fail. *)
Theorem C86_paid dec enc create FC gov : address_format dec enc -> create_format create ->
  forall s, reachable dec enc create FC gov s ->
  forall e to price used, 0 <= used ->
  exists s', run dec enc create FC gov e s (OTx to price used) = Ok s' /\
    v_store s' = v_store s /\ v_on s' = v_on s /\ v_share s' = v_share s /\
    forall a, v_bal s' a =
      match due dec e s to price used with
      | Some (p, x) =>
          if negb (e_blocked e p) && (0 <? x) && (x <=? v_bal s FC)
          then v_bal s a + (if beqb a p then x else 0) - (if beqb a FC then x else 0)
          else v_bal s a
      | None => v_bal s a
      end.
Proof.
  intros AF CF s R e to price used U. pose proof (reachable_good _ _ _ _ _ AF CF s R) as G. cbn [run].
  eexists. split; [exact (after_tx_spec dec enc FC e s to price used G U)|].
  destruct (due dec e s to price used) as [[p x]|]; [|do 3 (split; [reflexivity|]); reflexivity].
  destruct (negb (e_blocked e p) && (0 <? x) && (x <=? v_bal s FC))%bool; do 3 (split; [reflexivity|]); [|reflexivity].
  intro a. cbn [set_bal v_bal]. unfold bmove, bset.
  destruct (beqb_case a p) as [[-> E1]|[N1 E1]]; rewrite E1.
  - destruct (beqb_case p FC) as [[-> E2]|[N2 E2]]; rewrite E2; lia.
  - destruct (beqb_case a FC) as [[-> E2]|[N2 E2]]; rewrite E2; lia.
Qed.

(* What is due: to the account to be paid of a contract entered, not built in, while
   sharing is on and gas has a price; the share of the fee rounded down. It is never more
   than the fee. *)
Theorem C86_due dec enc create FC gov : address_format dec enc -> create_format create ->
  forall s, reachable dec enc create FC gov s ->
  forall e to price used, 0 <= used ->
  (forall p x, due dec e s to price used = Some (p, x) ->
    exists c, to = Some c /\ payee dec s c = Some p /\ v_on s = true /\ 0 < price /\ e_precompile e c = false /\
      x * ONE <= v_share s * (used * price) < (x + 1) * ONE /\ 0 <= x <= used * price) /\
  (forall c, to = Some c -> get s c <> None -> v_on s = true -> 0 < price -> e_precompile e c = false ->
    due dec e s to price used <> None).
Proof.
  intros AF CF s R e to price used U. pose proof (reachable_good _ _ _ _ _ AF CF s R) as G. split.
  - intros p x H. unfold due in H. destruct to as [c|]; [|discriminate].
    destruct (v_on s) eqn:O; [|discriminate]. destruct (Z.ltb_spec 0 price) as [P|P]; [|discriminate]. cbn [andb] in H.
    destruct (e_precompile e c) eqn:Pc; [discriminate|]. cbn [negb] in H. destruct (payee dec s c) as [q|] eqn:Q; [|discriminate].
    assert (q = p /\ x = v_share s * (used * price) / ONE) as [-> ->] by (split; [congruence|rewrite Z.mul_assoc; congruence]).
    exists c. split; [reflexivity|]. split; [exact Q|]. split; [reflexivity|]. split; [exact P|]. split; [exact Pc|].
    pose proof (g_share _ _ s G) as SH. assert (ONE > 0) by (unfold ONE; lia).
    pose proof (Z.div_mod (v_share s * (used * price)) ONE ltac:(lia)) as DM. pose proof (Z.mod_pos_bound (v_share s * (used * price)) ONE ltac:(lia)) as MB.
    assert (0 <= used * price) by nia.
    split; [lia|]. split; [apply Z.div_pos; nia|]. apply Z.div_le_upper_bound; [lia|]. nia.
  - intros c -> E O P Pc. unfold due. rewrite O, Pc. replace (0 <? price) with true by lia. cbn [andb negb].
    destruct (get s c) as [r|] eqn:X; [|congruence]. destruct (payee_get dec enc s c r G X) as (q & -> & _). discriminate.
Qed.

(* The payment never eats what has to be given back: when the collector holds the fee for
   the whole gas limit, what is due is there, and the refund for the gas not used too. *)
Theorem C86_enough dec enc create FC gov : address_format dec enc -> create_format create ->
  forall s, reachable dec enc create FC gov s ->
  forall e to price used limit p x, 0 <= used <= limit -> 0 <= price ->
  due dec e s to price used = Some (p, x) -> limit * price <= v_bal s FC ->
  x <= v_bal s FC /\ (limit - used) * price <= v_bal s FC - x.
Proof.
  intros AF CF s R e to price used limit p x U P H B.
  destruct (proj1 (C86_due dec enc create FC gov AF CF s R e to price used ltac:(lia)) p x H) as (c & _ & _ & _ & _ & _ & _ & X). nia.
Qed.

(* the fees of a history *)
Fixpoint fees (l : list (env * op)) : Z :=
  match l with [] => 0 | (_, OTx _ price used) :: r => Z.max 0 (used * price) + fees r | _ :: r => fees r end.
Definition is_tx (q : env * op) : Prop := match snd q with OTx _ _ used => 0 <= used | _ => False end.

(* Over any sequence of transactions every account gets exactly what is due to it, as long
   as the collector holds the fees and the accounts may receive; and rounding never favours
   the authors: all together they get at most the share of the fees. *)
Theorem C86_income dec enc create FC gov : address_format dec enc -> create_format create ->
  forall l s, reachable dec enc create FC gov s ->
  Forall is_tx l -> Forall (fun q : env * op => forall p, e_blocked (fst q) p = false) l -> fees l <= v_bal s FC ->
  forall a, a <> FC ->
  v_bal (runs dec enc create FC gov s l) a = v_bal s a + income dec enc create FC gov s l a /\
  0 <= income dec enc create FC gov s l a /\ income dec enc create FC gov s l a * ONE <= v_share s * fees l.
Proof.
  intros AF CF. induction l as [|[e o] l IH]; intros s R T B F a N; [cbn; nia|].
  inversion T as [|? ? T1 T2]; subst. inversion B as [|? ? B1 B2]; subst. cbn [fst snd] in *.
  destruct o as [ | | | | |to price used| | ]; try contradiction. unfold is_tx in T1. cbn [snd] in T1.
  cbn [fees] in F. cbn [runs income fees]. set (s' := step dec enc create FC gov e s (OTx to price used)).
  destruct (C86_paid dec enc create FC gov AF CF s R e to price used T1) as (s1 & H & Q1 & Q2 & Q3 & Q4).
  assert (E : s' = s1) by (unfold s', step; rewrite H; reflexivity). rewrite E. clear E s'.
  assert (R' : reachable dec enc create FC gov s1).
  { replace s1 with (step dec enc create FC gov e s (OTx to price used)) by (unfold step; rewrite H; reflexivity). apply reachable_step; [exact R|exact Logic.I]. }
  assert (FP : 0 <= fees l).
  { clear. induction l as [|[e o] l IH]; [cbn; lia|]. destruct o; cbn [fees]; lia. }
  pose proof (g_share _ _ s (reachable_good _ _ _ _ _ AF CF s R)) as SH.
  destruct (due dec e s to price used) as [[p x]|] eqn:D.
  - destruct (proj1 (C86_due dec enc create FC gov AF CF s R e to price used T1) p x D) as (c & _ & _ & _ & P & _ & X1 & X2).
    rewrite B1 in Q4. cbn [negb andb] in Q4. replace (x <=? v_bal s FC) with true in Q4 by nia. rewrite andb_true_r in Q4.
    assert (Bf : v_bal s FC - x <= v_bal s1 FC).
    { rewrite Q4, beqb_refl. destruct (Z.ltb_spec 0 x); destruct (beqb FC p); lia. }
    assert (Ba : v_bal s1 a = v_bal s a + (if beqb p a then x else 0)).
    { rewrite Q4, (beqb_neq a FC N). destruct (beqb_case a p) as [[-> E1]|[N1 E1]].
      - rewrite beqb_refl. destruct (Z.ltb_spec 0 x); lia.
      - rewrite E1. rewrite (beqb_neq p a) by congruence. destruct (0 <? x); lia. }
    destruct (IH s1 R' T2 B2) with (a := a) as (I1 & I2 & I3); [nia|exact N|].
    rewrite I1, Ba. rewrite Q3 in I3. split; [lia|]. destruct (beqb p a); split; nia.
  - destruct (IH s1 R' T2 B2) with (a := a) as (I1 & I2 & I3); [rewrite Q4; lia|exact N|].
    rewrite I1, Q4. rewrite Q3 in I3. split; [lia|]. split; [lia|nia].
Qed.

(* alice gets a tenth of the fees of her contract, bob of the other one, nothing for a
   transfer and after sharing was switched off *)
Definition gas_and_price : op := OTx (Some box) 7 21000.
Definition e1 : env := mk_env (e_exists e0) (e_code e0) (e_precompile e0) (fun _ => false).
Example C86_example :
  let s := toy_runs s0 l1 in
  toy_reach s /\ due toy_dec e0 s (Some box) 7 21000 = Some (alice, 14700) /\ due toy_dec e0 s (Some box2) 7 21001 = Some (bob, 14700) /\
  due toy_dec e0 s (Some bob) 7 21000 = None /\ fees [(e1, gas_and_price); (e1, gas_and_price)] <= v_bal s fcoll /\
  v_bal (toy_runs s [(e1, gas_and_price); (e1, gas_and_price)]) alice = 29400 /\
  v_bal (toy_runs s [(e1, OParams (h bob) false 0); (e1, gas_and_price)]) alice = 0.
Proof.
  split; [apply toy_reachable; constructor; [exact alice_ok|constructor; [exact Logic.I|constructor]]|].
  split; [vm_compute; reflexivity|]. split; [vm_compute; reflexivity|]. split; [vm_compute; reflexivity|].
  split; [apply Z.leb_le; vm_compute; reflexivity|]. split; vm_compute; reflexivity.
Qed.

(* Being entered is not enough to be paid: a message may name an account that may not
   receive coins (here the fee collector itself); the payments are dropped in silence. *)
Theorem C86_entered_and_unpaid_refuted :
  exists s s', toy_reach s /\
    run toy_dec toy_enc toy_create fcoll (h bob) e0 s (OUpdate (h alice) box (h fcoll)) = Ok s' /\
    due toy_dec e0 s' (Some box) 7 21000 = Some (fcoll, 14700) /\
    run toy_dec toy_enc toy_create fcoll (h bob) e0 s' (OTx (Some box) 7 21000) = Ok s'.
Proof.
  exists (toy_runs s0 [(e0, OCreated alice 0)]).
  eexists. split; [apply toy_reachable; constructor; [exact alice_ok|constructor]|].
  split; [reflexivity|]. split; [vm_compute; reflexivity|]. reflexivity.
Qed.
(* Fees too small for the share to reach one unit pay nothing, however many there are. *)
Theorem C86_small_fees_refuted :
  exists s, toy_reach s /\ due toy_dec e0 s (Some box) 1 9 = Some (alice, 0) /\
    due toy_dec e0 s (Some box) 1 (9 + 9) = Some (alice, 1) /\
    v_bal (toy_runs s [(e0, OTx (Some box) 1 9); (e0, OTx (Some box) 1 9)]) alice = 0.
Proof.
  exists (toy_runs s0 [(e0, OCreated alice 0)]). split; [apply toy_reachable; constructor; [exact alice_ok|constructor]|].
  split; [vm_compute; reflexivity|]. split; vm_compute; reflexivity.
Qed.

Print Assumptions C86_paid.
Print Assumptions C86_due.
Print Assumptions C86_enough.
Print Assumptions C86_income.
Print Assumptions C86_entered_and_unpaid_refuted.
Print Assumptions C86_small_fees_refuted.
