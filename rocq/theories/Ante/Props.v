(* C107: wrapped messages cannot smuggle in what may not be delegated.
   C108: a Cosmos transaction pays at least the base fee and never more than it
   offered. *)
From Verif Require Import Lib.Base Ante.Model Ante.Spec Ante.Proofs.
Open Scope Z_scope.

(* ------------------------------------------------------------------ *)
(* C107                                                                 *)
(* ------------------------------------------------------------------ *)

(* A transaction that is let in either goes the Ethereum way and carries nothing
   but Ethereum messages, or carries none of them; and whatever it runs or grants
   on the authority of others, however deeply wrapped, can be read and is not of a
   forbidden type. *)
Theorem C107_nothing_is_smuggled rest opts l : let_in rest opts l = true ->
  (hd_error opts = Some XEthereum /\ forall m, In m l -> m = MPlain eth_url) \/
  (hd_error opts <> Some XEthereum /\ hd_error opts <> Some XUnknown /\
   (forall m, In m l -> m <> MPlain eth_url) /\ harmless l).
Proof.
  unfold let_in. intro H. destruct opts as [|x opts]; [|destruct x]; cbn [route hd_error] in *; try discriminate H.
  2: {
    right. apply Bool.andb_true_iff in H as [H _]. apply Bool.andb_true_iff in H as [R C].
    split; [discriminate|]. split; [discriminate|]. split; [intros m Hm ->; apply reject_spec in R; contradiction|].
    destruct (check_disabled false 1 l) eqn:E; [|discriminate C]. apply check_exact. eauto. }
  2: {
    left. split; [reflexivity|]. apply Bool.andb_true_iff in H as [H _]. rewrite forallb_forall in H.
    intros m Hm. specialize (H m Hm). destruct m as [e|g|u]; try discriminate H. cbn in H. apply N.eqb_eq in H. subst. reflexivity. }
  all: right; apply Bool.andb_true_iff in H as [H _]; apply Bool.andb_true_iff in H as [R C];
    (split; [discriminate|]); (split; [discriminate|]); (split; [intros m Hm ->; apply reject_spec in R; contradiction|]);
    (destruct (check_disabled false 1 l) eqn:E; [|discriminate C]); apply check_exact; eauto.
Qed.

(* Exactly which lists of messages pass: the harmless ones that are not too heavy. *)
Theorem C107_exactly_the_harmless_and_light opts l : hd_error opts <> Some XEthereum -> hd_error opts <> Some XUnknown ->
  (let_in true opts l = true <-> (forall m, In m l -> m <> MPlain eth_url) /\ harmless l /\ (weights l <= 5)%nat).
Proof.
  intros A B.
  assert (E : let_in true opts l = reject_messages l && match check_disabled false 1 l with Some _ => true | None => false end && true).
  { unfold let_in. destruct opts as [|x opts]; [|destruct x]; cbn [route hd_error] in *; try congruence; reflexivity. }
  rewrite E, Bool.andb_true_r, Bool.andb_true_iff. split.
  - intros [R C]. split; [intros m Hm ->; apply reject_spec in R; contradiction|].
    destruct (check_disabled false 1 l) eqn:D; [|discriminate C]. apply check_exact. eauto.
  - intros (R & C). split; [apply reject_spec; intro X; exact (R _ X eq_refl)|].
    apply check_exact in C as [k ->]. reflexivity.
Qed.

(* So nothing is nested more than five deep. *)
Theorem C107_nesting_is_bounded rest opts l m : let_in rest opts l = true -> In m l -> (depth m <= 5)%nat.
Proof.
  intros H Hm. destruct (C107_nothing_is_smuggled rest opts l H) as [(_ & E)|(A & B & _)].
  - rewrite (E m Hm). cbn. lia.
  - assert (H1 : let_in true opts l = true).
    { unfold let_in in *. destruct (route opts) as [h|]; [|discriminate]. destruct h; apply Bool.andb_true_iff in H as [H _]; rewrite H; reflexivity. }
    apply (proj1 (C107_exactly_the_harmless_and_light opts l A B)) in H1. destruct H1 as (_ & _ & W).
    pose proof (depth_weight (MExec (Some l))) as D. change (S (fold_right (fun m d => Nat.max (depth m) d) O l) <= 1 + weights l)%nat in D.
    assert (F : (depth m <= fold_right (fun m d => Nat.max (depth m) d) O l)%nat).
    { clear -Hm. induction l as [|x l IH]; [destruct Hm|]. cbn. destruct Hm as [->|Hm]; [lia|]. specialize (IH Hm). lia. }
    lia.
Qed.

(* The limit is meant for nesting, but counts exec messages that stand side by
   side: six harmless ones are turned away, with no nesting at all. *)
Theorem C107_refuted_six_in_a_row :
  let l := repeat (MExec (Some [MPlain 7%N])) 6 in
  harmless l /\ (forall m, In m l -> depth m = 1%nat) /\ let_in true [] l = false /\ let_in true [] (tl l) = true.
Proof.
  assert (E : (exists k, check_disabled false 1 [MExec (Some [MPlain 7%N])] = Some k)) by (eexists; vm_compute; reflexivity).
  apply check_exact in E as [E _]. split; [|split; [|split; vm_compute; reflexivity]].
  - destruct E as (A & B & C).
    assert (D : forall n x, delegated (repeat (MExec (Some [MPlain 7%N])) n) x -> delegated [MExec (Some [MPlain 7%N])] x).
    { intros n x H. inversion H as [l0 i0 m0 H0 H1|l0 i0 m0 H0 H1]; subst; apply repeat_spec in H0; rewrite <- H0; [eapply delegated_here|eapply delegated_deep]; try (left; reflexivity); exact H1. }
    split; [|split].
    + intros u H. exact (A u (D _ _ H)).
    + intros g [H|H]; [apply repeat_spec in H; discriminate H|]. apply B. right. exact (D _ _ H).
    + intros e [H|H]; [apply repeat_spec in H; injection H as ->; discriminate|]. apply C. right. exact (D _ _ H).
  - intros m H. apply repeat_spec in H. subst m. reflexivity.
Qed.

(* a transaction with nested exec messages and a grant passes; wrapped twice, an
   Ethereum message does not; a vesting account may be created directly *)
Example C107_concrete :
  let_in true [XDynamicFee] [MExec (Some [MPlain 7%N; MExec (Some [MGrant (Some 9%N)])]); MGrant (Some 8%N); MPlain vesting_url] = true /\
  let_in true [] [MExec (Some [MPlain 7%N; MExec (Some [MPlain eth_url])])] = false /\
  let_in true [] [MExec (Some [MPlain vesting_url])] = false /\
  let_in true [] [MGrant (Some eth_url)] = false /\
  let_in true [] [MPlain 7%N; MExec (Some [MGrant None])] = false /\
  let_in true [XEthereum] [MPlain eth_url; MPlain eth_url] = true /\
  let_in true [XEthereum] [MPlain eth_url; MPlain 7%N] = false /\
  let_in true [XUnknown] [MPlain 7%N] = false /\
  weights [MExec (Some [MExec (Some [MExec (Some [])]); MExec (Some [])])] = 3%nat.
Proof. vm_compute. repeat split. Qed.

(* ------------------------------------------------------------------ *)
(* C108                                                                 *)
(* ------------------------------------------------------------------ *)

Definition current_base (s : fee_state) : Z := match f_base_fee s with Some b => b | None => 0 end.
Definition sane (s : fee_state) (gas : Z) (fee : coins) : Prop :=
  0 <= f_min s /\ 0 <= gas /\ (forall b, f_base_fee s = Some b -> 0 <= b) /\ (forall d a, In (d, a) (coin_list fee) -> 0 <= a).
Definition offered (s : fee_state) (fee : coins) : Z := amount_of (coin_list fee) (f_base s).

Lemma offered_nonneg s gas fee : sane s gas fee -> 0 <= offered s fee.
Proof.
  intros (_ & _ & _ & H). unfold offered, amount_of. destruct (find _ _) as [[d a]|] eqn:E; [|lia].
  apply find_some in E as [E _]. cbn. eauto.
Qed.

(* A transaction that passes offers nothing but the native coin.  It is charged at
   least the base fee for all of its gas, never more than it offered, and less than
   one coin more than the base fee and the tip come to; that amount, and nothing
   else, goes from the payer, who has it, to the collector. *)
Theorem C108_what_is_paid s tip gas fee b b1 v p : sane s gas fee -> pay s tip gas fee b = Some (b1, v, p) ->
  (coin_list fee = [] \/ exists a, coin_list fee = [(f_base s, a)]) /\
  current_base s * gas <= v * one /\ v <= offered s fee /\
  v * one < (current_base s + tip_cap tip) * gas + one /\
  (v <= b (f_payer s) \/ v = 0) /\
  (forall a, b1 a = b a - (if N.eqb a (f_payer s) then v else 0) + (if N.eqb a (f_collector s) then v else 0)) /\
  0 <= p <= max_int64.
Proof.
  intros Sa H. pose proof (offered_nonneg s gas fee Sa) as Of. destruct Sa as (S1 & S2 & S3 & S4). unfold pay in H.
  destruct (min_gas_price (f_base s) (f_min s) false gas fee) eqn:M; [|discriminate H]. cbn [negb] in H.
  destruct (fee_checker _ _ _ _) as [[v1 p1]|] eqn:C; [|discriminate H]. destruct (deduct _ _ _ _) as [b2|] eqn:D; [|discriminate H].
  injection H as -> -> ->. apply min_gas_price_spec in M as [M _]; [|assumption|assumption].
  pose proof (fee_checker_spec _ _ _ _ _ _ Of S2 S3 C) as X. cbv zeta in X. fold (current_base s) in X.
  destruct X as (G & T & X1 & X2 & X3 & X4 & X5 & X6 & X7).
  assert (B0 : 0 <= current_base s) by (unfold current_base; destruct (f_base_fee s); [auto|lia]).
  assert (V0 : 0 <= v). { pose proof one_pos. nia. }
  apply deduct_spec in D as [D1 D2]; [|exact V0]. split; [exact M|]. split; [exact X3|]. split; [exact X2|]. split; [exact X4|]. auto.
Qed.

(* Without a dynamic fee option, or with one whose tip covers the offer, exactly the
   offer is paid; otherwise what is paid comes to at least the base fee and the tip. *)
Theorem C108_no_surprise s tip gas fee b b1 v p : sane s gas fee -> gas <= one -> pay s tip gas fee b = Some (b1, v, p) ->
  (offered s fee * one <= (current_base s + tip_cap tip) * gas -> v = offered s fee) /\
  (tip = None -> offered s fee <= max_int64 -> v = offered s fee) /\
  ((current_base s + tip_cap tip) * gas < offered s fee * one ->
   (current_base s + tip_cap tip) * gas <= v * one \/ offered s fee * one - gas < v * one).
Proof.
  intros Sa Gl H. pose proof (offered_nonneg s gas fee Sa) as Of. destruct Sa as (S1 & S2 & S3 & S4). unfold pay in H.
  destruct (min_gas_price (f_base s) (f_min s) false gas fee) eqn:M; [|discriminate H]. cbn [negb] in H.
  destruct (fee_checker _ _ _ _) as [[v1 p1]|] eqn:C; [|discriminate H]. destruct (deduct _ _ _ _) as [b2|] eqn:D; [|discriminate H].
  injection H as -> -> ->.
  pose proof (fee_checker_spec _ _ _ _ _ _ Of S2 S3 C) as X. cbv zeta in X. fold (current_base s) in X.
  destruct X as (G & T & X1 & X2 & X3 & X4 & X5 & X6 & X7). fold (offered s fee) in *.
  assert (B0 : 0 <= current_base s) by (unfold current_base; destruct (f_base_fee s); [auto|lia]).
  split; [intro L; apply X5; [lia|exact Gl]|]. split; [|intros _; exact X6].
  intros -> L. apply X5; [|exact Gl]. cbn [tip_cap] in *. pose proof one_pos as O1. clear -L G B0 O1 Of.
  generalize dependent max_int64. intros mi L. generalize dependent (offered s fee). intros off Of L. generalize dependent (current_base s). intros cb B0.
  assert (A1 : off * one <= mi * one) by (apply Z.mul_le_mono_nonneg_r; lia).
  assert (A2 : 0 <= mi * one) by (apply Z.mul_nonneg_nonneg; lia).
  assert (A3 : mi * one * 1 <= mi * one * gas) by (apply Z.mul_le_mono_nonneg_l; lia).
  assert (A4 : 0 <= cb * gas) by (apply Z.mul_nonneg_nonneg; lia). rewrite Z.mul_add_distr_r. lia.
Qed.

(* What is offered covers the minimum gas price; so does what is paid, as long as the
   base fee is not below it. *)
Theorem C108_minimum_gas_price s tip gas fee b b1 v p : sane s gas fee -> pay s tip gas fee b = Some (b1, v, p) -> 0 < f_min s ->
  f_min s * gas <= offered s fee * one /\ (f_min s <= current_base s -> f_min s * gas <= v * one).
Proof.
  intros Sa H Hm. destruct (C108_what_is_paid s tip gas fee b b1 v p Sa H) as (_ & X & _). destruct Sa as (S1 & S2 & S3 & S4). unfold pay in H.
  destruct (min_gas_price (f_base s) (f_min s) false gas fee) eqn:M; [|discriminate H].
  apply min_gas_price_spec in M as [_ M]; [|assumption|assumption]. split; [exact (M Hm)|]. intro L. nia.
Qed.

(* An offer below the base fee, or in another coin, or that the payer does not have,
   or with a negative tip, is turned away. *)
Theorem C108_turned_away s tip gas fee b : sane s gas fee ->
  offered s fee * one < current_base s * gas \/ offered s fee * one < f_min s * gas \/ tip_cap tip < 0 \/
  (exists d a, In (d, a) (coin_list fee) /\ d <> f_base s) \/ (length (coin_list fee) > 1)%nat \/ gas = 0 ->
  pay s tip gas fee b = None.
Proof.
  intros Sa H. destruct (pay s tip gas fee b) as [[[b1 v] p]|] eqn:E; [exfalso|reflexivity].
  pose proof (C108_what_is_paid s tip gas fee b b1 v p Sa E) as (X1 & X2 & X3 & _). pose proof one_pos as O1.
  pose proof (offered_nonneg s gas fee Sa) as Of.
  destruct H as [H|[H|[H|[H|[H|H]]]]].
  - nia.
  - assert (0 < f_min s).
    { destruct Sa as (S1 & S2 & _). destruct (Z.eq_dec (f_min s) 0) as [Q|Q]; [rewrite Q in H; nia|lia]. }
    pose proof (C108_minimum_gas_price s tip gas fee b b1 v p Sa E H0) as [Y _]. lia.
  - unfold pay in E. destruct (min_gas_price _ _ _ _ _); [|discriminate E]. cbn [negb] in E. unfold fee_checker in E.
    apply Z.ltb_lt in H. rewrite H in E. discriminate E.
  - destruct H as (d & a & Hi & Hd). destruct X1 as [X1|[a1 X1]]; rewrite X1 in Hi; [destruct Hi|]. destruct Hi as [Hi|[]]. injection Hi as Q _. congruence.
  - destruct X1 as [X1|[a1 X1]]; rewrite X1 in H; cbn in H; lia.
  - subst gas. unfold pay in E. destruct (min_gas_price _ _ _ _ _); [|discriminate E]. cbn [negb] in E. unfold fee_checker in E.
    destruct (tip_cap tip <? 0); discriminate E.
Qed.

(* Who bids at least as much per unit of gas, and tips at least as much, is not
   served later. *)
Theorem C108_priority s tip1 tip2 gas1 gas2 fee1 fee2 b1 b2 c1 c2 v1 v2 p1 p2 :
  sane s gas1 fee1 -> sane s gas2 fee2 ->
  pay s tip1 gas1 fee1 b1 = Some (c1, v1, p1) -> pay s tip2 gas2 fee2 b2 = Some (c2, v2, p2) ->
  tip_cap tip1 <= tip_cap tip2 -> offered s fee1 * gas2 <= offered s fee2 * gas1 -> p1 <= p2.
Proof.
  intros Sa1 Sa2 H1 H2 Lt Lo. pose proof (offered_nonneg s _ _ Sa1) as O1. pose proof (offered_nonneg s _ _ Sa2) as O2.
  assert (G1 : gas1 <> 0). { intro G. rewrite C108_turned_away in H1 by (auto 10). discriminate H1. }
  assert (G2 : gas2 <> 0). { intro G. rewrite C108_turned_away in H2 by (auto 10). discriminate H2. }
  unfold pay in H1, H2.
  destruct (min_gas_price _ _ _ gas1 fee1); [|discriminate H1]. destruct (min_gas_price _ _ _ gas2 fee2); [|discriminate H2]. cbn [negb] in *.
  fold (offered s fee1) in H1. fold (offered s fee2) in H2.
  destruct (fee_checker (f_base_fee s) tip1 gas1 _) as [[w1 q1]|] eqn:C1; [|discriminate H1]. destruct (deduct b1 _ _ _); [|discriminate H1]. injection H1 as _ _ ->.
  destruct (fee_checker (f_base_fee s) tip2 gas2 _) as [[w2 q2]|] eqn:C2; [|discriminate H2]. destruct (deduct b2 _ _ _); [|discriminate H2]. injection H2 as _ _ ->.
  eapply priority_mono; [exact C1|exact C2|exact Lt|]. destruct Sa1 as (_ & P1 & _). destruct Sa2 as (_ & P2 & _). pose proof one_pos as Op.
  assert (N1 : 0 <= offered s fee1 * one) by nia. assert (N2 : 0 <= offered s fee2 * one) by nia.
  rewrite !Z.quot_div_nonneg by lia. apply Z.div_le_lower_bound; [lia|].
  set (d := offered s fee1 * one / gas1). assert (D : d * gas1 <= offered s fee1 * one) by (unfold d; rewrite Z.mul_comm; apply Z.mul_div_le; lia).
  assert (L : offered s fee1 * one * gas2 <= offered s fee2 * one * gas1) by nia.
  assert (L2 : gas1 * (gas2 * d) <= gas1 * (offered s fee2 * one)) by nia.
  apply Z.mul_le_mono_pos_l in L2; lia.
Qed.

(* With no base fee, a dynamic fee option without a tip makes a transaction free
   although a minimum gas price is set: it only bounds what is offered. *)
Theorem C108_refuted_minimum_is_paid :
  exists s tip gas fee b b1 v p, sane s gas fee /\ 0 < f_min s /\ pay s tip gas fee b = Some (b1, v, p) /\
    f_min s * gas > v * one /\ v = 0 /\ b1 (f_payer s) = b (f_payer s).
Proof.
  exists (FeeState 1%N (10 * one) None 5%N 6%N), (Some (Some 0)), 100, (Some [(1%N, 1000)]), (fun _ => 5000), (fun _ => 5000), 0, 0.
  split. { split; [vm_compute; discriminate|]. split; [lia|]. split; [discriminate|]. intros d a [E|[]]. injection E as _ <-. lia. }
  split; [reflexivity|]. split; [vm_compute; reflexivity|]. split; [reflexivity|]. split; reflexivity.
Qed.

(* Signatures cost 21000 for every single signature, all of which must be by
   Ethereum keys; nothing else gets by. *)
Theorem C108_signature_gas k d g : sig_gas k d = Ok g <-> exists n, signed k d n /\ g = 21000 * n.
Proof. apply gas_exact. Qed.

(* As long as every set bit has a key and a signature the check does not crash. *)
Theorem C108_signature_gas_is_safe k d : complete k d -> sig_gas k d <> Panic.
Proof. apply complete_no_panic. Qed.

(* Other data crashes it: a set bit without a signature, or one beyond the keys. *)
Theorem C108_refuted_signature_gas_is_total :
  sig_gas (KMulti [KEth; KEth]) (DMulti [true; true] [DSingle]) = Panic /\
  sig_gas (KMulti [KEth]) (DMulti [false; true] [DSingle]) = Panic.
Proof. split; reflexivity. Qed.

(* base fee 10, minimum 5, 100 gas: an offer of 1500 with tip 2 pays 1200, without an
   option 1500; 999 is too little, and so are 1500 of another coin *)
Definition ex_state : fee_state := FeeState 1%N (5 * one) (Some (10 * one)) 5%N 6%N.
Definition ex_bank : bank := fun a => if N.eqb a 5 then 5000 else 0.
Definition ex_seen (r : option (bank * Z * Z)) : option (Z * Z * Z * Z) :=
  match r with Some (b, v, p) => Some (b 5%N, b 6%N, v, p) | None => None end.
Example C108_concrete :
  sane ex_state 100 (Some [(1%N, 1500)]) /\
  ex_seen (pay ex_state (Some (Some (2 * one))) 100 (Some [(1%N, 1500)]) ex_bank) = Some (3800, 1200, 1200, 0) /\
  ex_seen (pay ex_state None 100 (Some [(1%N, 1500)]) ex_bank) = Some (3500, 1500, 1500, 0) /\
  ex_seen (pay ex_state None 100 (Some [(1%N, 999)]) ex_bank) = None /\
  ex_seen (pay ex_state None 100 (Some [(2%N, 1500)]) ex_bank) = None /\
  ex_seen (pay ex_state None 100 (Some [(1%N, 5001)]) ex_bank) = None /\
  ex_seen (pay ex_state None 1 (Some [(1%N, 4000010)]) (fun _ => 10 ^ 9)) = Some (10 ^ 9 - 4000010, 10 ^ 9 + 4000010, 4000010, 4) /\
  sig_gas (KMulti [KEth; KEd25519; KMulti [KEth; KEth]]) (DMulti [true; false; true] [DSingle; DMulti [true; true] [DSingle; DSingle]]) = Ok 63000 /\
  sig_gas (KMulti [KEth; KEd25519]) (DMulti [true; true] [DSingle; DSingle]) = Err /\
  complete (KMulti [KEth; KEd25519]) (DMulti [true; true] [DSingle; DSingle]).
Proof.
  split. { split; [vm_compute; discriminate|]. split; [lia|]. split; [intros b E; injection E as <-; vm_compute; discriminate|]. intros d a [E|[]]. injection E as _ <-. lia. }
  do 8 (split; [vm_compute; reflexivity|]). split; [|split; [cbn; lia|cbn; auto]].
  intros [|[|i]] H; cbn in *; try lia. destruct i; discriminate H.
Qed.

Print Assumptions C107_nothing_is_smuggled.
Print Assumptions C107_exactly_the_harmless_and_light.
Print Assumptions C107_nesting_is_bounded.
Print Assumptions C107_refuted_six_in_a_row.
Print Assumptions C108_what_is_paid.
Print Assumptions C108_no_surprise.
Print Assumptions C108_minimum_gas_price.
Print Assumptions C108_turned_away.
Print Assumptions C108_priority.
Print Assumptions C108_refuted_minimum_is_paid.
Print Assumptions C108_signature_gas.
Print Assumptions C108_signature_gas_is_safe.
Print Assumptions C108_refuted_signature_gas_is_total.
