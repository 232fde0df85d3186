(* C83: only the admin of a user-made coin can create more of it, only holders can destroy
   it, and the supply is exactly what was minted and not burnt. *)
From Verif Require Import Lib.Base Lib.Bytes Lib.Kv Lib.Coins Tokenfactory.Model Tokenfactory.Spec Tokenfactory.Proofs Tokenfactory.HistoryProofs.
Open Scope Z_scope.

Section Control.
Variables (dec : bytes -> option Z) (enc : Z -> bytes) (M P : Z) (gov : bytes).
Hypothesis AF : address_format dec enc.

(* A mint succeeds exactly when the sender is the recorded admin of the coin, the amount is
   positive and the account may receive; then the balance of the sender and the supply
   grow by the amount and nothing else changes.  It never panics. *)
Theorem C83_mint : forall s e c d x, reachable dec enc M P gov s -> env_ok M e ->
  mint dec enc M e s c d x <> Panic /\
  (is_ok (mint dec enc M e s c d x) = true <->
     0 < x /\ controlled_by s d c /\ exists a, dec c = Some a /\ e_blocked e a = false) /\
  forall s', mint dec enc M e s c d x = Ok s' ->
    exists a, dec c = Some a /\
      (forall a' d', f_bal s' a' d' = f_bal s a' d' + if (a' =? a) && beqb d' d then x else 0) /\
      (forall d', f_sup s' d' = f_sup s d' + if beqb d' d then x else 0) /\
      f_store s' = f_store s /\ f_meta s' = f_meta s /\ f_fee s' = f_fee s.
Proof.
  intros s e c d x R EO. apply (reachable_good _ _ _ _ _ AF) in R. split; [apply mint_no_panic|]. split; [exact (mint_when _ _ _ AF e s c d x R EO)|].
  intros s' H. apply mint_inv in H as (_ & _ & _ & _ & a & D & _ & PL). exists a. split; [exact D|exact PL].
Qed.

(* A burn succeeds exactly when the sender can spend the amount; then the balance of the
   sender and the supply shrink by the amount and nothing else changes.  It never panics. *)
Theorem C83_burn : forall s e c d x, reachable dec enc M P gov s -> env_ok M e ->
  burn dec M e s c d x <> Panic /\
  (is_ok (burn dec M e s c d x) = true <->
     0 < x /\ valid_denom d = true /\ exists a, dec c = Some a /\ x <= f_bal s a d - e_locked e a d) /\
  forall s', burn dec M e s c d x = Ok s' ->
    exists a, dec c = Some a /\
      (forall a' d', f_bal s' a' d' = f_bal s a' d' + if (a' =? a) && beqb d' d then - x else 0) /\
      (forall d', f_sup s' d' = f_sup s d' + if beqb d' d then - x else 0) /\
      f_store s' = f_store s /\ f_meta s' = f_meta s /\ f_fee s' = f_fee s.
Proof.
  intros s e c d x R EO. apply (reachable_good _ _ _ _ _ AF) in R. destruct (burn_spec dec enc M e s c d x R EO) as (N & W & B).
  split; [exact N|]. split; [exact W|]. intros s' H. destruct (B s' H) as (a & D & _ & _ & PL). exists a. split; [exact D|exact PL].
Qed.

(* Handing over succeeds exactly when the sender is the admin and the new admin is an
   account; then the new admin is recorded for this coin and nothing else changes. *)
Theorem C83_hand_over : forall s c d n, reachable dec enc M P gov s ->
  change_admin dec enc s c d n <> Panic /\
  (is_ok (change_admin dec enc s c d n) = true <-> controlled_by s d c /\ dec n <> None) /\
  forall s', change_admin dec enc s c d n = Ok s' ->
    (forall d', get_admin s' d' = if beqb d' d then n else get_admin s d') /\ (forall k, dec k <> None -> denoms_of s' k = denoms_of s k) /\
    f_meta s' = f_meta s /\ f_fee s' = f_fee s /\ f_bal s' = f_bal s /\ f_sup s' = f_sup s.
Proof.
  intros s c d n R. apply (reachable_good _ _ _ _ _ AF) in R. destruct (change_spec dec enc AF s c d n R) as (N & W & C).
  split; [exact N|]. split; [exact W|]. intros s' H. destruct (C s' H) as ([A Ne] & Dn & _ & E).
  assert (G' : good dec enc s') by (rewrite E; apply good_admin; [exact R|rewrite get_admin_ne; [discriminate|rewrite A; exact Ne]|exact Dn]).
  split; [intro d'; rewrite E; apply get_admin_set; exact (g_sorted _ _ s R)|]. split; [|rewrite E; split; [reflexivity|split; [reflexivity|split; reflexivity]]].
  intros k Dk. pose proof (denoms_sorted _ _ AF s k R Dk) as S1. pose proof (denoms_sorted _ _ AF s' k G' Dk) as S2.
  assert (In_eq : forall x, In x (denoms_of s' k) <-> In x (denoms_of s k)).
  { intro x. rewrite (denoms_in _ _ AF s' k x G' Dk), (denoms_in _ _ AF s k x R Dk). rewrite E. cbn [set_store f_store].
    rewrite (kget_kset _ _ _ _ (g_sorted _ _ s R)). destruct (beqb (creator_prefix k ++ x) (authority_key d)) eqn:Q; [|reflexivity].
    apply beqb_spec in Q. symmetry in Q. destruct (key_kinds _ _ _ Q). }
  clear - S1 S2 In_eq. revert S1 S2 In_eq. generalize (denoms_of s' k) as l', (denoms_of s k) as l.
  induction l' as [|x l' IH]; intros [|y l] S1 S2 I0; [reflexivity|destruct (proj2 (I0 y) (or_introl eq_refl))|destruct (proj1 (I0 x) (or_introl eq_refl))|].
  inversion S1 as [|? ? A1 B1]; subst. inversion S2 as [|? ? A2 B2]; subst. rewrite Forall_forall in B1, B2.
  assert (x = y).
  { destruct (proj1 (I0 x) (or_introl eq_refl)) as [Q|Q]; [symmetry; exact Q|]. destruct (proj2 (I0 y) (or_introl eq_refl)) as [Q2|Q2]; [exact Q2|].
    destruct (blt_irrefl x (blt_trans _ _ _ (B2 y Q2) (B1 x Q))). }
  subst y. f_equal. apply IH; [exact A1|exact A2|]. intro z. split; intro Iz.
  - destruct (proj1 (I0 z) (or_intror Iz)) as [<-|Q]; [destruct (blt_irrefl x (B2 x Iz))|exact Q].
  - destruct (proj2 (I0 z) (or_intror Iz)) as [<-|Q]; [destruct (blt_irrefl x (B1 x Iz))|exact Q].
Qed.

(* Whatever happens on the chain, only a mint by the admin raises the supply of a user-made
   coin, and only a burn by a holder of at least that amount lowers it. *)
Theorem C83_only_admin : forall s e o d, reachable dec enc M P gov s -> env_ok M e -> is_factory dec enc d ->
  let s' := step dec enc M P gov e s o in
  (f_sup s d < f_sup s' d -> exists x, o = OMint (get_admin s d) d x /\ get_admin s d <> [] /\ f_sup s' d = f_sup s d + x) /\
  (f_sup s' d < f_sup s d -> exists c x a, o = OBurn c d x /\ dec c = Some a /\ x <= f_bal s a d /\
     f_bal s' a d = f_bal s a d - x /\ f_sup s' d = f_sup s d - x).
Proof.
  intros s e o d R EO FD s'. apply (reachable_good _ _ _ _ _ AF) in R. subst s'. unfold step.
  destruct (run dec enc M P gov e s o) as [s'| |] eqn:H; [|split; intro; lia|split; intro; lia].
  pose proof (run_sup _ _ _ _ _ AF _ _ _ _ d R EO FD H) as Su. destruct o as [c sub n y k|c e0 x|c e0 x|c e0 n|c m|c fee|from to e0 x|a e0 x|m|]; cbn [net1] in Su; try (split; intro; lia).
  - cbn [run] in H. apply mint_inv in H as (X & A & _ & _ & a & D & _ & _). destruct (beqb e0 d) eqn:E; [|split; intro; lia].
    apply beqb_spec in E as ->. split; [|intro; lia]. intros _. exists x. split; [rewrite A; reflexivity|]. split; [|exact Su].
    rewrite A. exact (proj1 (dec_clean _ _ AF _ _ D)).
  - cbn [run] in H. destruct (burn_spec dec enc M e s c e0 x R EO) as (_ & _ & B). destruct (B s' H) as (a & D & F & X & Ba & _).
    destruct (beqb e0 d) eqn:E; [|split; intro; lia]. apply beqb_spec in E as ->. split; [intro; lia|]. intros _.
    exists c, x, a. split; [reflexivity|]. split; [exact D|]. pose proof (proj1 EO a d). split; [lia|]. split; [|lia].
    rewrite Ba, Z.eqb_refl, beqb_refl. cbn [andb]. lia.
Qed.

(* The admin of a coin is first the account that created it; it changes only by a message
   of the admin, and to an account; it is never lost, not even by a restart. *)
Theorem C83_admin_history : forall s e o d, reachable dec enc M P gov s -> env_ok M e ->
  let s' := step dec enc M P gov e s o in
  (get_admin s' d <> get_admin s d ->
     (get_admin s d = [] /\ exists sub n y k, o = OCreate (get_admin s' d) sub n y k /\ token_denom dec enc (get_admin s' d) sub = Some d) \/
     (get_admin s d <> [] /\ o = OChangeAdmin (get_admin s d) d (get_admin s' d))) /\
  (get_admin s d <> [] -> get_admin s' d <> []) /\
  (get_admin s d <> [] -> dec (get_admin s d) <> None /\ is_factory dec enc d).
Proof.
  intros s e o d R EO s'. apply (reachable_good _ _ _ _ _ AF) in R. subst s'. unfold step.
  assert (Last : get_admin s d <> [] -> dec (get_admin s d) <> None /\ is_factory dec enc d).
  { intro N. pose proof (get_admin_ne _ _ N) as K. apply (admin_dec _ _ s d R). rewrite K. discriminate. }
  destruct (run dec enc M P gov e s o) as [s'| |] eqn:H; [|split; [intro N; destruct N; reflexivity|split; [intro; assumption|exact Last]]|split; [intro N; destruct N; reflexivity|split; [intro; assumption|exact Last]]].
  pose proof (run_admin _ _ _ _ _ AF _ _ _ _ d R EO H) as Ad.
  destruct o as [c sub n y k|c e0 x|c e0 x|c e0 n|c m|c fee|from to e0 x|a e0 x|m|]; cbn [admin_after] in Ad;
    try (split; [intro N; rewrite Ad in N; destruct N; reflexivity|split; [rewrite Ad; intro; assumption|exact Last]]).
  - cbn [run] in H. destruct (create dec enc P e s c sub n y k) as [[e0 s1]| |] eqn:C; cbn [rbind snd] in H; try discriminate H.
    apply (create_inv _ _ _ AF) in C as (a & s2 & T & D & _ & K & _). rewrite T in Ad.
    destruct (beqb d e0) eqn:E; [|split; [intro N; rewrite Ad in N; destruct N; reflexivity|split; [rewrite Ad; intro; assumption|exact Last]]].
    apply beqb_spec in E as ->. rewrite Ad. split; [|split; [intros _; exact (proj1 (dec_clean _ _ AF _ _ D))|exact Last]].
    intros _. left. split; [apply (get_admin_none _ _ AF s e0 R); exact (no_meta_no_admin _ _ s e0 R K)|]. exists sub, n, y, k. split; [reflexivity|exact T].
  - cbn [run] in H. destruct (change_spec dec enc AF s c e0 n R) as (_ & _ & C). destruct (C s' H) as ([A Ne] & Dn & _ & _).
    destruct (beqb d e0) eqn:E; [|split; [intro N; rewrite Ad in N; destruct N; reflexivity|split; [rewrite Ad; intro; assumption|exact Last]]].
    apply beqb_spec in E as ->. rewrite Ad. split; [|split; [|exact Last]].
    + intros _. right. split; [rewrite A; exact Ne|]. rewrite A. reflexivity.
    + intros _. destruct (dec n) as [z|] eqn:Dz; [|destruct Dn; reflexivity]. exact (proj1 (dec_clean _ _ AF _ _ Dz)).
Qed.

(* From the start of the chain, after any history, restarts included, the supply of a
   user-made coin is what the accepted mints made minus what the accepted burns destroyed. *)
Theorem C83_supply : forall s0 l d, initial dec enc s0 -> Forall (fun q => env_ok M (fst q)) l -> is_factory dec enc d ->
  f_sup (runs dec enc M P gov s0 l) d = net dec enc M P gov s0 l d.
Proof.
  intros s0 l d I0 F FD.
  assert (E : forall l s, good dec enc s -> Forall (fun q => env_ok M (fst q)) l -> f_sup (runs dec enc M P gov s l) d = f_sup s d + net dec enc M P gov s l d).
  { clear s0 l I0 F. induction l as [|[e o] l IH]; intros s G F; cbn [runs net]; [lia|]. inversion F as [|? ? F1 F2]; subst. cbn [fst] in F1.
    rewrite (IH _ (step_good _ _ _ _ _ AF e s o G F1) F2). unfold step. destruct (run dec enc M P gov e s o) as [s'| |] eqn:H; cbn [is_ok]; [|lia|lia].
    rewrite (run_sup _ _ _ _ _ AF _ _ _ _ d G F1 FD H). lia. }
  rewrite (E l s0 (initial_good _ _ s0 I0) F). destruct I0 as (_ & _ & _ & _ & _ & _ & _ & Z0). rewrite (proj2 (Z0 d FD)). lia.
Qed.

(* The supply of every coin is at any time the sum of what all accounts hold, and no
   account holds a negative amount. *)
Theorem C83_backed : forall s d, reachable dec enc M P gov s -> backed s d /\ forall a, 0 <= f_bal s a d.
Proof. intros s d R. apply (reachable_good _ _ _ _ _ AF) in R. split; [exact (g_backed _ _ s R d)|]. intro a. exact (g_pos _ _ s R a d). Qed.

(* The documentation says an admin may give up the role by handing it to nobody: no message
   can do that. *)
Theorem C83_giving_up_refuted : forall s c d, change_admin dec enc s c d [] = Err.
Proof. intros s c d. unfold change_admin. rewrite (dec_nil _ _ AF). cbn [is_some negb]. rewrite orb_true_r. reflexivity. Qed.
End Control.
Print Assumptions C83_mint. Print Assumptions C83_burn. Print Assumptions C83_hand_over. Print Assumptions C83_only_admin.
Print Assumptions C83_admin_history. Print Assumptions C83_supply. Print Assumptions C83_backed. Print Assumptions C83_giving_up_refuted.

(* ---------- a concrete history ---------- *)
Definition tM : Z := 100.
Definition tP : Z := 101.
Definition tgov : bytes := [104; 57]%N.            (* h9 *)
Definition h1 : bytes := [104; 49]%N.
Definition H1 : bytes := [72; 49]%N.               (* the same account in upper case *)
Definition h2 : bytes := [104; 50]%N.
Definition gold : bytes := [103; 111; 108; 100]%N.
Definition fgold : bytes := factory ++ [47; 104; 49; 47]%N ++ gold.
Definition te : env := mk_env (fun _ _ => 0) (fun a => a =? 7) (fun _ => true).
(* account 1 holds 50 and account 2 holds 5 of the native coin; creating costs 10 *)
Definition t0 : st :=
  mk_st [] [(ahelios, 10)] []
    (fun a d => if beqb d ahelios then (if a =? 1 then 50 else if a =? 2 then 5 else 0) else 0)
    (fun d => if beqb d ahelios then 55 else 0).
Lemma te_ok : env_ok tM te. Proof. split; intros; cbn; lia. Qed.
Lemma t0_initial : initial toy_dec toy_enc t0.
Proof.
  split; [reflexivity|]. split; [apply cvalidb_spec; reflexivity|]. split; [reflexivity|]. split; [apply ksorted_nil|]. split; [intros; discriminate|]. split.
  { intros a d. cbn. destruct (beqb d ahelios), (a =? 1), (a =? 2); lia. }
  split.
  - intro d. exists [1; 2]. split; [repeat constructor; cbn; intuition discriminate|]. cbn. split.
    + intros a N. destruct (beqb d ahelios); [|reflexivity]. destruct (a =? 1) eqn:E1; [apply Z.eqb_eq in E1; subst a; destruct N; left; reflexivity|].
      destruct (a =? 2) eqn:E2; [apply Z.eqb_eq in E2; subst a; destruct N; right; left; reflexivity|reflexivity].
    + destruct (beqb d ahelios); reflexivity.
  - intros d FD. split; [reflexivity|]. cbn. destruct (beqb d ahelios) eqn:E; [|reflexivity]. apply beqb_spec in E as ->. destruct FD. reflexivity.
Qed.
Definition thist : list (env * op) :=
  [(te, OCreate h1 gold [71]%N [71]%N 6); (te, OMint h1 fgold 100); (te, OSend 1 2 fgold 30); (te, OBurn h2 fgold 10);
   (te, OChangeAdmin h1 fgold h2); (te, ORestart); (te, OMint h1 fgold 5); (te, OMint h2 fgold 7)].
Definition trun := runs toy_dec toy_enc tM tP tgov.
Lemma thist_ok : Forall (fun q => env_ok tM (fst q)) thist. Proof. repeat (constructor; [exact te_ok|]). constructor. Qed.
Lemma treach l : Forall (fun q => env_ok tM (fst q)) l -> reachable toy_dec toy_enc tM tP tgov (trun t0 l).
Proof. intro F. exists t0, l. split; [exact t0_initial|]. split; [exact F|reflexivity]. Qed.
(* the coin is created, minted, passed on, partly burnt, handed over; after a restart the old
   admin can no longer mint and the new one can *)
Example C83_example : let s := trun t0 thist in
  reachable toy_dec toy_enc tM tP tgov s /\ f_sup s fgold = 97 /\ f_bal s 1 fgold = 70 /\ f_bal s 2 fgold = 27 /\
  f_bal s 1 ahelios = 40 /\ f_bal s tP ahelios = 10 /\ get_admin s fgold = h2 /\ net toy_dec toy_enc tM tP tgov t0 thist fgold = 97 /\
  is_factory toy_dec toy_enc fgold.
Proof. split; [exact (treach _ thist_ok)|]. repeat (split; [vm_compute; reflexivity|]). vm_compute. discriminate. Qed.

(* One account, two ways to write it: who created a coin with the upper-case form of their
   address is not its admin when they write the address in lower case. *)
Theorem C83_same_account_refuted : exists s e, reachable toy_dec toy_enc tM tP tgov s /\ env_ok tM e /\
  toy_dec h1 = toy_dec H1 /\ toy_dec (get_admin s fgold) = toy_dec h1 /\ e_blocked e 1 = false /\ mint toy_dec toy_enc tM e s h1 fgold 1 = Err.
Proof.
  exists (trun t0 [(te, OCreate H1 gold [71]%N [71]%N 6)]), te. split; [apply treach; repeat (constructor; [exact te_ok|]); constructor|]. split; [exact te_ok|].
  vm_compute. repeat split.
Qed.
(* The documentation says burning is only allowed for the admin: any holder can. *)
Theorem C83_burn_by_admin_refuted : exists s e s', reachable toy_dec toy_enc tM tP tgov s /\ env_ok tM e /\
  get_admin s fgold = h1 /\ burn toy_dec tM e s h2 fgold 10 = Ok s' /\ f_sup s' fgold = f_sup s fgold - 10.
Proof.
  exists (trun t0 (firstn 3 thist)), te. eexists. split; [apply treach; repeat (constructor; [exact te_ok|]); constructor|]. split; [exact te_ok|].
  split; [vm_compute; reflexivity|]. split; [reflexivity|]. vm_compute. reflexivity.
Qed.
(* ... and that only coins of the factory can be burnt: the native coin can be burnt too. *)
Theorem C83_burn_factory_refuted : exists s e s', reachable toy_dec toy_enc tM tP tgov s /\ env_ok tM e /\
  burn toy_dec tM e s h1 ahelios 20 = Ok s' /\ f_sup s ahelios = 55 /\ f_sup s' ahelios = 35.
Proof.
  exists t0, te. eexists. split; [exact (treach [] (Forall_nil _))|]. split; [exact te_ok|]. split; [reflexivity|]. split; reflexivity.
Qed.
Print Assumptions C83_same_account_refuted. Print Assumptions C83_burn_by_admin_refuted. Print Assumptions C83_burn_factory_refuted.
