(* C85: the author of a contract, and nobody else, decides who is paid for its calls. *)
From Coq Require Import Sorted.
From Verif Require Import Lib.Base Lib.Bytes Lib.Kv Revenue.Model Revenue.Spec Revenue.Proofs Revenue.HistoryProofs.
Open Scope Z_scope.

(* nothing but the entry of contract c differs *)
Definition only_entry (s s' : st) (c : bytes) : Prop :=
  v_on s' = v_on s /\ v_share s' = v_share s /\ v_bal s' = v_bal s /\ forall c', c' <> c -> get s' c' = get s c'.

(* A contract is entered exactly when sharing is on, it is not entered yet, it exists and
   has code, and the sender - an existing account without code - shows 1 to 20 nonces from
   which the address of the contract follows. The sender becomes its author, and the
   account named, or else the author, is paid. Nothing else changes. *)
Theorem C85_register dec enc create FC gov : address_format dec enc -> create_format create ->
  forall s, reachable dec enc create FC gov s ->
  forall e dt c wt n,
  ((exists s', run dec enc create FC gov e s (ORegister dt c wt n) = Ok s') <->
   exists d, dec dt = Some d /\ contract_ok c = true /\ (wt = [] \/ dec wt <> None) /\ (1 <= length n <= 20)%nat /\
     v_on s = true /\ get s c = None /\ e_exists e (to20 d) = true /\ e_code e (to20 d) = false /\
     e_exists e c = true /\ e_code e c = true /\ c = derived create d n) /\
  forall s' d, run dec enc create FC gov e s (ORegister dt c wt n) = Ok s' -> dec dt = Some d ->
    author dec s' c = Some d /\ payee dec s' c = (match wt with [] => Some d | _ => dec wt end) /\ only_entry s s' c.
Proof.
  intros AF CF s R e dt c wt n. pose proof (reachable_good _ _ _ _ _ AF CF s R) as G. cbn [run]. split.
  - split.
    + intros (s' & H). apply (proj1 (register_spec dec enc create e s dt c wt n s' G)) in H as (d & M & _). exists d. exact M.
    + intros (d & M). eexists. apply (proj2 (register_spec dec enc create e s dt c wt n _ G)). exists d. split; [exact M|reflexivity].
  - intros s' d H D. apply (proj1 (register_spec dec enc create e s dt c wt n s' G)) in H as (d' & (D' & C & W & _) & ->).
    assert (d' = d) by congruence. subst d'. pose proof (dec_account dec enc AF _ _ D) as Ad.
    set (w := wanted dec dt wt). set (r := new_rev enc c d w).
    assert (Ge : forall c', get (enter s r d w) c' = if beqb c' c then Some r else get s c') by (intro c'; apply (enter_get s r d w c' (g_sorted _ _ s G))).
    assert (Gc : get (enter s r d w) c = Some r) by (rewrite Ge, beqb_refl; reflexivity).
    split; [unfold author; rewrite Gc; exact (enc_dec dec enc AF d Ad)|]. split.
    + unfold payee. rewrite Gc. unfold r, new_rev. cbn [r_withdrawer r_deployer]. destruct w as [|x w'] eqn:Q.
      * rewrite (enc_dec dec enc AF d Ad). unfold w, wanted in Q. destruct wt as [|y wt]; [reflexivity|].
        destruct (beqb_case (y :: wt) dt) as [[X E]|[X E]]; rewrite E in Q; [congruence|]. destruct (dec (y :: wt)) as [v|] eqn:V.
        -- subst v. destruct (dec_account dec enc AF _ _ V) as [Y _]. congruence.
        -- destruct W as [W|W]; congruence.
      * assert (V : dec wt = Some w) by (apply (wanted_dec dec dt wt W); fold w; rewrite Q; discriminate).
        rewrite Q in V. destruct wt as [|y wt]; [destruct (dec_ne dec enc AF _ _ V eq_refl)|]. rewrite V.
        pose proof (dec_account dec enc AF _ _ V) as Aw. pose proof (enc_ne dec enc AF _ Aw) as N. destruct (enc (x :: w')) eqn:Z1; [congruence|].
        rewrite <- Z1. exact (enc_dec dec enc AF _ Aw).
    + destruct (enter_same s r d w) as (O & SH & B). split; [exact O|]. split; [exact SH|]. split; [exact B|].
      intros c' N. rewrite Ge, (beqb_neq _ _ N). reflexivity.
Qed.

(* The author changes who is paid, exactly when sharing is on and the change is one. *)
Theorem C85_update dec enc create FC gov : address_format dec enc -> create_format create ->
  forall s, reachable dec enc create FC gov s ->
  forall e dt c wt,
  ((exists s', run dec enc create FC gov e s (OUpdate dt c wt) = Ok s') <->
   contract_ok c = true /\ dec wt <> None /\ v_on s = true /\
   exists r, get s c = Some r /\ dt = r_deployer r /\ (if beqb wt dt then [] else wt) <> r_withdrawer r) /\
  forall s', run dec enc create FC gov e s (OUpdate dt c wt) = Ok s' ->
    author dec s' c = author dec s c /\ payee dec s' c = dec wt /\ only_entry s s' c.
Proof.
  intros AF CF s R e dt c wt. pose proof (reachable_good _ _ _ _ _ AF CF s R) as G. cbn [run]. split.
  - split.
    + intros (s' & H). apply (proj1 (update_spec dec enc s dt c wt s' G)) in H as (r & (C & W & O & E & D & N) & _).
      split; [exact C|]. split; [exact W|]. split; [exact O|]. exists r. split; [exact E|]. split; [exact D|exact N].
    + intros (C & W & O & r & E & D & N). eexists. apply (proj2 (update_spec dec enc s dt c wt _ G)). exists r. split; [|reflexivity].
      split; [exact C|]. split; [exact W|]. split; [exact O|]. split; [exact E|]. split; [exact D|exact N].
  - intros s' H. apply (proj1 (update_spec dec enc s dt c wt s' G)) in H as (r & (C & W & O & E & D & N) & ->).
    destruct (g_rev _ _ s G c r E) as (Rc & _ & (d & D1 & D2) & _).
    assert (Ge : forall c', get (updated dec s c wt r) c' = if beqb c' c then Some (mk_rev c (r_deployer r) (new_text (r_deployer r) wt)) else get s c').
    { intro c'. rewrite (updated_get dec s c wt r c' (g_sorted _ _ s G)), Rc. reflexivity. }
    assert (Gc := Ge c). rewrite beqb_refl in Gc.
    split; [unfold author; rewrite Gc, E; reflexivity|]. split.
    + unfold payee. rewrite Gc. cbn [r_withdrawer r_deployer]. unfold new_text.
      destruct (beqb_case wt (r_deployer r)) as [[X Q]|[X Q]]; rewrite Q; [rewrite X; reflexivity|]. destruct wt as [|y wt]; [|reflexivity].
      destruct (dec []) eqn:V; [destruct (dec_ne dec enc AF _ _ V eq_refl)|congruence].
    + destruct (updated_same dec s c wt r) as (O' & SH & B). split; [exact O'|]. split; [exact SH|]. split; [exact B|].
      intros c' N'. rewrite Ge, (beqb_neq _ _ N'). reflexivity.
Qed.

(* The author withdraws the contract, exactly when sharing is on. *)
Theorem C85_cancel dec enc create FC gov : address_format dec enc -> create_format create ->
  forall s, reachable dec enc create FC gov s ->
  forall e dt c,
  ((exists s', run dec enc create FC gov e s (OCancel dt c) = Ok s') <->
   contract_ok c = true /\ v_on s = true /\ exists r, get s c = Some r /\ dt = r_deployer r) /\
  forall s', run dec enc create FC gov e s (OCancel dt c) = Ok s' -> get s' c = None /\ only_entry s s' c.
Proof.
  intros AF CF s R e dt c. pose proof (reachable_good _ _ _ _ _ AF CF s R) as G. cbn [run]. split.
  - split.
    + intros (s' & H). apply (proj1 (cancel_spec dec enc s dt c s' G)) in H as (r & (C & O & E & D) & _).
      split; [exact C|]. split; [exact O|]. exists r. split; assumption.
    + intros (C & O & r & E & D). eexists. apply (proj2 (cancel_spec dec enc s dt c _ G)). exists r. split; [|reflexivity].
      split; [exact C|]. split; [exact O|]. split; [exact E|exact D].
  - intros s' H. apply (proj1 (cancel_spec dec enc s dt c s' G)) in H as (r & (C & O & E & D) & ->).
    destruct (g_rev _ _ s G c r E) as (Rc & _ & (d & D1 & D2) & _).
    assert (Ge : forall c', get (cancelled dec s c r) c' = if beqb c' c then None else get s c').
    { intro c'. rewrite (cancelled_get dec s c r d c' (g_sorted _ _ s G) D1), Rc. reflexivity. }
    split; [rewrite Ge, beqb_refl; reflexivity|]. destruct (cancelled_same dec s c r) as (O' & SH & B). split; [exact O'|]. split; [exact SH|]. split; [exact B|].
    intros c' N'. rewrite Ge, (beqb_neq _ _ N'). reflexivity.
Qed.

(* Creating a contract by a transaction enters it, with its creator as author and paid. *)
Theorem C85_created dec enc create FC gov : address_format dec enc -> create_format create ->
  forall s, reachable dec enc create FC gov s ->
  forall e d n, length d = 20%nat -> bytes_ok d ->
  let s' := step dec enc create FC gov e s (OCreated d n) in
  only_entry s s' (create d n) /\
  if v_on s && negb (v_share s =? 0) && negb (registered s (create d n))
  then author dec s' (create d n) = Some d /\ payee dec s' (create d n) = Some d
  else s' = s.
Proof.
  intros AF CF s R e d n L B s'. pose proof (reachable_good _ _ _ _ _ AF CF s R) as G. unfold s', step. cbn [run].
  pose proof (sender_account d L B) as Ad. rewrite (created_spec dec enc s (create d n) d G (CF d n) Ad), (good_reg dec enc s _ G).
  assert (Refl : only_entry s s (create d n)) by (split; [reflexivity|split; [reflexivity|split; reflexivity]]).
  destruct (v_on s && negb (v_share s =? 0))%bool; [|split; [exact Refl|reflexivity]].
  destruct (get s (create d n)) eqn:E; [split; [exact Refl|reflexivity]|]. cbn [andb negb].
  set (r := new_rev enc (create d n) d d).
  assert (Ge : forall c', get (enter s r d []) c' = if beqb c' (create d n) then Some r else get s c') by (intro c'; apply (enter_get s r d [] c' (g_sorted _ _ s G))).
  assert (Gc := Ge (create d n)). rewrite beqb_refl in Gc.
  destruct (enter_same s r d []) as (O & SH & Bl). split.
  - split; [exact O|]. split; [exact SH|]. split; [exact Bl|]. intros c' N. rewrite Ge, (beqb_neq _ _ N). reflexivity.
  - unfold author, payee. rewrite Gc. unfold r, new_rev. cbn [r_deployer r_withdrawer]. split; [exact (enc_dec dec enc AF d Ad)|].
    destruct d as [|x d]; [discriminate|]. destruct (enc (x :: d)) eqn:Z1; [destruct (enc_ne dec enc AF _ Ad Z1)|].
    rewrite <- Z1. exact (enc_dec dec enc AF _ Ad).
Qed.

(* Nothing else on the chain changes an entry: it appears by registration or creation, and
   changes or disappears only by a message of its author. *)
Theorem C85_only_author dec enc create FC gov : address_format dec enc -> create_format create ->
  forall s, reachable dec enc create FC gov s ->
  forall e o c, op_ok o -> get (step dec enc create FC gov e s o) c <> get s c ->
  match get s c with
  | None => (exists dt wt n, o = ORegister dt c wt n) \/ (exists d n, o = OCreated d n /\ c = create d n)
  | Some r => (exists wt, o = OUpdate (r_deployer r) c wt) \/ o = OCancel (r_deployer r) c
  end.
Proof.
  intros AF CF s R e o c OK. pose proof (reachable_good _ _ _ _ _ AF CF s R) as G.
  unfold step. destruct (run dec enc create FC gov e s o) as [s'| |] eqn:H; [|congruence|congruence]. intro N.
  destruct o as [dt c0 wt n|dt c0 wt|dt c0|a on sh|d n|to p u|b|]; cbn [run] in H.
  - assert (c = c0).
    { destruct (beqb_case c c0) as [[X _]|[X _]]; [exact X|]. destruct N.
      pose proof (proj1 (register_spec dec enc create e s dt c0 wt n s' G) H) as (d & (D & _) & _).
      apply (proj2 (C85_register dec enc create FC gov AF CF s R e dt c0 wt n) s' d H D). exact X. }
    subst c0. pose proof (proj1 (register_spec dec enc create e s dt c wt n s' G) H) as (d & (_ & _ & _ & _ & _ & E & _) & _). rewrite E.
    left. exists dt, wt, n. reflexivity.
  - assert (c = c0).
    { destruct (beqb_case c c0) as [[X _]|[X _]]; [exact X|]. destruct N.
      apply (proj2 (C85_update dec enc create FC gov AF CF s R e dt c0 wt) s' H). exact X. }
    subst c0. pose proof (proj1 (update_spec dec enc s dt c wt s' G) H) as (r & (_ & _ & _ & E & -> & _) & _). rewrite E. left. exists wt. reflexivity.
  - assert (c = c0).
    { destruct (beqb_case c c0) as [[X _]|[X _]]; [exact X|]. destruct N.
      apply (proj2 (C85_cancel dec enc create FC gov AF CF s R e dt c0) s' H). exact X. }
    subst c0. pose proof (proj1 (cancel_spec dec enc s dt c s' G) H) as (r & (_ & _ & E & ->) & _). rewrite E. right. reflexivity.
  - exfalso. apply N. unfold update_params in H. destruct (negb (is_addr dec a)); [discriminate|].
    destruct (negb ((0 <=? sh) && (sh <=? ONE))); [discriminate|]. destruct (negb (beqb gov a)); [discriminate|]. injection H as <-. reflexivity.
  - destruct OK as [L B]. injection H as <-.
    assert (c = create d n).
    { destruct (beqb_case c (create d n)) as [[X _]|[X _]]; [exact X|]. destruct N.
      apply (proj1 (C85_created dec enc create FC gov AF CF s R e d n L B)). exact X. }
    rewrite (created_spec dec enc s (create d n) d G (CF d n) (sender_account d L B)) in N.
    destruct (v_on s && negb (v_share s =? 0))%bool; [|congruence]. rewrite <- H in N. destruct (get s c) eqn:E; [congruence|].
    right. exists d, n. split; [reflexivity|exact H].
  - exfalso. apply N. unfold after_tx in H. destruct to as [c0|]; [|congruence]. destruct (p <=? 0); [congruence|].
    destruct (negb (v_on s) || (v_share s =? 0))%bool; [congruence|]. destruct (e_precompile e c0); [congruence|].
    destruct (get s c0) as [r|] eqn:E; [|congruence]. destruct (payee_get dec enc s c0 r G E) as (q & _ & P2). rewrite P2 in H. cbn [rbind] in H. unfold pay in H.
    destruct (e_blocked e q); [congruence|]. destruct (dev_fee (v_share s) u p <=? 0); [congruence|].
    destruct (v_bal s FC <? dev_fee (v_share s) u p); injection H as <-; reflexivity.
  - exfalso. apply N. injection H as <-. reflexivity.
  - exfalso. apply N. destruct (restart_spec dec enc AF s G) as (s1 & R1 & _ & _ & _ & _ & _ & E). rewrite R1 in H. injection H as <-. apply E.
Qed.

(* Whoever is entered as author of a contract made it: directly, or through contracts. *)
Theorem C85_genuine dec enc create FC gov : address_format dec enc -> create_format create ->
  forall s, reachable dec enc create FC gov s ->
  forall c d, author dec s c = Some d -> exists n, (1 <= length n <= 20)%nat /\ c = derived create d n.
Proof.
  intros AF CF s (s0 & l & I & F & ->).
  assert (R0 : reachable dec enc create FC gov s0) by (exists s0, []; split; [exact I|]; split; [constructor|reflexivity]).
  assert (P0 : forall c d, author dec s0 c = Some d -> exists n, (1 <= length n <= 20)%nat /\ c = derived create d n).
  { intros c d A. destruct I as [E _]. unfold author, get in A. rewrite E in A. discriminate. }
  clear I. revert s0 R0 P0. induction l as [|[e o] l IH]; intros s0 R0 P0; [exact P0|].
  inversion F as [|? ? F1 F2]; subst. cbn [snd] in F1. cbn [runs]. apply (IH F2); [apply reachable_step; assumption|].
  pose proof (reachable_good _ _ _ _ _ AF CF s0 R0) as G.
  intros c d A.
  destruct (author dec s0 c) as [d0|] eqn:A0.
  - destruct (beqb_case d0 d) as [[-> _]|[N _]]; [exact (P0 c d A0)|]. exfalso.
    pose proof (author_get _ _ _ _ A0) as (r & E & D0).
    assert (Ch : get (step dec enc create FC gov e s0 o) c <> get s0 c).
    { intro X. unfold author in A, A0. rewrite X in A. congruence. }
    pose proof (C85_only_author dec enc create FC gov AF CF s0 R0 e o c F1 Ch) as K. rewrite E in K. destruct K as [[wt ->]|K]; [|subst o].
    + unfold step in A. destruct (run dec enc create FC gov e s0 (OUpdate (r_deployer r) c wt)) as [s1| |] eqn:H; [|congruence|congruence].
      destruct (proj2 (C85_update dec enc create FC gov AF CF s0 R0 e (r_deployer r) c wt) s1 H) as [X _]. congruence.
    + unfold step in A. destruct (run dec enc create FC gov e s0 (OCancel (r_deployer r) c)) as [s1| |] eqn:H; [|congruence|congruence].
      destruct (proj2 (C85_cancel dec enc create FC gov AF CF s0 R0 e (r_deployer r) c) s1 H) as [X _]. unfold author in A. rewrite X in A. discriminate.
  - assert (E : get s0 c = None).
    { destruct (get s0 c) as [r|] eqn:E; [|reflexivity]. destruct (good_author dec enc s0 c r G E) as (d1 & X & _). congruence. }
    assert (Ch : get (step dec enc create FC gov e s0 o) c <> get s0 c).
    { intro X. unfold author in A. rewrite X, E in A. discriminate. }
    pose proof (C85_only_author dec enc create FC gov AF CF s0 R0 e o c F1 Ch) as K. rewrite E in K. destruct K as [(dt & wt & n & ->) | (d1 & n & -> & ->)].
    + unfold step in A. destruct (run dec enc create FC gov e s0 (ORegister dt c wt n)) as [s1| |] eqn:H; [|congruence|congruence].
      destruct (proj1 (proj1 (C85_register dec enc create FC gov AF CF s0 R0 e dt c wt n)) (ex_intro _ s1 H)) as (d1 & D & _ & _ & L & _ & _ & _ & _ & _ & _ & X).
      destruct (proj2 (C85_register dec enc create FC gov AF CF s0 R0 e dt c wt n) s1 d1 H D) as [Y _].
      assert (d1 = d) by congruence. subst d1. exists n. split; [exact L|exact X].
    + destruct F1 as [L B]. pose proof (C85_created dec enc create FC gov AF CF s0 R0 e d1 n L B) as K. cbv zeta in K.
      destruct (v_on s0 && negb (v_share s0 =? 0) && negb (registered s0 (create d1 n)))%bool.
      * destruct K as [_ [Y _]]. assert (d1 = d) by congruence. subst d1. exists [n]. split; [cbn [length]; lia|].
        unfold derived. rewrite (to20_id d L). reflexivity.
      * destruct K as [_ K]. rewrite K in A. congruence.
Qed.
(* So a contract made by one account is never entered for another one: no second account
   needs to be trusted as long as no second account leads to the same address. *)
Theorem C85_rightful dec enc create FC gov : address_format dec enc -> create_format create ->
  forall s, reachable dec enc create FC gov s ->
  forall (keyed : bytes -> Prop) c d,
  (forall c' d', author dec s c' = Some d' -> keyed d') ->
  (forall d' n, keyed d' -> (1 <= length n <= 20)%nat -> derived create d' n = c -> d' = d) ->
  get s c <> None -> author dec s c = Some d.
Proof.
  intros AF CF s R keyed c d K U N. pose proof (reachable_good _ _ _ _ _ AF CF s R) as G.
  destruct (get s c) as [r|] eqn:E; [|congruence]. destruct (good_author dec enc s c r G E) as (d' & A & _).
  destruct (C85_genuine dec enc create FC gov AF CF s R c d' A) as (n & L & X).
  rewrite A. f_equal. apply (U d' n (K c d' A) L). symmetry. exact X.
Qed.

(* The list of an author shows exactly the contracts entered for them, in order (accounts
   of 20 bytes). *)
Theorem C85_author_list dec enc create FC gov : address_format dec enc -> create_format create ->
  forall s, reachable dec enc create FC gov s ->
  forall t d, dec t = Some d -> length d = 20%nat ->
  (forall c d', author dec s c = Some d' -> length d' = 20%nat) ->
  exists l, of_deployer dec s t = Some l /\ StronglySorted blt l /\ forall c, In c l <-> author dec s c = Some d.
Proof. intros AF CF s R. pose proof (reachable_good _ _ _ _ _ AF CF s R) as G. intros t d. exact (dep_list dec enc AF s t d G). Qed.

(* The list of a paid account shows only contracts whose entry names it, and every one that
   names it and has another author. Missing: contracts that name their own author, see
   below. *)
Theorem C85_payee_list_partial dec enc create FC gov : address_format dec enc -> create_format create ->
  forall s, reachable dec enc create FC gov s ->
  forall t w, dec t = Some w -> length w = 20%nat ->
  (forall c w', named_payee dec s c = Some w' -> length w' = 20%nat) ->
  exists l, of_withdrawer dec s t = Some l /\ StronglySorted blt l /\
    (forall c, contract_ok c = true -> In c l -> named_payee dec s c = Some w) /\
    (forall c, named_payee dec s c = Some w -> author dec s c <> Some w -> In c l).
Proof.
  intros AF CF s R t w T L A. pose proof (reachable_good _ _ _ _ _ AF CF s R) as G.
  destruct (wit_list dec enc AF s t w G T L A) as (l & E & S & M). exists l. split; [exact E|]. split; [exact S|]. split.
  - intros c C I. apply (proj1 (M c C)) in I. exact (proj2 (wit_only dec enc s c w VOne G C I)).
  - intros c N X. pose proof (named_get _ _ _ _ N) as (r & Eg & _). pose proof (good_contract dec enc s c r G Eg) as C.
    destruct (good_author dec enc s c r G Eg) as (d & Ad & _). apply (proj2 (M c C)). apply (g_wit _ _ s G c d w Ad N). congruence.
Qed.

(* A restart from the exported genesis succeeds and keeps every entry, the parameters and
   the lists of authors; afterwards the lists of paid accounts are complete. *)
Theorem C85_restart dec enc create FC gov : address_format dec enc -> create_format create ->
  forall s, reachable dec enc create FC gov s ->
  valid_genesis dec (export s) = true /\
  exists s', (forall e, run dec enc create FC gov e s ORestart = Ok s') /\
    v_on s' = v_on s /\ v_share s' = v_share s /\ v_bal s' = v_bal s /\ (forall c, get s' c = get s c) /\
    (forall t, of_deployer dec s' t = of_deployer dec s t) /\
    forall t w, dec t = Some w -> length w = 20%nat ->
      (forall c w', named_payee dec s c = Some w' -> length w' = 20%nat) ->
      exists l, of_withdrawer dec s' t = Some l /\ StronglySorted blt l /\
        forall c, contract_ok c = true -> (In c l <-> named_payee dec s c = Some w).
Proof.
  intros AF CF s R. pose proof (reachable_good _ _ _ _ _ AF CF s R) as G. split; [exact (export_valid dec enc AF s G)|].
  destruct (restart_spec dec enc AF s G) as (s' & R1 & G1 & K & O & SH & B & E). exists s'. cbn [run].
  assert (NN : forall c, named_payee dec s' c = named_payee dec s c) by (intro c; unfold named_payee; rewrite E; reflexivity).
  split; [intros _; exact R1|]. split; [exact O|]. split; [exact SH|]. split; [exact B|]. split; [exact E|]. split.
  - intro t. exact (dep_list_same dec enc AF s s' t G G1 E).
  - intros t w T L A. destruct (wit_list dec enc AF s' t w G1 T L) as (l & E1 & S & M).
    { intros c w' N. apply (A c w'). rewrite <- NN. exact N. }
    exists l. split; [exact E1|]. split; [exact S|]. intros c C. rewrite (M c C). split.
    + intro I. rewrite <- NN. exact (proj2 (wit_only dec enc s' c w VOne G1 C I)).
    + intro N. apply K. rewrite NN. exact N.
Qed.

(* ---------- a concrete chain ---------- *)
Definition alice : bytes := repeat 65%N 20.
Definition bob : bytes := repeat 66%N 20.
Definition fcoll : bytes := repeat 70%N 20.
Definition h (a : bytes) : bytes := 104%N :: a.
Definition hh (a : bytes) : bytes := 72%N :: a.
Definition box : bytes := toy_create alice 0.
Definition box2 : bytes := toy_create (toy_create alice 1) 5.
Definition e0 : env := mk_env (fun _ => true) (fun a => match a with x :: _ => (x =? 1)%N | [] => false end) (fun _ => false) (fun a => beqb a fcoll).
Definition s0 : st := mk_st [] true 100000000000000000 (fun a => if beqb a fcoll then 1000000 else 0).
Notation toy_runs := (runs toy_dec toy_enc toy_create fcoll (h bob)).
Notation toy_reach := (reachable toy_dec toy_enc toy_create fcoll (h bob)).
Lemma toy_reachable l : Forall (fun q : env * op => op_ok (snd q)) l -> toy_reach (toy_runs s0 l).
Proof. intro F. exists s0, l. split; [split; [reflexivity|cbn [s0 v_share]; unfold ONE; lia]|]. split; [exact F|reflexivity]. Qed.
Lemma alice_ok : length alice = 20%nat /\ bytes_ok alice.
Proof. split; [reflexivity|]. apply (proj1 (bytes_ok_b alice)). vm_compute. reflexivity. Qed.

(* alice creates a contract, and enters one made through another contract with bob paid *)
Definition l1 : list (env * op) := [(e0, OCreated alice 0); (e0, ORegister (h alice) box2 (h bob) [1; 5])].
Example C85_example :
  let s := toy_runs s0 l1 in
  toy_reach s /\ author toy_dec s box = Some alice /\ payee toy_dec s box = Some alice /\
  author toy_dec s box2 = Some alice /\ payee toy_dec s box2 = Some bob /\
  of_deployer toy_dec s (hh alice) = Some [box2; box] /\ of_withdrawer toy_dec s (h bob) = Some [box2] /\
  run toy_dec toy_enc toy_create fcoll (h bob) e0 s (OUpdate (h bob) box (h bob)) = Err /\
  run toy_dec toy_enc toy_create fcoll (h bob) e0 s (ORegister (h bob) (toy_create alice 7) [] [7]) = Err /\
  payee toy_dec (toy_runs s [(e0, OUpdate (h alice) box (h bob)); (e0, ORestart)]) box = Some bob /\
  get (toy_runs s [(e0, OCancel (h alice) box2)]) box2 = None.
Proof.
  split; [apply toy_reachable; constructor; [exact alice_ok|constructor; [exact Logic.I|constructor]]|]. vm_compute. repeat split.
Qed.

(* The list of a paid account is not exact: a contract entered on creation names its
   creator, and the list does not show it. *)
Theorem C85_payee_list_refuted :
  exists s, toy_reach s /\ named_payee toy_dec s box = Some alice /\ of_withdrawer toy_dec s (h alice) = Some [].
Proof.
  exists (toy_runs s0 [(e0, OCreated alice 0)]).
  split; [apply toy_reachable; constructor; [exact alice_ok|constructor]|]. vm_compute. split; reflexivity.
Qed.
(* A restart changes these lists. *)
Theorem C85_restart_list_refuted :
  exists s, toy_reach s /\
    of_withdrawer toy_dec (step toy_dec toy_enc toy_create fcoll (h bob) e0 s ORestart) (h alice) <> of_withdrawer toy_dec s (h alice).
Proof.
  exists (toy_runs s0 [(e0, OCreated alice 0)]).
  split; [apply toy_reachable; constructor; [exact alice_ok|constructor]|]. vm_compute. discriminate.
Qed.
(* Accounts may be longer than 20 bytes, and the keys do not say where the account ends: an
   author who names an account that begins with the bytes of bob puts the contract into the
   list of bob, who is not paid. *)
Definition long : bytes := bob ++ repeat 7%N 12.
Theorem C85_long_account_refuted :
  exists s, toy_reach s /\ of_withdrawer toy_dec s (h bob) = Some [box] /\ payee toy_dec s box = Some long /\ long <> bob.
Proof.
  exists (toy_runs s0 [(e0, OCreated alice 0); (e0, OUpdate (h alice) box (h long))]).
  split; [apply toy_reachable; constructor; [exact alice_ok|constructor; [exact Logic.I|constructor]]|]. vm_compute. repeat split; discriminate.
Qed.
(* The author is compared as a text: the author's account in the other spelling is refused. *)
Theorem C85_same_account_refuted :
  exists s dt, toy_reach s /\ author toy_dec s box = toy_dec dt /\ v_on s = true /\
    run toy_dec toy_enc toy_create fcoll (h bob) e0 s (OCancel dt box) = Err.
Proof.
  exists (toy_runs s0 [(e0, OCreated alice 0)]), (hh alice).
  split; [apply toy_reachable; constructor; [exact alice_ok|constructor]|]. vm_compute. repeat split.
Qed.

Print Assumptions C85_register.
Print Assumptions C85_update.
Print Assumptions C85_cancel.
Print Assumptions C85_created.
Print Assumptions C85_only_author.
Print Assumptions C85_genuine.
Print Assumptions C85_rightful.
Print Assumptions C85_author_list.
Print Assumptions C85_payee_list_partial.
Print Assumptions C85_restart.
Print Assumptions C85_payee_list_refuted.
Print Assumptions C85_restart_list_refuted.
Print Assumptions C85_long_account_refuted.
Print Assumptions C85_same_account_refuted.
