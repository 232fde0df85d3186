(* C84: names of user-made coins belong to their creators, are never taken twice, are listed
   exactly, and survive a restart. *)
From Verif Require Import Lib.Base Lib.Bytes Lib.Kv Lib.Coins Tokenfactory.Model Tokenfactory.Spec Tokenfactory.Proofs Tokenfactory.HistoryProofs Tokenfactory.PropsControl.
From Coq Require Import Sorting.Sorted.
Open Scope Z_scope.

Lemma cvalid_b c : cvalid c -> cvalidb c = true.
Proof.
  intros [S P]. induction c as [|[d x] c IH]; [reflexivity|]. cbn [cvalidb]. destruct S as [L S]. inversion P as [|? ? P1 P2]; subst. cbn [snd] in P1.
  rewrite (IH S P2), andb_true_r. replace (0 <? x) with true by lia. destruct c as [|[e y] c]; [reflexivity|]. cbn [andb].
  inversion L as [|? ? L1 _]; subst. apply bltb_spec. exact L1.
Qed.
Section Names.
Variables (dec : bytes -> option Z) (enc : Z -> bytes) (M P : Z) (gov : bytes).
Hypothesis AF : address_format dec enc.
Notation reach := (reachable dec enc M P gov).

(* The name of a coin is factory/account/name; it reads back as exactly these two, and two
   coins have the same name only if the account and the own name are the same. *)
Theorem C84_names : forall c sub d, token_denom dec enc c sub = Some d ->
  (exists a, dec c = Some a /\ d = factory ++ slash :: enc a ++ slash :: sub /\ deconstruct dec enc d = Some (enc a, sub)) /\
  forall c' sub' d', token_denom dec enc c' sub' = Some d' -> (d = d' <-> dec c = dec c' /\ sub = sub').
Proof.
  intros c sub d T. split.
  - destruct (token_denom_spec _ _ AF _ _ _ T) as (a & D & E & _ & De). exists a. split; [exact D|]. split; [exact E|exact De].
  - intros c' sub' d' T'. exact (token_denom_inj _ _ AF _ _ _ _ _ _ T T').
Qed.

(* Creating a coin succeeds exactly when the name is well-formed, the coin has no metadata
   yet, the own name is not that of a coin in circulation, and the creator can pay the fee.
   Then the fee goes to the community pool, the creator is the admin, the metadata is as
   asked, the coin is listed for the creator, and nothing else changes. *)
Theorem C84_create : forall s e c sub n y k, reach s -> env_ok M e ->
  create dec enc P e s c sub n y k <> Panic /\
  (is_ok (create dec enc P e s c sub n y k) = true <->
     exists a d, dec c = Some a /\ token_denom dec enc c sub = Some d /\ f_sup s sub = 0 /\ kget (f_meta s) d = None /\
       forall d' x, In (d', x) (f_fee s) -> x <= f_bal s a d' - e_locked e a d') /\
  forall d s', create dec enc P e s c sub n y k = Ok (d, s') ->
    exists a, dec c = Some a /\ token_denom dec enc c sub = Some d /\ get_admin s d = [] /\
      (forall a' d', f_bal s' a' d' = f_bal s a' d' - (if a' =? a then amt (f_fee s) d' else 0) + (if a' =? P then amt (f_fee s) d' else 0)) /\
      (forall d', get_admin s' d' = if beqb d' d then c else get_admin s d') /\
      (forall d', kget (f_meta s') d' = if beqb d' d then Some (mk_meta d n y k ((d, 0) :: if k =? 0 then [] else [(sub, k)]) []) else kget (f_meta s) d') /\
      (forall c' d', dec c' <> None -> (In d' (denoms_of s' c') <-> In d' (denoms_of s c') \/ c' = c /\ d' = d)) /\
      f_sup s' = f_sup s /\ f_fee s' = f_fee s.
Proof.
  intros s e c sub n y k R EO. apply (reachable_good _ _ _ _ _ AF) in R. pose proof (g_fee _ _ s R) as [VF _].
  assert (NP : create dec enc P e s c sub n y k <> Panic).
  { unfold create. destruct (validate_create dec enc s c sub) as [d|] eqn:Va; [|discriminate]. unfold charge.
    destruct (dec c) as [a|] eqn:D; [|discriminate]. destruct (f_fee s) as [|p r].
    - cbn [rbind]. rewrite (create_after_ok dec _ _ a _ _ _ _ _ D). discriminate.
    - destruct (send e s a P (p :: r)) as [s1| |] eqn:Se; cbn [rbind]; [rewrite (create_after_ok dec _ _ a _ _ _ _ _ D); discriminate|discriminate|].
      destruct (send_no_panic _ _ _ _ _ Se). }
  split; [exact NP|]. split.
  - split.
    + destruct (create dec enc P e s c sub n y k) as [[d s']| |] eqn:C; try discriminate. intros _.
      apply (create_inv _ _ _ AF) in C as (a & s1 & T & D & Su & K & Ch & _). apply charge_inv in Ch as (a' & D' & _ & F). rewrite D in D'. injection D' as <-.
      exists a, d. split; [exact D|]. split; [exact T|]. split; [exact Su|]. split; [exact K|exact F].
    + intros (a & d & D & T & Su & K & F). unfold create, validate_create. rewrite Su, Z.eqb_refl, T, K. cbn [negb]. unfold charge. rewrite D.
      destruct (f_fee s) as [|p r] eqn:Fe.
      * cbn [rbind]. rewrite (create_after_ok dec _ _ a _ _ _ _ _ D). reflexivity.
      * replace (send e s a P (p :: r)) with (Ok (set_bal s (bmove (f_bal s) a P (p :: r)))).
        { cbn [rbind]. rewrite (create_after_ok dec _ _ a _ _ _ _ _ D). reflexivity. }
        unfold send. replace (forallb _ (p :: r)) with true; [reflexivity|]. symmetry. apply forallb_forall. intros [d' x] I. apply Z.leb_le. exact (F d' x I).
  - intros d s' C. pose proof C as C0. apply (create_inv _ _ _ AF) in C as (a & s1 & T & D & Su & K & Ch & E). exists a. split; [exact D|]. split; [exact T|].
    assert (G' : good dec enc s').
    { apply (run_good _ _ M P gov AF e s (OCreate c sub n y k) s' R EO). cbn [run]. rewrite C0. reflexivity. }
    split; [apply (get_admin_none _ _ AF s d R); exact (no_meta_no_admin _ _ s d R K)|].
    pose proof (run_admin _ _ M P gov AF e s (OCreate c sub n y k) s') as RA. cbn [run] in RA.
    rewrite C0 in RA. cbn [rbind snd admin_after] in RA. rewrite T in RA.
    apply charge_inv in Ch as (a' & D' & E1 & _). rewrite D in D'. injection D' as <-. subst s1.
    split; [intros a' d'; rewrite E; cbn [set_store set_meta set_bal f_bal]; apply bmove_get; exact (proj1 VF)|].
    split; [intro d'; exact (RA d' R EO eq_refl)|]. split.
    { intro d'. rewrite E. cbn [set_store set_meta set_bal f_meta]. rewrite (kget_kset _ _ _ _ (g_msorted _ _ s R)). reflexivity. }
    split; [|rewrite E; split; reflexivity].
    intros c' d' Dc. rewrite (denoms_in _ _ AF s' c' d' G' Dc), (denoms_in _ _ AF s c' d' R Dc). rewrite E. cbn [set_store set_meta set_bal f_store].
    rewrite (st_list dec enc s c d R). destruct (beqb (creator_prefix c' ++ d') (creator_prefix c ++ d)) eqn:Q.
    + apply beqb_spec in Q. destruct (dec c') as [z|] eqn:Dz; [|destruct Dc; reflexivity].
      apply creator_inj in Q as [-> ->]; [|exact (proj2 (proj2 (proj2 (dec_clean _ _ AF _ _ Dz))))|exact (proj2 (proj2 (proj2 (dec_clean _ _ AF _ _ D))))].
      split; [intros _; right; split; reflexivity|reflexivity].
    + split; [intro H; left; exact H|]. intros [H|[-> ->]]; [exact H|]. rewrite beqb_refl in Q. discriminate Q.
Qed.

Lemma admin_kept l : forall s d, good dec enc s -> Forall (fun q => env_ok M (fst q)) l -> get_admin s d <> [] ->
  good dec enc (runs dec enc M P gov s l) /\ get_admin (runs dec enc M P gov s l) d <> [] /\
  forall m, kget (f_meta s) d = Some m -> m_decimals m <> 0 ->
    exists m', kget (f_meta (runs dec enc M P gov s l)) d = Some m' /\ m_decimals m' = m_decimals m.
Proof.
  induction l as [|[e o] l IH]; intros s d G F A; cbn [runs].
  - split; [exact G|]. split; [exact A|]. intros m H _. exists m. split; [exact H|reflexivity].
  - inversion F as [|? ? F1 F2]; subst. cbn [fst] in F1. pose proof (step_good _ _ M P gov AF e s o G F1) as G1.
    assert (A1 : get_admin (step dec enc M P gov e s o) d <> []).
    { unfold step. destruct (run dec enc M P gov e s o) as [s'| |] eqn:H; [|exact A|exact A].
      rewrite (run_admin _ _ _ _ _ AF _ _ _ _ d G F1 H). destruct o as [c sub n y k|c e0 x|c e0 x|c e0 n|c m|c fee|from to e0 x|a e0 x|m|]; cbn [admin_after]; try exact A.
      - cbn [run] in H. destruct (create dec enc P e s c sub n y k) as [[e0 s1]| |] eqn:C; cbn [rbind snd] in H; try discriminate H.
        apply (create_inv _ _ _ AF) in C as (a & s2 & T & D & _ & K & _). rewrite T. destruct (beqb d e0); [exact (proj1 (dec_clean _ _ AF _ _ D))|exact A].
      - cbn [run] in H. destruct (change_spec dec enc AF s c e0 n G) as (_ & _ & C). destruct (C s' H) as (_ & Dn & _ & _).
        destruct (beqb d e0); [|exact A]. destruct (dec n) as [z|] eqn:Dz; [exact (proj1 (dec_clean _ _ AF _ _ Dz))|destruct Dn; reflexivity]. }
    destruct (IH _ d G1 F2 A1) as (B1 & B2 & B3). split; [exact B1|]. split; [exact B2|]. intros m Me Nz. unfold step in *.
    destruct (run dec enc M P gov e s o) as [s'| |] eqn:H; [|exact (B3 m Me Nz)|exact (B3 m Me Nz)].
    destruct (run_meta _ _ _ _ _ AF _ _ _ _ d m G F1 A Me H) as (m' & Me' & Ed). destruct (B3 m' Me') as (m2 & Me2 & Ed2); [rewrite (Ed Nz); exact Nz|].
    exists m2. split; [exact Me2|]. rewrite Ed2. exact (Ed Nz).
Qed.

(* A name once taken is never given out again, whatever happens and however the address
   of the creator is written. *)
Theorem C84_never_again : forall s d l e c sub n y k, reach s -> get_admin s d <> [] -> Forall (fun q => env_ok M (fst q)) l ->
  token_denom dec enc c sub = Some d -> create dec enc P e (runs dec enc M P gov s l) c sub n y k = Err.
Proof.
  intros s d l e c sub n y k R A F T. apply (reachable_good _ _ _ _ _ AF) in R. destruct (admin_kept l s d R F A) as (G & A' & _).
  destruct (g_auth _ _ _ G d _ (get_admin_ne _ _ A')) as (_ & _ & Me & _). unfold create, validate_create. rewrite T.
  destruct (negb (f_sup (runs dec enc M P gov s l) sub =? 0)); [reflexivity|].
  destruct (kget (f_meta (runs dec enc M P gov s l)) d); [reflexivity|destruct Me; reflexivity].
Qed.
(* ... and its number of decimals, once set, never changes. *)
Theorem C84_decimals : forall s d l m, reach s -> get_admin s d <> [] -> Forall (fun q => env_ok M (fst q)) l ->
  kget (f_meta s) d = Some m -> m_decimals m <> 0 ->
  exists m', kget (f_meta (runs dec enc M P gov s l)) d = Some m' /\ m_decimals m' = m_decimals m.
Proof.
  intros s d l m R A F Me Nz. apply (reachable_good _ _ _ _ _ AF) in R. destruct (admin_kept l s d R F A) as (_ & _ & K). exact (K m Me Nz).
Qed.

(* The list of a creator is sorted, without repetition, and holds only coins named after
   that account that exist; every coin that exists is in the list of exactly one creator. *)
Theorem C84_listing : forall s, reach s ->
  (forall c, dec c <> None -> StronglySorted blt (denoms_of s c) /\
     forall d, In d (denoms_of s c) -> get_admin s d <> [] /\ exists sub, token_denom dec enc c sub = Some d) /\
  (forall d, get_admin s d <> [] -> exists c, (dec c <> None /\ In d (denoms_of s c)) /\ forall c', dec c' <> None -> In d (denoms_of s c') -> c' = c).
Proof.
  intros s R. apply (reachable_good _ _ _ _ _ AF) in R. split.
  - intros c D. split; [exact (denoms_sorted _ _ AF s c R D)|]. intros d I. apply (proj1 (denoms_in _ _ AF s c d R D)) in I.
    destruct (g_list _ _ s R _ _ I) as [[e X]|(c0 & sub & X & T & Au)]; [symmetry in X; destruct (key_kinds _ _ _ X)|].
    split; [intro E; apply (get_admin_none _ _ AF s d R) in E; contradiction|]. exists sub.
    destruct (token_denom_spec _ _ AF _ _ _ T) as (a0 & D0 & _). destruct (dec c) as [z|] eqn:Dz; [|destruct D; reflexivity].
    apply creator_inj in X as [-> _]; [exact T|exact (proj2 (proj2 (proj2 (dec_clean _ _ AF _ _ Dz))))|exact (proj2 (proj2 (proj2 (dec_clean _ _ AF _ _ D0))))].
  - intros d A. destruct (g_auth _ _ s R d _ (get_admin_ne _ _ A)) as (_ & _ & _ & c & D & C). exists c.
    split; [split; [exact D|apply (denoms_in _ _ AF s c d R D); exact C]|].
    intros c' D' I. apply (proj1 (denoms_in _ _ AF s c' d R D')) in I. apply (g_uni _ _ s R c' c d); [rewrite I; discriminate|rewrite C; discriminate|exact D'|exact D].
Qed.

(* A restart from the exported genesis: the file is valid, the import does not fail, and all
   admins, the fee, all balances and supplies, and name, symbol and decimals of every
   user-made coin are as before; other coins keep their metadata.  Every coin is then listed
   for the account in its name, written in lower case. *)
Theorem C84_restart_partial : forall s, reach s ->
  valid_genesis dec enc (export s) = true /\
  exists s2, import dec enc (mk_st [] [] (f_meta s) (f_bal s) (f_sup s)) (export s) = Ok s2 /\
    (forall d, get_admin s2 d = get_admin s d) /\ f_fee s2 = f_fee s /\ f_bal s2 = f_bal s /\ f_sup s2 = f_sup s /\
    (forall d m, get_admin s d <> [] -> kget (f_meta s) d = Some m ->
       exists m', kget (f_meta s2) d = Some m' /\ m_name m' = m_name m /\ m_symbol m' = m_symbol m /\ m_decimals m' = m_decimals m) /\
    (forall d, get_admin s d = [] -> kget (f_meta s2) d = kget (f_meta s) d) /\
    (forall c a d, dec c = Some a -> In d (denoms_of s c) -> In d (denoms_of s2 (enc a))) /\
    (forall c d, dec c <> None -> In d (denoms_of s2 c) -> exists a c0, c = enc a /\ dec c0 = Some a /\ In d (denoms_of s c0)).
Proof.
  intros s R. apply (reachable_good _ _ _ _ _ AF) in R. split.
  { rewrite (export_eq s). unfold valid_genesis. cbn [fst snd].
    rewrite (valid_denoms_ok _ _ s R (exported s) [] (exported_nodup _ _ AF s R) (fun _ _ F => F) (fun d I => proj1 (exported_in _ _ AF s d R) I)).
    rewrite (proj2 (g_fee _ _ s R)), (cvalid_b _ (proj1 (g_fee _ _ s R))). reflexivity. }
  destruct (restart_ok _ _ AF s R) as (s2 & I2 & G2 & Fe & Ba & Su & Ad & Mo & Mr). exists s2. split; [exact I2|]. split; [exact Ad|].
  split; [exact Fe|]. split; [exact Ba|]. split; [exact Su|]. split; [|split; [|split]].
  - intros d m A Me. destruct (Mr d) as (c & sub & _ & Q & _); [rewrite (get_admin_ne _ _ A); discriminate|]. exists (restored s d sub). split; [exact Q|].
    unfold restored, export1. rewrite Me. cbn [new_meta m_name m_symbol m_decimals g_name g_symbol g_decimals]. split; [reflexivity|]. split; reflexivity.
  - intros d A. apply Mo. apply (get_admin_none _ _ AF s d R). exact A.
  - intros c a d D I. assert (Dc : dec c <> None) by (rewrite D; discriminate). apply (proj1 (denoms_in _ _ AF s c d R Dc)) in I.
    destruct (g_list _ _ s R _ _ I) as [[e X]|(c0 & sub & X & T & Au)]; [symmetry in X; destruct (key_kinds _ _ _ X)|].
    destruct (token_denom_spec _ _ AF _ _ _ T) as (a0 & D0 & _ & _ & De).
    apply creator_inj in X as [<- _]; [|exact (proj2 (proj2 (proj2 (dec_clean _ _ AF _ _ D))))|exact (proj2 (proj2 (proj2 (dec_clean _ _ AF _ _ D0))))].
    rewrite D in D0. injection D0 as <-. destruct (Mr d Au) as (c1 & sub1 & De1 & _ & K1). rewrite De in De1. injection De1 as <- <-.
    apply (denoms_in _ _ AF s2 (enc a) d G2); [rewrite (proj1 (proj2 AF) _ _ D); discriminate|exact K1].
  - intros c d Dc I. apply (proj1 (denoms_in _ _ AF s2 c d G2 Dc)) in I.
    destruct (g_list _ _ s2 G2 _ _ I) as [[e X]|(c0 & sub & X & T & Au)]; [symmetry in X; destruct (key_kinds _ _ _ X)|].
    assert (A : get_admin s d <> []) by (rewrite <- Ad; intro E; apply (get_admin_none _ _ AF s2 d G2) in E; contradiction).
    pose proof (get_admin_ne _ _ A) as K. destruct (Mr d) as (c1 & sub1 & De1 & _ & K1); [rewrite K; discriminate|].
    destruct (deconstruct_creator _ _ AF _ _ _ De1) as (a & E1 & D1).
    assert (Hc : c = c1) by (apply (g_uni _ _ s2 G2 c c1 d); [rewrite I; discriminate|rewrite K1; discriminate|exact Dc|rewrite D1; discriminate]).
    destruct (g_auth _ _ s R d _ K) as (_ & _ & _ & c2 & D2 & C2). destruct (g_list _ _ s R _ _ C2) as [[e X2]|(c3 & sub3 & X2 & T3 & _)]; [symmetry in X2; destruct (key_kinds _ _ _ X2)|].
    destruct (token_denom_spec _ _ AF _ _ _ T3) as (a3 & D3 & _ & _ & De3). destruct (dec c2) as [z|] eqn:Dz; [|destruct D2; reflexivity].
    apply creator_inj in X2 as [<- _]; [|exact (proj2 (proj2 (proj2 (dec_clean _ _ AF _ _ Dz))))|exact (proj2 (proj2 (proj2 (dec_clean _ _ AF _ _ D3))))].
    rewrite De1 in De3. injection De3 as E3 _. exists a3, c2. split; [rewrite Hc; exact E3|]. split; [exact D3|].
    apply (denoms_in _ _ AF s c2 d R); [rewrite D3; discriminate|exact C2].
Qed.
End Names.
Print Assumptions C84_names. Print Assumptions C84_create. Print Assumptions C84_never_again. Print Assumptions C84_decimals.
Print Assumptions C84_listing. Print Assumptions C84_restart_partial.

(* ---------- concrete cases ---------- *)
Example C84_example : let s := trun t0 thist in
  token_denom toy_dec toy_enc h1 gold = Some fgold /\ denoms_of s h1 = [fgold] /\ denoms_of s h2 = [] /\
  kget (f_meta s) fgold = Some (mk_meta fgold [71]%N [71]%N 6 [(fgold, 0); (gold, 6)] []) /\
  snd (export s) = [mk_gd fgold h2 [71]%N [71]%N 6] /\ valid_genesis toy_dec toy_enc (export s) = true /\
  create toy_dec toy_enc tP te s H1 gold [] [] 0 = Err /\
  is_ok (create toy_dec toy_enc tP te s h1 (gold ++ [47]%N ++ gold) [] [] 0) = true.
Proof. vm_compute. repeat split. Qed.

Lemma one_ok (o : op) : Forall (fun q : env * op => env_ok tM (fst q)) [(te, o)]. Proof. constructor; [exact te_ok|constructor]. Qed.
(* The list asked for by an account depends on how the address was written at creation ... *)
Theorem C84_list_of_account_refuted : exists s, reachable toy_dec toy_enc tM tP tgov s /\ toy_dec h1 = toy_dec H1 /\
  denoms_of s H1 = [fgold] /\ denoms_of s h1 = [].
Proof. exists (trun t0 [(te, OCreate H1 gold [71]%N [71]%N 6)]). split; [exact (treach _ (one_ok _))|]. vm_compute. repeat split. Qed.
(* ... and a restart moves the coin from the one list to the other. *)
Theorem C84_list_after_restart_refuted : exists s s2, reachable toy_dec toy_enc tM tP tgov s /\
  run toy_dec toy_enc tM tP tgov te s ORestart = Ok s2 /\ denoms_of s H1 = [fgold] /\ denoms_of s2 H1 = [] /\ denoms_of s2 h1 = [fgold].
Proof.
  exists (trun t0 [(te, OCreate H1 gold [71]%N [71]%N 6)]). eexists. split; [exact (treach _ (one_ok _))|]. split; [vm_compute; reflexivity|]. vm_compute. repeat split.
Qed.
(* A restart loses the rest of the metadata the admin set: description, display unit, other
   units, logo. *)
Definition rich : meta := mk_meta fgold [71]%N [71]%N 6 [(fgold, 0); ([109]%N, 3); (gold, 6)] [1; 2; 3]%N.
Theorem C84_metadata_after_restart_refuted : exists s s2, reachable toy_dec toy_enc tM tP tgov s /\
  run toy_dec toy_enc tM tP tgov te s ORestart = Ok s2 /\ kget (f_meta s) fgold = Some rich /\
  kget (f_meta s2) fgold = Some (mk_meta fgold [71]%N [71]%N 6 [(fgold, 0); (gold, 6)] []).
Proof.
  exists (trun t0 [(te, OCreate h1 gold [71]%N [71]%N 6); (te, OSetMetadata h1 rich)]). eexists.
  split; [apply treach; repeat (constructor; [exact te_ok|]); constructor|]. split; [vm_compute; reflexivity|]. vm_compute. repeat split.
Qed.
(* A name of an account can be taken from it: metadata set by governance for a coin nobody
   has created keeps the account from creating it. *)
Theorem C84_own_names_refuted : exists s, reachable toy_dec toy_enc tM tP tgov s /\ get_admin s fgold = [] /\ denoms_of s h1 = [] /\
  f_sup s gold = 0 /\ token_denom toy_dec toy_enc h1 gold = Some fgold /\ create toy_dec toy_enc tP te s h1 gold [71]%N [71]%N 6 = Err.
Proof. exists (trun t0 [(te, OSetMetadata tgov rich)]). split; [exact (treach _ (one_ok _))|]. vm_compute. repeat split. Qed.
Print Assumptions C84_list_of_account_refuted. Print Assumptions C84_list_after_restart_refuted.
Print Assumptions C84_metadata_after_restart_refuted. Print Assumptions C84_own_names_refuted.
