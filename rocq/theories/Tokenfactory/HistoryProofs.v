From Verif Require Import Lib.Base Lib.Bytes Lib.Kv Lib.Coins Tokenfactory.Model Tokenfactory.Spec Tokenfactory.Proofs.
From Coq Require Import Sorting.Sorted.
Open Scope Z_scope.

(* ---------- scans ---------- *)
Lemma in_range_all k : in_range [] None k = true.
Proof. unfold in_range. rewrite andb_true_r. apply negb_true_iff. apply bltb_false. unfold ble. destruct k; discriminate. Qed.
Lemma pscan_in {V} (st : list (bytes * V)) p k v : keys_ok st -> bytes_ok p -> ksorted st ->
  In (k, v) (pscan st p [] None) <-> kget st (p ++ k) = Some v.
Proof.
  intros K B S. rewrite (pscan_filter _ _ _ _ K B). unfold strip. rewrite in_map_iff, (kget_in _ _ _ S). split.
  - intros ([k0 v0] & E & I). apply filter_In in I as [I F]. unfold pmatch in F. cbn [fst] in *. apply andb_prop in F as [F _].
    apply has_prefix_ex in F as (r & ->). cbn [fst snd] in E. rewrite skipn_app, Nat.sub_diag, skipn_all in E. cbn [app skipn] in E. injection E as <- <-. exact I.
  - intro I. exists (p ++ k, v). cbn [fst snd]. rewrite skipn_app, Nat.sub_diag, skipn_all. split; [reflexivity|].
    apply filter_In. split; [exact I|]. unfold pmatch. cbn [fst]. rewrite has_prefix_app, in_range_all. reflexivity.
Qed.
Lemma strip_sorted {V} (p : bytes) (l : list (bytes * V)) : ksorted l -> Forall (fun q => has_prefix p (fst q) = true) l ->
  ksorted (strip (length p) l).
Proof.
  unfold ksorted. induction l as [|[k v] l IH]; intros S F; [constructor|]. inversion S as [|? ? S1 S2]; subst. inversion F as [|? ? F1 F2]; subst.
  cbn [strip map]. constructor; [apply IH; assumption|]. clear IH S S1 F. cbn [fst snd] in *. apply has_prefix_ex in F1 as (r & ->).
  rewrite skipn_app, Nat.sub_diag, skipn_all. cbn [app skipn]. induction l as [|[k' v'] l IH]; [constructor|].
  inversion S2 as [|? ? H1 H2]; subst. inversion F2 as [|? ? P1 P2]; subst. cbn [map]. constructor; [|apply IH; assumption].
  unfold klt in *. cbn [fst snd] in *. apply has_prefix_ex in P1 as (r' & ->). rewrite skipn_app, Nat.sub_diag, skipn_all. cbn [app skipn].
  unfold blt in *. rewrite bcmp_prefix in H1. exact H1.
Qed.
Lemma filter_sorted {V} f (l : list (bytes * V)) : ksorted l -> ksorted (filter f l).
Proof.
  unfold ksorted. induction l as [|q l IH]; intro S; [constructor|]. inversion S as [|? ? S1 S2]; subst. cbn [filter].
  destruct (f q); [|exact (IH S1)]. constructor; [exact (IH S1)|]. rewrite Forall_forall in *. intros x I. apply filter_In in I as [I _]. exact (S2 x I).
Qed.
Lemma pscan_sorted {V} (st : list (bytes * V)) p : keys_ok st -> bytes_ok p -> ksorted st -> ksorted (pscan st p [] None).
Proof.
  intros K B S. rewrite (pscan_filter _ _ _ _ K B). apply strip_sorted; [apply filter_sorted; exact S|].
  apply Forall_forall. intros q I. apply filter_In in I as [_ F]. unfold pmatch in F. apply andb_prop in F as [F _]. exact F.
Qed.
Lemma keys_sorted {V} (l : list (bytes * V)) : ksorted l -> StronglySorted blt (map fst l).
Proof.
  unfold ksorted. induction l as [|q l IH]; intro S; [constructor|]. inversion S as [|? ? S1 S2]; subst. cbn [map]. constructor; [exact (IH S1)|].
  rewrite Forall_forall in *. intros k I. apply in_map_iff in I as (q' & <- & I). exact (S2 q' I).
Qed.
Lemma blt_nodup l : StronglySorted blt l -> NoDup l.
Proof.
  induction l as [|x l IH]; intro S; [constructor|]. inversion S as [|? ? S1 S2]; subst. constructor; [|exact (IH S1)].
  intro I. rewrite Forall_forall in S2. exact (blt_irrefl x (S2 x I)).
Qed.
Lemma nodup_values {V} (l : list (bytes * V)) : NoDup (map fst l) ->
  (forall k k' v, In (k, v) l -> In (k', v) l -> k = k') -> NoDup (map snd l).
Proof.
  induction l as [|[k v] l IH]; intros N H; [constructor|]. cbn [map fst snd] in *. inversion N as [|? ? N1 N2]; subst. constructor.
  - intro I. apply in_map_iff in I as ([k' v'] & E & I). cbn [snd] in E. subst v'.
    assert (k = k') by (apply (H k k' v); [left; reflexivity|right; exact I]). subst k'. apply N1. apply in_map_iff. exists (k, v). split; [reflexivity|exact I].
  - apply IH; [exact N2|]. intros a b w I1 I2. apply (H a b w); right; assumption.
Qed.

Section Factory.
Variables (dec : bytes -> option Z) (enc : Z -> bytes) (M P : Z) (gov : bytes).
Hypothesis AF : address_format dec enc.
Notation good := (good dec enc).

Lemma good_keys s : good s -> keys_ok (f_store s).
Proof.
  intro G. unfold keys_ok. apply Forall_forall. intros [k v] I. cbn [fst]. apply (proj2 (kget_in _ _ _ (g_sorted _ _ s G))) in I.
  destruct (g_list _ _ s G k v I) as [[d ->]|(c & sub & -> & T & _)].
  - destruct (g_auth _ _ s G d v I) as (De & _). destruct (deconstruct dec enc d) as [r|] eqn:E; [|destruct De; reflexivity].
    apply deconstruct_valid, valid_denom_chars, chars_ok in E. rewrite authority_key_eq. unfold bytes_ok, bar in *.
    constructor; [lia|]. constructor; [lia|]. apply Forall_app. split; [exact E|]. constructor; [lia|]. constructor; [lia|constructor].
  - destruct (token_denom_spec _ _ AF _ _ _ T) as (a & D & _ & V & _). destruct (dec_clean _ _ AF _ _ D) as (_ & C & _).
    apply chars_ok in C. apply valid_denom_chars, chars_ok in V. rewrite creator_prefix_eq. unfold bytes_ok, bar in *.
    constructor; [lia|]. constructor; [lia|]. apply Forall_app. split; [exact C|]. constructor; [lia|exact V].
Qed.
Lemma creator_ok c : dec c <> None -> bytes_ok (creator_prefix c).
Proof.
  intro D. destruct (dec c) as [a|] eqn:E; [|destruct D; reflexivity]. destruct (dec_clean _ _ AF _ _ E) as (_ & C & _). apply chars_ok in C.
  unfold creator_prefix. cbn [join app]. unfold bytes_ok, bar in *. constructor; [lia|]. constructor; [lia|]. apply Forall_app. split; [exact C|]. constructor; [lia|constructor].
Qed.

(* the list of a creator *)
Lemma denoms_in s c d : good s -> dec c <> None -> (In d (denoms_of s c) <-> kget (f_store s) (creator_prefix c ++ d) = Some d).
Proof.
  intros G D. unfold denoms_of. rewrite in_map_iff. split.
  - intros ([k v] & E & I). cbn [fst] in E. subst k. apply (pscan_in _ _ _ _ (good_keys s G) (creator_ok c D) (g_sorted _ _ s G)) in I. rewrite I. f_equal.
    destruct (g_list _ _ s G _ _ I) as [[e X]|(c0 & sub & X & T & _)]; [symmetry in X; destruct (key_kinds _ _ _ X)|].
    destruct (token_denom_spec _ _ AF _ _ _ T) as (a0 & D0 & _). destruct (dec c) as [a|] eqn:E; [|destruct D; reflexivity].
    apply creator_inj in X as [_ X]; [symmetry; exact X|exact (proj2 (proj2 (proj2 (dec_clean _ _ AF _ _ E))))|exact (proj2 (proj2 (proj2 (dec_clean _ _ AF _ _ D0))))].
  - intro I. exists (d, d). split; [reflexivity|]. apply (pscan_in _ _ _ _ (good_keys s G) (creator_ok c D) (g_sorted _ _ s G)). exact I.
Qed.
Lemma denoms_sorted s c : good s -> dec c <> None -> StronglySorted blt (denoms_of s c).
Proof. intros G D. unfold denoms_of. apply keys_sorted. exact (pscan_sorted _ _ (good_keys s G) (creator_ok c D) (g_sorted _ _ s G)). Qed.

(* ---------- export ---------- *)
Definition exported (s : st) : list bytes := map snd (pscan (f_store s) creators_prefix [] None).
Lemma export_eq s : export s = (f_fee s, map (export1 s) (exported s)).
Proof. unfold export, exported. rewrite map_map. reflexivity. Qed.
Lemma cp_ok : bytes_ok creators_prefix.
Proof. unfold bytes_ok, creators_prefix, bar. cbn [app]. constructor; [lia|]. constructor; [lia|constructor]. Qed.
Lemma exported_in s d : good s -> (In d (exported s) <-> kget (f_store s) (authority_key d) <> None).
Proof.
  intro G. unfold exported. rewrite in_map_iff. split.
  - intros ([k v] & E & I). cbn [snd] in E. subst v. apply (pscan_in _ _ _ _ (good_keys s G) cp_ok (g_sorted _ _ s G)) in I.
    destruct (g_list _ _ s G _ _ I) as [[e X]|(c & sub & _ & _ & X)]; [rewrite authority_key_eq in X; discriminate X|exact X].
  - intro I. destruct (kget (f_store s) (authority_key d)) as [a|] eqn:K; [|destruct I; reflexivity].
    destruct (g_auth _ _ s G d a K) as (_ & _ & _ & c & _ & C). exists (c ++ bar :: d, d). split; [reflexivity|].
    apply (pscan_in _ _ _ _ (good_keys s G) cp_ok (g_sorted _ _ s G)). rewrite creator_prefix_eq in C. exact C.
Qed.
Lemma exported_nodup s : good s -> NoDup (exported s).
Proof.
  intro G. unfold exported. apply nodup_values.
  - apply blt_nodup, keys_sorted. exact (pscan_sorted _ _ (good_keys s G) cp_ok (g_sorted _ _ s G)).
  - intros k k' v I1 I2. apply (pscan_in _ _ _ _ (good_keys s G) cp_ok (g_sorted _ _ s G)) in I1, I2.
    destruct (g_list _ _ s G _ _ I1) as [[e X]|(c & sub & X1 & T1 & _)]; [rewrite authority_key_eq in X; discriminate X|].
    destruct (g_list _ _ s G _ _ I2) as [[e X]|(c' & sub' & X2 & T2 & _)]; [rewrite authority_key_eq in X; discriminate X|].
    destruct (token_denom_spec _ _ AF _ _ _ T1) as (a & D & _). destruct (token_denom_spec _ _ AF _ _ _ T2) as (a' & D' & _).
    assert (c = c').
    { apply (g_uni _ _ s G c c' v); [rewrite <- X1, I1; discriminate|rewrite <- X2, I2; discriminate|rewrite D; discriminate|rewrite D'; discriminate]. }
    subst c'. rewrite <- X2 in X1. exact (app_inv_head _ _ _ X1).
Qed.
Lemma export1_denom s d : g_denom (export1 s d) = d.
Proof. unfold export1. destruct (kget (f_meta s) d); reflexivity. Qed.
Lemma export1_admin s d : g_admin (export1 s d) = get_admin s d.
Proof. unfold export1. destruct (kget (f_meta s) d); reflexivity. Qed.

Lemma admin_dec s d : good s -> kget (f_store s) (authority_key d) <> None -> dec (get_admin s d) <> None /\ deconstruct dec enc d <> None.
Proof.
  intros G K. destruct (kget (f_store s) (authority_key d)) as [a|] eqn:E; [|destruct K; reflexivity].
  destruct (g_auth _ _ s G d a E) as (De & Da & _). unfold get_admin. rewrite E. split; assumption.
Qed.
Lemma valid_denoms_ok s : good s -> forall l seen, NoDup l -> (forall d, In d l -> ~ In d seen) ->
  (forall d, In d l -> kget (f_store s) (authority_key d) <> None) -> valid_denoms dec enc seen (map (export1 s) l) = true.
Proof.
  intro G. induction l as [|d l IH]; intros seen N S K; [reflexivity|]. cbn [map valid_denoms]. rewrite export1_denom, export1_admin.
  destruct (admin_dec s d G (K d (or_introl eq_refl))) as [Da De]. inversion N as [|? ? N1 N2]; subst.
  replace (existsb (beqb d) seen) with false.
  2:{ symmetry. destruct (existsb (beqb d) seen) eqn:E; [|reflexivity]. apply existsb_exists in E as (x & I & E). apply beqb_spec in E as <-.
      destruct (S d (or_introl eq_refl) I). }
  destruct (deconstruct dec enc d); [|destruct De; reflexivity]. cbn [negb is_some andb].
  assert (A : admin_ok dec (get_admin s d) = true) by (unfold admin_ok; destruct (get_admin s d); [reflexivity|]; destruct (dec (n :: b)); [reflexivity|destruct Da; reflexivity]).
  rewrite A. cbn [andb]. apply IH; [exact N2| |intros e I; apply K; right; exact I].
  intros e I [<-|J]; [contradiction|]. exact (S e (or_intror I) J).
Qed.

(* ---------- import ---------- *)
Lemma deconstruct_creator d c sub : deconstruct dec enc d = Some (c, sub) -> exists a, c = enc a /\ dec c = Some a.
Proof.
  unfold deconstruct. destruct (negb (valid_denom d)); [discriminate|]. destruct (split slash d) as [|p0 [|p1 [|p2 ps]]]; try discriminate.
  destruct (negb (beqb p0 factory)); [discriminate|]. destruct (dec p1) as [a|] eqn:D; [|discriminate]. destruct (existsb short (p2 :: ps)); [discriminate|].
  intro H. injection H as <- _. exists a. split; [reflexivity|]. exact (proj1 (proj2 AF) _ _ D).
Qed.
Definition restored (s : st) (d sub : bytes) : meta :=
  new_meta d sub (g_name (export1 s d)) (g_symbol (export1 s d)) (g_decimals (export1 s d)).
Lemma import1_ok s0 s d c sub : good s -> kget (f_store s) (authority_key d) <> None -> deconstruct dec enc d = Some (c, sub) ->
  import1 dec enc s0 (export1 s d) =
  Ok (set_store (set_meta s0 (kset (f_meta s0) d (restored s d sub)))
        (kset (kset (kset (f_store s0) (authority_key d) c) (creator_prefix c ++ d) d) (authority_key d) (get_admin s d))).
Proof.
  intros G K De. destruct (admin_dec s d G K) as [Da _]. destruct (deconstruct_creator _ _ _ De) as (a & _ & Dc).
  unfold import1. rewrite export1_denom, export1_admin, De, (create_after_ok dec _ _ a _ _ _ _ _ Dc). unfold set_admin.
  assert (A : admin_ok dec (get_admin s d) = true) by (unfold admin_ok; destruct (get_admin s d); [reflexivity|]; destruct (dec (n :: b)); [reflexivity|destruct Da; reflexivity]).
  rewrite A. reflexivity.
Qed.
(* what an import of the coins of a list leaves *)
Lemma import_all_ok s : good s -> forall l s0, NoDup l -> (forall d, In d l -> kget (f_store s) (authority_key d) <> None) ->
  (forall d, In d l -> exists c sub, deconstruct dec enc d = Some (c, sub) /\ token_denom dec enc c sub = Some d) ->
  good s0 -> (forall d, In d l -> kget (f_store s0) (authority_key d) = None) ->
  exists s2, import_all dec enc s0 (map (export1 s) l) = Ok s2 /\ good s2 /\
    f_fee s2 = f_fee s0 /\ f_bal s2 = f_bal s0 /\ f_sup s2 = f_sup s0 /\
    (forall d, In d l -> get_admin s2 d = get_admin s d /\
       exists c sub, deconstruct dec enc d = Some (c, sub) /\ kget (f_meta s2) d = Some (restored s d sub) /\ kget (f_store s2) (creator_prefix c ++ d) = Some d) /\
    (forall d, ~ In d l -> kget (f_store s2) (authority_key d) = kget (f_store s0) (authority_key d) /\ kget (f_meta s2) d = kget (f_meta s0) d).
Proof.
  intro G. induction l as [|d l IH]; intros s0 N K F G0 E0.
  - exists s0. split; [reflexivity|]. split; [exact G0|]. split; [reflexivity|]. split; [reflexivity|]. split; [reflexivity|].
    split; [intros d []|]. intros d _. split; reflexivity.
  - cbn [map import_all]. destruct (F d (or_introl eq_refl)) as (c & sub & De & T). pose proof (K d (or_introl eq_refl)) as Kd.
    rewrite (import1_ok s0 s d c sub G Kd De). cbn [rbind]. inversion N as [|? ? N1 N2]; subst.
    pose proof (create_good dec enc AF s0 c d sub (g_name (export1 s d)) (g_symbol (export1 s d)) (g_decimals (export1 s d)) G0 T (E0 d (or_introl eq_refl))) as G1.
    set (s1 := set_store (set_meta s0 (kset (f_meta s0) d (new_meta d sub (g_name (export1 s d)) (g_symbol (export1 s d)) (g_decimals (export1 s d)))))
                 (kset (kset (f_store s0) (authority_key d) c) (creator_prefix c ++ d) d)) in *.
    assert (A1 : forall e, kget (f_store s1) (authority_key e) = if beqb e d then Some c else kget (f_store s0) (authority_key e)) by (intro e; exact (st_auth dec enc s0 c d G0 e)).
    assert (G2 : good (set_store s1 (kset (f_store s1) (authority_key d) (get_admin s d)))).
    { apply good_admin; [exact G1|rewrite A1, beqb_refl; discriminate|]. exact (proj1 (admin_dec s d G Kd)). }
    set (s2 := set_store s1 (kset (f_store s1) (authority_key d) (get_admin s d))) in *.
    change (set_store (set_meta s0 (kset (f_meta s0) d (restored s d sub))) _) with s2.
    assert (A2 : forall e, kget (f_store s2) (authority_key e) = if beqb e d then Some (get_admin s d) else kget (f_store s0) (authority_key e)).
    { intro e. unfold s2. cbn [set_store f_store]. rewrite (kget_kset _ _ _ _ (g_sorted _ _ s1 G1)), beqb_akey, A1. destruct (beqb e d); reflexivity. }
    destruct (IH s2) as (s3 & I3 & G3 & H1 & H2 & H3 & H4 & H5); [exact N2|intros e I; apply K; right; exact I|intros e I; apply F; right; exact I|exact G2| |].
    { intros e I. rewrite A2. destruct (beqb e d) eqn:E; [apply beqb_spec in E as ->; contradiction|]. apply E0. right. exact I. }
    exists s3. split; [exact I3|]. split; [exact G3|]. split; [rewrite H1; reflexivity|]. split; [rewrite H2; reflexivity|]. split; [rewrite H3; reflexivity|]. split.
    + intros e [<-|I]; [|exact (H4 e I)]. destruct (H5 d N1) as [Q1 Q2].
      assert (Ad : kget (f_store s3) (authority_key d) = Some (get_admin s d)) by (rewrite Q1, A2, beqb_refl; reflexivity).
      split; [unfold get_admin at 1; rewrite Ad; reflexivity|]. exists c, sub. split; [exact De|]. split.
      * rewrite Q2. unfold s2, s1. cbn [set_store set_meta f_meta]. rewrite (kget_kset _ _ _ _ (g_msorted _ _ s0 G0)), beqb_refl. reflexivity.
      * destruct (g_auth _ _ s3 G3 d _ Ad) as (_ & _ & _ & c' & D' & C').
        destruct (g_list _ _ s3 G3 _ _ C') as [[e X]|(c0 & sub0 & X & T0 & _)]; [symmetry in X; destruct (key_kinds _ _ _ X)|].
        (* the entry written above is never removed: a list only grows *)
        assert (Gr : forall l s0 s3, import_all dec enc s0 (map (export1 s) l) = Ok s3 -> ksorted (f_store s0) ->
                     (forall e, In e l -> kget (f_store s) (authority_key e) <> None) ->
                     kget (f_store s0) (creator_prefix c ++ d) = Some d -> kget (f_store s3) (creator_prefix c ++ d) = Some d).
        { clear - AF G De. induction l as [|e l IH]; intros s0 s3 H S0 K H0; cbn [map import_all] in H; [injection H as <-; exact H0|].
          pose proof (K e (or_introl eq_refl)) as Ke. destruct (admin_dec s e G Ke) as [_ Dd].
          destruct (deconstruct dec enc e) as [[ce sube]|] eqn:De'; [|destruct Dd; reflexivity].
          rewrite (import1_ok s0 s e ce sube G Ke De') in H. cbn [rbind] in H.
          assert (S1 : ksorted (kset (f_store s0) (authority_key e) ce)) by (apply kset_sorted; exact S0).
          refine (IH _ _ H _ _ _); cbn [set_store f_store].
          - apply kset_sorted, kset_sorted. exact S1.
          - intros x I. apply K. right. exact I.
          - rewrite (kget_kset _ _ _ _ (kset_sorted _ _ _ S1)). destruct (beqb (creator_prefix c ++ d) (authority_key e)) eqn:E1;
              [apply beqb_spec in E1; symmetry in E1; destruct (key_kinds _ _ _ E1)|].
            rewrite (kget_kset _ _ _ _ S1). destruct (beqb (creator_prefix c ++ d) (creator_prefix ce ++ e)) eqn:E2.
            + apply beqb_spec in E2. destruct (deconstruct_creator _ _ _ De) as (a & _ & Dc). destruct (deconstruct_creator _ _ _ De') as (a' & _ & Dc').
              apply creator_inj in E2 as [_ ->]; [reflexivity|exact (proj2 (proj2 (proj2 (dec_clean _ _ AF _ _ Dc))))|exact (proj2 (proj2 (proj2 (dec_clean _ _ AF _ _ Dc'))))].
            + rewrite (kget_kset _ _ _ _ S0). destruct (beqb (creator_prefix c ++ d) (authority_key e)); [discriminate E1|exact H0]. }
        refine (Gr l s2 s3 I3 (g_sorted _ _ s2 G2) _ _); [intros x I; apply K; right; exact I|].
        unfold s2. cbn [set_store f_store]. rewrite (kget_kset _ _ _ _ (g_sorted _ _ s1 G1)).
        destruct (beqb (creator_prefix c ++ d) (authority_key d)) eqn:E1; [apply beqb_spec in E1; symmetry in E1; destruct (key_kinds _ _ _ E1)|].
        unfold s1. cbn [set_store f_store]. rewrite (kget_kset _ _ _ _ (st_sorted dec enc s0 c d G0)), beqb_refl. reflexivity.
    + intros e I. destruct (H5 e) as [Q1 Q2]; [intro J; apply I; right; exact J|]. rewrite Q1, Q2, A2.
      destruct (beqb e d) eqn:E; [apply beqb_spec in E as ->; destruct I; left; reflexivity|]. split; [reflexivity|].
      unfold s2, s1. cbn [set_store set_meta f_meta]. rewrite (kget_kset _ _ _ _ (g_msorted _ _ s0 G0)), E. reflexivity.
Qed.

Lemma token_denom_canonical c sub d a : dec c = Some a -> token_denom dec enc c sub = Some d -> token_denom dec enc (enc a) sub = Some d.
Proof.
  intros D T. pose proof (proj1 (proj2 AF) _ _ D) as D2. pose proof (proj2 (proj2 AF) _ _ D) as L. destruct (dec_clean _ _ AF _ _ D2) as (_ & _ & NS & _).
  unfold token_denom in *. rewrite L, D2. rewrite D in T.
  destruct (Nat.ltb 44 (length sub)); [discriminate T|]. destruct (Nat.ltb (length sub) 1); [discriminate T|].
  destruct (existsb short (split slash sub)); [discriminate T|]. destruct (Nat.ltb 75 (length c)); [discriminate T|].
  destruct (existsb (N.eqb slash) c); [discriminate T|]. destruct (Nat.ltb (length c) 1); [discriminate T|].
  replace (existsb (N.eqb slash) (enc a)) with false; [exact T|]. symmetry.
  destruct (existsb (N.eqb slash) (enc a)) eqn:E; [|reflexivity]. apply existsb_exists in E as (x & I & E). apply N.eqb_eq in E as <-. contradiction.
Qed.
Lemma empty_good s : good s -> good (mk_st [] [] (f_meta s) (f_bal s) (f_sup s)).
Proof.
  intro G. constructor; cbn [f_store f_meta f_fee f_bal f_sup]; try (destruct G; assumption); try (intros; discriminate).
  - apply ksorted_nil.
  - intros c c' d H. destruct H. reflexivity.
  - split; [apply cvalid_nil|reflexivity].
Qed.
Definition restart (s : st) : res st := import dec enc (mk_st [] [] (f_meta s) (f_bal s) (f_sup s)) (export s).
Lemma restart_ok s : good s -> exists s2, restart s = Ok s2 /\ good s2 /\
  f_fee s2 = f_fee s /\ f_bal s2 = f_bal s /\ f_sup s2 = f_sup s /\ (forall d, get_admin s2 d = get_admin s d) /\
  (forall d, kget (f_store s) (authority_key d) = None -> kget (f_meta s2) d = kget (f_meta s) d) /\
  (forall d, kget (f_store s) (authority_key d) <> None ->
     exists c sub, deconstruct dec enc d = Some (c, sub) /\ kget (f_meta s2) d = Some (restored s d sub) /\ kget (f_store s2) (creator_prefix c ++ d) = Some d).
Proof.
  intro G. unfold restart, import. rewrite export_eq. cbn [fst snd].
  set (s0 := set_fee (mk_st [] [] (f_meta s) (f_bal s) (f_sup s)) (f_fee s)).
  assert (G0 : good s0).
  { pose proof (empty_good s G) as E. pose proof (g_fee _ _ s G) as GF. destruct E. constructor; unfold s0; cbn [set_fee f_store f_meta f_fee f_bal f_sup] in *; try assumption. }
  destruct (import_all_ok s G (exported s) s0) as (s2 & I2 & G2 & H1 & H2 & H3 & H4 & H5).
  - exact (exported_nodup s G).
  - intros d I. apply exported_in; assumption.
  - intros d I. apply (proj1 (exported_in s d G)) in I. destruct (kget (f_store s) (authority_key d)) as [a|] eqn:K; [|destruct I; reflexivity].
    destruct (g_auth _ _ s G d a K) as (_ & _ & _ & c & _ & C).
    destruct (g_list _ _ s G _ _ C) as [[e X]|(c0 & sub & _ & T & _)]; [symmetry in X; destruct (key_kinds _ _ _ X)|].
    destruct (token_denom_spec _ _ AF _ _ _ T) as (a0 & D0 & _ & _ & De). exists (enc a0), sub. split; [exact De|]. exact (token_denom_canonical _ _ _ _ D0 T).
  - exact G0.
  - intros d _. reflexivity.
  - exists s2. split; [exact I2|]. split; [exact G2|]. split; [exact H1|]. split; [exact H2|]. split; [exact H3|]. split; [|split].
    + intro d. destruct (in_dec bytes_eq_dec d (exported s)) as [I|I]; [exact (proj1 (H4 d I))|]. destruct (H5 d I) as [Q _].
      unfold get_admin. rewrite Q. destruct (kget (f_store s) (authority_key d)) as [a|] eqn:K; [|reflexivity]. destruct I. apply exported_in; [exact G|]. rewrite K. discriminate.
    + intros d K. destruct (H5 d) as [_ Q]; [|rewrite Q; reflexivity]. intro I. apply (proj1 (exported_in s d G)) in I. contradiction.
    + intros d K. apply (H4 d). apply exported_in; assumption.
Qed.

(* ---------- every step keeps the invariant ---------- *)
Lemma run_good e s o s' : good s -> env_ok M e -> run dec enc M P gov e s o = Ok s' -> good s'.
Proof.
  intros G EO. destruct o as [c sub n y k|c d x|c d x|c d n|c m|c fee|from to d x|a d x|m|]; cbn [run]; intro H.
  - destruct (create dec enc P e s c sub n y k) as [[d s1]| |] eqn:C; cbn [rbind snd] in H; try discriminate H. injection H as <-.
    apply (create_inv _ _ _ AF) in C as (a & s2 & T & D & _ & K & Ch & ->). apply create_good; [exact AF|exact (charge_good _ enc M _ _ _ _ _ G EO Ch)|exact T|].
    apply charge_inv in Ch as (a' & _ & -> & _). exact (no_meta_no_admin _ _ s d G K).
  - apply mint_inv in H as (X & _ & _ & _ & a & _ & _ & PL). refine (plus_good _ _ s s' a d x G _ PL). pose proof (g_pos _ _ s G a d). lia.
  - destruct (burn_spec dec enc M e s c d x G EO) as (_ & _ & B). destruct (B s' H) as (a & _ & F & X & PL). refine (plus_good _ _ s s' a d (- x) G _ PL).
    pose proof (proj1 EO a d). lia.
  - destruct (change_spec dec enc AF s c d n G) as (_ & _ & C). destruct (C s' H) as ([A N] & Dn & _ & ->). apply (good_admin _ _ s d n G); [|exact Dn].
    rewrite get_admin_ne; [discriminate|rewrite A; exact N].
  - apply set_metadata_inv in H as (-> & _). exact (good_meta _ _ s m G).
  - unfold update_params in H. destruct (negb (beqb c gov)); [discriminate H|].
    destruct (cvalidb fee && forallb (fun '(d, _) => valid_denom d) fee) eqn:V; cbn [negb] in H; [|discriminate H]. injection H as <-.
    apply andb_prop in V as [V1 V2]. destruct G. constructor; cbn [set_fee f_store f_meta f_fee f_bal f_sup]; try assumption.
    split; [exact (cvalidb_spec _ V1)|exact V2].
  - destruct (Z.leb_spec x 0); [discriminate H|]. refine (send_good _ _ M _ _ _ _ _ _ G EO (valid1 d x _) H). lia.
  - destruct (is_some (deconstruct dec enc d) || (f_bal s a d + x <? 0)) eqn:E; [discriminate H|]. injection H as <-.
    apply orb_false_iff in E as [_ E]. apply badd_good; [exact G|lia].
  - destruct (is_some (deconstruct dec enc (m_base m))); [discriminate H|]. injection H as <-. exact (good_meta _ _ s m G).
  - destruct (restart_ok s G) as (s2 & R & G2 & _). unfold restart in R. rewrite R in H. injection H as <-. exact G2.
Qed.
Lemma step_good e s o : good s -> env_ok M e -> good (step dec enc M P gov e s o).
Proof. intros G EO. unfold step. destruct (run dec enc M P gov e s o) eqn:R; [exact (run_good _ _ _ _ G EO R)|exact G|exact G]. Qed.
Lemma runs_good l : forall s, good s -> Forall (fun q => env_ok M (fst q)) l -> good (runs dec enc M P gov s l).
Proof.
  induction l as [|[e o] l IH]; intros s G F; [exact G|]. cbn [runs]. inversion F; subst. apply IH; [apply step_good|]; assumption.
Qed.
Lemma reachable_good s : reachable dec enc M P gov s -> good s.
Proof. intros (s0 & l & I0 & F & ->). apply runs_good; [apply initial_good; exact I0|exact F]. Qed.

(* ---------- what a step changes ---------- *)
Lemma run_sup e s o s' d : good s -> env_ok M e -> is_factory dec enc d -> run dec enc M P gov e s o = Ok s' -> f_sup s' d = f_sup s d + net1 d o.
Proof.
  intros G EO FD. destruct o as [c sub n y k|c e0 x|c e0 x|c e0 n|c m|c fee|from to e0 x|a e0 x|m|]; cbn [run net1]; intro H.
  - destruct (create dec enc P e s c sub n y k) as [[e0 s1]| |] eqn:C; cbn [rbind snd] in H; try discriminate H. injection H as <-.
    apply (create_inv _ _ _ AF) in C as (a & s2 & T & D & _ & K & Ch & ->). apply charge_inv in Ch as (a' & _ & -> & _). cbn. lia.
  - apply mint_inv in H as (X & _ & _ & _ & a & _ & _ & _ & Su & _). rewrite Su. f_equal. destruct (beqb d e0) eqn:E.
    + apply beqb_spec in E as ->. rewrite beqb_refl. reflexivity.
    + destruct (beqb e0 d) eqn:E2; [apply beqb_spec in E2 as ->; rewrite beqb_refl in E; discriminate E|reflexivity].
  - destruct (burn_spec dec enc M e s c e0 x G EO) as (_ & _ & B). destruct (B s' H) as (a & _ & F & X & _ & Su & _). rewrite Su. f_equal. destruct (beqb d e0) eqn:E.
    + apply beqb_spec in E as ->. rewrite beqb_refl. reflexivity.
    + destruct (beqb e0 d) eqn:E2; [apply beqb_spec in E2 as ->; rewrite beqb_refl in E; discriminate E|reflexivity].
  - destruct (change_spec dec enc AF s c e0 n G) as (_ & _ & C). destruct (C s' H) as (_ & _ & _ & ->). cbn. lia.
  - apply set_metadata_inv in H as (-> & _). cbn. lia.
  - unfold update_params in H. destruct (negb (beqb c gov)); [discriminate H|]. destruct (negb _); [discriminate H|]. injection H as <-. cbn. lia.
  - destruct (Z.leb_spec x 0); [discriminate H|]. apply send_inv in H as [-> _]. cbn. lia.
  - destruct (deconstruct dec enc e0) eqn:De; cbn [is_some orb] in H; [discriminate H|]. destruct (f_bal s a e0 + x <? 0); [discriminate H|]. injection H as <-.
    cbn [set_sup f_sup]. rewrite sadd_get. destruct (beqb d e0) eqn:E; [apply beqb_spec in E as ->; contradiction|reflexivity].
  - destruct (is_some (deconstruct dec enc (m_base m))); [discriminate H|]. injection H as <-. cbn. lia.
  - destruct (restart_ok s G) as (s2 & R & _ & _ & _ & Su & _). unfold restart in R. rewrite R in H. injection H as <-. rewrite Su. lia.
Qed.
Definition admin_after (s : st) (d : bytes) (o : op) : bytes :=
  match o with
  | OCreate c sub _ _ _ => if beqb d (match token_denom dec enc c sub with Some d' => d' | None => [] end) then c else get_admin s d
  | OChangeAdmin _ d' n => if beqb d d' then n else get_admin s d
  | _ => get_admin s d
  end.
Lemma run_admin e s o s' d : good s -> env_ok M e -> run dec enc M P gov e s o = Ok s' -> get_admin s' d = admin_after s d o.
Proof.
  intros G EO. destruct o as [c sub n y k|c e0 x|c e0 x|c e0 n|c m|c fee|from to e0 x|a e0 x|m|]; cbn [run admin_after]; intro H.
  - destruct (create dec enc P e s c sub n y k) as [[e0 s1]| |] eqn:C; cbn [rbind snd] in H; try discriminate H. injection H as <-.
    apply (create_inv _ _ _ AF) in C as (a & s2 & T & D & _ & K & Ch & ->). apply charge_inv in Ch as (a' & _ & -> & _).
    rewrite T. unfold get_admin. cbn [set_store set_meta set_bal f_store f_meta]. rewrite (st_auth dec enc s c e0 G). destruct (beqb d e0); reflexivity.
  - apply mint_inv in H as (X & _ & _ & _ & a & _ & _ & _ & _ & St & _). unfold get_admin. rewrite St. reflexivity.
  - destruct (burn_spec dec enc M e s c e0 x G EO) as (_ & _ & B). destruct (B s' H) as (a & _ & F & X & _ & _ & St & _). unfold get_admin. rewrite St. reflexivity.
  - destruct (change_spec dec enc AF s c e0 n G) as (_ & _ & C). destruct (C s' H) as (_ & _ & _ & ->). apply get_admin_set. exact (g_sorted _ _ s G).
  - apply set_metadata_inv in H as (-> & _). reflexivity.
  - unfold update_params in H. destruct (negb (beqb c gov)); [discriminate H|]. destruct (negb _); [discriminate H|]. injection H as <-. reflexivity.
  - destruct (Z.leb_spec x 0); [discriminate H|]. apply send_inv in H as [-> _]. reflexivity.
  - destruct (is_some (deconstruct dec enc e0) || (f_bal s a e0 + x <? 0)); [discriminate H|]. injection H as <-. reflexivity.
  - destruct (is_some (deconstruct dec enc (m_base m))); [discriminate H|]. injection H as <-. reflexivity.
  - destruct (restart_ok s G) as (s2 & R & _ & _ & _ & _ & Ad & _). unfold restart in R. rewrite R in H. injection H as <-. exact (Ad d).
Qed.
(* a coin that exists keeps its decimals once set, and its metadata *)
Lemma run_meta e s o s' d m : good s -> env_ok M e -> get_admin s d <> [] -> kget (f_meta s) d = Some m -> run dec enc M P gov e s o = Ok s' ->
  exists m', kget (f_meta s') d = Some m' /\ (m_decimals m <> 0 -> m_decimals m' = m_decimals m).
Proof.
  intros G EO Ad Me. pose proof (get_admin_ne _ _ Ad) as K.
  assert (FD : deconstruct dec enc d <> None) by (destruct (g_auth _ _ s G d _ K) as (De & _); exact De).
  assert (Same : forall s1, f_meta s1 = f_meta s -> exists m', kget (f_meta s1) d = Some m' /\ (m_decimals m <> 0 -> m_decimals m' = m_decimals m)).
  { intros s1 E. exists m. rewrite E. split; [exact Me|reflexivity]. }
  destruct o as [c sub n y k|c e0 x|c e0 x|c e0 n|c m0|c fee|from to e0 x|a e0 x|m0|]; cbn [run]; intro H.
  - destruct (create dec enc P e s c sub n y k) as [[e0 s1]| |] eqn:C; cbn [rbind snd] in H; try discriminate H. injection H as <-.
    apply (create_inv _ _ _ AF) in C as (a & s2 & T & D & _ & Kn & Ch & ->). apply charge_inv in Ch as (a' & _ & -> & _).
    cbn [set_store set_meta set_bal f_store f_meta]. rewrite (kget_kset _ _ _ _ (g_msorted _ _ s G)). exists m. split; [|reflexivity].
    destruct (beqb d e0) eqn:E; [apply beqb_spec in E as ->; rewrite Kn in Me; discriminate Me|exact Me].
  - apply mint_inv in H as (X & _ & _ & _ & a & _ & _ & _ & _ & _ & Mt & _). apply Same. exact Mt.
  - destruct (burn_spec dec enc M e s c e0 x G EO) as (_ & _ & B). destruct (B s' H) as (a & _ & F & X & _ & _ & _ & Mt & _). apply Same. exact Mt.
  - destruct (change_spec dec enc AF s c e0 n G) as (_ & _ & C). destruct (C s' H) as (_ & _ & _ & ->). apply Same. reflexivity.
  - apply set_metadata_inv in H as (-> & _ & Dc). cbn [set_meta f_meta]. rewrite (kget_kset _ _ _ _ (g_msorted _ _ s G)).
    destruct (beqb d (m_base m0)) eqn:E; [|exists m; split; [exact Me|reflexivity]]. apply beqb_spec in E as ->.
    exists m0. split; [reflexivity|]. intro Nz. destruct (Dc m Me) as [Z0|Z0]; [contradiction|symmetry; exact Z0].
  - unfold update_params in H. destruct (negb (beqb c gov)); [discriminate H|]. destruct (negb _); [discriminate H|]. injection H as <-. apply Same. reflexivity.
  - destruct (Z.leb_spec x 0); [discriminate H|]. apply send_inv in H as [-> _]. apply Same. reflexivity.
  - destruct (is_some (deconstruct dec enc e0) || (f_bal s a e0 + x <? 0)); [discriminate H|]. injection H as <-. apply Same. reflexivity.
  - destruct (deconstruct dec enc (m_base m0)) eqn:De; cbn [is_some] in H; [discriminate H|]. injection H as <-. cbn [set_meta f_meta].
    rewrite (kget_kset _ _ _ _ (g_msorted _ _ s G)). destruct (beqb d (m_base m0)) eqn:E; [apply beqb_spec in E as ->; contradiction|]. exists m. split; [exact Me|reflexivity].
  - destruct (restart_ok s G) as (s2 & R & _ & _ & _ & _ & _ & _ & Rm). unfold restart in R. rewrite R in H. injection H as <-.
    destruct (Rm d) as (c & sub & _ & Q & _); [rewrite K; discriminate|]. exists (restored s d sub). split; [exact Q|]. intros _.
    unfold restored, export1. rewrite Me. reflexivity.
Qed.
End Factory.
