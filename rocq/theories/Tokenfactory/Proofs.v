From Verif Require Import Lib.Base Lib.Bytes Lib.Kv Lib.Coins Tokenfactory.Model Tokenfactory.Spec.
Open Scope Z_scope.

(* ---------- texts ---------- *)
Lemma split_ne c s : split c s <> [].
Proof. destruct s as [|x r]; cbn [split]; [discriminate|]. destruct (x =? c)%N; [discriminate|]. destruct (split c r); discriminate. Qed.
Lemma split_app c p r : ~ In c p -> split c (p ++ c :: r) = p :: split c r.
Proof.
  induction p as [|x p IH]; intro H; cbn [app split].
  - rewrite N.eqb_refl. reflexivity.
  - destruct (x =? c)%N eqn:E; [apply N.eqb_eq in E; exfalso; apply H; left; exact E|].
    rewrite IH; [reflexivity|]. intro I. apply H. right. exact I.
Qed.
Lemma join_split c s : join c (split c s) = s.
Proof.
  induction s as [|x r IH]; cbn [split]; [reflexivity|]. destruct (x =? c)%N eqn:E.
  - apply N.eqb_eq in E as ->. destruct (split c r) as [|p ps] eqn:Sp; [destruct (split_ne _ _ Sp)|]. cbn [join] in *. cbn [app]. f_equal. exact IH.
  - destruct (split c r) as [|p ps] eqn:Sp; [destruct (split_ne _ _ Sp)|]. rewrite <- IH. cbn [join]. destruct ps; reflexivity.
Qed.
Lemma app_sep_inj (c : N) p q r s : ~ In c p -> ~ In c q -> p ++ c :: r = q ++ c :: s -> p = q /\ r = s.
Proof.
  revert q. induction p as [|x p IH]; intros q H1 H2 E.
  - destruct q as [|y q]; cbn in E; [injection E as ->; split; reflexivity|]. injection E as E1 _. exfalso. apply H2. left. symmetry. exact E1.
  - destruct q as [|y q]; cbn in E; injection E as E1 E2; [exfalso; apply H1; left; exact E1|].
    destruct (IH q) as [-> ->]; [intro I; apply H1; right; exact I|intro I; apply H2; right; exact I|exact E2|]. subst. split; reflexivity.
Qed.
Lemma forallb_not_in f (c : N) l : forallb f l = true -> f c = false -> ~ In c l.
Proof. intros H F I. rewrite forallb_forall in H. specialize (H _ I). rewrite F in H. discriminate H. Qed.
Lemma valid_denom_chars d : valid_denom d = true -> forallb denom_char d = true.
Proof.
  destruct d as [|c r]; [discriminate|]. cbn [valid_denom forallb]. intro H. apply andb_prop in H as [H _]. apply andb_prop in H as [H _].
  apply andb_prop in H as [H1 H2]. rewrite H2, andb_true_r. unfold denom_char. rewrite H1. reflexivity.
Qed.
Lemma chars_ok d : forallb denom_char d = true -> bytes_ok d.
Proof.
  intro H. unfold bytes_ok. rewrite forallb_forall in H. apply Forall_forall. intros x I. specialize (H x I).
  unfold denom_char, is_letter, is_digit in H. lia.
Qed.
Lemma no_bar d : valid_denom d = true -> ~ In bar d.
Proof. intro H. exact (forallb_not_in denom_char bar _ (valid_denom_chars _ H) eq_refl). Qed.

(* ---------- keys ---------- *)
Lemma denom_prefix_eq d : denom_prefix d = 2%N :: bar :: d ++ [bar].
Proof. reflexivity. Qed.
Lemma authority_key_eq d : authority_key d = 2%N :: bar :: d ++ [bar; 1%N].
Proof. unfold authority_key. rewrite denom_prefix_eq. cbn [app]. rewrite <- app_assoc. reflexivity. Qed.
Lemma creator_prefix_eq c d : creator_prefix c ++ d = 3%N :: bar :: c ++ bar :: d.
Proof. unfold creator_prefix. cbn [join app]. rewrite <- app_assoc. reflexivity. Qed.
Lemma authority_inj d e : authority_key d = authority_key e -> d = e.
Proof. rewrite !authority_key_eq. intro H. injection H as H. exact (app_inv_tail _ _ _ H). Qed.
Lemma creator_inj c d c' d' : ~ In bar c -> ~ In bar c' -> creator_prefix c ++ d = creator_prefix c' ++ d' -> c = c' /\ d = d'.
Proof. rewrite !creator_prefix_eq. intros H1 H2 E. injection E as E. exact (app_sep_inj _ _ _ _ _ H1 H2 E). Qed.
Lemma key_kinds d c d' : authority_key d <> creator_prefix c ++ d'.
Proof. rewrite authority_key_eq, creator_prefix_eq. discriminate. Qed.
Lemma beqb_akey d e : beqb (authority_key d) (authority_key e) = beqb d e.
Proof.
  destruct (beqb d e) eqn:E; [apply beqb_spec in E as ->; apply beqb_refl|]. apply beqb_neq. apply beqb_neq in E. intro H. apply E. exact (authority_inj _ _ H).
Qed.

(* ---------- balances ---------- *)
Lemma badd_get b a d x a' d' : badd b a d x a' d' = b a' d' + (if (a' =? a) && beqb d' d then x else 0).
Proof. unfold badd. destruct ((a' =? a) && beqb d' d); lia. Qed.
Lemma sadd_get f d x d' : sadd f d x d' = f d' + (if beqb d' d then x else 0).
Proof. unfold sadd. destruct (beqb d' d); lia. Qed.
Lemma bmove_get c : sorted c -> forall b from to a d,
  bmove b from to c a d = b a d - (if a =? from then amt c d else 0) + (if a =? to then amt c d else 0).
Proof.
  induction c as [|[d0 x] r IH]; intros S b from to a d; cbn [bmove amt].
  - destruct (a =? from), (a =? to); lia.
  - destruct S as [L S]. rewrite (IH S), !badd_get. destruct (beqb d d0) eqn:E.
    + apply beqb_spec in E as ->. rewrite (amt_below r d0 L), andb_true_r, andb_true_r.
      rewrite ?beqb_refl. destruct (a =? from), (a =? to); lia.
    + rewrite !andb_false_r. destruct (a =? from), (a =? to); lia.
Qed.

Lemma total_ext b b' d l : (forall a, In a l -> b a d = b' a d) -> total b d l = total b' d l.
Proof. induction l as [|a l IH]; intro H; [reflexivity|]. cbn [total]. rewrite (H a (or_introl eq_refl)), IH; [reflexivity|]. intros. apply H. right. assumption. Qed.
Lemma total_badd_out b a d x d' l : ~ In a l \/ d' <> d -> total (badd b a d x) d' l = total b d' l.
Proof.
  intro H. apply total_ext. intros a' I. rewrite badd_get. destruct ((a' =? a) && beqb d' d) eqn:E; [|lia].
  apply andb_prop in E as [E1 E2]. apply Z.eqb_eq in E1 as ->. apply beqb_spec in E2. destruct H; contradiction.
Qed.
Lemma total_badd_in b a d x l : NoDup l -> In a l -> total (badd b a d x) d l = total b d l + x.
Proof.
  induction l as [|y l IH]; intros N I; [destruct I|]. inversion N as [|? ? N1 N2]; subst. cbn [total]. destruct I as [->|I].
  - rewrite (total_badd_out b a d x d l (or_introl N1)). rewrite badd_get, Z.eqb_refl, beqb_refl. cbn [andb]. lia.
  - rewrite (IH N2 I), badd_get. destruct (y =? a) eqn:E; [apply Z.eqb_eq in E as ->; contradiction|]. cbn [andb]. lia.
Qed.
Lemma backed_ext s s' d : (forall a, f_bal s a d = f_bal s' a d) -> f_sup s d = f_sup s' d -> backed s d -> backed s' d.
Proof.
  intros B S (l & N & O1 & T). exists l. split; [exact N|]. split; [intros a I; rewrite <- B; exact (O1 a I)|].
  rewrite <- S, <- T. apply total_ext. intros a _. symmetry. apply B.
Qed.
Lemma backed_badd s a d x d' : backed s d' ->
  backed (set_sup (set_bal s (badd (f_bal s) a d x)) (sadd (f_sup s) d x)) d'.
Proof.
  intros (l & N & O1 & T). unfold backed. cbn [set_sup set_bal f_bal f_sup]. destruct (beqb d' d) eqn:E.
  - apply beqb_spec in E as ->. destruct (in_dec Z.eq_dec a l) as [I|I].
    + exists l. split; [exact N|]. split.
      * intros b Ib. rewrite badd_get, (O1 b Ib). destruct (b =? a) eqn:E; [apply Z.eqb_eq in E as ->; contradiction|]. cbn [andb]. lia.
      * rewrite (total_badd_in _ _ _ _ _ N I), T, sadd_get, beqb_refl. reflexivity.
    + exists (a :: l). split; [constructor; assumption|]. split.
      * intros b Ib. rewrite badd_get, (O1 b); [|intro; apply Ib; right; assumption].
        destruct (b =? a) eqn:E; [apply Z.eqb_eq in E as ->; destruct Ib; left; reflexivity|]. cbn [andb]. lia.
      * cbn [total]. rewrite (total_badd_out _ _ _ _ _ _ (or_introl I)), T, badd_get, (O1 a I), Z.eqb_refl, beqb_refl, sadd_get, beqb_refl. cbn [andb]. lia.
  - exists l. split; [exact N|]. split.
    + intros b Ib. rewrite badd_get, E, andb_false_r, (O1 b Ib). lia.
    + apply beqb_neq in E. rewrite total_badd_out by (right; exact E). rewrite T, sadd_get. apply beqb_neq in E. rewrite E. lia.
Qed.
(* a transfer of coins is a taking and a giving of each *)
Lemma backed_send s c : sorted c -> forall from to d, backed s d -> backed (set_bal s (bmove (f_bal s) from to c)) d.
Proof.
  intros S from to d B.
  pose proof (backed_badd s from d (- amt c d) d B) as B1. pose proof (backed_badd _ to d (amt c d) d B1) as B2.
  refine (backed_ext _ _ d _ _ B2).
  - intro a. cbn [set_sup set_bal f_bal f_sup]. rewrite !badd_get, (bmove_get c S), !beqb_refl, !andb_true_r. destruct (a =? from), (a =? to); lia.
  - cbn [set_sup set_bal f_bal f_sup]. rewrite !sadd_get, !beqb_refl. lia.
Qed.
Lemma amt_fee_ok (f : bytes -> Z) c : cvalid c -> (forall d, 0 <= f d) ->
  forallb (fun '(d, x) => x <=? f d) c = true <-> forall d, amt c d <= f d.
Proof.
  intros V F. rewrite forallb_forall. split.
  - intros H d. destruct (amt_zero_or_in c d) as [->|I]; [apply F|]. specialize (H _ I). cbn in H. lia.
  - intros H [d x] I. rewrite <- (amt_in c d x (proj1 V) I). specialize (H d). lia.
Qed.

Section Factory.
Variables (dec : bytes -> option Z) (enc : Z -> bytes) (M P : Z) (gov : bytes).
Hypothesis AF : address_format dec enc.

Lemma dec_clean c a : dec c = Some a -> c <> [] /\ forallb denom_char c = true /\ ~ In slash c /\ ~ In bar c.
Proof.
  intro H. destruct (proj1 AF c a H) as [N C]. split; [exact N|].
  assert (D : forallb denom_char c = true).
  { rewrite forallb_forall in *. intros x I. specialize (C x I). unfold denom_char. rewrite C. reflexivity. }
  split; [exact D|]. split; [exact (forallb_not_in (fun x => is_letter x || is_digit x) slash _ C eq_refl)|exact (forallb_not_in denom_char bar _ D eq_refl)].
Qed.
Lemma dec_nil : dec [] = None.
Proof. destruct (dec []) eqn:E; [|reflexivity]. destruct (proj1 (dec_clean _ _ E)). reflexivity. Qed.
Lemma enc_inj c a c' a' : dec c = Some a -> dec c' = Some a' -> enc a = enc a' -> a = a'.
Proof. intros H1 H2 E. pose proof (proj1 (proj2 AF) _ _ H1) as D1. pose proof (proj1 (proj2 AF) _ _ H2) as D2. rewrite E, D2 in D1. injection D1 as ->. reflexivity. Qed.

(* a name made from an account and a name of its own reads back *)
Lemma token_denom_spec c sub d : token_denom dec enc c sub = Some d ->
  exists a, dec c = Some a /\ d = factory ++ slash :: enc a ++ slash :: sub /\ valid_denom d = true /\
            deconstruct dec enc d = Some (enc a, sub).
Proof.
  unfold token_denom. intro H.
  destruct (Nat.ltb 44 (length sub)); [discriminate H|]. destruct (Nat.ltb (length sub) 1); [discriminate H|].
  destruct (existsb short (split slash sub)) eqn:Sh; [discriminate H|]. destruct (Nat.ltb 75 (length c)); [discriminate H|].
  destruct (existsb (N.eqb slash) c || Nat.ltb (length c) 1); [discriminate H|].
  destruct (dec c) as [a|] eqn:D; [|discriminate H].
  destruct (valid_denom (join slash [factory; enc a; sub])) eqn:V; [|discriminate H]. assert (E : d = join slash [factory; enc a; sub]) by congruence. clear H. subst d.
  exists a. split; [reflexivity|]. split; [reflexivity|]. split; [exact V|].
  unfold deconstruct. rewrite V. cbn [negb]. change (join slash [factory; enc a; sub]) with (factory ++ slash :: enc a ++ slash :: sub).
  pose proof (proj1 (proj2 AF) _ _ D) as D2. destruct (dec_clean _ _ D2) as (_ & _ & NS & _).
  rewrite (split_app slash factory (enc a ++ slash :: sub)) by (apply (forallb_not_in is_letter); reflexivity). rewrite (split_app _ _ _ NS).
  destruct (split slash sub) as [|p ps] eqn:Sp; [destruct (split_ne _ _ Sp)|].
  rewrite beqb_refl. cbn [negb]. rewrite D2, Sh, <- Sp, join_split. reflexivity.
Qed.
Lemma token_denom_inj c sub c' sub' d d' : token_denom dec enc c sub = Some d -> token_denom dec enc c' sub' = Some d' ->
  (d = d' <-> dec c = dec c' /\ sub = sub').
Proof.
  intros H1 H2. destruct (token_denom_spec _ _ _ H1) as (a & D1 & E1 & _ & R1). destruct (token_denom_spec _ _ _ H2) as (a' & D2 & E2 & _ & R2).
  split.
  - intros ->. rewrite R1 in R2. injection R2 as E ->. split; [|reflexivity]. rewrite D1, D2, (enc_inj _ _ _ _ D1 D2 E). reflexivity.
  - intros [E ->]. rewrite D1, D2 in E. injection E as <-. rewrite E1, E2. reflexivity.
Qed.

Lemma deconstruct_valid d r : deconstruct dec enc d = Some r -> valid_denom d = true.
Proof. unfold deconstruct. destruct (valid_denom d); [reflexivity|discriminate]. Qed.

(* ---------- the invariant ---------- *)
Record good (s : st) : Prop := mk_good {
  g_sorted : ksorted (f_store s);
  g_msorted : ksorted (f_meta s);
  g_base : forall d m, kget (f_meta s) d = Some m -> m_base m = d;
  g_auth : forall d a, kget (f_store s) (authority_key d) = Some a ->
             deconstruct dec enc d <> None /\ dec a <> None /\ kget (f_meta s) d <> None /\
             exists c, dec c <> None /\ kget (f_store s) (creator_prefix c ++ d) = Some d;
  g_list : forall k v, kget (f_store s) k = Some v ->
             (exists d, k = authority_key d) \/
             exists c sub, k = creator_prefix c ++ v /\ token_denom dec enc c sub = Some v /\ kget (f_store s) (authority_key v) <> None;
  g_uni : forall c c' d, kget (f_store s) (creator_prefix c ++ d) <> None -> kget (f_store s) (creator_prefix c' ++ d) <> None ->
             dec c <> None -> dec c' <> None -> c = c';
  g_fee : cvalid (f_fee s) /\ forallb (fun '(d, _) => valid_denom d) (f_fee s) = true;
  g_pos : forall a d, 0 <= f_bal s a d;
  g_backed : forall d, backed s d
}.

Lemma some_ne {A} (x : A) : Some x <> None. Proof. discriminate. Qed.
Lemma initial_good s : initial dec enc s -> good s.
Proof.
  intros (E & V & VD & S & B & Po & Ba & F). constructor; try assumption; rewrite ?E; try (intros; discriminate).
  - apply ksorted_nil.
  - intros c c' d H. destruct H. reflexivity.
  - split; assumption.
Qed.

Lemma get_admin_ne s d : get_admin s d <> [] -> kget (f_store s) (authority_key d) = Some (get_admin s d).
Proof. unfold get_admin. destruct (kget (f_store s) (authority_key d)); [reflexivity|]. intro H. destruct H. reflexivity. Qed.
Lemma get_admin_some s d a : good s -> kget (f_store s) (authority_key d) = Some a -> get_admin s d = a /\ a <> [].
Proof.
  intros G H. unfold get_admin. rewrite H. split; [reflexivity|]. intros ->. destruct (g_auth s G d _ H) as (_ & D & _). apply D. exact dec_nil.
Qed.
Lemma get_admin_none s d : good s -> (get_admin s d = [] <-> kget (f_store s) (authority_key d) = None).
Proof.
  intro G. split; intro H.
  - destruct (kget (f_store s) (authority_key d)) eqn:E; [|reflexivity]. destruct (get_admin_some s d _ G E) as [E1 E2]. congruence.
  - unfold get_admin. rewrite H. reflexivity.
Qed.

(* same store: the store part of the invariant carries over *)
Lemma good_other s s' : good s -> f_store s' = f_store s -> f_fee s' = f_fee s -> f_meta s' = f_meta s ->
  (forall a d, 0 <= f_bal s' a d) -> (forall d, backed s' d) -> good s'.
Proof. intros G E1 E2 E3 Po Ba. destruct G. constructor; rewrite ?E1, ?E2, ?E3; assumption. Qed.

(* ---------- sending ---------- *)
Lemma send_ok e s from to c : good s -> env_ok M e -> cvalid c ->
  (forall d, e_locked e from d <= f_bal s from d) ->
  is_ok (send e s from to c) = true <-> forall d, amt c d <= f_bal s from d - e_locked e from d.
Proof.
  intros G EO V L. unfold send. rewrite <- (amt_fee_ok (fun d => f_bal s from d - e_locked e from d) c V).
  - destruct (forallb _ c); split; intro; try reflexivity; discriminate.
  - intro d. specialize (L d). lia.
Qed.
Lemma send1_ok e s from to d x :
  is_ok (send e s from to [(d, x)]) = true <-> x <= f_bal s from d - e_locked e from d.
Proof. unfold send. cbn [forallb]. rewrite andb_true_r. destruct (Z.leb_spec x (f_bal s from d - e_locked e from d)); cbn; split; intro; try reflexivity; try discriminate; lia. Qed.
Lemma send_no_panic e s from to c : send e s from to c <> Panic.
Proof. unfold send. destruct (forallb _ c); discriminate. Qed.
Lemma send_inv e s from to c s' : send e s from to c = Ok s' ->
  s' = set_bal s (bmove (f_bal s) from to c) /\ forall d x, In (d, x) c -> x <= f_bal s from d - e_locked e from d.
Proof.
  unfold send. destruct (forallb _ c) eqn:F; [|discriminate]. intro H. injection H as <-. split; [reflexivity|].
  rewrite forallb_forall in F. intros d x I. specialize (F _ I). cbn in F. lia.
Qed.
Lemma send_good e s from to c s' : good s -> env_ok M e -> cvalid c -> send e s from to c = Ok s' -> good s'.
Proof.
  intros G [EL _] V H. destruct (send_inv _ _ _ _ _ _ H) as [-> F]. apply (good_other s _ G); [reflexivity|reflexivity|reflexivity| |].
  - intros a d. cbn [set_bal f_bal]. rewrite (bmove_get c (proj1 V)). pose proof (g_pos s G a d) as Pa. pose proof (valid_nonneg c d V) as Pc.
    destruct (a =? from) eqn:E; [|destruct (a =? to); lia]. apply Z.eqb_eq in E as ->.
    assert (amt c d <= f_bal s from d); [|destruct (from =? to); lia].
    destruct (amt_zero_or_in c d) as [->|I]; [exact Pa|]. specialize (F _ _ I). specialize (EL from d). lia.
  - intro d. exact (backed_send s c (proj1 V) from to d (g_backed s G d)).
Qed.
Lemma valid1 d x : 0 < x -> cvalid [(d, x)].
Proof. intro H. apply cvalidb_spec. cbn. destruct (0 <? x) eqn:E; [reflexivity|lia]. Qed.

Lemma badd_good s a d x : good s -> 0 <= f_bal s a d + x -> good (set_sup (set_bal s (badd (f_bal s) a d x)) (sadd (f_sup s) d x)).
Proof.
  intros G H. apply (good_other s _ G); [reflexivity|reflexivity|reflexivity| |].
  - intros a' d'. cbn [set_sup set_bal f_bal]. rewrite badd_get. pose proof (g_pos s G a' d') as Pa.
    destruct ((a' =? a) && beqb d' d) eqn:E; [|lia]. apply andb_prop in E as [E1 E2]. apply Z.eqb_eq in E1 as ->. apply beqb_spec in E2 as ->. exact H.
  - intro d'. exact (backed_badd s a d x d' (g_backed s G d')).
Qed.

(* ---------- minting ---------- *)
Definition plus (s s' : st) (a : Z) (d : bytes) (x : Z) : Prop :=
  (forall a' d', f_bal s' a' d' = f_bal s a' d' + if (a' =? a) && beqb d' d then x else 0) /\
  (forall d', f_sup s' d' = f_sup s d' + if beqb d' d then x else 0) /\
  f_store s' = f_store s /\ f_meta s' = f_meta s /\ f_fee s' = f_fee s.

Lemma mint_inv e s c d x s' : mint dec enc M e s c d x = Ok s' ->
  0 < x /\ get_admin s d = c /\ deconstruct dec enc d <> None /\ kget (f_meta s) d <> None /\
  exists a, dec c = Some a /\ e_blocked e a = false /\ plus s s' a d x.
Proof.
  unfold mint. intro H. destruct (dec c) as [a|] eqn:D; cbn [is_some negb] in H; [|discriminate H].
  destruct (negb (valid_denom d) || (x <=? 0)) eqn:E1; [discriminate H|]. apply orb_false_iff in E1 as [_ X].
  destruct (kget (f_meta s) d) as [m|] eqn:Me; cbn [is_some negb] in H; [|discriminate H].
  destruct (beqb c (get_admin s d)) eqn:A; cbn [negb] in H; [|discriminate H]. apply beqb_spec in A.
  unfold mint_to in H. destruct (deconstruct dec enc d) as [r|] eqn:De; [|discriminate H]. rewrite X, D in H.
  destruct (e_blocked e a) eqn:B; [discriminate H|]. apply send_inv in H as [-> F].
  split; [lia|]. split; [symmetry; exact A|]. split; [discriminate|]. split; [discriminate|]. exists a. split; [reflexivity|]. split; [exact B|].
  unfold plus. cbn [set_sup set_bal f_bal f_sup f_store f_meta f_fee]. split.
  - intros a' d'. cbn [bmove]. rewrite !badd_get. destruct (a' =? a), (a' =? M), (beqb d' d); cbn [andb]; lia.
  - split; [intro d'; apply sadd_get|]. split; [reflexivity|]. split; reflexivity.
Qed.
Lemma mint_no_panic e s c d x : mint dec enc M e s c d x <> Panic.
Proof.
  unfold mint. destruct (negb (is_some (dec c))); [discriminate|]. destruct (negb (valid_denom d) || (x <=? 0)); [discriminate|].
  destruct (negb (is_some (kget (f_meta s) d))); [discriminate|]. destruct (negb (beqb c (get_admin s d))); [discriminate|].
  unfold mint_to. destruct (deconstruct dec enc d); [|discriminate]. destruct (x <=? 0); [discriminate|]. destruct (dec c); [|discriminate].
  destruct (e_blocked e z); [discriminate|]. apply send_no_panic.
Qed.
Lemma mint_when e s c d x : good s -> env_ok M e ->
  (is_ok (mint dec enc M e s c d x) = true <-> 0 < x /\ controlled_by s d c /\ exists a, dec c = Some a /\ e_blocked e a = false).
Proof.
  intros G EO. split.
  - destruct (mint dec enc M e s c d x) as [s'| |] eqn:H; try discriminate. intros _. apply mint_inv in H as (X & A & _ & _ & a & D & B & _).
    split; [exact X|]. split; [split; [exact A|]|exists a; split; assumption]. intros ->. rewrite dec_nil in D. discriminate D.
  - intros (X & [A N] & a & D & B). unfold mint. rewrite D. cbn [is_some negb].
    assert (K : kget (f_store s) (authority_key d) = Some c) by (rewrite <- A; apply get_admin_ne; rewrite A; exact N).
    destruct (g_auth s G d c K) as (De & _ & Me & _).
    destruct (deconstruct dec enc d) as [r|] eqn:Dd; [|destruct De; reflexivity]. rewrite (deconstruct_valid _ _ Dd). cbn [negb orb].
    replace (x <=? 0) with false by lia. destruct (kget (f_meta s) d); [|destruct Me; reflexivity]. cbn [is_some negb].
    rewrite A, beqb_refl. cbn [negb]. unfold mint_to. rewrite Dd, D, B. replace (x <=? 0) with false by lia.
    apply send1_ok. cbn [set_sup set_bal f_bal]. rewrite badd_get, Z.eqb_refl, beqb_refl. cbn [andb].
    rewrite (proj2 EO d). pose proof (g_pos s G M d). lia.
Qed.
Lemma plus_good s s' a d x : good s -> 0 <= f_bal s a d + x -> plus s s' a d x -> good s'.
Proof.
  intros G H (B & Su & E1 & E2 & E3). pose proof (badd_good s a d x G H) as G1.
  refine (good_other s _ G E1 E3 E2 _ _).
  - intros a' d'. rewrite B. pose proof (g_pos _ G1 a' d') as Po. cbn [set_sup set_bal f_bal] in Po. rewrite badd_get in Po. exact Po.
  - intro d'. refine (backed_ext _ _ d' _ _ (g_backed _ G1 d')); cbn [set_sup set_bal f_bal f_sup].
    + intro a'. rewrite B, badd_get. reflexivity.
    + rewrite Su, sadd_get. reflexivity.
Qed.

(* ---------- burning ---------- *)
Lemma total_le b d l a : (forall a, 0 <= b a d) -> In a l -> b a d <= total b d l.
Proof.
  intros Po. assert (T : forall l, 0 <= total b d l) by (induction l0 as [|y l0 IH]; cbn [total]; [lia|]; pose proof (Po y); lia).
  induction l as [|y l IH]; intro I; [destruct I|]. cbn [total]. destruct I as [->|I]; [pose proof (T l); lia|]. pose proof (Po y). specialize (IH I). lia.
Qed.
Lemma balance_le_supply s a d : good s -> f_bal s a d <= f_sup s d.
Proof.
  intro G. destruct (g_backed s G d) as (l & N & O1 & T). rewrite <- T. destruct (in_dec Z.eq_dec a l) as [I|I].
  - exact (total_le _ _ _ _ (fun a => g_pos s G a d) I).
  - rewrite (O1 a I). clear T. induction l as [|y l IH]; cbn [total]; [lia|]. inversion N; subst.
    pose proof (g_pos s G y d). enough (0 <= total (f_bal s) d l) by lia. clear -G. induction l as [|z l IH]; cbn [total]; [lia|]. pose proof (g_pos s G z d). lia.
Qed.
Lemma burn_spec e s c d x : good s -> env_ok M e ->
  burn dec M e s c d x <> Panic /\
  (is_ok (burn dec M e s c d x) = true <-> 0 < x /\ valid_denom d = true /\ exists a, dec c = Some a /\ x <= f_bal s a d - e_locked e a d) /\
  forall s', burn dec M e s c d x = Ok s' -> exists a, dec c = Some a /\ x <= f_bal s a d - e_locked e a d /\ 0 < x /\ plus s s' a d (- x).
Proof.
  intros G EO. unfold burn. destruct (dec c) as [a|] eqn:D; cbn [is_some negb].
  2:{ split; [discriminate|]. split; [|intros; discriminate]. split; [discriminate|]. intros (_ & _ & a & H & _). discriminate H. }
  destruct (valid_denom d) eqn:V; cbn [negb orb].
  2:{ split; [discriminate|]. split; [|intros; discriminate]. split; [discriminate|]. intros (_ & H & _). discriminate H. }
  destruct (Z.leb_spec x 0) as [X|X].
  { split; [discriminate|]. split; [|intros; discriminate]. split; [discriminate|]. intros (H & _). lia. }
  unfold burn_from. replace (x <=? 0) with false by lia. rewrite D. pose proof (send1_ok e s a M d x) as SO.
  destruct (send e s a M [(d, x)]) as [s1| |] eqn:Se; cbn [rbind is_ok] in *.
  - pose proof (proj1 SO eq_refl) as F. clear SO. pose proof (send_good _ _ _ _ _ _ G EO (valid1 d x X) Se) as G1. apply send_inv in Se as [-> _].
    pose proof (balance_le_supply _ M d G1) as BS. cbn [set_bal f_bal f_sup] in *.
    pose proof (g_pos s G M d) as PM. pose proof (g_pos s G a d) as Pa. pose proof (proj1 EO a d) as PL.
    assert (BM : x <= bmove (f_bal s) a M [(d, x)] M d).
    { cbn [bmove]. rewrite !badd_get, Z.eqb_refl, beqb_refl. destruct (M =? a) eqn:E; cbn [andb]; [apply Z.eqb_eq in E; subst a; lia|lia]. }
    replace (bmove (f_bal s) a M [(d, x)] M d <? x) with false by lia. replace (f_sup s d <? x) with false by lia.
    split; [discriminate|]. split.
    + split; [|reflexivity]. intros _. split; [exact X|]. split; [reflexivity|]. exists a. split; [reflexivity|exact F].
    + intros s' H. injection H as <-. exists a. split; [reflexivity|]. split; [exact F|]. split; [exact X|]. unfold plus.
      cbn [set_sup set_bal f_bal f_sup f_store f_meta f_fee]. split.
      * intros a' d'. cbn [bmove]. rewrite !badd_get. destruct (a' =? a), (a' =? M), (beqb d' d); cbn [andb]; lia.
      * split; [intro d'; apply sadd_get|]. split; [reflexivity|]. split; reflexivity.
  - split; [discriminate|]. split; [|intros; discriminate]. split; [discriminate|]. intros (_ & _ & a' & H & F). injection H as <-.
    apply SO in F. discriminate F.
  - destruct (send_no_panic _ _ _ _ _ Se).
Qed.

(* ---------- the admin ---------- *)
Lemma set_admin_inv s d a s' : set_admin dec s d a = Ok s' ->
  s' = set_store s (kset (f_store s) (authority_key d) a) /\ admin_ok dec a = true.
Proof. unfold set_admin. destruct (admin_ok dec a) eqn:A; [|discriminate]. intro H. injection H as <-. split; reflexivity. Qed.
Lemma admin_ok_some a z : dec a = Some z -> admin_ok dec a = true.
Proof. intro H. unfold admin_ok. destruct a; [reflexivity|]. rewrite H. reflexivity. Qed.
Lemma get_admin_set s d a d' : ksorted (f_store s) ->
  get_admin (set_store s (kset (f_store s) (authority_key d) a)) d' = if beqb d' d then a else get_admin s d'.
Proof. intro S. unfold get_admin. cbn [set_store f_store]. rewrite (kget_kset _ _ _ _ S), beqb_akey. destruct (beqb d' d); reflexivity. Qed.

Lemma change_spec s c d n : good s ->
  change_admin dec enc s c d n <> Panic /\
  (is_ok (change_admin dec enc s c d n) = true <-> controlled_by s d c /\ dec n <> None) /\
  forall s', change_admin dec enc s c d n = Ok s' ->
    controlled_by s d c /\ dec n <> None /\ deconstruct dec enc d <> None /\ s' = set_store s (kset (f_store s) (authority_key d) n).
Proof.
  intro G. unfold change_admin, controlled_by. destruct (dec c) as [a|] eqn:D; cbn [is_some negb orb].
  2:{ split; [discriminate|]. split; [|intros; discriminate]. split; [discriminate|]. intros [[A N] _].
      destruct (g_auth s G d (get_admin s d)) as (_ & H & _); [apply get_admin_ne; rewrite A; exact N|]. rewrite A, D in H. destruct H. reflexivity. }
  destruct (dec n) as [z|] eqn:Dn; cbn [is_some negb orb].
  2:{ split; [discriminate|]. split; [|intros; discriminate]. split; [discriminate|]. intros [_ H]. destruct H. reflexivity. }
  destruct (deconstruct dec enc d) as [r|] eqn:De; cbn [is_some negb orb].
  2:{ split; [discriminate|]. split; [|intros; discriminate]. split; [discriminate|]. intros [[A N] _].
      destruct (g_auth s G d (get_admin s d)) as (H & _); [apply get_admin_ne; rewrite A; exact N|]. rewrite De in H. destruct H. reflexivity. }
  destruct (beqb c (get_admin s d)) eqn:A; cbn [negb].
  - apply beqb_spec in A. unfold set_admin. rewrite (admin_ok_some _ _ Dn). split; [discriminate|].
    assert (N : c <> []) by exact (proj1 (dec_clean _ _ D)). split.
    + split; [|reflexivity]. intros _. split; [split; [symmetry; exact A|exact N]|discriminate].
    + intros s' H. injection H as <-. split; [split; [symmetry; exact A|exact N]|]. split; [discriminate|]. split; [discriminate|]. reflexivity.
  - apply beqb_neq in A. split; [discriminate|]. split; [|intros; discriminate]. split; [discriminate|]. intros [[H _] _]. symmetry in H. contradiction.
Qed.

(* replacing the admin of a coin that has one *)
Lemma good_admin s d n : good s -> kget (f_store s) (authority_key d) <> None -> dec n <> None ->
  good (set_store s (kset (f_store s) (authority_key d) n)).
Proof.
  intros G K N. pose proof (g_sorted s G) as S.
  assert (KC : forall c e, kget (kset (f_store s) (authority_key d) n) (creator_prefix c ++ e) = kget (f_store s) (creator_prefix c ++ e)).
  { intros c e. rewrite (kget_kset _ _ _ _ S). destruct (beqb (creator_prefix c ++ e) (authority_key d)) eqn:E; [|reflexivity].
    apply beqb_spec in E. symmetry in E. destruct (key_kinds _ _ _ E). }
  assert (KA : forall e, kget (kset (f_store s) (authority_key d) n) (authority_key e) = if beqb e d then Some n else kget (f_store s) (authority_key e)).
  { intro e. rewrite (kget_kset _ _ _ _ S), beqb_akey. reflexivity. }
  constructor; cbn [set_store f_store f_meta f_fee f_bal f_sup]; try (destruct G; assumption).
  - exact (kset_sorted _ _ _ S).
  - intros e a. rewrite KA. destruct (beqb e d) eqn:E.
    + apply beqb_spec in E as ->. intro H. injection H as <-. destruct (kget (f_store s) (authority_key d)) as [a0|] eqn:K0; [|destruct K; reflexivity].
      destruct (g_auth s G d a0 K0) as (H1 & _ & H3 & c & H4 & H5). split; [exact H1|]. split; [exact N|]. split; [exact H3|]. exists c. rewrite KC. split; assumption.
    + intro H. destruct (g_auth s G e a H) as (H1 & H2 & H3 & c & H4 & H5). split; [exact H1|]. split; [exact H2|]. split; [exact H3|].
      exists c. rewrite KC. split; assumption.
  - intros k v. rewrite (kget_kset _ _ _ _ S). destruct (beqb k (authority_key d)) eqn:E.
    + apply beqb_spec in E as ->. intro H. left. exists d. reflexivity.
    + intro H. destruct (g_list s G k v H) as [L|(c & sub & L1 & L2 & L3)]; [left; exact L|right].
      exists c, sub. split; [exact L1|]. split; [exact L2|]. rewrite KA. destruct (beqb v d); [discriminate|exact L3].
  - intros c c' e. rewrite !KC. exact (g_uni s G c c' e).
Qed.

(* ---------- metadata ---------- *)
Lemma good_meta s m : good s -> good (set_meta s (kset (f_meta s) (m_base m) m)).
Proof.
  intros G. pose proof (g_msorted s G) as S. constructor; cbn [set_meta f_store f_meta f_fee f_bal f_sup]; try (destruct G; assumption).
  - exact (kset_sorted _ _ _ S).
  - intros d m'. rewrite (kget_kset _ _ _ _ S). destruct (beqb d (m_base m)) eqn:E; [|exact (g_base s G d m')].
    apply beqb_spec in E as ->. intro H. injection H as <-. reflexivity.
  - intros d a H. destruct (g_auth s G d a H) as (H1 & H2 & H3 & H4). split; [exact H1|]. split; [exact H2|]. split; [|exact H4].
    rewrite (kget_kset _ _ _ _ S). destruct (beqb d (m_base m)); [discriminate|exact H3].
Qed.
Lemma set_metadata_inv e s c m s' : set_metadata dec enc gov e s c m = Ok s' ->
  s' = set_meta s (kset (f_meta s) (m_base m) m) /\
  (controlled_by s (m_base m) c \/ get_admin s (m_base m) = [] /\ c = gov) /\
  (forall old, kget (f_meta s) (m_base m) = Some old -> m_decimals old = 0 \/ m_decimals old = m_decimals m).
Proof.
  unfold set_metadata. intro H.
  match type of H with (if ?c then _ else _) = _ => destruct c; [discriminate H|] end.
  match type of H with (if ?c then _ else _) = _ => destruct c; [discriminate H|] end.
  match type of H with (if negb ?c then _ else _) = _ => destruct c eqn:A; [|discriminate H] end. cbn [negb] in H.
  assert (A' : controlled_by s (m_base m) c \/ get_admin s (m_base m) = [] /\ c = gov).
  { apply orb_true_iff in A as [A|A]; apply andb_prop in A as [A1 A2]; apply beqb_spec in A2.
    - left. split; [symmetry; exact A2|]. rewrite A2. apply beqb_neq. destruct (beqb (get_admin s (m_base m)) []); [discriminate A1|reflexivity].
    - right. split; [apply beqb_spec; exact A1|exact A2]. }
  destruct (kget (f_meta s) (m_base m)) as [old|] eqn:K.
  - destruct (negb (m_decimals old =? 0) && negb (m_decimals old =? m_decimals m)) eqn:E; [discriminate H|]. injection H as <-.
    split; [reflexivity|]. split; [exact A'|]. intros o Ho. injection Ho as <-. lia.
  - injection H as <-. split; [reflexivity|]. split; [exact A'|]. intros; discriminate.
Qed.

(* ---------- creating ---------- *)
Lemma charge_inv e s c s' : charge dec P e s c = Ok s' -> exists a, dec c = Some a /\ s' = set_bal s (bmove (f_bal s) a P (f_fee s)) /\
   forall d x, In (d, x) (f_fee s) -> x <= f_bal s a d - e_locked e a d.
Proof.
  unfold charge. destruct (dec c) as [a|]; [|discriminate]. intro H. exists a. split; [reflexivity|]. destruct (f_fee s) as [|p r] eqn:F.
  - injection H as <-. split; [destruct s; reflexivity|]. intros d x [].
  - apply send_inv in H. exact H.
Qed.
Lemma charge_good e s c s' : good s -> env_ok M e -> charge dec P e s c = Ok s' -> good s'.
Proof.
  intros G EO. unfold charge. destruct (dec c) as [a|]; [|discriminate]. pose proof (proj1 (g_fee s G)) as V. destruct (f_fee s) as [|p r]; intro H.
  - injection H as <-. exact G.
  - exact (send_good _ _ _ _ _ _ G EO V H).
Qed.
Lemma create_after_ok s c a d sub n y k : dec c = Some a ->
  create_after dec s c d sub n y k =
  Ok (set_store (set_meta s (kset (f_meta s) d (new_meta d sub n y k)))
        (kset (kset (f_store s) (authority_key d) c) (creator_prefix c ++ d) d)).
Proof. intro D. unfold create_after, set_admin. rewrite (admin_ok_some _ _ D). reflexivity. Qed.

Lemma create_inv e s c sub n y k d s' : create dec enc P e s c sub n y k = Ok (d, s') ->
  exists a s1, token_denom dec enc c sub = Some d /\ dec c = Some a /\ f_sup s sub = 0 /\ kget (f_meta s) d = None /\
    charge dec P e s c = Ok s1 /\
    s' = set_store (set_meta s1 (kset (f_meta s1) d (new_meta d sub n y k)))
           (kset (kset (f_store s1) (authority_key d) c) (creator_prefix c ++ d) d).
Proof.
  unfold create, validate_create. intro H. destruct (f_sup s sub =? 0) eqn:Su; cbn [negb] in H; [|discriminate H].
  destruct (token_denom dec enc c sub) as [d0|] eqn:T; [|discriminate H]. destruct (kget (f_meta s) d0) eqn:K; [discriminate H|].
  destruct (charge dec P e s c) as [s1| |] eqn:Ch; cbn [rbind] in H; try discriminate H.
  destruct (token_denom_spec _ _ _ T) as (a & D & _). rewrite (create_after_ok s1 c a d0 sub n y k D) in H. cbn [rbind] in H.
  injection H as <- <-. exists a, s1. split; [reflexivity|]. split; [exact D|]. split; [lia|]. split; [exact K|]. split; [reflexivity|reflexivity].
Qed.

Section Store.
Variables (s : st) (c d : bytes) (a : Z) (sub : bytes).
Hypotheses (G : good s) (T : token_denom dec enc c sub = Some d).
Let st' := kset (kset (f_store s) (authority_key d) c) (creator_prefix c ++ d) d.
Lemma st_sorted : ksorted (kset (f_store s) (authority_key d) c).
Proof. apply kset_sorted. exact (g_sorted s G). Qed.
Lemma st_auth e : kget st' (authority_key e) = if beqb e d then Some c else kget (f_store s) (authority_key e).
Proof.
  unfold st'. rewrite (kget_kset _ _ _ _ st_sorted). destruct (beqb (authority_key e) (creator_prefix c ++ d)) eqn:E.
  - apply beqb_spec in E. destruct (key_kinds _ _ _ E).
  - rewrite (kget_kset _ _ _ _ (g_sorted s G)), beqb_akey. reflexivity.
Qed.
Lemma st_list k e : kget st' (creator_prefix k ++ e) = if beqb (creator_prefix k ++ e) (creator_prefix c ++ d) then Some d else kget (f_store s) (creator_prefix k ++ e).
Proof.
  unfold st'. rewrite (kget_kset _ _ _ _ st_sorted). destruct (beqb (creator_prefix k ++ e) (creator_prefix c ++ d)); [reflexivity|].
  rewrite (kget_kset _ _ _ _ (g_sorted s G)). destruct (beqb (creator_prefix k ++ e) (authority_key d)) eqn:E; [|reflexivity].
  apply beqb_spec in E. symmetry in E. destruct (key_kinds _ _ _ E).
Qed.
End Store.

Lemma create_good s c d sub n y k : good s -> token_denom dec enc c sub = Some d -> kget (f_store s) (authority_key d) = None ->
  good (set_store (set_meta s (kset (f_meta s) d (new_meta d sub n y k)))
          (kset (kset (f_store s) (authority_key d) c) (creator_prefix c ++ d) d)).
Proof.
  intros G T K. destruct (token_denom_spec _ _ _ T) as (a & D & _ & V & De). destruct (dec_clean _ _ D) as (_ & _ & _ & NB).
  pose proof (good_meta s (new_meta d sub n y k) G) as GM. cbn [m_base new_meta] in GM. pose proof (g_msorted s G) as MS.
  assert (KN : forall k e, dec k <> None -> kget (f_store s) (creator_prefix k ++ e) <> None -> kget (f_store s) (authority_key e) <> None).
  { intros k0 e Dk Hk. destruct (kget (f_store s) (creator_prefix k0 ++ e)) as [v|] eqn:E; [|destruct Hk; reflexivity].
    destruct (g_list s G _ _ E) as [[d0 X]|(c0 & sub0 & X1 & X2 & X3)]; [symmetry in X; destruct (key_kinds _ _ _ X)|].
    destruct (token_denom_spec _ _ _ X2) as (a0 & D0 & _). destruct (dec k0) as [z|] eqn:Dk0; [|destruct Dk; reflexivity].
    destruct (creator_inj k0 e c0 v) as [_ ->]; [exact (proj2 (proj2 (proj2 (dec_clean _ _ Dk0))))|exact (proj2 (proj2 (proj2 (dec_clean _ _ D0))))|exact X1|]. exact X3. }
  constructor; cbn [set_store set_meta f_store f_meta f_fee f_bal f_sup]; try (destruct G; assumption); try (destruct GM; assumption).
  - apply kset_sorted. exact (st_sorted s c d G).
  - intros e a0. rewrite (st_auth s c d G). destruct (beqb e d) eqn:E.
    + apply beqb_spec in E as ->. intro H. injection H as <-. rewrite De, D. split; [discriminate|]. split; [discriminate|]. split.
      * rewrite (kget_kset _ _ _ _ MS), beqb_refl. discriminate.
      * exists c. rewrite D, (st_list s c d G), beqb_refl. split; [discriminate|reflexivity].
    + intro H. destruct (g_auth s G e a0 H) as (H1 & H2 & H3 & c0 & H4 & H5). split; [exact H1|]. split; [exact H2|]. split.
      * rewrite (kget_kset _ _ _ _ MS), E. exact H3.
      * exists c0. rewrite (st_list s c d G). split; [exact H4|]. destruct (beqb (creator_prefix c0 ++ e) (creator_prefix c ++ d)) eqn:E2; [|exact H5].
        apply beqb_spec in E2. destruct (dec c0) as [z|] eqn:D0; [|destruct H4; reflexivity].
        destruct (creator_inj c0 e c d) as [_ ->]; [exact (proj2 (proj2 (proj2 (dec_clean _ _ D0))))|exact NB|exact E2|]. reflexivity.
  - intros k0 v. rewrite (kget_kset _ _ _ _ (st_sorted s c d G)). destruct (beqb k0 (creator_prefix c ++ d)) eqn:E.
    + apply beqb_spec in E as ->. intro H. injection H as <-. right. exists c, sub. split; [reflexivity|]. split; [exact T|].
      rewrite (st_auth s c d G), beqb_refl. discriminate.
    + rewrite (kget_kset _ _ _ _ (g_sorted s G)). destruct (beqb k0 (authority_key d)) eqn:E2.
      * apply beqb_spec in E2 as ->. intros _. left. exists d. reflexivity.
      * intro H. destruct (g_list s G k0 v H) as [L|(c0 & sub0 & L1 & L2 & L3)]; [left; exact L|right].
        exists c0, sub0. split; [exact L1|]. split; [exact L2|]. rewrite (st_auth s c d G). destruct (beqb v d); [discriminate|exact L3].
  - intros c1 c2 e H1 H2 D1 D2. rewrite (st_list s c d G) in H1, H2.
    destruct (dec c1) as [z1|] eqn:E1; [|destruct D1; reflexivity]. destruct (dec c2) as [z2|] eqn:E2; [|destruct D2; reflexivity].
    pose proof (proj2 (proj2 (proj2 (dec_clean _ _ E1)))) as B1. pose proof (proj2 (proj2 (proj2 (dec_clean _ _ E2)))) as B2.
    destruct (beqb (creator_prefix c1 ++ e) (creator_prefix c ++ d)) eqn:K1; destruct (beqb (creator_prefix c2 ++ e) (creator_prefix c ++ d)) eqn:K2.
    + apply beqb_spec in K1, K2. destruct (creator_inj _ _ _ _ B1 NB K1) as [-> _]. destruct (creator_inj _ _ _ _ B2 NB K2) as [-> _]. reflexivity.
    + apply beqb_spec in K1. destruct (creator_inj _ _ _ _ B1 NB K1) as [_ ->]. destruct (KN c2 d); [rewrite E2; discriminate|exact H2|exact K].
    + apply beqb_spec in K2. destruct (creator_inj _ _ _ _ B2 NB K2) as [_ ->]. destruct (KN c1 d); [rewrite E1; discriminate|exact H1|exact K].
    + apply (g_uni s G c1 c2 e H1 H2); rewrite ?E1, ?E2; discriminate.
Qed.
Lemma no_meta_no_admin s d : good s -> kget (f_meta s) d = None -> kget (f_store s) (authority_key d) = None.
Proof.
  intros G H. destruct (kget (f_store s) (authority_key d)) as [a|] eqn:E; [|reflexivity]. destruct (g_auth s G d a E) as (_ & _ & M1 & _). contradiction.
Qed.

End Factory.
