(* Repeated calls hit the cache; calls made one after the other never go back. *)
From Coq Require Import String.
From Verif Require Import Lib.Base Rpc.Cache Rpc.CacheSpec Rpc.CacheProofs.
Open Scope Z_scope.

Section Run.
Variable sha : list N -> list N.
Variable V : Type.
Variable cap : nat.
Variable ttl_of : string -> option Z.
Variable node : Z -> string -> list param -> answer V.
Notation step := (step sha V cap ttl_of node).
Notation run_from := (run_from sha V cap ttl_of node).
Notation inv := (inv sha V cap ttl_of node).
Notation obs := (obs V).
Notation st := (st V).
Notation OCall := (OCall V). Notation OFetch := (OFetch V). Notation OStore := (OStore V).
Notation OReturn := (OReturn V). Notation OClear := (OClear V).
Notation uses := (uses_key sha ttl_of).

Lemma run_from_app evs : forall s l0 s' l', run_from s l0 evs = (s', l') ->
  exists o, l' = l0 ++ o /\ run_from s [] evs = (s', o).
Proof.
  induction evs as [|ev evs IH]; intros s l0 s' l' E; cbn [Cache.run_from] in *.
  - injection E as <- <-. exists []. rewrite app_nil_r. auto.
  - destruct (step s ev) as [s1 o1] eqn:S. cbn [app].
    apply IH in E. destruct E as (o & -> & R1).
    destruct (run_from s1 o1 evs) as [s2 o2] eqn:R2. apply IH in R2. destruct R2 as (o3 & -> & R3).
    rewrite R1 in R3. injection R3 as <- <-. exists (o1 ++ o). rewrite app_assoc. auto.
Qed.

Lemma step_now s ev s' o : step s ev = (s', o) -> s_now V s <= s_now V s'.
Proof.
  intro E. destruct ev as [d|m ps|c|c| |]; cbn [Cache.step] in E.
  - injection E as <- <-. cbn [s_now]. lia.
  - destruct (ttl_of m); [|injection E as <- <-; cbn [s_now]; lia].
    destruct (get_block V (s_now V s) (s_cache V s) (gen_key sha m ps)) as [l' [v|]]; injection E as <- <-; cbn [s_now]; lia.
  - destruct (find_flight V (s_flights V s) c) as [[c0 m ps [|a]]|]; injection E as <- <-; cbn [s_now]; lia.
  - destruct (find_flight V (s_flights V s) c) as [[c0 m ps [|a]]|]; try (injection E as <- <-; lia).
    cbv zeta in E. destruct (ttl_of m), a; injection E as <- <-; cbn [s_now]; lia.
  - injection E as <- <-. cbn [s_now]. lia.
  - injection E as <- <-. cbn [s_now]. lia.
Qed.
Lemma run_now evs : forall s l s' l', run_from s l evs = (s', l') -> s_now V s <= s_now V s'.
Proof.
  induction evs as [|ev evs IH]; intros s l s' l' E; cbn [Cache.run_from] in E; [injection E as <- <-; lia|].
  destruct (step s ev) as [s1 o] eqn:S. apply IH in E. apply step_now in S. lia.
Qed.

(* ---------------- the place of a key in the store ---------------- *)
Section Repeat.
Variables (k : key) (until : Z).

(* the key sits behind keys used meanwhile only *)
Definition placed (used : key -> Prop) (l : list (key * entry V)) : Prop :=
  exists pre e post, l = pre ++ (k, e) :: post /\ until <= e_expires e /\
    NoDup (map fst l) /\ forall x, In x (map fst pre) -> x <> k /\ used x.

Lemma nodup_mid {A} (a b : list A) x : NoDup (a ++ x :: b) -> ~ In x a /\ ~ In x b.
Proof. intro H. apply NoDup_remove_2 in H. rewrite in_app_iff in H. tauto. Qed.

Lemma placed_weaken (u u' : key -> Prop) l : (forall x, u x -> u' x) -> placed u l -> placed u' l.
Proof.
  intros H (pre & e & post & A & B & C & D). exists pre, e, post. split; [exact A|]. split; [exact B|]. split; [exact C|].
  intros x X. destruct (D x X). auto.
Qed.

Lemma placed_find u l : placed u l -> exists e, lru_find V l k = Some e /\ until <= e_expires e.
Proof.
  intros (pre & e & post & -> & L & N & _). exists e. split; [|exact L].
  apply find_nodup; [exact N|]. apply in_or_app. right. left. reflexivity.
Qed.

(* moving another key to the front, or dropping it *)
Lemma placed_remove_other u l k' : k' <> k -> placed u l -> placed u (lru_remove V l k').
Proof.
  intros D (pre & e & post & -> & L & N & P). exists (lru_remove V pre k'), e, (lru_remove V post k').
  split.
  - rewrite remove_app. f_equal. cbn [lru_remove]. destruct (key_eqb k k') eqn:E; [apply key_eqb_true in E; congruence|reflexivity].
  - split; [exact L|]. split; [apply remove_nodup; exact N|]. intros x X. apply remove_keys in X. apply P. tauto.
Qed.
Lemma placed_front_other (u : key -> Prop) l k' e' : k' <> k -> u k' -> placed u l -> placed u ((k', e') :: lru_remove V l k').
Proof.
  intros D U H. pose proof (placed_remove_other u l k' D H) as (pre & e & post & E & L & N & P).
  exists ((k', e') :: pre), e, post. split; [rewrite E; reflexivity|]. split; [exact L|]. split.
  - cbn [map fst]. constructor; [rewrite remove_keys; tauto|exact N].
  - intros x [<-|X]; [auto|apply P; exact X].
Qed.
Lemma placed_front (u : key -> Prop) l e' : NoDup (map fst l) -> until <= e_expires e' -> placed u ((k, e') :: lru_remove V l k).
Proof.
  intros N L. exists [], e', (lru_remove V l k). split; [reflexivity|]. split; [exact L|]. split; [|intros x []].
  cbn [map fst]. constructor; [rewrite remove_keys; tauto|apply remove_nodup; exact N].
Qed.

Lemma placed_firstn (u : key -> Prop) l n : (forall K, NoDup K -> (forall x, In x K -> x <> k /\ u x) -> (length K < n)%nat) ->
  placed u l -> placed u (firstn n l).
Proof.
  intros B (pre & e & post & -> & L & N & P).
  assert (NP : NoDup (map fst pre)).
  { clear P L B. rewrite map_app in N. revert N. generalize (map fst ((k, e) :: post)) as q. generalize (map fst pre) as p.
    induction p as [|x p IH]; intros q N; [constructor|]. cbn [app] in N. inversion N; subst. constructor; [|eapply IH; eassumption].
    rewrite in_app_iff in *. tauto. }
  assert (LN : (length pre < n)%nat) by (specialize (B (map fst pre) NP P); rewrite map_length in B; exact B).
  exists pre, e, (firstn (n - length pre - 1) post). split.
  - rewrite firstn_app. rewrite firstn_all2 by lia. f_equal. destruct (n - length pre)%nat as [|j] eqn:J; [lia|].
    cbn [firstn]. do 2 f_equal. lia.
  - split; [exact L|]. split; [|exact P]. rewrite <- firstn_map. apply nodup_firstn. exact N.
Qed.

Lemma placed_filter (u : key -> Prop) l (p : key * entry V -> bool) :
  (forall x, fst x = k -> until <= e_expires (snd x) -> p x = true) -> placed u l -> placed u (filter p l).
Proof.
  intros H (pre & e & post & -> & L & N & P). exists (filter p pre), e, (filter p post). split; [|split; [exact L|split]].
  - rewrite filter_app. f_equal. cbn [filter]. rewrite (H (k, e)) by (auto). reflexivity.
  - apply nodup_map_filter. exact N.
  - intros x X. apply P. apply in_map_iff in X. destruct X as (y & <- & Y). apply filter_In in Y. apply in_map. tauto.
Qed.

Lemma placed_step (u : key -> Prop) s ev s' o : placed u (s_cache V s) -> step s ev = (s', o) ->
  ~ In OClear o -> s_now V s' <= until ->
  (forall x, uses o x -> u x) ->
  (forall c m ps t v ttl, In (OStore c m ps t v) o -> gen_key sha m ps = k -> ttl_of m = Some ttl -> until <= t + ttl) ->
  (forall K, NoDup K -> (forall x, In x K -> x <> k /\ u x) -> (length K < cap)%nat) ->
  placed u (s_cache V s').
Proof.
  intros P E NC LT U ST B. destruct ev as [d|m ps|c|c| |]; cbn [Cache.step] in E.
  - injection E as <- <-. exact P.
  - destruct (ttl_of m) as [ttl|] eqn:T; [|injection E as <- <-; exact P].
    destruct (get_block V (s_now V s) (s_cache V s) (gen_key sha m ps)) as [l' r] eqn:G.
    assert (UK : u (gen_key sha m ps)).
    { apply U. left. exists (s_next V s), m, ps, (s_now V s). split; [|split; [congruence|reflexivity]].
      destruct r; injection E as <- <-; left; reflexivity. }
    assert (PL : s_now V s <= until -> placed u l').
    { intro LN. apply get_block_spec in G. destruct (key_dec (gen_key sha m ps) k) as [EK|DK].
      - rewrite EK in G. destruct (placed_find u _ P) as (e0 & F0 & L0).
        destruct G as [(e & F & _ & _ & ->)|(_ & -> & X)].
        + rewrite F in F0. injection F0 as ->. apply placed_front; [|exact L0]. destruct P as (? & ? & ? & ? & ? & N & _). exact N.
        + specialize (X _ F0). lia.
      - destruct G as [(e & F & _ & _ & ->)|(_ & -> & _)].
        + apply placed_front_other; auto.
        + apply placed_remove_other; auto. }
    destruct r; injection E as <- <-; cbn [s_cache s_now] in *; apply PL; exact LT.
  - destruct (find_flight V (s_flights V s) c) as [[c0 m ps [|a]]|]; injection E as <- <-; exact P.
  - destruct (find_flight V (s_flights V s) c) as [[c0 m ps [|a]]|]; try (injection E as <- <-; exact P).
    cbv zeta in E. destruct (ttl_of m) as [ttl|] eqn:T; [|destruct a; injection E as <- <-; exact P].
    destruct a as [v| |]; [|injection E as <- <-; exact P|injection E as <- <-; exact P].
    injection E as <- <-. cbn [s_cache]. unfold set_block, lru_add. apply placed_firstn; [exact B|].
    destruct (key_dec (gen_key sha m ps) k) as [EK|DK].
    + rewrite EK. apply placed_front; [destruct P as (? & ? & ? & ? & ? & N & _); exact N|]. cbn [e_expires].
      apply (ST c m ps (s_now V s) v ttl); [left; reflexivity|exact EK|exact T].
    + apply placed_front_other; [exact DK| |exact P]. apply U. right. exists c, m, ps, (s_now V s), v. split; [left; reflexivity|reflexivity].
  - injection E as <- <-. cbn [s_cache s_now] in *. rewrite cleanup_filter by (destruct P as (? & ? & ? & ? & ? & N & _); exact N).
    apply placed_filter; [|exact P]. intros x _ L. apply negb_true_iff. lia.
  - injection E as <- <-. destruct NC. left. reflexivity.
Qed.

Lemma placed_run (u : key -> Prop) evs : forall s l s' l', placed u (s_cache V s) -> run_from s l evs = (s', l') ->
  forall o, l' = l ++ o ->
  ~ In OClear o -> s_now V s' <= until ->
  (forall x, uses o x -> u x) ->
  (forall c m ps t v ttl, In (OStore c m ps t v) o -> gen_key sha m ps = k -> ttl_of m = Some ttl -> until <= t + ttl) ->
  (forall K, NoDup K -> (forall x, In x K -> x <> k /\ u x) -> (length K < cap)%nat) ->
  placed u (s_cache V s').
Proof.
  induction evs as [|ev evs IH]; intros s l s' l' P E o EO NC LT U ST B; cbn [Cache.run_from] in E.
  - injection E as <- <-. exact P.
  - destruct (step s ev) as [s1 o1] eqn:S.
    destruct (run_from_app _ _ _ _ _ E) as (o2 & E2 & R2).
    assert (o = o1 ++ o2) as ->. { subst l'. rewrite <- app_assoc in E2. apply app_inv_head in E2. auto. }
    pose proof (run_now _ _ _ _ _ E) as LN.
    assert (P1 : placed u (s_cache V s1)).
    { eapply placed_step; [exact P|exact S| | | | |exact B].
      - intro X. apply NC. apply in_or_app. auto.
      - lia.
      - intros x [(c & m & ps & t & A1 & A2)|(c & m & ps & t & v & A1 & A2)]; apply U; [left|right].
        + exists c, m, ps, t. split; [apply in_or_app; auto|exact A2].
        + exists c, m, ps, t, v. split; [apply in_or_app; auto|exact A2].
      - intros c m ps t v ttl I1. apply (ST c m ps t v ttl). apply in_or_app. auto. }
    apply (IH s1 (l ++ o1) s' l' P1 E o2 E2); auto.
    + intro X. apply NC. apply in_or_app. auto.
    + intros x [(c & m & ps & t & A1 & A2)|(c & m & ps & t & v & A1 & A2)]; apply U; [left|right].
      * exists c, m, ps, t. split; [apply in_or_app; auto|exact A2].
      * exists c, m, ps, t, v. split; [apply in_or_app; auto|exact A2].
    + intros c m ps t v ttl I1. apply (ST c m ps t v ttl). apply in_or_app. auto.
Qed.
End Repeat.

(* ---------------- calls one after the other ---------------- *)
Section Sequential.
Variables (m : string) (ps : list param).
Variable rank : V -> Z.
Hypothesis grows : forall t1 t2 v1 v2, t1 <= t2 -> node t1 m ps = AVal v1 -> node t2 m ps = AVal v2 -> rank v1 <= rank v2.

Definition from_node (now : Z) (v : V) : Prop := exists t, t <= now /\ node t m ps = AVal v.
Definition topped (log : list obs) (w : V) : Prop := forall v, answered V log m ps v -> rank v <= rank w.

Record sinv (s : st) (log : list obs) : Prop := {
  q_ans : forall v, answered V log m ps v -> from_node (s_now V s) v;
  q_slot : forall e, In (gen_key sha m ps, e) (s_cache V s) -> from_node (s_now V s) (e_data e) /\ topped log (e_data e);
  q_one : (length (s_flights V s) <= 1)%nat;
  q_flight : forall f, In f (s_flights V s) -> f_method V f = m -> f_params V f = ps -> ttl_of m <> None ->
     (forall e, ~ In (gen_key sha m ps, e) (s_cache V s));
  q_got : forall f w, In f (s_flights V s) -> f_method V f = m -> f_params V f = ps ->
     f_stage V f = Got V (AVal w) -> from_node (s_now V s) w /\ topped log w;
  q_order : forall l1 c t v l2 v', log = l1 ++ OReturn c m ps t (AVal v) :: l2 -> answered V l1 m ps v' -> rank v' <= rank v
}.

Lemma from_node_mono a b v : a <= b -> from_node a v -> from_node b v.
Proof. intros L (t & H & E). exists t. split; [lia|exact E]. Qed.

Lemma answered_app l o v : answered V (l ++ o) m ps v <-> answered V l m ps v \/ answered V o m ps v.
Proof.
  unfold answered. split.
  - intros (c & t & H). apply in_app_or in H. destruct H; [left|right]; eauto.
  - intros [(c & t & H)|(c & t & H)]; exists c, t; apply in_or_app; auto.
Qed.
Lemma answered_quiet l o v : (forall c m ps t a, ~ In (OReturn c m ps t a) o) -> (answered V (l ++ o) m ps v <-> answered V l m ps v).
Proof. intro Q. rewrite answered_app. split; [intros [H|(c & t & H)]; [exact H|destruct (Q _ _ _ _ _ H)]|auto]. Qed.

(* no other request of the run shares the key *)
Definition alone (log : list obs) : Prop :=
  forall c m' ps' t v, In (OStore c m' ps' t v) log -> gen_key sha m' ps' = gen_key sha m ps -> m' = m /\ ps' = ps.

Lemma string_list_dec (m1 m2 : string) (a b : list param) : {m1 = m2 /\ a = b} + {~ (m1 = m2 /\ a = b)}.
Proof.
  destruct (string_dec m1 m2); [|right; tauto].
  assert (D : forall x y : uchar, {x = y} + {x <> y}) by (intros x y; destruct (uchar_eqb x y) eqn:X; [left; apply uchar_eqb_true; exact X|right; intro Y; apply uchar_eqb_true in Y; congruence]).
  assert (D2 : forall x y : param, {x = y} + {x <> y}).
  { intros x y. destruct x as [t|n|t], y as [t'|n'|t']; try (right; discriminate).
    - destruct (list_eq_dec D t t'); [left; congruence|right; congruence].
    - destruct (N.eq_dec n n'); [left; congruence|right; congruence].
    - destruct (list_eq_dec D t t'); [left; congruence|right; congruence]. }
  destruct (list_eq_dec D2 a b); [left; auto|right; tauto].
Qed.

Lemma order_quiet log o : (forall c m ps t a, ~ In (OReturn c m ps t a) o) ->
  (forall l1 c t v l2 v', log = l1 ++ OReturn c m ps t (AVal v) :: l2 -> answered V l1 m ps v' -> rank v' <= rank v) ->
  (forall l1 c t v l2 v', log ++ o = l1 ++ OReturn c m ps t (AVal v) :: l2 -> answered V l1 m ps v' -> rank v' <= rank v).
Proof.
  intros Q H l1 c t v l2 v' E. apply split_last in E. destruct E as [[l2' E]|(o1 & E & ->)]; [eapply H; exact E|].
  exfalso. apply (Q c m ps t (AVal v)). rewrite E. apply in_or_app. right. left. reflexivity.
Qed.

Lemma topped_quiet log o w : (forall c m ps t a, ~ In (OReturn c m ps t a) o) -> topped log w -> topped (log ++ o) w.
Proof. intros Q H v A. apply answered_quiet in A; auto. Qed.

Ltac sb := cbn [s_now s_cache s_next s_flights].

Lemma order_end log o c m1 ps1 t a : (forall c m ps t a, ~ In (OReturn c m ps t a) o) ->
  (forall l1 c t v l2 v', log = l1 ++ OReturn c m ps t (AVal v) :: l2 -> answered V l1 m ps v' -> rank v' <= rank v) ->
  (forall w, m1 = m -> ps1 = ps -> a = AVal w -> topped log w) ->
  (forall l1 c' t' v l2 v', log ++ o ++ [OReturn c m1 ps1 t a] = l1 ++ OReturn c' m ps t' (AVal v) :: l2 -> answered V l1 m ps v' -> rank v' <= rank v).
Proof.
  intros Q H T l1 c' t' v l2 v' E A. apply ret_end in E; [|exact Q]. destruct E as [[l2' E]|[-> E]]; [eapply H; [exact E|exact A]|].
  injection E as -> <- <- -> <-. apply (T v); auto. apply answered_quiet in A; auto.
Qed.
Lemma answered_end log o c m1 ps1 t a v : (forall c m ps t a, ~ In (OReturn c m ps t a) o) ->
  (answered V (log ++ o ++ [OReturn c m1 ps1 t a]) m ps v <-> answered V log m ps v \/ (m1 = m /\ ps1 = ps /\ a = AVal v)).
Proof.
  intro Q. rewrite app_assoc, answered_app, answered_quiet by exact Q. split.
  - intros [H|(c' & t' & [H|[]])]; [auto|]. injection H as _ -> -> _ ->. auto.
  - intros [H|(-> & -> & ->)]; [auto|]. right. exists c, t. left. reflexivity.
Qed.

Lemma step_sinv s ev s' o log : inv s log -> sinv s log -> step s ev = (s', o) ->
  alone (log ++ o) -> match ev with ECall _ _ => s_flights V s = [] | _ => True end -> sinv s' (log ++ o).
Proof.
  intros INV [A1 A2 A3 A4 A5 A6] E AL ONE. destruct ev as [d|m1 ps1|c|c| |]; cbn [Cache.step] in E.
  - injection E as <- <-. rewrite app_nil_r. constructor; sb; auto.
    + intros v H. eapply from_node_mono; [|apply A1; exact H]. lia.
    + intros e H. destruct (A2 e H). split; [eapply from_node_mono; [|eassumption]; lia|assumption].
    + intros f w H1 H2 H3 H4. destruct (A5 f w H1 H2 H3 H4). split; [eapply from_node_mono; [|eassumption]; lia|assumption].
  - set (c := s_next V s) in *. set (called := OCall c m1 ps1 (s_now V s)) in *.
    assert (Q : forall c m ps t a, ~ In (OReturn c m ps t a) [called]) by (intros ? ? ? ? ? [X|[]]; discriminate X).
    assert (MISS : forall l', (forall x, In x l' -> In x (s_cache V s)) ->
       (ttl_of m1 <> None -> forall e, ~ In (gen_key sha m1 ps1, e) l') ->
       sinv (mk_st V (s_now V s) l' (c + 1) (mk_flight V c m1 ps1 (Looking V) :: s_flights V s)) (log ++ [called])).
    { intros l' I1 I2. constructor; sb.
      - intros v H. apply answered_quiet in H; auto.
      - intros e H. apply I1 in H. destruct (A2 e H). split; [assumption|apply topped_quiet; auto].
      - rewrite ONE. cbn [length]. lia.
      - rewrite ONE. intros f [<-|[]]. cbn [f_method f_params]. intros -> ->. exact I2.
      - rewrite ONE. intros f w [<-|[]]. cbn [f_stage]. discriminate.
      - apply order_quiet; auto. }
    destruct (ttl_of m1) as [ttl|] eqn:T; [|injection E as <- <-; apply MISS; [auto|congruence]].
    destruct (get_block V (s_now V s) (s_cache V s) (gen_key sha m1 ps1)) as [l' r] eqn:G.
    apply get_block_spec in G. destruct G as [(e & F & L & -> & ->)|(-> & -> & X)]; injection E as <- <-.
    2:{ apply MISS; [intros x H; apply remove_in in H; tauto|]. intros _ e H. apply remove_in in H. cbn [fst] in H. tauto. }
    change [called; OReturn c m1 ps1 (s_now V s) (AVal (e_data e))] with ([called] ++ [OReturn c m1 ps1 (s_now V s) (AVal (e_data e))]).
    apply find_in in F.
    assert (SUB : forall x, In x ((gen_key sha m1 ps1, e) :: lru_remove V (s_cache V s) (gen_key sha m1 ps1)) -> In x (s_cache V s)).
    { intros x [<-|H]; [exact F|apply remove_in in H; tauto]. }
    assert (DATA : forall e', In (gen_key sha m ps, e') ((gen_key sha m1 ps1, e) :: lru_remove V (s_cache V s) (gen_key sha m1 ps1)) ->
                   m1 = m -> ps1 = ps -> e' = e).
    { intros e' [H|H] -> ->; [congruence|]. apply remove_in in H. cbn [fst] in H. tauto. }
    constructor; sb; rewrite ?ONE; [| |cbn [length]; lia|intros f []|intros f w []|].
    + intros v H. apply answered_end in H; [|exact Q]. destruct H as [H|(-> & -> & H)]; [auto|]. injection H as <-. apply A2. exact F.
    + intros e' H. destruct (A2 e' (SUB _ H)) as [B1 B2]. split; [exact B1|].
      intros v Y. apply answered_end in Y; [|exact Q]. destruct Y as [Y|(Y1 & Y2 & Y)]; [apply B2; exact Y|].
      injection Y as <-. rewrite (DATA e' H Y1 Y2). lia.
    + apply order_end; auto. intros w -> -> Y. injection Y as <-. apply A2. exact F.
  - destruct (find_flight V (s_flights V s) c) as [[c0 m1 ps1 [|a]]|] eqn:F; try (injection E as <- <-; rewrite app_nil_r; constructor; assumption).
    apply find_flight_in in F. destruct F as [F1 F2]. cbn [f_no] in F2. subst c0. injection E as <- <-.
    assert (Q : forall c' m ps t a, ~ In (OReturn c' m ps t a) [OFetch c m1 ps1 (s_now V s) (node (s_now V s) m1 ps1)]) by (intros ? ? ? ? ? [X|[]]; discriminate X).
    assert (DR : drop_flight V (s_flights V s) c = []).
    { destruct (s_flights V s) as [|g [|h r]] eqn:FL; [destruct F1| |cbn [length] in A3; lia].
      destruct F1 as [->|[]]. unfold drop_flight. cbn [filter f_no]. rewrite Z.eqb_refl. reflexivity. }
    rewrite DR. constructor; sb.
    + intros v H. apply answered_quiet in H; auto.
    + intros e H. destruct (A2 e H). split; [assumption|apply topped_quiet; auto].
    + cbn [length]. lia.
    + intros f [<-|[]]. cbn [f_method f_params]. intros -> -> T. apply (A4 _ F1); auto.
    + intros f w [<-|[]]. cbn [f_method f_params f_stage]. intros -> -> Y. injection Y as Y. split.
      * exists (s_now V s). split; [lia|exact Y].
      * intros v H. apply answered_quiet in H; [|exact Q]. destruct (A1 v H) as (t & L & N). eapply grows; [exact L|exact N|exact Y].
    + apply order_quiet; auto.
  - destruct (find_flight V (s_flights V s) c) as [[c0 m1 ps1 [|a]]|] eqn:F; try (injection E as <- <-; rewrite app_nil_r; constructor; assumption).
    apply find_flight_in in F. destruct F as [F1 F2]. cbn [f_no] in F2. subst c0. cbv zeta in E.
    assert (DR : drop_flight V (s_flights V s) c = []).
    { destruct (s_flights V s) as [|g [|h r]] eqn:FL; [destruct F1| |cbn [length] in A3; lia].
      destruct F1 as [->|[]]. unfold drop_flight. cbn [filter f_no]. rewrite Z.eqb_refl. reflexivity. }
    rewrite DR in E.
    assert (GOT : forall w, m1 = m -> ps1 = ps -> a = AVal w -> from_node (s_now V s) w /\ topped log w).
    { intros w E1 E2 E3. apply (A5 _ w F1); cbn [f_method f_params f_stage]; congruence. }
    assert (GEN : forall l' o1, (forall c m ps t a, ~ In (OReturn c m ps t a) o1) ->
       (forall e, In (gen_key sha m ps, e) l' ->
          (from_node (s_now V s) (e_data e) /\ topped log (e_data e)) /\ (m1 = m -> ps1 = ps -> forall w, a = AVal w -> rank w <= rank (e_data e))) ->
       sinv (mk_st V (s_now V s) l' (s_next V s) []) (log ++ o1 ++ [OReturn c m1 ps1 (s_now V s) a])).
    { intros l' o1 Q B. constructor; sb; [| |cbn [length]; lia|intros f []|intros f w []|].
      - intros v H. apply answered_end in H; [|exact Q]. destruct H as [H|(H1 & H2 & H3)]; [auto|]. apply (GOT v H1 H2 H3).
      - intros e H. destruct (B e H) as [[B1 B2] B3]. split; [exact B1|]. intros v Y. apply answered_end in Y; [|exact Q].
        destruct Y as [Y|(Y1 & Y2 & Y)]; [apply B2; exact Y|]. apply B3; assumption.
      - apply order_end; auto. intros w E1 E2 E3. apply (GOT w E1 E2 E3). }
    assert (KEEP : (forall w, a = AVal w -> ttl_of m1 = None) -> sinv (mk_st V (s_now V s) (s_cache V s) (s_next V s) []) (log ++ [OReturn c m1 ps1 (s_now V s) a])).
    { intro NT. apply (GEN (s_cache V s) []); [intros ? ? ? ? ? []|]. intros e H. split; [apply A2; exact H|].
      intros E1 E2 w E3. specialize (NT w E3). exfalso.
      destruct (i_slots _ _ _ _ _ _ _ INV _ H) as (c' & m' & ps' & t2 & t3 & ttl & K1 & K2 & _ & _ & K5 & _).
      cbn [fst] in K1. apply since_clear_sub in K5.
      destruct (AL c' m' ps' t3 (e_data (snd (gen_key sha m ps, e)))) as [-> ->]; [apply in_or_app; left; exact K5|congruence|]. congruence. }
    destruct (ttl_of m1) as [ttl|] eqn:T.
    2:{ destruct a; injection E as <- <-; apply KEEP; auto. }
    destruct a as [v| |]; [|injection E as <- <-; apply KEEP; discriminate|injection E as <- <-; apply KEEP; discriminate].
    injection E as <- <-. change [OStore c m1 ps1 (s_now V s) v; OReturn c m1 ps1 (s_now V s) (AVal v)] with ([OStore c m1 ps1 (s_now V s) v] ++ [OReturn c m1 ps1 (s_now V s) (AVal v)]).
    apply GEN; [intros ? ? ? ? ? [X|[]]; discriminate X|].
    unfold set_block, lru_add. intros e H. apply in_firstn in H. destruct H as [H|H].
    + injection H as H1 <-. cbn [e_data].
      destruct (AL c m1 ps1 (s_now V s) v) as [-> ->]; [apply in_or_app; right; left; reflexivity|exact H1|].
      split; [apply (GOT v); reflexivity|]. intros _ _ w Y. injection Y as <-. lia.
    + apply remove_in in H. cbn [fst] in H. destruct H as [H1 H2]. split; [apply A2; exact H1|]. intros -> ->. congruence.
  - injection E as <- <-. rewrite app_nil_r. constructor; sb; auto.
    + intros e H. apply A2. rewrite cleanup_filter in H by (apply (i_nodup _ _ _ _ _ _ _ INV)). apply filter_In in H. tauto.
    + intros f H1 H2 H3 H4 e H. apply (A4 f H1 H2 H3 H4 e). rewrite cleanup_filter in H by (apply (i_nodup _ _ _ _ _ _ _ INV)). apply filter_In in H. tauto.
  - injection E as <- <-.
    assert (Q : forall c m ps t a, ~ In (OReturn c m ps t a) [OClear]) by (intros ? ? ? ? ? [X|[]]; discriminate X).
    constructor; sb.
    + intros v H. apply answered_quiet in H; auto.
    + intros e [].
    + exact A3.
    + intros f _ _ _ _ e [].
    + intros f w H1 H2 H3 H4. destruct (A5 f w H1 H2 H3 H4). split; [assumption|apply topped_quiet; auto].
    + apply order_quiet; auto.
Qed.

Lemma run_sinv evs : forall s log s' log', inv s log -> sinv s log -> run_from s log evs = (s', log') ->
  alone log' -> one_at_a_time sha V cap ttl_of node s evs -> sinv s' log'.
Proof.
  induction evs as [|ev evs IH]; intros s log s' log' I Q E AL ONE; cbn [Cache.run_from] in E.
  - injection E as <- <-. exact Q.
  - destruct (step s ev) as [s1 o] eqn:S. destruct ONE as [O1 O2]. rewrite S in O2. cbn [fst] in O2.
    destruct (run_from_app _ _ _ _ _ E) as (o2 & E2 & _).
    apply (IH s1 (log ++ o) s' log'); auto.
    + eapply step_inv; [exact I|exact S].
    + eapply step_sinv; [exact I|exact Q|exact S| |exact O1].
      intros c m' ps' t v H. apply (AL c m' ps' t v). subst log'. apply in_or_app. auto.
Qed.
Lemma sinv_init t0 : sinv (init V t0) [].
Proof.
  constructor; cbn [init s_cache s_flights s_next]; try (intros; contradiction).
  - intros v (c & t & []).
  - cbn. lia.
  - intros l1 c t v l2 v' H. destruct l1; discriminate H.
Qed.
End Sequential.
End Run.
