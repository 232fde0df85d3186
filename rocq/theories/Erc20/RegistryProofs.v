(* Lemmas about the registry of token pairs. *)
From Verif Require Import Lib.Base Lib.Bytes Lib.Kv Lib.Zmap Erc20.Registry Erc20.RegistrySpec.
Open Scope Z_scope.

(* ---- texts of addresses ---- *)
Lemma no_bar_strip s : forallb is_hexchar (strip0x s) = true -> ~ In 124%N s.
Proof.
  intros H Hi. assert (K : forall l, forallb is_hexchar l = true -> ~ In 124%N l).
  { intros l Hl Hb. rewrite forallb_forall in Hl. specialize (Hl _ Hb). discriminate. }
  unfold strip0x in H. destruct s as [|c [|x r]]; [exact (K _ H Hi)|exact (K _ H Hi)|].
  destruct ((N.eqb c 48) && (N.eqb x 120 || N.eqb x 88)) eqn:E; [|exact (K _ H Hi)].
  apply andb_prop in E. destruct E as [E1 E2]. apply N.eqb_eq in E1. apply orb_prop in E2.
  destruct Hi as [Hi|[Hi|Hi]]; [congruence| |exact (K _ H Hi)]. destruct E2 as [E2|E2]; apply N.eqb_eq in E2; congruence.
Qed.
Lemma hex_no_bar s : is_hex_address s = true -> ~ In 124%N s.
Proof. unfold is_hex_address. intro H. apply andb_prop in H. apply no_bar_strip. apply H. Qed.
Lemma split_bar a b (x y : bytes) : ~ In 124%N a -> ~ In 124%N b -> a ++ [124]%N ++ x = b ++ [124]%N ++ y -> a = b /\ x = y.
Proof.
  revert b. induction a as [|c a IH]; intros [|c' b] Ha Hb H.
  - cbn in H. injection H as H. auto.
  - cbn in H. injection H as H1 H2. subst c'. destruct Hb. left. reflexivity.
  - cbn in H. injection H as H1 H2. subst c. destruct Ha. left. reflexivity.
  - cbn [app] in H. injection H as H1 H2. subst c'. destruct (IH b) as [-> ->]; auto; intro; [apply Ha|apply Hb]; right; assumption.
Qed.
Lemma id_inj p q : is_hex_address (p_addr p) = true -> is_hex_address (p_addr q) = true -> id_of p = id_of q -> p_addr p = p_addr q /\ p_denom p = p_denom q.
Proof. intros Hp Hq. apply split_bar; apply hex_no_bar; assumption. Qed.
Lemma ibc_not_hex d : has_prefix ibc_prefix d = true -> is_hex_address d = false.
Proof.
  intro H. apply (proj1 (has_prefix_ex _ _)) in H. destruct H as [r ->]. unfold is_hex_address. cbn [ibc_prefix app strip0x N.eqb Pos.eqb andb orb forallb]. apply andb_false_r.
Qed.
Lemma hex_range s : 0 <= hex_to_addr s < two160.
Proof. unfold hex_to_addr. apply Z.mod_pos_bound. reflexivity. Qed.

(* ---- the invariant ---- *)
Record inv (s : st) : Prop := mk_inv {
  iv_p : ksorted (r_pairs s);
  iv_d : ksorted (r_denoms s);
  iv_e : zsorted (r_erc20 s);
  iv_1 : forall i p, kget (r_pairs s) i = Some p -> i = id_of p /\ is_hex_address (p_addr p) = true /\ kget (r_denoms s) (p_denom p) = Some i /\ zget (r_erc20 s) (contract p) = Some i;
  iv_2 : forall d i, kget (r_denoms s) d = Some i -> exists p, kget (r_pairs s) i = Some p /\ p_denom p = d;
  iv_3 : forall a i, zget (r_erc20 s) a = Some i -> exists p, kget (r_pairs s) i = Some p /\ contract p = a;
  iv_4 : forall a, In a (r_dp s) -> exists i p, zget (r_erc20 s) a = Some i /\ kget (r_pairs s) i = Some p /\ p_owner p = Module;
  iv_5 : r_np s = [] }.

Lemma empty_inv on m u : inv (empty on m u).
Proof. split; cbn; try discriminate; try (intros ? []); try constructor. Qed.

Lemma coin_none s d : inv s -> coin_address s d = None -> kget (r_denoms s) d = None.
Proof.
  intros V H. unfold coin_address in H. destruct (kget (r_denoms s) d) as [i|] eqn:E; [|reflexivity].
  destruct (iv_2 s V d i E) as (p & Hp & _). cbn in H. rewrite Hp in H. discriminate.
Qed.
Lemma tok_none s a : inv s -> token_denom s a = None -> zget (r_erc20 s) a = None.
Proof.
  intros V H. unfold token_denom in H. destruct (zget (r_erc20 s) a) as [i|] eqn:E; [|reflexivity].
  destruct (iv_3 s V a i E) as (p & Hp & _). cbn in H. rewrite Hp in H. discriminate.
Qed.
Lemma kget_none_ext {V} (st : list (bytes * V)) k1 k2 : k1 = k2 -> kget st k1 = kget st k2. Proof. intros ->. reflexivity. Qed.

(* a fresh pair *)
Lemma fresh_id s p : inv s -> is_hex_address (p_addr p) = true -> kget (r_denoms s) (p_denom p) = None -> kget (r_pairs s) (id_of p) = None.
Proof.
  intros V Hx Hd. destruct (kget (r_pairs s) (id_of p)) as [q|] eqn:E; [|reflexivity].
  destruct (iv_1 s V _ _ E) as (A & B & C & _). destruct (id_inj p q Hx B A) as [_ D]. rewrite D in Hd. congruence.
Qed.
Lemma set_token_inv s p : inv s -> is_hex_address (p_addr p) = true -> kget (r_denoms s) (p_denom p) = None -> zget (r_erc20 s) (contract p) = None ->
  inv (set_token s p).
Proof.
  intros V Hx Hd He. pose proof (fresh_id s p V Hx Hd) as Hi. destruct V as [P D E V1 V2 V3 V4 V5].
  split; cbn [set_token r_pairs r_denoms r_erc20 r_dp r_np].
  - apply kset_sorted. exact P.
  - apply kset_sorted. exact D.
  - apply zset_sorted. exact E.
  - intros i q. rewrite (kget_kset _ _ _ _ P). destruct (beqb i (id_of p)) eqn:B.
    + apply (proj1 (beqb_spec _ _)) in B. intro H. injection H as <-. split; [exact B|]. split; [exact Hx|]. rewrite (kget_kset _ _ _ _ D), beqb_refl, zget_zset_same, B. auto.
    + intro H. destruct (V1 i q H) as (A1 & A2 & A3 & A4). split; [exact A1|]. split; [exact A2|]. rewrite (kget_kset _ _ _ _ D), zget_zset.
      destruct (beqb (p_denom q) (p_denom p)) eqn:B2; [apply (proj1 (beqb_spec _ _)) in B2; rewrite B2 in A3; congruence|].
      destruct (Z.eqb_spec (contract p) (contract q)) as [C|C]; [rewrite C in He; congruence|]. auto.
  - intros d i. rewrite (kget_kset _ _ _ _ D). destruct (beqb d (p_denom p)) eqn:B.
    + apply (proj1 (beqb_spec _ _)) in B. intro H. injection H as <-. exists p. rewrite (kget_kset _ _ _ _ P), beqb_refl. auto.
    + intro H. destruct (V2 d i H) as (q & Hq & Dq). exists q. rewrite (kget_kset _ _ _ _ P). destruct (beqb i (id_of p)) eqn:B2; [|auto].
      apply (proj1 (beqb_spec _ _)) in B2. subst i. congruence.
  - intros a i. rewrite zget_zset. destruct (Z.eqb_spec (contract p) a) as [C|C].
    + intro H. injection H as <-. exists p. rewrite (kget_kset _ _ _ _ P), beqb_refl. auto.
    + intro H. destruct (V3 a i H) as (q & Hq & Dq). exists q. rewrite (kget_kset _ _ _ _ P). destruct (beqb i (id_of p)) eqn:B2; [|auto].
      apply (proj1 (beqb_spec _ _)) in B2. subst i. congruence.
  - intros a Ha. destruct (V4 a Ha) as (i & q & A1 & A2 & A3). exists i, q. rewrite zget_zset, (kget_kset _ _ _ _ P).
    destruct (Z.eqb_spec (contract p) a) as [C|C]; [rewrite C in He; congruence|]. split; [exact A1|]. split; [|exact A3].
    destruct (beqb i (id_of p)) eqn:B2; [|exact A2]. apply (proj1 (beqb_spec _ _)) in B2. subst i. congruence.
  - exact V5.
Qed.
(* lookups after a fresh pair *)
Lemma set_token_coin s p d : inv s -> is_hex_address (p_addr p) = true -> kget (r_denoms s) (p_denom p) = None -> zget (r_erc20 s) (contract p) = None ->
  coin_address (set_token s p) d = if beqb d (p_denom p) then Some (contract p) else coin_address s d.
Proof.
  intros V Hx Hd He. pose proof (fresh_id s p V Hx Hd) as Hi. unfold coin_address. cbn [set_token r_denoms]. rewrite (kget_kset _ _ _ _ (iv_d s V)).
  destruct (beqb d (p_denom p)) eqn:B.
  - cbn [get_pair set_token r_pairs]. rewrite (kget_kset _ _ _ _ (iv_p s V)), beqb_refl. reflexivity.
  - destruct (kget (r_denoms s) d) as [i|] eqn:E; [|reflexivity]. cbn [get_pair set_token r_pairs]. rewrite (kget_kset _ _ _ _ (iv_p s V)).
    destruct (beqb i (id_of p)) eqn:B2; [|reflexivity]. apply (proj1 (beqb_spec _ _)) in B2. subst i. destruct (iv_2 s V _ _ E) as (q & Hq & _). congruence.
Qed.
Lemma set_token_lookup s p q t : inv s -> is_hex_address (p_addr p) = true -> kget (r_denoms s) (p_denom p) = None -> zget (r_erc20 s) (contract p) = None ->
  lookup s t = Some q -> lookup (set_token s p) t = Some q.
Proof.
  intros V Hx Hd He L. pose proof (fresh_id s p V Hx Hd) as Hi. unfold lookup, pair_id in *. destruct (is_hex_address t).
  - cbn [set_token r_erc20]. rewrite zget_zset. destruct (Z.eqb_spec (contract p) (hex_to_addr t)) as [C|C]; [rewrite C in He; rewrite He in L; discriminate|].
    destruct (zget (r_erc20 s) (hex_to_addr t)) as [i|]; [|discriminate]. cbn [get_pair set_token r_pairs] in *. rewrite (kget_kset _ _ _ _ (iv_p s V)).
    destruct (beqb i (id_of p)) eqn:B2; [|exact L]. apply (proj1 (beqb_spec _ _)) in B2. subst i. congruence.
  - cbn [set_token r_denoms]. rewrite (kget_kset _ _ _ _ (iv_d s V)). destruct (beqb t (p_denom p)) eqn:B; [apply (proj1 (beqb_spec _ _)) in B; subst t; rewrite Hd in L; discriminate|].
    destruct (kget (r_denoms s) t) as [i|]; [|discriminate]. cbn [get_pair set_token r_pairs] in *. rewrite (kget_kset _ _ _ _ (iv_p s V)).
    destruct (beqb i (id_of p)) eqn:B2; [|exact L]. apply (proj1 (beqb_spec _ _)) in B2. subst i. congruence.
Qed.

(* parts that do not touch the registry *)
Lemma same_inv s s' : r_pairs s' = r_pairs s -> r_denoms s' = r_denoms s -> r_erc20 s' = r_erc20 s -> r_dp s' = r_dp s -> r_np s' = r_np s -> inv s -> inv s'.
Proof.
  intros A B C D E [P1 P2 P3 P4 P5 P6 P7 P8]. split; rewrite ?A, ?B, ?C, ?D, ?E; assumption.
Qed.
Lemma meta_inv s d : inv s -> inv (add_meta s d). Proof. apply same_inv; reflexivity. Qed.
Lemma mint_inv s d x : inv s -> inv (mint s d x). Proof. apply same_inv; reflexivity. Qed.
Lemma enable_inv s p : inv s -> kget (r_pairs s) (id_of p) = Some p -> p_owner p = Module -> inv (enable s (contract p)).
Proof.
  intros V H O. pose proof (iv_1 s V _ _ H) as (_ & _ & _ & E). destruct V as [P1 P2 P3 P4 P5 P6 P7 P8]. split; try assumption.
  intros a [<-|Ha]; [|apply P7; exact Ha]. exists (id_of p), p. auto.
Qed.
Lemma set_token_get s p : inv s -> kget (r_pairs (set_token s p)) (id_of p) = Some p.
Proof. intro V. cbn. rewrite (kget_kset _ _ _ _ (iv_p s V)), beqb_refl. reflexivity. Qed.

Lemma lookup_inv s t p : inv s -> lookup s t = Some p -> kget (r_pairs s) (id_of p) = Some p.
Proof.
  intros V L. unfold lookup in L. destruct (pair_id s t) as [i|]; [|discriminate]. cbn in L. destruct (iv_1 s V _ _ L) as (A & _). rewrite <- A. exact L.
Qed.
Lemma replace_inv s p q : inv s -> kget (r_pairs s) (id_of p) = Some p -> p_addr q = p_addr p -> p_denom q = p_denom p -> p_owner q = p_owner p -> inv (set_pair s q).
Proof.
  intros V H Ea Ed Eo. assert (Ei : id_of q = id_of p) by (unfold id_of; rewrite Ea, Ed; reflexivity). assert (Ec : contract q = contract p) by (unfold contract; rewrite Ea; reflexivity).
  pose proof (iv_1 s V _ _ H) as (A1 & A2 & A3 & A4). destruct V as [P D E V1 V2 V3 V4 V5].
  split; cbn [set_pair r_pairs r_denoms r_erc20 r_dp r_np].
  - apply kset_sorted. exact P.
  - exact D.
  - exact E.
  - intros i r. rewrite (kget_kset _ _ _ _ P). destruct (beqb i (id_of q)) eqn:B; [|apply V1]. apply (proj1 (beqb_spec _ _)) in B. intro X. injection X as <-.
    rewrite Ea, Ed, Ec. split; [exact B|]. subst i. rewrite Ei. auto.
  - intros d i Hd. destruct (V2 d i Hd) as (r & Hr & Dr). destruct (beqb i (id_of q)) eqn:B; [|exists r; rewrite (kget_kset _ _ _ _ P), B; auto].
    apply (proj1 (beqb_spec _ _)) in B. subst i. rewrite Ei in Hr. rewrite H in Hr. injection Hr as <-. exists q. rewrite (kget_kset _ _ _ _ P), beqb_refl, Ed. auto.
  - intros a i Ha. destruct (V3 a i Ha) as (r & Hr & Dr). destruct (beqb i (id_of q)) eqn:B; [|exists r; rewrite (kget_kset _ _ _ _ P), B; auto].
    apply (proj1 (beqb_spec _ _)) in B. subst i. rewrite Ei in Hr. rewrite H in Hr. injection Hr as <-. exists q. rewrite (kget_kset _ _ _ _ P), beqb_refl, Ec. auto.
  - intros a Ha. destruct (V4 a Ha) as (i & r & B1 & B2 & B3). destruct (beqb i (id_of q)) eqn:B; [|exists i, r; rewrite (kget_kset _ _ _ _ P), B; auto].
    apply (proj1 (beqb_spec _ _)) in B. subst i. exists (id_of q), q. rewrite (kget_kset _ _ _ _ P), beqb_refl. split; [exact B1|]. split; [reflexivity|]. rewrite Eo. rewrite Ei in B2. congruence.
  - exact V5.
Qed.
Lemma delete_inv s p : inv s -> kget (r_pairs s) (id_of p) = Some p -> p_owner p = External -> inv (delete_pair s p).
Proof.
  intros V H O. pose proof (iv_1 s V _ _ H) as (A1 & A2 & A3 & A4). destruct V as [P D E V1 V2 V3 V4 V5].
  split; cbn [delete_pair r_pairs r_denoms r_erc20 r_dp r_np].
  - apply kdel_sorted. exact P.
  - apply kdel_sorted. exact D.
  - apply zdel_sorted. exact E.
  - intros i q. rewrite !kget_kdel, (zget_zdel _ _ _ E). destruct (beqb i (id_of p)) eqn:B; [discriminate|]. intro Hq. destruct (V1 i q Hq) as (B1 & B2 & B3 & B4).
    split; [exact B1|]. split; [exact B2|]. destruct (beqb (p_denom q) (p_denom p)) eqn:Bd.
    + apply (proj1 (beqb_spec _ _)) in Bd. rewrite Bd in B3. rewrite A3 in B3. injection B3 as B3. subst i. rewrite <- B3, beqb_refl in B. discriminate.
    + destruct (Z.eqb_spec (contract p) (contract q)) as [C|C]; [|auto]. rewrite C in A4. rewrite A4 in B4. injection B4 as B4. subst i. rewrite <- B4, beqb_refl in B. discriminate.
  - intros d i. rewrite kget_kdel. destruct (beqb d (p_denom p)) eqn:Bd; [discriminate|]. intro Hd. destruct (V2 d i Hd) as (q & Hq & Dq). exists q. rewrite kget_kdel.
    destruct (beqb i (id_of p)) eqn:B; [|auto]. apply (proj1 (beqb_spec _ _)) in B. subst i. rewrite H in Hq. injection Hq as <-. subst d. rewrite beqb_refl in Bd. discriminate.
  - intros a i. rewrite (zget_zdel _ _ _ E). destruct (Z.eqb_spec (contract p) a) as [C|C]; [discriminate|]. intro Ha. destruct (V3 a i Ha) as (q & Hq & Dq). exists q. rewrite kget_kdel.
    destruct (beqb i (id_of p)) eqn:B; [|auto]. apply (proj1 (beqb_spec _ _)) in B. subst i. congruence.
  - intros a Ha. destruct (V4 a Ha) as (i & q & B1 & B2 & B3). exists i, q. rewrite (zget_zdel _ _ _ E), kget_kdel. destruct (Z.eqb_spec (contract p) a) as [C|C].
    + rewrite C in A4. rewrite A4 in B1. injection B1 as <-. rewrite H in B2. congruence.
    + split; [exact B1|]. split; [|exact B3]. destruct (beqb i (id_of p)) eqn:B; [|exact B2]. apply (proj1 (beqb_spec _ _)) in B. subst i. rewrite H in B2. congruence.
  - exact V5.
Qed.

(* ---- what the invariant gives ---- *)
Lemma one_to_one s d a : inv s -> (coin_address s d = Some a <-> token_denom s a = Some d).
Proof.
  intro V. unfold coin_address, token_denom. split; intro H.
  - destruct (kget (r_denoms s) d) as [i|] eqn:E; [|discriminate]. destruct (iv_2 s V _ _ E) as (p & Hp & Dp). cbn [get_pair] in H. rewrite Hp in H. injection H as <-.
    destruct (iv_1 s V _ _ Hp) as (_ & _ & _ & Hc). rewrite Hc. cbn [get_pair]. rewrite Hp, Dp. reflexivity.
  - destruct (zget (r_erc20 s) a) as [i|] eqn:E; [|discriminate]. destruct (iv_3 s V _ _ E) as (p & Hp & Dp). cbn [get_pair] in H. rewrite Hp in H. injection H as <-.
    destruct (iv_1 s V _ _ Hp) as (_ & _ & Hc & _). rewrite Hc. cbn [get_pair]. rewrite Hp, Dp. reflexivity.
Qed.
Lemma listed s p : inv s -> (In p (map snd (r_pairs s)) <-> kget (r_pairs s) (id_of p) = Some p).
Proof.
  intro V. rewrite in_map_iff. split.
  - intros [[i q] [E Hi]]. cbn in E. subst q. apply (kget_in _ _ _ (iv_p s V)) in Hi. destruct (iv_1 s V _ _ Hi) as (A & _). rewrite <- A. exact Hi.
  - intro H. exists (id_of p, p). split; [reflexivity|]. apply (kget_in _ _ _ (iv_p s V)). exact H.
Qed.
Lemma listed_coin s p : inv s -> In p (map snd (r_pairs s)) -> coin_address s (p_denom p) = Some (contract p).
Proof.
  intros V H. apply (listed s p V) in H. destruct (iv_1 s V _ _ H) as (_ & _ & D & _). unfold coin_address. rewrite D. cbn [get_pair]. rewrite H. reflexivity.
Qed.
Lemma coin_listed s d a : inv s -> coin_address s d = Some a -> exists p, In p (map snd (r_pairs s)) /\ p_denom p = d /\ contract p = a.
Proof.
  intros V H. unfold coin_address in H. destruct (kget (r_denoms s) d) as [i|] eqn:E; [|discriminate]. destruct (iv_2 s V _ _ E) as (p & Hp & Dp). cbn [get_pair] in H. rewrite Hp in H. injection H as <-.
  exists p. split; [|auto]. apply (listed s p V). destruct (iv_1 s V _ _ Hp) as (A & _). rewrite <- A. exact Hp.
Qed.
Lemma listed_same s p q : inv s -> In p (map snd (r_pairs s)) -> In q (map snd (r_pairs s)) -> p_denom p = p_denom q \/ contract p = contract q -> p = q.
Proof.
  intros V Hp Hq E. apply (listed s p V) in Hp. apply (listed s q V) in Hq. destruct (iv_1 s V _ _ Hp) as (_ & _ & A & B). destruct (iv_1 s V _ _ Hq) as (_ & _ & C & D).
  destruct E as [E|E]; [rewrite E, C in A|rewrite E, D in B]; [injection A as X|injection B as X]; rewrite X in Hq; congruence.
Qed.
Lemma listed_nodup s : inv s -> NoDup (map snd (r_pairs s)).
Proof.
  intro V. apply (NoDup_map_inv id_of). replace (map id_of (map snd (r_pairs s))) with (map fst (r_pairs s)).
  - pose proof (iv_p s V) as P. clear V. induction (r_pairs s) as [|[k v] l IH]; [constructor|]. cbn [map fst]. inversion P as [|? ? P1 P2]; subst. constructor; [|apply IH; exact P1].
    intro Hi. apply in_map_iff in Hi. destruct Hi as [[k2 v2] [E Hi]]. cbn in E. subst k2. assert (K : kget ((k, v) :: l) k = Some v2) by (apply (kget_in _ _ _ P); right; exact Hi).
    assert (K1 : kget l k = Some v2) by (apply (kget_in _ _ _ P1); exact Hi). rewrite kget_above in K1; [discriminate|]. exact P2.
  - rewrite map_map. apply map_ext_in. intros [i q] Hi. cbn. apply (kget_in _ _ _ (iv_p s V)) in Hi. destruct (iv_1 s V _ _ Hi) as (A & _). exact A.
Qed.

(* ---- the operations ---- *)
Section Ops.
Variable checksum : Z -> bytes.
Hypothesis text : forall a, 0 <= a < two160 -> is_hex_address (checksum a) = true /\ hex_to_addr (checksum a) = a.

Lemma none_coin s d : kget (r_denoms s) d = None -> coin_address s d = None. Proof. intro H. unfold coin_address. rewrite H. reflexivity. Qed.
Lemma none_tok s a : zget (r_erc20 s) a = None -> token_denom s a = None. Proof. intro H. unfold token_denom. rewrite H. reflexivity. Qed.
Lemma adds_token s p : inv s -> is_hex_address (p_addr p) = true -> kget (r_denoms s) (p_denom p) = None -> zget (r_erc20 s) (contract p) = None ->
  adds s (set_token s p) p.
Proof.
  intros V Hx Hd He. pose proof (set_token_inv s p V Hx Hd He) as V'. pose proof (fresh_id s p V Hx Hd) as Hi. split; [apply (listed _ p V'); apply (set_token_get s p V)|].
  split; [apply none_coin; exact Hd|]. split; [apply none_tok; exact He|]. split.
  - intros d N. rewrite set_token_coin; auto. apply (proj2 (beqb_neq _ _)) in N. rewrite N. reflexivity.
  - intro q. rewrite (listed _ q V'), (listed _ q V). cbn [set_token r_pairs]. rewrite (kget_kset _ _ _ _ (iv_p s V)). destruct (beqb (id_of q) (id_of p)) eqn:B.
    + apply (proj1 (beqb_spec _ _)) in B. split; [intro H; injection H as <-; auto|]. intros [->|H]; [reflexivity|]. rewrite B in H. congruence.
    + split; [auto|]. intros [->|H]; [rewrite beqb_refl in B; discriminate|exact H].
Qed.
Lemma same_adds s s' t p : r_pairs t = r_pairs s' -> r_denoms t = r_denoms s' -> adds s s' p -> adds s t p.
Proof.
  intros A B. unfold adds, listing, coin_address. replace (get_pair t) with (get_pair s') by (unfold get_pair; rewrite A; reflexivity). rewrite A, B. auto.
Qed.
Lemma adds_same s t s' p : r_pairs t = r_pairs s -> r_denoms t = r_denoms s -> r_erc20 t = r_erc20 s -> adds t s' p -> adds s s' p.
Proof.
  intros A B C. unfold adds, listing, coin_address, token_denom. replace (get_pair t) with (get_pair s) by (unfold get_pair; rewrite A; reflexivity). rewrite A, B, C. auto.
Qed.

Lemma register_spec s a g s' : 0 <= a < two160 -> inv s -> register_erc20 checksum s a g = Ok s' ->
  let p := mk_pair (checksum a) (erc20_prefix ++ checksum a) true External in inv s' /\ adds s s' p /\ contract p = a.
Proof.
  intros R V H p. destruct (text a R) as [Hx Ha]. unfold register_erc20 in H. destruct (zget (r_erc20 s) a) as [i|] eqn:E; [discriminate|]. destruct (negb g); [discriminate|].
  destruct (has_meta s _); [discriminate|]. destruct (kget (r_denoms s) (erc20_prefix ++ checksum a)) as [i|] eqn:D; [discriminate|]. injection H as <-. fold p.
  assert (C : contract p = a) by exact Ha. split; [|split; [|exact C]].
  - apply set_token_inv; [apply meta_inv; exact V|exact Hx|exact D|]. change (zget (r_erc20 s) (contract p) = None). rewrite C. exact E.
  - apply (adds_same s (add_meta s (p_denom p))); try reflexivity. apply adds_token; [apply meta_inv; exact V|exact Hx|exact D|]. change (zget (r_erc20 s) (contract p) = None). rewrite C. exact E.
Qed.

Lemma lookup_none_denom s d : inv s -> is_hex_address d = false -> lookup s d = None -> kget (r_denoms s) d = None.
Proof.
  intros V H L. unfold lookup, pair_id in L. rewrite H in L. destruct (kget (r_denoms s) d) as [i|] eqn:E; [|reflexivity]. destruct (iv_2 s V _ _ E) as (p & Hp & _). cbn in L. congruence.
Qed.
Lemma create_spec s d x a g s' : inv s -> op_ok s (Create d x a g) -> create checksum s d x a g = Ok s' ->
  let p := mk_pair (checksum a) d true Module in inv s' /\ adds s s' p /\ contract p = a.
Proof.
  intros V (A & B & R) H p. destruct (text a R) as [Hx Ha]. unfold create in H. destruct (negb g || _ || _); [discriminate|]. destruct (has_meta s d); [discriminate|]. cbv zeta in H. fold p in H. injection H as <-.
  assert (C : contract p = a) by exact Ha. apply (coin_none s d V) in A. apply (tok_none s a V) in B.
  set (t := mint (add_meta s d) d x). assert (Vt : inv t) by (apply mint_inv, meta_inv; exact V). assert (E : zget (r_erc20 t) (contract p) = None) by (rewrite C; exact B). split; [|split; [|exact C]].
  - apply enable_inv; [apply set_token_inv; auto|apply set_token_get; exact Vt|reflexivity].
  - apply (same_adds s (set_token t p)); try reflexivity. apply (adds_same s t); try reflexivity. apply adds_token; auto.
Qed.
Lemma link_spec s d a g s' : inv s -> op_ok s (Link d a g) -> link checksum s d a g = Ok s' ->
  s' = s \/ (let p := mk_pair (checksum a) d true Module in inv s' /\ adds s s' p /\ contract p = a).
Proof.
  intros V (A & B & R) H. destruct (text a R) as [Hx Ha]. unfold link in H. destruct (lookup s d) as [q|] eqn:L; [injection H as <-; auto|]. destruct (negb g); [injection H as <-; auto|]. right. intro p. cbv zeta in H. fold p in H. injection H as <-.
  assert (C : contract p = a) by exact Ha. apply (lookup_none_denom s d V A) in L. apply (tok_none s a V) in B.
  set (t := add_meta s d). assert (Vt : inv t) by (apply meta_inv; exact V). assert (E : zget (r_erc20 t) (contract p) = None) by (rewrite C; exact B). split; [|split; [|exact C]].
  - apply mint_inv, enable_inv; [apply set_token_inv; auto|apply set_token_get; exact Vt|reflexivity].
  - apply (same_adds s (set_token t p)); try reflexivity. apply (adds_same s t); try reflexivity. apply adds_token; auto.
Qed.
Lemma ibc_range d a : ibc_addr d = Some a -> 0 <= a < two160 /\ has_prefix ibc_prefix d = true.
Proof.
  unfold ibc_addr. destruct (has_prefix ibc_prefix d); [|discriminate]. destruct (Nat.eqb _ _ && _); [|discriminate]. intro H. injection H as <-. split; [apply Z.mod_pos_bound; reflexivity|reflexivity].
Qed.
Lemma recv_spec s d b s' : inv s -> op_ok s (Recv d b) -> recv checksum s d b = Ok s' ->
  s' = s \/ exists a, ibc_addr d = Some a /\ let p := mk_pair (checksum a) d true Module in inv s' /\ adds s s' p /\ contract p = a.
Proof.
  intros V A H. unfold recv in H. destruct (negb (r_on s)); [injection H as <-; auto|]. destruct (lookup s d) as [q|] eqn:L; [injection H as <-; auto|]. destruct (has_prefix ibc_prefix d && b); [|injection H as <-; auto].
  unfold register_extension in H. cbn in A. destruct (ibc_addr d) as [a|] eqn:E; [|discriminate]. right. exists a. split; [reflexivity|]. intro p. cbv zeta in H. fold p in H. injection H as <-.
  destruct (ibc_range d a E) as [R Hp]. destruct (text a R) as [Hx Ha]. assert (C : contract p = a) by exact Ha. specialize (A L). apply (lookup_none_denom s d V (ibc_not_hex d Hp)) in L. apply (tok_none s a V) in A.
  assert (Ez : zget (r_erc20 s) (contract p) = None) by (rewrite C; exact A). split; [|split; [|exact C]].
  - apply enable_inv; [apply set_token_inv; auto|apply set_token_get; exact V|reflexivity].
  - apply (same_adds s (set_token s p)); try reflexivity. apply adds_token; auto.
Qed.
Lemma register_all_inv l : forall s s', inv s -> register_all checksum s l = Ok s' -> inv s' /\ (forall d a, coin_address s d = Some a -> coin_address s' d = Some a) /\ (forall q, In q (map snd (r_pairs s)) -> In q (map snd (r_pairs s'))).
Proof.
  induction l as [|[t g] l IH]; intros s s' V H; [injection H as <-; auto|]. cbn [register_all] in H. destruct (is_hex_address t); [|discriminate].
  destruct (register_erc20 checksum s (hex_to_addr t) g) as [s1| |] eqn:E; try discriminate. cbn [rbind] in H. destruct (register_spec s _ g s1 (hex_range t) V E) as (V1 & A & _).
  destruct (IH s1 s' V1 H) as (V2 & B & C). destruct A as (A1 & A2 & A3 & A4 & A5). split; [exact V2|]. split; [|intros q Hq; apply C, A5; auto].
  intros d a Hd. apply B. rewrite A4; [exact Hd|]. intro X. subst d. congruence.
Qed.
Lemma toggle_inv s t s' : inv s -> toggle s t = Ok s' -> inv s'.
Proof.
  intros V H. unfold toggle in H. destruct (r_on s); [|discriminate]. destruct (lookup s t) as [p|] eqn:L; [|discriminate]. injection H as <-.
  apply (replace_inv s p); [exact V|exact (lookup_inv s t p V L)| | |]; reflexivity.
Qed.
Lemma gone_inv s t s' : inv s -> convert_gone s t = Ok s' -> inv s'.
Proof.
  intros V H. unfold convert_gone in H. destruct (negb (r_on s)); [discriminate|]. destruct (lookup s t) as [p|] eqn:L; [|discriminate]. destruct (negb (p_enabled p)); [discriminate|].
  destruct (p_owner p) eqn:O; try discriminate. injection H as <-. apply delete_inv; [exact V|exact (lookup_inv s t p V L)|exact O].
Qed.
Lemma step_inv s o s' : inv s -> op_ok s o -> step checksum s o = Ok s' -> inv s'.
Proof.
  intros V A H. destruct o as [l|t|d b|d x a g|d a g|t]; cbn [step] in H.
  - unfold register_msg in H. destruct (r_on s); [|discriminate]. exact (proj1 (register_all_inv l s s' V H)).
  - exact (toggle_inv s t s' V H).
  - destruct (recv_spec s d b s' V A H) as [->|(a & _ & X)]; [exact V|exact (proj1 X)].
  - exact (proj1 (create_spec s d x a g s' V A H)).
  - destruct (link_spec s d a g s' V A H) as [->|X]; [exact V|exact (proj1 X)].
  - exact (gone_inv s t s' V H).
Qed.
Lemma exec_inv s o : inv s -> op_ok s o -> inv (exec checksum s o).
Proof. intros V A. unfold exec. destruct (step checksum s o) as [s'| |] eqn:E; auto. exact (step_inv s o s' V A E). Qed.

Lemma run_inv l : forall s, inv s -> all_ok checksum s l -> inv (run checksum s l).
Proof. induction l as [|o l IH]; intros s V A; [exact V|]. destruct A as [A B]. apply IH; [apply exec_inv; assumption|exact B]. Qed.

Lemma kept s o s' d a : inv s -> op_ok s o -> deletes o = false -> step checksum s o = Ok s' -> coin_address s d = Some a -> coin_address s' d = Some a.
Proof.
  intros V A De H K. assert (X : forall p, adds s s' p -> coin_address s' d = Some a) by (intros p (_ & N & _ & W & _); rewrite W; [exact K|]; intro; subst d; congruence).
  destruct o as [l|t|e b|e x c g|e c g|t]; cbn [step] in H; try discriminate.
  - unfold register_msg in H. destruct (r_on s); [|discriminate]. exact (proj1 (proj2 (register_all_inv l s s' V H)) d a K).
  - unfold toggle in H. destruct (r_on s); [|discriminate]. destruct (lookup s t) as [p|] eqn:L; [|discriminate]. injection H as <-. pose proof (lookup_inv s t p V L) as G. clear X.
    unfold coin_address in *. cbn [set_pair r_denoms]. destruct (kget (r_denoms s) d) as [i|]; [|discriminate]. cbn [get_pair set_pair r_pairs] in *. rewrite (kget_kset _ _ _ _ (iv_p s V)).
    destruct (beqb i _) eqn:B; [|exact K]. apply (proj1 (beqb_spec _ _)) in B. unfold id_of in B. cbn [p_addr p_denom] in B. fold (id_of p) in B. rewrite B, G in K. exact K.
  - destruct (recv_spec s e b s' V A H) as [->|(c & _ & _ & Y & _)]; [exact K|exact (X _ Y)].
  - destruct (create_spec s e x c g s' V A H) as (_ & Y & _). exact (X _ Y).
  - destruct (link_spec s e c g s' V A H) as [->|(_ & Y & _)]; [exact K|exact (X _ Y)].
Qed.
Lemma gone_spec s t s' : inv s -> convert_gone s t = Ok s' ->
  exists p, lookup s t = Some p /\ p_owner p = External /\ p_enabled p = true /\ coin_address s' (p_denom p) = None
    /\ (forall d, d <> p_denom p -> coin_address s' d = coin_address s d) /\ (forall q, In q (map snd (r_pairs s')) <-> q <> p /\ In q (map snd (r_pairs s))) /\ r_dp s' = r_dp s /\ r_supply s' = r_supply s /\ r_meta s' = r_meta s.
Proof.
  intros V H. pose proof (gone_inv s t s' V H) as V'. unfold convert_gone in H. destruct (negb (r_on s)); [discriminate|]. destruct (lookup s t) as [p|] eqn:L; [|discriminate]. destruct (p_enabled p) eqn:En; [|discriminate]. cbn [negb] in H.
  destruct (p_owner p) eqn:O; try discriminate. injection H as <-. exists p. pose proof (lookup_inv s t p V L) as G.
  assert (Q : forall q, kget (r_pairs s) (id_of q) = Some q -> beqb (id_of q) (id_of p) = true -> q = p) by (intros q Hq B; apply (proj1 (beqb_spec _ _)) in B; rewrite B in Hq; congruence).
  split; [reflexivity|]. split; [exact O|]. split; [exact En|]. split; [|split; [|split; [|auto]]].
  - unfold coin_address. cbn [delete_pair r_denoms]. rewrite kget_kdel, beqb_refl. reflexivity.
  - intros d N. unfold coin_address. cbn [delete_pair r_denoms]. rewrite kget_kdel. apply (proj2 (beqb_neq _ _)) in N. rewrite N. destruct (kget (r_denoms s) d) as [i|] eqn:E; [|reflexivity].
    cbn [get_pair delete_pair r_pairs]. rewrite kget_kdel. destruct (beqb i (id_of p)) eqn:B; [|reflexivity]. apply (proj1 (beqb_spec _ _)) in B. subst i. destruct (iv_2 s V _ _ E) as (q & Hq & Dq). rewrite G in Hq. injection Hq as <-. subst d. rewrite beqb_refl in N. discriminate.
  - intro q. rewrite (listed _ q V'), (listed _ q V). cbn [delete_pair r_pairs]. rewrite kget_kdel. destruct (beqb (id_of q) (id_of p)) eqn:B.
    + split; [discriminate|]. intros [N Hq]. destruct (N (Q q Hq B)).
    + split; [|intros [_ X]; exact X]. intro X. split; [|exact X]. intros ->. rewrite beqb_refl in B. discriminate.
Qed.
Lemma toggle_spec s t s' : inv s -> toggle s t = Ok s' ->
  exists p, lookup s t = Some p /\ let q := mk_pair (p_addr p) (p_denom p) (negb (p_enabled p)) (p_owner p) in
    lookup s' t = Some q /\ (forall x, In x (map snd (r_pairs s')) <-> x = q \/ (x <> p /\ In x (map snd (r_pairs s)))) /\ (forall d, coin_address s' d = coin_address s d) /\ r_dp s' = r_dp s /\ r_supply s' = r_supply s /\ r_meta s' = r_meta s.
Proof.
  intros V H. pose proof (toggle_inv s t s' V H) as V'. unfold toggle in H. destruct (r_on s); [|discriminate]. destruct (lookup s t) as [p|] eqn:L; [|discriminate]. injection H as <-. exists p. split; [reflexivity|]. intro q.
  pose proof (lookup_inv s t p V L) as G. assert (Eq : id_of q = id_of p) by reflexivity. split; [|split; [|split; [|auto]]].
  - unfold lookup, pair_id in *. cbn [set_pair r_erc20 r_denoms]. destruct (if is_hex_address t then zget (r_erc20 s) (hex_to_addr t) else kget (r_denoms s) t) as [i|] eqn:E; [|discriminate]. cbn [get_pair set_pair r_pairs] in *.
    rewrite (kget_kset _ _ _ _ (iv_p s V)). destruct (iv_1 s V _ _ L) as (A & _). fold q. rewrite Eq, A, beqb_refl. reflexivity.
  - intro x. rewrite (listed _ x V'), (listed _ x V). cbn [set_pair r_pairs]. fold q. rewrite (kget_kset _ _ _ _ (iv_p s V)), Eq. destruct (beqb (id_of x) (id_of p)) eqn:B.
    + apply (proj1 (beqb_spec _ _)) in B. split; [intro X; injection X as <-; auto|]. intros [->|[N X]]; [reflexivity|]. rewrite B, G in X. congruence.
    + split; [|intros [->|[_ X]]; [rewrite Eq, beqb_refl in B; discriminate|exact X]]. intro X. right. split; [|exact X]. intros ->. rewrite beqb_refl in B. discriminate.
  - intro d. unfold coin_address. cbn [set_pair r_denoms]. destruct (kget (r_denoms s) d) as [i|]; [|reflexivity]. cbn [get_pair set_pair r_pairs]. fold q. rewrite (kget_kset _ _ _ _ (iv_p s V)).
    destruct (beqb i (id_of q)) eqn:B; [|reflexivity]. apply (proj1 (beqb_spec _ _)) in B. rewrite B, Eq, G. reflexivity.
Qed.
Lemma face_spec s a r : inv s -> face s a = Some r -> exists p, r = Ok p /\ contract p = a /\ p_owner p = Module /\ token_denom s a = Some (p_denom p) /\ coin_address s (p_denom p) = Some a.
Proof.
  intros V H. unfold face in H. rewrite (iv_5 s V) in H. cbn [existsb orb] in H. destruct (existsb (Z.eqb a) (r_dp s)) eqn:E; [|discriminate]. injection H as <-.
  apply existsb_exists in E. destruct E as (b & Hb & E). apply Z.eqb_eq in E. subst b. destruct (iv_4 s V a Hb) as (i & p & A & B & C). exists p. rewrite A. cbn [get_pair]. rewrite B.
  destruct (iv_3 s V _ _ A) as (q & Hq & Cq). rewrite B in Hq. injection Hq as <-. assert (T : token_denom s a = Some (p_denom p)) by (unfold token_denom; rewrite A; cbn [get_pair]; rewrite B; reflexivity).
  split; [reflexivity|]. split; [exact Cq|]. split; [exact C|]. split; [exact T|]. apply (one_to_one s _ _ V). exact T.
Qed.
End Ops.

(* ---- genesis ---- *)
Lemma import_gen l : forall s, inv s -> Forall (fun p => is_hex_address (p_addr p) = true) l -> NoDup (map p_denom l) -> NoDup (map contract l) ->
  (forall p, In p l -> kget (r_denoms s) (p_denom p) = None) -> (forall p, In p l -> zget (r_erc20 s) (contract p) = None) ->
  inv (fold_left set_token l s) /\ (forall q, In q (map snd (r_pairs (fold_left set_token l s))) <-> In q l \/ In q (map snd (r_pairs s))).
Proof.
  induction l as [|p l IH]; intros s V H M N D E; [split; [exact V|cbn; tauto]|].
  inversion H as [|? ? H4 H5]; subst. cbn [map] in N, M. inversion N as [|? ? N1 N2]; subst. inversion M as [|? ? M1 M2]; subst.
  assert (Dp : kget (r_denoms s) (p_denom p) = None) by (apply D; left; reflexivity).
  assert (Ep : zget (r_erc20 s) (contract p) = None) by (apply E; left; reflexivity).
  pose proof (set_token_inv s p V H4 Dp Ep) as V1. destruct (adds_token s p V H4 Dp Ep) as (_ & _ & _ & _ & A5).
  cbn [fold_left]. destruct (IH (set_token s p) V1 H5 M2 N2) as [I1 I2].
  - intros q Hq. cbn [set_token r_denoms]. rewrite (kget_kset _ _ _ _ (iv_d s V)). destruct (beqb (p_denom q) (p_denom p)) eqn:B; [|apply D; right; exact Hq]. apply (proj1 (beqb_spec _ _)) in B. destruct M1. rewrite <- B. apply in_map. exact Hq.
  - intros q Hq. cbn [set_token r_erc20]. rewrite zget_zset. destruct (Z.eqb_spec (contract p) (contract q)) as [X|X]; [|apply E; right; exact Hq]. destruct N1. rewrite X. apply in_map. exact Hq.
  - split; [exact I1|]. intro q. rewrite I2, A5. cbn [In]. intuition congruence.
Qed.
Lemma import_all l on m u : Forall (fun p => is_hex_address (p_addr p) = true) l -> NoDup (map p_denom l) -> NoDup (map contract l) ->
  inv (import l on m u) /\ (forall q, In q (map snd (r_pairs (import l on m u))) <-> In q l).
Proof.
  intros H M N. destruct (import_gen l (empty on m u) (empty_inv on m u) H M N) as [A B]; [reflexivity|reflexivity|].
  split; [exact A|]. intro q. specialize (B q). cbn [empty r_pairs map In] in B. unfold import. tauto.
Qed.
Lemma valid_parts l : forall sa sd, valid_pairs sa sd l = true ->
  Forall (fun p => is_hex_address (p_addr p) = true) l /\ NoDup (map p_denom l) /\ (forall d, In d (map p_denom l) -> ~ In d sd) /\ Forall (fun p => denom_ok (p_denom p) = true) l.
Proof.
  induction l as [|p l IH]; intros sa sd H; [split; [constructor|]; split; [constructor|]; split; [intros d []|constructor]|].
  cbn [valid_pairs] in H. apply andb_prop in H. destruct H as [H H5]. apply andb_prop in H. destruct H as [H H4]. apply andb_prop in H. destruct H as [H H3]. apply andb_prop in H. destruct H as [H1 H2].
  destruct (IH _ _ H5) as (A & B & C & D). assert (Q : ~ In (p_denom p) sd).
  { intro Y. apply negb_true_iff in H2. assert (X : existsb (beqb (p_denom p)) sd = true) by (apply existsb_exists; exists (p_denom p); split; [exact Y|apply beqb_refl]). congruence. }
  split; [constructor; assumption|]. split; [|split; [|constructor; assumption]].
  - cbn [map]. constructor; [|exact B]. intro X. apply (C _ X). left. reflexivity.
  - cbn [map]. intros d [<-|X]; [exact Q|]. intro Y. apply (C _ X). right. exact Y.
Qed.
Lemma import_inv l on m u : valid_pairs [] [] l = true -> NoDup (map contract l) ->
  inv (import l on m u) /\ (forall q, In q (map snd (r_pairs (import l on m u))) <-> In q l).
Proof. intros H N. destruct (valid_parts l [] [] H) as (A & B & _). apply import_all; assumption. Qed.

(* ---- export and import ---- *)
Lemma zsorted_ext {V} (a b : list (Z * V)) : zsorted a -> zsorted b -> (forall k, zget a k = zget b k) -> a = b.
Proof.
  revert b. induction a as [|[k v] r IH]; intros [|[j w] q] Sa Sb E.
  - reflexivity.
  - specialize (E j). cbn in E. rewrite Z.eqb_refl in E. discriminate.
  - specialize (E k). cbn in E. rewrite Z.eqb_refl in E. discriminate.
  - apply zsorted_cons in Sa as [Sa Fa]. apply zsorted_cons in Sb as [Sb Fb]. rewrite Forall_forall in Fa, Fb.
    assert (k = j) as <-.
    { destruct (Z.lt_trichotomy k j) as [L|[L|L]]; [|exact L|].
      - pose proof (E k) as X. cbn in X. rewrite Z.eqb_refl in X. destruct (Z.eqb_spec j k); [lia|]. symmetry in X. apply zget_in in X. apply (in_map fst) in X. cbn in X. specialize (Fb k X). lia.
      - pose proof (E j) as X. cbn in X. rewrite Z.eqb_refl in X. destruct (Z.eqb_spec k j); [lia|]. apply zget_in in X. apply (in_map fst) in X. cbn in X. specialize (Fa j X). lia. }
    pose proof (E k) as X. cbn in X. rewrite Z.eqb_refl in X. injection X as <-. f_equal. apply IH; [exact Sa|exact Sb|].
    intro x. pose proof (E x) as X. cbn in X. destruct (Z.eqb_spec k x) as [Ex|]; [|exact X]. subst x.
    transitivity (@None V); [|symmetry]; apply zget_below; apply Forall_forall; auto.
Qed.
Lemma inv_same s t : inv s -> inv t -> (forall q, In q (map snd (r_pairs s)) <-> In q (map snd (r_pairs t))) -> r_pairs s = r_pairs t /\ r_denoms s = r_denoms t /\ r_erc20 s = r_erc20 t.
Proof.
  intros V W H. assert (K : forall x y, inv x -> inv y -> (forall q, In q (map snd (r_pairs x)) -> In q (map snd (r_pairs y))) -> forall i p, kget (r_pairs x) i = Some p -> kget (r_pairs y) i = Some p).
  { intros x y X Y L i p Hp. destruct (iv_1 x X _ _ Hp) as (A & _). subst i. apply (listed y p Y). apply L. apply (listed x p X). exact Hp. }
  assert (K1 := K s t V W (fun q => proj1 (H q))). assert (K2 := K t s W V (fun q => proj2 (H q))). clear K. split; [|split].
  - apply ksorted_ext; [apply (iv_p s V)|apply (iv_p t W)|]. intro k. destruct (kget (r_pairs s) k) as [p|] eqn:E; [symmetry; apply K1; exact E|].
    destruct (kget (r_pairs t) k) as [p|] eqn:F; [|reflexivity]. rewrite (K2 _ _ F) in E. discriminate.
  - assert (G : forall x y, inv x -> inv y -> (forall i p, kget (r_pairs x) i = Some p -> kget (r_pairs y) i = Some p) -> forall d i, kget (r_denoms x) d = Some i -> kget (r_denoms y) d = Some i).
    { intros x y X Y L d i Hd. destruct (iv_2 x X _ _ Hd) as (p & Hp & <-). apply (iv_1 y Y). apply L. exact Hp. }
    apply ksorted_ext; [apply (iv_d s V)|apply (iv_d t W)|]. intro k. destruct (kget (r_denoms s) k) as [i|] eqn:E; [symmetry; exact (G s t V W K1 _ _ E)|].
    destruct (kget (r_denoms t) k) as [i|] eqn:F; [|reflexivity]. rewrite (G t s W V K2 _ _ F) in E. discriminate.
  - assert (G : forall x y, inv x -> inv y -> (forall i p, kget (r_pairs x) i = Some p -> kget (r_pairs y) i = Some p) -> forall d i, zget (r_erc20 x) d = Some i -> zget (r_erc20 y) d = Some i).
    { intros x y X Y L d i Hd. destruct (iv_3 x X _ _ Hd) as (p & Hp & <-). apply (iv_1 y Y). apply L. exact Hp. }
    apply zsorted_ext; [apply (iv_e s V)|apply (iv_e t W)|]. intro k. destruct (zget (r_erc20 s) k) as [i|] eqn:E; [symmetry; exact (G s t V W K1 _ _ E)|].
    destruct (zget (r_erc20 t) k) as [i|] eqn:F; [|reflexivity]. rewrite (G t s W V K2 _ _ F) in E. discriminate.
Qed.
Lemma nodup_by {A B} (f : A -> B) l : NoDup l -> (forall x y, In x l -> In y l -> f x = f y -> x = y) -> NoDup (map f l).
Proof.
  induction l as [|x l IH]; intros N H; [constructor|]. inversion N as [|? ? N1 N2]; subst. cbn [map]. constructor.
  - intro Hi. apply in_map_iff in Hi. destruct Hi as (y & E & Hy). assert (x = y) by (apply H; [left; reflexivity|right; exact Hy|symmetry; exact E]). subst y. contradiction.
  - apply IH; [exact N2|]. intros a b Ha Hb. apply H; right; assumption.
Qed.
Lemma round_trip s on m u : inv s -> let t := import (map snd (r_pairs s)) on m u in inv t /\ r_pairs t = r_pairs s /\ r_denoms t = r_denoms s /\ r_erc20 t = r_erc20 s.
Proof.
  intros V t. destruct (import_all (map snd (r_pairs s)) on m u) as [A B].
  - apply Forall_forall. intros p Hp. apply (listed s p V) in Hp. apply (iv_1 s V _ _ Hp).
  - apply nodup_by; [apply listed_nodup; exact V|]. intros x y Hx Hy E. apply (listed_same s); auto.
  - apply nodup_by; [apply listed_nodup; exact V|]. intros x y Hx Hy E. apply (listed_same s); auto.
  - split; [exact A|]. apply inv_same; auto.
Qed.
Lemma valid_gen l : forall sa sd, Forall (fun p => is_hex_address (p_addr p) = true) l -> Forall (fun p => denom_ok (p_denom p) = true) l -> NoDup (map p_denom l) -> NoDup (map p_addr l) ->
  (forall p, In p l -> ~ In (p_denom p) sd) -> (forall p, In p l -> ~ In (p_addr p) sa) -> valid_pairs sa sd l = true.
Proof.
  assert (X : forall x l, ~ In x l -> negb (existsb (beqb x) l) = true).
  { intros x m H. apply negb_true_iff. destruct (existsb (beqb x) m) eqn:E; [|reflexivity]. apply existsb_exists in E. destruct E as (y & Hy & B). apply (proj1 (beqb_spec _ _)) in B. subst y. contradiction. }
  induction l as [|p l IH]; intros sa sd A B M N D E; [reflexivity|]. inversion A as [|? ? A1 A2]; subst. inversion B as [|? ? B1 B2]; subst. cbn [map] in M, N. inversion M as [|? ? M1 M2]; subst. inversion N as [|? ? N1 N2]; subst.
  cbn [valid_pairs]. rewrite (X _ sa), (X _ sd), A1, B1; [|apply D; left; reflexivity|apply E; left; reflexivity]. apply IH; auto.
  - intros q Hq [F|F]; [apply M1; rewrite F; apply in_map; exact Hq|apply (D q); [right; exact Hq|exact F]].
  - intros q Hq [F|F]; [apply N1; rewrite F; apply in_map; exact Hq|apply (E q); [right; exact Hq|exact F]].
Qed.
Lemma export_valid s : inv s -> Forall (fun p => denom_ok (p_denom p) = true) (map snd (r_pairs s)) -> valid_pairs [] [] (map snd (r_pairs s)) = true.
Proof.
  intros V F. apply valid_gen; auto.
  - apply Forall_forall. intros p Hp. apply (listed s p V) in Hp. apply (iv_1 s V _ _ Hp).
  - apply nodup_by; [apply listed_nodup; exact V|]. intros x y Hx Hy E. apply (listed_same s); auto.
  - apply nodup_by; [apply listed_nodup; exact V|]. intros x y Hx Hy E. apply (listed_same s); auto. right. unfold contract. rewrite E. reflexivity.
Qed.

(* ---- the text of an address in lower case ---- *)
Definition digit (x : Z) : N := if x <? 10 then Z.to_N (48 + x) else Z.to_N (87 + x).
Fixpoint digits (n : nat) (a : Z) : bytes := match n with O => [] | S m => digits m (a / 16) ++ [digit (a mod 16)] end.
Definition lower (a : Z) : bytes := [48; 120]%N ++ digits 40 a.
Lemma hexval_digit x : 0 <= x < 16 -> hexval (digit x) = Some x.
Proof.
  intro H. assert (K : In x [0;1;2;3;4;5;6;7;8;9;10;11;12;13;14;15]) by (cbn [In]; lia). cbn [In] in K. repeat (destruct K as [<-|K]; [reflexivity|]). destruct K.
Qed.
Lemma mod16 a : 0 <= a mod 16 < 16. Proof. apply Z.mod_pos_bound. lia. Qed.
Lemma digits_len n : forall a, length (digits n a) = n.
Proof. induction n as [|n IH]; intro a; [reflexivity|]. cbn [digits]. rewrite app_length, IH. cbn. lia. Qed.
Lemma digits_hex n : forall a, forallb is_hexchar (digits n a) = true.
Proof.
  induction n as [|n IH]; intro a; [reflexivity|]. cbn [digits]. rewrite forallb_app, IH. cbn [forallb andb]. unfold is_hexchar. rewrite hexval_digit by apply mod16. reflexivity.
Qed.
Lemma decode_snoc n : forall l acc x y, length l = (2 * n)%nat -> forallb is_hexchar l = true -> 0 <= x < 16 -> 0 <= y < 16 ->
  decode acc (l ++ [digit x; digit y]) = decode acc l * 256 + x * 16 + y.
Proof.
  induction n as [|n IH]; intros l acc x y L H X Y.
  - destruct l; [|discriminate]. cbn [app decode]. rewrite !hexval_digit by assumption. reflexivity.
  - destruct l as [|a [|b l]]; [discriminate|cbn in L; lia|]. cbn [app decode]. cbn [forallb] in H. apply andb_prop in H. destruct H as [Ha H]. apply andb_prop in H. destruct H as [Hb H].
    unfold is_hexchar in Ha, Hb. destruct (hexval a) as [u|]; [|discriminate]. destruct (hexval b) as [v|]; [|discriminate]. apply IH; auto. cbn in L. lia.
Qed.
Lemma decode_digits n : forall a, decode 0 (digits (2 * n) a) = a mod 256 ^ Z.of_nat n.
Proof.
  induction n as [|n IH]; intro a; [cbn; rewrite Z.mod_1_r; reflexivity|].
  replace (2 * S n)%nat with (S (S (2 * n))) by lia. cbn [digits]. rewrite <- app_assoc. cbn [app].
  rewrite (decode_snoc n) by (try apply digits_len; try apply digits_hex; apply mod16). rewrite IH, Nat2Z.inj_succ, Z.pow_succ_r by lia.
  rewrite Z.rem_mul_r by lia. rewrite Z.div_div by lia. change (16 * 16) with 256.
  assert (E : a mod 256 = a / 16 mod 16 * 16 + a mod 16). { change 256 with (16 * 16). rewrite Z.rem_mul_r by lia. lia. }
  rewrite E. lia.
Qed.
Lemma lower_text a : 0 <= a < two160 -> is_hex_address (lower a) = true /\ hex_to_addr (lower a) = a.
Proof.
  intro R. unfold is_hex_address, hex_to_addr, lower. set (n := 40%nat). cbn [app strip0x N.eqb Pos.eqb andb orb]. rewrite digits_len, digits_hex. split; [reflexivity|].
  assert (O : Nat.odd n = false) by reflexivity. rewrite O. change n with (2 * 20)%nat. rewrite decode_digits. change (256 ^ Z.of_nat 20) with two160. rewrite Z.mod_mod by (unfold two160; lia). apply Z.mod_small. exact R.
Qed.
