(* Lemmas for C118. *)
From Verif Require Import Lib.Base Lib.Zmap Logos.Model Logos.Spec.
Open Scope Z_scope.
Ltac Zify.zify_post_hook ::= Z.to_euclidean_division_equations.

(* ---- base64 ---- *)
Lemma sextet_letter i : 0 <= i < 64 -> sextet (letter i) = Some i.
Proof.
  intro H. assert (In i (map Z.of_nat (seq 0 64))) as E.
  { apply in_map_iff. exists (Z.to_nat i). split; [lia|]. apply in_seq. lia. }
  cbn in E. repeat destruct E as [E|E]; try contradiction; subst i; reflexivity.
Qed.
Lemma letter_sextet c i : sextet c = Some i -> 0 <= i < 64 /\ c = letter i.
Proof.
  unfold sextet, letter. intro H.
  repeat match goal with H : context [if ?b then _ else _] |- _ => destruct b eqn:? end; try discriminate; assert (i = i) by reflexivity;
  match goal with H : Some ?e = Some i |- _ => assert (i = e) by congruence; clear H end;
  repeat match goal with |- context [if ?b then _ else _] => destruct b eqn:? end; lia.
Qed.
Lemma letter_not_pad i : 0 <= i < 64 -> (letter i =? pad) = false.
Proof. intro H. apply Z.eqb_neq. intro E. pose proof (sextet_letter i H) as S. rewrite E in S. discriminate. Qed.
Lemma letter_not_newline i : 0 <= i < 64 -> newline (letter i) = false.
Proof.
  intro H. unfold newline. destruct (Z.eqb_spec (letter i) 10) as [E|E]; [|destruct (Z.eqb_spec (letter i) 13) as [E'|E']; [|reflexivity]];
  pose proof (sextet_letter i H) as S; [rewrite E in S|rewrite E' in S]; discriminate.
Qed.

Lemma quanta_spells u b : spells u b -> quanta u = Some b.
Proof.
  induction 1 as [|x e|x y e|x y z t b Hx Hy Hz Ht IH]; [reflexivity|..]; cbn [quanta]; rewrite !sextet_letter by lia.
  - rewrite Z.eqb_refl. unfold byte1. do 2 f_equal. lia.
  - rewrite letter_not_pad by lia. rewrite Z.eqb_refl. unfold byte1, byte2. f_equal. f_equal; [lia|f_equal; lia].
  - rewrite !letter_not_pad by lia. rewrite IH. unfold byte1, byte2, byte3. f_equal. f_equal; [lia|f_equal; [lia|f_equal; lia]].
Qed.
Lemma four_ind (P : list Z -> Prop) : (forall l, (length l < 4)%nat -> P l) -> (forall a b c d r, P r -> P (a :: b :: c :: d :: r)) -> forall l, P l.
Proof.
  intros B S l. assert (forall n l, (length l <= n)%nat -> P l) as G; [|exact (G _ l (le_n _))]. clear l. induction n as [|n IH]; intros l H.
  - apply B. lia.
  - destruct l as [|a [|b [|c [|d r]]]]; try (apply B; cbn [length]; lia). apply S, IH. cbn [length] in H. lia.
Qed.
Lemma spells_quanta u b : quanta u = Some b -> spells u b.
Proof.
  revert b. induction u as [u Hs|a b0 c d r IH] using four_ind; intros b H.
  - destruct u as [|a [|b0 [|c [|d r]]]]; cbn [length] in Hs; try lia; cbn [quanta] in H; try discriminate. assert (b = []) as -> by congruence. constructor.
  - cbn [quanta] in H. destruct (sextet a) as [x|] eqn:A; [|discriminate]. destruct (sextet b0) as [y|] eqn:B; [|discriminate].
    apply letter_sextet in A as [Ax ->]. apply letter_sextet in B as [By ->]. destruct (Z.eqb_spec c pad) as [->|Nc].
    + destruct (Z.eqb_spec d pad) as [->|Nd]; [|discriminate]. destruct r; [|discriminate]. assert (b = [byte1 x y]) as -> by congruence.
      unfold byte1. pose proof (sp_one (x * 4 + y / 16) (y mod 16) ltac:(lia) ltac:(lia)) as Sp.
      replace ((x * 4 + y / 16) / 4) with x in Sp by lia. replace ((x * 4 + y / 16) mod 4 * 16 + y mod 16) with y in Sp by lia. exact Sp.
    + destruct (sextet c) as [z|] eqn:C; [|discriminate]. apply letter_sextet in C as [Cz ->]. destruct (Z.eqb_spec d pad) as [->|Nd].
      * destruct r; [|discriminate]. assert (b = [byte1 x y; byte2 y z]) as -> by congruence. unfold byte1, byte2.
        pose proof (sp_two (x * 4 + y / 16) (y mod 16 * 16 + z / 4) (z mod 4) ltac:(lia) ltac:(lia) ltac:(lia)) as Sp.
        replace ((x * 4 + y / 16) / 4) with x in Sp by lia. replace ((x * 4 + y / 16) mod 4 * 16 + (y mod 16 * 16 + z / 4) / 16) with y in Sp by lia.
        replace ((y mod 16 * 16 + z / 4) mod 16 * 4 + z mod 4) with z in Sp by lia. exact Sp.
      * destruct (sextet d) as [w|] eqn:D; [|discriminate]. apply letter_sextet in D as [Dw ->]. destruct (quanta r) as [s|] eqn:Q; [|discriminate].
        assert (b = byte1 x y :: byte2 y z :: byte3 z w :: s) as -> by congruence. unfold byte1, byte2, byte3.
        pose proof (sp_three (x * 4 + y / 16) (y mod 16 * 16 + z / 4) (z mod 4 * 64 + w) r s ltac:(lia) ltac:(lia) ltac:(lia) (IH s eq_refl)) as Sp.
        replace ((x * 4 + y / 16) / 4) with x in Sp by lia. replace ((x * 4 + y / 16) mod 4 * 16 + (y mod 16 * 16 + z / 4) / 16) with y in Sp by lia.
        replace ((y mod 16 * 16 + z / 4) mod 16 * 4 + (z mod 4 * 64 + w) / 64) with z in Sp by lia. replace ((z mod 4 * 64 + w) mod 64) with w in Sp by lia. exact Sp.
Qed.
Lemma broken_filter t u : broken t u <-> u = filter (fun c => negb (newline c)) t.
Proof.
  split.
  - induction 1 as [|c t u H B ->|c t u H1 H2 B ->]; [reflexivity|..]; cbn [filter]; unfold newline.
    + destruct H as [-> | ->]; reflexivity.
    + destruct (Z.eqb_spec c 10); [contradiction|]. destruct (Z.eqb_spec c 13); [contradiction|]. reflexivity.
  - intros ->. induction t as [|c t IH]; [constructor|]. cbn [filter]. unfold newline at 1. destruct (Z.eqb_spec c 10); [cbn [negb orb]; apply br_end; auto|].
    destruct (Z.eqb_spec c 13); [cbn [negb orb]; apply br_end; auto|]. cbn [negb orb]. apply br_keep; auto.
Qed.
Lemma decode_reads t b : decode t = Some b <-> reads_as t b.
Proof.
  unfold decode, reads_as. split.
  - intro H. exists (filter (fun c => negb (newline c)) t). split; [apply broken_filter; reflexivity|apply spells_quanta; exact H].
  - intros (u & B & S). apply broken_filter in B. subst u. apply quanta_spells. exact S.
Qed.
Lemma three_ind (P : list Z -> Prop) : P [] -> (forall x, P [x]) -> (forall x y, P [x; y]) -> (forall x y z r, P r -> P (x :: y :: z :: r)) -> forall l, P l.
Proof.
  intros P0 P1 P2 P3 l. assert (forall n l, (length l <= n)%nat -> P l) as G; [|exact (G _ l (le_n _))]. clear l. induction n as [|n IH]; intros l H.
  - destruct l; [exact P0|cbn [length] in H; lia].
  - destruct l as [|x [|y [|z r]]]; auto. apply P3, IH. cbn [length] in H. lia.
Qed.
Lemma encode_spells b : bytes b -> spells (encode b) b.
Proof.
  induction b as [|x|x y|x y z r IH] using three_ind; intro H; cbn [encode]; [constructor|..].
  - apply Forall_inv in H. pose proof (sp_one x 0 H ltac:(lia)) as S. rewrite Z.add_0_r in S. exact S.
  - pose proof (Forall_inv H) as Hx. pose proof (Forall_inv (Forall_inv_tail H)) as Hy. pose proof (sp_two x y 0 Hx Hy ltac:(lia)) as S. rewrite (Z.add_0_r (y mod 16 * 4)) in S. exact S.
  - pose proof (Forall_inv H) as Hx. pose proof (Forall_inv (Forall_inv_tail H)) as Hy. pose proof (Forall_inv (Forall_inv_tail (Forall_inv_tail H))) as Hz.
    apply sp_three; auto. apply IH. exact (Forall_inv_tail (Forall_inv_tail (Forall_inv_tail H))).
Qed.
Lemma spells_no_newline u b : spells u b -> Forall (fun c => newline c = false) u.
Proof.
  induction 1 as [|x e|x y e|x y z t b Hx Hy Hz Ht IH]; repeat apply Forall_cons; try apply Forall_nil; try (apply letter_not_newline; lia); try reflexivity. exact IH.
Qed.
Lemma spells_reads u b : spells u b -> reads_as u b.
Proof.
  intro S. exists u. split; [|exact S]. apply broken_filter. apply spells_no_newline in S. induction S as [|c u H F IH]; [reflexivity|]. cbn [filter]. rewrite H. cbn [negb]. congruence.
Qed.
Lemma encode_reads b : bytes b -> reads_as (encode b) b.
Proof. intro H. apply spells_reads, encode_spells, H. Qed.
Lemma spells_length u b : spells u b -> Z.of_nat (length u) = 4 * ((Z.of_nat (length b) + 2) / 3).
Proof. induction 1 as [|x e|x y e|x y z t b Hx Hy Hz Ht IH]; cbn [length]; [reflexivity..|]. lia. Qed.
Lemma filter_shorter {A} (f : A -> bool) l : (length (filter f l) <= length l)%nat.
Proof. induction l as [|a l IH]; cbn [filter length]; [lia|]. destruct (f a); cbn [length]; lia. Qed.
Lemma reads_length t b : reads_as t b -> 4 * ((Z.of_nat (length b) + 2) / 3) <= Z.of_nat (length t).
Proof.
  intros (u & B & S). apply spells_length in S. apply broken_filter in B. pose proof (filter_shorter (fun c => negb (newline c)) t) as L. rewrite <- B in L. lia.
Qed.
Lemma reads_unique t b b' : reads_as t b -> reads_as t b' -> b = b'.
Proof. rewrite <- !decode_reads. congruence. Qed.

Lemma limit_room m : 0 <= m < 2 ^ 61 -> text_limit m = room m.
Proof.
  intro H. unfold text_limit, room, to_int. rewrite (Z.mod_small (m + 2 ^ 63)) by lia. replace (m + 2 ^ 63 - 2 ^ 63) with m by lia.
  rewrite Z.mod_small by lia. replace (m * 4 + 2 ^ 63 - 2 ^ 63) with (4 * m) by lia. apply Z.quot_div_nonneg; lia.
Qed.

Lemma starts_app p t : starts p t = true -> exists r, t = p ++ r.
Proof.
  revert t. induction p as [|a p IH]; intros t H; [exists t; reflexivity|]. destruct t as [|b t]; [discriminate|]. cbn [starts] in H.
  apply andb_prop in H as [E H]. apply Z.eqb_eq in E. subst b. destruct (IH t H) as (r & ->). exists r. reflexivity.
Qed.
Lemma trim_decoded t b : decode t = Some b -> trim t = t.
Proof.
  intro D. unfold trim. destruct (starts data_prefix t) eqn:St; [|reflexivity]. apply starts_app in St as (r & ->). unfold decode in D. rewrite filter_app in D.
  cbn in D. discriminate.
Qed.

Section Run.
Variable sha : list Z -> Z.
Variable png : list Z -> option (Z * Z).

Lemma validate_spec s t : 0 <= l_max s < 2 ^ 61 ->
  (validate png s t = true <-> Z.of_nat (length t) <= room (l_max s) /\ exists b, reads_as t b /\ png b = Some (200, 200)).
Proof.
  clear sha. intro M. unfold validate. rewrite limit_room by exact M. destruct (Z.ltb_spec (room (l_max s)) (Z.of_nat (length t))) as [L|L].
  - split; [discriminate|]. intros [H _]. lia.
  - destruct (decode t) as [b|] eqn:D.
    + apply decode_reads in D. split.
      * intro H. split; [exact L|]. exists b. split; [exact D|]. destruct (png b) as [[w h]|]; [|discriminate]. do 2 f_equal; lia.
      * intros (_ & b' & R & P). rewrite (reads_unique _ _ _ D R), P. reflexivity.
    + split; [discriminate|]. intros (_ & b & R & _). apply decode_reads in R. congruence.
Qed.

(* the invariant *)
Definition good (m : Z) (s : state) : Prop := 0 <= l_max s <= m /\ zsorted (l_logos s) /\ forall k g, zget (l_logos s) k = Some g -> fine sha png m k g.
Lemma stored_fine m s h t : m < 2 ^ 61 -> 0 <= l_max s <= m -> validate png s t = true -> fine sha png m (sha t) (mk_logo (sha t) t h).
Proof.
  intros M L V. apply validate_spec in V as (Len & b & R & P); [|lia]. split; [reflexivity|]. split; [reflexivity|]. exists b. cbn [g_data]. split; [exact R|]. split; [exact P|].
  apply reads_length in R. unfold room in Len. lia.
Qed.
Lemma store_good m s h t s' k : m < 2 ^ 61 -> good m s -> store_logo sha png s h t = Ok (s', k) -> good m s' /\ k = sha t /\
  l_max s' = l_max s /\ l_logos s' = zset (l_logos s) (sha t) (mk_logo (sha t) t (Some h)).
Proof.
  intros M (L & So & G) H. unfold store_logo in H. destruct (validate png s t) eqn:V; [|discriminate].
  assert (s' = set_logo s (mk_logo (sha t) t (Some h))) as -> by congruence. assert (k = sha t) as -> by congruence. repeat match goal with |- _ /\ _ => split end; try reflexivity.
  split; [exact L|]. split.
  - cbn [set_logo l_logos]. apply zset_sorted, So.
  - intros k g E. cbn [set_logo l_logos g_hash] in E. rewrite zget_zset in E. destruct (Z.eqb_spec (sha t) k) as [<-|N]; [|apply G; exact E].
    assert (g = mk_logo (sha t) t (Some h)) as -> by congruence. apply (stored_fine m s); auto.
Qed.
(* what one step does to the logos: nothing, or it puts one under its hash *)
Lemma next_cases s o : (l_logos (next sha png s o) = l_logos s) \/
  exists h t, validate png s t = true /\ next sha png s o = set_logo s (mk_logo (sha t) t (Some h)).
Proof.
  unfold next, step. destruct o as [h ok t|h t|a x].
  - destruct ok; [|left; reflexivity]. unfold store_logo. destruct (validate png s t) eqn:V; [|left; reflexivity]. right. exists h, t. auto.
  - destruct t as [|c t]; [left; reflexivity|]. unfold store_logo. destruct (validate png s (c :: t)) eqn:V; [|left; reflexivity]. right. exists h, (c :: t). auto.
  - left. destruct a; reflexivity.
Qed.
Lemma next_max s o m : 0 <= l_max s <= m -> match o with SetMax true x => 0 <= x <= m | _ => True end -> 0 <= l_max (next sha png s o) <= m.
Proof.
  intros L H. unfold next, step. destruct o as [h ok t|h t|[] x]; try exact L; try exact H.
  - destruct ok; [|exact L]. unfold store_logo. destruct (validate png s t); exact L.
  - destruct t as [|c t]; [exact L|]. unfold store_logo. destruct (validate png s (c :: t)); exact L.
Qed.
Lemma next_good m s o : m < 2 ^ 61 -> good m s -> match o with SetMax true x => 0 <= x <= m | _ => True end -> good m (next sha png s o).
Proof.
  intros M (L & So & G) H. split; [apply next_max; assumption|]. destruct (next_cases s o) as [E|(h & t & V & E)].
  - rewrite E. auto.
  - rewrite E. cbn [set_logo l_logos g_hash]. split; [apply zset_sorted, So|]. intros k g Eg. rewrite zget_zset in Eg. destruct (Z.eqb_spec (sha t) k) as [<-|N]; [|apply G; exact Eg].
    assert (g = mk_logo (sha t) t (Some h)) as -> by congruence. apply (stored_fine m s); auto.
Qed.
Lemma run_good m os s : m < 2 ^ 61 -> good m s -> limits_within m os -> good m (run sha png s os).
Proof.
  intros M G W. revert s G. induction W as [|o os H W IH]; intros s G; cbn [run fold_left]; [exact G|]. apply IH, next_good; assumption.
Qed.
(* a text once stored stays *)
Definition holds (s : state) (t : list Z) : Prop := exists g, zget (l_logos s) (sha t) = Some g /\ g_data g = t.
Lemma next_holds s o t : (forall a b, sha a = sha b -> a = b) -> holds s t -> holds (next sha png s o) t.
Proof.
  intros Inj (g & G & D). destruct (next_cases s o) as [E|(h & t' & V & E)]; unfold holds; rewrite E; [eauto|]. cbn [set_logo l_logos g_hash]. rewrite zget_zset.
  destruct (Z.eqb_spec (sha t') (sha t)) as [Q|N]; [|eauto]. apply Inj in Q. subst t'. eexists. split; [reflexivity|reflexivity].
Qed.
Lemma run_holds os s t : (forall a b, sha a = sha b -> a = b) -> holds s t -> holds (run sha png s os) t.
Proof. intros Inj. revert s. induction os as [|o os IH]; intros s H; cbn [run fold_left]; [exact H|]. apply IH, next_holds; assumption. Qed.
End Run.

(* ---- genesis ---- *)
Lemma fold_logos l s : l_max (fold_left set_logo l s) = l_max s /\ (zsorted (l_logos s) -> zsorted (l_logos (fold_left set_logo l s))) /\
  forall (P : Z -> logo -> Prop), (forall k g, zget (l_logos s) k = Some g -> P k g) -> Forall (fun g => P (g_hash g) g) l ->
  forall k g, zget (l_logos (fold_left set_logo l s)) k = Some g -> P k g.
Proof.
  revert s. induction l as [|x l IH]; intro s; cbn [fold_left]; [auto|]. destruct (IH (set_logo s x)) as (E & So & G). split; [exact E|]. split.
  - intro H. apply So. cbn [set_logo l_logos]. apply zset_sorted, H.
  - intros P H F. apply G; [|exact (Forall_inv_tail F)]. intros k g. cbn [set_logo l_logos]. rewrite zget_zset. destruct (Z.eqb_spec (g_hash x) k) as [<-|N]; [|apply H].
    intro Q. assert (g = x) as -> by congruence. exact (Forall_inv F).
Qed.
Lemma zset_last {V} (m : list (Z * V)) k v : Forall (fun q => q < k) (zkeys m) -> zset m k v = m ++ [(k, v)].
Proof.
  induction m as [|[q w] m IH]; intro F; [reflexivity|]. cbn [zkeys map fst] in F. pose proof (Forall_inv F) as L. cbn beta in L. cbn [zset app].
  destruct (Z.ltb_spec k q); [lia|]. destruct (Z.eqb_spec q k); [lia|]. rewrite IH by exact (Forall_inv_tail F). reflexivity.
Qed.

(* every reachable store is ordered and has each logo under its own hash *)
Definition keyed (s : state) : Prop := zsorted (l_logos s) /\ forall k g, zget (l_logos s) k = Some g -> g_hash g = k.
Lemma init_keyed n s : init n = Ok s -> keyed s.
Proof.
  unfold init. destruct (n_max n) as [x|]; [|discriminate]. intro H. assert (s = fold_left set_logo (n_logos n) (mk_state x [])) as -> by congruence.
  destruct (fold_logos (n_logos n) (mk_state x [])) as (_ & So & P). split; [apply So; constructor|]. apply (P (fun k g => g_hash g = k)); [discriminate|].
  rewrite Forall_forall. reflexivity.
Qed.
Lemma run_keyed sha png os s : keyed s -> keyed (run sha png s os).
Proof.
  revert s. induction os as [|o os IH]; intros s H; cbn [run fold_left]; [exact H|]. apply IH. destruct H as [So G]. destruct (next_cases sha png s o) as [E|(h & t & _ & E)]; unfold keyed; rewrite E; [auto|].
  cbn [set_logo l_logos g_hash]. split; [apply zset_sorted, So|]. intros k g Eg. rewrite zget_zset in Eg. destruct (Z.eqb_spec (sha t) k) as [<-|N]; [|apply G; exact Eg].
  assert (g = mk_logo (sha t) t (Some h)) as -> by congruence. reflexivity.
Qed.
