(* The repair of wrongly stored data. *)
From Coq Require Import Sorting.Sorted.
From Verif Require Import Lib.Base Lib.Bytes Lib.Codec Versiondb.Model Versiondb.Spec Versiondb.Proofs Versiondb.History Versiondb.Iterate.
Open Scope Z_scope.

Lemma beqb_true a b : beqb a b = true -> a = b.
Proof. intros E. apply beqb_spec. exact E. Qed.

Lemma db_unique db a b : db_ok db -> In a db -> In b db -> same_at a b -> a = b.
Proof.
  intros [S _] Ha Hb E. induction S as [|x r S IH F]; [destruct Ha|]. rewrite Forall_forall in F.
  destruct Ha as [->|Ha], Hb as [->|Hb]; auto.
  - specialize (F b Hb). destruct (elt_irrefl _ _ F E).
  - specialize (F a Ha). destruct E as [E1 E2]. destruct (elt_irrefl _ _ F). split; auto.
Qed.

Lemma puts_functional es db x : db_ok db -> Forall ent_ok es -> (forall a b, In a es -> In b es -> same_at a b -> a = b) ->
  (In x (puts db es) <-> In x es \/ (In x db /\ forall e, In e es -> ~ same_at e x)).
Proof.
  intros H F U. rewrite puts_in by assumption. unfold last_write. split.
  - intros [E|[E Hx]].
    + apply find_some in E. left. apply in_rev. apply E.
    + right. split; [exact Hx|]. intros e He [A B]. apply in_rev in He. apply (find_none _ _ E) in He.
      assert (same_atb (e_key x) (e_ts x) e = true) by (apply same_atb_iff; auto). congruence.
  - intros [Hx|[Hx N]].
    + left. destruct (find (same_atb (e_key x) (e_ts x)) (rev es)) as [y|] eqn:E.
      * pose proof (find_some _ _ E) as [Hy Ty]. apply in_rev in Hy. apply same_atb_iff in Ty. f_equal. apply U; auto.
      * apply in_rev in Hx. apply (find_none _ _ E) in Hx. assert (same_atb (e_key x) (e_ts x) x = true) by (apply same_atb_iff; auto). congruence.
    + right. split; [|exact Hx]. destruct (find (same_atb (e_key x) (e_ts x)) (rev es)) as [y|] eqn:E; [|reflexivity].
      pose proof (find_some _ _ E) as [Hy Ty]. apply in_rev in Hy. apply same_atb_iff in Ty. destruct (N y Hy Ty).
Qed.

Lemma le8_inj a b t u : 0 <= t < U64 -> 0 <= u < U64 -> a ++ le 8 t = b ++ le 8 u -> a = b /\ t = u.
Proof.
  intros T U E. assert (X : a = b). { apply (f_equal cut) in E. rewrite !cut_app in E by apply le_length. exact E. }
  split; [exact X|]. subst b. apply app_inv_head in E. apply (f_equal unle) in E. rewrite !unle8 in E by assumption. exact E.
Qed.

Definition parsed (x : item) : bytes * Z * bytes := (cut (i_key x), unle (tail8 (i_key x)), i_val x).
Lemma parse_ok l : (forall x, In x l -> i_ts x = 0 /\ exists k t, i_key x = k ++ le 8 t) -> parse_wrong l = Ok (map parsed l).
Proof.
  induction l as [|x r IH]; intros H; [reflexivity|]. cbn [parse_wrong map]. destruct (H x (or_introl eq_refl)) as (E & k & t & K). rewrite E. cbn [Z.eqb negb].
  assert ((length (i_key x) <? 8)%nat = false) as ->. { apply Nat.ltb_ge. rewrite K, app_length, le_length. lia. }
  rewrite IH by (intros y Hy; apply H; right; exact Hy). reflexivity.
Qed.

Lemma newest_zero db k e : db_ok db -> (newest db k 0 = Some e <-> In e db /\ e_key e = k /\ e_ts e = 0).
Proof.
  intros H. rewrite newest_spec by exact H. destruct H as [_ F]. rewrite Forall_forall in F. split.
  - intros (A & B & C & _). split; [exact A|]. split; [exact B|]. pose proof (F e A) as [X _]. lia.
  - intros (A & B & C). split; [exact A|]. split; [exact B|]. split; [lia|]. intros d Hd _ L. lia.
Qed.

Lemma get_said s n k t : db_ok (s_db s) -> 0 <= t < U64 -> get_at false s n k (Some t) = said (s_db s) n k t.
Proof.
  intros H T. rewrite get_at_said; [|exact H|auto]. cbn [read_ts]. unfold u64. rewrite Z.mod_small by exact T. reflexivity.
Qed.
Lemma clean_shows s n k t v : db_ok (s_db s) -> 0 <= t < U64 -> (clean s n (k, t, v) = true <-> shows s n k t v).
Proof.
  intros H T. unfold clean, shows. rewrite get_said by assumption. unfold said. rewrite db_get_newest by assumption.
  destruct (newest (s_db s) (store_prefix n ++ k) t) as [d|]; [destruct (e_val d) as [o|]|].
  - split; [intros E; left; f_equal; apply beqb_true; exact E|intros [E|[E _]]; [injection E as ->; apply beqb_refl|discriminate]].
  - split; [intros E; right; split; [reflexivity|symmetry; apply beqb_true; exact E]|intros [E|[_ ->]]; [discriminate|reflexivity]].
  - split; [intros E; right; split; [reflexivity|symmetry; apply beqb_true; exact E]|intros [E|[_ ->]]; [discriminate|reflexivity]].
Qed.

Lemma fix_ok s n : db_ok (s_db s) -> only_misplaced s n ->
  exists s', fix_store s n = Ok s' /\ db_ok (s_db s') /\ s_latest s' = s_latest s /\
    (forall e, In e (s_db s') <-> (exists k t v, misplaced s n k t v /\ ~ shows s n k t v /\ e = right_entry n (k, t, v)) \/
        (In e (s_db s) /\ forall k t v, misplaced s n k t v -> ~ shows s n k t v -> ~ (e_key e = store_prefix n ++ k /\ e_ts e = t))) /\
    ((forall k t v, misplaced s n k t v -> shows s n k t v) -> s' = s).
Proof.
  intros H O. unfold fix_store.
  destruct (iterate_said false s n None None (Some 0) false H eq_refl eq_refl) as (l & E & S & M). change (Ok _) with (Ok l) in E. rewrite E. cbn [rbind].
  assert (L : forall x, In x l <-> In (mk_entry (store_prefix n ++ i_key x) 0 (Some (i_val x))) (s_db s) /\ i_ts x = 0).
  { intros x. rewrite M. change (read_ts (Some 0)) with 0. rewrite newest_zero by exact H. cbn [e_key e_ts]. split.
    - intros (_ & _ & A & _ & B). rewrite B in A. auto.
    - intros [A B]. split; [split; exact Logic.I|]. split; [discriminate|]. rewrite B. auto. }
  assert (P : forall x, In x l -> i_ts x = 0 /\ exists k t, i_key x = k ++ le 8 t /\ 0 < t < U64).
  { intros x Hx. apply L in Hx. destruct Hx as [A B]. split; [exact B|]. apply (O _ (i_key x) (i_val x) A); reflexivity. }
  rewrite parse_ok by (intros x Hx; destruct (P x Hx) as (A & k & t & B & _); eauto). cbn [rbind].
  assert (W : forall k t v, In (k, t, v) (map parsed l) <-> misplaced s n k t v).
  { intros k t v. rewrite in_map_iff. split.
    - intros (x & Ex & Hx). destruct (P x Hx) as (_ & k' & t' & B & T). apply L in Hx. destruct Hx as [Hx _]. unfold parsed in Ex. rewrite B in Ex.
      rewrite cut_app, tail8_app, unle8 in Ex by (auto using le_length; unfold ts_ok; lia). injection Ex as <- <- <-. split; [exact T|].
      unfold wrong_entry. rewrite B in Hx. exact Hx.
    - intros [T Hx]. exists (mk_item (k ++ le 8 t) v 0). split; [|apply L; cbn [i_key i_val i_ts]; auto].
      unfold parsed. cbn [i_key i_val]. rewrite cut_app, tail8_app, unle8 by (auto using le_length; unfold ts_ok, U64; lia). reflexivity. }
  set (ws := filter (fun w => negb (clean s n w)) (map parsed l)).
  assert (W' : forall k t v, In (k, t, v) ws <-> misplaced s n k t v /\ ~ shows s n k t v).
  { intros k t v. unfold ws. rewrite filter_In, W. split; intros [A B]; (split; [exact A|]); destruct A as [T _].
    - rewrite <- clean_shows by (auto; unfold U64; lia). destruct (clean s n (k, t, v)); [discriminate B|discriminate].
    - rewrite <- clean_shows in B by (auto; unfold U64; lia). destruct (clean s n (k, t, v)); [destruct (B eq_refl)|reflexivity]. }
  assert (D : fold_left (fun db w => let '(k, t, v) := w in put db (mk_entry (store_prefix n ++ k) t (Some v))) ws (s_db s) = puts (s_db s) (map (right_entry n) ws)).
  { generalize (s_db s). clear. induction ws as [|[[k t] v] r IH]; intros db; [reflexivity|]. cbn. apply IH. }
  rewrite D. assert (F : Forall ent_ok (map (right_entry n) ws)).
  { apply Forall_forall. intros e He. apply in_map_iff in He. destruct He as ([[k t] v] & <- & Hw). apply W' in Hw. destruct Hw as [[T _] _]. unfold ent_ok, ts_ok. cbn. unfold U64. lia. }
  assert (Fu : forall a b, In a (map (right_entry n) ws) -> In b (map (right_entry n) ws) -> same_at a b -> a = b).
  { intros a b Ha Hb. apply in_map_iff in Ha, Hb. destruct Ha as ([[k t] v] & <- & Ha). destruct Hb as ([[k' t'] v'] & <- & Hb).
    intros [E1 E2]. cbn [right_entry e_key e_ts] in E1, E2. apply app_inv_head in E1. subst k' t'. apply W' in Ha, Hb. destruct Ha as [[_ Ha] _]. destruct Hb as [[_ Hb] _].
    assert (X : wrong_entry n (k, t, v) = wrong_entry n (k, t, v')) by (apply (db_unique (s_db s)); auto; split; reflexivity).
    assert (Some v = Some v') as Y by exact (f_equal e_val X). injection Y as ->. reflexivity. }
  eexists. split; [reflexivity|]. cbn [s_db s_latest]. split; [apply puts_ok; assumption|]. split; [reflexivity|]. split.
  - intros e. rewrite (puts_functional _ _ e H F Fu), in_map_iff. split.
    + intros [([[k t] v] & <- & Hw)|[He N]].
      * left. exists k, t, v. apply W' in Hw. destruct Hw. auto.
      * right. split; [exact He|]. intros k t v Mi Sh [X Y]. apply (N (right_entry n (k, t, v))); [apply in_map; apply W'; auto|]. split; cbn; auto.
    + intros [(k & t & v & Mi & Sh & ->)|[He N]].
      * left. exists (k, t, v). split; [reflexivity|apply W'; auto].
      * right. split; [exact He|]. intros e' He' [X Y]. apply in_map_iff in He'. destruct He' as ([[k t] v] & <- & Hw). apply W' in Hw. destruct Hw as [Mi Sh].
        apply (N k t v Mi Sh). cbn in X, Y. auto.
  - intros A. assert (ws = []) as ->. { destruct ws as [|[[k t] v] r]; [reflexivity|]. exfalso. destruct (proj1 (W' k t v) (or_introl eq_refl)) as [Mi Sh]. exact (Sh (A k t v Mi)). }
    destruct s; reflexivity.
Qed.

(* entries at version 0 stay *)
Lemma fix_zero s n s' : db_ok (s_db s) -> only_misplaced s n -> fix_store s n = Ok s' -> forall e, e_ts e = 0 -> (In e (s_db s') <-> In e (s_db s)).
Proof.
  intros H O E e Z. destruct (fix_ok s n H O) as (s1 & E1 & _ & _ & M & _). rewrite E1 in E. injection E as <-. rewrite M. split.
  - intros [(k & t & v & [T _] & _ & ->)|[A _]]; [cbn in Z; lia|exact A].
  - intros A. right. split; [exact A|]. intros k t v [T _] _ [_ X]. lia.
Qed.
Lemma fix_misplaced s n s' : db_ok (s_db s) -> only_misplaced s n -> fix_store s n = Ok s' -> forall k t v, misplaced s' n k t v <-> misplaced s n k t v.
Proof. intros H O E k t v. unfold misplaced. rewrite (fix_zero s n s' H O E) by reflexivity. reflexivity. Qed.
Lemma fix_only s n s' : db_ok (s_db s) -> only_misplaced s n -> fix_store s n = Ok s' -> only_misplaced s' n.
Proof. intros H O E d r v Hd Z K V. apply (O d r v); auto. apply (fix_zero s n s' H O E); assumption. Qed.

(* one run: what is not shown is then; what is shown stays if the earlier ones were *)
Lemma fix_shows s n s' k t v : db_ok (s_db s) -> only_misplaced s n -> fix_store s n = Ok s' -> misplaced s n k t v ->
  shows s' n k t v \/ (shows s n k t v /\ exists t' v', misplaced s n k t' v' /\ t' < t /\ ~ shows s n k t' v').
Proof.
  intros H O E Mi. destruct (fix_ok s n H O) as (s1 & E1 & H' & _ & M & _). rewrite E1 in E. injection E as <-.
  pose proof Mi as [T _]. assert (T' : 0 <= t < U64) by (unfold U64; lia).
  destruct (clean s n (k, t, v)) eqn:C.
  - apply clean_shows in C; [|assumption|assumption].
    assert (D : (exists t' v', misplaced s n k t' v' /\ t' < t /\ ~ shows s n k t' v') \/ ~ exists t' v', misplaced s n k t' v' /\ t' < t /\ ~ shows s n k t' v').
    { set (f := fun e : entry => (e_ts e =? 0) && beqb (cut (e_key e)) (store_prefix n ++ k) && (0 <? unle (tail8 (e_key e))) && (unle (tail8 (e_key e)) <? t) &&
        beqb (ikey (mk_entry (cut (e_key e)) (unle (tail8 (e_key e))) None)) (e_key e) &&
        match e_val e with Some x => negb (clean s n (k, unle (tail8 (e_key e)), x)) | None => false end).
      destruct (existsb f (s_db s)) eqn:B.
      - left. apply existsb_exists in B. destruct B as (e & He & F). unfold f in F. repeat (apply andb_true_iff in F; destruct F as [F ?]).
        destruct (e_val e) as [x|] eqn:V; [|discriminate]. set (t' := unle (tail8 (e_key e))) in *.
        exists t', x. assert (0 < t' < U64) by (unfold U64; lia). split; [|split].
        + split; [unfold U64 in *; lia|]. destruct e as [ek et ev]. cbn [e_key e_ts e_val] in *. unfold wrong_entry. apply Z.eqb_eq in F. subst et ev.
          assert (X : cut ek = store_prefix n ++ k) by (apply beqb_true; assumption). unfold ikey in *. cbn [e_key e_ts] in *. assert (Y : cut ek ++ le 8 t' = ek) by (apply beqb_true; assumption).
          rewrite app_assoc, <- X, Y. exact He.
        + lia.
        + rewrite <- clean_shows by (auto; lia). destruct (clean s n (k, t', x)); discriminate.
      - right. intros (t' & v' & [T2 X] & L & N). rewrite <- Bool.not_true_iff_false in B. apply B. apply existsb_exists. eexists. split; [exact X|].
        unfold f, wrong_entry. cbn [e_key e_ts e_val]. rewrite app_assoc, cut_app, tail8_app, unle8 by (auto using le_length; unfold ts_ok, U64; lia).
        unfold ikey. cbn [e_key e_ts]. rewrite !beqb_refl. rewrite <- clean_shows in N by (auto; unfold U64; lia). destruct (clean s n (k, t', v')); [destruct (N eq_refl)|].
        cbn. rewrite !andb_true_r. lia. }
    destruct D as [D|D]; [right; auto|left].
    assert (Ne : newest (s_db s1) (store_prefix n ++ k) t = newest (s_db s) (store_prefix n ++ k) t).
    { assert (I : forall d, e_key d = store_prefix n ++ k -> e_ts d <= t -> (In d (s_db s1) <-> In d (s_db s))).
      { intros d Kd Td. rewrite M. split.
        - intros [(k' & t' & v' & Mi' & Sh & ->)|[A _]]; [|exact A]. exfalso. cbn [right_entry e_key e_ts] in Kd, Td. apply app_inv_head in Kd. subst k'.
          destruct (Z.eq_dec t' t) as [->|Nt].
          + destruct Mi as [_ A1], Mi' as [_ A2]. pose proof (db_unique (s_db s) _ _ H A1 A2 (conj eq_refl eq_refl)) as X. apply (f_equal e_val) in X. injection X as ->. auto.
          + apply D. exists t', v'. split; [exact Mi'|]. split; [lia|exact Sh].
        - intros A. right. split; [exact A|]. intros k' t' v' Mi' Sh [X Y]. rewrite Kd in X. apply app_inv_head in X. subst k'.
          destruct (Z.eq_dec t' t) as [->|Nt].
          + destruct Mi as [_ A1], Mi' as [_ A2]. pose proof (db_unique (s_db s) _ _ H A1 A2 (conj eq_refl eq_refl)) as X. apply (f_equal e_val) in X. injection X as ->. auto.
          + apply D. exists t', v'. split; [exact Mi'|]. split; [lia|exact Sh]. }
      destruct (newest (s_db s) (store_prefix n ++ k) t) as [d|] eqn:N1.
      - apply newest_spec in N1; [|exact H]. apply newest_spec; [exact H'|]. destruct N1 as (A1 & A2 & A3 & A4). split; [apply I; auto|]. split; [exact A2|]. split; [exact A3|].
        intros d' Hd' K' T2. apply A4; auto. apply I; auto.
      - apply newest_none. intros d Hd Kd. destruct (Z.le_gt_cases (e_ts d) t) as [Ld|]; [|lia]. apply I in Hd; auto. apply (proj1 (newest_none _ _ _) N1 d Hd Kd). }
    unfold shows in *. rewrite get_said in * by assumption. unfold said in *. rewrite Ne. exact C.
  - left. left. assert (Sh : ~ shows s n k t v) by (rewrite <- clean_shows by assumption; rewrite C; discriminate).
    rewrite get_said by assumption. unfold said. assert (newest (s_db s1) (store_prefix n ++ k) t = Some (right_entry n (k, t, v))) as ->; [|reflexivity].
    apply newest_spec; [exact H'|]. split; [apply M; left; eauto 10|]. split; [reflexivity|]. split; [cbn; lia|]. intros d _ _ L. cbn. lia.
Qed.

(* how many misplaced writes of k are older than t *)
Definition older (s : st) (n k : bytes) (t : Z) (e : entry) : bool :=
  (e_ts e =? 0) && beqb (cut (e_key e)) (store_prefix n ++ k) && (unle (tail8 (e_key e)) <? t) && match e_val e with Some _ => true | None => false end.
Definition rank (s : st) (n k : bytes) (t : Z) : nat := length (filter (older s n k t) (s_db s)).
Lemma filter_lt {A} (f g : A -> bool) l : (forall x, f x = true -> g x = true) -> (exists x, In x l /\ g x = true /\ f x = false) -> (length (filter f l) < length (filter g l))%nat.
Proof.
  intros I (x & Hx & G & F). assert (LE : forall l, (length (filter f l) <= length (filter g l))%nat).
  { intros l0. induction l0 as [|a r IH]; [cbn; lia|]. cbn. destruct (f a) eqn:Fa; [rewrite (I a Fa); cbn; lia|destruct (g a); cbn; lia]. }
  induction l as [|a r IH]; [destruct Hx|]. destruct Hx as [->|Hx].
  - cbn. rewrite G, F. specialize (LE r). cbn. lia.
  - specialize (IH Hx). cbn. destruct (f a) eqn:Fa; [rewrite (I a Fa); cbn; lia|destruct (g a); cbn; lia].
Qed.
Lemma rank_lt s n k t t' v' : misplaced s n k t' v' -> t' < t -> (rank s n k t' < rank s n k t)%nat.
Proof.
  intros [T X] L. apply filter_lt.
  - intros x F. unfold older in *. repeat (apply andb_true_iff in F; destruct F as [F ?]). apply andb_true_iff. split; [|assumption]. rewrite F. cbn. apply andb_true_iff. split; [assumption|]. lia.
  - eexists. split; [exact X|]. unfold older, wrong_entry. cbn [e_key e_ts e_val]. rewrite app_assoc, cut_app, tail8_app, unle8 by (auto using le_length; unfold ts_ok, U64; lia).
    rewrite beqb_refl. cbn. rewrite !andb_true_r. split; lia.
Qed.
Lemma rank_bound s n k t : (rank s n k t <= length (s_db s))%nat.
Proof. unfold rank. generalize (s_db s). intros l. induction l as [|a r IH]; [cbn; lia|]. cbn. destruct (older s n k t a); cbn; lia. Qed.

Lemma fix_runs s n : db_ok (s_db s) -> only_misplaced s n -> forall m, exists s', fix_times m s n = Ok s' /\ db_ok (s_db s') /\ only_misplaced s' n /\ s_latest s' = s_latest s /\
  (forall k t v, misplaced s' n k t v <-> misplaced s n k t v) /\
  (forall e, In e (s_db s') -> In e (s_db s) \/ exists k t v, misplaced s n k t v /\ e = right_entry n (k, t, v)) /\
  (forall e, In e (s_db s) -> In e (s_db s') \/ exists k t v, misplaced s n k t v /\ e_key e = store_prefix n ++ k /\ e_ts e = t) /\
  (forall k t v, misplaced s n k t v -> (rank s n k t < m)%nat -> shows s' n k t v).
Proof.
  intros H O. assert (Snoc : forall m s s', fix_times m s n = Ok s' -> fix_times (S m) s n = fix_store s' n).
  { induction m as [|m IH]; intros a b E; [cbn [fix_times] in E; injection E as <-; cbn [fix_times]; destruct (fix_store a n); reflexivity|].
    change (fix_times (S (S m)) a n) with (rbind (fix_store a n) (fun x => fix_times (S m) x n)). cbn [fix_times] in E. destruct (fix_store a n) as [x| |]; cbn [rbind] in *; try discriminate. apply IH. exact E. }
  induction m as [|m (s1 & E1 & H1 & O1 & L1 & M1 & A1 & B1 & R1)].
  - exists s. split; [reflexivity|]. repeat (split; [solve [auto|reflexivity|intros; reflexivity]|]). intros k t v _ X. lia.
  - destruct (fix_ok s1 n H1 O1) as (s2 & E2 & H2 & L2 & M2 & _). exists s2. split; [rewrite (Snoc m s s1 E1); exact E2|].
    split; [exact H2|]. split; [apply (fix_only s1 n s2 H1 O1 E2)|]. split; [congruence|].
    split; [intros k t v; rewrite (fix_misplaced s1 n s2 H1 O1 E2); apply M1|]. split; [|split].
    + intros e He. apply M2 in He. destruct He as [(k & t & v & Mi & _ & ->)|[He _]]; [right; exists k, t, v; split; [apply M1; exact Mi|reflexivity]|auto].
    + intros e He. destruct (B1 e He) as [X|X]; [|right; exact X].
      assert (D : In e (s_db s2) \/ exists k t v, misplaced s1 n k t v /\ e_key e = store_prefix n ++ k /\ e_ts e = t).
      { assert (Dec : {In e (s_db s2)} + {~ In e (s_db s2)}).
        { apply in_dec. intros [a1 a2 a3] [b1 b2 b3]. destruct (bytes_eq_dec a1 b1) as [->|]; [|right; congruence]. destruct (Z.eq_dec a2 b2) as [->|]; [|right; congruence].
          destruct a3 as [x|], b3 as [y|]; [destruct (bytes_eq_dec x y) as [->|]; [left; reflexivity|right; congruence]|right; congruence|right; congruence|left; reflexivity]. }
        destruct Dec as [Y|Y]; [left; exact Y|right]. 
        destruct (in_dec (fun a b => match bytes_eq_dec a b with left x => left x | right x => right x end) (e_key e) (map (fun d => store_prefix n ++ cut (skipn (length (store_prefix n)) (e_key d))) (filter (fun d => (e_ts d =? 0) && (unle (tail8 (e_key d)) =? e_ts e) && match e_val d with Some _ => true | None => false end && beqb (firstn (length (store_prefix n)) (e_key d)) (store_prefix n)) (s_db s1)))) as [Z|Z].
        - apply in_map_iff in Z. destruct Z as (d & Kd & Hd). apply filter_In in Hd. destruct Hd as [Hd F]. repeat (apply andb_true_iff in F; destruct F as [F ?]).
          destruct (e_val d) as [v|] eqn:V; [|discriminate]. assert (P : firstn (length (store_prefix n)) (e_key d) = store_prefix n) by (apply beqb_true; assumption).
          set (r := skipn (length (store_prefix n)) (e_key d)) in *. assert (Er : e_key d = store_prefix n ++ r) by (rewrite <- P at 1; symmetry; apply firstn_skipn).
          destruct (O1 d r v Hd ltac:(lia) Er V) as (k & t & Rr & T). exists k, t, v.
          assert (Tt : unle (tail8 (e_key d)) = t). { rewrite Er, Rr, app_assoc, tail8_app by apply le_length. apply unle8. unfold ts_ok, U64. lia. }
          split; [split; [exact T|]|].
          + unfold wrong_entry. rewrite <- Rr, <- Er. destruct d as [dk dt dv]. cbn in *. assert (dt = 0) as -> by lia. subst dv. exact Hd.
          + rewrite Rr, cut_app in Kd by apply le_length. split; [symmetry; exact Kd|]. lia.
        - exfalso. apply Y. apply M2. right. split; [exact X|]. intros k t v [T Mi] _ [Ke Te]. apply Z. apply in_map_iff. eexists. split; [|apply filter_In; split; [exact Mi|]].
          + unfold wrong_entry. cbn [e_key]. rewrite skipn_app, skipn_all, Nat.sub_diag. cbn [app skipn]. rewrite cut_app by apply le_length. symmetry. exact Ke.
          + unfold wrong_entry. cbn [e_key e_ts e_val]. rewrite app_assoc at 1. rewrite tail8_app, unle8 by (auto using le_length; unfold ts_ok, U64; lia).
            rewrite firstn_app, firstn_all, Nat.sub_diag. cbn [firstn]. rewrite app_nil_r, beqb_refl. rewrite Te. rewrite !BinInt.Z.eqb_refl. reflexivity. }
      destruct D as [D|(k & t & v & Mi & D)]; [left; exact D|right; exists k, t, v; split; [apply M1; exact Mi|exact D]].
    + intros k t v Mi Rk. apply M1 in Mi. destruct (fix_shows s1 n s2 k t v H1 O1 E2 Mi) as [X|[_ (t' & v' & Mi' & Lt & N)]]; [exact X|]. exfalso. apply N. apply M1 in Mi'.
      apply R1; [exact Mi'|]. pose proof (rank_lt s n k t t' v' Mi' Lt). lia.
Qed.
