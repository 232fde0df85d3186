(* Proofs about requests for data from other chains. *)
From Coq Require Import Permutation Sorted.
From Verif Require Import Lib.Base Lib.Bytes.
From Verif Require Import Extdata.Model Extdata.Spec.
Open Scope Z_scope.

Lemma upd_same {A} (f : Z -> A) k v : upd f k v k = v.
Proof. unfold upd; now rewrite Z.eqb_refl. Qed.
Lemma upd_other {A} (f : Z -> A) k v x : x <> k -> upd f k v x = f x.
Proof. unfold upd; intro H; now rewrite (proj2 (Z.eqb_neq x k) H). Qed.

Lemma total_app a b : total (a ++ b) = total a + total b.
Proof. induction a; cbn [app total fold_right]; [reflexivity|]. unfold total in *; cbn [fold_right] in *; lia. Qed.
Lemma total_nonneg l : (forall x, In x l -> 0 <= x) -> 0 <= total l.
Proof.
  induction l; unfold total in *; cbn [fold_right]; [lia|]. intro H.
  assert (0 <= a) by (apply H; now left). enough (0 <= fold_right Z.add 0 l) by lia.
  apply IHl; intros; apply H; now right.
Qed.
Lemma total_perm a b : Permutation a b -> total a = total b.
Proof. unfold total; induction 1; cbn [fold_right]; lia. Qed.

(* ---- sorting ---- *)
Lemma insert_perm r l : Permutation (insert r l) (r :: l).
Proof.
  induction l as [|x tl IH]; cbn [insert]; [reflexivity|].
  destruct (_ <=? _); [reflexivity|]. rewrite IH. apply perm_swap.
Qed.
Lemma sort_perm l : Permutation (sort l) l.
Proof. induction l; cbn [sort fold_right]; [constructor|]. unfold sort in IHl. rewrite insert_perm. now constructor. Qed.
Lemma insert_sorted r l :
  StronglySorted (fun x y => q_nonce x <= q_nonce y) l ->
  StronglySorted (fun x y => q_nonce x <= q_nonce y) (insert r l).
Proof.
  induction l as [|x tl IH]; cbn [insert]; intro H; [repeat constructor|].
  inversion H as [|? ? H1 H2]; subst.
  destruct (Z.leb_spec (q_nonce r) (q_nonce x)).
  - constructor; [exact H|]. constructor; [assumption|].
    eapply Forall_impl; [|exact H2]; cbn; intros; lia.
  - constructor; [now apply IH|].
    rewrite Forall_forall in *. intros y Hy. apply (Permutation_in _ (insert_perm r tl)) in Hy.
    destruct Hy as [E|Hy]; [subst; lia|now apply H2].
Qed.
Lemma sort_sorted l : StronglySorted (fun x y => q_nonce x <= q_nonce y) (sort l).
Proof. induction l; cbn [sort fold_right]; [constructor|]. now apply insert_sorted. Qed.

(* ---- the best claim ---- *)
Definition kcount (k : bytes) (cs : list claim) : Z :=
  Z.of_nat (length (filter (fun c => beqb (ckey c) k) cs)).
Fixpoint lookup (k : bytes) (l : list (bytes * Z)) : Z :=
  match l with [] => 0 | (k', n) :: tl => if beqb k' k then n else lookup k tl end.
Lemma bump_lookup k l x :
  lookup x (bump k l) = lookup x l + (if beqb k x then 1 else 0).
Proof.
  induction l as [|[k' n] tl IH]; cbn [bump lookup].
  - destruct (beqb k x); lia.
  - destruct (beqb k' k) eqn:E; cbn [lookup].
    + apply beqb_spec in E; subst k'. destruct (beqb k x); lia.
    + destruct (beqb k' x) eqn:F; [|exact IH].
      apply beqb_spec in F; subst k'.
      assert (G : beqb k x = false).
      { apply beqb_neq. intro C; subst. rewrite beqb_refl in E. discriminate. }
      rewrite G. lia.
Qed.
Lemma bump_nodup k l : NoDup (map fst l) -> NoDup (map fst (bump k l)) /\
  (forall x, In x (map fst (bump k l)) <-> In x (map fst l) \/ x = k).
Proof.
  induction l as [|[k' n] tl IH]; cbn [bump map fst]; intro H.
  - split; [repeat constructor; intros []|]. intro x; cbn; intuition.
  - inversion H as [|? ? H1 H2]; subst. destruct (beqb k' k) eqn:E; cbn [map fst].
    + apply beqb_spec in E; subst k'. split; [exact H|]. intro x; cbn; intuition; subst; intuition.
    + destruct (IH H2) as [I1 I2]. split.
      * constructor; [|exact I1]. rewrite I2. intros [C|C]; [contradiction|].
        subst. rewrite beqb_refl in E. discriminate.
      * intro x; cbn [In]. rewrite I2. tauto.
Qed.
Lemma lookup_in k n l : NoDup (map fst l) -> In (k, n) l -> lookup k l = n.
Proof.
  induction l as [|[k' m] tl IH]; cbn [lookup map fst In]; intros H I; [contradiction|].
  inversion H as [|? ? H1 H2]; subst. destruct I as [I|I].
  - injection I as -> ->. now rewrite beqb_refl.
  - assert (E : beqb k' k = false).
    { apply beqb_neq. intro C; subst k'. apply H1. apply in_map_iff. now exists (k, n). }
    rewrite E. now apply IH.
Qed.
Lemma freqs_gen cs m : NoDup (map fst m) ->
  let f := fold_left (fun m c => bump (ckey c) m) cs m in
  NoDup (map fst f) /\
  (forall x, In x (map fst f) <-> In x (map fst m) \/ exists c, In c cs /\ ckey c = x) /\
  (forall x, lookup x f = lookup x m + kcount x cs).
Proof.
  revert m; induction cs as [|c cs IH]; intros m H; cbn [fold_left].
  - split; [exact H|split].
    + intro x; split; [now left|intros [|[c [[] _]]]; assumption].
    + intro x. unfold kcount. cbn. lia.
  - destruct (bump_nodup (ckey c) m H) as [B1 B2]. specialize (IH _ B1). cbn zeta in IH.
    destruct IH as (I1 & I2 & I3). split; [exact I1|split].
    + intro x. rewrite I2, B2. split.
      * intros [[A|A]|(c' & A & B)]; [now left| right; exists c; split; [now left|now symmetry]|
          right; exists c'; split; [now right|exact B]].
      * intros [A|(c' & [A|A] & B)]; [now left; left| subst c'; left; right; now symmetry|
          right; now exists c'].
    + intro x. rewrite I3, bump_lookup. unfold kcount. cbn [filter].
      destruct (beqb (ckey c) x); cbn [length]; lia.
Qed.
Lemma freqs_in cs k n : In (k, n) (freqs cs) <-> (exists c, In c cs /\ ckey c = k) /\ n = kcount k cs.
Proof.
  destruct (freqs_gen cs []) as (A & B & C); [constructor|]. fold (freqs cs) in *.
  split.
  - intro H. split.
    + destruct (proj1 (B k)) as [[]|X]; [|exact X]. apply in_map_iff. now exists (k, n).
    + rewrite <- (lookup_in _ _ _ A H), C. cbn. lia.
  - intros [X ->]. assert (I : In k (map fst (freqs cs))) by (apply B; now right).
    apply in_map_iff in I. destruct I as ([k' m] & E & I). cbn in E; subst k'.
    pose proof (lookup_in _ _ _ A I) as L. rewrite C in L. cbn in L. now subst m.
Qed.
Lemma pick_gen l (b : Z * bytes) : 0 <= fst b ->
  let p := fold_left (fun (b : Z * bytes) (kn : bytes * Z) => if fst b <? snd kn then (snd kn, fst kn) else b) l b in
  fst b <= fst p /\ (forall k n, In (k, n) l -> n <= fst p) /\
  (p = b \/ In (snd p, fst p) l).
Proof.
  revert b; induction l as [|[k n] tl IH]; intros b Hb; cbn [fold_left].
  - split; [lia|split; [intros k n []|now left]].
  - cbn [fst snd]. destruct (Z.ltb_spec (fst b) n).
    + specialize (IH (n, k)). cbn [fst snd] in IH. destruct IH as (A & B & C); [lia|].
      split; [lia|split].
      * intros k' n' [E|I]; [injection E as -> ->; lia|now apply (B k')].
      * right. destruct C as [C|C]; [left; now rewrite C|now right].
    + destruct (IH b Hb) as (A & B & C). split; [lia|split].
      * intros k' n' [E|I]; [injection E as -> ->; lia|now apply (B k')].
      * destruct C as [C|C]; [now left|right; now right].
Qed.
Lemma kcount_pos c cs : In c cs -> 1 <= kcount (ckey c) cs.
Proof.
  intro H. unfold kcount.
  destruct (filter _ cs) eqn:E; [|cbn [length]; lia].
  assert (I : In c (filter (fun x => beqb (ckey x) (ckey c)) cs))
    by (apply filter_In; split; [exact H|apply beqb_refl]).
  rewrite E in I. destruct I.
Qed.
Lemma best_spec e cs : any_order e ->
  match best e cs with
  | None => cs = []
  | Some c => In c cs /\ forall c', In c' cs -> kcount (ckey c') cs <= kcount (ckey c) cs
  end.
Proof.
  intro S. unfold best. destruct cs as [|c0 [|c1 tl]]; [reflexivity| |].
  - split; [now left|]. intros c' [E|[]]; subst; lia.
  - set (cs := c0 :: c1 :: tl).
    destruct (pick_gen (e_shuffle e (freqs cs)) (0, [])) as (A & B & C); [cbn; lia|].
    fold (pick (e_shuffle e (freqs cs))) in *. set (p := pick (e_shuffle e (freqs cs))) in *.
    assert (P : forall c, In c cs -> kcount (ckey c) cs <= fst p).
    { intros c I. apply (B (ckey c)). apply (Permutation_in _ (Permutation_sym (S _))).
      apply freqs_in. split; [now exists c|reflexivity]. }
    assert (Q : exists c, In c cs /\ ckey c = snd p /\ fst p = kcount (snd p) cs).
    { destruct C as [C|C].
      - assert (H : 1 <= fst p) by (etransitivity; [apply (kcount_pos c0 cs); now left|apply P; now left]).
        rewrite C in H. cbn in H. lia.
      - apply (Permutation_in _ (S _)) in C. apply freqs_in in C. destruct C as [(c & I & E) F].
        now exists c. }
    destruct Q as (c & I & E & F).
    unfold by_key. destruct (find _ (List.rev cs)) eqn:G.
    + apply find_some in G. destruct G as [G1 G2]. apply beqb_spec in G2.
      split; [now apply in_rev|]. intros c' I'. rewrite G2, <- F. now apply P.
    + exfalso. pose proof (find_none _ _ G c (proj1 (in_rev _ _) I)) as N. cbn beta in N.
      rewrite E, beqb_refl in N. discriminate.
Qed.

(* the answers as the keys tell them apart *)
Lemma ckey_same c c' : no_bar c -> no_bar c' -> ckey c = ckey c' <-> same_answer c c'.
Proof.
  unfold no_bar, ckey, same_answer. intros H H'. split; [|intros [-> ->]; reflexivity].
  revert H H'. generalize (c_res c) (c_res c') (c_err c) (c_err c'). intros a b x y.
  revert b; induction a as [|n a IH]; intros [|m b] H H' E; cbn [app] in E.
  - injection E as ->. now split.
  - injection E as E1 E2. exfalso. apply H'. left. now symmetry.
  - injection E as E1 E2. exfalso. apply H. now left.
  - injection E as E1 E2. subst m.
    destruct (IH b) as [A B].
    + intro C; apply H; now right.
    + intro C; apply H'; now right.
    + exact E2.
    + subst; now split.
Qed.
Lemma backers_kcount cs c : Forall no_bar cs -> In c cs ->
  Z.of_nat (backers cs c) = kcount (ckey c) cs.
Proof.
  intros F I. unfold backers, kcount. f_equal. f_equal.
  assert (Hc : no_bar c) by (rewrite Forall_forall in F; now apply F).
  clear I. induction F as [|x l Hx F IH]; [reflexivity|]. cbn [filter].
  assert (E : same_answer_b c x = beqb (ckey x) (ckey c)).
  { apply eq_true_iff_eq. unfold same_answer_b. rewrite andb_true_iff, !beqb_spec.
    rewrite (ckey_same x c Hx Hc). unfold same_answer. split; intros [A B]; split; congruence. }
  rewrite E, IH. reflexivity.
Qed.
(* with a clear winner every order of the map gives it *)
Lemma best_clear e cs c : any_order e -> Forall no_bar cs -> In c cs ->
  (forall c', In c' cs -> ~ same_answer c c' -> (backers cs c' < backers cs c)%nat) ->
  exists c', best e cs = Some c' /\ In c' cs /\ same_answer c c'.
Proof.
  intros S F I M. pose proof (best_spec e cs S) as B. destruct (best e cs) as [c'|].
  - destruct B as [B1 B2]. exists c'. split; [reflexivity|]. split; [exact B1|].
    rewrite Forall_forall in F. apply ckey_same; [now apply F|now apply F|].
    destruct (bytes_eq_dec (ckey c) (ckey c')) as [E|E]; [exact E|exfalso].
    assert (N : ~ same_answer c c').
    { intro C. apply E. apply ckey_same; [now apply F|now apply F|exact C]. }
    specialize (M c' B1 N). specialize (B2 c I).
    assert (F' : Forall no_bar cs) by now apply Forall_forall.
    rewrite <- !backers_kcount in B2 by assumption. lia.
  - subst. destruct I.
Qed.
Lemma best_most e cs c : any_order e -> Forall no_bar cs -> best e cs = Some c ->
  In c cs /\ forall c', In c' cs -> (backers cs c' <= backers cs c)%nat.
Proof.
  intros S F B. pose proof (best_spec e cs S) as H. rewrite B in H. destruct H as [H1 H2].
  split; [exact H1|]. intros c' I. specialize (H2 c' I).
  rewrite <- !backers_kcount in H2 by assumption. lia.
Qed.
Lemma best_none e cs : any_order e -> best e cs = None <-> cs = [].
Proof.
  intro S. split; [|intros ->; reflexivity]. intro B.
  pose proof (best_spec e cs S) as H. now rewrite B in H.
Qed.

(* ---- payments ---- *)
Ltac zd := repeat match goal with |- context [?a =? ?b] => destruct (a =? b) end; lia.
Definition times (a : Z) (l : list Z) : Z := Z.of_nat (count_occ Z.eq_dec l a).
Lemma times_cons a v l : times a (v :: l) = (if a =? v then 1 else 0) + times a l.
Proof.
  unfold times. cbn [count_occ]. destruct (Z.eq_dec v a) as [E|E]; destruct (Z.eqb_spec a v); lia.
Qed.
Lemma times_nodup a l : NoDup l -> times a l = if existsb (Z.eqb a) l then 1 else 0.
Proof.
  induction 1 as [|v l H1 H2 IH]; [reflexivity|]. rewrite times_cons, IH. cbn [existsb].
  destruct (Z.eqb_spec a v); [|reflexivity]. subst v.
  destruct (existsb (Z.eqb a) l) eqn:E; [|reflexivity].
  apply existsb_exists in E. destruct E as (x & I & E). apply Z.eqb_eq in E. subst; contradiction.
Qed.

Definition add_stat (o : option (Z * Z)) (n f : Z) : option (Z * Z) :=
  match o with None => None | Some (a, b) => Some (a + n, b + f) end.
Lemma add_stat_0 o : add_stat o 0 0 = o.
Proof. destruct o as [[a b]|]; cbn; [|reflexivity]. now rewrite !Z.add_0_r. Qed.
Lemma add_stat_add o a b c d : add_stat (add_stat o a b) c d = add_stat o (a + c) (b + d).
Proof. destruct o as [[x y]|]; cbn; [|reflexivity]. now rewrite !Z.add_assoc. Qed.

(* ---- the votes of one request ---- *)
Lemma tally_spec e need acc vs :
  (forall v, 0 <= e_power e v) ->
  let '(hit, acc') := tally e need acc vs in
  (hit = true <-> vs <> [] /\ need <= acc + total (map (e_power e) vs)) /\
  acc <= acc' <= acc + total (map (e_power e) vs) /\ (hit = false -> acc' = acc + total (map (e_power e) vs)).
Proof.
  intro P. revert acc; induction vs as [|v vs IH]; intro acc; cbn [tally map].
  - unfold total; cbn [fold_right]. split; [|split; lia]. split; [discriminate|intros [H _]; congruence].
  - assert (T : 0 <= total (map (e_power e) vs)).
    { apply total_nonneg. intros x H. apply in_map_iff in H. destruct H as (y & <- & _). apply P. }
    unfold total in *; cbn [fold_right] in *. pose proof (P v).
    destruct (Z.leb_spec need (acc + e_power e v)).
    + split; [|split; [lia|discriminate]]. split; [intros _; split; [discriminate|lia]|reflexivity].
    + specialize (IH (acc + e_power e v)). destruct (tally e need _ vs) as [hit acc'].
      destruct IH as (A & B & C). split; [|split; [lia|intro X; rewrite (C X); lia]].
      rewrite A. split; [intros [_ X]; split; [discriminate|lia]|].
      intros [_ X]. split; [|lia]. intros ->. cbn [map fold_right] in X. lia.
Qed.

(* ---- what happens to each request ---- *)
Inductive fate := Late | Idle | Win (c : claim).
Definition decide (e : env) (need acc : Z) (r : req) : fate * Z :=
  if q_timeout r <? e_height e then (Late, acc)
  else if e_height e <? (q_timeout r - 50) mod W64 then (Idle, acc)
  else match best e (q_claims r) with
  | None => (Idle, acc)
  | Some c =>
      let '(hit, acc') := tally e need acc (q_votes r) in
      ((if hit then Win c else Idle), acc')
  end.
Fixpoint fates (e : env) (need acc : Z) (l : list req) : list (req * fate) :=
  match l with
  | [] => []
  | r :: tl => (r, fst (decide e need acc r)) :: fates e need (snd (decide e need acc r)) tl
  end.
Lemma fates_fst e need l : forall acc, map fst (fates e need acc l) = l.
Proof. induction l; intro acc; cbn [fates map fst]; [reflexivity|]. now rewrite IHl. Qed.

Definition is_win (f : fate) : bool := match f with Win _ => true | _ => false end.
Definition is_late (f : fate) : bool := match f with Late => true | _ => false end.
Definition wins (fl : list (req * fate)) : list req := map fst (filter (fun rf => is_win (snd rf)) fl).
Definition lates (fl : list (req * fate)) : list req := map fst (filter (fun rf => is_late (snd rf)) fl).

Definition keyof (r : req) : Z * Z * Z := (q_hid r, q_nonce r, q_contract r).
Lemma same_key_iff r x :
  same_key (q_hid r) (q_nonce r) (q_contract r) x = true <-> keyof x = keyof r.
Proof.
  unfold same_key, keyof. rewrite !andb_true_iff, !Z.eqb_eq. split.
  - intros [[-> ->] ->]. reflexivity.
  - intro H. injection H as -> -> ->. tauto.
Qed.
Lemma cancelled_iff w x : cancelled_by w x = true <-> overtakes w x.
Proof. unfold cancelled_by, overtakes. rewrite !andb_true_iff, !Z.eqb_eq, Z.ltb_lt. tauto. Qed.

(* the requests that the loop takes out *)
Definition gone (fl : list (req * fate)) (x : req) : Prop :=
  (exists r, In r (lates fl ++ wins fl) /\ keyof x = keyof r) \/
  (exists w, In w (wins fl) /\ overtakes w x).

Lemma filter_filter {A} (f g : A -> bool) l : filter f (filter g l) = filter (fun x => g x && f x) l.
Proof.
  induction l as [|x l IH]; [reflexivity|]. cbn [filter]. destruct (g x) eqn:G; cbn [filter andb].
  - destruct (f x); now rewrite IH.
  - exact IH.
Qed.

Lemma share_bound r : 0 <= q_fee r -> 0 <= share r /\ share r * Z.of_nat (length (q_votes r)) <= q_fee r.
Proof.
  intro H. unfold share. destruct (q_votes r) eqn:E.
  - cbn [length Z.of_nat]. rewrite Zdiv_0_r. lia.
  - set (n := Z.of_nat (length _)). assert (0 < n) by (subst n; cbn [length]; lia).
    split; [apply Z.div_pos; lia|]. rewrite Z.mul_comm. apply Z.mul_div_le. lia.
Qed.

Section Pay.
Variables (BASE ESC : Z) (blocked : Z -> bool).
Variables (parse_err json_err : bytes -> bytes).
Notation pay := (pay ESC blocked).
Notation reward := (reward ESC blocked).
Notation refund := (refund ESC blocked).
Notation executed := (executed ESC blocked parse_err json_err).
Notation one := (one ESC blocked parse_err json_err).
Notation end_block := (end_block ESC blocked parse_err json_err).
Notation result := (result parse_err json_err).

Definition delta (d to amt : Z) (a d' : Z) : Z :=
  if d' =? d then (if a =? to then amt else if a =? ESC then - amt else 0) else 0.
Lemma pay_spec s d to amt :
  blocked to = false -> to <> ESC -> 0 <= amt <= s_bal s ESC d ->
  pay s d to amt = set_bal s (s_bal (pay s d to amt)) /\
  forall a d', s_bal (pay s d to amt) a d' = s_bal s a d' + delta d to amt a d'.
Proof.
  intros Bl N A. unfold Model.pay, send, delta. rewrite Bl.
  destruct (Z.eqb_spec amt 0) as [->|NZ].
  - split; [destruct s; reflexivity|]. intros. zd.
  - destruct (Z.ltb_spec (s_bal s ESC d) amt); [lia|]. split; [reflexivity|].
    intros a d'. cbn [s_bal set_bal].
    destruct (Z.eqb_spec a to) as [->|N1].
    + rewrite upd_same. destruct (Z.eqb_spec d' d) as [->|N2].
      * rewrite upd_same, (upd_other _ ESC) by assumption. reflexivity.
      * rewrite upd_other by assumption. rewrite upd_other by assumption. lia.
    + rewrite upd_other by assumption.
      destruct (Z.eqb_spec a ESC) as [->|N3].
      * rewrite upd_same. destruct (Z.eqb_spec d' d) as [->|N2]; [rewrite upd_same; lia|].
        rewrite upd_other by assumption. lia.
      * rewrite upd_other by assumption. destruct (d' =? d); lia.
Qed.

Lemma reward_fold d share r vs s :
  (forall v, In v vs -> blocked v = false /\ v <> ESC) ->
  0 <= share -> share * Z.of_nat (length vs) <= s_bal s ESC d ->
  let s' := fold_left (reward_one ESC blocked d share r) vs s in
  s' = set_stats (set_bal s (s_bal s')) (s_stats s') /\
  (forall a d', s_bal s' a d' = s_bal s a d' +
     (if d' =? d then (if a =? ESC then - (share * Z.of_nat (length vs)) else share * times a vs) else 0)) /\
  (forall h v, s_stats s' h v = add_stat (s_stats s h v)
     (if h =? q_hid r then times v vs else 0) (if h =? q_hid r then times v vs * q_fee r else 0)).
Proof.
  revert s; induction vs as [|v vs IH]; intros s Hv Hs Hb; cbn [fold_left].
  - split; [destruct s; reflexivity|]. split.
    + intros. unfold times. cbn [count_occ length]. zd.
    + intros. unfold times. cbn [count_occ]. destruct (_ =? _); cbn; now rewrite add_stat_0.
  - destruct (Hv v (or_introl eq_refl)) as [V1 V2].
    cbn [length] in Hb.
    assert (Hp : 0 <= share <= s_bal s ESC d) by nia.
    destruct (pay_spec s d v share V1 V2 Hp) as [P1 P2].
    set (s1 := pay s d v share) in *.
    set (s2 := reward_one ESC blocked d share r s v).
    assert (S2 : s2 = set_stats s1 (s_stats s2) /\
      forall h x, s_stats s2 h x = add_stat (s_stats s h x)
        (if h =? q_hid r then (if x =? v then 1 else 0) else 0)
        (if h =? q_hid r then (if x =? v then q_fee r else 0) else 0)).
    { assert (St : s_stats s1 = s_stats s) by (rewrite P1; reflexivity).
      unfold s2, reward_one. fold s1. cbn zeta.
      destruct (s_stats s1 (q_hid r) v) as [[n f]|] eqn:E.
      - split; [reflexivity|]. intros h x. cbn [s_stats set_stats].
        destruct (Z.eqb_spec h (q_hid r)) as [->|N].
        + rewrite upd_same. destruct (Z.eqb_spec x v) as [->|N].
          * rewrite upd_same, <- St, E. reflexivity.
          * rewrite upd_other by assumption. now rewrite St, add_stat_0.
        + rewrite upd_other by assumption. now rewrite St, add_stat_0.
      - split; [destruct s1; reflexivity|]. intros h x. rewrite St.
        destruct (Z.eqb_spec h (q_hid r)) as [->|N]; [|now rewrite add_stat_0].
        destruct (Z.eqb_spec x v) as [->|N]; [|now rewrite add_stat_0].
        rewrite <- St, E. reflexivity. }
    destruct S2 as [S2a S2b].
    assert (B2 : s_bal s2 = s_bal s1) by (rewrite S2a; reflexivity).
    destruct (IH s2) as (I1 & I2 & I3).
    + intros x I; apply Hv; now right.
    + exact Hs.
    + rewrite B2, P2. unfold delta. rewrite !Z.eqb_refl.
      destruct (Z.eqb_spec ESC v) as [E|_]; [now rewrite E in V2|]. nia.
    + fold s2. set (s' := fold_left (reward_one ESC blocked d share r) vs s2) in *.
      split; [|split].
      * rewrite I1 at 1. rewrite S2a at 1. rewrite P1 at 1. reflexivity.
      * intros a d'. rewrite I2, B2, P2, times_cons. unfold delta. cbn [length].
        destruct (Z.eqb_spec d' d); [|lia].
        destruct (Z.eqb_spec a ESC) as [->|].
        -- destruct (Z.eqb_spec ESC v) as [E|_]; [now rewrite E in V2|]. lia.
        -- destruct (a =? v); lia.
      * intros h x. rewrite I3, S2b, add_stat_add, times_cons.
        destruct (h =? q_hid r); [|reflexivity]. destruct (x =? v); f_equal; lia.
Qed.

Definition act (e : env) (s : st) (rf : req * fate) : st :=
  match snd rf with
  | Late => del_req (refund e (fst rf) s) (fst rf)
  | Idle => s
  | Win c => executed e (fst rf) c s
  end.
Lemma one_decide e need s acc r :
  one e need (s, acc) r = (act e s (r, fst (decide e need acc r)), snd (decide e need acc r)).
Proof.
  unfold Model.one, decide, act. cbn [fst snd].
  destruct (q_timeout r <? e_height e); [reflexivity|].
  destruct (_ <? _); [reflexivity|].
  destruct (best e (q_claims r)); [|reflexivity].
  destruct (tally e need acc (q_votes r)) as [[|] a]; reflexivity.
Qed.
Lemma loop_fates e need l : forall s acc,
  fst (fold_left (one e need) l (s, acc)) = fold_left (act e) (fates e need acc l) s.
Proof.
  induction l as [|r tl IH]; intros; cbn [fold_left fates]; [reflexivity|].
  rewrite one_decide. apply IH.
Qed.
(* what an account gains *)
Definition gain (fl : list (req * fate)) (a : Z) : Z :=
  if a =? ESC then
    - total (map q_fee (lates fl)) - total (map (fun w => share w * Z.of_nat (length (q_votes w))) (wins fl))
  else total (map (fun r => if q_sender r =? a then q_fee r else 0) (lates fl))
     + total (map (fun w => if voter a w then share w else 0) (wins fl)).

Record safe (e : env) (r : req) : Prop := {
  sf_pair : e_pair e (q_feec r) = Some BASE;
  sf_sender : blocked (q_sender r) = false /\ q_sender r <> ESC;
  sf_voters : forall v, In v (q_votes r) -> blocked v = false /\ v <> ESC;
  sf_fee : 0 <= q_fee r;
  sf_once : NoDup (q_votes r)
}.

Lemma act_loop e fl : forall s,
  (forall r f, In (r, f) fl -> safe e r) ->
  total (map q_fee (map fst fl)) <= s_bal s ESC BASE ->
  let s' := fold_left (act e) fl s in
  (exists f, s_reqs s' = filter f (s_reqs s) /\ forall x, f x = true <-> ~ gone fl x) /\
  s_last s' = s_last s /\ s_cron s' = s_cron s /\ s_done s' = s_done s ++ wins fl /\
  (forall a d, s_bal s' a d = s_bal s a d + if d =? BASE then gain fl a else 0) /\
  (forall k, (exists r c, In (r, Win c) fl /\ q_cron r = k /\ s_cb s' k = Some (result c)) \/
             (~ In k (map q_cron (wins fl)) /\ s_cb s' k = s_cb s k)) /\
  (forall h v, s_stats s' h v = add_stat (s_stats s h v)
     (total (map (fun w => if (q_hid w =? h) && voter v w then 1 else 0) (wins fl)))
     (total (map (fun w => if (q_hid w =? h) && voter v w then q_fee w else 0) (wins fl)))).
Proof.
  induction fl as [|[r f] fl IH]; intros s Sf Hb; cbn [fold_left].
  - split.
    { exists (fun _ => true). split.
      - generalize (s_reqs s). induction l; cbn; congruence.
      - intro x. split; [|reflexivity]. intros _ [(r & [] & _)|(w & [] & _)]. }
    split; [reflexivity|]. split; [reflexivity|]. split; [now rewrite app_nil_r|].
    split; [intros a d; unfold gain; cbn; zd|].
    split; [intro k; right; split; [intros []|reflexivity]|].
    intros; cbn. now rewrite add_stat_0.
  - assert (Sr : safe e r) by (apply (Sf r f); now left).
    assert (Sf' : forall r f, In (r, f) fl -> safe e r) by (intros ? g Hg; apply (Sf _ g); now right).
    cbn [map fst] in Hb.
    assert (T0 : 0 <= total (map q_fee (map fst fl))).
    { apply total_nonneg. intros x Hx. rewrite map_map in Hx. apply in_map_iff in Hx.
      destruct Hx as ([r' f'] & <- & I). apply (sf_fee _ _ (Sf' _ _ I)). }
    assert (F0 := sf_fee _ _ Sr).
    change (total (q_fee r :: map q_fee (map fst fl)))
      with (q_fee r + total (map q_fee (map fst fl))) in Hb.
    destruct f as [| |c].
    + (* refunded *)
      change (act e s (r, Late)) with (del_req (refund e r s) r).
      destruct (sf_sender _ _ Sr) as [N1 N2].
      destruct (pay_spec s BASE (q_sender r) (q_fee r) N1 N2 ltac:(lia)) as [P1 P2].
      assert (R : refund e r s = pay s BASE (q_sender r) (q_fee r))
        by (unfold Model.refund; now rewrite (sf_pair _ _ Sr)).
      rewrite R. set (s1 := pay s BASE (q_sender r) (q_fee r)) in *.
      destruct (IH (del_req s1 r) Sf') as (I1 & I2 & I3 & I4 & I5 & I6 & I7).
      { cbn [del_req set_reqs s_bal]. rewrite P2. unfold delta. rewrite !Z.eqb_refl.
        destruct (Z.eqb_spec ESC (q_sender r)) as [E|_]; [now rewrite E in N2|]. lia. }
      set (s' := fold_left (act e) fl (del_req s1 r)) in *.
      cbn [del_req set_reqs s_reqs s_last s_cron s_done s_bal s_cb s_stats] in *.
      assert (Q1 : s_reqs s1 = s_reqs s) by (rewrite P1; reflexivity).
      assert (Q2 : s_last s1 = s_last s) by (rewrite P1; reflexivity).
      assert (Q3 : s_cron s1 = s_cron s) by (rewrite P1; reflexivity).
      assert (Q4 : s_done s1 = s_done s) by (rewrite P1; reflexivity).
      assert (Q5 : s_cb s1 = s_cb s) by (rewrite P1; reflexivity).
      assert (Q6 : s_stats s1 = s_stats s) by (rewrite P1; reflexivity).
      rewrite ?Q1, ?Q2, ?Q3, ?Q4, ?Q5, ?Q6 in *. clear Q1 Q2 Q3 Q4 R P1.
      split.
      { destruct I1 as (g & G1 & G2). rewrite filter_filter in G1.
        eexists; split; [exact G1|]. intro x. cbn beta.
        rewrite andb_true_iff, negb_true_iff, G2. rewrite <- not_true_iff_false, same_key_iff.
        unfold gone, lates, wins. cbn [filter snd is_late is_win map fst app In].
        split.
        - intros [A B] [(y & [->|C] & D)|C]; [now apply A| |now apply B; right].
          apply B; left; now exists y.
        - intro A; split; [intro B; apply A; left; exists r; split; [now left|exact B]|].
          intros [(y & C & D)|C]; apply A; [left; exists y; split; [now right|exact D]|now right]. }
      split; [exact I2|]. split; [exact I3|]. split; [exact I4|].
      split.
      { intros a d. rewrite I5, P2. unfold delta, gain, lates, wins.
        cbn [filter snd is_late is_win map fst]. unfold total; cbn [fold_right].
        destruct (d =? BASE); [|lia].
        destruct (Z.eqb_spec a ESC) as [->|N].
        - destruct (Z.eqb_spec ESC (q_sender r)) as [E|_]; [now rewrite E in N2|]. lia.
        - rewrite (Z.eqb_sym (q_sender r) a). destruct (a =? q_sender r); lia. }
      split.
      { intro k. destruct (I6 k) as [(y & c & A & B)|A]; [left; exists y, c; split; [now right|exact B]|].
        right. exact A. }
      intros h v. rewrite I7, ?Q6. reflexivity.
    + (* nothing *)
      change (act e s (r, Idle)) with s.
      destruct (IH s Sf') as (I1 & I2 & I3 & I4 & I5 & I6 & I7); [lia|].
      split; [|split; [exact I2|split; [exact I3|split; [exact I4|split; [exact I5|split; [|exact I7]]]]]].
      { destruct I1 as (g & G1 & G2). exists g. split; [exact G1|]. exact G2. }
      intro k. destruct (I6 k) as [(y & c & A & B)|A]; [left; exists y, c; split; [now right|exact B]|now right].
    + (* executed *)
      change (act e s (r, Win c)) with (executed e r c s).
      destruct (share_bound r F0) as [H1 H2].
      unfold Model.executed.
      set (s3 := set_done _ _).
      assert (B3 : s_bal s3 = s_bal s) by reflexivity.
      destruct (reward_fold BASE (share r) r (q_votes r) s3 (sf_voters _ _ Sr) H1) as (R1 & R2 & R3).
      { rewrite B3. lia. }
      assert (R : reward e r s3 = fold_left (reward_one ESC blocked BASE (share r) r) (q_votes r) s3)
        by (unfold Model.reward; now rewrite (sf_pair _ _ Sr)).
      rewrite <- R in R1, R2, R3. set (s4 := reward e r s3) in *. clear R.
      set (s5 := set_cb s4 _).
      destruct (IH s5 Sf') as (I1 & I2 & I3 & I4 & I5 & I6 & I7).
      { change (s_bal s5) with (s_bal s4). rewrite R2, B3, !Z.eqb_refl. lia. }
      set (s' := fold_left (act e) fl s5) in *.
      assert (Q1 : s_reqs s5 = s_reqs s3) by (subst s5; cbn [set_cb s_reqs]; rewrite R1; reflexivity).
      assert (Q2 : s_last s5 = s_last s) by (subst s5; cbn [set_cb s_last]; rewrite R1; reflexivity).
      assert (Q3 : s_cron s5 = s_cron s) by (subst s5; cbn [set_cb s_cron]; rewrite R1; reflexivity).
      assert (Q4 : s_done s5 = s_done s ++ [r]) by (subst s5; cbn [set_cb s_done]; rewrite R1; reflexivity).
      assert (Q5 : s_cb s5 = upd (s_cb s) (q_cron r) (Some (result c)))
        by (subst s5; cbn [set_cb s_cb]; rewrite R1; reflexivity).
      assert (Q6 : s_stats s5 = s_stats s4) by reflexivity.
      assert (Q7 : s_bal s5 = s_bal s4) by reflexivity.
      assert (Q8 : s_stats s3 = s_stats s) by reflexivity.
      rewrite ?Q1, ?Q2, ?Q3, ?Q4, ?Q5, ?Q6, ?Q7 in *.
      split.
      { destruct I1 as (g & G1 & G2). subst s3.
        cbn [set_done del_req set_reqs s_reqs] in G1. rewrite !filter_filter in G1.
        eexists; split; [exact G1|]. intro x. cbn beta.
        rewrite !andb_true_iff, !negb_true_iff, G2. rewrite <- !not_true_iff_false, same_key_iff, cancelled_iff.
        unfold gone, lates, wins. cbn [filter snd is_late is_win map fst].
        split.
        - intros (A & B & C) [(y & D & E)|(w & [D|D] & E)].
          + apply in_app_iff in D. destruct D as [D|[D|D]].
            * apply C. left. exists y. split; [apply in_app_iff; now left|exact E].
            * subst y. now apply B.
            * apply C. left. exists y. split; [apply in_app_iff; now right|exact E].
          + subst w. now apply A.
          + apply C. right. now exists w.
        - intro A. split; [|split].
          + intro B. apply A. right. exists r. split; [now left|exact B].
          + intro B. apply A. left. exists r. split; [apply in_app_iff; right; now left|exact B].
          + intros [(y & D & E)|(w & D & E)]; apply A.
            * left. exists y. split; [|exact E]. apply in_app_iff in D. apply in_app_iff.
              destruct D; [now left|right; now right].
            * right. exists w. split; [now right|exact E]. }
      split; [exact I2|]. split; [exact I3|].
      split; [rewrite I4, <- app_assoc; reflexivity|].
      split.
      { intros a d. rewrite I5, R2, B3. unfold gain, lates, wins.
        cbn [filter snd is_late is_win map fst]. unfold total; cbn [fold_right].
        destruct (d =? BASE); [|lia].
        destruct (a =? ESC); [lia|].
        rewrite (times_nodup _ _ (sf_once _ _ Sr)). fold (voter a r).
        destruct (voter a r); lia. }
      split.
      { intro k. destruct (I6 k) as [(y & c' & A & B)|[A B]]; [left; exists y, c'; split; [now right|exact B]|].
        destruct (Z.eq_dec k (q_cron r)) as [->|N].
        - left. exists r, c. split; [now left|]. split; [reflexivity|].
          rewrite B. apply upd_same.
        - right. split; [|rewrite B; now apply upd_other].
          unfold wins. cbn [filter snd is_win map fst In]. intros [C|C]; [congruence|contradiction]. }
      intros h v. rewrite I7, R3, Q8, add_stat_add. unfold wins.
      cbn [filter snd is_win map fst]. unfold total; cbn [fold_right].
      rewrite (times_nodup _ _ (sf_once _ _ Sr)). fold (voter v r).
      rewrite (Z.eqb_sym (q_hid r) h).
      destruct (h =? q_hid r), (voter v r); cbn [andb]; f_equal; lia.
Qed.
End Pay.

(* ---- hex ---- *)
Lemma hexval_digit n : (n < 16)%N -> hexval (digit n) = Some n.
Proof.
  intro H. unfold hexval, digit. destruct (N.ltb_spec n 10).
  - assert (E : ((48 <=? 48 + n) && (48 + n <=? 57))%N = true) by lia. rewrite E. f_equal. lia.
  - assert (E : ((48 <=? 87 + n) && (87 + n <=? 57))%N = false) by lia. rewrite E.
    assert (E' : ((97 <=? 87 + n) && (87 + n <=? 102))%N = true) by lia. rewrite E'. f_equal. lia.
Qed.
Lemma hexdec_enc b : Forall (fun x => (x < 256)%N) b -> hexdec (hexenc b) = Some b.
Proof.
  induction 1 as [|x b H F IH]; [reflexivity|]. cbn [hexenc hexdec].
  assert (A : (x / 16 < 16)%N) by (apply N.div_lt_upper_bound; lia).
  assert (B : (x mod 16 < 16)%N) by (apply N.mod_lt; lia).
  rewrite (hexval_digit _ A), (hexval_digit _ B), IH.
  f_equal. f_equal. symmetry. apply N.div_mod. lia.
Qed.
