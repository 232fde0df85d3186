(* Invariant of the store of x/revenue and what every operation does to it. *)
From Verif Require Import Lib.Base Lib.Bytes Lib.Kv Revenue.Model Revenue.Spec.
Open Scope Z_scope.

Lemma beqb_refl a : beqb a a = true.
Proof. apply (proj2 (beqb_spec a a)). reflexivity. Qed.
Lemma beqb_neq a b : a <> b -> beqb a b = false.
Proof. intro H. destruct (beqb a b) eqn:E; [|reflexivity]. apply (proj1 (beqb_spec a b)) in E. contradiction. Qed.
Lemma beqb_case a b : {a = b /\ beqb a b = true} + {a <> b /\ beqb a b = false}.
Proof.
  destruct (beqb a b) eqn:E; [left|right]; split; try reflexivity.
  - apply (proj1 (beqb_spec a b)). exact E.
  - intros ->. rewrite beqb_refl in E. discriminate.
Qed.

(* ---------- keys ---------- *)
Lemma contract_len c : contract_ok c = true -> length c = 20%nat.
Proof. unfold contract_ok. intro H. apply andb_prop in H as [H _]. apply andb_prop in H as [_ H]. apply Nat.eqb_eq. exact H. Qed.
Lemma contract_bytes c : contract_ok c = true -> bytes_ok c.
Proof. unfold contract_ok. intro H. apply andb_prop in H as [_ H]. apply (proj1 (bytes_ok_b c)). exact H. Qed.
Lemma app_tail (d d' c c' : bytes) : length c = length c' -> d ++ c = d' ++ c' -> d = d' /\ c = c'.
Proof.
  intros L E. assert (Ld : length d = length d') by (apply (f_equal (@length N)) in E; rewrite !app_length in E; lia).
  revert d' Ld E. induction d as [|x d IH]; intros [|y d'] Ld E; try discriminate Ld; [split; [reflexivity|exact E]|].
  cbn [app] in E. injection E as -> E. destruct (IH d' ltac:(cbn in Ld; lia) E) as [-> ->]. split; reflexivity.
Qed.
Lemma dep_inj d c d' c' : length c = length c' -> dep_key d c = dep_key d' c' -> d = d' /\ c = c'.
Proof. intros L E. unfold dep_key in E. injection E as E. exact (app_tail d d' c c' L E). Qed.
Lemma wit_inj d c d' c' : length c = length c' -> wit_key d c = wit_key d' c' -> d = d' /\ c = c'.
Proof. intros L E. unfold wit_key in E. injection E as E. exact (app_tail d d' c c' L E). Qed.
Lemma rev_inj c c' : rev_key c = rev_key c' -> c = c'.
Proof. intro E. unfold rev_key in E. congruence. Qed.
Lemma rev_dep c d c' : rev_key c <> dep_key d c'.
Proof. unfold rev_key, dep_key. congruence. Qed.
Lemma rev_wit c d c' : rev_key c <> wit_key d c'.
Proof. unfold rev_key, wit_key. congruence. Qed.
Lemma dep_wit d c w c' : dep_key d c <> wit_key w c'.
Proof. unfold dep_key, wit_key. congruence. Qed.

Section Revenue.
Variables (dec : bytes -> option bytes) (enc : bytes -> bytes) (create : bytes -> Z -> bytes) (FC gov : bytes).
Hypothesis AF : address_format dec enc.
Hypothesis CF : create_format create.
Notation author := (author dec).
Notation payee := (payee dec).
Notation named_payee := (named_payee dec).
Notation run := (run dec enc create FC gov).
Notation step := (step dec enc create FC gov).
Notation runs := (runs dec enc create FC gov).

Lemma dec_ne t a : dec t = Some a -> t <> [].
Proof. intro E. exact (proj1 (proj1 AF t a E)). Qed.
Lemma dec_account t a : dec t = Some a -> account a.
Proof. intro E. exact (proj2 (proj1 AF t a E)). Qed.
Lemma enc_dec a : account a -> dec (enc a) = Some a.
Proof. exact (proj2 AF a). Qed.
Lemma enc_ne a : account a -> enc a <> [].
Proof. intro H. exact (dec_ne _ _ (enc_dec a H)). Qed.

(* a well-formed entry *)
Definition rev_ok (r : rev) : Prop :=
  contract_ok (r_contract r) = true /\
  (exists d, dec (r_deployer r) = Some d /\ enc d = r_deployer r) /\
  (r_withdrawer r = [] \/ exists w, dec (r_withdrawer r) = Some w).

Record good (s : st) : Prop := mk_good {
  g_sorted : ksorted (v_store s);
  g_kind : forall k v, kget (v_store s) k = Some v ->
    (exists r, k = rev_key (r_contract r) /\ v = VRev r) \/
    (exists d c, k = dep_key d c /\ v = VOne /\ author s c = Some d) \/
    (exists w c, k = wit_key w c /\ v = VOne /\ named_payee s c = Some w);
  g_rev : forall c r, get s c = Some r -> r_contract r = c /\ rev_ok r;
  g_dep : forall c d, author s c = Some d -> kget (v_store s) (dep_key d c) = Some VOne;
  g_wit : forall c d w, author s c = Some d -> named_payee s c = Some w -> w <> d -> kget (v_store s) (wit_key w c) = Some VOne;
  g_share : 0 <= v_share s <= ONE
}.

Lemma author_get s c d : author s c = Some d -> exists r, get s c = Some r /\ dec (r_deployer r) = Some d.
Proof. unfold Spec.author. destruct (get s c) as [r|]; [|discriminate]. intro E. exists r. split; [reflexivity|exact E]. Qed.
Lemma named_get s c w : named_payee s c = Some w -> exists r, get s c = Some r /\ r_withdrawer r <> [] /\ dec (r_withdrawer r) = Some w.
Proof.
  unfold Spec.named_payee. destruct (get s c) as [r|]; [|discriminate]. destruct (r_withdrawer r) as [|x t] eqn:W; [discriminate|].
  intro E. exists r. rewrite W. split; [reflexivity|]. split; [discriminate|exact E].
Qed.
Lemma get_kget s c r : get s c = Some r <-> kget (v_store s) (rev_key c) = Some (VRev r).
Proof. unfold get. destruct (kget (v_store s) (rev_key c)) as [[r'|]|]; split; intro E; try discriminate; congruence. Qed.
Lemma good_reg s c : good s -> registered s c = match get s c with Some _ => true | None => false end.
Proof.
  intro G. unfold registered, get. destruct (kget (v_store s) (rev_key c)) as [[r|]|] eqn:K; try reflexivity.
  destruct (g_kind s G _ _ K) as [(r & _ & E)|[(d & c' & E & _)|(w & c' & E & _)]]; [discriminate| |]; exfalso.
  - exact (rev_dep _ _ _ E).
  - exact (rev_wit _ _ _ E).
Qed.
Lemma good_author s c r : good s -> get s c = Some r -> exists d, author s c = Some d /\ dec (r_deployer r) = Some d /\ r_deployer r = enc d.
Proof.
  intros G E. destruct (g_rev s G c r E) as (_ & _ & (d & D1 & D2) & _). exists d. unfold Spec.author. rewrite E. split; [exact D1|]. split; [exact D1|symmetry; exact D2].
Qed.

(* an operation that touches only the keys of one contract *)
Definition own_key (c0 k : bytes) : Prop := k = rev_key c0 \/ (exists d, k = dep_key d c0) \/ (exists w, k = wit_key w c0).
Lemma own_other c0 c k : contract_ok c0 = true -> contract_ok c = true -> c <> c0 -> own_key c k -> ~ own_key c0 k.
Proof.
  intros H0 H N O O0. pose proof (contract_len _ H0) as L0. pose proof (contract_len _ H) as L.
  destruct O as [->|[[d ->]|[w ->]]]; destruct O0 as [E|[[d' E]|[w' E]]].
  - apply N. exact (rev_inj _ _ E).
  - exact (rev_dep _ _ _ E).
  - exact (rev_wit _ _ _ E).
  - exact (rev_dep _ _ _ (eq_sym E)).
  - apply dep_inj in E as [_ E]; [exact (N E)|lia].
  - exact (dep_wit _ _ _ _ E).
  - exact (rev_wit _ _ _ (eq_sym E)).
  - exact (dep_wit _ _ _ _ (eq_sym E)).
  - apply wit_inj in E as [_ E]; [exact (N E)|lia].
Qed.
Definition touches (s s' : st) (c0 : bytes) : Prop := forall k, kget (v_store s') k = kget (v_store s) k \/ own_key c0 k.
Lemma touches_get s s' c0 c : contract_ok c0 = true -> touches s s' c0 -> c <> c0 -> get s' c = get s c.
Proof.
  intros H0 T N. unfold get. destruct (T (rev_key c)) as [->|[E|[[d E]|[w E]]]]; [reflexivity| | |]; exfalso.
  - exact (N (rev_inj _ _ E)).
  - exact (rev_dep _ _ _ E).
  - exact (rev_wit _ _ _ E).
Qed.
Lemma local s s' c0 : good s -> contract_ok c0 = true -> touches s s' c0 ->
  ksorted (v_store s') -> 0 <= v_share s' <= ONE ->
  (match kget (v_store s') (rev_key c0) with None => True | Some VOne => False | Some (VRev r) => r_contract r = c0 /\ rev_ok r end) ->
  (forall d v, kget (v_store s') (dep_key d c0) = Some v -> v = VOne /\ author s' c0 = Some d) ->
  (forall w v, kget (v_store s') (wit_key w c0) = Some v -> v = VOne /\ named_payee s' c0 = Some w) ->
  (forall d, author s' c0 = Some d -> kget (v_store s') (dep_key d c0) = Some VOne) ->
  (forall d w, author s' c0 = Some d -> named_payee s' c0 = Some w -> w <> d -> kget (v_store s') (wit_key w c0) = Some VOne) ->
  good s'.
Proof.
  intros G H0 T S' SH R D1 W1 D2 W2.
  assert (Ga : forall c, c <> c0 -> get s' c = get s c) by (intros c N; exact (touches_get s s' c0 c H0 T N)).
  assert (Aa : forall c, c <> c0 -> author s' c = author s c) by (intros c N; unfold Spec.author; rewrite (Ga c N); reflexivity).
  assert (Na : forall c, c <> c0 -> named_payee s' c = named_payee s c) by (intros c N; unfold Spec.named_payee; rewrite (Ga c N); reflexivity).
  assert (Ca : forall c r, c <> c0 -> get s' c = Some r -> contract_ok c = true).
  { intros c r N E. rewrite (Ga c N) in E. destruct (g_rev s G c r E) as [E1 [E2 _]]. rewrite E1 in E2. exact E2. }
  assert (Ka : forall c k, c <> c0 -> contract_ok c = true -> own_key c k -> kget (v_store s') k = kget (v_store s) k).
  { intros c k N C O. destruct (T k) as [E|O0]; [exact E|]. destruct (own_other c0 c k H0 C N O O0). }
  constructor.
  - exact S'.
  - intros k v K. destruct (T k) as [E|O].
    + pose proof K as K0. rewrite E in K0. destruct (g_kind s G k v K0) as [P|[(d & c & -> & -> & A)|(w & c & -> & -> & A)]]; [left; exact P| |].
      * right. left. destruct (beqb_case c c0) as [[-> _]|[N _]].
        -- destruct (D1 d VOne K) as [_ D]. exists d, c0. split; [reflexivity|]. split; [reflexivity|exact D].
        -- exists d, c. rewrite (Aa c N). split; [reflexivity|]. split; [reflexivity|exact A].
      * right. right. destruct (beqb_case c c0) as [[-> _]|[N _]].
        -- destruct (W1 w VOne K) as [_ D]. exists w, c0. split; [reflexivity|]. split; [reflexivity|exact D].
        -- exists w, c. rewrite (Na c N). split; [reflexivity|]. split; [reflexivity|exact A].
    + destruct O as [->|[[d ->]|[w ->]]].
      * rewrite K in R. destruct v as [r|]; [|destruct R]. left. exists r. rewrite (proj1 R). split; reflexivity.
      * destruct (D1 d v K) as [-> D]. right. left. exists d, c0. split; [reflexivity|]. split; [reflexivity|exact D].
      * destruct (W1 w v K) as [-> D]. right. right. exists w, c0. split; [reflexivity|]. split; [reflexivity|exact D].
  - intros c r E. destruct (beqb_case c c0) as [[-> _]|[N _]].
    + apply (proj1 (get_kget _ _ _)) in E. rewrite E in R. exact R.
    + rewrite (Ga c N) in E. exact (g_rev s G c r E).
  - intros c d A. destruct (beqb_case c c0) as [[-> _]|[N _]]; [exact (D2 d A)|].
    pose proof (author_get _ _ _ A) as (r & E & _). pose proof (Ca c r N E) as C.
    rewrite (Ka c _ N C (or_intror (or_introl (ex_intro _ d eq_refl)))). rewrite (Aa c N) in A. exact (g_dep s G c d A).
  - intros c d w A P X. destruct (beqb_case c c0) as [[-> _]|[N _]]; [exact (W2 d w A P X)|].
    pose proof (author_get _ _ _ A) as (r & E & _). pose proof (Ca c r N E) as C.
    rewrite (Ka c _ N C (or_intror (or_intror (ex_intro _ w eq_refl)))). rewrite (Aa c N) in A. rewrite (Na c N) in P. exact (g_wit s G c d w A P X).
  - exact SH.
Qed.
Lemma touches_refl s c : touches s s c.
Proof. intro k. left. reflexivity. Qed.

(* nothing about an unregistered contract is in the indexes *)
Lemma unreg_dep s c d : good s -> get s c = None -> contract_ok c = true -> kget (v_store s) (dep_key d c) = None.
Proof.
  intros G E C. destruct (kget (v_store s) (dep_key d c)) as [v|] eqn:K; [|reflexivity].
  destruct (g_kind s G _ _ K) as [(r & X & _)|[(d' & c' & X & _ & A)|(w & c' & X & _)]]; exfalso.
  - exact (rev_dep _ _ _ (eq_sym X)).
  - pose proof (author_get _ _ _ A) as (r & E' & _). destruct (g_rev s G c' r E') as [Z1 [Z2 _]]. rewrite Z1 in Z2.
    apply dep_inj in X as [_ ->]; [congruence|rewrite (contract_len _ C), (contract_len _ Z2); reflexivity].
  - exact (dep_wit _ _ _ _ X).
Qed.
Lemma wit_only s c w v : good s -> contract_ok c = true -> kget (v_store s) (wit_key w c) = Some v -> v = VOne /\ named_payee s c = Some w.
Proof.
  intros G C K. destruct (g_kind s G _ _ K) as [(r & X & _)|[(d' & c' & X & _ & A)|(w' & c' & X & -> & A)]].
  - destruct (rev_wit _ _ _ (eq_sym X)).
  - destruct (dep_wit _ _ _ _ (eq_sym X)).
  - pose proof (named_get _ _ _ A) as (r & E' & _). destruct (g_rev s G c' r E') as [Z1 [Z2 _]]. rewrite Z1 in Z2.
    apply wit_inj in X as [-> ->]; [split; [reflexivity|exact A]|rewrite (contract_len _ C), (contract_len _ Z2); reflexivity].
Qed.
Lemma dep_only s c d v : good s -> contract_ok c = true -> kget (v_store s) (dep_key d c) = Some v -> v = VOne /\ author s c = Some d.
Proof.
  intros G C K. destruct (g_kind s G _ _ K) as [(r & X & _)|[(d' & c' & X & -> & A)|(w' & c' & X & _)]].
  - destruct (rev_dep _ _ _ (eq_sym X)).
  - pose proof (author_get _ _ _ A) as (r & E' & _). destruct (g_rev s G c' r E') as [Z1 [Z2 _]]. rewrite Z1 in Z2.
    apply dep_inj in X as [-> ->]; [split; [reflexivity|exact A]|rewrite (contract_len _ C), (contract_len _ Z2); reflexivity].
  - destruct (dep_wit _ _ _ _ X).
Qed.
Lemma unreg_wit s c w : good s -> get s c = None -> contract_ok c = true -> kget (v_store s) (wit_key w c) = None.
Proof.
  intros G E C. destruct (kget (v_store s) (wit_key w c)) as [v|] eqn:K; [|reflexivity].
  destruct (wit_only s c w v G C K) as [_ A]. pose proof (named_get _ _ _ A) as (r & E' & _). congruence.
Qed.

(* ---------- entering a contract ---------- *)
Definition enter (s : st) (r : rev) (d : bytes) (w : bytes) : st :=
  let s1 := set_dep (set_rev s r) d (r_contract r) in
  match w with [] => s1 | _ => set_wit s1 w (r_contract r) end.
Lemma enter_same s r d w : v_on (enter s r d w) = v_on s /\ v_share (enter s r d w) = v_share s /\ v_bal (enter s r d w) = v_bal s.
Proof. unfold enter. destruct w; (split; [|split]); reflexivity. Qed.
Lemma enter_sorted s r d w : ksorted (v_store s) -> ksorted (v_store (enter s r d w)).
Proof.
  intro S. unfold enter. destruct w; cbn [set_wit set_dep set_rev set_store v_store]; repeat apply kset_sorted; exact S.
Qed.
Lemma enter_kget s r d w k : ksorted (v_store s) ->
  kget (v_store (enter s r d w)) k =
    if (match w with [] => false | _ => beqb k (wit_key w (r_contract r)) end) then Some VOne
    else if beqb k (dep_key d (r_contract r)) then Some VOne
    else if beqb k (rev_key (r_contract r)) then Some (VRev r)
    else kget (v_store s) k.
Proof.
  intro S. unfold enter. destruct w; cbn [set_wit set_dep set_rev set_store v_store].
  - rewrite kget_kset by (apply kset_sorted; exact S). rewrite kget_kset by exact S. reflexivity.
  - rewrite kget_kset by (apply kset_sorted, kset_sorted; exact S). rewrite kget_kset by (apply kset_sorted; exact S).
    rewrite kget_kset by exact S. reflexivity.
Qed.
Lemma enter_get s r d w c : ksorted (v_store s) ->
  get (enter s r d w) c = if beqb c (r_contract r) then Some r else get s c.
Proof.
  intro S. unfold get. rewrite (enter_kget s r d w _ S).
  replace (match w with [] => false | _ => beqb (rev_key c) (wit_key w (r_contract r)) end) with false
    by (destruct w; [reflexivity|symmetry; apply beqb_neq; apply rev_wit]).
  rewrite (beqb_neq _ _ (rev_dep c d (r_contract r))).
  destruct (beqb_case c (r_contract r)) as [[-> E]|[N E]]; rewrite E.
  - rewrite beqb_refl. reflexivity.
  - rewrite (beqb_neq (rev_key c) (rev_key (r_contract r))); [reflexivity|]. intro X. exact (N (rev_inj _ _ X)).
Qed.
Lemma enter_good s r d w : good s -> get s (r_contract r) = None -> rev_ok r -> dec (r_deployer r) = Some d ->
  (w = [] -> r_withdrawer r = [] \/ dec (r_withdrawer r) = Some d) ->
  (w <> [] -> dec (r_withdrawer r) = Some w) ->
  good (enter s r d w).
Proof.
  intros G E R D W0 W1. pose proof (g_sorted s G) as S. pose proof R as (C & _ & Wr).
  destruct (enter_same s r d w) as (_ & SH & _).
  assert (Ge : get (enter s r d w) (r_contract r) = Some r) by (rewrite enter_get by exact S; rewrite beqb_refl; reflexivity).
  assert (Ae : author (enter s r d w) (r_contract r) = Some d) by (unfold Spec.author; rewrite Ge; exact D).
  assert (Ne : forall v, named_payee (enter s r d w) (r_contract r) = Some v <-> r_withdrawer r <> [] /\ dec (r_withdrawer r) = Some v).
  { intro v. unfold Spec.named_payee. rewrite Ge. destruct (r_withdrawer r); split.
    - discriminate.
    - intros [X _]. destruct X. reflexivity.
    - intro X. split; [discriminate|exact X].
    - intros [_ X]. exact X. }
  apply (local s _ (r_contract r) G C).
  - intro k. rewrite (enter_kget s r d w k S). destruct w as [|x w].
    + destruct (beqb_case k (dep_key d (r_contract r))) as [[-> E1]|[N1 E1]]; rewrite E1; [right; right; left; exists d; reflexivity|].
      destruct (beqb_case k (rev_key (r_contract r))) as [[-> E2]|[N2 E2]]; rewrite E2; [right; left; reflexivity|left; reflexivity].
    + destruct (beqb_case k (wit_key (x :: w) (r_contract r))) as [[-> E0]|[N0 E0]]; rewrite E0; [right; right; right; exists (x :: w); reflexivity|].
      destruct (beqb_case k (dep_key d (r_contract r))) as [[-> E1]|[N1 E1]]; rewrite E1; [right; right; left; exists d; reflexivity|].
      destruct (beqb_case k (rev_key (r_contract r))) as [[-> E2]|[N2 E2]]; rewrite E2; [right; left; reflexivity|left; reflexivity].
  - apply enter_sorted. exact S.
  - rewrite SH. exact (g_share s G).
  - apply (proj1 (get_kget _ _ _)) in Ge. rewrite Ge. split; [reflexivity|exact R].
  - intros d' v K. rewrite Ae. rewrite (enter_kget s r d w _ S) in K.
    replace (match w with [] => false | _ => beqb (dep_key d' (r_contract r)) (wit_key w (r_contract r)) end) with false in K
      by (destruct w; [reflexivity|symmetry; apply beqb_neq; apply dep_wit]).
    destruct (beqb_case (dep_key d' (r_contract r)) (dep_key d (r_contract r))) as [[X E1]|[N1 E1]]; rewrite E1 in K.
    + apply dep_inj in X as [-> _]; [|reflexivity]. split; [congruence|reflexivity].
    + rewrite (beqb_neq _ _ (fun X => rev_dep _ _ _ (eq_sym X))) in K. rewrite (unreg_dep s _ _ G E C) in K. discriminate.
  - intros w' v K. rewrite (enter_kget s r d w _ S) in K. destruct w as [|x w].
    + rewrite (beqb_neq _ _ (fun X => dep_wit _ _ _ _ (eq_sym X))) in K. rewrite (beqb_neq _ _ (fun X => rev_wit _ _ _ (eq_sym X))) in K.
      rewrite (unreg_wit s _ _ G E C) in K. discriminate.
    + destruct (beqb_case (wit_key w' (r_contract r)) (wit_key (x :: w) (r_contract r))) as [[X E1]|[N1 E1]]; rewrite E1 in K.
      * apply wit_inj in X as [-> _]; [|reflexivity]. split; [congruence|]. apply Ne. specialize (W1 ltac:(discriminate)).
        split; [exact (dec_ne _ _ W1)|exact W1].
      * rewrite (beqb_neq _ _ (fun X => dep_wit _ _ _ _ (eq_sym X))) in K. rewrite (beqb_neq _ _ (fun X => rev_wit _ _ _ (eq_sym X))) in K.
        rewrite (unreg_wit s _ _ G E C) in K. discriminate.
  - intros d' A. rewrite Ae in A. injection A as <-. rewrite (enter_kget s r d w _ S), beqb_refl.
    destruct w; [reflexivity|]. rewrite (beqb_neq _ _ (dep_wit _ _ _ _)). reflexivity.
  - intros d' w' A N X. rewrite Ae in A. injection A as <-. apply Ne in N as [N1 N2]. rewrite (enter_kget s r d w _ S).
    destruct w as [|y w].
    + destruct (W0 eq_refl) as [Y|Y]; [contradiction|]. congruence.
    + specialize (W1 ltac:(discriminate)). assert (y :: w = w') by congruence. subst w'. rewrite beqb_refl. reflexivity.
Qed.

(* ---------- RegisterRevenue ---------- *)
(* the account to be paid that the message names, if any *)
Definition wanted (dt wt : bytes) : bytes :=
  match wt with
  | [] => []
  | _ => if beqb wt dt then [] else match dec wt with Some w => w | None => [] end
  end.
Definition may_register (e : env) (s : st) (dt c wt : bytes) (n : list Z) (d : bytes) : Prop :=
  dec dt = Some d /\ contract_ok c = true /\ (wt = [] \/ dec wt <> None) /\ (1 <= length n <= 20)%nat /\
  v_on s = true /\ get s c = None /\ e_exists e (to20 d) = true /\ e_code e (to20 d) = false /\
  e_exists e c = true /\ e_code e c = true /\ c = derived create d n.
Lemma register_spec e s dt c wt n s' : good s ->
  register dec enc create e s dt c wt n = Ok s' <->
  exists d, may_register e s dt c wt n d /\ s' = enter s (new_rev enc c d (wanted dt wt)) d (wanted dt wt).
Proof.
  intro G. unfold register, may_register, wanted, derived, is_addr. rewrite (good_reg s c G).
  destruct (dec dt) as [d|] eqn:D; cbn [negb orb];
    [|split; [discriminate|intros (d & (X & _) & _); discriminate]].
  destruct (contract_ok c) eqn:C; cbn [negb];
    [|split; [discriminate|intros (d' & (_ & X & _) & _); discriminate]].
  assert (WW : (match wt with [] => true | _ => match dec wt with Some _ => true | None => false end end) = true <-> wt = [] \/ dec wt <> None).
  { destruct wt as [|x wt]; [split; [left; reflexivity|reflexivity]|]. destruct (dec (x :: wt)); split; intro X; try reflexivity; try discriminate.
    - right. discriminate.
    - destruct X as [X|X]; [discriminate|destruct X; reflexivity]. }
  destruct (match wt with [] => true | _ => match dec wt with Some _ => true | None => false end end) eqn:W; cbn [negb].
  2:{ split; [discriminate|]. intros (d' & (_ & _ & X & _) & _). apply (proj2 WW) in X. discriminate. }
  pose proof (proj1 WW eq_refl) as W'. clear WW.
  destruct (Nat.ltb_spec (length n) 1) as [L1|L1]; [split; [discriminate|intros (d' & (_ & _ & _ & X & _) & _); lia]|].
  destruct (Nat.ltb_spec 20 (length n)) as [L2|L2]; [split; [discriminate|intros (d' & (_ & _ & _ & X & _) & _); lia]|].
  destruct (v_on s) eqn:O; cbn [negb]; [|split; [discriminate|intros (d' & (_ & _ & _ & _ & X & _) & _); discriminate]].
  destruct (get s c) as [r|] eqn:E; [split; [discriminate|intros (d' & (_ & _ & _ & _ & _ & X & _) & _); discriminate]|].
  unfold must at 1. rewrite D. destruct (e_exists e (to20 d)) eqn:X1; cbn [negb].
  2:{ split; [discriminate|]. intros (d' & (A & _ & _ & _ & _ & _ & X & _) & _). injection A as <-. congruence. }
  destruct (e_code e (to20 d)) eqn:X2; cbn [negb].
  1:{ split; [discriminate|]. intros (d' & (A & _ & _ & _ & _ & _ & _ & X & _) & _). injection A as <-. congruence. }
  destruct (e_exists e c) eqn:X3; cbn [negb orb].
  2:{ split; [discriminate|]. intros (d' & (A & _ & _ & _ & _ & _ & _ & _ & X & _) & _). discriminate. }
  destruct (e_code e c) eqn:X4; cbn [negb orb].
  2:{ split; [discriminate|]. intros (d' & (A & _ & _ & _ & _ & _ & _ & _ & _ & X & _) & _). discriminate. }
  assert (RB : forall (f : bytes -> res st),
    rbind (if negb (match wt with [] => true | _ => false end) && negb (beqb wt dt) then must dec wt (fun w => Ok w) else Ok []) f =
    f (match wt with [] => [] | _ => if beqb wt dt then [] else match dec wt with Some w => w | None => [] end end)).
  { intro f. destruct wt as [|x wt]; [reflexivity|]. cbn [negb andb]. destruct (beqb (x :: wt) dt); [reflexivity|]. cbn [negb]. unfold must.
    destruct (dec (x :: wt)); [reflexivity|]. destruct W' as [W'|W']; [discriminate|destruct W'; reflexivity]. }
  rewrite RB. clear RB.
  set (w := match wt with [] => [] | _ => if beqb wt dt then [] else match dec wt with Some w => w | None => [] end end).
  destruct (beqb_case c (fold_left create n (to20 d))) as [[Q1 Q2]|[Q1 Q2]]; rewrite Q2; cbn [negb].
  - split.
    + intro H. exists d. split.
      * repeat (split; [first [exact W'|reflexivity|lia]|]); exact Q1.
      * injection H as <-. unfold enter, new_rev. cbn [r_contract]. reflexivity.
    + intros (d' & (A & _) & ->). injection A as <-. unfold enter, new_rev. cbn [r_contract]. reflexivity.
  - split; [discriminate|]. intros (d' & (A & _ & _ & _ & _ & _ & _ & _ & _ & _ & X) & _). injection A as <-. contradiction.
Qed.
Lemma wanted_dec dt wt : (wt = [] \/ dec wt <> None) -> wanted dt wt <> [] -> dec wt = Some (wanted dt wt).
Proof.
  unfold wanted. intros H N. destruct wt as [|x wt]; [contradiction|]. destruct (beqb (x :: wt) dt); [contradiction|].
  destruct (dec (x :: wt)); [reflexivity|contradiction].
Qed.
Lemma new_rev_ok c d w : contract_ok c = true -> account d -> (w = [] \/ account w) -> rev_ok (new_rev enc c d w).
Proof.
  intros C D W. unfold rev_ok, new_rev. cbn [r_contract r_deployer r_withdrawer]. split; [exact C|]. split.
  - exists d. split; [exact (enc_dec d D)|reflexivity].
  - destruct w as [|x w]; [left; reflexivity|]. right. exists (x :: w). destruct W as [W|W]; [discriminate|]. exact (enc_dec _ W).
Qed.
Lemma register_good e s dt c wt n s' : good s -> register dec enc create e s dt c wt n = Ok s' -> good s'.
Proof.
  intros G H. apply (proj1 (register_spec e s dt c wt n s' G)) in H as (d & (D & C & W & _ & _ & E & _) & ->).
  assert (Aw : wanted dt wt = [] \/ account (wanted dt wt)).
  { destruct (wanted dt wt) as [|x w] eqn:Q; [left; reflexivity|]. right. rewrite <- Q.
    apply (dec_account wt). apply wanted_dec; [exact W|]. rewrite Q. discriminate. }
  apply enter_good.
  - exact G.
  - exact E.
  - apply new_rev_ok; [exact C|exact (dec_account _ _ D)|exact Aw].
  - exact (enc_dec d (dec_account _ _ D)).
  - intro Q. left. unfold new_rev. cbn [r_withdrawer]. rewrite Q. reflexivity.
  - intro Q. unfold new_rev. cbn [r_withdrawer]. destruct Aw as [Aw|Aw]; [contradiction|].
    destruct (wanted dt wt) as [|x w] eqn:Y; [contradiction|]. exact (enc_dec _ Aw).
Qed.

(* ---------- PostContractCreation ---------- *)
Lemma created_spec s c d : good s -> contract_ok c = true -> account d ->
  created enc s c d = if (v_on s && negb (v_share s =? 0))%bool
                      then match get s c with Some _ => s | None => enter s (new_rev enc c d d) d [] end else s.
Proof.
  intros G C D. unfold created. rewrite (good_reg s c G). destruct (v_on s); [|reflexivity].
  destruct (v_share s =? 0); [reflexivity|]. cbn [negb orb andb]. destruct (get s c); reflexivity.
Qed.
Lemma created_good s c d : good s -> contract_ok c = true -> account d -> good (created enc s c d).
Proof.
  intros G C D. rewrite (created_spec s c d G C D). destruct (v_on s && negb (v_share s =? 0))%bool; [|exact G].
  destruct (get s c) eqn:E; [exact G|]. apply enter_good.
  - exact G.
  - exact E.
  - apply new_rev_ok; [exact C|exact D|right; exact D].
  - exact (enc_dec d D).
  - intros _. right. unfold new_rev. cbn [r_withdrawer]. destruct d as [|x d]; [destruct D as [D _]; congruence|]. exact (enc_dec _ D).
  - congruence.
Qed.

(* ---------- UpdateRevenue ---------- *)
Definition new_text (dt wt : bytes) : bytes := if beqb wt dt then [] else wt.
Definition may_update (s : st) (dt c wt : bytes) (r : rev) : Prop :=
  contract_ok c = true /\ dec wt <> None /\ v_on s = true /\ get s c = Some r /\ dt = r_deployer r /\
  new_text dt wt <> r_withdrawer r.
Definition updated (s : st) (c wt : bytes) (r : rev) : st :=
  let t := new_text (r_deployer r) wt in
  let s1 := match r_withdrawer r with [] => s | o => match dec o with Some w => del_wit s w c | None => s end end in
  let s2 := match t with [] => s1 | _ => match dec t with Some w => set_wit s1 w c | None => s1 end end in
  set_rev s2 (mk_rev (r_contract r) (r_deployer r) t).
Lemma update_spec s dt c wt s' : good s ->
  update dec s dt c wt = Ok s' <-> exists r, may_update s dt c wt r /\ s' = updated s c wt r.
Proof.
  intro G. unfold update, may_update, is_addr.
  destruct (dec dt) as [d|] eqn:D; cbn [negb orb].
  2:{ split; [discriminate|]. intros (r & (_ & _ & _ & E & -> & _) & _). destruct (good_author s c r G E) as (d & _ & X & _). congruence. }
  destruct (contract_ok c) eqn:C; cbn [negb orb]; [|split; [discriminate|intros (r & (X & _) & _); discriminate]].
  destruct (dec wt) as [w|] eqn:W; cbn [negb]; [|split; [discriminate|intros (r & (_ & X & _) & _); destruct X; reflexivity]].
  destruct (v_on s) eqn:O; cbn [negb]; [|split; [discriminate|intros (r & (_ & _ & X & _) & _); discriminate]].
  destruct (get s c) as [r|] eqn:E; [|split; [discriminate|intros (r & (_ & _ & _ & X & _) & _); discriminate]].
  destruct (beqb_case dt (r_deployer r)) as [[Q1 Q2]|[Q1 Q2]]; rewrite Q2; cbn [negb].
  2:{ split; [discriminate|]. intros (r' & (_ & _ & _ & X & Y & _) & _). injection X as <-. contradiction. }
  subst dt. clear Q2. change (if beqb wt (r_deployer r) then [] else wt) with (new_text (r_deployer r) wt). cbv zeta.
  destruct (beqb_case (new_text (r_deployer r) wt) (r_withdrawer r)) as [[N1 N2]|[N1 N2]]; rewrite N2.
  1:{ split; [discriminate|]. intros (r' & (_ & _ & _ & X & _ & Y) & _). injection X as <-. contradiction. }
  assert (OK : rbind (match r_withdrawer r with [] => Ok s | o => must dec o (fun w0 => Ok (del_wit s w0 c)) end) (fun s1 =>
     rbind (match new_text (r_deployer r) wt with [] => Ok s1 | _ => must dec (new_text (r_deployer r) wt) (fun w0 => Ok (set_wit s1 w0 c)) end) (fun s2 =>
     Ok (set_rev s2 (mk_rev (r_contract r) (r_deployer r) (new_text (r_deployer r) wt))))) = Ok (updated s c wt r)).
  { unfold updated. cbv zeta. destruct (g_rev s G c r E) as (_ & _ & _ & Wr).
    assert (T : new_text (r_deployer r) wt = [] \/ dec (new_text (r_deployer r) wt) = Some w) by (unfold new_text; destruct (beqb wt (r_deployer r)); [left; reflexivity|right; exact W]).
    destruct (r_withdrawer r) as [|x o] eqn:Y.
    - cbn [rbind]. destruct (new_text (r_deployer r) wt) as [|z t] eqn:Z1; [reflexivity|]. destruct T as [T|T]; [discriminate|]. unfold must. rewrite T. reflexivity.
    - destruct Wr as [Wr|[w0 Wr]]; [discriminate|]. unfold must at 1. rewrite Wr. cbn [rbind].
      destruct (new_text (r_deployer r) wt) as [|z t] eqn:Z1; [reflexivity|]. destruct T as [T|T]; [discriminate|]. unfold must. rewrite T. reflexivity. }
  rewrite OK. split.
  - intro H. injection H as <-. exists r. split; [|reflexivity].
    split; [reflexivity|]. split; [discriminate|]. split; [reflexivity|]. split; [reflexivity|]. split; [reflexivity|exact N1].
  - intros (r' & (_ & _ & _ & X & _) & ->). injection X as <-. reflexivity.
Qed.
Lemma updated_same s c wt r : v_on (updated s c wt r) = v_on s /\ v_share (updated s c wt r) = v_share s /\ v_bal (updated s c wt r) = v_bal s.
Proof.
  unfold updated. cbv zeta. destruct (r_withdrawer r) as [|x o]; [|destruct (dec (x :: o))];
    (destruct (new_text (r_deployer r) wt) as [|z t]; [|destruct (dec (z :: t))]); (split; [|split]); reflexivity.
Qed.
(* what is in the store afterwards *)
Definition old_wit (r : rev) : option bytes := match r_withdrawer r with [] => None | o => dec o end.
Definition new_wit (r : rev) (wt : bytes) : option bytes := match new_text (r_deployer r) wt with [] => None | t => dec t end.
Definition is_key (k : bytes) (o : option bytes) (c : bytes) : bool := match o with Some w => beqb k (wit_key w c) | None => false end.
Lemma updated_store s c wt r : ksorted (v_store s) ->
  ksorted (v_store (updated s c wt r)) /\
  forall k, kget (v_store (updated s c wt r)) k =
    if beqb k (rev_key (r_contract r)) then Some (VRev (mk_rev (r_contract r) (r_deployer r) (new_text (r_deployer r) wt)))
    else if is_key k (new_wit r wt) c then Some VOne
    else if is_key k (old_wit r) c then None
    else kget (v_store s) k.
Proof.
  intro S. unfold updated, old_wit, new_wit, is_key. cbv zeta.
  set (s1 := match r_withdrawer r with [] => s | o => match dec o with Some w => del_wit s w c | None => s end end).
  assert (S1 : ksorted (v_store s1) /\ forall k, kget (v_store s1) k =
     if match (match r_withdrawer r with [] => None | o => dec o end) with Some w => beqb k (wit_key w c) | None => false end then None else kget (v_store s) k).
  { subst s1. destruct (r_withdrawer r) as [|x o]; [split; [exact S|reflexivity]|]. destruct (dec (x :: o)) as [w|]; [|split; [exact S|reflexivity]].
    cbn [del_wit set_store v_store]. split; [apply kdel_sorted; exact S|]. intro k. apply kget_kdel. }
  destruct S1 as [S1 K1]. clearbody s1.
  set (s2 := match new_text (r_deployer r) wt with [] => s1 | t => match dec (new_text (r_deployer r) wt) with Some w => set_wit s1 w c | None => s1 end end).
  assert (S2 : ksorted (v_store s2) /\ forall k, kget (v_store s2) k =
     if match (match new_text (r_deployer r) wt with [] => None | t => dec t end) with Some w => beqb k (wit_key w c) | None => false end then Some VOne else kget (v_store s1) k).
  { subst s2. destruct (new_text (r_deployer r) wt) as [|x o]; [split; [exact S1|reflexivity]|]. destruct (dec (x :: o)) as [w|]; [|split; [exact S1|reflexivity]].
    cbn [set_wit set_store v_store]. split; [apply kset_sorted; exact S1|]. intro k. apply kget_kset. exact S1. }
  destruct S2 as [S2 K2]. clearbody s2. cbn [set_rev set_store v_store r_contract]. split; [apply kset_sorted; exact S2|].
  intro k. rewrite kget_kset by exact S2. rewrite K2, K1. reflexivity.
Qed.
Lemma updated_get s c wt r c' : ksorted (v_store s) ->
  get (updated s c wt r) c' = if beqb c' (r_contract r) then Some (mk_rev (r_contract r) (r_deployer r) (new_text (r_deployer r) wt)) else get s c'.
Proof.
  intro S. destruct (updated_store s c wt r S) as [_ K]. unfold get. rewrite K.
  assert (I : forall o, is_key (rev_key c') o c = false) by (intros [w|]; [cbn [is_key]; apply beqb_neq; apply rev_wit|reflexivity]).
  rewrite !I. destruct (beqb_case c' (r_contract r)) as [[-> E]|[N E]]; rewrite E.
  - rewrite beqb_refl. reflexivity.
  - rewrite (beqb_neq (rev_key c') (rev_key (r_contract r))); [reflexivity|]. intro X. exact (N (rev_inj _ _ X)).
Qed.
Lemma is_key_spec w o c : is_key (wit_key w c) o c = true <-> o = Some w.
Proof.
  destruct o as [v|]; cbn [is_key]; [|split; discriminate]. split.
  - intro E. apply (proj1 (beqb_spec _ _)) in E. apply wit_inj in E as [-> _]; reflexivity.
  - intro E. injection E as ->. apply beqb_refl.
Qed.
Lemma update_good s dt c wt s' : good s -> update dec s dt c wt = Ok s' -> good s'.
Proof.
  intros G H. apply (proj1 (update_spec s dt c wt s' G)) in H as (r & (C & W & _ & E & -> & _) & ->).
  pose proof (g_sorted s G) as S. destruct (g_rev s G c r E) as (Rc & R1 & (d & D1 & D2) & Wr).
  destruct (updated_store s c wt r S) as [S' K]. rewrite Rc in K. destruct (updated_same s c wt r) as (_ & SH & _).
  destruct (dec wt) as [w|] eqn:Ew; [|destruct W; reflexivity]. clear W.
  set (r' := mk_rev c (r_deployer r) (new_text (r_deployer r) wt)) in *.
  assert (Ge : get (updated s c wt r) c = Some r') by (rewrite updated_get by exact S; rewrite Rc, beqb_refl; reflexivity).
  assert (Ae : author (updated s c wt r) c = Some d) by (unfold Spec.author; rewrite Ge; exact D1).
  assert (A0 : author s c = Some d) by (unfold Spec.author; rewrite E; exact D1).
  assert (T : new_text (r_deployer r) wt = [] \/ dec (new_text (r_deployer r) wt) = Some w)
    by (unfold new_text; destruct (beqb wt (r_deployer r)); [left; reflexivity|right; exact Ew]).
  assert (Ne : named_payee (updated s c wt r) c = new_wit r wt) by (unfold Spec.named_payee, new_wit; rewrite Ge; reflexivity).
  assert (No : named_payee s c = old_wit r) by (unfold Spec.named_payee, old_wit; rewrite E; reflexivity).
  assert (Kd : forall d' o, is_key (dep_key d' c) o c = false) by (intros d' [v|]; [cbn [is_key]; apply beqb_neq; apply dep_wit|reflexivity]).
  apply (local s _ c G C).
  - intro k. rewrite K. destruct (beqb_case k (rev_key c)) as [[-> E1]|[_ E1]]; rewrite E1; [right; left; reflexivity|].
    destruct (new_wit r wt) as [v|]; cbn [is_key].
    + destruct (beqb_case k (wit_key v c)) as [[-> E2]|[_ E2]]; rewrite E2; [right; right; right; exists v; reflexivity|].
      destruct (old_wit r) as [u|]; cbn [is_key]; [|left; reflexivity].
      destruct (beqb_case k (wit_key u c)) as [[-> E3]|[_ E3]]; rewrite E3; [right; right; right; exists u; reflexivity|left; reflexivity].
    + destruct (old_wit r) as [u|]; cbn [is_key]; [|left; reflexivity].
      destruct (beqb_case k (wit_key u c)) as [[-> E3]|[_ E3]]; rewrite E3; [right; right; right; exists u; reflexivity|left; reflexivity].
  - exact S'.
  - rewrite SH. exact (g_share s G).
  - rewrite K, beqb_refl. split; [reflexivity|]. unfold rev_ok, r'. cbn [r_contract r_deployer r_withdrawer].
    split; [exact C|]. split; [exists d; split; assumption|]. destruct T as [T|T]; [left; exact T|right; exists w; exact T].
  - intros d' v Kv. rewrite Ae, <- A0. rewrite K, !Kd in Kv. rewrite (beqb_neq _ _ (fun X => rev_dep _ _ _ (eq_sym X))) in Kv.
    exact (dep_only s c d' v G C Kv).
  - intros w' v Kv. rewrite Ne. rewrite K in Kv. rewrite (beqb_neq _ _ (fun X => rev_wit _ _ _ (eq_sym X))) in Kv.
    destruct (is_key (wit_key w' c) (new_wit r wt) c) eqn:I1.
    + apply (proj1 (is_key_spec _ _ _)) in I1. split; [congruence|exact I1].
    + destruct (is_key (wit_key w' c) (old_wit r) c) eqn:I2; [discriminate|]. destruct (wit_only s c w' v G C Kv) as [_ X]. rewrite No in X.
      apply (proj2 (is_key_spec w' (old_wit r) c)) in X. congruence.
  - intros d' A. rewrite Ae, <- A0 in A. rewrite K, !Kd. rewrite (beqb_neq _ _ (fun X => rev_dep _ _ _ (eq_sym X))). exact (g_dep s G c d' A).
  - intros d' w' A N X. rewrite K. rewrite (beqb_neq _ _ (fun X => rev_wit _ _ _ (eq_sym X))). rewrite Ne in N.
    apply (proj2 (is_key_spec w' (new_wit r wt) c)) in N. rewrite N. reflexivity.
Qed.

(* ---------- CancelRevenue ---------- *)
Definition may_cancel (s : st) (dt c : bytes) (r : rev) : Prop :=
  contract_ok c = true /\ v_on s = true /\ get s c = Some r /\ dt = r_deployer r.
Definition cancelled (s : st) (c : bytes) (r : rev) : st :=
  let s1 := match dec (r_deployer r) with Some d => del_dep (del_rev s r) d c | None => del_rev s r end in
  match old_wit r with Some w => del_wit s1 w c | None => s1 end.
Lemma cancel_spec s dt c s' : good s ->
  cancel dec s dt c = Ok s' <-> exists r, may_cancel s dt c r /\ s' = cancelled s c r.
Proof.
  intro G. unfold cancel, may_cancel, is_addr.
  destruct (dec dt) as [d|] eqn:D; cbn [negb orb].
  2:{ split; [discriminate|]. intros (r & (_ & _ & E & ->) & _). destruct (good_author s c r G E) as (d & _ & X & _). congruence. }
  destruct (contract_ok c) eqn:C; cbn [negb orb]; [|split; [discriminate|intros (r & (X & _) & _); discriminate]].
  destruct (v_on s) eqn:O; cbn [negb]; [|split; [discriminate|intros (r & (_ & X & _) & _); discriminate]].
  destruct (get s c) as [r|] eqn:E; [|split; [discriminate|intros (r & (_ & _ & X & _) & _); discriminate]].
  destruct (beqb_case dt (r_deployer r)) as [[Q1 Q2]|[Q1 Q2]]; rewrite Q2; cbn [negb].
  2:{ split; [discriminate|]. intros (r' & (_ & _ & X & Y) & _). injection X as <-. contradiction. }
  destruct (g_rev s G c r E) as (_ & _ & (d' & D1 & _) & Wr).
  assert (OK : must dec (r_deployer r) (fun d0 =>
      match r_withdrawer r with [] => Ok (del_dep (del_rev s r) d0 c) | o => must dec o (fun w => Ok (del_wit (del_dep (del_rev s r) d0 c) w c)) end) = Ok (cancelled s c r)).
  { unfold must, cancelled, old_wit. rewrite D1. cbv zeta. destruct (r_withdrawer r) as [|x o] eqn:Y; [reflexivity|].
    destruct Wr as [Wr|[w Wr]]; [discriminate|]. rewrite Wr. reflexivity. }
  cbv zeta. rewrite OK. split.
  - intro H. injection H as <-. exists r. split; [|reflexivity]. split; [reflexivity|]. split; [reflexivity|]. split; [reflexivity|exact Q1].
  - intros (r' & (_ & _ & X & _) & ->). injection X as <-. reflexivity.
Qed.
Lemma cancelled_same s c r : v_on (cancelled s c r) = v_on s /\ v_share (cancelled s c r) = v_share s /\ v_bal (cancelled s c r) = v_bal s.
Proof. unfold cancelled. cbv zeta. destruct (dec (r_deployer r)); destruct (old_wit r); (split; [|split]); reflexivity. Qed.
Lemma cancelled_store s c r d : ksorted (v_store s) -> dec (r_deployer r) = Some d ->
  ksorted (v_store (cancelled s c r)) /\
  forall k, kget (v_store (cancelled s c r)) k =
    if is_key k (old_wit r) c then None
    else if beqb k (dep_key d c) then None
    else if beqb k (rev_key (r_contract r)) then None
    else kget (v_store s) k.
Proof.
  intros S D. unfold cancelled. cbv zeta. rewrite D. unfold is_key.
  assert (S1 : ksorted (v_store (del_dep (del_rev s r) d c))) by (cbn [del_dep del_rev set_store v_store]; apply kdel_sorted, kdel_sorted; exact S).
  assert (K1 : forall k, kget (v_store (del_dep (del_rev s r) d c)) k =
    if beqb k (dep_key d c) then None else if beqb k (rev_key (r_contract r)) then None else kget (v_store s) k)
    by (intro k; cbn [del_dep del_rev set_store v_store]; rewrite !kget_kdel; reflexivity).
  destruct (old_wit r) as [w|].
  - split; [apply kdel_sorted; exact S1|]. intro k. cbn [del_wit set_store v_store]. rewrite kget_kdel. destruct (beqb k (wit_key w c)); [reflexivity|apply K1].
  - split; [exact S1|exact K1].
Qed.
Lemma cancelled_get s c r d c' : ksorted (v_store s) -> dec (r_deployer r) = Some d ->
  get (cancelled s c r) c' = if beqb c' (r_contract r) then None else get s c'.
Proof.
  intros S D. destruct (cancelled_store s c r d S D) as [_ K]. unfold get. rewrite K.
  assert (I : forall o, is_key (rev_key c') o c = false) by (intros [w|]; [cbn [is_key]; apply beqb_neq; apply rev_wit|reflexivity]).
  rewrite I. rewrite (beqb_neq _ _ (rev_dep _ _ _)). destruct (beqb_case c' (r_contract r)) as [[-> E]|[N E]]; rewrite E.
  - rewrite beqb_refl. reflexivity.
  - rewrite (beqb_neq (rev_key c') (rev_key (r_contract r))); [reflexivity|]. intro X. exact (N (rev_inj _ _ X)).
Qed.
Lemma cancel_good s dt c s' : good s -> cancel dec s dt c = Ok s' -> good s'.
Proof.
  intros G H. apply (proj1 (cancel_spec s dt c s' G)) in H as (r & (C & _ & E & ->) & ->).
  pose proof (g_sorted s G) as S. destruct (g_rev s G c r E) as (Rc & R1 & (d & D1 & D2) & Wr).
  destruct (cancelled_store s c r d S D1) as [S' K]. rewrite Rc in K. destruct (cancelled_same s c r) as (_ & SH & _).
  assert (Ge : get (cancelled s c r) c = None) by (rewrite (cancelled_get s c r d c S D1), Rc, beqb_refl; reflexivity).
  assert (Ae : author (cancelled s c r) c = None) by (unfold Spec.author; rewrite Ge; reflexivity).
  assert (A0 : author s c = Some d) by (unfold Spec.author; rewrite E; exact D1).
  assert (No : named_payee s c = old_wit r) by (unfold Spec.named_payee, old_wit; rewrite E; reflexivity).
  apply (local s _ c G C).
  - intro k. rewrite K. destruct (old_wit r) as [v|]; cbn [is_key].
    + destruct (beqb_case k (wit_key v c)) as [[-> E2]|[_ E2]]; rewrite E2; [right; right; right; exists v; reflexivity|].
      destruct (beqb_case k (dep_key d c)) as [[-> E3]|[_ E3]]; rewrite E3; [right; right; left; exists d; reflexivity|].
      destruct (beqb_case k (rev_key c)) as [[-> E1]|[_ E1]]; rewrite E1; [right; left; reflexivity|left; reflexivity].
    + destruct (beqb_case k (dep_key d c)) as [[-> E3]|[_ E3]]; rewrite E3; [right; right; left; exists d; reflexivity|].
      destruct (beqb_case k (rev_key c)) as [[-> E1]|[_ E1]]; rewrite E1; [right; left; reflexivity|left; reflexivity].
  - exact S'.
  - rewrite SH. exact (g_share s G).
  - rewrite K. rewrite beqb_refl. destruct (is_key (rev_key c) (old_wit r) c); [exact Logic.I|]. destruct (beqb (rev_key c) (dep_key d c)); exact Logic.I.
  - intros d' v Kv. exfalso. rewrite K in Kv. destruct (is_key (dep_key d' c) (old_wit r) c); [discriminate|].
    destruct (beqb_case (dep_key d' c) (dep_key d c)) as [[X E3]|[N E3]]; rewrite E3 in Kv; [discriminate|].
    rewrite (beqb_neq _ _ (fun X => rev_dep _ _ _ (eq_sym X))) in Kv. destruct (dep_only s c d' v G C Kv) as [_ X]. apply N. congruence.
  - intros w' v Kv. exfalso. rewrite K in Kv. destruct (is_key (wit_key w' c) (old_wit r) c) eqn:I2; [discriminate|].
    rewrite (beqb_neq _ _ (fun X => dep_wit _ _ _ _ (eq_sym X))) in Kv. rewrite (beqb_neq _ _ (fun X => rev_wit _ _ _ (eq_sym X))) in Kv.
    destruct (wit_only s c w' v G C Kv) as [_ X]. rewrite No in X. apply (proj2 (is_key_spec w' (old_wit r) c)) in X. congruence.
  - intros d' A. congruence.
  - intros d' w' A. congruence.
Qed.
End Revenue.
