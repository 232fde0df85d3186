(* Lemmas about the ERC-20 precompile model. *)
From Verif Require Import Lib.Base Lib.Bytes Lib.Coins Lib.Zmap Erc20.Model Erc20.Spec.
Open Scope Z_scope.

(* ---- the map of grants ---- *)
Lemma keq_spec a b : keq a b = true <-> a = b.
Proof. destruct a as [a1 a2], b as [b1 b2]. unfold keq. cbn. rewrite andb_true_iff, !Z.eqb_eq. split; [intros [-> ->]; reflexivity|intro H; inversion H; auto]. Qed.
Lemma keq_refl a : keq a a = true. Proof. apply keq_spec. reflexivity. Qed.
Lemma pget_pdel m k k2 : pget (pdel m k) k2 = if keq k2 k then None else pget m k2.
Proof.
  induction m as [|[k' g] m IH]; cbn; [destruct (keq k2 k); reflexivity|].
  destruct (keq k k') eqn:E.
  - rewrite IH. apply (proj1 (keq_spec _ _)) in E. subst k'. destruct (keq k2 k); reflexivity.
  - cbn. rewrite IH. destruct (keq k2 k') eqn:E2; [|reflexivity].
    apply (proj1 (keq_spec _ _)) in E2. subst k'. destruct (keq k2 k) eqn:E3; [|reflexivity].
    apply (proj1 (keq_spec _ _)) in E3. subst k. rewrite keq_refl in E. discriminate.
Qed.
Lemma pget_pset m k g k2 : pget (pset m k g) k2 = if keq k2 k then Some g else pget m k2.
Proof. unfold pset. cbn. destruct (keq k2 k) eqn:E; [reflexivity|]. rewrite pget_pdel, E. reflexivity. Qed.
Lemma pget_in m k g : pget m k = Some g -> In (k, g) m.
Proof.
  induction m as [|[k' g'] m IH]; cbn; [discriminate|]. destruct (keq k k') eqn:E.
  - intro H. injection H as <-. apply (proj1 (keq_spec _ _)) in E. subst. left. reflexivity.
  - intro H. right. apply IH. exact H.
Qed.
Lemma pdel_forall (P : Z * Z * grant -> Prop) m k : Forall P m -> Forall P (pdel m k).
Proof. induction 1 as [|[k' g] m H F IH]; cbn; [constructor|]. destruct (keq k k'); [exact IH|constructor; assumption]. Qed.

(* ---- coins ---- *)
Lemma amt_one d x d' : amt [(d, x)] d' = if beqb d' d then x else 0.
Proof. reflexivity. Qed.
Lemma one_valid d x : 0 < x -> cvalid [(d, x)].
Proof. intro H. split; [cbn; auto|constructor; [exact H|constructor]]. Qed.
Lemma beqb_refl a : beqb a a = true. Proof. apply beqb_spec. reflexivity. Qed.
Lemma beqb_neq a b : beqb a b = false -> a <> b.
Proof. intros H ->. rewrite beqb_refl in H. discriminate. Qed.
Lemma beqb_sym a b : beqb a b = beqb b a.
Proof.
  destruct (beqb a b) eqn:E; destruct (beqb b a) eqn:F; try reflexivity.
  - apply (proj1 (beqb_spec _ _)) in E. subst. rewrite beqb_refl in F. discriminate.
  - apply (proj1 (beqb_spec _ _)) in F. subst. rewrite beqb_refl in E. discriminate.
Qed.

Lemma find_coin_amt t c : cvalid c -> find_coin t c = if 0 <? amt c (t_denom t) then Some (amt c (t_denom t)) else None.
Proof.
  intros [S P]. unfold find_coin. induction c as [|[e y] c IH]; [reflexivity|]. cbn [find fst amt] in *.
  rewrite (beqb_sym (t_denom t) e).
  assert (0 < y) by exact (Forall_inv P). destruct (beqb e (t_denom t)) eqn:E.
  - destruct (Z.ltb_spec 0 y); [reflexivity|lia].
  - destruct S as [_ S]. exact (IH S (Forall_inv_tail P)).
Qed.
Lemma replace_none t c x : replace_coin t c x = None -> amt c (t_denom t) = 0.
Proof.
  induction c as [|[e y] c IH]; [reflexivity|]. cbn [replace_coin amt]. rewrite (beqb_sym (t_denom t) e).
  destruct (beqb e (t_denom t)); [discriminate|]. destruct (replace_coin t c x); [discriminate|]. auto.
Qed.
Lemma replace_some t c x c' : 0 < x -> cvalid c -> replace_coin t c x = Some c' ->
  cvalid c' /\ map fst c' = map fst c /\ (forall d, amt c' d = if beqb d (t_denom t) then x else amt c d).
Proof.
  intro Hx. revert c'. induction c as [|[e y] c IH]; intros c' V H; [discriminate|]. cbn [replace_coin] in H.
  destruct V as [[S1 S2] P]. pose proof (Forall_inv P) as P1. pose proof (Forall_inv_tail P) as P2. cbn in P1.
  destruct (beqb e (t_denom t)) eqn:E.
  - injection H as <-. apply (proj1 (beqb_spec _ _)) in E. subst e. split; [split; [cbn; auto|constructor; assumption]|]. split; [reflexivity|].
    intro d. cbn [amt]. destruct (beqb d (t_denom t)); reflexivity.
  - destruct (replace_coin t c x) as [r|] eqn:R; [|discriminate]. injection H as <-.
    destruct (IH r (conj S2 P2) eq_refl) as [[V1 V2] [M A]]. split; [|split; [cbn; congruence|]].
    + split; [|constructor; assumption]. cbn. split; [|exact V1]. apply Forall_forall. intros p Hp.
      assert (In (fst p) (map fst c)) as Hi by (rewrite <- M; apply in_map; exact Hp).
      apply in_map_iff in Hi. destruct Hi as [q [<- Hq]]. exact (proj1 (Forall_forall _ _) S1 q Hq).
    + intro d. cbn [amt]. rewrite A. destruct (beqb d e) eqn:D; [|reflexivity].
      apply (proj1 (beqb_spec _ _)) in D. subst d. rewrite E. reflexivity.
Qed.
Lemma update_or_add_spec t c x : 0 < x -> cvalid c ->
  cvalid (update_or_add t c x) /\ (forall d, amt (update_or_add t c x) d = if beqb d (t_denom t) then x else amt c d) /\
  limit_ok (update_or_add t c x) = true.
Proof.
  intros Hx V. assert (A : cvalid (update_or_add t c x) /\ (forall d, amt (update_or_add t c x) d = if beqb d (t_denom t) then x else amt c d)).
  { unfold update_or_add. destruct (replace_coin t c x) as [c'|] eqn:R.
    - destruct (replace_some t c x c' Hx V R) as [V' [_ A]]. auto.
    - pose proof (replace_none t c x R) as Z0. split; [apply cadd_valid; [exact V|apply one_valid; exact Hx]|].
      intro d. rewrite amt_cadd; [|exact (proj1 V)|exact (proj1 (one_valid _ _ Hx))]. rewrite amt_one.
      destruct (beqb d (t_denom t)) eqn:D; [|lia]. apply (proj1 (beqb_spec _ _)) in D. subst d. lia. }
  destruct A as [V' A]. split; [exact V'|]. split; [exact A|].
  unfold limit_ok. apply andb_true_intro. split.
  - destruct (update_or_add t c x) eqn:E; [|reflexivity]. specialize (A (t_denom t)). rewrite beqb_refl in A. cbn in A. lia.
  - apply forallb_forall. intros [e y] Hi. pose proof (proj1 (Forall_forall _ _) (proj2 V') _ Hi) as H. cbn in H. lia.
Qed.

(* ---- the bank ---- *)
Lemma coins_of_valid s a : wf s -> cvalid (coins_of s a).
Proof.
  intros [_ [F _]]. unfold coins_of. destruct (zget (s_bank s) a) as [c|] eqn:E; [|exact cvalid_nil].
  exact (proj1 (Forall_forall _ _) F _ (zget_in _ _ _ E)).
Qed.
Lemma coins_of_set s a c b : coins_of (set_coins s a c) b = if b =? a then c else coins_of s b.
Proof. unfold coins_of, set_coins. cbn. rewrite zget_zset, Z.eqb_sym. destruct (b =? a); reflexivity. Qed.
Lemma zset_forall {V} (P : Z * V -> Prop) m a c : Forall P m -> P (a, c) -> Forall P (zset m a c).
Proof.
  induction 1 as [|[k w] m H F IH]; intro HP; cbn; [constructor; [exact HP|constructor]|].
  destruct (a <? k); [constructor; [exact HP|constructor; assumption]|]. destruct (k =? a); constructor; auto.
Qed.
Lemma set_coins_wf s a c : wf s -> cvalid c -> wf (set_coins s a c).
Proof.
  intros [A [B C]] V. split; [apply zset_sorted; exact A|]. split; [apply (zset_forall (fun p => cvalid (snd p))); assumption|exact C].
Qed.
Lemma total_zset m a c d : zsorted m ->
  fold_right (fun p n => amt (snd p) d + n) 0 (zset m a c) =
  fold_right (fun p n => amt (snd p) d + n) 0 m - amt (match zget m a with Some x => x | None => [] end) d + amt c d.
Proof.
  induction m as [|[k w] m IH]; intro S; cbn [zset zget fold_right]; [cbn; lia|].
  apply (proj1 (zsorted_cons _ _ _)) in S. destruct S as [S F].
  destruct (Z.ltb_spec a k) as [E|E].
  - replace (k =? a) with false by lia. rewrite (zget_below m a); [cbn [fold_right snd amt]; lia|].
    eapply Forall_impl; [|exact F]. cbn. intros. lia.
  - destruct (k =? a); cbn [fold_right snd]; [lia|]. rewrite (IH S). lia.
Qed.
Lemma total_set s a c d : zsorted (s_bank s) -> total_supply (set_coins s a c) d = total_supply s d - amt (coins_of s a) d + amt c d.
Proof. intro S. unfold total_supply, set_coins, coins_of. cbn. apply total_zset. exact S. Qed.

(* ---- moving coins ---- *)
Lemma move_spec s from to d x : wf s -> 0 < x -> x <= balance_of s d from ->
  exists b, csub (coins_of s from) [(d, x)] = Ok b /\
    let s1 := set_coins s from b in
    let s' := set_coins s1 to (cadd (coins_of s1 to) [(d, x)]) in
    wf s' /\ moved d from to x s s' /\ s_grants s' = s_grants s /\ s_logs s' = s_logs s /\ (forall d', total_supply s' d' = total_supply s d').
Proof.
  intros W Hx L. pose proof (coins_of_valid s from W) as V. pose proof (one_valid d x Hx) as V1.
  destruct (csub_ok _ _ V V1) as (b & E & Vb & A).
  { intro d'. rewrite amt_one. destruct (beqb d' d) eqn:D; [|apply valid_nonneg; exact V]. apply (proj1 (beqb_spec _ _)) in D. subst. exact L. }
  exists b. split; [exact E|]. cbv zeta. pose proof (set_coins_wf s from b W Vb) as W1. pose proof (coins_of_valid _ to W1) as V2.
  pose proof (cadd_valid _ _ V2 V1) as V3. split; [apply set_coins_wf; assumption|]. split; [|split; [reflexivity|split; [reflexivity|]]].
  - intros d' a. unfold balance_of. rewrite coins_of_set.
    destruct (Z.eqb_spec a to) as [->|Na].
    + rewrite amt_cadd by (apply V2 || apply V1). rewrite coins_of_set, amt_one. destruct (Z.eqb_spec to from) as [->|Nf]; [rewrite A, amt_one|]; destruct (beqb d' d); lia.
    + rewrite coins_of_set. destruct (Z.eqb_spec a from) as [->|Nf]; [rewrite A, amt_one|]; destruct (beqb d' d); lia.
  - intro d'. rewrite total_set by apply W1. rewrite total_set by apply W. rewrite amt_cadd by (apply V2 || apply V1). rewrite A. lia.
Qed.
Lemma send_coins_ok e s from to d x : wf s -> 0 < x -> 0 <= e_locked e from d -> e_locked e from d + x <= balance_of s d from ->
  exists s', send_coins e s from to d x = Ok s' /\ wf s' /\ moved d from to x s s' /\ s_grants s' = s_grants s /\ s_logs s' = s_logs s /\ (forall d', total_supply s' d' = total_supply s d').
Proof.
  intros W Hx L0 L. destruct (move_spec s from to d x W Hx) as (b & E & R); [lia|]. unfold send_coins. unfold balance_of in L.
  replace (amt (coins_of s from) d <? e_locked e from d) with false by lia.
  replace (amt (coins_of s from) d - e_locked e from d <? x) with false by lia. rewrite E. cbn [rbind]. eexists. split; [reflexivity|]. exact R.
Qed.
Lemma send_coins_err e s from to d x : balance_of s d from < e_locked e from d + x -> send_coins e s from to d x = Err.
Proof.
  intros L. unfold send_coins. unfold balance_of in L. destruct (Z.ltb_spec (amt (coins_of s from) d) (e_locked e from d)); [reflexivity|].
  replace (amt (coins_of s from) d - e_locked e from d <? x) with true by lia. reflexivity.
Qed.
Lemma msg_send_ok e s from to d x : env_ok e -> wf s -> 0 < x -> can_send e s d from to x ->
  exists s', msg_send e s from to d x = Ok s' /\ wf s' /\ moved d from to x s s' /\ s_grants s' = s_grants s /\ s_logs s' = s_logs s /\ (forall d', total_supply s' d' = total_supply s d').
Proof.
  intros Ee W Hx (A & B & C). unfold msg_send. rewrite A, B. cbn [negb]. apply send_coins_ok; auto.
Qed.
Lemma msg_send_err e s from to d x : ~ can_send e s d from to x -> msg_send e s from to d x = Err.
Proof.
  intros N. unfold msg_send. destruct (e_send_enabled e d) eqn:A; [|reflexivity]. destruct (e_blocked e to) eqn:B; [reflexivity|]. cbn [negb].
  apply send_coins_err. destruct (Z.lt_ge_cases (balance_of s d from) (e_locked e from d + x)); [assumption|]. destruct N. unfold can_send. auto.
Qed.

(* ---- allowances as read from the grant ---- *)
Definition live (e : env) (g : grant) : bool := match g_exp g with Some t => negb (t <? e_now e) | None => true end.
Definition allow_of (e : env) (d : bytes) (o : option grant) : Z :=
  match o with
  | Some g => match g_auth g with Send l _ => if live e g then amt l d else 0 | Generic => 0 end
  | None => 0
  end.
Lemma get_auth e s p o : get_authorization e s p o =
  match pget (s_grants s) (p, o) with Some g => if live e g then Some (g_auth g, g_exp g) else None | None => None end.
Proof. unfold get_authorization, live. destruct (pget (s_grants s) (p, o)) as [g|]; [|reflexivity]. destruct (g_exp g) as [u|]; [|reflexivity]. destruct (u <? e_now e); reflexivity. Qed.
Lemma allowances_get e s d o p : allowances e s d o p = if o =? p then max_uint256 else allow_of e d (pget (s_grants s) (p, o)).
Proof.
  unfold allowances, allowance, authz_allowance. destruct (o =? p); [reflexivity|]. rewrite get_auth.
  destruct (pget (s_grants s) (p, o)) as [g|]; [|reflexivity]. unfold allow_of. destruct (live e g); destruct (g_auth g); reflexivity.
Qed.
Lemma allowance_tok t e s o p : allowance t e s o p = allowances e s (t_denom t) o p.
Proof. reflexivity. Qed.
Lemma grant_valid s p o l a x : wf s -> pget (s_grants s) (p, o) = Some (mk_grant (Send l a) x) -> cvalid l.
Proof. intros (_ & _ & F) H. exact (proj1 (Forall_forall _ _) F _ (pget_in _ _ _ H)). Qed.
Lemma set_grants_wf s m : wf s -> Forall (fun p => grant_ok (snd p)) m -> wf (set_grants s m).
Proof. intros (A & B & _) H. split; [exact A|]. split; [exact B|exact H]. Qed.
Lemma pset_wf s k g : wf s -> grant_ok g -> wf (set_grants s (pset (s_grants s) k g)).
Proof. intros W G. apply set_grants_wf; [exact W|]. constructor; [exact G|]. apply (pdel_forall (fun p => grant_ok (snd p))). apply W. Qed.
Lemma pdel_wf s k : wf s -> wf (set_grants s (pdel (s_grants s) k)).
Proof. intros W. apply set_grants_wf; [exact W|]. apply (pdel_forall (fun p => grant_ok (snd p))). apply W. Qed.

(* ---- changing one grant ---- *)
Lemma upd_others e s m d o p og : o <> p ->
  (forall k, pget m k = if keq k (p, o) then og else pget (s_grants s) k) ->
  (forall e' d', e_now e <= e_now e' -> beqb d' d = false -> allow_of e' d' og = allow_of e' d' (pget (s_grants s) (p, o))) ->
  others_same e d o p s (set_grants s m).
Proof.
  intros Hop G F e' d' o' p' T N. rewrite !allowances_get. cbn [set_grants s_grants]. rewrite G. destruct (o' =? p'); [reflexivity|].
  destruct (keq (p', o') (p, o)) eqn:K; [|reflexivity]. apply (proj1 (keq_spec _ _)) in K. injection K as -> ->.
  rewrite !Z.eqb_refl, !andb_true_r in N. exact (F e' d' T N).
Qed.
Lemma upd_becomes e s m d o p og x : o <> p ->
  (forall k, pget m k = if keq k (p, o) then og else pget (s_grants s) k) ->
  (forall e' d', e_now e <= e_now e' -> beqb d' d = false -> allow_of e' d' og = allow_of e' d' (pget (s_grants s) (p, o))) ->
  allow_of e d og = x ->
  allowance_becomes e d o p x s (set_grants s m).
Proof.
  intros Hop G F X d' o' p'. destruct (beqb d' d && (o' =? o) && (p' =? p)) eqn:N.
  - apply andb_prop in N. destruct N as [N N3]. apply andb_prop in N. destruct N as [N1 N2].
    apply (proj1 (beqb_spec _ _)) in N1. apply Z.eqb_eq in N2. apply Z.eqb_eq in N3. subst d' o' p'.
    rewrite allowances_get. cbn [set_grants s_grants]. rewrite G, keq_refl. replace (o =? p) with false by lia. exact X.
  - apply (upd_others e s m d o p og Hop G F e d' o' p'); [lia|exact N].
Qed.

(* what a successful change of an allowance leaves behind *)
Definition changed (e : env) (d : bytes) (o p x : Z) (s s' : st) : Prop :=
  wf s' /\ s_bank s' = s_bank s /\ s_logs s' = s_logs s /\ allowance_becomes e d o p x s s' /\ others_same e d o p s s' /\ limit_of s' d o p = x /\
  (forall d' o' p', beqb d' d && (o' =? o) && (p' =? p) = false -> limit_of s' d' o' p' <= limit_of s d' o' p').
Definition lim (d : bytes) (o : option grant) : Z := match o with Some g => match g_auth g with Send l _ => amt l d | Generic => 0 end | None => 0 end.
Lemma limit_get s d o p : limit_of s d o p = lim d (pget (s_grants s) (p, o)).
Proof. unfold limit_of, lim. destruct (pget (s_grants s) (p, o)) as [[a u]|]; [|reflexivity]. destruct a; reflexivity. Qed.
Lemma limit_nonneg s d o p : wf s -> 0 <= limit_of s d o p.
Proof.
  intros W. rewrite limit_get. destruct (pget (s_grants s) (p, o)) as [[[l a|] u]|] eqn:E; cbn; try lia. apply valid_nonneg. exact (grant_valid s p o l a u W E).
Qed.
Lemma changed_intro e s m d o p og x : o <> p -> wf (set_grants s m) ->
  (forall k, pget m k = if keq k (p, o) then og else pget (s_grants s) k) ->
  (forall e' d', e_now e <= e_now e' -> beqb d' d = false -> allow_of e' d' og = allow_of e' d' (pget (s_grants s) (p, o))) ->
  allow_of e d og = x -> lim d og = x ->
  (forall d', beqb d' d = false -> lim d' og <= limit_of s d' o p) ->
  changed e d o p x s (set_grants s m).
Proof.
  intros Hop W G F X L1 L2. split; [exact W|]. split; [reflexivity|]. split; [reflexivity|].
  split; [exact (upd_becomes e s m d o p og x Hop G F X)|]. split; [exact (upd_others e s m d o p og Hop G F)|].
  split.
  - rewrite limit_get. cbn [set_grants s_grants]. rewrite G, keq_refl. exact L1.
  - intros d' o' p' N. rewrite limit_get. cbn [set_grants s_grants]. rewrite G. destruct (keq (p', o') (p, o)) eqn:K.
    + apply (proj1 (keq_spec _ _)) in K. injection K as -> ->. apply L2. rewrite !Z.eqb_refl, !andb_true_r in N. exact N.
    + rewrite limit_get. lia.
Qed.

(* the building blocks of approve, increaseAllowance, decreaseAllowance *)
Lemma create_spec t e s p o x : wf s -> o <> p -> 0 < x -> x <= max_uint256 -> get_authorization e s p o = None ->
  exists s', create_authorization t e s p o x = Ok s' /\ changed e (t_denom t) o p x s s'.
Proof.
  intros W Hop Hx Hm G. unfold create_authorization. replace (max_uint256 <? x) with false by lia.
  assert (L : limit_ok [(t_denom t, x)] = true) by (unfold limit_ok; cbn; destruct (Z.ltb_spec 0 x); [reflexivity|lia]).
  rewrite L. cbn [negb save_grant]. replace (e_now e <? e_now e + year) with true by (unfold year; lia). eexists. split; [reflexivity|].
  rewrite get_auth in G.
  apply (changed_intro e s _ _ o p (Some (mk_grant (Send [(t_denom t, x)] []) (Some (e_now e + year)))) x Hop).
  - apply pset_wf; [exact W|]. exact (one_valid _ _ Hx).
  - intro k. apply pget_pset.
  - intros e' d' T N. unfold allow_of, live. cbn [g_auth g_exp amt]. rewrite N.
    destruct (pget (s_grants s) (p, o)) as [g|]; [|destruct (negb _); reflexivity].
    assert (Lv : live e' g = false).
    { unfold live in *. destruct (g_exp g) as [u|]; [|discriminate]. destruct (u <? e_now e) eqn:U; [|discriminate]. replace (u <? e_now e') with true by lia. reflexivity. }
    unfold live in Lv. rewrite Lv. destruct (negb _); destruct (g_auth g); reflexivity.
  - unfold allow_of, live. cbn [g_auth g_exp amt]. rewrite beqb_refl. replace (e_now e + year <? e_now e) with false by (unfold year; lia). reflexivity.
  - cbn. rewrite beqb_refl. reflexivity.
  - intros d' N. cbn. rewrite N. apply limit_nonneg. exact W.
Qed.
(* the expiration the store accepts *)
Definition fresh (e : env) (exp : option Z) : bool := match exp with Some u => e_now e <? u | None => true end.
Lemma save_grant_spec e s p o a exp : save_grant e s p o a exp =
  if fresh e exp then Ok (set_grants s (pset (s_grants s) (p, o) (mk_grant a exp))) else Err.
Proof. unfold save_grant, fresh. destruct exp as [u|]; [|reflexivity]. destruct (e_now e <? u); reflexivity. Qed.
Lemma replace_spec e s d p o l l' allow exp x : wf s -> o <> p -> pget (s_grants s) (p, o) = Some (mk_grant (Send l allow) exp) ->
  live e (mk_grant (Send l allow) exp) = true -> cvalid l' -> (forall d', amt l' d' = if beqb d' d then x else amt l d') ->
  changed e d o p x s (set_grants s (pset (s_grants s) (p, o) (mk_grant (Send l' allow) exp))).
Proof.
  intros W Hop G Lv V' A. apply (changed_intro e s _ _ o p (Some (mk_grant (Send l' allow) exp)) x Hop).
  - apply pset_wf; [exact W|exact V'].
  - intro k. apply pget_pset.
  - intros e' d' T N. rewrite G. unfold allow_of, live. cbn [g_auth g_exp]. rewrite A, N. reflexivity.
  - unfold allow_of. cbn [g_auth]. unfold live in *. cbn [g_exp] in *. rewrite Lv, A, beqb_refl. reflexivity.
  - cbn. rewrite A, beqb_refl. reflexivity.
  - intros d' N. cbn. rewrite A, N, limit_get, G. cbn. lia.
Qed.
Lemma update_spec t e s p o l allow exp x : wf s -> o <> p -> 0 < x -> pget (s_grants s) (p, o) = Some (mk_grant (Send l allow) exp) ->
  live e (mk_grant (Send l allow) exp) = true ->
  if fresh e exp then exists s', update_authorization t e s p o x l allow exp = Ok s' /\ changed e (t_denom t) o p x s s'
  else update_authorization t e s p o x l allow exp = Err.
Proof.
  intros W Hop Hx G Lv. destruct (update_or_add_spec t l x Hx (grant_valid s p o l allow exp W G)) as (V & A & L).
  unfold update_authorization. rewrite L. cbn [negb]. rewrite save_grant_spec. destruct (fresh e exp); [|reflexivity].
  eexists. split; [reflexivity|]. exact (replace_spec e s _ p o l _ allow exp x W Hop G Lv V A).
Qed.
Lemma delete_spec e s d p o l allow exp : wf s -> o <> p -> pget (s_grants s) (p, o) = Some (mk_grant (Send l allow) exp) ->
  (forall d', beqb d' d = false -> amt l d' = 0) ->
  exists s', delete_grant s p o = Ok s' /\ changed e d o p 0 s s'.
Proof.
  intros W Hop G A. unfold delete_grant. rewrite G. eexists. split; [reflexivity|]. apply (changed_intro e s _ _ o p None 0 Hop).
  - apply pdel_wf. exact W.
  - intro k. apply pget_pdel.
  - intros e' d' T N. rewrite G. cbn. rewrite A by exact N. destruct (live _ _); reflexivity.
  - reflexivity.
  - reflexivity.
  - intros d' N. apply limit_nonneg. exact W.
Qed.
Lemma remove_spec t e s p o l allow exp : wf s -> o <> p -> pget (s_grants s) (p, o) = Some (mk_grant (Send l allow) exp) ->
  live e (mk_grant (Send l allow) exp) = true ->
  (0 < amt l (t_denom t) -> fresh e exp = true -> exists s', remove_limit t e s p o (Send l allow) exp = Ok s') /\
  (amt l (t_denom t) = 0 -> remove_limit t e s p o (Send l allow) exp = Err) /\
  (forall s', remove_limit t e s p o (Send l allow) exp = Ok s' -> changed e (t_denom t) o p 0 s s').
Proof.
  intros W Hop G Lv. pose proof (grant_valid s p o l allow exp W G) as V. unfold remove_limit. rewrite (find_coin_amt t l V).
  destruct (Z.ltb_spec 0 (amt l (t_denom t))) as [P|P]; [|split; [lia|split; [reflexivity|discriminate]]].
  set (x := amt l (t_denom t)) in *. destruct (csafe_sub_spec l [(t_denom t, x)] V (one_valid _ _ P)) as (A & B & S & N).
  destruct (csafe_sub l [(t_denom t, x)]) as [r neg]. cbn [fst snd] in *.
  assert (neg = false) as ->.
  { apply B. intro d'. rewrite amt_one. destruct (beqb d' (t_denom t)) eqn:D; [|apply valid_nonneg; exact V]. apply (proj1 (beqb_spec _ _)) in D. subst d'. unfold x. lia. }
  assert (A' : forall d', amt r d' = if beqb d' (t_denom t) then 0 else amt l d').
  { intro d'. rewrite A, amt_one. destruct (beqb d' (t_denom t)) eqn:D; [|lia]. apply (proj1 (beqb_spec _ _)) in D. subst d'. unfold x. lia. }
  assert (Vr : cvalid r).
  { apply valid_of; [exact S|exact N|]. intro d'. rewrite A'. destruct (beqb d' (t_denom t)); [lia|]. apply valid_nonneg. exact V. }
  split; [|split; [lia|]].
  - intros _ F. rewrite save_grant_spec, F. destruct (cis_zero r); [|eauto]. unfold delete_grant. rewrite G. eauto.
  - intros s' E. destruct (cis_zero r) eqn:Zr.
    + pose proof (proj1 (cis_zero_amt r Vr) Zr) as Z0. destruct (delete_spec e s (t_denom t) p o l allow exp W Hop G) as (s1 & E1 & C).
      { intros d' D. specialize (Z0 d'). rewrite A', D in Z0. exact Z0. }
      rewrite E in E1. injection E1 as <-. exact C.
    + rewrite save_grant_spec in E. destruct (fresh e exp); [|discriminate]. injection E as <-.
      exact (replace_spec e s _ p o l r allow exp 0 W Hop G Lv Vr A').
Qed.

Lemma live_fresh e a exp : live e (mk_grant a exp) = true -> fresh e exp = false -> exp = Some (e_now e).
Proof. unfold live, fresh. cbn. destruct exp as [u|]; [|discriminate]. intros A B. f_equal. destruct (Z.ltb_spec u (e_now e)); [discriminate|]. lia. Qed.
Lemma add_log_changed t e d o p x s s' l : changed e d o p x s s' -> wf (add_log t s' l) /\ s_bank (add_log t s' l) = s_bank s /\
  s_logs (add_log t s' l) = s_logs s ++ [(t_addr t, l)] /\ allowance_becomes e d o p x s (add_log t s' l) /\ others_same e d o p s (add_log t s' l) /\
  limit_of (add_log t s' l) d o p = x /\ (forall d' o' p', beqb d' d && (o' =? o) && (p' =? p) = false -> limit_of (add_log t s' l) d' o' p' <= limit_of s d' o' p').
Proof. intros (A & B & C & D & E & F & G). split; [exact A|]. split; [exact B|]. split; [cbn; rewrite C; reflexivity|]. split; [exact D|]. split; [exact E|]. split; [exact F|exact G]. Qed.
Definition changed_log (t : token) (e : env) (o p x : Z) (s s' : st) : Prop :=
  wf s' /\ s_bank s' = s_bank s /\ s_logs s' = s_logs s ++ [(t_addr t, Approval (t_addr t) p x)] /\ allowance_becomes e (t_denom t) o p x s s' /\ others_same e (t_denom t) o p s s' /\
  limit_of s' (t_denom t) o p = x /\ (forall d' o' p', beqb d' (t_denom t) && (o' =? o) && (p' =? p) = false -> limit_of s' d' o' p' <= limit_of s d' o' p').
Lemma unchanged e s d o p : wf s -> o <> p -> get_authorization e s p o = None -> wf s /\ allowance_becomes e d o p 0 s s /\ others_same e d o p s s.
Proof.
  intros W Hop G. split; [exact W|]. split; [|intros e' d' o' p' _ _; reflexivity]. intros d' o' p'. destruct (beqb d' d && (o' =? o) && (p' =? p)) eqn:N; [|reflexivity].
  apply andb_prop in N. destruct N as [N N3]. apply andb_prop in N. destruct N as [N1 N2]. apply Z.eqb_eq in N2. apply Z.eqb_eq in N3. subst.
  rewrite allowances_get. replace (o =? p) with false by lia. rewrite get_auth in G. destruct (pget (s_grants s) (p, o)) as [g|]; [|reflexivity].
  cbn. destruct (live e g); [discriminate|]. destruct (g_auth g); reflexivity.
Qed.
Lemma get_some e s p o a exp : get_authorization e s p o = Some (a, exp) -> pget (s_grants s) (p, o) = Some (mk_grant a exp) /\ live e (mk_grant a exp) = true.
Proof.
  rewrite get_auth. destruct (pget (s_grants s) (p, o)) as [[a' u]|]; [|discriminate]. destruct (live e (mk_grant a' u)) eqn:L; [|discriminate].
  cbn. intro H. injection H as <- <-. auto.
Qed.

(* approve *)
Lemma approve_effect t e s o p x s' : wf s -> uint256 x -> approve t e s o p x = Ok s' ->
  o <> p /\ wf s' /\ s_bank s' = s_bank s /\ s_logs s' = s_logs s ++ [(t_addr t, Approval (t_addr t) p x)] /\
  allowance_becomes e (t_denom t) o p x s s' /\ others_same e (t_denom t) o p s s' /\
  limit_of s' (t_denom t) o p <= limit_of s (t_denom t) o p + x /\
  (forall d' o' p', beqb d' (t_denom t) && (o' =? o) && (p' =? p) = false -> limit_of s' d' o' p' <= limit_of s d' o' p').
Proof.
  intros W [U0 U1] E. unfold approve in E. destruct (Z.eqb_spec p o) as [|Hop]; [discriminate|]. assert (Hop' : o <> p) by congruence. split; [exact Hop'|].
  pose proof (limit_nonneg s (t_denom t) o p W) as Ln.
  assert (Q : forall s1, changed e (t_denom t) o p x s s1 -> Ok (add_log t s1 (Approval (t_addr t) p x)) = Ok s' -> 
    wf s' /\ s_bank s' = s_bank s /\ s_logs s' = s_logs s ++ [(t_addr t, Approval (t_addr t) p x)] /\
    allowance_becomes e (t_denom t) o p x s s' /\ others_same e (t_denom t) o p s s' /\
    limit_of s' (t_denom t) o p <= limit_of s (t_denom t) o p + x /\
    (forall d' o' p', beqb d' (t_denom t) && (o' =? o) && (p' =? p) = false -> limit_of s' d' o' p' <= limit_of s d' o' p')).
  { intros s1 C H. injection H as <-. destruct (add_log_changed t e _ o p x s s1 (Approval (t_addr t) p x) C) as (A1 & A2 & A3 & A4 & A5 & A6 & A7).
    split; [exact A1|]. split; [exact A2|]. split; [exact A3|]. split; [exact A4|]. split; [exact A5|]. split; [rewrite A6; lia|exact A7]. }
  destruct (get_authorization e s p o) as [[a exp]|] eqn:G.
  - destruct (get_some _ _ _ _ _ _ G) as [G1 G2]. destruct (Z.leb_spec x 0).
    + destruct a as [l allow|]; [|discriminate]. assert (x = 0) as -> by lia. destruct (remove_spec t e s p o l allow exp W Hop' G1 G2) as (_ & _ & R).
      destruct (remove_limit t e s p o (Send l allow) exp) as [s1| |]; try discriminate. exact (Q s1 (R s1 eq_refl) E).
    + destruct a as [l allow|]; [|discriminate]. pose proof (update_spec t e s p o l allow exp x W Hop' ltac:(lia) G1 G2) as R.
      destruct (fresh e exp); [|rewrite R in E; discriminate]. destruct R as (s1 & R & C). rewrite R in E. exact (Q s1 C E).
  - replace (x <? 0) with false in E by lia. destruct (Z.ltb_spec 0 x).
    + destruct (create_spec t e s p o x W Hop' ltac:(lia) U1 G) as (s1 & R & C). rewrite R in E. exact (Q s1 C E).
    + assert (x = 0) as -> by lia. cbn [rbind] in E. injection E as <-. destruct (unchanged e s (t_denom t) o p W Hop' G) as (_ & B & C).
      split; [exact W|]. split; [reflexivity|]. split; [reflexivity|]. split; [exact B|]. split; [exact C|]. split; [|intros; reflexivity].
      change (limit_of s (t_denom t) o p <= limit_of s (t_denom t) o p + 0). lia.
Qed.
Lemma approve_ok t e s o p x : wf s -> uint256 x ->
  o <> p -> ~ live_generic e s o p -> ~ last_instant e s o p ->
  (0 < x \/ get_authorization e s p o = None \/ 0 < allowances e s (t_denom t) o p) ->
  exists s', approve t e s o p x = Ok s'.
Proof.
  intros W [U0 U1] Hop NG NL C. unfold approve. replace (p =? o) with false by lia.
  destruct (get_authorization e s p o) as [[a exp]|] eqn:G.
  - destruct (get_some _ _ _ _ _ _ G) as [G1 G2]. destruct a as [l allow|]; [|destruct NG; exists exp; exact G].
    assert (F : fresh e exp = true).
    { destruct (fresh e exp) eqn:F; [reflexivity|]. pose proof (live_fresh _ _ _ G2 F). subst exp. destruct NL. exists (Send l allow). exact G. }
    destruct (Z.leb_spec x 0).
    + destruct C as [C|[C|C]]; [lia|discriminate|]. rewrite allowances_get in C. replace (o =? p) with false in C by lia. rewrite G1 in C. cbn [allow_of g_auth] in C. rewrite G2 in C.
      destruct (remove_spec t e s p o l allow exp W Hop G1 G2) as (R & _). destruct (R C F) as (s1 & ->). eexists. reflexivity.
    + pose proof (update_spec t e s p o l allow exp x W Hop ltac:(lia) G1 G2) as R. rewrite F in R. destruct R as (s1 & -> & _). eexists. reflexivity.
  - replace (x <? 0) with false by lia. destruct (Z.ltb_spec 0 x); [|eexists; reflexivity].
    destruct (create_spec t e s p o x W Hop ltac:(lia) U1 G) as (s1 & -> & _). eexists. reflexivity.
Qed.
Lemma approve_err t e s o p x : wf s -> uint256 x -> o = p \/ live_generic e s o p \/ (0 < x /\ last_instant e s o p) \/
  (x = 0 /\ get_authorization e s p o <> None /\ allowances e s (t_denom t) o p = 0) -> approve t e s o p x = Err.
Proof.
  intros W [U0 U1] C. unfold approve. destruct (Z.eqb_spec p o) as [|Hop]; [reflexivity|]. assert (Hop' : o <> p) by congruence.
  destruct C as [C|[[u G]|[[Hx [a G]]|(-> & G & A)]]]; [congruence| | |].
  - rewrite G. destruct (x <=? 0); reflexivity.
  - rewrite G. destruct (get_some _ _ _ _ _ _ G) as [G1 G2]. replace (x <=? 0) with false by lia. destruct a as [l allow|]; [|reflexivity].
    pose proof (update_spec t e s p o l allow (Some (e_now e)) x W Hop' Hx G1 G2) as R. cbn [fresh] in R. rewrite Z.ltb_irrefl in R. rewrite R. reflexivity.
  - destruct (get_authorization e s p o) as [[a exp]|] eqn:G3; [|congruence]. destruct (get_some _ _ _ _ _ _ G3) as [G1 G2]. cbn [Z.leb Z.compare].
    destruct a as [l allow|]; [|reflexivity]. rewrite allowances_get in A. replace (o =? p) with false in A by lia. rewrite G1 in A. cbn [allow_of g_auth] in A. rewrite G2 in A.
    destruct (remove_spec t e s p o l allow exp W Hop' G1 G2) as (_ & R & _). rewrite (R A). reflexivity.
Qed.

(* increaseAllowance *)
Lemma get_allow e s d o p l allow exp : o <> p -> get_authorization e s p o = Some (Send l allow, exp) -> allowances e s d o p = amt l d.
Proof. intros Hop G. destruct (get_some _ _ _ _ _ _ G) as [G1 G2]. rewrite allowances_get, G1. replace (o =? p) with false by lia. cbn [allow_of g_auth]. rewrite G2. reflexivity. Qed.
Lemma get_allow_none e s d o p : o <> p -> get_authorization e s p o = None -> allowances e s d o p = 0.
Proof.
  intros Hop G. rewrite allowances_get. replace (o =? p) with false by lia. rewrite get_auth in G. destruct (pget (s_grants s) (p, o)) as [g|]; [|reflexivity].
  cbn. destruct (live e g); [discriminate|]. destruct (g_auth g); reflexivity.
Qed.
Lemma allowances_nonneg e s d o p : wf s -> 0 <= allowances e s d o p.
Proof.
  intros W. rewrite allowances_get. destruct (o =? p); [unfold max_uint256; lia|]. destruct (pget (s_grants s) (p, o)) as [[[l a|] u]|] eqn:E; cbn; try lia.
  destruct (live _ _); [|lia]. apply valid_nonneg. exact (grant_valid s p o l a u W E).
Qed.
Lemma allow_le_limit e s d o p : wf s -> o <> p -> allowances e s d o p <= limit_of s d o p.
Proof.
  intros W Hop. pose proof (limit_nonneg s d o p W) as L. rewrite allowances_get. replace (o =? p) with false by lia. rewrite limit_get in *.
  destruct (pget (s_grants s) (p, o)) as [[[l a|] u]|]; cbn in *; try lia. destruct (live _ _); lia.
Qed.
Lemma increase_effect t e s o p x s' : wf s -> uint256 x -> increase_allowance t e s o p x = Ok s' ->
  o <> p /\ 0 < x /\ changed_log t e o p (allowances e s (t_denom t) o p + x) s s'.
Proof.
  intros W [U0 U1] E. unfold increase_allowance in E. destruct (Z.eqb_spec p o) as [|Hop]; [discriminate|]. assert (Hop' : o <> p) by congruence. split; [exact Hop'|].
  destruct (Z.leb_spec x 0); [discriminate|]. split; [lia|].
  destruct (get_authorization e s p o) as [[[l allow|] exp]|] eqn:G; [|discriminate|].
  - destruct (get_some _ _ _ _ _ _ G) as [G1 G2]. pose proof (valid_nonneg l (t_denom t) (grant_valid s p o l allow exp W G1)). rewrite (get_allow _ _ _ _ _ _ _ _ Hop' G).
    destruct (max_uint256 <? amt l (t_denom t) + x); [discriminate|].
    pose proof (update_spec t e s p o l allow exp (amt l (t_denom t) + x) W Hop' ltac:(lia) G1 G2) as R.
    destruct (fresh e exp); [|rewrite R in E; discriminate]. destruct R as (s1 & R & C). rewrite R in E. cbn [rbind] in E. injection E as <-.
    exact (add_log_changed t e _ o p _ s s1 _ C).
  - rewrite (get_allow_none _ _ _ _ _ Hop' G). destruct (create_spec t e s p o x W Hop' ltac:(lia) U1 G) as (s1 & R & C). rewrite R in E. cbn [rbind] in E. injection E as <-.
    exact (add_log_changed t e _ o p _ s s1 _ C).
Qed.
Lemma increase_ok t e s o p x : wf s -> uint256 x ->
  o <> p -> 0 < x -> ~ live_generic e s o p -> ~ last_instant e s o p -> allowances e s (t_denom t) o p + x <= max_uint256 ->
  exists s', increase_allowance t e s o p x = Ok s'.
Proof.
  intros W [U0 U1] Hop Hx NG NL M. unfold increase_allowance. replace (p =? o) with false by lia. replace (x <=? 0) with false by lia.
  destruct (get_authorization e s p o) as [[[l allow|] exp]|] eqn:G.
  - destruct (get_some _ _ _ _ _ _ G) as [G1 G2]. pose proof (valid_nonneg l (t_denom t) (grant_valid s p o l allow exp W G1)). rewrite (get_allow _ _ _ _ _ _ _ _ Hop G) in M.
    assert (F : fresh e exp = true).
    { destruct (fresh e exp) eqn:F; [reflexivity|]. pose proof (live_fresh _ _ _ G2 F). subst exp. destruct NL. exists (Send l allow). exact G. }
    replace (max_uint256 <? amt l (t_denom t) + x) with false by lia.
    pose proof (update_spec t e s p o l allow exp (amt l (t_denom t) + x) W Hop ltac:(lia) G1 G2) as R. rewrite F in R. destruct R as (s1 & -> & _). eexists. reflexivity.
  - destruct NG. exists exp. exact G.
  - destruct (create_spec t e s p o x W Hop Hx U1 G) as (s1 & -> & _). eexists. reflexivity.
Qed.
Lemma increase_err t e s o p x : wf s ->
  o = p \/ x <= 0 \/ live_generic e s o p \/ last_instant e s o p \/ max_uint256 < allowances e s (t_denom t) o p + x -> uint256 x -> increase_allowance t e s o p x = Err.
Proof.
  intros W C [U0 U1]. unfold increase_allowance. destruct (Z.eqb_spec p o) as [|Hop]; [reflexivity|]. assert (Hop' : o <> p) by congruence.
  destruct (Z.leb_spec x 0); [reflexivity|]. destruct C as [C|[C|[[u G]|[[a G]|C]]]]; [congruence|lia| | |].
  - rewrite G. reflexivity.
  - rewrite G. destruct a as [l allow|]; [|reflexivity]. destruct (get_some _ _ _ _ _ _ G) as [G1 G2]. destruct (_ <? _); [reflexivity|].
    pose proof (valid_nonneg l (t_denom t) (grant_valid s p o l allow _ W G1)).
    pose proof (update_spec t e s p o l allow (Some (e_now e)) (amt l (t_denom t) + x) W Hop' ltac:(lia) G1 G2) as R. cbn [fresh] in R. rewrite Z.ltb_irrefl in R. rewrite R. reflexivity.
  - destruct (get_authorization e s p o) as [[[l allow|] exp]|] eqn:G; [|reflexivity|].
    + rewrite (get_allow _ _ _ _ _ _ _ _ Hop' G) in C. replace (max_uint256 <? amt l (t_denom t) + x) with true by lia. reflexivity.
    + rewrite (get_allow_none _ _ _ _ _ Hop' G) in C. lia.
Qed.

(* decreaseAllowance *)
Lemma decrease_effect t e s o p x s' : wf s -> decrease_allowance t e s o p x = Ok s' ->
  o <> p /\ 0 < x <= allowances e s (t_denom t) o p /\ changed_log t e o p (allowances e s (t_denom t) o p - x) s s'.
Proof.
  intros W E. unfold decrease_allowance in E. destruct (Z.eqb_spec p o) as [|Hop]; [discriminate|]. assert (Hop' : o <> p) by congruence. split; [exact Hop'|].
  destruct (Z.leb_spec x 0); [discriminate|]. unfold authz_allowance in E.
  destruct (get_authorization e s p o) as [[[l allow|] exp]|] eqn:G; [|discriminate|discriminate].
  destruct (get_some _ _ _ _ _ _ G) as [G1 G2]. pose proof (grant_valid s p o l allow exp W G1) as V. rewrite (get_allow _ _ _ _ _ _ _ _ Hop' G).
  rewrite (find_coin_amt t l V) in E. destruct (Z.ltb_spec x (amt l (t_denom t))).
  - split; [lia|]. replace (0 <? amt l (t_denom t)) with true in E by lia. replace (amt l (t_denom t) - x <? 0) with false in E by lia.
    pose proof (update_spec t e s p o l allow exp (amt l (t_denom t) - x) W Hop' ltac:(lia) G1 G2) as R.
    destruct (fresh e exp); [|rewrite R in E; discriminate]. destruct R as (s1 & R & C). rewrite R in E. cbn [rbind] in E. injection E as <-.
    exact (add_log_changed t e _ o p _ s s1 _ C).
  - destruct (Z.eqb_spec x (amt l (t_denom t))) as [Ex|]; [|discriminate]. split; [lia|]. replace (amt l (t_denom t) - x) with 0 by lia.
    destruct (remove_spec t e s p o l allow exp W Hop' G1 G2) as (_ & _ & R).
    destruct (remove_limit t e s p o (Send l allow) exp) as [s1| |]; try discriminate. cbn [rbind] in E. injection E as <-. exact (add_log_changed t e _ o p _ s s1 _ (R s1 eq_refl)).
Qed.
Lemma decrease_ok t e s o p x : wf s -> o <> p -> 0 < x <= allowances e s (t_denom t) o p -> ~ last_instant e s o p -> exists s', decrease_allowance t e s o p x = Ok s'.
Proof.
  intros W Hop Hx NL. unfold decrease_allowance. replace (p =? o) with false by lia. replace (x <=? 0) with false by lia. unfold authz_allowance.
  destruct (get_authorization e s p o) as [[[l allow|] exp]|] eqn:G.
  - destruct (get_some _ _ _ _ _ _ G) as [G1 G2]. pose proof (grant_valid s p o l allow exp W G1) as V. rewrite (get_allow _ _ _ _ _ _ _ _ Hop G) in Hx.
    assert (F : fresh e exp = true).
    { destruct (fresh e exp) eqn:F; [reflexivity|]. pose proof (live_fresh _ _ _ G2 F). subst exp. destruct NL. exists (Send l allow). exact G. }
    rewrite (find_coin_amt t l V). replace (0 <? amt l (t_denom t)) with true by lia. destruct (Z.ltb_spec x (amt l (t_denom t))).
    + replace (amt l (t_denom t) - x <? 0) with false by lia.
      pose proof (update_spec t e s p o l allow exp (amt l (t_denom t) - x) W Hop ltac:(lia) G1 G2) as R. rewrite F in R. destruct R as (s1 & -> & _). eexists. reflexivity.
    + replace (x =? amt l (t_denom t)) with true by lia. destruct (remove_spec t e s p o l allow exp W Hop G1 G2) as (R & _). destruct (R ltac:(lia) F) as (s1 & ->). eexists. reflexivity.
  - exfalso. rewrite get_auth in G. rewrite allowances_get in Hx. replace (o =? p) with false in Hx by lia.
    destruct (pget (s_grants s) (p, o)) as [[[l a|] u]|]; cbn in Hx; try lia. destruct (live e _); [discriminate|lia].
  - rewrite (get_allow_none _ _ _ _ _ Hop G) in Hx. lia.
Qed.

(* transfer and transferFrom *)
Lemma pget_set_grants s m k : pget (s_grants (set_grants s m)) k = pget m k. Proof. reflexivity. Qed.
Definition sent (e : env) (d : bytes) (from to x : Z) (s s' : st) : Prop :=
  wf s' /\ moved d from to x s s' /\ (forall d', total_supply s' d' = total_supply s d').
Lemma dispatch_ok t e s p o to x : env_ok e -> wf s -> o <> p -> 0 < x -> can_send e s (t_denom t) o to x -> receiver_allowed s o p to ->
  x <= allowances e s (t_denom t) o p ->
  exists s', dispatch e s p o to (t_denom t) x = Ok s' /\ sent e (t_denom t) o to x s s' /\ s_logs s' = s_logs s /\
    allowance_becomes e (t_denom t) o p (allowances e s (t_denom t) o p - x) s s' /\ others_same e (t_denom t) o p s s' /\
    limit_of s' (t_denom t) o p = limit_of s (t_denom t) o p - x /\
    (forall d' o' p', beqb d' (t_denom t) && (o' =? o) && (p' =? p) = false -> limit_of s' d' o' p' <= limit_of s d' o' p').
Proof.
  intros Ee W Hop Hx CS RA Al. rewrite allowances_get in Al. replace (o =? p) with false in Al by lia.
  unfold dispatch. unfold receiver_allowed in RA. destruct (pget (s_grants s) (p, o)) as [[[l allow|] exp]|] eqn:G; cbn [allow_of g_auth] in Al; try lia.
  destruct (live e (mk_grant (Send l allow) exp)) eqn:Lv; [|lia]. cbn [g_exp g_auth].
  replace (match exp with Some u => u <? e_now e | None => false end) with false by (unfold live in Lv; cbn in Lv; destruct exp as [u|]; [destruct (u <? e_now e); [discriminate|]|]; reflexivity).
  pose proof (grant_valid s p o l allow exp W G) as V. unfold accept.
  destruct (csafe_sub_spec l [(t_denom t, x)] V (one_valid _ _ Hx)) as (A & B & S & N).
  destruct (csafe_sub l [(t_denom t, x)]) as [r neg]. cbn [fst snd] in *.
  assert (neg = false) as ->.
  { apply B. intro d'. rewrite amt_one. destruct (beqb d' (t_denom t)) eqn:D; [|apply valid_nonneg; exact V]. apply (proj1 (beqb_spec _ _)) in D. subst d'. lia. }
  assert (A' : forall d', amt r d' = if beqb d' (t_denom t) then amt l (t_denom t) - x else amt l d').
  { intro d'. rewrite A, amt_one. destruct (beqb d' (t_denom t)) eqn:D; [|lia]. apply (proj1 (beqb_spec _ _)) in D. subst d'. reflexivity. }
  assert (Vr : cvalid r).
  { apply valid_of; [exact S|exact N|]. intro d'. rewrite A'. destruct (beqb d' (t_denom t)); [lia|]. apply valid_nonneg. exact V. }
  assert (RB : negb (Nat.eqb (length allow) 0) && negb (existsb (Z.eqb to) allow) = false).
  { destruct RA as [->|RA]; [reflexivity|]. apply andb_false_intro2. apply negb_false_iff. apply existsb_exists. exists to. split; [exact RA|apply Z.eqb_refl]. }
  rewrite RB.
  assert (C : exists s1, (rbind (if cis_zero r then Ok None else Ok (Some (Send r allow))) (fun q => match q with None => delete_grant s p o | Some a => Ok (set_grants s (pset (s_grants s) (p, o) (mk_grant a exp))) end)) = Ok s1
             /\ changed e (t_denom t) o p (amt l (t_denom t) - x) s s1).
  { destruct (cis_zero r) eqn:Zr; cbn [rbind].
    - pose proof (proj1 (cis_zero_amt r Vr) Zr) as Z0. pose proof (Z0 (t_denom t)) as Z1. rewrite A', beqb_refl in Z1. rewrite Z1. apply (delete_spec e s (t_denom t) p o l allow exp W Hop G).
      intros d' D. specialize (Z0 d'). rewrite A', D in Z0. exact Z0.
    - eexists. split; [reflexivity|]. exact (replace_spec e s _ p o l r allow exp _ W Hop G Lv Vr A'). }
  destruct C as (s1 & E1 & W1 & B1 & L1 & C1 & C2 & C3 & C4).
  assert (E2 : rbind (if cis_zero r then Ok None else Ok (Some (Send r allow))) (fun q => rbind match q with None => delete_grant s p o | Some a => Ok (set_grants s (pset (s_grants s) (p, o) (mk_grant a exp))) end (fun s1 => msg_send e s1 o to (t_denom t) x)) = msg_send e s1 o to (t_denom t) x).
  { destruct (cis_zero r); cbn [rbind] in *; [rewrite E1; reflexivity|]. apply (f_equal (fun q => match q with Ok s2 => msg_send e s2 o to (t_denom t) x | _ => Err end)) in E1. exact E1. }
  rewrite E2.
  assert (BS : forall d' a, balance_of s1 d' a = balance_of s d' a) by (intros d' a; unfold balance_of, coins_of; rewrite B1; reflexivity).
  destruct (msg_send_ok e s1 o to (t_denom t) x Ee W1 Hx) as (s' & E & W' & M & G' & L' & T).
  { destruct CS as (X1 & X2 & X3). split; [exact X1|]. split; [exact X2|]. rewrite BS. exact X3. }
  exists s'. split; [exact E|]. split; [split; [exact W'|split]|].
  - intros d' a. rewrite (M d' a), BS. reflexivity.
  - intro d'. rewrite T. unfold total_supply. rewrite B1. reflexivity.
  - split; [congruence|]. 
    assert (AL : forall e' d' o' p', allowances e' s' d' o' p' = allowances e' s1 d' o' p') by (intros; rewrite !allowances_get, G'; reflexivity).
    assert (LL : forall d' o' p', limit_of s' d' o' p' = limit_of s1 d' o' p') by (intros; rewrite !limit_get, G'; reflexivity).
    assert (AE : allowances e s (t_denom t) o p = amt l (t_denom t)) by (rewrite allowances_get, G; replace (o =? p) with false by lia; cbn [allow_of g_auth]; rewrite Lv; reflexivity).
    assert (LE : limit_of s (t_denom t) o p = amt l (t_denom t)) by (rewrite limit_get, G; reflexivity).
    rewrite AE, LE. split; [|split; [|split]].
    + intros d' o' p'. rewrite AL. apply C1.
    + intros e' d' o' p' T' N'. rewrite AL. apply C2; assumption.
    + rewrite LL. exact C3.
    + intros d' o' p' N'. rewrite LL. apply C4. exact N'.
Qed.
Lemma dispatch_err t e s p o to x : wf s -> o <> p -> 0 < x ->
  (~ (can_send e s (t_denom t) o to x /\ receiver_allowed s o p to /\ x <= allowances e s (t_denom t) o p)) ->
  authz_allowance t e s p o <> None ->
  is_ok (dispatch e s p o to (t_denom t) x) = false.
Proof.
  intros W Hop Hx C H. unfold authz_allowance in H. destruct (get_authorization e s p o) as [[[l allow|] exp]|] eqn:G; try congruence. clear H.
  destruct (get_some _ _ _ _ _ _ G) as [G1 G2]. rewrite (get_allow _ _ _ _ _ _ _ _ Hop G) in C. unfold receiver_allowed in C. rewrite G1 in C.
  unfold dispatch. rewrite G1. cbn [g_exp g_auth]. destruct (match exp with Some u => u <? e_now e | None => false end); [reflexivity|].
  unfold accept. pose proof (grant_valid s p o l allow exp W G1) as V.
  destruct (csafe_sub_spec l [(t_denom t, x)] V (one_valid _ _ Hx)) as (A & B & _ & _).
  destruct (csafe_sub l [(t_denom t, x)]) as [r neg]. cbn [fst snd] in *. destruct neg; [reflexivity|].
  pose proof (proj1 B eq_refl (t_denom t)) as Le. rewrite amt_one, beqb_refl in Le.
  destruct (negb (Nat.eqb (length allow) 0) && negb (existsb (Z.eqb to) allow)) eqn:R; [reflexivity|].
  assert (RA : allow = [] \/ In to allow).
  { destruct allow as [|a allow]; [left; reflexivity|right]. cbn [length Nat.eqb negb andb] in R. apply negb_false_iff in R. apply existsb_exists in R. destruct R as (y & Hy & Ey).
    apply Z.eqb_eq in Ey. subst y. exact Hy. }
  assert (NC : ~ can_send e s (t_denom t) o to x) by tauto.
  destruct (cis_zero r); cbn [rbind].
  - unfold delete_grant. rewrite G1. cbn [rbind]. rewrite msg_send_err; [reflexivity|exact NC].
  - rewrite msg_send_err; [reflexivity|exact NC].
Qed.
