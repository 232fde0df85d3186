(* What a run costs, which tasks are picked, the owner listing, genesis. *)
From Verif Require Import Lib.Base Lib.Bytes Lib.Codec Lib.Zmap Chronos.Model Chronos.Spec Chronos.Proofs Chronos.QueueProofs.
From Coq Require Import ZArith List Bool Lia.
Import ListNotations.
Open Scope Z_scope.

(* ---- the cost of a run ------------------------------------------------- *)

Lemma tame_wallet e o i s f : wf s -> solvent s -> tame i f ->
  wf (apply_effect e o s f) /\ solvent (apply_effect e o s f) /\ money s (Wallet i) <= money (apply_effect e o s f) (Wallet i).
Proof.
  intros W SO T. split; [apply effect_wf, W|]. split; [apply effect_solvent, SO|].
  destruct (effect_cases e o s f) as [->|[(a & b & x & P & _ & S)|[(id & E & C)|(u & E & U)]]].
  - lia.
  - rewrite (send_money _ _ _ _ _ S). rewrite (person_not_wallet a i P). destruct (send_ok _ _ _ _ _ S) as (X & _). destruct (addr_eqb b (Wallet i)); lia.
  - destruct (cancel_shape _ _ _ _ _ _ C) as (c & w & G & _ & _ & R). rewrite E in T. cbn in T.
    destruct (remove_exact _ _ _ _ _ _ W SO G R) as (O' & _ & _ & _ & _ & _ & A6).
    destruct (wf_live _ _ _ W G) as (_ & (_ & p & D & P) & _). rewrite O' in D. cbn in D. injection D as <-.
    rewrite A6; [lia|intro X; rewrite <- X in P; exact P|congruence].
  - rewrite E in T. destruct T.
Qed.

Lemma tame_wallets e o i l : Forall (tame i) l -> forall s, wf s -> solvent s ->
  wf (apply_effects e o s l) /\ solvent (apply_effects e o s l) /\ money s (Wallet i) <= money (apply_effects e o s l) (Wallet i).
Proof.
  intro T. unfold apply_effects. induction T as [|f l T _ IH]; intros s W SO; cbn; [split; [exact W|split; [exact SO|lia]]|].
  destruct (tame_wallet e o i s f W SO T) as (W1 & S1 & M1). destruct (IH _ W1 S1) as (W2 & S2 & M2). split; [exact W2|]. split; [exact S2|lia].
Qed.

Lemma store_money s c z : money (store_cron s c) z = money s z.
Proof. reflexivity. Qed.


Lemma u64_small x : 0 <= x < 2 ^ 64 -> u64 x = x.
Proof. intro H. unfold u64. apply Z.mod_small, H. Qed.

Lemma run_evm_cost s e c s' g : wf s -> solvent s -> ok_cron c -> c_id c < s_next s -> 0 <= e_base e -> gas_ok e c (s_nonce s) ->
  (forall l u, e_evm e c (s_nonce s) = EvmRun u l -> Forall (tame (c_id c)) l) ->
  run_evm s e c = Ok (s', Some g) ->
  0 <= g <= c_gas c /\ (exists l, e_evm e c (s_nonce s) = EvmRun g l) /\
  money s (Wallet (c_id c)) - g * e_base e <= money s' (Wallet (c_id c)) /\
  (e_evm e c (s_nonce s) = EvmRun g [] ->
     money s' (Wallet (c_id c)) = money s (Wallet (c_id c)) - g * e_base e /\
     money s' Collector = money s Collector + g * e_base e /\
     forall z, z <> Wallet (c_id c) -> z <> Collector -> money s' z = money s z).
Proof.
  intros W SO O LN B (GB & GU) TM. unfold run_evm. pose proof O as (WA & _). destruct (decode (c_owner c)) as [o|]; [|discriminate].
  destruct (_ || _); [discriminate|]. destruct (c_gas c <? _); [discriminate|]. destruct (_ =? 0); [discriminate|].
  destruct (send s (c_wallet c) Collector _) as [s1| |] eqn:S1; [|discriminate|discriminate].
  destruct (e_evm e c (s_nonce s)) as [|used effs] eqn:EV; [discriminate|].
  specialize (TM effs used eq_refl).
  assert (W2 : wf (store_cron s1 (with_fees c (c_fees c + c_gas c * e_base e)))).
  { apply store_wf; [apply (send_wf _ _ _ _ _ W S1)|exact O|]. rewrite (send_rest _ _ _ _ _ S1). exact LN. }
  assert (SO2 : solvent (store_cron s1 (with_fees c (c_fees c + c_gas c * e_base e)))) by (intro z; apply (send_solvent _ _ _ _ _ SO S1)).
  pose proof (tame_wallets e o (c_id c) effs TM _ W2 SO2) as (W3 & SO3 & M3). rewrite store_money in M3.
  rewrite u64_small by lia.
  destruct (send _ Collector (c_wallet c) _) as [s4| |] eqn:S4; [|discriminate|discriminate].
  intro H. apply (f_equal (fun r => match r with Ok (a, Some b) => (a, b) | _ => (s', g + 1) end)) in H.
  apply pair_equal_spec in H. destruct H as [H EG]. subst g.
  assert (ME : forall z, money s' z = money s4 z) by (intro z; rewrite <- H; destruct (0 <? _); reflexivity). clear H.
  split; [exact GU|]. split; [exists effs; reflexivity|]. rewrite WA in S1, S4.
  assert (M1 := send_money _ _ _ _ _ S1). assert (M4 := send_money _ _ _ _ _ S4). split.
  - rewrite ME, M4. rewrite M1 in M3. rewrite addr_eqb_refl in *. cbn [addr_eqb] in *. lia.
  - intro X. assert (EF : effs = []) by congruence. rewrite EF in *. cbn [apply_effects fold_left] in *. split; [|split].
    + rewrite ME, M4, store_money, M1. cbn [addr_eqb]. rewrite Z.eqb_refl. lia.
    + rewrite ME, M4, store_money, M1. cbn [addr_eqb]. lia.
    + intros z Z1 Z2. rewrite ME, M4, store_money, M1. destruct (addr_eqb_spec (Wallet (c_id c)) z); [congruence|]. destruct (addr_eqb_spec Collector z); [congruence|]. lia.
Qed.

Lemma execute_cost s e c c1 s' g : wf s -> solvent s -> get_cron s (c_id c) = Some c -> run_copy s e c = Some c1 -> 0 <= e_base e ->
  gas_ok e c1 (s_nonce s) ->
  (forall l u, e_evm e c1 (s_nonce s) = EvmRun u l -> Forall (tame (c_id c)) l) ->
  execute s e c = Ok (s', Some g) ->
  0 <= g <= c_gas c /\ (exists l, e_evm e c1 (s_nonce s) = EvmRun g l) /\
  (exists p, c_price c = Some p /\ e_base e <= p) /\
  money s (Wallet (c_id c)) - g * e_base e <= money s' (Wallet (c_id c)) /\
  (e_evm e c1 (s_nonce s) = EvmRun g [] ->
     money s' (Wallet (c_id c)) = money s (Wallet (c_id c)) - g * e_base e /\
     money s' Collector = money s Collector + g * e_base e /\
     forall z, z <> Wallet (c_id c) -> z <> Collector -> money s' z = money s z).
Proof.
  intros W SO G RC B GO TM. destruct (wf_live _ _ _ W G) as (_ & O & L). unfold execute. cbn zeta.
  assert (KEY : forall s0, wf s0 -> solvent s0 -> s_next s0 = s_next s -> s_nonce s0 = s_nonce s -> s_bal s0 = s_bal s -> ok_cron c1 -> c_id c1 = c_id c -> c_gas c1 = c_gas c -> c_price c1 = c_price c ->
    (if negb (e_pack e c1) then Ok (s0, None)
     else match c_price c1 with
          | None => Panic
          | Some p => if p <? e_base e then Ok (s0, None)
             else rbind (run_evm s0 e c1) (fun r => let '(s1, out) := r in
               match out with
               | Some g => Ok (record (store_cron s1 (with_run c1 (u64 (e_height e + c_freq c1)))) (mk_result (c_id c1) (e_height e) true), Some g)
               | None => Panic end) end) = Ok (s', Some g) ->
    0 <= g <= c_gas c /\ (exists l, e_evm e c1 (s_nonce s) = EvmRun g l) /\ (exists p, c_price c = Some p /\ e_base e <= p) /\
    money s (Wallet (c_id c)) - g * e_base e <= money s' (Wallet (c_id c)) /\
    (e_evm e c1 (s_nonce s) = EvmRun g [] ->
     money s' (Wallet (c_id c)) = money s (Wallet (c_id c)) - g * e_base e /\
     money s' Collector = money s Collector + g * e_base e /\
     forall z, z <> Wallet (c_id c) -> z <> Collector -> money s' z = money s z)).
  { intros s0 W0 SO0 NX NO BL O1 I1 G1 P1. destruct (negb _); [discriminate|]. rewrite P1. destruct (c_price c) as [p|]; [|discriminate].
    destruct (Z.ltb_spec p (e_base e)) as [LB|LB]; [discriminate|]. intro H. apply rbind_ok in H. destruct H as ([s1 o1] & H1 & H2).
    destruct o1 as [g1|]; [|discriminate]. apply (f_equal (fun r => match r with Ok (a, Some b) => (a, b) | _ => (s', g + 1) end)) in H2.
    apply pair_equal_spec in H2. destruct H2 as [H2 EG]. subst g1.
    assert (ME : forall z, money s' z = money s1 z) by (intro z; rewrite <- H2; reflexivity). clear H2.
    assert (LN : c_id c1 < s_next s0) by (rewrite I1, NX; exact L).
    rewrite <- NO in GO, TM |- *. assert (TM' : forall l u, e_evm e c1 (s_nonce s0) = EvmRun u l -> Forall (tame (c_id c1)) l) by (rewrite I1; exact TM).
    destruct (run_evm_cost s0 e c1 s1 g W0 SO0 O1 LN B GO TM' H1) as (A1 & A2 & A3 & A4). rewrite I1 in *. rewrite G1 in A1.
    assert (M0 : forall z, money s0 z = money s z) by (intro z; unfold money; rewrite BL; reflexivity). rewrite M0 in A3.
    split; [exact A1|]. split; [exact A2|]. split; [exists p; split; [reflexivity|exact LB]|]. rewrite ME. split; [exact A3|].
    intro X. destruct (A4 X) as (B1 & B2 & B3). rewrite !M0 in *. rewrite !ME. split; [exact B1|]. split; [exact B2|].
    intros z Z1 Z2. rewrite ME, <- M0. apply B3; assumption. }
  unfold run_copy in RC. destruct (c_cb c).
  - destruct (zget (s_data s) (c_id c)) as [d|]; [|discriminate]. injection RC as RC. rewrite RC.
    assert (O1 : ok_cron c1) by (rewrite <- RC; exact O). assert (I1 : c_id c1 = c_id c) by (rewrite <- RC; reflexivity).
    apply KEY; [apply store_wf; [exact W|exact O1|rewrite I1; exact L]|exact SO|reflexivity|reflexivity|reflexivity|exact O1|exact I1|rewrite <- RC; reflexivity|rewrite <- RC; reflexivity].
  - injection RC as RC. subst c1. apply KEY; auto.
Qed.

(* ---- a funded task runs ------------------------------------------------ *)


Lemma pays_collector e o s f : pays_only f -> money s Collector <= money (apply_effect e o s f) Collector.
Proof.
  intro P. destruct (effect_cases e o s f) as [->|[(a & b & x & PA & -> & S)|[(id & -> & C)|(u & -> & U)]]].
  - lia.
  - rewrite (send_money _ _ _ _ _ S). destruct (send_ok _ _ _ _ _ S) as (X & _). destruct a; cbn in *; try tauto. destruct (addr_eqb b Collector); lia.
  - destruct P.
  - destruct P.
Qed.
Lemma pays_collectors e o l : Forall pays_only l -> forall s, money s Collector <= money (apply_effects e o s l) Collector.
Proof.
  unfold apply_effects. induction 1 as [|f l P _ IH]; intro s; cbn; [lia|]. pose proof (pays_collector e o s f P). specialize (IH (apply_effect e o s f)). lia.
Qed.

Lemma send_succeeds s a b x : 0 <= x -> x <= money s a -> exists s', send s a b x = Ok s'.
Proof.
  intros H1 H2. unfold send, money in *. destruct (Z.ltb_spec x 0); [lia|]. destruct (x =? 0); [eauto|].
  destruct (Z.leb_spec x (bal (s_bal s) a)); [eauto|lia].
Qed.

Lemma funded_runs s e c o used l : wf s -> solvent s -> get_cron s (c_id c) = Some c -> c_cb c = false -> decode (c_owner c) = Some o ->
  e_pack e c = true -> (exists p, c_price c = Some p /\ e_base e <= p) -> 0 < e_base e -> e_intr e c <= c_gas c -> 0 < c_gas c < 2 ^ 64 ->
  c_gas c * e_base e <= money s o -> c_gas c * e_base e <= money s (Wallet (c_id c)) ->
  e_evm e c (s_nonce s) = EvmRun used l -> 0 <= used <= c_gas c -> Forall pays_only l ->
  exists s', execute s e c = Ok (s', Some used).
Proof.
  intros W SO G CB D PK (p & P & PB) BP IN GB OM WM EV UB PO. destruct (wf_live _ _ _ W G) as (_ & (WA & _) & _).
  unfold execute. cbn zeta. rewrite CB, PK, P. cbn [negb]. destruct (Z.ltb_spec p (e_base e)); [lia|].
  assert (X : exists s', run_evm s e c = Ok (s', Some used)).
  { unfold run_evm. rewrite D. fold (money s o). destruct (Z.ltb_spec (money s o) 0); [nia|]. destruct (Z.ltb_spec (money s o) (c_gas c * e_base e)); [lia|]. cbn [orb].
    destruct (Z.ltb_spec (c_gas c) (e_intr e c)); [lia|]. destruct (Z.eqb_spec (c_gas c * e_base e) 0); [nia|].
    destruct (send_succeeds s (c_wallet c) Collector (c_gas c * e_base e)) as (s1 & S1); [nia|rewrite WA; exact WM|]. rewrite S1, EV.
    rewrite u64_small by lia.
    assert (MC : c_gas c * e_base e <= money s1 Collector).
    { rewrite (send_money _ _ _ _ _ S1), WA. cbn [addr_eqb]. pose proof (SO Collector). lia. }
    pose proof (pays_collectors e o l PO (store_cron s1 (with_fees c (c_fees c + c_gas c * e_base e)))) as MC2. rewrite store_money in MC2.
    destruct (send_succeeds (apply_effects e o (store_cron s1 (with_fees c (c_fees c + c_gas c * e_base e))) l) Collector (c_wallet c) ((c_gas c - used) * e_base e)) as (s4 & S4); [nia|nia|].
    rewrite S4. eexists. reflexivity. }
  destruct X as (s1 & ->). cbn [rbind]. eexists. reflexivity.
Qed.

(* ---- which tasks are picked ------------------------------------------- *)


Lemma fee_read_zero k : fee_read k = 0.
Proof.
  unfold fee_read. rewrite skipn_all2; [reflexivity|]. rewrite be_length. lia.
Qed.

Definition acc_ok (e : env) (done : list (Z * Z)) (a : picked) : Prop :=
  let ok := filter (fun it => negb (late e it)) done in
  b_ids a = firstn (Z.to_nat (e_limit e)) (map fst ok) /\
  b_expired a = map fst (filter (late e) done) /\
  b_count a = Z.of_nat (length ok) /\
  b_fees a = repeat 0 (length (b_ids a)).

Lemma sort_zeros n : sort_desc (repeat 0 n) = repeat 0 n.
Proof.
  unfold sort_desc. assert (I : forall m, insert_desc 0 (repeat 0 m) = repeat 0 (S m)).
  { induction m as [|m IH]; cbn; [reflexivity|]. rewrite IH. reflexivity. }
  assert (F : forall m k, fold_left (fun acc x => insert_desc x acc) (repeat 0 m) (repeat 0 k) = repeat 0 (k + m)).
  { induction m as [|m IH]; intro k; cbn; [rewrite Nat.add_0_r; reflexivity|]. rewrite I, (IH (S k)). f_equal. lia. }
  apply (F n 0%nat).
Qed.

Lemma firstn_app_le {A} n (l : list A) x : (length l < n)%nat -> firstn n (l ++ [x]) = firstn n l ++ [x].
Proof. intro H. rewrite !firstn_all2; [reflexivity|lia|rewrite app_length; cbn; lia]. Qed.
Lemma firstn_app_ge {A} n (l : list A) x : (n <= length l)%nat -> firstn n (l ++ [x]) = firstn n l.
Proof. intro H. rewrite firstn_app. replace (n - length l)%nat with 0%nat by lia. cbn. apply app_nil_r. Qed.

Lemma repeat_snoc {A} (x : A) n : repeat x n ++ [x] = repeat x (S n).
Proof. induction n as [|n IH]; cbn; [reflexivity|]. rewrite IH. reflexivity. Qed.

Lemma pick_one_ok e done a it : 0 < e_limit e -> acc_ok e done a -> exists a', pick_one e 0 a it = Ok a' /\ acc_ok e (done ++ [it]) a'.
Proof.
  intros L (A1 & A2 & A3 & A4). destruct it as [id ts]. unfold pick_one. fold (late e (id, ts)).
  unfold acc_ok. rewrite !filter_app, !map_app, app_length. cbn [filter]. change (ts <? u64 (e_time e - queue_timeout)) with (late e (id, ts)).
  destruct (late e (id, ts)) eqn:LT; cbn [negb map fst length app].
  - eexists. split; [reflexivity|]. cbn. rewrite !app_nil_r, A2, Nat.add_0_r. auto.
  - rewrite !app_nil_r. set (ok := filter (fun it => negb (late e it)) done) in *.
    assert (LI : length (b_ids a) = Nat.min (Z.to_nat (e_limit e)) (length ok)) by (rewrite A1, firstn_length, map_length; reflexivity).
    destruct (Z.leb_spec (e_limit e) (b_count a)) as [F|F].
    + rewrite A4, sort_zeros. destruct (length (b_ids a)) as [|n] eqn:LE; [lia|]. cbn [repeat].
      replace (0 <? 0) with false by reflexivity. eexists. split; [reflexivity|]. cbn. rewrite firstn_app_ge by (rewrite map_length; lia).
      split; [exact A1|]. split; [exact A2|]. split; [lia|]. rewrite LE. reflexivity.
    + eexists. split; [reflexivity|]. cbn. rewrite firstn_app_le by (rewrite map_length; lia). rewrite A1 at 1. split; [reflexivity|].
      split; [exact A2|]. split; [lia|]. rewrite app_length. cbn. rewrite A4, repeat_snoc. f_equal. lia.
Qed.

Lemma pick_list_ok e l : 0 < e_limit e -> forall done a, acc_ok e done a -> exists a', pick_list e 0 l a = Ok a' /\ acc_ok e (done ++ l) a'.
Proof.
  intro L. induction l as [|it l IH]; intros done a A; cbn; [exists a; rewrite app_nil_r; auto|].
  destruct (pick_one_ok e done a it L A) as (a1 & -> & A1). cbn. destruct (IH _ _ A1) as (a2 & E2 & A2). exists a2. split; [exact E2|].
  rewrite <- app_assoc in A2. exact A2.
Qed.

Lemma pick_all_ok e q : 0 < e_limit e -> forall done a, acc_ok e done a -> exists a', pick_all e q a = Ok a' /\ acc_ok e (done ++ concat (map snd q)) a'.
Proof.
  intro L. induction q as [|[k l] q IH]; intros done a A; cbn [pick_all map concat snd]; [exists a; rewrite app_nil_r; auto|].
  rewrite fee_read_zero. destruct (pick_list_ok e l L done a A) as (a1 & -> & A1). cbn [rbind]. destruct (IH _ _ A1) as (a2 & E2 & A2). exists a2. split; [exact E2|].
  rewrite <- app_assoc in A2. exact A2.
Qed.

Lemma get_batch_ok s e : 0 < e_limit e -> exists b, get_batch s e = Ok b /\
  b_ids b = firstn (Z.to_nat (e_limit e)) (map fst (filter (fun it => negb (late e it)) (in_order s))) /\
  b_expired b = map fst (filter (late e) (in_order s)).
Proof.
  intro L. destruct (pick_all_ok e (s_queue s) L [] (mk_picked [] [] [] 0)) as (b & E & A).
  - unfold acc_ok. cbn. rewrite firstn_nil. auto.
  - exists b. split; [exact E|]. split; apply A.
Qed.

(* ---- the listing by owner --------------------------------------------- *)

Definition listed (F : Z -> option (atext * addr * Z * bool)) (s : st) : Prop :=
  forall o id, In (o, id) (s_owned s) <-> exists t w k b, F id = Some (t, w, k, b) /\ decode t = Some o.

Lemma remove_owned s h id o s' : remove_cron s h id o = Ok s' -> s_owned s' = s_owned s.
Proof. intro H. destruct (remove_cron_facts _ _ _ _ _ H) as (c & X). apply X. Qed.

Lemma effect_owned e o s f : s_owned (apply_effect e o s f) = s_owned s.
Proof.
  destruct (effect_cases e o s f) as [->|[(a & b & x & _ & _ & S)|[(id & _ & C)|(u & _ & U)]]].
  - reflexivity.
  - rewrite (send_rest _ _ _ _ _ S). reflexivity.
  - destruct (cancel_shape _ _ _ _ _ _ C) as (c & w & _ & _ & _ & R). apply (remove_owned _ _ _ _ _ R).
  - destruct (update_shape _ _ _ _ U) as (c & _ & _ & ->). reflexivity.
Qed.

Lemma end_block_owned fuel s e s' : end_block fuel s e = Ok s' -> s_owned s' = s_owned s.
Proof.
  intro H. apply (pr_end_block e (fun x => s_owned x = s_owned s) (fun _ => True)) with (fuel := fuel) (s := s); auto.
  - intros s0 c x s1 A _ S. rewrite (send_rest _ _ _ _ _ S). exact A.
  - intros s0 c x s1 A _ S. rewrite (send_rest _ _ _ _ _ S). exact A.
  - intros s0 id o s1 A R. rewrite (remove_owned _ _ _ _ _ R). exact A.
  - intros s0 o f A. rewrite effect_owned. exact A.
Qed.

Lemma callback_owned s e id d s' : store_callback s e id d = Ok s' -> s_owned s' = s_owned s.
Proof.
  intro K. destruct (store_callback_shape _ _ _ _ _ K) as [->|(c & _ & _ & A)]; [reflexivity|].
  destruct (append_shape _ _ _ _ A) as (k & _ & ->). reflexivity.
Qed.

Lemma create_owned cb s e m s' id : upd1 < e_height e -> create_any cb s e m = Ok (s', id) ->
  exists o, decode (m_owner m) = Some o /\ s_owned s' = s_owned s ++ [(o, id)].
Proof.
  intros HH C. destruct (create_shape _ _ _ _ _ _ C) as (o & x & s2 & I & G & SE & D & A & N & CC & CI & E & _).
  exists o. split; [exact D|].
  assert (D' : decode (c_owner (new_cron e m id cb)) = Some o) by (destruct cb; exact D).
  assert (J : c_id (new_cron e m id cb) = id) by (destruct cb; reflexivity).
  assert (R : s_owned s2 = s_owned s).
  { destruct (cron_in_ok (set_next s (s_next s + 1)) _ _ _ _ D' N CI) as [[L S]|[L ->]]; [rewrite (send_rest _ _ _ _ _ S)|]; reflexivity. }
  rewrite E. unfold add_cron. cbn [s_owned]. replace (upd1 <? e_height e) with true by (symmetry; apply Z.ltb_lt; exact HH).
  rewrite D', J. change (s_owned (store_cron s2 (new_cron e m id cb))) with (s_owned s2). rewrite R. reflexivity.
Qed.

Lemma step_listed s e o s' F : op_signed o -> upd1 < e_height e -> wf s -> named F s -> listed F s -> (forall id, s_next s <= id -> F id = None) ->
  step s e o = Ok s' -> exists F', named F' s' /\ listed F' s' /\ forall id, s_next s' <= id -> F' id = None.
Proof.
  intros SG HH W Nm LI FN H. pose proof (step_next _ _ _ _ W H) as SN.
  destruct (step_cases _ _ _ _ H) as [->|[(m & cb & id & s1 & V & C)|[(t & u & _ & U)|[(t & w & id & _ & C)|[(id & d & _ & K)|[(a & b & x & _ & _ & S)|(fuel & _ & E)]]]]]].
  - exists F. auto.
  - assert (SM : exists a, signed_by (m_sender m) a) by (destruct V as [(-> & _)|[(-> & _)|(-> & _)]]; exact SG).
    pose proof (create_wf _ _ _ _ _ _ W SM C) as W1. destruct (create_rest _ _ _ _ _ _ C) as (B1 & B2 & B3 & _).
    destruct (create_shape _ _ _ _ _ _ C) as (o1 & x & s2 & I & _). destruct (create_owned _ _ _ _ _ _ HH C) as (oo & DO & OW).
    set (F' := fun j => if j =? id then Some (ident (new_cron e m id cb)) else F j). exists F'.
    assert (N1 : named F' s1).
    { destruct Nm as (A1 & A2 & A3). unfold F', named, any_cron, get_cron. rewrite B1, B2. split; [|split].
      - intros j c. rewrite zget_zset, (Z.eqb_sym j id). destruct (id =? j); [intro X; injection X as <-; reflexivity|apply A1].
      - intros j c X. destruct (wf_arch _ _ _ W X) as (_ & _ & L). destruct (Z.eqb_spec j id); [lia|apply A2, X].
      - intros j X. rewrite zget_zset, (Z.eqb_sym id j). destruct (j =? id); [discriminate|apply A3, X]. }
    assert (L1 : listed F' s1).
    { intros o2 j. rewrite OW, in_app_iff, (LI o2 j). cbn [In]. unfold F'. destruct (Z.eqb_spec j id) as [->|NE].
      - split.
        + intros [(t & w & k & b & FE & _)|[X|[]]]; [rewrite FN in FE by lia; discriminate|]. injection X as ->.
          exists (m_owner m), (Wallet id), (m_call m), cb. split; [destruct cb; reflexivity|exact DO].
        + intros (t & w & k & b & FE & DT). right. left. assert (TE : t = m_owner m) by (unfold ident, new_cron in FE; destruct cb; cbn in FE; injection FE as <- _ _; reflexivity). rewrite TE, DO in DT. injection DT as ->. reflexivity.
      - split; [intros [X|[X|[]]]; [exact X|congruence]|auto]. }
    assert (O1 : s_next s' = s_next s1 /\ s_owned s' = s_owned s1 /\ named F' s').
    { destruct V as [(_ & _ & ->)|[(_ & _ & ->)|(_ & _ & K)]]; [auto|auto|]. split; [|split; [apply (callback_owned _ _ _ _ _ K)|apply (named_callback _ _ _ _ _ _ W1 N1 K)]].
      destruct (store_callback_shape _ _ _ _ _ K) as [->|(c & _ & _ & A)]; [reflexivity|]. destruct (append_shape _ _ _ _ A) as (k & _ & ->). reflexivity. }
    destruct O1 as (E1 & E2 & E3). split; [exact E3|]. split; [unfold listed; rewrite E2; exact L1|].
    intros j LJ. unfold F'. destruct (Z.eqb_spec j id); [lia|]. apply FN. lia.
  - exists F. split; [apply (named_update _ _ _ _ _ W Nm U)|]. destruct (update_shape _ _ _ _ U) as (c & _ & _ & ->). auto.
  - exists F. destruct (cancel_shape _ _ _ _ _ _ C) as (c & o1 & _ & _ & _ & R). split; [apply (named_remove _ _ _ _ _ _ W Nm R)|].
    split; [unfold listed; rewrite (remove_owned _ _ _ _ _ R); exact LI|]. intros j LJ. apply FN. lia.
  - exists F. split; [apply (named_callback _ _ _ _ _ _ W Nm K)|]. split; [unfold listed; rewrite (callback_owned _ _ _ _ _ K); exact LI|]. intros j LJ. apply FN. lia.
  - exists F. rewrite (send_rest _ _ _ _ _ S). auto.
  - exists F. split; [apply (named_end_block _ _ _ _ _ W Nm E)|]. split; [unfold listed; rewrite (end_block_owned _ _ _ _ E); exact LI|]. intros j LJ. apply FN. lia.
Qed.

Lemma run_listed l : forall s s' F, all_signed l -> Forall (fun p : env * op => upd1 < e_height (fst p)) l -> wf s -> named F s -> listed F s ->
  (forall id, s_next s <= id -> F id = None) -> run s l = Ok s' -> exists F', named F' s' /\ listed F' s'.
Proof.
  induction l as [|[e o] l IH]; intros s s' F SG HH W Nm LI FN; cbn; [intro H; injection H as <-; exists F; auto|].
  intro H. apply rbind_ok in H. destruct H as (s1 & H1 & H2).
  destruct (step_listed _ _ _ _ _ (Forall_inv SG) (Forall_inv HH) W Nm LI FN H1) as (F1 & N1 & L1 & FN1).
  apply (IH s1 s' F1 (Forall_inv_tail SG) (Forall_inv_tail HH) (step_wf _ _ _ _ (Forall_inv SG) W H1) N1 L1 FN1 H2).
Qed.

Lemma by_owner_in s o c : In c (by_owner s o) <-> exists id, In (o, id) (s_owned s) /\ any_cron s id = Some c.
Proof.
  unfold by_owner. rewrite in_flat_map. split.
  - intros ([o' id] & I & H). cbn [fst snd] in H. destruct (addr_eqb_spec o' o) as [->|]; [|destruct H].
    exists id. split; [exact I|]. destruct (any_cron s id); [destruct H as [->|[]]; reflexivity|destruct H].
  - intros (id & I & A). exists (o, id). split; [exact I|]. cbn [fst snd]. rewrite addr_eqb_refl, A. left. reflexivity.
Qed.

(* ---- genesis ---------------------------------------------------------- *)

Lemma import_fields h l : forall s0,
  s_bal (fold_left (fun s c => add_cron s h c) l s0) = s_bal s0 /\
  s_next (fold_left (fun s c => add_cron s h c) l s0) = s_next s0 /\
  s_nonce (fold_left (fun s c => add_cron s h c) l s0) = s_nonce s0 /\
  s_queue (fold_left (fun s c => add_cron s h c) l s0) = s_queue s0 /\
  s_arch (fold_left (fun s c => add_cron s h c) l s0) = s_arch s0 /\
  s_results (fold_left (fun s c => add_cron s h c) l s0) = s_results s0 /\
  s_data (fold_left (fun s c => add_cron s h c) l s0) = s_data s0.
Proof. induction l as [|c l IH]; intro s0; cbn; [repeat split|]. destruct (IH (add_cron s0 h c)) as (A1 & A2 & A3 & A4 & A5 & A6 & A7). rewrite A1, A2, A3, A4, A5, A6, A7. repeat split. Qed.

Lemma import_get h l id : NoDup (map c_id l) -> forall s0,
  get_cron (fold_left (fun s c => add_cron s h c) l s0) id =
  match find (fun c => c_id c =? id) l with Some c => Some c | None => get_cron s0 id end.
Proof.
  induction l as [|c l IH]; intros ND s0; cbn; [reflexivity|]. inversion_clear ND as [|? ? NI ND'].
  rewrite (IH ND'). change (get_cron (add_cron s0 h c) id) with (get_cron (store_cron s0 c) id). rewrite get_store.
  destruct (Z.eqb_spec (c_id c) id) as [E|E]; [|reflexivity].
  destruct (find _ l) as [c'|] eqn:FD; [|reflexivity]. exfalso. apply find_some in FD. destruct FD as [I X]. apply Z.eqb_eq in X.
  apply NI. rewrite E, <- X. apply in_map, I.
Qed.

Lemma round_trip_tasks s bank h : wf s -> forall id, get_cron (import bank h (export s)) id = get_cron s id.
Proof.
  intros W id. unfold import, export. rewrite import_get by (rewrite vals_ids by exact W; apply zsorted_nodup, W).
  destruct (find _ _) as [c|] eqn:FD.
  - apply find_some in FD. destruct FD as [I X]. apply Z.eqb_eq in X. pose proof (zvals_get _ _ W I) as G. rewrite X in G. symmetry. exact G.
  - cbn. destruct (get_cron s id) as [c|] eqn:G; [|reflexivity]. exfalso.
    destruct (wf_live _ _ _ W G) as (I & _). apply find_none with (x := c) in FD; [apply Z.eqb_neq in FD; congruence|].
    unfold zvals. apply in_map_iff. exists (id, c). split; [reflexivity|]. apply zget_in, G.
Qed.

Lemma create_blocked cb s e m : live s (s_next s) -> is_ok (create_any cb s e m) = false.
Proof.
  intros (c & G). destruct (create_any cb s e m) as [[s' id]| |] eqn:C; [|reflexivity|reflexivity].
  destruct (create_shape _ _ _ _ _ _ C) as (o & x & s2 & I & N & _). rewrite I in N. congruence.
Qed.
