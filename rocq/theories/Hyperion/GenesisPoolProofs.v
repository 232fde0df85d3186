(* Proofs about the restart of the transfer pool. *)
From Verif Require Import Lib.Base Lib.Bytes Hyperion.Pool Hyperion.PoolSpec Hyperion.PoolProofs Hyperion.GenesisPool.
Open Scope list_scope.
Open Scope Z_scope.

Lemma pget_pput s t h i : pget (pput s t) h i = if is_entry h i t then Some t else pget s h i.
Proof.
  unfold pget, pput. cbn [p_pool set_pool find]. destruct (is_entry h i t) eqn:E; [reflexivity|].
  induction (p_pool s) as [|u r IH]; [reflexivity|]. cbn [filter find]. destruct (is_entry (t_h t) (t_id t) u) eqn:F; cbn [negb].
  - rewrite IH. destruct (is_entry h i u) eqn:G; [|reflexivity]. exfalso. apply is_entry_spec in F, G. assert (tkey t = (h, i)) as K by (unfold tkey in *; congruence).
    apply is_entry_spec in K. congruence.
  - cbn [find]. destruct (is_entry h i u); [reflexivity|exact IH].
Qed.

Lemma find_binsert b l h n t : find (is_batch h n t) (binsert b l) = if is_batch h n t b then Some b else find (is_batch h n t) l.
Proof.
  induction l as [|c r IH]; cbn [binsert find]; [reflexivity|].
  destruct (is_batch (b_h b) (b_nonce b) (b_token b) c) eqn:E.
  - cbn [find]. destruct (is_batch h n t b) eqn:F; [reflexivity|]. destruct (is_batch h n t c) eqn:G; [|reflexivity].
    apply is_batch_spec in E, G. assert (bkey b = (h, n, t)) as K by (unfold bkey in *; congruence). apply is_batch_spec in K. congruence.
  - destruct (bkey_ltb b c); cbn [find]; [reflexivity|]. rewrite IH. destruct (is_batch h n t c) eqn:G; [|reflexivity].
    destruct (is_batch h n t b) eqn:F; [|reflexivity]. exfalso. apply is_batch_spec in F, G. assert (bkey c = (b_h b, b_nonce b, b_token b)) as K by (unfold bkey in *; congruence).
    apply is_batch_spec in K. congruence.
Qed.
Lemma bget_bput s b h n t : bget (bput s b) h n t = if is_batch h n t b then Some b else bget s h n t.
Proof. unfold bget, bput. cbn [p_batches set_batches]. apply find_binsert. Qed.

(* what is in [s] is also in [o] *)
Definition part (o s : st) : Prop :=
  (forall h i t, pget s h i = Some t -> pget o h i = Some t) /\ (forall h n t b, bget s h n t = Some b -> bget o h n t = Some b).
(* [s'] has everything [s] has; its index and counters are those of [s] *)
Definition more (s s' : st) : Prop :=
  (forall h i, pget s h i <> None -> pget s' h i <> None) /\ (forall h n t, bget s h n t <> None -> bget s' h n t <> None) /\
  p_index s' = p_index s /\ p_txid s' = p_txid s /\ same_coins s s'.
Lemma more_refl s : more s s.
Proof. unfold more. repeat split; auto. Qed.
Lemma more_trans a b c : more a b -> more b c -> more a c.
Proof.
  intros (A1 & A2 & A3 & A4 & A5) (B1 & B2 & B3 & B4 & B5). split; [auto|]. split; [auto|]. split; [congruence|]. split; [congruence|]. eapply same_coins_trans; eassumption.
Qed.

Section From.
Variable o : st.
Hypothesis no : NoDup (pkeys (p_pool o)).
Hypothesis nb : NoDup (map bkey (p_batches o)).

Lemma own t : In t (p_pool o) -> forall h i, is_entry h i t = true -> pget o h i = Some t.
Proof. intros I h i E. apply is_entry_spec in E. apply find_entry; assumption. Qed.
Lemma own_batch b : In b (p_batches o) -> forall h n t, is_batch h n t b = true -> bget o h n t = Some b.
Proof. intros I h n t E. apply is_batch_spec in E. apply find_batch; assumption. Qed.

Lemma pput_ok s t : part o s -> In t (p_pool o) ->
  part o (pput s t) /\ more s (pput s t) /\ p_batchid (pput s t) = p_batchid s /\ pget (pput s t) (t_h t) (t_id t) <> None.
Proof.
  intros [P1 P2] I. split; [split|split; [split; [|split]|split]].
  - intros h i u. rewrite pget_pput. destruct (is_entry h i t) eqn:E; [|apply P1]. intros X. injection X as <-. apply own; assumption.
  - exact P2.
  - intros h i X. rewrite pget_pput. destruct (is_entry h i t); [discriminate|exact X].
  - intros h n u X. exact X.
  - split; [reflexivity|]. split; [reflexivity|]. repeat split.
  - reflexivity.
  - rewrite pget_pput. assert (is_entry (t_h t) (t_id t) t = true) as -> by (apply is_entry_spec; reflexivity). discriminate.
Qed.
Lemma pputs_ok l : forall s, part o s -> (forall t, In t l -> In t (p_pool o)) ->
  let s' := fold_left pput l s in
  part o s' /\ more s s' /\ p_batchid s' = p_batchid s /\ forall t, In t l -> pget s' (t_h t) (t_id t) <> None.
Proof.
  induction l as [|t r IH]; intros s P I; cbn [fold_left].
  - split; [exact P|]. split; [apply more_refl|]. split; [reflexivity|]. intros t [].
  - destruct (pput_ok s t P (I t (or_introl eq_refl))) as (A & B & C & D). destruct (IH (pput s t) A) as (A2 & B2 & C2 & D2); [intros u U; apply I; right; exact U|].
    split; [exact A2|]. split; [eapply more_trans; eassumption|]. split; [congruence|]. intros u [<-|U]; [|auto]. apply B2. exact D.
Qed.
Lemma bput_ok s b : part o s -> In b (p_batches o) ->
  part o (bput s b) /\ more s (bput s b) /\ p_batchid (bput s b) = p_batchid s /\ bget (bput s b) (b_h b) (b_nonce b) (b_token b) <> None.
Proof.
  intros [P1 P2] I. split; [split|split; [split; [|split]|split]].
  - exact P1.
  - intros h n t c. rewrite bget_bput. destruct (is_batch h n t b) eqn:E; [|apply P2]. intros X. injection X as <-. apply own_batch; assumption.
  - intros h i X. exact X.
  - intros h n t X. rewrite bget_bput. destruct (is_batch h n t b); [discriminate|exact X].
  - split; [reflexivity|]. split; [reflexivity|]. repeat split.
  - reflexivity.
  - rewrite bget_bput. assert (is_batch (b_h b) (b_nonce b) (b_token b) b = true) as -> by (apply is_batch_spec; reflexivity). discriminate.
Qed.
Hypothesis nt : forall b t, In b (p_batches o) -> In t (b_txs b) -> In t (p_pool o).

Lemma stores_ok l : forall s, part o s -> (forall b, In b l -> In b (p_batches o)) ->
  let s' := fold_left store_batch l s in
  part o s' /\ more s s' /\ p_batchid s' = p_batchid s /\
  forall b, In b l -> bget s' (b_h b) (b_nonce b) (b_token b) <> None /\ forall t, In t (b_txs b) -> pget s' (t_h t) (t_id t) <> None.
Proof.
  induction l as [|b r IH]; intros s P I; cbn [fold_left].
  - split; [exact P|]. split; [apply more_refl|]. split; [reflexivity|]. intros b [].
  - pose proof (I b (or_introl eq_refl)) as Ib. destruct (bput_ok s b P Ib) as (A & B & C & D).
    destruct (pputs_ok (b_txs b) (bput s b) A (fun t => nt b t Ib)) as (A1 & B1 & C1 & D1).
    destruct (IH (store_batch s b) A1) as (A2 & B2 & C2 & D2); [intros u U; apply I; right; exact U|].
    split; [exact A2|]. split; [eapply more_trans; [eapply more_trans; eassumption|exact B2]|]. split; [unfold store_batch in C2 |- *; congruence|].
    intros c [<-|U]; [|auto]. split; [apply B2, B1, D|]. intros t T. apply B2, D1, T.
Qed.

Lemma import_ok s g : part o s -> (forall b, In b (g_batches g) -> In b (p_batches o)) -> (forall t, In t (g_waiting g) -> In t (p_pool o)) ->
  let s' := import_pool s g in
  part o s' /\ more s s' /\ (forall h, p_batchid s' h = if h =? g_h g then g_batch_id g else p_batchid s h) /\
  (forall b, In b (g_batches g) -> b_h b = g_h g -> bget s' (b_h b) (b_nonce b) (b_token b) <> None /\ forall t, In t (b_txs b) -> pget s' (t_h t) (t_id t) <> None) /\
  (forall t, In t (g_waiting g) -> t_h t = g_h g -> pget s' (t_h t) (t_id t) <> None).
Proof.
  intros P Ib It. unfold import_pool.
  destruct (stores_ok (filter (fun b => b_h b =? g_h g) (g_batches g)) s P) as (A1 & B1 & C1 & D1); [intros b X; apply filter_In in X; apply Ib, X|].
  set (s1 := fold_left store_batch _ s) in *.
  destruct (pputs_ok (filter (fun t => t_h t =? g_h g) (g_waiting g)) s1 A1) as (A2 & B2 & C2 & D2); [intros b X; apply filter_In in X; apply It, X|].
  set (s2 := fold_left pput _ s1) in *. cbv zeta.
  split; [exact A2|]. split; [exact (more_trans _ _ _ B1 B2)|]. split; [|split].
  - intro h. cbn [p_batchid set_batchid]. rewrite C2, C1. reflexivity.
  - intros b X E. destruct (D1 b) as [E1 E2]; [apply filter_In; rewrite E, Z.eqb_refl; auto|]. split; [exact (proj1 (proj2 B2) _ _ _ E1)|]. intros t T. exact (proj1 B2 _ _ (E2 t T)).
  - intros t X E. exact (D2 t (proj2 (filter_In _ _ _) (conj X (proj2 (Z.eqb_eq _ _) E)))).
Qed.
End From.

Lemma exports_ok s hs : Inv s -> exists gs, export_pools s hs = Ok gs /\ map g_h gs = hs /\
  forall g, In g gs -> exists l, pool_txs s (g_h g) = Ok l /\ g = mk_sub (g_h g) (batches_of s (g_h g)) l (p_batchid s (g_h g)) 0.
Proof.
  intro I. induction hs as [|h r (gs & E & M & H)]; cbn [export_pools].
  - exists []. split; [reflexivity|]. split; [reflexivity|]. intros g [].
  - unfold export_pool. destruct (pool_txs_ok s h [] (p_batches s) (i_ok _ I)) as (l & L & _ & _). rewrite L. cbn [rbind]. rewrite E. cbn [rbind].
    eexists. split; [reflexivity|]. split; [cbn [map g_h]; congruence|]. intros g [<-|G]; [exists l; split; [exact L|reflexivity]|auto].
Qed.

Lemma imports_ok o : Inv o -> forall gs s, part o s -> NoDup (map g_h gs) ->
  (forall g, In g gs -> exists l, pool_txs o (g_h g) = Ok l /\ g = mk_sub (g_h g) (batches_of o (g_h g)) l (p_batchid o (g_h g)) 0) ->
  let s' := fold_left import_pool gs s in
  part o s' /\ more s s' /\
  (forall h, p_batchid s' h = if existsb (Z.eqb h) (map g_h gs) then p_batchid o h else p_batchid s h) /\
  (forall g b, In g gs -> In b (g_batches g) -> b_h b = g_h g -> bget s' (b_h b) (b_nonce b) (b_token b) <> None /\ forall t, In t (b_txs b) -> pget s' (t_h t) (t_id t) <> None) /\
  (forall g t, In g gs -> In t (g_waiting g) -> t_h t = g_h g -> pget s' (t_h t) (t_id t) <> None).
Proof.
  intros I. induction gs as [|g r IH]; intros s P N H; cbn [fold_left].
  - split; [exact P|]. split; [apply more_refl|]. split; [intro h; reflexivity|]. split; [intros g b []|intros g t []].
  - inversion N as [|? ? Ng Nr]; subst. destruct (H g (or_introl eq_refl)) as (l & L & G).
    destruct (pool_txs_ok o (g_h g) [] (p_batches o) (i_ok _ I)) as (l' & L' & _ & Q). rewrite L in L'. injection L' as <-.
    destruct (import_ok o (o_nodup _ _ _ _ (i_ok _ I)) (o_bnodup _ _ _ _ (i_ok _ I)) (fun b t X Y => proj1 (o_batch _ _ _ _ (i_ok _ I) b t X Y)) s g P) as (A1 & B1 & C1 & D1 & E1).
    { intros b X. rewrite G in X. cbn [g_batches] in X. unfold batches_of in X. apply in_rev, filter_In in X. apply X. }
    { intros t X. rewrite G in X. cbn [g_waiting] in X. auto. }
    destruct (IH (import_pool s g) A1 Nr (fun g' X => H g' (or_intror X))) as (A2 & B2 & C2 & D2 & E2).
    split; [exact A2|]. split; [exact (more_trans _ _ _ B1 B2)|]. split; [|split].
    + intro h. rewrite C2, C1. cbn [map existsb]. destruct (existsb (Z.eqb h) (map g_h r)) eqn:X; [rewrite orb_true_r; reflexivity|]. rewrite orb_false_r.
      destruct (Z.eqb_spec h (g_h g)) as [Eh|]; [|reflexivity]. rewrite G. cbn [g_batch_id]. rewrite Eh. reflexivity.
    + intros g' b [Eg|X] Y Z; [subst g'|eauto]. destruct (D1 b Y Z) as [U V]. split; [exact (proj1 (proj2 B2) _ _ _ U)|]. intros t T. exact (proj1 B2 _ _ (V t T)).
    + intros g' t [Eg|X] Y Z; [subst g'|eauto]. exact (proj1 B2 _ _ (E1 t Y Z)).
Qed.

Lemma restart_ok s hs : Inv s -> NoDup hs -> (forall t, In t (p_pool s) -> In (t_h t) hs) -> (forall b, In b (p_batches s) -> In (b_h b) hs) ->
  exists s', restart s hs = Ok s' /\ same_coins s s' /\ p_index s' = [] /\ p_txid s' = 0 /\
    (forall h i, pget s' h i = pget s h i) /\ (forall h n t, bget s' h n t = bget s h n t) /\
    (forall h, In h hs -> p_batchid s' h = p_batchid s h).
Proof.
  intros I N Ct Cb. unfold restart. destruct (exports_ok s hs I) as (gs & E & M & H). rewrite E. cbn [rbind]. eexists. split; [reflexivity|].
  rewrite <- M in N. destruct (imports_ok s I gs (new_chain s)) as (A & B & C & D & F); [split; intros; discriminate|exact N|exact H|].
  set (s' := fold_left import_pool gs (new_chain s)) in *. destruct B as (_ & _ & B1 & B2 & B3).
  pose proof (i_ok _ I) as K.
  assert (G : forall b, In b (p_batches s) -> exists g, In g gs /\ g_h g = b_h b /\ In b (g_batches g)).
  { intros b X. pose proof (Cb b X) as Y. rewrite <- M in Y. apply in_map_iff in Y as (g & Eg & Ig). exists g. split; [exact Ig|]. split; [exact Eg|].
    destruct (H g Ig) as (l & _ & ->). cbn [g_batches]. unfold batches_of. apply -> in_rev. apply filter_In. split; [exact X|]. lia. }
  split; [exact B3|]. split; [exact B1|]. split; [exact B2|]. split; [|split].
  - intros h i. destruct (pget s' h i) as [t|] eqn:X; [symmetry; apply A, X|]. destruct (pget s h i) as [t|] eqn:Y; [|reflexivity]. exfalso.
    apply pget_some in Y. destruct Y as [Y1 Y2]. assert (Eh : t_h t = h) by (unfold tkey in Y2; congruence). assert (Ei : t_id t = i) by (unfold tkey in Y2; congruence). subst h i.
    assert (Cq : 0 < cz (tkey t) (ikeys (p_index s)) + cz (tkey t) (bkeys (p_batches s))).
    { pose proof (o_count _ _ _ _ K (tkey t)) as Q. assert (0 < cz (tkey t) (pkeys (p_pool s))) by (apply cz_in; unfold pkeys; apply in_map; exact Y1). cbn [pkeys map] in Q. rewrite cz_nil in Q. lia. }
    pose proof (cz_pos (tkey t) (ikeys (p_index s))). pose proof (cz_pos (tkey t) (bkeys (p_batches s))).
    assert (In (tkey t) (ikeys (p_index s)) \/ In (tkey t) (bkeys (p_batches s))) as [W|W] by (rewrite !cz_in; lia).
    + pose proof (Ct t Y1) as Z. rewrite <- M in Z. apply in_map_iff in Z as (g & Eg & Ig). destruct (H g Ig) as (l & L & Gq).
      destruct (pool_txs_ok s (g_h g) [] (p_batches s) K) as (l' & L' & Kl & Q). rewrite L in L'. injection L' as <-.
      apply (F g t Ig); [|congruence|exact X]. rewrite Gq. cbn [g_waiting].
      assert (In (tkey t) (map tkey l)) as T.
      { rewrite Kl. unfold ikeys in W. apply in_flat_map in W as ([k ids] & W1 & W2). unfold tag in W2. cbn [fst snd] in W2. apply in_map_iff in W2 as (j & Ej & Ij).
        unfold tkey in Ej. apply pair_equal_spec in Ej as [Ej1 Ej2]. apply in_map_iff. exists (t_id t). split; [rewrite Eg; reflexivity|]. apply index_ids_in. exists k, ids.
        split; [exact W1|]. split; [apply of_bridge_fh; congruence|congruence]. }
      apply in_map_iff in T as (u & Eu & Iu). assert (u = t) as <-; [|exact Iu]. eapply nodup_key_in; [apply (o_nodup _ _ _ _ K)|auto|exact Y1|exact Eu].
    + unfold bkeys in W. apply in_flat_map in W as (b & W1 & W2). unfold pkeys in W2. apply in_map_iff in W2 as (u & Eu & Iu).
      destruct (o_batch _ _ _ _ K b u W1 Iu) as (Pu & _). assert (u = t) as -> by (eapply nodup_key_in; [apply (o_nodup _ _ _ _ K)|exact Pu|exact Y1|exact Eu]).
      destruct (G b W1) as (g & Ig & Eg & Ib). destruct (D g b Ig Ib (eq_sym Eg)) as [_ V]. exact (V t Iu X).
  - intros h n t. destruct (bget s' h n t) as [b|] eqn:X; [symmetry; apply A, X|]. destruct (bget s h n t) as [b|] eqn:Y; [|reflexivity]. exfalso.
    apply bget_some in Y. destruct Y as [Y1 Y2]. destruct (G b Y1) as (g & Ig & Eg & Ib). destruct (D g b Ig Ib (eq_sym Eg)) as [V _].
    unfold bkey in Y2. apply V. replace (b_h b) with h by congruence. replace (b_nonce b) with n by congruence. replace (b_token b) with t by congruence. exact X.
  - intros h X. rewrite C. rewrite M. assert (existsb (Z.eqb h) hs = true) as -> by (apply existsb_exists; exists h; split; [exact X|apply Z.eqb_refl]). reflexivity.
Qed.

(* A restarted chain never batches or refunds what was waiting, as long as nothing new is
   queued and no batch is cancelled. *)
Lemma no_index_no_batch e s h d : p_index s = [] -> request_batch e s h d = Err \/ e_by_denom e h d = None.
Proof.
  intro X. unfold request_batch. destruct (e_by_denom e h d) as [[t o]|]; [|auto]. left. unfold build, token_txs, index_ids. rewrite X. cbn.
  destruct (last_batch s h t); [|reflexivity]. unfold quote, fee_groups. rewrite X. reflexivity.
Qed.
Lemma no_index_no_refund e s h i a : p_index s = [] -> cancel_send e s h i a = Err.
Proof.
  intro X. unfold cancel_send, refund. destruct (pget s h i) as [t|]; [|reflexivity]. destruct (negb (beqb a (t_sender t))); [reflexivity|].
  unfold pool_txs, index_ids. rewrite X. reflexivity.
Qed.
