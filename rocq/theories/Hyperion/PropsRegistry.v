(* C124: who runs a bridge, and what they can do to it. *)
From Verif Require Import Lib.Base Lib.Bytes Hyperion.Registry Hyperion.RegistrySpec.
Open Scope Z_scope.

Section Props.
Variable authority : Z.
Notation step := (step authority). Notation run := (run authority). Notation entitled := (entitled authority).

Lemma runs_spec : forall s b, runs authority s b = true <-> entitled s b.
Proof. intros. unfold runs, RegistrySpec.entitled. rewrite orb_true_iff, !Z.eqb_eq. reflexivity. Qed.
Lemma look_in : forall bs c b, look bs c = Some b -> In b bs /\ g_chain b = c.
Proof. intros bs c b E. apply find_some in E as (I & E). apply Z.eqb_eq in E. auto. Qed.
Lemma look_none : forall bs c, look bs c = None <-> ~ In c (map g_chain bs).
Proof.
  intros bs c. unfold look. induction bs as [|b bs IH]; cbn; [tauto|]. destruct (Z.eqb_spec (g_chain b) c) as [E|E]; [split; [discriminate|tauto]|]. rewrite IH. tauto.
Qed.
Lemma look_cons : forall b bs c, look (b :: bs) c = if g_chain b =? c then Some b else look bs c.
Proof. reflexivity. Qed.
Lemma look_put : forall bs c b, (forall d, In d bs -> g_chain d = g_id d) -> g_chain b = c ->
  map g_chain (put bs c b) = map g_chain bs /\ forall k, look (put bs c b) k = if k =? c then (match look bs c with Some _ => Some b | None => None end) else look bs k.
Proof.
  intros bs c b Sa Eb. induction bs as [|d bs IH]; cbn [put map]; [split; [reflexivity|intro k; destruct (k =? c); reflexivity]|].
  destruct IH as (IH1 & IH2); [intros; apply Sa; right; assumption|]. rewrite <- (Sa d (or_introl eq_refl)). destruct (Z.eqb_spec (g_chain d) c) as [E|E]; cbn [map].
  - split; [congruence|]. intro k. rewrite !look_cons, Eb, E, Z.eqb_refl, (Z.eqb_sym c k). destruct (k =? c); reflexivity.
  - split; [congruence|]. intro k. rewrite !look_cons, IH2. destruct (Z.eqb_spec (g_chain d) c); [contradiction|]. destruct (Z.eqb_spec k c) as [->|N]; [|reflexivity].
    destruct (Z.eqb_spec (g_chain d) c); [contradiction|reflexivity].
Qed.
Lemma put_in : forall bs c b d, In d (put bs c b) -> d = b \/ In d bs.
Proof. induction bs as [|e bs IH]; intros c b d I; cbn in *; [tauto|]. destruct (g_id e =? c); cbn in I; [intuition|]. destruct I as [I|I]; [auto|]. destruct (IH c b d I); auto. Qed.
Lemma look_pause : forall bs s c p, NoDup (map g_chain bs) ->
  map g_chain (pause authority bs s c p) = map g_chain bs /\ forall k, look (pause authority bs s c p) k = match look bs k with
    | Some b => if (k =? c) && runs authority s b then Some (mk_bridge (g_chain b) (g_id b) (g_init b) (g_name b) p) else Some b | None => None end.
Proof.
  intros bs s c p N. induction bs as [|d bs IH]; cbn [pause map] in *; [split; reflexivity|]. inversion N as [|? ? Nd N']; subst. destruct (IH N') as (IH1 & IH2). clear IH.
  destruct (Z.eqb_spec (g_chain d) c) as [E|E]; cbn [andb].
  - destruct (runs authority s d) eqn:R; cbn [map g_chain].
    + split; [reflexivity|]. intro k. rewrite !look_cons. cbn [g_chain]. destruct (Z.eqb_spec (g_chain d) k) as [Ek|Ek].
      * rewrite <- Ek, E, Z.eqb_refl, R. reflexivity.
      * destruct (Z.eqb_spec k c); [congruence|]. cbn. destruct (look bs k); reflexivity.
    + split; [congruence|]. intro k. rewrite !look_cons, IH2. destruct (Z.eqb_spec (g_chain d) k) as [Ek|Ek]; [rewrite R, andb_false_r; reflexivity|reflexivity].
  - split; [cbn; congruence|]. intro k. rewrite !look_cons, IH2. destruct (Z.eqb_spec (g_chain d) k) as [Ek|Ek]; [|reflexivity]. destruct (Z.eqb_spec k c); [congruence|reflexivity].
Qed.
Lemma pause_in : forall bs s c p d, In d (pause authority bs s c p) -> exists e, In e bs /\ g_chain d = g_chain e /\ g_id d = g_id e.
Proof.
  induction bs as [|e bs IH]; intros s c p d I; cbn in *; [tauto|]. destruct (_ && _); cbn in I; destruct I as [<-|I]; cbn; eauto. destruct (IH _ _ _ _ I) as (f & J & E). eauto.
Qed.
Lemma drop_sub : forall bs c d, In d (drop bs c) -> In d bs.
Proof. induction bs as [|e bs IH]; intros c d I; cbn in *; [tauto|]. destruct (g_chain e =? c); cbn in *; intuition eauto. Qed.
Lemma look_drop : forall bs c, NoDup (map g_chain bs) -> NoDup (map g_chain (drop bs c)) /\ forall k, look (drop bs c) k = if k =? c then None else look bs k.
Proof.
  intros bs c N. induction bs as [|d bs IH]; cbn [drop map] in *; [split; [constructor|intro k; destruct (k =? c); reflexivity]|]. inversion N as [|? ? Nd N']; subst. destruct (IH N') as (IH1 & IH2). clear IH.
  destruct (Z.eqb_spec (g_chain d) c) as [E|E].
  - split; [exact N'|]. intro k. rewrite look_cons. destruct (Z.eqb_spec k c) as [->|Nk]; [apply look_none; congruence|]. destruct (Z.eqb_spec (g_chain d) k); [congruence|reflexivity].
  - split; [cbn; constructor; [|exact IH1]; intro I; apply Nd; apply in_map_iff in I as (e & Ee & I); rewrite <- Ee; apply in_map; eapply drop_sub; exact I|].
    intro k. rewrite !look_cons, IH2. destruct (Z.eqb_spec k c) as [->|Nk]; [|reflexivity]. destruct (Z.eqb_spec (g_chain d) c); [contradiction|reflexivity].
Qed.
Lemma look_snoc : forall bs b k, ~ In (g_chain b) (map g_chain bs) -> look (bs ++ [b]) k = if k =? g_chain b then Some b else look bs k.
Proof.
  intros bs b k N. induction bs as [|d bs IH]; cbn [app map] in *.
  - rewrite look_cons, Z.eqb_sym. reflexivity.
  - rewrite !look_cons, IH by (intro I; apply N; right; exact I). destruct (Z.eqb_spec (g_chain d) k) as [E|E]; [|reflexivity]. destruct (Z.eqb_spec k (g_chain b)); [|reflexivity]. destruct N. left. congruence.
Qed.

(* which messages are accepted *)
Theorem C124_accepted_iff : forall bs m, orderly bs -> ((exists bs', step bs m = Ok bs') <-> match m with
  | Add s b v ok => s = authority /\ v = true /\ ok = true /\ g_id b = g_chain b /\ g_chain b <> 0 /\ look bs (g_chain b) = None
  | Pause _ c _ => c <> 0
  | ChangeInit s c a => a <> None /\ exists b, look bs c = Some b /\ entitled s b
  | Rename s c _ | Delete s c => exists b, look bs c = Some b /\ entitled s b end).
Proof.
  intros bs m (Nd & Sa). assert (forall c b, look bs c = Some b -> c <> 0) as Nz by (intros c b E; apply look_in in E as (I & <-); apply Sa; exact I).
  destruct m as [s b v ok|s c a|s c n|s c p|s c]; cbn [Registry.step].
  - destruct (Z.eqb_spec s authority) as [Es|Es]; cbn [negb]; [|split; [intros (? & ?); discriminate|intros (? & _); contradiction]].
    destruct v; cbn [negb]; [|split; [intros (? & ?); discriminate|intros (_ & ? & _); discriminate]]. destruct ok; cbn [negb]; [|split; [intros (? & ?); discriminate|intros (_ & _ & ? & _); discriminate]].
    destruct (Z.eqb_spec (g_id b) 0) as [E0|E0]; [split; [intros (? & ?); discriminate|intros (_ & _ & _ & Q & Q2 & _); congruence]|].
    destruct (Z.eqb_spec (g_id b) (g_chain b)) as [Ei|Ei]; cbn [negb]; [|split; [intros (? & ?); discriminate|intros (_ & _ & _ & Q & _); contradiction]].
    destruct (existsb _ bs) eqn:X.
    + split; [intros (? & ?); discriminate|]. intros (_ & _ & _ & _ & _ & L). apply existsb_exists in X as (c & I & X). apply look_none in L. destruct L. apply orb_true_iff in X. rewrite !Z.eqb_eq in X.
      destruct (Sa c I) as (Ec & _). destruct X as [X|X]; [replace (g_chain b) with (g_chain c) by congruence|rewrite <- X]; apply in_map; exact I.
    + split; [intros _|eauto]. repeat match goal with |- _ /\ _ => split end; try assumption; try reflexivity; [congruence|]. apply look_none. intro I. apply in_map_iff in I as (c & Ec & I).
      assert (existsb (fun c => (g_id c =? g_id b) || (g_chain c =? g_chain b)) bs = true); [|congruence]. apply existsb_exists. exists c. split; [exact I|]. rewrite Ec, Z.eqb_refl, orb_true_r. reflexivity.
  - destruct (Z.eqb_spec c 0) as [E0|E0]; [split; [intros (? & ?); discriminate|intros (_ & b & L & _); destruct (Nz c b L E0)]|]. destruct a as [a|]; [|split; [intros (? & ?); discriminate|intros (Q & _); congruence]].
    destruct (look bs c) as [b|]; [|split; [intros (? & ?); discriminate|intros (_ & b & Q & _); discriminate]]. destruct (runs authority s b) eqn:R.
    + apply runs_spec in R. split; [intros _; split; [discriminate|eauto]|eauto].
    + split; [intros (? & ?); discriminate|]. intros (_ & b' & Q & A). apply runs_spec in A. congruence.
  - destruct (Z.eqb_spec c 0) as [E0|E0]; [split; [intros (? & ?); discriminate|intros (b & L & _); destruct (Nz c b L E0)]|].
    destruct (look bs c) as [b|]; [|split; [intros (? & ?); discriminate|intros (b & Q & _); discriminate]]. destruct (runs authority s b) eqn:R.
    + apply runs_spec in R. split; eauto.
    + split; [intros (? & ?); discriminate|]. intros (b' & Q & A). apply runs_spec in A. congruence.
  - destruct (Z.eqb_spec c 0) as [E0|E0]; split; eauto; [intros (? & ?); discriminate|contradiction].
  - destruct (Z.eqb_spec c 0) as [E0|E0]; [split; [intros (? & ?); discriminate|intros (b & L & _); destruct (Nz c b L E0)]|].
    destruct (look bs c) as [b|]; [|split; [intros (? & ?); discriminate|intros (b & Q & _); discriminate]]. destruct (runs authority s b) eqn:R.
    + apply runs_spec in R. split; eauto.
    + split; [intros (? & ?); discriminate|]. intros (b' & Q & A). apply runs_spec in A. congruence.
Qed.

(* what an accepted message does, for every chain; a pause by a stranger does nothing *)
Theorem C124_effect : forall bs m bs', orderly bs -> step bs m = Ok bs' -> orderly bs' /\
  (forall c, c <> m_chain m -> look bs' c = look bs c) /\
  ((forall s c p, m <> Pause s c p) \/ (exists b, look bs (m_chain m) = Some b /\ entitled (m_by m) b) -> look bs' (m_chain m) = after m (look bs (m_chain m))) /\
  (forall s c p, m = Pause s c p -> ~ (exists b, look bs c = Some b /\ entitled s b) -> look bs' c = look bs c).
Proof.
  intros bs m bs' G E. pose proof (proj1 (C124_accepted_iff bs m G) (ex_intro _ bs' E)) as A. destruct G as (Nd & Sa). assert (forall d, In d bs -> g_chain d = g_id d) as Sb by (intros; apply Sa; assumption).
  destruct m as [s b v ok|s c a|s c n|s c p|s c]; cbn [Registry.step m_chain m_by after] in *.
  - destruct A as (-> & -> & -> & Ei & E0 & L). apply look_none in L. cbn [negb] in E. rewrite Z.eqb_refl in E. cbn [negb] in E. destruct (g_id b =? 0); [discriminate|]. destruct (negb (g_id b =? g_chain b)); [discriminate|]. destruct (existsb _ bs); [discriminate|]. inversion E; subst bs'.
    split; [split|].
    + rewrite map_app. cbn [map]. apply NoDup_rev in Nd. rewrite <- (rev_involutive (map g_chain bs ++ [g_chain b])). apply NoDup_rev. rewrite rev_app_distr. cbn. constructor; [rewrite <- in_rev; exact L|exact Nd].
    + intros d I. apply in_app_iff in I as [I|[<-|[]]]; auto.
    + repeat match goal with |- _ /\ _ => split end; [| |intros; discriminate].
      * intros c N. rewrite look_snoc by exact L. destruct (Z.eqb_spec c (g_chain b)); [contradiction|reflexivity].
      * intros _. rewrite look_snoc, Z.eqb_refl by exact L. reflexivity.
  - destruct A as (Na & b & L & En). destruct (c =? 0); [discriminate|]. destruct a as [a|]; [|congruence]. rewrite L in *. apply runs_spec in En. rewrite En in E. inversion E; subst bs'. apply look_in in L as L'. destruct L' as (I & Ec).
    destruct (look_put bs c (mk_bridge (g_chain b) (g_id b) a (g_name b) (g_paused b)) Sb Ec) as (P1 & P2). rewrite L in P2. split; [split; [rewrite P1; exact Nd|]|].
    + intros d J. apply put_in in J as [->|J]; [cbn; apply Sa; exact I|apply Sa; exact J].
    + repeat match goal with |- _ /\ _ => split end; [| |intros; discriminate].
      * intros k N. rewrite P2. destruct (Z.eqb_spec k c); [contradiction|reflexivity].
      * intros _. rewrite P2, Z.eqb_refl. reflexivity.
  - destruct A as (b & L & En). destruct (c =? 0); [discriminate|]. rewrite L in *. apply runs_spec in En. rewrite En in E. inversion E; subst bs'. apply look_in in L as L'. destruct L' as (I & Ec).
    destruct (look_put bs c (mk_bridge (g_chain b) (g_id b) (g_init b) n (g_paused b)) Sb Ec) as (P1 & P2). rewrite L in P2. split; [split; [rewrite P1; exact Nd|]|].
    + intros d J. apply put_in in J as [->|J]; [cbn; apply Sa; exact I|apply Sa; exact J].
    + repeat match goal with |- _ /\ _ => split end; [| |intros; discriminate].
      * intros k N. rewrite P2. destruct (Z.eqb_spec k c); [contradiction|reflexivity].
      * intros _. rewrite P2, Z.eqb_refl. reflexivity.
  - destruct (c =? 0); [discriminate|]. inversion E; subst bs'. destruct (look_pause bs s c p Nd) as (P1 & P2). split; [split; [rewrite P1; exact Nd|]|].
    + intros d J. apply pause_in in J as (e & J & -> & ->). apply Sa. exact J.
    + repeat match goal with |- _ /\ _ => split end.
      * intros k N. rewrite P2. destruct (Z.eqb_spec k c); [contradiction|]. cbn. destruct (look bs k); reflexivity.
      * intros [Q|(b & L & En)]; [destruct (Q s c p eq_refl)|]. rewrite P2, L, Z.eqb_refl. apply runs_spec in En. rewrite En. reflexivity.
      * intros s' c' p' Q N. inversion Q; subst. rewrite P2, Z.eqb_refl. destruct (look bs c') as [b|]; [|reflexivity]. cbn. destruct (runs authority s' b) eqn:R; [|reflexivity]. destruct N. exists b. split; [reflexivity|]. apply runs_spec. exact R.
  - destruct A as (b & L & En). destruct (c =? 0); [discriminate|]. rewrite L in *. apply runs_spec in En. rewrite En in E. inversion E; subst bs'. destruct (look_drop bs c Nd) as (P1 & P2). split; [split; [exact P1|]|].
    + intros d J. apply drop_sub in J. apply Sa. exact J.
    + repeat match goal with |- _ /\ _ => split end; [| |intros; discriminate].
      * intros k N. rewrite P2. destruct (Z.eqb_spec k c); [contradiction|reflexivity].
      * intros _. rewrite P2, Z.eqb_refl. reflexivity.
Qed.

(* over all histories: one bridge per chain, with the chain's number *)
Theorem C124_orderly : forall l bs, orderly bs -> orderly (run bs l).
Proof.
  induction l as [|m l IH]; intros bs G; [exact G|]. unfold Registry.run. cbn [fold_left]. apply IH. unfold next. destruct (Registry.step authority bs m) as [bs'| |] eqn:E; [|exact G|exact G].
  apply (C124_effect bs m bs' G E).
Qed.

Lemma look_same : forall bs m b, orderly bs -> look bs (g_chain b) = Some b -> m_by m <> authority -> m_by m <> g_init b -> look (next authority bs m) (g_chain b) = Some b.
Proof.
  intros bs m b G L Na Ni. unfold next. destruct (Registry.step authority bs m) as [bs'| |] eqn:E; [|exact L|exact L]. destruct (C124_effect bs m bs' G E) as (_ & O1 & _ & O3).
  destruct (Z.eq_dec (g_chain b) (m_chain m)) as [Q|Q]; [|rewrite (O1 _ Q); exact L]. pose proof (proj1 (C124_accepted_iff bs m G) (ex_intro _ bs' E)) as A.
  destruct m as [s d v ok|s c a|s c n|s c p|s c]; cbn [m_by m_chain] in *.
  - destruct A as (A & _). contradiction.
  - destruct A as (_ & b' & L' & [A|A]); congruence.
  - destruct A as (b' & L' & [A|A]); congruence.
  - rewrite Q in *. rewrite (O3 s c p eq_refl); [exact L|]. intros (b' & L' & [A'|A']); congruence.
  - destruct A as (b' & L' & [A|A]); congruence.
Qed.
(* whatever others send, a bridge stays as it is *)
Theorem C124_strangers : forall l bs b, orderly bs -> look bs (g_chain b) = Some b -> (forall m, In m l -> m_by m <> authority /\ m_by m <> g_init b) -> look (run bs l) (g_chain b) = Some b.
Proof.
  induction l as [|m l IH]; intros bs b G L N; [exact L|]. unfold Registry.run. cbn [fold_left]. destruct (N m (or_introl eq_refl)). apply IH; [apply (C124_orderly [m] bs G)|apply look_same; assumption|intros; apply N; right; assumption].
Qed.

(* a pause that does nothing is reported as done: by a stranger, or of a chain without a bridge *)
Theorem C124_pause_reported_refuted : forall bs s c p, orderly bs -> c <> 0 -> ~ (exists b, look bs c = Some b /\ entitled s b) ->
  exists bs', step bs (Pause s c p) = Ok bs' /\ forall k, look bs' k = look bs k.
Proof.
  intros bs s c p G N0 N. destruct (proj2 (C124_accepted_iff bs (Pause s c p) G) N0) as (bs' & E). exists bs'. split; [exact E|]. destruct (C124_effect bs _ bs' G E) as (_ & O1 & _ & O3). intro k.
  destruct (Z.eq_dec k c) as [->|Q]; [apply (O3 s c p eq_refl N)|apply O1; exact Q].
Qed.
(* a change of founder of a bridge that is not there panics *)
Theorem C124_unknown_panics_refuted : forall bs s c a, c <> 0 -> look bs c = None -> step bs (ChangeInit s c (Some a)) = Panic.
Proof. intros bs s c a N L. cbn [Registry.step]. rewrite L. destruct (Z.eqb_spec c 0); [contradiction|reflexivity]. Qed.
(* the new founder can be any account at all, which takes it from the old one *)
Theorem C124_any_founder_refuted : forall bs b a, orderly bs -> look bs (g_chain b) = Some b -> a <> g_init b -> g_init b <> authority ->
  exists bs' b', step bs (ChangeInit (g_init b) (g_chain b) (Some a)) = Ok bs' /\ look bs' (g_chain b) = Some b' /\ g_init b' = a /\ ~ entitled (g_init b) b'.
Proof.
  intros bs b a G L N Na. destruct (proj2 (C124_accepted_iff bs (ChangeInit (g_init b) (g_chain b) (Some a)) G)) as (bs' & E); [split; [discriminate|exists b; split; [exact L|right; reflexivity]]|].
  destruct (C124_effect bs _ bs' G E) as (_ & _ & O2 & _). cbn [m_chain after] in O2. rewrite L in O2. eexists bs', _. split; [exact E|]. split; [apply O2; left; discriminate|]. split; [reflexivity|].
  intros [Q|Q]; [contradiction|]. cbn in Q. congruence.
Qed.
End Props.
Print Assumptions C124_accepted_iff.
Print Assumptions C124_effect.
Print Assumptions C124_orderly.
Print Assumptions C124_strangers.
Print Assumptions C124_pause_reported_refuted.
Print Assumptions C124_unknown_panics_refuted.
Print Assumptions C124_any_founder_refuted.

(* two bridges; the authority is account 1 *)
Definition ex_b (c f : Z) : bridge := mk_bridge c c f [] false.
Definition ex_l : list msg := [Add 1 (ex_b 7 100) true true; Add 1 (ex_b 8 200) true true; Pause 200 7 true; Pause 100 7 true; Rename 1 8 [65%N]; ChangeInit 200 8 (Some 300); Delete 200 8; Add 1 (ex_b 7 5) true true].
Example ex_run : run 1 [] ex_l = [mk_bridge 7 7 100 [] true; mk_bridge 8 8 300 [65%N] false] /\ orderly [] /\ run 1 [] (ex_l ++ [Delete 300 8]) = [mk_bridge 7 7 100 [] true].
Proof. split; [vm_compute; reflexivity|]. split; [|vm_compute; reflexivity]. split; [apply NoDup_nil|intros b []]. Qed.
