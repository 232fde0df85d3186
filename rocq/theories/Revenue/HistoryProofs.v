(* Restarts, payments, listings and histories of x/revenue. *)
From Coq Require Import Sorted.
From Verif Require Import Lib.Base Lib.Bytes Lib.Kv Tokenfactory.HistoryProofs Revenue.Model Revenue.Spec Revenue.Proofs.
Open Scope Z_scope.

Section Revenue.
Variables (dec : bytes -> option bytes) (enc : bytes -> bytes) (create : bytes -> Z -> bytes) (FC gov : bytes).
Hypothesis AF : address_format dec enc.
Hypothesis CF : create_format create.
Notation author := (author dec).
Notation payee := (payee dec).
Notation named_payee := (named_payee dec).
Notation run := (run dec enc create FC gov).
Notation step := (step dec enc create FC gov).
Notation runs := (runs dec enc create FC gov).
Notation good := (good dec enc).
Notation rev_ok := (rev_ok dec enc).

Lemma bytes_ok_app a b : bytes_ok a -> bytes_ok b -> bytes_ok (a ++ b).
Proof. unfold bytes_ok. intros A B. apply Forall_app. split; assumption. Qed.
Lemma bytes_ok_cons x b : (x < 256)%N -> bytes_ok b -> bytes_ok (x :: b).
Proof. intros A B. constructor; assumption. Qed.
Lemma good_contract s c r : good s -> get s c = Some r -> contract_ok c = true.
Proof. intros G E. destruct (g_rev _ _ s G c r E) as [E1 [E2 _]]. rewrite E1 in E2. exact E2. Qed.
Lemma good_keys s : good s -> keys_ok (v_store s).
Proof.
  intro G. unfold keys_ok. apply Forall_forall. intros [k v] I. cbn [fst].
  apply (proj2 (kget_in _ _ _ (g_sorted _ _ s G))) in I.
  destruct (g_kind _ _ s G k v I) as [(r & -> & ->)|[(d & c & -> & _ & A)|(w & c & -> & _ & A)]].
  - apply (proj2 (get_kget s (r_contract r) r)) in I. pose proof (good_contract s _ _ G I) as C.
    apply bytes_ok_cons; [lia|exact (contract_bytes _ C)].
  - pose proof (author_get _ _ _ _ A) as (r & E & D). pose proof (good_contract s _ _ G E) as C.
    apply bytes_ok_cons; [lia|]. apply bytes_ok_app; [exact (proj1 (proj2 (dec_account dec enc AF _ _ D)))|exact (contract_bytes _ C)].
  - pose proof (named_get _ _ _ _ A) as (r & E & _ & D). pose proof (good_contract s _ _ G E) as C.
    apply bytes_ok_cons; [lia|]. apply bytes_ok_app; [exact (proj1 (proj2 (dec_account dec enc AF _ _ D)))|exact (contract_bytes _ C)].
Qed.

(* ---------- export ---------- *)
Lemma all_in s r : good s -> (In r (all s) <-> get s (r_contract r) = Some r).
Proof.
  intro G. unfold all. rewrite in_map_iff. assert (B1 : bytes_ok [1%N]) by (apply bytes_ok_cons; [lia|constructor]). split.
  - intros ([k v] & E & I). cbn [snd] in E. apply (pscan_in _ _ _ _ (good_keys s G) B1 (g_sorted _ _ s G)) in I.
    change ([1%N] ++ k) with (rev_key k) in I.
    destruct (g_kind _ _ s G _ _ I) as [(r' & X & ->)|[(d & c & X & _)|(w & c & X & _)]].
    + cbn [as_rev] in E. subst r'. apply rev_inj in X. subst k. apply (proj2 (get_kget _ _ _)). exact I.
    + destruct (rev_dep _ _ _ X).
    + destruct (rev_wit _ _ _ X).
  - intro E. exists (r_contract r, VRev r). split; [reflexivity|]. apply (pscan_in _ _ _ _ (good_keys s G) B1 (g_sorted _ _ s G)).
    apply (proj1 (get_kget _ _ _)) in E. exact E.
Qed.
Lemma all_nodup s : good s -> NoDup (map r_contract (all s)).
Proof.
  intro G. unfold all. rewrite map_map. assert (B1 : bytes_ok [1%N]) by (apply bytes_ok_cons; [lia|constructor]).
  assert (E : map (fun q => r_contract (as_rev (snd q))) (pscan (v_store s) [1%N] [] None) = map fst (pscan (v_store s) [1%N] [] None)).
  { apply map_ext_in. intros [k v] I. cbn [fst snd]. apply (pscan_in _ _ _ _ (good_keys s G) B1 (g_sorted _ _ s G)) in I.
    change ([1%N] ++ k) with (rev_key k) in I.
    destruct (g_kind _ _ s G _ _ I) as [(r' & X & ->)|[(d & c & X & _)|(w & c & X & _)]].
    - apply rev_inj in X. cbn [as_rev]. symmetry. exact X.
    - destruct (rev_dep _ _ _ X).
    - destruct (rev_wit _ _ _ X). }
  rewrite E. apply blt_nodup, keys_sorted. exact (pscan_sorted _ _ (good_keys s G) B1 (g_sorted _ _ s G)).
Qed.
Lemma nodupb_spec l : NoDup l -> nodupb l = true.
Proof.
  induction 1 as [|x l N H IH]; [reflexivity|]. cbn [nodupb]. rewrite IH, andb_true_r.
  destruct (existsb (beqb x) l) eqn:E; [|reflexivity]. apply existsb_exists in E as (y & I & E).
  apply (proj1 (beqb_spec _ _)) in E. subst y. contradiction.
Qed.
Lemma export_valid s : good s -> valid_genesis dec (export s) = true.
Proof.
  intro G. unfold valid_genesis, export. rewrite (nodupb_spec _ (all_nodup s G)). pose proof (g_share _ _ s G) as SH.
  replace (0 <=? v_share s) with true by lia. replace (v_share s <=? ONE) with true by lia. rewrite !andb_true_r. cbn [andb].
  apply forallb_forall. intros r I. apply (proj1 (all_in s r G)) in I. destruct (g_rev _ _ s G _ _ I) as (_ & C & (d & D & _) & W).
  unfold valid_rev, is_addr. rewrite C, D. cbn [andb]. destruct (r_withdrawer r) eqn:X; [reflexivity|]. destruct W as [W|[w W]]; [discriminate|]. rewrite W. reflexivity.
Qed.

(* ---------- import ---------- *)
Definition complete (s : st) : Prop := forall c w, named_payee s c = Some w -> kget (v_store s) (wit_key w c) = Some VOne.
Definition pay_acc (r : rev) : bytes := match r_withdrawer r with [] => [] | t => match dec t with Some w => w | None => [] end end.
Lemma import1_spec s r d : rev_ok r -> dec (r_deployer r) = Some d -> import1 dec s r = Ok (enter s r d (pay_acc r)).
Proof.
  intros (_ & _ & W) D. unfold import1, must, pay_acc. rewrite D. destruct (r_withdrawer r) as [|x t] eqn:X; [reflexivity|].
  destruct W as [W|[w W]]; [discriminate|]. rewrite W. reflexivity.
Qed.
Lemma pay_acc_dec r w : rev_ok r -> (r_withdrawer r <> [] /\ dec (r_withdrawer r) = Some w) -> pay_acc r = w /\ w <> [].
Proof.
  intros _ [N D]. unfold pay_acc. destruct (r_withdrawer r) as [|x t]; [contradiction|]. rewrite D. split; [reflexivity|].
  exact (proj1 (dec_account dec enc AF _ _ D)).
Qed.
Lemma import_all_spec l : forall s, good s -> complete s -> Forall rev_ok l -> NoDup (map r_contract l) ->
  (forall r, In r l -> get s (r_contract r) = None) ->
  exists s', import_all dec s l = Ok s' /\ good s' /\ complete s' /\ v_on s' = v_on s /\ v_share s' = v_share s /\ v_bal s' = v_bal s /\
    (forall r, In r l -> get s' (r_contract r) = Some r) /\
    (forall c, ~ In c (map r_contract l) -> get s' c = get s c).
Proof.
  induction l as [|r l IH]; intros s G K F N U.
  - exists s. split; [reflexivity|]. split; [exact G|]. split; [exact K|]. do 3 (split; [reflexivity|]). split; [contradiction|reflexivity].
  - inversion F as [|? ? F1 F2]; subst. cbn [map] in N. inversion N as [|? ? N1 N2]; subst.
    pose proof F1 as (C & (d & D1 & D2) & W). pose proof (g_sorted _ _ s G) as S.
    set (s1 := enter s r d (pay_acc r)).
    assert (G1 : good s1).
    { apply (enter_good dec enc AF s r d (pay_acc r) G (U r (or_introl eq_refl)) F1 D1).
      - intro X. left. destruct (r_withdrawer r) as [|x t] eqn:Y; [reflexivity|]. exfalso. destruct W as [W|[w W]]; [discriminate|].
        destruct (pay_acc_dec r w F1) as [P1 P2]; [rewrite Y; split; [discriminate|exact W]|]. congruence.
      - intro X. unfold pay_acc in *. destruct (r_withdrawer r) as [|x t] eqn:Y; [congruence|]. destruct (dec (x :: t)); [reflexivity|congruence]. }
    assert (Ge : forall c, get s1 c = if beqb c (r_contract r) then Some r else get s c) by (intro c; apply enter_get; exact S).
    assert (K1 : complete s1).
    { intros c w P. destruct (beqb_case c (r_contract r)) as [[-> _]|[Nc Ec]].
      - apply named_get in P as (r' & E & Pn & Pd). rewrite Ge, beqb_refl in E. injection E as <-.
        destruct (pay_acc_dec r w F1 (conj Pn Pd)) as [P1 P2]. unfold s1. rewrite enter_kget by exact S. rewrite P1.
        destruct w; [congruence|]. rewrite beqb_refl. reflexivity.
      - assert (P0 : named_payee s c = Some w) by (unfold Spec.named_payee in *; rewrite Ge, Ec in P; exact P).
        pose proof (named_get _ _ _ _ P0) as (r' & E & _). pose proof (good_contract s c r' G E) as C'.
        unfold s1. rewrite enter_kget by exact S.
        replace (match pay_acc r with [] => false | _ => beqb (wit_key w c) (wit_key (pay_acc r) (r_contract r)) end) with false;
          [rewrite (beqb_neq (wit_key w c) (dep_key d (r_contract r)) (fun X => dep_wit _ _ _ _ (eq_sym X))), (beqb_neq (wit_key w c) (rev_key (r_contract r)) (fun X => rev_wit _ _ _ (eq_sym X))); exact (K c w P0)|].
        destruct (pay_acc r); [reflexivity|]. symmetry. apply beqb_neq. intro X. apply wit_inj in X as [_ X]; [exact (Nc X)|].
        rewrite (contract_len _ C), (contract_len _ C'). reflexivity. }
    destruct (IH s1 G1 K1 F2 N2) as (s' & I1 & I2 & I3 & I4 & I5 & I6 & I7 & I8).
    { intros r' I. rewrite Ge. rewrite beqb_neq; [exact (U r' (or_intror I))|]. intro X. apply N1. rewrite <- X. apply in_map. exact I. }
    destruct (enter_same s r d (pay_acc r)) as (O & SH & BL).
    exists s'. split; [|split; [exact I2|split; [exact I3|split; [rewrite I4; exact O|split; [rewrite I5; exact SH|split; [rewrite I6; exact BL|split]]]]]].
    + cbn [import_all]. rewrite (import1_spec s r d F1 D1). exact I1.
    + intros r' [<-|I]; [|exact (I7 r' I)]. rewrite (I8 _ N1), Ge, beqb_refl. reflexivity.
    + intros c Nc. cbn [map In] in Nc. rewrite I8 by tauto. rewrite Ge. rewrite beqb_neq; [reflexivity|]. intros ->. tauto.
Qed.
Lemma empty_good on share b : 0 <= share <= ONE -> good (mk_st [] on share b).
Proof.
  intro H. assert (E : forall c, get (mk_st [] on share b) c = None) by reflexivity.
  constructor; cbn [v_store v_share].
  - apply ksorted_nil.
  - intros k v K. discriminate.
  - intros c r X. rewrite E in X. discriminate.
  - intros c d A. unfold Spec.author in A. rewrite E in A. discriminate.
  - intros c d w A. unfold Spec.author in A. rewrite E in A. discriminate.
  - exact H.
Qed.
Lemma restart_spec s : good s -> exists s', restart dec s = Ok s' /\ good s' /\ complete s' /\
  v_on s' = v_on s /\ v_share s' = v_share s /\ v_bal s' = v_bal s /\ forall c, get s' c = get s c.
Proof.
  intro G. unfold restart, export. pose proof (export_valid s G) as V. unfold export in V. rewrite V. cbn [negb].
  destruct (import_all_spec (all s) (mk_st [] (v_on s) (v_share s) (v_bal s))) as (s' & I1 & I2 & I3 & I4 & I5 & I6 & I7 & I8).
  - apply empty_good. exact (g_share _ _ s G).
  - intros c w P. discriminate.
  - apply Forall_forall. intros r I. apply (proj1 (all_in s r G)) in I. exact (proj2 (g_rev _ _ s G _ _ I)).
  - exact (all_nodup s G).
  - reflexivity.
  - exists s'. split; [exact I1|]. split; [exact I2|]. split; [exact I3|]. split; [exact I4|]. split; [exact I5|]. split; [exact I6|].
    intro c. destruct (get s c) as [r|] eqn:E.
    + destruct (g_rev _ _ s G c r E) as [R _]. rewrite <- R. apply I7. apply (proj2 (all_in s r G)). rewrite R. exact E.
    + rewrite I8; [reflexivity|]. intro I. apply in_map_iff in I as (r & <- & I). apply (proj1 (all_in s r G)) in I. congruence.
Qed.

(* ---------- payments ---------- *)
Lemma payee_get s c r : good s -> get s c = Some r -> exists p, payee s c = Some p /\
  (match r_withdrawer r with [] => must dec (r_deployer r) (fun d => Ok d) | o => must dec o (fun w => Ok w) end) = Ok p.
Proof.
  intros G E. destruct (g_rev _ _ s G c r E) as (_ & _ & (d & D & _) & W). unfold Spec.payee, must. rewrite E.
  destruct (r_withdrawer r) as [|x t] eqn:X.
  - exists d. rewrite D. split; reflexivity.
  - destruct W as [W|[w W]]; [discriminate|]. exists w. rewrite W. split; reflexivity.
Qed.
Lemma after_tx_spec e s to price used : good s -> 0 <= used ->
  after_tx dec FC e s to price used = Ok
    (match due dec e s to price used with
     | Some (p, x) => if (negb (e_blocked e p) && (0 <? x) && (x <=? v_bal s FC))%bool then set_bal s (bmove (v_bal s) FC p x) else s
     | None => s
     end).
Proof.
  intros G U. unfold after_tx, due. destruct to as [c|]; [|reflexivity].
  destruct (Z.leb_spec price 0) as [P|P].
  - replace (0 <? price) with false by lia. rewrite andb_false_r. reflexivity.
  - replace (0 <? price) with true by lia. destruct (v_on s) eqn:O; [|reflexivity]. cbn [negb orb andb].
    destruct (v_share s =? 0) eqn:SH.
    + destruct (e_precompile e c); [reflexivity|]. cbn [negb]. destruct (payee s c) as [p|]; [|reflexivity].
      apply Z.eqb_eq in SH. rewrite SH. change (0 * used * price / ONE) with 0. rewrite andb_false_r. reflexivity.
    + destruct (e_precompile e c); [reflexivity|]. cbn [negb].
      destruct (get s c) as [r|] eqn:E.
      * destruct (payee_get s c r G E) as (p & P1 & P2). rewrite P1, P2. cbn [rbind]. unfold pay, dev_fee.
        rewrite Z.mul_assoc. set (x := v_share s * used * price / ONE).
        destruct (e_blocked e p); [reflexivity|]. cbn [negb andb]. destruct (Z.leb_spec x 0); [replace (0 <? x) with false by lia; reflexivity|].
        replace (0 <? x) with true by lia. destruct (Z.ltb_spec (v_bal s FC) x); [replace (x <=? v_bal s FC) with false by lia; reflexivity|].
        replace (x <=? v_bal s FC) with true by lia. reflexivity.
      * unfold Spec.payee. rewrite E. reflexivity.
Qed.

(* ---------- histories ---------- *)
Lemma set_bal_good s b : good s -> good (set_bal s b).
Proof. intro G. destruct G as [G1 G2 G3 G4 G5 G6]. constructor; assumption. Qed.
Lemma params_good s a on sh s' : good s -> update_params dec gov s a on sh = Ok s' -> good s'.
Proof.
  intros G H. unfold update_params in H. destruct (negb (is_addr dec a)); [discriminate|].
  destruct ((0 <=? sh) && (sh <=? ONE))%bool eqn:E; [|discriminate]. cbn [negb] in H. destruct (negb (beqb gov a)); [discriminate|].
  injection H as <-. destruct G as [G1 G2 G3 G4 G5 G6]. constructor; try assumption. cbn [v_share]. lia.
Qed.
Lemma after_tx_good e s to p u s' : good s -> after_tx dec FC e s to p u = Ok s' -> good s'.
Proof.
  intros G H. unfold after_tx in H. destruct to as [c|]; [|injection H as <-; exact G].
  destruct (p <=? 0); [injection H as <-; exact G|]. destruct (negb (v_on s) || (v_share s =? 0))%bool; [injection H as <-; exact G|].
  destruct (e_precompile e c); [injection H as <-; exact G|]. destruct (get s c) as [r|] eqn:E; [|injection H as <-; exact G].
  destruct (payee_get s c r G E) as (q & _ & P2). rewrite P2 in H. cbn [rbind] in H. unfold pay in H.
  destruct (e_blocked e q); [injection H as <-; exact G|]. destruct (dev_fee (v_share s) u p <=? 0); [injection H as <-; exact G|].
  destruct (v_bal s FC <? dev_fee (v_share s) u p); injection H as <-; [exact G|apply set_bal_good; exact G].
Qed.
Lemma sender_account d : length d = 20%nat -> bytes_ok d -> account d.
Proof. intros L B. split; [intros ->; discriminate|]. split; [exact B|lia]. Qed.
Lemma run_good e s o s' : good s -> op_ok o -> run e s o = Ok s' -> good s'.
Proof.
  intros G OK H. destruct o as [dt c wt n|dt c wt|dt c|a on sh|d n|to p u|b|]; cbn [Model.run] in H.
  - exact (register_good dec enc create AF e s dt c wt n s' G H).
  - exact (update_good dec enc AF s dt c wt s' G H) || exact (update_good dec enc s dt c wt s' G H).
  - exact (cancel_good dec enc s dt c s' G H) || exact (cancel_good dec enc AF s dt c s' G H).
  - exact (params_good s a on sh s' G H).
  - injection H as <-. destruct OK as [L B]. apply (created_good dec enc AF); [exact G|apply CF|exact (sender_account d L B)].
  - exact (after_tx_good e s to p u s' G H).
  - injection H as <-. apply set_bal_good. exact G.
  - destruct (restart_spec s G) as (s1 & R & G1 & _). rewrite R in H. injection H as <-. exact G1.
Qed.
Lemma step_good e s o : good s -> op_ok o -> good (step e s o).
Proof. intros G OK. unfold Model.step. destruct (run e s o) as [s'| |] eqn:H; [exact (run_good e s o s' G OK H)|exact G|exact G]. Qed.
Lemma runs_good l : forall s, good s -> Forall (fun q : env * op => op_ok (snd q)) l -> good (runs s l).
Proof.
  induction l as [|[e o] l IH]; intros s G F; [exact G|]. inversion F as [|? ? F1 F2]; subst. cbn [snd] in F1.
  cbn [Model.runs]. apply IH; [apply step_good; assumption|exact F2].
Qed.
Lemma reachable_good s : reachable dec enc create FC gov s -> good s.
Proof.
  intros (s0 & l & (E & SH) & F & ->). apply runs_good; [|exact F]. destruct s0 as [x on sh b]. cbn [v_store v_share] in *. subst x. apply empty_good. exact SH.
Qed.
Lemma reachable_step s e o : reachable dec enc create FC gov s -> op_ok o -> reachable dec enc create FC gov (step e s o).
Proof.
  intros (s0 & l & H0 & F & ->) O. exists s0, (l ++ [(e, o)]). split; [exact H0|]. split.
  - apply Forall_app. split; [exact F|]. constructor; [exact O|constructor].
  - clear. revert s0. induction l as [|[e' o'] l IH]; intro s0; cbn [Model.runs app]; [reflexivity|apply IH].
Qed.

(* ---------- listings ---------- *)
Lemma to20_id c : length c = 20%nat -> to20 c = c.
Proof.
  intro L. unfold to20. rewrite L. rewrite skipn_all2 by (rewrite repeat_length; lia). rewrite Nat.sub_diag. reflexivity.
Qed.
Lemma dep_scan s d k v : good s -> account d ->
  In (k, v) (pscan (v_store s) (2%N :: d) [] None) <-> exists d' c, d ++ k = d' ++ c /\ author s c = Some d' /\ v = VOne.
Proof.
  intros G A. assert (B : bytes_ok (2%N :: d)) by (apply bytes_ok_cons; [lia|exact (proj1 (proj2 A))]).
  rewrite (pscan_in _ _ _ _ (good_keys s G) B (g_sorted _ _ s G)). split.
  - intro K. destruct (g_kind _ _ s G _ _ K) as [(r & X & _)|[(d' & c & X & -> & Au)|(w & c & X & _)]].
    + unfold rev_key in X. cbn [app] in X. discriminate.
    + exists d', c. unfold dep_key in X. cbn [app] in X. injection X as X. split; [exact X|]. split; [exact Au|reflexivity].
    + unfold wit_key in X. cbn [app] in X. discriminate.
  - intros (d' & c & E & Au & ->). cbn [app]. rewrite E. exact (g_dep _ _ s G c d' Au).
Qed.
Lemma dep_list s t d : good s -> dec t = Some d -> length d = 20%nat ->
  (forall c d', author s c = Some d' -> length d' = 20%nat) ->
  exists l, of_deployer dec s t = Some l /\ StronglySorted blt l /\ forall c, In c l <-> author s c = Some d.
Proof.
  intros G T L A. pose proof (dec_account dec enc AF _ _ T) as Ad. unfold of_deployer. rewrite T. eexists. split; [reflexivity|].
  assert (B : bytes_ok (2%N :: d)) by (apply bytes_ok_cons; [lia|exact (proj1 (proj2 Ad))]).
  assert (M : forall q, In q (pscan (v_store s) (2%N :: d) [] None) -> to20 (fst q) = fst q /\ author s (fst q) = Some d).
  { intros [k v] I. apply (proj1 (dep_scan s d k v G Ad)) in I as (d' & c & E & Au & _). cbn [fst].
    pose proof (author_get _ _ _ _ Au) as (r & Eg & _). pose proof (good_contract s c r G Eg) as C.
    assert (X : d = d' /\ k = c).
    { pose proof (A c d' Au) as L'. apply app_tail; [|exact E]. apply (f_equal (@length N)) in E. rewrite !app_length in E. lia. }
    destruct X as [<- ->]. split; [apply to20_id; exact (contract_len _ C)|exact Au]. }
  assert (E : map (fun q => to20 (fst q)) (pscan (v_store s) (2%N :: d) [] None) = map fst (pscan (v_store s) (2%N :: d) [] None)).
  { apply map_ext_in. intros q I. exact (proj1 (M q I)). }
  rewrite E. split; [apply keys_sorted; exact (pscan_sorted _ _ (good_keys s G) B (g_sorted _ _ s G))|].
  intro c. rewrite in_map_iff. split.
  - intros (q & <- & I). exact (proj2 (M q I)).
  - intro Au. exists (c, VOne). split; [reflexivity|]. apply (proj2 (dep_scan s d c VOne G Ad)). exists d, c. split; [reflexivity|]. split; [exact Au|reflexivity].
Qed.
Lemma wit_list s t w : good s -> dec t = Some w -> length w = 20%nat ->
  (forall c w', named_payee s c = Some w' -> length w' = 20%nat) ->
  exists l, of_withdrawer dec s t = Some l /\ StronglySorted blt l /\
    forall c, contract_ok c = true -> (In c l <-> kget (v_store s) (wit_key w c) = Some VOne).
Proof.
  intros G T L A. pose proof (dec_account dec enc AF _ _ T) as Ad. unfold of_withdrawer. rewrite T. eexists. split; [reflexivity|].
  assert (B : bytes_ok (3%N :: w)) by (apply bytes_ok_cons; [lia|exact (proj1 (proj2 Ad))]).
  assert (M : forall q, In q (pscan (v_store s) (3%N :: w) [] None) -> to20 (fst q) = fst q /\ kget (v_store s) (wit_key w (fst q)) = Some VOne).
  { intros [k v] I. apply (pscan_in _ _ _ _ (good_keys s G) B (g_sorted _ _ s G)) in I. cbn [fst].
    destruct (g_kind _ _ s G _ _ I) as [(r & X & _)|[(d' & c & X & _ & Au)|(w' & c & X & -> & Au)]]; try (unfold rev_key, dep_key in X; cbn [app] in X; discriminate).
    unfold wit_key in X. cbn [app] in X. injection X as X.
    pose proof (named_get _ _ _ _ Au) as (r & Eg & _). pose proof (good_contract s c r G Eg) as C.
    assert (Y : w = w' /\ k = c).
    { pose proof (A c w' Au) as L'. apply app_tail; [|exact X]. apply (f_equal (@length N)) in X. rewrite !app_length in X. lia. }
    destruct Y as [<- ->]. split; [apply to20_id; exact (contract_len _ C)|exact I]. }
  assert (E : map (fun q => to20 (fst q)) (pscan (v_store s) (3%N :: w) [] None) = map fst (pscan (v_store s) (3%N :: w) [] None)).
  { apply map_ext_in. intros q I. exact (proj1 (M q I)). }
  rewrite E. split; [apply keys_sorted; exact (pscan_sorted _ _ (good_keys s G) B (g_sorted _ _ s G))|].
  intros c C. rewrite in_map_iff. split.
  - intros (q & <- & I). exact (proj2 (M q I)).
  - intro K. exists (c, VOne). split; [reflexivity|]. apply (pscan_in _ _ _ _ (good_keys s G) B (g_sorted _ _ s G)). exact K.
Qed.
(* the deployer lists depend only on who authored what *)
Lemma dep_list_same s s' t : good s -> good s' -> (forall c, get s' c = get s c) -> of_deployer dec s' t = of_deployer dec s t.
Proof.
  intros G G' E. unfold of_deployer. destruct (dec t) as [d|] eqn:T; [|reflexivity]. do 2 f_equal.
  pose proof (dec_account dec enc AF _ _ T) as Ad.
  assert (B : bytes_ok (2%N :: d)) by (apply bytes_ok_cons; [lia|exact (proj1 (proj2 Ad))]).
  assert (AA : forall c, author s' c = author s c) by (intro c; unfold Spec.author; rewrite E; reflexivity).
  pose proof (pscan_sorted _ _ (good_keys s G) B (g_sorted _ _ s G)) as S1.
  pose proof (pscan_sorted _ _ (good_keys s' G') B (g_sorted _ _ s' G')) as S2.
  apply ksorted_ext; [exact S2|exact S1|]. intro k.
  assert (I : forall v, In (k, v) (pscan (v_store s') (2%N :: d) [] None) <-> In (k, v) (pscan (v_store s) (2%N :: d) [] None)).
  { intro v. rewrite (dep_scan s d k v G Ad), (dep_scan s' d k v G' Ad). split; intros (d' & c & X & Y & V); exists d', c;
      (split; [exact X|]); (split; [|exact V]); [rewrite <- AA|rewrite AA]; exact Y. }
  destruct (kget (pscan (v_store s') (2%N :: d) [] None) k) as [v|] eqn:K.
  - apply (proj1 (kget_in _ _ _ S2)) in K. apply I in K. symmetry. apply (proj2 (kget_in _ _ _ S1)). exact K.
  - destruct (kget (pscan (v_store s) (2%N :: d) [] None) k) as [v|] eqn:K'; [|reflexivity].
    apply (proj1 (kget_in _ _ _ S1)) in K'. apply I in K'. apply (proj2 (kget_in _ _ _ S2)) in K'. congruence.
Qed.
End Revenue.
