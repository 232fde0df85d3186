(* C123: the list of accounts that may act for validators on a bridge. *)
From Verif Require Import Lib.Base Lib.Bytes Lib.Zmap Hyperion.Whitelist Hyperion.WhitelistSpec.
Open Scope Z_scope.

Section Props.
Variable read : bytes -> option Z.
Variable hex : Z -> bytes.
Variable authority : Z.
Hypothesis read_hex : forall a, read (hex a) = Some a.
Notation step := (step read hex authority). Notation run := (run read hex authority). Notation admitted := (admitted hex).

Lemma find_split : forall bs id b, bridge_of bs id = Some b <-> exists before after, bs = before ++ b :: after /\ b_chain b = id /\ forall c, In c before -> b_chain c <> id.
Proof.
  intros bs id b. unfold bridge_of. induction bs as [|c bs IH]; cbn [find].
  - split; [discriminate|]. intros ([|] & ? & E & _); discriminate.
  - destruct (Z.eqb_spec (b_chain c) id) as [E|E].
    + split.
      * intro Q. inversion Q. subst. exists [], bs. split; [reflexivity|]. split; [reflexivity|]. intros ? [].
      * intros ([|d before] & r & Q & Eb & F); inversion Q; subst; [reflexivity|]. destruct (F d (or_introl eq_refl)). reflexivity.
    + rewrite IH. split.
      * intros (before & r & -> & Eb & F). exists (c :: before), r. repeat split; auto. intros d [<-|I]; auto.
      * intros ([|d before] & r & Q & Eb & F); inversion Q; subst; [congruence|]. exists before, r. repeat split; auto. intros d' I. apply F. right. exact I.
Qed.
Lemma may_spec : forall bs m, may authority bs (m_by m) (m_id m) = true <-> entitled authority bs m.
Proof.
  intros bs m. unfold may, entitled. destruct (bridge_of bs (m_id m)) as [b|] eqn:E.
  - rewrite orb_true_iff, !Z.eqb_eq. apply find_split in E as E'. destruct E' as (bf & af & Q & Eb & F). split; [intro A; exists b, bf, af; auto|].
    intros (b' & bf' & af' & Q' & Eb' & F' & A). assert (bridge_of bs (m_id m) = Some b') as E' by (apply find_split; eauto). congruence.
  - split; [discriminate|]. intros (b & bf & af & Q & Eb & F & _). assert (bridge_of bs (m_id m) = Some b) as E' by (apply find_split; eauto). congruence.
Qed.

(* a message is accepted exactly if its sender is the authority or set up the bridge to the chain
   of that number and every text in it is an address *)
Theorem C123_accepted_iff : forall bs w m, (exists w', step bs w m = Ok w') <-> entitled authority bs m /\ readable read m.
Proof.
  clear read_hex. intros bs w m. rewrite <- may_spec. destruct m as [s id xs|s id x|s id x]; cbn [Whitelist.step m_by m_id]; destruct (may authority bs s id); cbn [negb];
    try (split; [intros (? & ?); discriminate|intros (? & _); discriminate]).
  - unfold readable. cbn [m_texts]. destruct (forallb _ xs) eqn:E.
    + split; [intros _|eauto]. split; [reflexivity|]. intros x I. rewrite forallb_forall in E. specialize (E x I). destruct (read x); [eauto|discriminate].
    + split; [intros (? & ?); discriminate|]. intros (_ & R). assert (forallb (fun x => match read x with Some _ => true | None => false end) xs = true); [|congruence].
      apply forallb_forall. intros x I. destruct (R x I) as (a & ->). reflexivity.
  - unfold readable. cbn [m_texts]. destruct (read x) eqn:E; (split; [intros (? & Q)|intros (_ & R)]); try discriminate; eauto.
    + split; [reflexivity|]. intros y [<-|[]]. eauto.
    + destruct (R x (or_introl eq_refl)). congruence.
  - unfold readable. cbn [m_texts]. destruct (read x) eqn:E; (split; [intros (? & Q)|intros (_ & R)]); try discriminate; eauto.
    + split; [reflexivity|]. intros y [<-|[]]. eauto.
    + destruct (R x (or_introl eq_refl)). congruence.
Qed.

(* a message changes the list of no other bridge, and after an accepted one there is a list *)
Theorem C123_other_bridges : forall bs w m w' id, step bs w m = Ok w' -> (id <> m_id m -> zget w' id = zget w id /\ forall a, admitted w' id a = admitted w id a) /\ zget w' (m_id m) <> None.
Proof.
  clear read_hex. intros bs w m w' id E. assert (exists l, w' = zset w (m_id m) l) as (l & ->).
  { destruct m as [s i xs|s i x|s i x]; cbn [Whitelist.step m_id] in *; destruct (may authority bs s i); cbn [negb] in E; try discriminate.
    - destruct (forallb _ xs); [|discriminate]. inversion E. eauto.
    - destruct (read x); [|discriminate]. inversion E. eauto.
    - destruct (read x); [|discriminate]. inversion E. eauto. }
  split; [|rewrite zget_zset_same; discriminate]. intro N. unfold Whitelist.admitted. rewrite zget_zset_other by congruence. auto.
Qed.

Lemma hex_inj : forall a b, hex a = hex b -> a = b.
Proof. intros a b E. pose proof (read_hex a) as A. rewrite E, read_hex in A. congruence. Qed.
Lemma existsb_hex : forall l a, existsb (fun x => beqb x (hex a)) l = true <-> In (hex a) l.
Proof. intros l a. rewrite existsb_exists. split; [intros (x & I & E); apply beqb_spec in E; congruence|intro I; exists (hex a); split; [exact I|apply beqb_refl]]. Qed.

(* what an accepted message does, when a list set as a whole has every address in its one usual
   spelling: set, added or removed, for every account *)
Theorem C123_effect_partial : forall bs w m w' a, step bs w m = Ok w' -> (forall s id xs, m = SetAll s id xs -> forall x, In x xs -> exists c, x = hex c) ->
  (admitted w' (m_id m) a = true <-> after read m (fun c => zget w (m_id m) <> None /\ admitted w (m_id m) c = true) a).
Proof.
  intros bs w m w' a E U. unfold Whitelist.admitted. destruct m as [s i xs|s i x|s i x]; cbn [Whitelist.step m_id after] in *; destruct (may authority bs s i); cbn [negb] in E; try discriminate.
  - destruct (forallb _ xs); [|discriminate]. inversion E. rewrite zget_zset_same, existsb_hex. unfold names. split; [intro I; exists (hex a); auto|].
    intros (x & I & R). destruct (U s i xs eq_refl x I) as (c & ->). rewrite read_hex in R. congruence.
  - destruct (read x) as [c|] eqn:R; [|discriminate]. inversion E. rewrite zget_zset_same, existsb_hex, in_app_iff. unfold listed. destruct (zget w i) as [l|].
    + rewrite existsb_hex. cbn [In]. split; [intros [I|[I|[]]]; [left; split; [discriminate|exact I]|right; f_equal; apply hex_inj; exact I]|]. intros [(_ & I)|Q]; [auto|]. right. left. congruence.
    + cbn [In]. split; [intros [[]|[I|[]]]; right; f_equal; apply hex_inj; exact I|]. intros [(N & _)|Q]; [congruence|]. right. left. congruence.
  - destruct (read x) as [c|] eqn:R; [|discriminate]. inversion E. rewrite zget_zset_same, existsb_hex, filter_In, negb_true_iff, beqb_neq. unfold listed. destruct (zget w i) as [l|].
    + rewrite existsb_hex. split; [intros (I & N); repeat split; [discriminate|exact I|congruence]|]. intros ((_ & I) & N). split; [exact I|]. intro Q. apply hex_inj in Q. congruence.
    + split; [intros ([] & _)|intros ((N & _) & _); congruence].
Qed.

(* after a list is set as a whole, whatever the spellings: those whose usual spelling is in it *)
Theorem C123_set_exactly : forall bs w s id xs w' a, step bs w (SetAll s id xs) = Ok w' -> zget w' id = Some xs /\ (admitted w' id a = true <-> In (hex a) xs).
Proof.
  clear read_hex. intros bs w s id xs w' a E. cbn [Whitelist.step] in E. destruct (may authority bs s id); cbn [negb] in E; [|discriminate]. destruct (forallb _ xs); [|discriminate]. inversion E.
  unfold Whitelist.admitted. rewrite zget_zset_same. split; [reflexivity|]. rewrite existsb_exists. split; [intros (x & I & Q); apply beqb_spec in Q; congruence|intro I; exists (hex a); split; [exact I|apply beqb_refl]].
Qed.

(* over any history: where all lists set as a whole are in the usual spelling, every stored text is *)
Theorem C123_spellings_kept : forall l w, (forall id xs x, zget w id = Some xs -> In x xs -> exists c, x = hex c) ->
  (forall bs s id xs, In (bs, SetAll s id xs) l -> forall x, In x xs -> exists c, x = hex c) ->
  forall id xs x, zget (run w l) id = Some xs -> In x xs -> exists c, x = hex c.
Proof.
  clear read_hex. induction l as [|(bs & m) l IH]; intros w W U; [exact W|]. unfold Whitelist.run. cbn [fold_left]. fold (run (next read hex authority w (bs, m)) l). apply IH; [|intros; eapply U; [right; eassumption|assumption]].
  unfold next. cbn [fst snd]. destruct (Whitelist.step read hex authority bs w m) as [w'| |] eqn:E; [|exact W|exact W]. intros id xs x G I. destruct (Z.eq_dec id (m_id m)) as [->|N].
  - destruct m as [s i ys|s i y|s i y]; cbn [Whitelist.step m_id] in *; destruct (may authority bs s i); cbn [negb] in E; try discriminate.
    + destruct (forallb _ ys); [|discriminate]. inversion E; subst w'. rewrite zget_zset_same in G. inversion G; subst. eapply U; [left; reflexivity|exact I].
    + destruct (read y) as [c|]; [|discriminate]. inversion E; subst w'. rewrite zget_zset_same in G. inversion G; subst. apply in_app_iff in I as [I|[<-|[]]]; [|eauto].
      unfold listed in I. destruct (zget w i) eqn:Q; [eapply W; eassumption|destruct I].
    + destruct (read y) as [c|]; [|discriminate]. inversion E; subst w'. rewrite zget_zset_same in G. inversion G; subst. apply filter_In in I as (I & _).
      unfold listed in I. destruct (zget w i) eqn:Q; [eapply W; eassumption|destruct I].
  - destruct (C123_other_bridges bs w m w' id E) as (O1 & _). destruct (O1 N) as (Q & _). rewrite Q in G. eapply W; eassumption.
Qed.

(* where chains and bridges have the same numbers, whoever changes a bridge's list is the
   authority or set up that bridge *)
Theorem C123_own_bridge : forall bs w m w' id, (forall b, In b bs -> b_chain b = b_id b) -> step bs w m = Ok w' -> zget w' id <> zget w id ->
  m_by m = authority \/ exists b, In b bs /\ b_id b = id /\ b_init b = m_by m.
Proof.
  clear read_hex. intros bs w m w' id Sa E C. destruct (Z.eq_dec id (m_id m)) as [->|N]; [|destruct (C123_other_bridges bs w m w' id E) as (O1 & _); destruct (O1 N); congruence].
  destruct (proj1 (C123_accepted_iff bs w m) (ex_intro _ w' E)) as ((b & bf & af & -> & Eb & _ & [A|A]) & _); [auto|]. right. exists b.
  assert (In b (bf ++ b :: af)) as I by (apply in_app_iff; right; left; reflexivity). repeat split; auto. rewrite <- (Sa b I). exact Eb.
Qed.

(* where they differ, another bridge's founder decides: the list is that of the bridge whose own
   number is the founder's chain number *)
Theorem C123_other_founder_refuted : forall b c w x a, b_chain b = b_id c -> read x = Some a ->
  exists w', step [b; c] w (AddOne (b_init b) (b_id c) x) = Ok w' /\ admitted w' (b_id c) a = true.
Proof.
  intros b c w x a E R. cbn [Whitelist.step]. unfold may, bridge_of. cbn [find]. rewrite E, !Z.eqb_refl, orb_true_r. cbn [negb]. rewrite R. eexists. split; [reflexivity|].
  unfold Whitelist.admitted. rewrite zget_zset_same. apply existsb_hex. apply in_app_iff. right. left. reflexivity.
Qed.

(* an address set in another spelling is not admitted, and removing it leaves it in the list *)
Theorem C123_spelling_refuted : forall bs w s id x a w1 w2, read x = Some a -> x <> hex a ->
  step bs w (SetAll s id [x]) = Ok w1 -> step bs w1 (RemoveOne s id x) = Ok w2 -> admitted w1 id a = false /\ zget w2 id = Some [x].
Proof.
  clear read_hex. intros bs w s id x a w1 w2 R N E1 E2. cbn [Whitelist.step] in *. destruct (may authority bs s id); cbn [negb] in *; [|discriminate]. cbn [forallb] in E1. rewrite R in *. cbn in E1. inversion E1; subst w1.
  inversion E2; subst w2. unfold Whitelist.admitted, listed. rewrite !zget_zset_same. cbn [existsb filter]. rewrite (proj2 (beqb_neq x (hex a)) N). auto.
Qed.

(* where there was no list, and so everyone was admitted, removing one account shuts out all *)
Theorem C123_remove_shuts_out_refuted : forall bs w s id x w', zget w id = None -> step bs w (RemoveOne s id x) = Ok w' -> forall a, admitted w id a = true /\ admitted w' id a = false.
Proof.
  clear read_hex. intros bs w s id x w' G E a. cbn [Whitelist.step] in E. destruct (may authority bs s id); cbn [negb] in E; [|discriminate]. destruct (read x); [|discriminate]. inversion E.
  unfold Whitelist.admitted, listed. rewrite G, zget_zset_same. auto.
Qed.

(* a bridge that has a list has one for ever, whatever is sent and whatever becomes of the bridge *)
Theorem C123_never_open_again_refuted : forall l w id, zget w id <> None -> zget (run w l) id <> None.
Proof.
  clear read_hex. induction l as [|(bs & m) l IH]; intros w id N; [exact N|]. unfold Whitelist.run. cbn [fold_left]. apply IH. unfold next. cbn [fst snd].
  destruct (Whitelist.step read hex authority bs w m) as [w'| |] eqn:E; [|exact N|exact N]. destruct (C123_other_bridges bs w m w' id E) as (O1 & O2). destruct (Z.eq_dec id (m_id m)) as [->|Q]; [exact O2|].
  destruct (O1 Q) as (-> & _). exact N.
Qed.
End Props.
Print Assumptions C123_accepted_iff.
Print Assumptions C123_other_bridges.
Print Assumptions C123_effect_partial.
Print Assumptions C123_set_exactly.
Print Assumptions C123_spellings_kept.
Print Assumptions C123_own_bridge.
Print Assumptions C123_other_founder_refuted.
Print Assumptions C123_spelling_refuted.
Print Assumptions C123_remove_shuts_out_refuted.
Print Assumptions C123_never_open_again_refuted.

(* texts: a sign for the case and a number *)
Definition ex_hex (a : Z) : bytes := [1%N; Z.to_N a].
Definition ex_read (x : bytes) : option Z := match x with [c; a] => if (c <? 3)%N then Some (Z.of_N a) else None | _ => None end.
Definition ex_bs := [mk_bridge 7 7 100; mk_bridge 8 8 200].
Example ex_history : exists w1 w2 w3, step ex_read ex_hex 1 ex_bs [] (SetAll 100 7 [ex_hex 5; ex_hex 6]) = Ok w1 /\ step ex_read ex_hex 1 ex_bs w1 (AddOne 1 7 [2; 9]%N) = Ok w2 /\
  step ex_read ex_hex 1 ex_bs w2 (RemoveOne 100 7 [2; 5]%N) = Ok w3 /\ map (admitted ex_hex w3 7) [5; 6; 9; 10] = [false; true; true; false] /\ admitted ex_hex w3 8 10 = true /\
  step ex_read ex_hex 1 ex_bs w3 (AddOne 200 7 (ex_hex 3)) = Err.
Proof. eexists _, _, _. repeat split; vm_compute; reflexivity. Qed.
(* the other spelling of account 5 *)
Example ex_spelling : exists w1 w2, step ex_read ex_hex 1 ex_bs [] (SetAll 100 7 [[2; 5]%N]) = Ok w1 /\ step ex_read ex_hex 1 ex_bs w1 (RemoveOne 100 7 [2; 5]%N) = Ok w2 /\
  admitted ex_hex w1 7 5 = false /\ zget w2 7 = Some [[2; 5]%N].
Proof. eexists _, _. repeat split; vm_compute; reflexivity. Qed.
