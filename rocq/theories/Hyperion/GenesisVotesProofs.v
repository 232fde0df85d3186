(* Proofs about the restart of the votes on external events. *)
From Verif Require Import Lib.Base Lib.Bytes Lib.Codec Lib.Kv Lib.Dec Hyperion.Keys Hyperion.Claims Hyperion.ClaimSpec Hyperion.ClaimProofs Hyperion.Attest Hyperion.AttestSpec Hyperion.AttestProofs Hyperion.GenesisVotes.
From Coq Require Import NArith ZArith Permutation.
Open Scope Z_scope.

Section Votes.
Variable hash : bytes -> bytes.
Variable app : Type.
Variable val_of : bytes -> option bytes.
Notation st := (st app).
Notation keyed := (keyed hash app).
Notation put_att := (put_att hash app).
Notation put_events := (put_events app val_of).
Notation put_event := (put_event app val_of).
Notation restart := (restart hash app val_of).

(* everything but the attestations *)
Definition same_rest (s s' : st) : Prop :=
  s_last app s' = s_last app s /\ s_eth app s' = s_eth app s /\ s_nonces app s' = s_nonces app s /\ s_skipped app s' = s_skipped app s /\
  s_events app s' = s_events app s /\ s_app app s' = s_app app s /\ s_done app s' = s_done app s.

Lemma put_atts l : forall s, ksorted (s_atts app s) -> NoDup (map (fun a => att_key hash (a_claim a)) l) ->
  let s' := fold_left put_att l s in
  ksorted (s_atts app s') /\ same_rest s s' /\
  (forall k, kget (s_atts app s') k = match find (fun a => beqb k (att_key hash (a_claim a))) l with Some a => Some a | None => kget (s_atts app s) k end).
Proof.
  induction l as [|a r IH]; intros s S N; cbn [fold_left].
  - split; [exact S|]. split; [repeat split|]. intro k. reflexivity.
  - cbn [map] in N. inversion N as [|? ? Na Nr]; subst. destruct (IH (put_att s a)) as (S1 & R1 & G1); [cbn; apply kset_sorted, S|exact Nr|].
    split; [exact S1|]. split; [exact R1|]. intro k. rewrite G1. cbn [find]. cbn [GenesisVotes.put_att with_atts s_atts]. rewrite kget_kset by exact S.
    destruct (beqb k (att_key hash (a_claim a))) eqn:E; [|reflexivity]. destruct (find _ r) as [x|] eqn:F; [|reflexivity].
    apply find_some in F as [F1 F2]. exfalso. apply beqb_spec in E, F2. apply Na. apply in_map_iff. exists x. split; [congruence|exact F1].
Qed.

(* the events that are rebuilt touch nothing else *)
Lemma put_event_frame a l : forall s, let s' := fold_left (put_event a) l s in
  s_atts app s' = s_atts app s /\ s_last app s' = s_last app s /\ s_eth app s' = s_eth app s /\ s_nonces app s' = s_nonces app s /\ s_skipped app s' = s_skipped app s /\
  s_app app s' = s_app app s /\ s_done app s' = s_done app s /\
  ((forall v, In v l -> val_of v = None) -> s_events app s' = s_events app s).
Proof.
  induction l as [|v r IH]; intro s; cbn [fold_left]; [repeat split|]. destruct (IH (put_event a s v)) as (A & B & C & D & E & F & G & H).
  assert (X : forall T (f : st -> T), (forall x, f (with_events app s x) = f s) -> f (put_event a s v) = f s).
  { intros T f Hf. unfold GenesisVotes.put_event. destruct (val_of v) as [w|]; [|reflexivity]. destruct (_ <? _); [apply Hf|reflexivity]. }
  rewrite (X _ (s_atts app)) in A by reflexivity. rewrite (X _ (s_last app)) in B by reflexivity. rewrite (X _ (s_eth app)) in C by reflexivity.
  rewrite (X _ (s_nonces app)) in D by reflexivity. rewrite (X _ (s_skipped app)) in E by reflexivity. rewrite (X _ (s_app app)) in F by reflexivity. rewrite (X _ (s_done app)) in G by reflexivity.
  repeat (split; [assumption|]). intro Y. rewrite H by (intros w W; apply Y; right; exact W). unfold GenesisVotes.put_event. rewrite (Y v (or_introl eq_refl)). reflexivity.
Qed.
Lemma put_events_frame l : forall s, let s' := fold_left put_events l s in
  s_atts app s' = s_atts app s /\ s_last app s' = s_last app s /\ s_eth app s' = s_eth app s /\ s_nonces app s' = s_nonces app s /\ s_skipped app s' = s_skipped app s /\
  s_app app s' = s_app app s /\ s_done app s' = s_done app s /\
  ((forall a v, In a l -> In v (a_votes a) -> val_of v = None) -> s_events app s' = s_events app s).
Proof.
  induction l as [|a r IH]; intro s; cbn [fold_left]; [repeat split|]. destruct (IH (put_events s a)) as (A & B & C & D & E & F & G & H).
  destruct (put_event_frame a (a_votes a) s) as (A1 & B1 & C1 & D1 & E1 & F1 & G1 & H1). unfold GenesisVotes.put_events in *.
  repeat (split; [congruence|]). intro Y. rewrite H by (intros x w X W; exact (Y x w (or_intror X) W)). apply H1. intros v V. exact (Y a v (or_introl eq_refl) V).
Qed.

Lemma restart_ok s : keyed s ->
  s_atts app (restart s) = s_atts app s /\ s_last app (restart s) = s_last app s /\ s_eth app (restart s) = s_eth app s /\
  s_app app (restart s) = s_app app s /\ s_done app (restart s) = s_done app s /\
  s_nonces app (restart s) = [] /\ s_skipped app (restart s) = [] /\
  ((forall k a v, kget (s_atts app s) k = Some a -> In v (a_votes a) -> val_of v = None) -> s_events app (restart s) = []).
Proof.
  intro K. pose proof K as [S Kk]. unfold GenesisVotes.restart, import_votes, export_votes. cbn [g_atts g_last g_eth].
  set (l := by_nonce (map snd (s_atts app s))).
  destruct (put_atts l (new_chain app s)) as (S1 & R1 & G1); [constructor|apply (by_nonce_nodup hash app s K)|].
  set (s1 := fold_left put_att l (new_chain app s)) in *.
  destruct (put_events_frame l (with_last app s1 (s_last app s) (s_eth app s))) as (A & B & C & D & E & F & G & H).
  destruct R1 as (R1 & R2 & R3 & R4 & R5 & R6 & R7). cbn [new_chain s_last s_eth s_nonces s_skipped s_events s_app s_done] in *.
  rewrite A, B, C, D, E, F, G. cbn [with_last s_atts s_last s_eth s_nonces s_skipped s_app s_done s_events] in *. split.
  - apply ksorted_ext; [exact S1|exact S|]. intro k. rewrite G1. cbn [new_chain s_atts kget].
    destruct (find _ l) as [a|] eqn:X.
    + apply find_some in X as [X1 X2]. apply beqb_spec in X2. unfold l in X1. apply (proj1 (by_nonce_in _ _)) in X1. apply in_map_iff in X1 as ([j b] & Eb & I). cbn in Eb. subst b.
      pose proof (Kk _ _ I) as Ej. apply (kget_in _ _ _ S) in I. symmetry. rewrite X2, <- Ej. exact I.
    + destruct (kget (s_atts app s) k) as [a|] eqn:Y; [|reflexivity]. exfalso. apply (kget_in _ _ _ S) in Y. pose proof (Kk _ _ Y) as Ej.
      assert (In a l) as I by (unfold l; apply by_nonce_in; apply in_map_iff; exists (k, a); auto). apply (find_none _ _ X a) in I. rewrite <- Ej in I.
      assert (beqb k k = true) by (apply beqb_spec; reflexivity). congruence.
  - repeat (split; [first [reflexivity|assumption]|]). intro Y. rewrite H; [exact R5|]. intros a v X V.
    unfold l in X. apply (proj1 (by_nonce_in _ _)) in X. apply in_map_iff in X as ([j b] & Eb & I). cbn in Eb. subst b. apply (kget_in _ _ _ S) in I. exact (Y j a v I V).
Qed.
End Votes.
