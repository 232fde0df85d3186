(** Proofs about the ICS-20 contract's approvals. *)
From Verif Require Import Lib.Base Lib.Bytes Lib.Coins Ics20.Model Ics20.Spec.
From Coq Require Import NArith.
Open Scope Z_scope.

(** ** Lists of allocations *)

Lemma here_iff p c a : here p c a = true <-> al_port a = p /\ al_chan a = c.
Proof. unfold here. rewrite andb_true_iff, !beqb_spec. tauto. Qed.

Lemma here_with p c a l : here p c (with_limit a l) = here p c a.
Proof. reflexivity. Qed.

Definition same_place (p c p' c' : bytes) : bool := beqb p p' && beqb c c'.

Lemma same_place_iff p c p' c' : same_place p c p' c' = true <-> p = p' /\ c = c'.
Proof. unfold same_place. rewrite andb_true_iff, !beqb_spec. tauto. Qed.

Lemma here_other p c p' c' a :
  same_place p c p' c' = false -> here p c a = true -> here p' c' a = false.
Proof.
  intros N1 H. apply here_iff in H as [<- <-]. destruct (here p' c' a) eqn:E; [|reflexivity].
  apply here_iff in E as [<- <-]. unfold same_place in N1. rewrite !beqb_refl in N1. discriminate.
Qed.

Lemma find_replace p c F p' c' l :
  find_alloc p' c' (at_first p c (fun a => [with_limit a (F a)]) l) =
  if same_place p c p' c'
  then match find_alloc p c l with Some a => Some (with_limit a (F a)) | None => None end
  else find_alloc p' c' l.
Proof.
  destruct (same_place p c p' c') eqn:E.
  - apply same_place_iff in E as [<- <-].
    induction l as [|a l IH]; [reflexivity|].
    cbn [at_first find_alloc find]. destruct (here p c a) eqn:H.
    + cbn [app find]. rewrite here_with, H. reflexivity.
    + cbn [find]. rewrite H. exact IH.
  - induction l as [|a l IH]; [reflexivity|].
    cbn [at_first find_alloc find]. destruct (here p c a) eqn:H.
    + cbn [app find]. rewrite here_with, (here_other _ _ _ _ _ E H). reflexivity.
    + cbn [find]. destruct (here p' c' a); [reflexivity|exact IH].
Qed.

Lemma find_none_chan p c l : ~ In c (map al_chan l) -> find_alloc p c l = None.
Proof.
  intros N1. unfold find_alloc. destruct (find (here p c) l) as [a|] eqn:E; [|reflexivity].
  apply find_some in E as [I1 H]. apply here_iff in H as [_ <-]. exfalso. apply N1. now apply in_map.
Qed.

Lemma find_remove p c p' c' l : NoDup (map al_chan l) ->
  find_alloc p' c' (at_first p c (fun _ => []) l) =
  if same_place p c p' c' then None else find_alloc p' c' l.
Proof.
  intros ND. destruct (same_place p c p' c') eqn:E.
  - apply same_place_iff in E as [<- <-].
    induction l as [|a l IH]; [reflexivity|]. cbn [map] in ND. inversion ND; subst.
    cbn [at_first]. destruct (here p c a) eqn:H.
    + cbn [app]. apply find_none_chan. apply here_iff in H as [_ <-]. assumption.
    + unfold find_alloc. cbn [find]. rewrite H. now apply IH.
  - clear ND. induction l as [|a l IH]; [reflexivity|].
    unfold find_alloc. cbn [at_first find]. destruct (here p c a) eqn:H.
    + cbn [app]. now rewrite (here_other _ _ _ _ _ E H).
    + cbn [find]. destruct (here p' c' a); [reflexivity|exact IH].
Qed.

Lemma chans_replace p c F l :
  map al_chan (at_first p c (fun a => [with_limit a (F a)]) l) = map al_chan l.
Proof.
  induction l as [|a l IH]; [reflexivity|]. cbn [at_first]. destruct (here p c a); [reflexivity|].
  cbn [map]. now rewrite IH.
Qed.

Lemma in_replace p c F l a' :
  In a' (at_first p c (fun a => [with_limit a (F a)]) l) ->
  exists a, In a l /\ (a' = a \/ (find_alloc p c l = Some a /\ a' = with_limit a (F a))).
Proof.
  induction l as [|a l IH]; [intros []|]. cbn [at_first]. unfold find_alloc. cbn [find].
  destruct (here p c a) eqn:H.
  - cbn [app]. intros [<-|I1]; [exists a; cbn; auto|exists a'; cbn; auto].
  - intros [<-|I1]; [exists a; cbn; auto|].
    destruct (IH I1) as (b & I2 & [->|[E ->]]); exists b; cbn; auto.
Qed.

Lemma in_remove p c l a : In a (at_first p c (fun _ => []) l) -> In a l.
Proof.
  induction l as [|b l IH]; [intros []|]. cbn [at_first]. destruct (here p c b); cbn; tauto.
Qed.

Lemma nodup_remove p c l :
  NoDup (map al_chan l) -> NoDup (map al_chan (at_first p c (fun _ => []) l)).
Proof.
  induction l as [|a l IH]; [auto|]. cbn [map at_first]. intros ND. inversion ND; subst.
  destruct (here p c a); [assumption|]. cbn [map]. constructor; [|auto].
  intros I1. apply in_map_iff in I1 as (b & E & I1). apply in_remove in I1.
  apply H1. rewrite <- E. now apply in_map.
Qed.

Definition ok_list (l : list alloc) : Prop :=
  NoDup (map al_chan l) /\ Forall (fun a => cvalid (al_limit a)) l.

Lemma ok_found l p c a : ok_list l -> find_alloc p c l = Some a ->
  In a l /\ al_port a = p /\ al_chan a = c /\ cvalid (al_limit a).
Proof.
  intros [_ F1] E. apply find_some in E as [I1 H]. apply here_iff in H as [H1 H2].
  rewrite Forall_forall in F1. auto.
Qed.

Lemma ok_replace l p c F :
  ok_list l -> (forall a, find_alloc p c l = Some a -> cvalid (F a)) ->
  ok_list (at_first p c (fun a => [with_limit a (F a)]) l).
Proof.
  intros [ND V] H. split; [now rewrite chans_replace|]. rewrite Forall_forall in *.
  intros a' I1. apply in_replace in I1 as (a & I2 & [->|[E ->]]); [auto|]. cbn [with_limit al_limit]. auto.
Qed.

Lemma ok_remove l p c : ok_list l -> ok_list (at_first p c (fun _ => []) l).
Proof.
  intros [ND V]. split; [now apply nodup_remove|]. rewrite Forall_forall in *.
  intros a I1. apply V. eapply in_remove; eauto.
Qed.

(** ** Coins *)

Lemma find_coin_in d l y : find_coin d l = Some y -> In (d, y) l.
Proof.
  unfold find_coin. destruct (find _ l) as [[e z]|] eqn:E; [|discriminate].
  intros E1. apply find_some in E as [I1 H]. cbn in H. apply beqb_spec in H. subst. congruence.
Qed.

Lemma find_coin_amt d l y : cvalid l -> find_coin d l = Some y -> amt l d = y.
Proof. intros [S1 _] E. apply amt_in; [exact S1|]. now apply find_coin_in. Qed.

Lemma lower_below b d x l :
  Forall (fun q : bytes * Z => blt b (fst q)) l -> Forall (fun q : bytes * Z => blt b (fst q)) (lower d x l).
Proof.
  induction l as [|[e y] l IH]; [auto|]. intros H. inversion H; subst. cbn [lower].
  destruct (beqb e d); [destruct (0 <? y - x); [constructor; assumption|assumption]|].
  constructor; auto.
Qed.

Lemma lower_spec d x l y : cvalid l -> find_coin d l = Some y -> x <= y -> 0 <= x ->
  cvalid (lower d x l) /\
  (forall d', amt (lower d x l) d' = if beqb d' d then y - x else amt l d').
Proof.
  induction l as [|[e z] l IH]; [intros _ E; discriminate|].
  intros [[B S1] P] E LE X0. inversion P as [|? ? P1 P2]; subst. cbn [snd] in P1.
  unfold find_coin in E. cbn [find fst] in E. cbn [lower].
  destruct (beqb e d) eqn:ED.
  - injection E as <-. apply beqb_spec in ED. subst e.
    destruct (Z.ltb_spec 0 (z - x)).
    + split; [split; [split; assumption|constructor; [cbn; lia|assumption]]|].
      intros d'. cbn [amt]. now destruct (beqb d' d).
    + split; [split; assumption|]. intros d'. cbn [amt]. destruct (beqb d' d) eqn:E1; [|reflexivity].
      apply beqb_spec in E1. subst d'. rewrite (amt_below _ _ B). lia.
  - destruct (IH (conj S1 P2) E LE X0) as [[IH1 IH2] IH3]. split.
    + split; [split; [now apply lower_below|exact IH1]|constructor; assumption].
    + intros d'. cbn [amt]. rewrite IH3. destruct (beqb d' e) eqn:E1; [|reflexivity].
      apply beqb_spec in E1. subst d'. now rewrite ED.
Qed.

Lemma add_spec d x l : cvalid l -> 0 <= x ->
  cvalid (cadd l [(d, x)]) /\
  (forall d', amt (cadd l [(d, x)]) d' = if beqb d' d then amt l d + x else amt l d').
Proof.
  intros V X0. assert (SO : sorted [(d, x)]) by (cbn; split; [apply Forall_nil|exact I]).
  assert (AM : forall d', amt (cadd l [(d, x)]) d' = if beqb d' d then amt l d + x else amt l d').
  { intros d'. rewrite amt_cadd; [|apply V|exact SO]. cbn [amt].
    destruct (beqb d' d) eqn:E; [apply beqb_spec in E; now subst|lia]. }
  split; [|exact AM].
  destruct (cmerge_spec Z.add eq_refl l [(d, x)] (proj1 V) SO) as (M1 & M2 & _).
  apply valid_of; [exact M1|exact M2|].
  intros d'. rewrite AM. pose proof (valid_nonneg l d V). pose proof (valid_nonneg l d' V).
  destruct (beqb d' d); lia.
Qed.

Lemma sub_spec d x l : cvalid l -> 0 < x -> snd (csafe_sub l [(d, x)]) = false ->
  x <= amt l d /\ cvalid (fst (csafe_sub l [(d, x)])) /\
  (forall d', amt (fst (csafe_sub l [(d, x)])) d' = if beqb d' d then amt l d - x else amt l d').
Proof.
  intros V X0 E. assert (V1 : cvalid [(d, x)]).
  { split; [cbn; split; [apply Forall_nil|exact I]|constructor; [cbn; lia|apply Forall_nil]]. }
  destruct (csafe_sub_spec _ _ V V1) as (A & B & C & D).
  assert (LE : forall d', amt [(d, x)] d' <= amt l d') by now apply B.
  assert (AM : forall d', amt (fst (csafe_sub l [(d, x)])) d' = if beqb d' d then amt l d - x else amt l d').
  { intros d'. rewrite A. cbn [amt]. destruct (beqb d' d) eqn:E1; [apply beqb_spec in E1; now subst|lia]. }
  split; [specialize (LE d); cbn [amt] in LE; now rewrite beqb_refl in LE|].
  split; [|exact AM]. apply valid_of; [exact C|exact D|]. intros d'. rewrite A. specialize (LE d'). lia.
Qed.

Lemma sub_fits d x l : cvalid l -> 0 < x -> x <= amt l d -> snd (csafe_sub l [(d, x)]) = false.
Proof.
  intros V X0 LE. assert (V1 : cvalid [(d, x)]).
  { split; [cbn; split; [apply Forall_nil|exact I]|constructor; [cbn; lia|apply Forall_nil]]. }
  destruct (csafe_sub_spec _ _ V V1) as (_ & B & _). apply B. intros d'. cbn [amt].
  destruct (beqb d' d) eqn:E1; [apply beqb_spec in E1; now subst|]. now apply valid_nonneg.
Qed.

(** ** Grants *)

Lemma set_same g e r v : set_grant g e r v e r = v.
Proof. unfold set_grant. now rewrite !N.eqb_refl. Qed.

Lemma set_other g e r v : only_at e r g (set_grant g e r v).
Proof.
  intros e' r' NE. unfold set_grant.
  destruct (N.eqb_spec e e'), (N.eqb_spec r r'); cbn; try reflexivity. exfalso; apply NE; congruence.
Qed.

Lemma only_refl e r g : only_at e r g g.
Proof. intros ? ? _; reflexivity. Qed.

Lemma get_auth_eq g now e r x : get_auth g now e r = Some x ->
  g e r = Some x /\ match g_exp x with Some t => now <= t | None => True end.
Proof.
  unfold get_auth. destruct (g e r) as [y|]; [|discriminate]. destruct (g_exp y) as [t|] eqn:E.
  - destruct (Z.ltb_spec t now); [discriminate|]. intros E1; injection E1 as <-. now rewrite E.
  - intros E1; injection E1 as <-. now rewrite E.
Qed.

Lemma get_auth_some g now e r x :
  g e r = Some x -> match g_exp x with Some t => now <= t | None => True end ->
  get_auth g now e r = Some x.
Proof.
  intros E H. unfold get_auth. rewrite E. destruct (g_exp x) as [t|]; [|reflexivity].
  destruct (Z.ltb_spec t now); [lia|reflexivity].
Qed.

Lemma save_eq now e r x g g' : save now e r x g = Some g' -> g' = set_grant g e r (Some x).
Proof.
  unfold save. destruct (g_exp x) as [t|]; [destruct (now <? t); [|discriminate]|]; congruence.
Qed.

Lemma delete_eq e r g g' : delete e r g = Some g' -> g' = set_grant g e r None.
Proof. unfold delete. destruct (g e r); [|discriminate]. congruence. Qed.

Lemma limit_found g e r l t p c d :
  g e r = Some (Grant (Some l) t) ->
  limit g e r p c d = match find_alloc p c l with Some a => amt (al_limit a) d | None => 0 end.
Proof. intros E. unfold limit. rewrite E. reflexivity. Qed.

Lemma limit_same g g' e r p c d : g' e r = g e r -> limit g' e r p c d = limit g e r p c d.
Proof. intros E. unfold limit. now rewrite E. Qed.

Lemma limit_nonneg g e r p c d : (forall x, g e r = Some x -> well_formed x) -> 0 <= limit g e r p c d.
Proof.
  intros WF. unfold limit. destruct (g e r) as [[[l|] t]|] eqn:E; try apply Z.le_refl.
  specialize (WF _ eq_refl). cbn in WF.
  change (find (fun a => beqb (al_port a) p && beqb (al_chan a) c) l) with (find_alloc p c l).
  destruct (find_alloc p c l) as [a|] eqn:E1; [|apply Z.le_refl].
  apply valid_nonneg. apply (ok_found l p c a WF E1).
Qed.

Section Contract.
Variable W : Type.
Variable send : tmsg -> W -> option W.
Variable has_channel : W -> bytes -> bytes -> bool.
Variable memo_ok : bytes -> list bytes -> bool.
Variable name_ok : bytes -> bool.
Variable denom_ok : bytes -> bool.
Variable msg_ok : tmsg -> bool.
Variable lifetime : Z.

Notation accept := (accept memo_ok).
Notation approve := (approve W has_channel name_ok denom_ok lifetime).
Notation transfer := (transfer W send has_channel memo_ok denom_ok msg_ok).
Notation finish := (finish W send).
Notation body := (body W send has_channel memo_ok name_ok denom_ok msg_ok lifetime).
Notation step := (step W send has_channel memo_ok name_ok denom_ok msg_ok lifetime).
Notation history := (history W send has_channel memo_ok name_ok denom_ok msg_ok lifetime).

(** Raising and lowering. *)
Lemma increase_eq now e r p c d x g g' :
  (forall y, g e r = Some y -> well_formed y) ->
  increase now e r p c d x g = Some g' ->
  0 <= x /\ only_at e r g g' /\
  exists l l' t, g e r = Some (Grant (Some l) t) /\ g' e r = Some (Grant (Some l') t) /\ ok_list l' /\
    match t with Some u => now <= u | None => True end /\
    (exists a, find_alloc p c l = Some a /\ find_coin d (al_limit a) = Some (amt (al_limit a) d) /\
       amt (al_limit a) d + x <= max_word) /\
    l' = at_first p c (fun a => [with_limit a (cadd (al_limit a) [(d, x)])]) l /\
    forall p' c' d', limit g' e r p' c' d' =
      limit g e r p' c' d' + if same_place p c p' c' && beqb d' d then x else 0.
Proof.
  clear W send has_channel memo_ok name_ok denom_ok msg_ok lifetime.
  intros WF. unfold increase.
  destruct ((e =? 0)%N || (x <? 0)) eqn:G0; [discriminate|]. apply orb_false_iff in G0 as [_ X0].
  apply Z.ltb_ge in X0.
  destruct (get_auth g now e r) as [[[l|] t]|] eqn:GA; try discriminate.
  apply get_auth_eq in GA as [GE TL]. cbn [g_exp] in TL. specialize (WF _ GE). cbn in WF.
  destruct (find_alloc p c l) as [a|] eqn:FA; [|discriminate].
  destruct (find_coin d (al_limit a)) as [y|] eqn:FC; [|discriminate].
  destruct (Z.ltb_spec max_word (y + x)) as [|LE]; [discriminate|]. intros SV.
  apply save_eq in SV. subst g'. split; [exact X0|]. split; [apply set_other|].
  pose proof (ok_found _ _ _ _ WF FA) as (_ & _ & _ & VA).
  pose proof (find_coin_amt _ _ _ VA FC) as AM.
  exists l; eexists; exists t. split; [exact GE|]. split; [apply set_same|].
  split; [apply ok_replace; [exact WF|]; intros a' E; rewrite FA in E; injection E as <-; now apply add_spec|].
  split; [exact TL|]. split; [exists a; rewrite AM; auto|]. split; [reflexivity|].
  intros p' c' d'. rewrite (limit_found _ _ _ _ _ _ _ _ GE).
  erewrite limit_found by apply set_same. rewrite find_replace.
  destruct (same_place p c p' c') eqn:SP; [|cbn [andb]; lia].
  apply same_place_iff in SP as [<- <-]. rewrite FA. cbn [with_limit al_limit andb].
  rewrite (proj2 (add_spec d x _ VA X0)). destruct (beqb d' d) eqn:E; [|lia].
  apply beqb_spec in E. subst d'. lia.
Qed.

Lemma decrease_eq now e r p c d x g g' :
  (forall y, g e r = Some y -> well_formed y) ->
  decrease now e r p c d x g = Some g' ->
  0 <= x /\ only_at e r g g' /\
  exists l l' t, g e r = Some (Grant (Some l) t) /\ g' e r = Some (Grant (Some l') t) /\ ok_list l' /\
    match t with Some u => now <= u | None => True end /\
    (exists a, find_alloc p c l = Some a /\ find_coin d (al_limit a) = Some (amt (al_limit a) d) /\
       x <= amt (al_limit a) d) /\
    l' = at_first p c (fun a => [with_limit a (lower d x (al_limit a))]) l /\
    forall p' c' d', limit g' e r p' c' d' =
      limit g e r p' c' d' - if same_place p c p' c' && beqb d' d then x else 0.
Proof.
  clear W send has_channel memo_ok name_ok denom_ok msg_ok lifetime.
  intros WF. unfold decrease.
  destruct ((e =? 0)%N || (x <? 0)) eqn:G0; [discriminate|]. apply orb_false_iff in G0 as [_ X0].
  apply Z.ltb_ge in X0.
  destruct (get_auth g now e r) as [[[l|] t]|] eqn:GA; try discriminate.
  apply get_auth_eq in GA as [GE TL]. cbn [g_exp] in TL. specialize (WF _ GE). cbn in WF.
  destruct (find_alloc p c l) as [a|] eqn:FA; [|discriminate].
  destruct (find_coin d (al_limit a)) as [y|] eqn:FC; [|discriminate].
  destruct (Z.ltb_spec y x) as [|LE]; [discriminate|]. intros SV.
  apply save_eq in SV. subst g'. split; [exact X0|]. split; [apply set_other|].
  pose proof (ok_found _ _ _ _ WF FA) as (_ & _ & _ & VA).
  pose proof (find_coin_amt _ _ _ VA FC) as AM.
  exists l; eexists; exists t. split; [exact GE|]. split; [apply set_same|].
  split; [apply ok_replace; [exact WF|]; intros a' E; rewrite FA in E; injection E as <-;
          now apply (lower_spec d x _ y)|].
  split; [exact TL|]. split; [exists a; rewrite AM; auto|]. split; [reflexivity|].
  intros p' c' d'. rewrite (limit_found _ _ _ _ _ _ _ _ GE).
  erewrite limit_found by apply set_same. rewrite find_replace.
  destruct (same_place p c p' c') eqn:SP; [|cbn [andb]; lia].
  apply same_place_iff in SP as [<- <-]. rewrite FA. cbn [with_limit al_limit andb].
  rewrite (proj2 (lower_spec d x _ y VA FC LE X0)). destruct (beqb d' d) eqn:E; [|lia].
  apply beqb_spec in E. subst d'. lia.
Qed.

(** Using an approval. *)
Lemma accept_update now e r l t m x g g' :
  ok_list l -> 0 < t_amount m -> g e r = Some (Grant (Some l) t) ->
  accept l m = Some x -> update now e r t x g = Some g' ->
  only_at e r g g' /\
  (forall y, g' e r = Some y -> well_formed y) /\
  exists a, find_alloc (t_port m) (t_chan m) l = Some a /\
    (al_allow a = [] \/ In (t_receiver m) (al_allow a)) /\
    memo_ok (t_memo m) (al_memo a) = true /\
    ((amt (al_limit a) (t_denom m) = max_word /\ g' = g) \/
     (amt (al_limit a) (t_denom m) <> max_word /\
      t_amount m <= amt (al_limit a) (t_denom m) /\
      (forall y, g' e r = Some y -> g_exp y = t /\ exists l', g_allocs y = Some l' /\
         forall b', In b' l' -> exists b, In b l /\ al_port b' = al_port b /\
           al_chan b' = al_chan b /\ al_allow b' = al_allow b /\ al_memo b' = al_memo b) /\
      forall p c d, limit g' e r p c d = limit g e r p c d -
        if same_place (t_port m) (t_chan m) p c && beqb d (t_denom m) then t_amount m else 0)).
Proof.
  clear W send has_channel name_ok denom_ok msg_ok lifetime.
  intros OK X0 GE AC UP. unfold Model.accept in AC.
  destruct (find_alloc (t_port m) (t_chan m) l) as [a|] eqn:FA; [|discriminate].
  match type of AC with (if negb ?b then _ else _) = _ => destruct b eqn:AL end; [|discriminate].
  cbn [negb] in AC.
  destruct (memo_ok (t_memo m) (al_memo a)) eqn:MO; [|discriminate]. cbn [negb] in AC.
  pose proof (ok_found _ _ _ _ OK FA) as (IA & _ & _ & VA).
  assert (AL' : al_allow a = [] \/ In (t_receiver m) (al_allow a)).
  { destruct (al_allow a) as [|z zs] eqn:EA; [now left|]. right.
    apply existsb_exists in AL as (y & I1 & E). apply beqb_spec in E. now subst. }
  destruct (Z.eqb_spec (amt (al_limit a) (t_denom m)) max_word) as [EM|NM].
  - injection AC as <-. cbn in UP. injection UP as <-. split; [apply only_refl|]. split.
    + intros y E. rewrite GE in E. injection E as <-. exact OK.
    + exists a. auto 10.
  - destruct (csafe_sub (al_limit a) [(t_denom m, t_amount m)]) as [rest neg] eqn:SS.
    destruct neg; [discriminate|].
    destruct (sub_spec (t_denom m) (t_amount m) _ VA X0) as (LE & VR & AM); [now rewrite SS|].
    rewrite SS in VR, AM. cbn [fst] in VR, AM.
    destruct (cis_zero rest) eqn:CZ.
    + (* nothing left: the allocation goes *)
      set (l' := at_first (t_port m) (t_chan m) (fun _ => []) l) in *.
      assert (OK' : ok_list l') by now apply ok_remove.
      assert (LIM : forall p c d,
        match find_alloc p c l' with Some b => amt (al_limit b) d | None => 0 end =
        limit g e r p c d - if same_place (t_port m) (t_chan m) p c && beqb d (t_denom m) then t_amount m else 0).
      { intros p c d. rewrite (limit_found _ _ _ _ _ _ _ _ GE). unfold l'.
        rewrite find_remove by apply OK.
        destruct (same_place _ _ p c) eqn:SP; [|cbn [andb]; lia].
        apply same_place_iff in SP as [<- <-]. rewrite FA. cbn [andb].
        apply cis_zero_amt with (c := rest) in VR. rewrite CZ in VR.
        pose proof (proj1 VR eq_refl d) as Z0. rewrite AM in Z0.
        destruct (beqb d (t_denom m)) eqn:E; [apply beqb_spec in E; subst d; lia|lia]. }
      assert (INL : forall b, In b l' -> In b l) by (intros b; apply in_remove).
      destruct l' as [|b0 l0] eqn:EL.
      * injection AC as <-. cbn in UP. apply delete_eq in UP. subst g'.
        split; [apply set_other|]. split; [intros y E; rewrite set_same in E; discriminate|].
        exists a. split; [reflexivity|]. do 2 (split; [assumption|]). right. do 2 (split; [assumption|]). split.
        -- intros y E. rewrite set_same in E. discriminate.
        -- intros p c d. rewrite <- LIM. unfold limit. now rewrite set_same.
      * injection AC as <-. cbn [update] in UP. apply save_eq in UP. subst g'.
        split; [apply set_other|].
        split; [intros y E; rewrite set_same in E; injection E as <-; exact OK'|].
        exists a. split; [reflexivity|]. do 2 (split; [assumption|]). right. do 2 (split; [assumption|]). split.
        -- intros y E. rewrite set_same in E. injection E as <-. split; [reflexivity|].
           exists (b0 :: l0). split; [reflexivity|]. intros b' I1. exists b'. auto 10.
        -- intros p c d. rewrite <- LIM. apply (limit_found _ _ _ _ t). apply set_same.
    + injection AC as <-. cbn [update] in UP. apply save_eq in UP. subst g'.
      split; [apply set_other|]. split.
      { intros y E. rewrite set_same in E. injection E as <-.
        apply (ok_replace l _ _ (fun _ => rest)); [exact OK|]. intros _ _. exact VR. }
      exists a. split; [reflexivity|]. do 2 (split; [assumption|]). right. do 2 (split; [assumption|]). split.
      * intros y E. rewrite set_same in E. injection E as <-. split; [reflexivity|].
        eexists. split; [reflexivity|]. intros b' I1. apply (in_replace _ _ (fun _ => rest)) in I1.
        destruct I1 as (b & I2 & [->|[_ ->]]); exists b; cbn; auto 10.
      * intros p c d. rewrite (limit_found _ _ _ _ _ _ _ _ GE).
        erewrite limit_found by apply set_same. rewrite (find_replace _ _ (fun _ => rest)).
        destruct (same_place _ _ p c) eqn:SP; [|cbn [andb]; lia].
        apply same_place_iff in SP as [<- <-]. rewrite FA. cbn [with_limit al_limit andb].
        rewrite AM. destruct (beqb d (t_denom m)) eqn:E; [apply beqb_spec in E; subst d; lia|lia].
Qed.

(** The ways a transfer can end. *)
Lemma transfer_cases v m s o s' : transfer v m s = (o, s') ->
  (o = Failed /\ s' = s) \/
  (msg_ok m = true /\ denom_ok (t_denom m) = true /\ 0 < t_amount m <= max_word /\
   has_channel (s_world s) (t_port m) (t_chan m) = true /\
   (t_sender m = e_caller v \/ t_sender m = e_origin v) /\
   exists w, send m (s_world s) = Some w /\
   ((o = Failed /\ s' = State (s_grants s) w (line v m false :: s_log s) /\
     (e_gas v = Out_after_sending \/
      exists x t, s_grants s (e_caller v) (e_origin v) = Some x /\ g_exp x = Some t /\ t = e_now v)) \/
    (o = Done /\ e_caller v = e_origin v /\ s' = State (s_grants s) w (line v m true :: s_log s)) \/
    (o = Done /\ e_caller v <> e_origin v /\ exists l t x g,
       get_auth (s_grants s) (e_now v) (e_caller v) (e_origin v) = Some (Grant (Some l) t) /\
       accept l m = Some x /\
       update (e_now v) (e_caller v) (e_origin v) t x (s_grants s) = Some g /\
       s' = State g w (line v m true :: s_log s)))).
Proof.
  unfold Model.transfer. intros ST.
  destruct (msg_ok m) eqn:C1; [|injection ST as <- <-; auto].
  destruct (denom_ok (t_denom m)) eqn:C2; [|injection ST as <- <-; auto].
  destruct (Z.ltb_spec 0 (t_amount m)) as [C3|]; [|injection ST as <- <-; auto].
  destruct (Z.leb_spec (t_amount m) max_word) as [C4|]; [|injection ST as <- <-; auto].
  destruct (has_channel _ _ _) eqn:C5; [|injection ST as <- <-; auto]. cbn [negb andb] in ST.
  match type of ST with (if ?b then _ else _) = _ => destruct b eqn:C6 end; [injection ST as <- <-; auto|].
  assert (SE : t_sender m = e_caller v \/ t_sender m = e_origin v).
  { apply andb_false_iff in C6 as [C6|C6]; apply negb_false_iff, N.eqb_eq in C6; auto. }
  destruct (N.eqb_spec (e_caller v) (e_origin v)) as [CO|NE].
  - unfold Model.finish in ST. destruct (send m (s_world s)) as [w|] eqn:SD; [|injection ST as <- <-; auto].
    right. split; [reflexivity|]. split; [reflexivity|]. split; [auto|]. split; [reflexivity|]. split; [exact SE|]. exists w. split; [reflexivity|].
    destruct (e_gas v) eqn:EG; injection ST as <- <-; auto 10.
  - destruct (get_auth _ _ _ _) as [[[l|] t]|] eqn:GA; try (injection ST as <- <-; auto; fail).
    destruct (accept l m) as [x|] eqn:AC; [|injection ST as <- <-; auto].
    unfold Model.finish in ST. destruct (send m (s_world s)) as [w|] eqn:SD; [|injection ST as <- <-; auto].
    right. split; [reflexivity|]. split; [reflexivity|]. split; [auto|]. split; [reflexivity|]. split; [exact SE|]. exists w. split; [reflexivity|].
    assert (CS : match update (e_now v) (e_caller v) (e_origin v) t x (s_grants s) with
                 | Some g => (Done, State g w (line v m true :: s_log s))
                 | None => (Failed, State (s_grants s) w (line v m false :: s_log s))
                 end = (o, s') \/
                 (e_gas v = Out_after_sending /\
                  (Failed, State (s_grants s) w (line v m false :: s_log s)) = (o, s'))).
    { destruct (e_gas v); auto. }
    clear ST. destruct CS as [ST|[EG ST]].
    + destruct (update _ _ _ _ _ _) as [g|] eqn:UP; injection ST as <- <-.
      * right; right. split; [reflexivity|]. split; [exact NE|]. eauto 10.
      * left. split; [reflexivity|]. split; [reflexivity|]. right.
        apply get_auth_eq in GA as [GE TL].
        destruct x as [|l1|]; cbn [update] in UP; [discriminate| |].
        -- unfold save in UP. cbn [g_exp] in UP. destruct t as [t|]; [|discriminate].
           destruct (Z.ltb_spec (e_now v) t); [discriminate|].
           exists (Grant (Some l) (Some t)), t. cbn [g_exp] in TL. split; [exact GE|]. split; [reflexivity|lia].
        -- unfold delete in UP. rewrite GE in UP. discriminate.
    + injection ST as <- <-. left. auto.
Qed.

(** Nothing is sent for a contract whose message the approval does not accept. *)
Lemma transfer_refused v m s :
  e_caller v <> e_origin v ->
  (forall l t, get_auth (s_grants s) (e_now v) (e_caller v) (e_origin v) = Some (Grant (Some l) t) ->
     0 < t_amount m <= max_word -> accept l m = None) ->
  transfer v m s = (Failed, s).
Proof.
  intros NE H. unfold Model.transfer.
  destruct (msg_ok m); [|reflexivity]. destruct (denom_ok (t_denom m)); [|reflexivity].
  destruct (Z.ltb_spec 0 (t_amount m)); [|reflexivity].
  destruct (Z.leb_spec (t_amount m) max_word); [|reflexivity]. cbn [andb negb].
  destruct (has_channel _ _ _); [|reflexivity]. cbn [negb].
  destruct (_ && _); [reflexivity|].
  destruct (N.eqb_spec (e_caller v) (e_origin v)); [congruence|].
  destruct (get_auth _ _ _ _) as [[[l|] t]|]; try reflexivity. now rewrite (H l t eq_refl).
Qed.

Lemma accept_limit l m a : ok_list l -> 0 < t_amount m <= max_word ->
  find_alloc (t_port m) (t_chan m) l = Some a ->
  amt (al_limit a) (t_denom m) < t_amount m -> accept l m = None.
Proof.
  clear W send has_channel name_ok denom_ok msg_ok lifetime.
  intros OK X0 FA LT. unfold Model.accept. rewrite FA.
  pose proof (ok_found _ _ _ _ OK FA) as (_ & _ & _ & VA).
  destruct (negb _); [reflexivity|]. destruct (negb _); [reflexivity|].
  destruct (Z.eqb_spec (amt (al_limit a) (t_denom m)) max_word); [lia|].
  destruct (csafe_sub _ _) as [rest neg] eqn:SS. destruct neg; [reflexivity|].
  destruct (sub_spec (t_denom m) (t_amount m) _ VA (proj1 X0)) as (LE & _); [now rewrite SS|]. lia.
Qed.

Lemma accept_receiver l m :
  (forall a, In a l -> al_port a = t_port m -> al_chan a = t_chan m ->
     al_allow a <> [] /\ ~ In (t_receiver m) (al_allow a)) -> accept l m = None.
Proof.
  clear W send has_channel name_ok denom_ok msg_ok lifetime.
  intros H. unfold Model.accept. destruct (find_alloc _ _ _) as [a|] eqn:FA; [|reflexivity].
  apply find_some in FA as [I1 HH]. apply here_iff in HH as [E1 E2]. destruct (H a I1 E1 E2) as [N1 N2].
  destruct (al_allow a) as [|z zs]; [congruence|].
  destruct (existsb (beqb (t_receiver m)) (z :: zs)) eqn:E; [|reflexivity].
  apply existsb_exists in E as (y & I2 & E). apply beqb_spec in E. subst y. tauto.
Qed.

(** A call is its body, or nothing at all. *)
Lemma step_body v k s o s' : step v k s = (o, s') ->
  (s' = s /\ o = Failed /\ e_gas v = Out_at_once) \/
  exists o', body v k s = (o', s') /\ (o = o' \/ (o = Failed /\ e_gas v = Out_at_the_end)).
Proof.
  unfold Model.step. destruct (body v k s) as [o' s1] eqn:B. cbn [snd].
  destruct (e_gas v) eqn:EG; intros ST; injection ST as <- <-.
  - right. exists o'. auto.
  - left. auto.
  - right. exists o'. auto.
  - right. exists o'. auto.
Qed.

Lemma distinct_nodup l : distinct l = true -> NoDup l.
Proof.
  induction l as [|x l IH]; [constructor|]. cbn [distinct]. intros H. apply andb_prop in H as [H1 H2].
  constructor; [|auto]. intros I1. apply negb_true_iff in H1.
  assert (E : existsb (beqb x) l = true) by (apply existsb_exists; exists x; split; [exact I1|apply beqb_refl]).
  congruence.
Qed.

Lemma allocs_ok_list l : allocs_ok name_ok denom_ok l = true -> ok_list l.
Proof.
  unfold allocs_ok. rewrite !andb_true_iff. intros [[_ D] F1]. split; [now apply distinct_nodup|].
  rewrite forallb_forall in F1. apply Forall_forall. intros a I1. specialize (F1 a I1).
  unfold alloc_ok in F1. rewrite !andb_true_iff in F1. apply cvalidb_spec. tauto.
Qed.

Lemma approve_eq now e r l w g g' : approve now e r l w g = Some g' ->
  ok_list l /\ l <> [] /\ Forall (fun a => has_channel w (al_port a) (al_chan a) = true) l /\
  g' = set_grant g e r (Some (Grant (Some l) (Some (now + lifetime)))).
Proof.
  unfold Model.approve. destruct (allocs_ok _ _ l) eqn:A; [|discriminate].
  destruct (forallb _ l) eqn:F1; [|discriminate]. cbn [andb]. intros SV. apply save_eq in SV.
  split; [now apply allocs_ok_list|]. split; [now destruct l|].
  split; [|exact SV]. apply Forall_forall. now apply forallb_forall.
Qed.

Lemma revoke_eq now e r g g' : revoke now e r g = Some g' -> g' = set_grant g e r None.
Proof.
  clear W send has_channel memo_ok name_ok denom_ok msg_ok lifetime.
  unfold revoke. destruct (e =? 0)%N; [discriminate|].
  destruct (get_auth g now e r) as [[[l|] t]|]; try discriminate. apply delete_eq.
Qed.

(** Which approval a call may touch. *)
Definition names (v : env) (k : call) : addr * addr :=
  match k with
  | Approve e _ | Revoke e | Increase e _ _ _ _ | Decrease e _ _ _ _ => (e, e_origin v)
  | Transfer _ => (e_caller v, e_origin v)
  end.

Lemma with_grants_eq (s : state W) g o s' : with_grants W s g = (o, s') ->
  (o = Failed /\ s' = s /\ g = None) \/
  (o = Done /\ exists h, g = Some h /\ s' = State h (s_world s) (s_log s)).
Proof. destruct g as [h|]; cbn; intros E; injection E as <- <-; eauto. Qed.

Lemma body_wf v k s o s' : all_well_formed (s_grants s) -> body v k s = (o, s') ->
  all_well_formed (s_grants s') /\
  only_at (fst (names v k)) (snd (names v k)) (s_grants s) (s_grants s').
Proof.
  intros WF B.
  assert (SET : forall e r x, (forall y, x = Some y -> well_formed y) ->
    all_well_formed (set_grant (s_grants s) e r x)).
  { intros e r x H e' r' y E. unfold set_grant in E. destruct (_ && _); [auto|eapply WF; eauto]. }
  assert (VIA : forall e r g', only_at e r (s_grants s) g' ->
    (forall y, g' e r = Some y -> well_formed y) -> all_well_formed g').
  { intros e r g' OA H e' r' y E. destruct (N.eq_dec e' e) as [->|N1]; [destruct (N.eq_dec r' r) as [->|N2]|].
    - now apply H.
    - rewrite (OA e r') in E by congruence. eapply WF; eauto.
    - rewrite (OA e' r') in E by congruence. eapply WF; eauto. }
  destruct k as [e l|e|e p c d x|e p c d x|m]; cbn [Model.body names fst snd] in *.
  - apply with_grants_eq in B as [(_ & -> & _)|(_ & h & E & ->)]; [split; [exact WF|apply only_refl]|].
    apply approve_eq in E as (OK & _ & _ & ->). cbn [s_grants]. split; [|apply set_other].
    apply SET. intros y E; injection E as <-. exact OK.
  - apply with_grants_eq in B as [(_ & -> & _)|(_ & h & E & ->)]; [split; [exact WF|apply only_refl]|].
    apply revoke_eq in E as ->. cbn [s_grants]. split; [|apply set_other]. apply SET. discriminate.
  - apply with_grants_eq in B as [(_ & -> & _)|(_ & h & E & ->)]; [split; [exact WF|apply only_refl]|].
    apply increase_eq in E as (_ & OA & l & l' & t & _ & GE & OK & _); [|intros; eapply WF; eauto].
    cbn [s_grants]. split; [|exact OA]. eapply VIA; [exact OA|]. intros y E. rewrite GE in E.
    injection E as <-. exact OK.
  - apply with_grants_eq in B as [(_ & -> & _)|(_ & h & E & ->)]; [split; [exact WF|apply only_refl]|].
    apply decrease_eq in E as (_ & OA & l & l' & t & _ & GE & OK & _); [|intros; eapply WF; eauto].
    cbn [s_grants]. split; [|exact OA]. eapply VIA; [exact OA|]. intros y E. rewrite GE in E.
    injection E as <-. exact OK.
  - apply transfer_cases in B
      as [[_ ->]|(_ & _ & X0 & _ & _ & w & _ & [(_ & -> & _)|[(_ & _ & ->)|(_ & _ & l & t & x & g & GA & AC & UP & ->)]])];
      cbn [s_grants]; try (split; [exact WF|apply only_refl]).
    apply get_auth_eq in GA as [GE _]. pose proof (WF _ _ _ GE) as OK. cbn in OK.
    destruct (accept_update _ _ _ _ _ _ _ _ _ OK (proj1 X0) GE AC UP) as (OA & W1 & _).
    split; [|exact OA]. eapply VIA; eauto.
Qed.

Lemma step_wf v k s o s' : all_well_formed (s_grants s) -> step v k s = (o, s') ->
  all_well_formed (s_grants s') /\
  only_at (fst (names v k)) (snd (names v k)) (s_grants s) (s_grants s').
Proof.
  intros WF ST. apply step_body in ST as [(-> & _)|(o' & B & _)].
  - split; [exact WF|apply only_refl].
  - eapply body_wf; eauto.
Qed.

(** The bound: what was used and what is left never exceed the start. *)
Lemma step_bound e r p c d v k s o s' :
  e <> r -> all_well_formed (s_grants s) -> limit (s_grants s) e r p c d < max_word ->
  ~ raises e r p c d v k -> step v k s = (o, s') ->
  exists new, s_log s' = new ++ s_log s /\
    total e r p c d new + limit (s_grants s') e r p c d <= limit (s_grants s) e r p c d.
Proof.
  intros NE WF LT NR ST. apply step_body in ST as [(-> & _)|(o' & B & _)].
  { exists []. cbn. split; [reflexivity|lia]. }
  clear o. destruct (body_wf _ _ _ _ _ WF B) as [_ OA].
  assert (SAME : s_log s' = s_log s -> s_grants s' e r = s_grants s e r ->
    exists new, s_log s' = new ++ s_log s /\
    total e r p c d new + limit (s_grants s') e r p c d <= limit (s_grants s) e r p c d).
  { intros E1 E2. exists []. split; [exact E1|]. rewrite (limit_same _ _ _ _ _ _ _ E2). cbn. lia. }
  assert (WFP : forall a b y, s_grants s a b = Some y -> well_formed y) by (intros; eapply WF; eauto).
  assert (DN : forall e', {(e', e_origin v) = (e, r)} + {(e, r) <> (e', e_origin v)}).
  { intros e'. destruct (N.eq_dec e' e) as [->|]; [destruct (N.eq_dec (e_origin v) r) as [->|]|];
      [now left|right; congruence|right; congruence]. }
  destruct k as [e1 l|e1|e1 p1 c1 d1 x|e1 p1 c1 d1 x|m]; cbn [Model.body names fst snd] in B, OA.
  - apply with_grants_eq in B as [(_ & -> & _)|(_ & h & E & ->)]; [now apply SAME|].
    destruct (DN e1) as [E1|N1]; [|apply SAME; [reflexivity|now apply OA]].
    injection E1 as -> E2. exfalso. apply NR. split; [exact E2|reflexivity].
  - apply with_grants_eq in B as [(_ & -> & _)|(_ & h & E & ->)]; [now apply SAME|].
    destruct (DN e1) as [E1|N1]; [|apply SAME; [reflexivity|now apply OA]].
    injection E1 as -> E2. rewrite E2 in E. apply revoke_eq in E as ->. cbn [s_grants s_log].
    exists []. split; [reflexivity|]. unfold limit at 1. rewrite set_same.
    pose proof (limit_nonneg (s_grants s) e r p c d (WFP e r)). cbn. lia.
  - apply with_grants_eq in B as [(_ & -> & _)|(_ & h & E & ->)]; [now apply SAME|].
    destruct (DN e1) as [E1|N1]; [|apply SAME; [reflexivity|now apply OA]].
    injection E1 as -> E2. rewrite E2 in E.
    apply increase_eq in E as (X0 & _ & l & l' & t & _ & _ & _ & _ & _ & _ & LIM); [|apply WFP].
    exists []. split; [reflexivity|]. cbn [s_grants]. rewrite LIM.
    destruct (same_place p1 c1 p c) eqn:SP; [|cbn; lia].
    destruct (beqb d d1) eqn:ED; [|cbn; lia]. exfalso. apply NR.
    apply same_place_iff in SP as [-> ->]. apply beqb_spec in ED. subst d1. split; [exact E2|]. auto.
  - apply with_grants_eq in B as [(_ & -> & _)|(_ & h & E & ->)]; [now apply SAME|].
    destruct (DN e1) as [E1|N1]; [|apply SAME; [reflexivity|now apply OA]].
    injection E1 as -> E2. rewrite E2 in E.
    apply decrease_eq in E as (X0 & _ & l & l' & t & _ & _ & _ & _ & _ & _ & LIM); [|apply WFP].
    exists []. split; [reflexivity|]. cbn [s_grants]. rewrite LIM. cbn. destruct (_ && _); lia.
  - apply transfer_cases in B
      as [[_ ->]|(_ & _ & X0 & _ & _ & w & _ & [(_ & -> & _)|[(_ & CO & ->)|(_ & N2 & l & t & x & g & GA & AC & UP & ->)]])].
    + now apply SAME.
    + exists [line v m false]. cbn [s_log s_grants app]. split; [reflexivity|].
      unfold total. cbn [fold_right]. unfold counts. cbn [line v_settled]. rewrite andb_false_r. lia.
    + exists [line v m true]. cbn [s_log s_grants app]. split; [reflexivity|].
      unfold total. cbn [fold_right]. unfold counts. cbn [line v_caller v_origin].
      destruct (N.eqb_spec (e_caller v) e) as [E1|], (N.eqb_spec (e_origin v) r) as [E2|]; cbn [andb]; try lia.
    + exists [line v m true]. cbn [s_log s_grants app] in *. split; [reflexivity|].
      unfold total. cbn [fold_right]. unfold counts. cbn [line v_caller v_origin v_msg v_settled].
      destruct (DN (e_caller v)) as [E1|N1].
      2:{ rewrite (limit_same (s_grants s) g) by now apply OA.
          destruct (N.eqb_spec (e_caller v) e) as [E1|], (N.eqb_spec (e_origin v) r) as [E2|];
            cbn [andb]; try lia. congruence. }
      injection E1 as E1 E2. rewrite E1, E2 in *. rewrite !N.eqb_refl. cbn [andb].
      apply get_auth_eq in GA as [GE _]. pose proof (WF _ _ _ GE) as OK. cbn in OK.
      destruct (accept_update _ _ _ _ _ _ _ _ _ OK (proj1 X0) GE AC UP)
        as (_ & _ & a & FA & _ & _ & [(EM & ->)|(NM & LE & _ & LIM)]).
      * rewrite andb_true_r.
        destruct (beqb (t_port m) p) eqn:EP; [destruct (beqb (t_chan m) c) eqn:EC;
          [destruct (beqb (t_denom m) d) eqn:ED|]|]; cbn [andb]; try lia.
        apply beqb_spec in EP, EC, ED. subst p c d.
        rewrite (limit_found _ _ _ _ _ _ _ _ GE), FA in LT. rewrite EM in LT. lia.
      * rewrite LIM. rewrite andb_true_r. unfold same_place.
        assert (EB : beqb d (t_denom m) = beqb (t_denom m) d).
        { destruct (beqb d (t_denom m)) eqn:E3, (beqb (t_denom m) d) eqn:E4; try reflexivity.
          - apply beqb_spec in E3. subst. now rewrite beqb_refl in E4.
          - apply beqb_spec in E4. subst. now rewrite beqb_refl in E3. }
        rewrite EB. destruct (beqb (t_port m) p && beqb (t_chan m) c && beqb (t_denom m) d); lia.
Qed.

Lemma total_app e r p c d a b : total e r p c d (a ++ b) = total e r p c d a + total e r p c d b.
Proof.
  unfold total. induction a as [|x a IH]; [reflexivity|]. cbn [app fold_right]. rewrite IH. lia.
Qed.

Lemma total_nonneg_new e r p c d v k s o s' new :
  step v k s = (o, s') -> s_log s' = new ++ s_log s -> 0 <= total e r p c d new.
Proof.
  intros ST EL.
  assert (H : s_log s' = s_log s \/ exists m b, s_log s' = line v m b :: s_log s /\ 0 < t_amount m).
  { apply step_body in ST as [(-> & _)|(o' & B & _)]; [auto|].
    destruct k as [e1 l|e1|e1 p1 c1 d1 x|e1 p1 c1 d1 x|m]; cbn [Model.body] in B;
      try (apply with_grants_eq in B as [(_ & -> & _)|(_ & h & E & ->)]; now left).
    apply transfer_cases in B
      as [[_ ->]|(_ & _ & X0 & _ & _ & w & _ & [(_ & -> & _)|[(_ & CO & ->)|(_ & N2 & l & t & x & g & GA & AC & UP & ->)]])];
      [now left|right; cbn; exists m; eexists; split; [reflexivity|lia] ..]. }
  destruct H as [E|(m & b & E & X0)]; rewrite E in EL.
  - replace new with (@nil sent); [cbn; lia|]. symmetry. apply app_inv_tail with (l := s_log s). cbn. congruence.
  - replace new with [line v m b].
    + unfold total. cbn [fold_right]. destruct (counts _ _ _ _ _ _); cbn [line v_msg]; lia.
    + apply app_inv_tail with (l := s_log s). cbn. congruence.
Qed.

Lemma history_bound e r p c d s0 s :
  e <> r -> all_well_formed (s_grants s0) -> limit (s_grants s0) e r p c d < max_word ->
  history (fun v k => ~ raises e r p c d v k) s0 s ->
  all_well_formed (s_grants s) /\
  exists new, s_log s = new ++ s_log s0 /\ 0 <= total e r p c d new /\
    total e r p c d new + limit (s_grants s) e r p c d <= limit (s_grants s0) e r p c d.
Proof.
  intros NE WF LT H. induction H as [|s s' v k o H (WF1 & new & EL & T0 & IH) NR ST].
  - split; [exact WF|]. exists []. cbn. split; [reflexivity|]. lia.
  - destruct (step_bound e r p c d _ _ _ _ _ NE WF1 ltac:(lia) NR ST) as (n2 & E2 & B2).
    split; [eapply step_wf; eauto|]. exists (n2 ++ new).
    split; [rewrite E2, EL; apply app_assoc|]. rewrite total_app.
    pose proof (total_nonneg_new e r p c d _ _ _ _ _ _ ST E2). lia.
Qed.

End Contract.
