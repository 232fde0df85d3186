(* C126: the nodes a bridge recommends. *)
From Verif Require Import Lib.Base Lib.Bytes Hyperion.Nodes Hyperion.NodesSpec.
From Coq Require Import Sorting.Sorted Sorting.Permutation.
Open Scope Z_scope.

Lemma entry_in : forall l u n, NoDup (map n_url l) -> (entry l u = Some n <-> In n l /\ n_url n = u).
Proof.
  intros l u n N. unfold entry. induction l as [|m l IH]; cbn [find map] in *; [split; [discriminate|intros ([] & _)]|]. inversion N as [|? ? Nm N']; subst. destruct (beqb (n_url m) u) eqn:E.
  - apply beqb_spec in E. split; [intro Q; inversion Q; subst; split; [left|]; reflexivity|]. intros ([->|I] & Eu); [reflexivity|]. destruct Nm. rewrite E, <- Eu. apply in_map. exact I.
  - apply beqb_neq in E. rewrite (IH N'). cbn [In]. split; [tauto|]. intros ([->|I] & Eu); [contradiction|auto].
Qed.
Lemma entry_none : forall l u, entry l u = None <-> ~ In u (map n_url l).
Proof.
  intros l u. unfold entry. induction l as [|m l IH]; cbn [find map In]; [tauto|]. destruct (beqb (n_url m) u) eqn:E; [apply beqb_spec in E; split; [discriminate|tauto]|]. apply beqb_neq in E. rewrite IH. tauto.
Qed.
Lemma entry_perm : forall l l' u, NoDup (map n_url l) -> Permutation l' l -> entry l' u = entry l u.
Proof.
  intros l l' u N P. assert (NoDup (map n_url l')) as N' by (apply (Permutation_NoDup (Permutation_sym (Permutation_map n_url P))); exact N).
  destruct (entry l u) as [n|] eqn:E.
  - apply (entry_in l u n N) in E as (I & Eu). apply (entry_in l' u n N'). split; [|exact Eu]. apply (Permutation_in n (Permutation_sym P)). exact I.
  - apply entry_none in E. apply entry_none. intro I. apply E. apply (Permutation_in u (Permutation_map n_url P)). exact I.
Qed.
Lemma touch_urls : forall l u h, map n_url (map (touch u h) l) = map n_url l.
Proof. intros l u h. rewrite map_map. apply map_ext. intro n. unfold touch. destruct (beqb _ _); reflexivity. Qed.
Lemma touch_entry : forall l u h v, entry (map (touch u h) l) v = match entry l v with Some n => Some (touch u h n) | None => None end.
Proof.
  intros l u h v. unfold entry. induction l as [|n l IH]; [reflexivity|]. cbn [map find]. replace (n_url (touch u h n)) with (n_url n) by (unfold touch; destruct (beqb _ _); reflexivity). destruct (beqb (n_url n) v); [reflexivity|exact IH].
Qed.
Lemma has_entry : forall l u, has u l = match entry l u with Some _ => true | None => false end.
Proof. intros l u. unfold has, entry. induction l as [|n l IH]; [reflexivity|]. cbn [existsb find]. destruct (beqb (n_url n) u); [reflexivity|exact IH]. Qed.
Lemma nodup_firstn : forall A (l : list A) k, NoDup l -> NoDup (firstn k l).
Proof. intros A l k N. rewrite <- (firstn_skipn k l) in N. revert N. generalize (firstn k l), (skipn k l). induction l0 as [|a q IH]; intros r N; [constructor|]. inversion N as [|? ? Na N']; subst. constructor; [|eapply IH; exact N']. intro I. apply Na. apply in_or_app. auto. Qed.
Lemma nodup_snoc : forall (l : list bytes) a, NoDup l -> ~ In a l -> NoDup (l ++ [a]).
Proof. intros l a N I. apply (Permutation_NoDup (Permutation_cons_append l a)). constructor; assumption. Qed.
Lemma entry_app : forall l n v, entry (l ++ [n]) v = match entry l v with Some m => Some m | None => if beqb (n_url n) v then Some n else None end.
Proof. intros l n v. unfold entry. induction l as [|m l IH]; [reflexivity|]. cbn [app find]. destruct (beqb (n_url m) v); [reflexivity|exact IH]. Qed.
Lemma remove_entry : forall l u, NoDup (map n_url l) -> NoDup (map n_url (remove l u)) /\ (length (remove l u) <= length l)%nat /\ (forall v, entry (remove l u) v = if beqb v u then None else entry l v) /\ (forall v, In v (map n_url (remove l u)) -> In v (map n_url l)).
Proof.
  intros l u N. induction l as [|n l IH]; cbn [remove map] in *; [repeat split; auto; intro v; destruct (beqb v u); reflexivity|]. inversion N as [|? ? Nn N']; subst. destruct (IH N') as (I1 & I2 & I3 & I4). clear IH. destruct (beqb (n_url n) u) eqn:E.
  - apply beqb_spec in E. repeat match goal with |- _ /\ _ => split end; [exact N'|cbn; lia| |intros v I; right; exact I]. intro v. destruct (beqb v u) eqn:Ev.
    + apply beqb_spec in Ev. apply entry_none. congruence.
    + apply beqb_neq in Ev. unfold entry. cbn [find]. destruct (beqb (n_url n) v) eqn:Q; [apply beqb_spec in Q; congruence|reflexivity].
  - apply beqb_neq in E. cbn [map length]. repeat match goal with |- _ /\ _ => split end.
    + constructor; [|exact I1]. intro I. apply Nn. apply I4. exact I.
    + lia.
    + intro v. unfold entry in *. cbn [find]. rewrite I3. destruct (beqb (n_url n) v) eqn:Q; [|reflexivity]. apply beqb_spec in Q. destruct (beqb v u) eqn:Ev; [apply beqb_spec in Ev; congruence|reflexivity].
    + intros v [I|I]; [left; exact I|right; apply I4; exact I].
Qed.

Section Props.
Variable srt : list node -> list node.
Hypothesis Hs : sorts srt.

Lemma cut_len : forall l u h, length (srt (map (touch u h) l)) = length l.
Proof. intros l u h. rewrite (Permutation_length (proj1 (Hs _))). apply map_length. Qed.
Lemma srt_nodup : forall l u h, NoDup (map n_url l) -> NoDup (map n_url (srt (map (touch u h) l))).
Proof. intros l u h N. apply (Permutation_NoDup (Permutation_sym (Permutation_map n_url (proj1 (Hs (map (touch u h) l)))))). rewrite touch_urls. exact N. Qed.

(* over all histories: each node once, never more than a hundred and one *)
Theorem C126_tidy : forall os l, tidy l -> tidy (run srt l os).
Proof.
  induction os as [|o os IH]; intros l (N & L); [split; assumption|]. unfold run. cbn [fold_left]. apply IH. destruct o as [u h|u]; cbn [step].
  - unfold use. cbv zeta. rewrite cut_len. assert (forall k, NoDup (map n_url (firstn k (srt (map (touch u h) l))))) as Nk by (intro k; rewrite <- firstn_map; apply nodup_firstn, srt_nodup, N).
    assert (forall q, NoDup (map n_url q) -> (length q <= 100)%nat -> (forall v, In v (map n_url q) -> In v (map n_url l)) -> tidy (if has u l then q else q ++ [mk_node u 1 h])) as G.
    { intros q Nq Lq Iq. rewrite has_entry. destruct (entry l u) eqn:E; [split; [exact Nq|lia]|]. apply entry_none in E. split; [|rewrite app_length; cbn; lia]. rewrite map_app. apply nodup_snoc; [exact Nq|]. intro I. apply E. apply Iq. exact I. }
    assert (forall v, In v (map n_url (srt (map (touch u h) l))) -> In v (map n_url l)) as In1 by (intros v I; apply (Permutation_in v (Permutation_map n_url (proj1 (Hs _)))) in I; rewrite touch_urls in I; exact I).
    destruct (Nat.ltb_spec 100 (length l)) as [Lt|Lt].
    + apply G; [apply Nk|rewrite firstn_length; lia|]. intros v I. apply In1. rewrite <- firstn_map in I. rewrite <- (firstn_skipn 100 (map n_url _)). apply in_or_app. left. exact I.
    + apply G; [apply srt_nodup; exact N|rewrite cut_len; exact Lt|exact In1].
  - destruct (remove_entry l u N) as (R1 & R2 & _). split; [exact R1|lia].
Qed.

(* up to a hundred nodes: the node that was used is in the list with one more to its name and the
   new height, and every other node is as it was *)
Theorem C126_use_partial : forall l u h, NoDup (map n_url l) -> (length l <= 100)%nat -> forall v, entry (use srt l u h) v = if beqb v u then Some (used (entry l u) u h) else entry l v.
Proof.
  intros l u h N L v. unfold use. cbv zeta. rewrite cut_len. destruct (Nat.ltb_spec 100 (length l)); [lia|]. rewrite has_entry.
  assert (entry (srt (map (touch u h) l)) v = match entry l v with Some n => Some (touch u h n) | None => None end) as S1.
  { rewrite <- touch_entry. apply entry_perm; [rewrite touch_urls; exact N|apply Hs]. }
  assert (forall n, entry l v = Some n -> touch u h n = if beqb v u then mk_node u (n_rep n + 1) h else n) as T.
  { intros n E. apply (entry_in l v n N) in E as (_ & E). unfold touch. rewrite E. destruct (beqb v u) eqn:Q; [apply beqb_spec in Q; congruence|reflexivity]. }
  destruct (beqb v u) eqn:Q.
  - apply beqb_spec in Q. subst v. destruct (entry l u) as [n|] eqn:E; [rewrite S1, (T n eq_refl); reflexivity|]. rewrite entry_app, S1. cbn [n_url]. rewrite beqb_refl. reflexivity.
  - destruct (entry l u) as [m|] eqn:E; [|rewrite entry_app]; rewrite S1; (destruct (entry l v) as [n|] eqn:E2; [rewrite (T n eq_refl); reflexivity|]); [reflexivity|]. cbn [n_url].
    apply beqb_neq in Q. destruct (beqb u v) eqn:Q2; [apply beqb_spec in Q2; congruence|reflexivity].
Qed.

(* a full list loses one node, and not more, to each use *)
Theorem C126_full : forall l u h, length l = 101%nat -> length (use srt l u h) = match entry l u with Some _ => 100%nat | None => 101%nat end.
Proof.
  intros l u h L. unfold use. cbv zeta. rewrite has_entry. assert (length (if (100 <? length (srt (map (touch u h) l)))%nat then firstn 100 (srt (map (touch u h) l)) else srt (map (touch u h) l)) = 100%nat) as Q.
  { rewrite cut_len, L. change (100 <? 101)%nat with true. cbv iota. rewrite firstn_length, cut_len, L. reflexivity. }
  destruct (entry l u); [exact Q|]. rewrite app_length, Q. reflexivity.
Qed.

(* taking a node off the list takes it off and leaves the others *)
Theorem C126_remove : forall l u v, NoDup (map n_url l) -> entry (remove l u) v = if beqb v u then None else entry l v.
Proof. clear Hs. intros l u v N. apply (remove_entry l u N). Qed.

Lemma sorted_last : forall (l : list node) k n, StronglySorted (fun a b => n_last a <= n_last b) l -> In n (firstn k l) -> (forall m, In m l -> m <> n -> n_last m < n_last n) -> NoDup l -> (length l <= k)%nat.
Proof.
  clear Hs. induction l as [|a l IH]; intros k n St I M N; [cbn; lia|]. destruct k as [|k]; [destruct I|]. inversion St as [|? ? St' Fo]; subst. inversion N as [|? ? Na N']; subst. cbn [firstn] in I. destruct I as [->|I].
  - destruct l as [|b l]; [cbn; lia|]. rewrite Forall_forall in Fo. specialize (Fo b (or_introl eq_refl)). assert (b <> n) as Nb by (intros ->; apply Na; left; reflexivity). specialize (M b (or_intror (or_introl eq_refl)) Nb). lia.
  - cbn [length]. apply le_n_S. eapply IH; [exact St'|exact I| |exact N']. intros m J Nm. apply M; [right; exact J|exact Nm].
Qed.
(* with a hundred and one nodes, using one of them at a height above all others takes it off the
   list: the nodes used longest ago are kept *)
Theorem C126_best_dropped_refuted : forall l u h, NoDup (map n_url l) -> length l = 101%nat -> In u (map n_url l) -> (forall n, In n l -> n_last n < h) -> entry (use srt l u h) u = None.
Proof.
  intros l u h N L I M. destruct (entry l u) as [n|] eqn:E; [|apply entry_none in E; contradiction]. unfold use. cbv zeta. rewrite cut_len, L, has_entry, E. change (100 <? 101)%nat with true. cbv iota. set (s := srt (map (touch u h) l)).
  apply entry_none. intro J. rewrite in_map_iff in J. destruct J as (m & Em & J). assert (NoDup s) as Ns by (apply (NoDup_map_inv n_url); apply srt_nodup; exact N).
  assert (forall k, In k s -> exists o, In o l /\ k = touch u h o) as In1 by (intros k K; apply (Permutation_in k (proj1 (Hs _))) in K; apply in_map_iff in K as (o & <- & K); eauto).
  assert (In m s) as Ms by (rewrite <- (firstn_skipn 100 s); apply in_or_app; left; exact J).
  assert (n_last m = h) as Hm by (destruct (In1 m Ms) as (o & _ & ->); unfold touch in *; destruct (beqb (n_url o) u) eqn:B; [reflexivity|]; apply beqb_neq in B; contradiction).
  assert (length s <= 100)%nat as Q; [|unfold s in Q; rewrite cut_len in Q; lia]. apply (sorted_last s 100 m (proj2 (Hs _)) J); [|exact Ns].
  intros k K Nk. destruct (In1 k K) as (o & Io & ->). rewrite Hm. unfold touch in *. destruct (beqb (n_url o) u) eqn:B; [|apply M; exact Io]. destruct Nk. apply beqb_spec in B.
  assert (NoDup (map n_url s)) as Nu by (apply srt_nodup; exact N). pose proof (proj2 (entry_in s u m Nu) (conj Ms Em)) as X1. assert (n_url (mk_node (n_url o) (n_rep o + 1) h) = u) as Eo by exact B.
  pose proof (proj2 (entry_in s u _ Nu) (conj K Eo)) as X2. congruence.
Qed.
Lemma sorted_app : forall (q r : list node), StronglySorted (fun a b => n_last a <= n_last b) (q ++ r) -> forall a b, In a q -> In b r -> n_last a <= n_last b.
Proof.
  clear Hs. induction q as [|c q IH]; intros r St a b A B; [destruct A|]. inversion St as [|? ? St' Fo]; subst. destruct A as [->|A]; [|eapply IH; eassumption]. rewrite Forall_forall in Fo. apply Fo. apply in_or_app. right. exact B.
Qed.
(* whatever node is dropped, no node that is kept was used after it *)
Theorem C126_oldest_kept_refuted : forall l u h, length l = 101%nat -> In u (map n_url l) ->
  forall a b, In a (use srt l u h) -> In b (map (touch u h) l) -> ~ In b (use srt l u h) -> n_last a <= n_last b.
Proof.
  intros l u h L I a b. destruct (entry l u) as [n|] eqn:E; [|apply entry_none in E; contradiction]. unfold use. cbv zeta. rewrite cut_len, L, has_entry, E. change (100 <? 101)%nat with true. cbv iota. intros A B N.
  destruct (Hs (map (touch u h) l)) as (P & St). apply (Permutation_in b (Permutation_sym P)) in B. rewrite <- (firstn_skipn 100 (srt _)) in B, St. apply in_app_iff in B as [B|B]; [contradiction|].
  exact (sorted_app _ _ St a b A B).
Qed.
End Props.
Print Assumptions C126_oldest_kept_refuted.
Print Assumptions C126_tidy.
Print Assumptions C126_use_partial.
Print Assumptions C126_full.
Print Assumptions C126_remove.
Print Assumptions C126_best_dropped_refuted.

(* a way to sort, and a full list *)
Fixpoint ins (n : node) (l : list node) : list node := match l with [] => [n] | m :: r => if n_last n <=? n_last m then n :: l else m :: ins n r end.
Definition ex_sort (l : list node) : list node := fold_right ins [] l.
Example ex_sorts : sorts ex_sort.
Proof.
  intro l. induction l as [|n l (IP & IS)]; [split; constructor|]. cbn [ex_sort fold_right]. fold (ex_sort l). assert (forall q, Permutation (ins n q) (n :: q)) as P.
  { induction q as [|m q IH]; [apply Permutation_refl|]. cbn [ins]. destruct (n_last n <=? n_last m); [apply Permutation_refl|]. apply (Permutation_trans (perm_skip m IH)). apply perm_swap. }
  split; [apply (Permutation_trans (P _)); apply perm_skip; exact IP|]. clear IP. induction IS as [|m q Sq IH Fo]; [repeat constructor|]. cbn [ins]. destruct (Z.leb_spec (n_last n) (n_last m)).
  - constructor; [constructor; assumption|]. constructor; [assumption|]. rewrite Forall_forall in *. intros k K. specialize (Fo k K). lia.
  - constructor; [exact IH|]. rewrite Forall_forall in *. intros k K. apply (Permutation_in k (P q)) in K. destruct K as [<-|K]; [lia|apply Fo; exact K].
Qed.
Definition ex_full : list node := map (fun i => mk_node [N.of_nat i] 1 (Z.of_nat i)) (seq 0 101).
Example ex_dropped : length ex_full = 101%nat /\ entry ex_full [7%N] = Some (mk_node [7%N] 1 7) /\ entry (use ex_sort ex_full [7%N] 500) [7%N] = None /\ length (use ex_sort ex_full [7%N] 500) = 100%nat /\
  entry (use ex_sort (firstn 50 ex_full) [7%N] 500) [7%N] = Some (mk_node [7%N] 2 500) /\ length (use ex_sort ex_full [200%N] 500) = 101%nat.
Proof. vm_compute. repeat split. Qed.
