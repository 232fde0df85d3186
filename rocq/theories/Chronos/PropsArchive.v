(* C122: what is told about the transactions of scheduled tasks. *)
From Verif Require Import Lib.Base Lib.Bytes Lib.Kv Lib.Dec Chronos.Archive Chronos.ArchiveSpec Chronos.ArchiveProofs.
From Coq Require Import Sorting.Sorted Logic.FinFun.
Open Scope Z_scope.

Lemma proper_in : forall l t, history l -> In t (txs l) -> proper t.
Proof. intros l t (F & _) I. rewrite Forall_forall in F. apply F. exact I. Qed.
Lemma nonce_once : forall l a b, history l -> In a (txs l) -> In b (txs l) -> x_nonce a = x_nonce b -> a = b.
Proof.
  intros l a b (_ & N & _) A B E. clear -N A B E. induction (txs l) as [|c q IH]; [destruct A|]. cbn in N. inversion N as [|? ? N1 N2]. subst.
  destruct A as [->|A], B as [->|B]; [reflexivity| | |auto]; destruct N1; [rewrite E|rewrite <- E]; apply in_map; assumption.
Qed.
Lemma hash_once : forall l a b, history l -> In a (txs l) -> In b (txs l) -> x_hash a = x_hash b -> a = b.
Proof.
  intros l a b (_ & _ & N & _) A B E. clear -N A B E. induction (txs l) as [|c q IH]; [destruct A|]. cbn in N. inversion N as [|? ? N1 N2]. subst.
  destruct A as [->|A], B as [->|B]; [reflexivity| | |auto]; destruct N1; [rewrite E|rewrite <- E]; apply in_map; assumption.
Qed.

(* every transaction is found under its number, and nothing else is *)
Theorem C122_by_number : forall l n t, history l -> 0 <= n -> (by_nonce (run l) n = Some t <-> In t (txs l) /\ x_nonce t = n).
Proof.
  intros l n t Hy P. destruct (run_tells l Hy) as (_ & T & _). unfold by_nonce, by_text. destruct (kget (run l) (tx_key (udec n))) as [v|] eqn:E.
  - pose proof (proj1 (T n v P) E) as (t' & I & En & ->). split; [intro Q; inversion Q; subst; auto|]. intros (I' & E'). f_equal. apply (nonce_once l); auto. congruence.
  - split; [discriminate|]. intros (I & E'). rewrite (proj2 (T n (VTx t) P)) in E; [discriminate|]. exists t. auto.
Qed.
Print Assumptions C122_by_number.

(* every transaction is found under its hash, and nothing else is *)
Theorem C122_by_hash : forall l h t, history l -> hash_text h -> (by_hash (run l) h = Some t <-> In t (txs l) /\ x_hash t = h).
Proof.
  intros l h t Hy P. destruct (run_tells l Hy) as (_ & _ & T & _). unfold by_hash. destruct (kget (run l) h) as [v|] eqn:E.
  - pose proof (proj1 (T h v P) E) as (t' & I & En & ->). rewrite C122_by_number; [|exact Hy|apply (proper_in l t' Hy I)]. split.
    + intros (I' & E'). split; [exact I'|]. rewrite (nonce_once l t t'); auto.
    + intros (I' & E'). split; [exact I'|]. f_equal. apply (hash_once l); auto. congruence.
  - split; [discriminate|]. intros (I & E'). rewrite (proj2 (T h (VNonce (x_nonce t)) P)) in E; [discriminate|]. exists t. auto.
Qed.
Print Assumptions C122_by_hash.

(* a block's transactions are given in order of execution, up to the hundredth *)
Theorem C122_by_block : forall l b, history l -> 0 <= b -> by_block (run l) b = firstn 100 (filter (fun t => x_block t =? b) (txs l)).
Proof.
  intros l b Hy P. unfold by_block. f_equal. assert (block_hashes (run l) b = map x_hash (filter (fun t => x_block t =? b) (txs l))) as ->.
  { destruct (run_tells l Hy) as (_ & _ & _ & B & _). unfold block_hashes. rewrite (B b P). destruct (map x_hash _); reflexivity. }
  assert (forall q, (forall t, In t q -> In t (txs l)) -> found (by_hash (run l)) (map x_hash q) = q) as G.
  { induction q as [|t q IH]; intro I; [reflexivity|]. unfold found in *. cbn [map flat_map]. rewrite IH by (intros; apply I; right; assumption).
    rewrite (proj2 (C122_by_hash l (x_hash t) t Hy (proj2 (proj2 (proj2 (proper_in l t Hy (I t (or_introl eq_refl))))))) (conj (I t (or_introl eq_refl)) eq_refl)). reflexivity. }
  apply G. intros t I. apply filter_In in I. tauto.
Qed.
Print Assumptions C122_by_block.

Lemma by_text_spec : forall l k t, history l -> (by_text (run l) k = Some t <-> In t (txs l) /\ udec (x_nonce t) = k).
Proof.
  intros l k t Hy. split.
  - intro E. assert (exists n, 0 <= n /\ k = udec n) as (n & P & ->).
    { destruct (run_tells l Hy) as (_ & T & _ & _ & _ & _ & _ & X). destruct (kget (run l) (tx_key k)) eqn:K; [|unfold by_text in E; rewrite K in E; discriminate].
      destruct (in_dec (list_eq_dec N.eq_dec) k (map (fun t => udec (x_nonce t)) (txs l))) as [I|I].
      - apply in_map_iff in I as (t' & <- & I). exists (x_nonce t'). split; [apply (proper_in l t' Hy I)|reflexivity].
      - rewrite X in K; [discriminate|]. intros n P ->. destruct (T n v P) as (T1 & _). destruct (T1 K) as (t' & I' & <- & _). apply I. apply in_map_iff. eauto. }
    apply (C122_by_number l n t Hy P) in E as (I & <-). auto.
  - intros (I & <-). apply (C122_by_number l (x_nonce t) t Hy); [apply (proper_in l t Hy I)|auto].
Qed.

(* what is listed under a task: a transaction whose number, written after the task's, reads like
   the two numbers of some transaction written one after the other *)
Theorem C122_listed_exactly : forall l a t, history l ->
  (In t (txs_of (run l) a) <-> In t (txs l) /\ exists t', In t' (txs l) /\ udec (x_cron t') ++ udec (x_nonce t') = udec a ++ udec (x_nonce t)).
Proof.
  intros l a t Hy. unfold txs_of. rewrite in_found. destruct (run_tells l Hy) as (So & _ & _ & _ & M & _). split.
  - intros (k & I & E). apply (by_text_spec l k t Hy) in E as (It & <-). apply (in_under _ _ _ So) in I. split; [exact It|].
    change (nid_key (udec a) ++ udec (x_nonce t)) with (nid_key (udec a ++ udec (x_nonce t))) in I. apply M in I as (t' & I' & E'). exists t'. auto.
  - intros (It & t' & I' & E'). exists (udec (x_nonce t)). split; [|apply by_text_spec; auto]. apply (in_under _ _ _ So).
    change (nid_key (udec a) ++ udec (x_nonce t)) with (nid_key (udec a ++ udec (x_nonce t))). apply M. exists t'. auto.
Qed.
Print Assumptions C122_listed_exactly.

(* no transaction is missing from the list of its task *)
Theorem C122_own_listed : forall l t, history l -> In t (txs l) -> In t (txs_of (run l) (x_cron t)).
Proof. intros l t Hy I. apply C122_listed_exactly; [exact Hy|]. split; [exact I|]. exists t. auto. Qed.
Print Assumptions C122_own_listed.

Lemma app_same : forall (a b c d : bytes), length a = length b -> a ++ c = b ++ d -> a = b /\ c = d.
Proof. induction a as [|x a IH]; intros [|y b] c d L E; try discriminate; [auto|]. cbn in *. inversion E. destruct (IH b c d) as (-> & ->); auto. Qed.

(* while all tasks have numbers of one length, a task's list has its transactions only *)
Theorem C122_listed_same_length_partial : forall l a t k, history l -> 0 <= a -> length (udec a) = k -> (forall t', In t' (txs l) -> length (udec (x_cron t')) = k) ->
  (In t (txs_of (run l) a) <-> In t (txs l) /\ x_cron t = a).
Proof.
  intros l a t k Hy P La Lc. split.
  - intro I. apply (C122_listed_exactly l a t Hy) in I as (I & t' & I' & E). apply app_same in E as (E1 & E2); [|rewrite (Lc t' I'); auto].
    pose proof (proper_in l t Hy I) as (Pn & _). pose proof (proper_in l t' Hy I') as (Pn' & Pc' & _). apply udec_inj in E1; [|assumption..]. apply udec_inj in E2; [|assumption..].
    rewrite (nonce_once l t' t) in E1; auto.
  - intros (I & <-). apply C122_own_listed; assumption.
Qed.
Print Assumptions C122_listed_same_length_partial.

Lemma under_nodup : forall s p, ksorted s -> NoDup (under s p).
Proof.
  intros s p So. unfold under. induction s as [|(q & v) s IH]; [constructor|]. pose proof So as So'. unfold ksorted in So'. inversion So' as [|? ? So2 Fo]; subst. cbn [filter fst].
  destruct (has_prefix p q) eqn:E; [|apply IH; exact So2]. cbn [map fst]. constructor; [|apply IH; exact So2]. intro I. apply in_map_iff in I as ((q' & v') & Eq & I).
  apply filter_In in I as (I & P). cbn [fst] in *. apply has_prefix_spec in E. apply has_prefix_spec in P. rewrite Eq, <- E in P. subst q'.
  rewrite Forall_forall in Fo. specialize (Fo _ I). exact (blt_neq q q Fo eq_refl).
Qed.
Lemma found_nodup : forall A B (f : A -> option B) l, NoDup l -> (forall a a' b, f a = Some b -> f a' = Some b -> a = a') -> NoDup (found f l).
Proof.
  intros A B f l N J. induction N as [|a l Na N IH]; [constructor|]. unfold found in *. cbn [flat_map]. destruct (f a) as [b|] eqn:E; [|exact IH]. cbn. constructor; [|exact IH].
  intro I. apply (in_found A B f l b) in I as (a' & I & E'). rewrite (J a a' b E E') in Na. contradiction.
Qed.
(* nothing is listed twice, whether under a task or among all *)
Theorem C122_listed_once : forall l a, history l -> NoDup (txs_of (run l) a) /\ NoDup (all_txs (run l)).
Proof.
  intros l a Hy. destruct (run_tells l Hy) as (So & _). split; (apply found_nodup; [apply under_nodup; exact So|]); intros k k' t E E';
    apply (by_text_spec l _ _ Hy) in E as (_ & <-); apply (by_text_spec l _ _ Hy) in E' as (_ & <-); reflexivity.
Qed.
Print Assumptions C122_listed_once.

(* the list of all has every transaction and nothing else *)
Theorem C122_all : forall l t, history l -> (In t (all_txs (run l)) <-> In t (txs l)).
Proof.
  intros l t Hy. unfold all_txs. rewrite in_found. destruct (run_tells l Hy) as (So & T & _). split.
  - intros (k & _ & E). apply (by_text_spec l k t Hy) in E. tauto.
  - intro I. exists (udec (x_nonce t)). split; [|apply by_text_spec; auto]. apply (in_under _ _ _ So). change (tx_key [] ++ udec (x_nonce t)) with (tx_key (udec (x_nonce t))).
    intro N. rewrite (proj2 (T (x_nonce t) (VTx t) (proj1 (proper_in l t Hy I)))) in N; [discriminate|]. exists t. auto.
Qed.
Print Assumptions C122_all.

(* the tasks found in the archive are those put there *)
Theorem C122_archived : forall l id, history l -> 0 <= id -> (archived (run l) id = true <-> In (Archive id) l).
Proof.
  intros l id Hy P. destruct (run_tells l Hy) as (_ & _ & _ & _ & _ & _ & C & _). unfold archived. destruct (kget (run l) (udec id)) as [v|] eqn:E.
  - pose proof (proj1 (C id v P) E) as (I & ->). split; auto.
  - split; [discriminate|]. intro I. rewrite (proj2 (C id (VCron id) P) (conj I eq_refl)) in E. discriminate.
Qed.
Print Assumptions C122_archived.

(* the list of a task's receipts is empty whatever it did *)
Theorem C122_receipts_refuted : forall l a, history l -> receipts_of (run l) a = [].
Proof.
  intros l a Hy. destruct (run_tells l Hy) as (So & _ & _ & _ & _ & R & _). unfold receipts_of. destruct (under (run l) (r_key (udec a))) as [|k q] eqn:E; [reflexivity|].
  assert (In k (under (run l) (r_key (udec a)))) as I by (rewrite E; left; reflexivity). apply (in_under _ _ _ So) in I. destruct I. apply (R (udec a ++ k)).
Qed.
Print Assumptions C122_receipts_refuted.

Definition h_of (n : Z) : bytes := (48 :: 120 :: udec n)%N.
Lemma history_ex : forall q : list Z, NoDup q -> (forall n, In n q -> 0 <= n) -> forall c b, (forall n, 0 <= c n) -> 0 <= b -> history (map (fun n => Put (mk_tx n (c n) (h_of n) b)) q).
Proof.
  intros q N P c b Pc Pb. assert (txs (map (fun n => Put (mk_tx n (c n) (h_of n) b)) q) = map (fun n => mk_tx n (c n) (h_of n) b) q) as E.
  { clear. induction q as [|n q IH]; [reflexivity|]. cbn. rewrite IH. reflexivity. }
  unfold history. rewrite E, !map_map. cbn [x_nonce x_hash]. repeat match goal with |- _ /\ _ => split end.
  - apply Forall_forall. intros t I. apply in_map_iff in I as (n & <- & I). repeat split; cbn; auto. exists (udec n). reflexivity.
  - rewrite map_id. exact N.
  - clear E. induction N as [|n q Nn N IH]; [constructor|]. cbn [map]. constructor; [|apply IH; intros; apply P; right; assumption]. intro I. apply in_map_iff in I as (m & Em & I).
    unfold h_of in Em. assert (udec m = udec n) as Eu by congruence. apply udec_inj in Eu; [subst; contradiction|apply P; right; exact I|apply P; left; reflexivity].
  - intros id I. apply in_map_iff in I as (n & Q & _). discriminate.
Qed.

(* another task's transaction is listed: task 12 did number 3, task 5 did number 23; asked for
   task 1, the answer is number 23 *)
Theorem C122_others_listed_refuted : exists l t, history l /\ In t (txs_of (run l) 1) /\ x_cron t = 5 /\ forall t', In t' (txs l) -> x_cron t' <> 1.
Proof.
  exists (map (fun n => Put (mk_tx n (if n =? 3 then 12 else 5) (h_of n) 40000)) [3; 23]), (mk_tx 23 5 (h_of 23) 40000). split; [|split; [|split; [reflexivity|]]].
  - apply (history_ex [3; 23]); [repeat constructor; cbn; lia|cbn; lia|intro n; destruct (n =? 3); lia|lia].
  - vm_compute. auto.
  - cbn. intros t' [<-|[<-|[]]]; cbn; lia.
Qed.
Print Assumptions C122_others_listed_refuted.

(* lists are in the order of the text of the numbers: the tenth before the ninth *)
Theorem C122_order_refuted : exists l, history l /\ map x_nonce (txs l) = [9; 10] /\ map x_nonce (all_txs (run l)) = [10; 9] /\ map x_nonce (txs_of (run l) 7) = [10; 9].
Proof.
  exists (map (fun n => Put (mk_tx n 7 (h_of n) 40000)) [9; 10]). split; [|vm_compute; auto]. apply (history_ex [9; 10]); [repeat constructor; cbn; lia|cbn; lia|lia|lia].
Qed.
Print Assumptions C122_order_refuted.

(* the transactions of a block after the hundredth are not given *)
Theorem C122_block_cut_refuted : exists l t, history l /\ In t (txs l) /\ x_block t = 40000 /\ ~ In t (by_block (run l) 40000).
Proof.
  set (q := map Z.of_nat (seq 0 101)). exists (map (fun n => Put (mk_tx n 7 (h_of n) 40000)) q), (mk_tx 100 7 (h_of 100) 40000).
  assert (history (map (fun n => Put (mk_tx n 7 (h_of n) 40000)) q)) as Hy.
  { apply (history_ex q); [|intros n I; apply in_map_iff in I as (m & <- & _); lia|lia|lia]. apply Injective_map_NoDup; [intros x y E; lia|apply seq_NoDup]. }
  split; [exact Hy|]. split; [|split; [reflexivity|]].
  - assert (nth_error (txs (map (fun n => Put (mk_tx n 7 (h_of n) 40000)) q)) 100 = Some (mk_tx 100 7 (h_of 100) 40000)) as E by (vm_compute; reflexivity). apply nth_error_In in E. exact E.
  - rewrite C122_by_block; [|exact Hy|lia]. intro I. apply (in_map x_nonce) in I. cbn [x_nonce] in I.
    assert (existsb (Z.eqb 100) (map x_nonce (firstn 100 (filter (fun t => x_block t =? 40000) (txs (map (fun n => Put (mk_tx n 7 (h_of n) 40000)) q))))) = false) as E by (vm_compute; reflexivity).
    assert (existsb (Z.eqb 100) (map x_nonce (firstn 100 (filter (fun t => x_block t =? 40000) (txs (map (fun n => Put (mk_tx n 7 (h_of n) 40000)) q))))) = true) as E' by (apply existsb_exists; exists 100; split; [exact I|reflexivity]).
    congruence.
Qed.
Print Assumptions C122_block_cut_refuted.

(* a history of two tasks, one of them archived *)
Definition ex_l : list op := [Put (mk_tx 0 1 (h_of 0) 40000); Put (mk_tx 1 2 (h_of 1) 40000); Archive 1; Put (mk_tx 2 2 (h_of 2) 40001)].
Example ex_history : history ex_l.
Proof.
  unfold history. cbn. repeat match goal with |- _ /\ _ => split end.
  - repeat constructor; cbn; try lia; eexists; reflexivity.
  - repeat constructor; cbn; lia.
  - repeat constructor; cbn; intuition discriminate.
  - intros id [Q|[Q|[Q|[Q|[]]]]]; try discriminate. inversion Q. lia.
Qed.
Example ex_reads : map x_nonce (txs_of (run ex_l) 2) = [1; 2] /\ map x_nonce (by_block (run ex_l) 40000) = [0; 1] /\ archived (run ex_l) 1 = true /\ archived (run ex_l) 2 = false /\
  option_map x_nonce (by_hash (run ex_l) (h_of 2)) = Some 2 /\ receipts_of (run ex_l) 2 = [].
Proof. vm_compute. repeat split. Qed.
