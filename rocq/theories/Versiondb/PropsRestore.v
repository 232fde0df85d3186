From Coq Require Import Sorting.Sorted.
From Verif Require Import Lib.Base Lib.Bytes Lib.Codec Versiondb.Model Versiondb.Spec Versiondb.PropsReads Versiondb.Restore.
From Verif Require Memiavl.Model Memiavl.Spec Memiavl.TreeProofs Memiavl.Proofs Memiavl.SnapshotModel Memiavl.SnapshotSpec Memiavl.SnapshotProofs.
Import Memiavl.Model(node, Leaf, Branch).
Import Memiavl.Spec(leaves, keys_exact).
Import Memiavl.SnapshotSpec(post_order).
Import Memiavl.SnapshotModel(enode, enode_of).
Open Scope Z_scope.

(* ---- the last write of a list of nodes ---- *)
Definition node_val (n : node) : bytes := match n with Leaf _ v _ => v | Branch _ _ _ _ _ _ => [] end.
Definition wr (l : list node) (o : option bytes) (k : bytes) : option bytes :=
  fold_left (fun o x => if beqb k (Memiavl.Model.nkey x) then Some (node_val x) else o) l o.
(* the value of the first key is kept, all others are emptied *)
Definition first_only (ls : list (bytes * bytes)) (k : bytes) : option bytes :=
  match ls with
  | [] => None
  | (k0, v0) :: r => if beqb k k0 then Some v0 else if existsb (fun x => beqb k (fst x)) r then Some [] else None
  end.
Lemma wr_app a b o k : wr (a ++ b) o k = wr b (wr a o k) k.
Proof. apply fold_left_app. Qed.
Lemma wr_init l : forall o k, wr l o k = match wr l None k with Some v => Some v | None => o end.
Proof.
  induction l as [|x l IH]; intros o k; [reflexivity|]. unfold wr. cbn [fold_left]. fold (wr l (if beqb k (Memiavl.Model.nkey x) then Some (node_val x) else o) k). fold (wr l (if beqb k (Memiavl.Model.nkey x) then Some (node_val x) else None) k).
  rewrite IH, (IH (if beqb k (Memiavl.Model.nkey x) then Some (node_val x) else None)). destruct (wr l None k); [reflexivity|]. destruct (beqb k _); reflexivity.
Qed.
Lemma beqb_false a b : a <> b -> beqb a b = false.
Proof. intros H. destruct (beqb a b) eqn:E; [apply beqb_spec in E; contradiction|reflexivity]. Qed.
Lemma beqb_same a : beqb a a = true.
Proof. apply beqb_spec. reflexivity. Qed.
Lemma leaves_nonempty n : leaves n <> [].
Proof. induction n as [|k h s v l IHl r IHr]; cbn [leaves]; [discriminate|]. destruct (leaves l); [congruence|discriminate]. Qed.
Lemma blt_ne a b : blt a b -> a <> b.
Proof. intros H ->. exact (blt_irrefl _ H). Qed.
Lemma post_last n : keys_exact n -> forall k, wr (post_order n) None k = first_only (leaves n) k.
Proof.
  induction n as [k0 v0 ver|k0 h s ver l IHl r IHr]; intros K k.
  - cbn. destruct (beqb k k0); reflexivity.
  - pose proof (Memiavl.TreeProofs.keys_sorted _ K) as So. cbn [keys_exact] in K. destruct K as (Kl & Kr & (v & tl & Er) & Hlt). cbn [post_order leaves] in *. rewrite !wr_app. rewrite (wr_init (post_order r)), (IHl Kl), (IHr Kr).
    assert (W1 : forall o, wr [Branch k0 h s ver l r] o k = if beqb k k0 then Some [] else o) by reflexivity. rewrite W1. clear W1.
    rewrite Er in *. pose proof (leaves_nonempty l) as Nl. destruct (leaves l) as [|[a w] tll] eqn:El; [congruence|].
    assert (Ak : blt a k0) by (apply (Hlt a w); left; reflexivity).
    cbn [app first_only]. rewrite existsb_app. cbn [existsb fst].
    destruct (beqb k k0) eqn:B.
    + apply beqb_spec in B. subst k. rewrite (beqb_false k0 a) by (intros E; subst a; exact (blt_irrefl _ Ak)). rewrite orb_true_r. reflexivity.
    + cbn [orb]. destruct (existsb (fun x => beqb k (fst x)) tl) eqn:X.
      * apply existsb_exists in X. destruct X as ([y u] & Iy & Ey). apply beqb_spec in Ey. cbn [fst] in Ey. subst y.
        rewrite (beqb_false k a); [rewrite orb_true_r; reflexivity|]. intros ->. cbn [app] in So. inversion So as [|? ? _ F]; subst. rewrite Forall_forall in F.
        specialize (F (a, u)). assert (Hin : In (a, u) (tll ++ (k0, v) :: tl)) by (apply in_or_app; right; right; exact Iy). specialize (F Hin). unfold Memiavl.Spec.key_lt in F. cbn [fst] in F. exact (blt_irrefl _ F).
      * rewrite orb_false_r. reflexivity.
Qed.

Lemma lists_unique : forall a b m, Memiavl.Spec.lists a m -> Memiavl.Spec.lists b m -> a = b.
Proof.
  intros a b m [Sa Ia] [Sb Ib]. assert (E : forall x, In x a <-> In x b) by (intros [k v]; rewrite Ia, Ib; reflexivity). clear m Ia Ib. revert b Sb E.
  induction Sa as [|x a Sa IH Fa]; intros b Sb E.
  - destruct b as [|y b]; [reflexivity|]. destruct (proj2 (E y) (or_introl eq_refl)).
  - destruct Sb as [|y b Sb Fb]; [destruct (proj1 (E x) (or_introl eq_refl))|]. rewrite Forall_forall in Fa, Fb.
    assert (x = y) as <-.
    { destruct (proj1 (E x) (or_introl eq_refl)) as [H|H]; [auto|]. destruct (proj2 (E y) (or_introl eq_refl)) as [K|K]; [exact K|]. destruct (blt_irrefl _ (blt_trans _ _ _ (Fa y K) (Fb x H))). }
    f_equal. apply IH; [exact Sb|]. intros z. split; intros H.
    + destruct (proj1 (E z) (or_intror H)) as [<-|K]; [destruct (blt_irrefl _ (Fa x H))|exact K].
    + destruct (proj2 (E z) (or_intror H)) as [<-|K]; [destruct (blt_irrefl _ (Fb x H))|exact K].
Qed.

(* ---- the entries ---- *)
Definition entries_of (s : bytes * list enode) : list (bytes * bytes * bytes) :=
  map (fun e => (fst s, Memiavl.SnapshotModel.e_key e, match Memiavl.SnapshotModel.e_value e with Some v => v | None => [] end)) (snd s).
Definition stores_ok (stores : list (bytes * list enode)) : Prop :=
  Forall (fun s => fst s <> [] /\ plain_name (fst s) /\ Forall (fun e => Memiavl.SnapshotModel.e_height e <= 127) (snd s)) stores.
Lemma read_store name es rest : name <> [] -> Forall (fun e => Memiavl.SnapshotModel.e_height e <= 127) es ->
  read_entries name (map SNode es ++ rest) = entries_of (name, es) ++ read_entries name rest.
Proof.
  intros N F. induction F as [|e es He F IH]; [reflexivity|]. cbn [map app read_entries]. destruct name as [|x name]; [congruence|]. destruct (Z.ltb_spec 127 (Memiavl.SnapshotModel.e_height e)); [lia|]. rewrite IH. reflexivity.
Qed.
Lemma read_all stores : stores_ok stores -> forall n, read_entries n (snapshot_items stores) = flat_map entries_of stores.
Proof.
  induction 1 as [|[n es] r (N & _ & F) S IH]; intros m; [reflexivity|]. unfold snapshot_items. cbn [flat_map fst snd app read_entries]. fold (snapshot_items r). rewrite read_store by assumption. rewrite IH. reflexivity.
Qed.

(* what the entries give: the last one of a store and key counts *)
Lemma change_same n k l c : fold_left change (map (fun x : bytes * bytes * bytes => mk_pair (fst (fst x)) (snd (fst x)) (Some (snd x))) l) c n k =
  fold_left (fun o (x : bytes * bytes * bytes) => if beqb n (fst (fst x)) && beqb k (snd (fst x)) then Some (snd x) else o) l (c n k).
Proof. revert c. induction l as [|x l IH]; intros c; [reflexivity|]. cbn [map fold_left]. rewrite IH. reflexivity. Qed.

Definition pick (n k : bytes) (o : option bytes) (x : bytes * bytes * bytes) : option bytes := if beqb n (fst (fst x)) && beqb k (snd (fst x)) then Some (snd x) else o.
Lemma pick_store n k m nodes : forall o, fold_left (pick n k) (entries_of (m, map enode_of nodes)) o = if beqb n m then wr nodes o k else o.
Proof.
  induction nodes as [|x l IH]; intros o; [destruct (beqb n m); reflexivity|]. unfold entries_of in *. cbn [map snd fst fold_left] in *. rewrite IH. unfold pick. cbn [fst snd].
  destruct (beqb n m); [|reflexivity]. cbn [andb]. unfold wr. cbn [fold_left]. destruct x; reflexivity.
Qed.
Lemma pick_others n k stores : ~ In n (map fst stores) -> forall o, fold_left (pick n k) (flat_map entries_of (map (fun s => (fst s, map enode_of (snd s))) stores)) o = o.
Proof.
  induction stores as [|[m l] r IH]; intros H o; [reflexivity|]. cbn [map flat_map fst snd] in *. rewrite fold_left_app, pick_store, beqb_false by (intros ->; apply H; left; reflexivity). apply IH. intros K. apply H. right. exact K.
Qed.
Lemma pick_all n k stores : NoDup (map fst stores) -> fold_left (pick n k) (flat_map entries_of (map (fun s => (fst s, map enode_of (snd s))) stores)) None =
  match find (fun s => beqb n (fst s)) stores with Some s => wr (snd s) None k | None => None end.
Proof.
  induction stores as [|[m l] r IH]; intros D; [reflexivity|]. cbn [map] in D. inversion D as [|? ? D1 D2]; subst. cbn [map flat_map fst snd find] in *. rewrite fold_left_app, pick_store. destruct (beqb n m) eqn:B.
  - apply beqb_spec in B. subst m. apply pick_others. exact D1.
  - apply IH. exact D2.
Qed.

(* the stores of a node: name and tree *)
Notation stores := (list (bytes * Memiavl.Model.tree)) (only parsing).
Definition exported (ts : stores) : list (bytes * list enode) :=
  map (fun s => (fst s, match Memiavl.SnapshotModel.export_tree (snd s) with Some es => es | None => [] end)) ts.
Definition nodes_of (t : Memiavl.Model.tree) : list node := Memiavl.SnapshotSpec.root_post (Memiavl.Model.t_root t).

(* The database after a restore: of each store every key of the tree, no other; the smallest
   key has its value, all others are empty. *)
Theorem C76_restored_contents_partial : forall (ts : stores) (hist : bytes -> list Memiavl.Model.op) h n k,
  NoDup (map fst ts) ->
  (forall name t, In (name, t) ts -> exists version cached, Memiavl.Model.run (Memiavl.Model.new_empty_tree version cached) (hist name) = Some t) ->
  stores_ok (exported ts) -> plain_name n -> 0 < h < 2 ^ 63 ->
  let s := restore empty h (snapshot_items (exported ts)) in
  latest s = h /\
  (~ In n (map fst ts) -> get_at true s n k (Some h) = None) /\
  (In n (map fst ts) -> forall l, Memiavl.Spec.lists l (Memiavl.Spec.history_map (hist n)) -> get_at true s n k (Some h) = first_only l k) /\
  (forall h', 0 <= h' < h -> get_at true s n k (Some h') = None).
Proof.
  intros ts hist h n k D Hr Ok P Hh s.
  assert (Ex : exported ts = map (fun x => (fst x, map enode_of (snd x))) (map (fun x => (fst x, nodes_of (snd x))) ts)).
  { unfold exported. rewrite map_map. apply map_ext. intros [m t]. cbn [fst snd]. rewrite (Memiavl.SnapshotProofs.export_tree_ok (fun _ => repeat 0%N 32)) by (intros; reflexivity). reflexivity. }
  set (es := flat_map entries_of (exported ts)).
  assert (Es : s = feed_blocks empty [(h, snapshot_pairs es)]).
  { unfold s, restore. rewrite read_all by exact Ok. fold es. apply (proj1 (C71_import [] h es 0)). }
  assert (H1 : heights_ok [(h, snapshot_pairs es)]) by (split; [repeat constructor|repeat constructor; cbn; lia]).
  assert (H2 : names_ok [(h, snapshot_pairs es)]).
  { repeat constructor. cbn [snd]. unfold snapshot_pairs, es. apply Forall_forall. intros p Ip. apply in_map_iff in Ip. destruct Ip as (x & <- & Ix). apply in_flat_map in Ix. destruct Ix as (y & Iy & Ix). unfold entries_of in Ix. apply in_map_iff in Ix. destruct Ix as (e & <- & _). cbn.
    unfold stores_ok in Ok. rewrite Forall_forall in Ok. apply (Ok y Iy). }
  assert (H3 : true = true -> Forall (fun b : Z * list pair => fst b <> 0) [(h, snapshot_pairs es)]) by (intros _; repeat constructor; cbn; lia).
  assert (G : get_at true s n k (Some h) = match find (fun x => beqb n (fst x)) (map (fun x => (fst x, nodes_of (snd x))) ts) with Some x => wr (snd x) None k | None => None end).
  { rewrite Es. destruct (C71_reads [(h, snapshot_pairs es)] true n k h H1 H2 P H3 ltac:(lia)) as (E & _). rewrite E. unfold at_height. cbn [filter fst]. rewrite Z.leb_refl. unfold after. cbn [fold_left execute]. unfold execute. cbn [snd]. unfold snapshot_pairs.
    rewrite change_same. change (nothing n k) with (@None bytes). unfold es. rewrite Ex. fold (pick n k). apply pick_all. rewrite map_map. exact D. }
  split; [rewrite Es, C71_latest by exact H1; reflexivity|]. split; [|split].
  - intros Hn. rewrite G. destruct (find _ _) as [x|] eqn:F; [|reflexivity]. apply find_some in F. destruct F as [I E]. apply beqb_spec in E. destruct Hn. subst n. apply in_map_iff in I. destruct I as (y & <- & I). cbn [fst]. apply in_map. exact I.
  - intros Hn l Hl. rewrite G. destruct (find _ _) as [x|] eqn:F.
    + apply find_some in F. destruct F as [I E]. apply beqb_spec in E. subst n. apply in_map_iff in I. destruct I as ([m t] & <- & I). cbn [fst snd] in *. destruct (Hr m t I) as (ver & cached & R). apply Memiavl.Proofs.run_empty in R.
      pose proof (Memiavl.Proofs.inv_lists _ _ R) as L.
      assert (El : l = Memiavl.Spec.root_leaves (Memiavl.Model.t_root t)) by (eapply lists_unique; eassumption). subst l.
      unfold nodes_of. destruct R as (A & _). destruct (Memiavl.Model.t_root t) as [nd|]; [|reflexivity]. cbn [Memiavl.SnapshotSpec.root_post Memiavl.Spec.root_leaves]. apply post_last. apply A.
    + exfalso. apply in_map_iff in Hn. destruct Hn as ([m t] & <- & I). assert (Im : In (m, nodes_of t) (map (fun x => (fst x, nodes_of (snd x))) ts)) by (apply in_map_iff; exists (m, t); auto). pose proof (find_none _ _ F (m, nodes_of t) Im) as Q. cbn [fst] in Q. rewrite beqb_same in Q. discriminate Q.
  - intros h' H'. rewrite Es. destruct (C71_reads [(h, snapshot_pairs es)] true n k h' H1 H2 P H3 ltac:(lia)) as (E & _). rewrite E. unfold at_height. cbn [filter fst]. destruct (Z.leb_spec h h'); [lia|]. reflexivity.
Qed.
Print Assumptions C76_restored_contents_partial.

(* What was promised: reads at the height of the snapshot give the state of the snapshot. *)
Definition two_keys : list Memiavl.Model.op := [Memiavl.Model.OpSet [1]%N (Some [11]%N); Memiavl.Model.OpSet [2]%N (Some [22]%N)].
Definition two_tree : Memiavl.Model.tree :=
  match Memiavl.Model.run (Memiavl.Model.new_empty_tree 0 false) two_keys with Some t => t | None => Memiavl.Model.new_empty_tree 0 false end.
Theorem C76_restore_refuted : exists ops t n k v h,
  Memiavl.Model.run (Memiavl.Model.new_empty_tree 0 false) ops = Some t /\ Memiavl.Spec.history_map ops k = Some v /\
  get_at true (restore empty h (snapshot_items (exported [(n, t)]))) n k (Some h) = Some [] /\ v <> [].
Proof.
  exists two_keys, two_tree, [98]%N, [2]%N, [22]%N, 5. split; [reflexivity|]. split; [reflexivity|]. split; [vm_compute; reflexivity|discriminate].
Qed.
Print Assumptions C76_restore_refuted.
(* every store with two keys or more is concerned: for every key but the smallest a value that
   is not empty is lost *)
Theorem C76_all_but_first_lost_refuted : forall t n ops h k v l,
  (exists version cached, Memiavl.Model.run (Memiavl.Model.new_empty_tree version cached) ops = Some t) ->
  stores_ok (exported [(n, t)]) -> 0 < h < 2 ^ 63 ->
  Memiavl.Spec.lists l (Memiavl.Spec.history_map ops) -> In (k, v) (tl l) ->
  get_at true (restore empty h (snapshot_items (exported [(n, t)]))) n k (Some h) = Some [].
Proof.
  intros t n ops h k v l R Ok Hh L I.
  assert (P : plain_name n) by (unfold stores_ok, exported in Ok; cbn [map] in Ok; apply Forall_inv in Ok; apply Ok).
  destruct (C76_restored_contents_partial [(n, t)] (fun _ => ops) h n k) as (_ & _ & G & _); [repeat constructor; intros []|intros m u [E|[]]; injection E as <- <-; exact R|exact Ok|exact P|exact Hh|].
  rewrite (G (or_introl eq_refl) l L). destruct L as [So _]. destruct l as [|[k0 v0] r]; [destruct I|]. cbn [tl] in I. cbn [first_only]. inversion So as [|? ? _ F]; subst. rewrite Forall_forall in F. specialize (F (k, v) I). unfold Memiavl.Spec.key_lt in F. cbn [fst] in F.
  rewrite beqb_false by (intros ->; exact (blt_irrefl _ F)). replace (existsb _ r) with true; [reflexivity|]. symmetry. apply existsb_exists. exists (k, v). split; [exact I|apply beqb_same].
Qed.
Print Assumptions C76_all_but_first_lost_refuted.

(* A snapshot that cannot be read to its end is imported as far as it goes, and the height
   recorded as complete. *)
Theorem C76_broken_stream_refuted : exists items n k h,
  latest (restore empty h (items ++ [SBroken])) = h /\ get_at true (restore empty h (items ++ [SBroken] ++ snapshot_items (exported [(n, two_tree)]))) n k (Some h) = None /\
  get_at true (restore empty h (items ++ snapshot_items (exported [(n, two_tree)]))) n k (Some h) <> None.
Proof. exists [], [98]%N, [1]%N, 5. split; [vm_compute; reflexivity|]. split; [vm_compute; reflexivity|vm_compute; discriminate]. Qed.
Print Assumptions C76_broken_stream_refuted.

Example C76_case : stores_ok (exported [([98]%N, two_tree)]) /\
  map (fun k => get_at true (restore empty 5 (snapshot_items (exported [([98]%N, two_tree)]))) [98]%N [k] (Some 5)) [1; 2; 3]%N = [Some [11]; Some []; None]%N.
Proof. split; [|vm_compute; reflexivity]. repeat constructor; cbn; try discriminate. intros [E|[]]. discriminate E. Qed.
