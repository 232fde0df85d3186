(* C71: reads of historical states. *)
From Coq Require Import Sorting.Sorted.
From Verif Require Import Lib.Base Lib.Bytes Lib.Codec Versiondb.Model Versiondb.Spec Versiondb.Proofs Versiondb.History.
Open Scope Z_scope.

(* A read at a height answers with the contents after exactly the blocks up to that height,
   whatever came later and in between; a read without a height answers with the contents
   after the last block.  Has agrees with Get. *)
Theorem C71_reads : forall bs skip n k h, heights_ok bs -> names_ok bs -> plain_name n ->
  (skip = true -> Forall (fun b => fst b <> 0) bs) -> 0 <= h < 2 ^ 63 ->
  let s := feed_blocks empty bs in
  get_at skip s n k (Some h) = at_height bs h n k /\
  get_at skip s n k None = after bs n k /\
  (has_at skip s n k (Some h) = true <-> at_height bs h n k <> None) /\
  (has_at skip s n k None = true <-> after bs n k <> None).
Proof.
  intros bs skip n k h H N P Z B s. unfold has_at.
  assert (A : get_at skip s n k (Some h) = at_height bs h n k). { apply (get_height bs skip n k (Some h)); auto. intros v E. injection E as <-. exact B. }
  assert (A' : get_at skip s n k None = after bs n k). { apply (get_height bs skip n k None); auto. intros v E. discriminate E. }
  rewrite A, A'. repeat split; try (destruct (at_height bs h n k); intuition congruence); try (destruct (after bs n k); intuition congruence).
Qed.
Print Assumptions C71_reads.

(* Later blocks never change what was answered for an earlier height. *)
Theorem C71_later_blocks : forall bs cs skip n k h, heights_ok (bs ++ cs) -> names_ok (bs ++ cs) -> plain_name n ->
  (skip = true -> Forall (fun b => fst b <> 0) (bs ++ cs)) -> 0 <= h < 2 ^ 63 -> Forall (fun b => h < fst b) cs ->
  get_at skip (feed_blocks empty (bs ++ cs)) n k (Some h) = get_at skip (feed_blocks empty bs) n k (Some h).
Proof.
  intros bs cs skip n k h H N P Z B L.
  assert (V : forall v, Some h = Some v -> 0 <= v < 2 ^ 63) by (intros v E; injection E as <-; exact B).
  rewrite (get_height (bs ++ cs) skip n k (Some h)) by auto.
  assert (H1 : heights_ok bs). { destruct H as [S F]. apply Forall_app in F. split; [|apply F]. clear -S. induction bs as [|b r IH]; [constructor|]. inversion S as [|? ? S' F]; subst. constructor; [auto|]. apply Forall_app in F. apply F. }
  rewrite (get_height bs skip n k (Some h)); auto.
  - cbn. unfold at_height. rewrite filter_app'. assert (filter (fun b => fst b <=? h) cs = []) as ->.
    { clear -L. induction L as [|b r Hb L IH]; [reflexivity|]. cbn. destruct (Z.leb_spec (fst b) h); [lia|exact IH]. }
    rewrite app_nil_r. reflexivity.
  - unfold names_ok in N. apply Forall_app in N. apply N.
  - intros E. specialize (Z E). apply Forall_app in Z. apply Z.
Qed.
Print Assumptions C71_later_blocks.

(* The latest version is the height of the last block, 0 before the first. *)
Theorem C71_latest : forall bs, heights_ok bs -> latest (feed_blocks empty bs) = last (map fst bs) 0.
Proof.
  intros bs [S F]. induction bs as [|b bs IH] using rev_ind; [reflexivity|]. rewrite feed_blocks_app, map_app. cbn [map]. rewrite last_last.
  cbn [feed_blocks fold_left put_at]. unfold latest. cbn [s_latest put_at]. apply Forall_app in F. destruct F as [_ F]. apply Forall_inv in F.
  rewrite u64_small by exact F. unfold i64. destruct (Z.ltb_spec (fst b) (2 ^ 63)); lia.
Qed.
Print Assumptions C71_latest.

(* Executing the last blocks once more, as a node does after a crash, leaves the store as it
   was. *)
Theorem C71_replay : forall bs cs, feed_blocks (feed_blocks empty (bs ++ cs)) cs = feed_blocks empty (bs ++ cs).
Proof.
  intros bs cs. rewrite feed_blocks_app.
  assert (A : s_db (feed_blocks (feed_blocks (feed_blocks empty bs) cs) cs) = s_db (feed_blocks (feed_blocks empty bs) cs)).
  { rewrite (feed_blocks_db cs (feed_blocks (feed_blocks empty bs) cs)), (feed_blocks_db cs (feed_blocks empty bs)). apply puts_twice; [apply feed_ok, db_ok_nil|apply all_entries_ok]. }
  assert (B : s_latest (feed_blocks (feed_blocks (feed_blocks empty bs) cs) cs) = s_latest (feed_blocks (feed_blocks empty bs) cs)).
  { destruct cs as [|c cs _] using rev_ind; [reflexivity|]. rewrite !feed_blocks_app. reflexivity. }
  destruct (feed_blocks (feed_blocks (feed_blocks empty bs) cs) cs), (feed_blocks (feed_blocks empty bs) cs). cbn in *. congruence.
Qed.
Print Assumptions C71_replay.

(* A snapshot import is one block writing all its entries; stopped after any number of
   batches and started again, it ends in the same store. *)
Definition snapshot_pairs (es : list (bytes * bytes * bytes)) : list pair := map (fun x => mk_pair (fst (fst x)) (snd (fst x)) (Some (snd x))) es.
Theorem C71_import : forall bs v es b, let s := feed_blocks empty bs in
  import s v es = put_at s v (snapshot_pairs es) /\
  import (import_interrupted s v es b) v es = import s v es /\
  latest (import_interrupted s v es b) = latest s.
Proof.
  intros bs v es b s.
  assert (A : forall s es, import s v es = put_at s v (snapshot_pairs es)).
  { intros s0 l. unfold import, set_latest, import_some, put_at. cbn [s_db]. f_equal. generalize (s_db s0). clear. induction l as [|x r IH]; intros db; [reflexivity|]. cbn. apply IH. }
  split; [apply A|]. split; [|reflexivity]. rewrite !A.
  assert (B : s_db (import_interrupted s v es b) = puts (s_db s) (map (entry_of v) (snapshot_pairs (firstn (Z.to_nat (b * 10000)) es)))).
  { change (s_db (import_interrupted s v es b)) with (s_db (import s v (firstn (Z.to_nat (b * 10000)) es))). rewrite A. apply put_at_db. }
  assert (Hok : db_ok (s_db s)) by (apply feed_ok, db_ok_nil).
  assert (D : s_db (put_at (import_interrupted s v es b) v (snapshot_pairs es)) = s_db (put_at s v (snapshot_pairs es))).
  { rewrite !put_at_db, B. set (q := Z.to_nat (b * 10000)). clearbody q. apply db_ext; [apply puts_ok; auto using puts_ok, entries_ok|auto using puts_ok, entries_ok|].
    intros x. rewrite !puts_in by auto using puts_ok, entries_ok.
    enough (G : last_write (map (entry_of v) (snapshot_pairs es)) (e_key x) (e_ts x) = None -> last_write (map (entry_of v) (snapshot_pairs (firstn q es))) (e_key x) (e_ts x) = None).
    { split; [intros [C|[C [E|[E J]]]]|intros [C|[C J]]].
      - left; exact C.
      - rewrite (G C) in E. discriminate E.
      - right; auto.
      - left; exact C.
      - right. split; [exact C|]. right. auto. }
    unfold last_write. intros C. rewrite <- (firstn_skipn q es) in C. unfold snapshot_pairs in *. rewrite !map_app, rev_app_distr, find_app in C.
    destruct (find _ (rev (map (entry_of v) (map _ (skipn q es))))); [discriminate|]. exact C. }
  unfold put_at in *. cbn [s_db] in D. rewrite D. reflexivity.
Qed.
Print Assumptions C71_import.

(* The command line feeds the changes of each store on its own: reads of that store are the
   same as if whole blocks had been fed. *)
Definition feed_store (s : st) (n : bytes) (bs : list (Z * list (bytes * option bytes))) : st := fold_left (fun s b => feed s (fst b) n (snd b)) bs s.
Definition as_block (n : bytes) (b : Z * list (bytes * option bytes)) : Z * list pair := (fst b, map (fun kv => mk_pair n (fst kv) (snd kv)) (snd b)).
Theorem C71_feed_one_store : forall n bs skip k h, let full := map (as_block n) bs in
  heights_ok full -> plain_name n -> (skip = true -> Forall (fun b => fst b <> 0) bs) -> 0 <= h < 2 ^ 63 ->
  get_at skip (feed_store empty n bs) n k (Some h) = at_height full h n k /\
  get_at skip (feed_store empty n bs) n k None = after full n k /\
  latest (feed_store empty n bs) = 0.
Proof.
  intros n bs skip k h full Hh P Z B.
  assert (A : forall s s' l, s_db s = s_db s' -> s_db (feed_store s n l) = s_db (feed_blocks s' (map (as_block n) l)) /\ s_latest (feed_store s n l) = s_latest s).
  { intros s s' l. revert s s'. induction l as [|b r IH]; intros s s' E; [auto|]. cbn [feed_store feed_blocks map fold_left]. fold (feed_store (feed s (fst b) n (snd b)) n r).
    fold (feed_blocks (put_at s' (fst (as_block n b)) (snd (as_block n b))) (map (as_block n) r)).
    destruct (IH (feed s (fst b) n (snd b)) (put_at s' (fst (as_block n b)) (snd (as_block n b)))) as [I1 I2].
    { unfold feed, put_at, as_block. cbn [s_db fst snd]. rewrite E. generalize (s_db s'). clear. induction (snd b) as [|x l IH]; intros db; [reflexivity|]. cbn. apply IH. }
    split; [exact I1|]. rewrite I2. reflexivity. }
  destruct (A empty empty bs eq_refl) as [A1 A2]. fold full in A1.
  assert (G : forall v, get_at skip (feed_store empty n bs) n k v = get_at skip (feed_blocks empty full) n k v) by (intros v; unfold get_at; rewrite A1; reflexivity).
  assert (N : names_ok full). { apply Forall_forall. intros b Hb. apply in_map_iff in Hb. destruct Hb as (c & <- & _). apply Forall_forall. intros p Hp. cbn in Hp. apply in_map_iff in Hp. destruct Hp as (x & <- & _). exact P. }
  assert (Z' : skip = true -> Forall (fun b => fst b <> 0) full). { intros E. specialize (Z E). apply Forall_forall. intros b Hb. apply in_map_iff in Hb. destruct Hb as (c & <- & Hc). rewrite Forall_forall in Z. exact (Z c Hc). }
  rewrite !G. destruct (C71_reads full skip n k h Hh N P Z' B) as (R1 & R2 & _). split; [exact R1|]. split; [exact R2|]. unfold latest. rewrite A2. reflexivity.
Qed.
Print Assumptions C71_feed_one_store.

(* three blocks, two stores: a key written, overwritten, deleted *)
Definition bank : bytes := [98; 97]%N.
Definition gov : bytes := [103]%N.
Definition three : list (Z * list pair) :=
  [(1, [mk_pair bank [1]%N (Some [10]%N); mk_pair gov [1]%N (Some [77]%N)]); (4, [mk_pair bank [1]%N (Some [20]%N); mk_pair bank [1; 2]%N (Some [5]%N)]); (9, [mk_pair bank [1]%N None])].
Example C71_case : heights_ok three /\ names_ok three /\ plain_name bank /\ Forall (fun b => fst b <> 0) three /\
  map (fun h => get_at true (feed_blocks empty three) bank [1]%N (Some h)) [0; 1; 3; 4; 8; 9; 100] = [None; Some [10]; Some [10]; Some [20]; Some [20]; None; None]%N /\
  get_at true (feed_blocks empty three) gov [1]%N None = Some [77]%N /\ latest (feed_blocks empty three) = 9.
Proof.
  split; [split; repeat constructor; cbn; lia|]. split; [repeat constructor; cbn; unfold plain_name; cbn; intuition discriminate|].
  split; [unfold plain_name; cbn; intuition discriminate|]. split; [repeat constructor; cbn; lia|]. vm_compute. auto.
Qed.
Example C71_later_ex : heights_ok ([(1, [mk_pair bank [1]%N (Some [10]%N)])] ++ [(4, [mk_pair bank [1]%N None])]) /\ Forall (fun b : Z * list pair => 3 < fst b) [(4, [mk_pair bank [1]%N None])].
Proof. split; [split; repeat constructor; cbn; lia|repeat constructor; cbn; lia]. Qed.
Example C71_feed_ex : heights_ok (map (as_block bank) [(1, [([1]%N, Some [10]%N)]); (2, [([1]%N, None)])]) /\
  get_at true (feed_store empty bank [(1, [([1]%N, Some [10]%N)]); (2, [([1]%N, None)])]) bank [1]%N (Some 1) = Some [10]%N.
Proof. split; [split; repeat constructor; cbn; lia|vm_compute; reflexivity]. Qed.
Example C71_import_ex : get_at true (import empty 5 [(bank, [1]%N, [9]%N)]) bank [1]%N (Some 5) = Some [9]%N /\ get_at true (import empty 5 [(bank, [1]%N, [9]%N)]) bank [1]%N (Some 4) = None.
Proof. vm_compute. auto. Qed.

(* With a slash in a store name two stores share their keys. *)
Theorem C71_slash_refuted : exists bs n k, heights_ok bs /\ at_height bs 1 n k = None /\ get_at true (feed_blocks empty bs) n k (Some 1) = Some [7]%N.
Proof.
  exists [(1, [mk_pair [97; 47; 98]%N [1]%N (Some [7]%N)])], [97]%N, [98; 47; 1]%N.
  split; [split; repeat constructor; cbn; lia|]. vm_compute. auto.
Qed.
Print Assumptions C71_slash_refuted.
(* A height executed a second time with other changes, as after a rollback, keeps the keys only
   the first execution wrote. *)
Theorem C71_rollback_refuted : exists a b n k, fst a = fst b /\ after [b] n k = None /\
  get_at true (feed_blocks (feed_blocks empty [a]) [b]) n k (Some (fst b)) = Some [7]%N.
Proof.
  exists (3, [mk_pair bank [1]%N (Some [7]%N)]), (3, [mk_pair bank [2]%N (Some [8]%N)]), bank, [1]%N. vm_compute. auto.
Qed.
Print Assumptions C71_rollback_refuted.
(* A negative height is not refused: it reads the newest contents. *)
Theorem C71_negative_refuted : forall bs skip n k, heights_ok bs -> names_ok bs -> plain_name n -> (skip = true -> Forall (fun b => fst b <> 0) bs) ->
  get_at skip (feed_blocks empty bs) n k (Some (-1)) = after bs n k.
Proof.
  intros bs skip n k H N P Z. change (get_at skip (feed_blocks empty bs) n k (Some (-1))) with (get_at skip (feed_blocks empty bs) n k None).
  apply (get_height bs skip n k None); auto. intros v E. discriminate E.
Qed.
Print Assumptions C71_negative_refuted.
(* With version zero skipped, what block 0 wrote is gone, and also hides nothing older. *)
Theorem C71_skip_zero_refuted : exists bs n k, heights_ok bs /\ names_ok bs /\ plain_name n /\ at_height bs 5 n k = Some [7]%N /\
  get_at true (feed_blocks empty bs) n k (Some 5) = None /\ get_at false (feed_blocks empty bs) n k (Some 5) = Some [7]%N.
Proof.
  exists [(0, [mk_pair bank [1]%N (Some [7]%N)])], bank, [1]%N.
  split; [split; repeat constructor; cbn; lia|]. split; [repeat constructor; unfold plain_name; cbn; intuition discriminate|].
  split; [unfold plain_name; cbn; intuition discriminate|]. vm_compute. auto.
Qed.
Print Assumptions C71_skip_zero_refuted.
