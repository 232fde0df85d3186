From Verif Require Import Lib.Base Lib.Bytes Memiavl.Model Memiavl.Spec Memiavl.TreeProofs Memiavl.Proofs.
Open Scope Z_scope.

Definition demo_ops : list op :=
  [OpSet [3]%N (Some [30]%N); OpSet [1]%N (Some [10]%N); OpGet [1]%N; OpSet [2]%N None; OpSave;
   OpSet [5]%N (Some [50]%N); OpSet [4]%N (Some [40]%N); OpRemove [1]%N; OpEvict [3]%N; OpSet [3]%N (Some [31]%N);
   OpCopy true; OpRemove [9]%N].

(* ---------------- C01 ---------------- *)

(* Every history runs without a panic, and afterwards every key reads the last
   value written to it (history_map), whatever the cache did. *)
Theorem C01_reads_last_write :
  forall ops version cached,
  exists t, run (new_empty_tree version cached) ops = Some t /\
    forall k, fst (tree_get t k) = history_map ops k.
Proof.
  intros ops v c. destruct (run_ok ops _ _ (empty_inv v c)) as (t & E & Hi).
  exists t. split; [exact E|]. intros k. apply tree_get_ok. exact Hi.
Qed.
Print Assumptions C01_reads_last_write.

Example C01_reads_last_write_ex :
  match run (new_empty_tree 0 true) demo_ops with
  | Some t => (fst (tree_get t [1]%N), fst (tree_get t [2]%N), fst (tree_get t [3]%N), fst (tree_get t [9]%N))
  | None => (None, None, None, None) end = (None, Some [], Some [31]%N, None).
Proof. vm_compute. reflexivity. Qed.

(* A change set acts on the readable map exactly as the list of its pairs, on
   top of any history, and does not change the version. *)
Theorem C01_change_set :
  forall ops version cached t cs,
  run (new_empty_tree version cached) ops = Some t ->
  exists t', apply_change_set t cs = Some t' /\ t_version t' = t_version t /\
    forall k, fst (tree_get t' k) = apply_pairs (history_map ops) cs k.
Proof.
  intros ops v c t cs H. pose proof (run_empty _ _ _ _ H) as Hi.
  destruct (apply_change_set_ok cs t _ Hi) as (t' & E & Hi' & Hv). exists t'.
  split; [exact E|]. split; [exact Hv|]. intros k. apply tree_get_ok. exact Hi'.
Qed.
Print Assumptions C01_change_set.

Example C01_change_set_ex :
  match run (new_empty_tree 0 true) demo_ops with
  | Some t =>
      match apply_change_set t [KV true [5]%N None; KV false [7]%N (Some [1]%N); KV false [2]%N (Some [9]%N)] with
      | Some t' => map (fun k => fst (tree_get t' k)) [[5]%N; [7]%N; [2]%N; [3]%N]
      | None => [] end
  | None => [] end = [None; Some [1]%N; Some [9]%N; Some [31]%N].
Proof. vm_compute. reflexivity. Qed.

(* ---------------- C02 ---------------- *)

Theorem C02_balanced_search_tree :
  forall ops version cached t n,
  run (new_empty_tree version cached) ops = Some t -> t_root t = Some n ->
  balanced n /\ fields_exact n /\ keys_exact n /\
  2 ^ (nheight n / 2) <= nsize n.
Proof.
  intros ops v c t n H Hr. destruct (run_empty _ _ _ _ H) as (Ha & _). rewrite Hr in Ha.
  destruct Ha as (B & F & K). split; [exact B|]. split; [exact F|]. split; [exact K|].
  rewrite (nheight_depth n F), (nsize_size n F). apply depth_bound. exact B.
Qed.
Print Assumptions C02_balanced_search_tree.

(* so the uint8 height field cannot overflow while the size fits an int64 *)
Theorem C02_height_fits_uint8 :
  forall ops version cached t n,
  run (new_empty_tree version cached) ops = Some t -> t_root t = Some n ->
  nsize n < 2 ^ 63 -> 0 <= nheight n < 128.
Proof.
  intros ops v c t n H Hr Hs. destruct (run_empty _ _ _ _ H) as (Ha & _). rewrite Hr in Ha.
  destruct Ha as (B & F & K). pose proof (depth_bound n B) as Hd.
  rewrite (nheight_depth n F). rewrite (nsize_size n F) in Hs.
  pose proof (depth_nonneg n). split; [lia|].
  assert (2 ^ (depth n / 2) < 2 ^ 63) as Hp by lia.
  apply Z.pow_lt_mono_r_iff in Hp; [|lia|lia].
  pose proof (Z.div_mod (depth n) 2). pose proof (Z.mod_pos_bound (depth n) 2). lia.
Qed.
Print Assumptions C02_height_fits_uint8.

Example C02_balanced_search_tree_ex :
  match run (new_empty_tree 0 true) demo_ops with
  | Some t => match t_root t with Some n => (nheight n, nsize n, nkey n) | None => (0, 0, []) end
  | None => (0, 0, []) end = (2, 4, [4]%N).
Proof. vm_compute. reflexivity. Qed.

(* ---------------- C03 ---------------- *)

(* GetByIndex enumerates exactly the current bindings in key order. *)
Theorem C03_get_by_index :
  forall ops version cached t,
  run (new_empty_tree version cached) ops = Some t ->
  exists l, lists l (history_map ops) /\
    (Z.of_nat (length l) < 2 ^ 32 -> forall i, 0 <= i -> get_by_index t i = nth_error l (Z.to_nat i)).
Proof.
  intros ops v c t H. pose proof (run_empty _ _ _ _ H) as Hi.
  exists (root_leaves (t_root t)). split; [apply inv_lists; exact Hi|].
  intros Hl i Hi0. destruct Hi as (Ha & _). unfold get_by_index.
  destruct (2 ^ 32 - 1 <? i) eqn:E.
  - symmetry. apply nth_error_None. lia.
  - destruct (t_root t) as [n|].
    + unfold u32. rewrite Z.mod_small by lia. apply get_by_index_ok; [exact Ha|exact Hl|lia].
    + cbn [root_leaves]. destruct (Z.to_nat i); reflexivity.
Qed.
Print Assumptions C03_get_by_index.

(* GetWithIndex returns the number of smaller keys, and the value. *)
Theorem C03_get_with_index :
  forall ops version cached t,
  run (new_empty_tree version cached) ops = Some t ->
  exists l, lists l (history_map ops) /\
    (Z.of_nat (length l) < 2 ^ 32 -> forall k,
       get_with_index t k = (Z.of_nat (length (filter (fun p => bltb (fst p) k) l)), history_map ops k)).
Proof.
  intros ops v c t H. pose proof (run_empty _ _ _ _ H) as Hi.
  exists (root_leaves (t_root t)). split; [apply inv_lists; exact Hi|].
  intros Hl k. destruct Hi as (Ha & Hm & _). unfold get_with_index. rewrite <- Hm.
  destruct (t_root t) as [n|]; [|reflexivity]. cbn [root_leaves root_ok] in *.
  pose proof (get_rec_value n k Ha) as H1. pose proof (get_rec_index n k Ha Hl) as H2.
  destruct (get_rec n k) as [v0 i0]. cbn [fst snd] in *. rewrite H1, H2. reflexivity.
Qed.
Print Assumptions C03_get_with_index.

(* the two are inverse on stored keys *)
Theorem C03_inverse :
  forall ops version cached t k v,
  run (new_empty_tree version cached) ops = Some t ->
  Z.of_nat (length (root_leaves (t_root t))) < 2 ^ 32 ->
  history_map ops k = Some v ->
  snd (get_with_index t k) = Some v /\
  get_by_index t (fst (get_with_index t k)) = Some (k, v).
Proof.
  intros ops ver c t k v H Hl Hk. pose proof (run_empty _ _ _ _ H) as Hi.
  destruct (inv_lists _ _ Hi) as [Hs Hin]. apply Hin in Hk.
  destruct Hi as (Ha & Hm & _). apply Hin in Hk as Hk'.
  unfold get_with_index, get_by_index. rewrite <- Hm in Hk'.
  destruct (t_root t) as [n|]; [|contradiction]. cbn [root_leaves root_ok] in *.
  pose proof (get_rec_value n k Ha) as H1. pose proof (get_rec_index n k Ha Hl) as H2.
  destruct (get_rec n k) as [v0 i0]. cbn [fst snd] in *. split; [congruence|].
  apply in_split in Hk. destruct Hk as (l1 & l2 & El). rewrite El in *.
  unfold rank in H2. rewrite filter_first_k in H2 by exact Hs. subst i0.
  rewrite app_length in Hl. cbn [length] in Hl.
  destruct (2 ^ 32 - 1 <? Z.of_nat (length l1)) eqn:E; [lia|].
  unfold u32. rewrite Z.mod_small by lia. rewrite get_by_index_ok; [|exact Ha|unfold size; rewrite El, app_length; cbn [length]; lia|lia].
  rewrite El, Nat2Z.id, nth_error_app2 by lia. rewrite Nat.sub_diag. reflexivity.
Qed.
Print Assumptions C03_inverse.

Example C03_ex :
  match run (new_empty_tree 0 true) demo_ops with
  | Some t => (get_with_index t [4]%N, get_by_index t 2, get_by_index t 4)
  | None => ((0, None), None, None) end = ((2, Some [40]%N), Some ([4]%N, [40]%N), None).
Proof. vm_compute. reflexivity. Qed.

(* The claim "nil if i is out of range" fails for negative arguments: only the
   upper bound is checked before the conversion to uint32. *)
Theorem C03_negative_index_refuted :
  exists ops t, run (new_empty_tree 0 false) ops = Some t /\
    get_by_index t (- 2 ^ 32) = Some ([3]%N, [30]%N).
Proof.
  exists [OpSet [3]%N (Some [30]%N)], (Tree 0 (Some (Leaf [3]%N [30]%N 1)) None).
  split; vm_compute; reflexivity.
Qed.
Print Assumptions C03_negative_index_refuted.

(* ---------------- C04 ---------------- *)

(* Iteration yields exactly the bindings in [start, end), in key order; the
   descending iterator yields the reverse. *)
Theorem C04_iterate :
  forall ops version cached t,
  run (new_empty_tree version cached) ops = Some t ->
  exists l, lists l (history_map ops) /\
    forall start en,
      iterate t start en true = Some (filter (fun p => in_range start en (fst p)) l) /\
      iterate t start en false = Some (rev (filter (fun p => in_range start en (fst p)) l)).
Proof.
  intros ops v c t H. pose proof (run_empty _ _ _ _ H) as Hi.
  exists (root_leaves (t_root t)). split; [apply inv_lists; exact Hi|].
  intros start en. destruct Hi as (Ha & _). rewrite !iterate_ok by exact Ha. split; reflexivity.
Qed.
Print Assumptions C04_iterate.

Example C04_iterate_ex :
  match run (new_empty_tree 0 true) demo_ops with
  | Some t => option_map (map fst) (iterate t (Some [2; 0]%N) (Some [5]%N) false)
  | None => None end = Some [[4]%N; [3]%N].
Proof. vm_compute. reflexivity. Qed.
