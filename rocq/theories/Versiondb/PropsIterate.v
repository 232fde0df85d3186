(* C72: iterating over a historical state. *)
From Coq Require Import Sorting.Sorted.
From Verif Require Import Lib.Base Lib.Bytes Lib.Codec Versiondb.Model Versiondb.Spec Versiondb.Proofs Versiondb.History Versiondb.Iterate Versiondb.PropsReads.
Open Scope Z_scope.

Definition pairs (l : list item) : list (bytes * bytes) := map (fun x => (i_key x, i_val x)) l.

(* An iterator at a height over [start, end) yields exactly the pairs of its own store at that
   height in the range, each once, in increasing order of keys; a reverse iterator the same in
   decreasing order. *)
Theorem C72_iterate : forall bs skip n start end_ v reverse, heights_ok bs -> names_ok bs -> plain_name n ->
  (skip = true -> Forall (fun b => fst b <> 0) bs) -> (forall h, v = Some h -> 0 <= h < 2 ^ 63) ->
  start <> Some [] -> end_ <> Some [] ->
  exists l, iterate skip (feed_blocks empty bs) n start end_ v reverse = Ok (if reverse then rev l else l) /\
    listing (match v with Some h => at_height bs h | None => after bs end) n start end_ (pairs l).
Proof.
  intros bs skip n start end_ v reverse Hh N P Z V S1 S2.
  assert (K : db_ok (s_db (feed_blocks empty bs))) by apply feed_ok, db_ok_nil.
  assert (E1 : is_empty start = false) by (destruct start as [[|]|]; [congruence|reflexivity|reflexivity]).
  assert (E2 : is_empty end_ = false) by (destruct end_ as [[|]|]; [congruence|reflexivity|reflexivity]).
  destruct (iterate_said skip (feed_blocks empty bs) n start end_ v reverse K E1 E2) as (l & E & S & M).
  exists l. split; [rewrite E; destruct reverse; reflexivity|]. split.
  - unfold pairs. clear -S. induction S as [|x r S IH F]; [constructor|]. cbn [map]. constructor; [exact IH|].
    apply Forall_forall. intros y Hy. apply in_map_iff in Hy. destruct Hy as (z & <- & Hz). rewrite Forall_forall in F. exact (F z Hz).
  - assert (G : forall k, said (s_db (feed_blocks empty bs)) n k (read_ts v) = (match v with Some h => at_height bs h | None => after bs end) n k).
    { intros k. rewrite said_at_height by assumption. destruct v as [h|]; cbn [read_ts].
      - rewrite u64_small by (apply V; reflexivity). reflexivity.
      - rewrite at_height_all; [reflexivity|]. intros b Hb. destruct Hh as [_ F]. rewrite Forall_forall in F. specialize (F b Hb). unfold U64. lia. }
    intros k x. rewrite <- G. unfold pairs. rewrite in_map_iff. split.
    + intros (y & Ey & Hy). injection Ey as <- <-. apply M in Hy. destruct Hy as (W & _ & Ne). split; [exact W|]. unfold said. rewrite Ne. reflexivity.
    + intros [W Sd]. unfold said in Sd. destruct (newest (s_db (feed_blocks empty bs)) (store_prefix n ++ k) (read_ts v)) as [d|] eqn:D; [|discriminate].
      exists (mk_item k x (e_ts d)). split; [reflexivity|]. apply M. cbn [i_key i_val i_ts]. split; [exact W|].
      pose proof (newest_in _ _ _ _ D) as (Hd & Kd & _). split.
      * intros ->. destruct (in_feed_ts bs d Hd) as (b & Hb & Tb). specialize (Z eq_refl). rewrite Forall_forall in Z. specialize (Z b Hb).
        destruct Hh as [_ F]. rewrite Forall_forall in F. specialize (F b Hb). rewrite Tb, u64_small by exact F. exact Z.
      * rewrite D. f_equal. destruct d as [dk dt dv]. cbn in *. subst. reflexivity.
Qed.
Print Assumptions C72_iterate.

(* An empty, non-nil bound is refused. *)
Theorem C72_empty_bound : forall skip s n start end_ v reverse,
  iterate skip s n start end_ v reverse = Err <-> start = Some [] \/ end_ = Some [].
Proof.
  intros skip s n start end_ v reverse. unfold iterate. destruct (bounds (store_prefix n) start end_). split.
  - destruct start as [[|]|], end_ as [[|]|]; cbn; auto; discriminate.
  - intros [->| ->]; [reflexivity|]. destruct start as [[|]|]; reflexivity.
Qed.
Print Assumptions C72_empty_bound.

Definition kvs (r : res (list item)) : list (bytes * bytes) := match r with Ok l => pairs l | _ => [] end.
Example C72_case :
  kvs (iterate true (feed_blocks empty three) bank None None (Some 4) false) = [([1], [20]); ([1; 2], [5])]%N /\
  kvs (iterate true (feed_blocks empty three) bank None None (Some 4) true) = [([1; 2], [5]); ([1], [20])]%N /\
  kvs (iterate true (feed_blocks empty three) bank (Some [1; 1]%N) None (Some 4) false) = [([1; 2], [5])]%N /\
  kvs (iterate true (feed_blocks empty three) bank None (Some [1; 2]%N) None true) = [].
Proof. vm_compute. auto. Qed.

(* With version zero skipped, the iterator leaves out what block 0 wrote. *)
Theorem C72_skip_zero_refuted : exists bs n, heights_ok bs /\ names_ok bs /\ plain_name n /\
  kvs (iterate false (feed_blocks empty bs) n None None (Some 5) false) = [([1], [7]); ([2], [8])]%N /\
  kvs (iterate true (feed_blocks empty bs) n None None (Some 5) false) = [([2], [8])]%N.
Proof.
  exists [(0, [mk_pair bank [1]%N (Some [7]%N)]); (1, [mk_pair bank [2]%N (Some [8]%N)])], bank.
  split; [split; repeat constructor; cbn; lia|]. split; [repeat constructor; unfold plain_name; cbn; intuition discriminate|].
  split; [unfold plain_name; cbn; intuition discriminate|]. vm_compute. auto.
Qed.
Print Assumptions C72_skip_zero_refuted.
