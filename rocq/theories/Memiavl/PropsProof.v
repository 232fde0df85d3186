From Verif Require Import Lib.Base Lib.Bytes Lib.Codec Memiavl.Model Memiavl.Spec Memiavl.TreeProofs Memiavl.Proofs
  Memiavl.HashModel Memiavl.ProofModel Memiavl.ProofSpec Memiavl.ProofProofs Memiavl.PropsSnapshot.
Open Scope Z_scope.

(* ---------------- C15 ---------------- *)

(* The proof produced for any stored key names that key and its value and
   recomputes the root hash. *)
Theorem C15_membership_proof_verifies :
  forall (sha : bytes -> bytes), (forall b, blen (sha b) = 32) ->
  forall ops version cached t k v,
  run (new_empty_tree version cached) ops = Some t -> history_map ops k = Some v ->
  exists p, get_membership_proof sha t k = Ok p /\ proves sha (root_hash sha (t_root t)) k v p.
Proof.
  intros sha Hsha ops ver c t k v H Hk. pose proof (run_empty _ _ _ _ H) as Hi.
  destruct (inv_lists _ _ Hi) as [_ Hin]. apply Hin in Hk. destruct Hi as (Ha & _).
  unfold get_membership_proof. destruct (t_root t) as [n|]; [|contradiction].
  apply create_ok; [exact Hsha|apply Ha|exact Hk].
Qed.
Print Assumptions C15_membership_proof_verifies.

Example C15_membership_proof_ex :
  match run (new_empty_tree 0 false) demo_sets with
  | Some t => match get_membership_proof demo_sha t [3]%N with
              | Ok p => (ep_value p, length (ep_path p), beqb (calculate demo_sha p) (root_hash demo_sha (t_root t)))
              | _ => ([], O, false) end
  | None => ([], O, false) end = ([3; 100]%N, 3%nat, true).
Proof. vm_compute. reflexivity. Qed.

(* no proof is produced for a key that is not stored (in a non-empty tree) *)
Theorem C15_no_proof_for_absent_key :
  forall (sha : bytes -> bytes), (forall b, blen (sha b) = 32) ->
  forall ops version cached t k,
  run (new_empty_tree version cached) ops = Some t -> t_root t <> None -> history_map ops k = None ->
  get_membership_proof sha t k = Err.
Proof.
  intros sha Hsha ops ver c t k H Hne Hk. pose proof (run_empty _ _ _ _ H) as Hi.
  destruct (inv_lists _ _ Hi) as [_ Hin].
  unfold get_membership_proof. destruct (t_root t) as [n|]; [|congruence].
  apply create_missing; [exact Hsha|]. intros v HI. apply Hin in HI. congruence.
Qed.
Print Assumptions C15_no_proof_for_absent_key.

(* "If the key doesn't exist in the tree, this will return an error"
   (proof.go 14-16) is false of the empty tree: the nil root is dereferenced. *)
Theorem C15_empty_tree_panics_refuted :
  forall sha k, get_membership_proof sha (new_empty_tree 0 false) k = Panic.
Proof. reflexivity. Qed.
Print Assumptions C15_empty_tree_panics_refuted.

Lemma rank_nth k l : sorted l -> forall i x v, nth_error l i = Some (x, v) -> (Z.of_nat i < rank k l <-> blt x k).
Proof.
  induction l as [|[y w] l IH]; intros HS i x v Hn; [destruct i; discriminate|].
  apply sorted_cons in HS. destruct HS as [HS HG].
  change ((y, w) :: l) with ([(y, w)] ++ l). rewrite rank_app.
  destruct (bltb y k) eqn:E.
  - assert (rank k [(y, w)] = 1) as -> by (unfold rank; cbn; rewrite E; reflexivity).
    destruct i as [|i]; cbn [nth_error] in Hn.
    + inversion Hn; subst. pose proof (rank_bound k l). apply bltb_spec in E. split; [intros; exact E|intros; lia].
    + rewrite <- (IH HS i x v Hn). lia.
  - assert (rank k [(y, w)] = 0) as -> by (unfold rank; cbn; rewrite E; reflexivity).
    apply bltb_false in E.
    assert (all_ge l k) as HGe.
    { intros a b HI. apply blt_le. eapply ble_lt_trans; [exact E|]. eapply HG. exact HI. }
    rewrite (rank_all_ge k l HGe). split; [lia|]. intros Hlt. exfalso.
    assert (ble k x) as Hk.
    { destruct i as [|i]; cbn [nth_error] in Hn; [inversion Hn; subst; exact E|]. eapply HGe. eapply nth_error_In. exact Hn. }
    apply ble_not_lt in Hk. contradiction.
Qed.

(* For an absent key the two neighbours are proved: the greatest stored key
   below and the smallest stored key above; nothing is stored in between. *)
Theorem C15_non_membership_proof :
  forall (sha : bytes -> bytes), (forall b, blen (sha b) = 32) ->
  forall ops version cached t k,
  run (new_empty_tree version cached) ops = Some t ->
  Z.of_nat (length (root_leaves (t_root t))) < 2 ^ 32 ->
  history_map ops k = None ->
  exists p, get_non_membership_proof sha t k = Ok p /\ np_key p = k /\
    match np_left p with
    | Some e => (exists v, history_map ops (ep_key e) = Some v /\ proves sha (root_hash sha (t_root t)) (ep_key e) v e) /\
                blt (ep_key e) k /\
                (forall x v, history_map ops x = Some v -> blt x k -> ble x (ep_key e))
    | None => forall x v, history_map ops x = Some v -> ~ blt x k
    end /\
    match np_right p with
    | Some e => (exists v, history_map ops (ep_key e) = Some v /\ proves sha (root_hash sha (t_root t)) (ep_key e) v e) /\
                blt k (ep_key e) /\
                (forall x v, history_map ops x = Some v -> blt k x -> ble (ep_key e) x)
    | None => forall x v, history_map ops x = Some v -> ~ blt k x
    end.
Proof.
  intros sha Hsha ops ver c t k H Hl Hk. pose proof (run_empty _ _ _ _ H) as Hi.
  destruct (inv_lists _ _ Hi) as [Hs Hin]. destruct Hi as (Ha & Hm & _).
  assert (look k (root_leaves (t_root t)) = None) as Hlook.
  { rewrite <- Hk. rewrite <- Hm. unfold root_leaves. destruct (t_root t); reflexivity. }
  unfold get_non_membership_proof, get_with_index.
  set (ls := root_leaves (t_root t)) in *.
  assert (exists r, (match t_root t with None => (0, None) | Some n => let '(v, i) := get_rec n k in (i, v) end) = (r, None) /\
          r = rank k ls /\ forall i, 0 <= i -> get_by_index t i = nth_error ls (Z.to_nat i)) as (r & -> & Er & Hgi).
  { unfold ls in *. destruct (t_root t) as [n|] eqn:Et; cbn [root_leaves root_ok] in *.
    - pose proof (get_rec_value n k Ha) as H1. pose proof (get_rec_index n k Ha Hl) as H2.
      destruct (get_rec n k) as [v0 i0]. cbn [fst snd] in *. exists i0. split; [congruence|]. split; [exact H2|].
      intros i Hi0. unfold get_by_index. rewrite Et. destruct (2 ^ 32 - 1 <? i) eqn:E.
      + symmetry. apply nth_error_None. lia.
      + unfold u32. rewrite Z.mod_small by lia. apply get_by_index_ok; [exact Ha|exact Hl|lia].
    - exists 0. split; [reflexivity|]. split; [reflexivity|]. intros i Hi0. unfold get_by_index. rewrite Et.
      destruct (2 ^ 32 - 1 <? i); destruct (Z.to_nat i); reflexivity. }
  assert (forall x v, In (x, v) ls -> exists p, create_existence_proof sha (t_root t) x = Ok p /\
            proves sha (root_hash sha (t_root t)) x v p) as Hcr.
  { intros x v HI. unfold ls in HI. destruct (t_root t) as [n|]; [|contradiction]. apply create_ok; [exact Hsha|apply Ha|exact HI]. }
  pose proof (rank_bound k ls) as Hb. rewrite <- Er in Hb.
  (* neighbours *)
  assert (forall i x v, nth_error ls i = Some (x, v) -> (Z.of_nat i < r <-> blt x k)) as Hn.
  { intros i x v E. rewrite Er. eapply rank_nth; [exact Hs|exact E]. }
  assert (forall x v, In (x, v) ls -> blt x k \/ blt k x) as Hne.
  { intros x v HI. destruct (bcmp x k) eqn:E; [|left; exact E|right; apply bgt_lt; exact E].
    apply bcmp_eq in E. subst x. apply Hin in HI. congruence. }
  assert (forall i j x y v w, nth_error ls i = Some (x, v) -> nth_error ls j = Some (y, w) -> (i <= j)%nat -> ble x y) as Hord.
  { intros i j x y v w E1 E2 Hij. destruct (Nat.eq_dec i j) as [->|Hd].
    - rewrite E1 in E2. inversion E2. apply ble_lt_or_eq. auto.
    - apply blt_le. clear - Hs E1 E2 Hij Hd. revert i j E1 E2 Hij Hd. induction ls as [|[a b] l IH]; intros i j E1 E2 Hij Hd; [destruct i; discriminate|].
      apply sorted_cons in Hs. destruct Hs as [Hs HG]. destruct j as [|j]; [lia|]. destruct i as [|i]; cbn [nth_error] in *.
      + inversion E1; subst. eapply HG. eapply nth_error_In. exact E2.
      + apply (IH Hs i j E1 E2); lia. }
  (* left *)
  assert (exists left, (if 1 <=? r then
               match get_by_index t (r - 1) with
               | Some (lk, _) => rbind (create_existence_proof sha (t_root t) lk) (fun p => Ok (Some p))
               | None => rbind (create_existence_proof sha (t_root t) []) (fun p => Ok (Some p))
               end else Ok None) = Ok left /\
     match left with
    | Some e => (exists v, history_map ops (ep_key e) = Some v /\ proves sha (root_hash sha (t_root t)) (ep_key e) v e) /\
                blt (ep_key e) k /\
                (forall x v, history_map ops x = Some v -> blt x k -> ble x (ep_key e))
    | None => forall x v, history_map ops x = Some v -> ~ blt x k
    end) as (left & -> & HL).
  { destruct (1 <=? r) eqn:E1.
    - rewrite Hgi by lia. destruct (nth_error ls (Z.to_nat (r - 1))) as [[lk lv]|] eqn:E2.
      + assert (In (lk, lv) ls) as HI by (eapply nth_error_In; exact E2).
        destruct (Hcr _ _ HI) as (p & -> & P1 & P2 & P3). cbn [rbind]. exists (Some p). split; [reflexivity|].
        rewrite P1. split; [|split].
        * exists lv. split; [apply Hin; exact HI|]. split; auto.
        * apply (Hn _ _ _ E2). lia.
        * intros x v Hx Hlt. apply Hin in Hx. apply In_nth_error in Hx. destruct Hx as (i & E3).
          apply (Hn _ _ _ E3) in Hlt. eapply Hord; [exact E3|exact E2|lia].
      + apply nth_error_None in E2. lia.
    - exists None. split; [reflexivity|]. intros x v Hx Hlt. apply Hin in Hx. apply In_nth_error in Hx. destruct Hx as (i & E3).
      apply (Hn _ _ _ E3) in Hlt. lia. }
  cbn [rbind].
  assert (exists right, (match get_by_index t r with
             | Some (rk, _) => rbind (create_existence_proof sha (t_root t) rk) (fun p => Ok (Some p))
             | None => Ok None
             end) = Ok right /\
     match right with
    | Some e => (exists v, history_map ops (ep_key e) = Some v /\ proves sha (root_hash sha (t_root t)) (ep_key e) v e) /\
                blt k (ep_key e) /\
                (forall x v, history_map ops x = Some v -> blt k x -> ble (ep_key e) x)
    | None => forall x v, history_map ops x = Some v -> ~ blt k x
    end) as (right & -> & HR).
  { rewrite Hgi by lia. destruct (nth_error ls (Z.to_nat r)) as [[rk rv]|] eqn:E2.
    - assert (In (rk, rv) ls) as HI by (eapply nth_error_In; exact E2).
      destruct (Hcr _ _ HI) as (p & -> & P1 & P2 & P3). cbn [rbind]. exists (Some p). split; [reflexivity|].
      rewrite P1. split; [|split].
      + exists rv. split; [apply Hin; exact HI|]. split; auto.
      + destruct (Hne _ _ HI) as [C|C]; [|exact C]. apply (Hn _ _ _ E2) in C. lia.
      + intros x v Hx Hlt. apply Hin in Hx. apply In_nth_error in Hx. destruct Hx as (i & E3).
        eapply Hord; [exact E2|exact E3|]. 
        destruct (Z.ltb_spec (Z.of_nat i) r) as [C|C]; [|lia].
        apply (Hn _ _ _ E3) in C. exfalso. eapply blt_irrefl. eapply blt_trans; [exact C|exact Hlt].
    - exists None. split; [reflexivity|]. apply nth_error_None in E2.
      intros x v Hx Hlt. apply Hin in Hx. apply In_nth_error in Hx. destruct Hx as (i & E3).
      assert (i < length ls)%nat by (apply nth_error_Some; congruence).
      assert (blt x k) as C by (apply (Hn _ _ _ E3); lia). eapply blt_irrefl. eapply blt_trans; [exact C|exact Hlt]. }
  cbn [rbind]. exists (Nonexist k left right). split; [reflexivity|]. split; [reflexivity|]. split; assumption.
Qed.
Print Assumptions C15_non_membership_proof.

Example C15_non_membership_ex :
  match run (new_empty_tree 0 false) demo_sets with
  | Some t => match get_non_membership_proof demo_sha t [3; 5]%N with
              | Ok p => (option_map ep_key (np_left p), option_map ep_key (np_right p))
              | _ => (None, None) end
  | None => (None, None) end = (Some [3]%N, Some [4]%N).
Proof. vm_compute. reflexivity. Qed.

(* Two trees with the same root hash are equal node by node (so hold the same
   keys, values and versions), or a collision of the hash function is found. *)
Theorem C15_root_hash_binds :
  forall (sha : bytes -> bytes), (forall b, blen (sha b) = 32) ->
  forall ops1 v1 c1 t1 ops2 v2 c2 t2,
  run (new_empty_tree v1 c1) ops1 = Some t1 -> run (new_empty_tree v2 c2) ops2 = Some t2 ->
  root_ok bounded (t_root t1) -> root_ok bounded (t_root t2) ->
  root_hash sha (t_root t1) = root_hash sha (t_root t2) ->
  (t_root t1 = t_root t2 /\ forall k, history_map ops1 k = history_map ops2 k) \/ collision sha.
Proof.
  intros sha Hsha ops1 v1 c1 t1 ops2 v2 c2 t2 H1 H2 B1 B2 E.
  pose proof (run_empty _ _ _ _ H1) as I1. pose proof (run_empty _ _ _ _ H2) as I2.
  assert (t_root t1 = t_root t2 \/ collision sha) as [Ht|C]; [| |right; exact C].
  - pose proof (proj1 I1) as A1. pose proof (proj1 I2) as A2.
    destruct (t_root t1) as [n1|], (t_root t2) as [n2|]; cbn [root_hash root_ok] in *; auto.
    + destruct A1 as (_ & F1 & K1), A2 as (_ & F2 & K2).
      destruct (binding sha Hsha n1 n2 K1 K2 B1 B2 F1 F2 E) as [->|C]; auto.
    + right. destruct (preimage_nonempty sha n1) as (x & Hx & Ex). exists x, []. split; [exact Hx|congruence].
    + right. destruct (preimage_nonempty sha n2) as (x & Hx & Ex). exists x, []. split; [exact Hx|congruence].
  - left. split; [exact Ht|]. intros k.
    destruct I1 as (_ & M1 & _), I2 as (_ & M2 & _). rewrite <- M1, <- M2, Ht. reflexivity.
Qed.
Print Assumptions C15_root_hash_binds.

Example C15_root_hash_binds_ex :
  match run (new_empty_tree 0 false) demo_sets, run (new_empty_tree 0 false) (demo_sets ++ [OpSet [3]%N (Some [3; 101]%N)]) with
  | Some t1, Some t2 => root_ok bounded (t_root t1) /\ root_ok bounded (t_root t2) /\
      beqb (root_hash demo_sha (t_root t1)) (root_hash demo_sha (t_root t2)) = false
  | _, _ => False end.
Proof. vm_compute. repeat split; discriminate. Qed.
