(* C117: the history of finished transfers, and paging through transfers. *)
From Verif Require Import Lib.Base Lib.Zmap Hyperion.History Hyperion.HistorySpec Hyperion.HistoryProofs.
Open Scope Z_scope.

(* ---- the record ---- *)
(* While the chain is on one side of the update, the record of an address lists the transfers
   it sent or received, each once and in the order they finished, numbered 1, 2, 3, ...; any
   range of numbers is exact; the last number is the count; and the list of recent ones holds
   the last hundred. *)
Theorem C117_history : forall update h l, one_side update h l ->
  let s := run update no_arch l in
  (forall a, find_all update s h a = numbered 1 (history a (map snd l))) /\
  (forall a, last_index (side update s h) a = Z.of_nat (length (history a (map snd l)))) /\
  (forall a lo hi, 0 <= lo -> find_range update s h a lo hi = page lo (hi - lo) (numbered 1 (history a (map snd l)))) /\
  map shown (recent (side update s h)) = map shown (newest 100 (map snd l)).
Proof.
  intros update h l O s. assert (good (side update s h) (map snd l)) as [G R].
  { apply run_good; [|exact O]. split; [intro a|]; unfold side; destruct (update <? h); reflexivity. }
  repeat match goal with |- _ /\ _ => split end.
  - intro a. unfold find_all. rewrite G. apply keyed_vals.
  - intro a. apply last_numbered. apply G.
  - intros a lo hi L. unfold find_range. rewrite G. rewrite range_numbered by lia. unfold page. f_equal; [lia|f_equal; lia].
  - exact R.
Qed.
Print Assumptions C117_history.

(* Above the update height the transfers finished before are no longer found, and the numbers
   start again at 1. *)
Theorem C117_update_hides_history_refuted : forall update h l, Forall (fun p => fst p <= update) l -> update < h ->
  let s := run update no_arch l in (forall a, find_all update s h a = []) /\ recent (side update s h) = [] /\
  forall x, find_all update (store_tx update s h x) h (f_from x) = [mk_ftx (f_from x) (f_to x) (f_data x) 1].
Proof.
  intros update h l F H s. assert (side update s h = no_store) as E.
  { unfold s. rewrite other_side; [unfold side; destruct (update <? h); reflexivity|]. eapply Forall_impl; [|exact F]. intros p Hp. cbn beta in *. lia. }
  unfold find_all. rewrite E. repeat match goal with |- _ /\ _ => split end; try reflexivity. intro x. rewrite side_store by reflexivity. rewrite E.
  unfold store_in. destruct (Z.eqb_spec (f_to x) (f_from x)) as [Q|Q].
  - cbn. rewrite Z.eqb_refl. reflexivity.
  - rewrite put_others by congruence. cbn. rewrite Z.eqb_refl. reflexivity.
Qed.
Print Assumptions C117_update_hides_history_refuted.

Definition x12 (d : Z) : ftx := mk_ftx 1 2 d 0.
Definition x31 (d : Z) : ftx := mk_ftx 3 1 d 0.
Example C117_history_case :
  let l := [(11, x12 5); (11, mk_ftx 2 2 6 0); (12, x31 7); (15, x12 8)] in
  one_side 10 20 l /\ find_all 10 (run 10 no_arch l) 20 1 = [mk_ftx 1 2 5 1; mk_ftx 3 1 7 2; mk_ftx 1 2 8 3] /\
  find_all 10 (run 10 no_arch l) 20 2 = [mk_ftx 1 2 5 1; mk_ftx 2 2 6 2; mk_ftx 1 2 8 3] /\
  find_range 10 (run 10 no_arch l) 20 1 1 3 = [mk_ftx 3 1 7 2; mk_ftx 1 2 8 3] /\ find_all 10 (run 10 no_arch l) 5 1 = [].
Proof. cbv zeta. split; [repeat apply Forall_cons; try apply Forall_nil; reflexivity|]. vm_compute. auto 10. Qed.

(* ---- the pages ---- *)
(* The first page, every page within the outgoing transfers, and every page when nothing has
   come in or finished, is the page of one list: waiting, batched, incoming, then finished
   transfers, the newest first. *)
Theorem C117_pages_partial : forall update h l a off lim pool batched incoming, one_side update h l -> 0 <= off -> 0 <= lim -> off + lim < 2 ^ 64 ->
  let s := run update no_arch l in let done := map shown (rev (history a (map snd l))) in
  off = 0 \/ off + lim <= Z.of_nat (length (pool ++ batched)) \/ (incoming = [] /\ done = []) ->
  query update s h (Some (mk_who a a)) off lim pool batched incoming = page off lim (pool ++ batched ++ incoming ++ done).
Proof.
  intros update h l a off lim pool batched incoming O Ho Hl Hw s done Cases.
  assert (good (side update s h) (map snd l)) as [G _].
  { apply run_good; [|exact O]. split; [intro b|]; unfold side; destruct (update <? h); reflexivity. }
  set (L := history a (map snd l)) in *. unfold query, find_range. cbn [w_any w_hex].
  assert (so_far off lim [] (@nil item, 0)) as S0 by (split; [unfold page; rewrite skipn_nil, firstn_nil; reflexivity|reflexivity]).
  pose proof (out_page off lim [] _ pool Ho Hl Hw S0) as S1. cbn [app] in S1. pose proof (out_page off lim pool _ batched Ho Hl Hw S1) as S2.
  set (p2 := stage_out off lim (stage_out off lim ([], 0) pool) batched) in *.
  (* what the last part adds *)
  assert (forall K txs, txs = page off lim K -> (off = 0 \/ lim <= Z.of_nat (length txs) \/ done = []) ->
    (if 0 <? lim - Z.of_nat (length txs)
     then txs ++ map show (rev (zvals (filter (fun p => ((if last_index (side update s h) a <? lim - Z.of_nat (length txs) then 0 else last_index (side update s h) a - (lim - Z.of_nat (length txs))) + 1 <=? fst p) &&
              (fst p <? last_index (side update s h) a + 1)) (by_addr (side update s h) a))))
     else txs) = page off lim (K ++ done)) as Last.
  { intros K txs E C. destruct (Z.ltb_spec 0 (lim - Z.of_nat (length txs))) as [P|P].
    - rewrite (finished_part (side update s h) a L (lim - Z.of_nat (length txs)) (G a) P). fold done. rewrite page_app, <- E. f_equal. destruct C as [C|[C|C]]; [|lia|].
      + subst off. rewrite E in P. rewrite E, (page_short 0 lim K) by lia. cbn [Z.to_nat skipn Nat.sub]. f_equal. lia.
      + rewrite C. rewrite skipn_nil, !firstn_nil. reflexivity.
    - rewrite E. symmetry. apply page_full; [exact Hl|rewrite <- E; lia]. }
  destruct Cases as [->|[C|[-> D]]].
  - pose proof (in_first lim (pool ++ batched) p2 incoming Hl ltac:(lia) S2) as [E3 _]. destruct (stage_in 0 lim p2 incoming) as [txs cnt]. cbn [fst] in E3.
    rewrite <- app_assoc in E3. rewrite (Last _ txs E3); [|auto]. rewrite <- !app_assoc. reflexivity.
  - destruct S2 as [E2 _]. assert (lim <= Z.of_nat (length (fst p2))) as Full.
    { rewrite E2. unfold page. rewrite firstn_length, skipn_length. lia. }
    rewrite in_full by exact Full. destruct p2 as [txs cnt]. cbn [fst] in *. rewrite (Last _ txs E2) by auto. rewrite !app_assoc, <- (app_assoc _ incoming).
    assert (lim <= Z.of_nat (length (page off lim (pool ++ batched)))) as Full' by (rewrite <- E2; exact Full).
    rewrite (page_full off lim (pool ++ batched) done Hl Full'), (page_full off lim (pool ++ batched) (incoming ++ done) Hl Full'). reflexivity.
  - assert (fst (stage_in off lim p2 []) = fst p2) as E3 by (apply in_nothing; cbn [length]; lia). destruct S2 as [E2 _]. destruct (stage_in off lim p2 []) as [txs cnt]. cbn [fst] in E3.
    rewrite <- E3 in E2. rewrite (Last _ txs E2) by auto. rewrite <- app_assoc. reflexivity.
Qed.
Print Assumptions C117_pages_partial.

(* A page never has more entries than asked for. *)
Theorem C117_page_size : forall update h l a off lim pool batched incoming, one_side update h l -> 0 <= off -> 0 <= lim -> off + lim < 2 ^ 64 ->
  Z.of_nat (length (query update (run update no_arch l) h (Some (mk_who a a)) off lim pool batched incoming)) <= lim.
Proof.
  intros update h l a off lim pool batched incoming O Ho Hl Hw. set (s := run update no_arch l).
  assert (good (side update s h) (map snd l)) as [G _].
  { apply run_good; [|exact O]. split; [intro b|]; unfold side; destruct (update <? h); reflexivity. }
  unfold query, find_range. cbn [w_any w_hex].
  assert (so_far off lim [] (@nil item, 0)) as S0 by (split; [unfold page; rewrite skipn_nil, firstn_nil; reflexivity|reflexivity]).
  pose proof (out_page off lim [] _ pool Ho Hl Hw S0) as S1. cbn [app] in S1. pose proof (out_page off lim pool _ batched Ho Hl Hw S1) as [E2 _].
  set (p2 := stage_out off lim (stage_out off lim ([], 0) pool) batched) in *.
  assert (Z.of_nat (length (fst p2)) <= lim) as L2 by (rewrite E2; apply page_length; exact Hl).
  pose proof (in_length off lim p2 incoming L2) as L3. destruct (stage_in off lim p2 incoming) as [txs cnt]. cbn [fst] in L3.
  destruct (Z.ltb_spec 0 (lim - Z.of_nat (length txs))) as [P|P]; [|exact L3].
  rewrite (finished_part (side update s h) a _ (lim - Z.of_nat (length txs)) (G a) P). rewrite app_length, firstn_length. lia.
Qed.
Print Assumptions C117_page_size.

(* Beyond the transfers under way every page shows the same newest finished transfers,
   whatever the offset: the older ones are on no page. *)
Theorem C117_finished_repeat_refuted : forall update h l a off lim pool batched incoming, one_side update h l -> 0 <= lim -> off + lim < 2 ^ 64 ->
  Z.of_nat (length (pool ++ batched)) + Z.of_nat (length incoming) <= off ->
  query update (run update no_arch l) h (Some (mk_who a a)) off lim pool batched incoming = page 0 lim (map shown (rev (history a (map snd l)))).
Proof.
  intros update h l a off lim pool batched incoming O Hl Hw H. set (s := run update no_arch l).
  assert (good (side update s h) (map snd l)) as [G _].
  { apply run_good; [|exact O]. split; [intro b|]; unfold side; destruct (update <? h); reflexivity. }
  unfold query, find_range. cbn [w_any w_hex].
  assert (so_far off lim [] (@nil item, 0)) as S0 by (split; [unfold page; rewrite skipn_nil, firstn_nil; reflexivity|reflexivity]).
  pose proof (out_page off lim [] _ pool ltac:(lia) Hl Hw S0) as S1. cbn [app] in S1. pose proof (out_page off lim pool _ batched ltac:(lia) Hl Hw S1) as [E2 _].
  set (p2 := stage_out off lim (stage_out off lim ([], 0) pool) batched) in *.
  assert (fst (stage_in off lim p2 incoming) = fst p2) as E3 by (apply in_nothing; lia). destruct (stage_in off lim p2 incoming) as [txs cnt]. cbn [fst] in E3.
  assert (txs = []) as -> by (rewrite E3, E2; unfold page; rewrite skipn_all2 by lia; apply firstn_nil). cbn [length]. rewrite Z.sub_0_r.
  destruct (Z.ltb_spec 0 lim) as [P|P].
  - rewrite (finished_part (side update s h) a _ lim (G a) P). reflexivity.
  - unfold page. replace (Z.to_nat lim) with 0%nat by lia. reflexivity.
Qed.
Print Assumptions C117_finished_repeat_refuted.

(* An incoming transfer can be on no page at all: one transfer waits and three come in; with
   pages of two, the second that came in is never shown. *)
Theorem C117_incoming_lost_refuted : forall k, 0 <= k -> 2 * k + 2 < 2 ^ 64 ->
  ~ In (Live 11) (query 10 no_arch 20 (Some (mk_who 1 1)) (2 * k) 2 [Live 1] [] [Live 10; Live 11; Live 12]).
Proof.
  intros k K W. destruct (Z_le_gt_dec 2 k) as [C|C].
  - rewrite (C117_finished_repeat_refuted 10 20 [] 1 (2 * k) 2); [intros []|constructor|lia|lia|cbn [length app]; lia].
  - assert (k = 0 \/ k = 1) as [->| ->] by lia; vm_compute; intros H; repeat destruct H as [H|H]; try discriminate; contradiction.
Qed.
Print Assumptions C117_incoming_lost_refuted.

(* A finished transfer can be on no page: two have finished, and every page of one shows the
   second. *)
Theorem C117_finished_lost_refuted : forall off, 0 <= off -> off + 1 < 2 ^ 64 ->
  query 10 (run 10 no_arch [(11, x12 5); (12, x12 6)]) 20 (Some (mk_who 1 1)) off 1 [] [] [] = [Done 1 2 6].
Proof.
  intros off H W. rewrite C117_finished_repeat_refuted; [reflexivity|repeat apply Forall_cons; try apply Forall_nil; reflexivity|lia|exact W|cbn [length app]; lia].
Qed.
Print Assumptions C117_finished_lost_refuted.

(* Asked for without an address, any page carries up to a hundred finished transfers more
   than asked for, even a page of none. *)
Theorem C117_page_without_address_refuted : forall update h l off pool batched incoming, one_side update h l ->
  query update (run update no_arch l) h None off 0 pool batched incoming = map shown (rev (newest 100 (map snd l))).
Proof.
  intros update h l off pool batched incoming O. destruct (C117_history update h l O) as (_ & _ & _ & R). unfold query, stage_out, stage_in. cbn [length Z.of_nat Z.sub Z.ltb Z.compare app].
  change show with shown. rewrite map_rev, R, <- map_rev. reflexivity.
Qed.
Print Assumptions C117_page_without_address_refuted.

(* Asked for by its bech32 text, an address shows the finished transfers of another one: here
   of nobody. *)
Theorem C117_other_spelling_refuted :
  query 10 (run 10 no_arch [(11, x12 5)]) 20 (Some (mk_who 1 1)) 0 9 [] [] [] = [Done 1 2 5] /\
  query 10 (run 10 no_arch [(11, x12 5)]) 20 (Some (mk_who 1 99)) 0 9 [] [] [] = [].
Proof. vm_compute. auto. Qed.
Print Assumptions C117_other_spelling_refuted.

Example C117_pages_case :
  let q := fun off lim => query 10 (run 10 no_arch [(11, x12 5); (12, x31 6)]) 20 (Some (mk_who 1 1)) off lim [Live 3; Live 2] [Live 1] [Live 10] in
  q 0 10 = [Live 3; Live 2; Live 1; Live 10; Done 3 1 6; Done 1 2 5] /\ q 0 2 = [Live 3; Live 2] /\ q 1 2 = [Live 2; Live 1] /\ q 0 5 = [Live 3; Live 2; Live 1; Live 10; Done 3 1 6] /\
  q 4 2 = [Done 3 1 6; Done 1 2 5] /\ q 5 1 = [Done 3 1 6].
Proof. vm_compute. auto 10. Qed.
