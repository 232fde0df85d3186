From Verif Require Import Lib.Base Epochs.Model Epochs.Spec Epochs.Proofs.
Open Scope Z_scope.

Definition day : epoch := Epoch "day" 100 10 0 0 false 0.
Definition week : epoch := Epoch "week" 100 70 0 0 false 0.
Definition two : store := [day; week].

(* ---------------- C25: the epoch clock ---------------- *)

(* Every identifier evolves as if it were alone: its record and the hook calls
   about it do not depend on the other stored epochs. *)
Theorem C25_identifiers_independent :
  forall s s' id e bs, NoDup (map identifier s) -> NoDup (map identifier s') ->
  get_epoch_info s id = Some e -> get_epoch_info s' id = Some e ->
  get_epoch_info (fst (run s bs)) id = get_epoch_info (fst (run s' bs)) id /\
  filter (about id) (snd (run s bs)) = filter (about id) (snd (run s' bs)).
Proof.
  intros s s' id e bs N N' G G'.
  destruct (run_project id bs s e N G) as [A B].
  destruct (run_project id bs s' e N' G') as [A' B'].
  split; congruence.
Qed.
Print Assumptions C25_identifiers_independent.

Example C25_identifiers_independent_ex :
  NoDup (map identifier two) /\ get_epoch_info two "day" = Some day /\
  get_epoch_info (fst (run two [(100, 1); (111, 2); (112, 3)])) "day" =
  get_epoch_info (fst (run [day] [(100, 1); (111, 2); (112, 3)])) "day".
Proof.
  split; [|vm_compute; split; reflexivity].
  repeat constructor; cbn; intuition discriminate.
Qed.

(* The start time of the current epoch is always on the grid fixed by the
   genesis start time and duration. *)
Theorem C25_clock_on_grid :
  forall s bs id e, NoDup (map identifier s) -> get_epoch_info s id = Some e -> on_grid e ->
  exists e', get_epoch_info (fst (run s bs)) id = Some e' /\
    start_time e' = start_time e /\ duration e' = duration e /\
    (started e' = true -> 1 <= current e' /\
       current_start_time e' = start_time e + (current e' - 1) * duration e).
Proof.
  intros s bs id e N G Hg. destruct (run_project id bs s e N G) as [A _].
  destruct (run1_grid bs e Hg) as (Hg' & F1 & F2 & _).
  exists (fst (run1 e bs)). repeat split; try assumption.
  - apply Hg'; assumption.
  - rewrite <- F1, <- F2. apply Hg'. assumption.
Qed.
Print Assumptions C25_clock_on_grid.

Example C25_clock_on_grid_ex :
  on_grid day /\
  match get_epoch_info (fst (run two [(100, 1); (150, 2); (151, 3); (152, 4)])) "day" with
  | Some e => (current e, current_start_time e) | None => (0, 0) end = (4, 130).
Proof. split; [intros H; discriminate|vm_compute; reflexivity]. Qed.

(* In one block the counter of a running epoch stays or grows by exactly one,
   and it grows exactly if the block time is strictly after the epoch's end. *)
Theorem C25_tick :
  forall s t h id e, NoDup (map identifier s) -> get_epoch_info s id = Some e ->
  started e = true -> start_time e <= t ->
  exists e', get_epoch_info (fst (begin_blocker s t h)) id = Some e' /\ started e' = true /\
    if current_start_time e + duration e <? t
    then current e' = current e + 1 /\ current_start_time e' = current_start_time e + duration e
    else e' = e.
Proof.
  intros s t h id e N G Hs Ht. rewrite begin_blocker_map by exact N. cbn [fst].
  rewrite find_ext_id by (intros; apply tick1_id). rewrite G. cbn [option_map].
  eexists. split; [reflexivity|]. unfold tick1. rewrite Hs. cbn [negb andb].
  destruct (current_start_time e + duration e <? t) eqn:E1;
    destruct (t <? start_time e) eqn:E2; try lia; cbn; repeat split; assumption.
Qed.
Print Assumptions C25_tick.

Example C25_tick_ex :
  let s := fst (begin_blocker two 100 1) in
  match get_epoch_info s "day" with Some e => (started e, current_start_time e + duration e <? 111, current_start_time e + duration e <? 110) | None => (false, false, false) end = (true, true, false).
Proof. vm_compute. reflexivity. Qed.

(* With a positive duration and non-decreasing block times the clock never runs
   ahead of block time. *)
Theorem C25_never_ahead :
  forall s bs id e t0, NoDup (map identifier s) -> get_epoch_info s id = Some e ->
  0 < duration e -> started e = false -> non_decreasing t0 bs ->
  exists e', get_epoch_info (fst (run s bs)) id = Some e' /\
    (started e' = true -> current_start_time e' <= last_time t0 bs).
Proof.
  intros s bs id e t0 N G Hd Hs Hb. destruct (run_project id bs s e N G) as [A _].
  exists (fst (run1 e bs)). split; [exact A|]. intros H.
  apply (run1_not_ahead bs e t0 Hd Hb); [|exact H]. intros H'. congruence.
Qed.
Print Assumptions C25_never_ahead.

Example C25_never_ahead_ex : non_decreasing 0 [(100, 1); (150, 2); (151, 3)] /\ started day = false.
Proof. cbn. lia. Qed.

(* With block gaps of at most one duration the clock never falls behind: block
   time stays inside the current epoch. *)
Theorem C25_in_sync :
  forall s bs id e t0, NoDup (map identifier s) -> get_epoch_info s id = Some e ->
  0 < duration e -> started e = true -> start_time e <= current_start_time e <= t0 ->
  t0 <= current_start_time e + duration e ->
  gaps_at_most (duration e) t0 bs ->
  exists e', get_epoch_info (fst (run s bs)) id = Some e' /\
    last_time t0 bs <= current_start_time e' + duration e.
Proof.
  intros s bs id e t0 N G Hd Hs Hc Ht Hg. destruct (run_project id bs s e N G) as [A _].
  exists (fst (run1 e bs)). split; [exact A|].
  apply (run1_in_sync bs e t0); try assumption. intros _. lia.
Qed.
Print Assumptions C25_in_sync.

Example C25_in_sync_ex :
  let e := Epoch "day" 100 10 1 100 true 0 in
  gaps_at_most 10 105 [(109, 2); (113, 3); (123, 4)] /\
  match get_epoch_info (fst (run [e] [(109, 2); (113, 3); (123, 4)])) "day" with
  | Some e' => current_start_time e' | None => 0 end = 120.
Proof. split; [cbn; lia|vm_compute; reflexivity]. Qed.

(* genesis validation guarantees the uniqueness of identifiers used above *)
Theorem C25_genesis_unique :
  forall es zero t h, genesis_valid es = true -> NoDup (map identifier (init_genesis zero t h es)).
Proof.
  intros es zero t h H. unfold init_genesis. rewrite map_map.
  exact (proj1 (genesis_valid_nodup es [] H)).
Qed.
Print Assumptions C25_genesis_unique.

Example C25_genesis_unique_ex : genesis_valid two = true /\ genesis_valid [day; day] = false.
Proof. vm_compute. split; reflexivity. Qed.

(* Validate rejects only a zero duration: a negative one is accepted and the
   clock then runs backwards, once per block. *)
Theorem C25_negative_duration_refuted :
  exists e bs, genesis_valid [e] = true /\ non_decreasing 100 bs /\
    match get_epoch_info (fst (run [e] bs)) (identifier e) with
    | Some e' => current e' = 4 /\ current_start_time e' < start_time e'
    | None => False end.
Proof.
  exists (Epoch "x" 100 (-10) 0 0 false 0), [(100, 1); (100, 2); (100, 3); (100, 4)].
  split; [reflexivity|]. split; [cbn; lia|]. vm_compute. split; reflexivity.
Qed.
Print Assumptions C25_negative_duration_refuted.

(* ---------------- C26: hook numbering ---------------- *)

(* What the code does, for every schedule: starting from a fresh epoch the hook
   calls about it are start 1, then for each further epoch k one end call and
   one start call, both with the NEW number k. *)
Theorem C26_hook_trace_partial :
  forall s bs id e, NoDup (map identifier s) -> get_epoch_info s id = Some e -> started e = false ->
  (filter (about id) (snd (run s bs)) = [] /\ get_epoch_info (fst (run s bs)) id = Some e) \/
  (exists k e', get_epoch_info (fst (run s bs)) id = Some e' /\ current e' = 1 + Z.of_nat k /\
     filter (about id) (snd (run s bs)) = BeforeEpochStart id 1 :: actual_ticks id 1 k).
Proof.
  intros s bs id e N G Hs. destruct (run_project id bs s e N G) as [A B].
  destruct (get_in _ _ _ G) as [_ Hid].
  destruct (run1_trace_fresh bs e Hs) as [[H1 H2]|(k & H1 & H2 & H3)].
  - left. rewrite B, A, H1, H2. auto.
  - right. exists k, (fst (run1 e bs)). rewrite B, H1, Hid. auto.
Qed.
Print Assumptions C26_hook_trace_partial.

Example C26_hook_trace_partial_ex :
  filter (about "day") (snd (run two [(100, 1); (111, 2); (121, 3)])) =
  BeforeEpochStart "day" 1 :: actual_ticks "day" 1 2.
Proof. vm_compute. reflexivity. Qed.

(* The documented contract (the end hook gets the number of the epoch that is
   ending) is violated. *)
Theorem C26_end_hook_number_refuted :
  exists s bs id e, NoDup (map identifier s) /\ get_epoch_info s id = Some e /\ started e = true /\
    forall k, filter (about id) (snd (run s bs)) <> documented_ticks id (current e) k.
Proof.
  exists [Epoch "day" 100 10 1 100 true 0], [(111, 2)], "day"%string, (Epoch "day" 100 10 1 100 true 0).
  split; [repeat constructor; cbn; tauto|]. split; [reflexivity|]. split; [reflexivity|].
  intros k. vm_compute. destruct k; discriminate.
Qed.
Print Assumptions C26_end_hook_number_refuted.
