(* C12: a corrupted log tail is cut to the longest valid prefix. *)
From Verif Require Import Lib.Base Lib.Bytes Lib.Codec Wal.Model Wal.Spec Wal.Proofs.
Open Scope Z_scope.

(* every segment has exactly one longest prefix of whole entries *)
Theorem C12_longest_prefix_exists : forall json f data, exists es, longest json f data es /\ forall es', longest json f data es' -> es' = es.
Proof.
  intros json f data. destruct (longest_exists json f data) as [es [rest [_ [H _]]]]. exists es. split; [exact H|].
  intros es' H'. exact (longest_unique json f data es' es H' H).
Qed.

(* the exact result, for every content: the longest valid prefix, except when
   the valid prefix is exactly half of the file, which is left alone *)
Theorem C12_truncate_exact : forall json f data es, longest json f data es ->
  truncate_corrupted_tail json f data = if (2 * length (concat es) =? length data)%nat then data else concat es.
Proof. exact truncate_spec. Qed.

(* opening: a well-formed segment is not touched; a corrupted one opens with the
   entries of the longest prefix and the file holds exactly these, unless the
   valid prefix is half of the file *)
Theorem C12_open_repairs_tail_partial : forall json f data es, longest json f data es -> data = [] \/ (2 * length (concat es) <> length data)%nat ->
  open_wal json f data = (concat es, Some es).
Proof.
  intros json f data es H Hn. unfold open_wal. destruct (open_segment json f data) as [es'|] eqn:E.
  - apply open_segment_iff in E. destruct E as [-> He]. rewrite (longest_unique json f _ _ _ H (longest_concat json f es' He)). reflexivity.
  - destruct Hn as [-> | Hn]; [discriminate|].
    rewrite (truncate_spec json f data es H). replace (2 * length (concat es) =? length data)%nat with false by (symmetry; apply Nat.eqb_neq; exact Hn).
    f_equal. apply open_segment_iff. split; [reflexivity|exact (proj1 H)].
Qed.
(* a log that already opens is never modified, whatever its length *)
Theorem C12_valid_segment_untouched : forall json f es, Forall (entry json f) es -> open_wal json f (concat es) = (concat es, Some es).
Proof.
  intros json f es H. unfold open_wal. replace (open_segment json f (concat es)) with (Some es); [reflexivity|]. symmetry. apply open_segment_iff. auto.
Qed.
(* a torn append: any list of whole entries followed by part of the next one *)
Theorem C12_torn_append_partial : forall json items e torn more,
  Forall (fun x => blen x < 2 ^ 64) items -> blen e < 2 ^ 64 -> lp e = torn ++ more -> more <> [] ->
  let file := concat (map lp items) in
  length file <> length torn ->
  open_wal json Binary (file ++ torn) = (file, Some (map lp items)).
Proof.
  intros json items e torn more Hi He Et Hm file Hn.
  assert (Hes : entries json Binary (map lp items)).
  { apply Forall_forall. intros x Hx. apply in_map_iff in Hx. destruct Hx as [y [<- Hy]]. apply lp_entry. rewrite Forall_forall in Hi. exact (Hi y Hy). }
  apply C12_open_repairs_tail_partial.
  - apply longest_torn; [exact Hes|]. exact (torn_none json Binary (lp e) torn more (lp_entry json e He) Et Hm).
  - right. fold file. rewrite app_length. lia.
Qed.
(* ...and the coincidence: a torn append whose length equals that of the valid
   part is not repaired, and the log cannot be opened at all *)
Theorem C12_equal_lengths_refuted : exists items e torn more,
  Forall (fun x => blen x < 2 ^ 64) items /\ blen e < 2 ^ 64 /\ lp e = torn ++ more /\ more <> [] /\
  forall json, longest json Binary (concat (map lp items) ++ torn) (map lp items) /\
    open_wal json Binary (concat (map lp items) ++ torn) = (concat (map lp items) ++ torn, None).
Proof.
  exists [[1; 2; 3]]%N, [4; 5; 6; 7]%N, [4; 4; 5; 6]%N, [7%N].
  split; [repeat constructor|]. split; [reflexivity|]. split; [reflexivity|]. split; [discriminate|]. intro json.
  split; [|reflexivity]. apply longest_torn; [|right; reflexivity]. constructor; [|constructor]. apply lp_entry. reflexivity.
Qed.
(* in general: every segment half of which is valid is left unusable *)
Theorem C12_half_valid_never_opens_refuted : forall json f data es, longest json f data es -> data <> [] ->
  (2 * length (concat es) = length data)%nat -> open_wal json f data = (data, None).
Proof.
  intros json f data es H Hd Hl. unfold open_wal. destruct (open_segment json f data) as [es'|] eqn:E.
  - exfalso. apply open_segment_iff in E. destruct E as [-> He]. rewrite (longest_unique json f _ _ _ H (longest_concat json f es' He)) in Hl.
    destruct (concat es'); [apply Hd; reflexivity|cbn [length] in Hl; lia].
  - rewrite (truncate_spec json f data es H). rewrite <- Hl, Nat.eqb_refl. rewrite E. reflexivity.
Qed.

Example C12_demo : open_wal (fun _ => true) Binary [3; 1; 2; 3; 0; 5; 4; 4]%N = ([3; 1; 2; 3; 0]%N, Some [[3; 1; 2; 3]; [0]]%N) /\
  open_wal (fun l => match l with [] => false | _ => true end) Json [65; 10; 66; 67; 10; 10; 68; 10]%N = ([65; 10; 66; 67; 10]%N, Some [[65; 10]; [66; 67; 10]]%N) /\
  open_wal (fun _ => true) Binary (repeat 255%N 11) = ([], Some []).
Proof. repeat split. Qed.
Example C12_torn_demo : exists items e torn more, lp e = torn ++ more /\ more <> [] /\ length (concat (map lp items)) <> length torn /\
  items = [[1]; []; [2; 3]]%N /\ torn <> [].
Proof. exists [[1]; []; [2; 3]]%N, [9; 9]%N, [2; 9]%N, [9%N]. repeat split; discriminate. Qed.

Print Assumptions C12_longest_prefix_exists.
Print Assumptions C12_truncate_exact.
Print Assumptions C12_open_repairs_tail_partial.
Print Assumptions C12_valid_segment_untouched.
Print Assumptions C12_torn_append_partial.
Print Assumptions C12_equal_lengths_refuted.
Print Assumptions C12_half_valid_never_opens_refuted.
