(* C16, C17, C50: delta encoding, external sort, truncated chunk files. *)
From Verif Require Import Lib.Base Lib.Bytes Lib.Codec Wal.Proofs Extsort.Model Extsort.Spec Extsort.Proofs.
Open Scope Z_scope.

(* ---------------- C16 ---------------- *)

(* decoding gives every item, in order, and then the end of the file *)
Theorem C16_delta_round_trip : forall items, Forall (fun k => blen k < 2 ^ 63) items -> yields (Stream true [] (delta_encode [] items)) items.
Proof. intros items H. apply yields_delta. exact H. Qed.
(* whatever item was written before *)
Theorem C16_delta_round_trip_any_start : forall last items, Forall (fun k => blen k < 2 ^ 63) items -> yields (Stream true last (delta_encode last items)) items.
Proof. intros last items H. apply yields_delta. exact H. Qed.
Theorem C16_plain_round_trip : forall items, Forall (fun k => blen k < 2 ^ 63) items -> yields (Stream false [] (plain_encode items)) items.
Proof. intros items H. apply yields_plain. exact H. Qed.

Lemma yields_det s a : yields s a -> forall b, yields s b -> a = b.
Proof.
  induction 1 as [s E|s x s' l E Y IH]; intros b Yb; inversion Yb as [s0 E'|s0 x' s'' l' E' Y']; subst; rewrite E in E'; try discriminate; [reflexivity|].
  inversion E'; subst. f_equal. apply IH. exact Y'.
Qed.
(* no two lists have the same encoding *)
Theorem C16_delta_injective : forall a b, Forall (fun k => blen k < 2 ^ 63) a -> Forall (fun k => blen k < 2 ^ 63) b ->
  delta_encode [] a = delta_encode [] b -> a = b.
Proof.
  intros a b Ha Hb E. pose proof (C16_delta_round_trip a Ha) as Ya. rewrite E in Ya. exact (yields_det _ _ Ya _ (C16_delta_round_trip b Hb)).
Qed.
Example C16_demo : let items := [[1; 2; 3]; [1; 2; 3]; []; [1; 2; 9]; [1]]%N in
  delta_encode [] items = [0; 3; 1; 2; 3; 3; 0; 0; 0; 0; 3; 1; 2; 9; 1; 0]%N /\ yields (Stream true [] (delta_encode [] items)) items.
Proof. split; [reflexivity|]. apply C16_delta_round_trip. repeat constructor. Qed.

(* ---------------- C17 ---------------- *)

(* For every strict weak order, every correct library sort and compressor, every
   chunk size limit, every interleaving of feeding and finishing chunk goroutines
   and every order in which the rest finish: the merged stream has exactly the
   fed items, in order. *)
Theorem C17_sorted_permutation : forall less sort_slice compress decompress,
  weak_order less -> sorts less sort_slice -> (forall b, decompress (compress b) = b) ->
  forall max_size delta es s order h fuel,
  run sort_slice compress max_size delta new_sorter es = Ok s ->
  finalize less sort_slice compress decompress delta s order = Ok h ->
  (length (fed es) < fuel)%nat ->
  exists out, drain less fuel h = Ok out /\ Permutation out (fed es) /\ sorted_by less out.
Proof.
  intros less sort_slice compress decompress W Hs Hc max_size delta es s order h fuel Hr Hf Hl.
  assert (C0 : contains sort_slice compress delta new_sorter []).
  { exists []. unfold new_sorter. cbn. repeat split; try constructor; lia. }
  pose proof (run_contains sort_slice compress decompress Hc max_size delta es _ _ _ C0 Hr) as C. cbn [app] in C.
  apply (drain_ok less W fuel h (fed es)); [|exact Hl].
  exact (finalize_ok less W sort_slice compress decompress Hs Hc delta s (fed es) order h C Hf).
Qed.

Lemma run_total sort_slice compress max delta es : forall s, Forall (fun x => blen x < 2 ^ 32) (fed es) -> exists s', run sort_slice compress max delta s es = Ok s'.
Proof.
  induction es as [|e es IH]; intros s H; [exists s; reflexivity|]. destruct e as [x|i]; cbn [run run_step fed] in *.
  - inversion H as [|? ? Hx Hrest]; subst. unfold feed. replace (2 ^ 32 - 1 <? blen x) with false by lia. cbn [rbind].
    destruct (max <=? _); apply IH; exact Hrest.
  - cbn [rbind]. apply IH. exact H.
Qed.
(* feeding only fails for items of 2^32 bytes or more, and once every goroutine
   has finished the merge starts: nothing gets stuck or panics *)
Theorem C17_always_succeeds : forall less sort_slice compress decompress,
  weak_order less -> sorts less sort_slice -> (forall b, decompress (compress b) = b) ->
  forall max_size delta es, Forall (fun x => blen x < 2 ^ 32) (fed es) ->
  exists s, run sort_slice compress max_size delta new_sorter es = Ok s /\
    forall order, s_running (fold_left (finish sort_slice compress delta) order (if 0 <? s_size s then rotate s else s)) = [] ->
    exists h, finalize less sort_slice compress decompress delta s order = Ok h.
Proof.
  intros less sort_slice compress decompress W Hs Hc max_size delta es H.
  destruct (run_total sort_slice compress max_size delta es new_sorter H) as [s Hr]. exists s. split; [exact Hr|]. intros order Ho.
  assert (C0 : contains sort_slice compress delta new_sorter []).
  { exists []. unfold new_sorter. cbn. repeat split; try constructor; lia. }
  exact (finalize_succeeds less W sort_slice compress decompress Hs Hc delta s _ order (run_contains sort_slice compress decompress Hc max_size delta es _ _ _ C0 Hr) Ho).
Qed.
Theorem C17_oversized_item_rejected : forall max_size s x, 2 ^ 32 <= blen x -> feed max_size s x = Err.
Proof. intros max_size s x H. unfold feed. replace (2 ^ 32 - 1 <? blen x) with true by lia. reflexivity. Qed.
(* after the last item the stream keeps answering with the end *)
Theorem C17_end_is_final : forall less, merge_next less [] = Ok (None, []).
Proof. reflexivity. Qed.

(* a library sort that keeps the promise *)
Fixpoint ins (x : bytes) (l : list bytes) : list bytes := match l with [] => [x] | y :: l' => if bltb x y then x :: l else y :: ins x l' end.
Fixpoint isort (l : list bytes) : list bytes := match l with [] => [] | x :: l' => ins x (isort l') end.
Lemma bltb_order : weak_order bltb.
Proof.
  split.
  - intros a b H. apply bltb_false. apply blt_le. apply bltb_spec. exact H.
  - intros a b c H1 H2. apply bltb_false in H1. apply bltb_false in H2. apply bltb_false. exact (ble_trans _ _ _ H1 H2).
Qed.
Lemma ins_perm x l : Permutation (x :: l) (ins x l).
Proof. induction l as [|y l IH]; [apply Permutation_refl|]. cbn [ins]. destruct (bltb x y); [apply Permutation_refl|]. eapply Permutation_trans; [apply perm_swap|]. apply perm_skip. exact IH. Qed.
Lemma ins_sorted x l : sorted_by bltb l -> sorted_by bltb (ins x l).
Proof.
  induction 1 as [|y l S IH F]; cbn [ins]; [constructor; constructor|].
  destruct (bltb x y) eqn:E.
  - constructor; [constructor; assumption|]. constructor; [exact (proj1 bltb_order _ _ E)|]. eapply Forall_impl; [|exact F]. intros a Ha.
    exact (proj2 bltb_order _ _ _ (proj1 bltb_order _ _ E) Ha).
  - constructor; [exact IH|]. eapply Permutation_Forall; [apply ins_perm|]. constructor; [exact E|exact F].
Qed.
Lemma isort_sorts : sorts bltb isort.
Proof.
  intro l. induction l as [|x l [P S]]; cbn [isort]; [split; constructor|]. split; [|apply ins_sorted; exact S].
  eapply Permutation_trans; [apply perm_skip; exact P|apply ins_perm].
Qed.

Definition demo_schedule : list sstep :=
  [SFeed [5]; SFeed [3; 1]; SFeed []; SFeed [9]; SFinish 0; SFeed [3; 1]; SFeed [2]; SFeed [7; 7; 7; 7; 7]; SFeed [1]; SFeed [4]]%N.
Example C17_demo : exists s h, run isort (fun b => b) 12 true new_sorter demo_schedule = Ok s /\ length (s_running s) = 2%nat /\
  finalize bltb isort (fun b => b) (fun b => b) true s [2; 0; 1; 0]%nat = Ok h /\
  drain bltb 10 h = Ok [[]; [1]; [2]; [3; 1]; [3; 1]; [4]; [5]; [7; 7; 7; 7; 7]; [9]]%N.
Proof.
  destruct (run isort (fun b => b) 12 true new_sorter demo_schedule) as [s| |] eqn:E; [|vm_compute in E; discriminate|vm_compute in E; discriminate].
  vm_compute in E. injection E as <-. eexists. eexists. split; [reflexivity|]. split; [reflexivity|]. split; [vm_compute; reflexivity|]. vm_compute; reflexivity.
Qed.

(* ---------------- C50 ---------------- *)

(* gives the items and then an error *)
Inductive breaks : stream -> list bytes -> Prop :=
| breaks_now s : stream_next s = Fail -> breaks s []
| breaks_later s x s' l : stream_next s = Item (x, s') -> breaks s' l -> breaks s (x :: l).

Lemma uvarint_cut x cut more : 0 <= x < 2 ^ 64 -> uvarint x = cut ++ more -> more <> [] -> read_uvarint cut = None.
Proof.
  intros Hx E Hm. destruct (read_uvarint cut) as [[v r]|] eqn:Er; [|reflexivity]. exfalso.
  pose proof (read_uvarint_fuel_app _ _ _ _ _ _ more Er) as A. pose proof (read_uvarint_uvarint x [] Hx) as B. rewrite app_nil_r, E in B.
  unfold read_uvarint in B. rewrite A in B. inversion B as [[H1 H2]]. apply app_eq_nil in H2. destruct H2 as [_ H2]. exact (Hm H2).
Qed.
Lemma app_eq_cases {A} (a b c d : list A) : a ++ b = c ++ d -> (exists m, m <> [] /\ a = c ++ m) \/ (exists m, c = a ++ m /\ b = m ++ d).
Proof.
  revert c. induction a as [|x a IH]; intros c E.
  - right. exists c. auto.
  - destruct c as [|y c]; [left; exists (x :: a); split; [discriminate|reflexivity]|]. cbn in E. inversion E; subst. destruct (IH c H1) as [[m [Hm ->]] | [m [-> ->]]].
    + left. exists m. auto.
    + right. exists m. auto.
Qed.
(* plain encoding: a file cut inside an item is reported, after the whole items *)
Theorem C50_plain_truncation_reported : forall items key cut more,
  Forall (fun k => blen k < 2 ^ 63) items -> blen key < 2 ^ 63 ->
  uvarint (blen key) ++ key = cut ++ more -> cut <> [] -> more <> [] ->
  breaks (Stream false [] (plain_encode items ++ cut)) items.
Proof.
  intros items key cut more Hi Hk E Hc Hm. induction items as [|x items IH]; cbn [plain_encode app].
  - apply breaks_now. unfold stream_next. cbn [st_delta st_rest]. pose proof (blen_nonneg key) as Hb.
    assert (P : plain_read cut = Fail); [|rewrite P; reflexivity].
    unfold plain_read. destruct (app_eq_cases _ _ _ _ E) as [[m [Hmm Ek]] | [m [Ec Ek]]].
    + unfold rd_uvarint. destruct cut as [|c cut]; [congruence|]. rewrite (uvarint_cut (blen key) (c :: cut) m ltac:(lia) Ek Hmm). reflexivity.
    + rewrite Ec, rd_uvarint_uvarint by lia. cbn [rd_bind]. replace (2 ^ 63 <=? blen key) with false by lia.
      assert (L : (length m < Z.to_nat (blen key))%nat).
      { unfold blen. rewrite Nat2Z.id, Ek, app_length. destruct more; [congruence|cbn; lia]. }
      unfold rd_full. destruct (Z.to_nat (blen key)) as [|n]; [lia|]. destruct m as [|y m]; [reflexivity|].
      replace (length (y :: m) <? S n)%nat with true by (symmetry; apply Nat.ltb_lt; exact L). reflexivity.
  - inversion Hi; subst. eapply breaks_later; [|apply IH; assumption]. unfold stream_next. cbn [st_delta st_rest st_last].
    rewrite <- !app_assoc. rewrite plain_read_write by assumption. reflexivity.
Qed.
(* delta encoding: a file cut right after the sizes of an item, or between them,
   ends like a complete file: the item disappears without an error *)
Theorem C50_delta_truncation_refuted : forall items key, Forall (fun k => blen k < 2 ^ 63) items -> blen key < 2 ^ 63 -> key <> [] ->
  diff_offset (last items []) key = 0%nat ->
  exists cut more, delta_write (last items []) key = cut ++ more /\ cut <> [] /\ more = key /\
    yields (Stream true [] (delta_encode [] items ++ cut)) items.
Proof.
  intros items key Hi Hk Hn Hd. exists (uvarint 0 ++ uvarint (blen key)), key. unfold delta_write. rewrite Hd. cbn [skipn].
  split; [rewrite Nat.sub_0_r, <- app_assoc; reflexivity|]. split; [discriminate|]. split; [reflexivity|]. clear Hd.
  assert (G : forall l, yields (Stream true l (delta_encode l items ++ uvarint 0 ++ uvarint (blen key))) items); [|apply G].
  induction items as [|x items IH]; intros l; cbn [delta_encode app].
  - apply yields_nil. unfold stream_next. cbn [st_delta st_rest st_last]. unfold delta_read. change 0 with (Z.of_nat 0) at 1.
    rewrite rd_uvarint_uvarint by lia. cbn [rd_bind]. pose proof (blen_nonneg key). rewrite <- (app_nil_r (uvarint (blen key))), rd_uvarint_uvarint by lia. cbn [rd_bind].
    cbn [Z.of_nat]. rewrite Z.mod_small by lia. rewrite Z.add_0_l.
    replace ((2 ^ 63 <=? blen key) || (blen key <? 0) || (blen l <? 0)) with false by (pose proof (blen_nonneg l); lia).
    unfold rd_full. destruct (Z.to_nat (blen key - 0)) eqn:E; [|reflexivity]. exfalso. destruct key; [congruence|]. unfold blen in E. cbn [length] in E. lia.
  - inversion Hi; subst. eapply yields_cons; [|apply IH; assumption]. unfold stream_next. cbn [st_delta st_rest st_last]. rewrite <- app_assoc.
    rewrite delta_read_write by assumption. reflexivity.
Qed.
Example C50_demo : breaks (Stream false [] (plain_encode [[1]; [2; 2]] ++ [3; 9]))%N [[1]; [2; 2]]%N /\
  yields (Stream true [] (delta_encode [] [[1]; [2; 2]] ++ [0; 3]))%N [[1]; [2; 2]]%N.
Proof.
  split.
  - apply (C50_plain_truncation_reported _ [9; 9; 9]%N [3; 9]%N [9; 9]%N); try reflexivity; try discriminate. repeat constructor.
  - destruct (C50_delta_truncation_refuted [[1]; [2; 2]]%N [9; 9; 9]%N) as [cut [more [E [_ [-> Y]]]]]; try reflexivity; try discriminate; [repeat constructor|].
    replace cut with [0; 3]%N in Y; [exact Y|]. apply (app_inv_tail [9; 9; 9]%N). symmetry in E. rewrite E. reflexivity.
Qed.

Print Assumptions C16_delta_round_trip.
Print Assumptions C16_delta_round_trip_any_start.
Print Assumptions C16_plain_round_trip.
Print Assumptions C16_delta_injective.
Print Assumptions C17_sorted_permutation.
Print Assumptions C17_always_succeeds.
Print Assumptions C17_oversized_item_rejected.
Print Assumptions C17_end_is_final.
Print Assumptions C50_plain_truncation_reported.
Print Assumptions C50_delta_truncation_refuted.
