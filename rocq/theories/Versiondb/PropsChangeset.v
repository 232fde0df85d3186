From Verif Require Import Lib.Base Lib.Bytes Lib.Codec Extsort.Model Extsort.Props Versiondb.Changeset Versiondb.ChangesetSpec Versiondb.ChangesetProofs.
Open Scope Z_scope.

Lemma complete_all : forall vs n, blen (write_file vs) <= n -> complete n vs = vs.
Proof.
  induction vs as [|x r IH]; intros n H; cbn [complete]; [reflexivity|]. unfold write_file in H. cbn [flat_map] in H. rewrite blen_app in H. fold (write_file r) in H.
  pose proof (blen_nonneg (write_file r)). replace (_ <=? _) with true by lia. rewrite IH by lia. reflexivity.
Qed.

(* What was written with WriteChangeSet is given back, change set by change set: versions, keys,
   values and deletions, with the offset after the last accepted one; and without an error. *)
Theorem C74_read_back parse f vs : Forall set_ok vs ->
  iterate parse f (write_file vs) = deliver f (shown parse) Fine vs [] 0.
Proof.
  intros F. destruct (iterate_cut parse f vs (blen (write_file vs)) (S (length (write_file vs))) [] 0 F) as (e & _ & Hf & E); [apply blen_nonneg|unfold blen; rewrite Nat2Z.id, firstn_all; lia|].
  rewrite Hf in E by lia. rewrite complete_all in E by lia. rewrite blen_nat, firstn_all in E. exact E.
Qed.
Print Assumptions C74_read_back.

(* A file that was cut anywhere, or that is still being written: the change sets that are
   complete are delivered, nothing else is, and the reported offset is the end of the last
   complete change set. *)
Theorem C74_cut parse f vs n : Forall set_ok vs -> 0 <= n ->
  exists e, (e = Fine \/ e = ReadError) /\ iterate parse f (firstn (Z.to_nat n) (write_file vs)) = deliver f (shown parse) e (complete n vs) [] 0.
Proof. intros F N. destruct (iterate_cut parse f vs n (S (length (firstn (Z.to_nat n) (write_file vs)))) [] 0 F N) as (e & H & _ & E); [lia|]. exists e. auto. Qed.
Print Assumptions C74_cut.

Lemma complete_prefix vs : forall n, exists r, vs = complete n vs ++ r.
Proof.
  induction vs as [|x r IH]; intros n; cbn [complete]; [exists []; reflexivity|]. destruct (_ <=? n); [|exists (x :: r); reflexivity].
  destruct (IH (n - blen (write_set (fst x) (snd x)))) as [t E]. exists t. cbn [app]. rewrite <- E. reflexivity.
Qed.
Lemma complete_fits vs : forall n, 0 <= n -> blen (write_file (complete n vs)) <= n.
Proof.
  induction vs as [|x r IH]; intros n H; cbn [complete]; [cbn; lia|]. destruct (Z.leb_spec (blen (write_set (fst x) (snd x))) n); [|cbn; lia].
  unfold write_file. cbn [flat_map]. rewrite blen_app. fold (write_file (complete (n - blen (write_set (fst x) (snd x))) r)). pose proof (IH (n - blen (write_set (fst x) (snd x))) ltac:(lia)). lia.
Qed.
Lemma deliver_all e show : forall vs done off, deliver (fun _ => GoOn) show e vs done off = (done ++ map show vs, off + blen (write_file vs), e).
Proof.
  induction vs as [|x r IH]; intros done off; cbn [deliver map]; [rewrite app_nil_r; cbn; rewrite Z.add_0_r; reflexivity|].
  rewrite IH, <- app_assoc. unfold write_file. cbn [flat_map app]. rewrite blen_app. do 2 f_equal. lia.
Qed.
(* Cutting the file back to the reported offset leaves a file with exactly the delivered change
   sets, to which further change sets can be appended. *)
Theorem C74_resume vs n more : Forall set_ok vs -> Forall set_ok more -> 0 <= n ->
  let '(got, off, _) := iterate true (fun _ => GoOn) (firstn (Z.to_nat n) (write_file vs)) in
  0 <= off <= n /\
  iterate true (fun _ => GoOn) (firstn (Z.to_nat off) (firstn (Z.to_nat n) (write_file vs)) ++ write_file more) = (got ++ more, off + blen (write_file more), Fine).
Proof.
  intros F M N. destruct (C74_cut true (fun _ => GoOn) vs n F N) as (e & _ & E). rewrite E, deliver_all. clear E. cbn [app]. rewrite Z.add_0_l.
  destruct (complete_prefix vs n) as [t T]. pose proof (complete_fits vs n N) as B. set (c := complete n vs) in *. split; [pose proof (blen_nonneg (write_file c)); lia|].
  assert (W : firstn (Z.to_nat (blen (write_file c))) (firstn (Z.to_nat n) (write_file vs)) = write_file c).
  { rewrite firstn_firstn. replace (Nat.min _ _) with (length (write_file c)) by (unfold blen in *; lia). rewrite T at 1. unfold write_file at 2. rewrite flat_map_app. apply (firstn_exact (length (write_file c)) (write_file c)). reflexivity. }
  rewrite W. assert (A : write_file c ++ write_file more = write_file (c ++ more)) by (unfold write_file; rewrite flat_map_app; reflexivity). rewrite A.
  rewrite C74_read_back.
  - rewrite deliver_all. cbn [app]. rewrite <- A, blen_app. cbn [shown]. rewrite !map_id. rewrite Z.add_0_l. reflexivity.
  - apply Forall_app. split; [|exact M]. rewrite T in F. apply Forall_app in F. tauto.
Qed.
Print Assumptions C74_resume.

(* The files that are used: all that have content, with the version of their first change set;
   a file shorter than a version number stops it. *)
Theorem C74_non_empty files :
  (non_empty files = Err <-> exists name b, In (name, b) files /\ (0 < length b < 8)%nat) /\
  (forall l, non_empty files = Ok l -> map fst l = map fst (filter (fun x => match snd x with [] => false | _ => true end) files)).
Proof.
  assert (V : forall b, first_version b = match b with [] => Eof | _ => if (length b <? 8)%nat then Fail else Item (unle (firstn 8 b)) end).
  { intros b. unfold first_version, rd_full. destruct b; [reflexivity|]. destruct (_ <? _)%nat; reflexivity. }
  induction files as [|[name b] r [IH1 IH2]].
  - split; [|intros l [= <-]; reflexivity]. split; [discriminate|]. intros (? & ? & [] & _).
  - cbn [non_empty filter snd]. rewrite V. destruct b as [|x b].
    + split; [|exact IH2]. rewrite IH1. split; intros (m & c & H & L); [exists m, c; split; [right; exact H|exact L]|]. destruct H as [H|H]; [injection H as <- <-; cbn in L; lia|]. exists m, c. auto.
    + destruct (Nat.ltb_spec (length (x :: b)) 8) as [L|L].
      * split; [|discriminate]. split; [|reflexivity]. intros _. exists name, (x :: b). split; [left; reflexivity|cbn in *; lia].
      * split.
        -- assert (Q : rbind (non_empty r) (fun l => Ok ((name, unle (firstn 8 (x :: b))) :: l)) = Err <-> non_empty r = Err) by (destruct (non_empty r); cbn; split; congruence).
           rewrite Q, IH1. split; intros (m & c & H & K); [exists m, c; split; [right; exact H|exact K]|]. destruct H as [H|H]; [injection H as <- <-; lia|]. exists m, c. auto.
        -- destruct (non_empty r) as [t| |] eqn:E; cbn [rbind]; intros l [= <-]. cbn [map fst]. rewrite (IH2 t eq_refl). reflexivity.
Qed.
Print Assumptions C74_non_empty.

(* two versions, one with a deletion *)
Definition two : list (Z * list (bytes * option bytes)) :=
  [(1, [([97]%N, Some [1; 2]%N); ([98]%N, None)]); (2, [([97]%N, None)])].
Example C74_case : Forall set_ok two /\ iterate true (fun _ => GoOn) (write_file two) = (two, 44, Fine) /\
  iterate true (fun _ => GoOn) (firstn 30 (write_file two)) = ([(1, [([97]%N, Some [1; 2]%N); ([98]%N, None)])], 25, ReadError).
Proof. split; [repeat constructor; cbn; lia|]. split; vm_compute; reflexivity. Qed.

(* What goes wrong: a file cut between two fields of a pair, or anywhere if only the versions
   are read, is taken for complete. *)
Theorem C74_cut_noticed_refuted : exists vs n, Forall set_ok vs /\ 0 <= n < blen (write_file vs) /\
  complete n vs <> vs /\
  iterate true (fun _ => GoOn) (firstn (Z.to_nat n) (write_file vs)) = (complete n vs, blen (write_file (complete n vs)), Fine) /\
  n <> blen (write_file (complete n vs)).
Proof.
  exists two, 42. split; [repeat constructor; cbn; lia|]. split; [vm_compute; split; [discriminate|reflexivity]|].
  split; [vm_compute; discriminate|]. split; [vm_compute; reflexivity|vm_compute; discriminate].
Qed.
Print Assumptions C74_cut_noticed_refuted.
(* reading only the versions never notices a cut after a header *)
Theorem C74_versions_cut_refuted : exists vs n, Forall set_ok vs /\ 0 <= n < blen (write_file vs) /\ complete n vs <> vs /\
  forall m, 16 <= m < n -> iterate false (fun _ => GoOn) (firstn (Z.to_nat m) (write_file vs)) = ([], 0, Fine).
Proof.
  exists [(7, [([1]%N, Some [2; 3]%N)])], 20. split; [repeat constructor; cbn; lia|]. split; [vm_compute; split; [discriminate|reflexivity]|]. split; [vm_compute; discriminate|].
  intros m H. assert (m = 16 \/ m = 17 \/ m = 18 \/ m = 19) as [->|[->|[->| ->]]] by lia; vm_compute; reflexivity.
Qed.
Print Assumptions C74_versions_cut_refuted.
