From Coq Require Import Sorting.Sorted Permutation.
From Verif Require Import Lib.Base Lib.Bytes Lib.Codec Versiondb.Model Versiondb.Spec Versiondb.Proofs Versiondb.PropsReads Versiondb.Sst.
From Verif Require Extsort.Model Extsort.Spec Extsort.Props.
Open Scope Z_scope.

(* ---- items ---- *)
Lemma key_len_encode v p : blen (fst p) < 2 ^ 32 -> item_key_len (encode_item v p) = length (fst p).
Proof.
  intros H. pose proof (blen_nonneg (fst p)). unfold item_key_len, encode_item.
  assert (T : forall a b : bytes, length b = 4%nat -> skipn (length (a ++ b) - 4) (a ++ b) = b).
  { intros a b L. rewrite app_length, L, Nat.add_sub, skipn_app, skipn_all, Nat.sub_diag. reflexivity. }
  rewrite !app_assoc, T by apply le_length. rewrite unle_le_small by (change (256 ^ Z.of_nat 4) with (2 ^ 32); lia).
  unfold blen. apply Nat2Z.id.
Qed.
Lemma firstn_exact {A} n (a b : list A) : length a = n -> firstn n (a ++ b) = a.
Proof. intros <-. rewrite firstn_app, firstn_all, Nat.sub_diag. cbn [firstn]. apply app_nil_r. Qed.
Lemma skipn_exact {A} n (a b : list A) : length a = n -> skipn n (a ++ b) = b.
Proof. intros <-. rewrite skipn_app, skipn_all, Nat.sub_diag. reflexivity. Qed.
(* What the sorter gives back is what it was fed. *)
Theorem C75_item_round_trip version p : blen (fst p) < 2 ^ 32 ->
  decode_item (encode_item version p) = (fst p, le 8 (u64 version), snd p).
Proof.
  intros H. unfold decode_item. assert (K : item_key (encode_item version p) = fst p) by (unfold item_key; rewrite key_len_encode by exact H; apply firstn_exact; reflexivity).
  assert (T : item_ts (encode_item version p) = le 8 (u64 version)).
  { unfold item_ts. rewrite key_len_encode by exact H. unfold encode_item. rewrite skipn_exact by reflexivity. apply firstn_exact, le_length. }
  rewrite K, T, key_len_encode by exact H. unfold encode_item. set (w := match snd p with None => _ | _ => _ end).
  assert (R : skipn (length (fst p) + 8) (fst p ++ le 8 (u64 version) ++ w ++ le 4 (blen (fst p))) = w ++ le 4 (blen (fst p))).
  { rewrite app_assoc. apply skipn_exact. rewrite app_length, le_length. reflexivity. }
  rewrite R. rewrite (firstn_exact _ w) by (rewrite !app_length, !le_length; lia). subst w. destruct (snd p) as [v|]; reflexivity.
Qed.
Print Assumptions C75_item_round_trip.

Lemma compare_item_order : Extsort.Spec.weak_order compare_item.
Proof.
  unfold compare_item. split.
  - intros a b. destruct (bcmp_spec (item_key a) (item_key b)) as [E|L|G]; intros H; [|clear H|discriminate].
    + rewrite E, bcmp_refl. lia.
    + destruct (bcmp_spec (item_key b) (item_key a)) as [E|L'|G]; [rewrite E in L; destruct (blt_irrefl _ L)|destruct (blt_irrefl _ (blt_trans _ _ _ L L'))|reflexivity].
  - intros a b c. destruct (bcmp_spec (item_key b) (item_key a)) as [E|L|G]; intros H; try discriminate.
    + rewrite E. destruct (bcmp_spec (item_key c) (item_key a)); intros K; [lia|discriminate|reflexivity].
    + destruct (bcmp_spec (item_key c) (item_key b)) as [E|L|G']; intros K; try discriminate.
      * rewrite E. destruct (bcmp_spec (item_key b) (item_key a)) as [E'|L|G']; [rewrite E' in G; destruct (blt_irrefl _ G)|destruct (blt_irrefl _ (blt_trans _ _ _ L G))|reflexivity].
      * pose proof (blt_trans _ _ _ G G') as Q. destruct (bcmp_spec (item_key c) (item_key a)) as [E'|L|_]; [rewrite E' in Q; destruct (blt_irrefl _ Q)|destruct (blt_irrefl _ (blt_trans _ _ _ L Q))|reflexivity].
Qed.

(* the order of the sorter is the order of the database *)
Definition item_of (x : Z * (bytes * option bytes)) : bytes := encode_item (fst x) (snd x).
Definition entry_at (n : bytes) (x : Z * (bytes * option bytes)) : entry := mk_entry (store_prefix n ++ fst (snd x)) (u64 (fst x)) (snd (snd x)).
Definition small (x : Z * (bytes * option bytes)) : Prop := blen (fst (snd x)) < 2 ^ 32.
Lemma u64_ok v : ts_ok (u64 v).
Proof. unfold u64, ts_ok. apply Z.mod_pos_bound. reflexivity. Qed.
Lemma item_key_of x : small x -> item_key (item_of x) = fst (snd x).
Proof. intros H. pose proof (C75_item_round_trip (fst x) (snd x) H) as E. unfold decode_item in E. injection E as E _ _. exact E. Qed.
Lemma item_ts_of x : small x -> item_ts (item_of x) = le 8 (u64 (fst x)).
Proof. intros H. pose proof (C75_item_round_trip (fst x) (snd x) H) as E. unfold decode_item in E. apply (f_equal (fun y => snd (fst y))) in E. exact E. Qed.
Lemma item_entry_of n x : small x -> item_entry n (item_of x) = entry_at n x.
Proof. intros H. unfold item_entry, item_of, entry_at. rewrite C75_item_round_trip by exact H. rewrite unle8 by apply u64_ok. reflexivity. Qed.
Lemma blt_prefix p a b : blt (p ++ a) (p ++ b) <-> blt a b.
Proof. unfold blt. rewrite bcmp_app_same. reflexivity. Qed.
Lemma compare_item_elt n x y : small x -> small y -> (compare_item (item_of x) (item_of y) = true <-> elt (entry_at n x) (entry_at n y)).
Proof.
  intros Hx Hy. unfold compare_item. rewrite !item_key_of, !item_ts_of by assumption. rewrite !unle8 by apply u64_ok. unfold elt, entry_at. cbn [e_key e_ts]. rewrite blt_prefix.
  destruct (bcmp_spec (fst (snd x)) (fst (snd y))) as [E|L|G].
  - rewrite E. split; [intros H; right; split; [reflexivity|lia]|]. intros [H|[_ H]]; [destruct (blt_irrefl _ H)|lia].
  - split; auto.
  - split; [discriminate|]. intros [H|[H _]]; [destruct (blt_irrefl _ (blt_trans _ _ _ H G))|]. apply app_inv_head in H. rewrite H in G. destruct (blt_irrefl _ G).
Qed.

(* ---- the files ---- *)
Definition before (f g : list entry) : Prop := forall x y, In x f -> In y g -> blt (e_key x) (e_key y).
Definition files_ok (fs : list (list entry)) : Prop := Forall (fun f => f <> []) fs /\ StronglySorted before fs.

Lemma sorted_app_inv {A} (R : A -> A -> Prop) a b : StronglySorted R (a ++ b) -> StronglySorted R a /\ StronglySorted R b /\ forall x y, In x a -> In y b -> R x y.
Proof.
  induction a as [|x a IH]; intros H; [split; [constructor|]; split; [exact H|intros ? ? []]|]. cbn in H. inversion H as [|? ? S F]; subst. destruct (IH S) as (A1 & B1 & C1). rewrite Forall_app in F. destruct F as [F1 F2].
  split; [constructor; assumption|]. split; [exact B1|]. intros u w [<-|U] W; [rewrite Forall_forall in F2; auto|auto].
Qed.
Lemma concat_in {A} (x : A) ls : In x (concat ls) <-> exists l, In l ls /\ In x l.
Proof. apply in_concat. Qed.

Lemma write_spec big n : (big [] = false) -> forall xs done cur last, Forall small xs ->
  StronglySorted elt (rev cur ++ map (entry_at n) xs) -> Forall ent_ok (rev cur) ->
  match cur with [] => True | e :: _ => e_key e = store_prefix n ++ last end ->
  rev cur ++ map (entry_at n) xs <> [] ->
  exists fs, write_items big n done cur last (map item_of xs) = Ok (done ++ fs) /\ concat fs = rev cur ++ map (entry_at n) xs /\ files_ok fs.
Proof.
  intros B0. induction xs as [|x xs IH]; intros done cur last Sm So Eo La Ne; cbn [map write_items].
  - rewrite app_nil_r in *. destruct cur as [|e cur]; [destruct (Ne eq_refl)|]. cbn [sst_finish rbind]. exists [rev (e :: cur)]. split; [reflexivity|]. cbn [concat]. rewrite app_nil_r. split; [reflexivity|].
    split; [constructor; [exact Ne|constructor]|repeat constructor].
  - inversion Sm as [|? ? Sx Sm']; subst. rewrite (item_key_of x Sx), (item_entry_of n x Sx). set (k := fst (snd x)). set (e := entry_at n x) in *.
    assert (Ke : e_key e = store_prefix n ++ k) by reflexivity.
    assert (Oe : ent_ok e) by apply u64_ok.
    assert (P : forall c, (c = cur \/ c = []) -> sst_put c e = Ok (e :: c)).
    { intros c [->| ->]; [|reflexivity]. destruct cur as [|d cur']; [reflexivity|]. cbn [sst_put].
      assert (D : elt d e) by (apply (sorted_app_inv _ _ _ So); [rewrite <- in_rev; left; reflexivity|left; reflexivity]).
      assert (Od : ent_ok d) by (rewrite Forall_forall in Eo; apply Eo; rewrite <- in_rev; left; reflexivity).
      destruct (compare_elt d e Od Oe) as [S|_|G]; [destruct (elt_irrefl _ _ D S)|reflexivity|destruct (elt_asym _ _ D G)]. }
    assert (Step : rev cur ++ map (entry_at n) (x :: xs) = rev (e :: cur) ++ map (entry_at n) xs) by (cbn [map rev]; rewrite <- app_assoc; reflexivity).
    cbn [map] in Step. fold e in Step.
    destruct (big cur && negb (beqb last k)) eqn:C.
    + apply andb_true_iff in C. destruct C as [C1 C2]. destruct cur as [|d cur']; [congruence|]. cbn [sst_finish rbind]. rewrite P by auto. cbn [rbind].
      destruct (IH (done ++ [rev (d :: cur')]) [e] k Sm') as (fs & E & Cc & [F1 F2]).
      * cbn [rev app]. apply sorted_app_inv in So. tauto.
      * repeat constructor; apply Oe.
      * exact Ke.
      * discriminate.
      * exists (rev (d :: cur') :: fs). rewrite E, <- app_assoc. split; [reflexivity|]. cbn [concat]. rewrite Cc. split; [reflexivity|]. split; [constructor; [cbn [rev]; destruct (rev cur'); discriminate|exact F1]|].
        constructor; [exact F2|]. apply Forall_forall. intros g Hg a b Ha Hb.
        assert (Hin : In b (map (entry_at n) (x :: xs))). { change (rev [e] ++ map (entry_at n) xs) with (map (entry_at n) (x :: xs)) in Cc. rewrite <- Cc. apply concat_in. exists g. auto. }
        apply sorted_app_inv in So. destruct So as (Sa & Sb & Sc).
        assert (Ld : e_key a = e_key d \/ blt (e_key a) (e_key d)).
        { cbn [rev] in Ha, Sa. apply in_app_or in Ha. destruct Ha as [Ha|[<-|[]]]; [|auto]. apply sorted_app_inv in Sa. destruct Sa as (_ & _ & Sa). destruct (Sa a d Ha (or_introl eq_refl)) as [Q|[Q _]]; auto. }
        assert (Lb : e_key e = e_key b \/ blt (e_key e) (e_key b)).
        { cbn [map] in Hin, Sb. fold e in Hin, Sb. destruct Hin as [<-|Hin]; [auto|]. inversion Sb as [|? ? _ Fb]; subst. rewrite Forall_forall in Fb. destruct (Fb b Hin) as [Q|[Q _]]; auto. }
        assert (Lde : blt (e_key d) (e_key e)).
        { destruct (Sc d e) as [Q|[Q _]]; [cbn [rev]; apply in_or_app; right; left; reflexivity|left; reflexivity|exact Q|]. rewrite La, Ke in Q. apply app_inv_head in Q. subst last. rewrite (proj2 (beqb_spec k k) eq_refl) in C2. discriminate C2. }
        assert (Lae : blt (e_key a) (e_key e)) by (destruct Ld as [-> |Ld]; [exact Lde|exact (blt_trans _ _ _ Ld Lde)]).
        destruct Lb as [<- |Lb]; [exact Lae|exact (blt_trans _ _ _ Lae Lb)].
    + cbn [rbind]. rewrite P by auto. cbn [rbind]. cbn [map] in So, Ne |- *. fold e in So, Ne |- *. rewrite Step in So, Ne |- *. apply (IH done (e :: cur) k Sm' So); [cbn [rev]; apply Forall_app; split; [exact Eo|repeat constructor; apply Oe]|exact Ke|exact Ne].
Qed.

(* ---- the whole conversion ---- *)
Definition flat (sets : list (Z * list (bytes * option bytes))) : list (Z * (bytes * option bytes)) := flat_map (fun s => map (fun p => (fst s, p)) (snd s)) sets.
Lemma all_items_flat sets : all_items sets = map item_of (flat sets).
Proof. unfold all_items, flat. induction sets as [|s r IH]; [reflexivity|]. cbn [flat_map]. rewrite map_app, IH, map_map. reflexivity. Qed.
Lemma feed_flat n sets : forall s, s_db (feed_store s n sets) = puts (s_db s) (map (entry_at n) (flat sets)).
Proof.
  induction sets as [|b r IH]; intros s; [reflexivity|]. unfold feed_store, flat. cbn [fold_left flat_map]. fold (feed_store (feed s (fst b) n (snd b)) n r). fold (flat r). rewrite IH.
  unfold puts. rewrite map_app, fold_left_app. f_equal. unfold feed. cbn [s_db]. rewrite map_map. generalize (s_db s). induction (snd b) as [|p ps IHp]; intros db; [reflexivity|]. cbn [fold_left map]. rewrite IHp. reflexivity.
Qed.
Lemma puts_in es : forall db, db_ok db -> Forall ent_ok es -> (forall x y, In x db -> In y es -> ~ same_at y x) -> NoDup (map (fun e => (e_key e, e_ts e)) es) ->
  forall x, In x (puts db es) <-> In x db \/ In x es.
Proof.
  induction es as [|e r IH]; intros db Hd He Hx Hn x; [cbn; tauto|]. inversion He; subst. cbn [map] in Hn. inversion Hn as [|? ? N1 N2]; subst. change (puts db (e :: r)) with (puts (put db e) r).
  rewrite IH; [|apply put_ok; assumption|assumption| |assumption].
  - rewrite (put_in db e x) by assumption. cbn [In]. split; [intros [[->|[Q _]]|Q]; auto|]. intros [Q|[<-|Q]]; [left; right; split; [exact Q|apply Hx; [exact Q|left; reflexivity]]|auto|auto].
  - intros u w Hu Hw S. apply put_in in Hu; [|assumption|assumption]. destruct Hu as [->|[Hu _]]; [|exact (Hx u w Hu (or_intror Hw) S)].
    apply N1. destruct S as [S1 S2]. rewrite <- S1, <- S2. apply (in_map (fun e => (e_key e, e_ts e))). exact Hw.
Qed.
Lemma perm_map_inv {A B} (f : A -> B) l out : Permutation out (map f l) -> exists l', out = map f l' /\ Permutation l' l.
Proof. intros H. apply Permutation_map_inv in H. destruct H as (l' & E & P). exists l'. split; [exact E|apply Permutation_sym; exact P]. Qed.
Lemma entry_keys n xs : map (fun e => (e_key e, e_ts e)) (map (entry_at n) xs) = map (fun x => (store_prefix n ++ fst (snd x), u64 (fst x))) xs.
Proof. rewrite map_map. reflexivity. Qed.
Lemma distinct_entries n xs : Forall (fun x => 0 <= fst x < 2 ^ 63) xs -> (NoDup (map (fun x => (fst (snd x), fst x)) xs) <-> NoDup (map (fun e => (e_key e, e_ts e)) (map (entry_at n) xs))).
Proof.
  intros H. rewrite entry_keys. induction xs as [|x r IH]; [split; constructor|]. inversion H as [|? ? H1 H2]; subst. cbn [map].
  assert (Q : In (store_prefix n ++ fst (snd x), u64 (fst x)) (map (fun x => (store_prefix n ++ fst (snd x), u64 (fst x))) r) <-> In (fst (snd x), fst x) (map (fun x => (fst (snd x), fst x)) r)).
  { rewrite !in_map_iff. split; intros (y & E & I); exists y; (split; [|exact I]).
    - pose proof (f_equal fst E) as E1. pose proof (f_equal snd E) as E2. cbn [fst snd] in E1, E2. apply app_inv_head in E1. rewrite Forall_forall in H2. specialize (H2 y I). cbv beta in H1, H2. unfold u64, U64 in E2. rewrite (Z.mod_small (fst y)), (Z.mod_small (fst x)) in E2 by (split; [apply H1 || apply H2|eapply Z.lt_trans; [apply H1 || apply H2|reflexivity]]). exact (f_equal2 Datatypes.pair E1 E2).
    - pose proof (f_equal fst E) as E1. pose proof (f_equal snd E) as E2. cbn [fst snd] in E1, E2. exact (f_equal2 (fun a b => (store_prefix n ++ a, u64 b)) E1 E2). }
  split; intros N; inversion N as [|? ? N1 N2]; subst; constructor; [rewrite Q; exact N1|apply IH; assumption|rewrite <- Q; exact N1|apply IH; assumption].
Qed.

Lemma sorted_strict n xs : Forall small xs -> NoDup (map (fun e => (e_key e, e_ts e)) (map (entry_at n) xs)) ->
  Extsort.Spec.sorted_by compare_item (map item_of xs) -> StronglySorted elt (map (entry_at n) xs).
Proof.
  intros F N S. induction xs as [|x r IH]; [constructor|]. inversion F; subst. cbn [map] in *. inversion N as [|? ? N1 N2]; subst. inversion S as [|? ? S1 S2]; subst. constructor; [apply IH; assumption|].
  apply Forall_forall. intros e He. apply in_map_iff in He. destruct He as (y & <- & Iy).
  rewrite Forall_forall in S2. specialize (S2 (item_of y) (in_map _ _ _ Iy)). unfold Extsort.Spec.le_of in S2.
  assert (Sy : small y) by (rewrite Forall_forall in H2; auto).
  destruct (compare_elt (entry_at n x) (entry_at n y) (u64_ok _) (u64_ok _)) as [Q|Q|Q]; [|exact Q|].
  - exfalso. apply N1. destruct Q as [Q1 Q2]. apply in_map_iff. exists (entry_at n y). split; [exact (f_equal2 Datatypes.pair (eq_sym Q1) (eq_sym Q2))|apply in_map; exact Iy].
  - apply (compare_item_elt n y x Sy H1) in Q. congruence.
Qed.

(* two equal keys of one version are never written *)
Lemma write_distinct big n xs : forall done cur last fs, Forall small xs ->
  match cur with [] => big [] = false | e :: _ => e_key e = store_prefix n ++ last /\ ent_ok e end ->
  write_items big n done cur last (map item_of xs) = Ok fs ->
  Sorted (fun x y => ~ same_at x y) (match cur with [] => [] | e :: _ => [e] end ++ map (entry_at n) xs).
Proof.
  induction xs as [|x xs IH]; intros done cur last fs Sm La W; cbn [map write_items] in *.
  - destruct cur; repeat constructor.
  - inversion Sm as [|? ? Sx Sm']; subst. rewrite (item_key_of x Sx), (item_entry_of n x Sx) in W. set (e := entry_at n x) in *. assert (Oe : ent_ok e) by apply u64_ok. assert (Ke : e_key e = store_prefix n ++ fst (snd x)) by reflexivity.
    assert (R : forall dn c, rbind (sst_put c e) (fun cur => write_items big n dn cur (fst (snd x)) (map item_of xs)) = Ok fs -> Sorted (fun x y => ~ same_at x y) (e :: map (entry_at n) xs) /\ match c with [] => True | d :: _ => ent_ok d -> ~ same_at d e end).
    { intros dn c E. destruct (sst_put c e) as [c'| |] eqn:P; try discriminate E. cbn [rbind] in E. unfold sst_put in P. destruct c as [|d c].
      - injection P as <-. split; [|exact Logic.I]. exact (IH dn [e] _ fs Sm' (conj Ke Oe) E).
      - destruct (compare (ikey d) (ikey e)) eqn:Q; try discriminate P. injection P as <-. split; [exact (IH dn (e :: d :: c) _ fs Sm' (conj Ke Oe) E)|].
        intros Od. pose proof (compare_elt d e Od Oe) as H. rewrite Q in H. inversion H. apply elt_irrefl. assumption. }
    destruct (big cur && negb (beqb last (fst (snd x)))) eqn:C.
    + apply andb_true_iff in C. destruct C as [_ C]. destruct cur as [|d cur]; [discriminate W|]. cbn [sst_finish rbind] in W. apply R in W. destruct W as [W _]. cbn [app]. constructor; [exact W|]. constructor.
      intros [S _]. destruct La as [La _]. rewrite La, Ke in S. apply app_inv_head in S. subst last. rewrite (proj2 (beqb_spec _ _) eq_refl) in C. discriminate C.
    + cbn [rbind] in W. apply R in W. destruct W as [W D]. destruct cur as [|d cur]; [exact W|]. cbn [app]. constructor; [exact W|]. constructor. apply D. tauto.
Qed.
Lemma sorted_distinct n xs : Forall small xs -> Extsort.Spec.sorted_by compare_item (map item_of xs) -> Sorted (fun x y => ~ same_at x y) (map (entry_at n) xs) ->
  StronglySorted elt (map (entry_at n) xs).
Proof.
  intros F S D. apply Sorted_StronglySorted; [intros a b c; apply elt_trans|]. induction xs as [|x r IH]; [constructor|]. inversion F as [|? ? F1 F2]; subst. cbn [map] in *.
  inversion S as [|? ? S1 S2]; subst. inversion D as [|? ? D1 D2]; subst. constructor; [apply IH; assumption|]. destruct r as [|y r]; [constructor|]. cbn [map] in *. constructor.
  inversion D2 as [|? ? D3]; subst. inversion S2 as [|? ? S3 _]; subst. inversion F2 as [|? ? F3 _]; subst. unfold Extsort.Spec.le_of in S3.
  destruct (compare_elt (entry_at n x) (entry_at n y) (u64_ok _) (u64_ok _)) as [Q|Q|Q]; [contradiction|exact Q|]. apply (compare_item_elt n y x F3 F1) in Q. congruence.
Qed.
Lemma strict_nodup l : StronglySorted elt l -> NoDup (map (fun e => (e_key e, e_ts e)) l).
Proof.
  induction 1 as [|e r S IH F]; [constructor|]. cbn [map]. constructor; [|exact IH]. intros K. apply in_map_iff in K. destruct K as (d & E & I). rewrite Forall_forall in F. apply (elt_irrefl e d (F d I)). split; congruence.
Qed.

(* Sorting the changes of a store and writing them to files gives, for any target size of the
   files, exactly the database that feeding the change sets one by one gives; no file is empty,
   and no key of a file is in, or sorts before a key of, an earlier file. *)
Theorem C75_files n big sets : big [] = false ->
  Forall (fun s => 0 <= fst s < 2 ^ 63) sets ->
  Forall (fun x => blen x < 2 ^ 32) (all_items sets) ->
  NoDup (map (fun x => (fst (snd x), fst x)) (flat sets)) ->
  forall less_sort compress decompress max_size delta es s order h fuel,
  Extsort.Spec.sorts compare_item less_sort -> (forall b, decompress (compress b) = b) ->
  Extsort.Spec.fed es = all_items sets ->
  Extsort.Model.run less_sort compress max_size delta Extsort.Model.new_sorter es = Ok s ->
  Extsort.Model.finalize compare_item less_sort compress decompress delta s order = Ok h ->
  (length (all_items sets) < fuel)%nat ->
  exists out files, Extsort.Model.drain compare_item fuel h = Ok out /\ convert big n out = Ok files /\
    concat files = s_db (feed_store empty n sets) /\ files_ok files.
Proof.
  intros Hb Hv Hs Hn srt cmp dec max delta es s order h fuel So Cd Hf Hr Hz Hl.
  destruct (Extsort.Props.C17_sorted_permutation compare_item srt cmp dec compare_item_order So Cd max delta es s order h fuel Hr Hz) as (out & Ho & Hp & Hsort); [rewrite Hf; exact Hl|].
  rewrite Hf, all_items_flat in Hp. apply perm_map_inv in Hp. destruct Hp as (xs & -> & Hp).
  assert (Vx : Forall (fun x => 0 <= fst x < 2 ^ 63) xs).
  { apply Forall_forall. intros x Hx. apply (Permutation_in _ Hp) in Hx. unfold flat in Hx. apply in_flat_map in Hx. destruct Hx as (b & Ib & Ix). apply in_map_iff in Ix. destruct Ix as (kv & <- & _). rewrite Forall_forall in Hv. exact (Hv b Ib). }
  assert (Sx : Forall small xs).
  { apply Forall_forall. intros x Hx. apply (Permutation_in _ Hp) in Hx. rewrite all_items_flat in Hs. rewrite Forall_forall in Hs. specialize (Hs (item_of x) (in_map _ _ _ Hx)). unfold item_of, encode_item in Hs. rewrite blen_app in Hs. unfold small. pose proof (blen_nonneg (le 8 (u64 (fst x)) ++ match snd (snd x) with Some v => 0%N :: v | None => [1%N] end ++ le 4 (blen (fst (snd x))))). lia. }
  assert (Nx : NoDup (map (fun e => (e_key e, e_ts e)) (map (entry_at n) xs))).
  { apply distinct_entries; [exact Vx|]. apply (Permutation_NoDup (Permutation_map (fun x => (fst (snd x), fst x)) (Permutation_sym Hp)) Hn). }
  pose proof (sorted_strict n xs Sx Nx Hsort) as St. exists (map item_of xs).
  assert (Db : s_db (feed_store empty n sets) = map (entry_at n) xs).
  { rewrite feed_flat. assert (Ef : Forall ent_ok (map (entry_at n) (flat sets))) by (apply Forall_forall; intros e He; apply in_map_iff in He; destruct He as (y & <- & _); apply u64_ok).
    apply db_ext.
    - apply puts_ok; [apply db_ok_nil|exact Ef].
    - split; [exact St|]. apply Forall_forall; intros e He; apply in_map_iff in He; destruct He as (y & <- & _); apply u64_ok.
    - intros x. rewrite puts_in; [|apply db_ok_nil|exact Ef|intros ? ? []|].
      + cbn [In empty s_db]. split; [intros [[]|Q]|intros Q; right]; [apply (Permutation_in _ (Permutation_map (entry_at n) (Permutation_sym Hp)) Q)|apply (Permutation_in _ (Permutation_map (entry_at n) Hp) Q)].
      + apply (Permutation_NoDup (Permutation_map _ (Permutation_map (entry_at n) Hp)) Nx). }
  destruct xs as [|x xs].
  - exists []. split; [exact Ho|]. split; [reflexivity|]. rewrite Db. split; [reflexivity|split; constructor].
  - destruct (write_spec big n Hb (x :: xs) [] [] [] Sx) as (fs & E & Cc & Fo); [exact St|constructor|exact Logic.I|discriminate|].
    exists fs. split; [exact Ho|]. split; [exact E|]. split; [rewrite Cc, Db; reflexivity|exact Fo].
Qed.
Print Assumptions C75_files.

(* Two changes of one key at one version make it fail. *)
Theorem C75_duplicates n big xs files : big [] = false -> Forall (fun x => 0 <= fst x < 2 ^ 63) xs -> Forall small xs ->
  Extsort.Spec.sorted_by compare_item (map item_of xs) ->
  convert big n (map item_of xs) = Ok files -> NoDup (map (fun x => (fst (snd x), fst x)) xs).
Proof.
  intros Hb Hv Hs Ho C. destruct xs as [|x xs]; [constructor|]. apply (distinct_entries n); [exact Hv|]. apply strict_nodup, sorted_distinct; [exact Hs|exact Ho|].
  exact (write_distinct big n (x :: xs) [] [] [] files Hs Hb C).
Qed.
Print Assumptions C75_duplicates.

(* With a target size of zero the first file is finished empty, and nothing is converted. *)
Theorem C75_zero_size n x xs : small x -> fst (snd x) <> [] -> convert (fun _ => true) n (map item_of (x :: xs)) = Err.
Proof.
  intros Hs Hk. cbn [map convert write_items]. rewrite item_key_of by exact Hs. destruct (beqb [] (fst (snd x))) eqn:E; [|reflexivity]. apply beqb_spec in E. congruence.
Qed.
Print Assumptions C75_zero_size.

(* two versions of two keys; a new file for every key *)
Definition sets2 : list (Z * list (bytes * option bytes)) := [(1, [([98]%N, Some [1]%N); ([97]%N, Some [2]%N)]); (2, [([97]%N, None)])].
Definition every (f : list entry) : bool := match f with [] => false | _ => true end.
Example C75_case :
  NoDup (map (fun x => (fst (snd x), fst x)) (flat sets2)) /\ Forall (fun x => blen x < 2 ^ 32) (all_items sets2) /\
  convert every [98]%N [encode_item 2 ([97]%N, None); encode_item 1 ([97]%N, Some [2]%N); encode_item 1 ([98]%N, Some [1]%N)] =
    Ok [[mk_entry [115; 47; 107; 58; 98; 47; 97]%N 2 None; mk_entry [115; 47; 107; 58; 98; 47; 97]%N 1 (Some [2]%N)]; [mk_entry [115; 47; 107; 58; 98; 47; 98]%N 1 (Some [1]%N)]] /\
  convert every [98]%N [encode_item 2 ([97]%N, None); encode_item 2 ([97]%N, Some [2]%N)] = Err.
Proof.
  split; [repeat constructor; cbn; intuition discriminate|]. split; [repeat constructor|]. split; vm_compute; reflexivity.
Qed.
