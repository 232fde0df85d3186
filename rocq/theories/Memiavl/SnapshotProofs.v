From Verif Require Import Lib.Base Lib.Bytes Lib.Codec Memiavl.Model Memiavl.Spec Memiavl.TreeProofs
  Memiavl.HashModel Memiavl.SnapshotModel Memiavl.SnapshotSpec.
Open Scope Z_scope.

Lemma u32_small z : 0 <= z < 2 ^ 32 -> u32 z = z.
Proof. intros. unfold u32. apply Z.mod_small. assumption. Qed.

Lemma pow256_4 : 256 ^ Z.of_nat 4 = 2 ^ 32. Proof. reflexivity. Qed.
Lemma pow256_8 : 256 ^ Z.of_nat 8 = 2 ^ 64. Proof. reflexivity. Qed.
Lemma pow256_1 : 256 ^ Z.of_nat 1 = 256. Proof. reflexivity. Qed.

Lemma read4 x : 0 <= x < 2 ^ 32 -> unle (le 4 x) = x.
Proof. intros. apply unle_le_small. rewrite pow256_4. assumption. Qed.
Lemma read8 x : 0 <= x < 2 ^ 64 -> unle (le 8 x) = x.
Proof. intros. apply unle_le_small. rewrite pow256_8. assumption. Qed.
Lemma read1 x : 0 <= x < 256 -> unle (le 1 x) = x.
Proof. intros. apply unle_le_small. rewrite pow256_1. assumption. Qed.

Definition dkv : bytes * bytes := ([], []).
Definition dkvv : bytes * bytes * Z := (dkv, 0).

Lemma skipn_skipn {A} a b (l : list A) : skipn a (skipn b l) = skipn (a + b) l.
Proof.
  rewrite Nat.add_comm. revert l. induction b as [|b IH]; intros [|x l]; cbn [skipn Nat.add]; try reflexivity.
  - apply skipn_nil.
  - apply IH.
Qed.

(* ---- records and files of records ---- *)
Definition enc_b (b : brec) : bytes :=
  branch_bytes (b_version b) (b_size b) (b_height b) (b_pre b) (b_keyleaf b) (b_hash b).
Definition enc_l (l : lrec) : bytes := leaf_bytes (l_version l) (l_keylen l) (l_offset l) (l_hash l).

Definition wf_b (b : brec) : Prop :=
  0 <= b_height b < 256 /\ 0 <= b_pre b < 256 /\ 0 <= b_version b < 2 ^ 32 /\
  0 <= b_size b < 2 ^ 32 /\ 0 <= b_keyleaf b < 2 ^ 32 /\ blen (b_hash b) = 32.
Definition wf_l (l : lrec) : Prop :=
  0 <= l_version l < 2 ^ 32 /\ 0 <= l_keylen l < 2 ^ 32 /\ 0 <= l_offset l < 2 ^ 64 /\ blen (l_hash l) = 32.

Lemma enc_b_len b : wf_b b -> blen (enc_b b) = 48.
Proof. intros (_ & _ & _ & _ & _ & H). unfold enc_b, branch_bytes. rewrite !blen_app, !le_blen. lia. Qed.
Lemma enc_l_len l : wf_l l -> blen (enc_l l) = 48.
Proof. intros (_ & _ & _ & H). unfold enc_l, leaf_bytes. rewrite !blen_app, !le_blen. lia. Qed.

Lemma concat_len {A} (enc : A -> bytes) (P : A -> Prop) (H : forall a, P a -> blen (enc a) = 48) l :
  Forall P l -> blen (concat (map enc l)) = 48 * Z.of_nat (length l).
Proof.
  induction 1 as [|x l Hx Hl IH]; [reflexivity|]. cbn [map concat length].
  rewrite blen_app, H, IH by assumption. lia.
Qed.

Lemma slice_rec {A} (enc : A -> bytes) (P : A -> Prop) (H : forall a, P a -> blen (enc a) = 48) l1 x l2 i :
  Forall P (l1 ++ x :: l2) -> i = Z.of_nat (length l1) ->
  slice (concat (map enc (l1 ++ x :: l2))) (i * 48) 48 = Some (enc x).
Proof.
  intros HF ->. apply Forall_app in HF. destruct HF as [H1 H2]. inversion H2; subst.
  rewrite map_app, concat_app. cbn [map concat].
  apply slice_mid; [rewrite (concat_len enc P H) by assumption; lia|rewrite H by assumption; reflexivity].
Qed.

Lemma read_branch_at f l1 b l2 i :
  f_nodes f = concat (map enc_b (l1 ++ b :: l2)) -> Forall wf_b (l1 ++ b :: l2) ->
  i = Z.of_nat (length l1) -> read_branch f i = Some b.
Proof.
  intros Hf HF Hi. unfold read_branch. rewrite Hf.
  rewrite (slice_rec enc_b wf_b enc_b_len l1 b l2 i HF Hi).
  assert (wf_b b) as (B1 & B2 & B3 & B4 & B5 & B6).
  { apply Forall_app in HF. destruct HF as [_ HF]. inversion HF; assumption. }
  cbn [obind]. unfold enc_b, branch_bytes.
  set (h := le 1 (b_height b)). set (p := le 1 (b_pre b)). set (z := le 2 0).
  set (v := le 4 (b_version b)). set (s := le 4 (b_size b)). set (k := le 4 (b_keyleaf b)).
  assert (blen h = 1) by apply le_blen. assert (blen p = 1) by apply le_blen.
  assert (blen z = 2) by apply le_blen. assert (blen v = 4) by apply le_blen.
  assert (blen s = 4) by apply le_blen. assert (blen k = 4) by apply le_blen.
  change (h ++ p ++ z ++ v ++ s ++ k ++ b_hash b) with ([] ++ h ++ p ++ z ++ v ++ s ++ k ++ b_hash b) at 1.
  rewrite (slice_mid [] h) by (rewrite ?blen_nil; lia). cbn [obind].
  rewrite (slice_mid h p) by lia. cbn [obind].
  replace (h ++ p ++ z ++ v ++ s ++ k ++ b_hash b) with ((h ++ p ++ z) ++ v ++ s ++ k ++ b_hash b)
    by (rewrite <- !app_assoc; reflexivity).
  rewrite (slice_mid (h ++ p ++ z) v) by (rewrite ?blen_app; lia). cbn [obind].
  replace ((h ++ p ++ z) ++ v ++ s ++ k ++ b_hash b) with ((h ++ p ++ z ++ v) ++ s ++ k ++ b_hash b)
    by (rewrite <- !app_assoc; reflexivity).
  rewrite (slice_mid (h ++ p ++ z ++ v) s) by (rewrite ?blen_app; lia). cbn [obind].
  replace ((h ++ p ++ z ++ v) ++ s ++ k ++ b_hash b) with ((h ++ p ++ z ++ v ++ s) ++ k ++ b_hash b)
    by (rewrite <- !app_assoc; reflexivity).
  rewrite (slice_mid (h ++ p ++ z ++ v ++ s) k) by (rewrite ?blen_app; lia). cbn [obind].
  replace ((h ++ p ++ z ++ v ++ s) ++ k ++ b_hash b) with ((h ++ p ++ z ++ v ++ s ++ k) ++ b_hash b)
    by (rewrite <- !app_assoc; reflexivity).
  rewrite slice_end by (rewrite ?blen_app; lia). cbn [obind].
  unfold h, p, v, s, k. rewrite !read1, !read4 by assumption. destruct b; reflexivity.
Qed.

Lemma read_leaf_at f l1 l l2 i :
  f_leaves f = concat (map enc_l (l1 ++ l :: l2)) -> Forall wf_l (l1 ++ l :: l2) ->
  i = Z.of_nat (length l1) -> read_leaf f i = Some l.
Proof.
  intros Hf HF Hi. unfold read_leaf. rewrite Hf.
  rewrite (slice_rec enc_l wf_l enc_l_len l1 l l2 i HF Hi).
  assert (wf_l l) as (B1 & B2 & B3 & B4).
  { apply Forall_app in HF. destruct HF as [_ HF]. inversion HF; assumption. }
  cbn [obind]. unfold enc_l, leaf_bytes.
  set (v := le 4 (l_version l)). set (k := le 4 (l_keylen l)). set (o := le 8 (l_offset l)).
  assert (blen v = 4) by apply le_blen. assert (blen k = 4) by apply le_blen. assert (blen o = 8) by apply le_blen.
  change (v ++ k ++ o ++ l_hash l) with ([] ++ v ++ k ++ o ++ l_hash l) at 1.
  rewrite (slice_mid [] v) by (rewrite ?blen_nil; lia). cbn [obind].
  rewrite (slice_mid v k) by lia. cbn [obind].
  replace (v ++ k ++ o ++ l_hash l) with ((v ++ k) ++ o ++ l_hash l) by (rewrite <- !app_assoc; reflexivity).
  rewrite (slice_mid (v ++ k) o) by (rewrite ?blen_app; lia). cbn [obind].
  replace ((v ++ k) ++ o ++ l_hash l) with ((v ++ k ++ o) ++ l_hash l) by (rewrite <- !app_assoc; reflexivity).
  rewrite slice_end by (rewrite ?blen_app; lia). cbn [obind].
  unfold v, k, o. rewrite !read4, read8 by assumption. destruct l; reflexivity.
Qed.

Section P.
Variable sha : bytes -> bytes.
Hypothesis sha_len : forall b, blen (sha b) = 32.

Lemma nhash_len n : blen (nhash sha n) = 32.
Proof. destruct n; apply sha_len. Qed.

(* ---- what the writer appends ---- *)
Fixpoint vleaves (n : node) : list (bytes * bytes * Z) :=
  match n with
  | Leaf k v ver => [(k, v, ver)]
  | Branch _ _ _ _ l r => vleaves l ++ vleaves r
  end.

Definition kvs_of (ls : list (bytes * bytes * Z)) : bytes :=
  concat (map (fun x => kv_bytes (fst (fst x)) (snd (fst x))) ls).

Definition one_size (x : bytes * bytes * Z) : Z := 8 + blen (fst (fst x)) + blen (snd (fst x)).
Definition total (ls : list (bytes * bytes * Z)) : Z := fold_right (fun x a => one_size x + a) 0 ls.

Fixpoint lrecs (off : Z) (ls : list (bytes * bytes * Z)) : list lrec :=
  match ls with
  | [] => []
  | x :: ls' =>
      LRec (snd x) (blen (fst (fst x))) off (leaf_hash sha (snd x) (fst (fst x)) (snd (fst x)))
      :: lrecs (off + one_size x) ls'
  end.

Fixpoint brecs (L B : Z) (n : node) : list brec :=
  match n with
  | Leaf _ _ _ => []
  | Branch _ h s ver l r =>
      brecs L B l ++ brecs (L + size l) (B + size l - 1) r ++
      [BRec h (L - B) ver s (L + size l) (nhash sha n)]
  end.

Lemma one_size_pos x : 8 <= one_size x.
Proof. unfold one_size. pose proof (blen_nonneg (fst (fst x))). pose proof (blen_nonneg (snd (fst x))). lia. Qed.
Lemma total_nonneg ls : 0 <= total ls.
Proof. induction ls as [|x ls IH]; [cbn; lia|]. change (total (x :: ls)) with (one_size x + total ls). pose proof (one_size_pos x). lia. Qed.
Lemma total_cons x ls : total (x :: ls) = one_size x + total ls.
Proof. reflexivity. Qed.
Lemma total_app a b : total (a ++ b) = total a + total b.
Proof. induction a as [|x a IH]; [reflexivity|]. cbn [app]. rewrite !total_cons, IH. lia. Qed.
Lemma kv_bytes_len k v : blen (kv_bytes k v) = 8 + blen k + blen v.
Proof. unfold kv_bytes. rewrite !blen_app, !le_blen. lia. Qed.
Lemma kvs_of_len ls : blen (kvs_of ls) = total ls.
Proof.
  induction ls as [|x ls IH]; [reflexivity|]. unfold kvs_of in *. cbn [map concat].
  rewrite blen_app, IH, kv_bytes_len, total_cons. reflexivity.
Qed.
Lemma kvs_of_app a b : kvs_of (a ++ b) = kvs_of a ++ kvs_of b.
Proof. unfold kvs_of. rewrite map_app, concat_app. reflexivity. Qed.
Lemma lrecs_app off a b : lrecs off (a ++ b) = lrecs off a ++ lrecs (off + total a) b.
Proof.
  revert off. induction a as [|x a IH]; intros off; cbn [app lrecs].
  - cbn. rewrite Z.add_0_r. reflexivity.
  - rewrite IH, total_cons. do 3 f_equal. lia.
Qed.
Lemma lrecs_length off a : length (lrecs off a) = length a.
Proof. revert off. induction a; intros; cbn; [reflexivity|]. rewrite IHa. reflexivity. Qed.
Lemma vleaves_leaves n : leaves n = map fst (vleaves n).
Proof. induction n; cbn; [reflexivity|]. rewrite map_app. congruence. Qed.
Lemma vleaves_length n : Z.of_nat (length (vleaves n)) = size n.
Proof. unfold size. rewrite vleaves_leaves, map_length. reflexivity. Qed.
Lemma kvs_size_total n : kvs_size n = total (vleaves n).
Proof. induction n; cbn [kvs_size vleaves]. - rewrite total_cons. unfold one_size, total. cbn [fst snd fold_right]. lia. - rewrite total_app. lia. Qed.
Lemma kvs_size_pos n : 0 <= kvs_size n.
Proof. rewrite kvs_size_total. apply total_nonneg. Qed.
Lemma brecs_length L B n : Z.of_nat (length (brecs L B n)) = size n - 1.
Proof.
  revert L B. induction n as [|k h s ver l IHl r IHr]; intros L B; [reflexivity|].
  cbn [brecs]. rewrite !app_length, !Nat2Z.inj_add, IHl, IHr, size_branch. cbn [length]. lia.
Qed.

Lemma write_rec_eq n : forall w,
  fields_exact n ->
  0 <= w_branches w <= w_leafs w -> w_leafs w - w_branches w + depth n < 256 ->
  w_leafs w + size n < 2 ^ 32 -> 0 <= w_offset w -> w_offset w + kvs_size n < 2 ^ 64 ->
  write_rec sha w n =
  Writer (w_nodes w ++ concat (map enc_b (brecs (w_leafs w) (w_branches w) n)))
         (w_leaves w ++ concat (map enc_l (lrecs (w_offset w) (vleaves n))))
         (w_kvs w ++ kvs_of (vleaves n))
         (w_branches w + size n - 1) (w_leafs w + size n) (w_offset w + kvs_size n).
Proof.
  induction n as [k v ver|k h s ver l IHl r IHr]; intros w HF HB HD HL HO HK.
  - cbn [write_rec brecs vleaves lrecs map concat app kvs_of fst snd]. unfold write_leaf.
    change (size (Leaf k v ver)) with 1 in *. cbn [kvs_size] in *.
    unfold kvs_of. cbn [map concat fst snd]. rewrite !app_nil_r.
    rewrite u32_small by lia. pose proof (blen_nonneg k). pose proof (blen_nonneg v).
    rewrite Z.mod_small by lia. unfold enc_l. cbn [l_version l_keylen l_offset l_hash].
    f_equal; lia.
  - cbn [write_rec]. cbn [fields_exact] in HF. destruct HF as (Fl & Fr & Hh & Hs).
    rewrite size_branch in *. cbn [kvs_size depth] in *.
    pose proof (size_pos l). pose proof (size_pos r). pose proof (kvs_size_pos l). pose proof (kvs_size_pos r).
    pose proof (depth_nonneg l). pose proof (depth_nonneg r).
    rewrite (IHl w) by (try assumption; lia).
    rewrite IHr; cbn [w_nodes w_leaves w_kvs w_branches w_leafs w_offset]; try assumption; try lia.
    unfold write_branch. cbn [w_nodes w_leaves w_kvs w_branches w_leafs w_offset].
    assert (s = size l + size r) as Es.
    { rewrite Hs. unfold size. cbn [leaves]. rewrite app_length. lia. }
    rewrite (u32_small (w_leafs w - w_branches w)) by lia.
    unfold u8. rewrite (Z.mod_small (w_leafs w - w_branches w)) by lia.
    rewrite (u32_small s) by lia. rewrite (u32_small (_ + 1)) by lia.
    cbn [brecs vleaves]. rewrite lrecs_app, kvs_of_app, !map_app, !concat_app. cbn [map concat].
    rewrite <- kvs_size_total. rewrite <- !app_assoc, app_nil_r. unfold enc_b at 4.
    cbn [b_height b_pre b_version b_size b_keyleaf b_hash].
    f_equal; try lia. 
Qed.

Lemma wf_brecs n : forall L B, fields_exact n -> fits n -> 0 <= B <= L -> L - B + depth n < 256 -> L + size n < 2 ^ 32 ->
  Forall wf_b (brecs L B n).
Proof.
  induction n as [k v ver|k h s ver l IHl r IHr]; intros L B HF Hfit HB HD HL; [constructor|].
  cbn [fields_exact] in HF. destruct HF as (Fl & Fr & Hh & Hs). cbn [fits] in Hfit. destruct Hfit as (Hv & Hfl & Hfr).
  rewrite size_branch in *. cbn [depth] in *.
  pose proof (size_pos l). pose proof (size_pos r). pose proof (depth_nonneg l). pose proof (depth_nonneg r).
  cbn [brecs]. apply Forall_app. split; [apply IHl; auto; lia|].
  apply Forall_app. split; [apply IHr; auto; lia|].
  constructor; [|constructor]. unfold wf_b. cbn [b_height b_pre b_version b_size b_keyleaf b_hash].
  assert (s = size l + size r) as Es.
  { rewrite Hs. unfold size. cbn [leaves]. rewrite app_length. lia. }
  split; [lia|]. split; [lia|]. split; [lia|]. split; [lia|]. split; [lia|]. apply nhash_len.
Qed.

Definition vfits (x : bytes * bytes * Z) : Prop :=
  blen (fst (fst x)) < 2 ^ 32 /\ blen (snd (fst x)) < 2 ^ 32 /\ 0 <= snd x < 2 ^ 32.
Lemma fits_vleaves n : fits n -> Forall vfits (vleaves n).
Proof.
  induction n; cbn [fits vleaves].
  - intros H. constructor; [exact H|constructor].
  - intros (_ & H1 & H2). apply Forall_app. auto.
Qed.

Lemma wf_lrecs ls : forall off, Forall vfits ls -> 0 <= off -> off + total ls < 2 ^ 64 -> Forall wf_l (lrecs off ls).
Proof.
  induction ls as [|x ls IH]; intros off HF Ho Ht; [constructor|].
  inversion HF as [|? ? (H1 & H2 & H3) HF']; subst. rewrite total_cons in Ht. pose proof (one_size_pos x).
  pose proof (total_nonneg ls). pose proof (blen_nonneg (fst (fst x))).
  cbn [lrecs]. constructor; [|apply IH; auto; lia].
  unfold wf_l. cbn. split; [lia|]. split; [lia|]. split; [lia|]. apply sha_len.
Qed.

(* ---- reading a leaf ---- *)
Definition file_leaves (f : files) (ls : list (bytes * bytes * Z)) : Prop :=
  f_leaves f = concat (map enc_l (lrecs 0 ls)) /\ f_kvs f = kvs_of ls /\ Forall vfits ls /\ total ls < 2 ^ 63.

Lemma leaf_at f l1 k v ver l2 i : file_leaves f (l1 ++ (k, v, ver) :: l2) -> i = Z.of_nat (length l1) ->
  exists off,
  read_leaf f i = Some (LRec ver (blen k) off (leaf_hash sha ver k v)) /\
  leaf_key f i = Some k /\ leaf_key_value f i = Some (k, v) /\ key_value f off = Some (k, v).
Proof.
  intros (H1 & H2 & H3 & H4) Hi. exists (total l1).
  assert (read_leaf f i = Some (LRec ver (blen k) (total l1) (leaf_hash sha ver k v))) as R.
  { rewrite lrecs_app in H1. cbn [lrecs fst snd] in H1. rewrite Z.add_0_l in H1.
    eapply read_leaf_at; [exact H1| |rewrite lrecs_length; exact Hi].
    replace (lrecs 0 l1 ++ _) with (lrecs 0 (l1 ++ (k, v, ver) :: l2)) by (rewrite lrecs_app; reflexivity).
    apply wf_lrecs; [exact H3|lia|lia]. }
  assert (Forall vfits ((k, v, ver) :: l2)) as HF by (apply Forall_app in H3; apply H3).
  inversion HF as [|? ? (F1 & F2 & F3) _]; subst. cbn [fst snd] in *.
  rewrite kvs_of_app in H2. unfold kvs_of at 2 in H2. cbn [map concat fst snd] in H2.
  fold (kvs_of l2) in H2. unfold kv_bytes in H2.
  pose proof (blen_nonneg k). pose proof (blen_nonneg v).
  pose proof (kvs_of_len l1) as HL.
  set (a := kvs_of l1) in *. set (bl := le 4 (blen k)) in *. set (bv := le 4 (blen v)) in *.
  assert (blen bl = 4) by apply le_blen. assert (blen bv = 4) by apply le_blen.
  assert (unle bl = blen k) as U1 by (apply read4; lia).
  assert (unle bv = blen v) as U2 by (apply read4; lia).
  assert (slice (f_kvs f) (total l1) 4 = Some bl) as S0.
  { rewrite H2, <- !app_assoc. apply slice_mid; lia. }
  assert (slice (f_kvs f) (total l1 + 4) (blen k) = Some k) as S1.
  { rewrite H2, <- !app_assoc. rewrite (app_assoc a). apply slice_mid; rewrite ?blen_app; lia. }
  assert (slice (f_kvs f) (total l1 + 4 + blen k) 4 = Some bv) as S2.
  { rewrite H2, <- !app_assoc. rewrite (app_assoc a), (app_assoc (a ++ bl)). apply slice_mid; rewrite ?blen_app; lia. }
  assert (slice (f_kvs f) (total l1 + 4 + blen k + 4) (blen v) = Some v) as S3.
  { rewrite H2, <- !app_assoc. rewrite (app_assoc a), (app_assoc (a ++ bl)), (app_assoc ((a ++ bl) ++ k)).
    apply slice_mid; rewrite ?blen_app; lia. }
  split; [exact R|]. split; [|split].
  - unfold leaf_key. rewrite R. cbn [obind l_offset l_keylen]. exact S1.
  - unfold leaf_key_value. rewrite R. cbn [obind l_offset l_keylen]. rewrite S1. cbn [obind]. rewrite S2. cbn [obind].
    rewrite U2, S3. reflexivity.
  - unfold key_value. rewrite S0. cbn [obind]. rewrite U1, S1. cbn [obind]. rewrite S2. cbn [obind].
    rewrite U2, S3. reflexivity.
Qed.

(* ---- the subtree n sits in f after L leaves and B branches ---- *)
Definition sits (f : files) (L B : Z) (n : node) : Prop :=
  exists l1 l2 b1 b2,
  file_leaves f (l1 ++ vleaves n ++ l2) /\ L = Z.of_nat (length l1) /\
  f_nodes f = concat (map enc_b (b1 ++ brecs L B n ++ b2)) /\
  Forall wf_b (b1 ++ brecs L B n ++ b2) /\ B = Z.of_nat (length b1) /\
  0 <= L - B /\ L - B + depth n < 256 /\ L + size n < 2 ^ 32 /\ fields_exact n /\ keys_exact n.

Definition ref (L B : Z) (n : node) : pnode :=
  match n with Leaf _ _ _ => PNode true L | _ => PNode false (B + size n - 2) end.

Lemma sits_left f L B k h s ver l r : sits f L B (Branch k h s ver l r) -> sits f L B l.
Proof.
  intros (l1 & l2 & b1 & b2 & Hl & HL & Hn & Hw & HB & P1 & P2 & P3 & (Fl & Fr & _) & (Kl & Kr & _)).
  cbn [vleaves brecs depth] in *. rewrite size_branch in P3. pose proof (size_pos r). pose proof (depth_nonneg r).
  exists l1, (vleaves r ++ l2), b1, (brecs (L + size l) (B + size l - 1) r ++ [BRec h (L - B) ver s (L + size l) (nhash sha (Branch k h s ver l r))] ++ b2).
  rewrite <- !app_assoc in *. split; [exact Hl|]. split; [exact HL|]. split; [exact Hn|]. split; [exact Hw|].
  split; [exact HB|]. split; [lia|]. split; [lia|]. split; [lia|]. auto.
Qed.

Lemma sits_right f L B k h s ver l r : sits f L B (Branch k h s ver l r) -> sits f (L + size l) (B + size l - 1) r.
Proof.
  intros (l1 & l2 & b1 & b2 & Hl & HL & Hn & Hw & HB & P1 & P2 & P3 & (Fl & Fr & _) & (Kl & Kr & _)).
  cbn [vleaves brecs depth] in *. rewrite size_branch in P3. pose proof (size_pos l). pose proof (depth_nonneg l).
  exists (l1 ++ vleaves l), l2, (b1 ++ brecs L B l), ([BRec h (L - B) ver s (L + size l) (nhash sha (Branch k h s ver l r))] ++ b2).
  rewrite <- !app_assoc in *. split; [exact Hl|].
  split; [rewrite app_length, Nat2Z.inj_add, vleaves_length; lia|].
  split; [exact Hn|]. split; [exact Hw|].
  split; [rewrite app_length, Nat2Z.inj_add, brecs_length; lia|].
  split; [lia|]. split; [lia|]. split; [lia|]. auto.
Qed.

Lemma sits_branch f L B k h s ver l r : let n := Branch k h s ver l r in sits f L B n ->
  read_branch f (B + size n - 2) = Some (BRec h (L - B) ver (size l + size r) (L + size l) (nhash sha n)) /\
  s = size l + size r /\ h = depth n /\ 0 <= B /\ 0 <= L - B < 256 /\ L + size l + size r < 2 ^ 32.
Proof.
  intros n (l1 & l2 & b1 & b2 & Hl & HL & Hn & Hw & HB & P1 & P2 & P3 & (Fl & Fr & Hh & Hs) & _).
  assert (s = size l + size r) as Es.
  { rewrite Hs. unfold size. cbn [leaves]. rewrite app_length. lia. }
  pose proof (size_pos l). pose proof (size_pos r). pose proof (depth_nonneg n).
  unfold n in *. rewrite size_branch in *.
  split; [|split; [exact Es|split; [exact Hh|lia]]].
  cbn [brecs] in *. rewrite <- Es. rewrite <- !app_assoc in Hn, Hw.
  rewrite (app_assoc b1), (app_assoc (b1 ++ _)) in Hn, Hw. cbn [app] in Hn, Hw.
  eapply read_branch_at; [exact Hn|exact Hw|].
  rewrite !app_length, !Nat2Z.inj_add, !brecs_length. lia.
Qed.

Lemma sits_leaf f L B n i k v : sits f L B n -> (i < length (leaves n))%nat -> nth i (leaves n) dkv = (k, v) ->
  leaf_key f (L + Z.of_nat i) = Some k /\ leaf_key_value f (L + Z.of_nat i) = Some (k, v).
Proof.
  intros (l1 & l2 & b1 & b2 & Hl & HL & _) Hi Hn.
  rewrite vleaves_leaves, map_length in *.
  destruct (nth_split (vleaves n) dkvv Hi) as (a & b & E & La).
  change dkv with (fst dkvv) in Hn. rewrite map_nth in Hn.
  destruct (nth i (vleaves n) dkvv) as [kv ver] eqn:E2. cbn [fst] in Hn. subst kv.
  rewrite E, <- !app_assoc in Hl. rewrite (app_assoc l1) in Hl. cbn [app] in Hl.
  destruct (leaf_at f (l1 ++ a) k v ver (b ++ l2) (L + Z.of_nat i) Hl) as (off & _ & H1 & H2 & _).
  - rewrite app_length. lia.
  - auto.
Qed.

Lemma sits_represents f n : forall L B, sits f L B n -> represents sha f (ref L B n) n.
Proof.
  induction n as [k v ver|k h s ver l IHl r IHr]; intros L B HS.
  - assert (HS' := HS). destruct HS' as (l1 & l2 & b1 & b2 & Hl & HL & _).
    cbn [vleaves app] in Hl. destruct (leaf_at f l1 k v ver l2 L Hl HL) as (off & R & K & KV & _).
    cbn [represents ref]. unfold p_height, p_size, p_version, p_key, p_hash, p_value. cbn [p_leaf p_index].
    rewrite R, K, KV. cbn. auto 10.
  - destruct (sits_branch _ _ _ _ _ _ _ _ _ HS) as (R & Es & Eh & HB & HP & HL).
    set (n := Branch k h s ver l r) in *.
    pose proof (size_pos l). pose proof (size_pos r).
    assert (size n = size l + size r) as En by apply size_branch.
    assert (leaf_key f (L + size l) = Some k) as HK.
    { assert (HS' := HS). destruct HS' as (_ & _ & _ & _ & _ & _ & _ & _ & _ & _ & _ & _ & _ & (_ & _ & (v0 & tl & Hd) & _)).
      unfold size. eapply (sits_leaf f L B n _ k v0 HS).
      - unfold n. cbn [leaves]. rewrite app_length, Hd. cbn [length]. lia.
      - unfold n. cbn [leaves]. rewrite app_nth2 by lia. rewrite Nat.sub_diag, Hd. reflexivity. }
    change (ref L B n) with (PNode false (B + size n - 2)).
    assert (exists idx, idx = B + size n - 2) as [idx Eidx] by eauto. rewrite <- Eidx in *. rewrite En in Eidx.
    unfold n in *. cbn [represents].
    unfold p_height, p_size, p_version, p_key, p_hash, p_left, p_right. cbn [p_leaf p_index].
    rewrite R. cbn [option_map obind b_height b_pre b_version b_size b_keyleaf b_hash].
    rewrite HK. subst s. cbn [nheight nsize nversion nkey].
    do 5 (split; [reflexivity|]). split; [reflexivity|].
    exists (ref L B l), (ref (L + size l) (B + size l - 1) r).
    split; [|split; [|split; [apply IHl; eapply sits_left; exact HS|apply IHr; eapply sits_right; exact HS]]].
    + f_equal. unfold get_start_leaf, get_left_branch.
      replace (idx + 2 - (size l + size r) + (L - B)) with L by lia.
      rewrite (u32_small L) by lia.
      destruct l as [lk lv lver|lk lh ls0 lver ll lr]; cbn [ref].
      * change (size (Leaf lk lv lver)) with 1 in *. rewrite u32_small by lia. rewrite Z.eqb_refl. reflexivity.
      * set (l := Branch lk lh ls0 lver ll lr) in *.
        assert (2 <= size l) by (unfold l; rewrite size_branch; pose proof (size_pos ll); pose proof (size_pos lr); lia).
        rewrite u32_small by lia. destruct (L + 1 =? L + size l) eqn:E; [lia|].
        rewrite u32_small by lia. f_equal. lia.
    + f_equal. unfold get_end_leaf.
      replace (idx + (L - B) + 1) with (L + size l + size r - 1) by lia.
      rewrite (u32_small (L + size l + size r - 1)) by lia.
      destruct r as [rk rv rver|rk rh rs0 rver rl rr]; cbn [ref].
      * change (size (Leaf rk rv rver)) with 1 in *.
        destruct (L + size l =? L + size l + 1 - 1) eqn:E; [reflexivity|lia].
      * set (r := Branch rk rh rs0 rver rl rr) in *.
        assert (2 <= size r) by (unfold r; rewrite size_branch; pose proof (size_pos rl); pose proof (size_pos rr); lia).
        destruct (L + size l =? L + size l + size r - 1) eqn:E; [lia|].
        rewrite u32_small by lia. f_equal. lia.
Qed.

(* ---- the whole snapshot ---- *)
Lemma depth_small n : avl n -> size n < 2 ^ 32 -> depth n < 256.
Proof.
  intros (Hb & _) Hs. pose proof (depth_bound n Hb). pose proof (depth_nonneg n).
  destruct (Z.ltb_spec (depth n) 256); [assumption|exfalso].
  assert (2 ^ 128 <= 2 ^ (depth n / 2)) by (apply Z.pow_le_mono_r; [lia|apply Z.div_le_lower_bound; lia]).
  assert (2 ^ 32 < 2 ^ 128) by reflexivity. lia.
Qed.

Lemma written n : avl n -> fits n -> kvs_size n < 2 ^ 63 -> size n < 2 ^ 32 ->
  let w := write_rec sha new_writer n in
  w = Writer (concat (map enc_b (brecs 0 0 n))) (concat (map enc_l (lrecs 0 (vleaves n)))) (kvs_of (vleaves n))
             (size n - 1) (size n) (kvs_size n) /\
  forall m, sits (Files (w_nodes w) (w_leaves w) (w_kvs w) m) 0 0 n.
Proof.
  intros HA HF HK HS w. pose proof (depth_small n HA HS). pose proof (depth_nonneg n). pose proof (kvs_size_pos n).
  destruct HA as (_ & Hf & Hk).
  assert (w = Writer (concat (map enc_b (brecs 0 0 n))) (concat (map enc_l (lrecs 0 (vleaves n)))) (kvs_of (vleaves n))
             (size n - 1) (size n) (kvs_size n)) as E.
  { unfold w. rewrite write_rec_eq; cbn [w_nodes w_leaves w_kvs w_branches w_leafs w_offset new_writer app]; try assumption; try lia.
    f_equal; lia. }
  split; [exact E|]. rewrite E. intros m. exists [], [], [], []. cbn [w_nodes w_leaves w_kvs app length]. rewrite !app_nil_r.
  split.
  - split; [reflexivity|]. split; [reflexivity|]. split; [apply fits_vleaves; exact HF|]. rewrite <- kvs_size_total. exact HK.
  - split; [reflexivity|]. split; [reflexivity|]. split; [apply wf_brecs; try assumption; lia|].
    split; [reflexivity|]. split; [lia|]. split; [lia|]. split; [lia|]. auto.
Qed.

Lemma open_meta f v : f_meta f = meta_bytes v -> 0 <= v < 2 ^ 32 ->
  blen (f_meta f) = 12 /\ exists a b c, slice (f_meta f) 0 4 = Some a /\ slice (f_meta f) 4 4 = Some b /\
  slice (f_meta f) 8 4 = Some c /\ unle a = 1280721225 /\ unle b = 0 /\ unle c = v.
Proof.
  intros -> Hv. unfold meta_bytes. split; [rewrite !blen_app, !le_blen; lia|].
  exists (le 4 1280721225), (le 4 0), (le 4 v).
  split; [apply (slice_mid []); rewrite ?le_blen; reflexivity|].
  split; [apply slice_mid; rewrite ?le_blen; reflexivity|].
  split; [rewrite app_assoc; apply slice_end; rewrite ?blen_app, ?le_blen; reflexivity|].
  split; [reflexivity|]. split; [reflexivity|]. apply read4. exact Hv.
Qed.

Lemma open_written t : root_ok avl (t_root t) -> storable t ->
  exists p, open_snapshot (write_snapshot sha t) = Ok (t_version t, p) /\
  match t_root t with
  | None => p = None
  | Some n => p = Some (ref 0 0 n) /\ sits (write_snapshot sha t) 0 0 n
  end.
Proof.
  intros HA (Hv & HS). unfold write_snapshot. destruct (t_root t) as [n|]; cbn [root_ok] in *.
  - destruct HS as (HF & HK & HS). fold (size n) in HS.
    destruct (written n HA HF HK HS) as [E HR].
    pose proof (size_pos n). pose proof (depth_small n HA HS). pose proof (depth_nonneg n). pose proof (kvs_size_pos n).
    set (w := write_rec sha new_writer n) in *. unfold finish.
    assert (w_leafs w = size n) as E1 by (rewrite E; reflexivity). rewrite E1.
    destruct (0 <? size n) eqn:E0; [|lia].
    specialize (HR (meta_bytes (t_version t))).
    set (f := Files (w_nodes w) (w_leaves w) (w_kvs w) (meta_bytes (t_version t))) in *.
    destruct (open_meta f (t_version t) eq_refl Hv) as (M0 & a & b & c & M1 & M2 & M3 & U1 & U2 & U3).
    exists (Some (ref 0 0 n)). split; [|auto].
    assert (blen (f_nodes f) = 48 * (size n - 1)) as Ln.
    { unfold f. rewrite E. cbn [f_nodes w_nodes]. rewrite (concat_len enc_b wf_b enc_b_len), brecs_length; [reflexivity|].
      destruct HA as (_ & Hf & _). apply wf_brecs; try assumption; lia. }
    assert (blen (f_leaves f) = 48 * size n) as Ll.
    { unfold f. rewrite E. cbn [f_leaves w_leaves]. rewrite (concat_len enc_l wf_l enc_l_len), lrecs_length, vleaves_length; [reflexivity|].
      apply wf_lrecs; [apply fits_vleaves; exact HF|lia|rewrite <- kvs_size_total; lia]. }
    unfold open_snapshot. rewrite M0. change (12 =? 12) with true. cbn [negb].
    rewrite M1, M2, M3, U1, U2, U3. rewrite !Z.eqb_refl. cbn [negb]. rewrite Ln, Ll.
    rewrite !(Z.mul_comm 48), !Z.mod_mul, !Z.div_mul by lia. rewrite !Z.eqb_refl. cbn [negb].
    rewrite E0. replace (size n - 1 + 1 =? size n) with true by lia. replace (size n =? 0) with false by lia.
    cbn [negb andb orb]. f_equal. f_equal.
    destruct n as [k v ver|k h s ver l r]; cbn [ref].
    + reflexivity.
    + rewrite size_branch in *. pose proof (size_pos l). pose proof (size_pos r).
      destruct (0 <? size l + size r - 1) eqn:E2; [|lia]. rewrite u32_small by lia. do 2 f_equal. lia.
  - exists None. split; [|reflexivity]. unfold finish. change (0 <? 0) with false. cbn [negb].
    set (f := Files [] [] [] (meta_bytes (t_version t))).
    destruct (open_meta f (t_version t) eq_refl Hv) as (M0 & a & b & c & M1 & M2 & M3 & U1 & U2 & U3).
    unfold open_snapshot. rewrite M0. change (12 =? 12) with true. cbn [negb].
    rewrite M1, M2, M3, U1, U2, U3. reflexivity.
Qed.

(* ---- Get by bisection ---- *)
Lemma go_search_ok (P : Z -> bool) (f : Z -> option bool) fuel : forall lo hi,
  (hi - lo < Z.of_nat fuel) -> lo <= hi ->
  (forall i, lo <= i < hi -> f i = Some (P i)) ->
  (forall i j, lo <= i <= j -> j < hi -> P i = true -> P j = true) ->
  exists r, go_search fuel lo hi f = Some r /\ lo <= r <= hi /\
    (forall i, lo <= i < r -> P i = false) /\ (forall i, r <= i < hi -> P i = true).
Proof.
  induction fuel as [|fuel IH]; intros lo hi Hf Hle Hok Hmono; [lia|].
  cbn [go_search]. destruct (lo <? hi) eqn:E.
  - assert (lo <= (lo + hi) / 2 < hi) as Hm.
    { split; [apply Z.div_le_lower_bound; lia|apply Z.div_lt_upper_bound; lia]. }
    set (h := (lo + hi) / 2) in *. rewrite Hok by lia. cbn [obind].
    destruct (P h) eqn:Eh.
    + destruct (IH lo h) as (r & H1 & H2 & H3 & H4); try lia.
      * intros i Hi. apply Hok. lia.
      * intros i j Hi Hj. apply Hmono; lia.
      * exists r. split; [exact H1|]. split; [lia|]. split; [exact H3|].
        intros i Hi. destruct (Z.ltb_spec i h); [apply H4; lia|]. apply (Hmono h i); auto; lia.
    + destruct (IH (h + 1) hi) as (r & H1 & H2 & H3 & H4); try lia.
      * intros i Hi. apply Hok. lia.
      * intros i j Hi Hj. apply Hmono; lia.
      * exists r. split; [exact H1|]. split; [lia|]. split; [|exact H4].
        intros i Hi. destruct (Z.ltb_spec h i); [apply H3; lia|].
        destruct (P i) eqn:Ei; [|reflexivity]. rewrite (Hmono i h) in Eh by (auto; lia). discriminate.
  - exists lo. split; [reflexivity|]. split; [lia|]. split; intros; lia.
Qed.

Lemma p_start_count_ok f L B n : sits f L B n -> p_start_count f (ref L B n) = Some (L, size n).
Proof.
  intros HS. destruct n as [k v ver|k h s ver l r]; cbn [ref]; unfold p_start_count; cbn [p_leaf p_index].
  - reflexivity.
  - destruct (sits_branch _ _ _ _ _ _ _ _ _ HS) as (R & Es & Eh & HB & HP & HL).
    rewrite R. cbn [obind b_size b_pre]. rewrite size_branch. unfold get_start_leaf.
    pose proof (size_pos l). pose proof (size_pos r).
    replace (B + (size l + size r) - 2 + 2 - (size l + size r) + (L - B)) with L by lia.
    rewrite u32_small by lia. reflexivity.
Qed.

Lemma sorted_nth (l : list (bytes * bytes)) i j : sorted l -> (i < j < length l)%nat ->
  blt (fst (nth i l dkv)) (fst (nth j l dkv)).
Proof.
  intros HS. revert i j. induction l as [|x l IH]; intros i j Hij; cbn [length] in Hij; [lia|].
  inversion HS as [|? ? HS' HF]; subst. destruct j as [|j]; [lia|]. destruct i as [|i].
  - cbn [nth]. rewrite Forall_forall in HF. apply HF. apply nth_In. lia.
  - cbn [nth]. apply IH; [exact HS'|lia].
Qed.

(* rank k l is the split point of a sorted list *)
Lemma rank_split k l r : sorted l -> (r <= length l)%nat ->
  (forall i, (i < r)%nat -> blt (fst (nth i l dkv)) k) ->
  (forall i, (r <= i < length l)%nat -> ble k (fst (nth i l dkv))) ->
  rank k l = Z.of_nat r.
Proof.
  revert r. induction l as [|[x v] l IH]; intros r HS Hr H1 H2; cbn [length] in *.
  - assert (r = O) by lia. subst. reflexivity.
  - inversion HS as [|? ? HS' HF]; subst. destruct r as [|r].
    + apply rank_all_ge. intros y w HI. destruct (In_nth _ _ dkv HI) as (i & Hi & E).
      cbn [length] in Hi. specialize (H2 i (conj (Nat.le_0_l i) Hi)). change y with (fst (y, w)). rewrite <- E. exact H2.
    + change ((x, v) :: l) with ([(x, v)] ++ l). rewrite rank_app.
      rewrite (IH r HS'); [|lia| |].
      * rewrite rank_all_lt; [cbn [length]; lia|]. intros y w [E|[]]. inversion E; subst.
        apply (H1 O). lia.
      * intros i Hi. apply (H1 (S i)). lia.
      * intros i Hi. apply (H2 (S i)). lia.
Qed.

Lemma p_get_ok f L B n key : sits f L B n ->
  p_get f (ref L B n) key = Some (look key (leaves n), rank key (leaves n)).
Proof.
  intros HS. assert (HS' := HS).
  destruct HS' as (l1 & l2 & b1 & b2 & Hl & HL & _ & _ & HB & P1 & _ & P3 & _ & Hk).
  pose proof (keys_sorted n Hk) as Hsort. pose proof (size_pos n) as Hpos.
  assert (0 <= L) by lia.
  unfold p_get. rewrite (p_start_count_ok _ _ _ _ HS). cbn [obind].
  set (ls := leaves n) in *.
  set (kat := fun i : Z => fst (nth (Z.to_nat i) ls dkv)).
  set (P := fun i : Z => match bcmp (kat i) key with Lt => false | _ => true end).
  assert (Z.of_nat (length ls) = size n) as Hlen by reflexivity.
  assert (forall i, 0 <= i < size n -> leaf_key f (u32 (L + u32 i)) = Some (kat i) /\
    leaf_key_value f (u32 (i + L)) = Some (nth (Z.to_nat i) ls dkv)) as Hat.
  { intros i Hi. rewrite (u32_small i), (u32_small (L + i)), (u32_small (i + L)) by lia.
    unfold kat. destruct (nth (Z.to_nat i) ls dkv) as [k v] eqn:E.
    destruct (sits_leaf f L B n (Z.to_nat i) k v HS) as [H1 H2]; [fold ls; lia|exact E|].
    rewrite Z2Nat.id in H1, H2 by lia. rewrite (Z.add_comm i L). split; [exact H1|exact H2]. }
  assert (forall i j, 0 <= i <= j -> j < size n -> P i = true -> P j = true) as Hmono.
  { intros i j Hij Hj HPi. destruct (Z.eq_dec i j); [subst; exact HPi|].
    unfold P in *. assert (blt (kat i) (kat j)) as Hlt by (apply sorted_nth; [exact Hsort|lia]).
    destruct (bcmp (kat j) key) eqn:E; try reflexivity.
    assert (blt (kat i) key) as H2 by (eapply blt_trans; [exact Hlt|exact E]).
    unfold blt in H2. rewrite H2 in HPi. discriminate. }
  destruct (go_search_ok P (fun i => obind (leaf_key f (u32 (L + u32 i))) (fun k => Some match bcmp k key with Lt => false | _ => true end))
              (S (Z.to_nat (size n))) 0 (size n)) as (r & E & Hr & Hlo & Hhi); [lia|lia| |exact Hmono|].
  { intros i Hi. destruct (Hat i Hi) as [-> _]. reflexivity. }
  rewrite E. cbn [obind].
  assert (rank key ls = r) as Hrank.
  { rewrite <- (Z2Nat.id r) by lia. apply rank_split; [exact Hsort|lia| |].
    - intros i Hi. specialize (Hlo (Z.of_nat i) ltac:(lia)). unfold P, kat in Hlo. rewrite Nat2Z.id in Hlo.
      unfold blt. destruct (bcmp (fst (nth i ls dkv)) key); [discriminate|reflexivity|discriminate].
    - intros i Hi. specialize (Hhi (Z.of_nat i) ltac:(lia)). unfold P, kat in Hhi. rewrite Nat2Z.id in Hhi.
      apply ble_not_lt. unfold blt. intros C. rewrite C in Hhi. discriminate. }
  rewrite (u32_small (L + size n)) by lia. rewrite (u32_small (r + L)) by lia.
  assert (forall v, In (key, v) ls -> r < size n /\ kat r = key) as Hin.
  { intros v HI. destruct (In_nth _ _ dkv HI) as (i & Hi & Ei).
    assert (r <= Z.of_nat i).
    { destruct (Z.leb_spec r (Z.of_nat i)); [assumption|]. specialize (Hlo (Z.of_nat i) ltac:(lia)).
      unfold P, kat in Hlo. rewrite Nat2Z.id, Ei in Hlo. cbn [fst] in Hlo. rewrite bcmp_refl in Hlo. discriminate. }
    split; [lia|]. destruct (Z.eq_dec r (Z.of_nat i)) as [->|Hne].
    - unfold kat. rewrite Nat2Z.id, Ei. reflexivity.
    - exfalso. specialize (Hhi r ltac:(lia)). unfold P in Hhi.
      assert (blt (kat r) key) as C.
      { replace key with (fst (nth i ls dkv)) by (rewrite Ei; reflexivity). apply sorted_nth; [exact Hsort|lia]. }
      unfold blt in C. rewrite C in Hhi. discriminate. }
  destruct (L + size n <=? r + L) eqn:Ele.
  - rewrite look_none; [rewrite Hrank; reflexivity|]. intros v HI. destruct (Hin v HI). lia.
  - destruct (Hat r ltac:(lia)) as [_ Hkv]. rewrite (u32_small (r + L)) in Hkv by lia. rewrite Hkv.
    destruct (nth (Z.to_nat r) ls dkv) as [k v] eqn:En. cbn [obind]. rewrite Hrank.
    assert (In (k, v) ls) as HI by (rewrite <- En; apply nth_In; lia).
    destruct (beqb k key) eqn:Eb.
    + apply beqb_spec in Eb. subst k. apply look_in in HI; [|exact Hsort]. rewrite HI. reflexivity.
    + rewrite look_none; [reflexivity|]. intros w HI2. destruct (Hin w HI2) as [_ C]. unfold kat in C. rewrite En in C. cbn in C. subst k.
      rewrite beqb_refl in Eb. discriminate.
Qed.

Lemma p_get_by_index_ok f L B n i : sits f L B n -> 0 <= i -> L + i < 2 ^ 32 ->
  p_get_by_index f (ref L B n) i = Some (nth_error (leaves n) (Z.to_nat i)).
Proof.
  intros HS Hi HLi. assert (HS' := HS).
  destruct HS' as (l1 & l2 & b1 & b2 & Hl & HL & _ & _ & HB & P1 & _ & P3 & _ & Hk).
  assert (forall j, 0 <= j < size n -> leaf_key_value f (L + j) = nth_error (leaves n) (Z.to_nat j)) as Hat.
  { intros j Hj. unfold size in Hj. rewrite (nth_error_nth' (leaves n) dkv) by lia.
    destruct (nth (Z.to_nat j) (leaves n) dkv) as [k v] eqn:E.
    destruct (sits_leaf f L B n (Z.to_nat j) k v HS) as [_ H2]; [lia|exact E|].
    rewrite Z2Nat.id in H2 by lia. exact H2. }
  destruct n as [k v ver|k h s ver l r]; cbn [ref]; unfold p_get_by_index; cbn [p_leaf p_index].
  - destruct (i =? 0) eqn:E; cbn [negb].
    + assert (i = 0) by lia. subst i. specialize (Hat 0). rewrite Z.add_0_r in Hat. rewrite Hat; [reflexivity|].
      change (size (Leaf k v ver)) with 1. lia.
    + rewrite (proj2 (nth_error_None _ _)); [reflexivity|]. cbn [leaves length]. lia.
  - destruct (sits_branch _ _ _ _ _ _ _ _ _ HS) as (R & Es & Eh & HB' & HP & HL').
    set (n := Branch k h s ver l r) in *. assert (size n = size l + size r) as En by apply size_branch.
    rewrite R. cbn [obind b_size b_pre]. unfold get_start_leaf, get_end_leaf.
    replace (B + size n - 2 + 2 - (size l + size r) + (L - B)) with L by lia.
    replace (B + size n - 2 + (L - B) + 1) with (L + size n - 1) by lia.
    pose proof (size_pos n). rewrite (u32_small L), (u32_small (L + i)), (u32_small (L + size n - 1)) by lia.
    destruct (L + size n - 1 <? L + i) eqn:E.
    + rewrite (proj2 (nth_error_None _ _)); [reflexivity|]. unfold size in *. lia.
    + rewrite (Hat i) by lia. rewrite (nth_error_nth' (leaves n) dkv) by (unfold size in *; lia). reflexivity.
Qed.

(* ---- traversal export ---- *)
Fixpoint cost (n : node) : nat :=
  match n with Leaf _ _ _ => 1 | Branch _ _ _ _ l r => S (cost l + (cost r + 1)) end.

Lemma cost_le n : (cost n <= 2 * node_count n)%nat.
Proof. induction n; cbn [cost node_count]; lia. Qed.

Lemma scan_ok n : forall m rest,
  scan_post_order (cost n + m) ((n, false) :: rest) =
  option_map (fun tl => post_order n ++ tl) (scan_post_order m rest).
Proof.
  induction n as [k v ver|k h s ver l IHl r IHr]; intros m rest; cbn [cost].
  - cbn [Nat.add scan_post_order]. reflexivity.
  - cbn [Nat.add scan_post_order].
    replace (cost l + (cost r + 1) + m)%nat with (cost l + (cost r + S m))%nat by lia.
    rewrite IHl, IHr. cbn [scan_post_order]. destruct (scan_post_order m rest) as [tl|]; [|reflexivity].
    cbn [option_map post_order]. rewrite <- !app_assoc. reflexivity.
Qed.

Lemma export_tree_ok t : export_tree t = Some (map enode_of (root_post (t_root t))).
Proof.
  unfold export_tree. destruct (t_root t) as [n|]; [|reflexivity].
  pose proof (cost_le n). replace (2 * node_count n)%nat with (cost n + (2 * node_count n - cost n))%nat by lia.
  rewrite scan_ok. destruct (2 * node_count n - cost n)%nat; cbn [scan_post_order option_map root_post]; rewrite app_nil_r; reflexivity.
Qed.

(* ---- sequential export ---- *)
Definition enl (x : bytes * bytes * Z) : enode := ENode (fst (fst x)) (Some (snd (fst x))) (snd x) 0.
Definition seg (ls : list (bytes * bytes * Z)) (a b : Z) : list enode :=
  map enl (firstn (Z.to_nat (b - a)) (skipn (Z.to_nat a) ls)).

Lemma seg_app ls a b c : 0 <= a <= b -> b <= c -> seg ls a b ++ seg ls b c = seg ls a c.
Proof.
  intros H1 H2. unfold seg. rewrite <- map_app. f_equal.
  replace (Z.to_nat (c - a)) with (Z.to_nat (b - a) + Z.to_nat (c - b))%nat by lia.
  replace (Z.to_nat b) with (Z.to_nat (b - a) + Z.to_nat a)%nat by lia.
  rewrite <- skipn_skipn. generalize (skipn (Z.to_nat a) ls) as x. intros x.
  generalize (Z.to_nat (b - a)) as p. generalize (Z.to_nat (c - b)) as q. intros q p.
  revert x. induction p as [|p IH]; intros [|y x]; cbn [firstn skipn Nat.add app].
  - reflexivity.
  - reflexivity.
  - rewrite firstn_nil. reflexivity.
  - rewrite IH. reflexivity.
Qed.

Lemma seg_nil ls a : seg ls a a = [].
Proof. unfold seg. rewrite Z.sub_diag. reflexivity. Qed.

Lemma export_leaves_ok f ls c : forall j,
  file_leaves f ls -> Z.of_nat (length ls) < 2 ^ 32 -> 0 <= j -> j + Z.of_nat c <= Z.of_nat (length ls) ->
  export_leaves f c j = Some (seg ls j (j + Z.of_nat c)).
Proof.
  induction c as [|c IH]; intros j HF Hlen Hj Hc.
  - rewrite Z.add_0_r, seg_nil. reflexivity.
  - cbn [export_leaves].
    destruct (nth_split ls dkvv (n := Z.to_nat j) ltac:(lia)) as (a & b & E & La).
    destruct (nth (Z.to_nat j) ls dkvv) as [[k v] ver] eqn:En.
    assert (file_leaves f (a ++ (k, v, ver) :: b)) as HF' by (rewrite <- E; exact HF).
    destruct (leaf_at f a k v ver b j HF' ltac:(lia)) as (off & R & _ & _ & KV).
    rewrite R. cbn [obind l_offset l_version]. rewrite KV. cbn [obind].
    rewrite u32_small by lia. rewrite IH by (assumption || lia). cbn [option_map]. f_equal.
    replace (j + Z.of_nat (S c)) with (j + 1 + Z.of_nat c) by lia.
    rewrite <- (seg_app ls j (j + 1) (j + 1 + Z.of_nat c)) by lia.
    change (ENode k (Some v) ver 0 :: seg ls (j + 1) (j + 1 + Z.of_nat c)) with ([ENode k (Some v) ver 0] ++ seg ls (j + 1) (j + 1 + Z.of_nat c)).
    f_equal. unfold seg. replace (j + 1 - j) with 1 by lia. rewrite E. rewrite <- La.
    rewrite skipn_app, skipn_all, Nat.sub_diag. reflexivity.
Qed.

Definition is_branch (n : node) : bool := match n with Leaf _ _ _ => false | _ => true end.

Lemma export_sub f ls n : forall L B j c, file_leaves f ls -> Z.of_nat (length ls) < 2 ^ 32 ->
  sits f L B n -> (forall x, firstn (Z.to_nat (size n)) (skipn (Z.to_nat L) ls) = x -> x = vleaves n) ->
  L + size n <= Z.of_nat (length ls) -> 0 <= j <= L ->
  let j' := if is_branch n then L + size n else j in
  export_branches f (Z.to_nat (size n - 1) + c) B j (j - B) =
  option_map (app (if is_branch n then seg ls j L ++ map enode_of (post_order n) else []))
    (export_branches f c (B + size n - 1) j' (j' - (B + size n - 1))).
Proof.
  induction n as [k v ver|k h s ver l IHl r IHr]; intros L B j c HF Hlen HS Hv Hb Hj j'.
  - unfold j'. cbn [is_branch]. change (size (Leaf k v ver)) with 1. cbn [Z.sub Z.to_nat].
    replace (B + 1 - 1) with B by lia. change (Z.to_nat (1 - 1)) with O. cbn [Nat.add].
    destruct (export_branches f c B j (j - B)); reflexivity.
  - destruct (sits_branch _ _ _ _ _ _ _ _ _ HS) as (R & Es & Eh & HB & HP & HL).
    pose proof (sits_left _ _ _ _ _ _ _ _ _ HS) as HSl. pose proof (sits_right _ _ _ _ _ _ _ _ _ HS) as HSr.
    assert (leaf_key f (L + size l) = Some k) as HK.
    { pose proof (sits_represents f _ L B HS) as HR. cbn [represents ref] in HR.
      destruct HR as (_ & _ & _ & HR & _). unfold p_key in HR. cbn [p_leaf p_index] in HR. rewrite R in HR. exact HR. }
    set (n := Branch k h s ver l r) in *. assert (size n = size l + size r) as En by apply size_branch.
    pose proof (size_pos l). pose proof (size_pos r).
    specialize (Hv _ eq_refl). unfold n in Hv at 2. cbn [vleaves] in Hv.
    replace (Z.to_nat (size n)) with (Z.to_nat (size l) + Z.to_nat (size r))%nat in Hv by lia.
    assert (firstn (Z.to_nat (size l)) (skipn (Z.to_nat L) ls) = vleaves l) as Hvl.
    { apply (f_equal (firstn (Z.to_nat (size l)))) in Hv. rewrite firstn_firstn in Hv.
      rewrite Nat.min_l in Hv by lia. rewrite Hv.
      rewrite firstn_app. pose proof (vleaves_length l).
      replace (Z.to_nat (size l)) with (length (vleaves l)) by lia. rewrite firstn_all, Nat.sub_diag. cbn [firstn]. apply app_nil_r. }
    assert (firstn (Z.to_nat (size r)) (skipn (Z.to_nat (L + size l)) ls) = vleaves r) as Hvr.
    { apply (f_equal (skipn (Z.to_nat (size l)))) in Hv. rewrite skipn_firstn_comm, skipn_skipn in Hv.
      replace (Z.to_nat (size l) + Z.to_nat (size r) - Z.to_nat (size l))%nat with (Z.to_nat (size r)) in Hv by lia.
      replace (Z.to_nat (L + size l)) with (Z.to_nat (size l) + Z.to_nat L)%nat by lia. rewrite Hv.
      rewrite skipn_app. pose proof (vleaves_length l).
      replace (Z.to_nat (size l)) with (length (vleaves l)) by lia. rewrite skipn_all, Nat.sub_diag. reflexivity. }
    replace (Z.to_nat (size n - 1) + c)%nat with
      (Z.to_nat (size l - 1) + (Z.to_nat (size r - 1) + S c))%nat by lia.
    assert (0 <= L) by lia.
    rewrite (IHl L B j) by (assumption || lia || (intros x <-; exact Hvl)).
    set (j1 := if is_branch l then L + size l else j).
    assert (0 <= j1 <= L + size l) as Hj1 by (unfold j1; destruct (is_branch l); lia).
    rewrite (IHr (L + size l) (B + size l - 1) j1) by (assumption || lia || (intros x <-; exact Hvr)).
    set (j2 := if is_branch r then L + size l + size r else j1).
    assert (0 <= j2 <= L + size n) as Hj2 by (unfold j2; destruct (is_branch r); lia).
    cbn [export_branches].
    replace (B + size l - 1 + size r - 1) with (B + size n - 2) by lia. rewrite R.
    cbn [obind b_pre b_keyleaf b_version b_height].
    replace (Z.max 0 (L - B + 2 - (j2 - (B + size n - 2)))) with (L + size n - j2) by lia.
    rewrite (export_leaves_ok f ls) by (assumption || lia). rewrite Z2Nat.id by lia.
    replace (j2 + (L + size n - j2)) with (L + size n) by lia.
    cbn [obind]. rewrite HK. cbn [obind]. rewrite u32_small by lia.
    unfold j'. cbn [is_branch n].
    replace (B + size n - 2 + 1) with (B + size n - 1) by lia.
    replace (j2 - (B + size n - 2) + (L + size n - j2) - 1) with (L + size n - (B + size n - 1)) by lia.
    destruct (export_branches f c (B + size n - 1) (L + size n) (L + size n - (B + size n - 1))) as [tl|]; [|reflexivity].
    cbn [option_map]. f_equal.
    assert (forall m, is_branch m = false -> forall LL, firstn (Z.to_nat (size m)) (skipn (Z.to_nat LL) ls) = vleaves m ->
              seg ls LL (LL + size m) = map enode_of (post_order m)) as Hleaf.
    { intros [mk0 mv mver|? ? ? ? ? ?] Hm LL E; [|discriminate]. unfold seg.
      replace (LL + size (Leaf mk0 mv mver) - LL) with (size (Leaf mk0 mv mver)) by lia. rewrite E. reflexivity. }
    assert (map enode_of (post_order n) = map enode_of (post_order l) ++ map enode_of (post_order r) ++ [enode_of n]) as Epost.
    { unfold n. cbn [post_order]. rewrite !map_app. reflexivity. }
    rewrite Epost. change (enode_of n) with (ENode k None ver h).
    assert (forall (x : list enode) y z, x = y ++ [z] -> forall t, x ++ t = y ++ z :: t) as Hre.
    { intros x y z -> t. rewrite <- app_assoc. reflexivity. }
    assert ((if is_branch l then seg ls j L ++ map enode_of (post_order l) else []) ++
            (if is_branch r then seg ls j1 (L + size l) ++ map enode_of (post_order r) else []) ++ seg ls j2 (L + size n)
            = seg ls j L ++ map enode_of (post_order l) ++ map enode_of (post_order r)) as Hmain.
    { unfold j2, j1. destruct (is_branch l) eqn:El; destruct (is_branch r) eqn:Er.
      - rewrite seg_nil. replace (L + size l + size r) with (L + size n) by lia. rewrite seg_nil.
        rewrite app_nil_l, app_nil_r, <- app_assoc. reflexivity.
      - cbn [app]. rewrite <- (Hleaf r Er (L + size l) Hvr). rewrite En, Z.add_assoc, <- app_assoc. reflexivity.
      - cbn [app]. replace (L + size l + size r) with (L + size n) by lia. rewrite seg_nil, app_nil_r.
        rewrite <- (Hleaf l El L Hvl). rewrite (app_assoc (seg ls j L)), (seg_app ls j L) by lia. reflexivity.
      - cbn [app]. rewrite <- (Hleaf r Er (L + size l) Hvr), <- (Hleaf l El L Hvl).
        rewrite (seg_app ls L (L + size l)) by lia. rewrite (seg_app ls j L) by lia. f_equal. lia. }
    rewrite !app_assoc in Hmain. rewrite !app_assoc. rewrite Hmain. rewrite <- !app_assoc. reflexivity.
Qed.

Lemma export_snapshot_ok t : root_ok avl (t_root t) -> storable t ->
  export_snapshot (write_snapshot sha t) = Some (map enode_of (root_post (t_root t))).
Proof.
  intros HA HSt. destruct (open_written t HA HSt) as (p & _ & Hp). destruct HSt as (Hv & HSt).
  unfold write_snapshot in *. destruct (t_root t) as [n|]; cbn [root_ok root_post] in *; [|reflexivity].
  destruct HSt as (HF & HK & HS). fold (size n) in HS. destruct Hp as (_ & Hsit).
  destruct (written n HA HF HK HS) as [E _]. pose proof (size_pos n).
  pose proof (depth_small n HA HS). pose proof (depth_nonneg n). pose proof (kvs_size_pos n).
  set (w := write_rec sha new_writer n) in *. unfold finish in *.
  assert (w_leafs w = size n) as E1 by (rewrite E; reflexivity). rewrite E1 in *.
  replace (0 <? size n) with true in * by lia.
  set (f := Files (w_nodes w) (w_leaves w) (w_kvs w) (meta_bytes (t_version t))) in *.
  assert (file_leaves f (vleaves n)) as Hfl.
  { unfold f. rewrite E. split; [reflexivity|]. split; [reflexivity|]. split; [apply fits_vleaves; exact HF|].
    rewrite <- kvs_size_total. exact HK. }
  assert (blen (f_nodes f) = 48 * (size n - 1)) as Ln.
  { unfold f. rewrite E. cbn [f_nodes w_nodes]. rewrite (concat_len enc_b wf_b enc_b_len), brecs_length; [reflexivity|].
    destruct HA as (_ & Hf & _). apply wf_brecs; try assumption; lia. }
  assert (blen (f_leaves f) = 48 * size n) as Ll.
  { unfold f. rewrite E. cbn [f_leaves w_leaves]. rewrite (concat_len enc_l wf_l enc_l_len), lrecs_length, vleaves_length; [reflexivity|].
    apply wf_lrecs; [apply fits_vleaves; exact HF|lia|rewrite <- kvs_size_total; lia]. }
  unfold export_snapshot. rewrite Ln, Ll. rewrite !(Z.mul_comm 48), !Z.div_mul by lia.
  destruct (size n =? 0) eqn:E0; [lia|]. pose proof (vleaves_length n).
  destruct (size n =? 1) eqn:E2.
  - destruct n as [k v ver|k h s ver l r].
    + cbn [vleaves] in Hfl. destruct (leaf_at f [] k v ver [] 0 Hfl eq_refl) as (off & R & _ & KV & _).
      rewrite KV. cbn [obind]. rewrite R. reflexivity.
    + rewrite size_branch in E2. pose proof (size_pos l). pose proof (size_pos r). lia.
  - destruct n as [k v ver|k h s ver l r]; [change (size (Leaf k v ver)) with 1 in E2; discriminate|].
    set (n := Branch k h s ver l r) in *.
    pose proof (export_sub f (vleaves n) n 0 0 0 0 Hfl ltac:(lia) Hsit) as HX.
    cbn [is_branch n] in HX. fold n in HX. rewrite Nat.add_0_r in HX. change (0 - 0) with 0 in HX.
    rewrite HX; [|intros x <-; change (Z.to_nat 0) with O; cbn [skipn]; rewrite <- vleaves_length, Nat2Z.id; apply firstn_all|lia|lia].
    cbn [export_branches option_map]. rewrite app_nil_r, seg_nil. reflexivity.
Qed.

(* ---- import ---- *)
Lemma import_ok n : forall i rest, fields_exact n -> fits n ->
  0 <= w_branches (i_w i) -> w_leafs (i_w i) - w_branches (i_w i) = Z.of_nat (length (i_nodes i)) ->
  Z.of_nat (length (i_nodes i)) + depth n < 256 ->
  w_leafs (i_w i) + size n < 2 ^ 32 -> 0 <= w_offset (i_w i) -> w_offset (i_w i) + kvs_size n < 2 ^ 64 ->
  import_all sha i (map enode_of (post_order n) ++ rest) =
  import_all sha (Importer (write_rec sha (i_w i) n) (w_leafs (i_w i) + size n :: i_leaves i)
                           ((size n, nhash sha n) :: i_nodes i)) rest.
Proof.
  induction n as [k v ver|k h s ver l IHl r IHr]; intros i rest HF Hfit HB HP HD HL HO HK.
  - cbn [post_order map enode_of app import_all]. unfold import_add. cbn [e_version e_height e_value e_key].
    cbn [fits] in Hfit. destruct (2 ^ 32 - 1 <? ver) eqn:E; [lia|]. cbn [Z.eqb]. rewrite (u32_small ver) by lia.
    change (size (Leaf k v ver)) with 1 in *. change (0 =? 0) with true. cbn [rbind].
    cbn [write_rec nhash]. unfold write_leaf at 2. cbn [w_leafs]. rewrite u32_small by lia. reflexivity.
  - cbn [fields_exact] in HF. destruct HF as (Fl & Fr & Hh & Hs). cbn [fits] in Hfit. destruct Hfit as (Hv & Hfl & Hfr).
    assert (s = size l + size r) as Es. { rewrite Hs. unfold size. cbn [leaves]. rewrite app_length. lia. }
    set (n := Branch k h s ver l r) in *.
    assert (size n = size l + size r) as En by apply size_branch. assert (kvs_size n = kvs_size l + kvs_size r) as Ek by reflexivity.
    assert (depth n = 1 + Z.max (depth l) (depth r)) as Ed by reflexivity.
    pose proof (size_pos l). pose proof (size_pos r). pose proof (kvs_size_pos l). pose proof (kvs_size_pos r).
    pose proof (depth_nonneg l). pose proof (depth_nonneg r).
    change (post_order n) with (post_order l ++ post_order r ++ [n]). rewrite !map_app, <- !app_assoc.
    rewrite IHl by (assumption || lia).
    assert (write_rec sha (i_w i) l = Writer (w_nodes (i_w i) ++ concat (map enc_b (brecs (w_leafs (i_w i)) (w_branches (i_w i)) l)))
         (w_leaves (i_w i) ++ concat (map enc_l (lrecs (w_offset (i_w i)) (vleaves l)))) (w_kvs (i_w i) ++ kvs_of (vleaves l))
         (w_branches (i_w i) + size l - 1) (w_leafs (i_w i) + size l) (w_offset (i_w i) + kvs_size l)) as E1
      by (apply write_rec_eq; assumption || lia).
    set (w1 := write_rec sha (i_w i) l) in *.
    assert (w_branches w1 = w_branches (i_w i) + size l - 1) as B1 by (rewrite E1; reflexivity).
    assert (w_leafs w1 = w_leafs (i_w i) + size l) as L1 by (rewrite E1; reflexivity).
    assert (w_offset w1 = w_offset (i_w i) + kvs_size l) as O1 by (rewrite E1; reflexivity).
    rewrite IHr; cbn [i_w i_nodes i_leaves length]; try assumption; try lia.
    assert (w_leafs (write_rec sha w1 r) = w_leafs w1 + size r) as L2.
    { rewrite write_rec_eq by (assumption || lia). reflexivity. }
    cbn [map app import_all]. unfold import_add. change (enode_of n) with (ENode k None ver h).
    cbn [e_version e_height e_value e_key i_w i_nodes i_leaves].
    destruct (2 ^ 32 - 1 <? ver) eqn:E; [lia|]. destruct (h =? 0) eqn:Eh; [lia|]. cbn [rbind].
    rewrite (u32_small ver) by lia. unfold u8. rewrite (Z.mod_small h) by lia.
    rewrite (Z.mod_small (Z.of_nat (length (i_nodes i)))) by lia.
    rewrite <- Es.
    assert (write_rec sha (i_w i) n = write_branch (write_rec sha w1 r) ver (u32 s) h (Z.of_nat (length (i_nodes i)))
              (w_leafs (i_w i) + size l) (nhash sha n)) as EW.
    { unfold n. cbn [write_rec]. fold n. fold w1. rewrite L1. f_equal. rewrite HP, u32_small by lia. unfold u8. rewrite Z.mod_small by lia. reflexivity. }
    rewrite EW. change (branch_hash sha h s ver (nhash sha l) (nhash sha r)) with (nhash sha n).
    f_equal. f_equal; [|f_equal; f_equal; lia].
    f_equal. unfold write_branch. cbn [w_leafs]. lia.
Qed.

Lemma do_import_ok t : root_ok avl (t_root t) -> storable t ->
  do_import sha (t_version t) (map enode_of (root_post (t_root t))) = Ok (write_snapshot sha t).
Proof.
  intros HA (Hv & HSt). unfold do_import. destruct (2 ^ 32 - 1 <? t_version t) eqn:E; [lia|].
  rewrite (u32_small (t_version t)) by lia. unfold write_snapshot.
  destruct (t_root t) as [n|]; cbn [root_ok root_post] in *.
  - destruct HSt as (HF & HK & HS). fold (size n) in HS.
    pose proof (depth_small n HA HS). pose proof (kvs_size_pos n). pose proof (size_pos n).
    destruct (written n HA HF HK HS) as [EW _].
    pose proof (import_ok n (Importer new_writer [] []) [] (proj1 (proj2 HA)) HF) as HI.
    cbn [i_w i_nodes i_leaves w_leafs w_branches w_offset new_writer length] in HI.
    rewrite app_nil_r in HI. rewrite HI by lia. cbn [import_all rbind i_leaves i_w].
    f_equal.
  - reflexivity.
Qed.

(* ---- persisted subtrees and mixed trees ---- *)
Lemma sits_path f path : forall n0 L B n, sits f L B n0 -> node_at n0 path = Some n ->
  exists L' B', pnode_at f (ref L B n0) path = Some (ref L' B' n) /\ sits f L' B' n.
Proof.
  induction path as [|b path IH]; intros n0 L B n HS HN; cbn [node_at pnode_at] in *.
  - inversion HN; subst. exists L, B. split; [reflexivity|assumption].
  - destruct n0 as [k v ver|k h s ver l r]; [discriminate|].
    assert (p_left f (ref L B (Branch k h s ver l r)) = Some (ref L B l) /\
            p_right f (ref L B (Branch k h s ver l r)) = Some (ref (L + size l) (B + size l - 1) r)) as [EL ER].
    { clear IH HN. pose proof HS as HS0.
      destruct (sits_branch _ _ _ _ _ _ _ _ _ HS) as (R & Es & Eh & HB & HP & HL).
      pose proof (size_pos l). pose proof (size_pos r).
      cbn [ref]. rewrite size_branch in *. unfold p_left, p_right. cbn [p_leaf p_index]. rewrite R.
      cbn [obind b_size b_pre b_keyleaf]. unfold get_start_leaf, get_end_leaf, get_left_branch.
      replace (B + (size l + size r) - 2 + 2 - (size l + size r) + (L - B)) with L by lia.
      replace (B + (size l + size r) - 2 + (L - B) + 1) with (L + size l + size r - 1) by lia.
      rewrite (u32_small L), (u32_small (L + size l + size r - 1)) by lia. split; f_equal.
      - destruct l as [lk lv lver|lk lh ls0 lver ll lr]; cbn [ref].
        + change (size (Leaf lk lv lver)) with 1 in *. rewrite u32_small by lia. rewrite Z.eqb_refl. reflexivity.
        + set (l := Branch lk lh ls0 lver ll lr) in *.
          assert (2 <= size l) by (unfold l; rewrite size_branch; pose proof (size_pos ll); pose proof (size_pos lr); lia).
          rewrite u32_small by lia. destruct (L + 1 =? L + size l) eqn:E; [lia|].
          rewrite u32_small by lia. f_equal. lia.
      - destruct r as [rk rv rver|rk rh rs0 rver rl rr]; cbn [ref].
        + change (size (Leaf rk rv rver)) with 1 in *.
          destruct (L + size l =? L + size l + 1 - 1) eqn:E; [reflexivity|lia].
        + set (r := Branch rk rh rs0 rver rl rr) in *.
          assert (2 <= size r) by (unfold r; rewrite size_branch; pose proof (size_pos rl); pose proof (size_pos rr); lia).
          destruct (L + size l =? L + size l + size r - 1) eqn:E; [lia|].
          rewrite u32_small by lia. f_equal. lia. }
    destruct b.
    + rewrite ER. cbn [obind]. eapply IH; [eapply sits_right; exact HS|exact HN].
    + rewrite EL. cbn [obind]. eapply IH; [eapply sits_left; exact HS|exact HN].
Qed.

Lemma avl_sub k h s ver l r : avl (Branch k h s ver l r) -> avl l /\ avl r /\ s = size l + size r.
Proof.
  intros ((Bl & Br & _) & (Fl & Fr & _ & Hs) & (Kl & Kr & _)). repeat split; auto.
  rewrite Hs. unfold size. cbn [leaves]. rewrite app_length. lia.
Qed.

Lemma stands_ok f n0 m n : sits f 0 0 n0 -> stands f (ref 0 0 n0) n0 m n -> avl n -> size n < 2 ^ 32 ->
  m_size f m = Some (nsize n) /\
  (forall key, m_get f m key = Some (get_rec n key)) /\
  (forall i, 0 <= i < size n -> m_get_by_index f m i = Some (get_by_index_rec n i)).
Proof.
  intros HS Hst. induction Hst as [path p n Hp Hn|k v ver|k h s ver l r nl nr Hl IHl Hr IHr]; intros HA Hsz.
  - destruct (sits_path f path n0 0 0 n HS Hn) as (L & B & E & HS'). rewrite Hp in E. inversion E; subst p.
    cbn [m_size m_get m_get_by_index]. split; [|split].
    + pose proof (sits_represents f n L B HS') as HR. destruct n; cbn [represents] in HR; tauto.
    + intros key. rewrite (p_get_ok f L B n key HS'). f_equal.
      rewrite (surjective_pairing (get_rec n key)), (get_rec_value n key HA), (get_rec_index n key HA Hsz). reflexivity.
    + intros i Hi. rewrite (get_by_index_ok n i HA Hsz) by lia. apply (p_get_by_index_ok f L B n i HS'); [lia|].
      destruct HS' as (l1 & l2 & b1 & b2 & _ & _ & _ & _ & _ & _ & _ & HL & _). lia.
  - split; [reflexivity|]. split; [|reflexivity]. intros key. cbn [m_get get_rec]. destruct (bcmp k key); reflexivity.
  - destruct (avl_sub _ _ _ _ _ _ HA) as (Al & Ar & Es). rewrite size_branch in *.
    pose proof (size_pos nl). pose proof (size_pos nr).
    destruct (IHl Al ltac:(lia)) as (Sl & Gl & Il). destruct (IHr Ar ltac:(lia)) as (Sr & Gr & Ir).
    split; [reflexivity|]. split.
    + intros key. cbn [m_get get_rec]. destruct (bltb key k); [apply Gl|].
      rewrite Sr, Gr. cbn [obind]. destruct (get_rec nr key). reflexivity.
    + intros i Hi. cbn [m_get_by_index get_by_index_rec]. rewrite Sl. cbn [obind].
      destruct Al as (_ & Fl & _). rewrite (nsize_size nl Fl). rewrite (u32_small (size nl)) by lia.
      destruct (i <? size nl) eqn:E; [apply Il; lia|]. apply Ir. rewrite u32_small; lia.
Qed.

End P.
