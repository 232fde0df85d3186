From Verif Require Import Lib.Base Lib.Bytes Lib.Codec Memiavl.Model Memiavl.Spec Memiavl.TreeProofs
  Memiavl.Proofs Memiavl.HashModel Memiavl.ProofModel Memiavl.ProofSpec.
Open Scope Z_scope.

Section P.
Variable sha : bytes -> bytes.
Hypothesis sha_len : forall b, blen (sha b) = 32.

Lemma nhash_32 n : blen (nhash sha n) = 32.
Proof. destruct n; apply sha_len. Qed.

Lemma lp_32 b : blen b = 32 -> lp b = [32%N] ++ b.
Proof. intros H. unfold lp. rewrite H. reflexivity. Qed.

Lemma path_ok n : forall key, 
  let '(path, leaf, ok) := path_to_leaf sha n key in
  (exists k v ver, leaf = Leaf k v ver /\ ok = beqb k key /\
     fold_left (fun h op => sha (io_prefix op ++ h ++ io_suffix op)) (convert_inner_ops path)
       (leaf_hash sha ver k v) = nhash sha n /\ In (k, v) (leaves n)).
Proof.
  induction n as [k v ver|k h s ver l IHl r IHr]; intros key; cbn [path_to_leaf].
  - exists k, v, ver. cbn. auto.
  - assert (forall path leaf0, fold_left (fun h op => sha (io_prefix op ++ h ++ io_suffix op))
       (convert_inner_ops (path)) leaf0 = fold_right (fun op h => sha (io_prefix op ++ h ++ io_suffix op)) leaf0 (map convert_inner path)) as Hfold.
    { intros path leaf0. unfold convert_inner_ops. rewrite <- fold_left_rev_right, rev_involutive. reflexivity. }
    destruct (bltb key k).
    + specialize (IHl key). destruct (path_to_leaf sha l key) as [[path leaf] ok].
      destruct IHl as (k1 & v1 & ver1 & E1 & E2 & E3 & E4). exists k1, v1, ver1.
      split; [exact E1|]. split; [exact E2|]. split; [|cbn [leaves]; apply in_or_app; left; exact E4].
      rewrite Hfold in *. cbn [map fold_right]. rewrite E3.
      unfold convert_inner. cbn [pi_left pi_right pi_height pi_size pi_version io_prefix io_suffix].
      cbn [nhash]. unfold branch_hash, branch_preimage. f_equal.
      rewrite !lp_32 by apply nhash_32. rewrite <- !app_assoc. reflexivity.
    + specialize (IHr key). destruct (path_to_leaf sha r key) as [[path leaf] ok].
      destruct IHr as (k1 & v1 & ver1 & E1 & E2 & E3 & E4). exists k1, v1, ver1.
      split; [exact E1|]. split; [exact E2|]. split; [|cbn [leaves]; apply in_or_app; right; exact E4].
      rewrite Hfold in *. cbn [map fold_right]. rewrite E3.
      unfold convert_inner. cbn [pi_left pi_right pi_height pi_size pi_version].
      pose proof (nhash_32 l) as HL. destruct (nhash sha l) as [|x hl] eqn:EL; [rewrite blen_nil in HL; lia|].
      cbn [io_prefix io_suffix nhash]. unfold branch_hash, branch_preimage. f_equal. rewrite EL.
      rewrite (lp_32 (x :: hl)) by exact HL. rewrite (lp_32 (nhash sha r)) by apply nhash_32.
      rewrite app_nil_r, <- !app_assoc. reflexivity.
Qed.

Lemma path_found n key v : keys_exact n -> In (key, v) (leaves n) ->
  snd (path_to_leaf sha n key) = true /\ exists ver, snd (fst (path_to_leaf sha n key)) = Leaf key v ver.
Proof.
  induction n as [k v0 ver|k h s ver l IHl r IHr]; intros HK HI; cbn [path_to_leaf].
  - destruct HI as [E|[]]. inversion E; subst. cbn. split; [apply beqb_refl|eauto].
  - destruct HK as (Kl & Kr & Hh & Hl). cbn [leaves] in HI. apply in_app_or in HI.
    destruct (bltb key k) eqn:E.
    + apply bltb_spec in E. destruct HI as [HI|HI].
      * destruct (IHl Kl HI) as (H1 & ver1 & H2). destruct (path_to_leaf sha l key) as [[path leaf] ok]. cbn in *. eauto.
      * exfalso. apply (heads_ge r k Kr Hh) in HI. apply ble_not_lt in HI. contradiction.
    + destruct HI as [HI|HI].
      * exfalso. apply Hl in HI. apply bltb_spec in HI. congruence.
      * destruct (IHr Kr HI) as (H1 & ver1 & H2). destruct (path_to_leaf sha r key) as [[path leaf] ok]. cbn in *. eauto.
Qed.

Lemma create_ok n key v : keys_exact n -> In (key, v) (leaves n) ->
  exists p, create_existence_proof sha (Some n) key = Ok p /\ proves sha (nhash sha n) key v p.
Proof.
  intros HK HI. unfold create_existence_proof. pose proof (path_ok n key) as HP.
  destruct (path_found n key v HK HI) as (H1 & ver & H2).
  destruct (path_to_leaf sha n key) as [[path leaf] ok]. cbn in H1, H2. subst ok leaf.
  destruct HP as (k1 & v1 & ver1 & E1 & _ & E3 & _). inversion E1; subst k1 v1 ver1.
  eexists. split; [reflexivity|]. split; [reflexivity|]. split; [reflexivity|].
  unfold calculate. cbn [ep_path ep_leaf_prefix ep_key ep_value nkey node_value nversion].
  rewrite <- E3. unfold leaf_hash, leaf_preimage, leaf_op_prefix. rewrite <- !app_assoc. reflexivity.
Qed.

Lemma create_missing n key : (forall v, ~ In (key, v) (leaves n)) -> create_existence_proof sha (Some n) key = Err.
Proof.
  intros HI. unfold create_existence_proof. pose proof (path_ok n key) as HP.
  destruct (path_to_leaf sha n key) as [[path leaf] ok].
  destruct HP as (k1 & v1 & ver1 & E1 & E2 & _ & E4). subst.
  destruct (beqb k1 key) eqn:E; [|reflexivity]. apply beqb_spec in E. subst. exfalso. eapply HI. exact E4.
Qed.

(* ---- binding ---- *)
Lemma sha_inj x y : sha x = sha y -> x = y \/ collision sha.
Proof. intros H. destruct (bytes_eq_dec x y); [auto|]. right. exists x, y. auto. Qed.

Lemma binding n1 : forall n2, keys_exact n1 -> keys_exact n2 -> bounded n1 -> bounded n2 ->
  fields_exact n1 -> fields_exact n2 ->
  nhash sha n1 = nhash sha n2 -> n1 = n2 \/ collision sha.
Proof.
  induction n1 as [k v ver|k h s ver l IHl r IHr]; intros n2 K1 K2 B1 B2 F1 F2 E;
    destruct n2 as [k' v' ver'|k' h' s' ver' l' r']; cbn [nhash] in E; apply sha_inj in E; destruct E as [E|E]; auto.
  - unfold leaf_preimage in E. cbn [bounded] in *.
    apply varint_inj in E; [|lia|lia]. destruct E as [_ E].
    apply varint_inj in E; [|lia|lia]. destruct E as [_ E].
    apply varint_inj in E; [|lia|lia]. destruct E as [-> E].
    apply lp_inj in E; [|lia|lia]. destruct E as [-> E].
    rewrite <- (app_nil_r (lp (sha v))), <- (app_nil_r (lp (sha v'))) in E.
    apply lp_inj in E; [|rewrite sha_len; lia|rewrite sha_len; lia]. destruct E as [E _].
    apply sha_inj in E. destruct E as [->|E]; auto.
  - exfalso. unfold leaf_preimage, branch_preimage in E. cbn [bounded fields_exact] in *. destruct F2 as (_ & _ & Hh & _).
    apply varint_inj in E; [|lia|lia]. destruct E as [E _]. cbn [depth] in Hh.
    pose proof (depth_nonneg l'). pose proof (depth_nonneg r'). lia.
  - exfalso. unfold leaf_preimage, branch_preimage in E. cbn [bounded fields_exact] in *. destruct F1 as (_ & _ & Hh & _).
    apply varint_inj in E; [|lia|lia]. destruct E as [E _]. cbn [depth] in Hh.
    pose proof (depth_nonneg l). pose proof (depth_nonneg r). lia.
  - cbn [bounded fields_exact keys_exact] in *.
    destruct B1 as (Bh & Bs & Bv & Bl & Br), B2 as (Bh' & Bs' & Bv' & Bl' & Br').
    destruct F1 as (Fl & Fr & _), F2 as (Fl' & Fr' & _).
    destruct K1 as (Kl & Kr & (w & tl & Hd) & _), K2 as (Kl' & Kr' & (w' & tl' & Hd') & _).
    unfold branch_preimage in E.
    apply varint_inj in E; [|lia|lia]. destruct E as [-> E].
    apply varint_inj in E; [|lia|lia]. destruct E as [-> E].
    apply varint_inj in E; [|lia|lia]. destruct E as [-> E].
    apply lp_inj in E; [|rewrite nhash_32; lia|rewrite nhash_32; lia]. destruct E as [El E].
    rewrite <- (app_nil_r (lp (nhash sha r))), <- (app_nil_r (lp (nhash sha r'))) in E.
    apply lp_inj in E; [|rewrite nhash_32; lia|rewrite nhash_32; lia]. destruct E as [Er _].
    destruct (IHl l' Kl Kl' Bl Bl' Fl Fl' El) as [->|C]; auto.
    destruct (IHr r' Kr Kr' Br Br' Fr Fr' Er) as [->|C]; auto.
    rewrite Hd in Hd'. inversion Hd'; subst. auto.
Qed.

Lemma preimage_nonempty n : exists x, x <> [] /\ nhash sha n = sha x.
Proof.
  assert (forall z b, varint z ++ b <> []) as H.
  { intros z b C. apply app_eq_nil in C. destruct C as [C _]. unfold varint, uvarint in C. cbn [uvarint_fuel] in C.
    destruct (_ <? 128) in C; discriminate. }
  destruct n; cbn [nhash]; eexists; (split; [apply H|reflexivity]).
Qed.
End P.
