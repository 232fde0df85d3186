(** The recursive length prefix (RLP) form of Ethereum data: strings of bytes
    and lists, nested.  go-ethereum's rlp package is not in /repo; this follows
    its strict decoder (github.com/ethereum/go-ethereum v1.10.27,
    rlp/encode.go, rlp/decode.go), which takes one form of each value only. *)
From Verif Require Import Lib.Base Lib.Bytes Lib.Codec.
From Coq Require Import NArith.
Open Scope Z_scope.

Definition byte_ok (x : N) : Prop := (x < 256)%N.
Definition bytes_ok (b : bytes) : Prop := Forall byte_ok b.

(** ** big.Int.Bytes: big endian without leading zeros *)

Fixpoint lemin (fuel : nat) (x : Z) : bytes :=
  match fuel with
  | O => []
  | S f => if x =? 0 then [] else Z.to_N (x mod 256) :: lemin f (x / 256)
  end.

Definition bemin (x : Z) : bytes := rev (lemin (S (Z.to_nat (Z.log2 x))) x).

Definition no_lead (b : bytes) : bool := match b with 0%N :: _ => false | _ => true end.

(** ** Values and their bytes *)

Inductive rlp := RStr (b : bytes) | RList (l : list rlp).

(** rlp/encode.go puthead *)
Definition elen (off n : Z) : bytes :=
  if n <? 56 then [Z.to_N (off + n)]
  else Z.to_N (off + 55 + blen (bemin n)) :: bemin n.

Definition estr (b : bytes) : bytes :=
  match b with
  | [x] => if (x <? 128)%N then [x] else elen 128 1 ++ [x]
  | _ => elen 128 (blen b) ++ b
  end.

Fixpoint enc (r : rlp) : bytes :=
  match r with
  | RStr b => estr b
  | RList l => let p := concat (map enc l) in elen 192 (blen p) ++ p
  end.

Definition encs (l : list rlp) : bytes := concat (map enc l).

Definition take (n : Z) (b : bytes) : option (bytes * bytes) :=
  if blen b <? n then None else Some (firstn (Z.to_nat n) b, skipn (Z.to_nat n) b).

(** The size written after a first byte that announces [n] bytes of it. *)
Definition take_size (n : Z) (b : bytes) : option (Z * bytes) :=
  match take n b with
  | Some (s, r) => if no_lead s && (56 <=? unbe s) then Some (unbe s, r) else None
  | None => None
  end.

(** rlp.Split: the kind and content of the first value, and what follows it. *)
Definition split_item (b : bytes) : option (bool * bytes * bytes) :=
  match b with
  | [] => None
  | x :: r =>
      let z := Z.of_N x in
      if z <? 128 then Some (false, [x], r)
      else if z <? 184 then
        match take (z - 128) r with
        | Some (p, q) =>
            match p with
            | [y] => if (y <? 128)%N then None else Some (false, p, q)
            | _ => Some (false, p, q)
            end
        | None => None
        end
      else if z <? 192 then
        match take_size (z - 183) r with
        | Some (n, r') => match take n r' with Some (p, q) => Some (false, p, q) | None => None end
        | None => None
        end
      else if z <? 248 then
        match take (z - 192) r with Some (p, q) => Some (true, p, q) | None => None end
      else
        match take_size (z - 247) r with
        | Some (n, r') => match take n r' with Some (p, q) => Some (true, p, q) | None => None end
        | None => None
        end
  end.

Fixpoint decs (fuel : nat) (b : bytes) : option (list rlp) :=
  match fuel with
  | O => None
  | S f =>
      match b with
      | [] => Some []
      | _ =>
          match split_item b with
          | None => None
          | Some (k, p, q) =>
              match (if k then option_map RList (decs f p) else Some (RStr p)), decs f q with
              | Some i, Some l => Some (i :: l)
              | _, _ => None
              end
          end
      end
  end.

(** rlp.DecodeBytes: one value and nothing after it *)
Definition dec (b : bytes) : option rlp :=
  match decs (S (length b)) b with
  | Some [i] => Some i
  | _ => None
  end.

(** ** Facts *)

Lemma lemin_unle f : forall x, 0 <= x -> x < 2 ^ Z.of_nat f -> unle (lemin f x) = x.
Proof.
  induction f as [|f IH]; intros x H0 H; cbn [lemin].
  - rewrite Z.pow_0_r in H. cbn [unle]. lia.
  - destruct (x =? 0) eqn:E; [cbn [unle]; lia|]. cbn [unle].
    rewrite Z2N.id by (apply Z.mod_pos_bound; lia).
    rewrite IH.
    + pose proof (Z.div_mod x 256). lia.
    + apply Z.div_pos; lia.
    + replace (Z.of_nat (S f)) with (Z.of_nat f + 1) in H by lia.
      rewrite Z.pow_add_r, Z.pow_1_r in H by lia.
      apply Z.div_lt_upper_bound; [lia|].
      assert (0 < 2 ^ Z.of_nat f) by (apply Z.pow_pos_nonneg; lia). lia.
Qed.

Lemma unbe_bemin x : 0 <= x -> unbe (bemin x) = x.
Proof.
  intros H. unfold unbe, bemin. rewrite rev_involutive. apply lemin_unle; [exact H|].
  destruct (Z.eq_dec x 0) as [->|N]; [reflexivity|].
  rewrite Nat2Z.inj_succ, Z2Nat.id by apply Z.log2_nonneg.
  apply Z.log2_spec. lia.
Qed.

Lemma bytes_ok_app a b : bytes_ok (a ++ b) <-> bytes_ok a /\ bytes_ok b.
Proof. unfold bytes_ok. apply Forall_app. Qed.

Lemma bytes_ok_rev a : bytes_ok a -> bytes_ok (rev a).
Proof. unfold bytes_ok. rewrite !Forall_forall. intros H x Hx. apply H. apply in_rev. exact Hx. Qed.

Lemma lemin_ok f : forall x, bytes_ok (lemin f x).
Proof.
  induction f as [|f IH]; intros x; cbn [lemin]; [constructor|].
  destruct (x =? 0); [constructor|]. constructor; [|apply IH].
  unfold byte_ok. pose proof (Z.mod_pos_bound x 256). lia.
Qed.

Lemma bemin_ok x : bytes_ok (bemin x).
Proof. apply bytes_ok_rev, lemin_ok. Qed.

Lemma unle_nonneg b : 0 <= unle b.
Proof. induction b; cbn [unle]; lia. Qed.

Lemma unbe_nonneg b : 0 <= unbe b.
Proof. apply unle_nonneg. Qed.

Lemma unle_app a b : unle (a ++ b) = unle a + 256 ^ blen a * unle b.
Proof.
  induction a as [|x a IH]; [cbn [app unle]; rewrite blen_nil, Z.pow_0_r; lia|].
  cbn [app unle]. rewrite IH, blen_cons.
  rewrite Z.pow_add_r, Z.pow_1_r by (pose proof (blen_nonneg a); lia). lia.
Qed.

Lemma blen_rev a : blen (rev a) = blen a.
Proof. unfold blen. rewrite rev_length. reflexivity. Qed.

Lemma unbe_cons x b : unbe (x :: b) = Z.of_N x * 256 ^ blen b + unbe b.
Proof. unfold unbe. cbn [rev]. rewrite unle_app, blen_rev. cbn [unle]. lia. Qed.

Lemma unle_bound b : bytes_ok b -> unle b < 256 ^ blen b.
Proof.
  induction 1 as [|x b H _ IH]; [cbn [unle]; rewrite blen_nil; reflexivity|].
  cbn [unle]. rewrite blen_cons, Z.pow_add_r, Z.pow_1_r by (pose proof (blen_nonneg b); lia).
  unfold byte_ok in H. lia.
Qed.

Lemma unbe_bound b : bytes_ok b -> unbe b < 256 ^ blen b.
Proof. intros H. unfold unbe. rewrite <- blen_rev. apply unle_bound, bytes_ok_rev, H. Qed.

Lemma unle_inj a : forall b, bytes_ok a -> bytes_ok b -> length a = length b -> unle a = unle b -> a = b.
Proof.
  induction a as [|x a IH]; intros [|y b] Ha Hb L E; cbn [length] in L; try discriminate; [reflexivity|].
  inversion Ha; inversion Hb; subst. cbn [unle] in E. unfold byte_ok in *.
  assert (x = y) by lia. subst. f_equal. apply IH; auto. lia.
Qed.

Lemma unbe_inj a b : bytes_ok a -> bytes_ok b -> length a = length b -> unbe a = unbe b -> a = b.
Proof.
  intros Ha Hb L E. rewrite <- (rev_involutive a), <- (rev_involutive b). f_equal.
  apply unle_inj; auto using bytes_ok_rev. rewrite !rev_length. exact L.
Qed.

Lemma unbe_low b : no_lead b = true -> b <> [] -> 256 ^ (blen b - 1) <= unbe b.
Proof.
  intros H N. destruct b as [|x b]; [congruence|].
  rewrite unbe_cons, blen_cons. replace (1 + blen b - 1) with (blen b) by lia.
  assert (1 <= Z.of_N x) by (destruct x; [discriminate|lia]).
  pose proof (unbe_nonneg b). assert (0 < 256 ^ blen b) by (apply Z.pow_pos_nonneg; [lia|apply blen_nonneg]).
  nia.
Qed.

Lemma unbe_unique a b : bytes_ok a -> bytes_ok b -> no_lead a = true -> no_lead b = true ->
  unbe a = unbe b -> a = b.
Proof.
  intros Ha Hb La Lb E.
  apply unbe_inj; auto.
  assert (A : forall x y, bytes_ok y -> no_lead x = true -> unbe x = unbe y -> blen x <= blen y).
  { intros x y Hy Lx Exy. destruct x as [|x0 x']; [rewrite blen_nil; apply blen_nonneg|].
    pose proof (unbe_low (x0 :: x') Lx ltac:(discriminate)) as L. pose proof (unbe_bound y Hy) as B.
    rewrite Exy in L.
    destruct (Z_le_gt_dec (blen (x0 :: x')) (blen y)) as [?|G]; [assumption|exfalso].
    assert (256 ^ blen y <= 256 ^ (blen (x0 :: x') - 1)) by (apply Z.pow_le_mono_r; lia). lia. }
  pose proof (A a b Hb La E). pose proof (A b a Ha Lb (eq_sym E)). unfold blen in *. lia.
Qed.

Lemma lemin_last f : forall x, 0 <= x -> x < 2 ^ Z.of_nat f -> no_lead (rev (lemin f x)) = true.
Proof.
  induction f as [|f IH]; intros x H0 H; cbn [lemin]; [reflexivity|].
  destruct (x =? 0) eqn:E; [reflexivity|]. cbn [rev].
  assert (Hq : x / 256 < 2 ^ Z.of_nat f).
  { replace (Z.of_nat (S f)) with (Z.of_nat f + 1) in H by lia.
    rewrite Z.pow_add_r, Z.pow_1_r in H by lia.
    apply Z.div_lt_upper_bound; [lia|].
    assert (0 < 2 ^ Z.of_nat f) by (apply Z.pow_pos_nonneg; lia). lia. }
  assert (H1 : 0 <= x / 256) by (apply Z.div_pos; lia).
  specialize (IH (x / 256) H1 Hq).
  destruct (rev (lemin f (x / 256))) as [|y l] eqn:R.
  - cbn [app no_lead].
    assert (lemin f (x / 256) = []) as Q by (rewrite <- (rev_involutive (lemin _ _)), R; reflexivity).
    pose proof (lemin_unle f _ H1 Hq) as U. rewrite Q in U. cbn [unle] in U.
    pose proof (Z.div_mod x 256 ltac:(lia)).
    destruct (Z.to_N (x mod 256)) eqn:T; [|reflexivity].
    pose proof (Z.mod_pos_bound x 256 ltac:(lia)). lia.
  - cbn [app]. exact IH.
Qed.

Lemma bemin_lead x : 0 <= x -> no_lead (bemin x) = true.
Proof.
  intros H. apply lemin_last; [exact H|].
  destruct (Z.eq_dec x 0) as [->|N]; [reflexivity|].
  rewrite Nat2Z.inj_succ, Z2Nat.id by apply Z.log2_nonneg.
  apply Z.log2_spec. lia.
Qed.

Lemma bemin_unbe b : bytes_ok b -> no_lead b = true -> bemin (unbe b) = b.
Proof.
  intros H L. apply unbe_unique; auto using bemin_ok.
  - apply bemin_lead, unbe_nonneg.
  - apply unbe_bemin, unbe_nonneg.
Qed.

Lemma bemin_len x n : 0 <= x < 256 ^ n -> 0 <= n -> blen (bemin x) <= n.
Proof.
  intros H Hn. destruct (Z_le_gt_dec (blen (bemin x)) n) as [?|G]; [assumption|exfalso].
  assert (N : bemin x <> []) by (intros Q; rewrite Q, blen_nil in G; lia).
  pose proof (unbe_low _ (bemin_lead x (proj1 H)) N) as L.
  rewrite unbe_bemin in L by lia.
  assert (256 ^ n <= 256 ^ (blen (bemin x) - 1)) by (apply Z.pow_le_mono_r; lia). lia.
Qed.

Lemma bemin_pos x : 0 < x -> 1 <= blen (bemin x).
Proof.
  intros H. destruct (bemin x) eqn:E; [|rewrite blen_cons; pose proof (blen_nonneg b); lia].
  pose proof (unbe_bemin x ltac:(lia)) as U. rewrite E in U. cbv in U. lia.
Qed.

(** *** Taking a prefix *)

Lemma take_app a b n : n = blen a -> take n (a ++ b) = Some (a, b).
Proof.
  intros ->. unfold take. rewrite blen_app.
  destruct (blen a + blen b <? blen a) eqn:E; [pose proof (blen_nonneg b); lia|].
  unfold blen. rewrite Nat2Z.id.
  rewrite firstn_app, skipn_app, firstn_all, skipn_all, Nat.sub_diag. cbn [firstn skipn].
  rewrite app_nil_r. reflexivity.
Qed.

Lemma take_some n b p q : 0 <= n -> take n b = Some (p, q) -> b = p ++ q /\ blen p = n.
Proof.
  unfold take. intros Hn H. destruct (blen b <? n) eqn:E; [discriminate|].
  injection H as <- <-. split; [symmetry; apply firstn_skipn|].
  unfold blen in *. rewrite firstn_length_le; lia.
Qed.

Lemma take_size_app n r : 56 <= n -> take_size (blen (bemin n)) (bemin n ++ r) = Some (n, r).
Proof.
  intros H. unfold take_size. rewrite take_app by reflexivity.
  rewrite bemin_lead, unbe_bemin by lia. cbn [andb].
  destruct (56 <=? n) eqn:E; [reflexivity|lia].
Qed.

Lemma take_size_some n b m r : bytes_ok b -> 0 <= n -> take_size n b = Some (m, r) ->
  b = bemin m ++ r /\ blen (bemin m) = n /\ 56 <= m.
Proof.
  unfold take_size. intros Hb Hn H. destruct (take n b) as [[s q]|] eqn:T; [|discriminate].
  apply take_some in T; [|exact Hn]. destruct T as [-> L].
  destruct (no_lead s && (56 <=? unbe s)) eqn:E; [|discriminate].
  apply andb_prop in E. destruct E as [E1 E2].
  assert (unbe s = m) by congruence. assert (q = r) by congruence. subst.
  apply bytes_ok_app in Hb. rewrite bemin_unbe by tauto. repeat split; auto. lia.
Qed.

(** *** One value *)

Lemma split_estr b r : bytes_ok b -> blen b < 2 ^ 64 -> split_item (estr b ++ r) = Some (false, b, r).
Proof.
  intros Hb L.
  assert (G : (forall x, b = [x] -> (128 <= x)%N) ->
              split_item ((elen 128 (blen b) ++ b) ++ r) = Some (false, b, r)).
  { intros NS. rewrite <- app_assoc. unfold elen. pose proof (blen_nonneg b) as P.
    destruct (blen b <? 56) eqn:E.
    - cbn [app split_item].
      rewrite Z2N.id by lia.
      destruct (128 + blen b <? 128) eqn:E1; [lia|].
      destruct (128 + blen b <? 184) eqn:E2; [|lia].
      replace (128 + blen b - 128) with (blen b) by lia.
      rewrite take_app by reflexivity.
      destruct b as [|x [|y b']]; try reflexivity.
      specialize (NS x eq_refl). destruct (x <? 128)%N eqn:E3; [lia|reflexivity].
    - assert (B : blen (bemin (blen b)) <= 8) by (apply bemin_len; [change (256 ^ 8) with (2 ^ 64)|]; lia).
      pose proof (bemin_pos (blen b) ltac:(lia)) as B1.
      cbn [app split_item]. set (lb := bemin (blen b)) in *.
      rewrite Z2N.id by lia.
      destruct (128 + 55 + blen lb <? 128) eqn:E1; [lia|].
      destruct (128 + 55 + blen lb <? 184) eqn:E2.
      + lia.
      + destruct (128 + 55 + blen lb <? 192) eqn:E3; [|lia].
        replace (128 + 55 + blen lb - 183) with (blen lb) by lia.
        unfold lb. rewrite take_size_app by lia. rewrite take_app by reflexivity. reflexivity. }
  unfold estr. destruct b as [|x [|y b']].
  - apply G. intros; discriminate.
  - destruct (x <? 128)%N eqn:E.
    + cbn [app split_item]. destruct (Z.of_N x <? 128) eqn:E1; [reflexivity|lia].
    + apply G. intros z Hz. injection Hz as <-. lia.
  - apply G. intros z Hz. discriminate.
Qed.

Lemma split_list p r : blen p < 2 ^ 64 ->
  split_item ((elen 192 (blen p) ++ p) ++ r) = Some (true, p, r).
Proof.
  intros L. rewrite <- app_assoc. unfold elen. pose proof (blen_nonneg p) as P.
  destruct (blen p <? 56) eqn:E.
  - cbn [app split_item]. rewrite Z2N.id by lia.
    destruct (192 + blen p <? 128) eqn:E1; [lia|].
    destruct (192 + blen p <? 184) eqn:E2; [lia|].
    destruct (192 + blen p <? 192) eqn:E3; [lia|].
    destruct (192 + blen p <? 248) eqn:E4; [|lia].
    replace (192 + blen p - 192) with (blen p) by lia.
    rewrite take_app by reflexivity. reflexivity.
  - pose proof (bemin_pos (blen p) ltac:(lia)) as B1.
    cbn [app split_item]. set (lb := bemin (blen p)) in *.
    rewrite Z2N.id by lia.
    destruct (192 + 55 + blen lb <? 128) eqn:E1; [lia|].
    destruct (192 + 55 + blen lb <? 184) eqn:E2; [lia|].
    destruct (192 + 55 + blen lb <? 192) eqn:E3; [lia|].
    destruct (192 + 55 + blen lb <? 248) eqn:E4; [lia|].
    replace (192 + 55 + blen lb - 247) with (blen lb) by lia.
    unfold lb. rewrite take_size_app by lia. rewrite take_app by reflexivity. reflexivity.
Qed.

Lemma split_some b k p q : bytes_ok b -> split_item b = Some (k, p, q) ->
  b = (if k then elen 192 (blen p) ++ p else estr p) ++ q.
Proof.
  intros Hb H. destruct b as [|x r]; [discriminate|]. cbn [split_item] in H.
  inversion Hb as [|? ? Hx Hr]; subst. unfold byte_ok in Hx.
  destruct (Z.of_N x <? 128) eqn:E1.
  { injection H as <- <- <-. unfold estr. destruct (x <? 128)%N eqn:E; [reflexivity|lia]. }
  destruct (Z.of_N x <? 184) eqn:E2.
  { destruct (take (Z.of_N x - 128) r) as [[p' q']|] eqn:T; [|discriminate].
    apply take_some in T; [|lia]. destruct T as [-> L].
    assert (X : x = Z.to_N (128 + blen p')) by lia.
    assert (NS : split_item [] = None) by reflexivity. clear NS.
    destruct p' as [|y [|y2 p']].
    - assert (false = k /\ [] = p /\ q' = q) as (<- & <- & <-) by (repeat split; congruence).
      cbn [estr]. rewrite blen_nil in X. subst x. reflexivity.
    - destruct (y <? 128)%N eqn:Y; [discriminate|].
      assert (false = k /\ [y] = p /\ q' = q) as (<- & <- & <-) by (repeat split; congruence).
      cbn [estr]. rewrite Y. rewrite blen_cons, blen_nil in X. subst x. reflexivity.
    - assert (false = k /\ y :: y2 :: p' = p /\ q' = q) as (<- & <- & <-) by (repeat split; congruence).
      unfold estr, elen. destruct (blen (y :: y2 :: p') <? 56) eqn:E; [|lia].
      rewrite <- X. reflexivity. }
  assert (LONG : forall off n r', (off = 128 \/ off = 192) -> Z.of_N x = off + 55 + n ->
     1 <= n -> take_size n r = Some (blen p, r') -> r' = p ++ q ->
     x :: r = (elen off (blen p) ++ p) ++ q).
  { intros off n r' Hoff Hxn Hn T ->.
    apply take_size_some in T; [|exact Hr|lia]. destruct T as (-> & L & M).
    unfold elen. destruct (blen p <? 56) eqn:E; [lia|].
    rewrite <- app_assoc. cbn [app]. f_equal; lia. }
  destruct (Z.of_N x <? 192) eqn:E3.
  { destruct (take_size (Z.of_N x - 183) r) as [[n r']|] eqn:T; [|discriminate].
    destruct (take n r') as [[p' q']|] eqn:T2; [|discriminate].
    assert (false = k /\ p' = p /\ q' = q) as (<- & -> & ->) by (repeat split; congruence).
    pose proof T as T'. apply take_size_some in T; [|exact Hr|lia]. destruct T as (_ & _ & M).
    apply take_some in T2; [|lia]. destruct T2 as [Q <-].
    assert (S : estr p = elen 128 (blen p) ++ p).
    { destruct p as [|y [|y2 p']]; try reflexivity. rewrite blen_cons, blen_nil in M. lia. }
    rewrite S. eapply LONG; eauto; lia. }
  destruct (Z.of_N x <? 248) eqn:E4.
  { destruct (take (Z.of_N x - 192) r) as [[p' q']|] eqn:T; [|discriminate].
    assert (true = k /\ p' = p /\ q' = q) as (<- & -> & ->) by (repeat split; congruence).
    apply take_some in T; [|lia]. destruct T as [-> L].
    unfold elen. destruct (blen p <? 56) eqn:E; [|lia]. cbn [app]. f_equal. lia. }
  destruct (take_size (Z.of_N x - 247) r) as [[n r']|] eqn:T; [|discriminate].
  destruct (take n r') as [[p' q']|] eqn:T2; [|discriminate].
  assert (true = k /\ p' = p /\ q' = q) as (<- & -> & ->) by (repeat split; congruence).
  pose proof T as T'. apply take_size_some in T; [|exact Hr|lia]. destruct T as (_ & _ & M).
  apply take_some in T2; [|lia]. destruct T2 as [Q <-].
  eapply LONG; eauto; lia.
Qed.

(** *** Whole values *)

Fixpoint rlp_ok (r : rlp) : Prop :=
  match r with
  | RStr b => bytes_ok b
  | RList l => (fix go (l : list rlp) := match l with [] => True | i :: l' => rlp_ok i /\ go l' end) l
  end.

Definition rlps_ok (l : list rlp) : Prop := Forall rlp_ok l.

Lemma rlp_ok_list l : rlp_ok (RList l) <-> rlps_ok l.
Proof.
  cbn [rlp_ok]. unfold rlps_ok. induction l as [|i l IH]; [split; auto|].
  split.
  - intros [A B]. constructor; [exact A|]. apply IH, B.
  - intros H. inversion H; subst. split; [assumption|]. apply IH. assumption.
Qed.

Lemma elen_pos off n : 0 < blen (elen off n).
Proof. unfold elen. destruct (n <? 56); rewrite blen_cons; [rewrite blen_nil; lia|pose proof (blen_nonneg (bemin n)); lia]. Qed.

Lemma estr_len b : 1 <= blen (estr b) /\ blen b <= blen (estr b).
Proof.
  assert (G : 1 <= blen (elen 128 (blen b) ++ b) /\ blen b <= blen (elen 128 (blen b) ++ b)).
  { rewrite blen_app. pose proof (elen_pos 128 (blen b)). pose proof (blen_nonneg b). lia. }
  destruct b as [|x [|y b']]; cbn [estr]; auto.
  destruct (x <? 128)%N; [|exact G]. rewrite blen_cons, blen_nil. lia.
Qed.

Lemma encs_cons i l : encs (i :: l) = enc i ++ encs l.
Proof. reflexivity. Qed.

Lemma enc_list l : enc (RList l) = elen 192 (blen (encs l)) ++ encs l.
Proof. reflexivity. Qed.

Lemma enc_pos i : 1 <= blen (enc i).
Proof.
  destruct i as [b|l]; [apply estr_len|]. rewrite enc_list, blen_app.
  pose proof (elen_pos 192 (blen (encs l))). pose proof (blen_nonneg (encs l)). lia.
Qed.

Lemma decs_encs f : forall l, rlps_ok l -> blen (encs l) < 2 ^ 64 -> blen (encs l) < Z.of_nat f ->
  decs f (encs l) = Some l.
Proof.
  induction f as [|f IH]; intros l Hok Hb Hf; [pose proof (blen_nonneg (encs l)); lia|].
  destruct l as [|i l]; [reflexivity|].
  inversion Hok as [|? ? Hi Hl]; subst. rewrite encs_cons in *. rewrite blen_app in *.
  pose proof (enc_pos i) as P. pose proof (blen_nonneg (encs l)) as P2.
  cbn [decs]. destruct (enc i ++ encs l) as [|x xs] eqn:E.
  { apply app_eq_nil in E. destruct E as [E _]. rewrite E, blen_nil in P. lia. }
  rewrite <- E. clear E x xs.
  destruct i as [b|l'].
  - change (enc (RStr b)) with (estr b) in *. pose proof (estr_len b) as [_ L].
    rewrite split_estr by (cbn [rlp_ok] in Hi; auto; lia).
    rewrite IH; auto; lia.
  - rewrite enc_list in *. rewrite blen_app in *. pose proof (elen_pos 192 (blen (encs l'))) as P3.
    rewrite split_list by lia. apply rlp_ok_list in Hi.
    rewrite (IH l') by (auto; lia). rewrite (IH l) by (auto; lia). reflexivity.
Qed.

Lemma encs_decs f : forall b l, bytes_ok b -> decs f b = Some l -> encs l = b /\ rlps_ok l.
Proof.
  induction f as [|f IH]; intros b l Hb H; [discriminate|]. cbn [decs] in H.
  destruct b as [|x r]; [injection H as <-; split; [reflexivity|constructor]|].
  destruct (split_item (x :: r)) as [[[k p] q]|] eqn:S; [|discriminate].
  apply split_some in S; [|exact Hb]. rewrite S in Hb. apply bytes_ok_app in Hb. destruct Hb as [Hp Hq].
  destruct (decs f q) as [l2|] eqn:D2; [|exfalso; destruct k; [destruct (decs f p)|]; discriminate].
  destruct (IH _ _ Hq D2) as [E2 O2]. rewrite S.
  destruct k.
  - apply bytes_ok_app in Hp. destruct Hp as [_ Hp].
    destruct (decs f p) as [l1|] eqn:D1; [|discriminate]. cbn [option_map] in H.
    assert (RList l1 :: l2 = l) as <- by congruence.
    destruct (IH _ _ Hp D1) as [E1 O1]. rewrite encs_cons, enc_list, E1, E2.
    split; [reflexivity|]. constructor; [apply rlp_ok_list|]; assumption.
  - assert (RStr p :: l2 = l) as <- by congruence.
    rewrite encs_cons, E2. split; [reflexivity|]. constructor; [|assumption]. cbn [rlp_ok].
    destruct p as [|y [|y2 p']]; cbn [estr] in Hp.
    + constructor.
    + destruct (y <? 128)%N; [exact Hp|]. apply bytes_ok_app in Hp. tauto.
    + apply bytes_ok_app in Hp. tauto.
Qed.

Lemma dec_enc r : rlp_ok r -> blen (enc r) < 2 ^ 64 -> dec (enc r) = Some r.
Proof.
  intros H L. unfold dec.
  assert (E : encs [r] = enc r) by (unfold encs; cbn [map concat]; apply app_nil_r).
  rewrite <- E in *. rewrite decs_encs; auto.
  - constructor; [exact H|constructor].
  - unfold blen. lia.
Qed.

Lemma enc_dec b r : bytes_ok b -> dec b = Some r -> enc r = b /\ rlp_ok r.
Proof.
  unfold dec. intros Hb H. destruct (decs (S (length b)) b) as [[|i [|j l]]|] eqn:D; try discriminate.
  apply encs_decs in D; [|exact Hb]. destruct D as [E O1].
  assert (i = r) as -> by congruence. unfold encs in E. cbn [map concat] in E. rewrite app_nil_r in E.
  inversion O1; auto.
Qed.

Lemma elen_ok off n : 0 <= off <= 192 -> 0 <= n < 2 ^ 64 -> bytes_ok (elen off n).
Proof.
  intros Ho H. unfold elen. destruct (n <? 56) eqn:E.
  - constructor; [unfold byte_ok; lia|constructor].
  - assert (B : blen (bemin n) <= 8) by (apply bemin_len; [change (256 ^ 8) with (2 ^ 64)|]; lia).
    constructor; [unfold byte_ok; lia|apply bemin_ok].
Qed.

Lemma enc_ok f : forall l, (blen (encs l) < Z.of_nat f) -> rlps_ok l -> blen (encs l) < 2 ^ 64 -> bytes_ok (encs l).
Proof.
  induction f as [|f IH]; intros l Hf Hok Hb; [pose proof (blen_nonneg (encs l)); lia|].
  destruct l as [|i l]; [constructor|].
  inversion Hok as [|? ? Hi Hl]; subst. rewrite encs_cons in *. rewrite blen_app in *.
  pose proof (enc_pos i) as P. pose proof (blen_nonneg (encs l)) as P2.
  apply bytes_ok_app. split; [|apply IH; auto; lia].
  destruct i as [b|l'].
  - cbn [rlp_ok] in Hi. change (enc (RStr b)) with (estr b) in *. pose proof (estr_len b) as [_ L].
    assert (G : bytes_ok (elen 128 (blen b) ++ b)).
    { apply bytes_ok_app. split; [apply elen_ok; pose proof (blen_nonneg b); lia|exact Hi]. }
    destruct b as [|x [|y b']]; cbn [estr]; auto. destruct (x <? 128)%N; auto.
  - rewrite enc_list in *. rewrite blen_app in *. pose proof (elen_pos 192 (blen (encs l'))) as P3.
    pose proof (blen_nonneg (encs l')).
    apply bytes_ok_app. split; [apply elen_ok; lia|]. apply IH; [lia| |lia]. apply rlp_ok_list. exact Hi.
Qed.
