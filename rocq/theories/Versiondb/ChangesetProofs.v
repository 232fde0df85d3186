From Verif Require Import Lib.Base Lib.Bytes Lib.Codec Extsort.Model Extsort.Props Versiondb.Changeset Versiondb.ChangesetSpec.
Open Scope Z_scope.

(* ---- sizes ---- *)
Lemma bit_len_div x : 128 <= x -> bit_len (x / 128) = bit_len x - 7 /\ 8 <= bit_len x.
Proof.
  intros H. assert (1 <= x / 128) by (apply Z.div_le_lower_bound; lia). unfold bit_len.
  destruct (Z.eqb_spec x 0); [lia|]. destruct (Z.eqb_spec (x / 128) 0); [lia|].
  assert (L : Z.log2 (x / 128) = Z.log2 x - 7).
  { change 128 with (2 ^ 7). rewrite <- Z.shiftr_div_pow2 by lia. rewrite Z.log2_shiftr by lia. pose proof (Z.log2_le_mono (2 ^ 7) x ltac:(lia)). rewrite Z.log2_pow2 in H1 by lia. lia. }
  split; [lia|]. pose proof (Z.log2_le_mono (2 ^ 7) x ltac:(lia)) as X. rewrite Z.log2_pow2 in X by lia. lia.
Qed.
Lemma size_div x : 128 <= x -> uvarint_size x = 1 + uvarint_size (x / 128).
Proof.
  intros H. destruct (bit_len_div x H) as [E L]. unfold uvarint_size. rewrite E. cbv zeta.
  assert (Q : (bit_len x - 7) / 7 = bit_len x / 7 - 1) by (replace (bit_len x - 7) with (bit_len x + (-1) * 7) by lia; rewrite Z.div_add by lia; lia).
  assert (R : (bit_len x - 7) mod 7 = bit_len x mod 7) by (replace (bit_len x - 7) with (bit_len x + (-1) * 7) by lia; apply Z.mod_add; lia).
  rewrite Q, R. pose proof (Z.div_mod (bit_len x) 7). pose proof (Z.mod_pos_bound (bit_len x) 7).
  destruct (Z.ltb_spec 0 (bit_len x mod 7)); cbn [orb]; [lia|]. destruct (Z.eqb_spec (bit_len x / 7) 0); destruct (Z.eqb_spec (bit_len x / 7 - 1) 0); lia.
Qed.
Lemma size_small x : 0 <= x < 128 -> uvarint_size x = 1.
Proof.
  intros H. unfold uvarint_size. cbv zeta. assert (B : 0 <= bit_len x <= 7).
  { unfold bit_len. destruct (Z.eqb_spec x 0); [lia|]. pose proof (Z.log2_nonneg x). assert (Z.log2 x < 7) by (apply Z.log2_lt_pow2; lia). lia. }
  pose proof (Z.div_mod (bit_len x) 7). pose proof (Z.mod_pos_bound (bit_len x) 7).
  destruct (Z.ltb_spec 0 (bit_len x mod 7)); cbn [orb]; [|destruct (Z.eqb_spec (bit_len x / 7) 0)]; nia.
Qed.
Lemma uvarint_fuel_size f : forall x, 0 <= x < 2 * 128 ^ Z.of_nat f -> blen (uvarint_fuel (S f) x) = uvarint_size x.
Proof.
  induction f as [|f IH]; intros x H.
  - cbn in H. assert (x = 0 \/ x = 1) as [-> | ->] by lia; reflexivity.
  - change (uvarint_fuel (S (S f)) x) with (if x <? 128 then [Z.to_N x] else Z.to_N (x mod 128 + 128) :: uvarint_fuel (S f) (x / 128)).
    destruct (Z.ltb_spec x 128).
    + rewrite size_small by lia. reflexivity.
    + rewrite blen_cons, IH; [rewrite (size_div x) by lia; lia|]. rewrite pow128_S in H. split; [apply Z.div_pos; lia|apply Z.div_lt_upper_bound; lia].
Qed.
Lemma uvarint_blen x : 0 <= x < 2 ^ 64 -> blen (uvarint x) = uvarint_size x.
Proof. intros H. apply (uvarint_fuel_size 9). exact H. Qed.

Definition pair_ok (p : bytes * option bytes) : Prop := blen (fst p) < 2 ^ 63 /\ match snd p with Some v => blen v < 2 ^ 63 | None => True end.
Lemma pair_size_ok p : pair_ok p -> pair_size p = blen (encode_pair p).
Proof.
  destruct p as [k [v|]]; intros [A B]; unfold pair_size, encode_pair; cbn [fst snd] in *; rewrite !blen_app, ?uvarint_blen;
    pose proof (blen_nonneg k); try pose proof (blen_nonneg v); change (blen [0%N]) with 1; change (blen [1%N]) with 1; lia.
Qed.

(* ---- readers ---- *)
Definition full {A} (e : bytes) (d : bytes -> rd (A * bytes)) (a : A) : Prop := forall rest, d (e ++ rest) = Item (a, rest).
Definition short {A} (e : bytes) (d : bytes -> rd A) : Prop := forall p q, e = p ++ q -> q <> [] -> d p = Eof \/ d p = Fail.

Lemma bind_full {A B} e1 e2 (d : bytes -> rd (A * bytes)) (k : A -> bytes -> rd (B * bytes)) a c :
  full e1 d a -> full e2 (k a) c -> full (e1 ++ e2) (fun b => rd_bind (d b) (fun '(x, b) => k x b)) c.
Proof. intros F G rest. rewrite <- app_assoc, F. cbn [rd_bind]. apply G. Qed.
Lemma bind_short {A B} e1 e2 (d : bytes -> rd (A * bytes)) (k : A -> bytes -> rd B) a :
  short e1 d -> full e1 d a -> short e2 (k a) -> short (e1 ++ e2) (fun b => rd_bind (d b) (fun '(x, b) => k x b)).
Proof.
  intros S F G p q E Q. destruct (app_eq_cases _ _ _ _ E) as [[m [Hm E1]]|[m [E1 E2]]].
  - destruct (S p m E1 Hm) as [-> | ->]; [left|right]; reflexivity.
  - subst p. rewrite F. cbn [rd_bind]. apply (G m q E2 Q).
Qed.

Lemma byte_full x : full [x] rd_byte x.
Proof. intros rest. reflexivity. Qed.
Lemma byte_short x : short [x] rd_byte.
Proof. intros p q E Q. destruct p as [|y p]; [left; reflexivity|]. injection E as _ E. symmetry in E. apply app_eq_nil in E. destruct E. congruence. Qed.
Lemma uv_full x : 0 <= x < 2 ^ 64 -> full (uvarint x) rd_uvarint x.
Proof. intros H rest. unfold rd_uvarint. rewrite read_uvarint_uvarint by exact H. destruct (uvarint x ++ rest) eqn:E; [|reflexivity]. apply (f_equal read_uvarint) in E. rewrite read_uvarint_uvarint in E by exact H. discriminate E. Qed.
Lemma uv_short x : 0 <= x < 2 ^ 64 -> short (uvarint x) rd_uvarint.
Proof. intros H p q E Q. unfold rd_uvarint. destruct p as [|y p]; [left; reflexivity|]. right. rewrite (uvarint_cut x (y :: p) q H E Q). reflexivity. Qed.
Lemma full_full e n : n = length e -> full e (rd_full n) e.
Proof.
  intros -> rest. unfold rd_full. destruct e as [|x e]; [reflexivity|]. set (m := length (x :: e)). assert (M : m = S (length e)) by reflexivity. rewrite M.
  change ((x :: e) ++ rest) with (x :: e ++ rest). destruct (length (x :: e ++ rest) <? S (length e))%nat eqn:L.
  - apply Nat.ltb_lt in L. cbn in L. rewrite app_length in L. lia.
  - cbn [firstn skipn]. rewrite firstn_app, firstn_all, Nat.sub_diag, skipn_app, skipn_all, Nat.sub_diag. cbn [firstn skipn app]. rewrite app_nil_r. reflexivity.
Qed.
Lemma full_short e n : n = length e -> short e (rd_full n).
Proof.
  intros -> p q E Q. assert (L : (length p < length e)%nat) by (rewrite E, app_length; destruct q; [congruence|cbn; lia]).
  unfold rd_full. destruct (length e) as [|m]; [lia|]. destruct p as [|y p]; [left; reflexivity|]. right.
  replace (length (y :: p) <? S m)%nat with true by (symmetry; apply Nat.ltb_lt; exact L). reflexivity.
Qed.

Definition read_value (k : bytes) (b : bytes) : rd (bytes * option bytes * bytes) :=
  rd_bind (rd_uvarint b) (fun '(vl, b) => rd_bind (rd_full (Z.to_nat vl) b) (fun '(v, b) => Item ((k, Some v), b))).
Definition read_rest (d : N) (b : bytes) : rd (bytes * option bytes * bytes) :=
  rd_bind (rd_uvarint b) (fun '(kl, b) => rd_bind (rd_full (Z.to_nat kl) b) (fun '(k, b) => if N.eqb d 1 then Item ((k, None), b) else read_value k b)).
Lemma read_pair_def b : read_pair b = rd_bind (rd_byte b) (fun '(d, b) => read_rest d b).
Proof. reflexivity. Qed.

Lemma blen_nat b : Z.to_nat (blen b) = length b.
Proof. unfold blen. apply Nat2Z.id. Qed.
Lemma item_full {A} (a : A) : full [] (fun b => Item (a, b)) a.
Proof. intros rest. reflexivity. Qed.
Lemma item_short {A} (a : bytes -> A) : short [] (fun b => Item (a b)).
Proof. intros p q E Q. symmetry in E. apply app_eq_nil in E. destruct E. congruence. Qed.

Lemma pair_full p : pair_ok p -> full (encode_pair p) read_pair p.
Proof.
  destruct p as [k o]. intros [A B]. cbn [fst snd] in *. pose proof (blen_nonneg k). intros rest. rewrite read_pair_def. unfold encode_pair. cbn [fst snd].
  destruct o as [v|].
  - pose proof (blen_nonneg v). rewrite <- app_assoc, byte_full. cbn [rd_bind]. unfold read_rest. rewrite <- !app_assoc, uv_full by lia. cbn [rd_bind]. rewrite full_full by apply blen_nat.
    cbn [rd_bind N.eqb]. unfold read_value. rewrite uv_full by lia. cbn [rd_bind]. rewrite full_full by apply blen_nat. reflexivity.
  - rewrite <- app_assoc, byte_full. cbn [rd_bind]. unfold read_rest. rewrite <- app_assoc, uv_full by lia. cbn [rd_bind]. rewrite full_full by apply blen_nat. reflexivity.
Qed.
Lemma pair_short p : pair_ok p -> short (encode_pair p) read_pair.
Proof.
  destruct p as [k o]. intros [A B]. cbn [fst snd] in *. pose proof (blen_nonneg k). unfold encode_pair. cbn [fst snd].
  assert (D : forall e x, short e (read_rest x) -> short ([x] ++ e) read_pair).
  { intros e x S. apply (bind_short [x] e rd_byte read_rest x); [apply byte_short|apply byte_full|exact S]. }
  destruct o as [v|]; apply D; clear D; unfold read_rest.
  - pose proof (blen_nonneg v). apply (bind_short (uvarint (blen k)) _ rd_uvarint (fun kl b => rd_bind (rd_full (Z.to_nat kl) b) (fun '(k, b) => if N.eqb 0 1 then Item ((k, None), b) else read_value k b)) (blen k)); [apply uv_short; lia|apply uv_full; lia|].
    apply (bind_short k _ (rd_full (Z.to_nat (blen k))) (fun k b => if N.eqb 0 1 then Item ((k, None), b) else read_value k b) k); [apply full_short, blen_nat|apply full_full, blen_nat|].
    cbn [N.eqb]. unfold read_value.
    apply (bind_short (uvarint (blen v)) v rd_uvarint (fun vl b => rd_bind (rd_full (Z.to_nat vl) b) (fun '(v, b) => Item ((k, Some v), b))) (blen v)); [apply uv_short; lia|apply uv_full; lia|].
    rewrite <- (app_nil_r v) at 1. apply (bind_short v [] (rd_full (Z.to_nat (blen v))) (fun v b => Item ((k, Some v), b)) v); [apply full_short, blen_nat|apply full_full, blen_nat|apply item_short].
  - apply (bind_short (uvarint (blen k)) k rd_uvarint (fun kl b => rd_bind (rd_full (Z.to_nat kl) b) (fun '(k, b) => if N.eqb 1 1 then Item ((k, None), b) else read_value k b)) (blen k)); [apply uv_short; lia|apply uv_full; lia|].
    rewrite <- (app_nil_r k) at 1. apply (bind_short k [] (rd_full (Z.to_nat (blen k))) (fun k b => if N.eqb 1 1 then Item ((k, None), b) else read_value k b) k); [apply full_short, blen_nat|apply full_full, blen_nat|].
    cbn [N.eqb Pos.eqb]. apply item_short.
Qed.

Lemma encode_nonempty p : (1 <= length (encode_pair p))%nat.
Proof. destruct p as [k [v|]]; cbn; lia. Qed.
Lemma pairs_full cs : Forall pair_ok cs -> forall fuel off rest, (length (payload cs) < fuel)%nat ->
  read_pairs fuel (off + blen (payload cs)) off (payload cs ++ rest) = Item (cs, off + blen (payload cs), rest).
Proof.
  induction 1 as [|p cs P F IH]; intros fuel off rest L; unfold payload in *; cbn [flat_map] in *.
  - destruct fuel as [|fuel]; [lia|]. cbn [read_pairs]. rewrite blen_nil, Z.add_0_r, Z.ltb_irrefl. reflexivity.
  - destruct fuel as [|fuel]; [lia|]. cbn [read_pairs]. rewrite blen_app. pose proof (encode_nonempty p). pose proof (blen_nonneg (flat_map encode_pair cs)).
    assert (1 <= blen (encode_pair p)) by (unfold blen; lia). replace (off <? _) with true by lia.
    rewrite <- app_assoc, (pair_full p P). cbn [rd_bind]. rewrite (pair_size_ok p P).
    rewrite app_length in L. replace (off + (blen (encode_pair p) + blen (flat_map encode_pair cs))) with ((off + blen (encode_pair p)) + blen (flat_map encode_pair cs)) by lia.
    rewrite IH by lia. cbn [rd_bind]. reflexivity.
Qed.
Lemma pairs_short cs : Forall pair_ok cs -> forall fuel off p q, (length p < fuel)%nat -> payload cs = p ++ q -> q <> [] ->
  read_pairs fuel (off + blen (payload cs)) off p = Eof \/ read_pairs fuel (off + blen (payload cs)) off p = Fail.
Proof.
  induction 1 as [|x cs P F IH]; intros fuel off p q L E Q.
  - symmetry in E. apply app_eq_nil in E. destruct E. congruence.
  - destruct fuel as [|fuel]; [lia|]. unfold payload in *. cbn [flat_map] in *. cbn [read_pairs]. rewrite blen_app. pose proof (encode_nonempty x). pose proof (blen_nonneg (flat_map encode_pair cs)).
    assert (1 <= blen (encode_pair x)) by (unfold blen; lia). replace (off <? _) with true by lia.
    destruct (app_eq_cases _ _ _ _ E) as [[m [Hm E1]]|[m [E1 E2]]].
    + destruct (pair_short x P p m E1 Hm) as [-> | ->]; [left|right]; reflexivity.
    + subst p. rewrite (pair_full x P). cbn [rd_bind]. rewrite (pair_size_ok x P). rewrite app_length in L.
      replace (off + (blen (encode_pair x) + blen (flat_map encode_pair cs))) with ((off + blen (encode_pair x)) + blen (flat_map encode_pair cs)) by lia.
      destruct (IH fuel (off + blen (encode_pair x)) m q ltac:(lia) E2 Q) as [-> | ->]; [left|right]; reflexivity.
Qed.

(* ---- one change set ---- *)
Lemma payload_pairs_ok cs : blen (payload cs) < 2 ^ 63 -> Forall pair_ok cs.
Proof.
  induction cs as [|p cs IH]; intros H; constructor; unfold payload in *; cbn [flat_map] in H; rewrite blen_app in H; pose proof (blen_nonneg (flat_map encode_pair cs)); pose proof (blen_nonneg (encode_pair p)).
  - destruct p as [k [v|]]; unfold encode_pair, pair_ok in *; cbn [fst snd] in *; rewrite !blen_app in *;
      pose proof (blen_nonneg k); try pose proof (blen_nonneg v); try pose proof (blen_nonneg (uvarint (blen v))); pose proof (blen_nonneg (uvarint (blen k))); change (blen [0%N]) with 1 in *; change (blen [1%N]) with 1 in *; lia.
  - apply IH. lia.
Qed.
Lemma to_i64_mod v : - 2 ^ 63 <= v < 2 ^ 63 -> to_i64 (v mod 2 ^ 64) = v.
Proof.
  intros H. unfold to_i64. destruct (Z.ltb_spec v 0) as [L|L].
  - assert (v mod 2 ^ 64 = v + 2 ^ 64) as -> by (symmetry; apply (Z.mod_unique v (2 ^ 64) (-1)); lia). destruct (Z.ltb_spec (v + 2 ^ 64) (2 ^ 63)); lia.
  - rewrite Z.mod_small by lia. destruct (Z.ltb_spec v (2 ^ 63)); lia.
Qed.
Lemma write_len v cs : blen (write_set v cs) = 16 + blen (payload cs).
Proof. unfold write_set. rewrite !blen_app, !le_blen. lia. Qed.

Definition read_body (parse : bool) (version size : Z) (b : bytes) : rd (Z * Z * list (bytes * option bytes) * bytes) :=
  if size =? 0 then Item (version, 16, [], b) else
  if parse then
    rd_bind (read_pairs (S (length b)) size 0 b) (fun '(ps, off, b) =>
    if off =? size then Item (version, size + 16, ps, b) else Fail)
  else rd_bind (discard size b) (fun b => Item (version, size + 16, [], b)).
Lemma firstn_exact {A} n (a b : list A) : length a = n -> firstn n (a ++ b) = a.
Proof. intros <-. rewrite firstn_app, firstn_all, Nat.sub_diag. cbn [firstn]. apply app_nil_r. Qed.
Lemma skipn_exact {A} n (a b : list A) : length a = n -> skipn n (a ++ b) = b.
Proof. intros <-. rewrite skipn_app, skipn_all, Nat.sub_diag. reflexivity. Qed.
Lemma header_read v n : - 2 ^ 63 <= v < 2 ^ 63 -> 0 <= n < 2 ^ 63 -> forall parse rest,
  read_set parse (le 8 (v mod 2 ^ 64) ++ le 8 n ++ rest) = read_body parse v n rest.
Proof.
  intros V N parse rest. unfold read_set. rewrite app_assoc, (full_full (le 8 (v mod 2 ^ 64) ++ le 8 n) 16) by (rewrite app_length, !le_length; reflexivity).
  cbn [rd_bind]. rewrite (firstn_exact 8), (skipn_exact 8) by apply le_length.
  rewrite !unle_le_small by (change (256 ^ Z.of_nat 8) with (2 ^ 64); try (pose proof (Z.mod_pos_bound v (2 ^ 64))); lia).
  rewrite to_i64_mod by exact V. replace (to_i64 n) with n by (unfold to_i64; destruct (Z.ltb_spec n (2 ^ 63)); lia). reflexivity.
Qed.
Lemma set_full parse v cs rest : set_ok (v, cs) -> read_set parse (write_set v cs ++ rest) = Item (v, blen (write_set v cs), if parse then cs else [], rest).
Proof.
  intros [V L]. cbn [fst snd] in *. rewrite write_len in *. pose proof (blen_nonneg (payload cs)). unfold write_set. rewrite <- !app_assoc, header_read by lia.
  unfold read_body. destruct (Z.eqb_spec (blen (payload cs)) 0) as [Z0|Z0].
  - assert (payload cs = []) as E by (destruct (payload cs); [reflexivity|rewrite blen_cons in Z0; pose proof (blen_nonneg b); lia]).
    assert (cs = []) as ->. { destruct cs as [|p r]; [reflexivity|]. unfold payload in E. cbn in E. apply app_eq_nil in E. destruct E as [E _]. pose proof (encode_nonempty p). rewrite E in *. cbn in *. lia. }
    rewrite E, blen_nil. destruct parse; reflexivity.
  - destruct parse.
    + pose proof (pairs_full cs (payload_pairs_ok cs ltac:(lia)) (S (length (payload cs ++ rest))) 0 rest ltac:(rewrite app_length; lia)) as R. rewrite Z.add_0_l in R. rewrite R. cbn [rd_bind].
      rewrite Z.eqb_refl. do 3 f_equal. f_equal. lia.
    + unfold discard. rewrite blen_app. pose proof (blen_nonneg rest). replace (_ <? _) with false by lia. cbn [rd_bind]. rewrite blen_nat, skipn_app, skipn_all, Nat.sub_diag. cbn [app skipn]. do 3 f_equal. f_equal. lia.
Qed.
Lemma set_short parse v cs p q : set_ok (v, cs) -> write_set v cs = p ++ q -> q <> [] -> read_set parse p = Eof \/ read_set parse p = Fail.
Proof.
  intros [V L] E Q. cbn [fst snd] in *. rewrite write_len in L. pose proof (blen_nonneg (payload cs)).
  unfold write_set in E. rewrite app_assoc in E. destruct (app_eq_cases _ _ _ _ E) as [[m [Hm E1]]|[m [E1 E2]]].
  - unfold read_set. destruct (full_short (le 8 (v mod 2 ^ 64) ++ le 8 (blen (payload cs))) 16 ltac:(rewrite app_length, !le_length; reflexivity) p m E1 Hm) as [-> | ->]; [left|right]; reflexivity.
  - subst p. rewrite <- app_assoc, header_read by lia. unfold read_body.
    assert (B : blen m < blen (payload cs)) by (rewrite E2, blen_app; destruct q; [congruence|rewrite blen_cons; pose proof (blen_nonneg q); lia]). pose proof (blen_nonneg m).
    destruct (Z.eqb_spec (blen (payload cs)) 0); [lia|]. destruct parse.
    + pose proof (pairs_short cs (payload_pairs_ok cs ltac:(lia)) (S (length m)) 0 m q ltac:(lia) E2 Q) as R. rewrite Z.add_0_l in R. destruct R as [-> | ->]; [left|right]; reflexivity.
    + unfold discard. replace (blen m <? _) with true by lia. left. reflexivity.
Qed.

(* ---- the whole file ---- *)
Lemma write_nonempty v cs : (16 <= length (write_set v cs))%nat.
Proof. pose proof (write_len v cs). pose proof (blen_nonneg (payload cs)). unfold blen in *. lia. Qed.
Lemma iterate_cut parse f : forall vs n fuel done off, Forall set_ok vs -> 0 <= n -> (length (firstn (Z.to_nat n) (write_file vs)) < fuel)%nat ->
  exists e, (e = Fine \/ e = ReadError) /\ (blen (write_file vs) <= n -> e = Fine) /\
    iterate_sets fuel parse f (firstn (Z.to_nat n) (write_file vs)) done off = deliver f (shown parse) e (complete n vs) done off.
Proof.
  induction vs as [|[v cs] vs IH]; intros n fuel done off F N L.
  - exists Fine. split; [auto|]. split; [auto|]. unfold write_file. cbn [flat_map]. rewrite firstn_nil. destruct fuel as [|fuel]; [cbn in L; lia|]. reflexivity.
  - inversion F as [|? ? S F']; subst. destruct fuel as [|fuel]; [lia|]. unfold write_file in *. cbn [flat_map fst snd complete] in *. fold (write_file vs) in *.
    destruct (Z.leb_spec (blen (write_set v cs)) n) as [B|B].
    + assert (T : firstn (Z.to_nat n) (write_set v cs ++ write_file vs) = write_set v cs ++ firstn (Z.to_nat (n - blen (write_set v cs))) (write_file vs)).
      { rewrite firstn_app, firstn_all2 by (unfold blen in B; lia). f_equal. f_equal. unfold blen. lia. }
      rewrite T in *. rewrite app_length in L. pose proof (write_nonempty v cs).
      cbn [iterate_sets]. rewrite set_full by exact S. cbn [deliver fst snd]. replace (shown parse (v, cs)) with (v, if parse then cs else []) by (destruct parse; reflexivity).
      destruct (IH (n - blen (write_set v cs)) fuel (done ++ [(v, if parse then cs else [])]) (off + blen (write_set v cs)) F' ltac:(lia) ltac:(lia)) as (e & He & Hf & E).
      exists e. split; [exact He|]. split; [intros Q; apply Hf; rewrite blen_app in Q; lia|]. destruct (f (done ++ [(v, if parse then cs else [])])); [exact E|reflexivity|reflexivity].
    + set (p := firstn (Z.to_nat n) (write_set v cs ++ write_file vs)) in *. assert (X : exists q, write_set v cs = p ++ q /\ q <> []).
      { exists (skipn (Z.to_nat n) (write_set v cs)). unfold p. rewrite firstn_app. replace (Z.to_nat n - length (write_set v cs))%nat with 0%nat by (unfold blen in B; lia). cbn [firstn].
        rewrite app_nil_r, firstn_skipn. split; [reflexivity|]. intros K. apply (f_equal (@length _)) in K. rewrite skipn_length in K. unfold blen in B. cbn [length] in K. lia. }
      destruct X as (q & Eq & Hq). cbn [iterate_sets deliver]. pose proof (blen_nonneg (write_file vs)). destruct (set_short parse v cs p q S Eq Hq) as [-> | ->].
      * exists Fine. auto.
      * exists ReadError. split; [auto|]. split; [rewrite blen_app; lia|reflexivity].
Qed.
