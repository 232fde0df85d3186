(* Lemmas about conversions. *)
From Verif Require Import Lib.Base Lib.Zmap Erc20.Convert Erc20.ConvertSpec.
Open Scope Z_scope.

(* ---- balances ---- *)
Lemma bget_badd b a x c : bget (badd b a x) c = bget b c + (if a =? c then x else 0).
Proof. unfold badd. unfold bget at 1. rewrite zget_zset. destruct (Z.eqb_spec a c) as [E|E]; [subst c; reflexivity|]. unfold bget. lia. Qed.
Lemma badd_sorted b a x : zsorted b -> zsorted (badd b a x). Proof. apply zset_sorted. Qed.
Lemma total_cons q b : total (q :: b) = snd q + total b. Proof. reflexivity. Qed.
Lemma total_zset b : forall a v, zsorted b -> total (zset b a v) = total b - bget b a + v.
Proof.
  induction b as [|[k w] b IH]; intros a v H; [cbn; lia|]. apply zsorted_cons in H. destruct H as [H F]. cbn [zset]. unfold bget. cbn [zget].
  destruct (Z.ltb_spec a k) as [L|L].
  - rewrite total_cons. cbn [snd]. destruct (Z.eqb_spec k a) as [X|X]; [lia|]. rewrite (zget_below b a); [lia|]. eapply Forall_impl; [|exact F]. cbn. intros; lia.
  - destruct (Z.eqb_spec k a) as [X|X]; [subst; rewrite !total_cons; cbn [snd]; lia|]. rewrite !total_cons, IH by exact H. cbn [snd]. unfold bget. lia.
Qed.
Lemma total_badd b a x : zsorted b -> total (badd b a x) = total b + x.
Proof. intro H. unfold badd. rewrite total_zset by exact H. lia. Qed.
Lemma bget_bmove b f t x c : bget (bmove b f t x) c = bget b c - (if f =? c then x else 0) + (if t =? c then x else 0).
Proof. unfold bmove. rewrite !bget_badd. destruct (f =? c); lia. Qed.
Lemma bmove_sorted b f t x : zsorted b -> zsorted (bmove b f t x). Proof. intro H. apply badd_sorted, badd_sorted, H. Qed.
Lemma total_bmove b f t x : zsorted b -> total (bmove b f t x) = total b.
Proof. intro H. unfold bmove. rewrite !total_badd; [lia|exact H|apply badd_sorted; exact H]. Qed.
Lemma fine_bmove b f t x : fine b -> 0 <= x -> x <= bget b f -> fine (bmove b f t x).
Proof.
  intros [S N] P L. split; [apply bmove_sorted; exact S|]. intro c. rewrite bget_bmove. pose proof (N c). destruct (Z.eqb_spec f c) as [X|X]; [subst c|]; destruct (t =? _); lia.
Qed.
Lemma fine_badd b a x : fine b -> 0 <= bget b a + x -> fine (badd b a x).
Proof. intros [S N] L. split; [apply badd_sorted; exact S|]. intro c. rewrite bget_badd. pose proof (N c). destruct (Z.eqb_spec a c) as [X|X]; [subst c|]; lia. Qed.
Lemma bget_le_total b : forall a, fine b -> bget b a <= total b.
Proof.
  induction b as [|[k w] b IH]; intros a [S N]; [cbn; lia|]. apply zsorted_cons in S. destruct S as [S F].
  assert (Fb : fine b).
  { split; [exact S|]. intro c. destruct (Z.eqb_spec c k) as [X|X]; [subst c; unfold bget; rewrite (zget_below b k F); lia|]. specialize (N c). unfold bget in N. cbn [zget] in N. destruct (Z.eqb_spec k c); [congruence|exact N]. }
  assert (W : 0 <= w) by (specialize (N k); unfold bget in N; cbn [zget] in N; rewrite Z.eqb_refl in N; exact N).
  rewrite total_cons. cbn [snd]. pose proof (IH a Fb) as A. pose proof (IH k Fb) as B. unfold bget in B at 1. rewrite (zget_below b k F) in B. unfold bget in *. cbn [zget]. destruct (k =? a); lia.
Qed.

(* ---- any contract ---- *)
Section Any.
Variable W : Type.
Variables M E : Z.
Variables blocked modacc : Z -> bool.
Variable locked : Z -> Z.
Variable bal_of : W -> Z -> option Z.
Variable xfer : W -> list (Z * Z) -> Z -> Z -> Z -> option (call_res W).
Variable alive : W -> bool.
Variable approval : Z.
Notation cst := (cst W).

Lemma monitor_ok l : monitor approval l = Ok tt -> forall t, In t l -> exists h r, t = h :: r /\ h <> approval.
Proof.
  induction l as [|t l IH]; intros H u Hu; [destruct Hu|]. cbn [monitor] in H. destruct t as [|h t]; [discriminate|]. destruct (Z.eqb_spec h approval) as [X|X]; [discriminate|].
  destruct Hu as [<-|Hu]; [exists h, t; auto|exact (IH H u Hu)].
Qed.
Lemma to_coin_ok s f r x s' : to_coin W M blocked bal_of xfer approval s f r x = Ok s' ->
  exists t0 c, bal_of (c_w W s) M = Some t0 /\ xfer (c_w W s) (c_bank W s) f M x = Some c /\ cr_ret W c = Some true /\ bal_of (cr_w W c) M = Some (t0 + x)
    /\ blocked r = false /\ s' = mk_cst W (cr_w W c) (bmove (badd (cr_bank W c) M x) M r x) (c_send W s) (c_on W s) (c_pair W s)
    /\ bget (c_bank W s') r = bget (c_bank W s) r + x /\ monitor approval (cr_logs W c) = Ok tt.
Proof.
  unfold to_coin. destruct (bal_of (c_w W s) M) as [t0|]; [|discriminate]. destruct (xfer _ _ f M x) as [c|]; [|discriminate]. destruct (cr_ret W c) as [[|]|] eqn:Er; try discriminate.
  destruct (bal_of (cr_w W c) M) as [t1|] eqn:B1; [|discriminate]. destruct (Z.eqb_spec t1 (t0 + x)) as [X|X]; [|discriminate]. cbn [negb]. destruct (blocked r); [discriminate|]. destruct (Z.eqb_spec (bget (bmove (badd (cr_bank W c) M x) M r x) r) (bget (c_bank W s) r + x)) as [Y|Y]; [|discriminate]. cbn [negb].
  destruct (monitor approval (cr_logs W c)) as [[]| |] eqn:Mo; try discriminate. cbn [rbind]. intro H. injection H as <-. exists t0, c. subst t1. auto 10.
Qed.
Lemma to_token_ok s f r x s' : 0 < x -> to_token W M locked bal_of xfer approval s f r x = Ok s' ->
  exists t0 c, bal_of (c_w W s) r = Some t0 /\ x <= bget (c_bank W s) f - locked f /\ xfer (c_w W s) (bmove (c_bank W s) f M x) M r x = Some c /\ cr_ret W c = Some true /\ bal_of (cr_w W c) r = Some (t0 + x)
    /\ x <= bget (cr_bank W c) M /\ s' = mk_cst W (cr_w W c) (badd (cr_bank W c) M (- x)) (c_send W s) (c_on W s) (c_pair W s) /\ monitor approval (cr_logs W c) = Ok tt.
Proof.
  intro P. unfold to_token. destruct (Z.leb_spec x 0) as [|_]; [lia|]. destruct (bal_of (c_w W s) r) as [t0|]; [|discriminate]. unfold bsend. destruct (Z.ltb_spec (bget (c_bank W s) f - locked f) x) as [|L]; [discriminate|]. cbn [rbind].
  destruct (xfer _ _ M r x) as [c|]; [|discriminate]. destruct (cr_ret W c) as [[|]|] eqn:Er; try discriminate. destruct (bal_of (cr_w W c) r) as [t1|] eqn:B1; [|discriminate].
  destruct (Z.eqb_spec t1 (t0 + x)) as [X|X]; [|discriminate]. cbn [negb]. destruct (Z.ltb_spec (bget (cr_bank W c) M) x) as [|L2]; [discriminate|].
  destruct (monitor approval (cr_logs W c)) as [[]| |] eqn:Mo; try discriminate. cbn [rbind]. intro H. injection H as <-. exists t0, c. subst t1. auto 10.
Qed.
Lemma convert_ok s f r x s' : convert_erc20 W M blocked bal_of xfer alive approval s f r x = Ok s' ->
  0 < x /\ c_on W s = true /\ c_pair W s = Some true /\ blocked r = false /\ (f = r \/ c_send W s = true)
  /\ ((alive (c_w W s) = false /\ s' = mk_cst W (c_w W s) (c_bank W s) (c_send W s) (c_on W s) None) \/ (alive (c_w W s) = true /\ to_coin W M blocked bal_of xfer approval s f r x = Ok s')).
Proof.
  unfold convert_erc20. destruct (Z.leb_spec x 0) as [|P]; [discriminate|]. unfold minting. destruct (c_on W s); [|discriminate]. cbn [negb]. destruct (c_pair W s) as [[|]|]; try discriminate.
  destruct (blocked r); [discriminate|]. intro H. split; [exact P|]. split; [reflexivity|]. split; [reflexivity|]. split; [reflexivity|].
  destruct (Z.eqb_spec f r) as [X|X]; cbn [negb andb] in H.
  - split; [left; exact X|]. cbn [rbind] in H. destruct (alive (c_w W s)); [right|left; injection H as <-]; auto.
  - destruct (c_send W s) eqn:Se; [|discriminate]. split; [right; reflexivity|]. cbn [rbind negb] in H. destruct (alive (c_w W s)); [right|left; injection H as <-]; auto.
Qed.
End Any.

(* ---- an ordinary token ---- *)
Section Honest.
Variables M E : Z.
Variables blocked modacc : Z -> bool.
Variable locked : Z -> Z.
Variable approval : Z.
Hypothesis apart : M <> E.
Hypothesis mod_blocked : blocked M = true.
Hypothesis no_approval : approval <> 1.
Notation L := (list (Z * Z)).
Notation step := (hstep M E blocked modacc locked approval).

Lemma mon1 f t : monitor approval [[1; f; t]] = Ok tt.
Proof. cbn [monitor]. destruct (Z.eqb_spec 1 approval); [congruence|reflexivity]. Qed.

(* converting tokens into coins, exactly *)
Definition mk_b (b : L) r x := bmove (badd b M x) M r x.
Lemma hon_to_coin s f r x : f <> M -> r <> M ->
  to_coin L M blocked hon_bal hon_xfer approval s f r x =
  if tokens s f <? x then Err else if blocked r then Err else Ok (mk_cst L (bmove (c_w L s) f M x) (mk_b (c_bank L s) r x) (c_send L s) (c_on L s) (c_pair L s)).
Proof.
  intros F R. unfold to_coin, hon_bal, hon_xfer, tokens. destruct (bget (c_w L s) f <? x); [reflexivity|]. cbn [cr_ret cr_w cr_bank cr_logs]. rewrite !bget_bmove, !bget_badd, Z.eqb_refl.
  destruct (Z.eqb_spec f M); [contradiction|]. destruct (Z.eqb_spec M r); [congruence|]. rewrite Z.eqb_refl. replace (bget (c_w L s) M - 0 + x) with (bget (c_w L s) M + x) by lia. rewrite Z.eqb_refl. cbn [negb].
  destruct (blocked r); [reflexivity|]. replace (bget (c_bank L s) r + 0 - 0 + x) with (bget (c_bank L s) r + x) by lia. rewrite Z.eqb_refl. cbn [negb]. rewrite mon1. reflexivity.
Qed.
Lemma mk_b_get b r x c : r <> M -> bget (mk_b b r x) c = bget b c + (if r =? c then x else 0).
Proof. intro R. unfold mk_b. rewrite bget_bmove, bget_badd. destruct (M =? c); lia. Qed.
Lemma mk_b_fine b r x : r <> M -> fine b -> 0 <= x -> fine (mk_b b r x).
Proof.
  intros R [S N] P. split; [apply bmove_sorted, badd_sorted; exact S|]. intro c. rewrite mk_b_get by exact R. specialize (N c). destruct (r =? c); lia.
Qed.
Lemma mk_b_total b r x : zsorted b -> total (mk_b b r x) = total b + x.
Proof. intro S. unfold mk_b. rewrite total_bmove by (apply badd_sorted; exact S). apply total_badd. exact S. Qed.
Lemma hon_convert s f r x : f <> M ->
  convert_erc20 L M blocked hon_bal hon_xfer (fun _ => true) approval s f r x =
  if (0 <? x) && c_on L s && (match c_pair L s with Some true => true | _ => false end) && negb (blocked r) && ((f =? r) || c_send L s) && (x <=? tokens s f)
  then Ok (mk_cst L (bmove (c_w L s) f M x) (mk_b (c_bank L s) r x) (c_send L s) (c_on L s) (c_pair L s)) else Err.
Proof.
  intro F. unfold convert_erc20, minting. rewrite Z.leb_antisym. destruct (0 <? x); [|reflexivity]. cbn [negb]. destruct (c_on L s) eqn:On; [|reflexivity]. cbn [negb andb].
  destruct (c_pair L s) as [[|]|] eqn:Pa; try reflexivity. destruct (blocked r) eqn:Bl; [reflexivity|]. cbn [negb andb].
  assert (R : r <> M) by (intro; subst r; congruence). rewrite <- negb_orb. destruct ((f =? r) || c_send L s); [|reflexivity]. cbn [negb rbind andb].
  rewrite (hon_to_coin s f r x F R), Bl, Pa, On. rewrite (Z.leb_antisym (tokens s f) x). destruct (tokens s f <? x); reflexivity.
Qed.
(* converting coins into tokens, exactly *)
Definition un_b (b : L) f x := badd (bmove b f M x) M (- x).
Lemma un_b_get b f x c : bget (un_b b f x) c = bget b c - (if f =? c then x else 0).
Proof. unfold un_b. rewrite bget_badd, bget_bmove. destruct (M =? c); lia. Qed.
Lemma un_b_total b f x : zsorted b -> total (un_b b f x) = total b - x.
Proof. intro S. unfold un_b. rewrite total_badd by (apply bmove_sorted; exact S). rewrite total_bmove by exact S. lia. Qed.
Lemma un_b_fine b f x : fine b -> x <= bget b f -> fine (un_b b f x).
Proof.
  intros [S N] Q. split; [apply badd_sorted, bmove_sorted; exact S|]. intro c. rewrite un_b_get. pose proof (N c). destruct (Z.eqb_spec f c) as [X|X]; [subst c|]; lia.
Qed.
Lemma hon_to_token s f r x : f <> M -> r <> M -> 0 < x -> fine (c_bank L s) ->
  to_token L M locked hon_bal hon_xfer approval s f r x =
  if (x <=? coins s f - locked f) && (x <=? tokens s M) then Ok (mk_cst L (bmove (c_w L s) M r x) (un_b (c_bank L s) f x) (c_send L s) (c_on L s) (c_pair L s)) else Err.
Proof.
  intros F R P Fi. unfold to_token, hon_bal, bsend, hon_xfer, tokens, coins. destruct (Z.leb_spec x 0); [lia|]. rewrite Z.leb_antisym. destruct (bget (c_bank L s) f - locked f <? x); [reflexivity|]. cbn [negb rbind andb].
  rewrite Z.leb_antisym. destruct (bget (c_w L s) M <? x); [reflexivity|]. cbn [negb cr_ret cr_w cr_bank cr_logs]. rewrite !bget_bmove, Z.eqb_refl. destruct (Z.eqb_spec M r); [congruence|].
  replace (bget (c_w L s) r - 0 + x) with (bget (c_w L s) r + x) by lia. rewrite Z.eqb_refl. cbn [negb]. destruct (Z.eqb_spec f M); [contradiction|]. rewrite Z.eqb_refl. destruct (Z.ltb_spec (bget (c_bank L s) M - 0 + x) x) as [Q|Q].
  - pose proof (proj2 Fi M). lia.
  - rewrite mon1. reflexivity.
Qed.

(* ---- the surplus ---- *)
Definition surplus (s : hst) : Z := tokens s M - supply s.
Definition fine_step (s s' : hst) (g : Z) : Prop := good s' /\ surplus s' = surplus s + g.

Lemma convert_fine s f r x s' : good s -> f <> M -> convert_erc20 L M blocked hon_bal hon_xfer (fun _ => true) approval s f r x = Ok s' -> fine_step s s' 0.
Proof.
  intros [GB GW] F H. rewrite (hon_convert s f r x F) in H. destruct (Z.ltb_spec 0 x) as [P|]; [|discriminate]. destruct (c_on L s); [|discriminate]. destruct (c_pair L s) as [[|]|]; try discriminate. cbn [andb] in H.
  destruct (blocked r) eqn:Bl; [discriminate|]. destruct ((f =? r) || c_send L s); [|discriminate]. cbn [negb andb] in H. destruct (Z.leb_spec x (tokens s f)) as [Q|]; [|discriminate]. injection H as <-.
  assert (R : r <> M) by (intro; subst r; congruence). split.
  - split; [apply mk_b_fine; [exact R|exact GB|lia]|apply fine_bmove; [exact GW|lia|exact Q]].
  - unfold surplus, tokens, supply. cbn [c_w c_bank]. rewrite mk_b_total by apply GB. rewrite bget_bmove, Z.eqb_refl. destruct (Z.eqb_spec f M); [contradiction|]. lia.
Qed.
Lemma to_token_fine s f r x s' : good s -> f <> M -> r <> M -> 0 <= locked f -> to_token L M locked hon_bal hon_xfer approval s f r x = Ok s' -> fine_step s s' 0.
Proof.
  intros [GB GW] F R Lo H. destruct (Z.ltb_spec 0 x) as [P|P].
  - rewrite (hon_to_token s f r x F R P GB) in H. destruct (Z.leb_spec x (coins s f - locked f)) as [Q|]; [|discriminate]. destruct (Z.leb_spec x (tokens s M)) as [Q2|]; [|discriminate]. injection H as <-. split.
    + split; [apply un_b_fine; [exact GB|unfold coins in Q; lia]|apply fine_bmove; [exact GW|lia|exact Q2]].
    + unfold surplus, tokens, supply. cbn [c_w c_bank]. rewrite un_b_total by apply GB. rewrite bget_bmove, Z.eqb_refl. destruct (Z.eqb_spec r M); [contradiction|]. lia.
  - unfold to_token in H. destruct (Z.leb_spec x 0); [|lia]. injection H as <-. split; [split; assumption|lia].
Qed.
Lemma bsend_fine s f t x b : good s -> 0 <= x -> 0 <= locked f -> bsend locked (c_bank L s) f t x = Ok b -> fine_step s (with_bank L s b) 0.
Proof.
  intros [GB GW] P Lo H. unfold bsend in H. destruct (Z.ltb_spec (bget (c_bank L s) f - locked f) x) as [|Q]; [discriminate|]. injection H as <-. split.
  - split; [apply fine_bmove; [exact GB|exact P|lia]|exact GW].
  - unfold surplus, tokens, supply, with_bank. cbn [c_w c_bank]. rewrite total_bmove by apply GB. lia.
Qed.
Lemma regular_fine s a x s' : good s -> 0 <= locked a -> regular L E blocked locked s a x = Ok s' -> fine_step s s' 0.
Proof.
  intros G Lo H. unfold regular in H. destruct (Z.leb_spec x 0) as [|P]; [discriminate|]. destruct (negb (c_send L s)); [discriminate|]. destruct (blocked a); [discriminate|]. cbn [orb] in H.
  destruct (bsend locked (c_bank L s) a E x) as [b| |] eqn:B; try discriminate. injection H as <-. apply (bsend_fine s a E x b G); auto. lia.
Qed.
Lemma transfer_fine s a x s' : good s -> a <> M -> 0 <= locked a -> transfer L M E blocked locked hon_bal hon_xfer (fun _ => true) approval s a x = Ok s' -> fine_step s s' 0.
Proof.
  intros G A Lo H. unfold transfer in H. destruct (c_pair L s) as [[|]|]; [|exact (regular_fine s a x s' G Lo H)|exact (regular_fine s a x s' G Lo H)].
  destruct (negb (c_on L s)); [exact (regular_fine s a x s' G Lo H)|]. destruct (x <=? bget (c_bank L s) a); [exact (regular_fine s a x s' G Lo H)|].
  destruct (convert_erc20 L M blocked hon_bal hon_xfer (fun _ => true) approval s a a (x - bget (c_bank L s) a)) as [s1| |] eqn:C; try discriminate. cbn [rbind] in H.
  destruct (convert_fine s a a _ s1 G A C) as [G1 S1]. destruct (regular_fine s1 a x s' G1 Lo H) as [G2 S2]. split; [exact G2|lia].
Qed.
Lemma release_fine s a x s' : good s -> 0 <= x -> release L E s a x = Ok s' -> fine_step s s' 0.
Proof.
  intros [GB GW] P H. unfold release in H. destruct (Z.ltb_spec (bget (c_bank L s) E) x) as [|Q]; [discriminate|]. injection H as <-. split.
  - split; [apply fine_bmove; [exact GB|exact P|exact Q]|exact GW].
  - unfold surplus, tokens, supply, with_bank. cbn [c_w c_bank]. rewrite total_bmove by apply GB. lia.
Qed.
Lemma refund_fine s a x s' : good s -> a <> M -> 0 < x -> 0 <= locked a -> refund L M E modacc locked hon_bal hon_xfer approval s a x = Ok s' -> fine_step s s' 0.
Proof.
  intros G A P Lo H. unfold refund in H. destruct (release L E s a x) as [s1| |] eqn:R; try discriminate. cbn [rbind] in H. destruct (release_fine s a x s1 G ltac:(lia) R) as [G1 S1].
  destruct (c_pair L s1); [|injection H as <-; split; assumption]. destruct (negb (c_on L s1) || modacc a); [injection H as <-; split; assumption|].
  destruct (to_token_fine s1 a a x s' G1 A A Lo H) as [G2 S2]. split; [exact G2|lia].
Qed.
Lemma recv_fine s a x same s' : good s -> a <> M -> 0 < x -> 0 <= locked a -> recv L M E blocked modacc locked hon_bal hon_xfer approval s a x same = Ok s' -> fine_step s s' 0.
Proof.
  intros G A P Lo H. unfold recv in H. destruct (blocked a); [discriminate|]. destruct (release L E s a x) as [s1| |] eqn:R; try discriminate. cbn [rbind] in H. destruct (release_fine s a x s1 G ltac:(lia) R) as [G1 S1].
  destruct (negb (c_on L s1)); [injection H as <-; split; assumption|]. destruct same; [discriminate|]. destruct (modacc a); [injection H as <-; split; assumption|].
  destruct (c_pair L s1) as [[|]|]; [|injection H as <-; split; assumption|injection H as <-; split; assumption].
  destruct (to_token_fine s1 a a _ s' G1 A A Lo H) as [G2 S2]. split; [exact G2|lia].
Qed.
Hypothesis locked_nonneg : forall a, 0 <= locked a.
Lemma hstep_fine s o s' : good s -> signed M E o -> step s o = Ok s' -> fine_step s s' (gift M E blocked modacc locked approval s o).
Proof.
  intros G Si H. destruct o as [f r x|a x|a x|a x same|f t x|f t x|b|b|b]; cbn [signed gift] in *; cbn [hstep] in H.
  - exact (convert_fine s f r x s' G Si H).
  - exact (transfer_fine s a x s' G (proj1 Si) (locked_nonneg a) H).
  - exact (refund_fine s a x s' G (proj1 Si) (proj2 Si) (locked_nonneg a) H).
  - exact (recv_fine s a x same s' G (proj1 Si) (proj2 Si) (locked_nonneg a) H).
  - destruct (bsend locked (c_bank L s) f t x) as [b| |] eqn:B; try discriminate. injection H as <-. apply (bsend_fine s f t x b G); [apply Si|apply locked_nonneg|exact B].
  - assert (Ok1 : is_ok (step s (OGive f t x)) = true) by (cbn [hstep]; rewrite H; reflexivity). rewrite Ok1. unfold hon_xfer in H. destruct (Z.ltb_spec (bget (c_w L s) f) x) as [|Q]; [discriminate|]. injection H as <-. destruct G as [GB GW]. destruct Si as [F P]. split.
    + split; [exact GB|]. apply fine_bmove; [exact GW|exact P|exact Q].
    + unfold surplus, tokens, supply. cbn [c_w c_bank cr_w]. rewrite bget_bmove. destruct (Z.eqb_spec f M); [contradiction|]. rewrite andb_true_r. destruct (Z.eqb_spec t M); lia.
  - destruct (c_pair L s); [|discriminate]. injection H as <-. split; [exact G|]. unfold surplus, tokens, supply. cbn [c_w c_bank]. lia.
  - injection H as <-. split; [exact G|]. unfold surplus, tokens, supply. cbn [c_w c_bank]. lia.
  - injection H as <-. split; [exact G|]. unfold surplus, tokens, supply. cbn [c_w c_bank]. lia.
Qed.
Lemma gift_zero s o : (forall s', step s o <> Ok s') -> gift M E blocked modacc locked approval s o = 0.
Proof.
  intro H. destruct o; try reflexivity. cbn [gift]. destruct (step s (OGive f t x)) as [s'| |] eqn:E1; [destruct (H s'); reflexivity| |]; cbn [is_ok]; rewrite andb_false_r; reflexivity.
Qed.
Lemma hexec_fine s o : good s -> signed M E o -> fine_step s (hexec M E blocked modacc locked approval s o) (gift M E blocked modacc locked approval s o).
Proof.
  intros G Si. unfold hexec. destruct (step s o) as [s'| |] eqn:H.
  - exact (hstep_fine s o s' G Si H).
  - rewrite gift_zero by (intros s' X; congruence). split; [exact G|lia].
  - rewrite gift_zero by (intros s' X; congruence). split; [exact G|lia].
Qed.
Lemma hrun_fine l : forall s, good s -> Forall (signed M E) l -> fine_step s (hrun M E blocked modacc locked approval s l) (gifts M E blocked modacc locked approval s l).
Proof.
  induction l as [|o l IH]; intros s G Si; [split; [exact G|cbn; lia]|]. inversion Si as [|? ? S1 S2]; subst. destruct (hexec_fine s o G S1) as [G1 E1]. destruct (IH _ G1 S2) as [G2 E2]. cbn [hrun gifts]. split; [exact G2|lia].
Qed.
Lemma gifts_nonneg l : forall s, Forall (signed M E) l -> 0 <= gifts M E blocked modacc locked approval s l.
Proof.
  induction l as [|o l IH]; intros s Si; [cbn; lia|]. inversion Si as [|? ? S1 S2]; subst. cbn [gifts]. specialize (IH (hexec M E blocked modacc locked approval s o) S2).
  assert (0 <= gift M E blocked modacc locked approval s o). { destruct o as [f r x|a x|a x|a x same|f t x|f t x|b|b|b]; cbn [gift]; try lia. destruct S1 as [_ P]. destruct ((t =? M) && _); [exact P|lia]. } lia.
Qed.
End Honest.
