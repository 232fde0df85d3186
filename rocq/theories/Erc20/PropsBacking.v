(* C82: the coin of an ordinary token is always fully backed by tokens that the module
   holds, through every history of conversions, transfers to and from other chains,
   refunds and switches; transfers use coins first and refunds give everything back. *)
From Verif Require Import Lib.Base Lib.Zmap Erc20.Convert Erc20.ConvertSpec Erc20.ConvertProofs Erc20.PropsConvert.
Open Scope Z_scope.

(* the tokens of the module exceed the supply by the same amount at all times, but for
   tokens that somebody sends to the module by hand: never less than at the start *)
Theorem C82_backed : forall M E blocked modacc locked approval (s : hst) ops, setting M E blocked locked approval -> good s -> Forall (signed M E) ops ->
  let s' := hrun M E blocked modacc locked approval s ops in
  tokens s' M - supply s' = tokens s M - supply s + gifts M E blocked modacc locked approval s ops
  /\ (supply s <= tokens s M -> supply s' <= tokens s' M) /\ good s'.
Proof.
  intros M E blocked modacc locked approval s ops (A & B & C & D) G Si s'. destruct (hrun_fine M E blocked modacc locked approval B C D ops s G Si) as [G' S']. fold s' in G', S'. unfold surplus in S'. split; [exact S'|]. split; [|exact G'].
  intro H. pose proof (gifts_nonneg M E blocked modacc locked approval B D ops s Si). lia.
Qed.
(* so everybody can always turn their coins into tokens: the module never lacks them *)
Theorem C82_redeemable : forall M E blocked modacc locked approval (s : hst) ops a r x, setting M E blocked locked approval -> good s -> supply s <= tokens s M -> Forall (signed M E) ops ->
  let s1 := hrun M E blocked modacc locked approval s ops in
  a <> M -> r <> M -> 0 < x -> x <= coins s1 a - locked a ->
  exists s2, to_token _ M locked hon_bal hon_xfer approval s1 a r x = Ok s2
    /\ (forall c, coins s2 c = coins s1 c - (if a =? c then x else 0)) /\ (forall c, tokens s2 c = tokens s1 c - (if M =? c then x else 0) + (if r =? c then x else 0)) /\ supply s2 = supply s1 - x.
Proof.
  intros M E blocked modacc locked approval s ops a r x St G Ba Si s1 A R P Q. destruct (C82_backed M E blocked modacc locked approval s ops St G Si) as (_ & Bk & [GB GW]). fold s1 in Bk, GB, GW. specialize (Bk Ba). destruct St as (_ & B & C & D).
  rewrite (hon_to_token M blocked modacc locked approval B C s1 a r x A R P GB). pose proof (bget_le_total _ a GB) as T. unfold coins in Q. pose proof (D a). unfold supply in Bk.
  destruct (Z.leb_spec x (coins s1 a - locked a)) as [_|W]; [|unfold coins in W; lia]. destruct (Z.leb_spec x (tokens s1 M)) as [_|W]; [|lia]. cbn [andb]. eexists. split; [reflexivity|]. unfold coins, tokens, supply. cbn [c_bank c_w]. split; [|split].
  - intro c. apply (un_b_get M blocked modacc locked B).
  - intro c. apply bget_bmove.
  - apply (un_b_total M blocked modacc locked B). apply GB.
Qed.
(* a transfer to another chain succeeds if coins and tokens together suffice, for an
   account without vesting; it uses coins first and converts only what is missing *)
Theorem C82_transfer : forall M E blocked modacc locked approval (s : hst) a x, setting M E blocked locked approval -> good s ->
  a <> M -> a <> E -> blocked a = false -> locked a = 0 -> c_on _ s = true -> c_pair _ s = Some true -> c_send _ s = true -> 0 < x ->
  let missing := Z.max 0 (x - coins s a) in
  (is_ok (hstep M E blocked modacc locked approval s (OTransfer a x)) = true <-> missing <= tokens s a)
  /\ (forall s', hstep M E blocked modacc locked approval s (OTransfer a x) = Ok s' ->
       (forall c, coins s' c = coins s c - (if a =? c then x - missing else 0) + (if E =? c then x else 0))
       /\ (forall c, tokens s' c = tokens s c - (if a =? c then missing else 0) + (if M =? c then missing else 0)) /\ supply s' = supply s + missing
       /\ c_on _ s' = true /\ c_pair _ s' = Some true /\ c_send _ s' = true).
Proof.
  intros M E blocked modacc locked approval s a x (Ap & B & C & D) [GB GW] A AE Bl Lo On Pa Se P missing. cbn [hstep]. unfold transfer. rewrite Pa, On. cbn [negb]. fold (coins s a). pose proof (proj2 GW a) as Ta. fold (tokens s a) in Ta.
  destruct (Z.leb_spec x (coins s a)) as [Q|Q].
  - assert (Mi : missing = 0) by (unfold missing; lia). rewrite Mi. unfold regular, bsend. rewrite Se, Bl. destruct (Z.leb_spec x 0); [lia|]. cbn [negb orb]. rewrite Lo. fold (coins s a). destruct (Z.ltb_spec (coins s a - 0) x); [lia|]. cbn [rbind]. split; [split; [lia|reflexivity]|].
    intros s' X. injection X as <-. unfold coins, tokens, supply, with_bank. cbn [c_bank c_w c_on c_pair c_send]. split; [|split; [|split; [|auto]]].
    + intro c. rewrite bget_bmove, Z.sub_0_r. reflexivity.
    + intro c. destruct (a =? c), (M =? c); lia.
    + rewrite total_bmove by apply GB. lia.
  - assert (Mi : missing = x - coins s a) by (unfold missing; lia). rewrite Mi. rewrite (hon_convert M blocked modacc locked approval B C s a a _ A). rewrite On, Pa, Bl, Z.eqb_refl. destruct (Z.ltb_spec 0 (x - coins s a)); [|lia]. cbn [negb andb orb].
    destruct (Z.leb_spec (x - coins s a) (tokens s a)) as [T|T]; cbn [rbind].
    + unfold regular, bsend. cbn [c_send c_bank]. rewrite Se, Bl. destruct (Z.leb_spec x 0); [lia|]. cbn [negb orb]. rewrite Lo, (mk_b_get M blocked modacc locked B) by exact A. rewrite Z.eqb_refl. fold (coins s a). destruct (Z.ltb_spec (coins s a + (x - coins s a) - 0) x); [lia|]. cbn [rbind]. split; [split; [lia|reflexivity]|].
      intros s' X. injection X as <-. unfold coins, tokens, supply, with_bank. cbn [c_bank c_w c_on c_pair c_send]. split; [|split; [|split; [|auto]]].
      * intro c. rewrite bget_bmove, (mk_b_get M blocked modacc locked B) by exact A. destruct (a =? c), (E =? c); lia.
      * intro c. rewrite bget_bmove. reflexivity.
      * rewrite total_bmove by (apply bmove_sorted, badd_sorted; apply GB). rewrite (mk_b_total M) by apply GB. reflexivity.
    + split; [split; [discriminate|lia]|]. discriminate.
Qed.
(* a transfer that failed on the other chain comes back whole: the refund succeeds, the
   sender has the same coins and tokens in sum, everybody else exactly the same *)
Theorem C82_round_trip : forall M E blocked modacc locked approval (s s1 : hst) a x, setting M E blocked locked approval -> good s -> supply s <= tokens s M ->
  a <> M -> a <> E -> blocked a = false -> modacc a = false -> locked a = 0 -> c_on _ s = true -> c_pair _ s = Some true -> c_send _ s = true -> 0 < x ->
  hstep M E blocked modacc locked approval s (OTransfer a x) = Ok s1 ->
  exists s2, hstep M E blocked modacc locked approval s1 (ORefund a x) = Ok s2
    /\ coins s2 a + tokens s2 a = coins s a + tokens s a /\ tokens s a <= tokens s2 a
    /\ (forall c, c <> a -> coins s2 c = coins s c /\ (c <> M -> tokens s2 c = tokens s c))
    /\ tokens s2 M - supply s2 = tokens s M - supply s.
Proof.
  intros M E blocked modacc locked approval s s1 a x St G Ba A AE Bl Mo Lo On Pa Se P H. destruct (C82_transfer M E blocked modacc locked approval s a x St G A AE Bl Lo On Pa Se P) as [_ F]. destruct (F s1 H) as (Fc & Ft & Fs & On1 & Pa1 & Se1). clear F.
  assert (Si : signed M E (OTransfer a x)) by (split; assumption). destruct St as (Ap & B & C & D). destruct (hstep_fine M E blocked modacc locked approval B C D s (OTransfer a x) s1 G Si H) as [[GB1 GW1] S1]. cbn [gift] in S1. unfold surplus in S1.
  set (missing := Z.max 0 (x - coins s a)) in *. assert (M0 : 0 <= missing) by (unfold missing; lia).
  pose proof (Fc E) as FE. rewrite Z.eqb_refl in FE. destruct (Z.eqb_spec a E); [congruence|]. pose proof (proj2 (proj1 G) E) as PE. fold (coins s E) in PE.
  pose proof (Fc a) as Fa. rewrite Z.eqb_refl in Fa. destruct (Z.eqb_spec E a); [congruence|]. pose proof (proj2 (proj1 G) a) as Pca. fold (coins s a) in Pca.
  cbn [hstep]. unfold refund, release. fold (coins s1 E). destruct (Z.ltb_spec (coins s1 E) x); [lia|]. cbn [rbind]. set (s1' := with_bank _ s1 _). assert (Pa1' : c_pair _ s1' = Some true) by exact Pa1. assert (On1' : c_on _ s1' = true) by exact On1. rewrite Pa1', On1', Mo. cbn [negb orb].
  assert (Fb : fine (c_bank _ s1')) by (apply fine_bmove; [exact GB1|lia|unfold coins in *; lia]).
  rewrite (hon_to_token M blocked modacc locked approval B C s1' a a x A A P Fb).
  assert (Ca : coins s1' a = coins s1 a + x). { unfold coins, s1', with_bank. cbn [c_bank]. rewrite bget_bmove, Z.eqb_refl. destruct (Z.eqb_spec E a); [congruence|lia]. }
  assert (Tm : tokens s1' M = tokens s1 M) by reflexivity.
  assert (Le : x <= supply s1).
  { pose proof (bget_le_total _ E GB1) as T. unfold supply. unfold coins in FE, PE. lia. }
  destruct (Z.leb_spec x (coins s1' a - locked a)) as [_|W]; [|rewrite Ca, Fa, Lo in W; unfold missing in W; lia]. destruct (Z.leb_spec x (tokens s1' M)) as [_|W]; [|rewrite Tm in W; lia]. cbn [andb]. eexists. split; [reflexivity|].
  assert (Kc : forall c, bget (un_b M (c_bank _ s1') a x) c = coins s1 c - (if E =? c then x else 0)).
  { intro c. rewrite (un_b_get M blocked modacc locked B). unfold s1', with_bank. cbn [c_bank]. rewrite bget_bmove. unfold coins. destruct (a =? c), (E =? c); lia. }
  assert (Kt : forall c, bget (bmove (c_w _ s1') M a x) c = tokens s1 c - (if M =? c then x else 0) + (if a =? c then x else 0)) by (intro c; rewrite bget_bmove; reflexivity).
  assert (Ks : total (un_b M (c_bank _ s1') a x) = supply s1 - x).
  { rewrite (un_b_total M blocked modacc locked B) by apply Fb. unfold s1', with_bank, supply. cbn [c_bank]. rewrite total_bmove by apply GB1. lia. }
  unfold coins at 1 3, tokens at 1 4 5 7, supply at 1. cbn [c_bank c_w]. split; [|split; [|split]].
  - rewrite Kc, Kt, (Ft a), Fa, Z.eqb_refl. destruct (Z.eqb_spec E a); [congruence|]. destruct (Z.eqb_spec M a); [congruence|]. unfold missing. lia.
  - rewrite Kt, (Ft a), Z.eqb_refl. destruct (Z.eqb_spec M a); [congruence|]. unfold missing. lia.
  - intros c Nc. rewrite Kc, Kt, (Ft c), (Fc c). destruct (Z.eqb_spec a c); [congruence|]. split; [destruct (E =? c); lia|]. intro Nm. destruct (Z.eqb_spec M c); [congruence|]. lia.
  - rewrite Kt, Ks, Z.eqb_refl. destruct (Z.eqb_spec a M); [congruence|]. lia.
Qed.
(* coins that return from another chain arrive as tokens, and the receiver's other coins
   are turned into tokens with them; a packet that names the same account on both sides is
   refused, and for a switched off pair or module the coins stay coins *)
Theorem C82_receive : forall M E blocked modacc locked approval (s : hst) a x same, setting M E blocked locked approval -> good s -> supply s <= tokens s M ->
  a <> M -> a <> E -> blocked a = false -> modacc a = false -> locked a = 0 -> 0 < x -> x <= coins s E ->
  match hstep M E blocked modacc locked approval s (ORecv a x same) with
  | Ok s' => (same = false \/ c_on _ s = false)
      /\ (if c_on _ s && (match c_pair _ s with Some b => b | None => false end)
          then (forall c, coins s' c = if a =? c then 0 else coins s c - (if E =? c then x else 0)) /\ (forall c, tokens s' c = tokens s c + (if a =? c then coins s a + x else 0) - (if M =? c then coins s a + x else 0))
          else (forall c, coins s' c = coins s c + (if a =? c then x else 0) - (if E =? c then x else 0)) /\ (forall c, tokens s' c = tokens s c))
  | _ => same = true /\ c_on _ s = true
  end.
Proof.
  intros M E blocked modacc locked approval s a x same (Ap & B & C & D) [GB GW] Ba A AE Bl Mo Lo P Q. cbn [hstep]. unfold recv, release. rewrite Bl. fold (coins s E). destruct (Z.ltb_spec (coins s E) x); [lia|]. cbn [rbind].
  set (s1 := with_bank _ s _). assert (On : c_on _ s1 = c_on _ s) by reflexivity. assert (Pa : c_pair _ s1 = c_pair _ s) by reflexivity. rewrite On, Mo, Pa.
  assert (K : forall c, coins s1 c = coins s c + (if a =? c then x else 0) - (if E =? c then x else 0)) by (intro c; unfold s1, with_bank, coins; cbn [c_bank]; rewrite bget_bmove; destruct (a =? c), (E =? c); lia).
  destruct (c_on _ s); cbn [negb andb].
  - destruct same; [auto|]. destruct (c_pair _ s) as [[|]|]; [|split; [auto|]; split; [exact K|reflexivity]|split; [auto|]; split; [exact K|reflexivity]].
    fold (coins s1 a). assert (Fb : fine (c_bank _ s1)) by (apply fine_bmove; [exact GB|lia|exact Q]). pose proof (K a) as Ka. rewrite Z.eqb_refl in Ka. destruct (Z.eqb_spec E a); [congruence|]. pose proof (proj2 GB a) as Pa0. fold (coins s a) in Pa0.
    assert (Pc : 0 < coins s1 a) by lia. rewrite (hon_to_token M blocked modacc locked approval B C s1 a a _ A A Pc Fb). rewrite Lo, Z.sub_0_r, Z.leb_refl. cbn [andb].
    assert (Le : coins s1 a <= tokens s1 M). { pose proof (bget_le_total _ a Fb) as T. unfold s1 in T at 2. unfold with_bank in T. cbn [c_bank] in T. rewrite total_bmove in T by apply GB. unfold supply in Ba. change (tokens s1 M) with (tokens s M). unfold coins in *. lia. }
    destruct (Z.leb_spec (coins s1 a) (tokens s1 M)); [|lia]. split; [auto|]. unfold coins at 1, tokens at 1. cbn [c_bank c_w]. split; intro c.
    + rewrite (un_b_get M blocked modacc locked B). fold (coins s1 c). rewrite K. destruct (Z.eqb_spec a c); [subst c; rewrite Ka; destruct (Z.eqb_spec E a); [congruence|]; lia|lia].
    + rewrite bget_bmove. change (bget (c_w _ s1) c) with (tokens s c). rewrite Ka. destruct (a =? c), (M =? c); lia.
  - split; [auto|]. split; [exact K|reflexivity].
Qed.

(* ---- a concrete history ---- *)
Definition ops : list cop := [OConvert 5 5 30; OPay 5 6 10; OTransfer 6 25; OTransfer 5 50; ORefund 6 25; OGive 6 0 3; OToggle false; ORecv 5 20 false; OToggle true; ORecv 6 5 false; OConvert 5 0 4; OTransfer 5 500].
Example C82_example : let s := hrun 0 1 blk mods nolock 2 h0 ops in
  good h0 /\ Forall (signed 0 1) ops /\ supply h0 <= tokens h0 0 /\ gifts 0 1 blk mods nolock 2 h0 ops = 3
  /\ coins s 5 = 20 /\ tokens s 5 = 40 /\ coins s 6 = 0 /\ tokens s 6 = 52 /\ coins s 1 = 25 /\ supply s = 45 /\ tokens s 0 = 48.
Proof.
  cbv zeta. split; [|split; [|split; [vm_compute; discriminate|vm_compute; repeat split]]].
  - split; split.
    + apply zsorted_nil.
    + intro a. cbn. lia.
    + apply zsorted_cons. split; [apply zsorted_cons; split; [apply zsorted_nil|constructor]|repeat constructor; lia].
    + intro a. unfold bget. cbn [h0 c_w zget]. destruct (5 =? a); [lia|]. destruct (6 =? a); lia.
  - unfold ops. repeat (apply Forall_cons; [cbn [signed]; lia|]). apply Forall_nil.
Qed.
Example C82_premises : good h0 /\ supply h0 <= tokens h0 0 /\ blk 6 = false /\ mods 6 = false /\ c_on _ h0 = true /\ c_pair _ h0 = Some true /\ c_send _ h0 = true
  /\ is_ok (hstep 0 1 blk mods nolock 2 h0 (OTransfer 6 25)) = true.
Proof. split; [apply C82_example|]. split; [vm_compute; discriminate|]. vm_compute. repeat split. Qed.

(* ---- where the claim fails ---- *)
(* a packet with 5 coins turns all 25 coins of the receiver into tokens *)
Definition h1 : hst := mk_cst _ [(0, 30); (5, 70); (6, 40)] [(1, 5); (5, 20); (6, 5)] true true (Some true).
Theorem C82_received_amount_refuted :
  ~ (forall (s s' : hst) a x, c_on _ s = true -> c_pair _ s = Some true -> hstep 0 1 blk mods nolock 2 s (ORecv a x false) = Ok s' -> coins s' a = coins s a /\ tokens s' a = tokens s a + x).
Proof. intro H. specialize (H h1 _ 5 5 eq_refl eq_refl eq_refl). vm_compute in H. destruct H as [H _]. discriminate. Qed.
(* a failed transfer of coins comes back as tokens *)
Theorem C82_same_form_refuted :
  ~ (forall (s s1 s2 : hst) a x, hstep 0 1 blk mods nolock 2 s (OTransfer a x) = Ok s1 -> hstep 0 1 blk mods nolock 2 s1 (ORefund a x) = Ok s2 -> coins s2 a = coins s a).
Proof.
  intro H. destruct (hstep 0 1 blk mods nolock 2 h1 (OTransfer 5 10)) as [s1| |] eqn:E1; [|vm_compute in E1; discriminate|vm_compute in E1; discriminate].
  destruct (hstep 0 1 blk mods nolock 2 s1 (ORefund 5 10)) as [s2| |] eqn:E2; [|vm_compute in E1; injection E1 as <-; vm_compute in E2; discriminate|vm_compute in E1; injection E1 as <-; vm_compute in E2; discriminate].
  specialize (H h1 s1 s2 5 10 E1 E2). vm_compute in E1. injection E1 as <-. vm_compute in E2. injection E2 as <-. vm_compute in H. discriminate.
Qed.
(* the refund needs the contract: when the contract refuses (it was paused, or has no code
   any more) the refund of coins that only the transfer module holds fails too, and the
   coins stay in escrow *)
Definition paused (w b : list (Z * Z)) (f t x : Z) : option (call_res (list (Z * Z))) := if f =? 0 then None else hon_xfer w b f t x.
Theorem C82_refund_always_refuted :
  ~ (forall xfer (s s1 : hst) a x, transfer _ 0 1 blk nolock hon_bal xfer (fun _ => true) 2 s a x = Ok s1 -> is_ok (refund _ 0 1 mods nolock hon_bal xfer 2 s1 a x) = true).
Proof.
  intro H. destruct (transfer _ 0 1 blk nolock hon_bal paused (fun _ => true) 2 h1 5 10) as [s1| |] eqn:E1; [|vm_compute in E1; discriminate|vm_compute in E1; discriminate].
  specialize (H paused h1 s1 5 10 E1). vm_compute in E1. injection E1 as <-. vm_compute in H. discriminate.
Qed.
(* a refund converts although the pair is switched off *)
Theorem C82_switched_off_refuted :
  ~ (forall (s s' : hst) o, c_pair _ s = Some false -> (forall b, o <> OToggle b) -> hstep 0 1 blk mods nolock 2 s o = Ok s' -> supply s' = supply s).
Proof.
  intro H. specialize (H (mk_cst _ [(0, 30)] [(1, 30)] true true (Some false)) _ (ORefund 5 10) eq_refl ltac:(intros b X; discriminate) eq_refl). vm_compute in H. discriminate.
Qed.
(* with coins held back by vesting a transfer fails although unlocked coins and tokens
   suffice *)
Theorem C82_vesting_refuted :
  ~ (forall locked (s : hst) a x, (forall c, 0 <= locked c <= coins s c) -> c_on _ s = true -> c_pair _ s = Some true -> c_send _ s = true -> blk a = false -> 0 < x -> x <= coins s a - locked a + tokens s a ->
     is_ok (hstep 0 1 blk mods locked 2 s (OTransfer a x)) = true).
Proof.
  intro H. specialize (H (fun c => if c =? 5 then 15 else 0) h1 5 10).
  assert (K : forall c, 0 <= (if c =? 5 then 15 else 0) <= coins h1 c).
  { intro c. unfold coins, h1, bget. cbn [c_bank zget]. destruct (Z.eqb_spec c 5) as [E|E]; [subst c; vm_compute; split; discriminate|]. destruct (1 =? c); [lia|]. destruct (5 =? c); [lia|]. destruct (6 =? c); lia. }
  specialize (H K eq_refl eq_refl eq_refl eq_refl ltac:(lia)). assert (L : 10 <= coins h1 5 - (if 5 =? 5 then 15 else 0) + tokens h1 5) by (vm_compute; discriminate). specialize (H L). vm_compute in H. discriminate.
Qed.

Print Assumptions C82_backed.
Print Assumptions C82_redeemable.
Print Assumptions C82_transfer.
Print Assumptions C82_round_trip.
Print Assumptions C82_receive.
Print Assumptions C82_received_amount_refuted.
Print Assumptions C82_same_form_refuted.
Print Assumptions C82_refund_always_refuted.
Print Assumptions C82_switched_off_refuted.
Print Assumptions C82_vesting_refuted.
