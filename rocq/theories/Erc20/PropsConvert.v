(* C81: a conversion between the tokens of a registered foreign contract and their coin
   happens exactly for the amount, whatever the contract does.
   C82: the coin of an ordinary token is always fully backed by tokens that the module
   holds, through every history of conversions, transfers to and from other chains,
   refunds and switches; transfers use coins first and refunds give everything back. *)
From Verif Require Import Lib.Base Lib.Zmap Erc20.Convert Erc20.ConvertSpec Erc20.ConvertProofs.
Open Scope Z_scope.

(* tokens into coins, for any contract, also one that calls back: either the contract has
   no code any more and only the pair is removed, or the module's tokens as told by the
   contract and the receiver's coins both rise by exactly the amount, x new coins exist,
   nobody's coins change beyond what the contract's own call did, and the contract
   approved nothing *)
Theorem C81_tokens_into_coins : forall W M blocked bal_of xfer alive approval (s : cst W) f r x s',
  zsorted (c_bank W s) -> (forall w b f t x c, xfer w b f t x = Some c -> zsorted (cr_bank W c)) ->
  convert_erc20 W M blocked bal_of xfer alive approval s f r x = Ok s' ->
  0 < x /\ c_on W s = true /\ c_pair W s = Some true /\ blocked r = false /\ (f = r \/ c_send W s = true)
  /\ ((alive (c_w W s) = false /\ s' = mk_cst W (c_w W s) (c_bank W s) (c_send W s) (c_on W s) None)
      \/ (exists c t0, xfer (c_w W s) (c_bank W s) f M x = Some c /\ cr_ret W c = Some true /\ c_w W s' = cr_w W c
            /\ bal_of (c_w W s) M = Some t0 /\ bal_of (c_w W s') M = Some (t0 + x)
            /\ bget (c_bank W s') r = bget (c_bank W s) r + x
            /\ (forall a, a <> r -> bget (c_bank W s') a = bget (cr_bank W c) a)
            /\ total (c_bank W s') = total (cr_bank W c) + x
            /\ (forall l, In l (cr_logs W c) -> exists h q, l = h :: q /\ h <> approval)
            /\ c_send W s' = c_send W s /\ c_on W s' = c_on W s /\ c_pair W s' = c_pair W s)).
Proof.
  intros W M blocked bal_of xfer alive approval s f r x s' S Sx H. destruct (convert_ok W M blocked bal_of xfer alive approval s f r x s' H) as (A & B & C & D & F & G).
  split; [exact A|]. split; [exact B|]. split; [exact C|]. split; [exact D|]. split; [exact F|]. destruct G as [G|[_ G]]; [left; exact G|right].
  destruct (to_coin_ok W M blocked bal_of xfer approval s f r x s' G) as (t0 & c & T0 & X & R & T1 & _ & Es & Bk & Mo). exists c, t0. subst s'. cbn [c_w c_bank c_send c_on c_pair] in *.
  pose proof (Sx _ _ _ _ _ _ X) as Sc. repeat (split; [solve [auto]|]). split; [|split; [|split; [|auto]]].
  - intros a N. rewrite bget_bmove, bget_badd. destruct (Z.eqb_spec r a); [congruence|]. destruct (M =? a); lia.
  - rewrite total_bmove by (apply badd_sorted; exact Sc). apply total_badd. exact Sc.
  - apply monitor_ok. exact Mo.
Qed.
(* coins into tokens, for any contract: the amount leaves the holder before the contract is
   called and is destroyed after it; the receiver's tokens as told by the contract rise by
   exactly the amount *)
Theorem C81_coins_into_tokens : forall W M locked bal_of xfer approval (s : cst W) f r x s', 0 < x ->
  zsorted (c_bank W s) -> (forall w b f t x c, xfer w b f t x = Some c -> zsorted (cr_bank W c)) ->
  to_token W M locked bal_of xfer approval s f r x = Ok s' ->
  x <= bget (c_bank W s) f - locked f
  /\ exists c t0 b1, (forall a, bget b1 a = bget (c_bank W s) a - (if f =? a then x else 0) + (if M =? a then x else 0)) /\ total b1 = total (c_bank W s)
       /\ xfer (c_w W s) b1 M r x = Some c /\ cr_ret W c = Some true /\ c_w W s' = cr_w W c
       /\ bal_of (c_w W s) r = Some t0 /\ bal_of (c_w W s') r = Some (t0 + x)
       /\ (forall a, bget (c_bank W s') a = bget (cr_bank W c) a - (if M =? a then x else 0))
       /\ total (c_bank W s') = total (cr_bank W c) - x /\ 0 <= bget (c_bank W s') M
       /\ (forall l, In l (cr_logs W c) -> exists h q, l = h :: q /\ h <> approval)
       /\ c_send W s' = c_send W s /\ c_on W s' = c_on W s /\ c_pair W s' = c_pair W s.
Proof.
  intros W M locked bal_of xfer approval s f r x s' P S Sx H. destruct (to_token_ok W M (fun _ => false) (fun _ => false) locked bal_of xfer approval s f r x s' P H) as (t0 & c & T0 & Q & X & R & T1 & Bm & Es & Mo).
  split; [exact Q|]. exists c, t0, (bmove (c_bank W s) f M x). subst s'. cbn [c_w c_bank c_send c_on c_pair] in *. pose proof (Sx _ _ _ _ _ _ X) as Sc.
  split; [intro a; apply bget_bmove|]. split; [apply total_bmove; exact S|]. repeat (split; [solve [auto]|]). split; [|split; [|split; [|split; [|auto]]]].
  - intro a. rewrite bget_badd. destruct (M =? a); lia.
  - rewrite total_badd by exact Sc. lia.
  - rewrite bget_badd, Z.eqb_refl. lia.
  - apply monitor_ok. exact Mo.
Qed.
(* when it succeeds, for an ordinary token *)
Theorem C81_when : forall M E blocked locked approval (s : hst) f r x, setting M E blocked locked approval -> f <> M ->
  (is_ok (convert_erc20 _ M blocked hon_bal hon_xfer (fun _ => true) approval s f r x) = true <->
   0 < x /\ c_on _ s = true /\ c_pair _ s = Some true /\ blocked r = false /\ (f = r \/ c_send _ s = true) /\ x <= tokens s f)
  /\ (forall s', convert_erc20 _ M blocked hon_bal hon_xfer (fun _ => true) approval s f r x = Ok s' ->
      (forall a, coins s' a = coins s a + (if r =? a then x else 0)) /\ (forall a, tokens s' a = tokens s a - (if f =? a then x else 0) + (if M =? a then x else 0))).
Proof.
  intros M E blocked locked approval s f r x (A & B & C & D) F. rewrite (hon_convert M blocked blocked locked approval B C s f r x F). split.
  - split.
    + destruct (Z.ltb_spec 0 x); [|discriminate]. destruct (c_on _ s); [|discriminate]. destruct (c_pair _ s) as [[|]|]; try discriminate. destruct (blocked r); [discriminate|]. cbn [negb andb].
      destruct (Z.eqb_spec f r) as [X|X]; cbn [orb]; [|destruct (c_send _ s); [|discriminate]]; (destruct (Z.leb_spec x (tokens s f)); [|discriminate]); auto 10.
    + intros (P & On & Pa & Bl & Se & T). rewrite (proj2 (Z.ltb_lt 0 x) P), On, Pa, Bl, (proj2 (Z.leb_le x (tokens s f)) T). cbn [negb andb]. destruct Se as [->| ->]; [rewrite Z.eqb_refl|rewrite orb_true_r]; reflexivity.
  - intros s' H. destruct (_ && _) eqn:G in H; [|discriminate]. injection H as <-. assert (R : r <> M).
    { intro; subst r. rewrite B in G. cbn [negb] in G. rewrite !andb_false_r in G. cbn [andb] in G. discriminate. }
    unfold coins, tokens. cbn [c_bank c_w]. split; intro a; [apply (mk_b_get M blocked blocked locked B); exact R|apply bget_bmove].
Qed.

(* ---- examples ---- *)
Definition blk : Z -> bool := fun a => a =? 0.
Definition nolock : Z -> Z := fun _ => 0.
Definition mods : Z -> bool := fun a => (a =? 0) || (a =? 1).
(* module 0, escrow 1; accounts 5 and 6 *)
Definition h0 : hst := mk_cst _ [(5, 100); (6, 40)] [] true true (Some true).
Example C81_example : setting 0 1 blk nolock 2 /\
  (exists s', convert_erc20 _ 0 blk hon_bal hon_xfer (fun _ => true) 2 h0 5 6 30 = Ok s' /\ coins s' 6 = 30 /\ tokens s' 5 = 70 /\ tokens s' 0 = 30
     /\ exists s2, to_token _ 0 nolock hon_bal hon_xfer 2 s' 6 5 10 = Ok s2 /\ coins s2 6 = 20 /\ tokens s2 5 = 80 /\ supply s2 = 20).
Proof.
  split; [split; [discriminate|]; split; [reflexivity|]; split; [discriminate|]; intro; discriminate|].
  destruct (convert_erc20 _ 0 blk hon_bal hon_xfer (fun _ => true) 2 h0 5 6 30) as [s'| |] eqn:E; [|vm_compute in E; discriminate|vm_compute in E; discriminate]. exists s'. vm_compute in E. injection E as <-.
  split; [reflexivity|]. split; [reflexivity|]. split; [reflexivity|]. split; [reflexivity|]. eexists. split; [vm_compute; reflexivity|]. auto.
Qed.

(* ---- where the claim fails ---- *)
(* a contract that writes a log without topics (LOG0) makes the conversion panic instead
   of failing with an error *)
Definition log0_xfer (w b : list (Z * Z)) (f t x : Z) : option (call_res (list (Z * Z))) :=
  match hon_xfer w b f t x with Some c => Some (mk_call _ (cr_w _ c) (cr_bank _ c) (cr_ret _ c) [[]]) | None => None end.
Theorem C81_never_panics_refuted :
  ~ (forall xfer (s : hst) f r x, convert_erc20 _ 0 blk hon_bal xfer (fun _ => true) 2 s f r x <> Panic).
Proof. intro H. apply (H log0_xfer h0 5 6 30). vm_compute. reflexivity. Qed.
(* apart from that there is no panic *)
Theorem C81_no_other_panic : forall W M blocked bal_of xfer alive approval locked (s : cst W) f r x,
  (forall w b f t x c, xfer w b f t x = Some c -> ~ In [] (cr_logs W c)) ->
  convert_erc20 W M blocked bal_of xfer alive approval s f r x <> Panic /\ to_token W M locked bal_of xfer approval s f r x <> Panic.
Proof.
  intros W M blocked bal_of xfer alive approval locked s f r x H.
  assert (K : forall l, ~ In [] l -> monitor approval l <> Panic).
  { induction l as [|[|h t] l IH]; intro N; [discriminate|destruct N; left; reflexivity|]. cbn [monitor]. destruct (h =? approval); [discriminate|]. apply IH. intro X. apply N. right. exact X. }
  split.
  - unfold convert_erc20, minting. destruct (x <=? 0); [discriminate|]. destruct (negb (c_on W s)); [discriminate|]. destruct (c_pair W s) as [[|]|]; try discriminate. destruct (blocked r) eqn:Bl; [discriminate|]. destruct (negb (f =? r) && negb (c_send W s)); [discriminate|]. cbn [rbind].
    destruct (alive (c_w W s)); [|discriminate]. unfold to_coin. destruct (bal_of (c_w W s) M); [|discriminate]. destruct (xfer _ _ f M x) as [c|] eqn:X; [|discriminate]. destruct (cr_ret W c) as [[|]|]; try discriminate. destruct (bal_of (cr_w W c) M); [|discriminate].
    destruct (negb _); [discriminate|]. rewrite Bl. destruct (negb _); [discriminate|]. pose proof (K _ (H _ _ _ _ _ _ X)). destruct (monitor approval (cr_logs W c)); [discriminate|discriminate|congruence].
  - unfold to_token, bsend. destruct (x <=? 0); [discriminate|]. destruct (bal_of (c_w W s) r); [|discriminate]. destruct (_ <? x); [discriminate|]. cbn [rbind]. destruct (xfer _ _ M r x) as [c|] eqn:X; [|discriminate]. destruct (cr_ret W c) as [[|]|]; try discriminate.
    destruct (bal_of (cr_w W c) r); [|discriminate]. destruct (negb _); [discriminate|]. destruct (_ <? x); [discriminate|]. pose proof (K _ (H _ _ _ _ _ _ X)). destruct (monitor approval (cr_logs W c)); [discriminate|discriminate|congruence].
Qed.
(* a conversion that answers with success but converts nothing: the contract has no code
   any more; the coins that exist stay and cannot be converted back *)
Theorem C81_success_converts_refuted :
  ~ (forall alive (s s' : hst) f r x, convert_erc20 _ 0 blk hon_bal hon_xfer alive 2 s f r x = Ok s' -> bget (c_bank _ s') r = bget (c_bank _ s) r + x).
Proof. intro H. specialize (H (fun _ => false) h0 _ 5 6 30 eq_refl). vm_compute in H. discriminate. Qed.

Print Assumptions C81_tokens_into_coins.
Print Assumptions C81_coins_into_tokens.
Print Assumptions C81_when.
Print Assumptions C81_never_panics_refuted.
Print Assumptions C81_no_other_panic.
Print Assumptions C81_success_converts_refuted.
