From Verif Require Import Lib.Base Lib.Bytes Lib.Dec Hyperion.Claims Hyperion.ClaimSpec.
From Coq Require Import NArith ZArith String Ascii.
Open Scope Z_scope.

Lemma u64_pos x : u64 x -> 0 <= x. Proof. intros [H _]. exact H. Qed.
Lemma u64_len x : u64 x -> (List.length (udec x) <= 20)%nat.
Proof. intros [H L]. apply (udec_len x 19). split; [exact H|]. eapply Z.lt_le_trans; [exact L|]. vm_compute. discriminate. Qed.

(* the separator and quote are not hex digits *)
Lemma hex_lacks c s : is_hex c = false -> c <> 120%N -> c <> 88%N -> c <> 48%N -> eth_ok s = true -> lacks c s.
Proof.
  intros H N1 N2 N3 E I. unfold eth_ok in E. apply andb_prop in E. destruct E as [_ E]. rewrite forallb_forall in E.
  unfold strip0x in E. destruct s as [|a [|b r]].
  - exact I.
  - specialize (E c I). congruence.
  - destruct ((a =? 48)%N && ((b =? 120)%N || (b =? 88)%N)) eqn:P.
    + apply andb_prop in P. destruct P as [P Q]. apply N.eqb_eq in P. destruct I as [I|[I|I]].
      * congruence.
      * apply orb_prop in Q. destruct Q as [Q|Q]; apply N.eqb_eq in Q; congruence.
      * specialize (E c I). congruence.
    + specialize (E c I). congruence.
Qed.
Lemma eth_slash s : eth_ok s = true -> lacks slash s.
Proof. apply hex_lacks; [reflexivity|discriminate..]. Qed.
Lemma eth_quote s : eth_ok s = true -> lacks quote s.
Proof. apply hex_lacks; [reflexivity|discriminate..]. Qed.
Lemma eth_long s : eth_ok s = true -> (40 <= List.length s)%nat.
Proof.
  unfold eth_ok. intro E. apply andb_prop in E. destruct E as [E _]. apply Nat.eqb_eq in E. unfold strip0x in E.
  destruct s as [|a [|b r]]; cbn [List.length] in *; try lia.
  destruct ((a =? 48)%N && ((b =? 120)%N || (b =? 88)%N)); cbn [List.length] in *; lia.
Qed.
Lemma eth_nonempty s : eth_ok s = true -> s <> [].
Proof. intros E ->. apply eth_long in E. cbn in E. lia. Qed.
Lemma num_slash x : u64 x -> lacks slash (udec x).
Proof. intro H. apply udec_lacks; [apply u64_pos, H|reflexivity]. Qed.
Lemma dec_slash x : lacks slash (dec x).
Proof. apply dec_lacks; [reflexivity|discriminate]. Qed.
Lemma num_not_eth x s : u64 x -> eth_ok s = true -> udec x = s -> False.
Proof. intros U E <-. apply eth_long in E. pose proof (u64_len x U). lia. Qed.

(* ---- the printed members ---- *)

Lemma app_same (p a b : bytes) : p ++ a = p ++ b -> a = b.
Proof. apply app_inv_head. Qed.
Lemma heads (x y : N) a b : x :: a = y :: b -> x = y. Proof. congruence. Qed.

Lemma addr_text_inj a b r s : eth_ok a = true -> eth_ok b = true ->
  (str "ethereum_address:" ++ quote :: a ++ [quote; space]) ++ r = (str "ethereum_address:" ++ quote :: b ++ [quote; space]) ++ s -> a = b /\ r = s.
Proof.
  intros Ea Eb E. rewrite <- !app_assoc in E. apply app_same in E. cbn [app] in E. rewrite <- !app_assoc in E. cbn [app] in E.
  assert (a ++ quote :: space :: r = b ++ quote :: space :: s) as F by congruence.
  apply split_sep in F; [|apply eth_quote; assumption|apply eth_quote; assumption].
  destruct F as [-> F]. split; congruence.
Qed.

Lemma member_text_inj m n r s : eth_ok (m_addr m) = true -> eth_ok (m_addr n) = true -> u64 (m_power m) -> u64 (m_power n) ->
  member_text m ++ r = member_text n ++ s -> m = n /\ r = s.
Proof.
  intros Em En Um Un E. destruct m as [p a], n as [q b]. cbn [m_addr m_power] in *.
  unfold member_text in E. cbn [m_addr m_power] in E.
  assert (A : forall x, eth_ok x = true -> (match x with [] => [] | _ => str "ethereum_address:" ++ quote :: x ++ [quote; space] end) =
    str "ethereum_address:" ++ quote :: x ++ [quote; space]).
  { intros x X. destruct x; [|reflexivity]. exfalso. exact (eth_nonempty _ X eq_refl). }
  rewrite (A a Em), (A b En) in E. clear A.
  destruct (Z.eqb_spec p 0) as [P|P], (Z.eqb_spec q 0) as [Q|Q].
  - cbn [app] in E. apply addr_text_inj in E; [|assumption|assumption]. destruct E as [-> ->]. subst. auto.
  - exfalso. cbn [str app] in E. apply heads in E. discriminate E.
  - exfalso. cbn [str app] in E. apply heads in E. discriminate E.
  - rewrite <- !app_assoc in E. apply app_same in E. cbn [app] in E.
    apply split_sep in E; [|apply udec_lacks; [apply u64_pos; assumption|reflexivity]|apply udec_lacks; [apply u64_pos; assumption|reflexivity]].
    destruct E as [D E]. apply udec_inj in D; [|apply u64_pos; assumption|apply u64_pos; assumption].
    rewrite (app_assoc _ r), (app_assoc _ s) in E || idtac.
    assert ((str "ethereum_address:" ++ quote :: a ++ [quote; space]) ++ r = (str "ethereum_address:" ++ quote :: b ++ [quote; space]) ++ s) as F.
    { rewrite <- !app_assoc in *. cbn [app] in *. rewrite <- !app_assoc in *. cbn [app] in *. exact E. }
    apply addr_text_inj in F; [|assumption|assumption]. destruct F as [-> ->]. subst. auto.
Qed.

Lemma member_text_head m : eth_ok (m_addr m) = true -> exists x t, member_text m = x :: t /\ (x = 112%N \/ x = 101%N).
Proof.
  intro E. unfold member_text. destruct (m_power m =? 0).
  - cbn [app]. destruct (m_addr m) as [|y l]; [exfalso; exact (eth_nonempty _ E eq_refl)|]. cbn [str app]. eexists. eexists. split; [reflexivity|right; reflexivity].
  - cbn [str app]. eexists. eexists. split; [reflexivity|left; reflexivity].
Qed.

Definition members_ok (l : list member) : Prop := Forall (fun m => eth_ok (m_addr m) = true /\ u64 (m_power m)) l.

Lemma joined_inj l : forall k r s, members_ok l -> members_ok k ->
  joined l ++ 93%N :: r = joined k ++ 93%N :: s -> l = k /\ r = s.
Proof.
  induction l as [|m l IH]; intros [|n k] r s Hl Hk E.
  - cbn in E. split; congruence.
  - exfalso. apply Forall_inv in Hk. destruct Hk as [Hk _]. destruct (member_text_head n Hk) as (x & t & T & C).
    cbn [joined] in E. destruct k; rewrite T in E; cbn [app] in E; apply heads in E; destruct C; subst; discriminate.
  - exfalso. apply Forall_inv in Hl. destruct Hl as [Hl _]. destruct (member_text_head m Hl) as (x & t & T & C).
    cbn [joined] in E. destruct l; rewrite T in E; cbn [app] in E; apply heads in E; destruct C; subst; discriminate.
  - pose proof (Forall_inv Hl) as [El Ul]. pose proof (Forall_inv Hk) as [Ek Uk]. apply Forall_inv_tail in Hl. apply Forall_inv_tail in Hk.
    assert (J : forall a l0, joined (a :: l0) ++ 93%N :: r = member_text a ++ (match l0 with [] => 93%N :: r | _ => space :: joined l0 ++ 93%N :: r end)).
    { intros a l0. cbn [joined]. destruct l0; [reflexivity|]. rewrite <- app_assoc. reflexivity. }
    assert (J' : forall a l0, joined (a :: l0) ++ 93%N :: s = member_text a ++ (match l0 with [] => 93%N :: s | _ => space :: joined l0 ++ 93%N :: s end)).
    { intros a l0. cbn [joined]. destruct l0; [reflexivity|]. rewrite <- app_assoc. reflexivity. }
    rewrite J, J' in E. apply member_text_inj in E; [|assumption..]. destruct E as [-> E].
    destruct l as [|m2 l], k as [|n2 k].
    + split; congruence.
    + apply heads in E. discriminate E.
    + apply heads in E. discriminate E.
    + assert (joined (m2 :: l) ++ 93%N :: r = joined (n2 :: k) ++ 93%N :: s) as F by congruence.
      apply IH in F; [|assumption|assumption]. destruct F as [-> ->]. auto.
Qed.

Lemma members_text_inj l k : members_ok l -> members_ok k -> members_text l ++ [slash] = members_text k ++ [slash] -> l = k.
Proof.
  intros Hl Hk E. unfold members_text in E. rewrite <- !app_assoc in E. apply app_same in E. cbn [str app] in E.
  apply joined_inj in E; [|assumption|assumption]. tauto.
Qed.

(* ---- the paths ---- *)

Lemma split_slash a b r s : lacks slash a -> lacks slash b -> a ++ slash :: r = b ++ slash :: s -> a = b /\ r = s.
Proof. apply split_sep. Qed.

Section Paths.
Variable bech32_ok : bytes -> bool.
Hypothesis bech32_plain : forall s, bech32_ok s = true -> lacks slash s.

Ltac valid V := unfold claim_valid in V;
  repeat match type of V with _ && _ = true => let X := fresh "V" in apply andb_prop in V; destruct V as [V X] end.
Ltac cut E A := apply split_slash in E; [destruct E as [A E]|..].

Lemma deposit_path_inj a b : claim_u64 (CDeposit a) -> claim_u64 (CDeposit b) ->
  claim_valid bech32_ok (CDeposit a) = true -> claim_valid bech32_ok (CDeposit b) = true ->
  deposit_path a = deposit_path b ->
  d_nonce a = d_nonce b /\ d_height a = d_height b /\ d_token a = d_token b /\ d_amount a = d_amount b /\
  d_sender a = d_sender b /\ d_receiver a = d_receiver b /\ d_data a = d_data b.
Proof.
  intros (A1 & A2 & A3) (B1 & B2 & B3) Va Vb E. unfold claim_valid in Va, Vb. rewrite !andb_true_iff in Va, Vb.
  destruct Va as ((((Va1 & Va2) & Va3) & Va4) & Va5), Vb as ((((Vb1 & Vb2) & Vb3) & Vb4) & Vb5). unfold deposit_path in E.
  cut E X1; [|apply num_slash; assumption|apply num_slash; assumption].
  cut E X2; [|apply num_slash; assumption|apply num_slash; assumption].
  cut E X3; [|apply eth_slash; assumption|apply eth_slash; assumption].
  cut E X4; [|apply dec_slash|apply dec_slash].
  cut E X5; [|apply eth_slash; assumption|apply eth_slash; assumption].
  cut E X6; [|apply bech32_plain; assumption|apply bech32_plain; assumption].
  apply udec_inj in X1; [|apply u64_pos; assumption|apply u64_pos; assumption].
  apply udec_inj in X2; [|apply u64_pos; assumption|apply u64_pos; assumption].
  apply dec_inj in X4. tauto.
Qed.

Lemma withdraw_path_inj a b : claim_u64 (CWithdraw a) -> claim_u64 (CWithdraw b) ->
  claim_valid bech32_ok (CWithdraw a) = true -> claim_valid bech32_ok (CWithdraw b) = true ->
  withdraw_path a = withdraw_path b -> w_nonce a = w_nonce b /\ w_batch a = w_batch b /\ w_token a = w_token b.
Proof.
  intros (A1 & A2 & A3 & A4) (B1 & B2 & B3 & B4) Va Vb E. unfold claim_valid in Va, Vb. rewrite !andb_true_iff in Va, Vb.
  destruct Va as (((Va1 & Va2) & Va3) & Va4), Vb as (((Vb1 & Vb2) & Vb3) & Vb4). unfold withdraw_path in E.
  cut E X1; [|apply eth_slash; assumption|apply eth_slash; assumption].
  cut E X2; [|apply num_slash; assumption|apply num_slash; assumption].
  cut E X3; [|apply num_slash; assumption|apply num_slash; assumption].
  apply udec_inj in X2; [|apply u64_pos; assumption|apply u64_pos; assumption].
  apply udec_inj in X3; [|apply u64_pos; assumption|apply u64_pos; assumption]. tauto.
Qed.

Lemma deployed_path_inj a b : claim_u64 (CDeployed a) -> claim_u64 (CDeployed b) ->
  claim_valid bech32_ok (CDeployed a) = true -> claim_valid bech32_ok (CDeployed b) = true ->
  plain (CDeployed a) -> plain (CDeployed b) ->
  deployed_path a = deployed_path b ->
  e_nonce a = e_nonce b /\ e_height a = e_height b /\ e_denom a = e_denom b /\ e_token a = e_token b /\
  e_name a = e_name b /\ e_symbol a = e_symbol b /\ e_decimals a = e_decimals b.
Proof.
  intros (A1 & A2 & A3 & A4) (B1 & B2 & B3 & B4) Va Vb (P1 & P2 & P3) (Q1 & Q2 & Q3) E. unfold claim_valid in Va, Vb. rewrite !andb_true_iff in Va, Vb.
  destruct Va as ((Va1 & Va2) & Va3), Vb as ((Vb1 & Vb2) & Vb3). unfold deployed_path in E.
  cut E X1; [|apply num_slash; assumption|apply num_slash; assumption].
  cut E X2; [|apply num_slash; assumption|apply num_slash; assumption].
  cut E X3; [|assumption|assumption].
  cut E X4; [|apply eth_slash; assumption|apply eth_slash; assumption].
  cut E X5; [|assumption|assumption]. cut E X6; [|assumption|assumption].
  apply udec_inj in X1; [|apply u64_pos; assumption|apply u64_pos; assumption].
  apply udec_inj in X2; [|apply u64_pos; assumption|apply u64_pos; assumption].
  apply udec_inj in E; [|apply u64_pos; assumption|apply u64_pos; assumption]. tauto.
Qed.

Lemma valset_path_inj a b : claim_u64 (CValset a) -> claim_u64 (CValset b) ->
  claim_valid bech32_ok (CValset a) = true -> claim_valid bech32_ok (CValset b) = true ->
  valset_path a = valset_path b -> v_nonce a = v_nonce b /\ v_height a = v_height b /\ v_valset a = v_valset b /\ v_members a = v_members b.
Proof.
  intros (A1 & A2 & A3 & A4 & A5) (B1 & B2 & B3 & B4 & B5) Va Vb E. unfold claim_valid in Va, Vb. rewrite !andb_true_iff in Va, Vb.
  destruct Va as (((Va1 & Va2) & Va3) & Va4), Vb as (((Vb1 & Vb2) & Vb3) & Vb4). unfold valset_path in E.
  cut E X1; [|apply num_slash; assumption|apply num_slash; assumption].
  cut E X2; [|apply num_slash; assumption|apply num_slash; assumption].
  cut E X3; [|apply num_slash; assumption|apply num_slash; assumption].
  apply udec_inj in X1; [|apply u64_pos; assumption|apply u64_pos; assumption].
  apply udec_inj in X2; [|apply u64_pos; assumption|apply u64_pos; assumption].
  apply udec_inj in X3; [|apply u64_pos; assumption|apply u64_pos; assumption].
  apply members_text_inj in E; [tauto|..].
  - unfold members_ok. rewrite forallb_forall in Va4. rewrite Forall_forall in *. auto.
  - unfold members_ok. rewrite forallb_forall in Vb4. rewrite Forall_forall in *. auto.
Qed.

(* different kinds *)
Lemma withdraw_first c s p : claim_u64 (CWithdraw c) -> claim_valid bech32_ok (CWithdraw c) = true -> u64 p -> withdraw_path c = udec p ++ slash :: s -> False.
Proof.
  intros _ V P E. unfold claim_valid in V. rewrite !andb_true_iff in V. destruct V as (((V1 & V2) & V3) & V4). unfold withdraw_path in E.
  cut E X; [|apply eth_slash; assumption|apply num_slash; assumption]. exact (num_not_eth p _ P V3 (eq_sym X)).
Qed.
Lemma deposit_not_valset c d : claim_u64 (CDeposit c) -> claim_u64 (CValset d) -> claim_valid bech32_ok (CDeposit c) = true -> deposit_path c = valset_path d -> False.
Proof.
  intros (A1 & A2 & A3) (B1 & B2 & B3 & B4 & B5) V E. unfold claim_valid in V. rewrite !andb_true_iff in V. destruct V as ((((V1 & V2) & V3) & V4) & V5).
  unfold deposit_path, valset_path in E.
  cut E X1; [|apply num_slash; assumption|apply num_slash; assumption].
  cut E X2; [|apply num_slash; assumption|apply num_slash; assumption].
  cut E X3; [|apply eth_slash; assumption|apply num_slash; assumption]. exact (num_not_eth _ _ B3 V3 (eq_sym X3)).
Qed.
Lemma snoc_last (a b : bytes) x y : a ++ [x] = b ++ [y] -> x = y.
Proof. intro E. apply app_inj_tail in E. tauto. Qed.
Lemma deployed_last c : claim_u64 (CDeployed c) -> exists b x, deployed_path c = b ++ [x] /\ is_digit x = true.
Proof.
  intros (A1 & A2 & A3 & A4). destruct (udec_last (e_decimals c) (u64_pos _ A4)) as (b & x & E & D). unfold deployed_path. rewrite E.
  exists (udec (e_nonce c) ++ slash :: udec (e_height c) ++ slash :: e_denom c ++ slash :: e_token c ++ slash :: e_name c ++ slash :: e_symbol c ++ slash :: b), x.
  split; [|exact D]. repeat (rewrite <- !app_assoc; cbn [app]). reflexivity.
Qed.
Lemma deployed_not_valset c d : claim_u64 (CDeployed c) -> deployed_path c = valset_path d -> False.
Proof.
  intros U E. destruct (deployed_last c U) as (b & x & P & D). rewrite P in E. unfold valset_path in E.
  replace (udec (v_valset d) ++ slash :: udec (v_nonce d) ++ slash :: udec (v_height d) ++ slash :: members_text (v_members d) ++ [slash])
    with ((udec (v_valset d) ++ slash :: udec (v_nonce d) ++ slash :: udec (v_height d) ++ slash :: members_text (v_members d)) ++ [slash]) in E
    by (repeat (rewrite <- !app_assoc; cbn [app]); reflexivity).
  apply snoc_last in E. subst. discriminate D.
Qed.
Lemma deployed_not_deposit c d : claim_u64 (CDeployed c) -> plain (CDeposit d) -> deployed_path c = deposit_path d -> False.
Proof.
  intros U P E. destruct (deployed_last c U) as (b & x & F & D). rewrite F in E. unfold deposit_path in E. cbn [plain] in P.
  destruct (d_data d) as [|y l] eqn:G.
  - replace (udec (d_nonce d) ++ slash :: udec (d_height d) ++ slash :: d_token d ++ slash :: dec (d_amount d) ++ slash :: d_sender d ++ slash :: d_receiver d ++ [slash])
      with ((udec (d_nonce d) ++ slash :: udec (d_height d) ++ slash :: d_token d ++ slash :: dec (d_amount d) ++ slash :: d_sender d ++ slash :: d_receiver d) ++ [slash]) in E
      by (repeat (rewrite <- !app_assoc; cbn [app]); reflexivity).
    apply snoc_last in E. subst. discriminate D.
  - assert (y :: l <> []) as N by discriminate. destruct (exists_last N) as (l' & z & G2). rewrite G2 in E.
    replace (udec (d_nonce d) ++ slash :: udec (d_height d) ++ slash :: d_token d ++ slash :: dec (d_amount d) ++ slash :: d_sender d ++ slash :: d_receiver d ++ slash :: l' ++ [z])
      with ((udec (d_nonce d) ++ slash :: udec (d_height d) ++ slash :: d_token d ++ slash :: dec (d_amount d) ++ slash :: d_sender d ++ slash :: d_receiver d ++ slash :: l') ++ [z]) in E
      by (repeat (rewrite <- !app_assoc; cbn [app]); reflexivity).
    apply snoc_last in E. subst x. specialize (P _ _ G2). congruence.
Qed.

Theorem path_determines c1 c2 : claim_u64 c1 -> claim_u64 c2 -> claim_valid bech32_ok c1 = true -> claim_valid bech32_ok c2 = true ->
  (is_deployed c1 -> plain c1 /\ plain c2) -> (is_deployed c2 -> plain c1 /\ plain c2) ->
  claim_id c1 = claim_id c2 -> claim_path c1 = claim_path c2 -> same_hashed c1 c2.
Proof.
  intros U1 U2 V1 V2 P1 P2 I E. destruct c1 as [a|a|a|a], c2 as [b|b|b|b]; cbn [claim_path claim_id same_hashed same_effect is_deployed] in *.
  - split; [exact I|]. apply deposit_path_inj; assumption.
  - eapply (withdraw_first b); [exact U2|exact V2| |symmetry; exact E]. apply U1.
  - destruct (P2 Logic.I) as [Pa Pb]. eapply deployed_not_deposit; [exact U2|exact Pa|symmetry; exact E].
  - eapply deposit_not_valset; [exact U1|exact U2|exact V1|exact E].
  - eapply (withdraw_first a); [exact U1|exact V1| |exact E]. apply U2.
  - split; [exact I|]. apply withdraw_path_inj; assumption.
  - eapply (withdraw_first a); [exact U1|exact V1| |exact E]. apply U2.
  - eapply (withdraw_first a); [exact U1|exact V1| |exact E]. apply U2.
  - destruct (P1 Logic.I) as [Pa Pb]. eapply deployed_not_deposit; [exact U1|exact Pb|exact E].
  - eapply (withdraw_first b); [exact U2|exact V2| |symmetry; exact E]. apply U1.
  - destruct (P1 Logic.I) as [Pa Pb]. split; [exact I|]. apply deployed_path_inj; assumption.
  - eapply deployed_not_valset; [exact U1|exact E].
  - eapply deposit_not_valset; [exact U2|exact U1|exact V2|symmetry; exact E].
  - eapply (withdraw_first b); [exact U2|exact V2| |symmetry; exact E]. apply U1.
  - eapply deployed_not_valset; [exact U2|symmetry; exact E].
  - split; [exact I|]. apply valset_path_inj; assumption.
Qed.
End Paths.
