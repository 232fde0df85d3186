(* C119: deposits of tokens the chain has not seen before. *)
From Verif Require Import Lib.Base Lib.Zmap Lib.Dec Hyperion.NewToken Hyperion.NewTokenSpec Hyperion.NewTokenProofs.
Open Scope Z_scope.

Section Claims.
Variable h : Z.
Variable addr : Z -> text.
Hypothesis Bridge : 0 <= h < 2 ^ 64.
Hypothesis Addresses : forall c, address_text (addr c).
Let handle := handle h addr.
Let process := process h addr.
Let run := run h addr.
Definition receiver (x : deposit) : Z := match d_to x with Some a => a | None => pool_acc end.

(* The first deposit of a token is accepted exactly when it tells a name for it that can be
   shown and at least one decimal; the token then has that symbol and these decimals, one
   unit goes to the bridge and the amount to the receiver (to the community pool, if there is
   no usable receiver), and nothing else changes. *)
Theorem C119_new_token : forall s x s', zget (s_tok s) (d_contract x) = None ->
  (handle s x = Ok s' <->
   d_sender x = true /\ s_sup s (d_contract x) + 1 + d_amount x < 2 ^ 256 /\
   exists m t s1, told (d_data x) m /\ 1 <= m_dec m /\ shown_as (m_symbol m) (t_symbol t) /\ t_dec t = m_dec m /\
     s1 = give (mk_st (zset (s_tok s) (d_contract x) t) (s_bal s) (s_sup s)) (d_contract x) module_acc 1 /\
     s' = give s1 (d_contract x) (receiver x) (d_amount x)).
Proof.
  intros s x s' N. pose proof (known_new h addr s (d_contract x) (d_data x) Bridge (Addresses _) N) as K. unfold handle, NewToken.handle, receiver.
  destruct (d_sender x); cbn [negb]; [|split; [discriminate|intros (E & _); discriminate]].
  destruct (known h addr s (d_contract x) (d_data x)) as [s1|].
  - destruct (proj1 (K s1) eq_refl) as (m & t & T & D & Sh & Dt & E). assert (s_sup s1 (d_contract x) = s_sup s (d_contract x) + 1) as Su by (rewrite E; cbn [give s_sup]; rewrite Z.eqb_refl; reflexivity).
    rewrite Su. destruct (Z.leb_spec (2 ^ 256) (s_sup s (d_contract x) + 1 + d_amount x)) as [O|O].
    + split; [discriminate|]. intros (_ & O' & _). lia.
    + split.
      * intro Q. split; [reflexivity|]. split; [exact O|]. exists m, t, s1. repeat match goal with |- _ /\ _ => split end; try assumption. congruence.
      * intros (_ & _ & m' & t' & s1' & T' & D' & Sh' & Dt' & E' & ->). assert (Some s1 = Some s1') as Q by (apply K; exists m', t'; auto). congruence.
  - split; [discriminate|]. intros (_ & _ & m & t & s1 & T & D & Sh & Dt & E & _). assert (None = Some s1) by (apply K; exists m, t; auto). discriminate.
Qed.

(* In terms of what can be seen: one unit to the bridge, the amount to the receiver, and the
   new token; no other token or balance changes. *)
Theorem C119_new_token_effect : forall s x s', zget (s_tok s) (d_contract x) = None -> handle s x = Ok s' ->
  (exists s1, credited s s1 (d_contract x) module_acc 1 /\ credited s1 s' (d_contract x) (receiver x) (d_amount x)) /\
  (exists m t, told (d_data x) m /\ shown_as (m_symbol m) (t_symbol t) /\ t_dec t = m_dec m /\ 1 <= t_dec t <= 18 /\ zget (s_tok s') (d_contract x) = Some t) /\
  (forall c, c <> d_contract x -> zget (s_tok s') c = zget (s_tok s) c).
Proof.
  intros s x s' N E. apply C119_new_token in E as (_ & _ & m & t & s1 & T & D & Sh & Dt & E1 & ->); [|exact N]. repeat match goal with |- _ /\ _ => split end.
  - exists s1. split; [|apply give_credited]. rewrite E1. exact (give_credited (mk_st (zset (s_tok s) (d_contract x) t) (s_bal s) (s_sup s)) (d_contract x) module_acc 1).
  - exists m, t. rewrite E1. cbn [give s_tok]. rewrite zget_zset_same. pose proof T as (_ & _ & _ & _ & B). repeat match goal with |- _ /\ _ => split end; try assumption; try reflexivity; lia.
  - intros c Nc. rewrite E1. cbn [give s_tok]. apply zget_zset_other. congruence.
Qed.

(* A deposit of a token that is known credits the amount, whatever its data says. *)
Theorem C119_known_token : forall s x t, zget (s_tok s) (d_contract x) = Some t -> d_sender x = true -> s_sup s (d_contract x) + d_amount x < 2 ^ 256 ->
  exists s', handle s x = Ok s' /\ s_tok s' = s_tok s /\ credited s s' (d_contract x) (receiver x) (d_amount x).
Proof.
  clear Bridge Addresses. intros s x t G Se O. unfold handle, NewToken.handle, known. rewrite Se, G. cbn [negb]. destruct (Z.leb_spec (2 ^ 256) (s_sup s (d_contract x) + d_amount x)); [lia|].
  eexists. split; [reflexivity|]. split; [reflexivity|]. apply give_credited.
Qed.

(* The symbol and the decimals of a token never change. *)
Theorem C119_names_stay : forall s l c t, zget (s_tok s) c = Some t -> zget (s_tok (run s l)) c = Some t.
Proof. clear Bridge Addresses. intros. apply run_tok. assumption. Qed.

(* A first deposit that does not say what the token is called is lost: without data, with data
   that is not JSON or has no metadata, or with texts that are too long, the event is done
   and nobody has received anything. *)
Theorem C119_unnamed_is_lost_refuted : forall s x, zget (s_tok s) (d_contract x) = None -> (forall m, ~ told (d_data x) m) -> process s x = s.
Proof.
  intros s x N T. unfold process, NewToken.process. destruct (NewToken.handle h addr s x) as [s'| |] eqn:E; try reflexivity.
  apply C119_new_token in E as (_ & _ & m & t & s1 & Tm & _); [|exact N]. destruct (T m Tm).
Qed.

(* So is every first deposit of a token without decimals. *)
Theorem C119_no_decimals_refuted : forall s x m, zget (s_tok s) (d_contract x) = None -> d_data x = Json (Some m) -> m_dec m = 0 -> process s x = s.
Proof.
  intros s x m N Ed D. unfold process, NewToken.process. destruct (NewToken.handle h addr s x) as [s'| |] eqn:E; try reflexivity.
  apply C119_new_token in E as (_ & _ & m' & t & s1 & (Em & _) & D' & _); [|exact N]. assert (m' = m) as -> by congruence. lia.
Qed.

(* And of a token whose symbol does not start with a letter, such as 1INCH. *)
Theorem C119_digit_first_refuted : forall s x m c r, zget (s_tok s) (d_contract x) = None -> d_data x = Json (Some m) ->
  without_unusual (m_symbol m) (c :: r) -> (2 <= length r)%nat -> ~ latin c -> process s x = s.
Proof.
  intros s x m c r N Ed W L Lc. unfold process, NewToken.process. destruct (NewToken.handle h addr s x) as [s'| |] eqn:E; try reflexivity.
  apply C119_new_token in E as (_ & _ & m' & t & s1 & (Em & _) & _ & Sh & _); [|exact N]. assert (m' = m) as -> by congruence. exfalso. apply wu_filter in W.
  inversion Sh as [t' c' r' W' L' Lc' Q1 Q2|t' Ne L' U Q1 Q2].
  - apply wu_filter in W'. assert (c' = c) by congruence. subst c'. contradiction.
  - apply all_usual in U. rewrite (filter_all _ U) in W. rewrite <- W in L'. cbn [length] in L'. lia.
Qed.

(* The first deposit decides: if it says one thing and a later one the truth, the first
   stays. *)
Theorem C119_first_deposit_names_refuted : forall s x y s', zget (s_tok s) (d_contract x) = None -> d_contract y = d_contract x -> handle s x = Ok s' ->
  exists m t, told (d_data x) m /\ shown_as (m_symbol m) (t_symbol t) /\ t_dec t = m_dec m /\ forall l, zget (s_tok (run s' (y :: l))) (d_contract x) = Some t.
Proof.
  intros s x y s' N Ec E. apply C119_new_token in E as (_ & _ & m & t & s1 & T & D & Sh & Dt & -> & ->); [|exact N]. exists m, t. repeat match goal with |- _ /\ _ => split end; try assumption.
  intro l. apply C119_names_stay. cbn [give s_tok]. apply zget_zset_same.
Qed.

(* Different tokens can have the same symbol: whatever symbol a token has, anyone can bring
   another token under it. *)
Theorem C119_same_symbol_refuted : forall s c t m, told (Json (Some m)) m -> 1 <= m_dec m -> shown_as (m_symbol m) (t_symbol t) -> t_dec t = m_dec m ->
  zget (s_tok s) c = None -> s_sup s c + 2 < 2 ^ 256 -> forall a, exists s', handle s (mk_dep true (Some a) c 1 (Json (Some m))) = Ok s' /\
  zget (s_tok s') c = Some t /\ forall c', c' <> c -> zget (s_tok s') c' = zget (s_tok s) c'.
Proof.
  intros s c t m T D Sh Dt N O a. eexists. split.
  - apply C119_new_token; [exact N|]. split; [reflexivity|]. cbn [d_contract d_amount d_data]. split; [lia|]. exists m, t. eexists. repeat match goal with |- _ /\ _ => split end; try assumption; reflexivity.
  - cbn [give s_tok d_contract]. rewrite zget_zset_same. split; [reflexivity|]. intros c' Nc. apply zget_zset_other. congruence.
Qed.

(* The coins of a new token are one more than was deposited. *)
Theorem C119_one_unbacked_refuted : forall s x s', zget (s_tok s) (d_contract x) = None -> handle s x = Ok s' -> s_sup s' (d_contract x) = s_sup s (d_contract x) + d_amount x + 1.
Proof.
  intros s x s' N E. apply C119_new_token in E as (_ & _ & m & t & s1 & _ & _ & _ & _ & -> & ->); [|exact N]. cbn [give s_sup]. rewrite Z.eqb_refl. lia.
Qed.
End Claims.
Print Assumptions C119_new_token.
Print Assumptions C119_new_token_effect.
Print Assumptions C119_known_token.
Print Assumptions C119_names_stay.
Print Assumptions C119_unnamed_is_lost_refuted.
Print Assumptions C119_no_decimals_refuted.
Print Assumptions C119_digit_first_refuted.
Print Assumptions C119_first_deposit_names_refuted.
Print Assumptions C119_same_symbol_refuted.
Print Assumptions C119_one_unbacked_refuted.

(* ---- a case: USDC, then tokens called 1INCH, ab, and with an unusual sign ---- *)
Definition nt_addr (c : Z) : text := repeat 65 42.
Definition usdc : text := [85; 83; 68; 67].
Definition dep (c : Z) (sym : text) (d : Z) : deposit := mk_dep true (Some 7) c 100 (Json (Some (mk_meta sym sym d))).
Example C119_case :
  (forall c, address_text (nt_addr c)) /\
  let s := run 3 nt_addr start [dep 1 usdc 6; dep 2 [49; 73; 78; 67; 72] 18; dep 3 [97; 98] 18; dep 4 [85; 83; 68; 226; 130; 174; 48] 6; dep 5 usdc 0;
                                mk_dep true (Some 7) 6 100 Empty; mk_dep true None 1 50 Empty; mk_dep false (Some 7) 1 9 Empty; dep 1 [66; 65; 68] 2] in
  s_tok s = [(1, mk_tok usdc 6); (3, mk_tok [72; 69; 76; 45; 97; 98] 18); (4, mk_tok [85; 83; 68; 48] 6)] /\
  s_bal s 1 7 = 200 /\ s_bal s 1 pool_acc = 50 /\ s_bal s 1 module_acc = 1 /\ s_sup s 1 = 251 /\ s_sup s 2 = 0 /\ s_sup s 5 = 0 /\ s_sup s 6 = 0.
Proof.
  split; [|vm_compute; auto 10]. intro c. split; [reflexivity|]. apply Forall_forall. intros x I. apply repeat_spec in I. subst x. left. left. lia.
Qed.
