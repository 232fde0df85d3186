(* Induction over the effects of a run: money, nonces, code, storage. *)
From Coq Require Import NArith Nnat.
From Verif Require Import Lib.Base Lib.Bytes Evm.Words Evm.World Evm.Memory Evm.Interp Evm.MemoryProofs Evm.Effects
  Evm.WorldProofs Evm.Ledger.
Open Scope N_scope.

(* ---- reading after a change of one account ---- *)
Lemma balance_set w a x b : balance (set_acct w a x) b = if b =? a then x_bal x else balance w b.
Proof. unfold balance, set_acct. cbn. unfold upd. destruct (b =? a); reflexivity. Qed.
Lemma nonce_set w a x b : nonce (set_acct w a x) b = if b =? a then x_nonce x else nonce w b.
Proof. unfold nonce, set_acct. cbn. unfold upd. destruct (b =? a); reflexivity. Qed.
Lemma code_set w a x b : code (set_acct w a x) b = if b =? a then x_code x else code w b.
Proof. unfold code, set_acct. cbn. unfold upd. destruct (b =? a); reflexivity. Qed.
Lemma state_set w a x b k : state (set_acct w a x) b k = if b =? a then x_stor x k else state w b k.
Proof. unfold state, set_acct. cbn. unfold upd. destruct (b =? a); reflexivity. Qed.
Lemma suicided_set w a x b : suicided (set_acct w a x) b = if b =? a then x_suicided x else suicided w b.
Proof. unfold suicided, set_acct. cbn. unfold upd. destruct (b =? a); reflexivity. Qed.
Lemma exist_set w a x b : exist (set_acct w a x) b = if b =? a then true else exist w b.
Proof. unfold exist, set_acct. cbn. unfold upd. destruct (b =? a); reflexivity. Qed.

(* reads depend only on the accounts *)
Lemma read_acct w w' : w_acct w' = w_acct w ->
  (forall a, balance w' a = balance w a) /\ (forall a, nonce w' a = nonce w a) /\ (forall a, code w' a = code w a) /\
  (forall a k, state w' a k = state w a k) /\ (forall a, suicided w' a = suicided w a) /\ (forall a, exist w' a = exist w a).
Proof. intros E. unfold balance, nonce, code, state, suicided, exist. rewrite E. auto 10. Qed.

Lemma total_ext w w' u : (forall a, balance w' a = balance w a) -> total w' u = total w u.
Proof. intros E. unfold total. f_equal. apply map_ext, E. Qed.
Lemma total_set_out w a x u : ~ In a u -> total (set_acct w a x) u = total w u.
Proof.
  intros H. unfold total. f_equal. apply map_ext_in. intros b Hb. rewrite balance_set.
  destruct (N.eqb_spec b a) as [->|]; [contradiction|reflexivity].
Qed.
Lemma total_set w a x u : NoDup u -> In a u -> total (set_acct w a x) u = (total w u - balance w a + x_bal x)%Z.
Proof.
  intros ND. induction ND as [|b u Nb ND IH]; [contradiction|]. intros [->|Ha].
  - change (total (set_acct w a x) (a :: u)) with (balance (set_acct w a x) a + total (set_acct w a x) u)%Z.
    change (total w (a :: u)) with (balance w a + total w u)%Z.
    rewrite total_set_out by assumption. rewrite balance_set, N.eqb_refl. lia.
  - change (total (set_acct w a x) (b :: u)) with (balance (set_acct w a x) b + total (set_acct w a x) u)%Z.
    change (total w (b :: u)) with (balance w b + total w u)%Z.
    rewrite (IH Ha), balance_set. destruct (N.eqb_spec b a) as [->|]; [contradiction|]. lia.
Qed.

Lemma no_gain_refl w : no_gain w w.
Proof. exists []. intros. lia. Qed.
Lemma no_gain_trans w1 w2 w3 : no_gain w1 w2 -> no_gain w2 w3 -> no_gain w1 w3.
Proof.
  intros [l1 H1] [l2 H2]. exists (l1 ++ l2). intros u ND I.
  assert (incl l1 u) by (intros x Hx; apply I, in_or_app; auto).
  assert (incl l2 u) by (intros x Hx; apply I, in_or_app; auto).
  specialize (H1 u ND). specialize (H2 u ND). etransitivity; eauto.
Qed.
Lemma same_total_refl w : same_total w w.
Proof. exists []. reflexivity. Qed.
Lemma same_total_trans w1 w2 w3 : same_total w1 w2 -> same_total w2 w3 -> same_total w1 w3.
Proof.
  intros [l1 H1] [l2 H2]. exists (l1 ++ l2). intros u ND I.
  assert (incl l1 u) by (intros x Hx; apply I, in_or_app; auto).
  assert (incl l2 u) by (intros x Hx; apply I, in_or_app; auto).
  rewrite H2, H1 by assumption. reflexivity.
Qed.
Lemma same_no_gain w w' : same_total w w' -> no_gain w w'.
Proof. intros [l H]. exists l. intros u ND I. rewrite H by assumption. lia. Qed.
Lemma same_total_ext w w' : (forall a, balance w' a = balance w a) -> same_total w w'.
Proof. intros E. exists []. intros. now apply total_ext. Qed.

Section Ledger.
Variable keccak : bytes -> N.
Variable committed : N -> N -> N.
Let add_balance := add_balance keccak committed.
Let set_nonce := set_nonce keccak committed.
Let set_code := set_code keccak committed.
Let set_state := set_state keccak committed.
Let create_account := create_account keccak committed.
Let transfer := transfer keccak committed.
Let here := here keccak committed.
Let send := send keccak committed.
Let new_contract := new_contract keccak committed.

Lemma here_read w a :
  x_bal (here w a) = balance w a /\ x_nonce (here w a) = nonce w a /\ x_code (here w a) = code w a /\
  x_suicided (here w a) = suicided w a /\
  (exist w a = true \/ (forall k, committed a k = 0) -> forall k, x_stor (here w a) k = state w a k).
Proof.
  unfold here, World.here, balance, nonce, code, suicided, state, exist. destruct (w_acct w a) as [x|]; cbn.
  - auto 10.
  - do 4 (split; [reflexivity|]). intros [H|H]; [discriminate|exact H].
Qed.

Lemma bal_add w a v b : balance (add_balance w a v) b = (if (b =? a)%N then balance w a + v else balance w b)%Z.
Proof. unfold add_balance, World.add_balance. rewrite balance_set. cbn. destruct (here_read w a) as (E & _). unfold here in E. rewrite E. reflexivity. Qed.
Lemma nonce_add w a v b : nonce (add_balance w a v) b = nonce w b.
Proof.
  unfold add_balance, World.add_balance. rewrite nonce_set. cbn. destruct (here_read w a) as (_ & E & _). unfold here in E. rewrite E.
  destruct (N.eqb_spec b a) as [->|]; reflexivity.
Qed.
Lemma code_add w a v b : code (add_balance w a v) b = code w b.
Proof. apply code_add_balance. Qed.
Lemma sui_add w a v b : suicided (add_balance w a v) b = suicided w b.
Proof.
  unfold add_balance, World.add_balance. rewrite suicided_set. cbn. destruct (here_read w a) as (_ & _ & _ & E & _). unfold here in E. rewrite E.
  destruct (N.eqb_spec b a) as [->|]; reflexivity.
Qed.
Lemma state_add w a v b k : (exist w a = true \/ (forall k, committed a k = 0)) -> state (add_balance w a v) b k = state w b k.
Proof.
  intros H. unfold add_balance, World.add_balance. rewrite state_set. cbn. destruct (here_read w a) as (_ & _ & _ & _ & E). unfold here in E.
  destruct (N.eqb_spec b a) as [->|]; [|reflexivity]. apply E, H.
Qed.
Lemma exist_add w a v b : exist (add_balance w a v) b = if b =? a then true else exist w b.
Proof. apply exist_set. Qed.

Lemma total_add w a v u : NoDup u -> In a u -> total (add_balance w a v) u = (total w u + v)%Z.
Proof.
  intros ND Ha. unfold add_balance, World.add_balance. rewrite total_set by assumption. cbn.
  destruct (here_read w a) as (E & _). unfold here in E. rewrite E. lia.
Qed.
Lemma total_transfer w a b v u : NoDup u -> In a u -> In b u -> total (transfer w a b v) u = total w u.
Proof. intros. unfold transfer, World.transfer. rewrite !total_add by assumption. lia. Qed.
Lemma bal_create w a b : balance (create_account w a) b = balance w b.
Proof. unfold create_account, World.create_account. rewrite balance_set. cbn. destruct (N.eqb_spec b a) as [->|]; reflexivity. Qed.
Lemma bal_nonce w a n b : balance (set_nonce w a n) b = balance w b.
Proof.
  unfold set_nonce, World.set_nonce. rewrite balance_set. cbn. destruct (here_read w a) as (E & _). unfold here in E. rewrite E.
  destruct (N.eqb_spec b a) as [->|]; reflexivity.
Qed.

(* what money sent along does *)
Lemma send_total w s a v : same_total w (send w s a v).
Proof.
  exists [s; a]. intros u ND I. unfold send, Effects.send. fold transfer create_account.
  rewrite total_transfer; [|assumption|apply I; cbn; auto|apply I; cbn; auto].
  destruct (exist w a); [reflexivity|]. apply total_ext, bal_create.
Qed.
Lemma new_total w s a v : same_total w (new_contract w s a v).
Proof.
  exists [s; a]. intros u ND I. unfold new_contract, Interp.new_contract. fold transfer create_account set_nonce.
  rewrite total_transfer; [|assumption|apply I; cbn; auto|apply I; cbn; auto].
  apply total_ext. intros b. rewrite bal_nonce. apply bal_create.
Qed.
Lemma transfer_bal w s a v b : balance (transfer w s a v) b =
  (balance w b - (if (b =? s)%N then Z.of_N v else 0) + (if (b =? a)%N then Z.of_N v else 0))%Z.
Proof.
  unfold transfer, World.transfer. fold add_balance. rewrite !bal_add.
  destruct (N.eqb_spec b a), (N.eqb_spec b s), (N.eqb_spec a s); subst; try congruence; lia.
Qed.
Lemma send_bal w s a v b : balance (send w s a v) b =
  (balance w b - (if (b =? s)%N then Z.of_N v else 0) + (if (b =? a)%N then Z.of_N v else 0))%Z.
Proof.
  unfold send, Effects.send. fold transfer create_account. rewrite transfer_bal. destruct (exist w a); [reflexivity|]. rewrite bal_create. reflexivity.
Qed.
Lemma new_bal w s a v b : balance (new_contract w s a v) b =
  (balance w b - (if (b =? s)%N then Z.of_N v else 0) + (if (b =? a)%N then Z.of_N v else 0))%Z.
Proof.
  unfold new_contract, Interp.new_contract. fold transfer create_account set_nonce. rewrite transfer_bal, bal_nonce, bal_create. reflexivity.
Qed.
Lemma nonneg_move w s a v : (forall b, 0 <= balance w b)%Z -> v = 0 \/ can_transfer w s v = true ->
  forall b, (0 <= balance w b - (if (b =? s)%N then Z.of_N v else 0) + (if (b =? a)%N then Z.of_N v else 0))%Z.
Proof.
  intros P C b. specialize (P b). unfold can_transfer in C.
  destruct (N.eqb_spec b s), (b =? a); subst; destruct C as [->|C]; try apply Z.leb_le in C; lia.
Qed.

Lemma send_nonce w s a v b : nonce (send w s a v) b = nonce w b.
Proof.
  unfold send, Effects.send, World.transfer. fold add_balance create_account. rewrite !nonce_add. destruct (exist w a) eqn:E; [reflexivity|].
  unfold create_account, World.create_account. rewrite nonce_set. cbn. destruct (N.eqb_spec b a) as [->|]; [|reflexivity].
  unfold nonce, exist in *. destruct (w_acct w a); [discriminate|reflexivity].
Qed.
Lemma send_code w s a v b : code (send w s a v) b = code w b.
Proof.
  unfold send, Effects.send, World.transfer. fold add_balance create_account. rewrite !code_add. destruct (exist w a) eqn:E; [reflexivity|].
  unfold create_account, World.create_account. rewrite code_set. cbn. destruct (N.eqb_spec b a) as [->|]; [|reflexivity].
  unfold code, exist in *. destruct (w_acct w a); [discriminate|reflexivity].
Qed.
Lemma send_sui w s a v b : suicided (send w s a v) b = suicided w b.
Proof.
  unfold send, Effects.send, World.transfer. fold add_balance create_account. rewrite !sui_add. destruct (exist w a) eqn:E; [reflexivity|].
  unfold create_account, World.create_account. rewrite suicided_set. cbn. destruct (N.eqb_spec b a) as [->|]; [|reflexivity].
  unfold suicided, exist in *. destruct (w_acct w a); [discriminate|reflexivity].
Qed.
Lemma send_exist w s a v b : exist w b = true -> exist (send w s a v) b = true.
Proof.
  intros H. unfold send, Effects.send, World.transfer. fold add_balance create_account. rewrite !exist_add.
  destruct (b =? a) eqn:E1; [reflexivity|]. destruct (b =? s); [reflexivity|]. destruct (exist w a); [exact H|].
  unfold create_account, World.create_account. rewrite exist_set, E1. exact H.
Qed.
Lemma send_state w s a v b k : no_orphans committed w -> state (send w s a v) b k = state w b k.
Proof.
  intros O. assert (X : forall c, exist w c = true \/ (forall k, committed c k = 0)).
  { intros c. destruct (exist w c) eqn:E; [auto|right; now apply O]. }
  unfold send, Effects.send, World.transfer. fold add_balance create_account.
  assert (Y : forall c, exist (if exist w a then w else create_account w a) c = true \/ (forall k, committed c k = 0)).
  { intros c. destruct (exist w a); [apply X|]. unfold create_account, World.create_account. rewrite exist_set.
    destruct (c =? a); [auto|apply X]. }
  rewrite state_add.
  2: { rewrite exist_add. destruct (a =? s); [auto|apply Y]. }
  rewrite state_add by apply Y. destruct (exist w a) eqn:E; [reflexivity|].
  unfold create_account, World.create_account. rewrite state_set. cbn. destruct (N.eqb_spec b a) as [->|]; [|reflexivity].
  rewrite (O a E). unfold state, exist in *. destruct (w_acct w a); [discriminate|reflexivity].
Qed.

Lemma new_nonce w s a v b : nonce (new_contract w s a v) b = if b =? a then 1 else nonce w b.
Proof.
  unfold new_contract, Interp.new_contract, World.transfer. fold add_balance create_account set_nonce. rewrite !nonce_add.
  unfold set_nonce, World.set_nonce. rewrite nonce_set. cbn. destruct (b =? a) eqn:E; [reflexivity|].
  unfold create_account, World.create_account. rewrite nonce_set, E. reflexivity.
Qed.
Lemma new_code w s a v b : code (new_contract w s a v) b = if b =? a then [] else code w b.
Proof.
  unfold new_contract, Interp.new_contract, World.transfer. fold add_balance create_account set_nonce. rewrite !code_add.
  unfold set_nonce, World.set_nonce. rewrite code_set. cbn. destruct (b =? a) eqn:E.
  - unfold World.here, create_account, World.create_account, set_acct. cbn. rewrite upd_same. reflexivity.
  - unfold create_account, World.create_account. rewrite code_set, E. reflexivity.
Qed.
Lemma new_sui w s a v b : suicided (new_contract w s a v) b = if b =? a then false else suicided w b.
Proof.
  unfold new_contract, Interp.new_contract, World.transfer. fold add_balance create_account set_nonce. rewrite !sui_add.
  unfold set_nonce, World.set_nonce. rewrite suicided_set. cbn. destruct (b =? a) eqn:E.
  - unfold World.here, create_account, World.create_account, set_acct. cbn. rewrite upd_same. reflexivity.
  - unfold create_account, World.create_account. rewrite suicided_set, E. reflexivity.
Qed.
Lemma new_exist_mono w s a v b : exist w b = true -> exist (new_contract w s a v) b = true.
Proof.
  intros H. unfold new_contract, Interp.new_contract, World.transfer. fold add_balance create_account set_nonce. rewrite !exist_add.
  unfold set_nonce, World.set_nonce, create_account, World.create_account. rewrite !exist_set. rewrite H.
  destruct (b =? a), (b =? s); reflexivity.
Qed.
Lemma new_state w s a v b k : b <> a -> exist w b = true \/ (forall k, committed b k = 0) -> state (new_contract w s a v) b k = state w b k.
Proof.
  intros Nb X. unfold new_contract, Interp.new_contract, World.transfer. fold add_balance create_account set_nonce.
  set (w1 := set_nonce (create_account w a) a 1).
  assert (E1 : state w1 b k = state w b k).
  { unfold w1, set_nonce, World.set_nonce, create_account, World.create_account. rewrite !state_set.
    destruct (N.eqb_spec b a); [contradiction|reflexivity]. }
  assert (Ea : exist w1 a = true) by (unfold w1, set_nonce, World.set_nonce; rewrite exist_set, N.eqb_refl; reflexivity).
  rewrite state_add by (left; rewrite exist_add; destruct (a =? s); [reflexivity|exact Ea]).
  destruct (N.eq_dec s b) as [->|Ns].
  - rewrite state_add; [exact E1|]. destruct X as [X|X]; [left|right; exact X].
    unfold w1, set_nonce, World.set_nonce, create_account, World.create_account. rewrite !exist_set, X. destruct (b =? a); reflexivity.
  - unfold add_balance, World.add_balance. rewrite state_set. destruct (N.eqb_spec b s); [congruence|exact E1].
Qed.

Lemma destroy_bal w s ben b : balance (suicide (add_balance w ben (balance w s)) s) b =
  (if (b =? s)%N then if exist (add_balance w ben (balance w s)) s then 0 else balance w s
   else balance w b + if (b =? ben)%N then balance w s else 0)%Z.
Proof.
  unfold suicide. destruct (w_acct (add_balance w ben (balance w s)) s) as [x|] eqn:E.
  - rewrite balance_set. destruct (N.eqb_spec b s) as [->|Nb].
    + unfold exist. rewrite E. reflexivity.
    + rewrite bal_add. destruct (N.eqb_spec b ben) as [->|]; lia.
  - unfold exist. rewrite E. rewrite bal_add. destruct (N.eqb_spec b s) as [->|Nb].
    + destruct (N.eqb_spec s ben) as [<-|]; [|reflexivity].
      unfold add_balance, World.add_balance, set_acct in E. cbn in E. rewrite upd_same in E. discriminate.
    + destruct (N.eqb_spec b ben) as [->|]; lia.
Qed.
End Ledger.
