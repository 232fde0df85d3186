(* Induction over the effects of a run. *)
From Coq Require Import NArith Nnat.
From Verif Require Import Lib.Base Lib.Bytes Evm.Words Evm.World Evm.Memory Evm.Interp Evm.MemoryProofs Evm.Effects
  Evm.WorldProofs Evm.Ledger Evm.LedgerProofs.
Open Scope N_scope.

Section Effects.
Variable keccak : bytes -> N.
Variable committed : N -> N -> N.
Variable is_pre : N -> bool.
Variable pre_run : bool -> N -> N -> bytes -> N -> N -> world -> bytes * option verr * N * world.
Let effects := effects keccak committed is_pre pre_run.

Lemma fair_refl w : fair w w.
Proof. split; [intros; lia|]. split; [auto|]. split; [auto|apply no_gain_refl]. Qed.
Lemma fair_trans w1 w2 w3 : fair w1 w2 -> fair w2 w3 -> fair w1 w3.
Proof.
  intros (A1 & A2 & A3 & A4) (B1 & B2 & B3 & B4). split; [intros a; etransitivity; [apply A1|apply B1]|].
  split; [intros a H; rewrite B2; [apply A2, H|rewrite A2; assumption]|]. split; [auto|eapply no_gain_trans; eassumption].
Qed.
Lemma fair_acct w w' : w_acct w' = w_acct w -> fair w w'.
Proof.
  intros E. destruct (read_acct _ _ E) as (R1 & R2 & R3 & _). split; [intros; rewrite R2; lia|]. split; [auto|].
  split; [intros [S1 S2]; split; intros a; rewrite ?R1, ?R2, ?R3; auto|]. apply same_no_gain, same_total_ext, R1.
Qed.
Lemma fair_send w s a v : v = 0 \/ can_transfer w s v = true -> fair w (send keccak committed w s a v).
Proof.
  intros C. split; [intros; rewrite send_nonce; lia|]. split; [intros; apply send_code|]. split.
  - intros [S1 S2]. split; intros b.
    + rewrite send_code, send_nonce. apply S1.
    + rewrite send_bal. apply nonneg_move; assumption.
  - apply same_no_gain, send_total.
Qed.
Lemma fair_touch w a : fair w (add_balance keccak committed w a 0).
Proof.
  split; [intros; rewrite nonce_add; lia|]. split; [intros; apply code_add|]. split.
  - intros [S1 S2]. split; intros b; rewrite ?code_add, ?nonce_add; [apply S1|]. rewrite bal_add. destruct (b =? a); [|apply S2].
    specialize (S2 a). lia.
  - apply same_no_gain, same_total_ext. intros b. rewrite bal_add. destruct (N.eqb_spec b a) as [->|]; lia.
Qed.
Lemma may_send_can ro w s v : may_send ro w s v -> v = 0 \/ can_transfer w s v = true.
Proof. unfold may_send. tauto. Qed.

Lemma store_reads w1 w s k v : w_acct w1 = w_acct w ->
  (forall a, balance (set_state keccak committed w1 s k v) a = balance w a) /\
  (forall a, nonce (set_state keccak committed w1 s k v) a = nonce w a) /\
  (forall a, code (set_state keccak committed w1 s k v) a = code w a) /\
  (forall a, suicided (set_state keccak committed w1 s k v) a = suicided w a) /\
  (forall a, exist w a = true -> exist (set_state keccak committed w1 s k v) a = true) /\
  (forall a j, a <> s -> state (set_state keccak committed w1 s k v) a j = state w a j).
Proof.
  intros E. destruct (read_acct _ _ E) as (R1 & R2 & R3 & R4 & R5 & R6).
  destruct (here_read keccak committed w1 s) as (H1 & H2 & H3 & H4 & _).
  unfold set_state. repeat split; intros a; intros; rewrite ?balance_set, ?nonce_set, ?code_set, ?suicided_set, ?exist_set, ?state_set; cbn;
    rewrite ?H1, ?H2, ?H3, ?H4; destruct (N.eqb_spec a s) as [->|]; auto; try contradiction.
  rewrite R6. assumption.
Qed.
Lemma nonce_reads w s n : 
  (forall a, balance (set_nonce keccak committed w s n) a = balance w a) /\
  (forall a, nonce (set_nonce keccak committed w s n) a = if a =? s then n else nonce w a) /\
  (forall a, code (set_nonce keccak committed w s n) a = code w a) /\
  (forall a, suicided (set_nonce keccak committed w s n) a = suicided w a) /\
  (forall a, exist w a = true -> exist (set_nonce keccak committed w s n) a = true) /\
  (forall a j, a <> s -> state (set_nonce keccak committed w s n) a j = state w a j).
Proof.
  destruct (here_read keccak committed w s) as (H1 & H2 & H3 & H4 & _).
  unfold set_nonce. repeat split; intros a; intros; rewrite ?balance_set, ?nonce_set, ?code_set, ?suicided_set, ?exist_set, ?state_set; cbn;
    rewrite ?H1, ?H2, ?H3, ?H4; destruct (N.eqb_spec a s) as [->|]; auto; try contradiction.
Qed.
Lemma code_reads w s c : 
  (forall a, balance (set_code keccak committed w s c) a = balance w a) /\
  (forall a, nonce (set_code keccak committed w s c) a = nonce w a) /\
  (forall a, code (set_code keccak committed w s c) a = if a =? s then c else code w a) /\
  (forall a, suicided (set_code keccak committed w s c) a = suicided w a) /\
  (forall a, exist w a = true -> exist (set_code keccak committed w s c) a = true) /\
  (forall a j, a <> s -> state (set_code keccak committed w s c) a j = state w a j).
Proof.
  destruct (here_read keccak committed w s) as (H1 & H2 & H3 & H4 & _).
  unfold set_code. repeat split; intros a; intros; rewrite ?balance_set, ?nonce_set, ?code_set, ?suicided_set, ?exist_set, ?state_set; cbn;
    rewrite ?H1, ?H2, ?H3, ?H4; destruct (N.eqb_spec a s) as [->|]; auto; try contradiction.
Qed.
Lemma destroy_reads w s ben : let w' := suicide (add_balance keccak committed w ben (balance w s)) s in
  (forall a, nonce w' a = nonce w a) /\ (forall a, code w' a = code w a) /\
  (forall a, a <> s -> suicided w' a = suicided w a) /\ (forall a, suicided w a = true -> suicided w' a = true) /\
  (forall a, exist w a = true -> exist w' a = true) /\
  (forall a j, a <> s -> exist w a = true -> state w' a j = state w a j) /\
  (exist w s = true -> suicided w' s = true).
Proof.
  cbn. set (w1 := add_balance keccak committed w ben (balance w s)).
  assert (S1 : forall a j, exist w a = true -> state w1 a j = state w a j).
  { intros a j E. unfold w1, add_balance. rewrite state_set. destruct (N.eqb_spec a ben) as [->|]; [|reflexivity]. cbn.
    destruct (here_read keccak committed w ben) as (_ & _ & _ & _ & H). apply H. auto. }
  assert (E1 : forall a, exist w a = true -> exist w1 a = true).
  { intros a E. unfold w1. rewrite exist_add. destruct (a =? ben); auto. }
  unfold suicide. destruct (w_acct w1 s) as [x|] eqn:Ex.
  - assert (X : nonce w1 s = x_nonce x /\ code w1 s = x_code x /\ suicided w1 s = x_suicided x)
      by (unfold nonce, code, suicided; rewrite Ex; auto).
    destruct X as (X1 & X2 & X3).
    repeat split; intros a; intros; rewrite ?nonce_set, ?code_set, ?suicided_set, ?exist_set, ?state_set; cbn;
      try (destruct (N.eqb_spec a s) as [->|]; try contradiction); try rewrite <- X1; try rewrite <- X2;
      unfold w1; rewrite ?nonce_add, ?code_add, ?sui_add; auto; try (now apply E1); try (now apply S1).
    rewrite N.eqb_refl. reflexivity.
  - repeat split; intros a; intros; unfold w1; rewrite ?nonce_add, ?code_add, ?sui_add; auto; try (now apply E1); try (now apply S1).
    assert (Q := E1 s a). unfold exist in Q at 1. rewrite Ex in Q. discriminate.
Qed.

Lemma fair_destroy w s ben : sound w -> fair w (suicide (add_balance keccak committed w ben (balance w s)) s).
Proof.
  intros [S1 S2]. destruct (destroy_reads w s ben) as (R1 & R2 & _).
  assert (Hb := fun b => destroy_bal keccak committed w s ben b).
  split; [intros; rewrite R1; lia|]. split; [intros; apply R2|]. split.
  - intros _. split; intros b; [rewrite R1, R2; apply S1|]. rewrite Hb. assert (P := S2 s). assert (Q := S2 b).
    destruct (b =? s); [destruct (exist _ s); lia|]. destruct (b =? ben); lia.
  - exists [s; ben]. intros u ND I.
    assert (T : total (add_balance keccak committed w ben (balance w s)) u = (total w u + balance w s)%Z)
      by (apply total_add; [assumption|apply I; cbn; auto]).
    unfold suicide. destruct (w_acct _ s) as [x|] eqn:Ex.
    + rewrite total_set by (try assumption; apply I; cbn; auto). rewrite T, bal_add. cbn [x_bal].
      assert (P := S2 s). destruct (s =? ben); lia.
    + rewrite T. assert (balance w s = 0)%Z; [|lia].
      assert (Q : balance (add_balance keccak committed w ben (balance w s)) s = 0%Z) by (unfold balance at 1; rewrite Ex; reflexivity).
      rewrite bal_add in Q. destruct (N.eqb_spec s ben) as [->|]; [assert (P := S2 ben); lia|exact Q].
Qed.

(* money, nonces and code *)
Lemma effects_fair ro s w w' : effects ro s w w' -> pre_does is_pre pre_run (fun _ w w2 => fair w w2) ->
  sound w -> fair w w'.
Proof.
  intros H Pre. induction H as [ro s w|ro s w1 w2 w3 H1 IH1 H2 IH2|ro s w a|ro s w k|s w k v c w1 Rf E|s w t d|s w ben|ro s w a v M
    |ro s w a v w2 M C H IH|ro s w a|ro s w a w2 C H IH|ro pro s w a input g v ret used w2 Ia E|s w a Nn|s w l v c w2 a Nn Hc Ct Bc Lc Hd H IH]; intros S.
  - apply fair_refl.
  - assert (F1 := IH1 S). eapply fair_trans; [exact F1|]. apply IH2, F1, S.
  - now apply fair_acct.
  - now apply fair_acct.
  - destruct (sstore_gas_frame _ _ _ _ _ _ _ E) as (Fa & _). destruct (store_reads w1 w s k v Fa) as (R1 & R2 & R3 & _).
    split; [intros; rewrite R2; lia|]. split; [intros; apply R3|]. split.
    + intros [S1 S2]. split; intros b; rewrite ?R1, ?R2, ?R3; auto.
    + apply same_no_gain, same_total_ext, R1.
  - now apply fair_acct.
  - now apply fair_destroy.
  - eapply fair_send, may_send_can, M.
  - assert (F1 : fair w (send keccak committed w s a v)) by (eapply fair_send, may_send_can, M).
    eapply fair_trans; [exact F1|]. apply IH, F1, S.
  - apply fair_touch.
  - eapply fair_trans; [apply fair_touch|]. apply IH, fair_touch, S.
  - eapply Pre; eassumption.
  - destruct (nonce_reads w s (nonce w s + 1)) as (R1 & R2 & R3 & _).
    apply fair_trans with (set_nonce keccak committed w s (nonce w s + 1)); [|now apply fair_acct]. split.
    + intros b. rewrite R2. destruct (N.eqb_spec b s) as [->|]; lia.
    + split; [intros; apply R3|]. split.
      * intros [S1 S2]. split; intros b; [|rewrite R1; apply S2]. rewrite R2, R3. intros X. specialize (S1 b X).
        destruct (b =? s); lia.
      * apply same_no_gain, same_total_ext, R1.
  - clearbody a. destruct S as [S1 S2]. assert (Ca : code w a = []).
    { destruct (code w a) eqn:E; [reflexivity|]. exfalso. apply (S1 a); [rewrite E; discriminate|exact Nn]. }
    assert (F1 : fair w (new_contract keccak committed w s a v)).
    { split; [intros b; rewrite new_nonce; destruct (N.eqb_spec b a) as [->|]; lia|].
      split; [intros b Hb; rewrite new_code; destruct (N.eqb_spec b a); congruence|]. split.
      - intros _. split; intros b.
        + rewrite new_code, new_nonce. destruct (b =? a); [congruence|apply S1].
        + rewrite new_bal. apply nonneg_move; auto.
      - apply same_no_gain, new_total. }
    assert (Sn : sound (new_contract keccak committed w s a v)) by (apply F1; split; assumption).
    assert (F2 := IH Sn). destruct F2 as (G1 & G2 & G3 & G4). destruct F1 as (_ & _ & _ & F4).
    destruct (code_reads w2 a c) as (R1 & R2 & R3 & _). assert (S' := G3 Sn). destruct S' as [S1' S2'].
    assert (Na : nonce w2 a <> 0) by (specialize (G1 a); rewrite new_nonce, N.eqb_refl in G1; lia).
    split; [|split; [|split]].
    + intros b. rewrite R2. assert (X := G1 b). rewrite new_nonce in X. destruct (N.eqb_spec b a) as [E|]; [rewrite E; rewrite E in X; rewrite Nn; lia|exact X].
    + intros b Hb. rewrite R3. destruct (N.eqb_spec b a) as [->|Nb]; [congruence|].
      specialize (G2 b). rewrite new_code in G2. destruct (N.eqb_spec b a); [contradiction|]. auto.
    + intros _. split; intros b.
      * rewrite R3, R2. destruct (N.eqb_spec b a) as [->|]; [intros _; exact Na|apply S1'].
      * rewrite R1. apply S2'.
    + eapply no_gain_trans; [exact F4|]. eapply no_gain_trans; [exact G4|]. apply same_no_gain, same_total_ext, R1.
Qed.

(* static: only warmth and blank accounts *)
Lemma looks_refl w : looks_same w w.
Proof. repeat split. Qed.
Lemma looks_trans w1 w2 w3 : looks_same w1 w2 -> looks_same w2 w3 -> looks_same w1 w3.
Proof.
  intros (A1 & A2 & A3 & A4 & A5 & A6 & A7) (B1 & B2 & B3 & B4 & B5 & B6 & B7).
  repeat split; intros; congruence.
Qed.
Lemma looks_acct w w' : w_acct w' = w_acct w -> w_logs w' = w_logs w -> w_refund w' = w_refund w -> looks_same w w'.
Proof. intros E L R. destruct (read_acct _ _ E) as (R1 & R2 & R3 & R4 & R5 & R6). repeat split; auto. Qed.
Lemma orphans_mono w w' : (forall a, exist w a = true -> exist w' a = true) -> no_orphans committed w -> no_orphans committed w'.
Proof. intros M O a E. apply O. destruct (exist w a) eqn:X; [rewrite (M a X) in E; discriminate|reflexivity]. Qed.

Lemma effects_static ro s w w' : effects ro s w w' -> ro = true -> pre_does is_pre pre_run (fun _ w w2 => still w w2) ->
  no_orphans committed w -> still w w'.
Proof.
  assert (Sd : forall ro s w a v, ro = true -> may_send ro w s v -> no_orphans committed w -> still w (send keccak committed w s a v)).
  { intros ro0 s0 w0 a v -> [->|[X _]] O; [|discriminate]. split; [|apply send_exist].
    repeat split; intros; rewrite ?send_nonce, ?send_code, ?send_sui; auto.
    - rewrite send_bal. destruct (_ =? _), (_ =? _); lia.
    - now apply send_state.
    - unfold send, transfer. cbn. destruct (exist w0 a); reflexivity.
    - unfold send, transfer. cbn. destruct (exist w0 a); reflexivity. }
  assert (To : forall w a, no_orphans committed w -> still w (add_balance keccak committed w a 0)).
  { intros w0 a O. split; [|intros b E; rewrite exist_add; destruct (b =? a); auto].
    repeat split; intros; rewrite ?nonce_add, ?code_add, ?sui_add; auto.
    - rewrite bal_add. destruct (N.eqb_spec a0 a) as [->|]; lia.
    - apply state_add. destruct (exist w0 a) eqn:E; [auto|right; now apply O]. }
  assert (Tr : forall w1 w2 w3, still w1 w2 -> still w2 w3 -> still w1 w3).
  { intros w1 w2 w3 [A1 A2] [B1 B2]. split; [eapply looks_trans; eassumption|auto]. }
  intros H Ro Pre. induction H as [ro s w|ro s w1 w2 w3 H1 IH1 H2 IH2|ro s w a|ro s w k|s w k v c w1 Rf E|s w t d|s w ben|ro s w a v M
    |ro s w a v w2 M C H IH|ro s w a|ro s w a w2 C H IH|ro pro s w a input g v ret used w2 Ia E|s w a Nn|s w l v c w2 a Nn Hc Ct Bc Lc Hd H IH]; intros O; try discriminate Ro.
  - split; [apply looks_refl|auto].
  - specialize (IH1 Ro O). eapply Tr; [exact IH1|]. apply IH2; [exact Ro|]. eapply orphans_mono; [apply IH1|exact O].
  - split; [now apply looks_acct|auto].
  - split; [now apply looks_acct|auto].
  - eapply Sd; eassumption.
  - assert (F1 := Sd ro s w a v Ro M O). eapply Tr; [exact F1|]. apply IH; [exact Ro|]. eapply orphans_mono; [apply F1|exact O].
  - now apply To.
  - assert (F1 := To w a O). eapply Tr; [exact F1|]. apply IH; [reflexivity|]. eapply orphans_mono; [apply F1|exact O].
  - eapply Pre; eassumption.
Qed.

Let bystander := bystander keccak.
Lemma spared_refl a w : exist w a = true -> spared a w w.
Proof. intros E. split; [lia|]. repeat split; auto. Qed.
Lemma spared_trans a w1 w2 w3 : spared a w1 w2 -> spared a w2 w3 -> spared a w1 w3.
Proof.
  intros (A1 & A2 & A3 & A4 & A5 & A6) (B1 & B2 & B3 & B4 & B5 & B6). split; [lia|]. repeat split; intros; congruence.
Qed.
Lemma spared_bystander a w w' : spared a w w' -> bystander a w -> bystander a w'.
Proof. intros (A1 & A2 & A3 & A4 & A5 & A6) (B1 & B2 & B3). split; [congruence|]. split; [assumption|]. rewrite A2. exact B3. Qed.
Lemma spared_acct a w w' : exist w a = true -> w_acct w' = w_acct w -> spared a w w'.
Proof.
  intros X E. destruct (read_acct _ _ E) as (R1 & R2 & R3 & R4 & R5 & R6). split; [rewrite R1; lia|]. repeat split; auto. rewrite R6. exact X.
Qed.
Lemma spared_send b w s a v : b <> s -> exist w b = true -> spared b w (send keccak committed w s a v).
Proof.
  intros Nb X. split; [rewrite send_bal; destruct (N.eqb_spec b s); [contradiction|]; destruct (b =? a); lia|].
  split; [apply send_nonce|]. split; [apply send_code|]. split; [|split; [apply send_sui|now apply send_exist]].
  intros k. unfold send, transfer. unfold add_balance at 1. rewrite state_set.
  set (w1 := if exist w a then w else create_account keccak committed w a).
  assert (E1 : state w1 b k = state w b k /\ exist w1 b = true).
  { unfold w1. destruct (exist w a) eqn:Ea; [auto|]. unfold create_account. rewrite state_set, exist_set.
    destruct (N.eqb_spec b a) as [->|]; [congruence|auto]. }
  destruct E1 as [E1 E2].
  assert (E3 : state (add_balance keccak committed w1 s (- Z.of_N v)) b k = state w b k).
  { unfold add_balance. rewrite state_set. destruct (N.eqb_spec b s); [contradiction|exact E1]. }
  destruct (N.eqb_spec b a) as [->|]; [|exact E3]. cbn.
  destruct (here_read keccak committed (add_balance keccak committed w1 s (- Z.of_N v)) a) as (_ & _ & _ & _ & H).
  fold (here keccak committed (add_balance keccak committed w1 s (- Z.of_N v)) a). rewrite H; [exact E3|]. left. rewrite exist_add, E2. destruct (a =? s); reflexivity.
Qed.
Lemma spared_touch b w a : exist w b = true -> spared b w (add_balance keccak committed w a 0).
Proof.
  intros X. split; [rewrite bal_add; destruct (N.eqb_spec b a) as [->|]; lia|]. split; [apply nonce_add|]. split; [apply code_add|].
  split; [|split; [apply sui_add|rewrite exist_add; destruct (b =? a); auto]].
  intros k. unfold add_balance. rewrite state_set. destruct (N.eqb_spec b a) as [->|]; [|reflexivity]. cbn.
  destruct (here_read keccak committed w a) as (_ & _ & _ & _ & H). apply H. auto.
Qed.

Lemma effects_spared ro s w w' b : effects ro s w w' ->
  pre_does is_pre pre_run (fun s w w2 => s <> b -> exist w b = true -> spared b w w2) ->
  pre_does is_pre pre_run (fun _ w w2 => fair w w2) -> sound w ->
  s <> b -> bystander b w -> spared b w w'.
Proof.
  intros H Pre Pf. induction H as [ro s w|ro s w1 w2 w3 H1 IH1 H2 IH2|ro s w a|ro s w k|s w k v c w1 Rf E|s w t d|s w ben|ro s w a v M
    |ro s w a v w2 M C H IH|ro s w a|ro s w a w2 C H IH|ro pro s w a input g v ret used w2 Ia E|s w a Nn|s w l v c w2 a Nn Hc Ct Bc Lc Hd H IH]; intros So Ns By.
  - apply spared_refl, By.
  - specialize (IH1 So Ns By). eapply spared_trans; [exact IH1|]. apply IH2; [|exact Ns|eapply spared_bystander; eassumption].
    eapply effects_fair; eassumption.
  - now apply spared_acct; [apply By|].
  - now apply spared_acct; [apply By|].
  - destruct (sstore_gas_frame _ _ _ _ _ _ _ E) as (Fa & _). destruct (store_reads w1 w s k v Fa) as (R1 & R2 & R3 & R4 & R5 & R6).
    split; [rewrite R1; lia|]. repeat split; auto. apply R5, By.
  - now apply spared_acct; [apply By|].
  - destruct (destroy_reads w s ben) as (R1 & R2 & R3 & _ & R5 & R6 & _).
    split; [|repeat split; auto; intros; try apply R5; try apply R6; auto; apply By].
    rewrite destroy_bal. destruct (N.eqb_spec b s); [congruence|]. destruct So as [_ S2]. specialize (S2 s). destruct (b =? ben); lia.
  - apply spared_send; [congruence|apply By].
  - assert (F1 : spared b w (send keccak committed w s a v)) by (apply spared_send; [congruence|apply By]).
    assert (By1 := spared_bystander _ _ _ F1 By). eapply spared_trans; [exact F1|]. apply IH; [|intros ->; apply C, By1|exact By1].
    eapply fair_send; [eapply may_send_can, M|exact So].
  - apply spared_touch, By.
  - assert (F1 : spared b w (add_balance keccak committed w a 0)) by (apply spared_touch, By).
    assert (By1 := spared_bystander _ _ _ F1 By). eapply spared_trans; [exact F1|].
    apply IH; [apply fair_touch, So|intros ->; apply C, By|exact By1].
  - eapply Pre; try eassumption. apply By.
  - destruct (nonce_reads w s (nonce w s + 1)) as (R1 & R2 & R3 & R4 & R5 & R6).
    eapply spared_trans; [|apply spared_acct with (w := set_nonce keccak committed w s (nonce w s + 1)); [apply R5, By|reflexivity]].
    split; [rewrite R1; lia|]. split; [rewrite R2; destruct (N.eqb_spec b s); [congruence|reflexivity]|].
    repeat split; auto. apply R5, By.
  - assert (Na : a <> b).
    { intros <-. destruct By as (_ & _ & [X|X]); [contradiction|]. now apply (X l). }
    clearbody a.
    assert (F1 : spared b w (new_contract keccak committed w s a v)).
    { split; [rewrite new_bal; destruct (N.eqb_spec b s); [congruence|]; destruct (b =? a); lia|].
      split; [rewrite new_nonce; destruct (N.eqb_spec b a); [congruence|reflexivity]|].
      split; [rewrite new_code; destruct (N.eqb_spec b a); [congruence|reflexivity]|].
      split; [intros k; apply new_state; [congruence|left; apply By]|].
      split; [rewrite new_sui; destruct (N.eqb_spec b a); [congruence|reflexivity]|]. apply new_exist_mono, By. }
    assert (By1 := spared_bystander _ _ _ F1 By).
    assert (Sn : sound (new_contract keccak committed w s a v)).
    { destruct So as [S1 S2]. split; intros d.
      - rewrite new_code, new_nonce. destruct (d =? a); [congruence|apply S1].
      - rewrite new_bal. apply nonneg_move; auto. }
    assert (F2 := IH Sn Na By1). destruct (code_reads w2 a c) as (R1 & R2 & R3 & R4 & R5 & R6).
    eapply spared_trans; [exact F1|]. eapply spared_trans; [exact F2|].
    split; [rewrite R1; lia|]. split; [apply R2|]. split; [rewrite R3; destruct (N.eqb_spec b a); [congruence|reflexivity]|].
    split; [intros; apply R6; congruence|]. split; [apply R4|apply R5, F2].
Qed.

(* no money is lost either, unless a contract is destroyed *)
Lemma effects_exact ro s w w' : effects ro s w w' -> pre_does is_pre pre_run (fun _ w w2 => w_acct w2 = w_acct w) ->
  sound w -> marked w -> nonce w s <> 0 ->
  marked w' /\ (forall a, suicided w a = true -> suicided w' a = true) /\
  ((forall a, suicided w' a = false) -> same_total w w').
Proof.
  intros H Pre. assert (Pf : pre_does is_pre pre_run (fun _ w w2 => fair w w2)).
  { intros ro0 s0 a input g v w0 ret used w2 Ia E. apply fair_acct. eapply Pre; eassumption. }
  assert (Mono : forall w1 w2, (forall a, suicided w1 a = true -> suicided w2 a = true) ->
     (forall a, suicided w2 a = false) -> forall a, suicided w1 a = false).
  { intros u1 u2 M K a. destruct (suicided u1 a) eqn:E; [|reflexivity]. rewrite (M a E) in K || specialize (K a). rewrite (M a E) in K. discriminate. }
  induction H as [ro s w|ro s w1 w2 w3 H1 IH1 H2 IH2|ro s w a|ro s w k|s w k v c w1 Rf E|s w t d|s w ben|ro s w a v M
    |ro s w a v w2 M C H IH|ro s w a|ro s w a w2 C H IH|ro pro s w a input g v ret used w2 Ia E|s w a Nn|s w l v c w2 a Nn Hc Ct Bc Lc Hd H IH]; intros So Ma Ac.
  - split; [exact Ma|]. split; [auto|]. intros _. apply same_total_refl.
  - assert (F1 := effects_fair _ _ _ _ H1 Pf So). assert (So2 : sound w2) by (apply F1, So).
    destruct (IH1 So Ma Ac) as (A1 & A2 & A3). assert (Ac2 : nonce w2 s <> 0) by (destruct F1 as (F1 & _); specialize (F1 s); lia).
    destruct (IH2 So2 A1 Ac2) as (B1 & B2 & B3). split; [exact B1|]. split; [auto|]. intros K.
    eapply same_total_trans; [apply A3, (Mono _ _ B2 K)|apply B3, K].
  - split; [exact Ma|]. split; [auto|]. intros _. now apply same_total_ext.
  - split; [exact Ma|]. split; [auto|]. intros _. now apply same_total_ext.
  - destruct (sstore_gas_frame _ _ _ _ _ _ _ E) as (Fa & _). destruct (store_reads w1 w s k v Fa) as (R1 & R2 & R3 & R4 & _).
    split; [intros a; rewrite R2, R4; apply Ma|]. split; [intros a; rewrite R4; auto|]. intros _. apply same_total_ext, R1.
  - split; [exact Ma|]. split; [auto|]. intros _. now apply same_total_ext.
  - destruct (destroy_reads w s ben) as (R1 & R2 & R3 & R4 & R5 & R6 & R7).
    assert (Ex : exist w s = true) by (unfold nonce, exist in *; destruct (w_acct w s); [reflexivity|contradiction]).
    split; [|split; [exact R4|]].
    + intros a. rewrite R1. destruct (N.eq_dec a s) as [->|Na]; [intros _; exact Ac|]. rewrite R3 by assumption. apply Ma.
    + intros K. specialize (K s). rewrite (R7 Ex) in K. discriminate.
  - split; [intros b; rewrite send_sui, send_nonce; apply Ma|]. split; [intros b; rewrite send_sui; auto|]. intros _. apply send_total.
  - assert (So1 : sound (send keccak committed w s a v)) by (eapply fair_send; [eapply may_send_can, M|exact So]).
    destruct IH as (B1 & B2 & B3); [exact So1|intros b; rewrite send_sui, send_nonce; apply Ma|apply So1, C|].
    split; [exact B1|]. split; [intros b Hb; apply B2; rewrite send_sui; exact Hb|]. intros K.
    eapply same_total_trans; [apply send_total|apply B3, K].
  - split; [intros b; rewrite sui_add, nonce_add; apply Ma|]. split; [intros b; rewrite sui_add; auto|]. intros _.
    apply same_total_ext. intros b. rewrite bal_add. destruct (N.eqb_spec b a) as [->|]; lia.
  - destruct IH as (B1 & B2 & B3).
    + now apply fair_touch.
    + intros b; rewrite sui_add, nonce_add; apply Ma.
    + rewrite nonce_add. apply So, C.
    + split; [exact B1|]. split; [intros b Hb; apply B2; rewrite sui_add; exact Hb|]. intros K.
      eapply same_total_trans; [|apply B3, K]. apply same_total_ext. intros b. rewrite bal_add. destruct (N.eqb_spec b a) as [->|]; lia.
  - assert (X := Pre _ _ _ _ _ _ _ _ _ _ Ia E). destruct (read_acct _ _ X) as (R1 & R2 & R3 & R4 & R5 & R6).
    split; [intros b; rewrite R5, R2; apply Ma|]. split; [intros b; rewrite R5; auto|]. intros _. apply same_total_ext, R1.
  - destruct (nonce_reads w s (nonce w s + 1)) as (R1 & R2 & R3 & R4 & R5 & R6).
    split; [|split].
    + intros b Hb. change (nonce (set_nonce keccak committed w s (nonce w s + 1)) b <> 0). rewrite R2.
      change (suicided (set_nonce keccak committed w s (nonce w s + 1)) b = true) in Hb. rewrite R4 in Hb. specialize (Ma b Hb).
      destruct (b =? s); lia.
    + intros b Hb. change (suicided (set_nonce keccak committed w s (nonce w s + 1)) b = true). rewrite R4. exact Hb.
    + intros _. apply same_total_ext. exact R1.
  - clearbody a. assert (Sn : sound (new_contract keccak committed w s a v)).
    { destruct So as [S1 S2]. split; intros d.
      - rewrite new_code, new_nonce. destruct (d =? a); [congruence|apply S1].
      - rewrite new_bal. apply nonneg_move; auto. }
    destruct (code_reads w2 a c) as (R1 & R2 & R3 & R4 & R5 & R6).
    destruct IH as (B1 & B2 & B3); [exact Sn| | |].
    + intros b. rewrite new_sui, new_nonce. destruct (b =? a); [discriminate|apply Ma].
    + rewrite new_nonce, N.eqb_refl. discriminate.
    + split; [intros b; rewrite R4, R2; apply B1|]. split.
      * intros b Hb. rewrite R4. apply B2. rewrite new_sui. destruct (N.eqb_spec b a) as [->|]; [|exact Hb].
        exfalso. exact (Ma a Hb Nn).
      * intros K. eapply same_total_trans; [apply new_total|]. eapply same_total_trans; [apply B3; intros b; rewrite <- R4; apply K|].
        apply same_total_ext, R1.
Qed.
End Effects.
