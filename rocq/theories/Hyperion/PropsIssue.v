(* C125: tokens issued and destroyed by a bridge's founder. *)
From Verif Require Import Lib.Base Hyperion.Issue Hyperion.IssueSpec.
Open Scope Z_scope.

Section Props.
Variable mo : Z.
Variable blocked : Z -> bool.
Notation step := (step mo blocked). Notation run := (run mo blocked).

(* accepted exactly for the entitled, for a known token that comes from another chain, and an
   amount that is not negative *)
Theorem C125_accepted_iff : forall b m, (exists b', step b m = Ok b') <-> m_ok m /\ 0 <= m_n m.
Proof.
  intros b m. destruct m as [e f v n a|e f v n a]; cbn [Issue.step m_ok m_n]; destruct e, f, v; cbn [negb]; try (split; [intros (? & ?); discriminate|intros ((? & ? & ?) & ?); discriminate]);
    destruct (Z.ltb_spec n 0); (split; [intros (? & Q); try discriminate; auto|intros (_ & P); try lia; eauto]).
Qed.

Lemma add_same : forall f a n, add f a n a = f a + n.
Proof. intros. unfold add. rewrite Z.eqb_refl. reflexivity. Qed.
Lemma add_other : forall f a n x, x <> a -> add f a n x = f x.
Proof. intros f a n x N. unfold add. destruct (Z.eqb_spec x a); [contradiction|reflexivity]. Qed.

Lemma mint_ok : forall b n a b', step b (Mint true true false n a) = Ok b' -> 0 <= n /\ b' = (let b1 := mk_bank (add (k_bal b) mo n) (k_supply b + n) in if blocked a then b1 else ignore b1 (send b1 mo a n)).
Proof. intros b n a b' E. cbn [Issue.step negb] in E. destruct (Z.ltb_spec n 0); [discriminate|]. split; [assumption|]. unfold from_module, mint_coins in E. cbn [ignore] in E. inversion E. cbv zeta. destruct (blocked a); reflexivity. Qed.

(* issuing gives the receiver, and the supply, the amount, unless the receiver is blocked *)
Theorem C125_mint : forall b n a b', (forall x, 0 <= k_bal b x) -> blocked a = false -> step b (Mint true true false n a) = Ok b' -> only a n b b'.
Proof.
  intros b n a b' P B E. apply mint_ok in E as (Pn & ->). rewrite B. cbv zeta. unfold send. cbn [k_bal k_supply]. rewrite add_same. specialize (P mo). destruct (Z.ltb_spec (k_bal b mo + n) n); [lia|]. cbn [ignore].
  unfold only. cbn [k_bal k_supply]. split; [|split; [reflexivity|]].
  - rewrite add_same. destruct (Z.eq_dec a mo) as [->|N]; [rewrite !add_same; lia|rewrite !add_other by assumption; lia].
  - intros x N. rewrite add_other by assumption. destruct (Z.eq_dec x mo) as [->|N']; [rewrite !add_same; lia|rewrite !add_other by assumption; reflexivity].
Qed.

(* a blocked receiver gets nothing: the tokens are issued to the module, and this is reported as done *)
Theorem C125_blocked_refuted : forall b n a, 0 <= n -> blocked a = true -> exists b', step b (Mint true true false n a) = Ok b' /\ only mo n b b'.
Proof.
  intros b n a P B. destruct (proj2 (C125_accepted_iff b (Mint true true false n a))) as (b' & E); [cbn; auto|]. exists b'. split; [exact E|]. apply mint_ok in E as (_ & ->). rewrite B. cbv zeta.
  unfold only. cbn [k_bal k_supply]. rewrite add_same. split; [reflexivity|]. split; [reflexivity|]. intros x N. apply add_other. exact N.
Qed.

Lemma burn_ok : forall b n a b', step b (Burn true true false n a) = Ok b' -> 0 <= n /\ b' = (let b1 := ignore b (send b a mo n) in ignore b1 (burn_coins mo b1 n)).
Proof. intros b n a b' E. cbn [Issue.step negb] in E. destruct (Z.ltb_spec n 0); [discriminate|]. inversion E. auto. Qed.

(* destroying takes the amount from the sender, who has it, and from the supply *)
Theorem C125_burn_partial : forall b n a b', (forall x, 0 <= k_bal b x) -> n <= k_bal b a -> step b (Burn true true false n a) = Ok b' -> only a (- n) b b'.
Proof.
  intros b n a b' P H E. apply burn_ok in E as (Pn & ->). cbv zeta. unfold send. destruct (Z.ltb_spec (k_bal b a) n); [lia|]. cbn [ignore]. unfold burn_coins. cbn [k_bal k_supply]. rewrite add_same. pose proof (P mo) as Pm.
  assert (n <= add (k_bal b) a (- n) mo + n) as L by (destruct (Z.eq_dec mo a) as [->|N]; [rewrite add_same|rewrite add_other by assumption]; lia).
  destruct (Z.ltb_spec (add (k_bal b) a (- n) mo + n) n); [lia|]. cbn [ignore]. unfold only. cbn [k_bal k_supply]. split; [|split; [lia|]].
  - destruct (Z.eq_dec a mo) as [->|N]; [rewrite !add_same; lia|rewrite (add_other _ mo) by assumption; rewrite (add_other _ mo) by assumption; rewrite add_same; lia].
  - intros x N. destruct (Z.eq_dec x mo) as [->|N']; [rewrite !add_same, add_other by assumption; lia|rewrite !add_other by assumption; reflexivity].
Qed.

(* a sender who does not have the amount loses nothing: it is taken from what the module has *)
Theorem C125_burns_the_modules_refuted : forall b n a, 0 <= n -> k_bal b a < n <= k_bal b mo -> exists b', step b (Burn true true false n a) = Ok b' /\ only mo (- n) b b' /\ k_bal b' a = k_bal b a.
Proof.
  intros b n a P (H1 & H2). destruct (proj2 (C125_accepted_iff b (Burn true true false n a))) as (b' & E); [cbn; auto|]. exists b'. split; [exact E|]. apply burn_ok in E as (_ & ->). cbv zeta. unfold send.
  destruct (Z.ltb_spec (k_bal b a) n); [|lia]. cbn [ignore]. unfold burn_coins. destruct (Z.ltb_spec (k_bal b mo) n); [lia|]. cbn [ignore]. unfold only. cbn [k_bal k_supply]. rewrite add_same.
  split; [split; [reflexivity|split; [lia|intros x N; apply add_other; exact N]]|]. apply add_other. intros ->. lia.
Qed.
(* and if the module does not have it either, nothing happens and this is reported as done *)
Theorem C125_burns_nothing_refuted : forall b n a, 0 <= n -> k_bal b a < n -> k_bal b mo < n -> exists b', step b (Burn true true false n a) = Ok b' /\ same b b'.
Proof.
  intros b n a P H1 H2. destruct (proj2 (C125_accepted_iff b (Burn true true false n a))) as (b' & E); [cbn; auto|]. exists b'. split; [exact E|]. apply burn_ok in E as (_ & ->). cbv zeta. unfold send.
  destruct (Z.ltb_spec (k_bal b a) n); [|lia]. cbn [ignore]. unfold burn_coins. destruct (Z.ltb_spec (k_bal b mo) n); [|lia]. cbn [ignore]. split; reflexivity.
Qed.

Lemma sum_only : forall l a d b b', NoDup l -> In a l -> only a d b b' -> sum (k_bal b') l = sum (k_bal b) l + d.
Proof.
  intros l a d b b' N I (E1 & _ & E3). assert (forall q, ~ In a q -> sum (k_bal b') q = sum (k_bal b) q) as Q.
  { induction q as [|x q IH]; intro Nq; [reflexivity|]. cbn. change (fold_right (fun a0 s => k_bal b' a0 + s) 0 q) with (sum (k_bal b') q). rewrite IH by (intro; apply Nq; right; assumption). rewrite E3 by (intros ->; apply Nq; left; reflexivity). reflexivity. }
  induction N as [|x l Nx N IH]; [destruct I|]. unfold sum in *. cbn [fold_right]. destruct (Z.eq_dec x a) as [->|Na].
  - rewrite E1, (Q l Nx). lia.
  - destruct I as [->|I]; [contradiction|]. rewrite (IH I), (E3 x Na). lia.
Qed.
Lemma sum_same : forall l b b', same b b' -> sum (k_bal b') l = sum (k_bal b) l.
Proof. intros l b b' (_ & E). induction l as [|x l IH]; [reflexivity|]. unfold sum in *. cbn [fold_right]. rewrite IH, E. reflexivity. Qed.

Lemma step_kinds : forall b m b', (forall x, 0 <= k_bal b x) -> step b m = Ok b' -> same b b' \/ exists a d, only a d b b' /\ 0 <= k_bal b a + d /\ (a = mo \/ a = m_acc m).
Proof.
  intros b m b' P E. destruct (proj1 (C125_accepted_iff b m) (ex_intro _ b' E)) as (Ok & Pn). destruct m as [e f v n a|e f v n a]; cbn [m_ok m_n m_acc] in *; destruct Ok as (-> & -> & ->).
  - destruct (blocked a) eqn:B.
    + destruct (C125_blocked_refuted b n a Pn B) as (b2 & E2 & R). replace b2 with b' in R by congruence. right. exists mo, n. specialize (P mo). repeat split; try apply R; auto; lia.
    + right. exists a, n. pose proof (C125_mint b n a b' P B E) as R. specialize (P a). repeat split; try apply R; auto; lia.
  - destruct (Z.le_gt_cases n (k_bal b a)) as [L|L].
    + right. exists a, (- n). pose proof (C125_burn_partial b n a b' P L E) as R. repeat split; try apply R; auto; lia.
    + destruct (Z.le_gt_cases n (k_bal b mo)) as [L2|L2].
      * destruct (C125_burns_the_modules_refuted b n a Pn (conj L L2)) as (b2 & E2 & R & _). replace b2 with b' in R by congruence. right. exists mo, (- n). repeat split; try apply R; auto; lia.
      * destruct (C125_burns_nothing_refuted b n a Pn L L2) as (b2 & E2 & R). replace b2 with b' in R by congruence. auto.
Qed.
(* over all histories nobody gets into debt and the supply is what all accounts have together *)
Theorem C125_sound : forall l ms b, NoDup l -> In mo l -> (forall m, In m ms -> In (m_acc m) l) -> sound l b -> sound l (run b ms).
Proof.
  intros l ms. induction ms as [|m ms IH]; intros b N Im Ia So; [exact So|]. unfold Issue.run. cbn [fold_left]. apply IH; [exact N|exact Im|intros; apply Ia; right; assumption|].
  unfold next. destruct (Issue.step mo blocked b m) as [b'| |] eqn:E; [|exact So|exact So]. destruct So as (P & Su). destruct (step_kinds b m b' P E) as [R|(a & d & R & Pd & Q)].
  - split; [intro x; rewrite (proj2 R); apply P|]. rewrite (sum_same l b b' R), (proj1 R). exact Su.
  - split.
    + intro x. destruct (Z.eq_dec x a) as [->|Nx]; [rewrite (proj1 R); exact Pd|rewrite (proj2 (proj2 R) x Nx); apply P].
    + assert (In a l) as I by (destruct Q as [->| ->]; [exact Im|apply Ia; left; reflexivity]). rewrite (sum_only l a d b b' N I R), (proj1 (proj2 R)). lia.
Qed.
(* nobody but the receiver or sender named in a message, and the module, is touched *)
Theorem C125_others : forall ms b x, (forall y, 0 <= k_bal b y) -> x <> mo -> (forall m, In m ms -> m_acc m <> x) -> k_bal (run b ms) x = k_bal b x.
Proof.
  induction ms as [|m ms IH]; intros b x P Nm Na; [reflexivity|]. unfold Issue.run. cbn [fold_left].
  assert ((forall y, 0 <= k_bal (next mo blocked b m) y) /\ k_bal (next mo blocked b m) x = k_bal b x) as (P' & E').
  { unfold next. destruct (Issue.step mo blocked b m) as [b'| |] eqn:E; auto. destruct (step_kinds b m b' P E) as [R|(a & d & R & Pd & Q)].
    - split; [intro y; rewrite (proj2 R); apply P|apply (proj2 R)].
    - split; [intro y; destruct (Z.eq_dec y a) as [->|Ny]; [rewrite (proj1 R); exact Pd|rewrite (proj2 (proj2 R) y Ny); apply P]|]. apply (proj2 (proj2 R)). intros ->. destruct Q as [->|Q]; [contradiction|]. apply (Na m (or_introl eq_refl)). auto. }
  rewrite <- E'. apply IH; [exact P'|exact Nm|intros; apply Na; right; assumption].
Qed.
End Props.
Print Assumptions C125_accepted_iff.
Print Assumptions C125_mint.
Print Assumptions C125_blocked_refuted.
Print Assumptions C125_burn_partial.
Print Assumptions C125_burns_the_modules_refuted.
Print Assumptions C125_burns_nothing_refuted.
Print Assumptions C125_sound.
Print Assumptions C125_others.

(* account 0 is the module, which has 5; account 9 is blocked *)
Definition ex_b : bank := mk_bank (fun x => if x =? 0 then 5 else if x =? 1 then 20 else 0) 25.
Example ex_run : let b := run 0 (Z.eqb 9) ex_b [Mint true true false 7 2; Burn true true false 4 1; Mint true true false 3 9; Burn true true false 8 2; Burn false true false 1 1] in
  map (k_bal b) [0; 1; 2; 9] = [0; 16; 7; 0] /\ k_supply b = 23 /\ sound [0; 1; 2; 9] ex_b.
Proof. vm_compute. split; [reflexivity|]. split; [reflexivity|]. split; [|reflexivity]. intros [|x|x]; cbn; try discriminate; destruct x; discriminate. Qed.
