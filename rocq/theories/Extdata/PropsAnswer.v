(* C88: which answer is delivered. *)
From Coq Require Import Permutation.
From Verif Require Import Lib.Base Lib.Bytes.
From Verif Require Import Extdata.Model Extdata.Spec Extdata.Proofs Extdata.HistoryProofs Extdata.Example.
Open Scope Z_scope.

Section C88.
Variables (BASE ESC : Z) (blocked : Z -> bool) (parse_err json_err : bytes -> bytes).
Notation end_block := (end_block ESC blocked parse_err json_err).
Notation person := (person ESC blocked).
Notation result := (result parse_err json_err).

Section Block.
Variables (e : env) (b : bridge) (s : st).
Hypothesis G : good s.
Hypothesis Or : any_order e.
Hypothesis Po : forall v, 0 <= e_power e v.
Hypothesis Ev : b_evm b = true.
Hypothesis Sf : forall r, In r (s_reqs s) -> q_hid r = b_hid b ->
  e_pair e (q_feec r) = Some BASE /\ person (q_sender r) /\ forall v, In v (q_votes r) -> person v.
Hypothesis Hb : total (map q_fee (filter (fun r => q_hid r =? b_hid b) (s_reqs s))) <= s_bal s ESC BASE.

(* Every winning request gets an answer for its callback: the answer of one of its claims, and
   no other answer was given more often. *)
Theorem C88_most_given won w :
  s_done (end_block e b s) = s_done s ++ won -> In w won -> Forall no_bar (q_claims w) ->
  exists c, In c (q_claims w) /\ s_cb (end_block e b s) (q_cron w) = Some (result c) /\
    forall c', In c' (q_claims w) -> (backers (q_claims w) c' <= backers (q_claims w) c)%nat.
Proof.
  intros D W F.
  destruct (block_spec BASE ESC blocked parse_err json_err e b s G Or Po Ev) as (A1 & _ & _ & _ & _ & _ & _ & A8 & _).
  { intros x X H. destruct (Sf x X H) as (B1 & B2 & B3).
    destruct (g_each _ G x X) as (_ & _ & D' & _ & E & _). now split. }
  { exact Hb. }
  rewrite A1 in D. apply app_inv_head in D. subst won.
  destruct (A8 w W) as (c & B & C). exists c.
  destruct (best_most e _ c Or F B) as [M1 M2]. tauto.
Qed.

(* If one answer was given more often than every other, it is the one delivered, in whatever
   order the program visits its map: all nodes agree. *)
Theorem C88_clear_winner won w c :
  s_done (end_block e b s) = s_done s ++ won -> In w won -> Forall no_bar (q_claims w) ->
  In c (q_claims w) ->
  (forall c', In c' (q_claims w) -> ~ same_answer c c' ->
     (backers (q_claims w) c' < backers (q_claims w) c)%nat) ->
  s_cb (end_block e b s) (q_cron w) = Some (result c).
Proof.
  intros D W F I M.
  destruct (block_spec BASE ESC blocked parse_err json_err e b s G Or Po Ev) as (A1 & _ & _ & _ & _ & _ & _ & A8 & _).
  { intros x X H. destruct (Sf x X H) as (B1 & B2 & B3).
    destruct (g_each _ G x X) as (_ & _ & D' & _ & E & _). now split. }
  { exact Hb. }
  rewrite A1 in D. apply app_inv_head in D. subst won.
  destruct (A8 w W) as (c0 & B & C).
  destruct (best_clear e _ c Or F I M) as (c' & B' & _ & [S1 S2]).
  rewrite B in B'. injection B' as <-. rewrite C. f_equal. unfold Model.result. now rewrite S1, S2.
Qed.

(* No other callback gets anything. *)
Theorem C88_nobody_else won k :
  s_done (end_block e b s) = s_done s ++ won -> ~ In k (map q_cron won) ->
  s_cb (end_block e b s) k = s_cb s k.
Proof.
  intros D K.
  destruct (block_spec BASE ESC blocked parse_err json_err e b s G Or Po Ev) as (A1 & _ & _ & _ & _ & _ & _ & _ & A9 & _).
  { intros x X H. destruct (Sf x X H) as (B1 & B2 & B3).
    destruct (g_each _ G x X) as (_ & _ & D' & _ & E & _). now split. }
  { exact Hb. }
  rewrite A1 in D. apply app_inv_head in D. subst won. now apply A9.
Qed.
End Block.

(* What is delivered: the bytes whose hex text was claimed. *)
Theorem C88_decoded c data err :
  Forall (fun x => (x < 256)%N) data -> Forall (fun x => (x < 256)%N) err ->
  c_res c = hexenc data -> c_err c = hexenc err -> result c = (data, err).
Proof.
  intros H1 H2 E1 E2. unfold Model.result. now rewrite E1, E2, !hexdec_enc.
Qed.
(* A text that is not hex is an error for the callback; it does not stop the block. *)
Theorem C88_not_hex c :
  (hexdec (c_res c) = None -> result c = ([], parse_err (c_res c))) /\
  (forall x data, hexdec (c_res c) = Some (x :: data) -> hexdec (c_err c) = None -> result c = (x :: data, [])) /\
  (hexdec (c_res c) = Some [] -> hexdec (c_err c) = None -> result c = ([], json_err (c_err c))).
Proof.
  unfold Model.result. split; [|split].
  - intro H. now rewrite H.
  - intros x data H1 H2. now rewrite H1, H2.
  - intros H1 H2. now rewrite H1, H2.
Qed.
End C88.

(* and a text is hex when it is pairs of digits 0-9, a-f or A-F, nothing left over *)
Definition hex_digit (c : N) : Prop := (48 <= c <= 57 \/ 65 <= c <= 70 \/ 97 <= c <= 102)%N.
Theorem C88_hex_text t : (exists b, hexdec t = Some b) <-> (Nat.even (length t) = true /\ Forall hex_digit t).
Proof.
  assert (V : forall c, (exists v, hexval c = Some v) <-> hex_digit c).
  { intros c. unfold hexval, hex_digit. split.
    - intros [v H]. revert H.
      destruct ((48 <=? c) && (c <=? 57))%N eqn:A; [lia|].
      destruct ((97 <=? c) && (c <=? 102))%N eqn:B; [lia|].
      destruct ((65 <=? c) && (c <=? 70))%N eqn:C; [lia|discriminate].
    - intros H.
      destruct ((48 <=? c) && (c <=? 57))%N eqn:A; [eexists; reflexivity|].
      destruct ((97 <=? c) && (c <=? 102))%N eqn:B; [eexists; reflexivity|].
      destruct ((65 <=? c) && (c <=? 70))%N eqn:C; [eexists; reflexivity|lia]. }
  assert (G : forall n t, (length t <= n)%nat -> (exists b, hexdec t = Some b) <-> (Nat.even (length t) = true /\ Forall hex_digit t)).
  2:{ exact (G (length t) t (le_n _)). }
  induction n as [|n IH]; intros [|a [|b tl]] L; cbn [length] in L; try lia.
  1,2: split; [intros _; split; [reflexivity|constructor]|intros _; eexists; reflexivity].
  - split; [intros [x H]; discriminate|intros [H _]; discriminate].
  - cbn [length hexdec Nat.even]. rewrite Forall_cons_iff, Forall_cons_iff, <- (V a), <- (V b).
    specialize (IH tl ltac:(lia)).
    split.
    + intros [x H]. destruct (hexval a) as [va|]; [|discriminate]. destruct (hexval b) as [vb|]; [|discriminate].
      destruct (hexdec tl) as [z|]; [|discriminate].
      destruct (proj1 IH (ex_intro _ z eq_refl)) as [E F].
      split; [exact E|]. split; [eexists; reflexivity|]. split; [eexists; reflexivity|exact F].
    + intros [E [[va ->] [[vb ->] F]]]. destruct (proj2 IH (conj E F)) as [z ->]. eexists; reflexivity.
Qed.
Example C88_odd : hexdec [48; 49; 50]%N = None /\ hexdec [48; 71]%N = None.
Proof. split; reflexivity. Qed.

(* two for "61", one for "62" *)
Definition split_vote : list (env * op) :=
  [(at_height 10, Ask (question 50 7000 7 1)); (at_height 20, Answer 21 1 7 (no 1));
   (at_height 20, Answer 21 1 7 (yes 2)); (at_height 20, Answer 21 1 7 (yes 3))].
Example C88_split : fine split_vote /\
  s_cb (ex_end (at_height 60) evm (from split_vote)) 1 = Some ([97%N], []) /\
  map (fun r => Forall no_bar (q_claims r)) (s_reqs (from split_vote)) = [Forall no_bar [no 1; yes 2; yes 3]] /\
  backers [no 1; yes 2; yes 3] (yes 2) = 2%nat /\ backers [no 1; yes 2; yes 3] (no 1) = 1%nat /\
  Forall no_bar [no 1; yes 2; yes 3].
Proof.
  split; [unfold split_vote, start; fine_tac|]. split; [now vm_compute|]. split; [now vm_compute|].
  split; [now vm_compute|]. split; [now vm_compute|].
  repeat constructor; unfold no_bar; cbn; lia.
Qed.
Example C88_hex : hexdec (hexenc [0; 127; 255]%N) = Some [0; 127; 255]%N.
Proof. now vm_compute. Qed.

(* Not so: "all nodes deliver the same answer". In a tie the program takes the answer its map
   shows first, and Go shows maps in an order that differs from run to run. *)
Definition tie : list (env * op) :=
  [(at_height 10, Ask (question 50 7000 7 1)); (at_height 20, Answer 21 1 7 (no 1));
   (at_height 20, Answer 21 1 7 (yes 2))].
Theorem C88_tie_refuted :
  exists l e1 e2, fine l /\
    usual BASE ESC COIN blocked cron_acct e1 (EndBlock evm) /\
    usual BASE ESC COIN blocked cron_acct e2 (EndBlock evm) /\
    e1 = world own_key (fun l => l) 60 /\ e2 = world own_key (@List.rev _) 60 /\
    s_cb (ex_end e1 evm (from l)) 1 = Some ([98%N], []) /\
    s_cb (ex_end e2 evm (from l)) 1 = Some ([97%N], []).
Proof.
  exists tie, (world own_key (fun l => l) 60), (world own_key (@List.rev _) 60).
  split; [unfold tie, start; fine_tac|].
  split; [apply usual_intro; [lia|intro; apply Permutation_refl|exact Logic.I]|].
  split; [apply usual_intro; [lia|intro; apply Permutation_sym, Permutation_rev|exact Logic.I]|].
  split; [reflexivity|]. split; [reflexivity|]. split; now vm_compute.
Qed.

(* Not so: "answers are counted apart". The texts are joined with the sign "|": different
   answers with that sign are counted as one, and can beat the answer given most often. *)
Definition barred (v : Z) (a e : bytes) : claim := mk_claim v a e 0.
Theorem C88_bar_refuted :
  exists cs c, best (at_height 60) cs = Some c /\ backers cs c = 1%nat /\
    exists c', In c' cs /\ backers cs c' = 2%nat /\ no_bar c' /\ NoDup (map c_orch cs).
Proof.
  exists [yes 1; yes 2; barred 3 [97] [98; 124; 99; 124; 100]; barred 4 [97; 124; 98] [99; 124; 100];
          barred 5 [97; 124; 98; 124; 99] [100]]%N.
  exists (barred 5 [97; 124; 98; 124; 99] [100])%N.
  split; [now vm_compute|]. split; [now vm_compute|]. exists (yes 1).
  split; [now left|]. split; [now vm_compute|]. split; [unfold no_bar; cbn; lia|].
  vm_compute. repeat constructor; cbn; intuition discriminate.
Qed.

(* Not so: "the answer delivered is backed by 33 percent of the power". The votes are added up
   whatever they say, and the answer is chosen by number of heads: here 30 percent outvote 40. *)
Definition heads : list (env * op) :=
  [(at_height 10, Ask (question 50 7000 7 1)); (at_height 20, Answer 21 1 7 (no 1));
   (at_height 20, Answer 21 1 7 (yes 3)); (at_height 20, Answer 21 1 7 (yes 4))].
Theorem C88_backing_refuted :
  exists l e, fine l /\ usual BASE ESC COIN blocked cron_acct e (EndBlock evm) /\
    s_cb (ex_end e evm (from l)) 1 = Some ([97%N], []) /\
    (forall r, In r (s_reqs (from l)) -> q_claims r = [no 1; yes 3; yes 4]) /\
    total (map (e_power e) [3; 4]) = 30 /\ total (map (e_power e) [1]) = 40 /\ third e 21 = 33.
Proof.
  exists heads, (at_height 60). split; [unfold heads, start; fine_tac|].
  split; [apply usual_intro; [lia|intro; apply Permutation_refl|exact Logic.I]|].
  split; [now vm_compute|]. split.
  - intros r R. vm_compute in R. destruct R as [<-|[]]. reflexivity.
  - repeat split; now vm_compute.
Qed.

(* Not so: "only those who gave the answer delivered are paid". *)
Theorem C88_wrong_paid_refuted :
  exists l e, fine l /\ usual BASE ESC COIN blocked cron_acct e (EndBlock evm) /\
    let s' := ex_end e evm (from l) in
    s_cb s' 1 = Some ([97%N], []) /\ map q_claims (s_done s') = [[no 1; yes 2; yes 3]] /\
    s_bal (from l) 1 BASE = 0 /\ s_bal s' 1 BASE = 3 /\ s_bal s' 2 BASE = 3.
Proof.
  exists split_vote, (at_height 60). split; [unfold split_vote, start; fine_tac|].
  split; [apply usual_intro; [lia|intro; apply Permutation_refl|exact Logic.I]|].
  cbn zeta. repeat split; now vm_compute.
Qed.

Print Assumptions C88_most_given.
Print Assumptions C88_clear_winner.
Print Assumptions C88_nobody_else.
Print Assumptions C88_decoded.
Print Assumptions C88_not_hex.
Print Assumptions C88_hex_text.
Print Assumptions C88_tie_refuted.
Print Assumptions C88_bar_refuted.
Print Assumptions C88_backing_refuted.
Print Assumptions C88_wrong_paid_refuted.
