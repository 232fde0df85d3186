(* A small chain for the examples. *)
From Coq Require Import Permutation.
From Verif Require Import Lib.Base Lib.Bytes.
From Verif Require Import Extdata.Model Extdata.Spec Extdata.Proofs Extdata.HistoryProofs.
Open Scope Z_scope.

Definition BASE := 1. Definition COIN := 900. Definition ESC := 999.
Definition blocked (a : Z) : bool := a =? ESC.
Definition cron_acct (k : Z) : Z := 100000 + Z.abs k.
Definition nothing : bytes -> bytes := fun _ => [].
Definition evm : bridge := mk_bridge 21 10 true.
(* validators 1, 2, 3 and 4 *)
Definition power (v : Z) : Z :=
  if v =? 1 then 40 else if v =? 2 then 30 else if v =? 3 then 20 else if v =? 4 then 10 else 0.
(* each answers with its own key; [by_other] : with the key of account 70 + v *)
Definition own_key (h o : Z) : option Z := if (1 <=? o) && (o <=? 4) then Some o else None.
Definition other_key (h o : Z) : option Z := if (71 <=? o) && (o <=? 74) then Some (o - 70) else None.
Definition world (keys : Z -> Z -> option Z) (shuffle : list (bytes * Z) -> list (bytes * Z)) (h : Z) : env :=
  mk_env h 1 (fun c => if c =? 5 then Some evm else None) (Some COIN)
    (fun c => if c =? COIN then Some BASE else None) [1; 2; 3; 4] power (fun _ _ => true)
    keys (fun v => (1 <=? v) && (v <=? 4)) shuffle.
Definition at_height : Z -> env := world own_key (fun l => l).
(* the fee is 10 times the price *)
Definition question (from caller contract price : Z) : ask_msg :=
  mk_ask from caller 5 contract [1%N] true price 20.
Definition yes (v : Z) : claim := mk_claim v [54; 49]%N [] 0.     (* "61" *)
Definition no (v : Z) : claim := mk_claim v [54; 50]%N [] 0.      (* "62" *)
Definition stats0 (h v : Z) : option (Z * Z) := if (1 <=? v) && (v <=? 4) then Some (0, 0) else None.
Definition ex_run := run BASE ESC blocked cron_acct nothing nothing.
Definition ex_end := end_block ESC blocked nothing nothing.
Definition start : list (env * op) :=
  [(at_height 1, Gain 50 BASE 1000); (at_height 1, Gain 60 BASE 1000)].
Definition from (l : list (env * op)) : st := ex_run (start ++ l) (empty_st stats0).
Definition fine (l : list (env * op)) : Prop :=
  Forall (fun q : env * op => usual BASE ESC COIN blocked cron_acct (fst q) (snd q)) (start ++ l).

Lemma powers keys sh h v : 0 <= e_power (world keys sh h) v.
Proof. cbn [world e_power]. unfold power. repeat destruct (_ =? _); lia. Qed.
Lemma crons k : cron_acct k <> ESC.
Proof. unfold cron_acct, ESC. lia. Qed.

Lemma usual_intro keys sh h o :
  0 <= h < 2 ^ 63 -> (forall l, Permutation (sh l) l) ->
  match o with
  | Ask m => 0 <= m_gas m /\ 0 < m_origin m < 900
  | Answer _ _ _ c => 0 < c_orch c < 900
  | _ => True
  end -> usual BASE ESC COIN blocked cron_acct (world keys sh h) o.
Proof.
  intros H P O. split; [exact H|cbn; lia|apply powers|exact P|right; reflexivity|reflexivity|].
  unfold person, blocked, cron_acct, ESC.
  destruct o; try exact Logic.I.
  - destruct O as [O1 O2]. split; [exact O1|]. split; [|intro k; lia].
    split; [apply Z.eqb_neq; lia|lia].
  - split; [apply Z.eqb_neq; lia|lia].
Qed.
Ltac fine_tac :=
  unfold fine; repeat (apply Forall_cons; [apply usual_intro;
    [lia|intro; first [apply Permutation_refl | apply Permutation_sym, Permutation_rev]|cbn; lia]|]);
  apply Forall_nil.

(* two people ask contract 7; validators 1 and 2 answer the second request only *)
Definition two : list (env * op) :=
  [(at_height 10, Ask (question 50 7000 7 1)); (at_height 10, Ask (question 60 7000 7 1));
   (at_height 20, Answer 21 2 7 (yes 1)); (at_height 20, Answer 21 2 7 (yes 2))].
Example two_fine : fine two.
Proof. unfold two, start. fine_tac. Qed.
