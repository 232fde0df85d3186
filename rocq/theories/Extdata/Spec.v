(* What users and validators rely on when asking other chains for data. *)
From Coq Require Import Permutation.
From Verif Require Import Lib.Base Lib.Bytes.
From Verif Require Import Extdata.Model.
Open Scope Z_scope.

Definition total (l : list Z) : Z := fold_right Z.add 0 l.

(* nobody may answer any more *)
Definition expired (e : env) (r : req) : Prop := q_timeout r < e_height e.
(* answers are counted in the last 50 blocks *)
Definition open (e : env) (r : req) : Prop :=
  q_timeout r - 50 <= e_height e /\ e_height e <= q_timeout r.
Definition expired_b (e : env) (r : req) : bool := q_timeout r <? e_height e.
Definition open_b (e : env) (r : req) : bool :=
  (q_timeout r - 50 <=? e_height e) && (e_height e <=? q_timeout r).

(* the power of those who answered a request *)
Definition voted (e : env) (r : req) : Z := total (map (e_power e) (q_votes r)).
(* 33 percent of the power of the bonded validators of a bridge, rounded down *)
Definition third (e : env) (h : Z) : Z :=
  33 * total (map (e_power e) (filter (e_keyed e h) (e_vals e))) / 100.

(* the part of the fee of each of those who answered *)
Definition share (r : req) : Z := q_fee r / Z.of_nat (length (q_votes r)).
Definition voter (a : Z) (r : req) : bool := existsb (Z.eqb a) (q_votes r).

(* a later request to the same contract *)
Definition overtakes (w r : req) : Prop :=
  q_hid r = q_hid w /\ q_contract r = q_contract w /\ q_nonce r < q_nonce w.

(* two claims give the same answer *)
Definition same_answer (c c' : claim) : Prop := c_res c = c_res c' /\ c_err c = c_err c'.
Definition same_answer_b (c c' : claim) : bool :=
  beqb (c_res c) (c_res c') && beqb (c_err c) (c_err c').
(* how many of the claims give the answer of c *)
Definition backers (cs : list claim) (c : claim) : nat := length (filter (same_answer_b c) cs).
(* no answer holds the sign "|" *)
Definition no_bar (c : claim) : Prop := ~ In 124%N (c_res c).

(* Go may visit a map in any order *)
Definition any_order (e : env) : Prop := forall l, Permutation (e_shuffle e l) l.

(* the state between two operations *)
Record good (s : st) : Prop := {
  g_keys : NoDup (map (fun r => (q_hid r, q_nonce r)) (s_reqs s));
  g_last : forall h, 0 <= s_last s h;
  g_crons : NoDup (map q_cron (s_reqs s));
  g_each : forall r, In r (s_reqs s) ->
    1 <= q_nonce r <= s_last s (q_hid r) /\ q_cron r <= s_cron s /\ 0 <= q_fee r /\
    q_votes r = map c_orch (q_claims r) /\ NoDup (q_votes r) /\
    0 <= q_block r /\ q_timeout r = q_block r + 99 /\ q_timeout r < 2 ^ 64
}.

(* the fees of the pending requests *)
Definition pending (s : st) : Z := total (map q_fee (s_reqs s)).

(* bytes as hex text *)
Definition digit (n : N) : N := (if n <? 10 then 48 + n else 87 + n)%N.
Fixpoint hexenc (b : bytes) : bytes :=
  match b with [] => [] | x :: tl => digit (x / 16) :: digit (x mod 16) :: hexenc tl end.
