(* What an epoch clock is, independent of the implementation. *)
From Verif Require Import Lib.Base Epochs.Model.
Open Scope Z_scope.

(* the clock shows epoch number n >= 1 exactly when the current epoch began
   (n-1) durations after the start *)
Definition on_grid (e : epoch) : Prop :=
  started e = true ->
  1 <= current e /\
  current_start_time e = start_time e + (current e - 1) * duration e.

(* block times never go back *)
Fixpoint non_decreasing (t0 : Z) (bs : list (Z * Z)) : Prop :=
  match bs with
  | [] => True
  | (t, _) :: bs' => t0 <= t /\ non_decreasing t bs'
  end.

(* consecutive block times at most d apart *)
Fixpoint gaps_at_most (d t0 : Z) (bs : list (Z * Z)) : Prop :=
  match bs with
  | [] => True
  | (t, _) :: bs' => t0 <= t <= t0 + d /\ gaps_at_most d t bs'
  end.

Definition last_time (t0 : Z) (bs : list (Z * Z)) : Z := fold_left (fun _ b => fst b) bs t0.

(* calls that concern one identifier *)
Definition about (id : string) (c : hook_call) : bool :=
  match c with AfterEpochEnd i _ | BeforeEpochStart i _ => String.eqb i id end.

(* expected trace of the documented contract when the counter goes from a
   running epoch n to n+k: each epoch end is announced with its own number *)
Fixpoint documented_ticks (id : string) (n : Z) (k : nat) : list hook_call :=
  match k with
  | O => []
  | S k' => AfterEpochEnd id n :: BeforeEpochStart id (n + 1) :: documented_ticks id (n + 1) k'
  end.

(* what the code does: the end is announced with the number of the next epoch *)
Fixpoint actual_ticks (id : string) (n : Z) (k : nat) : list hook_call :=
  match k with
  | O => []
  | S k' => AfterEpochEnd id (n + 1) :: BeforeEpochStart id (n + 1) :: actual_ticks id (n + 1) k'
  end.
