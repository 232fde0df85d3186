(* x/epochs: the epoch clock.  Times and durations are nanoseconds as unbounded
   Z (Go: time.Time, int64 durations); the int64 epoch counter is Z as well. *)
From Verif Require Import Lib.Base.
From Coq Require Export String.
Open Scope Z_scope.

(* types/genesis.pb.go EpochInfo *)
Record epoch := Epoch {
  identifier : string;
  start_time : Z;
  duration : Z;
  current : Z;                 (* CurrentEpoch *)
  current_start_time : Z;      (* CurrentEpochStartTime *)
  started : bool;              (* EpochCountingStarted *)
  current_start_height : Z     (* CurrentEpochStartHeight *)
}.

(* hook invocations, in call order (keeper/hooks.go 34-41) *)
Inductive hook_call :=
| AfterEpochEnd (id : string) (n : Z)
| BeforeEpochStart (id : string) (n : Z).

(* types/epoch_info.go 23-37 Validate; TrimSpace is simplified to "non-empty" *)
Definition validate (e : epoch) : bool :=
  negb (String.eqb (identifier e) "") && negb (duration e =? 0) &&
  (0 <=? current e) && (0 <=? current_start_height e).

(* types/epoch_info.go 10-14 StartInitialEpoch *)
Definition start_initial (e : epoch) : epoch :=
  Epoch (identifier e) (start_time e) (duration e) 1 (start_time e) true (current_start_height e).

(* types/epoch_info.go 17-20 EndEpoch *)
Definition end_epoch (e : epoch) : epoch :=
  Epoch (identifier e) (start_time e) (duration e) (current e + 1)
        (current_start_time e + duration e) (started e) (current_start_height e).

Definition set_height (e : epoch) (h : Z) : epoch :=
  Epoch (identifier e) (start_time e) (duration e) (current e)
        (current_start_time e) (started e) h.

(* keeper/epoch_infos.go: the store, one entry per identifier *)
Definition store := list epoch.

(* keeper/epoch_infos.go 25-29 SetEpochInfo on an existing identifier *)
Definition set_epoch_info (s : store) (e : epoch) : store :=
  map (fun x => if String.eqb (identifier x) (identifier e) then e else x) s.

(* keeper/epoch_infos.go 12-22 GetEpochInfo *)
Definition get_epoch_info (s : store) (id : string) : option epoch :=
  find (fun x => String.eqb (identifier x) id) s.

(* keeper/abci.go 19-63: the callback run for each stored epoch *)
Definition visit (time height : Z) (acc : store * list hook_call) (e0 : epoch)
  : store * list hook_call :=
  let '(s, tr) := acc in
  let should_start := negb (started e0) && negb (time <? start_time e0) in
  let end_time := current_start_time e0 + duration e0 in
  let should_end := (end_time <? time) && negb should_start && negb (time <? start_time e0) in
  let e := set_height e0 height in
  if should_start then
    let e := start_initial e in
    (set_epoch_info s e, tr ++ [BeforeEpochStart (identifier e) (current e)])
  else if should_end then
    let e := end_epoch e in
    (set_epoch_info s e,
     tr ++ [AfterEpochEnd (identifier e) (current e); BeforeEpochStart (identifier e) (current e)])
  else (s, tr).

(* keeper/abci.go 14-65 BeginBlocker.  The iterator reads each epoch before
   its own entry is written, so iterating over the initial list is the same. *)
Definition begin_blocker (s : store) (time height : Z) : store * list hook_call :=
  fold_left (visit time height) s (s, []).

(* a chain: blocks given by (time, height) *)
Fixpoint run (s : store) (blocks : list (Z * Z)) : store * list hook_call :=
  match blocks with
  | [] => (s, [])
  | (t, h) :: bs =>
      let '(s1, tr1) := begin_blocker s t h in
      let '(s2, tr2) := run s1 bs in
      (s2, tr1 ++ tr2)
  end.

(* genesis.go 14-26 InitGenesis; zero StartTime is replaced by the block time.
   zero_time is Go's time.Time{} *)
Definition init_epoch (zero_time time height : Z) (e : epoch) : epoch :=
  Epoch (identifier e)
        (if start_time e =? zero_time then time else start_time e)
        (duration e) (current e) (current_start_time e) (started e) height.
Definition init_genesis (zero_time time height : Z) (es : list epoch) : store :=
  map (init_epoch zero_time time height) es.

(* types/genesis.go 40-54 Validate *)
Fixpoint genesis_valid_from (seen : list string) (es : list epoch) : bool :=
  match es with
  | [] => true
  | e :: es' =>
      negb (existsb (String.eqb (identifier e)) seen) && validate e &&
      genesis_valid_from (identifier e :: seen) es'
  end.
Definition genesis_valid (es : list epoch) : bool := genesis_valid_from [] es.
