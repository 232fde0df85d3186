(** What the limits promise. *)
From Verif Require Import Lib.Base Lib.Bytes Limits.Model.
From Coq Require Import NArith.
Open Scope Z_scope.

Definition time_of (e : event) : Z :=
  match e with Arrive t _ => t | Finish t _ _ _ _ => t | Reset t => t end.

(** The clock does not go back. *)
Fixpoint in_order (from : Z) (es : list event) : Prop :=
  match es with
  | [] => True
  | e :: r => from <= time_of e /\ in_order (time_of e) r
  end.

Definition no_reset (es : list event) : Prop :=
  Forall (fun e => match e with Reset _ => False | _ => True end) es.

(** A request counts against the limit of its client once it got past the
    connection limit and that limit; against the limit of its method once it
    got past both. *)
Definition counts (o : outcome) : bool :=
  match o with TooFastMethod | TooMuchTime | Served => true | _ => false end.
Definition counts_method (o : outcome) : bool :=
  match o with TooMuchTime | Served => true | _ => false end.

Definition within (w now t : Z) : bool := (now - w <? t) && (t <=? now).

(** How many requests counted in the window that ends now. *)
Definition count (w now : Z) (k : text) (log : list entry) : Z :=
  Z.of_nat (length (filter (fun e => beqb k (e_client e) && counts (e_out e) && within w now (e_time e)) log)).

Definition count_method (w now : Z) (k m : text) (log : list entry) : Z :=
  Z.of_nat (length (filter (fun e => beqb k (e_client e) && beqb m (e_method e) &&
                                     counts_method (e_out e) && within w now (e_time e)) log)).

Definition served (w now : Z) (k : text) (log : list entry) : Z :=
  Z.of_nat (length (filter (fun e => beqb k (e_client e) &&
                                     match e_out e with Served => true | _ => false end &&
                                     within w now (e_time e)) log)).

(** The limit of a method: the last one set, or the general one. *)
Fixpoint limit_of (d : Z) (l : list (text * Z)) (m : text) : Z :=
  match l with
  | [] => d
  | (k, x) :: r => limit_of (if beqb k m then x else d) r m
  end.

(** The answer the request that came last got. *)
Definition answer (s : server) : option outcome :=
  match rev (v_log s) with e :: _ => Some (e_out e) | [] => None end.

(** No request comes in while one of the same client is being served. *)
Definition one_at_a_time (ema : Z -> Z -> Z) (g : config) (es : list event) : Prop :=
  forall n now q, nth_error es n = Some (Arrive now q) ->
  ~ In (client q) (v_flying (run ema g (firstn n es))).

(** Only requests that are being served end. *)
Definition sound (ema : Z -> Z -> Z) (g : config) (es : list event) : Prop :=
  forall n now k m d o, nth_error es n = Some (Finish now k m d o) ->
  In k (v_flying (run ema g (firstn n es))).

(** The time that the requests of a client took which ended, and were not cut
    off, in the window that ends now. *)
Definition spent (w now : Z) (k : text) (es : list event) : Z :=
  fold_right (fun e acc =>
    match e with
    | Finish t k' _ d false => if beqb k k' && (now - w <? t) then d + acc else acc
    | _ => acc
    end) 0 es.

Definition durations_within (D : Z) (es : list event) : Prop :=
  Forall (fun e => match e with Finish _ _ _ d _ => 0 <= d <= D | _ => True end) es.

(** A limiter used by several goroutines: requests ask, the cleaner cleans. *)
Inductive use := Ask (now : Z) (ip : text) | Clean (now : Z).

Definition use_time (u : use) : Z := match u with Ask t _ => t | Clean t => t end.

Fixpoint uses_in_order (from : Z) (us : list use) : Prop :=
  match us with
  | [] => True
  | u :: r => from <= use_time u /\ uses_in_order (use_time u) r
  end.

Fixpoint answers (rl : limiter) (us : list use) : list bool :=
  match us with
  | [] => []
  | Ask t ip :: r => fst (allow rl t ip) :: answers (snd (allow rl t ip)) r
  | Clean t :: r => answers (cleanup rl t) r
  end.

Definition is_ask (u : use) : bool := match u with Ask _ _ => true | Clean _ => false end.

(** How long the next request of a client is expected to take. *)
Definition estimate (c : tracker) (k m : text) : Z :=
  match c_entries c k with
  | [] => 0
  | _ => if 0 <? c_average c m then c_average c m else default_time
  end.

(** A request without the headers that name its client, from a port of a host. *)
Definition from_port (host port : text) : request := Request [] [] (host ++ 58%N :: port) [].
Definition digits (s : text) : Prop := Forall (fun c => 48 <= c <= 57)%N s.

(** A request that says for whom it was forwarded. *)
Definition forwarded (name : text) : request := Request name [] [] [].
