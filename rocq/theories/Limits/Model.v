(** The limits a node puts on JSON-RPC requests.
    Models /repo/helios-chain/server/middleware/{rate_limiter,
    method_rate_limiter,connection_limiter,compute_time_tracker,
    method_tracker,middleware}.go, the order in which server/json_rpc.go:259-540
    applies them, and the reset route of server/routes/rpc_routes.go:190-213.

    Times and durations are nanoseconds.  A request is taken to read the clock
    once on arrival and once when it ends; the program reads it again at each
    check, at most a little later.  Logging and metrics are left out. *)
From Verif Require Import Lib.Base Lib.Bytes.
From Coq Require Import NArith.
Open Scope Z_scope.

Definition text := bytes.

(** ** Requests per window (rate_limiter.go) *)

(** The map from client to the times of its requests.  A client that is absent
    and one without requests are treated alike by the program. *)
Definition history := text -> list Z.

Definition upd {A} (h : text -> A) (k : text) (v : A) : text -> A :=
  fun k' => if beqb k k' then v else h k'.

Record limiter := Limiter { l_limit : Z; l_window : Z; l_reqs : history }.

(** NewRateLimiter, 16-23 *)
Definition new_limiter (limit window : Z) : limiter := Limiter limit window (fun _ => []).

(** reqTime.After(windowStart) *)
Definition recent (w now : Z) (l : list Z) : list Z := filter (fun t => now - w <? t) l.

(** Allow, 26-58 *)
Definition allow (rl : limiter) (now : Z) (ip : text) : bool * limiter :=
  let valid := recent (l_window rl) now (l_reqs rl ip) in
  if l_limit rl <=? Z.of_nat (length valid) then (false, rl)
  else (true, Limiter (l_limit rl) (l_window rl) (upd (l_reqs rl) ip (valid ++ [now]))).

(** Cleanup, 61-83 *)
Definition cleanup (rl : limiter) (now : Z) : limiter :=
  Limiter (l_limit rl) (l_window rl) (fun k => recent (l_window rl) now (l_reqs rl k)).

(** Reset, 110-119 *)
Definition reset_limiter (rl : limiter) : limiter := Limiter (l_limit rl) (l_window rl) (fun _ => []).

(** ** Requests per window and method (method_rate_limiter.go) *)

Record mlimiter := Mlimiter { ml_default : Z; ml_window : Z; ml_limits : text -> option limiter }.

Definition new_mlimiter (limit window : Z) : mlimiter := Mlimiter limit window (fun _ => None).

(** SetMethodLimit, 26-31 *)
Definition set_method_limit (m : mlimiter) (method : text) (limit : Z) : mlimiter :=
  Mlimiter (ml_default m) (ml_window m)
           (upd (ml_limits m) method (Some (new_limiter limit (ml_window m)))).

Definition method_limiter (m : mlimiter) (method : text) : limiter :=
  match ml_limits m method with
  | Some l => l
  | None => new_limiter (ml_default m) (ml_window m)
  end.

(** Allow, 34-47 *)
Definition mallow (m : mlimiter) (now : Z) (method ip : text) : bool * mlimiter :=
  let (b, l) := allow (method_limiter m method) now ip in
  (b, Mlimiter (ml_default m) (ml_window m) (upd (ml_limits m) method (Some l))).

(** Reset, 80-87 *)
Definition reset_mlimiter (m : mlimiter) : mlimiter :=
  Mlimiter (ml_default m) (ml_window m) (fun k => option_map reset_limiter (ml_limits m k)).

(** ** Connections (connection_limiter.go) *)

Definition mem (k : text) (l : list text) : bool := existsb (beqb k) l.

(** AllowConnection, 22-32: the map has one entry per client *)
Definition conn_open (max : Z) (l : list text) (ip : text) : bool * list text :=
  if max <=? Z.of_nat (length l) then (false, l)
  else (true, if mem ip l then l else ip :: l).

(** RemoveConnection, 35-40 *)
Definition conn_close (l : list text) (ip : text) : list text := filter (fun k => negb (beqb ip k)) l.

(** ** Computing time (compute_time_tracker.go, method_tracker.go) *)

Record tracker := Tracker {
  c_entries : text -> list (Z * Z);      (* time, duration *)
  c_average : text -> Z;                 (* 0: none yet *)
  c_stats : text -> Z * Z                (* calls, total time; method_tracker.go *)
}.

Definition new_tracker : tracker := Tracker (fun _ => []) (fun _ => 0) (fun _ => (0, 0)).

(** strings.Contains *)
Fixpoint starts (p s : text) : bool :=
  match p, s with
  | [], _ => true
  | a :: p', b :: s' => (a =? b)%N && starts p' s'
  | _ :: _, [] => false
  end.

Fixpoint contains (p s : text) : bool :=
  starts p s || match s with [] => false | _ :: s' => contains p s' end.

(** "192.168.1.1" and "127.0.0.1" *)
Definition home : text := [49; 57; 50; 46; 49; 54; 56; 46; 49; 46; 49]%N.
Definition local : text := [49; 50; 55; 46; 48; 46; 48; 46; 49]%N.

Definition exempt (ip : text) : bool := contains home ip || contains local ip.

(** defaultMethodTime, 35 *)
Definition default_time : Z := 1000000.

Definition total (w now : Z) (l : list (Z * Z)) : Z :=
  fold_right Z.add 0 (map snd (filter (fun e => now - w <? fst e) l)).

(** PredictComputeTime, 41-78: a client without entries is predicted to need
    no time *)
Definition predict (limit w : Z) (c : tracker) (now : Z) (ip method : text) : bool :=
  if exempt ip then true
  else
    let p := match c_entries c ip with
             | [] => 0
             | _ => if 0 <? c_average c method then c_average c method else default_time
             end in
    total w now (c_entries c ip) + p <=? limit.

(** AddComputeTime, 81-114 *)
Definition add_time (c : tracker) (now : Z) (ip : text) (d : Z) : tracker :=
  Tracker (upd (c_entries c) ip (c_entries c ip ++ [(now, d)])) (c_average c) (c_stats c).

(** ** Who the client is (middleware.go:180-202 GetClientIP) *)

Record request := Request { q_forwarded : text; q_real : text; q_remote : text; q_method : text }.

(** "unknown" *)
Definition unknown : text := [117; 110; 107; 110; 111; 119; 110]%N.

Definition strip_colon (s : text) : text :=
  match rev s with 58%N :: r => rev r | _ => s end.

Definition client (q : request) : text :=
  match q_forwarded q with
  | _ :: _ => q_forwarded q
  | [] =>
      match q_real q with
      | _ :: _ => q_real q
      | [] => match q_remote q with [] => unknown | s => strip_colon s end
      end
  end.

(** ** The server *)

Record config := Config {
  g_limit : Z; g_window : Z;                (* RateLimitRequestsPerSecond, RateLimitWindow *)
  g_methods : list (text * Z);              (* MethodRateLimits *)
  g_conns : Z;                              (* MaxConcurrentConnections *)
  g_time : Z; g_time_window : Z             (* ComputeTimeLimitPerWindowPerIP, ComputeTimeWindow *)
}.

Inductive outcome := TooManyConnections | TooFast | TooFastMethod | TooMuchTime | Served.

(** What happened to the requests so far, oldest first. *)
Record entry := Entry { e_time : Z; e_client : text; e_method : text; e_out : outcome }.

Record server := Server {
  v_rate : limiter;
  v_methods : mlimiter;
  v_conns : list text;
  v_track : tracker;
  v_flying : list text;        (* the clients of the requests being served *)
  v_log : list entry
}.

(** json_rpc.go:259-287 *)
Definition start (g : config) : server :=
  Server (new_limiter (g_limit g) (g_window g))
         (fold_left (fun m p => set_method_limit m (fst p) (snd p)) (g_methods g)
                    (new_mlimiter (g_limit g) (g_window g)))
         [] new_tracker [] [].

Section Average.

(** The moving average of two durations: float64 arithmetic, left open. *)
Variable ema : Z -> Z -> Z.

(** method_tracker.go:50-84 TrackMethod with compute_time_tracker.go:117-134
    UpdateMethodAverage *)
Definition track (c : tracker) (method : text) (d : Z) : tracker :=
  let calls := fst (c_stats c method) + 1 in
  let sum := snd (c_stats c method) + d in
  let mean := sum / calls in
  let avg := c_average c method in
  Tracker (c_entries c)
          (upd (c_average c) method (if avg =? 0 then mean else ema avg mean))
          (upd (c_stats c) method (calls, sum)).

Inductive event :=
| Arrive (now : Z) (q : request)
| Finish (now : Z) (k method : text) (d : Z) (timed_out : bool)
| Reset (now : Z).

(** The checks in their order: middleware.go:98-105 puts the connection limit
    outside the rate limit; json_rpc.go:367-418 follows.  When a request is
    refused its connection is given back. *)
Definition arrive (g : config) (s : server) (now : Z) (q : request) : server :=
  let k := client q in
  let done o := Entry now k (q_method q) o in
  let (ok1, conns) := conn_open (g_conns g) (v_conns s) k in
  if negb ok1 then
    Server (v_rate s) (v_methods s) (v_conns s) (v_track s) (v_flying s) (v_log s ++ [done TooManyConnections])
  else
    let (ok2, rate) := allow (v_rate s) now k in
    if negb ok2 then
      Server (v_rate s) (v_methods s) (conn_close conns k) (v_track s) (v_flying s) (v_log s ++ [done TooFast])
    else
      let (ok3, methods) := mallow (v_methods s) now (q_method q) k in
      if negb ok3 then
        Server rate methods (conn_close conns k) (v_track s) (v_flying s) (v_log s ++ [done TooFastMethod])
      else if negb (predict (g_time g) (g_time_window g) (v_track s) now k (q_method q)) then
        Server rate methods (conn_close conns k) (v_track s) (v_flying s) (v_log s ++ [done TooMuchTime])
      else
        Server rate methods conns (v_track s) (k :: v_flying s) (v_log s ++ [done Served]).

Fixpoint drop_one (k : text) (l : list text) : list text :=
  match l with
  | [] => []
  | x :: r => if beqb k x then r else x :: drop_one k r
  end.

(** json_rpc.go:462-535: a request that ran into its time limit is put into the
    statistics of its method but not into the time of its client.  The
    arithmetic of the method's name "unknown" is left to the event. *)
Definition finish (s : server) (now : Z) (k method : text) (d : Z) (timed_out : bool) : server :=
  if mem k (v_flying s) then
    let c := if timed_out then v_track s else add_time (v_track s) now k d in
    Server (v_rate s) (v_methods s) (conn_close (v_conns s) k) (track c method d)
           (drop_one k (v_flying s)) (v_log s)
  else s.

(** rpc_routes.go:191-213, open to everybody *)
Definition do_reset (s : server) : server :=
  Server (reset_limiter (v_rate s)) (reset_mlimiter (v_methods s)) (v_conns s)
         (Tracker (fun _ => []) (fun _ => 0) (c_stats (v_track s))) (v_flying s) (v_log s).

Definition step (g : config) (s : server) (e : event) : server :=
  match e with
  | Arrive now q => arrive g s now q
  | Finish now k m d out => finish s now k m d out
  | Reset _ => do_reset s
  end.

Definition run (g : config) (es : list event) : server := fold_left (step g) es (start g).

End Average.
