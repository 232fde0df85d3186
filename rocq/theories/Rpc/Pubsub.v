(* The in-memory event bus: rpc/ethereum/pubsub/pubsub.go.
   One event of the model is one critical section of the code (the body between
   taking and releasing a lock), so every schedule of the goroutines is a list of
   events. Topic names, source channels and messages are numbers. *)
From Verif Require Import Lib.Base.
Open Scope Z_scope.

(* The goroutine of publishTopic. *)
Inductive pub_stage :=
| Idle                                     (* waiting on its source *)
| Offering (msg : Z) (todo : list Z)       (* inside publishAllSubscribers, holding the read lock *)
| Closing.                                 (* subscribers closed, topic not yet deleted *)
Record pub := mk_pub { p_no : Z; p_name : Z; p_src : Z; p_stage : pub_stage }.

(* AddTopic and Subscribe between their check and their write. *)
Inductive task :=
| TAdd (name src : Z)
| TSub (name : Z).

Record st := mk_st {
  s_topics : list (Z * Z);           (* name, source *)
  s_subs : list (Z * Z);             (* name, subscriber number (= its channel) *)
  s_next : Z;                        (* currentUniqueID *)
  s_handles : list (Z * Z);          (* unsubscribe functions handed out: subscriber number, name *)
  s_closed : list Z;                 (* closed channels *)
  s_pubs : list pub;
  s_npub : Z;
  s_tasks : list (Z * task);
  s_ntask : Z
}.
(* pubsub.go:30-37 NewEventBus *)
Definition init : st := mk_st [] [] 0 [] [] [] 0 [] 0.

Inductive obs :=
| OAdded (name src p : Z)                (* AddTopic returned nil; its publisher is p *)
| OAddErr (name : Z)
| ORemoved (name : Z)
| OSubscribed (id name : Z)              (* Subscribe returned channel id *)
| OSubErr (name : Z)
| OUnsub (id : Z)
| OStart (p name msg : Z)                (* publisher p starts handing out msg *)
| ODeliver (p id msg : Z)                (* a waiting reader of channel id received msg *)
| ODrop (p id msg : Z)                   (* nobody was reading channel id *)
| ODone (p : Z)
| OCloseAll (p name : Z) (ids : list Z)  (* the source is closed, so are these channels *)
| OGone (p : Z)
| OPanic.                                (* send on, or close of, a closed channel *)

Inductive event :=
| EAddCheck (name src : Z)
| EAddWrite (k : Z)
| ERemove (name : Z)
| ESubCheck (name : Z)
| ESubInsert (k : Z)
| EUnsub (id : Z)
| ERecv (p msg : Z)
| EOffer (p id : Z) (ready : bool)
| EDone (p : Z)
| ESrcClosed (p : Z)
| EDelTopic (p : Z).

Definition has_topic (l : list (Z * Z)) (name : Z) : bool := existsb (fun x => fst x =? name) l.
Definition del_topic (l : list (Z * Z)) (name : Z) : list (Z * Z) := filter (fun x => negb (fst x =? name)) l.
Definition set_topic (l : list (Z * Z)) (name src : Z) : list (Z * Z) := (name, src) :: del_topic l name.
(* m.subscribers[name] *)
Definition subs_of (l : list (Z * Z)) (name : Z) : list Z := map snd (filter (fun x => fst x =? name) l).
Definition drop_subs (l : list (Z * Z)) (name : Z) : list (Z * Z) := filter (fun x => negb (fst x =? name)) l.
(* delete(m.subscribers[name], id) *)
Definition del_sub (l : list (Z * Z)) (name id : Z) : list (Z * Z) :=
  filter (fun x => negb ((fst x =? name) && (snd x =? id))) l.

Definition memz (x : Z) (l : list Z) : bool := existsb (Z.eqb x) l.
Definition find_task (l : list (Z * task)) (k : Z) : option task :=
  option_map snd (find (fun x => fst x =? k) l).
Definition drop_task (l : list (Z * task)) (k : Z) : list (Z * task) := filter (fun x => negb (fst x =? k)) l.
Definition find_handle (l : list (Z * Z)) (id : Z) : option Z := option_map snd (find (fun x => fst x =? id) l).
Definition find_pub (l : list pub) (p : Z) : option pub := find (fun x => p_no x =? p) l.
Definition drop_pub (l : list pub) (p : Z) : list pub := filter (fun x => negb (p_no x =? p)) l.
Definition set_stage (l : list pub) (p : Z) (g : pub_stage) : list pub :=
  map (fun x => if p_no x =? p then mk_pub (p_no x) (p_name x) (p_src x) g else x) l.

(* The write lock on the subscribers is free: no publisher holds the read lock. *)
Definition offering (x : pub) : bool := match p_stage x with Offering _ _ => true | _ => false end.
Definition write_free (s : st) : bool := negb (existsb offering (s_pubs s)).

Definition with_topics s t := mk_st t (s_subs s) (s_next s) (s_handles s) (s_closed s) (s_pubs s) (s_npub s) (s_tasks s) (s_ntask s).
Definition with_tasks s t := mk_st (s_topics s) (s_subs s) (s_next s) (s_handles s) (s_closed s) (s_pubs s) (s_npub s) t (s_ntask s).
Definition new_task s t :=
  mk_st (s_topics s) (s_subs s) (s_next s) (s_handles s) (s_closed s) (s_pubs s) (s_npub s) ((s_ntask s, t) :: s_tasks s) (s_ntask s + 1).
Definition with_pubs s l := mk_st (s_topics s) (s_subs s) (s_next s) (s_handles s) (s_closed s) l (s_npub s) (s_tasks s) (s_ntask s).
Definition with_subs s l := mk_st (s_topics s) l (s_next s) (s_handles s) (s_closed s) (s_pubs s) (s_npub s) (s_tasks s) (s_ntask s).

(* An event that is not enabled in the state changes nothing. *)
Definition step (s : st) (ev : event) : st * list obs :=
  match ev with
  (* pubsub.go:55-62 AddTopic, the check *)
  | EAddCheck name src =>
      if has_topic (s_topics s) name then (s, [OAddErr name]) else (new_task s (TAdd name src), [])
  (* pubsub.go:64-70 AddTopic, the write and the start of the publisher *)
  | EAddWrite k =>
      match find_task (s_tasks s) k with
      | Some (TAdd name src) =>
          (mk_st (set_topic (s_topics s) name src) (s_subs s) (s_next s) (s_handles s) (s_closed s)
             (mk_pub (s_npub s) name src Idle :: s_pubs s) (s_npub s + 1) (drop_task (s_tasks s) k) (s_ntask s),
           [OAdded name src (s_npub s)])
      | _ => (s, [])
      end
  (* pubsub.go:73-77 RemoveTopic *)
  | ERemove name => (with_topics s (del_topic (s_topics s) name), [ORemoved name])
  (* pubsub.go:80-86 Subscribe, the check *)
  | ESubCheck name =>
      if has_topic (s_topics s) name then (new_task s (TSub name), []) else (s, [OSubErr name])
  (* pubsub.go:88-105 Subscribe, the insertion *)
  | ESubInsert k =>
      match find_task (s_tasks s) k with
      | Some (TSub name) =>
          if write_free s then
            let id := s_next s + 1 in
            (mk_st (s_topics s) ((name, id) :: s_subs s) id ((id, name) :: s_handles s) (s_closed s) (s_pubs s) (s_npub s)
               (drop_task (s_tasks s) k) (s_ntask s), [OSubscribed id name])
          else (s, [])
      | _ => (s, [])
      end
  (* pubsub.go:99-103 the unsubscribe function *)
  | EUnsub id =>
      match find_handle (s_handles s) id with
      | Some name =>
          if write_free s then (with_subs s (del_sub (s_subs s) name id), [OUnsub id]) else (s, [])
      | None => (s, [])
      end
  (* pubsub.go:110,116,133-136: a message is taken from the source and the read
     lock acquired *)
  | ERecv p msg =>
      match find_pub (s_pubs s) p with
      | Some (mk_pub _ name _ Idle) =>
          (with_pubs s (set_stage (s_pubs s) p (Offering msg (subs_of (s_subs s) name))), [OStart p name msg])
      | _ => (s, [])
      end
  (* pubsub.go:137-143 one turn of the loop, in any order of the map; the send
     succeeds when a reader is waiting on the unbuffered channel *)
  | EOffer p id ready =>
      match find_pub (s_pubs s) p with
      | Some (mk_pub _ _ _ (Offering msg todo)) =>
          if memz id todo then
            (with_pubs s (set_stage (s_pubs s) p (Offering msg (filter (fun x => negb (x =? id)) todo))),
             [if memz id (s_closed s) then OPanic else if ready then ODeliver p id msg else ODrop p id msg])
          else (s, [])
      | _ => (s, [])
      end
  | EDone p =>
      match find_pub (s_pubs s) p with
      | Some (mk_pub _ _ _ (Offering _ [])) => (with_pubs s (set_stage (s_pubs s) p Idle), [ODone p])
      | _ => (s, [])
      end
  (* pubsub.go:110-113,120-131 the source is closed: closeAllSubscribers *)
  | ESrcClosed p =>
      match find_pub (s_pubs s) p with
      | Some (mk_pub _ name _ Idle) =>
          if write_free s then
            let ids := subs_of (s_subs s) name in
            (mk_st (s_topics s) (drop_subs (s_subs s) name) (s_next s) (s_handles s) (ids ++ s_closed s)
               (set_stage (s_pubs s) p Closing) (s_npub s) (s_tasks s) (s_ntask s),
             (if existsb (fun i => memz i (s_closed s)) ids then [OPanic] else []) ++ [OCloseAll p name ids])
          else (s, [])
      | _ => (s, [])
      end
  (* pubsub.go:113-116 the topic is deleted and the publisher returns *)
  | EDelTopic p =>
      match find_pub (s_pubs s) p with
      | Some (mk_pub _ name _ Closing) =>
          (mk_st (del_topic (s_topics s) name) (s_subs s) (s_next s) (s_handles s) (s_closed s) (drop_pub (s_pubs s) p) (s_npub s)
             (s_tasks s) (s_ntask s), [OGone p])
      | _ => (s, [])
      end
  end.

Fixpoint run_from (s : st) (log : list obs) (evs : list event) : st * list obs :=
  match evs with
  | [] => (s, log)
  | ev :: r => let '(s', o) := step s ev in run_from s' (log ++ o) r
  end.
Definition run (evs : list event) : st * list obs := run_from init [] evs.
