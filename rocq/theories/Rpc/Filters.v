(* Polling filters of the JSON-RPC server: rpc/namespaces/ethereum/eth/filters/
   {api,filter_system,subscription}.go.  One event of the model is one call, one message
   of the node, or one round of timeoutLoop.  Simplified: a request to unsubscribe
   (subscription.go:36-54) is handled by eventLoop in the same step, and a goroutine
   whose channel was closed forgets its filter in the same step.  A goroutine that is
   busy when a message is offered misses it (pubsub.go:130-141, see C49): every message
   says who was ready. *)
From Verif Require Import Lib.Base Evmtx.Model Evmtx.Logs.
Open Scope Z_scope.

Inductive kind := KBlocks | KTxs | KLogs.
Definition kind_eqb (a b : kind) : bool :=
  match a, b with KBlocks, KBlocks | KTxs, KTxs | KLogs, KLogs => true | _, _ => false end.

(* go-ethereum's FilterCriteria; a block hash is not looked at by NewFilter *)
Record crit := mk_crit { c_from : option Z; c_to : option Z; c_addrs : list Z; c_topics : list (list Z) }.

Inductive item := IHash (h : Z) | ILog (l : log).

(* api.go:64-71 filter; the timer is the time at which it fires *)
Record filt := mk_filt { f_id : N; f_kind : kind; f_crit : crit; f_due : Z; f_wait : list item }.

(* api.go:75-82 PublicFilterAPI with its EventSystem: filters is the map; index are the
   subscriptions that went through install; topics are the topics of the event bus;
   listen are the goroutines that read from a subscription to a topic *)
Record api := mk_api {
  filters : list filt;
  index : list (N * kind);
  topics : list kind;
  listen : list (N * kind)
}.

(* messages of the node *)
Inductive msg :=
| MBlock (h : Z)                          (* a new block header *)
| MTx (hs : option (list Z))              (* a transaction of a block: hashes of its Ethereum messages, None if it cannot be decoded *)
| MLogs (r : option (list (list log))).   (* an Ethereum transaction of a block: the logs of each of its messages, None if the result cannot be decoded *)
Definition msg_kind (m : msg) : kind := match m with MBlock _ => KBlocks | MTx _ => KTxs | MLogs _ => KLogs end.

Inductive event :=
| ENew (id : N) (k : kind) (c : crit) (ws : bool)   (* eth_newFilter and the like; ws: the node accepts the subscription *)
| EMsg (m : msg) (ready : N -> bool)
| EPoll (id : N)                                     (* eth_getFilterChanges *)
| EUninstall (id : N)                                (* eth_uninstallFilter *)
| ETick.                                             (* a round of timeoutLoop *)

Inductive answer :=
| AId (id : N) | AItems (l : list item) | ABool (b : bool) | AError | ANothing.

Definition find (id : N) (l : list filt) : option filt := List.find (fun f => N.eqb (f_id f) id) l.
Definition without (id : N) (l : list filt) : list filt := filter (fun f => negb (N.eqb (f_id f) id)) l.
Definition put (g : filt) (l : list filt) : list filt := map (fun f => if N.eqb (f_id f) (f_id g) then g else f) l.
Definition has (id : N) (k : kind) (l : list (N * kind)) : bool := existsb (fun p => N.eqb (fst p) id && kind_eqb (snd p) k) l.

Section Filters.
Variable cap : Z.        (* RPCFilterCap *)
Variable latest : Z.     (* rpc.LatestBlockNumber, a negative number *)
Variable span : Z.       (* api.go:60 deadline *)

(* filter_system.go:153-179 SubscribeLogs: which block ranges are accepted *)
Definition range_ok (c : crit) : bool :=
  let from := match c_from c with None => latest | Some f => f end in
  let to := match c_to c with None => latest | Some t => t end in
  ((from =? latest) && (to =? latest)) || ((0 <=? from) && (0 <=? to) && (from <=? to)) || ((0 <=? from) && (to =? latest)).

(* filter_system.go:99-147 subscribe with eventLoop's install (229-240) and
   pubsub.go Subscribe: only the first subscription to a topic is installed *)
Definition subscribe (s : api) (id : N) (k : kind) (ws : bool) : option api :=
  if existsb (kind_eqb k) (topics s) then Some (mk_api (filters s) (index s) (topics s) ((id, k) :: listen s))
  else if ws then Some (mk_api (filters s) ((id, k) :: index s) (k :: topics s) ((id, k) :: listen s))
  else None.

(* api.go:130-153 NewPendingTransactionFilter, 265-281 NewBlockFilter, 445-472 NewFilter *)
Definition new_filter (s : api) (now : Z) (id : N) (k : kind) (c : crit) (ws : bool) : api * answer :=
  if cap <=? Z.of_nat (length (filters s)) then (s, AError)
  else if match k with KLogs => negb (range_ok c) | _ => false end then (s, AError)
  else match subscribe s id k ws with
       | None => (s, AError)
       | Some s' => (mk_api (mk_filt id k c (now + span) [] :: filters s') (index s') (topics s') (listen s'), AId id)
       end.

(* evmtypes.DecodeTxResponse: the response of the first message, or nothing *)
Definition first_logs (r : list (list log)) : list log := match r with [] => [] | l :: _ => l end.

(* api.go:155-199, 283-312, 474-508: what a filter takes from a message; None ends its goroutine *)
Definition take (f : filt) (m : msg) : option (list item) :=
  match m with
  | MBlock h => Some [IHash h]
  | MTx None => Some []
  | MTx (Some hs) => Some (map IHash hs)
  | MLogs None => None
  | MLogs (Some r) => Some (map ILog (filter_logs (c_from (f_crit f)) (c_to (f_crit f)) (c_addrs (f_crit f)) (c_topics (f_crit f)) (first_logs r)))
  end.
Definition heard (s : api) (m : msg) (ready : N -> bool) (f : filt) : bool :=
  existsb (kind_eqb (msg_kind m)) (topics s) && has (f_id f) (msg_kind m) (listen s) && ready (f_id f).
Definition offer (s : api) (m : msg) (ready : N -> bool) : api :=
  mk_api
    (map (fun f => if heard s m ready f
                   then match take f m with Some l => mk_filt (f_id f) (f_kind f) (f_crit f) (f_due f) (f_wait f ++ l) | None => f end
                   else f) (filters s))
    (index s) (topics s)
    (match m with
     | MLogs None => if existsb (kind_eqb KLogs) (topics s) then filter (fun p => negb (kind_eqb (snd p) KLogs && ready (fst p))) (listen s) else listen s
     | _ => listen s
     end).

(* filter_system.go:241-269: eventLoop's uninstall, with pubsub.go closeAllSubscribers
   and the end of the goroutines that read from the closed channels *)
Definition uninstall (s : api) (id : N) (k : kind) : api :=
  let index1 := filter (fun p => negb (N.eqb (fst p) id && kind_eqb (snd p) k)) (index s) in
  let listen1 := filter (fun p => negb (N.eqb (fst p) id && kind_eqb (snd p) k)) (listen s) in
  if existsb (fun p => kind_eqb (snd p) k) index1 then mk_api (filters s) index1 (topics s) listen1
  else if existsb (kind_eqb k) (topics s) then
    mk_api (filter (fun f => negb (has (f_id f) k (listen s))) (filters s)) index1
           (filter (fun t => negb (kind_eqb k t)) (topics s)) (filter (fun p => negb (kind_eqb (snd p) k)) listen1)
  else mk_api (filters s) index1 (topics s) listen1.

(* what api.go:557-571 UninstallFilter and 104-122 timeoutLoop do to a filter *)
Definition remove (s : api) (f : filt) : api :=
  uninstall (mk_api (without (f_id f) (filters s)) (index s) (topics s) (listen s)) (f_id f) (f_kind f).

(* api.go:614-643 GetFilterChanges *)
Definition poll (s : api) (now : Z) (id : N) : api * answer :=
  match find id (filters s) with
  | None => (s, AError)
  | Some f => (mk_api (put (mk_filt id (f_kind f) (f_crit f) (now + span) []) (filters s)) (index s) (topics s) (listen s), AItems (f_wait f))
  end.

(* api.go:104-122: the map is walked once; an expired filter that the removal of another
   one took away is not met again *)
Definition tick (s : api) (now : Z) : api :=
  fold_left (fun s f => match find (f_id f) (filters s) with Some _ => remove s f | None => s end)
            (filter (fun f => f_due f <=? now) (filters s)) s.

Definition step (s : api) (now : Z) (e : event) : api * answer :=
  match e with
  | ENew id k c ws => new_filter s now id k c ws
  | EMsg m ready => (offer s m ready, ANothing)
  | EPoll id => poll s now id
  | EUninstall id => match find id (filters s) with None => (s, ABool false) | Some f => (remove s f, ABool true) end
  | ETick => (tick s now, ANothing)
  end.

Fixpoint run (s : api) (es : list (Z * event)) : api * list answer :=
  match es with
  | [] => (s, [])
  | (now, e) :: r => let (s1, a) := step s now e in let (s2, l) := run s1 r in (s2, a :: l)
  end.
End Filters.
Definition api0 : api := mk_api [] [] [] [].
