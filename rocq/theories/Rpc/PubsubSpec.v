(* What the bus promises, read off the history alone. *)
From Verif Require Import Lib.Base Rpc.Pubsub.
Open Scope Z_scope.

(* Who is subscribed to a topic after a history: subscribed, and since then
   neither unsubscribed nor closed. *)
Definition live_step (name : Z) (l : list Z) (o : obs) : list Z :=
  match o with
  | OSubscribed id n => if n =? name then id :: l else l
  | OUnsub id => filter (fun x => negb (x =? id)) l
  | OCloseAll _ _ ids => filter (fun x => negb (memz x ids)) l
  | _ => l
  end.
Definition live (name : Z) (log : list obs) : list Z := fold_left (live_step name) log [].

(* The channels a publisher offered its message to in a piece of history. *)
Definition offer_of (p : Z) (o : obs) : list (Z * Z) :=
  match o with
  | ODeliver q id msg => if q =? p then [(id, msg)] else []
  | ODrop q id msg => if q =? p then [(id, msg)] else []
  | _ => []
  end.
Definition offers (p : Z) (l : list obs) : list (Z * Z) := flat_map (offer_of p) l.

Definition closed_ids (o : obs) : list Z := match o with OCloseAll _ _ ids => ids | _ => [] end.
(* every channel closing of a history *)
Definition closings (log : list obs) : list Z := flat_map closed_ids log.

Definition subscriptions (log : list obs) : list Z :=
  flat_map (fun o => match o with OSubscribed id _ => [id] | _ => [] end) log.

(* A piece of history without an end (or a new start) of publisher [p]'s work. *)
Definition busy (p : Z) (l : list obs) : Prop :=
  forall o, In o l -> o <> ODone p /\ forall n m, o <> OStart p n m.

(* A client discipline: RemoveTopic is not used and AddTopic calls do not overlap. *)
Fixpoint serial_adds (s : st) (evs : list event) : Prop :=
  match evs with
  | [] => True
  | ev :: r =>
      match ev with
      | ERemove _ => False
      | EAddCheck _ _ => forall k n c, ~ In (k, TAdd n c) (s_tasks s)
      | _ => True
      end /\ serial_adds (fst (step s ev)) r
  end.
