(* What the RPC cache promises, in terms of the history of calls only. *)
From Coq Require Import String.
From Verif Require Import Lib.Base Rpc.Cache.
Open Scope Z_scope.

Section Spec.
Variable V : Type.
Notation obs := (obs V) (only parsing).

(* the part of a history after the last time the cache was cleared *)
Definition since_clear (log : list obs) : list obs :=
  fold_left (fun acc o => match o with OClear _ => [] | _ => acc ++ [o] end) log [].

(* the values a method and its parameters have been answered with so far *)
Definition answered (log : list obs) (m : string) (ps : list param) (v : V) : Prop :=
  exists c t, In (OReturn V c m ps t (AVal v)) log.

(* a call that was asked for in the history and computed for itself *)
Definition computed_for (node : Z -> string -> list param -> answer V)
    (before : list obs) (c : Z) (m : string) (ps : list param) (t : Z) (a : answer V) : Prop :=
  exists t1 t2, In (OCall V c m ps t1) before /\ In (OFetch V c m ps t2 a) before /\
    t1 <= t2 <= t /\ a = node t2 m ps.

(* a value some call got from the node at [t2] and stored at [t3], at most the
   time to live of its method before [t] *)
Definition stored_answer (node : Z -> string -> list param -> answer V) (ttl_of : string -> option Z)
    (before : list obs) (m : string) (ps : list param) (t : Z) (v : V) : Prop :=
  exists c t2 t3 ttl, ttl_of m = Some ttl /\
    In (OFetch V c m ps t2 (AVal v)) before /\ node t2 m ps = AVal v /\
    In (OStore V c m ps t3 v) (since_clear before) /\ t2 <= t3 /\ t3 <= t /\ t <= t3 + ttl.
End Spec.

(* Requests whose parameters arrive as text or numbers in valid UTF-8. *)
Definition plain_char (c : uchar) : Prop := match c with Rune _ => True | BadByte _ => False end.
Definition plain_param (p : param) : Prop :=
  match p with PText t => Forall plain_char t | PNum _ => True | PBad _ => False end.
Definition plain (ps : list param) : Prop := Forall plain_param ps.

(* Events during which no two calls overlap. *)
Section Seq.
Variable sha : list N -> list N.
Variable V : Type.
Variable cap : nat.
Variable ttl_of : string -> option Z.
Variable node : Z -> string -> list param -> answer V.
Fixpoint one_at_a_time (s : st V) (evs : list event) : Prop :=
  match evs with
  | [] => True
  | ev :: r =>
      match ev with ECall _ _ => s_flights V s = [] | _ => True end /\
      one_at_a_time (fst (step sha V cap ttl_of node s ev)) r
  end.
End Seq.

(* The keys of the cache a piece of history touches. *)
Definition uses_key (sha : list N -> list N) {V} (ttl_of : string -> option Z) (log : list (obs V)) (k : key) : Prop :=
  (exists c m ps t, In (OCall V c m ps t) log /\ ttl_of m <> None /\ gen_key sha m ps = k) \/
  (exists c m ps t v, In (OStore V c m ps t v) log /\ gen_key sha m ps = k).
