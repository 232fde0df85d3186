(* What C115 promises: which logs match, what a history owes to a filter, and who uses it. *)
From Verif Require Import Lib.Base Evmtx.Model Evmtx.Spec Evmtx.IndexSpec Rpc.Filters.
Open Scope Z_scope.

(* A log a filter asks for: inside the block range (a missing or negative end is open),
   of one of the addresses, with the wanted topics. *)
Definition matching (c : crit) (l : log) : Prop :=
  (forall f, c_from c = Some f -> 0 <= f -> f <= l_block l) /\
  (forall t, c_to c = Some t -> 0 <= t -> l_block l <= t) /\
  wanted (c_addrs c) (c_topics c) l.

(* ids that histories give to new filters *)
Fixpoint created (es : list (Z * event)) : list N :=
  match es with
  | [] => []
  | (_, ENew id _ _ _) :: r => id :: created r
  | _ :: r => created r
  end.

(* the results of Ethereum transactions can be read *)
Definition readable (e : Z * event) : Prop := match snd e with EMsg (MLogs None) _ => False | _ => True end.
(* and hold one Ethereum message *)
Definition single (e : Z * event) : Prop := match snd e with EMsg (MLogs (Some r)) _ => (length r <= 1)%nat | _ => True end.

(* what an event owes to the filter id, if its goroutine was ready; p decides which logs match *)
Definition owed (p : log -> bool) (k : kind) (id : N) (e : Z * event) : list item :=
  match k, snd e with
  | KBlocks, EMsg (MBlock h) ready => if ready id then [IHash h] else []
  | KTxs, EMsg (MTx (Some hs)) ready => if ready id then map IHash hs else []
  | KLogs, EMsg (MLogs (Some r)) ready => if ready id then map ILog (filter p (concat r)) else []
  | _, _ => []
  end.

(* what the polls of a filter were given *)
Fixpoint polled (id : N) (es : list (Z * event)) (l : list answer) : list item :=
  match es, l with
  | (_, EPoll j) :: es', AItems x :: l' => (if N.eqb j id then x else []) ++ polled id es' l'
  | _ :: es', _ :: l' => polled id es' l'
  | _, _ => []
  end.

(* when a filter was created or polled last *)
Definition last_use (id : N) (es : list (Z * event)) : option Z :=
  fold_left (fun u e => match snd e with
                        | ENew j _ _ _ => if N.eqb j id then Some (fst e) else u
                        | EPoll j => if N.eqb j id then Some (fst e) else u
                        | _ => u
                        end) es None.

(* the filter g is asked to go: its owner uninstalls it, or a round of the timeout loop
   finds it expired *)
Definition asked_to_go (now : Z) (e : event) (g : filt) : Prop :=
  e = EUninstall (f_id g) \/ (e = ETick /\ f_due g <= now).

(* the oldest filter of a kind; the list keeps the newest first *)
Definition oldest (s : api) (k : kind) : option filt := List.find (fun f => kind_eqb (f_kind f) k) (rev (filters s)).
