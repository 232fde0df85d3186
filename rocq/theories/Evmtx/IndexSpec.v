(* What the lookups by hash and by number are to return, and which logs a query is to
   return. *)
From Verif Require Import Lib.Base Evmtx.Model Evmtx.Spec Evmtx.Index Evmtx.Logs.
Open Scope Z_scope.

(* message k of transaction i of block j of a chain, with the result of its transaction *)
Definition placed (bs : list block) (rs : list block_result) (j i k : nat) (b : block) (m : msg) (res : result) : Prop :=
  exists r x os, nth_error bs j = Some b /\ nth_error rs j = Some r /\
    nth_error (b_txs b) i = Some (x, os) /\ nth_error (br_results r) i = Some res /\
    nth_error (x_msgs x) k = Some m.
(* a transaction that completed, or failed in a way the clients are told about *)
Definition shown_failure (res : result) : Prop := exists evs, res = RFail KBlock evs \/ res = RFail KCommit evs.
Definition completed (res : result) (k : nat) (m : msg) (num used : Z) (failed : bool) : Prop :=
  exists total evs, res = ROk total evs /\ nth_error (reports evs) k = Some (m_hash m, num, used, failed).
(* a hash names one (sender, nonce) *)
Definition hashes_bind (bs : list block) : Prop :=
  forall b x os m b' x' os' m', In b bs -> In (x, os) (b_txs b) -> In m (x_msgs x) ->
    In b' bs -> In (x', os') (b_txs b') -> In m' (x_msgs x') ->
    m_hash m = m_hash m' -> m_from m = m_from m' /\ m_nonce m = m_nonce m'.
Definition no_commit_failure (r : block_result) : Prop := forall evs, ~ In (RFail KCommit evs) (br_results r).

(* ---------------- logs ---------------- *)
Definition wanted (addrs : list Z) (subs : list (list Z)) (l : log) : Prop :=
  (addrs = [] \/ In (l_addr l) addrs) /\
  forall i sub, nth_error subs i = Some sub ->
    exists t, nth_error (l_topics l) i = Some t /\ (sub = [] \/ In t sub).
(* a node that has every block of a chain starting at height 1 *)
Definition node_of (rs : list block_result) (cron : Z -> list log) : node :=
  mk_node (Z.of_nat (length rs)) (fun h => if h <=? 0 then None else nth_error rs (Z.to_nat (h - 1))) cron.
Definition logs_at (rs : list block_result) (h : Z) : list log :=
  match nth_error rs (Z.to_nat (h - 1)) with
  | Some r => event_logs (all_events (br_results r))
  | None => []
  end.
Definition heights (f t : Z) : list Z := numbers f (Z.to_nat (t + 1 - f)).
(* zero stands for the first block, a negative number for the head *)
Definition means (head x y : Z) : Prop := x < 0 /\ y = head \/ x = 0 /\ y = 1 \/ 0 < x /\ y = x.
