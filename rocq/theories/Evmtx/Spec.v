(* What a user of Ethereum transactions relies on, said without the functions of the
   model: who pays what, which transactions count as executed, how a block's
   transactions and logs are numbered. *)
From Verif Require Import Lib.Base Evmtx.Model.
Open Scope Z_scope.

(* ---------------- money ---------------- *)
(* a transfer: from, to, amount; what it does to account k *)
Definition effect (t : Z * Z * Z) (k : Z) : Z :=
  let '(a, c, x) := t in (if k =? c then x else 0) - (if k =? a then x else 0).
Definition net (l : list (Z * Z * Z)) (k : Z) : Z := sum (map (fun t => effect t k) l).

(* the bill of one executed message: gas paid for, whether it failed, the value its run
   moved, and what the contract's developer got *)
Record bill := mk_bill { bl_used : Z; bl_failed : bool; bl_moved : list (Z * Z * Z); bl_dev_to : Z; bl_dev : Z }.
(* price of a unit of gas: the capped sum of base fee and tip, or the fixed price *)
Definition price (c : cfg) (m : msg) : Z := if m_dyn m then Z.min (c_base c + m_tip m) (m_cap m) else m_cap m.
(* gas a run is billed for: what it burnt, less at most a fifth of it, but at least the
   configured share of the limit *)
Definition billed_gas (c : cfg) (m : msg) (r : run) : Z :=
  let burnt := m_intrinsic m + r_burn r in
  Z.max (m_gas m * c_mult c / ONE) (burnt - Z.min (r_refund r) (burnt / 5)).
Definition bill_for (c : cfg) (m : msg) (o : outcome) (b : bill) : Prop :=
  exists r, o = OutRun r /\
    bl_used b = billed_gas c m r /\
    (bl_failed b = true /\ bl_moved b = [] /\ bl_dev b = 0 \/
     bl_failed b = false /\ r_failed r = false /\ bl_moved b = r_moves r) /\
    (bl_dev b = 0 \/ exists k, m_to m = Some k /\ c_rev c = true /\ c_precompile c k = false /\
                     bl_dev b = c_share c * (bl_used b * price c m) / ONE).
(* the transfers a bill stands for *)
Definition bill_moves (c : cfg) (m : msg) (b : bill) : list (Z * Z * Z) :=
  (m_from m, c_fc c, price c m * bl_used b) :: (c_fc c, bl_dev_to b, bl_dev b) :: bl_moved b.
(* one bill per message, and all their transfers *)
Fixpoint bills_for (c : cfg) (ms : list msg) (os : list outcome) (bs : list bill) : Prop :=
  match ms, bs with
  | [], [] => True
  | m :: ms', b :: bs' => bill_for c m (hd OutErr os) b /\ bills_for c ms' (tl os) bs'
  | _, _ => False
  end.
Fixpoint all_moves (f : msg -> bill -> list (Z * Z * Z)) (ms : list msg) (bs : list bill) : list (Z * Z * Z) :=
  match ms, bs with
  | m :: ms', b :: bs' => f m b ++ all_moves f ms' bs'
  | _, _ => []
  end.

(* sane configuration, messages and runs *)
Definition cfg_ok (c : cfg) : Prop :=
  0 <= c_base c /\ 0 <= c_mult c <= ONE /\ 0 <= c_share c <= ONE.
Definition run_ok (c : cfg) (m : msg) (r : run) : Prop :=
  0 <= r_burn r /\ m_intrinsic m + r_burn r <= m_gas m /\ 0 <= r_refund r /\
  Forall (fun t => let '(a, _, x) := t in a <> c_fc c /\ 0 <= x) (r_moves r).
Definition msg_ok (c : cfg) (m : msg) : Prop := m_from m <> c_fc c /\ 0 <= m_intrinsic m.
Definition outcome_ok (c : cfg) (m : msg) (o : outcome) : Prop :=
  match o with OutRun r => m_intrinsic m <= m_gas m -> run_ok c m r | _ => True end.
Fixpoint outcomes_ok (c : cfg) (ms : list msg) (os : list outcome) : Prop :=
  match ms with
  | [] => True
  | m :: r => msg_ok c m /\ outcome_ok c m (hd OutErr os) /\ outcomes_ok c r (tl os)
  end.
Definition block_ok (b : block) : Prop :=
  cfg_ok (b_cfg b) /\ Forall (fun x => outcomes_ok (b_cfg b) (x_msgs (fst x)) (snd x)) (b_txs b).
Definition solvent (s : st) : Prop := forall a, 0 <= bal s a.

(* ---------------- executed messages ---------------- *)
(* a transaction that got past the ante handler has used up its nonces *)
Definition accepted (r : result) : bool :=
  match r with RSkip | RAnte => false | RFail _ _ | ROk _ _ => true end.
Definition ids (ms : list msg) : list (Z * Z) := map (fun m => (m_from m, m_nonce m)) ms.
Fixpoint used_ids (xs : list (tx * list outcome)) (rs : list result) : list (Z * Z) :=
  match xs, rs with
  | (x, _) :: xs', r :: rs' => (if accepted r then ids (x_msgs x) else []) ++ used_ids xs' rs'
  | _, _ => []
  end.
Fixpoint chain_ids (bs : list block) (rs : list block_result) : list (Z * Z) :=
  match bs, rs with
  | b :: bs', r :: rs' => used_ids (b_txs b) (br_results r) ++ chain_ids bs' rs'
  | _, _ => []
  end.
(* no creation is followed, in the same transaction, by a message of the same sender *)
Fixpoint creations_last (ms : list msg) : Prop :=
  match ms with
  | [] => True
  | m :: r => (m_to m = None -> Forall (fun m' => m_from m' <> m_from m) r) /\ creations_last r
  end.
Definition tidy (bs : list block) : Prop :=
  Forall (fun b => Forall (fun x => creations_last (x_msgs (fst x))) (b_txs b)) bs.

(* ---------------- numbering ---------------- *)
Definition events (r : result) : list event :=
  match r with RSkip | RAnte => [] | RFail _ e => e | ROk _ e => e end.
Definition tx_numbers (evs : list event) : list Z :=
  flat_map (fun e => match e with EvTx _ i _ _ => [i] | _ => [] end) evs.
Definition event_logs (evs : list event) : list log :=
  flat_map (fun e => match e with EvLogs l => l | _ => [] end) evs.
Definition all_events (rs : list result) : list event := flat_map events rs.
Definition numbers (from : Z) (n : nat) : list Z := map (fun i => from + Z.of_nat i) (List.seq 0 n).

(* the nonces of account a in a list of (sender, nonce) pairs *)
Definition nonces_of (a : Z) (l : list (Z * Z)) : list Z := map snd (filter (fun p => fst p =? a) l).
(* number, gas and verdict the events of a transaction report, message by message *)
Definition reports (evs : list event) : list (Z * Z * Z * bool) :=
  flat_map (fun e => match e with EvTx h i u f => [(h, i, u, f)] | _ => [] end) evs.
Definition announced (evs : list event) : list (Z * Z) :=
  flat_map (fun e => match e with EvHash h i => [(h, i)] | _ => [] end) evs.
(* every bit of m is in the bloom filter *)
Definition in_bloom (bloom m : Z) : Prop := Z.land bloom m = m.
