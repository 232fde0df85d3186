(* Ethereum transactions on the chain: the ante handler (app/ante/evm/mono.go), the
   message server (x/evm/keeper/msg_server.go) and ApplyTransaction
   (x/evm/keeper/state_transition.go), with the block gas meter of the SDK's runTx.
   Amounts, gas and addresses are unbounded integers; addresses and hashes are
   numbers. What a contract does is not modelled: every run of the EVM is an
   arbitrary [run] (gas burnt, refund counter, value moved, logs written). The
   London rules are active, the EVM coin has 18 decimals. *)
From Verif Require Import Lib.Base.
Open Scope Z_scope.

Definition ONE : Z := 1000000000000000000.

(* x/evm/types/tx.pb.go MsgEthereumTx with its TxData; a legacy or access-list
   transaction has m_dyn = false and its gas price in m_cap. *)
Record msg := mk_msg {
  m_from : Z; m_nonce : Z; m_gas : Z; m_dyn : bool; m_cap : Z; m_tip : Z;
  m_to : option Z; m_value : Z; m_hash : Z;
  m_intrinsic : Z                          (* core.IntrinsicGas of its data *)
}.
(* the SDK transaction around it: messages, fee amount, gas limit *)
Record tx := mk_tx { x_msgs : list msg; x_fee : Z; x_gas : Z }.

(* what the chain is configured with during a block *)
Record cfg := mk_cfg {
  c_height : Z;
  c_base : Z;                              (* base fee *)
  c_minprice : Z;                          (* global min gas price, scaled by ONE *)
  c_mult : Z;                              (* min gas multiplier, scaled by ONE *)
  c_limit : Z;                             (* block gas limit *)
  c_create : bool; c_call : bool;          (* creation, calls allowed *)
  c_rev : bool; c_share : Z;               (* revenue enabled; developer share, scaled by ONE *)
  c_precompile : Z -> bool;
  c_fc : Z                                 (* the fee collector's address *)
}.

Record log := mk_log { l_addr : Z; l_topics : list Z; l_block : Z; l_index : Z; l_txindex : Z; l_hash : Z }.

(* one run of the EVM *)
Record run := mk_run {
  r_burn : Z;                              (* gas used on top of the intrinsic gas *)
  r_refund : Z;                            (* the refund counter *)
  r_failed : bool;                         (* the run ended with a VM error *)
  r_moves : list (Z * Z * Z);              (* value moved: from, to, amount *)
  r_logs : list (Z * list Z);
  r_new : Z                                (* address of the created contract *)
}.
Inductive outcome :=
| OutErr                                   (* ApplyMessageWithConfig returns an error *)
| OutCommit                                (* the error "failed to commit stateDB" *)
| OutRun (r : run).

Record st := mk_st {
  bal : Z -> Z;
  nonces : Z -> Z;
  code : Z -> bool;
  revs : Z -> option Z;                     (* revenue: contract to the account that is paid *)
  t_index : Z;                             (* transient store: transactions so far *)
  t_logs : Z;                              (* logs so far *)
  t_bloom : Z;                             (* the block's bloom filter *)
  t_gas : Z;                               (* gas used by the messages of this SDK transaction *)
  tx_total : Z                                (* total_tx_count *)
}.
Definition upd {A} (f : Z -> A) (k : Z) (v : A) : Z -> A := fun x => if x =? k then v else f x.
Definition move (b : Z -> Z) (a c x : Z) : Z -> Z :=
  let b1 := upd b a (b a - x) in upd b1 c (b1 c + x).
Definition with_bal s b := mk_st b (nonces s) (code s) (revs s) (t_index s) (t_logs s) (t_bloom s) (t_gas s) (tx_total s).

(* ---------------- prices ---------------- *)
(* types/dynamic_fee_tx.go:270-272, types/utils.go:149-151, types/legacy_tx.go:216-218 *)
Definition effective_price (c : cfg) (m : msg) : Z :=
  if m_dyn m then Z.min (m_tip m + c_base c) (m_cap m) else m_cap m.
(* types/tx_data.go:76-79, EffectiveFee *)
Definition effective_fee (c : cfg) (m : msg) : Z := effective_price c m * m_gas m.
(* Fee and Cost: dynamic_fee_tx.go:260-267, legacy_tx.go:206-213 *)
Definition max_fee (m : msg) : Z := m_cap m * m_gas m.
Definition cost (m : msg) : Z := max_fee m + m_value m.
(* go-ethereum's AsMessage(signer, baseFee), as used by state_transition.go:161: the tip
   cap of a legacy transaction is its price *)
Definition message_price (c : cfg) (m : msg) : Z :=
  Z.min ((if m_dyn m then m_tip m else m_cap m) + c_base c) (m_cap m).

(* ---------------- the ante handler ---------------- *)
Inductive event :=
| EvHash (hash index : Z)                                  (* 12_emit_event.go:52-61 *)
| EvTx (hash index used : Z) (failed : bool)               (* msg_server.go:76-115 *)
| EvLogs (logs : list log).                                (* msg_server.go:103-120 *)

(* types/msg.go:159-197 ValidateBasic, dynamic_fee_tx.go Validate *)
Definition basic_ok (m : msg) : bool :=
  (0 <? m_gas m) && (m_gas m <? 2 ^ 63) && (0 <=? m_cap m) && (0 <=? m_value m) && (0 <=? m_nonce m) &&
  (negb (m_dyn m) || ((0 <=? m_tip m) && (m_tip m <=? m_cap m))).
(* 03_global_fee.go:19-36, on the effective fee of a dynamic transaction (mono.go:180-188) *)
Definition global_fee_ok (c : cfg) (m : msg) : bool :=
  (c_minprice c =? 0) || (c_minprice c * m_gas m <=? (if m_dyn m then effective_fee c m else max_fee m) * ONE).
(* 04_validate.go:37-53 checkDisabledCreateCall *)
Definition kind_ok (c : cfg) (m : msg) : bool :=
  match m_to m with None => c_create c | Some _ => c_call c end.
(* mono.go:158-303, one message: global fee, kind, balance (06_account_verification.go),
   base fee and value (07_can_transfer.go), fee deduction (09_gas_consume.go, fees.go:44-114),
   nonce (10_increment_sequence.go), event. The signature check is modelled by m_from being
   the signer. The mempool-only checks do not run in a block. *)
Definition ante_msg (c : cfg) (s : st) (m : msg) : option st :=
  if negb (basic_ok m) then None else
  if negb (global_fee_ok c m) then None else
  if negb (kind_ok c m) then None else
  if code s (m_from m) then None else
  if bal s (m_from m) <? cost m then None else
  if m_cap m <? c_base c then None else
  if (0 <? m_value m) && (bal s (m_from m) <? m_value m) then None else
  if bal s (m_from m) <? effective_fee c m then None else
  if negb (nonces s (m_from m) =? m_nonce m) then None else
  Some (mk_st (move (bal s) (m_from m) (c_fc c) (effective_fee c m)) (upd (nonces s) (m_from m) (m_nonce m + 1))
          (code s) (revs s) (t_index s) (t_logs s) (t_bloom s) (t_gas s) (tx_total s)).
Fixpoint ante_msgs (c : cfg) (s : st) (i : Z) (ms : list msg) : option (st * list event) :=
  match ms with
  | [] => Some (s, [])
  | m :: r =>
      match ante_msg c s m with
      | None => None
      | Some s1 =>
          match ante_msgs c s1 (i + 1) r with
          | None => None
          | Some (s2, evs) => Some (s2, EvHash (m_hash m) (t_index s + i) :: evs)
          end
      end
  end.
Definition sum (l : list Z) : Z := fold_right Z.add 0 l.
(* mono.go:121-333: transient gas reset (01_setup_ctx.go:54), the loop, CheckTxFee
   (04_validate.go:106-125), CheckBlockGasLimit (09_gas_consume.go:104-130) *)
Definition ante (c : cfg) (s : st) (x : tx) : option (st * list event) :=
  match x_msgs x with
  | [] => None
  | _ =>
      let s0 := mk_st (bal s) (nonces s) (code s) (revs s) (t_index s) (t_logs s) (t_bloom s) 0 (tx_total s) in
      match ante_msgs c s0 0 (x_msgs x) with
      | None => None
      | Some (s1, evs) =>
          if negb (x_fee x =? sum (map max_fee (x_msgs x))) then None else
          if negb (x_gas x =? sum (map m_gas (x_msgs x))) then None else
          if c_limit c <? sum (map m_gas (x_msgs x)) then None else Some (s1, evs)
      end
  end.

(* ---------------- execution ---------------- *)
Section Exec.
(* the bloom bits of an address and of a topic *)
Variable mask_a mask_t : Z -> Z.

(* go-ethereum LogsBloom *)
Definition log_mask (a : Z) (ts : list Z) : Z := fold_right Z.lor (mask_a a) (map mask_t ts).
Definition logs_mask (ls : list (Z * list Z)) : Z := fold_right Z.lor 0 (map (fun l => log_mask (fst l) (snd l)) ls).

(* state_transition.go:379-425, gas.go:67-75: refund at most a fifth (London), then at
   least the minimum share of the gas limit. The products of decimals are exact. *)
Definition gas_used (c : cfg) (m : msg) (r : run) : Z :=
  let used := m_intrinsic m + r_burn r in
  let used := used - Z.min (r_refund r) (used / 5) in
  Z.max (m_gas m * c_mult c) (used * ONE) / ONE.

(* value moved by the run; None when somebody lacks the money *)
Fixpoint moves (b : Z -> Z) (l : list (Z * Z * Z)) : option (Z -> Z) :=
  match l with
  | [] => Some b
  | (a, c, x) :: r => if b a <? x then None else moves (move b a c x) r
  end.

(* the statedb numbers the logs from the transient log size: config.go:39-48 *)
Fixpoint number (h idx : Z) (txi hash : Z) (ls : list (Z * list Z)) : list log :=
  match ls with
  | [] => []
  | (a, ts) :: r => mk_log a ts h idx txi hash :: number h (idx + 1) txi hash r
  end.

(* x/revenue/v1/keeper/evm_hooks.go:47-127 PostTxProcessing: the only registered hook. It
   never returns an error. *)
Definition dev_fee (c : cfg) (s : st) (m : msg) (used : Z) : option (Z * Z) :=
  match m_to m with
  | None => None
  | Some k =>
      if message_price c m <=? 0 then None else
      if negb (c_rev c) || (c_share c =? 0) then None else
      if c_precompile c k then None else
      match revs s k with
      | None => None
      | Some w => Some (w, c_share c * (used * message_price c m) / ONE)
      end
  end.
Definition pay_dev (c : cfg) (s : st) (m : msg) (used : Z) : st :=
  match dev_fee c s m used with
  | None => s
  | Some (w, x) => if (x <=? 0) || (bal s (c_fc c) <? x) then s else with_bal s (move (bal s) (c_fc c) w x)
  end.

(* evm_hooks.go:130-152 PostContractCreation *)
Definition register (c : cfg) (m : msg) (r : run) (f : Z -> option Z) : Z -> option Z :=
  match m_to m with
  | Some _ => f
  | None =>
      if negb (c_rev c) || (c_share c =? 0) then f else
      match f (r_new r) with Some _ => f | None => upd f (r_new r) (Some (m_from m)) end
  end.

(* state_transition.go:316-449 ApplyMessageWithConfig on a run without error: the
   nonce of a creating sender is taken over (361-364) *)
Definition committed (c : cfg) (s : st) (m : msg) (r : run) (b : Z -> Z) : st :=
  mk_st b
    (match m_to m with None => upd (nonces s) (m_from m) (m_nonce m + 1) | Some _ => nonces s end)
    (match m_to m with None => upd (code s) (r_new r) true | Some _ => code s end)
    (register c m r (revs s)) (t_index s) (t_logs s) (t_bloom s) (t_gas s) (tx_total s).

(* state_transition.go:151-259 ApplyTransaction. Returns the state, the gas used,
   whether the run failed and its logs. *)
Definition apply_tx (c : cfg) (s : st) (m : msg) (o : outcome) : option (st * Z * bool * list log) :=
  match o with
  | OutErr | OutCommit => None
  | OutRun r =>
      if m_gas m <? m_intrinsic m then None else
      let used := gas_used c m r in
      let ok := if r_failed r then None else moves (bal s) (r_moves r) in
      let '(s1, failed, raw) :=
        match ok with
        | None => (s, true, [])
        | Some b => (pay_dev c (committed c s m r b) m used, false, r_logs r)
        end in
      let back := (m_gas m - used) * message_price c m in
      if (back <? 0) || (bal s1 (c_fc c) <? back) then None else
      let b2 := move (bal s1) (c_fc c) (m_from m) back in
      let n := Z.of_nat (length raw) in
      Some (mk_st b2 (nonces s1) (code s1) (revs s1) (t_index s + 1) (t_logs s + n)
              (Z.lor (t_bloom s) (logs_mask raw)) (t_gas s + used) (tx_total s),
            used, failed, number (c_height c) (t_logs s) (t_index s) (m_hash m) raw)
  end.

Inductive kind := KBlock | KCommit | KOther.
(* the messages of a transaction: the first error ends it *)
Fixpoint run_msgs (c : cfg) (s : st) (ms : list msg) (os : list outcome) : kind + (st * list event) :=
  match ms with
  | [] => inr (s, [])
  | m :: r =>
      let o := hd OutErr os in
      match apply_tx c s m o with
      | None => inl (match o with OutCommit => KCommit | _ => KOther end)
      | Some (s1, used, failed, ls) =>
          match run_msgs c s1 r (tl os) with
          | inl k => inl k
          | inr (s2, evs) => inr (s2, EvTx (m_hash m) (t_index s) used failed :: EvLogs ls :: evs)
          end
      end
  end.

Inductive result :=
| RSkip                                   (* no block gas left: nothing runs *)
| RAnte                                   (* rejected by the ante handler *)
| RFail (k : kind) (evs : list event)     (* failed after the ante handler *)
| ROk (used : Z) (evs : list event).

(* baseapp.runTx around the ante handler and the messages. A failed transaction has
   used its whole gas limit (state_transition.go:179-181). *)
Definition deliver (c : cfg) (s : st) (bg : Z) (x : tx) (os : list outcome) : st * Z * result :=
  if c_limit c <=? bg then (s, bg, RSkip) else
  match ante c s x with
  | None => (s, bg, RAnte)
  | Some (s1, ev1) =>
      match run_msgs c s1 (x_msgs x) os with
      | inl k =>
          let bg' := bg + x_gas x in
          (s1, bg', RFail (if c_limit c <? bg' then KBlock else k) ev1)
      | inr (s2, ev2) =>
          let bg' := bg + t_gas s2 in
          if c_limit c <? bg' then (s1, bg', RFail KBlock ev1) else (s2, bg', ROk (t_gas s2) (ev1 ++ ev2))
      end
  end.

Fixpoint deliver_all (c : cfg) (s : st) (bg : Z) (xs : list (tx * list outcome)) : st * list result :=
  match xs with
  | [] => (s, [])
  | (x, os) :: r =>
      let '(s1, bg1, res1) := deliver c s bg x os in
      let '(s2, rs) := deliver_all c s1 bg1 r in (s2, res1 :: rs)
  end.

(* a block: the transient store is empty at its start; EndBlock (abci.go:39-50)
   emits the bloom and keeper.go:381-421 adds to the total *)
Definition start (s : st) : st := mk_st (bal s) (nonces s) (code s) (revs s) 0 0 0 0 (tx_total s).
Record block := mk_block { b_cfg : cfg; b_txs : list (tx * list outcome) }.
Record block_result := mk_result { br_results : list result; br_bloom : Z }.
Definition run_block (s : st) (b : block) : st * block_result :=
  let '(s1, rs) := deliver_all (b_cfg b) (start s) 0 (b_txs b) in
  (mk_st (bal s1) (nonces s1) (code s1) (revs s1) (t_index s1) (t_logs s1) (t_bloom s1) (t_gas s1)
     (if c_height (b_cfg b) <=? 0 then tx_total s1 else tx_total s1 + t_index s1),
   mk_result rs (t_bloom s1)).
Fixpoint run_chain (s : st) (bs : list block) : st * list block_result :=
  match bs with
  | [] => (s, [])
  | b :: r => let '(s1, x) := run_block s b in let '(s2, xs) := run_chain s1 r in (s2, x :: xs)
  end.
End Exec.
