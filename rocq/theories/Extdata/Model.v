(* Questions to contracts on other chains: precompiles/hyperion/methods.go RequestData,
   x/hyperion/keeper/external_data.go, msg_server_hyperion.go ExternalDataClaim and
   x/hyperion/abci.go executeExternalDataTxs.
   Simplifications:
   - accounts, contracts and denominations are numbers: their texts (bech32, hex) are left out;
   - the requests are kept as a list. Each is stored under (bridge, nonce, contract), fields it
     carries itself; the order of the store cannot be seen, because the requests are sorted by
     nonce before they are worked through. The second entry under (bridge, block) is never read
     and is left out;
   - counters do not wrap at 2^64;
   - making the callback job in x/chronos is: a fresh job number, a deposit on the account of
     the job; storing an answer for a job is a map from job numbers to answers;
   - the lists of RPC addresses, events, logs and gas are left out. *)
From Verif Require Import Lib.Base Lib.Bytes.
Open Scope Z_scope.

(* MsgExternalDataClaim: bridge, nonce and contract are those of the request it is stored in *)
Record claim := mk_claim {
  c_orch : Z;        (* Orchestrator *)
  c_res : bytes;     (* CallDataResult: hex text *)
  c_err : bytes;     (* CallDataResultError: hex text *)
  c_height : Z
}.
(* OutgoingExternalDataTx (Id = Nonce) *)
Record req := mk_req {
  q_hid : Z; q_nonce : Z; q_block : Z; q_timeout : Z; q_cron : Z; q_contract : Z;
  q_call : bytes; q_sender : Z;
  q_feec : Z; q_fee : Z;        (* Fee: contract of the token, amount *)
  q_claims : list claim; q_votes : list Z
}.
Record st := mk_st {
  s_reqs : list req;
  s_last : Z -> Z;                   (* LastOutgoingBatchID of a bridge: shared with batches *)
  s_cron : Z;                        (* number of the last job made in x/chronos *)
  s_bal : Z -> Z -> Z;               (* bank: account, denomination *)
  s_done : list req;                 (* StoreFinalizedTx: the archive *)
  s_cb : Z -> option (bytes * bytes);(* answers stored for jobs: data, error *)
  s_stats : Z -> Z -> option (Z * Z) (* bridge, orchestrator: requests executed, fees collected *)
}.
Definition set_reqs s v := mk_st v (s_last s) (s_cron s) (s_bal s) (s_done s) (s_cb s) (s_stats s).
Definition set_last s v := mk_st (s_reqs s) v (s_cron s) (s_bal s) (s_done s) (s_cb s) (s_stats s).
Definition set_cron s v := mk_st (s_reqs s) (s_last s) v (s_bal s) (s_done s) (s_cb s) (s_stats s).
Definition set_bal s v := mk_st (s_reqs s) (s_last s) (s_cron s) v (s_done s) (s_cb s) (s_stats s).
Definition set_done s v := mk_st (s_reqs s) (s_last s) (s_cron s) (s_bal s) v (s_cb s) (s_stats s).
Definition set_cb s v := mk_st (s_reqs s) (s_last s) (s_cron s) (s_bal s) (s_done s) v (s_stats s).
Definition set_stats s v := mk_st (s_reqs s) (s_last s) (s_cron s) (s_bal s) (s_done s) (s_cb s) v.

(* the parameters of a bridge *)
Record bridge := mk_bridge { b_hid : Z; b_min_gas : Z; b_evm : bool }.
(* the rest of the chain while an operation runs *)
Record env := mk_env {
  e_height : Z;
  e_base_fee : Z;
  e_bridge : Z -> option bridge;       (* GetHyperionParamsFromChainId *)
  e_coin : option Z;                   (* x/erc20 GetCoinAddress of the chain's coin *)
  e_pair : Z -> option Z;              (* x/erc20: denomination of a token contract *)
  e_vals : list Z;                     (* bonded validators *)
  e_power : Z -> Z;                    (* GetLastValidatorPower: 0 if there is none *)
  e_keyed : Z -> Z -> bool;            (* bridge, validator: it has set its Ethereum key *)
  e_orch : Z -> Z -> option Z;         (* GetOrchestratorValidator: bridge, orchestrator *)
  e_bonded : Z -> bool;                (* the validator exists and is bonded *)
  e_shuffle : list (bytes * Z) -> list (bytes * Z)   (* the order in which Go visits a map *)
}.

Definition upd {A} (f : Z -> A) (k : Z) (v : A) : Z -> A := fun x => if x =? k then v else f x.

(* encoding/hex DecodeString *)
Definition hexval (c : N) : option N :=
  (if (48 <=? c) && (c <=? 57) then Some (c - 48)
   else if (97 <=? c) && (c <=? 102) then Some (c - 87)
   else if (65 <=? c) && (c <=? 70) then Some (c - 55)
   else None)%N.
Fixpoint hexdec (t : bytes) : option bytes :=
  match t with
  | [] => Some []
  | [_] => None
  | a :: b :: tl =>
      match hexval a, hexval b, hexdec tl with
      | Some x, Some y, Some z => Some ((16 * x + y)%N :: z)
      | _, _, _ => None
      end
  end.

Section Extdata.
Variables (BASE : Z) (ESC : Z).         (* the chain's coin; the account of x/hyperion *)
Variable blocked : Z -> bool.           (* bank: may not receive *)
Variable cron_acct : Z -> Z.            (* account of a job *)
Variables (parse_err json_err : bytes -> bytes).  (* the texts of decoding errors *)

(* bank SendCoins / SendCoinsFromAccountToModule; an amount of 0 is no coin at all *)
Definition send (s : st) (d from to amt : Z) : option st :=
  if amt =? 0 then Some s
  else if s_bal s from d <? amt then None
  else
    let b1 := upd (s_bal s) from (upd (s_bal s from) d (s_bal s from d - amt)) in
    Some (set_bal s (upd b1 to (upd (b1 to) d (b1 to d + amt)))).
(* bank SendCoinsFromModuleToAccount; every caller here ignores the error *)
Definition pay (s : st) (d to amt : Z) : st :=
  if blocked to then s
  else match send s d ESC to amt with Some s' => s' | None => s end.

(* external_data.go 226-241 GetOutgoingExternalDataTX *)
Definition same_key (h n c : Z) (r : req) : bool :=
  (q_hid r =? h) && (q_nonce r =? n) && (q_contract r =? c).
Definition find_req (s : st) (h n c : Z) : option req := find (same_key h n c) (s_reqs s).
(* 216-223 DeleteExternalData *)
Definition del_req (s : st) (r : req) : st :=
  set_reqs s (filter (fun x => negb (same_key (q_hid r) (q_nonce r) (q_contract r) x)) (s_reqs s)).
(* 191-201 StoreExternalData, for a key already there and for a new one *)
Definition put_req (s : st) (r : req) : st :=
  match find_req s (q_hid r) (q_nonce r) (q_contract r) with
  | Some _ =>
      set_reqs s (map (fun x => if same_key (q_hid r) (q_nonce r) (q_contract r) x then r else x)
                      (s_reqs s))
  | None => set_reqs s (s_reqs s ++ [r])
  end.

(* a call of the precompile: the sender of the transaction, the contract that calls it *)
Record ask_msg := mk_ask {
  m_origin : Z; m_caller : Z; m_chain : Z; m_contract : Z; m_call : bytes;
  m_has_callback : bool;    (* the caller has the callback function *)
  m_price : Z; m_gas : Z
}.

Definition W256 : Z := 2 ^ 256.
(* precompiles/hyperion/methods.go 257-402 RequestData, with external_data.go 32-56
   BuildOutgoingExternalDataTX and x/chronos CreateCallBackConditionedCron (money and number).
   An error undoes everything: the precompile works on a snapshot. *)
Definition ask (e : env) (m : ask_msg) (s : st) : res st :=
  if Nat.eqb (length (m_call m)) 0 then Err
  else if negb (m_has_callback m) then Err
  else
    let half := m_gas m / 2 in
    match e_bridge e (m_chain m) with
    | None => Err
    | Some b =>
        if half <? b_min_gas b then Err
        else match e_coin e with
        | None => Err
        | Some coin =>
            if m_price m <? e_base_fee e then Err
            else
              let fee := half * m_price m in
              if W256 <=? 2 * fee then Panic
              else if s_bal s (m_origin m) BASE <? 2 * fee then Err
              else match send s BASE (m_origin m) ESC fee with
              | None => Err
              | Some s1 =>
                  let id := s_cron s1 + 1 in
                  match send s1 BASE (m_origin m) (cron_acct id) fee with
                  | None => Err
                  | Some s2 =>
                      let s3 := set_cron s2 id in
                      let n := s_last s3 (b_hid b) + 1 in
                      let s4 := set_last s3 (upd (s_last s3) (b_hid b) n) in
                      Ok (put_req s4 (mk_req (b_hid b) n (e_height e) (e_height e + 100 - 1) id
                                             (m_contract m) (m_call m) (m_origin m) coin fee [] []))
                  end
              end
        end
    end.

(* x/hyperion/keeper/msg_server_hyperion.go 532-575 ExternalDataClaim, after ValidateBasic *)
Definition answer (e : env) (h n ct : Z) (c : claim) (s : st) : res st :=
  if n =? 0 then Err
  else match e_orch e h (c_orch c) with
  | None => Err
  | Some v =>
      if negb (e_bonded e v) then Err
      else match find_req s h n ct with
      | None => Err
      | Some r =>
          if existsb (Z.eqb (c_orch c)) (q_votes r) then Err
          else Ok (put_req s (mk_req (q_hid r) (q_nonce r) (q_block r) (q_timeout r) (q_cron r)
                                     (q_contract r) (q_call r) (q_sender r) (q_feec r) (q_fee r)
                                     (q_claims r ++ [c]) (q_votes r ++ [c_orch c])))
      end
  end.

(* abci.go 589-629 selectBestClaimFromListOfClaims *)
Definition ckey (c : claim) : bytes := c_res c ++ 124%N :: c_err c.   (* "%d|%s|%s": the number is
                                                                        the same in all of them *)
Fixpoint bump (k : bytes) (l : list (bytes * Z)) : list (bytes * Z) :=
  match l with
  | [] => [(k, 1)]
  | (k', n) :: tl => if beqb k' k then (k', n + 1) :: tl else (k', n) :: bump k tl
  end.
Definition freqs (cs : list claim) : list (bytes * Z) :=
  fold_left (fun m c => bump (ckey c) m) cs [].
Definition pick (l : list (bytes * Z)) : Z * bytes :=
  fold_left (fun b kn => if fst b <? snd kn then (snd kn, fst kn) else b) l (0, []).
Definition by_key (cs : list claim) (k : bytes) : option claim :=
  find (fun c => beqb (ckey c) k) (List.rev cs).
Definition best (e : env) (cs : list claim) : option claim :=
  match cs with
  | [] => None
  | [c] => Some c
  | _ => by_key cs (snd (pick (e_shuffle e (freqs cs))))
  end.

(* external_data.go 203-213 RefundExternalData *)
Definition refund (e : env) (r : req) (s : st) : st :=
  match e_pair e (q_feec r) with
  | None => s
  | Some d => pay s d (q_sender r) (q_fee r)
  end.
(* external_data.go 161-188 rewardVotersOfExternalDataTx *)
Definition reward_one (d share : Z) (r : req) (s : st) (v : Z) : st :=
  let s1 := pay s d v share in
  match s_stats s1 (q_hid r) v with
  | None => s1
  | Some (n, f) =>
      set_stats s1 (upd (s_stats s1) (q_hid r) (upd (s_stats s1 (q_hid r)) v (Some (n + 1, f + q_fee r))))
  end.
Definition reward (e : env) (r : req) (s : st) : st :=
  match e_pair e (q_feec r) with
  | None => s
  | Some d =>
      let share := q_fee r / Z.of_nat (length (q_votes r)) in
      fold_left (reward_one d share r) (q_votes r) s
  end.
(* external_data.go 128-158: what is stored for the callback *)
Definition result (c : claim) : bytes * bytes :=
  match hexdec (c_res c) with
  | None => ([], parse_err (c_res c))
  | Some b =>
      match hexdec (c_err c) with
      | None => if Nat.eqb (length b) 0 then ([], json_err (c_err c)) else (b, [])
      | Some eb => (b, eb)
      end
  end.
(* external_data.go 75-159 OutgoingExternalDataTxExecuted; 244-266 CancelOutgoingExternalDataTX
   only deletes, and finds what it deletes since the keys come from the entries *)
Definition cancelled_by (r x : req) : bool :=
  (q_hid x =? q_hid r) && (q_nonce x <? q_nonce r) && (q_contract x =? q_contract r).
Definition executed (e : env) (r : req) (c : claim) (s : st) : st :=
  let s1 := set_reqs s (filter (fun x => negb (cancelled_by r x)) (s_reqs s)) in
  let s2 := del_req s1 r in
  let s3 := set_done s2 (s_done s2 ++ [r]) in
  let s4 := reward e r s3 in
  set_cb s4 (upd (s_cb s4) (q_cron r) (Some (result c))).

(* abci.go 672-703: the votes are added up until there is enough *)
Fixpoint tally (e : env) (need acc : Z) (votes : list Z) : bool * Z :=
  match votes with
  | [] => (false, acc)
  | v :: tl =>
      let a := acc + e_power e v in
      if need <=? a then (true, a) else tally e need a tl
  end.
Definition W64 : Z := 2 ^ 64.
(* abci.go 650-704: one request; [acc] is kept from one request to the next *)
Definition one (e : env) (need : Z) (sa : st * Z) (r : req) : st * Z :=
  let '(s, acc) := sa in
  if q_timeout r <? e_height e then (del_req (refund e r s) r, acc)
  else if e_height e <? (q_timeout r - 50) mod W64 then (s, acc)
  else match best e (q_claims r) with
  | None => (s, acc)
  | Some c =>
      let '(hit, acc') := tally e need acc (q_votes r) in
      if hit then (executed e r c s, acc') else (s, acc')
  end.

(* sort.Slice by nonce *)
Fixpoint insert (r : req) (l : list req) : list req :=
  match l with
  | [] => [r]
  | x :: tl => if q_nonce r <=? q_nonce x then r :: l else x :: insert r tl
  end.
Definition sort (l : list req) : list req := fold_right insert [] l.

(* keeper.go 810-831 GetCurrentValsetTotalPower, attestation.go 182-184 GetRequiredPower *)
Definition zsum (l : list Z) : Z := fold_right Z.add 0 l.
Definition total_power (e : env) (h : Z) : Z :=
  zsum (map (fun v => if e_keyed e h v then e_power e v else 0) (e_vals e)).
Definition required (e : env) (h : Z) : Z := Z.quot (total_power e h * 33) 100.

(* abci.go 631-705 executeExternalDataTxs; 305-315 GetOutgoingExternalDataTXs *)
Definition end_block (e : env) (b : bridge) (s : st) : st :=
  if b_evm b then
    fst (fold_left (one e (required e (b_hid b)))
                   (sort (filter (fun r => q_hid r =? b_hid b) (s_reqs s))) (s, 0))
  else s.

Inductive op :=
| Ask (m : ask_msg)
| Answer (h n ct : Z) (c : claim)
| EndBlock (b : bridge)
| OtherBatch (h : Z)            (* a batch of transfers takes a number of the bridge *)
| OtherCron                     (* another job takes a number *)
| Gain (a d amt : Z).           (* somebody receives coins from elsewhere *)
Definition step (e : env) (o : op) (s : st) : res st :=
  match o with
  | Ask m => ask e m s
  | Answer h n ct c => answer e h n ct c s
  | EndBlock b => Ok (end_block e b s)
  | OtherBatch h => Ok (set_last s (upd (s_last s) h (s_last s h + 1)))
  | OtherCron => Ok (set_cron s (s_cron s + 1))
  | Gain a d amt =>
      if amt <? 0 then Err
      else Ok (set_bal s (upd (s_bal s) a (upd (s_bal s a) d (s_bal s a d + amt))))
  end.
Definition keep (s : st) (r : res st) : st := match r with Ok s' => s' | _ => s end.
Fixpoint run (l : list (env * op)) (s : st) : st :=
  match l with
  | [] => s
  | (e, o) :: tl => run tl (keep s (step e o s))
  end.
Definition empty_st (stats : Z -> Z -> option (Z * Z)) : st :=
  mk_st [] (fun _ => 0) 0 (fun _ _ => 0) [] (fun _ => None) stats.

End Extdata.
