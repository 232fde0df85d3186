(* Bridge validator sets: creation, confirmation, punishment of those who did not
   confirm, pruning. x/hyperion/keeper/keeper.go, abci.go, keeper/msg_server_hyperion.go,
   keeper/msg_server_helios.go, types/types.go, types/batch.go.
   Accounts, validators, Ethereum addresses, signatures are numbers; a validator has the
   number of its account. *)
From Verif Require Import Lib.Base Lib.Zmap.
Open Scope Z_scope.

Record member := mk_member { m_eth : Z; m_power : Z }.
Record valset := mk_set { v_nonce : Z; v_height : Z; v_members : list member; v_reward : Z; v_token : Z }.

(* math.MaxUint32 *)
Definition U32 : Z := 4294967295.

Definition zsum (l : list Z) : Z := fold_right Z.add 0 l.

(* ---- the difference of two sets: types/types.go:81-105 PowerDiff ---- *)
Definition put_power (m : list (Z * Z)) (x : member) : list (Z * Z) := zset m (m_eth x) (m_power x).
Definition take_power (m : list (Z * Z)) (x : member) : list (Z * Z) :=
  zset m (m_eth x) (match zget m (m_eth x) with Some p => p | None => 0 end - m_power x).
(* The code adds the absolute values as floats, in the order of a Go map. They are whole
   numbers below 2^53, so the sum is exact and does not depend on the order. *)
Definition power_delta (b c : list member) : Z :=
  zsum (map Z.abs (zvals (fold_left take_power c (fold_left put_power b [])))).
(* abci.go:85 PowerDiff > 0.05: 0.05 * MaxUint32 = 214748364.75 lies a quarter away from a
   whole number, far more than the rounding of the division and of the constant, so the
   comparison of floats is this one of whole numbers. *)
Definition big_change (b c : list member) : bool := U32 <? 20 * power_delta b c.

(* ---- what x/staking and x/slashing tell ---- *)
(* sv_power: the power of the last block, 0 when unknown; sv_start: the start height in the
   signing information, if any *)
Record sval := mk_sval { sv_op : Z; sv_power : Z; sv_jailed : bool; sv_start : option Z }.
Record uval := mk_uval { uv_op : Z; uv_start : option Z; uv_unbonding : bool; uv_height : Z }.
(* parameters of one counterparty chain; p_reset is AverageBlockTime > 0; the reward is
   already resolved to a token *)
Record cparams := mk_params { p_h : Z; p_window : Z; p_uwindow : Z; p_offset : Z; p_reset : bool; p_reward : Z; p_token : Z }.

Record conf := mk_conf { cf_nonce : Z; cf_orch : Z; cf_eth : Z; cf_sig : Z }.
Record batch := mk_batch { bt_nonce : Z; bt_token : Z; bt_timeout : Z; bt_txs : list (Z * Z * Z) (* amount, destination, fee *) }.
Record bconf := mk_bconf { bc_token : Z; bc_nonce : Z; bc_orch : Z; bc_signer : Z; bc_sig : Z }.

Record bridge := mk_bridge {
  b_sets : list (Z * valset);      (* by nonce *)
  b_latest : Z;                    (* latest valset nonce *)
  b_slashed : Z;                   (* last slashed valset nonce *)
  b_confs : list conf;
  b_orch : list (Z * Z);           (* orchestrator -> validator *)
  b_eth : list (Z * Z);            (* validator -> Ethereum address *)
  b_byeth : list (Z * Z);          (* Ethereum address -> validator *)
  b_observed : option Z;           (* nonce of the last observed valset *)
  b_batches : list batch;
  b_bconfs : list bconf
}.
Definition empty_bridge : bridge := mk_bridge [] 0 0 [] [] [] [] None [] [].
Record st := mk_st { s_height : Z; s_unbond : Z; s_br : Z -> bridge }.
Definition init (h : Z) : st := mk_st h 0 (fun _ => empty_bridge).
Definition put (s : st) (h : Z) (b : bridge) : st := mk_st (s_height s) (s_unbond s) (fun x => if x =? h then b else s_br s x).

Definition with_sets b sets latest := mk_bridge sets latest (b_slashed b) (b_confs b) (b_orch b) (b_eth b) (b_byeth b) (b_observed b) (b_batches b) (b_bconfs b).
Definition with_slashed b n := mk_bridge (b_sets b) (b_latest b) n (b_confs b) (b_orch b) (b_eth b) (b_byeth b) (b_observed b) (b_batches b) (b_bconfs b).
Definition with_confs b l := mk_bridge (b_sets b) (b_latest b) (b_slashed b) l (b_orch b) (b_eth b) (b_byeth b) (b_observed b) (b_batches b) (b_bconfs b).
Definition with_keys b o e r := mk_bridge (b_sets b) (b_latest b) (b_slashed b) (b_confs b) o e r (b_observed b) (b_batches b) (b_bconfs b).
Definition with_observed b n := mk_bridge (b_sets b) (b_latest b) (b_slashed b) (b_confs b) (b_orch b) (b_eth b) (b_byeth b) (Some n) (b_batches b) (b_bconfs b).
Definition with_batches b l := mk_bridge (b_sets b) (b_latest b) (b_slashed b) (b_confs b) (b_orch b) (b_eth b) (b_byeth b) (b_observed b) l (b_bconfs b).
Definition with_bconfs b l := mk_bridge (b_sets b) (b_latest b) (b_slashed b) (b_confs b) (b_orch b) (b_eth b) (b_byeth b) (b_observed b) (b_batches b) l.

(* ---- what is signed ---- *)
(* the word for the text "checkpoint" and for "transactionBatch", padded to 32 bytes *)
Definition word_checkpoint : Z := 44963423861210738682159135835257249530040214621620767658963725067490955362304.
Definition word_batch : Z := 52670383448184385781130421192882813184724655802622623694006673489799698972672.
(* types/types.go:160-226: the 32-byte words that abi.Pack produces after the selector. The
   first word should be the id of the bridge; the code writes the text "checkpoint". *)
Definition set_words (h : Z) (v : valset) : list Z :=
  let n := Z.of_nat (length (v_members v)) in
  [word_checkpoint; word_checkpoint; v_nonce v; 224; 224 + 32 * (n + 1); v_reward v; v_token v] ++
  [n] ++ map m_eth (v_members v) ++ [n] ++ map m_power (v_members v).
(* types/batch.go:14-60: the fees are written as zeros *)
Definition batch_words (h : Z) (b : batch) : list Z :=
  let n := Z.of_nat (length (bt_txs b)) in
  [word_checkpoint; word_batch; 256; 256 + 32 * (n + 1); 256 + 64 * (n + 1); bt_nonce b; bt_token b; bt_timeout b] ++
  [n] ++ map (fun x => fst (fst x)) (bt_txs b) ++ [n] ++ map (fun x => snd (fst x)) (bt_txs b) ++ [n] ++ map (fun _ => 0) (bt_txs b).
(* types/ethereum_signer.go:84-98 ValidateEthereumSignature: the check is commented out *)
Definition signature_ok (words : list Z) (sig eth : Z) : bool := true.

Section Code.
(* the place of an Ethereum address among the addresses ordered by their checksummed text *)
Variable rank : Z -> Z.
(* sdk.AccAddressFromBech32 applied to the text of an operator address *)
Variable acc_of : Z -> Z.

(* ---- the current set: keeper.go:853-905 GetCurrentValset, types/types.go:57-65 Sort ---- *)
Definition registered (b : bridge) (l : list sval) : list member :=
  flat_map (fun v => match zget (b_eth b) (sv_op v) with Some e => [mk_member e (sv_power v)] | None => [] end) l.
Definition total (l : list member) : Z := zsum (map m_power l).
Definition normal (t : Z) (x : member) : member := mk_member (m_eth x) (m_power x * U32 / t).
Definition before (x y : member) : bool :=
  if m_power x =? m_power y then rank (m_eth x) <? rank (m_eth y) else m_power y <? m_power x.
(* sort.SliceStable, as insertion of each element after those it does not precede *)
Fixpoint insert (x : member) (l : list member) : list member :=
  match l with
  | [] => [x]
  | y :: r => if before y x then y :: insert x r else x :: l
  end.
Definition sort (l : list member) : list member := fold_right insert [] l.
(* dividing by a total of zero panics *)
Definition current (b : bridge) (l : list sval) : res (list member) :=
  match registered b l with
  | [] => Ok []
  | ms => if total ms =? 0 then Panic else Ok (sort (map (normal (total ms)) ms))
  end.

Inductive event :=
| EvSet (h : Z) (v : valset) (announced : Z)
| EvJudged (h nonce made now : Z)
| EvSlash (h nonce op : Z)
| EvPruned (h nonce : Z).

(* ---- abci.go:68-90 createValsets; keeper.go:142-180 SetValsetRequest, StoreValset ---- *)
Definition store_set (b : bridge) (v : valset) : bridge := with_sets b (zset (b_sets b) (v_nonce v) v) (v_nonce v).
Definition create (p : cparams) (bonded : list sval) (s : st) : res (st * list event) :=
  let b := s_br s (p_h p) in
  match current b bonded with
  | Ok ms =>
      let wanted := match zget (b_sets b) (b_latest b) with
                    | None => true
                    | Some v => (s_unbond s =? s_height s) || big_change ms (v_members v)
                    end in
      match wanted, ms with
      | true, _ :: _ =>
          let v := mk_set (s_height s + p_offset p) (s_height s) ms (p_reward p) (p_token p) in
          Ok (put s (p_h p) (store_set b v), [EvSet (p_h p) v (v_nonce v + p_offset p)])
      | _, _ => Ok (s, [])
      end
  | Err => Err
  | Panic => Panic
  end.

(* ---- abci.go:325-480 valsetSlashing; keeper.go:359-400 ---- *)
Definition unslashed (b : bridge) (max : Z) : list valset :=
  filter (fun v => b_slashed b <? v_nonce v)
    (zvals (filter (fun x => (b_slashed b <=? fst x) && (fst x <? max)) (b_sets b))).
Definition confs_of (b : bridge) (n : Z) : list conf := filter (fun c => cf_nonce c =? n) (b_confs b).
Definition started (o : option Z) (v : valset) : bool := match o with Some s => s <? v_height v | None => false end.
Definition confirmed (b : bridge) (cs : list conf) (w : Z) : bool :=
  existsb (fun c => match zget (b_eth b) w with Some e => cf_eth c =? e | None => false end) cs.
(* 345-405: the operator's own account must be an orchestrator; the address looked for is
   that of the validator this orchestrator stands for *)
Definition punish_bonded (b : bridge) (vs : valset) (v : sval) : bool :=
  negb (sv_jailed v) && started (sv_start v) vs &&
  match zget (b_orch b) (acc_of (sv_op v)) with
  | None => false
  | Some w => negb (confirmed b (confs_of b (v_nonce vs)) w)
  end.
(* 407-475 *)
Definition punish_unbonding (p : cparams) (b : bridge) (vs : valset) (v : uval) : bool :=
  match zget (b_orch b) (acc_of (uv_op v)) with
  | None => false
  | Some _ => started (uv_start v) vs && uv_unbonding v && (v_height vs <? uv_height v + p_uwindow p) &&
              negb (confirmed b (confs_of b (v_nonce vs)) (uv_op v))
  end.
Definition punished (p : cparams) (b : bridge) (bonded : list sval) (unbonding : list uval) (vs : valset) : list Z :=
  map sv_op (filter (punish_bonded b vs) bonded) ++ map uv_op (filter (punish_unbonding p b vs) unbonding).
Definition slash (p : cparams) (bonded : list sval) (unbonding : list uval) (s : st) : st * list event :=
  let b := s_br s (p_h p) in
  if p_window p <? s_height s then
    let vs := unslashed b (s_height s - p_window p) in
    (put s (p_h p) (with_slashed b (last (map v_nonce vs) (b_slashed b))),
     flat_map (fun v => map (EvSlash (p_h p) (v_nonce v)) (punished p b bonded unbonding v) ++
                        [EvJudged (p_h p) (v_nonce v) (v_height v) (s_height s)]) vs)
  else (s, []).

(* ---- abci.go:553-587 pruneValsets: every chain, with the window of one ---- *)
Definition stale (window now observed : Z) (v : valset) : bool :=
  (v_nonce v <? observed) && (v_height v <? now - window).
Definition prune_one (window : Z) (h : Z) (s : st) : st * list event :=
  let b := s_br s h in
  match b_observed b with
  | Some n =>
      if s_height s <? window then (s, []) else
      (put s h (with_sets b (filter (fun x => negb (stale window (s_height s) n (snd x))) (b_sets b)) (b_latest b)),
       map (fun x => EvPruned h (v_nonce (snd x))) (filter (fun x => stale window (s_height s) n (snd x)) (b_sets b)))
  | None => (s, [])
  end.
Fixpoint prune (window : Z) (hs : list Z) (s : st) : st * list event :=
  match hs with
  | [] => (s, [])
  | h :: r => let '(s1, e1) := prune_one window h s in let '(s2, e2) := prune window r s1 in (s2, e1 ++ e2)
  end.

(* ---- abci.go:37-66 EndBlocker, the parts about validator sets ---- *)
(* CleanValsets; the confirmations are not reached by CleanValsetConfirms (see C39) *)
Definition reset (p : cparams) (s : st) : st :=
  if p_reset p then let b := s_br s (p_h p) in put s (p_h p) (with_sets b [] (b_latest b)) else s.
Definition chain_end (all : list cparams) (bonded : list sval) (unbonding : list uval) (p : cparams) (s : st) : res (st * list event) :=
  let '(s1, e1) := slash p bonded unbonding (reset p s) in
  match create p bonded s1 with
  | Ok (s2, e2) => let '(s3, e3) := prune (p_window p) (map p_h all) s2 in Ok (s3, e1 ++ e2 ++ e3)
  | Err => Err
  | Panic => Panic
  end.
Fixpoint chains_end (all : list cparams) (bonded : list sval) (unbonding : list uval) (ps : list cparams) (s : st) : res (st * list event) :=
  match ps with
  | [] => Ok (s, [])
  | p :: r =>
      match chain_end all bonded unbonding p s with
      | Ok (s1, e1) =>
          match chains_end all bonded unbonding r s1 with
          | Ok (s2, e2) => Ok (s2, e1 ++ e2)
          | Err => Err
          | Panic => Panic
          end
      | Err => Err
      | Panic => Panic
      end
  end.

Inductive op :=
| OSetKeys (h sender orch eth : Z) (welcome : bool)  (* welcome: the validator exists and is not kept out by a whitelist *)
| OUnsetKeys (h sender eth : Z)
| OConfirm (h nonce orch eth : Z) (sig : option Z)     (* None: not a hexadecimal text *)
| OBatch (h : Z) (b : batch)
| OConfirmBatch (h token nonce orch signer : Z) (sig : option Z)
| OUnbond
| OObserve (h nonce : Z)
| OBlock (bonded : list sval) (unbonding : list uval) (ps : list cparams).

Definition has_conf (b : bridge) (n o : Z) : bool := existsb (fun c => (cf_nonce c =? n) && (cf_orch c =? o)) (b_confs b).
Definition has_bconf (b : bridge) (t n o : Z) : bool :=
  existsb (fun c => (bc_token c =? t) && (bc_nonce c =? n) && (bc_orch c =? o)) (b_bconfs b).
Definition find_batch (b : bridge) (t n : Z) : option batch :=
  find (fun x => (bt_token x =? t) && (bt_nonce x =? n)) (b_batches b).

Definition step (s : st) (o : op) : res (st * list event) :=
  match o with
  (* keeper/msg_server_helios.go:29-105 SetOrchestratorAddresses (and, with the validator's
     own address as Ethereum address, 107-199 SetOrchestratorAddressesWithFee) *)
  | OSetKeys h sender orch eth welcome =>
      let b := s_br s h in
      match zget (b_orch b) orch, zget (b_eth b) sender with
      | None, None =>
          if welcome then
            Ok (put s h (with_keys b (zset (b_orch b) orch sender) (zset (b_eth b) sender eth) (zset (b_byeth b) eth sender)), [])
          else Err
      | _, _ => Err
      end
  (* keeper/msg_server_helios.go:253-274 UnSetOrchestratorAddresses *)
  | OUnsetKeys h sender eth =>
      let b := s_br s h in
      Ok (put s h (with_keys b (zdel (b_orch b) sender) (zdel (b_eth b) sender) (zdel (b_byeth b) eth)), [])
  (* keeper/msg_server_hyperion.go:42-107 ValsetConfirm *)
  | OConfirm h nonce orch eth sig =>
      let b := s_br s h in
      match zget (b_sets b) nonce, sig, zget (b_orch b) orch with
      | Some v, Some sg, Some w =>
          match zget (b_eth b) w with
          | Some e =>
              if negb (signature_ok (set_words h v) sg e) then Err else
              if has_conf b nonce orch then Err else
              Ok (put s h (with_confs b (mk_conf nonce orch eth sg :: b_confs b)), [])
          | None => Err
          end
      | _, _, _ => Err
      end
  | OBatch h x => let b := s_br s h in Ok (put s h (with_batches b (x :: b_batches b)), [])
  (* keeper/msg_server_hyperion.go:353-415 ConfirmBatch *)
  | OConfirmBatch h token nonce orch signer sig =>
      let b := s_br s h in
      match find_batch b token nonce, sig, zget (b_orch b) orch with
      | Some x, Some sg, Some w =>
          match zget (b_eth b) w with
          | Some e =>
              if negb (signature_ok (batch_words h x) sg e) then Err else
              if has_bconf b token nonce orch then Err else
              Ok (put s h (with_bconfs b (mk_bconf token nonce orch signer sg :: b_bconfs b)), [])
          | None => Err
          end
      | _, _, _ => Err
      end
  (* keeper/hooks.go:34-48 AfterValidatorBeginUnbonding *)
  | OUnbond => Ok (mk_st (s_height s) (s_height s) (s_br s), [])
  (* keeper/attestation_handler.go:220-240 an observed valset update *)
  | OObserve h n => Ok (put s h (with_observed (s_br s h) n), [])
  | OBlock bonded unbonding ps =>
      match chains_end ps bonded unbonding ps s with
      | Ok (s1, evs) => Ok (mk_st (s_height s1 + 1) (s_unbond s1) (s_br s1), evs)
      | Err => Err
      | Panic => Panic
      end
  end.
(* a rejected message changes nothing; a panic at the end of a block stops the chain *)
Fixpoint run (s : st) (os : list op) : res (st * list event) :=
  match os with
  | [] => Ok (s, [])
  | o :: r =>
      match step s o with
      | Ok (s1, e1) => match run s1 r with Ok (s2, e2) => Ok (s2, e1 ++ e2) | Err => Err | Panic => Panic end
      | Err => run s r
      | Panic => Panic
      end
  end.
End Code.
