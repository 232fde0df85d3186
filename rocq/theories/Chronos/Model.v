(* Scheduled tasks ("crons"): creating, updating, cancelling, queueing and running them.

   Modelled: x/chronos/keeper/{keeper,msg_server,archive_tx}.go, x/chronos/genesis.go,
   the end-of-block procedure written out (and at this commit commented out) in
   x/chronos/module.go:162-198, and the two chronos calls reachable from a contract
   (precompiles/chronos/methods.go).

   Simplifications that hold throughout:
   - One coin (the EVM coin); an account's EVM balance is its spendable bank balance.
   - A task's account address is a hash of its number (msg_server.go:68); hash
     collisions are left out, so [Wallet id] is an address of its own.
   - Contract address, ABI text and method name are one opaque value [c_call].
   - Events, logs, metrics and the counters "refunded/executed in the last block" are left out.
   - Records move from the main store to the archive store at height 34800
     (archive_tx.go); one list stands for both. *)
From Verif Require Import Lib.Base Lib.Bytes Lib.Codec Lib.Zmap.
From Coq Require Import ZArith List Bool.
Import ListNotations.
Open Scope Z_scope.

(* ---- addresses -------------------------------------------------------- *)

Inductive addr :=
| Acct (n : Z)        (* an account somebody holds the key of, or a contract *)
| Wallet (id : Z)     (* the account of task [id]: nobody holds its key *)
| Collector.          (* the fee collector module account *)

Definition addr_eqb (a b : addr) : bool :=
  match a, b with
  | Acct x, Acct y => x =? y
  | Wallet x, Wallet y => x =? y
  | Collector, Collector => true
  | _, _ => false
  end.

(* Addresses travel as bech32 text.  BIP-173 text is accepted in lower case and in
   upper case (sdk.AccAddressFromBech32) but printed in lower case (AccAddress.String). *)
Inductive atext :=
| Bech (a : addr) (caps : bool)
| Junk (n : Z).

Definition decode (t : atext) : option addr :=
  match t with Bech a _ => Some a | Junk _ => None end.
Definition print (a : addr) : atext := Bech a false.

Definition atext_eqb (s t : atext) : bool :=
  match s, t with
  | Bech a x, Bech b y => addr_eqb a b && Bool.eqb x y
  | Junk x, Junk y => x =? y
  | _, _ => false
  end.

(* ---- state ------------------------------------------------------------ *)

(* types.Cron (types/cron.proto). *)
Record cron := mk_cron {
  c_id : Z;
  c_wallet : addr;       (* Address *)
  c_owner : atext;       (* OwnerAddress, as text *)
  c_call : Z;            (* ContractAddress, AbiJson, MethodName *)
  c_params : list Z;
  c_freq : Z;
  c_nextb : Z;           (* NextExecutionBlock *)
  c_exp : Z;             (* ExpirationBlock *)
  c_gas : Z;             (* GasLimit *)
  c_price : option Z;    (* MaxGasPrice: a pointer *)
  c_runs : Z;            (* TotalExecutedTransactions *)
  c_fees : Z;            (* TotalFeesPaid *)
  c_queue : Z;           (* QueueTimestamp *)
  c_cb : bool            (* CronType = CALLBACK_CONDITIONED_CRON *)
}.

Definition with_queue (c : cron) (q : Z) : cron :=
  mk_cron (c_id c) (c_wallet c) (c_owner c) (c_call c) (c_params c) (c_freq c) (c_nextb c) (c_exp c)
          (c_gas c) (c_price c) (c_runs c) (c_fees c) q (c_cb c).
Definition with_fees (c : cron) (x : Z) : cron :=
  mk_cron (c_id c) (c_wallet c) (c_owner c) (c_call c) (c_params c) (c_freq c) (c_nextb c) (c_exp c)
          (c_gas c) (c_price c) (c_runs c) x (c_queue c) (c_cb c).
Definition with_callback (c : cron) (ps : list Z) (x : Z) : cron :=
  mk_cron (c_id c) (c_wallet c) (c_owner c) (c_call c) ps (c_freq c) (c_nextb c) x
          (c_gas c) (c_price c) (c_runs c) (c_fees c) (c_queue c) (c_cb c).
Definition with_run (c : cron) (nb : Z) : cron :=
  mk_cron (c_id c) (c_wallet c) (c_owner c) (c_call c) (c_params c) (c_freq c) nb (c_exp c)
          (c_gas c) (c_price c) (c_runs c + 1) (c_fees c) (c_queue c) (c_cb c).
Definition with_update (c : cron) (f : Z) (ps : list Z) (x g : Z) (p : option Z) : cron :=
  mk_cron (c_id c) (c_wallet c) (c_owner c) (c_call c) ps f (c_nextb c) x
          g p (c_runs c) (c_fees c) (c_queue c) (c_cb c).

(* Balances of the EVM coin. *)
Definition ledger := list (addr * Z).

Fixpoint bal (l : ledger) (a : addr) : Z :=
  match l with [] => 0 | (b, x) :: l' => if addr_eqb b a then x else bal l' a end.
Fixpoint badd (l : ledger) (a : addr) (x : Z) : ledger :=
  match l with
  | [] => [(a, x)]
  | (b, y) :: l' => if addr_eqb b a then (b, y + x) :: l' else (b, y) :: badd l' a x
  end.

(* One stored transaction result (CronTransactionResult): which task, at which block,
   and whether it is an execution or the notice of a cancellation. *)
Record result := mk_result { r_cron : Z; r_block : Z; r_run : bool }.

Record st := mk_st {
  s_bal : ledger;
  s_crons : list (Z * cron);             (* CronKey ++ id *)
  s_arch : list (Z * cron);              (* CronArchivedKey ++ id, or the archive store *)
  s_next : Z;                            (* NextCronIDKey; 1 when absent *)
  s_queue : list (Z * list (Z * Z));     (* SecondIndexOutgoingTXFeeKey ++ price: (id, timestamp) *)
  s_nonce : Z;                           (* CronNonceKey; 1 when absent *)
  s_results : list (Z * result);         (* results by nonce *)
  s_data : list (Z * list Z);            (* CronCallBackDataKey ++ id *)
  s_count : Z;                           (* CronCountKey *)
  s_acount : Z;                          (* archived count *)
  s_owned : list (addr * Z)              (* CronIndexByOwnerAddressKey ++ hex owner ++ id *)
}.

Definition set_bal (s : st) (x : ledger) : st :=
  mk_st x (s_crons s) (s_arch s) (s_next s) (s_queue s) (s_nonce s) (s_results s) (s_data s) (s_count s) (s_acount s) (s_owned s).
Definition set_crons (s : st) (x : list (Z * cron)) : st :=
  mk_st (s_bal s) x (s_arch s) (s_next s) (s_queue s) (s_nonce s) (s_results s) (s_data s) (s_count s) (s_acount s) (s_owned s).
Definition set_queue (s : st) (x : list (Z * list (Z * Z))) : st :=
  mk_st (s_bal s) (s_crons s) (s_arch s) (s_next s) x (s_nonce s) (s_results s) (s_data s) (s_count s) (s_acount s) (s_owned s).
Definition set_next (s : st) (x : Z) : st :=
  mk_st (s_bal s) (s_crons s) (s_arch s) x (s_queue s) (s_nonce s) (s_results s) (s_data s) (s_count s) (s_acount s) (s_owned s).
Definition set_data (s : st) (x : list (Z * list Z)) : st :=
  mk_st (s_bal s) (s_crons s) (s_arch s) (s_next s) (s_queue s) (s_nonce s) (s_results s) x (s_count s) (s_acount s) (s_owned s).
(* StoreCronTransactionResult and StoreSetNonce(nonce+1) (keeper.go:813-821, 918-921). *)
Definition record (s : st) (r : result) : st :=
  mk_st (s_bal s) (s_crons s) (s_arch s) (s_next s) (s_queue s) (s_nonce s + 1)
        (zset (s_results s) (s_nonce s) r) (s_data s) (s_count s) (s_acount s) (s_owned s).

Definition init : st := mk_st [] [] [] 1 [] 1 [] [] 0 0 [].

(* ---- surroundings ----------------------------------------------------- *)

(* What a run of the EVM does besides the fee: payments by accounts, and calls of the
   chronos contract made on behalf of the transaction's origin. *)
Record upd := mk_upd { u_id : Z; u_freq : Z; u_params : list Z; u_exp : Z; u_gas : Z; u_price : option Z }.
Inductive effect :=
| EPay (a b : addr) (x : Z)
| ECancel (id : Z)
| EUpdate (u : upd).

Inductive evm_out :=
| EvmErr                                    (* ApplyMessage returned an error *)
| EvmRun (gas : Z) (effs : list effect).    (* gas used; no effects when the call reverted *)

Record env := mk_env {
  e_height : Z;                     (* ctx.BlockHeight *)
  e_time : Z;                       (* ctx.BlockTime().Unix() *)
  e_base : Z;                       (* base fee *)
  e_active : Z;                     (* params.CronActiveGasCostPerBlock *)
  e_limit : Z;                      (* params.ExecutionsLimitPerBlock *)
  e_code : Z -> option bool;        (* contract account: None absent, Some b: has code *)
  e_pack : cron -> bool;            (* ABI parses and the parameters pack *)
  e_intr : cron -> Z;               (* intrinsic gas of the call *)
  e_evm : cron -> Z -> evm_out      (* the run of a task's call at a nonce *)
}.

(* testnet/constants.go. *)
Definition upd0 : Z := 34800.
Definition upd1 : Z := 40600.
Definition upd2 : Z := 46500.

(* Go conversions: uint64 wraps; int64(uint64) reads the top bit as a sign. *)
Definition u64 (x : Z) : Z := x mod 2 ^ 64.
Definition i64 (x : Z) : Z := let y := x mod 2 ^ 64 in if y <? 2 ^ 63 then y else y - 2 ^ 64.
(* cosmossdk.io/math Int.Mul panics beyond 256 bits. *)
Definition imul (a b : Z) : res Z := if Z.abs (a * b) <? 2 ^ 256 then Ok (a * b) else Panic.

(* bank SendCoins of sdk.NewCoins(sdk.NewCoin(denom, x)): a negative amount panics,
   zero sends nothing, and the amount must be covered. *)
Definition send (s : st) (a b : addr) (x : Z) : res st :=
  if x <? 0 then Panic
  else if x =? 0 then Ok s
  else if x <=? bal (s_bal s) a then Ok (set_bal s (badd (badd (s_bal s) a (- x)) b x))
  else Err.

(* ---- keeper ----------------------------------------------------------- *)

(* keeper.go:1147-1151 *)
Definition store_cron (s : st) (c : cron) : st := set_crons s (zset (s_crons s) (c_id c) c).

(* keeper.go:334-344 *)
Definition get_cron (s : st) (id : Z) : option cron := zget (s_crons s) id.

(* keeper.go:274-282 *)
Definition cron_balance (s : st) (c : cron) : Z := bal (s_bal s) (c_wallet c).

(* keeper.go:1232-1237 *)
Definition flagged (h : Z) (c : cron) : bool :=
  if upd0 <? h then negb (c_queue c =? -1) && negb (c_queue c =? 0) else negb (c_queue c =? -1).

(* types/keys.go:110-122 GetFeeSecondIndexKey: big.Int.FillBytes writes the absolute
   value; a missing price dereferences nil. *)
Definition queue_key (c : cron) : option Z := option_map Z.abs (c_price c).

Definition ids_at (q : list (Z * list (Z * Z))) (k : Z) : list (Z * Z) :=
  match zget q k with Some l => l | None => [] end.

(* keeper.go:1239-1252 *)
Definition append_queue (s : st) (time : Z) (c : cron) : res st :=
  match queue_key c with
  | None => Panic
  | Some k =>
      let s1 := set_queue s (zset (s_queue s) k (ids_at (s_queue s) k ++ [(c_id c, time)])) in
      Ok (store_cron s1 (with_queue c time))
  end.

(* The first entry of a task in one list of the queue (keeper.go:1265-1279). *)
Fixpoint drop_first (id : Z) (l : list (Z * Z)) : option (list (Z * Z)) :=
  match l with
  | [] => None
  | (i, t) :: l' => if i =? id then Some l'
                    else match drop_first id l' with Some r => Some ((i, t) :: r) | None => None end
  end.

(* keeper.go:1254-1281.  Every caller ignores the error, so "not there" is Ok with no change. *)
Definition remove_queue (s : st) (c : cron) : res st :=
  match queue_key c with
  | None => Panic
  | Some k =>
      match zget (s_queue s) k with
      | None => Ok s
      | Some l =>
          match drop_first (c_id c) l with
          | None => Ok s
          | Some [] => Ok (store_cron (set_queue s (zdel (s_queue s) k)) (with_queue c (-1)))
          | Some l' => Ok (store_cron (set_queue s (zset (s_queue s) k l')) (with_queue c (-1)))
          end
      end
  end.

(* keeper.go:233-252.  The owner's account exists: they signed. *)
Definition cron_in (s : st) (c : cron) (x : Z) : res st :=
  match decode (c_owner c) with
  | None => Panic
  | Some o =>
      let b := bal (s_bal s) o in
      if (b <? 0) && (b <? x) then Err
      else if 0 <? b then send s o (c_wallet c) x
      else Ok s
  end.

(* keeper.go:254-272 *)
Definition cron_out (s : st) (c : cron) (x : Z) : res st :=
  let b := cron_balance s c in
  if (b <? 0) && (b <? x) then Err
  else if 0 <? b then
    match decode (c_owner c) with
    | None => Panic
    | Some o => send s (c_wallet c) o x
    end
  else Ok s.

(* keeper.go:284-291.  The owner index is a set of keys. *)
Definition add_cron (s : st) (h : Z) (c : cron) : st :=
  let s1 := store_cron s c in
  mk_st (s_bal s1) (s_crons s1) (s_arch s1) (s_next s1) (s_queue s1) (s_nonce s1) (s_results s1) (s_data s1)
        (s_count s1 + 1) (s_acount s1)
        (if upd1 <? h then match decode (c_owner c) with Some o => s_owned s1 ++ [(o, c_id c)] | None => s_owned s1 end
         else s_owned s1).

(* keeper.go:293-324.  [owner] is the decoded address; the comparison is on text. *)
Definition remove_cron (s : st) (h : Z) (id : Z) (owner : addr) : res st :=
  match get_cron s id with
  | None => Err
  | Some c =>
      if negb (atext_eqb (c_owner c) (print owner)) then Err
      else
        let b := cron_balance s c in
        rbind (if 0 <? b then cron_out s c b else Ok s) (fun s1 =>
        rbind (if flagged h c then remove_queue s1 c else Ok s1) (fun s2 =>
        Ok (mk_st (s_bal s2) (zdel (s_crons s2) id) (zset (s_arch s2) id c) (s_next s2) (s_queue s2)
                  (s_nonce s2) (s_results s2) (s_data s2) (s_count s2 - 1) (s_acount s2 + 1) (s_owned s2))))
  end.

(* keeper.go:846-924: a cancellation notice is stored under the next nonce. *)
Definition emit_cancelled (s : st) (h : Z) (c : cron) : st :=
  record s (mk_result (c_id c) h false).

(* The end-of-block callers (keeper.go:83-84, 113-114, 145-146, 188-189, ...): emit the
   notice, try to remove the task, ignore the error. *)
Definition evict (s : st) (h : Z) (c : cron) : res st :=
  let s1 := emit_cancelled s h c in
  match decode (c_owner c) with
  | None => Panic
  | Some o => match remove_cron s1 h (c_id c) o with
              | Ok s2 => Ok s2
              | Err => Ok s1
              | Panic => Panic
              end
  end.

(* ---- messages --------------------------------------------------------- *)

Record create_msg := mk_create {
  m_owner : atext;
  m_sender : atext;            (* the signer *)
  m_call : Z;
  m_texts_ok : bool;           (* the text checks of Validate (types/tx.go:34-50, 66-78) *)
  m_params : list Z;
  m_freq : Z;
  m_exp : Z;
  m_gas : Z;
  m_price : option Z;
  m_amount : option Z          (* AmountToDeposit: a pointer *)
}.

(* keeper.go:1385-1402 StoreGetNextCronID *)
Definition next_id (s : st) : st * Z := (set_next s (s_next s + 1), s_next s).

(* msg_server.go:32-115 *)
Definition create (s : st) (e : env) (m : create_msg) : res (st * Z) :=
  match decode (m_owner m) with
  | None => Err
  | Some o =>
      if negb (m_texts_ok m) then Err
      else if m_freq m =? 0 then Err
      else if negb (m_exp m =? 0) && (m_exp m <=? m_freq m) then Err
      else if negb (atext_eqb (m_owner m) (m_sender m)) then Err
      else
        let '(s1, id) := next_id s in
        match get_cron s1 id with
        | Some _ => Err
        | None =>
            match m_amount m with
            | None => Panic
            | Some x =>
                match e_code e (m_call m) with
                | None => Panic
                | Some false => Err
                | Some true =>
                    let b := bal (s_bal s1) o in
                    if (b <? 0) || (b <? x) then Err
                    else
                      match m_price m with
                      | None => Panic
                      | Some p =>
                          rbind (imul p (i64 (m_gas m))) (fun fee =>
                          if x <=? fee then Err
                          else
                            let c := mk_cron id (Wallet id) (m_owner m) (m_call m) (m_params m) (m_freq m)
                                             (u64 (e_height e + m_freq m)) (m_exp m) (m_gas m) (m_price m)
                                             0 0 0 false in
                            match cron_in s1 c x with
                            | Ok s2 => Ok (add_cron s2 (e_height e) c, id)
                            | Err => Err
                            | Panic => Panic
                            end)
                      end
                end
            end
        end
  end.

(* msg_server.go:160-232.  Marshalling a nil price is fine, so only the deposit is dereferenced. *)
Definition create_cb (s : st) (e : env) (m : create_msg) : res (st * Z) :=
  match decode (m_owner m) with
  | None => Err
  | Some o =>
      if negb (m_texts_ok m) then Err
      else if negb (atext_eqb (m_owner m) (m_sender m)) then Err
      else
        let '(s1, id) := next_id s in
        match get_cron s1 id with
        | Some _ => Err
        | None =>
            match m_amount m with
            | None => Panic
            | Some x =>
                let b := bal (s_bal s1) o in
                if (b <? 0) || (b <? x) then Err
                else
                  let c := mk_cron id (Wallet id) (m_owner m) (m_call m) [] 0
                                   (u64 (e_height e)) (m_exp m) (m_gas m) (m_price m) 0 0 0 true in
                  match cron_in s1 c x with
                  | Ok s2 => Ok (add_cron s2 (e_height e) c, id)
                  | Err => Err
                  | Panic => Panic
                  end
            end
        end
  end.

(* msg_server.go:118-138.  MsgUpdateCron.Validate is never called. *)
Definition update (s : st) (sender : atext) (u : upd) : res st :=
  match get_cron s (u_id u) with
  | None => Err
  | Some c =>
      if negb (atext_eqb (c_owner c) sender) then Err
      else Ok (store_cron s (with_update c (u_freq u) (u_params u) (u_exp u) (u_gas u) (u_price u)))
  end.

(* msg_server.go:141-158 *)
Definition cancel (s : st) (h : Z) (sender owner : atext) (id : Z) : res st :=
  match get_cron s id with
  | None => Err
  | Some c =>
      if negb (atext_eqb (c_owner c) sender) then Err
      else match decode owner with
           | None => Panic
           | Some o => remove_cron s h id o
           end
  end.

(* keeper.go:1164-1180 StoreCronCallBackData *)
Definition store_callback (s : st) (e : env) (id : Z) (d : list Z) : res st :=
  let s1 := set_data s (zset (s_data s) id d) in
  match get_cron s1 id with
  | None => Ok s1
  | Some c => if flagged (e_height e) c then Ok s1 else append_queue s1 (e_time e) c
  end.

(* ---- running a task --------------------------------------------------- *)

(* A failed call inside the EVM is undone; the run goes on. *)
Definition keep (s : st) (r : res st) : st := match r with Ok s' => s' | _ => s end.

(* One effect of a run whose origin is [o] (precompiles/chronos/methods.go:141-276: the
   message carries the origin as owner and as sender).  Nobody can pay out of a task's account. *)
Definition apply_effect (e : env) (o : addr) (s : st) (f : effect) : st :=
  match f with
  | EPay (Wallet _) _ _ => s
  | EPay a b x => keep s (send s a b x)
  | ECancel id => keep s (cancel s (e_height e) (print o) (print o) id)
  | EUpdate u => keep s (update s (print o) u)
  end.
Definition apply_effects (e : env) (o : addr) (s : st) (l : list effect) : st :=
  fold_left (apply_effect e o) l s.

(* keeper.go:650-738 executeCronEvm: the new state and, unless it failed, the gas used.
   [c] is the caller's copy of the task. *)
Definition run_evm (s : st) (e : env) (c : cron) : res (st * option Z) :=
  match decode (c_owner c) with
  | None => Panic
  | Some o =>
      let cost := c_gas c * e_base e in
      let b := bal (s_bal s) o in
      if (b <? 0) || (b <? cost) then Ok (s, None)                  (* 658-663: the OWNER's balance *)
      else if c_gas c <? e_intr e c then Ok (s, None)               (* VerifyFee *)
      else if cost =? 0 then Panic                                  (* 700: msgFees[0] of an empty list *)
      else
        match send s (c_wallet c) Collector cost with               (* 690-698 *)
        | Panic => Panic
        | Err => Ok (s, None)
        | Ok s1 =>
            let s2 := store_cron s1 (with_fees c (c_fees c + cost)) in   (* 700 *)
            match e_evm e c (s_nonce s) with
            | EvmErr => Ok (s2, None)
            | EvmRun used effs =>
                let s3 := apply_effects e o s2 effs in
                let left := u64 (c_gas c - used) * e_base e in      (* 724 *)
                match send s3 Collector (c_wallet c) left with      (* 728, RefundGas *)
                | Panic => Panic
                | Err => Ok (s3, None)
                | Ok s4 =>
                    let s5 := if 0 <? left then store_cron s4 (with_fees c (c_fees c + left)) else s4 in
                    Ok (s5, Some used)
                end
            end
        end
  end.

(* keeper.go:740-822 executeCron: the new state and the gas, None for an error return. *)
Definition execute (s : st) (e : env) (c0 : cron) : res (st * option Z) :=
  let h := e_height e in
  let go (s : st) (c : cron) : res (st * option Z) :=
    if negb (e_pack e c) then Ok (s, None)
    else match c_price c with
         | None => Panic
         | Some p =>
             if p <? e_base e then Ok (s, None)
             else
               rbind (run_evm s e c) (fun r =>
               let '(s1, out) := r in
               let c' := with_run c (u64 (h + c_freq c)) in
               let s2 := record (store_cron s1 c') (mk_result (c_id c) h true) in
               match out with
               | Some g => Ok (s2, Some g)
               | None => Panic                    (* 821: resFromExecution is nil *)
               end)
         end in
  if c_cb c0 then
    match zget (s_data s) (c_id c0) with
    | None => Ok (s, Some 0)
    | Some d => let c := with_callback c0 d (u64 h) in go (store_cron s c) c
    end
  else go s c0.

(* keeper.go:92-126 ExecuteCronsWithLimit: gas used, tasks taken. *)
Fixpoint execute_all (s : st) (e : env) (cur total limit : Z) (ids : list Z) : res (st * Z * list Z) :=
  match ids with
  | [] => Ok (s, total, [])
  | id :: rest =>
      match get_cron s id with
      | None => execute_all s e cur total limit rest
      | Some c =>
          rbind (execute s e c) (fun r =>
          let '(s1, out) := r in
          rbind (match out with
                 | Some g => Ok (s1, total + g)
                 | None => rbind (evict s1 (e_height e) c) (fun s2 => Ok (s2, total))
                 end) (fun q =>
          let '(s2, total') := q in
          if limit <=? cur + total' then Ok (s2, total', [id])
          else rbind (execute_all s2 e cur total' limit rest) (fun w =>
               let '(s3, g, l) := w in Ok (s3, g, id :: l))))
      end
  end.

(* ---- the end of a block ----------------------------------------------- *)

(* keeper.go:159-225 DeductFeesActivesCrons, for one task of the list read at the start. *)
Definition charge_one (s : st) (e : env) (c : cron) : res st :=
  let h := e_height e in
  let b := cron_balance s c in
  let cost := e_active e * e_base e in
  if negb (c_exp c =? 0) && (c_exp c <=? h) then evict s h c
  else if c_cb c then Ok s
  else if (upd0 <? h) && (c_nextb c <? u64 (h - 100)) then evict s h c
  else if (b <? 0) || (b <? cost) then evict s h c
  else match (if cost =? 0 then Ok s else send s (c_wallet c) Collector cost) with
       | Panic => Panic
       | Err => evict s h c
       | Ok s1 =>
           match c_price c with
           | None => Panic
           | Some p =>
               rbind (imul p (i64 (c_gas c))) (fun maxc =>
               if b <? maxc then evict s1 h c
               else Ok (store_cron s1 (with_fees c (c_fees c + cost))))
           end
       end.

Fixpoint fold_res {A} (f : st -> A -> res st) (l : list A) (s : st) : res st :=
  match l with
  | [] => Ok s
  | x :: l' => rbind (f s x) (fold_res f l')
  end.

Definition charge_all (s : st) (e : env) : res st := fold_res (fun s c => charge_one s e c) (zvals (s_crons s)) s.

(* keeper.go:375-401 *)
Definition ready (e : env) (c : cron) : bool :=
  let h := e_height e in
  (if upd2 <? h then h =? c_nextb c else c_nextb c <=? h) && ((c_exp c =? 0) || (h <=? c_exp c)).

(* keeper.go:128-157 PushReadyCronsToQueue, for one task of the list read at the start. *)
Definition push_one (s : st) (e : env) (c : cron) : res st :=
  let h := e_height e in
  if c_cb c then Ok s
  else if flagged h c then Ok s
  else
    let b := cron_balance s c in
    if b <? 0 then evict s h c
    else match c_price c with
         | None => Panic
         | Some p => rbind (imul p (i64 (c_gas c))) (fun maxc =>
                     if b <=? maxc then evict s h c else append_queue s (e_time e) c)
         end.
Definition push_all (s : st) (e : env) : res st :=
  fold_res (fun s c => push_one s e c) (filter (ready e) (zvals (s_crons s))) s.

(* keeper.go:1283-1338 GetBatchFees.  The iterator of a prefix store returns keys without
   the prefix, so the key is the 32-byte price and key[32:] is what follows it. *)
Definition fee_read (k : Z) : Z := unbe (skipn 32 (be 32 k)).

Record picked := mk_picked { b_ids : list Z; b_fees : list Z; b_expired : list Z; b_count : Z }.

(* sort.SliceStable with "greater" (keeper.go:1312): insertion keeps equal elements in order. *)
Fixpoint insert_desc (x : Z) (l : list Z) : list Z :=
  match l with [] => [x] | y :: l' => if y <? x then x :: l else y :: insert_desc x l' end.
Definition sort_desc (l : list Z) : list Z := fold_left (fun acc x => insert_desc x acc) l [].

Definition queue_timeout : Z := 3600.

Definition pick_one (e : env) (fee : Z) (a : picked) (it : Z * Z) : res picked :=
  let '(id, ts) := it in
  if ts <? u64 (e_time e - queue_timeout) then
    Ok (mk_picked (b_ids a) (b_fees a) (b_expired a ++ [id]) (b_count a))
  else if e_limit e <=? b_count a then
    let fs := sort_desc (b_fees a) in
    match fs with
    | [] => Panic                                    (* Fees[0] *)
    | f :: _ => if f <? fee
                then Ok (mk_picked (b_ids a ++ [id]) (fs ++ [fee]) (b_expired a) (b_count a + 1))
                else Ok (mk_picked (b_ids a) fs (b_expired a) (b_count a + 1))
    end
  else Ok (mk_picked (b_ids a ++ [id]) (b_fees a ++ [fee]) (b_expired a) (b_count a + 1)).

Fixpoint pick_list (e : env) (fee : Z) (l : list (Z * Z)) (a : picked) : res picked :=
  match l with [] => Ok a | it :: l' => rbind (pick_one e fee a it) (pick_list e fee l') end.
Fixpoint pick_all (e : env) (q : list (Z * list (Z * Z))) (a : picked) : res picked :=
  match q with [] => Ok a | (k, l) :: q' => rbind (pick_list e (fee_read k) l a) (pick_all e q') end.
Definition get_batch (s : st) (e : env) : res picked := pick_all e (s_queue s) (mk_picked [] [] [] 0).

(* module.go:183-196: after a round the expired and the executed tasks leave the queue. *)
Definition unqueue_one (s : st) (id : Z) : res st :=
  match get_cron s id with None => Ok s | Some c => remove_queue s c end.

Definition max_gas : Z := 50000000.

(* module.go:174-198: the loop; [fuel] bounds the number of rounds. *)
Fixpoint rounds (fuel : nat) (s : st) (e : env) (total : Z) : res st :=
  match fuel with
  | O => Ok s
  | S n =>
      rbind (get_batch s e) (fun bt =>
      rbind (execute_all s e total 0 max_gas (b_ids bt)) (fun r =>
      let '(s1, g, done) := r in
      rbind (fold_res unqueue_one (b_expired bt) s1) (fun s2 =>
      rbind (fold_res unqueue_one done s2) (fun s3 =>
      let total' := total + g in
      if (g =? 0) || (match done with [] => true | _ => false end) || (max_gas <=? total')
      then Ok s3 else rounds n s3 e total'))))
  end.

(* module.go:162-198 *)
Definition end_block (fuel : nat) (s : st) (e : env) : res st :=
  rbind (charge_all s e) (fun s1 =>
  rbind (push_all s1 e) (fun s2 => rounds fuel s2 e 0)).

(* ---- genesis ---------------------------------------------------------- *)

(* genesis.go:11-38: only the tasks (and parameters) travel. *)
Definition export (s : st) : list cron := zvals (s_crons s).
Definition import (bank : ledger) (h : Z) (l : list cron) : st :=
  fold_left (fun s c => add_cron s h c) l (set_bal init bank).

(* ---- histories -------------------------------------------------------- *)

Inductive op :=
| OCreate (m : create_msg)
| OCreateCb (m : create_msg) (now : bool)     (* [now]: the contract call also stores data (methods.go:350) *)
| OUpdate (sender : atext) (u : upd)
| OCancel (sender owner : atext) (id : Z)
| OCallback (id : Z) (d : list Z)             (* hyperion external data (external_data.go:134-155) *)
| OPay (a b : addr) (x : Z)                   (* any other payment *)
| OEndBlock (fuel : nat).

(* A message that fails leaves no trace; a panic at the end of a block stops the chain. *)
Definition step (s : st) (e : env) (o : op) : res st :=
  match o with
  | OCreate m => Ok (match create s e m with Ok (s', _) => s' | _ => s end)
  | OCreateCb m now =>
      Ok (match create_cb s e m with
          | Ok (s', id) => if now then keep s (store_callback s' e id [1000]) else s'
          | _ => s
          end)
  | OUpdate t u => Ok (keep s (update s t u))
  | OCancel t o id => Ok (keep s (cancel s (e_height e) t o id))
  | OCallback id d => store_callback s e id d
  | OPay (Wallet _) _ _ => Ok s
  | OPay a b x => Ok (keep s (send s a b x))
  | OEndBlock fuel => end_block fuel s e
  end.

Fixpoint run (s : st) (l : list (env * op)) : res st :=
  match l with
  | [] => Ok s
  | (e, o) :: l' => rbind (step s e o) (fun s' => run s' l')
  end.

(* Finds tasks of an owner (grpc_query_cron.go:90-119): the index, then the live or archived record. *)
Definition any_cron (s : st) (id : Z) : option cron :=
  match get_cron s id with Some c => Some c | None => zget (s_arch s) id end.
Definition by_owner (s : st) (o : addr) : list cron :=
  flat_map (fun p : addr * Z => if addr_eqb (fst p) o then
    match any_cron s (snd p) with Some c => [c] | None => [] end else []) (s_owned s).
