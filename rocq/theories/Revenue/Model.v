(* Sharing fees with the authors of contracts: x/revenue/v1 (keeper/evm_hooks.go,
   msg_server.go, revenues.go, params.go, grpc_query.go, genesis.go and types/revenue.go,
   keys.go, msg.go, params.go).
   Simplifications:
   - an account is its bytes (of any length); the text form of an address (bech32) is
     read by [dec] and written by [enc], both parameters;
   - a contract is its 20 bytes: the hex text in messages and in the store is read by
     common.HexToAddress wherever it is used;
   - the protobuf form of an entry is the entry; the parameters are kept beside the store;
   - gas and events are left out; the bank is the balance of the EVM coin;
   - a message runs after its ValidateBasic, as in a transaction. *)
From Verif Require Import Lib.Base Lib.Bytes Lib.Kv.
Open Scope Z_scope.

(* types/revenue.pb.go Revenue: the contract, the texts of deployer and withdrawer *)
Record rev := mk_rev { r_contract : bytes; r_deployer : bytes; r_withdrawer : bytes }.
(* the values in the store: an entry, or the single byte 1 *)
Inductive val := VRev (r : rev) | VOne.

Record st := mk_st {
  v_store : list (bytes * val);
  v_on : bool;                 (* Params.EnableRevenue *)
  v_share : Z;                 (* Params.DeveloperShares, scaled by 10^18 *)
  v_bal : bytes -> Z           (* bank: balances of the EVM coin *)
}.
Definition set_store (s : st) v := mk_st v (v_on s) (v_share s) (v_bal s).
Definition set_bal (s : st) v := mk_st (v_store s) (v_on s) (v_share s) v.
Definition ONE : Z := 1000000000000000000.

(* the rest of the chain while an operation runs *)
Record env := mk_env {
  e_exists : bytes -> bool;      (* an account with these 20 bytes exists *)
  e_code : bytes -> bool;        (* and it has code *)
  e_precompile : bytes -> bool;  (* EVM parameters: ActiveStaticPrecompiles *)
  e_blocked : bytes -> bool      (* bank: may not receive *)
}.

(* go-ethereum common.BytesToAddress: the last 20 bytes, filled with zeros on the left *)
Definition to20 (b : bytes) : bytes :=
  skipn (length b) (repeat 0%N 20) ++ skipn (length b - 20) b.

(* helios-chain/types/validation.go ValidateNonZeroAddress *)
Definition contract_ok (c : bytes) : bool :=
  negb (forallb (N.eqb 0) c) && Nat.eqb (length c) 20 && forallb (fun x => (x <? 256)%N) c.

(* keys.go 25-42 *)
Definition rev_key (c : bytes) : bytes := 1%N :: c.
Definition dep_key (d c : bytes) : bytes := 2%N :: d ++ c.
Definition wit_key (w c : bytes) : bytes := 3%N :: w ++ c.

Section Revenue.
Variables (dec : bytes -> option bytes) (enc : bytes -> bytes).
(* go-ethereum crypto.CreateAddress *)
Variable create : bytes -> Z -> bytes.
(* the fee collector; the text of the governance account *)
Variables (FC gov : bytes).

Definition is_addr (t : bytes) : bool := match dec t with Some _ => true | None => false end.
(* revenue.go 15-26 NewRevenue *)
Definition new_rev (c d w : bytes) : rev :=
  mk_rev c (enc d) (match w with [] => [] | _ => enc w end).

(* revenues.go 55-70, 145-152 GetRevenue, IsRevenueRegistered *)
Definition get (s : st) (c : bytes) : option rev :=
  match kget (v_store s) (rev_key c) with Some (VRev r) => Some r | _ => None end.
Definition registered (s : st) (c : bytes) : bool :=
  match kget (v_store s) (rev_key c) with Some _ => true | None => false end.
(* revenues.go 72-142 *)
Definition set_rev (s : st) (r : rev) : st := set_store s (kset (v_store s) (rev_key (r_contract r)) (VRev r)).
Definition del_rev (s : st) (r : rev) : st := set_store s (kdel (v_store s) (rev_key (r_contract r))).
Definition set_dep (s : st) (d c : bytes) : st := set_store s (kset (v_store s) (dep_key d c) VOne).
Definition del_dep (s : st) (d c : bytes) : st := set_store s (kdel (v_store s) (dep_key d c)).
Definition set_wit (s : st) (w c : bytes) : st := set_store s (kset (v_store s) (wit_key w c) VOne).
Definition del_wit (s : st) (w c : bytes) : st := set_store s (kdel (v_store s) (wit_key w c)).
(* revenues.go 14-31 GetRevenues *)
Definition as_rev (v : val) : rev := match v with VRev r => r | VOne => mk_rev [] [] [] end.
Definition all (s : st) : list rev := map (fun q => as_rev (snd q)) (pscan (v_store s) [1%N] [] None).

(* sdk.MustAccAddressFromBech32 *)
Definition must {A} (t : bytes) (f : bytes -> res A) : res A :=
  match dec t with Some a => f a | None => Panic end.

(* types/msg.go 59-84 and msg_server.go 20-133 RegisterRevenue *)
Definition register (e : env) (s : st) (dt c wt : bytes) (nonces : list Z) : res st :=
  if negb (is_addr dt) || negb (contract_ok c) then Err
  else if negb (match wt with [] => true | _ => is_addr wt end) then Err
  else if Nat.ltb (length nonces) 1 then Err
  else if Nat.ltb 20 (length nonces) then Err
  else if negb (v_on s) then Err
  else if registered s c then Err
  else must dt (fun d =>
    if negb (e_exists e (to20 d)) then Err
    else if e_code e (to20 d) then Err
    else if negb (e_exists e c) || negb (e_code e c) then Err
    else
      rbind (if negb (match wt with [] => true | _ => false end) && negb (beqb wt dt)
             then must wt (fun w => Ok w) else Ok []) (fun w =>
      if negb (beqb c (fold_left create nonces (to20 d))) then Err
      else
        let s1 := set_dep (set_rev s (new_rev c d w)) d c in
        Ok (match w with [] => s1 | _ => set_wit s1 w c end))).

(* types/msg.go 153-167 and msg_server.go 135-207 UpdateRevenue *)
Definition update (s : st) (dt c wt : bytes) : res st :=
  if negb (is_addr dt) || negb (contract_ok c) || negb (is_addr wt) then Err
  else if negb (v_on s) then Err
  else match get s c with
       | None => Err
       | Some r =>
           if negb (beqb dt (r_deployer r)) then Err
           else
             let wt := if beqb wt (r_deployer r) then [] else wt in
             if beqb wt (r_withdrawer r) then Err
             else
               rbind (match r_withdrawer r with [] => Ok s | o => must o (fun w => Ok (del_wit s w c)) end) (fun s1 =>
               rbind (match wt with [] => Ok s1 | _ => must wt (fun w => Ok (set_wit s1 w c)) end) (fun s2 =>
               Ok (set_rev s2 (mk_rev (r_contract r) (r_deployer r) wt))))
       end.

(* types/msg.go 108-118 and msg_server.go 209-266 CancelRevenue *)
Definition cancel (s : st) (dt c : bytes) : res st :=
  if negb (is_addr dt) || negb (contract_ok c) then Err
  else if negb (v_on s) then Err
  else match get s c with
       | None => Err
       | Some r =>
           if negb (beqb dt (r_deployer r)) then Err
           else
             must (r_deployer r) (fun d =>
             let s1 := del_dep (del_rev s r) d c in
             match r_withdrawer r with [] => Ok s1 | o => must o (fun w => Ok (del_wit s1 w c)) end)
       end.

(* types/msg.go 185-191, params.go 58-100 and msg_server.go 268-283 UpdateParams *)
Definition update_params (s : st) (authority : bytes) (on : bool) (share : Z) : res st :=
  if negb (is_addr authority) then Err
  else if negb ((0 <=? share) && (share <=? ONE)) then Err
  else if negb (beqb gov authority) then Err
  else Ok (mk_st (v_store s) on share (v_bal s)).

(* evm_hooks.go 127-152 PostContractCreation, called at x/evm/keeper/state_transition.go
   364-375 when a transaction creates a contract *)
Definition created (s : st) (c d : bytes) : st :=
  if negb (v_on s) || (v_share s =? 0) then s
  else if registered s c then s
  else set_dep (set_rev s (new_rev c d d)) d c.

(* bank SendCoinsFromModuleToAccount from the fee collector: the amount must be positive *)
Definition bset (b : bytes -> Z) (a : bytes) (x : Z) : bytes -> Z := fun k => if beqb k a then x else b k.
Definition bmove (b : bytes -> Z) (from to : bytes) (x : Z) : bytes -> Z :=
  let b1 := bset b from (b from - x) in bset b1 to (b1 to + x).
Definition pay (e : env) (s : st) (to : bytes) (x : Z) : res st :=
  if e_blocked e to then Err
  else if x <=? 0 then Err
  else if v_bal s FC <? x then Err
  else Ok (set_bal s (bmove (v_bal s) FC to x)).

(* evm_hooks.go 39-125 PostTxProcessing after a transaction that did not fail: an error of
   the bank is printed and dropped *)
Definition dev_fee (share used price : Z) : Z := share * (used * price) / ONE.
Definition after_tx (e : env) (s : st) (to : option bytes) (price used : Z) : res st :=
  match to with
  | None => Ok s
  | Some c =>
      if price <=? 0 then Ok s
      else if negb (v_on s) || (v_share s =? 0) then Ok s
      else if e_precompile e c then Ok s
      else match get s c with
           | None => Ok s
           | Some r =>
               rbind (match r_withdrawer r with
                      | [] => must (r_deployer r) (fun d => Ok d)
                      | o => must o (fun w => Ok w)
                      end) (fun w =>
               match pay e s w (dev_fee (v_share s) used price) with Ok s' => Ok s' | _ => Ok s end)
           end
  end.

(* grpc_query.go 46-84 Revenue, 96-139 DeployerRevenues, 141-196 WithdrawerRevenues,
   without paging *)
Definition of_deployer (s : st) (t : bytes) : option (list bytes) :=
  match dec t with None => None | Some d => Some (map (fun q => to20 (fst q)) (pscan (v_store s) (2%N :: d) [] None)) end.
Definition of_withdrawer (s : st) (t : bytes) : option (list bytes) :=
  match dec t with None => None | Some w => Some (map (fun q => to20 (fst q)) (pscan (v_store s) (3%N :: w) [] None)) end.

(* genesis.go 15-47 *)
Definition export (s : st) : bool * Z * list rev := (v_on s, v_share s, all s).
Definition import1 (s : st) (r : rev) : res st :=
  must (r_deployer r) (fun d =>
  rbind (match r_withdrawer r with [] => Ok [] | t => must t (fun w => Ok w) end) (fun w =>
  let s1 := set_dep (set_rev s r) d (r_contract r) in
  Ok (match w with [] => s1 | _ => set_wit s1 w (r_contract r) end))).
Fixpoint import_all (s : st) (l : list rev) : res st :=
  match l with [] => Ok s | r :: l' => rbind (import1 s r) (fun s1 => import_all s1 l') end.
(* types/genesis.go 24-43 Validate, revenue.go 48-67 *)
Fixpoint nodupb (l : list bytes) : bool :=
  match l with [] => true | x :: r => negb (existsb (beqb x) r) && nodupb r end.
Definition valid_rev (r : rev) : bool :=
  contract_ok (r_contract r) && is_addr (r_deployer r) &&
  match r_withdrawer r with [] => true | t => is_addr t end.
Definition valid_genesis (g : bool * Z * list rev) : bool :=
  let '(_, share, l) := g in
  nodupb (map r_contract l) && forallb valid_rev l && (0 <=? share) && (share <=? ONE).
Definition restart (s : st) : res st :=
  let '(on, share, l) := export s in
  if negb (valid_genesis (on, share, l)) then Err
  else import_all (mk_st [] on share (v_bal s)) l.

(* what can happen on the chain *)
Inductive op :=
| ORegister (dt c wt : bytes) (nonces : list Z)
| OUpdate (dt c wt : bytes)
| OCancel (dt c : bytes)
| OParams (authority : bytes) (on : bool) (share : Z)
| OCreated (d : bytes) (nonce : Z)                 (* account d creates a contract by a transaction *)
| OTx (to : option bytes) (price used : Z)         (* a transaction that did not fail *)
| OBank (b : bytes -> Z)                           (* the rest of the chain moves coins *)
| ORestart.

Definition run (e : env) (s : st) (o : op) : res st :=
  match o with
  | ORegister dt c wt n => register e s dt c wt n
  | OUpdate dt c wt => update s dt c wt
  | OCancel dt c => cancel s dt c
  | OParams a on sh => update_params s a on sh
  | OCreated d n => Ok (created s (create d n) d)
  | OTx to p u => after_tx e s to p u
  | OBank b => Ok (set_bal s b)
  | ORestart => restart s
  end.
(* a message that fails leaves everything as it was *)
Definition step (e : env) (s : st) (o : op) : st := match run e s o with Ok s' => s' | _ => s end.
Fixpoint runs (s : st) (l : list (env * op)) : st :=
  match l with [] => s | (e, o) :: r => runs (step e s o) r end.
End Revenue.
