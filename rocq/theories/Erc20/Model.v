(* The ERC-20 face of a coin: precompiles/erc20 (tx.go, approve.go, query.go,
   types.go) and the wrapped native coin precompiles/werc20 (tx.go).
   Balances live in the bank module and allowances are "send" authorisations of
   the authz module; both modules belong to the cosmos-sdk library, their
   documented behaviour is modelled where the precompile calls it.
   Simplifications:
   - accounts are numbers, amounts are unbounded (the ABI decoder delivers
     values below 2^256, see the hypotheses of the theorems);
   - gas, ABI packing and the syntax of denominations are left out; the sign of
     a decoded amount is kept;
   - a failing call returns Err: the EVM takes its state back
     (see the Statedb development);
   - no send restriction is installed (the application installs none). *)
From Verif Require Import Lib.Base Lib.Bytes Lib.Coins Lib.Zmap.
Open Scope Z_scope.

(* what a call reads besides the state: the block time in nanoseconds, the part
   of a balance that vesting holds back, the bank's switch per denomination and
   the accounts that may not receive *)
Record env := mk_env {
  e_now : Z;
  e_locked : Z -> bytes -> Z;
  e_send_enabled : bytes -> bool;
  e_blocked : Z -> bool }.

(* authz: a "send" authorisation with its limit and its list of allowed
   receivers (empty: everybody), or a generic one *)
Inductive authorization :=
| Send (limit : coins) (allow : list Z)
| Generic.
(* authz.Grant: authorisation and expiration *)
Record grant := mk_grant { g_auth : authorization; g_exp : option Z }.

(* events.go 23-93 *)
Inductive log :=
| Transfer (from to value : Z)
| Approval (owner spender value : Z)
| Deposit (dst value : Z)
| Withdrawal (src value : Z).

(* the bank balances, the grants by (grantee, granter), the logs so far with the
   emitting contract *)
Record st := mk_st {
  s_bank : list (Z * coins);
  s_grants : list (Z * Z * grant);
  s_logs : list (Z * log) }.

(* the token pair a precompile instance serves: denomination and address *)
Record token := mk_token { t_denom : bytes; t_addr : Z }.

(* ---- the authz store: a map from pairs ---- *)
Definition keq (a b : Z * Z) : bool := (fst a =? fst b) && (snd a =? snd b).
Fixpoint pget (m : list (Z * Z * grant)) (k : Z * Z) : option grant :=
  match m with [] => None | (k', g) :: m' => if keq k k' then Some g else pget m' k end.
Fixpoint pdel (m : list (Z * Z * grant)) (k : Z * Z) : list (Z * Z * grant) :=
  match m with [] => [] | (k', g) :: m' => if keq k k' then pdel m' k else (k', g) :: pdel m' k end.
Definition pset (m : list (Z * Z * grant)) (k : Z * Z) (g : grant) : list (Z * Z * grant) := (k, g) :: pdel m k.

(* ---- bank ---- *)
(* all coins of an account *)
Definition coins_of (s : st) (a : Z) : coins := match zget (s_bank s) a with Some c => c | None => [] end.
(* bank GetBalance; query.go 159-175 BalanceOf *)
Definition balance_of (s : st) (d : bytes) (a : Z) : Z := amt (coins_of s a) d.
Definition set_coins (s : st) (a : Z) (c : coins) : st := mk_st (zset (s_bank s) a c) (s_grants s) (s_logs s).
Definition set_grants (s : st) (g : list (Z * Z * grant)) : st := mk_st (s_bank s) g (s_logs s).
Definition add_log (t : token) (s : st) (l : log) : st := mk_st (s_bank s) (s_grants s) (s_logs s ++ [(t_addr t, l)]).

(* bank SendCoins of one coin: what vesting holds back cannot be spent *)
Definition send_coins (e : env) (s : st) (from to : Z) (d : bytes) (x : Z) : res st :=
  let b := coins_of s from in
  if amt b d <? e_locked e from d then Err
  else if amt b d - e_locked e from d <? x then Err
  else rbind (csub b [(d, x)]) (fun b' =>
       let s1 := set_coins s from b' in
       Ok (set_coins s1 to (cadd (coins_of s1 to) [(d, x)]))).
(* bank MsgServer.Send *)
Definition msg_send (e : env) (s : st) (from to : Z) (d : bytes) (x : Z) : res st :=
  if negb (e_send_enabled e d) then Err
  else if e_blocked e to then Err
  else send_coins e s from to d x.

(* ---- authz ---- *)
(* GetAuthorization, as used by authorization/types.go 142-153 CheckAuthzExists:
   nothing if the grant is missing or expired *)
Definition get_authorization (e : env) (s : st) (grantee granter : Z) : option (authorization * option Z) :=
  match pget (s_grants s) (grantee, granter) with
  | None => None
  | Some g =>
      match g_exp g with
      | Some t => if t <? e_now e then None else Some (g_auth g, g_exp g)
      | None => Some (g_auth g, g_exp g)
      end
  end.
(* SaveGrant: the expiration has to lie in the future *)
Definition save_grant (e : env) (s : st) (grantee granter : Z) (a : authorization) (exp : option Z) : res st :=
  match exp with
  | Some t => if e_now e <? t then Ok (set_grants s (pset (s_grants s) (grantee, granter) (mk_grant a exp))) else Err
  | None => Ok (set_grants s (pset (s_grants s) (grantee, granter) (mk_grant a exp)))
  end.
(* DeleteGrant: fails if there is none *)
Definition delete_grant (s : st) (grantee granter : Z) : res st :=
  match pget (s_grants s) (grantee, granter) with
  | None => Err
  | Some _ => Ok (set_grants s (pdel (s_grants s) (grantee, granter)))
  end.
(* SendAuthorization.Accept: the limit left over, None for "delete the grant" *)
Definition accept (a : authorization) (to : Z) (d : bytes) (x : Z) : res (option authorization) :=
  match a with
  | Generic => Ok (Some Generic)
  | Send limit allow =>
      let '(rest, neg) := csafe_sub limit [(d, x)] in
      if neg then Err
      else if negb (Nat.eqb (length allow) 0) && negb (existsb (Z.eqb to) allow) then Err
      else if cis_zero rest then Ok None
      else Ok (Some (Send rest allow))
  end.
(* DispatchActions with one send message signed by granter, grantee <> granter *)
Definition dispatch (e : env) (s : st) (grantee granter to : Z) (d : bytes) (x : Z) : res st :=
  match pget (s_grants s) (grantee, granter) with
  | None => Err
  | Some g =>
      if (match g_exp g with Some t => t <? e_now e | None => false end) then Err
      else rbind (accept (g_auth g) to d x) (fun r =>
           rbind (match r with
                  | None => delete_grant s grantee granter
                  | Some a => Ok (set_grants s (pset (s_grants s) (grantee, granter) (mk_grant a (g_exp g))))
                  end) (fun s1 =>
           msg_send e s1 granter to d x))
  end.

(* SendAuthorization.ValidateBasic: a positive limit (the check of the list of
   receivers for duplicates is left out: the precompile never changes the list) *)
Definition limit_ok (c : coins) : bool :=
  negb (Nat.eqb (length c) 0) && forallb (fun '(_, x) => 0 <? x) c.

(* common/types.go 19 *)
Definition year : Z := 365 * 24 * 3600 * 1000000000.
Definition max_uint256 : Z := 2 ^ 256 - 1.

Section Precompile.
Variable t : token.
Notation d := (t_denom t).

(* types.go 138-149 updateOrAddCoin: in place if the denomination occurs, else
   Coins.Add *)
Fixpoint replace_coin (c : coins) (x : Z) : option coins :=
  match c with
  | [] => None
  | (e, y) :: r => if beqb e d then Some ((e, x) :: r) else match replace_coin r x with Some r' => Some ((e, y) :: r') | None => None end
  end.
Definition update_or_add (c : coins) (x : Z) : coins :=
  match replace_coin c x with Some c' => c' | None => cadd c [(d, x)] end.
(* Coins.Find *)
Definition find_coin (c : coins) : option Z :=
  match find (fun p => beqb (fst p) d) c with Some (_, x) => Some x | None => None end.

(* approve.go 221-236 createAuthorization *)
Definition create_authorization (e : env) (s : st) (grantee granter x : Z) : res st :=
  if max_uint256 <? x then Err
  else if negb (limit_ok [(d, x)]) then Err
  else save_grant e s grantee granter (Send [(d, x)] []) (Some (e_now e + year)).
(* approve.go 238-245 updateAuthorization *)
Definition update_authorization (e : env) (s : st) (grantee granter x : Z) (limit : coins) (allow : list Z) (exp : option Z) : res st :=
  let l := update_or_add limit x in
  if negb (limit_ok l) then Err else save_grant e s grantee granter (Send l allow) exp.
(* approve.go 250-275 removeSpendLimitOrDeleteAuthorization *)
Definition remove_limit (e : env) (s : st) (grantee granter : Z) (a : authorization) (exp : option Z) : res st :=
  match a with
  | Generic => Err
  | Send limit allow =>
      match find_coin limit with
      | None => Err
      | Some x =>
          let '(l, neg) := csafe_sub limit [(d, x)] in
          if neg then Err
          else if cis_zero l then delete_grant s grantee granter
          else save_grant e s grantee granter (Send l allow) exp
      end
  end.

(* approve.go 33-88 Approve: note that the event names the contract itself as
   the owner *)
Definition approve (e : env) (s : st) (caller spender x : Z) : res st :=
  if spender =? caller then Err
  else rbind (match get_authorization e s spender caller with
              | None =>
                  if x <? 0 then Err
                  else if 0 <? x then create_authorization e s spender caller x
                  else Ok s
              | Some (a, exp) =>
                  if x <=? 0 then remove_limit e s spender caller a exp
                  else match a with
                       | Send limit allow => update_authorization e s spender caller x limit allow exp
                       | Generic => Err
                       end
              end) (fun s1 => Ok (add_log t s1 (Approval (t_addr t) spender x))).

(* approve.go 100-147 IncreaseAllowance with 277-301 increaseAllowance *)
Definition increase_allowance (e : env) (s : st) (caller spender x : Z) : res st :=
  if spender =? caller then Err
  else if x <=? 0 then Err
  else match get_authorization e s spender caller with
       | None => rbind (create_authorization e s spender caller x) (fun s1 => Ok (add_log t s1 (Approval (t_addr t) spender x)))
       | Some (Generic, _) => Err
       | Some (Send limit allow, exp) =>
           let y := amt limit d + x in
           if max_uint256 <? y then Err
           else rbind (update_authorization e s spender caller y limit allow exp) (fun s1 => Ok (add_log t s1 (Approval (t_addr t) spender y)))
       end.

(* query.go 208-229 GetAuthzExpirationAndAllowance *)
Definition authz_allowance (e : env) (s : st) (grantee granter : Z) : option (coins * list Z * option Z * Z) :=
  match get_authorization e s grantee granter with
  | Some (Send limit allow, exp) => Some (limit, allow, exp, amt limit d)
  | _ => None
  end.
(* approve.go 162-219 DecreaseAllowance with 303-331 decreaseAllowance *)
Definition decrease_allowance (e : env) (s : st) (caller spender x : Z) : res st :=
  if spender =? caller then Err
  else if x <=? 0 then Err
  else match authz_allowance e s spender caller with
       | None => Err
       | Some (limit, allow, exp, y) =>
           if x <? y then
             match find_coin limit with
             | None => Err
             | Some z => if z - x <? 0 then Err
                         else rbind (update_authorization e s spender caller (z - x) limit allow exp)
                                    (fun s1 => Ok (add_log t s1 (Approval (t_addr t) spender (z - x))))
             end
           else if x =? y then
             rbind (remove_limit e s spender caller (Send limit allow) exp) (fun s1 => Ok (add_log t s1 (Approval (t_addr t) spender 0)))
           else Err
       end.

(* query.go 178-205 Allowance *)
Definition allowance (e : env) (s : st) (owner spender : Z) : Z :=
  if owner =? spender then max_uint256
  else match authz_allowance e s spender owner with Some (_, _, _, y) => y | None => 0 end.

(* tx.go 69-141 transfer; is_from tells transferFrom *)
Definition transfer (e : env) (s : st) (is_from : bool) (caller from to x : Z) : res st :=
  if x <=? 0 then Err
  else rbind (if caller =? from then rbind (msg_send e s from to d x) (fun s1 => Ok (s1, max_uint256))
              else match authz_allowance e s caller from with
                   | None => Err
                   | Some (_, _, _, y) => rbind (dispatch e s caller from to d x) (fun s1 => Ok (s1, y - x))
                   end) (fun r =>
       let s2 := add_log t (fst r) (Transfer from to x) in
       Ok (if is_from then add_log t s2 (Approval from caller (snd r)) else s2)).

(* the calls of precompiles/erc20; tx.go 33-61 *)
Inductive call :=
| CTransfer (to x : Z)
| CTransferFrom (from to x : Z)
| CApprove (spender x : Z)
| CIncrease (spender x : Z)
| CDecrease (spender x : Z).
(* erc20.go HandleMethod *)
Definition run (e : env) (s : st) (caller : Z) (c : call) : res st :=
  match c with
  | CTransfer to x => transfer e s false caller caller to x
  | CTransferFrom from to x => transfer e s true caller from to x
  | CApprove spender x => approve e s caller spender x
  | CIncrease spender x => increase_allowance e s caller spender x
  | CDecrease spender x => decrease_allowance e s caller spender x
  end.

(* werc20/tx.go 26-62 Deposit: the EVM has moved the value from the caller to
   the precompile before the call, the precompile sends it back.  sdk.NewCoins
   drops a zero coin, the transfer of nothing succeeds *)
Definition evm_move (s : st) (from to x : Z) : res st :=
  if balance_of s d from <? x then Err
  else if x =? 0 then Ok s
  else rbind (csub (coins_of s from) [(d, x)]) (fun b =>
       let s1 := set_coins s from b in Ok (set_coins s1 to (cadd (coins_of s1 to) [(d, x)]))).
Definition deposit (e : env) (s : st) (caller x : Z) : res st :=
  rbind (evm_move s caller (t_addr t) x) (fun s1 =>
  rbind (if x =? 0 then Ok s1 else send_coins e s1 (t_addr t) caller d x) (fun s2 =>
  Ok (add_log t s2 (Deposit caller x)))).
(* werc20/tx.go 67-86 Withdraw *)
Definition withdraw (s : st) (caller x : Z) : res st :=
  if balance_of s d caller <? x then Err else Ok (add_log t s (Withdrawal caller x)).
End Precompile.

(* query.go 145-156 TotalSupply: the supply the bank keeps; here the sum of all
   balances (the bank's own invariant) *)
Definition total_supply (s : st) (d : bytes) : Z := fold_right (fun p n => amt (snd p) d + n) 0 (s_bank s).
