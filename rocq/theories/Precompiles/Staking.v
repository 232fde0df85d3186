(** The built-in staking contract: approvals and the calls that need them.
    Models /repo/helios-chain/precompiles/staking/{tx,approve,types}.go,
    precompiles/authorization/types.go and the parts of the Cosmos SDK they
    call: x/authz GetAuthorization / SaveGrant / DeleteGrant and x/staking
    StakeAuthorization.Accept (both from the SDK, read from their documented
    behaviour: the SDK's source is not in /repo). *)
From Coq Require Import List ZArith NArith Bool.
Import ListNotations.
Open Scope Z_scope.

Definition addr := N.
Definition denom := N.

(** The four staking messages an approval can be about
    (approve.go:20-29, convertMsgToAuthz approve.go:365-378). *)
Inductive kind := Delegate | Undelegate | Redelegate | Cancel.

Definition kind_eqb (a b : kind) : bool :=
  match a, b with
  | Delegate, Delegate | Undelegate, Undelegate
  | Redelegate, Redelegate | Cancel, Cancel => true
  | _, _ => false
  end.

(** A message type as the caller writes it; [Other] is any string that is not
    one of the four. *)
Inductive url := Known (k : kind) | Other (s : N).

(** StakeAuthorization (SDK): allowed and denied validators and, when there is
    a limit, a coin. *)
Record auth := Auth {
  a_allow : list addr;
  a_deny : list addr;
  a_max : option (denom * Z)
}.

(** A stored grant. [g_auth = None] stands for an authorization of another
    type saved under the same message type (GenericAuthorization). *)
Record grant := Grant { g_auth : option auth; g_exp : option Z }.

(** The grants in force: grantee, granter, message type. *)
Definition grants := addr -> addr -> kind -> option grant.

Definition set_grant (g : grants) (e r : addr) (k : kind) (v : option grant) : grants :=
  fun e' r' k' =>
    if ((e =? e') && (r =? r'))%N && kind_eqb k k' then v else g e' r' k'.

(** Delegate, undelegate and cancelUnbondingDelegation carry the same fields
    (types.go NewMsgDelegate, NewMsgUndelegate, NewMsgCancelUnbondingDelegation);
    [m_ref] is the creation height for the last and unused otherwise. *)
Record smsg := Smsg {
  m_kind : kind;
  m_delegator : addr;
  m_validator : addr;
  m_denom : denom;
  m_amount : Z;
  m_ref : Z
}.

(** Who signed the transaction, who calls the built-in contract, block time. *)
Record env := Env { e_origin : addr; e_caller : addr; e_now : Z }.

(** One line of the record of what reached the staking module: who called,
    in whose transaction, which message, and whether the call then ended
    without an error.  The record is ghost state: it does not influence
    anything. *)
Record served := Served {
  v_caller : addr; v_origin : addr; v_msg : smsg; v_ok : bool
}.

Inductive outcome := Done | Failed | Crashed.

Section Contract.

(** The staking module's own state, its message server (external), the
    validators that are not jailed, the tokens on the whitelist, the staking
    token and how long an approval lasts (ApprovalExpiration). *)
Variable W : Type.
Variable serve : smsg -> W -> option W.
Variable unjailed : W -> list addr.
Variable whitelisted : W -> denom -> bool.
Variable serve_unjail : addr -> W -> option W.
Variable bond : denom.
Variable lifetime : Z.

Record state := State {
  s_grants : grants;
  s_world : W;
  s_log : list served
}.

(** authz keeper GetAuthorization: nothing if missing or expired before now. *)
Definition get_auth (g : grants) (now : Z) (e r : addr) (k : kind) : option grant :=
  match g e r k with
  | None => None
  | Some x =>
      match g_exp x with
      | Some t => if t <? now then None else Some x
      | None => Some x
      end
  end.

(** authz keeper SaveGrant: refuses an expiry that is not after now. *)
Definition save (now : Z) (e r : addr) (k : kind) (x : grant) (g : grants) : option grants :=
  match g_exp x with
  | Some t => if now <? t then Some (set_grant g e r k (Some x)) else None
  | None => Some (set_grant g e r k (Some x))
  end.

(** authz keeper DeleteGrant: refuses when there is nothing to delete; it does
    not look at the expiry. *)
Definition delete (e r : addr) (k : kind) (g : grants) : option grants :=
  match g e r k with
  | None => None
  | Some _ => Some (set_grant g e r k None)
  end.

(** CheckApprovalArgs (authorization/types.go:30-83): the largest 256-bit
    number means "no limit" and becomes a nil coin. *)
Definition max_word : Z := 2 ^ 256 - 1.

Definition coin_of (amount : Z) : option Z :=
  if amount =? max_word then None else Some amount.

Definition known (us : list url) : bool := negb (match us with [] => true | _ => false end).

(** createStakingAuthz (approve.go:237-278). *)
Definition create (now : Z) (w : W) (e r : addr) (coin : option Z) (k : kind)
    (g : grants) : option grants :=
  match unjailed w with
  | [] => None
  | vs =>
      save now e r k
        (Grant (Some (Auth vs [] (match coin with
                                  | None => None
                                  | Some a => Some (bond, a)
                                  end)))
               (Some (now + lifetime))) g
  end.

(** grantOrDeleteStakingAuthz (approve.go:205-234). *)
Definition grant_or_delete (now : Z) (w : W) (e r : addr) (coin : option Z) (k : kind)
    (g : grants) : option grants :=
  match coin with
  | None => create now w e r None k g
  | Some a => if a <=? 0 then delete e r k g else create now w e r coin k g
  end.

(** One attempt on the grants: the new grants, an error, or a nil
    dereference. *)
Inductive attempt := Got (g : grants) | Refused | Nilpointer.

Definition of_option (o : option grants) : attempt :=
  match o with Some g => Got g | None => Refused end.

(** math.Int holds at most 256 bits; beyond that Add panics. *)
Definition fits (z : Z) : bool := z <=? max_word.

(** decreaseAllowance (approve.go:121-165, 281-305). A nil coin compared with
    a limit is a nil dereference. *)
Definition decrease (now : Z) (e r : addr) (coin : option Z) (k : kind) (g : grants) : attempt :=
  match get_auth g now e r k with
  | None => Refused
  | Some x =>
      match g_auth x with
      | None => Refused
      | Some a =>
          match a_max a with
          | None => Got g
          | Some (d, l) =>
              match coin with
              | None => Nilpointer
              | Some c =>
                  if l <? c then Refused
                  else of_option (save now e r k
                         (Grant (Some (Auth (a_allow a) (a_deny a) (Some (d, l - c)))) (g_exp x)) g)
              end
          end
      end
  end.

(** increaseAllowance (approve.go:168-201, 308-336). *)
Definition increase (now : Z) (e r : addr) (coin : option Z) (k : kind) (g : grants) : attempt :=
  match get_auth g now e r k with
  | None => Refused
  | Some x =>
      match g_auth x with
      | None => Refused
      | Some a =>
          match a_max a with
          | None => Got g
          | Some (d, l) =>
              match coin with
              | None => Nilpointer
              | Some c =>
                  if fits (l + c)
                  then of_option (save now e r k
                         (Grant (Some (Auth (a_allow a) (a_deny a) (Some (d, l + c)))) (g_exp x)) g)
                  else Nilpointer
              end
          end
      end
  end.

(** The loops over the message types (approve.go:49-64, 89-100, 137-158,
    184-195): what was written before a failing entry stays written in the
    transaction's cached context. *)
Fixpoint each (f : kind -> grants -> attempt) (us : list url) (g : grants)
    : outcome * grants :=
  match us with
  | [] => (Done, g)
  | Other _ :: _ => (Failed, g)
  | Known k :: us' =>
      match f k g with
      | Got g' => each f us' g'
      | Refused => (Failed, g)
      | Nilpointer => (Crashed, g)
      end
  end.

(** increaseAllowance does not know the cancel message (approve.go:186). *)
Definition no_cancel (u : url) : url :=
  match u with Known Cancel => Other 0 | _ => u end.

Inductive call :=
| Approve (grantee : addr) (amount : Z) (us : list url)
| Revoke (grantee : addr) (us : list url)
| Increase (grantee : addr) (amount : Z) (us : list url)
| Decrease (grantee : addr) (amount : Z) (us : list url)
| Do (m : smsg)
| Unjail (v : addr).

(** CheckApprovalArgs / CheckRevokeArgs: the grantee is not the zero address,
    the amount is not negative, at least one message type. *)
Definition args_ok (grantee : addr) (amount : Z) (us : list url) : bool :=
  negb (grantee =? 0)%N && (0 <=? amount) && known us.

(** UpdateStakingAuthorization (approve.go:339-362) with StakeAuthorization's
    Accept. *)
Definition accept (now : Z) (e r : addr) (x : grant) (a : auth) (m : smsg) (g : grants)
    : option grants :=
  if existsb (N.eqb (m_validator m)) (a_deny a) then None
  else if negb (match a_allow a with [] => true | _ => false end)
          && negb (existsb (N.eqb (m_validator m)) (a_allow a)) then None
  else match a_max a with
       | None => save now e r (m_kind m) x g
       | Some (d, l) =>
           if negb (d =? m_denom m)%N then None
           else if l - m_amount m <? 0 then None
           else if l - m_amount m =? 0 then delete e r (m_kind m) g
           else save now e r (m_kind m)
                  (Grant (Some (Auth (a_allow a) (a_deny a) (Some (d, l - m_amount m)))) (g_exp x)) g
       end.

(** CheckAuthzAndAllowanceForGranter (authorization/types.go:160-183): the
    limit is compared by number only. *)
Definition may (g : grants) (now : Z) (e r : addr) (m : smsg) : option (grant * auth) :=
  match get_auth g now e r (m_kind m) with
  | None => None
  | Some x =>
      match g_auth x with
      | None => None
      | Some a =>
          match a_max a with
          | Some (_, l) => if l <? m_amount m then None else Some (x, a)
          | None => Some (x, a)
          end
      end
  end.

(** Delegate (tx.go:162-255), Undelegate (tx.go:259-340) and
    CancelUnbondingDelegation (tx.go:345-423).  Redelegate is not one of the
    contract's methods.  The cancel method puts the staking token in the
    message itself.  The delegator the message names is left as the caller
    wrote it (tx.go:208-209 only changes the local variable).  Amounts come
    from an unsigned ABI word, so a negative one cannot be written. *)
Definition perform (v : env) (m0 : smsg) (s : state) : outcome * state :=
  let m := match m_kind m0 with
           | Cancel => Smsg Cancel (m_delegator m0) (m_validator m0) bond (m_amount m0) (m_ref m0)
           | _ => m0
           end in
  let direct := (e_caller v =? e_origin v)%N in
  if match m_kind m with Redelegate => true | _ => false end then (Failed, s)
  else if (m_delegator m =? 0)%N || (m_validator m =? 0)%N || (m_amount m <? 0) then (Failed, s)
  else if match m_kind m with Cancel => false | _ => negb (whitelisted (s_world s) (m_denom m)) end
  then (Failed, s)
  else if negb (e_caller v =? m_delegator m)%N && negb (e_origin v =? m_delegator m)%N
  then (Failed, s)
  else
    let run (after : grants -> option grants) :=
      match serve m (s_world s) with
      | None => (Failed, s)
      | Some w =>
          let line b := Served (e_caller v) (e_origin v) m b in
          match after (s_grants s) with
          | Some g => (Done, State g w (line true :: s_log s))
          | None => (Failed, State (s_grants s) w (line false :: s_log s))
          end
      end in
    if direct then run (fun g => Some g)
    else match may (s_grants s) (e_now v) (e_caller v) (e_origin v) m with
         | None => (Failed, s)
         | Some (x, a) => run (accept (e_now v) (e_caller v) (e_origin v) x a m)
         end.

Definition with_grants (s : state) (r : outcome * grants) : outcome * state :=
  match r with
  | (Crashed, _) => (Crashed, s)
  | (o, g) => (o, State g (s_world s) (s_log s))
  end.

(** One call of the contract (staking.go Run).  The approving side is always
    the transaction's signer, whoever calls (approve.go:56,92,140,187 pass
    [origin]).  A crash aborts the whole transaction. *)
Definition step (v : env) (c : call) (s : state) : outcome * state :=
  let now := e_now v in
  let o := e_origin v in
  match c with
  | Approve e amount us =>
      if args_ok e amount us
      then with_grants s
             (each (fun k g => of_option (grant_or_delete now (s_world s) e o (coin_of amount) k g))
                us (s_grants s))
      else (Failed, s)
  | Revoke e us =>
      if args_ok e 0 us
      then with_grants s (each (fun k g => of_option (delete e o k g)) us (s_grants s))
      else (Failed, s)
  | Increase e amount us =>
      if args_ok e amount us
      then with_grants s (each (increase now e o (coin_of amount)) (map no_cancel us) (s_grants s))
      else (Failed, s)
  | Decrease e amount us =>
      if args_ok e amount us
      then with_grants s (each (decrease now e o (coin_of amount)) us (s_grants s))
      else (Failed, s)
  | Do m => perform v m s
  | Unjail x =>
      if (x =? 0)%N then (Failed, s)
      else match serve_unjail x (s_world s) with
           | Some w => (Done, State (s_grants s) w (s_log s))
           | None => (Failed, s)
           end
  end.

(** The balance change the contract reports to the EVM after a successful
    call (tx.go:241-252): the amount, in whatever token, taken from the
    delegator in native coins. *)
Definition reported (v : env) (m : smsg) : list (addr * Z) :=
  match m_kind m with
  | Delegate => if (e_caller v =? e_origin v)%N then [] else [(m_delegator m, - m_amount m)]
  | _ => []
  end.

End Contract.

Arguments State {W} _ _ _.
Arguments s_grants {W} _.
Arguments s_world {W} _.
Arguments s_log {W} _.

(** createValidator's commission (types.go:155-159): all three rates are the
    first one. *)
Definition commission_of (rate max_rate max_change : Z) : Z * Z * Z := (rate, rate, rate).

(** editValidator's optional fields (types.go:198-230), -1 meaning "leave it":
    the last test looks at the second field. *)
Definition keep (z : Z) : bool := z =? -1.

Definition edit_of (rate min_self min_del : Z) : option Z * option Z * option Z :=
  (if keep rate then None else Some rate,
   if keep min_self then None else Some min_self,
   if keep min_self then None else Some min_del).

(** createValidator and editValidator (tx.go:54-159): only the signer itself,
    without a contract in between, for its own validator. *)
Definition validator_call_ok (v : env) (validator : addr) : bool :=
  negb (validator =? 0)%N && (e_caller v =? e_origin v)%N && (e_origin v =? validator)%N.
