(** The built-in contract that sends tokens to other chains (ICS-20):
    approvals and the transfer that needs them.
    Models /repo/helios-chain/precompiles/ics20/{tx,approve,approve_common,types,query}.go,
    precompiles/authorization/types.go and the parts they call of the Cosmos
    SDK (x/authz GetAuthorization / SaveGrant / DeleteGrant) and of ibc-go
    (TransferAuthorization ValidateBasic and Accept), both from their documented
    behaviour: neither source is in /repo. *)
From Verif Require Import Lib.Base Lib.Bytes Lib.Coins.
From Coq Require Import NArith.
Open Scope Z_scope.

Definition addr := N.

(** transfertypes.Allocation: what may leave through one port and channel, to
    whom, with which memo keys. *)
Record alloc := Alloc {
  al_port : bytes;
  al_chan : bytes;
  al_limit : coins;
  al_allow : list bytes;
  al_memo : list bytes
}.

(** A stored grant for MsgTransfer.  [g_allocs = None] stands for an
    authorization of another type saved under the same message type. *)
Record grant := Grant { g_allocs : option (list alloc); g_exp : option Z }.

(** The grants in force: grantee, granter. *)
Definition grants := addr -> addr -> option grant.

Definition set_grant (g : grants) (e r : addr) (v : option grant) : grants :=
  fun e' r' => if ((e =? e') && (r =? r'))%N then v else g e' r'.

(** MsgTransfer; the two timeouts travel unchanged and are one number here. *)
Record tmsg := Tmsg {
  t_port : bytes;
  t_chan : bytes;
  t_denom : bytes;
  t_amount : Z;
  t_sender : addr;
  t_receiver : bytes;
  t_timeout : Z;
  t_memo : bytes
}.

(** Where the gas given to the call runs out, if it does: a caller chooses how
    much gas it hands over.  Running out raises a panic that Run turns into an
    error without undoing what was written (precompiles/common/precompile.go
    HandleGasError 158-177; AddJournalEntries, 182-200, comes after it).  Gas
    running out inside the transfer itself is not modelled. *)
Inductive gas := Enough | Out_at_once | Out_after_sending | Out_at_the_end.

(** Who signed the transaction, who calls the built-in contract, block time. *)
Record env := Env { e_origin : addr; e_caller : addr; e_now : Z; e_gas : gas }.

(** One line of the record of what the transfer module sent: who called, in
    whose transaction, which message, and whether the call got past writing
    off the approval.  The record is ghost state: it influences nothing. *)
Record sent := Sent {
  v_caller : addr; v_origin : addr; v_msg : tmsg; v_settled : bool
}.

Inductive outcome := Done | Failed.

(** UnboundedSpendLimit, and the largest number math.Int holds. *)
Definition max_word : Z := 2 ^ 256 - 1.

Definition here (p c : bytes) (a : alloc) : bool := beqb (al_port a) p && beqb (al_chan a) c.

(** checkAllocationExists (types.go:328-348) and ibc-go getAllocationIndex: the
    first allocation for that port and channel. *)
Definition find_alloc (p c : bytes) (l : list alloc) : option alloc := find (here p c) l.

(** Replace the first allocation for that port and channel. *)
Fixpoint at_first (p c : bytes) (f : alloc -> list alloc) (l : list alloc) : list alloc :=
  match l with
  | [] => []
  | a :: l' => if here p c a then f a ++ l' else a :: at_first p c f l'
  end.

Definition with_limit (a : alloc) (l : coins) : alloc :=
  Alloc (al_port a) (al_chan a) l (al_allow a) (al_memo a).

(** Coins.Find: a search by halves in the SDK, which finds the same in the
    sorted lists that are ever stored. *)
Definition find_coin (d : bytes) (l : coins) : option Z :=
  match find (fun x => beqb (fst x) d) l with Some (_, x) => Some x | None => None end.

(** The loop of DecreaseAllowance over the coins (approve_common.go:178-193). *)
Fixpoint lower (d : bytes) (x : Z) (l : coins) : coins :=
  match l with
  | [] => []
  | (e, y) :: l' =>
      if beqb e d then (if 0 <? y - x then (e, y - x) :: l' else l')
      else (e, y) :: lower d x l'
  end.

Fixpoint distinct (l : list bytes) : bool :=
  match l with [] => true | x :: l' => negb (existsb (beqb x) l') && distinct l' end.

Section Contract.

(** The rest of the chain, its transfer module (external), the channels that
    exist, the memo rule of ibc-go, the syntax of names and tokens, the checks
    of MsgTransfer.ValidateBasic other than the amount, how long an approval
    lasts (ApprovalExpiration). *)
Variable W : Type.
Variable send : tmsg -> W -> option W.
Variable has_channel : W -> bytes -> bytes -> bool.
Variable memo_ok : bytes -> list bytes -> bool.
Variable name_ok : bytes -> bool.
Variable denom_ok : bytes -> bool.
Variable msg_ok : tmsg -> bool.
Variable lifetime : Z.

Record state := State {
  s_grants : grants;
  s_world : W;
  s_log : list sent
}.

(** authz keeper GetAuthorization: nothing if missing or ended before now. *)
Definition get_auth (g : grants) (now : Z) (e r : addr) : option grant :=
  match g e r with
  | None => None
  | Some x =>
      match g_exp x with
      | Some t => if t <? now then None else Some x
      | None => Some x
      end
  end.

(** authz keeper SaveGrant: refuses an end that is not after now. *)
Definition save (now : Z) (e r : addr) (x : grant) (g : grants) : option grants :=
  match g_exp x with
  | Some t => if now <? t then Some (set_grant g e r (Some x)) else None
  | None => Some (set_grant g e r (Some x))
  end.

(** authz keeper DeleteGrant. *)
Definition delete (e r : addr) (g : grants) : option grants :=
  match g e r with
  | None => None
  | Some _ => Some (set_grant g e r None)
  end.

(** TransferAuthorization.ValidateBasic (ibc-go), called by
    NewTransferAuthorization (types.go:80-93): at least one allocation, no
    channel twice, limits sorted by token and positive, no receiver twice. *)
Definition alloc_ok (a : alloc) : bool :=
  cvalidb (al_limit a) && forallb (fun x => denom_ok (fst x) && (snd x <=? max_word)) (al_limit a)
  && name_ok (al_port a) && name_ok (al_chan a) && distinct (al_allow a).

Definition allocs_ok (l : list alloc) : bool :=
  match l with [] => false | _ => true end
  && distinct (map al_chan l) && forallb alloc_ok l.

(** Approve (approve_common.go:30-65). *)
Definition approve (now : Z) (e r : addr) (l : list alloc) (w : W) (g : grants) : option grants :=
  if allocs_ok l && forallb (fun a => has_channel w (al_port a) (al_chan a)) l
  then save now e r (Grant (Some l) (Some (now + lifetime))) g
  else None.

(** Revoke (approve_common.go:68-99). *)
Definition revoke (now : Z) (e r : addr) (g : grants) : option grants :=
  if (e =? 0)%N then None
  else match get_auth g now e r with
       | Some (Grant (Some _) _) => delete e r g
       | _ => None
       end.

(** IncreaseAllowance (approve_common.go:102-150). *)
Definition increase (now : Z) (e r : addr) (p c d : bytes) (x : Z) (g : grants) : option grants :=
  if (e =? 0)%N || (x <? 0) then None
  else match get_auth g now e r with
       | Some (Grant (Some l) t) =>
           match find_alloc p c l with
           | Some a =>
               match find_coin d (al_limit a) with
               | Some y =>
                   if max_word <? y + x then None
                   else save now e r
                          (Grant (Some (at_first p c
                             (fun a => [with_limit a (cadd (al_limit a) [(d, x)])]) l)) t) g
               | None => None
               end
           | None => None
           end
       | _ => None
       end.

(** DecreaseAllowance (approve_common.go:153-213). *)
Definition decrease (now : Z) (e r : addr) (p c d : bytes) (x : Z) (g : grants) : option grants :=
  if (e =? 0)%N || (x <? 0) then None
  else match get_auth g now e r with
       | Some (Grant (Some l) t) =>
           match find_alloc p c l with
           | Some a =>
               match find_coin d (al_limit a) with
               | Some y =>
                   if y <? x then None
                   else save now e r
                          (Grant (Some (at_first p c
                             (fun a => [with_limit a (lower d x (al_limit a))]) l)) t) g
               | None => None
               end
           | None => None
           end
       | _ => None
       end.

(** AcceptResponse: nothing to write, a new list, or delete. *)
Inductive response := Keep | Update (l : list alloc) | Delete.

(** TransferAuthorization.Accept (ibc-go). *)
Definition accept (l : list alloc) (m : tmsg) : option response :=
  match find_alloc (t_port m) (t_chan m) l with
  | None => None
  | Some a =>
      if negb (match al_allow a with [] => true | _ => existsb (beqb (t_receiver m)) (al_allow a) end)
      then None
      else if negb (memo_ok (t_memo m) (al_memo a)) then None
      else if amt (al_limit a) (t_denom m) =? max_word then Some Keep
      else
        let '(rest, negative) := csafe_sub (al_limit a) [(t_denom m, t_amount m)] in
        if negative then None
        else if cis_zero rest
        then match at_first (t_port m) (t_chan m) (fun _ => []) l with
             | [] => Some Delete
             | l' => Some (Update l')
             end
        else Some (Update (at_first (t_port m) (t_chan m) (fun a => [with_limit a rest]) l))
  end.

(** UpdateGrant (approve_common.go:239-265). *)
Definition update (now : Z) (e r : addr) (t : option Z) (x : response) (g : grants) : option grants :=
  match x with
  | Keep => Some g
  | Delete => delete e r g
  | Update l => save now e r (Grant (Some l) t) g
  end.

Definition line (v : env) (m : tmsg) (b : bool) : sent := Sent (e_caller v) (e_origin v) m b.

(** What is left to do once the message is accepted (tx.go:61-99): send, then
    write off the approval. *)
Definition finish (v : env) (m : tmsg) (after : grants -> option grants) (s : state)
    : outcome * state :=
  match send m (s_world s) with
  | None => (Failed, s)
  | Some w =>
      let unsettled := (Failed, State (s_grants s) w (line v m false :: s_log s)) in
      match e_gas v with
      | Out_after_sending => unsettled
      | _ =>
          match after (s_grants s) with
          | Some g => (Done, State g w (line v m true :: s_log s))
          | None => unsettled
          end
      end
  end.

(** Transfer (tx.go:29-100) with NewMsgTransfer, CheckAndAcceptAuthorizationIfNeeded
    and UpdateGrantIfNeeded (types.go:96-160, 388-421).  Amounts come from an
    unsigned ABI word and ValidateBasic wants them positive. *)
Definition transfer (v : env) (m : tmsg) (s : state) : outcome * state :=
  if negb (msg_ok m && denom_ok (t_denom m) && (0 <? t_amount m) && (t_amount m <=? max_word))
  then (Failed, s)
  else if negb (has_channel (s_world s) (t_port m) (t_chan m)) then (Failed, s)
  else if negb (e_caller v =? t_sender m)%N && negb (e_origin v =? t_sender m)%N
  then (Failed, s)
  else if (e_caller v =? e_origin v)%N then finish v m (fun g => Some g) s
  else match get_auth (s_grants s) (e_now v) (e_caller v) (e_origin v) with
       | Some (Grant (Some l) t) =>
           match accept l m with
           | Some x => finish v m (update (e_now v) (e_caller v) (e_origin v) t x) s
           | None => (Failed, s)
           end
       | _ => (Failed, s)
       end.

Inductive call :=
| Approve (e : addr) (l : list alloc)
| Revoke (e : addr)
| Increase (e : addr) (p c d : bytes) (x : Z)
| Decrease (e : addr) (p c d : bytes) (x : Z)
| Transfer (m : tmsg).

Definition with_grants (s : state) (g : option grants) : outcome * state :=
  match g with
  | Some g => (Done, State g (s_world s) (s_log s))
  | None => (Failed, s)
  end.

Definition body (v : env) (c : call) (s : state) : outcome * state :=
  let now := e_now v in
  let o := e_origin v in
  let g := s_grants s in
  match c with
  | Approve e l => with_grants s (approve now e o l (s_world s) g)
  | Revoke e => with_grants s (revoke now e o g)
  | Increase e p c d x => with_grants s (increase now e o p c d x g)
  | Decrease e p c d x => with_grants s (decrease now e o p c d x g)
  | Transfer m => transfer v m s
  end.

(** One call of the contract (ics20.go Run 86-139).  The approving side is
    always the transaction's signer, whoever calls (ics20.go:100-107 pass
    [evm.Origin]). *)
Definition step (v : env) (c : call) (s : state) : outcome * state :=
  match e_gas v with
  | Out_at_once => (Failed, s)
  | Out_at_the_end => (Failed, snd (body v c s))
  | _ => body v c s
  end.

(** The allowance query (query.go:95-145): the allocations, none when there is
    no approval, an error for an authorization of another type. *)
Definition query (now : Z) (e r : addr) (g : grants) : option (list alloc) :=
  match get_auth g now e r with
  | None => Some []
  | Some x => g_allocs x
  end.

End Contract.

Arguments State {W} _ _ _.
Arguments s_grants {W} _.
Arguments s_world {W} _.
Arguments s_log {W} _.
