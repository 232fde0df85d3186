(** Whose authority each state-changing method of the built-in contracts uses.
    Models the checks on origin, caller and named account in
    /repo/helios-chain/precompiles/{distribution,gov,hyperion,chronos,logos,
    erc20creator,ics20,staking}.  The built-in contracts of
    x/evm/keeper/static_precompiles.go:42-135; vesting is not among them.
    What the method does once its account is settled is not modelled here. *)
From Coq Require Import List NArith Bool.
From Verif Require Import Precompiles.Staking.
Import ListNotations.

(** distribution/tx.go:34-290 and gov/tx.go:48-108: the caller names an
    account. *)
Inductive named_op :=
| ClaimRewards | SetWithdrawAddress | WithdrawRewards | WithdrawCommission
| FundCommunityPool | Vote | VoteWeighted.

(** No account is named; the messages are made out for [origin]:
    gov/tx.go:113-460 (proposals), hyperion/methods.go:37-485,
    chronos/methods.go:27-355, logos/methods.go:22-55,
    erc20creator.go:102-245, staking/approve.go and ics20/approve.go. *)
Inductive origin_op :=
| ProposeAdd | ProposeUpdate | ProposeRemove | ProposeModular | ProposeHyperion | ProposeBlocks
| AddChain | UpdateChain | SetOrchestrator | SendToChain | CancelSendToChain | RequestData
| CreateCron | UpdateCron | CancelCron | CreateCallbackCron
| UploadLogo | CreateErc20 | ApproveStaking | ApproveTransfer.

Inductive method :=
| Named (op : named_op) (who : addr)
| AsOrigin (op : origin_op)
| StakeFor (k : kind) (who : addr)
| IbcTransfer (who : addr)
| OwnValidator (who : addr)      (* createValidator, editValidator *)
| UnjailOf (who : addr).

(** How the built-in contract was reached (x/evm/core/vm/evm.go:228,295,340,394):
    only CALL runs it as not read-only. *)
Inductive form := Call | CallCode | DelegateCall | StaticCall.

(** The approvals in force: staking messages and transfers, grantee first. *)
Record approvals := Approvals {
  ap_stake : kind -> addr -> addr -> bool;
  ap_transfer : addr -> addr -> bool
}.

(** The account acted for, or nothing if the call is refused.
    RunSetup (common/precompile.go:72-138) refuses any state-changing method
    when read-only. *)
Definition authority (f : form) (v : env) (ap : approvals) (m : method) : option addr :=
  match f with
  | Call =>
      let o := e_origin v in
      let c := e_caller v in
      match m with
      | Named _ who =>
          (* distribution/tx.go:57-60, gov/tx.go:63-66 *)
          if ((c =? who) && negb (o =? who))%N then Some who
          else if (o =? who)%N then Some who else None
      | AsOrigin _ => Some o
      | StakeFor k who =>
          (* staking/tx.go:208-221 *)
          if (negb (c =? who) && negb (o =? who))%N then None
          else if (c =? o)%N then Some who
          else if ap_stake ap k c o then Some who else None
      | IbcTransfer who =>
          (* ics20/tx.go:46-58, ics20/types.go:391-413 *)
          if (negb (c =? who) && negb (o =? who))%N then None
          else if (c =? o)%N then Some who
          else if ap_transfer ap c o then Some who else None
      | OwnValidator who => if validator_call_ok v who then Some who else None
      | UnjailOf who => Some who
      end
  | _ => None
  end.

(** What was done in whose name. *)
Definition deed := (addr * method)%type.

(** A history of calls: forms, environments, the approvals in force at each. *)
Definition event := (form * env * approvals * method)%type.

Fixpoint deeds (es : list event) : list deed :=
  match es with
  | [] => []
  | (f, v, ap, m) :: es' =>
      match authority f v ap m with
      | Some a => (a, m) :: deeds es'
      | None => deeds es'
      end
  end.
