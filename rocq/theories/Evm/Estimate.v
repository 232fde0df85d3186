(* Gas estimation: x/evm/keeper/grpc_query.go:269-447 EstimateGasInternal and
   x/evm/types/utils.go:128-145 BinSearch.  The request has been decoded and
   its fee fields do not contradict each other (ToMessage does not fail). *)
From Verif Require Import Lib.Base Lib.Bytes Evm.Words Evm.World Evm.Interp Evm.Message.
Open Scope N_scope.

(* one trial run (grpc_query.go:375-427 executable): without an error; failed,
   either before it started (None: too little gas to be sent) or in the EVM
   with an error and returned bytes; or an error that no gas limit cures *)
Inductive trial := Runs | Fails (why : option (verr * bytes)) | Aborts.

(* what the search finds; the program has no fuel: SLoop says that it ran out *)
Inductive found := Found (gas : N) | SAbort | SLoop.

(* BinSearch; uint64 arithmetic *)
Fixpoint bin_search (try : N -> trial) (fuel : nat) (lo hi : N) : found :=
  if (lo + 1) mod U64 <? hi then
    match fuel with
    | O => SLoop
    | S n =>
        let mid := ((hi + lo) mod U64) / 2 in
        match try mid with
        | Aborts => SAbort
        | Fails _ => bin_search try n mid hi
        | Runs => bin_search try n lo mid
        end
    end
  else Found hi.

(* the request: gas limit named by the caller, cap of the node, maximum gas of
   a block (0 or less: none), fee cap, amount sent, balance of the sender *)
Record ask := Ask { k_gas : option N; k_cap : N; k_block : Z; k_fee : N; k_value : option N; k_balance : N }.

Inductive answer :=
| Gas (g : N)
| Reverts (ret : bytes)                     (* the run reverted: reason for the caller *)
| Refused                                   (* an error *)
| Never.                                    (* no answer: see SLoop *)

(* :299-319 highest limit, before the funds of the sender are looked at *)
Definition ceiling (q : ask) : N :=
  let hi := match (match k_gas q with Some g => if 21000 <=? g then Some g else None | None => None end) with
            | Some g => g
            | None => if (0 <? k_block q)%Z then Z.to_N (k_block q) else k_cap q
            end in
  if negb (k_cap q =? 0) && (k_cap q <? hi) then k_cap q else hi.

(* :339-363 lowered to what the sender can pay; None: error *)
Definition afford (q : ask) (hi : N) : option N :=
  if k_fee q =? 0 then Some hi
  else
    match (match k_value q with
           | Some v => if k_balance q <=? v then None else Some (k_balance q - v)
           | None => Some (k_balance q)
           end) with
    | None => None
    | Some available =>
        let allowance := available / k_fee q in
        if (allowance <? U64) && (allowance <? hi) then
          if allowance <? 21000 then None else Some allowance
        else Some hi
    end.

Definition estimate (try : N -> trial) (fuel : nat) (q : ask) : answer :=
  if k_cap q <? 21000 then Refused
  else
    let cap := ceiling q in                 (* gasCap = hi, before the funds *)
    match afford q cap with
    | None => Refused
    | Some hi =>
        match bin_search try fuel 20999 hi with
        | SLoop => Never
        | SAbort => Refused
        | Found h =>
            if h =? cap then
              match try h with
              | Aborts => Refused
              | Fails (Some (EReverted, ret)) => Reverts ret
              | Fails _ => Refused
              | Runs => Gas h
              end
            else Gas h
        end
    end.

(* The trial is a message with the gas limit changed.  The world already holds
   the sender with the next nonce (:393-408); nothing is committed. *)
Definition with_gas (M : msg) (g : N) : msg :=
  Msg (g_from M) (g_to M) (g_nonce M) g (g_value M) (g_data M) (g_list M).
Definition try_message (apply : msg -> res mres) (M : msg) (g : N) : trial :=
  match intrinsic (g_data M) (g_list M) (match g_to M with None => true | Some _ => false end) with
  | Ok cost => if g <? cost then Fails None                      (* core.ErrIntrinsicGas *)
               else match apply (with_gas M g) with
                    | Ok r => match r_err r with None => Runs | Some e => Fails (Some (e, r_ret r)) end
                    | _ => Aborts
                    end
  | _ => Aborts
  end.
