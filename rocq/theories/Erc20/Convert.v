(* Conversion between the tokens of a foreign ERC-20 contract and their coin:
   x/erc20/keeper/msg_server.go 24-270, mint.go, evm.go 170-220, ibc_callbacks.go,
   x/erc20/ibc_middleware.go and x/ibc/transfer/keeper/msg_server.go.
   Simplifications:
   - one pair and one transfer channel; the coin is not the staking coin;
   - the contract is any program: a call gives a new world and new coin balances (it may
     call precompiles), a return value that may not decode, and logs, or it fails;
   - amounts are unbounded; gas and events are left out;
   - of the transfer module: escrow on sending, release on refund and on return;
   - a failing message changes nothing. *)
From Verif Require Import Lib.Base Lib.Zmap.
Open Scope Z_scope.

Definition bget (b : list (Z * Z)) (a : Z) : Z := match zget b a with Some x => x | None => 0 end.
Definition total (b : list (Z * Z)) : Z := fold_right (fun q s => snd q + s) 0 b.
(* x/bank, one denomination: the balance of an account, adding to it *)
Definition badd (b : list (Z * Z)) (a x : Z) : list (Z * Z) := zset b a (bget b a + x).
Definition bmove (b : list (Z * Z)) (f t x : Z) : list (Z * Z) := badd (badd b f (- x)) t x.

Section Convert.
Variable W : Type.
(* the account of the erc20 module and the escrow account of the channel *)
Variables M E : Z.
(* accounts that may not receive; module accounts; coins held back by vesting *)
Variables blocked modacc : Z -> bool.
Variable locked : Z -> Z.
(* the contract: balanceOf, transfer, whether it still has code *)
Record call_res := mk_call { cr_w : W; cr_bank : list (Z * Z); cr_ret : option bool; cr_logs : list (list Z) }.
Variable bal_of : W -> Z -> option Z.
Variable xfer : W -> list (Z * Z) -> Z -> Z -> Z -> option call_res.
Variable alive : W -> bool.
(* the hash of "Approval(address,address,uint256)" *)
Variable approval : Z.

(* c_pair: None when there is no pair, else whether it is switched on *)
Record cst := mk_cst { c_w : W; c_bank : list (Z * Z); c_send : bool; c_on : bool; c_pair : option bool }.
Definition with_bank (s : cst) (b : list (Z * Z)) : cst := mk_cst (c_w s) b (c_send s) (c_on s) (c_pair s).

(* evm.go 186-210 monitorApprovalEvent: reads the first topic of every log *)
Fixpoint monitor (l : list (list Z)) : res unit :=
  match l with
  | [] => Ok tt
  | [] :: _ => Panic
  | (t :: _) :: r => if t =? approval then Err else monitor r
  end.
(* mint.go 17-66 MintingEnabled *)
Definition minting (s : cst) (sender receiver : Z) : res unit :=
  if negb (c_on s) then Err
  else match c_pair s with
       | None => Err
       | Some false => Err
       | Some true => if blocked receiver then Err else if negb (sender =? receiver) && negb (c_send s) then Err else Ok tt
       end.
(* bank: SendCoins of unlocked coins *)
Definition bsend (b : list (Z * Z)) (f t x : Z) : res (list (Z * Z)) := if bget b f - locked f <? x then Err else Ok (bmove b f t x).

(* msg_server.go 73-180 convertERC20IntoCoinsForNativeToken *)
Definition to_coin (s : cst) (sender receiver x : Z) : res cst :=
  let b0 := bget (c_bank s) receiver in
  match bal_of (c_w s) M with
  | None => Err
  | Some t0 =>
      match xfer (c_w s) (c_bank s) sender M x with
      | None => Err
      | Some r =>
          match cr_ret r with
          | Some true =>
              match bal_of (cr_w r) M with
              | None => Err
              | Some t1 =>
                  if negb (t1 =? t0 + x) then Err
                  else let b1 := badd (cr_bank r) M x in
                       if blocked receiver then Err
                       else let b2 := bmove b1 M receiver x in
                            if negb (bget b2 receiver =? b0 + x) then Err
                            else rbind (monitor (cr_logs r)) (fun _ => Ok (mk_cst (cr_w r) b2 (c_send s) (c_on s) (c_pair s)))
              end
          | _ => Err
          end
      end
  end.
(* msg_server.go 24-60 ConvertERC20; the amount is positive (msg.go ValidateBasic) *)
Definition convert_erc20 (s : cst) (sender receiver x : Z) : res cst :=
  if x <=? 0 then Err
  else rbind (minting s sender receiver) (fun _ =>
    if alive (c_w s) then to_coin s sender receiver x
    else Ok (mk_cst (c_w s) (c_bank s) (c_send s) (c_on s) None)).

(* msg_server.go 189-255 ConvertCoinNativeERC20 *)
Definition to_token (s : cst) (sender receiver x : Z) : res cst :=
  if x <=? 0 then Ok s
  else match bal_of (c_w s) receiver with
       | None => Err
       | Some t0 =>
           rbind (bsend (c_bank s) sender M x) (fun b1 =>
             match xfer (c_w s) b1 M receiver x with
             | None => Err
             | Some r =>
                 match cr_ret r with
                 | Some true =>
                     match bal_of (cr_w r) receiver with
                     | None => Err
                     | Some t1 =>
                         if negb (t1 =? t0 + x) then Err
                         else if bget (cr_bank r) M <? x then Err
                         else rbind (monitor (cr_logs r)) (fun _ => Ok (mk_cst (cr_w r) (badd (cr_bank r) M (- x)) (c_send s) (c_on s) (c_pair s)))
                     end
                 | _ => Err
                 end
             end)
       end.

(* ibc-go transfer: sending escrows the coins *)
Definition regular (s : cst) (sender x : Z) : res cst :=
  if (x <=? 0) || negb (c_send s) || blocked sender then Err
  else rbind (bsend (c_bank s) sender E x) (fun b => Ok (with_bank s b)).
(* x/ibc/transfer/keeper/msg_server.go 27-120 Transfer *)
Definition transfer (s : cst) (sender x : Z) : res cst :=
  match c_pair s with
  | Some true =>
      if negb (c_on s) then regular s sender x
      else if x <=? bget (c_bank s) sender then regular s sender x
      else rbind (convert_erc20 s sender sender (x - bget (c_bank s) sender)) (fun s' => regular s' sender x)
  | _ => regular s sender x
  end.
(* the transfer module gives the escrowed coins back; escrow is not subject to vesting *)
Definition release (s : cst) (a x : Z) : res cst := if bget (c_bank s) E <? x then Err else Ok (with_bank s (bmove (c_bank s) E a x)).
(* ibc_callbacks.go 158-245, ibc_middleware.go 55-99: a failed or timed out packet *)
Definition refund (s : cst) (sender x : Z) : res cst :=
  rbind (release s sender x) (fun s1 =>
    match c_pair s1 with
    | None => Ok s1
    | Some _ => if negb (c_on s1) || modacc sender then Ok s1 else to_token s1 sender sender x
    end).
(* ibc_callbacks.go 36-156, ibc_middleware.go 36-53: coins that return; same tells that
   the packet names the same account on both sides.  An error acknowledgement takes
   everything back *)
Definition recv (s : cst) (a x : Z) (same : bool) : res cst :=
  if blocked a then Err
  else rbind (release s a x) (fun s1 =>
    if negb (c_on s1) then Ok s1
    else if same then Err
    else if modacc a then Ok s1
    else match c_pair s1 with
         | Some true => to_token s1 a a (bget (c_bank s1) a)
         | _ => Ok s1
         end).
End Convert.

(* an ordinary token: a map of balances *)
Definition hon_bal (w : list (Z * Z)) (a : Z) : option Z := Some (bget w a).
Definition hon_xfer (w b : list (Z * Z)) (f t x : Z) : option (call_res (list (Z * Z))) :=
  if bget w f <? x then None else Some (mk_call _ (bmove w f t x) b (Some true) [[1; f; t]]).
