(* What is asked of conversions: histories of messages around an ordinary token. *)
From Verif Require Import Lib.Base Lib.Zmap Erc20.Convert.
Open Scope Z_scope.

(* coins and tokens of an account, the supply of the coin, what backs it *)
Definition hst : Type := cst (list (Z * Z)).
Definition coins (s : hst) (a : Z) : Z := bget (c_bank _ s) a.
Definition tokens (s : hst) (a : Z) : Z := bget (c_w _ s) a.
Definition supply (s : hst) : Z := total (c_bank _ s).

Inductive cop :=
| OConvert (f r x : Z)      (* MsgConvertERC20 *)
| OTransfer (a x : Z)       (* sending over IBC *)
| ORefund (a x : Z)         (* a packet failed or timed out *)
| ORecv (a x : Z) (same : bool)  (* coins return over IBC *)
| OPay (f t x : Z)          (* sending coins *)
| OGive (f t x : Z)         (* sending tokens *)
| OToggle (b : bool)        (* governance: the pair, the module, the bank's switch *)
| OSwitch (b : bool)
| OSend (b : bool).

Section Run.
Variables M E : Z.
Variables blocked modacc : Z -> bool.
Variable locked : Z -> Z.
Variable approval : Z.
Definition hstep (s : hst) (o : cop) : res hst :=
  match o with
  | OConvert f r x => convert_erc20 _ M blocked hon_bal hon_xfer (fun _ => true) approval s f r x
  | OTransfer a x => transfer _ M E blocked locked hon_bal hon_xfer (fun _ => true) approval s a x
  | ORefund a x => refund _ M E modacc locked hon_bal hon_xfer approval s a x
  | ORecv a x same => recv _ M E blocked modacc locked hon_bal hon_xfer approval s a x same
  | OPay f t x => rbind (bsend locked (c_bank _ s) f t x) (fun b => Ok (with_bank _ s b))
  | OGive f t x => match hon_xfer (c_w _ s) (c_bank _ s) f t x with Some r => Ok (mk_cst _ (cr_w _ r) (c_bank _ s) (c_send _ s) (c_on _ s) (c_pair _ s)) | None => Err end
  | OToggle b => match c_pair _ s with Some _ => Ok (mk_cst _ (c_w _ s) (c_bank _ s) (c_send _ s) (c_on _ s) (Some b)) | None => Err end
  | OSwitch b => Ok (mk_cst _ (c_w _ s) (c_bank _ s) (c_send _ s) b (c_pair _ s))
  | OSend b => Ok (mk_cst _ (c_w _ s) (c_bank _ s) b (c_on _ s) (c_pair _ s))
  end.
Definition hexec (s : hst) (o : cop) : hst := match hstep s o with Ok s' => s' | _ => s end.
Fixpoint hrun (s : hst) (l : list cop) : hst := match l with [] => s | o :: r => hrun (hexec s o) r end.
(* nobody signs for the module's account or the escrow account; packets carry positive
   amounts *)
Definition signed (o : cop) : Prop :=
  match o with
  | OConvert f _ _ => f <> M
  | OTransfer a x => a <> M /\ a <> E
  | ORefund a x => a <> M /\ 0 < x
  | ORecv a x _ => a <> M /\ 0 < x
  | OPay f _ x => f <> M /\ f <> E /\ 0 <= x
  | OGive f _ x => f <> M /\ 0 <= x
  | _ => True
  end.
(* tokens sent to the module's account by hand *)
Definition gift (s : hst) (o : cop) : Z := match o with OGive f t x => if (t =? M) && is_ok (hstep s o) then x else 0 | _ => 0 end.
Fixpoint gifts (s : hst) (l : list cop) : Z := match l with [] => 0 | o :: r => gift s o + gifts (hexec s o) r end.
End Run.

(* balances are sorted maps of amounts that are not negative *)
Definition fine (m : list (Z * Z)) : Prop := zsorted m /\ forall a, 0 <= bget m a.
Definition good (s : hst) : Prop := fine (c_bank _ s) /\ fine (c_w _ s).
(* the module's account is not the escrow account and may not receive coins by itself;
   "Transfer" is not "Approval"; vesting holds back amounts that are not negative *)
Definition setting (M E : Z) (blocked : Z -> bool) (locked : Z -> Z) (approval : Z) : Prop :=
  M <> E /\ blocked M = true /\ approval <> 1 /\ forall a, 0 <= locked a.
