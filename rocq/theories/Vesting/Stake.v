(* Model of x/staking/keeper/msg_server.go: delegations of clawback vesting accounts,
   together with the vesting keeper.  The staking and bank modules behind it are the
   Cosmos SDK's (external); of them only the coins of the delegator are modelled. *)
From Verif Require Import Lib.Base Lib.Bytes Lib.Coins Vesting.Model Vesting.Keeper.
Open Scope Z_scope.

Record sst := Sst { st_g : gst; st_staked : addr -> bytes -> Z }.

Inductive sevent :=
| SKeep (e : event)                              (* what C51 - C53 are about *)
| SDelegate (a : addr) (d : bytes) (x : Z) (t : Z)  (* MsgDelegate, also through the staking contract, and the self-delegation of MsgCreateValidator *)
| SReturn (a : addr) (d : bytes) (x : Z)         (* coins come back when an unbonding ends *)
| SSlash (a : addr) (d : bytes) (x : Z).         (* staked coins are burnt *)

Section Stake.
Variable authority : addr.
Variable distr : addr.
Variable blocked : addr -> bool.
Variable is_contract : addr -> bool.
Variable bond : bytes.                  (* the bond denomination *)
Variable stakeable : bytes -> bool.     (* the staking module accepts the coin: the bond coin, or a voted asset (C111) *)

(* msg_server.go:61-117 validateDelegationAmountNotUnvested *)
Definition not_unvested (s : kst) (a : addr) (x : Z) (t : Z) : res unit :=
  match accs s a with
  | None => Err
  | Some (Vest v) =>
      rbind (vesting v t) (fun u =>
        let free := amt (bank s a) bond - amt u bond in
        let delegatable := if free <? 0 then 0 else free in
        if delegatable <? x then Err else Ok tt)
  | Some _ => Ok tt
  end.

(* cosmos-sdk bank DelegateCoins (external): the whole balance counts, locked or not *)
Definition delegate_coins (s : kst) (a : addr) (d : bytes) (x : Z) : res kst :=
  if amt (bank s a) d <? x then Err
  else
    let s1 := set_bank s a (fst (csafe_sub (bank s a) [(d, x)])) in
    match accs s a with
    | Some (Vest v) => rbind (track_delegation v (bank s a) [(d, x)]) (fun v' => Ok (set_acc s1 a (Vest v')))
    | _ => Ok s1
    end.

(* cosmos-sdk BaseVestingAccount.TrackUndelegation (external) without DelegatedVesting *)
Definition track_undelegation (v : vacc) (d : bytes) (x : Z) : vacc :=
  Vacc (v_funder v) (v_orig v) (fst (csafe_sub (v_deleg v) (keep d (Z.min (amt (v_deleg v) d) x) [])))
       (v_start v) (v_end v) (v_lockup v) (v_vesting v).

Definition add_staked (f : addr -> bytes -> Z) (a : addr) (d : bytes) (x : Z) : addr -> bytes -> Z :=
  fun b e => if N.eqb b a && beqb e d then f b e + x else f b e.

(* msg_server.go:35-41 Delegate, 46-57 CreateValidator; the amount of a message is positive *)
Definition delegate (s : sst) (a : addr) (d : bytes) (x : Z) (t : Z) : res sst :=
  if x <=? 0 then Err
  else rbind (not_unvested (ks (st_g s)) a x t) (fun _ =>
    if negb (stakeable d) then Err
    else rbind (delegate_coins (ks (st_g s)) a d x) (fun k =>
      Ok (Sst (Gst k (live (st_g s))) (add_staked (st_staked s) a d x)))).

Definition give_back (s : sst) (a : addr) (d : bytes) (x : Z) : sst :=
  if (0 <? x) && (x <=? st_staked s a d) then
    let k := ks (st_g s) in
    let k1 := set_bank k a (cadd (bank k a) [(d, x)]) in
    let k2 := match accs k a with Some (Vest v) => set_acc k1 a (Vest (track_undelegation v d x)) | _ => k1 end in
    Sst (Gst k2 (live (st_g s))) (add_staked (st_staked s) a d (- x))
  else s.

Definition sstep (s : sst) (e : sevent) : sst :=
  match e with
  | SKeep e => Sst (gstep authority distr blocked is_contract (st_g s) e) (st_staked s)
  | SDelegate a d x t => match delegate s a d x t with Ok s' => s' | _ => s end
  | SReturn a d x => give_back s a d x
  | SSlash a d x => if (0 <? x) && (x <=? st_staked s a d) then Sst (st_g s) (add_staked (st_staked s) a d (- x)) else s
  end.
Definition srun (s : sst) (es : list sevent) : sst := fold_left sstep es s.
End Stake.
