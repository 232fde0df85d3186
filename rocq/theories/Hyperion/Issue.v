(* Issuing and destroying a bridged token by hand: x/hyperion/keeper/tokens.go 157-193 and
   msg_server_testnet.go 442-498. One token. *)
From Verif Require Import Lib.Base.
Open Scope Z_scope.

Record bank := mk_bank { k_bal : Z -> Z; k_supply : Z }.
Definition add (f : Z -> Z) (a n : Z) : Z -> Z := fun x => if x =? a then f x + n else f x.
Inductive msg := Mint (entitled found native : bool) (n to : Z) | Burn (entitled found native : bool) (n by_ : Z).

Section Issue.
Variable module_acc : Z.
Variable blocked : Z -> bool.   (* accounts that take nothing from modules *)

(* The bank of the SDK (not in the repository): an operation that fails changes nothing. *)
Definition mint_coins (b : bank) (n : Z) : option bank := Some (mk_bank (add (k_bal b) module_acc n) (k_supply b + n)).
Definition burn_coins (b : bank) (n : Z) : option bank := if k_bal b module_acc <? n then None else Some (mk_bank (add (k_bal b) module_acc (- n)) (k_supply b - n)).
Definition send (b : bank) (x y n : Z) : option bank := if k_bal b x <? n then None else Some (mk_bank (add (add (k_bal b) x (- n)) y n) (k_supply b)).
Definition from_module (b : bank) (y n : Z) : option bank := if blocked y then None else send b module_acc y n.
(* the error of the operation is not looked at *)
Definition ignore (b : bank) (r : option bank) : bank := match r with Some b' => b' | None => b end.

Definition step (b : bank) (m : msg) : res bank :=
  match m with
  (* msg_server_testnet.go:442-469 MintToken; tokens.go:157-174. sdk.NewCoin panics below zero. *)
  | Mint entitled found native n to =>
      if negb entitled then Err else if negb found then Err else if native then Err else if n <? 0 then Panic else
      let b1 := ignore b (mint_coins b n) in Ok (ignore b1 (from_module b1 to n))
  (* msg_server_testnet.go:471-498 BurnToken; tokens.go:176-193 *)
  | Burn entitled found native n by_ =>
      if negb entitled then Err else if negb found then Err else if native then Err else if n <? 0 then Panic else
      let b1 := ignore b (send b by_ module_acc n) in Ok (ignore b1 (burn_coins b1 n))
  end.
(* a failed message changes nothing *)
Definition next (b : bank) (m : msg) : bank := match step b m with Ok b' => b' | _ => b end.
Definition run (b : bank) (l : list msg) : bank := fold_left next l b.
End Issue.
