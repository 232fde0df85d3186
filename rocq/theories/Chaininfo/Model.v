(* What the chain says about its coin: x/chaininfo/keeper/grpc_query.go. *)
From Verif Require Import Lib.Base.
Open Scope Z_scope.

(* ---- cosmossdk.io/math LegacyDec: a number of 10^-18; None is the zero value of the Go
   type, which has no number in it and panics when it is computed with ---- *)
Definition one : Z := 10 ^ 18.
Definition dec := option Z.
(* chopPrecisionAndRound: half to even *)
Definition chop_pos (x : Z) : Z :=
  let q := x / one in let r := x mod one in
  if r <? one / 2 then q else if one / 2 <? r then q + 1 else if Z.even q then q else q + 1.
Definition chop (x : Z) : Z := if x <? 0 then - chop_pos (- x) else chop_pos x.
Definition bind {A B} (x : res A) (f : A -> res B) : res B := match x with Ok a => f a | Err => Err | Panic => Panic end.
(* at most 315 bits *)
Definition checked (x : Z) : res dec := if Z.abs x <? 2 ^ 315 then Ok (Some x) else Panic.
Definition dmul (x y : dec) : res dec := match x, y with Some a, Some b => checked (chop (a * b)) | _, _ => Panic end.
Definition dquo (x y : dec) : res dec :=
  match x, y with Some a, Some b => if b =? 0 then Panic else checked (chop (Z.quot (a * (one * one)) b)) | _, _ => Panic end.
Definition dadd (x y : dec) : res dec := match x, y with Some a, Some b => checked (a + b) | _, _ => Panic end.
Definition of_int (n : Z) : dec := Some (n * one).
(* TruncateInt *)
Definition trunc (x : dec) : res Z := match x with Some a => Ok (Z.quot a one) | None => Panic end.

(* grpc_query.go:17-20 *)
Definition blocks_per_year : Z := 60 * 60 * 24 * 365 / 5.

(* What is read of the other modules: the bond denomination and the minter, unless that fails;
   the rates, without a number if reading them fails (the error is ignored, 104-107); the
   thresholds of the mint module in base units, which are constants of the forked SDK. *)
Record minter := mk_minter { mi_provisions : Z; mi_inflation : Z }.
Record chain := mk_chain {
  c_denom : bool; c_supply : Z; c_minter : option minter; c_height : Z;
  c_early : dec; c_growth : dec; c_mature : dec; c_post : dec }.
Record info := mk_info {
  i_supply : Z; i_per_block : Z; i_rewards : Z; i_genesis : Z; i_inflation : Z; i_per_year : Z; i_height : Z }.

Section Code.
Variables t1 t2 t3 : Z.

(* grpc_query.go:113-115: the rewards of a phase per block *)
Definition per_block (t : Z) (rate : dec) : res dec := bind (dmul (of_int t) rate) (fun y => dquo y (of_int blocks_per_year)).
(* grpc_query.go:145-148: the loop over the phases *)
Fixpoint sum_phases (total : dec) (blocks supply : dec) (l : list (Z * dec)) : res dec :=
  match l with
  | [] => Ok total
  | (s, r) :: l' =>
      bind (dquo (of_int s) supply) (fun ratio =>
      bind (dmul r blocks) (fun a => bind (dmul a ratio) (fun b =>
      bind (dadd total b) (fun total' => sum_phases total' blocks supply l'))))
  end.
(* grpc_query.go:94-158 calculateRewardsSinceGenesis *)
Definition rewards (c : chain) (supply blocks : Z) : res Z :=
  if supply =? 0 then Ok 0 else
  bind (per_block t1 (c_early c)) (fun e => bind (per_block t2 (c_growth c)) (fun g => bind (per_block t3 (c_mature c)) (fun m =>
  if supply <? t1 then bind (dmul e (of_int blocks)) trunc else
  let phases :=
    if supply <? t2 then [(t1, e); (supply - t1, g)]
    else if supply <? t3 then [(t1, e); (t2 - t1, g); (supply - t2, m)]
    else [(t1, e); (t2 - t1, g); (t3 - t2, m)] in
  bind (sum_phases None (of_int blocks) (of_int supply) phases) (fun total =>
  if t3 <=? supply then
    bind (per_block supply (c_post c)) (fun p => bind (dquo (of_int (supply - t3)) (of_int supply)) (fun ratio =>
    bind (dmul p (of_int blocks)) (fun a => bind (dmul a ratio) (fun b => bind (dadd total b) trunc))))
  else trunc total)))).

(* grpc_query.go:22-92 CoinInfo; the date, the text "live" and the genesis height 0 are left
   out *)
Definition coin_info (c : chain) : res info :=
  if negb (c_denom c) then Err else
  if c_supply c =? 0 then Ok (mk_info 0 0 0 0 0 0 (c_height c)) else
  match c_minter c with
  | None => Err
  | Some mi =>
      bind (bind (dquo (Some (mi_provisions mi)) (of_int blocks_per_year)) trunc) (fun r =>
      bind (rewards c (c_supply c) (Z.max 0 (c_height c))) (fun w =>
      let g := if w <? c_supply c then c_supply c - w else Z.quot (c_supply c) 2 in
      bind (checked (mi_inflation mi * 100)) (fun i =>
      match i with
      | None => Panic
      | Some i => Ok (mk_info (c_supply c) r w g i (Z.quot (mi_provisions mi) one) (c_height c))
      end)))
  end.
End Code.
