(* A small world to run contracts in. *)
From Verif Require Import Lib.Base Lib.Bytes Evm.Words Evm.World Evm.Memory Evm.Table Evm.Interp.
Open Scope N_scope.

(* a stand-in for the hash *)
Definition xhash (l : bytes) : N := fold_left (fun h b => (h * 1009 + b + 7) mod W256) l 12345678901234567890.
Definition xcommitted (a k : N) : N := if (a =? 0xA1) && (k =? 9) then 42 else 0.
Definition xblock : block :=
  Block 0xE0 1 0xCB 1700000000 77 0 30000000 4242 0 (fun n => n).
Definition no_pre (a : N) : bool := false.
Definition pre_cost (a : N) (i : bytes) : N := 10.
Definition pre_nothing (ro : bool) (c a : N) (i : bytes) (g v : N) (w : world) : bytes * option verr * N * world := ([], None, 0, w).
Definition all2 (a b : N) : bool := true.
Definition all1 (a : N) : bool := true.

(* account 0xE0: a user with money; 0xA1: a contract *)
Definition user : acct := Acct 3 1000 (xhash []) [] (fun _ => 0) false.
Definition contract (c : bytes) : acct := Acct 1 50 (xhash c) c (xcommitted 0xA1) false.
Definition xworld (c : bytes) : world :=
  World (fun a => if a =? 0xE0 then Some user else if a =? 0xA1 then Some (contract c) else None)
    0 [] (fun a => (a =? 0xE0) || (a =? 0xA1)) (fun _ _ => false).

Definition run (c input : bytes) (gas v : N) : xres :=
  top_call xhash xcommitted xblock no_pre pre_cost pre_nothing all2 all1 (N.to_nat gas + 1) 0xE0 0xA1 input gas v (xworld c).
Definition deploy (init : bytes) (gas v : N) : xres :=
  top_create xhash xcommitted xblock no_pre pre_cost pre_nothing all2 all1 (N.to_nat gas + 1) 0xE0
    (create_address xhash 0xE0 3) init gas v (xworld []).

(* store 5 in slot 1, empty slot 9, return the call value *)
Definition storing : bytes := [0x60;5;0x60;1;0x55; 0x60;0;0x60;9;0x55; 0x34;0x60;0;0x52; 0x60;32;0x60;0;0xf3].
(* loop forever *)
Definition looping : bytes := [0x5b;0x60;0;0x56].
(* call oneself with all gas *)
Definition recursing : bytes := [0x60;0;0x60;0;0x60;0;0x60;0;0x60;0;0x30;0x5a;0xf1;0x60;0;0x52;0x60;32;0x60;0;0xf3].
(* destroy oneself in favour of oneself *)
Definition burning : bytes := [0x30;0xff].
(* destroy oneself in favour of account 0xBE *)
Definition leaving : bytes := [0x60;0xBE;0xff].
(* call 0xA2 statically *)
Definition asking : bytes := [0x60;0;0x60;0;0x60;0;0x60;0;0x60;0xA2;0x5a;0xfa;0x60;0;0x52;0x60;32;0x60;0;0xf3].
(* init code that stores 7 in slot 0 and deploys the one byte contract [0] *)
Definition initing : bytes := [0x60;7;0x60;0;0x55; 0x60;1;0x60;0;0xf3].

Definition gas_of (r : xres) : option N := match r with XOut o => Some (o_gas o) | _ => None end.
Definition err_of (r : xres) : option verr := match r with XOut o => o_err o | _ => None end.
Definition ret_of (r : xres) : bytes := match r with XOut o => o_ret o | _ => [] end.
Definition world_of (r : xres) : world := match r with XOut o => o_world o | _ => xworld [] end.
Definition is_out (r : xres) : bool := match r with XOut _ => true | _ => false end.
Lemma is_out_ex r : is_out r = true -> exists o, r = XOut o.
Proof. destruct r as [o| |]; [eauto|discriminate..]. Qed.
