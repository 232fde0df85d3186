(* What a run that ends without an error may have done to the world: a tree of
   primitive effects, each by the account on whose behalf the code runs.  The
   theorems about the interpreter are inductions over these trees. *)
From Coq Require Import NArith Nnat.
From Verif Require Import Lib.Base Lib.Bytes Evm.Words Evm.World Evm.Memory Evm.Table Evm.Interp Evm.MemoryProofs.
Open Scope N_scope.

Section Effects.
Variable keccak : bytes -> N.
Variable committed : N -> N -> N.
Variable is_pre : N -> bool.
Variable pre_run : bool -> N -> N -> bytes -> N -> N -> world -> bytes * option verr * N * world.

Let add_balance := add_balance keccak committed.
Let set_nonce := set_nonce keccak committed.

(* money sent along with a call; the account of the receiver is made if missing *)
Definition send (w : world) (s a v : N) : world :=
  transfer keccak committed (if exist w a then w else create_account keccak committed w a) s a v.
(* value can be sent only outside static calls and by those who have it *)
Definition may_send (ro : bool) (w : world) (s v : N) : Prop := v = 0 \/ (ro = false /\ can_transfer w s v = true).

(* effects ro s w w': read only?, acting account, world before, world after *)
Inductive effects : bool -> N -> world -> world -> Prop :=
| E_refl ro s w : effects ro s w w
| E_trans ro s w1 w2 w3 : effects ro s w1 w2 -> effects ro s w2 w3 -> effects ro s w1 w3
| E_warm ro s w a : effects ro s w (warm w a)
| E_slot ro s w k : effects ro s w (warm_slot w s k)
| E_store s w k v c w1 : w_refund w + 19900 < U64 -> sstore_gas committed s k v w = Ok (c, w1) ->
    effects false s w (set_state keccak committed w1 s k v)
| E_log s w topics d : effects false s w (add_log w (Log s topics d))
| E_destroy s w ben : effects false s w (suicide (add_balance w ben (balance w s)) s)
| E_pay ro s w a v : may_send ro w s v -> effects ro s w (send w s a v)
| E_call ro s w a v w2 : may_send ro w s v -> code (send w s a v) a <> [] ->
    effects ro a (send w s a v) w2 -> effects ro s w w2
| E_touch ro s w a : effects ro s w (add_balance w a 0)
| E_static ro s w a w2 : code w a <> [] -> effects true a (add_balance w a 0) w2 -> effects ro s w w2
| E_pre ro pro s w a input g v ret used w2 : is_pre a = true ->
    pre_run pro s a input g v w = (ret, None, used, w2) -> effects ro s w w2
| E_bump s w a : nonce w s + 1 < U64 -> effects false s w (warm (set_nonce w s (nonce w s + 1)) a)
| E_create s w l v c w2 : let a := to_addr (keccak l) in
    nonce w a = 0 -> (code_hash w a = 0 \/ code_hash w a = empty_hash keccak) ->
    can_transfer w s v = true -> is_bytes c -> blen c <= 24576 -> hd 0 c <> 0xEF ->
    effects false a (new_contract keccak committed w s a v) w2 ->
    effects false s w (set_code keccak committed w2 a c).
End Effects.
