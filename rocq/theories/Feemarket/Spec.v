(* What EIP-1559 with an 18-decimal fee and a floor on decreases means, stated
   without reference to the model.  Fees are in units of 10^-18. *)
From Verif Require Import Lib.Base Feemarket.Model.
Open Scope Z_scope.

(* change of a fee b when gas usage is delta away from the target *)
Definition eip1559_change (b delta target denom : Z) : Z :=
  (b * delta) / (target * denom).

Definition eip1559_next (b used target denom floor : Z) : Z :=
  if used =? target then b
  else if used >? target
       then b + Z.max (eip1559_change b (used - target) target denom) (10 ^ 18)
       else Z.max (b - eip1559_change b (target - used) target denom) floor.

(* a block whose inputs fit their Go types and whose gas target is not zero *)
Definition block_ok (p : params) (b : block) : Prop :=
  0 <= b_wanted b /\ 0 <= b_used b /\
  (forall x, b_max_gas b = Some x -> x <= 2 ^ 63 - 1) /\
  0 < (match b_max_gas b with
       | Some x => if -1 <? x then x else 2 ^ 64 - 1
       | None => 2 ^ 64 - 1 end) / elasticity p.
