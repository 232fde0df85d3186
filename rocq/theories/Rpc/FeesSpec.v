(* What the fee history should say. *)
From Verif Require Import Lib.Base Rpc.Fees.
Open Scope Z_scope.

(* gas of the messages that offered at most that tip *)
Definition total (l : list (Z * Z)) : Z := fold_right Z.add 0 (map fst l).
Definition gas_up_to (l : list (Z * Z)) (tip : Z) : Z := total (filter (fun x => snd x <=? tip) l).
(* r is the least tip offered such that messages offering up to r used thr gas;
   the highest tip if all of them used less *)
Definition quantile (l : list (Z * Z)) (thr r : Z) : Prop :=
  (exists g, In (g, r) l) /\
  (thr <= gas_up_to l r \/ forall x, In x l -> snd x <= r) /\
  (forall x, In x l -> snd x < r -> gas_up_to l (snd x) < thr).

(* thresholds in order *)
Fixpoint ascending (l : list Z) : Prop :=
  match l with a :: (b :: _) as r => a <= b /\ ascending r | _ => True end.

(* the blocks an answer is about: count blocks up to lst, or the newest one if
   lst is negative, but none before block 0 *)
Definition last_asked (hd lst : Z) : Z := if lst <? 0 then hd else lst.
Definition number_asked (hd count lst : Z) : Z := Z.min count (last_asked hd lst + 1).
Definition first_asked (hd count lst : Z) : Z := last_asked hd lst + 1 - number_asked hd count lst.
