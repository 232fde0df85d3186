(* What issuing and destroying should do, for C125. *)
From Verif Require Import Lib.Base Hyperion.Issue.
Open Scope Z_scope.

(* from b to b', account a has d more and the supply is larger by d; all else is the same *)
Definition only (a d : Z) (b b' : bank) : Prop := k_bal b' a = k_bal b a + d /\ k_supply b' = k_supply b + d /\ forall x, x <> a -> k_bal b' x = k_bal b x.
Definition same (b b' : bank) : Prop := k_supply b' = k_supply b /\ forall x, k_bal b' x = k_bal b x.
Definition sum (f : Z -> Z) (l : list Z) : Z := fold_right (fun a s => f a + s) 0 l.
(* the accounts of a list are all there is: no debts, and together they have the supply *)
Definition sound (l : list Z) (b : bank) : Prop := (forall x, 0 <= k_bal b x) /\ sum (k_bal b) l = k_supply b.
Definition m_acc (m : msg) : Z := match m with Mint _ _ _ _ a | Burn _ _ _ _ a => a end.
Definition m_ok (m : msg) : Prop := match m with Mint e f n _ _ | Burn e f n _ _ => e = true /\ f = true /\ n = false end.
Definition m_n (m : msg) : Z := match m with Mint _ _ _ n _ | Burn _ _ _ n _ => n end.
