(* What the numbers about the coin mean, for C120. *)
From Verif Require Import Lib.Base Chaininfo.Model.
Open Scope Z_scope.

(* the whole number next to n / d, the even one if two are equally near *)
Definition nearest (n d q : Z) : Prop := 2 * Z.abs (q * d - n) < d \/ (2 * Z.abs (q * d - n) = d /\ Z.Even q).
(* the whole part of x * 10^-18 *)
Definition whole (x n : Z) : Prop := n * 10 ^ 18 <= x < (n + 1) * 10 ^ 18.
(* 365 days of blocks of five seconds *)
Definition year : Z := 6307200.
(* a chain on which everything can be read, with numbers of ordinary size *)
Definition ordinary (c : chain) (mi : minter) (e g m : Z) : Prop :=
  c_denom c = true /\ c_minter c = Some mi /\ c_early c = Some e /\ c_growth c = Some g /\ c_mature c = Some m /\
  0 <= e <= 10 ^ 18 /\ 0 <= g <= 10 ^ 18 /\ 0 <= m <= 10 ^ 18 /\
  0 <= c_height c < 2 ^ 63 /\ 0 <= mi_provisions mi < 2 ^ 200 /\ 0 <= mi_inflation mi < 2 ^ 64.
