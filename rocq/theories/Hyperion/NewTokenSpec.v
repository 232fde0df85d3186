(* Which tokens a bridge can take, and under which symbol, for C119. *)
From Verif Require Import Lib.Base Lib.Zmap Hyperion.NewToken.
Open Scope Z_scope.

Definition latin (c : Z) : Prop := 65 <= c <= 90 \/ 97 <= c <= 122.
(* letters, digits, slash, colon, dot, underscore, dash *)
Definition usual (c : Z) : Prop := latin c \/ 48 <= c <= 57 \/ c = 47 \/ c = 58 \/ c = 46 \/ c = 95 \/ c = 45.
(* the text without its unusual characters *)
Inductive without_unusual : text -> text -> Prop :=
| wu_nil : without_unusual [] []
| wu_keep : forall c t u, usual c -> without_unusual t u -> without_unusual (c :: t) (c :: u)
| wu_drop : forall c t u, ~ usual c -> without_unusual t u -> without_unusual (c :: t) u.
(* the symbol under which a token appears: short ones get a prefix, and longer ones lose
   unusual characters and must start with a letter *)
Inductive shown_as : text -> text -> Prop :=
| sh_long : forall t c r, without_unusual t (c :: r) -> (2 <= length r)%nat -> latin c -> shown_as t (c :: r)
| sh_short : forall t, t <> [] -> (length t <= 2)%nat -> Forall usual t -> shown_as t (72 :: 69 :: 76 :: 45 :: t).
(* the deposit tells what the token is called *)
Definition told (d : data) (m : meta) : Prop :=
  d = Json (Some m) /\ m_symbol m <> [] /\ (length (m_symbol m) <= 30)%nat /\ (length (m_name m) <= 100)%nat /\ m_dec m <= 18.
(* 42 characters, all usual *)
Definition address_text (t : text) : Prop := length t = 42%nat /\ Forall usual t.
(* coins of contract c in account a *)
Definition credited (s s' : st) (c a n : Z) : Prop :=
  s_bal s' c a = s_bal s c a + n /\ s_sup s' c = s_sup s c + n /\
  (forall c' a', (c', a') <> (c, a) -> s_bal s' c' a' = s_bal s c' a') /\ (forall c', c' <> c -> s_sup s' c' = s_sup s c').
