(* What storing a logo means, for C118. *)
From Verif Require Import Lib.Base Lib.Zmap Logos.Model.
Open Scope Z_scope.

(* base64 as in RFC 4648, section 4 *)
Definition letter (i : Z) : Z := if i <? 26 then 65 + i else if i <? 52 then 71 + i else if i <? 62 then i - 4 else if i =? 62 then 43 else 47.
Fixpoint encode (b : list Z) : list Z :=
  match b with
  | [] => []
  | [x] => [letter (x / 4); letter (x mod 4 * 16); 61; 61]
  | [x; y] => [letter (x / 4); letter (x mod 4 * 16 + y / 16); letter (y mod 16 * 4); 61]
  | x :: y :: z :: r => letter (x / 4) :: letter (x mod 4 * 16 + y / 16) :: letter (y mod 16 * 4 + z / 64) :: letter (z mod 64) :: encode r
  end.
Definition bytes (b : list Z) : Prop := Forall (fun x => 0 <= x < 256) b.
(* texts that a lenient reader takes for these bytes: spare bits before the padding are free *)
Inductive spells : list Z -> list Z -> Prop :=
| sp_nil : spells [] []
| sp_one : forall x e, 0 <= x < 256 -> 0 <= e < 16 -> spells [letter (x / 4); letter (x mod 4 * 16 + e); 61; 61] [x]
| sp_two : forall x y e, 0 <= x < 256 -> 0 <= y < 256 -> 0 <= e < 4 ->
    spells [letter (x / 4); letter (x mod 4 * 16 + y / 16); letter (y mod 16 * 4 + e); 61] [x; y]
| sp_three : forall x y z t b, 0 <= x < 256 -> 0 <= y < 256 -> 0 <= z < 256 -> spells t b ->
    spells (letter (x / 4) :: letter (x mod 4 * 16 + y / 16) :: letter (y mod 16 * 4 + z / 64) :: letter (z mod 64) :: t) (x :: y :: z :: b).
(* a text with line ends anywhere *)
Inductive broken : list Z -> list Z -> Prop :=
| br_nil : broken [] []
| br_end : forall c t u, c = 10 \/ c = 13 -> broken t u -> broken (c :: t) u
| br_keep : forall c t u, c <> 10 -> c <> 13 -> broken t u -> broken (c :: t) (c :: u).
Definition reads_as (t b : list Z) : Prop := exists u, broken t u /\ spells u b.

(* a stored logo is what its hash says and a PNG image of 200 by 200 of at most m bytes *)
Definition fine (sha : list Z -> Z) (png : list Z -> option (Z * Z)) (m k : Z) (g : logo) : Prop :=
  g_hash g = k /\ k = sha (g_data g) /\ exists b, reads_as (g_data g) b /\ png b = Some (200, 200) /\ Z.of_nat (length b) <= m.
(* the limits set by governance during the history *)
Definition limits_within (m : Z) (os : list op) : Prop := Forall (fun o => match o with SetMax true x => 0 <= x <= m | _ => True end) os.
(* the largest text accepted: a third more than the image, rounded down *)
Definition room (m : Z) : Z := 4 * m / 3.
