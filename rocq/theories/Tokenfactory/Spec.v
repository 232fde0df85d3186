(* Vocabulary of the claims about coins made by users. *)
From Verif Require Import Lib.Base Lib.Bytes Lib.Kv Lib.Coins Tokenfactory.Model.
Open Scope Z_scope.

(* what the text form of addresses must satisfy: letters and digits, never empty; the
   text of an account reads back as that account, and is as long as its other texts.  Several texts may stand for the
   same account (bech32 may be written in upper case). *)
Definition address_format (dec : bytes -> option Z) (enc : Z -> bytes) : Prop :=
  (forall c a, dec c = Some a -> c <> [] /\ forallb (fun x => is_letter x || is_digit x) c = true) /\
  (forall c a, dec c = Some a -> dec (enc a) = Some a) /\
  (forall c a, dec c = Some a -> length (enc a) = length c).

(* vesting holds back nothing negative, and nothing of the module account *)
Definition env_ok (M : Z) (e : env) : Prop :=
  (forall a d, 0 <= e_locked e a d) /\ (forall d, e_locked e M d = 0).

(* the sum of the balances over a list of accounts *)
Fixpoint total (b : Z -> bytes -> Z) (d : bytes) (l : list Z) : Z :=
  match l with [] => 0 | a :: r => b a d + total b d r end.
(* the supply is the sum of all balances *)
Definition backed (s : st) (d : bytes) : Prop :=
  exists l, NoDup l /\ (forall a, ~ In a l -> f_bal s a d = 0) /\ total (f_bal s) d l = f_sup s d.

Section Factory.
Variables (dec : bytes -> option Z) (enc : Z -> bytes) (M P : Z) (gov : bytes).

(* a coin of the factory: its name has the form factory/account/name *)
Definition is_factory (d : bytes) : Prop := deconstruct dec enc d <> None.

(* a chain before anybody used the factory *)
Definition initial (s : st) : Prop :=
  f_store s = [] /\ cvalid (f_fee s) /\ forallb (fun '(d, _) => valid_denom d) (f_fee s) = true /\ ksorted (f_meta s) /\
  (forall d m, kget (f_meta s) d = Some m -> m_base m = d) /\
  (forall a d, 0 <= f_bal s a d) /\ (forall d, backed s d) /\
  forall d, is_factory d -> kget (f_meta s) d = None /\ f_sup s d = 0.
(* a chain after any history *)
Definition reachable (s : st) : Prop :=
  exists s0 l, initial s0 /\ Forall (fun q => env_ok M (fst q)) l /\ s = runs dec enc M P gov s0 l.

(* the coin has been created and who controls it *)
Definition controlled_by (s : st) (d c : bytes) : Prop := get_admin s d = c /\ c <> [].

(* what accepted mints and burns of a coin add up to over a history *)
Definition net1 (d : bytes) (o : op) : Z :=
  match o with
  | OMint _ d' x => if beqb d' d then x else 0
  | OBurn _ d' x => if beqb d' d then - x else 0
  | _ => 0
  end.
Fixpoint net (s : st) (l : list (env * op)) (d : bytes) : Z :=
  match l with
  | [] => 0
  | (e, o) :: r =>
      (if is_ok (run dec enc M P gov e s o) then net1 d o else 0) + net (step dec enc M P gov e s o) r d
  end.
End Factory.

(* an instance: account n (0 to 9) is written hn or Hn *)
Definition toy_dec (c : bytes) : option Z :=
  match c with
  | [x; y] => if ((x =? 104) || (x =? 72))%N && is_digit y then Some (Z.of_N y - 48) else None
  | _ => None
  end.
Definition toy_enc (a : Z) : bytes := [104; Z.to_N (48 + a)]%N.
Lemma toy_format : address_format toy_dec toy_enc.
Proof.
  unfold address_format, toy_dec, toy_enc. split; [|split]; intros c a E; destruct c as [|x [|y [|z c]]]; try discriminate E.
  - split; [discriminate|]. destruct (((x =? 104) || (x =? 72))%N && is_digit y) eqn:C; [|discriminate E].
    apply andb_prop in C as [C1 C2]. cbn [forallb]. rewrite C2, orb_true_r, !andb_true_r. unfold is_letter, is_digit. lia.
  - destruct (((x =? 104) || (x =? 72))%N && is_digit y) eqn:C; [|discriminate E]. injection E as <-.
    apply andb_prop in C as [_ C]. unfold is_digit in *.
    replace (Z.to_N (48 + (Z.of_N y - 48))) with y by lia. rewrite C. reflexivity.
  - reflexivity.
Qed.
