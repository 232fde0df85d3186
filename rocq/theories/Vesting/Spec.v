(* Independent description of schedules: a list of dated releases. *)
From Verif Require Import Lib.Base Lib.Bytes Lib.Coins Vesting.Model.
Open Scope Z_scope.

(* the releases of a schedule with their dates *)
Fixpoint releases (from : Z) (ps : periods) : list (Z * coins) :=
  match ps with [] => [] | p :: q => (from + plen p, pamt p) :: releases (from + plen p) q end.
(* amount of denomination d released by time t: nothing at or before the start *)
Fixpoint due (rs : list (Z * coins)) (t : Z) (d : bytes) : Z :=
  match rs with [] => 0 | (e, c) :: q => (if e <=? t then amt c d else 0) + due q t d end.
Definition released (start : Z) (ps : periods) (t : Z) (d : bytes) : Z :=
  if t <=? start then 0 else due (releases start ps) t d.
(* sum of all amounts *)
Fixpoint sum_of (ps : periods) (d : bytes) : Z := match ps with [] => 0 | p :: q => amt (pamt p) d + sum_of q d end.

(* a schedule: lengths are not negative, amounts are valid coins *)
Definition schedule_ok (ps : periods) : Prop := Forall (fun p => 0 <= plen p /\ cvalid (pamt p)) ps.
(* the total handed to a read is the total of the periods *)
Definition total_is (ps : periods) (c : coins) : Prop := cvalid c /\ forall d, amt c d = sum_of ps d.

(* an account whose two schedules both describe the original grant *)
Definition account_ok (v : vacc) : Prop :=
  schedule_ok (v_lockup v) /\ schedule_ok (v_vesting v) /\
  total_is (v_lockup v) (v_orig v) /\ total_is (v_vesting v) (v_orig v) /\
  v_start v + total_length (v_lockup v) <= v_end v /\ v_start v + total_length (v_vesting v) <= v_end v /\
  cvalid (v_deleg v).

(* a schedule that releases nothing at its very start *)
Definition starts_later (ps : periods) : Prop := match ps with [] => True | p :: _ => 0 < plen p end.
(* t is not the start of a later-starting schedule that releases at its very start *)
Definition off_start (t s other : Z) (ps : periods) : Prop := t = s -> other < s -> starts_later ps.

(* a schedule read on its own *)
Definition read_alone (s : Z) (ps : periods) (t : Z) : coins := read_schedule s (s + total_length ps) ps (total_amount ps) t.
