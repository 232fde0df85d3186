(** What the list of stakeable assets promises, in words of its own. *)
From Verif Require Import Lib.Base Lib.Bytes Lib.Kv Assets.Model.
From Coq Require Import NArith QArith.
Open Scope Z_scope.

(** ** Weights *)

(** The three sizes of a change, in percent. *)
Definition percent (m : magnitude) : Z :=
  match m with Small => 5 | Medium => 15 | High => 30 | OtherMagnitude => 0 end.

(** By how much a weight changes: by one below ten, by that part of it,
    rounded down, from ten on. *)
Definition change (w : Z) (m : magnitude) : Z := if w <? 10 then 1 else w * percent m / 100.

Definition changed (w : Z) (m : magnitude) (r : direction) : Z :=
  match r with Up => w + change w m | Down => w - change w m | OtherDirection => w end.

(** ** What anybody can see *)

Definition listed (st : state) (d : bytes) (a : asset) : Prop := kget (s_list st) d = Some a.
Definition unlisted (st : state) (d : bytes) : Prop := kget (s_list st) d = None.

(** An asset that can be staked now. *)
Definition active (st : state) (d : bytes) : Prop :=
  exists a, listed st d a /\ a_archived a = false.

(** Nothing differs for other assets. *)
Definition same_but (d : bytes) (st st' : state) : Prop :=
  forall x, x <> d -> kget (s_list st') x = kget (s_list st) x.

(** The only asset concerned by an action on a single one, if it is one. *)
Definition about (x : action) : list bytes :=
  match x with
  | MsgAdd _ l | TextAdd _ _ l => map fst l
  | MsgRemove _ l | TextRemove _ _ l => l
  | MsgUpdate _ l | TextUpdate _ _ l => map u_denom l
  end.

(** Who stands behind an action: a message says so; a proposal text only gets
    here by a vote. *)
Definition by_governance (gov : bytes) (x : action) : Prop :=
  match x with
  | MsgAdd f _ | MsgRemove f _ | MsgUpdate f _ => f = gov
  | TextAdd _ _ _ | TextRemove _ _ _ | TextUpdate _ _ _ => True
  end.

(** Every asset an action adds has a positive weight below 2^48. *)
Definition sane_weight (w : Z) : Prop := 1 <= w < 2 ^ 48.
Definition adds_sane (x : action) : Prop :=
  match x with
  | MsgAdd _ l | TextAdd _ _ l => Forall (fun p => sane_weight (a_weight (snd p))) l
  | _ => True
  end.

(** ** Voting power *)

(** What a call to the staking module asks for: by which factor the power of
    everything staked of the asset is to be multiplied.  An increase or
    decrease by a share, or, when the former weight is given, back to weight
    one (the comments at whitelist.go:119 and 153-155). *)
Definition asked (c : call) : Q :=
  if c_from c =? 0 then
    if c_up c then (1 + (c_percent c # 10 ^ 18))%Q else (1 - (c_percent c # 10 ^ 18))%Q
  else (1 / inject_Z (c_from c))%Q.

(** The factor all calls so far ask for. *)
Fixpoint factor (l : list call) (d : bytes) : Q :=
  match l with
  | [] => 1
  | c :: l' => if beqb (c_denom c) d then (asked c * factor l' d)%Q else factor l' d
  end.

(** The power of what is staked is in step with the weights, when [w0] was the
    weight at the time of staking. *)
Definition in_step (w0 : bytes -> Z) (st : state) : Prop :=
  (forall d a, listed st d a -> (factor (s_calls st) d * inject_Z (w0 d) == inject_Z (a_weight a))%Q) /\
  (forall d, unlisted st d -> (factor (s_calls st) d == 1)%Q).

Definition set_w0 (w0 : bytes -> Z) (d : bytes) (w : Z) : bytes -> Z :=
  fun x => if beqb x d then w else w0 x.
