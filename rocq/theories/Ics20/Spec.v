(** What the ICS-20 contract's approvals should mean, without its helpers. *)
From Verif Require Import Lib.Base Lib.Bytes Lib.Coins Ics20.Model.
From Coq Require Import NArith.
Open Scope Z_scope.

(** The allocation [e] holds from [r] for a port and channel. *)
Definition at_place (g : grants) (e r : addr) (p c : bytes) (a : alloc) : Prop :=
  exists x l, g e r = Some x /\ g_allocs x = Some l /\ In a l /\ al_port a = p /\ al_chan a = c.

(** How much of a token [e] may still send out of [r]'s transactions through a
    port and channel: nothing without an allocation. *)
Definition limit (g : grants) (e r : addr) (p c d : bytes) : Z :=
  match g e r with
  | Some (Grant (Some l) _) =>
      match find (fun a => beqb (al_port a) p && beqb (al_chan a) c) l with
      | Some a => amt (al_limit a) d
      | None => 0
      end
  | _ => 0
  end.

(** An approval that has not ended. *)
Definition alive (g : grants) (now : Z) (e r : addr) : Prop :=
  exists x, g e r = Some x /\ match g_exp x with Some t => now <= t | None => True end.

(** Every stored approval names a channel once, with sorted positive limits. *)
Definition well_formed (x : grant) : Prop :=
  match g_allocs x with
  | Some l => NoDup (map al_chan l) /\ Forall (fun a => cvalid (al_limit a)) l
  | None => True
  end.

Definition all_well_formed (g : grants) : Prop :=
  forall e r x, g e r = Some x -> well_formed x.

(** The approvals agree except perhaps in one place. *)
Definition only_at (e r : addr) (g g' : grants) : Prop :=
  forall e' r', (e', r') <> (e, r) -> g' e' r' = g e' r'.

(** A call that may let [e] send more of that token there: [r] approves anew or
    raises that very limit. *)
Definition raises (e r : addr) (p c d : bytes) (v : env) (k : call) : Prop :=
  e_origin v = r /\
  match k with
  | Approve e' _ => e' = e
  | Increase e' p' c' d' _ => e' = e /\ p' = p /\ c' = c /\ d' = d
  | _ => False
  end.

(** What [e] sent of that token there in [r]'s transactions, by calls that got
    past writing off the approval. *)
Definition counts (e r : addr) (p c d : bytes) (x : sent) : bool :=
  ((v_caller x =? e) && (v_origin x =? r))%N &&
  (beqb (t_port (v_msg x)) p && beqb (t_chan (v_msg x)) c && beqb (t_denom (v_msg x)) d)
  && v_settled x.

Definition total (e r : addr) (p c d : bytes) (log : list sent) : Z :=
  fold_right (fun x n => (if counts e r p c d x then t_amount (v_msg x) else 0) + n) 0 log.

Section Histories.
Variable W : Type.
Variable send : tmsg -> W -> option W.
Variable has_channel : W -> bytes -> bytes -> bool.
Variable memo_ok : bytes -> list bytes -> bool.
Variable name_ok : bytes -> bool.
Variable denom_ok : bytes -> bool.
Variable msg_ok : tmsg -> bool.
Variable lifetime : Z.

(** All states that calls satisfying [P] can lead to, in any number, from any
    callers, in anybody's transactions, with any amount of gas; calls that fail
    included.  (A frame that is undone returns to an earlier state of the same
    history.) *)
Inductive history (P : env -> call -> Prop) (s0 : state W) : state W -> Prop :=
| h_start : history P s0 s0
| h_step s s' v k o :
    history P s0 s -> P v k ->
    step W send has_channel memo_ok name_ok denom_ok msg_ok lifetime v k s = (o, s') ->
    history P s0 s'.
End Histories.
