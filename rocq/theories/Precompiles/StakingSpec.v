(** What the staking contract's approvals should mean, without its helpers. *)
From Coq Require Import List ZArith NArith Bool.
From Verif Require Import Precompiles.Staking.
Import ListNotations.
Open Scope Z_scope.

(** The grant [e] holds from [r] for message [k] can be used at time [now]. *)
Definition live (g : grants) (now : Z) (e r : addr) (k : kind) (x : grant) : Prop :=
  g e r k = Some x /\ match g_exp x with Some t => now <= t | None => True end.

(** A validator the grant covers. *)
Definition covers (a : auth) (v : addr) : Prop :=
  ~ In v (a_deny a) /\ (a_allow a = [] \/ In v (a_allow a)).

(** The grants agree except perhaps in one place. *)
Definition only_at (e r : addr) (k : kind) (g g' : grants) : Prop :=
  forall e' r' k', (e', r', k') <> (e, r, k) -> g' e' r' k' = g e' r' k'.

(** A call that may give [e] more rights over [r]'s stake: [r] approves or
    raises. *)
Definition raises (e r : addr) (k : kind) (v : env) (c : call) : Prop :=
  e_origin v = r /\
  match c with
  | Approve e' _ us | Increase e' _ us => e' = e /\ In (Known k) us
  | _ => False
  end.

(** Everything [e] did in [r]'s transactions with message [k], by amount:
    the calls that ended well. *)
Definition by_pair (e r : addr) (k : kind) (l : served) : bool :=
  ((v_caller l =? e) && (v_origin l =? r))%N && kind_eqb (m_kind (v_msg l)) k && v_ok l.

Definition total (e r : addr) (k : kind) (log : list served) : Z :=
  fold_right (fun l n => (if by_pair e r k l then m_amount (v_msg l) else 0) + n) 0 log.

(** The message that reaches the staking module: cancelling always uses the
    staking token. *)
Definition as_sent (bond : denom) (m : smsg) : smsg :=
  match m_kind m with
  | Cancel => Smsg Cancel (m_delegator m) (m_validator m) bond (m_amount m) (m_ref m)
  | _ => m
  end.

Section Histories.
Variable W : Type.
Variable serve : smsg -> W -> option W.
Variable unjailed : W -> list addr.
Variable whitelisted : W -> denom -> bool.
Variable serve_unjail : addr -> W -> option W.
Variable bond : denom.
Variable lifetime : Z.

(** All states that calls satisfying [P] can lead to, in any number, from any
    callers, in anybody's transactions; calls that fail included.  (A frame
    that is undone returns to an earlier state of the same history.) *)
Inductive history (P : env -> call -> Prop) (s0 : state W) : state W -> Prop :=
| h_start : history P s0 s0
| h_step s s' v c o :
    history P s0 s -> P v c ->
    step W serve unjailed whitelisted serve_unjail bond lifetime v c s = (o, s') ->
    history P s0 s'.
End Histories.
