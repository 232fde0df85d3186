(* What messages about bridges should do, for C124. *)
From Verif Require Import Lib.Base Lib.Bytes Hyperion.Registry.
Open Scope Z_scope.

Definition m_by (m : msg) : Z := match m with Add s _ _ _ | ChangeInit s _ _ | Rename s _ _ | Pause s _ _ | Delete s _ => s end.
Definition m_chain (m : msg) : Z := match m with Add _ b _ _ => g_chain b | ChangeInit _ c _ | Rename _ c _ | Pause _ c _ | Delete _ c => c end.
(* one bridge per chain, and a bridge's number is its chain's *)
Definition orderly (bs : list bridge) : Prop := NoDup (map g_chain bs) /\ forall b, In b bs -> g_chain b = g_id b /\ g_chain b <> 0.
(* the sender is the authority or runs the bridge *)
Definition entitled (authority : Z) (s : Z) (b : bridge) : Prop := s = authority \/ s = g_init b.
(* the bridge to the message's chain after an accepted message, given the one before *)
Definition after (m : msg) (old : option bridge) : option bridge :=
  match m, old with
  | Add _ b _ _, _ => Some b
  | ChangeInit _ _ (Some a), Some b => Some (mk_bridge (g_chain b) (g_id b) a (g_name b) (g_paused b))
  | Rename _ _ n, Some b => Some (mk_bridge (g_chain b) (g_id b) (g_init b) n (g_paused b))
  | Pause _ _ p, Some b => Some (mk_bridge (g_chain b) (g_id b) (g_init b) (g_name b) p)
  | Delete _ _, _ => None
  | _, o => o
  end.
