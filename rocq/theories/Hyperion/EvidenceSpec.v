(* What evidence of bad signatures ought to do, for C116. *)
From Verif Require Import Lib.Base Lib.Zmap Hyperion.Valset Hyperion.Evidence.
Open Scope Z_scope.

(* a validator set shown as evidence names a reward token that is an Ethereum address, and a
   reward *)
Definition complete (x : subject) : Prop := match x with SSet _ _ fine => fine = true | SBatch _ _ => True end.

Section Spec.
Variables rank acc_of : Z -> Z.
Variable keccak : list Z -> Z.
Variable recover : Z -> Z -> option Z.
Variable reduction : Z.

(* during this history the chain asked the validators of bridge h to sign these words: it
   made a batch, or announced a validator set *)
Definition asked (impls : list url) (e0 : est) (os : list eop) (h : Z) (w : list Z) : Prop :=
  exists pre c post e1 s2 evs,
    os = pre ++ EChain c :: post /\ erun rank acc_of keccak recover reduction impls e0 pre = Ok e1 /\
    step rank acc_of (e_s e1) c = Ok (s2, evs) /\
    ((exists b, c = OBatch h b /\ w = batch_words h b) \/ (exists v n, In (EvSet h v n) evs /\ w = set_words h v)).

(* the validator registered the address as its key on the bridge *)
Definition registers (h v a : Z) (o : eop) : Prop := exists orch, o = EChain (OSetKeys h v orch a true).

Definition no_reload (o : eop) : Prop := o <> EReload.
Definition is_evidence (o : eop) : bool := match o with EEvidence _ _ => true | _ => false end.

(* what is lost: the fraction f of the whole units of voting power, rounded down *)
Definition fine_of (k : vrec) (f : Z) : Z :=
  match k_status k with
  | Bonded => Z.min (k_tokens k / reduction * reduction * f / UNIT) (k_tokens k)
  | _ => 0
  end.
End Spec.
