(* Independent vocabulary for the attestation theorems. *)
From Verif Require Import Lib.Base Lib.Bytes Lib.Codec Lib.Kv Lib.Dec Hyperion.Keys Hyperion.Claims Hyperion.ClaimSpec Hyperion.Attest.
From Coq Require Import NArith ZArith.
Open Scope Z_scope.

Definition sum_power (e : env) (vs : list bytes) : Z := fold_right (fun v acc => n_power e v + acc) 0 vs.

(* the validators that count for the bridge: bonded, with a registered key *)
Definition counted (e : env) : list bytes := filter (n_keyed e) (n_bonded e).

(* 66% of the counted power, rounded down *)
Definition quorum (e : env) (vs : list bytes) : Prop := 66 * sum_power e (counted e) < 100 * (sum_power e vs + 1).

(* validator addresses are bech32 text, without a colon *)
Definition env_ok (e : env) : Prop := forall o v, n_validator e o = Some v -> lacks colon v.

(* the validator set is what staking says it is *)
Definition staking_ok (e : env) : Prop :=
  NoDup (n_bonded e) /\ (forall v, 0 <= n_power e v) /\
  (forall o v, n_validator e o = Some v -> n_is_bonded e v = true -> In v (n_bonded e) /\ n_keyed e v = true).
Definition same_staking (e f : env) : Prop :=
  n_bonded e = n_bonded f /\ n_power e = n_power f /\ n_keyed e = n_keyed f /\ n_validator e = n_validator f /\ n_is_bonded e = n_is_bonded f.

Definition step_env (x : step) : option env := match x with Submit e _ _ => Some e | EndBlock e => Some e | _ => None end.
Definition all_env (P : env -> Prop) (l : list step) : Prop := forall x e, In x l -> step_env x = Some e -> P e.
Definition all_claims (P : claim -> Prop) (l : list step) : Prop := forall e c tx, In (Submit e c tx) l -> P c.
Definition no_clean (l : list step) : Prop := ~ In Clean l /\ ~ In CleanOther l.

Section Voted.
Variable hash : bytes -> bytes.
Variable bech32_ok : bytes -> bool.
Variable app : Type.
Variable handle : env -> app -> claim -> option app.
Notation run := (run hash bech32_ok app handle).
Notation submit := (submit hash bech32_ok app).

(* in the history l from s0, validator v submitted claim c and the message was accepted *)
Definition voted (s0 : st app) (l : list step) (v : bytes) (c : claim) : Prop :=
  exists l1 e tx l2, l = l1 ++ Submit e c tx :: l2 /\ n_validator e (claim_orch c) = Some v /\ n_is_bonded e v = true /\
    is_ok (submit e (run s0 l1) c tx) = true.

(* no validator votes for two different claims about one event *)
Definition single_votes (s0 : st app) (l : list step) : Prop :=
  forall v c1 c2, voted s0 l v c1 -> voted s0 l v c2 -> claim_nonce c1 = claim_nonce c2 -> att_key hash c1 = att_key hash c2.
End Voted.
