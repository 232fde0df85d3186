(* Evidence of bad signatures: x/hyperion/keeper/evidence.go, msg_server_helios.go:440-466,
   types/codec.go. The sets and batches the chain asks signatures for, and the registered
   keys, are those of Valset.v. *)
From Verif Require Import Lib.Base Lib.Zmap Hyperion.Valset.
Open Scope Z_scope.

(* ---- the message ---- *)
(* what a signature can be about; fine is false when the reward token is not an Ethereum
   address or the reward is missing, on which GetCheckpoint panics (types/types.go:167-178) *)
Inductive subject :=
| SSet (h : Z) (v : valset) (fine : bool)
| SBatch (h : Z) (b : batch).
Definition bridge_of (x : subject) : Z := match x with SSet h _ _ => h | SBatch h _ => h end.
Definition words (x : subject) : list Z := match x with SSet h v _ => set_words h v | SBatch h b => batch_words h b end.
Definition sound (x : subject) : bool := match x with SSet _ _ f => f | SBatch _ _ => true end.
(* the type name inside an Any *)
Inductive url := UEmpty | USet | UBatch | UOther (n : Z).
Definition url_eqb (a b : url) : bool :=
  match a, b with
  | UEmpty, UEmpty | USet, USet | UBatch, UBatch => true
  | UOther n, UOther m => n =? m
  | _, _ => false
  end.
(* an Any: its type name, and what its bytes decode to (None: they do not decode) *)
Definition any : Type := option (url * option subject).
Definition url_of (x : subject) : url := match x with SSet _ _ _ => USet | SBatch _ _ => UBatch end.

(* codec/types InterfaceRegistry.UnpackAny of the SDK, called at evidence.go:26, for the
   implementations registered for the interface EthereumSigned. Ok None: nothing was read. *)
Definition unpack (impls : list url) (a : any) : res (option subject) :=
  match a with
  | None => Ok None
  | Some (UEmpty, _) => Ok None
  | Some (u, x) =>
      if existsb (url_eqb u) impls then
        match x with
        | Some y => if url_eqb u (url_of y) then Ok (Some y) else Err
        | None => Err
        end
      else Err
  end.
(* types/codec.go:31-96 RegisterInterfaces names no implementation of EthereumSigned; the
   message has no UnpackInterfaces, so its Any holds no value decoded before *)
Definition code_impls : list url := [].
(* what evidence.go:31-35 expects *)
Definition both_impls : list url := [UBatch; USet].

(* ---- the stake ---- *)
Inductive status := Bonded | Unbonding | Unbonded.
(* k_key: the consensus key can be read *)
Record vrec := mk_vrec { k_tokens : Z; k_status : status; k_key : bool }.

Record est := mk_est {
  e_s : st;
  e_past : list (Z * Z);        (* key.go:349-355: bridge and checkpoint *)
  e_vals : list (Z * vrec);     (* the validators of x/staking *)
  e_frac : Z -> option Z        (* SlashFractionBadEthSignature of a bridge, in units of 10^-18 *)
}.
Definition einit (h : Z) : est := mk_est (init h) [] [] (fun _ => None).
Definition with_s e s := mk_est s (e_past e) (e_vals e) (e_frac e).
Definition with_past e l := mk_est (e_s e) l (e_vals e) (e_frac e).
Definition with_vals e l := mk_est (e_s e) (e_past e) l (e_frac e).
Definition with_frac e h f := mk_est (e_s e) (e_past e) (e_vals e) (fun x => if x =? h then f else e_frac e x).

Definition UNIT : Z := 1000000000000000000.

Section Code.
Variables rank acc_of : Z -> Z.
Variable keccak : list Z -> Z.           (* crypto.Keccak256Hash of the packed words *)
Variable recover : Z -> Z -> option Z.   (* types/ethereum_signer.go:43-81 EthAddressFromSignature *)
Variable reduction : Z.                  (* StakingKeeper.PowerReduction *)

(* evidence.go:105-118 *)
Definition past (e : est) (h c : Z) : bool := existsb (fun x => (fst x =? h) && (snd x =? c)) (e_past e).

(* x/staking of the SDK: Validator.ConsensusPower *)
Definition power (k : vrec) : Z := match k_status k with Bonded => k_tokens k / reduction | _ => 0 end.
(* x/staking of the SDK: Slash at the current height, which touches no delegation in motion *)
Definition burnt (k : vrec) (p f : Z) : Z := Z.max 0 (Z.min (p * reduction * f / UNIT) (k_tokens k)).
Definition slash (e : est) (v : Z) (k : vrec) (p f : Z) : res est :=
  if f <? 0 then Err else
  match k_status k with
  | Unbonded => Err
  | _ => Ok (with_vals e (zset (e_vals e) v (mk_vrec (k_tokens k - burnt k p f) (k_status k) (k_key k))))
  end.

(* evidence.go:43-92 checkBadSignatureEvidenceInternal; sig is None when it is not a
   hexadecimal text. Parameters that are missing are a nil pointer. *)
Definition check (e : est) (x : subject) (sig : option Z) : res est :=
  if negb (sound x) then Panic else
  if past e (bridge_of x) (keccak (words x)) then Err else
  match sig with
  | None => Err
  | Some g =>
      match recover (keccak (words x)) g with
      | None => Err
      | Some a =>
          match zget (b_byeth (s_br (e_s e) (bridge_of x))) a with
          | None => Err
          | Some v =>
              match zget (e_vals e) v with
              | None => Err
              | Some k =>
                  if negb (k_key k) then Err else
                  match e_frac e (bridge_of x) with
                  | None => Panic
                  | Some f => slash e v k (power k) f
                  end
              end
          end
      end
  end.
(* evidence.go:17-41 CheckBadSignatureEvidence *)
Definition submit (impls : list url) (e : est) (a : any) (sig : option Z) : res est :=
  match unpack impls a with
  | Ok (Some x) => check e x sig
  | Ok None => Err
  | Err => Err
  | Panic => Panic
  end.

Inductive eop :=
| EChain (o : op)                      (* what Valset.v models *)
| EStake (v : Z) (k : option vrec)     (* x/staking changes a validator *)
| EParam (h : Z) (f : option Z)        (* the parameters of a bridge change *)
| EReload                              (* the state is exported and a chain started from it *)
| EEvidence (a : any) (sig : option Z).

(* keeper.go:153-156 SetValsetRequest, batch.go:72-74, 104-106: the checkpoint is stored with
   the set or batch *)
Definition made (o : op) (evs : list event) : list (Z * Z) :=
  match o with OBatch h b => [(h, keccak (batch_words h b))] | _ => [] end ++
  flat_map (fun v => match v with EvSet h s _ => [(h, keccak (set_words h s))] | _ => [] end) evs.
(* A panic inside a message is caught and undoes it; one at the end of a block stops the
   chain. genesis.go:52-250 exports and reads sets, batches and keys, not the checkpoints;
   what else an export loses (see C41) is left out. *)
Definition estep (impls : list url) (e : est) (o : eop) : res est :=
  match o with
  | EChain c =>
      match step rank acc_of (e_s e) c with
      | Ok (s, evs) => Ok (with_past (with_s e s) (made c evs ++ e_past e))
      | Err => Err
      | Panic => Panic
      end
  | EStake v (Some k) => Ok (with_vals e (zset (e_vals e) v k))
  | EStake v None => Ok (with_vals e (zdel (e_vals e) v))
  | EParam h f => Ok (with_frac e h f)
  | EReload => Ok (with_past e [])
  | EEvidence a sig => match submit impls e a sig with Ok e1 => Ok e1 | _ => Err end
  end.
Fixpoint erun (impls : list url) (e : est) (os : list eop) : res est :=
  match os with
  | [] => Ok e
  | o :: r =>
      match estep impls e o with
      | Ok e1 => erun impls e1 r
      | Err => erun impls e r
      | Panic => Panic
      end
  end.
End Code.
