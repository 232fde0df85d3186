(** The list of assets that can be staked (the "consensus whitelist"), their
    weights, and the governance decisions that change them.
    Models /repo/helios-chain/x/erc20/keeper/whitelist.go,
    x/erc20/keeper/msg_server.go:346-530, x/erc20/proposal_handler.go and the
    stateless checks of x/erc20/types/proposal.go.

    The staking module that carries out a change of weight is a fork of the
    Cosmos SDK and is not in /repo: a call to it is recorded, and it may refuse. *)
From Verif Require Import Lib.Base Lib.Bytes Lib.Kv.
From Coq Require Import NArith.
Open Scope Z_scope.

(** ** Numbers *)

(** uint64 arithmetic wraps. *)
Definition u64 (x : Z) : Z := x mod 2 ^ 64.

(** A float64: a mantissa below 2^53 and a power of two.  Only finite positive
    values and zero occur here, far from both ends of the exponent range, so
    the range is left out. *)
Record float := Float { f_man : Z; f_exp : Z }.

(** x/y rounded to the nearest integer, a half to the even one. *)
Definition rne (x y : Z) : Z :=
  let q := x / y in
  let r := x mod y in
  match 2 * r ?= y with
  | Lt => q
  | Gt => q + 1
  | Eq => if Z.even q then q else q + 1
  end.

(** x * 2^k / y rounded. *)
Definition scaled (x y k : Z) : Z :=
  if 0 <=? k then rne (x * 2 ^ k) y else rne x (y * 2 ^ (- k)).

(** The float64 nearest to x/y, for x >= 0 and y > 0 (IEEE 754 round to
    nearest, ties to even): [e] is the exponent that gives a mantissa of 53
    bits.  The first guess from the number of bits may be one too small. *)
Definition fl (x y : Z) : float :=
  if x =? 0 then Float 0 0 else
  let e := Z.log2 x - Z.log2 y - 53 in
  let big := if 0 <=? e then (2 ^ 53 * (y * 2 ^ e) <=? x) else (2 ^ 53 * y <=? x * 2 ^ (- e)) in
  let e' := if big then e + 1 else e in
  Float (scaled x y (- e')) e'.

(** float64(w) for a uint64. *)
Definition f_of (w : Z) : float := fl w 1.

(** Multiplication of two float64. *)
Definition fmul (a b : float) : float :=
  let m := f_man a * f_man b in
  let e := f_exp a + f_exp b in
  if 0 <=? e then fl (m * 2 ^ e) 1 else fl m (2 ^ (- e)).

(** Division of two float64, the second not zero. *)
Definition fdiv (a b : float) : float :=
  let e := f_exp a - f_exp b in
  if 0 <=? e then fl (f_man a * 2 ^ e) (f_man b) else fl (f_man a) (f_man b * 2 ^ (- e)).

(** uint64(f): towards zero. *)
Definition f_trunc (a : float) : Z :=
  if 0 <=? f_exp a then f_man a * 2 ^ f_exp a else f_man a / 2 ^ (- f_exp a).

(** fmt.Sprintf("%.2f", f) read back as hundredths: the exact value is rounded
    to two places, a half to even. *)
Definition hundredths (a : float) : Z := scaled (100 * f_man a) 1 (f_exp a).

(** A LegacyDec has 18 decimals. *)
Definition dec (h : Z) : Z := h * 10 ^ 16.
Definition dec_of (n : Z) : Z := n * 10 ^ 18.

(** ** The list *)

(** types.Asset (erc20.pb.go:504-513) without its denom, which is the key. *)
Record info := Info {
  i_contract : bytes;
  i_chain_id : bytes;
  i_chain_name : bytes;
  i_decimals : Z;
  i_symbol : bytes
}.
Record asset := Asset { a_info : info; a_weight : Z; a_archived : bool }.

(** One call of the staking keeper's UpdateAssetWeight. *)
Record call := Call { c_denom : bytes; c_percent : Z; c_up : bool; c_from : Z }.

(** The whitelist, kept in the order of its keys "whitelist/" + denom, and the
    calls made to the staking module so far, the latest first. *)
Record state := State { s_list : list (bytes * asset); s_calls : list call }.

(** What a decision is about. *)
Inductive magnitude := Small | Medium | High | OtherMagnitude.
Inductive direction := Up | Down | OtherDirection.
Record update := Update { u_denom : bytes; u_mag : magnitude; u_dir : direction }.

(** IsAssetWhitelisted and GetAssetFromWhitelist (whitelist.go:64-84). *)
Definition is_whitelisted (st : state) (d : bytes) : bool :=
  match kget (s_list st) d with Some _ => true | None => false end.

(** GetAllWhitelistedAssets, the WhitelistedAssets query without paging
    (whitelist.go:222-235, grpc_query.go:122-151). *)
Definition all_assets (st : state) : list (bytes * asset) := s_list st.

(** GetAllStakingAssets (whitelist.go:198-219). *)
Definition staking_assets (st : state) : list (bytes * asset) :=
  filter (fun p => negb (a_archived (snd p))) (s_list st).

Section Chain.

(** The governance account. *)
Variable gov : bytes.
(** DoesERC20ContractExist: does the contract answer totalSupply? (evm.go:96-119) *)
Variable contract_exists : bytes -> bool.
(** Does the staking module accept this call after those calls? *)
Variable stake_ok : list call -> call -> bool.

(** UpdateAssetNativeSharesWeight (whitelist.go:254-265). *)
Definition tell (st : state) (c : call) : res state :=
  if (c_percent c =? 0) && (c_from c =? 0) then Ok st
  else if c_percent c <? 0 then Err
  else if stake_ok (s_calls st) c then Ok (State (s_list st) (c :: s_calls st))
  else Err.

(** UpdateAssetInConsensusWhitelist (whitelist.go:238-252). *)
Definition put (st : state) (d : bytes) (a : asset) : res state :=
  if is_whitelisted st d then Ok (State (kset (s_list st) d a) (s_calls st)) else Err.

(** UnarchiveAssetInConsensusWhitelist (whitelist.go:128-179). *)
Definition unarchive (st : state) (d : bytes) (w : Z) : res state :=
  match kget (s_list st) d with
  | None => Err
  | Some a =>
      if negb (a_archived a) then Err
      else if w =? 0 then Err
      else rbind (put st d (Asset (a_info a) w false)) (fun st' =>
        if w - 1 =? 0 then Ok st' else tell st' (Call d (dec_of (w - 1)) true 0))
  end.

(** ArchiveAssetInConsensusWhitelist (whitelist.go:87-125). *)
Definition archive (st : state) (d : bytes) : res state :=
  match kget (s_list st) d with
  | None => Err
  | Some a =>
      if a_archived a then Err
      else rbind (put st d (Asset (a_info a) 1 true)) (fun st' =>
        if a_weight a <=? 1 then Ok st' else tell st' (Call d 0 false (a_weight a)))
  end.

(** AddAssetToConsensusWhitelist (whitelist.go:17-43). *)
Definition add (st : state) (d : bytes) (a : asset) : res state :=
  match kget (s_list st) d with
  | Some old => if negb (a_archived old) then Err else unarchive st d (a_weight a)
  | None => Ok (State (kset (s_list st) d (Asset (a_info a) (a_weight a) false)) (s_calls st))
  end.

(** RemoveAssetFromConsensusWhitelist (whitelist.go:47-62). *)
Definition remove (st : state) (d : bytes) : res state :=
  match kget (s_list st) d with
  | None => Err
  | Some a => if a_archived a then Ok st else archive st d
  end.

(** getAdjustmentFactors (msg_server.go:480-512, proposal_handler.go:125-157):
    the share told to the staking module and the factor for the weight.  Below
    ten the factor is 1/weight.  For weight 0 this is an infinity, whose text
    is no decimal number: LegacyMustNewDecFromStr panics. *)
Definition factors (w : Z) (m : magnitude) (r : direction) : res (Z * float) :=
  rbind match m with
        | Small => Ok (fl 5 100)
        | Medium => Ok (fl 15 100)
        | High => Ok (fl 30 100)
        | OtherMagnitude => Err
        end (fun base =>
  if w <? 10 then
    match r with
    | Down =>
        if w =? 1 then Err
        else if w =? 0 then Panic
        else let f := fdiv (f_of (w - (w - 1))) (f_of w) in Ok (dec (hundredths f), f)
    | _ =>
        if w =? 0 then Panic
        else let f := fdiv (f_of (w + 1 - w)) (f_of w) in Ok (dec (hundredths f), f)
    end
  else Ok (dec (hundredths base), base)).

(** applyWeightAdjustment (msg_server.go:515-529, proposal_handler.go:160-173). *)
Definition adjust (w : Z) (r : direction) (f : float) : res (Z * bool) :=
  match r with
  | Up => Ok (u64 (w + f_trunc (fmul (f_of w) f)), true)
  | Down => Ok (u64 (w - f_trunc (fmul (f_of w) f)), false)
  | OtherDirection => Err
  end.

(** One turn of the loop of UpdateAssetConsensus
    (msg_server.go:436-474, proposal_handler.go:87-119). *)
Definition update_one (st : state) (u : update) : res state :=
  match kget (s_list st) (u_denom u) with
  | None => Err
  | Some a =>
      rbind (factors (a_weight a) (u_mag u) (u_dir u)) (fun pf =>
      rbind (adjust (a_weight a) (u_dir u) (snd pf)) (fun wu =>
      rbind (put st (u_denom u) (Asset (a_info a) (fst wu) (a_archived a))) (fun st' =>
      tell st' (Call (u_denom u) (fst pf) (snd wu) 0))))
  end.

(** One turn of the loop of AddAssetConsensus
    (msg_server.go:369-392, proposal_handler.go:40-56). *)
Definition add_one (st : state) (p : bytes * asset) : res state :=
  if contract_exists (i_contract (a_info (snd p))) then add st (fst p) (snd p) else Err.

(** One turn of the loop of RemoveAssetConsensus
    (msg_server.go:403-421, proposal_handler.go:65-78). *)
Definition remove_one (st : state) (d : bytes) : res state :=
  if is_whitelisted st d then remove st d else Err.

Fixpoint each {A} (f : state -> A -> res state) (st : state) (l : list A) : res state :=
  match l with
  | [] => Ok st
  | x :: l' => rbind (f st x) (fun st' => each f st' l')
  end.

(** strings.TrimSpace(s) == "", for the white space of ASCII. *)
Definition blank (s : bytes) : bool :=
  forallb (fun c => ((9 <=? c) && (c <=? 13) || (c =? 32))%N) s.

(** The stateless checks of the three kinds of proposal text
    (types/proposal.go:98-122, 158-188, 231-273). *)
Definition add_valid (title text : bytes) (l : list (bytes * asset)) : bool :=
  negb (blank title) && negb (blank text) &&
  match l with [] => false | _ => true end &&
  forallb (fun p => negb (blank (i_contract (a_info (snd p)))) && negb (a_weight (snd p) =? 0)) l.
Definition remove_valid (title text : bytes) (l : list bytes) : bool :=
  negb (blank title) && negb (blank text) &&
  match l with [] => false | _ => true end && forallb (fun d => negb (blank d)) l.
Definition update_valid (title text : bytes) (l : list update) : bool :=
  negb (blank title) && negb (blank text) &&
  match l with [] => false | _ => true end &&
  forallb (fun u => negb (blank (u_denom u)) &&
    match u_mag u with OtherMagnitude => false | _ => true end &&
    match u_dir u with OtherDirection => false | _ => true end) l.

(** What reaches the module: a message with the account it claims to come from
    (msg_server.go), or a passed proposal text (proposal_handler.go). *)
Inductive action :=
  | MsgAdd (from : bytes) (l : list (bytes * asset))
  | MsgRemove (from : bytes) (l : list bytes)
  | MsgUpdate (from : bytes) (l : list update)
  | TextAdd (title text : bytes) (l : list (bytes * asset))
  | TextRemove (title text : bytes) (l : list bytes)
  | TextUpdate (title text : bytes) (l : list update).

Definition perform (st : state) (x : action) : res state :=
  match x with
  | MsgAdd from l => if beqb gov from then each add_one st l else Err
  | MsgRemove from l => if beqb gov from then each remove_one st l else Err
  | MsgUpdate from l => if beqb gov from then each update_one st l else Err
  | TextAdd t s l => if add_valid t s l then each add_one st l else Err
  | TextRemove t s l => if remove_valid t s l then each remove_one st l else Err
  | TextUpdate t s l => if update_valid t s l then each update_one st l else Err
  end.

(** A message or proposal runs on a copy of the state that is thrown away when
    it fails or panics (the message router and x/gov of the Cosmos SDK). *)
Definition step (st : state) (x : action) : state :=
  match perform st x with Ok st' => st' | _ => st end.

Definition run (st : state) (l : list action) : state := fold_left step l st.

(** The assets listed at genesis (genesis.go:70-109): each is added, an error is
    not looked at. *)
Definition genesis (l : list (bytes * asset)) : state :=
  fold_left (fun st p => match add st (fst p) (snd p) with Ok st' => st' | _ => st end) l (State [] []).

(** The check of the staking contract before a delegation
    (precompiles/staking/tx.go:176-178). *)
Definition may_delegate (st : state) (d : bytes) : bool := is_whitelisted st d.

End Chain.
