(* Model of x/vesting/keeper: messages and governance hooks.  Accounts, bank and
   the two flag sets are functions of the address.  Telemetry and events are not
   modelled; a failing message leaves the state unchanged (transaction rollback). *)
From Verif Require Import Lib.Base Lib.Bytes Lib.Coins Vesting.Model.
Open Scope Z_scope.

Inductive account := Base | Vest (v : vacc) | Other.
Record kst := Kst { accs : addr -> option account; bank : addr -> coins; gov_off : addr -> bool; active : addr -> bool }.

Definition upd {A} (f : addr -> A) (a : addr) (x : A) : addr -> A := fun b => if N.eqb b a then x else f b.
Definition set_acc (s : kst) (a : addr) (x : account) : kst := Kst (upd (accs s) a (Some x)) (bank s) (gov_off s) (active s).
Definition set_bank (s : kst) (a : addr) (c : coins) : kst := Kst (accs s) (upd (bank s) a c) (gov_off s) (active s).
(* keeper/gov.go:12-36 *)
Definition set_gov_off (s : kst) (a : addr) (b : bool) : kst := Kst (accs s) (bank s) (upd (gov_off s) a b) (active s).
(* keeper/gov.go:40-71 *)
Definition set_active (s : kst) (a : addr) (b : bool) : kst := Kst (accs s) (bank s) (gov_off s) (upd (active s) a b).

(* cosmos-sdk bank LockedCoins, SendCoins (external): the coins must be valid, each coin must fit in the
   balance minus the locked coins; the receiver's account is created if absent *)
Definition locked_of (s : kst) (a : addr) (t : Z) : res coins :=
  match accs s a with Some (Vest v) => locked_coins v t | _ => Ok [] end.
Definition send_coins (s : kst) (from to : addr) (c : coins) (t : Z) : res kst :=
  rbind (locked_of s from t) (fun l =>
    if cvalidb c && forallb (fun '(d, x) => x <=? amt (bank s from) d - amt l d) c then
      let s1 := set_bank s from (fst (csafe_sub (bank s from) c)) in
      let s2 := set_bank s1 to (cadd (bank s1 to) c) in
      Ok (match accs s2 to with None => set_acc s2 to Base | Some _ => s2 end)
    else Err).

Inductive msg :=
| MCreate (funder vaddr : addr) (enable_gov : bool)
| MFund (funder vaddr : addr) (start : Z) (lockup vest : periods)
| MClawback (funder a : addr) (dest : option addr)
| MUpdateFunder (funder new_funder vaddr : addr)
| MConvert (vaddr : addr).

Section Keeper.
Variable authority : addr.             (* keeper.authority, the governance module account *)
Variable distr : addr.                 (* the distribution module account *)
Variable blocked : addr -> bool.       (* bank BlockedAddr *)
Variable is_contract : addr -> bool.   (* evm keeper IsContract *)

(* keeper/msg_server.go:27-103 *)
Definition create (s : kst) (funder a : addr) (enable_gov : bool) : res kst :=
  if blocked a then Err else
  match accs s a with
  | None => Err
  | Some (Vest _) => Err
  | Some Other => Err
  | Some Base =>
      if is_contract a then Err else
      (* StartTime is Go's zero time (-62135596800 s), EndTime 0 *)
      let s1 := set_acc s a (Vest (Vacc funder [] [] (-62135596800) 0 [] [])) in
      Ok (if enable_gov then s1 else set_gov_off s1 a true)
  end.

(* types/msg.go:103-153 MsgFundVestingAccount.ValidateBasic (address syntax not modelled) *)
Definition periods_basic (ps : periods) : bool := forallb (fun p => (1 <=? plen p) && cvalidb (pamt p)) ps.
Definition fund_basic (lock vest : periods) : bool :=
  let lc := total_amount lock in let vc := total_amount vest in
  periods_basic lock && periods_basic vest
  && negb (match lc, vc with [], [] => true | _, _ => false end)
  && (match lock, vest with _ :: _, _ :: _ => coin_eq lc vc | _, _ => true end).

(* keeper/msg_server.go:115-183 *)
Definition fund (s : kst) (funder a : addr) (start : Z) (lock vest : periods) (t : Z) : res kst :=
  if negb (fund_basic lock vest) then Err else
  if blocked a then Err else
  match accs s a with
  | Some (Vest v) =>
      let vc := total_amount vest in let lc := total_amount lock in
      let '(lock1, lc1) := match lock with [] => if cis_zero vc then (lock, lc) else ([Per 0 vc], vc) | _ => (lock, lc) end in
      let '(vest1, vc1) := match vest with [] => if cis_zero lc1 then (vest, vc) else ([Per 0 lc1], lc1) | _ => (vest, vc) end in
      if negb (N.eqb funder (v_funder v)) then Err else
      rbind (add_grant v start lock1 vest1 vc1) (fun v' => send_coins (set_acc s a (Vest v')) funder a vc1 t)
  | _ => Err
  end.

(* keeper/msg_server.go:354-397 transferClawback; FundCommunityPool sends to the
   distribution module account like SendCoins *)
Definition transfer_clawback (s : kst) (a : addr) (v : vacc) (dest : addr) (t : Z) : res kst :=
  rbind (compute_clawback v t) (fun '(_, c) =>
    send_coins (set_gov_off (set_acc s a Base) a false) a dest c t).

(* keeper/msg_server.go:190-268 *)
Definition clawback (s : kst) (funder a : addr) (dest : option addr) (t : Z) : res kst :=
  let dst := match dest with Some d => d | None => funder end in
  if negb (N.eqb funder authority) && (active s a || blocked dst) then Err else
  match accs s a with
  | Some (Vest v) =>
      match v_vesting v, v_lockup v with
      | [], [] => Err
      | _, _ =>
          if N.eqb authority funder then
            if gov_off s a then Err else transfer_clawback s a v distr t
          else if negb (N.eqb (v_funder v) funder) then Err else transfer_clawback s a v dst t
      end
  | _ => Err
  end.

(* keeper/msg_server.go:275-333 *)
Definition update_funder (s : kst) (funder new_funder a : addr) : res kst :=
  if N.eqb funder new_funder then Err else (* types/msg.go:233-235 *)
  if active s a then Err else
  if blocked new_funder then Err else
  match accs s a with
  | Some (Vest v) =>
      if negb (N.eqb (v_funder v) funder) then Err
      else Ok (set_acc s a (Vest (Vacc new_funder (v_orig v) (v_deleg v) (v_start v) (v_end v) (v_lockup v) (v_vesting v))))
  | _ => Err
  end.

(* keeper/msg_server.go:337-371 *)
Definition convert (s : kst) (a : addr) (t : Z) : res kst :=
  match accs s a with
  | Some (Vest v) =>
      rbind (vesting v t) (fun c => if negb (cis_zero c) then Err else
      rbind (locked_up v t) (fun l => if negb (cis_zero l) then Err else
      Ok (set_acc (set_gov_off s a false) a Base)))
  | _ => Err
  end.

Definition handle (s : kst) (m : msg) (t : Z) : res kst :=
  match m with
  | MCreate f a e => create s f a e
  | MFund f a st l v => fund s f a st l v t
  | MClawback f a d => clawback s f a d t
  | MUpdateFunder f n a => update_funder s f n a
  | MConvert a => convert s a t
  end.

(* keeper/hooks.go:48-119 AfterProposalDeposit, for a proposal whose clawback messages
   name [targets], once the minimum deposit is reached; the flag says whether the
   proposal survives *)
Fixpoint deposit_loop (s : kst) (done targets : list addr) : kst * bool :=
  match targets with
  | [] => (s, true)
  | a :: rest =>
      if gov_off s a then (fold_left (fun s b => set_active s b false) done s, false)
      else deposit_loop (set_active s a true) (done ++ [a]) rest
  end.
Definition after_deposit (s : kst) (targets : list addr) : kst * bool := deposit_loop s [] targets.
(* keeper/hooks.go:150-186 AfterProposalVotingPeriodEnded *)
Definition after_voting (s : kst) (targets : list addr) : kst := fold_left (fun s b => set_active s b false) targets s.

(* the module together with the clawback proposals being voted on *)
Record gst := Gst { ks : kst; live : list (N * list addr) }.
Inductive event :=
| EMsg (m : msg) (t : Z)                     (* a transaction message at block time t *)
| EDeposit (pid : N) (targets : list addr)   (* a proposal reaches its deposit and enters voting *)
| EEnd (pid : N)                             (* its voting period ends *)
| EBank (f t : addr) (c : coins) (tm : Z).   (* an ordinary bank transfer *)
Definition gstep (g : gst) (e : event) : gst :=
  match e with
  | EMsg m t => match handle (ks g) m t with Ok s => Gst s (live g) | _ => g end
  | EDeposit pid ts =>
      let '(s, kept) := after_deposit (ks g) ts in Gst s (if kept then (pid, ts) :: live g else filter (fun p => negb (N.eqb (fst p) pid)) (live g))
  | EEnd pid =>
      match find (fun p => N.eqb (fst p) pid) (live g) with
      | Some (_, ts) => Gst (after_voting (ks g) ts) (filter (fun p => negb (N.eqb (fst p) pid)) (live g))
      | None => g
      end
  | EBank f to c tm => match send_coins (ks g) f to c tm with Ok s => Gst s (live g) | _ => g end
  end.
End Keeper.
