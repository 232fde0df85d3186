(* Model of helios-chain/x/vesting: schedules, clawback vesting accounts, messages
   and governance hooks.  Times are unbounded integers (int64 in Go); coins are
   those of Lib/Coins.v. *)
From Verif Require Import Lib.Base Lib.Bytes Lib.Coins.
Open Scope Z_scope.

(* sdkvesting.Period (external): length in seconds, amount released at its end *)
Record period := Per { plen : Z; pamt : coins }.
Notation periods := (list period).

(* Periods.TotalLength, Periods.TotalAmount (external) *)
Fixpoint total_length (ps : periods) : Z := match ps with [] => 0 | p :: q => plen p + total_length q end.
Fixpoint total_amount_from (acc : coins) (ps : periods) : coins :=
  match ps with [] => acc | p :: q => total_amount_from (cadd acc (pamt p)) q end.
Definition total_amount (ps : periods) : coins := total_amount_from [] ps.

(* x/vesting/types/schedule.go:33-42, the loop of ReadSchedule *)
Fixpoint read_loop (t elapsed : Z) (acc : coins) (ps : periods) : coins :=
  match ps with
  | [] => acc
  | p :: q => if t <? elapsed + plen p then acc else read_loop t (elapsed + plen p) (cadd acc (pamt p)) q
  end.
(* schedule.go:15-44 ReadSchedule *)
Definition read_schedule (start end_ : Z) (ps : periods) (total : coins) (t : Z) : coins :=
  if t <=? start then [] else if end_ <=? t then total else read_loop t start [] ps.

(* schedule.go:65-77, the loop of ReadPastPeriodCount *)
Fixpoint count_loop (t elapsed : Z) (ps : periods) : nat :=
  match ps with [] => O | p :: q => if t <? elapsed + plen p then O else S (count_loop t (elapsed + plen p) q) end.
(* schedule.go:47-79 ReadPastPeriodCount *)
Definition read_past_period_count (start end_ : Z) (ps : periods) (t : Z) : nat :=
  if t <=? start then 0%nat else if end_ <=? t then length ps else count_loop t start ps.

(* schedule.go:118-196, the three loops of DisjunctPeriods; ta, tb are the times of
   the last event taken from A and from B, e is endTime.  Returns endTime and the
   periods emitted. *)
Definition emit (e next : Z) (c : coins) (r : Z * periods) : Z * periods := (fst r, Per (next - e) c :: snd r).
Fixpoint disj (pa : periods) (ta : Z) : Z -> periods -> Z -> Z * periods :=
  fix aux (tb : Z) (pb : periods) (e : Z) {struct pb} : Z * periods :=
    match pa with
    | [] => match pb with
            | [] => (e, [])
            | b :: pb' => let nb := tb + plen b in emit e nb (pamt b) (aux nb pb' nb)
            end
    | a :: pa' =>
        let na := ta + plen a in
        match pb with
        | [] => emit e na (pamt a) (disj pa' na tb [] na)
        | b :: pb' =>
            let nb := tb + plen b in
            match na ?= nb with
            | Lt => emit e na (pamt a) (disj pa' na tb pb na)
            | Gt => emit e nb (pamt b) (aux nb pb' nb)
            | Eq => emit e na (cadd (pamt a) (pamt b)) (disj pa' na na pb' na)
            end
        end
    end.
(* schedule.go:88-199 DisjunctPeriods: (start, end, periods) *)
Definition disjunct_periods (sa sb : Z) (pa pb : periods) : Z * Z * periods :=
  let start := Z.min sa sb in let '(e, ps) := disj pa sa sb pb start in (start, e, ps).

(* schedule.go:243-330: totals of A and B consumed so far, amount emitted so far,
   time of the last emitted event *)
Record cst := Cst { totA : coins; totB : coins; resulting : coins; lastT : Z }.
(* schedule.go:260-266: after updating the totals, emit the growth of the minimum *)
Definition conj_emit (next : Z) (s : cst) : res (option period * cst) :=
  let mn := cmin (totA s) (totB s) in
  if call_lte (resulting s) mn then
    rbind (csub mn (resulting s)) (fun diff =>
      if cis_zero diff then Ok (None, s)
      else Ok (Some (Per (next - lastT s) diff), Cst (totA s) (totB s) (cadd (resulting s) diff) next))
  else Ok (None, s).
Definition conj_take (a b : coins) (next : Z) (s : cst) : res (option period * cst) :=
  conj_emit next (Cst (cadd (totA s) a) (cadd (totB s) b) (resulting s) (lastT s)).
Definition conj_step (taken : res (option period * cst)) (k : cst -> res (Z * periods)) : res (Z * periods) :=
  rbind taken (fun '(o, s) => rbind (k s) (fun '(e, ps) => Ok (e, match o with Some p => p :: ps | None => ps end))).
(* schedule.go:254-269 consumeA leaves totalB alone, 271-289 consumeB leaves totalA
   alone, 291-317 consumeBoth adds to both *)
Definition take_a (a : coins) (next : Z) (s : cst) :=
  conj_emit next (Cst (cadd (totA s) a) (totB s) (resulting s) (lastT s)).
Definition take_b (b : coins) (next : Z) (s : cst) :=
  conj_emit next (Cst (totA s) (cadd (totB s) b) (resulting s) (lastT s)).
Fixpoint conj_loop (pa : periods) (ta : Z) : Z -> periods -> cst -> res (Z * periods) :=
  fix aux (tb : Z) (pb : periods) (s : cst) {struct pb} : res (Z * periods) :=
    match pa with
    | [] => match pb with
            | [] => Ok (lastT s, [])
            | b :: pb' => let nb := tb + plen b in conj_step (take_b (pamt b) nb s) (aux nb pb')
            end
    | a :: pa' =>
        let na := ta + plen a in
        match pb with
        | [] => conj_step (take_a (pamt a) na s) (conj_loop pa' na tb [])
        | b :: pb' =>
            let nb := tb + plen b in
            match na ?= nb with
            | Lt => conj_step (take_a (pamt a) na s) (conj_loop pa' na tb pb)
            | Gt => conj_step (take_b (pamt b) nb s) (aux nb pb')
            | Eq => conj_step (conj_take (pamt a) (pamt b) na s) (conj_loop pa' na na pb')
            end
        end
    end.
(* schedule.go:205-353 ConjunctPeriods *)
Definition conjunct_periods (sa sb : Z) (pa pb : periods) : res (Z * Z * periods) :=
  let start := Z.min sa sb in
  rbind (conj_loop pa sa sb pb (Cst [] [] [] start)) (fun '(e, ps) => Ok (start, e, ps)).

(* x/vesting/types/vesting.pb.go ClawbackVestingAccount: addresses are opaque
   numbers; DelegatedVesting is not used by this account type *)
Notation addr := N (only parsing).
Record vacc := Vacc {
  v_funder : addr; v_orig : coins; v_deleg : coins;
  v_start : Z; v_end : Z; v_lockup : periods; v_vesting : periods }.

(* clawback_vesting_account.go:187-189, 175-177, 192-195 *)
Definition vested (v : vacc) (t : Z) : coins := read_schedule (v_start v) (v_end v) (v_vesting v) (v_orig v) t.
Definition unlocked (v : vacc) (t : Z) : coins := read_schedule (v_start v) (v_end v) (v_lockup v) (v_orig v) t.
Definition passed_count (v : vacc) (t : Z) : nat := read_past_period_count (v_start v) (v_end v) (v_vesting v) t.
(* clawback_vesting_account.go:59-65 GetUnlockedVestedCoins *)
Definition unlocked_vested (v : vacc) (t : Z) : coins :=
  let c := cmin (unlocked v t) (vested v t) in if cis_zero c then [] else c.
(* clawback_vesting_account.go:53-55, 69-71, 182-184 *)
Definition locked_up_vested (v : vacc) (t : Z) : res coins := csub (vested v t) (unlocked_vested v t).
Definition vesting (v : vacc) (t : Z) : res coins := csub (v_orig v) (vested v t).
Definition locked_up (v : vacc) (t : Z) : res coins := csub (v_orig v) (unlocked v t).
(* clawback_vesting_account.go:81-99 LockedCoins *)
Definition locked_coins (v : vacc) (t : Z) : res coins :=
  rbind (locked_up_vested v t) (fun luv =>
    let '(r, neg) := csafe_sub (v_orig v) (cadd (unlocked_vested v t) (cmin (v_deleg v) luv)) in
    Ok (if neg then [] else r)).
(* clawback_vesting_account.go:106-117 TrackDelegation *)
Fixpoint track_delegation (v : vacc) (balance amount : coins) : res vacc :=
  match amount with
  | [] => Ok v
  | (d, x) :: rest =>
      if (x =? 0) || (amt balance d <? x) then Panic
      else track_delegation (Vacc (v_funder v) (v_orig v) (cadd (v_deleg v) [(d, x)]) (v_start v) (v_end v) (v_lockup v) (v_vesting v)) balance rest
  end.
(* utils.go:7-9 CoinEq *)
Definition coin_eq (a b : coins) : bool := call_lte a b && call_lte b a.
(* clawback_vesting_account.go:131-170 Validate (the base account's own check is not modelled) *)
Definition validate (v : vacc) : bool :=
  negb (v_end v <=? v_start v)
  && negb (v_end v <? v_start v + total_length (v_lockup v))
  && coin_eq (total_amount (v_lockup v)) (v_orig v)
  && negb (v_end v <? v_start v + total_length (v_vesting v))
  && coin_eq (total_amount (v_vesting v)) (v_orig v).

(* clawback_vesting_account.go:199-230 ComputeClawback *)
Definition compute_clawback (v : vacc) (t : Z) : res (vacc * coins) :=
  let tv := vested v t in
  rbind (vesting v t) (fun unv =>
  let nv := firstn (passed_count v t) (v_vesting v) in
  let nv_end := v_start v + total_length nv in
  rbind (conjunct_periods (v_start v) (v_start v) (v_lockup v) [Per 0 tv]) (fun '(_, nl_end, nl) =>
  Ok (Vacc (v_funder v) tv (v_deleg v) (v_start v) (Z.max nv_end nl_end) nl nv, unv))).

(* clawback_vesting_account.go:240-276 AddGrant *)
Definition add_grant (v : vacc) (gstart : Z) (glock gvest : periods) (gcoins : coins) : res vacc :=
  let astart := match v_lockup v, v_vesting v with [], [] => gstart | _, _ => v_start v end in
  let '(ls, le, lp) := disjunct_periods astart gstart (v_lockup v) glock in
  let '(vs, ve, vp) := disjunct_periods astart gstart (v_vesting v) gvest in
  if ls =? vs then Ok (Vacc (v_funder v) (cadd (v_orig v) gcoins) (v_deleg v) ls (Z.max le ve) lp vp) else Err.

(* schedule.go:358-381 AlignSchedules applied to copies *)
Definition stretch (by_ : Z) (ps : periods) : periods :=
  match ps with [] => [] | p :: q => Per (plen p + by_) (pamt p) :: q end.
Definition align_schedules (sa sb : Z) (pa pb : periods) : Z * Z * periods * periods :=
  let start := Z.min sa sb in
  let pa' := stretch (sa - start) pa in let pb' := stretch (sb - start) pb in
  (start, Z.max (start + total_length pa') (start + total_length pb'), pa', pb').
(* clawback_vesting_account.go:20-50 NewClawbackVestingAccount *)
Definition new_account (funder : addr) (orig : coins) (start : Z) (lock vest : periods) : vacc :=
  let '(_, e, lp, vp) := align_schedules start start lock vest in Vacc funder orig [] start e lp vp.
