(* x/evm/statedb: the state an EVM transaction works on, with its journal,
   and the keeper operations it commits through (x/evm/keeper/statedb.go).
   Addresses, storage keys and storage words are numbers (20 and 32 bytes,
   big endian).  The EVM coin has 18 decimals (app/config.go), so
   AdjustExtraDecimalsBigInt (x/evm/types/scaling.go:90-101) is the identity.
   SDK events, gas metering of the stores and tracing are not modelled. *)
From Verif Require Import Lib.Base Lib.Bytes Lib.Amap.
Open Scope Z_scope.

Notation addr := N (only parsing).
Notation word := N (only parsing).
Notation amap V := (list (N * V)) (only parsing).

(* ------------------------------------------------------------------ *)
(* the chain state the keeper reads and writes                         *)
(* ------------------------------------------------------------------ *)

(* what x/evm/keeper/statedb.go reads and writes: auth account sequence,
   bank balance in the EVM denomination, code hash by address, code by hash,
   storage slots (None: no entry under that key), together with two facts of
   the bank module used when coins are minted or burned: the part of a balance
   that cannot be spent, and addresses that may not receive from a module. *)
Record store := Store {
  st_acct : addr -> option N;
  st_bal : addr -> Z;
  st_chash : addr -> option word;
  st_code : word -> option bytes;
  st_stor : addr -> word -> option word;
  st_locked : addr -> Z;
  st_blocked : addr -> bool;
  st_supply : Z
}.

Definition upd {A} (f : N -> A) (k : N) (v : A) : N -> A := fun x => if N.eqb x k then v else f x.

Definition with_acct st f := Store f (st_bal st) (st_chash st) (st_code st) (st_stor st) (st_locked st) (st_blocked st) (st_supply st).
Definition with_bal st f sup := Store (st_acct st) f (st_chash st) (st_code st) (st_stor st) (st_locked st) (st_blocked st) sup.
Definition with_chash st f := Store (st_acct st) (st_bal st) f (st_code st) (st_stor st) (st_locked st) (st_blocked st) (st_supply st).
Definition with_code st f := Store (st_acct st) (st_bal st) (st_chash st) f (st_stor st) (st_locked st) (st_blocked st) (st_supply st).
Definition with_stor st f := Store (st_acct st) (st_bal st) (st_chash st) (st_code st) f (st_locked st) (st_blocked st) (st_supply st).

(* x/evm/statedb/state_object.go:16-20 Account *)
Record account := Account { a_nonce : N; a_bal : Z; a_hash : word }.

(* x/evm/statedb/state_object.go:51-68 stateObject.  o_code None is a nil slice. *)
Record obj := Obj {
  o_acct : account;
  o_code : option bytes;
  o_origin : amap word;
  o_dirty : amap word;
  o_dirty_code : bool;
  o_suicided : bool
}.

(* journal.go:97-145 the journal entries.  prev of a reset is the replaced
   object; it is no longer reachable from the map, so holding its value is
   holding the pointer.  A precompile call records the copy ms of the cache
   multi-store taken before it, the store base it lies over, and the number of
   Commit calls so far. *)
Inductive entry :=
| ECreate (a : addr)
| EReset (a : addr) (prev : obj)
| ESuicide (a : addr) (prev : bool) (prevbal : Z)
| EBal (a : addr) (prev : Z)
| ENonce (a : addr) (prev : N)
| EStor (a : addr) (k prev : word)
| ECode (a : addr) (prevcode : option bytes) (prevhash : word)
| ERefund (prev : N)
| ELog
| EAlAddr (a : addr)
| EAlSlot (a : addr) (k : word)
| EPre (commits : N) (base ms : store).

(* access_list.go:20-23: index -1 is None *)
Record alist := Alist { al_addr : amap (option nat); al_slots : list (amap unit) }.

(* statedb.go:37-65 StateDB.  d_journal holds the entries newest first (Go
   appends at the end); d_logs likewise holds the logs oldest first, each with
   its index; d_cache is what cacheCtx shows once writeCache is set; d_commits
   counts the calls of Commit, which change what lies under cacheCtx. *)
Record sdb := Sdb {
  d_ctx : store;
  d_cache : option store;
  d_journal : list entry;
  d_dirties : amap N;
  d_revs : list (N * nat);
  d_next : N;
  d_objs : amap obj;
  d_refund : N;
  d_logbase : N;
  d_logs : list (N * N);
  d_al : alist;
  d_pre : N;
  d_commits : N
}.

Definition with_objs s m := Sdb (d_ctx s) (d_cache s) (d_journal s) (d_dirties s) (d_revs s) (d_next s) m (d_refund s) (d_logbase s) (d_logs s) (d_al s) (d_pre s) (d_commits s).
Definition with_journal s j d := Sdb (d_ctx s) (d_cache s) j d (d_revs s) (d_next s) (d_objs s) (d_refund s) (d_logbase s) (d_logs s) (d_al s) (d_pre s) (d_commits s).
Definition with_refund s r := Sdb (d_ctx s) (d_cache s) (d_journal s) (d_dirties s) (d_revs s) (d_next s) (d_objs s) r (d_logbase s) (d_logs s) (d_al s) (d_pre s) (d_commits s).
Definition with_logs s l := Sdb (d_ctx s) (d_cache s) (d_journal s) (d_dirties s) (d_revs s) (d_next s) (d_objs s) (d_refund s) (d_logbase s) l (d_al s) (d_pre s) (d_commits s).
Definition with_al s al := Sdb (d_ctx s) (d_cache s) (d_journal s) (d_dirties s) (d_revs s) (d_next s) (d_objs s) (d_refund s) (d_logbase s) (d_logs s) al (d_pre s) (d_commits s).
Definition with_cache s c := Sdb (d_ctx s) c (d_journal s) (d_dirties s) (d_revs s) (d_next s) (d_objs s) (d_refund s) (d_logbase s) (d_logs s) (d_al s) (d_pre s) (d_commits s).
Definition with_ctx s c := Sdb c (d_cache s) (d_journal s) (d_dirties s) (d_revs s) (d_next s) (d_objs s) (d_refund s) (d_logbase s) (d_logs s) (d_al s) (d_pre s) (d_commits s).
Definition with_revs s r n := Sdb (d_ctx s) (d_cache s) (d_journal s) (d_dirties s) r n (d_objs s) (d_refund s) (d_logbase s) (d_logs s) (d_al s) (d_pre s) (d_commits s).
Definition with_commits s n := Sdb (d_ctx s) (d_cache s) (d_journal s) (d_dirties s) (d_revs s) (d_next s) (d_objs s) (d_refund s) (d_logbase s) (d_logs s) (d_al s) (d_pre s) n.
Definition with_pre s p := Sdb (d_ctx s) (d_cache s) (d_journal s) (d_dirties s) (d_revs s) (d_next s) (d_objs s) (d_refund s) (d_logbase s) (d_logs s) (d_al s) p (d_commits s).

(* statedb.go:68-78 New *)
Definition new_db (ctx : store) (logbase : N) : sdb :=
  Sdb ctx None [] [] [] 0 [] 0 logbase [] (Alist [] []) 0 0.

Section Keccak.
(* crypto.Keccak256Hash *)
Variable keccak : bytes -> word.

(* types.EmptyCodeHash = crypto.Keccak256(nil) *)
Definition empty_hash : word := keccak [].

(* ------------------------------------------------------------------ *)
(* keeper reads: x/evm/keeper/statedb.go:24-84, keeper.go:221-234       *)
(* ------------------------------------------------------------------ *)

Definition k_code_hash (st : store) (a : addr) : word :=
  match st_chash st a with Some h => h | None => empty_hash end.

Definition k_account (st : store) (a : addr) : option account :=
  match st_acct st a with
  | None => None
  | Some seq => Some (Account seq (st_bal st a) (k_code_hash st a))
  end.

Definition k_state (st : store) (a : addr) (k : word) : word :=
  match st_stor st a k with Some v => v | None => 0%N end.

Definition k_code (st : store) (h : word) : option bytes := st_code st h.

(* ------------------------------------------------------------------ *)
(* keeper writes: x/evm/keeper/statedb.go:113-300                       *)
(* ------------------------------------------------------------------ *)

(* wrappers/bank.go:38-69.  Minting ends with a transfer from the module to
   the account, which the bank refuses for blocked addresses; burning starts
   with a transfer from the account, which the bank refuses beyond the
   spendable balance. *)
Definition k_set_balance (st : store) (a : addr) (amount : Z) : res store :=
  let delta := amount - st_bal st a in
  if 0 <? delta then
    if st_blocked st a then Err else Ok (with_bal st (upd (st_bal st) a amount) (st_supply st + delta))
  else if delta <? 0 then
    if st_bal st a - st_locked st a <? - delta then Err
    else Ok (with_bal st (upd (st_bal st) a amount) (st_supply st + delta))
  else Ok st.

Definition k_set_account (st : store) (a : addr) (x : account) : res store :=
  let st1 := if N.eqb (a_hash x) empty_hash then with_chash st (upd (st_chash st) a None)
             else with_chash st (upd (st_chash st) a (Some (a_hash x))) in
  let st2 := with_acct st1 (upd (st_acct st1) a (Some (a_nonce x))) in
  k_set_balance st2 a (a_bal x).

Definition k_set_state (st : store) (a : addr) (k v : word) : store :=
  with_stor st (upd (st_stor st) a (upd (st_stor st a) k (Some v))).

Definition k_set_code (st : store) (h : word) (c : bytes) : store := with_code st (upd (st_code st) h (Some c)).
Definition k_delete_code (st : store) (h : word) : store := with_code st (upd (st_code st) h None).

(* DeleteAccount, 258-300: the loop over ForEachStorage deletes every slot *)
Definition k_delete_account (st : store) (a : addr) : res store :=
  match st_acct st a with
  | None => Ok st
  | Some _ =>
    match st_chash st a with
    | None => Err
    | Some _ =>
      rbind (k_set_balance st a 0) (fun st1 =>
      let st2 := with_stor st1 (upd (st_stor st1) a (fun _ => None)) in
      let st3 := with_chash st2 (upd (st_chash st2) a None) in
      Ok (with_acct st3 (upd (st_acct st3) a None)))
    end
  end.

(* ------------------------------------------------------------------ *)
(* state objects: state_object.go                                      *)
(* ------------------------------------------------------------------ *)

(* newObject, 71-88 *)
Definition new_object (x : account) : obj := Obj x None [] [] false false.

(* newObject(db, addr, Account{}): nil balance and hash are defaulted *)
Definition blank_object : obj := new_object (Account 0 0 empty_hash).

(* empty, 91-95 *)
Definition obj_empty (o : obj) : bool :=
  N.eqb (a_nonce (o_acct o)) 0 && (a_bal (o_acct o) =? 0) && N.eqb (a_hash (o_acct o)) empty_hash.

Definition obj_with_acct (o : obj) (x : account) : obj := Obj x (o_code o) (o_origin o) (o_dirty o) (o_dirty_code o) (o_suicided o).
(* setBalance 138-140, setNonce 205-207 *)
Definition obj_set_balance (o : obj) (b : Z) : obj := obj_with_acct o (Account (a_nonce (o_acct o)) b (a_hash (o_acct o))).
Definition obj_set_nonce (o : obj) (n : N) : obj := obj_with_acct o (Account n (a_bal (o_acct o)) (a_hash (o_acct o))).
(* setCode 189-193 *)
Definition obj_set_code (o : obj) (h : word) (c : option bytes) : obj :=
  Obj (Account (a_nonce (o_acct o)) (a_bal (o_acct o)) h) c (o_origin o) (o_dirty o) true (o_suicided o).
(* setState 252-254 *)
Definition obj_set_state (o : obj) (k v : word) : obj :=
  Obj (o_acct o) (o_code o) (o_origin o) (aset (o_dirty o) k v) (o_dirty_code o) (o_suicided o).
Definition obj_set_suicided (o : obj) (b : bool) : obj :=
  Obj (o_acct o) (o_code o) (o_origin o) (o_dirty o) (o_dirty_code o) b.

(* Code, 152-165: caches what the keeper returns *)
Definition obj_code (st : store) (o : obj) : option bytes * obj :=
  match o_code o with
  | Some c => (Some c, o)
  | None =>
    if N.eqb (a_hash (o_acct o)) empty_hash then (None, o)
    else let c := k_code st (a_hash (o_acct o)) in
         (c, Obj (o_acct o) c (o_origin o) (o_dirty o) (o_dirty_code o) (o_suicided o))
  end.

(* GetCommittedState, 222-230 *)
Definition obj_committed (st : store) (a : addr) (o : obj) (k : word) : word * obj :=
  match aget (o_origin o) k with
  | Some v => (v, o)
  | None => let v := k_state st a k in
            (v, Obj (o_acct o) (o_code o) (aset (o_origin o) k v) (o_dirty o) (o_dirty_code o) (o_suicided o))
  end.

(* GetState, 233-238 *)
Definition obj_state (st : store) (a : addr) (o : obj) (k : word) : word * obj :=
  match aget (o_dirty o) k with Some v => (v, o) | None => obj_committed st a o k end.

(* ------------------------------------------------------------------ *)
(* journal: journal.go                                                 *)
(* ------------------------------------------------------------------ *)

Definition dirtied (e : entry) : option addr :=
  match e with
  | ECreate a | ESuicide a _ _ | EBal a _ | ENonce a _ | EStor a _ _ | ECode a _ _ => Some a
  | EReset _ _ | ERefund _ | ELog | EAlAddr _ | EAlSlot _ _ | EPre _ _ _ => None
  end.

Definition count (d : amap N) (a : addr) : N := match aget d a with Some n => n | None => 0%N end.

(* append, 68-73 *)
Definition jappend (s : sdb) (e : entry) : sdb :=
  with_journal s (e :: d_journal s)
    (match dirtied e with Some a => aset (d_dirties s) a (count (d_dirties s) a + 1)%N | None => d_dirties s end).

Definition set_obj (s : sdb) (a : addr) (o : obj) : sdb := with_objs s (aset (d_objs s) a o).

(* getStateObject, statedb.go:257-271 *)
Definition get_obj (s : sdb) (a : addr) : option obj * sdb :=
  match aget (d_objs s) a with
  | Some o => (Some o, s)
  | None => match k_account (d_ctx s) a with
            | None => (None, s)
            | Some x => let o := new_object x in (Some o, set_obj s a o)
            end
  end.

(* s.getStateObject(a).set...: a nil object is a nil dereference *)
Definition with_live (s : sdb) (a : addr) (f : obj -> obj) : res sdb :=
  match get_obj s a with
  | (Some o, s1) => Ok (set_obj s1 a (f o))
  | (None, _) => Panic
  end.

(* access_list.go:76-104 AddAddress, AddSlot, DeleteSlot, DeleteAddress *)
Definition al_add_address (al : alist) (a : addr) : alist * bool :=
  match aget (al_addr al) a with
  | Some _ => (al, false)
  | None => (Alist (aset (al_addr al) a None) (al_slots al), true)
  end.

Definition list_set {A} (l : list A) (i : nat) (x : A) : list A := firstn i l ++ x :: skipn (S i) l.

(* None: index out of range *)
Definition al_add_slot (al : alist) (a : addr) (k : word) : res (alist * (bool * bool)) :=
  match aget (al_addr al) a with
  | Some (Some idx) =>
    match nth_error (al_slots al) idx with
    | None => Panic
    | Some m => match aget m k with
                | Some _ => Ok (al, (false, false))
                | None => Ok (Alist (al_addr al) (list_set (al_slots al) idx (aset m k tt)), (false, true))
                end
    end
  | p => Ok (Alist (aset (al_addr al) a (Some (length (al_slots al)))) (al_slots al ++ [[(k, tt)]]),
             (match p with None => true | Some _ => false end, true))
  end.

Definition al_delete_slot (al : alist) (a : addr) (k : word) : res alist :=
  match aget (al_addr al) a with
  | Some (Some idx) =>
    match nth_error (al_slots al) idx with
    | None => Panic
    | Some m =>
      let m' := adel m k in
      match m' with
      | [] => Ok (Alist (aset (al_addr al) a None) (firstn idx (al_slots al)))
      | _ => Ok (Alist (al_addr al) (list_set (al_slots al) idx m'))
      end
    end
  | _ => Panic
  end.

Definition al_delete_address (al : alist) (a : addr) : alist := Alist (adel (al_addr al) a) (al_slots al).

(* access_list.go:26-43 ContainsAddress, Contains *)
Definition al_contains_address (al : alist) (a : addr) : bool :=
  match aget (al_addr al) a with Some _ => true | None => false end.
Definition al_contains (al : alist) (a : addr) (k : word) : res (bool * bool) :=
  match aget (al_addr al) a with
  | None => Ok (false, false)
  | Some None => Ok (true, false)
  | Some (Some idx) => match nth_error (al_slots al) idx with
                       | None => Panic
                       | Some m => Ok (true, match aget m k with Some _ => true | None => false end)
                       end
  end.

(* a cache multi-store holds the entries written to it and reads the rest from
   the store below.  overlay base ms st: what it shows over st when it shows ms
   over base.  (An entry written with the value it already had counts as not
   written here.) *)
Definition opt_eqb (x y : option N) : bool :=
  match x, y with Some a, Some b => N.eqb a b | None, None => true | _, _ => false end.
Definition code_eqb (x y : option bytes) : bool :=
  match x, y with Some a, Some b => beqb a b | None, None => true | _, _ => false end.
Definition overlay (base ms st : store) : store :=
  Store (fun a => if opt_eqb (st_acct base a) (st_acct ms a) then st_acct st a else st_acct ms a)
        (fun a => if st_bal base a =? st_bal ms a then st_bal st a else st_bal ms a)
        (fun a => if opt_eqb (st_chash base a) (st_chash ms a) then st_chash st a else st_chash ms a)
        (fun h => if code_eqb (st_code base h) (st_code ms h) then st_code st h else st_code ms h)
        (fun a k => if opt_eqb (st_stor base a k) (st_stor ms a k) then st_stor st a k else st_stor ms a k)
        (fun a => if st_locked base a =? st_locked ms a then st_locked st a else st_locked ms a)
        (fun a => if Bool.eqb (st_blocked base a) (st_blocked ms a) then st_blocked st a else st_blocked ms a)
        (if st_supply base =? st_supply ms then st_supply st else st_supply ms).

(* the Revert methods, journal.go:164-279.  A precompile call is undone by
   putting its copy of the cache back over the current store. *)
Definition revert_entry (s : sdb) (e : entry) : res sdb :=
  match e with
  | ECreate a => Ok (with_objs s (adel (d_objs s) a))
  | EReset a prev => Ok (set_obj s a prev)
  | ESuicide a prev prevbal =>
    match get_obj s a with
    | (Some o, s1) => Ok (set_obj s1 a (obj_set_balance (obj_set_suicided o prev) prevbal))
    | (None, s1) => Ok s1
    end
  | EBal a prev => with_live s a (fun o => obj_set_balance o prev)
  | ENonce a prev => with_live s a (fun o => obj_set_nonce o prev)
  | ECode a pc ph => with_live s a (fun o => obj_set_code o ph pc)
  | EStor a k prev => with_live s a (fun o => obj_set_state o k prev)
  | ERefund prev => Ok (with_refund s prev)
  | ELog => match d_logs s with [] => Panic | _ => Ok (with_logs s (removelast (d_logs s))) end
  | EAlAddr a => Ok (with_al s (al_delete_address (d_al s) a))
  | EAlSlot a k => rbind (al_delete_slot (d_al s) a k) (fun al => Ok (with_al s al))
  | EPre n base ms =>
    Ok (with_cache s (Some (if N.eqb n (d_commits s) then ms else overlay base ms (d_ctx s))))
  end.

(* the dirty count is decremented and dropped at zero, journal.go:83-87 *)
Definition drop_dirty (d : amap N) (a : addr) : amap N :=
  let c := (count d a - 1)%N in if N.eqb c 0 then adel d a else aset d a c.

(* one turn of the loop of journal.Revert, 77-90 *)
Definition pop (s : sdb) : res sdb :=
  match d_journal s with
  | [] => Ok s
  | e :: j =>
    rbind (revert_entry s e) (fun s1 =>
    Ok (with_journal s1 j (match dirtied e with Some a => drop_dirty (d_dirties s1) a | None => d_dirties s1 end)))
  end.

Fixpoint pops (n : nat) (s : sdb) : res sdb :=
  match n with O => Ok s | S n' => rbind (pop s) (pops n') end.

(* journal.Revert(statedb, snapshot) *)
Definition jrevert (s : sdb) (snapshot : nat) : res sdb := pops (length (d_journal s) - snapshot) s.

(* ------------------------------------------------------------------ *)
(* StateDB methods: statedb.go                                          *)
(* ------------------------------------------------------------------ *)

(* createObject 284-298 *)
Definition create_object (s : sdb) (a : addr) : obj * option obj * sdb :=
  let '(prev, s1) := get_obj s a in
  let newobj := blank_object in
  let s2 := match prev with None => jappend s1 (ECreate a) | Some p => jappend s1 (EReset a p) end in
  (newobj, prev, set_obj s2 a newobj).

(* getOrNewStateObject 274-280 *)
Definition get_or_new (s : sdb) (a : addr) : obj * sdb :=
  match get_obj s a with
  | (Some o, s1) => (o, s1)
  | (None, s1) => let '(o, _, s2) := create_object s1 a in (o, s2)
  end.

(* CreateAccount 310-315 *)
Definition create_account (s : sdb) (a : addr) : sdb :=
  let '(o, prev, s1) := create_object s a in
  match prev with
  | Some p => set_obj s1 a (obj_set_balance o (a_bal (o_acct p)))
  | None => s1
  end.

(* stateObject.SetBalance, state_object.go:118-124 *)
Definition set_balance (s : sdb) (a : addr) (o : obj) (amount : Z) : sdb :=
  set_obj (jappend s (EBal a (a_bal (o_acct o)))) a (obj_set_balance o amount).

(* AddBalance, SubBalance: statedb.go:360-373, state_object.go:99-115 *)
Definition add_balance (s : sdb) (a : addr) (amount : Z) : sdb :=
  let '(o, s1) := get_or_new s a in
  if amount =? 0 then s1 else set_balance s1 a o (a_bal (o_acct o) + amount).
Definition sub_balance (s : sdb) (a : addr) (amount : Z) : sdb :=
  let '(o, s1) := get_or_new s a in
  if amount =? 0 then s1 else set_balance s1 a o (a_bal (o_acct o) - amount).

(* SetNonce: statedb.go:376-381, state_object.go:196-203 *)
Definition set_nonce (s : sdb) (a : addr) (n : N) : sdb :=
  let '(o, s1) := get_or_new s a in
  set_obj (jappend s1 (ENonce a (a_nonce (o_acct o)))) a (obj_set_nonce o n).

(* SetCode: statedb.go:384-389, state_object.go:174-187.  code nil is None. *)
Definition set_code (s : sdb) (a : addr) (c : option bytes) : sdb :=
  let '(o, s1) := get_or_new s a in
  let '(prev, o1) := obj_code (d_ctx s1) o in
  set_obj (jappend s1 (ECode a prev (a_hash (o_acct o1)))) a
          (obj_set_code o1 (keccak (match c with Some b => b | None => [] end)) c).

(* SetState: statedb.go:392-397, state_object.go:241-254 *)
Definition set_state (s : sdb) (a : addr) (k v : word) : sdb :=
  let '(o, s1) := get_or_new s a in
  let '(prev, o1) := obj_state (d_ctx s1) a o k in
  if N.eqb prev v then set_obj s1 a o1
  else set_obj (jappend s1 (EStor a k prev)) a (obj_set_state o1 k v).

(* Suicide 404-418 *)
Definition suicide (s : sdb) (a : addr) : bool * sdb :=
  match get_obj s a with
  | (None, s1) => (false, s1)
  | (Some o, s1) =>
    (true, set_obj (jappend s1 (ESuicide a (o_suicided o) (a_bal (o_acct o)))) a
                   (obj_set_balance (obj_set_suicided o true) 0))
  end.

(* AddLog 127-135; the index is a uint *)
Definition add_log (s : sdb) (payload : N) : sdb :=
  let s1 := jappend s ELog in
  with_logs s1 (d_logs s1 ++ [(payload, (d_logbase s1 + N.of_nat (length (d_logs s1)))%N)]).

(* AddRefund, SubRefund 143-156; the counter is a uint64 *)
Definition add_refund (s : sdb) (g : N) : sdb :=
  with_refund (jappend s (ERefund (d_refund s))) ((d_refund s + g) mod 2 ^ 64)%N.
Definition sub_refund (s : sdb) (g : N) : res sdb :=
  let s1 := jappend s (ERefund (d_refund s)) in
  if (d_refund s1 <? g)%N then Panic else Ok (with_refund s1 (d_refund s1 - g)%N).

(* AddAddressToAccessList 447-451, AddSlotToAccessList 454-469 *)
Definition add_address (s : sdb) (a : addr) : sdb :=
  let '(al, added) := al_add_address (d_al s) a in
  let s1 := with_al s al in if added then jappend s1 (EAlAddr a) else s1.
Definition add_slot (s : sdb) (a : addr) (k : word) : res sdb :=
  rbind (al_add_slot (d_al s) a k) (fun '(al, (am, sm)) =>
  let s1 := with_al s al in
  let s2 := if am then jappend s1 (EAlAddr a) else s1 in
  Ok (if sm then jappend s2 (EAlSlot a k) else s2)).

(* PrepareAccessList 429-444 *)
Fixpoint add_addresses (s : sdb) (l : list addr) : sdb :=
  match l with [] => s | a :: l' => add_addresses (add_address s a) l' end.
Fixpoint add_slots (s : sdb) (a : addr) (l : list word) : res sdb :=
  match l with [] => Ok s | k :: l' => rbind (add_slot s a k) (fun s1 => add_slots s1 a l') end.
Fixpoint add_tuples (s : sdb) (l : list (addr * list word)) : res sdb :=
  match l with
  | [] => Ok s
  | (a, ks) :: l' => rbind (add_slots (add_address s a) a ks) (fun s1 => add_tuples s1 l')
  end.
Definition prepare_access_list (s : sdb) (sender : addr) (dst : option addr) (precompiles : list addr)
  (l : list (addr * list word)) : res sdb :=
  let s1 := add_address s sender in
  let s2 := match dst with Some d => add_address s1 d | None => s1 end in
  add_tuples (add_addresses s2 precompiles) l.

(* Snapshot 482-487 *)
Definition snapshot (s : sdb) : N * sdb :=
  (d_next s, with_revs s (d_revs s ++ [(d_next s, length (d_journal s))]) (d_next s + 1)%N).

(* sort.Search over the revisions: the first index whose id is at least revid
   (the ids are increasing, so binary search finds the first one) *)
Fixpoint search_rev (revs : list (N * nat)) (revid : N) : nat :=
  match revs with [] => O | (id, _) :: revs' => if (revid <=? id)%N then O else S (search_rev revs' revid) end.

(* RevertToSnapshot 490-503 *)
Definition revert_to_snapshot (s : sdb) (revid : N) : res sdb :=
  let idx := search_rev (d_revs s) revid in
  match nth_error (d_revs s) idx with
  | None => Panic
  | Some (id, snap) =>
    if negb (N.eqb id revid) then Panic else
    rbind (jrevert s snap) (fun s1 => Ok (with_revs s1 (firstn idx (d_revs s1)) (d_next s1)))
  end.

(* ------------------------------------------------------------------ *)
(* commit: statedb.go:507-555                                          *)
(* ------------------------------------------------------------------ *)

(* SetState of every dirty slot; a common.Hash always has 32 bytes, so the
   branch that deletes the slot (len(valueBytes) == 0) is never taken *)
Definition commit_slots (st : store) (a : addr) (o : obj) (ks : list word) : store :=
  fold_left (fun st k => match aget (o_dirty o) k with Some v => k_set_state st a k v | None => st end) ks st.

Definition commit_obj (st : store) (a : addr) (o : obj) : res store :=
  if o_suicided o then k_delete_account st a
  else
    let st1 := match o_code o with
               | Some c => if o_dirty_code o
                           then match c with [] => k_delete_code st (a_hash (o_acct o)) | _ => k_set_code st (a_hash (o_acct o)) c end
                           else st
               | None => st
               end in
    rbind (k_set_account st1 a (o_acct o)) (fun st2 =>
    Ok (commit_slots st2 a o (nsort (akeys (o_dirty o))))).

Fixpoint commit_addrs (st : store) (objs : amap obj) (l : list addr) : res store :=
  match l with
  | [] => Ok st
  | a :: l' => match aget objs a with
               | None => Panic
               | Some o => rbind (commit_obj st a o) (fun st1 => commit_addrs st1 objs l')
               end
  end.

Definition commit_with (st : store) (s : sdb) : res store :=
  commit_addrs st (d_objs s) (nsort (akeys (d_dirties s))).

(* Commit: first writeCache, which replaces ctx's content by the cache's *)
Definition commit (s : sdb) : res sdb :=
  let st := match d_cache s with Some c => c | None => d_ctx s end in
  rbind (commit_with st s) (fun st' =>
  Ok (with_commits (with_ctx (with_cache s (match d_cache s with Some _ => Some st' | None => None end)) st') (d_commits s + 1)%N)).

(* ------------------------------------------------------------------ *)
(* precompiles: precompiles/common/precompile.go:69-191 and the Run     *)
(* methods of the precompiles                                           *)
(* ------------------------------------------------------------------ *)

Inductive bal_change := BSub (a : addr) (v : Z) | BAdd (a : addr) (v : Z).

(* what the Run method of a precompile does between RunSetup and
   AddJournalEntries: it changes the cache context and succeeds with a list of
   balance changes to record, or fails; commit_first is the extra
   stateDB.Commit() of the chronos, hyperion, gov and logos precompiles
   (chronos.go:94, hyperion.go:107, gov.go:113, logos.go:90) *)
Record pre_run := PreRun {
  pr_addr : addr;
  pr_commit_first : bool;
  pr_effect : store -> store;
  pr_result : store -> option (list bal_change)
}.

Inductive pre_out := PreOk | PreMax | PreFailed.

Definition max_precompile_calls : N := 7.

(* AddJournalEntries 173-195 *)
Definition add_bal_change (s : sdb) (b : bal_change) : sdb :=
  match b with BSub a v => sub_balance s a v | BAdd a v => add_balance s a v end.

(* AddPrecompileFn, statedb.go:346-357; the counter is a uint8 *)
Definition add_precompile_fn (s : sdb) (a : addr) (n : N) (base ms : store) : pre_out * sdb :=
  let '(_, s1) := get_or_new s a in
  let s2 := jappend s1 (EPre n base ms) in
  let s3 := with_pre s2 ((d_pre s2 + 1) mod 256)%N in
  (if (max_precompile_calls <? d_pre s3)%N then PreMax else PreOk, s3).

(* RunSetup 75-146 (GetCacheContext, MultiStoreSnapshot, CommitWithCacheCtx)
   followed by Run and AddJournalEntries.  A failing commit leaves the cache
   with the accounts written before the failure; the model leaves it unchanged,
   which is one of the possible outcomes. *)
Definition precompile (s : sdb) (p : pre_run) : res (pre_out * sdb) :=
  let ms := match d_cache s with Some c => c | None => d_ctx s end in
  let s1 := with_cache s (Some ms) in
  match commit_with ms s1 with
  | Panic => Panic
  | Err => Ok (PreFailed, s1)
  | Ok c =>
    let s2 := with_cache s1 (Some c) in
    let run s3 :=
      let c3 := match d_cache s3 with Some c => c | None => d_ctx s3 end in
      let s4 := with_cache s3 (Some (pr_effect p c3)) in
      match pr_result p c3 with
      | None => Ok (PreFailed, s4)
      | Some bs => Ok (add_precompile_fn (fold_left add_bal_change bs s4) (pr_addr p) (d_commits s) (d_ctx s) ms)
      end in
    if pr_commit_first p then
      match commit s2 with
      | Panic => Panic
      | Err => Ok (PreFailed, s2)
      | Ok s3 => run s3
      end
    else run s2
  end.

(* ------------------------------------------------------------------ *)
(* the interface as one step function                                   *)
(* ------------------------------------------------------------------ *)

Inductive op :=
| Exist (a : addr) | Empty (a : addr) | GetBalance (a : addr) | GetNonce (a : addr)
| GetCode (a : addr) | GetCodeSize (a : addr) | GetCodeHash (a : addr)
| GetState (a : addr) (k : word) | GetCommittedState (a : addr) (k : word)
| GetRefund | HasSuicided (a : addr) | Logs
| AddBalance (a : addr) (v : Z) | SubBalance (a : addr) (v : Z)
| SetNonce (a : addr) (n : N) | SetCode (a : addr) (c : option bytes)
| SetState (a : addr) (k v : word) | Suicide (a : addr) | CreateAccount (a : addr)
| AddLog (payload : N) | AddRefund (g : N) | SubRefund (g : N)
| AddAddressToAccessList (a : addr) | AddSlotToAccessList (a : addr) (k : word)
| AddressInAccessList (a : addr) | SlotInAccessList (a : addr) (k : word)
| Snapshot | RevertToSnapshot (id : N)
| Precompile (p : pre_run).

Inductive out :=
| OUnit | OBool (b : bool) | OBool2 (b c : bool) | OInt (z : Z) | ONat (n : N)
| OBytes (b : bytes) | OLogs (l : list (N * N)) | OPre (r : pre_out).

Definition bytes_of (c : option bytes) : bytes := match c with Some b => b | None => [] end.

(* Code() through the live object, keeping what it caches *)
Definition read_code (s : sdb) (a : addr) : bytes * sdb :=
  match get_obj s a with
  | (None, s1) => ([], s1)
  | (Some o, s1) => let '(c, o1) := obj_code (d_ctx s1) o in (bytes_of c, set_obj s1 a o1)
  end.

Definition step (s : sdb) (x : op) : res (out * sdb) :=
  match x with
  | Exist a => let '(o, s1) := get_obj s a in Ok (OBool (match o with Some _ => true | None => false end), s1)
  | Empty a => let '(o, s1) := get_obj s a in Ok (OBool (match o with Some o => obj_empty o | None => true end), s1)
  | GetBalance a => let '(o, s1) := get_obj s a in Ok (OInt (match o with Some o => a_bal (o_acct o) | None => 0 end), s1)
  | GetNonce a => let '(o, s1) := get_obj s a in Ok (ONat (match o with Some o => a_nonce (o_acct o) | None => 0%N end), s1)
  | GetCode a => let '(c, s1) := read_code s a in Ok (OBytes c, s1)
  | GetCodeSize a => let '(c, s1) := read_code s a in Ok (ONat (N.of_nat (length c)), s1)
  | GetCodeHash a => let '(o, s1) := get_obj s a in Ok (ONat (match o with Some o => a_hash (o_acct o) | None => 0%N end), s1)
  | GetState a k =>
    match get_obj s a with
    | (None, s1) => Ok (ONat 0, s1)
    | (Some o, s1) => let '(v, o1) := obj_state (d_ctx s1) a o k in Ok (ONat v, set_obj s1 a o1)
    end
  | GetCommittedState a k =>
    match get_obj s a with
    | (None, s1) => Ok (ONat 0, s1)
    | (Some o, s1) => let '(v, o1) := obj_committed (d_ctx s1) a o k in Ok (ONat v, set_obj s1 a o1)
    end
  | GetRefund => Ok (ONat (d_refund s), s)
  | HasSuicided a => let '(o, s1) := get_obj s a in Ok (OBool (match o with Some o => o_suicided o | None => false end), s1)
  | Logs => Ok (OLogs (d_logs s), s)
  | AddBalance a v => Ok (OUnit, add_balance s a v)
  | SubBalance a v => Ok (OUnit, sub_balance s a v)
  | SetNonce a n => Ok (OUnit, set_nonce s a n)
  | SetCode a c => Ok (OUnit, set_code s a c)
  | SetState a k v => Ok (OUnit, set_state s a k v)
  | Suicide a => let '(b, s1) := suicide s a in Ok (OBool b, s1)
  | CreateAccount a => Ok (OUnit, create_account s a)
  | AddLog p => Ok (OUnit, add_log s p)
  | AddRefund g => Ok (OUnit, add_refund s g)
  | SubRefund g => rbind (sub_refund s g) (fun s1 => Ok (OUnit, s1))
  | AddAddressToAccessList a => Ok (OUnit, add_address s a)
  | AddSlotToAccessList a k => rbind (add_slot s a k) (fun s1 => Ok (OUnit, s1))
  | AddressInAccessList a => Ok (OBool (al_contains_address (d_al s) a), s)
  | SlotInAccessList a k => rbind (al_contains (d_al s) a k) (fun '(b, c) => Ok (OBool2 b c, s))
  | Snapshot => let '(id, s1) := snapshot s in Ok (ONat id, s1)
  | RevertToSnapshot id => rbind (revert_to_snapshot s id) (fun s1 => Ok (OUnit, s1))
  | Precompile p => rbind (precompile s p) (fun '(r, s1) => Ok (OPre r, s1))
  end.

Fixpoint run (s : sdb) (l : list op) : res (list out * sdb) :=
  match l with
  | [] => Ok ([], s)
  | x :: l' => rbind (step s x) (fun '(o, s1) => rbind (run s1 l') (fun '(os, s2) => Ok (o :: os, s2)))
  end.
End Keccak.
