(* memiavl multi-store and database: multitree.go, db.go, and the file system
   and write-ahead log they use.
   Trees are the value trees of Model.v with the cache switched off (C01 shows
   the cache is invisible, C05 that in-place mutation is).  A snapshot directory
   is kept as the multi-store value it encodes (C06 shows that opening what was
   written gives back the same nodes).  Versions and log positions are Z; C09
   shows the uint64/int64 conversions exact in range.  Calls of a DB are atomic
   (db.mtx); the background goroutines are split into the steps at which they
   touch the disk. *)
From Verif Require Import Lib.Base Lib.Bytes Memiavl.Model Memiavl.HashModel.
Open Scope Z_scope.

(* ---------------- wire types (iavl.proto, wal.proto) ---------------- *)

Record upgrade := Upgrade { up_name : bytes; up_rename_from : bytes; up_delete : bool }.
Record named_changes := Named { nc_name : bytes; nc_pairs : list kvpair }.
Record wal_entry := WalEntry { we_upgrades : list upgrade; we_changes : list named_changes }.
Definition empty_entry : wal_entry := WalEntry [] [].

(* Marshal followed by Unmarshal: protobuf does not distinguish an empty value
   from a missing one, so an empty value comes back nil *)
Definition wire_pair (p : kvpair) : kvpair :=
  KV (kv_delete p) (kv_key p) (match kv_value p with Some [] => None | v => v end).
Definition wire (e : wal_entry) : wal_entry :=
  WalEntry (we_upgrades e) (map (fun c => Named (nc_name c) (map wire_pair (nc_pairs c))) (we_changes e)).

(* ---------------- version arithmetic (multitree.go 424-445) ---------------- *)

(* multitree.go 424-429 nextVersion *)
Definition next_version (v init : Z) : Z := if (v =? 0) && (1 <? init) then init else v + 1.
(* multitree.go 432-437 walIndex *)
Definition wal_index (v init : Z) : Z := if 1 <? init then v - init + 1 else v.
(* multitree.go 440-445 walVersion *)
Definition wal_version (i init : Z) : Z := if 1 <? init then i + init - 1 else i.

(* the same with Go's conversions: v is an int64, init a uint32, the result a
   uint64; subtraction wraps *)
Definition u64 (z : Z) : Z := z mod 2 ^ 64.
Definition i64 (z : Z) : Z := (z + 2 ^ 63) mod 2 ^ 64 - 2 ^ 63.
Definition go_wal_index (v init : Z) : Z := if 1 <? init then u64 (u64 (u64 v - init) + 1) else u64 v.
Definition go_wal_version (i init : Z) : Z := if 1 <? init then i64 (i64 (i64 i + init) - 1) else i64 i.
Definition go_next_version (v init : Z) : Z := if (v =? 0) && (1 <? init) then init else i64 (v + 1).

(* ---------------- MultiTree ---------------- *)

(* commit_info.proto StoreInfo with its CommitID *)
Record store_info := StoreInfo { si_name : bytes; si_version : Z; si_hash : bytes }.

(* multitree.go 40-53 MultiTree: initialVersion, trees, lastCommitInfo.  The map
   treesByName is determined by the trees (names are distinct, see below). *)
Record mtree := MTree {
  mt_init : Z; mt_trees : list (bytes * tree); mt_version : Z; mt_infos : list store_info }.

Definition with_trees (m : mtree) (ts : list (bytes * tree)) : mtree :=
  MTree (mt_init m) ts (mt_version m) (mt_infos m).

(* multitree.go 111-116 TreeByName *)
Definition tree_by_name (m : mtree) (name : bytes) : option tree :=
  option_map snd (find (fun p => beqb (fst p) name) (mt_trees m)).

(* sort.SliceStable by name *)
Fixpoint insert_named {A} (x : bytes * A) (l : list (bytes * A)) : list (bytes * A) :=
  match l with
  | [] => [x]
  | y :: l' => if bltb (fst y) (fst x) then y :: insert_named x l' else x :: y :: l'
  end.
Fixpoint sort_named {A} (l : list (bytes * A)) : list (bytes * A) :=
  match l with [] => [] | x :: l' => insert_named x (sort_named l') end.

Fixpoint distinct_names {A} (l : list (bytes * A)) : bool :=
  match l with
  | [] => true
  | x :: l' => negb (existsb (fun y => beqb (fst y) (fst x)) l') && distinct_names l'
  end.

(* slices.IndexFunc by name *)
Fixpoint index_named {A} (l : list (bytes * A)) (name : bytes) : option nat :=
  match l with
  | [] => None
  | x :: l' => if beqb (fst x) name then Some O else option_map S (index_named l' name)
  end.

Fixpoint replace_at {A} (l : list A) (i : nat) (x : A) : list A :=
  match l, i with
  | [], _ => []
  | _ :: l', O => x :: l'
  | y :: l', S i' => y :: replace_at l' i' x
  end.

(* multitree.go 212-216: swap with the last element, then drop the last *)
Definition swap_delete {A} (l : list A) (i : nat) : list A :=
  match nth_error l (length l - 1) with
  | Some last => firstn (length l - 1) (replace_at l i last)
  | None => l
  end.

(* tree.go 60-66 NewWithInitialVersion *)
Definition new_tree_at (initial : Z) : tree := Tree (if initial <=? 1 then 0 else initial - 1) None None.

(* multitree.go 205-233: one upgrade *)
Definition apply_upgrade (m : mtree) (ts : list (bytes * tree)) (u : upgrade) : res (list (bytes * tree)) :=
  if up_delete u then
    match index_named ts (up_name u) with
    | None => Err
    | Some i => Ok (swap_delete ts i)
    end
  else match up_rename_from u with
  | _ :: _ =>
      match index_named ts (up_rename_from u) with
      | None => Err
      | Some i => match nth_error ts i with
                  | Some (_, t) => Ok (replace_at ts i (up_name u, t))
                  | None => Panic
                  end
      end
  | [] => Ok (ts ++ [(up_name u, new_tree_at (next_version (mt_version m) (mt_init m)))])
  end.

Fixpoint apply_upgrade_list (m : mtree) (ts : list (bytes * tree)) (us : list upgrade) : res (list (bytes * tree)) :=
  match us with
  | [] => Ok ts
  | u :: us' => rbind (apply_upgrade m ts u) (fun ts' => apply_upgrade_list m ts' us')
  end.

(* multitree.go 198-245 ApplyUpgrades *)
Definition apply_upgrades (m : mtree) (us : list upgrade) : res mtree :=
  match us with
  | [] => Ok m
  | _ =>
      rbind (apply_upgrade_list m (mt_trees m) us) (fun ts =>
        let ts' := sort_named ts in
        if distinct_names ts' then Ok (with_trees m ts') else Err)
  end.

(* replace the tree of that name *)
Definition put_tree (ts : list (bytes * tree)) (name : bytes) (t : tree) : list (bytes * tree) :=
  map (fun p => if beqb (fst p) name then (name, t) else p) ts.

(* multitree.go 248-255 ApplyChangeSet; Panic = nil dereference inside the tree *)
Definition mt_apply_change_set (m : mtree) (name : bytes) (ps : list kvpair) : res mtree :=
  match tree_by_name m name with
  | None => Err
  | Some t =>
      match apply_change_set t ps with
      | None => Panic
      | Some t' => Ok (with_trees m (put_tree (mt_trees m) name t'))
      end
  end.

(* multitree.go 258-265 ApplyChangeSets *)
Fixpoint mt_apply_change_sets (m : mtree) (cs : list named_changes) : res mtree :=
  match cs with
  | [] => Ok m
  | c :: cs' => rbind (mt_apply_change_set m (nc_name c) (nc_pairs c)) (fun m' => mt_apply_change_sets m' cs')
  end.

(* multitree.go 190-195 applyWALEntry *)
Definition apply_wal_entry (m : mtree) (e : wal_entry) : res mtree :=
  rbind (apply_upgrades m (we_upgrades e)) (fun m' => mt_apply_change_sets m' (we_changes e)).

Fixpoint save_trees (ts : list (bytes * tree)) : res (list (bytes * tree)) :=
  match ts with
  | [] => Ok []
  | (name, t) :: ts' =>
      rbind (save_version t) (fun t' => rbind (save_trees ts') (fun l => Ok ((name, t') :: l)))
  end.

Section Db.
Variable sha : bytes -> bytes.

(* multitree.go 292-308 buildCommitInfo *)
Definition build_infos (ts : list (bytes * tree)) : list store_info :=
  map (fun p => StoreInfo (fst p) (t_version (snd p)) (root_hash sha (t_root (snd p)))) ts.

(* multitree.go 312-314 UpdateCommitInfo *)
Definition update_commit_info (m : mtree) : mtree :=
  MTree (mt_init m) (mt_trees m) (mt_version m) (build_infos (mt_trees m)).

(* multitree.go 274-290 SaveVersion *)
Definition mt_save_version (m : mtree) (update : bool) : res mtree :=
  rbind (save_trees (mt_trees m)) (fun ts =>
    let m' := MTree (mt_init m) ts (next_version (mt_version m) (mt_init m)) [] in
    Ok (if update then update_commit_info m' else m')).

(* tree.go 101-112 setInitialVersion *)
Definition tree_set_initial (init : Z) (t : tree) : tree :=
  if 0 <? t_version t then t
  else Tree (if init <? 1 then 0 else init - 1) (t_root t) (t_cache t).

(* multitree.go 146-153 setInitialVersion *)
Definition mt_set_initial (m : mtree) (init : Z) : mtree :=
  MTree init
    (if 1 <? init then map (fun p => (fst p, tree_set_initial init (snd p))) (mt_trees m) else mt_trees m)
    (mt_version m) (mt_infos m).

(* multitree.go 62-108 LoadMultiTree of a snapshot directory *)
Definition load_multi_tree (snap : mtree) : mtree := mt_set_initial snap (mt_init snap).

(* ---------------- the write-ahead log (github.com/tidwall/wal) ---------------- *)

(* entries log_first, log_first + 1, ...; an empty log has last = first - 1 and
   a new one first = 1.  Read, Write, TruncateFront and TruncateBack return an
   error outside the range, as documented by the library. *)
Record wal := Wal { log_first : Z; log_entries : list wal_entry }.
Definition log_last (w : wal) : Z := log_first w + Z.of_nat (length (log_entries w)) - 1.

Definition log_read (w : wal) (i : Z) : res wal_entry :=
  if i <? log_first w then Err
  else match nth_error (log_entries w) (Z.to_nat (i - log_first w)) with Some e => Ok e | None => Err end.

Definition log_write (w : wal) (i : Z) (e : wal_entry) : res wal :=
  if i =? log_last w + 1 then Ok (Wal (log_first w) (log_entries w ++ [e])) else Err.

Definition truncate_front (w : wal) (i : Z) : res wal :=
  if (i <? log_first w) || (log_last w <? i) || (i <? 1) then Err
  else Ok (Wal i (skipn (Z.to_nat (i - log_first w)) (log_entries w))).

Definition truncate_back (w : wal) (i : Z) : res wal :=
  if (i <? log_first w) || (log_last w <? i) || (i <? 1) then Err
  else Ok (Wal (log_first w) (firstn (Z.to_nat (i - log_first w + 1)) (log_entries w))).

(* ---------------- CatchupWAL (multitree.go 317-360) ---------------- *)

(* 343-357: replay [count] entries starting at index i *)
Fixpoint replay (count : nat) (m : mtree) (w : wal) (i : Z) : res mtree :=
  match count with
  | O => Ok m
  | S c =>
      rbind (log_read w i) (fun e =>
      rbind (apply_wal_entry m (wire e)) (fun m1 =>
      rbind (mt_save_version m1 false) (fun m2 => replay c m2 w (i + 1))))
  end.

Definition catchup (m : mtree) (w : wal) (end_version : Z) : res mtree :=
  let last := log_last w in
  let first := wal_index (next_version (mt_version m) (mt_init m)) (mt_init m) in
  if last <? first then Ok m
  else
    let en := if end_version =? 0 then last else wal_index end_version (mt_init m) in
    if en <? first then Err
    else if last <? en then Err
    else rbind (replay (Z.to_nat (en - first + 1)) m w first) (fun m' => Ok (update_commit_info m')).

(* ---------------- the database directory ---------------- *)

(* snapshot directories sorted by version (os.ReadDir sorts by name and names
   are zero padded); the target of the link "current"; whether a link
   "current-tmp" exists; the log.  Temporary snapshot directories never matter:
   they are removed when opening (265-283). *)
Record disk := Disk { snaps : list (Z * mtree); current : Z; current_tmp : bool; log : wal }.

Definition find_snap (l : list (Z * mtree)) (v : Z) : option mtree :=
  option_map snd (find (fun p => fst p =? v) l).
Fixpoint add_snap (l : list (Z * mtree)) (v : Z) (m : mtree) : list (Z * mtree) :=
  match l with
  | [] => [(v, m)]
  | (u, x) :: l' => if u <? v then (u, x) :: add_snap l' v m else (v, m) :: (u, x) :: l'
  end.
Definition remove_snap (l : list (Z * mtree)) (v : Z) : list (Z * mtree) := filter (fun p => negb (fst p =? v)) l.

(* db.go 897-908 parseVersion: strconv.ParseInt with 32 bits *)
Definition parsable (v : Z) : bool := v <=? 2 ^ 31 - 1.

(* db.go 912-933 seekSnapshot over the versions in descending order *)
Fixpoint seek (versions_desc : list Z) (target : Z) : res Z :=
  match versions_desc with
  | [] => Err
  | v :: vs => if negb (parsable v) then Err else if v <=? target then Ok v else seek vs target
  end.
Definition versions_desc (d : disk) : list Z := rev (map fst (snaps d)).

(* db.go 143-192, 219-263 Load without rollback; target 0 = latest *)
Definition load (d : disk) (target : Z) : res mtree :=
  rbind (if 0 <? target then seek (versions_desc d) target else Ok (current d)) (fun sv =>
  match find_snap (snaps d) sv with
  | None => Err
  | Some snap =>
      let m := load_multi_tree snap in
      if (target =? 0) || (mt_version m <? target) then catchup m (log d) target else Ok m
  end).

(* db.go 207-217: remove snapshots above the target, newest first *)
Fixpoint drop_above (l : list (Z * mtree)) (versions_desc : list Z) (target : Z) : res (list (Z * mtree)) :=
  match versions_desc with
  | [] => Ok l
  | v :: vs => if negb (parsable v) then Err else if v <=? target then Ok l else drop_above (remove_snap l v) vs target
  end.

(* db.go 186-217 the three disk changes of a rollback, in order *)
Definition relink (d : disk) (sv : Z) : res disk :=
  if sv =? current d then Ok d
  else if current_tmp d then Err               (* os.Symlink: file exists *)
  else Ok (Disk (snaps d) sv false (log d)).
Definition cut_log (d : disk) (init target : Z) : res disk :=
  rbind (truncate_back (log d) (wal_index target init)) (fun w => Ok (Disk (snaps d) (current d) (current_tmp d) w)).
Definition drop_newer (d : disk) (target : Z) : res disk :=
  rbind (drop_above (snaps d) (versions_desc d) target) (fun l => Ok (Disk l (current d) (current_tmp d) (log d))).

(* db.go 143-263 Load with LoadForOverwriting and target > 0 *)
Definition rollback (d : disk) (target : Z) : res (disk * mtree) :=
  rbind (load d target) (fun m =>
  rbind (seek (versions_desc d) target) (fun sv =>
  rbind (relink d sv) (fun d1 =>
  rbind (cut_log d1 (mt_init m) target) (fun d2 =>
  rbind (drop_newer d2 target) (fun d3 => Ok (d3, m)))))).

(* ---------------- pruning (db.go 484-532) ---------------- *)

(* 497-516: the versions removed, newest first; counter = snapshots still to keep *)
Fixpoint victims (versions_desc : list Z) (cur : Z) (counter : Z) : res (list Z) :=
  match versions_desc with
  | [] => Ok []
  | v :: vs =>
      if negb (parsable v) then Err
      else if cur <=? v then victims vs cur counter
      else if 0 <? counter then victims vs cur (counter - 1)
      else rbind (victims vs cur counter) (fun l => Ok (v :: l))
  end.

(* 522-530 with firstSnapshotVersion (935-951): an error or version 0 gives 0;
   a failing truncation is only logged *)
Definition earliest (d : disk) : Z :=
  match snaps d with [] => 0 | (v, _) :: _ => if parsable v then v else 0 end.
Definition prune_log (d : disk) (init : Z) : disk :=
  match truncate_front (log d) (wal_index (earliest d + 1) init) with
  | Ok w => Disk (snaps d) (current d) (current_tmp d) w
  | _ => d
  end.
Definition prune_one (d : disk) (v : Z) : disk :=
  Disk (remove_snap (snaps d) v) (current d) (current_tmp d) (log d).

(* the whole goroutine run at once *)
Definition prune_all (d : disk) (keep init : Z) : disk :=
  if negb (parsable (current d)) then d else
  match victims (versions_desc d) (current d) keep with
  | Ok vs => prune_log (fold_left prune_one vs d) init
  | _ => d
  end.

(* ---------------- the running database ---------------- *)

(* progress of rewriteSnapshotBackground (734-774) and RewriteSnapshot
   (660-678): the copied multi-store, written to the temporary directory,
   renamed, linked, loaded and caught up *)
Inductive rewrite :=
| RNone | RCopied (m : mtree) | RWritten (m : mtree) | RRenamed (m : mtree) | RLinkTmp (m : mtree)
| RLinked | RLoaded (m : mtree) | RFailed.

(* db.go 44-81 DB *)
Record db := Db {
  d_disk : disk;
  d_mt : mtree;
  d_pending : wal_entry;
  d_async : bool;                      (* AsyncCommitBuffer >= 0 *)
  d_queue : list (Z * wal_entry);      (* walChan and the batch being written *)
  d_rewrite : rewrite;
  d_prune : option (list Z);           (* pruning goroutine: versions still to remove *)
  d_keep : Z }.

Definition set_disk (d : db) (k : disk) : db :=
  Db k (d_mt d) (d_pending d) (d_async d) (d_queue d) (d_rewrite d) (d_prune d) (d_keep d).
Definition set_rewrite (d : db) (r : rewrite) : db :=
  Db (d_disk d) (d_mt d) (d_pending d) (d_async d) (d_queue d) r (d_prune d) (d_keep d).

(* db.go 371-400: merge into the pending log *)
Fixpoint merge_pending (cs : list named_changes) (name : bytes) (ps : list kvpair) : option (list named_changes) :=
  match cs with
  | [] => None
  | c :: cs' => if beqb (nc_name c) name then Some (Named name (nc_pairs c ++ ps) :: cs')
                else option_map (cons c) (merge_pending cs' name ps)
  end.
Fixpoint insert_change (c : named_changes) (l : list named_changes) : list named_changes :=
  match l with
  | [] => [c]
  | y :: l' => if bltb (nc_name y) (nc_name c) then y :: insert_change c l' else c :: y :: l'
  end.
Fixpoint sort_changes (l : list named_changes) : list named_changes :=
  match l with [] => [] | c :: l' => insert_change c (sort_changes l') end.
Definition pend (cs : list named_changes) (name : bytes) (ps : list kvpair) : list named_changes :=
  match merge_pending cs name ps with
  | Some cs' => cs'
  | None => sort_changes (cs ++ [Named name ps])
  end.

Definition set_pending (d : db) (m : mtree) (p : wal_entry) : db :=
  Db (d_disk d) m p (d_async d) (d_queue d) (d_rewrite d) (d_prune d) (d_keep d).

(* A call on the database: its outcome and the database left behind even when it
   fails.  db.go 311-327 ApplyUpgrades (a failing call is not modelled further) *)
Definition db_apply_upgrades (d : db) (us : list upgrade) : res unit * db :=
  match apply_upgrades (d_mt d) us with
  | Ok m => (Ok tt, set_pending d m (WalEntry (we_upgrades (d_pending d) ++ us) (we_changes (d_pending d))))
  | Err => (Err, d)
  | Panic => (Panic, d)
  end.

(* db.go 371-400 applyChangeSet: the log is changed before the tree *)
Definition db_apply_change_set (d : db) (name : bytes) (ps : list kvpair) : res unit * db :=
  match ps with
  | [] => (Ok tt, d)
  | _ =>
      let p := WalEntry (we_upgrades (d_pending d)) (pend (we_changes (d_pending d)) name ps) in
      match mt_apply_change_set (d_mt d) name ps with
      | Ok m => (Ok tt, set_pending d m p)
      | Err => (Err, set_pending d (d_mt d) p)
      | Panic => (Panic, d)
      end
  end.

Fixpoint db_apply_each (d : db) (cs : list named_changes) : res unit * db :=
  match cs with
  | [] => (Ok tt, d)
  | c :: cs' =>
      match db_apply_change_set d (nc_name c) (nc_pairs c) with
      | (Ok _, d') => db_apply_each d' cs'
      | r => r
      end
  end.

(* multitree.go 258-265: the state reached when a call stops at an error *)
Fixpoint apply_prefix (m : mtree) (cs : list named_changes) : mtree :=
  match cs with
  | [] => m
  | c :: cs' => match mt_apply_change_set m (nc_name c) (nc_pairs c) with Ok m' => apply_prefix m' cs' | _ => m end
  end.

(* db.go 331-356 ApplyChangeSets *)
Definition db_apply_change_sets (d : db) (cs : list named_changes) : res unit * db :=
  match cs with
  | [] => (Ok tt, d)
  | _ =>
      match we_changes (d_pending d) with
      | [] =>
          let p := WalEntry (we_upgrades (d_pending d)) cs in
          match mt_apply_change_sets (d_mt d) cs with
          | Ok m => (Ok tt, set_pending d m p)
          | Err => (Err, set_pending d (apply_prefix (d_mt d) cs) p)
          | Panic => (Panic, d)
          end
      | _ => db_apply_each d cs
      end
  end.

Definition rlift {A} (r : res unit * A) : res A :=
  match r with (Ok _, d) => Ok d | (Err, _) => Err | (Panic, _) => Panic end.

(* db.go 586-606: the writer goroutine writes one queued entry *)
Definition flush_one (d : db) : res db :=
  match d_queue d with
  | [] => Err
  | (i, e) :: q =>
      rbind (log_write (log (d_disk d)) i e) (fun w =>
        Ok (Db (Disk (snaps (d_disk d)) (current (d_disk d)) (current_tmp (d_disk d)) w)
               (d_mt d) (d_pending d) (d_async d) q (d_rewrite d) (d_prune d) (d_keep d)))
  end.
Fixpoint flush_all (fuel : nat) (d : db) : res db :=
  match fuel with
  | O => Ok d
  | S f => rbind (flush_one d) (flush_all f)
  end.

(* db.go 426-481 checkBackgroundSnapshotRewrite when the result has arrived:
   wait for the log writer (443-453), catch up, switch, start pruning.  Starting
   to prune waits for a pruning run in progress: not enabled then. *)
Definition switch (d : db) : res db :=
  match d_rewrite d, d_prune d with
  | RLoaded m, None =>
      rbind (flush_all (length (d_queue d)) d) (fun d1 =>
      rbind (catchup m (log (d_disk d1)) 0) (fun m1 =>
      rbind (apply_wal_entry m1 (d_pending d1)) (fun m2 =>
        Ok (Db (d_disk d1) m2 (d_pending d1) (d_async d1) (d_queue d1) RNone
               (if parsable (current (d_disk d1)) then
                  match victims (versions_desc (d_disk d1)) (current (d_disk d1)) (d_keep d1) with
                  | Ok vs => Some vs
                  | _ => None
                  end
                else None)
               (d_keep d1)))))
  | RFailed, _ => Err
  | _, _ => Err
  end.

(* db.go 535-577 Commit; [arrived] = the result of the background rewrite is
   there when it is polled *)
Definition commit (d : db) (arrived : bool) : res db :=
  rbind (mt_save_version (d_mt d) true) (fun m =>
    let i := wal_index (mt_version m) (mt_init m) in
    rbind (if d_async d then
             Ok (Db (d_disk d) m empty_entry (d_async d) (d_queue d ++ [(i, d_pending d)]) (d_rewrite d) (d_prune d) (d_keep d))
           else
             rbind (log_write (log (d_disk d)) i (d_pending d)) (fun w =>
               Ok (Db (Disk (snaps (d_disk d)) (current (d_disk d)) (current_tmp (d_disk d)) w)
                      m empty_entry (d_async d) (d_queue d) (d_rewrite d) (d_prune d) (d_keep d))))
      (fun d1 => if arrived then switch d1 else Ok d1)).

(* db.go 734-745: start a background rewrite on a copy *)
Definition start_rewrite (d : db) : res db :=
  match d_rewrite d with RNone => Ok (set_rewrite d (RCopied (d_mt d))) | _ => Err end.

(* one disk step of the background rewrite *)
Definition rewrite_step (d : db) : res db :=
  let k := d_disk d in
  match d_rewrite d with
  | RCopied m => Ok (set_rewrite d (RWritten m))                              (* 671 *)
  | RWritten m =>                                                             (* 674 os.Rename *)
      match find_snap (snaps k) (mt_version m) with
      | Some _ => Ok (set_rewrite d RFailed)
      | None => Ok (set_rewrite (set_disk d (Disk (add_snap (snaps k) (mt_version m) m) (current k) (current_tmp k) (log k)))
                                (RRenamed m))
      end
  | RRenamed m =>                                                             (* 982 os.Symlink *)
      if current_tmp k then Ok (set_rewrite d RFailed)
      else Ok (set_rewrite (set_disk d (Disk (snaps k) (current k) true (log k))) (RLinkTmp m))
  | RLinkTmp m =>                                                             (* 986 os.Rename *)
      Ok (set_rewrite (set_disk d (Disk (snaps k) (mt_version m) false (log k))) RLinked)
  | RLinked =>                                                                (* 754-764 *)
      match find_snap (snaps k) (current k) with
      | None => Ok (set_rewrite d RFailed)
      | Some snap => match catchup (load_multi_tree snap) (log k) 0 with
                     | Ok m => Ok (set_rewrite d (RLoaded m))
                     | _ => Ok (set_rewrite d RFailed)
                     end
      end
  | RNone | RLoaded _ | RFailed => Err
  end.

(* one disk step of the pruning goroutine *)
Definition prune_step (d : db) : res db :=
  match d_prune d with
  | None => Err
  | Some (v :: vs) =>
      Ok (Db (prune_one (d_disk d) v) (d_mt d) (d_pending d) (d_async d) (d_queue d) (d_rewrite d) (Some vs) (d_keep d))
  | Some [] =>
      Ok (Db (prune_log (d_disk d) (mt_init (d_mt d))) (d_mt d) (d_pending d) (d_async d) (d_queue d) (d_rewrite d) None (d_keep d))
  end.

(* The process stops, everything in memory is gone, the log loses its last
   [lost] entries (it is opened with NoSync), and the database is opened again. *)
Definition lose (d : disk) (lost : nat) : disk :=
  Disk (snaps d) (current d) (current_tmp d)
       (Wal (log_first (log d)) (firstn (length (log_entries (log d)) - lost) (log_entries (log d)))).
Definition reopen (d : db) (lost : nat) : res db :=
  let k := lose (d_disk d) lost in
  rbind (load k 0) (fun m => Ok (Db k m empty_entry (d_async d) [] RNone None (d_keep d))).

Inductive step :=
| DUpgrades (us : list upgrade)
| DChangeSets (cs : list named_changes)
| DChangeSet (name : bytes) (ps : list kvpair)
| DCommit (arrived : bool)
| DFlush
| DRewrite
| DRewriteStep
| DPruneStep
| DReopen (lost : nat)
| DRollback (target : Z).

(* the process stops and the database is opened with LoadForOverwriting *)
Definition reopen_at (d : db) (target : Z) : res db :=
  rbind (rollback (d_disk d) target) (fun '(k, m) => Ok (Db k m empty_entry (d_async d) [] RNone None (d_keep d))).

Definition dstep (d : db) (s : step) : res db :=
  match s with
  | DUpgrades us => rlift (db_apply_upgrades d us)
  | DChangeSets cs => rlift (db_apply_change_sets d cs)
  | DChangeSet name ps => rlift (db_apply_change_set d name ps)
  | DCommit arrived => commit d arrived
  | DFlush => flush_one d
  | DRewrite => start_rewrite d
  | DRewriteStep => rewrite_step d
  | DPruneStep => prune_step d
  | DReopen lost => reopen d lost
  | DRollback target => reopen_at d target
  end.

(* A database directory holding one snapshot [base] and an empty log: a new
   database (953-972 initEmptyDB, version 0, no stores) or an imported one
   (import.go 27-129: initial version = imported version + 1), just opened *)
Definition fresh_disk (base : mtree) : disk := Disk [(mt_version base, base)] (mt_version base) false (Wal 1 []).
Definition fresh_db (base : mtree) (async : bool) (keep : Z) : db :=
  Db (fresh_disk base) base empty_entry async [] RNone None keep.
End Db.
