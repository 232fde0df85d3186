(* C73: the repair of misplaced data. *)
From Coq Require Import Sorting.Sorted.
From Verif Require Import Lib.Base Lib.Bytes Lib.Codec Versiondb.Model Versiondb.Spec Versiondb.Proofs Versiondb.History Versiondb.Iterate Versiondb.Fix Versiondb.PropsReads.
Open Scope Z_scope.

(* a database some writes of which have the height in the key *)
Definition db_of (es : list entry) : st := mk_st (puts [] es) (Some 9).

(* One run of the repair writes nothing but misplaced writes at their heights, takes nothing
   away but what was stored there, and touches no other store.  Each misplaced write can then
   be read at its height, unless it could be read there before and an older misplaced write of
   the same key has just been put in place.  Missing: the last case, see below. *)
Theorem C73_one_run_partial : forall s n, db_ok (s_db s) -> only_misplaced s n ->
  exists s', fix_store s n = Ok s' /\ s_latest s' = s_latest s /\
    (forall e, In e (s_db s') -> In e (s_db s) \/ exists k t v, misplaced s n k t v /\ e = right_entry n (k, t, v)) /\
    (forall e, In e (s_db s) -> In e (s_db s') \/ exists k v, misplaced s n k (e_ts e) v /\ e_key e = store_prefix n ++ k /\ In (right_entry n (k, e_ts e, v)) (s_db s')) /\
    (forall k t v, misplaced s n k t v -> shows s' n k t v \/
       (shows s n k t v /\ exists t' v', misplaced s n k t' v' /\ t' < t /\ ~ shows s n k t' v')).
Proof.
  intros s n H O. destruct (fix_ok s n H O) as (s' & E & H' & L & M & _). exists s'. split; [exact E|]. split; [exact L|].
  destruct (fix_runs s n H O 1) as (s1 & E1 & _ & _ & _ & _ & A1 & B1 & _).
  assert (s1 = s') as ->. { cbn [fix_times] in E1. rewrite E in E1. cbn [rbind] in E1. congruence. }
  split; [exact A1|]. split.
  - intros e He. destruct (B1 e He) as [X|(k & t & v & Mi & Ke & Te)]; [left; exact X|].
    assert (Dec : {In e (s_db s')} + {~ In e (s_db s')}).
    { apply in_dec. intros [a1 a2 a3] [b1 b2 b3]. destruct (bytes_eq_dec a1 b1) as [->|]; [|right; congruence]. destruct (Z.eq_dec a2 b2) as [->|]; [|right; congruence].
      destruct a3 as [x|], b3 as [y|]; [destruct (bytes_eq_dec x y) as [->|]; [left; reflexivity|right; congruence]|right; congruence|right; congruence|left; reflexivity]. }
    destruct Dec as [X|X]; [left; exact X|right]. exists k, v. rewrite Te. split; [exact Mi|]. split; [exact Ke|].
    apply M. left. exists k, t, v. split; [exact Mi|]. split; [|reflexivity]. intros Sh. apply X. apply M. right. split; [exact He|].
    intros k' t' v' Mi' Sh' [Ke' Te']. rewrite Ke in Ke'. apply app_inv_head in Ke'. subst k'. rewrite Te in Te'. subst t'.
    destruct Mi as [_ A], Mi' as [_ A']. pose proof (db_unique (s_db s) _ _ H A A' (conj eq_refl eq_refl)) as Q. apply (f_equal e_val) in Q. injection Q as ->. auto.
  - intros k t v. apply fix_shows; assumption.
Qed.
Print Assumptions C73_one_run_partial.

(* Runs repeated as often as there are entries put everything in place; from then on a further
   run changes nothing. *)
Theorem C73_enough_runs : forall s n m, db_ok (s_db s) -> only_misplaced s n -> (length (s_db s) < m)%nat ->
  exists s', fix_times m s n = Ok s' /\ (forall k t v, misplaced s n k t v -> shows s' n k t v) /\ fix_store s' n = Ok s' /\
    forall e, (forall r, e_key e <> store_prefix n ++ r) -> (In e (s_db s') <-> In e (s_db s)).
Proof.
  intros s n m H O L. destruct (fix_runs s n H O m) as (s' & E & H' & O' & _ & M & A & B & R). exists s'. split; [exact E|].
  assert (Sh : forall k t v, misplaced s n k t v -> shows s' n k t v). { intros k t v Mi. apply R; [exact Mi|]. pose proof (rank_bound s n k t). lia. }
  split; [exact Sh|]. split.
  - destruct (fix_ok s' n H' O') as (s2 & E2 & _ & _ & _ & Id). rewrite E2. f_equal. apply Id. intros k t v Mi. apply Sh. apply M. exact Mi.
  - intros e N. split; intros He.
    + destruct (A e He) as [X|(k & t & v & _ & ->)]; [exact X|]. destruct (N k eq_refl).
    + destruct (B e He) as [X|(k & t & v & _ & X & _)]; [exact X|]. destruct (N k X).
Qed.
Print Assumptions C73_enough_runs.

(* If every write of a history is stored, right or misplaced, then after enough runs every
   read at every height answers as the history says. *)
Theorem C73_history : forall s n ws m, db_ok (s_db s) -> damaged s n ws -> (length (s_db s) < m)%nat ->
  exists s', fix_times m s n = Ok s' /\ forall k h o, 0 <= h < 2 ^ 63 -> (get_at true s' n k (Some h) = o <-> holds ws k h o).
Proof.
  intros s n ws m H (D1 & Fu & Sep & D2) L.
  assert (O : only_misplaced s n).
  { intros d r v Hd Z K V. destruct (D2 d r Hd K) as [(k & t & o & Hw & ->)|(k & t & x & Hw & ->)].
    - cbn in Z. destruct (D1 _ _ _ Hw) as (T & _). lia.
    - cbn [wrong_entry e_key] in K. apply app_inv_head in K. exists k, t. split; [auto|]. destruct (D1 _ _ _ Hw) as (T & _). lia. }
  destruct (fix_runs s n H O m) as (s' & E & H' & _ & _ & M & A & B & R). exists s'. split; [exact E|].
  assert (Sh : forall k t v, misplaced s n k t v -> shows s' n k t v). { intros k t v Mi. apply R; [exact Mi|]. pose proof (rank_bound s n k t). lia. }
  assert (Mw : forall k t v, misplaced s n k t v -> In (k, t, Some v) ws).
  { intros k t v [T X]. destruct (D2 _ _ X eq_refl) as [(k' & t' & o & Hw & Q)|(k' & t' & v' & Hw & Q)].
    - apply (f_equal e_ts) in Q. cbn in Q. destruct (D1 _ _ _ Hw) as (T' & _). lia.
    - pose proof (f_equal e_key Q) as Q1. pose proof (f_equal e_val Q) as Q2. cbn [wrong_entry e_key e_val] in Q1, Q2. apply app_inv_head in Q1.
      destruct (D1 _ _ _ Hw) as (T' & _). apply le8_inj in Q1; [|unfold U64; lia|unfold U64; lia]. destruct Q1 as [-> ->]. injection Q2 as ->. exact Hw. }
  (* what the repaired store has above version 0 are writes of the history *)
  assert (G : forall d k, In d (s_db s') -> e_key d = store_prefix n ++ k -> 0 < e_ts d -> In (k, e_ts d, e_val d) ws).
  { intros d k Hd Kd Td. destruct (A d Hd) as [X|(k' & t & v & Mi & ->)].
    - destruct (D2 d k X Kd) as [(k' & t & o & Hw & ->)|(k' & t & v & Hw & ->)]; [|cbn in Td; lia]. cbn [e_key e_ts e_val] in *. apply app_inv_head in Kd. subst k'. exact Hw.
    - cbn [right_entry e_key e_ts e_val] in *. apply app_inv_head in Kd. subst k'. apply Mw. exact Mi. }
  (* at its own height, each write can be read *)
  assert (W : forall k t o, In (k, t, o) ws -> said (s_db s') n k t = o /\ exists d, newest (s_db s') (store_prefix n ++ k) t = Some d /\ (o <> None -> 0 < e_ts d)).
  { intros k t o Hw. destruct (D1 _ _ _ Hw) as (T & Ne & P).
    assert (P' : In (mk_entry (store_prefix n ++ k) t o) (s_db s') \/ exists v, misplaced s n k t v).
    { destruct P as [P|(v & -> & P)]; [|right; exists v; split; [lia|exact P]]. destruct (B _ P) as [X|(k' & t' & v & Mi & Kk & Tt)]; [left; exact X|].
      right. cbn [e_key e_ts] in Kk, Tt. apply app_inv_head in Kk. subst k' t'. exists v. exact Mi. }
    destruct P' as [P'|(v & Mi)].
    - assert (X : newest (s_db s') (store_prefix n ++ k) t = Some (mk_entry (store_prefix n ++ k) t o)).
      { apply newest_spec; [exact H'|]. split; [exact P'|]. split; [reflexivity|]. cbn. split; [lia|]. intros; lia. }
      split; [unfold said; rewrite X; reflexivity|]. eexists. split; [exact X|]. cbn. lia.
    - assert (Eo : o = Some v) by (apply (Fu k t); [exact Hw|apply Mw; exact Mi]). subst o.
      assert (X : said (s_db s') n k t = Some v).
      { destruct (Sh k t v Mi) as [X|[_ Ev]]; [|subst v; destruct (Ne eq_refl)]. rewrite get_said in X by (auto; unfold U64; lia). exact X. }
      split; [exact X|]. unfold said in X. destruct (newest (s_db s') (store_prefix n ++ k) t) as [d|] eqn:N; [|discriminate].
      exists d. split; [reflexivity|]. intros _. apply newest_in in N. destruct N as (Hd & Kd & _).
      assert (Td : 0 <= e_ts d) by (destruct H' as [_ F]; rewrite Forall_forall in F; apply (F d Hd)).
      destruct (Z.eq_dec (e_ts d) 0) as [Zd|]; [|lia]. exfalso. destruct (A d Hd) as [Y|(k' & t' & v' & [T' _] & ->)]; [|cbn in Zd; lia].
      destruct (D2 d k Y Kd) as [(k' & t' & o' & Hw' & ->)|(k' & t' & v' & Hw' & ->)].
      + cbn in Zd. destruct (D1 _ _ _ Hw') as (T' & _). lia.
      + cbn [wrong_entry e_key] in Kd. apply app_inv_head in Kd. apply (Sep _ _ _ _ _ _ Hw Hw'). auto. }
  assert (Fh : forall k h o o', holds ws k h o -> holds ws k h o' -> o = o').
  { intros k h o o' [(t & A1 & A2 & A3)|[-> A1]] [(t' & B1 & B2 & B3)|[-> B2]].
    - assert (t = t'). { specialize (A3 _ _ B1 B2). specialize (B3 _ _ A1 A2). lia. } subst t'. eapply Fu; eauto.
    - specialize (B2 _ _ A1). lia.
    - specialize (A1 _ _ B1). lia.
    - reflexivity. }
  assert (La : forall k h, (forall t o, In (k, t, o) ws -> h < t) \/ exists t o, In (k, t, o) ws /\ t <= h /\ forall t' o', In (k, t', o') ws -> t' <= h -> t' <= t).
  { intros k h. clear. induction ws as [|[[k1 t1] o1] r IH]; [left; intros t o []|].
    destruct (bytes_eq_dec k1 k) as [->|Nk].
    - destruct (Z.le_gt_cases t1 h) as [L1|L1].
      + right. destruct IH as [IH|(t & o & I1 & I2 & I3)].
        * exists t1, o1. split; [left; reflexivity|]. split; [exact L1|]. intros t' o' [Q|Q] L2; [injection Q as <- <-; lia|specialize (IH _ _ Q); lia].
        * destruct (Z.le_gt_cases t t1) as [L3|L3].
          -- exists t1, o1. split; [left; reflexivity|]. split; [exact L1|]. intros t' o' [Q|Q] L2; [injection Q as <- <-; lia|specialize (I3 _ _ Q L2); lia].
          -- exists t, o. split; [right; exact I1|]. split; [exact I2|]. intros t' o' [Q|Q] L2; [injection Q as <- <-; lia|exact (I3 _ _ Q L2)].
      + destruct IH as [IH|(t & o & I1 & I2 & I3)].
        * left. intros t o [Q|Q]; [injection Q as <- <-; lia|exact (IH _ _ Q)].
        * right. exists t, o. split; [right; exact I1|]. split; [exact I2|]. intros t' o' [Q|Q] L2; [injection Q as <- <-; lia|exact (I3 _ _ Q L2)].
    - destruct IH as [IH|(t & o & I1 & I2 & I3)].
      * left. intros t o [Q|Q]; [injection Q as Q1 _ _; contradiction|exact (IH _ _ Q)].
      * right. exists t, o. split; [right; exact I1|]. split; [exact I2|]. intros t' o' [Q|Q] L2; [injection Q as Q1 _ _; contradiction|exact (I3 _ _ Q L2)]. }
  intros k h o Hh. enough (Y : holds ws k h (get_at true s' n k (Some h))). { split; [intros <-; exact Y|intros Y'; exact (Fh _ _ _ _ Y Y')]. }
  unfold get_at. cbn [read_ts]. unfold u64. rewrite Z.mod_small by (unfold U64; lia). rewrite db_get_newest by (auto; unfold ts_ok, U64; lia).
  destruct (newest (s_db s') (store_prefix n ++ k) h) as [d|] eqn:N.
  - pose proof N as N0. apply newest_spec in N; [|exact H']. destruct N as (Hd & Kd & Ld & Mx).
    assert (Td : 0 <= e_ts d) by (destruct H' as [_ F]; rewrite Forall_forall in F; apply (F d Hd)).
    destruct (Z.eq_dec (e_ts d) 0) as [Zd|Zd].
    + assert ((match e_val d with Some v => Some (v, e_ts d) | None => None end) = match e_val d with Some v => Some (v, 0) | None => None end) as -> by (rewrite Zd; reflexivity).
      assert (Q : forall r, match (match e_val d with Some v => Some (v, 0) | None => None end) with Some (v, ts) => if true && (ts =? 0) then None else Some v | None => r end = match e_val d with Some _ => None | None => r end) by (intros r; destruct (e_val d); reflexivity).
      rewrite Q. assert (Y : holds ws k h None).
      { right. split; [reflexivity|]. intros t' o' Hw'. destruct (Z.le_gt_cases t' h) as [L1|]; [|lia]. exfalso.
        destruct (A d Hd) as [Y|(k' & t1 & v' & [T' _] & ->)]; [|cbn in Zd; lia].
        destruct (D2 d k Y Kd) as [(k' & t1 & o1 & Hw1 & ->)|(k' & t1 & v1 & Hw1 & ->)].
        - cbn in Zd. destruct (D1 _ _ _ Hw1) as (T' & _). lia.
        - cbn [wrong_entry e_key] in Kd. apply app_inv_head in Kd. apply (Sep _ _ _ _ _ _ Hw' Hw1). auto. }
      destruct (e_val d); exact Y.
    + assert (Q : match (match e_val d with Some v => Some (v, e_ts d) | None => None end) with Some (v, ts) => if true && (ts =? 0) then None else Some v | None => None end = e_val d).
      { destruct (e_val d); [|reflexivity]. cbn [andb]. destruct (Z.eqb_spec (e_ts d) 0); [lia|reflexivity]. }
      rewrite Q. pose proof (G d k Hd Kd ltac:(lia)) as Hw.
      destruct (La k h) as [La1|(t & o1 & I1 & I2 & I3)]; [specialize (La1 _ _ Hw); lia|]. left. exists t.
      assert (e_val d = o1) as ->; [|auto]. destruct (W k t o1 I1) as [S _]. rewrite <- S. unfold said.
      assert (newest (s_db s') (store_prefix n ++ k) t = Some d) as ->; [|reflexivity]. apply newest_spec; [exact H'|].
      split; [exact Hd|]. split; [exact Kd|]. split; [exact (I3 _ _ Hw Ld)|]. intros d' Hd' Kd' Ld'. apply Mx; auto. lia.
  - right. split; [reflexivity|]. intros t' o' Hw'. destruct (Z.le_gt_cases t' h) as [L1|]; [|lia]. exfalso.
    destruct (W k t' o' Hw') as (_ & d & Nd & _). apply newest_in in Nd. destruct Nd as (Hd & Kd & Ld). pose proof (proj1 (newest_none _ _ _) N d Hd Kd). lia.
Qed.
Print Assumptions C73_history.

(* two keys, one write right and two misplaced *)
Definition hurt : st := db_of [right_entry bank ([1]%N, 3, [10]%N); wrong_entry bank ([1]%N, 5, [20]%N); wrong_entry bank ([2]%N, 4, [30]%N)].
Definition hurt_history : list (bytes * Z * option bytes) := [([1]%N, 3, Some [10]%N); ([1]%N, 5, Some [20]%N); ([2]%N, 4, Some [30]%N)].
Lemma db_of_ok es : Forall ent_ok es -> db_ok (s_db (db_of es)).
Proof. intros F. apply puts_ok; [apply db_ok_nil|exact F]. Qed.
Definition at_fixed (m : nat) (s : st) (k : bytes) (hs : list Z) : list (option bytes) :=
  match fix_times m s bank with Ok s' => map (fun h => get_at true s' bank k (Some h)) hs | _ => [] end.
Example C73_case : db_ok (s_db hurt) /\ damaged hurt bank hurt_history /\ only_misplaced hurt bank /\
  at_fixed 0 hurt [1]%N [2; 3; 5; 9] = [None; Some [10]; Some [10]; Some [10]]%N /\
  at_fixed 4 hurt [1]%N [2; 3; 5; 9] = [None; Some [10]; Some [20]; Some [20]]%N /\ at_fixed 4 hurt [2]%N [3; 4] = [None; Some [30]]%N.
Proof.
  assert (L : s_db hurt = [right_entry bank ([1]%N, 3, [10]%N); wrong_entry bank ([1]%N, 5, [20]%N); wrong_entry bank ([2]%N, 4, [30]%N)]) by (vm_compute; reflexivity).
  split. { apply db_of_ok. repeat constructor; unfold ent_ok, ts_ok, U64; cbn; lia. }
  split; [|split; [|vm_compute; auto]].
  - split; [|split; [|split]].
    + intros k t o Hw. cbn [hurt_history In] in Hw. rewrite L.
      destruct Hw as [Q|[Q|[Q|[]]]]; injection Q as <- <- <-; (split; [lia|]); (split; [discriminate|]).
      * left. left. reflexivity.
      * right. eexists. split; [reflexivity|]. right. left. reflexivity.
      * right. eexists. split; [reflexivity|]. right. right. left. reflexivity.
    + intros k t o o' A B. cbn [hurt_history In] in A, B. destruct A as [Q|[Q|[Q|[]]]], B as [Q'|[Q'|[Q'|[]]]]; congruence.
    + intros k t o k' t' o' A B Q. apply (f_equal (@length N)) in Q. rewrite app_length, le_length in Q.
      cbn [hurt_history In] in A, B. destruct A as [E|[E|[E|[]]]]; injection E as <- <- <-; cbn in Q; lia.
    + intros d r Hd Kd. rewrite L in Hd. destruct Hd as [<-|[<-|[<-|[]]]].
      * left. do 3 eexists. split; [left; reflexivity|reflexivity].
      * right. do 3 eexists. split; [right; left; reflexivity|reflexivity].
      * right. do 3 eexists. split; [right; right; left; reflexivity|reflexivity].
  - intros d r v Hd Z Kd V. rewrite L in Hd. destruct Hd as [<-|[<-|[<-|[]]]]; cbn [wrong_entry right_entry e_key e_ts] in Kd, Z; [lia| |]; apply app_inv_head in Kd; subst r; do 2 eexists; (split; [reflexivity|lia]).
Qed.

(* The operation is documented as idempotent; it is not: the value of height 3 was there
   before, from height 1, so the first run leaves it out while putting height 2 in between. *)
Definition thrice : st := db_of [right_entry bank ([1]%N, 1, [10]%N); wrong_entry bank ([1]%N, 2, [20]%N); wrong_entry bank ([1]%N, 3, [10]%N)].
Theorem C73_idempotent_refuted : exists s, only_misplaced s bank /\ misplaced s bank [1]%N 3 [10]%N /\
  at_fixed 0 s [1]%N [2; 3] = [Some [10]; Some [10]]%N /\ at_fixed 1 s [1]%N [2; 3] = [Some [20]; Some [20]]%N /\ at_fixed 2 s [1]%N [2; 3] = [Some [20]; Some [10]]%N.
Proof.
  exists thrice.
  assert (L : s_db thrice = [right_entry bank ([1]%N, 1, [10]%N); wrong_entry bank ([1]%N, 2, [20]%N); wrong_entry bank ([1]%N, 3, [10]%N)]) by (vm_compute; reflexivity).
  split; [|split; [|vm_compute; auto]].
  - intros d r v Hd Z Kd V. rewrite L in Hd. destruct Hd as [<-|[<-|[<-|[]]]]; cbn [wrong_entry right_entry e_key e_ts] in Kd, Z; [lia| |]; apply app_inv_head in Kd; subst r; do 2 eexists; (split; [reflexivity|lia]).
  - split; [lia|]. rewrite L. right. right. left. reflexivity.
Qed.
Print Assumptions C73_idempotent_refuted.
(* A misplaced deletion is never put in place: the key reads as before it. *)
Theorem C73_deletion_refuted : exists s k, In (mk_entry (store_prefix bank ++ k ++ le 8 5) 0 None) (s_db s) /\ forall m, fix_times m s bank = Ok s /\ get_at true s bank k (Some 5) = Some [10]%N.
Proof.
  exists (db_of [right_entry bank ([1]%N, 3, [10]%N); mk_entry (store_prefix bank ++ [1]%N ++ le 8 5) 0 None]), [1]%N. split; [vm_compute; auto|].
  intros m. split; [|vm_compute; reflexivity]. induction m as [|m IH]; [reflexivity|]. cbn [fix_times].
  assert (fix_store (db_of [right_entry bank ([1]%N, 3, [10]%N); mk_entry (store_prefix bank ++ [1]%N ++ le 8 5) 0 None]) bank = Ok (db_of [right_entry bank ([1]%N, 3, [10]%N); mk_entry (store_prefix bank ++ [1]%N ++ le 8 5) 0 None])) as -> by (vm_compute; reflexivity).
  cbn [rbind]. exact IH.
Qed.
Print Assumptions C73_deletion_refuted.
(* One genuine write at version 0 with a short key stops the repair of its store. *)
Theorem C73_short_key_refuted : exists s k, misplaced s bank k 5 [20]%N /\ fix_store s bank = Err.
Proof.
  exists (db_of [right_entry bank ([9]%N, 0, [1]%N); wrong_entry bank ([1]%N, 5, [20]%N)]), [1]%N. split; [split; [lia|vm_compute; auto]|vm_compute; reflexivity].
Qed.
Print Assumptions C73_short_key_refuted.

(* ---- several stores ---- *)
(* two databases with the same entries in store n *)
Definition same_store (n : bytes) (a b : st) : Prop := forall e r, e_key e = store_prefix n ++ r -> (In e (s_db a) <-> In e (s_db b)).
Lemma same_newest n a b k t : db_ok (s_db a) -> db_ok (s_db b) -> same_store n a b ->
  newest (s_db a) (store_prefix n ++ k) t = newest (s_db b) (store_prefix n ++ k) t.
Proof.
  intros Ha Hb E. destruct (newest (s_db a) (store_prefix n ++ k) t) as [d|] eqn:N; symmetry.
  - apply newest_spec in N; [|exact Ha]. destruct N as (A1 & A2 & A3 & A4). apply newest_spec; [exact Hb|].
    split; [exact (proj1 (E d k A2) A1)|]. split; [exact A2|]. split; [exact A3|]. intros d' Hd' K' T'. apply A4; auto. exact (proj2 (E d' k K') Hd').
  - apply newest_none. intros d Hd Kd. exact (proj1 (newest_none _ _ _) N d (proj2 (E d k Kd) Hd) Kd).
Qed.
Lemma same_shows n a b k t v : db_ok (s_db a) -> db_ok (s_db b) -> same_store n a b -> 0 <= t < U64 -> (shows a n k t v <-> shows b n k t v).
Proof.
  intros Ha Hb E T. unfold shows. rewrite !get_said by assumption. unfold said. rewrite (same_newest n a b k t Ha Hb E). reflexivity.
Qed.
Lemma same_misplaced n a b k t v : same_store n a b -> (misplaced a n k t v <-> misplaced b n k t v).
Proof. intros E. unfold misplaced. rewrite (E (wrong_entry n (k, t, v)) (k ++ le 8 t) eq_refl). reflexivity. Qed.
Lemma same_only n a b : same_store n a b -> only_misplaced a n -> only_misplaced b n.
Proof. intros E O d r v Hd Z K V. apply (O d r v); auto. exact (proj2 (E d r K) Hd). Qed.
Lemma same_fixed n a b a' b' : db_ok (s_db a) -> db_ok (s_db b) -> only_misplaced a n -> same_store n a b ->
  fix_store a n = Ok a' -> fix_store b n = Ok b' -> same_store n a' b'.
Proof.
  intros Ha Hb O E Fa Fb. destruct (fix_ok a n Ha O) as (a1 & Ea & _ & _ & Ma & _). destruct (fix_ok b n Hb (same_only n a b E O)) as (b1 & Eb & _ & _ & Mb & _).
  rewrite Fa in Ea. injection Ea as <-. rewrite Fb in Eb. injection Eb as <-.
  assert (Q : forall k t v, (misplaced a n k t v /\ ~ shows a n k t v) <-> (misplaced b n k t v /\ ~ shows b n k t v)).
  { intros k t v. rewrite (same_misplaced n a b k t v E). split; intros [Mi Sh]; (split; [exact Mi|]); intro X; apply Sh;
    apply (same_shows n a b k t v Ha Hb E); auto; destruct Mi as [T _]; unfold U64; lia. }
  intros e r Ke. rewrite Ma, Mb. split.
  - intros [(k & t & v & Mi & Sh & ->)|[He N]].
    + left. exists k, t, v. destruct (proj1 (Q k t v) (conj Mi Sh)) as [Mi' Sh']. auto.
    + right. split; [exact (proj1 (E e r Ke) He)|]. intros k t v Mi Sh. destruct (proj2 (Q k t v) (conj Mi Sh)) as [Mi' Sh']. exact (N k t v Mi' Sh').
  - intros [(k & t & v & Mi & Sh & ->)|[He N]].
    + left. exists k, t, v. destruct (proj2 (Q k t v) (conj Mi Sh)) as [Mi' Sh']. auto.
    + right. split; [exact (proj2 (E e r Ke) He)|]. intros k t v Mi Sh. destruct (proj1 (Q k t v) (conj Mi Sh)) as [Mi' Sh']. exact (N k t v Mi' Sh').
Qed.
Lemma fix_elsewhere n s s' e : db_ok (s_db s) -> only_misplaced s n -> fix_store s n = Ok s' -> (forall r, e_key e <> store_prefix n ++ r) ->
  (In e (s_db s') <-> In e (s_db s)).
Proof.
  intros H O E Ke. destruct (fix_ok s n H O) as (s1 & E1 & _ & _ & M & _). rewrite E in E1. injection E1 as <-. rewrite M. split.
  - intros [(k & t & v & _ & _ & ->)|[He _]]; [destruct (Ke k eq_refl)|exact He].
  - intros He. right. split; [exact He|]. intros k t v _ _ [X _]. exact (Ke k X).
Qed.

(* A run over several stores does to each of them what a run over it alone does, and leaves
   everything else alone. *)
Theorem C73_all_stores : forall names s, db_ok (s_db s) -> NoDup names -> (forall n, In n names -> plain_name n /\ only_misplaced s n) ->
  exists s', fix_data s names = Ok s' /\ s_latest s' = s_latest s /\
    (forall n, In n names -> exists alone, fix_store s n = Ok alone /\ same_store n s' alone) /\
    (forall e, (forall n r, In n names -> e_key e <> store_prefix n ++ r) -> (In e (s_db s') <-> In e (s_db s))).
Proof.
  induction names as [|n r IH]; intros s H ND P.
  - exists s. split; [reflexivity|]. split; [reflexivity|]. split; [intros n []|]. intros e _. reflexivity.
  - pose proof (NoDup_cons_iff n r) as Q. apply (proj1 Q) in ND. destruct ND as [Nn ND]. clear Q.
    destruct (P n (or_introl eq_refl)) as [Pn On]. destruct (fix_ok s n H On) as (s1 & E1 & H1 & L1 & _).
    assert (Ss : forall m, In m r -> same_store m s s1).
    { intros m Hm e q Ke. symmetry. apply (fix_elsewhere n s s1 e H On E1). intros q' K'. rewrite Ke in K'.
      destruct (prefix_inj m q n q' (proj1 (P m (or_intror Hm))) Pn K') as [-> _]. exact (Nn Hm). }
    destruct (IH s1 H1 ND) as (s' & E & L & S' & F).
    { intros m Hm. split; [exact (proj1 (P m (or_intror Hm)))|]. exact (same_only m s s1 (Ss m Hm) (proj2 (P m (or_intror Hm)))). }
    exists s'. split; [cbn [fix_data]; rewrite E1; exact E|]. split; [congruence|]. split.
    + intros m [<-|Hm].
      * exists s1. split; [exact E1|]. intros e q Ke. apply F. intros m q' Hm K'. rewrite Ke in K'.
        destruct (prefix_inj n q m q' Pn (proj1 (P m (or_intror Hm))) K') as [-> _]. exact (Nn Hm).
      * destruct (S' m Hm) as (a & Ea & Sa). destruct (fix_ok s m H (proj2 (P m (or_intror Hm)))) as (b & Eb & _). exists b. split; [exact Eb|].
        intros e q Ke. rewrite (Sa e q Ke). symmetry. exact (same_fixed m s s1 b a H H1 (proj2 (P m (or_intror Hm))) (Ss m Hm) Eb Ea e q Ke).
    + intros e Ke. rewrite F by (intros m q Hm; apply Ke; right; exact Hm). apply (fix_elsewhere n s s1 e H On E1). intros q. apply Ke. left. reflexivity.
Qed.
Print Assumptions C73_all_stores.
Example C73_all_stores_ex : let s := db_of [wrong_entry bank ([1]%N, 2, [20]%N); wrong_entry [97]%N ([1]%N, 3, [30]%N)] in
  match fix_data s [bank; [97]%N] with
  | Ok s' => get_at true s bank [1]%N (Some 2) = None /\ get_at true s' bank [1]%N (Some 2) = Some [20]%N /\ get_at true s' [97]%N [1]%N (Some 3) = Some [30]%N
  | _ => False
  end.
Proof. vm_compute. auto. Qed.
