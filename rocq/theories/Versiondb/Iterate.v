(* Iterators walk over exactly the pairs of their range. *)
From Coq Require Import Sorting.Sorted.
From Verif Require Import Lib.Base Lib.Bytes Lib.Codec Versiondb.Model Versiondb.Spec Versiondb.Proofs Versiondb.History.
Open Scope Z_scope.

Definition ilt (a b : item) : Prop := blt (i_key a) (i_key b).
Definition item_entry (x : item) : entry := mk_entry (i_key x) (i_ts x) (Some (i_val x)).

Lemma newest_cons d r k t : newest (d :: r) k t = if hit k t d then Some d else newest r k t.
Proof. reflexivity. Qed.
Lemma visible_in t : forall db done x, db_ok db -> (forall k d, done = Some k -> In d db -> ble k (e_key d)) ->
  (In x (visible t done db) <-> newest db (i_key x) t = Some (item_entry x) /\ done <> Some (i_key x)).
Proof.
  induction db as [|d r IH]; intros done x [S F] D.
  - cbn. split; [intros []|intros [H _]; discriminate].
  - inversion S as [|? ? Sr Sd]; subst. rewrite Forall_forall in Sd.
    assert (Hr : db_ok r) by (split; [exact Sr|exact (Forall_inv_tail F)]).
    assert (Dr : forall k y, done = Some k -> In y r -> ble k (e_key y)) by (intros k y E Hy; apply (D k y E); right; exact Hy).
    cbn [visible]. rewrite newest_cons. destruct (t <? e_ts d) eqn:T; cbn [orb].
    + rewrite IH by assumption. assert (hit (i_key x) t d = false) as ->; [|reflexivity].
      apply not_true_iff_false. rewrite hit_iff. intros [_ H]. apply Z.ltb_lt in T. lia.
    + apply Z.ltb_ge in T. destruct (match done with Some k => beqb k (e_key d) | None => false end) eqn:Q.
      * destruct done as [k|]; [|discriminate]. apply beqb_spec in Q. subst k. rewrite IH by assumption.
        destruct (bytes_eq_dec (i_key x) (e_key d)) as [E|E].
        -- rewrite E. split; intros [_ H]; exfalso; apply H; reflexivity.
        -- assert (hit (i_key x) t d = false) as ->; [|reflexivity]. apply not_true_iff_false. rewrite hit_iff. intros [H _]. congruence.
      * assert (Hd : done <> Some (e_key d)) by (intros ->; rewrite beqb_refl in Q; discriminate).
        assert (D2 : forall k y, Some (e_key d) = Some k -> In y r -> ble k (e_key y)).
        { intros k y E Hy. inversion E; subst k. destruct (Sd y Hy) as [A|[A _]]; [apply blt_le; exact A|rewrite A; apply ble_refl]. }
        assert (X : In x (visible t (Some (e_key d)) r) <-> newest r (i_key x) t = Some (item_entry x) /\ i_key x <> e_key d).
        { rewrite IH by assumption. split; intros [H N]; (split; [exact H|]); intros E; apply N; congruence. }
        destruct (bytes_eq_dec (i_key x) (e_key d)) as [E|E].
        -- assert (hit (i_key x) t d = true) as -> by (apply hit_iff; auto).
           destruct (e_val d) as [v|] eqn:V.
           ++ cbn [In]. rewrite X. split.
              ** intros [<-|[_ H]]; [|congruence]. split; [|cbn; exact Hd]. unfold item_entry. cbn. rewrite <- V. destruct d; reflexivity.
              ** intros [H _]. left. inversion H as [H']. destruct x as [kx vx tx]. unfold item_entry in H'. cbn in *. rewrite H' in *. cbn in *. congruence.
           ++ rewrite X. split; [intros [_ H]; congruence|]. intros [H _]. inversion H as [H']. exfalso. rewrite H' in V. discriminate.
        -- assert (hit (i_key x) t d = false) as -> by (apply not_true_iff_false; rewrite hit_iff; intros [H _]; congruence).
           assert (Y : newest r (i_key x) t = Some (item_entry x) -> done <> Some (i_key x)).
           { intros H. apply newest_in in H. destruct H as [H _]. intros ->. specialize (D (i_key x) d eq_refl (or_introl eq_refl)).
             destruct (Sd _ H) as [A|[A _]]; cbn in A.
             - apply (ble_not_lt (i_key x) (e_key d)) in D. exact (D A).
             - congruence. }
           destruct (e_val d) as [v|].
           ++ cbn [In]. rewrite X. split.
              ** intros [<-|[H _]]; [cbn in E; congruence|]. auto.
              ** intros [H _]. right. auto.
           ++ rewrite X. split; [intros [H _]; auto|intros [H _]; auto].
Qed.
Lemma visible_keys t : forall db done x, In x (visible t done db) -> exists d, In d db /\ i_key x = e_key d.
Proof.
  induction db as [|d r IH]; intros done x H; [destruct H|]. cbn [visible] in H.
  destruct (_ || _).
  - destruct (IH _ _ H) as (y & A & B). exists y. split; [right; exact A|exact B].
  - destruct (e_val d).
    + destruct H as [<-|H]; [exists d; split; [left; reflexivity|reflexivity]|]. destruct (IH _ _ H) as (y & A & B). exists y. split; [right; exact A|exact B].
    + destruct (IH _ _ H) as (y & A & B). exists y. split; [right; exact A|exact B].
Qed.
Lemma visible_done t : forall db k x, db_ok db -> (forall d, In d db -> ble k (e_key d)) -> In x (visible t (Some k) db) -> blt k (i_key x).
Proof.
  intros db k x H D Hx. pose proof (visible_keys _ _ _ _ Hx) as (d & Hd & E). apply (proj1 (visible_in t db (Some k) x H ltac:(intros k' d' K Hd'; inversion K; subst; auto))) in Hx.
  destruct Hx as [_ N]. specialize (D d Hd). apply ble_lt_or_eq in D. rewrite E in *. destruct D as [D| ->]; [exact D|congruence].
Qed.
Lemma visible_sorted t : forall db done, db_ok db -> StronglySorted ilt (visible t done db).
Proof.
  induction db as [|d r IH]; intros done [S F]; [constructor|]. inversion S as [|? ? Sr Sd]; subst. rewrite Forall_forall in Sd.
  assert (Hr : db_ok r) by (split; [exact Sr|exact (Forall_inv_tail F)]).
  cbn [visible]. destruct (_ || _); [apply IH; exact Hr|]. destruct (e_val d); [|apply IH; exact Hr].
  constructor; [apply IH; exact Hr|]. apply Forall_forall. intros x Hx. unfold ilt. cbn [i_key]. eapply visible_done; [exact Hr| |exact Hx].
  intros y Hy. destruct (Sd y Hy) as [A|[A _]]; [apply blt_le; exact A|rewrite A; apply ble_refl].
Qed.

(* ---- cursors ---- *)
Definition rest (i : iter) : list item :=
  if it_rev i then match c_right (it_cur i) with [] => [] | x :: _ => x :: c_left (it_cur i) end else c_right (it_cur i).
(* an item inside the far bound *)
Definition inside (i : iter) (x : item) : bool :=
  if it_rev i then match it_start i with Some s => negb (bltb (i_key x) s) | None => true end
  else match it_end i with Some e => bltb (i_key x) e | None => true end.
Definition kept (i : iter) (x : item) : bool := negb (it_skip i && (i_ts x =? 0)).
Fixpoint take_while {A} (f : A -> bool) (l : list A) : list A :=
  match l with [] => [] | x :: r => if f x then x :: take_while f r else [] end.
Definition todo (i : iter) : list item := filter (kept i) (take_while (inside i) (rest i)).


Lemma rest_move i x l : rest i = x :: l -> rest (move i) = l.
Proof.
  unfold rest, move. cbn [it_rev it_cur]. destruct (it_rev i).
  - destruct (it_cur i) as [[|y l'] [|z r]]; cbn; intros H; inversion H; reflexivity.
  - destruct (it_cur i) as [l' [|z r]]; cbn; intros H; inversion H; reflexivity.
Qed.
Lemma head_rest i : match c_right (it_cur i) with [] => rest i = [] | x :: _ => exists l, rest i = x :: l end.
Proof.
  unfold rest. destruct (c_right (it_cur i)) as [|x r]; destruct (it_rev i); auto; eexists; reflexivity.
Qed.
Lemma valid_rest i : valid i = match rest i with [] => false | x :: _ => inside i x end.
Proof.
  unfold valid, inside. pose proof (head_rest i) as H. destruct (c_right (it_cur i)) as [|x r]; [rewrite H; reflexivity|].
  destruct H as [l ->]. reflexivity.
Qed.
(* moving keeps the settings *)
Definition alike (i j : iter) : Prop := it_start i = it_start j /\ it_end i = it_end j /\ it_rev i = it_rev j /\ it_skip i = it_skip j.
Lemma alike_inside i j : alike i j -> inside i = inside j /\ kept i = kept j.
Proof. intros (A & B & C & D). unfold inside, kept. rewrite A, B, C, D. auto. Qed.
Lemma alike_move i : alike (move i) i.
Proof. unfold alike. cbn. auto. Qed.
Lemma alike_trans a b c : alike a b -> alike b c -> alike a c.
Proof. unfold alike. intuition congruence. Qed.
Lemma todo_of i : todo i = match rest i with [] => [] | x :: l => if inside i x then (if kept i x then [x] else []) ++ filter (kept i) (take_while (inside i) l) else [] end.
Proof.
  unfold todo. destruct (rest i) as [|x l]; [reflexivity|]. cbn [take_while]. destruct (inside i x); [|reflexivity].
  cbn [filter]. destruct (kept i x); reflexivity.
Qed.
Lemma todo_move i x l : rest i = x :: l -> todo (move i) = filter (kept i) (take_while (inside i) l).
Proof.
  intros H. unfold todo. rewrite (rest_move i x l H). destruct (alike_inside _ _ (alike_move i)) as [-> ->]. reflexivity.
Qed.
Lemma skip_zero_spec : forall f i, (length (rest i) <= f)%nat ->
  todo (skip_zero f i) = todo i /\ alike (skip_zero f i) i /\ (length (rest (skip_zero f i)) <= length (rest i))%nat /\
  (valid (skip_zero f i) = true -> exists x l, rest (skip_zero f i) = x :: l /\ inside i x = true /\ kept i x = true).
Proof.
  induction f as [|f IH]; intros i L.
  - cbn [skip_zero]. split; [reflexivity|]. split; [unfold alike; auto|]. split; [lia|].
    rewrite valid_rest. destruct (rest i); [discriminate|cbn in L; lia].
  - cbn [skip_zero]. pose proof (head_rest i) as H. destruct (c_right (it_cur i)) as [|x r] eqn:E.
    + split; [reflexivity|]. split; [unfold alike; auto|]. split; [lia|]. rewrite valid_rest, H. discriminate.
    + destruct H as [l Hl]. destruct (it_skip i && valid i && (i_ts x =? 0)) eqn:B.
      * apply andb_true_iff in B. destruct B as [B B3]. apply andb_true_iff in B. destruct B as [B1 B2].
        assert (Hm := rest_move i x l Hl). destruct (IH (move i)) as (T & A & Len & V); [rewrite Hm; rewrite Hl in L; cbn in L; lia|].
        destruct (alike_inside _ _ (alike_move i)) as [I K].
        split. { rewrite T, (todo_move i x l Hl), todo_of, Hl. rewrite valid_rest, Hl in B2. rewrite B2.
                 assert (kept i x = false) as -> by (unfold kept; rewrite B1, B3; reflexivity). reflexivity. }
        split; [eapply alike_trans; [exact A|apply alike_move]|]. split; [rewrite Hl; cbn; rewrite Hm in Len; lia|].
        rewrite I, K in V. exact V.
      * split; [reflexivity|]. split; [unfold alike; auto|]. split; [lia|]. intros V. exists x, l. split; [exact Hl|].
        pose proof V as V'. rewrite valid_rest, Hl in V. split; [exact V|]. unfold kept. rewrite V', andb_true_r in B.
        destruct (it_skip i); [|reflexivity]. cbn in *. rewrite B. reflexivity.
Qed.
Lemma rest_width i : (length (rest i) <= width (it_cur i))%nat.
Proof.
  unfold rest, width. destruct (it_rev i); [|lia]. destruct (c_right (it_cur i)); cbn; lia.
Qed.
(* a settled iterator does not stand on a hidden item *)
Definition settled (i : iter) : Prop := valid i = true -> exists x l, rest i = x :: l /\ inside i x = true /\ kept i x = true.
Definition shorten (plen : nat) (x : item) : item := mk_item (skipn plen (i_key x)) (i_val x) (i_ts x).
Lemma collect_spec plen : forall f i, (length (rest i) < f)%nat -> settled i -> collect f plen i = map (shorten plen) (todo i).
Proof.
  induction f as [|f IH]; intros i L S; [lia|]. cbn [collect]. destruct (valid i) eqn:V.
  - destruct (S V) as (x & l & Hl & I & K). pose proof (head_rest i) as H.
    destruct (c_right (it_cur i)) as [|y r]; [rewrite Hl in H; discriminate|]. destruct H as [l' H]. rewrite Hl in H. inversion H; subst y l'.
    rewrite todo_of, Hl, I, K. cbn [app map]. f_equal. unfold next.
    assert (Hm := rest_move i x l Hl). destruct (skip_zero_spec (Datatypes.S (width (it_cur i))) (move i)) as (T & A & Len & V').
    { rewrite Hm. pose proof (rest_width i) as W. rewrite Hl in W. cbn in W. lia. }
    destruct (alike_inside _ _ (alike_move i)) as [I' K']. destruct (alike_inside _ _ A) as [I2 K2].
    rewrite IH.
    + rewrite T. rewrite (todo_move i x l Hl). reflexivity.
    + rewrite Hm in Len. rewrite Hl in L. cbn in L. lia.
    + unfold settled. rewrite I2, K2. exact V'.
  - rewrite todo_of. rewrite valid_rest in V. destruct (rest i) as [|x l]; [reflexivity|]. rewrite V. reflexivity.
Qed.

(* ---- starting ---- *)
Definition drop_while {A} (f : A -> bool) := fix go (l : list A) := match l with [] => [] | x :: r => if f x then go r else l end.
Lemma seek_key_spec k : forall l left, seek_key left l k = mk_cursor (rev (take_while (fun x => bltb (i_key x) k) l) ++ left) (drop_while (fun x => bltb (i_key x) k) l).
Proof.
  induction l as [|x r IH]; intros left; [reflexivity|]. cbn [seek_key take_while drop_while]. destruct (bltb (i_key x) k); [|reflexivity].
  rewrite IH. cbn [rev]. rewrite <- app_assoc. reflexivity.
Qed.
Lemma drop_nil {A} (f : A -> bool) l : drop_while f l = [] -> take_while f l = l.
Proof. induction l as [|x r IH]; [reflexivity|]. cbn. destruct (f x); [intros H; f_equal; auto|discriminate]. Qed.
Lemma drop_head {A} (f : A -> bool) l x r : drop_while f l = x :: r -> f x = false.
Proof. induction l as [|y l IH]; cbn; [discriminate|]. destruct (f y) eqn:E; [auto|]. intros H. inversion H; subst. exact E. Qed.
Definition started (l : list item) (start end_ : option bytes) (reverse skip : bool) : iter :=
  mk_iter (if reverse then match end_ with
             | None => seek_last l
             | Some e => match c_right (seek_key [] l e) with
                         | x :: _ => if bltb (i_key x) e then seek_key [] l e else c_prev (seek_key [] l e)
                         | [] => seek_last l
                         end end
           else match start with None => seek_first l | Some s => seek_key [] l s end) start end_ reverse skip.
Lemma rest_seek_last l start end_ skip : rest (mk_iter (seek_last l) start end_ true skip) = rev l.
Proof. unfold rest, seek_last. cbn. destruct (rev l); reflexivity. Qed.
Lemma rest_started l start end_ reverse skip :
  rest (started l start end_ reverse skip) =
  if reverse then rev (match end_ with Some e => take_while (fun x => bltb (i_key x) e) l | None => l end)
  else match start with Some s => drop_while (fun x => bltb (i_key x) s) l | None => l end.
Proof.
  unfold started. destruct reverse.
  - destruct end_ as [e|]; [|apply rest_seek_last]. rewrite seek_key_spec. cbn [c_right].
    destruct (drop_while (fun x => bltb (i_key x) e) l) as [|x r] eqn:D.
    + rewrite rest_seek_last. rewrite (drop_nil _ _ D). reflexivity.
    + rewrite (drop_head _ _ _ _ D). unfold rest, c_prev. cbn [it_rev it_cur c_left c_right]. rewrite app_nil_r.
      destruct (rev (take_while _ l)) as [|y ys]; reflexivity.
  - unfold rest. cbn [it_rev it_cur]. destruct start as [s|]; [rewrite seek_key_spec; reflexivity|reflexivity].
Qed.

Lemma filter_all {A} (f : A -> bool) l : (forall x, In x l -> f x = true) -> filter f l = l.
Proof. induction l as [|x r IH]; intros H; [reflexivity|]. cbn. rewrite (H x (or_introl eq_refl)). f_equal. apply IH. intros y Hy. apply H. right; exact Hy. Qed.
Lemma filter_none {A} (f : A -> bool) l : (forall x, In x l -> f x = false) -> filter f l = [].
Proof. induction l as [|x r IH]; intros H; [reflexivity|]. cbn. rewrite (H x (or_introl eq_refl)). apply IH. intros y Hy. apply H. right; exact Hy. Qed.
(* on a sorted list, a downward closed condition cuts a prefix *)
Lemma take_while_filter (f : item -> bool) l : StronglySorted ilt l -> (forall a b, ilt a b -> f b = true -> f a = true) -> take_while f l = filter f l.
Proof.
  intros S M. induction S as [|x r S IH F]; [reflexivity|]. cbn. destruct (f x) eqn:E; [f_equal; exact IH|].
  symmetry. apply filter_none. intros y Hy. rewrite Forall_forall in F. destruct (f y) eqn:Ey; [|reflexivity]. rewrite (M x y (F y Hy) Ey) in E. discriminate.
Qed.
Lemma drop_while_filter (f : item -> bool) l : StronglySorted ilt l -> (forall a b, ilt a b -> f b = true -> f a = true) -> drop_while f l = filter (fun x => negb (f x)) l.
Proof.
  intros S M. induction S as [|x r S IH F]; [reflexivity|]. cbn [drop_while filter]. destruct (f x) eqn:E; [exact IH|]. cbn [negb]. f_equal.
  symmetry. apply filter_all. intros y Hy. rewrite Forall_forall in F. destruct (f y) eqn:Ey; [|reflexivity]. rewrite (M x y (F y Hy) Ey) in E. discriminate.
Qed.
Lemma take_while_rev (f : item -> bool) l : StronglySorted ilt l -> (forall a b, ilt a b -> f a = true -> f b = true) -> take_while f (rev l) = rev (filter f l).
Proof.
  intros S M. induction S as [|x r S IH F]; [reflexivity|]. cbn [rev filter].
  assert (G : forall a b, take_while f (a ++ b) = if forallb f a then a ++ take_while f b else take_while f a).
  { induction a as [|y a IHa]; intros b; [reflexivity|]. cbn. destruct (f y); [|reflexivity]. rewrite IHa. cbn. destruct (forallb f a); reflexivity. }
  rewrite G, IH. destruct (f x) eqn:E.
  - assert (A : forall y, In y r -> f y = true) by (intros y Hy; rewrite Forall_forall in F; exact (M x y (F y Hy) E)).
    assert (forallb f (rev r) = true) as -> by (apply forallb_forall; intros y Hy; apply A, in_rev; exact Hy).
    cbn [take_while rev]. rewrite E, (filter_all f r A). reflexivity.
  - destruct (forallb f (rev r)) eqn:B; [|reflexivity]. cbn [take_while]. rewrite E, app_nil_r.
    rewrite (filter_all f r); [reflexivity|]. rewrite forallb_forall in B. intros y Hy. apply B. apply (proj1 (in_rev r y)). exact Hy.
Qed.
Lemma filter_filter {A} (f g : A -> bool) l : filter f (filter g l) = filter (fun x => g x && f x) l.
Proof. induction l as [|x r IH]; [reflexivity|]. cbn. destruct (g x); cbn; [destruct (f x); rewrite IH; reflexivity|exact IH]. Qed.
Lemma filter_rev' {A} (f : A -> bool) l : filter f (rev l) = rev (filter f l).
Proof. induction l as [|x r IH]; [reflexivity|]. cbn. rewrite filter_app, IH. cbn. destruct (f x); [reflexivity|rewrite app_nil_r; reflexivity]. Qed.

Definition rangeb (lo : option bytes) (hi : option bytes) (x : item) : bool :=
  match lo with Some s => negb (bltb (i_key x) s) | None => true end && match hi with Some e => bltb (i_key x) e | None => true end.
Definition shown (skip : bool) (lo hi : option bytes) (l : list item) : list item :=
  filter (fun x => negb (skip && (i_ts x =? 0))) (filter (rangeb lo hi) l).

Lemma sorted_map_filter (f : item -> bool) l : StronglySorted ilt l -> StronglySorted ilt (filter f l).
Proof.
  intros S. induction S as [|x r S IH F]; [constructor|]. cbn. destruct (f x); [|exact IH]. constructor; [exact IH|].
  apply Forall_forall. intros y Hy. apply filter_In in Hy. rewrite Forall_forall in F. apply F, Hy.
Qed.
Lemma down a b e : ilt a b -> bltb (i_key b) e = true -> bltb (i_key a) e = true.
Proof. unfold ilt. intros H K. apply bltb_spec in K. apply bltb_spec. eapply blt_trans; eauto. Qed.
Lemma todo_started l start end_ reverse skip : StronglySorted ilt l ->
  todo (started l start end_ reverse skip) = (if reverse then @rev item else fun x => x) (shown skip start end_ l).
Proof.
  intros S. unfold todo. rewrite rest_started. unfold shown, inside, kept. cbn [started it_rev it_start it_end it_skip].
  destruct reverse.
  - assert (E : match end_ with Some e => take_while (fun x => bltb (i_key x) e) l | None => l end =
               filter (fun x => match end_ with Some e => bltb (i_key x) e | None => true end) l).
    { destruct end_ as [e|]; [apply take_while_filter; [exact S|intros a b; apply down]|symmetry; apply filter_all; reflexivity]. }
    rewrite E. rewrite take_while_rev.
    + rewrite filter_rev', !filter_filter. f_equal. apply filter_ext. intros x. unfold rangeb. destruct start, end_; cbn; rewrite ?andb_true_r; try reflexivity; rewrite ?andb_assoc; f_equal; apply andb_comm.
    + apply sorted_map_filter. exact S.
    + intros a b L. destruct start as [s|]; [|auto]. intros H. apply negb_true_iff in H. apply negb_true_iff.
      destruct (bltb (i_key b) s) eqn:B; [|reflexivity]. rewrite (down a b s L B) in H. discriminate.
  - assert (E : match start with Some s => drop_while (fun x => bltb (i_key x) s) l | None => l end =
               filter (fun x => match start with Some s => negb (bltb (i_key x) s) | None => true end) l).
    { destruct start as [s|]; [apply drop_while_filter; [exact S|intros a b; apply down]|symmetry; apply filter_all; reflexivity]. }
    rewrite E. rewrite take_while_filter.
    + rewrite !filter_filter. apply filter_ext. intros x. unfold rangeb. apply andb_assoc.
    + apply sorted_map_filter. exact S.
    + intros a b L. destruct end_ as [e|]; [apply down; exact L|auto].
Qed.
Lemma collect_new l start end_ reverse skip plen : StronglySorted ilt l ->
  collect (Datatypes.S (length l)) plen (new_iter l start end_ reverse skip) = map (shorten plen) ((if reverse then @rev item else fun x => x) (shown skip start end_ l)).
Proof.
  intros S. unfold new_iter. change (mk_iter _ start end_ reverse skip) with (started l start end_ reverse skip).
  destruct (skip_zero_spec (Datatypes.S (width (it_cur (started l start end_ reverse skip)))) (started l start end_ reverse skip)) as (T & A & Len & V).
  { pose proof (rest_width (started l start end_ reverse skip)). lia. }
  change (width (if reverse then _ else _)) with (width (it_cur (started l start end_ reverse skip))).
  rewrite collect_spec.
  - rewrite T, todo_started by exact S. reflexivity.
  - enough (length (rest (started l start end_ reverse skip)) <= length l)%nat by lia. rewrite rest_started.
    assert (TW : forall f (l : list item), (length (take_while f l) <= length l)%nat) by (induction l0 as [|y r IH]; cbn; [lia|destruct (f y); cbn; lia]).
    assert (DW : forall f (l : list item), (length (drop_while f l) <= length l)%nat) by (induction l0 as [|y r IH]; cbn; [lia|destruct (f y); cbn; lia]).
    destruct reverse; [rewrite rev_length; destruct end_; [apply TW|lia]|destruct start; [apply DW|lia]].
  - unfold settled. destruct (alike_inside _ _ A) as [-> ->]. exact V.
Qed.

(* ---- the bounds of a store ---- *)
Lemma cp_incr_prefix n : cp_incr (store_prefix n) = Some ([115; 47; 107; 58]%N ++ n ++ [48]%N).
Proof.
  unfold cp_incr, store_prefix. rewrite !rev_app_distr. cbn [rev app incr]. change (47 <? 255)%N with true. cbv iota.
  cbn [rev]. rewrite !rev_app_distr, rev_involutive. reflexivity.
Qed.
Lemma bcmp_app_prefix p a b : bcmp (p ++ a) (p ++ b) = bcmp a b.
Proof. apply bcmp_app_same. Qed.
(* between "p/" and "p0" lie exactly the keys that begin with "p/" *)
Lemma between p k : ble (p ++ [47]%N) k -> blt k (p ++ [48]%N) -> exists r, k = p ++ [47]%N ++ r.
Proof.
  revert k. induction p as [|x p IH]; intros k H K.
  - destruct k as [|y k]; [exfalso; apply H; reflexivity|]. unfold blt in K. unfold ble in H. cbn [app bcmp] in K, H.
    destruct (47 ?= y)%N eqn:E1; [| |congruence].
    + apply N.compare_eq in E1. subst y. exists k. reflexivity.
    + apply (proj1 (N.compare_lt_iff _ _)) in E1. destruct (y ?= 48)%N eqn:E2; [|apply (proj1 (N.compare_lt_iff _ _)) in E2; exfalso; lia|discriminate].
      destruct k; discriminate.
  - destruct k as [|y k]; [exfalso; apply H; reflexivity|]. cbn [app] in *. unfold ble in H. unfold blt in K. cbn [bcmp] in *.
    destruct (x ?= y)%N eqn:E1.
    + apply N.compare_eq in E1. subst y. rewrite N.compare_refl in K. destruct (IH k H K) as [r ->]. exists r. reflexivity.
    + rewrite N.compare_antisym, E1 in K. discriminate.
    + congruence.
Qed.
Lemma range_store n start end_ k lo hi : bounds (store_prefix n) start end_ = (lo, hi) ->
  rangeb (Some lo) hi (mk_item k [] 0) = true <-> exists r, k = store_prefix n ++ r /\ within start end_ r.
Proof.
  unfold bounds. intros H. assert (H1 := f_equal fst H). assert (H2 := f_equal snd H). cbn [fst snd] in H1, H2. clear H. subst lo hi. unfold rangeb. cbn [i_key]. rewrite andb_true_iff, negb_true_iff, bltb_false.
  assert (P : forall a r, ble (store_prefix n ++ a) (store_prefix n ++ r) <-> ble a r) by (intros; unfold ble; rewrite bcmp_app_same; tauto).
  assert (Q : forall a r, blt (store_prefix n ++ a) (store_prefix n ++ r) <-> blt a r) by (intros; unfold blt; rewrite bcmp_app_same; tauto).
  assert (Z : forall r, ble [] r) by (intros [|x r]; unfold ble; cbn; discriminate).
  split.
  - intros [A B].
    assert (X : exists r, k = store_prefix n ++ r).
    { set (p := [115; 47; 107; 58]%N ++ n). assert (E47 : store_prefix n = p ++ [47]%N) by (unfold p, store_prefix; rewrite <- app_assoc; reflexivity).
      assert (A' : ble (p ++ [47]%N) k).
      { rewrite <- E47. eapply ble_trans; [|exact A]. match goal with |- ble _ (_ ++ ?r) => pose proof (proj2 (P [] r) (Z r)) as Y end. rewrite app_nil_r in Y. exact Y. }
      assert (B' : blt k (p ++ [48]%N)).
      { destruct end_ as [e|].
        - apply bltb_spec in B. eapply blt_trans; [exact B|]. rewrite E47, <- app_assoc. unfold blt. rewrite bcmp_app_same. reflexivity.
        - rewrite cp_incr_prefix in B. apply bltb_spec in B. unfold p. rewrite <- app_assoc. exact B. }
      destruct (between p k A' B') as [r Hr]. exists r. rewrite E47, <- app_assoc. exact Hr. }
    destruct X as [r ->]. exists r. split; [reflexivity|]. unfold within. split.
    + destruct start as [s|]; [exact (proj1 (P _ _) A)|exact Logic.I].
    + destruct end_ as [e|]; [exact (proj1 (Q _ _) (proj1 (bltb_spec _ _) B))|exact Logic.I].
  - intros (r & -> & W1 & W2). split.
    + destruct start as [s|]; apply P; [exact W1|apply Z].
    + destruct end_ as [e|]; [exact (proj2 (bltb_spec _ _) (proj2 (Q _ _) W2))|]. rewrite cp_incr_prefix. apply bltb_spec. unfold store_prefix. rewrite <- !app_assoc.
      unfold blt. rewrite !bcmp_app_same. reflexivity.
Qed.

Definition pair_of (x : item) : bytes * bytes := (i_key x, i_val x).
(* everything an iterator yields, in terms of what the entries say *)
Lemma iterate_said skip s n start end_ v reverse : db_ok (s_db s) -> is_empty start = false -> is_empty end_ = false ->
  exists l, iterate skip s n start end_ v reverse = Ok ((if reverse then @rev item else fun x => x) l) /\
    StronglySorted ilt l /\
    forall x, In x l <-> within start end_ (i_key x) /\ (skip = true -> i_ts x <> 0) /\
      newest (s_db s) (store_prefix n ++ i_key x) (read_ts v) = Some (mk_entry (store_prefix n ++ i_key x) (i_ts x) (Some (i_val x))).
Proof.
  intros H E1 E2. unfold iterate. rewrite E1, E2. cbn [orb]. destruct (bounds (store_prefix n) start end_) as [lo hi] eqn:B.
  set (l := visible (read_ts v) None (s_db s)). assert (S : StronglySorted ilt l) by (apply visible_sorted; exact H).
  exists (map (shorten (length (store_prefix n))) (shown skip (Some lo) hi l)). split.
  { rewrite collect_new by exact S. destruct reverse; [rewrite map_rev|]; reflexivity. }
  assert (R : forall x, In x (shown skip (Some lo) hi l) -> exists r, i_key x = store_prefix n ++ r /\ within start end_ r).
  { intros x Hx. apply filter_In in Hx. destruct Hx as [Hx _]. apply filter_In in Hx. destruct Hx as [_ Hx].
    apply (range_store n start end_ (i_key x) lo hi B). exact Hx. }
  assert (SK : forall r : bytes, skipn (length (store_prefix n)) (store_prefix n ++ r) = r).
  { intros r. rewrite skipn_app, Nat.sub_diag, skipn_all. reflexivity. }
  split.
  - assert (S' : StronglySorted ilt (shown skip (Some lo) hi l)) by (apply sorted_map_filter, sorted_map_filter; exact S).
    clear -S' R SK. induction S' as [|x r S' IH F]; [constructor|]. cbn [map]. constructor.
    + apply IH. intros y Hy. apply R. right; exact Hy.
    + apply Forall_forall. intros y Hy. apply in_map_iff in Hy. destruct Hy as (z & <- & Hz). rewrite Forall_forall in F. specialize (F z Hz).
      destruct (R x (or_introl eq_refl)) as (a & Ea & _). destruct (R z (or_intror Hz)) as (b & Eb & _).
      unfold ilt in *. cbn [shorten i_key]. rewrite Ea, Eb in *. rewrite !SK. unfold blt in *. rewrite bcmp_app_same in F. exact F.
  - intros x. rewrite in_map_iff. split.
    + intros (y & <- & Hy). destruct (R y Hy) as (r & Er & W). cbn [shorten i_key i_ts i_val]. rewrite Er, SK.
      split; [exact W|]. unfold shown in Hy. apply filter_In in Hy. destruct Hy as [Hy K]. apply filter_In in Hy. destruct Hy as [Hy _].
      split. { intros ->. cbn in K. lia. }
      apply (proj1 (visible_in (read_ts v) (s_db s) None y H ltac:(intros k0 d0 K0; discriminate K0))) in Hy. destruct Hy as [Hy _]. rewrite Er in Hy. rewrite Hy. unfold item_entry. rewrite Er. reflexivity.
    + intros (W & K & N). exists (mk_item (store_prefix n ++ i_key x) (i_val x) (i_ts x)). split.
      { destruct x as [kx vx tx]. unfold shorten. cbn [i_key i_val i_ts]. rewrite SK. reflexivity. }
      apply filter_In. cbn [i_ts]. split.
      * apply filter_In. split.
        -- apply (visible_in _ _ _ _ H); [intros k0 d0 K0; discriminate K0|]. split; [exact N|discriminate].
        -- apply (range_store n start end_ _ lo hi B). exists (i_key x). split; [reflexivity|exact W].
      * destruct skip; [|reflexivity]. specialize (K eq_refl). cbn. lia.
Qed.
