From Verif Require Import Lib.Base Lib.Bytes Memiavl.Model Memiavl.Spec Memiavl.TreeProofs Memiavl.Proofs
  Memiavl.HashModel Memiavl.HeapModel Memiavl.HeapSpec.
Open Scope Z_scope.

Section P.
Variable sha : bytes -> bytes.
Notation load := (load sha).

Definition hash_ok (n : node) (o : option bytes) : Prop :=
  match o with None => True | Some x => x = nhash sha n end.

Definition bcell ht s ver k x y hs : cell := Cell ht s ver k [] (Some x) (Some y) hs.

(* r points to a tree equal to n, using exactly the heap cells A *)
Fixpoint repr (h : heap) (r : ref) (n : node) (A : list nat) {struct n} : Prop :=
  match r with
  | RPers m => m = n /\ A = []
  | RMem a =>
      match n with
      | Leaf k v ver => exists hs, cells h a = Some (Cell 0 1 ver k v None None hs) /\ hash_ok n hs /\ A = [a]
      | Branch k ht s ver l rr =>
          exists x y hs Al Ar, cells h a = Some (bcell ht s ver k x y hs) /\ hash_ok n hs /\
            repr h x l Al /\ repr h y rr Ar /\ A = a :: Al ++ Ar
      end
  end.

Definition heads (r : ref) : list nat := match r with RMem a => [a] | RPers _ => [] end.

Definition valid (h : heap) : Prop := forall x c, cells h x = Some c -> (x < next_addr h)%nat.

Lemma repr_frame n : forall h h' r A, repr h r n A -> (forall x, In x A -> cells h' x = cells h x) -> repr h' r n A.
Proof.
  induction n as [k v ver|k ht s ver l IHl rr IHr]; intros h h' r A H HF; destruct r as [a|m]; cbn [repr] in *; auto.
  - destruct H as (hs & E & Hh & ->). exists hs. rewrite HF by (left; reflexivity). auto.
  - destruct H as (x & y & hs & Al & Ar & E & Hh & Hl & Hr & ->). exists x, y, hs, Al, Ar.
    rewrite HF by (left; reflexivity). split; [exact E|]. split; [exact Hh|]. split; [|split; [|reflexivity]].
    + eapply IHl; [exact Hl|]. intros z Hz. apply HF. right. apply in_or_app. auto.
    + eapply IHr; [exact Hr|]. intros z Hz. apply HF. right. apply in_or_app. auto.
Qed.

Lemma repr_in n : forall h r A x, repr h r n A -> In x A -> exists c, cells h x = Some c.
Proof.
  induction n as [k v ver|k ht s ver l IHl rr IHr]; intros h r A z H HI; destruct r as [a|m]; cbn [repr] in *.
  - destruct H as (hs & E & Hh & ->). destruct HI as [<-|[]]. eauto.
  - destruct H as [_ ->]. contradiction.
  - destruct H as (x & y & hs & Al & Ar & E & Hh & Hl & Hr & ->). destruct HI as [<-|HI]; [eauto|].
    apply in_app_or in HI. destruct HI; [eapply IHl|eapply IHr]; eauto.
  - destruct H as [_ ->]. contradiction.
Qed.

Lemma repr_lt h r n A x : valid h -> repr h r n A -> In x A -> (x < next_addr h)%nat.
Proof. intros Hv H HI. destruct (repr_in _ _ _ _ _ H HI) as (c & E). eapply Hv. exact E. Qed.

Lemma load_leaf h r k v ver A : repr h r (Leaf k v ver) A ->
  exists hs, load h r = Some (Cell 0 1 ver k v None None hs) /\ A = heads r.
Proof.
  destruct r as [a|m]; cbn [repr heads].
  - intros (hs & E & _ & ->). exists hs. auto.
  - intros [-> ->]. eexists. split; reflexivity.
Qed.

Lemma load_branch h r k ht s ver l rr A : repr h r (Branch k ht s ver l rr) A ->
  exists x y hs Al Ar, load h r = Some (bcell ht s ver k x y hs) /\
    repr h x l Al /\ repr h y rr Ar /\ A = heads r ++ Al ++ Ar.
Proof.
  destruct r as [a|m]; cbn [repr heads].
  - intros (x & y & hs & Al & Ar & E & _ & Hl & Hr & ->). exists x, y, hs, Al, Ar. auto.
  - intros [-> ->]. exists (RPers l), (RPers rr). eexists. exists [], []. split; [reflexivity|].
    split; [destruct l; cbn; auto|]. split; [destruct rr; cbn; auto|reflexivity].
Qed.

Lemma load_repr h r n A : repr h r n A ->
  exists c, load h r = Some c /\ c_height c = nheight n /\ c_size c = nsize n /\ c_version c = nversion n /\ c_key c = nkey n.
Proof.
  destruct n as [k v ver|k ht s ver l rr]; intros H.
  - destruct (load_leaf _ _ _ _ _ _ H) as (hs & E & _). eexists. split; [exact E|]. cbn. auto.
  - destruct (load_branch _ _ _ _ _ _ _ _ _ H) as (x & y & hs & Al & Ar & E & _). eexists. split; [exact E|]. cbn. auto.
Qed.

Lemma nodup_app (A B : list nat) : NoDup (A ++ B) <-> NoDup A /\ NoDup B /\ (forall x, In x A -> ~ In x B).
Proof.
  induction A as [|a A IH]; cbn [app].
  - split; [intros H; split; [constructor|]; split; [exact H|intros x []]|intros (_ & H & _); exact H].
  - split.
    + intros H. inversion H as [|? ? H1 H2]; subst. apply IH in H2. destruct H2 as (HA & HB & HD).
      split; [constructor; [|exact HA]; intros C; apply H1; apply in_or_app; auto|]. split; [exact HB|].
      intros x [<-|Hx]; [intros C; apply H1; apply in_or_app; auto|apply HD; exact Hx].
    + intros (H1 & H2 & H3). inversion H1 as [|? ? H4 H5]; subst. constructor.
      * intros C. apply in_app_or in C. destruct C as [C|C]; [auto|]. apply (H3 a); [left; reflexivity|exact C].
      * apply IH. split; [exact H5|]. split; [exact H2|]. intros x Hx. apply H3. right; exact Hx.
Qed.

Lemma nodup_cons (a : nat) A : NoDup (a :: A) <-> ~ In a A /\ NoDup A.
Proof. split; [intros H; inversion H; auto|intros [H1 H2]; constructor; auto]. Qed.

(* h' differs from h, on old addresses, only inside A and only where the
   version was above cow *)
Definition writes (h h' : heap) (cow : Z) (A : list nat) : Prop :=
  valid h' /\ (next_addr h <= next_addr h')%nat /\
  forall x, (x < next_addr h)%nat -> cells h' x = cells h x \/
    (In x A /\ exists c, cells h x = Some c /\ cow < c_version c).

Definition post (h : heap) (A : list nat) (cow : Z) (h' : heap) (A' : list nat) : Prop :=
  writes h h' cow A /\ NoDup A' /\ forall x, In x A' -> In x A \/ (next_addr h <= x)%nat.

Lemma writes_refl h cow A : valid h -> writes h h cow A.
Proof. intros H. split; [exact H|]. split; [lia|]. intros x _. left; reflexivity. Qed.

Lemma writes_weaken h h' cow A B : (forall x, In x A -> In x B) -> writes h h' cow A -> writes h h' cow B.
Proof.
  intros HS (H1 & H2 & H3). split; [exact H1|]. split; [exact H2|]. intros x Hx.
  destruct (H3 x Hx) as [E|[HI E]]; [auto|]. right. split; [apply HS; exact HI|exact E].
Qed.

Lemma writes_trans h h1 h2 cow A A1 : writes h h1 cow A -> writes h1 h2 cow A1 ->
  (forall x, In x A1 -> In x A \/ (next_addr h <= x)%nat) -> writes h h2 cow A.
Proof.
  intros (V1 & N1 & W1) (V2 & N2 & W2) HS. split; [exact V2|]. split; [lia|]. intros x Hx.
  destruct (W1 x Hx) as [E1|[HI1 E1]].
  - destruct (W2 x) as [E2|[HI2 (c & E2 & Hc)]]; [lia| |].
    + left. congruence.
    + right. split; [destruct (HS x HI2); [assumption|lia]|]. exists c. split; [congruence|exact Hc].
  - right. auto.
Qed.

Lemma post_trans h h1 h2 cow A A1 A2 : post h A cow h1 A1 -> post h1 A1 cow h2 A2 -> post h A cow h2 A2.
Proof.
  intros (W1 & N1 & G1) (W2 & N2 & G2). split; [eapply writes_trans; eauto|]. split; [exact N2|].
  intros x Hx. destruct (G2 x Hx) as [H|H]; [apply G1; exact H|]. right. destruct W1 as (_ & L & _). lia.
Qed.

Lemma frame_out h h' cow A r n B : valid h -> writes h h' cow A -> repr h r n B ->
  (forall x, In x B -> ~ In x A) -> repr h' r n B.
Proof.
  intros Hv (_ & _ & W) HR HD. eapply repr_frame; [exact HR|]. intros x Hx.
  destruct (W x) as [E|[HI _]]; [eapply repr_lt; eauto|exact E|]. exfalso. eapply HD; eauto.
Qed.

Lemma store_same h a c : cells (store h a c) a = Some c.
Proof. unfold store. cbn [cells]. rewrite Nat.eqb_refl. reflexivity. Qed.
Lemma store_other h a c x : x <> a -> cells (store h a c) x = cells h x.
Proof. intros H. unfold store. cbn [cells]. destruct (Nat.eqb_spec x a); [contradiction|reflexivity]. Qed.

Lemma store_writes h a c c' cow A : valid h -> cells h a = Some c -> cow < c_version c -> In a A ->
  writes h (store h a c') cow A.
Proof.
  intros Hv E Hc HI. split; [|split; [cbn; lia|]].
  - intros x d. cbn [next_addr store]. destruct (Nat.eq_dec x a) as [->|Hn].
    + intros _. eapply Hv. exact E.
    + rewrite store_other by exact Hn. apply Hv.
  - intros x Hx. destruct (Nat.eq_dec x a) as [->|Hn]; [right; eauto|left; apply store_other; exact Hn].
Qed.

Lemma alloc_facts h c : valid h ->
  let '(h', a) := alloc h c in a = next_addr h /\ cells h' a = Some c /\ (forall x, x <> a -> cells h' x = cells h x) /\
    valid h' /\ next_addr h' = S (next_addr h) /\ forall cow A, writes h h' cow A.
Proof.
  intros Hv. unfold alloc.
  assert (forall x, x <> next_addr h -> (if Nat.eqb x (next_addr h) then Some c else cells h x) = cells h x) as HO.
  { intros x Hx. destruct (Nat.eqb_spec x (next_addr h)); [contradiction|reflexivity]. }
  assert (valid (Heap (fun x => if Nat.eqb x (next_addr h) then Some c else cells h x) (S (next_addr h)))) as V.
  { intros x d. cbn [cells next_addr]. destruct (Nat.eqb_spec x (next_addr h)); [intros; lia|]. intros E. apply Hv in E. lia. }
  split; [reflexivity|]. split; [cbn; rewrite Nat.eqb_refl; reflexivity|]. split; [exact HO|]. split; [exact V|].
  split; [reflexivity|]. intros cow A. split; [exact V|]. split; [cbn; lia|]. intros x Hx. left. apply HO. lia.
Qed.

Lemma mutate_shallow h r c ver cow : valid h -> load h r = Some c ->
  exists h' a, h_mutate sha h r ver cow = Some (h', a) /\ cells h' a = Some (with_version c ver) /\
    (forall x, x <> a -> cells h' x = cells h x) /\ valid h' /\
    ((heads r = [a] /\ cow < c_version c /\ next_addr h' = next_addr h) \/
     (a = next_addr h /\ next_addr h' = S (next_addr h))) /\
    writes h h' cow (heads r).
Proof.
  intros Hv E. unfold h_mutate. pose proof (alloc_facts h (with_version c ver) Hv) as HA.
  destruct r as [b|m].
  - cbn [HeapModel.load] in E. rewrite E. cbn [obind]. destruct (c_version c <=? cow) eqn:Ec.
    + destruct (alloc h (with_version c ver)) as [h' a] eqn:EA. destruct HA as (H1 & H2 & H3 & H4 & H5 & H6).
      exists h', a. auto 10.
    + exists (store h b (with_version c ver)), b. split; [reflexivity|]. split; [apply store_same|].
      split; [intros; apply store_other; assumption|].
      assert (writes h (store h b (with_version c ver)) cow [b]) as W by (eapply store_writes; [exact Hv|exact E|lia|left; reflexivity]).
      split; [apply W|]. split; [left; split; [reflexivity|]; split; [lia|reflexivity]|exact W].
  - rewrite E. cbn [obind]. destruct (alloc h (with_version c ver)) as [h' a] eqn:EA.
    destruct HA as (H1 & H2 & H3 & H4 & H5 & H6). exists h', a. auto 10.
Qed.

Lemma modify_ok h a c f : cells h a = Some c -> modify h a f = Some (store h a (f c)).
Proof. intros E. unfold modify. rewrite E. reflexivity. Qed.

Lemma update_ok h a ht s ver k x y l rr Al Ar cow :
  valid h -> cells h a = Some (bcell ht s ver k x y None) -> repr h x l Al -> repr h y rr Ar ->
  ~ In a Al -> ~ In a Ar -> cow < ver ->
  exists h', h_update sha h a = Some h' /\ repr h' (RMem a) (mk k ver l rr) (a :: Al ++ Ar) /\
    (exists ht' s', cells h' a = Some (bcell ht' s' ver k x y None)) /\
    (forall z, z <> a -> cells h' z = cells h z) /\ next_addr h' = next_addr h /\ writes h h' cow [a].
Proof.
  intros Hv E Hl Hr HA1 HA2 Hc. unfold h_update. rewrite E. cbn [obind bcell c_left c_right].
  destruct (load_repr _ _ _ _ Hl) as (lc & El & L1 & L2 & _). destruct (load_repr _ _ _ _ Hr) as (rc & Er & R1 & R2 & _).
  rewrite El, Er. cbn [obind]. eexists. split; [reflexivity|].
  set (c' := with_height_size _ _ _).
  assert (forall z, z <> a -> cells (store h a c') z = cells h z) as HO by (intros; apply store_other; assumption).
  split; [|split; [|split; [exact HO|split; [reflexivity|]]]].
  - cbn [repr mk]. exists x, y, None, Al, Ar. split.
    { rewrite store_same. unfold c', with_height_size, bcell. cbn. rewrite L1, L2, R1, R2. reflexivity. }
    split; [exact I|]. split; [|split; [|reflexivity]].
    + eapply repr_frame; [exact Hl|]. intros z Hz. apply HO. intros ->. contradiction.
    + eapply repr_frame; [exact Hr|]. intros z Hz. apply HO. intros ->. contradiction.
  - rewrite store_same. unfold c', with_height_size, bcell. cbn. eauto.
  - eapply store_writes; [exact Hv|exact E|exact Hc|left; reflexivity].
Qed.

(* a branch cell a in preparation, with children x, y that represent l, r *)
Definition prep h a ht s ver k x y l rr Al Ar : Prop :=
  cells h a = Some (bcell ht s ver k x y None) /\ repr h x l Al /\ repr h y rr Ar /\ NoDup (a :: Al ++ Ar).

(* Mutate followed by an assignment to one field of the clone *)
Lemma assemble h r c f ver cow ht s k x y l rr Al Ar :
  valid h -> load h r = Some c -> f (with_version c ver) = bcell ht s ver k x y None ->
  repr h x l Al -> repr h y rr Ar -> NoDup (heads r ++ Al ++ Ar) -> cow < ver ->
  exists h2 a h3, h_mutate sha h r ver cow = Some (h2, a) /\ modify h2 a f = Some h3 /\
    prep h3 a ht s ver k x y l rr Al Ar /\ post h (heads r ++ Al ++ Ar) cow h3 (a :: Al ++ Ar).
Proof.
  intros Hv E Ef Hl Hr HN Hc.
  destruct (mutate_shallow h r c ver cow Hv E) as (h2 & a & Em & Ea & HO & Hv2 & Hcase & HW).
  apply nodup_app in HN. destruct HN as (_ & HN & HD).
  assert (~ In a (Al ++ Ar)) as Hna.
  { intros C. destruct Hcase as [(Hh & _ & _)|[-> _]].
    - apply (HD a); [rewrite Hh; left; reflexivity|exact C].
    - apply in_app_or in C. destruct C as [C|C];
        [pose proof (repr_lt _ _ _ _ _ Hv Hl C)|pose proof (repr_lt _ _ _ _ _ Hv Hr C)]; lia. }
  exists h2, a, (store h2 a (f (with_version c ver))). split; [exact Em|]. split; [apply modify_ok; exact Ea|].
  assert (forall z, In z (Al ++ Ar) -> cells (store h2 a (f (with_version c ver))) z = cells h z) as HF.
  { intros z Hz. assert (z <> a) by (intros ->; contradiction). rewrite store_other by assumption. apply HO; assumption. }
  split.
  - split; [rewrite store_same; f_equal; exact Ef|].
    split; [eapply repr_frame; [exact Hl|]; intros; apply HF; apply in_or_app; auto|].
    split; [eapply repr_frame; [exact Hr|]; intros; apply HF; apply in_or_app; auto|].
    constructor; assumption.
  - split; [|split; [constructor; assumption|]].
    + eapply writes_trans; [eapply writes_weaken; [|exact HW]| eapply store_writes with (A := [a]); [exact Hv2|exact Ea|exact Hc|left; reflexivity] |].
      * intros z Hz. apply in_or_app. auto.
      * intros z [<-|[]]. destruct Hcase as [(-> & _)|[-> _]]; [left; left; reflexivity|right; lia].
    + intros z [<-|Hz]; [|left; apply in_or_app; auto].
      destruct Hcase as [(-> & _)|[-> _]]; [left; left; reflexivity|right; lia].
Qed.

(* updateHeightSize on a prepared node *)
Lemma prep_update h a ht s ver k x y l rr Al Ar cow :
  valid h -> prep h a ht s ver k x y l rr Al Ar -> cow < ver ->
  exists h' ht' s', h_update sha h a = Some h' /\ repr h' (RMem a) (mk k ver l rr) (a :: Al ++ Ar) /\
    prep h' a ht' s' ver k x y l rr Al Ar /\ post h (a :: Al ++ Ar) cow h' (a :: Al ++ Ar).
Proof.
  intros Hv (E & Hl & Hr & HN) Hc. pose proof HN as HN'. apply nodup_cons in HN'. destruct HN' as [Ha _].
  assert (~ In a Al /\ ~ In a Ar) as [Ha1 Ha2] by (split; intros C; apply Ha; apply in_or_app; auto).
  destruct (update_ok h a ht s ver k x y l rr Al Ar cow Hv E Hl Hr Ha1 Ha2 Hc) as (h' & Eu & HR & (ht' & s' & Ec) & HO & Hnx & HW).
  exists h', ht', s'. split; [exact Eu|]. split; [exact HR|]. split.
  - split; [exact Ec|]. split; [|split; [|exact HN]].
    + eapply repr_frame; [exact Hl|]. intros z Hz. apply HO. intros ->. contradiction.
    + eapply repr_frame; [exact Hr|]. intros z Hz. apply HO. intros ->. contradiction.
  - split; [|split; [exact HN|auto]]. eapply writes_weaken; [|exact HW]. intros z [<-|[]]. left; reflexivity.
Qed.

Ltac inapp :=
  repeat match goal with
  | H : In _ (_ ++ _) |- _ => apply in_app_or in H; destruct H as [H|H]
  | H : In _ (_ :: _) |- _ => destruct H as [H|H]; [subst|]
  | H : In _ [] |- _ => destruct H
  | |- ~ _ => intro
  | |- forall _, _ => intro
  | |- _ /\ _ => split
  end;
  try match goal with
  | H : forall x, In x ?A -> ~ In x ?B, H1 : In ?z ?A, H2 : In ?z ?B |- _ => destruct (H z H1 H2)
  end;
  repeat (rewrite in_app_iff || cbn [In]);
  try tauto; try (exfalso; eauto; fail); eauto 10.

Lemma rotate_right_ok h a ht s nv k x y kl hl sl vl ll lr r Al Ar ver cow :
  valid h -> prep h a ht s nv k x y (Branch kl hl sl vl ll lr) r Al Ar -> cow < nv -> cow < ver ->
  exists h' a' ht' s' x' y' Al' Ar', h_rotate_right sha h a ver cow = Some (h', a') /\
    repr h' (RMem a') (mk kl ver ll (mk k nv lr r)) (a' :: Al' ++ Ar') /\
    prep h' a' ht' s' ver kl x' y' ll (mk k nv lr r) Al' Ar' /\
    post h (a :: Al ++ Ar) cow h' (a' :: Al' ++ Ar').
Proof.
  intros Hv (E & Hl & Hr & HN) Hcn Hcv. unfold h_rotate_right. rewrite E. cbn [obind bcell c_left].
  destruct (load_branch _ _ _ _ _ _ _ _ _ Hl) as (x1 & x2 & hs & Ax1 & Ax2 & El & H1 & H2 & ->).
  destruct (mutate_shallow h x _ ver cow Hv El) as (h1 & a' & Em & Ea' & HO & Hv1 & Hcase & HW). rewrite Em. cbn [obind].
  (* distinctness *)
  apply nodup_cons in HN. destruct HN as [Hna HN]. rewrite !nodup_app in HN.
  destruct HN as ((Hh & (HNx1 & HNx2 & HD12) & HDh) & HNr & HDr).
  assert (forall z, In z (heads x) \/ In z Ax1 \/ In z Ax2 \/ In z Ar -> (z < next_addr h)%nat) as Hlt.
  { intros z [C|[C|[C|C]]]; [|eapply repr_lt; [exact Hv|exact H1|exact C]|eapply repr_lt; [exact Hv|exact H2|exact C]|eapply repr_lt; [exact Hv|exact Hr|exact C]].
    destruct x as [b|m]; cbn [heads] in C; [|contradiction]. destruct C as [<-|[]]. eapply Hv. cbn [HeapModel.load] in El. exact El. }
  assert (a < next_addr h)%nat as Hal by (eapply Hv; exact E).
  assert (a' <> a /\ ~ In a' Ax1 /\ ~ In a' Ax2 /\ ~ In a' Ar) as (Ha1 & Ha2 & Ha3 & Ha4).
  { destruct Hcase as [(Hh' & _ & _)|[-> _]].
    - assert (In a' (heads x)) as HI by (rewrite Hh'; left; reflexivity).
      split; [intros ->; apply Hna; apply in_or_app; left; apply in_or_app; auto|].
      split; [intros C; apply (HDh a' HI); apply in_or_app; auto|].
      split; [intros C; apply (HDh a' HI); apply in_or_app; auto|].
      intros C. apply (HDr a'); [apply in_or_app; auto|exact C].
    - split; [lia|]. split; [intros C; specialize (Hlt (next_addr h)); assert ((next_addr h < next_addr h)%nat) by auto; lia|].
      split; intros C; specialize (Hlt (next_addr h)); assert ((next_addr h < next_addr h)%nat) by auto 6; lia. }
  assert (~ In a Ax1 /\ ~ In a Ax2 /\ ~ In a Ar) as (Hb1 & Hb2 & Hb3).
  { split; [|split]; intros C; apply Hna; inapp. }
  (* the load of node.left after Mutate *)
  assert (exists lc, load h1 x = Some lc /\ c_right lc = Some x2) as (lc & Elc & Erc).
  { destruct x as [b|m]; cbn [HeapModel.load] in El |- *.
    - destruct (Nat.eq_dec b a') as [->|Hn]; [rewrite Ea'; eexists; split; reflexivity|].
      rewrite HO by exact Hn. rewrite El. eexists. split; reflexivity.
    - rewrite El. eexists. split; reflexivity. }
  rewrite Elc. cbn [obind]. rewrite Erc.
  assert (cells h1 a = Some (bcell ht s nv k x y None)) as E1 by (rewrite HO by auto; exact E).
  rewrite (modify_ok _ _ _ _ E1). cbn [obind]. set (h2 := store h1 a _).
  assert (writes h1 h2 cow [a]) as W2 by (eapply store_writes; [exact Hv1|exact E1|exact Hcn|left; reflexivity]).
  assert (cells h2 a' = Some (bcell hl sl ver kl x1 x2 None)) as E2.
  { unfold h2. rewrite store_other by auto. rewrite Ea'. reflexivity. }
  rewrite (modify_ok _ _ _ _ E2). cbn [obind]. set (h3 := store h2 a' _).
  assert (writes h2 h3 cow [a']) as W3 by (eapply store_writes; [apply W2|exact E2|exact Hcv|left; reflexivity]).
  assert (forall z, z <> a -> z <> a' -> cells h3 z = cells h z) as HO3.
  { intros z Z1 Z2. unfold h3, h2. rewrite !store_other by assumption. apply HO. exact Z2. }
  assert (cells h3 a = Some (bcell ht s nv k x2 y None)) as E3.
  { unfold h3. rewrite store_other by auto. unfold h2. rewrite store_same. reflexivity. }
  assert (cells h3 a' = Some (bcell hl sl ver kl x1 (RMem a) None)) as E3'.
  { unfold h3. rewrite store_same. reflexivity. }
  assert (repr h3 x1 ll Ax1) as R1 by (eapply repr_frame; [exact H1|]; intros z Hz; apply HO3; intros ->; contradiction).
  assert (repr h3 x2 lr Ax2) as R2 by (eapply repr_frame; [exact H2|]; intros z Hz; apply HO3; intros ->; contradiction).
  assert (repr h3 y r Ar) as R3 by (eapply repr_frame; [exact Hr|]; intros z Hz; apply HO3; intros ->; contradiction).
  assert (forall z, In z Ax2 -> ~ In z Ar) as HDr2 by (intros z Hz; apply HDr; inapp).
  assert (forall z, In z Ax1 -> ~ In z Ar) as HDr1 by (intros z Hz; apply HDr; inapp).
  destruct (prep_update h3 a ht s nv k x2 y lr r Ax2 Ar cow) as (h4 & ht4 & s4 & E4 & R4 & P4 & Q4);
    [apply W3| |exact Hcn|].
  { split; [exact E3|]. split; [exact R2|]. split; [exact R3|]. apply nodup_cons. rewrite nodup_app. inapp. }
  rewrite E4. cbn [obind].
  assert (forall z, ~ In z (a :: Ax2 ++ Ar) -> (z < next_addr h3)%nat -> cells h4 z = cells h3 z) as HO4.
  { intros z Hz Hz2. destruct Q4 as ((_ & _ & W) & _). destruct (W z Hz2) as [C|[C _]]; [exact C|contradiction]. }
  assert (cells h4 a' = Some (bcell hl sl ver kl x1 (RMem a) None)) as E4'.
  { rewrite HO4; [exact E3'| |]. - inapp. - destruct W3 as (V3 & _). eapply V3. exact E3'. }
  assert (repr h4 x1 ll Ax1) as R1'.
  { eapply repr_frame; [exact R1|]. intros z Hz. apply HO4; [inapp; eauto|]. eapply repr_lt; [apply W3|exact R1|exact Hz]. }
  destruct (prep_update h4 a' hl sl ver kl x1 (RMem a) ll (mk k nv lr r) Ax1 (a :: Ax2 ++ Ar) cow)
    as (h5 & ht5 & s5 & E5 & R5 & P5 & Q5); [apply Q4| |exact Hcv|].
  { split; [exact E4'|]. split; [exact R1'|]. split; [exact R4|].
    apply nodup_cons. rewrite nodup_app, nodup_cons, nodup_app. inapp; eauto. }
  rewrite E5. cbn [obind]. exists h5, a', ht5, s5, x1, (RMem a), Ax1, (a :: Ax2 ++ Ar).
  split; [reflexivity|]. split; [exact R5|]. split; [exact P5|].
  assert (In a' (a :: (heads x ++ Ax1 ++ Ax2) ++ Ar) \/ (next_addr h <= a')%nat) as Hin'.
  { destruct Hcase as [(Hh' & _)|[-> _]]; [left; rewrite Hh'; inapp|right; lia]. }
  split; [|split; [apply Q5|]].
  - eapply writes_trans with (A1 := a :: a' :: Ax1 ++ Ax2 ++ Ar).
    + eapply writes_weaken; [|exact HW]. intros z Hz. inapp.
    + eapply writes_trans with (A1 := a :: a' :: Ax1 ++ Ax2 ++ Ar);
        [eapply writes_weaken; [|exact W2]; intros z Hz; inapp | |intros z Hz; left; exact Hz].
      eapply writes_trans with (A1 := a :: a' :: Ax1 ++ Ax2 ++ Ar);
        [eapply writes_weaken; [|exact W3]; intros z Hz; inapp | |intros z Hz; left; exact Hz].
      eapply writes_trans with (A1 := a :: a' :: Ax1 ++ Ax2 ++ Ar);
        [eapply writes_weaken; [|apply Q4]; intros z Hz; inapp | |intros z Hz; left; exact Hz].
      eapply writes_weaken; [|apply Q5]. intros z Hz. inapp.
    + intros z Hz. destruct Hz as [<-|[<-|Hz]]; [left; left; reflexivity|exact Hin'|left; inapp].
  - intros z [<-|Hz]; [exact Hin'|]. left. inapp.
Qed.

Lemma rotate_left_ok h a ht s nv k x y kr hr sr vr rl rr l Al Ar ver cow :
  valid h -> prep h a ht s nv k x y l (Branch kr hr sr vr rl rr) Al Ar -> cow < nv -> cow < ver ->
  exists h' a' ht' s' x' y' Al' Ar', h_rotate_left sha h a ver cow = Some (h', a') /\
    repr h' (RMem a') (mk kr ver (mk k nv l rl) rr) (a' :: Al' ++ Ar') /\
    prep h' a' ht' s' ver kr x' y' (mk k nv l rl) rr Al' Ar' /\
    post h (a :: Al ++ Ar) cow h' (a' :: Al' ++ Ar').
Proof.
  intros Hv (E & Hl & Hr & HN) Hcn Hcv. unfold h_rotate_left. rewrite E. cbn [obind bcell c_right].
  destruct (load_branch _ _ _ _ _ _ _ _ _ Hr) as (y1 & y2 & hs & Ay1 & Ay2 & El & H1 & H2 & ->).
  destruct (mutate_shallow h y _ ver cow Hv El) as (h1 & a' & Em & Ea' & HO & Hv1 & Hcase & HW). rewrite Em. cbn [obind].
  apply nodup_cons in HN. destruct HN as [Hna HN]. rewrite !nodup_app in HN.
  destruct HN as (HNl & (Hh & (HNy1 & HNy2 & HD12) & HDh) & HDl).
  assert (forall z, In z (heads y) \/ In z Ay1 \/ In z Ay2 \/ In z Al -> (z < next_addr h)%nat) as Hlt.
  { intros z [C|[C|[C|C]]]; [|eapply repr_lt; [exact Hv|exact H1|exact C]|eapply repr_lt; [exact Hv|exact H2|exact C]|eapply repr_lt; [exact Hv|exact Hl|exact C]].
    destruct y as [b|m]; cbn [heads] in C; [|contradiction]. destruct C as [<-|[]]. eapply Hv. cbn [HeapModel.load] in El. exact El. }
  assert (a < next_addr h)%nat as Hal by (eapply Hv; exact E).
  assert (forall z, In z Al -> ~ In z (heads y)) as HDlh by (intros z Hz C; apply (HDl z Hz); inapp).
  assert (forall z, In z Al -> ~ In z Ay1) as HDl1 by (intros z Hz C; apply (HDl z Hz); inapp).
  assert (forall z, In z Al -> ~ In z Ay2) as HDl2 by (intros z Hz C; apply (HDl z Hz); inapp).
  assert (a' <> a /\ ~ In a' Ay1 /\ ~ In a' Ay2 /\ ~ In a' Al) as (Ha1 & Ha2 & Ha3 & Ha4).
  { destruct Hcase as [(Hh' & _ & _)|[-> _]].
    - assert (In a' (heads y)) as HI by (rewrite Hh'; left; reflexivity).
      split; [intros ->; apply Hna; inapp|].
      split; [intros C; apply (HDh a' HI); apply in_or_app; auto|].
      split; [intros C; apply (HDh a' HI); apply in_or_app; auto|].
      intros C. apply (HDlh a' C HI).
    - split; [lia|]. split; [intros C; specialize (Hlt (next_addr h)); assert ((next_addr h < next_addr h)%nat) by auto; lia|].
      split; intros C; specialize (Hlt (next_addr h)); assert ((next_addr h < next_addr h)%nat) by auto 6; lia. }
  assert (~ In a Ay1 /\ ~ In a Ay2 /\ ~ In a Al) as (Hb1 & Hb2 & Hb3).
  { split; [|split]; intros C; apply Hna; inapp. }
  assert (exists lc, load h1 y = Some lc /\ c_left lc = Some y1) as (lc & Elc & Erc).
  { destruct y as [b|m]; cbn [HeapModel.load] in El |- *.
    - destruct (Nat.eq_dec b a') as [->|Hn]; [rewrite Ea'; eexists; split; reflexivity|].
      rewrite HO by exact Hn. rewrite El. eexists. split; reflexivity.
    - rewrite El. eexists. split; reflexivity. }
  rewrite Elc. cbn [obind]. rewrite Erc.
  assert (cells h1 a = Some (bcell ht s nv k x y None)) as E1 by (rewrite HO by auto; exact E).
  rewrite (modify_ok _ _ _ _ E1). cbn [obind]. set (h2 := store h1 a _).
  assert (writes h1 h2 cow [a]) as W2 by (eapply store_writes; [exact Hv1|exact E1|exact Hcn|left; reflexivity]).
  assert (cells h2 a' = Some (bcell hr sr ver kr y1 y2 None)) as E2.
  { unfold h2. rewrite store_other by auto. rewrite Ea'. reflexivity. }
  rewrite (modify_ok _ _ _ _ E2). cbn [obind]. set (h3 := store h2 a' _).
  assert (writes h2 h3 cow [a']) as W3 by (eapply store_writes; [apply W2|exact E2|exact Hcv|left; reflexivity]).
  assert (forall z, z <> a -> z <> a' -> cells h3 z = cells h z) as HO3.
  { intros z Z1 Z2. unfold h3, h2. rewrite !store_other by assumption. apply HO. exact Z2. }
  assert (cells h3 a = Some (bcell ht s nv k x y1 None)) as E3.
  { unfold h3. rewrite store_other by auto. unfold h2. rewrite store_same. reflexivity. }
  assert (cells h3 a' = Some (bcell hr sr ver kr (RMem a) y2 None)) as E3'.
  { unfold h3. rewrite store_same. reflexivity. }
  assert (repr h3 y1 rl Ay1) as R1 by (eapply repr_frame; [exact H1|]; intros z Hz; apply HO3; intros ->; contradiction).
  assert (repr h3 y2 rr Ay2) as R2 by (eapply repr_frame; [exact H2|]; intros z Hz; apply HO3; intros ->; contradiction).
  assert (repr h3 x l Al) as R3 by (eapply repr_frame; [exact Hl|]; intros z Hz; apply HO3; intros ->; contradiction).
  destruct (prep_update h3 a ht s nv k x y1 l rl Al Ay1 cow) as (h4 & ht4 & s4 & E4 & R4 & P4 & Q4);
    [apply W3| |exact Hcn|].
  { split; [exact E3|]. split; [exact R3|]. split; [exact R1|]. apply nodup_cons. rewrite nodup_app. inapp. }
  rewrite E4. cbn [obind].
  assert (forall z, ~ In z (a :: Al ++ Ay1) -> (z < next_addr h3)%nat -> cells h4 z = cells h3 z) as HO4.
  { intros z Hz Hz2. destruct Q4 as ((_ & _ & W) & _). destruct (W z Hz2) as [C|[C _]]; [exact C|contradiction]. }
  assert (cells h4 a' = Some (bcell hr sr ver kr (RMem a) y2 None)) as E4'.
  { rewrite HO4; [exact E3'| |]. - inapp. - destruct W3 as (V3 & _). eapply V3. exact E3'. }
  assert (repr h4 y2 rr Ay2) as R2'.
  { eapply repr_frame; [exact R2|]. intros z Hz. apply HO4; [inapp; eauto|]. eapply repr_lt; [apply W3|exact R2|exact Hz]. }
  destruct (prep_update h4 a' hr sr ver kr (RMem a) y2 (mk k nv l rl) rr (a :: Al ++ Ay1) Ay2 cow)
    as (h5 & ht5 & s5 & E5 & R5 & P5 & Q5); [apply Q4| |exact Hcv|].
  { split; [exact E4'|]. split; [exact R4|]. split; [exact R2'|].
    apply nodup_cons. rewrite nodup_app, nodup_cons, nodup_app. inapp; eauto. }
  rewrite E5. cbn [obind]. exists h5, a', ht5, s5, (RMem a), y2, (a :: Al ++ Ay1), Ay2.
  split; [reflexivity|]. split; [exact R5|]. split; [exact P5|].
  assert (In a' (a :: Al ++ (heads y ++ Ay1 ++ Ay2)) \/ (next_addr h <= a')%nat) as Hin'.
  { destruct Hcase as [(Hh' & _)|[-> _]]; [left; rewrite Hh'; inapp|right; lia]. }
  split; [|split; [apply Q5|]].
  - eapply writes_trans with (A1 := a :: a' :: Ay1 ++ Ay2 ++ Al).
    + eapply writes_weaken; [|exact HW]. intros z Hz. inapp.
    + eapply writes_trans with (A1 := a :: a' :: Ay1 ++ Ay2 ++ Al);
        [eapply writes_weaken; [|exact W2]; intros z Hz; inapp | |intros z Hz; left; exact Hz].
      eapply writes_trans with (A1 := a :: a' :: Ay1 ++ Ay2 ++ Al);
        [eapply writes_weaken; [|exact W3]; intros z Hz; inapp | |intros z Hz; left; exact Hz].
      eapply writes_trans with (A1 := a :: a' :: Ay1 ++ Ay2 ++ Al);
        [eapply writes_weaken; [|apply Q4]; intros z Hz; inapp | |intros z Hz; left; exact Hz].
      eapply writes_weaken; [|apply Q5]. intros z Hz. inapp.
    + intros z Hz. destruct Hz as [<-|[<-|Hz]]; [left; left; reflexivity|exact Hin'|left; inapp].
  - intros z [<-|Hz]; [exact Hin'|]. left. inapp.
Qed.

Lemma balance_ok h r n A : repr h r n A -> h_balance sha h r = calc_balance n.
Proof.
  intros H. unfold h_balance. destruct n as [k v ver|k ht s ver l rr].
  - destruct (load_leaf _ _ _ _ _ _ H) as (hs & -> & _). reflexivity.
  - destruct (load_branch _ _ _ _ _ _ _ _ _ H) as (x & y & hs & Al & Ar & -> & Hl & Hr & _).
    cbn [obind bcell c_left c_right].
    destruct (load_repr _ _ _ _ Hl) as (lc & -> & L1 & _). destruct (load_repr _ _ _ _ Hr) as (rc & -> & R1 & _).
    cbn [obind calc_balance]. rewrite L1, R1. reflexivity.
Qed.

Lemma mutate_prep h r k ht s v l rr A ver cow :
  valid h -> repr h r (Branch k ht s v l rr) A -> NoDup A -> cow < ver ->
  exists h' a x y Al Ar, h_mutate sha h r ver cow = Some (h', a) /\ prep h' a ht s ver k x y l rr Al Ar /\
    post h A cow h' (a :: Al ++ Ar).
Proof.
  intros Hv HR HN Hc. destruct (load_branch _ _ _ _ _ _ _ _ _ HR) as (x & y & hs & Al & Ar & E & Hl & Hr & ->).
  destruct (mutate_shallow h r _ ver cow Hv E) as (h' & a & Em & Ea & HO & Hv' & Hcase & HW).
  apply nodup_app in HN. destruct HN as (_ & HN & HD).
  assert (~ In a (Al ++ Ar)) as Hna.
  { intros C. destruct Hcase as [(Hh & _ & _)|[-> _]].
    - apply (HD a); [rewrite Hh; left; reflexivity|exact C].
    - apply in_app_or in C. destruct C as [C|C];
        [pose proof (repr_lt _ _ _ _ _ Hv Hl C)|pose proof (repr_lt _ _ _ _ _ Hv Hr C)]; lia. }
  exists h', a, x, y, Al, Ar. split; [exact Em|].
  assert (forall z, In z (Al ++ Ar) -> cells h' z = cells h z) as HF by (intros z Hz; apply HO; intros ->; contradiction).
  split.
  - split; [rewrite Ea; reflexivity|].
    split; [eapply repr_frame; [exact Hl|]; intros; apply HF; apply in_or_app; auto|].
    split; [eapply repr_frame; [exact Hr|]; intros; apply HF; apply in_or_app; auto|].
    constructor; assumption.
  - split; [|split; [constructor; assumption|]].
    + eapply writes_weaken; [|exact HW]. intros z Hz. apply in_or_app. auto.
    + intros z [<-|Hz]; [|left; apply in_or_app; auto].
      destruct Hcase as [(-> & _)|[-> _]]; [left; left; reflexivity|right; lia].
Qed.

Lemma post_disj h A cow h' A' B : post h A cow h' A' -> (forall x, In x B -> (x < next_addr h)%nat) ->
  (forall x, In x B -> ~ In x A) -> forall x, In x B -> ~ In x A'.
Proof.
  intros (_ & _ & G) HL HD x Hx C. destruct (G x C) as [C'|C']; [exact (HD x Hx C')|]. specialize (HL x Hx). lia.
Qed.

Lemma rebalance_heap h a ht s k x y l rr Al Ar ver cow n' :
  valid h -> prep h a ht s ver k x y l rr Al Ar -> repr h (RMem a) (mk k ver l rr) (a :: Al ++ Ar) -> cow < ver ->
  rebalance (mk k ver l rr) ver = Some n' ->
  exists h' a' A', h_rebalance sha h a ver cow = Some (h', a') /\ repr h' (RMem a') n' A' /\
    post h (a :: Al ++ Ar) cow h' A'.
Proof.
  intros Hv HP HR Hc Hn. unfold h_rebalance. rewrite (balance_ok _ _ _ _ HR).
  unfold rebalance in Hn. unfold mk in Hn at 1. cbn [calc_balance mk obind].
  pose proof HP as (E & Hl & Hr & HN). pose proof HN as HN'. apply nodup_cons in HN'. destruct HN' as [Hna HN'].
  apply nodup_app in HN'. destruct HN' as (HNl & HNr & HD).
  assert (forall z, In z Al -> (z < next_addr h)%nat) as Ltl by (intros z; eapply repr_lt; eauto).
  assert (forall z, In z Ar -> (z < next_addr h)%nat) as Ltr by (intros z; eapply repr_lt; eauto).
  assert (a < next_addr h)%nat as Lta by (eapply Hv; exact E).
  destruct (1 <? nheight l - nheight rr) eqn:E1; [|destruct (nheight l - nheight rr <? -1) eqn:E2].
  - rewrite E. cbn [obind bcell c_left]. rewrite (balance_ok _ _ _ _ Hl).
    destruct (calc_balance l) as [lb|] eqn:El; [|discriminate]. cbn [obind] in Hn |- *.
    destruct l as [|kl hl sl vl ll lr]; [discriminate|].
    destruct (0 <=? lb) eqn:E3.
    + unfold mk in Hn at 1. cbn [rotate_right] in Hn. injection Hn as <-.
      destruct (rotate_right_ok _ _ _ _ _ _ _ _ _ _ _ _ _ _ _ _ _ ver cow Hv HP Hc Hc)
        as (h' & a' & ht' & s' & x' & y' & Al' & Ar' & Eh & R & _ & Q).
      exists h', a', (a' :: Al' ++ Ar'). auto.
    + cbn [mutate rotate_left] in Hn. destruct lr as [|klr hlr slr vlr lrl lrr]; [discriminate|].
      cbn [obind with_left mk rotate_right] in Hn. injection Hn as <-.
      destruct (mutate_prep h x _ _ _ _ _ _ Al ver cow Hv Hl HNl Hc) as (h1 & l1 & x1 & y1 & A1 & A2 & Em & P1 & Q1).
      rewrite Em. cbn [obind].
      destruct (rotate_left_ok h1 l1 _ _ _ _ _ _ _ _ _ _ _ _ _ _ _ ver cow (proj1 (proj1 Q1)) P1 Hc Hc)
        as (h2 & l2 & ht2 & s2 & x2 & y2 & A3 & A4 & Er & R2 & P2 & Q2). rewrite Er. cbn [obind].
      pose proof (post_trans _ _ _ _ _ _ _ Q1 Q2) as Q. set (A5 := l2 :: A3 ++ A4) in *.
      assert (cells h2 a = Some (bcell ht s ver k x y None)) as E4.
      { destruct Q as ((_ & _ & W) & _). destruct (W a Lta) as [C|[C _]]; [congruence|]. exfalso. apply Hna. apply in_or_app; auto. }
      rewrite (modify_ok _ _ _ _ E4). cbn [obind].
      assert (repr h2 y rr Ar) as Rr.
      { eapply frame_out; [exact Hv|apply Q|exact Hr|]. intros z Hz C. exact (HD z C Hz). }
      pose proof (post_disj _ _ _ _ _ Ar Q Ltr (fun z Hz C => HD z C Hz)) as D1.
      assert (~ In a A5) as D2.
      { apply (post_disj _ _ _ _ _ [a] Q); [intros z [<-|[]]; exact Lta| |left; reflexivity].
        intros z [<-|[]] C. apply Hna. apply in_or_app; auto. }
      assert (~ In a Ar) as D3 by (intros C; apply Hna; apply in_or_app; auto).
      set (h3 := store h2 a _).
      assert (writes h2 h3 cow [a]) as W3 by (eapply store_writes; [apply Q|exact E4|exact Hc|left; reflexivity]).
      assert (prep h3 a ht s ver k (RMem l2) y (mk klr ver (mk kl ver ll lrl) lrr) rr A5 Ar) as P3.
      { split; [unfold h3; rewrite store_same; reflexivity|].
        split; [eapply repr_frame; [exact R2|]; intros z Hz; apply store_other; intros ->; contradiction|].
        split; [eapply repr_frame; [exact Rr|]; intros z Hz; apply store_other; intros ->; contradiction|].
        apply nodup_cons. split; [intros C; apply in_app_or in C; tauto|]. apply nodup_app.
        split; [apply Q|]. split; [exact HNr|]. intros z Hz C. exact (D1 z C Hz). }
      unfold mk in P3 at 1.
      destruct (rotate_right_ok h3 a _ _ _ _ _ _ _ _ _ _ _ _ _ _ _ ver cow (proj1 W3) P3 Hc Hc)
        as (h' & a' & ht' & s' & x' & y' & Al' & Ar' & Eh & R & _ & Q3).
      exists h', a', (a' :: Al' ++ Ar'). split; [exact Eh|]. split; [exact R|].
      eapply post_trans; [|exact Q3]. split; [|split; [apply P3|]].
      * eapply writes_trans; [eapply writes_weaken; [|apply Q]; intros z Hz; inapp|exact W3|]. intros z Hz. inapp.
      * destruct Q as (_ & _ & G). intros z [<-|Hz]; [left; left; reflexivity|].
        apply in_app_or in Hz. destruct Hz as [Hz|Hz]; [|left; inapp].
        destruct (G z Hz); [left; inapp|right; assumption].
  - rewrite E. cbn [obind bcell c_right]. rewrite (balance_ok _ _ _ _ Hr).
    destruct (calc_balance rr) as [rb|] eqn:El; [|discriminate]. cbn [obind] in Hn |- *.
    destruct rr as [|kr hr sr vr rl rrr]; [discriminate|].
    destruct (rb <=? 0) eqn:E3.
    + unfold mk in Hn at 1. cbn [rotate_left] in Hn. injection Hn as <-.
      destruct (rotate_left_ok _ _ _ _ _ _ _ _ _ _ _ _ _ _ _ _ _ ver cow Hv HP Hc Hc)
        as (h' & a' & ht' & s' & x' & y' & Al' & Ar' & Eh & R & _ & Q).
      exists h', a', (a' :: Al' ++ Ar'). auto.
    + cbn [mutate rotate_right] in Hn. destruct rl as [|krl hrl srl vrl rll rlr]; [discriminate|].
      cbn [obind with_right mk rotate_left] in Hn. injection Hn as <-.
      destruct (mutate_prep h y _ _ _ _ _ _ Ar ver cow Hv Hr HNr Hc) as (h1 & l1 & x1 & y1 & A1 & A2 & Em & P1 & Q1).
      rewrite Em. cbn [obind].
      destruct (rotate_right_ok h1 l1 _ _ _ _ _ _ _ _ _ _ _ _ _ _ _ ver cow (proj1 (proj1 Q1)) P1 Hc Hc)
        as (h2 & l2 & ht2 & s2 & x2 & y2 & A3 & A4 & Er & R2 & P2 & Q2). rewrite Er. cbn [obind].
      pose proof (post_trans _ _ _ _ _ _ _ Q1 Q2) as Q. set (A5 := l2 :: A3 ++ A4) in *.
      assert (cells h2 a = Some (bcell ht s ver k x y None)) as E4.
      { destruct Q as ((_ & _ & W) & _). destruct (W a Lta) as [C|[C _]]; [congruence|]. exfalso. apply Hna. apply in_or_app; auto. }
      rewrite (modify_ok _ _ _ _ E4). cbn [obind].
      assert (repr h2 x l Al) as Rl.
      { eapply frame_out; [exact Hv|apply Q|exact Hl|]. exact HD. }
      pose proof (post_disj _ _ _ _ _ Al Q Ltl HD) as D1.
      assert (~ In a A5) as D2.
      { apply (post_disj _ _ _ _ _ [a] Q); [intros z [<-|[]]; exact Lta| |left; reflexivity].
        intros z [<-|[]] C. apply Hna. apply in_or_app; auto. }
      assert (~ In a Al) as D3 by (intros C; apply Hna; apply in_or_app; auto).
      set (h3 := store h2 a _).
      assert (writes h2 h3 cow [a]) as W3 by (eapply store_writes; [apply Q|exact E4|exact Hc|left; reflexivity]).
      assert (prep h3 a ht s ver k x (RMem l2) l (mk krl ver rll (mk kr ver rlr rrr)) Al A5) as P3.
      { split; [unfold h3; rewrite store_same; reflexivity|].
        split; [eapply repr_frame; [exact Rl|]; intros z Hz; apply store_other; intros ->; contradiction|].
        split; [eapply repr_frame; [exact R2|]; intros z Hz; apply store_other; intros ->; contradiction|].
        apply nodup_cons. split; [intros C; apply in_app_or in C; tauto|]. apply nodup_app.
        split; [exact HNl|]. split; [apply Q|exact D1]. }
      unfold mk in P3 at 1.
      destruct (rotate_left_ok h3 a _ _ _ _ _ _ _ _ _ _ _ _ _ _ _ ver cow (proj1 W3) P3 Hc Hc)
        as (h' & a' & ht' & s' & x' & y' & Al' & Ar' & Eh & R & _ & Q3).
      exists h', a', (a' :: Al' ++ Ar'). split; [exact Eh|]. split; [exact R|].
      eapply post_trans; [|exact Q3]. split; [|split; [apply P3|]].
      * eapply writes_trans; [eapply writes_weaken; [|apply Q]; intros z Hz; inapp|exact W3|]. intros z Hz. inapp.
      * destruct Q as (_ & _ & G). intros z [<-|Hz]; [left; left; reflexivity|].
        apply in_app_or in Hz. destruct Hz as [Hz|Hz]; [left; inapp|].
        destruct (G z Hz); [left; inapp|right; assumption].
  - injection Hn as <-. exists h, a, (a :: Al ++ Ar). split; [reflexivity|]. split; [exact HR|].
    split; [apply writes_refl; exact Hv|]. split; [exact HN|auto].
Qed.

Lemma heads_load h r c : valid h -> load h r = Some c -> forall z, In z (heads r) -> (z < next_addr h)%nat.
Proof.
  intros Hv E z HI. destruct r as [b|m]; cbn [heads] in HI; [|contradiction]. destruct HI as [<-|[]].
  eapply Hv. exact E.
Qed.

Lemma load_frame h h' r : (forall z, In z (heads r) -> cells h' z = cells h z) -> load h' r = load h r.
Proof. destruct r as [a|m]; cbn [heads HeapModel.load]; [intros H; apply H; left; reflexivity|reflexivity]. Qed.

(* replace one child after an operation on it (both sides at once) *)
Lemma set_heap n : forall fuel h r A key value ver cow n' u,
  fields_exact n -> valid h -> repr h r n A -> NoDup A -> cow < ver -> (Z.to_nat (depth n) < fuel)%nat ->
  set_rec n key value ver = Some (n', u) ->
  exists h' a' A', h_set sha fuel h r key value ver cow = Some (h', a', u) /\ repr h' (RMem a') n' A' /\
    post h A cow h' A'.
Proof.
  induction n as [nk nv nver|nk ht s nver l IHl rr IHr]; intros fuel h r A key value ver cow n' u HF Hv HR HN Hc Hf Hs;
    (destruct fuel as [|fuel]; [lia|]); cbn [h_set].
  - destruct (load_leaf _ _ _ _ _ _ HR) as (hs & E & HA). rewrite E. cbn [obind c_height c_key].
    change (0 =? 0) with true. cbn match. cbn [set_rec] in Hs.
    destruct (bcmp key nk).
    + injection Hs as <- <-.
      destruct (mutate_shallow h r _ ver cow Hv E) as (h1 & a & Em & Ea & HO & Hv1 & Hcase & HW). rewrite Em. cbn [obind].
      rewrite (modify_ok _ _ _ _ Ea). cbn [obind].
      exists (store h1 a (with_value (with_version (Cell 0 1 nver nk nv None None hs) ver) value)), a, [a].
      split; [reflexivity|]. split; [cbn [repr]; exists None; split; [rewrite store_same; reflexivity|]; split; [exact I|reflexivity]|].
      assert (In a A \/ (next_addr h <= a)%nat) as Hia.
      { destruct Hcase as [(Hh & _)|[-> _]]; [left; rewrite HA, Hh; left; reflexivity|right; lia]. }
      split; [|split; [apply nodup_cons; split; [auto|constructor]|intros z [<-|[]]; exact Hia]].
      eapply writes_trans with (A1 := [a]); [rewrite HA; exact HW| |intros z [<-|[]]; exact Hia].
      eapply store_writes; [exact Hv1|exact Ea|exact Hc|left; reflexivity].
    + injection Hs as <- <-.
      pose proof (alloc_facts h (leaf_cell key value ver) Hv) as F1.
      destruct (alloc h (leaf_cell key value ver)) as [h1 a1]. destruct F1 as (-> & C1 & O1 & V1 & N1 & W1).
      pose proof (alloc_facts h1 (Cell 1 2 ver nk [] (Some (RMem (next_addr h))) (Some r) None) V1) as F2.
      destruct (alloc h1 _) as [h2 a2]. destruct F2 as (-> & C2 & O2 & V2 & N2 & W2).
      assert (forall z, In z A -> (z < next_addr h)%nat) as Lt by (intros z; eapply repr_lt; eauto).
      exists h2, (next_addr h1), (next_addr h1 :: [next_addr h] ++ A). split; [reflexivity|]. split; [|split; [|split]].
      * cbn [repr]. exists (RMem (next_addr h)), r, None, [next_addr h], A. split; [exact C2|]. split; [exact I|].
        split; [exists None; rewrite O2 by lia; split; [exact C1|]; split; [exact I|reflexivity]|]. split; [|reflexivity].
        apply (repr_frame (Leaf nk nv nver) h); [exact HR|]. intros z Hz. specialize (Lt z Hz). rewrite O2 by lia. apply O1. lia.
      * eapply writes_trans; [apply (W1 cow A)|apply (W2 cow A)|auto].
      * cbn [app]. apply nodup_cons. split; [intros [C|C]; [lia|specialize (Lt _ C); lia]|].
        apply nodup_cons. split; [intros C; specialize (Lt _ C); lia|exact HN].
      * intros z [<-|[<-|Hz]]; [right; lia|right; lia|left; exact Hz].
    + injection Hs as <- <-.
      pose proof (alloc_facts h (leaf_cell key value ver) Hv) as F1.
      destruct (alloc h (leaf_cell key value ver)) as [h1 a1]. destruct F1 as (-> & C1 & O1 & V1 & N1 & W1).
      pose proof (alloc_facts h1 (Cell 1 2 ver key [] (Some r) (Some (RMem (next_addr h))) None) V1) as F2.
      destruct (alloc h1 _) as [h2 a2]. destruct F2 as (-> & C2 & O2 & V2 & N2 & W2).
      assert (forall z, In z A -> (z < next_addr h)%nat) as Lt by (intros z; eapply repr_lt; eauto).
      exists h2, (next_addr h1), (next_addr h1 :: A ++ [next_addr h]). split; [reflexivity|]. split; [|split; [|split]].
      * cbn [repr]. exists r, (RMem (next_addr h)), None, A, [next_addr h]. split; [exact C2|]. split; [exact I|].
        split; [|split; [exists None; rewrite O2 by lia; split; [exact C1|]; split; [exact I|reflexivity]|reflexivity]].
        apply (repr_frame (Leaf nk nv nver) h); [exact HR|]. intros z Hz. specialize (Lt z Hz). rewrite O2 by lia. apply O1. lia.
      * eapply writes_trans; [apply (W1 cow A)|apply (W2 cow A)|auto].
      * apply nodup_cons. split; [intros C; apply in_app_or in C; destruct C as [C|[C|[]]]; [specialize (Lt _ C); lia|lia]|].
        apply nodup_app. split; [exact HN|]. split; [apply nodup_cons; split; [auto|constructor]|].
        intros z Hz [C|[]]. specialize (Lt _ Hz). lia.
      * intros z [<-|Hz]; [right; lia|]. apply in_app_or in Hz. destruct Hz as [Hz|[<-|[]]]; [left; exact Hz|right; lia].
  - destruct HF as (HFl & HFr & Hd & _). cbn [depth] in Hf, Hd.
    pose proof (depth_nonneg l) as Dl. pose proof (depth_nonneg rr) as Dr.
    destruct (load_branch _ _ _ _ _ _ _ _ _ HR) as (x & y & hs & Al & Ar & E & Hl & Hr & ->).
    rewrite E. unfold bcell at 1. cbn [obind c_height c_key c_left c_right].
    assert (ht =? 0 = false) as -> by lia.
    pose proof HN as HN'. apply nodup_app in HN'. destruct HN' as (HNh & HN' & HDh).
    apply nodup_app in HN'. destruct HN' as (HNl & HNr & HD).
    assert (forall z, In z Al -> (z < next_addr h)%nat) as Ltl by (intros z; eapply repr_lt; eauto).
    assert (forall z, In z Ar -> (z < next_addr h)%nat) as Ltr by (intros z; eapply repr_lt; eauto).
    pose proof (heads_load _ _ _ Hv E) as Lth.
    cbn [set_rec] in Hs. destruct (bltb key nk) eqn:Ek.
    + destruct (set_rec l key value ver) as [[l' u']|] eqn:Es; [|discriminate]. cbn [obind] in Hs.
      destruct (IHl fuel h x Al key value ver cow l' u' HFl Hv Hl HNl Hc) as (h1 & l1 & A1 & E1 & R1 & Q1); [lia|exact Es|].
      unfold bcell. cbn [c_left obind]. rewrite E1. cbn [obind].
      assert (load h1 r = Some (bcell ht s nver nk x y hs)) as El1.
      { rewrite <- E. apply load_frame. intros z Hz. destruct Q1 as ((_ & _ & W) & _).
        destruct (W z (Lth z Hz)) as [C|[C _]]; [exact C|]. exfalso. apply (HDh z Hz). apply in_or_app; auto. }
      assert (repr h1 y rr Ar) as Rr by (eapply frame_out; [exact Hv|apply Q1|exact Hr|]; intros z Hz C; exact (HD z C Hz)).
      pose proof (post_disj _ _ _ _ _ Ar Q1 Ltr (fun z Hz C => HD z C Hz)) as D1.
      assert (forall z, In z (heads r) -> ~ In z A1) as D2.
      { apply (post_disj _ _ _ _ _ _ Q1 Lth). intros z Hz C. apply (HDh z Hz). apply in_or_app; auto. }
      destruct (assemble h1 r (bcell ht s nver nk x y hs) (fun c => c_with_left c (Some (RMem l1))) ver cow ht s nk (RMem l1) y l' rr A1 Ar)
        as (h2 & a & h3 & Em & Ef & P3 & Q3); [apply Q1|exact El1|reflexivity|exact R1|exact Rr| |exact Hc|].
      { apply nodup_app. split; [exact HNh|]. split; [apply nodup_app; split; [apply Q1|split; [exact HNr|]]|].
        - intros z Hz C. exact (D1 z C Hz).
        - intros z Hz C. apply in_app_or in C. destruct C as [C|C]; [exact (D2 z Hz C)|]. apply (HDh z Hz). apply in_or_app; auto. }
      rewrite Em. cbn [obind]. rewrite Ef. cbn [obind].
      assert (post h (heads r ++ Al ++ Ar) cow h3 (a :: A1 ++ Ar)) as Q.
      { eapply post_trans; [|exact Q3]. split; [eapply writes_weaken; [|apply Q1]; intros z Hz; inapp|]. split.
        - apply nodup_app. split; [exact HNh|]. split; [apply nodup_app; split; [apply Q1|split; [exact HNr|]]|].
          + intros z Hz C. exact (D1 z C Hz).
          + intros z Hz C. apply in_app_or in C. destruct C as [C|C]; [exact (D2 z Hz C)|]. apply (HDh z Hz). apply in_or_app; auto.
        - destruct Q1 as (_ & _ & G). intros z Hz. apply in_app_or in Hz. destruct Hz as [Hz|Hz]; [left; inapp|].
          apply in_app_or in Hz. destruct Hz as [Hz|Hz]; [|left; inapp]. destruct (G z Hz); [left; inapp|right; assumption]. }
      destruct u'.
      * injection Hs as <- <-. exists h3, a, (a :: A1 ++ Ar). split; [reflexivity|]. split; [|exact Q].
        destruct P3 as (C1 & C2 & C3 & C4). cbn [repr]. exists (RMem l1), y, None, A1, Ar.
        split; [exact C1|]. split; [exact I|]. auto.
      * destruct (rebalance (mk nk ver l' rr) ver) as [n2|] eqn:Er; [|discriminate]. cbn [obind] in Hs. injection Hs as <- <-.
        destruct (prep_update h3 a _ _ _ _ _ _ _ _ _ _ cow (proj1 (proj1 Q)) P3 Hc) as (h4 & ht4 & s4 & E4 & R4 & P4 & Q4).
        rewrite E4. cbn [obind].
        destruct (rebalance_heap h4 a _ _ _ _ _ _ _ _ _ ver cow n2 (proj1 (proj1 Q4)) P4 R4 Hc Er) as (h5 & a5 & A5 & E5 & R5 & Q5).
        rewrite E5. cbn [obind]. exists h5, a5, A5. split; [reflexivity|]. split; [exact R5|].
        eapply post_trans; [exact Q|]. eapply post_trans; [exact Q4|exact Q5].
    + destruct (set_rec rr key value ver) as [[r' u']|] eqn:Es; [|discriminate]. cbn [obind] in Hs.
      destruct (IHr fuel h y Ar key value ver cow r' u' HFr Hv Hr HNr Hc) as (h1 & l1 & A1 & E1 & R1 & Q1); [lia|exact Es|].
      unfold bcell. cbn [c_right obind]. rewrite E1. cbn [obind].
      assert (load h1 r = Some (bcell ht s nver nk x y hs)) as El1.
      { rewrite <- E. apply load_frame. intros z Hz. destruct Q1 as ((_ & _ & W) & _).
        destruct (W z (Lth z Hz)) as [C|[C _]]; [exact C|]. exfalso. apply (HDh z Hz). apply in_or_app; auto. }
      assert (repr h1 x l Al) as Rl by (eapply frame_out; [exact Hv|apply Q1|exact Hl|]; exact HD).
      pose proof (post_disj _ _ _ _ _ Al Q1 Ltl HD) as D1.
      assert (forall z, In z (heads r) -> ~ In z A1) as D2.
      { apply (post_disj _ _ _ _ _ _ Q1 Lth). intros z Hz C. apply (HDh z Hz). apply in_or_app; auto. }
      destruct (assemble h1 r (bcell ht s nver nk x y hs) (fun c => c_with_right c (Some (RMem l1))) ver cow ht s nk x (RMem l1) l r' Al A1)
        as (h2 & a & h3 & Em & Ef & P3 & Q3); [apply Q1|exact El1|reflexivity|exact Rl|exact R1| |exact Hc|].
      { apply nodup_app. split; [exact HNh|]. split; [apply nodup_app; split; [exact HNl|split; [apply Q1|exact D1]]|].
        intros z Hz C. apply in_app_or in C. destruct C as [C|C]; [|exact (D2 z Hz C)]. apply (HDh z Hz). apply in_or_app; auto. }
      rewrite Em. cbn [obind]. rewrite Ef. cbn [obind].
      assert (post h (heads r ++ Al ++ Ar) cow h3 (a :: Al ++ A1)) as Q.
      { eapply post_trans; [|exact Q3]. split; [eapply writes_weaken; [|apply Q1]; intros z Hz; inapp|]. split.
        - apply nodup_app. split; [exact HNh|]. split; [apply nodup_app; split; [exact HNl|split; [apply Q1|exact D1]]|].
          intros z Hz C. apply in_app_or in C. destruct C as [C|C]; [|exact (D2 z Hz C)]. apply (HDh z Hz). apply in_or_app; auto.
        - destruct Q1 as (_ & _ & G). intros z Hz. apply in_app_or in Hz. destruct Hz as [Hz|Hz]; [left; inapp|].
          apply in_app_or in Hz. destruct Hz as [Hz|Hz]; [left; inapp|]. destruct (G z Hz); [left; inapp|right; assumption]. }
      destruct u'.
      * injection Hs as <- <-. exists h3, a, (a :: Al ++ A1). split; [reflexivity|]. split; [|exact Q].
        destruct P3 as (C1 & C2 & C3 & C4). cbn [repr]. exists x, (RMem l1), None, Al, A1.
        split; [exact C1|]. split; [exact I|]. auto.
      * destruct (rebalance (mk nk ver l r') ver) as [n2|] eqn:Er; [|discriminate]. cbn [obind] in Hs. injection Hs as <- <-.
        destruct (prep_update h3 a _ _ _ _ _ _ _ _ _ _ cow (proj1 (proj1 Q)) P3 Hc) as (h4 & ht4 & s4 & E4 & R4 & P4 & Q4).
        rewrite E4. cbn [obind].
        destruct (rebalance_heap h4 a _ _ _ _ _ _ _ _ _ ver cow n2 (proj1 (proj1 Q4)) P4 R4 Hc Er) as (h5 & a5 & A5 & E5 & R5 & Q5).
        rewrite E5. cbn [obind]. exists h5, a5, A5. split; [reflexivity|]. split; [exact R5|].
        eapply post_trans; [exact Q|]. eapply post_trans; [exact Q4|exact Q5].
Qed.

Definition rest_repr (h : heap) (o : option ref) (n : root) (A : list nat) : Prop :=
  match o, n with
  | None, None => A = []
  | Some r, Some n => repr h r n A
  | _, _ => False
  end.

Lemma remove_heap n : forall fuel h r A key ver cow res,
  fields_exact n -> valid h -> repr h r n A -> NoDup A -> cow < ver -> (Z.to_nat (depth n) < fuel)%nat ->
  remove_rec n key ver = Some res ->
  match res with
  | NotFound => h_remove sha fuel h r key ver cow = Some (h, HNotFound)
  | Removed v rest nk => exists h' rest' A', h_remove sha fuel h r key ver cow = Some (h', HRemoved v rest' nk) /\
      rest_repr h' rest' rest A' /\ post h A cow h' A'
  end.
Proof.
  induction n as [nk nv nver|nk ht s nver l IHl rr IHr]; intros fuel h r A key ver cow res HF Hv HR HN Hc Hf Hs;
    (destruct fuel as [|fuel]; [lia|]); cbn [h_remove].
  - destruct (load_leaf _ _ _ _ _ _ HR) as (hs & E & HA). rewrite E. cbn [obind c_height c_key c_value].
    change (0 =? 0) with true. cbn match. cbn [remove_rec] in Hs. injection Hs as <-.
    destruct (beqb nk key); [|reflexivity]. exists h, None, []. split; [reflexivity|]. split; [reflexivity|].
    split; [apply writes_refl; exact Hv|]. split; [constructor|intros z []].
  - destruct HF as (HFl & HFr & Hd & _). cbn [depth] in Hf, Hd.
    pose proof (depth_nonneg l) as Dl. pose proof (depth_nonneg rr) as Dr.
    destruct (load_branch _ _ _ _ _ _ _ _ _ HR) as (x & y & hs & Al & Ar & E & Hl & Hr & ->).
    rewrite E. unfold bcell. cbn [obind c_height c_key c_left c_right].
    assert (ht =? 0 = false) as -> by lia.
    pose proof HN as HN'. apply nodup_app in HN'. destruct HN' as (HNh & HN' & HDh).
    apply nodup_app in HN'. destruct HN' as (HNl & HNr & HD).
    assert (forall z, In z Al -> (z < next_addr h)%nat) as Ltl by (intros z; eapply repr_lt; eauto).
    assert (forall z, In z Ar -> (z < next_addr h)%nat) as Ltr by (intros z; eapply repr_lt; eauto).
    pose proof (heads_load _ _ _ Hv E) as Lth.
    cbn [remove_rec] in Hs. unfold bcell. cbn [c_left c_right c_key obind]. destruct (bltb key nk) eqn:Ek.
    + destruct (remove_rec l key ver) as [rl|] eqn:Es; [|discriminate]. cbn [obind] in Hs.
      specialize (IHl fuel h x Al key ver cow rl HFl Hv Hl HNl Hc). 
      assert ((Z.to_nat (depth l) < fuel)%nat) as Hfl by lia. specialize (IHl Hfl Es).
      destruct rl as [|v [l'|] nk'].
      * injection Hs as <-. rewrite IHl. reflexivity.
      * destruct IHl as (h1 & rest' & A1 & E1 & R1 & Q1). rewrite E1. cbn [obind].
        destruct rest' as [l1|]; [|contradiction]. cbn [rest_repr] in R1.
        destruct (rebalance (mk nk ver l' rr) ver) as [n2|] eqn:Er; [|discriminate]. cbn [obind] in Hs. injection Hs as <-.
        assert (load h1 r = Some (bcell ht s nver nk x y hs)) as El1.
        { rewrite <- E. apply load_frame. intros z Hz. destruct Q1 as ((_ & _ & W) & _).
          destruct (W z (Lth z Hz)) as [C|[C _]]; [exact C|]. exfalso. apply (HDh z Hz). apply in_or_app; auto. }
        assert (repr h1 y rr Ar) as Rr by (eapply frame_out; [exact Hv|apply Q1|exact Hr|]; intros z Hz C; exact (HD z C Hz)).
        pose proof (post_disj _ _ _ _ _ Ar Q1 Ltr (fun z Hz C => HD z C Hz)) as D1.
        assert (forall z, In z (heads r) -> ~ In z A1) as D2.
        { apply (post_disj _ _ _ _ _ _ Q1 Lth). intros z Hz C. apply (HDh z Hz). apply in_or_app; auto. }
        assert (NoDup (heads r ++ A1 ++ Ar)) as HN1.
        { apply nodup_app. split; [exact HNh|]. split; [apply nodup_app; split; [apply Q1|split; [exact HNr|]]|].
          - intros z Hz C. exact (D1 z C Hz).
          - intros z Hz C. apply in_app_or in C. destruct C as [C|C]; [exact (D2 z Hz C)|]. apply (HDh z Hz). apply in_or_app; auto. }
        destruct (assemble h1 r (bcell ht s nver nk x y hs) (fun c => c_with_left c (Some l1)) ver cow ht s nk l1 y l' rr A1 Ar)
          as (h2 & a & h3 & Em & Ef & P3 & Q3); [apply Q1|exact El1|reflexivity|exact R1|exact Rr|exact HN1|exact Hc|].
        rewrite Em. cbn [obind]. rewrite Ef. cbn [obind].
        assert (post h (heads r ++ Al ++ Ar) cow h3 (a :: A1 ++ Ar)) as Q.
        { eapply post_trans; [|exact Q3]. split; [eapply writes_weaken; [|apply Q1]; intros z Hz; inapp|]. split; [exact HN1|].
          destruct Q1 as (_ & _ & G). intros z Hz. apply in_app_or in Hz. destruct Hz as [Hz|Hz]; [left; inapp|].
          apply in_app_or in Hz. destruct Hz as [Hz|Hz]; [|left; inapp]. destruct (G z Hz); [left; inapp|right; assumption]. }
        destruct (prep_update h3 a _ _ _ _ _ _ _ _ _ _ cow (proj1 (proj1 Q)) P3 Hc) as (h4 & ht4 & s4 & E4 & R4 & P4 & Q4).
        rewrite E4. cbn [obind].
        destruct (rebalance_heap h4 a _ _ _ _ _ _ _ _ _ ver cow n2 (proj1 (proj1 Q4)) P4 R4 Hc Er) as (h5 & a5 & A5 & E5 & R5 & Q5).
        rewrite E5. cbn [obind]. exists h5, (Some (RMem a5)), A5. split; [reflexivity|]. split; [exact R5|].
        eapply post_trans; [exact Q|]. eapply post_trans; [exact Q4|exact Q5].
      * destruct IHl as (h1 & rest' & A1 & E1 & R1 & Q1). rewrite E1. cbn [obind].
        destruct rest' as [l1|]; [contradiction|]. injection Hs as <-.
        assert (load h1 r = Some (bcell ht s nver nk x y hs)) as El1.
        { rewrite <- E. apply load_frame. intros z Hz. destruct Q1 as ((_ & _ & W) & _).
          destruct (W z (Lth z Hz)) as [C|[C _]]; [exact C|]. exfalso. apply (HDh z Hz). apply in_or_app; auto. }
        rewrite El1. unfold bcell. cbn [obind c_right c_key]. exists h1, (Some y), Ar. split; [reflexivity|].
        split; [cbn [rest_repr]; eapply frame_out; [exact Hv|apply Q1|exact Hr|]; intros z Hz C; exact (HD z C Hz)|].
        split; [eapply writes_weaken; [|apply Q1]; intros z Hz; inapp|]. split; [exact HNr|]. intros z Hz. left; inapp.
    + destruct (remove_rec rr key ver) as [rl|] eqn:Es; [|discriminate]. cbn [obind] in Hs.
      specialize (IHr fuel h y Ar key ver cow rl HFr Hv Hr HNr Hc).
      assert ((Z.to_nat (depth rr) < fuel)%nat) as Hfl by lia. specialize (IHr Hfl Es).
      destruct rl as [|v [r'|] nk'].
      * injection Hs as <-. rewrite IHr. reflexivity.
      * destruct IHr as (h1 & rest' & A1 & E1 & R1 & Q1). rewrite E1. cbn [obind].
        destruct rest' as [l1|]; [|contradiction]. cbn [rest_repr] in R1.
        set (nk2 := match nk' with Some k => k | None => nk end) in *. cbn zeta in Hs.
        destruct (rebalance (mk nk2 ver l r') ver) as [n2|] eqn:Er; [|discriminate]. cbn [obind] in Hs. injection Hs as <-.
        assert (load h1 r = Some (bcell ht s nver nk x y hs)) as El1.
        { rewrite <- E. apply load_frame. intros z Hz. destruct Q1 as ((_ & _ & W) & _).
          destruct (W z (Lth z Hz)) as [C|[C _]]; [exact C|]. exfalso. apply (HDh z Hz). apply in_or_app; auto. }
        assert (repr h1 x l Al) as Rl by (eapply frame_out; [exact Hv|apply Q1|exact Hl|]; exact HD).
        pose proof (post_disj _ _ _ _ _ Al Q1 Ltl HD) as D1.
        assert (forall z, In z (heads r) -> ~ In z A1) as D2.
        { apply (post_disj _ _ _ _ _ _ Q1 Lth). intros z Hz C. apply (HDh z Hz). apply in_or_app; auto. }
        assert (NoDup (heads r ++ Al ++ A1)) as HN1.
        { apply nodup_app. split; [exact HNh|]. split; [apply nodup_app; split; [exact HNl|split; [apply Q1|exact D1]]|].
          intros z Hz C. apply in_app_or in C. destruct C as [C|C]; [|exact (D2 z Hz C)]. apply (HDh z Hz). apply in_or_app; auto. }
        destruct (assemble h1 r (bcell ht s nver nk x y hs)
                    (fun c => let c' := c_with_right c (Some l1) in match nk' with Some k => with_key c' k | None => c' end)
                    ver cow ht s nk2 x l1 l r' Al A1)
          as (h2 & a & h3 & Em & Ef & P3 & Q3); [apply Q1|exact El1|destruct nk'; reflexivity|exact Rl|exact R1|exact HN1|exact Hc|].
        cbn zeta in Ef. rewrite Em. cbn [obind]. cbn zeta. rewrite Ef. cbn [obind].
        assert (post h (heads r ++ Al ++ Ar) cow h3 (a :: Al ++ A1)) as Q.
        { eapply post_trans; [|exact Q3]. split; [eapply writes_weaken; [|apply Q1]; intros z Hz; inapp|]. split; [exact HN1|].
          destruct Q1 as (_ & _ & G). intros z Hz. apply in_app_or in Hz. destruct Hz as [Hz|Hz]; [left; inapp|].
          apply in_app_or in Hz. destruct Hz as [Hz|Hz]; [left; inapp|]. destruct (G z Hz); [left; inapp|right; assumption]. }
        destruct (prep_update h3 a _ _ _ _ _ _ _ _ _ _ cow (proj1 (proj1 Q)) P3 Hc) as (h4 & ht4 & s4 & E4 & R4 & P4 & Q4).
        rewrite E4. cbn [obind].
        destruct (rebalance_heap h4 a _ _ _ _ _ _ _ _ _ ver cow n2 (proj1 (proj1 Q4)) P4 R4 Hc Er) as (h5 & a5 & A5 & E5 & R5 & Q5).
        rewrite E5. cbn [obind]. exists h5, (Some (RMem a5)), A5. split; [reflexivity|]. split; [exact R5|].
        eapply post_trans; [exact Q|]. eapply post_trans; [exact Q4|exact Q5].
      * destruct IHr as (h1 & rest' & A1 & E1 & R1 & Q1). rewrite E1. cbn [obind].
        destruct rest' as [l1|]; [contradiction|]. injection Hs as <-.
        assert (load h1 r = Some (bcell ht s nver nk x y hs)) as El1.
        { rewrite <- E. apply load_frame. intros z Hz. destruct Q1 as ((_ & _ & W) & _).
          destruct (W z (Lth z Hz)) as [C|[C _]]; [exact C|]. exfalso. apply (HDh z Hz). apply in_or_app; auto. }
        rewrite El1. unfold bcell. cbn [obind c_left]. exists h1, (Some x), Al. split; [reflexivity|].
        split; [cbn [rest_repr]; eapply frame_out; [exact Hv|apply Q1|exact Hl|]; exact HD|].
        split; [eapply writes_weaken; [|apply Q1]; intros z Hz; inapp|]. split; [exact HNl|]. intros z Hz. left; inapp.
Qed.

(* ---------------- reading ---------------- *)

Lemma get_heap n : forall fuel h r A key, fields_exact n -> repr h r n A -> (Z.to_nat (depth n) < fuel)%nat ->
  h_get sha fuel h r key = Some (get_rec n key).
Proof.
  induction n as [nk nv nver|nk ht s nver l IHl rr IHr]; intros fuel h r A key HF HR Hf;
    (destruct fuel as [|fuel]; [lia|]); cbn [h_get].
  - destruct (load_leaf _ _ _ _ _ _ HR) as (hs & E & _). rewrite E. cbn [obind c_height c_key c_value get_rec].
    change (0 =? 0) with true. cbn match. reflexivity.
  - destruct HF as (HFl & HFr & Hd & _). cbn [depth] in Hf, Hd.
    pose proof (depth_nonneg l) as Dl. pose proof (depth_nonneg rr) as Dr.
    destruct (load_branch _ _ _ _ _ _ _ _ _ HR) as (x & y & hs & Al & Ar & E & Hl & Hr & _).
    rewrite E. unfold bcell. cbn [obind c_height c_key c_left c_right c_size get_rec].
    assert (ht =? 0 = false) as -> by lia. destruct (bltb key nk).
    + eapply IHl; [exact HFl|exact Hl|lia].
    + destruct (load_repr _ _ _ _ Hr) as (rc & -> & _ & R2 & _). cbn [obind].
      rewrite (IHr fuel h y Ar key HFr Hr) by lia. cbn [obind]. destruct (get_rec rr key). rewrite R2. reflexivity.
Qed.

Lemma view_heap n : forall fuel h r A, fields_exact n -> repr h r n A -> (Z.to_nat (depth n) < fuel)%nat ->
  h_view sha fuel h r = Some n.
Proof.
  induction n as [nk nv nver|nk ht s nver l IHl rr IHr]; intros fuel h r A HF HR Hf;
    (destruct fuel as [|fuel]; [lia|]); cbn [h_view].
  - destruct (load_leaf _ _ _ _ _ _ HR) as (hs & E & _). rewrite E. cbn [obind c_height c_key c_value c_version].
    change (0 =? 0) with true. cbn match. reflexivity.
  - destruct HF as (HFl & HFr & Hd & _). cbn [depth] in Hf, Hd.
    pose proof (depth_nonneg l) as Dl. pose proof (depth_nonneg rr) as Dr.
    destruct (load_branch _ _ _ _ _ _ _ _ _ HR) as (x & y & hs & Al & Ar & E & Hl & Hr & _).
    rewrite E. unfold bcell. cbn [obind c_height c_key c_left c_right c_size c_version].
    assert (ht =? 0 = false) as -> by lia.
    rewrite (IHl fuel h x Al HFl Hl) by lia. rewrite (IHr fuel h y Ar HFr Hr) by lia. reflexivity.
Qed.

Lemma repr_fun n1 : forall h r n2 A1 A2, repr h r n1 A1 -> repr h r n2 A2 ->
  fields_exact n1 -> fields_exact n2 -> n1 = n2.
Proof.
  intros h r n2 A1 A2 R1 R2 F1 F2.
  pose proof (view_heap n1 (S (Z.to_nat (depth n1) + Z.to_nat (depth n2))) h r A1 F1 R1) as V1.
  pose proof (view_heap n2 (S (Z.to_nat (depth n1) + Z.to_nat (depth n2))) h r A2 F2 R2) as V2.
  rewrite V1 in V2 by lia. specialize (V2 ltac:(lia)). congruence.
Qed.

(* ---------------- hashing ---------------- *)

(* h' is h with some correct hashes cached *)
Definition hashed (h h' : heap) : Prop :=
  next_addr h' = next_addr h /\
  forall x, cells h' x = cells h x \/
    exists c n A, cells h x = Some c /\ cells h' x = Some (with_hash c (nhash sha n)) /\
      repr h (RMem x) n A /\ fields_exact n /\ c_hash c = None.

Lemma hashed_repr n : forall h h' r A, hashed h h' -> fields_exact n -> repr h r n A -> repr h' r n A.
Proof.
  induction n as [nk nv nver|nk ht s nver l IHl rr IHr]; intros h h' r A HH HF HR;
    (destruct r as [a|m]; [|exact HR]).
  - pose proof HR as HR0. cbn [repr] in HR |- *. destruct HR as (hs & E & Hh & ->). destruct HH as [_ HH].
    destruct (HH a) as [E'|(c & n & A & Ec & E' & Rn & Fn & _)]; [exists hs; rewrite E'; auto|].
    pose proof (repr_fun _ _ _ _ _ _ HR0 Rn HF Fn) as <-. rewrite Ec in E. injection E as ->.
    exists (Some (nhash sha (Leaf nk nv nver))). split; [exact E'|]. split; reflexivity.
  - pose proof HR as HR0. cbn [repr] in HR |- *. destruct HR as (x & y & hs & Al & Ar & E & Hh & Hl & Hr & ->).
    pose proof HF as (HFl & HFr & _).
    pose proof (IHl _ _ _ _ HH HFl Hl) as Hl'. pose proof (IHr _ _ _ _ HH HFr Hr) as Hr'.
    destruct (proj2 HH a) as [E'|(c & n & A & Ec & E' & Rn & Fn & _)].
    + exists x, y, hs, Al, Ar. rewrite E'. auto.
    + pose proof (repr_fun _ _ _ _ _ _ HR0 Rn HF Fn) as <-. rewrite Ec in E. injection E as ->.
      exists x, y, (Some (nhash sha (Branch nk ht s nver l rr))), Al, Ar. split; [exact E'|]. split; [reflexivity|]. auto.
Qed.

Lemma with_hash_twice c x y : with_hash (with_hash c x) y = with_hash c y.
Proof. reflexivity. Qed.

Lemma hashed_refl h : hashed h h.
Proof. split; [reflexivity|]. intros x. left; reflexivity. Qed.

Definition unhash (c : cell) : cell :=
  Cell (c_height c) (c_size c) (c_version c) (c_key c) (c_value c) (c_left c) (c_right c) None.

Lemma repr_unhash n : forall h h' r A, repr h' r n A ->
  (forall x c', cells h' x = Some c' -> exists c, cells h x = Some c /\ unhash c = unhash c' /\ (c_hash c = None \/ c_hash c = c_hash c')) ->
  repr h r n A.
Proof.
  induction n as [nk nv nver|nk ht s nver l IHl rr IHr]; intros h h' r A HR HU;
    (destruct r as [a|m]; [|exact HR]); cbn [repr] in *.
  - destruct HR as (hs & E & Hh & ->). destruct (HU a _ E) as ([c1 c2 c3 c4 c5 c6 c7 c8] & Ec & Eu & Hc).
    unfold unhash in Eu. cbn in Eu. injection Eu as -> -> -> -> -> -> ->. exists c8. split; [exact Ec|].
    split; [|reflexivity]. cbn in Hc. destruct Hc as [->| ->]; [exact I|exact Hh].
  - destruct HR as (x & y & hs & Al & Ar & E & Hh & Hl & Hr & ->).
    destruct (HU a _ E) as ([c1 c2 c3 c4 c5 c6 c7 c8] & Ec & Eu & Hc).
    unfold unhash, bcell in Eu. cbn in Eu. injection Eu as -> -> -> -> -> -> ->. exists x, y, c8, Al, Ar.
    split; [exact Ec|]. split; [cbn in Hc; destruct Hc as [->| ->]; [exact I|exact Hh]|].
    split; [eapply IHl; eauto|]. split; [eapply IHr; eauto|reflexivity].
Qed.

Lemma hashed_trans h h1 h2 : hashed h h1 -> hashed h1 h2 -> hashed h h2.
Proof.
  intros H1 H2. split; [destruct H1, H2; congruence|]. intros x.
  destruct (proj2 H2 x) as [E2|(c2 & n2 & A2 & Ec2 & E2 & R2 & F2 & Hn2)].
  - rewrite E2. apply H1.
  - destruct (proj2 H1 x) as [E1|(c1 & n1 & A1 & Ec1 & E1 & R1 & F1 & Hn1)].
    + right. exists c2, n2, A2. split; [congruence|]. split; [exact E2|]. split; [|auto].
      eapply repr_unhash; [exact R2|]. intros z c' Ez.
      destruct (proj2 H1 z) as [Ez1|(c & n & A & Ec & E' & _ & _ & Hn)].
      * exists c'. split; [congruence|]. auto.
      * exists c. rewrite E' in Ez. injection Ez as <-. auto.
    + rewrite Ec2 in E1. injection E1 as ->. discriminate Hn2.
Qed.

Lemma hash_heap n : forall fuel h r A, fields_exact n -> repr h r n A -> (Z.to_nat (depth n) < fuel)%nat ->
  exists h', h_hash sha fuel h r = Some (h', nhash sha n) /\ hashed h h'.
Proof.
  induction n as [nk nv nver|nk ht s nver l IHl rr IHr]; intros fuel h r A HF HR Hf;
    (destruct fuel as [|fuel]; [lia|]); cbn [h_hash].
  - destruct r as [a|m].
    + pose proof HR as HR0. destruct HR as (hs & E & Hh & ->). cbn [HeapModel.load]. rewrite E. cbn [obind c_hash].
      destruct hs as [x|]; [cbn [hash_ok] in Hh; subst x; exists h; split; [reflexivity|apply hashed_refl]|].
      cbn [c_height c_version c_key c_value]. change (0 =? 0) with true. cbn match. rewrite (modify_ok _ _ _ _ E). cbn [obind].
      eexists. split; [reflexivity|]. split; [reflexivity|]. intros z. destruct (Nat.eq_dec z a) as [->|Hz].
      * right. exists (Cell 0 1 nver nk nv None None None), (Leaf nk nv nver), [a]. rewrite store_same. cbn. auto.
      * left. apply store_other. exact Hz.
    + destruct HR as [-> ->]. cbn [HeapModel.load obind c_hash]. exists h. split; [reflexivity|apply hashed_refl].
  - destruct r as [a|m].
    + pose proof HR as HR0. destruct HR as (x & y & hs & Al & Ar & E & Hh & Hl & Hr & ->). cbn [HeapModel.load]. rewrite E.
      unfold bcell. cbn [obind c_hash].
      destruct hs as [z|]; [cbn [hash_ok] in Hh; subst z; exists h; split; [reflexivity|apply hashed_refl]|].
      pose proof HF as (HFl & HFr & Hd & _). cbn [depth] in Hf, Hd.
      pose proof (depth_nonneg l) as Dl. pose proof (depth_nonneg rr) as Dr.
      cbn [c_height c_version c_key c_value c_left c_right c_size]. assert (ht =? 0 = false) as -> by lia. cbn [obind].
      destruct (IHl fuel h x Al HFl Hl) as (h1 & E1 & H1); [lia|]. rewrite E1. cbn [obind].
      pose proof (hashed_repr _ _ _ _ _ H1 HFr Hr) as Hr1.
      destruct (IHr fuel h1 y Ar HFr Hr1) as (h2 & E2 & H2); [lia|]. rewrite E2. cbn [obind].
      pose proof (hashed_trans _ _ _ H1 H2) as H12.
      assert (exists hs2, cells h2 a = Some (bcell ht s nver nk x y hs2) /\ hash_ok (Branch nk ht s nver l rr) hs2) as (hs2 & Ea & Hs2).
      { pose proof (hashed_repr _ _ _ _ _ H12 HF HR0) as R2. destruct R2 as (x' & y' & hs2 & ? & ? & Ea & Hh2 & _).
        destruct (proj2 H12 a) as [C|(c & n & A & Ec & C & _)].
        - rewrite C, E in Ea. exists None. split; [congruence|exact I].
        - rewrite E in Ec. injection Ec as <-. rewrite C in Ea. unfold with_hash, bcell in Ea. cbn in Ea.
          injection Ea as <- <- <-. eexists. split; [exact C|exact Hh2]. }
      rewrite (modify_ok _ _ _ _ Ea). cbn [obind]. eexists. split; [reflexivity|].
      destruct hs2 as [z|].
      * (* cannot happen: a is not below itself; kept simple by rewriting the same hash *)
        cbn [hash_ok] in Hs2. subst z. eapply hashed_trans; [exact H12|]. split; [reflexivity|]. intros z.
        left. destruct (Nat.eq_dec z a) as [->|Hz]; [rewrite store_same, Ea; reflexivity|apply store_other; exact Hz].
      * eapply hashed_trans; [exact H12|]. split; [reflexivity|]. intros z. destruct (Nat.eq_dec z a) as [->|Hz].
        -- right. exists (bcell ht s nver nk x y None), (Branch nk ht s nver l rr), (a :: Al ++ Ar). rewrite store_same.
           split; [exact Ea|]. split; [reflexivity|]. split; [|split; [exact HF|reflexivity]].
           eapply hashed_repr; [exact H12|exact HF|exact HR0].
        -- left. apply store_other. exact Hz.
    + destruct HR as [-> ->]. cbn [HeapModel.load obind c_hash]. exists h. split; [reflexivity|apply hashed_refl].
Qed.

(* ---------------- forests ---------------- *)

Definition tree_rel (h : heap) (t : htree) (p : tree) (A : list nat) : Prop :=
  ht_version t = t_version p /\ ht_cache t = t_cache p /\ rest_repr h (ht_root t) (t_root p) A /\ NoDup A /\
  ht_cow t <= ht_version t /\ root_ok avl (t_root p).

Definition finv (f : forest) (ts : list tree) (fp : nat -> list nat) : Prop :=
  length (f_trees f) = length ts /\ valid (f_heap f) /\
  (forall i t p, nth_error (f_trees f) i = Some t -> nth_error ts i = Some p -> tree_rel (f_heap f) t p (fp i)) /\
  (forall i j t x, i <> j -> nth_error (f_trees f) i = Some t -> (j < length ts)%nat ->
     In x (fp i) -> In x (fp j) -> exists c, cells (f_heap f) x = Some c /\ c_version c <= ht_cow t).

Lemma rest_frame h h' r n A : rest_repr h r n A -> (forall x, In x A -> cells h' x = cells h x) -> rest_repr h' r n A.
Proof.
  destruct r as [r|], n as [n|]; cbn [rest_repr]; auto. intros H HF. eapply repr_frame; eauto.
Qed.

Lemma rest_lt h r n A x : valid h -> rest_repr h r n A -> In x A -> (x < next_addr h)%nat.
Proof.
  destruct r as [r|], n as [n|]; cbn [rest_repr]; try contradiction; [apply repr_lt|]. intros _ -> [].
Qed.

Lemma nth_set_nth {A} (l : list A) i j x :
  nth_error (set_nth l i x) j = if Nat.eqb i j then option_map (fun _ => x) (nth_error l i) else nth_error l j.
Proof.
  revert i j. induction l as [|y l IH]; intros [|i] [|j]; cbn; try reflexivity.
  - destruct (Nat.eqb i j); reflexivity.
  - apply IH.
Qed.

Lemma length_set_nth {A} (l : list A) i x : length (set_nth l i x) = length l.
Proof. revert i. induction l as [|y l IH]; intros [|i]; cbn; auto. Qed.

Lemma set_nth_same {A} (l : list A) i x : nth_error l i = Some x -> set_nth l i x = l.
Proof. revert i. induction l as [|y l IH]; intros [|i]; cbn; intros H; try discriminate; [congruence|]. rewrite IH by exact H. reflexivity. Qed.

Definition refp (fp : nat -> list nat) (i : nat) (A : list nat) : nat -> list nat := fun j => if Nat.eqb i j then A else fp j.

Lemma finv_update f ts fp i t p h' t' p' A' :
  finv f ts fp -> nth_error (f_trees f) i = Some t -> nth_error ts i = Some p ->
  tree_rel h' t' p' A' -> post (f_heap f) (fp i) (ht_cow t) h' A' -> ht_cow t <= ht_cow t' ->
  finv (Forest h' (set_nth (f_trees f) i t')) (set_nth ts i p') (refp fp i A').
Proof.
  intros (HL & Hv & HT & HS) Et Ep HR' (HW & HN & HG) Hcow.
  assert (i < length ts)%nat as Hi by (apply nth_error_Some; congruence).
  assert (forall j, j <> i -> (j < length ts)%nat -> forall x, In x (fp j) -> cells h' x = cells (f_heap f) x /\ (x < next_addr (f_heap f))%nat) as HF.
  { intros j Hj Hjl x Hx.
    destruct (nth_error (f_trees f) j) as [tj|] eqn:Ej; [|apply nth_error_None in Ej; lia].
    destruct (nth_error ts j) as [pj|] eqn:Epj; [|apply nth_error_None in Epj; lia].
    assert (x < next_addr (f_heap f))%nat as Hlt by (eapply rest_lt; [exact Hv|apply (HT j tj pj Ej Epj)|exact Hx]).
    split; [|exact Hlt]. destruct HW as (_ & _ & W). destruct (W x Hlt) as [E|[HI (c & Ec & Hc)]]; [exact E|].
    destruct (HS i j t x (not_eq_sym Hj) Et Hjl HI Hx) as (c' & Ec' & Hc'). rewrite Ec in Ec'. injection Ec' as <-. lia. }
  split; [cbn [f_trees]; rewrite !length_set_nth; exact HL|]. cbn [f_heap f_trees]. split; [apply HW|].
  split.
  - intros j tj pj Etj Epj. rewrite nth_set_nth in Etj. rewrite nth_set_nth in Epj. unfold refp. destruct (Nat.eqb_spec i j) as [->|Hij].
    + rewrite Et in Etj. rewrite Ep in Epj. cbn in Etj, Epj. injection Etj as <-. injection Epj as <-. exact HR'.
    + destruct (HT j tj pj Etj Epj) as (R1 & R2 & R3 & R4). split; [exact R1|]. split; [exact R2|]. split; [|exact R4].
      eapply rest_frame; [exact R3|]. intros x Hx. apply (HF j); [auto|apply nth_error_Some; congruence|exact Hx].
  - intros j1 j2 tj x Hj Etj Hl Hx1 Hx2. rewrite length_set_nth in Hl. rewrite nth_set_nth in Etj. unfold refp in Hx1, Hx2.
    destruct (Nat.eqb_spec i j1) as [<-|H1].
    + rewrite Et in Etj. cbn in Etj. injection Etj as <-.
      destruct (Nat.eqb_spec i j2) as [<-|H2]; [contradiction|].
      destruct (HF j2 (not_eq_sym H2) Hl x Hx2) as [EF Lt].
      destruct (HG x Hx1) as [HI|C]; [|lia].
      destruct (HS i j2 t x H2 Et Hl HI Hx2) as (c & Ec & Hc). exists c. rewrite EF. split; [exact Ec|lia].
    + destruct (Nat.eqb_spec i j2) as [<-|H2].
      * assert (j1 < length ts)%nat as Hl1 by (rewrite <- HL; apply nth_error_Some; congruence).
        destruct (HF j1 (not_eq_sym H1) Hl1 x Hx1) as [EF Lt].
        destruct (HG x Hx2) as [HI|C]; [|lia].
        destruct (HS j1 i tj x Hj Etj Hl Hx1 HI) as (c & Ec & Hc). exists c. rewrite EF. auto.
      * destruct (HF j2 (not_eq_sym H2) Hl x Hx2) as [EF Lt].
        destruct (HS j1 j2 tj x Hj Etj Hl Hx1 Hx2) as (c & Ec & Hc). exists c. rewrite EF. auto.
Qed.

Lemma hashed_rest h h' r n A : hashed h h' -> root_ok avl n -> rest_repr h r n A -> rest_repr h' r n A.
Proof.
  intros HH HA. destruct r as [r|], n as [n|]; cbn [rest_repr]; auto. apply hashed_repr; [exact HH|apply HA].
Qed.

Lemma hashed_valid h h' : hashed h h' -> valid h -> valid h'.
Proof.
  intros [Hn HH] Hv x c E. rewrite Hn. destruct (HH x) as [E'|(c' & _ & _ & Ec & _)]; [|eapply Hv; exact Ec].
  eapply Hv. rewrite <- E'. exact E.
Qed.

Lemma finv_hashed f ts fp h' : finv f ts fp -> hashed (f_heap f) h' -> finv (Forest h' (f_trees f)) ts fp.
Proof.
  intros (HL & Hv & HT & HS) HH. split; [exact HL|]. cbn [f_heap f_trees]. split; [eapply hashed_valid; eauto|]. split.
  - intros i t p Et Ep. destruct (HT i t p Et Ep) as (R1 & R2 & R3 & R4 & R5 & R6).
    split; [exact R1|]. split; [exact R2|]. split; [eapply hashed_rest; eauto|]. auto.
  - intros i j t x Hij Et Hl Hx1 Hx2. destruct (HS i j t x Hij Et Hl Hx1 Hx2) as (c & Ec & Hc).
    destruct (proj2 HH x) as [E|(c' & n & A & Ec' & E' & _)]; [exists c; rewrite E; auto|].
    rewrite Ec in Ec'. injection Ec' as <-. exists (with_hash c (nhash sha n)). split; [exact E'|exact Hc].
Qed.

Lemma fuel_ok h r n A : repr h r n A -> fields_exact n -> (Z.to_nat (depth n) < h_fuel sha h r)%nat.
Proof.
  intros HR HF. unfold h_fuel. destruct (load_repr _ _ _ _ HR) as (c & -> & Hh & _). rewrite Hh, nheight_depth by exact HF. lia.
Qed.

Lemma ht_hash_ok h t p A : tree_rel h t p A -> exists h', ht_hash sha h t = Some (h', root_hash sha (t_root p)) /\ hashed h h'.
Proof.
  intros (_ & _ & R & _ & _ & HA). unfold ht_hash. destruct (ht_root t) as [r|], (t_root p) as [n|]; cbn [rest_repr] in R; try contradiction.
  - cbn [root_hash]. eapply hash_heap; [apply HA|exact R|eapply fuel_ok; [exact R|apply HA]].
  - exists h. split; [reflexivity|apply hashed_refl].
Qed.

Lemma ht_get_ok h t p A k : tree_rel h t p A ->
  exists t', ht_get sha h t k = Some (fst (tree_get p k), t') /\ tree_rel h t' (snd (tree_get p k)) A /\ ht_cow t' = ht_cow t.
Proof.
  intros HR. pose proof HR as (R1 & R2 & R3 & R4 & R5 & R6). unfold ht_get, tree_get. rewrite R2.
  destruct (obind (t_cache p) (fun c => cache_find c k)) as [v|] eqn:E; [exists t; auto|].
  unfold get_with_index.
  assert (exists v i, (match ht_root t with None => Some (None, 0) | Some r => h_get sha (h_fuel sha h r) h r k end) = Some (v, i) /\
     snd (match t_root p with None => (0, None) | Some n => let '(v, i) := get_rec n k in (i, v) end) = v) as (v & i & -> & ->).
  { destruct (ht_root t) as [r|], (t_root p) as [n|]; cbn [rest_repr] in R3; try contradiction.
    - rewrite (get_heap n _ _ _ A); [|apply R6|exact R3|eapply fuel_ok; [exact R3|apply R6]].
      destruct (get_rec n k) as [v i]. exists v, i. auto.
    - exists None, 0. auto. }
  cbn [obind]. destruct v as [v|]; [|exists t; auto].
  eexists. split; [reflexivity|]. cbn [fst snd]. split; [|reflexivity]. split; [exact R1|]. cbn [ht_cache t_cache ht_root t_root].
  split; [reflexivity|]. auto.
Qed.

Lemma fstep_ok f ts fp i o : finv f ts fp ->
  match o with FCopy _ => match nth_error ts i with Some t => clean t | None => True end | _ => True end ->
  match pure_step ts i o with
  | Some ts' => exists f' fp', fstep sha f i o = Some f' /\ finv f' ts' fp'
  | None => fstep sha f i o = None
  end.
Proof.
  intros HI Hcl. pose proof HI as (HL & Hv & HT & HS). unfold pure_step, fstep.
  destruct (nth_error ts i) as [p|] eqn:Ep.
  2: { assert (nth_error (f_trees f) i = None) as -> by (apply nth_error_None in Ep; apply nth_error_None; lia). reflexivity. }
  destruct (nth_error (f_trees f) i) as [t|] eqn:Et.
  2: { apply nth_error_None in Et. assert (i < length ts)%nat by (apply nth_error_Some; congruence). lia. }
  cbn [obind]. pose proof (HT i t p Et Ep) as HR. pose proof HR as (R1 & R2 & R3 & R4 & R5 & R6).
  assert (i < length ts)%nat as Hi by (apply nth_error_Some; congruence).
  destruct o as [k v|k|k|k| |u|cached].
  - (* set *)
    unfold tree_set, ht_set. set (w := match v with Some v => v | None => [] end). rewrite R1, R2.
    destruct (ht_root t) as [r|], (t_root p) as [n|]; cbn [rest_repr] in R3; try contradiction.
    + destruct (set_rec_ok n k w (t_version p + 1) R6) as (n' & u & En & An & _). rewrite En. cbn [option_map fst obind].
      destruct (set_heap n (h_fuel sha (f_heap f) r) (f_heap f) r (fp i) k w (t_version p + 1) (ht_cow t) n' u)
        as (h' & a' & A' & Eh & R' & Q); [apply R6|exact Hv|exact R3|exact R4|lia|eapply fuel_ok; [exact R3|apply R6]|exact En|].
      rewrite Eh. cbn [option_map fst obind]. eexists. eexists. split; [reflexivity|].
      eapply finv_update; [exact HI|exact Et|exact Ep| |exact Q|cbn; lia].
      split; [reflexivity|]. split; [reflexivity|]. split; [exact R'|]. split; [apply Q|]. split; [cbn; lia|exact An].
    + cbn [obind]. subst. pose proof (alloc_facts (f_heap f) (leaf_cell k w (t_version p + 1)) Hv) as F1.
      destruct (alloc (f_heap f) (leaf_cell k w (t_version p + 1))) as [h1 a1]. destruct F1 as (-> & C1 & O1 & V1 & N1 & W1).
      cbn [obind]. eexists. eexists. split; [reflexivity|].
      eapply (finv_update _ _ _ _ _ _ _ _ _ [next_addr (f_heap f)]); [exact HI|exact Et|exact Ep| | |cbn; lia].
      * split; [reflexivity|]. split; [reflexivity|].
        split; [cbn [rest_repr ht_root t_root repr]; exists None; split; [exact C1|]; split; [exact I|reflexivity]|].
        split; [apply nodup_cons; split; [auto|constructor]|]. split; [cbn; lia|]. repeat split.
      * split; [apply W1|]. split; [apply nodup_cons; split; [auto|constructor]|]. intros z [<-|[]]. right; lia.
  - (* remove *)
    unfold tree_remove, ht_remove. rewrite R1, R2.
    destruct (ht_root t) as [r|], (t_root p) as [n|]; cbn [rest_repr] in R3; try contradiction.
    + assert (exists res, remove_rec n k (t_version p + 1) = Some res /\
         root_ok avl (match res with NotFound => Some n | Removed _ rest _ => rest end)) as (res & En & An).
      { destruct (remove_rec_ok n k (t_version p + 1) R6) as [[-> Hn]|[(v & -> & Hl & _)|(v & n' & nk & -> & An & Ln & _)]].
        - eexists; split; [reflexivity|exact R6].
        - eexists; split; [reflexivity|exact I].
        - eexists; split; [reflexivity|exact An]. }
      rewrite En. cbn [obind].
      pose proof (remove_heap n (h_fuel sha (f_heap f) r) (f_heap f) r (fp i) k (t_version p + 1) (ht_cow t) res
        (proj1 (proj2 R6)) Hv R3 R4 ltac:(lia) (fuel_ok _ _ _ _ R3 (proj1 (proj2 R6))) En) as HRm.
      destruct res as [|v rest nk].
      * rewrite HRm. cbn [obind]. eexists. eexists. split; [reflexivity|].
        eapply finv_update; [exact HI|exact Et|exact Ep| | |cbn; lia].
        -- split; [reflexivity|]. split; [reflexivity|]. cbn [ht_root t_root rest_repr]. split; [exact R3|].
           split; [exact R4|]. split; [cbn; lia|exact An].
        -- split; [apply writes_refl; exact Hv|]. split; [exact R4|auto].
      * destruct HRm as (h' & rest' & A' & Eh & R' & Q). rewrite Eh. cbn [obind]. eexists. eexists. split; [reflexivity|].
        eapply finv_update; [exact HI|exact Et|exact Ep| |exact Q|cbn; lia].
        split; [reflexivity|]. split; [reflexivity|]. split; [exact R'|]. split; [apply Q|]. split; [cbn; lia|exact An].
    + cbn [obind]. eexists. eexists. split; [reflexivity|].
      eapply finv_update; [exact HI|exact Et|exact Ep| | |cbn; lia].
      * split; [reflexivity|]. split; [reflexivity|]. cbn [ht_root t_root rest_repr]. split; [exact R3|].
        split; [exact R4|]. split; [cbn; lia|exact I].
      * split; [apply writes_refl; exact Hv|]. split; [exact R4|auto].
  - (* get *)
    destruct (ht_get_ok _ _ _ _ k HR) as (t' & Eg & HR' & Hc). rewrite Eg. cbn [obind]. eexists. eexists. split; [reflexivity|].
    eapply finv_update; [exact HI|exact Et|exact Ep|exact HR'| |lia].
    split; [apply writes_refl; exact Hv|]. split; [exact R4|auto].
  - (* evict *)
    eexists. eexists. split; [reflexivity|]. eapply finv_update; [exact HI|exact Et|exact Ep| | |cbn; lia].
    + split; [exact R1|]. split; [cbn [ht_cache t_cache]; rewrite R2; reflexivity|].
      split; [exact R3|]. split; [exact R4|]. split; [exact R5|exact R6].
    + split; [apply writes_refl; exact Hv|]. split; [exact R4|auto].
  - (* hash *)
    destruct (ht_hash_ok _ _ _ _ HR) as (h' & Eh & HH). rewrite Eh. cbn [obind]. rewrite (set_nth_same _ _ _ Et).
    exists (Forest h' (f_trees f)), fp. split; [reflexivity|]. apply finv_hashed; assumption.
  - (* save *)
    unfold ht_save, save_version. rewrite R1. destruct (t_version p =? 2 ^ 32 - 1) eqn:Eo.
    + cbn [obind]. exists f, fp. rewrite !set_nth_same by assumption. destruct f; auto.
    + assert (exists h', (if u then option_map fst (ht_hash sha (f_heap f) t) else Some (f_heap f)) = Some h' /\ hashed (f_heap f) h') as (h' & -> & HH).
      { destruct u; [|exists (f_heap f); split; [reflexivity|apply hashed_refl]].
        destruct (ht_hash_ok _ _ _ _ HR) as (h' & -> & HH). exists h'. auto. }
      cbn [obind]. pose proof (finv_hashed _ _ _ _ HI HH) as HI'.
      eexists. eexists. split; [reflexivity|].
      eapply (finv_update (Forest h' (f_trees f)) _ _ _ _ _ h'); [exact HI'|exact Et|exact Ep| | |cbn; lia].
      * split; [reflexivity|]. cbn [ht_cache t_cache ht_root t_root ht_version t_version ht_cow]. split; [exact R2|].
        split; [eapply hashed_rest; [exact HH|exact R6|exact R3]|]. split; [exact R4|]. split; [cbn; lia|exact R6].
      * cbn [f_heap]. split; [apply writes_refl; eapply hashed_valid; eauto|]. split; [exact R4|auto].
  - (* copy *)
    unfold ht_copy. set (cow := match ht_root t with Some (RMem _) => ht_version t | _ => ht_cow t end).
    assert (ht_cow t <= cow <= ht_version t) as Hcow.
    { unfold cow. destruct (ht_root t) as [[a|m]|]; lia. }
    assert (forall x, In x (fp i) -> exists c, cells (f_heap f) x = Some c /\ c_version c <= cow) as Hprot.
    { unfold clean in Hcl. unfold cow. destruct (ht_root t) as [r|], (t_root p) as [n|]; cbn [rest_repr root_ok] in *; try contradiction.
      - destruct r as [a|m]; [|destruct n; destruct R3 as [_ ->]; intros x []].
        rewrite R1. clear - R3 Hcl. revert R3 Hcl. generalize (RMem a). generalize (fp i). generalize (t_version p).
        induction n as [nk nv nver|nk ht s nver l IHl rr IHr]; intros v A r HR HC x Hx.
        + destruct r as [b|m]; cbn [repr] in HR; [|destruct HR as [_ ->]; contradiction].
          destruct HR as (hs & E & _ & ->). destruct Hx as [<-|[]]. eexists. split; [exact E|]. exact HC.
        + destruct r as [b|m]; cbn [repr] in HR; [|destruct HR as [_ ->]; contradiction].
          destruct HR as (x0 & y0 & hs & Al & Ar & E & _ & Hl & Hr & ->). cbn [versions_below] in HC. destruct HC as (C1 & C2 & C3).
          destruct Hx as [<-|Hx]; [eexists; split; [exact E|exact C1]|].
          apply in_app_or in Hx. destruct Hx as [Hx|Hx]; [eapply IHl|eapply IHr]; eauto.
      - subst. intros x Hx. rewrite R3 in Hx. contradiction. }
    eexists. exists (fun j => if Nat.eqb j (length ts) then fp i else fp j). split; [reflexivity|].
    split; [cbn [f_trees]; rewrite !app_length, length_set_nth, HL; reflexivity|]. cbn [f_heap f_trees]. split; [exact Hv|].
    assert (forall j tj, nth_error (set_nth (f_trees f) i (HTree (ht_version t) cow (ht_root t) (ht_cache t)) ++
                [HTree (ht_version t) cow (ht_root t) (new_cache cached)]) j = Some tj ->
       (j = length ts /\ tj = HTree (ht_version t) cow (ht_root t) (new_cache cached)) \/
       (j < length ts /\ j = i /\ tj = HTree (ht_version t) cow (ht_root t) (ht_cache t))%nat \/
       (j < length ts /\ j <> i /\ nth_error (f_trees f) j = Some tj)%nat) as Hnth.
    { intros j tj Ej. destruct (Nat.lt_ge_cases j (length ts)) as [Hlt|Hge].
      - right. rewrite nth_error_app1 in Ej by (rewrite length_set_nth; lia). rewrite nth_set_nth in Ej.
        destruct (Nat.eqb_spec i j) as [->|Hij]; [left|right].
        + rewrite Et in Ej. cbn in Ej. injection Ej as <-. auto.
        + auto.
      - left. rewrite nth_error_app2 in Ej by (rewrite length_set_nth; lia). rewrite length_set_nth, HL in Ej.
        destruct (j - length ts)%nat as [|m] eqn:Em; [|destruct m; discriminate]. cbn in Ej. injection Ej as <-. split; [lia|reflexivity]. }
    split.
    + intros j tj pj Ej Epj. destruct (Hnth j tj Ej) as [(-> & ->)|[(Hlt & -> & ->)|(Hlt & Hji & Ej')]].
      * rewrite Nat.eqb_refl. rewrite nth_error_app2 in Epj by lia. rewrite Nat.sub_diag in Epj. cbn in Epj. injection Epj as <-.
        split; [exact R1|]. split; [reflexivity|]. split; [exact R3|]. split; [exact R4|]. split; [cbn; lia|exact R6].
      * assert (Nat.eqb i (length ts) = false) as -> by (apply Nat.eqb_neq; lia).
        rewrite nth_error_app1 in Epj by lia. rewrite Ep in Epj. injection Epj as <-.
        split; [exact R1|]. split; [exact R2|]. split; [exact R3|]. split; [exact R4|]. split; [cbn; lia|exact R6].
      * assert (Nat.eqb j (length ts) = false) as -> by (apply Nat.eqb_neq; lia).
        rewrite nth_error_app1 in Epj by lia. apply (HT j); assumption.
    + intros j1 j2 tj x Hj Ej Hl Hx1 Hx2. rewrite app_length in Hl. cbn [length] in Hl.
      destruct (Hnth j1 tj Ej) as [(-> & ->)|[(Hlt & -> & ->)|(Hlt & Hji & Ej')]].
      * rewrite Nat.eqb_refl in Hx1. cbn [ht_cow]. apply Hprot. exact Hx1.
      * assert (Nat.eqb i (length ts) = false) as E0 by (apply Nat.eqb_neq; lia). rewrite E0 in Hx1. cbn [ht_cow]. apply Hprot. exact Hx1.
      * assert (Nat.eqb j1 (length ts) = false) as E0 by (apply Nat.eqb_neq; lia). rewrite E0 in Hx1.
        destruct (Nat.eqb_spec j2 (length ts)) as [->|H2]; [apply (HS j1 i tj x); assumption|].
        apply (HS j1 j2 tj x); try assumption. lia.
Qed.

Lemma frun_ok ops : forall f ts fp, finv f ts fp -> copies_clean ts ops ->
  match pure_run ts ops with
  | Some ts' => exists f' fp', frun sha f ops = Some f' /\ finv f' ts' fp'
  | None => frun sha f ops = None
  end.
Proof.
  induction ops as [|[i o] ops IH]; intros f ts fp HI HC; [exists f, fp; auto|].
  cbn [copies_clean pure_run frun] in *. destruct HC as [HC1 HC2].
  pose proof (fstep_ok f ts fp i o HI HC1) as Hs. destruct (pure_step ts i o) as [ts'|]; cbn [obind].
  - destruct Hs as (f' & fp' & Es & HI'). rewrite Es. cbn [obind]. apply (IH f' ts' fp' HI' HC2).
  - rewrite Hs. reflexivity.
Qed.

Lemma new_finv version base cached : 0 <= version -> root_ok avl base ->
  finv (new_forest version base cached) [Tree version base (new_cache cached)] (fun _ => []).
Proof.
  intros Hv HA. split; [reflexivity|]. split; [intros x c; cbn; discriminate|]. split; [|intros i j t x _ _ _ []].
  intros [|i] t p Et Ep; [|destruct i; discriminate]. cbn in Et, Ep. injection Et as <-. injection Ep as <-.
  split; [reflexivity|]. split; [reflexivity|]. cbn [ht_root t_root]. split.
  - destruct base as [n|]; cbn; [destruct n; cbn; auto|reflexivity].
  - split; [constructor|]. split; [cbn; lia|exact HA].
Qed.

Lemma finv_shows f ts fp j p : finv f ts fp -> nth_error ts j = Some p ->
  shows sha f j = Some (t_version p, t_root p) /\
  (forall k, answer_get sha f j k = Some (fst (tree_get p k))) /\
  answer_hash sha f j = Some (root_hash sha (t_root p)).
Proof.
  intros (HL & Hv & HT & HS) Ep.
  destruct (nth_error (f_trees f) j) as [t|] eqn:Et.
  2: { apply nth_error_None in Et. assert (j < length ts)%nat by (apply nth_error_Some; congruence). lia. }
  pose proof (HT j t p Et Ep) as HR. unfold shows, answer_get, answer_hash. rewrite Et. cbn [obind]. split; [|split].
  - destruct HR as (R1 & R2 & R3 & R4 & R5 & R6). rewrite R1.
    destruct (ht_root t) as [r|], (t_root p) as [n|]; cbn [rest_repr] in R3; try contradiction; [|reflexivity].
    rewrite (view_heap n _ _ _ (fp j)); [reflexivity|apply R6|exact R3|eapply fuel_ok; [exact R3|apply R6]].
  - intros k. destruct (ht_get_ok _ _ _ _ k HR) as (t' & -> & _). reflexivity.
  - destruct (ht_hash_ok _ _ _ _ HR) as (h' & -> & _). reflexivity.
Qed.

Lemma pure_run_other ops : forall ts ts' j p, pure_run ts ops = Some ts' -> Forall (fun io => fst io <> j) ops ->
  nth_error ts j = Some p -> nth_error ts' j = Some p.
Proof.
  induction ops as [|[i o] ops IH]; intros ts ts' j p HR HF Hp; cbn [pure_run] in HR; [congruence|].
  inversion HF as [|? ? Hi HF']; subst. cbn [fst] in Hi.
  destruct (pure_step ts i o) as [ts1|] eqn:Es; [|discriminate]. cbn [obind] in HR.
  apply (IH ts1 ts' j p HR HF'). unfold pure_step in Es.
  destruct (nth_error ts i) as [t|]; [|discriminate]. cbn [obind] in Es.
  assert (forall t', nth_error (set_nth ts i t') j = Some p) as Hset.
  { intros t'. rewrite nth_set_nth. destruct (Nat.eqb_spec i j); [contradiction|exact Hp]. }
  destruct o; cbn [obind] in Es.
  - destruct (tree_set t k v); [|discriminate]. injection Es as <-. apply Hset.
  - destruct (tree_remove t k); [|discriminate]. injection Es as <-. apply Hset.
  - injection Es as <-. apply Hset.
  - injection Es as <-. apply Hset.
  - injection Es as <-. exact Hp.
  - injection Es as <-. apply Hset.
  - injection Es as <-. rewrite nth_error_app1; [exact Hp|]. apply nth_error_Some. congruence.
Qed.

Lemma copies_clean_app a b : forall ts, copies_clean ts (a ++ b) <->
  copies_clean ts a /\ match pure_run ts a with Some ts' => copies_clean ts' b | None => True end.
Proof.
  induction a as [|[i o] a IH]; intros ts; cbn [app copies_clean pure_run]; [tauto|].
  destruct (pure_step ts i o) as [ts'|]; cbn [obind]; [rewrite IH; tauto|tauto].
Qed.

Lemma pure_run_app a b : forall ts, pure_run ts (a ++ b) = obind (pure_run ts a) (fun ts' => pure_run ts' b).
Proof.
  induction a as [|[i o] a IH]; intros ts; cbn [app pure_run]; [reflexivity|].
  destruct (pure_step ts i o); cbn [obind]; [apply IH|reflexivity].
Qed.

Lemma frun_app a b : forall f, frun sha f (a ++ b) = obind (frun sha f a) (fun f' => frun sha f' b).
Proof.
  induction a as [|[i o] a IH]; intros f; cbn [app frun]; [reflexivity|].
  destruct (fstep sha f i o); cbn [obind]; [apply IH|reflexivity].
Qed.
End P.

(* ---------------- committed trees are clean ---------------- *)

Lemma versions_mono n v w : v <= w -> versions_below n v -> versions_below n w.
Proof. induction n; cbn [versions_below]; [lia|]. intros H (H1 & H2 & H3). repeat split; auto; lia. Qed.

Lemma mk_versions k ver l r v : ver <= v -> versions_below l v -> versions_below r v -> versions_below (mk k ver l r) v.
Proof. cbn [mk versions_below]. auto. Qed.

Lemma rebalance_versions n ver n' : versions_below n ver -> rebalance n ver = Some n' -> versions_below n' ver.
Proof.
  destruct n as [|k ht s v l r]; [discriminate|]. cbn [versions_below rebalance]. intros (H1 & H2 & H3).
  destruct (1 <? nheight l - nheight r); [|destruct (nheight l - nheight r <? -1)].
  - destruct l as [|kl hl sl vl ll lr]; [discriminate|]. cbn [calc_balance obind]. cbn [versions_below] in H2. destruct H2 as (L1 & L2 & L3).
    destruct (0 <=? nheight ll - nheight lr).
    + cbn [rotate_right]. intros E. injection E as <-. repeat apply mk_versions; auto; lia.
    + cbn [mutate rotate_left]. destruct lr as [|klr hlr slr vlr lrl lrr]; [discriminate|]. cbn [versions_below] in L3. destruct L3 as (M1 & M2 & M3).
      cbn [obind with_left mk rotate_right]. intros E. injection E as <-. repeat apply mk_versions; auto; lia.
  - destruct r as [|kr hr sr vr rl rr]; [discriminate|]. cbn [calc_balance obind]. cbn [versions_below] in H3. destruct H3 as (L1 & L2 & L3).
    destruct (nheight rl - nheight rr <=? 0).
    + cbn [rotate_left]. intros E. injection E as <-. repeat apply mk_versions; auto; lia.
    + cbn [mutate rotate_right]. destruct rl as [|krl hrl srl vrl rll rlr]; [discriminate|]. cbn [versions_below] in L2. destruct L2 as (M1 & M2 & M3).
      cbn [obind with_right mk rotate_left]. intros E. injection E as <-. repeat apply mk_versions; auto; lia.
  - intros E. injection E as <-. cbn [versions_below]. auto.
Qed.

Lemma set_versions n : forall key value ver n' u, versions_below n ver -> set_rec n key value ver = Some (n', u) -> versions_below n' ver.
Proof.
  induction n as [nk nv nver|nk ht s nver l IHl r IHr]; intros key value ver n' u HV HS; cbn [set_rec] in HS.
  - cbn [versions_below] in HV. destruct (bcmp key nk); injection HS as <- <-; cbn [versions_below]; lia.
  - cbn [versions_below] in HV. destruct HV as (H1 & H2 & H3). destruct (bltb key nk).
    + destruct (set_rec l key value ver) as [[l' u']|] eqn:E; [|discriminate]. cbn [obind] in HS. specialize (IHl _ _ _ _ _ H2 E).
      destruct u'; [injection HS as <- <-; cbn [versions_below]; repeat split; auto; lia|].
      destruct (rebalance (mk nk ver l' r) ver) as [n2|] eqn:Er; [|discriminate]. injection HS as <- <-.
      eapply rebalance_versions; [|exact Er]. apply mk_versions; auto; lia.
    + destruct (set_rec r key value ver) as [[l' u']|] eqn:E; [|discriminate]. cbn [obind] in HS. specialize (IHr _ _ _ _ _ H3 E).
      destruct u'; [injection HS as <- <-; cbn [versions_below]; repeat split; auto; lia|].
      destruct (rebalance (mk nk ver l l') ver) as [n2|] eqn:Er; [|discriminate]. injection HS as <- <-.
      eapply rebalance_versions; [|exact Er]. apply mk_versions; auto; lia.
Qed.

Lemma remove_versions n : forall key ver v rest nk, versions_below n ver -> remove_rec n key ver = Some (Removed v rest nk) ->
  root_ok (fun n => versions_below n ver) rest.
Proof.
  induction n as [nk nv nver|nk ht s nver l IHl r IHr]; intros key ver v rest nk0 HV HS; cbn [remove_rec] in HS.
  - destruct (beqb nk key); [|discriminate]. injection HS as <- <- <-. exact I.
  - cbn [versions_below] in HV. destruct HV as (H1 & H2 & H3). destruct (bltb key nk).
    + destruct (remove_rec l key ver) as [[|v' [l'|] nk']|] eqn:E; try discriminate; cbn [obind] in HS.
      * pose proof (IHl _ _ _ _ _ H2 E) as Hl'. cbn [root_ok] in Hl'.
        destruct (rebalance (mk nk ver l' r) ver) as [n2|] eqn:Er; [|discriminate]. injection HS as <- <- <-.
        cbn [root_ok]. eapply rebalance_versions; [|exact Er]. apply mk_versions; auto; lia.
      * injection HS as <- <- <-. exact H3.
    + destruct (remove_rec r key ver) as [[|v' [l'|] nk']|] eqn:E; try discriminate; cbn [obind] in HS.
      * pose proof (IHr _ _ _ _ _ H3 E) as Hl'. cbn [root_ok] in Hl'.
        destruct (rebalance _ ver) as [n2|] eqn:Er; [|discriminate]. injection HS as <- <- <-.
        cbn [root_ok]. eapply rebalance_versions; [|exact Er]. apply mk_versions; auto; lia.
      * injection HS as <- <- <-. exact H2.
Qed.

(* every node was written at most at the version being built *)
Definition pending (t : tree) : Prop := root_ok (fun n => versions_below n (t_version t + 1)) (t_root t).

Lemma pending_set t k v t' : pending t -> tree_set t k v = Some t' -> pending t'.
Proof.
  unfold pending, tree_set. intros HP E. destruct (t_root t) as [n|]; cbn [root_ok] in HP.
  - destruct (set_rec n k _ (t_version t + 1)) as [[n' u]|] eqn:Es; [|discriminate]. cbn in E. injection E as <-.
    cbn [t_root t_version root_ok]. eapply set_versions; [exact HP|exact Es].
  - cbn in E. injection E as <-. cbn. lia.
Qed.

Lemma pending_remove t k t' : pending t -> tree_remove t k = Some t' -> pending t'.
Proof.
  unfold pending, tree_remove. intros HP E. destruct (t_root t) as [n|]; cbn [root_ok] in HP.
  - destruct (remove_rec n k (t_version t + 1)) as [[|v rest nk]|] eqn:Es; [| |discriminate]; cbn in E; injection E as <-;
      cbn [t_root t_version root_ok]; [exact HP|]. eapply remove_versions; [exact HP|exact Es].
  - cbn in E. injection E as <-. exact I.
Qed.

Lemma pure_step_pending ts i o ts' : Forall pending ts -> pure_step ts i o = Some ts' -> Forall pending ts'.
Proof.
  intros HF HS. unfold pure_step in HS. destruct (nth_error ts i) as [t|] eqn:Et; [|discriminate]. cbn [obind] in HS.
  assert (pending t) as Ht by (eapply Forall_forall; [exact HF|eapply nth_error_In; exact Et]).
  assert (forall t', pending t' -> Forall pending (set_nth ts i t')) as Hset.
  { intros t' Ht'. clear - HF Ht'. revert i. induction HF as [|a l Ha HF IH]; intros [|i]; cbn; constructor; auto. }
  destruct o; cbn [obind] in HS.
  - destruct (tree_set t k v) eqn:E; [|discriminate]. injection HS as <-. apply Hset. eapply pending_set; eauto.
  - destruct (tree_remove t k) eqn:E; [|discriminate]. injection HS as <-. apply Hset. eapply pending_remove; eauto.
  - injection HS as <-. apply Hset. unfold tree_get. destruct (obind (t_cache t) _); [exact Ht|]. destruct (snd (get_with_index t k)); exact Ht.
  - injection HS as <-. apply Hset. exact Ht.
  - injection HS as <-. exact HF.
  - injection HS as <-. apply Hset. unfold save_version. destruct (t_version t =? 2 ^ 32 - 1); [exact Ht|].
    unfold pending in *. cbn [t_root t_version]. destruct (t_root t); [|exact I]. cbn [root_ok] in *. eapply versions_mono; [|exact Ht]. lia.
  - injection HS as <-. apply Forall_app. split; [exact HF|]. constructor; [exact Ht|constructor].
Qed.

Lemma pure_run_pending ops : forall ts ts', Forall pending ts -> pure_run ts ops = Some ts' -> Forall pending ts'.
Proof.
  induction ops as [|[i o] ops IH]; intros ts ts' HF HR; cbn [pure_run] in HR; [congruence|].
  destruct (pure_step ts i o) as [ts1|] eqn:E; [|discriminate]. eapply IH; [eapply pure_step_pending; eauto|exact HR].
Qed.
