(* Vocabulary of the claims about sharing fees with the authors of contracts. *)
From Verif Require Import Lib.Base Lib.Bytes Lib.Kv Revenue.Model.
Open Scope Z_scope.

(* an account: between 1 and 255 bytes *)
Definition account (a : bytes) : Prop := a <> [] /\ bytes_ok a /\ (length a <= 255)%nat.
(* what the text form of addresses must satisfy: never empty, read as an account, and the
   text of an account reads back as that account; several texts may stand for one account *)
Definition address_format (dec : bytes -> option bytes) (enc : bytes -> bytes) : Prop :=
  (forall t a, dec t = Some a -> t <> [] /\ account a) /\
  (forall a, account a -> dec (enc a) = Some a).
(* addresses of new contracts: 20 bytes, never zero *)
Definition create_format (create : bytes -> Z -> bytes) : Prop := forall a n, contract_ok (create a n) = true.

Section Revenue.
Variables (dec : bytes -> option bytes) (enc : bytes -> bytes) (create : bytes -> Z -> bytes) (FC gov : bytes).

(* the address that account d, or a contract it made, or one that such a contract made,
   and so on, gets for the contract it makes with these nonces *)
Definition derived (d : bytes) (nonces : list Z) : bytes := fold_left create nonces (to20 d).

(* who authored a contract and who is paid for its calls, when it takes part *)
Definition author (s : st) (c : bytes) : option bytes :=
  match get s c with Some r => dec (r_deployer r) | None => None end.
Definition payee (s : st) (c : bytes) : option bytes :=
  match get s c with
  | Some r => match r_withdrawer r with [] => dec (r_deployer r) | t => dec t end
  | None => None
  end.
(* the account explicitly entered to be paid *)
Definition named_payee (s : st) (c : bytes) : option bytes :=
  match get s c with
  | Some r => match r_withdrawer r with [] => None | t => dec t end
  | None => None
  end.

Definition initial (s : st) : Prop := v_store s = [] /\ 0 <= v_share s <= ONE.
(* an account that sends an Ethereum transaction has 20 bytes *)
Definition op_ok (o : op) : Prop :=
  match o with OCreated d _ => length d = 20%nat /\ bytes_ok d | _ => True end.
Definition reachable (s : st) : Prop :=
  exists s0 l, initial s0 /\ Forall (fun q : env * op => op_ok (snd q)) l /\ s = runs dec enc create FC gov s0 l.

(* what is due for a transaction, and to whom *)
Definition due (e : env) (s : st) (to : option bytes) (price used : Z) : option (bytes * Z) :=
  match to with
  | None => None
  | Some c =>
      if (v_on s && (0 <? price) && negb (e_precompile e c))%bool
      then match payee s c with
           | Some p => Some (p, v_share s * used * price / ONE)
           | None => None
           end
      else None
  end.
(* what account a receives over a history of transactions *)
Fixpoint income (s : st) (l : list (env * op)) (a : bytes) : Z :=
  match l with
  | [] => 0
  | (e, o) :: r =>
      (match o with
       | OTx to price used => match due e s to price used with Some (p, x) => if beqb p a then x else 0 | None => 0 end
       | _ => 0
       end) + income (step dec enc create FC gov e s o) r a
  end.
End Revenue.

(* an instance: an account is written as the letter h or H and its bytes; the new contract
   of an account is its address with the first byte 1 and the nonce in the last byte *)
Definition toy_dec (t : bytes) : option bytes :=
  match t with
  | x :: a =>
      if ((x =? 104) || (x =? 72))%N && negb (Nat.eqb (length a) 0) && Nat.leb (length a) 255 && forallb (fun y => (y <? 256)%N) a
      then Some a else None
  | [] => None
  end.
Definition toy_enc (a : bytes) : bytes := 104%N :: a.
Definition toy_create (a : bytes) (n : Z) : bytes :=
  (1 :: firstn 18 (to20 (map (fun x => x mod 256) a)) ++ [Z.to_N (n mod 256)])%N.

Lemma bytes_ok_b a : forallb (fun y => (y <? 256)%N) a = true <-> bytes_ok a.
Proof.
  unfold bytes_ok. rewrite forallb_forall, Forall_forall. split; intros H x I; specialize (H x I); lia.
Qed.
Lemma toy_format : address_format toy_dec toy_enc.
Proof.
  split.
  - intros t a E. destruct t as [|x b]; [discriminate|]. split; [discriminate|]. unfold toy_dec in E.
    destruct ((((x =? 104) || (x =? 72))%N && negb (Nat.eqb (length b) 0) && Nat.leb (length b) 255 &&
               forallb (fun y => (y <? 256)%N) b)%bool) eqn:C; [|discriminate]. injection E as <-.
    apply andb_prop in C as [C C4]. apply andb_prop in C as [C C3]. apply andb_prop in C as [_ C2].
    split; [intros ->; discriminate C2|]. split; [apply (proj1 (bytes_ok_b b)); exact C4|apply Nat.leb_le; exact C3].
  - intros a (H1 & H2 & H3). unfold toy_enc, toy_dec. apply (proj2 (bytes_ok_b a)) in H2. apply Nat.leb_le in H3.
    rewrite H2, H3. destruct a; [congruence|reflexivity].
Qed.
Lemma to20_len b : length (to20 b) = 20%nat.
Proof. unfold to20. rewrite app_length, !skipn_length, repeat_length. lia. Qed.
Lemma bytes_ok_skipn n b : bytes_ok b -> bytes_ok (skipn n b).
Proof. unfold bytes_ok. rewrite !Forall_forall. intros H x I. apply H. rewrite <- (firstn_skipn n b). apply in_or_app. right. exact I. Qed.
Lemma to20_ok b : bytes_ok b -> bytes_ok (to20 b).
Proof.
  intro H. unfold to20, bytes_ok. apply Forall_app. split; [|apply bytes_ok_skipn; exact H].
  apply bytes_ok_skipn. unfold bytes_ok. apply Forall_forall. intros x I. apply repeat_spec in I. subst x. lia.
Qed.
Lemma toy_create_format : create_format toy_create.
Proof.
  intros a n. unfold contract_ok, toy_create. set (b := to20 (map (fun x => (x mod 256)%N) a)).
  assert (B : bytes_ok b).
  { apply to20_ok. unfold bytes_ok. apply Forall_forall. intros x I. apply in_map_iff in I as (y & <- & _). apply N.mod_lt. discriminate. }
  assert (L : length b = 20%nat) by apply to20_len.
  apply andb_true_intro. split; [apply andb_true_intro; split|].
  - reflexivity.
  - apply Nat.eqb_eq. cbn [length]. rewrite app_length, firstn_length, L. reflexivity.
  - apply (proj2 (bytes_ok_b _)). constructor; [lia|]. apply Forall_app. split.
    + unfold bytes_ok in B. rewrite Forall_forall in *. intros x I. apply B. rewrite <- (firstn_skipn 18 b). apply in_or_app. left. exact I.
    + constructor; [|constructor]. pose proof (Z.mod_pos_bound n 256 ltac:(lia)). lia.
Qed.
