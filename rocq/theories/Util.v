(** General list and exception utilities used by every model.
    No part of simim is modelled here. *)
From Coq Require Export List Arith ZArith Lia Bool.
From Coq Require Export ZifyBool ZifyNat.
Export ListNotations.
Open Scope list_scope.

(** Python exceptions as values. *)
Inductive exn :=
| ValueError | IndexError | TypeError | AttributeError | KeyError | NameError
| ZeroDivisionError | OSError | UserExn (n : nat).

(** Result of a Python expression: a value or a raised exception. *)
Inductive exc (A : Type) := Ok (a : A) | Raise (e : exn).
Arguments Ok {A} a.
Arguments Raise {A} e.

Definition bind {A B} (x : exc A) (f : A -> exc B) : exc B :=
  match x with Ok a => f a | Raise e => Raise e end.
Notation "'do' x <- e1 ;; e2" := (bind e1 (fun x => e2))
  (at level 200, x pattern, e1 at level 100, e2 at level 200, only parsing).

Definition is_ok {A} (x : exc A) : bool := match x with Ok _ => true | Raise _ => false end.

(** [if b: raise e] *)
Definition check (b : bool) (e : exn) : exc unit := if b then Ok tt else Raise e.

Lemma check_ok b e u : check b e = Ok u -> b = true.
Proof. unfold check; destruct b; congruence. Qed.

Fixpoint mapM {A B} (f : A -> exc B) (l : list A) : exc (list B) :=
  match l with
  | [] => Ok []
  | x :: l' => bind (f x) (fun y => bind (mapM f l') (fun ys => Ok (y :: ys)))
  end.

Lemma mapM_ok_length {A B} (f : A -> exc B) l r : mapM f l = Ok r -> length r = length l.
Proof.
  revert r; induction l as [|x l IH]; simpl; intros r H.
  - inversion H; reflexivity.
  - destruct (f x) as [y|]; simpl in H; [|discriminate].
    destruct (mapM f l) as [ys|]; simpl in H; [|discriminate].
    inversion H; subst; simpl; f_equal; apply IH; reflexivity.
Qed.

Lemma mapM_ok_nth {A B} (f : A -> exc B) l r i x :
  mapM f l = Ok r -> nth_error l i = Some x ->
  exists y, nth_error r i = Some y /\ f x = Ok y.
Proof.
  revert r i; induction l as [|a l IH]; simpl; intros r i H Hi.
  - destruct i; discriminate.
  - destruct (f a) as [y|] eqn:E; simpl in H; [|discriminate].
    destruct (mapM f l) as [ys|]; simpl in H; [|discriminate].
    inversion H; subst; destruct i as [|i]; simpl in *.
    + inversion Hi; subst; eauto.
    + apply IH; auto.
Qed.

Lemma mapM_all_ok {A B} (f : A -> exc B) l :
  (forall x, In x l -> exists y, f x = Ok y) -> exists r, mapM f l = Ok r.
Proof.
  induction l as [|a l IH]; simpl; intros H; [eauto|].
  destruct (H a (or_introl eq_refl)) as [y ->].
  destruct IH as [r ->]; [intros; apply H; auto|]. simpl; eauto.
Qed.

Lemma mapM_ext {A B} (f g : A -> exc B) l :
  (forall x, In x l -> f x = g x) -> mapM f l = mapM g l.
Proof.
  induction l as [|a l IH]; simpl; intros H; [reflexivity|].
  rewrite H by auto. rewrite IH by (intros; apply H; auto). reflexivity.
Qed.

(** [l[i] = x] on a list (no effect when out of range). *)
Fixpoint upd {A} (l : list A) (i : nat) (x : A) : list A :=
  match l, i with
  | [], _ => []
  | _ :: l', 0 => x :: l'
  | a :: l', S i' => a :: upd l' i' x
  end.

(** [l[i] = f(l[i])] *)
Fixpoint alter {A} (f : A -> A) (l : list A) (i : nat) : list A :=
  match l, i with
  | [], _ => []
  | a :: l', 0 => f a :: l'
  | a :: l', S i' => a :: alter f l' i'
  end.

Lemma upd_length {A} (l : list A) i x : length (upd l i x) = length l.
Proof. revert i; induction l; destruct i; simpl; auto. Qed.

Lemma alter_length {A} (f : A -> A) l i : length (alter f l i) = length l.
Proof. revert i; induction l; destruct i; simpl; auto. Qed.

Lemma nth_error_upd {A} (l : list A) i x j :
  nth_error (upd l i x) j =
  if (i =? j) && (j <? length l) then Some x else nth_error l j.
Proof.
  revert i j; induction l as [|a l IH]; intros i j; simpl.
  - rewrite andb_comm; simpl. destruct j; reflexivity.
  - destruct i, j; simpl; auto. rewrite IH. reflexivity.
Qed.

Lemma nth_error_upd_eq {A} (l : list A) i x :
  i < length l -> nth_error (upd l i x) i = Some x.
Proof.
  intros H. rewrite nth_error_upd, Nat.eqb_refl.
  destruct (Nat.ltb_spec i (length l)); [reflexivity|lia].
Qed.

Lemma nth_error_upd_ne {A} (l : list A) i x j :
  i <> j -> nth_error (upd l i x) j = nth_error l j.
Proof.
  intros H. rewrite nth_error_upd. destruct (Nat.eqb_spec i j); [congruence|reflexivity].
Qed.

Lemma nth_error_alter {A} (f : A -> A) l i j :
  nth_error (alter f l i) j =
  if i =? j then option_map f (nth_error l j) else nth_error l j.
Proof.
  revert i j; induction l as [|a l IH]; intros i j; simpl.
  - destruct (i =? j), j; reflexivity.
  - destruct i, j; simpl; auto.
Qed.

Lemma nth_upd_eq {A} (l : list A) i x d : i < length l -> nth i (upd l i x) d = x.
Proof. intros H. erewrite nth_error_nth; [reflexivity|]. apply nth_error_upd_eq; auto. Qed.

Lemma nth_upd_ne {A} (l : list A) i j x d : i <> j -> nth j (upd l i x) d = nth j l d.
Proof.
  revert i j; induction l as [|a l IH]; intros i j H; simpl.
  - destruct j; reflexivity.
  - destruct i, j; simpl; try congruence; auto.
Qed.

Lemma nth_error_ext {A} (l1 l2 : list A) :
  (forall i, nth_error l1 i = nth_error l2 i) -> l1 = l2.
Proof.
  revert l2; induction l1 as [|a l1 IH]; intros [|b l2] H.
  - reflexivity.
  - specialize (H 0); discriminate.
  - specialize (H 0); discriminate.
  - f_equal; [specialize (H 0); simpl in H; congruence|].
    apply IH; intros i; exact (H (S i)).
Qed.

Lemma upd_same {A} (l : list A) i x : nth_error l i = Some x -> upd l i x = l.
Proof.
  revert i; induction l as [|a l IH]; intros [|i]; simpl; intros H; try congruence.
  - f_equal; auto.
Qed.

Lemma upd_upd {A} (l : list A) i x y : upd (upd l i x) i y = upd l i y.
Proof. revert i; induction l as [|a l IH]; intros [|i]; simpl; f_equal; auto. Qed.

Lemma upd_comm {A} (l : list A) i j x y :
  i <> j -> upd (upd l i x) j y = upd (upd l j y) i x.
Proof.
  revert i j; induction l as [|a l IH]; intros [|i] [|j] H; simpl; try congruence.
  f_equal; auto.
Qed.

Lemma nth_error_map_some {A B} (f : A -> B) l i :
  nth_error (map f l) i = option_map f (nth_error l i).
Proof. revert i; induction l; destruct i; simpl; auto. Qed.

Lemma nth_error_seq s n i : nth_error (seq s n) i = if i <? n then Some (s + i) else None.
Proof.
  revert s i; induction n as [|n IH]; intros s [|i]; cbn [seq nth_error]; auto.
  - change (0 <? S n) with true; cbv iota. f_equal; lia.
  - rewrite IH. change (S i <? S n) with (i <? n).
    destruct (i <? n); f_equal; lia.
Qed.

Lemma nth_error_map_seq {A} (f : nat -> A) s n i :
  nth_error (map f (seq s n)) i = if i <? n then Some (f (s + i)) else None.
Proof. rewrite nth_error_map_some, nth_error_seq; destruct (i <? n); reflexivity. Qed.

Lemma nth_map_seq {A} (f : nat -> A) n i d :
  i < n -> nth i (map f (seq 0 n)) d = f i.
Proof.
  intros H. erewrite nth_error_nth; [reflexivity|].
  rewrite nth_error_map_seq. destruct (Nat.ltb_spec i n); [reflexivity|lia].
Qed.

Lemma nth_error_firstn {A} (l : list A) n i :
  nth_error (firstn n l) i = if i <? n then nth_error l i else None.
Proof.
  revert n i; induction l as [|a l IH]; intros [|n] [|i]; cbn [firstn nth_error]; auto.
  - destruct (S i <? S n); reflexivity.
  - rewrite IH; reflexivity.
Qed.

Lemma nth_error_skipn {A} (l : list A) n i :
  nth_error (skipn n l) i = nth_error l (n + i).
Proof.
  revert n; induction l as [|a l IH]; intros [|n]; simpl; auto.
  destruct i; reflexivity.
Qed.

Lemma Forall_nth_error {A} (P : A -> Prop) l i x :
  Forall P l -> nth_error l i = Some x -> P x.
Proof. intros H Hi; rewrite Forall_forall in H; apply H; eapply nth_error_In; eauto. Qed.

Lemma nth_error_Some_lt {A} (l : list A) i x : nth_error l i = Some x -> i < length l.
Proof. intros H; apply nth_error_Some; congruence. Qed.

Lemma nth_error_lt_Some {A} (l : list A) i : i < length l -> exists x, nth_error l i = Some x.
Proof. intros H; destruct (nth_error l i) eqn:E; eauto. apply nth_error_None in E; lia. Qed.

Lemma nth_error_combine {A B} (l : list A) (m : list B) i :
  nth_error (combine l m) i =
  match nth_error l i, nth_error m i with Some a, Some b => Some (a, b) | _, _ => None end.
Proof.
  revert m i; induction l as [|a l IH]; intros [|b m] [|i]; simpl; auto.
  - destruct (nth_error l i); reflexivity.
Qed.

Lemma in_combine_both {A B} (l : list A) (m : list B) a b :
  In (a, b) (combine l m) -> In a l /\ In b m.
Proof. intros H; split; [eapply in_combine_l|eapply in_combine_r]; eauto. Qed.

(** keep the elements whose flag is true (numpy boolean indexing) *)
Fixpoint select {A} (bs : list bool) (l : list A) : list A :=
  match bs, l with
  | b :: bs', x :: l' => if b then x :: select bs' l' else select bs' l'
  | _, _ => []
  end.

Lemma select_filter {A} (f : A -> bool) l : select (map f l) l = filter f l.
Proof. induction l as [|a l IH]; simpl; [reflexivity|]. rewrite IH; reflexivity. Qed.

Lemma select_map_combine {A B} (f : A -> bool) (l : list A) (m : list B) :
  length l = length m ->
  select (map f l) m = map snd (filter (fun p => f (fst p)) (combine l m)).
Proof.
  revert m; induction l as [|a l IH]; intros [|b m]; simpl; intros H; try discriminate; auto.
  destruct (f a); simpl; rewrite IH; auto.
Qed.

Lemma select_map_combine_l {A B} (f : A -> bool) (l : list A) (m : list B) :
  length l = length m ->
  select (map f l) l = map fst (filter (fun p => f (fst p)) (combine l m)).
Proof.
  revert m; induction l as [|a l IH]; intros [|b m]; simpl; intros H; try discriminate; auto.
  destruct (f a); simpl; rewrite (IH m); auto.
Qed.

(** Python list deletion [np.delete(l,i)] *)
Fixpoint del_nth {A} (l : list A) (i : nat) : list A :=
  match l, i with
  | [], _ => []
  | _ :: l', 0 => l'
  | a :: l', S i' => a :: del_nth l' i'
  end.

(** insert [x] so that it ends up at position [i] *)
Fixpoint ins_nth {A} (l : list A) (i : nat) (x : A) {struct i} : list A :=
  match i, l with
  | 0, _ => x :: l
  | S i', a :: l' => a :: ins_nth l' i' x
  | S _, [] => [x]
  end.

Lemma del_nth_length {A} (l : list A) i : i < length l -> length (del_nth l i) = length l - 1.
Proof.
  revert i; induction l as [|a l IH]; intros [|i]; simpl; intros H; try lia.
  rewrite IH; lia.
Qed.

Lemma ins_nth_length {A} (l : list A) i x : length (ins_nth l i x) = S (length l).
Proof. revert i; induction l as [|a l IH]; intros [|i]; simpl; auto. Qed.

Lemma del_ins_nth {A} (l : list A) i x : i <= length l -> del_nth (ins_nth l i x) i = l.
Proof.
  revert i; induction l as [|a l IH]; intros [|i]; simpl; intros H; auto; try lia.
  rewrite IH; [reflexivity|lia].
Qed.

Lemma ins_del_nth {A} (l : list A) i x : nth_error l i = Some x -> ins_nth (del_nth l i) i x = l.
Proof.
  revert i; induction l as [|a l IH]; intros [|i]; simpl; intros H; try discriminate.
  - congruence.
  - rewrite IH; auto.
Qed.

Lemma nth_error_ins_nth_eq {A} (l : list A) i x : i <= length l -> nth_error (ins_nth l i x) i = Some x.
Proof. revert i; induction l as [|a l IH]; intros [|i]; simpl; intros H; auto; try lia. apply IH; lia. Qed.

(** [index] : position of the first occurrence, [list.index] *)
Fixpoint index_nat (x : nat) (l : list nat) : option nat :=
  match l with
  | [] => None
  | y :: l' => if x =? y then Some 0 else option_map S (index_nat x l')
  end.

Lemma index_nat_some x l i : index_nat x l = Some i -> nth_error l i = Some x.
Proof.
  revert i; induction l as [|y l IH]; simpl; intros i H; [discriminate|].
  destruct (Nat.eqb_spec x y) as [->|Hn].
  - inversion H; reflexivity.
  - destruct (index_nat x l) as [j|]; inversion H; subst; simpl; auto.
Qed.

Lemma index_nat_none x l : index_nat x l = None -> ~ In x l.
Proof.
  induction l as [|y l IH]; simpl; intros H; [tauto|].
  destruct (Nat.eqb_spec x y) as [->|Hn]; [discriminate|].
  destruct (index_nat x l); [discriminate|]. intros [->|Hi]; [congruence|]. apply IH; auto.
Qed.

Lemma index_nat_in x l : In x l -> exists i, index_nat x l = Some i.
Proof. intros H; destruct (index_nat x l) eqn:E; eauto. apply index_nat_none in E; tauto. Qed.

Definition mem_nat (x : nat) (l : list nat) : bool := existsb (Nat.eqb x) l.
Lemma mem_nat_spec x l : mem_nat x l = true <-> In x l.
Proof.
  unfold mem_nat; rewrite existsb_exists; split.
  - intros (y & Hy & E); apply Nat.eqb_eq in E; subst; auto.
  - intros H; exists x; split; auto; apply Nat.eqb_refl.
Qed.

Lemma mem_nat_false x l : mem_nat x l = false <-> ~ In x l.
Proof. rewrite <- mem_nat_spec. destruct (mem_nat x l); split; congruence. Qed.

Fixpoint nodupb (l : list nat) : bool :=
  match l with [] => true | x :: l' => negb (mem_nat x l') && nodupb l' end.
Lemma nodupb_spec l : nodupb l = true <-> NoDup l.
Proof.
  induction l as [|x l IH]; simpl; split; intros H.
  - constructor.
  - reflexivity.
  - apply andb_prop in H as [H1 H2]. constructor; [|apply IH; auto].
    apply negb_true_iff in H1. apply mem_nat_false; auto.
  - inversion H; subst. apply andb_true_intro; split; [|apply IH; auto].
    apply negb_true_iff, mem_nat_false; auto.
Qed.

Lemma filter_length_le {A} (f : A -> bool) l : length (filter f l) <= length l.
Proof. induction l as [|a l IH]; simpl; [lia|]. destruct (f a); simpl; lia. Qed.

Lemma filter_all {A} (f : A -> bool) l : (forall x, In x l -> f x = true) -> filter f l = l.
Proof.
  induction l as [|a l IH]; simpl; intros H; [reflexivity|].
  rewrite H by auto. f_equal; apply IH; auto.
Qed.

Lemma filter_none {A} (f : A -> bool) l : (forall x, In x l -> f x = false) -> filter f l = [].
Proof.
  induction l as [|a l IH]; simpl; intros H; [reflexivity|].
  rewrite H by auto. apply IH; auto.
Qed.

Lemma filter_filter {A} (f g : A -> bool) l :
  filter f (filter g l) = filter (fun x => g x && f x) l.
Proof.
  induction l as [|a l IH]; simpl; [reflexivity|].
  destruct (g a); simpl; [destruct (f a)|]; rewrite ?IH; reflexivity.
Qed.

Lemma map_ext_in' {A B} (f g : A -> B) l : (forall x, In x l -> f x = g x) -> map f l = map g l.
Proof. apply map_ext_in. Qed.

Lemma list_eq_nth {A} (d : A) (l m : list A) :
  length l = length m -> (forall i, i < length l -> nth i l d = nth i m d) -> l = m.
Proof. intros; eapply nth_ext; eauto. Qed.
