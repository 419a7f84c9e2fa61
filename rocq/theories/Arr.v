(** N-dimensional row-major arrays (numpy ndarrays). *)
From Verif Require Import Util Rat Val.
Open Scope nat_scope.

Definition size (sh : list nat) : nat := fold_right Nat.mul 1 sh.

Fixpoint inb (sh ix : list nat) : bool :=
  match sh, ix with
  | [], [] => true
  | n :: sh', i :: ix' => (i <? n) && inb sh' ix'
  | _, _ => false
  end.

Fixpoint flat (sh ix : list nat) : nat :=
  match sh, ix with
  | _ :: sh', i :: ix' => i * size sh' + flat sh' ix'
  | _, _ => 0
  end.

(** all multi-indices of a shape in row-major order *)
Fixpoint idxs (sh : list nat) : list (list nat) :=
  match sh with
  | [] => [[]]
  | n :: sh' => flat_map (fun i => map (cons i) (idxs sh')) (seq 0 n)
  end.

Record arr (A : Type) := mkArr { shape : list nat; dat : list A }.
Arguments mkArr {A}. Arguments shape {A}. Arguments dat {A}.

Definition awf {A} (a : arr A) : Prop := length (dat a) = size (shape a).

(** [a[ix]], [None] when out of bounds *)
Definition get {A} (a : arr A) (ix : list nat) : option A :=
  if inb (shape a) ix then nth_error (dat a) (flat (shape a) ix) else None.
Definition getd {A} (d : A) (a : arr A) (ix : list nat) : A :=
  match get a ix with Some x => x | None => d end.

(** build an array from a function of the index *)
Definition tab {A} (sh : list nat) (f : list nat -> A) : arr A := mkArr sh (map f (idxs sh)).

(** [np.zeros], [np.full] *)
Definition full {A} (sh : list nat) (x : A) : arr A := tab sh (fun _ => x).

(** in-place element update [a[ix] = f(a[ix])] *)
Definition aalter {A} (f : A -> A) (a : arr A) (ix : list nat) : arr A :=
  mkArr (shape a) (alter f (dat a) (flat (shape a) ix)).

Definition amap {A B} (f : A -> B) (a : arr A) : arr B := mkArr (shape a) (map f (dat a)).

(** * Lemmas *)
Lemma inb_length sh ix : inb sh ix = true -> length ix = length sh.
Proof.
  revert ix; induction sh as [|n sh IH]; intros [|i ix]; simpl; intros H; try discriminate; auto.
  apply andb_prop in H as [_ H]. f_equal; auto.
Qed.

Lemma inb_nth sh ix : inb sh ix = true <->
  length ix = length sh /\ forall j i n, nth_error ix j = Some i -> nth_error sh j = Some n -> i < n.
Proof.
  revert ix; induction sh as [|n sh IH]; intros [|i ix]; simpl.
  - split; auto. intros _; split; auto. intros [|j] i n; discriminate.
  - split; [discriminate|intros [H _]; discriminate].
  - split; [discriminate|intros [H _]; discriminate].
  - rewrite andb_true_iff, IH. split.
    + intros [H1 [H2 H3]]. split; [lia|]. intros [|j] i' n'; simpl; intros E1 E2.
      * inversion E1; inversion E2; subst. apply Nat.ltb_lt; auto.
      * eapply H3; eauto.
    + intros [H1 H2]. split; [apply Nat.ltb_lt; apply (H2 0); auto|].
      split; [lia|]. intros j; exact (H2 (S j)).
Qed.

Lemma inb_app sh1 sh2 ix1 ix2 : length ix1 = length sh1 ->
  inb (sh1 ++ sh2) (ix1 ++ ix2) = inb sh1 ix1 && inb sh2 ix2.
Proof.
  revert ix1; induction sh1 as [|n sh1 IH]; intros [|i ix1]; simpl; intros H; try discriminate; auto.
  rewrite IH by lia. rewrite andb_assoc. reflexivity.
Qed.

Lemma flat_lt sh ix : inb sh ix = true -> flat sh ix < size sh.
Proof.
  revert ix; induction sh as [|n sh IH]; intros [|i ix]; simpl; intros H; try discriminate; auto.
  apply andb_prop in H as [H1 H2]. apply Nat.ltb_lt in H1. specialize (IH _ H2).
  unfold size in *; simpl in *. nia.
Qed.

Lemma flat_inj sh ix jx : inb sh ix = true -> inb sh jx = true -> flat sh ix = flat sh jx -> ix = jx.
Proof.
  revert ix jx; induction sh as [|n sh IH]; intros [|i ix] [|j jx]; simpl; intros H1 H2 E; try discriminate; auto.
  apply andb_prop in H1 as [A1 A2]. apply andb_prop in H2 as [B1 B2].
  pose proof (flat_lt _ _ A2) as LA. pose proof (flat_lt _ _ B2) as LB.
  assert (i = j) by nia. subst j. f_equal. apply IH; auto. lia.
Qed.

Lemma idxs_length sh : length (idxs sh) = size sh.
Proof.
  induction sh as [|n sh IH]; simpl; auto.
  unfold size in *; simpl. rewrite <- IH. clear.
  assert (G : forall s, length (flat_map (fun i => map (cons i) (idxs sh)) (seq s n)) = n * length (idxs sh)).
  { induction n as [|n IHn]; intros s; simpl; auto. rewrite app_length, map_length, IHn. reflexivity. }
  apply G.
Qed.

Lemma in_idxs sh ix : In ix (idxs sh) <-> inb sh ix = true.
Proof.
  revert ix; induction sh as [|n sh IH]; intros ix; simpl.
  - split; [intros [<-|[]]; auto|]. destruct ix; [auto|discriminate].
  - rewrite in_flat_map. split.
    + intros (i & Hi & H). apply in_map_iff in H as (jx & <- & Hj).
      apply in_seq in Hi. apply andb_true_intro; split; [apply Nat.ltb_lt; lia|]. apply IH; auto.
    + destruct ix as [|i ix]; [discriminate|]. intros H; apply andb_prop in H as [H1 H2].
      apply Nat.ltb_lt in H1. exists i; split; [apply in_seq; lia|]. apply in_map, IH; auto.
Qed.

Lemma nodup_idxs sh : NoDup (idxs sh).
Proof.
  induction sh as [|n sh IH]; simpl.
  - constructor; [tauto|constructor].
  - generalize 0. induction n as [|n IHn]; intros s; simpl; [constructor|].
    assert (D : forall (l1 l2 : list (list nat)), NoDup l1 -> NoDup l2 ->
              (forall x, In x l1 -> ~ In x l2) -> NoDup (l1 ++ l2)).
    { induction l1 as [|a l1 IH1]; simpl; intros l2 N1 N2 Hd; auto.
      inversion N1; subst. constructor.
      - rewrite in_app_iff. intros [X|X]; [tauto|]. apply (Hd a); auto.
      - apply IH1; auto. }
    apply D; [| apply IHn |].
    + apply FinFun.Injective_map_NoDup; auto. intros x y E; congruence.
    + intros x Hx Hy. apply in_map_iff in Hx as (ix & <- & _).
      apply in_flat_map in Hy as (j & Hj & Hy). apply in_map_iff in Hy as (jx & E & _).
      apply in_seq in Hj. inversion E; lia.
Qed.

Lemma nth_error_app_block {A} (f : nat -> list A) (m n s i k : nat) :
  (forall i, length (f i) = m) -> i < n -> k < m ->
  nth_error (flat_map f (seq s n)) (i * m + k) = nth_error (f (s + i)) k.
Proof.
  intros Hm. revert s i; induction n as [|n IH]; intros s i Hi Hk; [lia|]. simpl.
  destruct i as [|i].
  - simpl. rewrite nth_error_app1 by (rewrite Hm; lia). f_equal. f_equal. lia.
  - rewrite nth_error_app2 by (rewrite Hm; nia). rewrite Hm.
    replace (S i * m + k - m) with (i * m + k) by nia.
    rewrite IH by lia. f_equal. f_equal. lia.
Qed.

Lemma nth_error_idxs sh ix : inb sh ix = true -> nth_error (idxs sh) (flat sh ix) = Some ix.
Proof.
  revert ix; induction sh as [|n sh IH]; intros [|i ix]; simpl; intros H; try discriminate; auto.
  apply andb_prop in H as [H1 H2]. apply Nat.ltb_lt in H1.
  rewrite <- (idxs_length sh).
  rewrite (nth_error_app_block (fun i => map (cons i) (idxs sh)) (length (idxs sh)) n 0 i).
  - rewrite nth_error_map_some, IH; auto.
  - intros; apply map_length.
  - auto.
  - rewrite idxs_length. apply flat_lt; auto.
Qed.

Lemma tab_wf {A} sh (f : list nat -> A) : awf (tab sh f).
Proof. unfold awf, tab; simpl. rewrite map_length. apply idxs_length. Qed.

Lemma get_tab {A} sh (f : list nat -> A) ix :
  get (tab sh f) ix = if inb sh ix then Some (f ix) else None.
Proof.
  unfold get, tab; simpl. destruct (inb sh ix) eqn:E; auto.
  rewrite nth_error_map_some, nth_error_idxs; auto.
Qed.

Lemma getd_tab {A} (d : A) sh f ix : inb sh ix = true -> getd d (tab sh f) ix = f ix.
Proof. intros H. unfold getd. rewrite get_tab, H. reflexivity. Qed.

Lemma get_some_inb {A} (a : arr A) ix x : get a ix = Some x -> inb (shape a) ix = true.
Proof. unfold get. destruct (inb (shape a) ix); congruence. Qed.

Lemma get_inb_some {A} (a : arr A) ix : awf a -> inb (shape a) ix = true -> exists x, get a ix = Some x.
Proof.
  intros W H. unfold get. rewrite H. apply nth_error_lt_Some. rewrite W. apply flat_lt; auto.
Qed.

Lemma get_getd {A} (d : A) (a : arr A) ix : awf a -> inb (shape a) ix = true -> get a ix = Some (getd d a ix).
Proof. intros W H. destruct (get_inb_some a ix W H) as [x E]. unfold getd. rewrite E. reflexivity. Qed.

Lemma flat_surj sh k : k < size sh -> exists ix, inb sh ix = true /\ flat sh ix = k.
Proof.
  intros H. rewrite <- idxs_length in H. destruct (nth_error_lt_Some _ _ H) as [ix E].
  assert (Hi : inb sh ix = true) by (apply in_idxs; eapply nth_error_In; eauto).
  exists ix; split; auto.
  pose proof (nth_error_idxs _ _ Hi) as E2.
  apply (proj1 (NoDup_nth_error (idxs sh)) (nodup_idxs sh)); [|congruence].
  rewrite idxs_length. apply flat_lt; auto.
Qed.

Lemma arr_ext {A} (a b : arr A) :
  awf a -> awf b -> shape a = shape b ->
  (forall ix, inb (shape a) ix = true -> get a ix = get b ix) -> a = b.
Proof.
  destruct a as [sa da], b as [sb db]; unfold awf; simpl; intros Wa Wb <- H.
  f_equal. apply nth_error_ext. intros k.
  destruct (Nat.lt_ge_cases k (size sa)) as [L|L].
  - destruct (flat_surj _ _ L) as (ix & Hi & <-).
    specialize (H ix Hi). unfold get in H; simpl in H. rewrite Hi in H. exact H.
  - rewrite !(proj2 (nth_error_None _ _)) by lia. reflexivity.
Qed.

Lemma arr_is_tab {A} (d : A) (a : arr A) : awf a -> a = tab (shape a) (getd d a).
Proof.
  intros W. apply arr_ext; auto using tab_wf.
  intros ix H. rewrite get_tab, H. apply get_getd; auto.
Qed.

Lemma tab_ext {A} sh (f g : list nat -> A) :
  (forall ix, inb sh ix = true -> f ix = g ix) -> tab sh f = tab sh g.
Proof.
  intros H. unfold tab. f_equal. apply map_ext_in. intros ix Hi. apply H, in_idxs; auto.
Qed.

Lemma aalter_wf {A} (f : A -> A) a ix : awf a -> awf (aalter f a ix).
Proof. unfold awf, aalter; simpl. rewrite alter_length. auto. Qed.

Lemma get_aalter {A} (f : A -> A) a ix jx : inb (shape a) ix = true ->
  get (aalter f a ix) jx = if list_eq_dec Nat.eq_dec ix jx then option_map f (get a jx) else get a jx.
Proof.
  intros Hi. unfold get, aalter; simpl. destruct (inb (shape a) jx) eqn:Hj.
  - rewrite nth_error_alter.
    destruct (list_eq_dec Nat.eq_dec ix jx) as [->|N].
    + rewrite Nat.eqb_refl. reflexivity.
    + destruct (Nat.eqb_spec (flat (shape a) ix) (flat (shape a) jx)) as [E|E]; auto.
      exfalso; apply N; eapply flat_inj; eauto.
  - destruct (list_eq_dec Nat.eq_dec ix jx); reflexivity.
Qed.

Lemma shape_aalter {A} (f : A -> A) a ix : shape (aalter f a ix) = shape a.
Proof. reflexivity. Qed.

Lemma amap_wf {A B} (f : A -> B) a : awf a -> awf (amap f a).
Proof. unfold awf, amap; simpl; rewrite map_length; auto. Qed.

Lemma get_amap {A B} (f : A -> B) a ix : get (amap f a) ix = option_map f (get a ix).
Proof. unfold get, amap; simpl. destruct (inb (shape a) ix); auto. apply nth_error_map_some. Qed.

Lemma idxs_app sh1 sh2 :
  idxs (sh1 ++ sh2) = flat_map (fun i => map (app i) (idxs sh2)) (idxs sh1).
Proof.
  induction sh1 as [|n sh1 IH]; simpl.
  - rewrite app_nil_r. symmetry. apply map_id.
  - generalize 0. induction n as [|n IHn]; intros s; simpl; auto.
    rewrite flat_map_app, IHn. f_equal. rewrite IH. clear.
    induction (idxs sh1) as [|x l IHl]; simpl; auto.
    rewrite map_app, IHl. f_equal. rewrite map_map. reflexivity.
Qed.

Lemma size_app sh1 sh2 : size (sh1 ++ sh2) = size sh1 * size sh2.
Proof. unfold size. induction sh1 as [|n sh1 IH]; simpl; [lia|]. rewrite IH. lia. Qed.

(** total of an array *)
Definition asum {A : Alg} (a : arr A) : A := vsum (dat a).

Lemma asum_tab {A : Alg} sh (f : list nat -> A) : asum (tab sh f) = vsum (map f (idxs sh)).
Proof. reflexivity. Qed.
