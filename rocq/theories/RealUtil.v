(** Real numbers as stand-ins for floats: decidable comparisons, floor, modulus,
    and sorting of indices. No part of simim is modelled here. *)
From Verif Require Import Util.
From Coq Require Import Reals Permutation Sorted Lra.
Open Scope R_scope.

Definition rltb (a b : R) : bool := if Rlt_dec a b then true else false.
Definition rleb (a b : R) : bool := if Rle_dec a b then true else false.
Definition reqb (a b : R) : bool := if Req_EM_T a b then true else false.

Lemma rltb_lt a b : rltb a b = true <-> a < b.
Proof. unfold rltb. destruct (Rlt_dec a b); split; auto; discriminate. Qed.
Lemma rltb_ge a b : rltb a b = false <-> b <= a.
Proof. unfold rltb. destruct (Rlt_dec a b); split; intros H; auto; try discriminate; lra. Qed.
Lemma rleb_le a b : rleb a b = true <-> a <= b.
Proof. unfold rleb. destruct (Rle_dec a b); split; auto; discriminate. Qed.
Lemma rleb_gt a b : rleb a b = false <-> b < a.
Proof. unfold rleb. destruct (Rle_dec a b); split; intros H; auto; try discriminate; lra. Qed.
Lemma reqb_eq a b : reqb a b = true <-> a = b.
Proof. unfold reqb. destruct (Req_EM_T a b); split; auto; discriminate. Qed.
Lemma reqb_ne a b : reqb a b = false <-> a <> b.
Proof. unfold reqb. destruct (Req_EM_T a b); split; auto; try discriminate; tauto. Qed.

(** decide closed comparisons *)
Ltac rdec :=
  repeat match goal with
  | |- context [rltb ?a ?b] =>
      first [rewrite (proj2 (rltb_lt a b)) by lra | rewrite (proj2 (rltb_ge a b)) by lra]
  | |- context [rleb ?a ?b] =>
      first [rewrite (proj2 (rleb_le a b)) by lra | rewrite (proj2 (rleb_gt a b)) by lra]
  | |- context [reqb ?a ?b] =>
      first [rewrite (proj2 (reqb_eq a b)) by lra | rewrite (proj2 (reqb_ne a b)) by lra]
  end.

(** floor and ceiling *)
Definition rfloor (x : R) : Z := Int_part x.
Definition rceil (x : R) : Z := (- Int_part (- x))%Z.
Lemma rfloor_spec x : IZR (rfloor x) <= x < IZR (rfloor x) + 1.
Proof. unfold rfloor. destruct (base_Int_part x). lra. Qed.
Lemma rceil_spec x : IZR (rceil x) - 1 < x <= IZR (rceil x).
Proof. unfold rceil. rewrite opp_IZR. destruct (base_Int_part (- x)). lra. Qed.
Lemma rfloor_unique x n : IZR n <= x < IZR n + 1 -> rfloor x = n.
Proof.
  intros H. pose proof (rfloor_spec x) as G.
  assert (A : IZR (rfloor x) < IZR (n + 1)) by (rewrite plus_IZR; lra).
  assert (B : IZR n < IZR (rfloor x + 1)) by (rewrite plus_IZR; lra).
  apply lt_IZR in A. apply lt_IZR in B. lia.
Qed.
Lemma rceil_unique x n : IZR n - 1 < x <= IZR n -> rceil x = n.
Proof.
  intros H. pose proof (rceil_spec x) as G.
  assert (A : IZR (rceil x) < IZR (n + 1)) by (rewrite plus_IZR; lra).
  assert (B : IZR n < IZR (rceil x + 1)) by (rewrite plus_IZR; lra).
  apply lt_IZR in A. apply lt_IZR in B. lia.
Qed.

(** Python's x % b for floats, b > 0 *)
Definition rmod (x b : R) : R := x - b * IZR (rfloor (x / b)).
Lemma rmod_range x b : 0 < b -> 0 <= rmod x b < b.
Proof.
  intros Hb. unfold rmod. destruct (rfloor_spec (x / b)) as [A B].
  assert (E : x = b * (x / b)) by (field; lra).
  split.
  - apply (Rmult_le_compat_l b) in A; lra.
  - apply (Rmult_lt_compat_l b) in B; lra.
Qed.
Lemma rmod_shift x b : exists n : Z, rmod x b = x + b * IZR n.
Proof. exists (- rfloor (x / b))%Z. unfold rmod. rewrite opp_IZR. lra. Qed.
Lemma rmod_unique x b r (n : Z) : 0 < b -> 0 <= r < b -> r = x + b * IZR n -> rmod x b = r.
Proof.
  intros Hb Hr E. unfold rmod.
  assert (F : rfloor (x / b) = (- n)%Z).
  { apply rfloor_unique. rewrite opp_IZR.
    assert (x / b = r / b - IZR n) by (rewrite E; field; lra).
    assert (0 <= r / b < 1).
    { split; [apply Rmult_le_pos; [lra|left; apply Rinv_0_lt_compat; lra]|].
      apply (Rmult_lt_reg_r b); [lra|]. unfold Rdiv. rewrite Rmult_assoc, Rinv_l; lra. }
    lra. }
  rewrite F, opp_IZR. lra.
Qed.
Lemma rmod_id x b : 0 <= x < b -> rmod x b = x.
Proof. intros H. apply (rmod_unique x b x 0); simpl; lra. Qed.

Definition lsumR (l : list R) : R := fold_right Rplus 0 l.

(** * Index sorting *)
(** [p] is a possible result of np.argsort on [l]: which of several equal entries
    comes first is left open *)
Definition is_argsort (l : list R) (p : list nat) : Prop :=
  Permutation p (seq 0 (length l)) /\ StronglySorted (fun i j => nth i l 0 <= nth j l 0) p.
(** a valid argsort *)
Definition argsorts (f : list R -> list nat) : Prop := forall l, is_argsort l (f l).

Fixpoint insert_by (l : list R) (i : nat) (p : list nat) : list nat :=
  match p with
  | [] => [i]
  | j :: q => if rleb (nth i l 0) (nth j l 0) then i :: p else j :: insert_by l i q
  end.
(** one particular argsort, used in examples *)
Definition argsort0 (l : list R) : list nat := fold_right (insert_by l) [] (seq 0 (length l)).

Lemma insert_perm l i p : Permutation (insert_by l i p) (i :: p).
Proof.
  induction p as [|j q IH]; simpl; auto. destruct (rleb _ _); auto.
  eapply perm_trans; [apply perm_skip, IH|apply perm_swap].
Qed.
Lemma insert_sorted l i p : StronglySorted (fun i j => nth i l 0 <= nth j l 0) p ->
  StronglySorted (fun i j => nth i l 0 <= nth j l 0) (insert_by l i p).
Proof.
  induction 1 as [|j q Hq IH Hj]; simpl; [repeat constructor|].
  destruct (rleb (nth i l 0) (nth j l 0)) eqn:E.
  - apply rleb_le in E. constructor; [constructor; auto|]. constructor; auto.
    eapply Forall_impl; [|apply Hj]. simpl. intros a Ha. lra.
  - apply rleb_gt in E. constructor; auto.
    apply Forall_forall. intros a Ha. apply (Permutation_in _ (insert_perm l i q)) in Ha.
    destruct Ha as [<-|Ha]; [lra|]. rewrite Forall_forall in Hj. auto.
Qed.
Lemma argsort0_ok : argsorts argsort0.
Proof.
  intros l. unfold argsort0. split.
  - induction (seq 0 (length l)) as [|i p IH]; simpl; auto.
    eapply perm_trans; [apply insert_perm|auto].
  - induction (seq 0 (length l)) as [|i p IH]; simpl; [constructor|]. apply insert_sorted; auto.
Qed.
