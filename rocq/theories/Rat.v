(** Exact rational arithmetic on canonical rationals [Qc]: the idealisation of
    numpy floats used throughout (see DESIGN.md, "Numbers"). *)
From Coq Require Export QArith Qcanon Qround Lqa.
From Verif Require Import Util.
Open Scope Qc_scope.

Definition zq (z : Z) : Qc := Q2Qc (inject_Z z).
Definition nq (n : nat) : Qc := zq (Z.of_nat n).
Definition frac (a : Z) (b : positive) : Qc := Q2Qc (a # b).

Definition qleb (x y : Qc) : bool := Qle_bool (this x) (this y).
Definition qltb (x y : Qc) : bool := negb (qleb y x).
Definition qeqb (x y : Qc) : bool := Qeq_bool (this x) (this y).

(** np.floor / np.ceil *)
Definition qfloor (x : Qc) : Z := Qfloor (this x).
Definition qceil (x : Qc) : Z := Qceiling (this x).

(** round half to even, as np.round / np.rint do *)
Definition round_even (x : Qc) : Z :=
  let f := qfloor x in
  let d := x - zq f in
  if qltb d (frac 1 2) then f
  else if qltb (frac 1 2) d then (f + 1)%Z
  else if Z.even f then f else (f + 1)%Z.

(** np.round(x,1) *)
Definition round1 (x : Qc) : Qc := zq (round_even (x * zq 10)) / zq 10.

(** C-style truncation towards zero: assignment of a float into an int array *)
Definition qtrunc (x : Qc) : Z := if qleb 0 x then qfloor x else qceil x.

Definition qmin (x y : Qc) : Qc := if qleb x y then x else y.
Definition qmax (x y : Qc) : Qc := if qleb x y then y else x.
Definition qabs (x : Qc) : Qc := if qleb 0 x then x else - x.

Definition qsum (l : list Qc) : Qc := fold_right Qcplus 0 l.
Definition qprod (l : list Qc) : Qc := fold_right Qcmult 1 l.

(** * Specifications of the booleans *)
Lemma qleb_le x y : qleb x y = true <-> x <= y.
Proof. unfold qleb, Qcle. apply Qle_bool_iff. Qed.

Lemma qleb_gt x y : qleb x y = false <-> y < x.
Proof.
  unfold qleb, Qclt. split.
  - intros H. apply Qnot_le_lt. intros L. apply Qle_bool_iff in L. congruence.
  - intros H. destruct (Qle_bool x y) eqn:E; auto.
    apply Qle_bool_iff in E. apply Qle_not_lt in E. tauto.
Qed.

Lemma qltb_lt x y : qltb x y = true <-> x < y.
Proof. unfold qltb. rewrite negb_true_iff. apply qleb_gt. Qed.

Lemma qltb_ge x y : qltb x y = false <-> y <= x.
Proof. unfold qltb. rewrite negb_false_iff. apply qleb_le. Qed.

Lemma qeqb_eq x y : qeqb x y = true <-> x = y.
Proof.
  unfold qeqb. rewrite Qeq_bool_iff. split; [apply Qc_is_canon|intros ->; reflexivity].
Qed.

Lemma qeqb_ne x y : qeqb x y = false <-> x <> y.
Proof. rewrite <- qeqb_eq. destruct (qeqb x y); split; congruence. Qed.

Lemma qleb_spec x y : reflect (x <= y) (qleb x y).
Proof. apply iff_reflect. symmetry. apply qleb_le. Qed.
Lemma qltb_spec x y : reflect (x < y) (qltb x y).
Proof. apply iff_reflect. symmetry. apply qltb_lt. Qed.
Lemma qeqb_spec x y : reflect (x = y) (qeqb x y).
Proof. apply iff_reflect. symmetry. apply qeqb_eq. Qed.

(** * Linear arithmetic *)
Lemma this_plus x y : (this (x + y) == this x + this y)%Q.
Proof. exact (Qred_correct (this x + this y)). Qed.
Lemma this_mult x y : (this (x * y) == this x * this y)%Q.
Proof. exact (Qred_correct (this x * this y)). Qed.
Lemma this_opp x : (this (- x) == - this x)%Q.
Proof. exact (Qred_correct (- this x)). Qed.
Lemma this_minus x y : (this (x - y) == this x - this y)%Q.
Proof. unfold Qcminus. rewrite this_plus, this_opp. reflexivity. Qed.
Lemma this_inv x : (this (/ x) == / this x)%Q.
Proof. exact (Qred_correct (/ this x)). Qed.
Lemma this_div x y : (this (x / y) == this x / this y)%Q.
Proof. unfold Qcdiv. rewrite this_mult, this_inv. reflexivity. Qed.
Lemma this_Q2Qc q : (this (Q2Qc q) == q)%Q.
Proof. exact (Qred_correct q). Qed.
Lemma this_zq z : (this (zq z) == inject_Z z)%Q.
Proof. apply this_Q2Qc. Qed.
Lemma this_frac a b : (this (frac a b) == a # b)%Q.
Proof. apply this_Q2Qc. Qed.
Lemma this_0 : (this 0%Qc == 0)%Q. Proof. reflexivity. Qed.
Lemma this_1 : (this 1%Qc == 1)%Q. Proof. reflexivity. Qed.

Lemma Qc_eq_iff (x y : Qc) : x = y <-> (this x == this y)%Q.
Proof. split; [intros ->; reflexivity|apply Qc_is_canon]. Qed.

(** Pose one [this_*] fact for every compound subterm, generalise, and call lra.
    Products with a literal factor are handled because literals evaluate. *)
Ltac q_facts t :=
  lazymatch t with
  | Qcplus ?a ?b => q_facts a; q_facts b; pose proof (this_plus a b)
  | Qcminus ?a ?b => q_facts a; q_facts b; pose proof (this_minus a b)
  | Qcmult ?a ?b => q_facts a; q_facts b; pose proof (this_mult a b)
  | Qcdiv ?a ?b => q_facts a; q_facts b; pose proof (this_div a b)
  | Qcopp ?a => q_facts a; pose proof (this_opp a)
  | Qcinv ?a => q_facts a; pose proof (this_inv a)
  | zq ?z => pose proof (this_zq z)
  | frac ?a ?b => pose proof (this_frac a b)
  | Q2Qc ?q => pose proof (this_Q2Qc q)
  | _ => idtac
  end.

Ltac q_prep :=
  unfold nq in *;
  repeat match goal with
  | H : qleb _ _ = true |- _ => apply qleb_le in H
  | H : qleb _ _ = false |- _ => apply qleb_gt in H
  | H : qltb _ _ = true |- _ => apply qltb_lt in H
  | H : qltb _ _ = false |- _ => apply qltb_ge in H
  | H : qeqb _ _ = true |- _ => apply qeqb_eq in H
  | H : qeqb _ _ = false |- _ => apply qeqb_ne in H
  | |- qleb _ _ = true => apply qleb_le
  | |- qleb _ _ = false => apply qleb_gt
  | |- qltb _ _ = true => apply qltb_lt
  | |- qltb _ _ = false => apply qltb_ge
  | |- qeqb _ _ = true => apply qeqb_eq
  end.

Ltac q_collect :=
  repeat match goal with
  | H : @eq Qc ?a ?b |- _ =>
      q_facts a; q_facts b; apply Qc_eq_iff in H
  | H : Qcle ?a ?b |- _ => q_facts a; q_facts b; unfold Qcle in H
  | H : Qclt ?a ?b |- _ => q_facts a; q_facts b; unfold Qclt in H
  end;
  match goal with
  | |- @eq Qc ?a ?b => q_facts a; q_facts b; apply Qc_eq_iff
  | |- Qcle ?a ?b => q_facts a; q_facts b; unfold Qcle
  | |- Qclt ?a ?b => q_facts a; q_facts b; unfold Qclt
  | |- _ => idtac
  end.

Ltac pos_cst p := lazymatch p with xH => idtac | xO ?q => pos_cst q | xI ?q => pos_cst q end.
Ltac z_cst z := lazymatch z with Z0 => idtac | Zpos ?p => pos_cst p | Zneg ?p => pos_cst p end.
Ltac q_lits :=
  repeat match goal with
  | H : context [this (zq ?z)] |- _ =>
      z_cst z; let v := eval vm_compute in (this (zq z)) in change (this (zq z)) with v in *
  | |- context [this (zq ?z)] =>
      z_cst z; let v := eval vm_compute in (this (zq z)) in change (this (zq z)) with v in *
  | H : context [this (frac ?z ?p)] |- _ =>
      z_cst z; pos_cst p;
      let v := eval vm_compute in (this (frac z p)) in change (this (frac z p)) with v in *
  | |- context [this (frac ?z ?p)] =>
      z_cst z; pos_cst p;
      let v := eval vm_compute in (this (frac z p)) in change (this (frac z p)) with v in *
  end;
  unfold inject_Z in *;
  change (this 0%Qc) with 0%Q in *; change (this 1%Qc) with 1%Q in *.

Ltac qlra := q_prep; q_collect; q_lits; lra.
Ltac qnra := q_prep; q_collect; q_lits; nra.

Add Field Qc_field_inst : Qcft.

(** * zq *)
Lemma zq_add a b : zq (a + b) = zq a + zq b.
Proof. apply Qc_is_canon. rewrite this_plus, !this_zq. rewrite inject_Z_plus; reflexivity. Qed.
Lemma zq_sub a b : zq (a - b) = zq a - zq b.
Proof.
  apply Qc_is_canon. rewrite this_minus, !this_zq. unfold Z.sub. rewrite inject_Z_plus, inject_Z_opp.
  reflexivity.
Qed.
Lemma zq_opp a : zq (- a) = - zq a.
Proof. apply Qc_is_canon. rewrite this_opp, !this_zq. rewrite inject_Z_opp; reflexivity. Qed.
Lemma zq_mul a b : zq (a * b) = zq a * zq b.
Proof. apply Qc_is_canon. rewrite this_mult, !this_zq. rewrite inject_Z_mult; reflexivity. Qed.
Lemma zq_0 : zq 0 = 0. Proof. reflexivity. Qed.
Lemma zq_1 : zq 1 = 1. Proof. reflexivity. Qed.
Lemma zq_le a b : zq a <= zq b <-> (a <= b)%Z.
Proof. unfold Qcle. rewrite !this_zq. rewrite <- Zle_Qle. reflexivity. Qed.
Lemma zq_lt a b : zq a < zq b <-> (a < b)%Z.
Proof. unfold Qclt. rewrite !this_zq. rewrite <- Zlt_Qlt. reflexivity. Qed.
Lemma zq_inj a b : zq a = zq b <-> a = b.
Proof.
  split; [|intros ->; reflexivity]. intros H.
  assert (zq a <= zq b /\ zq b <= zq a) as [H1 H2] by (rewrite H; split; apply Qcle_refl).
  rewrite zq_le in H1, H2. lia.
Qed.
Lemma nq_S n : nq (S n) = nq n + 1.
Proof. unfold nq. rewrite Nat2Z.inj_succ. unfold Z.succ. rewrite zq_add. reflexivity. Qed.
Lemma nq_0 : nq 0 = 0. Proof. reflexivity. Qed.
Lemma nq_add a b : nq (a + b) = nq a + nq b.
Proof. unfold nq. rewrite Nat2Z.inj_add. apply zq_add. Qed.
Lemma nq_mul a b : nq (a * b) = nq a * nq b.
Proof. unfold nq. rewrite Nat2Z.inj_mul. apply zq_mul. Qed.
Lemma nq_le a b : nq a <= nq b <-> (a <= b)%nat.
Proof. unfold nq. rewrite zq_le. lia. Qed.
Lemma nq_lt a b : nq a < nq b <-> (a < b)%nat.
Proof. unfold nq. rewrite zq_lt. lia. Qed.
Lemma nq_inj a b : nq a = nq b <-> a = b.
Proof. unfold nq. rewrite zq_inj. lia. Qed.
Lemma nq_nonneg a : 0 <= nq a.
Proof. change 0 with (nq 0). apply nq_le. lia. Qed.
Lemma nq_neq0 n : (n <> 0)%nat -> nq n <> 0.
Proof. intros H E. apply H. apply nq_inj. exact E. Qed.

(** * floor, ceil *)
Lemma qfloor_spec x z : qfloor x = z <-> zq z <= x /\ x < zq z + 1.
Proof.
  unfold qfloor. rewrite <- zq_1, <- zq_add. unfold Qcle, Qclt. rewrite !this_zq. split.
  - intros <-. split; [apply Qfloor_le|apply Qlt_floor].
  - intros [H1 H2].
    assert (A : (z <= Qfloor x)%Z) by (rewrite <- (Qfloor_Z z); apply Qfloor_resp_le; exact H1).
    assert (B : (Qfloor x < z + 1)%Z).
    { rewrite Zlt_Qlt. eapply Qle_lt_trans; [apply Qfloor_le|exact H2]. }
    lia.
Qed.

Lemma qfloor_le x : zq (qfloor x) <= x.
Proof. apply (qfloor_spec x). reflexivity. Qed.
Lemma qfloor_lt x : x < zq (qfloor x) + 1.
Proof. apply (qfloor_spec x). reflexivity. Qed.
Lemma qfloor_zq z : qfloor (zq z) = z.
Proof. apply qfloor_spec. split; [apply Qcle_refl|qlra]. Qed.

Lemma qfloor_ge x z : (z <= qfloor x)%Z <-> zq z <= x.
Proof.
  split; intros H.
  - rewrite <- zq_le in H. eapply Qcle_trans; [exact H|apply qfloor_le].
  - pose proof (qfloor_lt x) as L.
    assert (zq z < zq (qfloor x + 1)) as K by (rewrite zq_add, zq_1; eapply Qcle_lt_trans; eauto).
    rewrite zq_lt in K. lia.
Qed.
Lemma qfloor_lt_z x z : (qfloor x < z)%Z <-> x < zq z.
Proof.
  split; intros H.
  - apply Qcnot_le_lt. intros L. apply qfloor_ge in L. lia.
  - assert (~ (z <= qfloor x)%Z); [|lia]. intros L. apply qfloor_ge in L.
    apply Qclt_not_le in H. tauto.
Qed.

Lemma qceil_spec x z : qceil x = z <-> zq z - 1 < x /\ x <= zq z.
Proof.
  unfold qceil, Qceiling.
  assert (E : Qfloor (- x) = qfloor (- x)%Qc).
  { unfold qfloor. apply Qfloor_comp. symmetry. apply this_opp. }
  rewrite E. split.
  - intros <-. destruct (proj1 (qfloor_spec (- x) _) eq_refl) as [A B].
    rewrite zq_opp. split; qlra.
  - intros [A B]. assert (qfloor (- x) = (- z)%Z) as ->; [|lia].
    apply qfloor_spec. rewrite zq_opp. split; qlra.
Qed.
Lemma qceil_ge x : x <= zq (qceil x).
Proof. apply (qceil_spec x). reflexivity. Qed.
Lemma qceil_lt x : zq (qceil x) - 1 < x.
Proof. apply (qceil_spec x). reflexivity. Qed.
Lemma qceil_zq z : qceil (zq z) = z.
Proof. apply qceil_spec. split; [qlra|apply Qcle_refl]. Qed.

(** * rounding *)
Lemma round_even_bound x :
  zq (round_even x) - frac 1 2 <= x /\ x <= zq (round_even x) + frac 1 2.
Proof.
  unfold round_even. pose proof (qfloor_le x) as A. pose proof (qfloor_lt x) as B.
  destruct (qltb_spec (x - zq (qfloor x)) (frac 1 2)) as [H|H].
  - split; qlra.
  - destruct (qltb_spec (frac 1 2) (x - zq (qfloor x))) as [H'|H'].
    + rewrite zq_add, zq_1. split; qlra.
    + apply Qcnot_lt_le in H. apply Qcnot_lt_le in H'.
      destruct (Z.even (qfloor x)); [|rewrite zq_add, zq_1]; split; qlra.
Qed.

Lemma round_even_zq z : round_even (zq z) = z.
Proof.
  unfold round_even. rewrite qfloor_zq.
  destruct (qltb_spec (zq z - zq z) (frac 1 2)) as [H|H]; [reflexivity|].
  exfalso. apply H. qlra.
Qed.

Lemma round1_bound x : round1 x - frac 1 20 <= x /\ x <= round1 x + frac 1 20.
Proof.
  unfold round1. pose proof (round_even_bound (x * zq 10)) as [A B].
  set (r := zq (round_even (x * zq 10))) in *.
  assert (E : r / zq 10 = r * frac 1 10) by (apply Qc_is_canon; rewrite this_div, this_mult, this_zq, this_frac; reflexivity).
  rewrite E. split; qlra.
Qed.

Lemma zq10_neq : zq 10 <> 0. Proof. intros H; discriminate H. Qed.

Lemma round1_zq z : round1 (zq z) = zq z.
Proof.
  unfold round1. rewrite <- zq_mul, round_even_zq, zq_mul. field. exact zq10_neq.
Qed.

(** * misc order lemmas *)
Lemma Qcmult_pos_le a b c : 0 < c -> a <= b -> a * c <= b * c.
Proof. intros Hc H. apply Qcmult_le_compat_r; auto. apply Qclt_le_weak; auto. Qed.
Lemma Qcmult_pos_lt a b c : 0 < c -> a < b -> a * c < b * c.
Proof. intros Hc H. apply Qcmult_lt_compat_r; auto. Qed.

Lemma Qc_pos_neq0 x : 0 < x -> x <> 0.
Proof. intros H ->. apply Qclt_not_eq in H. congruence. Qed.

Lemma qdiv_le_iff x y p : 0 < p -> (y <= x / p <-> y * p <= x).
Proof.
  intros Hp. assert (Hn := Qc_pos_neq0 _ Hp).
  assert (E : x / p * p = x) by (field; auto).
  split; intros H.
  - rewrite <- E. apply Qcmult_pos_le; auto.
  - apply Qcnot_lt_le. intros L. apply (Qcmult_pos_lt _ _ p Hp) in L. rewrite E in L.
    apply Qclt_not_le in L. tauto.
Qed.
Lemma qdiv_lt_iff x y p : 0 < p -> (x / p < y <-> x < y * p).
Proof.
  intros Hp. split; intros H.
  - apply Qcnot_le_lt. intros L. apply qdiv_le_iff in L; auto. apply Qclt_not_le in H. tauto.
  - apply Qcnot_le_lt. intros L. apply qdiv_le_iff in L; auto. apply Qclt_not_le in H. tauto.
Qed.

Lemma qcase x y : {x <= y} + {y < x}.
Proof. destruct (qleb x y) eqn:E; [left; apply qleb_le; auto|right; apply qleb_gt; auto]. Qed.

(** * sums *)
Lemma qsum_app l m : qsum (l ++ m) = qsum l + qsum m.
Proof. unfold qsum. induction l as [|a l IH]; simpl; [ring|]. rewrite IH; ring. Qed.
Lemma qsum_scale c l : qsum (map (fun x => x * c) l) = qsum l * c.
Proof. unfold qsum. induction l as [|a l IH]; simpl; [ring|]. rewrite IH; ring. Qed.
