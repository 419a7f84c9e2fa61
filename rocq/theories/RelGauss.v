(** The mean of exp(t n) for a standard normal n, by shifting the Gaussian integral. *)
From Verif Require Import RelSpec.
From Coq Require Import Reals Lra.
From Coquelicot Require Import Coquelicot.
Open Scope R_scope.

Lemma gauss_pos n : 0 < gauss n.
Proof. apply exp_pos. Qed.
Lemma gauss_cont n : continuous gauss n.
Proof.
  apply (ex_derive_continuous gauss). unfold gauss. auto_derive. trivial.
Qed.
Lemma gauss_ex a b : ex_RInt gauss a b.
Proof. apply (ex_RInt_continuous gauss). intros; apply gauss_cont. Qed.
Lemma gauss_le n : n <> 0 -> gauss n <= / Rabs n.
Proof.
  intros N. unfold gauss.
  assert (A : 0 < Rabs n) by now apply Rabs_pos_lt.
  replace (- (n * n) / 2) with (- (n * n / 2)) by field. rewrite exp_Ropp.
  apply Rinv_le_contravar; [exact A|].
  pose proof (exp_ineq1_le (n * n / 2)).
  assert (E : n * n = Rabs n * Rabs n) by (rewrite <- Rabs_mult; symmetry; apply Rabs_right; nra).
  rewrite E in *. nra.
Qed.

Lemma shift t n : exp (t * n) * gauss n = exp (t * t / 2) * gauss (n - t).
Proof. unfold gauss. rewrite <- !exp_plus. f_equal. field. Qed.

Lemma shift_int t a b : RInt (fun n => exp (t * n) * gauss n) a b = exp (t * t / 2) * RInt gauss (a - t) (b - t).
Proof.
  apply is_RInt_unique.
  apply (is_RInt_ext (fun n => scal (exp (t * t / 2)) (scal 1 (gauss (1 * n + - t))))).
  { intros x _. rewrite shift. unfold scal; simpl; unfold mult; simpl. rewrite !Rmult_1_l. reflexivity. }
  apply (is_RInt_scal (fun n => scal 1 (gauss (1 * n + - t)))).
  apply (is_RInt_comp_lin gauss 1 (- t)).
  replace (1 * a + - t) with (a - t) by ring. replace (1 * b + - t) with (b - t) by ring.
  apply (RInt_correct gauss), gauss_ex.
Qed.

Lemma small_int a b s : 0 < s -> (s <= a /\ s <= b) \/ (a <= - s /\ b <= - s) ->
  Rabs (RInt gauss a b) <= Rabs (b - a) * / s.
Proof.
  intros S.
  assert (K : forall a b, a <= b -> (s <= a /\ s <= b) \/ (a <= - s /\ b <= - s) ->
    Rabs (RInt gauss a b) <= (b - a) * / s).
  { clear a b. intros a b L H. apply abs_RInt_le_const; [exact L|apply gauss_ex|].
    intros t T. rewrite Rabs_right by (apply Rle_ge, Rlt_le, gauss_pos).
    assert (N : t <> 0) by (destruct H; lra).
    eapply Rle_trans; [now apply gauss_le|]. apply Rinv_le_contravar; [exact S|].
    destruct H; [rewrite Rabs_right|rewrite Rabs_left]; lra. }
  intros H. destruct (Rle_lt_dec a b) as [L|L].
  - rewrite (Rabs_right (b - a)) by lra. now apply K.
  - rewrite <- (opp_RInt_swap gauss) by apply gauss_ex.
    unfold opp; simpl. rewrite Rabs_Ropp, (Rabs_left (b - a)) by lra.
    replace (- (b - a)) with (a - b) by ring. apply K; [lra|tauto].
Qed.

Lemma gauss_big T : 1 <= T -> RInt gauss (-1) 1 <= RInt gauss (- T) T.
Proof.
  intros H.
  rewrite <- (RInt_Chasles gauss (- T) (-1) T), <- (RInt_Chasles gauss (-1) 1 T) by apply gauss_ex.
  assert (0 <= RInt gauss (- T) (-1)) by (apply RInt_ge_0; [lra|apply gauss_ex|intros; apply Rlt_le, gauss_pos]).
  assert (0 <= RInt gauss 1 T) by (apply RInt_ge_0; [lra|apply gauss_ex|intros; apply Rlt_le, gauss_pos]).
  unfold plus; simpl. lra.
Qed.
Lemma gauss_one : 0 < RInt gauss (-1) 1.
Proof. apply RInt_gt_0; [lra|intros; apply gauss_pos|intros; apply gauss_cont]. Qed.

Lemma shifted t T : RInt gauss (- T - t) (T - t) = RInt gauss (- T) T + RInt gauss (- T - t) (- T) - RInt gauss (T - t) T.
Proof.
  rewrite <- (RInt_Chasles gauss (- T - t) (- T) (T - t)), <- (RInt_Chasles gauss (- T) T (T - t)) by apply gauss_ex.
  rewrite <- (opp_RInt_swap gauss (T - t) T) by apply gauss_ex.
  unfold plus, opp; simpl. lra.
Qed.

Lemma normal_mean_exp t : normal_mean (fun n => exp (t * n)) (exp (t * t / 2)).
Proof.
  unfold normal_mean. apply is_lim_spec. intros eps. simpl.
  set (c := RInt gauss (-1) 1). set (E := exp (t * t / 2)).
  assert (C : 0 < c) by apply gauss_one. assert (EP : 0 < E) by apply exp_pos.
  pose proof (cond_pos eps) as P. pose proof (Rabs_pos t) as A.
  exists (1 + Rabs t + 2 * Rabs t * E / (c * eps)). intros T HT.
  assert (Q : 0 <= 2 * Rabs t * E / (c * eps)).
  { apply Rmult_le_pos; [nra|]. apply Rlt_le, Rinv_0_lt_compat. nra. }
  assert (T1 : 1 <= T) by lra. pose proof (gauss_big T T1) as B. fold c in B.
  set (I := RInt gauss (- T) T) in *. assert (I0 : 0 < I) by lra.
  rewrite shift_int, shifted. fold E. fold I.
  set (e1 := RInt gauss (- T - t) (- T)). set (e2 := RInt gauss (T - t) T).
  set (s := T - Rabs t). assert (S : 0 < s) by (unfold s; lra).
  assert (ta : - Rabs t <= t <= Rabs t) by (unfold Rabs; destruct (Rcase_abs t); lra).
  assert (H1 : Rabs e1 <= Rabs t * / s).
  { unfold e1. replace t with (- T - (- T - t)) at 2 by ring. apply small_int; [exact S|right; unfold s; lra]. }
  assert (H2 : Rabs e2 <= Rabs t * / s).
  { unfold e2. replace t with (T - (T - t)) at 2 by ring. apply small_int; [exact S|left; unfold s; lra]. }
  replace (E * (I + e1 - e2) / I - E) with (E * (e1 - e2) * / I) by (field; lra).
  rewrite !Rabs_mult, (Rabs_right E), (Rabs_right (/ I)) by (try (apply Rle_ge, Rlt_le, Rinv_0_lt_compat); lra).
  assert (H3 : Rabs (e1 - e2) <= 2 * (Rabs t * / s)).
  { unfold Rminus. eapply Rle_trans; [apply Rabs_triang|]. rewrite Rabs_Ropp. lra. }
  apply Rle_lt_trans with (E * (2 * (Rabs t * / s)) * / c).
  - apply Rmult_le_compat; [apply Rmult_le_pos; [lra|apply Rabs_pos]|apply Rlt_le, Rinv_0_lt_compat; lra| |apply Rinv_le_contravar; lra].
    apply Rmult_le_compat_l; lra.
  - replace (E * (2 * (Rabs t * / s)) * / c) with (2 * Rabs t * E / (c * eps) * eps * / s) by (field; repeat split; lra).
    assert (X : 2 * Rabs t * E / (c * eps) < s) by (unfold s; lra).
    apply Rmult_lt_reg_r with s; [exact S|]. rewrite Rmult_assoc, Rinv_l, Rmult_1_r by lra.
    rewrite (Rmult_comm eps). apply Rmult_lt_compat_r; assumption.
Qed.

Lemma normal_mean_scal c f v : normal_mean f v -> (forall a b, ex_RInt (fun n => f n * gauss n) a b) ->
  normal_mean (fun n => c * f n) (c * v).
Proof.
  intros H X. unfold normal_mean in *.
  apply (is_lim_ext (fun T => c * (RInt (fun n => f n * gauss n) (- T) T / RInt gauss (- T) T))).
  - intros T. unfold Rdiv. rewrite <- Rmult_assoc. f_equal. symmetry.
    rewrite <- (RInt_scal (fun n => f n * gauss n)) by apply X. apply RInt_ext.
    intros x _. unfold scal; simpl; unfold mult; simpl. ring.
  - apply (is_lim_scal_l _ c p_infty v H).
Qed.
Lemma normal_mean_cexp c t : normal_mean (fun n => c * exp (t * n)) (c * exp (t * t / 2)).
Proof.
  apply normal_mean_scal; [apply normal_mean_exp|]. intros a b.
  apply (ex_RInt_continuous (fun n => exp (t * n) * gauss n)). intros z _.
  apply (ex_derive_continuous (fun n => exp (t * n) * gauss n)). unfold gauss. auto_derive. trivial.
Qed.
Lemma normal_mean_ext f g v : (forall n, f n = g n) -> normal_mean f v -> normal_mean g v.
Proof.
  intros H. unfold normal_mean. apply is_lim_ext. intros T. f_equal. apply RInt_ext. intros; now rewrite H.
Qed.

(** Uniform mean of a threshold *)
Lemma uniform_step (f L : R) (g : R -> R) : 0 <= f <= 1 -> (forall u, u < f -> g u = L) -> (forall u, f < u -> g u = 0) ->
  uniform_mean g (L * f).
Proof.
  intros F A B. unfold uniform_mean. replace (L * f) with (plus ((f - 0) * L) ((1 - f) * 0)) by (unfold plus; simpl; ring).
  apply (is_RInt_Chasles g 0 f 1).
  - apply (is_RInt_ext (fun _ => L)).
    + intros x X. rewrite Rmax_right in X by lra. symmetry. apply A. lra.
    + apply (is_RInt_const 0 f L).
  - apply (is_RInt_ext (fun _ => 0)).
    + intros x X. rewrite Rmin_left in X by lra. symmetry. apply B. lra.
    + apply (is_RInt_const f 1 0).
Qed.
