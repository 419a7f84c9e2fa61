(** Further theorems about the luminosity function distributions (C88, C90): below the lower limit, and the shapes. *)
From Verif Require Import Util RealUtil DistModel DistSpec Dist Dist2.
From Coq Require Import Reals Lra Lia.
Open Scope R_scope.

(** A single value below the lower limit has no density and no share of the total. *)
Theorem C88_zero F p x : x < s_xmin p -> answers (sch_cdf F p (x :: nil)) (0 :: nil) /\ answers (sch_pdf F p (x :: nil)) (0 :: nil).
Proof.
  intros H. unfold answers, sch_cdf, sch_pdf, zero_below. cbn [length repeat]. rewrite !int_arr_one. cbn [bind map combine fst snd]. rewrite (proj2 (rltb_lt x (s_xmin p)) H). split; reflexivity.
Qed.
Print Assumptions C88_zero.
Example C88_zero_nonvacuous : 1 < s_xmin (schechter_gen 1 (- 3) 2 2).
Proof. cbn. lra. Qed.

(** The same for the summed distributions, whatever the luminosity function. *)
Theorem C90_zero f xmin x : x < xmin -> sum_cdf f xmin x = 0 /\ (f x = 0 -> sum_pdf f xmin x = 0).
Proof. intros H. unfold sum_cdf, sum_pdf. rewrite (proj2 (rltb_lt x xmin) H). split; [reflexivity|]. intros ->. unfold Rdiv. ring. Qed.
Print Assumptions C90_zero.
(** The double power law is half of phi0 at the knee, and within a factor of two of a power law of slope -alpha below it and -beta
    above it (alpha the smaller one). *)
Theorem C90_double phi0 x0 alpha beta xmin : 0 < phi0 -> 0 < x0 -> 0 < xmin -> alpha <= beta ->
  (xmin <= x0 -> double_power_law phi0 x0 alpha beta xmin x0 = phi0 / 2) /\
  (forall x, xmin <= x <= x0 -> phi0 / 2 * Rpower (x / x0) (- alpha) <= double_power_law phi0 x0 alpha beta xmin x <= phi0 * Rpower (x / x0) (- alpha)) /\
  (forall x, xmin <= x -> x0 <= x -> phi0 / 2 * Rpower (x / x0) (- beta) <= double_power_law phi0 x0 alpha beta xmin x <= phi0 * Rpower (x / x0) (- beta)) /\
  (forall x, xmin <= x -> phi0 / double_power_law phi0 x0 alpha beta xmin x = Rpower (x / x0) alpha + Rpower (x / x0) beta).
Proof.
  intros P X M AB. assert (U : forall x, xmin <= x -> double_power_law phi0 x0 alpha beta xmin x = phi0 * / (Rpower (x / x0) alpha + Rpower (x / x0) beta)).
  { intros x H. unfold double_power_law. rewrite (proj2 (rltb_ge x xmin)) by lra. reflexivity. }
  assert (B : forall a b, 0 < b -> b <= a -> phi0 / 2 * / a <= phi0 * / (a + b) <= phi0 * / a).
  { intros a b Hb Hab. replace (phi0 / 2 * / a) with (phi0 * / (2 * a)) by (field; lra). split; apply Rmult_le_compat_l; try lra; apply Rinv_le_contravar; lra. }
  assert (E : forall z a, 0 < Rpower z a) by (intros; apply exp_pos).
  assert (L : forall x y, 0 < x -> x <= y -> ln x <= ln y) by (intros x y Hx [H| ->]; [left; apply ln_increasing; lra|lra]).
  split; [|split; [|split]].
  - intros H. rewrite U by exact H. replace (x0 / x0) with 1 by (field; lra). unfold Rpower. rewrite ln_1, !Rmult_0_r, exp_0. field.
  - intros x H. rewrite U by lra. rewrite Rpower_Ropp. apply B; [apply E|]. unfold Rpower.
    assert (Q : ln (x / x0) <= 0). { rewrite <- ln_1. apply L; [apply Rdiv_lt_0_compat; lra|]. apply Rmult_le_reg_r with x0; [lra|]. unfold Rdiv. rewrite Rmult_assoc, Rinv_l by lra. lra. }
    assert (V : beta * ln (x / x0) <= alpha * ln (x / x0)) by nra. destruct V as [V| ->]; [left; apply exp_increasing, V|lra].
  - intros x H1 H2. rewrite U by lra. rewrite Rpower_Ropp, (Rplus_comm (Rpower _ alpha)). apply B; [apply E|]. unfold Rpower.
    assert (Q : 0 <= ln (x / x0)). { rewrite <- ln_1. apply L; [lra|]. apply Rmult_le_reg_r with x0; [lra|]. unfold Rdiv. rewrite Rmult_assoc, Rinv_l by lra. lra. }
    assert (V : alpha * ln (x / x0) <= beta * ln (x / x0)) by nra. destruct V as [V| ->]; [left; apply exp_increasing, V|lra].
  - intros x H. rewrite U by exact H. pose proof (E (x / x0) alpha). pose proof (E (x / x0) beta). field. split; lra.
Qed.
Print Assumptions C90_double.
(** The logarithm of the modified Schechter function is that of a power law of slope 1-alpha minus a parabola in the decimal logarithm of 1+x/x0. *)
Theorem C90_modified phi0 x0 alpha sigma xmin x : 0 < phi0 -> 0 < x0 -> 0 < xmin -> sigma <> 0 -> xmin <= x ->
  ln (modified_schechter phi0 x0 alpha sigma xmin x) = ln phi0 + (1 - alpha) * (ln x - ln x0) - (ln (1 + x / x0) / ln 10 / sigma) ^ 2 / 2.
Proof.
  intros P X M S H. unfold modified_schechter. rewrite (proj2 (rltb_ge x xmin)) by lra.
  assert (E : forall z a, 0 < Rpower z a) by (intros; apply exp_pos).
  rewrite ln_mult, ln_mult, ln_exp; [|exact P|apply E|apply Rmult_lt_0_compat; [exact P|apply E]|apply exp_pos].
  unfold Rpower. rewrite ln_exp. replace (ln (x / x0)) with (ln x - ln x0). 2: { unfold Rdiv. rewrite ln_mult, ln_Rinv; [ring|lra|lra|apply Rinv_0_lt_compat; lra]. }
  unfold log10. assert (T : ln 10 <> 0). { apply Rgt_not_eq. rewrite <- ln_1. apply ln_increasing; lra. } field. split; assumption.
Qed.
Print Assumptions C90_modified.
Example C90_shapes_nonvacuous : double_power_law 3 2 1 4 1 2 = 3 / 2 /\ ln (modified_schechter 1 2 1 1 1 2) = - (ln 2 / ln 10) ^ 2 / 2.
Proof.
  split; [apply (proj1 (C90_double 3 2 1 4 1 ltac:(lra) ltac:(lra) ltac:(lra) ltac:(lra))); lra|].
  rewrite (C90_modified 1 2 1 1 1 2) by lra. rewrite ln_1. replace (1 + 2 / 2) with 2 by lra. replace (ln 2 / ln 10 / 1) with (ln 2 / ln 10) by (unfold Rdiv; rewrite Rinv_1; ring). lra.
Qed.
