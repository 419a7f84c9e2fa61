(** Theorems C88-C90: the luminosity function distributions. *)
From Verif Require Import Util RealUtil DistModel DistSpec Dist Dist2 Dist3 Dist4.
From Coq Require Import Reals Lra Lia.
From Coquelicot Require Import Coquelicot.
Open Scope R_scope.

(** * C88: single and double Schechter function *)
(** for every slope, shallow or steep, whole or not, the number that is returned is the integral of
    the function from x to infinity *)
Theorem C88_total F p x : scipy_special F -> sensible p -> s_xmin p <= x ->
  integral_above (schechter_function p) x (lum_function_int F p x).
Proof.
  intros HF HP H. unfold lum_function_int. rewrite (proj2 (rltb_ge x (s_xmin p))) by lra. apply int_above; auto. destruct HP as (_ & P & _). lra.
Qed.
Print Assumptions C88_total.
(** one value: the share of the total that lies between the lower limit and x *)
Theorem C88_cdf_partial F p x : scipy_special F -> sensible p -> s_xmin p <= x ->
  exists T, 0 < T /\ integral_above (schechter_function p) (s_xmin p) T /\
            answers (sch_cdf F p (x :: nil)) ((RInt (schechter_function p) (s_xmin p) x / T) :: nil).
Proof.
  intros HF HP H. assert (P : 0 < s_xmin p) by (destruct HP as (_ & P & _); exact P).
  exists (lum_int F p (s_xmin p)). split; [apply int_pos; auto|]. split; [apply int_above; auto|].
  unfold answers. rewrite cdf_one by auto. rewrite (int_diff F HF p HP) by lra. reflexivity.
Qed.
Print Assumptions C88_cdf_partial.
(** it is zero at the lower limit, grows all the way and stays below one *)
Theorem C88_shape F p : scipy_special F -> sensible p ->
  answers (sch_cdf F p (s_xmin p :: nil)) (0 :: nil) /\
  forall x y, s_xmin p <= x < y -> exists a b, answers (sch_cdf F p (x :: nil)) (a :: nil) /\ answers (sch_cdf F p (y :: nil)) (b :: nil) /\ 0 <= a < b /\ b < 1.
Proof.
  intros HF HP. assert (P : 0 < s_xmin p) by (destruct HP as (_ & P & _); exact P). unfold answers. split.
  - rewrite (cdf_G F HF p HP) by lra. rewrite (G_xmin F HF p HP). reflexivity.
  - intros x y H. exists (G F p x), (G F p y). rewrite !(cdf_G F HF p HP) by lra. repeat split; auto using G_lt1.
    + rewrite <- (G_xmin F HF p HP). destruct (Req_dec (s_xmin p) x) as [<-|N]; [lra|]. left. apply G_lt; auto. lra.
    + apply G_lt; auto. lra.
    + apply G_lt1; auto. lra.
Qed.
Print Assumptions C88_shape.
(** two or more values at once: neither the cumulative distribution nor the density can be had *)
Theorem C88_array_refuted F p xs : (2 <= length xs)%nat -> sch_cdf F p xs = Raise ValueError /\ sch_pdf F p xs = Raise ValueError.
Proof. exact (arr_raises F p xs). Qed.
Print Assumptions C88_array_refuted.
(** the density is the luminosity function itself: it integrates to the total, not to one *)
Theorem C88_pdf_refuted F p T : scipy_special F -> sensible p -> integral_above (schechter_function p) (s_xmin p) T ->
  exists d, (forall x, s_xmin p <= x -> answers (sch_pdf F p (x :: nil)) (d x :: nil)) /\
            integral_above d (s_xmin p) T /\ (T <> 1 -> ~ integral_above d (s_xmin p) 1).
Proof.
  intros HF HP I. exists (schechter_function p). split; [intros x H; apply pdf_one; auto|]. split; [exact I|]. intros N J. apply N.
  unfold integral_above in *. transitivity (RInt_gen (schechter_function p) (at_point (s_xmin p)) (Rbar_locally p_infty)); [symmetry|]; apply is_RInt_gen_unique; assumption.
Qed.
Print Assumptions C88_pdf_refuted.
(** below the lower limit a number gives one, an array of one gives the total *)
Theorem C88_below_refuted F p x : sensible p -> x < s_xmin p ->
  lum_function_int F p x = 1 /\ lum_function_int_arr F p (x :: nil) = Ok (lum_function_int F p (s_xmin p) :: nil).
Proof.
  intros HP H. unfold lum_function_int. rewrite (proj2 (rltb_lt x (s_xmin p))) by lra. split; [reflexivity|].
  rewrite int_arr_one, Rmax_right by lra. rewrite (proj2 (rltb_ge (s_xmin p) (s_xmin p))) by lra. reflexivity.
Qed.
Print Assumptions C88_below_refuted.
(** which parameters are taken *)
Theorem C88_accepts p : argcheck p = true <-> 0 < s_x0 p /\ 0 < s_xmin p /\ forall c, In c (comps p) -> 0 <= snd c.
Proof.
  unfold argcheck. rewrite Bool.negb_true_iff, !Bool.orb_false_iff, !rleb_gt. split.
  - intros ((A & B) & C). repeat split; auto. intros c I. destruct (Rle_dec 0 (snd c)) as [H|H]; auto. exfalso.
    assert (E : existsb (fun c => rltb (snd c) 0) (comps p) = true) by (apply existsb_exists; exists c; split; [exact I|apply rltb_lt; lra]). congruence.
  - intros (A & B & C). repeat split; auto. destruct (existsb _ _) eqn:E; auto. apply existsb_exists in E. destruct E as (c & I & L). apply rltb_lt in L.
    specialize (C c I). lra.
Qed.
Print Assumptions C88_accepts.
(** special functions as scipy documents them exist; a steep double function, alpha = -0.5 and -1.5 *)
Example C88_nonvacuous : scipy_special scipy_ex /\ sensible (double_schechter_gen 2 (- / 2) 1 (- 3 / 2) 3 1) /\
  steps (- 3 / 2 + 1) = 1%nat /\ steps (- / 2 + 1) = 0%nat /\ sensible (schechter_gen 1 (- 3) 2 1).
Proof.
  split; [exact scipy_ex_ok|]. split.
  { split; [cbn; lra|]. split; [cbn; lra|]. split; [intros c [<-|[<-|[]]]; cbn; lra|]. exists (- / 2, 1). split; [left; reflexivity|cbn; lra]. }
  split. { unfold steps. pose proof (amod_neg (- 3 / 2 + 1) ltac:(lra)) as E. fold (steps (- 3 / 2 + 1)).
    pose proof (amod_range (- 3 / 2 + 1)) as Q. assert (A : INR (steps (- 3 / 2 + 1)) = amod (- 3 / 2 + 1) + 1 / 2) by lra.
    destruct (steps (- 3 / 2 + 1)) as [|[|n]]; [cbn in A; lra|reflexivity|]. exfalso. rewrite !S_INR in A. pose proof (pos_INR n). lra. }
  split. { apply amod_pos. lra. }
  split; [cbn; lra|]. split; [cbn; lra|]. split; [intros c [<-|[]]; cbn; lra|]. exists (- 3, 2). split; [left; reflexivity|cbn; lra].
Qed.

(** * C89: the tabulated inverse of the Schechter distributions *)
(** exact at the grid points, and never more than one grid step (0.5 per cent) away, up to 10^20 times
    the lower limit *)
Theorem C89_partial F p : scipy_special F -> sensible p ->
  (forall i, (i <= 10000)%nat -> exists c, answers (sch_cdf F p (gridpoint (s_xmin p) i :: nil)) (c :: nil) /\ sch_ppf F p c = gridpoint (s_xmin p) i) /\
  (forall x, s_xmin p <= x <= s_xmin p * 10 ^ 20 ->
     exists c, answers (sch_cdf F p (x :: nil)) (c :: nil) /\ x / Rpower 10 (1 / 500) <= sch_ppf F p c <= x * Rpower 10 (1 / 500)).
Proof.
  intros HF HP. assert (P : 0 < s_xmin p) by (destruct HP as (_ & P & _); exact P). unfold answers. split.
  - intros i I. exists (G F p (gridpoint (s_xmin p) i)). split; [apply cdf_G; auto; apply grid_ge; auto|].
    apply ppf_grid; auto. apply in_table, I.
  - intros x H. exists (G F p x). split; [apply cdf_G; auto; lra|]. apply ppf_near; auto. split; [lra|]. rewrite top_eq. lra.
Qed.
Print Assumptions C89_partial.
(** whatever is asked for, the answer is inside the table, and larger shares give larger answers *)
Theorem C89_order F p : scipy_special F -> sensible p ->
  (forall c, s_xmin p <= sch_ppf F p c <= s_xmin p * 10 ^ 20) /\
  (forall c d top, answers (sch_cdf F p (s_xmin p * 10 ^ 20 :: nil)) (top :: nil) -> 0 <= c < d -> d <= top -> sch_ppf F p c < sch_ppf F p d).
Proof.
  intros HF HP. assert (P : 0 < s_xmin p) by (destruct HP as (_ & P & _); exact P). unfold answers. split.
  - intros c. rewrite <- top_eq. apply ppf_range; auto.
  - intros c d top E H D. rewrite <- top_eq in E. rewrite cdf_G in E by (auto; apply grid_ge; auto).
    assert (E2 : G F p (gridpoint (s_xmin p) (npoints - 1)) = top) by congruence.
    apply ppf_mono; auto; [rewrite G_xmin by auto; lra|]. rewrite E2. exact D.
Qed.
Print Assumptions C89_order.
(** between grid points the inverse of a falling function is always too large *)
Theorem C89_inverse_refuted F p i x : scipy_special F -> sensible p -> (i < 10000)%nat -> (forall c, In c (comps p) -> fst c <= 0) ->
  gridpoint (s_xmin p) i < x < gridpoint (s_xmin p) (S i) -> exists c, answers (sch_cdf F p (x :: nil)) (c :: nil) /\ x < sch_ppf F p c.
Proof.
  intros HF HP I A H. assert (P : 0 < s_xmin p) by (destruct HP as (_ & P & _); exact P). exists (G F p x).
  pose proof (grid_ge p HP i). split; [apply cdf_G; auto; lra|]. apply (ppf_high F HF p HP i); auto. apply in_table_S, I.
Qed.
Print Assumptions C89_inverse_refuted.
Example C89_nonvacuous : scipy_special scipy_ex /\ sensible (schechter_gen 1 (- 3) 2 1) /\ (forall c, In c (comps (schechter_gen 1 (- 3) 2 1)) -> fst c <= 0) /\
  exists x, gridpoint 1 3 < x < gridpoint 1 4.
Proof.
  split; [exact scipy_ex_ok|]. split.
  { split; [cbn; lra|]. split; [cbn; lra|]. split; [intros c [<-|[]]; cbn; lra|]. exists (- 3, 2). split; [left; reflexivity|cbn; lra]. }
  split; [intros c [<-|[]]; cbn; lra|]. exists ((gridpoint 1 3 + gridpoint 1 4) / 2). pose proof (grid_lt 1 3 ltac:(lra)). lra.
Qed.

(** * C90: the modified Schechter function and the double power law *)
(** at every grid point the cumulative distribution is the share of the sum before that point; it is
    zero at the lower limit and grows; the density is the share per factor of ten *)
Theorem C90_cdf_partial f xmin : 0 < xmin -> positive_from f xmin ->
  (forall i, (i <= 10000)%nat -> sum_cdf f xmin (gridpoint xmin i) = grid_sum f xmin i / grid_sum f xmin 10001) /\
  (forall x y, xmin <= x < y -> y <= xmin * 10 ^ 20 -> sum_cdf f xmin x < sum_cdf f xmin y) /\
  (forall i, (i < 10000)%nat -> sum_pdf f xmin (gridpoint xmin i) / 500 = sum_cdf f xmin (gridpoint xmin (S i)) - sum_cdf f xmin (gridpoint xmin i)).
Proof.
  intros H P. split; [|split].
  - intros i I. rewrite n10001. apply cdf_grid; auto. apply in_table, I.
  - intros x y A B. apply cdf_mono; auto. rewrite top_eq. exact B.
  - intros i I. apply pdf_dex; auto. apply in_table_S, I.
Qed.
Print Assumptions C90_cdf_partial.
(** going to a share and back always loses one grid step: x / 10^0.002 comes back, or the lower limit *)
Theorem C90_inverse_refuted f xmin x : 0 < xmin -> positive_from f xmin -> xmin < x <= xmin * 10 ^ 20 ->
  sum_ppf f xmin (sum_cdf f xmin x) = Rmax xmin (x / Rpower 10 (1 / 500)) /\ sum_ppf f xmin (sum_cdf f xmin x) < x.
Proof.
  intros H P X. assert (E : sum_ppf f xmin (sum_cdf f xmin x) = Rmax xmin (x / ratio)) by (apply roundtrip; auto; rewrite top_eq; lra).
  split; [exact E|]. rewrite E. apply Rmax_lub_lt; [lra|]. pose proof ratio_gt. apply (Rmult_lt_reg_r ratio); [lra|].
  unfold Rdiv. rewrite Rmult_assoc, Rinv_l by lra. nra.
Qed.
Print Assumptions C90_inverse_refuted.
(** but it is never further away than that *)
Theorem C90_inverse_partial f xmin x : 0 < xmin -> positive_from f xmin -> xmin <= x <= xmin * 10 ^ 20 ->
  x / Rpower 10 (1 / 500) <= sum_ppf f xmin (sum_cdf f xmin x) <= x.
Proof.
  intros H P X. assert (E : sum_ppf f xmin (sum_cdf f xmin x) = Rmax xmin (x / ratio)) by (apply roundtrip; auto; rewrite top_eq; lra).
  rewrite E. fold ratio. split; [apply Rmax_r|]. pose proof ratio_gt. apply Rmax_lub; [lra|]. apply (Rmult_le_reg_r ratio); [lra|].
  unfold Rdiv. rewrite Rmult_assoc, Rinv_l by lra. nra.
Qed.
Print Assumptions C90_inverse_partial.
(** at the upper end of the support some of the distribution is still missing *)
Theorem C90_top_refuted f xmin : 0 < xmin -> positive_from f xmin -> sum_cdf f xmin (snd (sum_support xmin)) < 1.
Proof.
  intros H P. unfold sum_support. cbn [snd]. rewrite <- top_eq, cdf_top by auto. pose proof (T_pos f xmin H P) as T.
  assert (0 < f (gridpoint xmin (npoints - 1)) / grid_sum f xmin npoints); [|lra]. apply Rdiv_lt_0_compat; auto. apply P.
  rewrite <- (grid_0 xmin) at 1. apply (X_le (gridpoint xmin)); [intros; apply grid_lt; auto|lia].
Qed.
Print Assumptions C90_top_refuted.
(** both functions are positive for a positive normalisation *)
Theorem C90_functions phi0 x0 alpha sigma beta xmin : 0 < phi0 ->
  positive_from (modified_schechter phi0 x0 alpha sigma xmin) xmin /\ positive_from (double_power_law phi0 x0 alpha beta xmin) xmin /\
  forall x, x < xmin -> modified_schechter phi0 x0 alpha sigma xmin x = 0 /\ double_power_law phi0 x0 alpha beta xmin x = 0.
Proof.
  intros P. split; [apply modified_pos, P|]. split; [apply dpl_pos, P|]. intros x X. unfold modified_schechter, double_power_law.
  rewrite (proj2 (rltb_lt x xmin) X). auto.
Qed.
Print Assumptions C90_functions.
Example C90_nonvacuous : positive_from (modified_schechter 1 2 (3 / 2) 1 1) 1 /\ 1 < 2 <= 1 * 10 ^ 20 /\
  sum_ppf (modified_schechter 1 2 (3 / 2) 1 1) 1 (sum_cdf (modified_schechter 1 2 (3 / 2) 1 1) 1 2) < 2.
Proof.
  assert (P : positive_from (modified_schechter 1 2 (3 / 2) 1 1) 1) by (apply modified_pos; lra).
  assert (R : 1 < 2 <= 1 * 10 ^ 20) by lra. split; [exact P|]. split; [exact R|].
  apply (C90_inverse_refuted (modified_schechter 1 2 (3 / 2) 1 1) 1 2); auto. lra.
Qed.
