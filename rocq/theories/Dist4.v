(** Lemmas for C90: distributions summed on the logarithmic grid. *)
From Verif Require Import Util RealUtil AmModel AmSpec Am DistModel DistSpec Dist Dist2 Dist3.
From Coq Require Import Reals Lra Lia Sorted.
From Coquelicot Require Import Coquelicot.
Open Scope R_scope.

Section Sums.
Context (f : R -> R) (xmin : R) (HX : 0 < xmin) (HF : positive_from f xmin).
Let g := gridpoint xmin.
Let N := npoints.
Notation Sm := (grid_sum f xmin).
Lemma g_lt i : g i < g (S i). Proof. apply grid_lt, HX. Qed.
Lemma g_ge i : xmin <= g i.
Proof. rewrite <- (grid_0 xmin). apply (X_le g g_lt 0 i). lia. Qed.
Lemma Sm_lt i : Sm i < Sm (S i). Proof. cbn [grid_sum]. pose proof (HF (g i) (g_ge i)) as Q. fold g. lra. Qed.
Lemma Sm_pos i : (0 < i)%nat -> 0 < Sm i. Proof. intros I. apply (X_lt Sm Sm_lt 0 i I). Qed.
Let T := Sm N.
Lemma T_pos : 0 < T. Proof. apply Sm_pos. pose proof npoints2. unfold N. lia. Qed.

(** cumulative sums *)
Lemma cumsum_app s l a : cumsum_from s (l ++ a :: nil) = cumsum_from s l ++ (s + total l + a) :: nil.
Proof.
  revert s. induction l as [|b l IH]; intros s; cbn [app cumsum_from total fold_right]; [f_equal; ring|]. rewrite IH. fold (total l). do 3 f_equal. ring.
Qed.
Lemma total_app a b : total (a ++ b) = total a + total b.
Proof. induction a as [|x a IH]; [change (total b = 0 + total b); ring|]. change (x + total (a ++ b) = x + total a + total b). rewrite IH. ring. Qed.
Lemma total_grid n : total (map f (map g (seq 0 n))) = Sm n.
Proof. induction n as [|n IH]; [reflexivity|]. rewrite seq_S, !map_app, total_app, IH. cbn. fold g. ring. Qed.
Lemma cumsum_grid n : cumsum (map f (map g (seq 0 n))) = map (fun i => Sm (S i)) (seq 0 n).
Proof.
  induction n as [|n IH]; [reflexivity|]. rewrite seq_S, !map_app. cbn [map]. unfold cumsum in *. rewrite cumsum_app, IH. f_equal.
  rewrite total_grid. cbn [grid_sum]. change (0 + n)%nat with n. fold g. f_equal. ring.
Qed.
Lemma total_rev l : total (rev l) = total l.
Proof. induction l as [|a l IH]; [reflexivity|]. cbn [rev]. rewrite total_app, IH. change (total l + (a + 0) = a + total l). ring. Qed.
Lemma rev_cumsum l : forall s, rev (cumsum_from s (rev l)) = map (fun k => s + total (skipn k l)) (seq 0 (length l)).
Proof.
  induction l as [|a l IH]; intros s; [reflexivity|]. cbn [rev]. rewrite cumsum_app, rev_app_distr. cbn [rev app length seq map skipn].
  f_equal; [rewrite total_rev; change (total (a :: l)) with (a + total l); ring|]. rewrite IH, <- seq_shift, map_map. reflexivity.
Qed.
Lemma total_skip n k : (k <= n)%nat -> total (skipn k (map f (map g (seq 0 n)))) = Sm n - Sm k.
Proof.
  intros K. pose proof (firstn_skipn k (map f (map g (seq 0 n)))) as E. apply (f_equal total) in E. rewrite total_app, total_grid in E.
  rewrite !firstn_map in E. replace n with (k + (n - k))%nat in E at 1 by lia. rewrite seq_app, firstn_app, seq_length, Nat.sub_diag in E. cbn [firstn] in E.
  rewrite app_nil_r, firstn_all2, total_grid in E by (rewrite seq_length; lia). lra.
Qed.
Lemma down_grid : rev (cumsum (map f (rev (xint xmin)))) = map (fun i => T - Sm i) (seq 0 N).
Proof.
  rewrite (xint_grid xmin HX), map_rev. unfold cumsum. rewrite rev_cumsum, !map_length, seq_length. fold g N.
  apply map_ext_in. intros i I. apply in_seq in I. rewrite total_skip by lia. fold T. ring.
Qed.
Lemma xdif_eq : xdif xmin = / 500.
Proof.
  unfold xdif. rewrite (xint_grid xmin HX). assert (E : exists l, seq 0 npoints = 0%nat :: 1%nat :: l).
  { pose proof npoints2 as P. destruct npoints as [|[|n]]; try lia. eexists. reflexivity. }
  destruct E as [l ->]. cbn [map nth]. rewrite grid_0, grid_S, grid_0. unfold log10.
  rewrite ln_mult by (pose proof ratio_gt; lra). unfold ratio, Rpower. rewrite ln_exp. pose proof ln10. field. lra.
Qed.
Lemma sum_int_look x : sum_int f xmin x = look x (map g (seq 0 N)) (map (fun i => (T - Sm i) * / 500) (seq 0 N)).
Proof. unfold sum_int. rewrite down_grid, (xint_grid xmin HX), map_map, xdif_eq. reflexivity. Qed.
Lemma norm_eq : sum_int f xmin xmin = T / 500.
Proof.
  rewrite sum_int_look. rewrite (look_low g _ N npoints2 g_lt); [cbn [grid_sum]; unfold Rdiv; ring|]. unfold g. rewrite grid_0. lra.
Qed.
Lemma cdf_cell i x : (S i < N)%nat -> g i <= x <= g (S i) -> sum_cdf f xmin x = (Sm i + (x - g i) / (g (S i) - g i) * f (g i)) / T.
Proof.
  intros I H. unfold sum_cdf. rewrite norm_eq, sum_int_look, (look_cell g _ N npoints2 g_lt i) by auto. pose proof (g_ge i).
  rewrite (proj2 (rltb_ge x xmin)) by lra. cbn [grid_sum]. fold g. pose proof T_pos. pose proof (g_lt i). field. split; lra.
Qed.
Lemma cdf_grid i : (i < N)%nat -> sum_cdf f xmin (g i) = Sm i / T.
Proof.
  intros I. pose proof T_pos. pose proof npoints2 as P. fold N in P. destruct i as [|i].
  - rewrite (cdf_cell 0) by (try lia; pose proof (g_lt 0); lra). pose proof (g_lt 0). field. lra.
  - rewrite (cdf_cell i) by (auto; pose proof (g_lt i); lra). cbn [grid_sum]. fold g. pose proof (g_lt i). field. lra.
Qed.
Lemma ppf_tab c : sum_ppf f xmin c = look c (map (fun i => Sm (S i) / T) (seq 0 N)) (map g (seq 0 N)).
Proof.
  unfold sum_ppf. rewrite (xint_grid xmin HX). fold g. rewrite cumsum_grid, !map_map. fold N. rewrite xdif_eq. cbv zeta beta.
  rewrite (last_map N npoints2 (fun i => Sm (S i) * / 500)). pose proof npoints2 as P. fold N in P. replace (S (N - 1)) with N by lia. fold T.
  f_equal. apply map_ext. intros i. pose proof T_pos. field. lra.
Qed.
Lemma P_lt i : Sm (S i) / T < Sm (S (S i)) / T.
Proof. apply Rmult_lt_compat_r; [apply Rinv_0_lt_compat, T_pos|apply Sm_lt]. Qed.
Lemma roundtrip x : xmin <= x <= g (N - 1) -> sum_ppf f xmin (sum_cdf f xmin x) = Rmax xmin (x / ratio).
Proof.
  intros H. pose proof npoints2 as P. fold N in P. pose proof ratio_gt as RG. pose proof T_pos as TP.
  destruct (cell_ex g N P x) as (i & I & C); [unfold g; rewrite grid_0; lra|lra|].
  rewrite (cdf_cell i x I C), ppf_tab. set (fr := (x - g i) / (g (S i) - g i)).
  pose proof (frac01 _ _ _ (g_lt i) C) as FR. fold fr in FR. pose proof (HF (g i) (g_ge i)) as FP.
  destruct i as [|i].
  - rewrite (look_low _ _ N P P_lt).
    + assert (A : g 0%nat = xmin) by apply grid_0. assert (B : g 1%nat = xmin * ratio) by (unfold g; rewrite grid_S, grid_0; reflexivity). rewrite A, B in *.
      symmetry. apply Rmax_left. apply (Rmult_le_reg_r ratio); [lra|]. unfold Rdiv. rewrite Rmult_assoc, Rinv_l by lra. lra.
    + cbn [grid_sum]. fold g. apply Rmult_le_compat_r; [left; apply Rinv_0_lt_compat; auto|]. nra.
  - assert (E : (Sm (S i) + fr * f (g (S i))) / T = Sm (S i) / T + fr * (Sm (S (S i)) / T - Sm (S i) / T)).
    { cbn [grid_sum]. fold g. field. lra. }
    rewrite E. assert (D : Sm (S i) / T < Sm (S (S i)) / T) by apply P_lt. set (a := Sm (S i) / T) in *. set (b := Sm (S (S i)) / T) in *.
    rewrite (look_cell (fun i => Sm (S i) / T) g N P P_lt i).
    2:{ lia. } 2:{ fold a b. nra. }
    fold a b. replace ((a + fr * (b - a) - a) / (b - a)) with fr by (field; lra).
    assert (E2 : g (S i) = g i * ratio) by apply grid_S. assert (E3 : g (S (S i)) = g i * ratio * ratio) by (unfold g; rewrite grid_S; fold g; rewrite E2; reflexivity).
    pose proof (g_lt i). pose proof (g_ge i).
    replace (g i + fr * (g (S i) - g i)) with (x / ratio).
    + symmetry. apply Rmax_right. apply (Rmult_le_reg_r ratio); [lra|]. unfold Rdiv. rewrite Rmult_assoc, Rinv_l by lra. nra.
    + unfold fr. rewrite E3, E2. field. repeat split; try lra. nra.
Qed.
Lemma cdf_mono x y : xmin <= x < y -> y <= g (N - 1) -> sum_cdf f xmin x < sum_cdf f xmin y.
Proof.
  intros H Y. pose proof npoints2 as P. fold N in P. pose proof T_pos as TP.
  assert (In1 : forall i u v, (S i < N)%nat -> g i <= u < v -> v <= g (S i) -> sum_cdf f xmin u < sum_cdf f xmin v).
  { intros i u v I U V. rewrite (cdf_cell i u I), (cdf_cell i v I) by lra. apply Rmult_lt_compat_r; [apply Rinv_0_lt_compat; auto|].
    pose proof (HF (g i) (g_ge i)). pose proof (g_lt i). apply Rplus_lt_compat_l, Rmult_lt_compat_r; auto.
    apply Rmult_lt_compat_r; [apply Rinv_0_lt_compat|]; lra. }
  assert (In2 : forall i u v, (S i < N)%nat -> g i <= u <= v -> v <= g (S i) -> sum_cdf f xmin u <= sum_cdf f xmin v).
  { intros i u v I U V. destruct (Req_dec u v) as [->|Z]; [lra|]. left. apply (In1 i); auto. lra. }
  assert (Gr : forall i j, (i <= j)%nat -> (j < N)%nat -> sum_cdf f xmin (g i) <= sum_cdf f xmin (g j)).
  { intros i j IJ J. rewrite !cdf_grid by lia. apply Rmult_le_compat_r; [left; apply Rinv_0_lt_compat; auto|]. apply (X_le Sm Sm_lt). exact IJ. }
  destruct (cell_ex g N P x) as (i & I & C); [unfold g; rewrite grid_0; lra|lra|].
  destruct (cell_ex g N P y) as (j & J & D); [unfold g; rewrite grid_0; lra|lra|].
  destruct (Rlt_dec x (g (S i))) as [L|L].
  - destruct (Rle_dec y (g (S i))) as [M|M]; [apply (In1 i); auto; lra|].
    assert (S i <= j)%nat. { destruct (le_lt_dec (S i) j) as [Q|Q]; auto. pose proof (X_le g g_lt (S j) (S i) ltac:(lia)). lra. }
    pose proof (In1 i x (g (S i)) I ltac:(lra) ltac:(lra)). pose proof (Gr (S i) j ltac:(lia) ltac:(lia)). pose proof (In2 j (g j) y J ltac:(lra) ltac:(lra)). lra.
  - assert (x = g (S i)) as -> by lra.
    assert (S i <= j)%nat. { destruct (le_lt_dec (S i) j) as [Q|Q]; auto. pose proof (X_le g g_lt (S j) (S i) ltac:(lia)). lra. }
    destruct (Req_dec (g j) y) as [<-|Z].
    + rewrite !cdf_grid by lia. apply Rmult_lt_compat_r; [apply Rinv_0_lt_compat; auto|]. apply (X_lt Sm Sm_lt).
      destruct (Nat.eq_dec (S i) j) as [<-|]; [lra|lia].
    + pose proof (Gr (S i) j ltac:(lia) ltac:(lia)). pose proof (In1 j (g j) y J ltac:(lra) ltac:(lra)). lra.
Qed.
Lemma cdf_top : sum_cdf f xmin (g (N - 1)) = 1 - f (g (N - 1)) / T.
Proof.
  pose proof npoints2 as P. fold N in P. pose proof T_pos as TP. rewrite cdf_grid by lia.
  assert (E : Sm N = Sm (N - 1) + f (g (N - 1))) by (replace N with (S (N - 1)) at 1 by lia; reflexivity).
  fold T in E. fold T. rewrite E in *. field. lra.
Qed.
Lemma pdf_dex i : (S i < N)%nat -> sum_pdf f xmin (g i) / 500 = sum_cdf f xmin (g (S i)) - sum_cdf f xmin (g i).
Proof.
  intros I. unfold sum_pdf. rewrite norm_eq, !cdf_grid by lia. cbn [grid_sum]. fold g. pose proof T_pos. field. lra.
Qed.
End Sums.
Lemma modified_pos phi0 x0 alpha sigma xmin : 0 < phi0 -> positive_from (modified_schechter phi0 x0 alpha sigma xmin) xmin.
Proof.
  intros P x X. unfold modified_schechter. rewrite (proj2 (rltb_ge x xmin)) by lra. repeat apply Rmult_lt_0_compat; auto; apply exp_pos.
Qed.
Lemma dpl_pos phi0 x0 alpha beta xmin : 0 < phi0 -> positive_from (double_power_law phi0 x0 alpha beta xmin) xmin.
Proof.
  intros P x X. unfold double_power_law. rewrite (proj2 (rltb_ge x xmin)) by lra. apply Rmult_lt_0_compat; auto.
  apply Rinv_0_lt_compat, Rplus_lt_0_compat; apply exp_pos.
Qed.
