(** Proofs about light cones: the buffer (C41). *)
From Coq Require Import Reals Permutation Sorted.
From Verif Require Import Dict Util RealUtil SnapModel SnapSpec Snap FormatModel FormatSpec Format LcModel LcSpec Lc Lc2 Lc3 Lc4 Lc5.
From Coq Require Import Lra Lia.
Open Scope string_scope.
Open Scope list_scope.
Open Scope R_scope.

(** ** When the buffer is enough *)
Lemma sin_cos_small x : 0 <= x <= 1 -> x - x ^ 3 / 6 <= sin x <= x /\ 0 < cos x <= 1 - x ^ 2 / 2 + x ^ 4 / 24.
Proof.
  intros H. pose proof PI2_3_2 as P. unfold Rdiv in P at 1.
  assert (HP : x <= PI / 2) by lra.
  split; [split|split].
  - destruct (sin_bound x 0 (proj1 H) ltac:(lra)) as [L _].
    unfold sin_approx, sin_term in L. cbn [sum_f_R0 Nat.mul Nat.add Nat.sub fact INR] in L.
    cbn in L. lra.
  - destruct (proj1 H) as [L|L]; [left; apply sin_lt_x; lra|subst x; rewrite sin_0; lra].
  - apply cos_gt_0; lra.
  - destruct (cos_bound x 0 ltac:(lra) HP) as [_ L]. unfold cos_approx, cos_term in L. cbn in L. lra.
Qed.
Lemma tan_ge x : 0 <= x <= 1 -> x <= tan x.
Proof.
  intros H. destruct (sin_cos_small x H) as [[H1 _] [H2 H3]]. unfold tan. apply Rmult_le_reg_r with (cos x); [exact H2|].
  unfold Rdiv. rewrite Rmult_assoc, Rinv_l by lra.
  apply Rle_trans with (x * (1 - x ^ 2 / 2 + x ^ 4 / 24)); [apply Rmult_le_compat_l; lra|].
  apply Rle_trans with (x - x ^ 3 / 6); [|lra].
  assert (0 <= x ^ 3) by (apply pow_le; lra). assert (x ^ 2 <= 1) by (replace (x ^ 2) with (x * x) by ring; nra).
  replace (x * (1 - x ^ 2 / 2 + x ^ 4 / 24)) with (x - x ^ 3 / 2 + x ^ 3 * x ^ 2 / 24) by field. nra.
Qed.
Lemma min_angle_le l a b : 0 < vx l -> 0 < vy l -> 0 < vz l ->
  In (a, b) [(vx l, vy l); (vx l, vz l); (vy l, vx l); (vy l, vz l); (vz l, vx l); (vz l, vy l)] ->
  0 < min_angle l /\ min_angle l <= atan (a / b).
Proof.
  intros Hx Hy Hz I.
  assert (P : forall a b, 0 < a -> 0 < b -> 0 < atan (a / b)).
  { intros. rewrite <- atan_0. apply atan_increasing. apply Rmult_lt_0_compat; [assumption|apply Rinv_0_lt_compat; assumption]. }
  unfold min_angle. split; [repeat apply Rmin_glb_lt; apply P; assumption|].
  assert (M : forall x y c, x <= c \/ y <= c -> Rmin x y <= c).
  { intros x y c0 [H|H]; [apply Rle_trans with x; [apply Rmin_l|exact H]|apply Rle_trans with y; [apply Rmin_r|exact H]]. }
  cbn in I. destruct I as [E|[E|[E|[E|[E|[E|[]]]]]]]; inversion E; subst; clear E;
  repeat (apply M; (left; apply Rle_refl) || right); apply Rle_refl.
Qed.
Lemma sin_atan_le l a b : 0 < vx l -> 0 < vy l -> 0 < vz l ->
  In (a, b) [(vx l, vy l); (vx l, vz l); (vy l, vx l); (vy l, vz l); (vz l, vx l); (vz l, vy l)] ->
  0 < sin (min_angle l) /\ sin (min_angle l) * sqrt (a ^ 2 + b ^ 2) <= a.
Proof.
  intros Hx Hy Hz I. destruct (min_angle_le l a b Hx Hy Hz I) as [H1 H2].
  assert (Hab : 0 < a /\ 0 < b) by (cbn in I; destruct I as [E|[E|[E|[E|[E|[E|[]]]]]]]; inversion E; subst; tauto).
  destruct Hab as [Ha Hb]. destruct (atan_bound (a / b)) as [_ B].
  split; [apply sin_gt_0; pose proof PI_RGT_0; lra|].
  apply Rle_trans with (sin (atan (a / b)) * sqrt (a ^ 2 + b ^ 2)).
  - apply Rmult_le_compat_r; [apply sqrt_pos|]. apply sin_incr_1; lra.
  - rewrite sin_atan.
    assert (E : sqrt (a ^ 2 + b ^ 2) = sqrt (1 + Rsqr (a / b)) * b).
    { transitivity (sqrt (1 + Rsqr (a / b)) * sqrt (b ^ 2)); [|rewrite sqrt_pow2 by lra; reflexivity]. rewrite <- sqrt_mult.
      - f_equal. unfold Rsqr. field. lra.
      - assert (0 <= Rsqr (a / b)) by apply Rle_0_sqr. lra.
      - apply pow_le; lra. }
    rewrite E. assert (0 < sqrt (1 + Rsqr (a / b))) by (apply sqrt_lt_R0; pose proof (Rle_0_sqr (a / b)); lra).
    right. unfold Rsqr in *. field. split; lra.
Qed.
Lemma buffer_core a b d rho : 0 < a -> 0 < b -> 0 < d -> d <= b -> d ^ 2 <= 101 / 100 * a ^ 2 + 1 / 100 * b ^ 2 -> a ^ 2 + b ^ 2 + d ^ 2 = 1 -> 0 <= rho <= 1 / 100 ->
  rho * sqrt (1 - a ^ 2) + (1 - sqrt (1 - rho ^ 2)) * a <= 101 / 100 * rho * sqrt (a ^ 2 + b ^ 2).
Proof.
  intros Ha Hb Hd Hdb HQ HU Hr. set (q := sqrt (a ^ 2 + b ^ 2)).
  assert (q0 : 0 <= q) by apply sqrt_pos. assert (qq : q ^ 2 = a ^ 2 + b ^ 2) by (unfold q; rewrite pow2_sqrt; nra).
  assert (HS : sqrt (1 - a ^ 2) <= 100499 / 100000 * q).
  { apply sq_le_sqrt; [nra|nra|]. rewrite Rpow_mult_distr, qq. nra. }
  assert (HA : a <= q) by (apply Rsqr_incr_0_var; [unfold Rsqr; nra|exact q0]).
  assert (HR : 1 - 5001 / 10000 * rho ^ 2 <= sqrt (1 - rho ^ 2)).
  { apply Rsqr_incr_0_var; [|apply sqrt_pos]. rewrite Rsqr_sqrt by nra. unfold Rsqr. assert (0 <= rho ^ 2 <= 1 / 10000) by nra. nra. }
  assert (G1 : (1 - sqrt (1 - rho ^ 2)) * a <= 5001 / 10000 * rho ^ 2 * a) by (apply Rmult_le_compat_r; lra).
  assert (G2 : 5001 / 10000 * rho ^ 2 * a <= 5001 / 1000000 * rho * q).
  { replace (5001 / 10000 * rho ^ 2 * a) with (rho * (5001 / 10000 * (rho * a))) by ring.
    replace (5001 / 1000000 * rho * q) with (rho * (5001 / 10000 * (1 / 100 * q))) by field.
    apply Rmult_le_compat_l; [lra|]. apply Rmult_le_compat_l; [lra|]. apply Rmult_le_compat; lra. }
  assert (G3 : rho * sqrt (1 - a ^ 2) <= rho * (100499 / 100000 * q)) by (apply Rmult_le_compat_l; lra).
  assert (0 <= rho * q) by (apply Rmult_le_pos; lra). lra.
Qed.
Lemma buffer_enough c p m : good_pt p -> p_buf p = buffer_coef (radius c) (p_los p) -> 0 <= radius c <= 1 / 100 ->
  0 <= d_end c m <= m_tdmax m -> balanced (p_los p) -> wide_enough c p m.
Proof.
  intros Hp EB Hr HD HB. pose proof Hp as (_ & HU & Hx & Hy & Hz & _). unfold dot in HU. split; [lra|].
  assert (G : forall a b d, In (a, b, d) [(vx (p_los p), vy (p_los p), vz (p_los p)); (vx (p_los p), vz (p_los p), vy (p_los p)); (vy (p_los p), vx (p_los p), vz (p_los p)); (vy (p_los p), vz (p_los p), vx (p_los p)); (vz (p_los p), vx (p_los p), vy (p_los p)); (vz (p_los p), vy (p_los p), vx (p_los p))] ->
    d <= b -> d_end c m * (radius c * sqrt (1 - a ^ 2) + (1 - sqrt (1 - radius c ^ 2)) * a) <= m_tdmax m * p_buf p * a).
  { intros a b d I L. pose proof (HB a b d I L) as HQ.
    assert (HP : 0 < a /\ 0 < b /\ 0 < d /\ a ^ 2 + b ^ 2 + d ^ 2 = 1) by
      (cbn in I; destruct I as [E|[E|[E|[E|[E|[E|[]]]]]]]; inversion E; subst; repeat split; try assumption; rewrite <- HU; ring).
    destruct HP as (Ha & Hb & Hd & H1).
    pose proof (buffer_core a b d (radius c) Ha Hb Hd L HQ H1 Hr) as HC.
    assert (IA : In (a, b) [(vx (p_los p), vy (p_los p)); (vx (p_los p), vz (p_los p)); (vy (p_los p), vx (p_los p)); (vy (p_los p), vz (p_los p)); (vz (p_los p), vx (p_los p)); (vz (p_los p), vy (p_los p))]).
    { cbn in I |- *. destruct I as [E|[E|[E|[E|[E|[E|[]]]]]]]; inversion E; subst; tauto. }
    destruct (sin_atan_le (p_los p) a b Hx Hy Hz IA) as [S0 S1]. set (S := sin (min_angle (p_los p))) in *. set (q := sqrt (a ^ 2 + b ^ 2)) in *.
    assert (HT : radius c <= tan (radius c)) by (apply tan_ge; lra).
    assert (q0 : 0 <= q) by apply sqrt_pos.
    assert (HB2 : 101 / 100 * radius c * q <= p_buf p * a).
    { rewrite EB. unfold buffer_coef. fold S.
      apply Rle_trans with (101 / 100 * tan (radius c) * q).
      - apply Rmult_le_compat_r; [exact q0|lra].
      - replace (101 / 100 * tan (radius c) * q) with (101 / 100 * tan (radius c) / S * (S * q)) by (field; lra).
        apply Rmult_le_compat_l; [|exact S1]. apply Rmult_le_pos; [lra|]. left. apply Rinv_0_lt_compat, S0. }
    apply Rle_trans with (d_end c m * (p_buf p * a)); [apply Rmult_le_compat_l; lra|].
    rewrite Rmult_assoc. apply Rmult_le_compat_r; [|lra]. assert (0 <= 101 / 100 * radius c * q) by (apply Rmult_le_pos; lra). lra. }
  intros l [E|[E|E]]; rewrite E.
  - destruct (Rle_or_lt (vz (p_los p)) (vy (p_los p))) as [L|L]; [apply (G _ (vy (p_los p)) (vz (p_los p)))|apply (G _ (vz (p_los p)) (vy (p_los p)))]; cbn; try tauto; lra.
  - destruct (Rle_or_lt (vz (p_los p)) (vx (p_los p))) as [L|L]; [apply (G _ (vx (p_los p)) (vz (p_los p)))|apply (G _ (vz (p_los p)) (vx (p_los p)))]; cbn; try tauto; lra.
  - destruct (Rle_or_lt (vy (p_los p)) (vx (p_los p))) as [L|L]; [apply (G _ (vx (p_los p)) (vy (p_los p)))|apply (G _ (vy (p_los p)) (vx (p_los p)))]; cbn; try tauto; lra.
Qed.

Lemma div_mul a b : b <> 0 -> a / b * b = a.
Proof. intros. field. assumption. Qed.
(** ** A line of sight the code accepts, for which it is not *)
Definition slim : vec := mkV (1 / 17) (12 / 17) (12 / 17).
Definition slim_pt : pointing := mkPt (mkV 0 0 0) (mkV 1 1 1) slim (los_matrix slim) (pa_matrix 0) (buffer_coef (1 / 50) slim).
Definition slim_conf : lcconf := mkLC Circle (1 / 25) 1 0 100 1 10 (101 / 10) [].
Definition slim_meta : meta := mkMeta 0 0 0 0 0 0 10 (101 / 10) 10 (101 / 10).
Definition slim_halo : vec := vadd (vscale (1005 / 100) slim) (mkV (- (192 / 1000)) (8 / 1000) (8 / 1000)).
Lemma slim_norm : norm slim = 1.
Proof. unfold norm, dot, slim. cbn [vx vy vz]. transitivity (sqrt 1); [f_equal; field|apply sqrt_1]. Qed.
Lemma slim_unit : los_unit slim = slim.
Proof. unfold los_unit. rewrite slim_norm, Rinv_1. apply vec_eq; cbn [vscale vx vy vz]; ring. Qed.
Lemma slim_good : good_pt slim_pt.
Proof.
  unfold good_pt, slim_pt. cbn [p_flip p_los p_losm p_pam]. split; [unfold sign_vec; cbn; auto|]. split; [unfold dot, slim; cbn; field|].
  split; [cbn; lra|]. split; [cbn; lra|]. split; [cbn; lra|]. split; [reflexivity|]. exists 0. reflexivity.
Qed.
Lemma tan_le_small x : 0 <= x <= 1 -> tan x <= x / (1 - x ^ 2 / 2).
Proof.
  intros H. destruct (sin_cos_small x H) as [[_ H1] [H2 _]]. pose proof PI2_3_2.
  assert (L : 1 - x ^ 2 / 2 <= cos x). { destruct (cos_bound x 0 ltac:(lra) ltac:(lra)) as [L _]. unfold cos_approx, cos_term in L. cbn in L. lra. }
  assert (0 < 1 - x ^ 2 / 2) by nra.
  unfold tan, Rdiv. apply Rmult_le_compat; [|left; apply Rinv_0_lt_compat; exact H2|exact H1|apply Rinv_le_contravar; assumption].
  apply sin_ge_0; lra.
Qed.
Lemma slim_sin : 100 / 1205 <= sin (min_angle slim).
Proof.
  assert (A : forall x, 1 / 12 <= x -> atan (1 / 12) <= atan x) by (intros x [L|L]; [left; apply atan_increasing; exact L|subst; lra]).
  assert (M : atan (1 / 12) <= min_angle slim).
  { unfold min_angle, slim. cbn [vx vy vz]. repeat apply Rmin_glb; apply A; lra. }
  assert (E : 100 / 1205 <= sin (atan (1 / 12))).
  { rewrite sin_atan. assert (S : sqrt (1 + Rsqr (1 / 12)) <= 1205 / 1200) by (apply sq_le_sqrt; unfold Rsqr; lra).
    assert (0 < sqrt (1 + Rsqr (1 / 12))) by (apply sqrt_lt_R0; unfold Rsqr; lra).
    apply Rmult_le_reg_r with (sqrt (1 + Rsqr (1 / 12))); [assumption|].
    rewrite div_mul by lra. lra. }
  apply Rle_trans with (1 := E). destruct (atan_bound (1 / 12)) as [B1 B2].
  assert (M2 : min_angle slim <= atan 1).
  { unfold min_angle, slim. cbn [vx vy vz]. apply Rle_trans with (2 := Rmin_r _ _) || idtac.
    eapply Rle_trans; [apply Rmin_r|]. eapply Rle_trans; [apply Rmin_r|]. eapply Rle_trans; [apply Rmin_l|]. right. f_equal. field. }
  destruct (atan_bound 1) as [B3 B4]. apply sin_incr_1; lra.
Qed.
Lemma slim_buf : 0 < buffer_coef (1 / 50) slim <= 2436 / 10000.
Proof.
  pose proof slim_sin as S. assert (T0 : 1 / 50 <= tan (1 / 50)) by (apply tan_ge; lra).
  assert (T : tan (1 / 50) <= 20005 / 1000000).
  { eapply Rle_trans; [apply tan_le_small; lra|]. apply Rmult_le_reg_r with (1 - (1 / 50) ^ 2 / 2); [lra|]. rewrite div_mul by lra. lra. }
  unfold buffer_coef. split.
  - apply Rmult_lt_0_compat; [lra|]. apply Rinv_0_lt_compat. lra.
  - apply Rmult_le_reg_r with (sin (min_angle slim)); [lra|]. rewrite div_mul by lra. lra.
Qed.
Lemma slim_vmax : vmax slim = 12 / 17.
Proof. unfold vmax, slim. cbn [vx vy vz]. rewrite (Rmax_left (12 / 17) (12 / 17)) by lra. apply Rmax_right. lra. Qed.
Lemma slim_drawn : draw_los (radius slim_conf) (lc_box slim_conf) (m_tdmax slim_meta) (lc_copies slim_conf) false false [slim] = Some slim.
Proof.
  pose proof slim_buf as B. pose proof PI_4 as P4. pose proof PI2_3_2 as P3. unfold Rdiv in P3 at 1.
  assert (ER : radius slim_conf = 1 / 50) by (unfold radius, slim_conf; cbn [lc_mode lc_open]; field).
  cbn [draw_los]. rewrite slim_unit, ER.
  assert (P0 : 0 < PI / 180 <= 1 / 45) by lra.
  assert (TS : forall x, 0 <= x <= 1 / 16 -> tan x < 1 / 12).
  { intros x H. eapply Rle_lt_trans; [apply tan_le_small; lra|]. apply Rmult_lt_reg_r with (1 - x ^ 2 / 2); [nra|]. rewrite div_mul by nra. nra. }
  assert (TL : forall x, 1 < x < PI / 2 -> 1 / 12 < tan x).
  { intros x H. assert (tan 1 < tan x) by (apply tan_increasing; lra). assert (1 <= tan 1) by (apply tan_ge; lra). lra. }
  assert (TA : test_a (1 / 50) slim = true).
  { unfold test_a. cbn [slim vx vy]. replace (1 / 17 / (12 / 17)) with (1 / 12) by field. apply andb_true_iff. split; apply rltb_lt; [apply TS|apply TL]; lra. }
  assert (TB : test_b (1 / 50) slim = true).
  { unfold test_b. cbn [slim vx vz]. replace (1 / 17 / (12 / 17)) with (1 / 12) by field. apply andb_true_iff. split; apply rltb_lt; [apply TS|apply TL]; lra. }
  assert (TG : test_geom (1 / 50) (lc_box slim_conf) (m_tdmax slim_meta) (lc_copies slim_conf) slim = true).
  { unfold test_geom. rewrite slim_vmax. apply rltb_lt. cbn [slim_conf lc_box lc_copies slim_meta m_tdmax INR]. lra. }
  rewrite TA, TB, TG. reflexivity.
Qed.
Lemma slim_cone : in_cone slim_conf slim_pt slim_halo /\ d_start slim_conf slim_meta <= norm slim_halo < d_end slim_conf slim_meta.
Proof.
  pose proof slim_good as G. pose proof (sky_split slim_pt slim_halo G) as S.
  assert (D : dot (p_los slim_pt) slim_halo = 1005 / 100) by (unfold slim_pt, slim_halo, slim, dot, vadd, vscale; cbn [p_los vx vy vz]; field).
  assert (N : dot slim_halo slim_halo = (1005 / 100) ^ 2 + 36992 / 1000000) by (unfold slim_halo, slim, dot, vadd, vscale; cbn [vx vy vz]; field).
  assert (NN : norm slim_halo ^ 2 = (1005 / 100) ^ 2 + 36992 / 1000000) by (rewrite <- N, <- norm_sq; ring).
  pose proof (norm_ge slim_halo) as N0.
  assert (R : 1005 / 100 <= norm slim_halo < 101 / 10) by (split; nra).
  rewrite D, NN in S. split; [split|].
  - unfold in_opening. cbn [slim_conf lc_mode lc_open]. split; [lra|].
    apply Rle_lt_trans with (1 / 5); [|lra]. apply sq_le_sqrt; nra.
  - rewrite D. lra.
  - unfold d_start, d_end. cbn [slim_conf slim_meta m_dmin m_dmax lc_dmin lc_dmax]. rewrite Rmax_left, Rmin_left by lra. lra.
Qed.
Lemma c41_slim asort az masses : argsorts asort -> (forall d, exists z, az d = Ok z) -> length masses = 1%nat ->
  exists rows, snap_slabs asort az slim_conf slim_pt slim_meta masses [slim_halo] = Ok (map Ok rows) /\ concat rows = [].
Proof.
  intros Hs HA HM. pose proof slim_buf as B.
  assert (E1 : d_start slim_conf slim_meta = 10) by (unfold d_start; cbn [slim_conf slim_meta m_dmin lc_dmin]; apply Rmax_left; lra).
  assert (E2 : d_end slim_conf slim_meta = 101 / 10) by (unfold d_end; cbn [slim_conf slim_meta m_dmax lc_dmax]; apply Rmin_left; lra).
  assert (EB : buf_of slim_pt slim_meta = 101 / 10 * buffer_coef (1 / 50) slim) by reflexivity.
  destruct (snap_runs asort az slim_conf slim_pt slim_meta masses [slim_halo] 1 HA) as (rows & E & L).
  - rewrite EB. cbn [slim_conf slim_pt lc_box p_los]. rewrite slim_vmax. lra.
  - lia.
  - rewrite EB, E1, E2. cbn [slim_conf slim_pt lc_box p_los]. rewrite slim_vmax. set (X := 100 / (12 / 17) - 2 * (101 / 10 * buffer_coef (1 / 50) slim)).
    assert (HX : 100 < X) by (unfold X; lra). cbn [INR].
    split; [replace (1 - 1) with 0 by ring; apply Rmult_lt_0_compat; [lra|apply Rinv_0_lt_compat; lra]|].
    apply Rmult_le_reg_r with X; [lra|]. rewrite div_mul by lra. lra.
  - exists rows. split; [exact E|].
    destruct (snap_exact asort az slim_conf slim_pt slim_meta masses [slim_halo] rows Hs slim_good HM ltac:(cbn; lra) E) as (M & keyss & F). destruct F as [_ HMp _ HR HK _ _].
    pose proof (Forall2_concat _ _ _ HR) as HC. destruct (concat keyss) as [|[i n] ks] eqn:EK; [inversion HC; reflexivity|]. exfalso.
    assert (I : In (i, n) (concat keyss)) by (rewrite EK; left; reflexivity).
    apply in_concat in I. destruct I as (ks' & I1 & I2). apply In_nth_error in I1. destruct I1 as [t Et].
    apply (HK _ _ Et) in I2. destruct I2 as (A1 & _ & A3 & A4).
    assert (t0 : t = 0%nat). { pose proof (nth_error_Some_lt _ _ _ Et). rewrite <- (Forall2_length_ _ _ _ HR), L in H. lia. }
    assert (i0 : i = 0%nat) by (cbn in A1; lia). subst t i. rewrite L, E1, E2 in A3, A4. rewrite EB in A4. cbn [INR] in A3, A4.
    set (P := img slim_conf slim_pt [slim_halo] (0%nat, n)) in *.
    assert (HPx : vx P = vx slim_halo + 100 * IZR (ix n)).
    { unfold P, img, image. cbn [fst snd nth slim_pt p_flip p_start slim_conf lc_box vadd vsub vmul vscale of_i vx]. ring. }
    assert (HH : vx slim_halo = 1005 / 1700 - 192 / 1000) by (unfold slim_halo, slim; cbn [vadd vscale vx]; field).
    assert (HL : vx (vscale (10 + 0 * (101 / 10 - 10) / 1 - 101 / 10 * buffer_coef (1 / 50) slim) (p_los slim_pt)) = (10 - 101 / 10 * buffer_coef (1 / 50) slim) / 17).
    { cbn [slim_pt p_los slim vscale vx]. field. }
    destruct A4 as ((W1 & _) & _). rewrite HL, HPx, HH in W1.
    assert (HX : Rabs (vx P) <= norm P).
    { rewrite <- sqrt_Rsqr_abs. apply sqrt_le_1_alt. unfold Rsqr, dot. nra. }
    assert (Hn : IZR (ix n) < 1 /\ -1 < IZR (ix n)) by (rewrite HPx, HH in HX; destruct (Rabs_def2 (1005 / 1700 - 192 / 1000 + 100 * IZR (ix n)) (102 / 10)); lra).
    assert (n0 : ix n = 0%Z) by (destruct Hn as [H1 H2]; apply lt_IZR in H1, H2; lia). rewrite n0 in W1. lra.
Qed.
