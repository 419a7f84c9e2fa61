(** Proofs about light cones: replication, rotations, flips and draws (C42, C43, C59, C60), witnesses (C45, C48, C61). *)
From Coq Require Import Reals Permutation Sorted.
From Verif Require Import Dict Util RealUtil SnapModel SnapSpec Snap FormatModel FormatSpec Format LcModel LcSpec Lc Lc2 Lc3 Lc4 Lc5 Lc6 Lc7 Lc8 Lc9 Lc10 Lc11.
From Coq Require Import Lra Lia.
Open Scope string_scope.
Open Scope list_scope.
Open Scope R_scope.

(** ** Replication *)
Lemma c42 fuel cm use buf inbox vm B pos0 it0 it pos box : inbox = B / vm -> ceil_div use (inbox - 2 * buf) = Ok it0 ->
  expand fuel cm 1 use buf inbox B it0 pos0 = Ok (it, pos, box) ->
  exists e ks, let M := (2 ^ Z.of_nat e)%Z in box = B * IZR M /\ (1 <= it)%Z /\ NoDup ks /\
    (forall i o, In (i, o) ks <-> (i < length pos0)%nat /\ (0 <= ix o < M)%Z /\ (0 <= iy o < M)%Z /\ (0 <= iz o < M)%Z) /\
    Forall2 (fun k v => exists x, nth_error pos0 (fst k) = Some x /\ v = vadd x (vscale B (of_i (snd k)))) ks pos /\
    (forall j k, nth_error ks j = Some k -> (j mod length pos0)%nat = fst k).
Proof.
  intros EI EC EE. apply ceil_div_ok in EC. destruct EC as [HZ HT].
  destruct (expand_rep B vm pos0 _ _ _ _ _ _ _ _ _ _ _ _ 1%Z _ EE (rep0 _ _)) as (M & ks & A1 & A2 & A3 & A4 & A5 & A6 & e & A7); [lia|ring|exact EI|exact HZ|exact HT|].
  exists e, ks. cbv zeta. rewrite Z.mul_1_l in A7. subst M. destruct A2 as [R1 R2 R3 R4 R5]. split; [exact A3|]. split; [exact A4|]. split; [exact R2|]. split; [exact R3|]. split.
  - rewrite R1. assert (G : forall l, (forall k, In k l -> In k ks) -> Forall2 (fun k v => exists x, nth_error pos0 (fst k) = Some x /\ v = vadd x (vscale B (of_i (snd k)))) l (map (place B pos0) l)).
    { induction l as [|k l IH]; intros Hl; cbn; constructor; [|apply IH; intros; apply Hl; right; assumption]. destruct k as [i o]. pose proof (Hl _ (or_introl eq_refl)) as Ik. apply R3 in Ik.
      exists (nth i pos0 v0). split; [apply nth_error_nth'; apply Ik|reflexivity]. }
    apply G. auto.
  - intros j k E. symmetry. apply R5, E.
Qed.
Lemma c42_parent asort az c p m masses pos0 rows r : argsorts asort -> good_pt p -> length masses = length pos0 -> 0 < lc_box c ->
  snap_slabs asort az c p m masses pos0 = Ok (map Ok rows) -> In r (concat rows) ->
  exists x n, nth_error pos0 (r_index r) = Some x /\ nth_error masses (r_index r) = Some (r_mass r) /\ r_snap r = m_index m /\
    mkV (r_z r) (r_x r) (r_y r) = sky p (image (lc_box c) p x n).
Proof.
  intros Hs Hp Hm HB E Hr. destruct (c41 _ _ _ _ _ _ _ _ Hs Hp Hm HB E) as (keys & _ & HF & _). destruct (Forall2_in_l_ _ _ _ _ HF Hr) as (k & _ & P & (x & Ex & ->) & (R1 & R2 & R3 & _ & _ & _ & R7 & R8 & R9) & _).
  exists x, (snd k). rewrite R9. split; [exact Ex|]. split; [exact R7|]. split; [exact R8|]. rewrite R1, R2, R3. destruct (sky p _); reflexivity.
Qed.

(** ** Rotations *)
Lemma turn_rotation : rotation (fun u => mkV (vy u) (vz u) (vx u)).
Proof. split; [|split; [|split]]; intros; try apply vec_eq; unfold dot; cbn [vadd vscale cross vx vy vz]; ring. Qed.
Lemma c43 p : good_pt p -> rotation (sky p) /\ sky p (p_los p) = mkV 1 0 0 /\ (forall v, norm (sky p v) = norm v) /\
  rotation (rotate_prop p) /\ (forall v, norm (rotate_prop p v) = norm v) /\ (forall v, vz (rotate_prop p v) = dot (p_los p) v).
Proof.
  intros H. pose proof (sky_rotation p H) as HR. assert (HR2 : rotation (rotate_prop p)) by (apply (rotation_comp _ _ turn_rotation HR)).
  split; [exact HR|]. split; [apply sky_los, H|]. split; [intros; apply rotation_norm, HR|]. split; [exact HR2|]. split; [intros; apply rotation_norm, HR2|].
  intros v. unfold rotate_prop. cbn [vz]. apply (sky_vx p v H).
Qed.
(** for any line of sight, not only those with positive components, and any angle *)
Lemma c43_any l pa : dot l l = 1 -> (vx l <> 0 \/ vy l <> 0) -> rotation (fun v => mvec (pa_matrix pa) (mvec (los_matrix l) v)) /\ mvec (pa_matrix pa) (mvec (los_matrix l) l) = mkV 1 0 0.
Proof.
  intros H1 H2. assert (HU : upright l) by (split; assumption). split.
  - apply (rotation_comp (mvec (pa_matrix pa)) (mvec (los_matrix l))); apply orth_rotation; [apply pa_orth|apply los_orth, HU].
  - rewrite los_first by exact HU. unfold mvec, pa_matrix, dot. cbn [row1 row2 row3 vx vy vz]. apply vec_eq; cbn [vx vy vz]; ring.
Qed.

(** ** Flips *)
Lemma c59 box p x v n : good_pt p -> (sky p (image box p (vadd x v) n) = vadd (sky p (image box p x n)) (sky p v) <-> vmul v (p_flip p) = v).
Proof.
  intros H. pose proof (sky_rotation p H) as HR. destruct HR as (R1 & R2 & R3 & R4).
  assert (E : image box p (vadd x v) n = vadd (image box p x n) (vmul v (p_flip p))) by (unfold image; apply vec_eq; cbn [vadd vsub vmul vscale vx vy vz]; ring).
  rewrite E, R1. split; [|intros ->; reflexivity]. intros EE.
  assert (E2 : sky p (vmul v (p_flip p)) = sky p v).
  { destruct (sky p (image box p x n)) as [a1 a2 a3], (sky p (vmul v (p_flip p))) as [b1 b2 b3], (sky p v) as [c1 c2 c3]. unfold vadd in EE. cbn [vx vy vz] in EE. inversion EE. apply vec_eq; cbn [vx vy vz]; lra. }
  set (d := vadd (vmul v (p_flip p)) (vscale (-1) v)).
  assert (ED : sky p d = mkV 0 0 0) by (unfold d; rewrite R1, R2, E2; apply vec_eq; cbn [vadd vscale vx vy vz]; ring).
  assert (DD : dot d d = 0) by (rewrite <- R3, ED; unfold dot; cbn; ring).
  unfold dot in DD. pose proof (Rle_0_sqr (vx d)) as Q1. pose proof (Rle_0_sqr (vy d)) as Q2. pose proof (Rle_0_sqr (vz d)) as Q3. unfold Rsqr in *.
  assert (Z : vx d = 0 /\ vy d = 0 /\ vz d = 0) by (split; [|split]; apply Rsqr_0_uniq; unfold Rsqr; lra).
  unfold d in Z. cbn [vadd vscale vx vy vz] in Z. apply vec_eq; lra.
Qed.

(** ** Draws *)
Lemma c60 r box tmax copies draws : forall a b l, draw_los r box tmax copies a b draws = Some l ->
  exists pre v post, draws = pre ++ v :: post /\ l = los_unit v /\ test_geom r box tmax copies l = true /\
    (a = true \/ exists u, In u (pre ++ [v]) /\ test_a r u = true) /\ (b = true \/ exists u, In u (pre ++ [v]) /\ test_b r u = true).
Proof.
  induction draws as [|v rest IH]; intros a b l E; [discriminate|]. cbn [draw_los] in E.
  assert (Ext : forall a' b', draw_los r box tmax copies a' b' rest = Some l -> (a' = true -> a = true \/ test_a r v = true) -> (b' = true -> b = true \/ test_b r v = true) ->
    exists pre u post, v :: rest = pre ++ u :: post /\ l = los_unit u /\ test_geom r box tmax copies l = true /\
    (a = true \/ exists u', In u' (pre ++ [u]) /\ test_a r u' = true) /\ (b = true \/ exists u', In u' (pre ++ [u]) /\ test_b r u' = true)).
  { intros a' b' E' Ha Hb. destruct (IH a' b' l E') as (pre & u & post & -> & El & HG & H1 & H2). exists (v :: pre), u, post. split; [reflexivity|]. split; [exact El|]. split; [exact HG|]. split.
    - destruct H1 as [H1|(u' & I & H1)]; [|right; exists u'; split; [right; exact I|exact H1]]. destruct (Ha H1) as [H|H]; [left; exact H|right; exists v; split; [left; reflexivity|exact H]].
    - destruct H2 as [H2|(u' & I & H2)]; [|right; exists u'; split; [right; exact I|exact H2]]. destruct (Hb H2) as [H|H]; [left; exact H|right; exists v; split; [left; reflexivity|exact H]]. }
  destruct (a || test_a r v) eqn:EA; destruct (b || test_b r v) eqn:EB; cbn [andb] in E.
  - destruct (test_geom r box tmax copies (los_unit v)) eqn:EG.
    + inversion E; subst l. exists [], v, rest. split; [reflexivity|]. split; [reflexivity|]. split; [exact EG|]. apply orb_true_iff in EA, EB. split.
      * destruct EA; [left; assumption|right; exists v; split; [left; reflexivity|assumption]].
      * destruct EB; [left; assumption|right; exists v; split; [left; reflexivity|assumption]].
    + apply (Ext _ _ E); discriminate.
  - apply (Ext _ _ E); [|discriminate]. intros _. apply orb_true_iff, EA.
  - apply (Ext _ _ E); [discriminate|]. intros _. apply orb_true_iff, EB.
  - apply (Ext _ _ E); discriminate.
Qed.
Lemma c60_single r box tmax copies v l : draw_los r box tmax copies false false [v] = Some l ->
  l = los_unit v /\ test_a r v = true /\ test_b r v = true /\ test_geom r box tmax copies l = true.
Proof.
  cbn [draw_los orb]. destruct (test_a r v), (test_b r v); cbn [andb]; try discriminate. destruct (test_geom r box tmax copies (los_unit v)) eqn:E; [|discriminate]. intros H. inversion H; subst. auto.
Qed.
Definition odd1 : vec := mkV 1 1 100.
Definition odd2 : vec := mkV 1 100 1.
Lemma odd_norm : 100 <= norm odd2 <= 101.
Proof.
  unfold norm, dot, odd2. cbn [vx vy vz]. split; [|apply sq_le_sqrt; lra].
  assert (sqrt (100 * 100) <= sqrt (1 * 1 + 100 * 100 + 1 * 1)) by (apply sqrt_le_1_alt; lra). rewrite sqrt_square in H by lra. lra.
Qed.
Lemma odd_angle : 1 / 101 <= sin (min_angle (los_unit odd2)).
Proof.
  pose proof odd_norm as N. set (k := / norm odd2). assert (K : k <> 0) by (unfold k; apply Rinv_neq_0_compat; lra).
  assert (E : min_angle (los_unit odd2) = Rmin (atan 100) (Rmin (atan 1) (Rmin (atan (1 / 100)) (Rmin (atan (1 / 100)) (Rmin (atan 1) (atan 100)))))).
  { unfold min_angle, los_unit. fold k. unfold odd2. cbn [vscale vx vy vz]. repeat (f_equal; [f_equal; field; exact K|]). f_equal. field. exact K. }
  rewrite E. assert (A : forall x, 1 / 100 <= x -> atan (1 / 100) <= atan x) by (intros x [L|L]; [left; apply atan_increasing; exact L|subst; lra]).
  assert (M : atan (1 / 100) <= Rmin (atan 100) (Rmin (atan 1) (Rmin (atan (1 / 100)) (Rmin (atan (1 / 100)) (Rmin (atan 1) (atan 100)))))) by (repeat apply Rmin_glb; apply A; lra).
  assert (M2 : Rmin (atan 100) (Rmin (atan 1) (Rmin (atan (1 / 100)) (Rmin (atan (1 / 100)) (Rmin (atan 1) (atan 100))))) <= atan (1 / 100)).
  { eapply Rle_trans; [apply Rmin_r|]. eapply Rle_trans; [apply Rmin_r|]. apply Rmin_l. }
  replace (Rmin (atan 100) _) with (atan (1 / 100)) by lra. rewrite sin_atan.
  assert (S : sqrt (1 + Rsqr (1 / 100)) <= 101 / 100) by (apply sq_le_sqrt; unfold Rsqr; lra).
  assert (0 < sqrt (1 + Rsqr (1 / 100))) by (apply sqrt_lt_R0; unfold Rsqr; lra).
  apply Rmult_le_reg_r with (sqrt (1 + Rsqr (1 / 100))); [assumption|]. rewrite div_mul by lra. lra.
Qed.
Lemma c60_sticky : draw_los (1 / 50) 100 10 1 false false [odd1; odd2] = Some (los_unit odd2) /\ test_a (1 / 50) odd2 = false.
Proof.
  pose proof PI_4 as P4. pose proof PI2_3_2 as P3. unfold Rdiv in P3 at 1.
  assert (P0 : 1 / 60 < PI / 180 <= 1 / 45) by lra.
  assert (TS : forall x, 0 <= x <= 1 / 16 -> tan x < 1 / 12).
  { intros x H. eapply Rle_lt_trans; [apply tan_le_small; lra|]. apply Rmult_lt_reg_r with (1 - x ^ 2 / 2); [nra|]. rewrite div_mul by nra. nra. }
  assert (TL : forall x, 11 / 10 < x < PI / 2 -> 1 < tan x).
  { intros x H. assert (tan 1 < tan x) by (apply tan_increasing; lra). assert (1 <= tan 1) by (apply tan_ge; lra). lra. }
  assert (TG : forall x, 1 / 50 <= x <= 1 -> 1 / 50 <= tan x) by (intros x H; assert (x <= tan x) by (apply tan_ge; lra); lra).
  assert (A1 : test_a (1 / 50) odd1 = true).
  { unfold test_a, odd1. cbn [vx vy]. replace (1 / 1) with 1 by field. apply andb_true_iff. split; apply rltb_lt; [assert (tan (1 / 50 + PI / 180) < 1 / 12) by (apply TS; lra); lra|apply TL; lra]. }
  assert (B1 : test_b (1 / 50) odd1 = false).
  { unfold test_b, odd1. cbn [vx vz]. apply andb_false_iff. left. apply rltb_ge. assert (1 / 50 <= tan (3 * (1 / 50))) by (apply TG; lra). lra. }
  assert (A2 : test_a (1 / 50) odd2 = false).
  { unfold test_a, odd2. cbn [vx vy]. apply andb_false_iff. left. apply rltb_ge. assert (1 / 50 <= tan (1 / 50 + PI / 180)) by (apply TG; lra). lra. }
  assert (B2 : test_b (1 / 50) odd2 = true).
  { unfold test_b, odd2. cbn [vx vz]. replace (1 / 1) with 1 by field. apply andb_true_iff. split; apply rltb_lt; [assert (tan (3 * (1 / 50)) < 1 / 12) by (apply TS; lra); lra|apply TL; lra]. }
  split; [|exact A2]. cbn [draw_los]. rewrite A1, B1, B2. cbn [orb andb].
  assert (G : test_geom (1 / 50) 100 10 1 (los_unit odd2) = true); [|rewrite G; reflexivity].
  pose proof odd_norm as N. pose proof odd_angle as S.
  assert (T0 : 1 / 50 <= tan (1 / 50)) by (apply tan_ge; lra).
  assert (T : tan (1 / 50) <= 20005 / 1000000).
  { eapply Rle_trans; [apply tan_le_small; lra|]. apply Rmult_le_reg_r with (1 - (1 / 50) ^ 2 / 2); [lra|]. rewrite div_mul by lra. lra. }
  assert (BC : buffer_coef (1 / 50) (los_unit odd2) <= 21 / 10).
  { unfold buffer_coef. apply Rmult_le_reg_r with (sin (min_angle (los_unit odd2))); [lra|]. rewrite div_mul by lra. lra. }
  assert (VM : vmax (los_unit odd2) = 100 / norm odd2).
  { assert (0 < / norm odd2) by (apply Rinv_0_lt_compat; lra). unfold vmax, los_unit, vscale. cbn [vx vy vz]. set (K := / norm odd2) in *. change (vx odd2) with 1. change (vy odd2) with 100. change (vz odd2) with 1. rewrite (Rmax_left (K * 100)) by lra. rewrite Rmax_right by lra. unfold K. field. lra. }
  unfold test_geom. rewrite VM. apply rltb_lt. cbn [INR]. replace (100 / (100 / norm odd2)) with (norm odd2) by (field; lra). lra.
Qed.
