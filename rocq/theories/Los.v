(** Lemmas about the search for a line of sight. *)
From Coq Require Import Reals Lra Lia.
From Verif Require Import Dict Util RealUtil SnapModel LcModel LosModel LosSpec.
Open Scope string_scope.
Open Scope list_scope.
Open Scope R_scope.

Lemma fold_max l : forall a, a <= fold_left Rmax l a /\ (forall x, In x l -> x <= fold_left Rmax l a) /\
  (fold_left Rmax l a = a \/ In (fold_left Rmax l a) l).
Proof.
  induction l as [|b l IH]; intros a; cbn [fold_left]; [split; [lra|]; split; [intros x []|now left]|].
  destruct (IH (Rmax a b)) as (A & B & C). split; [|split].
  - eapply Rle_trans; [apply Rmax_l|exact A].
  - intros x [->|I]; [eapply Rle_trans; [apply Rmax_r|exact A]|auto].
  - destruct C as [C|C]; [|right; now right]. rewrite C. destruct (Rle_dec a b).
    + right. left. symmetry. now apply Rmax_right.
    + left. apply Rmax_left. lra.
Qed.
Lemma amax_spec l t : amax l = Ok t <-> In t l /\ forall x, In x l -> x <= t.
Proof.
  destruct l as [|a l]; cbn; [split; [discriminate|intros [[] _]]|]. destruct (fold_max l a) as (A & B & C). split.
  - intros [= <-]. split; [destruct C as [->|C]; [now left|now right]|]. intros x [->|I]; auto.
  - intros [I M]. f_equal. apply Rle_antisym.
    + destruct C as [->|C]; apply M; [now left|now right].
    + destruct I as [->|I]; auto.
Qed.
Lemma search_spec c draws o : search c draws = Ok o <->
  exists t, farthest c t /\ o = draw_los (radius c) (lc_box c) t (lc_copies c) false false draws.
Proof.
  unfold search. destruct (amax (map m_tdmax (lc_use c))) as [t|e] eqn:E; cbn [bind].
  - apply amax_spec in E as [I M]. apply in_map_iff in I as (m & Em & Im).
    assert (F : farthest c t). { split; [eauto|]. intros m' I'. apply M, in_map, I'. }
    split; [intros [= <-]; eauto|]. intros (t' & [(m1 & I1 & E1) M1] & ->). repeat f_equal. destruct F as [_ F].
    apply Rle_antisym; [rewrite <- Em; auto|rewrite <- E1; auto].
  - split; [discriminate|]. intros (t & [(m & I & Em) M] & _).
    assert (X : amax (map m_tdmax (lc_use c)) = Ok t); [|congruence].
    apply amax_spec. split; [rewrite <- Em; apply in_map, I|]. intros x Ix. apply in_map_iff in Ix as (m' & <- & I'). auto.
Qed.

(** * Geometry of positive vectors *)
Lemma min_angle_quarter l : positive l -> 0 < min_angle l <= PI / 4.
Proof.
  intros (X & Y & Z). unfold min_angle.
  assert (P : forall a b, 0 < a -> 0 < b -> 0 < atan (a / b)).
  { intros a b A B. rewrite <- atan_0. apply atan_increasing, Rdiv_lt_0_compat; auto. }
  split; [repeat apply Rmin_glb_lt; auto|]. rewrite <- atan_1.
  destruct (Rle_dec (vy l) (vx l)).
  - eapply Rle_trans; [apply Rmin_l|]. destruct (Req_dec (vy l / vx l) 1) as [->|N]; [lra|]. left. apply atan_increasing.
    assert (vy l / vx l <= 1) by (apply Rmult_le_reg_r with (vx l); auto; unfold Rdiv; rewrite Rmult_assoc, Rinv_l by lra; lra). lra.
  - do 3 (eapply Rle_trans; [apply Rmin_r|]). eapply Rle_trans; [apply Rmin_l|]. left. apply atan_increasing.
    apply Rmult_lt_reg_r with (vy l); auto. unfold Rdiv. rewrite Rmult_assoc, Rinv_l by lra. lra.
Qed.
Lemma sin_quarter a : 0 < a <= PI / 4 -> 0 < sin a /\ sqrt 2 <= / sin a.
Proof.
  intros [A B]. pose proof PI_RGT_0. assert (S : 0 < sin a) by (apply sin_gt_0; lra). split; [exact S|].
  assert (L : sin a <= / sqrt 2).
  { replace (/ sqrt 2) with (sin (PI / 4)) by (rewrite sin_PI4; unfold Rdiv; ring).
    destruct B as [B| ->]; [left; apply sin_increasing_1; lra|lra]. }
  assert (Q : 0 < sqrt 2) by (apply sqrt_lt_R0; lra). rewrite <- (Rinv_inv (sqrt 2)). apply Rinv_le_contravar; auto.
Qed.
Lemma norm_pos v : positive v -> 0 < norm v.
Proof. intros (X & Y & Z). apply sqrt_lt_R0. unfold dot. nra. Qed.
Lemma unit_pos v : positive v -> positive (los_unit v) /\ dot (los_unit v) (los_unit v) = 1.
Proof.
  intros P. pose proof (norm_pos v P) as N. destruct P as (X & Y & Z).
  assert (I : 0 < / norm v) by now apply Rinv_0_lt_compat. split.
  - unfold positive, los_unit, vscale; cbn. repeat split; apply Rmult_lt_0_compat; auto.
  - unfold los_unit, vscale, dot; cbn. assert (E : norm v * norm v = vx v * vx v + vy v * vy v + vz v * vz v) by (apply sqrt_sqrt; unfold dot; nra).
    transitivity (/ norm v * / norm v * (vx v * vx v + vy v * vy v + vz v * vz v)); [ring|]. rewrite <- E. field. lra.
Qed.
Lemma vmax_unit l : positive l -> dot l l = 1 -> 0 < vmax l /\ / vmax l <= sqrt 3.
Proof.
  intros (X & Y & Z) D. unfold vmax.
  assert (A : vx l <= Rmax (vx l) (Rmax (vy l) (vz l))) by apply Rmax_l.
  assert (B : vy l <= Rmax (vx l) (Rmax (vy l) (vz l))) by (eapply Rle_trans; [apply Rmax_l|apply Rmax_r]).
  assert (C : vz l <= Rmax (vx l) (Rmax (vy l) (vz l))) by (eapply Rle_trans; [apply Rmax_r|apply Rmax_r]).
  set (m := Rmax _ _) in *. assert (M : 0 < m) by lra. split; [exact M|].
  unfold dot in D. assert (Q : 1 <= 3 * (m * m)) by nra.
  assert (S : 0 < sqrt 3) by (apply sqrt_lt_R0; lra). assert (S2 : sqrt 3 * sqrt 3 = 3) by (apply sqrt_sqrt; lra).
  apply Rmult_le_reg_r with m; auto. rewrite Rinv_l by lra. nra.
Qed.
Lemma tan_nonneg r : 0 <= r < PI / 2 -> 0 <= tan r.
Proof. intros [[A| <-] B]; [left; apply tan_gt_0; auto|rewrite tan_0; lra]. Qed.

Lemma geom_room r box tmax copies v : positive v -> 0 <= r < PI / 2 -> 0 <= box -> 0 <= tmax ->
  test_geom r box tmax copies (los_unit v) = true -> 10 < room r box tmax copies.
Proof.
  intros P Hr Hb Ht E. apply rltb_lt in E. destruct (unit_pos v P) as [U D]. set (l := los_unit v) in *.
  destruct (vmax_unit l U D) as [V1 V2]. destruct (sin_quarter _ (min_angle_quarter l U)) as [S1 S2].
  pose proof (tan_nonneg r Hr) as T. eapply Rlt_le_trans; [exact E|]. unfold room, buffer_coef.
  assert (C : 0 <= INR copies) by apply pos_INR.
  assert (L1 : INR copies * (box / vmax l) <= INR copies * box * sqrt 3).
  { rewrite Rmult_assoc. apply Rmult_le_compat_l; [exact C|]. unfold Rdiv. apply Rmult_le_compat_l; auto. }
  assert (L2 : 101 / 100 * tan r * sqrt 2 * tmax <= 101 / 100 * tan r / sin (min_angle l) * tmax).
  { apply Rmult_le_compat_r; [exact Ht|]. unfold Rdiv at 2. apply Rmult_le_compat_l; [lra|exact S2]. }
  lra.
Qed.
Lemma draw_geom r box tmax copies draws : (forall v, In v draws -> test_geom r box tmax copies (los_unit v) = false) ->
  forall a b, draw_los r box tmax copies a b draws = None.
Proof.
  induction draws as [|v draws IH]; intros H a b; [reflexivity|]. cbn [draw_los].
  destruct (_ && _); [rewrite H by now left|]; apply IH; intros; apply H; now right.
Qed.
Lemma small r box tmax copies draws : Forall positive draws -> 0 <= r < PI / 2 -> 0 <= box -> 0 <= tmax ->
  room r box tmax copies <= 10 -> draw_los r box tmax copies false false draws = None.
Proof.
  intros F Hr Hb Ht L. apply draw_geom. intros v I. rewrite Forall_forall in F.
  destruct (test_geom _ _ _ _ _) eqn:E; [|reflexivity]. apply geom_room in E; auto. lra.
Qed.

(** * Wide cones *)
Lemma test_b_wide r v : positive v -> PI / 12 <= r < PI / 3 -> test_b r v = false.
Proof.
  intros (X & Y & Z) [A B]. pose proof PI_RGT_0 as P. assert (T : 0 < vx v / vz v) by now apply Rdiv_lt_0_compat.
  unfold test_b. apply andb_false_iff. destruct (Rlt_dec r (PI / 6)) as [L|L].
  - destruct (Rle_dec (vx v / vz v) (tan (3 * r))) as [Q|Q]; [left; now apply rltb_ge|right]. apply rltb_ge.
    left. eapply Rle_lt_trans; [|apply Rnot_le_lt; exact Q].
    destruct (Req_dec (PI / 2 - 3 * r) (3 * r)) as [->|N]; [lra|]. left. apply tan_increasing; lra.
  - right. apply rltb_ge. assert (W : tan (PI / 2 - 3 * r) <= 0); [|lra].
    destruct (Req_dec (PI / 2 - 3 * r) 0) as [->|N]; [rewrite tan_0; lra|]. left. apply tan_lt_0; lra.
Qed.
Lemma draw_b r box tmax copies draws : (forall v, In v draws -> test_b r v = false) ->
  forall a, draw_los r box tmax copies a false draws = None.
Proof.
  induction draws as [|v draws IH]; intros H a; [reflexivity|]. cbn [draw_los]. rewrite (H v) by now left. cbn [orb].
  rewrite andb_false_r. apply IH. intros; apply H; now right.
Qed.
Lemma wide r box tmax copies draws : Forall positive draws -> PI / 12 <= r < PI / 3 ->
  draw_los r box tmax copies false false draws = None.
Proof. intros F H. apply draw_b. intros v I. rewrite Forall_forall in F. apply test_b_wide; auto. Qed.

(** * Cones that fit *)
Lemma diagonal r box tmax copies x : 0 < x -> 0 < r -> 3 * r + PI / 180 < PI / 4 -> 10 < room r box tmax copies ->
  let v := mkV x x x in
  test_a r v = true /\ test_b r v = true /\ test_geom r box tmax copies (los_unit v) = true.
Proof.
  intros X R0 R1 H v. pose proof PI_RGT_0 as P. assert (Q : x / x = 1) by (field; lra).
  assert (T1 : tan (PI / 4) = 1) by apply tan_PI4.
  assert (S3 : 0 < sqrt 3) by (apply sqrt_lt_R0; lra). assert (S2 : 0 < sqrt 2) by (apply sqrt_lt_R0; lra).
  split; [|split].
  - unfold test_a, v; cbn [vx vy]. rewrite Q, <- T1. apply andb_true_iff; split; apply rltb_lt, tan_increasing; lra.
  - unfold test_b, v; cbn [vx vz]. rewrite Q, <- T1. apply andb_true_iff; split; apply rltb_lt, tan_increasing; lra.
  - assert (N : norm v = x * sqrt 3).
    { unfold norm, dot, v; cbn. replace (x * x + x * x + x * x) with (x * x * 3) by ring.
      rewrite sqrt_mult, sqrt_square by nra. reflexivity. }
    assert (U : los_unit v = mkV (/ sqrt 3) (/ sqrt 3) (/ sqrt 3)).
    { unfold los_unit, vscale. rewrite N. cbn. f_equal; field; split; lra. }
    rewrite U. unfold test_geom, buffer_coef, min_angle, vmax; cbn [vx vy vz].
    replace (/ sqrt 3 / / sqrt 3) with 1 by (field; lra). 
    assert (RM : forall a, Rmin a a = a) by (intros; apply Rmin_left; lra).
    assert (RX : forall a, Rmax a a = a) by (intros; apply Rmax_left; lra). rewrite !RM, !RX, atan_1, sin_PI4.
    apply rltb_lt. unfold room in H. replace (box / / sqrt 3) with (box * sqrt 3) by (field; lra).
    replace (101 / 100 * tan r / (1 / sqrt 2)) with (101 / 100 * tan r * sqrt 2) by (field; lra). lra.
Qed.
Lemma draw_found r box tmax copies v : test_a r v = true -> test_b r v = true -> test_geom r box tmax copies (los_unit v) = true ->
  forall pre a b, exists l, draw_los r box tmax copies a b (pre ++ [v]) = Some l.
Proof.
  intros A B G. induction pre as [|u pre IH]; intros a b.
  - cbn [app draw_los]. rewrite A, B, !orb_true_r, G. cbn [andb]. eauto.
  - cbn [app draw_los]. destruct (_ && _); [destruct (test_geom _ _ _ _ (los_unit u)); [eauto|]|]; apply IH.
Qed.

(** * The constructor *)
Lemma init_spec mode openangle aspect zmin zmax mass ms td dist h box copies c :
  lc_init mode openangle aspect zmin zmax mass ms td dist h box copies = Ok c <->
  exists md zm, (mode = "box" /\ md = Box \/ mode = "circle" /\ md = Circle) /\ aspect <= 1 /\
    (zmax = Some zm \/ zmax = None /\ (exists m, In m ms /\ m_zmax m = zm) /\ forall m, In m ms -> m_zmax m <= zm) /\
    zmin <= zm /\ td zm * h * deg openangle <= box /\
    c = mkLC md (deg openangle) aspect mass box copies (dist zmin) (dist zm) (snapshots_use zmin zm ms).
Proof.
  unfold lc_init, mode_of, deg, check.
  destruct (String.eqb_spec mode "box") as [->|N1]; [|destruct (String.eqb_spec mode "circle") as [->|N2]]; cbn [bind];
  [| |split; [discriminate|intros (md & zm & [[E _]|[E _]] & _); congruence]].
  all: destruct (rltb 1 aspect) eqn:Ea; cbn [negb bind];
    [apply rltb_lt in Ea; split; [discriminate|intros (md & zm & _ & L & _); lra]|apply rltb_ge in Ea].
  all: assert (AM : forall zm, amax (map m_zmax ms) = Ok zm <-> (exists m, In m ms /\ m_zmax m = zm) /\ forall m, In m ms -> m_zmax m <= zm)
    by (intros zm; rewrite amax_spec, in_map_iff; split;
        [intros [(m & E & I) M]; split; [eauto|intros m' I'; apply M, in_map, I']
        |intros [(m & I & E) M]; split; [eauto|intros x Ix; apply in_map_iff in Ix as (m' & <- & I'); auto]]).
  all: destruct (match zmax with Some z => Ok z | None => amax (map m_zmax ms) end) as [zm|e] eqn:Ez; cbn [bind];
    [|split; [discriminate|intros (md & zm & _ & _ & [->|[-> Z]] & _); [discriminate|apply AM in Z; congruence]]].
  all: assert (ZU : forall z', (zmax = Some z' \/ zmax = None /\ (exists m, In m ms /\ m_zmax m = z') /\ forall m, In m ms -> m_zmax m <= z') <-> z' = zm)
    by (intros z'; destruct zmax as [z|];
        [injection Ez as <-; split; [intros [[= ->]|[? _]]; [reflexivity|discriminate]|intros ->; now left]
        |split; [intros [?|[_ Z]]; [discriminate|]; apply AM in Z; congruence|intros ->; right; split; [reflexivity|now apply AM]]]).
  all: destruct (rltb zm zmin) eqn:Er; cbn [negb bind];
    [apply rltb_lt in Er; split; [discriminate|intros (md & z' & _ & _ & Z & L & _); apply ZU in Z; subst; lra]|apply rltb_ge in Er].
  all: destruct (rltb box (td zm * h * (openangle * PI / 180))) eqn:Eb; cbn [negb bind];
    [apply rltb_lt in Eb; split; [discriminate|intros (md & z' & _ & _ & Z & _ & L & _); apply ZU in Z; subst; lra]|apply rltb_ge in Eb].
  all: split; [intros [= <-]; eexists _, zm; split; [auto|]; split; [lra|]; split; [now apply ZU|auto]
    |intros (md & z' & M & _ & Z & _ & _ & ->); apply ZU in Z; subst; destruct M as [[M ->]|[M ->]]; try discriminate; reflexivity].
Qed.
