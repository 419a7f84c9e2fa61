(** Concrete light cones, for the statements that need one. *)
From Coq Require Import Reals Permutation Sorted.
From Verif Require Import Dict Util RealUtil SnapModel SnapSpec Snap FormatModel FormatSpec Format LcModel LcSpec Lc Lc2 Lc3 Lc4 Lc5 Lc6 Lc7 Lc8 Lc9 Lc10 Lc11 Lc12.
From Coq Require Import Lra Lia.
Open Scope string_scope.
Open Scope list_scope.
Open Scope R_scope.

(** ** A cone around the line of sight (6, 6, 7) / 11 with one halo on its axis *)
Definition diag : vec := mkV (6 / 11) (6 / 11) (7 / 11).
Definition diag_pt : pointing := mkPt (mkV 0 0 0) (mkV 1 1 1) diag (los_matrix diag) (pa_matrix 0) (buffer_coef (1 / 100) diag).
Definition diag_meta : meta := mkMeta 7 0 0 0 0 0 10 (101 / 10) 10 (101 / 10).
Definition diag_conf : lcconf := mkLC Circle (1 / 50) 1 0 100 1 10 (101 / 10) [diag_meta].
Definition diag_halo : vec := vscale (1005 / 100) diag.
Lemma diag_good : good_pt diag_pt.
Proof.
  unfold good_pt, diag_pt. cbn [p_flip p_los p_losm p_pam]. split; [unfold sign_vec; cbn; auto|]. split; [unfold dot, diag; cbn; field|].
  split; [cbn; lra|]. split; [cbn; lra|]. split; [cbn; lra|]. split; [reflexivity|]. exists 0. reflexivity.
Qed.
Lemma diag_radius : radius diag_conf = 1 / 100.
Proof. unfold radius, diag_conf; cbn [lc_mode lc_open]; field. Qed.
Lemma diag_start : d_start diag_conf diag_meta = 10.
Proof. unfold d_start; cbn [diag_conf diag_meta m_dmin lc_dmin]; apply Rmax_left; lra. Qed.
Lemma diag_end : d_end diag_conf diag_meta = 101 / 10.
Proof. unfold d_end; cbn [diag_conf diag_meta m_dmax lc_dmax]; apply Rmin_left; lra. Qed.
Lemma diag_balanced : balanced diag.
Proof. intros a b d I L. cbn in I. destruct I as [E|[E|[E|[E|[E|[E|[]]]]]]]; inversion E; subst; lra. Qed.
Lemma diag_wide : wide_enough diag_conf diag_pt diag_meta.
Proof.
  apply buffer_enough; [apply diag_good|rewrite diag_radius; reflexivity|rewrite diag_radius; lra|rewrite diag_end; cbn [diag_meta m_tdmax]; lra|apply diag_balanced].
Qed.
Lemma diag_sin : 1 / 2 <= sin (min_angle diag).
Proof.
  assert (A : forall x, 6 / 7 <= x -> atan (6 / 7) <= atan x) by (intros x [L|L]; [left; apply atan_increasing; exact L|subst; lra]).
  assert (M : atan (6 / 7) <= min_angle diag).
  { unfold min_angle, diag. cbn [vx vy vz]. repeat apply Rmin_glb; apply A; lra. }
  assert (M2 : min_angle diag <= atan 1).
  { unfold min_angle, diag. cbn [vx vy vz]. eapply Rle_trans; [apply Rmin_l|]. right. f_equal. field. }
  assert (E : 1 / 2 <= sin (atan (6 / 7))).
  { rewrite sin_atan. assert (S : sqrt (1 + Rsqr (6 / 7)) <= 14 / 10) by (apply sq_le_sqrt; unfold Rsqr; lra).
    assert (0 < sqrt (1 + Rsqr (6 / 7))) by (apply sqrt_lt_R0; unfold Rsqr; lra).
    apply Rmult_le_reg_r with (sqrt (1 + Rsqr (6 / 7))); [assumption|]. rewrite div_mul by lra. lra. }
  apply Rle_trans with (1 := E). destruct (atan_bound (6 / 7)) as [B1 B2]. destruct (atan_bound 1) as [B3 B4]. apply sin_incr_1; lra.
Qed.
Lemma diag_buf : 0 < buffer_coef (1 / 100) diag <= 1 / 10.
Proof.
  pose proof diag_sin as S. assert (T0 : 1 / 100 <= tan (1 / 100)) by (apply tan_ge; lra).
  assert (T : tan (1 / 100) <= 2 / 100).
  { eapply Rle_trans; [apply tan_le_small; lra|]. apply Rmult_le_reg_r with (1 - (1 / 100) ^ 2 / 2); [lra|]. rewrite div_mul by lra. lra. }
  unfold buffer_coef. split.
  - apply Rmult_lt_0_compat; [lra|]. apply Rinv_0_lt_compat. lra.
  - apply Rmult_le_reg_r with (sin (min_angle diag)); [lra|]. rewrite div_mul by lra. lra.
Qed.
Lemma diag_vmax : vmax diag = 7 / 11.
Proof. unfold vmax, diag. cbn [vx vy vz]. rewrite (Rmax_right (6 / 11) (7 / 11)) by lra. apply Rmax_right. lra. Qed.
Lemma diag_runs asort az masses pos0 : (forall d, exists z, az d = Ok z) -> exists rows, snap_slabs asort az diag_conf diag_pt diag_meta masses pos0 = Ok (map Ok rows) /\ length rows = 1%nat.
Proof.
  intros HA. pose proof diag_buf as B.
  assert (EB : buf_of diag_pt diag_meta = 101 / 10 * buffer_coef (1 / 100) diag) by reflexivity.
  apply snap_runs; [exact HA| |lia|].
  - rewrite EB. cbn [diag_conf diag_pt lc_box p_los]. rewrite diag_vmax. lra.
  - rewrite EB, diag_start, diag_end. cbn [diag_conf diag_pt lc_box p_los]. rewrite diag_vmax. set (X := 100 / (7 / 11) - 2 * (101 / 10 * buffer_coef (1 / 100) diag)).
    assert (HX : 100 < X) by (unfold X; lra). cbn [INR].
    split; [replace (1 - 1) with 0 by ring; apply Rmult_lt_0_compat; [lra|apply Rinv_0_lt_compat; lra]|].
    apply Rmult_le_reg_r with X; [lra|]. rewrite div_mul by lra. lra.
Qed.
Lemma diag_drawn : draw_los (radius diag_conf) (lc_box diag_conf) (m_tdmax diag_meta) (lc_copies diag_conf) false false [diag] = Some diag.
Proof.
  pose proof diag_buf as B. pose proof PI_4 as P4. pose proof PI2_3_2 as P3. unfold Rdiv in P3 at 1.
  assert (EU : los_unit diag = diag).
  { assert (N : norm diag = 1) by (unfold norm, dot, diag; cbn [vx vy vz]; transitivity (sqrt 1); [f_equal; field|apply sqrt_1]). unfold los_unit. rewrite N, Rinv_1. apply vec_eq; cbn [vscale vx vy vz]; ring. }
  cbn [draw_los]. rewrite EU, diag_radius.
  assert (P0 : 0 < PI / 180 <= 1 / 45) by lra.
  assert (TS : forall x, 0 <= x <= 1 / 16 -> tan x < 1 / 12).
  { intros x H. eapply Rle_lt_trans; [apply tan_le_small; lra|]. apply Rmult_lt_reg_r with (1 - x ^ 2 / 2); [nra|]. rewrite div_mul by nra. nra. }
  assert (TL : forall x, 11 / 10 < x < PI / 2 -> 1 < tan x).
  { intros x H. assert (tan 1 < tan x) by (apply tan_increasing; lra). assert (1 <= tan 1) by (apply tan_ge; lra). lra. }
  assert (TA : test_a (1 / 100) diag = true).
  { unfold test_a. cbn [diag vx vy]. replace (6 / 11 / (6 / 11)) with 1 by field. apply andb_true_iff. split; apply rltb_lt; [assert (tan (1 / 100 + PI / 180) < 1 / 12) by (apply TS; lra); lra|apply TL; lra]. }
  assert (TB : test_b (1 / 100) diag = true).
  { unfold test_b. cbn [diag vx vz]. replace (6 / 11 / (7 / 11)) with (6 / 7) by field. apply andb_true_iff. split; apply rltb_lt; [assert (tan (3 * (1 / 100)) < 1 / 12) by (apply TS; lra); lra|].
    assert (1 < tan (PI / 2 - 3 * (1 / 100))) by (apply TL; lra). lra. }
  assert (TG : test_geom (1 / 100) (lc_box diag_conf) (m_tdmax diag_meta) (lc_copies diag_conf) diag = true).
  { unfold test_geom. rewrite diag_vmax. apply rltb_lt. cbn [diag_conf lc_box lc_copies diag_meta m_tdmax INR]. lra. }
  rewrite TA, TB, TG. reflexivity.
Qed.
Lemma diag_seen : seen_at diag_conf diag_pt [diag_halo] (0%nat, mkI 0 0 0) diag_halo.
Proof. exists diag_halo. split; [reflexivity|]. apply vec_eq; unfold image; cbn [diag_pt p_flip p_start vadd vsub vmul vscale of_i ix iy iz vx vy vz snd]; ring. Qed.
Lemma diag_cone : in_cone diag_conf diag_pt diag_halo /\ d_start diag_conf diag_meta <= norm diag_halo < d_end diag_conf diag_meta.
Proof.
  pose proof diag_good as G. pose proof (sky_split diag_pt diag_halo G) as S.
  assert (D : dot (p_los diag_pt) diag_halo = 1005 / 100) by (unfold diag_pt, diag_halo, diag, dot, vscale; cbn [p_los vx vy vz]; field).
  assert (N : dot diag_halo diag_halo = (1005 / 100) ^ 2) by (unfold diag_halo, diag, dot, vscale; cbn [vx vy vz]; field).
  assert (NN : norm diag_halo ^ 2 = (1005 / 100) ^ 2) by (rewrite <- N, <- norm_sq; ring).
  pose proof (norm_ge diag_halo) as N0. assert (R : norm diag_halo = 1005 / 100) by nra.
  rewrite D, NN in S. split; [split|].
  - unfold in_opening. cbn [diag_conf lc_mode lc_open]. split; [lra|]. rewrite R. apply Rle_lt_trans with (1 / 100); [|lra]. apply sq_le_sqrt; nra.
  - rewrite D. lra.
  - rewrite diag_start, diag_end. lra.
Qed.
Lemma diag_row asort az mass rows : argsorts asort -> snap_slabs asort az diag_conf diag_pt diag_meta [mass] [diag_halo] = Ok (map Ok rows) -> exists r, In r (concat rows) /\ r_index r = 0%nat /\ r_mass r = mass.
Proof.
  intros Hs E. destruct (c41 asort az diag_conf diag_pt diag_meta [mass] [diag_halo] rows Hs diag_good eq_refl ltac:(cbn; lra) E) as (keys & _ & HF & _ & HC).
  specialize (HC diag_wide _ _ diag_seen (proj1 diag_cone) (proj2 diag_cone)). destruct (Forall2_in_r _ _ _ _ HF HC) as (r & Hr & P & _ & (_ & _ & _ & _ & _ & _ & R7 & _ & R9) & _).
  exists r. split; [exact Hr|]. split; [exact R9|]. cbn in R7. congruence.
Qed.
(** a built light cone *)
Definition toy_az (d : R) : exc R := Ok (d / (1 + Rabs d)).
Definition toy_mi (s : Z) : exc nat := Ok 1%nat.
Definition toy_sd (s : Z) : option (list R * list vec) := Some ([5], [diag_halo]).
Lemma toy_az_ok d z : 0 < d -> toy_az d = Ok z -> 0 < z <= 20 + 5 / 100.
Proof.
  intros H E. inversion E. rewrite Rabs_right by lra. split; [apply Rmult_lt_0_compat; [exact H|apply Rinv_0_lt_compat; lra]|].
  apply Rle_trans with 1; [|lra]. apply Rmult_le_reg_r with (1 + d); [lra|]. rewrite div_mul by lra. lra.
Qed.
Lemma toy_load : snap_load toy_mi toy_sd (lc_mass diag_conf) 7 = Ok ([5], [diag_halo]).
Proof.
  unfold snap_load, toy_sd, toy_mi. cbn [bind firstn]. unfold cut_index, where_ge. cbn [diag_conf lc_mass]. cbn [length seq filter nth map rev app].
  replace (rleb 0 5) with true by (symmetry; apply rleb_le; lra). reflexivity.
Qed.
Lemma toy_build w : exists w', build argsort0 toy_az toy_mi toy_sd diag_conf [diag_pt] w = (w', Ok tt).
Proof.
  unfold build. rewrite build_gen. destruct (diag_runs argsort0 toy_az [5] [diag_halo]) as (rows & E & L); [intros d; eexists; reflexivity|]. apply gen_runs.
  - intros m Hm. cbn in Hm. destruct Hm as [<-|[]]. unfold cone_F. change (m_index diag_meta) with 7%Z. rewrite toy_load. cbn [bind]. eexists. reflexivity.
  - intros p Hp. cbn in Hp. destruct Hp as [<-|[]]. exists [rows]. split.
    + constructor; [|constructor]. eexists. unfold cone_F. change (m_index diag_meta) with 7%Z. rewrite toy_load. cbn [bind fst snd]. split; [reflexivity|exact E].
    + cbn. destruct rows; [discriminate|]. cbn. discriminate.
Qed.

(** ** Keys given twice *)
Lemma insert_str_perm k l : Permutation (insert_str k l) (k :: l).
Proof. induction l as [|a l IH]; cbn; [reflexivity|]. destruct (String.leb k a); [reflexivity|]. rewrite IH. apply perm_swap. Qed.
Lemma sort_str_perm l : Permutation (sort_str l) l.
Proof. induction l as [|a l IH]; cbn; [constructor|]. rewrite insert_str_perm. constructor. exact IH. Qed.
Lemma add_keys_dup keys old all k a b : keys = a ++ k :: b -> In k b -> In k (add_keys keys old all) -> ~ NoDup (add_keys keys old all).
Proof.
  intros -> Hb Hk N. unfold add_keys in *. apply (Permutation_NoDup (sort_str_perm _)) in N. rewrite sort_str_in in Hk. apply filter_In in Hk. destruct Hk as [_ Hf].
  rewrite filter_app in N. cbn [filter] in N. rewrite Hf in N. apply NoDup_remove_2 in N. apply N. apply in_or_app. right. apply filter_In. split; assumption.
Qed.
Lemma c45_dup sv use n keys all w w' r f0 k a b : lexec w (add_steps sv use n keys all w) = (w', r) -> w 0%nat = Some f0 -> (0 < n)%nat -> grouped (lf_sim f0) use ->
  keys = a ++ k :: b -> In k b -> ~ In k pos_keys -> dget (lf_full f0) k = None -> In k all -> r <> Ok tt.
Proof.
  intros E E0 Hn HG EK Hb Hp Ho Ha ->. destruct (c45 _ _ _ _ _ _ _ _ E E0 0%nat f0 Hn E0 HG) as (f' & _ & _ & N). revert N. apply (add_keys_dup _ _ _ _ _ _ EK Hb). apply add_keys_in.
  split; [rewrite EK; apply in_or_app; right; left; reflexivity|]. split; [exact Hp|]. split; [|left; exact Ha]. intros I. apply dget_dkeys in I. destruct I as [v Ev]. congruence.
Qed.

(** ** A light cone without halos *)
Lemma c45_none sv use n keys all w w' r f0 i f k : lexec w (add_steps sv use n keys all w) = (w', r) -> w 0%nat = Some f0 -> (i < n)%nat -> w i = Some f -> lf_sim f = [] ->
  In k (add_keys keys (dkeys (lf_full f0)) all) -> r <> Ok tt.
Proof.
  intros E E0 Li Ef HS Hk ->. rewrite (add_steps_gen _ _ _ _ _ _ _ E0) in E. set (ks := add_keys keys (dkeys (lf_full f0)) all) in *.
  destruct (lexec_ok _ _ _ E) as [HP HF]. specialize (HP i). unfold gsteps in *. apply Forall_app in HF. destruct HF as [HF1 _].
  destruct (add_head_ok _ _ _ i HF1 Li) as (f1 & Ef1 & EH). rewrite Ef in Ef1. inversion Ef1; subst f1. rewrite ops_app, EH, Ef, HS in HP. destruct ks as [|k0 ks]; [destruct Hk|].
  cbn [map app length frun fop1 bind] in HP. destruct f as [fin st ex dn pt z b sm full]. cbn [lapply bind fop1 lf_full] in HP. rewrite Nat.ltb_irrefl, Bool.andb_false_r in HP. cbn [check bind] in HP. discriminate.
Qed.

(** ** add_properties after an interruption *)
Lemma c61_skip sv use n keys all w w' f0 k v : lexec w (add_steps sv use n keys all w) = (w', Ok tt) -> w 0%nat = Some f0 -> dget (lf_full f0) k = Some v ->
  forall i f, (i < n)%nat -> w i = Some f -> grouped (lf_sim f) use -> exists f', w' i = Some f' /\ lf_done f' = true /\ dget (lf_full f') k = dget (lf_full f) k.
Proof.
  intros E E0 Hk i f Li Ef HG. destruct (c45 _ _ _ _ _ _ _ _ E E0 i f Li Ef HG) as (f' & E' & (HA & _) & _). exists f'. split; [exact E'|]. destruct HA as (_ & _ & _ & _ & _ & _ & _ & HD & HO). split; [exact HD|].
  apply HO. rewrite add_keys_in. intros (_ & _ & H & _). apply H. apply dget_dkeys. exists v. exact Hk.
Qed.
Definition toy_sv (s : Z) (k : string) : exc (list R) := Ok [3].
Definition toy_use : list meta := [diag_meta].
Definition toy_row (z : R) : row := mkRow 0 0 10 0 0 z 5 7 0.
Lemma c61_lost p z : let w := fun i => if (i =? 0)%nat then Some (done_file p [toy_row z]) else None in
  exists w1 w2 f2, lexec w (firstn 2 (add_steps toy_sv toy_use 1 ["sfr"] ["sfr"] w)) = (w1, Ok tt) /\
    lexec w1 (add_steps toy_sv toy_use 1 ["sfr"] ["sfr"] w1) = (w2, Ok tt) /\ w2 0%nat = Some f2 /\ lf_done f2 = true /\ dget (lf_full f2) "sfr" = Some [0].
Proof.
  intros w. unfold w, done_file. cbn [map r_red toy_row]. generalize (red_tab red_edges [z]) as red. intros red.
  eexists. eexists. eexists. split; [reflexivity|]. split; [reflexivity|]. split; [reflexivity|]. split; reflexivity.
Qed.
Lemma toy_grouped p z : grouped (lf_sim (done_file p [toy_row z])) toy_use.
Proof. split; [cbn; constructor; [intros []|constructor]|]. exists [[0%nat]]. split; [repeat constructor|reflexivity]. Qed.
Lemma toy_add p z : let w := fun i => if (i =? 0)%nat then Some (done_file p [toy_row z]) else None in
  exists w1, lexec w (add_steps toy_sv toy_use 1 ["sfr"] ["sfr"] w) = (w1, Ok tt).
Proof. intros w. unfold w, done_file. generalize (red_tab red_edges (map r_red [toy_row z])) as red. intros red. eexists. reflexivity. Qed.
Lemma toy_add_none p z : let w := fun i : nat => if (i =? 0)%nat then Some (done_file p [toy_row z]) else Some (done_file p []) in
  exists w1, lexec w (add_steps toy_sv toy_use 2 ["sfr"] ["sfr"] w) = (w1, Raise ValueError) /\ w 1%nat = Some (done_file p []) /\ lf_sim (done_file p []) = [].
Proof.
  intros w. unfold w, done_file. generalize (red_tab red_edges (map r_red [toy_row z])) as red. generalize (red_tab red_edges (map r_red [])) as red0. intros red0 red.
  eexists. split; [reflexivity|]. split; reflexivity.
Qed.
Definition toy_vv (s : Z) (k : string) : exc (list vec) := Ok [mkV 1 2 3].
Lemma toy_addpos p z : let w := fun i => if (i =? 0)%nat then Some (done_file p [toy_row z]) else None in
  exists w1, lexec w (addpos_steps toy_vv toy_use 1 ["v"] ["v_x"; "v_y"; "v_z"] w) = (w1, Ok tt).
Proof. intros w. unfold w, done_file. generalize (red_tab red_edges (map r_red [toy_row z])) as red. intros red. destruct p. eexists. reflexivity. Qed.

(** ** A sphere larger than half the box *)
Definition big_meta : meta := mkMeta 0 0 0 0 0 0 0 70 0 70.
Definition big_conf : lcconf := mkLC Circle 0 1 0 100 1 0 70 [big_meta].
Definition big_pt : pointing := mkPt (mkV 0 0 0) (mkV 1 1 1) (mkV 1 0 0) (mkM (mkV 1 0 0) (mkV 0 1 0) (mkV 0 0 1)) (mkM (mkV 1 0 0) (mkV 0 1 0) (mkV 0 0 1)) 0.
Lemma big_bounds : d_start big_conf big_meta = 0 /\ d_end big_conf big_meta = 70.
Proof. split; [apply Rmax_left|apply Rmin_left]; cbn; lra. Qed.
Lemma rmod_small x b : 0 <= x < b -> rmod x b = x.
Proof.
  intros H. unfold rmod. assert (E : rfloor (x / b) = 0%Z).
  { apply rfloor_unique. split; [apply Rmult_le_pos; [lra|]; left; apply Rinv_0_lt_compat; lra|]. apply Rmult_lt_reg_r with b; [lra|]. rewrite div_mul by lra. lra. }
  rewrite E. ring.
Qed.
Lemma mapM_total {A B} (g : A -> exc B) l : (forall a, exists b, g a = Ok b) -> exists r, mapM g l = Ok r.
Proof. intros H. induction l as [|a l [r IH]]; [exists []; reflexivity|]. cbn [mapM]. destruct (H a) as [b ->]. cbn [bind]. rewrite IH. cbn [bind]. eexists. reflexivity. Qed.
Lemma sphere_runs asort az sk md box dmin dmax st fl m masses pos0 : (forall d, exists z, az d = Ok z) -> exists rows, sphere_rows asort az sk md box dmin dmax st fl m masses pos0 = Ok rows.
Proof. intros HA. unfold sphere_rows. apply mapM_total. intros i. cbv zeta. match goal with |- context [az ?d] => destruct (HA d) as [z ->] end. cbn [bind]. eexists. reflexivity. Qed.
Lemma c48_lost asort az sk mass : argsorts asort -> (forall d, exists z, az d = Ok z) ->
  sphere_check Sphere (100 / (7 / 10)) 70 = Ok tt /\
  exists rows, sphere_rows asort az sk Sphere (lc_box big_conf) (lc_dmin big_conf) (lc_dmax big_conf) (p_start big_pt) (p_flip big_pt) big_meta [mass] [mkV 65 0 0] = Ok rows /\
    seen_at big_conf big_pt [mkV 65 0 0] (0%nat, mkI 0 0 0) (mkV 65 0 0) /\ d_start big_conf big_meta <= norm (mkV 65 0 0) < d_end big_conf big_meta /\
    forall r, In r rows -> r_x r = -35.
Proof.
  intros Hs HA. destruct big_bounds as [B1 B2]. split.
  - unfold sphere_check, check. replace (rltb (100 / (7 / 10) / 2) 70) with false; [reflexivity|]. symmetry. apply rltb_ge. lra.
  - destruct (sphere_rows _ _ _ _ _ _ _ _ _ _ _ _) as [rows|e] eqn:E.
    + exists rows. split; [reflexivity|]. split; [|split].
      * exists (mkV 65 0 0). split; [reflexivity|]. apply vec_eq; unfold image; cbn [big_pt p_flip p_start vadd vsub vmul vscale of_i ix iy iz vx vy vz snd]; ring.
      * rewrite B1, B2. assert (N : norm (mkV 65 0 0) = 65) by (unfold norm, dot; cbn [vx vy vz]; transitivity (sqrt (65 * 65)); [f_equal; ring|apply sqrt_square; lra]). lra.
      * intros r Hr. unfold sphere_rows in E. apply mapM_fwd in E. destruct (Forall2_in_r _ _ _ _ E Hr) as (i & Hi & Er). apply pick_in, filter_In in Hi. destruct Hi as [Hi _].
        apply in_seq in Hi. cbn [length map] in Hi. assert (i = 0%nat) by lia. subst i. cbn [nth map] in Er. destruct (az _); cbn [bind] in Er; [|discriminate]. inversion Er as [E0]. cbn [r_x].
        cbn [sphere_place big_conf big_pt lc_box p_start p_flip vsub vadd vmul vmod vx].
        rewrite (rmod_small (65 * 1) 100) by lra. replace (65 * 1 - 0 + 100 / 2) with (15 + 100 * 1) by field. unfold rmod. replace (rfloor ((15 + 100 * 1) / 100)) with 1%Z by (symmetry; apply rfloor_unique; lra). lra.
    + exfalso. destruct (sphere_runs asort az sk Sphere (lc_box big_conf) (lc_dmin big_conf) (lc_dmax big_conf) (p_start big_pt) (p_flip big_pt) big_meta [mass] [mkV 65 0 0] HA) as [rs G]. rewrite G in E. discriminate.
Qed.

(** ** Light cones that start at the observer *)
Definition near_meta : meta := mkMeta 7 0 0 0 0 0 0 (101 / 10) 0 (101 / 10).
Definition near_conf : lcconf := mkLC Circle (1 / 50) 1 0 100 1 0 (101 / 10) [near_meta].
Definition near_s : R := 101 / 20 * buffer_coef (1 / 100) diag.
Definition near_halo : vec := vsub (mkV 100 100 100) (vscale near_s diag).
Lemma near_start : d_start near_conf near_meta = 0.
Proof. unfold d_start; cbn [near_conf near_meta m_dmin lc_dmin]; apply Rmax_left; lra. Qed.
Lemma near_end : d_end near_conf near_meta = 101 / 10.
Proof. unfold d_end; cbn [near_conf near_meta m_dmax lc_dmax]; apply Rmin_left; lra. Qed.
Lemma near_runs asort az masses pos0 : (forall d, exists z, az d = Ok z) -> exists rows, snap_slabs asort az near_conf diag_pt near_meta masses pos0 = Ok (map Ok rows) /\ length rows = 1%nat.
Proof.
  intros HA. pose proof diag_buf as B.
  assert (EB : buf_of diag_pt near_meta = 101 / 10 * buffer_coef (1 / 100) diag) by reflexivity.
  apply snap_runs; [exact HA| |lia|].
  - rewrite EB. cbn [near_conf diag_pt lc_box p_los]. rewrite diag_vmax. lra.
  - rewrite EB, near_start, near_end. cbn [near_conf diag_pt lc_box p_los]. rewrite diag_vmax. set (X := 100 / (7 / 11) - 2 * (101 / 10 * buffer_coef (1 / 100) diag)).
    assert (HX : 100 < X) by (unfold X; lra). cbn [INR].
    split; [replace (1 - 1) with 0 by ring; apply Rmult_lt_0_compat; [lra|apply Rinv_0_lt_compat; lra]|].
    apply Rmult_le_reg_r with X; [lra|]. rewrite div_mul by lra. lra.
Qed.
Lemma near_seen : seen_at near_conf diag_pt [near_halo] (0%nat, mkI (-1) (-1) (-1)) (vscale (- near_s) (p_los diag_pt)).
Proof. exists near_halo. split; [reflexivity|]. apply vec_eq; unfold image, near_halo; cbn [near_conf lc_box diag_pt p_los p_flip p_start vadd vsub vmul vscale of_i ix iy iz vx vy vz snd]; ring. Qed.
Lemma near_s_pos : 0 < near_s < m_tdmax near_meta * p_buf diag_pt /\ near_s < 101 / 10.
Proof. pose proof diag_buf as B. unfold near_s. cbn [near_meta m_tdmax diag_pt p_buf]. split; [split|]; lra. Qed.

Definition origin_sd (s : Z) : option (list R * list vec) := Some ([5], [mkV 0 0 0]).
Lemma origin_load : snap_load toy_mi origin_sd (lc_mass near_conf) 7 = Ok ([5], [mkV 0 0 0]).
Proof.
  unfold snap_load, origin_sd, toy_mi. cbn [bind firstn]. unfold cut_index, where_ge. cbn [near_conf lc_mass]. cbn [length seq filter nth map rev app].
  replace (rleb 0 5) with true by (symmetry; apply rleb_le; lra). reflexivity.
Qed.
Lemma norm_0 : norm (mkV 0 0 0) = 0.
Proof. unfold norm, dot. cbn [vx vy vz]. replace (0 * 0 + 0 * 0 + 0 * 0) with 0 by ring. apply sqrt_0. Qed.
Lemma origin_rows sk rows : sphere_rows argsort0 toy_az sk Sphere (lc_box near_conf) (lc_dmin near_conf) (lc_dmax near_conf) (p_start diag_pt) (p_flip diag_pt) near_meta [5] [mkV 0 0 0] = Ok rows ->
  exists r, In r rows /\ r_red r <= 0.
Proof.
  intros E. assert (HS : seen_at near_conf diag_pt [mkV 0 0 0] (0%nat, mkI 0 0 0) (mkV 0 0 0)).
  { exists (mkV 0 0 0). split; [reflexivity|]. apply vec_eq; unfold image; cbn [near_conf lc_box diag_pt p_los p_flip p_start vadd vsub vmul vscale of_i ix iy iz vx vy vz snd]; ring. }
  destruct (c48 argsort0 toy_az sk Sphere near_conf diag_pt near_meta [5] [mkV 0 0 0] rows argsort0_ok ltac:(cbn; lra) eq_refl ltac:(rewrite near_start; lra) ltac:(rewrite near_end; lra) E) as (keys & ND & HF & _ & HC).
  assert (HK : In (0%nat, mkI 0 0 0) keys).
  { apply (HC ltac:(rewrite near_end; unfold room; cbn [near_conf lc_box]; lra) _ _ HS); [exact I|]. rewrite near_start, near_end, norm_0. lra. }
  destruct (Forall2_in_r _ _ _ _ HF HK) as (r & Hr & P & HP & HB & _). exists r. split; [exact Hr|].
  assert (EP : P = mkV 0 0 0).
  { destruct HP as (x & Ex & ->). destruct HS as (y & Ey & ->). cbn [fst] in Ex, Ey. congruence. }
  subst P. destruct HB as (_ & _ & _ & _ & _ & HA & _). rewrite norm_0 in HA. unfold toy_az in HA. inversion HA. rewrite Rabs_R0. lra.
Qed.
Lemma origin_build sk w : exists w', lexec w (sphere_steps argsort0 toy_az sk toy_mi origin_sd Sphere near_conf [diag_pt]) = (w', Ok tt).
Proof.
  rewrite sphere_gen. destruct (sphere_runs argsort0 toy_az sk Sphere (lc_box near_conf) (lc_dmin near_conf) (lc_dmax near_conf) (p_start diag_pt) (p_flip diag_pt) near_meta [5] [mkV 0 0 0]) as [rows E]; [intros d; eexists; reflexivity|].
  apply gen_runs.
  - intros m Hm. cbn in Hm. destruct Hm as [<-|[]]. unfold ball_F. change (m_index near_meta) with 7%Z. rewrite origin_load. cbn [bind]. eexists. reflexivity.
  - intros p Hp. cbn in Hp. destruct Hp as [<-|[]]. exists [[rows]]. split.
    + constructor; [|constructor]. eexists. unfold ball_F. change (m_index near_meta) with 7%Z. rewrite origin_load. cbn [bind fst snd]. split; [reflexivity|]. cbv beta. rewrite E. reflexivity.
    + discriminate.
Qed.
Lemma c44_origin sk w w' : lexec w (sphere_steps argsort0 toy_az sk toy_mi origin_sd Sphere near_conf [diag_pt]) = (w', Ok tt) ->
  exists f rows, w' 0%nat = Some f /\ holds_rows f diag_pt rows /\ nth_error (lf_red f) 0 = Some (0, 0%nat) /\ count_le 0 (map r_red rows) <> 0%nat.
Proof.
  intros E. destruct (c44_first _ _ _ _ _ _ _ _ _ _ 0%nat diag_pt E eq_refl) as (f & rows & E1 & E2 & E3 & E4). exists f, rows. split; [exact E1|]. split; [exact E2|]. split; [exact E3|]. apply E4.
  destruct (proj1 (sphere_done _ _ _ _ _ _ _ _ _ _ E) 0%nat diag_pt eq_refl) as (f' & rows' & F1 & _ & F2 & F3). rewrite E1 in F1. inversion F1; subst f'.
  destruct F2 as (rss & -> & HF). inversion HF as [|m rs ? ? (ma & po & L & Hs) H2]; subst. inversion H2; subst. change (m_index near_meta) with 7%Z in L. rewrite origin_load in L. inversion L; subst.
  destruct (origin_rows _ _ Hs) as (r & Hr & Hz).
  assert (EQ : map r_red rows = map r_red (concat [rs])).
  { destruct E2 as (_ & _ & E2 & _). destruct F3 as (_ & _ & F3 & _). assert (I : In ("redshift", r_red) stored) by (cbn; auto 12). destruct (E2 _ _ I) as [A _]. destruct (F3 _ _ I) as [B _]. congruence. }
  assert (In (r_red r) (map r_red rows)) as HI by (rewrite EQ; apply in_map; cbn; rewrite app_nil_r; exact Hr). apply in_map_iff in HI. destruct HI as (r' & Er & Hr'). exists r'. split; [exact Hr'|lra].
Qed.

Definition toy_shell : meta := mkMeta 3 1 0 1 (/ 2) 1 0 1 0 1.
Definition toy_range (a b : R) : lcconf := mkLC Circle (1 / 50) 1 0 100 1 a b [].
Lemma toy_tiles : tiles toy 1 [toy_shell].
Proof.
  split; [intros i m m' H1 H2; destruct i as [|i]; cbn in H2; [discriminate|destruct i; discriminate]|]. split; [|split].
  - intros m H. inversion H; subst. cbn. repeat split; try lra; field.
  - intros m H. inversion H; subst. reflexivity.
  - intros m [<-|[]]. cbn. repeat split; try lra; try field.
Qed.
