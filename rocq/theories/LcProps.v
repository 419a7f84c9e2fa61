(** Light cones: C40 to C46, C48, C59, C60 and C61. The vocabulary is in LcSpec.v (and SnapSpec.v
    for cosmologies and the tiling of snapshots). *)
From Coq Require Import Reals Permutation Sorted.
From Verif Require Import Dict Util RealUtil SnapModel SnapSpec Snap FormatModel FormatSpec Format LcModel LcSpec Lc Lc2 Lc3 Lc4 Lc5 Lc6 Lc7 Lc8 Lc9 Lc10 Lc11 Lc12 Lc13.
From Coq Require Import Lra Lia.
Open Scope string_scope.
Open Scope list_scope.
Open Scope R_scope.

(** * C40: slabs tile the line of sight *)
(** the slabs of one snapshot: every distance of the snapshot's range is in exactly one, each
    halo of a slab is in its interval, and rows come in order of distance *)
Theorem C40_slabs_partial : forall asort az c p m masses pos0 rows, argsorts asort -> good_pt p -> length masses = length pos0 -> 0 < lc_box c ->
  snap_slabs asort az c p m masses pos0 = Ok (map Ok rows) ->
  let w := (d_end c m - d_start c m) / INR (length rows) in
  (forall D, d_start c m <= D < d_end c m -> exists! t, (t < length rows)%nat /\ d_start c m + INR t * w <= D < d_start c m + (INR t + 1) * w) /\
  (forall t rs r, nth_error rows t = Some rs -> In r rs -> d_start c m + INR t * w <= r_dist r < d_start c m + (INR t + 1) * w /\ d_start c m <= r_dist r < d_end c m) /\
  StronglySorted (fun a b => r_dist a <= r_dist b) (concat rows).
Proof. exact c40. Qed.
Print Assumptions C40_slabs_partial.
Example C40_slabs_partial_nonvacuous : exists rows, snap_slabs argsort0 toy_az diag_conf diag_pt diag_meta [5] [diag_halo] = Ok (map Ok rows) /\
  argsorts argsort0 /\ good_pt diag_pt /\ d_start diag_conf diag_meta < d_end diag_conf diag_meta /\ exists r, In r (concat rows).
Proof.
  destruct (diag_runs argsort0 toy_az [5] [diag_halo]) as (rows & E & _); [intros d; eexists; reflexivity|]. exists rows. split; [exact E|]. split; [exact argsort0_ok|]. split; [exact diag_good|].
  split; [rewrite diag_start, diag_end; lra|]. destruct (diag_row argsort0 toy_az 5 rows argsort0_ok E) as (r & Hr & _). exists r. exact Hr.
Qed.

(** the snapshots in use: if those of the simulation tile the distances, every distance of the
    light cone belongs to exactly one snapshot in use *)
Theorem C40_snapshots_partial : forall C h ms zmin zmax c f D, good_cosmo C -> 0 < h -> tiles C h ms -> (forall m, In m ms -> 0 <= m_zmin m) -> 0 <= zmin -> 0 <= zmax ->
  lc_dmin c = cdist C zmin * h /\ lc_dmax c = cdist C zmax * h -> nth_error ms 0 = Some f -> lc_dmin c <= D < lc_dmax c -> 0 <= D < m_dmax f ->
  exists! m, In m (snapshots_use zmin zmax ms) /\ d_start c m <= D < d_end c m.
Proof. exact c40_shells. Qed.
Print Assumptions C40_snapshots_partial.
Example C40_snapshots_partial_nonvacuous : good_cosmo toy /\ tiles toy 1 [toy_shell] /\ (forall m, In m [toy_shell] -> 0 <= m_zmin m) /\
  lc_dmin (toy_range (1 / 4) (1 / 2)) = cdist toy (1 / 4) * 1 /\ lc_dmax (toy_range (1 / 4) (1 / 2)) = cdist toy (1 / 2) * 1 /\ 1 / 4 <= 1 / 3 < 1 / 2 /\ 0 <= 1 / 3 < m_dmax toy_shell.
Proof. split; [exact toy_good|]. split; [exact toy_tiles|]. split; [intros m [<-|[]]; cbn; lra|]. cbn. repeat split; lra. Qed.

(** what is missing: a snapshot that only touches the redshift range is in use, and the build fails *)
Theorem C40_boundary_refuted : forall C h ms zmin zmax c m asort az p masses pos0, good_cosmo C -> 0 < h -> tiles C h ms -> 0 <= zmin <= zmax ->
  lc_dmin c = cdist C zmin * h /\ lc_dmax c = cdist C zmax * h ->
  In m ms -> 0 <= m_zmin m -> m_zmin m = zmax \/ m_zmax m = zmin ->
  In m (snapshots_use zmin zmax ms) /\ snap_slabs asort az c p m masses pos0 = Raise ValueError.
Proof. exact c40_boundary. Qed.
Print Assumptions C40_boundary_refuted.
Example C40_boundary_refuted_nonvacuous : good_cosmo toy /\ tiles toy 1 [toy_shell] /\ m_zmax toy_shell = 1 /\ 
  lc_dmin (toy_range 1 2) = cdist toy 1 * 1 /\ lc_dmax (toy_range 1 2) = cdist toy 2 * 1.
Proof. split; [exact toy_good|]. split; [exact toy_tiles|]. split; [reflexivity|]. cbn. split; lra. Qed.

(** * C41: which halos are in the cone *)
(** each written row is one periodic image of one halo, with its coordinates, angles, redshift and
    mass; no image is written twice; written images have the distance and the angles asked for;
    they are in front of the observer if the slab starts beyond the buffer; and every image
    inside the cone is written if the buffer is wide enough *)
Theorem C41_partial : forall asort az c p m masses pos0 rows, argsorts asort -> good_pt p -> length masses = length pos0 -> 0 < lc_box c ->
  snap_slabs asort az c p m masses pos0 = Ok (map Ok rows) -> exists keys, NoDup keys /\
  Forall2 (fun r k => exists P, seen_at c p pos0 k P /\ row_at az p masses (m_index m) (fst k) P r /\
                                in_opening c p P /\ d_start c m <= norm P < d_end c m) (concat rows) keys /\
  (0 <= radius c < 1 -> m_tdmax m * p_buf p <= d_start c m -> forall k P, In k keys -> seen_at c p pos0 k P -> in_cone c p P) /\
  (wide_enough c p m -> forall k P, seen_at c p pos0 k P -> in_cone c p P -> d_start c m <= norm P < d_end c m -> In k keys).
Proof. exact c41. Qed.
Print Assumptions C41_partial.
Example C41_partial_nonvacuous : exists rows, snap_slabs argsort0 toy_az diag_conf diag_pt diag_meta [5] [diag_halo] = Ok (map Ok rows) /\
  good_pt diag_pt /\ wide_enough diag_conf diag_pt diag_meta /\ in_cone diag_conf diag_pt diag_halo /\ d_start diag_conf diag_meta <= norm diag_halo < d_end diag_conf diag_meta /\
  seen_at diag_conf diag_pt [diag_halo] (0%nat, mkI 0 0 0) diag_halo.
Proof.
  destruct (diag_runs argsort0 toy_az [5] [diag_halo]) as (rows & E & _); [intros d; eexists; reflexivity|]. exists rows. split; [exact E|]. split; [exact diag_good|]. split; [exact diag_wide|].
  split; [apply diag_cone|]. split; [apply diag_cone|exact diag_seen].
Qed.

(** the buffer is wide enough for narrow cones (radius up to 0.01) whose line of sight is not much
    closer to one side of the box than to another *)
Theorem C41_buffer_partial : forall c p m, good_pt p -> p_buf p = buffer_coef (radius c) (p_los p) -> 0 <= radius c <= 1 / 100 ->
  0 <= d_end c m <= m_tdmax m -> balanced (p_los p) -> wide_enough c p m.
Proof. exact buffer_enough. Qed.
Print Assumptions C41_buffer_partial.
Example C41_buffer_partial_nonvacuous : good_pt diag_pt /\ radius diag_conf = 1 / 100 /\ balanced diag /\
  draw_los (radius diag_conf) (lc_box diag_conf) (m_tdmax diag_meta) (lc_copies diag_conf) false false [diag] = Some diag.
Proof. split; [exact diag_good|]. split; [exact diag_radius|]. split; [exact diag_balanced|exact diag_drawn]. Qed.

(** but not in general: a line of sight the code accepts, with the buffer the code computes, and a
    halo inside the cone and the distance range that is not written *)
Theorem C41_buffer_refuted : forall asort az masses, argsorts asort -> (forall d, exists z, az d = Ok z) -> length masses = 1%nat ->
  exists c p m x, draw_los (radius c) (lc_box c) (m_tdmax m) (lc_copies c) false false [p_los p] = Some (p_los p) /\ good_pt p /\
    p_buf p = buffer_coef (radius c) (p_los p) /\ seen_at c p [x] (0%nat, mkI 0 0 0) x /\ in_cone c p x /\ d_start c m <= norm x < d_end c m /\
    exists rows, snap_slabs asort az c p m masses [x] = Ok (map Ok rows) /\ concat rows = [].
Proof.
  intros asort az masses H1 H2 H3. exists slim_conf, slim_pt, slim_meta, slim_halo. split; [exact slim_drawn|]. split; [exact slim_good|].
  split; [cbn [slim_pt p_buf p_los]; f_equal; unfold radius, slim_conf; cbn [lc_mode lc_open]; field|].
  split; [exists slim_halo; split; [reflexivity|]; apply vec_eq; unfold image; cbn [slim_pt p_flip p_start vadd vsub vmul vscale of_i ix iy iz vx vy vz snd]; ring|].
  split; [apply slim_cone|]. split; [apply slim_cone|]. exact (c41_slim asort az masses H1 H2 H3).
Qed.
Print Assumptions C41_buffer_refuted.

(** and a light cone that starts at the observer also has halos behind them *)
Theorem C41_behind_refuted : forall asort az c p m masses pos0 rows k s, argsorts asort -> good_pt p -> length masses = length pos0 -> 0 < lc_box c ->
  snap_slabs asort az c p m masses pos0 = Ok (map Ok rows) -> 0 < lc_open c -> 0 <= lc_aspect c ->
  d_start c m = 0 -> 0 < s < m_tdmax m * p_buf p -> s < (d_end c m - d_start c m) / INR (length rows) ->
  seen_at c p pos0 k (vscale (- s) (p_los p)) -> exists r, In r (concat rows) /\ r_x r = 0 /\ r_y r = 0 /\ r_z r = - s /\ r_index r = fst k.
Proof. exact c41_behind. Qed.
Print Assumptions C41_behind_refuted.
Example C41_behind_refuted_nonvacuous : exists rows, snap_slabs argsort0 toy_az near_conf diag_pt near_meta [5] [near_halo] = Ok (map Ok rows) /\ good_pt diag_pt /\
  d_start near_conf near_meta = 0 /\ 0 < near_s < m_tdmax near_meta * p_buf diag_pt /\ near_s < (d_end near_conf near_meta - d_start near_conf near_meta) / INR (length rows) /\
  seen_at near_conf diag_pt [near_halo] (0%nat, mkI (-1) (-1) (-1)) (vscale (- near_s) (p_los diag_pt)).
Proof.
  destruct (near_runs argsort0 toy_az [5] [near_halo]) as (rows & E & L); [intros d; eexists; reflexivity|]. exists rows. split; [exact E|]. split; [exact diag_good|]. split; [exact near_start|].
  split; [apply near_s_pos|]. split; [|exact near_seen]. rewrite L, near_start, near_end. cbn [INR]. pose proof near_s_pos. lra.
Qed.

(** * C42: replication *)
(** the replicated box has 2^e copies along each side, each image exactly once, and the position
    of a copy in the list gives the halo it was copied from *)
Theorem C42_replication : forall fuel cm use buf inbox vm B pos0 it0 it pos box, inbox = B / vm -> ceil_div use (inbox - 2 * buf) = Ok it0 ->
  expand fuel cm 1 use buf inbox B it0 pos0 = Ok (it, pos, box) ->
  exists e ks, let M := (2 ^ Z.of_nat e)%Z in box = B * IZR M /\ (1 <= it)%Z /\ NoDup ks /\
    (forall i o, In (i, o) ks <-> (i < length pos0)%nat /\ (0 <= ix o < M)%Z /\ (0 <= iy o < M)%Z /\ (0 <= iz o < M)%Z) /\
    Forall2 (fun k v => exists x, nth_error pos0 (fst k) = Some x /\ v = vadd x (vscale B (of_i (snd k)))) ks pos /\
    (forall j k, nth_error ks j = Some k -> (j mod length pos0)%nat = fst k).
Proof. exact c42. Qed.
Print Assumptions C42_replication.
(** a cone 50 boxes deep is built from a doubled box *)
Example C42_replication_nonvacuous : exists it pos box, ceil_div 5000 (100 / 1 - 2 * 0) = Ok 50%Z /\ expand 2 2 1 5000 0 (100 / 1) 100 50 [mkV 1 2 3] = Ok (it, pos, box) /\ length pos = 8%nat /\ box = 2 * 100.
Proof.
  assert (E1 : ceil_div 5000 (100 / 1 - 2 * 0) = Ok 50%Z).
  { unfold ceil_div. rewrite (proj2 (reqb_ne (100 / 1 - 2 * 0) 0)) by lra. f_equal. apply rceil_unique. replace (5000 / (100 / 1 - 2 * 0)) with 50 by field. lra. }
  assert (E2 : ceil_div 5000 (2 * (100 / 1) - 2 * 0) = Ok 25%Z).
  { unfold ceil_div. rewrite (proj2 (reqb_ne (2 * (100 / 1) - 2 * 0) 0)) by lra. f_equal. apply rceil_unique. replace (5000 / (2 * (100 / 1) - 2 * 0)) with 25 by field. lra. }
  eexists. eexists. eexists. split; [exact E1|]. cbn [expand Z.ltb Z.leb Z.compare Pos.compare Pos.compare_cont orb Nat.ltb Nat.leb]. rewrite E2. cbn [bind expand Z.ltb Z.leb Z.compare Pos.compare Pos.compare_cont orb].
  split; [reflexivity|]. split; reflexivity.
Qed.

(** the halo recorded with a row is the one it is an image of, with its mass *)
Theorem C42_parents : forall asort az c p m masses pos0 rows r, argsorts asort -> good_pt p -> length masses = length pos0 -> 0 < lc_box c ->
  snap_slabs asort az c p m masses pos0 = Ok (map Ok rows) -> In r (concat rows) ->
  exists x n, nth_error pos0 (r_index r) = Some x /\ nth_error masses (r_index r) = Some (r_mass r) /\ r_snap r = m_index m /\
    mkV (r_z r) (r_x r) (r_y r) = sky p (image (lc_box c) p x n).
Proof. exact c42_parent. Qed.
Print Assumptions C42_parents.
Example C42_parents_nonvacuous : exists rows r, snap_slabs argsort0 toy_az diag_conf diag_pt diag_meta [5] [diag_halo] = Ok (map Ok rows) /\ In r (concat rows) /\ r_index r = 0%nat.
Proof.
  destruct (diag_runs argsort0 toy_az [5] [diag_halo]) as (rows & E & _); [intros d; eexists; reflexivity|]. destruct (diag_row argsort0 toy_az 5 rows argsort0_ok E) as (r & Hr & Hi & _).
  exists rows, r. auto.
Qed.

(** * C43: rotations *)
(** the change of coordinates is a rotation (linear, keeps scalar and vector products) that
    takes the line of sight to the first axis, for positions and for added vectors *)
Theorem C43_rotation : forall p, good_pt p -> rotation (sky p) /\ sky p (p_los p) = mkV 1 0 0 /\ (forall v, norm (sky p v) = norm v) /\
  rotation (rotate_prop p) /\ (forall v, norm (rotate_prop p v) = norm v) /\ (forall v, vz (rotate_prop p v) = dot (p_los p) v).
Proof. exact c43. Qed.
Print Assumptions C43_rotation.
Example C43_rotation_nonvacuous : good_pt diag_pt.
Proof. exact diag_good. Qed.
(** for every line of sight not along the third axis, and every position angle *)
Theorem C43_every : forall l pa, dot l l = 1 -> (vx l <> 0 \/ vy l <> 0) ->
  rotation (fun v => mvec (pa_matrix pa) (mvec (los_matrix l) v)) /\ mvec (pa_matrix pa) (mvec (los_matrix l) l) = mkV 1 0 0.
Proof. exact c43_any. Qed.
Print Assumptions C43_every.
Example C43_every_nonvacuous : dot (mkV (-3 / 5) 0 (4 / 5)) (mkV (-3 / 5) 0 (4 / 5)) = 1 /\ (vx (mkV (-3 / 5) 0 (4 / 5)) <> 0 \/ vy (mkV (-3 / 5) 0 (4 / 5)) <> 0).
Proof. split; [unfold dot; cbn; field|left; cbn; lra]. Qed.

(** * C44: the redshift table *)
(** after a build, if halo redshifts are above 0 and at most 20.05: every entry counts the halos
    at or below its edge, edges grow, counts do not fall, and the last count is the number of halos *)
Theorem C44_partial : forall asort az mi sd c pts w w' i p, (forall d z, 0 < d -> az d = Ok z -> 0 < z <= 20 + 5 / 100) ->
  build asort az mi sd c pts w = (w', Ok tt) -> nth_error pts i = Some p ->
  exists f rows, w' i = Some f /\ holds_rows f p rows /\ length (lf_red f) = 100%nat /\
    (forall j e n, nth_error (lf_red f) j = Some (e, n) -> n = count_le e (map r_red rows)) /\
    (forall j k ej nj ek nk, (j < k)%nat -> nth_error (lf_red f) j = Some (ej, nj) -> nth_error (lf_red f) k = Some (ek, nk) -> ej < ek /\ (nj <= nk)%nat) /\
    (exists e, nth_error (lf_red f) 99 = Some (e, length rows)).
Proof. exact c44. Qed.
Print Assumptions C44_partial.
Example C44_partial_nonvacuous : exists w', build argsort0 toy_az toy_mi toy_sd diag_conf [diag_pt] (fun _ => None) = (w', Ok tt) /\ (forall d z, 0 < d -> toy_az d = Ok z -> 0 < z <= 20 + 5 / 100).
Proof. destruct (toy_build (fun _ => None)) as [w' E]. exists w'. split; [exact E|exact toy_az_ok]. Qed.
(** what is missing: the first entry of the table is never counted. In the spherical modes, a
    halo at the observer is at redshift 0, and the entry for edge 0 is wrong *)
Theorem C44_first_refuted : forall sk, exists asort az mi sd c p w', lexec (fun _ => None) (sphere_steps asort az sk mi sd Sphere c [p]) = (w', Ok tt) /\
  exists f rows, w' 0%nat = Some f /\ holds_rows f p rows /\ nth_error (lf_red f) 0 = Some (0, 0%nat) /\ count_le 0 (map r_red rows) <> 0%nat.
Proof.
  intros sk. destruct (origin_build sk (fun _ => None)) as [w' E]. exists argsort0, toy_az, toy_mi, origin_sd, near_conf, diag_pt, w'. split; [exact E|]. exact (c44_origin _ _ _ E).
Qed.
Print Assumptions C44_first_refuted.

(** * C45: added properties *)
(** add_properties writes, for each key that is accepted (known, not a vector component, and not in
    light cone 0 yet), the value of the halo of row r to row r, in every light cone, and
    changes nothing else *)
Theorem C45_added : forall sv use n keys all w w' f0, lexec w (add_steps sv use n keys all w) = (w', Ok tt) -> w 0%nat = Some f0 ->
  exists ks, (forall k, In k ks <-> In k keys /\ ~ In k pos_keys /\ ~ In k (dkeys (lf_full f0)) /\ (In k all \/ k = "masscheck")) /\
  forall i f, (i < n)%nat -> w i = Some f -> grouped (lf_sim f) use -> exists f', w' i = Some f' /\ added sv ks f f'.
Proof.
  intros sv use n keys all w w' f0 E E0. exists (add_keys keys (dkeys (lf_full f0)) all). split; [apply add_keys_in|].
  intros i f Li Ef HG. destruct (c45 _ _ _ _ _ _ _ _ E E0 i f Li Ef HG) as (f' & E' & HA & _). exists f'. split; assumption.
Qed.
Print Assumptions C45_added.
Example C45_added_nonvacuous : exists w w' f0, lexec w (add_steps toy_sv toy_use 1 ["sfr"] ["sfr"] w) = (w', Ok tt) /\ w 0%nat = Some f0 /\ grouped (lf_sim f0) toy_use /\
  holds_rows f0 diag_pt [toy_row 1] /\ ~ In "sfr" pos_keys /\ ~ In "sfr" (dkeys (lf_full f0)).
Proof.
  destruct (toy_add diag_pt 1) as [w1 E]. exists (fun i => if (i =? 0)%nat then Some (done_file diag_pt [toy_row 1]) else None), w1, (done_file diag_pt [toy_row 1]).
  split; [exact E|]. split; [reflexivity|]. split; [apply toy_grouped|]. split; [apply done_holds|]. split; intros H; cbn in H; repeat (destruct H as [H|H]; [discriminate|]); destruct H.
Qed.
(** add_pos_properties does the same with vectors, in the coordinates of the light cone *)
Theorem C45_vectors : forall sv use n keys all w w' f0, lexec w (addpos_steps sv use n keys all w) = (w', Ok tt) -> w 0%nat = Some f0 -> use <> [] ->
  forall i f, (i < n)%nat -> w i = Some f -> grouped (lf_sim f) use -> exists f', w' i = Some f' /\ added_vectors sv (addpos_keys keys (dkeys (lf_full f0)) all) f f'.
Proof. exact c45_vectors. Qed.
Print Assumptions C45_vectors.
Example C45_vectors_nonvacuous : exists w w' f0, lexec w (addpos_steps toy_vv toy_use 1 ["v"] ["v_x"; "v_y"; "v_z"] w) = (w', Ok tt) /\ w 0%nat = Some f0 /\ toy_use <> [] /\ grouped (lf_sim f0) toy_use /\
  addpos_keys ["v"] (dkeys (lf_full f0)) ["v_x"; "v_y"; "v_z"] = ["v"].
Proof.
  destruct (toy_addpos diag_pt 1) as [w1 E]. exists (fun i => if (i =? 0)%nat then Some (done_file diag_pt [toy_row 1]) else None), w1, (done_file diag_pt [toy_row 1]).
  split; [exact E|]. split; [reflexivity|]. split; [discriminate|]. split; [apply toy_grouped|reflexivity].
Qed.
(** light cones that were built have the rows of each snapshot together, as the theorems above need *)
Theorem C45_built : forall asort az mi sd c pts w w' i p, NoDup (map m_index (lc_use c)) -> build asort az mi sd c pts w = (w', Ok tt) -> nth_error pts i = Some p ->
  exists f, w' i = Some f /\ grouped (lf_sim f) (lc_use c).
Proof. exact built_grouped. Qed.
Print Assumptions C45_built.
Example C45_built_nonvacuous : exists w', build argsort0 toy_az toy_mi toy_sd diag_conf [diag_pt] (fun _ => None) = (w', Ok tt) /\ NoDup (map m_index (lc_use diag_conf)).
Proof. destruct (toy_build (fun _ => None)) as [w' E]. exists w'. split; [exact E|]. cbn. constructor; [intros []|constructor]. Qed.
(** a key given twice in one call is accepted twice, and the call always fails *)
Theorem C45_twice : forall sv use n keys all w w' r f0 k a b, lexec w (add_steps sv use n keys all w) = (w', r) -> w 0%nat = Some f0 -> (0 < n)%nat -> grouped (lf_sim f0) use ->
  keys = a ++ k :: b -> In k b -> ~ In k pos_keys -> dget (lf_full f0) k = None -> In k all -> r <> Ok tt.
Proof. exact c45_dup. Qed.
Print Assumptions C45_twice.
Example C45_twice_nonvacuous : let f0 := done_file diag_pt [toy_row 1] in grouped (lf_sim f0) toy_use /\ ~ In "sfr" pos_keys /\ dget (lf_full f0) "sfr" = None /\ ["sfr"; "sfr"] = [] ++ "sfr" :: ["sfr"].
Proof. split; [apply toy_grouped|]. split; [intros H; cbn in H; repeat (destruct H as [H|H]; [discriminate|]); destruct H|]. split; reflexivity. Qed.
(** one light cone without halos is enough: a call that has a property to add always fails *)
Theorem C45_empty : forall sv use n keys all w w' r f0 i f k, lexec w (add_steps sv use n keys all w) = (w', r) -> w 0%nat = Some f0 -> (i < n)%nat -> w i = Some f -> lf_sim f = [] ->
  In k keys -> ~ In k pos_keys -> dget (lf_full f0) k = None -> In k all -> r <> Ok tt.
Proof.
  intros sv use n keys all w w' r f0 i f k E E0 Li Ef HS Hk Hp Ho Ha. refine (c45_none sv use n keys all w w' r f0 i f k E E0 Li Ef HS _). apply add_keys_in.
  split; [exact Hk|]. split; [exact Hp|]. split; [|left; exact Ha]. intros H. apply dget_dkeys in H. destruct H as [v Ev]. congruence.
Qed.
Print Assumptions C45_empty.
Example C45_empty_nonvacuous : let w := fun i : nat => if (i =? 0)%nat then Some (done_file diag_pt [toy_row 1]) else Some (done_file diag_pt []) in
  exists w', lexec w (add_steps toy_sv toy_use 2 ["sfr"] ["sfr"] w) = (w', Raise ValueError) /\ w 1%nat = Some (done_file diag_pt []) /\ lf_sim (done_file diag_pt []) = [].
Proof. exact (toy_add_none diag_pt 1). Qed.

(** * C46: interrupted builds and existing light cones *)
(** a finished build: every light cone is marked and holds its rows *)
Theorem C46_finished : forall asort az mi sd c pts w w', build asort az mi sd c pts w = (w', Ok tt) ->
  forall i p, nth_error pts i = Some p -> exists f rows, w' i = Some f /\ marked_done f /\ cone_rows asort az mi sd c p rows /\ holds_rows f p rows.
Proof. intros asort az mi sd c pts w w' E. exact (proj1 (build_done _ _ _ _ _ _ _ _ E)). Qed.
Print Assumptions C46_finished.
Example C46_finished_nonvacuous : exists w', build argsort0 toy_az toy_mi toy_sd diag_conf [diag_pt] (fun _ => None) = (w', Ok tt).
Proof. exact (toy_build (fun _ => None)). Qed.
(** at every crash point, a file marked as finished is an old one the build has not reached, or
    holds all its rows *)
Theorem C46_crash : forall asort az mi sd c pts k w i f, build_crash asort az mi sd c pts k w i = Some f -> lf_finished f = Some true ->
  build_crash asort az mi sd c pts k w i = w i \/ exists p rows, nth_error pts i = Some p /\ cone_rows asort az mi sd c p rows /\ holds_rows f p rows.
Proof. exact build_crash_safe. Qed.
Print Assumptions C46_crash.
(** a crash after the last step: the file is marked *)
Example C46_crash_nonvacuous : exists k f, build_crash argsort0 toy_az toy_mi toy_sd diag_conf [diag_pt] k (fun _ => None) 0%nat = Some f /\ lf_finished f = Some true.
Proof.
  destruct (toy_build (fun _ => None)) as [w' E]. destruct (proj1 (build_done _ _ _ _ _ _ _ _ E) 0%nat diag_pt eq_refl) as (f & rows & Ef & (HM & _) & _).
  exists (length (build_steps argsort0 toy_az toy_mi toy_sd diag_conf [diag_pt])), f. split; [|exact HM]. unfold build_crash. rewrite firstn_all. unfold build in E. rewrite E. exact Ef.
Qed.
(** the same when the build fails by itself *)
Theorem C46_failed : forall asort az mi sd c pts w w' r i f, build asort az mi sd c pts w = (w', r) -> w' i = Some f -> lf_finished f = Some true ->
  w' i = w i \/ exists p rows, nth_error pts i = Some p /\ cone_rows asort az mi sd c p rows /\ holds_rows f p rows.
Proof. exact build_fail_safe. Qed.
Print Assumptions C46_failed.
(** and for spheres, at every crash point *)
Theorem C46_sphere_crash : forall asort az sk mi sd md c pts k w i f, fst (lexec w (firstn k (sphere_steps asort az sk mi sd md c pts))) i = Some f -> lf_finished f = Some true ->
  fst (lexec w (firstn k (sphere_steps asort az sk mi sd md c pts))) i = w i \/ exists p rows, nth_error pts i = Some p /\ ball_rows asort az sk mi sd md c p rows /\ holds_rows f p rows.
Proof. exact sphere_crash_safe. Qed.
Print Assumptions C46_sphere_crash.
Example C46_sphere_crash_nonvacuous : exists w', lexec (fun _ => None) (sphere_steps argsort0 toy_az (fun _ _ => (0, 0)) toy_mi origin_sd Sphere near_conf [diag_pt]) = (w', Ok tt).
Proof. exact (origin_build _ _). Qed.
(** an existing directory is used only if overwrite is True, or after the answer "y" that follows
    answers other than "y" and "n" *)
Theorem C46_overwrite : forall ow answers, lc_open_dir ow true answers = Ok tt <->
  ow = OwTrue \/ (ow = OwCheck /\ exists pre post, answers = pre ++ "y" :: post /\ Forall (fun a => a <> "y" /\ a <> "n") pre).
Proof.
  assert (G : forall answers, ask answers = Ok tt <-> exists pre post, answers = pre ++ "y" :: post /\ Forall (fun a => a <> "y" /\ a <> "n") pre).
  { induction answers as [|a r IH]; cbn [ask].
    - split; [discriminate|]. intros (pre & post & E & _). destruct pre; discriminate.
    - destruct (String.eqb_spec a "y") as [->|Ny]; [split; [intros _; exists [], r; split; [reflexivity|constructor]|reflexivity]|].
      destruct (String.eqb_spec a "n") as [->|Nn].
      + split; [discriminate|]. intros ([|b pre] & post & E & F); inversion E; subst. inversion F as [|? ? [_ F1] _]. congruence.
      + rewrite IH. split; intros (pre & post & E & F).
        * exists (a :: pre), post. split; [rewrite E; reflexivity|constructor; [split; assumption|exact F]].
        * destruct pre as [|b pre]; inversion E; subst; [congruence|]. inversion F; subst. exists pre, post. split; [reflexivity|assumption]. }
  intros ow answers. destruct ow; cbn [lc_open_dir].
  - rewrite G. split; [intros H; right; split; [reflexivity|exact H]|intros [H|[_ H]]; [discriminate|exact H]].
  - split; [intros _; left; reflexivity|reflexivity].
  - split; [discriminate|]. intros [H|[H _]]; discriminate.
  - split; [discriminate|]. intros [H|[H _]]; discriminate.
Qed.
Print Assumptions C46_overwrite.
Example C46_overwrite_nonvacuous : lc_open_dir OwCheck true ["yes"; "y"] = Ok tt /\ lc_open_dir OwCheck true ["n"] <> Ok tt /\ lc_open_dir OwFalse true ["y"] <> Ok tt.
Proof. split; [reflexivity|]. split; discriminate. Qed.
(** but files of an earlier set with more light cones stay, still marked as finished *)
Theorem C46_stale : forall asort az mi sd c pts w w' i f, build asort az mi sd c pts w = (w', Ok tt) -> (length pts <= i)%nat -> w i = Some f ->
  w' i = Some f.
Proof. intros asort az mi sd c pts w w' i f E L Ef. rewrite (proj2 (build_done _ _ _ _ _ _ _ _ E) i L). exact Ef. Qed.
Print Assumptions C46_stale.
Example C46_stale_nonvacuous : let w := fun _ => Some (done_file slim_pt [toy_row 1]) in
  exists w', build argsort0 toy_az toy_mi toy_sd diag_conf [diag_pt] w = (w', Ok tt) /\ w 3%nat = Some (done_file slim_pt [toy_row 1]) /\ marked_done (done_file slim_pt [toy_row 1]).
Proof. intros w. destruct (toy_build w) as [w' E]. exists w'. split; [exact E|]. split; [reflexivity|apply done_holds]. Qed.

(** * C48: spheres *)
(** each written row is an image of its halo, each halo at most once, in the region and the
    distance range, in order of distance; and every image in the region is written, if the
    distance range fits into the box *)
Theorem C48_partial : forall asort az sk md c p m masses pos0 rows, argsorts asort -> 0 < lc_box c -> length masses = length pos0 -> 0 <= d_start c m -> 0 <= d_end c m ->
  sphere_rows asort az sk md (lc_box c) (lc_dmin c) (lc_dmax c) (p_start p) (p_flip p) m masses pos0 = Ok rows ->
  exists keys : list (nat * ivec), NoDup (map fst keys) /\
    Forall2 (fun r k => exists P, seen_at c p pos0 k P /\ ball_row az sk masses (m_index m) (fst k) P r /\ in_region md P /\ d_start c m <= norm P < d_end c m) rows keys /\
    StronglySorted (fun a b => r_dist a <= r_dist b) rows /\
    (d_end c m <= room md (lc_box c) -> forall k P, seen_at c p pos0 k P -> in_region md P -> d_start c m <= norm P < d_end c m -> In k keys).
Proof. exact c48. Qed.
Print Assumptions C48_partial.
Example C48_partial_nonvacuous : exists rows, sphere_rows argsort0 toy_az (fun _ _ => (0, 0)) Sphere 100 10 (101 / 10) (mkV 0 0 0) (mkV 1 1 1) diag_meta [5] [diag_halo] = Ok rows /\
  d_end diag_conf diag_meta <= room Sphere (lc_box diag_conf) /\ 0 <= d_start diag_conf diag_meta.
Proof.
  destruct (sphere_runs argsort0 toy_az (fun _ _ => (0, 0)) Sphere 100 10 (101 / 10) (mkV 0 0 0) (mkV 1 1 1) diag_meta [5] [diag_halo]) as [rows E]; [intros d; eexists; reflexivity|].
  exists rows. split; [exact E|]. rewrite diag_start, diag_end. unfold room, diag_conf. cbn [lc_box]. lra.
Qed.
(** what is missing: the check of the size compares a distance in Mpc/h with the box in Mpc. With
    h = 0.7 and a box of 100 Mpc/h it accepts a radius of 70 Mpc/h, and the halo at (65, 0, 0) is
    not written at its place, but only at the image 35 Mpc/h from the observer *)
Theorem C48_size_refuted : forall asort az sk mass, argsorts asort -> (forall d, exists z, az d = Ok z) ->
  exists c p m x, lc_box c = 100 /\ d_end c m = 70 /\ sphere_check Sphere (100 / (7 / 10)) 70 = Ok tt /\ seen_at c p [x] (0%nat, mkI 0 0 0) x /\ d_start c m <= norm x < d_end c m /\
  exists rows, sphere_rows asort az sk Sphere (lc_box c) (lc_dmin c) (lc_dmax c) (p_start p) (p_flip p) m [mass] [x] = Ok rows /\ forall r, In r rows -> r_x r <> vx x.
Proof.
  intros asort az sk mass H1 H2. destruct (c48_lost asort az sk mass H1 H2) as (HC & rows & E & HS & HD & HR). exists big_conf, big_pt, big_meta, (mkV 65 0 0).
  split; [reflexivity|]. split; [apply big_bounds|]. split; [exact HC|]. split; [exact HS|]. split; [exact HD|]. exists rows. split; [exact E|]. intros r Hr. rewrite (HR r Hr). cbn [vx]. lra.
Qed.
Print Assumptions C48_size_refuted.

(** * C59: vector properties and flips of the box *)
(** a halo that moves by [v] moves, in the light cone, by the vector add_pos_properties writes for
    [v], exactly when flipping the box leaves [v] unchanged *)
Theorem C59_partial : forall box p x v n, good_pt p ->
  (sky p (image box p (vadd x v) n) = vadd (sky p (image box p x n)) (sky p v) <-> vmul v (p_flip p) = v).
Proof. exact c59. Qed.
Print Assumptions C59_partial.
Example C59_partial_nonvacuous : good_pt diag_pt /\ vmul (mkV 3 4 5) (p_flip diag_pt) = mkV 3 4 5.
Proof. split; [exact diag_good|]. apply vec_eq; cbn; ring. Qed.
(** what is missing: in a flipped light cone, such as the code draws, velocities point elsewhere *)
Theorem C59_flip_refuted : exists p v, good_pt p /\ forall box x n, sky p (image box p (vadd x v) n) <> vadd (sky p (image box p x n)) (sky p v).
Proof.
  exists (mkPt (mkV 0 0 0) (mkV (-1) 1 1) diag (los_matrix diag) (pa_matrix 0) 1), (mkV 1 0 0).
  assert (G : good_pt (mkPt (mkV 0 0 0) (mkV (-1) 1 1) diag (los_matrix diag) (pa_matrix 0) 1)).
  { destruct diag_good as (_ & H). split; [unfold sign_vec; cbn; auto|]. exact H. }
  split; [exact G|]. intros box x n E. apply (proj1 (c59 _ _ _ _ _ G)) in E. inversion E as [[E1 E2]]. cbn in E1. lra.
Qed.
Print Assumptions C59_flip_refuted.

(** * C60: the drawn line of sight *)
(** an accepted line of sight is one of the draws, normalised, and passes the size test; each angle
    test was passed by it or by a draw before it; a draw accepted at once passes all tests *)
Theorem C60_partial : forall r box tmax copies draws l, draw_los r box tmax copies false false draws = Some l ->
  (exists pre v post, draws = pre ++ v :: post /\ l = los_unit v /\ test_geom r box tmax copies l = true /\
    (exists u, In u (pre ++ [v]) /\ test_a r u = true) /\ (exists u, In u (pre ++ [v]) /\ test_b r u = true)) /\
  (forall v, draws = [v] -> l = los_unit v /\ test_a r v = true /\ test_b r v = true).
Proof.
  intros r box tmax copies draws l E. split.
  - destruct (c60 _ _ _ _ _ _ _ _ E) as (pre & v & post & E1 & E2 & E3 & H1 & H2). exists pre, v, post. split; [exact E1|]. split; [exact E2|]. split; [exact E3|].
    split; [destruct H1 as [H1|H1]; [discriminate|exact H1]|destruct H2 as [H2|H2]; [discriminate|exact H2]].
  - intros v ->. destruct (c60_single _ _ _ _ _ _ E) as (H1 & H2 & H3 & _). auto.
Qed.
Print Assumptions C60_partial.
Example C60_partial_nonvacuous : draw_los (radius diag_conf) (lc_box diag_conf) (m_tdmax diag_meta) (lc_copies diag_conf) false false [diag] = Some diag.
Proof. exact diag_drawn. Qed.
(** what is missing: after a draw that passes one test, a draw that fails this test is accepted *)
Theorem C60_sticky_refuted : exists r box tmax copies u v, draw_los r box tmax copies false false [u; v] = Some (los_unit v) /\ test_a r v = false.
Proof. exists (1 / 50), 100, 10, 1%nat, odd1, odd2. exact c60_sticky. Qed.
Print Assumptions C60_sticky_refuted.

(** * C61: interrupted add_properties *)
(** at every crash point, a file marked as complete is as before the call, or has all the added
    columns with the right values *)
Theorem C61_crash_partial : forall sv use n keys all w l w' r f0, lexec w (firstn l (add_steps sv use n keys all w)) = (w', r) -> w 0%nat = Some f0 ->
  forall i f g, (i < n)%nat -> w i = Some f -> grouped (lf_sim f) use -> w' i = Some g -> lf_done g = true ->
  g = f \/ added sv (add_keys keys (dkeys (lf_full f0)) all) f g.
Proof. exact c61. Qed.
Print Assumptions C61_crash_partial.
(** the same for vectors *)
Theorem C61_crash_vectors_partial : forall sv use n keys all w l w' r f0, lexec w (firstn l (addpos_steps sv use n keys all w)) = (w', r) -> w 0%nat = Some f0 -> use <> [] ->
  forall i f g, (i < n)%nat -> w i = Some f -> grouped (lf_sim f) use -> w' i = Some g -> lf_done g = true ->
  g = f \/ added_vectors sv (addpos_keys keys (dkeys (lf_full f0)) all) f g.
Proof. exact c61_vectors. Qed.
Print Assumptions C61_crash_vectors_partial.
Example C61_crash_partial_nonvacuous : exists w w' f0, lexec w (add_steps toy_sv toy_use 1 ["sfr"] ["sfr"] w) = (w', Ok tt) /\ w 0%nat = Some f0 /\ grouped (lf_sim f0) toy_use.
Proof.
  destruct (toy_add diag_pt 1) as [w1 E]. exists (fun i => if (i =? 0)%nat then Some (done_file diag_pt [toy_row 1]) else None), w1, (done_file diag_pt [toy_row 1]).
  split; [exact E|]. split; [reflexivity|apply toy_grouped].
Qed.
(** what is missing: a column created before the interruption is skipped when the call is repeated,
    and the files are marked as complete whatever the column holds *)
Theorem C61_skipped_refuted : forall sv use n keys all w w' f0 k v, lexec w (add_steps sv use n keys all w) = (w', Ok tt) -> w 0%nat = Some f0 -> dget (lf_full f0) k = Some v ->
  forall i f, (i < n)%nat -> w i = Some f -> grouped (lf_sim f) use -> exists f', w' i = Some f' /\ lf_done f' = true /\ dget (lf_full f') k = dget (lf_full f) k.
Proof. exact c61_skip. Qed.
Print Assumptions C61_skipped_refuted.
(** so that a call interrupted after two steps and repeated leaves zeros, where the halo has 3 *)
Theorem C61_zeros_refuted : exists sv use w w1 w2 f f2, w 0%nat = Some f /\ marked_done f /\ grouped (lf_sim f) use /\
  lexec w (firstn 2 (add_steps sv use 1 ["sfr"] ["sfr"] w)) = (w1, Ok tt) /\ lexec w1 (add_steps sv use 1 ["sfr"] ["sfr"] w1) = (w2, Ok tt) /\
  w2 0%nat = Some f2 /\ lf_done f2 = true /\ dget (lf_full f2) "sfr" = Some [0] /\ (forall e, In e (lf_sim f) -> value_of sv "sfr" e 3).
Proof.
  destruct (c61_lost diag_pt 1) as (w1 & w2 & f2 & E1 & E2 & E3 & E4 & E5).
  exists toy_sv, toy_use, (fun i => if (i =? 0)%nat then Some (done_file diag_pt [toy_row 1]) else None), w1, w2, (done_file diag_pt [toy_row 1]), f2.
  split; [reflexivity|]. split; [apply done_holds|]. split; [apply toy_grouped|]. split; [exact E1|]. split; [exact E2|]. split; [exact E3|]. split; [exact E4|]. split; [exact E5|].
  intros e He. cbn in He. destruct He as [<-|[]]. exists [3]. split; reflexivity.
Qed.
Print Assumptions C61_zeros_refuted.
