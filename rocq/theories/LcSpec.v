(** Vocabulary for the statements about light cones (C40 to C46, C48, C59, C60). *)
From Verif Require Import Dict Util RealUtil SnapModel FormatModel LcModel.
From Coq Require Import Reals Sorted.
Open Scope R_scope.

(** integer vectors number the periodic images of the box *)
Record ivec := mkI { ix : Z; iy : Z; iz : Z }.
Definition of_i (n : ivec) : vec := mkV (IZR (ix n)) (IZR (iy n)) (IZR (iz n)).
(** image [n] of a halo at [x], seen from the observer *)
Definition image (box : R) (p : pointing) (x : vec) (n : ivec) : vec :=
  vadd (vsub (vmul x (p_flip p)) (p_start p)) (vscale box (of_i n)).
(** coordinates along the line of sight, and across it *)
Definition sky (p : pointing) (P : vec) : vec := mvec (p_pam p) (mvec (p_losm p) P).

(** the angles of the point are inside the opening: strictly for a circle, with the edge
    for a box. Nothing here tells the front from the back *)
Definition in_opening (c : lcconf) (p : pointing) (P : vec) : Prop :=
  let u := sky p P in let d := norm P in
  0 < d /\
  match lc_mode c with
  | Circle => sqrt (vy u ^ 2 + vz u ^ 2) < lc_open c / 2 * d
  | Box => Rabs (vy u) <= lc_open c / 2 * d /\ Rabs (vz u) <= lc_open c * lc_aspect c / 2 * d
  end.
(** the point is inside the cone: also on the side the line of sight points to *)
Definition in_cone (c : lcconf) (p : pointing) (P : vec) : Prop := in_opening c p P /\ 0 < dot (p_los p) P.
(** the cube of side [side] with lowest corner [corner] *)
Definition in_window (side : R) (corner P : vec) : Prop :=
  vx corner <= vx P < vx corner + side /\ vy corner <= vy P < vy corner + side /\ vz corner <= vz P < vz corner + side.

Definition sign_vec (v : vec) : Prop :=
  (vx v = 1 \/ vx v = -1) /\ (vy v = 1 \/ vy v = -1) /\ (vz v = 1 \/ vz v = -1).
(** parameters as build_lightcones makes them *)
Definition good_pt (p : pointing) : Prop :=
  sign_vec (p_flip p) /\ dot (p_los p) (p_los p) = 1 /\
  0 < vx (p_los p) /\ 0 < vy (p_los p) /\ 0 < vz (p_los p) /\
  p_losm p = los_matrix (p_los p) /\ exists pa, p_pam p = pa_matrix pa.

(** the distances a snapshot contributes *)
Definition d_start (c : lcconf) (m : meta) : R := Rmax (m_dmin m) (lc_dmin c).
Definition d_end (c : lcconf) (m : meta) : R := Rmin (m_dmax m) (lc_dmax c).

(** the row of halo [i] (of snapshot [s]) seen at [P] *)
Definition row_at (az : R -> exc R) (p : pointing) (masses : list R) (s : Z) (i : nat) (P : vec) (r : row) : Prop :=
  let u := sky p P in
  r_x r = vy u /\ r_y r = vz u /\ r_z r = vx u /\
  r_ra r = vy u / norm P /\ r_dec r = vz u / norm P /\ az (norm P) = Ok (r_red r) /\
  nth_error masses i = Some (r_mass r) /\ r_snap r = s /\ r_index r = i.
(** [P] is where image [snd k] of halo [fst k] is seen *)
Definition seen_at (c : lcconf) (p : pointing) (pos0 : list vec) (k : nat * ivec) (P : vec) : Prop :=
  exists x, nth_error pos0 (fst k) = Some x /\ P = image (lc_box c) p x (snd k).
(** the distance of a row *)
Definition r_dist (r : row) : R := norm (mkV (r_x r) (r_y r) (r_z r)).

(** the buffer is large enough for the width of the cone *)
Definition wide_enough (c : lcconf) (p : pointing) (m : meta) : Prop :=
  0 <= radius c <= 1 /\
  forall l, l = vx (p_los p) \/ l = vy (p_los p) \/ l = vz (p_los p) ->
    d_end c m * (radius c * sqrt (1 - l ^ 2) + (1 - sqrt (1 - radius c ^ 2)) * l) <= m_tdmax m * p_buf p * l.

(** the smaller two components of the line of sight are about equal *)
Definition balanced (l : vec) : Prop :=
  forall a b d, In (a, b, d) [(vx l, vy l, vz l); (vx l, vz l, vy l); (vy l, vx l, vz l); (vy l, vz l, vx l); (vz l, vx l, vy l); (vz l, vy l, vx l)] ->
    d <= b -> d ^ 2 <= 101 / 100 * a ^ 2 + 1 / 100 * b ^ 2.

(** orthonormal, right-handed *)
Definition rotation (f : vec -> vec) : Prop :=
  (forall a b, f (vadd a b) = vadd (f a) (f b)) /\ (forall k a, f (vscale k a) = vscale k (f a)) /\
  (forall a b, dot (f a) (f b) = dot a b) /\
  (forall a b, f (cross a b) = cross (f a) (f b)).

(** * Files *)
(** the columns of a light cone *)
Definition stored : list (string * (row -> R)) :=
  [("pos_x"%string, r_x); ("pos_y"%string, r_y); ("pos_z"%string, r_z); ("ra"%string, r_ra); ("dec"%string, r_dec);
   ("redshift"%string, r_red); ("mass"%string, r_mass)].
(** how many redshifts are at or below [e] *)
Definition count_le (e : R) (zs : list R) : nat := length (filter (fun z => rleb z e) zs).
(** the file holds exactly these rows *)
Definition holds_rows (f : lcfile) (p : pointing) (rows : list row) : Prop :=
  lf_pt f = Some p /\ lf_sim f = map (fun r => (r_snap r, r_index r)) rows /\
  (forall k g, In (k, g) stored -> dget (lf_basic f) k = Some (map g rows) /\ dget (lf_full f) k = Some (map g rows)) /\
  map fst (lf_red f) = red_edges /\
  (forall j e n, (1 <= j)%nat -> nth_error (lf_red f) j = Some (e, n) -> n = count_le e (map r_red rows)).
(** marked as finished, without extra properties *)
Definition marked_done (f : lcfile) : Prop := lf_finished f = Some true /\ lf_status f = true /\ lf_extra f = false /\ lf_done f = false.
(** the rows of a light cone: those of the snapshots in use, in order, slab by slab *)
Definition cone_rows (asort : list R -> list nat) (az : R -> exc R) (mi : Z -> exc nat) (sd : Z -> option (list R * list vec))
    (c : lcconf) (p : pointing) (rows : list row) : Prop :=
  exists rss, rows = concat rss /\
    Forall2 (fun m rs => exists masses pos0 slabs, snap_load mi sd (lc_mass c) (m_index m) = Ok (masses, pos0) /\
      snap_slabs asort az c p m masses pos0 = Ok (map Ok slabs) /\ rs = concat slabs) (lc_use c) rss.
(** the same for the spherical modes *)
Definition ball_rows (asort : list R -> list nat) (az : R -> exc R) (sk : vec -> R -> R * R) (mi : Z -> exc nat) (sd : Z -> option (list R * list vec))
    (md : smode) (c : lcconf) (p : pointing) (rows : list row) : Prop :=
  exists rss, rows = concat rss /\
    Forall2 (fun m rs => exists masses pos0, snap_load mi sd (lc_mass c) (m_index m) = Ok (masses, pos0) /\
      sphere_rows asort az sk md (lc_box c) (lc_dmin c) (lc_dmax c) (p_start p) (p_flip p) m masses pos0 = Ok rs) (lc_use c) rss.
(** the rows come snapshot by snapshot, each snapshot once *)
Definition grouped (sim : list (Z * nat)) (use : list meta) : Prop :=
  NoDup (map m_index use) /\
  exists ixs, Forall2 (fun _ _ => True) use ixs /\ sim = concat (map (fun mi => map (pair (m_index (fst mi))) (snd mi)) (combine use ixs)).

(** * Spheres *)
(** the part of the sky asked for *)
Definition in_region (md : smode) (P : vec) : Prop :=
  match md with
  | Sphere => True
  | Hemi => 0 < vz P
  | Quarter => 0 < vz P /\ 0 < vy P
  | Eighth => 0 <= vx P /\ 0 <= vy P /\ 0 <= vz P
  end.
(** the row of halo [i] (of snapshot [s]) seen at [P]; [sk] gives its angles *)
Definition ball_row (az : R -> exc R) (sk : vec -> R -> R * R) (masses : list R) (s : Z) (i : nat) (P : vec) (r : row) : Prop :=
  r_x r = vx P /\ r_y r = vy P /\ r_z r = vz P /\ r_ra r = fst (sk P (norm P)) /\ r_dec r = snd (sk P (norm P)) /\ az (norm P) = Ok (r_red r) /\
  nth_error masses i = Some (r_mass r) /\ r_snap r = s /\ r_index r = i.
(** the radius of the largest region of this kind the box has room for *)
Definition room (md : smode) (box : R) : R := match md with Eighth => box | _ => box / 2 end.

(** * Added properties *)
(** everything but the added columns is as before, and the file is
    marked as complete *)
Definition only_added (cols : list string) (f f' : lcfile) : Prop :=
  lf_finished f' = lf_finished f /\ lf_status f' = lf_status f /\ lf_pt f' = lf_pt f /\ lf_red f' = lf_red f /\ lf_basic f' = lf_basic f /\ lf_sim f' = lf_sim f /\
  lf_extra f' = true /\ lf_done f' = true /\ forall k, ~ In k cols -> dget (lf_full f') k = dget (lf_full f) k.
(** the value of a property, or vector property, of a halo *)
Definition value_of (sv : Z -> string -> exc (list R)) (k : string) (e : Z * nat) (x : R) : Prop :=
  exists vals, sv (fst e) k = Ok vals /\ nth_error vals (snd e) = Some x.
Definition vector_of (sv : Z -> string -> exc (list vec)) (k : string) (e : Z * nat) (v : vec) : Prop :=
  exists vals, sv (fst e) k = Ok vals /\ nth_error vals (snd e) = Some v.
(** [f'] is [f] with the columns [ks], whose row r is the value of the halo of row r *)
Definition added (sv : Z -> string -> exc (list R)) (ks : list string) (f f' : lcfile) : Prop :=
  only_added ks f f' /\
  forall k, In k ks -> dget (lf_full f) k = None /\ exists col, dget (lf_full f') k = Some col /\ Forall2 (value_of sv k) (lf_sim f) col.
(** the same for vectors, turned like the positions *)
Definition added_vectors (sv : Z -> string -> exc (list vec)) (ks : list string) (f f' : lcfile) : Prop :=
  only_added (flat_map subkeys ks) f f' /\ exists p, (ks = [] \/ lf_pt f = Some p) /\
  forall k, In k ks -> exists xs ys zs,
    dget (lf_full f') (k ++ "_x")%string = Some xs /\ dget (lf_full f') (k ++ "_y")%string = Some ys /\ dget (lf_full f') (k ++ "_z")%string = Some zs /\
    Forall2 (fun e x => exists v, vector_of sv k e v /\ x = vy (sky p v)) (lf_sim f) xs /\
    Forall2 (fun e y => exists v, vector_of sv k e v /\ y = vz (sky p v)) (lf_sim f) ys /\
    Forall2 (fun e z => exists v, vector_of sv k e v /\ z = vx (sky p v)) (lf_sim f) zs.
