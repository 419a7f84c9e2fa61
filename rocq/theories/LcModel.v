(** Model of light-cone construction, simim/lightcone/lcmaker.py. No proofs here.

    Numbers are real, so that rounding, and the cast of stored redshift edges to float32,
    are not modelled. np.argsort, interp1d (assign_z), SimHandler.get_mass_index and the
    random numbers are arguments. A light-cone file is a record; each change of it is one
    operation, and a crash is a prefix of the list of operations. *)
From Verif Require Import Dict Util RealUtil SnapModel FormatModel.
From Coq Require Import Reals.
Open Scope string_scope.
Open Scope list_scope.
Open Scope R_scope.

(** * Vectors *)
Record vec := mkV { vx : R; vy : R; vz : R }.
Definition vadd (a b : vec) : vec := mkV (vx a + vx b) (vy a + vy b) (vz a + vz b).
Definition vsub (a b : vec) : vec := mkV (vx a - vx b) (vy a - vy b) (vz a - vz b).
Definition vscale (k : R) (a : vec) : vec := mkV (k * vx a) (k * vy a) (k * vz a).
Definition vmul (a b : vec) : vec := mkV (vx a * vx b) (vy a * vy b) (vz a * vz b).
(** [a % b], elementwise *)
Definition vmod (a : vec) (b : R) : vec := mkV (rmod (vx a) b) (rmod (vy a) b) (rmod (vz a) b).
Definition dot (a b : vec) : R := vx a * vx b + vy a * vy b + vz a * vz b.
Definition norm (a : vec) : R := sqrt (dot a a).
Definition cross (a b : vec) : vec :=
  mkV (vy a * vz b - vz a * vy b) (vz a * vx b - vx a * vz b) (vx a * vy b - vy a * vx b).
Definition vmax (a : vec) : R := Rmax (vx a) (Rmax (vy a) (vz a)).
(** a 3x3 array by rows *)
Record mat := mkM { row1 : vec; row2 : vec; row3 : vec }.
Definition mvec (m : mat) (v : vec) : vec := mkV (dot (row1 m) v) (dot (row2 m) v) (dot (row3 m) v).
Definition transpose (m : mat) : mat :=
  mkM (mkV (vx (row1 m)) (vx (row2 m)) (vx (row3 m)))
      (mkV (vy (row1 m)) (vy (row2 m)) (vy (row3 m)))
      (mkV (vz (row1 m)) (vz (row2 m)) (vz (row3 m))).
Definition det (m : mat) : R := dot (row1 m) (cross (row2 m) (row3 m)).
(** np.linalg.inv, by Cramer's rule *)
Definition minv (m : mat) : mat :=
  transpose (mkM (vscale (/ det m) (cross (row2 m) (row3 m)))
                 (vscale (/ det m) (cross (row3 m) (row1 m)))
                 (vscale (/ det m) (cross (row1 m) (row2 m)))).

(** * Pointing *)
(** the six np.arctan of 495-496 and their minimum *)
Definition min_angle (l : vec) : R :=
  let at_ a b := atan (a / b) in
  Rmin (at_ (vy l) (vx l)) (Rmin (at_ (vz l) (vx l)) (Rmin (at_ (vz l) (vy l))
    (Rmin (at_ (vx l) (vy l)) (Rmin (at_ (vx l) (vz l)) (at_ (vy l) (vz l)))))).
(** 498 *)
Definition buffer_coef (openradius : R) (l : vec) : R := 101 / 100 * tan openradius / sin (min_angle l).
(** 492 *)
Definition los_unit (v : vec) : vec := vscale (/ norm v) v.
(** 479-483 and 485-489 *)
Definition test_a (r : R) (v : vec) : bool :=
  let t := vx v / vy v in rltb (tan (r + PI / 180)) t && rltb t (tan (PI / 2 - 3 * r - PI / 180)).
Definition test_b (r : R) (v : vec) : bool :=
  let t := vx v / vz v in rltb (tan (3 * r)) t && rltb t (tan (PI / 2 - 3 * r)).
(** 500-505 *)
Definition test_geom (r box tmax : R) (copies : nat) (l : vec) : bool :=
  rltb 10 (INR copies * (box / vmax l) - 2 * (buffer_coef r l * tmax)).
(** 470-505: both loops; [draws] are the results of rng.random(3), [a] and [b] are test_a
    and test_b so far. None: the draws ran out before a line of sight was found *)
Fixpoint draw_los (r box tmax : R) (copies : nat) (a b : bool) (draws : list vec) : option vec :=
  match draws with
  | [] => None
  | v :: rest =>
      let a := a || test_a r v in
      let b := b || test_b r v in
      if a && b then
        if test_geom r box tmax copies (los_unit v) then Some (los_unit v)
        else draw_los r box tmax copies false false rest
      else draw_los r box tmax copies a b rest
  end.
(** 509-514 *)
Definition los_matrix (l : vec) : mat :=
  let c := cross l (mkV 0 0 1) in
  let u2 := vscale (/ norm c) c in
  let u3 := cross l u2 in
  minv (transpose (mkM l u2 u3)).
(** 535-538 *)
Definition pa_matrix (pa : R) : mat :=
  mkM (mkV 1 0 0) (mkV 0 (cos pa) (- sin pa)) (mkV 0 (sin pa) (cos pa)).

(** the parameters of one light cone *)
Record pointing := mkPt { p_start : vec; p_flip : vec; p_los : vec; p_losm : mat; p_pam : mat; p_buf : R }.

(** * Configuration *)
Inductive lcmode := Circle | Box.
(** an LCMaker: mode, openangle in radians, aspect, minimum_mass, box_edge, copies_max,
    the distances of 611-614 and snapshots_use *)
Record lcconf := mkLC { lc_mode : lcmode; lc_open : R; lc_aspect : R; lc_mass : R; lc_box : R; lc_copies : nat;
  lc_dmin : R; lc_dmax : R; lc_use : list meta }.
(** 438-443 and 918-923 *)
Fixpoint insert_z (m : meta) (l : list meta) : list meta :=
  match l with
  | [] => [m]
  | a :: r => if rleb (m_z m) (m_z a) then m :: l else a :: insert_z m r
  end.
Definition sort_z (l : list meta) : list meta := fold_right insert_z [] l.
Definition snapshots_use (zmin zmax : R) (ms : list meta) : list meta :=
  sort_z (filter (fun m => rleb zmin (m_zmax m) && rleb (m_zmin m) zmax) ms).
(** 564-572: angle1, angle2 and the radius *)
Definition angle1 (c : lcconf) : R := lc_open c.
Definition angle2 (c : lcconf) : R := lc_open c * lc_aspect c.
Definition radius (c : lcconf) : R :=
  match lc_mode c with
  | Circle => lc_open c / 2
  | Box => sqrt (angle1 c ^ 2 + angle2 c ^ 2) / 2
  end.

(** * One snapshot *)
(** 671-684: the masses and positions above the mass cut. [mi] is get_mass_index for the
    mass cut, [sd] the columns of the snapshot's group *)
Definition snap_load (mi : Z -> exc nat) (sd : Z -> option (list R * list vec)) (mmin : R) (s : Z)
  : exc (list R * list vec) :=
  match sd s with
  | None => Raise KeyError
  | Some (mass, pos) =>
      do k <- mi s ;;
      let masses := firstn k mass in
      let n := cut_index masses mmin in
      Ok (firstn n masses, firstn n pos)
  end.
(** [int(np.ceil(a / b))]; the integer of an infinity is an OverflowError, of NaN a
    ValueError *)
Definition ceil_div (a b : R) : exc Z :=
  if reqb b 0 then (if reqb a 0 then Raise ValueError else Raise (UserExn 3)) else Ok (rceil (a / b)).
(** 705-708 *)
Definition unit_vec (d : nat) : vec := match d with 0%nat => mkV 1 0 0 | 1%nat => mkV 0 1 0 | _ => mkV 0 0 1 end.
Definition replicate (box : R) (pos : list vec) : list vec :=
  fold_left (fun p d => p ++ map (fun v => vadd v (vscale box (unit_vec d))) p) [0; 1; 2]%nat pos.
(** 694-719: number of iterations, positions and box size. [fuel] bounds the doublings;
    copies_n doubles, so that copies_max of them are enough *)
Fixpoint expand (fuel : nat) (copies_max copies : nat) (use buf inbox box : R) (iters : Z) (pos : list vec)
  : exc (Z * list vec * R) :=
  if (25 <? iters)%Z || (iters <=? 0)%Z then
    if (copies <? copies_max)%nat then
      match fuel with
      | 0%nat => Raise (UserExn 0)
      | S f =>
          do it <- ceil_div use (2 * inbox - 2 * buf) ;;
          expand f copies_max (copies * 2) use buf (2 * inbox) (2 * box) it (replicate box pos)
      end
    else if (iters <=? 0)%Z then Raise ValueError
    else Ok (iters, pos, box)
  else Ok (iters, pos, box).

(** one halo of a light cone: its columns and sim_indices entry *)
Record row := mkRow { r_x : R; r_y : R; r_z : R; r_ra : R; r_dec : R; r_red : R; r_mass : R; r_snap : Z; r_index : nat }.

(** 745-758: a comparison with NaN (distance 0) is False *)
Definition in_angle (c : lcconf) (p : vec) (d : R) : bool :=
  negb (reqb d 0) &&
  match lc_mode c with
  | Circle => rltb (sqrt (vy p ^ 2 + vz p ^ 2) / d) (radius c)
  | Box => rleb (Rabs (vy p / d)) (angle1 c / 2) && rleb (Rabs (vz p / d)) (angle2 c / 2)
  end.
(** 731-788: one iteration. [pos] are the shifted positions, [masses] those of the
    snapshot (len(positions0) of them) *)
Definition slab (asort : list R -> list nat) (az : R -> exc R) (c : lcconf) (p : pointing) (s : Z)
    (masses : list R) (pos : list vec) (start end_ use buf box : R) (iters : Z) (it : nat) : exc (list row) :=
  let off := INR it * use / IZR iters in
  let ip := map (fun v => mvec (p_pam p) (mvec (p_losm p) (vmod (vsub v (vscale off (p_los p))) box))) pos in
  let cd := map (fun v => norm (vadd v (mkV (start + off - buf) 0 0))) ip in
  let lo := start + off in
  let hi := Rmin (start + (INR it + 1) * use / IZR iters) end_ in
  let sel := filter (fun i => in_angle c (nth i ip (mkV 0 0 0)) (nth i cd 0) &&
                              (rltb (nth i cd 0) hi && rleb lo (nth i cd 0))) (seq 0 (length ip)) in
  let sel := pick sel (asort (map (fun i => nth i cd 0) sel)) in
  mapM (fun i =>
    let v := nth i ip (mkV 0 0 0) in
    let d := nth i cd 0 in
    do z <- az d ;;
    let parent := (i mod length masses)%nat in
    Ok (mkRow (vy v) (vz v) (vx v + start + off - buf) (vy v / d) (vz v / d) z (nth parent masses 0) s parent)) sel.

(** 665-667 and 690-728: the iterations of one snapshot in one light cone *)
Definition snap_slabs (asort : list R -> list nat) (az : R -> exc R) (c : lcconf) (p : pointing) (m : meta)
    (masses : list R) (pos0 : list vec) : exc (list (exc (list row))) :=
  let start := Rmax (m_dmin m) (lc_dmin c) in
  let end_ := Rmin (m_dmax m) (lc_dmax c) in
  let use := end_ - start in
  let buf := m_tdmax m * p_buf p in
  let inbox := lc_box c / vmax (p_los p) in
  do it0 <- ceil_div use (inbox - 2 * buf) ;;
  do e <- expand (lc_copies c) (lc_copies c) 1 use buf inbox (lc_box c) it0 pos0 ;;
  let '(iters, pos, box) := e in
  let pos := map (fun v => vmod (vmul v (p_flip p)) box) pos in
  let pos := map (fun v => vadd (vsub (vsub v (p_start p)) (vscale start (p_los p))) (vscale buf (p_los p))) pos in
  Ok (map (slab asort az c p (m_index m) masses pos start end_ use buf box iters) (seq 0 (Z.to_nat iters))).

(** * Files *)
(** [lf_finished]: None until the attribute is written; [lf_red] are the redshift
    indices *)
Record lcfile := mkLF { lf_finished : option bool; lf_status : bool; lf_extra : bool; lf_done : bool;
  lf_pt : option pointing; lf_red : list (R * nat);
  lf_basic : dict (list R); lf_sim : list (Z * nat); lf_full : dict (list R) }.
Definition lcworld := nat -> option lcfile.
Definition wput (w : lcworld) (i : nat) (f : lcfile) : lcworld := fun j => if (j =? i)%nat then Some f else w j.

(** the redshift edges, 600-601 *)
Definition red_edges : list R := map (fun i => Rpower (21 + 5 / 100) (INR i / 99) - 1) (seq 0 100).
(** 829-834: entry 0 is left alone *)
Definition red_add (ri : list (R * nat)) (zs : list R) : list (R * nat) :=
  match ri with
  | [] => []
  | e0 :: rest => e0 :: map (fun e => (fst e, (snd e + length (filter (fun z => rleb z (fst e)) zs))%nat)) rest
  end.

Inductive lop :=
| LNew                                       (* h5py.File(...,'w') *)
| LMeta (p : pointing)                       (* the attributes that describe the cone *)
| LFin (b : bool)                            (* attrs['finished'] = False, or a date *)
| LStatus (b : bool)                         (* attrs['status_basic'] *)
| LExtra (b d : bool)                        (* attrs['status_extra_initialized'], ['status_extra_completed'] *)
| LIndex (e : list R)                        (* create_dataset('redshift_indices') *)
| LCol (k : string) (v : list R)             (* create_dataset, or resize and append, of a basic column *)
| LSim (v : list (Z * nat))                  (* the same for sim_indices *)
| LRed (zs : list R)                         (* 829-834 *)
| LFull (k : string)                         (* lc[key] = file['Lightcone Basic'][key]: a hard link, see LinkModel.v *)
| LAdd (k : string) (n : nat)                (* create_dataset(key, shape) in 'Lightcone Full'; chunks of no rows,
                                                162-165 for a light cone without halos, are a ValueError of HDF5 *)
| LPut (k : string) (o : nat) (v : list R).  (* a write to some rows of it *)

Definition lapply (o : lop) (f : lcfile) : exc lcfile :=
  let '(mkLF fin st ex dn pt red basic sim full) := f in
  match o with
  | LNew => Ok (mkLF None false false false None [] [] [] [])
  | LMeta p => Ok (mkLF fin st ex dn (Some p) red basic sim full)
  | LFin b => Ok (mkLF (Some b) st ex dn pt red basic sim full)
  | LStatus b => Ok (mkLF fin b ex dn pt red basic sim full)
  | LExtra b d => Ok (mkLF fin st b d pt red basic sim full)
  | LIndex e => Ok (mkLF fin st ex dn pt (map (fun z => (z, 0%nat)) e) basic sim full)
  | LCol k v => Ok (mkLF fin st ex dn pt red
                  (dset basic k (match dget basic k with Some l => l | None => [] end ++ v)) sim full)
  | LSim v => Ok (mkLF fin st ex dn pt red basic (sim ++ v) full)
  | LRed zs => Ok (mkLF fin st ex dn pt (red_add red zs) basic sim full)
  | LFull k => do v <- dfind basic k ;; Ok (mkLF fin st ex dn pt red basic sim (dset full k v))
  | LAdd k n => do _ <- check (negb (dmem full k) && (0 <? n)%nat) ValueError ;;
                Ok (mkLF fin st ex dn pt red basic sim (dset full k (repeat 0 n)))
  | LPut k o v => do old <- dfind full k ;;
                  do _ <- check (o + length v <=? length old)%nat TypeError ;;
                  Ok (mkLF fin st ex dn pt red basic sim (dset full k (splice old o v)))
  end.
(** an operation on file [i]; all but the first need the file *)
Definition lstep (w : lcworld) (io : nat * lop) : exc lcworld :=
  match snd io, w (fst io) with
  | LNew, _ => Ok (wput w (fst io) (mkLF None false false false None [] [] [] []))
  | _, None => Raise OSError
  | o, Some f => do f' <- lapply o f ;; Ok (wput w (fst io) f')
  end.
Fixpoint lexec (w : lcworld) (l : list (exc (nat * lop))) : lcworld * exc unit :=
  match l with
  | [] => (w, Ok tt)
  | Raise e :: _ => (w, Raise e)
  | Ok o :: r => match lstep w o with Ok w' => lexec w' r | Raise e => (w, Raise e) end
  end.

(** the columns of 791-792 *)
Definition columns : list (string * (row -> R)) :=
  [("pos_x", r_x); ("pos_y", r_y); ("pos_z", r_z); ("ra", r_ra); ("dec", r_dec); ("redshift", r_red); ("mass", r_mass)].
(** 804-834 *)
Definition write_rows (i : nat) (rows : list row) : list (exc (nat * lop)) :=
  map (fun kc => Ok (i, LCol (fst kc) (map (snd kc) rows))) columns ++
  [Ok (i, LSim (map (fun r => (r_snap r, r_index r)) rows)); Ok (i, LRed (map r_red rows))].
(** 619-651 *)
Definition init_steps (pts : list pointing) : list (exc (nat * lop)) :=
  flat_map (fun ip => map (fun o => Ok (fst ip, o))
    [LNew; LMeta (snd ip); LFin false; LStatus false; LExtra false false; LIndex red_edges])
    (combine (seq 0 (length pts)) pts).
(** 839-846: the keys of a group are listed in alphabetical order *)
Definition final_steps (n : nat) : list (exc (nat * lop)) :=
  flat_map (fun i => map (fun k => Ok (i, LFull k)) ["dec"; "mass"; "pos_x"; "pos_y"; "pos_z"; "ra"; "redshift"] ++
    [Ok (i, LStatus true); Ok (i, LFin true)]) (seq 0 n).
(** 687-834 for one light cone *)
Definition cone_steps (slabs : exc (list (exc (list row)))) (i : nat) : list (exc (nat * lop)) :=
  match slabs with
  | Raise e => [Raise e]
  | Ok l => flat_map (fun s => match s with Raise e => [Raise e] | Ok rows => write_rows i rows end) l
  end.
(** LCMaker.build_lightcones, 562-846; [pts] are the pointing parameters of the n cones *)
Definition build_steps (asort : list R -> list nat) (az : R -> exc R) (mi : Z -> exc nat)
    (sd : Z -> option (list R * list vec)) (c : lcconf) (pts : list pointing) : list (exc (nat * lop)) :=
  init_steps pts ++
  flat_map (fun m =>
    match snap_load mi sd (lc_mass c) (m_index m) with
    | Raise e => [Raise e]
    | Ok (masses, pos0) =>
        flat_map (fun ip => cone_steps (snap_slabs asort az c (snd ip) m masses pos0) (fst ip))
          (combine (seq 0 (length pts)) pts)
    end) (lc_use c) ++
  final_steps (length pts).
Definition build asort az mi sd c pts (w : lcworld) : lcworld * exc unit := lexec w (build_steps asort az mi sd c pts).
(** killed after [k] operations *)
Definition build_crash asort az mi sd c pts (k : nat) (w : lcworld) : lcworld :=
  fst (lexec w (firstn k (build_steps asort az mi sd c pts))).

(** * SphereMaker.build_lightcones: 925-1146 *)
Inductive smode := Sphere | Hemi | Quarter | Eighth.
(** 1039-1045 *)
Definition sphere_place (md : smode) (box : R) (start flip : vec) (v : vec) : vec :=
  let v := vmod (vmul v flip) box in
  let half := mkV (box / 2) (box / 2) (box / 2) in
  match md with
  | Eighth => vmod (vadd (vsub v start) (mkV box box box)) box
  | _ => vsub (vmod (vadd (vsub v start) half) box) half
  end.
(** 1051-1057 *)
Definition sphere_sel (md : smode) (start end_ : R) (v : vec) : bool :=
  rleb (start ^ 2) (dot v v) && rltb (dot v v) (end_ ^ 2) &&
  match md with
  | Sphere | Eighth => true
  | Hemi => rltb 0 (vz v)
  | Quarter => rltb 0 (vz v) && rltb 0 (vy v)
  end.
(** 1038-1088. [sky] gives ra and dec (arctan2 and arccos, 1075-1078) *)
Definition sphere_rows (asort : list R -> list nat) (az : R -> exc R) (sky : vec -> R -> R * R) (md : smode)
    (box dmin dmax : R) (p_start_ p_flip_ : vec) (m : meta) (masses : list R) (pos0 : list vec) : exc (list row) :=
  let start := Rmax (m_dmin m) dmin in
  let end_ := Rmin (m_dmax m) dmax in
  let pos := map (sphere_place md box p_start_ p_flip_) pos0 in
  let sel := filter (fun i => sphere_sel md start end_ (nth i pos (mkV 0 0 0))) (seq 0 (length pos)) in
  let sel := pick sel (asort (map (fun i => norm (nth i pos (mkV 0 0 0))) sel)) in
  mapM (fun i =>
    let v := nth i pos (mkV 0 0 0) in
    let d := norm v in
    do z <- az d ;;
    let parent := (i mod length masses)%nat in
    Ok (mkRow (vx v) (vy v) (vz v) (fst (sky v d)) (snd (sky v d)) z (nth parent masses 0) (m_index m) parent)) sel.
(** 909-915: [box_no_h] is the box edge without h, [dist] the distance of redshift_max
    with h *)
Definition sphere_check (md : smode) (box_no_h dist : R) : exc unit :=
  let dmax := match md with Eighth => box_no_h | _ => box_no_h / 2 end in
  check (negb (rltb dmax dist)) ValueError.
Definition sphere_steps (asort : list R -> list nat) (az : R -> exc R) (sky : vec -> R -> R * R) (mi : Z -> exc nat)
    (sd : Z -> option (list R * list vec)) (md : smode) (c : lcconf) (pts : list pointing) : list (exc (nat * lop)) :=
  init_steps pts ++
  flat_map (fun m =>
    match snap_load mi sd (lc_mass c) (m_index m) with
    | Raise e => [Raise e]
    | Ok (masses, pos0) =>
        flat_map (fun ip => match sphere_rows asort az sky md (lc_box c) (lc_dmin c) (lc_dmax c) (p_start (snd ip)) (p_flip (snd ip)) m masses pos0 with
                            | Raise e => [Raise e]
                            | Ok rows => write_rows (fst ip) rows
                            end) (combine (seq 0 (length pts)) pts)
    end) (lc_use c) ++
  final_steps (length pts).

(** * add_properties and add_pos_properties: 117-341 *)
(** np.where(snap == s)[0], its minimum or 0 *)
Definition snap_start (sim : list (Z * nat)) (s : Z) : nat :=
  match filter (fun i => Z.eqb (fst (nth i sim (0%Z, 0%nat))) s) (seq 0 (length sim)) with i :: _ => i | [] => 0%nat end.
(** [indexing[indexing['snap'] == s]['index']] *)
Definition snap_rows (sim : list (Z * nat)) (s : Z) : list nat := map snd (filter (fun e => Z.eqb (fst e) s) sim).
(** [values[indices]]; an index past the end is an IndexError *)
Definition take_vals (v : list R) (ix : list nat) : exc (list R) :=
  mapM (fun i => match nth_error v i with Some x => Ok x | None => Raise IndexError end) ix.
(** 154: np.sort of the accepted keys; duplicates stay *)
Fixpoint insert_str (k : string) (l : list string) : list string :=
  match l with
  | [] => [k]
  | a :: r => if String.leb k a then k :: l else a :: insert_str k r
  end.
Definition sort_str (l : list string) : list string := fold_right insert_str [] l.
Definition pos_keys : list string := ["v_x"; "v_y"; "v_z"; "spin_x"; "spin_y"; "spin_z"; "cm_x"; "cm_y"; "cm_z"].
(** 143-154; [old] are the keys of light cone 0 *)
Definition add_keys (keys old all : list string) : list string :=
  sort_str (filter (fun k => negb (smem k pos_keys) && negb (smem k old) && (smem k all || String.eqb k "masscheck")) keys).
(** 157-173 and 222-225 *)
Definition add_head (w : lcworld) (n : nat) (keys : list string) : list (exc (nat * lop)) :=
  flat_map (fun i => match w i with
                     | None => [Raise OSError]
                     | Some f => Ok (i, LExtra true false) :: map (fun k => Ok (i, LAdd k (length (lf_sim f)))) keys
                     end) (seq 0 n).
Definition add_tail (n : nat) : list (exc (nat * lop)) := map (fun i => Ok (i, LExtra true true)) (seq 0 n).
(** 176-219; [sv s key] is the column of a snapshot up to mass_index_final, computed as in
    [snap_load] *)
Definition add_steps (sv : Z -> string -> exc (list R)) (use : list meta) (n : nat) (keys all : list string) (w : lcworld)
  : list (exc (nat * lop)) :=
  match w 0%nat with
  | None => [Raise OSError]
  | Some f0 =>
      let ks := add_keys keys (dkeys (lf_full f0)) all in
      add_head w n ks ++
      flat_map (fun m => flat_map (fun k =>
        match sv (m_index m) k with
        | Raise e => [Raise e]
        | Ok vals => map (fun i => match w i with
                                   | None => Raise OSError
                                   | Some f => do v <- take_vals vals (snap_rows (lf_sim f) (m_index m)) ;;
                                               Ok (i, LPut k (snap_start (lf_sim f) (m_index m)) v)
                                   end) (seq 0 n)
        end) ks) use ++
      add_tail n
  end.
(** add_pos_properties 319-335: the vector of a halo, rotated *)
Definition rotate_prop (p : pointing) (v : vec) : vec :=
  let u := mvec (p_pam p) (mvec (p_losm p) v) in mkV (vy u) (vz u) (vx u).
(** [i[:-2]] *)
Definition drop2 (s : string) : string := String.substring 0 (String.length s - 2) s.
(** 246-261 *)
Definition addpos_keys (keys old all : list string) : list string :=
  let have := filter (fun k => smem k ["pos"; "v"; "spin"; "cm"]) (map drop2 old) in
  sort_str (filter (fun k => negb (smem k have) && smem (k ++ "_x")%string all) keys).
Definition subkeys (k : string) : list string := [(k ++ "_x")%string; (k ++ "_y")%string; (k ++ "_z")%string].
(** 264-341; [sv s key] are the vectors of a snapshot up to mass_index_final *)
Definition addpos_steps (sv : Z -> string -> exc (list vec)) (use : list meta) (n : nat) (keys all : list string) (w : lcworld)
  : list (exc (nat * lop)) :=
  match w 0%nat with
  | None => [Raise OSError]
  | Some f0 =>
      let ks := addpos_keys keys (dkeys (lf_full f0)) all in
      add_head w n (flat_map subkeys ks) ++
      flat_map (fun m => flat_map (fun k =>
        match sv (m_index m) k with
        | Raise e => [Raise e]
        | Ok vals => flat_map (fun i => match w i with
            | None => [Raise OSError]
            | Some f =>
                match mapM (fun j => match nth_error vals j with Some x => Ok x | None => Raise IndexError end) (snap_rows (lf_sim f) (m_index m)), lf_pt f with
                | Raise e, _ => [Raise e]
                | _, None => [Raise KeyError]
                | Ok v, Some p =>
                    let u := map (rotate_prop p) v in
                    let o := snap_start (lf_sim f) (m_index m) in
                    [Ok (i, LPut (k ++ "_x")%string o (map vx u)); Ok (i, LPut (k ++ "_y")%string o (map vy u));
                     Ok (i, LPut (k ++ "_z")%string o (map vz u))]
                end
            end) (seq 0 n)
        end) ks) use ++
      add_tail n
  end.

(** * GenericLCMaker.__init__, 65-86 *)
Inductive overwrite := OwCheck | OwTrue | OwFalse | OwOther.
(** [answers] are the lines typed; running out of them is EOFError. Returns whether the
    directory was there *)
Fixpoint ask (answers : list string) : exc unit :=
  match answers with
  | [] => Raise (UserExn 1)
  | a :: r => if String.eqb a "y" then Ok tt else if String.eqb a "n" then Raise ValueError else ask r
  end.
Definition lc_open_dir (ow : overwrite) (there : bool) (answers : list string) : exc unit :=
  match ow with
  | OwOther => Raise ValueError
  | OwCheck => if there then ask answers else Ok tt
  | OwFalse => if there then Raise ValueError else Ok tt
  | OwTrue => Ok tt
  end.
