(** Vocabulary for the statements about gridding the properties of a handler (C73, C74). *)
From Verif Require Import Dict Util Rat Val Arr GridModel GridSpec HandlerModel HGridModel.
Open Scope string_scope.
Open Scope Qc_scope.

(** [l] are the values return_property gives for [name] *)
Definition column (s : HandlerModel.st) (name : string) (ua in_h : bool) (l : list Qc) : Prop :=
  exists c, return_property s name ua (Some in_h) = Ok (Some c) /\ c_val c = map Some l.

(** the sum of the values of the halos that satisfy [P] *)
Definition halo_sum (P : nat -> bool) (v : list Qc) : Qc :=
  fold_right Qcplus 0 (map (fun j => nth j v 0) (filter P (seq 0 (length v)))).
(** the position of halo [j] *)
Definition pos3 (x y z : list Qc) (j : nat) : list Qc := [nth j x 0; nth j y 0; nth j z 0].

(** what every cell is multiplied by *)
Definition norm_is (n : normarg) (g : grid QcAlg) (q : Qc) : Prop :=
  match n with
  | NormNone => q = 1
  | NormVolume => q * (fnth (g_pix g) 0 * fnth (g_pix g) 1 * fnth (g_pix g) 2) = 1
  | NormNum r => q = r
  end.

(** the limits asked for on an axis; none: from 0 to the edge of the box *)
Definition lim_spec (side : Qc) (l : option farr) (lo hi : Qc) : Prop :=
  match l with
  | None => lo = 0 /\ hi = side
  | Some a => (fv a = [lo; hi] \/ fv a = [hi; lo]) /\ lo <= hi
  end.
(** the pixel size asked for on axis [i] of length [len]; none: a hundredth *)
Definition pix_spec (res : option farr) (i : nat) (len p : Qc) : Prop :=
  match res with
  | None => p = len / zq 100
  | Some r => nth_error (fv r) (if (length (fv r) =? 1)%nat then 0 else i) = Some p
  end.
Definition good_res (res : option farr) : Prop :=
  match res with Some r => forall v, In v (fv r) -> 0 < v | None => True end.

(** axis [i] of [g] covers [lo,hi] in pixels of size [p]: exactly if [p] divides the
    length, else up to a pixel *)
Definition covers (g : grid QcAlg) (i : nat) (lo hi p : Qc) : Prop :=
  fnth (g_center g) i = (lo + hi) / zq 2 /\ fnth (g_pix g) i = p /\
  hi - lo - p * frac 1 20 <= fnth (g_side g) i /\ fnth (g_side g) i < hi - lo + p /\
  forall k, hi - lo = zq k * p -> nth i (g_npix g) 0%nat = Z.to_nat k /\
    hd 0 (nth i (g_axes g) []) = lo /\ last (nth i (g_axes g) []) 0 = hi.

(** [g] holds the halos at positions [x],[y],[z] with values [cols]: one property per
    column; the value of a cell is the sum over the halos in that cell (lower edges
    included, upper edges not) times the normalisation, so that the total of a property
    is that of the halos over the grid. *)
Definition gridded (g : grid QcAlg) (x y z : list Qc) (cols : list (list Qc)) (norm : normarg) : Prop :=
  consistent g /\ g_ndim g = 3%nat /\ g_nprop g = length cols /\
  g_nobj g = length (filter (fun j => in_extent (g_axes g) (pos3 x y z j)) (seq 0 (length x))) /\
  exists d q, g_data g = Some d /\ norm_is norm g q /\
    (forall ix k v, inb (g_npix g) ix = true -> nth_error cols k = Some v ->
       get d (ix ++ [k])%list = Some (q * halo_sum (fun j => in_cell g ix (pos3 x y z j)) v)) /\
    (forall k v, nth_error cols k = Some v ->
       prop_total (g_npix g) d k = q * halo_sum (fun j => in_extent (g_axes g) (pos3 x y z j)) v).

(** whether h units are used *)
Definition use_h (s : HandlerModel.st) (inh : option bool) : bool := match inh with Some b => b | None => h_inh (fst s) end.
(** the length of the box in those units *)
Definition box_side (s : HandlerModel.st) (in_h : bool) (side : Qc) : Prop :=
  exists box, h_box (fst s) = Some box /\ side = if in_h then box else box / h_h (fst s).
(** the pixel sizes asked for are one or three numbers, and fit in each of the limits *)
Definition axes_fit (res : option farr) (lims : list (Qc * Qc)) : Prop :=
  (forall r, res = Some r -> length (fv r) = 1%nat \/ length (fv r) = 3%nat) /\
  forall i lo hi, nth_error lims i = Some (lo, hi) -> exists p, pix_spec res i (hi - lo) p /\ 0 < p /\ frac 21 20 * p < hi - lo.
(** the columns named [names] *)
Definition columns (s : HandlerModel.st) (names : list string) (ua in_h : bool) (cols : list (list Qc)) : Prop :=
  Forall2 (fun n v => column s n ua in_h v) names cols.
(** some objects, some values, and as many of each *)
Definition same_lengths (x y z : list Qc) (cols : list (list Qc)) : Prop :=
  x <> [] /\ cols <> [] /\ length y = length x /\ length z = length x /\ forall v, In v cols -> length v = length x.

(** * light cones *)
(** the light cone has a non-empty range of redshifts above -1 and angles that are not
    negative, and the rest frequency is positive *)
Definition lc_good (m : lcmeta) (restfreq : option Qc) : Prop :=
  0 < 1 + lm_zmin m /\ lm_zmin m <= lm_zmax m /\
  (forall a r, lm_geom m = Some (a, r) -> 0 <= a /\ 0 <= r) /\
  (forall f, restfreq = Some f -> 0 < f).
(** the coordinate along the line of sight of an object at redshift [z] *)
Definition los (restfreq : option Qc) (z : Qc) : Qc := match restfreq with Some f => f / (1 + z) | None => z end.
(** the limits asked for on axis [i] (0: right ascension, 1: declination, 2: redshift or
    frequency); none: the whole light cone *)
Definition lc_lim (m : lcmeta) (restfreq : option Qc) (i : nat) (l : option farr) (lo hi : Qc) : Prop :=
  match l with
  | Some a => (fv a = [lo; hi] \/ fv a = [hi; lo]) /\ lo <= hi
  | None =>
      match i with
      | 0%nat => exists ang asp, lm_geom m = Some (ang, asp) /\ lo = - ang / zq 2 /\ hi = ang / zq 2
      | 1%nat => exists ang asp, lm_geom m = Some (ang, asp) /\ lo = - (ang * asp) / zq 2 /\ hi = ang * asp / zq 2
      | _ => match restfreq with
             | None => lo = lm_zmin m /\ hi = lm_zmax m
             | Some f => lo = f / (1 + lm_zmax m) /\ hi = f / (1 + lm_zmin m)
             end
      end
  end.
(** the limits of the three axes *)
Definition lc_lims (m : lcmeta) (rf : option Qc) (l0 l1 l2 : option farr) (lims : list (Qc * Qc)) : Prop :=
  exists p0 p1 p2, lims = [p0; p1; p2] /\ lc_lim m rf 0 l0 (fst p0) (snd p0) /\ lc_lim m rf 1 l1 (fst p1) (snd p1) /\ lc_lim m rf 2 l2 (fst p2) (snd p2).
