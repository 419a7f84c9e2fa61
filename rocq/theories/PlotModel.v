(** Model of LCHandler.animate (simim/lightcone/lchandler.py 313-477) and of the plots of Instrument
    (simim/instrument/instrument.py 997-1068 and 1070-1108). No proofs here.

    Simplifications that hold for the whole file: floats are real numbers, NaN is None; a figure is the data handed to
    matplotlib; colours, labels and layout are left out. *)
From Verif Require Import Dict Util RealUtil RawModel RespModel.
From Coq Require Import Reals.
Open Scope string_scope. Open Scope list_scope.
Open Scope R_scope.

(** * The animation of a light cone *)
(** An open light cone, lchandler.py 71-97: h, redshifts, open angle (None when the file has none), default for
    in_h_units, and the columns in memory with their power of h; [k_active] are the active indices. *)
Record cone := mkCone {
  k_h : R; k_zmin : R; k_zmax : R; k_angle : option R; k_inh : bool;
  k_cols : dict (Z * list R); k_active : list nat }.

(** return_property, _handlers.py 187-239, for columns that are in memory (HandlerModel.v has the rest) *)
Definition column (c : cone) (name : string) (use_all in_h : bool) : exc (list R) :=
  match dget (k_cols c) name with
  | None => Raise ValueError
  | Some (e, vs) =>
      let scale := if in_h then 1 else powerRZ (k_h c) e in
      do l <- (if use_all then Ok vs
               else mapM (fun i => match nth_error vs i with Some v => Ok v | None => Raise IndexError end) (k_active c)) ;;
      Ok (map (fun v => v * scale) l)
  end.

(** 368-375 and 378-384: the property, or its logarithm, relative to its range. 0/0 is NaN. Logarithms of numbers that
    are not positive are not modelled. *)
Definition relative (scale : string) (vs : list R) : exc (list (option R)) :=
  do ws <- (if scale =? "log" then (if forallb (rltb 0) vs then Ok (map log10 vs) else Raise unmodelled)
            else if scale =? "linear" then Ok vs else Raise ValueError) ;;
  match ws with
  | [] => Raise ValueError
  | _ => let lo := list_min ws in let range := list_max ws - lo in
         Ok (map (fun w => if reqb range 0 then None else Some ((w - lo) / range)) ws)
  end.

(** one frame, 447-471: the redshift in the title, the box on the cone plot (its two distances, half its height), the
    sizes of the markers on both cross-sections, and half the width of the outline of the physical one *)
Record lframe := mkLF { lf_title : R; lf_box : R * R; lf_half : R; lf_sizes : list (option R); lf_outline : R }.
(** the positions of the markers on the three plots, 407, 416 and 425; relative colours; the frames *)
Record lmovie := mkLM { lm_cone : list (R * R); lm_xy : list (R * R); lm_radec : list (R * R);
  lm_colors : list (option R); lm_frames : list lframe }.
Inductive loutput := LSaved (file : string) (m : lmovie) | LShown (m : lmovie).

Section Movie.
(** the cosmology: comoving_distance and comoving_transverse_distance in Mpc, and z_at_value(comoving_distance, .) *)
Context (dist trans z_at : R -> R).

(** 443-445 *)
Definition lc_steps (lo hi : R) : Z := rceil ((hi - lo) / 50).
Definition lc_step (lo hi : R) : Z := rceil ((hi - lo) / IZR (lc_steps lo hi)).

(** 447-471 *)
Definition lc_frame (lo lim_xy angle step : R) (z : list R) (sizes : list (option R)) (i : nat) : lframe :=
  let redshift := z_at (lo + step * (INR i + / 2)) in
  let a := lo + step * INR i in let b := lo + step * (INR i + 1) in
  mkLF redshift (a, b) (lim_xy / 2)
    (map (fun zs => if rltb a (fst zs) && rltb (fst zs) b then snd zs else Some 0) (combine z sizes))
    (trans redshift * angle / 2).

(** 340-475 up to what is shown. A cone whose two distances are equal is not modelled (0/0, 445). *)
Definition lc_movie (c : cone) (use_all : bool) (color colorscale size sizescale : string) (in_h : option bool) : exc lmovie :=
  let ih := match in_h with Some b => b | None => k_inh c end in
  do x <- column c "pos_x" use_all ih ;; do y <- column c "pos_y" use_all ih ;; do z <- column c "pos_z" use_all ih ;;
  do ra <- column c "ra" use_all ih ;; do dec <- column c "dec" use_all ih ;; do _ <- column c "redshift" use_all ih ;;
  do angle <- match k_angle c with Some a => Ok a | None => Raise KeyError end ;;
  let lim_xy := trans (k_zmax c) * k_h c * angle in
  let hi := dist (k_zmax c) * k_h c in
  let lo := dist (k_zmin c) * k_h c in
  do cv <- column c color use_all ih ;; do colors <- relative colorscale cv ;;
  do sv <- column c size use_all ih ;; do rel <- relative sizescale sv ;;
  let sizes := map (option_map (fun r => (r + 1 / 5) * 5)) rel in
  if rleb hi lo then Raise unmodelled else
  let arcmin := 180 / PI * 60 in
  Ok (mkLM (combine z x) (combine x y) (combine (map (fun v => v * arcmin) ra) (map (fun v => v * arcmin) dec)) colors
        (map (lc_frame lo lim_xy angle (IZR (lc_step lo hi)) z sizes) (seq 0 (Z.to_nat (lc_steps lo hi))))).

(** 473-477 *)
Definition lc_animate (c : cone) (save : option string) (use_all : bool) (color colorscale size sizescale : string)
    (in_h : option bool) : list loutput * exc unit :=
  match lc_movie c use_all color colorscale size sizescale in_h with
  | Raise e => ([], Raise e)
  | Ok m => ((match save with Some s => [LSaved (s ++ ".mp4") m] | None => [] end ++ [LShown m])%list, Ok tt)
  end.
End Movie.

(** * Plots of detectors *)
(** A detector as the plots see it: reference frequency, spectral and spatial response with their keyword arguments
    (instrument.py 18-31, 603-606) *)
Record pdet := mkPD { pd_ref : found; pd_spec : axin -> exc (list (option R));
  pd_spat : axin -> axin -> axin -> exc (list (list (list (option R)))) }.
(** detectors, detector_names and best_spatial_res of an instrument, 140-167 *)
Record pinst := mkPI { pi_dets : dict pdet; pi_names : list string; pi_res : option R }.

(** np.linspace(a, b, n) *)
Definition linspace (a b : R) (n : nat) : list R := map (fun i => a + INR i * ((b - a) / INR (n - 1))) (seq 0 n).
(** 182-191 _check_detectors *)
Fixpoint no_repeats (l : list string) : bool := match l with [] => true | a :: r => negb (smem a r) && no_repeats r end.
Definition check_names (s : pinst) (names : list string) : exc unit :=
  do _ <- check (forallb (fun d => smem d (pi_names s)) names) ValueError ;; check (no_repeats names) ValueError.
(** self.detectors[k].reffreq; a reference frequency of NaN makes every frequency of the plot NaN, which is not modelled *)
Definition ref_of (s : pinst) (k : string) : exc R :=
  do d <- dfind (pi_dets s) k ;; match pd_ref d with Freq x => Ok x | Unknown => Raise unmodelled end.
(** np.min, np.max: ValueError for an empty list *)
Definition np_ext (f : list R -> R) (l : list R) : exc R := match l with [] => Raise ValueError | _ => Ok (f l) end.

(** One figure: the curve on the left axes, its vertical line, and the coordinates and colours given to pcolor on the
    right axes *)
Record dfig := mkDF { df_name : string; df_f : list R; df_curve : list (option R); df_line : R;
  df_x : list R; df_y : list R; df_c : list (list (option R)) }.
(** pcolor(x, y, C) with as many x as columns of C and as many y as rows: the cell at x[j], y[i] has colour C[i][j] *)
Definition colour_at (f : dfig) (j i : nat) : option R := nth j (nth i (df_c f) []) None.

Definition opt_or {X} (o : option X) (d : exc X) : exc X := match o with Some x => Ok x | None => d end.
(** one pass of the loop, 1047-1066. A shape of the spatial response that pcolor refuses is not modelled. *)
Definition detector_figure (s : pinst) (fmin fmax xmin xmax ymin ymax : R) (fspatial : option R) (dn : string) : exc dfig :=
  do d <- dfind (pi_dets s) dn ;;
  do fs <- opt_or fspatial (ref_of s dn) ;;
  let f := linspace fmin fmax 1000 in
  do curve <- pd_spec d (ASeq f) ;;
  let x := linspace xmin xmax 100 in let y := linspace ymin ymax 100 in
  do r <- pd_spat d (ASeq x) (ASeq y) (ANum fs) ;;
  do c <- mapM (mapM (fun l => match l with v :: _ => Ok v | [] => Raise IndexError end)) r ;;
  Ok (mkDF dn f curve fs x y c).

(** 998-1068 plot_detector_response *)
Definition plot_detector_response (s : pinst) (names : list string) (xmin xmax ymin ymax fmin fmax fspatial : option R) : exc (list dfig) :=
  do names <- match names with [] => Ok (pi_names s) | _ => do _ <- check_names s names ;; Ok names end ;;
  do f1 <- opt_or fmin (do l <- mapM (ref_of s) names ;; do m <- np_ext list_min l ;; Ok (9 / 10 * m)) ;;
  do f2 <- opt_or fmax (do l <- mapM (ref_of s) names ;; do m <- np_ext list_max l ;; Ok (11 / 10 * m)) ;;
  let edge (sign : R) := match pi_res s with Some r => Ok (sign * 5 * r) | None => Raise ValueError end in
  do x1 <- opt_or xmin (edge (-1)) ;; do x2 <- opt_or xmax (edge 1) ;;
  do y1 <- opt_or ymin (edge (-1)) ;; do y2 <- opt_or ymax (edge 1) ;;
  mapM (detector_figure s f1 f2 x1 x2 y1 y2 fspatial) names.

(** 1071-1108 plot_spectral_response: [self.detectors.values] is a method, not a list (1085, 1087), and
    [detector_freqs] is never set (1103) *)
Definition plot_spectral_response (s : pinst) (fmin fmax : option R) : exc (list dfig) :=
  match fmin, fmax with Some _, Some _ => Raise AttributeError | _, _ => Raise TypeError end.
