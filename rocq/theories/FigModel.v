(** Executable model of the figures drawn from a [Grid]: [Grid.visualize]
    (simim/map/gridder.py 1790-1848) and [Grid.animate] (1852-1967).
    A figure is what matplotlib is handed: the positions and values of the coloured
    cells, the frames and their titles.  Rendering, colours, colour bars, fonts and
    figure sizes are not modelled.  No proofs here. *)
From Coq Require Import String.
From Verif Require Import Util Rat Val Arr GridModel GridModel2.
Open Scope Qc_scope.

(** * Numpy and matplotlib *)

(** [a[z]] with a Python integer: negative ones count from the end (numpy; gridder.py 1826-1848, 1883-1898) *)
Definition pyidx (n : nat) (z : Z) : exc nat :=
  if ((0 <=? z) && (z <? Z.of_nat n))%Z%bool then Ok (Z.to_nat z)
  else if ((- Z.of_nat n <=? z) && (z <? 0))%Z%bool then Ok (Z.to_nat (z + Z.of_nat n))
  else Raise IndexError.
Definition pyget {X} (l : list X) (z : Z) : exc X :=
  do i <- pyidx (length l) z ;; match nth_error l i with Some x => Ok x | None => Raise IndexError end.

(** positions [0..n-1] outside [drop], in increasing order *)
Definition others (n : nat) (drop : list nat) : list nat :=
  filter (fun i => negb (mem_nat i drop)) (seq 0 n).
(** the entries of an index (or shape) at the positions [keep] *)
Definition at_pos (keep ix : list nat) : list nat := map (fun i => nth i ix 0%nat) keep.

(** np.sum(a,axis=drop) for a tuple of distinct axes in range: each element of the result is the
    sum of the elements of [a] that agree with it on the axes kept (gridder.py 1834, 1927, 1939) *)
Definition sum_out {A : Alg} (drop : list nat) (a : arr A) : arr A :=
  let keep := others (length (shape a)) drop in
  tab (at_pos keep (shape a))
      (fun ix => vsum (map (getd v0 a)
                        (filter (fun jx => if list_eq_dec Nat.eq_dec (at_pos keep jx) ix then true else false)
                                (idxs (shape a))))).

(** the axis tuple handed to np.sum: a negative axis counts from the end, an axis out of range
    raises AxisError and a repeated one ValueError (AxisError is a ValueError too) *)
Definition norm_axes (n : nat) (l : list Z) : exc (list nat) :=
  do r <- mapM (fun z => match pyidx n z with Ok i => Ok i | Raise _ => Raise ValueError end) l ;;
  do _ <- check (nodupb r) ValueError ;; Ok r.
Definition np_sum {A : Alg} (l : list Z) (a : arr A) : exc (arr A) :=
  do r <- norm_axes (length (shape a)) l ;; Ok (sum_out r a).

(** [a[sel]]: one entry per leading axis, [None] the full slice and [Some z] an integer
    (gridder.py 1838-1846); an integer out of range raises IndexError *)
Fixpoint np_sel (sh : list nat) (sel : list (option Z)) : exc (list (option nat)) :=
  match sel, sh with
  | [], _ => Ok []
  | _ :: _, [] => Raise IndexError
  | None :: sel', _ :: sh' => do r <- np_sel sh' sel' ;; Ok (None :: r)
  | Some z :: sel', n :: sh' => do i <- pyidx n z ;; do r <- np_sel sh' sel' ;; Ok (Some i :: r)
  end.
(** shape that is left, and the full index for an index of the result *)
Fixpoint sel_shape (sel : list (option nat)) (sh : list nat) : list nat :=
  match sel, sh with
  | [], _ => sh
  | None :: sel', n :: sh' => n :: sel_shape sel' sh'
  | Some _ :: sel', _ :: sh' => sel_shape sel' sh'
  | _, [] => []
  end.
Fixpoint sel_index (sel : list (option nat)) (ix : list nat) : list nat :=
  match sel, ix with
  | [], _ => ix
  | Some i :: sel', _ => i :: sel_index sel' ix
  | None :: sel', i :: ix' => i :: sel_index sel' ix'
  | None :: sel', [] => []
  end.
Definition np_index {A : Alg} (sel : list (option Z)) (a : arr A) : exc (arr A) :=
  do s <- np_sel (shape a) sel ;;
  Ok (tab (sel_shape s (shape a)) (fun ix => getd v0 a (sel_index s ix))).

(** np.take(a,indices=i,axis=k) with scalar i; the axis is checked before the index *)
Definition np_take {A : Alg} (a : arr A) (i : Z) (k : Z) : exc (arr A) :=
  do ax <- match pyidx (length (shape a)) k with Ok x => Ok x | Raise _ => Raise ValueError end ;;
  do j <- pyidx (nth ax (shape a) 0%nat) i ;;
  Ok (tab (del_nth (shape a) ax) (fun ix => getd v0 a (ins_nth ix ax j))).

(** [a.T]: the axes in reverse order *)
Definition np_T {A : Alg} (a : arr A) : arr A := tab (rev (shape a)) (fun ix => getd v0 a (rev ix)).
(** [a.real] *)
Definition np_real {A : Alg} (a : arr A) : arr A := amap vre a.

(** what pcolor and pcolormesh are handed, after their checks: [p_x] and [p_y] bound (or, when they
    are one shorter, are the middles of) the columns and rows, and [p_c] holds the value of row j,
    column i at index [j; i] *)
Record panel (A : Alg) := mkPanel { p_x : list Qc; p_y : list Qc; p_c : arr A }.
Arguments mkPanel {A}. Arguments p_x {A}. Arguments p_y {A}. Arguments p_c {A}.
(** matplotlib (3.5 or later), shading='auto': an array that is not two dimensional cannot be
    unpacked (ValueError); coordinates that fit neither way raise TypeError (gridder.py 1848, 1932, 1944) *)
Definition pcolor {A : Alg} (x y : list Qc) (c : arr A) : exc (panel A) :=
  match shape c with
  | [r; k] =>
      if ((length x =? k + 1) && (length y =? r + 1) || (length x =? k) && (length y =? r))%nat%bool
      then Ok (mkPanel x y c) else Raise TypeError
  | _ => Raise ValueError
  end.

Section Figures.
Context {A : Alg}.
Notation grid := (grid A).

(** [a[:,:,p]]; with fewer than three axes there are too many indices.  At most two grid axes are
    kept, so there are never more. *)
Definition plane (p : Z) (a : arr A) : exc (arr A) :=
  match shape a with
  | [_; _; _] => np_index [None; None; Some p] a
  | _ => Raise IndexError
  end.

(** * Grid.visualize: gridder.py 1790-1848 *)

(** the argument slice_indices: 'sum' or a list of integers *)
Inductive slicing := SumOut | AtIndices (l : list Z).

(** 1838-1845: the tuple of slices; [rest] are the slice indices not used yet *)
Fixpoint slice_tuple (n i : nat) (ax : list Z) (rest : list Z) : list (option Z) :=
  match n with
  | O => []
  | S n' =>
      if existsb (Z.eqb (Z.of_nat i)) ax then None :: slice_tuple n' (S i) ax rest
      else match rest with
           | z :: rest' => Some z :: slice_tuple n' (S i) ax rest'
           | [] => []
           end
  end.

(** 1790-1848, with axkws and plotkws empty.  The figure and the labels come first, so an axis
    out of range raises before the length of [ax] is tested. *)
Definition grid_visualize (g : grid) (ax : list Z) (sl : slicing) (prop : Z) : exc (panel A) :=
  match g_data g with
  | None => Raise ValueError
  | Some d =>
      do _ <- check (2 <=? g_ndim g)%nat ValueError ;;
      do a0 <- pyget ax 0 ;; do _ <- pyget (g_axu g) a0 ;;
      do a1 <- pyget ax 1 ;; do _ <- pyget (g_axu g) a1 ;;
      do _ <- check (length ax =? 2)%nat ValueError ;;
      let remaining := filter (fun i => negb (existsb (Z.eqb (Z.of_nat i)) ax)) (seq 0 (g_ndim g)) in
      do image <- match sl with
                  | SumOut => do s <- np_sum (map Z.of_nat remaining) d ;; plane prop s
                  | AtIndices l =>
                      do _ <- check (length l =? length remaining)%nat ValueError ;;
                      do s <- np_index (slice_tuple (g_ndim g) 0 ax l) d ;; plane prop s
                  end ;;
      do x <- pyget (g_axes g) a0 ;; do y <- pyget (g_axes g) a1 ;;
      pcolor x y (np_T (np_real image))
  end.

(** * Grid.animate: gridder.py 1852-1967, logscale=False *)

(** one frame: the title's coordinate, the horizontal extent of the box drawn on the edge-on map,
    and the map shown *)
Record frame := mkFrame { fr_title : Qc; fr_box : Qc * Qc; fr_map : arr A }.
(** the figure: edge-on map, coordinates of the face-on map, the still frame and the moving ones *)
Record movie := mkMovie { mv_edge : panel A; mv_x : list Qc; mv_y : list Qc; mv_still : frame; mv_frames : list frame }.

(** 1939-1941, 1957-1959: the face-on map at one index of the sliding axis *)
Definition face_map (d : arr A) (flatten : list nat) (f0 f1 slide i : Z) : exc (arr A) :=
  do s <- np_sum (map Z.of_nat flatten) d ;;
  do m <- np_take s i slide ;;
  Ok (if (f0 <? f1)%Z then np_T m else m).

(** 1883-1898: the coordinates of one axis of the figure *)
Definition fig_centers (g : grid) (z : Z) : exc (list Qc) :=
  do f <- pyget (g_fsp g) z ;;
  if f then pyget (g_fcenters g) z else pyget (g_centers g) z.
(** 1883-1886: the sliding axis is moved down by half a pixel first, unless in Fourier space *)
Definition slide_centers (g : grid) (z : Z) : exc (list Qc) :=
  do f <- pyget (g_fsp g) z ;;
  if f then pyget (g_fcenters g) z
  else do c <- pyget (g_centers g) z ;; do p <- pyget (fv (g_pix g)) z ;; Ok (map (fun x => x - p / zq 2) c).

(** 1852-1964.  The colour range (1901-1906) is not modelled; [d] below is the data of the property
    chosen.  [setdiff1d] and the tests with [>=] let negative axis numbers through. *)
Definition grid_figure (g : grid) (prop slide : Z) (faces : list Z) (i0 : Z) : exc movie :=
  match g_data g with
  | None => Raise ValueError
  | Some d0 =>
      do _ <- check (3 <=? g_ndim g)%nat ValueError ;;
      do _ <- check (prop <? Z.of_nat (g_nprop g))%Z ValueError ;;
      do _ <- check (slide <? Z.of_nat (g_ndim g))%Z ValueError ;;
      do _ <- check (forallb (fun f => f <? Z.of_nat (g_ndim g))%Z faces) ValueError ;;
      match faces with
      | [f0; f1] =>
          let flatten := filter (fun i => negb (existsb (Z.eqb (Z.of_nat i)) [slide; f0; f1])) (seq 0 (g_ndim g)) in
          do sax <- slide_centers g slide ;; do ax0 <- axis_edges sax ;;
          do c1 <- fig_centers g f0 ;; do ax1 <- axis_edges c1 ;;
          do c2 <- fig_centers g f1 ;; do ax2 <- axis_edges c2 ;;
          do dp <- np_index (map (fun _ => None) (g_npix g) ++ [Some prop]) d0 ;;
          let d := np_real dp in
          do em <- np_sum (map Z.of_nat flatten ++ [f0]) d ;;
          let em := if (slide <? f1)%Z then np_T em else em in
          do edge <- pcolor ax0 ax2 em ;;
          do b0 <- pyget ax0 i0 ;; do b1 <- pyget ax0 (i0 + 1) ;;
          do t0 <- pyget sax 0 ;;
          do m0 <- face_map d flatten f0 f1 slide i0 ;;
          do p0 <- pcolor ax1 ax2 m0 ;;
          do frames <- mapM (fun i => let z := Z.of_nat i in
                        do t <- pyget sax z ;; do l <- pyget ax0 z ;; do r <- pyget ax0 (z + 1) ;;
                        do m <- face_map d flatten f0 f1 slide z ;;
                        Ok (mkFrame t (l, r) m)) (seq 0 (length sax)) ;;
          Ok (mkMovie edge ax1 ax2 (mkFrame t0 (b0, b1) m0) frames)
      | _ => Raise ValueError
      end
  end.

(** what is put on the screen or on disk *)
Inductive shown := SavedMovie (path : string) (m : movie) | SavedStill (path : string) (m : movie) | OnScreen (m : movie).

(** 1961-1967: with still=True the name returned at the end was never bound (UnboundLocalError, a
    NameError).  The result is what has been shown and the value returned: the frames. *)
Definition grid_animate (g : grid) (save : option string) (prop slide : Z) (faces : list Z) (i0 : Z) (still : bool)
    : list shown * exc (list frame) :=
  match grid_figure g prop slide faces i0 with
  | Raise e => ([], Raise e)
  | Ok m =>
      let saved := match save with
                   | None => []
                   | Some p => if still then [SavedStill p m] else [SavedMovie (String.append p ".mp4") m]
                   end in
      (saved ++ [OnScreen m], if still then Raise NameError else Ok (mv_frames m))
  end.
End Figures.
Arguments movie : clear implicits. Arguments frame : clear implicits.
