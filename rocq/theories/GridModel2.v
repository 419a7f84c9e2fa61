(** Executable model of [simim/map/gridder.py], continued: files, collapsing,
    Fourier transforms, power spectra, spherical averages, convolution, binning
    and the classes derived from [Grid].  Same conventions as [GridModel]. *)
From Coq Require Import String.
From Verif Require Import Util Rat Val Arr GridModel.
Open Scope Qc_scope.

(** * Numpy broadcasting *)

(** broadcast of two dimensions *)
Definition bdim (a b : nat) : option nat :=
  if (a =? b)%nat then Some a else if (a =? 1)%nat then Some b else if (b =? 1)%nat then Some a else None.
(** shapes given from the last dimension backwards *)
Fixpoint bshape_rev (a b : list nat) : option (list nat) :=
  match a, b with
  | [], _ => Some b
  | _, [] => Some a
  | x :: a', y :: b' =>
      match bdim x y, bshape_rev a' b' with Some z, Some r => Some (z :: r) | _, _ => None end
  end.
Definition bshape (a b : list nat) : option (list nat) := option_map (@rev nat) (bshape_rev (rev a) (rev b)).
(** index into an array of shape [sh] for index [ix] of the broadcast result *)
Definition bidx (sh ix : list nat) : list nat :=
  rev (map (fun p => if (fst p =? 1)%nat then 0%nat else snd p) (combine (rev sh) (rev ix))).
(** elementwise [f(a,b)] with broadcasting; incompatible shapes raise ValueError *)
Definition bop {X Y Z} (dx : X) (dy : Y) (f : X -> Y -> Z) (a : arr X) (b : arr Y) : exc (arr Z) :=
  match bshape (shape a) (shape b) with
  | None => Raise ValueError
  | Some sh => Ok (tab sh (fun ix => f (getd dx a (bidx (shape a) ix)) (getd dy b (bidx (shape b) ix))))
  end.

(** np.sum(a,axis=ax); an axis out of range raises AxisError, a ValueError *)
Definition sum_axis {A : Alg} (ax : nat) (a : arr A) : exc (arr A) :=
  match nth_error (shape a) ax with
  | None => Raise ValueError
  | Some n => Ok (tab (del_nth (shape a) ax)
                      (fun ix => vsum (map (fun k => getd v0 a (ins_nth ix ax k)) (seq 0 n))))
  end.

(** * Files: gridder.py 515-552 and 2101-2125 *)

(** what np.savez stores *)
Record saved (A : Alg) := mkSaved {
  s_nprop : nat; s_center : farr; s_side : farr; s_pix : farr; s_axu : units; s_gru : units;
  s_nobj : nat; s_fsp : list bool; s_ispow : bool;
  s_data : option (arr A)        (* grid_active, grid *) }.
Arguments mkSaved {A}. Arguments s_nprop {A}. Arguments s_center {A}. Arguments s_side {A}. Arguments s_pix {A}.
Arguments s_axu {A}. Arguments s_gru {A}. Arguments s_nobj {A}. Arguments s_fsp {A}. Arguments s_ispow {A}. Arguments s_data {A}.

(** a file: one written by [save], or anything else *)
Inductive file (A : Alg) := GridFile (s : saved A) | OtherFile.
Arguments GridFile {A}. Arguments OtherFile {A}.
Definition fsys (A : Alg) := string -> option (file A).
Definition fs_set {A} (fs : fsys A) (p : string) (f : file A) : fsys A :=
  fun q => if String.eqb q p then Some f else fs q.

(** the suffix numpy looks for *)
Definition ends_npz (s : string) : bool :=
  let n := String.length s in
  ((4 <=? n)%nat && String.eqb (substring (n - 4) 4 s) ".npz")%bool.
(** np.savez appends the suffix when it is missing *)
Definition savez_name (s : string) : string := if ends_npz s then s else String.append s ".npz".

Definition to_saved {A} (g : grid A) : saved A :=
  mkSaved (g_nprop g) (g_center g) (g_side g) (g_pix g) (g_axu g) (g_gru g) (g_nobj g) (g_fsp g) (g_ispow g) (g_data g).

(** 515-552 [save].  Line 536 tests the path as given, not the name written. *)
Definition grid_save {A} (fs : fsys A) (g : grid A) (path : string) (overwrite : bool) : fsys A * exc unit :=
  if (match fs path with Some _ => true | None => false end && negb overwrite)%bool then (fs, Raise ValueError)
  else (fs_set fs (savez_name path) (GridFile (to_saved g)), Ok tt).

(** 2101-2125 [LoadGrid] *)
Definition load_grid {A} (fs : fsys A) (path : string) : exc (grid A) :=
  match fs path with
  | None => Raise OSError
  | Some OtherFile => Raise ValueError
  | Some (GridFile s) =>
      do g <- grid_new A (s_nprop s) (s_center s) (s_side s) (s_pix s) (Some (s_axu s)) (Some (s_gru s)) ;;
      let g1 := match s_data s with
                | Some d => with_nobj (with_data g (Some d)) (s_nobj s)
                | None => g
                end in
      Ok (with_ispow (with_fsp g1 (s_fsp s)) (s_ispow s))
  end.

Section Methods2.
Context {A : Alg}.
Notation grid := (grid A).

Definition axes_valid (g : grid) (ax : list Z) : bool :=
  forallb (fun a => (a <? Z.of_nat (g_ndim g))%Z && (0 <=? a)%Z) ax.

(** * collapse_dimension: gridder.py 1222-1350 *)
Inductive cmode := MSum | MAverage | MOther.

(** 1277-1300, one weights array brought to broadcastable shape *)
Definition cook_weight (g : grid) (d : arr A) (a : nat) (w : arr Qc) : exc (arr Qc) :=
  if (length (shape w) =? 1)%nat then
    if (hd 0 (shape w) =? length (nth a (g_centers g) []))%nat
    then Ok (mkArr (upd (repeat 1%nat (g_ndim g + 1)) a (hd 0%nat (shape w))) (dat w))
    else Raise ValueError
  else if (length (shape w) =? g_ndim g)%nat then
    if list_eq_dec Nat.eq_dec (shape w) (removelast (shape d))
    then Ok (mkArr (shape w ++ [1%nat]) (dat w)) else Raise ValueError
  else if (length (shape w) =? g_ndim g + 1)%nat then
    if list_eq_dec Nat.eq_dec (shape w) (shape d)
    then Ok (mkArr (shape w ++ [1%nat]) (dat w)) else Raise ValueError
  else Raise ValueError.

(** 1270-1300 *)
Definition cook_weights (g : grid) (d : arr A) (ax : list nat) (ws : option (list (arr Qc))) : exc (list (arr Qc)) :=
  let ws := match ws with
            | None => map (fun a => full [length (nth a (g_centers g) [])] 1) ax
            | Some l => l
            end in
  do _ <- check (length ws =? length ax)%nat ValueError ;;
  mapM (fun aw => cook_weight g d (fst aw) (snd aw)) (combine ax ws).

(** 1302-1312: [None] stands for the norm 1 *)
Definition collapse_norms (mode : cmode) (ax : list nat) (ws : list (arr Qc)) : exc (list (option (arr Qc))) :=
  match mode with
  | MSum => Ok (map (fun _ => None) ax)
  | MAverage => mapM (fun aw => do s <- sum_axis (A:=QcAlg) (fst aw) (snd aw) ;; Ok (Some s)) (combine ax ws)
  | MOther => Raise ValueError
  end.

(** np.sum(grid*weights,axis)/norm.  Numpy division by a zero norm gives inf or nan;
    here it gives zero, and no theorem uses it. *)
Definition collapse_step (d : arr A) (a : nat) (w : arr Qc) (nm : option (arr Qc)) : exc (arr A) :=
  do p <- bop v0 0 (fun x q => (x * emb q)%V) d w ;;
  do s <- sum_axis a p ;;
  match nm with
  | None => Ok s
  | Some n => bop v0 0 (fun x q => (x * emb (/ q))%V) s n
  end.

(** 1316-1317: the loop; the data reached so far is kept when a step raises *)
Fixpoint collapse_loop (d : arr A) (l : list (nat * arr Qc * option (arr Qc))) : arr A * exc unit :=
  match l with
  | [] => (d, Ok tt)
  | (a, w, nm) :: l' =>
      match collapse_step d a w nm with
      | Ok d' => collapse_loop d' l'
      | Raise e => (d, Raise e)
      end
  end.

(** 1319-1333: metadata of the remaining axes *)
Definition keep_axes (g : grid) (ax : list nat) : list nat :=
  filter (fun i => negb (mem_nat i ax)) (seq 0 (g_ndim g)).
Definition drop_axes (g : grid) (ax : list nat) (d : arr A) : grid :=
  let keep := keep_axes g ax in
  mkGrid (g_nprop g) (g_nobj g) (g_ndim g - length ax) (ftake (g_center g) keep) (ftake (g_side g) keep)
    (ftake (g_pix g) keep) (map (fun i => nth i (g_npix g) 0%nat) keep)
    (map (fun i => nth i (g_axu g) None) keep) (map (fun i => nth i (g_faxu g) None) keep) (g_gru g)
    (map (fun i => nth i (g_axes g) []) keep) (map (fun i => nth i (g_centers g) []) keep)
    (map (fun i => nth i (g_faxes g) []) keep) (map (fun i => nth i (g_fcenters g) []) keep)
    (map (fun i => nth i (g_fsp g) false) keep) (g_ispow g) (Some d).

(** what is computed before anything is changed *)
Definition collapse_plan (g : grid) (ax : list Z) (ws : option (list (arr Qc))) (mode : cmode)
    : exc (arr A * list nat * list (nat * arr Qc * option (arr Qc))) :=
  match g_data g with
  | None => Raise ValueError
  | Some d =>
      do _ <- check (axes_valid g ax) ValueError ;;
      let axn := map Z.to_nat ax in
      do cw <- cook_weights g d axn ws ;;
      do nm <- collapse_norms mode axn cw ;;
      Ok (d, axn, combine (combine axn cw) nm)
  end.

(** in_place=True *)
Definition grid_collapse (g : grid) (ax : list Z) (ws : option (list (arr Qc))) (mode : cmode) : grid * exc unit :=
  match collapse_plan g ax ws mode with
  | Raise e => (g, Raise e)
  | Ok (d, axn, steps) =>
      match collapse_loop d steps with
      | (d', Raise e) => (with_data g (Some d'), Raise e)
      | (d', Ok _) => (drop_axes g axn d', Ok tt)
      end
  end.

(** in_place=False: the copy is made first, and takes its counts from copy() *)
Definition grid_collapse_new (g : grid) (ax : list Z) (ws : option (list (arr Qc))) (mode : cmode) : exc grid :=
  do (d, axn, steps) <- collapse_plan g ax ws mode ;;
  do c <- grid_copy g None ;;
  match g_data c with
  | None => Raise ValueError
  | Some dc =>
      match collapse_loop dc steps with
      | (_, Raise e) => Raise e
      | (d', Ok _) =>
          let h := drop_axes g axn d' in
          Ok (mkGrid (g_nprop c) (g_nobj c) (g_ndim h) (g_center h) (g_side h) (g_pix h) (g_npix h) (g_axu h) (g_faxu h)
                (g_gru c) (g_axes h) (g_centers h) (g_faxes h) (g_fcenters h) (g_fsp h) (g_ispow c) (Some d'))
      end
  end.

(** * Fourier transforms: gridder.py 1353-1410 *)

(** sum over axis [ax] against a kernel: out[..j..] = sum_k K j k * a[..k..] *)
Definition along (K : nat -> nat -> A) (ax : nat) (a : arr A) : arr A :=
  tab (shape a) (fun ix => vsum (map (fun k => (K (nth ax ix 0%nat) k * getd v0 a (upd ix ax k))%V)
                                     (seq 0 (nth ax (shape a) 0%nat)))).

Section Roots.
(** [w n] stands for exp(-2 pi i / n), the factor numpy's FFT uses *)
Context (w : nat -> A).

(** np.fft.fft / ifft along one axis, by definition of the discrete transforms *)
Definition fft_axis (ax : nat) (a : arr A) : arr A :=
  along (fun j k => vpow (w (nth ax (shape a) 0%nat)) (j * k)) ax a.
Definition ifft_axis (ax : nat) (a : arr A) : arr A :=
  let n := nth ax (shape a) 0%nat in
  along (fun j k => (emb (/ nq n) * vpow (star (w n)) (j * k))%V) ax a.
(** np.fft.fftn / ifftn transform the listed axes one after the other, last first *)
Definition fftn (axs : list nat) (a : arr A) : arr A := fold_right fft_axis a axs.
Definition ifftn (axs : list nat) (a : arr A) : arr A := fold_right ifft_axis a axs.

(** np.roll by [s] along one axis *)
Definition roll_axis (s : nat -> nat) (ax : nat) (a : arr A) : arr A :=
  let n := nth ax (shape a) 0%nat in
  tab (shape a) (fun ix => getd v0 a (upd ix ax ((nth ax ix 0%nat + (n - s n)) mod n)%nat)).
(** np.fft.fftshift (by n//2) and ifftshift (by -(n//2)) *)
Definition shift_axes (axs : list nat) (a : arr A) : arr A := fold_right (roll_axis (fun n => n / 2)%nat) a axs.
Definition unshift_axes (axs : list nat) (a : arr A) : arr A := fold_right (roll_axis (fun n => n - n / 2)%nat) a axs.

Definition scale_arr (c : A) (a : arr A) : arr A := amap (fun x => (x * c)%V) a.

(** product of [f i] over the list *)
Definition qprod_over (f : nat -> Qc) (l : list nat) : Qc := fold_left (fun acc i => acc * f i) l 1.

Definition axes_arg (g : grid) (ax : option (list Z)) : exc (list nat) :=
  match ax with
  | None => Ok (seq 0 (g_ndim g))
  | Some l => do _ <- check (axes_valid g l) ValueError ;; Ok (map Z.to_nat l)
  end.

(** 1384-1410 *)
Definition ft_apply (g : grid) (d : arr A) (axn : list nat) (normalize : bool) : grid :=
  let fw := filter (fun i => negb (nth i (g_fsp g) false)) axn in
  let bk := filter (fun i => nth i (g_fsp g) false) axn in
  let nf := qprod_over (fun i => fnth (g_pix g) i) fw in
  let nb := fold_left (fun acc i => acc / fnth (g_pix g) i) bk 1 in
  let d1 := shift_axes fw (fftn fw d) in
  let d2 := if normalize then scale_arr (emb nf) d1 else d1 in
  let f1 := fold_left (fun f i => upd f i true) fw (g_fsp g) in
  let d3 := ifftn bk (unshift_axes bk d2) in
  let d4 := if normalize then scale_arr (emb nb) d3 else d3 in
  let f2 := fold_left (fun f i => upd f i false) bk f1 in
  with_data (with_fsp g f2) (Some d4).

Definition fourier_transform (g : grid) (ax : option (list Z)) (normalize : bool) : grid * exc unit :=
  match g_data g with
  | None => (g, Raise ValueError)
  | Some d =>
      if g_ispow g then (g, Raise ValueError)
      else match axes_arg g ax with
           | Raise e => (g, Raise e)
           | Ok axn => (ft_apply g d axn normalize, Ok tt)
           end
  end.

(** * power_spectrum: gridder.py 1414-1572 *)

(** 1481-1487: the axes whose space has to change *)
Definition transform_list (g : grid) (axn : list nat) : list nat :=
  filter (fun i => negb (nth i (g_fsp g) false)) axn ++
  filter (fun i => (negb (mem_nat i axn) && nth i (g_fsp g) false)%bool) (seq 0 (g_ndim g)).

(** 1463-1472: checks on the cross grid *)
Definition cross_ok (g : grid) (cross : option grid) : bool :=
  match cross with
  | None => true
  | Some c => (active c && negb (g_ispow c) && (g_ndim c =? g_ndim g)%nat &&
               ((g_nprop c =? 1) || (g_nprop g =? 1) || (g_nprop c =? g_nprop g))%nat)%bool
  end.

(** (a * b.conj()).real *)
Definition power (a b : arr A) : exc (arr A) := bop v0 v0 (fun x y => vre (x * star y)%V) a b.

(** the grid, the cross grid and the returned grid.  [cross] is a grid different
    from [g] ([cross_grid is self] is treated by the code as no cross grid).  In
    place, the returned grid is the grid itself. *)
Definition power_spectrum (g : grid) (cross : option grid) (ax : option (list Z)) (in_place normalize : bool)
    : grid * option grid * exc grid :=
  match g_data g with
  | None => (g, cross, Raise ValueError)
  | Some d0 =>
      if g_ispow g then (g, cross, Raise ValueError)
      else if negb (cross_ok g cross) then (g, cross, Raise ValueError)
      else
        match axes_arg g ax with
        | Raise e => (g, cross, Raise e)
        | Ok axn =>
            let tl := transform_list g axn in
            let g1 := ft_apply g d0 tl normalize in
            let d1 := match g_data g1 with Some d => d | None => d0 end in
            (* [ctl] is None exactly when there is no cross grid *)
            let cr := match cross with
                      | Some c => match g_data c with
                                  | Some dc => let ctl := transform_list c axn in
                                               Some (ft_apply c dc ctl normalize, ctl)
                                  | None => None
                                  end
                      | None => None
                      end in
            let c1 := match cr with Some (c, _) => Some c | None => cross end in
            let back (c : option grid) :=
              match cr with
              | Some (c, ctl) => match g_data c with Some dc => Some (ft_apply c dc ctl normalize) | None => Some c end
              | None => cross
              end in
            let pw := match cr with
                      | Some (c, _) => match g_data c with Some dc => power d1 dc | None => Raise ValueError end
                      | None => power d1 d1
                      end in
            if in_place then
              match pw with
              | Raise e => (g1, c1, Raise e)
              | Ok p => let g2 := with_ispow (with_data g1 (Some p)) true in (g2, back c1, Ok g2)
              end
            else
              match grid_new A (g_nprop g) (g_center g) (g_side g) (g_pix g) (Some (g_axu g)) (Some (g_gru g)) with
              | Raise e => (g1, c1, Raise e)
              | Ok n =>
                  match pw with
                  | Raise e => (g1, c1, Raise e)
                  | Ok p =>
                      (ft_apply g1 d1 tl normalize, back c1,
                       Ok (with_fsp (with_ispow (with_nobj (with_data n (Some p)) (g_nobj g)) true)
                             (map (fun _ => true) (g_fsp g))))
                  end
              end
        end
  end.
End Roots.

(** * spherical_average: gridder.py 1575-1786, shells given by the user *)

(** 1648-1662 *)
Definition cook_sweights (d : arr A) (ws : option (arr Qc)) : exc (arr Qc) :=
  match ws with
  | None => Ok (full (repeat 1%nat (length (shape d))) 1)
  | Some w =>
      if (length (shape d) <? length (shape w))%nat then Raise (UserExn 0)   (* not modelled *)
      else
        let w' := mkArr (shape w ++ repeat 1%nat (length (shape d) - length (shape w))) (dat w) in
        if forallb (fun p => ((fst p =? snd p) || (fst p =? 1))%nat) (combine (shape w') (shape d))
        then Ok w' else Raise ValueError
  end.

(** np.digitize(r,shells)-1 for increasing shells: the number of shells <= r, less
    one.  The radius enters through its square [r2]: s <= sqrt r2 *)
Definition digitize (shells : list Qc) (r2 : Qc) : Z :=
  (Z.of_nat (length (filter (fun s => (qltb s 0 || qleb (s * s) r2)%bool) shells)) - 1)%Z.

Definition rad2 (axvals : list (list Qc)) (center : list Qc) (ax : list nat) (ix : list nat) : Qc :=
  qsum (map (fun i => let x := nth (nth i ix 0%nat) (nth i axvals []) 0 - nth i center 0 in x * x) ax).

Fixpoint increasing (l : list Qc) : bool :=
  match l with
  | a :: ((b :: _) as l') => (qltb a b && increasing l')%bool
  | _ => true
  end.

(** returns the shells and the averages; [None] is nan (no weight in the bin) *)
Definition spherical_average (g : grid) (ax : option (list Z)) (center : option (list Qc)) (shells : list Qc)
    (ws : option (arr Qc)) : exc (list Qc * arr (option A)) :=
  match g_data g with
  | None => Raise ValueError
  | Some d =>
      do axn <- axes_arg g ax ;;
      let fs := map (fun i => nth i (g_fsp g) false) axn in
      do _ <- check (forallb (fun b => b) fs || forallb negb fs)%bool ValueError ;;
      let fourier := forallb (fun b => b) fs in
      let axvals := if fourier then g_fcenters g else g_centers g in
      do cen <- match center with
                | None => Ok (if fourier then repeat 0 (g_ndim g) else fv (g_center g))
                | Some c => do _ <- check (length c =? g_ndim g)%nat ValueError ;; Ok c
                end ;;
      do w <- cook_sweights d ws ;;
      do _ <- check (increasing shells) ValueError ;;
      do _ <- check (1 <=? length shells)%nat ValueError ;;
      let keep := keep_axes g axn in
      let bshape := [length shells - 1]%nat ++ map (fun i => nth i (g_npix g) 0%nat) keep ++ [g_nprop g] in
      let bin ix := digitize shells (rad2 axvals cen axn ix) in
      (* 1728: cells with -1 < bin < len(shells)-2 *)
      let good := filter (fun ix => ((-1 <? bin ix) && (bin ix <? Z.of_nat (length shells) - 2))%Z%bool) (idxs (shape d)) in
      let coord ix := Z.to_nat (bin ix) :: map (fun i => nth i ix 0%nat) keep ++ [last ix 0%nat] in
      let cells jx := filter (fun ix => if list_eq_dec Nat.eq_dec (coord ix) jx then true else false) good in
      let wt ix := getd 0 w (bidx (shape w) ix) in
      Ok (shells,
          tab bshape (fun jx =>
            let tot := vsum (map (fun ix => (getd v0 d ix * emb (wt ix))%V) (cells jx)) in
            (* integer array: every accumulation is truncated *)
            let wtot := fold_left (fun acc ix => zq (qtrunc (acc + wt ix))) (cells jx) 0 in
            if qeqb wtot 0 then None else Some (tot * emb (/ wtot))%V))
  end.

(** * convolve: gridder.py 1055-1146 *)

(** scipy.signal.fftconvolve(a,k,mode='same',axes): convolution axes are those where
    neither array has size one; the other axes broadcast; the result is the central
    part of the shape of [a]. *)
Definition conv_axes (s1 s2 : list nat) (axs : list nat) : list nat :=
  filter (fun i => (negb (nth i s1 0 =? 1) && negb (nth i s2 0 =? 1))%nat%bool) axs.
(** index into [a] for output index [i], kernel index [k], on a convolution axis *)
Definition conv_src (n1 n2 i k : nat) : option nat :=
  let m := (i + (n2 - 1) / 2)%nat in
  if ((k <=? m) && (m - k <? n1))%nat%bool then Some (m - k)%nat else None.
(** all kernel indices to sum over: 0..n2-1 on convolution axes, fixed elsewhere *)
Definition conv_kidx (s1 s2 : list nat) (cax : list nat) (ix : list nat) : list (list nat) :=
  fold_right (fun i acc =>
      let n1 := nth i s1 0%nat in let n2 := nth i s2 0%nat in
      let ks := if mem_nat i cax then seq 0 n2
                else if (n2 =? 1)%nat then [0%nat]
                else [(nth i ix 0 + (Nat.max n1 n2 - n1) / 2)%nat] in
      flat_map (fun k => map (cons k) acc) ks)
    [[]] (seq 0 (length s1)).
(** source cell in [a] for output [ix] and kernel cell [kx]; None: outside *)
Definition conv_cell (s1 s2 : list nat) (cax : list nat) (ix kx : list nat) : option (list nat) :=
  fold_right (fun i acc =>
      let n1 := nth i s1 0%nat in let n2 := nth i s2 0%nat in
      let j := if mem_nat i cax then conv_src n1 n2 (nth i ix 0%nat) (nth i kx 0%nat)
               else Some (if (n1 =? 1)%nat then 0%nat else nth i ix 0%nat) in
      match j, acc with Some j, Some r => Some (j :: r) | _, _ => None end)
    (Some []) (seq 0 (length s1)).
Definition fftconvolve_same (a k : arr A) (axs : list nat) : exc (arr A) :=
  let s1 := shape a in let s2 := shape k in
  if negb (length s1 =? length s2)%nat then Raise ValueError
  else if (length axs =? 0)%nat then Raise ValueError
  else if negb (nodupb axs) then Raise ValueError
  else
    let cax := conv_axes s1 s2 axs in
    if negb (forallb (fun i => (mem_nat i cax || (nth i s1 0 =? nth i s2 0) || (nth i s1 0 =? 1) || (nth i s2 0 =? 1))%nat%bool)
                     (seq 0 (length s1)))
    then Raise ValueError
    else Ok (tab s1 (fun ix => vsum (map (fun kx => match conv_cell s1 s2 cax ix kx with
                                                    | Some jx => (getd v0 a jx * getd v0 k kx)%V
                                                    | None => v0 end)
                                         (conv_kidx s1 s2 cax ix)))).

(** the [pad] argument: nothing, an int, a numpy array, or a list/tuple (for which
    the unary minus at 1133 raises TypeError) *)
Inductive padarg := PadNone | PadInt (z : Z) | PadArr (l : list Z) | PadList (l : list Z).

Definition pad_entries (n : nat) (p : padarg) : exc (list Z) :=
  match p with
  | PadNone => Ok (repeat 0%Z n)
  | PadInt z => Ok (repeat z n)
  | PadArr l => do _ <- check (length l =? n)%nat ValueError ;; Ok l
  | PadList l => do _ <- check (length l =? n)%nat ValueError ;; Ok l
  end.

(** 1088-1120: checks, kernel reshaped to the rank of the data, axes, pads *)
Definition convolve_plan (g source : grid) (ax : option (list Z)) (pad : padarg)
    : exc (arr A * list nat * list Z) :=
  match g_data g with
  | None => Raise ValueError
  | Some d =>
      if existsb (fun b => b) (g_fsp g) then Raise ValueError
      else match g_data source with
           | None => Raise ValueError
           | Some k =>
               if g_ispow g then Raise ValueError
               else if (length (shape d) <? length (shape k))%nat then Raise ValueError
               else
                 let npad := (length (shape d) - length (shape k))%nat in
                 let k' := mkArr (removelast (shape k) ++ repeat 1%nat npad ++ [last (shape k) 0%nat]) (dat k) in
                 do axn <- match ax with
                           | None => Ok (seq 0 (g_ndim g - npad))
                           | Some l => do _ <- check (axes_valid g l) ValueError ;; Ok (map Z.to_nat l)
                           end ;;
                 do pl <- pad_entries (length axn) pad ;;
                 Ok (k', axn, pl)
           end
  end.

(** 1122-1133 *)
Definition convolve_do (g : grid) (k : arr A) (axn : list nat) (pl : list Z) (is_list : bool) : grid * exc unit :=
  match grid_pad g (map Z.of_nat axn) pl v0 with
  | (g1, Raise e) => (g1, Raise e)
  | (g1, Ok _) =>
      match g_data g1 with
      | None => (g1, Raise ValueError)
      | Some d1 =>
          match fftconvolve_same d1 k axn with
          | Raise e => (g1, Raise e)
          | Ok d2 =>
              let g2 := with_data g1 (Some d2) in
              if is_list then (g2, Raise TypeError)
              else grid_pad g2 (map Z.of_nat axn) (map Z.opp pl) v0
          end
      end
  end.
Definition is_plist (p : padarg) : bool := match p with PadList _ => true | _ => false end.
Definition grid_convolve (g source : grid) (ax : option (list Z)) (pad : padarg) : grid * exc unit :=
  match convolve_plan g source ax pad with
  | Raise e => (g, Raise e)
  | Ok (k, axn, pl) => convolve_do g k axn pl (is_plist pad)
  end.
Definition grid_convolve_new (g source : grid) (ax : option (list Z)) (pad : padarg) : exc grid :=
  do (k, axn, pl) <- convolve_plan g source ax pad ;;
  do c <- grid_copy g None ;;
  match convolve_do c k axn pl (is_plist pad) with
  | (h, Ok _) => Ok h
  | (_, Raise e) => Raise e
  end.

(** * down_sample: gridder.py 1152-1219 *)

(** mean or sum of the groups of [f] cells along axis [a] *)
Definition group_cells (average : bool) (a f m : nat) (d : arr A) : arr A :=
  tab (upd (shape d) a m) (fun ix =>
    let s := vsum (map (fun k => getd v0 d (upd ix a (nth a ix 0 * f + k)%nat)) (seq 0 f)) in
    if average then (s * emb (/ nq f))%V else s).

(** one axis.  [old_numpy]: numpy before 1.23, which accepts a list of slices as an
    index; later ones raise IndexError.  [float_factor]: the factors were spread from
    a single one, hence are floats, which slices reject. *)
Definition down_one (old_numpy float_factor average : bool) (factor : list Z) (g : grid) (a : nat) : grid * exc unit :=
  match nth_error factor a with
  | None => (g, Raise IndexError)
  | Some fz =>
      if (fz <=? 0)%Z then (g, Raise (UserExn 0))   (* not modelled *)
      else
        let f := Z.to_nat fz in
        let n := nth a (g_npix g) 0%nat in
        let m := (n / f)%nat in
        if (active g && negb old_numpy && (0 <? m)%nat)%bool then (g, Raise IndexError)
        else if (float_factor && (0 <? m)%nat)%bool then (g, Raise TypeError)
        else
          let cen := nth a (g_centers g) [] in
          (* 1198: allocated with the old length, only the first m entries are set *)
          let cen' := map (fun i => if (i <? m)%nat
                                    then qsum (map (fun k => nth (i * f + k) cen 0) (seq 0 f)) / nq f else 0)
                          (seq 0 (length cen)) in
          let d' := option_map (group_cells average a f m) (g_data g) in
          let px := fnth (g_pix g) a in
          let axis' := map (fun c => c - (zq fz * px) / zq 2) cen' ++ [last cen' 0 + (zq fz * px) / zq 2] in
          let pix' := fset (g_pix g) a (px * zq fz) in
          let side' := fset (g_side g) a (ptp axis') in
          let center' := fset (g_center g) a (lmin axis' + fnth side' a / zq 2) in
          let fc := fftshift (fftfreq m (fnth pix' a)) in
          let g1 := with_data (with_geom g center' side' pix' (upd (g_npix g) a m)
                      (upd (g_axes g) a axis') (upd (g_centers g) a cen') (g_faxes g) (upd (g_fcenters g) a fc)) d' in
          match axis_edges fc with
          | Raise e => (g1, Raise e)
          | Ok fe => (with_geom g1 (g_center g1) (g_side g1) (g_pix g1) (g_npix g1) (g_axes g1) (g_centers g1)
                        (upd (g_faxes g1) a fe) (g_fcenters g1), Ok tt)
          end
  end.

Fixpoint down_loop (old_numpy float_factor average : bool) (factor : list Z) (g : grid) (ax : list nat) : grid * exc unit :=
  match ax with
  | [] => (g, Ok tt)
  | a :: ax' =>
      match down_one old_numpy float_factor average factor g a with
      | (g', Ok _) => down_loop old_numpy float_factor average factor g' ax'
      | (g', Raise e) => (g', Raise e)
      end
  end.

Definition down_sample (old_numpy : bool) (g : grid) (ax : list Z) (factor : list Z) (average : bool) : grid * exc unit :=
  if negb (axes_valid g ax) then (g, Raise ValueError)
  else
    match (if (length factor =? 1)%nat then Ok (true, repeat (hd 0%Z factor) (length ax))
           else if (length factor =? length ax)%nat then Ok (false, factor) else Raise ValueError) with
    | Raise e => (g, Raise e)
    | Ok (ff, fl) =>
        if existsb (fun a => nth (Z.to_nat a) (g_fsp g) false) ax then (g, Raise ValueError)
        else down_loop old_numpy ff average fl g (map Z.to_nat ax)
    end.

(** * Gridder: gridder.py 1975-2098 (float positions) *)
Definition col (k : nat) (rows : list (list Qc)) : list Qc := map (fun r => nth k r 0) rows.

Definition gridder (pos : posarg) (vals : @valarg A) (center side : option farr) (pix : farr)
    (axu gru : option units) (setnd : option nat) : exc grid :=
  let '(ncol, rows) := match pos with
                       | Pos1 l => (1%nat, map (fun x => [x]) l)
                       | Pos2 nc r => (nc, r)
                       end in
  let n := length rows in
  do nd <- match setnd with
           | None => if (n =? 0)%nat then Raise ValueError else Ok ncol
           | Some k => if (n =? 0)%nat then Ok k else if (k =? ncol)%nat then Ok ncol else Raise ValueError
           end ;;
  let '(nc, vrows) := match vals with
                      | ValNone => (1%nat, map (fun _ => [v1]) rows)
                      | Val1 l => (1%nat, map (fun v => [v]) l)
                      | Val2 nc vr => (nc, vr)
                      end in
  do _ <- check (length vrows =? n)%nat ValueError ;;
  do _ <- match center, side with
          | Some _, Some _ => Ok tt
          | _, _ => check (negb (n =? 0)%nat) ValueError
          end ;;
  (* mins and ptps are only used when there is at least one object *)
  let mins := map (fun k => lmin (col k rows)) (seq 0 ncol) in
  let ptps := map (fun k => ptp (col k rows)) (seq 0 ncol) in
  do c <- match center with
          | None => Ok (mkF false (map (fun mp => if qeqb (snd mp) 0 then fst mp else fst mp + snd mp / zq 2)
                                       (combine mins ptps)))
          | Some c => do _ <- check (flen c =? nd)%nat ValueError ;; Ok c
          end ;;
  do s <- match side with
          | None => Ok (mkF false (map (fun p => if qeqb p 0 then 1 else p * frac 10000001 10000000) ptps))
          | Some s => bcast_side nd s
          end ;;
  do g <- grid_new A nc c s pix axu gru ;;
  match add_from_cat (init_grid g) (Pos2 ncol rows) (Val2 nc vrows) false None with
  | (g', Ok _) => Ok g'
  | (_, Raise e) => Raise e
  end.

(** * GridFromAxes: gridder.py 2322-2373 *)

(** np.isclose with the default tolerances *)
Definition isclose (a b : Qc) : bool :=
  qleb (qabs (a - b)) (frac 1 100000000 + frac 1 100000 * qabs b).

Definition from_axis (ax : list Qc) : exc (Qc * Qc * Qc) :=
  match ax with
  | [] => Raise IndexError
  | a0 :: _ =>
      let steps := diff ax in
      do _ <- check (forallb (fun s => isclose s (hd 0 steps)) steps) ValueError ;;
      let l := last ax 0 in
      Ok ((l + a0) / zq 2, l - a0, if (length ax =? 1)%nat then 0 else (l - a0) / zq (Z.of_nat (length ax) - 1))
  end.

Definition grid_from_axes (axes : list (list Qc)) (nprop : nat) (axu gru : option units) : exc grid :=
  do t <- mapM from_axis axes ;;
  let c := mkF false (map (fun x => fst (fst x)) t) in
  let s := mkF false (map (fun x => snd (fst x)) t) in
  let p := mkF false (map snd t) in
  do g <- grid_new A nprop c s p axu gru ;;
  (* 2363-2369: number of pixels recomputed without rounding *)
  let ns := map (fun sp => qceil (fst sp / snd sp)) (combine (fv (g_side g)) (fv (g_pix g))) in
  let bad := existsb (fun t => negb (qeqb (fst (fst t) / snd (fst t)) (zq (snd t))))
                     (combine (combine (fv (g_side g)) (fv (g_pix g))) ns) in
  let side := if bad then mkF false (map (fun pn => fst pn * zq (snd pn)) (combine (fv (g_pix g)) ns)) else g_side g in
  Ok (with_geom g (g_center g) side (g_pix g) (map Z.to_nat ns) (g_axes g) (g_centers g) (g_faxes g) (g_fcenters g)).

(** 2375-2416 [GridFromAxesAndFunction]; [f] is the user's function *)
Definition grid_from_axes_and_function (f : list (list Qc) -> arr A) (axes : list (list Qc)) (nprop : nat)
    (axu gru : option units) : exc grid :=
  do g <- grid_from_axes axes nprop axu gru ;;
  let v := f (g_centers g) in
  let v' := mkArr (shape v ++ [1%nat]) (dat v) in
  if list_eq_dec Nat.eq_dec (shape v') (dshape g) then Ok (with_data (init_grid g) (Some v')) else Raise ValueError.

End Methods2.
