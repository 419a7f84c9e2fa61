(** Executable model of [simim/map/gridder.py], class [Grid] and its factories.

    Conventions (see DESIGN.md):
    - floats are exact rationals [Qc]; cell values live in an algebra [A];
    - numpy attribute arrays that may keep an integer dtype ([center_point],
      [side_length], [pixel_size]) carry a dtype flag, and element assignment
      into an integer array truncates, as numpy does;
    - a method returns the final object state together with a value or the
      exception raised: [grid * exc X].  The state component is meaningful also
      when an exception is raised (python objects are mutated in place). *)
From Coq Require Import String.
From Verif Require Import Util Rat Val Arr.
Open Scope Qc_scope.

(** * Numpy helpers *)

(** 1-d numeric numpy array with its dtype kind. *)
Record farr := mkF { fint : bool; fv : list Qc }.
Definition flen (a : farr) : nat := length (fv a).
Definition fnth (a : farr) (i : nat) : Qc := nth i (fv a) 0.
(** [a[i] = x] : truncation when the array has an integer dtype *)
Definition fset (a : farr) (i : nat) (x : Qc) : farr :=
  mkF (fint a) (upd (fv a) i (if fint a then zq (qtrunc x) else x)).
(** [a[keep]] *)
Definition ftake (a : farr) (keep : list nat) : farr :=
  mkF (fint a) (map (fun i => fnth a i) keep).

Definition half : Qc := frac 1 2.

(** np.diff *)
Fixpoint diff (l : list Qc) : list Qc :=
  match l with
  | a :: ((b :: _) as l') => (b - a) :: diff l'
  | _ => []
  end.

(** np.min / np.max / np.ptp of a non-empty list *)
Definition lmin (l : list Qc) : Qc := fold_right qmin (hd 0 l) l.
Definition lmax (l : list Qc) : Qc := fold_right qmax (hd 0 l) l.
Definition ptp (l : list Qc) : Qc := lmax l - lmin l.

(** np.roll(l,k) for 0 <= k <= len *)
Definition roll {X} (k : nat) (l : list X) : list X :=
  skipn (length l - k) l ++ firstn (length l - k) l.
(** np.fft.fftshift / ifftshift of a 1-d array *)
Definition fftshift {X} (l : list X) : list X := roll (length l / 2)%nat l.
Definition ifftshift {X} (l : list X) : list X := roll (length l - length l / 2)%nat l.

(** np.fft.fftfreq(n,d): 0,1,..,N-1,-(n//2),..,-1 over n*d with N=(n-1)//2+1 *)
Definition fftfreq (n : nat) (d : Qc) : list Qc :=
  let N := ((n - 1) / 2 + 1)%nat in
  map (fun z => zq z * (1 / (nq n * d)))
      (map Z.of_nat (seq 0 N) ++
       map (fun i => (Z.of_nat i - Z.of_nat (n / 2))%Z) (seq 0 (n / 2))).

(** gridder.py 19-24 [_axis_edges]; [diff[0]] raises IndexError on a
    one-element axis and [ax[0]] on an empty one *)
Definition axis_edges (ax : list Qc) : exc (list Qc) :=
  match ax, diff ax with
  | a0 :: _, d0 :: _ =>
      let newax := map (fun p => fst p + snd p) (combine (removelast ax) (diff ax)) in
      Ok ([a0 - d0 / zq 2] ++ newax ++ [last ax 0 + last (diff ax) 0 / zq 2])
  | _, _ => Raise IndexError
  end.

(** gridder.py 192-193: fourier centres and edges of one axis.  [np.fft.fftfreq]
    rejects negative lengths with ValueError. *)
Definition fourier_axis (n : Z) (d : Qc) : exc (list Qc * list Qc) :=
  if (n <? 0)%Z then Raise ValueError
  else let fc := fftshift (fftfreq (Z.to_nat n) d) in
       do fe <- axis_edges fc ;; Ok (fe, fc).

(** gridder.py 185-188: edges of one axis, [np.arange(n+1)*pix - side/2 + center] *)
Definition axis_of (n : nat) (pix side center : Qc) : list Qc :=
  map (fun k => nq k * pix - side / zq 2 + center) (seq 0 (n + 1)).

(** gridder.py 189: [axis[:-1] + pix/2] *)
Definition centers_of (axis : list Qc) (pix : Qc) : list Qc :=
  map (fun x => x + pix / zq 2) (removelast axis).

Definition units := list (option string).
Definition hat_inv (u : option string) : option string :=
  match u with Some s => Some (String.append s "^-1"%string) | None => None end.

(** * The grid object *)
Record grid (A : Alg) := mkGrid {
  g_nprop : nat; g_nobj : nat; g_ndim : nat;
  g_center : farr; g_side : farr; g_pix : farr;
  g_npix : list nat;
  g_axu : units; g_faxu : units; g_gru : units;
  g_axes : list (list Qc); g_centers : list (list Qc);
  g_faxes : list (list Qc); g_fcenters : list (list Qc);
  g_fsp : list bool;
  g_ispow : bool;
  g_data : option (arr A)      (* None: grid_active is False *)
}.
Arguments mkGrid {A}.
Arguments g_nprop {A}. Arguments g_nobj {A}. Arguments g_ndim {A}. Arguments g_center {A}.
Arguments g_side {A}. Arguments g_pix {A}. Arguments g_npix {A}. Arguments g_axu {A}.
Arguments g_faxu {A}. Arguments g_gru {A}. Arguments g_axes {A}. Arguments g_centers {A}.
Arguments g_faxes {A}. Arguments g_fcenters {A}. Arguments g_fsp {A}. Arguments g_ispow {A}.
Arguments g_data {A}.

Definition with_data {A} (g : grid A) (d : option (arr A)) : grid A :=
  mkGrid (g_nprop g) (g_nobj g) (g_ndim g) (g_center g) (g_side g) (g_pix g) (g_npix g)
         (g_axu g) (g_faxu g) (g_gru g) (g_axes g) (g_centers g) (g_faxes g) (g_fcenters g)
         (g_fsp g) (g_ispow g) d.
Definition with_nobj {A} (g : grid A) (n : nat) : grid A :=
  mkGrid (g_nprop g) n (g_ndim g) (g_center g) (g_side g) (g_pix g) (g_npix g)
         (g_axu g) (g_faxu g) (g_gru g) (g_axes g) (g_centers g) (g_faxes g) (g_fcenters g)
         (g_fsp g) (g_ispow g) (g_data g).
Definition with_nprop {A} (g : grid A) (n : nat) : grid A :=
  mkGrid n (g_nobj g) (g_ndim g) (g_center g) (g_side g) (g_pix g) (g_npix g)
         (g_axu g) (g_faxu g) (g_gru g) (g_axes g) (g_centers g) (g_faxes g) (g_fcenters g)
         (g_fsp g) (g_ispow g) (g_data g).
Definition with_fsp {A} (g : grid A) (f : list bool) : grid A :=
  mkGrid (g_nprop g) (g_nobj g) (g_ndim g) (g_center g) (g_side g) (g_pix g) (g_npix g)
         (g_axu g) (g_faxu g) (g_gru g) (g_axes g) (g_centers g) (g_faxes g) (g_fcenters g)
         f (g_ispow g) (g_data g).
Definition with_ispow {A} (g : grid A) (b : bool) : grid A :=
  mkGrid (g_nprop g) (g_nobj g) (g_ndim g) (g_center g) (g_side g) (g_pix g) (g_npix g)
         (g_axu g) (g_faxu g) (g_gru g) (g_axes g) (g_centers g) (g_faxes g) (g_fcenters g)
         (g_fsp g) b (g_data g).
(** replace the geometric attributes *)
Definition with_geom {A} (g : grid A) (c s p : farr) (n : list nat)
    (ax ce fa fc : list (list Qc)) : grid A :=
  mkGrid (g_nprop g) (g_nobj g) (g_ndim g) c s p n
         (g_axu g) (g_faxu g) (g_gru g) ax ce fa fc (g_fsp g) (g_ispow g) (g_data g).

Definition active {A} (g : grid A) : bool := match g_data g with Some _ => true | None => false end.

(** * Construction: gridder.py 126-198 *)

(** 135-139 *)
Definition bcast_side (d : nat) (s : farr) : exc farr :=
  let s1 := if (flen s =? 1)%nat then mkF false (repeat (fnth s 0) d) else s in
  do _ <- check (flen s1 =? d)%nat ValueError ;; Ok s1.

(** 142-147 *)
Definition bcast_pix (d : nat) (p : farr) : exc farr :=
  if (flen p =? d)%nat then Ok p
  else if (flen p =? 1)%nat then Ok (mkF false (repeat (fnth p 0) d))
  else Raise ValueError.

(** 150-159 and 161-168 *)
Definition bcast_units (d : nat) (u : option units) : exc units :=
  match u with
  | None => Ok (repeat None d)
  | Some l =>
      let l1 := if (length l =? 1)%nat then repeat (hd None l) d else l in
      do _ <- check (length l1 =? d)%nat ValueError ;; Ok l1
  end.

(** 172-173, 178: [np.ceil(np.round(side/pix,1)).astype(int)].  A zero pixel size
    gives inf or nan, whose conversion to int is the most negative integer; any
    negative stand-in leads to the same ValueError below. *)
Definition npix_z (side pix : Qc) : Z :=
  if qeqb pix 0 then (-1)%Z else qceil (round1 (side / pix)).

(** 174: [n_pixels_decimal != n_pixels_ceil] *)
Definition npix_mismatch (sp : Qc * Qc) : bool :=
  negb (qeqb (fst sp / snd sp) (zq (npix_z (fst sp) (snd sp)))).

(** 184-193, one axis *)
Definition build_axis (n : Z) (pix side center : Qc)
    : exc (list Qc * list Qc * list Qc * list Qc) :=
  let axis := axis_of (Z.to_nat n) pix side center in
  do (fe, fc) <- fourier_axis n pix ;;
  Ok (axis, centers_of axis pix, fe, fc).

Definition zip4 (n : list Z) (p s c : list Qc) : list (Z * Qc * Qc * Qc) :=
  combine (combine (combine n p) s) c.

(** gridder.py 51-198 *)
Definition grid_new (A : Alg) (nprop : nat) (center side pix : farr)
    (axu gru : option units) : exc (grid A) :=
  let d := flen center in
  do s <- bcast_side d side ;;
  do p <- bcast_pix d pix ;;
  do au <- bcast_units d axu ;;
  do gu <- bcast_units nprop gru ;;
  let ns := map (fun sp => npix_z (fst sp) (snd sp)) (combine (fv s) (fv p)) in
  let s2 := if existsb npix_mismatch (combine (fv s) (fv p))
            then mkF false (map (fun pn => fst pn * zq (snd pn)) (combine (fv p) ns))
            else s in
  do bs <- mapM (fun t => let '(n, px, sd, c) := t in build_axis n px sd c)
                (zip4 ns (fv p) (fv s2) (fv center)) ;;
  Ok (mkGrid nprop 0 d center s2 p (map Z.to_nat ns)
        au (map hat_inv au) gu
        (map (fun b => let '(a, _, _, _) := b in a) bs)
        (map (fun b => let '(_, c, _, _) := b in c) bs)
        (map (fun b => let '(_, _, f, _) := b in f) bs)
        (map (fun b => let '(_, _, _, f) := b in f) bs)
        (repeat false d) false None).

Section Methods.
Context {A : Alg}.
Notation grid := (grid A).

Definition dshape (g : grid) : list nat := g_npix g ++ [g_nprop g].

(** 201-213 [_check_property_input] (also 967-972) *)
Definition check_props (g : grid) (props : option (list Z)) : exc (list nat) :=
  match props with
  | None => Ok (seq 0 (g_nprop g))
  | Some l =>
      do _ <- check (forallb (fun z => (0 <=? z)%Z && (z <? Z.of_nat (g_nprop g))%Z) l) ValueError ;;
      Ok (map Z.to_nat l)
  end.

(** 216-229 [init_grid] *)
Definition init_grid (g : grid) : grid :=
  with_nobj (with_data g (Some (full (dshape g) v0))) 0.

(** np.concatenate((a,b),axis=-1) for arrays of shape [sh++[ka]] and [sh++[kb]] *)
Definition concat_last (sh : list nat) (ka kb : nat) (a b : arr A) : arr A :=
  tab (sh ++ [ka + kb]%nat)
      (fun ix => let k := last ix 0%nat in
                 if (k <? ka)%nat then getd v0 a ix
                 else getd v0 b (removelast ix ++ [k - ka]%nat)).

(** 555-579 [add_new_prop]; [value] is an array of shape n_pixels (one property)
    or n_pixels ++ [k] *)
Definition add_new_prop (g : grid) (value : option (arr A)) : grid * exc unit :=
  match g_data g with
  | Some d =>
      let v := match value with
               | None => Ok (full (g_npix g ++ [1%nat]) v0)
               | Some a =>
                   if (length (shape a) =? length (shape d))%nat then
                     if list_eq_dec Nat.eq_dec (removelast (shape a)) (g_npix g) then Ok a else Raise ValueError
                   else if (length (shape a) =? g_ndim g)%nat then
                     if list_eq_dec Nat.eq_dec (shape a) (g_npix g)
                     then Ok (mkArr (shape a ++ [1%nat]) (dat a)) else Raise ValueError
                   else Raise ValueError
               end in
      match v with
      | Raise e => (g, Raise e)
      | Ok a =>
          let k := last (shape a) 0%nat in
          (with_nprop (with_data g (Some (concat_last (g_npix g) (last (shape d) 0%nat) k d a)))
                      (g_nprop g + k), Ok tt)
      end
  | None =>
      match value with
      | Some _ => (g, Raise ValueError)
      | None => (with_nprop g (g_nprop g + 1), Ok tt)
      end
  end.

(** * pad: gridder.py 232-342 *)

(** np.pad with constant value and symmetric widths [w] *)
Fixpoint shift_ix (w ix : list nat) : option (list nat) :=
  match w, ix with
  | [], [] => Some []
  | p :: w', i :: ix' =>
      if (i <? p)%nat then None
      else option_map (cons (i - p)%nat) (shift_ix w' ix')
  | _, _ => None
  end.
Definition np_pad (w : list nat) (val : A) (a : arr A) : arr A :=
  tab (map (fun p => fst p + 2 * snd p)%nat (combine (shape a) w))
      (fun ix => match shift_ix w ix with
                 | Some jx => getd val a jx
                 | None => val
                 end).
(** 31-38 [_unpad] with symmetric widths *)
Definition np_unpad (w : list nat) (a : arr A) : arr A :=
  tab (map (fun p => fst p - 2 * snd p)%nat (combine (shape a) w))
      (fun ix => getd v0 a (map (fun p => fst p + snd p)%nat (combine ix w))).

(** what the loop at 289-321 computes for one axis *)
Record padax := mkPad {
  pa_pad : nat; pa_unpad : nat; pa_n : nat; pa_side : Qc; pa_pix : Qc;
  pa_axes : list Qc; pa_centers : list Qc; pa_faxes : list Qc; pa_fcenters : list Qc }.

Definition pad_keep (g : grid) (i : nat) : padax :=
  mkPad 0 0 (nth i (g_npix g) 0%nat) (fnth (g_side g) i) (fnth (g_pix g) i)
        (nth i (g_axes g) []) (nth i (g_centers g) [])
        (nth i (g_faxes g) []) (nth i (g_fcenters g) []).

(** value stored by [arr[i] = x] *)
Definition fstore (a : farr) (x : Qc) : Qc := if fint a then zq (qtrunc x) else x.

(** 289-321, body for axis [i].  Line 309 reads [pad[ax[i]]]. *)
Definition pad_axis (g : grid) (ax : list nat) (pad : list Z) (i : nat) : exc padax :=
  match index_nat i ax with
  | None => Ok (pad_keep g i)
  | Some ip =>
      let p := nth ip pad 0%Z in
      if (p =? 0)%Z then Ok (pad_keep g i)
      else
        match nth_error ax i with
        | None => Raise IndexError
        | Some axi =>
            match nth_error pad axi with
            | None => Raise IndexError
            | Some pz =>
                let n := (Z.of_nat (nth i (g_npix g) 0%nat) + 2 * pz)%Z in
                let fsp := nth i (g_fsp g) false in
                let side := fstore (g_side g)
                              (if fsp then fnth (g_side g) i else zq n * fnth (g_pix g) i) in
                let px := fstore (g_pix g)
                              (if fsp then fnth (g_side g) i / zq n else fnth (g_pix g) i) in
                let axis := axis_of (Z.to_nat n) px side (fnth (g_center g) i) in
                do (fe, fc) <- fourier_axis n px ;;
                Ok (mkPad (Z.to_nat p) (Z.to_nat (- p)) (Z.to_nat n) side px
                          axis (centers_of axis px) fe fc)
            end
        end
  end.

(** 263-271: broadcasting of the [pad] argument and axis checks *)
Definition pad_args (g : grid) (ax : list Z) (pad : list Z) : exc (list nat * list Z) :=
  do _ <- check (forallb (fun a => (a <? Z.of_nat (g_ndim g))%Z && (0 <=? a)%Z) ax) ValueError ;;
  let axn := map Z.to_nat ax in
  if ((length pad =? 1)%nat && (1 <? length ax)%nat)%bool
  then Ok (axn, repeat (hd 0%Z pad) (length ax))
  else do _ <- check (length pad =? length ax)%nat ValueError ;; Ok (axn, pad).

Definition grid_pad (g : grid) (ax : list Z) (pad : list Z) (val : A) : grid * exc unit :=
  match pad_args g ax pad with
  | Raise e => (g, Raise e)
  | Ok (axn, padl) =>
      (* 274-276 *)
      if existsb (fun ap => (snd ap <? 0)%Z && (Z.of_nat (nth (fst ap) (g_npix g) 0%nat) <=? -2 * snd ap)%Z)
                 (combine axn padl)
      then (g, Raise ValueError)
      else
        match mapM (pad_axis g axn padl) (seq 0 (g_ndim g)) with
        | Raise e => (g, Raise e)
        | Ok ps =>
            let w := map pa_pad ps ++ [0%nat] in
            let uw := map pa_unpad ps ++ [0%nat] in
            let d' := match g_data g with
                      | Some d => Some (np_unpad uw (np_pad w val d))
                      | None => None
                      end in
            let g' := with_data
                        (with_geom g (g_center g)
                           (mkF (fint (g_side g)) (map pa_side ps))
                           (mkF (fint (g_pix g)) (map pa_pix ps))
                           (map pa_n ps)
                           (map pa_axes ps) (map pa_centers ps)
                           (map pa_faxes ps) (map pa_fcenters ps)) d' in
            (* 340-342 *)
            match d' with
            | Some d => if list_eq_dec Nat.eq_dec (removelast (shape d)) (g_npix g')
                        then (g', Ok tt) else (g', Raise ValueError)
            | None => (g', Ok tt)
            end
        end
  end.

(** * crop: gridder.py 346-397 *)

(** np.take(a,inds,axis) *)
Definition np_take (inds : list nat) (axis : nat) (a : arr A) : arr A :=
  tab (upd (shape a) axis (length inds))
      (fun ix => getd v0 a (upd ix axis (nth (nth axis ix 0%nat) inds 0%nat))).

(** np.nonzero(p(l))[0] *)
Definition nonzero {X} (p : X -> bool) (l : list X) : list nat :=
  map fst (filter (fun q => p (snd q)) (combine (seq 0 (length l)) l)).

Definition grid_crop (g : grid) (axz : Z) (omin omax : option Qc) : grid * exc unit :=
  (* 368-370 *)
  if ((axz <? 0)%Z || (Z.of_nat (g_ndim g) - 1 <? axz)%Z)%bool then (g, Raise ValueError)
  else
    let ax := Z.to_nat axz in
    let axis := nth ax (g_axes g) [] in
    let cen := nth ax (g_centers g) [] in
    (* 373 *)
    if nth ax (g_fsp g) false then (g, Raise ValueError)
    else
      let mn := match omin with Some x => x | None => lmin axis end in
      let mx := match omax with Some x => x | None => lmax axis end in
      if qleb mx mn then (g, Raise ValueError)
      else if (forallb (fun c => qltb mx c) cen || forallb (fun c => qltb c mn) cen)%bool
      then (g, Raise ValueError)
      else
        let inr := fun c => (qleb mn c && qleb c mx)%bool in
        (* 388-391 *)
        let g1 := with_data g (option_map (np_take (nonzero inr cen) ax) (g_data g)) in
        let cen' := filter inr cen in
        let g2 := with_geom g1 (g_center g1) (g_side g1) (g_pix g1) (g_npix g1)
                    (g_axes g1) (upd (g_centers g1) ax cen') (g_faxes g1) (g_fcenters g1) in
        (* 392: np.max of an empty array raises ValueError *)
        match cen' with
        | [] => (g2, Raise ValueError)
        | _ :: _ =>
            let px := fnth (g_pix g) ax in
            let axis' := map (fun c => c - px / zq 2) cen' ++ [lmax cen' + px / zq 2] in
            let n' := length cen' in
            (* 394-395 *)
            let side' := fset (g_side g) ax (ptp axis') in
            let center' := fset (g_center g) ax (lmin axis' + fnth side' ax / zq 2) in
            (* 396 *)
            let fc := fftshift (fftfreq n' px) in
            let g3 := with_geom g2 center' side' (g_pix g) (upd (g_npix g) ax n')
                        (upd (g_axes g) ax axis') (g_centers g2) (g_faxes g)
                        (upd (g_fcenters g) ax fc) in
            (* 397 *)
            match axis_edges fc with
            | Raise e => (g3, Raise e)
            | Ok fe =>
                (with_geom g3 (g_center g3) (g_side g3) (g_pix g3) (g_npix g3)
                   (g_axes g3) (g_centers g3) (upd (g_faxes g3) ax fe) (g_fcenters g3), Ok tt)
            end
        end.

(** * scale_axis: gridder.py 401-467.  Only axunits='same' is modelled here;
    UnitModel.v has the units. *)
Definition scale_one (scalecenter : bool) (factor : list Qc) (g : grid) (i : nat) : grid * exc unit :=
  match nth_error factor i with
  | None => (g, Raise IndexError)
  | Some f =>
      let c := if scalecenter then fset (g_center g) i (fnth (g_center g) i * f) else g_center g in
      let s := fset (g_side g) i (fnth (g_side g) i * f) in
      let p := fset (g_pix g) i (fnth (g_pix g) i * f) in
      let g1 := with_geom g c s p (g_npix g) (g_axes g) (g_centers g) (g_faxes g) (g_fcenters g) in
      if scalecenter then
        (with_geom g1 c s p (g_npix g)
           (upd (g_axes g) i (map (fun x => x * f) (nth i (g_axes g) [])))
           (upd (g_centers g) i (map (fun x => x * f) (nth i (g_centers g) [])))
           (upd (g_faxes g) i (map (fun x => x / f) (nth i (g_faxes g) [])))
           (upd (g_fcenters g) i (map (fun x => x / f) (nth i (g_fcenters g) []))), Ok tt)
      else (* 463: self.center does not exist *)
        (g1, Raise AttributeError)
  end.

Fixpoint scale_loop (sc : bool) (factor : list Qc) (g : grid) (ax : list nat) : grid * exc unit :=
  match ax with
  | [] => (g, Ok tt)
  | i :: ax' =>
      match scale_one sc factor g i with
      | (g', Ok _) => scale_loop sc factor g' ax'
      | (g', Raise e) => (g', Raise e)
      end
  end.

Definition grid_scale_axis (g : grid) (ax : list Z) (factor : list Qc) (scalecenter : bool) : grid * exc unit :=
  if negb (forallb (fun a => (a <? Z.of_nat (g_ndim g))%Z && (0 <=? a)%Z) ax) then (g, Raise ValueError)
  else
    (* 429-433 *)
    match (if (length factor =? 1)%nat then Ok (repeat (hd 0 factor) (length ax))
           else if (length factor =? length ax)%nat then Ok factor else Raise ValueError) with
    | Raise e => (g, Raise e)
    | Ok fl => scale_loop scalecenter fl g (map Z.to_nat ax)
    end.

(** * copies: gridder.py 470-512 *)
Definition copy_axes (g : grid) (n : nat) : exc grid :=
  grid_new A n (g_center g) (g_side g) (g_pix g) (Some (g_axu g)) (Some (g_gru g)).

(** a[...,tuple(ps)] *)
Definition take_props (npix : list nat) (ps : list nat) (a : arr A) : arr A :=
  tab (npix ++ [length ps])
      (fun ix => getd v0 a (removelast ix ++ [nth (last ix 0%nat) ps 0%nat])).

Definition grid_copy (g : grid) (props : option (list Z)) : exc grid :=
  do ps <- check_props g props ;;
  do c <- copy_axes g (length ps) ;;
  let c1 := match g_data g with
            | Some d => with_nobj (with_data c (Some (take_props (g_npix g) ps d))) (g_nobj g)
            | None => c
            end in
  Ok (with_ispow (with_fsp c1 (g_fsp g)) (g_ispow g)).

(** * Adding objects: gridder.py 583-773 *)

(** the [positions] argument: a 1-d array, or a 2-d array given by its rows
    together with its number of columns (which an array without rows still has) *)
Inductive posarg := Pos1 (l : list Qc) | Pos2 (ncol : nat) (rows : list (list Qc)).
(** the [values] argument *)
Inductive valarg := ValNone | Val1 (l : list A) | Val2 (ncol : nat) (rows : list (list A)).

(** 639-642: floor((p - center + side/2)/pix), one object *)
Definition cell_index (c s p : list Qc) (pos : list Qc) : list Z :=
  map (fun t => let '(x, c, s, p) := t in qfloor ((x - c + s / zq 2) / p))
      (combine (combine (combine pos c) s) p).

(** 645: not any(<0) and not any(>= n_pixels) *)
Definition in_range (n : list nat) (ix : list Z) : bool :=
  forallb (fun t => (0 <=? fst t)%Z && (fst t <? Z.of_nat (snd t))%Z) (combine ix n).

(** np.add.at(grid, positions+(k,), v) : unbuffered, repeated indices accumulate *)
Definition add_at (d : arr A) (k : nat) (ixs : list (list nat)) (vs : list A) : arr A :=
  fold_left (fun d iv => aalter (fun x => (x + snd iv)%V) d (fst iv ++ [k])) (combine ixs vs) d.

(** column [k] of a 2-d array *)
Definition column (k : nat) (rows : list (list A)) : list A := map (fun r => nth k r v0) rows.

(** 660-665, the loop over properties.  [ncol] is [values.shape[1]]. *)
Fixpoint add_props (ixs : list (list nat)) (ncol : nat) (rows : list (list A))
    (ps : list nat) (d : arr A) : arr A * exc unit :=
  match ps with
  | [] => (d, Ok tt)
  | ip :: ps' =>
      if (ncol =? 1)%nat then add_props ixs ncol rows ps' (add_at d ip ixs (column 0 rows))
      else if (ip <? ncol)%nat then add_props ixs ncol rows ps' (add_at d ip ixs (column ip rows))
      else (d, Raise IndexError)
  end.

Definition add_from_cat (g : grid) (pos : posarg) (vals : valarg)
    (new_props : bool) (props : option (list Z)) : grid * exc unit :=
  match g_data g with
  | None => (g, Raise ValueError)
  | Some d =>
      if existsb (fun b => b) (g_fsp g) then (g, Raise ValueError)
      else
        match pos with
        | Pos1 [] => (* 614-620 *)
            if new_props then
              match vals with
              | ValNone => (g, Raise AttributeError)
              | Val1 _ => (g, Raise IndexError)
              | Val2 nc _ => add_new_prop g (Some (full (g_npix g ++ [nc]) v0))
              end
            else (g, Ok tt)
        | Pos1 (_ :: _) => (g, Raise IndexError)   (* positions.shape[1] *)
        | Pos2 _ [] => (g, Ok tt)
        | Pos2 ncol rows =>
            if negb (ncol =? g_ndim g)%nat then (g, Raise ValueError)
            else
              (* 629-633 *)
              let '(nc, vrows) := match vals with
                                  | ValNone => (1%nat, map (fun _ => [v1]) rows)
                                  | Val1 l => (1%nat, map (fun v => [v]) l)
                                  | Val2 nc vr => (nc, vr)
                                  end in
              if negb (length vrows =? length rows)%nat then (g, Raise ValueError)
              else
                let zs := map (cell_index (fv (g_center g)) (fv (g_side g)) (fv (g_pix g))) rows in
                let keep := map (in_range (g_npix g)) zs in
                let vk := select keep vrows in
                let ik := map (map Z.to_nat) (select keep zs) in
                if new_props then
                  (* 649-653 *)
                  let new := fold_left (fun a k => add_at a k ik (column k vk)) (seq 0 nc)
                                       (full (g_npix g ++ [nc]) v0) in
                  match add_new_prop g (Some new) with
                  | (g', Ok _) => (with_nobj g' (g_nobj g' + length vk), Ok tt)
                  | (g', Raise e) => (g', Raise e)
                  end
                else
                  match check_props g props with
                  | Raise e => (g, Raise e)
                  | Ok ps =>
                      if negb ((nc =? length ps)%nat || (nc =? 1)%nat) then (g, Raise ValueError)
                      else
                        let '(d', r) := add_props ik nc vk ps d in
                        match r with
                        | Ok _ => (with_nobj (with_data g (Some d')) (g_nobj g + length vk), Ok tt)
                        | Raise e => (with_data g (Some d'), Raise e)
                        end
                  end
        end
  end.

(** 753-761: for every kept object and channel k, add value k at the object's cell
    with k inserted at axis [ax] (the moveaxis/add.at/moveaxis round trip) *)
Definition add_spectrum (d : arr A) (ax p : nat) (ix : list nat) (spec : list A) : arr A :=
  fold_left (fun d kv => aalter (fun x => (x + snd kv)%V) d (ins_nth ix ax (fst kv) ++ [p]))
            (combine (seq 0 (length spec)) spec) d.
Definition add_spectra (d : arr A) (ax p : nat) (ixs : list (list nat)) (rows : list (list A)) : arr A :=
  fold_left (fun d ir => add_spectrum d ax p (fst ir) (snd ir)) (combine ixs rows) d.

Definition norm_axis (g : grid) (ax : Z) : exc nat :=
  let a := (if (ax <? 0)%Z then Z.of_nat (g_ndim g) + ax else ax)%Z in
  if ((Z.of_nat (g_ndim g) <=? a)%Z || (a <? 0)%Z)%bool then Raise ValueError else Ok (Z.to_nat a).

(** 671-773.  Only grids with at least two dimensions are modelled (for a
    one-dimensional grid numpy indexes with an empty tuple): the model raises
    [UserExn 0] there, which no theorem relies on. *)
Definition add_from_pos_plus_array (g : grid) (pos : posarg) (vals : list (list A)) (axz : Z)
    (new_prop : bool) (props : option (list Z)) : grid * exc unit :=
  match g_data g with
  | None => (g, Raise ValueError)
  | Some d =>
      if existsb (fun b => b) (g_fsp g) then (g, Raise ValueError)
      else
        match norm_axis g axz with
        | Raise e => (g, Raise e)
        | Ok ax =>
            match pos with
            | Pos1 [] => if new_prop then add_new_prop g (Some (full (g_npix g ++ [1%nat]) v0))
                         else (g, Ok tt)
            | Pos2 _ [] => (g, Ok tt)
            | _ =>
                let '(ncol, rows) := match pos with
                                     | Pos1 l => (length l, [l])     (* ndmin=2 *)
                                     | Pos2 nc r => (nc, r)
                                     end in
                if (g_ndim g <=? 1)%nat then (g, Raise (UserExn 0))
                else if negb (ncol =? g_ndim g - 1)%nat then (g, Raise ValueError)
                else if negb (length vals =? length rows)%nat then (g, Raise ValueError)
                else if negb (forallb (fun r => length r =? nth ax (g_npix g) 0)%nat vals) then (g, Raise ValueError)
                else
                  let zs := map (cell_index (del_nth (fv (g_center g)) ax) (del_nth (fv (g_side g)) ax)
                                            (del_nth (fv (g_pix g)) ax)) rows in
                  let keep := map (in_range (del_nth (g_npix g) ax)) zs in
                  let vk := select keep vals in
                  let ik := map (map Z.to_nat) (select keep zs) in
                  if new_prop then
                    let new := add_spectra (full (g_npix g ++ [1%nat]) v0) ax 0 ik vk in
                    match add_new_prop g (Some new) with
                    | (g', Ok _) => (with_nobj g' (g_nobj g' + length vk), Ok tt)
                    | (g', Raise e) => (g', Raise e)
                    end
                  else
                    match check_props g props with
                    | Raise e => (g, Raise e)
                    | Ok ps =>
                        let d' := fold_left (fun d p => add_spectra d ax p ik vk) ps d in
                        (with_nobj (with_data g (Some d')) (g_nobj g + length vk), Ok tt)
                    end
            end
        end
  end.

(** * add_from_spec_func: gridder.py 776-940 *)

Fixpoint vdiff (l : list A) : list A :=
  match l with
  | a :: ((b :: _) as l') => (b - a)%V :: vdiff l'
  | _ => []
  end.

(** 920-930: evaluate the spectra of one chunk *)
Definition eval_spectra {P : Type} (spec : list Qc -> list P -> list (list A)) (eval_as_loop cumulative : bool)
    (axis : list Qc) (args : list P) : list (list A) :=
  let values := if eval_as_loop then map (fun a => concat (spec axis [a])) args
                else spec axis args in
  if cumulative then map vdiff values else values.

(** 914-940: the chunk loop, [fuel] chunks left *)
Fixpoint spec_loop {P : Type} (spec : list Qc -> list P -> list (list A)) (ncol : nat)
    (eval_as_loop cumulative : bool) (axis : list Qc) (ax : nat) (chunk : nat) (fuel : nat)
    (g : grid) (rows : list (list Qc)) (args : list P)
    (new_prop : bool) (props : option (list Z)) : grid * exc unit :=
  match fuel with
  | O => (g, Ok tt)
  | S fuel' =>
      let pi := firstn chunk rows in
      let argi := firstn chunk args in
      let values := eval_spectra spec eval_as_loop cumulative axis argi in
      if negb (forallb (fun r => length r =? nth ax (g_npix g) 0)%nat values) then (g, Raise ValueError)
      else if negb (length values =? length pi)%nat then (g, Raise ValueError)
      else
        match add_from_pos_plus_array g (Pos2 ncol pi) values (Z.of_nat ax) new_prop props with
        | (g', Raise e) => (g', Raise e)
        | (g', Ok _) =>
            spec_loop spec ncol eval_as_loop cumulative axis ax chunk fuel' g'
              (skipn chunk rows) (skipn chunk args) false
              (if new_prop then Some [Z.of_nat (g_nprop g') - 1]%Z else props)
        end
  end.

(** 776-940 for 2-d positions.  A missing argument array is an array of unit values. *)
Definition add_from_spec_func {P : Type} (g : grid) (pos : posarg)
    (spec : list Qc -> list P -> list (list A)) (args : list P) (axz : Z)
    (cumulative eval_as_loop careful new_prop : bool) (props : option (list Z)) : grid * exc unit :=
  match g_data g with
  | None => (g, Raise ValueError)
  | Some _ =>
      if existsb (fun b => b) (g_fsp g) then (g, Raise ValueError)
      else
        match norm_axis g axz with
        | Raise e => (g, Raise e)
        | Ok ax =>
            match pos with
            | Pos1 [] => if new_prop then (g, Raise AttributeError) (* 879: self.new_prop *)
                         else (g, Ok tt)
            | Pos2 _ [] => (g, Ok tt)
            | _ =>
                let '(ncol, rows) := match pos with
                                     | Pos1 l => (length l, [l])
                                     | Pos2 nc r => (nc, r)
                                     end in
                if negb (ncol =? g_ndim g - 1)%nat then (g, Raise ValueError)
                else if negb (length args =? length rows)%nat then (g, Raise ValueError)
                else
                  (* 900-903: for a 1-d grid np.prod([]) is the float 1.0, unusable in a slice *)
                  if (careful && (g_ndim g <=? 1)%nat)%bool then (g, Raise TypeError)
                  else
                    let chunk := if careful then size (del_nth (g_npix g) ax) else length rows in
                    let axis := if cumulative then nth ax (g_axes g) [] else nth ax (g_centers g) [] in
                    let nchunks := ((length rows + chunk - 1) / chunk)%nat in
                    spec_loop spec ncol eval_as_loop cumulative axis ax chunk nchunks g rows args new_prop props
            end
        end
  end.

(** * sum_properties: gridder.py 943-985 *)
Definition prop_sum (npix : list nat) (ps : list nat) (a : arr A) : arr A :=
  tab (npix ++ [1%nat]) (fun ix => vsum (map (fun p => getd v0 a (removelast ix ++ [p])) ps)).

Definition sum_props_in_place (g : grid) (props : option (list Z)) : grid * exc unit :=
  match g_data g with
  | None => (g, Raise ValueError)
  | Some d =>
      match check_props g props with
      | Raise e => (g, Raise e)
      | Ok ps => add_new_prop g (Some (prop_sum (g_npix g) ps d))
      end
  end.

Definition sum_props_new (g : grid) (props : option (list Z)) : exc grid :=
  match g_data g with
  | None => Raise ValueError
  | Some d =>
      do ps <- check_props g props ;;
      do n <- copy_axes g 1 ;;
      Ok (with_data (init_grid n) (Some (prop_sum (g_npix g) ps d)))
  end.

(** * sample: gridder.py 988-1052; NaN is None *)
Definition grid_sample (g : grid) (ncol : nat) (rows : list (list Qc)) (props : option (list Z))
    : exc (list (list (option A))) :=
  match g_data g with
  | None => Raise ValueError
  | Some d =>
      do ps <- check_props g props ;;
      do _ <- check ((length rows =? 0)%nat || (ncol =? g_ndim g)%nat) ValueError ;;
      Ok (map (fun r =>
                 let z := cell_index (fv (g_center g)) (fv (g_side g)) (fv (g_pix g)) r in
                 map (fun p => if in_range (g_npix g) z
                               then get d (map Z.to_nat z ++ [p]) else None) ps) rows)
  end.

End Methods.
