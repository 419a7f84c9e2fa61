(** Model of the luminosity function distributions: simim/galprops/galprops_am.py 317-758
    [schechter_gen], [double_schechter_gen], [modified_schechter_gen] and [double_power_law_gen].
    No proofs here.

    Numbers are real: rounding, overflow and NaN are not modelled. The special functions of scipy are
    arguments. scipy hands [_pdf] and [_cdf] arrays of one shape, the parameters repeated for every
    value of x (a number is an array of length one), and calls them only for x inside the support;
    the wrapper itself is not modelled, nor are parameters that differ from cell to cell (for these
    [_argcheck] cannot decide). *)
From Verif Require Import Util RealUtil AmModel.
From Coq Require Import Reals.
Open Scope R_scope.

(** scipy.special: gamma, gammaincc, expi *)
Record special := mkSpecial { gamma : R -> R; gammaincc : R -> R -> R; expi : R -> R }.

Definition log10 (x : R) : R := ln x / ln 10.
(** np.logspace(np.log10(xmin),np.log10(xmin)+20,10001): 437, 581, 616, 660, 694, 738 *)
Definition npoints : nat := Z.to_nat 10001.
Definition xint (xmin : R) : list R := map (Rpower 10) (linspace (log10 xmin) (log10 xmin + 20) npoints).

(** * Schechter functions, one component (317-457) or two (459-603)

    The two classes differ only in the number of terms: [comps] lists the pairs (alpha, phi). *)
Record schechter := mkSch { s_x0 : R; comps : list (R * R); s_xmin : R }.
Definition schechter_gen (x0 alpha phi0 xmin : R) : schechter := mkSch x0 [(alpha, phi0)] xmin.
Definition double_schechter_gen (x0 alpha1 phi1 alpha2 phi2 xmin : R) : schechter := mkSch x0 [(alpha1, phi1); (alpha2, phi2)] xmin.
Definition total (l : list R) : R := fold_right Rplus 0 l.

(** [lum_function], 320-327, 462-469 *)
Definition lum_function (p : schechter) (x : R) : R :=
  if rltb x (s_xmin p) then 0
  else exp (- x / s_x0 p) * total (map (fun c => snd c * Rpower (x / s_x0 p) (fst c)) (comps p)) * 1 / s_x0 p.

(** [_uppergammamod], 339-413, 481-555. [amod] and the number of steps, 368-370 (the clip at zero is
    [Z.to_nat]; the cast to int of a difference that is a whole number) *)
Definition amod (a : R) : R := rmod a 1.
Definition steps (a : R) : nat := Z.to_nat (rfloor (amod a - a)).
(** 373-378, and cell by cell 383-389 *)
Definition base (F : special) (a x : R) : R :=
  if rltb 0 a then gamma F a * gammaincc F a x
  else if reqb (amod a) 0 then - expi F (- x)
  else gamma F (amod a) * gammaincc F (amod a) x.
(** 408 *)
Definition step (a x gp : R) (i : nat) : R := (gp - Rpower x (amod a - INR (i + 1)) * exp (- x)) / (amod a - INR (i + 1)).
(** [a] has one entry *)
Definition uppergammamod (F : special) (a x : R) : R := fold_left (step a x) (seq 0 (steps a)) (base F a x).
(** [a] has as many entries as [x], more than one, all the same: 411 changes the entries with n > 1,
    all of them or none; with none, x and the empty amod[n>1] cannot be combined *)
Definition step_arr (a : R) (xs : list R) (gps : exc (list R)) (i : nat) : exc (list R) :=
  do g <- gps ;;
  if (1 <? steps a)%nat then Ok (map (fun xg => step a (fst xg) (snd xg) i) (combine xs g)) else Raise ValueError.
Definition uppergammamod_arr (F : special) (a : R) (xs : list R) : exc (list R) :=
  if (length xs =? 1)%nat then Ok (map (uppergammamod F a) xs)
  else fold_left (step_arr a xs) (seq 0 (steps a)) (Ok (map (base F a) xs)).

(** numpy's [dst[mask] = src] for a one-dimensional src: one entry for all, or as many entries as
    the mask selects *)
Fixpoint fill (dst : list R) (mask : list bool) (src : list R) : list R :=
  match dst, mask with
  | d :: dr, true :: mr => match src with s :: sr => s :: fill dr mr sr | [] => d :: fill dr mr [] end
  | d :: dr, false :: mr => d :: fill dr mr src
  | _, _ => dst
  end.
Definition mask_set (dst : list R) (mask : list bool) (src : list R) : exc (list R) :=
  let k := length (filter (fun b => b) mask) in
  if (length src =? 1)%nat then Ok (fill dst mask (repeat (hd 0 src) k))
  else if (length src =? k)%nat then Ok (fill dst mask src) else Raise ValueError.

Definition add_lists (a b : list R) : list R := map (fun xy => fst xy + snd xy) (combine a b).
(** phi * _uppergammamod(alpha+1, x/x0), added up *)
Definition weighted (F : special) (p : schechter) (xs : list R) : exc (list R) :=
  do t <- mapM (fun c => do g <- uppergammamod_arr F (fst c + 1) (map (fun x => x / s_x0 p) xs) ;; Ok (map (Rmult (snd c)) g)) (comps p) ;;
  Ok (fold_right add_lists (repeat 0 (length xs)) t).
(** [lum_function_int], 329-337, 471-479: parameters that are arrays like x *)
Definition lum_function_int_arr (F : special) (p : schechter) (xs : list R) : exc (list R) :=
  do i <- weighted F p xs ;; do j <- weighted F p (repeat (s_xmin p) (length xs)) ;;
  mask_set i (map (fun x => rltb x (s_xmin p)) xs) j.
(** parameters that are numbers: x an array, *)
Definition lum_int (F : special) (p : schechter) (x : R) : R :=
  total (map (fun c => snd c * uppergammamod F (fst c + 1) (x / s_x0 p)) (comps p)).
Definition lum_function_int_xs (F : special) (p : schechter) (xs : list R) : list R :=
  map (fun x => if rltb x (s_xmin p) then lum_int F p (s_xmin p) else lum_int F p x) xs.
(** or x a number, 333-335, 475-477 *)
Definition lum_function_int (F : special) (p : schechter) (x : R) : R := if rltb x (s_xmin p) then 1 else lum_int F p x.

Definition zero_below (p : schechter) (xs cs : list R) : list R := map (fun xc => if rltb (fst xc) (s_xmin p) then 0 else snd xc) (combine xs cs).
(** [_pdf], 415-420, 557-562: the norm is computed and not used *)
Definition sch_pdf (F : special) (p : schechter) (xs : list R) : exc (list R) :=
  do norm <- lum_function_int_arr F p (repeat (s_xmin p) (length xs)) ;;
  Ok (zero_below p xs (map (lum_function p) xs)).
(** [_cdf], 422-428, 564-570 *)
Definition sch_cdf (F : special) (p : schechter) (xs : list R) : exc (list R) :=
  do norm <- lum_function_int_arr F p (repeat (s_xmin p) (length xs)) ;;
  do int <- lum_function_int_arr F p xs ;;
  Ok (zero_below p xs (map (fun ni => (fst ni - snd ni) / fst ni) (combine norm int))).
(** np.interp(c, yint, xint), flat outside *)
Definition look (c : R) (xp fp : list R) : R := interp (fun y => y) (Fin c) xp fp (hd 0 fp) (last fp 0).
(** [_ppf], 430-441, 572-585: the parameters are cut back to numbers *)
Definition sch_ppf (F : special) (p : schechter) (c : R) : R :=
  let x := xint (s_xmin p) in
  look c (map (fun y => 1 - y / lum_function_int F p (s_xmin p)) (lum_function_int_xs F p x)) x.
(** [_argcheck], 446-457, 590-603 *)
Definition argcheck (p : schechter) : bool := negb (rleb (s_x0 p) 0 || rleb (s_xmin p) 0 || existsb (fun c => rltb (snd c) 0) (comps p)).

(** * Summed distributions: modified Schechter function (605-682), double power law (684-758)

    The two classes differ in [lum_function] only; [lum] is that function. *)
(** 608-613 *)
Definition modified_schechter (phi0 x0 alpha sigma xmin x : R) : R :=
  if rltb x xmin then 0 else phi0 * Rpower (x / x0) (1 - alpha) * exp (- 1 / (2 * sigma ^ 2) * log10 (1 + x / x0) ^ 2).
(** 687-691 *)
Definition double_power_law (phi0 x0 alpha beta xmin x : R) : R :=
  if rltb x xmin then 0 else phi0 * / (Rpower (x / x0) alpha + Rpower (x / x0) beta).
(** np.cumsum *)
Fixpoint cumsum_from (s : R) (l : list R) : list R := match l with [] => [] | a :: r => (s + a) :: cumsum_from (s + a) r end.
Definition cumsum (l : list R) : list R := cumsum_from 0 l.
(** 617, 661, 695, 739 *)
Definition xdif (xmin : R) : R := log10 (nth 1 (xint xmin) 0) - log10 (nth 0 (xint xmin) 0).
(** [lum_function_int], 615-622, 693-700 *)
Definition sum_int (lum : R -> R) (xmin x : R) : R :=
  look x (xint xmin) (map (fun y => y * xdif xmin) (rev (cumsum (map lum (rev (xint xmin)))))).
(** [_pdf], 624-635, 702-713 *)
Definition sum_pdf (lum : R -> R) (xmin x : R) : R := lum x / sum_int lum xmin xmin.
(** [_cdf], 637-650, 715-728 *)
Definition sum_cdf (lum : R -> R) (xmin x : R) : R :=
  let norm := sum_int lum xmin xmin in
  let int := sum_int lum xmin x in
  if rltb x xmin then 0 else (norm - int) / norm.
(** [_ppf], 652-665, 730-743 *)
Definition sum_ppf (lum : R -> R) (xmin c : R) : R :=
  let yint := map (fun y => y * xdif xmin) (cumsum (map lum (xint xmin))) in
  look c (map (fun y => y / last yint 0) yint) (xint xmin).
(** [_get_support], 668-669, 746-747 *)
Definition sum_support (xmin : R) : R * R := (xmin, xmin * 10 ^ 20).
