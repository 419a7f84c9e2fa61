(** Model of the built-in responses and noise of detectors, and of the search for a detector's reference frequency:
    simim/instrument/spatial_response.py, spectral_response.py, noise_functions.py, _helpers.py 5-18 and
    instrument.py 574-606. No proofs here.

    Simplifications that hold for the whole file: floats are real numbers, NaN is None, keyword arguments are numbers. *)
From Verif Require Import Dict Util RealUtil RawModel.
From Coq Require Import Reals.
Open Scope string_scope. Open Scope list_scope.
Open Scope R_scope.

(** * Arguments *)
(** an axis as a caller gives it: a number, a sequence of numbers, something with more dimensions, a sequence that numpy
    cannot cast *)
Inductive axin := ANum (x : R) | ASeq (l : list R) | ADeep | ARagged.
(** _helpers.py 5-18 *)
Definition check_shape (a : axin) : exc (list R) :=
  match a with ANum x => Ok [x] | ASeq l => Ok l | ADeep | ARagged => Raise ValueError end.
(** keyword arguments: an unknown name is a TypeError, a missing one has its default *)
Definition known_kws (names : list string) (kw : dict R) : exc unit :=
  check (forallb (fun k => smem k names) (dkeys kw)) TypeError.
Definition kwarg (kw : dict R) (name : string) (default : R) : R := match dget kw name with Some x => x | None => default end.

(** * Beams: spatial_response.py *)
(** x**2/w**2 of floats; division of zero by zero is NaN, of anything else inf *)
Inductive ext := Fin (x : R) | Inf | NaN.
Definition sq_over (x w : R) : ext := if reqb w 0 then (if reqb x 0 then NaN else Inf) else Fin (x ^ 2 / w ^ 2).
Definition ext_add (a b : ext) : ext :=
  match a, b with NaN, _ | _, NaN => NaN | Inf, _ | _, Inf => Inf | Fin x, Fin y => Fin (x + y) end.
(** np.exp(-4*np.log(2)*e) *)
Definition falloff (e : ext) : option R :=
  match e with Fin x => Some (exp (-4 * ln 2 * x)) | Inf => Some 0 | NaN => None end.
(** 28-35; the three axes of the result are nested lists *)
Definition gauss_psf (dx dy freq : axin) (fwhmx fwhmy cx cy : R) : exc (list (list (list (option R)))) :=
  do dx <- check_shape dx ;; do dy <- check_shape dy ;; do freq <- check_shape freq ;;
  Ok (map (fun x => map (fun y => map (fun _ => falloff (ext_add (sq_over (x - cx) fwhmx) (sq_over (y - cy) fwhmy))) freq) dy) dx).
(** fwhm * (freq/freq0)**-freq_exp for a positive quotient; others are not modelled *)
Definition fwhm_at (fwhm freq0 freq_exp f : R) : exc R :=
  if rltb 0 (f / freq0) && negb (reqb freq0 0) then Ok (fwhm * Rpower (f / freq0) (- freq_exp)) else Raise unmodelled.
(** 63-72 *)
Definition gauss_psf_freq (dx dy freq : axin) (freq0 fwhmx fwhmy cx cy freq_exp : R) : exc (list (list (list (option R)))) :=
  do dx <- check_shape dx ;; do dy <- check_shape dy ;; do freq <- check_shape freq ;;
  do wx <- mapM (fwhm_at fwhmx freq0 freq_exp) freq ;; do wy <- mapM (fwhm_at fwhmy freq0 freq_exp) freq ;;
  Ok (map (fun x => map (fun y => map (fun w => falloff (ext_add (sq_over (x - cx) (fst w)) (sq_over (y - cy) (snd w)))) (combine wx wy)) dy) dx).
(** the same with keyword arguments, 5 and 37 *)
Definition call_gauss_psf (kw : dict R) (dx dy freq : axin) : exc (list (list (list (option R)))) :=
  do _ <- known_kws ["fwhmx"; "fwhmy"; "cx"; "cy"] kw ;;
  gauss_psf dx dy freq (kwarg kw "fwhmx" 1) (kwarg kw "fwhmy" 1) (kwarg kw "cx" 0) (kwarg kw "cy" 0).
Definition call_gauss_psf_freq (kw : dict R) (dx dy freq : axin) : exc (list (list (list (option R)))) :=
  do _ <- known_kws ["freq0"; "fwhmx"; "fwhmy"; "cx"; "cy"; "freq_exp"] kw ;;
  gauss_psf_freq dx dy freq (kwarg kw "freq0" (10 ^ 11)) (kwarg kw "fwhmx" 1) (kwarg kw "fwhmy" 1) (kwarg kw "cx" 0) (kwarg kw "cy" 0) (kwarg kw "freq_exp" (-1)).

(** * Bands: spectral_response.py *)
(** 4-8 *)
Definition gauss_response (freq : axin) (A freq0 fwhm : R) : exc (list (option R)) :=
  do freq <- check_shape freq ;; Ok (map (fun f => option_map (fun v => A * v) (falloff (sq_over (f - freq0) fwhm))) freq).
(** 10-15 *)
Definition boxcar_response (freq : axin) (A freq0 width : R) : exc (list (option R)) :=
  do freq <- check_shape freq ;;
  Ok (map (fun f => Some (if rleb (freq0 - width / 2) f && rleb f (freq0 + width / 2) then A else 0)) freq).
Definition call_gauss (kw : dict R) (freq : axin) : exc (list (option R)) :=
  do _ <- known_kws ["A"; "freq0"; "fwhm"] kw ;; gauss_response freq (kwarg kw "A" 1) (kwarg kw "freq0" 100) (kwarg kw "fwhm" 1).
Definition call_boxcar (kw : dict R) (freq : axin) : exc (list (option R)) :=
  do _ <- known_kws ["A"; "freq0"; "width"] kw ;; boxcar_response freq (kwarg kw "A" 1) (kwarg kw "freq0" 100) (kwarg kw "width" 1).

(** * Noise: noise_functions.py *)
Section Noise.
(** standard normal draws of a generator, and its new state *)
Context {G : Type} (normals : nat -> G -> list R * G).
(** 3-24; negative sizes are a ValueError of numpy *)
Definition zero_noise (n : Z) (g : G) : exc (list R * G) :=
  do _ <- check (0 <=? n)%Z ValueError ;; Ok (repeat 0 (Z.to_nat n), g).
(** 26-58; [fresh] is the generator made if none is given. Time steps that are not positive are not modelled; a negative
    scale and a negative size are a ValueError of numpy *)
Definition white_noise (n : Z) (dt rms bias : R) (g : option G) (fresh : G) : exc (list R * G) :=
  if rleb dt 0 then Raise unmodelled else
  do _ <- check (rleb 0 rms && (0 <=? n)%Z) ValueError ;;
  let '(zs, g') := normals (Z.to_nat n) (match g with Some g => g | None => fresh end) in
  Ok (map (fun z => bias + rms / sqrt dt * z) zs, g').
End Noise.

(** * The reference frequency: instrument.py 574-606 *)
Definition log10 (x : R) : R := ln x / ln 10.
(** np.logspace(a, b, n) *)
Definition logspace (a b : R) (n : nat) : list R := map (fun i => Rpower 10 (a + INR i * ((b - a) / INR (n - 1)))) (seq 0 n).
(** np.nanargmax: the first place of the largest number; ValueError if there is none *)
Fixpoint nanargmax_from (k : nat) (best : option (nat * R)) (l : list (option R)) : option (nat * R) :=
  match l with
  | [] => best
  | None :: r => nanargmax_from (S k) best r
  | Some x :: r => nanargmax_from (S k) (match best with Some (_, m) => if rltb m x then Some (k, x) else best | None => Some (k, x) end) r
  end.
Definition nanargmax (l : list (option R)) : exc nat :=
  match nanargmax_from 0 None l with Some (i, _) => Ok i | None => Raise ValueError end.
Definition list_min (l : list R) : R := match l with [] => 0 | a :: r => fold_left Rmin r a end.
Definition list_max (l : list R) : R := match l with [] => 0 | a :: r => fold_left Rmax r a end.
(** what is found: a frequency, or NaN. The warnings are left out *)
Inductive found := Freq (x : R) | Unknown.
Definition points : nat := 50001.
(** the place of the maximum in the window, 585-587. [resp] is the response with its keyword arguments *)
Definition best_in (resp : axin -> exc (list (option R))) (a b : R) : exc R :=
  do y <- resp (ASeq (logspace a b points)) ;; do i <- nanargmax y ;;
  match nth_error (logspace a b points) i with Some x => Ok x | None => Raise IndexError end.
(** 584-602; [last] is None before the first pass, where xmaxlast is -inf. The result is None while the loop has not come
    to an end after [fuel] passes *)
Fixpoint search (resp : axin -> exc (list (option R))) (fuel : nat) (a b : R) (last : option R) : option found :=
  match fuel with
  | O => None
  | S k =>
      match best_in resp a b with
      | Raise _ => Some Unknown
      | Ok x =>
          if reqb x (list_min (logspace a b points)) || reqb x (list_max (logspace a b points)) then Some Unknown
          else if match last with Some p => rleb (Rabs (p - x)) (1 / 100) | None => false end then Some (Freq x)
          else search resp k (log10 x - (b - a) / 4) (log10 x + (b - a) / 4) (Some x)
      end
  end.
(** 575-606 *)
Definition reffreq (nominal : option R) (resp : axin -> exc (list (option R))) (fuel : nat) : option found :=
  match nominal with Some x => Some (Freq x) | None => search resp fuel (-20) 20 None end.
