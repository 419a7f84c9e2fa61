(** Model of the relations that assign luminosities and star formation rates to halos:
    simim/galprops/log10normal.py, line_co.py, line_co_dutycycle.py, line_densegas.py,
    line_fir.py and sfr_behroozi13.py 137-268. No proofs here.

    Simplifications that hold for the whole file:
    - floats are real numbers, NaN is None; arguments are one-dimensional arrays without
      NaN unless a definition says otherwise;
    - a random number generator is a state in [G] with two functions: [normals n g] and
      [uniforms n g] return [n] draws and the new state. A relation returns the new state
      of the generator it was given, and where it matters that of the global one. *)
From Verif Require Import Dict Util RealUtil.
From Coq Require Import Reals.
Open Scope string_scope. Open Scope list_scope.
Open Scope R_scope.

Definition log10 (x : R) : R := ln x / ln 10.
(** 10**y *)
Definition p10 (y : R) : R := Rpower 10 y.
(** 10**(f(log10(x))) for a linear [f] of positive slope, so that f(-inf) = -inf: zero at
    zero, NaN below. With a slope parameter that is not positive (li16 and hcn_gao take one)
    this definition does not describe the code at zero. *)
Definition p10log (f : R -> R) (x : R) : option R :=
  if rltb x 0 then None else if reqb x 0 then Some 0 else Some (p10 (f (log10 x))).
Definition omul (c : R) (o : option R) : option R := option_map (fun x => c * x) o.
(** b**p of floats for b >= 0, p > 0 *)
Definition rpow (b p : R) : R := if reqb b 0 then 0 else Rpower b p.

(** constants.py 8, 14, 40 *)
Definition Lsun_to_W : R := 3828 * 10 ^ 23.
Definition nu_co10 : R := 11527120180 * 10.
Definition nu_hcn10 : R := 8863 * 10 ^ 7.

Section Random.
Context {G : Type} (normals uniforms : nat -> G -> list R * G).

(** log10normal.py 3-34. [zip] stops at the shorter list; the draws are as many as the
    values. *)
Definition log10normal (x : list (option R)) (dex : R) (preserve : bool) (g : G) : list (option R) * G :=
  let mu := if preserve then map (option_map (fun v => v / p10 (dex * dex * ln 10 / 2))) x else x in
  let '(ns, g') := normals (length mu) g in
  (map (fun p => option_map (fun v => v * p10 (dex * snd p)) (fst p)) (combine mu ns), g').
Definition scattered (scatter preserve : bool) (sig : R) (l : list (option R)) (g : G) : list (option R) * G :=
  if scatter then log10normal l sig preserve g else (l, g).

(** * line_co.py *)
(** keating16, line_co.py 7-43 *)
Definition keating16 (mass : list R) (m_min A : R) (scatter : bool) (sig : R) (g : G) : list (option R) * G :=
  let '(l, g') := scattered scatter false sig (map (fun m => Some (A * m)) mass) g in
  (map (fun p => if rltb (fst p) m_min then Some 0 else snd p) (combine mass l), g').

(** li16, line_co.py 46-89 *)
Definition li16 (sfr : list R) (d_mf a b nu : R) (scatter : bool) (sig : R) (g : G) : list (option R) * G :=
  scattered scatter true sig
    (map (fun s => omul (49 / 10 ^ 6 * (nu / nu_co10) ^ 3) (p10log (fun l => (l - b) / a) (s / d_mf * 10 ^ 10))) sfr) g.

(** f_duty, line_co_dutycycle.py 4-37. [age] is the interpolated or exact age of the
    universe, in Gyr; positive *)
Definition f_duty (age : R -> R) (sf_length : R) (redshift : list R) : list R :=
  map (fun z => if rltb 1 (sf_length / age z) then 1 else sf_length / age z) redshift.
(** pullen13, line_co.py 92-137. [redshift] has as many elements as [mass], or one, which
    numpy repeats. Otherwise the shapes do not match: a ValueError, but for a single mass
    line 133 compares successfully and then indexes one value with a longer or empty mask,
    an IndexError. *)
Definition pullen13 (age : R -> R) (mass redshift : list R) (rand : bool) (sf_length : R) (g : G) : exc (list R * G) :=
  do frac <- (match f_duty age sf_length redshift with
              | [f] => Ok (map (fun _ => f) mass)
              | fs => if (length fs =? length mass)%nat then Ok fs
                      else if rand && (length mass =? 1)%nat then Raise IndexError else Raise ValueError
              end) ;;
  let full := map (fun m => 10 ^ 6 * m / (5 * 10 ^ 11)) mass in
  if rand then
    let '(us, g') := uniforms (length mass) g in
    Ok (map (fun p => if rltb (snd (fst p)) (snd p) then 0 else fst (fst p)) (combine (combine full frac) us), g')
  else Ok (map (fun p => fst p * snd p) (combine full frac), g).

(** lidz11, line_co.py 140-184 *)
Definition lidz11 (mass : list R) (fd : R) (rand : bool) (g : G) : list R * G :=
  if rand then
    let '(us, g') := uniforms (length mass) g in
    (map (fun p => if rltb (snd p) fd then 28 * 10 ^ 2 * (fst p / 10 ^ 8) else 0) (combine mass us), g')
  else (map (fun m => 28 * 10 ^ 2 * (m / 10 ^ 8) * fd) mass, g).

(** kamenetzky16, line_co.py 187-291, for a one-dimensional array [sfr]. Line 260 assigns
    L_fir; L_ir is read on line 266 or 279 and assigned only on 279, an UnboundLocalError
    (a NameError). With no lines at all line 276 comes first and indexes with an empty array
    of floats, an IndexError. *)
Definition kamenetzky16 (sfr : list R) (lines : list Z) (break_ulirgs : bool) : exc (list (list R)) :=
  if forallb (fun j => (1 <=? j)%Z && (j <=? 13)%Z) lines then
    match lines with [] => if break_ulirgs then Raise NameError else Raise IndexError | _ => Raise NameError end
  else Raise ValueError.

(** * line_densegas.py *)
(** hcn_gao, line_densegas.py 6-46 *)
Definition hcn_gao (sfr : list R) (d_mf a b nu : R) (scatter : bool) (sig : R) (g : G) : list (option R) * G :=
  scattered scatter true sig
    (map (fun s => omul (22 / 10 ^ 6 * (nu / nu_hcn10) ^ 3) (p10log (fun l => (l - b) / a) (s / d_mf * 10 ^ 10))) sfr) g.
(** hcn_breysse, line_densegas.py 48-82; masses are not negative *)
Definition hcn_breysse (mass : list R) (fd : R) (rand : bool) (g : G) : list R * G :=
  if rand then
    let '(us, g') := uniforms (length mass) g in
    (map (fun p => if rltb (snd p) fd then 17 / 10 ^ 16 * rpow (fst p) (167 / 100) else 0) (combine mass us), g')
  else (map (fun m => 17 / 10 ^ 16 * rpow m (167 / 100) * fd) mass, g).

(** * line_fir.py *)
(** delooze14, line_fir.py 51-132: slope, intercept and scatter, in hundredths. *)
Definition delooze_table : list (string * (((Z * Z * Z)) * list (string * (Z * Z * Z)))) :=
  [("[CII]", ((101, -699, 42), [("DGS", (84, -529, 40)); ("dwarfs", (80, -573, 37)); ("starbursts", (100, -706, 27));
              ("comp/AGN", (90, -609, 37)); ("high z", (118, -852, 40))])%Z);
   ("[OI]", ((100, -679, 42), [("DGS", (94, -637, 25)); ("dwarfs", (91, -623, 27)); ("starbursts", (89, -605, 20));
             ("comp/AGN", (76, -508, 35))])%Z);
   ("[OIII]", ((112, -748, 66), [("DGS", (92, -671, 30)); ("dwarfs", (92, -671, 30)); ("starbursts", (69, -389, 23));
               ("comp/AGN", (87, -546, 35))])%Z)].
Definition hundredths (z : Z) : R := IZR z / 100.
(** delooze14, line_fir.py 6-142 *)
Definition delooze14 (sfr : list R) (line : string) (set : option string) (scatter : bool) (fix_scatter : option R) (g : G) : exc (list (option R) * G) :=
  match dget delooze_table line with
  | None => Raise ValueError
  | Some (whole, sets) =>
      match match set with None => Some whole | Some n => dget sets n end with
      | None => Raise ValueError
      | Some (m, b, s) =>
          let sigma := match fix_scatter with Some x => x | None => hundredths s end in
          Ok (scattered scatter false sigma (map (p10log (fun l => (l - hundredths b) / hundredths m)) sfr) g)
      end
  end.

(** the tables of uzgil14, line_fir.py 184-233, and spinoglio12, 288-337, in hundredths *)
Definition uzgil_table : list (string * (Z * Z)) :=
  [("[CII]", (89, 244)); ("[NII]", (101, 354)); ("[OI]", (98, 270)); ("[OIII]88um", (98, 286)); ("[OIII]52um", (88, 254));
   ("[SiII]", (104, 315)); ("[SIII]33um", (99, 321)); ("[SIII]19um", (97, 347)); ("[NeII]", (99, 326)); ("[NeIII]", (110, 372))]%Z.
Definition spinoglio_table : list (string * (Z * Z)) :=
  [("[CII]", (89, 267)); ("[NII]", (101, 380)); ("[OI]", (98, 295)); ("[OIII]88um", (98, 311)); ("[OIII]52um", (88, 276));
   ("[SiII]", (104, 342)); ("[SIII]33um", (99, 346)); ("[SIII]19um", (97, 372)); ("[NeII]", (99, 294)); ("[NeIII]", (110, 400))]%Z.
(** uzgil14, line_fir.py 144-249, and spinoglio12, 251-352, which differ in the table only. A
    line that is not in the table leaves A unassigned: an UnboundLocalError (a NameError) on
    line 241 or 344. The argument [set] is never read. *)
Definition ir_fit (table : list (string * (Z * Z))) (sfr : list R) (d_mf : R) (line : string) (scatter : bool) (sig : R) (g : G)
  : exc (list (option R) * G) :=
  match dget table line with
  | None => Raise NameError
  | Some (A, B) =>
      Ok (scattered scatter false sig
        (map (fun s => omul (10 ^ 34 / Lsun_to_W)
           (p10log (fun l => hundredths A * l - hundredths B) (s / d_mf * 10 ^ 10 * (Lsun_to_W / 10 ^ 34)))) sfr) g)
  end.
Definition uzgil14 := ir_fit uzgil_table.
Definition spinoglio12 := ir_fit spinoglio_table.

(** schaerer20, line_fir.py 354-406; the default is chosen on 384-385 *)
Definition schaerer_table : list (string * (Z * Z)) :=
  [("ALPINE-uvir", (100, 700)); ("ALPINE-sed", (84, 709)); ("ALPINE-uvirx", (117, 661)); ("high z-uvirx", (128, 643))]%Z.
Definition schaerer20 (sfr : list R) (set : option string) (scatter : bool) (sig : R) (g : G) : exc (list (option R) * G) :=
  match dget schaerer_table (match set with None => "ALPINE-uvirx" | Some n => n end) with
  | None => Raise ValueError
  | Some (m, b) => Ok (scattered scatter false sig (map (p10log (fun l => hundredths m * l + hundredths b)) sfr) g)
  end.
(** zhao13, line_fir.py 408-445 *)
Definition zhao13 (sfr : list R) (d_mf : R) (scatter : bool) (sig : R) (g : G) : list (option R) * G :=
  scattered scatter false sig (map (fun s => p10log (fun l => (l - 451 / 100) / (95 / 100)) (s * 10 ^ 10 / d_mf)) sfr) g.

(** padmanabhan19, line_fir.py 447-487; masses are positive and redshifts above -1 *)
Definition pad_L (m1 b n1 a m z : R) : R :=
  Rpower (m / m1) b * exp (- n1 / m) * Rpower (Rpower (1 + z) (27 / 10) / (1 + Rpower ((1 + z) / (29 / 10)) (56 / 10))) a.
Definition padmanabhan19 (m1 b n1 a : R) (mz : list (R * R)) (scatter : bool) (sig : option R) (g : G) : exc (list (option R) * G) :=
  let l := map (fun p => Some (pad_L m1 b n1 a (fst p) (snd p))) mz in
  if scatter then
    match sig with None => Raise ValueError | Some sg => Ok (log10normal l sg true g) end
  else Ok (l, g).

(** * sfr_behroozi13.py *)
(** what sfr and stellarmass give back; [BErr] is an exception object that is returned, not
    raised (lines 162 and 202) *)
Inductive bres := BErr (e : exn) | BVal (l : list (option R)).
(** sfr and stellarmass of the class, 137-215, and the functions of the same names, 220-268:
    [spl] is the spline of the table, None if the path is not set up, [g] the generator the
    caller gives and [gd] the one made when log10normal was defined. Lines 173 and 213 do
    not pass [g] on. The warnings of 164-167 and 204-207 are left out. *)
Definition behroozi (spl : option (R -> R -> R)) (zm : list (R * R)) (scatter : bool) (sig : R) (g gd : G) : bres * G * G :=
  match spl with
  | None => (BErr ValueError, g, gd)
  | Some f =>
      let '(r, gd') := scattered scatter true sig (map (fun p => Some (f (fst p) (snd p))) zm) gd in (BVal r, g, gd')
  end.
End Random.
