(** Specification for C78-C81: what the published fits, the scatter and the duty cycles
    mean, without reference to how the relations are computed. *)
From Verif Require Import Dict Util RealUtil.
From Coq Require Import Reals.
From Coquelicot Require Import Coquelicot.
Open Scope string_scope. Open Scope list_scope.
Open Scope R_scope.

Definition lg (x : R) : R := ln x / ln 10.

(** A relation between a quantity and a luminosity, as a function returns it: NaN below
    zero, zero at zero, and otherwise a positive luminosity that satisfies [rel]. *)
Definition fits (rel : R -> R -> Prop) (x : R) (o : option R) : Prop :=
  (x < 0 -> o = None) /\ (x = 0 -> o = Some 0) /\ (0 < x -> exists L, o = Some L /\ 0 < L /\ rel x L).
(** brighter with more star formation *)
Definition brighter (xs : list R) (os : list (option R)) : Prop :=
  forall i j x y a b, nth_error xs i = Some x -> nth_error xs j = Some y -> 0 <= x < y ->
    nth_error os i = Some (Some a) -> nth_error os j = Some (Some b) -> a < b.

(** De Looze et al. 2014: log SFR = m log L + b *)
Definition delooze_fits : list (string * option string * R * R) :=
  [("[CII]", None, 1.01, -6.99); ("[CII]", Some "DGS", 0.84, -5.29); ("[CII]", Some "dwarfs", 0.80, -5.73);
   ("[CII]", Some "starbursts", 1.00, -7.06); ("[CII]", Some "comp/AGN", 0.90, -6.09); ("[CII]", Some "high z", 1.18, -8.52);
   ("[OI]", None, 1.00, -6.79); ("[OI]", Some "DGS", 0.94, -6.37); ("[OI]", Some "dwarfs", 0.91, -6.23);
   ("[OI]", Some "starbursts", 0.89, -6.05); ("[OI]", Some "comp/AGN", 0.76, -5.08);
   ("[OIII]", None, 1.12, -7.48); ("[OIII]", Some "DGS", 0.92, -6.71); ("[OIII]", Some "dwarfs", 0.92, -6.71);
   ("[OIII]", Some "starbursts", 0.69, -3.89); ("[OIII]", Some "comp/AGN", 0.87, -5.46)].
(** Uzgil et al. 2014 and Spinoglio et al. 2012: log L = A log L_IR - B, both luminosities
    in units of 10^41 erg/s *)
Definition uzgil_fits : list (string * R * R) :=
  [("[CII]", 0.89, 2.44); ("[NII]", 1.01, 3.54); ("[OI]", 0.98, 2.70); ("[OIII]88um", 0.98, 2.86); ("[OIII]52um", 0.88, 2.54);
   ("[SiII]", 1.04, 3.15); ("[SIII]33um", 0.99, 3.21); ("[SIII]19um", 0.97, 3.47); ("[NeII]", 0.99, 3.26); ("[NeIII]", 1.10, 3.72)].
Definition spinoglio_fits : list (string * R * R) :=
  [("[CII]", 0.89, 2.67); ("[NII]", 1.01, 3.80); ("[OI]", 0.98, 2.95); ("[OIII]88um", 0.98, 3.11); ("[OIII]52um", 0.88, 2.76);
   ("[SiII]", 1.04, 3.42); ("[SIII]33um", 0.99, 3.46); ("[SIII]19um", 0.97, 3.72); ("[NeII]", 0.99, 2.94); ("[NeIII]", 1.10, 4.00)].
(** the lines that the documentation of both functions lists *)
Definition ir_documented : list string :=
  ["[CII]"; "[NII]"; "[OI]"; "[OIII]88um"; "[OIII]52um"; "[SiII]"; "[SiIII]33um"; "[SiIII]19um"; "[NeII]"; "[NeIII]"].
(** solar luminosities in units of 10^41 erg/s = 10^34 W *)
Definition e41 (L : R) : R := L * (3.828 / 10 ^ 8).
(** Schaerer et al. 2020: log L = m log SFR + b *)
Definition schaerer_fits : list (option string * R * R) :=
  [(None, 1.17, 6.61); (Some "ALPINE-uvir", 1.00, 7.00); (Some "ALPINE-sed", 0.84, 7.09);
   (Some "ALPINE-uvirx", 1.17, 6.61); (Some "high z-uvirx", 1.28, 6.43)].
(** L_IR in solar luminosities from a star formation rate *)
Definition L_IR (d_mf sfr : R) : R := sfr / d_mf * 10 ^ 10.
(** the relation of Uzgil et al. and Spinoglio et al. *)
Definition ir_rel (d_mf A B sfr L : R) : Prop := lg (e41 L) = A * lg (e41 (L_IR d_mf sfr)) - B.
(** scatter in dex of the De Looze et al. 2014 fits *)
Definition delooze_sigma : list (string * option string * R) :=
  [("[CII]", None, 0.42); ("[CII]", Some "DGS", 0.40); ("[CII]", Some "dwarfs", 0.37);
   ("[CII]", Some "starbursts", 0.27); ("[CII]", Some "comp/AGN", 0.37); ("[CII]", Some "high z", 0.40);
   ("[OI]", None, 0.42); ("[OI]", Some "DGS", 0.25); ("[OI]", Some "dwarfs", 0.27);
   ("[OI]", Some "starbursts", 0.20); ("[OI]", Some "comp/AGN", 0.35);
   ("[OIII]", None, 0.66); ("[OIII]", Some "DGS", 0.30); ("[OIII]", Some "dwarfs", 0.30);
   ("[OIII]", Some "starbursts", 0.23); ("[OIII]", Some "comp/AGN", 0.35)].

(** [out] is [base] with scatter of [dex] dex, value by value and with one draw of [ns] for
    each: around [base] in the median, or in the mean. NaN stays NaN. *)
Inductive keeps := Median | Mean.
Definition scatter_of (k : keeps) (dex x n : R) : R :=
  match k with
  | Median => x * exp (ln 10 * dex * n)
  | Mean => x * exp (ln 10 * dex * n) / exp ((ln 10 * dex) ^ 2 / 2)
  end.
Definition scatters (k : keeps) (dex : R) (ns : list R) (base out : list (option R)) : Prop :=
  length out = length base /\
  forall i n, nth_error ns i = Some n ->
    (forall x, nth_error base i = Some (Some x) -> nth_error out i = Some (Some (scatter_of k dex x n)))
    /\ (nth_error base i = Some None -> nth_error out i = Some None).
(** a generator gives as many numbers as it is asked for *)
Definition draws {G} (d : nat -> G -> list R * G) : Prop := forall n g, length (fst (d n g)) = n.

(** Expectation of [f] of a standard normal variable: the ratio of the integrals of
    f(n) exp(-n^2/2) and exp(-n^2/2) over [-T, T], as T grows. *)
Definition gauss (n : R) : R := exp (- (n * n) / 2).
Definition normal_mean (f : R -> R) (v : R) : Prop :=
  is_lim (fun T => RInt (fun n => f n * gauss n) (- T) T / RInt gauss (- T) T) p_infty v.
(** Expectation of [f] of a uniform variable on [0, 1] *)
Definition uniform_mean (f : R -> R) (v : R) : Prop := is_RInt f 0 1 v.

(** the luminosity of a halo that is on: Lidz et al. 2011, Breysse et al., Pullen et al. 2013 *)
Definition lidz_L (m : R) : R := 2.8 * 10 ^ 3 * (m / 10 ^ 8).
Definition breysse_L (m : R) : R := 1.7 / 10 ^ 15 * Rpower m 1.67.
Definition pullen_L (m : R) : R := 10 ^ 6 * m / (5 * 10 ^ 11).
(** the redshift of halo [i]: its own, or the only one given *)
Definition redshift_of (zs : list R) (i : nat) : option R := match zs with z :: nil => Some z | _ => nth_error zs i end.
