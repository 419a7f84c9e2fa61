(** Specification for C82: the double power law of Yang et al. 2022, with its parameters by
    line and redshift. From the model it takes only the type of the redshift argument, one
    number or an array. *)
From Verif Require Import Dict Util RealUtil YangModel.
From Coq Require Import Reals.
Open Scope string_scope. Open Scope list_scope.
Open Scope R_scope.

(** logarithm of the characteristic mass and of the normalisation, and the two slopes, as
    functions of redshift *)
Record regime := Regime { r_m1 : R -> R; r_n : R -> R; r_a : R -> R; r_b : R -> R }.
(** three regimes, z < 4, 4 <= z < 5 and z >= 5, and the width of the scatter in dex *)
Definition yang_cii : regime * regime * regime * (R -> R) :=
  (Regime (fun z => 12.11 * Rpower z (-0.04105)) (fun z => -0.907 * exp (- z / 0.867) - 3.04)
     (fun z => 1.35 + 0.450 * z - 0.0805 * z ^ 2) (fun z => 2.57 * exp (- z / 1.55) + 0.0575),
   Regime (fun z => 8.69 + 1.26 * z - 0.143 * z ^ 2) (fun z => -5.467 + 1.056 * z - 0.1133 * z ^ 2)
     (fun z => 6.135 - 1.786 * z + 0.1837 * z ^ 2) (fun z => 0.443 - 0.0521 * z),
   Regime (fun z => 11.92 - 0.1068 * z) (fun z => -2.37 - 0.130 * z)
     (fun z => 2.82 - 0.298 * z + 0.0196 * z ^ 2) (fun z => 1760 * exp (- z / 0.520) + 0.0782),
   fun z => 0.32 * exp (- z / 1.5) + 0.18).
Definition yang_co (line : string) : option (regime * regime * regime * (R -> R)) :=
  if String.eqb line "CO1-0" then Some
    (Regime (fun z => 12.13 + (-0.1678) * z) (fun z => (-6.855) + 0.2366 * z + (-0.05013) * z ^ 2) (fun z => 1.642 + 0.1663 * z + (-0.03238) * z ^ 2) (fun z => 1.77 * exp (- z / 2.72) + (-0.0827)),
     Regime (fun z => 11.75 + (-0.06833) * z) (fun z => (-6.554) + (-0.03725) * z + 0 * z ^ 2) (fun z => 3.73 + (-0.833) * z + 0.0884 * z ^ 2) (fun z => 0.598 + (-0.0710) * z),
     Regime (fun z => 11.63 + (-0.04943) * z) (fun z => (-6.274) + (-0.09087) * z) (fun z => 2.56 + (-0.223) * z + 0.0142 * z ^ 2) (fun z => 33.4 * exp (- z / 0.846) + 0.160),
     fun z => 0.357 + (-0.0701) * z + 0.00621 * z ^ 2)
  else if String.eqb line "CO2-1" then Some
    (Regime (fun z => 12.12 + (-0.1704) * z) (fun z => (-5.95) + 0.278 * z + (-0.0521) * z ^ 2) (fun z => 1.69 + 0.126 * z + (-0.0280) * z ^ 2) (fun z => 1.80 * exp (- z / 2.76) + (-0.0678)),
     Regime (fun z => 11.74 + (-0.07050) * z) (fun z => (-5.57) + (-0.0250) * z + 0 * z ^ 2) (fun z => 4.557 + (-1.215) * z + 0.1300 * z ^ 2) (fun z => 0.657 + (-0.0794) * z),
     Regime (fun z => 11.63 + (-0.05266) * z) (fun z => (-5.26) + (-0.0849) * z) (fun z => 2.47 + (-0.210) * z + 0.0132 * z ^ 2) (fun z => 38.3 * exp (- z / 0.841) + 0.169),
     fun z => 0.36 + (-0.072) * z + 0.0064 * z ^ 2)
  else if String.eqb line "CO3-2" then Some
    (Regime (fun z => 12.1 + (-0.171) * z) (fun z => (-5.53) + 0.329 * z + (-0.0570) * z ^ 2) (fun z => 1.843 + 0.08405 * z + (-0.02485) * z ^ 2) (fun z => 1.88 * exp (- z / 2.74) + (-0.0623)),
     Regime (fun z => 11.74 + (-0.07228) * z) (fun z => (-5.06) + (-0.0150) * z + 0 * z ^ 2) (fun z => 5.253 + (-1.502) * z + 0.1609 * z ^ 2) (fun z => 0.707 + (-0.0879) * z),
     Regime (fun z => 11.62 + (-0.0550) * z) (fun z => (-4.72) + (-0.0808) * z) (fun z => 2.53 + (-0.220) * z + 0.0139 * z ^ 2) (fun z => 31.5 * exp (- z / 0.879) + 0.170),
     fun z => 0.40 + (-0.083) * z + 0.0070 * z ^ 2)
  else if String.eqb line "CO4-3" then Some
    (Regime (fun z => 12.09 + (-0.1662) * z) (fun z => (-5.35) + 0.404 * z + (-0.0657) * z ^ 2) (fun z => 2.24 + (-0.0891) * z + 0 * z ^ 2) (fun z => 2.017 * exp (- z / 2.870) + (-0.1127)),
     Regime (fun z => 11.73 + (-0.07457) * z) (fun z => (-4.784) + 0 * z + 0 * z ^ 2) (fun z => 5.74 + (-1.67) * z + 0.178 * z ^ 2) (fun z => 0.762 + (-0.0984) * z),
     Regime (fun z => 11.6 + (-0.0529) * z) (fun z => (-4.40) + (-0.0744) * z) (fun z => 2.59 + (-0.206) * z + 0.0120 * z ^ 2) (fun z => 41.6 * exp (- z / 0.843) + 0.172),
     fun z => 0.42 + (-0.091) * z + 0.0079 * z ^ 2)
  else if String.eqb line "CO5-4" then Some
    (Regime (fun z => 12.12 + (-0.1796) * z) (fun z => (-5.37) + 0.515 * z + (-0.0802) * z ^ 2) (fun z => 2.14 + 0.110 * z + (-0.0371) * z ^ 2) (fun z => 2.39 * exp (- z / 2.55) + (-0.0890)),
     Regime (fun z => 11.73 + (-0.07789) * z) (fun z => (-3.81) + (-0.359) * z + 0.0419 * z ^ 2) (fun z => 6.12 + (-1.77) * z + 0.188 * z ^ 2) (fun z => 0.846 + (-0.115) * z),
     Regime (fun z => 11.58 + (-0.05359) * z) (fun z => (-4.21) + (-0.0674) * z) (fun z => 2.87 + (-0.257) * z + 0.0157 * z ^ 2) (fun z => 21.8 * exp (- z / 0.957) + 0.168),
     fun z => 0.44 + (-0.085) * z + 0.0063 * z ^ 2)
  else None.
(** the regime that holds at redshift [z] *)
Definition at_z (t : regime * regime * regime * (R -> R)) (z : R) (r : regime) : Prop :=
  let '(lo, mid, hi, _) := t in (z < 4 /\ r = lo) \/ (4 <= z < 5 /\ r = mid) \/ (5 <= z /\ r = hi).
Definition width (t : regime * regime * regime * (R -> R)) : R -> R := snd t.
(** L = 2 N M / ((M/M1)^-a + (M/M1)^b) *)
Definition double_power (m1 n a b m : R) : R :=
  2 * Rpower 10 n * m / (Rpower (m / Rpower 10 m1) (- a) + Rpower (m / Rpower 10 m1) b).
(** the luminosity without scatter and duty cycle *)
Definition yang_law (t : regime * regime * regime * (R -> R)) (m z L : R) : Prop :=
  exists r, at_z t z r /\ L = double_power (r_m1 r z) (r_n r z) (r_a r z) (r_b r z) m.
(** the fraction of halos that are on *)
Definition yang_on (m z f : R) : Prop :=
  (z < 4 -> f = 1 / (1 + Rpower (m / Rpower 10 (11.73 + 0.6634 * z)) (1.37 - 0.190 * z + 0.0215 * z ^ 2)))
  /\ (4 <= z -> f = 1).
(** the lines that give luminosities, and their parameters *)
Definition yang_table (line : string) : option (regime * regime * regime * (R -> R)) :=
  if String.eqb line "CII" then Some yang_cii else yang_co line.
(** the redshift of halo [i] *)
Definition z_at (z : zarg) (i : nat) : option R := match z with ZScalar z => Some z | ZArray zs => nth_error zs i end.
(** redshifts that fit [n] halos: one number, for the [CII] line only, or one for each *)
Definition z_fits (line : string) (z : zarg) (n : nat) : Prop :=
  match z with ZScalar _ => line = "CII" | ZArray zs => length zs = n end.
