(** Specification for C83-C87: infrared luminosity functions, main sequence and starbursts,
    cached tables. From the model it takes types (parameter records, files)
    and, in [run], the constructor itself. *)
From Verif Require Import Dict Util RealUtil SfrModel.
From Coq Require Import Reals.
Open Scope string_scope. Open Scope list_scope.
Open Scope R_scope.

(** * C83: Gruppioni et al. 2013, scaling of the luminosity function with redshift *)
Definition g13_lstar (l0 z L : R) : Prop :=
  (z <= 2 -> L = l0 * Rpower (1 + z) 3.55) /\ (2 <= z -> L = l0 * Rpower 3 3.55 * Rpower ((1 + z) / 3) 1.62).
Definition g13_phistar (p0 z p : R) : Prop :=
  (z <= 1.1 -> p = p0 * Rpower (1 + z) (-0.57)) /\ (1.1 <= z -> p = p0 * Rpower 2.1 (-0.57) * Rpower ((1 + z) / 2.1) (-3.92)).

(** * C84: Bethermin et al. 2017 *)
Definition log (x : R) : R := ln x / ln 10.
(** the main sequence, equation 6, with the correction at low redshift *)
Definition ms_log (b : b17) (m z : R) : R :=
  log (m / 10 ^ 9) - m0 b + a0 b * log (1 + z) - a1 b * Rmax 0 (log (m / 10 ^ 9) - m1 b - a2 b * log (1 + z)) ^ 2
  - (if correct b then Rmax 0 (0.1 * (0.5 - z) / (0.5 - 0.22)) else 0).
Definition main_sequence (b : b17) (m z : R) : R := Rpower 10 (ms_log b m z).
(** the same with the published numbers *)
Definition ms_published (m z : R) : R :=
  Rpower 10 (log (m / 10 ^ 9) - 0.5 + 1.5 * log (1 + z) - 0.3 * Rmax 0 (log (m / 10 ^ 9) - 0.36 - 2.5 * log (1 + z)) ^ 2
             - Rmax 0 (0.1 * (0.5 - z) / (0.5 - 0.22))).
(** the fraction of star forming galaxies, equation 2, published numbers *)
Definition sf_published (erf : R -> R) (m z : R) : R :=
  (1 - 0.1017 * Rpower (1 + z) (-1.039)) * (1 - erf ((log m - (10.53 + 0.2232 * z + 0.0913 * z ^ 2)) / (0.8488 + 0.0418 * z - 0.0159 * z ^ 2))) / 2.
(** the same with the parameters of the model *)
Definition sf_fraction (erf : R -> R) (b : b17) (m z : R) : R :=
  (1 - fq00 b * Rpower (1 + z) (gamma_ b))
  * (1 - erf ((log m - (logmt0 b + alpha1 b * z + alpha2 b * z ^ 2)) / (sigsf0 b + beta1 b * z + beta2 b * z ^ 2))) / 2.
(** an error function *)
Definition erf_like (erf : R -> R) : Prop := (forall x, -1 < erf x < 1) /\ forall x y, x < y -> erf x < erf y.
(** the fraction of starbursts: from 1.5 % at redshift 0 to 3 % from redshift 1 *)
Definition sb_published (z : R) : R := 0.015 + 0.015 * Rmin 1 z.

(** * C85, C86: cached tables. *)
(** What a constructor call did: its arguments, and whether it was interrupted *)
Inductive event {A : Type} := Made (comp remake : bool) (a : A) | Crashed (comp remake : bool) (a : A) (k : nat).
Arguments event : clear implicits.
(** what it does to the files, as the model has it *)
Definition run {V A} (main : string) (make : A -> exc (V * V * V)) (fs : @files V) (e : event A) : @files V :=
  match e with
  | Made comp remake a => fst (cache_init main make comp remake a fs)
  | Crashed comp remake a k => cache_crash main make comp remake a k fs
  end.
Definition fails {V A} (make : A -> exc (V * V * V)) (a : A) : bool := match make a with Ok _ => false | Raise _ => true end.
(** the arguments of the matching whose result the files hold, after a history; a failed
    matching leaves the files alone *)
Fixpoint held {A} (fails : A -> bool) (h : list (event A)) (now : option A) : option A :=
  match h with
  | [] => now
  | Made comp remake a :: h' =>
      held fails h' (if fails a then now else if remake then Some a else match now with Some b => Some b | None => if comp then Some a else None end)
  | Crashed _ _ _ _ :: h' => held fails h' now
  end.
(** interruptions that do no harm: nothing is stored yet, and the call stops before it starts
    to write the table itself, the fifth step *)
Fixpoint harmless {A} (fails : A -> bool) (h : list (event A)) (now : option A) : Prop :=
  match h with
  | [] => True
  | Made comp remake a :: h' =>
      harmless fails h' (if fails a then now else if remake then Some a else match now with Some b => Some b | None => if comp then Some a else None end)
  | Crashed _ _ _ k :: h' => now = None /\ (k <= 4)%nat /\ harmless fails h' now
  end.

(** values the file marks as missing, -1000 up to rounding *)
Definition missing (x : R) : Prop := -1000 - 0.01 - 1 / 10 ^ 8 <= x <= -1000 + 0.01 + 1 / 10 ^ 8.
(** [v] is the valid value at the highest mass of the column *)
Definition last_valid (col : list R) (v : R) : Prop :=
  exists l r, col = l ++ v :: r /\ ~ missing v /\ forall x, In x r -> missing x.
(** each value kept, or replaced by [v] if it is missing *)
Definition filled (v : R) (x y : R) : Prop := (missing x /\ y = v) \/ (~ missing x /\ y = x).

(** [r] is the only line of the file at this mass and redshift *)
Definition only (m z : R) (rows : list brow) (r : brow) : Prop :=
  exists l l', rows = l ++ r :: l' /\ b_m r = m /\ b_z r = z /\ forall s, In s (l ++ l') -> ~ (b_m s = m /\ b_z s = z).

(** * C87: the published stellar mass functions: zmin, zmax, mstar, alpha1, phi1, alpha2, phi2 *)
Record smf := Smf { s_zmin : R; s_zmax : R; s_m : R; s_a1 : R; s_p1 : R; s_a2 : R; s_p2 : R }.
Definition ten (x : R) : R := Rpower 10 x.
Definition smf_published : list smf :=
  [Smf 0.025 0.06 (ten 10.64) (-0.43) (4.18 / 10 ^ 3) (-1.50) (0.74 / 10 ^ 3);
   Smf 0.2 0.5 (ten 10.83) (-0.95) (ten (-2.63)) (-1.82) (ten (-4.01));
   Smf 0.5 0.8 (ten 10.76) (-0.57) (ten (-2.66)) (-1.49) (ten (-3.24));
   Smf 0.8 1.1 (ten 10.68) (-0.33) (ten (-2.57)) (-1.49) (ten (-3.24));
   Smf 1.1 1.5 (ten 10.66) 0.19 (ten (-2.88)) (-1.49) (ten (-3.24));
   Smf 1.5 2.0 (ten 10.51) 0.82 (0.64 / 10 ^ 3) (-1.28) (0.969 / 10 ^ 3);
   Smf 2.0 2.5 (ten 10.60) 0.07 (0.45 / 10 ^ 3) (-1.57) (0.295 / 10 ^ 3);
   Smf 2.5 3.0 (ten 10.59) (-0.08) (0.21 / 10 ^ 3) (-1.67) (0.228 / 10 ^ 3);
   Smf 3.0 3.5 (ten 10.83) 0 0 (-1.76) (0.090 / 10 ^ 3);
   Smf 3.5 4.5 (0.61 * ten 10.96) 0 0 (-1.63) (ten (-3.94));
   Smf 4.5 5.5 (0.61 * ten 10.78) 0 0 (-1.63) (ten (-4.18));
   Smf 5.5 6.5 (0.61 * ten 10.49) 0 0 (-1.55) (ten (-4.16));
   Smf 6.5 7.5 (0.61 * ten 10.69) 0 0 (-1.88) (ten (-5.24))].
Definition mid (s : smf) : R := (s_zmin s + s_zmax s) / 2.
(** a bin carried over to another cosmology: luminosities scale with the square of the
    luminosity distance, densities with the inverse volume *)
Definition carried (dlold vold dlnew vnew : R -> R) (s : smf) : smf :=
  Smf (s_zmin s) (s_zmax s) (s_m s * (dlnew (mid s) / dlold (mid s)) ^ 2)
      (s_a1 s) (s_p1 s * (vold (mid s) / vnew (mid s))) (s_a2 s) (s_p2 s * (vold (mid s) / vnew (mid s))).
(** linear interpolation, and interpolation of the logarithm *)
Definition mix (t x y : R) : R := (1 - t) * x + t * y.
Definition logmix (t x y : R) : R := Rpower 10 (mix t (log x) (log y)).
Definition between (t : R) (s u : smf) (r : R * R * R * R * R) : Prop :=
  r = (logmix t (s_m s) (s_m u), mix t (s_a1 s) (s_a1 u), mix t (s_p1 s) (s_p1 u), mix t (s_a2 s) (s_a2 u), logmix t (s_p2 s) (s_p2 u)).
