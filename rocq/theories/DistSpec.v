(** Vocabulary for the luminosity function distributions (C88-C90): independent of how they are computed. *)
From Verif Require Import Util RealUtil DistModel.
From Coq Require Import Reals.
From Coquelicot Require Import Coquelicot.
Open Scope R_scope.

(** [v] is the integral of [f] from [x] to infinity *)
Definition integral_above (f : R -> R) (x v : R) : Prop := is_RInt_gen f (at_point x) (Rbar_locally p_infty) v.

(** what scipy documents: gamma(a) gammaincc(a,x) is the integral of t^(a-1) e^-t from x to infinity
    for positive a, and -expi(-x) that of e^-t / t *)
Definition scipy_special (F : special) : Prop :=
  (forall a x, 0 < a -> 0 < x -> integral_above (fun t => Rpower t (a - 1) * exp (- t)) x (gamma F a * gammaincc F a x)) /\
  (forall x, 0 < x -> integral_above (fun t => exp (- t) / t) x (- expi F (- x))).

(** the Schechter function: sum of phi (x/x0)^alpha exp(-x/x0) / x0 *)
Definition schechter_function (p : schechter) (x : R) : R :=
  fold_right (fun c s => snd c * Rpower (x / s_x0 p) (fst c) * exp (- (x / s_x0 p)) / s_x0 p + s) 0 (comps p).
(** positive scale and lower limit, no negative normalisation and at least one positive *)
Definition sensible (p : schechter) : Prop :=
  0 < s_x0 p /\ 0 < s_xmin p /\ (forall c, In c (comps p) -> 0 <= snd c) /\ exists c, In c (comps p) /\ 0 < snd c.
Definition answers {X} (e : exc X) (v : X) : Prop := e = Ok v.

(** the [i]-th point of the grid on which the inverse is tabulated: 500 points per factor of ten *)
Definition gridpoint (xmin : R) (i : nat) : R := xmin * Rpower 10 (INR i / 500).
(** [f] is positive from [xmin] on *)
Definition positive_from (f : R -> R) (xmin : R) : Prop := forall x, xmin <= x -> 0 < f x.
(** the sum of [f] over the grid points number 0 to n-1 *)
Fixpoint grid_sum (f : R -> R) (xmin : R) (n : nat) : R := match n with O => 0 | S k => grid_sum f xmin k + f (gridpoint xmin k) end.
