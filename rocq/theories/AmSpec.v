(** Vocabulary for abundance matching (C56, C64): independent of how the relation is computed. *)
From Verif Require Import Util RealUtil AmModel.
From Coq Require Import Reals.
Open Scope R_scope.

(** the order of the extended reals *)
Definition elt (a b : ext) : Prop :=
  match a, b with Fin x, Fin y => x < y | MInf, MInf => False | MInf, _ => True | Fin _, PInf => True | _, _ => False end.
Definition ele (a b : ext) : Prop := elt a b \/ a = b.
(** a distribution with mass between [lo] and [hi], increasing and continuous there, with [ppf] its inverse *)
Record good_rv (D : rv) (lo hi : ext) : Prop := {
  g_lim : elt lo hi;
  g_mono : forall x y, ele lo x -> elt x y -> ele y hi -> cdf D x < cdf D y;
  g_inv : forall c, cdf D lo <= c <= cdf D hi -> ele lo (ppf D c) /\ ele (ppf D c) hi /\ cdf D (ppf D c) = c }.
(** both properties describe the same share of the population: what is missing below the range of
    one is missing below that of the other (above it, in reverse order) *)
Definition matched (m : masses) (rev : bool) : Prop :=
  low1 m + high1 m < 1 /\ if rev then low1 m = high2 m /\ high1 m = low2 m else low1 m = low2 m /\ high1 m = high2 m.
(** [p] is in the range of the catalogue; strictly inside it for arrays (see C56_ends_refuted) *)
Definition inside (arr : bool) (cat : list R) (p : R) : Prop :=
  exists a b, In a cat /\ In b cat /\ if arr then a < p < b else a <= p <= b.
Definition inlims (arr : bool) (lo hi p : ext) : Prop := if arr then elt lo p /\ elt p hi else ele lo p /\ ele p hi.
Definition ordered (rev : bool) (a b : ext) : Prop := if rev then elt b a else elt a b.
(** what an [extrapolate_*] argument asks for *)
Definition asked_fill (e : mode) (flat : ext) (v : option ext) : Prop :=
  match e with EFlat => v = Some flat | ENone => v = None | EVal w => v = w | EBad => False end.
(** how many catalogue entries are smaller *)
Definition smaller (cat : list R) (p : R) : nat := length (filter (fun q => rltb q p) cat).
(** the share of the distribution, within its limits, at or below [v] *)
Definition rank_of (D : rv) (lo hi v : ext) : R := (cdf D v - cdf D lo) / (cdf D hi - cdf D lo).
Definition below (cat : list R) (p : ext) : Prop := forall q, In q cat -> elt p (Fin q).
Definition above (cat : list R) (p : ext) : Prop := forall q, In q cat -> elt (Fin q) p.
