(** Specification for C122: what a full width at half maximum is. No proofs here. *)
From Coq Require Import Reals.
From Verif Require Import Util Rat Val Arr GridModel Complex.

(** the position of the centre of cell [jx] on the first [d] axes *)
Definition at_cell {A : Alg} (g : grid A) (d : nat) (jx : list nat) : list R :=
  map (fun i => qr (nth (nth i jx 0%nat) (nth i (g_centers g) []) 0%Qc)) (seq 0 d).
(** (2 x / w)^2 added up over the axes: 0 at the centre, 1 at half a width from it along one axis *)
Fixpoint half_widths (ws xs : list R) : R :=
  match ws, xs with w :: ws, x :: xs => ((2 * x / w) * (2 * x / w) + half_widths ws xs)%R | _, _ => 0%R end.
(** half a width away from the centre along one axis, and on it along the others *)
Definition half_way (ws xs : list R) : Prop :=
  exists k, (k < length ws)%nat /\ length xs = length ws /\ forall i, (i < length ws)%nat ->
    if (i =? k)%nat then (2 * Rabs (nth i xs 0%R) = nth i ws 0%R)%R else nth i xs 0%R = 0%R.
