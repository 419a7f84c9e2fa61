(** Vocabulary for the responses, the noise and the reference frequency of detectors (C102-C105). *)
From Verif Require Import Dict Util RealUtil RespModel.
From Coq Require Import Reals.
Open Scope string_scope. Open Scope list_scope.
Open Scope R_scope.

(** ** Beams *)
(** the numbers of an axis: a single number is an axis of one *)
Definition axis (a : axin) : option (list R) := match a with ANum x => Some [x] | ASeq l => Some l | _ => None end.
(** a three-dimensional array of this shape, with these values *)
Definition array3 (b : list (list (list (option R)))) (nx ny nz : nat) (v : nat -> nat -> nat -> option R) : Prop :=
  length b = nx /\ forall i, (i < nx)%nat -> length (nth i b []) = ny /\ forall j, (j < ny)%nat -> length (nth j (nth i b []) []) = nz /\
    forall k, (k < nz)%nat -> nth_error (nth j (nth i b []) []) k = Some (v i j k).
(** the elliptical gaussian whose half power points lie on the ellipse with axes [wx] and [wy] *)
Definition half_power (wx wy x y : R) : R := Rpower (1 / 2) ((2 * x / wx) ^ 2 + (2 * y / wy) ^ 2).

(** ** Bands *)
(** channel [k] of contiguous channels of the given width *)
Definition channel (start width : R) (k : nat) : R := start + (INR k + 1 / 2) * width.
Fixpoint sum (l : list R) : R := match l with [] => 0 | x :: r => x + sum r end.

(** ** Reference frequency *)
(** the response is [h] at every frequency of the list *)
Definition sampled (h : R -> R) (resp : axin -> exc (list (option R))) : Prop :=
  forall l, resp (ASeq l) = Ok (map (fun x => Some (h x)) l).
(** [h] rises up to [p] and falls beyond *)
Definition peaked (h : R -> R) (p : R) : Prop :=
  (forall x y, 0 < x -> x < y -> y <= p -> h x < h y) /\ (forall x y, p <= x -> x < y -> h y < h x).
(** the search ends, with this result *)
Definition finds (resp : axin -> exc (list (option R))) (r : found) : Prop :=
  exists k, forall k', (k <= k')%nat -> reffreq None resp k' = Some r.
