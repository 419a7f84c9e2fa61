(** What a movie of a light cone shows, in terms of its frames. *)
From Verif Require Import Util RespModel PlotModel.
From Coq Require Import Reals.
Open Scope R_scope.

(** marker [k] has a visible size in a frame *)
Definition visible (fr : lframe) (k : nat) : Prop := exists s, nth_error (lf_sizes fr) k = Some (Some s) /\ 0 < s.

(** boxes laid end to end from [lo], all [w] long *)
Definition tiles (lo w : R) (frames : list lframe) : Prop :=
  forall i fr, nth_error frames i = Some fr -> lf_box fr = (lo + w * INR i, lo + w * INR (S i)).

(** * Plots of detectors *)
(** a spatial response that is a function of position and frequency *)
Definition pointwise (F : R -> R -> R -> option R) (spat : axin -> axin -> axin -> exc (list (list (list (option R))))) : Prop :=
  forall xs ys f, spat (ASeq xs) (ASeq ys) (ANum f) = Ok (map (fun x => map (fun y => [F x y f]) ys) xs).
