(** Vocabulary of the theorems about the search for a line of sight (C119). *)
From Coq Require Import Reals.
From Verif Require Import Dict Util RealUtil SnapModel LcModel LosModel.
Open Scope string_scope.
Open Scope list_scope.
Open Scope R_scope.

(** what rng.random(3) returns, but for a set of measure zero *)
Definition positive (v : vec) : Prop := 0 < vx v /\ 0 < vy v /\ 0 < vz v.
Definition deg (x : R) : R := x * PI / 180.
(** the room in front of the observer along a diagonal of the box, less the two margins of a
    cone of radius [r] out to [tmax] along it *)
Definition room (r box tmax : R) (copies : nat) : R :=
  INR copies * box * sqrt 3 - 2 * (101 / 100 * tan r * sqrt 2) * tmax.
(** the farthest distance of the snapshots in use *)
Definition farthest (c : lcconf) (t : R) : Prop :=
  (exists m, In m (lc_use c) /\ m_tdmax m = t) /\ forall m, In m (lc_use c) -> m_tdmax m <= t.
(** the maker was accepted: it is the result of LCMaker(...) *)
Definition made (c : lcconf) : Prop :=
  exists mode openangle aspect zmin zmax mass ms td dist h box copies,
    lc_init mode openangle aspect zmin zmax mass ms td dist h box copies = Ok c.
