(** Vocabulary of the theorems about the mass cut of light cones (C117). *)
From Coq Require Import Reals.
From Verif Require Import Dict Util RealUtil SnapModel FormatModel FormatSpec LcModel LcSpec MassCutModel.
Open Scope R_scope.

(** the largest tabulated cut that is not above [m] *)
Definition largest_cut (m c : R) : Prop :=
  In c cut_masses /\ c <= m /\ forall c', In c' cut_masses -> c' <= m -> c' <= c.
(** the light cones read the masses of [g] for snapshot [s], with one position for each *)
Definition reads (sd : Z -> option (list R * list vec)) (s : Z) (g : group) (pos : list vec) : Prop :=
  sd s = Some (masses g, pos) /\ length (masses g) = length pos.
(** a formatted snapshot: [w] is the result of a call of format *)
Definition formatted (w : world) (s : Z) (f : ffile) (g : group) : Prop :=
  w_file w = Some f /\ zget (f_groups f) s = Some g.
