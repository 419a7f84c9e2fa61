(** Vocabulary for the statements about volumes of light cones (C75, C77). *)
From Verif Require Import Dict Util RealUtil LchModel.
From Coq Require Import Reals.
Open Scope string_scope.
Open Scope R_scope.

(** the part of the sky (in the flat-sky approximation the code uses) of a box with sides
    [a] and [a r], or of a disc of diameter [a] *)
Definition on_sky (shape : string) (a r x y : R) : Prop :=
  if shape =? "box" then Rabs x <= a / 2 /\ Rabs y <= a * r / 2 else x * x + y * y <= (a / 2) * (a / 2).
(** its area *)
Definition sky_area (shape : string) (a r : R) : R := if shape =? "box" then a * (a * r) else PI * (a / 2) ^ 2.
(** the first region lies within the second *)
Definition within (shape : string) (a r : R) (shape' : string) (a' r' : R) : Prop :=
  forall x y, on_sky shape a r x y -> on_sky shape' a' r' x y.
(** a light cone of the kind LCMaker builds: a box or a disc, with these angles *)
Definition cone (m : lch) (t r : R) : Prop :=
  v_geom m = Some (t, r) /\ 0 < t /\ 0 < r /\ (v_shape m = "box" \/ v_shape m = "circle").
(** volumes grow with redshift *)
Definition increasing (cv : R -> R) : Prop := forall a b, a <= b -> cv a <= cv b.

(** the light cones agree in cosmology, angles and redshifts *)
Definition agree (a b : lch) : Prop :=
  v_cosmo a = v_cosmo b /\ v_geom a = v_geom b /\ v_zmin a = v_zmin b /\ v_zmax a = v_zmax b.
(** the light cone stored under a number *)
Definition stored (files : list (Z * lch)) (n : Z) (m : lch) : Prop := zfind files n = Some m.
