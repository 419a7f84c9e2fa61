(** Specification of the figures: what the cell in column [i], row [j] of a picture should hold. *)
From Verif Require Import Util Rat Val Arr GridModel FigModel.
Open Scope Qc_scope.

Section FigSpec.
Context {A : Alg}.

(** the values of property [p] in all the cells of the grid whose index satisfies [P], added up *)
Definition cells_total (g : grid A) (d : arr A) (p : nat) (f : A -> A) (P : list nat -> bool) : A :=
  vsum (map (fun jx => f (getd v0 d (jx ++ [p]))) (filter P (idxs (g_npix g)))).

(** index [jx] has the value [i] on axis [a] *)
Definition on_axis (a i : nat) (jx : list nat) : bool := (nth a jx 0 =? i)%nat.

(** the entries of a cell's index on the axes other than [a] and [b], in order *)
Definition off_axes (a b : nat) (jx : list nat) : list nat :=
  map snd (filter (fun p => negb ((fst p =? a) || (fst p =? b))%nat%bool) (combine (seq 0 (length jx)) jx)).

(** a picture with [nx] columns and [ny] rows whose cell in column [i], row [j] holds [F i j] *)
Definition pictures (c : arr A) (nx ny : nat) (F : nat -> nat -> A) : Prop :=
  shape c = [ny; nx] /\ forall i j, (i < nx)%nat -> (j < ny)%nat -> get c [j; i] = Some (F i j).

(** the axes of a figure: [n] columns, from the lowest to the highest boundary of the grid's axis *)
Definition spans (x edges : list Qc) : Prop :=
  length x = length edges /\ hd 0 x = hd 0 edges /\ last x 0 = last edges 0.
End FigSpec.
