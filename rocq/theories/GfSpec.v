(** What gridder_function should return, in terms of the catalogue and of the edges that come back. *)
From Verif Require Import Util Rat Val Arr GridModel GridSpec.
Open Scope Qc_scope.

(** a size given once for all axes, or axis by axis *)
Definition per_axis (a : farr) (i : nat) : Qc := match fv a with [x] => x | l => nth i l 0 end.

(** the sum of the values of the objects that lie in cell [ix]: between consecutive edges on every axis *)
Definition total_between {A : Alg} (edges : list (list Qc)) (ix : list nat) (rows : list (list Qc)) (vs : list A) : A :=
  vsum (map snd (filter (fun ov => in_box edges ix (fst ov)) (combine rows vs))).
(** the sum over the objects inside the outermost edges *)
Definition total_within {A : Alg} (edges : list (list Qc)) (rows : list (list Qc)) (vs : list A) : A :=
  vsum (map snd (filter (fun ov => in_extent edges (fst ov)) (combine rows vs))).
(** number of cells along each axis *)
Definition cells_of (edges : list (list Qc)) : list nat := map (fun e => (length e - 1)%nat) edges.
(** [n] is the number of dimensions of a catalogue with [nc] columns and setndims = [nd] *)
Definition dims_for (nc : nat) (rows : list (list Qc)) (nd : option nat) (n : nat) : Prop :=
  match rows with [] => nd = Some n | _ => n = nc /\ (nd = None \/ nd = Some nc) end.
Definition one_or (n k : nat) : Prop := k = n \/ k = 1%nat.
