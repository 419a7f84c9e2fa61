(** Model of map.gridder_function, gridder.py 2128-2143. No proofs here. *)
From Verif Require Import Util Rat Val Arr GridModel GridModel2.
Open Scope Qc_scope.

(** gridder.py 2128-2143: the units are not passed on; [g_data] is the attribute grid, which the
    constructor of Gridder always sets (2097), so the AttributeError cannot come *)
Definition gridder_function {A : Alg} (pos : posarg) (vals : @valarg A) (center side : option farr) (pix : farr)
    (setnd : option nat) : exc (arr A * list (list Qc)) :=
  do g <- gridder pos vals center side pix None None setnd ;;
  match g_data g with Some d => Ok (d, g_axes g) | None => Raise AttributeError end.
