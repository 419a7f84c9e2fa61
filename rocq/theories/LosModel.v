(** Model of LCMaker.__init__ after the call of the base class, simim/lightcone/lcmaker.py
    412-443. No proofs here. Numbers are real. *)
From Coq Require Import Reals.
From Verif Require Import Dict Util RealUtil SnapModel LcModel.
Open Scope string_scope.
Open Scope list_scope.
Open Scope R_scope.

(** 413-415 *)
Definition mode_of (s : string) : exc lcmode :=
  if String.eqb s "box" then Ok Box else if String.eqb s "circle" then Ok Circle else Raise ValueError.
(** np.amax, 424 *)
Definition amax (l : list R) : exc R :=
  match l with [] => Raise ValueError | a :: r => Ok (fold_left Rmax r a) end.

(** [zmax] is None for 'max'; [td] is comoving_transverse_distance in Mpc; [box], [copies],
    [dmin] and [dmax] (the distances of 611-614) are those of the base class and of the
    cosmology. The result is the maker, its redshift range included. *)
Definition lc_init (mode : string) (openangle aspect zmin : R) (zmax : option R) (mass : R)
    (ms : list meta) (td dist : R -> R) (h box : R) (copies : nat) : exc lcconf :=
  do md <- mode_of mode ;;
  let op := openangle * PI / 180 in
  do _ <- check (negb (rltb 1 aspect)) ValueError ;;
  do zm <- match zmax with Some z => Ok z | None => amax (map m_zmax ms) end ;;
  do _ <- check (negb (rltb zm zmin)) ValueError ;;
  do _ <- check (negb (rltb box (td zm * h * op))) ValueError ;;
  Ok (mkLC md op aspect mass box copies (dist zmin) (dist zm) (snapshots_use zmin zm ms)).

(** the whole search for a line of sight, 470-505, with max_distance of line 500 *)
Definition search (c : lcconf) (draws : list vec) : exc (option vec) :=
  do tmax <- amax (map m_tdmax (lc_use c)) ;;
  Ok (draw_los (radius c) (lc_box c) tmax (lc_copies c) false false draws).
