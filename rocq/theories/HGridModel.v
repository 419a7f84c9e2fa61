(** Model of SnapHandler.grid (simim/siminterface/simhandler.py 80-161) and LCHandler.grid
    (simim/lightcone/lchandler.py 220-309), which place the properties of a handler in a
    grid. No proofs here.

    Simplifications that hold for the whole file:
    - those of HandlerModel.v and GridModel.v;
    - positions and values are numbers: a column that is missing or contains NaN gives the
      exception [UserExn 0], which stands for "not modelled". *)
From Verif Require Import Dict Util Rat Val Arr GridModel GridModel2 HandlerModel.
Open Scope string_scope.
Open Scope Qc_scope.

(** the numbers of a column *)
Definition numbers (o : option HandlerModel.col) : exc (list Qc) :=
  match o with
  | None => Raise (UserExn 0)
  | Some c => mapM (fun v => match v with Some x => Ok x | None => Raise (UserExn 0) end) (c_val c)
  end.
Definition get_numbers (s : HandlerModel.st) (name : string) (ua in_h : bool) : exc (list Qc) :=
  do c <- return_property s name ua (Some in_h) ;; numbers c.

(** np.array([x,y,z]).T of lists of the same length; others cannot be made into an array *)
Definition rows_of (n : nat) (cols : list (list Qc)) : exc (list (list Qc)) :=
  if forallb (fun l => (length l =? n)%nat) cols
  then Ok (map (fun i => map (fun l => nth i l 0) cols) (seq 0 n)) else Raise ValueError.

(** The values argument: np.array([]).T has no rows. *)
Definition vals_of (n : nat) (cols : list (list Qc)) : exc (@valarg QcAlg) :=
  match cols with
  | [] => Ok (Val1 (A:=QcAlg) [])
  | _ => do r <- rows_of n cols ;; Ok (Val2 (A:=QcAlg) (length cols) r)
  end.

(** the [norm] argument: None, 'cell_volume' or a number *)
Inductive normarg := NormNone | NormVolume | NormNum (q : Qc).
Definition prodq (l : list Qc) : Qc := fold_right Qcmult 1 l.
Definition norm_of (n : normarg) (g : grid QcAlg) : Qc :=
  match n with NormNone => 1 | NormVolume => 1 / prodq (fv (g_pix g)) | NormNum q => q end.
(** grid.grid *= norm *)
Definition times_norm (g : grid QcAlg) (q : Qc) : grid QcAlg :=
  with_data g (option_map (amap (fun v => v * q)) (g_data g)).

(** one limit: None, or an array of two numbers; gives centre and length, 137-145 *)
Definition lim_cl (side : Qc) (l : option farr) : exc (Qc * Qc) :=
  match l with
  | None => Ok (side / zq 2, side)
  | Some a => match fv a with
              | [x; y] => Ok ((x + y) / zq 2, qmax x y - qmin x y)
              | _ => Raise ValueError
              end
  end.
Definition lim_int (l : option farr) : bool := match l with Some a => fint a | None => false end.

(** lines 147-159 (301-307 of lchandler.py) *)
Definition make_grid (x y z : list Qc) (cols : list (list Qc)) (cl : list (Qc * Qc)) (lint : bool)
    (res : option farr) (norm : normarg) : exc (grid QcAlg) :=
  let n := length x in
  let l := map snd cl in
  let pix := match res with Some r => r | None => mkF false (map (fun v => v / zq 100) l) end in
  do pos <- rows_of n [x; y; z] ;;
  do vals <- vals_of n cols ;;
  do g <- gridder (Pos2 3 pos) vals (Some (mkF false (map fst cl))) (Some (mkF lint l)) pix None None None ;;
  Ok (times_norm g (norm_of norm g)).

(** SnapHandler.grid, 80-161 *)
Definition snap_grid (s : HandlerModel.st) (names : list string) (inh : option bool) (ua : bool) (res : option farr)
    (xlim ylim zlim : option farr) (norm : normarg) : exc (grid QcAlg) :=
  let in_h := match inh with Some b => b | None => h_inh (fst s) end in
  do x <- get_numbers s "pos_x" ua in_h ;;
  do y <- get_numbers s "pos_y" ua in_h ;;
  do z <- get_numbers s "pos_z" ua in_h ;;
  do cols <- mapM (fun p => get_numbers s p ua in_h) names ;;
  match h_box (fst s) with
  | None => Raise AttributeError
  | Some box =>
      let side := if in_h then box else box / h_h (fst s) in
      do cl <- mapM (lim_cl side) [xlim; ylim; zlim] ;;
      make_grid x y z cols cl (forallb lim_int [xlim; ylim; zlim]) res norm
  end.

(** The attributes of a light cone that LCHandler.__init__ takes from the file, 73-97:
    redshifts, shape, and (for shapes 'circle' and 'box') open angle and aspect ratio. *)
Record lcmeta := mkLM { lm_zmin : Qc; lm_zmax : Qc; lm_shape : string; lm_geom : option (Qc * Qc) }.

(** the limit on an axis when none is given, 278-286 *)
Definition or_lim (l : option farr) (d : exc (Qc * Qc)) : exc (option farr) :=
  match l with
  | Some a => Ok (Some a)
  | None => do p <- d ;; Ok (Some (mkF false [fst p; snd p]))
  end.
Definition geom (m : lcmeta) : exc (Qc * Qc) :=
  match lm_geom m with Some g => Ok g | None => Raise AttributeError end.

(** LCHandler.grid, 220-309 *)
Definition lc_grid (m : lcmeta) (s : HandlerModel.st) (names : list string) (restfreq : option Qc) (inh : option bool) (ua : bool)
    (res : option farr) (ralim declim zlim : option farr) (norm : option Qc) : exc (grid QcAlg) :=
  let in_h := match inh with Some b => b | None => h_inh (fst s) end in
  do x <- get_numbers s "ra" ua in_h ;;
  do y <- get_numbers s "dec" ua in_h ;;
  do z0 <- get_numbers s "redshift" ua in_h ;;
  let z := match restfreq with Some f => map (fun v => f / (1 + v)) z0 | None => z0 end in
  do cols <- mapM (fun p => get_numbers s p ua in_h) names ;;
  do ra <- or_lim ralim (do g <- geom m ;; Ok (- fst g / zq 2, fst g / zq 2)) ;;
  do dec <- or_lim declim (do g <- geom m ;; Ok (- fst g * snd g / zq 2, fst g * snd g / zq 2)) ;;
  do zl <- or_lim zlim (match restfreq with
                        | Some f => Ok (f / (1 + lm_zmax m), f / (1 + lm_zmin m))
                        | None => Ok (lm_zmin m, lm_zmax m)
                        end) ;;
  do cl <- mapM (lim_cl 0) [ra; dec; zl] ;;
  make_grid x y z cols cl (forallb lim_int [ra; dec; zl]) res (match norm with Some q => NormNum q | None => NormNone end).
