(** Model of abundance matching: simim/galprops/galprops_am.py 5-140 [am_dfcat] and 143-315
    [am_dfdf]. No proofs here.

    Numbers are real, with infinities; NaN is None. A scipy distribution is a pair of functions
    (cdf on the extended reals, ppf on [0,1]). The functions that are returned take one number or an
    array: [arr] says which, and an array is treated cell by cell, as all the array operations here
    are. NaN arguments, and python lists in place of arrays, are not modelled. *)
From Verif Require Import Util RealUtil.
From Coq Require Import Reals.
Open Scope R_scope.

Inductive ext := MInf | Fin (r : R) | PInf.
(** python's [<] on floats other than NaN *)
Definition extb (a b : ext) : bool :=
  match a, b with
  | Fin x, Fin y => rltb x y
  | MInf, MInf => false | MInf, _ => true
  | _, PInf => match a with PInf => false | _ => true end
  | _, _ => false
  end.
Record rv := mkRv { cdf : ext -> R; ppf : R -> ext }.
(** the [extrapolate_*] arguments: 'flat', 'none', a number or a string that float() reads (such as
    the default 'nan'), anything else *)
Inductive mode := EFlat | ENone | EVal (v : option ext) | EBad.
Record masses := mkMass { low1 : R; high1 : R; low2 : R; high2 : R }.
Record modes := mkModes { e_low1 : mode; e_high1 : mode; e_low2 : mode; e_high2 : mode }.

(** np.sort *)
Fixpoint rinsert (x : R) (l : list R) : list R := match l with [] => [x] | a :: r => if rleb x a then x :: l else a :: rinsert x r end.
Definition rsort (l : list R) : list R := fold_right rinsert [] l.
(** np.linspace(a,b,n) *)
Definition linspace (a b : R) (n : nat) : list R := map (fun i => a + INR i * ((b - a) / INR (n - 1))) (seq 0 n).
(** np.interp(x,xp,fp,left,right), numpy's compiled_base.c: the last j with xp[j] <= x, then a
    straight line unless x is xp[j] or j is the last *)
Fixpoint seg (x : R) (xp fp : list R) : R :=
  match xp, fp with
  | x0 :: ((x1 :: _) as xr), y0 :: ((y1 :: _) as yr) =>
      if rleb x1 x then seg x xr yr else if reqb x x0 then y0 else (y1 - y0) / (x1 - x0) * (x - x0) + y0
  | _, y0 :: _ => y0
  | _, [] => 0
  end.
Definition interp {X} (num : R -> X) (x : ext) (xp fp : list R) (left right : X) : X :=
  if extb x (Fin (hd 0 xp)) then left
  else if extb (Fin (last xp 0)) x then right
  else match x with Fin r => num (seg r xp fp) | _ => left end.

(** 73-78, 211-216 *)
Definition check_masses (m : masses) : exc unit :=
  let l := [low1 m; low2 m; high1 m; high2 m] in
  do _ <- check (negb (existsb (fun x => rltb 1 x) l)) ValueError ;;
  do _ <- check (negb (existsb (fun x => rltb x 0) l)) ValueError ;;
  check (negb (rltb 1 (low1 m + high1 m) || rltb 1 (low2 m + high2 m))) ValueError.
(** 81-91, 219-229 *)
Definition filler (e : mode) (flat : ext) : exc (option ext) :=
  match e with EFlat => Ok (Some flat) | ENone => Ok None | EVal v => Ok v | EBad => Raise ValueError end.
Record fills := mkFills { f_low1 : option ext; f_high1 : option ext; f_low2 : option ext; f_high2 : option ext }.
Definition fillers (e : modes) (a b c d : ext) : exc fills :=
  do w <- filler (e_low1 e) a ;; do x <- filler (e_high1 e) b ;; do y <- filler (e_low2 e) c ;; do z <- filler (e_high2 e) d ;;
  Ok (mkFills w x y z).

(** [cdf_func_p2], 100-110 (and 232-242, 261-271); a distribution without mass between the limits
    gives NaN *)
Definition cdf_func (D : rv) (lo hi : ext) (low high : R) (p : ext) : option R :=
  if extb p lo then Some 0
  else if extb hi p then Some 1
  else if reqb (cdf D hi - cdf D lo) 0 then None
  else Some (low + (cdf D p - cdf D lo) / (cdf D hi - cdf D lo) * (1 - high - low)).
(** [ppf_func_p2], 111-127 (and 243-259, 272-288); NaN compares false: an array keeps its initial zero *)
Definition ppf_func (arr : bool) (D : rv) (lo hi : ext) (low high : R) (fl fh : option ext) (cum : option R) : option ext :=
  let cstar c := (c - low) / (1 - high - low) * (cdf D hi - cdf D lo) / 1 + cdf D lo in
  match cum with
  | None => if arr then Some (Fin 0) else None
  | Some c =>
      if rltb c low then fl
      else if rltb (1 - high) c then fh
      else if arr then (if rltb low c && rltb c (1 - high) then Some (ppf D (cstar c)) else Some (Fin 0))
      else if reqb (1 - high - low) 0 then None else Some (ppf D (cstar c))
  end.
(** 129-138, 290-299 *)
Definition turn (rev : bool) (c : option R) : option R := if rev then option_map (fun x => 1 - x) c else c.

(** the two functions returned *)
Record relation := mkRel { p2ofp1 : bool -> ext -> option ext; p1ofp2 : bool -> ext -> option ext }.

(** [am_dfcat] *)
Definition am_dfcat (cat : list R) (D : rv) (lo hi : ext) (m : masses) (e : modes) (rev : bool) : exc relation :=
  do _ <- check_masses m ;;
  do _ <- check (negb (length cat =? 0)%nat) ValueError ;;
  let o := rsort cat in
  do f <- fillers e (Fin (hd 0 o)) (Fin (last o 0)) lo hi ;;
  let c1 := linspace (low1 m) (1 - high1 m) (length o) in
  let cdf1 p := Some (interp (fun y => y) p o c1 0 1) in
  let ppf1 (c : option R) := match c with None => None | Some x => interp (fun y => Some (Fin y)) (Fin x) c1 o (f_low1 f) (f_high1 f) end in
  Ok (mkRel
        (fun arr p1 => ppf_func arr D lo hi (low2 m) (high2 m) (f_low2 f) (f_high2 f) (turn rev (cdf1 p1)))
        (fun arr p2 => ppf1 (turn rev (cdf_func D lo hi (low2 m) (high2 m) p2)))).

(** [am_dfdf]: at 249-255 the values used outside the range of property 1 are those of property 2 *)
Definition am_dfdf (D1 D2 : rv) (lo1 hi1 lo2 hi2 : ext) (m : masses) (e : modes) (rev : bool) : exc relation :=
  do _ <- check_masses m ;;
  do f <- fillers e lo1 hi1 lo2 hi2 ;;
  Ok (mkRel
        (fun arr p1 => ppf_func arr D2 lo2 hi2 (low2 m) (high2 m) (f_low2 f) (f_high2 f) (turn rev (cdf_func D1 lo1 hi1 (low1 m) (high1 m) p1)))
        (fun arr p2 => ppf_func arr D1 lo1 hi1 (low1 m) (high1 m) (f_low2 f) (f_high2 f) (turn rev (cdf_func D2 lo2 hi2 (low2 m) (high2 m) p2)))).
