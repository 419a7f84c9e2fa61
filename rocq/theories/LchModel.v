(** Model of LCHandler.volume (simim/lightcone/lchandler.py 99-175) and of LCIterator
    (479-623). No proofs here.

    Simplifications that hold for the whole file:
    - floats are real numbers;
    - a cosmology is a number; [cv] gives its comoving volume out to a redshift (astropy's
      comoving_volume) and [hh] its h; both are arguments of the theorems. *)
From Verif Require Import Dict Util RealUtil.
From Coq Require Import Reals.
Open Scope string_scope.
Open Scope R_scope.

(** The metadata of a light cone: shape, redshifts, cosmology, and (None when the file
    has no such attributes) open angle and aspect ratio, 73-97; the default for
    in_h_units. *)
Record lch := mkLch {
  v_shape : string; v_zmin : R; v_zmax : R; v_geom : option (R * R); v_cosmo : nat; v_inh : bool }.

(** self.metadata[...] *)
Definition meta_angle (m : lch) : exc R := match v_geom m with Some g => Ok (fst g) | None => Raise KeyError end.
Definition meta_aspect (m : lch) : exc R := match v_geom m with Some g => Ok (snd g) | None => Raise KeyError end.
Definition dflt (o : option R) (d : exc R) : exc R := match o with Some x => Ok x | None => d end.

(** the checks of the region, 147-158 *)
Definition check_region (m : lch) (shape : string) (angle aspect : R) : exc unit :=
  do _ <- (if (shape =? v_shape m) || (v_shape m =? "box") then
             do t <- meta_angle m ;;
             if rltb t angle then Raise ValueError else
             do r <- meta_aspect m ;;
             if rltb (t * r) (angle * aspect) then Raise ValueError else Ok tt
           else Ok tt) ;;
  if (shape =? "box") && (v_shape m =? "circle") then
    do t <- meta_angle m ;;
    if rltb t (angle * angle + (angle * aspect) * (angle * aspect)) then Raise ValueError else Ok tt
  else Ok tt.

(** LCHandler.volume, 99-175 *)
Definition lc_volume (cv : nat -> R -> R) (hh : nat -> R) (m : lch) (zmin zmax : option R) (shape : option string)
    (angle aspect : option R) (in_h : option bool) : exc R :=
  let ih := match in_h with Some b => b | None => v_inh m end in
  let z1 := match zmin with Some z => z | None => v_zmin m end in
  let z2 := match zmax with Some z => z | None => v_zmax m end in
  let sh := match shape with Some s => s | None => v_shape m end in
  do a <- dflt angle (meta_angle m) ;;
  do r <- dflt aspect (meta_aspect m) ;;
  if rltb z1 (v_zmin m) then Raise ValueError else
  if rltb (v_zmax m) z2 then Raise ValueError else
  if negb ((sh =? "box") || (sh =? "circle")) then Raise ValueError else
  do _ <- check_region m sh a r ;;
  let area := if sh =? "box" then a * a * r else PI * ((a / 2) * (a / 2)) in
  let v := (cv (v_cosmo m) z2 - cv (v_cosmo m) z1) * area / (4 * PI) in
  Ok (if ih then v * (hh (v_cosmo m) * hh (v_cosmo m) * hh (v_cosmo m)) else v).

(** * LCIterator *)
(** [li_handlers]: handlers by number, in the order in which they were first named. *)
Record iter := mkIter { li_numbers : list Z; li_handlers : list (Z * lch); li_consistent : bool }.

Fixpoint zset (d : list (Z * lch)) (k : Z) (v : lch) : list (Z * lch) :=
  match d with
  | [] => [(k, v)]
  | (j, w) :: r => if (k =? j)%Z then (k, v) :: r else (j, w) :: zset r k v
  end.
Fixpoint zfind {V} (d : list (Z * V)) (k : Z) : option V :=
  match d with
  | [] => None
  | (j, w) :: r => if (k =? j)%Z then Some w else zfind r k
  end.

(** getattr(handler, attr) == getattr(ref, attr) for the five attributes, 557-565. Light
    cones without open angle do not have the attributes open_angle and aspect_ratio. *)
Definition same_attrs (a b : lch) : exc bool :=
  match v_geom a, v_geom b with
  | Some (t, r), Some (t', r') =>
      Ok ((v_cosmo a =? v_cosmo b)%nat && reqb t t' && reqb r r' && reqb (v_zmin a) (v_zmin b) && reqb (v_zmax a) (v_zmax b))
  | _, _ => Raise AttributeError
  end.

(** LCIterator.__init__, 522-565, for an explicit list of numbers. [files] are the light
    cones on disk (a missing one is a ValueError, line 67); the keys str(number) of the
    dictionary are the numbers. When the attributes differ and [require] is set the
    constructor fails. Simplified: attributes are compared light cone by light cone
    instead of attribute by attribute, so when one light cone differs and another lacks
    the attributes the exception may be the other of the two. *)
Definition iter_new (files : list (Z * lch)) (numbers : list Z) (in_h require : bool) : exc iter :=
  do hs <- mapM (fun n => match zfind files n with
                          | Some m => Ok (n, mkLch (v_shape m) (v_zmin m) (v_zmax m) (v_geom m) (v_cosmo m) in_h)
                          | None => Raise ValueError end) numbers ;;
  let d := fold_left (fun d nh => zset d (fst nh) (snd nh)) hs [] in
  match hs with
  | [] => Raise IndexError
  | (n0, ref) :: rest =>
      do _ <- (match v_geom ref with Some _ => Ok tt | None => Raise AttributeError end) ;;
      do bs <- mapM (fun nh => same_attrs (snd nh) ref) rest ;;
      if forallb (fun b => b) bs then Ok (mkIter numbers d true)
      else if require then Raise ValueError else Ok (mkIter numbers d false)
  end.

(** LCIterator.volume, 614-623 *)
Definition iter_volume (cv : nat -> R -> R) (hh : nat -> R) (it : iter) (zmin zmax : option R) (shape : option string)
    (angle aspect : option R) (in_h : option bool) (number : option Z) : exc R :=
  do n <- (match number with
           | None => if li_consistent it then match li_numbers it with n :: _ => Ok n | [] => Raise IndexError end
                     else Raise ValueError
           | Some n => if existsb (Z.eqb n) (li_numbers it) then Ok n else Raise ValueError
           end) ;;
  match zfind (li_handlers it) n with
  | Some m => lc_volume cv hh m zmin zmax shape angle aspect in_h
  | None => Raise KeyError
  end.

(** The wrappers, 585-593: call the method of every handler in turn and collect the
    results; an exception ends the loop. [call] is the method with its arguments. *)
Fixpoint iter_call {S V} (call : S -> S * exc V) (d : list (Z * S)) : list (Z * S) * exc (list (Z * V)) :=
  match d with
  | [] => ([], Ok [])
  | (k, s) :: r =>
      match call s with
      | (s', Raise e) => ((k, s') :: r, Raise e)
      | (s', Ok v) =>
          match iter_call call r with
          | (r', Ok vs) => ((k, s') :: r', Ok ((k, v) :: vs))
          | (r', Raise e) => ((k, s') :: r', Raise e)
          end
      end
  end.
