(** Model of the units of the axes of a grid: Grid.__init__ (simim/map/gridder.py 149-159) and the argument [axunits] of
    scale_axis (401-467). No proofs here.

    Simplification: units are strings or None, and lists of units are python lists (a numpy array as [axunits] is left out). *)
From Coq Require Import String.
From Verif Require Import Util Rat Val Arr GridModel.
Open Scope Qc_scope.

(** the dtype of a numpy array of units: python objects, or strings of at most [w] characters *)
Inductive udt := Objects | Chars (w : nat).
(** np.array of a list of strings and Nones *)
Definition udt_of (l : units) : udt :=
  if forallb (fun u => match u with Some _ => true | None => false end) l
  then Chars (fold_right Nat.max 1%nat (map (fun u => match u with Some s => String.length s | None => 0%nat end) l))
  else Objects.
(** what [a[i] = u] stores: an array of strings takes str(u) and keeps the characters that fit *)
Definition ustore (t : udt) (u : option string) : option string :=
  match t with
  | Objects => u
  | Chars w => Some (substring 0 w (match u with Some s => s | None => "None"%string end))
  end.

(** a grid with the dtypes of axunits and fourier_axunits *)
Record ugrid (A : Alg) := mkUG { ug : grid A; ug_t : udt; ug_ft : udt }.
Arguments mkUG {A}. Arguments ug {A}. Arguments ug_t {A}. Arguments ug_ft {A}.

(** gridder.py 149-159 within 51-198 *)
Definition ugrid_new (A : Alg) (nprop : nat) (center side pix : farr) (axu gru : option units) : exc (ugrid A) :=
  do g <- grid_new A nprop center side pix axu gru ;;
  Ok (mkUG g (udt_of (g_axu g)) (udt_of (g_faxu g))).

(** the argument axunits: None, a string or a list *)
Inductive uarg := UNone | UStr (s : string) | UList (l : units).

Section Units.
Context {A : Alg}.
Notation ugrid := (ugrid A).

Definition with_axu (g : grid A) (au fu : units) : grid A :=
  mkGrid (g_nprop g) (g_nobj g) (g_ndim g) (g_center g) (g_side g) (g_pix g) (g_npix g) au fu (g_gru g) (g_axes g) (g_centers g)
         (g_faxes g) (g_fcenters g) (g_fsp g) (g_ispow g) (g_data g).
(** self.axunits[i] = u and self.fourier_axunits[i] = u (442-453) *)
Definition put_u (s : ugrid) (i : nat) (u : option string) : ugrid :=
  mkUG (with_axu (ug s) (upd (g_axu (ug s)) i (ustore (ug_t s) u)) (g_faxu (ug s))) (ug_t s) (ug_ft s).
Definition put_fu (s : ugrid) (i : nat) (u : option string) : ugrid :=
  mkUG (with_axu (ug s) (g_axu (ug s)) (upd (g_faxu (ug s)) i (ustore (ug_ft s) u))) (ug_t s) (ug_ft s).

(** 441-455. A list with one entry is stored as it is: an error for an array of strings, and for an array of objects the next
    line adds a string to a list (the unit is then the list; here it is left alone). *)
Definition scale_units (u : uarg) (nax : nat) (s : ugrid) (i : nat) : ugrid * exc unit :=
  match u with
  | UNone => (put_fu (put_u s i None) i None, Ok tt)
  | UStr x => if String.eqb x "same" then (s, Ok tt)
              else (put_fu (put_u s i (Some x)) i (Some (String.append x "^-1")), Ok tt)
  | UList [_] => (s, Raise match ug_t s with Objects => TypeError | Chars _ => ValueError end)
  | UList l =>
      if (length l =? nax)%nat then
        match nth_error l i with
        | None => (s, Raise IndexError)
        | Some None => (put_u s i None, Raise TypeError)
        | Some (Some x) => (put_fu (put_u s i (Some x)) i (Some (String.append x "^-1")), Ok tt)
        end
      else (s, Raise ValueError)
  end.

(** 436-439 and 459-467 *)
Definition scale_geom (sc : bool) (f : Qc) (g : grid A) (i : nat) : grid A :=
  with_geom g (if sc then fset (g_center g) i (fnth (g_center g) i * f) else g_center g)
    (fset (g_side g) i (fnth (g_side g) i * f)) (fset (g_pix g) i (fnth (g_pix g) i * f))
    (g_npix g) (g_axes g) (g_centers g) (g_faxes g) (g_fcenters g).
Definition scale_lines (f : Qc) (g : grid A) (i : nat) : grid A :=
  with_geom g (g_center g) (g_side g) (g_pix g) (g_npix g)
    (upd (g_axes g) i (map (fun x => x * f) (nth i (g_axes g) [])))
    (upd (g_centers g) i (map (fun x => x * f) (nth i (g_centers g) [])))
    (upd (g_faxes g) i (map (fun x => x / f) (nth i (g_faxes g) [])))
    (upd (g_fcenters g) i (map (fun x => x / f) (nth i (g_fcenters g) []))).

(** 435-467, one pass of the loop; self.center (463) does not exist *)
Definition uscale_one (sc : bool) (factor : list Qc) (u : uarg) (nax : nat) (s : ugrid) (i : nat) : ugrid * exc unit :=
  match nth_error factor i with
  | None => (s, Raise IndexError)
  | Some f =>
      match scale_units u nax (mkUG (scale_geom sc f (ug s) i) (ug_t s) (ug_ft s)) i with
      | (s', Raise e) => (s', Raise e)
      | (s', Ok _) => if sc then (mkUG (scale_lines f (ug s') i) (ug_t s') (ug_ft s'), Ok tt) else (s', Raise AttributeError)
      end
  end.
Fixpoint uscale_loop (sc : bool) (factor : list Qc) (u : uarg) (nax : nat) (s : ugrid) (ax : list nat) : ugrid * exc unit :=
  match ax with
  | [] => (s, Ok tt)
  | i :: ax' => match uscale_one sc factor u nax s i with
                | (s', Ok _) => uscale_loop sc factor u nax s' ax'
                | (s', Raise e) => (s', Raise e)
                end
  end.
(** scale_axis, 401-467 *)
Definition uscale_axis (s : ugrid) (ax : list Z) (factor : list Qc) (u : uarg) (sc : bool) : ugrid * exc unit :=
  if negb (forallb (fun a => (a <? Z.of_nat (g_ndim (ug s)))%Z && (0 <=? a)%Z) ax) then (s, Raise ValueError)
  else match (if (length factor =? 1)%nat then Ok (repeat (hd 0 factor) (length ax))
              else if (length factor =? length ax)%nat then Ok factor else Raise ValueError) with
       | Raise e => (s, Raise e)
       | Ok fl => uscale_loop sc fl u (length ax) s (map Z.to_nat ax)
       end.
(** a history of calls of scale_axis (401-467) on one grid; a call that raises leaves what it has changed *)
Record ucall := mkUC { uc_ax : list Z; uc_factor : list Qc; uc_units : uarg; uc_center : bool }.
Definition urun (calls : list ucall) (s : ugrid) : ugrid :=
  fold_left (fun s c => fst (uscale_axis s (uc_ax c) (uc_factor c) (uc_units c) (uc_center c))) calls s.
End Units.
