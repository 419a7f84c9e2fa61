(** Model of simim/_handlers.py (class Handler) together with the parts of
    simim/galprops/galprops.py (MultiProp, Prop), simim/siminterface/simhandler.py
    (SnapHandler) and simim/lightcone/lchandler.py (LCHandler.eval_stat_evo)
    that act on a Handler. No proofs here.

    Simplifications that hold for the whole file:
    - columns are one-dimensional; numbers are exact rationals and NaN is
      [None]; the only dtypes are "integer" and "float";
    - the order of the keys of an HDF5 group is not modelled (h5py reports them
      alphabetically); theorems only use membership;
    - [h_dependence] is an integer power of h;
    - warnings and prints are dropped. *)
From Verif Require Import Dict Util Rat.
Open Scope string_scope.

(** A numpy column: integer dtype flag and values. *)
Record col := mkCol { c_int : bool; c_val : list (option Qc) }.

(** Values of the entries of the 'units' dictionaries. Line 68 of galprops.py
    stores numbers there. *)
Inductive uval := UStr (s : string) | UNum (z : Z).

(** Values passed as keyword arguments. [VObj] is an opaque Python object. *)
Inductive pyval := VCol (c : col) | VNone | VNum (x : Qc) | VObj (n : nat).

(** An HDF5 dataset with its attributes. [SRec] is the structured dataset
    'mass_cuts'. A missing attribute is [None]. *)
Inductive sdata := SCol (c : col) | SRec (r : list (Qc * nat)).
Record dset_ := mkDS {
  s_data : sdata; s_units : option uval; s_hdep : option Z; s_user : bool }.

(** The file: attribute cosmo_h and the group the handler is attached to. *)
Record gfile := mkFile { f_h : Qc; f_grp : dict dset_ }.

(** The attributes of a Handler, _handlers.py 33-63. [h_box] is the box edge of
    a SnapHandler (simhandler.py 48), None for other handlers. *)
Record handler := mkH {
  h_h : Qc;
  h_all : list string;
  h_units : dict uval;
  h_hdep : dict Z;
  h_saved : list string;
  h_n : nat;
  h_loaded : dict col;
  h_gen : list string;
  h_extra : dict pyval;
  h_act : list nat;
  h_nact : nat;
  h_inh : bool;
  h_box : option Qc }.

Definition with_loaded h l := mkH (h_h h) (h_all h) (h_units h) (h_hdep h) (h_saved h) (h_n h) l
  (h_gen h) (h_extra h) (h_act h) (h_nact h) (h_inh h) (h_box h).
Definition with_units h u := mkH (h_h h) (h_all h) u (h_hdep h) (h_saved h) (h_n h) (h_loaded h)
  (h_gen h) (h_extra h) (h_act h) (h_nact h) (h_inh h) (h_box h).
Definition with_hdep h d := mkH (h_h h) (h_all h) (h_units h) d (h_saved h) (h_n h) (h_loaded h)
  (h_gen h) (h_extra h) (h_act h) (h_nact h) (h_inh h) (h_box h).
Definition with_saved h s := mkH (h_h h) (h_all h) (h_units h) (h_hdep h) s (h_n h) (h_loaded h)
  (h_gen h) (h_extra h) (h_act h) (h_nact h) (h_inh h) (h_box h).
Definition with_all h a g := mkH (h_h h) a (h_units h) (h_hdep h) (h_saved h) (h_n h) (h_loaded h)
  g (h_extra h) (h_act h) (h_nact h) (h_inh h) (h_box h).
Definition with_act h a n := mkH (h_h h) (h_all h) (h_units h) (h_hdep h) (h_saved h) (h_n h)
  (h_loaded h) (h_gen h) (h_extra h) a n (h_inh h) (h_box h).
Definition with_inh h b e := mkH (h_h h) (h_all h) (h_units h) (h_hdep h) (h_saved h) (h_n h)
  (h_loaded h) (h_gen h) e (h_act h) (h_nact h) b (h_box h).

(** h**e for an integer e *)
Definition hpow (h : Qc) (e : Z) : Qc :=
  match e with
  | Z0 => 1%Qc
  | Zpos p => Qcpower h (Pos.to_nat p)
  | Zneg p => (/ Qcpower h (Pos.to_nat p))%Qc
  end.

(** [c * x] for a float x: the result has float dtype *)
Definition col_scale (x : Qc) (c : col) : col :=
  mkCol false (map (option_map (fun v => (v * x)%Qc)) (c_val c)).
(** [c / x] *)
Definition col_div (x : Qc) (c : col) : col :=
  mkCol false (map (option_map (fun v => (v / x)%Qc)) (c_val c)).

(** [c[inds]], raising IndexError *)
Definition take (c : col) (inds : list nat) : exc col :=
  do vs <- mapM (fun i => match nth_error (c_val c) i with Some v => Ok v | None => Raise IndexError end) inds ;;
  Ok (mkCol (c_int c) vs).

(** SnapHandler.set_in_h_units, simhandler.py 60-77; for other handlers
    Handler.set_in_h_units, _handlers.py 65-77. *)
Definition set_in_h_units (h : handler) (b : bool) : handler :=
  match h_box h with
  | Some e => with_inh h b (dset (h_extra h) "box_edge" (VNum (if b then e else e / h_h h)%Qc))
  | None => with_inh h b (h_extra h)
  end.

(** keys of the group other than 'mass_cuts', _handlers.py 43 *)
Definition prop_keys (f : gfile) : list string :=
  filter (fun k => negb (String.eqb k "mass_cuts")) (dkeys (f_grp f)).

Definition attr {A} (o : option A) : exc A := match o with Some a => Ok a | None => Raise KeyError end.

(** Handler.__init__, _handlers.py 16-63. [extra] holds the entries the
    subclasses add to extra_props (simhandler.py 55-58, lchandler.py 88-97). *)
Definition open_handler (f : gfile) (box : option Qc) (extra : dict pyval) (inh : bool) : exc handler :=
  do us <- mapM (fun k => do d <- dfind (f_grp f) k ;; do u <- attr (s_units d) ;; Ok (k, u)) (prop_keys f) ;;
  do hs <- mapM (fun k => do d <- dfind (f_grp f) k ;; do u <- attr (s_hdep d) ;; Ok (k, u)) (prop_keys f) ;;
  do m <- dfind (f_grp f) "mass" ;;
  let n := match s_data m with SCol c => length (c_val c) | SRec r => length r end in
  Ok (set_in_h_units
        (mkH (f_h f) (prop_keys f) us hs (prop_keys f) n [] []
             (("h", VNum (f_h f)) :: extra) (seq 0 n) n inh box) inh).

(** has_property and has_loaded, _handlers.py 104-140 (extract_keys: KeysModel.v) *)
Definition has_property (h : handler) (p : string) : bool := smem p (h_all h).
Definition has_loaded (h : handler) (p : string) : bool := dmem (h_loaded h) p.

(** State of a handler and of its file; result of a method call. *)
Definition st := (handler * gfile)%type.

(** [for name in names: ...] with early exit on an exception *)
Fixpoint for_each {A} (step : A -> st -> st * exc unit) (l : list A) (s : st) : st * exc unit :=
  match l with
  | [] => (s, Ok tt)
  | x :: l' =>
      match step x s with
      | (s', Ok _) => for_each step l' s'
      | (s', Raise e) => (s', Raise e)
      end
  end.

(** load_property, _handlers.py 142-166. Loading the structured dataset
    'mass_cuts' (possible after delete_property) is not modelled: UserExn 0. *)
Definition load_one (p : string) (s : st) : st * exc unit :=
  let '(h, f) := s in
  if negb (smem p (h_saved h)) then (s, Raise ValueError)
  else match dget (f_grp f) p with
       | None => (s, Raise KeyError)
       | Some d =>
           match s_data d with
           | SCol c => ((with_loaded h (dset (h_loaded h) p c), f), Ok tt)
           | SRec _ => (s, Raise (UserExn 0))
           end
       end.
Definition load_property (ps : list string) (s : st) : st * exc unit := for_each load_one ps s.

(** unload_property, _handlers.py 168-185 *)
Definition unload_one (p : string) (s : st) : st * exc unit :=
  let '(h, f) := s in ((with_loaded h (ddel (h_loaded h) p), f), Ok tt).
Definition unload_property (ps : list string) (s : st) : st * exc unit := for_each unload_one ps s.

(** return_property, _handlers.py 187-239. [Ok None] is the implicit [return None]
    when the property is neither loaded nor saved. *)
Definition return_property (s : st) (p : string) (use_all : bool) (inh : option bool)
  : exc (option col) :=
  let '(h, f) := s in
  let in_h := match inh with Some b => b | None => h_inh h end in
  let inds := if use_all then seq 0 (h_n h) else h_act h in
  if negb (smem p (h_all h)) then Raise ValueError
  else
    do e <- (if in_h then Ok 0%Z else dfind (h_hdep h) p) ;;
    match dget (h_loaded h) p with
    | Some c =>
        do v <- take c inds ;;
        Ok (Some (if (e =? 0)%Z then v else col_scale (hpow (h_h h) e) v))
    | None =>
        if smem p (h_saved h) then
          do d <- dfind (f_grp f) p ;;
          match s_data d with
          | SRec _ => Raise (UserExn 0)
          | SCol c =>
              do v <- take c inds ;;
              Ok (Some (if (e =? 0)%Z then v else col_scale (hpow (h_h h) e) v))
          end
        else Ok None
    end.

(** A galprops MultiProp, galprops.py 49-73. [p_hdep] is [None] when the
    attribute h_dependence was never set (line 68 assigns to self.units
    instead). [p_fun] is prop_function followed by the wrapping of lines 122-123:
    from keyword arguments to the list of columns. *)
Record prop := mkProp {
  p_names : list string;
  p_kwargs : list string;
  p_give_h : bool;
  p_ret_h : bool;
  p_units : dict uval;
  p_hdep : option (dict Z);
  p_fun : dict pyval -> exc (list col) }.

(** {names[i]: l[i] ...} : a dictionary, so the last of equal names wins *)
Fixpoint mkdict {A} (ks : list string) (vs : list A) (d : dict A) : dict A :=
  match ks, vs with
  | k :: ks', v :: vs' => mkdict ks' vs' (dset d k v)
  | _, _ => d
  end.

(** MultiProp.__init__, galprops.py 4-73 *)
Definition new_multiprop (names : list string) (fn : dict pyval -> exc (list col))
    (kwargs : list string) (give_h ret_h : bool) (units : list string) (hdep : list Z) : exc prop :=
  let n := length names in
  do us <- (match units with
            | [u] => Ok (mkdict names (repeat (UStr u) n) [])
            | _ => if (length units =? n)%nat then Ok (mkdict names (map UStr units) [])
                   else Raise ValueError
            end) ;;
  match hdep with
  | [e] => Ok (mkProp names kwargs give_h ret_h us (Some (mkdict names (repeat e n) [])) fn)
  | _ => if (length hdep =? n)%nat
         then (* line 68: self.units = {... h_dependence[i] ...} *)
           Ok (mkProp names kwargs give_h ret_h (mkdict names (map UNum hdep) []) None fn)
         else Raise ValueError
  end.

(** Prop.__init__, galprops.py 145-189 *)
Definition new_prop (name : string) (fn : dict pyval -> exc col) (kwargs : list string)
    (give_h ret_h : bool) (units : string) (hdep : Z) : exc prop :=
  new_multiprop [name] (fun a => do c <- fn a ;; Ok [c]) kwargs give_h ret_h [units] [hdep].

Definition remapped (remap : dict string) (k : string) : string :=
  match dget remap k with Some k' => k' | None => k end.

(** the value of a returned property as a keyword argument *)
Definition ret_val (o : option col) : pyval := match o with Some c => VCol c | None => VNone end.

(** the argument loops galprops.py 101-117 and _handlers.py 524-535; [missing] is
    what they raise for a name that is neither a property nor in extra_props *)
Fixpoint gather (missing : exn) (s : st) (kwargs : list string) (remap : dict string) (use_all : bool)
    (inh : option bool) (args : dict pyval) : exc (dict pyval) :=
  match kwargs with
  | [] => Ok args
  | k :: ks =>
      let ku := remapped remap k in
      if has_property (fst s) ku then
        do v <- return_property s ku use_all inh ;;
        gather missing s ks remap use_all inh (dset args k (ret_val v))
      else match dget (h_extra (fst s)) ku with
           | Some v => gather missing s ks remap use_all inh (dset args k v)
           | None => Raise missing
           end
  end.

(** lines 127-132 of galprops.py *)
Fixpoint unh (h : Qc) (hd : dict Z) (names : list string) (vals : list col) : exc (list col) :=
  match names, vals with
  | k :: ks, v :: vs =>
      do e <- dfind hd k ;;
      do r <- unh h hd ks vs ;;
      Ok ((if (e =? 0)%Z then v else col_div (hpow h e) v) :: r)
  | _, _ => Ok []
  end.

(** MultiProp.evaluate_all, galprops.py 75-134. A keyword given
    both in [kwargs] and [kws] is a TypeError (line 120). *)
Definition evaluate_all (p : prop) (s : st) (use_all : bool) (remap : dict string)
    (kws : dict pyval) : exc (list col) :=
  do args <- gather ValueError s (p_kwargs p) remap use_all (Some (p_give_h p)) [] ;;
  if existsb (fun k => dmem args k) (dkeys kws) then Raise TypeError else
  do vals <- p_fun p (args ++ kws)%list ;;
  if negb (length vals =? length (p_names p))%nat then Raise ValueError else
  if p_ret_h p then Ok vals
  else match p_hdep p with
       | None => match vals with [] => Ok vals | _ => Raise AttributeError end
       | Some hd => unh (h_h (fst s)) hd (p_names p) vals
       end.

(** np.all(inds == self.inds_all) with numpy broadcasting, _handlers.py 293;
    shapes that do not broadcast give False or a ValueError, and line 294 raises
    ValueError in the first case. *)
Definition covers (inds all : list nat) : bool :=
  if (length inds =? length all)%nat then forallb (fun p => (fst p =? snd p)%nat) (combine inds all)
  else match inds, all with
       | [i], _ => forallb (Nat.eqb i) all
       | _, [a] => forallb (Nat.eqb a) inds
       | _, _ => false
       end.

(** lines 326-328: an array of NaN with the dtype of the values, then
    prop_values[inds] = values. NaN cannot be stored in an integer array
    (ValueError). A length-one value array broadcasts. *)
Definition fill (n : nat) (inds : list nat) (c : col) : exc col :=
  if c_int c then Raise ValueError
  else
    do vs <- (if (length (c_val c) =? length inds)%nat then Ok (c_val c)
              else match c_val c with
                   | [v] => Ok (repeat v (length inds))
                   | _ => Raise ValueError
                   end) ;;
    Ok (mkCol false (fold_left (fun a iv => upd a (fst iv) (snd iv)) (combine inds vs) (repeat None n))).

(** one pass of the loop 322-335 *)
Definition make_one (p : prop) (inds : list nat)
    (x : string * string * bool * col) (s : st) : st * exc unit :=
  let '(name, newname, ow, c) := x in
  let '(h, f) := s in
  match fill (h_n h) inds c with
  | Raise e => (s, Raise e)
  | Ok v =>
      let h1 := with_loaded h (dset (h_loaded h) newname v) in
      match dget (p_units p) name with
      | None => ((h1, f), Raise KeyError)
      | Some u =>
          let h2 := with_units h1 (dset (h_units h1) newname u) in
          match p_hdep p with
          | None => ((h2, f), Raise AttributeError)
          | Some hd =>
              match dget hd name with
              | None => ((h2, f), Raise KeyError)
              | Some e =>
                  let h3 := with_hdep h2 (dset (h_hdep h2) newname e) in
                  ((if ow then h3
                    else with_all h3 (h_all h3 ++ [newname]) (h_gen h3 ++ [newname]), f), Ok tt)
              end
          end
      end
  end.

(** how h5py stores a column into an existing dataset: the dataset keeps its
    dtype; [nanint] is what HDF5 stores for NaN in an integer dataset *)
Definition store_into (nanint : Qc) (old new : col) : col :=
  if c_int old && negb (c_int new)
  then mkCol true (map (fun v => Some (match v with Some x => zq (qtrunc x) | None => nanint end)) (c_val new))
  else mkCol (c_int old) (c_val new).

(** write_property, _handlers.py 342-386. [dt] is the effect of the dtype
    argument (None: no conversion). Writing a column over the structured
    dataset 'mass_cuts' is not modelled: UserExn 0. *)
Definition write_one (nanint : Qc) (ow : bool) (dt : option (col -> col)) (p : string) (s : st)
  : st * exc unit :=
  let '(h, f) := s in
  match dget (h_loaded h) p with
  | None => (s, Raise ValueError)
  | Some c =>
      if smem p (h_saved h) && negb ow then (s, Raise ValueError)
      else
        let put d := mkFile (f_h f) (dset (f_grp f) p d) in
        let finish (d : dset_) : st * exc unit :=
          match dget (h_units h) p with
          | None => ((h, put d), Raise KeyError)
          | Some u =>
              let d1 := mkDS (s_data d) (Some u) (s_hdep d) (s_user d) in
              match dget (h_hdep h) p with
              | None => ((h, put d1), Raise KeyError)
              | Some e =>
                  let d2 := mkDS (s_data d) (Some u) (Some e) true in
                  ((if smem p (h_saved h) then h else with_saved h (h_saved h ++ [p]), put d2), Ok tt)
              end
          end in
        match dget (f_grp f) p with
        | None => finish (mkDS (SCol (match dt with Some g => g c | None => c end)) None None false)
        | Some d =>
            match s_data d with
            | SRec _ => (s, Raise (UserExn 0))
            | SCol old =>
                if negb (length (c_val old) =? length (c_val c))%nat then (s, Raise TypeError)
                else finish (mkDS (SCol (store_into nanint old c)) (s_units d) (s_hdep d) (s_user d))
            end
        end
  end.
Definition write_property (nanint : Qc) (ps : list string) (ow : bool) (dt : option (col -> col)) (s : st)
  : st * exc unit := for_each (write_one nanint ow dt) ps s.

(** delete_property, _handlers.py 388-419 *)
Definition delete_one (p : string) (s : st) : st * exc unit :=
  let '(h, f) := s in
  if negb (smem p (h_saved h)) then (s, Raise ValueError)
  else if negb (dmem (f_grp f) p) then (s, Raise ValueError)
  else
    let f' := mkFile (f_h f) (ddel (f_grp f) p) in
    let h1 := with_saved h (dkeys (f_grp f')) in
    let h2 := with_all h1 (filter (fun k => negb (String.eqb k p)) (h_all h1)) (h_gen h1) in
    ((with_hdep (with_units h2 (ddel (h_units h2) p)) (ddel (h_hdep h2) p), f'), Ok tt).
Definition delete_property (ps : list string) (s : st) : st * exc unit := for_each delete_one ps s.

(** the arguments of make_property other than the property *)
Record mkargs := mkMA {
  m_rename : option (list string);
  m_remap : dict string;
  m_kws : dict pyval;
  m_ow : bool;
  m_all : bool;
  m_write : bool;
  m_owdisk : bool;
  m_dtype : option (col -> col);
  m_unload : bool }.

(** make_property, _handlers.py 241-340. A string [rename] is the one-element
    list of line 298. *)
Definition make_property (nanint : Qc) (p : prop) (a : mkargs) (s : st) : st * exc unit :=
  let h := fst s in
  let inds := if m_all a then seq 0 (h_n h) else h_act h in
  if negb (m_all a) && m_write a && negb (covers inds (seq 0 (h_n h))) then (s, Raise ValueError)
  else
    match (match m_rename a with
           | None => Ok (p_names p)
           | Some r => if (length r =? length (p_names p))%nat then Ok r else Raise ValueError
           end) with
    | Raise e => (s, Raise e)
    | Ok names =>
        let ow := map (fun k => smem k (h_all h)) names in
        if existsb (fun b => b) ow && negb (m_ow a) then (s, Raise ValueError)
        else
          match evaluate_all p s (m_all a) (m_remap a) (m_kws a) with
          | Raise e => (s, Raise e)
          | Ok vals =>
              match for_each (make_one p inds)
                      (combine (combine (combine (p_names p) names) ow) vals) s with
              | (s1, Raise e) => (s1, Raise e)
              | (s1, Ok _) =>
                  if m_write a then
                    match write_property nanint names (m_owdisk a) (m_dtype a) s1 with
                    | (s2, Raise e) => (s2, Raise e)
                    | (s2, Ok _) => if m_unload a then unload_property names s2 else (s2, Ok tt)
                    end
                  else (s1, Ok tt)
              end
          end
    end.

(** bounds of a range: -inf, a number, +inf *)
Inductive ext := NInf | Fin (x : Qc) | PInf.
Definition ge_ext (v : Qc) (b : ext) : bool :=
  match b with NInf => true | Fin x => qleb x v | PInf => false end.
Definition le_ext (v : Qc) (b : ext) : bool :=
  match b with NInf => false | Fin x => qleb v x | PInf => true end.

(** (vals>=pmin) & (vals<=pmax), false for NaN *)
Definition in_range (lo hi : ext) (v : option Qc) : bool :=
  match v with Some x => ge_ext x lo && le_ext x hi | None => false end.

(** np.nonzero(bs)[0] *)
Definition nonzero (bs : list bool) : list nat :=
  map fst (filter (fun p => snd p) (combine (seq 0 (length bs)) bs)).

(** set_property_range, _handlers.py 421-465. [np.intersect1d(inds, active)] is
    written as the elements of the ascending list [inds] that are active.
    Comparing [None] with a number (a property that return_property does not
    find) is a TypeError. *)
Definition set_property_range (p : option string) (lo hi : ext) (reset : bool) (inh : option bool) (s : st)
  : st * exc unit :=
  let '(h, f) := s in
  let in_h := match inh with Some b => b | None => h_inh h end in
  match p with
  | None => ((with_act h (seq 0 (h_n h)) (h_n h), f), Ok tt)
  | Some name =>
      match return_property s name true (Some in_h) with
      | Raise e => (s, Raise e)
      | Ok None => (s, Raise TypeError)
      | Ok (Some c) =>
          let inds := nonzero (map (in_range lo hi) (c_val c)) in
          let act := if reset then inds else filter (fun i => mem_nat i (h_act h)) inds in
          ((with_act h act (length act), f), Ok tt)
      end
  end.

(** eval_stat, _handlers.py 467-540. A name found neither among the properties
    nor in extra_props is a KeyError (line 535). *)
Definition eval_stat {V} (s : st) (stat : dict pyval -> exc V) (kwargs : list string)
    (remap : dict string) (kws : dict pyval) (use_all : bool) (inh : option bool) : exc V :=
  let in_h := match inh with Some b => b | None => h_inh (fst s) end in
  do args <- gather KeyError s kwargs remap use_all (Some in_h) kws ;;
  stat args.

(** insertion sort: np.sort of the bin edges *)
Fixpoint qinsert (x : Qc) (l : list Qc) : list Qc :=
  match l with
  | [] => [x]
  | y :: l' => if qleb x y then x :: l else y :: qinsert x l'
  end.
Definition qsort (l : list Qc) : list Qc := fold_right qinsert [] l.

(** lines 190-213 of lchandler.py, one bin [a,b]. The volume keyword is not
    modelled (volume_kw=False). *)
Fixpoint evo_bins {V} (bins : list Qc) (stat : dict pyval -> exc V) (kwargs : list string)
    (remap : dict string) (kws : dict pyval) (zmin_kw zmax_kw in_h : bool) (s : st) (acc : list V)
  : st * exc (list V) :=
  match bins with
  | a :: (b :: _) as rest =>
      match set_property_range (Some "redshift") (Fin a) (Fin b) true None s with
      | (s1, Raise e) => (s1, Raise e)
      | (s1, Ok _) =>
          let k1 := if zmin_kw then dset kws "zmin" (VNum a) else kws in
          let k2 := if zmax_kw then dset k1 "zmax" (VNum b) else k1 in
          match eval_stat s1 stat kwargs remap k2 false (Some in_h) with
          | Raise e => (s1, Raise e)
          | Ok v =>
              evo_bins rest stat kwargs remap (ddel (ddel k2 "zmin") "zmax") zmin_kw zmax_kw in_h s1
                       (acc ++ [v])
          end
      end
  | _ => (s, Ok acc)
  end.

(** LCHandler.eval_stat_evo, lchandler.py 177-218. Line 216 restores the active
    rows but not their number; nothing is restored when the statistic raises. *)
Definition eval_stat_evo {V} (bins : list Qc) (stat : dict pyval -> exc V) (kwargs : list string)
    (remap : dict string) (kws : dict pyval) (zmin_kw zmax_kw : bool) (inh : option bool) (s : st)
  : st * exc (list Qc * list V) :=
  let in_h := match inh with Some b => b | None => h_inh (fst s) end in
  let sorted := qsort bins in
  match evo_bins sorted stat kwargs remap kws zmin_kw zmax_kw in_h s [] with
  | (s1, Raise e) => (s1, Raise e)
  | (s1, Ok vs) => ((with_act (fst s1) (h_act (fst s)) (h_nact (fst s1)), snd s1), Ok (sorted, vs))
  end.

(** Calls a user can make on an open handler. *)
Inductive hcall :=
| HLoad (ps : list string)
| HUnload (ps : list string)
| HMake (p : prop) (a : mkargs)
| HWrite (ps : list string) (ow : bool) (dt : option (col -> col))
| HDelete (ps : list string)
| HRange (p : option string) (lo hi : ext) (reset : bool) (inh : option bool)
| HSetH (b : bool).

Definition hdo (nanint : Qc) (s : st) (c : hcall) : st * exc unit :=
  match c with
  | HLoad ps => load_property ps s
  | HUnload ps => unload_property ps s
  | HMake p a => make_property nanint p a s
  | HWrite ps ow dt => write_property nanint ps ow dt s
  | HDelete ps => delete_property ps s
  | HRange p lo hi r inh => set_property_range p lo hi r inh s
  | HSetH b => ((set_in_h_units (fst s) b, snd s), Ok tt)
  end.

(** a history: exceptions are caught by the caller, who goes on *)
Definition hdo_all (nanint : Qc) (s : st) (cs : list hcall) : st :=
  fold_left (fun s c => fst (hdo nanint s c)) cs s.
