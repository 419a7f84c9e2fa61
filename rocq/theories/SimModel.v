(** Model of simim/siminterface/simhandler.py, class SimHandler (lines 179-672) and
    SnapHandler.__init__ (26-58), on top of the model of a Handler. No proofs here.

    Simplifications that hold for the whole file:
    - those of HandlerModel.v;
    - group names 'Snapshot n' and dictionary keys str(n) are the numbers n;
    - the simulation was found (lines 206-214), the cosmology is an opaque object,
      prints and warnings are dropped;
    - the methods on redshifts and mass cuts (z_to_snap, get_mass_index) are modelled in
      SnapModel.v and FormatModel.v. *)
From Verif Require Import Dict Util Rat HandlerModel.
Open Scope string_scope.

(** dictionaries whose keys are snapshot numbers *)
Definition zdict (A : Type) := list (Z * A).
Fixpoint zget {A} (d : zdict A) (k : Z) : option A :=
  match d with [] => None | (k', v) :: r => if Z.eqb k k' then Some v else zget r k end.
Fixpoint zset {A} (d : zdict A) (k : Z) (v : A) : zdict A :=
  match d with
  | [] => [(k, v)]
  | (k', w) :: r => if Z.eqb k k' then (k, v) :: r else (k', w) :: zset r k v
  end.

(** The file data.hdf5: attributes cosmo_h, box_edge, snapshots (index and redshift of
    each row), and the groups in the order h5py lists them. *)
Record simfile := mkSF {
  sf_h : Qc; sf_box : Qc; sf_meta : list (Z * Qc); sf_groups : zdict (dict dset_) }.

(** one group with the attributes of the file *)
Definition group_of (f : simfile) (snap : Z) : exc gfile :=
  match zget (sf_groups f) snap with Some g => Ok (mkFile (sf_h f) g) | None => Raise KeyError end.
Definition put_group (f : simfile) (snap : Z) (g : gfile) : simfile :=
  mkSF (sf_h f) (sf_box f) (sf_meta f) (zset (sf_groups f) snap (f_grp g)).

(** The attributes of a SimHandler, 206-259 *)
Record sim := mkSim {
  sm_h : Qc; sm_meta : list (Z * Qc); sm_box : Qc;
  sm_inh : bool; sm_edge : Qc;
  sm_keys : list string;
  sm_init : bool;
  sm_snaps : zdict handler }.
Definition sst := (sim * simfile)%type.

Definition with_snaps s i d :=
  mkSim (sm_h s) (sm_meta s) (sm_box s) (sm_inh s) (sm_edge s) (sm_keys s) i d.

(** SnapHandler.__init__, 26-58 *)
Definition open_snap (s : sim) (f : simfile) (snap : Z) (z : Qc) (inh : bool) : exc handler :=
  do g <- group_of f snap ;;
  open_handler g (Some (sm_box s))
    [("cosmo", VObj 0); ("redshift", VNum z); ("box_edge_h", VNum (sm_box s));
     ("box_edge_no_h", VNum (sm_box s / f_h g)%Qc)] inh.

(** set_in_h_units, 287-306: box edge part *)
Definition edge_in (h box : Qc) (inh : bool) : Qc := if inh then box else (box / h)%Qc.

(** __init__, 181-259. Line 259 calls initialize_all_snaps with a keyword it does not
    have. *)
Definition open_sim (f : simfile) (init inh : bool) : exc sim :=
  match sf_meta f with
  | [] => Raise IndexError
  | _ =>
      match sf_groups f with
      | [] => Raise IndexError
      | (_, g) :: _ =>
          let keys := prop_keys (mkFile (sf_h f) g) in
          do _ <- mapM (fun k => do d <- dfind g k ;; attr (s_units d)) keys ;;
          do _ <- mapM (fun k => do d <- dfind g k ;; attr (s_hdep d)) keys ;;
          if init then Raise TypeError
          else Ok (mkSim (sf_h f) (sf_meta f) (sf_box f) inh (edge_in (sf_h f) (sf_box f) inh) keys false [])
      end
  end.

(** the loop 277-283: the dictionary as far as it got *)
Fixpoint init_loop (s : sim) (f : simfile) (rows : list (Z * Qc)) (d : zdict handler) : zdict handler * exc unit :=
  match rows with
  | [] => (d, Ok tt)
  | (i, z) :: r =>
      match open_snap s f i z (sm_inh s) with
      | Ok h => init_loop s f r (zset d i h)
      | Raise e => (d, Raise e)
      end
  end.
(** initialize_all_snaps, 261-285 *)
Definition initialize_all_snaps (remake : bool) (st : sst) : sst * exc unit :=
  let '(s, f) := st in
  if sm_init s && negb remake then (st, Raise ValueError)
  else match init_loop s f (sm_meta s) [] with
       | (d, Ok _) => ((with_snaps s true d, f), Ok tt)
       | (d, Raise e) => ((with_snaps s (sm_init s) d, f), Raise e)
       end.

(** set_in_h_units, 287-306 *)
Definition sim_set_in_h_units (b : bool) (st : sst) : sst :=
  let '(s, f) := st in
  (mkSim (sm_h s) (sm_meta s) (sm_box s) b (edge_in (sm_h s) (sm_box s) b) (sm_keys s) (sm_init s)
     (if sm_init s then map (fun kv => (fst kv, set_in_h_units (snd kv) b)) (sm_snaps s) else sm_snaps s), f).

(** number_volumes, 309-327 *)
Definition number_volumes (s : sim) (volume : Qc) (inh : option bool) : Qc :=
  let in_h := match inh with Some b => b | None => sm_inh s end in
  if in_h then (volume / (sm_box s * sm_box s * sm_box s))%Qc
  else let e := (sm_box s / sm_h s)%Qc in (volume / (e * e * e))%Qc.

(** extract_snap_meta, 329-347 *)
Definition extract_snap_meta (s : sim) (snap : Z) : exc (Z * Qc) :=
  match find (fun r => Z.eqb (fst r) snap) (sm_meta s) with
  | Some r => Ok r
  | None => Raise ValueError
  end.

(** extract_snap_keys, 370-383 *)
Definition extract_snap_keys (s : sim) : list string := sm_keys s.

(** get_snap, 428-449: a stored handler or a new one; line 449 does not pass
    in_h_units *)
Definition get_snap (st : sst) (snap : Z) : exc handler :=
  let '(s, f) := st in
  do m <- extract_snap_meta s snap ;;
  if sm_init s then match zget (sm_snaps s) (fst m) with Some h => Ok h | None => Raise KeyError end
  else open_snap s f (fst m) (snd m) false.

(** handler = self.get_snap(snap), then operations on it. A stored handler keeps the
    changes; both kinds change the group in the file. *)
Definition on_snap {A} (snap : Z) (op : HandlerModel.st -> HandlerModel.st * exc A) (st : sst) : sst * exc A :=
  match get_snap st snap with
  | Raise e => (st, Raise e)
  | Ok h =>
      match group_of (snd st) snap with
      | Raise e => (st, Raise e)
      | Ok g =>
          match op (h, g) with
          | ((h', g'), r) =>
              ((if sm_init (fst st) then with_snaps (fst st) true (zset (sm_snaps (fst st)) snap h') else fst st,
                put_group (snd st) snap g'), r)
          end
      end
  end.

(** for i in range(len(self.snap_meta)) *)
Fixpoint snaps_loop (step : nat -> HandlerModel.st -> HandlerModel.st * exc unit) (i : nat) (rows : list (Z * Qc)) (st : sst)
  : sst * exc unit :=
  match rows with
  | [] => (st, Ok tt)
  | r :: rest =>
      match on_snap (fst r) (step i) st with
      | (st', Ok _) => snaps_loop step (S i) rest st'
      | (st', Raise e) => (st', Raise e)
      end
  end.

(** set_property_range, 467-502 *)
Definition sim_set_property_range (p : option string) (lo hi : ext) (reset : bool) (inh : option bool) (st : sst)
  : sst * exc unit :=
  let in_h := match inh with Some b => b | None => sm_inh (fst st) end in
  if negb (sm_init (fst st)) then (st, Raise ValueError)
  else snaps_loop (fun _ => set_property_range p lo hi reset (Some in_h)) 0 (sm_meta (fst st)) st.

(** the arguments of make_property other than the property *)
Record simargs := mkSA {
  sa_rename : option (list string); sa_remap : dict string; sa_kws : dict pyval;
  sa_ow : bool; sa_all : bool; sa_write : bool; sa_dtype : option (col -> col) }.
(** the call of line 555 *)
Definition snap_args (a : simargs) : mkargs :=
  mkMA (sa_rename a) (sa_remap a) (sa_kws a) (sa_ow a) (sa_all a) false false None false.

(** lines 573-581, on the first snapshot only *)
Fixpoint make_guard (ow : bool) (names : list string) (g : gfile) : exc unit :=
  match names with
  | [] => Ok tt
  | n :: r =>
      match dget (f_grp g) n with
      | None => make_guard ow r g
      | Some d => if negb ow then Raise ValueError
                  else if negb (s_user d) then Raise ValueError
                  else make_guard ow r g
      end
  end.
(** one pass of the loop 549-584 *)
Definition make_step (nanint : Qc) (p : prop) (a : simargs) (i : nat) (hs : HandlerModel.st) : HandlerModel.st * exc unit :=
  match make_property nanint p (snap_args a) hs with
  | (hs1, Raise e) => (hs1, Raise e)
  | (hs1, Ok _) =>
      if sa_write a then
        let names := match sa_rename a with None => p_names p | Some r => r end in
        if negb (length names =? length (p_names p))%nat then (hs1, Raise ValueError)
        else match (if (i =? 0)%nat then make_guard (sa_ow a) names (snd hs1) else Ok tt) with
             | Raise e => (hs1, Raise e)
             | Ok _ =>
                 match write_property nanint names (sa_ow a) (sa_dtype a) hs1 with
                 | (hs2, Raise e) => (hs2, Raise e)
                 | (hs2, Ok _) => unload_property names hs2
                 end
             end
      else (hs1, Ok tt)
  end.
(** make_property, 504-586 *)
Definition sim_make_property (nanint : Qc) (p : prop) (a : simargs) (st : sst) : sst * exc unit :=
  if negb (sm_init (fst st)) && negb (sa_write a) then (st, Raise ValueError)
  else snaps_loop (make_step nanint p a) 0 (sm_meta (fst st)) st.

(** lines 605-612, on the first snapshot only *)
Fixpoint delete_guard (names : list string) (g : gfile) : exc unit :=
  match names with
  | [] => Ok tt
  | n :: r =>
      match dget (f_grp g) n with
      | None => delete_guard r g
      | Some d => if s_user d then delete_guard r g else Raise ValueError
      end
  end.
(** one pass of the loop 601-614 *)
Definition delete_step (names : list string) (i : nat) (hs : HandlerModel.st) : HandlerModel.st * exc unit :=
  match (if (i =? 0)%nat then delete_guard names (snd hs) else Ok tt) with
  | Raise e => (hs, Raise e)
  | Ok _ => delete_property names hs
  end.
(** delete_property, 588-614 *)
Definition sim_delete_property (names : list string) (st : sst) : sst * exc unit :=
  snaps_loop (delete_step names) 0 (sm_meta (fst st)) st.

(** snap_stat, 616-672. [snaps] are positions in the metadata table; negative positions
    count from the end. *)
Definition meta_at (l : list (Z * Qc)) (i : Z) : exc (Z * Qc) :=
  let n := Z.of_nat (length l) in
  let j := if (i <? 0)%Z then (i + n)%Z else i in
  if (j <? 0)%Z then Raise IndexError
  else match nth_error l (Z.to_nat j) with Some r => Ok r | None => Raise IndexError end.
Definition snap_stat {V} (st : sst) (stat : dict pyval -> exc V) (kwargs : list string) (remap : dict string)
    (kws : dict pyval) (inh : option bool) (use_all : bool) (snaps : option (list Z)) : exc (list V * list Qc) :=
  let in_h := match inh with Some b => b | None => sm_inh (fst st) end in
  let ps := match snaps with Some l => l | None => map Z.of_nat (seq 0 (length (sm_meta (fst st)))) end in
  do r <- mapM (fun i =>
      do m <- meta_at (sm_meta (fst st)) i ;;
      do h <- get_snap st (fst m) ;;
      do g <- group_of (snd st) (fst m) ;;
      do v <- eval_stat (h, g) stat kwargs remap kws use_all (Some in_h) ;;
      Ok (v, snd m)) ps ;;
  Ok (map fst r, map snd r).

(** Calls a user can make: on the SimHandler, or on the handler get_snap returns (asked
    for anew each time). *)
Inductive scall :=
| SInit (remake : bool)
| SSetH (b : bool)
| SRange (p : option string) (lo hi : ext) (reset : bool) (inh : option bool)
| SMake (p : prop) (a : simargs)
| SDelete (ps : list string)
| SSnap (snap : Z) (c : hcall).
Definition sdo (nanint : Qc) (st : sst) (c : scall) : sst * exc unit :=
  match c with
  | SInit r => initialize_all_snaps r st
  | SSetH b => (sim_set_in_h_units b st, Ok tt)
  | SRange p lo hi r inh => sim_set_property_range p lo hi r inh st
  | SMake p a => sim_make_property nanint p a st
  | SDelete ps => sim_delete_property ps st
  | SSnap i c => on_snap i (fun hs => hdo nanint hs c) st
  end.
Definition sdo_all (nanint : Qc) (st : sst) (cs : list scall) : sst :=
  fold_left (fun s c => fst (sdo nanint s c)) cs st.
