(** Model of the Illustris and TNG catalogue interface, simim/siminterface/illustris.py, and of the
    parts of _illustris_datahandling.py that choose files (12-27) and look up one object (128-157).
    The chunked reader itself (30-94) is in FormatModel.v, the snapshot table made by download_meta
    (441-491) in SnapModel.v. No proofs here.

    Numbers are real. The disk, the answers of the web server and what each run of wget leaves behind
    are arguments. *)
From Verif Require Import Dict Util RealUtil PathsModel SnapModel FormatModel RawModel.
From Coq Require Import Reals Ascii DecimalString.
Open Scope string_scope.
Open Scope list_scope.
Open Scope nat_scope.

(** * Simulations *)
(** _sims.py 7-8 *)
Definition illsims : list string :=
  ["Illustris-1"; "Illustris-2"; "Illustris-3"; "Illustris-1-Dark"; "Illustris-2-Dark"; "Illustris-3-Dark"].
Definition tngsims : list string :=
  ["TNG300-1"; "TNG300-2"; "TNG300-3"; "TNG300-1-Dark"; "TNG300-2-Dark"; "TNG300-3-Dark";
   "TNG100-1"; "TNG100-2"; "TNG100-3"; "TNG100-1-Dark"; "TNG100-2-Dark"; "TNG100-3-Dark"].
(** [s[-4:]] *)
Definition last4 (s : string) : string := substring (String.length s - 4) 4 s.
Definition is_dark (sim : string) : bool := String.eqb (last4 sim) "Dark".
Definition znums (n : nat) : list Z := map Z.of_nat (seq 0 n).
(** illustris.py 49-57; for a name in neither list allsnaps is never set, and the name is refused a
    moment later (_rawsiminterface.py 252, _sims.py 16-17) unless it belongs to another catalogue *)
Definition ill_allsnaps (sim : string) : exc (list Z) :=
  if smem sim illsims then
    Ok (if String.eqb sim "Illustris-1" then filter (fun x => negb (zmem x [53; 55]%Z)) (znums 136) else znums 136)
  else if smem sim tngsims then Ok (znums 100)
  else Raise NameError.
(** _rawsiminterface.py 273-282: the snapshots of an instance *)
Definition ill_snaps (sim : string) (req : option (list Z)) : exc (list Z) :=
  do all <- ill_allsnaps sim ;; Ok (choose_snaps req all).

(** * Field tables *)
(** a dictionary display: a key that comes again replaces the value and keeps the first place *)
Definition display {A} (l : list (string * A)) : dict A := fold_left (fun d kv => dset d (fst kv) (snd kv)) l [].
Definition fN (names : list string) (units : string) (h : Z) : list fspec := map (fun n => FormatModel.mkFS n units h) names.
(** illustris.py 65-88 *)
Definition ill_basic (sim : string) : fields :=
  let d := display [("SubhaloPos", fN ["pos_x"; "pos_y"; "pos_z"] "Mpc/h" (-1)); ("SubhaloHalfmassRad", f1 "r_hm" "Mpc/h" (-1));
                    ("SubhaloMass", f1 "mass" "Msun/h" (-1)); ("SubhaloVel", fN ["v_x"; "v_y"; "v_z"] "km/s" 0)] in
  if smem sim tngsims && negb (is_dark sim) then dset d "SubhaloFlag" (f1 "flag" "none" 0) else d.
(** 100-124 *)
Definition ill_dm : fields :=
  display [("SubhaloCM", fN ["cm_x"; "cm_y"; "cm_z"] "Mpc/h" (-1)); ("SubhaloMassInMaxRad", f1 "mass_maxr" "Msun/h" (-1));
           ("SubhaloSpin", fN ["spin_x"; "spin_y"; "spin_z"] "Mpc/h km/s" (-1)); ("SubhaloVelDisp", f1 "vdisp" "km/s" 0);
           ("SubhaloVmax", f1 "vmax" "km/s" 0); ("SubhaloVmaxRad", f1 "r_vmax" "Mpc/h" (-1))].
(** 130-216; SubhaloSFRinHalfRad stands there twice, at 188 and 194 *)
Definition by_type (suffix : string) : list string :=
  map (fun n => String.append n suffix) ["m_gas"; "m_dm"; "none"; "m_tracers"; "m_stars_wind"; "m_bh"].
Definition matter_display : list (string * list fspec) :=
  [("SubhaloBHMass", f1 "bhmass" "Msun/h" (-1)); ("SubhaloBHMdot", f1 "bhmdot" "Msun/h / (Gyr/h)" 0);
   ("SubhaloGasMetallicity", f1 "met" "None" 0); ("SubhaloGasMetallicityHalfRad", f1 "met_hr" "None" 0);
   ("SubhaloGasMetallicityMaxRad", f1 "met_maxr" "None" 0); ("SubhaloMassType", fN (by_type "") "Msun/h" (-1));
   ("SubhaloMassInHalfRad", f1 "mass_hr" "Msun/h" (-1)); ("SubhaloMassInHalfRadType", fN (by_type "_hr") "Msun/h" (-1));
   ("SubhaloMassInMaxRadType", fN (by_type "_maxr") "Msun/h" (-1)); ("SubhaloMassInRad", f1 "mass_2hr" "Msun/h" (-1));
   ("SubhaloMassInRadType", fN (by_type "_2hr") "Msun/h" (-1)); ("SubhaloSFR", f1 "sfr" "Msun/yr" 0);
   ("SubhaloSFRinHalfRad", f1 "sfr_hr" "Msun/yr" 0); ("SubhaloSFRinMaxRad", f1 "sfr_maxr" "Msun/yr" 0);
   ("SubhaloSFRinHalfRad", f1 "sfr_2hr" "Msun/yr" 0); ("SubhaloStarMetallicity", f1 "met_stellar" "None" 0);
   ("SubhaloStarMetallicityHalfRad", f1 "met_stellar_hr" "None" 0); ("SubhaloStarMetallicityMaxRad", f1 "met_stellar_maxr" "None" 0);
   ("SubhaloStellarPhotometrics", fN ["phot_U"; "phot_B"; "phot_V"; "phot_K"; "phot_g"; "phot_r"; "phot_i"; "phot_z"] "mag" 0)].
(** 219-245 *)
Definition elements (suffix : string) : list string :=
  map (fun n => String.append n suffix) ["metH"; "metHe"; "metC"; "metN"; "metO"; "metNe"; "metMg"; "metSi"; "metFe"; "metOther"].
Definition tng_display : list (string * list fspec) :=
  [("SubhaloGasMetalFractions", fN (elements "") "None" 0); ("SubhaloGasMetalFractionsHalfRad", fN (elements "_hr") "None" 0);
   ("SubhaloGasMetalFractionsMaxRad", fN (elements "_maxr") "None" 0)].
(** 126-246 *)
Definition ill_matter (sim : string) : fields :=
  let m := if is_dark sim then [] else display matter_display in
  if smem sim tngsims && negb (is_dark sim) then dmerge m (display tng_display) else m.
(** 251-277; SubhaloBHMdot stands there twice, at 258 and 276 *)
Definition power_10 (x h : R) : R := (x * 10000000000)%R.
Definition bh_unit (x h : R) : R := (x * (978 / 1000))%R.
Definition ill_tr : dict (R -> R -> R) :=
  display [("SubhaloBHMass", power_10); ("SubhaloBHMdot", power_10); ("SubhaloMass", power_10); ("SubhaloMassInHalfRad", power_10);
           ("SubhaloMassInHalfRadType", power_10); ("SubhaloMassInMaxRad", power_10); ("SubhaloMassInMaxRadType", power_10);
           ("SubhaloMassInRad", power_10); ("SubhaloMassInRadType", power_10); ("SubhaloMassType", power_10);
           ("SubhaloStellarPhotometricsMassInRad", power_10); ("SubhaloWindMass", power_10); ("SubhaloCM", kpc_to_mpc);
           ("SubhaloHalfmassRad", kpc_to_mpc); ("SuhbaloHalfmassRadType", kpc_to_mpc); ("SubhaloPos", kpc_to_mpc);
           ("SubhaloSpin", kpc_to_mpc); ("SubhaloStellarPhotometricsRad", kpc_to_mpc); ("SubhaloVmaxRad", kpc_to_mpc);
           ("SubhaloBHMdot", bh_unit)].

(** * File names *)
(** ['{:03d}'.format(n)] and ['%03d' % n] of a number that is not negative *)
Definition dec (n : nat) : string := NilEmpty.string_of_uint (Nat.to_uint n).
Definition pad3 (n : nat) : string :=
  let s := dec n in
  match String.length s with 0 => String.append "000" s | 1 => String.append "00" s | 2 => String.append "0" s | _ => s end.
Definition group_dir (s : nat) : string := String.append "groups_" (pad3 s).
(** file [j] of snapshot [s]: fname ++ '{:03d}.{}.hdf5' *)
Definition chunk_name (fname : string) (s j : nat) : string :=
  String.append fname (String.append (pad3 s) (String.append "." (String.append (dec j) ".hdf5"))).
(** illustris.py 303-306 *)
Definition raw_fname (sim : string) : string :=
  if smem sim tngsims then "fof_subhalo_tab_" else if smem sim illsims then "groups_" else "".
(** _illustris_datahandling.py 12-20; [isfile] the files that exist *)
Definition gc_path (isfile : string -> bool) (base : string) (s j : nat) : string :=
  let dir := join base (String.append (group_dir s) "/") in
  let p1 := String.append dir (chunk_name "groups_" s j) in
  let p2 := String.append dir (chunk_name "fof_subhalo_tab_" s j) in
  if isfile p1 then p1 else p2.

(** * Reading *)
(** hdf5 files, with the number of files that the header announces *)
Definition h5disk := string -> option (nat * chunk).
Definition on_disk (d : h5disk) (p : string) : bool := match d p with Some _ => true | None => false end.
Definition open_chunk (d : h5disk) (base : string) (s j : nat) : exc (nat * chunk) :=
  match d (gc_path (on_disk d) base s j) with Some nc => Ok nc | None => Raise OSError end.
(** the files that _illustris_datahandling.py 39 and 67-68 open. All of them are opened first here: which exception
    is raised when several things are wrong is not modelled, nor is a header that announces no files although there are
    halos. With no halos only the first is opened (44-46) *)
Definition gc_files (d : h5disk) (base : string) (s : nat) : exc (list chunk) :=
  do nf <- open_chunk d base s 0 ;;
  if ch_total (snd nf) =? 0 then Ok [snd nf]
  else match fst nf with
       | 0 => Raise unmodelled
       | S r => do l <- mapM (fun j => do c <- open_chunk d base s j ;; Ok (snd c)) (seq 1 r) ;; Ok (snd nf :: l)
       end.
(** illustris.py 333-335 *)
Definition ill_loader (d : h5disk) (base : string) (s : Z) (fs : list string) : exc (dict col * nat) :=
  do l <- gc_files d base (Z.to_nat s) ;; illustris_loader (fun _ => l) s fs.
(** an instance, as format uses it: _rawsiminterface.py 470 passes os.path.join(self.path,'raw','');
    [attrs], [number], [ms] and [h] are the metadata *)
Definition ill_catalog (sim : string) (d : h5disk) (path : string) (snaps : list Z) (attrs : dict R) (number : option Z) (ms : list meta) (h : R) : catalog :=
  mkCat snaps attrs number ms h ill_tr (ill_basic sim) ill_dm (ill_matter sim) (ill_loader d (join (raw_dir path) "")).
(** 428-439: the numbers of the answer that are kept. The strings name and cosmology, num_snapshots and num_files_groupcat
    are not in this list *)
Record sim_json := mkJson { j_boxsize : R; j_om : R; j_ol : R; j_ob : R; j_hubble : R; j_snaps : Z; j_files : nat }.
Definition ill_attrs (j : sim_json) : dict R :=
  [("box_edge", j_boxsize j / 1000); ("cosmo_omega_matter", j_om j); ("cosmo_omega_lambda", j_ol j);
   ("cosmo_omega_baryon", j_ob j); ("cosmo_h", j_hubble j)]%R.

(** * One object: _illustris_datahandling.py 128-157 *)
(** position of the last offset that is not above [id]: np.max(np.where(offsets >= 0)); np.max of nothing is a ValueError *)
Fixpoint last_below (offs : list Z) (id : Z) (k : nat) (best : option nat) : option nat :=
  match offs with
  | [] => best
  | o :: r => last_below r id (S k) (if (0 <=? id - o)%Z then Some k else best)
  end.
(** [offs] is the list FileOffsets of the snapshot, read from the offsets file or from the header (136-144); [files] the
    files of the snapshot. Only one of the two identifiers may be given (130-134); they are found in the same way, so
    only the subhalo is modelled. A row that the file does not have raises (h5py 3: IndexError) *)
Definition load_single (offs : list Z) (files : list chunk) (halo sub : Z) : exc (dict (list R)) :=
  if ((halo <? 0) && (sub <? 0) || (0 <=? halo) && (0 <=? sub))%Z then Raise plain_exception
  else if (sub <? 0)%Z then Raise unmodelled
  else match last_below offs sub 0 None with
       | None => Raise ValueError
       | Some k =>
           match nth_error files k with
           | None => Raise OSError
           | Some f =>
               let row := Z.to_nat (sub - nth k offs 0%Z) in
               mapM (fun kc => match nth_error (match snd kc with Col1 l => map (fun x => [x]) l | Col2 l => l end) row with
                               | Some r => Ok (fst kc, r)
                               | None => Raise IndexError
                               end) (ch_data f)
           end
       end.

(** * Downloads: illustris.py 341-394 *)
(** what one run of wget does: the files that arrive, whole or cut off, and whether an exception (Ctrl-C between two
    commands) ends the loop after it *)
Record attempt := mkAtt { at_files : list (string * list nat); at_stop : bool }.
(** option -nc: a file that exists is left alone *)
Definition wget_nc (dir : string) (l : list (string * list nat)) (st : store) : store :=
  fold_left (fun st nb => let p := String.append dir (String.append "/" (fst nb)) in
                          if dmem st p then st else dset st p (snd nb)) l st.
Definition snap_dir (path : string) (s : nat) : string := join (join path "raw") (group_dir s).
Definition chunk_file (path fname : string) (s j : nat) : string := join (snap_dir path s) (chunk_name fname s j).
(** 384-389; [nfiles] is groupcat_number_files, None without metadata *)
Definition arrived (path fname : string) (nfiles : option nat) (s : nat) (st : store) : bool :=
  match nfiles with None => true | Some n => forallb (fun j => dmem st (chunk_file path fname s j)) (seq 0 n) end.
(** 377-394. None: the loop has not come to an end after these runs *)
Fixpoint fetch_snap (path fname : string) (nfiles : option nat) (s : nat) (ats : list attempt) (st : store) : option (store * list attempt) :=
  match ats with
  | [] => None
  | a :: r =>
      let st := wget_nc (snap_dir path s) (at_files a) st in
      if at_stop a then Some (st, r)
      else if arrived path fname nfiles s st then Some (st, r)
      else fetch_snap path fname nfiles s r st
  end.
(** 348-357 *)
Definition ill_wanted (path fname : string) (redo : bool) (snaps : list nat) (st : store) : list nat :=
  if redo then snaps else filter (fun s => negb (dmem st (chunk_file path fname s 0))) snaps.
(** 360-394 *)
Fixpoint fetch_all (path fname : string) (nfiles : option nat) (l : list nat) (ats : list attempt) (st : store) : option (store * list attempt) :=
  match l with
  | [] => Some (st, ats)
  | s :: r => match fetch_snap path fname nfiles s ats st with
              | None => None
              | Some (st', ats') => fetch_all path fname nfiles r ats' st'
              end
  end.
Definition ill_download (path fname : string) (nfiles : option nat) (redo : bool) (snaps : list nat) (ats : list attempt) (st : store) : option (store * list attempt) :=
  fetch_all path fname nfiles (ill_wanted path fname redo snaps st) ats st.
(** 337-339 *)
Definition ill_rawfiles (s : nat) : list string := [group_dir s].
