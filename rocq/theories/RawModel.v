(** Model of the UniverseMachine and Uchuu catalogue interfaces, simim/siminterface/universemachine.py
    and uchuu.py, and of the snapshot choice and the removal of raw files in _rawsiminterface.py
    (273-282, 319-340, 575-580). No proofs here.

    Numbers are real. python's float(), the web pages, the disk and the answers typed by the user
    are arguments. Text files are the rows of numbers that loadtxt reads from them, binary files the
    little-endian 32 bit words they consist of, hdf5 files the datasets they hold. *)
From Verif Require Import Dict Util RealUtil PathsModel SnapModel FormatModel.
From Coq Require Import Reals Ascii DecimalString.
Open Scope string_scope.
Open Scope list_scope.
Open Scope nat_scope.

(** * Text *)
(** [s.replace(old,new)], [old] not empty; [k] characters are still to be skipped *)
Fixpoint rep (old new : string) (k : nat) (s : string) : string :=
  match s with
  | EmptyString => EmptyString
  | String a r =>
      match k with
      | S k' => rep old new k' r
      | 0 => if String.prefix old s then String.append new (rep old new (String.length old - 1) r)
             else String a (rep old new 0 r)
      end
  end.
Definition replace (old new s : string) : string := rep old new 0 s.
(** [sub in s] *)
Fixpoint contains (sub s : string) : bool :=
  String.prefix sub s || match s with EmptyString => false | String _ r => contains sub r end.
(** fnmatch of "*a*b*" *)
Fixpoint contains2 (a b s : string) : bool :=
  (String.prefix a s && contains b (substring (String.length a) (String.length s) s)) ||
  match s with EmptyString => false | String _ r => contains2 a b r end.
(** [s[:-n]] *)
Definition drop_end (n : nat) (s : string) : string := substring 0 (String.length s - n) s.
(** [s.strip(c)] for one character *)
Fixpoint lstrip (c : ascii) (s : string) : string :=
  match s with String a r => if Ascii.eqb a c then lstrip c r else s | EmptyString => s end.
Definition sreverse (s : string) : string := string_of_list_ascii (rev (list_ascii_of_string s)).
Definition strip (c : ascii) (s : string) : string := sreverse (lstrip c (sreverse (lstrip c s))).
(** [f'data{n}'] *)
Definition data_name (n : nat) : string := String.append "data" (NilEmpty.string_of_uint (Nat.to_uint n)).

(** * The requested snapshots: _rawsiminterface.py 273-282 *)
Fixpoint zins (x : Z) (l : list Z) : list Z :=
  match l with [] => [x] | a :: r => if (x <? a)%Z then x :: l else if (x =? a)%Z then l else a :: zins x r end.
(** np.intersect1d; None is 'all' *)
Definition choose_snaps (req : option (list Z)) (all : list Z) : list Z :=
  let s := match req with None => all | Some l => l end in
  fold_right zins [] (filter (fun x => zmem x all) s).

(** * The lists of files *)
Inductive um_sim := Bolshoi | Smdpl | Mdpl2 | Testbox.
(** universemachine.py 18 *)
Definition testsnaps : list string := ["sfr_catalog_0.055623.txt"; "sfr_catalog_0.506185.txt"; "sfr_catalog_0.994717.txt"].
(** 80-85; any exception becomes a ValueError. None is a page that cannot be read *)
Definition quoted (t : string) : exc string := match nth_error (split_on "034"%char t) 1 with Some w => Ok w | None => Raise ValueError end.
Definition um_scrape (page : option string) : exc (list string) :=
  match page with
  | None => Raise ValueError
  | Some html => mapM quoted (filter (contains "sfr_catalog_") (split_on " "%char html))
  end.
(** 73-86: the files used, and what is then saved in web_paths.npy *)
Definition um_open (k : um_sim) (saved : option (list string)) (page : option string) : exc (list string * option (list string)) :=
  match k with
  | Testbox => Ok (testsnaps, saved)
  | _ => match saved with
         | Some l => Ok (l, saved)
         | None => do l <- um_scrape page ;; Ok (l, Some l)
         end
  end.
(** 338: float(t.split('_')[-1][:-4]) *)
Definition um_scale (float : string -> exc R) (t : string) : exc R :=
  match rev (split_on "_"%char t) with w :: _ => float (drop_end 4 w) | [] => Raise IndexError end.
(** 338-351 *)
Definition um_classes (asort : list R -> list nat) (float : string -> exc R) (web : list string) (snaps : list Z) : exc (list snapc) :=
  do a <- mapM (um_scale float) web ;;
  let zs := pick (map (fun x => (1 / x - 1)%R) a) (asort a) in
  Ok (filter (fun c => zmem (c_index c) snaps)
        (map (fun iz => new_snap (Z.of_nat (fst iz)) (snd iz)) (combine (seq 0 (length zs)) zs))).
(** 338-379: the snapshot table *)
Definition um_meta (asort : list R -> list nat) (float : string -> exc R) (C : cosmo) (h : R) (web : list string) (snaps : list Z) : exc (list meta) :=
  do l <- um_classes asort float web snaps ;; make_meta C h l.

(** uchuu.py 61, 288: float(t.split('_')[2].strip('z').replace('p','.')) *)
Definition uchuu_z (float : string -> exc R) (t : string) : exc R :=
  match nth_error (split_on "_"%char t) 2 with Some w => float (replace "p" "." (strip "z"%char w)) | None => Raise IndexError end.
(** 52-58 *)
Definition uchuu_scrape (page : option string) : exc (list string) :=
  match page with
  | None => Raise ValueError
  | Some html => mapM quoted (filter (contains2 "Uchuu_UM_" "data1.h5") (split_on " "%char html))
  end.
(** 48-65 *)
Definition uchuu_open (asort : list R -> list nat) (float : string -> exc R) (saved : option (list string)) (page : option string)
  : exc (list string * option (list string)) :=
  match saved with
  | Some l => Ok (l, saved)
  | None =>
      do l <- uchuu_scrape page ;;
      do zs <- mapM (uchuu_z float) l ;;
      let l := pick l (asort (map Ropp zs)) in Ok (l, Some l)
  end.
(** 288-327 *)
Definition uchuu_meta (asort : list R -> list nat) (float : string -> exc R) (C : cosmo) (h : R) (web : list string) (snaps : list Z) : exc (list meta) :=
  do zs <- mapM (uchuu_z float) web ;; make_meta C h (numbered_classes asort zs snaps).

(** * Reading raw files *)
Inductive raw := Text (rows : list (list R)) | Words (ws : list Z) | H5 (d : dict (list R)).
Definition disk := string -> option raw.
Definition unmodelled : exn := UserExn 0.
(** [web_files[snapshot]] *)
Definition file_of (web : list string) (s : Z) : exc string :=
  match nth_error web (Z.to_nat s) with Some n => Ok n | None => Raise IndexError end.
Fixpoint index_of (k : string) (l : list string) : option nat :=
  match l with [] => None | a :: r => if String.eqb k a then Some 0 else option_map S (index_of k r) end.

(** ** Text catalogues: universemachine.py 205-241 *)
(** 230-234 *)
Definition text_names : list string :=
  ["id"; "descid"; "upid"; "flags"; "uparent_dist"; "x"; "y"; "z"; "vx"; "vy"; "vz"; "m"; "v"; "mp"; "vmp"; "r";
   "rank1"; "rank2"; "ra"; "rarank"; "sm"; "icl"; "sfr"; "obs_sm"; "obs_sfr"; "obs_ssfr"; "smhm"; "obs_uv"].
(** 235-241: loadtxt of a single line gives an array without dimensions, which has no len() *)
Definition text_loader (rows : list (list R)) (fields : list string) : exc (dict col * nat) :=
  do _ <- check (forallb (fun r => length r =? length text_names) rows) ValueError ;;
  do sub <- mapM (fun key => match index_of key text_names with
                             | Some j => Ok (key, Col1 (map (fun r => nth j r 0%R) rows))
                             | None => Raise ValueError
                             end) fields ;;
  do _ <- check (negb (length rows =? 1)) TypeError ;;
  Ok (sub, length rows).

(** ** Binary catalogues: universemachine.py 243-288 *)
Inductive ty := I8 | I4 | F4 | F4x6.
(** 268-276; with these types the alignment adds no padding *)
Definition bin_dtype : list (string * ty) :=
  [("id", I8); ("descid", I8); ("upid", I8); ("flags", I4); ("uparent_dist", F4); ("pos", F4x6); ("vmp", F4); ("lvmp", F4);
   ("mp", F4); ("m", F4); ("v", F4); ("r", F4); ("rank1", F4); ("rank2", F4); ("ra", F4); ("rarank", F4); ("a_uv", F4);
   ("sm", F4); ("icl", F4); ("sfr", I4); ("obs_sm", F4); ("obs_sfr", F4); ("obs_uv", F4); ("empty", F4)].
Definition width (t : ty) : nat := match t with I8 => 2 | F4x6 => 6 | _ => 1 end.
Definition i4 (w : Z) : Z := if (w <? 2 ^ 31)%Z then w else (w - 2 ^ 32)%Z.
(** IEEE 754 single precision; infinities and NaN (exponent 255) are not modelled *)
Definition f4 (w : Z) : R :=
  let e := (w / 2 ^ 23 mod 2 ^ 8)%Z in let m := (w mod 2 ^ 23)%Z in
  ((if (w <? 2 ^ 31)%Z then 1 else -1) * (if (e =? 0)%Z then IZR m * powerRZ 2 (-149) else IZR (2 ^ 23 + m) * powerRZ 2 (e - 150)))%R.
Definition decode (t : ty) (ws : list Z) : list R :=
  match t with
  | I8 => [IZR (nth 0 ws 0 + 2 ^ 32 * i4 (nth 1 ws 0))%Z]
  | I4 => [IZR (i4 (nth 0 ws 0%Z))]
  | F4 | F4x6 => map f4 ws
  end.
(** the type of a field and its words in a record *)
Fixpoint field_words (key : string) (l : list (string * ty)) (ws : list Z) : option (ty * list Z) :=
  match l with
  | [] => None
  | (k, t) :: r => if String.eqb key k then Some (t, firstn (width t) ws) else field_words key r (skipn (width t) ws)
  end.
Definition rec_words : nat := fold_right (fun kt n => width (snd kt) + n) 0 bin_dtype.
(** np.fromfile: a last incomplete record is dropped *)
Definition records (ws : list Z) : list (list Z) :=
  map (fun i => firstn rec_words (skipn (i * rec_words) ws)) (seq 0 (length ws / rec_words)).
Definition flags (r : list Z) : Z := match field_words "flags" bin_dtype r with Some (_, ws) => i4 (nth 0 ws 0%Z) | None => 0%Z end.
(** [data_raw[key]] *)
Definition bin_col (key : string) (recs : list (list Z)) : exc col :=
  match field_words key bin_dtype [] with
  | None => Raise ValueError
  | Some (t, _) =>
      let vals := map (fun r => match field_words key bin_dtype r with Some (t, ws) => decode t ws | None => [] end) recs in
      Ok (match t with F4x6 => Col2 vals | _ => Col1 (map (fun v => nth 0 v 0%R) vals) end)
  end.
(** 278-288: the remainder computed at 285 is dropped; it needs the field pos *)
Definition bin_loader (ws : list Z) (fields : list string) : exc (dict col * nat) :=
  let recs := filter (fun r => negb (Z.land (flags r) 16 =? 16)%Z) (records ws) in
  do sub <- mapM (fun key => do c <- bin_col key recs ;; Ok (key, c)) fields ;;
  do _ <- check (smem "pos" fields) KeyError ;;
  Ok (sub, length recs).

Definition um_loader (k : um_sim) (d : disk) (web : list string) (path : string) (s : Z) (fields : list string) : exc (dict col * nat) :=
  do n <- file_of web s ;;
  match d (join path n), k with
  | None, _ => Raise OSError
  | Some (Text rows), (Bolshoi | Testbox) => text_loader rows fields
  | Some (Words ws), (Smdpl | Mdpl2) => bin_loader ws fields
  | _, _ => Raise unmodelled
  end.

(** ** The field tables: universemachine.py 93-192 *)
Definition f1 (name units : string) (h : Z) : list fspec := [FormatModel.mkFS name units h].
Definition xyz_fields : fields :=
  [("x", f1 "pos_x" "Mpc/h" (-1)); ("y", f1 "pos_y" "Mpc/h" (-1)); ("z", f1 "pos_z" "Mpc/h" (-1));
   ("vx", f1 "v_x" "km/s" 0); ("vy", f1 "v_y" "km/s" 0); ("vz", f1 "v_z" "km/s" 0)].
Definition is_text (k : um_sim) : bool := match k with Bolshoi | Testbox => true | _ => false end.
(** 93-117 *)
Definition um_basic (k : um_sim) : fields :=
  if is_text k then xyz_fields ++ [("m", f1 "mass" "Msun/h" (-1))]
  else [("pos", flat_map snd xyz_fields); ("m", f1 "mass" "Msun/h" (-1))].
(** 120-144 *)
Definition um_dm : fields :=
  [("id", f1 "halo_id" "None" 0); ("descid", f1 "descendent_id" "None" 0); ("upid", f1 "parent_id" "None" 0);
   ("v", f1 "vmax" "km/s" 0); ("mp", f1 "mass_peak" "Msun/h" (-1)); ("vmp", f1 "vmax_peak" "km/s" 0);
   ("r", f1 "r" "kpc/h" (-1)); ("rank1", f1 "Rank1" "None" 0)].
(** 146-176 *)
Definition um_matter (k : um_sim) : fields :=
  [("sm", f1 "m_stars" "Msun/h" (-1)); ("icl", f1 "icl" "Msun/h" (-1)); ("sfr", f1 "sfr" "Msun/yr" 0);
   ("obs_sm", f1 "m_stars_obs" "Msun/h" (-1)); ("obs_sfr", f1 "sfr_obs" "Msun/yr" 0); ("obs_uv", f1 "phot_uv_obs" "mag" 0)] ++
  (if is_text k then [("obs_ssfr", f1 "ssfr_obs" "?" 0); ("smhm", f1 "stellar_to_halo_mass_ratio" "None" 0)]
   else [("a_uv", f1 "uv_attenuation" "mag" 0)]).
(** 181-192 *)
Definition apply_h (x h : R) : R := (x * h)%R.
Definition kpc_to_mpc (x h : R) : R := (x / 1000)%R.
Definition um_tr (k : um_sim) : dict (R -> R -> R) :=
  [("sm", apply_h); ("icl", apply_h); ("obs_sm", apply_h); ("r", kpc_to_mpc)] ++
  (match k with Bolshoi => [("m", apply_h); ("mp", apply_h)] | _ => [] end).
(** 318-332; the strings name and cosmo_name are not modelled *)
Definition um_h : R := (678 / 1000)%R.
Definition um_box (k : um_sim) : R := match k with Bolshoi => 250 | Smdpl => 400 | Mdpl2 => 1000 | Testbox => 10 end.
Definition um_attrs (k : um_sim) : dict R :=
  [("cosmo_omega_matter", 307 / 1000); ("cosmo_omega_lambda", 693 / 1000); ("cosmo_omega_baryon", 48 / 1000);
   ("cosmo_h", um_h); ("box_edge", um_box k)]%R.
(** an instance, as format uses it: _rawsiminterface.py 470 passes os.path.join(self.path,'raw','') *)
Definition raw_dir (path : string) : string := join (join path "raw") "".
Definition um_catalog (k : um_sim) (d : disk) (path : string) (web : list string) (snaps : list Z) (ms : list meta) : catalog :=
  mkCat snaps (um_attrs k) (Some (Z.of_nat (length web))) ms um_h (um_tr k) (um_basic k) um_dm (um_matter k)
    (um_loader k d web (raw_dir path)).

(** ** Uchuu: uchuu.py 70-175, 193-246 *)
(** 70-74 *)
Definition datafiles : dict nat :=
  map (fun k => (k, 1)) ["id"; "upid"; "Mvir"; "sm"; "icl"; "sfr"; "obs_sm"; "obs_sfr"; "obs_uv"] ++
  map (fun k => (k, 2)) ["x"; "y"; "z"] ++
  map (fun k => (k, 3)) ["desc_id"; "vx"; "vy"; "vz"; "Mpeak"; "Vmax_Mpeak"; "vmax"; "A_UV"] ++
  [("SFH", 4); ("ICHL", 5); ("SM_main_progenitor", 6); ("ICL_main_progenitor", 7); ("M_main_progenitor", 8);
   ("SFR_main_progenitor", 9); ("V@Mpeak", 10); ("A_first_infall", 11); ("A_last_infall", 12)].
(** 218-241; datasets with a row of values for each halo (files 4-10) are not modelled *)
Definition uchuu_file (d : disk) (path name : string) (df : nat) (fs : list string) : exc (dict col) :=
  match fs with
  | [] => Ok []
  | _ => match d (String.append path (replace "data1" (data_name df) name)) with
         | None => Raise OSError
         | Some (H5 ds) => mapM (fun f => do l <- dfind ds f ;; Ok (f, Col1 l)) fs
         | Some _ => Raise OSError
         end
  end.
Definition uchuu_loader (d : disk) (web : list string) (path : string) (s : Z) (fs : list string) : exc (dict col * nat) :=
  do _ <- check (forallb (dmem datafiles) fs) ValueError ;;
  do subs <- mapM (fun df =>
      let here := filter (fun f => match dget datafiles f with Some k => k =? df | None => false end) fs in
      match here with [] => Ok [] | _ => do n <- file_of web s ;; uchuu_file d path n df here end) (seq 1 12) ;;
  let sub := concat subs in
  match sub with
  | [] => Raise IndexError
  | (_, c0) :: _ => do _ <- check (forallb (fun kc => rows (snd kc) =? rows c0) sub) ValueError ;; Ok (sub, rows c0)
  end.
(** 76-143 *)
Definition uchuu_basic : fields := xyz_fields ++ [("Mvir", f1 "mass" "Msun/h" (-1))].
Definition uchuu_dm : fields :=
  [("id", f1 "halo_id" "None" 0); ("desc_id", f1 "descendent_id" "None" 0); ("upid", f1 "parent_id" "None" 0);
   ("vmax", f1 "vmax" "km/s" 0); ("Mpeak", f1 "mass_peak" "Msun/h" (-1)); ("Vmax_Mpeak", f1 "vmax_peak" "km/s" 0)].
Definition uchuu_matter : fields :=
  [("sm", f1 "m_stars" "Msun/h" (-1)); ("icl", f1 "icl" "Msun/h" (-1)); ("sfr", f1 "sfr" "Msun/yr" 0);
   ("obs_sm", f1 "m_stars_obs" "Msun/h" (-1)); ("obs_sfr", f1 "sfr_obs" "Msun/yr" 0); ("obs_uv", f1 "phot_uv_obs" "mag" 0);
   ("A_UV", f1 "uv_attenuation" "mag" 0)].
(** 162-175, 272-282 *)
Definition uchuu_tr : dict (R -> R -> R) := [("sm", apply_h); ("icl", apply_h); ("obs_sm", apply_h)].
Definition uchuu_h : R := (6775 / 10000)%R.
Definition uchuu_attrs : dict R :=
  [("cosmo_omega_matter", 3089 / 10000); ("cosmo_omega_lambda", 6911 / 10000); ("cosmo_omega_baryon", 486 / 10000);
   ("cosmo_h", uchuu_h); ("cosmo_sigma_8", 8159 / 10000); ("cosmo_ns", 9667 / 10000); ("box_edge", 2000)]%R.
Definition uchuu_catalog (d : disk) (path : string) (web : list string) (snaps : list Z) (ms : list meta) : catalog :=
  mkCat snaps uchuu_attrs (Some (Z.of_nat (length web))) ms uchuu_h uchuu_tr uchuu_basic uchuu_dm uchuu_matter
    (uchuu_loader d web (raw_dir path)).

(** * Downloads *)
(** files on the disk, as lists of blocks; a server answers an address with the blocks of a file *)
Definition store := dict (list nat).
Definition server := string -> option (list nat).
Inductive dop := DOpen (p : string) | DWrite (p : string) (b : nat).
Definition apply_dop (st : store) (o : dop) : store :=
  match o with
  | DOpen p => dset st p []
  | DWrite p b => match dget st p with Some l => dset st p (l ++ [b]) | None => st end
  end.
Fixpoint run_dops (st : store) (l : list (exc dop)) : store * exc unit :=
  match l with
  | [] => (st, Ok tt)
  | Raise e :: _ => (st, Raise e)
  | Ok o :: r => run_dops (apply_dop st o) r
  end.
(** urlretrieve(url,path), or shutil.copy: the address is opened first, then the file, and the
    blocks are appended one by one *)
Definition fetch (web : server) (url p : string) : list (exc dop) :=
  match web url with
  | None => [Raise OSError]
  | Some bs => Ok (DOpen p) :: map (fun b => Ok (DWrite p b)) bs
  end.
(** universemachine.py 384-414: the addresses and paths of the files to be fetched. The metadata that
    is made when there is none (391-392) is not modelled here *)
Definition um_wanted (redo : bool) (path page : string) (web : list string) (snaps : list Z) (st : store) : exc (list (string * string)) :=
  do all <- mapM (fun s => do n <- file_of web s ;; Ok (String.append page n, join (join path "raw") n)) snaps ;;
  Ok (if redo then all else filter (fun up => negb (dmem st (snd up))) all).
Definition um_download (sv : server) (redo : bool) (path page : string) (web : list string) (snaps : list Z) (st : store) : list (exc dop) :=
  match um_wanted redo path page web snaps st with
  | Raise e => [Raise e]
  | Ok l => flat_map (fun up => fetch sv (fst up) (snd up)) l
  end.
(** uchuu.py 332-377 *)
Definition uchuu_page (page : string) (df : nat) : string := String.append page (if df <=? 3 then "SFR/" else "SFH/").
Definition uchuu_wanted (redo : bool) (path page : string) (web : list string) (snaps : list Z) (dfs : list nat) (st : store) : exc (list (string * string)) :=
  do all <- mapM (fun s =>
      do n <- file_of web s ;;
      Ok (map (fun df => (String.append (uchuu_page page df) (replace "data1" (data_name df) n),
                          replace "data1" (data_name df) (join (join path "raw") n))) dfs)) snaps ;;
  Ok (if redo then concat all else filter (fun up => negb (dmem st (snd up))) (concat all)).
Definition uchuu_download (sv : server) (redo : bool) (path page : string) (web : list string) (snaps : list Z) (dfs : list nat) (st : store) : list (exc dop) :=
  match uchuu_wanted redo path page web snaps dfs st with
  | Raise e => [Raise e]
  | Ok l => flat_map (fun up => fetch sv (fst up) (snd up)) l
  end.
(** a call that runs to its end, and one that is killed after [k] writes *)
Definition download (steps : store -> list (exc dop)) (st : store) : store * exc unit := run_dops st (steps st).
Definition download_crash (steps : store -> list (exc dop)) (k : nat) (st : store) : store := fst (run_dops st (firstn k (steps st))).

(** * Removing raw files *)
(** characters that a shell passes on unchanged (not in the code) *)
Definition safe (a : ascii) : bool :=
  let n := nat_of_ascii a in
  ((48 <=? n) && (n <=? 57)) || ((65 <=? n) && (n <=? 90)) || ((97 <=? n) && (n <=? 122)) ||
  (n =? 45) || (n =? 46) || (n =? 47) || (n =? 95).
(** the words of a command line of safe characters and blanks; other characters, and words that
    start with a dash, are not modelled *)
Definition shell_words (s : string) : exc (list string) :=
  do _ <- check (forallb (fun a => safe a || Ascii.eqb a " "%char) (list_ascii_of_string s)) unmodelled ;;
  let ws := filter (fun w => negb (String.eqb w "")) (split_on " "%char s) in
  do _ <- check (forallb (fun w => negb (String.prefix "-" w)) ws) unmodelled ;;
  Ok ws.
(** [p] is [dir] or inside it *)
Definition within (dir p : string) : bool := String.eqb p dir || String.prefix (String.append dir "/") p.
Definition absolute (cwd w : string) : string := if starts_slash w then w else String.append cwd (String "/" w).
(** os.system("rm -r {}"): the paths that are left; a word that names nothing is skipped with a message *)
Definition rm_r (cwd arg : string) (paths : list string) : exc (list string) :=
  do ws <- shell_words arg ;;
  Ok (filter (fun p => negb (existsb (fun w => within (absolute cwd w) p) ws)) paths).
(** the question at 329-336 and 389-396: y goes on, n stops, anything else asks again *)
Fixpoint confirm (answers : list string) : exc bool :=
  match answers with
  | [] => Raise EOFError
  | a :: r => if String.eqb a "y" then Ok true else if String.eqb a "n" then Ok false else confirm r
  end.
(** _rawsiminterface.py 319-340 *)
Definition clean_raw (cwd path : string) (answers : list string) (paths : list string) : exc (list string) :=
  do go <- confirm answers ;;
  if go then rm_r cwd (join path "raw") paths else Ok paths.
(** universemachine.py 290-292, uchuu.py 243-246 *)
Definition um_rawfiles (web : list string) (s : Z) : exc (list string) := do n <- file_of web s ;; Ok [n].
Definition uchuu_rawfiles (web : list string) (s : Z) : exc (list string) :=
  do n <- file_of web s ;; Ok (map (fun i => replace "data1" (data_name i) n) (seq 1 11)).
(** _rawsiminterface.py 576-580 *)
Fixpoint clean_files (cwd path : string) (names : list string) (paths : list string) : exc (list string) :=
  match names with
  | [] => Ok paths
  | n :: r => do ps <- rm_r cwd (join (join path "raw") n) paths ;; clean_files cwd path r ps
  end.
