(** Vocabulary for the Illustris and TNG catalogues (C97-C101). *)
From Verif Require Import Dict Util RealUtil PathsModel SnapModel FormatModel FormatSpec RawModel RawSpec IllModel.
From Coq Require Import Reals Ascii.
Open Scope string_scope.
Open Scope list_scope.
Open Scope nat_scope.

(** ** Simulations *)
Inductive suite := Illustris | TNG.
Definition sim_name (u : suite) (which : string) (dark : bool) : string :=
  ((match u with Illustris => "Illustris-" | TNG => "TNG" end) ++ which ++ (if dark then "-Dark" else ""))%string.
(** the published simulations *)
Definition published (u : suite) (which : string) : Prop :=
  match u with
  | Illustris => In which ["1"; "2"; "3"]
  | TNG => In which ["300-1"; "300-2"; "300-3"; "100-1"; "100-2"; "100-3"]
  end.
(** their snapshots; two of Illustris-1 were lost *)
Definition has_snapshot (u : suite) (which : string) (dark : bool) (s : Z) : Prop :=
  match u with
  | Illustris => (0 <= s < 136)%Z /\ (which = "1" -> dark = false -> s <> 53%Z /\ s <> 55%Z)
  | TNG => (0 <= s < 100)%Z
  end.

(** ** The columns of the raw catalogues: raw field, number of values for each halo *)
Definition cols_basic (u : suite) (dark : bool) : list (string * nat) :=
  [("SubhaloPos", 3); ("SubhaloHalfmassRad", 1); ("SubhaloMass", 1); ("SubhaloVel", 3)] ++
  match u, dark with TNG, false => [("SubhaloFlag", 1)] | _, _ => [] end.
Definition cols_dm : list (string * nat) :=
  [("SubhaloCM", 3); ("SubhaloMassInMaxRad", 1); ("SubhaloSpin", 3); ("SubhaloVelDisp", 1); ("SubhaloVmax", 1); ("SubhaloVmaxRad", 1)].
Definition cols_matter (u : suite) (dark : bool) : list (string * nat) :=
  if dark then [] else
  [("SubhaloBHMass", 1); ("SubhaloBHMdot", 1); ("SubhaloGasMetallicity", 1); ("SubhaloGasMetallicityHalfRad", 1);
   ("SubhaloGasMetallicityMaxRad", 1); ("SubhaloMassType", 6); ("SubhaloMassInHalfRad", 1); ("SubhaloMassInHalfRadType", 6);
   ("SubhaloMassInMaxRadType", 6); ("SubhaloMassInRad", 1); ("SubhaloMassInRadType", 6); ("SubhaloSFR", 1);
   ("SubhaloSFRinHalfRad", 1); ("SubhaloSFRinMaxRad", 1); ("SubhaloStarMetallicity", 1); ("SubhaloStarMetallicityHalfRad", 1);
   ("SubhaloStarMetallicityMaxRad", 1); ("SubhaloStellarPhotometrics", 8)] ++
  match u with TNG => [("SubhaloGasMetalFractions", 10); ("SubhaloGasMetalFractionsHalfRad", 10); ("SubhaloGasMetalFractionsMaxRad", 10)] | _ => [] end.
Definition columns (u : suite) (dark basic : bool) : list (string * nat) :=
  cols_basic u dark ++ if basic then [] else cols_dm ++ cols_matter u dark.
(** column [key] of a file has one row of [w] values for each of its halos *)
Definition has_column (f : chunk) (key : string) (w : nat) : Prop :=
  exists c, dget (ch_data f) key = Some c /\ rows c = ch_here f /\ flat c = (w =? 1) /\ Forall (fun r => length r = w) (rows_of c).
(** the files of a snapshot: either there are no halos at all, or the first file has the columns, and so has every file
    with halos *)
Definition good_files (u : suite) (dark basic : bool) (l : list chunk) : Prop :=
  exists f0 r, l = f0 :: r /\ ch_total f0 = here l /\
    (ch_total f0 <> 0 -> forall key w, In (key, w) (columns u dark basic) ->
       has_column f0 key w /\ forall f, In f l -> ch_here f <> 0 -> has_column f key w).
(** the number of halos, and value [j] of [key] for halo [i], counted through the files *)
Definition halos (l : list chunk) : nat := here l.
Definition cell (l : list chunk) (key : string) (j i : nat) : R := nth j (nth i (all_rows l key) []) 0%R.

(** ** The formatted columns *)
Definition kpc : R := (/ 1000)%R.        (* kpc/h in Mpc/h *)
Definition mass10 : R := 10000000000%R.  (* 10^10 Msun/h in Msun/h *)
(** [n] values under the given names, those that start with "none" left out *)
Definition several (names : list string) (units : string) (h : Z) (k : R) (l : list chunk) (key : string) : list out :=
  map (fun jn => mkOut (snd jn) (times k (cell l key (fst jn))) units h)
    (filter (fun jn => negb (String.prefix "none" (snd jn))) (combine (seq 0 (length names)) names)).
Definition only (name units : string) (h : Z) (k : R) (l : list chunk) (key : string) : list out := [mkOut name (times k (cell l key 0)) units h].
Definition types (suffix : string) : list string :=
  [("m_gas" ++ suffix)%string; ("m_dm" ++ suffix)%string; ("none" ++ suffix)%string; ("m_tracers" ++ suffix)%string;
   ("m_stars_wind" ++ suffix)%string; ("m_bh" ++ suffix)%string].
Definition metals (suffix : string) : list string :=
  map (fun e => ("met" ++ e ++ suffix)%string) ["H"; "He"; "C"; "N"; "O"; "Ne"; "Mg"; "Si"; "Fe"; "Other"].
Definition outs_basic (u : suite) (dark : bool) (l : list chunk) : list out :=
  several ["pos_x"; "pos_y"; "pos_z"] "Mpc/h" (-1) kpc l "SubhaloPos" ++ only "r_hm" "Mpc/h" (-1) kpc l "SubhaloHalfmassRad" ++
  only "mass" "Msun/h" (-1) mass10 l "SubhaloMass" ++ several ["v_x"; "v_y"; "v_z"] "km/s" 0 1 l "SubhaloVel" ++
  match u, dark with TNG, false => only "flag" "none" 0 1 l "SubhaloFlag" | _, _ => [] end.
Definition outs_dm (l : list chunk) : list out :=
  several ["cm_x"; "cm_y"; "cm_z"] "Mpc/h" (-1) kpc l "SubhaloCM" ++ only "mass_maxr" "Msun/h" (-1) mass10 l "SubhaloMassInMaxRad" ++
  several ["spin_x"; "spin_y"; "spin_z"] "Mpc/h km/s" (-1) kpc l "SubhaloSpin" ++ only "vdisp" "km/s" 0 1 l "SubhaloVelDisp" ++
  only "vmax" "km/s" 0 1 l "SubhaloVmax" ++ only "r_vmax" "Mpc/h" (-1) kpc l "SubhaloVmaxRad".
(** [bh] is the factor of the accretion rates, [sfr2] the raw column of the star formation rates within twice the stellar
    half mass radius; what is stored for them is not what the labels say, see the refutations *)
Definition outs_matter (bh : R) (sfr2 : string) (u : suite) (dark : bool) (l : list chunk) : list out :=
  if dark then [] else
  only "bhmass" "Msun/h" (-1) mass10 l "SubhaloBHMass" ++ only "bhmdot" "Msun/h / (Gyr/h)" 0 bh l "SubhaloBHMdot" ++
  only "met" "None" 0 1 l "SubhaloGasMetallicity" ++ only "met_hr" "None" 0 1 l "SubhaloGasMetallicityHalfRad" ++
  only "met_maxr" "None" 0 1 l "SubhaloGasMetallicityMaxRad" ++ several (types "") "Msun/h" (-1) mass10 l "SubhaloMassType" ++
  only "mass_hr" "Msun/h" (-1) mass10 l "SubhaloMassInHalfRad" ++ several (types "_hr") "Msun/h" (-1) mass10 l "SubhaloMassInHalfRadType" ++
  several (types "_maxr") "Msun/h" (-1) mass10 l "SubhaloMassInMaxRadType" ++ only "mass_2hr" "Msun/h" (-1) mass10 l "SubhaloMassInRad" ++
  several (types "_2hr") "Msun/h" (-1) mass10 l "SubhaloMassInRadType" ++ only "sfr" "Msun/yr" 0 1 l "SubhaloSFR" ++
  only "sfr_2hr" "Msun/yr" 0 1 l sfr2 ++ only "sfr_maxr" "Msun/yr" 0 1 l "SubhaloSFRinMaxRad" ++
  only "met_stellar" "None" 0 1 l "SubhaloStarMetallicity" ++ only "met_stellar_hr" "None" 0 1 l "SubhaloStarMetallicityHalfRad" ++
  only "met_stellar_maxr" "None" 0 1 l "SubhaloStarMetallicityMaxRad" ++
  several ["phot_U"; "phot_B"; "phot_V"; "phot_K"; "phot_g"; "phot_r"; "phot_i"; "phot_z"] "mag" 0 1 l "SubhaloStellarPhotometrics" ++
  match u with
  | TNG => several (metals "") "None" 0 1 l "SubhaloGasMetalFractions" ++ several (metals "_hr") "None" 0 1 l "SubhaloGasMetalFractionsHalfRad" ++
           several (metals "_maxr") "None" 0 1 l "SubhaloGasMetalFractionsMaxRad"
  | _ => []
  end.
Definition outs (bh : R) (sfr2 : string) (u : suite) (dark basic : bool) (l : list chunk) : list out :=
  outs_basic u dark l ++ if basic then [] else outs_dm l ++ outs_matter bh sfr2 u dark l.

(** ** Files *)
(** [n] with leading zeros to three digits *)
Definition digits3 (n : nat) : string :=
  if n <? 10 then ("00" ++ dec n)%string else if n <? 100 then ("0" ++ dec n)%string else dec n.
Definition file_stem (u : suite) : string := match u with Illustris => "groups_" | TNG => "fof_subhalo_tab_" end.
Definition snapshot_dir (path : string) (s : nat) : string := (path ++ "/raw/groups_" ++ digits3 s)%string.
Definition snapshot_file (u : suite) (path : string) (s j : nat) : string :=
  (snapshot_dir path s ++ "/" ++ file_stem u ++ digits3 s ++ "." ++ dec j ++ ".hdf5")%string.
(** the disk has exactly the files [l] of the snapshot, numbered from 0, under the names of its suite *)
Definition snapshot_on_disk (d : h5disk) (u : suite) (path : string) (s : nat) (l : list chunk) : Prop :=
  (forall j f, nth_error l j = Some f -> d (snapshot_file u path s j) = Some (length l, f)) /\
  (u = TNG -> forall j, d (snapshot_file Illustris path s j) = None).

(** ** Single objects *)
(** the offsets of the files: the number of halos in the files before *)
Definition offsets (l : list chunk) : list Z := map (fun k => Z.of_nat (here (firstn k l))) (seq 0 (length l)).
(** every column of a file has a row for each of its halos *)
Definition full (f : chunk) : Prop := forall kc, In kc (ch_data f) -> rows (snd kc) = ch_here f.

(** ** Downloads *)
(** no run is interrupted *)
Definition uninterrupted (ats : list attempt) : Prop := Forall (fun a => at_stop a = false) ats.
(** a run brings a file of this name *)
Definition brings (a : attempt) (name : string) : Prop := exists b, In (name, b) (at_files a).
