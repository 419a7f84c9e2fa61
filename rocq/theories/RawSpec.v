(** Vocabulary for the raw catalogues of UniverseMachine and Uchuu (C91-C96). *)
From Verif Require Import Dict Util RealUtil PathsModel SnapModel SnapSpec FormatModel FormatSpec RawModel.
From Coq Require Import Reals Ascii Sorted Permutation.
Open Scope string_scope.
Open Scope list_scope.
Open Scope nat_scope.

(** ** Names *)
Definition lacks (c : ascii) (s : string) : Prop := ~ In c (list_ascii_of_string s).
(** [sub] occurs in [s] *)
Definition occurs (sub s : string) : Prop := exists a b, s = (a ++ sub ++ b)%string.
(** a link in a web page: no blanks, the name in quotes *)
Record link_ := mkLink { l_before : string; l_name : string; l_after : string }.
Definition quote : string := String "034"%char "".
Definition link_text (l : link_) : string := (l_before l ++ quote ++ l_name l ++ quote ++ l_after l)%string.
Definition good_link (l : link_) : Prop :=
  lacks " "%char (link_text l) /\ lacks "034"%char (l_before l) /\ lacks "034"%char (l_name l).
(** a page is a sequence of words with single blanks between them: links, and words that do not show [mark] *)
Inductive word := Link (l : link_) | Noise (w : string).
Definition word_text (w : word) : string := match w with Link l => link_text l | Noise s => s end.
Definition page_text (ws : list word) : string := String.concat " " (map word_text ws).
Definition page_names (ws : list word) : list string := flat_map (fun w => match w with Link l => [l_name l] | Noise _ => [] end) ws.

(** ** The snapshot table and the files *)
(** every row of the table has the redshift of the file that is read for its snapshot *)
Definition rows_match (web : list string) (z_of : string -> R) (ms : list meta) : Prop :=
  forall m, In m ms -> exists name, nth_error web (Z.to_nat (m_index m)) = Some name /\ (0 <= m_index m)%Z /\ m_z m = z_of name.
(** the rows are the requested snapshots among the [n] that exist *)
Definition rows_requested (n : nat) (snaps : list Z) (ms : list meta) : Prop :=
  forall i, In i (map m_index ms) <-> (0 <= i < Z.of_nat n)%Z /\ In i snaps.
Definition all_snaps (n : nat) : list Z := map Z.of_nat (seq 0 n).

(** ** Formatted catalogues *)
(** a dataset: its name, the value for each halo of the raw catalogue, its labels *)
Record out := mkOut { o_name : string; o_val : nat -> R; o_units : string; o_h : Z }.
(** the group holds exactly the datasets [outs] of the [n] halos, all in one order, heaviest first *)
Definition stored (g : group) (n : nat) (outs : list out) : Prop :=
  exists p, Permutation p (seq 0 n) /\ map d_name (g_data g) = map o_name outs /\
    (forall o, In o outs -> exists d, In d (g_data g) /\ d_name d = o_name o /\ d_units d = Some (o_units o) /\ d_h d = Some (o_h o) /\
       rows (d_vals d) = n /\ forall r i, nth_error p r = Some i -> entry (d_vals d) 0 r = Some (o_val o i)) /\
    (forall o r1 r2 i1 i2, In o outs -> o_name o = "mass" -> r1 < r2 -> nth_error p r1 = Some i1 -> nth_error p r2 = Some i2 ->
       (o_val o i2 <= o_val o i1)%R).
(** where a raw file is kept *)
Definition raw_file (path name : string) : string := (path ++ "/raw/" ++ name)%string.
Definition good_path (path : string) : Prop := exists p c, path = (p ++ String c "")%string /\ c <> "/"%char.

(** ** Text catalogues *)
(** column [c] (from 0) of the line of halo [i]. The columns are: id descid upid flags dist x y z vx vy vz m v mp vmp
    r rank1 rank2 ra rarank sm icl sfr obs_sm obs_sfr obs_ssfr smhm obs_uv *)
Definition txt (lines : list (list R)) (c : nat) (i : nat) : R := nth c (nth i lines []) 0%R.
Definition times (k : R) (f : nat -> R) (i : nat) : R := (f i * k)%R.
(** [mk] is the factor of the halo masses *)
Definition text_basic (mk : R) (l : list (list R)) : list out :=
  [mkOut "pos_x" (txt l 5) "Mpc/h" (-1); mkOut "pos_y" (txt l 6) "Mpc/h" (-1); mkOut "pos_z" (txt l 7) "Mpc/h" (-1);
   mkOut "v_x" (txt l 8) "km/s" 0; mkOut "v_y" (txt l 9) "km/s" 0; mkOut "v_z" (txt l 10) "km/s" 0;
   mkOut "mass" (times mk (txt l 11)) "Msun/h" (-1)].
Definition text_other (h mk : R) (l : list (list R)) : list out :=
  [mkOut "halo_id" (txt l 0) "None" 0; mkOut "descendent_id" (txt l 1) "None" 0; mkOut "parent_id" (txt l 2) "None" 0;
   mkOut "vmax" (txt l 12) "km/s" 0; mkOut "mass_peak" (times mk (txt l 13)) "Msun/h" (-1); mkOut "vmax_peak" (txt l 14) "km/s" 0;
   mkOut "r" (times (/ 1000) (txt l 15)) "kpc/h" (-1); mkOut "Rank1" (txt l 16) "None" 0;
   mkOut "m_stars" (times h (txt l 20)) "Msun/h" (-1); mkOut "icl" (times h (txt l 21)) "Msun/h" (-1); mkOut "sfr" (txt l 22) "Msun/yr" 0;
   mkOut "m_stars_obs" (times h (txt l 23)) "Msun/h" (-1); mkOut "sfr_obs" (txt l 24) "Msun/yr" 0; mkOut "phot_uv_obs" (txt l 27) "mag" 0;
   mkOut "ssfr_obs" (txt l 25) "?" 0; mkOut "stellar_to_halo_mass_ratio" (txt l 26) "None" 0].
(** the lines are 28 numbers each; a file with exactly one line is not good *)
Definition good_text (l : list (list R)) : Prop := Forall (fun r => length r = 28) l /\ length l <> 1.

(** ** Binary catalogues *)
(** one halo is 32 words: id descid upid (2 words each) flags dist x y z vx vy vz vmp lvmp mp m v r rank1 rank2 ra rarank
    a_uv sm icl sfr obs_sm obs_sfr obs_uv empty; bit 4 of the flags marks halos to be ignored *)
Definition single (recs : list (list Z)) (j : nat) (i : nat) : R := f4 (nth j (nth i recs []) 0%Z).
Definition int32 (recs : list (list Z)) (j : nat) (i : nat) : R := IZR (i4 (nth j (nth i recs []) 0%Z)).
Definition int64 (recs : list (list Z)) (j : nat) (i : nat) : R :=
  IZR (nth j (nth i recs []) 0 + 2 ^ 32 * i4 (nth (S j) (nth i recs []) 0))%Z.
Definition bin_basic (l : list (list Z)) : list out :=
  [mkOut "pos_x" (single l 8) "Mpc/h" (-1); mkOut "pos_y" (single l 9) "Mpc/h" (-1); mkOut "pos_z" (single l 10) "Mpc/h" (-1);
   mkOut "v_x" (single l 11) "km/s" 0; mkOut "v_y" (single l 12) "km/s" 0; mkOut "v_z" (single l 13) "km/s" 0;
   mkOut "mass" (single l 17) "Msun/h" (-1)].
Definition bin_other (h : R) (sfr : nat -> R) (l : list (list Z)) : list out :=
  [mkOut "halo_id" (int64 l 0) "None" 0; mkOut "descendent_id" (int64 l 2) "None" 0; mkOut "parent_id" (int64 l 4) "None" 0;
   mkOut "vmax" (single l 18) "km/s" 0; mkOut "mass_peak" (single l 16) "Msun/h" (-1); mkOut "vmax_peak" (single l 14) "km/s" 0;
   mkOut "r" (times (/ 1000) (single l 19)) "kpc/h" (-1); mkOut "Rank1" (single l 20) "None" 0;
   mkOut "m_stars" (times h (single l 25)) "Msun/h" (-1); mkOut "icl" (times h (single l 26)) "Msun/h" (-1); mkOut "sfr" sfr "Msun/yr" 0;
   mkOut "m_stars_obs" (times h (single l 28)) "Msun/h" (-1); mkOut "sfr_obs" (single l 29) "Msun/yr" 0;
   mkOut "phot_uv_obs" (single l 30) "mag" 0; mkOut "uv_attenuation" (single l 24) "mag" 0].
Definition kept (rec : list Z) : bool := negb (Z.testbit (nth 6 rec 0%Z) 4).
(** a file of records *)
Definition good_records (recs : list (list Z)) : Prop := Forall (fun r => length r = 32 /\ Forall (fun w => 0 <= w < 2 ^ 32)%Z r) recs.

(** ** Uchuu *)
(** the datasets of the data files [f] of one snapshot *)
Definition hcol (f : nat -> dict (list R)) (df : nat) (key : string) (i : nat) : R :=
  match dget (f df) key with Some l => nth i l 0%R | None => 0%R end.
Definition uchuu_out_basic (f : nat -> dict (list R)) : list out :=
  [mkOut "pos_x" (hcol f 2 "x") "Mpc/h" (-1); mkOut "pos_y" (hcol f 2 "y") "Mpc/h" (-1); mkOut "pos_z" (hcol f 2 "z") "Mpc/h" (-1);
   mkOut "v_x" (hcol f 3 "vx") "km/s" 0; mkOut "v_y" (hcol f 3 "vy") "km/s" 0; mkOut "v_z" (hcol f 3 "vz") "km/s" 0;
   mkOut "mass" (hcol f 1 "Mvir") "Msun/h" (-1)].
Definition uchuu_out_other (h : R) (f : nat -> dict (list R)) : list out :=
  [mkOut "halo_id" (hcol f 1 "id") "None" 0; mkOut "descendent_id" (hcol f 3 "desc_id") "None" 0; mkOut "parent_id" (hcol f 1 "upid") "None" 0;
   mkOut "vmax" (hcol f 3 "vmax") "km/s" 0; mkOut "mass_peak" (hcol f 3 "Mpeak") "Msun/h" (-1); mkOut "vmax_peak" (hcol f 3 "Vmax_Mpeak") "km/s" 0;
   mkOut "m_stars" (times h (hcol f 1 "sm")) "Msun/h" (-1); mkOut "icl" (times h (hcol f 1 "icl")) "Msun/h" (-1); mkOut "sfr" (hcol f 1 "sfr") "Msun/yr" 0;
   mkOut "m_stars_obs" (times h (hcol f 1 "obs_sm")) "Msun/h" (-1); mkOut "sfr_obs" (hcol f 1 "obs_sfr") "Msun/yr" 0;
   mkOut "phot_uv_obs" (hcol f 1 "obs_uv") "mag" 0; mkOut "uv_attenuation" (hcol f 3 "A_UV") "mag" 0].
(** what the three files must have *)
Definition uchuu_columns : list (nat * string) :=
  map (pair 1) ["id"; "upid"; "Mvir"; "sm"; "icl"; "sfr"; "obs_sm"; "obs_sfr"; "obs_uv"] ++ map (pair 2) ["x"; "y"; "z"] ++
  map (pair 3) ["desc_id"; "vx"; "vy"; "vz"; "Mpeak"; "Vmax_Mpeak"; "vmax"; "A_UV"].

(** a call that makes a new file *)
Definition fresh (a : fargs) (w : world) : Prop := w_file w = None \/ a_remake a = true.

(** ** Downloads *)
(** [p] holds what the server has at [url] *)
Definition complete (sv : server) (st : store) (url p : string) : Prop := exists bs, sv url = Some bs /\ dget st p = Some bs.

(** ** Files on the disk *)
Definition text_files (d : disk) (path : string) (web : list string) (snaps : list Z) (lines : Z -> list (list R)) : Prop :=
  forall s, In s snaps -> exists name, nth_error web (Z.to_nat s) = Some name /\ starts_slash name = false /\
    d (raw_file path name) = Some (Text (lines s)) /\ good_text (lines s).
Definition bin_files (d : disk) (path : string) (web : list string) (snaps : list Z) (recs : Z -> list (list Z)) : Prop :=
  forall s, In s snaps -> exists name, nth_error web (Z.to_nat s) = Some name /\ starts_slash name = false /\
    d (raw_file path name) = Some (Words (concat (recs s))) /\ good_records (recs s).
(** the three files of a snapshot have all columns, [n] values each *)
Definition whole (f : nat -> dict (list R)) (n : nat) : Prop :=
  forall df key, In (df, key) uchuu_columns -> exists l, dget (f df) key = Some l /\ length l = n.
Definition uchuu_files (d : disk) (path : string) (web : list string) (s : Z) (f : nat -> dict (list R)) : Prop :=
  exists pre, nth_error web (Z.to_nat s) = Some (pre ++ "data1.h5")%string /\ ~ occurs "data1" pre /\
    d (raw_file path (pre ++ "data1.h5")) = Some (H5 (f 1)) /\ d (raw_file path (pre ++ "data2.h5")) = Some (H5 (f 2)) /\
    d (raw_file path (pre ++ "data3.h5")) = Some (H5 (f 3)).

(** ** Removal *)
Definition plain (s : string) : Prop := Forall (fun a => safe a = true) (list_ascii_of_string s).
(** [q] is [dir] or has a path that goes through it *)
Definition inside (dir q : string) : Prop := q = dir \/ exists r, q = (dir ++ "/" ++ r)%string.
(** [left] is what remains of [paths] when everything inside the directories or files [gone] is removed, in the same order *)
Definition removed (gone : list string) (paths left : list string) : Prop :=
  exists keep : string -> bool, left = filter keep paths /\ forall q, keep q = true <-> ~ exists g, In g gone /\ inside g q.

(** ** Fetched files *)
(** file [name] belongs to one of the snapshots *)
Definition of_snaps (web : list string) (snaps : list Z) (name : string) : Prop := exists s, In s snaps /\ nth_error web (Z.to_nat s) = Some name.
Definition snaps_ok (web : list string) (snaps : list Z) : Prop := NoDup snaps /\ forall s, In s snaps -> (0 <= s < Z.of_nat (length web))%Z.
(** where the Uchuu data files are on the web: files 1 to 3 under SFR, 4 to 12 under SFH *)
Definition web_dir (page : string) (df : nat) : string := if 4 <=? df then (page ++ "SFH/")%string else (page ++ "SFR/")%string.
(** data file [df] of one of the snapshots; [pres] are the file names without data1.h5 *)
Definition data_of_snaps (pres : list string) (snaps : list Z) (dfs : list nat) (df : nat) (name : string) : Prop :=
  exists s pre, In s snaps /\ In df dfs /\ nth_error pres (Z.to_nat s) = Some pre /\ name = (pre ++ data_name df ++ ".h5")%string.
Definition stems_ok (pres : list string) : Prop := NoDup pres /\ Forall (fun p => ~ occurs "data1" p /\ starts_slash p = false) pres.
Definition prefix_of {A} (a b : list A) : Prop := exists c, b = a ++ c.
