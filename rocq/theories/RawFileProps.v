(** Theorems about fetching and removing raw files and choosing snapshots (C94-C96). *)
From Verif Require Import Dict Util RealUtil PathsModel RawModel RawSpec Raw Raw2 Raw4 Raw5 Raw6.
From Coq Require Import Ascii Sorted Lia.
Open Scope string_scope.
Open Scope list_scope.
Open Scope nat_scope.

(** * C94: downloads *)
Lemma of_snaps_name web snaps name : snaps_ok web snaps -> of_snaps web snaps name <-> exists s, In s snaps /\ name = name_of web s.
Proof.
  intros [_ HR]. unfold of_snaps, name_of. split; intros (s & Hs & E); exists s; (split; [auto|]).
  - symmetry. apply nth_error_nth. exact E.
  - subst. apply nth_error_nth'. specialize (HR s Hs). lia.
Qed.
(** A UniverseMachine download that ends leaves every requested file that was missing (every requested file with
    redownload) complete, whatever was on the disk, and touches nothing else *)
Theorem C94_um : forall sv redo path page web snaps st, good_path path -> Forall (fun n => starts_slash n = false) web -> NoDup web -> snaps_ok web snaps ->
  (forall name, of_snaps web snaps name -> sv (page ++ name)%string <> None) ->
  exists st', download (um_download sv redo path page web snaps) st = (st', Ok tt) /\
    (forall name, of_snaps web snaps name -> redo = true \/ dget st (raw_file path name) = None -> complete sv st' (page ++ name) (raw_file path name)) /\
    (forall q, (redo = false /\ dget st q <> None) \/ (forall name, of_snaps web snaps name -> q <> raw_file path name) -> dget st' q = dget st q).
Proof.
  intros sv redo path page web snaps st Hp HW ND HR HS. unfold download, um_download. rewrite um_wanted_eq by auto.
  destruct (fetch_all sv redo (map (fun s => ((page ++ name_of web s)%string, raw_file path (name_of web s))) snaps) st) as (st' & R & G & O).
  - apply um_targets_nodup; auto.
  - intros up H. apply in_map_iff in H as (s & <- & Hs). cbn [fst]. apply HS. apply of_snaps_name; eauto.
  - exists st'. split; [exact R|]. split.
    + intros name Hn T. apply of_snaps_name in Hn as (s & Hs & ->); auto. apply G; [|exact T]. apply in_map_iff. eauto.
    + intros q Hq. apply O. intros u Hu [T|T]; apply in_map_iff in Hu as (s & E & Hs); injection E as _ E; destruct Hq as [[A B]|A]; try congruence;
        (apply (A (name_of web s)); [apply of_snaps_name; eauto|auto]).
Qed.
Print Assumptions C94_um.
(** Killed at any point, every file is as before, or a requested one that holds the beginning of what the server has *)
Theorem C94_um_crash : forall sv redo path page web snaps st k q, good_path path -> Forall (fun n => starts_slash n = false) web -> NoDup web -> snaps_ok web snaps ->
  (forall name, of_snaps web snaps name -> sv (page ++ name)%string <> None) ->
  let st' := download_crash (um_download sv redo path page web snaps) k st in
  dget st' q = dget st q \/
  exists name l bs, of_snaps web snaps name /\ q = raw_file path name /\ (redo = true \/ dget st q = None) /\
    sv (page ++ name)%string = Some bs /\ dget st' q = Some l /\ prefix_of l bs.
Proof.
  intros sv redo path page web snaps st k q Hp HW ND HR HS st'. unfold st', download_crash, um_download. rewrite um_wanted_eq by auto.
  destruct (fetch_cut sv redo (map (fun s => ((page ++ name_of web s)%string, raw_file path (name_of web s))) snaps) st k) with (q := q) as [H|(u & bs & c & H1 & H2 & H3 & H4)].
  - apply um_targets_nodup; auto.
  - intros up H. apply in_map_iff in H as (s & <- & Hs). cbn [fst]. apply HS. apply of_snaps_name; eauto.
  - left. exact H.
  - right. apply in_map_iff in H1 as (s & E & Hs). injection E as <- <-. exists (name_of web s), (firstn c bs), bs.
    split; [apply of_snaps_name; eauto|]. split; [reflexivity|]. split; [exact H2|]. split; [exact H3|]. split; [exact H4|]. exists (skipn c bs). symmetry. apply firstn_skipn.
Qed.
Print Assumptions C94_um_crash.
(** Such a beginning is taken for the whole file by every later call without redownload *)
Theorem C94_resume_refuted : forall sv path page web s name b bs, good_path path -> Forall (fun n => starts_slash n = false) web ->
  (0 <= s < Z.of_nat (length web))%Z -> nth_error web (Z.to_nat s) = Some name -> sv (page ++ name)%string = Some (b :: bs) ->
  let st1 := download_crash (um_download sv false path page web [s]) 1 [] in
  dget st1 (raw_file path name) = Some [] /\ download (um_download sv false path page web [s]) st1 = (st1, Ok tt) /\
  ~ complete sv st1 (page ++ name) (raw_file path name).
Proof.
  intros sv path page web s name b bs Hp HW HR HN HS st1. assert (OK : snaps_ok web [s]) by (split; [repeat constructor; auto|intros x [<-|[]]; auto]).
  assert (E : name_of web s = name) by (unfold name_of; apply nth_error_nth; auto).
  assert (E1 : st1 = [(raw_file path name, [])]).
  { unfold st1, download_crash, um_download. rewrite um_wanted_eq by auto. cbn [map]. rewrite E. unfold wanted. cbn. unfold fetch. rewrite HS. reflexivity. }
  rewrite E1. assert (D : dget [(raw_file path name, @nil nat)] (raw_file path name) = Some []) by (cbn; rewrite String.eqb_refl; reflexivity).
  split; [exact D|]. split.
  - unfold download, um_download. rewrite um_wanted_eq by auto. cbn [map]. rewrite E. unfold wanted. cbn [filter snd]. rewrite dmem_get, D. reflexivity.
  - intros (l & A & B). rewrite HS in A. rewrite D in B. congruence.
Qed.
Print Assumptions C94_resume_refuted.
Example C94_um_nonvacuous : let web := ["sfr_catalog_0.5.txt"; "sfr_catalog_1.0.txt"] in
  good_path "/d" /\ Forall (fun n => starts_slash n = false) web /\ NoDup web /\ snaps_ok web [1%Z] /\ of_snaps web [1%Z] "sfr_catalog_1.0.txt" /\
  exists sv : server, (forall name, of_snaps web [1%Z] name -> sv ("http://x/" ++ name)%string <> None) /\ sv "http://x/sfr_catalog_1.0.txt" = Some [3; 1; 2].
Proof.
  intros web. split; [exists "/", "d"%char; split; [reflexivity|discriminate]|]. split; [repeat constructor|].
  split; [repeat constructor; cbn; intuition discriminate|]. split; [split; [repeat constructor; auto|intros s [<-|[]]; cbn; lia]|].
  split; [exists 1%Z; split; [left; reflexivity|reflexivity]|]. exists (fun _ => Some [3; 1; 2]). split; [discriminate|reflexivity].
Qed.

Lemma web_dir_page page df : uchuu_page page df = web_dir page df.
Proof. unfold uchuu_page, web_dir. destruct (Nat.leb_spec df 3), (Nat.leb_spec 4 df); try reflexivity; exfalso; lia. Qed.
Lemma data_of_in path page pres snaps dfs q : snaps_ok (h5_names pres) snaps ->
  (exists u, In (u, q) (uchuu_all path page pres snaps dfs)) <-> exists df name, data_of_snaps pres snaps dfs df name /\ q = raw_file path name.
Proof.
  intros [_ HR]. split.
  - intros [u H]. apply uchuu_all_in in H as (s & df & Hs & Hd & _ & ->). exists df, (stem pres s ++ data_name df ++ ".h5")%string. split; [|reflexivity].
    exists s, (stem pres s). repeat (split; [assumption|]). split; [|reflexivity]. apply nth_error_nth'. specialize (HR s Hs). unfold h5_names in HR. rewrite map_length in HR. lia.
  - intros (df & name & (s & pre & Hs & Hd & E & ->) & ->). eexists. apply uchuu_all_in. exists s, df. split; [auto|]. split; [auto|]. split; [reflexivity|].
    unfold stem. rewrite (nth_error_nth pres (Z.to_nat s) "" E). reflexivity.
Qed.
Lemma data_of_url pres snaps dfs df name path page : data_of_snaps pres snaps dfs df name ->
  In ((web_dir page df ++ name)%string, raw_file path name) (uchuu_all path page pres snaps dfs).
Proof.
  intros (s & pre & Hs & Hd & E & ->). apply uchuu_all_in. rewrite <- web_dir_page. exists s, df. unfold stem. rewrite (nth_error_nth pres (Z.to_nat s) "" E). auto.
Qed.
Lemma all_answered (sv : server) path page pres snaps dfs : snaps_ok (h5_names pres) snaps ->
  (forall df name, data_of_snaps pres snaps dfs df name -> sv (web_dir page df ++ name)%string <> None) ->
  forall up, In up (uchuu_all path page pres snaps dfs) -> sv (fst up) <> None.
Proof.
  intros [_ HR] HS [u p] H. apply uchuu_all_in in H as (s & df & Hs & Hd & -> & ->). cbn [fst]. rewrite web_dir_page. apply HS. exists s, (stem pres s). repeat (split; [assumption|]). split; [|reflexivity].
  apply nth_error_nth'. specialize (HR s Hs). unfold h5_names in HR. rewrite map_length in HR. lia.
Qed.
(** The same for the data files of Uchuu, which are fetched to where they are read, when the directory has no data1 in its name *)
Theorem C94_uchuu_partial : forall sv redo path page pres snaps dfs st, good_path path -> ~ occurs "data1" path -> stems_ok pres ->
  snaps_ok (map (fun p => (p ++ "data1.h5")%string) pres) snaps -> NoDup dfs ->
  (forall df name, data_of_snaps pres snaps dfs df name -> sv (web_dir page df ++ name)%string <> None) ->
  exists st', download (uchuu_download sv redo path page (map (fun p => (p ++ "data1.h5")%string) pres) snaps dfs) st = (st', Ok tt) /\
    (forall df name, data_of_snaps pres snaps dfs df name -> redo = true \/ dget st (raw_file path name) = None ->
       complete sv st' (web_dir page df ++ name) (raw_file path name)) /\
    (forall q, (redo = false /\ dget st q <> None) \/ (forall df name, data_of_snaps pres snaps dfs df name -> q <> raw_file path name) -> dget st' q = dget st q).
Proof.
  intros sv redo path page pres snaps dfs st Hp HO HG HR HD HS. unfold download, uchuu_download. fold (h5_names pres) in *. rewrite uchuu_wanted_eq by auto.
  destruct (fetch_all sv redo (uchuu_all path page pres snaps dfs) st) as (st' & R & G & O).
  - apply uchuu_targets_nodup; auto.
  - apply all_answered; auto.
  - exists st'. split; [exact R|]. split.
    + intros df name Hn T. apply G; [|exact T]. apply data_of_url. exact Hn.
    + intros q Hq. apply O. intros u Hu T. assert (HE : exists u, In (u, q) (uchuu_all path page pres snaps dfs)) by eauto. apply data_of_in in HE as (df & name & Hn & E); auto.
      destruct Hq as [[A B]|A]; [destruct T; congruence|apply (A df name Hn E)].
Qed.
Print Assumptions C94_uchuu_partial.
Theorem C94_uchuu_crash : forall sv redo path page pres snaps dfs st k q, good_path path -> ~ occurs "data1" path -> stems_ok pres ->
  snaps_ok (map (fun p => (p ++ "data1.h5")%string) pres) snaps -> NoDup dfs ->
  (forall df name, data_of_snaps pres snaps dfs df name -> sv (web_dir page df ++ name)%string <> None) ->
  let st' := download_crash (uchuu_download sv redo path page (map (fun p => (p ++ "data1.h5")%string) pres) snaps dfs) k st in
  dget st' q = dget st q \/
  exists df name l bs, data_of_snaps pres snaps dfs df name /\ q = raw_file path name /\ (redo = true \/ dget st q = None) /\
    sv (web_dir page df ++ name)%string = Some bs /\ dget st' q = Some l /\ prefix_of l bs.
Proof.
  intros sv redo path page pres snaps dfs st k q Hp HO HG HR HD HS st'. unfold st', download_crash, uchuu_download. fold (h5_names pres) in *. rewrite uchuu_wanted_eq by auto.
  destruct (fetch_cut sv redo (uchuu_all path page pres snaps dfs) st k) with (q := q) as [H|(u & bs & c & H1 & H2 & H3 & H4)].
  - apply uchuu_targets_nodup; auto.
  - apply all_answered; auto.
  - left. exact H.
  - right. apply uchuu_all_in in H1 as (s & df & Hs & Hd & -> & E). rewrite web_dir_page in H3. exists df, (stem pres s ++ data_name df ++ ".h5")%string, (firstn c bs), bs.
    split; [|split; [exact E|split; [exact H2|split; [exact H3|split; [exact H4|exists (skipn c bs); symmetry; apply firstn_skipn]]]]].
    exists s, (stem pres s). repeat (split; [assumption|]). split; [|reflexivity].
    apply nth_error_nth'. destruct HR as [_ HR]. specialize (HR s Hs). unfold h5_names in HR. rewrite map_length in HR. lia.
Qed.
Print Assumptions C94_uchuu_crash.
(** In a directory with data1 in its name every other data file is written to a different place than the one it is read from *)
Theorem C94_place_refuted : forall sv path page pre df bs, good_path path -> occurs "data1" path -> ~ occurs "data1" pre -> starts_slash pre = false -> 2 <= df <= 12 ->
  sv (web_dir page df ++ pre ++ data_name df ++ ".h5")%string = Some bs ->
  exists st', download (uchuu_download sv false path page [(pre ++ "data1.h5")%string] [0%Z] [df]) [] = (st', Ok tt) /\
    dget st' (raw_file path (pre ++ data_name df ++ ".h5")) = None.
Proof.
  intros sv path page pre df bs Hp HO HN HS Hdf E. rewrite <- web_dir_page in E. unfold download, uchuu_download, uchuu_wanted. cbn [mapM file_of nth_error Z.to_nat bind map concat app dmem dkeys filter snd smem negb].
  rewrite raw_join_file by (auto; destruct pre; auto). rewrite replace_h5 by auto. rewrite dmem_get. cbn [dget negb flat_map fst snd app]. rewrite app_nil_r.
  destruct (run_fetch sv _ (replace "data1" (data_name df) (raw_file path (pre ++ "data1.h5"))) bs [] E) as (st' & R & _ & O).
  exists st'. split; [exact R|]. rewrite O; [reflexivity|]. intros Q. symmetry in Q. revert Q. apply wrong_place; auto.
Qed.
Print Assumptions C94_place_refuted.
Example C94_uchuu_nonvacuous : stems_ok ["Uchuu_UM_z1p00_"; "Uchuu_UM_z0p00_"] /\ data_of_snaps ["Uchuu_UM_z1p00_"; "Uchuu_UM_z0p00_"] [0%Z; 1%Z] [1; 2; 12] 12 "Uchuu_UM_z0p00_data12.h5" /\
  ~ occurs "data1" "/home/data/uchuu" /\ occurs "data1" "/data1/uchuu" /\
  replace "data1" "data2" (raw_file "/data1/uchuu" "Uchuu_UM_z0p00_data1.h5") = "/data2/uchuu/raw/Uchuu_UM_z0p00_data2.h5".
Proof.
  split; [split; [repeat constructor; cbn; intuition discriminate|repeat constructor; apply contains_false; reflexivity]|].
  split; [exists 1%Z, "Uchuu_UM_z0p00_"; repeat split; cbn; tauto|]. split; [apply contains_false; reflexivity|]. split; [apply contains_iff; reflexivity|reflexivity].
Qed.

(** * C95: removing raw files *)
(** After a yes exactly the directory raw and what is in it are gone; after a no, or without an answer, nothing is;
    any other answer is asked again. Partial: paths of letters, digits and - . / _ *)
Theorem C95_raw_partial : forall cwd path paths others, Forall (fun a => a <> "y" /\ a <> "n") others -> good_path path -> plain path -> starts_slash path = true ->
  (forall more, exists left, clean_raw cwd path (others ++ "y" :: more) paths = Ok left /\ removed [(path ++ "/raw")%string] paths left) /\
  (forall more, clean_raw cwd path (others ++ "n" :: more) paths = Ok paths) /\ clean_raw cwd path others paths = Raise EOFError.
Proof.
  intros cwd path paths others HA Hp HP HS. destruct (confirm_no others HA) as (Y & N & E). split; [|split].
  - intros more. apply clean_raw_ok; auto. change ("y" :: more) with (["y"] ++ more). rewrite app_assoc. apply confirm_after. exact Y.
  - intros more. unfold clean_raw. change ("n" :: more) with (["n"] ++ more). rewrite app_assoc, (confirm_after _ _ _ N). reflexivity.
  - unfold clean_raw. rewrite E. reflexivity.
Qed.
Print Assumptions C95_raw_partial.
Example C95_raw_nonvacuous : Forall (fun a => a <> "y" /\ a <> "n") ["yes"; "Y"] /\ good_path "/sims/TNG100-1" /\ plain "/sims/TNG100-1" /\
  clean_raw "/home" "/sims/TNG100-1" ["yes"; "Y"; "y"] ["/sims/TNG100-1/data.hdf5"; "/sims/TNG100-1/raw"; "/sims/TNG100-1/raw/a.h5"; "/sims/TNG100-1/raw2"] =
    Ok ["/sims/TNG100-1/data.hdf5"; "/sims/TNG100-1/raw2"].
Proof. split; [repeat constructor; discriminate|]. split; [exists "/sims/TNG100-", "1"%char; split; [reflexivity|discriminate]|]. split; [repeat constructor|reflexivity]. Qed.
(** With a blank in the path a yes removes everything under the part before the blank, which is not in the directory raw *)
Theorem C95_blank_refuted : forall cwd u v paths, plain u -> starts_slash u = true -> plain v -> String.prefix "-" v = false -> good_path (u ++ " " ++ v) ->
  exists left, clean_raw cwd (u ++ " " ++ v) ["y"] paths = Ok left /\ (forall q, inside u q -> ~ In q left) /\ ~ inside (u ++ " " ++ v ++ "/raw") u.
Proof.
  intros cwd u v paths HU HS HV HD Hp. destruct (clean_blank cwd u v paths HU HS HV HD Hp) as (left & E & keep & EL & HK). exists left. split; [exact E|]. split; [|apply outside_blank].
  intros q Hq HI. rewrite EL in HI. apply filter_In in HI as [_ HI]. apply HK in HI. apply HI. exists u. split; [left; reflexivity|exact Hq].
Qed.
Print Assumptions C95_blank_refuted.
Example C95_blank_refuted_nonvacuous :
  clean_raw "/home" "/work/my sims" ["y"] ["/work/my"; "/work/my/thesis.tex"; "/work/my sims/raw/a.h5"] = Ok ["/work/my sims/raw/a.h5"].
Proof. reflexivity. Qed.
(** Cleaning while formatting removes exactly the raw file of the snapshot that was formatted *)
Theorem C95_um_files : forall cwd path web s name paths, good_path path -> plain path -> starts_slash path = true ->
  nth_error web (Z.to_nat s) = Some name -> plain name -> starts_slash name = false ->
  exists names left, um_rawfiles web s = Ok names /\ clean_files cwd path names paths = Ok left /\ removed [raw_file path name] paths left.
Proof.
  intros cwd path web s name paths Hp HP HS E HN HNS. exists [name]. destruct (clean_files_ok cwd path [name] Hp HP HS) with (paths := paths) as (left & A & B); [repeat constructor; auto|].
  exists left. split; [unfold um_rawfiles, file_of; rewrite E; reflexivity|]. split; [exact A|exact B].
Qed.
Print Assumptions C95_um_files.
(** For Uchuu the files data1 to data11 are removed, and never data12 *)
Theorem C95_uchuu_refuted : forall cwd path web s pre paths, good_path path -> plain path -> starts_slash path = true ->
  nth_error web (Z.to_nat s) = Some (pre ++ "data1.h5")%string -> ~ occurs "data1" pre -> plain pre -> starts_slash pre = false ->
  exists names left, uchuu_rawfiles web s = Ok names /\ clean_files cwd path names paths = Ok left /\
    removed (map (fun i => raw_file path (pre ++ data_name i ++ ".h5")) [1; 2; 3; 4; 5; 6; 7; 8; 9; 10; 11]) paths left /\
    (In (raw_file path (pre ++ "data12.h5")) paths -> In (raw_file path (pre ++ "data12.h5")) left).
Proof.
  intros cwd path web s pre paths Hp HP HS E HO HN HNS.
  set (names := map (fun i => (pre ++ data_name i ++ ".h5")%string) [1; 2; 3; 4; 5; 6; 7; 8; 9; 10; 11]).
  assert (EN : uchuu_rawfiles web s = Ok names).
  { unfold uchuu_rawfiles, file_of. rewrite E. cbn [bind]. f_equal. unfold names. change (seq 1 11) with [1; 2; 3; 4; 5; 6; 7; 8; 9; 10; 11]. apply map_ext. intros i. apply replace_h5. exact HO. }
  destruct (clean_files_ok cwd path names Hp HP HS) with (paths := paths) as (left & A & B).
  { unfold names. apply Forall_map, Forall_forall. intros i _. split; [apply plain_app; split; [auto|apply plain_app; split; [apply plain_data|repeat constructor]]|]. destruct pre; [reflexivity|exact HNS]. }
  exists names, left. split; [exact EN|]. split; [exact A|]. unfold names in B. rewrite map_map in B. split; [exact B|]. intros HI. destruct B as (keep & EL & HK). rewrite EL. apply filter_In. split; [exact HI|].
  apply HK. intros (g & Hg & Hi). apply in_map_iff in Hg as (i & <- & Hin). unfold raw_file in Hi.
  replace (path ++ "/raw/" ++ pre ++ data_name i ++ ".h5")%string with ((path ++ "/raw/" ++ pre) ++ data_name i ++ ".h5")%string in Hi by (rewrite !sapp_assoc; reflexivity).
  replace (path ++ "/raw/" ++ pre ++ "data12.h5")%string with ((path ++ "/raw/" ++ pre) ++ data_name 12 ++ ".h5")%string in Hi by (rewrite !sapp_assoc; reflexivity).
  revert Hi. apply data12_stays. cbn in Hin. lia.
Qed.
Print Assumptions C95_uchuu_refuted.
Example C95_files_nonvacuous : plain "Uchuu_UM_z0p00_" /\
  (do ns <- uchuu_rawfiles ["Uchuu_UM_z0p00_data1.h5"] 0 ;; clean_files "/home" "/s" ns ["/s/raw/Uchuu_UM_z0p00_data1.h5"; "/s/raw/Uchuu_UM_z0p00_data12.h5"; "/s/raw/Uchuu_UM_z1p00_data1.h5"]) =
    Ok ["/s/raw/Uchuu_UM_z0p00_data12.h5"; "/s/raw/Uchuu_UM_z1p00_data1.h5"].
Proof. split; [repeat constructor|reflexivity]. Qed.

(** * C96: the snapshots of an instance *)
(** they are the requested ones (all of them for 'all') among those that exist, in ascending order, each once,
    however they were listed *)
Theorem C96_snapshots : forall req all,
  StronglySorted Z.lt (choose_snaps req all) /\ NoDup (choose_snaps req all) /\
  forall s, In s (choose_snaps req all) <-> In s all /\ match req with None => True | Some l => In s l end.
Proof.
  intros req all. destruct (choose_ok req all) as [A B]. split; [exact A|]. split; [|exact B].
  clear B. induction A as [|x l _ IH F]; constructor; auto. intros H. rewrite Forall_forall in F. specialize (F x H). lia.
Qed.
Print Assumptions C96_snapshots.
Example C96_nonvacuous : choose_snaps (Some [7; 2; 7; 99; 4]%Z) [0; 1; 2; 3; 4; 5; 6; 7]%Z = [2; 4; 7]%Z /\ choose_snaps None [3; 1; 2]%Z = [1; 2; 3]%Z.
Proof. split; reflexivity. Qed.
