(** Theorems about the Illustris and TNG catalogues (C97-C101). *)
From Verif Require Import Dict Util RealUtil PathsModel SnapModel SnapSpec Snap FormatModel FormatSpec Format.
From Verif Require Import RawModel RawSpec Raw Raw2 Raw4 Raw6 IllModel IllSpec Ill Ill2 Ill3.
From Coq Require Import Reals Ascii Sorted Permutation Lra Lia.
Open Scope string_scope.
Open Scope list_scope.
Open Scope nat_scope.

(** * C97: simulations and their snapshots *)
Theorem C97_snapshots : forall u which dark, published u which ->
  exists all, ill_allsnaps (sim_name u which dark) = Ok all /\ (forall s, In s all <-> has_snapshot u which dark s) /\ StronglySorted Z.lt all.
Proof.
  intros u which dark H. destruct (allsnaps_ok u which dark H) as (all & E & I). exists all. split; [exact E|]. split; [exact I|].
  unfold ill_allsnaps in E. assert (S1 : forall n k, StronglySorted Z.lt (map (fun i => Z.of_nat i) (seq k n))).
  { induction n as [|n IH]; intros k; cbn; constructor; [apply IH|]. apply Forall_forall. intros z Hz. apply in_map_iff in Hz as (i & <- & Hi). apply in_seq in Hi. lia. }
  assert (S2 : forall n, StronglySorted Z.lt (znums n)) by (intros n; apply S1).
  assert (S3 : forall (f : Z -> bool) l, StronglySorted Z.lt l -> StronglySorted Z.lt (filter f l)).
  { intros f l Hl. induction Hl as [|a l Hl IH F]; cbn; [constructor|]. destruct (f a); [|exact IH]. constructor; [exact IH|]. rewrite Forall_forall in *. intros x Hx. apply filter_In in Hx. apply F. tauto. }
  assert (Q : forall x y : list Z, Ok x = Ok y -> x = y) by congruence. destruct (smem _ illsims); [|destruct (smem _ tngsims); [|discriminate E]].
  - destruct (String.eqb _ _); apply Q in E; rewrite <- E; [apply S3|]; apply S2.
  - apply Q in E. rewrite <- E. apply S2.
Qed.
Print Assumptions C97_snapshots.
Theorem C97_unknown : forall sim, (forall u which dark, published u which -> sim <> sim_name u which dark) -> ill_allsnaps sim = Raise NameError.
Proof.
  intros sim H. unfold ill_allsnaps. destruct (smem sim illsims) eqn:E1.
  - apply smem_In in E1. destruct (proj1 (sims_published sim)) as (u & w & d & P & ->); [apply in_or_app; auto|]. destruct (H u w d P eq_refl).
  - destruct (smem sim tngsims) eqn:E2; [|reflexivity]. apply smem_In in E2. destruct (proj1 (sims_published sim)) as (u & w & d & P & ->); [apply in_or_app; auto|]. destruct (H u w d P eq_refl).
Qed.
Print Assumptions C97_unknown.
Example C97_nonvacuous : published TNG "300-1" /\ sim_name TNG "300-1" true = "TNG300-1-Dark" /\ ~ has_snapshot Illustris "1" false 53 /\
  has_snapshot Illustris "1" true 53 /\ forall u which dark, published u which -> "TNG50-1" <> sim_name u which dark.
Proof.
  split; [cbn; tauto|]. split; [reflexivity|]. split; [intros [_ H]; specialize (H eq_refl eq_refl); lia|]. split; [split; [lia|discriminate]|].
  intros u which dark H E. assert (I : In "TNG50-1" (illsims ++ tngsims)) by (apply sims_published; eauto). apply smem_In in I. discriminate I.
Qed.

(** * C98: formatted catalogues *)
(** A fresh format stores for every snapshot all its halos with exactly the columns listed in [outs], each with its values
    times the conversion of its unit. Missing: the star formation rates within twice the half mass radius, and the
    accretion rates, see below *)
Theorem C98_stored_partial : forall u which dark d path snaps attrs number ms h files a asort w,
  published u which -> good_path path -> NoDup snaps -> fresh a w -> argsorts asort ->
  (forall s, In s snaps -> (0 <= s < 1000)%Z /\ snapshot_on_disk d u path (Z.to_nat s) (files s) /\ good_files u dark (a_basic a) (files s)) ->
  exists w', format asort (ill_catalog (sim_name u which dark) d path snaps attrs number ms h) a w = (w', Ok tt) /\
    forall s, In s snaps -> exists g, group_of w' s = Some g /\
      stored g (halos (files s)) (outs (978 / 1000) "SubhaloSFRinHalfRad" u dark (a_basic a) (files s)).
Proof. intros u which dark d path snaps attrs number ms h files a asort w Hu Hp ND HF HA Hf. eapply ill_format; eauto. Qed.
Print Assumptions C98_stored_partial.
(** "sfr_2hr" holds the rates within one half mass radius, and they are nowhere under their own name *)
Theorem C98_sfr_refuted : forall u which d path snaps attrs number ms h files a asort w,
  published u which -> good_path path -> NoDup snaps -> fresh a w -> argsorts asort -> a_basic a = false ->
  (forall s, In s snaps -> (0 <= s < 1000)%Z /\ snapshot_on_disk d u path (Z.to_nat s) (files s) /\ good_files u false (a_basic a) (files s)) ->
  exists w', format asort (ill_catalog (sim_name u which false) d path snaps attrs number ms h) a w = (w', Ok tt) /\
    forall s, In s snaps -> exists g c p, group_of w' s = Some g /\ ~ In "sfr_hr" (map d_name (g_data g)) /\
      In c (g_data g) /\ d_name c = "sfr_2hr" /\ Permutation p (seq 0 (halos (files s))) /\
      forall r i, nth_error p r = Some i -> entry (d_vals c) 0 r = Some (cell (files s) "SubhaloSFRinHalfRad" 0 i).
Proof.
  intros u which d path snaps attrs number ms h files a asort w Hu Hp ND HF HA Ha Hf.
  destruct (C98_stored_partial u which false d path snaps attrs number ms h files a asort w Hu Hp ND HF HA Hf) as (w' & E & H).
  exists w'. split; [exact E|]. intros s Hs. destruct (H s Hs) as (g & Eg & p & HP & HN & HO & _). rewrite Ha in *.
  destruct (HO (mkOut "sfr_2hr" (times 1 (cell (files s) "SubhaloSFRinHalfRad" 0)) "Msun/yr" 0)) as (c & C1 & C2 & _ & _ & _ & C3).
  { unfold outs, outs_matter. apply in_or_app. right. apply in_or_app. right. do 12 (apply in_or_app; right). apply in_or_app. left. left. reflexivity. }
  exists g, c, p. split; [exact Eg|]. split.
  - rewrite HN. intros HI. apply smem_In in HI. destruct u; vm_compute in HI; discriminate HI.
  - split; [exact C1|]. split; [exact C2|]. split; [exact HP|]. intros r i Hr. rewrite (C3 r i Hr). f_equal. unfold times. cbn. ring.
Qed.
Print Assumptions C98_sfr_refuted.
(** no accretion rate but zero is stored in the unit of its label; the raw unit is 10^10 Msun/h for every 0.978 Gyr/h *)
Theorem C98_bhmdot_refuted : forall u which d path snaps attrs number ms h files a asort w,
  published u which -> good_path path -> NoDup snaps -> fresh a w -> argsorts asort -> a_basic a = false ->
  (forall s, In s snaps -> (0 <= s < 1000)%Z /\ snapshot_on_disk d u path (Z.to_nat s) (files s) /\ good_files u false (a_basic a) (files s)) ->
  exists w', format asort (ill_catalog (sim_name u which false) d path snaps attrs number ms h) a w = (w', Ok tt) /\
    forall s, In s snaps -> exists g c p, group_of w' s = Some g /\ In c (g_data g) /\ d_name c = "bhmdot" /\ d_units c = Some "Msun/h / (Gyr/h)" /\
      Permutation p (seq 0 (halos (files s))) /\
      forall r i, nth_error p r = Some i -> let raw := cell (files s) "SubhaloBHMdot" 0 i in
        entry (d_vals c) 0 r = Some (raw * (978 / 1000))%R /\ (raw <> 0%R -> entry (d_vals c) 0 r <> Some (raw * (mass10 / (978 / 1000)))%R).
Proof.
  intros u which d path snaps attrs number ms h files a asort w Hu Hp ND HF HA Ha Hf.
  destruct (C98_stored_partial u which false d path snaps attrs number ms h files a asort w Hu Hp ND HF HA Hf) as (w' & E & H).
  exists w'. split; [exact E|]. intros s Hs. destruct (H s Hs) as (g & Eg & p & HP & HN & HO & _). rewrite Ha in *.
  destruct (HO (mkOut "bhmdot" (times (978 / 1000) (cell (files s) "SubhaloBHMdot" 0)) "Msun/h / (Gyr/h)" 0)) as (c & C1 & C2 & C3 & _ & _ & C4).
  { unfold outs, outs_matter. apply in_or_app. right. apply in_or_app. right. apply in_or_app. right. apply in_or_app. left. left. reflexivity. }
  exists g, c, p. split; [exact Eg|]. split; [exact C1|]. split; [exact C2|]. split; [exact C3|]. split; [exact HP|]. intros r i Hr raw. rewrite (C4 r i Hr).
  split; [reflexivity|]. intros N Q. injection Q as Q. unfold times in Q. cbn [o_val] in Q. fold raw in Q. apply Rmult_eq_reg_l in Q; [|exact N]. unfold mass10 in Q. lra.
Qed.
Print Assumptions C98_bhmdot_refuted.
(** one file with one halo *)
Definition a_file (u : suite) (dark : bool) (x : R) : chunk :=
  mkChunk 1 1 (map (fun kw => (fst kw, if snd kw =? 1 then Col1 [x] else Col2 [repeat x (snd kw)])) (columns u dark false)).
Example C98_nonvacuous : forall u, good_files u false false [a_file u false 2] /\ cell [a_file u false 2] "SubhaloBHMdot" 0 0 = 2%R /\
  snapshot_on_disk (fun p => if String.eqb p (snapshot_file u "/d" 7 0) then Some (1, a_file u false 2) else None) u "/d" 7 [a_file u false 2] /\
  snapshot_file TNG "/d" 7 0 = "/d/raw/groups_007/fof_subhalo_tab_007.0.hdf5".
Proof.
  intros u. split; [|split; [|split; [|reflexivity]]].
  - exists (a_file u false 2), []. split; [reflexivity|]. split; [reflexivity|]. intros _ key w HI.
    assert (G : has_column (a_file u false 2) key w).
    { unfold has_column. destruct u; cbn in HI; repeat (destruct HI as [HI|HI]; [injection HI as <- <-; eexists; split; [reflexivity|]; repeat split; repeat constructor|]); destruct HI. }
    split; [exact G|]. intros f [<-|[]] _. exact G.
  - destruct u; reflexivity.
  - split.
    + intros [|j] f H; cbn [nth_error] in H; [|destruct j; discriminate H]. injection H as <-. rewrite String.eqb_refl. reflexivity.
    + intros -> j. destruct (String.eqb_spec (snapshot_file Illustris "/d" 7 j) (snapshot_file TNG "/d" 7 0)) as [E|_]; [|reflexivity]. discriminate E.
Qed.

(** * C99: one object *)
(** what is read for one object is its row of the whole catalogue, whichever file holds it *)
Theorem C99_row : forall files i, i < halos files -> Forall full files ->
  exists r, load_single (offsets files) files (-1) (Z.of_nat i) = Ok r /\
    forall key w, (forall f, In f files -> ch_here f <> 0 -> has_column f key w) -> dget r key = nth_error (all_rows files key) i.
Proof. intros files i Hi HF. rewrite <- starts_offsets. apply single_ok; auto. Qed.
Print Assumptions C99_row.
Theorem C99_refused_partial :
  (forall offs files halo sub, (halo < 0 /\ sub < 0 \/ 0 <= halo /\ 0 <= sub)%Z -> load_single offs files halo sub = Raise plain_exception) /\
  (forall l f i, halos (l ++ [f]) <= i -> full f -> ch_data f <> [] -> load_single (offsets (l ++ [f])) (l ++ [f]) (-1) (Z.of_nat i) = Raise IndexError).
Proof.
  split.
  - intros offs files halo sub H. unfold load_single. destruct (Z.ltb_spec halo 0), (Z.ltb_spec sub 0), (Z.leb_spec 0 halo), (Z.leb_spec 0 sub); try lia; reflexivity.
  - intros l f i Hi HF HN. rewrite <- starts_offsets. rewrite single_beyond by auto. destruct (ch_data f); [contradiction HN; reflexivity|reflexivity].
Qed.
Print Assumptions C99_refused_partial.
(** if the last file has no halos and no columns, every object beyond the catalogue is answered with nothing, without error *)
Theorem C99_beyond_refuted : forall l f i, ch_here f = 0 -> ch_data f = [] -> halos l <= i ->
  load_single (offsets (l ++ [f])) (l ++ [f]) (-1) (Z.of_nat i) = Ok [].
Proof.
  intros l f i H0 HD Hi. rewrite <- starts_offsets, single_beyond; [rewrite HD; reflexivity| |intros kc Hk; rewrite HD in Hk; destruct Hk].
  unfold halos in *. assert (E : FormatSpec.here (l ++ [f]) = FormatSpec.here l); [|lia].
  clear -H0. induction l as [|g r IH]; cbn; [lia|]. fold (FormatSpec.here r). fold (FormatSpec.here (r ++ [f])). lia.
Qed.
Print Assumptions C99_beyond_refuted.
Example C99_nonvacuous :
  let l := [mkChunk 3 2 [("SubhaloMass", Col1 [5; 4])]; mkChunk 3 0 []; mkChunk 3 1 [("SubhaloMass", Col1 [3])]]%R in
  Forall full l /\ offsets l = [0; 2; 2]%Z /\ load_single (offsets l) l (-1) 2 = Ok [("SubhaloMass", [3])]%R /\
  (forall f, In f l -> ch_here f <> 0 -> has_column f "SubhaloMass" 1).
Proof.
  split; [repeat constructor; intros kc H; cbn in H; repeat destruct H as [<-|H]; try reflexivity; destruct H|]. split; [reflexivity|]. split; [reflexivity|].
  intros f H N. cbn in H. repeat (destruct H as [<-|H]; [first [contradiction N; reflexivity|eexists; split; [reflexivity|]; repeat split; repeat constructor]|]). destruct H.
Qed.

(** * C100: downloads *)
(** With metadata and without interruptions a download that returns has brought every announced file of every snapshot
    it did not skip. Missing: the snapshots it skips, and downloads that are interrupted or have no metadata *)
Theorem C100_complete_partial : forall u which dark path n redo snaps ats st st' rest, published u which -> good_path path -> Forall (fun s => s < 1000) snaps ->
  uninterrupted ats -> ill_download path (raw_fname (sim_name u which dark)) (Some n) redo snaps ats st = Some (st', rest) ->
  forall s j, In s snaps -> redo = true \/ dget st (snapshot_file u path s 0) = None -> j < n -> dget st' (snapshot_file u path s j) <> None.
Proof.
  intros u which dark path n redo snaps ats st st' rest Hu Hp HS HA H s j Hs HR Hj. rewrite fname_stem in H by auto. rewrite Forall_forall in HS. rewrite <- chunk_file_eq by auto.
  assert (G : dmem st' (chunk_file path (file_stem u) s j) = true); [|apply dmem_some in G as [v ->]; discriminate].
  eapply fetch_all_complete; [exact H|exact HA| |exact Hj]. unfold ill_wanted. destruct redo; [exact Hs|]. apply filter_In. split; [exact Hs|].
  destruct HR as [HR|HR]; [discriminate HR|]. rewrite chunk_file_eq by auto. apply dmem_none in HR. rewrite HR. reflexivity.
Qed.
Print Assumptions C100_complete_partial.
(** no file that exists is ever changed, with or without redownload *)
Theorem C100_keeps : forall path fname nf redo snaps ats st st' rest p bs,
  ill_download path fname nf redo snaps ats st = Some (st', rest) -> dget st p = Some bs -> dget st' p = Some bs.
Proof. intros path fname nf redo snaps ats st st' rest p bs H G. eapply fetch_all_keeps; eauto. Qed.
Print Assumptions C100_keeps.
(** so redownload=True does not replace a file that was cut off *)
Theorem C100_redownload_refuted : forall u which dark path nf snaps ats st st' rest s j whole part, published u which ->
  part <> whole -> ill_download path (raw_fname (sim_name u which dark)) nf true snaps ats st = Some (st', rest) ->
  dget st (snapshot_file u path s j) = Some part -> dget st' (snapshot_file u path s j) <> Some (whole : list nat).
Proof. intros u which dark path nf snaps ats st st' rest s j whole part Hu N H G. rewrite (C100_keeps _ _ _ _ _ _ _ _ _ _ _ H G). congruence. Qed.
Print Assumptions C100_redownload_refuted.
(** and a snapshot whose first file exists is never completed *)
Theorem C100_resume_refuted : forall u which dark path nf snaps ats st st' rest s j, published u which -> good_path path -> Forall (fun s => s < 1000) snaps -> In s snaps ->
  dget st (snapshot_file u path s 0) <> None -> dget st (snapshot_file u path s j) = None ->
  ill_download path (raw_fname (sim_name u which dark)) nf false snaps ats st = Some (st', rest) -> dget st' (snapshot_file u path s j) = None.
Proof.
  intros u which dark path nf snaps ats st st' rest s j Hu Hp HS Hs H0 Hj H. rewrite fname_stem in H by auto. apply dmem_none. pose proof HS as HS2. rewrite Forall_forall in HS2.
  eapply incomplete_stays; eauto; [|apply dmem_none; exact Hj]. apply dmem_some. destruct (dget st (snapshot_file u path s 0)); [eauto|contradiction H0; reflexivity].
Qed.
Print Assumptions C100_resume_refuted.
(** an interruption is swallowed, and without metadata nothing is checked: download returns although nothing came *)
Theorem C100_silent_refuted : forall path fname nf b redo snaps st, nf = None \/ b = true ->
  ill_download path fname nf redo snaps (repeat (mkAtt [] b) (length snaps)) st <> None /\
  forall st' rest, ill_download path fname nf redo snaps (repeat (mkAtt [] b) (length snaps)) st = Some (st', rest) -> st' = st.
Proof.
  intros path fname nf b redo snaps st H. unfold ill_download. assert (L : length (ill_wanted path fname redo snaps st) <= length snaps).
  { unfold ill_wanted. destruct redo; [lia|apply filter_length_le]. }
  set (l := ill_wanted path fname redo snaps st) in *. replace (length snaps) with (length l + (length snaps - length l)) by lia. rewrite repeat_app, idle_runs by exact H.
  split; [discriminate|]. intros st' rest E. injection E as <- _. reflexivity.
Qed.
Print Assumptions C100_silent_refuted.
(** with metadata, a file that never comes keeps the download going for ever *)
Theorem C100_waits : forall u which dark path n redo snaps st s j, published u which -> good_path path -> Forall (fun s => s < 1000) snaps -> In s snaps ->
  redo = true \/ dget st (snapshot_file u path s 0) = None -> j < n -> dget st (snapshot_file u path s j) = None ->
  forall ats, uninterrupted ats -> Forall (fun a => ~ brings a (file_stem u ++ digits3 s ++ "." ++ dec j ++ ".hdf5")) ats ->
  ill_download path (raw_fname (sim_name u which dark)) (Some n) redo snaps ats st = None.
Proof.
  intros u which dark path n redo snaps st s j Hu Hp HS Hs HR Hj G ats HA HB. rewrite fname_stem by auto. pose proof HS as HS2. rewrite Forall_forall in HS2. unfold ill_download.
  apply (never_ends u path n j s); auto.
  - rewrite Forall_forall. intros a Ha. unfold uninterrupted in HA. rewrite Forall_forall in HA, HB. auto.
  - unfold ill_wanted. destruct redo; [exact Hs|]. apply filter_In. split; [exact Hs|]. destruct HR as [HR|HR]; [discriminate HR|]. rewrite chunk_file_eq by auto. apply dmem_none in HR. rewrite HR. reflexivity.
  - unfold ill_wanted. destruct redo; [exact HS|]. rewrite Forall_forall. intros x Hx. apply filter_In in Hx. apply HS2. tauto.
  - apply dmem_none. exact G.
Qed.
Print Assumptions C100_waits.
Example C100_nonvacuous :
  let a1 := mkAtt [("groups_007.0.hdf5", [1])] false in let a2 := mkAtt [("groups_007.0.hdf5", [1]); ("groups_007.1.hdf5", [2])] false in
  raw_fname "Illustris-1" = "groups_" /\ uninterrupted [a1; a2] /\
  ill_download "/d" "groups_" (Some 2) false [7] [a1; a2] [] =
    Some ([(snapshot_file Illustris "/d" 7 0, [1]); (snapshot_file Illustris "/d" 7 1, [2])], []) /\
  ill_download "/d" "groups_" (Some 2) false [7] [a2] [(snapshot_file Illustris "/d" 7 0, [1])] = Some ([(snapshot_file Illustris "/d" 7 0, [1])], [a2]) /\
  ill_download "/d" "groups_" (Some 2) true [7] [a2] [(snapshot_file Illustris "/d" 7 0, [])] =
    Some ([(snapshot_file Illustris "/d" 7 0, []); (snapshot_file Illustris "/d" 7 1, [2])], []).
Proof. split; [reflexivity|]. split; [repeat constructor|]. repeat split. Qed.

(** * C101: removal *)
(** removing the raw files of a snapshot removes its directory, and nothing of the other snapshots *)
Theorem C101_snapshot : forall cwd path s paths, good_path path -> plain path -> starts_slash path = true -> s < 1000 ->
  exists left, clean_files cwd path (ill_rawfiles s) paths = Ok left /\ removed [snapshot_dir path s] paths left /\
    forall s' q, s' < 1000 -> s' <> s -> inside (snapshot_dir path s') q -> In q paths -> In q left.
Proof.
  intros cwd path s paths Hp HP HS Hs. destruct (ill_clean cwd path s paths Hp HP HS Hs) as (left & E & R). exists left. split; [exact E|]. split; [exact R|].
  intros s' q Hs' N Hq HI. destruct R as (keep & -> & HK). apply filter_In. split; [exact HI|]. apply HK. intros (g & [<-|[]] & Hg).
  eapply other_dirs; [| | |exact Hq|exact Hg]; auto.
Qed.
Print Assumptions C101_snapshot.
Example C101_nonvacuous : good_path "/d" /\ plain "/d" /\
  clean_files "/" "/d" (ill_rawfiles 7) ["/d/raw/groups_007"; "/d/raw/groups_007/groups_007.0.hdf5"; "/d/raw/groups_070/groups_070.0.hdf5"] = Ok ["/d/raw/groups_070/groups_070.0.hdf5"].
Proof. split; [exists "/", "d"%char; split; [reflexivity|discriminate]|]. split; [repeat constructor|reflexivity]. Qed.
