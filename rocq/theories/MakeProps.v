(** Theorems about the construction of light cone makers: the directory they make (C123) and the size of shells (C124). *)
From Coq Require Import Reals Lra.
From Verif Require Import Dict Util RealUtil SnapModel PathsModel PathsSpec Paths PathsProps LcModel LcSpec LcProps LosModel MakeModel Make.
Open Scope string_scope.
Open Scope list_scope.

(** * C123: making a light cone maker *)
(** Whatever the arguments, answers and outcome, every directory stays, and every file keeps its content, except for the
    registry of light cones, which gets one line when the simulation had no entry in it. *)
Theorem C123_kept : forall E sim name ow answers fs fs' r, maker_dir E sim name ow answers fs = (fs', r) ->
  (forall p, fs_dir fs p = true -> fs_dir fs' p = true) /\
  (forall p c, fs_file fs p = Some c -> fs_file fs' p = Some c \/
     exists s root, snd (new_session E fs) = Ok s /\ dmem (s_lcs s) sim = false /\ s_root s = Some root /\ p = join root "simim_resources/.paths/lcpaths.txt" /\
       fs_file fs' p = Some (sapp c (sapp sim (sapp " " (sapp (e_abs E (join (join root "simim_resources/lightcones") sim)) (String nl EmptyString)))))).
Proof. exact made_kept. Qed.
Print Assumptions C123_kept.
(** A name in use is only used again with consent, which touches nothing. *)
Theorem C123_occupied : forall E sim name ow answers fs s base,
  new_session E fs = (fs, Ok s) -> In sim accepted_sims -> dmem (s_sims s) sim = true -> dget (s_lcs s) sim = Some base -> exists_ fs (join base name) = true ->
  let consent := ow = OwTrue \/ (ow = OwCheck /\ exists pre post, answers = pre ++ "y" :: post /\ Forall unclear pre) in
  (consent -> maker_dir E sim name ow answers fs = (fs, Ok (join base name))) /\
  (~ consent -> exists e, maker_dir E sim name ow answers fs = (fs, Raise e)).
Proof.
  intros E sim name ow answers fs s base Es Ha Hs Hb Hx consent. rewrite (made_known _ _ _ _ _ _ _ _ Es Ha Hs Hb), Hx.
  pose proof (C46_overwrite ow answers) as W. change (lc_open_dir ow true answers = Ok tt <-> consent) in W. destruct (lc_open_dir ow true answers) as [[]|e]; split; intros H.
  - reflexivity.
  - exfalso. apply H, W. reflexivity.
  - apply W in H. discriminate.
  - eauto.
Qed.
Print Assumptions C123_occupied.
(** A new name gets its directory, and nothing else changes; nothing is asked. *)
Theorem C123_new : forall E sim name ow answers fs s base,
  new_session E fs = (fs, Ok s) -> In sim accepted_sims -> dmem (s_sims s) sim = true -> dget (s_lcs s) sim = Some base -> exists_ fs (join base name) = false ->
  parent_ok fs (join base name) = true -> ow <> OwOther ->
  exists fs', maker_dir E sim name ow answers fs = (fs', Ok (join base name)) /\ fs_file fs' = fs_file fs /\
    forall q, fs_dir fs' q = true <-> q = join base name \/ fs_dir fs q = true.
Proof.
  intros E sim name ow answers fs s base Es Ha Hs Hb Hx Hp Ho. eexists. split; [exact (made_new _ _ _ _ _ _ _ _ Es Ha Hs Hb Hx Hp Ho)|]. split; [reflexivity|].
  intros q. cbn [fs_dir]. rewrite Bool.orb_true_iff, String.eqb_eq. reflexivity.
Qed.
Print Assumptions C123_new.
(** The first light cone of a simulation without an entry gets the directory of the simulation, its own, and the line in the
    registry, and nothing else changes. *)
Theorem C123_first : forall E sim name ow answers fs s root c,
  new_session E fs = (fs, Ok s) -> In sim accepted_sims -> dmem (s_sims s) sim = true -> dmem (s_lcs s) sim = false -> s_root s = Some root ->
  let q := join (join root "simim_resources/lightcones") sim in let l := join root "simim_resources/.paths/lcpaths.txt" in let p := join q name in
  fs_file fs l = Some c -> fs_dir fs l = false -> parent_ok fs l = true -> exists_ fs q = false -> parent_ok fs q = true -> e_abs E q = q ->
  exists_ fs p = false -> p <> q -> dirname p = q -> ow <> OwOther ->
  exists fs', maker_dir E sim name ow answers fs = (fs', Ok p) /\
    fs_file fs' l = Some (sapp c (sapp sim (sapp " " (sapp q (String nl EmptyString))))) /\ (forall x, x <> l -> fs_file fs' x = fs_file fs x) /\
    forall x, fs_dir fs' x = true <-> x = p \/ x = q \/ fs_dir fs x = true.
Proof.
  intros E sim name ow answers fs s root c Es Ha Hs Hm Hr q l p Hc Hd Hl Hq Pq Aq Hp Np Dp Ho. eexists.
  split; [exact (made_first _ _ _ _ _ _ _ _ _ Es Ha Hs Hm Hr Hc Hd Hl Hq Pq Aq Hp Np Dp Ho)|]. cbn [fs_file fs_dir]. split; [fold l; rewrite String.eqb_refl; reflexivity|]. split.
  - intros x Nx. fold l. apply String.eqb_neq in Nx. rewrite Nx. reflexivity.
  - intros x. rewrite !Bool.orb_true_iff, !String.eqb_eq. reflexivity.
Qed.
Print Assumptions C123_first.
(** An unknown simulation, or one that is not installed, or an overwrite argument other than the three documented ones, raises
    and changes no file. The known ones are these. *)
Theorem C123_unknown : forall E sim name ow answers fs,
  (In sim accepted_sims -> forall s, snd (new_session E fs) = Ok s -> dmem (s_sims s) sim = false) \/ ow = OwOther ->
  exists fs' e, maker_dir E sim name ow answers fs = (fs', Raise e) /\ fs_file fs' = fs_file fs.
Proof.
  intros E sim name ow answers fs H. unfold maker_dir. destruct (smem sim accepted_sims) eqn:Ea; cbn [negb]; [|eauto]. apply smem_In in Ea.
  destruct (new_session E fs) as [fs1 [s|e]] eqn:Es; pose proof (proj2 (session_kept _ _ _ _ Es)) as F; [|eauto].
  destruct H as [H| ->]; [rewrite (H Ea s eq_refl); cbn [negb]; eauto|]. destruct (negb _); eauto.
Qed.
Print Assumptions C123_unknown.
Theorem C123_names : forall sim, In sim accepted_sims <->
  (exists run level dark, In run ["Illustris"; "TNG300"; "TNG100"] /\ In level ["-1"; "-2"; "-3"] /\ In dark [""; "-Dark"] /\ sim = sapp run (sapp level dark)) \/
  In sim ["UniverseMachine-BolshoiPlanck"; "UniverseMachine-SMDPL"; "UniverseMachine-MDPL2"; "UniverseMachine-uchuu"; "_testbox"].
Proof.
  assert (G : forall sim, (exists run level dark, In run ["Illustris"; "TNG300"; "TNG100"] /\ In level ["-1"; "-2"; "-3"] /\ In dark [""; "-Dark"] /\ sim = sapp run (sapp level dark)) <->
    In sim (flat_map (fun r => flat_map (fun l => map (fun d => sapp r (sapp l d)) [""; "-Dark"]) ["-1"; "-2"; "-3"]) ["Illustris"; "TNG300"; "TNG100"])).
  { intros sim. split.
    - intros (r & l & d & Hr & Hl & Hd & ->). apply in_flat_map. exists r. split; [exact Hr|]. apply in_flat_map. exists l. split; [exact Hl|]. apply (in_map (fun d => sapp r (sapp l d))), Hd.
    - intros H. apply in_flat_map in H as (r & Hr & H). apply in_flat_map in H as (l & Hl & H). apply in_map_iff in H as (d & <- & Hd). exists r, l, d. auto. }
  intros sim. rewrite G. cbn. tauto.
Qed.
Print Assumptions C123_names.
(** What is missing: a constructor that fails leaves nothing behind. The directory is made before the geometry is checked:
    after a refused geometry the name is taken, and the corrected call without overwriting raises too. *)
Theorem C123_left_refuted : forall X E sim name ow answers (e : exn) fs s base,
  new_session E fs = (fs, Ok s) -> In sim accepted_sims -> dmem (s_sims s) sim = true -> dget (s_lcs s) sim = Some base -> exists_ fs (join base name) = false ->
  parent_ok fs (join base name) = true -> ow <> OwOther ->
  exists fs', maker_new E sim name ow answers (Raise (A:=X) e) fs = (fs', Raise e) /\ exists_ fs' (join base name) = true /\
    forall answers' (geo : exc X) fs2 r, maker_new E sim name OwFalse answers' geo fs' = (fs2, r) -> exists e', r = Raise e'.
Proof. intros X. exact (@left_behind X). Qed.
Print Assumptions C123_left_refuted.
(** a root in /w with one simulation, and light cones of it in /w/lc *)
Definition lcfs : fsys := exfs [("/lib/res/rootpath.txt", "/w"); ("/w/simim_resources/.paths/simpaths.txt", sapp "TNG100-1 /w/sim" (String nl EmptyString));
    ("/w/simim_resources/.paths/lcpaths.txt", sapp "TNG100-1 /w/lc" (String nl EmptyString))]
  ["/"; "/w"; "/w/lc"; "/w/lc/old"; "/lib"; "/lib/res"; "/w/simim_resources"; "/w/simim_resources/.paths"; "/w/simim_resources/lightcones"].
Example C123_nonvacuous : exists s, new_session exE lcfs = (lcfs, Ok s) /\ In "TNG100-1" accepted_sims /\ dmem (s_sims s) "TNG100-1" = true /\ dget (s_lcs s) "TNG100-1" = Some "/w/lc" /\
  exists_ lcfs (join "/w/lc" "old") = true /\ exists_ lcfs (join "/w/lc" "new") = false /\ parent_ok lcfs (join "/w/lc" "new") = true.
Proof. eexists. split; [vm_compute; reflexivity|]. split; [apply smem_In; reflexivity|]. repeat split. Qed.

(** the same without an entry for the simulation *)
Definition nolcfs : fsys := exfs [("/lib/res/rootpath.txt", "/w"); ("/w/simim_resources/.paths/simpaths.txt", sapp "TNG100-1 /w/sim" (String nl EmptyString));
    ("/w/simim_resources/.paths/lcpaths.txt", sapp "other /w/lc" (String nl EmptyString))]
  ["/"; "/w"; "/w/lc"; "/lib"; "/lib/res"; "/w/simim_resources"; "/w/simim_resources/.paths"; "/w/simim_resources/lightcones"].
Example C123_first_nonvacuous : exists s, new_session exE nolcfs = (nolcfs, Ok s) /\ dmem (s_sims s) "TNG100-1" = true /\ dmem (s_lcs s) "TNG100-1" = false /\ s_root s = Some "/w" /\
  let q := join (join "/w" "simim_resources/lightcones") "TNG100-1" in let l := join "/w" "simim_resources/.paths/lcpaths.txt" in let p := join q "new" in
  fs_file nolcfs l <> None /\ fs_dir nolcfs l = false /\ parent_ok nolcfs l = true /\ exists_ nolcfs q = false /\ parent_ok nolcfs q = true /\ e_abs exE q = q /\
  exists_ nolcfs p = false /\ p <> q /\ dirname p = q.
Proof. eexists. split; [vm_compute; reflexivity|]. repeat split; discriminate. Qed.

Open Scope R_scope.
(** * C124: the size of shells *)
Definition named (md : smode) : string := match md with Sphere => "sphere" | Hemi => "hemisphere" | Quarter => "quarter" | Eighth => "eighth" end.
(** A SphereMaker is accepted exactly for the four modes, redshifts in order and in the range of the interpolated distances, and a
    far end within the room of a box of edge box/h; its distances and snapshots are those of the redshifts asked for. *)
Theorem C124_accepts : forall mode zmin zmax mass ms D dist h box copies md c,
  sphere_init mode zmin zmax mass ms D dist h box copies = Ok (md, c) <->
  exists zm d, mode = named md /\
    (zmax = Some zm \/ zmax = None /\ (exists m, In m ms /\ m_zmax m = zm) /\ forall m, In m ms -> m_zmax m <= zm) /\
    zmin <= zm /\ D zm = Ok d /\ d <= room md (box / h) /\
    c = mkLC Circle 0 1 mass box copies (dist zmin) (dist zm) (snapshots_use zmin zm ms).
Proof. exact sphere_init_spec. Qed.
Print Assumptions C124_accepts.
(** Every shell that fits into the box is accepted. Missing: only those. *)
Theorem C124_fits_partial : forall md zmin zm mass ms D dist h box copies d, 0 < h <= 1 -> 0 < box -> zmin <= zm -> D zm = Ok d -> d <= room md box ->
  exists c, sphere_init (named md) zmin (Some zm) mass ms D dist h box copies = Ok (md, c).
Proof.
  intros md zmin zm mass ms D dist h box copies d Hh Hb Hz Hd Hr. eexists. apply C124_accepts. exists zm, d. repeat split; auto.
  assert (box <= box / h). { apply Rmult_le_reg_r with h; [lra|]. unfold Rdiv. rewrite Rmult_assoc, Rinv_l, Rmult_1_r by lra. nra. }
  destruct md; cbn [room] in *; lra.
Qed.
Print Assumptions C124_fits_partial.
(** The distances carry little h, the edge they are compared with does not: for every h below one, shells up to 1/h times too
    large are accepted in each mode. *)
Theorem C124_size_refuted : forall md zmin zm mass ms D dist h box copies d, 0 < h < 1 -> 0 < box -> zmin <= zm -> d = room md box / h -> D zm = Ok d ->
  room md box < d /\ exists c, sphere_init (named md) zmin (Some zm) mass ms D dist h box copies = Ok (md, c).
Proof.
  intros md zmin zm mass ms D dist h box copies d Hh Hb Hz -> HD.
  assert (P : 0 < room md box) by (destruct md; cbn [room]; lra). split.
  - apply Rmult_lt_reg_r with h; [lra|]. unfold Rdiv. rewrite Rmult_assoc, Rinv_l, Rmult_1_r by lra. nra.
  - eexists. apply C124_accepts. exists zm, (room md box / h). repeat split; auto. destruct md; cbn [room]; apply Req_le; field; lra.
Qed.
Print Assumptions C124_size_refuted.
Example C124_nonvacuous : exists c, sphere_init "hemisphere" 0 (Some 1) 0 [] (fun _ => Ok 70) (fun z => 70 * z) (7 / 10) 100 1 = Ok (Hemi, c) /\ room Hemi 100 < 70.
Proof. eexists. split; [apply (proj2 (C124_accepts _ _ _ _ _ _ _ _ _ _ _ _)); exists 1, 70; repeat split; auto; cbn [room]; lra|cbn [room]; lra]. Qed.
