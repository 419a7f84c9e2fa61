(** Formatted catalogues: C35, C36, C39, C57. *)
From Coq Require Import Reals Permutation Sorted Lra.
From Verif Require Import Dict Util RealUtil SnapModel SnapSpec Snap FormatModel FormatSpec Format.
Open Scope string_scope.
Open Scope list_scope.
Open Scope nat_scope.

(** * C35: formatting keeps halos together *)
(** A call that can run does run. In the group of every snapshot it formats, all datasets
    hold the raw values, converted, in one common order of the halos, heaviest first,
    with their units and h dependence, and no other datasets are there. *)
Theorem C35_format : forall asort ct a w of, argsorts asort -> runnable ct a w of ->
  exists w', format asort ct a w = (w', Ok tt) /\
    forall s sub n, In s (todo ct a w) -> ct_load ct s (dkeys (dmerge (ct_basic ct) of)) = Ok (sub, n) ->
      exists g, group_of w' s = Some g /\ holds ct (ct_basic ct) of sub n g.
Proof. exact c35. Qed.
Print Assumptions C35_format.

Example C35_nonvacuous : argsorts argsort0 /\ runnable (demo [4; 7]%Z) demo_args (mkW None []) demo_others /\
  todo (demo [4; 7]%Z) demo_args (mkW None []) = [4; 7]%Z /\
  map (fun x => conv (demo []) "SubhaloMass" x) [1; 6; 3]%R = [1 * Rpower 10 8; 6 * Rpower 10 8; 3 * Rpower 10 8]%R /\
  out_names (ct_basic (demo [])) demo_others = ["mass"; "pos_x"; "pos_y"; "vmax"; "mag_u"; "mag_b"].
Proof.
  split; [apply argsort0_ok|]. split; [apply demo_runnable; repeat constructor; cbn; intuition discriminate|]. repeat split.
Qed.

(** * C36: mass cuts *)
(** the stored index of every cut is the number of halos at or above it, and those are
    the first rows *)
Theorem C36_cuts : forall asort ct a w of, argsorts asort -> runnable ct a w of ->
  exists w', format asort ct a w = (w', Ok tt) /\
    forall s, In s (todo ct a w) -> exists g, group_of w' s = Some g /\ cuts_stored g.
Proof. exact c36_cuts. Qed.
Print Assumptions C36_cuts.

(** In the units of the file, get_mass_index bounds exactly the halos at or above the
    largest cut that does not exceed the mass, so every halo at or above the mass is
    included. Partial: masses between 10^6 and 10^20 given in units with h; the other
    cases are refuted below. *)
Theorem C36_index_partial : forall asort ct a w of s, argsorts asort -> runnable ct a w of -> own_rows ct -> In s (todo ct a w) ->
  let w' := fst (format asort ct a w) in
  exists f g, w_file w' = Some f /\ zget (f_groups f) s = Some g /\
    forall h m, (Rpower 10 6 <= m < Rpower 10 20)%R ->
      exists c k, get_mass_index (table w') f h m s true = Ok k /\
        In c cut_masses /\ (c <= m)%R /\ (forall c', In c' cut_masses -> (c' <= m)%R -> (c' <= c)%R) /\
        forall r x, nth_error (masses g) r = Some x -> (r < k <-> (c <= x)%R) /\ ((m <= x)%R -> r < k).
Proof.
  intros asort ct a w of s HA HR HO Hs w'. destruct (format_row asort ct a w of s HA HR HO Hs) as (f & g & E1 & E2 & E3 & E4).
  exists f, g. split; [exact E1|]. split; [exact E2|]. intros h m Hm.
  destruct (c36_index (table w') f h m s g true E3 E2 E4 Hm) as (c & k & K1 & K2 & K3 & K4 & K5). exists c, k.
  repeat (split; [assumption|]). intros r x Hx. pose proof (cut_rows _ _ _ _ _ K5 Hx) as Q. split; [exact Q|]. intros Q2. apply Q. lra.
Qed.
Print Assumptions C36_index_partial.

(** below 10^6 the halos between the mass and 10^6 are left out *)
Theorem C36_range_refuted : forall asort ct a w of s, argsorts asort -> runnable ct a w of -> own_rows ct -> In s (todo ct a w) ->
  let w' := fst (format asort ct a w) in
  exists f g, w_file w' = Some f /\ zget (f_groups f) s = Some g /\
    forall h m r x, nth_error (masses g) r = Some x -> (m <= x < Rpower 10 6)%R ->
      exists k, get_mass_index (table w') f h m s true = Ok k /\ ~ r < k.
Proof.
  intros asort ct a w of s HA HR HO Hs w'. destruct (format_row asort ct a w of s HA HR HO Hs) as (f & g & E1 & E2 & E3 & E4).
  exists f, g. split; [exact E1|]. split; [exact E2|]. intros h m r x Hx Hm.
  destruct (c36_low (table w') f h m s g true E3 E2 E4) as [K _]. destruct K as (k & K1 & K2); [lra|]. exists k. split; [exact K1|].
  rewrite (cut_rows _ _ _ _ _ K2 Hx). lra.
Qed.
Print Assumptions C36_range_refuted.

(** For a mass without h, the default, the code divides by h where the stored masses
    call for a multiplication. A halo of stored mass x weighs x/h. Whenever a cut lies
    above x and not above m/h, the halo is left out although it weighs at least m. *)
Theorem C36_units_refuted : forall asort ct a w of s, argsorts asort -> runnable ct a w of -> own_rows ct -> In s (todo ct a w) ->
  let w' := fst (format asort ct a w) in
  exists f g, w_file w' = Some f /\ zget (f_groups f) s = Some g /\
    forall h m r x c, nth_error (masses g) r = Some x -> (m <= x / h)%R ->
      In c cut_masses -> (x < c <= m / h)%R -> (m / h < Rpower 10 20)%R ->
      exists k, get_mass_index (table w') f h m s false = Ok k /\ ~ r < k.
Proof.
  intros asort ct a w of s HA HR HO Hs w'. destruct (format_row asort ct a w of s HA HR HO Hs) as (f & g & E1 & E2 & E3 & E4).
  exists f, g. split; [exact E1|]. split; [exact E2|]. intros h m r x c Hx Hm Hc Hcx H20.
  assert (H6 : (Rpower 10 6 <= c)%R).
  { destruct (In_nth_error _ _ Hc) as [i Hi]. assert (i < 141) by (rewrite <- cuts_length; apply nth_error_Some; congruence).
    destruct (Nat.eq_dec i 140) as [->|]; [rewrite cuts_last in Hi; injection Hi as <-; lra|]. left.
    apply (SS_nth _ _ cuts_descending i 140 c (Rpower 10 6)); [lia|exact Hi|exact cuts_last]. }
  destruct (c36_index (table w') f h m s g false E3 E2 E4) as (c1 & k & K1 & K2 & K3 & K4 & K5); [lra|]. exists k. split; [exact K1|].
  rewrite (cut_rows _ _ _ _ _ K5 Hx). specialize (K4 c Hc (proj2 Hcx)). lra.
Qed.
Print Assumptions C36_units_refuted.

(** a halo of 6 10^8 Msun/h weighs 12 10^8 Msun for h = 1/2; asking for the halos above
    10^9 Msun leaves it out *)
Example C36_nonvacuous : argsorts argsort0 /\ runnable (demo [4; 7]%Z) demo_args (mkW None []) demo_others /\
  own_rows (demo [4; 7]%Z) /\ In 7%Z (todo (demo [4; 7]%Z) demo_args (mkW None [])) /\
  (let x := 6 * Rpower 10 8 in let m := Rpower 10 9 in let h := 1 / 2 in
   m <= x / h /\ In m cut_masses /\ x < m <= m / h /\ m / h < Rpower 10 20 /\ Rpower 10 6 <= m < Rpower 10 20)%R.
Proof.
  split; [apply argsort0_ok|]. split; [apply demo_runnable; repeat constructor; cbn; intuition discriminate|].
  split; [apply demo_own; repeat constructor|]. split; [cbn; auto|]. cbv zeta.
  assert (E : (Rpower 10 9 = 10 * Rpower 10 8)%R).
  { replace 9%R with (1 + 8)%R by lra. rewrite Rpower_plus, Rpower_1 by lra. reflexivity. }
  assert (P : (0 < Rpower 10 8)%R) by (unfold Rpower; apply exp_pos).
  assert (L : forall a b, (a < b)%R -> (Rpower 10 a < Rpower 10 b)%R) by (intros; apply Rpower_lt; lra).
  assert (E2 : (Rpower 10 10 = 10 * Rpower 10 9)%R).
  { replace 10%R with (1 + 9)%R at 2 by lra. rewrite Rpower_plus, Rpower_1 by lra. reflexivity. }
  pose proof (L 10%R 20%R ltac:(lra)). pose proof (L 9%R 20%R ltac:(lra)). pose proof (L 6%R 9%R ltac:(lra)).
  split; [lra|]. split; [|split; [lra|split; lra]].
  apply in_map_iff. exists 110. split; [|apply in_seq; lia]. f_equal. rewrite INR_IZR_INZ. cbn. lra.
Qed.

(** * C39: incremental formatting *)
(** Any list of completed calls. Every snapshot has the row and the data of the last call
    that (re)made it, and the table is sorted by snapshot, one row each, with no row for
    a snapshot without data. Partial: the rest of the file's metadata and the joint
    consistency of rows from different instances are refuted below. *)
Theorem C39_history_partial : forall asort cs gone, argsorts asort -> good_history asort cs (mkW None gone) ->
  let w := run asort cs (mkW None gone) in
  StronglySorted (fun a b => (m_index a < m_index b)%Z) (table w) /\
  forall s, match zget (spec_run cs) s with
            | None => group_of w s = None /\ ~ In s (map m_index (table w))
            | Some ct => (exists m, In m (table w) /\ In m (ct_meta ct) /\ m_index m = s) /\
                exists g of sub n, group_of w s = Some g /\
                  ct_load ct s (dkeys (dmerge (ct_basic ct) of)) = Ok (sub, n) /\ holds ct (ct_basic ct) of sub n g /\ cuts_stored g
            end.
Proof. intros asort cs gone HA HG. exact (c39_history asort HA cs [] (mkW None gone) (c39_start gone) HG). Qed.
Print Assumptions C39_history_partial.

(** A crash at any point, or an exception, leaves the snapshots that the call does not
    format as they were. *)
Theorem C39_crash : forall asort ct a w k s, is_new w a = false -> ~ In s (todo ct a w) ->
  let w' := format_crash asort ct a k w in
  group_of w' s = group_of w s /\ (forall m, m_index m = s -> (In m (table w') <-> In m (table w))).
Proof. exact c39_crash. Qed.
Print Assumptions C39_crash.

(** Raw files are deleted only when their snapshot is completely in the file, whatever
    the crash point. *)
Theorem C39_raw : forall asort ct a w of k s, argsorts asort -> runnable ct a w of ->
  let w' := format_crash asort ct a k w in
  In s (w_gone w') -> ~ In s (w_gone w) ->
  In s (todo ct a w) /\ exists g sub n, group_of w' s = Some g /\
    ct_load ct s (dkeys (dmerge (ct_basic ct) of)) = Ok (sub, n) /\ holds ct (ct_basic ct) of sub n g /\ cuts_stored g.
Proof. exact c39_raw. Qed.
Print Assumptions C39_raw.

(** a crash before the first snapshot leaves rows for snapshots that have no data *)
Theorem C39_head_refuted : forall asort ct a w of, other_fields ct a w = Ok of -> is_new w a = true ->
  let w' := format_crash asort ct a (length (head_steps ct a w)) w in
  table w' = ct_meta ct /\ forall s, group_of w' s = None.
Proof. exact c39_head. Qed.
Print Assumptions C39_head_refuted.

(** a crash inside a snapshot leaves a group without datasets, and no later call
    completes it, unless told to overwrite or remake *)
Theorem C39_half_refuted : forall asort ct a w of s r, argsorts asort -> runnable ct a w of -> todo ct a w = s :: r ->
  let w' := format_crash asort ct a (length (head_steps ct a w) + 2) w in
  group_of w' s = Some (mkG None [] None) /\
  forall ct' a', a_remake a' = false -> a_overwrite a' = false -> ~ In s (todo ct' a' w').
Proof. exact c39_half. Qed.
Print Assumptions C39_half_refuted.

(** Formatting disjoint selections one after the other always gives two snapshots whose
    shells both start at redshift 0: the rows of the merged table do not tile, although
    those of each instance do. *)
Theorem C39_merge_refuted : forall asort C h ct1 ct2 a1 a2 gone, argsorts asort ->
  tiles C h (ct_meta ct1) -> tiles C h (ct_meta ct2) ->
  (forall s, In s (ct_snaps ct1) -> ~ In s (ct_snaps ct2)) -> a_remake a2 = false ->
  good_history asort [(ct1, a1); (ct2, a2)] (mkW None gone) ->
  let w := run asort [(ct1, a1); (ct2, a2)] (mkW None gone) in
  exists m1 m2, In m1 (table w) /\ In m2 (table w) /\ m_index m1 <> m_index m2 /\ m_zmin m1 = 0%R /\ m_zmin m2 = 0%R.
Proof. exact c39_merge. Qed.
Print Assumptions C39_merge_refuted.

(** the file's number_snaps is the number of snapshots of the simulation after the first
    call and the number of formatted ones after every later call *)
Theorem C39_number_refuted : forall asort ct a w of, argsorts asort -> runnable ct a w of ->
  let w' := fst (format asort ct a w) in
  exists f, w_file w' = Some f /\
    (if is_new w a then f_number f = ct_number ct /\ table w' = ct_meta ct
     else f_number f = Some (Z.of_nat (length (table w')))).
Proof. exact c39_number. Qed.
Print Assumptions C39_number_refuted.

(** two calls: the second finds snapshot 0 in the file and formats snapshot 1 *)
Example C39_nonvacuous : argsorts argsort0 /\
  good_history argsort0 [(demo [0%Z], demo_args); (demo [0; 1]%Z, demo_args)] (mkW None []) /\
  (let w := fst (format argsort0 (demo [0%Z]) demo_args (mkW None [])) in
   is_new w demo_args = false /\ todo (demo [0; 1]%Z) demo_args w = [1%Z] /\
   runnable (demo [0; 1]%Z) demo_args w demo_others2) /\
  ct_number (demo [0%Z]) = Some 100%Z.
Proof.
  pose proof argsort0_ok as HA. destruct (demo_second argsort0 HA) as [R2 T2]. destruct (demo_first argsort0 0%Z HA) as (g & Eg & _).
  split; [exact HA|]. split.
  - cbn [good_history fst snd]. split; [apply demo_own; repeat constructor|]. split; [discriminate|]. split.
    + exists demo_others. apply demo_runnable. repeat constructor. auto.
    + split; [apply demo_own; repeat constructor|]. split; [discriminate|]. split; [|exact I]. exists demo_others2. exact R2.
  - split; [|reflexivity]. split; [rewrite Eg; reflexivity|]. split; [exact T2|exact R2].
Qed.

(** the hypotheses of C39_merge_refuted *)
Example C39_merge_nonvacuous :
  exists ct1 ct2, tiles toy 1 (ct_meta ct1) /\ tiles toy 1 (ct_meta ct2) /\
    (forall s, In s (ct_snaps ct1) -> ~ In s (ct_snaps ct2)) /\
    good_history argsort0 [(ct1, demo_args); (ct2, demo_args)] (mkW None []).
Proof.
  pose proof argsort0_ok as HA.
  assert (D : forall s z, (0 <= z)%R -> descending_z [new_snap s z]) by (intros s z Hz; split; [constructor; constructor|constructor; [exact Hz|constructor]]).
  destruct (c38_tile toy 1 [new_snap 0 3] toy_good (D 0%Z 3%R ltac:(lra)) ltac:(discriminate)) as (ms1 & _ & I1 & _ & T1).
  destruct (c38_tile toy 1 [new_snap 1 1] toy_good (D 1%Z 1%R ltac:(lra)) ltac:(discriminate)) as (ms2 & _ & I2 & _ & T2).
  set (with_meta ct ms := mkCat (ct_snaps ct) (ct_attrs ct) (ct_number ct) ms (ct_hub ct) (ct_tr ct) (ct_basic ct) (ct_dm ct) (ct_matter ct) (ct_load ct)).
  exists (with_meta (demo [0%Z]) ms1), (with_meta (demo [1%Z]) ms2).
  split; [exact T1|]. split; [exact T2|]. split; [cbn; intuition lia|].
  assert (OW : forall s ms, map m_index ms = [s] -> own_rows (with_meta (demo [s]) ms)).
  { intros s ms E. destruct ms as [|m [|]]; try discriminate. split; [cbn; repeat constructor|]. cbn. cbn in E. injection E as E. intros. rewrite E. reflexivity. }
  assert (R1 : runnable (with_meta (demo [0%Z]) ms1) demo_args (mkW None []) demo_others).
  { destruct (demo_runnable [0%Z] [] ltac:(repeat constructor; auto)) as (A1 & A2 & A3 & A4 & A5 & A6). repeat (split; [assumption|]). assumption. }
  cbn [good_history fst snd]. split; [apply OW, I1|]. split; [discriminate|]. split; [exists demo_others; exact R1|].
  split; [apply OW, I2|]. split; [discriminate|]. split; [|exact I].
  destruct (snap_ok argsort0 (with_meta (demo [0%Z]) ms1) (ct_basic (demo [0%Z])) demo_others true 0%Z _ 3 (mkF [("box_edge", 50%R)] (Some 100%Z) (Some ms1) []) [] HA
    ltac:(cbn; repeat constructor; auto) (demo_fields [0%Z] _ (or_introl eq_refl)) eq_refl
    ltac:(destruct (demo_loads [0%Z] 0%Z [] demo_others (or_introl eq_refl)) as (sub & n & E1 & E2); injection E1 as <- <-; exact E2)) as (g & Eg & (p & _ & Hn & _) & _).
  assert (E : fst (format argsort0 (with_meta (demo [0%Z]) ms1) demo_args (mkW None [])) = mkW (Some (mkF [("box_edge", 50%R)] (Some 100%Z) (Some ms1) [(0%Z, g)])) [0%Z]).
  { unfold format, format_steps. change (other_fields (with_meta (demo [0%Z]) ms1) demo_args (mkW None [])) with (Ok demo_others).
    change (todo (with_meta (demo [0%Z]) ms1) demo_args (mkW None [])) with [0%Z]. cbn [flat_map]. rewrite app_nil_r.
    assert (EH : exec (mkW None []) (head_steps (with_meta (demo [0%Z]) ms1) demo_args (mkW None [])) = (mkW (Some (mkF [("box_edge", 50%R)] (Some 100%Z) (Some ms1) [])) [], Ok tt)) by reflexivity.
    rewrite (exec_app_ok _ _ _ _ EH). change (a_clean demo_args) with true. change (ct_basic (with_meta (demo [0%Z]) ms1)) with (ct_basic (demo [0%Z])). rewrite Eg. reflexivity. }
  rewrite E. exists demo_others2.
  split; [|split; [apply (demo_fields [1%Z]); auto|split; [cbn; repeat constructor; auto|split; [repeat constructor; cbn; auto|split]]]].
  - unfold other_fields. cbn [is_new w_file f_groups a_remake demo_args orb first_group]. change (check _ _) with (Ok tt). cbn [bind].
    unfold data_names. rewrite Hn. destruct (g_cuts g); reflexivity.
  - intros s _. apply (demo_loads [1%Z]). auto.
  - right. eexists _, _, _. repeat split.
Qed.

(** * C57: chunked catalogues *)
(** Loading at least two fields of a snapshot split over files, empty later files
    included, gives for each field the rows of the files one after the other, as a column of
    the same kind. Partial:
    see the refutations for one field and for an empty first file. *)
Theorem C57_concat_partial : forall f0 l fs0,
  let fs := match fs0 with [] => dkeys (ch_data f0) | _ => fs0 end in
  2 <= length fs -> split_ok f0 (f0 :: l) fs ->
  exists d, load_objects (f0 :: l) fs0 = Ok (LDict (ch_total f0) d) /\ dkeys d = fs /\
    forall k, In k fs -> exists c, dget d k = Some c /\ rows_of c = all_rows (f0 :: l) k /\
      forall c0, dget (ch_data f0) k = Some c0 -> flat c = flat c0.
Proof. exact c57. Qed.
Print Assumptions C57_concat_partial.

(** a first file without the field, such as an empty one, makes the whole catalogue
    unreadable although other files hold its halos *)
Theorem C57_first_refuted : forall f0 l fs k, ch_total f0 <> 0 -> In k fs -> dget (ch_data f0) k = None ->
  load_objects (f0 :: l) fs = Raise plain_exception.
Proof. exact c57_first. Qed.
Print Assumptions C57_first_refuted.

(** one field gives an array and no count, so that the Illustris loader always fails *)
Theorem C57_one_refuted : forall f0 l k s files, split_ok f0 (f0 :: l) [k] -> files s = f0 :: l ->
  (exists c, load_objects (f0 :: l) [k] = Ok (LArray c) /\ rows_of c = all_rows (f0 :: l) k) /\
  illustris_loader files s [k] = Raise AttributeError.
Proof.
  intros f0 l k s files HS E. destruct (c57_one f0 l k HS) as (c & E1 & E2). split; [exists c; auto|].
  unfold illustris_loader. rewrite E, E1. reflexivity.
Qed.
Print Assumptions C57_one_refuted.

Example C57_nonvacuous :
  let f0 := mkChunk 3 2 [("m", Col1 [1; 2]%R); ("p", Col2 [[1; 2]; [3; 4]]%R)] in
  let f1 := mkChunk 3 0 [] in
  let f2 := mkChunk 3 1 [("m", Col1 [5]%R); ("p", Col2 [[6; 7]]%R)] in
  split_ok f0 [f0; f1; f2] ["m"; "p"] /\ split_ok f0 [f0; f1; f2] ["m"] /\
  all_rows [f0; f1; f2] "p" = [[1; 2]; [3; 4]; [6; 7]]%R /\
  load_objects [f1; f0; f2] ["m"; "p"] = Raise plain_exception.
Proof.
  cbv zeta. set (f0 := mkChunk 3 2 _). set (f1 := mkChunk 3 0 _). set (f2 := mkChunk 3 1 _).
  assert (H : forall fs, NoDup fs -> incl fs ["m"; "p"] -> split_ok f0 [f0; f1; f2] fs).
  { intros fs HN HI. split; [left; auto|]. split; [reflexivity|]. split; [discriminate|]. split; [exact HN|].
    intros k Hk. apply HI in Hk. destruct Hk as [<-|[<-|[]]]; (eexists; split; [reflexivity|]; intros f Hf Hh; cbn in Hf;
      destruct Hf as [<-|[<-|[<-|[]]]]; [eexists; split; [reflexivity|split; reflexivity]|contradiction Hh; reflexivity|eexists; split; [reflexivity|split; reflexivity]]). }
  split; [|split]; [apply H; [repeat constructor; cbn; intuition discriminate|apply incl_refl]|apply H; [repeat constructor; auto|intros x [<-|[]]; cbn; auto]|].
  split; reflexivity.
Qed.
