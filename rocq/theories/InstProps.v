(** The instrument: C49 to C54, C62 and C63. The vocabulary is in InstSpec.v. Throughout, [sp], [sc]
    and [nz] are what the spatial response, spectral response and noise functions return. *)
From Verif Require Import Dict Util Rat Val Arr GridModel GridModel2 GridSpec GridSpec2 ConvSpec GridEx InstModel InstSpec Inst Inst2 Inst3 Inst4 Inst5 Inst6 Inst7 Inst8 Inst9 InstEx.
Open Scope string_scope.
Open Scope list_scope.
Open Scope Qc_scope.

(** * C49: tables *)
(** from construction through any calls, failed ones included: names are distinct and are the keys
    of the tables, only fields have maps, and every detector not called "instrument" has all its
    responses and an offset *)
Theorem C49_partial : forall su pu fu br bs a1 k1 a2 k2 a3 k3 s0, new_inst su pu fu br bs a1 k1 a2 k2 a3 k3 = Ok s0 ->
  forall sp sc os, let s := irun sp sc os s0 in
  tables_ok s /\ forall d x, dget (i_dets s) d = Some x -> d <> "instrument" -> complete x.
Proof. intros * H sp sc os. destruct (new_tables _ _ _ _ _ _ _ _ _ _ _ _ H) as (T & C & _). split; [apply run_tables; auto|apply run_complete; auto]. Qed.
Print Assumptions C49_partial.
Example C49_partial_nonvacuous : ex_new_inst = Ok ex_inst /\ i_names (irun toy_sp toy_sc ex_ops ex_inst) = ["0"; "b"; "c"] /\ i_fnames (irun toy_sp toy_sc ex_ops ex_inst) = ["f"].
Proof. split; [exact ex_inst_ok|]. split; vm_compute; reflexivity. Qed.

(** what is missing: a detector may be called "instrument"; adding it succeeds, sets the
    instrument's defaults instead of the detector's responses ... *)
Definition ex_odd : detargs := det_args (Some "instrument") (RFun (FUser 1)) None.
Theorem C49_name_refuted : exists s x, tables_ok ex_inst /\ add_detector ex_odd ex_inst = (s, Ok tt) /\ dget (i_dets s) "instrument" = Some x /\
  d_spat x = None /\ d_spec x = None /\ d_noise x = None /\ ~ complete x.
Proof.
  eexists _, _. split; [apply ex_tables|]. split; [apply pair_fst; vm_compute; reflexivity|]. split; [vm_compute; reflexivity|].
  repeat (split; [reflexivity|]). intros (H & _). apply H. reflexivity.
Qed.
(** ... and from then on map_fields never succeeds without an explicit beam *)
Theorem C49_lost_refuted : forall sp sc s d x names a, tables_ok s -> dget (i_dets s) d = Some x -> d_spat x = None -> m_beam a = None ->
  forall s', map_fields sp sc names a s <> (s', Ok tt).
Proof. exact no_spat_map. Qed.
Print Assumptions C49_lost_refuted.
Print Assumptions C49_name_refuted.

(** add_detector succeeds exactly when the name is new and every response can be found, and then
    appends one detector with what was asked for, leaves the rest alone and marks maps stale *)
Theorem C49_add : forall a s, tables_ok s -> new_name a s <> "instrument" ->
  (forall off x y z, ~ In (new_name a s) (i_names s) -> asked_off (a_off a) off -> asked Spatial (i_dspat s) (a_spat a) (a_spatk a) x ->
     asked Spectral (i_dspec s) (a_spec a) (a_speck a) y -> asked Noise (i_dnoise s) (a_noise a) (a_noisek a) z ->
     exists s', add_detector a s = (s', Ok tt) /\ i_names s' = i_names s ++ [new_name a s] /\
       dget (i_dets s') (new_name a s) = Some (mkDet (Some x) (Some y) (Some z) (Some off)) /\
       (forall d, d <> new_name a s -> dget (i_dets s') d = dget (i_dets s) d) /\ same_fields s s' /\ same_defaults s s' /\
       forall f, In f (i_fnames s) -> dget (i_cons s') f = Some false) /\
  (forall s', add_detector a s = (s', Ok tt) -> ~ In (new_name a s) (i_names s) /\ exists off x y z, asked_off (a_off a) off /\
     asked Spatial (i_dspat s) (a_spat a) (a_spatk a) x /\ asked Spectral (i_dspec s) (a_spec a) (a_speck a) y /\ asked Noise (i_dnoise s) (a_noise a) (a_noisek a) z).
Proof.
  intros a s T Hn. split; [|intros s'; apply add_conv; auto]. intros * H1 H2 H3 H4 H5. destruct (add_all a s off x y z T Hn H1 H2 H3 H4 H5) as (s' & E & (A1 & A2 & A3 & A4 & A5 & A6)).
  exists s'. rewrite A1, A2, dget_dset, String.eqb_refl. repeat split; auto; try apply A4; try apply A5.
  - intros d Hd. rewrite dget_dset. destruct (String.eqb_spec d (new_name a s)); [contradiction|reflexivity].
  - intros f Hf. rewrite A6. apply smem_In in Hf. rewrite Hf. reflexivity.
Qed.
Print Assumptions C49_add.
Example C49_add_nonvacuous : let a := det_args (Some "d") (RFun (FUser 1)) None in
  tables_ok ex_s /\ new_name a ex_s <> "instrument" /\ ~ In (new_name a ex_s) (i_names ex_s) /\ asked_off (a_off a) (0, 0) /\ asked Spatial (i_dspat ex_s) (a_spat a) (a_spatk a) (FUser 1, []) /\
  asked Spectral (i_dspec ex_s) (a_spec a) (a_speck a) (FBoxcar, [("f0", zq 4); ("f1", zq 6)]) /\ snd (add_detector a ex_s) = Ok tt.
Proof.
  cbv zeta. split; [exact ex_s_tables|]. split; [discriminate|]. split; [vm_compute; intuition discriminate|]. split; [left; auto|]. split; [left; split; [left; reflexivity|right; auto]|].
  split; [|vm_compute; reflexivity]. right. split; [reflexivity|]. split; [vm_compute; reflexivity|right; split; [reflexivity|]]. vm_compute. reflexivity.
Qed.

(** del_detectors removes exactly the named detectors, keeps the order of the others, and marks
    maps stale; if it raises nothing has changed *)
Theorem C49_del : forall names s, tables_ok s ->
  (forall s', del_detectors names s = (s', Ok tt) -> (forall d, In d names -> In d (i_names s)) /\ i_names s' = filter (fun d => negb (smem d names)) (i_names s) /\
     (forall d, dget (i_dets s') d = if smem d names then None else dget (i_dets s) d) /\ same_fields s s' /\ same_defaults s s' /\
     (names <> [] -> forall f, In f (i_fnames s) -> dget (i_cons s') f = Some false)) /\
  (forall s' e, del_detectors names s = (s', Raise e) -> s' = s /\ e = ValueError) /\
  (NoDup names -> (forall d, In d names -> In d (i_names s)) -> exists s', del_detectors names s = (s', Ok tt)).
Proof. exact c49_del. Qed.
Print Assumptions C49_del.
Example C49_del_nonvacuous : tables_ok ex_s /\ snd (del_detectors ["b"; "0"] ex_s) = Ok tt /\ i_names (fst (del_detectors ["b"; "0"] ex_s)) = ["c"] /\ snd (del_detectors ["x"] ex_s) = Raise ValueError.
Proof. split; [exact ex_s_tables|]. split; [|split]; vm_compute; reflexivity. Qed.

(** set_spatial_response, set_spectral_response and set_noise_function: the named detectors (all
    of them if none is named) get the function and the keywords given, keep their other responses
    and offset, and the others are unchanged; if it raises nothing has changed *)
Theorem C49_set : forall m names r k s, tables_ok s ->
  (forall s' e, set_response m names r k s = (s', Raise e) -> s' = s /\ e = ValueError) /\
  (forall s', set_response m names r k s = (s', Ok tt) -> i_names s' = i_names s /\ same_fields s s' /\
     forall d x, dget (i_dets s) d = Some x ->
     (names_det names s d -> exists f kk, means m r f /\ kw_given k [] kk /\ exists x', dget (i_dets s') d = Some x' /\ resp_of m x' = Some (f, kk) /\
        (forall m', m' <> m -> resp_of m' x' = resp_of m' x) /\ d_off x' = d_off x) /\
     (~ names_det names s d -> dget (i_dets s') d = Some x)).
Proof. exact c49_set. Qed.
Print Assumptions C49_set.
Example C49_set_nonvacuous : tables_ok ex_s /\ snd (set_response Spectral ["b"] (RStr "gauss") (KDict [("fwhm", 1)]) ex_s) = Ok tt /\ names_det ["b"] ex_s "b" /\ ~ names_det ["b"] ex_s "c" /\
  snd (set_response Spectral ["b"] (RStr "white") KNone ex_s) = Raise ValueError.
Proof.
  split; [exact ex_s_tables|]. split; [vm_compute; reflexivity|]. split; [right; split; [left; auto|discriminate]|]. split; [|vm_compute; reflexivity].
  intros [[H _]|[[H|[]] _]]; discriminate.
Qed.

(** add_field adds one field under a new name and del_fields removes exactly those named; if they
    raise nothing has changed *)
Theorem C49_fields : forall s, tables_ok s ->
  (forall g name idx ip chk s' r, add_field g name idx ip chk s = (s', r) -> (exists e, r = Raise e /\ s' = s) \/
     r = Ok tt /\ exists nm g', nm = match name with Some n => n | None => str_nat (i_fcount s) end /\ ~ In nm (i_fnames s) /\ i_fnames s' = i_fnames s ++ [nm] /\
       (forall f, dget (i_fields s') f = if String.eqb f nm then Some g' else dget (i_fields s) f) /\ dget (i_cons s') nm = Some false /\ i_dets s' = i_dets s /\ i_names s' = i_names s) /\
  (forall names s' r, del_fields names s = (s', r) -> (exists e, r = Raise e /\ s' = s) \/
     r = Ok tt /\ i_fnames s' = filter (fun f => negb (smem f names)) (i_fnames s) /\ i_dets s' = i_dets s /\ i_names s' = i_names s /\
       forall f, ~ In f names -> dget (i_fields s') f = dget (i_fields s) f /\ dget (i_maps s') f = dget (i_maps s) f /\ dget (i_cons s') f = dget (i_cons s) f).
Proof. exact c49_fields. Qed.
Print Assumptions C49_fields.
Example C49_fields_nonvacuous : tables_ok ex_s /\ snd (add_field ex_field None None false true ex_s) = Ok tt /\ snd (add_field ex_field (Some "f") None true true ex_s) = Raise ValueError /\ snd (del_fields ["f"] ex_s) = Ok tt.
Proof. split; [exact ex_s_tables|]. split; [|split]; vm_compute; reflexivity. Qed.

(** * C50: samples are never drawn from stale maps *)
(** if the detectors were changed at some point of a history and a field can be sampled at the end,
    then map_fields was called for that field in between, and mapping the field again would not
    change anything *)
Theorem C50_after_change : forall sp sc nz s0 os1 o os2 s2, tables_ok s0 -> istep sp sc o (irun sp sc os1 s0) = (s2, Ok tt) -> changes_detectors o (irun sp sc os1 s0) ->
  forall pos names signal noise dt out f, let s3 := irun sp sc os2 s2 in
  sample_fields nz pos names signal noise dt s3 = Ok out -> covers names s3 f ->
  exists ns a, In (OMap ns a) os2 /\ (ns = [] \/ In f ns) /\ map_fields sp sc [f] a s3 = (s3, Ok tt).
Proof. intros sp sc nz s0 os1 o os2 s2 T E Hc pos names signal noise dt out f s3. exact (sample_after sp sc nz s0 os1 o os2 _ s2 pos names signal noise dt out f T eq_refl E Hc). Qed.
Print Assumptions C50_after_change.
Example C50_after_change_nonvacuous : let o := OSet Spatial ["b"] (RFun (FUser 2)) KNone in
  tables_ok ex_inst /\ snd (istep toy_sp toy_sc o ex_s) = Ok tt /\ changes_detectors o ex_s /\
  exists out, sample_fields toy_nz (Pos2 2 ex_rows) [] true true (Some 1) (irun toy_sp toy_sc [OMap [] ex_args] (fst (istep toy_sp toy_sc o ex_s))) = Ok out.
Proof.
  cbv zeta. split; [apply ex_tables|]. split; [vm_compute; reflexivity|]. split; [exists "b"; right; split; [left; auto|discriminate]|].
  apply is_ok_ex. vm_compute. reflexivity.
Qed.
(** a field of an instrument can be sampled only after map_fields was called for it, and the map
    that is sampled has one layer per detector; redoing the map would not change it, so C52_layers
    says what is in it *)
Theorem C50_fresh : forall sp sc nz su pu fu br bs a1 k1 a2 k2 a3 k3 s0, new_inst su pu fu br bs a1 k1 a2 k2 a3 k3 = Ok s0 ->
  forall os pos names signal noise dt out f, let s := irun sp sc os s0 in
  sample_fields nz pos names signal noise dt s = Ok out -> covers names s f ->
  exists ns a m, In (OMap ns a) os /\ (ns = [] \/ In f ns) /\ map_fields sp sc [f] a s = (s, Ok tt) /\ dget (i_maps s) f = Some m /\ g_nprop m = length (i_names s).
Proof. exact c50_fresh. Qed.
Print Assumptions C50_fresh.
Example C50_fresh_nonvacuous : ex_new_inst = Ok ex_inst /\ covers [] ex_mapped "f" /\ exists out, sample_fields toy_nz (Pos2 2 ex_rows) [] true true (Some 1) (irun toy_sp toy_sc (ex_ops ++ [OMap [] ex_args]) ex_inst) = Ok out.
Proof. split; [exact ex_inst_ok|]. split; [left; split; auto; vm_compute; auto|]. apply is_ok_ex. vm_compute. reflexivity. Qed.
(** right after a change, sampling is refused *)
Theorem C50_refused : forall sp sc nz o s s', tables_ok s -> istep sp sc o s = (s', Ok tt) -> changes_detectors o s ->
  forall pos names signal noise dt f, covers names s' f -> sample_fields nz pos names signal noise dt s' = Raise ValueError.
Proof. intros sp sc nz o s s' T E Hc pos names signal noise dt f. exact (stale_refused sp sc nz o s s' pos names signal noise dt f T E Hc). Qed.
Print Assumptions C50_refused.
Example C50_refused_nonvacuous : tables_ok ex_mapped /\ snd (istep toy_sp toy_sc (ODelDet ["0"]) ex_mapped) = Ok tt /\ changes_detectors (ODelDet ["0"]) ex_mapped /\ covers [] (fst (istep toy_sp toy_sc (ODelDet ["0"]) ex_mapped)) "f".
Proof. split; [exact ex_mapped_tables|]. split; [vm_compute; reflexivity|]. split; [discriminate|]. left. split; auto. vm_compute. auto. Qed.

(** * C51: a failed add_detector *)
Theorem C51_partial : forall a s s' e, tables_ok s -> new_name a s <> "instrument" -> add_detector a s = (s', Raise e) -> s' = s.
Proof. intros a s s' e T Hn E. destruct (add_raise a s s' e T E) as [H|[H _]]; [exact H|contradiction]. Qed.
Print Assumptions C51_partial.
Example C51_partial_nonvacuous : let a := det_args (Some "d") (RStr "nonsense") None in tables_ok ex_s /\ new_name a ex_s <> "instrument" /\ snd (add_detector a ex_s) = Raise ValueError.
Proof. cbv zeta. split; [exact ex_s_tables|]. split; [discriminate|]. vm_compute. reflexivity. Qed.
(** in every case the detectors, fields, counters and the validity of maps are as before *)
Theorem C51_tables_partial : forall a s s' e, tables_ok s -> add_detector a s = (s', Raise e) ->
  i_dets s' = i_dets s /\ i_names s' = i_names s /\ i_count s' = i_count s /\ i_cons s' = i_cons s /\ same_fields s s'.
Proof. intros a s s' e T E. destruct (add_raise a s s' e T E) as [->|(_ & A & B & C & D & F)]; [repeat split|auto]. Qed.
Print Assumptions C51_tables_partial.
(** what is missing: a failed attempt to add a detector called "instrument" changes the defaults
    that later detectors get *)
Theorem C51_name_refuted : exists s a s' e, tables_ok s /\ add_detector a s = (s', Raise e) /\ i_dspat s' <> i_dspat s.
Proof.
  exists ex_s, (mkDA (Some "instrument") (RFun (FUser 3)) KNone ROther KNone RNone KNone None).
  eexists. exists ValueError. split; [exact ex_s_tables|]. split; [vm_compute; reflexivity|]. vm_compute. discriminate.
Qed.
Print Assumptions C51_name_refuted.

(** * C52: each detector's map *)
(** detectors are grouped by spatial response: every detector is in exactly one group, and two are
    in the same group exactly when function and keywords agree *)
Theorem C52_groups : forall s gs, tables_ok s -> spatial_clones s = Ok gs ->
  NoDup (concat gs) /\ (forall d, In d (concat gs) <-> In d (i_names s)) /\
  forall d d' x x', dget (i_dets s) d = Some x -> dget (i_dets s) d' = Some x' -> (exists g, In g gs /\ In d g /\ In d' g) <-> d_spat x = d_spat x' /\ d_spat x <> None.
Proof. exact c52_groups. Qed.
Print Assumptions C52_groups.
Example C52_groups_nonvacuous : tables_ok ex_s /\ spatial_clones ex_s = Ok [["0"; "c"]; ["b"]].
Proof. split; [exact ex_s_tables|vm_compute; reflexivity]. Qed.
(** the map of a field has its spatial cells and one layer per detector, in order; layer [i] is the
    field convolved with the beam of detector [i] over the first two axes, averaged over the third
    with its spectral response *)
Theorem C52_layers : forall sp sc, responses_ok sp sc -> forall s a names s' f g, tables_ok s -> map_fields sp sc names a s = (s', Ok tt) -> covers names s f -> dget (i_fields s) f = Some g ->
  observable g -> plain_pad (m_pad a) -> beam_fits g a ->
  exists m, dget (i_maps s') f = Some m /\ dget (i_cons s') f = Some true /\ flat_map_of g (length (i_names s)) m /\ layers_of sp sc s g a 0 m.
Proof.
  intros sp sc R s a names s' f g T E Cv Hf O Hp Hb. destruct (map_seen sp sc R s a names s' f g T E Cv Hf O Hp Hb) as (m & A & B & C & _ & D). exists m. auto.
Qed.
Print Assumptions C52_layers.
Example C52_layers_nonvacuous : responses_ok toy_sp toy_sc /\ tables_ok ex_s /\ map_fields toy_sp toy_sc [] ex_args ex_s = (ex_mapped, Ok tt) /\ covers [] ex_s "f" /\ dget (i_fields ex_s) "f" = Some ex_field /\
  observable ex_field /\ plain_pad (m_pad ex_args) /\ beam_fits ex_field ex_args /\ exists m, dget (i_maps ex_mapped) "f" = Some m /\ cell m [1; 1]%nat 0 <> cell m [1; 1]%nat 1.
Proof.
  split; [exact toy_ok|]. split; [exact ex_s_tables|]. split; [exact ex_map_ok|]. split; [left; split; auto; vm_compute; auto|]. split; [vm_compute; reflexivity|].
  split; [apply ex_cube_obs; auto|]. split; [cbn [ex_args m_pad plain_pad]; lia|]. split; [discriminate|]. apply (dget_ne _ _ (fun m : G => cell m [1; 1]%nat 0) (fun m : G => cell m [1; 1]%nat 1)). vm_compute. reflexivity.
Qed.
(** mapping succeeds whenever every detector can see every field asked for *)
Theorem C52_succeeds : forall sp sc, responses_ok sp sc -> forall s a names, tables_ok s -> i_names s <> [] -> args_ok a (i_bres s) -> (names = [] -> i_fnames s <> []) -> NoDup names ->
  (forall f, covers names s f -> exists g, dget (i_fields s) f = Some g /\ observable g /\ plain_pad (m_pad a) /\ beam_fits g a /\ forall d x, dget (i_dets s) d = Some x -> sees sp sc (i_bres s) g a x) ->
  exists s', map_fields sp sc names a s = (s', Ok tt).
Proof. intros sp sc R s a names T Hn Ha Hf Nd H. exact (map_ok sp sc R s a names T Hn Ha Hf Nd H). Qed.
Print Assumptions C52_succeeds.
Example C52_succeeds_nonvacuous : tables_ok ex_s /\ i_names ex_s <> [] /\ args_ok ex_args (i_bres ex_s) /\ observable ex_field /\ plain_pad (m_pad ex_args) /\ beam_fits ex_field ex_args /\
  forall x, dget (i_dets ex_s) "b" = Some x -> sees toy_sp toy_sc (i_bres ex_s) ex_field ex_args x.
Proof.
  split; [exact ex_s_tables|]. split; [vm_compute; discriminate|]. split; [exact I|]. split; [apply ex_cube_obs; auto|]. split; [cbn [ex_args m_pad plain_pad]; lia|]. split; [discriminate|].
  intros x Hx. vm_compute in Hx. injection Hx as <-. split.
  - intros _. split; [discriminate|]. split; [reflexivity|]. eexists _, 2%nat, 2%nat, _. split; [reflexivity|]. split; [lia|]. split; [lia|].
    split; [exists 2%Z; split; reflexivity|]. split; [exists 2%Z; split; reflexivity|]. split; [reflexivity|]. vm_compute. reflexivity.
  - eexists _, _. split; reflexivity.
Qed.

(** * C53: samples *)
(** after map_fields, what sample_fields returns for a field has a row per position and a column
    per detector; each value is that detector's layer of the map in the cell of the position
    shifted by the detector's offset (NaN off the map), plus the detector's noise *)
Theorem C53_columns : forall nz s rows names signal noise dt out, tables_ok s -> sample_fields nz (Pos2 2 rows) names signal noise dt s = Ok out -> forall f, covers names s f ->
  exists tab m, dget out f = Some tab /\ dget (i_maps s) f = Some m /\
  (consistent m -> g_ndim m = 2%nat -> g_nprop m = length (i_names s) -> g_data m <> None ->
   length tab = length rows /\ forall k r, nth_error rows k = Some r -> exists o, nth_error tab k = Some o /\ length o = length (i_names s) /\
    forall i d x, nth_error (i_names s) i = Some d -> dget (i_dets s) d = Some x -> exists v, nth_error o i = Some v /\ sampled nz m f d x rows k r signal noise dt i v).
Proof. exact sample_cols. Qed.
Print Assumptions C53_columns.
Theorem C53_observed : forall sp sc nz, responses_ok sp sc -> forall s ns a s' f g, tables_ok s -> map_fields sp sc ns a s = (s', Ok tt) -> covers ns s f -> dget (i_fields s) f = Some g ->
  observable g -> plain_pad (m_pad a) -> beam_fits g a ->
  forall rows names signal noise dt out, sample_fields nz (Pos2 2 rows) names signal noise dt s' = Ok out -> covers names s' f ->
  exists tab m, dget out f = Some tab /\ flat_map_of g (length (i_names s)) m /\ layers_of sp sc s g a 0 m /\ length tab = length rows /\
    forall k r, nth_error rows k = Some r -> exists o, nth_error tab k = Some o /\ length o = length (i_names s) /\
    forall i d x, nth_error (i_names s) i = Some d -> dget (i_dets s) d = Some x -> exists v, nth_error o i = Some v /\ sampled nz m f d x rows k r signal noise dt i v.
Proof. exact c53_observed. Qed.
Print Assumptions C53_observed.
Example C53_nonvacuous : tables_ok ex_mapped /\ covers [] ex_mapped "f" /\
  match sample_fields toy_nz (Pos2 2 ex_rows) [] true true (Some 1) ex_mapped with
  | Ok out => match dget out "f" with Some [_; [Some x; Some y; _]] => qeqb x y = false | _ => False end
  | Raise _ => False end.
Proof. split; [exact ex_mapped_tables|]. split; [left; split; auto; vm_compute; auto|]. vm_compute. reflexivity. Qed.
(** sampling succeeds when the maps asked for are valid and the noise functions return one value per position *)
Theorem C53_succeeds : forall nz s rows names signal noise dt, tables_ok s -> i_names s <> [] -> (names = [] \/ NoDup names /\ forall f, In f names -> In f (i_fnames s)) ->
  (forall f, covers names s f -> dget (i_cons s) f = Some true /\ exists m, dget (i_maps s) f = Some m /\ (signal = true -> consistent m /\ g_ndim m = 2%nat /\ g_nprop m = length (i_names s) /\ g_data m <> None)) ->
  (forall d x, dget (i_dets s) d = Some x -> exists off, d_off x = Some off) -> noise = true \/ signal = true ->
  (noise = true -> exists t, dt = Some t /\ forall f d x, covers names s f -> dget (i_dets s) d = Some x -> exists r l, d_noise x = Some r /\ nz f d (fst r) (snd r) (length rows) t = Ok l /\ length l = length rows) ->
  exists out, sample_fields nz (Pos2 2 rows) names signal noise dt s = Ok out.
Proof. exact sample_ok. Qed.
Print Assumptions C53_succeeds.

(** * C54: the property that is observed *)
(** a field copied in has one property and index 0; if it is copied, or if the index is 0, the
    property that is mapped is the one asked for; indices that are not those of axes are refused *)
Theorem C54_partial : forall sp sc, responses_ok sp sc -> forall g name oz ip chk s s' names a s2, tables_ok s -> observable g -> add_field g name oz ip chk s = (s', Ok tt) ->
  let idx := match oz with Some z => z | None => 0%Z end in let nm := match name with Some n => n | None => str_nat (i_fcount s) end in
  ip = false \/ idx = 0%Z -> plain_pad (m_pad a) -> beam_fits g a -> map_fields sp sc names a s' = (s2, Ok tt) -> names = [] \/ In nm names ->
  exists m, dget (i_maps s2) nm = Some m /\ flat_map_of g (length (i_names s)) m /\ layers_of sp sc s g a (Z.to_nat idx) m.
Proof. intros sp sc R g name oz ip chk s s' names a s2 T O E idx nm H1 H2 H3 H4 H5. exact (index_mapped sp sc R g name oz ip chk s s' names a s2 T O E H1 H2 H3 H4 H5). Qed.
Print Assumptions C54_partial.
Theorem C54_rejects_partial : forall g name z ip chk s, observable g -> (z < 0 \/ 3 <= z)%Z -> add_field g name (Some z) ip chk s = (s, Raise ValueError).
Proof. exact index_refused. Qed.
Print Assumptions C54_rejects_partial.
Example C54_partial_nonvacuous : observable ex_field /\ snd (add_field ex_field (Some "n") (Some 0%Z) false true ex_s) = Ok tt /\
  snd (map_fields toy_sp toy_sc ["n"] ex_args (fst (add_field ex_field (Some "n") (Some 0%Z) false true ex_s))) = Ok tt.
Proof. split; [apply ex_cube_obs; auto|]. split; vm_compute; reflexivity. Qed.
(** what is missing: with in_place the index is accepted and ignored: property 0 is mapped *)
Theorem C54_ignored_refuted : forall sp sc, responses_ok sp sc -> forall g name oz ip chk s s' names a s2, tables_ok s -> observable g -> add_field g name oz ip chk s = (s', Ok tt) ->
  let nm := match name with Some n => n | None => str_nat (i_fcount s) end in
  plain_pad (m_pad a) -> beam_fits g a -> map_fields sp sc names a s' = (s2, Ok tt) -> names = [] \/ In nm names ->
  exists m, dget (i_maps s2) nm = Some m /\ layers_of sp sc s g a 0 m.
Proof. intros sp sc R g name oz ip chk s s' names a s2 T O E nm H2 H3 H4 H5. exact (zero_mapped sp sc R g name oz ip chk s s' names a s2 T O E H2 H3 H4 H5). Qed.
Print Assumptions C54_ignored_refuted.
(** ... and it may differ from the property asked for *)
Theorem C54_wrong_refuted : exists s s2 m, tables_ok ex_s /\ observable ex_field2 /\ g_nprop ex_field2 = 2%nat /\
  add_field ex_field2 (Some "n") (Some 1%Z) true true ex_s = (s, Ok tt) /\ map_fields toy_sp toy_sc ["n"] ex_bargs s = (s2, Ok tt) /\ dget (i_maps s2) "n" = Some m /\
  beam_fits ex_field2 ex_bargs /\ weighted ex_field2 ex_weights <> 0 /\ cell m [1; 1]%nat 0 <> seen_of 1 ex_field2 ex_beam ex_weights 1 1.
Proof.
  exists ex_wrong, (fst (map_fields toy_sp toy_sc ["n"] ex_bargs ex_wrong)).
  destruct (dget_ne (i_maps (fst (map_fields toy_sp toy_sc ["n"] ex_bargs ex_wrong))) "n" (fun m : G => cell m [1; 1]%nat 0) (fun _ : G => seen_of 1 ex_field2 ex_beam ex_weights 1 1)) as (m & H1 & H2).
  { vm_compute. reflexivity. }
  exists m. split; [exact ex_s_tables|]. split; [apply ex_cube_obs; auto|]. split; [vm_compute; reflexivity|].
  split; [apply pair_fst; vm_compute; reflexivity|]. split; [apply pair_fst; vm_compute; reflexivity|]. split; [exact H1|].
  split; [exact ex_bfits|]. split; [vm_compute; discriminate|exact H2].
Qed.
Print Assumptions C54_wrong_refuted.
(** ... and an index beyond the last property is accepted if it is that of an axis *)
Theorem C54_accepts_refuted : forall g n z s, observable g -> (0 <= z < 3)%Z -> dget (i_fields s) n = None -> i_bres s = None -> i_bspec s = None ->
  exists s', add_field g (Some n) (Some z) true false s = (s', Ok tt).
Proof. exact index_accepted. Qed.
Print Assumptions C54_accepts_refuted.
Example C54_accepts_refuted_nonvacuous : observable ex_field /\ g_nprop ex_field = 1%nat /\ dget (i_fields no_inst) "n" = None /\ i_bres no_inst = None /\ i_bspec no_inst = None.
Proof. split; [apply ex_cube_obs; auto|]. repeat split; vm_compute; reflexivity. Qed.

(** * C62: fields with several properties *)
(** one would expect to be able to observe any property of a grid. A grid with several properties
    is refused unless it is added in place, refused by the checks if both units of flux are known,
    and never mapped without an explicit beam *)
Theorem C62_copy_refuted : forall g name oz chk s, observable g -> (2 <= g_nprop g)%nat -> exists e, add_field g name oz false chk s = (s, Raise e).
Proof. exact multi_copy. Qed.
Print Assumptions C62_copy_refuted.
Theorem C62_units_refuted : forall g name oz ip s u v, observable g -> (2 <= g_nprop g)%nat -> i_funit s = Some u ->
  nth_error (g_gru g) (Z.to_nat match oz with Some z => z | None => 0%Z end) = Some (Some v) -> exists e, add_field g name oz ip true s = (s, Raise e).
Proof. exact multi_check. Qed.
Print Assumptions C62_units_refuted.
Theorem C62_map_refuted : forall sp sc s a names f g, tables_ok s -> covers names s f -> dget (i_fields s) f = Some g -> observable g -> (2 <= g_nprop g)%nat -> m_beam a = None ->
  forall s', map_fields sp sc names a s <> (s', Ok tt).
Proof. exact multi_map. Qed.
Print Assumptions C62_map_refuted.
(** with one property none of this happens: the copy is the grid, and C52_succeeds says when it can be mapped *)
Theorem C62_partial : forall g n s, observable g -> g_nprop g = 1%nat -> dget (i_fields s) n = None -> i_bres s = None -> i_bspec s = None ->
  exists s', add_field g (Some n) None false false s = (s', Ok tt) /\ dget (i_fields s') n = Some g.
Proof. exact c62_one. Qed.
Print Assumptions C62_partial.
Example C62_nonvacuous : observable ex_field2 /\ (2 <= g_nprop ex_field2)%nat /\ snd (add_field ex_field2 (Some "n") (Some 1%Z) true true ex_s) = Ok tt /\ snd (add_field ex_field2 (Some "n") (Some 1%Z) false true ex_s) = Raise ValueError /\
  snd (map_fields toy_sp toy_sc ["n"] ex_args (fst (add_field ex_field2 (Some "n") (Some 1%Z) true true ex_s))) = Raise ValueError.
Proof. split; [apply ex_cube_obs; auto|]. repeat split; vm_compute; (reflexivity || lia). Qed.

(** * C63: beam sizes *)
(** the documentation allows one number for the size of the beam: it never works; a size per axis
    does (C52_succeeds) *)
Theorem C63_number_refuted : forall sp sc s a names f z, tables_ok s -> covers names s f -> m_ks a = KsInt z -> forall s', map_fields sp sc names a s <> (s', Ok tt).
Proof. exact int_map. Qed.
Print Assumptions C63_number_refuted.
Example C63_number_refuted_nonvacuous : tables_ok ex_s /\ covers [] ex_s "f" /\ snd (map_fields toy_sp toy_sc [] (mkMA NPeak (KsInt 2) None (PadInt 1)) ex_s) = Raise TypeError.
Proof. split; [exact ex_s_tables|]. split; [left; split; auto; vm_compute; auto|]. vm_compute. reflexivity. Qed.
Theorem C63_partial : forall sp sc s a names kx ky, responses_ok sp sc -> tables_ok s -> i_names s <> [] -> m_ks a = KsSeq [kx; ky] -> (2 <= kx)%Z -> (2 <= ky)%Z -> m_beam a = None -> m_norm a <> NOther -> plain_pad (m_pad a) ->
  (names = [] -> i_fnames s <> []) -> NoDup names ->
  (forall f, covers names s f -> exists g, dget (i_fields s) f = Some g /\ observable g /\ g_nprop g = 1%nat /\ forall d x, dget (i_dets s) d = Some x ->
     exists r v r' w, d_spat x = Some r /\ d_spec x = Some r' /\ sc (fst r') (snd r') (nth 2 (g_centers g) []) = Ok w /\
       sp (fst r) (snd r) (beam_axis (Z.to_nat kx) (fnth (g_pix g) 0)) (beam_axis (Z.to_nat ky) (fnth (g_pix g) 1)) (nth 2 (g_centers g) []) = Ok v /\ shape v = [Z.to_nat kx; Z.to_nat ky; nth 2 (g_npix g) 0%nat]) ->
  exists s', map_fields sp sc names a s = (s', Ok tt).
Proof. exact size_map. Qed.
Print Assumptions C63_partial.
