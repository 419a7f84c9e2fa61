(** Property theorems C18, C19, C23: summing properties, copying and storing grids,
    rescaling axes. *)
From Coq Require Import String.
From Verif Require Import Util Rat Val Arr GridModel GridModel2 GridSpec GridAxis GridNew GridAdd GridCat GridSpectra GridSpecFunc GridEx GridPad GridCrop GridOps GridFiles.
Open Scope Qc_scope.

(** * C18: sum_properties *)
Theorem C18_in_place {A : Alg} (g : grid A) d ps : consistent g -> g_data g = Some d ->
  (forall p, In p ps -> (p < g_nprop g)%nat) ->
  exists g', sum_props_in_place g (Some (map Z.of_nat ps)) = (g', Ok tt) /\ consistent g' /\ same_geometry g g' /\
    g_nprop g' = (g_nprop g + 1)%nat /\ g_nobj g' = g_nobj g /\ g_gru g' = g_gru g /\
    forall ix, inb (g_npix g) ix = true ->
      (forall k, (k < g_nprop g)%nat -> cell g' ix k = cell g ix k) /\
      cell g' ix (g_nprop g) = vsum (map (cell g ix) ps).
Proof. exact (c18_in_place g d ps). Qed.
Print Assumptions C18_in_place.

(** properties=None is the same as naming every property *)
Theorem C18_default {A : Alg} (g : grid A) : 
  sum_props_in_place g None = sum_props_in_place g (Some (map Z.of_nat (seq 0 (g_nprop g)))) /\
  sum_props_new g None = sum_props_new g (Some (map Z.of_nat (seq 0 (g_nprop g)))).
Proof. exact (c18_default g). Qed.
Print Assumptions C18_default.

(** a bad property index raises and leaves the grid alone *)
Theorem C18_rejects {A : Alg} (g : grid A) l z : In z l -> (z < 0 \/ Z.of_nat (g_nprop g) <= z)%Z ->
  sum_props_in_place g (Some l) = (g, Raise ValueError) /\ sum_props_new g (Some l) = Raise ValueError.
Proof. exact (c18_rejects g l z). Qed.
Print Assumptions C18_rejects.

(** Out of place, the claim is that a one-property grid with the same geometry and
    space flags comes back.  It holds for grids with one unit entry and no Fourier or
    power-spectrum flags; the next two theorems show that it fails otherwise. *)
Theorem C18_new_partial {A : Alg} (g : grid A) d ps : consistent g -> floats g -> g_data g = Some d ->
  (forall p, In p ps -> (p < g_nprop g)%nat) ->
  length (g_gru g) = 1%nat -> g_fsp g = repeat false (g_ndim g) -> g_ispow g = false ->
  exists g', sum_props_new g (Some (map Z.of_nat ps)) = Ok g' /\ consistent g' /\ same_geometry g g' /\
    g_nprop g' = 1%nat /\ g_gru g' = g_gru g /\
    forall ix, inb (g_npix g) ix = true -> cell g' ix 0 = vsum (map (cell g ix) ps).
Proof. exact (c18_new g d ps). Qed.
Print Assumptions C18_new_partial.

(** a grid with two or more properties, as constructed, always raises *)
Theorem C18_new_raises_refuted {A : Alg} (g : grid A) d ps : consistent g -> floats g -> g_data g = Some d ->
  (forall p, In p ps -> (p < g_nprop g)%nat) -> length (g_gru g) <> 1%nat ->
  sum_props_new g (Some (map Z.of_nat ps)) = Raise ValueError.
Proof. exact (c18_new_raises g d ps). Qed.
Print Assumptions C18_new_raises_refuted.

(** and the space and power flags of the result are always cleared *)
Theorem C18_new_flags_refuted {A : Alg} (g g' : grid A) d ps : consistent g -> floats g -> g_data g = Some d ->
  (forall p, In p ps -> (p < g_nprop g)%nat) ->
  sum_props_new g (Some (map Z.of_nat ps)) = Ok g' ->
  g_fsp g' = repeat false (g_ndim g) /\ g_ispow g' = false.
Proof. exact (c18_new_flags g g' d ps). Qed.
Print Assumptions C18_new_flags_refuted.

Example C18_nonvacuous : consistent ex_g /\ (exists d, g_data ex_g = Some d) /\
  (forall p, In p [1; 0]%nat -> (p < g_nprop ex_g)%nat) /\ length (g_gru ex_g) = 2%nat /\
  consistent ex_g3 /\ floats ex_g3 /\ length (g_gru ex_g3) = 1%nat /\ g_fsp ex_g3 = repeat false (g_ndim ex_g3).
Proof.
  split; [exact ex_consistent|]. split; [eexists; reflexivity|].
  split; [rewrite ex_nprop; simpl; intros p [<-|[<-|[]]]; lia|].
  split; [vm_compute; reflexivity|]. split; [exact ex3_consistent|].
  split; [repeat split; vm_compute; reflexivity|]. split; vm_compute; reflexivity.
Qed.

(** * C19: copies and files *)
(** [length (g_gru g) = g_nprop g] holds for every new grid (see C19_units_new) but
    not after a property is added. *)
Theorem C19_copy_partial {A : Alg} (g : grid A) : consistent g -> floats g -> length (g_gru g) = g_nprop g ->
  (g_data g = None -> g_nobj g = 0%nat) -> grid_copy g None = Ok g.
Proof. exact (copy_all g). Qed.
Print Assumptions C19_copy_partial.

Theorem C19_save_load_partial {A : Alg} (fs : fsys A) (g : grid A) p ow : consistent g -> floats g ->
  length (g_gru g) = g_nprop g -> (g_data g = None -> g_nobj g = 0%nat) ->
  ends_npz p = true -> (fs p = None \/ ow = true) ->
  exists fs', grid_save fs g p ow = (fs', Ok tt) /\ load_grid fs' p = Ok g /\ (forall q, q <> p -> fs' q = fs q).
Proof. exact (save_load fs g p ow). Qed.
Print Assumptions C19_save_load_partial.

Theorem C19_units_new {A : Alg} np c s p au gu (g : grid A) : grid_new A np c s p au gu = Ok g ->
  length (g_gru g) = np /\ g_nprop g = np.
Proof. exact (new_gru np c s p au gu g). Qed.
Print Assumptions C19_units_new.

(** with a name that already ends in .npz an existing file survives overwrite=False *)
Theorem C19_no_overwrite_partial {A : Alg} (fs fs' : fsys A) (g : grid A) p ow r : grid_save fs g p ow = (fs', r) ->
  ends_npz p = true ->
  (forall q, q <> p -> fs' q = fs q) /\ (ow = false -> fs p <> None -> fs' p = fs p).
Proof. exact (save_only_there fs fs' g p ow r). Qed.
Print Assumptions C19_no_overwrite_partial.

(** without the suffix, the file actually written is replaced whatever it held, and
    the path passed to save cannot be passed to LoadGrid *)
Theorem C19_overwrite_refuted {A : Alg} (fs : fsys A) (g : grid A) p : ends_npz p = false -> fs p = None ->
  exists fs', grid_save fs g p false = (fs', Ok tt) /\
    fs' (String.append p ".npz") = Some (GridFile (to_saved g)) /\ fs' p = fs p.
Proof. exact (save_replaces fs g p). Qed.
Print Assumptions C19_overwrite_refuted.

(** selecting properties works when there is a single unit entry ... *)
Theorem C19_subset_partial {A : Alg} (g : grid A) ps : consistent g -> floats g -> (g_data g = None -> g_nobj g = 0%nat) ->
  (forall p, In p ps -> (p < g_nprop g)%nat) -> length (g_gru g) = 1%nat ->
  exists g', grid_copy g (Some (map Z.of_nat ps)) = Ok g' /\ consistent g' /\ floats g' /\ same_geometry g g' /\
    g_nprop g' = length ps /\ g_nobj g' = g_nobj g /\ g_gru g' = repeat (hd None (g_gru g)) (length ps) /\
    (g_data g = None <-> g_data g' = None) /\
    forall ix j, inb (g_npix g) ix = true -> (j < length ps)%nat -> cell g' ix j = cell g ix (nth j ps 0%nat).
Proof. exact (copy_subset g ps). Qed.
Print Assumptions C19_subset_partial.

(** ... and always raises otherwise, unless as many properties are kept as there are units *)
Theorem C19_subset_refuted {A : Alg} (g : grid A) ps : consistent g -> floats g -> (g_data g = None -> g_nobj g = 0%nat) ->
  (forall p, In p ps -> (p < g_nprop g)%nat) -> (2 <= length (g_gru g))%nat -> length ps <> length (g_gru g) ->
  grid_copy g (Some (map Z.of_nat ps)) = Raise ValueError.
Proof. exact (copy_subset_raises g ps). Qed.
Print Assumptions C19_subset_refuted.

(** after a property has been appended the grid can be neither copied nor reloaded *)
Theorem C19_after_sum_refuted {A : Alg} (fs : fsys A) (g : grid A) d ps p : consistent g -> floats g -> g_data g = Some d ->
  (forall p, In p ps -> (p < g_nprop g)%nat) -> (2 <= g_nprop g)%nat -> length (g_gru g) = g_nprop g ->
  exists g', sum_props_in_place g (Some (map Z.of_nat ps)) = (g', Ok tt) /\
     grid_copy g' None = Raise ValueError /\
     load_grid (fs_set fs p (GridFile (to_saved g'))) p = Raise ValueError.
Proof. exact (sum_then_copy_raises fs g d ps p). Qed.
Print Assumptions C19_after_sum_refuted.

Example C19_nonvacuous : consistent ex_g /\ floats ex_g /\ length (g_gru ex_g) = g_nprop ex_g /\
  g_nobj ex_g = 0%nat /\ ends_npz "map.npz" = true /\ ends_npz "map" = false /\
  is_ok (load_grid (fst (grid_save (fun _ => None) ex_g "map.npz" false)) "map.npz") = true.
Proof.
  split; [exact ex_consistent|]. split; [repeat split; vm_compute; reflexivity|].
  repeat split; vm_compute; reflexivity.
Qed.

(** * C23: rescaling axes.  The claim is for every list of named axes; the code reads
    [factor[axis]] instead of the entry given for that axis. *)
Theorem C23_scale_partial {A : Alg} (g : grid A) ax factor : consistent g -> floats g -> scale_call_ok g ax factor ->
  let fs := spread ax factor in factors_agree ax fs ->
  exists g', grid_scale_axis g (map Z.of_nat ax) factor true = (g', Ok tt) /\ floats g' /\
    rescaled (factor_of ax fs) g g' /\
    ((forall f, In f factor -> 0 < f) -> consistent g').
Proof. exact (c23_scale g ax factor). Qed.
Print Assumptions C23_scale_partial.

Theorem C23_single_axis_refuted {A : Alg} (g : grid A) i f : (0 < i < g_ndim g)%nat ->
  grid_scale_axis g [Z.of_nat i] [f] true = (g, Raise IndexError).
Proof. exact (c23_single g i f). Qed.
Print Assumptions C23_single_axis_refuted.

(** keeping the centre fixed always fails, after the side length was changed *)
Theorem C23_fixed_center_refuted {A : Alg} (g : grid A) f : consistent g -> floats g -> (0 < g_ndim g)%nat ->
  exists g', grid_scale_axis g [0%Z] [f] false = (g', Raise AttributeError) /\
    fnth (g_side g') 0 = fnth (g_side g) 0 * f /\ g_axes g' = g_axes g.
Proof. exact (c23_fixed_center g f). Qed.
Print Assumptions C23_fixed_center_refuted.

Example C23_nonvacuous : consistent ex_g /\ floats ex_g /\ scale_call_ok ex_g [1; 0]%nat [zq 3; zq 3] /\
  factors_agree [1; 0]%nat (spread [1; 0]%nat [zq 3; zq 3]) /\ scale_call_ok ex_g [0; 1]%nat [zq 3; zq 2] /\
  factors_agree [0; 1]%nat (spread [0; 1]%nat [zq 3; zq 2]).
Proof.
  split; [exact ex_consistent|]. split; [repeat split; vm_compute; reflexivity|].
  split; [|split; [|split]].
  1,3: split; [repeat constructor; simpl; intuition discriminate|]; split; [rewrite ex_ndim; simpl; intros a [<-|[<-|[]]]; lia|reflexivity].
  all: intros i [<-|[<-|[]]]; reflexivity.
Qed.
