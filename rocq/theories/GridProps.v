(** Property theorems C01-C10: grid construction, gridding, sampling, spectra. *)
From Verif Require Import Util Rat Val Arr GridModel GridSpec GridAxis GridNew GridAdd GridCat GridSpectra GridSpecFunc GridEx.
From Coq Require Import Permutation.
Open Scope Qc_scope.

(** * C01: construction *)
Theorem C01_construction A np center side pix au gu (g : grid A) :
  (forall x, In x (fv pix) -> 0 < x) ->
  grid_new A np center side pix au gu = Ok g ->
  g_ndim g = flen center /\ g_nprop g = np /\ g_nobj g = 0%nat /\ g_data g = None /\ g_center g = center /\
  consistent g.
Proof. exact (grid_new_built A np center side pix au gu g). Qed.
Print Assumptions C01_construction.

Theorem C01_raises_exactly A np center side pix au gu :
  (forall x, In x (fv pix) -> 0 < x) ->
  (exists g, grid_new A np center side pix au gu = Ok g) <->
  lens_ok (flen center) (flen side) /\ lens_ok (flen center) (flen pix) /\
  units_ok (flen center) au /\ units_ok np gu /\
  (forall i, (i < flen center)%nat -> frac 21 20 * bval pix i < bval side i).
Proof. exact (grid_new_success A np center side pix au gu). Qed.
Print Assumptions C01_raises_exactly.

(** what [consistent] gives for the edges of one axis *)
Theorem C01_axis {A} (g : grid A) i : consistent g -> (i < g_ndim g)%nat ->
  let e := nth i (g_axes g) [] in
  let n := nth i (g_npix g) 0%nat in
  length e = S n /\ (2 <= n)%nat /\ length (nth i (g_centers g) []) = n /\
  last e 0 - hd 0 e = fnth (g_side g) i /\ fnth (g_side g) i = nq n * fnth (g_pix g) i /\
  (hd 0 e + last e 0) / zq 2 = fnth (g_center g) i /\
  (forall k, (k < n)%nat -> nth (S k) e 0 - nth k e 0 = fnth (g_pix g) i /\
                            nth k (nth i (g_centers g) []) 0 = nth k e 0 + fnth (g_pix g) i / zq 2).
Proof. exact (consistent_axis g i). Qed.
Print Assumptions C01_axis.

Example C01_nonvacuous : exists g, grid_new QcAlg 2 (fl [0; 1]%Z) (fl [4; 6]%Z) (fl [1; 2]%Z) None None = Ok g /\ consistent g.
Proof. eexists. split; [exact ex_ok|]. eapply grid_new_consistent; [exact ex_ok|]. intros x. apply fl_pos. reflexivity. Qed.

(** * C02: side length rounding *)
Theorem C02_side_partial A np center side pix au gu (g : grid A) i :
  grid_new A np center side pix au gu = Ok g -> (i < flen center)%nat -> 0 < bval pix i ->
  fnth (g_pix g) i = bval pix i /\
  bval side i - bval pix i * frac 1 20 <= fnth (g_side g) i /\
  fnth (g_side g) i < bval side i + bval pix i /\
  (forall k, bval side i = zq k * bval pix i ->
     fnth (g_side g) i = bval side i /\ nth i (g_npix g) 0%nat = Z.to_nat k).
Proof. exact (grid_new_side A np center side pix au gu g i). Qed.
Print Assumptions C02_side_partial.

(** the grid does not always cover the requested side (full claim is false) *)
Theorem C02_covers_refuted : exists center side pix (g : grid QcAlg),
  grid_new QcAlg 1 center side pix None None = Ok g /\ 0 < fnth pix 0 /\
  fnth (g_side g) 0 < fnth side 0.
Proof. exact c02_shrinks. Qed.
Print Assumptions C02_covers_refuted.

Example C02_nonvacuous : exists g : grid QcAlg,
  grid_new QcAlg 1 (fl [0]%Z) (mkF false [frac 32 10]) (fl [1]%Z) None None = Ok g /\ fnth (g_side g) 0 = zq 4.
Proof. exact c02_ex. Qed.

(** * C03: every object goes to exactly the cell that brackets it *)
Theorem C03_cells {A : Alg} (g : grid A) d rows vals props ps :
  consistent g -> ready g d -> rows_ok (g_ndim g) rows ->
  val_rows vals (length rows) = length rows -> val_cols vals = 1%nat ->
  check_props g props = Ok ps ->
  exists d' n,
    add_from_cat g (Pos2 (g_ndim g) rows) vals false props = (with_nobj (with_data g (Some d')) n, Ok tt) /\
    shape d' = shape d /\
    forall ix k, inb (g_npix g) ix = true -> (k < g_nprop g)%nat ->
      getd v0 d' (ix ++ [k]) =
      (getd v0 d (ix ++ [k]) + scaled (times k ps) (cell_total g ix rows (val_col vals (length rows) 0)))%V.
Proof. exact (c03_cells g d rows vals props ps). Qed.
Print Assumptions C03_cells.

Theorem C03_new_property {A : Alg} (g : grid A) d rows vals props :
  consistent g -> ready g d -> rows_ok (g_ndim g) rows -> rows <> [] ->
  val_rows vals (length rows) = length rows ->
  exists d',
    add_from_cat g (Pos2 (g_ndim g) rows) vals true props
      = (with_nobj (with_nprop (with_data g (Some d')) (g_nprop g + val_cols vals)) (g_nobj g + inside_count g rows), Ok tt) /\
    awf d' /\ shape d' = g_npix g ++ [g_nprop g + val_cols vals]%nat /\
    forall ix k, inb (g_npix g) ix = true -> (k < g_nprop g + val_cols vals)%nat ->
      getd v0 d' (ix ++ [k]) =
      if (k <? g_nprop g)%nat then getd v0 d (ix ++ [k])
      else cell_total g ix rows (val_col vals (length rows) (k - g_nprop g)).
Proof. exact (add_from_cat_new g d rows vals props). Qed.
Print Assumptions C03_new_property.

Theorem C03_unique_cell {A : Alg} (g : grid A) r : consistent g -> length r = g_ndim g ->
  (in_extent (g_axes g) r = true <-> exists ix, in_cell g ix r = true) /\
  (forall ix, in_cell g ix r = true -> inb (g_npix g) ix = true) /\
  (forall ix jx, in_cell g ix r = true -> in_cell g jx r = true -> ix = jx).
Proof. exact (cell_unique g r). Qed.
Print Assumptions C03_unique_cell.

Example C03_nonvacuous : consistent ex_g /\ ready ex_g (full (g_npix ex_g ++ [g_nprop ex_g]) v0) /\
  rows_ok (g_ndim ex_g) [[frac 1 2; zq 1]; [zq 9; zq 1]] /\ check_props ex_g (Some [1]%Z) = Ok [1%nat].
Proof. exact (conj ex_consistent (conj ex_ready (conj ex_rows eq_refl))). Qed.

(** * C04: conservation and counting *)
Theorem C04_conservation {A : Alg} (g : grid A) d rows vals props ps :
  consistent g -> ready g d -> rows_ok (g_ndim g) rows ->
  val_rows vals (length rows) = length rows -> val_cols vals = 1%nat ->
  check_props g props = Ok ps ->
  exists d',
    add_from_cat g (Pos2 (g_ndim g) rows) vals false props
      = (with_nobj (with_data g (Some d')) (g_nobj g + inside_count g rows), Ok tt) /\
    forall k, (k < g_nprop g)%nat ->
      prop_total (g_npix g) d' k =
      (prop_total (g_npix g) d k + scaled (times k ps) (inside_total g rows (val_col vals (length rows) 0)))%V.
Proof. exact (c04_conservation g d rows vals props ps). Qed.
Print Assumptions C04_conservation.

Theorem C04_conservation_new {A : Alg} (g : grid A) d rows vals props :
  consistent g -> ready g d -> rows_ok (g_ndim g) rows -> rows <> [] ->
  val_rows vals (length rows) = length rows ->
  exists d' g',
    add_from_cat g (Pos2 (g_ndim g) rows) vals true props = (g', Ok tt) /\
    g_data g' = Some d' /\ g_nobj g' = (g_nobj g + inside_count g rows)%nat /\
    (forall k, (k < g_nprop g)%nat -> prop_total (g_npix g) d' k = prop_total (g_npix g) d k) /\
    (forall k, (k < val_cols vals)%nat ->
      prop_total (g_npix g) d' (g_nprop g + k) = inside_total g rows (val_col vals (length rows) k)).
Proof. exact (c04_new g d rows vals props). Qed.
Print Assumptions C04_conservation_new.

Example C04_nonvacuous :
  snd (add_from_cat ex_g (Pos2 2 [[frac 1 2; zq 1]; [zq 9; zq 1]; [zq (-1); zq 3]]) (Val1 (A:=QcAlg) [zq 5; zq 7; zq 2]) false None) = Ok tt
  /\ g_nobj (fst (add_from_cat ex_g (Pos2 2 [[frac 1 2; zq 1]; [zq 9; zq 1]; [zq (-1); zq 3]]) (Val1 (A:=QcAlg) [zq 5; zq 7; zq 2]) false None)) = 2%nat.
Proof. split; vm_compute; reflexivity. Qed.

(** * C05: order independence, incrementality, rejected calls *)
Theorem C05_order {A : Alg} (g : grid A) ncol rows rows' vals vals' new props :
  val_rows vals (length rows) = length rows -> val_rows vals' (length rows') = length rows' ->
  val_cols vals = val_cols vals' ->
  Permutation (objects rows vals) (objects rows' vals') ->
  add_from_cat g (Pos2 ncol rows) vals new props = add_from_cat g (Pos2 ncol rows') vals' new props.
Proof. exact (add_from_cat_perm g ncol rows rows' vals vals' new props). Qed.
Print Assumptions C05_order.

Theorem C05_split {A : Alg} (g : grid A) rows1 rows2 v1 v2 v props g1 :
  val_app v1 v2 = Some v ->
  val_rows v1 (length rows1) = length rows1 -> val_rows v2 (length rows2) = length rows2 ->
  add_from_cat g (Pos2 (g_ndim g) rows1) v1 false props = (g1, Ok tt) ->
  add_from_cat g (Pos2 (g_ndim g) (rows1 ++ rows2)) v false props = add_from_cat g1 (Pos2 (g_ndim g) rows2) v2 false props.
Proof. intros H1 H2 H3. exact (add_from_cat_split g _ rows1 rows2 v1 v2 v props g1 H1 H2 H3 eq_refl). Qed.
Print Assumptions C05_split.

Theorem C05_rejected_partial {A : Alg} (g : grid A) pos vals new props g' e :
  add_from_cat g pos vals new props = (g', Raise e) -> e <> IndexError -> g' = g.
Proof. exact (add_from_cat_rejected g pos vals new props g' e). Qed.
Print Assumptions C05_rejected_partial.

(** a rejected call can leave the grid modified *)
Theorem C05_rejected_refuted : exists (g g' : grid QcAlg) rows vals props d d',
  consistent g /\ g_data g = Some d /\ rows_ok (g_ndim g) rows /\
  add_from_cat g (Pos2 (g_ndim g) rows) vals false props = (g', Raise IndexError) /\
  g_data g' = Some d' /\ getd v0 d' [2; 1; 0]%nat <> getd v0 d [2; 1; 0]%nat.
Proof. exact c05_rejected_mutates. Qed.
Print Assumptions C05_rejected_refuted.

Example C05_nonvacuous :
  Permutation (objects [[frac 1 2; zq 1]; [zq 9; zq 1]] (Val1 (A:=QcAlg) [zq 5; zq 7]))
              (objects [[zq 9; zq 1]; [frac 1 2; zq 1]] (Val1 (A:=QcAlg) [zq 7; zq 5])) /\
  val_app (Val1 (A:=QcAlg) [zq 5]) (Val1 (A:=QcAlg) [zq 7]) = Some (Val1 (A:=QcAlg) [zq 5; zq 7]).
Proof. split; [apply perm_swap|reflexivity]. Qed.

(** * C06: column routing.  Column [p] goes to property [p]; this is the j-th
      requested property only when the request is an initial segment. *)
Theorem C06_routing_partial {A : Alg} (g : grid A) d rows vals props ps :
  consistent g -> ready g d -> rows_ok (g_ndim g) rows ->
  val_rows vals (length rows) = length rows ->
  check_props g props = Ok ps ->
  (val_cols vals = 1%nat \/ (val_cols vals = length ps /\ ps = seq 0 (length ps))) ->
  exists d',
    add_from_cat g (Pos2 (g_ndim g) rows) vals false props
      = (with_nobj (with_data g (Some d')) (g_nobj g + inside_count g rows), Ok tt) /\
    (forall ix j p, inb (g_npix g) ix = true -> nth_error ps j = Some p -> times p ps = 1%nat ->
      getd v0 d' (ix ++ [p]) =
      (getd v0 d (ix ++ [p]) + cell_total g ix rows (val_col vals (length rows) (if (val_cols vals =? 1)%nat then 0 else j)))%V) /\
    (forall ix k, inb (g_npix g) ix = true -> (k < g_nprop g)%nat -> ~ In k ps ->
      getd v0 d' (ix ++ [k]) = getd v0 d (ix ++ [k])).
Proof. exact (c06_routing g d rows vals props ps). Qed.
Print Assumptions C06_routing_partial.

(** with properties [1,0] the two columns silently end up swapped *)
Theorem C06_routing_refuted : exists (g g' : grid QcAlg) rows c0 c1 d',
  consistent g /\ rows_ok (g_ndim g) rows /\ length rows = length c0 /\ length c0 = length c1 /\
  add_from_cat g (Pos2 (g_ndim g) rows) (Val2 (A:=QcAlg) 2 (map (fun p : QcAlg * QcAlg => [fst p; snd p]) (combine c0 c1))) false (Some [1; 0]%Z) = (g', Ok tt) /\
  g_data g' = Some d' /\
  exists ix, getd v0 d' (ix ++ [1%nat]) <> cell_total g ix rows c0 /\ getd v0 d' (ix ++ [1%nat]) = cell_total g ix rows c1.
Proof. exact c06_swapped. Qed.
Print Assumptions C06_routing_refuted.

Example C06_nonvacuous : check_props ex_g None = Ok [0; 1]%nat /\ [0; 1]%nat = seq 0 2 /\ times 1 [0; 1]%nat = 1%nat.
Proof. repeat split; vm_compute; reflexivity. Qed.

(** * C07: sampling *)
Theorem C07_sample {A : Alg} (g : grid A) d rows props ps :
  consistent g -> g_data g = Some d -> rows_ok (g_ndim g) rows -> check_props g props = Ok ps ->
  exists out, grid_sample g (g_ndim g) rows props = Ok out /\ length out = length rows /\
    forall i r, nth_error rows i = Some r ->
      exists o, nth_error out i = Some o /\ length o = length ps /\
        forall j p, nth_error ps j = Some p ->
          (in_extent (g_axes g) r = false -> nth_error o j = Some None) /\
          (forall ix, in_cell g ix r = true -> nth_error o j = Some (get d (ix ++ [p]))).
Proof. exact (grid_sample_ok g d rows props ps). Qed.
Print Assumptions C07_sample.

Theorem C07_sample_after_gridding {A : Alg} np c s p au gu (g0 : grid A) rows (vs : list A) r :
  grid_new A np c s p au gu = Ok g0 -> (forall x, In x (fv p) -> 0 < x) ->
  rows_ok (flen c) rows -> length vs = length rows -> length r = flen c ->
  exists g1 out,
    add_from_cat (init_grid g0) (Pos2 (flen c) rows) (Val1 vs) false None = (g1, Ok tt) /\
    grid_sample g1 (flen c) [r] None = Ok [out] /\ length out = np /\
    (in_extent (g_axes g0) r = false -> forall k, (k < np)%nat -> nth_error out k = Some None) /\
    (forall ix, in_cell g0 ix r = true -> forall k, (k < np)%nat ->
       nth_error out k = Some (Some (cell_total g0 ix rows vs))).
Proof. exact (sample_after_gridding np c s p au gu g0 rows vs r). Qed.
Print Assumptions C07_sample_after_gridding.

Example C07_nonvacuous : in_cell ex_g [2; 1]%nat [frac 1 2; zq 1] = true /\ in_extent (g_axes ex_g) [zq 9; zq 1] = false.
Proof. split; vm_compute; reflexivity. Qed.

(** * C08: spectra are the same as one object per channel *)
Theorem C08_spectra {A : Alg} (g : grid A) d axz ax rows (vals : list (list A)) new props ps :
  consistent g -> ready g d -> norm_axis g axz = Ok ax -> (2 <= g_ndim g)%nat ->
  rows_ok (g_ndim g - 1) rows -> length vals = length rows ->
  Forall (fun v => length v = nth ax (g_npix g) 0%nat) vals ->
  check_props g props = Ok ps ->
  exists g1 g2,
    add_from_pos_plus_array g (Pos2 (g_ndim g - 1) rows) vals axz new props = (g1, Ok tt) /\
    add_from_cat g (Pos2 (g_ndim g) (expand g ax rows)) (Val1 (concat vals)) new props = (g2, Ok tt) /\
    with_nobj g1 0 = with_nobj g2 0 /\ g_nobj g1 = (g_nobj g + over_count g ax rows)%nat.
Proof. exact (pos_plus_as_cat g d axz ax rows vals new props ps). Qed.
Print Assumptions C08_spectra.

(** every axis number from -ndim to ndim-1 is accepted and means what Python means by it *)
Theorem C08_axis {A : Alg} (g : grid A) axz :
  (forall k, (k < g_ndim g)%nat -> norm_axis g (Z.of_nat k) = Ok k /\ norm_axis g (Z.of_nat k - Z.of_nat (g_ndim g)) = Ok k) /\
  ((exists ax, norm_axis g axz = Ok ax) <-> (- Z.of_nat (g_ndim g) <= axz < Z.of_nat (g_ndim g))%Z).
Proof. exact (norm_axis_python g axz). Qed.
Print Assumptions C08_axis.

Example C08_nonvacuous : norm_axis ex_g3 (-2) = Ok 1%nat /\
  rows_ok (g_ndim ex_g3 - 1) [[frac 1 2; - frac 1 2]; [zq 7; zq 0]] /\
  Forall (fun v : list QcAlg => length v = nth 1 (g_npix ex_g3) 0%nat) [[zq 1; zq 2; zq 3]; [zq 4; zq 5; zq 6]].
Proof. exact c08_ex. Qed.

(** * C09: chunking is invisible *)
Theorem C09_chunks {A : Alg} {P} (g : grid A) d axz ax rows (spec : list Qc -> list P -> list (list A)) (f : list Qc -> P -> list A)
    args (cum loop loop' careful careful' new : bool) props ps :
  consistent g -> ready g d -> norm_axis g axz = Ok ax -> (2 <= g_ndim g)%nat ->
  rows_ok (g_ndim g - 1) rows -> length args = length rows ->
  (forall axis args, spec axis args = map (f axis) args) ->
  (forall a, length (f (nth ax (g_axes g) []) a) = S (nth ax (g_npix g) 0%nat)) ->
  (forall a, length (f (nth ax (g_centers g) []) a) = nth ax (g_npix g) 0%nat) ->
  check_props g props = Ok ps ->
  add_from_spec_func g (Pos2 (g_ndim g - 1) rows) spec args axz cum loop careful new props
  = add_from_spec_func g (Pos2 (g_ndim g - 1) rows) spec args axz cum loop' careful' new props
  /\ snd (add_from_spec_func g (Pos2 (g_ndim g - 1) rows) spec args axz cum loop careful new props) = Ok tt.
Proof. exact (c09_chunks g d axz ax rows spec f args cum loop loop' careful careful' new props ps). Qed.
Print Assumptions C09_chunks.

Theorem C09_is_one_call {A : Alg} {P} (g : grid A) d axz ax rows (spec : list Qc -> list P -> list (list A)) (f : list Qc -> P -> list A)
    args (cum loop careful new : bool) props ps :
  consistent g -> ready g d -> norm_axis g axz = Ok ax -> (2 <= g_ndim g)%nat ->
  rows_ok (g_ndim g - 1) rows -> length args = length rows ->
  (forall axis args, spec axis args = map (f axis) args) ->
  let axis := if cum then nth ax (g_axes g) [] else nth ax (g_centers g) [] in
  let values := map (fun a => if cum then vdiff (f axis a) else f axis a) args in
  Forall (fun v => length v = nth ax (g_npix g) 0%nat) values ->
  check_props g props = Ok ps ->
  add_from_spec_func g (Pos2 (g_ndim g - 1) rows) spec args axz cum loop careful new props
  = add_from_pos_plus_array g (Pos2 (g_ndim g - 1) rows) values axz new props.
Proof. exact (add_from_spec_func_eq g d axz ax rows spec f args cum loop careful new props ps). Qed.
Print Assumptions C09_is_one_call.

(** five objects, chunks of four: more than one chunk is used *)
Example C09_nonvacuous : size (del_nth (g_npix ex_g3) 1) = 4%nat /\ ((5 + 4 - 1) / 4)%nat = 2%nat.
Proof. split; vm_compute; reflexivity. Qed.

(** * C10: cumulative spectra conserve flux *)
Theorem C10_flux {A : Alg} {P} (g : grid A) d axz ax rows (spec : list Qc -> list P -> list (list A)) (F : P -> Qc -> A) args loop careful props ps ix :
  consistent g -> ready g d -> norm_axis g axz = Ok ax -> (2 <= g_ndim g)%nat ->
  rows_ok (g_ndim g - 1) rows -> length args = length rows ->
  (forall axis args, spec axis args = map (fun a => map (F a) axis) args) ->
  check_props g props = Ok ps -> inb (del_nth (g_npix g) ax) ix = true ->
  exists d',
    fst (add_from_spec_func g (Pos2 (g_ndim g - 1) rows) spec args axz true loop careful false props)
      = with_nobj (with_data g (Some d')) (g_nobj g + over_count g ax rows) /\
    forall k, (k < g_nprop g)%nat ->
    vsum (map (fun j => getd v0 d' (ins_nth ix ax j ++ [k])) (seq 0 (nth ax (g_npix g) 0%nat))) =
    (vsum (map (fun j => getd v0 d (ins_nth ix ax j ++ [k])) (seq 0 (nth ax (g_npix g) 0%nat)))
     + scaled (times k ps) (vsum (map (fun ra => F (snd ra) (last (nth ax (g_axes g) []) 0%Qc) - F (snd ra) (hd 0%Qc (nth ax (g_axes g) [])))
         (filter (fun ra => in_box (del_nth (g_axes g) ax) ix (fst ra)) (combine rows args)))))%V.
Proof. exact (cumulative_flux g d axz ax rows spec F args loop careful props ps ix). Qed.
Print Assumptions C10_flux.

Example C10_nonvacuous : inb (del_nth (g_npix ex_g3) 1) [1; 0]%nat = true /\
  in_box (del_nth (g_axes ex_g3) 1) [1; 0]%nat [frac 1 2; - frac 1 2] = true.
Proof. split; vm_compute; reflexivity. Qed.
