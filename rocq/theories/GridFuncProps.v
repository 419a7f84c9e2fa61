(** C128: grids built from axes and filled by a function. *)
From Verif Require Import Util Rat Val Arr GridModel GridSpec GridModel2 GridSpec2 GridNew GridMore GridCollapse.
Open Scope Qc_scope.

(** the midpoints between neighbouring edges *)
Definition mids (e : list Qc) : list Qc := map (fun k => (nth k e 0 + nth (S k) e 0) / zq 2) (seq 0 (length e - 1)).
(** the number of cells along each axis *)
Definition cells (axes : list (list Qc)) : list nat := map (fun e => length e - 1)%nat axes.

Lemma from_axes_geom {A : Alg} axes np au gu : axes <> [] -> Forall uniform_edges axes -> units_ok (length axes) au -> units_ok np gu ->
  exists g : grid A, grid_from_axes axes np au gu = Ok g /\ consistent g /\ g_nprop g = np /\ g_ndim g = length axes /\ g_data g = None /\
    g_axes g = axes /\ g_centers g = map mids axes /\ g_npix g = cells axes.
Proof.
  intros Ne U Ua Ug. destruct (c25_edges (A := A) axes np au gu Ne U Ua Ug) as (g & E & C & Np & Nd & D & Ax & Ce).
  exists g. do 6 (split; [assumption|]).
  assert (L : forall i, (i < length axes)%nat -> nth i (g_npix g) 0%nat = (length (nth i axes []) - 1)%nat /\ length (nth i (g_centers g) []) = (length (nth i axes []) - 1)%nat).
  { intros i Hi. rewrite <- Nd in Hi. pose proof (co_axis _ C i Hi) as K. rewrite Ax in K. pose proof (ao_elen _ _ _ _ _ _ _ _ K). pose proof (ao_clen _ _ _ _ _ _ _ _ K). lia. }
  split.
  - apply (nth_ext _ _ [] []); [rewrite map_length, (co_ce _ C); exact Nd|]. intros i Hi. rewrite (co_ce _ C), Nd in Hi.
    rewrite (nth_map' mids axes i []) by exact Hi. destruct (L i Hi) as [_ L2].
    apply (nth_ext _ _ 0 0); [unfold mids; rewrite map_length, seq_length; exact L2|]. intros k Hk. rewrite L2 in Hk.
    rewrite Ce by lia. unfold mids. rewrite (nth_map' _ _ k 0%nat) by (rewrite seq_length; exact Hk). rewrite seq_nth by exact Hk. reflexivity.
  - apply (nth_ext _ _ 0%nat 0%nat); [unfold cells; rewrite map_length, (co_n _ C); exact Nd|]. intros i Hi. rewrite (co_n _ C), Nd in Hi.
    unfold cells. rewrite (nth_map' _ axes i []) by exact Hi. apply L. exact Hi.
Qed.

(** For uniformly spaced edges and one property, a function that gives one value for each cell fills the grid: it is called with the midpoints
    of the edges and cell [ix] holds its value at [ix]. The grid has the edges that were given. *)
Theorem C128_values_partial {A : Alg} (f : list (list Qc) -> arr A) axes au gu : axes <> [] -> Forall uniform_edges axes ->
  units_ok (length axes) au -> units_ok 1 gu -> awf (f (map mids axes)) -> shape (f (map mids axes)) = cells axes ->
  exists g, grid_from_axes_and_function f axes 1 au gu = Ok g /\ consistent g /\ g_nprop g = 1%nat /\ g_axes g = axes /\ g_centers g = map mids axes
    /\ forall ix, inb (cells axes) ix = true -> cell g ix 0 = getd v0 (f (map mids axes)) ix.
Proof.
  intros Ne U Ua Ug W S. destruct (from_axes_geom (A := A) axes 1 au gu Ne U Ua Ug) as (g & E & C & Np & Nd & D & Ax & Ce & Nx).
  unfold grid_from_axes_and_function. rewrite E. cbn [bind]. rewrite Ce. set (v := f (map mids axes)) in *. clearbody v.
  cbn [shape]. unfold dshape. rewrite Np, Nx, S.
  destruct (list_eq_dec Nat.eq_dec (cells axes ++ [1%nat]) (cells axes ++ [1%nat])) as [_|K]; [|elim K; reflexivity].
  eexists. split; [reflexivity|]. split.
  - constructor; try apply C. cbn [g_data with_data g_npix g_nprop init_grid with_nobj]. split; [|rewrite Nx, Np; reflexivity].
    unfold awf in *. cbn [dat shape]. rewrite W, S. unfold size. rewrite fold_right_app. reflexivity.
  - split; [exact Np|]. split; [exact Ax|]. split; [exact Ce|]. intros ix I. unfold cell. cbn [g_data with_data].
    rewrite getd_snoc1 by (apply inb_length; exact I). rewrite <- S. destruct v; reflexivity.
Qed.
Print Assumptions C128_values_partial.

(** A function that gives an array of another shape is refused. *)
Theorem C128_shape {A : Alg} (f : list (list Qc) -> arr A) axes np au gu : axes <> [] -> Forall uniform_edges axes ->
  units_ok (length axes) au -> units_ok np gu -> shape (f (map mids axes)) <> cells axes ->
  grid_from_axes_and_function f axes np au gu = Raise ValueError.
Proof.
  intros Ne U Ua Ug S. destruct (from_axes_geom (A := A) axes np au gu Ne U Ua Ug) as (g & E & C & Np & Nd & D & Ax & Ce & Nx).
  unfold grid_from_axes_and_function. rewrite E. cbn [bind]. rewrite Ce. cbn [shape]. unfold dshape. rewrite Np, Nx.
  destruct (list_eq_dec Nat.eq_dec _ _) as [K|_]; [|reflexivity]. apply app_inj_tail in K. tauto.
Qed.
Print Assumptions C128_shape.

(** Only one property can be made: with any other number, which is documented, every function is refused, whatever it gives. *)
Theorem C128_properties_refuted {A : Alg} (f : list (list Qc) -> arr A) axes np au gu : axes <> [] -> Forall uniform_edges axes ->
  units_ok (length axes) au -> units_ok np gu -> np <> 1%nat -> grid_from_axes_and_function f axes np au gu = Raise ValueError.
Proof.
  intros Ne U Ua Ug S. destruct (from_axes_geom (A := A) axes np au gu Ne U Ua Ug) as (g & E & C & Np & Nd & D & Ax & Ce & Nx).
  unfold grid_from_axes_and_function. rewrite E. cbn [bind]. cbn [shape]. unfold dshape. rewrite Np.
  destruct (list_eq_dec Nat.eq_dec _ _) as [K|_]; [|reflexivity]. apply app_inj_tail in K. destruct K as [_ K]. congruence.
Qed.
Print Assumptions C128_properties_refuted.

Example C128_nonvacuous : let axes := [[0; 1; zq 2; zq 3]; [frac 1 2; 1; frac 3 2]] in
  let f := fun cs => tab (A := QcAlg) (map (@length Qc) cs) (fun ix => nth (nth 0 ix 0%nat) (nth 0 cs []) 0 * nth (nth 1 ix 0%nat) (nth 1 cs []) 0) in
  Forall uniform_edges axes /\ units_ok 2 None /\ units_ok 1 None /\ awf (f (map mids axes)) /\ shape (f (map mids axes)) = cells axes
  /\ exists g, grid_from_axes_and_function (A := QcAlg) f axes 1 None None = Ok g.
Proof.
  cbv zeta. split.
  { constructor; [|constructor; [|constructor]].
    - exists 0, 1, 3%nat. split; [lia|]. split; [reflexivity|]. simpl. repeat f_equal; apply qeqb_eq; vm_compute; reflexivity.
    - exists (frac 1 2), (frac 1 2), 2%nat. split; [lia|]. split; [reflexivity|]. simpl. repeat f_equal; apply qeqb_eq; vm_compute; reflexivity. }
  split; [exact I|]. split; [exact I|]. split; [reflexivity|]. split; [reflexivity|]. eexists. vm_compute. reflexivity.
Qed.
