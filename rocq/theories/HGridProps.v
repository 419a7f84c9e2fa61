(** Property theorems about gridding the properties of a handler: C73, C74. *)
From Verif Require Import Dict Util Rat Val Arr HandlerModel HandlerSpec GridModel GridModel2 GridSpec HGridModel HGridSpec HGrid HGrid2 HGrid3 HGrid4.
Open Scope string_scope. Open Scope list_scope.
Open Scope Qc_scope.

(** * Examples: a snapshot with three halos in a box of side 10, and a light cone *)
Definition gx_col (l : list Z) : HandlerModel.col := mkCol false (map (fun z => Some (zq z)) l).
Definition gx_ds (c : HandlerModel.col) (u : string) (e : Z) : dset_ := mkDS (SCol c) (Some (UStr u)) (Some e) false.
Definition gx_file : gfile := mkFile (frac 7 10)
  [("mass", gx_ds (gx_col [5; 3; 8]%Z) "Msun" (-1)%Z); ("redshift", gx_ds (gx_col [1; 2; 3]%Z) "None" 0%Z);
   ("ra", gx_ds (gx_col [0; 1; -1]%Z) "radians" 0%Z); ("dec", gx_ds (gx_col [0; -1; 1]%Z) "radians" 0%Z);
   ("pos_x", gx_ds (gx_col [1; 1; 10]%Z) "Mpc" (-1)%Z); ("pos_y", gx_ds (gx_col [2; 2; 3]%Z) "Mpc" (-1)%Z);
   ("pos_z", gx_ds (gx_col [3; 3; 4]%Z) "Mpc" (-1)%Z)].
Definition gx_open : handler :=
  match open_handler gx_file (Some (zq 10)) [] true with Ok h => h | Raise _ => mkH 0%Qc [] [] [] [] 0 [] [] [] [] 0 true None end.
Definition gx_s : HandlerModel.st := (gx_open, gx_file).
Definition gx_empty : HandlerModel.st := fst (hdo 0 gx_s (HRange (Some "mass") (Fin (zq 100)) PInf true None)).
Definition gx_m : lcmeta := mkLM (zq 1) (zq 3) "box" (Some (zq 4, 1)).
Definition gx_m' : lcmeta := mkLM (zq 1) (zq 3) "custom" None.
Lemma gx_good f : 0 < f -> lc_good gx_m None /\ lc_good gx_m (Some f) /\ lc_good gx_m' None.
Proof.
  intros Hf. unfold lc_good. repeat split; try (vm_compute; congruence); try discriminate;
    try (intros a r [= <- <-]; vm_compute; congruence); try (intros ? [= <-]; exact Hf);
    cbn in H; try discriminate; injection H as <- <-; vm_compute; discriminate.
Qed.

(** * C73: SnapHandler.grid *)
(** Whatever the limits, resolution, units, selection and normalisation: the grid covers
    the limits, and each cell holds the sums over the halos in that cell. *)
Theorem C73_cells s names inh ua res xl yl zl norm side g :
  snap_grid s names inh ua res xl yl zl norm = Ok g -> good_res res -> box_side s (use_h s inh) side -> 0 <= side ->
  exists x y z cols,
    column s "pos_x" ua (use_h s inh) x /\ column s "pos_y" ua (use_h s inh) y /\ column s "pos_z" ua (use_h s inh) z /\
    columns s names ua (use_h s inh) cols /\ gridded g x y z cols norm /\
    forall i l, nth_error [xl; yl; zl] i = Some l ->
      exists lo hi p, lim_spec side l lo hi /\ pix_spec res i (hi - lo) p /\ covers g i lo hi p.
Proof. exact (c73_cells s names inh ua res xl yl zl norm side g). Qed.
Print Assumptions C73_cells.
(** Exactly when a grid is made: there is a halo and a property, the properties are
    numbers, and at least 1.05 pixels fit in each of the limits. *)
Theorem C73_succeeds s names inh ua res xl yl zl norm side :
  good_res res -> box_side s (use_h s inh) side -> 0 <= side ->
  (exists g, snap_grid s names inh ua res xl yl zl norm = Ok g) <->
  exists x y z cols lims,
    column s "pos_x" ua (use_h s inh) x /\ column s "pos_y" ua (use_h s inh) y /\ column s "pos_z" ua (use_h s inh) z /\
    columns s names ua (use_h s inh) cols /\ same_lengths x y z cols /\
    Forall2 (fun l p => lim_spec side l (fst p) (snd p)) [xl; yl; zl] lims /\ axes_fit res lims.
Proof. exact (c73_succeeds s names inh ua res xl yl zl norm side). Qed.
Print Assumptions C73_succeeds.
(** By default the grid is 100 by 100 by 100 cells over [0,side). *)
Theorem C73_default s names inh ua norm side g :
  snap_grid s names inh ua None None None None norm = Ok g -> box_side s (use_h s inh) side -> 0 <= side ->
  0 < side /\ g_npix g = [100; 100; 100]%nat /\
  (forall x y z, in_extent (g_axes g) [x; y; z] = true <-> (0 <= x /\ x < side) /\ (0 <= y /\ y < side) /\ (0 <= z /\ z < side)) /\
  (forall i j k x y z, let w := side / zq 100 in in_cell g [i; j; k] [x; y; z] = true <->
     (i < 100 /\ j < 100 /\ k < 100)%nat /\ (nq i * w <= x /\ x < nq (S i) * w) /\ (nq j * w <= y /\ y < nq (S j) * w) /\ (nq k * w <= z /\ z < nq (S k) * w)).
Proof. exact (c73_default s names inh ua norm side g). Qed.
Print Assumptions C73_default.
(** With and without h units the same halos go to the same cells, and the values differ
    by the power of h of the property. *)
Theorem C73_units s names ua box g :
  h_box (fst s) = Some box -> 0 <= box -> 0 < h_h (fst s) ->
  (forall p, In p ["pos_x"; "pos_y"; "pos_z"] -> dget (h_hdep (fst s)) p = Some (-1)%Z) ->
  (forall n, In n names -> exists e, dget (h_hdep (fst s)) n = Some e) ->
  snap_grid s names (Some true) ua None None None None NormNone = Ok g ->
  exists g' d d', snap_grid s names (Some false) ua None None None None NormNone = Ok g' /\
    g_npix g' = g_npix g /\ g_nobj g' = g_nobj g /\ g_data g = Some d /\ g_data g' = Some d' /\
    forall ix k n e, inb (g_npix g) ix = true -> nth_error names k = Some n -> dget (h_hdep (fst s)) n = Some e ->
      exists v, get d (ix ++ [k]) = Some v /\ get d' (ix ++ [k]) = Some (v * hpow (h_h (fst s)) e).
Proof. exact (c73_units s names ua box g). Qed.
Print Assumptions C73_units.
(** False: that every halo of the box is in the grid. One on the upper edge is in no cell. *)
Theorem C73_edge_refuted s names inh ua norm side g :
  snap_grid s names inh ua None None None None norm = Ok g -> box_side s (use_h s inh) side -> 0 <= side ->
  forall y z, in_extent (g_axes g) [side; y; z] = false /\ forall i j k, in_cell g [i; j; k] [side; y; z] = false.
Proof. exact (c73_edge s names inh ua norm side g). Qed.
Print Assumptions C73_edge_refuted.
(** False: that a selection without halos gives a grid of zeros. It gives none. *)
Theorem C73_empty_refuted s names inh ua res xl yl zl norm side : good_res res -> box_side s (use_h s inh) side -> 0 <= side ->
  column s "pos_x" ua (use_h s inh) [] -> forall g, snap_grid s names inh ua res xl yl zl norm <> Ok g.
Proof. exact (c73_empty s names inh ua res xl yl zl norm side). Qed.
Print Assumptions C73_empty_refuted.

(** shape, number of objects and the value in a cell of a grid that was made *)
Definition gx_look (r : exc (grid QcAlg)) (npix : list nat) (nobj : nat) (ix : list nat) (v : Qc) : bool :=
  match r with
  | Ok g => (if list_eq_dec Nat.eq_dec (g_npix g) npix then true else false) && (g_nobj g =? nobj)%nat &&
            match g_data g with Some d => match get d ix with Some w => qeqb w v | None => false end | None => false end
  | Raise _ => false
  end.
Lemma gx_looked r npix nobj ix v : gx_look r npix nobj ix v = true ->
  exists g d, r = Ok g /\ g_npix g = npix /\ g_nobj g = nobj /\ g_data g = Some d /\ get d ix = Some v.
Proof.
  unfold gx_look. destruct r as [g|]; [|discriminate]. intros H. apply andb_true_iff in H as [H H3]. apply andb_true_iff in H as [H1 H2].
  destruct (list_eq_dec _ _ _) as [E|]; [|discriminate]. apply Nat.eqb_eq in H2. destruct (g_data g) as [d|] eqn:Ed; [|discriminate].
  destruct (get d ix) as [w|] eqn:Ew; [|discriminate]. apply qeqb_eq in H3. subst w. exists g, d. auto 6.
Qed.
Lemma gx_column s p ua ih l : get_numbers s p ua ih = Ok l -> column s p ua ih l.
Proof. apply get_numbers_ok. Qed.
Lemma gx_fit : axes_fit None [(0, zq 10); (0, zq 10); (0, zq 10)].
Proof.
  split; [discriminate|]. intros [|[|[|i]]] lo hi H; cbn in H; [| | |destruct i; discriminate]; injection H as <- <-;
    (eexists; split; [reflexivity|]; split; reflexivity).
Qed.
Lemma gx_grid : exists g, snap_grid gx_s ["mass"] (Some true) true None None None None NormNone = Ok g.
Proof.
  apply (c73_succeeds gx_s ["mass"] (Some true) true None None None None NormNone (zq 10) I); [exists (zq 10); auto|vm_compute; discriminate|].
  exists [zq 1; zq 1; zq 10], [zq 2; zq 2; zq 3], [zq 3; zq 3; zq 4], [[zq 5; zq 3; zq 8]], [(0, zq 10); (0, zq 10); (0, zq 10)].
  split; [apply gx_column; reflexivity|]. split; [apply gx_column; reflexivity|]. split; [apply gx_column; reflexivity|].
  split; [constructor; [apply gx_column; reflexivity|constructor]|].
  split; [repeat split; try discriminate; intros v [<-|[]]; reflexivity|]. split; [repeat constructor|exact gx_fit].
Qed.
Example C73_nonvacuous :
  (exists g, snap_grid gx_s ["mass"] (Some true) true None None None None NormNone = Ok g) /\
  box_side gx_s (use_h gx_s (Some true)) (zq 10) /\ h_box (fst gx_s) = Some (zq 10) /\ 0 < h_h (fst gx_s) /\
  (forall p, In p ["pos_x"; "pos_y"; "pos_z"; "mass"] -> dget (h_hdep (fst gx_s)) p = Some (-1)%Z) /\
  (exists g d, snap_grid gx_s ["mass"; "redshift"] None true (Some (mkF false [zq 5])) None None None NormVolume = Ok g /\
    g_npix g = [2; 2; 2]%nat /\ g_nobj g = 2%nat /\ g_data g = Some d /\
    get d [0; 0; 0; 0]%nat = Some (frac 8 125)) /\
  column gx_empty "pos_x" false true [] /\
  snap_grid gx_empty ["mass"] (Some true) false None None None None NormNone = Raise ValueError.
Proof.
  split; [exact gx_grid|]. split; [exists (zq 10); auto|]. split; [reflexivity|]. split; [reflexivity|].
  split; [intros p [<-|[<-|[<-|[<-|[]]]]]; reflexivity|]. split.
  - apply gx_looked. vm_compute. reflexivity.
  - split; [apply gx_column; reflexivity|]. vm_compute. reflexivity.
Qed.

(** * C74: LCHandler.grid *)
(** The grid of a light cone: right ascension, declination and redshift, or frequency
    f/(1+z) of a line of rest frequency f. *)
Theorem C74_cells m s names rf inh ua res l0 l1 l2 norm g :
  lc_grid m s names rf inh ua res l0 l1 l2 norm = Ok g -> lc_good m rf -> good_res res ->
  exists x y z cols,
    column s "ra" ua (use_h s inh) x /\ column s "dec" ua (use_h s inh) y /\ column s "redshift" ua (use_h s inh) z /\
    columns s names ua (use_h s inh) cols /\
    gridded g x y (map (los rf) z) cols (match norm with Some q => NormNum q | None => NormNone end) /\
    forall i l, nth_error [l0; l1; l2] i = Some l ->
      exists lo hi p, lc_lim m rf i l lo hi /\ pix_spec res i (hi - lo) p /\ covers g i lo hi p.
Proof. exact (c74_cells m s names rf inh ua res l0 l1 l2 norm g). Qed.
Print Assumptions C74_cells.
Theorem C74_succeeds m s names rf inh ua res l0 l1 l2 norm : lc_good m rf -> good_res res ->
  (exists g, lc_grid m s names rf inh ua res l0 l1 l2 norm = Ok g) <->
  exists x y z cols lims,
    column s "ra" ua (use_h s inh) x /\ column s "dec" ua (use_h s inh) y /\ column s "redshift" ua (use_h s inh) z /\
    columns s names ua (use_h s inh) cols /\ same_lengths x y z cols /\ lc_lims m rf l0 l1 l2 lims /\ axes_fit res lims.
Proof. exact (c74_succeeds m s names rf inh ua res l0 l1 l2 norm). Qed.
Print Assumptions C74_succeeds.
(** The default grid of the whole cone: redshifts from the lowest up to but without the
    highest; in frequency, from above the lowest up to and with the highest. *)
Theorem C74_default_partial m s names rf inh ua norm g ang asp :
  lc_grid m s names rf inh ua None None None None norm = Ok g -> lc_good m rf -> lm_geom m = Some (ang, asp) ->
  g_npix g = [100; 100; 100]%nat /\
  forall ra dec z, 0 < 1 + z -> in_extent (g_axes g) [ra; dec; los rf z] = true <->
    (- ang / zq 2 <= ra /\ ra < ang / zq 2) /\ (- (ang * asp) / zq 2 <= dec /\ dec < ang * asp / zq 2) /\
    match rf with
    | None => lm_zmin m <= z /\ z < lm_zmax m
    | Some _ => lm_zmin m < z /\ z <= lm_zmax m
    end.
Proof. exact (c74_default m s names rf inh ua norm g ang asp). Qed.
Print Assumptions C74_default_partial.
(** False: that the redshift grid and the frequency grid hold the same galaxies. One at the
    lowest redshift is in the first only, one at the highest in the second only. *)
Theorem C74_freq_refuted m s s' names names' f inh inh' ua ua' norm norm' g g' ang asp ra dec :
  lc_grid m s names None inh ua None None None None norm = Ok g ->
  lc_grid m s' names' (Some f) inh' ua' None None None None norm' = Ok g' ->
  lc_good m (Some f) -> lm_geom m = Some (ang, asp) ->
  - ang / zq 2 <= ra -> ra < ang / zq 2 -> - (ang * asp) / zq 2 <= dec -> dec < ang * asp / zq 2 -> lm_zmin m < lm_zmax m ->
  in_extent (g_axes g) [ra; dec; lm_zmin m] = true /\ in_extent (g_axes g') [ra; dec; los (Some f) (lm_zmin m)] = false /\
  in_extent (g_axes g) [ra; dec; lm_zmax m] = false /\ in_extent (g_axes g') [ra; dec; los (Some f) (lm_zmax m)] = true.
Proof. exact (c74_freq m s s' names names' f inh inh' ua ua' norm norm' g g' ang asp ra dec). Qed.
Print Assumptions C74_freq_refuted.
(** False: that light cones of every shape can be gridded without giving limits, *)
Theorem C74_shape_refuted m s names rf inh ua res l0 l1 l2 norm g : lc_good m rf -> good_res res -> lm_geom m = None -> l0 = None \/ l1 = None ->
  lc_grid m s names rf inh ua res l0 l1 l2 norm <> Ok g.
Proof. exact (c74_shape m s names rf inh ua res l0 l1 l2 norm g). Qed.
Print Assumptions C74_shape_refuted.
(** and that an empty selection gives an empty grid. *)
Theorem C74_empty_refuted m s names rf inh ua res l0 l1 l2 norm g : lc_good m rf -> good_res res -> column s "ra" ua (use_h s inh) [] ->
  lc_grid m s names rf inh ua res l0 l1 l2 norm <> Ok g.
Proof. exact (c74_empty m s names rf inh ua res l0 l1 l2 norm g). Qed.
Print Assumptions C74_empty_refuted.

Lemma gx_lc rf l a b : lc_good gx_m rf -> lc_lim gx_m rf 2 None a b -> a < b -> l = [(- zq 4 / zq 2, zq 4 / zq 2); (- (zq 4 * 1) / zq 2, zq 4 * 1 / zq 2); (a, b)] ->
  exists g, lc_grid gx_m gx_s ["mass"] rf None true None None None None None = Ok g.
Proof.
  intros G L O ->. apply (c74_succeeds gx_m gx_s ["mass"] rf None true None None None None None G I).
  exists [zq 0; zq 1; zq (-1)], [zq 0; zq (-1); zq 1], [zq 1; zq 2; zq 3], [[zq 5; zq 3; zq 8]], [(- zq 4 / zq 2, zq 4 / zq 2); (- (zq 4 * 1) / zq 2, zq 4 * 1 / zq 2); (a, b)].
  split; [apply gx_column; reflexivity|]. split; [apply gx_column; reflexivity|]. split; [apply gx_column; reflexivity|].
  split; [constructor; [apply gx_column; reflexivity|constructor]|].
  split; [repeat split; try discriminate; intros v [<-|[]]; reflexivity|]. split.
  - exists (- zq 4 / zq 2, zq 4 / zq 2), (- (zq 4 * 1) / zq 2, zq 4 * 1 / zq 2), (a, b). split; [reflexivity|]. split; [exists (zq 4), 1; auto|]. split; [exists (zq 4), 1; auto|exact L].
  - split; [discriminate|]. intros [|[|[|i]]] lo hi H; cbn in H; [| | |destruct i; discriminate]; injection H as <- <-.
    + eexists. split; [reflexivity|]. split; reflexivity.
    + eexists. split; [reflexivity|]. split; reflexivity.
    + eexists. split; [reflexivity|]. rewrite div100. clear - O. split; qlra.
Qed.
Example C74_nonvacuous :
  lc_good gx_m None /\ lc_good gx_m (Some (zq 12)) /\ lm_geom gx_m = Some (zq 4, 1) /\
  (exists g, lc_grid gx_m gx_s ["mass"] None None true None None None None None = Ok g) /\
  (exists g, lc_grid gx_m gx_s ["mass"] (Some (zq 12)) None true None None None None None = Ok g) /\
  (- zq 4 / zq 2 <= 0 /\ 0 < zq 4 / zq 2 /\ - (zq 4 * 1) / zq 2 <= 0 /\ 0 < zq 4 * 1 / zq 2 /\ lm_zmin gx_m < lm_zmax gx_m) /\
  (exists g d, lc_grid gx_m gx_s ["mass"; "redshift"] (Some (zq 12)) None true (Some (mkF false [zq 1])) None None None (Some (zq 2)) = Ok g /\
    g_npix g = [4; 4; 3]%nat /\ g_nobj g = 2%nat /\ g_data g = Some d /\
    get d [3; 1; 1; 0]%nat = Some (zq 6)) /\
  lc_good gx_m' None /\ lc_grid gx_m' gx_s ["mass"] None None true None None None None None = Raise AttributeError /\
  column gx_empty "ra" false true [] /\ lc_grid gx_m gx_empty ["mass"] None None false None None None None None = Raise ValueError.
Proof.
  assert (P : 0 < zq 12) by reflexivity. destruct (gx_good _ P) as (G1 & G2 & G3).
  split; [exact G1|]. split; [exact G2|]. split; [reflexivity|].
  split; [apply (gx_lc None _ (zq 1) (zq 3) G1 (conj eq_refl eq_refl) eq_refl eq_refl)|].
  split; [apply (gx_lc (Some (zq 12)) _ (zq 12 / (1 + zq 3)) (zq 12 / (1 + zq 1)) G2 (conj eq_refl eq_refl) eq_refl eq_refl)|].
  split; [repeat split; try reflexivity; vm_compute; discriminate|]. split.
  - apply gx_looked. vm_compute. reflexivity.
  - split; [exact G3|]. split; [vm_compute; reflexivity|]. split; [apply gx_column; reflexivity|]. vm_compute. reflexivity.
Qed.
