(** Properties C106-C108: Fourier bin edges, Grid.visualize and Grid.animate. *)
From Coq Require Import Sorted String.
From Verif Require Import Util Rat Val Arr GridModel GridModel2 GridSpec GridAxis GridNew GridEx FigModel FigSpec Fig Fig2 Fig3 Fig4.
Open Scope Qc_scope.

(** a 2 x 3 x 2 grid whose cell (i,j,k) holds 100 i + 10 j + k *)
Definition ex_fig : grid QcAlg :=
  with_data ex_g3 (Some (tab (A:=QcAlg) [2; 3; 2; 1]%nat (fun ix => nq (100 * nth 0 ix 0 + 10 * nth 1 ix 0 + nth 2 ix 0)%nat))).
Lemma ex_fig_consistent : consistent ex_fig.
Proof.
  destruct ex3_consistent. constructor; try assumption.
Qed.

(** the numbers in the result of a computation that succeeds *)
Definition values_of {X} (r : exc X) (f : X -> list Qc) : list Q := match r with Ok x => map this (f x) | Raise _ => [] end.

(** * C106: the edges of the Fourier bins *)

(** each Fourier bin contains its own frequency and no other, and the outermost edges are half a bin out *)
Theorem C106_fourier_bins_partial {A : Alg} (g : grid A) a : consistent g -> (a < g_ndim g)%nat ->
  let n := nth a (g_npix g) 0%nat in let dk := 1 / (nq n * fnth (g_pix g) a) in
  let c := nth a (g_fcenters g) [] in let e := nth a (g_faxes g) [] in
  length c = n /\ length e = S n /\ nth 0 e 0 = nth 0 c 0 - dk / zq 2 /\ nth n e 0 = nth (n - 1) c 0 + dk / zq 2 /\
  forall k, (k < n)%nat -> nth k e 0 <= nth k c 0 /\ nth k c 0 < nth (S k) e 0.
Proof.
  intros C H n dk c e. destruct (fourier_edges g a C H) as (L1 & L2 & P & St & E0 & En & Ek). cbv zeta in *. fold n in L1, L2, P, St, E0, En, Ek.
  fold dk in P, St, E0, En. fold c in L1, St, E0, En, Ek. fold e in L2, E0, En, Ek. pose proof (npix2 g a C H) as N2. fold n in N2.
  assert (Ph : 0 < dk / zq 2). { rewrite div2_half. apply pos_mul; [exact P|reflexivity]. }
  split; [exact L1|]. split; [exact L2|]. split; [exact E0|]. split; [exact En|]. intros k Hk. split.
  - destruct k as [|k]; [rewrite E0|rewrite Ek by lia; apply Qcle_refl]. apply Qclt_le_weak. 
    apply minus_lt; exact Ph.
  - destruct (Nat.eq_dec (S k) n) as [N|N].
    + rewrite N, En. replace (n - 1)%nat with k by lia. apply plus_lt; exact Ph.
    + rewrite Ek, St by lia. apply plus_lt; exact P.
Qed.
Print Assumptions C106_fourier_bins_partial.

(** the edges between two bins are not half way between their frequencies: they are the upper frequency itself *)
Theorem C106_fourier_edges_refuted {A : Alg} (g : grid A) a k : consistent g -> (a < g_ndim g)%nat ->
  (1 <= k < nth a (g_npix g) 0)%nat ->
  nth k (nth a (g_faxes g) []) 0 = nth k (nth a (g_fcenters g) []) 0 /\
  nth k (nth a (g_faxes g) []) 0 <> (nth (k - 1) (nth a (g_fcenters g) []) 0 + nth k (nth a (g_fcenters g) []) 0) / zq 2.
Proof.
  intros C H Hk. destruct (fourier_edges g a C H) as (L1 & L2 & P & St & E0 & En & Ek). cbv zeta in *. split; [apply Ek, Hk|].
  rewrite Ek by exact Hk. destruct k as [|k]; [lia|]. cbn [Nat.sub]. rewrite Nat.sub_0_r. rewrite St by lia.
  set (x := nth k (nth a (g_fcenters g) []) 0) in *. set (dk := 1 / (nq (nth a (g_npix g) 0%nat) * fnth (g_pix g) a)) in *. intros Q.
  assert (Q2 : (x + dk) + (x + dk) = x + (x + dk)). { rewrite Q at 1 2. apply half_half. }
  assert (Q3 : dk = 0). { replace dk with ((x + dk) + (x + dk) - (x + (x + dk))) by ring. rewrite Q2. ring. }
  rewrite Q3 in P. apply Qclt_not_eq in P. congruence.
Qed.
Print Assumptions C106_fourier_edges_refuted.

Example C106_nonvacuous : consistent ex_fig /\ (1 < g_ndim ex_fig)%nat /\ (1 <= 2 < nth 1 (g_npix ex_fig) 0)%nat /\
  map this (nth 1 (g_fcenters ex_fig) []) = map this [frac (-1) 3; 0; frac 1 3] /\ map this (nth 1 (g_faxes ex_fig) []) = map this [frac (-1) 2; 0; frac 1 3; frac 1 2].
Proof. split; [apply ex_fig_consistent|]. split; [vm_compute; lia|]. split; [vm_compute; lia|]. split; vm_compute; reflexivity. Qed.

(** * C107: visualize *)

(** axes named in increasing order, the others summed over: column i, row j shows the total over the
    cells with index i on the first axis and j on the second *)
Theorem C107_sum_partial {A : Alg} (g : grid A) d a b p : consistent g -> g_data g = Some d -> (a < b)%nat -> (b < g_ndim g)%nat -> (p < g_nprop g)%nat ->
  exists P, grid_visualize g [Z.of_nat a; Z.of_nat b] SumOut (Z.of_nat p) = Ok P /\
    p_x P = nth a (g_axes g) [] /\ p_y P = nth b (g_axes g) [] /\
    pictures (p_c P) (nth a (g_npix g) 0%nat) (nth b (g_npix g) 0%nat)
      (fun i j => vre (cells_total g d p (fun x => x) (fun jx => on_axis a i jx && on_axis b j jx)%bool)).
Proof. apply vis_sum. Qed.
Print Assumptions C107_sum_partial.

(** at given indices of the other axes: column i, row j shows that very cell *)
Theorem C107_slice_partial {A : Alg} (g : grid A) d a b p jx : consistent g -> g_data g = Some d -> (a < b)%nat -> (b < g_ndim g)%nat -> (p < g_nprop g)%nat ->
  inb (g_npix g) jx = true ->
  exists P, grid_visualize g [Z.of_nat a; Z.of_nat b] (AtIndices (map Z.of_nat (off_axes a b jx))) (Z.of_nat p) = Ok P /\
    p_x P = nth a (g_axes g) [] /\ p_y P = nth b (g_axes g) [] /\
    pictures (p_c P) (nth a (g_npix g) 0%nat) (nth b (g_npix g) 0%nat)
      (fun i j => vre (getd v0 d (upd (upd jx a i) b j ++ [p]))).
Proof. apply vis_slice. Qed.
Print Assumptions C107_slice_partial.

(** axes named in decreasing order: an exception, or a picture mirrored about its diagonal *)
Theorem C107_order_refuted {A : Alg} (g : grid A) d a b p : consistent g -> g_data g = Some d -> (a < b)%nat -> (b < g_ndim g)%nat -> (p < g_nprop g)%nat ->
  (nth a (g_npix g) 0%nat <> nth b (g_npix g) 0%nat -> grid_visualize g [Z.of_nat b; Z.of_nat a] SumOut (Z.of_nat p) = Raise TypeError) /\
  (nth a (g_npix g) 0%nat = nth b (g_npix g) 0%nat -> exists P, grid_visualize g [Z.of_nat b; Z.of_nat a] SumOut (Z.of_nat p) = Ok P /\
     p_x P = nth b (g_axes g) [] /\ p_y P = nth a (g_axes g) [] /\
     pictures (p_c P) (nth b (g_npix g) 0%nat) (nth a (g_npix g) 0%nat)
      (fun i j => vre (cells_total g d p (fun x => x) (fun jx => on_axis a i jx && on_axis b j jx)%bool))).
Proof. apply vis_swapped. Qed.
Print Assumptions C107_order_refuted.

(** a transformed axis is drawn against positions, not frequencies *)
Theorem C107_fourier_refuted : exists (g : grid QcAlg) P, consistent g /\ g_fsp g = [true; true; true] /\
  grid_visualize g [0; 1]%Z SumOut 0 = Ok P /\ p_x P = nth 0 (g_axes g) [] /\ p_x P <> nth 0 (g_faxes g) [].
Proof.
  assert (C : consistent (with_fsp ex_fig [true; true; true])). { destruct ex_fig_consistent. constructor; assumption || (vm_compute; reflexivity). }
  destruct (vis_sum (with_fsp ex_fig [true; true; true]) _ 0 1 0 C eq_refl) as (P & E & X & _); [vm_compute; lia|vm_compute; lia|vm_compute; lia|].
  exists (with_fsp ex_fig [true; true; true]), P. split; [exact C|]. split; [reflexivity|]. split; [exact E|]. split; [exact X|].
  rewrite X. vm_compute. discriminate.
Qed.
Print Assumptions C107_fourier_refuted.

(** a negative property index counts from the end, and one out of range raises IndexError *)
Theorem C107_property_index {A : Alg} (g : grid A) d a b : consistent g -> g_data g = Some d -> (a < b)%nat -> (b < g_ndim g)%nat ->
  (forall p, (p < g_nprop g)%nat ->
     grid_visualize g [Z.of_nat a; Z.of_nat b] SumOut (Z.of_nat p - Z.of_nat (g_nprop g)) = grid_visualize g [Z.of_nat a; Z.of_nat b] SumOut (Z.of_nat p)) /\
  (forall z, (z < - Z.of_nat (g_nprop g) \/ Z.of_nat (g_nprop g) <= z)%Z -> grid_visualize g [Z.of_nat a; Z.of_nat b] SumOut z = Raise IndexError).
Proof. apply vis_prop_index. Qed.
Print Assumptions C107_property_index.

(** a slice index is needed for every other axis *)
Theorem C107_slice_count {A : Alg} (g : grid A) d a b l prop : consistent g -> g_data g = Some d -> (a < b)%nat -> (b < g_ndim g)%nat ->
  length l <> (g_ndim g - 2)%nat -> grid_visualize g [Z.of_nat a; Z.of_nat b] (AtIndices l) prop = Raise ValueError.
Proof. apply vis_count. Qed.
Print Assumptions C107_slice_count.

Example C107_nonvacuous : consistent ex_fig /\ inb (g_npix ex_fig) [1; 0; 1]%nat = true /\
  values_of (grid_visualize ex_fig [0; 1]%Z SumOut 0) (fun P => dat (p_c P)) = map this (map nq [1; 201; 21; 221; 41; 241]%nat) /\
  values_of (grid_visualize ex_fig [0; 2]%Z (AtIndices [1]%Z) 0) (fun P => dat (p_c P)) = map this (map nq [10; 110; 11; 111]%nat) /\
  grid_visualize ex_fig [1; 0]%Z SumOut 0 = Raise TypeError.
Proof.
  split; [apply ex_fig_consistent|]. split; [reflexivity|]. split; [|split]; vm_compute; reflexivity.
Qed.

(** * C108: animate *)

(** when every axis below the sliding one is a face axis (always so for three axes, and for the default
    choice), frame i shows, in column u, row v, the total over the cells with index i on the sliding axis and
    (u, v) on the face axes; the edge-on map shows the totals over the first face axis; there is one frame per
    index; and those frames are what is returned, saved and shown *)
Theorem C108_frames_partial {A : Alg} (g : grid A) d save p slide f0 f1 i0 : consistent g -> g_data g = Some d ->
  (slide < g_ndim g)%nat -> (f0 < g_ndim g)%nat -> (f1 < g_ndim g)%nat -> slide <> f0 -> slide <> f1 -> f0 <> f1 ->
  (forall k, (k < slide)%nat -> k = f0 \/ k = f1) -> (p < g_nprop g)%nat -> (i0 < nth slide (g_npix g) 0)%nat ->
  exists m, grid_animate g save (Z.of_nat p) (Z.of_nat slide) [Z.of_nat f0; Z.of_nat f1] (Z.of_nat i0) false =
      (match save with Some s => [SavedMovie (String.append s ".mp4") m] | None => [] end ++ [OnScreen m], Ok (mv_frames m)) /\
    length (mv_frames m) = nth slide (g_npix g) 0%nat /\
    (forall i, (i < nth slide (g_npix g) 0)%nat -> exists fr, nth_error (mv_frames m) i = Some fr /\
       pictures (fr_map fr) (nth f0 (g_npix g) 0%nat) (nth f1 (g_npix g) 0%nat)
         (fun u v => cells_total g d p vre (fun jx => on_axis slide i jx && on_axis f0 u jx && on_axis f1 v jx)%bool)) /\
    pictures (p_c (mv_edge m)) (nth slide (g_npix g) 0%nat) (nth f1 (g_npix g) 0%nat)
      (fun i v => cells_total g d p vre (fun jx => on_axis slide i jx && on_axis f1 v jx)%bool).
Proof.
  intros C E Hs H0 H1 N1 N2 N3 K Hp Hi. destruct (figure_ok g d p slide f0 f1 i0 C E Hs H0 H1 N1 N2 N3 K Hp Hi) as (m & Em & _ & _ & _ & _ & Pe & Lf & Fr & _).
  exists m. unfold grid_animate. rewrite Em. split; [destruct save; reflexivity|]. split; [exact Lf|]. split; [|exact Pe].
  intros i Hi'. destruct (Fr i Hi') as (fr & R1 & _ & _ & R2). eauto.
Qed.
Print Assumptions C108_frames_partial.

(** coordinates (no axis in Fourier space): the face-on map spans the grid, each frame is titled with the
    lower edge of its slice, and the box on the edge-on map is that slice for all but the first and last *)
Theorem C108_coordinates_partial {A : Alg} (g : grid A) d p slide f0 f1 i0 m : consistent g -> g_data g = Some d ->
  (slide < g_ndim g)%nat -> (f0 < g_ndim g)%nat -> (f1 < g_ndim g)%nat -> slide <> f0 -> slide <> f1 -> f0 <> f1 ->
  (forall k, (k < slide)%nat -> k = f0 \/ k = f1) -> (p < g_nprop g)%nat -> (i0 < nth slide (g_npix g) 0)%nat ->
  nth slide (g_fsp g) false = false -> nth f0 (g_fsp g) false = false -> nth f1 (g_fsp g) false = false ->
  grid_figure g (Z.of_nat p) (Z.of_nat slide) [Z.of_nat f0; Z.of_nat f1] (Z.of_nat i0) = Ok m ->
  spans (mv_x m) (nth f0 (g_axes g) []) /\ spans (mv_y m) (nth f1 (g_axes g) []) /\ p_y (mv_edge m) = mv_y m /\
  forall i fr, nth_error (mv_frames m) i = Some fr -> fr_title fr = nth i (nth slide (g_axes g) []) 0 /\
    ((1 <= i)%nat -> (S i < nth slide (g_npix g) 0)%nat ->
       fr_box fr = (nth i (nth slide (g_axes g) []) 0, nth (S i) (nth slide (g_axes g) []) 0)).
Proof.
  intros C E Hs H0 H1 N1 N2 N3 K Hp Hi Fs F0 F1 Em. destruct (figure_ok g d p slide f0 f1 i0 C E Hs H0 H1 N1 N2 N3 K Hp Hi) as (m' & Em' & E0 & E2 & E1 & E2' & _ & Lf & Fr & _).
  assert (m' = m) by congruence. subst m'. unfold fc in E1, E2, E2'. rewrite F0 in E1. rewrite F1 in E2, E2'.
  destruct (face_edges g f0 _ C H0 E1) as [S0 _]. destruct (face_edges g f1 _ C H1 E2') as [S1 _].
  destruct (slide_edges g slide _ C Hs Fs E0) as (_ & _ & Ek & _ & V).
  split; [exact S0|]. split; [exact S1|]. split; [congruence|]. intros i fr Hf.
  assert (Li : (i < nth slide (g_npix g) 0)%nat) by (rewrite <- Lf; eapply nth_error_Some_lt; exact Hf).
  destruct (Fr i Li) as (fr' & R1 & R2 & R3 & _). assert (fr' = fr) by congruence. subst fr'.
  split; [rewrite R2; apply V; exact Li|]. intros G1 G2. rewrite R3, !Ek by lia. reflexivity.
Qed.
Print Assumptions C108_coordinates_partial.

(** the boundaries drawn between the cells of the face-on map are half a pixel too high; the box and edge-on
    map start half a pixel below the grid and end half a pixel early *)
Theorem C108_boundaries_refuted {A : Alg} (g : grid A) d p slide f0 f1 i0 m : consistent g -> g_data g = Some d ->
  (slide < g_ndim g)%nat -> (f0 < g_ndim g)%nat -> (f1 < g_ndim g)%nat -> slide <> f0 -> slide <> f1 -> f0 <> f1 ->
  (forall k, (k < slide)%nat -> k = f0 \/ k = f1) -> (p < g_nprop g)%nat -> (i0 < nth slide (g_npix g) 0)%nat ->
  nth slide (g_fsp g) false = false -> nth f0 (g_fsp g) false = false ->
  grid_figure g (Z.of_nat p) (Z.of_nat slide) [Z.of_nat f0; Z.of_nat f1] (Z.of_nat i0) = Ok m ->
  (forall k, (1 <= k < nth f0 (g_npix g) 0)%nat -> nth k (mv_x m) 0 = nth k (nth f0 (g_axes g) []) 0 + fnth (g_pix g) f0 / zq 2) /\
  nth 0 (p_x (mv_edge m)) 0 = nth 0 (nth slide (g_axes g) []) 0 - fnth (g_pix g) slide / zq 2 /\
  nth (nth slide (g_npix g) 0%nat) (p_x (mv_edge m)) 0 = nth (nth slide (g_npix g) 0%nat) (nth slide (g_axes g) []) 0 - fnth (g_pix g) slide / zq 2.
Proof.
  intros C E Hs H0 H1 N1 N2 N3 K Hp Hi Fs F0 Em. destruct (figure_ok g d p slide f0 f1 i0 C E Hs H0 H1 N1 N2 N3 K Hp Hi) as (m' & Em' & E0 & E2 & E1 & E2' & _ & Lf & Fr & _).
  assert (m' = m) by congruence. subst m'. unfold fc in E1. rewrite F0 in E1.
  destruct (face_edges g f0 _ C H0 E1) as [_ S0]. destruct (slide_edges g slide _ C Hs Fs E0) as (_ & A0 & _ & An & _). auto.
Qed.
Print Assumptions C108_boundaries_refuted.

(** an axis above 2 cannot be slid along *)
Theorem C108_high_axis_refuted {A : Alg} (g : grid A) d save p slide f0 f1 i0 still : consistent g -> g_data g = Some d ->
  (3 <= slide < g_ndim g)%nat -> (f0 < g_ndim g)%nat -> (f1 < g_ndim g)%nat -> slide <> f0 -> slide <> f1 -> f0 <> f1 ->
  (p < g_nprop g)%nat -> (i0 < nth slide (g_npix g) 0)%nat ->
  grid_animate g save (Z.of_nat p) (Z.of_nat slide) [Z.of_nat f0; Z.of_nat f1] (Z.of_nat i0) still = ([], Raise ValueError).
Proof. intros. unfold grid_animate. erewrite figure_high; try eassumption. reflexivity. Qed.
Print Assumptions C108_high_axis_refuted.

(** sliding along axis 1 with axis 0 summed over: an exception, or frames that step along the first face axis instead *)
Theorem C108_summed_below_refuted {A : Alg} (g : grid A) d p f0 f1 i0 : consistent g -> g_data g = Some d -> (1 < f0)%nat -> (f0 < f1)%nat -> (f1 < g_ndim g)%nat ->
  (p < g_nprop g)%nat -> (i0 < nth 1 (g_npix g) 0)%nat -> (i0 < nth f0 (g_npix g) 0)%nat ->
  (nth 1 (g_npix g) 0%nat <> nth f0 (g_npix g) 0%nat -> grid_figure g (Z.of_nat p) 1 [Z.of_nat f0; Z.of_nat f1] (Z.of_nat i0) = Raise TypeError) /\
  (nth 1 (g_npix g) 0%nat = nth f0 (g_npix g) 0%nat -> exists m, grid_figure g (Z.of_nat p) 1 [Z.of_nat f0; Z.of_nat f1] (Z.of_nat i0) = Ok m /\
    forall i, (i < nth 1 (g_npix g) 0)%nat -> exists fr, nth_error (mv_frames m) i = Some fr /\
      pictures (fr_map fr) (nth 1 (g_npix g) 0%nat) (nth f1 (g_npix g) 0%nat)
       (fun u v => cells_total g d p vre (fun jx => on_axis 1 u jx && on_axis f0 i jx && on_axis f1 v jx)%bool)).
Proof. apply figure_wrong. Qed.
Print Assumptions C108_summed_below_refuted.

(** still=True shows and saves the picture, titled with the first coordinate whichever index was asked for, and then raises *)
Theorem C108_still_refuted {A : Alg} (g : grid A) d save p slide f0 f1 i0 : consistent g -> g_data g = Some d ->
  (slide < g_ndim g)%nat -> (f0 < g_ndim g)%nat -> (f1 < g_ndim g)%nat -> slide <> f0 -> slide <> f1 -> f0 <> f1 ->
  (forall k, (k < slide)%nat -> k = f0 \/ k = f1) -> (p < g_nprop g)%nat -> (i0 < nth slide (g_npix g) 0)%nat ->
  nth slide (g_fsp g) false = false ->
  exists m, grid_animate g save (Z.of_nat p) (Z.of_nat slide) [Z.of_nat f0; Z.of_nat f1] (Z.of_nat i0) true =
      (match save with Some s => [SavedStill s m] | None => [] end ++ [OnScreen m], Raise NameError) /\
    pictures (fr_map (mv_still m)) (nth f0 (g_npix g) 0%nat) (nth f1 (g_npix g) 0%nat)
         (fun u v => cells_total g d p vre (fun jx => on_axis slide i0 jx && on_axis f0 u jx && on_axis f1 v jx)%bool) /\
    fr_title (mv_still m) = nth 0 (nth slide (g_axes g) []) 0.
Proof.
  intros C E Hs H0 H1 N1 N2 N3 K Hp Hi Fs. destruct (figure_ok g d p slide f0 f1 i0 C E Hs H0 H1 N1 N2 N3 K Hp Hi) as (m & Em & E0 & _ & _ & _ & _ & _ & _ & T & _ & Pm).
  destruct (slide_edges g slide _ C Hs Fs E0) as (_ & _ & _ & _ & V).
  exists m. unfold grid_animate. rewrite Em. split; [destruct save; reflexivity|]. split; [exact Pm|]. rewrite T. apply V. lia.
Qed.
Print Assumptions C108_still_refuted.

(** 2 x 3 x 3 x 2 cells, sliding along axes 1 and 3 *)
Definition ex4_new : exc (grid QcAlg) := grid_new QcAlg 1 (fl [0; 0; 0; 0]%Z) (fl [2; 3; 3; 2]%Z) (fl [1]%Z) None None.
Definition ex_g4 : grid QcAlg := init_grid (ok_or ex4_new (no_grid _)).
Example C108_nonvacuous :
  values_of (grid_figure ex_fig 0 0 [1; 2]%Z 0) (fun m => flat_map (fun f : frame QcAlg => dat (fr_map f)) (mv_frames m)) =
    map this (map nq [0; 10; 20; 1; 11; 21; 100; 110; 120; 101; 111; 121]%nat) /\
  consistent ex_g4 /\ g_npix ex_g4 = [2; 3; 3; 2]%nat /\ g_data ex_g4 <> None /\ g_fsp ex_g4 = [false; false; false; false].
Proof.
  split; [vm_compute; reflexivity|]. split; [|split; [vm_compute; reflexivity|split; [vm_compute; discriminate|vm_compute; reflexivity]]].
  apply init_consistent. eapply grid_new_consistent; [apply (ok_or_eq ex4_new (no_grid _)); vm_compute; reflexivity|]. intros x. apply fl_pos. reflexivity.
Qed.
