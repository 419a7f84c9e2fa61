(** Power spectra: property C15. *)
From Coq Require Import Reals.
From Verif Require Import Util Rat Val Arr GridModel GridSpec GridModel2 GridSpec2 GridEx GridFourier GridFT GridFT2 Complex GridFT3 GridPower.
Open Scope Qc_scope.

(** * C15, cross spectrum.  Both grids come back exactly as they were; each value is
    the real part of F1 * conj(F2), F1 and F2 being the grids' own Fourier
    transforms bringing exactly the named axes to Fourier space.  Partial: the
    grid has one unit per property (or a single one) and the cell counts agree. *)
Theorem C15_cross_partial {A : Alg} (w : nat -> A) (g c : grid A) d dc ax axn nz :
  consistent g -> consistent c -> (forall n, In n (g_npix g) -> good_root (w n) n) ->
  g_data g = Some d -> g_data c = Some dc -> g_ispow g = false -> g_ispow c = false -> compatible g c ->
  floats g -> (length (g_gru g) = g_nprop g \/ length (g_gru g) = 1)%nat ->
  axes_named g ax axn -> NoDup axn -> (forall a, In a axn -> (a < g_ndim g)%nat) ->
  exists F1 F2 P,
    fourier_transform w g (Some (map Z.of_nat (to_change g axn))) nz = (F1, Ok tt) /\
    fourier_transform w c (Some (map Z.of_nat (to_change c axn))) nz = (F2, Ok tt) /\
    (forall i, (i < g_ndim g)%nat -> nth i (g_fsp F1) false = mem_nat i axn /\ nth i (g_fsp F2) false = mem_nat i axn) /\
    power_spectrum w g (Some c) ax false nz = (g, Some c, Ok P) /\
    same_lattice g P /\ g_ispow P = true /\ g_nobj P = g_nobj g /\
    (forall ix k, inb (g_npix g) ix = true -> (k < pair_props g c)%nat ->
       cell P ix k = vre (cell F1 ix (prop_ix (g_nprop g) k) * star (cell F2 ix (prop_ix (g_nprop c) k)))%V).
Proof. exact (c15_cross_api w g c d dc ax axn nz). Qed.
Print Assumptions C15_cross_partial.

(** the auto spectrum is the squared modulus of the transform, hence real *)
Theorem C15_auto_partial {A : Alg} (w : nat -> A) (g : grid A) d ax axn nz :
  consistent g -> (forall n, In n (g_npix g) -> good_root (w n) n) -> g_data g = Some d -> g_ispow g = false ->
  floats g -> (length (g_gru g) = g_nprop g \/ length (g_gru g) = 1)%nat ->
  axes_named g ax axn -> NoDup axn -> (forall a, In a axn -> (a < g_ndim g)%nat) ->
  exists F P,
    fourier_transform w g (Some (map Z.of_nat (to_change g axn))) nz = (F, Ok tt) /\
    (forall i, (i < g_ndim g)%nat -> nth i (g_fsp F) false = mem_nat i axn) /\
    power_spectrum w g None ax false nz = (g, None, Ok P) /\
    same_lattice g P /\ g_ispow P = true /\ g_nobj P = g_nobj g /\ consistent P /\
    (forall ix k, inb (g_npix g) ix = true -> (k < g_nprop g)%nat ->
       cell P ix k = (cell F ix k * star (cell F ix k))%V /\ star (cell P ix k) = cell P ix k).
Proof. exact (c15_auto_api w g d ax axn nz). Qed.
Print Assumptions C15_auto_partial.

(** exchanging the two grids gives the same spectrum *)
Theorem C15_symmetric_partial {A : Alg} (w : nat -> A) (g c : grid A) d dc ax axn nz :
  consistent g -> consistent c -> (forall n, In n (g_npix g) -> good_root (w n) n) ->
  g_data g = Some d -> g_data c = Some dc -> g_ispow g = false -> g_ispow c = false -> compatible g c ->
  floats g -> floats c ->
  (length (g_gru g) = g_nprop g \/ length (g_gru g) = 1)%nat -> (length (g_gru c) = g_nprop c \/ length (g_gru c) = 1)%nat ->
  axes_named g ax axn -> NoDup axn -> (forall a, In a axn -> (a < g_ndim g)%nat) ->
  exists p q, power_spectrum w g (Some c) ax false nz = (g, Some c, Ok p) /\
    power_spectrum w c (Some g) ax false nz = (c, Some g, Ok q) /\ g_data p = g_data q.
Proof. exact (c15_symmetric w g c d dc ax axn nz). Qed.
Print Assumptions C15_symmetric_partial.

(** in place, the grid becomes the spectrum and the cross grid still comes back unchanged *)
Theorem C15_in_place {A : Alg} (w : nat -> A) (g c : grid A) d dc ax axn nz :
  consistent g -> consistent c -> (forall n, In n (g_npix g) -> good_root (w n) n) ->
  g_data g = Some d -> g_data c = Some dc -> g_ispow g = false -> g_ispow c = false -> compatible g c ->
  axes_named g ax axn -> NoDup axn -> (forall a, In a axn -> (a < g_ndim g)%nat) ->
  exists F1 F2 P,
    fourier_transform w g (Some (map Z.of_nat (to_change g axn))) nz = (F1, Ok tt) /\
    fourier_transform w c (Some (map Z.of_nat (to_change c axn))) nz = (F2, Ok tt) /\
    power_spectrum w g (Some c) ax true nz = (P, Some c, Ok P) /\
    same_lattice g P /\ g_ispow P = true /\ g_fsp P = g_fsp F1 /\
    (forall ix k, inb (g_npix g) ix = true -> (k < pair_props g c)%nat ->
       cell P ix k = vre (cell F1 ix (prop_ix (g_nprop g) k) * star (cell F2 ix (prop_ix (g_nprop c) k)))%V).
Proof. exact (c15_in_place w g c d dc ax axn nz). Qed.
Print Assumptions C15_in_place.

(** false in general: with differing cell counts the call fails, leaving both grids
    transformed, whatever [in_place] *)
Theorem C15_mismatch_refuted {A : Alg} (w : nat -> A) (g c : grid A) d dc ax axn nz ip :
  consistent g -> consistent c -> floats g -> (length (g_gru g) = g_nprop g \/ length (g_gru g) = 1)%nat ->
  g_data g = Some d -> g_data c = Some dc -> g_ispow g = false -> g_ispow c = false ->
  g_ndim c = g_ndim g -> g_nprop c = g_nprop g -> g_npix c <> g_npix g ->
  axes_named g ax axn -> NoDup axn -> (forall a, In a axn -> (a < g_ndim g)%nat) ->
  exists g1 c1, power_spectrum w g (Some c) ax ip nz = (g1, Some c1, Raise ValueError) /\
    (forall i, (i < g_ndim g)%nat -> nth i (g_fsp g1) false = mem_nat i axn /\ nth i (g_fsp c1) false = mem_nat i axn).
Proof. exact (c15_mismatch w g c d dc ax axn nz ip). Qed.
Print Assumptions C15_mismatch_refuted.

(** the same for a grid whose unit list has another length than its property count
    (as after [sum_properties] in place or [add_new_prop]) *)
Theorem C15_units_refuted {A : Alg} (w : nat -> A) (g : grid A) d ax axn nz :
  consistent g -> floats g -> (length (g_gru g) <> g_nprop g /\ length (g_gru g) <> 1)%nat ->
  g_data g = Some d -> g_ispow g = false ->
  axes_named g ax axn -> NoDup axn -> (forall a, In a axn -> (a < g_ndim g)%nat) ->
  exists g1, power_spectrum w g None ax false nz = (g1, None, Raise ValueError) /\
    (forall i, (i < g_ndim g)%nat -> nth i (g_fsp g1) false = mem_nat i axn).
Proof. exact (c15_units w g d ax axn nz). Qed.
Print Assumptions C15_units_refuted.

(** and when a one-property grid is crossed with a k-property one, the result holds k
    properties but declares one *)
Theorem C15_props_refuted {A : Alg} (w : nat -> A) (g c : grid A) d dc ax axn nz :
  consistent g -> consistent c -> (forall n, In n (g_npix g) -> good_root (w n) n) -> g_data g = Some d -> g_data c = Some dc ->
  g_ispow g = false -> g_ispow c = false -> g_ndim c = g_ndim g -> g_npix c = g_npix g -> g_nprop g = 1%nat -> (1 < g_nprop c)%nat ->
  floats g -> length (g_gru g) = 1%nat ->
  axes_named g ax axn -> NoDup axn -> (forall a, In a axn -> (a < g_ndim g)%nat) ->
  exists p d, power_spectrum w g (Some c) ax false nz = (g, Some c, Ok p) /\ g_nprop p = 1%nat /\
    g_data p = Some d /\ shape d = g_npix p ++ [g_nprop c].
Proof. exact (c15_props w g c d dc ax axn nz). Qed.
Print Assumptions C15_props_refuted.

(** two grids over the complex numbers, in different spaces *)
Example C15_nonvacuous : let g := exA CAlg in let c := with_fsp (exA CAlg) [true; true] in
  consistent g /\ consistent c /\ (forall n, In n (g_npix g) -> good_root (croot n) n) /\ g_data g <> None /\ g_data c <> None /\
  g_ispow g = false /\ g_ispow c = false /\ compatible g c /\ floats g /\ floats c /\
  length (g_gru g) = g_nprop g /\ length (g_gru c) = g_nprop c /\
  axes_named g (Some [1]%Z) [1]%nat /\ to_change g [1]%nat = [0; 1]%nat /\ to_change c [1]%nat = [0]%nat.
Proof.
  cbv zeta. assert (Cc : consistent (with_fsp (exA CAlg) [true; true])).
  { apply consistent_with2; [exact (exA_consistent _)|]. vm_compute; reflexivity. }
  split; [exact (exA_consistent _)|]. split; [exact Cc|]. split; [exact (roots_complex _ (exA_consistent _))|].
  split; [discriminate|]. split; [discriminate|].
  repeat (split; [vm_compute; repeat split; auto; fail|]).
  vm_compute; reflexivity.
Qed.
