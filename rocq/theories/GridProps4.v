(** Fourier transforms of a grid: properties C14 and C58. *)
From Coq Require Import Reals Permutation.
From Verif Require Import Util Rat Val Arr GridModel GridSpec GridModel2 GridFT GridFT2 Complex GridFT3.
Open Scope Qc_scope.

(** * C14: transforming twice over the same axes gives back exactly the same grid.
    Any set of distinct axes, any mixture of axes already in Fourier space, either
    normalisation; over any algebra of cell values with roots of unity [w n]... *)
Theorem C14_twice {A : Alg} (w : nat -> A) (g : grid A) d ax axn nz :
  consistent g -> (forall n, In n (g_npix g) -> good_root (w n) n) -> g_data g = Some d -> g_ispow g = false ->
  axes_named g ax axn -> NoDup axn -> (forall a, In a axn -> (a < g_ndim g)%nat) ->
  exists g', fourier_transform w g ax nz = (g', Ok tt) /\ fourier_transform w g' ax nz = (g, Ok tt) /\
    consistent g' /\ same_space_but_flags g g' /\
    (forall i, (i < g_ndim g)%nat ->
       nth i (g_fsp g') false = if mem_nat i axn then negb (nth i (g_fsp g) false) else nth i (g_fsp g) false).
Proof. exact (c14_twice w g d ax axn nz). Qed.
Print Assumptions C14_twice.

(** ... and in particular over the complex numbers with w n = exp(-2 pi i / n) *)
Theorem C14_complex (g : grid CAlg) d ax axn nz :
  consistent g -> g_data g = Some d -> g_ispow g = false ->
  axes_named g ax axn -> NoDup axn -> (forall a, In a axn -> (a < g_ndim g)%nat) ->
  exists g', fourier_transform croot g ax nz = (g', Ok tt) /\ fourier_transform croot g' ax nz = (g, Ok tt) /\
    consistent g' /\ same_space_but_flags g g' /\
    (forall i, (i < g_ndim g)%nat ->
       nth i (g_fsp g') false = if mem_nat i axn then negb (nth i (g_fsp g) false) else nth i (g_fsp g) false).
Proof. exact (fun C => c14_twice croot g d ax axn nz C (roots_complex g C)). Qed.
Print Assumptions C14_complex.

(** without data, or on a power spectrum, the call is refused and nothing changes *)
Theorem C14_refused {A : Alg} (w : nat -> A) (g : grid A) ax nz :
  g_data g = None \/ g_ispow g = true -> fourier_transform w g ax nz = (g, Raise ValueError).
Proof. exact (c14_refused w g ax nz). Qed.
Print Assumptions C14_refused.

Example C14_nonvacuous : consistent (exA CAlg) /\ g_data (exA CAlg) <> None /\ g_ispow (exA CAlg) = false /\
  g_fsp (exA CAlg) = [true; false] /\
  axes_named (exA CAlg) (Some [1; 0]%Z) [1; 0]%nat /\ NoDup [1; 0]%nat /\
  (forall a, In a [1; 0]%nat -> (a < g_ndim (exA CAlg))%nat) /\ axes_named (exA CAlg) None [0; 1]%nat.
Proof.
  split; [exact (exA_consistent _)|]. split; [discriminate|]. split; [vm_compute; reflexivity|]. split; [reflexivity|].
  split; [reflexivity|]. split; [repeat constructor; simpl; intuition discriminate|].
  split; [rewrite exA_ndim; simpl; intuition lia|unfold axes_named; rewrite exA_ndim; reflexivity].
Qed.

(** * C58: after transforming an axis, the cell labelled with frequency f holds the
    Fourier sum at that frequency, positions measured from the first cell centre. *)
Theorem C58_frequencies (g : grid CAlg) a nz d : consistent g -> g_data g = Some d -> g_ispow g = false ->
  (a < g_ndim g)%nat -> nth a (g_fsp g) false = false ->
  exists g', fourier_transform croot g (Some [Z.of_nat a]) nz = (g', Ok tt) /\
  forall ix p, inb (g_npix g) ix = true -> (p < g_nprop g)%nat ->
    cell g' ix p =
    (vsum (map (fun j =>
       (cis (- (2 * PI * qr (nth (nth a ix 0%nat) (nth a (g_fcenters g) []) 0 *
                             (nth j (nth a (g_centers g) []) 0 - nth 0 (nth a (g_centers g) []) 0))%Qc)) : CAlg)
       * cell g (upd ix a j) p) (seq 0 (nth a (g_npix g) 0%nat)))
     * (if nz then emb (fnth (g_pix g) a) else v1))%V.
Proof. exact (c58_value g a nz d). Qed.
Print Assumptions C58_frequencies.

(** the order in which distinct axes are named does not matter *)
Theorem C58_order {A : Alg} (w : nat -> A) (g : grid A) l l' nz : consistent g -> NoDup l -> Permutation l l' ->
  fourier_transform w g (Some (map Z.of_nat l)) nz = fourier_transform w g (Some (map Z.of_nat l')) nz.
Proof. exact (c58_order w g l l' nz). Qed.
Print Assumptions C58_order.

(** transforming two disjoint groups of axes one after the other is one transform *)
Theorem C58_groups {A : Alg} (w : nat -> A) (g g1 : grid A) l1 l2 nz : consistent g -> NoDup (l1 ++ l2) ->
  (forall a, In a (l1 ++ l2) -> (a < g_ndim g)%nat) ->
  fourier_transform w g (Some (map Z.of_nat l2)) nz = (g1, Ok tt) ->
  fourier_transform w g1 (Some (map Z.of_nat l1)) nz = fourier_transform w g (Some (map Z.of_nat (l1 ++ l2))) nz.
Proof. exact (c58_groups w g g1 l1 l2 nz). Qed.
Print Assumptions C58_groups.

Example C58_nonvacuous : consistent (exA CAlg) /\ nth 1 (g_fsp (exA CAlg)) false = false /\
  (1 < g_ndim (exA CAlg))%nat /\ inb (g_npix (exA CAlg)) [3; 2]%nat = true /\ g_nprop (exA CAlg) = 2%nat /\
  map this (nth 1 (g_fcenters (exA CAlg)) []) = [-1 # 6; 0; 1 # 6]%Q /\ NoDup ([1] ++ [0])%nat /\ Permutation [1; 0]%nat [0; 1]%nat.
Proof.
  split; [exact (exA_consistent _)|]. repeat (split; [vm_compute; try reflexivity; repeat constructor; fail|]).
  split; [repeat constructor; simpl; intuition discriminate|apply perm_swap].
Qed.
