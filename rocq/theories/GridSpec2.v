(** Specification vocabulary for the operations modelled in [GridModel2]. *)
From Verif Require Import Util Rat Val Arr GridModel GridSpec.
Open Scope Qc_scope.

(** the grids describe the same lattice (data, flags and properties may differ) *)
Definition same_lattice {A} (g g' : grid A) : Prop :=
  g_ndim g' = g_ndim g /\ g_center g' = g_center g /\ g_side g' = g_side g /\ g_pix g' = g_pix g /\
  g_npix g' = g_npix g /\ g_axu g' = g_axu g /\ g_faxu g' = g_faxu g /\
  g_axes g' = g_axes g /\ g_centers g' = g_centers g /\ g_faxes g' = g_faxes g /\ g_fcenters g' = g_fcenters g.

(** the axes whose space has to change for exactly [axn] to be in Fourier space *)
Definition to_change {A} (g : grid A) (axn : list nat) : list nat :=
  filter (fun i => xorb (mem_nat i axn) (nth i (g_fsp g) false)) (seq 0 (g_ndim g)).

(** property [k] of a grid, a single property standing for all of them *)
Definition prop_ix (n k : nat) : nat := if (n =? 1)%nat then 0%nat else k.
(** how many properties a cell-by-cell combination of the two grids has *)
Definition pair_props {A} (g c : grid A) : nat := if (g_nprop g =? 1)%nat then g_nprop c else g_nprop g.
(** [g] and [c] can be combined cell by cell *)
Definition compatible {A} (g c : grid A) : Prop :=
  g_ndim c = g_ndim g /\ g_npix c = g_npix g /\ (g_nprop c = g_nprop g \/ g_nprop c = 1 \/ g_nprop g = 1)%nat.

(** * collapsing one axis *)
(** what the weights argument says about cell [j] of axis [a] at the remaining
    position [ix]: one, a weight per cell along the axis, or a weight per grid cell *)
Definition weight_at (a : nat) (w : option (arr Qc)) (ix : list nat) (j : nat) : Qc :=
  match w with
  | None => 1
  | Some w => if (length (shape w) =? 1)%nat then getd 0 w [j] else getd 0 w (ins_nth ix a j)
  end.
Definition weight_ok {A} (g : grid A) (a : nat) (w : option (arr Qc)) : Prop :=
  match w with
  | None => True
  | Some w => awf w /\ (shape w = [nth a (g_npix g) 0%nat] \/ shape w = g_npix g)
  end.
(** [g'] is [g] without axis [a]: everything about the other axes is kept, in order *)
Definition without_axis {A} (a : nat) (g g' : grid A) : Prop :=
  g_nprop g' = g_nprop g /\ g_nobj g' = g_nobj g /\ g_gru g' = g_gru g /\ g_ispow g' = g_ispow g /\
  S (g_ndim g') = g_ndim g /\
  fv (g_center g') = del_nth (fv (g_center g)) a /\ fv (g_side g') = del_nth (fv (g_side g)) a /\
  fv (g_pix g') = del_nth (fv (g_pix g)) a /\ g_npix g' = del_nth (g_npix g) a /\
  g_axu g' = del_nth (g_axu g) a /\ g_faxu g' = del_nth (g_faxu g) a /\
  g_axes g' = del_nth (g_axes g) a /\ g_centers g' = del_nth (g_centers g) a /\
  g_faxes g' = del_nth (g_faxes g) a /\ g_fcenters g' = del_nth (g_fcenters g) a /\ g_fsp g' = del_nth (g_fsp g) a.

(** [n] >= 2 cells between n+1 equally spaced edges *)
Definition uniform_edges (e : list Qc) : Prop :=
  exists e0 p n, (2 <= n)%nat /\ 0 < p /\ e = map (fun k => e0 + nq k * p) (seq 0 (S n)).

(** [s] <= sqrt [r2], for [r2] >= 0 *)
Definition reaches (s r2 : Qc) : bool := qltb s 0 || qleb (s * s) r2.
(** a cell at radius sqrt [r2] belongs to shell [i]: s_i <= r < s_{i+1} *)
Definition in_shell (shells : list Qc) (i : nat) (r2 : Qc) : bool :=
  reaches (nth i shells 0) r2 && negb (reaches (nth (S i) shells 0) r2).
(** squared distance of a cell's centre, along the axes [axn], from the centre asked
    for; by default from the centre of the grid, or from zero frequency *)
Definition shell_center {A} (g : grid A) (cen : option (list Qc)) (i : nat) : Qc :=
  match cen with
  | Some c => nth i c 0
  | None => if nth i (g_fsp g) false then 0 else fnth (g_center g) i
  end.
Definition radius2 {A} (g : grid A) (axn : list nat) (cen : option (list Qc)) (ix : list nat) : Qc :=
  qsum (map (fun i =>
      let x := nth (nth i ix 0%nat) (nth i (if nth i (g_fsp g) false then g_fcenters g else g_centers g) []) 0 in
      (x - shell_center g cen i) * (x - shell_center g cen i)) axn).
(** weight of a cell: one, or given per cell, or per cell and property *)
Definition shell_weight (w : option (arr Qc)) (ix : list nat) (k : nat) : Qc :=
  match w with
  | None => 1
  | Some w => if (length (shape w) =? length ix)%nat then getd 0 w ix else getd 0 w (ix ++ [k])
  end.
Definition shell_weight_ok {A} (g : grid A) (w : option (arr Qc)) : Prop :=
  match w with
  | None => True
  | Some w => awf w /\ (shape w = g_npix g \/ shape w = g_npix g ++ [g_nprop g])
  end.
(** the axes not averaged over *)
Definition other_axes {A} (g : grid A) (axn : list nat) : list nat :=
  filter (fun i => negb (mem_nat i axn)) (seq 0 (g_ndim g)).
(** the cells of shell [i] whose other coordinates are [jx] *)
Definition shell_cells {A} (g : grid A) (axn : list nat) (cen : option (list Qc)) (shells : list Qc) (i : nat) (jx : list nat) : list (list nat) :=
  filter (fun ix => in_shell shells i (radius2 g axn cen ix) &&
                    (if list_eq_dec Nat.eq_dec (map (fun a => nth a ix 0%nat) (other_axes g axn)) jx then true else false))
         (idxs (g_npix g)).

(** ** Down-sampling *)
Section Binned.
Context {A : Alg}.
(** the sum, or mean, over the complete group of cells that cell [ix] of the coarse grid
    stands for: [f] neighbours along axis [a] for every [(a, f)] *)
Fixpoint binned (average : bool) (fs : list (nat * nat)) (d : arr A) (ix : list nat) : A :=
  match fs with
  | [] => getd v0 d ix
  | (a, f) :: r =>
      let s := vsum (map (fun k => binned average r d (upd ix a (nth a ix 0 * f + k)%nat)) (seq 0 f)) in
      if average then (s * emb (/ nq f))%V else s
  end.
End Binned.
