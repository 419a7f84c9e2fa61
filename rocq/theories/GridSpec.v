(** Specifications for grids, written independently of the way the code computes
    things: what it means for a grid's metadata to describe one uniform lattice of
    cells, which cell a position is in, and the totals a cell should receive. *)
From Verif Require Import Util Rat Val Arr GridModel.
Open Scope Qc_scope.

(** One axis: [n] cells of width [p] > 0, extent [s] = n*p, centred on [c];
    [edges] are the n+1 cell boundaries, [cens] the n midpoints,
    [fcens] the n Fourier frequencies (k - n/2)/(n p) in increasing order. *)
Record axis_ok (n : nat) (c s p : Qc) (edges cens fedges fcens : list Qc) : Prop := {
  ao_p : 0 < p;
  ao_n : (2 <= n)%nat;
  ao_s : s = nq n * p;
  ao_elen : length edges = S n;
  ao_edge : forall k, (k <= n)%nat -> nth_error edges k = Some (c - s / zq 2 + nq k * p);
  ao_clen : length cens = n;
  ao_cen : forall k, (k < n)%nat -> nth_error cens k = Some (c - s / zq 2 + (nq k + frac 1 2) * p);
  ao_flen : length fcens = n;
  ao_fcen : forall k, (k < n)%nat ->
      nth_error fcens k = Some (zq (Z.of_nat k - Z.of_nat (n / 2)) / (nq n * p));
  ao_fedge : axis_edges fcens = Ok fedges
}.

(** A grid whose metadata all describe the same lattice, and whose data array (if
    any) has one entry per cell and property. *)
Record consistent {A} (g : grid A) : Prop := {
  co_c : flen (g_center g) = g_ndim g;
  co_s : flen (g_side g) = g_ndim g;
  co_p : flen (g_pix g) = g_ndim g;
  co_n : length (g_npix g) = g_ndim g;
  co_ax : length (g_axes g) = g_ndim g;
  co_ce : length (g_centers g) = g_ndim g;
  co_fa : length (g_faxes g) = g_ndim g;
  co_fc : length (g_fcenters g) = g_ndim g;
  co_fs : length (g_fsp g) = g_ndim g;
  co_au : length (g_axu g) = g_ndim g;
  co_fu : g_faxu g = map hat_inv (g_axu g);
  co_axis : forall i, (i < g_ndim g)%nat ->
     axis_ok (nth i (g_npix g) 0%nat) (fnth (g_center g) i) (fnth (g_side g) i) (fnth (g_pix g) i)
             (nth i (g_axes g) []) (nth i (g_centers g) []) (nth i (g_faxes g) []) (nth i (g_fcenters g) []);
  co_data : match g_data g with
            | Some d => awf d /\ shape d = g_npix g ++ [g_nprop g]
            | None => True
            end
}.

(** all geometric attributes stored in floating point (see the dtype findings) *)
Definition floats {A} (g : grid A) : Prop :=
  fint (g_center g) = false /\ fint (g_side g) = false /\ fint (g_pix g) = false.

(** everything except the data and the object/property counts agrees *)
Definition same_geometry {A} (g g' : grid A) : Prop :=
  g_ndim g' = g_ndim g /\ g_center g' = g_center g /\ g_side g' = g_side g /\ g_pix g' = g_pix g /\
  g_npix g' = g_npix g /\ g_axu g' = g_axu g /\ g_faxu g' = g_faxu g /\
  g_axes g' = g_axes g /\ g_centers g' = g_centers g /\ g_faxes g' = g_faxes g /\
  g_fcenters g' = g_fcenters g /\ g_fsp g' = g_fsp g /\ g_ispow g' = g_ispow g.

(** [x] lies in cell [k] of an axis: between consecutive edges, lower one included *)
Definition in_bin (edges : list Qc) (k : nat) (x : Qc) : bool :=
  match nth_error edges k, nth_error edges (S k) with
  | Some lo, Some hi => qleb lo x && qltb x hi
  | _, _ => false
  end.

(** position [p] lies in the box of cell [ix] *)
Fixpoint in_box (axes : list (list Qc)) (ix : list nat) (p : list Qc) : bool :=
  match axes, ix, p with
  | [], [], [] => true
  | e :: axes', k :: ix', x :: p' => in_bin e k x && in_box axes' ix' p'
  | _, _, _ => false
  end.
Definition in_cell {A} (g : grid A) (ix : list nat) (p : list Qc) : bool := in_box (g_axes g) ix p.

(** position [p] lies somewhere in the grid: between the first and last edge of each axis *)
Fixpoint in_extent (axes : list (list Qc)) (p : list Qc) : bool :=
  match axes, p with
  | [], [] => true
  | e :: axes', x :: p' => (qleb (hd 0 e) x && qltb x (last e 0)) && in_extent axes' p'
  | _, _ => false
  end.

(** what a cell should receive from a catalogue: the sum of the values of the
    objects that lie in it *)
Definition cell_total {A : Alg} (g : grid A) (ix : list nat) (rows : list (list Qc)) (vs : list A) : A :=
  vsum (map snd (filter (fun ov => in_cell g ix (fst ov)) (combine rows vs))).

(** sum of a property over all cells of the grid *)
Definition prop_total {A : Alg} (npix : list nat) (d : arr A) (k : nat) : A :=
  vsum (map (fun ix => getd v0 d (ix ++ [k])) (idxs npix)).

(** the sum of the values of the objects inside the grid, and their number *)
Definition inside_total {A : Alg} (g : grid A) (rows : list (list Qc)) (vs : list A) : A :=
  vsum (map snd (filter (fun ov => in_extent (g_axes g) (fst ov)) (combine rows vs))).
Definition inside_count {A : Alg} (g : grid A) (rows : list (list Qc)) : nat :=
  length (filter (in_extent (g_axes g)) rows).

(** the [values] argument of [add_from_cat] for [n] objects: number of rows, number
    of columns, and the values in column [k] (no values: every object counts one) *)
Definition val_rows {A : Alg} (vals : valarg (A:=A)) (n : nat) : nat :=
  match vals with ValNone => n | Val1 l => length l | Val2 _ r => length r end.
Definition val_cols {A : Alg} (vals : valarg (A:=A)) : nat :=
  match vals with ValNone => 1%nat | Val1 _ => 1%nat | Val2 nc _ => nc end.
Definition val_col {A : Alg} (vals : valarg (A:=A)) (n k : nat) : list A :=
  match vals with
  | ValNone => repeat v1 n
  | Val1 l => l
  | Val2 _ r => map (fun row => nth k row v0) r
  end.

(** every object of a catalogue has [n] coordinates *)
Definition rows_ok (n : nat) (rows : list (list Qc)) : Prop := Forall (fun r => length r = n) rows.

(** a grid on which objects can be placed: data allocated, no Fourier-space axis *)
Definition ready {A} (g : grid A) (d : arr A) : Prop :=
  g_data g = Some d /\ existsb (fun b => b) (g_fsp g) = false.

(** how many times the property [k] was requested *)
Definition times (k : nat) (ps : list nat) : nat := count_occ Nat.eq_dec ps k.
Definition scaled {A : Alg} (m : nat) (x : A) : A := (emb (nq m) * x)%V.

(** objects of a catalogue: position together with the list of their values *)
Definition val_list {A : Alg} (vals : valarg (A:=A)) (n : nat) : list (list A) :=
  match vals with
  | ValNone => repeat [v1] n
  | Val1 l => map (fun v => [v]) l
  | Val2 _ r => r
  end.
Definition objects {A : Alg} (rows : list (list Qc)) (vals : valarg (A:=A)) : list (list Qc * list A) :=
  combine rows (val_list vals (length rows)).
(** concatenation of two [values] arguments of the same kind *)
Definition val_app {A : Alg} (a b : valarg (A:=A)) : option (valarg (A:=A)) :=
  match a, b with
  | ValNone, ValNone => Some ValNone
  | Val1 l, Val1 m => Some (Val1 (l ++ m))
  | Val2 n l, Val2 n' m => if (n =? n')%nat then Some (Val2 n (l ++ m)) else None
  | _, _ => None
  end.

(** what cell [ix] should receive from spectra laid along axis [ax]: channel
    [ix[ax]] of every object lying in the column of cells through [ix] *)
Definition spec_total {A : Alg} (g : grid A) (ax : nat) (ix : list nat)
    (rows : list (list Qc)) (spectra : list (list A)) : A :=
  vsum (map (fun os => nth (nth ax ix 0%nat) (snd os) v0)
            (filter (fun os => in_box (del_nth (g_axes g) ax) (del_nth ix ax) (fst os))
                    (combine rows spectra))).
(** objects lying over the grid when axis [ax] is ignored *)
Definition over_count {A : Alg} (g : grid A) (ax : nat) (rows : list (list Qc)) : nat :=
  length (filter (in_extent (del_nth (g_axes g) ax)) rows).
(** one object per channel, at the channel's centre *)
Definition expand {A} (g : grid A) (ax : nat) (rows : list (list Qc)) : list (list Qc) :=
  flat_map (fun r => map (fun c => ins_nth r ax c) (nth ax (g_centers g) [])) rows.

(** padding requested for axis [i]: the entry of [pad] at the (first) place where
    the axis is named, nothing for an axis that is not named *)
Definition pad_of (ax : list nat) (pad : list Z) (i : nat) : Z :=
  match index_nat i ax with Some j => nth j pad 0%Z | None => 0%Z end.
Definition pads {A} (g : grid A) (ax : list nat) (pad : list Z) : list Z :=
  map (pad_of ax pad) (seq 0 (g_ndim g)).
(** cell [ix] of the padded grid is cell [jx] of the original one: ix = jx + p *)
Fixpoint shifted (p : list Z) (jx ix : list nat) : bool :=
  match p, jx, ix with
  | [], [], [] => true
  | a :: p', j :: jx', i :: ix' => (Z.of_nat i =? Z.of_nat j + a)%Z && shifted p' jx' ix'
  | _, _, _ => false
  end.
(** the entry the code reads for an axis is the one requested for it *)
Definition pads_agree {A} (g : grid A) (ax : list nat) (pad : list Z) : Prop :=
  forall i, (i < g_ndim g)%nat -> pad_of ax pad i <> 0%Z ->
    exists a, nth_error ax i = Some a /\ nth_error pad a = Some (pad_of ax pad i).
(** the [pad] argument as one entry per named axis (a single entry is shared) *)
Definition spread {X} (ax : list nat) (l : list X) : list X :=
  match l with [x] => repeat x (length ax) | _ => l end.
Definition pad_call_ok {A} (g : grid A) (ax : list nat) (pad : list Z) : Prop :=
  NoDup ax /\ ax <> [] /\ (forall a, In a ax -> (a < g_ndim g)%nat) /\ length (spread ax pad) = length ax.

(** cells of axis [i] whose centre lies in [lo,hi], in increasing order *)
Definition selected {A} (g : grid A) (i : nat) (lo hi : Qc) : list nat :=
  filter (fun k => qleb lo (nth k (nth i (g_centers g) []) 0) && qleb (nth k (nth i (g_centers g) []) 0) hi)
         (seq 0 (nth i (g_npix g) 0%nat)).
(** a bound that is not given is the first / last edge of the axis *)
Definition crop_lo {A} (g : grid A) (i : nat) (omin : option Qc) : Qc :=
  match omin with Some x => x | None => hd 0 (nth i (g_axes g) []) end.
Definition crop_hi {A} (g : grid A) (i : nat) (omax : option Qc) : Qc :=
  match omax with Some x => x | None => last (nth i (g_axes g) []) 0 end.

(** factor given for axis [i]: the entry of [factor] at the place where the axis is
    named; an axis that is not named is multiplied by one *)
Definition factor_of (ax : list nat) (factor : list Qc) (i : nat) : Qc :=
  match index_nat i ax with Some j => nth j factor 1 | None => 1 end.
Definition scale_call_ok {A} (g : grid A) (ax : list nat) (factor : list Qc) : Prop :=
  NoDup ax /\ (forall a, In a ax -> (a < g_ndim g)%nat) /\ length (spread ax factor) = length ax.
(** the entry the code reads for an axis is the one given for it *)
Definition factors_agree (ax : list nat) (factor : list Qc) : Prop :=
  forall i, In i ax -> nth_error factor i = Some (factor_of ax factor i).
(** [g'] is [g] with axis [i] multiplied by [F i], and nothing else changed *)
Record rescaled {A} (F : nat -> Qc) (g g' : grid A) : Prop := {
  rs_rest : g_nprop g' = g_nprop g /\ g_nobj g' = g_nobj g /\ g_ndim g' = g_ndim g /\ g_npix g' = g_npix g /\
    g_axu g' = g_axu g /\ g_faxu g' = g_faxu g /\ g_gru g' = g_gru g /\ g_fsp g' = g_fsp g /\
    g_ispow g' = g_ispow g /\ g_data g' = g_data g;
  rs_axis : forall i, (i < g_ndim g)%nat ->
    fnth (g_center g') i = fnth (g_center g) i * F i /\
    fnth (g_side g') i = fnth (g_side g) i * F i /\
    fnth (g_pix g') i = fnth (g_pix g) i * F i /\
    nth i (g_axes g') [] = map (fun x => x * F i) (nth i (g_axes g) []) /\
    nth i (g_centers g') [] = map (fun x => x * F i) (nth i (g_centers g) []) /\
    nth i (g_faxes g') [] = map (fun x => x / F i) (nth i (g_faxes g) []) /\
    nth i (g_fcenters g') [] = map (fun x => x / F i) (nth i (g_fcenters g) [])
}.

(** value of the property [p] in cell [ix] *)
Definition cell {A : Alg} (g : grid A) (ix : list nat) (p : nat) : A :=
  match g_data g with Some d => getd v0 d (ix ++ [p]) | None => v0 end.

(** [w] behaves as a primitive n-th root of unity exp(-2 pi i / n): it has modulus
    one, and the sum of its powers w^(jk), j < n, vanishes unless k is a multiple of n *)
Definition good_root {A : Alg} (w : A) (n : nat) : Prop :=
  (w * star w)%V = v1 /\
  forall k, (0 < k < n)%nat -> vsum (map (fun j => vpow w (j * k)) (seq 0 n)) = v0.

(** the grids differ only in their data and their map/Fourier flags *)
Definition same_space_but_flags {A} (g g' : grid A) : Prop :=
  g_nprop g' = g_nprop g /\ g_nobj g' = g_nobj g /\ g_ndim g' = g_ndim g /\ g_center g' = g_center g /\
  g_side g' = g_side g /\ g_pix g' = g_pix g /\ g_npix g' = g_npix g /\ g_axu g' = g_axu g /\
  g_faxu g' = g_faxu g /\ g_gru g' = g_gru g /\ g_axes g' = g_axes g /\ g_centers g' = g_centers g /\
  g_faxes g' = g_faxes g /\ g_fcenters g' = g_fcenters g /\ g_ispow g' = g_ispow g.

(** the axes an [ax] argument names: all of them by default *)
Definition axes_named {A} (g : grid A) (ax : option (list Z)) (axn : list nat) : Prop :=
  match ax with None => axn = seq 0 (g_ndim g) | Some l => l = map Z.of_nat axn end.
