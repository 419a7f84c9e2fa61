(** Property C120: gridder_function. *)
From Verif Require Import Util Rat Val Arr GridModel GridModel2 GridSpec GfModel GfSpec Gf.
Open Scope Qc_scope.

(** Whatever is returned: one axis per column of the positions, one cell between each two neighbouring edges, one
    property per column of the values; and each cell holds the sum of the values of the objects between its edges
    (the lower edge belongs to the cell) *)
Theorem C120_cells {A : Alg} nc rows (vals : @valarg A) center side pix nd cube edges :
  gridder_function (Pos2 nc rows) vals center side pix nd = Ok (cube, edges) -> rows_ok nc rows -> (forall x, In x (fv pix) -> 0 < x) ->
  (rows <> [] -> length edges = nc) /\ shape cube = cells_of edges ++ [val_cols vals] /\
  forall ix k, inb (cells_of edges) ix = true -> (k < val_cols vals)%nat ->
    get cube (ix ++ [k]) = Some (total_between edges ix rows (val_col vals (length rows) k)).
Proof. apply gf_cells. Qed.
Print Assumptions C120_cells.

(** nothing is lost and nothing counted twice: all cells together hold the total over the objects inside the outermost edges *)
Theorem C120_total {A : Alg} nc rows (vals : @valarg A) center side pix nd cube edges k :
  gridder_function (Pos2 nc rows) vals center side pix nd = Ok (cube, edges) -> rows_ok nc rows -> (forall x, In x (fv pix) -> 0 < x) ->
  (k < val_cols vals)%nat ->
  vsum (map (fun ix => getd v0 cube (ix ++ [k])) (idxs (cells_of edges))) = total_within edges rows (val_col vals (length rows) k).
Proof. apply gf_total. Qed.
Print Assumptions C120_total.

(** the edges are as far apart as asked, there are at least two cells, and a centre that was given is in the middle *)
Theorem C120_edges {A : Alg} nc rows (vals : @valarg A) center side pix nd cube edges i :
  gridder_function (Pos2 nc rows) vals center side pix nd = Ok (cube, edges) -> rows_ok nc rows -> (forall x, In x (fv pix) -> 0 < x) ->
  (i < length edges)%nat ->
  let e := nth i edges [] in
  (3 <= length e)%nat /\ (forall k, (k < length e)%nat -> nth k e 0 = nth 0 e 0 + nq k * per_axis pix i) /\
  (forall c, center = Some c -> nth 0 e 0 + last e 0 = fnth c i + fnth c i).
Proof. apply gf_edges. Qed.
Print Assumptions C120_edges.

(** with centre and sides given it returns exactly when the shapes fit and every side is longer than 1.05 pixels;
    an empty catalogue is fine if the number of dimensions is given *)
Theorem C120_returns {A : Alg} nc rows (vals : @valarg A) c s pix nd : rows_ok nc rows -> (forall x, In x (fv pix) -> 0 < x) ->
  (exists r, gridder_function (Pos2 nc rows) vals (Some c) (Some s) pix nd = Ok r) <->
  exists n, dims_for nc rows nd n /\ val_rows vals (length rows) = length rows /\ flen c = n /\ one_or n (flen s) /\ one_or n (flen pix) /\
    forall i, (i < n)%nat -> frac 21 20 * per_axis pix i < per_axis s i.
Proof. apply gf_returns. Qed.
Print Assumptions C120_returns.

(** a plain list of numbers is a catalogue in one dimension, and the result is that of Gridder without units *)
Theorem C120_gridder {A : Alg} l (vals : @valarg A) pos center side pix nd :
  gridder_function (Pos1 l) vals center side pix nd = gridder_function (Pos2 1 (map (fun x => [x]) l)) vals center side pix nd /\
  match gridder pos vals center side pix None None nd with
  | Ok g => exists d, g_data g = Some d /\ gridder_function pos vals center side pix nd = Ok (d, g_axes g)
  | Raise e => gridder_function pos vals center side pix nd = Raise e
  end.
Proof.
  split; [reflexivity|]. unfold gridder_function. destruct (gridder pos vals center side pix None None nd) as [g|e] eqn:E; [|reflexivity].
  pose proof (gf_always _ _ _ _ _ _ _ E) as N. cbn [bind]. destruct (g_data g) as [d|]; [eauto|congruence].
Qed.
Print Assumptions C120_gridder.

Definition ex_gf_rows : list (list Qc) := [[0; 1]; [frac 35 10; 1]; [1; frac 35 10]; [1; frac 36 10]].
Definition fl2 (l : list Qc) : farr := mkF false l.
Example C120_nonvacuous : rows_ok 2 ex_gf_rows /\
  match gridder_function (A:=QcAlg) (Pos2 2 ex_gf_rows) (Val1 (A:=QcAlg) [zq 5; zq 7; zq 2; zq 4]) (Some (fl2 [zq 2; zq 2])) (Some (fl2 [zq 4])) (fl2 [zq 2]) None with
  | Ok (cube, edges) => shape cube = [2; 2; 1]%nat /\ map (map this) edges = map (map this) [[0; zq 2; zq 4]; [0; zq 2; zq 4]] /\ map this (dat cube) = map this [zq 5; zq 6; zq 7; 0]
  | Raise _ => False
  end /\
  match gridder_function (A:=QcAlg) (Pos2 1 []) ValNone (Some (fl2 [0; 0])) (Some (fl2 [zq 4])) (fl2 [zq 2]) (Some 2%nat) with
  | Ok (cube, edges) => shape cube = [2; 2; 1]%nat
  | Raise _ => False
  end.
Proof. split; [repeat constructor|]. split; [vm_compute; repeat split|vm_compute; reflexivity]. Qed.
