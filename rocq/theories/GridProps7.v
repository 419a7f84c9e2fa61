(** Spherical averages, automatically sized grids, down-sampling and grids built from
    axes: properties C20, C21, C24 and C25. *)
From Verif Require Import Util Rat Val Arr GridModel GridSpec GridModel2 GridSpec2 GridNew GridEx GridFT GridMore GridSphere.
Open Scope Qc_scope.

(** * C20.  For increasing shell edges, the entry of shell [i] at the other coordinates
    [jx] and property [k] is the weighted mean over exactly the cells whose radius lies
    in [s_i, s_{i+1}), or nan if their weights sum to zero.  Partial: every shell but the
    last, and weights that are whole numbers. *)
Theorem C20_shells_partial {A : Alg} (g : grid A) d ax axn cen shells w :
  consistent g -> g_data g = Some d -> axes_named g ax axn -> (forall a, In a axn -> (a < g_ndim g)%nat) -> one_space g axn ->
  (forall c, cen = Some c -> length c = g_ndim g) -> shell_weight_ok g w -> increasing shells = true -> shells <> [] ->
  exists res, spherical_average g ax cen shells w = Ok (shells, res) /\
    shape res = [length shells - 1]%nat ++ map (fun i => nth i (g_npix g) 0%nat) (other_axes g axn) ++ [g_nprop g] /\
    forall i jx k, (S (S i) < length shells)%nat -> inb (map (fun i => nth i (g_npix g) 0%nat) (other_axes g axn)) jx = true -> (k < g_nprop g)%nat ->
      let cells := shell_cells g axn cen shells i jx in
      (forall ix, In ix cells -> integral (shell_weight w ix k)) ->
      let W := qsum (map (fun ix => shell_weight w ix k) cells) in
      getd None res (i :: jx ++ [k]) = if qeqb W 0 then None
        else Some (vsum (map (fun ix => (cell g ix k * emb (shell_weight w ix k))%V) cells) * emb (/ W))%V.
Proof. exact (c20_shells g d ax axn cen shells w). Qed.
Print Assumptions C20_shells_partial.

(** * False for the last shell: its entries are nan whatever the grid and the weights. *)
Theorem C20_last_refuted {A : Alg} (g : grid A) d ax axn cen shells w :
  consistent g -> g_data g = Some d -> axes_named g ax axn -> (forall a, In a axn -> (a < g_ndim g)%nat) -> one_space g axn ->
  (forall c, cen = Some c -> length c = g_ndim g) -> shell_weight_ok g w -> increasing shells = true ->
  forall i jx k, S (S i) = length shells -> inb (map (fun i => nth i (g_npix g) 0%nat) (other_axes g axn)) jx = true -> (k < g_nprop g)%nat ->
  exists res, spherical_average g ax cen shells w = Ok (shells, res) /\ getd None res (i :: jx ++ [k]) = None.
Proof. exact (c20_last g d ax axn cen shells w). Qed.
Print Assumptions C20_last_refuted.

(** * False for weights below one: the running total of the weights is truncated to a
    whole number, so a shell whose weights are all in [0,1) gives nan. *)
Theorem C20_small_weights_refuted {A : Alg} (g : grid A) d ax axn cen shells w :
  consistent g -> g_data g = Some d -> axes_named g ax axn -> (forall a, In a axn -> (a < g_ndim g)%nat) -> one_space g axn ->
  (forall c, cen = Some c -> length c = g_ndim g) -> shell_weight_ok g w -> increasing shells = true ->
  forall i jx k, (S i < length shells)%nat -> inb (map (fun i => nth i (g_npix g) 0%nat) (other_axes g axn)) jx = true -> (k < g_nprop g)%nat ->
  (forall ix, In ix (shell_cells g axn cen shells i jx) -> 0 <= shell_weight w ix k /\ shell_weight w ix k < 1) ->
  exists res, spherical_average g ax cen shells w = Ok (shells, res) /\ getd None res (i :: jx ++ [k]) = None.
Proof. exact (c20_small g d ax axn cen shells w). Qed.
Print Assumptions C20_small_weights_refuted.

(** averages over both axes, and over one, of the 4x3 grid; the last shell and the
    fractional weights do contain cells *)
Definition ex_shells : list Qc := [0; 1; zq 2; zq 3].
Definition ex_real : grid QcAlg := with_fsp (exA QcAlg) [false; false].
Lemma ex_real_consistent : consistent ex_real.
Proof. apply consistent_with2; [exact (exA_consistent _)|vm_compute; reflexivity]. Qed.
Definition ex_half : arr Qc := tab [4%nat; 3%nat] (fun _ => 1 / zq 2).
Example C20_nonvacuous :
  consistent ex_real /\ axes_named ex_real None [0; 1]%nat /\ axes_named ex_real (Some [1%Z]) [1%nat] /\ one_space ex_real [0; 1]%nat /\
  increasing ex_shells = true /\ shell_weight_ok ex_real None /\ shell_weight_ok ex_real (Some ex_half) /\
  shell_cells ex_real [0; 1]%nat None ex_shells 1 [] <> [] /\ shell_cells ex_real [0; 1]%nat None ex_shells 2 [] <> [] /\
  shell_cells ex_real [1%nat] None ex_shells 0 [2%nat] <> [] /\
  (forall ix, 0 <= shell_weight (Some ex_half) ix 0 /\ shell_weight (Some ex_half) ix 0 < 1).
Proof.
  split; [exact ex_real_consistent|]. split; [reflexivity|]. split; [reflexivity|].
  split; [right; intros i [<-|[<-|[]]]; reflexivity|]. split; [vm_compute; reflexivity|]. split; [exact I|].
  split; [split; [apply tab_wf|left; vm_compute; reflexivity]|].
  split; [vm_compute; discriminate|]. split; [vm_compute; discriminate|]. split; [vm_compute; discriminate|].
  intros ix. unfold shell_weight.
  assert (H : forall jx, 0 <= getd 0 ex_half jx /\ getd 0 ex_half jx < 1).
  { intros jx. unfold ex_half. destruct (inb [4%nat; 3%nat] jx) eqn:E.
    - rewrite getd_tab by auto. split; [apply qleb_le|apply qltb_lt]; vm_compute; reflexivity.
    - unfold getd, get. cbn [shape tab]. rewrite E. split; [apply qleb_le|apply qltb_lt]; vm_compute; reflexivity. }
  destruct (_ =? _)%nat; apply H.
Qed.

(** * C21.  A grid sized from the catalogue is well formed and keeps the pixel size asked
    for.  It holds every object exactly when, on every axis, no two objects are as far
    apart as the grid is long. *)
Theorem C21_all_iff_partial {A : Alg} nc rows vals pix au gu nd (g : grid A) :
  gridder (Pos2 nc rows) vals None None pix au gu nd = Ok g -> rows_ok nc rows -> (forall x, In x (fv pix) -> 0 < x) ->
  consistent g /\ g_ndim g = nc /\ (forall i, (i < nc)%nat -> fnth (g_pix g) i = bval pix i) /\
  (g_nobj g = length rows <->
   forall i r r', (i < nc)%nat -> In r rows -> In r' rows -> nth i r 0 - nth i r' 0 < nq (nth i (g_npix g) 0%nat) * fnth (g_pix g) i).
Proof. exact (c21_iff nc rows vals pix au gu nd g). Qed.
Print Assumptions C21_all_iff_partial.

(** * False in general: 3.04 rounds to three pixels and both objects fall outside. *)
Definition ex_two_obj : list (list Qc) := [[0]; [frac 304 100]].
Theorem C21_all_refuted : exists (g : grid QcAlg), gridder (Pos2 1 ex_two_obj) ValNone None None (fl [1]%Z) None None None = Ok g /\ g_nobj g = 0%nat /\ length ex_two_obj = 2%nat.
Proof.
  assert (H : exists n, match gridder (A:=QcAlg) (Pos2 1 ex_two_obj) ValNone None None (fl [1]%Z) None None None with Ok g => Some (g_nobj g) | Raise _ => None end = Some n /\ n = 0%nat)
    by (eexists; split; vm_compute; reflexivity).
  destruct H as (n & H & ->). destruct (gridder _ _ _ _ _ _ _ _) as [g|e]; [|discriminate]. exists g. split; [reflexivity|]. split; [congruence|reflexivity].
Qed.
Print Assumptions C21_all_refuted.

Example C21_nonvacuous : exists (g : grid QcAlg), gridder (Pos2 2 [[0; 1]; [frac 35 10; 1]; [1; frac 35 10]]) ValNone None None (fl [1]%Z) None None None = Ok g /\
  g_nobj g = 3%nat /\ rows_ok 2 [[0; 1]; [frac 35 10; 1]; [1; frac 35 10]].
Proof.
  assert (H : match gridder (A:=QcAlg) (Pos2 2 [[0; 1]; [frac 35 10; 1]; [1; frac 35 10]]) ValNone None None (fl [1]%Z) None None None with Ok g => Some (g_nobj g) | Raise _ => None end = Some 3%nat)
    by (vm_compute; reflexivity).
  destruct (gridder _ _ _ _ _ _ _ _) as [g|e]; [|discriminate]. exists g. split; [reflexivity|]. split; [congruence|].
  repeat constructor.
Qed.

(** What remains true of a call that returns: along every axis asked for, the number of
    pixels is divided by the factor, the pixels are that much wider, the first centres
    are the means of their groups, and every cell holds the sum or mean over its complete
    group of cells.  Missing: the arrays of centres and edges keep their old lengths
    (below), and with current numpy only grids without data get this far. *)
Theorem C24_bins_partial {A : Alg} (g : grid A) old ax factor av g' :
  consistent g -> floats g -> NoDup ax -> length factor <> 1%nat -> down_sample old g ax factor av = (g', Ok tt) ->
  let l := map Z.to_nat ax in
  let f i := Z.to_nat (nth i factor 0%Z) in
  (forall i, (i < g_ndim g)%nat -> In i l ->
     (1 <= f i)%nat /\ nth i (g_npix g') 0%nat = (nth i (g_npix g) 0 / f i)%nat /\ fnth (g_pix g') i = nq (f i) * fnth (g_pix g) i /\
     forall j, (j < nth i (g_npix g') 0)%nat ->
       nth j (nth i (g_centers g') []) 0 = qsum (map (fun k => nth (j * f i + k) (nth i (g_centers g) []) 0) (seq 0 (f i))) / nq (f i)) /\
  (forall i, (i < g_ndim g)%nat -> ~ In i l -> nth i (g_npix g') 0%nat = nth i (g_npix g) 0%nat /\ fnth (g_pix g') i = fnth (g_pix g) i /\
     nth i (g_axes g') [] = nth i (g_axes g) [] /\ nth i (g_centers g') [] = nth i (g_centers g) []) /\
  match g_data g, g_data g' with
  | None, None => True
  | Some d, Some d' => shape d' = g_npix g' ++ [g_nprop g] /\
      forall ix, inb (shape d') ix = true -> getd v0 d' ix = binned av (map (fun i => (i, f i)) (rev l)) d ix
  | _, _ => False
  end.
Proof. intros C F N L H. exact (proj2 (proj2 (proj2 (proj2 (proj2 (proj2 (c24_bins g old ax factor av g' C F N L H))))))). Qed.
Print Assumptions C24_bins_partial.

(** * C24 is false: no call of [down_sample] that returns leaves axes consistent with the
    data, whatever the numpy version, axes, factors of two or more and mode. *)
Theorem C24_consistent_refuted {A : Alg} (g : grid A) old ax factor av g' :
  consistent g -> ax <> [] -> (forall f, In f factor -> (2 <= f)%Z) -> down_sample old g ax factor av = (g', Ok tt) -> ~ consistent g'.
Proof. exact (c24_never g old ax factor av g'). Qed.
Print Assumptions C24_consistent_refuted.

(** with current numpy, a grid that has data cannot be down-sampled at all; at least the
    refused call leaves it as it was *)
Theorem C24_active_refuted {A : Alg} (g : grid A) a ax factor av :
  consistent g -> g_data g <> None -> (forall f, In f factor -> (1 <= f)%Z) ->
  (forall i f, (i < g_ndim g)%nat -> In f factor -> (Z.to_nat f <= nth i (g_npix g) 0)%nat) ->
  exists e, down_sample false g (a :: ax) factor av = (g, Raise e).
Proof. exact (c24_active g a ax factor av). Qed.
Print Assumptions C24_active_refuted.

Definition ex_8x6 : grid QcAlg := mk QcAlg 1 (fl [0; 0]%Z) (fl [8; 6]%Z) (fl [1]%Z).
Lemma ex_8x6_consistent : consistent ex_8x6.
Proof.
  eapply (grid_new_consistent QcAlg 1%nat (fl [0; 0]%Z) (fl [8; 6]%Z) (fl [1]%Z) None None).
  - apply ok_or_eq. vm_compute. reflexivity.
  - intros x. apply fl_pos. reflexivity.
Qed.
Example C24_nonvacuous : consistent ex_8x6 /\ floats ex_8x6 /\ snd (down_sample false ex_8x6 [0; 1]%Z [2; 3]%Z true) = Ok tt /\
  snd (down_sample true (init_grid ex_8x6) [0; 1]%Z [2; 3]%Z true) = Ok tt /\ snd (down_sample false (init_grid ex_8x6) [0; 1]%Z [2; 3]%Z true) = Raise IndexError.
Proof. split; [exact ex_8x6_consistent|]. split; [repeat split; vm_compute; reflexivity|]. repeat split; vm_compute; reflexivity. Qed.

(** * C25.  [GridFromAxes] given uniformly spaced edges (three or more on every axis)
    builds a well-formed grid with exactly those edges and their midpoints as centres. *)
Theorem C25_edges {A : Alg} axes np au gu : axes <> [] -> Forall uniform_edges axes -> units_ok (length axes) au -> units_ok np gu ->
  exists g : grid A, grid_from_axes axes np au gu = Ok g /\ consistent g /\ g_nprop g = np /\ g_ndim g = length axes /\ g_data g = None /\
    g_axes g = axes /\
    forall i k, (i < length axes)%nat -> (S k < length (nth i axes []))%nat ->
      nth k (nth i (g_centers g) []) 0 = (nth k (nth i axes []) 0 + nth (S k) (nth i axes []) 0) / zq 2.
Proof. exact (c25_edges axes np au gu). Qed.
Print Assumptions C25_edges.

Example C25_nonvacuous : Forall uniform_edges [[0; 1; zq 2; zq 3]; [frac 1 2; 1; frac 3 2]] /\ units_ok 2 None /\ units_ok 1 None.
Proof.
  split; [|split; exact I]. constructor; [|constructor; [|constructor]].
  - exists 0, 1, 3%nat. split; [lia|]. split; [reflexivity|]. simpl. repeat f_equal; apply qeqb_eq; vm_compute; reflexivity.
  - exists (frac 1 2), (frac 1 2), 2%nat. split; [lia|]. split; [reflexivity|]. simpl. repeat f_equal; apply qeqb_eq; vm_compute; reflexivity.
Qed.
(** edges that are uniform only to within the tolerance are accepted and moved; and two
    edges are refused.  Neither is covered by the property. *)
Example C25_tolerance : exists (g : grid QcAlg), grid_from_axes [[0; 1; frac 200001 100000]] 1 None None = Ok g /\
  nth 1 (nth 0 (g_axes g) []) 0 <> 1 /\ exists e, @grid_from_axes QcAlg [[0; 1]] 1 None None = Raise e.
Proof.
  assert (H : match grid_from_axes (A:=QcAlg) [[0; 1; frac 200001 100000]] 1 None None with Ok g => Some (qeqb (nth 1 (nth 0 (g_axes g) []) 0) 1) | Raise _ => None end = Some false)
    by (vm_compute; reflexivity).
  destruct (grid_from_axes _ _ _ _) as [g|e]; [|discriminate]. exists g. split; [reflexivity|]. split.
  - intros Q. injection H as H. rewrite Q, (proj2 (qeqb_eq _ _) eq_refl) in H. discriminate.
  - eexists. vm_compute. reflexivity.
Qed.
