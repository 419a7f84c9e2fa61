(** Collapsing dimensions: property C17. *)
From Verif Require Import Util Rat Val Arr GridModel GridSpec GridModel2 GridSpec2 GridNew GridEx GridFT GridCollapse.
Open Scope Qc_scope.

(** * C17, one axis.  [collapse_dimension] along axis [a] with weights [w] (none, one
    per cell along the axis, or one per grid cell) leaves a well-formed grid without
    that axis.  Its cell [ix] holds, for each property, the weighted sum along the
    removed axis, or that sum over the sum of the weights.  With [in_place=False] the
    new grid is the same.  Partial: one axis at a time; averages where the weights do
    not sum to zero; weights not varying with the property. *)
Theorem C17_one_axis_partial {A : Alg} (g : grid A) a w mode :
  consistent g -> g_data g <> None -> (a < g_ndim g)%nat -> weight_ok g a w -> mode <> MOther ->
  exists g', grid_collapse g [Z.of_nat a] (option_map (fun w => [w]) w) mode = (g', Ok tt) /\
    consistent g' /\ without_axis a g g' /\ g_data g' <> None /\
    (forall ix k, inb (g_npix g') ix = true -> (k < g_nprop g)%nat ->
       let n := nth a (g_npix g) 0%nat in
       let S := vsum (map (fun j => (cell g (ins_nth ix a j) k * emb (weight_at a w ix j))%V) (seq 0 n)) in
       let W := qsum (map (weight_at a w ix) (seq 0 n)) in
       (mode = MSum -> cell g' ix k = S) /\ (mode = MAverage -> W <> 0 -> cell g' ix k = (S * emb (/ W))%V)) /\
    (floats g -> length (g_gru g) = g_nprop g ->
       grid_collapse_new g [Z.of_nat a] (option_map (fun w => [w]) w) mode = Ok g').
Proof. exact (c17_main g a w mode). Qed.
Print Assumptions C17_one_axis_partial.

(** summing without weights keeps the total of every property *)
Theorem C17_total_partial {A : Alg} (g : grid A) d a : consistent g -> g_data g = Some d -> (a < g_ndim g)%nat ->
  exists g' d', grid_collapse g [Z.of_nat a] None MSum = (g', Ok tt) /\ g_data g' = Some d' /\
    forall k, (k < g_nprop g)%nat -> prop_total (g_npix g') d' k = prop_total (g_npix g) d k.
Proof. exact (c17_total g d a). Qed.
Print Assumptions C17_total_partial.

(** a single-axis call that raises leaves the grid as it was *)
Theorem C17_refused {A : Alg} (g : grid A) z ws mode g' e : grid_collapse g [z] ws mode = (g', Raise e) -> g' = g.
Proof. exact (c17_refused g z ws mode g' e). Qed.
Print Assumptions C17_refused.

(** * False in general.  Naming two or more axes, whatever the weights and mode, never
    gives a well-formed grid: the data keeps more dimensions than the metadata says. *)
Theorem C17_two_axes_refuted {A : Alg} (g : grid A) ax ws mode g' :
  consistent g -> (2 <= g_ndim g)%nat -> (2 <= length ax)%nat -> grid_collapse g ax ws mode = (g', Ok tt) ->
  ~ consistent g' /\ exists d', g_data g' = Some d' /\ (S (g_ndim g') < length (shape d'))%nat.
Proof. exact (c17_two g ax ws mode g'). Qed.
Print Assumptions C17_two_axes_refuted.

(** and the values can be wrong as well: the sum over axes (1,0) does not keep the total *)
Theorem C17_two_axes_total_refuted : exists (g : grid QcAlg) d g' d', consistent g /\ g_data g = Some d /\ g_nprop g = 2%nat /\
  grid_collapse g [1; 0]%Z None MSum = (g', Ok tt) /\ g_data g' = Some d' /\ vsum (A:=QcAlg) (dat d') <> vsum (A:=QcAlg) (dat d).
Proof.
  pose (g := exA QcAlg).
  assert (E : exists g', grid_collapse g [1; 0]%Z None MSum = (g', Ok tt)) by (eexists; vm_compute; reflexivity).
  destruct E as [g' E].
  assert (D : exists d', g_data (fst (grid_collapse g [1; 0]%Z None MSum)) = Some d' /\
    qeqb (vsum (A:=QcAlg) (dat d')) (vsum (A:=QcAlg) (match g_data g with Some d => dat d | None => [] end)) = false).
  { eexists; split; vm_compute; reflexivity. }
  destruct D as (d' & D1 & D2). rewrite E in D1. cbn [fst] in D1.
  assert (Dg : exists d, g_data g = Some d) by (eexists; vm_compute; reflexivity). destruct Dg as [d Dg]. rewrite Dg in D2.
  exists g, d, g', d'. split; [exact (exA_consistent _)|]. split; [auto|]. split; [vm_compute; reflexivity|]. split; [auto|]. split; [auto|].
  intros Q. rewrite Q in D2. rewrite (proj2 (qeqb_eq _ _) eq_refl) in D2. discriminate.
Qed.
Print Assumptions C17_two_axes_total_refuted.

(** weights given per cell and property, which the method accepts, never work either *)
Theorem C17_property_weights_refuted {A : Alg} (g : grid A) z w mode g' :
  consistent g -> length (shape w) = S (g_ndim g) -> (1 <= g_ndim g)%nat ->
  grid_collapse g [z] (Some [w]) mode = (g', Ok tt) ->
  ~ consistent g' /\ exists d', g_data g' = Some d' /\ (S (g_ndim g') < length (shape d'))%nat.
Proof. exact (c17_full_rank g z w mode g'). Qed.
Print Assumptions C17_property_weights_refuted.

(** a 4x3 grid with two properties; weights along an axis and per cell; and calls the
    refutations speak of that do return *)
Definition ex_w1 : arr Qc := tab [3%nat] (fun ix => nq (nth 0 ix 0%nat) + 1).
Definition ex_w2 : arr Qc := tab [4%nat; 3%nat] (fun ix => nq (nth 0 ix 0%nat) + nq (nth 1 ix 0%nat) + 1).
Definition ex_sq : grid QcAlg := init_grid (mk QcAlg 1 (fl [0; 0]%Z) (fl [2; 2]%Z) (fl [1]%Z)).
Lemma ex_sq_consistent : consistent ex_sq.
Proof.
  apply init_consistent. eapply (grid_new_consistent QcAlg 1%nat (fl [0; 0]%Z) (fl [2; 2]%Z) (fl [1]%Z) None None).
  - apply ok_or_eq. vm_compute. reflexivity.
  - intros x. apply fl_pos. reflexivity.
Qed.
Example C17_nonvacuous :
  consistent (exA QcAlg) /\ g_data (exA QcAlg) <> None /\ floats (exA QcAlg) /\ length (g_gru ex_g) = g_nprop (exA QcAlg) /\
  weight_ok (exA QcAlg) 1 (Some ex_w1) /\ weight_ok (exA QcAlg) 1 (Some ex_w2) /\
  (forall ix, qsum (map (weight_at 1 (Some ex_w1) ix) (seq 0 3)) <> 0) /\
  snd (grid_collapse (exA QcAlg) [0; 1]%Z None MAverage) = Ok tt /\
  consistent ex_sq /\ exists z w, length (shape w) = S (g_ndim ex_sq) /\ snd (grid_collapse ex_sq [z] (Some [w]) MSum) = Ok tt.
Proof.
  split; [exact (exA_consistent _)|]. split; [discriminate|]. split; [vm_compute; repeat split|]. split; [vm_compute; reflexivity|].
  split; [split; [apply tab_wf|left; vm_compute; reflexivity]|].
  split; [split; [apply tab_wf|right; vm_compute; reflexivity]|].
  split; [intros ix; vm_compute; discriminate|]. split; [vm_compute; reflexivity|].
  split; [exact ex_sq_consistent|]. exists 0%Z, (tab (g_npix ex_sq ++ [1%nat]) (fun _ => 1)). split; vm_compute; reflexivity.
Qed.
