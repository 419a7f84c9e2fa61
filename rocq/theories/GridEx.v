(** Concrete grids used by the non-vacuity examples and refutations, and lemmas
    composing several grid operations. *)
From Verif Require Import Util Rat Val Arr GridModel GridSpec GridAxis GridNew GridAdd GridCat GridSpectra GridSpecFunc.
Open Scope Qc_scope.

(** result of a computation known to succeed, for concrete examples only *)
Definition ok_or {X} (x : exc X) (d : X) : X := match x with Ok a => a | Raise _ => d end.
Lemma ok_or_eq {X} (x : exc X) d : is_ok x = true -> x = Ok (ok_or x d).
Proof. destruct x; simpl; congruence. Qed.

Definition no_grid (A : Alg) : grid A :=
  mkGrid 0 0 0 (mkF false []) (mkF false []) (mkF false []) [] [] [] [] [] [] [] [] [] false None.

Definition fl (l : list Z) : farr := mkF false (map zq l).
Definition il (l : list Z) : farr := mkF true (map zq l).
(** Grid(np, center, side, pix) followed by init_grid() *)
Definition mk (A : Alg) (np : nat) (c s p : farr) : grid A := ok_or (grid_new A np c s p None None) (no_grid A).

(** 4 x 3 cells of size 1 x 2, two properties *)
Definition ex_new : exc (grid QcAlg) := grid_new QcAlg 2 (fl [0; 1]%Z) (fl [4; 6]%Z) (fl [1; 2]%Z) None None.
Definition ex_g : grid QcAlg := init_grid (ok_or ex_new (no_grid _)).
(** 2 x 3 x 2 cells of size 1 *)
Definition ex3_new : exc (grid QcAlg) := grid_new QcAlg 1 (fl [0; 0; 0]%Z) (fl [2; 3; 2]%Z) (fl [1]%Z) None None.
Definition ex_g3 : grid QcAlg := init_grid (ok_or ex3_new (no_grid _)).

Lemma full_wf {X} sh (x : X) : awf (full sh x).
Proof. apply tab_wf. Qed.

Lemma init_consistent {A} (g : grid A) : consistent g -> consistent (init_grid g).
Proof. intros []; constructor; simpl; auto. split; [apply full_wf|reflexivity]. Qed.

Lemma init_ready {A} (g : grid A) : existsb (fun b => b) (g_fsp g) = false ->
  ready (init_grid g) (full (g_npix g ++ [g_nprop g]) v0).
Proof. intros H. split; auto. Qed.

Lemma fl_pos l x : forallb (fun z => 0 <? z)%Z l = true -> In x (fv (fl l)) -> 0 < x.
Proof.
  intros H Hx. simpl in Hx. apply in_map_iff in Hx as (z & <- & Hz). rewrite forallb_forall in H. specialize (H z Hz).
  replace 0 with (zq 0) by reflexivity. apply zq_lt. lia.
Qed.

Lemma ex_ok : ex_new = Ok (ok_or ex_new (no_grid _)).
Proof. apply ok_or_eq. vm_compute. reflexivity. Qed.
Lemma ex3_ok : ex3_new = Ok (ok_or ex3_new (no_grid _)).
Proof. apply ok_or_eq. vm_compute. reflexivity. Qed.
Lemma ex_consistent : consistent ex_g.
Proof. apply init_consistent. eapply grid_new_consistent; [exact ex_ok|]. intros x. apply fl_pos. reflexivity. Qed.
Lemma ex3_consistent : consistent ex_g3.
Proof. apply init_consistent. eapply grid_new_consistent; [exact ex3_ok|]. intros x. apply fl_pos. reflexivity. Qed.
Lemma ex_ready : ready ex_g (full (g_npix ex_g ++ [g_nprop ex_g]) v0).
Proof. refine (init_ready (ok_or _ (no_grid _)) _). vm_compute. reflexivity. Qed.
Lemma ex3_ready : ready ex_g3 (full (g_npix ex_g3 ++ [g_nprop ex_g3]) v0).
Proof. refine (init_ready (ok_or _ (no_grid _)) _). vm_compute. reflexivity. Qed.
Lemma ex_ndim : g_ndim ex_g = 2%nat. Proof. vm_compute. reflexivity. Qed.
Lemma ex3_ndim : g_ndim ex_g3 = 3%nat. Proof. vm_compute. reflexivity. Qed.
Lemma ex_npix : g_npix ex_g = [4; 3]%nat. Proof. vm_compute. reflexivity. Qed.
Lemma ex3_npix : g_npix ex_g3 = [2; 3; 2]%nat. Proof. vm_compute. reflexivity. Qed.
Lemma ex_nprop : g_nprop ex_g = 2%nat. Proof. vm_compute. reflexivity. Qed.

Section Compose.
Context {A : Alg}.
Add Ring A_ring : (v_rt A).
Notation grid := (grid A).

Lemma new_fsp np c s p au gu (g : grid) : grid_new A np c s p au gu = Ok g ->
  existsb (fun b => b) (g_fsp g) = false /\ g_nobj g = 0%nat /\ g_nprop g = np /\ g_ndim g = flen c.
Proof.
  intros H. apply grid_new_inv in H as (s' & p' & H). decompose [and] H; clear H.
  repeat split; auto.
  match goal with E : g_fsp g = _ |- _ => rewrite E end.
  clear. induction (flen c); simpl; auto.
Qed.

(** every position over the grid lies in exactly one cell, the others in none *)
Lemma cell_unique (g : grid) r : consistent g -> length r = g_ndim g ->
  (in_extent (g_axes g) r = true <-> exists ix, in_cell g ix r = true) /\
  (forall ix, in_cell g ix r = true -> inb (g_npix g) ix = true) /\
  (forall ix jx, in_cell g ix r = true -> in_cell g jx r = true -> ix = jx).
Proof.
  intros C L. pose proof (consistent_lat g C) as La. rewrite <- (co_n _ C) in L. split; [|split].
  - apply (in_extent_box _ _ _ _ _ r La L).
  - intros ix. apply (in_box_inb _ _ _ _ _ r ix La).
  - intros ix jx. apply (in_box_unique _ _ _ _ _ r ix jx La L).
Qed.

Lemma sample_after_gridding np c s p au gu (g0 : grid) rows (vs : list A) r :
  grid_new A np c s p au gu = Ok g0 -> (forall x, In x (fv p) -> 0 < x) ->
  rows_ok (flen c) rows -> length vs = length rows -> length r = flen c ->
  exists g1 out,
    add_from_cat (init_grid g0) (Pos2 (flen c) rows) (Val1 vs) false None = (g1, Ok tt) /\
    grid_sample g1 (flen c) [r] None = Ok [out] /\ length out = np /\
    (in_extent (g_axes g0) r = false -> forall k, (k < np)%nat -> nth_error out k = Some None) /\
    (forall ix, in_cell g0 ix r = true -> forall k, (k < np)%nat ->
       nth_error out k = Some (Some (cell_total g0 ix rows vs))).
Proof.
  intros Hn Hp Hr Hv Hl. pose proof (grid_new_consistent _ _ _ _ _ _ _ _ Hn Hp) as C0.
  destruct (new_fsp _ _ _ _ _ _ _ Hn) as (F & No & Np & Nd).
  set (g := init_grid g0). assert (C : consistent g) by (apply init_consistent; auto).
  pose proof (init_ready g0 F) as R. fold g in R.
  assert (Ng : g_ndim g = flen c) by exact Nd.
  destruct (add_from_cat_existing g _ rows (Val1 vs) None (seq 0 np) C R) as (d' & E & W & S & G); auto.
  { rewrite Ng; auto. } { unfold check_props. change (g_nprop g) with (g_nprop g0). rewrite Np. reflexivity. }
  rewrite Ng in E.
  set (g1 := with_nobj _ _) in E.
  assert (C1 : consistent g1) by (apply set_consistent'; auto).
  destruct (grid_sample_ok g1 d' [r] None (seq 0 np) C1 eq_refl) as (out & Eo & Lo & Ho).
  { change (g_ndim g1) with (g_ndim g0). rewrite Nd. constructor; auto. }
  { unfold check_props. change (g_nprop g1) with (g_nprop g0). rewrite Np. reflexivity. }
  destruct (Ho 0%nat r eq_refl) as (o & Eo' & Lo' & Hk).
  destruct out as [|o' [|]]; simpl in Lo; try discriminate. simpl in Eo'. inversion Eo'; subst o'.
  exists g1, o. change (g_ndim g1) with (g_ndim g0) in Eo. rewrite Nd in Eo.
  rewrite seq_length in Lo'. repeat split; auto.
  - intros Hx k Hk'. destruct (Hk k k) as [H1 _]; [|exact (H1 Hx)].
    rewrite (nth_error_nth' _ 0%nat) by (rewrite seq_length; auto). rewrite seq_nth; auto.
  - intros ix Hx k Hk'. destruct (Hk k k) as [_ H2].
    { rewrite (nth_error_nth' _ 0%nat) by (rewrite seq_length; auto). rewrite seq_nth; auto. }
    rewrite (H2 ix Hx).
    assert (Hi : inb (g_npix g) ix = true) by (apply (cell_unique g r C); [congruence|exact Hx]).
    assert (Hik : inb (g_npix g0 ++ [g_nprop g0]) (ix ++ [k]) = true).
    { rewrite inb_snoc by (apply inb_length; auto). rewrite andb_true_iff; split; [exact Hi|]. apply Nat.ltb_lt. lia. }
    rewrite (get_getd v0); auto.
    + rewrite G; auto; [|change (g_nprop g) with (g_nprop g0); rewrite Np; auto].
      rewrite getd_full by exact Hik. cbn [val_col].
      replace (times k (seq 0 np)) with 1%nat.
      * rewrite scaled_1. do 2 f_equal. unfold cell_total, in_cell. simpl. ring.
      * symmetry. apply (proj1 (NoDup_count_occ' Nat.eq_dec (seq 0 np)) (seq_NoDup _ _)). apply in_seq. lia.
    + rewrite S. exact Hik.
Qed.

(** sum over the channels of one column of cells *)
Lemma spec_total_column (g : grid) ax ix rows (vals : list (list A)) n :
  (ax <= length ix)%nat -> Forall (fun v => length v = n) vals ->
  vsum (map (fun k => spec_total g ax (ins_nth ix ax k) rows vals) (seq 0 n)) =
  vsum (map (fun os => vsum (snd os)) (filter (fun os => in_box (del_nth (g_axes g) ax) ix (fst os)) (combine rows vals))).
Proof.
  intros Hax V. unfold spec_total.
  transitivity (vsum (map (fun k => vsum (map (fun os => nth k (snd os) v0)
    (filter (fun os => in_box (del_nth (g_axes g) ax) ix (fst os)) (combine rows vals)))) (seq 0 n))).
  { apply vsum_ext. intros k _. rewrite del_ins_nth by auto.
    assert (E : nth ax (ins_nth ix ax k) 0%nat = k) by (apply nth_error_nth, nth_error_ins_nth_eq; auto).
    rewrite E. reflexivity. }
  rewrite vsum_exchange. apply vsum_ext. intros [r v] H. apply filter_In in H as [H _]. apply in_combine_r in H. simpl.
  rewrite Forall_forall in V. specialize (V v H). rewrite <- V. f_equal.
  apply (nth_ext _ _ v0 v0); [rewrite map_length, seq_length; auto|].
  intros j Hj. rewrite map_length, seq_length in Hj. rewrite (nth_indep _ _ (nth 0 v v0)) by (rewrite map_length, seq_length; auto).
  rewrite (map_nth (fun k => nth k v v0)). rewrite seq_nth by auto. reflexivity.
Qed.

(** C10: cumulative spectra on an existing property *)
Lemma cumulative_flux {P} (g : grid) d axz ax rows (spec : list Qc -> list P -> list (list A)) (F : P -> Qc -> A) args loop careful props ps ix :
  consistent g -> ready g d -> norm_axis g axz = Ok ax -> (2 <= g_ndim g)%nat ->
  rows_ok (g_ndim g - 1) rows -> length args = length rows ->
  (forall axis args, spec axis args = map (fun a => map (F a) axis) args) ->
  check_props g props = Ok ps -> inb (del_nth (g_npix g) ax) ix = true ->
  exists d',
    fst (add_from_spec_func g (Pos2 (g_ndim g - 1) rows) spec args axz true loop careful false props)
      = with_nobj (with_data g (Some d')) (g_nobj g + over_count g ax rows) /\
    forall k, (k < g_nprop g)%nat ->
    vsum (map (fun j => getd v0 d' (ins_nth ix ax j ++ [k])) (seq 0 (nth ax (g_npix g) 0%nat))) =
    (vsum (map (fun j => getd v0 d (ins_nth ix ax j ++ [k])) (seq 0 (nth ax (g_npix g) 0%nat)))
     + scaled (times k ps) (vsum (map (fun ra => F (snd ra) (last (nth ax (g_axes g) []) 0%Qc) - F (snd ra) (hd 0%Qc (nth ax (g_axes g) [])))
         (filter (fun ra => in_box (del_nth (g_axes g) ax) ix (fst ra)) (combine rows args)))))%V.
Proof.
  intros C R Ha H2 Rk Hl Hs Hp Hix. pose proof (norm_axis_lt _ _ _ Ha) as Hax.
  pose proof (co_axis _ C ax Hax) as O.
  set (edges := nth ax (g_axes g) []) in *.
  assert (He : edges <> []). { intros E. pose proof (ao_elen _ _ _ _ _ _ _ _ O) as E'. rewrite E in E'. discriminate. }
  assert (V : Forall (fun v => length v = nth ax (g_npix g) 0%nat) (map (fun a => vdiff (map (F a) edges)) args)).
  { rewrite Forall_forall. intros v Hv. apply in_map_iff in Hv as (a & <- & _).
    rewrite vdiff_length, map_length, (ao_elen _ _ _ _ _ _ _ _ O). lia. }
  rewrite (add_from_spec_func_eq g d axz ax rows spec (fun axis a => map (F a) axis) args true loop careful false props ps) by auto.
  destruct (pos_plus_existing g d axz ax rows (map (fun a => vdiff (map (F a) edges)) args) props ps) as (d' & E & W & S & G); auto.
  { rewrite map_length; auto. }
  exists d'. split; [fold edges; rewrite E; reflexivity|].
  intros k Hk. pose proof (inb_length _ _ Hix) as Lix. rewrite del_npix_len in Lix by auto.
  rewrite (vsum_ext _ (fun j => (getd v0 d (ins_nth ix ax j ++ [k]) + scaled (times k ps) (spec_total g ax (ins_nth ix ax j) rows (map (fun a => vdiff (map (F a) edges)) args)))%V)).
  - rewrite vsum_map_add. f_equal. rewrite vsum_scaled. f_equal. 
    rewrite spec_total_column by (auto; lia).
    clear - He. revert args; induction rows as [|r rows IH]; intros [|a args]; simpl; auto.
    destruct (in_box _ _ r); simpl; auto. rewrite !vsum_cons, IH. f_equal.
    rewrite vdiff_sum by (destruct edges; [congruence|discriminate]).
    destruct edges as [|e0 es]; [congruence|]. f_equal.
    clear. revert e0. induction es as [|e1 es IH]; intros e0; [reflexivity|]. apply (IH e1).
  - intros j Hj. apply in_seq in Hj. apply G; auto.
    rewrite (inb_ins _ _ _ _ (nth ax (g_npix g) 0%nat)); auto.
    + rewrite Hix. simpl. apply Nat.ltb_lt. lia.
    + rewrite (co_n _ C); auto.
    + apply nth_npix; auto.
    + rewrite (co_n _ C); auto.
Qed.

End Compose.

(** * Lemmas behind GridProps.v *)
Lemma grid_new_built A np center side pix au gu (g : grid A) :
  (forall x, In x (fv pix) -> 0 < x) ->
  grid_new A np center side pix au gu = Ok g ->
  g_ndim g = flen center /\ g_nprop g = np /\ g_nobj g = 0%nat /\ g_data g = None /\ g_center g = center /\
  consistent g.
Proof.
  intros Hp H. pose proof (grid_new_consistent _ _ _ _ _ _ _ _ H Hp) as C.
  apply grid_new_inv in H as (s' & p' & H). decompose [and] H; clear H.
  repeat match goal with |- _ /\ _ => split end; auto.
Qed.

Lemma consistent_axis {A} (g : grid A) i : consistent g -> (i < g_ndim g)%nat ->
  let e := nth i (g_axes g) [] in
  let n := nth i (g_npix g) 0%nat in
  length e = S n /\ (2 <= n)%nat /\ length (nth i (g_centers g) []) = n /\
  last e 0 - hd 0 e = fnth (g_side g) i /\ fnth (g_side g) i = nq n * fnth (g_pix g) i /\
  (hd 0 e + last e 0) / zq 2 = fnth (g_center g) i /\
  (forall k, (k < n)%nat -> nth (S k) e 0 - nth k e 0 = fnth (g_pix g) i /\
                            nth k (nth i (g_centers g) []) 0 = nth k e 0 + fnth (g_pix g) i / zq 2).
Proof.
  intros C Hi e n. pose proof (co_axis _ C i Hi) as O. fold e n in O.
  pose proof (ao_elen _ _ _ _ _ _ _ _ O) as El. pose proof (ao_clen _ _ _ _ _ _ _ _ O) as Cl.
  pose proof (ao_n _ _ _ _ _ _ _ _ O) as Hn. pose proof (ao_s _ _ _ _ _ _ _ _ O) as Hs.
  assert (N : forall k, (k <= n)%nat -> nth k e 0 = fnth (g_center g) i - fnth (g_side g) i / zq 2 + nq k * fnth (g_pix g) i).
  { intros k Hk. apply nth_error_nth. apply (ao_edge _ _ _ _ _ _ _ _ O); auto. }
  assert (H0 : hd 0 e = nth 0 e 0) by (destruct e; reflexivity).
  assert (Hl : last e 0 = nth n e 0) by (rewrite last_nth, El; f_equal; lia).
  rewrite H0, Hl, !N by lia. rewrite !div2_half. repeat split; auto.
  - rewrite Hs. unfold nq. change (zq (Z.of_nat 0)) with 0. ring.
  - rewrite Hs. change (nq 0) with 0.
    replace (fnth (g_center g) i - nq n * fnth (g_pix g) i * half + 0 * fnth (g_pix g) i + (fnth (g_center g) i - nq n * fnth (g_pix g) i * half + nq n * fnth (g_pix g) i))
      with (fnth (g_center g) i * zq 2).
    + unfold half. qlra.
    + unfold half. qlra.
  - rewrite !N by lia. rewrite !div2_half. rewrite nq_S. ring.
  - rewrite (nth_error_nth _ _ _ (ao_cen _ _ _ _ _ _ _ _ O k H)), !N by lia. rewrite !div2_half. unfold half. ring.
Qed.

Lemma ex_rows : rows_ok (g_ndim ex_g) [[frac 1 2; zq 1]; [zq 9; zq 1]].
Proof. rewrite ex_ndim. repeat constructor. Qed.

Lemma c02_shrinks : exists center side pix (g : grid QcAlg),
  grid_new QcAlg 1 center side pix None None = Ok g /\ 0 < fnth pix 0 /\ fnth (g_side g) 0 < fnth side 0.
Proof.
  exists (fl [0]%Z), (mkF false [frac 304 100]), (fl [1]%Z), (mk QcAlg 1 (fl [0]%Z) (mkF false [frac 304 100]) (fl [1]%Z)).
  split; [apply ok_or_eq; vm_compute; reflexivity|].
  split; apply qltb_lt; vm_compute; reflexivity.
Qed.

Lemma c02_ex : exists g : grid QcAlg,
  grid_new QcAlg 1 (fl [0]%Z) (mkF false [frac 32 10]) (fl [1]%Z) None None = Ok g /\ fnth (g_side g) 0 = zq 4.
Proof.
  exists (mk QcAlg 1 (fl [0]%Z) (mkF false [frac 32 10]) (fl [1]%Z)).
  split; [apply ok_or_eq; vm_compute; reflexivity|]. apply qeqb_eq. vm_compute. reflexivity.
Qed.

Section Final.
Context {A : Alg}.
Add Ring A_ring2 : (v_rt A).
Notation grid := (grid A).

Lemma val_col_used (vals : valarg (A:=A)) n k : val_cols vals = 1%nat -> val_col vals n (used_col vals k) = val_col vals n 0.
Proof. intros H. unfold used_col. rewrite H. reflexivity. Qed.

Lemma c03_cells (g : grid) d rows vals props ps :
  consistent g -> ready g d -> rows_ok (g_ndim g) rows ->
  val_rows vals (length rows) = length rows -> val_cols vals = 1%nat ->
  check_props g props = Ok ps ->
  exists d' n,
    add_from_cat g (Pos2 (g_ndim g) rows) vals false props = (with_nobj (with_data g (Some d')) n, Ok tt) /\
    shape d' = shape d /\
    forall ix k, inb (g_npix g) ix = true -> (k < g_nprop g)%nat ->
      getd v0 d' (ix ++ [k]) =
      (getd v0 d (ix ++ [k]) + scaled (times k ps) (cell_total g ix rows (val_col vals (length rows) 0)))%V.
Proof.
  intros C R Rk Hv Hc Hp.
  destruct (add_from_cat_existing g d rows vals props ps C R Rk Hv Hp (or_introl Hc)) as (d' & E & W & S & G).
  exists d'. eexists. split; [exact E|]. split; [auto|]. intros ix k Hi Hk. rewrite G by auto. rewrite val_col_used; auto.
Qed.

Lemma c04_conservation (g : grid) d rows vals props ps :
  consistent g -> ready g d -> rows_ok (g_ndim g) rows ->
  val_rows vals (length rows) = length rows -> val_cols vals = 1%nat ->
  check_props g props = Ok ps ->
  exists d',
    add_from_cat g (Pos2 (g_ndim g) rows) vals false props
      = (with_nobj (with_data g (Some d')) (g_nobj g + inside_count g rows), Ok tt) /\
    forall k, (k < g_nprop g)%nat ->
      prop_total (g_npix g) d' k =
      (prop_total (g_npix g) d k + scaled (times k ps) (inside_total g rows (val_col vals (length rows) 0)))%V.
Proof.
  intros C R Rk Hv Hc Hp.
  destruct (add_from_cat_existing g d rows vals props ps C R Rk Hv Hp (or_introl Hc)) as (d' & E & W & S & G).
  exists d'. split; [exact E|]. intros k Hk. apply add_from_cat_total; auto.
  intros ix Hi. rewrite G by auto. rewrite val_col_used; auto.
Qed.

Lemma c04_new (g : grid) d rows vals props :
  consistent g -> ready g d -> rows_ok (g_ndim g) rows -> rows <> [] ->
  val_rows vals (length rows) = length rows ->
  exists d' g',
    add_from_cat g (Pos2 (g_ndim g) rows) vals true props = (g', Ok tt) /\
    g_data g' = Some d' /\ g_nobj g' = (g_nobj g + inside_count g rows)%nat /\
    (forall k, (k < g_nprop g)%nat -> prop_total (g_npix g) d' k = prop_total (g_npix g) d k) /\
    (forall k, (k < val_cols vals)%nat ->
      prop_total (g_npix g) d' (g_nprop g + k) = inside_total g rows (val_col vals (length rows) k)).
Proof.
  intros C R Rk Hne Hv.
  destruct (add_from_cat_new g d rows vals props C R Rk Hne Hv) as (d' & E & W & S & G).
  exists d'. eexists. split; [exact E|]. split; [reflexivity|]. split; [reflexivity|]. split.
  - intros k Hk. unfold prop_total. apply vsum_ext. intros ix Hi. apply in_idxs in Hi. rewrite G by (auto; lia).
    destruct (Nat.ltb_spec k (g_nprop g)); [auto|lia].
  - intros k Hk. rewrite <- cell_total_sum by auto. unfold prop_total. apply vsum_ext. intros ix Hi. apply in_idxs in Hi.
    rewrite G by (auto; lia). destruct (Nat.ltb_spec (g_nprop g + k) (g_nprop g)); [lia|]. do 2 f_equal. lia.
Qed.

Lemma c06_routing (g : grid) d rows vals props ps :
  consistent g -> ready g d -> rows_ok (g_ndim g) rows ->
  val_rows vals (length rows) = length rows ->
  check_props g props = Ok ps ->
  (val_cols vals = 1%nat \/ (val_cols vals = length ps /\ ps = seq 0 (length ps))) ->
  exists d',
    add_from_cat g (Pos2 (g_ndim g) rows) vals false props
      = (with_nobj (with_data g (Some d')) (g_nobj g + inside_count g rows), Ok tt) /\
    (forall ix j p, inb (g_npix g) ix = true -> nth_error ps j = Some p -> times p ps = 1%nat ->
      getd v0 d' (ix ++ [p]) =
      (getd v0 d (ix ++ [p]) + cell_total g ix rows (val_col vals (length rows) (if (val_cols vals =? 1)%nat then 0 else j)))%V) /\
    (forall ix k, inb (g_npix g) ix = true -> (k < g_nprop g)%nat -> ~ In k ps ->
      getd v0 d' (ix ++ [k]) = getd v0 d (ix ++ [k])).
Proof.
  intros C R Rk Hv Hp Hc.
  destruct (add_from_cat_existing g d rows vals props ps C R Rk Hv Hp) as (d' & E & W & S & G).
  { destruct Hc as [|[H1 H2]]; [auto|right]. split; auto. rewrite Forall_forall. intros p Hin.
    rewrite H2 in Hin. apply in_seq in Hin. lia. }
  pose proof (check_props_lt _ _ _ Hp) as Hlt. rewrite Forall_forall in Hlt.
  exists d'. split; [exact E|]. split.
  - intros ix j p Hi Hj Ht. rewrite G; auto; [|apply Hlt; eapply nth_error_In; eauto].
    rewrite Ht, scaled_1. do 3 f_equal. unfold used_col. destruct (Nat.eqb_spec (val_cols vals) 1); auto.
    destruct Hc as [|[H1 H2]]; [congruence|]. rewrite H2 in Hj.
    assert (Hjl : (j < length ps)%nat) by (apply nth_error_Some_lt in Hj; rewrite seq_length in Hj; auto).
    rewrite (nth_error_nth' _ 0%nat) in Hj by (rewrite seq_length; auto). rewrite seq_nth in Hj by auto. inversion Hj. reflexivity.
  - intros ix k Hi Hk Hn. rewrite G by auto. unfold times. rewrite (proj1 (count_occ_not_In Nat.eq_dec ps k) Hn).
    rewrite scaled_0. ring.
Qed.

Lemma norm_axis_python (g : grid) axz :
  (forall k, (k < g_ndim g)%nat -> norm_axis g (Z.of_nat k) = Ok k /\ norm_axis g (Z.of_nat k - Z.of_nat (g_ndim g)) = Ok k) /\
  ((exists ax, norm_axis g axz = Ok ax) <-> (- Z.of_nat (g_ndim g) <= axz < Z.of_nat (g_ndim g))%Z).
Proof.
  split.
  - intros k Hk. split; [apply norm_axis_nat; auto|]. unfold norm_axis.
    destruct (Z.ltb_spec (Z.of_nat k - Z.of_nat (g_ndim g)) 0); [|lia].
    replace (Z.of_nat (g_ndim g) + (Z.of_nat k - Z.of_nat (g_ndim g)))%Z with (Z.of_nat k) by lia.
    destruct ((Z.of_nat (g_ndim g) <=? Z.of_nat k)%Z || (Z.of_nat k <? 0)%Z)%bool eqn:E; [lia|].
    rewrite Nat2Z.id. reflexivity.
  - unfold norm_axis. destruct (Z.ltb_spec axz 0).
    + destruct ((Z.of_nat (g_ndim g) <=? Z.of_nat (g_ndim g) + axz)%Z || (Z.of_nat (g_ndim g) + axz <? 0)%Z)%bool eqn:E.
      * split; [intros [? ?]; discriminate|lia].
      * split; [lia|eauto].
    + destruct ((Z.of_nat (g_ndim g) <=? axz)%Z || (axz <? 0)%Z)%bool eqn:E.
      * split; [intros [? ?]; discriminate|lia].
      * split; [lia|eauto].
Qed.

Lemma c09_chunks {P} (g : grid) d axz ax rows (spec : list Qc -> list P -> list (list A)) (f : list Qc -> P -> list A)
    args (cum loop loop' careful careful' new : bool) props ps :
  consistent g -> ready g d -> norm_axis g axz = Ok ax -> (2 <= g_ndim g)%nat ->
  rows_ok (g_ndim g - 1) rows -> length args = length rows ->
  (forall axis args, spec axis args = map (f axis) args) ->
  (forall a, length (f (nth ax (g_axes g) []) a) = S (nth ax (g_npix g) 0%nat)) ->
  (forall a, length (f (nth ax (g_centers g) []) a) = nth ax (g_npix g) 0%nat) ->
  check_props g props = Ok ps ->
  add_from_spec_func g (Pos2 (g_ndim g - 1) rows) spec args axz cum loop careful new props
  = add_from_spec_func g (Pos2 (g_ndim g - 1) rows) spec args axz cum loop' careful' new props
  /\ snd (add_from_spec_func g (Pos2 (g_ndim g - 1) rows) spec args axz cum loop careful new props) = Ok tt.
Proof.
  intros C R Ha H2 Rk Hl Hs L1 L2 Hp.
  set (axis := if cum then nth ax (g_axes g) [] else nth ax (g_centers g) []).
  assert (V : Forall (fun v => length v = nth ax (g_npix g) 0%nat) (map (fun a => if cum then vdiff (f axis a) else f axis a) args)).
  { rewrite Forall_forall. intros v Hv. apply in_map_iff in Hv as (a & <- & _). unfold axis. destruct cum; auto.
    rewrite vdiff_length, L1. lia. }
  rewrite !(add_from_spec_func_eq g d axz ax rows spec f args) with (ps := ps) by auto. fold axis. split; [reflexivity|].
  destruct (pos_plus_as_cat g d axz ax rows _ new props ps C R Ha H2 Rk (eq_trans (map_length _ _) Hl) V Hp) as (g1 & g2 & E & _).
  rewrite E. reflexivity.
Qed.

End Final.

(** three properties, two value columns, properties 0 and 2 requested *)
Definition bad_g : grid QcAlg := init_grid (mk QcAlg 3 (fl [0; 1]%Z) (fl [4; 6]%Z) (fl [1; 2]%Z)).
Lemma bad_consistent : consistent bad_g.
Proof.
  apply init_consistent. eapply grid_new_consistent with (pix := fl [1; 2]%Z); [|intros x; apply fl_pos; reflexivity].
  apply ok_or_eq. vm_compute. reflexivity.
Qed.
Definition bad_res := add_from_cat bad_g (Pos2 (g_ndim bad_g) [[frac 1 2; zq 1]]) (Val2 (A:=QcAlg) 2 [[zq 5; zq 7]]) false (Some [0; 2]%Z).

Lemma c05_rejected_mutates : exists (g g' : grid QcAlg) rows vals props d d',
  consistent g /\ g_data g = Some d /\ rows_ok (g_ndim g) rows /\
  add_from_cat g (Pos2 (g_ndim g) rows) vals false props = (g', Raise IndexError) /\
  g_data g' = Some d' /\ getd v0 d' [2; 1; 0]%nat <> getd v0 d [2; 1; 0]%nat.
Proof.
  exists bad_g, (fst bad_res), [[frac 1 2; zq 1]], (Val2 (A:=QcAlg) 2 [[zq 5; zq 7]]), (Some [0; 2]%Z).
  exists (full (g_npix bad_g ++ [g_nprop bad_g]) v0), (match g_data (fst bad_res) with Some d => d | None => full [] v0 end).
  split; [exact bad_consistent|]. split; [reflexivity|]. split; [constructor; [vm_compute; reflexivity|constructor]|].
  split; [fold bad_res; rewrite (surjective_pairing bad_res) at 1; f_equal; vm_compute; reflexivity|].
  split; [|apply qeqb_ne; vm_compute; reflexivity].
  destruct (g_data (fst bad_res)) eqn:E; [reflexivity|]. exfalso.
  assert (X : match g_data (fst bad_res) with Some _ => true | None => false end = true) by (vm_compute; reflexivity).
  rewrite E in X. discriminate.
Qed.

Definition swap_res := add_from_cat ex_g (Pos2 (g_ndim ex_g) [[frac 1 2; zq 1]]) (Val2 (A:=QcAlg) 2 [[zq 5; zq 7]]) false (Some [1; 0]%Z).
Lemma c06_swapped : exists (g g' : grid QcAlg) rows c0 c1 d',
  consistent g /\ rows_ok (g_ndim g) rows /\ length rows = length c0 /\ length c0 = length c1 /\
  add_from_cat g (Pos2 (g_ndim g) rows) (Val2 (A:=QcAlg) 2 (map (fun p : QcAlg * QcAlg => [fst p; snd p]) (combine c0 c1))) false (Some [1; 0]%Z) = (g', Ok tt) /\
  g_data g' = Some d' /\
  exists ix, getd v0 d' (ix ++ [1%nat]) <> cell_total g ix rows c0 /\ getd v0 d' (ix ++ [1%nat]) = cell_total g ix rows c1.
Proof.
  exists ex_g, (fst swap_res), [[frac 1 2; zq 1]], [zq 5], [zq 7].
  exists (match g_data (fst swap_res) with Some d => d | None => full [] v0 end).
  split; [exact ex_consistent|]. split; [constructor; [vm_compute; reflexivity|constructor]|].
  split; [reflexivity|]. split; [reflexivity|].
  split; [change (map (fun p => [fst p; snd p]) (combine [zq 5] [zq 7])) with [[zq 5; zq 7]]; fold swap_res; rewrite (surjective_pairing swap_res) at 1; f_equal; vm_compute; reflexivity|].
  split.
  - destruct (g_data (fst swap_res)) eqn:E; [reflexivity|]. exfalso.
    assert (X : match g_data (fst swap_res) with Some _ => true | None => false end = true) by (vm_compute; reflexivity).
    rewrite E in X. discriminate.
  - exists [2; 1]%nat. split; [apply qeqb_ne|apply qeqb_eq]; vm_compute; reflexivity.
Qed.

Lemma c08_ex : norm_axis ex_g3 (-2) = Ok 1%nat /\
  rows_ok (g_ndim ex_g3 - 1) [[frac 1 2; - frac 1 2]; [zq 7; zq 0]] /\
  Forall (fun v : list QcAlg => length v = nth 1 (g_npix ex_g3) 0%nat) [[zq 1; zq 2; zq 3]; [zq 4; zq 5; zq 6]].
Proof. rewrite ex3_ndim, ex3_npix. repeat split; try (repeat constructor; fail). Qed.
