(** Proofs about save and LoadGrid, and consequences of the copy and sum lemmas. *)
From Coq Require Import String.
From Verif Require Import Util Rat Val Arr GridModel GridModel2 GridSpec GridAxis GridNew GridAdd GridCat GridEx GridPad GridOps.
Open Scope Qc_scope.

Section Files.
Context {A : Alg}.
Add Ring A_ring : (v_rt A).
Notation grid := (grid A).

Lemma fs_set_eq (fs : fsys A) p f : fs_set fs p f p = Some f.
Proof. unfold fs_set. rewrite String.eqb_refl. reflexivity. Qed.
Lemma fs_set_ne (fs : fsys A) p q f : q <> p -> fs_set fs p f q = fs q.
Proof. intros H. unfold fs_set. destruct (String.eqb_spec q p); congruence. Qed.

(** what the copied or loaded grid looks like *)
Definition respread (g : grid) (gru : units) : grid :=
  mkGrid (g_nprop g) (g_nobj g) (g_ndim g) (g_center g) (g_side g) (g_pix g) (g_npix g) (g_axu g) (g_faxu g) gru
    (g_axes g) (g_centers g) (g_faxes g) (g_fcenters g) (g_fsp g) (g_ispow g) (g_data g).
Lemma respread_same (g : grid) : respread g (g_gru g) = g.
Proof. destruct g; reflexivity. Qed.

Lemma load_saved (fs : fsys A) (g : grid) p : consistent g -> floats g -> (g_data g = None -> g_nobj g = 0%nat) ->
  load_grid (fs_set fs p (GridFile (to_saved g))) p =
  if ((length (g_gru g) =? g_nprop g) || (length (g_gru g) =? 1))%nat
  then Ok (respread g (spread_units (g_nprop g) (g_gru g))) else Raise ValueError.
Proof.
  intros C F Hn. unfold load_grid. rewrite fs_set_eq. unfold to_saved. cbn [s_nprop s_center s_side s_pix s_axu s_gru s_data s_nobj s_fsp s_ispow].
  change (grid_new A (g_nprop g) (g_center g) (g_side g) (g_pix g) (Some (g_axu g)) (Some (g_gru g)))
    with (copy_axes g (g_nprop g)).
  rewrite copy_axes_ok by auto. destruct (_ || _)%bool; [|reflexivity]. cbn [bind]. f_equal. unfold respread, blank.
  destruct (g_data g) eqn:D; gcbn; [reflexivity|]. rewrite (Hn eq_refl). reflexivity.
Qed.

Lemma save_load (fs : fsys A) (g : grid) p ow : consistent g -> floats g -> length (g_gru g) = g_nprop g ->
  (g_data g = None -> g_nobj g = 0%nat) -> ends_npz p = true -> (fs p = None \/ ow = true) ->
  exists fs', grid_save fs g p ow = (fs', Ok tt) /\ load_grid fs' p = Ok g /\ (forall q, q <> p -> fs' q = fs q).
Proof.
  intros C F L Hn Hp Hf. exists (fs_set fs p (GridFile (to_saved g))). split; [|split].
  - unfold grid_save, savez_name. rewrite Hp. destruct Hf as [->| ->]; cbn [andb negb]; [reflexivity|].
    rewrite andb_false_r. reflexivity.
  - rewrite load_saved by auto. rewrite L, Nat.eqb_refl. cbn [orb]. rewrite <- L, spread_units_same, respread_same. reflexivity.
  - intros q Hq. apply fs_set_ne; auto.
Qed.

Lemma save_refuses (fs : fsys A) (g : grid) p : fs p <> None -> grid_save fs g p false = (fs, Raise ValueError).
Proof. intros H. unfold grid_save. destruct (fs p); [reflexivity|congruence]. Qed.

Lemma save_replaces (fs : fsys A) (g : grid) p : ends_npz p = false -> fs p = None ->
  exists fs', grid_save fs g p false = (fs', Ok tt) /\ fs' (String.append p ".npz") = Some (GridFile (to_saved g)) /\ fs' p = fs p.
Proof.
  intros H N. exists (fs_set fs (String.append p ".npz") (GridFile (to_saved g))). split; [|split].
  - unfold grid_save, savez_name. rewrite N, H. reflexivity.
  - apply fs_set_eq.
  - apply fs_set_ne. intros E. apply (f_equal String.length) in E. revert E. clear.
    assert (forall a b, String.length (String.append a b) = (String.length a + String.length b)%nat) as X.
    { induction a as [|c a IH]; simpl; intros; auto. }
    rewrite X. simpl. lia.
Qed.

Lemma save_only_there (fs fs' : fsys A) (g : grid) p ow r : grid_save fs g p ow = (fs', r) -> ends_npz p = true ->
  (forall q, q <> p -> fs' q = fs q) /\ (ow = false -> fs p <> None -> fs' p = fs p).
Proof.
  unfold grid_save, savez_name. intros H Hp. rewrite Hp in H. destruct (fs p) eqn:E; destruct ow; cbn [andb negb] in H;
    injection H as <- <-; split; intros; auto; try congruence; apply fs_set_ne; auto.
Qed.

Lemma props_of_args (g : grid) ps : (forall p, In p ps -> (p < g_nprop g)%nat) ->
  check_props g (Some (map Z.of_nat ps)) = Ok ps.
Proof.
  intros H. cbn [check_props]. rewrite map_to_of_nat.
  replace (forallb _ _) with true; [reflexivity|]. symmetry. apply forallb_forall. intros z Hz.
  apply in_map_iff in Hz as (p & <- & Hp). specialize (H p Hp). apply andb_true_iff. split; lia.
Qed.

Lemma take_props_get npix ps (d : arr A) ix j : inb npix ix = true -> (j < length ps)%nat ->
  getd v0 (take_props npix ps d) (ix ++ [j]) = getd v0 d (ix ++ [nth j ps 0%nat]).
Proof.
  intros Hi Hj. unfold take_props. rewrite getd_tab.
  - rewrite removelast_last, last_last. reflexivity.
  - rewrite inb_snoc by (apply inb_length; auto). rewrite Hi. apply Nat.ltb_lt; auto.
Qed.

Lemma copy_subset (g : grid) ps : consistent g -> floats g -> (g_data g = None -> g_nobj g = 0%nat) ->
  (forall p, In p ps -> (p < g_nprop g)%nat) -> length (g_gru g) = 1%nat ->
  exists g', grid_copy g (Some (map Z.of_nat ps)) = Ok g' /\ consistent g' /\ floats g' /\ same_geometry g g' /\
    g_nprop g' = length ps /\ g_nobj g' = g_nobj g /\ g_gru g' = repeat (hd None (g_gru g)) (length ps) /\
    (g_data g = None <-> g_data g' = None) /\
    forall ix j, inb (g_npix g) ix = true -> (j < length ps)%nat -> cell g' ix j = cell g ix (nth j ps 0%nat).
Proof.
  intros C F Hn Hp L. exists (restricted g ps (repeat (hd None (g_gru g)) (length ps))). split.
  - rewrite (copy_eq g _ ps) by (auto; apply props_of_args; auto). rewrite L, Nat.eqb_refl, orb_true_r.
    unfold spread_units. rewrite L, Nat.eqb_refl. reflexivity.
  - split.
    { destruct C; constructor; unfold restricted; gcbn; auto.
      destruct (g_data g); cbn [option_map]; auto. split; [apply tab_wf|reflexivity]. }
    split; [exact F|]. split; [repeat split|]. split; [reflexivity|]. split; [reflexivity|]. split; [reflexivity|].
    split; [unfold restricted; gcbn; destruct (g_data g); cbn [option_map]; split; congruence|].
    intros ix j Hi Hj. unfold cell, restricted. gcbn. destruct (g_data g); cbn [option_map]; [|reflexivity].
    apply take_props_get; auto.
Qed.

Lemma copy_subset_raises (g : grid) ps : consistent g -> floats g -> (g_data g = None -> g_nobj g = 0%nat) ->
  (forall p, In p ps -> (p < g_nprop g)%nat) -> (2 <= length (g_gru g))%nat -> length ps <> length (g_gru g) ->
  grid_copy g (Some (map Z.of_nat ps)) = Raise ValueError.
Proof.
  intros C F Hn Hp L N. rewrite (copy_eq g _ ps) by (auto; apply props_of_args; auto).
  destruct (Nat.eqb_spec (length (g_gru g)) (length ps)); [lia|]. destruct (Nat.eqb_spec (length (g_gru g)) 1); [lia|].
  reflexivity.
Qed.

Lemma sum_then_copy_raises (fs : fsys A) (g : grid) d ps p : consistent g -> floats g -> g_data g = Some d ->
  (forall p, In p ps -> (p < g_nprop g)%nat) -> (2 <= g_nprop g)%nat -> length (g_gru g) = g_nprop g ->
  exists g', sum_props_in_place g (Some (map Z.of_nat ps)) = (g', Ok tt) /\
     grid_copy g' None = Raise ValueError /\
     load_grid (fs_set fs p (GridFile (to_saved g'))) p = Raise ValueError.
Proof.
  intros C F D Hp L2 L. destruct (sum_in_place_ok g d _ ps C D (props_of_args g ps Hp)) as (d' & E & W & S & _).
  exists (with_nprop (with_data g (Some d')) (g_nprop g + 1)). split; [exact E|].
  assert (C' : consistent (with_nprop (with_data g (Some d')) (g_nprop g + 1))).
  { destruct C; constructor; gcbn; auto. }
  assert (X : ((length (g_gru g) =? g_nprop g + 1) || (length (g_gru g) =? 1))%nat = false).
  { rewrite L. apply orb_false_iff. split; apply Nat.eqb_neq; lia. }
  split.
  - rewrite (copy_eq _ None (seq 0 (g_nprop g + 1))); auto; [|gcbn; congruence].
    rewrite seq_length. gcbn. rewrite X. reflexivity.
  - rewrite load_saved; auto; [|gcbn; congruence]. gcbn. rewrite X. reflexivity.
Qed.
End Files.

Section Sums.
Context {A : Alg}.
Notation grid := (grid A).

Lemma cell_data (g : grid) d ix k : g_data g = Some d -> cell g ix k = getd v0 d (ix ++ [k]).
Proof. intros E. unfold cell. rewrite E. reflexivity. Qed.

Lemma c18_in_place (g : grid) d ps : consistent g -> g_data g = Some d ->
  (forall p, In p ps -> (p < g_nprop g)%nat) ->
  exists g', sum_props_in_place g (Some (map Z.of_nat ps)) = (g', Ok tt) /\ consistent g' /\ same_geometry g g' /\
    g_nprop g' = (g_nprop g + 1)%nat /\ g_nobj g' = g_nobj g /\ g_gru g' = g_gru g /\
    forall ix, inb (g_npix g) ix = true ->
      (forall k, (k < g_nprop g)%nat -> cell g' ix k = cell g ix k) /\
      cell g' ix (g_nprop g) = vsum (map (cell g ix) ps).
Proof.
  intros C D Hp. destruct (sum_in_place_ok g d _ ps C D (props_of_args g ps Hp)) as (d' & E & W & S & Hc).
  exists (with_nprop (with_data g (Some d')) (g_nprop g + 1)). split; [exact E|].
  split; [destruct C; constructor; gcbn; auto|]. split; [repeat split|]. split; [reflexivity|]. split; [reflexivity|].
  split; [reflexivity|]. intros ix Hi. destruct (Hc ix Hi) as [H1 H2]. split.
  - intros k Hk. rewrite (cell_data g d) by auto. unfold cell. gcbn. auto.
  - unfold cell at 1. gcbn. rewrite H2. f_equal. apply map_ext. intros p. rewrite (cell_data g d) by auto. reflexivity.
Qed.

Lemma c18_default (g : grid) :
  sum_props_in_place g None = sum_props_in_place g (Some (map Z.of_nat (seq 0 (g_nprop g)))) /\
  sum_props_new g None = sum_props_new g (Some (map Z.of_nat (seq 0 (g_nprop g)))).
Proof.
  unfold sum_props_in_place, sum_props_new. rewrite props_of_args by (intros p Hp; apply in_seq in Hp; lia).
  split; reflexivity.
Qed.

Lemma c18_rejects (g : grid) l z : In z l -> (z < 0 \/ Z.of_nat (g_nprop g) <= z)%Z ->
  sum_props_in_place g (Some l) = (g, Raise ValueError) /\ sum_props_new g (Some l) = Raise ValueError.
Proof.
  intros Hz Hb. unfold sum_props_in_place, sum_props_new. cbn [check_props].
  replace (forallb _ l) with false; [cbn; destruct (g_data g); split; reflexivity|].
  symmetry. apply not_true_iff_false. intros F. rewrite forallb_forall in F. specialize (F z Hz).
  apply andb_true_iff in F as [F1 F2]. lia.
Qed.

Lemma c18_new (g : grid) d ps : consistent g -> floats g -> g_data g = Some d ->
  (forall p, In p ps -> (p < g_nprop g)%nat) ->
  length (g_gru g) = 1%nat -> g_fsp g = repeat false (g_ndim g) -> g_ispow g = false ->
  exists g', sum_props_new g (Some (map Z.of_nat ps)) = Ok g' /\ consistent g' /\ same_geometry g g' /\
    g_nprop g' = 1%nat /\ g_gru g' = g_gru g /\
    forall ix, inb (g_npix g) ix = true -> cell g' ix 0 = vsum (map (cell g ix) ps).
Proof.
  intros C F D Hp L Hf Hw. rewrite (sum_new_eq g d _ ps) by (auto; apply props_of_args; auto).
  rewrite L, Nat.eqb_refl. eexists. split; [reflexivity|].
  destruct (prop_sum_wf (g_npix g) ps d) as [W S].
  split; [pose proof (blank_consistent g 1 (g_gru g) C) as []; constructor; gcbn; auto|].
  split; [unfold same_geometry, blank; gcbn; repeat split; congruence|]. split; [reflexivity|]. split; [reflexivity|].
  intros ix Hi. unfold cell at 1. gcbn. rewrite prop_sum_get by auto. f_equal. apply map_ext. intros p.
  rewrite (cell_data g d) by auto. reflexivity.
Qed.

Lemma c18_new_raises (g : grid) d ps : consistent g -> floats g -> g_data g = Some d ->
  (forall p, In p ps -> (p < g_nprop g)%nat) -> length (g_gru g) <> 1%nat ->
  sum_props_new g (Some (map Z.of_nat ps)) = Raise ValueError.
Proof.
  intros C F D Hp L. rewrite (sum_new_eq g d _ ps) by (auto; apply props_of_args; auto).
  destruct (Nat.eqb_spec (length (g_gru g)) 1); [contradiction|reflexivity].
Qed.
Lemma c18_new_flags (g g' : grid) d ps : consistent g -> floats g -> g_data g = Some d ->
  (forall p, In p ps -> (p < g_nprop g)%nat) ->
  sum_props_new g (Some (map Z.of_nat ps)) = Ok g' ->
  g_fsp g' = repeat false (g_ndim g) /\ g_ispow g' = false.
Proof.
  intros C F D Hp. rewrite (sum_new_eq g d _ ps) by (auto; apply props_of_args; auto).
  destruct (length (g_gru g) =? 1)%nat; [|discriminate]. intros [= <-]. split; reflexivity.
Qed.

Lemma new_gru np c s p au gu (g : grid) : grid_new A np c s p au gu = Ok g -> length (g_gru g) = np /\ g_nprop g = np.
Proof.
  intros H. apply grid_new_inv in H as (s' & p' & H). decompose [and] H; clear H. split; auto.
  match goal with E : bcast_units np gu = Ok (g_gru g) |- _ => revert E end. unfold bcast_units.
  destruct gu as [u|]; [|intros [= <-]; apply repeat_length].
  destruct (length u =? 1)%nat; [rewrite repeat_length, Nat.eqb_refl; intros [= <-]; apply repeat_length|].
  destruct (Nat.eqb_spec (length u) np); [intros [= <-]; auto|discriminate].
Qed.
End Sums.
