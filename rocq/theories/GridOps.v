(** Lemmas about rescaling axes, copying grids and summing properties. *)
From Verif Require Import Util Rat Val Arr GridModel GridSpec GridAxis GridNew GridAdd GridCat GridSpectra GridSpecFunc GridEx GridPad GridCrop.
Open Scope Qc_scope.

(** * scale_axis *)
Lemma diff_map_mul f l : diff (map (fun x => x * f) l) = map (fun x => x * f) (diff l).
Proof.
  induction l as [|a l IH]; [reflexivity|]. destruct l as [|b l]; [reflexivity|].
  cbn [map diff] in *. f_equal; [ring|]. exact IH.
Qed.
Lemma map_last {X Y} (f : X -> Y) l d : l <> [] -> last (map f l) (f d) = f (last l d).
Proof. induction l as [|a l IH]; [congruence|]. intros _. destruct l; [reflexivity|]. cbn [map last] in *. apply IH. congruence. Qed.
Lemma last_map_mul f l : last (map (fun x => x * f) l) 0 = last l 0 * f.
Proof.
  destruct l as [|a l]; [simpl; ring|]. rewrite <- (map_last (fun x => x * f)) by congruence.
  replace (0 * f) with 0 by ring. reflexivity.
Qed.
Lemma map_removelast {X Y} (f : X -> Y) l : removelast (map f l) = map f (removelast l).
Proof. induction l as [|a l IH]; [reflexivity|]. destruct l; [reflexivity|]. cbn [map removelast] in *. f_equal. exact IH. Qed.

Definition edges_expr (l : list Qc) : list Qc :=
  [hd 0 l - hd 0 (diff l) / zq 2] ++ map (fun p => fst p + snd p) (combine (removelast l) (diff l)) ++
  [last l 0 + last (diff l) 0 / zq 2].
Lemma axis_edges_expr l : axis_edges l = match l, diff l with _ :: _, _ :: _ => Ok (edges_expr l) | _, _ => Raise IndexError end.
Proof.
  unfold axis_edges, edges_expr. destruct l as [|a l]; [reflexivity|].
  destruct (diff (a :: l)); reflexivity.
Qed.
Lemma edges_expr_mul f l : edges_expr (map (fun x => x * f) l) = map (fun x => x * f) (edges_expr l).
Proof.
  unfold edges_expr. rewrite diff_map_mul, map_removelast, !last_map_mul, !map_app, !div2_half.
  assert (H : forall m, hd 0 (map (fun x => x * f) m) = hd 0 m * f) by (intros [|]; simpl; ring).
  rewrite !H. f_equal; [simpl; f_equal; ring|]. f_equal; [|simpl; f_equal; ring].
  generalize (diff l) as m. generalize (removelast l) as k. clear. induction k as [|x k IH]; intros [|y m]; cbn; auto.
  f_equal; [ring|apply IH].
Qed.
Lemma axis_edges_mul f l e : axis_edges l = Ok e -> axis_edges (map (fun x => x * f) l) = Ok (map (fun x => x * f) e).
Proof.
  rewrite (axis_edges_expr l), (axis_edges_expr (map _ l)). intros H.
  destruct l as [|a l]; [discriminate|]. cbn [map].
  change (a * f :: map (fun x => x * f) l) with (map (fun x => x * f) (a :: l)). rewrite diff_map_mul.
  destruct (diff (a :: l)) as [|d0 dl] eqn:D; [discriminate|]. injection H as <-.
  rewrite <- edges_expr_mul. reflexivity.
Qed.

Lemma axis_ok_scale f n c s p e ce fe fc : 0 < f -> axis_ok n c s p e ce fe fc ->
  axis_ok n (c * f) (s * f) (p * f) (map (fun x => x * f) e) (map (fun x => x * f) ce)
    (map (fun x => x / f) fe) (map (fun x => x / f) fc).
Proof.
  intros Hf []. constructor; rewrite ?map_length; auto.
  - replace 0 with (0 * f) by ring. apply Qcmult_lt_compat_r; auto.
  - rewrite ao_s. ring.
  - intros k Hk. rewrite (map_nth_error _ _ _ (ao_edge k Hk)). f_equal. rewrite !div2_half. ring.
  - intros k Hk. rewrite (map_nth_error _ _ _ (ao_cen k Hk)). f_equal. rewrite !div2_half. ring.
  - intros k Hk. rewrite (map_nth_error _ _ _ (ao_fcen k Hk)). f_equal. field.
    repeat split; apply Qc_pos_neq0; auto. replace 0 with (zq 0) by reflexivity. apply zq_lt. lia.
  - unfold Qcdiv. apply axis_edges_mul. exact ao_fedge.
Qed.

Section Ops.
Context {A : Alg}.
Add Ring A_ring : (v_rt A).
Notation grid := (grid A).

Lemma map_mul_1 l : map (fun x => x * 1) l = l.
Proof. induction l; simpl; f_equal; auto; ring. Qed.
Lemma map_div_1 l : map (fun x => x / 1) l = l.
Proof. induction l; cbn [map]; f_equal; auto. field. discriminate. Qed.

Lemma rescaled_refl (g : grid) F : (forall i, (i < g_ndim g)%nat -> F i = 1) -> rescaled F g g.
Proof.
  intros H. constructor; [tauto|]. intros i Hi. rewrite (H i Hi), !map_mul_1, ?map_div_1. repeat split; ring.
Qed.

Lemma rescaled_trans (g g1 g2 : grid) F G H : rescaled F g g1 -> rescaled G g1 g2 ->
  (forall i, (i < g_ndim g)%nat -> H i = F i * G i) -> rescaled H g g2.
Proof.
  intros [R1 A1] [R2 A2] E. decompose [and] R1; clear R1. decompose [and] R2; clear R2.
  constructor; [repeat match goal with |- _ /\ _ => split end; congruence|].
  intros i Hi. destruct (A1 i Hi) as (a1 & a2 & a3 & a4 & a5 & a6 & a7).
  assert (Hi' : (i < g_ndim g1)%nat) by congruence.
  destruct (A2 i Hi') as (b1 & b2 & b3 & b4 & b5 & b6 & b7).
  rewrite b1, b2, b3, b4, b5, b6, b7, a1, a2, a3, a4, a5, a6, a7, !map_map, (E i Hi).
  repeat match goal with |- _ /\ _ => split end; try ring; apply map_ext; intros x.
  1,2: ring.
  all: unfold Qcdiv; rewrite Qcinv_mult_distr; ring.
Qed.

Lemma rescaled_consistent (g g' : grid) F : consistent g -> rescaled F g g' ->
  (forall i, (i < g_ndim g)%nat -> 0 < F i) ->
  flen (g_center g') = g_ndim g -> flen (g_side g') = g_ndim g -> flen (g_pix g') = g_ndim g ->
  length (g_axes g') = g_ndim g -> length (g_centers g') = g_ndim g ->
  length (g_faxes g') = g_ndim g -> length (g_fcenters g') = g_ndim g -> consistent g'.
Proof.
  intros C [R X] HF L1 L2 L3 L4 L5 L6 L7. destruct R as (E1 & E2 & E3 & E4 & E5 & E6 & E7 & E8 & E9 & E10). destruct C.
  constructor; rewrite ?E1, ?E2, ?E3, ?E4, ?E5, ?E6, ?E7, ?E8, ?E9, ?E10; auto.
  intros i Hi. destruct (X i Hi) as (a1 & a2 & a3 & a4 & a5 & a6 & a7). rewrite a1, a2, a3, a4, a5, a6, a7.
  apply axis_ok_scale; auto.
Qed.

Definition lens_good (g g' : grid) : Prop :=
  flen (g_center g') = flen (g_center g) /\ flen (g_side g') = flen (g_side g) /\ flen (g_pix g') = flen (g_pix g) /\
  length (g_axes g') = length (g_axes g) /\ length (g_centers g') = length (g_centers g) /\
  length (g_faxes g') = length (g_faxes g) /\ length (g_fcenters g') = length (g_fcenters g).
(** what rescaling needs of the grid: one entry per axis everywhere *)
Record dims (g : grid) : Prop := {
  di_c : flen (g_center g) = g_ndim g; di_s : flen (g_side g) = g_ndim g; di_p : flen (g_pix g) = g_ndim g;
  di_ax : length (g_axes g) = g_ndim g; di_ce : length (g_centers g) = g_ndim g;
  di_fa : length (g_faxes g) = g_ndim g; di_fc : length (g_fcenters g) = g_ndim g }.

Lemma scale_one_ok (g : grid) fs i f : dims g -> floats g -> (i < g_ndim g)%nat -> nth_error fs i = Some f ->
  exists g', scale_one true fs g i = (g', Ok tt) /\ dims g' /\ floats g' /\
    rescaled (fun j => if (j =? i)%nat then f else 1) g g'.
Proof.
  intros [] (F1 & F2 & F3) Hi E. unfold scale_one. rewrite E. eexists. split; [reflexivity|].
  split; [constructor; gcbn; rewrite ?flen_fset, ?upd_length; auto|].
  split; [split; [|split]; gcbn; unfold fset; simpl; auto|].
  constructor; gcbn; [tauto|]. intros j Hj. destruct (Nat.eqb_spec j i) as [->|N].
  - rewrite !fnth_fset_eq, !nth_upd_eq by (auto; lia). tauto.
  - rewrite !fnth_fset_ne, !nth_upd_ne, !map_mul_1, ?map_div_1 by auto. repeat split; ring.
Qed.

Lemma scale_loop_ok fs ax : forall g : grid, dims g -> floats g -> NoDup ax ->
  (forall i, In i ax -> (i < g_ndim g)%nat /\ exists f, nth_error fs i = Some f) ->
  exists g', scale_loop true fs g ax = (g', Ok tt) /\ dims g' /\ floats g' /\
    rescaled (fun j => if mem_nat j ax then nth j fs 1 else 1) g g'.
Proof.
  induction ax as [|i ax IH]; intros g D F Nd H.
  - exists g. split; [reflexivity|]. split; [|split]; auto. apply rescaled_refl. auto.
  - destruct (H i) as (Hi & f & Ef); [left; auto|]. inversion Nd as [|? ? Ni Nd']; subst.
    destruct (scale_one_ok g fs i f D F Hi Ef) as (g1 & E1 & D1 & F1 & R1).
    assert (N1 : g_ndim g1 = g_ndim g) by apply R1.
    destruct (IH g1 D1 F1 Nd') as (g2 & E2 & D2 & F2 & R2).
    { intros j Hj. rewrite N1. apply H. right; auto. }
    exists g2. cbn [scale_loop]. rewrite E1. split; [exact E2|]. split; [|split]; auto.
    eapply rescaled_trans; [exact R1|exact R2|]. intros j Hj. cbn [mem_nat existsb].
    unfold mem_nat. cbn [existsb]. destruct (Nat.eqb_spec j i) as [->|N].
    + cbn [orb]. rewrite (nth_error_nth _ _ 1 Ef).
      destruct (existsb (Nat.eqb i) ax) eqn:X; [|ring].
      exfalso. apply Ni. apply existsb_exists in X as (k & Hk & Ek). apply Nat.eqb_eq in Ek. congruence.
    + cbn [orb]. destruct (existsb (Nat.eqb j) ax); ring.
Qed.

Lemma consistent_dims (g : grid) : consistent g -> dims g.
Proof. intros []; constructor; auto. Qed.

Lemma axes_ok_nat (g : grid) ax : (forall a, In a ax -> (a < g_ndim g)%nat) ->
  forallb (fun a => (a <? Z.of_nat (g_ndim g))%Z && (0 <=? a)%Z) (map Z.of_nat ax) = true.
Proof.
  intros H. apply forallb_forall. intros z Hz. apply in_map_iff in Hz as (a & <- & Ha). specialize (H a Ha). lia.
Qed.
Lemma map_to_of_nat ax : map Z.to_nat (map Z.of_nat ax) = ax.
Proof. rewrite map_map. erewrite map_ext; [apply map_id|]. intros; apply Nat2Z.id. Qed.

Lemma scale_args ax (fs : list Qc) : length (spread ax fs) = length ax ->
  (if (length fs =? 1)%nat then Ok (repeat (hd 0 fs) (length ax))
   else if (length fs =? length ax)%nat then Ok fs else Raise ValueError) = Ok (spread ax fs).
Proof.
  unfold spread. destruct fs as [|f [|f2 fs]]; cbn [length Nat.eqb hd].
  - intros <-. reflexivity.
  - reflexivity.
  - intros E. rewrite <- E, Nat.eqb_refl. reflexivity.
Qed.

Lemma factor_of_mem ax fs i : (forall i, In i ax -> nth_error fs i = Some (factor_of ax fs i)) ->
  (if mem_nat i ax then nth i fs 1 else 1) = factor_of ax fs i.
Proof.
  intros H. destruct (mem_nat i ax) eqn:E.
  - apply nth_error_nth. apply H. apply existsb_exists in E as (j & Hj & E). apply Nat.eqb_eq in E. congruence.
  - unfold factor_of. destruct (index_nat i ax) eqn:X; auto.
    exfalso. apply index_nat_some in X. rewrite <- not_true_iff_false in E. apply E.
    apply existsb_exists. exists i. split; [|apply Nat.eqb_refl]. eapply nth_error_In, X.
Qed.

Lemma c23_scale (g : grid) ax factor : consistent g -> floats g -> scale_call_ok g ax factor ->
  let fs := spread ax factor in factors_agree ax fs ->
  exists g', grid_scale_axis g (map Z.of_nat ax) factor true = (g', Ok tt) /\ floats g' /\
    rescaled (factor_of ax fs) g g' /\
    ((forall f, In f factor -> 0 < f) -> consistent g').
Proof.
  intros C F (Nd & Hax & L) fs Ag. unfold grid_scale_axis. rewrite axes_ok_nat by auto. cbn [negb].
  rewrite map_length, scale_args by auto. fold fs. rewrite map_to_of_nat.
  destruct (scale_loop_ok fs ax g (consistent_dims g C) F Nd) as (g' & E & D & F' & R).
  { intros i Hi. split; auto. eexists. apply Ag; auto. }
  exists g'. split; [exact E|]. split; [exact F'|].
  assert (R' : rescaled (factor_of ax fs) g g').
  { eapply (rescaled_trans g g g' (fun _ => 1)); [apply rescaled_refl; auto|exact R|].
    intros i Hi. cbv beta. rewrite factor_of_mem by exact Ag. ring. }
  split; [exact R'|]. intros Hp.
  assert (N : g_ndim g' = g_ndim g) by apply R'. destruct D. rewrite N in *.
  apply (rescaled_consistent g g' (factor_of ax fs)); auto.
  intros i Hi. unfold factor_of. destruct (index_nat i ax) as [j|] eqn:X; [|apply qltb_lt; reflexivity].
  apply index_nat_some in X. assert (Hj : (j < length fs)%nat).
  { unfold fs. rewrite L. apply nth_error_Some. congruence. }
  apply (nth_In _ 1) in Hj. revert Hj. unfold fs at 2, spread.
  destruct factor as [|f [|f2 r]]; intros Hj; [destruct Hj| |apply Hp; exact Hj].
  apply repeat_spec in Hj. rewrite Hj. apply Hp. left; auto.
Qed.

(** named axis other than the first, one factor: the call always fails *)
Lemma c23_single (g : grid) i f : (0 < i < g_ndim g)%nat ->
  grid_scale_axis g [Z.of_nat i] [f] true = (g, Raise IndexError).
Proof.
  intros Hi. unfold grid_scale_axis.
  change [Z.of_nat i] with (map Z.of_nat [i]). rewrite axes_ok_nat by (intros a [<-|[]]; lia).
  cbn [negb length Nat.eqb map hd repeat]. rewrite Nat2Z.id. cbn [scale_loop]. unfold scale_one.
  destruct i as [|[|]]; [lia| |]; reflexivity.
Qed.

(** fixed centre: the call fails and leaves side and pixel size of the axis
    multiplied while its edges are not *)
Lemma c23_fixed_center (g : grid) f : consistent g -> floats g -> (0 < g_ndim g)%nat ->
  exists g', grid_scale_axis g [0%Z] [f] false = (g', Raise AttributeError) /\ fnth (g_side g') 0 = fnth (g_side g) 0 * f /\ g_axes g' = g_axes g.
Proof.
  intros C (F1 & F2 & F3) Hn. unfold grid_scale_axis.
  change [0%Z] with (map Z.of_nat [0%nat]). rewrite axes_ok_nat by (intros a [<-|[]]; lia).
  cbn [negb length Nat.eqb map hd repeat]. cbn [scale_loop Z.of_nat Z.to_nat]. unfold scale_one. cbn [nth_error].
  eexists. split; [reflexivity|]. split; [|reflexivity]. gcbn. apply fnth_fset_eq; auto. rewrite (co_s _ C); auto.
Qed.

(** * copies *)

(** the grid [copy_axes] builds: same lattice, no data *)
Definition blank (g : grid) (n : nat) (gru : units) : grid :=
  mkGrid n 0 (g_ndim g) (g_center g) (g_side g) (g_pix g) (g_npix g) (g_axu g) (g_faxu g) gru
    (g_axes g) (g_centers g) (g_faxes g) (g_fcenters g) (repeat false (g_ndim g)) false None.

Lemma blank_consistent (g : grid) n gru : consistent g -> consistent (blank g n gru).
Proof. intros []; constructor; unfold blank; gcbn; auto. apply repeat_length. Qed.

Lemma bcast_same d (s : farr) : flen s = d -> fint s = false -> bcast_side d s = Ok s /\ bcast_pix d s = Ok s.
Proof.
  intros L F. unfold bcast_side, bcast_pix. rewrite L, Nat.eqb_refl. split; [|reflexivity].
  destruct (Nat.eqb_spec d 1) as [E|E].
  - destruct s as [fi v]. simpl in F. subst fi. unfold flen in *. simpl in L. subst d.
    destruct v as [|x [|]]; simpl in *; try lia. reflexivity.
  - rewrite L, Nat.eqb_refl. reflexivity.
Qed.

Definition spread_units (n : nat) (u : units) : units := if (length u =? 1)%nat then repeat (hd None u) n else u.
Lemma spread_units_same u : spread_units (length u) u = u.
Proof. unfold spread_units. destruct u as [|x [|]]; reflexivity. Qed.

Lemma bcast_units_eq d u : bcast_units d (Some u) =
  if ((length u =? d) || (length u =? 1))%nat then Ok (spread_units d u) else Raise ValueError.
Proof.
  unfold bcast_units, spread_units. destruct (Nat.eqb_spec (length u) 1) as [E|E].
  - rewrite repeat_length, Nat.eqb_refl, orb_true_r. reflexivity.
  - rewrite orb_false_r. destruct (length u =? d)%nat; reflexivity.
Qed.

Lemma copy_axes_ok (g : grid) n : consistent g -> floats g ->
  copy_axes g n = if ((length (g_gru g) =? n) || (length (g_gru g) =? 1))%nat
                  then Ok (blank g n (spread_units n (g_gru g))) else Raise ValueError.
Proof.
  intros C F. pose proof F as (F1 & F2 & F3).
  assert (Hpos : forall x, In x (fv (g_pix g)) -> 0 < x).
  { intros x Hx. apply (In_nth _ _ 0) in Hx as (i & Hi & <-). fold (flen (g_pix g)) in Hi. rewrite (co_p _ C) in Hi.
    apply (ao_p _ _ _ _ _ _ _ _ (co_axis _ C i Hi)). }
  destruct (orb (length (g_gru g) =? n)%nat (length (g_gru g) =? 1)%nat) eqn:E.
  - destruct (proj2 (grid_new_success A n (g_center g) (g_side g) (g_pix g) (Some (g_axu g)) (Some (g_gru g)) Hpos)) as (h & Eh).
    + rewrite (co_c _ C), (co_s _ C), (co_p _ C). unfold lens_ok, units_ok, lens_ok. rewrite (co_au _ C).
      split; [auto|]. split; [auto|]. split; [auto|].
      split; [apply orb_true_iff in E; rewrite !Nat.eqb_eq in E; exact E|].
      intros i Hi. pose proof (co_axis _ C i Hi) as [Op On Os _ _ _ _ _ _ _].
      assert (B : forall s, flen s = g_ndim g -> bval s i = fnth s i).
      { intros s Hs. unfold bval. destruct (Nat.eqb_spec (flen s) 1) as [E1|E1]; [|reflexivity].
        assert (i = 0%nat) by lia. subst i. reflexivity. }
      rewrite !B by (apply (co_s _ C) || apply (co_p _ C)). rewrite Os.
      apply Qclt_le_trans with (zq 2 * fnth (g_pix g) i).
      * apply Qcmult_lt_compat_r; auto. apply qltb_lt. vm_compute. reflexivity.
      * apply (nq_mono_mul 2); auto.
    + unfold copy_axes. rewrite Eh. f_equal.
      pose proof (grid_new_consistent _ _ _ _ _ _ _ _ Eh Hpos) as Ch.
      apply grid_new_inv in Eh as (s & p & Bs & Bp & H1 & H2 & H3 & H4 & H5 & _ & _ & _ & H6 & H7 & H8 & _ & _ & _ & _ & H9 & H10 & H11 & H12 & H13).
      destruct (bcast_same (g_ndim g) (g_side g) (co_s _ C) F2) as [Bs' _].
      destruct (bcast_same (g_ndim g) (g_pix g) (co_p _ C) F3) as [_ Bp'].
      rewrite (co_c _ C) in *. rewrite Bs' in Bs. rewrite Bp' in Bp. injection Bs as <-. injection Bp as <-.
      assert (Eu : g_axu h = g_axu g).
      { rewrite bcast_units_eq, (co_au _ C), Nat.eqb_refl in H6. cbn [orb] in H6. injection H6 as <-.
        rewrite <- (co_au _ C). apply spread_units_same. }
      assert (Eg : g_gru h = spread_units n (g_gru g)).
      { rewrite bcast_units_eq, E in H8. injection H8 as <-. reflexivity. }
      assert (Ax : forall i, (i < g_ndim g)%nat -> nth i (g_npix h) 0%nat = nth i (g_npix g) 0%nat /\ fnth (g_side h) i = fnth (g_side g) i).
      { intros i Hi. specialize (H12 i Hi). cbv zeta in H12. destruct H12 as (_ & _ & Hs & Hn & _).
        pose proof (co_axis _ C i Hi) as [Op On Os _ _ _ _ _ _ _].
        rewrite Os in Hs, Hn. unfold nq in Hs, Hn. rewrite npix_z_exact in Hs, Hn by auto.
        split; [rewrite Hn; apply Nat2Z.id|]. rewrite Hs, Os. reflexivity. }
      apply consistent_eq; auto; unfold blank; gcbn; auto.
      * apply blank_consistent; auto.
      * split; [|split].
        -- congruence.
        -- destruct (fint (g_side h)) eqn:X; auto. destruct H13 as [_ H13]; auto; congruence.
        -- congruence.
      * apply (nth_ext _ _ 0%nat 0%nat); [rewrite (co_n _ C), (co_n _ Ch); auto|].
        intros i Hi. rewrite (co_n _ Ch), H3 in Hi. apply Ax; auto.
      * intros i Hi. split; [apply Ax; auto|congruence].
  - unfold copy_axes, grid_new. rewrite (co_c _ C).
    destruct (bcast_same (g_ndim g) (g_side g) (co_s _ C) F2) as [-> _].
    destruct (bcast_same (g_ndim g) (g_pix g) (co_p _ C) F3) as [_ ->]. cbn [bind].
    rewrite bcast_units_eq, (co_au _ C), Nat.eqb_refl. cbn [orb bind].
    rewrite bcast_units_eq, E. reflexivity.
Qed.

(** grid keeping the properties [ps] only *)
Definition restricted (g : grid) (ps : list nat) (gru : units) : grid :=
  mkGrid (length ps) (g_nobj g) (g_ndim g) (g_center g) (g_side g) (g_pix g) (g_npix g) (g_axu g) (g_faxu g) gru
    (g_axes g) (g_centers g) (g_faxes g) (g_fcenters g) (g_fsp g) (g_ispow g)
    (option_map (take_props (g_npix g) ps) (g_data g)).

Lemma copy_eq (g : grid) props ps : consistent g -> floats g -> check_props g props = Ok ps ->
  (g_data g = None -> g_nobj g = 0%nat) ->
  grid_copy g props = if ((length (g_gru g) =? length ps) || (length (g_gru g) =? 1))%nat
                      then Ok (restricted g ps (spread_units (length ps) (g_gru g))) else Raise ValueError.
Proof.
  intros C F E Hn. unfold grid_copy. rewrite E. cbn [bind]. rewrite copy_axes_ok by auto.
  destruct (_ || _)%bool; [|reflexivity]. cbn [bind]. f_equal. unfold restricted, blank.
  destruct (g_data g) eqn:D; gcbn; [reflexivity|]. rewrite (Hn eq_refl). reflexivity.
Qed.

Lemma take_all_props (g : grid) d : consistent g -> g_data g = Some d -> take_props (g_npix g) (seq 0 (g_nprop g)) d = d.
Proof.
  intros C E. pose proof (co_data _ C) as D. rewrite E in D. destruct D as [W S].
  apply (arr_eq_cells _ _ (g_npix g) (g_nprop g)); auto; [apply tab_wf| |].
  - unfold take_props. cbn [shape tab]. rewrite seq_length. reflexivity.
  - intros ix k Hi Hk. unfold take_props. rewrite getd_tab.
    + rewrite last_snoc, get_removelast_snoc, seq_nth by auto. reflexivity.
    + rewrite inb_snoc by (apply inb_length; auto). rewrite Hi, seq_length. apply Nat.ltb_lt; auto.
Qed.

Lemma copy_all (g : grid) : consistent g -> floats g -> length (g_gru g) = g_nprop g ->
  (g_data g = None -> g_nobj g = 0%nat) -> grid_copy g None = Ok g.
Proof.
  intros C F L Hn. rewrite (copy_eq g None (seq 0 (g_nprop g))) by auto.
  rewrite seq_length, L, Nat.eqb_refl. cbn [orb]. f_equal. rewrite <- L, spread_units_same.
  unfold restricted. rewrite seq_length, L.
  destruct (g_data g) as [d|] eqn:D.
  - cbn [option_map]. rewrite (take_all_props g d C D). rewrite <- D. clear. destruct g; reflexivity.
  - cbn [option_map]. rewrite <- D. clear. destruct g; reflexivity.
Qed.

(** * sum_properties *)
Lemma prop_sum_wf npix ps (d : arr A) : awf (prop_sum npix ps d) /\ shape (prop_sum npix ps d) = npix ++ [1%nat].
Proof. split; [apply tab_wf|reflexivity]. Qed.
Lemma prop_sum_get npix ps (d : arr A) ix : inb npix ix = true ->
  getd v0 (prop_sum npix ps d) (ix ++ [0%nat]) = vsum (map (fun p => getd v0 d (ix ++ [p])) ps).
Proof.
  intros H. unfold prop_sum. rewrite getd_tab.
  - apply vsum_ext. intros p _. rewrite get_removelast_snoc. reflexivity.
  - rewrite inb_snoc by (apply inb_length; auto). rewrite H. reflexivity.
Qed.

Lemma sum_in_place_ok (g : grid) d props ps : consistent g -> g_data g = Some d -> check_props g props = Ok ps ->
  exists d', sum_props_in_place g props = (with_nprop (with_data g (Some d')) (g_nprop g + 1), Ok tt) /\
    awf d' /\ shape d' = g_npix g ++ [g_nprop g + 1]%nat /\
    forall ix, inb (g_npix g) ix = true ->
      (forall k, (k < g_nprop g)%nat -> getd v0 d' (ix ++ [k]) = getd v0 d (ix ++ [k])) /\
      getd v0 d' (ix ++ [g_nprop g]) = vsum (map (fun p => getd v0 d (ix ++ [p])) ps).
Proof.
  intros C E H. unfold sum_props_in_place. rewrite E, H.
  destruct (prop_sum_wf (g_npix g) ps d) as [W S].
  destruct (add_new_prop_ok g d _ 1 C E W S) as (d' & E' & W' & S' & G).
  exists d'. split; [exact E'|]. split; [exact W'|]. split; [exact S'|].
  intros ix Hi. split.
  - intros k Hk. rewrite G by (auto; lia). destruct (Nat.ltb_spec k (g_nprop g)); [reflexivity|lia].
  - rewrite G by (auto; lia). rewrite Nat.ltb_irrefl, Nat.sub_diag. apply prop_sum_get; auto.
Qed.

Lemma sum_new_eq (g : grid) d props ps : consistent g -> floats g -> g_data g = Some d -> check_props g props = Ok ps ->
  sum_props_new g props = if (length (g_gru g) =? 1)%nat
     then Ok (with_data (blank g 1 (g_gru g)) (Some (prop_sum (g_npix g) ps d))) else Raise ValueError.
Proof.
  intros C F E H. unfold sum_props_new. rewrite E, H. cbn [bind]. rewrite copy_axes_ok by auto.
  rewrite orb_diag. destruct (Nat.eqb_spec (length (g_gru g)) 1) as [L|L]; [|reflexivity].
  cbn [bind]. rewrite <- L at 2. rewrite spread_units_same. f_equal.
Qed.
End Ops.
