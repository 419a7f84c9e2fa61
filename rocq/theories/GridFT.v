(** The Fourier transform of a grid and its inverse. *)
From Verif Require Import Util Rat Val Arr GridModel GridModel2 GridSpec GridAxis GridNew GridAdd GridCat GridEx GridPad GridOps GridFourier.
Open Scope Qc_scope.

Lemma fold_upd_length {X} (v : X) l f0 : length (fold_left (fun f i => upd f i v) l f0) = length f0.
Proof. revert f0; induction l as [|a l IH]; simpl; intros; auto. rewrite IH. apply upd_length. Qed.
Lemma fold_upd_nth {X} (v d : X) l f0 i : (forall a, In a l -> (a < length f0)%nat) ->
  (In i l -> nth i (fold_left (fun f i => upd f i v) l f0) d = v) /\
  (~ In i l -> nth i (fold_left (fun f i => upd f i v) l f0) d = nth i f0 d).
Proof.
  revert f0; induction l as [|a l IH]; simpl; intros f0 H; [tauto|].
  destruct (IH (upd f0 a v)) as [I1 I2]; [intros b Hb; rewrite upd_length; auto|].
  split.
  - intros [->|Hi]; [|auto]. destruct (in_dec Nat.eq_dec i l) as [Y|N]; [auto|].
    rewrite I2 by auto. apply nth_upd_eq; auto.
  - intros N. rewrite I2 by tauto. apply nth_upd_ne. intros ->. tauto.
Qed.

Lemma mem_nat_in i l : mem_nat i l = true <-> In i l.
Proof.
  unfold mem_nat. rewrite existsb_exists. split; [intros (x & H & E); apply Nat.eqb_eq in E; congruence|].
  intros H. exists i. split; auto. apply Nat.eqb_refl.
Qed.

Lemma prod_inv (f : nat -> Qc) l : (forall i, In i l -> f i <> 0) ->
  qprod_over f l * fold_left (fun acc i => acc / f i) l 1 = 1.
Proof.
  intros H. unfold qprod_over.
  assert (G : forall a b, fold_left (fun acc i => acc * f i) l a * fold_left (fun acc i => acc / f i) l b = a * b).
  { induction l as [|i l IH]; simpl; intros a b; auto. rewrite IH by (intros; apply H; simpl; auto).
    field. apply H. simpl; auto. }
  rewrite G. ring.
Qed.

Section FT.
Context {A : Alg} (w : nat -> A).
Add Ring A_ring : (v_rt A).
Notation grid := (grid A).

Definition sc (nz : bool) (q : Qc) : A := if nz then emb q else v1.
Lemma sc_scale (nz : bool) q (x : arr A) : (if nz then scale_arr (emb q) x else x) = scale_arr (sc nz q) x.
Proof. destruct nz; simpl; auto. symmetry. apply scale_1. Qed.
Lemma sc_mul nz a b : a * b = 1 -> (sc nz a * sc nz b)%V = v1.
Proof. intros H. destruct nz; simpl; [rewrite <- emb_mul, H; apply emb_1|ring]. Qed.

Lemma ft_flags (fsp : list bool) axn i : (forall a, In a axn -> (a < length fsp)%nat) ->
  let fw := filter (fun i => negb (nth i fsp false)) axn in
  let bk := filter (fun i => nth i fsp false) axn in
  nth i (fold_left (fun f i => upd f i false) bk (fold_left (fun f i => upd f i true) fw fsp)) false =
  if mem_nat i axn then negb (nth i fsp false) else nth i fsp false.
Proof.
  intros H fw bk.
  assert (Hf : forall a, In a fw -> (a < length fsp)%nat) by (intros a Ha; apply filter_In in Ha; apply H, Ha).
  assert (Hb : forall a, In a bk -> (a < length (fold_left (fun f i => upd f i true) fw fsp))%nat)
    by (intros a Ha; rewrite fold_upd_length; apply filter_In in Ha; apply H, Ha).
  destruct (fold_upd_nth true false fw fsp i Hf) as [F1 F2].
  destruct (fold_upd_nth false false bk _ i Hb) as [B1 B2].
  destruct (mem_nat i axn) eqn:M.
  - apply mem_nat_in in M. destruct (nth i fsp false) eqn:E.
    + simpl. apply B1. apply filter_In. auto.
    + simpl. rewrite B2 by (intros X; apply filter_In in X; destruct X; congruence).
      apply F1. apply filter_In. rewrite E. auto.
  - assert (N : ~ In i axn) by (rewrite <- mem_nat_in, M; discriminate).
    rewrite B2, F2; auto; intros X; apply filter_In in X; tauto.
Qed.

Definition roots_ok (g : grid) : Prop := forall n, In n (g_npix g) -> good_root (w n) n.

Lemma gaxis_of (g : grid) a : consistent g -> roots_ok g -> (a < g_ndim g)%nat -> gaxis w (g_npix g ++ [g_nprop g]) a.
Proof.
  intros C R Ha. split; [rewrite app_length, (co_n _ C); simpl; lia|].
  rewrite app_nth1 by (rewrite (co_n _ C); auto). apply R. apply nth_In. rewrite (co_n _ C). auto.
Qed.

Lemma pix_neq0 (g : grid) i : consistent g -> (i < g_ndim g)%nat -> fnth (g_pix g) i <> 0.
Proof. intros C Hi. apply Qc_pos_neq0. apply (ao_p _ _ _ _ _ _ _ _ (co_axis _ C i Hi)). Qed.

Lemma data_ok (g : grid) d : consistent g -> g_data g = Some d -> aok (g_npix g ++ [g_nprop g]) d.
Proof. intros C E. pose proof (co_data _ C) as H. rewrite E in H. exact H. Qed.

Definition ft_data (g : grid) (d : arr A) axn nz : arr A :=
  let fw := filter (fun i => negb (nth i (g_fsp g) false)) axn in
  let bk := filter (fun i => nth i (g_fsp g) false) axn in
  scale_arr (sc nz (fold_left (fun acc i => acc / fnth (g_pix g) i) bk 1))
   (ifftn w bk (unshift_axes bk (scale_arr (sc nz (qprod_over (fun i => fnth (g_pix g) i) fw)) (shift_axes fw (fftn w fw d))))).
Definition ft_fsp (g : grid) axn : list bool :=
  let fw := filter (fun i => negb (nth i (g_fsp g) false)) axn in
  let bk := filter (fun i => nth i (g_fsp g) false) axn in
  fold_left (fun f i => upd f i false) bk (fold_left (fun f i => upd f i true) fw (g_fsp g)).
Lemma ft_apply_eq (g : grid) d axn nz : ft_apply w g d axn nz = with_data (with_fsp g (ft_fsp g axn)) (Some (ft_data g d axn nz)).
Proof. unfold ft_apply, ft_data, ft_fsp. rewrite !sc_scale. reflexivity. Qed.

Lemma ft_data_ok (g : grid) d axn nz sh : aok sh d -> aok sh (ft_data g d axn nz).
Proof. intros O. unfold ft_data. apply scale_ok, ifftn_ok, unshift_ok, scale_ok, shift_ok, fftn_ok. auto. Qed.

Lemma ft_consistent (g : grid) d axn nz : consistent g -> g_data g = Some d -> consistent (ft_apply w g d axn nz).
Proof.
  intros C E. rewrite ft_apply_eq. pose proof (data_ok g d C E) as O. destruct C; constructor; gcbn; auto.
  - unfold ft_fsp. rewrite !fold_upd_length. auto.
  - apply (ft_data_ok g d axn nz). auto.
Qed.

Lemma ft_twice (g : grid) d axn nz : consistent g -> roots_ok g -> g_data g = Some d ->
  NoDup axn -> (forall a, In a axn -> (a < g_ndim g)%nat) ->
  ft_apply w (ft_apply w g d axn nz) (ft_data g d axn nz) axn nz = g.
Proof.
  intros C R E Nd Ha. rewrite (ft_apply_eq (ft_apply w g d axn nz)).
  pose proof (data_ok g d C E) as O. set (sh := g_npix g ++ [g_nprop g]) in *.
  assert (Hax : forall a, In a axn -> (a < length (g_fsp g))%nat) by (rewrite (co_fs _ C); auto).
  assert (FL : forall i, nth i (ft_fsp g axn) false = if mem_nat i axn then negb (nth i (g_fsp g) false) else nth i (g_fsp g) false)
    by (intros i; apply (ft_flags (g_fsp g) axn i Hax)).
  assert (Ef : ft_fsp (ft_apply w g d axn nz) axn = g_fsp g).
  { apply (nth_ext _ _ false false).
    - unfold ft_fsp at 1. rewrite !fold_upd_length. rewrite ft_apply_eq. gcbn. unfold ft_fsp. rewrite !fold_upd_length. auto.
    - intros i _. rewrite ft_apply_eq. unfold ft_fsp at 1.
      cbn [with_data with_fsp g_fsp].
      rewrite (ft_flags (ft_fsp g axn) axn i) by (unfold ft_fsp; rewrite !fold_upd_length; auto).
      rewrite FL. destruct (mem_nat i axn); auto. apply negb_involutive. }
  assert (Ed : ft_data (ft_apply w g d axn nz) (ft_data g d axn nz) axn nz = d).
  { unfold ft_data at 1. rewrite ft_apply_eq. cbn [with_data with_fsp g_fsp g_pix].
    set (fw := filter (fun i => negb (nth i (g_fsp g) false)) axn).
    set (bk := filter (fun i => nth i (g_fsp g) false) axn).
    replace (filter (fun i => negb (nth i (ft_fsp g axn) false)) axn) with bk.
    2:{ apply filter_ext_in. intros i Hi. rewrite FL. apply mem_nat_in in Hi. rewrite Hi, negb_involutive. reflexivity. }
    replace (filter (fun i => nth i (ft_fsp g axn) false) axn) with fw.
    2:{ apply filter_ext_in. intros i Hi. rewrite FL. apply mem_nat_in in Hi. rewrite Hi. reflexivity. }
    assert (Hfw : forall a, In a fw -> (a < g_ndim g)%nat) by (intros a X; apply filter_In in X; apply Ha, X).
    assert (Hbk : forall a, In a bk -> (a < g_ndim g)%nat) by (intros a X; apply filter_In in X; apply Ha, X).
    assert (Lsh : length sh = S (g_ndim g)) by (unfold sh; rewrite app_length, (co_n _ C); simpl; lia).
    assert (Gfw : Forall (gaxis w sh) fw) by (apply Forall_forall; intros; apply gaxis_of; auto).
    assert (Gbk : Forall (gaxis w sh) bk) by (apply Forall_forall; intros; apply gaxis_of; auto).
    assert (Lfw : Forall (fun a => (a < length sh)%nat) fw) by (apply Forall_forall; intros a X; specialize (Hfw a X); lia).
    assert (Lbk : Forall (fun a => (a < length sh)%nat) bk) by (apply Forall_forall; intros a X; specialize (Hbk a X); lia).
    assert (Nfw : NoDup fw) by (apply NoDup_filter; auto). assert (Nbk : NoDup bk) by (apply NoDup_filter; auto).
    unfold ft_data. fold fw bk.
    set (cf := sc nz (qprod_over (fun i => fnth (g_pix g) i) fw)).
    set (cb := sc nz (fold_left (fun acc i => acc / fnth (g_pix g) i) bk 1)).
    set (cf' := sc nz (qprod_over (fun i => fnth (g_pix g) i) bk)).
    set (cb' := sc nz (fold_left (fun acc i => acc / fnth (g_pix g) i) fw 1)).
    assert (O1 : aok sh (fftn w fw d)) by (apply fftn_ok; auto).
    assert (O2 : aok sh (shift_axes fw (fftn w fw d))) by (apply shift_ok; auto).
    assert (O3 : aok sh (scale_arr cf (shift_axes fw (fftn w fw d)))) by (apply scale_ok; auto).
    set (D2 := scale_arr cf (shift_axes fw (fftn w fw d))) in *.
    assert (O4 : aok sh (unshift_axes bk D2)) by (apply unshift_ok; auto).
    assert (O5 : aok sh (ifftn w bk (unshift_axes bk D2))) by (apply ifftn_ok; auto).
    rewrite (scale_fftn w cb sh) by auto. rewrite (fftn_ifftn w sh bk) by auto.
    rewrite (scale_shift cb sh) by auto. rewrite (shift_unshift w sh bk) by auto.
    rewrite scale_scale. replace (cb * cf')%V with (v1 : A).
    2:{ unfold cb, cf'. symmetry. apply sc_mul. rewrite Qcmult_comm. apply prod_inv. intros i Hi. apply pix_neq0; auto. }
    rewrite scale_1. unfold D2.
    rewrite (scale_unshift cf sh) by auto. rewrite (unshift_shift w sh fw) by auto.
    rewrite (scale_ifftn w cf sh) by auto. rewrite (ifftn_fftn w sh fw) by auto.
    rewrite scale_scale. replace (cf * cb')%V with (v1 : A).
    2:{ unfold cf, cb'. symmetry. apply sc_mul. apply prod_inv. intros i Hi. apply pix_neq0; auto. }
    apply scale_1. }
  rewrite Ef, Ed. rewrite ft_apply_eq. rewrite <- E. clear. destruct g; reflexivity.
Qed.

Lemma axes_valid_nat (g : grid) axn : (forall a, In a axn -> (a < g_ndim g)%nat) -> axes_valid g (map Z.of_nat axn) = true.
Proof.
  intros H. unfold axes_valid. apply forallb_forall. intros z Hz. apply in_map_iff in Hz as (a & <- & Ha).
  specialize (H a Ha). apply andb_true_iff. split; lia.
Qed.
Lemma axes_arg_ok (g : grid) ax axn : axes_named g ax axn -> (forall a, In a axn -> (a < g_ndim g)%nat) ->
  axes_arg g ax = Ok axn.
Proof.
  intros N H. destruct ax as [l|]; simpl in *; [|congruence]. subst l. rewrite axes_valid_nat by auto. cbn [check bind].
  rewrite map_to_of_nat. reflexivity.
Qed.

Lemma c14_twice (g : grid) d ax axn nz : consistent g -> roots_ok g -> g_data g = Some d -> g_ispow g = false ->
  axes_named g ax axn -> NoDup axn -> (forall a, In a axn -> (a < g_ndim g)%nat) ->
  exists g', fourier_transform w g ax nz = (g', Ok tt) /\ fourier_transform w g' ax nz = (g, Ok tt) /\
    consistent g' /\ same_space_but_flags g g' /\
    (forall i, (i < g_ndim g)%nat ->
       nth i (g_fsp g') false = if mem_nat i axn then negb (nth i (g_fsp g) false) else nth i (g_fsp g) false).
Proof.
  intros C R E P N Nd Ha. exists (ft_apply w g d axn nz). split; [|split; [|split; [|split]]].
  - unfold fourier_transform. rewrite E, P, (axes_arg_ok g ax axn) by auto. reflexivity.
  - unfold fourier_transform. rewrite ft_apply_eq at 1. cbn [with_data g_data]. rewrite ft_apply_eq at 1. cbn [with_data with_fsp g_ispow].
    rewrite P. rewrite (axes_arg_ok _ ax axn) by (rewrite ft_apply_eq; auto).
    f_equal. apply ft_twice; auto.
  - apply ft_consistent; auto.
  - rewrite ft_apply_eq. repeat split.
  - intros i Hi. rewrite ft_apply_eq. cbn [with_data with_fsp g_fsp]. apply (ft_flags (g_fsp g) axn i). rewrite (co_fs _ C). auto.
Qed.
End FT.

(** 4 x 3 cells of size 1 x 2, two properties with distinct entries, axis 0 in Fourier space *)
Definition exA_new (A : Alg) : exc (grid A) := grid_new A 2 (fl [0; 1]%Z) (fl [4; 6]%Z) (fl [1; 2]%Z) None None.
Definition exA (A : Alg) : grid A :=
  with_fsp (with_data (ok_or (exA_new A) (no_grid A))
    (Some (tab [4; 3; 2]%nat (fun ix => emb (nq (nth 0 ix 0 + 10 * nth 1 ix 0 + 100 * nth 2 ix 0)%nat))))) [true; false].
Lemma consistent_with {A} (g : grid A) d f : consistent g -> awf d -> shape d = g_npix g ++ [g_nprop g] ->
  length f = g_ndim g -> consistent (with_fsp (with_data g (Some d)) f).
Proof. intros [] W S L. constructor; auto. gcbn. split; auto. Qed.
Lemma exA_consistent A : consistent (exA A).
Proof.
  apply consistent_with.
  - eapply grid_new_consistent; [apply ok_or_eq; vm_compute; reflexivity|]. intros x. apply fl_pos. reflexivity.
  - apply tab_wf.
  - vm_compute; reflexivity.
  - vm_compute; reflexivity.
Qed.
Lemma exA_ndim A : g_ndim (exA A) = 2%nat. Proof. vm_compute. reflexivity. Qed.
Lemma consistent_with2 {A} (g : grid A) f : consistent g -> length f = g_ndim g -> consistent (with_fsp g f).
Proof. intros [] L. constructor; auto. Qed.
