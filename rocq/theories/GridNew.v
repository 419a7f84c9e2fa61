(** Construction of grids (C01, C02, C25). *)
From Verif Require Import Util Rat Val Arr GridModel GridSpec GridAxis.
Open Scope Qc_scope.

Lemma bcast_side_ok d s s' : bcast_side d s = Ok s' -> flen s' = d /\
  (forall i, (i < d)%nat -> fnth s' i = if (flen s =? 1)%nat then fnth s 0 else fnth s i).
Proof.
  unfold bcast_side. destruct (Nat.eqb_spec (flen s) 1) as [H1|H1].
  - unfold flen at 1; simpl. rewrite repeat_length, Nat.eqb_refl. simpl. intros E; inversion E; subst.
    unfold flen, fnth; simpl. rewrite repeat_length. split; auto.
    intros i Hi. rewrite nth_indep with (d' := nth 0 (fv s) 0) by (rewrite repeat_length; auto).
    apply nth_repeat.
  - destruct (Nat.eqb_spec (flen s) d) as [H2|H2]; simpl; [|discriminate].
    intros E; inversion E; subst. auto.
Qed.

Lemma bcast_pix_ok d p p' : bcast_pix d p = Ok p' -> flen p' = d /\
  (forall i, (i < d)%nat -> fnth p' i = if (flen p =? 1)%nat then fnth p 0 else fnth p i).
Proof.
  unfold bcast_pix. destruct (Nat.eqb_spec (flen p) d) as [H1|H1].
  - intros E; inversion E; subst p'. split; auto. intros i Hi.
    destruct (Nat.eqb_spec (flen p) 1) as [H2|H2]; auto. assert (i = 0%nat) by lia. subst; auto.
  - destruct (Nat.eqb_spec (flen p) 1) as [H2|H2]; [|discriminate].
    intros E; inversion E; subst p'. unfold flen, fnth; simpl. rewrite repeat_length. split; auto.
    intros i Hi. rewrite nth_indep with (d' := nth 0 (fv p) 0) by (rewrite repeat_length; auto).
    apply nth_repeat.
Qed.

Lemma bcast_units_ok d u l : bcast_units d u = Ok l -> length l = d.
Proof.
  unfold bcast_units. destruct u as [l0|].
  - destruct (Nat.eqb_spec (length l0) 1).
    + rewrite repeat_length, Nat.eqb_refl. simpl. intros E; inversion E; subst. apply repeat_length.
    + destruct (Nat.eqb_spec (length l0) d); simpl; [|discriminate]. intros E; inversion E; subst; auto.
  - intros E; inversion E; subst. apply repeat_length.
Qed.

Lemma nth_error_zip4 n p s c i :
  nth_error (zip4 n p s c) i =
  match nth_error n i, nth_error p i, nth_error s i, nth_error c i with
  | Some a, Some b, Some x, Some y => Some (a, b, x, y)
  | _, _, _, _ => None
  end.
Proof.
  unfold zip4. rewrite !nth_error_combine.
  destruct (nth_error n i), (nth_error p i), (nth_error s i), (nth_error c i); reflexivity.
Qed.

Lemma nth_nth_error {X} (l : list X) i d : (i < length l)%nat -> nth_error l i = Some (nth i l d).
Proof. intros H. apply nth_error_nth'; auto. Qed.

Lemma fourier_axis_zero_pix n : npix_z n 0 = (-1)%Z. Proof. reflexivity. Qed.

(** what a successful construction produced, axis by axis *)
Lemma grid_new_inv A np center side pix au gu (g : grid A) :
  grid_new A np center side pix au gu = Ok g ->
  let d := flen center in
  exists s p,
    bcast_side d side = Ok s /\ bcast_pix d pix = Ok p /\
    g_nprop g = np /\ g_nobj g = 0%nat /\ g_ndim g = d /\ g_center g = center /\ g_pix g = p /\
    flen (g_side g) = d /\ flen p = d /\ length (g_npix g) = d /\
    bcast_units d au = Ok (g_axu g) /\ g_faxu g = map hat_inv (g_axu g) /\ bcast_units np gu = Ok (g_gru g) /\
    length (g_axes g) = d /\ length (g_centers g) = d /\ length (g_faxes g) = d /\ length (g_fcenters g) = d /\
    g_fsp g = repeat false d /\ g_ispow g = false /\ g_data g = None /\
    (forall i, (i < d)%nat ->
       let n := npix_z (fnth s i) (fnth p i) in
       fnth p i <> 0 /\
       fourier_axis n (fnth p i) = Ok (nth i (g_faxes g) [], nth i (g_fcenters g) []) /\
       fnth (g_side g) i = zq n * fnth p i /\
       nth i (g_npix g) 0%nat = Z.to_nat n /\
       nth i (g_axes g) [] = axis_of (Z.to_nat n) (fnth p i) (fnth (g_side g) i) (fnth center i) /\
       nth i (g_centers g) [] = centers_of (nth i (g_axes g) []) (fnth p i)) /\
    (fint (g_side g) = true -> g_side g = s /\ fint s = true).
Proof.
  intros H d. unfold grid_new in H. fold d in H.
  destruct (bcast_side d side) as [s|] eqn:Es; cbn [bind] in H; [|discriminate].
  destruct (bcast_pix d pix) as [p|] eqn:Ep; cbn [bind] in H; [|discriminate].
  destruct (bcast_units d au) as [aul|] eqn:Ea; cbn [bind] in H; [|discriminate].
  destruct (bcast_units np gu) as [gul|] eqn:Eg; cbn [bind] in H; [|discriminate].
  set (sp := combine (fv s) (fv p)) in *.
  set (ns := map (fun sp => npix_z (fst sp) (snd sp)) sp) in *.
  set (s2 := if existsb npix_mismatch sp then mkF false (map (fun pn => fst pn * zq (snd pn)) (combine (fv p) ns)) else s) in *.
  destruct (mapM _ (zip4 ns (fv p) (fv s2) (fv center))) as [bs|] eqn:Eb; cbn [bind] in H; [|discriminate].
  pose proof (bcast_side_ok _ _ _ Es) as [Ls _]. pose proof (bcast_pix_ok _ _ _ Ep) as [Lp _].
  unfold flen in Ls, Lp.
  assert (Lsp : length sp = d) by (unfold sp; rewrite combine_length; lia).
  assert (Lns : length ns = d) by (unfold ns; rewrite map_length; auto).
  assert (Ls2 : length (fv s2) = d).
  { unfold s2. destruct (existsb _ _); auto. simpl. rewrite map_length, combine_length. lia. }
  assert (Lc : length (fv center) = d) by reflexivity.
  assert (Lz : length (zip4 ns (fv p) (fv s2) (fv center)) = d)
    by (unfold zip4; rewrite !combine_length; lia).
  pose proof (mapM_ok_length _ _ _ Eb) as Lb. rewrite Lz in Lb.
  inversion H; subst g; clear H; simpl.
  exists s, p.
  repeat match goal with |- _ /\ _ => split end; auto; try (rewrite map_length; auto; fail).
  2:{ unfold s2. destruct (existsb _ _); simpl; [discriminate|auto]. }
  intros i Hi.
  assert (Hs : nth_error (fv s) i = Some (fnth s i)) by (apply nth_nth_error; lia).
  assert (Hp : nth_error (fv p) i = Some (fnth p i)) by (apply nth_nth_error; lia).
  assert (Hsp : nth_error sp i = Some (fnth s i, fnth p i))
    by (unfold sp; rewrite nth_error_combine, Hs, Hp; reflexivity).
  assert (Hn : nth_error ns i = Some (npix_z (fnth s i) (fnth p i)))
    by (unfold ns; rewrite nth_error_map_some, Hsp; reflexivity).
  assert (Hs2 : nth_error (fv s2) i = Some (fnth s2 i)) by (apply nth_nth_error; lia).
  assert (Hc : nth_error (fv center) i = Some (fnth center i)) by (apply nth_nth_error; lia).
  destruct (mapM_ok_nth _ _ _ i (npix_z (fnth s i) (fnth p i), fnth p i, fnth s2 i, fnth center i) Eb)
    as ([[[a c] fe] fc] & Hbi & Hbx).
  { rewrite nth_error_zip4, Hn, Hp, Hs2, Hc. reflexivity. }
  unfold build_axis in Hbx.
  destruct (fourier_axis (npix_z (fnth s i) (fnth p i)) (fnth p i)) as [[fe' fc']|] eqn:Ef; cbn [bind] in Hbx; [|discriminate].
  inversion Hbx; subst a c fe' fc'; clear Hbx.
  assert (Hp0 : fnth p i <> 0).
  { intros E. rewrite E in Ef. rewrite fourier_axis_zero_pix in Ef. discriminate Ef. }
  split; [exact Hp0|].
  assert (M : forall {X} (f : _ -> X) dflt, nth i (map f bs) dflt = f (axis_of (Z.to_nat (npix_z (fnth s i) (fnth p i))) (fnth p i) (fnth s2 i) (fnth center i),
     centers_of (axis_of (Z.to_nat (npix_z (fnth s i) (fnth p i))) (fnth p i) (fnth s2 i) (fnth center i)) (fnth p i), fe, fc)).
  { intros X f dflt. apply nth_error_nth. rewrite nth_error_map_some, Hbi. reflexivity. }
  rewrite !M. split; [auto|]. split; [|split; [|auto]].
  - unfold s2. destruct (existsb npix_mismatch sp) eqn:Em.
    + unfold fnth; simpl. apply nth_error_nth. rewrite nth_error_map_some, nth_error_combine, Hp, Hn. cbn [option_map fst snd]. f_equal. apply Qcmult_comm.
    + assert (Hm : npix_mismatch (fnth s i, fnth p i) = false).
      { destruct (npix_mismatch (fnth s i, fnth p i)) eqn:X; auto.
        assert (existsb npix_mismatch sp = true) as Y; [|congruence].
        apply existsb_exists. eexists; split; [eapply nth_error_In; eauto|auto]. }
      unfold npix_mismatch in Hm. cbn [fst snd] in Hm. apply negb_false_iff, qeqb_eq in Hm.
      rewrite <- Hm. field. auto.
  - apply nth_error_nth. rewrite nth_error_map_some, Hn. reflexivity.
Qed.

Lemma grid_new_consistent A np center side pix au gu (g : grid A) :
  grid_new A np center side pix au gu = Ok g ->
  (forall x, In x (fv pix) -> 0 < x) -> consistent g.
Proof.
  intros H Hpos. apply grid_new_inv in H.
  destruct H as (s & p & Es & Ep & Hnp & Hno & Hd & Hc & Hpx & Lsd & Lp & Ln & Hau & Hfu & Hgu & L1 & L2 & L3 & L4 & Hf & Hw & Hdat & Hax & _).
  assert (Pp : forall i, (i < flen center)%nat -> 0 < fnth p i).
  { intros i Hi. destruct (bcast_pix_ok _ _ _ Ep) as [_ Q]. rewrite Q by auto.
    apply Hpos. destruct (Nat.eqb_spec (flen pix) 1) as [E|E].
    - unfold fnth. apply nth_In. unfold flen in E. lia.
    - unfold fnth. apply nth_In. unfold bcast_pix in Ep.
      destruct (Nat.eqb_spec (flen pix) (flen center)) as [E2|E2].
      + unfold flen in *. lia.
      + destruct (Nat.eqb_spec (flen pix) 1); [congruence|discriminate]. }
  constructor; rewrite ?Hd, ?Hc, ?Hpx; auto.
  - rewrite Hf. apply repeat_length.
  - eapply bcast_units_ok; eauto.
  - intros i Hi. specialize (Hax i Hi). cbv zeta in Hax. destruct Hax as (Hp0 & Hf4 & Hsd & Hn & He & Hm).
    rewrite Hm, He, Hn. apply axis_ok_built; auto.
  - rewrite Hdat. exact I.
Qed.

(** exact success condition for positive pixel sizes, C01 *)
Definition lens_ok (d : nat) (n : nat) : Prop := n = d \/ n = 1%nat.

Lemma bcast_side_iff d s : (exists s', bcast_side d s = Ok s') <-> lens_ok d (flen s).
Proof.
  unfold bcast_side, lens_ok. destruct (Nat.eqb_spec (flen s) 1) as [H1|H1].
  - unfold flen at 1; simpl. rewrite repeat_length, Nat.eqb_refl. simpl. split; eauto.
  - destruct (Nat.eqb_spec (flen s) d) as [H2|H2]; simpl; split; eauto.
    + intros [? ?]; discriminate.
    + tauto.
Qed.
Lemma bcast_pix_iff d s : (exists s', bcast_pix d s = Ok s') <-> lens_ok d (flen s).
Proof.
  unfold bcast_pix, lens_ok. destruct (Nat.eqb_spec (flen s) d) as [H1|H1].
  - split; eauto.
  - destruct (Nat.eqb_spec (flen s) 1) as [H2|H2]; simpl; split; eauto.
    + intros [? ?]; discriminate.
    + tauto.
Qed.
Definition units_ok (d : nat) (u : option units) : Prop :=
  match u with None => True | Some l => lens_ok d (length l) end.
Lemma bcast_units_iff d u : (exists l, bcast_units d u = Ok l) <-> units_ok d u.
Proof.
  unfold bcast_units, units_ok, lens_ok. destruct u as [l0|]; [|split; eauto].
  destruct (Nat.eqb_spec (length l0) 1).
  - rewrite repeat_length, Nat.eqb_refl. simpl. split; eauto.
  - destruct (Nat.eqb_spec (length l0) d); simpl; split; eauto.
    + intros [? ?]; discriminate.
    + tauto.
Qed.

(** per-axis value of a broadcast argument *)
Definition bval (a : farr) (i : nat) : Qc := if (flen a =? 1)%nat then fnth a 0 else fnth a i.

Lemma grid_new_success A np center side pix au gu :
  (forall x, In x (fv pix) -> 0 < x) ->
  (exists g, grid_new A np center side pix au gu = Ok g) <->
  lens_ok (flen center) (flen side) /\ lens_ok (flen center) (flen pix) /\
  units_ok (flen center) au /\ units_ok np gu /\
  (forall i, (i < flen center)%nat -> frac 21 20 * bval pix i < bval side i).
Proof.
  intros Hpos. split.
  - intros [g H]. pose proof (grid_new_consistent _ _ _ _ _ _ _ _ H Hpos) as C.
    apply grid_new_inv in H.
    destruct H as (s & p & Es & Ep & Hnp & Hno & Hd & Hc & Hpx & Lsd & Lp & Ln & Hau & Hfu & Hgu & L1 & L2 & L3 & L4 & Hf & Hw & Hdat & Hax & _).
    split; [apply bcast_side_iff; eauto|]. split; [apply bcast_pix_iff; eauto|].
    split; [apply bcast_units_iff; eauto|]. split; [apply bcast_units_iff; eauto|].
    intros i Hi. destruct (bcast_side_ok _ _ _ Es) as [_ Qs]. destruct (bcast_pix_ok _ _ _ Ep) as [_ Qp].
    unfold bval. rewrite <- Qs, <- Qp by auto. specialize (Hax i Hi). cbv zeta in Hax. destruct Hax as (Hp0 & Hf4 & _).
    apply npix_z_ge2.
    + pose proof (co_axis _ C i) as X. rewrite Hd in X. specialize (X Hi).
      apply ao_p in X. rewrite Hpx in X. exact X.
    + apply fourier_axis_inv in Hf4. tauto.
  - intros (H1 & H2 & H3 & H4 & H5). apply bcast_side_iff in H1 as [s Es]. apply bcast_pix_iff in H2 as [p Ep].
    apply bcast_units_iff in H3 as [aul Ea]. apply bcast_units_iff in H4 as [gul Eg].
    unfold grid_new. rewrite Es, Ep, Ea, Eg. cbn [bind].
    set (sp := combine (fv s) (fv p)).
    set (ns := map (fun sp => npix_z (fst sp) (snd sp)) sp).
    set (s2 := if existsb npix_mismatch sp then mkF false (map (fun pn => fst pn * zq (snd pn)) (combine (fv p) ns)) else s).
    match goal with |- exists g, (bind ?m _) = _ => assert (exists bs, m = Ok bs) as [bs Eb] end.
    2:{ rewrite Eb. cbn [bind]. eauto. }
    apply mapM_all_ok. intros [[[n px] sd] c] Hin. apply In_nth_error in Hin as [i Hi].
    rewrite nth_error_zip4 in Hi.
    destruct (nth_error ns i) as [n'|] eqn:En; [|discriminate].
    destruct (nth_error (fv p) i) as [p'|] eqn:Epi; [|discriminate].
    destruct (nth_error (fv s2) i); [|discriminate]. destruct (nth_error (fv center) i) eqn:Eci; [|discriminate].
    inversion Hi; subst n' p' q q0; clear Hi.
    unfold ns in En. rewrite nth_error_map_some in En. unfold sp in En. rewrite nth_error_combine, Epi in En.
    destruct (nth_error (fv s) i) as [si|] eqn:Esi; [|discriminate]. simpl in En. inversion En; subst n; clear En.
    assert (Hi : (i < flen center)%nat) by (apply nth_error_Some_lt in Eci; exact Eci).
    destruct (bcast_side_ok _ _ _ Es) as [_ Qs]. destruct (bcast_pix_ok _ _ _ Ep) as [_ Qp].
    specialize (Qs i Hi). specialize (Qp i Hi). specialize (H5 i Hi). unfold bval in H5. rewrite <- Qs, <- Qp in H5.
    unfold fnth in H5. rewrite (nth_error_nth _ _ _ Esi), (nth_error_nth _ _ _ Epi) in H5.
    assert (Hp : 0 < px).
    { rewrite (nth_error_nth _ _ _ Epi : fnth p i = px) in Qp. rewrite Qp. apply Hpos.
      destruct (Nat.eqb_spec (flen pix) 1) as [E|E].
      + unfold fnth. apply nth_In. unfold flen in E. lia.
      + unfold fnth. apply nth_In. unfold bcast_pix in Ep.
        destruct (Nat.eqb_spec (flen pix) (flen center)) as [E2|E2].
        * unfold flen in *. lia.
        * destruct (Nat.eqb_spec (flen pix) 1); [congruence|discriminate]. }
    apply npix_z_ge2 in H5; auto. unfold build_axis.
    destruct (fourier_axis_ok _ px H5) as (fe & Ef & _). rewrite Ef. cbn [bind]. eauto.
Qed.

(** the side length of the constructed grid, C02 *)
Lemma grid_new_side A np center side pix au gu (g : grid A) i :
  grid_new A np center side pix au gu = Ok g -> (i < flen center)%nat ->
  0 < bval pix i ->
  fnth (g_pix g) i = bval pix i /\
  bval side i - bval pix i * frac 1 20 <= fnth (g_side g) i /\
  fnth (g_side g) i < bval side i + bval pix i /\
  (forall k, bval side i = zq k * bval pix i ->
     fnth (g_side g) i = bval side i /\ nth i (g_npix g) 0%nat = Z.to_nat k).
Proof.
  intros H Hi Hp. apply grid_new_inv in H.
  destruct H as (s & p & Es & Ep & Hnp & Hno & Hd & Hc & Hpx & Lsd & Lp & Ln & Hau & Hfu & Hgu & L1 & L2 & L3 & L4 & Hf & Hw & Hdat & Hax & _).
  destruct (bcast_side_ok _ _ _ Es) as [_ Qs]. destruct (bcast_pix_ok _ _ _ Ep) as [_ Qp].
  specialize (Qs i Hi). specialize (Qp i Hi). specialize (Hax i Hi). cbv zeta in Hax. destruct Hax as (Hp0 & _ & Hsd & Hn & _).
  unfold bval in *. rewrite <- Qs, <- Qp in *. rewrite Hpx, Hsd, Hn. split; auto.
  pose proof (npix_z_bound (fnth s i) (fnth p i) Hp) as [B1 B2]. split; auto. split; auto.
  intros k E. rewrite E, npix_z_exact by auto. auto.
Qed.
