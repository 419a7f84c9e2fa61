(** Normalisation of PSFs: lemmas for property C22. *)
From Coq Require Import Reals Qreals.
From Verif Require Import Util Rat Val Arr GridModel GridSpec GridModel2 GridSpec2 GridAxis GridNew GridCat GridFT Complex PsfModel.
From Coq Require Import Lra Psatz.

Lemma fwhm_sigma_pos : (0 < fwhm_sigma)%R.
Proof.
  unfold fwhm_sigma. apply Rmult_lt_0_compat; [lra|]. apply sqrt_lt_R0. apply Rmult_lt_0_compat; [lra|].
  rewrite <- ln_1. apply ln_increasing; lra.
Qed.
Lemma qr_0 : qr 0 = 0%R.
Proof. unfold qr, Q2R. simpl. lra. Qed.
Lemma qr_pos q : (0 < q)%Qc -> (0 < qr q)%R.
Proof. intros H. rewrite <- qr_0. unfold qr. apply Qlt_Rlt. exact H. Qed.
Lemma qr_inj a b : qr a = qr b -> a = b.
Proof. intros H. apply Qc_is_canon. apply eqR_Qeq. exact H. Qed.

Lemma gauss_pos sig x : (0 < gauss sig x)%R.
Proof. apply exp_pos. Qed.
Lemma gauss_0 sig : gauss sig 0 = 1%R.
Proof. unfold gauss. rewrite qr_0. replace (- (0 * 0) / (2 * (sig * sig)))%R with 0%R by (unfold Rdiv; ring). apply exp_0. Qed.
Lemma gauss_lt sig x : (0 < sig)%R -> x <> 0%Qc -> (gauss sig x < 1)%R.
Proof.
  intros H N. unfold gauss. rewrite <- exp_0. apply exp_increasing.
  assert (Nx : qr x <> 0%R) by (rewrite <- qr_0; intros Q; apply N, qr_inj; auto).
  assert (P : (0 < qr x * qr x)%R) by (destruct (Rtotal_order (qr x) 0) as [L|[L|L]]; [nra|tauto|nra]).
  assert (Q : (0 < 2 * (sig * sig))%R) by nra.
  assert (T : (0 < qr x * qr x / (2 * (sig * sig)))%R) by (apply Rdiv_lt_0_compat; auto). unfold Rdiv in *. lra.
Qed.
Lemma gauss_le sig x : (0 < sig)%R -> (gauss sig x <= 1)%R.
Proof.
  intros H. destruct (Qc_eq_dec x 0) as [->|N]; [rewrite gauss_0; lra|]. left. apply gauss_lt; auto.
Qed.

Lemma rprod_pos l : Forall (fun x => (0 < x)%R) l -> (0 < rprod l)%R.
Proof. induction 1; simpl; [lra|]. apply Rmult_lt_0_compat; auto. Qed.
Lemma rprod_le1 l : Forall (fun x => (0 < x <= 1)%R) l -> (rprod l <= 1)%R.
Proof.
  induction 1 as [|x l [H1 H2] F IH]; simpl; [lra|].
  assert (0 < rprod l)%R by (apply rprod_pos; eapply Forall_impl; [|exact F]; simpl; intros; lra). nra.
Qed.
Lemma rprod_eq1 l : Forall (fun x => (0 < x <= 1)%R) l -> rprod l = 1%R -> Forall (fun x => x = 1%R) l.
Proof.
  induction 1 as [|x l [H1 H2] F IH]; simpl; intros E; constructor.
  - pose proof (rprod_le1 l F). assert (0 < rprod l)%R by (apply rprod_pos; eapply Forall_impl; [|exact F]; simpl; intros; lra). nra.
  - apply IH. pose proof (rprod_le1 l F). assert (0 < rprod l)%R by (apply rprod_pos; eapply Forall_impl; [|exact F]; simpl; intros; lra). nra.
Qed.
Lemma rprod_ones l : Forall (fun x => x = 1%R) l -> rprod l = 1%R.
Proof. induction 1; simpl; auto. rewrite H, IHForall. ring. Qed.

Lemma profile_pos d sig cens jx : (0 < profile d sig cens jx)%R.
Proof. apply rprod_pos. apply Forall_forall. intros x Hx. apply in_map_iff in Hx as (i & <- & _). apply gauss_pos. Qed.
Lemma profile_le d sig cens jx : (forall i, (i < d)%nat -> (0 < sig i)%R) -> (profile d sig cens jx <= 1)%R.
Proof.
  intros H. apply rprod_le1. apply Forall_forall. intros x Hx. apply in_map_iff in Hx as (i & <- & Hi). apply in_seq in Hi.
  split; [apply gauss_pos|apply gauss_le, H; lia].
Qed.
Lemma profile_one d sig cens jx : (forall i, (i < d)%nat -> (0 < sig i)%R) ->
  (profile d sig cens jx = 1%R <-> forall i, (i < d)%nat -> nth (nth i jx 0%nat) (nth i cens []) 0%Qc = 0%Qc).
Proof.
  intros H. split.
  - intros E i Hi. apply rprod_eq1 in E.
    + rewrite Forall_forall in E. specialize (E (gauss (sig i) (nth (nth i jx 0%nat) (nth i cens []) 0%Qc))).
      destruct (Qc_eq_dec (nth (nth i jx 0%nat) (nth i cens []) 0%Qc) 0) as [|N]; auto. exfalso.
      pose proof (gauss_lt (sig i) _ (H i Hi) N). rewrite E in H0; [lra|]. apply in_map_iff. exists i. split; auto. apply in_seq. lia.
    + apply Forall_forall. intros x Hx. apply in_map_iff in Hx as (j & <- & Hj). apply in_seq in Hj.
      split; [apply gauss_pos|apply gauss_le, H; lia].
  - intros E. apply rprod_ones. apply Forall_forall. intros x Hx. apply in_map_iff in Hx as (i & <- & Hi). apply in_seq in Hi.
    rewrite E by lia. apply gauss_0.
Qed.

Lemma vsum_pos {X} (f : X -> R) l : l <> [] -> (forall x, In x l -> (0 < f x)%R) -> (0 < vsum (A:=RAlg) (map f l))%R.
Proof.
  intros N H. destruct l as [|x l]; [tauto|]. clear N. revert x H. induction l as [|y l IH]; intros x H.
  - unfold vsum. simpl. specialize (H x (or_introl eq_refl)). lra.
  - change (0 < f x + vsum (A:=RAlg) (map f (y :: l)))%R.
    assert (0 < vsum (A:=RAlg) (map f (y :: l)))%R by (apply IH; intros; apply H; right; auto).
    specialize (H x (or_introl eq_refl)). lra.
Qed.
Lemma vsum_div (l : list R) t : vsum (A:=RAlg) (map (fun x => (x / t)%R) l) = (vsum (A:=RAlg) l / t)%R.
Proof.
  induction l as [|x l IH]; [unfold vsum; simpl; unfold Rdiv; ring|]. change ((x / t + vsum (A:=RAlg) (map (fun x => (x / t)%R) l))%R = ((x + vsum (A:=RAlg) l) / t)%R). rewrite IH. unfold Rdiv. ring.
Qed.

Lemma idxs_nonempty s : Forall (fun n => (0 < n)%nat) s -> idxs s <> [].
Proof.
  intros F E. assert (H : In (repeat 0%nat (length s)) (idxs s)).
  { apply in_idxs. clear E. induction F; simpl; auto. rewrite IHF, andb_true_r. apply Nat.ltb_lt; auto. }
  rewrite E in H. destruct H.
Qed.

(** a centre at zero sits in the middle of an odd number of cells *)
Lemma zero_centre n p s edges cens fe fc : axis_ok n 0 s p edges cens fe fc ->
  forall k, (k < n)%nat -> (nth k cens 0%Qc = 0%Qc <-> n = (2 * k + 1)%nat).
Proof.
  intros O k Hk. pose proof (ao_cen _ _ _ _ _ _ _ _ O k Hk) as E. apply nth_error_nth with (d := 0%Qc) in E. rewrite E.
  rewrite (ao_s _ _ _ _ _ _ _ _ O). pose proof (ao_p _ _ _ _ _ _ _ _ O) as P.
  assert (X : (0 - nq n * p / zq 2 + (nq k + frac 1 2) * p = p * (nq (2 * k + 1) - nq n) / zq 2)%Qc).
  { replace (nq (2 * k + 1)) with (nq k + nq k + 1)%Qc.
    - replace (frac 1 2) with (1 / zq 2)%Qc by reflexivity. replace (zq 2) with (1 + 1)%Qc by reflexivity. field. discriminate.
    - unfold nq. replace (Z.of_nat (2 * k + 1)) with (Z.of_nat k + Z.of_nat k + 1)%Z by lia. rewrite !zq_add. reflexivity. }
  rewrite X. split.
  - intros Z. assert (Y : (nq (2 * k + 1) - nq n = 0)%Qc).
    { destruct (Qc_eq_dec (nq (2 * k + 1) - nq n) 0) as [|N]; auto. exfalso.
      apply Qcmult_integral in Z as [Z|Z]; [|discriminate]. apply Qcmult_integral in Z as [Z|Z]; [|tauto].
      rewrite Z in P. discriminate. }
    assert (Y' : nq n = nq (2 * k + 1)) by (generalize dependent (nq (2 * k + 1)); generalize (nq n); intros; qlra).
    apply nq_inj in Y'. exact Y'.
  - intros ->. replace (nq (2 * k + 1) - nq (2 * k + 1))%Qc with 0%Qc by ring. unfold Qcdiv. ring.
Qed.

(** ** PSF *)
Definition positive (l : list Qc) : Prop := forall x, In x l -> (0 < x)%Qc.

Lemma bcast_ones_pos d s p : bcast_ones d s = Ok p -> positive (fv s) -> positive (fv p) /\ flen p = d.
Proof.
  unfold bcast_ones. intros H P. destruct (Nat.eqb_spec (flen s) 1) as [E|E].
  - injection H as <-. split; [|unfold flen; simpl; apply repeat_length]. intros x Hx. simpl in Hx. apply repeat_spec in Hx. subst.
    apply P. unfold fnth, flen in *. apply nth_In. lia.
  - destruct (Nat.eqb_spec (flen s) d); [|discriminate]. injection H as <-. auto.
Qed.
Lemma bcast_ones_len d s p : bcast_ones d s = Ok p -> flen p = d.
Proof.
  unfold bcast_ones. intros H. destruct (Nat.eqb_spec (flen s) 1) as [E|E].
  - injection H as <-. unfold flen; simpl; apply repeat_length.
  - destruct (Nat.eqb_spec (flen s) d); [|discriminate]. injection H as <-. auto.
Qed.
Lemma fnth_pos a i : positive (fv a) -> (i < flen a)%nat -> (0 < fnth a i)%Qc.
Proof. intros P H. apply P. apply nth_In. exact H. Qed.

Lemma consistent_data {A} (g : grid A) d : consistent g -> awf d -> shape d = g_npix g ++ [g_nprop g] -> consistent (with_data g (Some d)).
Proof. intros [] W S. constructor; auto. split; auto. Qed.
Lemma npix_all (A : Alg) (g : grid A) : consistent g -> Forall (fun n => (0 < n)%nat) (g_npix g).
Proof.
  intros C. apply Forall_forall. intros n Hn. apply In_nth with (d := 0%nat) in Hn as (i & Hi & <-). rewrite (co_n _ C) in Hi.
  pose proof (ao_n _ _ _ _ _ _ _ _ (co_axis _ C i Hi)). lia.
Qed.
Lemma idxs_snoc1 s : idxs (s ++ [1%nat]) = map (fun ix => ix ++ [0%nat]) (idxs s).
Proof. rewrite idxs_app. generalize (idxs s). induction l as [|x l IH]; [reflexivity|]. simpl. f_equal; auto. Qed.

Lemma psf_inv fwhm pix side axu norm g : psf fwhm pix side axu norm = Ok g -> positive (fv pix) -> norm <> NOther /\ exists g0 : grid RAlg,
  consistent g0 /\ consistent g /\ g_ndim g = flen fwhm /\ g_nprop g = 1%nat /\ g_npix g = g_npix g0 /\ g_centers g = g_centers g0 /\
  g_center g = mkF false (repeat 0%Qc (flen fwhm)) /\
  let raw jx := profile (flen fwhm) (fun i => (qr (fnth fwhm i) / fwhm_sigma)%R) (g_centers g) jx in
  forall jx, inb (g_npix g) jx = true ->
    (norm = NPeak -> cell g jx 0 = raw jx) /\
    (norm = NArea -> cell g jx 0 = (raw jx / vsum (A:=RAlg) (map raw (idxs (g_npix g))))%R).
Proof.
  intros H P. assert (Hn : norm <> NOther) by (intros ->; discriminate). split; auto. unfold psf in H.
  assert (H' : (do s <- match side with
              | Some s => bcast_ones (flen fwhm) s
              | None => Ok (mkF (fint fwhm) (map (fun x => zq 6 * x)%Qc (fv fwhm)))
              end ;;
      do p <- bcast_ones (flen fwhm) pix ;;
      do g <- grid_new RAlg 1 (mkF false (repeat 0%Qc (flen fwhm))) s p axu None ;;
      let sig i := (qr (fnth fwhm i) / fwhm_sigma)%R in
      let raw := tab (g_npix g ++ [1%nat]) (fun ix => profile (flen fwhm) sig (g_centers g) (removelast ix)) in
      let tot := asum (A:=RAlg) raw in
      let data := match norm with NArea => amap (fun x => (x / tot)%R) raw | _ => raw end in
      Ok (with_data g (Some (data : arr RAlg)))) = Ok g) by (destruct norm; auto; tauto).
  clear H. destruct (match side with Some s => _ | None => _ end) as [s|]; cbn [bind] in H'; [|discriminate].
  destruct (bcast_ones (flen fwhm) pix) as [p|] eqn:Ep; cbn [bind] in H'; [|discriminate].
  destruct (bcast_ones_pos _ _ _ Ep P) as [Pp Lp].
  destruct (grid_new _ _ _ _ _ _ _) as [g0|] eqn:Eg; cbn [bind] in H'; [|discriminate].
  pose proof (grid_new_consistent _ _ _ _ _ _ _ _ Eg Pp) as C0.
  pose proof (grid_new_inv _ _ _ _ _ _ _ _ Eg) as I. cbv zeta in I.
  destruct I as (s' & p' & _ & _ & In & _ & Ind & Ic & _).
  assert (Ec : flen (mkF false (repeat 0%Qc (flen fwhm))) = flen fwhm) by (unfold flen at 1; simpl; apply repeat_length).
  rewrite Ec in Ind. cbv zeta in H'. injection H' as <-. exists g0. split; auto.
  set (sig := fun i => (qr (fnth fwhm i) / fwhm_sigma)%R). set (raw := tab _ _). set (tot := asum _).
  set (dd := match norm with NArea => _ | _ => _ end).
  assert (Wd : awf dd /\ shape dd = g_npix g0 ++ [g_nprop g0]).
  { rewrite In. unfold dd. destruct norm; split; try apply tab_wf; try reflexivity. apply amap_wf, tab_wf. }
  split; [exact (consistent_data (A:=RAlg) g0 dd C0 (proj1 Wd) (proj2 Wd))|]. cbn [with_data g_ndim g_nprop g_npix g_centers g_center].
  split; auto. split; auto. split; auto. split; auto. split; auto. set (rawf := fun jx => profile (flen fwhm) sig (g_centers g0) jx). intros jx Hj. fold (rawf jx). unfold cell. cbn [with_data g_data].
  assert (Gr : getd (v0 : RAlg) raw (jx ++ [0%nat]) = rawf jx).
  { unfold raw. rewrite getd_tab by (rewrite inb_snoc by (apply inb_length; auto); rewrite Hj; reflexivity). rewrite removelast_last. reflexivity. }
  split; intros ->; unfold dd.
  - exact Gr.
  - assert (Et : tot = vsum (A:=RAlg) (map rawf (idxs (g_npix g0)))).
    { unfold tot, raw. rewrite (asum_tab (A:=RAlg)), idxs_snoc1, map_map. f_equal. apply map_ext. intros ix. rewrite removelast_last. reflexivity. }
    rewrite <- Et. unfold getd. rewrite get_amap. unfold raw. rewrite get_tab.
    rewrite inb_snoc, Hj by (apply inb_length; auto). cbn [andb Nat.ltb Nat.leb option_map]. rewrite removelast_last. reflexivity.
Qed.

Lemma in_cens {A} (g : grid A) jx i : consistent g -> inb (g_npix g) jx = true -> (i < g_ndim g)%nat -> (nth i jx 0 < nth i (g_npix g) 0)%nat.
Proof.
  intros C H Hi. revert H. pose proof (co_n _ C) as L. rewrite <- L in Hi. clear L. revert jx i Hi. induction (g_npix g) as [|n s IH]; intros [|j jx] i Hi H; simpl in *; try lia; try discriminate.
  apply andb_true_iff in H as [H1 H2]. apply Nat.ltb_lt in H1. destruct i; auto. apply IH; auto. lia.
Qed.

Lemma sum_raw_pos s (raw : list nat -> R) : Forall (fun n => (0 < n)%nat) s -> (forall jx, (0 < raw jx)%R) -> (0 < vsum (A:=RAlg) (map raw (idxs s)))%R.
Proof. intros F P. apply vsum_pos; auto. apply idxs_nonempty; auto. Qed.

Lemma c22_area fwhm pix side axu g : psf fwhm pix side axu NArea = Ok g -> positive (fv pix) ->
  consistent g /\ g_ndim g = flen fwhm /\ g_nprop g = 1%nat /\ g_data g <> None /\
  (forall jx, inb (g_npix g) jx = true -> (0 < (cell g jx 0 : R))%R) /\
  vsum (map (fun jx => cell g jx 0) (idxs (g_npix g))) = (1%R : RAlg).
Proof.
  intros H P. destruct (psf_inv _ _ _ _ _ _ H P) as (_ & g0 & C0 & C & Nd & Np & En & Ece & Ec & V). cbv zeta in V.
  assert (D : g_data g <> None).
  { unfold psf in H. destruct (match side with Some s => _ | None => _ end); [|discriminate]. cbn [bind] in H.
    destruct (bcast_ones _ pix); [|discriminate]. cbn [bind] in H. destruct (grid_new _ _ _ _ _ _ _); [|discriminate]. cbn [bind] in H. cbv zeta in H.
    injection H as <-. discriminate. }
  set (raw := fun jx => profile _ _ _ jx) in V.
  pose proof (sum_raw_pos (g_npix g) raw (npix_all _ _ C) (fun jx => profile_pos _ _ _ jx)) as T.
  set (tot := vsum _) in *.
  do 4 (split; [auto|]). split.
  - intros jx Hj. destruct (V jx Hj) as [_ E]. rewrite E by auto. apply Rdiv_lt_0_compat; auto. apply profile_pos.
  - transitivity (vsum (A:=RAlg) (map (fun x => (x / tot)%R) (map raw (idxs (g_npix g))))).
    + rewrite map_map. f_equal. apply map_ext_in. intros jx Hj. apply in_idxs in Hj. apply V; auto.
    + rewrite vsum_div. fold tot. unfold Rdiv. apply Rinv_r. lra.
Qed.

Lemma all_odd_cell {A} (g : grid A) d : consistent g -> (d <= g_ndim g)%nat -> (forall i, (i < d)%nat -> fnth (g_center g) i = 0%Qc) ->
  forall jx, inb (g_npix g) jx = true ->
  ((forall i, (i < d)%nat -> nth (nth i jx 0%nat) (nth i (g_centers g) []) 0%Qc = 0%Qc) <->
   (forall i, (i < d)%nat -> nth i (g_npix g) 0%nat = (2 * nth i jx 0 + 1)%nat)).
Proof.
  intros C Hd Z jx Hj. split; intros H i Hi; specialize (H i Hi);
  assert (O : axis_ok (nth i (g_npix g) 0%nat) 0 (fnth (g_side g) i) (fnth (g_pix g) i)
             (nth i (g_axes g) []) (nth i (g_centers g) []) (nth i (g_faxes g) []) (nth i (g_fcenters g) []))
    by (rewrite <- (Z i Hi); apply (co_axis _ C); lia);
  apply (zero_centre _ _ _ _ _ _ _ O (nth i jx 0%nat)); auto; apply in_cens; auto; lia.
Qed.

Lemma nth_half l i : nth i (map (fun n => (n / 2)%nat) l) 0%nat = (nth i l 0 / 2)%nat.
Proof. exact (map_nth (fun n => (n / 2)%nat) l 0%nat i). Qed.

Lemma c22_peak fwhm pix side axu g : psf fwhm pix side axu NPeak = Ok g -> positive (fv pix) -> positive (fv fwhm) ->
  consistent g /\ g_ndim g = flen fwhm /\ g_nprop g = 1%nat /\
  (forall jx, inb (g_npix g) jx = true -> (0 < (cell g jx 0 : R) <= 1)%R) /\
  ((exists jx, inb (g_npix g) jx = true /\ cell g jx 0 = (1%R : RAlg)) <-> Forall Nat.Odd (g_npix g)).
Proof.
  intros H P Pf. destruct (psf_inv _ _ _ _ _ _ H P) as (_ & g0 & C0 & C & Nd & Np & En & Ece & Ec & V). cbv zeta in V.
  assert (S : forall i, (i < flen fwhm)%nat -> (0 < qr (fnth fwhm i) / fwhm_sigma)%R).
  { intros i Hi. apply Rdiv_lt_0_compat; [apply qr_pos, fnth_pos; auto|apply fwhm_sigma_pos]. }
  assert (Z : forall i, (i < flen fwhm)%nat -> fnth (g_center g) i = 0%Qc).
  { intros i Hi. rewrite Ec. unfold fnth. simpl. apply nth_repeat. }
  do 3 (split; [auto|]). split.
  - intros jx Hj. destruct (V jx Hj) as [E _]. rewrite E by auto. split; [apply profile_pos|apply profile_le; auto].
  - split.
    + intros (jx & Hj & E). destruct (V jx Hj) as [E' _]. rewrite E' in E by auto. pose proof (proj1 (profile_one _ _ _ _ S) E) as E2. clear E. rename E2 into E.
      rewrite (all_odd_cell g (flen fwhm) C ltac:(lia) Z jx Hj) in E. apply Forall_forall. intros n Hn. apply In_nth with (d := 0%nat) in Hn as (i & Hi & <-).
      rewrite (co_n _ C) in Hi. rewrite E by lia. exists (nth i jx 0%nat). reflexivity.
    + intros O. exists (map (fun n => (n / 2)%nat) (g_npix g)).
      assert (Hj : inb (g_npix g) (map (fun n => (n / 2)%nat) (g_npix g)) = true).
      { pose proof (npix_all _ _ C) as F. clear - F. induction F as [|n l Hn F IH]; auto. cbn [map inb]. rewrite IH, andb_true_r. apply Nat.ltb_lt. apply Nat.div_lt; lia. }
      split; auto. destruct (V _ Hj) as [E' _]. rewrite E' by auto. apply (proj2 (profile_one _ _ _ _ S)).
      rewrite (all_odd_cell g (flen fwhm) C ltac:(lia) Z _ Hj). intros i Hi. rewrite Forall_forall in O.
      rewrite nth_half.
      destruct (O (nth i (g_npix g) 0%nat)) as [m Em]; [apply nth_In; rewrite (co_n _ C); lia|]. rewrite Em.
      replace (2 * m + 1)%nat with (1 + m * 2)%nat by lia. rewrite Nat.div_add by lia. change (1 / 2)%nat with 0%nat. lia.
Qed.

(** ** SpectralPSF *)
Lemma spec_psf_inv spec spec0 fwhm pix side axu norm e g : spec_psf spec spec0 fwhm pix side axu norm e = Ok g -> positive (fv pix) ->
  nth 0 spec 0%Qc <> nth 1 spec 0%Qc -> norm <> NOther /\ exists g0 : grid RAlg,
  consistent g0 /\ g_ndim g0 = S (flen fwhm) /\ g_nprop g = 1%nat /\ g_npix g = g_npix g0 /\ g_centers g = g_centers g0 /\
  g_axes g = upd (g_axes g0) (flen fwhm) spec /\ (flen fwhm = 0%nat \/ last (g_npix g0) 0%nat = length spec) /\
  (forall i, (i < flen fwhm)%nat -> fnth (g_center g0) i = 0%Qc) /\ g_ndim g = g_ndim g0 /\ g_data g <> None /\
  let raw jx c := profile (flen fwhm) (fun i => (qr (fnth fwhm i) / fwhm_sigma * Rpower (qr (spec0 / nth c spec 0%Qc)) e)%R) (g_centers g) (jx ++ [c]) in
  forall jx c, inb (removelast (g_npix g)) jx = true -> (c < last (g_npix g) 0)%nat ->
    (norm = NPeak -> cell g (jx ++ [c]) 0 = raw jx c) /\
    (norm = NArea -> cell g (jx ++ [c]) 0 = (raw jx c / vsum (A:=RAlg) (map (fun jx => raw jx c) (idxs (removelast (g_npix g)))))%R).
Proof.
  intros H P Ns. destruct spec as [|s0 [|s1 spec']]; try (destruct norm; discriminate). cbn [nth] in Ns.
  set (spec := s0 :: s1 :: spec') in *. assert (Hn : norm <> NOther) by (intros ->; discriminate). split; auto.
  set (step := qabs (s1 - s0)) in *.
  assert (Hst : (0 < step)%Qc).
  { unfold step, qabs. destruct (qleb 0 (s1 - s0)) eqn:E.
    - apply qleb_le in E. apply Qcle_lt_or_eq in E as [E|E]; auto. exfalso. apply Ns. clear - E. qlra.
    - apply qleb_gt in E. revert E. generalize (s1 - s0)%Qc. intros q E. qlra. }
  assert (H' : (do s <- match side with
                  | Some s => bcast_ones (flen fwhm) s
                  | None => Ok (mkF false (map (fun x => zq 3 * x * lmax (map (fun s => spec0 / s) spec))%Qc (fv fwhm)))
                  end ;;
          do p <- bcast_ones (flen fwhm) pix ;;
          do g <- grid_new RAlg 1 (mkF false (repeat 0%Qc (flen fwhm) ++ [(ptp spec / zq 2 + lmin spec)%Qc]))
                    (mkF false (fv s ++ [(ptp spec + step)%Qc])) (mkF false (fv p ++ [step])) axu None ;;
          do _ <- check ((flen fwhm =? 0)%nat || (last (g_npix g) 0 =? length spec)%nat) ValueError ;;
          let sig sv i := (qr (fnth fwhm i) / fwhm_sigma * Rpower (qr (spec0 / sv)) e)%R in
          let raw := tab (g_npix g ++ [1%nat])
                       (fun ix => profile (flen fwhm) (sig (nth (nth (flen fwhm) ix 0%nat) spec 0%Qc)) (g_centers g) (removelast ix)) in
          let slice (c : nat) := vsum (A:=RAlg) (map (fun jx => getd 0%R raw (jx ++ [c; 0%nat])) (idxs (removelast (g_npix g)))) in
          let data := match norm with
                      | NArea => tab (g_npix g ++ [1%nat]) (fun ix => (getd 0%R raw ix / slice (nth (flen fwhm) ix 0%nat))%R)
                      | _ => raw
                      end in
          let g1 := with_data g (Some (data : arr RAlg)) in
          Ok (with_geom g1 (g_center g1) (g_side g1) (g_pix g1) (g_npix g1) (upd (g_axes g1) (flen fwhm) spec)
                (g_centers g1) (g_faxes g1) (g_fcenters g1))) = Ok g) by (destruct norm; auto; tauto).
  clear H. destruct (match side with Some s => _ | None => _ end) as [s|]; cbn [bind] in H'; [|discriminate].
  destruct (bcast_ones (flen fwhm) pix) as [p|] eqn:Ep; cbn [bind] in H'; [|discriminate].
  destruct (bcast_ones_pos _ _ _ Ep P) as [Pp Lp].
  destruct (grid_new _ _ _ _ _ _ _) as [g0|] eqn:Eg; cbn [bind] in H'; [|discriminate].
  assert (Pp' : positive (fv (mkF false (fv p ++ [step])))).
  { intros x Hx. apply in_app_or in Hx as [Hx|[<-|[]]]; auto. }
  pose proof (grid_new_consistent _ _ _ _ _ _ _ _ Eg Pp') as C0.
  pose proof (grid_new_inv _ _ _ _ _ _ _ _ Eg) as I. cbv zeta in I.
  destruct I as (s' & p' & _ & _ & In & _ & Ind & Ic & _).
  assert (Ec : flen (mkF false (repeat 0%Qc (flen fwhm) ++ [(ptp spec / zq 2 + lmin spec)%Qc])) = S (flen fwhm)) by (unfold flen at 1; simpl; rewrite app_length, repeat_length; simpl; lia).
  rewrite Ec in Ind. destruct (check _ _) as [[]|] eqn:Ek; cbn [bind] in H'; [|discriminate].
  assert (Hk : flen fwhm = 0%nat \/ last (g_npix g0) 0%nat = length spec).
  { unfold check in Ek. destruct (_ || _)%bool eqn:Eb in Ek; [|discriminate]. apply orb_true_iff in Eb as [E|E]; apply Nat.eqb_eq in E; auto. }
  clear Ek. cbv zeta in H'. injection H' as <-. exists g0.
  cbn [with_geom with_data g_ndim g_nprop g_npix g_centers g_center g_axes g_data].
  do 7 (split; [auto|]).
  split. { intros i Hi. rewrite Ic. unfold fnth. simpl. rewrite app_nth1 by (rewrite repeat_length; auto). apply nth_repeat. }
  split; [auto|]. split; [discriminate|].
  set (sig := fun sv i => (qr (fnth fwhm i) / fwhm_sigma * Rpower (qr (spec0 / sv)) e)%R).
  set (raw := tab _ (fun ix => profile _ _ _ _)). set (dd := match norm with NArea => _ | _ => _ end).
  assert (Ln : length (g_npix g0) = S (flen fwhm)) by (rewrite (co_n _ C0); auto).
  assert (Sn : g_npix g0 = removelast (g_npix g0) ++ [last (g_npix g0) 0%nat]) by (apply app_removelast_last; intros Z; rewrite Z in Ln; discriminate).
  assert (Lr : length (removelast (g_npix g0)) = flen fwhm) by (rewrite Sn, app_length in Ln; simpl in Ln; lia).
  assert (In' : forall jx c, inb (removelast (g_npix g0)) jx = true -> (c < last (g_npix g0) 0)%nat -> inb (g_npix g0 ++ [1%nat]) (jx ++ [c; 0%nat]) = true).
  { intros jx c Hj Hc. change [c; 0%nat] with ([c] ++ [0%nat]). rewrite app_assoc. pose proof (inb_length _ _ Hj) as Lj.
    assert (X : inb (g_npix g0) (jx ++ [c]) = true) by (rewrite Sn, inb_snoc by auto; rewrite Hj; apply Nat.ltb_lt in Hc; rewrite Hc; reflexivity).
    rewrite inb_snoc by (apply inb_length; auto). rewrite X. reflexivity. }
  assert (Gr : forall jx c, inb (removelast (g_npix g0)) jx = true -> (c < last (g_npix g0) 0)%nat ->
      getd 0%R raw (jx ++ [c; 0%nat]) = profile (flen fwhm) (sig (nth c spec 0%Qc)) (g_centers g0) (jx ++ [c])).
  { intros jx c Hj Hc. unfold raw. rewrite getd_tab by auto. pose proof (inb_length _ _ Hj) as Lj.
    rewrite app_nth2 by lia. replace (flen fwhm - length jx)%nat with 0%nat by lia. cbn [nth].
    change [c; 0%nat] with ([c] ++ [0%nat]). rewrite app_assoc, removelast_last. reflexivity. }
  intros jx c Hj Hc. unfold cell. cbn [with_data with_geom g_data]. rewrite <- app_assoc. cbn [app].
  fold (sig (nth c spec 0%Qc)). split; intros ->; unfold dd.
  - apply Gr; auto.
  - unfold getd at 1. rewrite get_tab, In' by auto. rewrite Gr by auto. pose proof (inb_length _ _ Hj) as Lj.
    rewrite app_nth2 by lia. replace (flen fwhm - length jx)%nat with 0%nat by lia. cbn [nth].
    f_equal. f_equal. apply map_ext_in. intros kx Hk'. apply in_idxs in Hk'. apply Gr; auto.
Qed.

Lemma removelast_in {X} (x : X) l : In x (removelast l) -> In x l.
Proof. induction l as [|y [|z l] IH]; simpl; auto. intros [->|H]; auto. right. apply IH; auto. Qed.
Lemma nth_removelast {X} (d : X) l i : (i < length l - 1)%nat -> nth i (removelast l) d = nth i l d.
Proof.
  intros H. destruct l as [|x l]; [simpl in H; lia|]. rewrite (app_removelast_last d (l := x :: l)) at 2 by discriminate.
  rewrite app_nth1; auto. pose proof (app_removelast_last d (l := x :: l) ltac:(discriminate)) as E.
  assert (length (x :: l) = length (removelast (x :: l)) + 1)%nat by (rewrite E at 1; rewrite app_length; reflexivity). lia.
Qed.

Lemma c22_spectral spec spec0 fwhm pix side axu e g : spec_psf spec spec0 fwhm pix side axu NArea e = Ok g -> positive (fv pix) ->
  nth 0 spec 0%Qc <> nth 1 spec 0%Qc ->
  g_ndim g = S (flen fwhm) /\ g_nprop g = 1%nat /\ g_data g <> None /\ ((0 < flen fwhm)%nat -> last (g_npix g) 0%nat = length spec) /\
  forall c, (c < last (g_npix g) 0)%nat ->
  (forall jx, inb (removelast (g_npix g)) jx = true -> (0 < (cell g (jx ++ [c]) 0 : R))%R) /\
  vsum (map (fun jx => cell g (jx ++ [c]) 0) (idxs (removelast (g_npix g)))) = (1%R : RAlg).
Proof.
  intros H P Ns. destruct (spec_psf_inv _ _ _ _ _ _ _ _ _ H P Ns) as (_ & g0 & C0 & Nd & Np & En & Ece & Ea & El & Ec & Nd' & D & V). cbv zeta in V.
  split; [congruence|]. split; [auto|]. split; [auto|]. split; [rewrite En; intros; destruct El as [El|El]; auto; rewrite El in H0; lia|]. intros c Hc.
  set (raw := fun jx c => profile _ _ _ (jx ++ [c])) in V.
  assert (F : Forall (fun n => (0 < n)%nat) (removelast (g_npix g))).
  { rewrite En. pose proof (npix_all _ _ C0) as F. rewrite Forall_forall in *. intros n Hn. apply F, removelast_in; auto. }
  pose proof (sum_raw_pos (removelast (g_npix g)) (fun jx => raw jx c) F (fun jx => profile_pos _ _ _ _)) as T.
  split.
  - intros jx Hj. destruct (V jx c Hj Hc) as [_ E]. rewrite E by auto. apply Rdiv_lt_0_compat; auto. apply profile_pos.
  - transitivity (vsum (A:=RAlg) (map (fun x => (x / vsum (A:=RAlg) (map (fun jx => raw jx c) (idxs (removelast (g_npix g)))))%R) (map (fun jx => raw jx c) (idxs (removelast (g_npix g)))))).
    + rewrite map_map. f_equal. apply map_ext_in. intros jx Hj. apply in_idxs in Hj. apply V; auto.
    + rewrite vsum_div. unfold Rdiv. apply Rinv_r. lra.
Qed.

Lemma c22_spectral_peak spec spec0 fwhm pix side axu e g : spec_psf spec spec0 fwhm pix side axu NPeak e = Ok g -> positive (fv pix) ->
  positive (fv fwhm) -> nth 0 spec 0%Qc <> nth 1 spec 0%Qc ->
  g_ndim g = S (flen fwhm) /\ g_nprop g = 1%nat /\ ((0 < flen fwhm)%nat -> last (g_npix g) 0%nat = length spec) /\
  forall c, (c < last (g_npix g) 0)%nat ->
  (forall jx, inb (removelast (g_npix g)) jx = true -> (0 < (cell g (jx ++ [c]) 0 : R) <= 1)%R) /\
  ((exists jx, inb (removelast (g_npix g)) jx = true /\ cell g (jx ++ [c]) 0 = (1%R : RAlg)) <-> Forall Nat.Odd (removelast (g_npix g))).
Proof.
  intros H P Pf Ns. destruct (spec_psf_inv _ _ _ _ _ _ _ _ _ H P Ns) as (_ & g0 & C0 & Nd & Np & En & Ece & Ea & El & Ec & Nd' & D & V). cbv zeta in V.
  split; [congruence|]. split; [auto|]. split; [rewrite En; intros; destruct El as [El|El]; auto; rewrite El in H0; lia|]. intros c Hc.
  set (sig := fun i => (qr (fnth fwhm i) / fwhm_sigma * Rpower (qr (spec0 / nth c spec 0%Qc)) e)%R).
  assert (S : forall i, (i < flen fwhm)%nat -> (0 < sig i)%R).
  { intros i Hi. apply Rmult_lt_0_compat; [|apply exp_pos]. apply Rdiv_lt_0_compat; [apply qr_pos, fnth_pos; auto|apply fwhm_sigma_pos]. }
  assert (Ln : length (g_npix g0) = (1 + flen fwhm)%nat) by (rewrite (co_n _ C0); auto).
  assert (Sn : g_npix g0 = removelast (g_npix g0) ++ [last (g_npix g0) 0%nat]) by (apply app_removelast_last; intros Z; rewrite Z in Ln; discriminate).
  assert (Lr : length (removelast (g_npix g0)) = flen fwhm) by (rewrite Sn, app_length in Ln; simpl in Ln; lia).
  rewrite En in *.
  assert (In' : forall jx, inb (removelast (g_npix g0)) jx = true -> inb (g_npix g0) (jx ++ [c]) = true).
  { intros jx Hj. rewrite Sn, inb_snoc by (apply inb_length; auto). rewrite Hj. apply Nat.ltb_lt in Hc. rewrite Hc. reflexivity. }
  split.
  - intros jx Hj. destruct (V jx c Hj Hc) as [E _]. rewrite E by auto. split; [apply profile_pos|apply profile_le; exact S].
  - split.
    + intros (jx & Hj & E). destruct (V jx c Hj Hc) as [E' _]. rewrite E' in E by auto. pose proof (proj1 (profile_one _ sig _ _ S) E) as E2. clear E. rename E2 into E.
      rewrite Ece, (all_odd_cell g0 (flen fwhm) C0 ltac:(lia) Ec _ (In' _ Hj)) in E. apply Forall_forall. intros n Hn. apply In_nth with (d := 0%nat) in Hn as (i & Hi & <-).
      rewrite Lr in Hi. rewrite nth_removelast by lia. rewrite E by lia. eexists. reflexivity.
    + intros O. exists (map (fun n => (n / 2)%nat) (removelast (g_npix g0))).
      assert (Hj : inb (removelast (g_npix g0)) (map (fun n => (n / 2)%nat) (removelast (g_npix g0))) = true).
      { pose proof (npix_all _ _ C0) as F. assert (F' : Forall (fun n => (0 < n)%nat) (removelast (g_npix g0))).
        { rewrite Forall_forall in *. intros n Hn. apply F, removelast_in; auto. }
        clear - F'. induction F' as [|n l Hn F IH]; auto. cbn [map inb]. rewrite IH, andb_true_r. apply Nat.ltb_lt. apply Nat.div_lt; lia. }
      split; auto. destruct (V _ c Hj Hc) as [E' _]. rewrite E' by auto. apply (proj2 (profile_one _ sig _ _ S)).
      rewrite Ece, (all_odd_cell g0 (flen fwhm) C0 ltac:(lia) Ec _ (In' _ Hj)). intros i Hi. rewrite Forall_forall in O.
      rewrite app_nth1 by (rewrite map_length, Lr; auto).
      rewrite nth_half.
      destruct (O (nth i (removelast (g_npix g0)) 0%nat)) as [m Em]; [apply nth_In; lia|]. rewrite Em.
      rewrite nth_removelast in Em by lia. rewrite Em.
      replace (2 * m + 1)%nat with (1 + m * 2)%nat by lia. rewrite Nat.div_add by lia. change (1 / 2)%nat with 0%nat. lia.
Qed.
