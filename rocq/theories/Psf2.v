(** Lemmas for C122 *)
From Coq Require Import Reals Qreals.
From Verif Require Import Util Rat Val Arr GridModel GridSpec GridModel2 GridSpec2 GridAxis GridNew GridCat GridFT Complex PsfModel PsfSpec Psf.
From Coq Require Import Lra Psatz.

Lemma ln2_pos : (0 < ln 2)%R.
Proof. rewrite <- ln_1. apply ln_increasing; lra. Qed.
Lemma fwhm_sigma_sq : (fwhm_sigma * fwhm_sigma = 8 * ln 2)%R.
Proof.
  unfold fwhm_sigma. replace (2 * sqrt (2 * ln 2) * (2 * sqrt (2 * ln 2)))%R with (4 * (sqrt (2 * ln 2) * sqrt (2 * ln 2)))%R by ring.
  rewrite sqrt_sqrt; [ring|]. pose proof ln2_pos. lra.
Qed.
Lemma gauss_half w c x : (0 < w)%R -> (0 < c)%R -> gauss (w / fwhm_sigma * c) x = Rpower 2 (- ((2 * qr x / (w * c)) * (2 * qr x / (w * c)))).
Proof.
  intros Hw Hc. unfold gauss, Rpower. f_equal. pose proof fwhm_sigma_pos as Hs. pose proof fwhm_sigma_sq as Hq. pose proof ln2_pos as Hl.
  replace (2 * (w / fwhm_sigma * c * (w / fwhm_sigma * c)))%R with (2 * (w * c) * (w * c) / (fwhm_sigma * fwhm_sigma))%R by (field; lra).
  rewrite Hq. field. repeat split; lra.
Qed.
Lemma rprod_half (ws : list R) : forall (f : nat -> R) (y : nat -> R) k,
  (forall i, (i < length ws)%nat -> f (k + i)%nat = Rpower 2 (- ((2 * y (k + i)%nat / nth i ws 0%R) * (2 * y (k + i)%nat / nth i ws 0%R)))%R) ->
  rprod (map f (seq k (length ws))) = Rpower 2 (- half_widths ws (map y (seq k (length ws)))).
Proof.
  induction ws as [|w ws IH]; intros f y k H; cbn [length seq map rprod fold_right half_widths].
  - rewrite Ropp_0, Rpower_O by lra. reflexivity.
  - fold (rprod (map f (seq (S k) (length ws)))). rewrite (IH f y (S k)).
    + specialize (H 0%nat). rewrite Nat.add_0_r in H. rewrite H by (cbn; lia). cbn [nth]. rewrite <- Rpower_plus. f_equal. ring.
    + intros i Hi. specialize (H (S i)). replace (k + S i)%nat with (S k + i)%nat in H by lia. cbn [nth length] in H. apply H. lia.
Qed.
Lemma profile_half {A : Alg} fwhm c (g : grid A) jx : positive (fv fwhm) -> (0 < c)%R ->
  profile (flen fwhm) (fun i => (qr (fnth fwhm i) / fwhm_sigma * c)%R) (g_centers g) jx =
  Rpower 2 (- half_widths (map (fun w => (qr w * c)%R) (fv fwhm)) (at_cell g (flen fwhm) jx)).
Proof.
  intros P Hc. unfold profile, at_cell, flen.
  assert (L : length (map (fun w => (qr w * c)%R) (fv fwhm)) = length (fv fwhm)) by apply map_length. rewrite <- L.
  apply (rprod_half _ (fun i => gauss (qr (fnth fwhm i) / fwhm_sigma * c) _) (fun i => qr (nth (nth i jx 0%nat) (nth i (g_centers g) []) 0%Qc)) 0).
  intros i Hi. rewrite L in Hi. cbn [Nat.add]. 
  assert (En : nth i (map (fun w => (qr w * c)%R) (fv fwhm)) 0%R = (qr (nth i (fv fwhm) 0%Qc) * c)%R).
  { rewrite (nth_indep _ 0%R ((fun w => (qr w * c)%R) 0%Qc)) by (rewrite map_length; auto). exact (map_nth (fun w => (qr w * c)%R) (fv fwhm) 0%Qc i). }
  rewrite En.
  unfold fnth. apply gauss_half; auto. apply qr_pos, P, nth_In. auto.
Qed.
Lemma profile_c1 d f cens jx : profile d f cens jx = profile d (fun i => (f i * 1)%R) cens jx.
Proof. unfold profile. f_equal. apply map_ext. intros i. rewrite Rmult_1_r. reflexivity. Qed.
Lemma map_c1 l : map (fun w => (qr w * 1)%R) l = map qr l.
Proof. apply map_ext. intros a. ring. Qed.

Lemma half_zero ws xs : (forall x, In x xs -> x = 0%R) -> half_widths ws xs = 0%R.
Proof.
  revert xs. induction ws as [|w ws IH]; intros [|x xs] H; cbn [half_widths]; auto. rewrite (H x) by (left; auto). rewrite IH by (intros y Hy; apply H; right; auto).
  unfold Rdiv. ring.
Qed.
Lemma half_way_one ws : forall xs, (forall w, In w ws -> (0 < w)%R) -> half_way ws xs -> half_widths ws xs = 1%R.
Proof.
  induction ws as [|w ws IH]; intros [|x xs] P (k & Hk & L & H); cbn [length] in *; try lia. cbn [half_widths].
  assert (Pw : (0 < w)%R) by (apply P; left; auto). destruct k as [|k].
  - rewrite half_zero.
    + specialize (H 0%nat ltac:(lia)). cbn in H. assert (E : ((2 * x) * (2 * x) = w * w)%R) by (revert H; unfold Rabs; destruct (Rcase_abs x); intros H; nra).
      replace (2 * x / w * (2 * x / w))%R with ((2 * x) * (2 * x) / (w * w))%R by (field; lra). rewrite E. field. lra.
    + intros y Hy. apply In_nth with (d := 0%R) in Hy. destruct Hy as (i & Hi & <-). specialize (H (S i) ltac:(lia)). exact H.
  - pose proof (H 0%nat ltac:(lia)) as H0. cbn in H0. subst x. rewrite IH.
    + unfold Rdiv. ring.
    + intros v Hv. apply P. right. auto.
    + exists k. split; [lia|]. split; [lia|]. intros i Hi. exact (H (S i) ltac:(lia)).
Qed.

Lemma c122_peak fwhm pix side axu g : psf fwhm pix side axu NPeak = Ok g -> positive (fv pix) -> positive (fv fwhm) ->
  forall jx, inb (g_npix g) jx = true -> cell g jx 0 = Rpower 2 (- half_widths (map qr (fv fwhm)) (at_cell g (flen fwhm) jx)).
Proof.
  intros H P Pf jx Hj. destruct (psf_inv _ _ _ _ _ _ H P) as (_ & g0 & _ & _ & _ & _ & _ & _ & _ & V). cbv zeta in V.
  destruct (V jx Hj) as [E _]. rewrite E by auto. rewrite profile_c1, profile_half by (auto; lra). rewrite map_c1. reflexivity.
Qed.
Lemma c122_ratio fwhm pix side axu norm g : psf fwhm pix side axu norm = Ok g -> positive (fv pix) -> positive (fv fwhm) ->
  exists t, (0 < t)%R /\ forall jx, inb (g_npix g) jx = true -> cell g jx 0 = (t * Rpower 2 (- half_widths (map qr (fv fwhm)) (at_cell g (flen fwhm) jx)))%R.
Proof.
  intros H P Pf. destruct norm; [|exists 1%R; split; [lra|]; intros jx Hj; rewrite Rmult_1_l; revert jx Hj; apply (c122_peak _ _ _ _ _ H); auto|discriminate].
  destruct (psf_inv _ _ _ _ _ _ H P) as (_ & g0 & _ & _ & _ & _ & _ & _ & _ & V). cbv zeta in V.
  set (raw := fun jx => profile (flen fwhm) (fun i => (qr (fnth fwhm i) / fwhm_sigma)%R) (g_centers g) jx) in *.
  set (tot := vsum (A:=RAlg) (map raw (idxs (g_npix g)))) in *.
  destruct (idxs (g_npix g)) as [|j0 js] eqn:Ei.
  { exists 1%R. split; [lra|]. intros jx Hj. exfalso. apply in_idxs in Hj. rewrite Ei in Hj. destruct Hj. }
  assert (Pt : (0 < tot)%R).
  { unfold tot. clear - raw. assert (Q : forall l, (0 <= vsum (A:=RAlg) (map raw l))%R).
    { induction l as [|j l IH]; [apply Rle_refl|]. pose proof (profile_pos (flen fwhm) (fun i => (qr (fnth fwhm i) / fwhm_sigma)%R) (g_centers g) j) as Hj. fold (raw j) in Hj. change (0 <= raw j + vsum (A:=RAlg) (map raw l))%R. lra. }
    change (0 < raw j0 + vsum (A:=RAlg) (map raw js))%R. pose proof (profile_pos (flen fwhm) (fun i => (qr (fnth fwhm i) / fwhm_sigma)%R) (g_centers g) j0) as Hj. fold (raw j0) in Hj. specialize (Q js). lra. }
  exists (/ tot)%R. split; [apply Rinv_0_lt_compat; auto|]. intros jx Hj. destruct (V jx Hj) as [_ E]. rewrite E by auto.
  unfold raw at 1. rewrite profile_c1, profile_half by (auto; lra). rewrite map_c1. unfold Rdiv. apply Rmult_comm.
Qed.
Lemma c122_half fwhm pix side axu norm g : psf fwhm pix side axu norm = Ok g -> positive (fv pix) -> positive (fv fwhm) ->
  forall jx kx, inb (g_npix g) jx = true -> inb (g_npix g) kx = true -> (forall x, In x (at_cell g (flen fwhm) kx) -> x = 0%R) ->
  half_way (map qr (fv fwhm)) (at_cell g (flen fwhm) jx) -> cell g jx 0 = (cell g kx 0 / 2)%R.
Proof.
  intros H P Pf jx kx Hj Hk Zk Hh. destruct (c122_ratio _ _ _ _ _ _ H P Pf) as (t & Ht & E). rewrite (E jx Hj), (E kx Hk).
  rewrite (half_zero _ _ Zk), half_way_one; auto.
  - rewrite Ropp_0, Rpower_O by lra. rewrite Rpower_Ropp, Rpower_1 by lra. change ((t * / 2)%R = (t * 1 / 2)%R :> R). field.
  - intros w Hw. apply in_map_iff in Hw. destruct Hw as (q & <- & Hq). apply qr_pos, Pf, Hq.
Qed.

Lemma c122_spectral spec spec0 fwhm pix side axu e g : spec_psf spec spec0 fwhm pix side axu NPeak e = Ok g -> positive (fv pix) -> positive (fv fwhm) -> nth 0 spec 0%Qc <> nth 1 spec 0%Qc ->
  forall jx c, inb (removelast (g_npix g)) jx = true -> (c < last (g_npix g) 0)%nat ->
  cell g (jx ++ [c]) 0 = Rpower 2 (- half_widths (map (fun w => (qr w * Rpower (qr (spec0 / nth c spec 0%Qc)) e)%R) (fv fwhm)) (at_cell g (flen fwhm) (jx ++ [c]))).
Proof.
  intros H P Pf N jx c Hj Hc. destruct (spec_psf_inv _ _ _ _ _ _ _ _ _ H P N) as (_ & g0 & _ & _ & _ & _ & _ & _ & _ & _ & _ & _ & V). cbv zeta in V.
  destruct (V jx c Hj Hc) as [E _]. rewrite E by auto. apply profile_half; auto. apply exp_pos.
Qed.

Lemma bcast_self (f : Qc -> Qc) (l : list Qc) : bcast_ones (length l) (mkF false (map f l)) = Ok (mkF false (map f l)).
Proof. unfold bcast_ones, flen, fnth. cbn [fv]. rewrite map_length. destruct l as [|x [|y l]]; cbn [length Nat.eqb map repeat nth]; rewrite ?Nat.eqb_refl; reflexivity. Qed.
