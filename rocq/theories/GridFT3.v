(** The discrete Fourier transform over the complex numbers: which frequency sits where. *)
From Coq Require Import Reals Qreals Permutation.
From Verif Require Import Util Rat Val Arr GridModel GridSpec GridAxis GridOps GridModel2 GridFourier GridFT GridFT2 Complex.
From Coq Require Import Lra Psatz.

Lemma qr_zq z : qr (zq z) = IZR z.
Proof.
  unfold qr, zq. rewrite (Qeq_eqR _ (inject_Z z)) by apply Qred_correct. unfold Q2R, inject_Z. simpl. field.
Qed.
Lemma qr_nq n : qr (nq n) = INR n.
Proof. unfold nq. rewrite qr_zq, INR_IZR_INZ. reflexivity. Qed.
Lemma qr_div a b : b <> 0%Qc -> qr (a / b) = (qr a / qr b)%R.
Proof.
  intros N. assert (H : (qr (a / b) * qr b = qr a)%R) by (rewrite <- qr_mul; f_equal; field; auto).
  assert (Nb : qr b <> 0%R).
  { intros E. apply N. unfold qr in E. apply Qc_is_canon. apply eqR_Qeq. rewrite E. unfold Q2R. simpl. ring. }
  apply (Rmult_eq_reg_r (qr b)); auto. rewrite H. field. auto.
Qed.

Lemma cis_shift t (k : nat) : cis (t - 2 * INR k * PI) = cis t.
Proof. rewrite <- (cis_period (t - _) k). f_equal. ring. Qed.

(** the weight of input cell [j] in output cell [i] is exp(-2 pi i f x) with f the
    frequency labelling cell [i] and x the distance of cell [j] from the first one *)
Lemma kernel n c s p e ce fe fc i j : axis_ok n c s p e ce fe fc -> (i < n)%nat -> (j < n)%nat ->
  vpow (croot n) (((i + (n - n / 2)) mod n) * j) =
  cis (- (2 * PI * qr (nth i fc 0 * (nth j ce 0 - nth 0 ce 0))%Qc)).
Proof.
  intros X Hi Hj. pose proof (ao_p _ _ _ _ _ _ _ _ X) as Pp.
  assert (Np : p <> 0%Qc) by (apply Qc_pos_neq0; auto).
  assert (Nn : nq n <> 0%Qc) by (apply nq_neq0; lia).
  assert (Rn : INR n <> 0%R) by (apply not_0_INR; lia).
  rewrite (nth_error_nth _ _ _ (ao_fcen _ _ _ _ _ _ _ _ X i Hi)).
  rewrite (nth_error_nth _ _ _ (ao_cen _ _ _ _ _ _ _ _ X j Hj)).
  rewrite (nth_error_nth ce 0%nat _ (ao_cen _ _ _ _ _ _ _ _ X 0%nat ltac:(lia))).
  replace (zq (Z.of_nat i - Z.of_nat (n / 2)) / (nq n * p) * (c - s / zq 2 + (nq j + frac 1 2) * p - (c - s / zq 2 + (nq 0 + frac 1 2) * p)))%Qc
    with (zq (Z.of_nat i - Z.of_nat (n / 2)) * nq j / nq n)%Qc.
  2:{ change (nq 0) with 0%Qc. set (h := (c - s / zq 2)%Qc). field. auto. }
  rewrite qr_div, qr_mul, qr_zq, !qr_nq, minus_IZR, <- !INR_IZR_INZ by auto.
  unfold croot. rewrite cis_pow, mult_INR.
  pose proof (half_le croot n) as Hh.
  assert (E : exists q, (i + (n - n / 2) = (i + (n - n / 2)) mod n + q * n /\ q <= 1)%nat).
  { exists ((i + (n - n / 2)) / n)%nat. split.
    - pose proof (Nat.div_mod (i + (n - n / 2)) n ltac:(lia)). lia.
    - assert (i + (n - n / 2) < n * 2)%nat by lia.
      pose proof (Nat.div_lt_upper_bound (i + (n - n / 2)) n 2 ltac:(lia) H). lia. }
  destruct E as (q & E & Hq). set (m := ((i + (n - n / 2)) mod n)%nat) in *.
  assert (Em : (INR m = INR i - INR (n / 2) + INR (1 - q) * INR n)%R).
  { assert (Z : (m + n / 2 + q * n = i + n)%nat) by lia. apply (f_equal INR) in Z. rewrite !plus_INR, mult_INR in Z.
    rewrite minus_INR by lia. simpl (INR 1). lra. }
  rewrite Em.
  replace ((INR i - INR (n / 2) + INR (1 - q) * INR n) * INR j * - (2 * PI / INR n))%R
    with (- (2 * PI * ((INR i - INR (n / 2)) * INR j / INR n)) - 2 * INR ((1 - q) * j) * PI)%R.
  - apply cis_shift.
  - rewrite mult_INR. field. auto.
Qed.

Lemma roots_complex (g : grid CAlg) : consistent g -> roots_ok croot g.
Proof.
  intros C n Hn. apply croot_good. apply In_nth_error in Hn as (i & Hi).
  assert (L : (i < g_ndim g)%nat) by (rewrite <- (co_n _ C); apply nth_error_Some; congruence).
  pose proof (ao_n _ _ _ _ _ _ _ _ (co_axis _ C i L)) as X. rewrite (nth_error_nth _ _ _ Hi) in X. lia.
Qed.

Lemma c58_value (g : grid CAlg) a nz d : consistent g -> g_data g = Some d -> g_ispow g = false ->
  (a < g_ndim g)%nat -> nth a (g_fsp g) false = false ->
  exists g', fourier_transform croot g (Some [Z.of_nat a]) nz = (g', Ok tt) /\
  forall ix p, inb (g_npix g) ix = true -> (p < g_nprop g)%nat ->
    cell g' ix p =
    (vsum (map (fun j =>
       (cis (- (2 * PI * qr (nth (nth a ix 0%nat) (nth a (g_fcenters g) []) 0 *
                             (nth j (nth a (g_centers g) []) 0 - nth 0 (nth a (g_centers g) []) 0))%Qc)) : CAlg)
       * cell g (upd ix a j) p) (seq 0 (nth a (g_npix g) 0%nat)))
     * (if nz then emb (fnth (g_pix g) a) else v1))%V.
Proof.
  intros C E P Ha Hf. exists (ft_apply croot g d [a] nz). split.
  - unfold fourier_transform. rewrite E, P. rewrite (axes_arg_ok croot g (Some [Z.of_nat a]) [a]); auto.
    + reflexivity.
    + intros b [<-|[]]; auto.
  - intros ix p Hi Hp. unfold cell at 1. rewrite ft_apply_eq. cbn [with_data g_data].
    rewrite (ft_one_get croot g d a nz ix p C E Ha Hf Hi Hp). change (sc nz (fnth (g_pix g) a)) with (if nz then emb (fnth (g_pix g) a) else (v1 : CAlg)).
    apply (f_equal2 (@vmul CAlg)); [|reflexivity]. apply vsum_ext. intros j Hj. apply in_seq in Hj.
    apply (f_equal2 (@vmul CAlg)); [|unfold cell; rewrite E; auto].
    eapply kernel.
    + apply (co_axis _ C a Ha).
    + apply inb_nth_lt; auto. rewrite (co_n _ C); auto.
    + lia.
Qed.
