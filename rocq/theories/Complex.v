(** The complex numbers over the standard library's reals, as an algebra of cell
    values, and the roots of unity used by the discrete Fourier transform. *)
From Coq Require Import Reals Qreals.
From Verif Require Import Util Rat Val GridModel GridSpec.
From Coq Require Import Lra Psatz.

Definition C := (R * R)%type.
Definition c_add (x y : C) : C := (fst x + fst y, snd x + snd y)%R.
Definition c_sub (x y : C) : C := (fst x - fst y, snd x - snd y)%R.
Definition c_opp (x : C) : C := (- fst x, - snd x)%R.
Definition c_mul (x y : C) : C := (fst x * fst y - snd x * snd y, fst x * snd y + snd x * fst y)%R.
Definition c_conj (x : C) : C := (fst x, - snd x)%R.
Definition qr (q : Qc) : R := Q2R (this q).

Lemma qr_add a b : (qr (a + b) = qr a + qr b)%R.
Proof. unfold qr. rewrite <- Q2R_plus. apply Qeq_eqR. apply Qred_correct. Qed.
Lemma qr_mul a b : (qr (a * b) = qr a * qr b)%R.
Proof. unfold qr. rewrite <- Q2R_mult. apply Qeq_eqR. apply Qred_correct. Qed.
Lemma qr_1 : qr 1 = 1%R.
Proof. unfold qr, Q2R. simpl. field. Qed.

Lemma c_rt : ring_theory ((0, 0)%R : C) (1, 0)%R c_add c_mul c_sub c_opp (@eq C).
Proof.
  constructor; intros; repeat match goal with x : C |- _ => destruct x end;
    unfold c_add, c_mul, c_sub, c_opp; simpl; f_equal; ring.
Qed.

Definition CAlg : Alg.
  refine {| car := C; v0 := (0, 0)%R; v1 := (1, 0)%R; vadd := c_add; vmul := c_mul;
            vsub := c_sub; vopp := c_opp; v_rt := c_rt; emb := fun q => (qr q, 0)%R; star := c_conj |};
  intros; repeat match goal with x : C |- _ => destruct x end;
  unfold c_add, c_mul, c_sub, c_opp, c_conj; simpl; rewrite ?qr_1, ?qr_add, ?qr_mul; f_equal; ring.
Defined.

(** exp(i t) *)
Definition cis (t : R) : C := (cos t, sin t).
(** exp(-2 pi i / n) *)
Definition croot (n : nat) : CAlg := cis (- (2 * PI / INR n)).

Lemma cis_add s t : c_mul (cis s) (cis t) = cis (s + t).
Proof. unfold c_mul, cis. simpl. rewrite cos_plus, sin_plus. f_equal; ring. Qed.
Lemma cis_0 : cis 0 = (1, 0)%R.
Proof. unfold cis. rewrite cos_0, sin_0. reflexivity. Qed.
Lemma cis_conj t : c_conj (cis t) = cis (- t).
Proof. unfold c_conj, cis. simpl. rewrite cos_neg, sin_neg. reflexivity. Qed.
Lemma cis_pow t n : vpow (cis t : CAlg) n = cis (INR n * t).
Proof.
  induction n as [|n IH].
  - simpl. rewrite Rmult_0_l. symmetry. apply cis_0.
  - change (vpow (cis t : CAlg) (S n)) with (c_mul (cis t) (vpow (cis t : CAlg) n)). rewrite IH, cis_add.
    f_equal. rewrite S_INR. ring.
Qed.
Lemma cis_period t (k : nat) : cis (t + 2 * INR k * PI) = cis t.
Proof. unfold cis. rewrite cos_period, sin_period. reflexivity. Qed.
Lemma cis_neg_2pi k : cis (- (2 * INR k * PI)) = (1, 0)%R.
Proof. rewrite <- (cis_period _ k), <- cis_0. f_equal. ring. Qed.

Lemma c_integral (x y : C) : c_mul x y = (0, 0)%R -> x = (0, 0)%R \/ y = (0, 0)%R.
Proof.
  destruct x as [a b], y as [c d]. unfold c_mul. simpl. intros H. injection H as H1 H2.
  assert (E : ((a * a + b * b) * (c * c + d * d) = 0)%R).
  { replace ((a * a + b * b) * (c * c + d * d))%R with ((a * c - b * d) * (a * c - b * d) + (a * d + b * c) * (a * d + b * c))%R by ring.
    rewrite H1, H2. ring. }
  assert (Z : forall x y, (x * x + y * y = 0 -> x = 0 /\ y = 0)%R).
  { intros x y Hxy. pose proof (Rle_0_sqr x) as X. pose proof (Rle_0_sqr y) as Y. unfold Rsqr in *.
    split; apply Rsqr_0_uniq; unfold Rsqr; lra. }
  apply Rmult_integral in E as [E|E]; apply Z in E as [-> ->]; auto.
Qed.

Lemma cis_neq_1 t : (0 < t < 2 * PI)%R -> cis (- t) <> (1, 0)%R.
Proof.
  intros [H1 H2] E. unfold cis in E. injection E as E _. rewrite cos_neg in E.
  assert (Hs : (0 < sin (t / 2))%R) by (apply sin_gt_0; lra).
  assert (X : (cos t = 1 - 2 * sin (t / 2) * sin (t / 2))%R).
  { rewrite <- cos_2a_sin. f_equal. field. }
  nra.
Qed.

Section Geom.
Context {A : Alg}.
Add Ring A_ring : (v_rt A).
Open Scope val_scope.
(** sum of a geometric progression *)
Lemma geom (z : A) n : (z - 1) * vsum (map (vpow z) (seq 0 n)) = vpow z n - 1.
Proof.
  induction n as [|n IH]; [simpl; unfold vsum; simpl; ring|].
  rewrite seq_S, map_app, vsum_app. simpl map. rewrite vsum_cons. change (vsum (A:=A) []) with (0 : A).
  transitivity ((z - 1) * vsum (map (vpow z) (seq 0 n)) + (z - 1) * vpow z n); [simpl; ring|].
  rewrite IH. simpl. ring.
Qed.

Lemma vpow_vpow (x : A) m n : vpow (vpow x m) n = vpow x (n * m).
Proof.
  assert (P : forall a b, vpow x (a + b) = vpow x a * vpow x b).
  { induction a as [|a IH]; intros b; simpl; [ring|]. rewrite IH. ring. }
  induction n as [|n IH]; simpl; auto. rewrite IH, P. reflexivity.
Qed.
End Geom.

Lemma croot_good n : (1 <= n)%nat -> good_root (croot n) n.
Proof.
  intros Hn. assert (Pn : (0 < INR n)%R) by (apply lt_0_INR; lia). split.
  - change (c_mul (croot n) (c_conj (croot n)) = (1, 0)%R). unfold croot. rewrite cis_conj, cis_add, <- cis_0. f_equal. ring.
  - intros k Hk. set (z := vpow (croot n) k).
    assert (Ez : z = cis (- (INR k * (2 * PI / INR n)))).
    { unfold z, croot. rewrite cis_pow. f_equal. ring. }
    assert (Nz : z <> (1, 0)%R).
    { rewrite Ez. apply cis_neq_1. pose proof PI_RGT_0 as Pp.
      assert (Hk1 : (0 < INR k)%R) by (apply lt_0_INR; lia).
      assert (Hk2 : (INR k < INR n)%R) by (apply lt_INR; lia).
      replace (INR k * (2 * PI / INR n))%R with (2 * PI * (INR k / INR n))%R by (field; lra).
      assert (Q1 : (0 < INR k / INR n)%R) by (apply Rdiv_lt_0_compat; lra).
      assert (Q2 : (INR k / INR n < 1)%R) by (apply (Rmult_lt_reg_r (INR n)); auto; unfold Rdiv; rewrite Rmult_assoc, Rinv_l; lra).
      nra. }
    assert (En : vpow z n = (1, 0)%R).
    { unfold z. rewrite vpow_vpow. unfold croot. rewrite cis_pow, mult_INR.
      replace (INR n * INR k * - (2 * PI / INR n))%R with (- (2 * INR k * PI))%R by (field; lra). apply cis_neg_2pi. }
    transitivity (vsum (map (vpow z) (seq 0 n))).
    { apply vsum_ext. intros j _. unfold z. symmetry. apply vpow_vpow. }
    pose proof (geom z n) as G. rewrite En in G.
    replace (vsub ((1, 0)%R : CAlg) v1) with ((0, 0)%R : CAlg) in G by (simpl; unfold c_sub; simpl; f_equal; ring).
    apply c_integral in G as [G|G]; auto. exfalso. apply Nz. revert G. destruct z as [a b]. simpl. unfold c_sub. simpl.
    intros G. injection G as G1 G2. f_equal; lra.
Qed.
