(** Lemmas for C88: the incomplete gamma function and the Schechter distributions. *)
From Verif Require Import Util RealUtil AmModel AmSpec Am DistModel DistSpec.
From Coq Require Import Reals Lra Lia.
From Coquelicot Require Import Coquelicot.
Open Scope R_scope.

(** * Integrals to infinity *)
Definition cont (f : R -> R) : Prop := forall x, 0 < x -> continuous f x.
Lemma ex_int f a b : cont f -> 0 < a -> 0 < b -> ex_RInt f a b.
Proof. intros C A B. apply (@ex_RInt_continuous R_CompleteNormedModule). intros z Hz. apply C. pose proof (Rmin_glb_lt a b 0 A B). lra. Qed.
Lemma chasles f a b c : cont f -> 0 < a -> 0 < b -> 0 < c -> RInt f a b + RInt f b c = RInt f a c.
Proof. intros C A B D. apply (RInt_Chasles f a b c); apply ex_int; auto. Qed.
Lemma above_lim f x v : cont f -> 0 < x -> integral_above f x v <-> is_lim (fun y => RInt f x y) p_infty v.
Proof.
  intros C X. unfold integral_above, is_lim, is_RInt_gen, filterlim, filterlimi, filter_le, filtermap, filtermapi. split; intros H P HP.
  - destruct (H P HP) as [Q R HQ HR K]. unfold at_point in HQ. unfold Rbar_locally'. destruct HR as [M HM].
    exists (Rmax M x). intros y Hy. pose proof (Rmax_l M x). pose proof (Rmax_r M x).
    destruct (K x y HQ (HM y ltac:(lra))) as (z & Z & PZ). cbn in Z. rewrite (is_RInt_unique _ _ _ _ Z). exact PZ.
  - destruct (H P HP) as [M HM]. exists (fun a => a = x) (fun y => Rmax M x < y).
    + reflexivity.
    + exists (Rmax M x). auto.
    + intros a y -> Hy. cbn. pose proof (Rmax_l M x). pose proof (Rmax_r M x). exists (RInt f x y). split; [|apply HM; lra].
      apply (@RInt_correct R_CompleteNormedModule). apply ex_int; auto; lra.
Qed.
(** the integral to infinity is the function with derivative -f that vanishes at infinity *)
Lemma above_derive f U : cont f ->
  (forall x, 0 < x -> integral_above f x (U x)) <-> (forall x, 0 < x -> is_derive U x (- f x)) /\ is_lim U p_infty 0.
Proof.
  intros C. split.
  - intros H.
    assert (K : forall x y, 0 < x -> 0 < y -> U y = U x - RInt f x y).
    { intros x y X Y. pose proof (proj1 (above_lim f x _ C X) (H x X)) as A. pose proof (proj1 (above_lim f y _ C Y) (H y Y)) as B.
      assert (B2 : is_lim (fun z => RInt f y z) p_infty (U x - RInt f x y)).
      { apply (is_lim_ext_loc (fun z => RInt f x z - RInt f x y)).
        - exists 0. intros z Z. rewrite <- (chasles f x y z C X Y Z). ring.
        - eapply is_lim_minus; [exact A|apply is_lim_const|]. reflexivity. }
      apply is_lim_unique in B. apply is_lim_unique in B2. congruence. }
    split.
    + intros x X.
      assert (D : is_derive (fun y => U x - RInt f x y) x (- f x)).
      { replace (- f x) with (0 - f x) by ring. apply (@is_derive_minus R_AbsRing R_NormedModule); [apply (@is_derive_const R_AbsRing R_NormedModule)|].
        apply (is_derive_RInt f (fun y => RInt f x y) x x); [|apply C; auto].
        exists (mkposreal x X). intros y Y. apply (@RInt_correct R_CompleteNormedModule), ex_int; auto.
        change (Rabs (y - x) < x) in Y. unfold Rabs in Y. destruct (Rcase_abs (y - x)); lra. }
      apply (is_derive_ext_loc (fun y => U x - RInt f x y)); [|exact D].
      exists (mkposreal x X). intros y Y. symmetry. apply K; auto.
      change (Rabs (y - x) < x) in Y. unfold Rabs in Y. destruct (Rcase_abs (y - x)); lra.
    + apply (is_lim_ext_loc (fun y => U 1 - RInt f 1 y)).
      * exists 0. intros y Y. symmetry. apply K; lra.
      * eapply is_lim_minus; [apply is_lim_const|apply (proj1 (above_lim f 1 (U 1) C Rlt_0_1)); apply H; lra|].
        unfold is_Rbar_minus, is_Rbar_plus. cbn. f_equal. f_equal. ring.
  - intros (D & L) x X. apply above_lim; auto. apply (is_lim_ext_loc (fun y => U x - U y)).
    + exists 0. intros y Y. symmetry. apply is_RInt_unique.
      pose proof (is_RInt_derive (fun t => - U t) f x y) as Q.
      replace (U x - U y) with (minus (- U y) (- U x)) by (unfold minus, plus, opp; cbn; ring). apply Q.
      * intros t T. replace (f t) with (- - f t) by ring. apply (@is_derive_opp R_AbsRing R_NormedModule). apply D.
        pose proof (Rmin_glb_lt x y 0 X Y). lra.
      * intros t T. apply C. pose proof (Rmin_glb_lt x y 0 X Y). lra.
    + eapply is_lim_minus; [apply is_lim_const|exact L|]. unfold is_Rbar_minus, is_Rbar_plus. cbn. f_equal. f_equal. ring.
Qed.

(** * The incomplete gamma function *)
Definition kern (a t : R) : R := Rpower t (a - 1) * exp (- t).
Lemma kern_cont a : cont (kern a).
Proof. intros x X. apply (@ex_derive_continuous R_AbsRing R_NormedModule). unfold kern, Rpower. auto_derive. exact X. Qed.
Lemma kern_pos a t : 0 < kern a t. Proof. apply Rmult_lt_0_compat; apply exp_pos. Qed.
Definition is_ugamma (a : R) (U : R -> R) : Prop := (forall x, 0 < x -> is_derive U x (- kern a x)) /\ is_lim U p_infty 0.
Lemma ugamma_above a U : (forall x, 0 < x -> integral_above (kern a) x (U x)) <-> is_ugamma a U.
Proof. apply above_derive, kern_cont. Qed.

(** t^s e^-t vanishes at infinity *)
Lemma ln_tangent c t : 0 < c -> 0 < t -> ln t <= ln c + (t - c) / c.
Proof.
  intros C T. pose proof (exp_ineq1_le (ln (t / c))) as E. rewrite exp_ln in E by (apply Rdiv_lt_0_compat; auto).
  rewrite ln_div in E by auto. replace ((t - c) / c) with (t / c - 1) by (field; lra). lra.
Qed.
Lemma exp_le x y : x <= y -> exp x <= exp y.
Proof. intros [H| ->]; [left; apply exp_increasing, H|right; reflexivity]. Qed.
Lemma power_exp_bound s : exists K, forall t, 1 <= t -> Rpower t s <= exp (K + t / 2).
Proof.
  destruct (Rle_dec s 0) as [N|N].
  - exists 0. intros t T. apply exp_le. pose proof (ln_le 1 t ltac:(lra) T) as L. rewrite ln_1 in L. nra.
  - exists (s * (ln (2 * s) - 1)). intros t T. apply exp_le.
    pose proof (ln_tangent (2 * s) t ltac:(lra) ltac:(lra)) as L.
    assert (E : s * ((t - 2 * s) / (2 * s)) = t / 2 - s) by (field; lra). nra.
Qed.
Lemma vanish s : is_lim (fun t => Rpower t s * exp (- t)) p_infty 0.
Proof.
  destruct (power_exp_bound s) as [K HK].
  apply (is_lim_le_le_loc (fun _ => 0) (fun t => exp K * exp (- (t / 2)))).
  - exists 1. intros t T. split; [apply Rlt_le, Rmult_lt_0_compat; apply exp_pos|].
    specialize (HK t ltac:(lra)). pose proof (exp_pos (- t)).
    apply Rle_trans with (exp (K + t / 2) * exp (- t)); [nra|]. rewrite <- !exp_plus. right. f_equal. lra.
  - apply is_lim_const.
  - replace (Finite 0) with (Rbar_mult (exp K) 0) by (cbn; f_equal; ring). apply is_lim_scal_l.
    apply (is_lim_comp exp (fun t => - (t / 2)) p_infty 0 m_infty).
    + apply is_lim_exp_m.
    + apply (is_lim_ext (fun t => (- / 2) * t)); [intros; lra|].
      replace m_infty with (Rbar_mult (- / 2) p_infty); [apply is_lim_scal_l, is_lim_id|].
      cbn. destruct (Rle_dec 0 (- / 2)); [exfalso; lra|reflexivity].
    + exists 0. discriminate.
Qed.
(** one step of the recursion *)
Lemma ugamma_step s U : s <> 0 -> is_ugamma (s + 1) U -> is_ugamma s (fun x => (U x - Rpower x s * exp (- x)) / s).
Proof.
  intros S (D & L). split.
  - intros x X. specialize (D x X).
    assert (E : is_derive (fun x => Rpower x s * exp (- x)) x (s * kern s x - kern (s + 1) x)).
    { unfold kern, Rpower. auto_derive; [exact X|]. replace (s + 1 - 1) with s by ring.
      replace ((s - 1) * ln x) with (s * ln x + - ln x) by ring. rewrite exp_plus, (exp_Ropp (ln x)), exp_ln by auto. field. lra. }
    apply (is_derive_ext (fun x => / s * (U x - Rpower x s * exp (- x)))); [intros; exact (Rmult_comm _ _)|].
    replace (- kern s x) with (/ s * (- kern (s + 1) x - (s * kern s x - kern (s + 1) x))) by (field; auto).
    apply is_derive_scal. apply (@is_derive_minus R_AbsRing R_NormedModule); auto.
  - apply (is_lim_ext (fun x => / s * (U x - Rpower x s * exp (- x)))); [intros; exact (Rmult_comm _ _)|].
    replace (Finite 0) with (Rbar_mult (/ s) 0) by (cbn; f_equal; ring). apply is_lim_scal_l.
    eapply is_lim_minus; [exact L|apply vanish|]. unfold is_Rbar_minus, is_Rbar_plus. cbn. f_equal. f_equal. ring.
Qed.
Lemma ugamma_ext a U V : (forall x, 0 < x -> U x = V x) -> is_ugamma a U -> is_ugamma a V.
Proof.
  intros E H. apply ugamma_above. intros x X. rewrite <- E by auto. revert x X. apply ugamma_above. exact H.
Qed.
Lemma ugamma_steps m U n : (forall i, (i < n)%nat -> m - INR (i + 1) <> 0) -> is_ugamma m U ->
  is_ugamma (m - INR n) (fun x => fold_left (fun gp i => (gp - Rpower x (m - INR (i + 1)) * exp (- x)) / (m - INR (i + 1))) (seq 0 n) (U x)).
Proof.
  induction n as [|n IH]; intros H K.
  - cbn. replace (m - 0) with m by ring. eapply ugamma_ext; [|exact K]. reflexivity.
  - rewrite seq_S. cbn [plus].
    assert (G : is_ugamma (m - INR (S n)) (fun x => (fold_left (fun gp i => (gp - Rpower x (m - INR (i + 1)) * exp (- x)) / (m - INR (i + 1))) (seq 0 n) (U x) - Rpower x (m - INR (S n)) * exp (- x)) / (m - INR (S n)))).
    { apply (ugamma_step (m - INR (S n))).
      - replace (S n) with (n + 1)%nat by lia. apply H. lia.
      - rewrite S_INR. replace (m - (INR n + 1) + 1) with (m - INR n) by ring. apply IH; auto. }
    eapply ugamma_ext; [|exact G]. intros x X. cbn beta. rewrite fold_left_app. cbn [fold_left]. replace (0 + n + 1)%nat with (S n) by lia. reflexivity.
Qed.
Lemma amod_range a : 0 <= amod a < 1. Proof. apply rmod_range. lra. Qed.
Lemma amod_pos a : 0 < a -> steps a = 0%nat.
Proof.
  intros A. unfold steps, amod, rmod. replace (a / 1) with a by field. pose proof (rfloor_spec a) as S.
  replace (a - 1 * IZR (rfloor a) - a) with (IZR (- rfloor a)) by (rewrite opp_IZR; ring).
  rewrite (rfloor_unique _ (- rfloor a)) by lra. assert (0 <= rfloor a)%Z; [|lia].
  assert (-1 < rfloor a)%Z; [|lia]. apply lt_IZR. lra.
Qed.
Lemma amod_neg a : a <= 0 -> amod a - INR (steps a) = a.
Proof.
  intros A. unfold steps, amod, rmod. replace (a / 1) with a by field. pose proof (rfloor_spec a) as S.
  replace (a - 1 * IZR (rfloor a) - a) with (IZR (- rfloor a)) by (rewrite opp_IZR; ring).
  rewrite (rfloor_unique (IZR (- rfloor a)) (- rfloor a)) by lra.
  assert (rfloor a <= 0)%Z. { apply le_IZR. lra. }
  rewrite INR_IZR_INZ, Z2Nat.id by lia. rewrite opp_IZR. ring.
Qed.
(** the function computed is the incomplete gamma function, for every a *)
Lemma ugamma_ok F a : scipy_special F -> is_ugamma a (uppergammamod F a).
Proof.
  intros (G & E). assert (G' : forall a, 0 < a -> is_ugamma a (fun x => gamma F a * gammaincc F a x)).
  { intros b B. apply ugamma_above. intros x X. apply G; auto. }
  assert (E' : is_ugamma 0 (fun x => - expi F (- x))).
  { apply ugamma_above. intros x X. unfold integral_above. eapply is_RInt_gen_ext; [|exact (E x X)].
    exists (fun y => y = x) (fun y => x < y); [reflexivity|exists x; auto|]. intros u y -> Y t T. cbn in T.
    rewrite Rmin_left, Rmax_right in T by lra. unfold kern, Rdiv. rewrite Rmult_comm. f_equal.
    replace (0 - 1) with (- (1)) by ring. rewrite Rpower_Ropp, Rpower_1 by lra. reflexivity. }
  unfold uppergammamod, base. destruct (rltb 0 a) eqn:A; [apply rltb_lt in A|apply rltb_ge in A].
  - rewrite amod_pos by auto. cbn [seq fold_left]. auto.
  - assert (B : is_ugamma (amod a) (fun x => if reqb (amod a) 0 then - expi F (- x) else gamma F (amod a) * gammaincc F (amod a) x)).
    { pose proof (amod_range a). destruct (reqb (amod a) 0) eqn:Z; [apply reqb_eq in Z; rewrite Z; exact E'|apply reqb_ne in Z]. apply G'. lra. }
    rewrite <- (amod_neg a A) at 1. unfold step. apply (ugamma_steps (amod a) _ (steps a)); auto.
    intros i I. pose proof (amod_range a). assert (1 <= INR (i + 1)); [|lra]. rewrite plus_INR. cbn. pose proof (pos_INR i). lra.
Qed.

(** such functions exist *)
Lemma RInt_pos f a b : cont f -> (forall t, 0 < f t) -> 0 < a <= b -> 0 <= RInt f a b.
Proof. intros C P H. apply RInt_ge_0; [lra|apply ex_int; auto; lra|]. intros. left. apply P. Qed.
Lemma kern_int_bound a x : 0 < x -> exists M, forall y, x <= y -> RInt (kern a) x y <= M.
Proof.
  intros X. destruct (power_exp_bound (a - 1)) as [K HK].
  set (z := Rmax 1 x). assert (Z : 1 <= z /\ x <= z) by (split; [apply Rmax_l|apply Rmax_r]).
  assert (B : forall y, z <= y -> RInt (kern a) z y <= 2 * exp K).
  { intros y Y.
    assert (I : is_RInt (fun t => exp (K + - (t / 2))) z y (minus (- 2 * exp (K + - (y / 2))) (- 2 * exp (K + - (z / 2))))).
    { apply (is_RInt_derive (fun t => - 2 * exp (K + - (t / 2)))).
      - intros t T. auto_derive; [trivial|]. unfold Rdiv. field.
      - intros t T. apply (@ex_derive_continuous R_AbsRing R_NormedModule). auto_derive. trivial. }
    apply Rle_trans with (RInt (fun t => exp (K + - (t / 2))) z y).
    - apply RInt_le; [lra|apply ex_int; [apply kern_cont| |]; lra|eexists; exact I|].
      intros t T. unfold kern. specialize (HK t ltac:(lra)). pose proof (exp_pos (- t)).
      apply Rle_trans with (exp (K + t / 2) * exp (- t)); [nra|]. rewrite <- exp_plus. right. f_equal. lra.
    - rewrite (is_RInt_unique _ _ _ _ I). unfold minus, plus, opp. cbn. pose proof (exp_pos (K + - (y / 2))).
      pose proof (exp_le (K + - (z / 2)) K ltac:(lra)). lra. }
  exists (RInt (kern a) x z + 2 * exp K). intros y Y. destruct (Rle_dec z y) as [W|W].
  - rewrite <- (chasles (kern a) x z y (kern_cont a)) by lra. specialize (B y W). lra.
  - rewrite <- (chasles (kern a) x y z (kern_cont a)) by lra.
    pose proof (RInt_pos (kern a) y z (kern_cont a) (kern_pos a) ltac:(lra)). pose proof (exp_pos K). lra.
Qed.
Lemma kern_above_ex a x : 0 < x -> exists v, integral_above (kern a) x v.
Proof.
  intros X. destruct (kern_int_bound a x X) as [M HM].
  assert (Mono : forall y z, x <= y <= z -> RInt (kern a) x y <= RInt (kern a) x z).
  { intros y z H. rewrite <- (chasles (kern a) x y z (kern_cont a)) by lra.
    pose proof (RInt_pos (kern a) y z (kern_cont a) (kern_pos a) ltac:(lra)). lra. }
  destruct (ex_finite_lim_seq_incr (fun n => RInt (kern a) x (x + INR n)) M) as [v V].
  - intros n. apply Mono. rewrite S_INR. pose proof (pos_INR n). lra.
  - intros n. apply HM. pose proof (pos_INR n). lra.
  - exists v. apply above_lim; auto using kern_cont. apply is_lim_spec. intros eps. apply is_lim_seq_spec in V.
    assert (Up : forall y, x <= y -> RInt (kern a) x y <= v).
    { intros y Y. destruct (nfloor_ex (Rmax 0 (y - x)) (Rmax_l _ _)) as [n [_ N]]. pose proof (Rmax_r 0 (y - x)).
      apply Rle_trans with (RInt (kern a) x (x + INR (S n))); [apply Mono; rewrite S_INR; lra|].
      apply (is_lim_seq_incr_compare (fun n => RInt (kern a) x (x + INR n)) v); [apply is_lim_seq_spec, V|].
      intros k. apply Mono. rewrite S_INR. pose proof (pos_INR k). lra. }
    destruct (V eps) as [N HN]. exists (x + INR N). intros y Y. pose proof (pos_INR N).
    specialize (HN N (le_n N)). specialize (Up y ltac:(lra)). pose proof (Mono (x + INR N) y ltac:(lra)).
    apply Rabs_def2 in HN. apply Rabs_def1; lra.
Qed.
Definition ugamma (a x : R) : R := RInt_gen (kern a) (at_point x) (Rbar_locally p_infty).
Lemma ugamma_is a x : 0 < x -> integral_above (kern a) x (ugamma a x).
Proof.
  intros X. destruct (kern_above_ex a x X) as [v V]. unfold ugamma.
  rewrite (is_RInt_gen_unique (kern a) v V). exact V.
Qed.
Definition scipy_ex : special := mkSpecial (fun _ => 1) ugamma (fun x => - ugamma 0 (- x)).
Lemma scipy_ex_ok : scipy_special scipy_ex.
Proof.
  split.
  - intros a x _ X. cbn. rewrite Rmult_1_l. exact (ugamma_is a x X).
  - intros x X. cbn. rewrite !Ropp_involutive. unfold integral_above. eapply is_RInt_gen_ext; [|exact (ugamma_is 0 x X)].
    exists (fun y => y = x) (fun y => x < y); [reflexivity|exists x; auto|]. intros u y -> Y t T. cbn in T.
    rewrite Rmin_left, Rmax_right in T by lra. unfold kern, Rdiv. rewrite Rmult_comm. f_equal.
    replace (0 - 1) with (- (1)) by ring. rewrite Rpower_Ropp, Rpower_1 by lra. reflexivity.
Qed.
