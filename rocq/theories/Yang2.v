(** Lemmas for C82: redshift zero, the global generator, names and the mean over the duty
    cycle. *)
From Verif Require Import Dict Util RealUtil RelModel RelSpec Rel Rel2 YangModel YangSpec Yang.
From Coq Require Import Reals Lra Lia.
Open Scope string_scope. Open Scope list_scope.
Open Scope R_scope.

Lemma p10_le x y : x <= y -> p10 x <= p10 y.
Proof. intros H. unfold p10. apply Rle_Rpower; lra. Qed.
Lemma p10_lin x : 0 <= x -> 1 + x <= p10 x.
Proof.
  intros H. rewrite p10_exp. apply Rle_trans with (exp x).
  - destruct H as [H|<-]; [left; apply exp_ineq1; lra|rewrite exp_0; lra].
  - assert (1 < ln 10). { rewrite <- (ln_exp 1). apply ln_increasing; [apply exp_pos|]. pose proof exp_le_3. lra. }
    destruct H as [H|<-]; [left; apply exp_increasing; nra|rewrite Rmult_0_r; lra].
Qed.
(** the luminosity is below 2 M^2 / 10^m1 when the slopes are steep and M is small *)
Lemma dp_small m1 n a b m : 0 < m -> m <= p10 m1 -> n <= 0 -> 1 <= a -> double_power m1 n a b m <= 2 * m * m / p10 m1.
Proof.
  intros M A N S. unfold double_power. change (Rpower 10 m1) with (p10 m1). change (Rpower 10 n) with (p10 n).
  pose proof (p10_pos m1) as P. pose proof (p10_pos n) as Q.
  assert (N1 : p10 n <= 1). { unfold p10. rewrite <- (Rpower_O 10) by lra. apply Rle_Rpower; lra. }
  set (x := m / p10 m1) in *.
  assert (X0 : 0 < x) by (unfold x, Rdiv; apply Rmult_lt_0_compat; [|apply Rinv_0_lt_compat]; lra).
  assert (X1 : x <= 1). { unfold x. apply Rmult_le_reg_r with (p10 m1); [lra|]. unfold Rdiv. rewrite Rmult_assoc, Rinv_l by lra. lra. }
  assert (D1 : / x <= Rpower x (- a)).
  { rewrite <- (Rpower_1 x) at 1 by lra. rewrite <- Rpower_Ropp. unfold Rpower.
    assert (L : ln x <= 0). { destruct (Rle_lt_or_eq_dec _ _ X1) as [H|H]; [left; rewrite <- ln_1; apply ln_increasing; lra|rewrite H, ln_1; lra]. }
    assert (E : - (1) * ln x <= - a * ln x) by nra.
    destruct E as [E|E]; [left; apply exp_increasing; exact E|rewrite E; lra]. }
  assert (D2 : 0 < Rpower x b) by apply exp_pos.
  assert (IX : 0 < / x) by (apply Rinv_0_lt_compat; lra).
  apply Rle_trans with (2 * 1 * m / (/ x)).
  - unfold Rdiv. apply Rmult_le_compat.
    + nra.
    + left. apply Rinv_0_lt_compat. lra.
    + nra.
    + apply Rinv_le_contravar; lra.
  - right. unfold x. field. split; lra.
Qed.
Lemma cii_faint m e : 0 < m -> 0 < e -> exists z, 0 < z < e /\ z < 1 /\ yang_L (cii_fit z) m < e.
Proof.
  intros M E.
  set (K := (1 + m + 2 * m * m / e) * 100 + 1 / e).
  assert (IE : 0 < / e) by (apply Rinv_0_lt_compat; lra).
  assert (Q0 : 0 <= 2 * m * m / e) by (unfold Rdiv; apply Rmult_le_pos; nra).
  assert (I1 : 1 / e = / e) by (unfold Rdiv; ring).
  assert (K1 : 1 < K) by (unfold K; lra).
  exists (exp (- K)).
  assert (ZP : 0 < exp (- K)) by apply exp_pos.
  assert (ZI : / exp (- K) = exp K) by (rewrite exp_Ropp, Rinv_inv; reflexivity).
  assert (EK : 1 + K < exp K) by (apply exp_ineq1; lra).
  assert (ZE : exp (- K) < e).
  { rewrite <- (Rinv_inv e), <- (Rinv_inv (exp (- K))). apply Rinv_lt_contravar; [apply Rmult_lt_0_compat; rewrite ?ZI; try lra; apply exp_pos|].
    rewrite ZI. unfold K in *. lra. }
  assert (Z1 : exp (- K) < 1). { rewrite <- exp_0. apply exp_increasing. lra. }
  split; [lra|]. split; [exact Z1|].
  assert (M1 : 1211 / 100 * Rpower (exp (- K)) (- 4105 / 10 ^ 5) = 1211 / 100 * exp (4105 / 10 ^ 5 * K)).
  { unfold Rpower. rewrite ln_exp. do 2 f_equal. lra. }
  set (m1 := 1211 / 100 * exp (4105 / 10 ^ 5 * K)) in *.
  assert (BIG : 1 + m + 2 * m * m / e < m1).
  { assert (1 + 4105 / 10 ^ 5 * K < exp (4105 / 10 ^ 5 * K)) by (apply exp_ineq1; lra). unfold m1.
    assert (HK : K = (1 + m + 2 * m * m / e) * 100 + / e) by (unfold K; lra). lra. }
  pose proof (p10_lin m1 ltac:(lra)) as PL.
  set (z := exp (- K)) in *.
  assert (LE : yang_L (cii_fit z) m <= 2 * m * m / p10 m1).
  { replace (yang_L (cii_fit z) m) with (double_power m1 (- 907 / 1000 * exp (- z / (867 / 1000)) - 304 / 100)
      (135 / 100 + 450 / 1000 * z - 805 / 10 ^ 4 * z ^ 2) (257 / 100 * exp (- z / (155 / 100)) + 575 / 10 ^ 4) m).
    2:{ unfold yang_L, cii_fit, f_m1, f_n, f_a, f_b. rewrite (proj2 (rleb_gt z 0)) by lra.
        assert (z < 4) by lra. rng z. rewrite M1. reflexivity. }
    apply dp_small; try lra.
    - pose proof (exp_pos (- z / (867 / 1000))). lra.
    - nra. }
  apply Rle_lt_trans with (1 := LE).
  assert (PP : 0 < p10 m1) by lra.
  apply Rmult_lt_reg_r with (p10 m1); [lra|]. unfold Rdiv. rewrite Rmult_assoc, Rinv_l, Rmult_1_r by lra.
  assert (X : 2 * m * m / e < p10 m1) by lra.
  apply Rmult_lt_compat_l with (r := e) in X; [|lra]. replace (e * (2 * m * m / e)) with (2 * m * m) in X by (field; lra). lra.
Qed.
Lemma yang_one {G} (normals uniforms : nat -> G -> list R * G) m z fs g gg :
  yang22 normals uniforms (m :: nil) (ZScalar z) "CII" false false fs g gg = Ok (yang_L (cii_fit z) m :: nil, g, gg).
Proof. reflexivity. Qed.
Lemma yang_zero m : 0 < m -> 0 < yang_L (cii_fit 0) m.
Proof. intros M. apply (dp_pos (f_m1 (cii_fit 0)) (f_n (cii_fit 0)) (f_a (cii_fit 0)) (f_b (cii_fit 0)) m M). Qed.
Lemma on_unique m z f f' : yang_on m z f -> yang_on m z f' -> f = f'.
Proof. intros (A & B) (C & D). destruct (Rlt_le_dec z 4) as [H|H]; [rewrite (A H), (C H)|rewrite (B H), (D H)]; reflexivity. Qed.
Lemma yang_names {G} (normals uniforms : nat -> G -> list R * G) mass z line d s fs g gg :
  yang_table line = None -> line <> "CI1-0" -> line <> "CI2-1" ->
  yang22 normals uniforms mass z line d s fs g gg = Raise ValueError.
Proof.
  intros T A B. unfold yang_table in T. unfold yang22, yang_fit.
  destruct (String.eqb line "CII"); [discriminate|].
  rewrite (proj2 (String.eqb_neq _ _) A), (proj2 (String.eqb_neq _ _) B). cbn [orb].
  unfold yang_co_names. cbn [index_of]. unfold yang_co in T.
  repeat match type of T with (if ?b then _ else _) = _ => destruct b; [discriminate T|] end. reflexivity.
Qed.
Lemma yang_ci {G} (normals uniforms : nat -> G -> list R * G) mass z line d s fs g gg :
  line = "CI1-0" \/ line = "CI2-1" -> yang22 normals uniforms mass z line d s fs g gg = Raise IndexError.
Proof. intros [->| ->]; reflexivity. Qed.
Lemma yang_co_scalar {G} (normals uniforms : nat -> G -> list R * G) mass z line t d s fs g gg :
  yang_co line = Some t -> yang22 normals uniforms mass (ZScalar z) line d s fs g gg = Raise TypeError.
Proof.
  intros T. unfold yang22, yang_fit, yang_co in *.
  repeat match type of T with (if String.eqb line ?b then _ else _) = _ => destruct (String.eqb_spec line b) as [->|_]; [reflexivity|] end. discriminate T.
Qed.
(** one halo, with the draw for the duty cycle as a variable *)
Lemma yang_mean m z line t : yang_table line = Some t -> 0 < m -> 0 < z ->
  exists v L f, (forall u, exists g, yang22 (fun _ (g : unit) => (0 :: nil, g)) (fun _ (g : unit) => (u :: nil, g)) (m :: nil) (ZArray (z :: nil)) line true false None tt tt = Ok (v u :: nil, fst g, snd g))
    /\ yang_law t m z L /\ yang_on m z f /\ uniform_mean v (f * L).
Proof.
  intros T M Z. destruct (yang_fit_ok line (ZArray (z :: nil)) 1 t T eq_refl) as (f & F & LAW & _).
  exists (fun u => if rltb (yang_fduty m z) u then 0 else yang_L (f z) m), (yang_L (f z) m), (yang_fduty m z).
  split; [|split; [apply LAW; exact Z|split; [apply fduty_ok|]]].
  - intros u. exists (tt, tt). unfold yang22. rewrite F. reflexivity.
  - apply duty_mean.
    + pose proof (proj2 (fduty_ok m z)). lra.
    + intros u U. rewrite (proj2 (rltb_ge _ _)) by lra. reflexivity.
    + intros u U. rewrite (proj2 (rltb_lt _ _)) by lra. reflexivity.
Qed.
