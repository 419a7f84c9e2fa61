(** Proofs about the reference frequency of the built-in responses (C105). *)
From Verif Require Import Dict Util RealUtil RawModel RespModel RespSpec Resp Resp2.
From Coq Require Import Reals Lra Lia.
Open Scope string_scope. Open Scope list_scope.
Open Scope R_scope.

(** * The built-in responses *)
Definition gauss (A f0 w f : R) : R := A * exp (-4 * ln 2 * ((f - f0) ^ 2 / w ^ 2)).
Lemma gauss_sampled A f0 w : w <> 0 -> sampled (gauss A f0 w) (fun f => gauss_response f A f0 w).
Proof. intros H l. unfold gauss_response, sq_over. cbn [check_shape bind]. rewrite (proj2 (reqb_ne w 0) H). reflexivity. Qed.
Lemma boxcar_sampled A f0 w : sampled (box A (f0 - w / 2) (f0 + w / 2)) (fun f => boxcar_response f A f0 w).
Proof. intros l. reflexivity. Qed.
Lemma ln2_pos : 0 < ln 2.
Proof. rewrite <- ln_1. apply ln_increasing; lra. Qed.
Lemma gauss_lt A f0 w x y : 0 < A -> w <> 0 -> (y - f0) ^ 2 < (x - f0) ^ 2 -> gauss A f0 w x < gauss A f0 w y.
Proof.
  intros HA Hw H. unfold gauss. apply Rmult_lt_compat_l; [exact HA|]. apply exp_increasing. pose proof ln2_pos.
  assert (0 < / w ^ 2) by (apply Rinv_0_lt_compat; nra). unfold Rdiv. assert ((y - f0) ^ 2 * / w ^ 2 < (x - f0) ^ 2 * / w ^ 2) by (apply Rmult_lt_compat_r; assumption). nra.
Qed.
Lemma gauss_peaked A f0 w : 0 < A -> w <> 0 -> peaked (gauss A f0 w) f0.
Proof. intros HA Hw. split; intros; apply gauss_lt; auto; nra. Qed.
Lemma gauss_found A f0 w : 0 < A -> w <> 0 -> e10 (-20 + 8 / 10000) <= f0 <= e10 (20 - 8 / 10000) ->
  exists r, finds (fun f => gauss_response f A f0 w) (Freq r) /\ f0 * e10 (- (4 / 10000)) < r < f0 * e10 (4 / 10000).
Proof.
  intros HA Hw [H1 H2]. assert (P : 0 < f0) by (pose proof (e10_pos (-20 + 8 / 10000)); lra). set (q := log10 f0). assert (E : e10 q = f0) by (apply e10_log10; exact P).
  assert (Q : -20 + 8 / 10000 <= q <= 20 - 8 / 10000). { split; apply Rnot_lt_le; intros L; apply e10_lt in L; lra. }
  destruct (peak_found (gauss A f0 w) _ q (gauss_sampled A f0 w Hw)) as (r & R1 & R2); [rewrite E; apply gauss_peaked; auto|exact Q|].
  exists (e10 r). split; [exact R1|]. rewrite <- E at 1 2. rewrite <- !e10_plus. split; apply e10_lt; lra.
Qed.

(** * The grid is not refined at its own points *)
Lemma gridt_shift a b i j : gridt a b i = gridt a b j + (INR i - INR j) * ((b - a) / 50000).
Proof. unfold gridt. ring. Qed.
Lemma int_gap i j x : -1 < x -> x < 2 -> x = INR i - INR j -> i = j \/ i = S j.
Proof.
  intros H1 H2 E. rewrite !INR_IZR_INZ, <- minus_IZR in E. rewrite E in *. apply lt_IZR in H1, H2. lia.
Qed.
(** the best point is the grid point just below the peak if that is closer in frequency than the next *)
Lemma stays A f0 w a b j q : 0 < A -> w <> 0 -> a < b -> f0 = e10 q -> (j < points)%nat ->
  gridt a b j <= q < gridt a b j + (b - a) / 50000 -> a <= q <= b -> f0 - e10 (gridt a b j) < e10 (gridt a b j + (b - a) / 50000) - f0 ->
  best_in (fun f => gauss_response f A f0 w) a b = Ok (e10 (gridt a b j)).
Proof.
  intros HA Hw Hab E Lj Hq Hr Hc. pose proof (gauss_sampled A f0 w Hw) as HS. pose proof (gauss_peaked A f0 w HA Hw) as HP.
  destruct (peak_near _ _ a b q HS ltac:(rewrite <- E; exact HP) Hab Hr) as (i & Li & Ei & Hi).
  destruct (best_sampled _ _ a b HS) as (i' & Li' & Ei' & F & _). assert (Q : i' = i).
  { rewrite Ei in Ei'. assert (K : e10 (gridt a b i) = e10 (gridt a b i')) by congruence. apply e10_inj in K. destruct (Nat.lt_trichotomy i i') as [L|[L|L]]; [|auto|]; apply (gridt_lt a b _ _ Hab) in L; lra. }
  subst i'. rewrite Ei. pose proof (gridt_shift a b i j) as G. set (d := (b - a) / 50000) in *. assert (D : 0 < d) by (unfold d; lra).
  destruct (int_gap i j (INR i - INR j)) as [->| ->]; [nra|nra|reflexivity|reflexivity|]. exfalso.
  pose proof (F j Lj) as K. apply Rle_not_lt in K. apply K. rewrite gridt_S. fold d. apply gauss_lt; [exact HA|exact Hw|].
  assert (e10 (gridt a b j) <= f0) by (rewrite E; apply e10_le; lra). assert (f0 < e10 (gridt a b j + d)) by (rewrite E; apply e10_lt; lra). nra.
Qed.
Lemma eleven_points : (38750 < points)%nat.
Proof. rewrite points_Z. apply Nat.ltb_lt. vm_compute. reflexivity. Qed.
Lemma eleven_R : INR 38750 = 38750.
Proof. rewrite INR_IZR_INZ. f_equal. Qed.
Definition tick : R := e10 (1 / 10000).
Lemma tick_gt : 1 + 2 / 10000 < tick.
Proof.
  unfold tick. rewrite e10_exp. pose proof ln10_2. eapply Rlt_le_trans; [|apply exp_lower]. lra.
Qed.
Lemma gauss_off A w : 0 < A -> w <> 0 -> finds (fun f => gauss_response f A (e10 11 * tick) w) (Freq (e10 11)).
Proof.
  intros HA Hw. set (f0 := e10 11 * tick). pose proof tick_gt as T. pose proof (e10_pos 11) as P. set (resp := fun f => gauss_response f A f0 w).
  assert (E : f0 = e10 (11 + 1 / 10000)) by (unfold f0, tick; rewrite e10_plus; reflexivity).
  assert (C : forall n, (4 <= n)%nat -> f0 - e10 11 < e10 (11 + INR n * (1 / 10000)) - f0).
  { intros n Hn. rewrite e10_plus. assert (Q : e10 (INR n * (1 / 10000)) = tick ^ n).
    { rewrite <- Rpower_pow by (unfold tick; apply e10_pos). unfold tick, e10, Rpower. rewrite ln_exp. f_equal. ring. }
    rewrite Q. assert (tick ^ 4 <= tick ^ n) by (apply Rle_pow; [lra|exact Hn]). cbn [pow] in H. unfold f0. assert (2 * tick - 1 < tick * (tick * (tick * (tick * 1)))).
    { assert (0 < tick - 1) by lra. assert (0 < (tick - 1) * (tick * tick * tick + tick * tick + tick - 1)) by (apply Rmult_lt_0_compat; nra). nra. }
    nra. }
  assert (B1 : best_in resp (-20) 20 = Ok (e10 11)).
  { assert (G : gridt (-20) 20 38750 = 11) by (unfold gridt; rewrite eleven_R; field). rewrite <- G. apply stays with (q := 11 + 1 / 10000); auto; try lra; [apply eleven_points|].
    rewrite G. replace ((20 - -20) / 50000) with (INR 8 * (1 / 10000)) by (cbn; field). apply C. lia. }
  assert (B2 : best_in resp (11 - 20 / 2) (11 + 20 / 2) = Ok (e10 11)).
  { assert (G : gridt (11 - 20 / 2) (11 + 20 / 2) 25000 = 11) by (rewrite gridt_mid; field). rewrite <- G at 3. apply stays with (q := 11 + 1 / 10000); auto; try lra; [apply half_points|].
    rewrite G. replace ((11 + 20 / 2 - (11 - 20 / 2)) / 50000) with (INR 4 * (1 / 10000)) by (cbn; field). apply C. lia. }
  exists 2%nat. intros k' Hk. apply search_more with (k := 2%nat); [exact Hk|].
  pose proof (pass_at resp 1 0 40 None 38750) as Q. replace (0 - 40 / 2) with (-20) in Q by field. replace (0 + 40 / 2) with 20 in Q by field. cbv zeta in Q.
  replace (gridt (-20) 20 38750) with 11 in Q by (unfold gridt; rewrite eleven_R; field). rewrite Q; [|lra|apply eleven_points|exact B1|lra]. clear Q.
  replace (40 / 2) with 20 by field. pose proof (pass_at resp 0 11 20 (Some (e10 11)) 25000) as Q. cbv zeta in Q.
  replace (gridt (11 - 20 / 2) (11 + 20 / 2) 25000) with 11 in Q by (rewrite gridt_mid; field). rewrite Q; [|lra|apply half_points|exact B2|lra].
  replace (e10 11 - e10 11) with 0 by ring. rewrite Rabs_R0. assert (K : 0 <= 1 / 100) by lra. apply rleb_le in K. rewrite K. reflexivity.
Qed.
Lemma e10_11 : e10 11 = 10 ^ 11.
Proof. unfold e10. rewrite <- Rpower_pow by lra. f_equal. rewrite INR_IZR_INZ. reflexivity. Qed.
Lemma far_off : 10 ^ 7 < e10 11 * tick - e10 11.
Proof. rewrite e10_11. pose proof tick_gt. lra. Qed.

(** * Boxcars *)
Lemma boxcar_found A f0 w : 0 < A -> e10 (-20) < f0 - w / 2 -> f0 + w / 2 < e10 20 -> (f0 - w / 2) * e10 (8 / 10000) <= f0 + w / 2 ->
  exists r, finds (fun f => boxcar_response f A f0 w) (Freq r) /\ f0 - w / 2 <= r < (f0 - w / 2) * e10 (4 / 10000).
Proof.
  intros HA H1 H2 H3. set (a := f0 - w / 2) in *. set (b := f0 + w / 2) in *. assert (Pa : 0 < a) by (pose proof (e10_pos (-20)); lra).
  assert (G : 1 < e10 (8 / 10000)) by (replace 1 with (e10 0) by (apply Rpower_O; lra); apply e10_lt; lra). assert (Pb : 0 < b) by nra.
  assert (Ea : e10 (log10 a) = a) by (apply e10_log10; exact Pa). assert (Eb : e10 (log10 b) = b) by (apply e10_log10; exact Pb).
  destruct (box_found A (log10 a) (log10 b) (fun f => boxcar_response f A f0 w)) as (r & R1 & R2); [exact HA|rewrite Ea, Eb; apply boxcar_sampled| | | |].
  - apply e10_lt_inv. lra.
  - apply e10_lt_inv. lra.
  - apply Rnot_lt_le. intros Q. apply e10_lt in Q. rewrite e10_plus, Ea, Eb in Q. lra.
  - exists (e10 r). split; [exact R1|]. rewrite <- Ea at 1 2. rewrite <- e10_plus. split; [apply e10_le; lra|apply e10_lt; lra].
Qed.
Lemma below_centre a b : 0 < a -> a * e10 (8 / 10000) <= b -> a * e10 (4 / 10000) < (a + b) / 2.
Proof.
  intros Pa H. replace (8 / 10000) with (4 / 10000 + 4 / 10000) in H by field. rewrite e10_plus in H. assert (G : 1 < e10 (4 / 10000)) by (replace 1 with (e10 0) by (apply Rpower_O; lra); apply e10_lt; lra).
  set (g := e10 (4 / 10000)) in *. assert (a * (2 * g) < a * (1 + g * g)) by (apply Rmult_lt_compat_l; nra). lra.
Qed.
Lemma boxcar_missed A f0 w n : e10 (-20 + INR n * (8 / 10000)) < f0 - w / 2 -> f0 + w / 2 < e10 (-20 + INR (S n) * (8 / 10000)) ->
  finds (fun f => boxcar_response f A f0 w) Unknown.
Proof.
  intros H1 H2. apply box_missed with (A := A) (lo := f0 - w / 2) (hi := f0 + w / 2); [apply boxcar_sampled|]. intros i Li [K1 K2].
  assert (G : gridt (-20) 20 i = -20 + INR i * (8 / 10000)) by (unfold gridt; field). rewrite G in K1, K2.
  assert (Q1 : e10 (-20 + INR n * (8 / 10000)) < e10 (-20 + INR i * (8 / 10000))) by lra. assert (Q2 : e10 (-20 + INR i * (8 / 10000)) < e10 (-20 + INR (S n) * (8 / 10000))) by lra.
  apply e10_lt_inv in Q1, Q2. assert (L1 : INR n < INR i) by lra. assert (L2 : INR i < INR (S n)) by lra. apply INR_lt in L1, L2. lia.
Qed.
Lemma missed_100 : finds (fun f => boxcar_response f 1 (1001 / 10) (1 / 10)) Unknown.
Proof.
  assert (R27 : INR 27500 = 27500) by (rewrite INR_IZR_INZ; reflexivity).
  assert (E2 : e10 2 = 100). { unfold e10. replace 2 with (INR 2) by (cbn; ring). rewrite Rpower_pow by lra. ring. }
  apply boxcar_missed with (n := 27500%nat).
  - rewrite R27. replace (-20 + 27500 * (8 / 10000)) with 2 by field. rewrite E2. lra.
  - rewrite S_INR, R27. replace (-20 + (27500 + 1) * (8 / 10000)) with (2 + 8 / 10000) by field. rewrite e10_plus, E2.
    assert (1 + 16 / 10000 < e10 (8 / 10000)). { rewrite e10_exp. pose proof ln10_2. eapply Rlt_le_trans; [|apply exp_lower]. lra. } lra.
Qed.
