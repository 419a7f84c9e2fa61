(** Proofs about beams, bands and noise (C102-C104). *)
From Verif Require Import Dict Util RealUtil RawModel RespModel RespSpec Resp.
From Coq Require Import Reals Lra Lia.
Open Scope string_scope. Open Scope list_scope.
Open Scope R_scope.

(** * Beams *)
Lemma shape_ok a l : axis a = Some l -> check_shape a = Ok l.
Proof. destruct a; cbn; congruence. Qed.
Lemma shape_bad a : axis a = None -> check_shape a = Raise ValueError.
Proof. destruct a; cbn; congruence. Qed.
Lemma falloff_half x y wx wy : wx <> 0 -> wy <> 0 -> falloff (ext_add (sq_over x wx) (sq_over y wy)) = Some (half_power wx wy x y).
Proof.
  intros Hx Hy. unfold sq_over. rewrite (proj2 (reqb_ne wx 0) Hx), (proj2 (reqb_ne wy 0) Hy). cbn [ext_add falloff]. f_equal. unfold half_power, Rpower. f_equal.
  replace (1 / 2) with (/ 2) by field. rewrite ln_Rinv by lra. field. auto.
Qed.
Lemma array3_map (dx dy fs : list R) (v : R -> R -> R -> option R) (w : nat -> nat -> nat -> option R) :
  (forall i j k x y f, nth_error dx i = Some x -> nth_error dy j = Some y -> nth_error fs k = Some f -> v x y f = w i j k) ->
  array3 (map (fun x => map (fun y => map (fun f => v x y f) fs) dy) dx) (length dx) (length dy) (length fs) w.
Proof.
  intros H. split; [apply map_length|]. intros i Hi. destruct (nth_error dx i) as [x|] eqn:Ex; [|apply nth_error_None in Ex; lia].
  rewrite (nth_error_nth _ i [] (map_nth_error (fun x => map (fun y => map (fun f => v x y f) fs) dy) _ _ Ex)). split; [apply map_length|]. intros j Hj.
  destruct (nth_error dy j) as [y|] eqn:Ey; [|apply nth_error_None in Ey; lia].
  rewrite (nth_error_nth _ j [] (map_nth_error (fun y => map (fun f => v x y f) fs) _ _ Ey)). split; [apply map_length|]. intros k Hk.
  destruct (nth_error fs k) as [f|] eqn:Ef; [|apply nth_error_None in Ef; lia]. rewrite (map_nth_error _ _ _ Ef). f_equal. eauto.
Qed.
Lemma psf_ok dx dy fr xs ys fs wx wy cx cy : axis dx = Some xs -> axis dy = Some ys -> axis fr = Some fs -> wx <> 0 -> wy <> 0 ->
  exists b, gauss_psf dx dy fr wx wy cx cy = Ok b /\
    array3 b (length xs) (length ys) (length fs) (fun i j k => Some (half_power wx wy (nth i xs 0 - cx) (nth j ys 0 - cy))).
Proof.
  intros Hx Hy Hf Wx Wy. unfold gauss_psf. rewrite (shape_ok _ _ Hx), (shape_ok _ _ Hy), (shape_ok _ _ Hf). cbn [bind]. eexists. split; [reflexivity|].
  apply array3_map with (v := fun x y _ => falloff (ext_add (sq_over (x - cx) wx) (sq_over (y - cy) wy))).
  intros i j k x y f Ex Ey _. rewrite falloff_half by auto. rewrite (nth_error_nth _ _ _ Ex), (nth_error_nth _ _ _ Ey). reflexivity.
Qed.
Lemma psf_bad dx dy fr wx wy cx cy : axis dx = None \/ axis dy = None \/ axis fr = None -> gauss_psf dx dy fr wx wy cx cy = Raise ValueError.
Proof.
  intros H. unfold gauss_psf. destruct (axis dx) eqn:Hx; [rewrite (shape_ok _ _ Hx)|rewrite (shape_bad _ Hx); reflexivity]. cbn [bind].
  destruct (axis dy) eqn:Hy; [rewrite (shape_ok _ _ Hy)|rewrite (shape_bad _ Hy); reflexivity]. cbn [bind]. destruct (axis fr) eqn:Hf; [intuition congruence|rewrite (shape_bad _ Hf); reflexivity].
Qed.
Lemma psf_freq_bad dx dy fr f0 wx wy cx cy e : axis dx = None \/ axis dy = None \/ axis fr = None -> gauss_psf_freq dx dy fr f0 wx wy cx cy e = Raise ValueError.
Proof.
  intros H. unfold gauss_psf_freq. destruct (axis dx) eqn:Hx; [rewrite (shape_ok _ _ Hx)|rewrite (shape_bad _ Hx); reflexivity]. cbn [bind].
  destruct (axis dy) eqn:Hy; [rewrite (shape_ok _ _ Hy)|rewrite (shape_bad _ Hy); reflexivity]. cbn [bind]. destruct (axis fr) eqn:Hf; [intuition congruence|rewrite (shape_bad _ Hf); reflexivity].
Qed.
(** the width at frequency [f] of a beam of this width at [f0] *)
Lemma fwhm_ok w f0 e f : 0 < f0 -> 0 < f -> fwhm_at w f0 e f = Ok (w * Rpower (f0 / f) e).
Proof.
  intros H0 Hf. unfold fwhm_at. assert (0 < f / f0) by (apply Rdiv_lt_0_compat; assumption). replace (rltb 0 (f / f0)) with true by (symmetry; apply rltb_lt; assumption).
  replace (reqb f0 0) with false by (symmetry; apply reqb_ne; lra). cbn [negb andb]. do 2 f_equal. unfold Rpower. f_equal. unfold Rdiv. rewrite !ln_mult, !ln_Rinv by (auto using Rinv_0_lt_compat). ring.
Qed.
Lemma mapM_ok {A B} (f : A -> exc B) (g : A -> B) l : (forall x, In x l -> f x = Ok (g x)) -> mapM f l = Ok (map g l).
Proof. induction l as [|a l IH]; intros H; [reflexivity|]. cbn. rewrite H by (left; reflexivity). cbn [bind]. rewrite IH by (intros; apply H; right; auto). reflexivity. Qed.
Lemma combine_map {A B C} (f : A -> B) (g : A -> C) l : combine (map f l) (map g l) = map (fun x => (f x, g x)) l.
Proof. induction l; cbn; congruence. Qed.
Lemma psf_freq_ok dx dy fr xs ys fs f0 wx wy cx cy e : axis dx = Some xs -> axis dy = Some ys -> axis fr = Some fs -> wx <> 0 -> wy <> 0 -> 0 < f0 -> (forall f, In f fs -> 0 < f) ->
  exists b, gauss_psf_freq dx dy fr f0 wx wy cx cy e = Ok b /\
    array3 b (length xs) (length ys) (length fs)
      (fun i j k => let z := Rpower (f0 / nth k fs 0) e in Some (half_power (wx * z) (wy * z) (nth i xs 0 - cx) (nth j ys 0 - cy))).
Proof.
  intros Hx Hy Hf Wx Wy H0 Hp. unfold gauss_psf_freq. rewrite (shape_ok _ _ Hx), (shape_ok _ _ Hy), (shape_ok _ _ Hf). cbn [bind].
  rewrite (mapM_ok (fwhm_at wx f0 e) (fun f => wx * Rpower (f0 / f) e)) by (intros; apply fwhm_ok; auto).
  rewrite (mapM_ok (fwhm_at wy f0 e) (fun f => wy * Rpower (f0 / f) e)) by (intros; apply fwhm_ok; auto). cbn [bind]. rewrite combine_map. eexists. split; [reflexivity|].
  set (L := map _ xs). assert (E : L = map (fun x => map (fun y => map (fun f => falloff (ext_add (sq_over (x - cx) (wx * Rpower (f0 / f) e)) (sq_over (y - cy) (wy * Rpower (f0 / f) e)))) fs) ys) xs).
  { unfold L. apply map_ext. intros x. apply map_ext. intros y. rewrite map_map. reflexivity. }
  rewrite E. apply array3_map with (v := fun x y f => falloff (ext_add (sq_over (x - cx) (wx * Rpower (f0 / f) e)) (sq_over (y - cy) (wy * Rpower (f0 / f) e)))).
  intros i j k x y f Ex Ey Ef. assert (Z : 0 < Rpower (f0 / f) e) by apply exp_pos. rewrite falloff_half by nra.
  rewrite (nth_error_nth _ _ _ Ex), (nth_error_nth _ _ _ Ey), (nth_error_nth _ _ _ Ef). reflexivity.
Qed.
Lemma half_power_1 wx wy : half_power wx wy 0 0 = 1.
Proof. unfold half_power. replace (_ + _) with 0 by (unfold Rdiv; ring). apply Rpower_O. lra. Qed.
Lemma half_power_half wx wy x y : (2 * x / wx) ^ 2 + (2 * y / wy) ^ 2 = 1 -> half_power wx wy x y = 1 / 2.
Proof. intros H. unfold half_power. rewrite H. apply Rpower_1. lra. Qed.
Lemma half_power_lt wx wy x y x' y' : (2 * x / wx) ^ 2 + (2 * y / wy) ^ 2 < (2 * x' / wx) ^ 2 + (2 * y' / wy) ^ 2 -> half_power wx wy x' y' < half_power wx wy x y.
Proof. intros H. unfold half_power, Rpower. apply exp_increasing. assert (ln (1 / 2) < 0). { rewrite <- ln_1. apply ln_increasing; lra. } nra. Qed.

(** * Bands *)
Lemma gauss_band fr fs A f0 w : axis fr = Some fs -> w <> 0 -> gauss_response fr A f0 w = Ok (map (fun f => Some (A * half_power w 1 (f - f0) 0)) fs).
Proof.
  intros Hf Hw. unfold gauss_response. rewrite (shape_ok _ _ Hf). cbn [bind]. f_equal. apply map_ext. intros f. pose proof (falloff_half (f - f0) 0 w 1 Hw ltac:(lra)) as E.
  unfold sq_over in *. rewrite (proj2 (reqb_ne w 0) Hw) in *. rewrite (proj2 (reqb_ne 1 0) ltac:(lra)) in E. cbn [ext_add falloff option_map] in *. f_equal. f_equal.
  assert (Q : forall a b : R, Some a = Some b -> a = b) by congruence. apply Q in E. rewrite <- E. f_equal. field. exact Hw.
Qed.
Lemma box_band fr fs A f0 w : axis fr = Some fs -> exists v, boxcar_response fr A f0 w = Ok (map (fun f => Some (v f)) fs) /\
  forall f, (f0 - w / 2 <= f <= f0 + w / 2 -> v f = A) /\ (~ f0 - w / 2 <= f <= f0 + w / 2 -> v f = 0).
Proof.
  intros Hf. unfold boxcar_response. rewrite (shape_ok _ _ Hf). cbn [bind]. exists (fun f => if rleb (f0 - w / 2) f && rleb f (f0 + w / 2) then A else 0). split; [reflexivity|]. intros f. split.
  - intros [H1 H2]. cbn beta. apply rleb_le in H1, H2. rewrite H1, H2. reflexivity.
  - intros H. cbn beta. destruct (rleb (f0 - w / 2) f) eqn:E1; [|reflexivity]. destruct (rleb f (f0 + w / 2)) eqn:E2; [|reflexivity]. apply rleb_le in E1, E2. tauto.
Qed.
Lemma sum_zero n (v : nat -> R) : (forall k, (k < n)%nat -> v k = 0) -> sum (map v (seq 0 n)) = 0.
Proof.
  assert (G : forall s, (forall k, (k < s + n)%nat -> v k = 0) -> sum (map v (seq s n)) = 0).
  { induction n as [|n IH]; intros s H; [reflexivity|]. cbn. rewrite H, IH by (try lia; intros; apply H; lia). lra. }
  intros H. apply G. exact H.
Qed.
Lemma sum_app l l' : sum (l ++ l') = sum l + sum l'.
Proof. induction l as [|x l IH]; cbn; [lra|rewrite IH; lra]. Qed.
Lemma sum_one n j A (v : nat -> R) : (j < n)%nat -> v j = A -> (forall k, (k < n)%nat -> k <> j -> v k = 0) -> sum (map v (seq 0 n)) = A.
Proof.
  intros Hj Ej H. replace n with (j + (1 + (n - S j)))%nat by lia. rewrite !seq_app, !map_app, !sum_app. cbn [seq map sum Nat.add].
  assert (Z : forall s m, (forall k, (s <= k < s + m)%nat -> v k = 0) -> sum (map v (seq s m)) = 0).
  { clear. intros s m. revert s. induction m as [|m IH]; intros s H; [reflexivity|]. cbn. rewrite H, IH by (try lia; intros; apply H; lia). lra. }
  rewrite !Z by (intros; apply H; lia). rewrite Ej. lra.
Qed.
Lemma band_at A f0 w f x : boxcar_response (ANum f) A f0 w = Ok [Some x] -> (f0 - w / 2 <= f <= f0 + w / 2 -> x = A) /\ (~ f0 - w / 2 <= f <= f0 + w / 2 -> x = 0).
Proof.
  destruct (box_band (ANum f) [f] A f0 w eq_refl) as (v & E & H). rewrite E. cbn [map]. intros Q. assert (K : forall a b : R, Ok [Some a] = Ok [Some b] -> a = b) by congruence. apply K in Q. subst x. apply H.
Qed.
Lemma channels_once start w A n j f (v : nat -> R) : 0 < w -> (j < n)%nat -> start + INR j * w < f < start + (INR j + 1) * w ->
  (forall k, (k < n)%nat -> boxcar_response (ANum f) A (channel start w k) w = Ok [Some (v k)]) -> sum (map v (seq 0 n)) = A.
Proof.
  intros Hw Hj Hf H. apply sum_one with (j := j); [exact Hj| |].
  - apply (band_at _ _ _ _ _ (H j Hj)). unfold channel. lra.
  - intros k Hk N. apply (band_at _ _ _ _ _ (H k Hk)). unfold channel. intros [H1 H2].
    destruct (Nat.lt_ge_cases k j) as [L|L].
    + assert (INR k + 1 <= INR j) by (rewrite <- S_INR; apply le_INR; lia). nra.
    + assert (INR j + 1 <= INR k) by (rewrite <- S_INR; apply le_INR; lia). nra.
Qed.
Lemma channels_none start w A n f (v : nat -> R) : 0 < w -> f < start \/ start + INR n * w < f ->
  (forall k, (k < n)%nat -> boxcar_response (ANum f) A (channel start w k) w = Ok [Some (v k)]) -> sum (map v (seq 0 n)) = 0.
Proof.
  intros Hw Hf H. apply sum_zero. intros k Hk. apply (band_at _ _ _ _ _ (H k Hk)). unfold channel. intros [H1 H2]. pose proof (pos_INR k).
  assert (INR k + 1 <= INR n) by (rewrite <- S_INR; apply le_INR; lia). destruct Hf; nra.
Qed.
Lemma channels_twice start w A n j (v : nat -> R) : 0 < w -> (S j < n)%nat ->
  (forall k, (k < n)%nat -> boxcar_response (ANum (start + INR (S j) * w)) A (channel start w k) w = Ok [Some (v k)]) -> sum (map v (seq 0 n)) = A + A.
Proof.
  intros Hw Hj H. assert (E : forall k, (k < n)%nat -> v k = (if (k =? j)%nat then A else 0) + (if (k =? S j)%nat then A else 0)).
  { intros k Hk. pose proof (band_at _ _ _ _ _ (H k Hk)) as [B1 B2]. unfold channel in *. rewrite S_INR in *. destruct (Nat.eqb_spec k j) as [->|N1].
    - destruct (Nat.eqb_spec j (S j)); [lia|]. rewrite B1 by lra. lra.
    - destruct (Nat.eqb_spec k (S j)) as [->|N2]; [rewrite B1 by (rewrite S_INR; lra); lra|]. rewrite B2; [lra|]. intros [H1 H2]. destruct (Nat.lt_ge_cases k j) as [L|L].
      + assert (INR k + 1 <= INR j) by (rewrite <- S_INR; apply le_INR; lia). nra.
      + assert (INR j + 1 + 1 <= INR k) by (rewrite <- !S_INR; apply le_INR; lia). nra. }
  assert (P : forall (g h : nat -> R) l, sum (map (fun k => g k + h k) l) = sum (map g l) + sum (map h l)) by (clear; induction l as [|x l IH]; cbn; [lra|rewrite IH; lra]).
  rewrite (map_ext_in v (fun k => (if (k =? j)%nat then A else 0) + (if (k =? S j)%nat then A else 0))) by (intros k Hk; apply in_seq in Hk; apply E; lia).
  rewrite P. f_equal.
  - apply sum_one with (j := j); [lia|rewrite Nat.eqb_refl; reflexivity|]. intros k _ N. apply Nat.eqb_neq in N. rewrite N. reflexivity.
  - apply sum_one with (j := S j); [lia|rewrite Nat.eqb_refl; reflexivity|]. intros k _ N. apply Nat.eqb_neq in N. rewrite N. reflexivity.
Qed.
Lemma boxcar_fwhm kw fr : dmem kw "fwhm" = true -> call_boxcar kw fr = Raise TypeError.
Proof.
  intros H. unfold call_boxcar, known_kws. replace (forallb _ _) with false; [reflexivity|]. symmetry. apply not_true_iff_false. intros Q. rewrite forallb_forall in Q.
  assert (I : In "fwhm" (dkeys kw)) by (apply smem_In; exact H). apply Q in I. discriminate.
Qed.
Lemma boxcar_fwhm_lost kw : dmem kw "fwhm" = true -> finds (call_boxcar kw) Unknown.
Proof.
  intros H. exists 1%nat. intros [|k] Hk; [lia|]. cbn [reffreq search]. unfold best_in. rewrite boxcar_fwhm by exact H. reflexivity.
Qed.

(** * Noise *)
Section Noise.
Context {G : Type} (normals : nat -> G -> list R * G).
Lemma white_ok n dt rms bias g fresh zs g' : (0 <= n)%Z -> 0 < dt -> 0 <= rms -> normals (Z.to_nat n) (match g with Some g => g | None => fresh end) = (zs, g') ->
  white_noise normals n dt rms bias g fresh = Ok (map (fun z => bias + rms / sqrt dt * z) zs, g').
Proof.
  intros Hn Hdt Hr E. unfold white_noise. replace (rleb dt 0) with false by (symmetry; apply rleb_gt; exact Hdt). apply rleb_le in Hr. rewrite Hr. rewrite (proj2 (Z.leb_le 0 n) Hn). cbn [andb check bind]. rewrite E. reflexivity.
Qed.
Lemma white_bad n dt rms bias g fresh : (0 <= n)%Z -> 0 < dt -> rms < 0 -> white_noise normals n dt rms bias g fresh = Raise ValueError.
Proof.
  intros Hn Hdt Hr. unfold white_noise. replace (rleb dt 0) with false by (symmetry; apply rleb_gt; exact Hdt). replace (rleb 0 rms) with false by (symmetry; apply rleb_gt; exact Hr). reflexivity.
Qed.
End Noise.
Lemma mean_affine b s zs : zs <> [] -> sum (map (fun z => b + s * z) zs) / INR (length zs) = b + s * (sum zs / INR (length zs)).
Proof.
  intros H. assert (E : sum (map (fun z => b + s * z) zs) = INR (length zs) * b + s * sum zs) by (clear; induction zs as [|z zs IH]; [cbn; lra|cbn [map sum length]; rewrite S_INR, IH; lra]).
  assert (0 < INR (length zs)) by (apply lt_0_INR; destruct zs; [contradiction|cbn; lia]). rewrite E. field. lra.
Qed.
Lemma mean_scale rms dt n m : 0 < dt -> 0 < n -> rms / sqrt dt * (m / n) = rms / sqrt (n * dt) * (m / sqrt n).
Proof.
  intros H1 H2. rewrite sqrt_mult by lra. assert (0 < sqrt dt) by (apply sqrt_lt_R0; lra). assert (0 < sqrt n) by (apply sqrt_lt_R0; lra).
  assert (E : sqrt n * sqrt n = n) by (apply sqrt_sqrt; lra). rewrite <- E at 1. field. lra.
Qed.
