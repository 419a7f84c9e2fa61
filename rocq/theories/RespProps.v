(** Theorems about the built-in responses and noise of detectors and their reference frequency (C102-C105). *)
From Verif Require Import Dict Util RealUtil RawModel RespModel RespSpec Resp Resp2 Resp3 Resp4.
From Coq Require Import Reals Lra Lia.
Open Scope string_scope. Open Scope list_scope.
Open Scope R_scope.

(** * C102: beams *)
(** The gaussian beam has the documented shape and is the elliptical gaussian of the given full widths at half maximum, the same at every
    frequency. Axes that are not one-dimensional, and unknown keyword arguments, raise. *)
Theorem C102_beam : forall dx dy freq xs ys fs wx wy cx cy, axis dx = Some xs -> axis dy = Some ys -> axis freq = Some fs -> wx <> 0 -> wy <> 0 ->
  exists b, gauss_psf dx dy freq wx wy cx cy = Ok b /\
    array3 b (length xs) (length ys) (length fs) (fun i j k => Some (half_power wx wy (nth i xs 0 - cx) (nth j ys 0 - cy))).
Proof. exact psf_ok. Qed.
Print Assumptions C102_beam.
Theorem C102_width : forall f wx wy cx cy, wx <> 0 -> wy <> 0 ->
  gauss_psf (ANum cx) (ANum cy) (ANum f) wx wy cx cy = Ok [[[Some 1]]] /\
  (forall x y, (2 * (x - cx) / wx) ^ 2 + (2 * (y - cy) / wy) ^ 2 = 1 -> gauss_psf (ANum x) (ANum y) (ANum f) wx wy cx cy = Ok [[[Some (1 / 2)]]]) /\
  gauss_psf (ANum (cx + wx / 2)) (ANum cy) (ANum f) wx wy cx cy = Ok [[[Some (1 / 2)]]] /\
  gauss_psf (ANum cx) (ANum (cy - wy / 2)) (ANum f) wx wy cx cy = Ok [[[Some (1 / 2)]]].
Proof.
  intros f wx wy cx cy Hx Hy. assert (E : forall x y, gauss_psf (ANum x) (ANum y) (ANum f) wx wy cx cy = Ok [[[Some (half_power wx wy (x - cx) (y - cy))]]]).
  { intros x y. unfold gauss_psf. cbn [check_shape bind map]. rewrite falloff_half by assumption. reflexivity. }
  split; [rewrite E; replace (cx - cx) with 0 by ring; replace (cy - cy) with 0 by ring; rewrite half_power_1; reflexivity|].
  assert (H : forall x y, (2 * (x - cx) / wx) ^ 2 + (2 * (y - cy) / wy) ^ 2 = 1 -> gauss_psf (ANum x) (ANum y) (ANum f) wx wy cx cy = Ok [[[Some (1 / 2)]]]).
  { intros x y H. rewrite E, half_power_half by exact H. reflexivity. }
  split; [exact H|]. split; apply H; field; auto.
Qed.
Print Assumptions C102_width.
Theorem C102_bad_axes : forall dx dy freq f0 wx wy cx cy e, axis dx = None \/ axis dy = None \/ axis freq = None ->
  gauss_psf dx dy freq wx wy cx cy = Raise ValueError /\ gauss_psf_freq dx dy freq f0 wx wy cx cy e = Raise ValueError.
Proof. intros. split; [apply psf_bad; assumption|apply psf_freq_bad; assumption]. Qed.
Print Assumptions C102_bad_axes.
(** The beam that depends on frequency has at frequency f the widths fwhm*(freq0/f)**freq_exp. Missing: that the default
    exponent is the one of a typical beam. *)
Theorem C102_scaled_partial : forall dx dy freq xs ys fs f0 wx wy cx cy e, axis dx = Some xs -> axis dy = Some ys -> axis freq = Some fs -> wx <> 0 -> wy <> 0 ->
  0 < f0 -> (forall f, In f fs -> 0 < f) ->
  exists b, gauss_psf_freq dx dy freq f0 wx wy cx cy e = Ok b /\
    array3 b (length xs) (length ys) (length fs)
      (fun i j k => let z := Rpower (f0 / nth k fs 0) e in Some (half_power (wx * z) (wy * z) (nth i xs 0 - cx) (nth j ys 0 - cy))).
Proof. exact psf_freq_ok. Qed.
Print Assumptions C102_scaled_partial.
(** With the default exponent the half power point moves outwards in proportion to the frequency. At twice the reference
    frequency the beam is twice as wide, where a diffraction limited beam is half as wide. *)
Theorem C102_default_refuted : forall kw f, dget kw "freq_exp" = None -> known_kws ["freq0"; "fwhmx"; "fwhmy"; "cx"; "cy"; "freq_exp"] kw = Ok tt ->
  let f0 := kwarg kw "freq0" (10 ^ 11) in let w := kwarg kw "fwhmx" 1 in let cx := kwarg kw "cx" 0 in let cy := kwarg kw "cy" 0 in
  w <> 0 -> kwarg kw "fwhmy" 1 <> 0 -> 0 < f0 -> 0 < f ->
  call_gauss_psf_freq kw (ANum (cx + w * (f / f0) / 2)) (ANum cy) (ANum f) = Ok [[[Some (1 / 2)]]] /\
  (f <> f0 -> call_gauss_psf_freq kw (ANum (cx + w * (f0 / f) / 2)) (ANum cy) (ANum f) <> Ok [[[Some (1 / 2)]]]).
Proof.
  intros kw f Hk Hn f0 w cx cy Hw Hy H0 Hf. unfold call_gauss_psf_freq. rewrite Hn. cbn [bind]. fold f0 w cx cy. assert (KE : kwarg kw "freq_exp" (-1) = -1) by (unfold kwarg; rewrite Hk; reflexivity). rewrite KE. set (wy := kwarg kw "fwhmy" 1) in *.
  assert (Z : Rpower (f0 / f) (-1) = f / f0). { replace (-1) with (- (1)) by ring. rewrite Rpower_Ropp, Rpower_1 by (apply Rdiv_lt_0_compat; assumption). field. lra. }
  assert (P : 0 < f / f0) by (apply Rdiv_lt_0_compat; assumption).
  assert (E : forall x, gauss_psf_freq (ANum x) (ANum cy) (ANum f) f0 w wy cx cy (-1) = Ok [[[Some (half_power (w * (f / f0)) (wy * (f / f0)) (x - cx) 0)]]]).
  { intros x. unfold gauss_psf_freq. cbn [check_shape bind map mapM]. rewrite !fwhm_ok by assumption. cbn [bind combine map fst snd]. rewrite Z, falloff_half by nra. replace (cy - cy) with 0 by ring. reflexivity. }
  rewrite !E. split.
  - rewrite half_power_half; [reflexivity|]. field. repeat split; lra.
  - intros N Q. assert (K : forall a b : R, Ok [[[Some a]]] = Ok [[[Some b]]] -> a = b) by congruence. apply K in Q.
    assert (D : f < f0 \/ f0 < f) by (destruct (Rtotal_order f f0) as [L|[L|L]]; auto; contradiction).
    assert (H1 : half_power (w * (f / f0)) (wy * (f / f0)) (w * (f / f0) / 2) 0 = 1 / 2) by (apply half_power_half; field; repeat split; lra).
    set (g := f / f0) in *. assert (G : f0 / f = / g) by (unfold g; field; lra). rewrite G in Q. assert (Y1 : 2 * (w * g / 2) / (w * g) = 1) by (field; lra).
    assert (Y2 : 2 * (cx + w * / g / 2 - cx) / (w * g) = / (g * g)) by (field; lra).
    assert (G1 : (g < 1 \/ 1 < g)). { unfold g. destruct D as [D|D]; [left|right]; [apply Rmult_lt_reg_r with f0; [exact H0|]; unfold Rdiv; rewrite Rmult_assoc, Rinv_l by lra; lra..]. }
    assert (I : 0 < / (g * g)) by (apply Rinv_0_lt_compat; nra). assert (J : / (g * g) * (g * g) = 1) by (apply Rinv_l; nra).
    destruct G1 as [G1|G1].
    + assert (L : half_power (w * g) (wy * g) (cx + w * / g / 2 - cx) 0 < half_power (w * g) (wy * g) (w * g / 2) 0); [|lra]. apply half_power_lt. rewrite Y1, Y2. assert (1 < / (g * g)) by nra. nra.
    + assert (L : half_power (w * g) (wy * g) (w * g / 2) 0 < half_power (w * g) (wy * g) (cx + w * / g / 2 - cx) 0); [|lra]. apply half_power_lt. rewrite Y1, Y2. assert (/ (g * g) < 1) by nra. nra.
Qed.
Print Assumptions C102_default_refuted.
Example C102_nonvacuous : axis (ASeq [0; 1]) = Some [0; 1] /\ axis ADeep = None /\ dget [("fwhmx", 2)] "freq_exp" = None /\
  known_kws ["freq0"; "fwhmx"; "fwhmy"; "cx"; "cy"; "freq_exp"] [("fwhmx", 2)] = Ok tt /\ kwarg [("fwhmx", 2)] "fwhmx" 1 <> 0 /\ 0 < kwarg [("fwhmx", 2)] "freq0" (10 ^ 11).
Proof. repeat split; cbn; lra. Qed.

(** * C103: bands *)
Theorem C103_gauss : forall freq fs A f0 w, axis freq = Some fs -> w <> 0 ->
  gauss_response freq A f0 w = Ok (map (fun f => Some (A * half_power w 1 (f - f0) 0)) fs) /\
  A * half_power w 1 (f0 - f0) 0 = A /\ A * half_power w 1 (f0 + w / 2 - f0) 0 = A / 2 /\ A * half_power w 1 (f0 - w / 2 - f0) 0 = A / 2.
Proof.
  intros freq fs A f0 w Hf Hw. split; [apply gauss_band; assumption|]. split; [replace (f0 - f0) with 0 by ring; rewrite half_power_1; ring|].
  split; rewrite half_power_half; try (field; exact Hw); field.
Qed.
Print Assumptions C103_gauss.
Theorem C103_boxcar : forall freq fs A f0 w, axis freq = Some fs -> exists v, boxcar_response freq A f0 w = Ok (map (fun f => Some (v f)) fs) /\
  forall f, (f0 - w / 2 <= f <= f0 + w / 2 -> v f = A) /\ (~ f0 - w / 2 <= f <= f0 + w / 2 -> v f = 0).
Proof. exact box_band. Qed.
Print Assumptions C103_boxcar.
(** Boxcar channels side by side: a frequency inside a channel is counted once, one outside them all is not counted. Missing: the
    shared edges. *)
Theorem C103_channels_partial : forall start w A n f (v : nat -> R), 0 < w ->
  (forall k, (k < n)%nat -> boxcar_response (ANum f) A (channel start w k) w = Ok [Some (v k)]) ->
  (forall j, (j < n)%nat -> start + INR j * w < f < start + (INR j + 1) * w -> sum (map v (seq 0 n)) = A) /\
  (f < start \/ start + INR n * w < f -> sum (map v (seq 0 n)) = 0).
Proof. intros start w A n f v Hw H. split; [intros j Hj Hf; eapply channels_once; eauto|intros Hf; eapply channels_none; eauto]. Qed.
Print Assumptions C103_channels_partial.
(** Both neighbours count an edge that they share. *)
Theorem C103_edges_refuted : forall start w A n j (v : nat -> R), 0 < w -> (S j < n)%nat ->
  (forall k, (k < n)%nat -> boxcar_response (ANum (start + INR (S j) * w)) A (channel start w k) w = Ok [Some (v k)]) -> sum (map v (seq 0 n)) = A + A.
Proof. exact channels_twice. Qed.
Print Assumptions C103_edges_refuted.
(** The keyword that the documentation names for the width of a boxcar always raises, and adding a detector with it gives no reference frequency. *)
Theorem C103_keyword_refuted : forall kw, dmem kw "fwhm" = true -> (forall freq, call_boxcar kw freq = Raise TypeError) /\ finds (call_boxcar kw) Unknown.
Proof. intros kw H. split; [intros; apply boxcar_fwhm; exact H|apply boxcar_fwhm_lost; exact H]. Qed.
Print Assumptions C103_keyword_refuted.
Example C103_nonvacuous : dmem [("freq0", 100); ("fwhm", 1)] "fwhm" = true /\
  exists v, (forall k, (k < 2)%nat -> boxcar_response (ANum (0 + INR 1 * 1)) 1 (channel 0 1 k) 1 = Ok [Some (v k)]) /\ sum (map v (seq 0 2)) = 2.
Proof.
  split; [reflexivity|]. assert (H : forall k, (k < 2)%nat -> boxcar_response (ANum (0 + INR 1 * 1)) 1 (channel 0 1 k) 1 = Ok [Some ((fun _ => 1) k)]).
  { intros k Hk. destruct (C103_boxcar (ANum (0 + INR 1 * 1)) _ 1 (channel 0 1 k) 1 eq_refl) as (v & E & V). rewrite E. cbn [map]. do 3 f_equal. apply V. destruct k as [|[|k]]; [| |lia]; unfold channel; cbn; lra. }
  exists (fun _ => 1). split; [exact H|]. cbn. lra.
Qed.

(** * C104: noise *)
Theorem C104_none : forall G n (g : G), (0 <= n)%Z -> zero_noise n g = Ok (repeat 0 (Z.to_nat n), g).
Proof. intros G n g H. unfold zero_noise. rewrite (proj2 (Z.leb_le 0 n) H). reflexivity. Qed.
Print Assumptions C104_none.
(** White noise is the offset plus standard normal draws times rms/sqrt(dt). The draws and the next state come from the given generator, or from a fresh one. *)
Theorem C104_white : forall G (normals : nat -> G -> list R * G) n dt rms bias g fresh zs g', (0 <= n)%Z -> 0 < dt -> 0 <= rms ->
  normals (Z.to_nat n) (match g with Some g => g | None => fresh end) = (zs, g') ->
  white_noise normals n dt rms bias g fresh = Ok (map (fun z => bias + rms / sqrt dt * z) zs, g').
Proof. exact @white_ok. Qed.
Print Assumptions C104_white.
Theorem C104_negative : forall G (normals : nat -> G -> list R * G) n dt rms bias g fresh, (0 <= n)%Z -> 0 < dt -> rms < 0 ->
  white_noise normals n dt rms bias g fresh = Raise ValueError.
Proof. exact @white_bad. Qed.
Print Assumptions C104_negative.
(** The mean of the samples of a duration T = n*dt is the offset plus rms/sqrt(T) times the normalised sum of the draws, which is again standard normal: it depends on T only, not on the time step. *)
Theorem C104_mean : forall G (normals : nat -> G -> list R * G) n dt rms bias g fresh zs g', (0 < n)%Z -> 0 < dt -> 0 <= rms ->
  normals (Z.to_nat n) (match g with Some g => g | None => fresh end) = (zs, g') -> length zs = Z.to_nat n ->
  exists l, white_noise normals n dt rms bias g fresh = Ok (l, g') /\ length l = Z.to_nat n /\
    sum l / IZR n = bias + rms / sqrt (IZR n * dt) * (sum zs / sqrt (IZR n)).
Proof.
  intros G normals n dt rms bias g fresh zs g' Hn Hdt Hr E L. eexists. split; [apply white_ok; [lia|exact Hdt|exact Hr|exact E]|]. split; [rewrite map_length; exact L|].
  assert (Q : IZR n = INR (length zs)) by (rewrite L, INR_IZR_INZ, Z2Nat.id by lia; reflexivity). assert (0 < IZR n) by (apply IZR_lt; exact Hn).
  rewrite <- mean_scale by assumption. rewrite Q. apply mean_affine. intros ->. cbn in L. lia.
Qed.
Print Assumptions C104_mean.
Example C104_nonvacuous : let normals := fun n (g : R) => (repeat g n, g + 1) in
  normals (Z.to_nat 3) (match Some 5 with Some g => g | None => 0 end) = ([5; 5; 5], 6) /\ length [5; 5; 5] = Z.to_nat 3.
Proof. cbn. split; [f_equal; lra|reflexivity]. Qed.

(** * C105: the reference frequency *)
(** The search ends for every response: also for those that raise, are constant, or have no peak. *)
Theorem C105_ends : forall resp, exists r, finds resp r.
Proof. exact search_ends. Qed.
Print Assumptions C105_ends.
(** A response with a single peak between 10^-19.9992 and 10^19.9992 is found, to a relative accuracy of 10^0.0004 (0.09 percent). Missing: the tolerance of 0.01 of the loop. *)
Theorem C105_peak_partial : forall h resp q, sampled h resp -> peaked h (Rpower 10 q) -> -20 + 8 / 10000 <= q <= 20 - 8 / 10000 ->
  exists r, finds resp (Freq (Rpower 10 r)) /\ q - 4 / 10000 < r < q + 4 / 10000.
Proof. exact peak_found. Qed.
Print Assumptions C105_peak_partial.
Theorem C105_gauss_partial : forall A f0 w, 0 < A -> w <> 0 -> Rpower 10 (-20 + 8 / 10000) <= f0 <= Rpower 10 (20 - 8 / 10000) ->
  exists r, finds (fun f => gauss_response f A f0 w) (Freq r) /\ f0 * Rpower 10 (- (4 / 10000)) < r < f0 * Rpower 10 (4 / 10000).
Proof. exact gauss_found. Qed.
Print Assumptions C105_gauss_partial.
(** The search stops when a pass finds the same frequency as the one before, and the centre of the window is always one of the candidates. A gaussian near 100 GHz, in Hz, gets a reference frequency more than 10 MHz off. *)
Theorem C105_accuracy_refuted : forall A w, 0 < A -> w <> 0 ->
  let f0 := 10 ^ 11 * Rpower 10 (1 / 10000) in finds (fun f => gauss_response f A f0 w) (Freq (10 ^ 11)) /\ 10 ^ 7 < f0 - 10 ^ 11.
Proof. intros A w HA Hw f0. pose proof (gauss_off A w HA Hw) as F. pose proof far_off as D. rewrite e10_11 in F, D. split; [exact F|exact D]. Qed.
Print Assumptions C105_accuracy_refuted.
(** Every boxcar wider than 0.18 percent gets the lower edge of its band, not its centre. *)
Theorem C105_boxcar_refuted : forall A f0 w, 0 < A -> Rpower 10 (-20) < f0 - w / 2 -> f0 + w / 2 < Rpower 10 20 -> (f0 - w / 2) * Rpower 10 (8 / 10000) <= f0 + w / 2 ->
  exists r, finds (fun f => boxcar_response f A f0 w) (Freq r) /\ f0 - w / 2 <= r < (f0 - w / 2) * Rpower 10 (4 / 10000) /\ r < f0.
Proof.
  intros A f0 w HA H1 H2 H3. destruct (boxcar_found A f0 w HA H1 H2 H3) as (r & F & Hr). exists r. split; [exact F|]. split; [exact Hr|].
  assert (P : 0 < f0 - w / 2) by (pose proof (e10_pos (-20)); unfold e10 in *; lra). pose proof (below_centre _ _ P H3) as K. unfold e10 in *. lra.
Qed.
Print Assumptions C105_boxcar_refuted.
(** A boxcar that lies between two of the candidates of the first pass gets no reference frequency. *)
Theorem C105_narrow_refuted : (forall A f0 w n, Rpower 10 (-20 + INR n * (8 / 10000)) < f0 - w / 2 -> f0 + w / 2 < Rpower 10 (-20 + INR (S n) * (8 / 10000)) ->
    finds (fun f => boxcar_response f A f0 w) Unknown) /\
  finds (fun f => boxcar_response f 1 (1001 / 10) (1 / 10)) Unknown.
Proof. split; [exact boxcar_missed|exact missed_100]. Qed.
Print Assumptions C105_narrow_refuted.
Example C105_nonvacuous : peaked (gauss 1 (Rpower 10 2) 1) (Rpower 10 2) /\ sampled (gauss 1 (Rpower 10 2) 1) (fun f => gauss_response f 1 (Rpower 10 2) 1) /\
  exists f0 w, 0 < w /\ Rpower 10 (-20) < f0 - w / 2 /\ f0 + w / 2 < Rpower 10 20 /\ (f0 - w / 2) * Rpower 10 (8 / 10000) <= f0 + w / 2.
Proof.
  assert (E1 : e10 1 = 10) by (apply Rpower_1; lra). assert (E0 : e10 0 = 1) by (apply Rpower_O; lra). assert (E2 : e10 2 = 100). { replace 2 with (1 + 1) by ring. rewrite e10_plus, E1. ring. }
  assert (E3 : e10 3 = 1000). { replace 3 with (2 + 1) by ring. rewrite e10_plus, E1, E2. ring. }
  assert (L1 : e10 (-20) < e10 0) by (apply e10_lt; lra). assert (L2 : e10 3 < e10 20) by (apply e10_lt; lra). assert (L3 : e10 (8 / 10000) < e10 1) by (apply e10_lt; lra). unfold e10 in *.
  split; [apply gauss_peaked; lra|]. split; [apply gauss_sampled; lra|]. exists 100, 180. repeat split; lra.
Qed.
