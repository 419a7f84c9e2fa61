(** Further theorems about the line relations (C80): halos without mass. *)
From Verif Require Import Dict Util RealUtil RelModel RelSpec Rel Rel2.
From Coq Require Import Reals Lra Lia.
Open Scope R_scope.

(** A halo of no mass emits nothing, whether the relation is averaged over the duty cycle or drawn at random. *)
Theorem C80_massless {G} (uniforms : nat -> G -> list R * G) age mass zs sf fd rand g i v : nth_error mass i = Some 0 ->
  (nth_error (fst (lidz11 uniforms mass fd rand g)) i = Some v -> v = 0) /\
  (nth_error (fst (hcn_breysse uniforms mass fd rand g)) i = Some v -> v = 0) /\
  (forall l g', pullen13 uniforms age mass zs rand sf g = Ok (l, g') -> nth_error l i = Some v -> v = 0).
Proof.
  intros H.
  assert (C : forall B (f : R * B -> R), (forall b, f (0, b) = 0) -> forall (l : list R) (m : list B) j, nth_error l j = Some 0 -> nth_error (map f (combine l m)) j = Some v -> v = 0).
  { intros B f Hf l. induction l as [|a l IH]; intros [|b m] [|j]; cbn; try discriminate; [intros [= ->]; rewrite Hf; congruence|apply IH]. }
  assert (M : forall f : R -> R, f 0 = 0 -> nth_error (map f mass) i = Some v -> v = 0).
  { intros f Hf E. rewrite (map_nth_error f i mass H) in E. congruence. }
  assert (P : rpow 0 (167 / 100) = 0). { unfold rpow. rewrite (proj2 (reqb_eq 0 0) eq_refl). reflexivity. }
  split; [|split].
  - unfold lidz11. destruct rand; [|apply M; unfold Rdiv; ring]. destruct (uniforms (length mass) g) as [us g']. cbn [fst]. apply C with (l := mass); [|exact H].
    intros b. cbn [fst snd]. destruct (rltb b fd); [unfold Rdiv; ring|reflexivity].
  - unfold hcn_breysse. destruct rand; [|apply M; rewrite P; ring]. destruct (uniforms (length mass) g) as [us g']. cbn [fst]. apply C with (l := mass); [|exact H].
    intros b. cbn [fst snd]. destruct (rltb b fd); [rewrite P; ring|reflexivity].
  - intros l g'. unfold pullen13. destruct (match f_duty age sf zs with [] => _ | _ => _ end) as [frac|e]; cbn [bind]; [|discriminate].
    assert (F : nth_error (map (fun m => 10 ^ 6 * m / (5 * 10 ^ 11)) mass) i = Some 0). { rewrite (map_nth_error _ i mass H). f_equal. unfold Rdiv. ring. }
    destruct rand; [destruct (uniforms (length mass) g) as [us g2]|]; intros [= <- <-].
    + assert (D : forall (l1 l2 l3 : list R) j, nth_error l1 j = Some 0 -> nth_error (map (fun p => if rltb (snd (fst p)) (snd p) then 0 else fst (fst p)) (combine (combine l1 l2) l3)) j = Some v -> v = 0).
      { induction l1 as [|a l1 IH]; intros [|b l2] [|c l3] [|j]; cbn; try discriminate; [intros [= ->]; destruct (rltb b c); congruence|apply IH]. }
      apply D. exact F.
    + apply C with (l := map (fun m => 10 ^ 6 * m / (5 * 10 ^ 11)) mass); [|exact F]. intros b. cbn. ring.
Qed.
Print Assumptions C80_massless.
Example C80_massless_nonvacuous : nth_error [5; 0] 1 = Some 0 /\ nth_error (fst (lidz11 (fun n (g : nat) => (repeat 0 n, g)) [5; 0] 1 true 0%nat)) 1 <> None.
Proof. split; [reflexivity|]. cbn. discriminate. Qed.

(** The [CII] luminosities of Padmanabhan et al. 2019 (their equation 7), in logarithms: a power of the mass that is cut off
    below [n1], times a power of the cosmic star formation rate density of Madau and Dickinson 2014. At one redshift the
    heavier halo is brighter. *)
Theorem C78_padmanabhan {G} (normals : nat -> G -> list R * G) m1 b n1 a mz sig g : 0 < m1 ->
  (forall m z, In (m, z) mz -> 0 < m /\ -1 < z) ->
  exists base, padmanabhan19 normals m1 b n1 a mz false sig g = Ok (map Some base, g) /\ length base = length mz
  /\ (forall i m z, nth_error mz i = Some (m, z) -> exists L, nth_error base i = Some L /\ 0 < L
      /\ ln L = b * ln (m / m1) - n1 / m + a * (2.7 * ln (1 + z) - ln (1 + exp (5.6 * ln ((1 + z) / 2.9)))))
  /\ (0 < b -> 0 <= n1 -> forall i j m m' z L L', nth_error mz i = Some (m, z) -> nth_error mz j = Some (m', z) -> m < m' ->
      nth_error base i = Some L -> nth_error base j = Some L' -> L < L').
Proof.
  intros H1 Hp. exists (map (fun p => pad_L m1 b n1 a (fst p) (snd p)) mz).
  assert (V : forall m z, 0 < pad_L m1 b n1 a m z /\ ln (pad_L m1 b n1 a m z) = b * ln (m / m1) - n1 / m + a * (2.7 * ln (1 + z) - ln (1 + exp (5.6 * ln ((1 + z) / 2.9))))).
  { intros m z. unfold pad_L, Rpower. split; [repeat apply Rmult_lt_0_compat; apply exp_pos|].
    rewrite <- !exp_plus, ln_exp.
    assert (Q : forall u v, 0 < v -> ln (exp u / v) = u - ln v).
    { intros u v Hv. unfold Rdiv. rewrite ln_mult; [|apply exp_pos|apply Rinv_0_lt_compat; exact Hv]. rewrite ln_Rinv, ln_exp by exact Hv. ring. }
    rewrite Q; [|pose proof (exp_pos (56 / 10 * ln ((1 + z) / (29 / 10)))); lra].
    replace (29 / 10) with 2.9 by lra. replace (56 / 10) with 5.6 by lra. replace (27 / 10) with 2.7 by lra. unfold Rdiv. ring. }
  split; [unfold padmanabhan19; rewrite map_map; reflexivity|]. split; [apply map_length|]. split.
  - intros i m z E. eexists. split; [rewrite nth_error_map, E; reflexivity|]. apply V.
  - intros Hb Hn i j m m' z L L' Ei Ej Hm. rewrite !nth_error_map, Ei, Ej. cbn [option_map fst snd]. intros [= <-] [= <-].
    destruct (Hp m z (nth_error_In _ _ Ei)) as [P _]. destruct (V m z) as [A1 A2]. destruct (V m' z) as [B1 B2].
    apply ln_lt_inv; [exact A1|exact B1|]. rewrite A2, B2.
    assert (K : ln (m / m1) < ln (m' / m1)). { apply ln_increasing; [apply Rdiv_lt_0_compat; assumption|]. apply Rmult_lt_compat_r; [apply Rinv_0_lt_compat; exact H1|exact Hm]. }
    assert (K2 : n1 / m' <= n1 / m). { apply Rmult_le_compat_l; [exact Hn|]. apply Rinv_le_contravar; lra. }
    assert (K3 : b * ln (m / m1) < b * ln (m' / m1)) by (apply Rmult_lt_compat_l; assumption). lra.
Qed.
Print Assumptions C78_padmanabhan.
(** the documented parameters *)
Example C78_padmanabhan_nonvacuous : 0 < 2.39 / 10 ^ 5 /\ 0 < 0.49 /\ 0 <= 4.19 * 10 ^ 11 /\
  forall m z, In (m, z) [(10 ^ 11, 0); (10 ^ 12, 0); (10 ^ 12, 3)] -> 0 < m /\ -1 < z.
Proof. repeat split; try lra; cbn in H; intuition (try lra); match goal with H : (_, _) = (_, _) |- _ => injection H as <- <-; lra end. Qed.
