(** Lemmas about single axes and grid construction (C01, C02). *)
From Verif Require Import Util Rat Val Arr GridModel GridSpec.
Open Scope Qc_scope.
Ltac Zify.zify_post_hook ::= Z.div_mod_to_equations.

Lemma nq2_zq2 : zq 2 <> 0. Proof. intros H; discriminate H. Qed.
Lemma div2_half x : x / zq 2 = x * frac 1 2.
Proof. apply Qc_is_canon. rewrite this_div, this_mult, this_zq, this_frac. reflexivity. Qed.

Lemma roll_length {X} k (l : list X) : (k <= length l)%nat -> length (roll k l) = length l.
Proof. intros H. unfold roll. rewrite app_length, skipn_length, firstn_length. lia. Qed.

Lemma nth_error_roll {X} m (l : list X) k : (m <= length l)%nat -> (k < length l)%nat ->
  nth_error (roll m l) k =
  if (k <? m)%nat then nth_error l (length l - m + k) else nth_error l (k - m).
Proof.
  intros Hm Hk. unfold roll. destruct (Nat.ltb_spec k m) as [H|H].
  - rewrite nth_error_app1 by (rewrite skipn_length; lia). apply nth_error_skipn.
  - rewrite nth_error_app2 by (rewrite skipn_length; lia). rewrite skipn_length, nth_error_firstn.
    destruct (Nat.ltb_spec (k - (length l - (length l - m))) (length l - m)); [|lia].
    f_equal. lia.
Qed.

Lemma fftfreq_length n d : (1 <= n)%nat -> length (fftfreq n d) = n.
Proof. intros H. unfold fftfreq. rewrite map_length, app_length, !map_length, !seq_length. lia. Qed.

Lemma nth_error_fftfreq n d k : (1 <= n)%nat -> (k < n)%nat ->
  nth_error (fftfreq n d) k =
  Some (zq (if (k <? (n - 1) / 2 + 1)%nat then Z.of_nat k else Z.of_nat k - Z.of_nat n) * (1 / (nq n * d))).
Proof.
  intros Hn Hk. unfold fftfreq. rewrite nth_error_map_some.
  destruct (Nat.ltb_spec k ((n - 1) / 2 + 1)) as [H|H].
  - rewrite nth_error_app1 by (rewrite map_length, seq_length; lia).
    rewrite nth_error_map_some, nth_error_seq.
    destruct (Nat.ltb_spec k ((n - 1) / 2 + 1)); [reflexivity|lia].
  - rewrite nth_error_app2 by (rewrite map_length, seq_length; lia).
    rewrite map_length, seq_length, nth_error_map_some, nth_error_seq.
    destruct (Nat.ltb_spec (k - ((n - 1) / 2 + 1)) (n / 2)); [|lia].
    cbn [option_map]. do 3 f_equal. lia.
Qed.

Lemma fcen_length n d : (1 <= n)%nat -> length (fftshift (fftfreq n d)) = n.
Proof. intros H. unfold fftshift. rewrite roll_length; rewrite fftfreq_length; lia. Qed.

Lemma nth_error_fcen n d k : (1 <= n)%nat -> (k < n)%nat ->
  nth_error (fftshift (fftfreq n d)) k = Some (zq (Z.of_nat k - Z.of_nat (n / 2)) / (nq n * d)).
Proof.
  intros Hn Hk. unfold fftshift. rewrite fftfreq_length by auto.
  rewrite nth_error_roll by (rewrite fftfreq_length; lia). rewrite fftfreq_length by auto.
  destruct (Nat.ltb_spec k (n / 2)) as [H|H].
  - rewrite nth_error_fftfreq by lia. unfold Qcdiv; rewrite Qcmult_1_l.
    destruct (Nat.ltb_spec (n - n / 2 + k) ((n - 1) / 2 + 1)); [lia|]. do 3 f_equal. lia.
  - rewrite nth_error_fftfreq by lia. unfold Qcdiv; rewrite Qcmult_1_l.
    destruct (Nat.ltb_spec (k - n / 2) ((n - 1) / 2 + 1)); [|lia]. do 3 f_equal. lia.
Qed.

Lemma diff_length l : length (diff l) = (length l - 1)%nat.
Proof.
  induction l as [|a l IH]; simpl; auto. destruct l as [|b l]; auto.
  simpl in *. rewrite IH. lia.
Qed.

Lemma axis_edges_ok l : (2 <= length l)%nat -> exists e, axis_edges l = Ok e.
Proof.
  destruct l as [|a [|b l]]; simpl; intros H; try lia. unfold axis_edges. simpl. eauto.
Qed.
Lemma axis_edges_short l : (length l < 2)%nat -> axis_edges l = Raise IndexError.
Proof. destruct l as [|a [|b l]]; simpl; intros H; try lia; reflexivity. Qed.

Lemma axis_edges_length l e : axis_edges l = Ok e -> length e = S (length l).
Proof.
  unfold axis_edges. destruct l as [|a l]; [discriminate|].
  destruct (diff (a :: l)) as [|d0 ds] eqn:E; [discriminate|].
  assert (L : length (diff (a :: l)) = length l) by (rewrite diff_length; simpl; lia).
  rewrite E in L.
  intros H. injection H as H. rewrite <- H. clear H.
  assert (R : length (removelast (a :: l)) = length l).
  { pose proof (app_removelast_last 0 (l := a :: l)) as Q.
    assert (a :: l <> []) as N by congruence. specialize (Q N).
    apply (f_equal (@length Qc)) in Q. rewrite app_length in Q. simpl in Q. simpl. lia. }
  change (length ((a - d0 / zq 2) :: (map (fun p => fst p + snd p) (combine (removelast (a :: l)) (d0 :: ds)) ++
     [last (a :: l) 0 + last (d0 :: ds) 0 / zq 2])) = S (length (a :: l))).
  cbn [length]. rewrite app_length, map_length, combine_length, R, L. simpl. lia.
Qed.

Lemma fourier_axis_ok n d : (2 <= n)%Z ->
  exists fe, fourier_axis n d = Ok (fe, fftshift (fftfreq (Z.to_nat n) d)) /\
             axis_edges (fftshift (fftfreq (Z.to_nat n) d)) = Ok fe.
Proof.
  intros H. unfold fourier_axis. destruct (Z.ltb_spec n 0); [lia|].
  destruct (axis_edges_ok (fftshift (fftfreq (Z.to_nat n) d))) as [e E].
  - rewrite fcen_length; lia.
  - rewrite E. simpl. eauto.
Qed.

Lemma fourier_axis_inv n d fe fc : fourier_axis n d = Ok (fe, fc) ->
  (2 <= n)%Z /\ fc = fftshift (fftfreq (Z.to_nat n) d) /\ axis_edges fc = Ok fe.
Proof.
  unfold fourier_axis. destruct (Z.ltb_spec n 0); [discriminate|].
  destruct (axis_edges (fftshift (fftfreq (Z.to_nat n) d))) as [e|] eqn:E; [|discriminate].
  simpl. intros Q. inversion Q; subst. split; [|auto].
  destruct (Z.leb_spec 2 n); auto. exfalso.
  rewrite axis_edges_short in E; [discriminate|].
  unfold fftshift, roll. rewrite app_length, skipn_length, firstn_length.
  unfold fftfreq. rewrite map_length, app_length, !map_length, !seq_length. 
  assert (n = 0 \/ n = 1)%Z as [->| ->] by lia; simpl; lia.
Qed.

Lemma axis_of_length n p s c : length (axis_of n p s c) = S n.
Proof. unfold axis_of. rewrite map_length, seq_length. lia. Qed.

Lemma nth_error_axis_of n p s c k : (k <= n)%nat ->
  nth_error (axis_of n p s c) k = Some (c - s / zq 2 + nq k * p).
Proof.
  intros H. unfold axis_of. rewrite nth_error_map_seq.
  destruct (Nat.ltb_spec k (n + 1)); [|lia]. f_equal. simpl. ring.
Qed.

Lemma removelast_length {X} (l : list X) : length (removelast l) = (length l - 1)%nat.
Proof.
  induction l as [|a l IH]; simpl; auto. destruct l as [|b l]; auto.
  simpl in *. rewrite IH. lia.
Qed.
Lemma nth_error_removelast {X} (l : list X) k : (k < length l - 1)%nat ->
  nth_error (removelast l) k = nth_error l k.
Proof.
  revert k; induction l as [|a l IH]; simpl; intros k H; [lia|].
  destruct l as [|b l]; [simpl in H; lia|].
  destruct k as [|k]; [reflexivity|]. simpl. apply IH. simpl in *. lia.
Qed.

Lemma centers_of_length n p s c : length (centers_of (axis_of n p s c) p) = n.
Proof. unfold centers_of. rewrite map_length, removelast_length, axis_of_length. lia. Qed.

Lemma nth_error_centers_of n p s c k : (k < n)%nat ->
  nth_error (centers_of (axis_of n p s c) p) k = Some (c - s / zq 2 + (nq k + frac 1 2) * p).
Proof.
  intros H. unfold centers_of. rewrite nth_error_map_some, nth_error_removelast by (rewrite axis_of_length; lia).
  rewrite nth_error_axis_of by lia. simpl. f_equal. rewrite !div2_half. ring.
Qed.

(** ** building an axis *)
Lemma axis_ok_built n c s p fe fc :
  0 < p -> s = zq n * p -> fourier_axis n p = Ok (fe, fc) ->
  axis_ok (Z.to_nat n) c s p (axis_of (Z.to_nat n) p s c)
          (centers_of (axis_of (Z.to_nat n) p s c) p) fe fc.
Proof.
  intros Hp Hs Hf. apply fourier_axis_inv in Hf as (Hn & -> & He).
  constructor; auto.
  - lia.
  - rewrite Hs. unfold nq. f_equal. f_equal. lia.
  - apply axis_of_length.
  - intros k Hk. apply nth_error_axis_of; auto.
  - apply centers_of_length.
  - intros k Hk. apply nth_error_centers_of; auto.
  - apply fcen_length; lia.
  - intros k Hk. apply nth_error_fcen; lia.
Qed.

(** a consistent axis is determined by its parameters *)
Lemma axis_ok_det n c s p e1 m1 fe1 fc1 e2 m2 fe2 fc2 :
  axis_ok n c s p e1 m1 fe1 fc1 -> axis_ok n c s p e2 m2 fe2 fc2 ->
  e1 = e2 /\ m1 = m2 /\ fe1 = fe2 /\ fc1 = fc2.
Proof.
  intros H1 H2.
  assert (e1 = e2).
  { apply nth_error_ext. intros k. destruct (Nat.le_gt_cases k n).
    - rewrite (ao_edge _ _ _ _ _ _ _ _ H1), (ao_edge _ _ _ _ _ _ _ _ H2) by auto. reflexivity.
    - rewrite !(proj2 (nth_error_None _ _)); [reflexivity| |];
        [rewrite (ao_elen _ _ _ _ _ _ _ _ H2)|rewrite (ao_elen _ _ _ _ _ _ _ _ H1)]; lia. }
  assert (m1 = m2).
  { apply nth_error_ext. intros k. destruct (Nat.lt_ge_cases k n).
    - rewrite (ao_cen _ _ _ _ _ _ _ _ H1), (ao_cen _ _ _ _ _ _ _ _ H2) by auto. reflexivity.
    - rewrite !(proj2 (nth_error_None _ _)); [reflexivity| |];
        [rewrite (ao_clen _ _ _ _ _ _ _ _ H2)|rewrite (ao_clen _ _ _ _ _ _ _ _ H1)]; lia. }
  assert (fc1 = fc2).
  { apply nth_error_ext. intros k. destruct (Nat.lt_ge_cases k n).
    - rewrite (ao_fcen _ _ _ _ _ _ _ _ H1), (ao_fcen _ _ _ _ _ _ _ _ H2) by auto. reflexivity.
    - rewrite !(proj2 (nth_error_None _ _)); [reflexivity| |];
        [rewrite (ao_flen _ _ _ _ _ _ _ _ H2)|rewrite (ao_flen _ _ _ _ _ _ _ _ H1)]; lia. }
  subst. pose proof (ao_fedge _ _ _ _ _ _ _ _ H1) as E1. rewrite (ao_fedge _ _ _ _ _ _ _ _ H2) in E1.
  inversion E1; auto.
Qed.

(** ** the number of pixels *)
Lemma npix_z_pos s p : 0 < p -> npix_z s p = qceil (round1 (s / p)).
Proof.
  intros H. unfold npix_z. destruct (qeqb_spec p 0); [|reflexivity].
  subst. exfalso. revert H. apply Qcle_not_lt. apply Qcle_refl.
Qed.

(** the count is within (-1/20 .. 1) of the requested ratio, C02 *)
Lemma npix_z_bound s p : 0 < p ->
  s - p * frac 1 20 <= zq (npix_z s p) * p /\ zq (npix_z s p) * p < s + p.
Proof.
  intros Hp. rewrite npix_z_pos by auto.
  set (r := s / p). assert (Es : s = r * p) by (unfold r; field; apply Qc_pos_neq0; auto).
  pose proof (round1_bound r) as [B1 B2].
  assert (Hlow : r - frac 1 20 <= zq (qceil (round1 r))) by (pose proof (qceil_ge (round1 r)); qlra).
  assert (Hup : zq (qceil (round1 r)) < r + 1).
  { (* round1 r = m/10; ceil(m/10) <= m/10 + 9/10; and m/10 <= r + 1/20 *)
    unfold round1 in *. set (m := round_even (r * zq 10)) in *.
    assert (E : zq m / zq 10 = zq m * frac 1 10)
      by (apply Qc_is_canon; rewrite this_div, this_mult, !this_zq, this_frac; reflexivity).
    rewrite E in *.
    set (k := qceil (zq m * frac 1 10)) in *.
    pose proof (qceil_lt (zq m * frac 1 10)) as L. fold k in L.
    assert (L2 : zq (10 * k) < zq (m + 10)) by (rewrite zq_mul, zq_add; qlra).
    rewrite zq_lt in L2. assert (L3 : (10 * k <= m + 9)%Z) by lia.
    rewrite <- zq_le, zq_mul, zq_add in L3. qlra. }
  rewrite Es. split.
  - replace (r * p - p * frac 1 20) with ((r - frac 1 20) * p) by ring. apply Qcmult_pos_le; auto.
  - replace (r * p + p) with ((r + 1) * p) by ring. apply Qcmult_pos_lt; auto.
Qed.

Lemma npix_z_exact k p : 0 < p -> npix_z (zq k * p) p = k.
Proof.
  intros Hp. rewrite npix_z_pos by auto.
  replace (zq k * p / p) with (zq k) by (field; apply Qc_pos_neq0; auto).
  rewrite round1_zq. apply qceil_zq.
Qed.

(** at least two pixels iff the ratio exceeds 21/20 *)
Lemma npix_z_ge2 s p : 0 < p -> (2 <= npix_z s p)%Z <-> frac 21 20 * p < s.
Proof.
  intros Hp. rewrite npix_z_pos by auto.
  set (r := s / p). assert (Es : s = r * p) by (unfold r; field; apply Qc_pos_neq0; auto).
  assert (K : (2 <= qceil (round1 r))%Z <-> (11 <= round_even (r * zq 10))%Z).
  { unfold round1. set (m := round_even (r * zq 10)).
    assert (E : zq m / zq 10 = zq m * frac 1 10)
      by (apply Qc_is_canon; rewrite this_div, this_mult, !this_zq, this_frac; reflexivity).
    rewrite E. set (k := qceil (zq m * frac 1 10)).
    pose proof (qceil_lt (zq m * frac 1 10)) as L1. pose proof (qceil_ge (zq m * frac 1 10)) as L2. fold k in L1, L2.
    assert (M1 : zq (10 * k) < zq (m + 10)) by (rewrite zq_mul, zq_add; qlra).
    assert (M2 : zq m <= zq (10 * k)) by (rewrite zq_mul; qlra).
    rewrite zq_lt in M1. rewrite zq_le in M2. lia. }
  rewrite K. clear K. unfold round_even. set (y := r * zq 10). set (f := qfloor y).
  assert (Hs : frac 21 20 * p < s <-> frac 21 2 < y).
  { assert (Ey : y = r * zq 10) by reflexivity. split; intros H.
    - apply Qcnot_le_lt. intros N. apply Qclt_not_le in H. apply H.
      rewrite Es. apply Qcmult_pos_le; auto. qlra.
    - rewrite Es. apply Qcmult_pos_lt; auto. qlra. }
  rewrite Hs. clear Hs.
  pose proof (qfloor_le y) as A. pose proof (qfloor_lt y) as B. fold f in A, B.
  destruct (qltb_spec (y - zq f) (frac 1 2)) as [H1|H1].
  - split; intros H.
    + rewrite <- zq_le in H. qlra.
    + assert (zq 10 < zq f) as Q by qlra. rewrite zq_lt in Q. lia.
  - apply Qcnot_lt_le in H1. destruct (qltb_spec (frac 1 2) (y - zq f)) as [H2|H2].
    + split; intros H.
      * assert ((10 <= f)%Z) as Q by lia. rewrite <- zq_le in Q. qlra.
      * assert (zq 9 < zq f) as Q by qlra. rewrite zq_lt in Q. lia.
    + apply Qcnot_lt_le in H2. destruct (Z.even f) eqn:Ev.
      * split; intros H.
        -- rewrite <- zq_le in H. qlra.
        -- assert (zq 9 < zq f) as Q by qlra. rewrite zq_lt in Q.
           assert (f <> 10)%Z; [|lia]. intros E. clearbody f. subst f. qlra.
      * split; intros H.
        -- assert (10 <= f)%Z as Q by lia. assert (f <> 10)%Z by (intros E; rewrite E in Ev; discriminate).
           assert (11 <= f)%Z as Q2 by lia. rewrite <- zq_le in Q2. qlra.
        -- assert (zq 9 < zq f) as Q by qlra. rewrite zq_lt in Q. lia.
Qed.
