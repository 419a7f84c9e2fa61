(** Proofs about light cones: failures, the back of the cone, the buffer (C40, C41, C42). *)
From Coq Require Import Reals Permutation Sorted.
From Verif Require Import Dict Util RealUtil SnapModel SnapSpec Snap FormatModel FormatSpec Format LcModel LcSpec Lc Lc2 Lc3 Lc4.
From Coq Require Import Lra Lia.
Open Scope string_scope.
Open Scope list_scope.
Open Scope R_scope.

(** ** An empty range *)
Lemma rceil_0 : rceil 0 = 0%Z.
Proof. apply rceil_unique. lra. Qed.
Lemma ceil_div_zero b : ceil_div 0 b = Raise ValueError \/ ceil_div 0 b = Ok 0%Z.
Proof.
  unfold ceil_div. destruct (reqb b 0) eqn:E.
  - left. rewrite (proj2 (reqb_eq 0 0)) by reflexivity. reflexivity.
  - right. unfold Rdiv. rewrite Rmult_0_l, rceil_0. reflexivity.
Qed.
Lemma expand_zero : forall fuel cm copies buf inbox box pos, (1 <= copies)%nat -> (cm <= copies * 2 ^ fuel)%nat ->
  expand fuel cm copies 0 buf inbox box 0%Z pos = Raise ValueError.
Proof.
  induction fuel as [|fuel IH]; intros cm copies buf inbox box pos H1 H2; cbn [expand]; cbn [Z.ltb Z.leb Z.compare orb].
  - destruct (Nat.ltb_spec copies cm) as [L|L]; [cbn in H2; lia|reflexivity].
  - destruct (Nat.ltb_spec copies cm) as [L|L]; [|reflexivity].
    destruct (ceil_div_zero (2 * inbox - 2 * buf)) as [E|E]; rewrite E; cbn [bind]; [reflexivity|].
    apply IH; [lia|]. cbn in H2. lia.
Qed.
Lemma le_pow2 n : (n <= 2 ^ n)%nat.
Proof. induction n as [|n IH]; cbn; [lia|]. assert (1 <= 2 ^ n)%nat by (clear; induction n; cbn; lia). lia. Qed.
Lemma c40_empty asort az c p m masses pos0 : d_start c m = d_end c m -> snap_slabs asort az c p m masses pos0 = Raise ValueError.
Proof.
  intros H. unfold snap_slabs. fold (d_start c m). fold (d_end c m). cbv zeta. rewrite H. replace (d_end c m - d_end c m) with 0 by ring.
  destruct (ceil_div_zero (lc_box c / vmax (p_los p) - 2 * (m_tdmax m * p_buf p))) as [E|E]; rewrite E; cbn [bind]; [reflexivity|].
  rewrite expand_zero; [reflexivity|lia|]. pose proof (le_pow2 (lc_copies c)). lia.
Qed.
Lemma in_insert_z m l x : In x (insert_z m l) <-> x = m \/ In x l.
Proof.
  induction l as [|a l IH]; cbn; [intuition|]. destruct (rleb (m_z m) (m_z a)); cbn; [intuition|]. rewrite IH. intuition.
Qed.
Lemma in_sort_z l x : In x (sort_z l) <-> In x l.
Proof. unfold sort_z. induction l as [|a l IH]; cbn; [tauto|]. rewrite in_insert_z, IH. intuition. Qed.
Lemma in_use zmin zmax ms m : In m (snapshots_use zmin zmax ms) <-> In m ms /\ zmin <= m_zmax m /\ m_zmin m <= zmax.
Proof. unfold snapshots_use. rewrite in_sort_z, filter_In, andb_true_iff, !rleb_le. tauto. Qed.

Definition dist_conf (C : cosmo) (h zmin zmax : R) (c : lcconf) : Prop := lc_dmin c = cdist C zmin * h /\ lc_dmax c = cdist C zmax * h.
Lemma cdist_le C a b : good_cosmo C -> 0 <= a <= b -> cdist C a <= cdist C b.
Proof. intros H [Ha [L|E]]; [left; apply (g_cd C H); lra|subst; lra]. Qed.
Lemma c40_boundary C h ms zmin zmax c m asort az p masses pos0 : good_cosmo C -> 0 < h -> tiles C h ms -> 0 <= zmin <= zmax -> dist_conf C h zmin zmax c ->
  In m ms -> 0 <= m_zmin m -> m_zmin m = zmax \/ m_zmax m = zmin ->
  In m (snapshots_use zmin zmax ms) /\ snap_slabs asort az c p m masses pos0 = Raise ValueError.
Proof.
  intros HC Hh (_ & _ & _ & HT) Hz [E1 E2] Hm H0 HZ. destruct (HT m Hm) as (T1 & T2 & T3 & _).
  split.
  - apply in_use. split; [exact Hm|]. destruct HZ as [HZ|HZ]; lra.
  - apply c40_empty. unfold d_start, d_end. rewrite E1, E2, T2, T3.
    assert (L : forall a b, 0 <= a <= b -> cdist C a * h <= cdist C b * h) by (intros; apply Rmult_le_compat_r; [lra|apply cdist_le; assumption]).
    destruct HZ as [HZ|HZ]; rewrite HZ.
    + rewrite Rmax_left by (apply L; lra). rewrite Rmin_right by (apply L; lra). reflexivity.
    + rewrite Rmax_right by (apply L; lra). rewrite Rmin_left by (apply L; lra). reflexivity.
Qed.

(** ** Snapshots tile the light cone *)
Lemma tiles_order C h ms : tiles C h ms -> good_cosmo C -> 0 < h -> (forall m, In m ms -> 0 <= m_zmin m) ->
  forall i j a b, (i < j)%nat -> nth_error ms i = Some a -> nth_error ms j = Some b -> m_dmax b <= m_dmin a.
Proof.
  intros (H1 & _ & _ & HT) HC Hh H0 i j. induction j as [|j IH]; intros a b L Ea Eb; [lia|].
  assert (Lj : (j < length ms)%nat) by (apply nth_error_Some_lt in Eb; lia).
  destruct (nth_error_lt_Some ms j Lj) as [b' Eb']. destruct (H1 j b' b Eb' Eb) as (_ & _ & E & _). rewrite <- E.
  destruct (Nat.eq_dec i j) as [->|N]; [rewrite Ea in Eb'; inversion Eb'; lra|].
  apply Rle_trans with (m_dmax b'); [|apply IH; [lia|exact Ea|exact Eb']].
  assert (I : In b' ms) by (apply nth_error_In with (1 := Eb')). destruct (HT b' I) as (T1 & T2 & T3 & _). rewrite T2, T3.
  apply Rmult_le_compat_r; [lra|]. apply cdist_le; [exact HC|]. specialize (H0 b' I). lra.
Qed.
Lemma tiles_find C h ms D f : tiles C h ms -> nth_error ms 0 = Some f -> 0 <= D < m_dmax f -> exists m, In m ms /\ m_dmin m <= D < m_dmax m.
Proof.
  intros (H1 & H2 & _ & _) Hf HD.
  assert (G : forall k i m, (i + k = length ms - 1)%nat -> nth_error ms i = Some m -> D < m_dmax m -> exists m', In m' ms /\ m_dmin m' <= D < m_dmax m').
  { induction k as [|k IH]; intros i m Ei Em HL.
    - replace i with (length ms - 1)%nat in Em by lia. destruct (H2 m Em) as (_ & _ & E & _). exists m. split; [apply nth_error_In with (1 := Em)|lra].
    - destruct (Rle_or_lt (m_dmin m) D) as [L|L]; [exists m; split; [apply nth_error_In with (1 := Em)|lra]|].
      destruct (nth_error_lt_Some ms (S i) ltac:(lia)) as [m' Em']. destruct (H1 i m m' Em Em') as (_ & _ & E & _).
      apply (IH (S i) m' ltac:(lia) Em'). lra. }
  apply (G (length ms - 1)%nat 0%nat f ltac:(lia) Hf). lra.
Qed.
Lemma c40_shells C h ms zmin zmax c f D : good_cosmo C -> 0 < h -> tiles C h ms -> (forall m, In m ms -> 0 <= m_zmin m) -> 0 <= zmin -> 0 <= zmax ->
  dist_conf C h zmin zmax c -> nth_error ms 0 = Some f -> lc_dmin c <= D < lc_dmax c -> 0 <= D < m_dmax f ->
  exists! m, In m (snapshots_use zmin zmax ms) /\ d_start c m <= D < d_end c m.
Proof.
  intros HC Hh HT H0 Hz1 Hz2 [E1 E2] Hf HD HF. destruct (tiles_find C h ms D f HT Hf HF) as (m & Hm & Hd). exists m. split.
  - pose proof HT as (_ & _ & _ & HT'). destruct (HT' m Hm) as (T1 & T2 & T3 & _). split.
    + apply in_use. split; [exact Hm|]. specialize (H0 m Hm). split; apply Rnot_lt_le; intros L.
      * assert (cdist C (m_zmax m) * h < cdist C zmin * h) by (apply Rmult_lt_compat_r; [exact Hh|apply (g_cd C HC); lra]). lra.
      * assert (cdist C zmax * h < cdist C (m_zmin m) * h) by (apply Rmult_lt_compat_r; [exact Hh|apply (g_cd C HC); lra]). lra.
    + unfold d_start, d_end. split; [apply Rmax_lub; lra|apply Rmin_glb_lt; lra].
  - intros m' [Hm' Hd']. apply in_use in Hm'. destruct Hm' as [Hm' _].
    assert (Hd2 : m_dmin m' <= D < m_dmax m').
    { unfold d_start, d_end in Hd'. pose proof (Rmax_l (m_dmin m') (lc_dmin c)). pose proof (Rmin_l (m_dmax m') (lc_dmax c)). lra. }
    apply In_nth_error in Hm. destruct Hm as [i Ei]. apply In_nth_error in Hm'. destruct Hm' as [j Ej].
    destruct (Nat.lt_trichotomy i j) as [L|[L|L]].
    + pose proof (tiles_order C h ms HT HC Hh H0 i j m m' L Ei Ej). lra.
    + subst. congruence.
    + pose proof (tiles_order C h ms HT HC Hh H0 j i m' m L Ej Ei). lra.
Qed.

(** ** A snapshot that works *)
Lemma slab_runs asort az c p s masses pos start end_ use buf box iters it : (forall d, exists z, az d = Ok z) ->
  exists rows, slab asort az c p s masses pos start end_ use buf box iters it = Ok rows.
Proof.
  intros H. unfold slab. cbv zeta. apply mapM_all_ok. intros x _. match goal with |- context [az ?d] => destruct (H d) as [z E] end. rewrite E. cbn [bind]. eexists. reflexivity.
Qed.
Lemma map_runs {A B} (f : A -> exc B) l : (forall a, exists b, f a = Ok b) -> exists r, map f l = map Ok r /\ length r = length l.
Proof.
  intros H. induction l as [|a l (r & E & L)]; [exists []; split; reflexivity|]. destruct (H a) as [b Eb]. exists (b :: r). cbn. rewrite Eb, E, L. split; reflexivity.
Qed.
Lemma snap_runs asort az c p m masses pos0 (N : nat) : (forall d, exists z, az d = Ok z) ->
  let X := lc_box c / vmax (p_los p) - 2 * buf_of p m in
  X <> 0 -> (1 <= N <= 25)%nat -> INR N - 1 < (d_end c m - d_start c m) / X <= INR N ->
  exists rows, snap_slabs asort az c p m masses pos0 = Ok (map Ok rows) /\ length rows = N.
Proof.
  intros HA X HX HN HU. unfold snap_slabs. fold (d_start c m). fold (d_end c m). fold (buf_of p m). cbv zeta. fold X.
  unfold ceil_div at 1. rewrite (proj2 (reqb_ne X 0) HX). cbn [bind].
  assert (EC : rceil ((d_end c m - d_start c m) / X) = Z.of_nat N) by (apply rceil_unique; rewrite <- INR_IZR_INZ; exact HU).
  rewrite EC. assert (EE : forall f cm cp u b i bx pos, expand f cm cp u b i bx (Z.of_nat N) pos = Ok (Z.of_nat N, pos, bx)).
  { intros. destruct f; cbn [expand]; destruct (Z.ltb_spec 25 (Z.of_nat N)); destruct (Z.leb_spec (Z.of_nat N) 0); try lia; reflexivity. }
  rewrite EE. cbn [bind]. rewrite Nat2Z.id.
  destruct (map_runs (slab asort az c p (m_index m) masses
     (map (fun v => vadd (vsub (vsub v (p_start p)) (vscale (d_start c m) (p_los p))) (vscale (buf_of p m) (p_los p)))
        (map (fun v => vmod (vmul v (p_flip p)) (lc_box c)) pos0)) (d_start c m) (d_end c m) (d_end c m - d_start c m) (buf_of p m) (lc_box c) (Z.of_nat N)) (seq 0 N)) as (r & Er & Lr).
  - intros t. apply slab_runs, HA.
  - exists r. rewrite Er. split; [reflexivity|]. rewrite Lr, seq_length. reflexivity.
Qed.

(** ** Behind the observer *)
Lemma c41_behind asort az c p m masses pos0 rows k s : argsorts asort -> good_pt p -> length masses = length pos0 -> 0 < lc_box c ->
  snap_slabs asort az c p m masses pos0 = Ok (map Ok rows) -> 0 < lc_open c -> 0 <= lc_aspect c ->
  d_start c m = 0 -> 0 < s < buf_of p m -> s < (d_end c m - d_start c m) / INR (length rows) ->
  seen_at c p pos0 k (vscale (- s) (p_los p)) -> exists r, In r (concat rows) /\ r_x r = 0 /\ r_y r = 0 /\ r_z r = - s /\ r_index r = fst k.
Proof.
  intros Hs Hp Hm HB E Ho Ha H0 Hsb Hsw HP. destruct (snap_exact _ _ _ _ _ _ _ _ Hs Hp Hm HB E) as (M & keyss & F). pose proof F as F0.
  destruct F as [H1 _ _ HR HK _ _]. apply seen_img in HP. destruct HP as [Hi HP].
  assert (HN1 : 0 < INR (length rows)) by (apply lt_0_INR; lia).
  assert (Hlt : d_start c m < d_end c m).
  { assert (0 < (d_end c m - d_start c m) / INR (length rows)) by lra. apply Rmult_lt_compat_r with (r := INR (length rows)) in H; [|exact HN1].
    unfold Rdiv in H. rewrite Rmult_assoc, Rinv_l in H by lra. lra. }
  pose proof (step_width _ _ _ _ _ _ _ _ _ _ F0 Hlt) as HW.
  pose proof (sky_rotation p Hp) as (_ & S2 & _ & _).
  assert (ES : sky p (img c p pos0 k) = mkV (- s) 0 0) by (rewrite <- HP, S2, (sky_los p Hp); apply vec_eq; cbn; ring).
  assert (EN : norm (img c p pos0 k) = s).
  { rewrite <- (rotation_norm _ _ (sky_rotation p Hp)), ES. unfold norm, dot. cbn [vx vy vz].
    replace (- s * - s + 0 * 0 + 0 * 0) with (s * s) by ring. apply sqrt_square. lra. }
  destruct rows as [|rs0 rows]; [cbn in H1; lia|]. destruct keyss as [|ks0 keyss]; [inversion HR|]. assert (HR0 : Forall2 (fun r k => row_at az p masses (m_index m) (fst k) (img c p pos0 k) r) rs0 ks0) by (inversion HR; assumption).
  assert (HI : In (fst k, snd k) ks0).
  { apply (HK 0%nat ks0 eq_refl). rewrite <- surjective_pairing. split; [exact Hi|]. split; [|split].
    - unfold in_opening. rewrite ES, EN. cbn [vx vy vz]. split; [lra|]. destruct (lc_mode c).
      + replace (0 ^ 2 + 0 ^ 2) with 0 by ring. rewrite sqrt_0. apply Rmult_lt_0_compat; lra.
      + rewrite Rabs_R0. split; apply Rmult_le_pos; try lra. assert (0 <= lc_open c * lc_aspect c) by (apply Rmult_le_pos; lra). lra.
    - rewrite EN, H0. cbn [INR]. rewrite H0 in Hsw. unfold Rdiv in *. lra.
    - replace (d_start c m + INR 0 * (d_end c m - d_start c m) / INR (length (rs0 :: rows)) - buf_of p m) with (- buf_of p m) by (rewrite H0; cbn [INR]; unfold Rdiv; ring).
      rewrite <- HP. pose proof Hp as (_ & _ & Hx & Hy & Hz & _). unfold in_window. cbn [vscale vx vy vz].
      assert (V : vx (p_los p) <= vmax (p_los p) /\ vy (p_los p) <= vmax (p_los p) /\ vz (p_los p) <= vmax (p_los p)).
      { unfold vmax. pose proof (Rmax_l (vx (p_los p)) (Rmax (vy (p_los p)) (vz (p_los p)))). pose proof (Rmax_r (vx (p_los p)) (Rmax (vy (p_los p)) (vz (p_los p)))).
        pose proof (Rmax_l (vy (p_los p)) (vz (p_los p))). pose proof (Rmax_r (vy (p_los p)) (vz (p_los p))). lra. }
      assert (B2 : buf_of p m * vmax (p_los p) <= lc_box c * IZR M).
      { replace (lc_box c * IZR M) with (lc_box c * IZR M / vmax (p_los p) * vmax (p_los p)) by (field; lra). apply Rmult_le_compat_r; [lra|].
        assert (0 <= (d_end c m - d_start c m) / INR (length (rs0 :: rows))) by lra. lra. }
      assert (G : forall l, 0 < l -> l <= vmax (p_los p) -> - buf_of p m * l <= - s * l < - buf_of p m * l + lc_box c * IZR M).
      { intros l L1 L2. split; [apply Rmult_le_compat_r; lra|]. assert (0 < s * l) by (apply Rmult_lt_0_compat; lra).
        assert (buf_of p m * l <= buf_of p m * vmax (p_los p)) by (apply Rmult_le_compat_l; lra). lra. }
      split; [|split]; apply G; tauto. }
  destruct (Forall2_in_r _ _ _ _ HR0 HI) as (r & Hr & Hrow). exists r. split; [cbn [concat]; apply in_or_app; left; exact Hr|].
  rewrite <- surjective_pairing in Hrow. destruct Hrow as (R1 & R2 & R3 & _ & _ & _ & _ & _ & R9). cbn [fst] in R9. rewrite ES in R1, R2, R3. cbn in R1, R2, R3. auto.
Qed.
