(** Proofs about light cones: spheres, rotations, drawn lines of sight (C42, C43, C48, C59, C60). *)
From Coq Require Import Reals Permutation Sorted.
From Verif Require Import Dict Util RealUtil SnapModel SnapSpec Snap FormatModel FormatSpec Format LcModel LcSpec Lc Lc2 Lc3 Lc4 Lc5 Lc6 Lc7 Lc8.
From Coq Require Import Lra Lia.
Open Scope string_scope.
Open Scope list_scope.
Open Scope R_scope.

(** ** Spheres *)
Lemma rmod_shift_ex x b : 0 < b -> exists n, rmod x b = x + b * IZR n.
Proof. intros H. exists (- rfloor (x / b))%Z. unfold rmod. rewrite opp_IZR. ring. Qed.
Lemma place1 x f st B h : 0 < B -> (exists z, f = IZR z) -> exists n, rmod (rmod (x * f) B - st + h) B - h = x * f - st + B * IZR n.
Proof.
  intros HB _. destruct (rmod_shift_ex (x * f) B HB) as [a Ea]. destruct (rmod_shift_ex (rmod (x * f) B - st + h) B HB) as [b Eb]. exists (a + b)%Z. rewrite Eb, Ea, plus_IZR. ring.
Qed.
(** the lowest corner of the cube the halos are wrapped into *)
Definition low (md : smode) (box : R) : R := match md with Eighth => 0 | _ => - (box / 2) end.
Lemma place_image md c p x : 0 < lc_box c -> exists n, sphere_place md (lc_box c) (p_start p) (p_flip p) x = image (lc_box c) p x n /\
  in_window (lc_box c) (mkV (low md (lc_box c)) (low md (lc_box c)) (low md (lc_box c))) (sphere_place md (lc_box c) (p_start p) (p_flip p) x).
Proof.
  intros HB. set (B := lc_box c) in *.
  assert (C1 : forall y s, exists n, rmod (rmod y B - s + B / 2) B - B / 2 = y - s + B * IZR n /\ - (B / 2) <= rmod (rmod y B - s + B / 2) B - B / 2 < - (B / 2) + B).
  { intros y s. destruct (rmod_shift_ex y B HB) as [a Ea]. destruct (rmod_shift_ex (rmod y B - s + B / 2) B HB) as [b Eb]. exists (a + b)%Z. split; [rewrite Eb, Ea, plus_IZR; ring|].
    pose proof (rmod_range (rmod y B - s + B / 2) B HB). lra. }
  assert (C2 : forall y s, exists n, rmod (rmod y B - s + B) B = y - s + B * IZR n /\ 0 <= rmod (rmod y B - s + B) B < 0 + B).
  { intros y s. destruct (rmod_shift_ex y B HB) as [a Ea]. destruct (rmod_shift_ex (rmod y B - s + B) B HB) as [b Eb]. exists (a + b + 1)%Z. split; [rewrite Eb, Ea, !plus_IZR; ring|].
    pose proof (rmod_range (rmod y B - s + B) B HB). lra. }
  assert (Half : exists n, vsub (vmod (vadd (vsub (vmod (vmul x (p_flip p)) B) (p_start p)) (mkV (B / 2) (B / 2) (B / 2))) B) (mkV (B / 2) (B / 2) (B / 2)) = image B p x n /\
    in_window B (mkV (- (B / 2)) (- (B / 2)) (- (B / 2))) (vsub (vmod (vadd (vsub (vmod (vmul x (p_flip p)) B) (p_start p)) (mkV (B / 2) (B / 2) (B / 2))) B) (mkV (B / 2) (B / 2) (B / 2)))).
  { destruct (C1 (vx x * vx (p_flip p)) (vx (p_start p))) as (a & A1 & A2). destruct (C1 (vy x * vy (p_flip p)) (vy (p_start p))) as (b & B1 & B2). destruct (C1 (vz x * vz (p_flip p)) (vz (p_start p))) as (d & D1 & D2).
    exists (mkI a b d). split; [|split; [exact A2|split; [exact B2|exact D2]]].
    apply vec_eq; cbn [vsub vmod vadd vmul vscale image of_i vx vy vz ix iy iz]; assumption. }
  destruct md; try exact Half.
  destruct (C2 (vx x * vx (p_flip p)) (vx (p_start p))) as (a & A1 & A2). destruct (C2 (vy x * vy (p_flip p)) (vy (p_start p))) as (b & B1 & B2). destruct (C2 (vz x * vz (p_flip p)) (vz (p_start p))) as (d & D1 & D2).
  exists (mkI a b d). split; [|split; [exact A2|split; [exact B2|exact D2]]].
  apply vec_eq; cbn [vsub vmod vadd vmul vscale image of_i vx vy vz ix iy iz sphere_place]; assumption.
Qed.
Lemma window_one B P Q n n' (x : vec) p corner : 0 < B -> P = image B p x n -> Q = image B p x n' -> in_window B corner P -> in_window B corner Q -> n = n'.
Proof.
  intros HB EP EQ (W1 & W2 & W3) (V1 & V2 & V3). subst P Q. unfold image in *. cbn [vadd vsub vmul vscale of_i vx vy vz] in *.
  assert (G : forall a b k k' c0, c0 <= a - b + B * IZR k < c0 + B -> c0 <= a - b + B * IZR k' < c0 + B -> k = k').
  { intros a b k k' c0 H1 H2. assert (D : -1 < IZR k - IZR k' < 1) by (split; apply Rmult_lt_reg_l with B; lra). rewrite <- minus_IZR in D. destruct D as [D1 D2]. apply lt_IZR in D1, D2. lia. }
  destruct n as [a b d], n' as [a' b' d']. cbn [ix iy iz] in *. f_equal; [apply (G _ _ _ _ _ W1 V1)|apply (G _ _ _ _ _ W2 V2)|apply (G _ _ _ _ _ W3 V3)].
Qed.
Lemma sphere_sel_ok md a e v : 0 <= a -> 0 <= e -> sphere_sel md a e v = true <-> a <= norm v < e /\ match md with Sphere | Eighth => True | Hemi => 0 < vz v | Quarter => 0 < vz v /\ 0 < vy v end.
Proof.
  intros Ha He. unfold sphere_sel. rewrite !andb_true_iff, rleb_le, rltb_lt. pose proof (norm_sq v) as N. pose proof (norm_ge v) as N0.
  assert (D : a ^ 2 <= dot v v /\ dot v v < e ^ 2 <-> a <= norm v < e).
  { rewrite <- N. split; intros [H1 H2]; split.
    - apply Rsqr_incr_0_var; [unfold Rsqr; lra|lra].
    - apply Rsqr_incrst_0; [unfold Rsqr; lra|lra|lra].
    - replace (a ^ 2) with (a * a) by ring. apply Rmult_le_compat; lra.
    - replace (e ^ 2) with (e * e) by ring. apply Rmult_le_0_lt_compat; lra. }
  rewrite D. destruct md; rewrite ?andb_true_iff, ?rltb_lt; tauto.
Qed.
Lemma NoDup_filter_ {A} (f : A -> bool) l : NoDup l -> NoDup (filter f l).
Proof. apply NoDup_filter. Qed.
Lemma norm_coord P : Rabs (vx P) <= norm P /\ Rabs (vy P) <= norm P /\ Rabs (vz P) <= norm P.
Proof. repeat split; rewrite <- sqrt_Rsqr_abs; apply sqrt_le_1_alt; unfold Rsqr, dot; nra. Qed.
Lemma c48 asort az sk md c p m masses pos0 rows : argsorts asort -> 0 < lc_box c -> length masses = length pos0 -> 0 <= d_start c m -> 0 <= d_end c m ->
  sphere_rows asort az sk md (lc_box c) (lc_dmin c) (lc_dmax c) (p_start p) (p_flip p) m masses pos0 = Ok rows ->
  exists keys : list (nat * ivec), NoDup (map fst keys) /\
    Forall2 (fun r k => exists P, seen_at c p pos0 k P /\ ball_row az sk masses (m_index m) (fst k) P r /\ in_region md P /\ d_start c m <= norm P < d_end c m) rows keys /\
    StronglySorted (fun a b => r_dist a <= r_dist b) rows /\
    (d_end c m <= room md (lc_box c) -> forall k P, seen_at c p pos0 k P -> in_region md P -> d_start c m <= norm P < d_end c m -> In k keys).
Proof.
  intros Hs HB HM H0 H1. unfold sphere_rows. fold (d_start c m). fold (d_end c m). cbv zeta. set (B := lc_box c) in *. set (pos := map _ pos0). change (mkV 0 0 0) with v0.
  set (sel0 := filter _ _). set (sel := pick _ _). intros E.
  assert (HP : Permutation sel sel0).
  { unfold sel. apply pick_perm. destruct (Hs (map (fun i => norm (nth i pos v0)) sel0)) as [A _]. rewrite map_length in A. exact A. }
  assert (HS : StronglySorted (fun i j => norm (nth i pos v0) <= norm (nth j pos v0)) sel) by (apply (pick_sorted (fun i => norm (nth i pos v0))), Hs).
  assert (HN : NoDup sel) by (apply (Permutation_NoDup (Permutation_sym HP)), NoDup_filter, seq_NoDup).
  assert (LP : length pos = length pos0) by apply map_length.
  assert (HI : forall i, In i sel <-> (i < length pos0)%nat /\ sphere_sel md (d_start c m) (d_end c m) (nth i pos v0) = true).
  { intros i. split; intros H.
    - apply (Permutation_in _ HP), filter_In in H. destruct H as [H2 H3]. apply in_seq in H2. rewrite LP in H2. split; [lia|exact H3].
    - apply (Permutation_in _ (Permutation_sym HP)), filter_In. split; [apply in_seq; rewrite LP; lia|apply H]. }
  assert (HW : forall i, (i < length pos0)%nat -> exists n, nth i pos v0 = image B p (nth i pos0 v0) n /\ in_window B (mkV (low md B) (low md B) (low md B)) (nth i pos v0)).
  { intros i L. assert (EP : nth i pos v0 = sphere_place md B (p_start p) (p_flip p) (nth i pos0 v0)).
    { unfold pos. rewrite (nth_indep _ v0 (sphere_place md B (p_start p) (p_flip p) v0)) by (rewrite map_length; exact L). apply map_nth. }
    rewrite EP. apply place_image. exact HB. }
  assert (HK : exists ns, Forall2 (fun i n => nth i pos v0 = image B p (nth i pos0 v0) n) sel ns).
  { apply Forall2_ex. intros i Hi. apply HI in Hi. destruct (HW i (proj1 Hi)) as (n & En & _). exists n. exact En. }
  destruct HK as [ns HK]. pose proof (Forall2_length_ _ _ _ HK) as LN.
  assert (EF : map fst (combine sel ns) = sel).
  { clear -LN. revert ns LN. induction sel as [|i l IH]; intros [|n ns] L; try discriminate; [reflexivity|]. cbn. f_equal. apply IH. cbn in L. lia. }
  assert (HR : Forall2 (fun i r => ball_row az sk masses (m_index m) i (nth i pos v0) r) sel rows).
  { apply mapM_fwd in E. eapply Forall2_weaken_r with (P := fun i r => In i sel /\ (do z <- az (norm (nth i pos v0)) ;; Ok (mkRow (vx (nth i pos v0)) (vy (nth i pos v0)) (vz (nth i pos v0)) (fst (sk (nth i pos v0) (norm (nth i pos v0)))) (snd (sk (nth i pos v0) (norm (nth i pos v0)))) z (nth (i mod length masses) masses 0) (m_index m) (i mod length masses))) = Ok r).
    - clear -E. assert (G : forall l, (forall i, In i l -> In i sel) -> forall rs, Forall2 (fun i r => (do z <- az (norm (nth i pos v0)) ;; Ok (mkRow (vx (nth i pos v0)) (vy (nth i pos v0)) (vz (nth i pos v0)) (fst (sk (nth i pos v0) (norm (nth i pos v0)))) (snd (sk (nth i pos v0) (norm (nth i pos v0)))) z (nth (i mod length masses) masses 0) (m_index m) (i mod length masses))) = Ok r) l rs ->
        Forall2 (fun i r => In i sel /\ (do z <- az (norm (nth i pos v0)) ;; Ok (mkRow (vx (nth i pos v0)) (vy (nth i pos v0)) (vz (nth i pos v0)) (fst (sk (nth i pos v0) (norm (nth i pos v0)))) (snd (sk (nth i pos v0) (norm (nth i pos v0)))) z (nth (i mod length masses) masses 0) (m_index m) (i mod length masses))) = Ok r) l rs).
      { intros l Hl rs H. induction H as [|i r l rs Hr H IH]; constructor; [split; [apply Hl; left; reflexivity|exact Hr]|]. apply IH. intros; apply Hl; right; assumption. }
      apply (G sel (fun i h => h) rows E).
    - intros i r _ [Hi Hr]. destruct (az (norm (nth i pos v0))) as [z|] eqn:Ez; cbn [bind] in Hr; [|discriminate]. inversion Hr; subst r. apply HI in Hi. destruct Hi as [Hi _].
      assert (EM : (i mod length masses = i)%nat) by (apply Nat.mod_small; lia). unfold ball_row. cbn [r_x r_y r_z r_ra r_dec r_red r_mass r_snap r_index]. rewrite EM.
      repeat (split; [reflexivity || exact Ez|]). split; [apply nth_error_nth'; lia|]. split; reflexivity. }
  exists (combine sel ns). split; [rewrite EF; exact HN|]. split; [|split].
  - assert (G : forall l, (forall i, In i l -> In i sel) -> forall nn rr, Forall2 (fun i n => nth i pos v0 = image B p (nth i pos0 v0) n) l nn -> Forall2 (fun i r => ball_row az sk masses (m_index m) i (nth i pos v0) r) l rr ->
      Forall2 (fun r k => exists P, seen_at c p pos0 k P /\ ball_row az sk masses (m_index m) (fst k) P r /\ in_region md P /\ d_start c m <= norm P < d_end c m) rr (combine l nn)).
    { intros l Hl nn rr H2. revert rr. induction H2 as [|i n l nn Hn H2 IH]; intros rr H3; inversion H3 as [|? r ? rr' R1 R2]; subst; cbn [combine]; constructor.
      - pose proof (Hl i (or_introl eq_refl)) as Ii. apply HI in Ii. destruct Ii as [Li Si]. exists (nth i pos v0). split; [|split; [exact R1|]].
        + exists (nth i pos0 v0). split; [apply nth_error_nth'; exact Li|exact Hn].
        + apply sphere_sel_ok in Si; [|exact H0|exact H1]. destruct Si as [S1 S2]. split; [|exact S1].
          destruct (HW i Li) as (_ & _ & W1 & W2 & W3). destruct md; cbn [in_region low] in *; try exact S2. cbn [vx vy vz] in *. lra.
      - apply IH; [intros; apply Hl; right; assumption|exact R2]. }
    apply (G sel (fun i h => h) ns rows HK HR).
  - clear -HS HR. assert (RD : forall i r, ball_row az sk masses (m_index m) i (nth i pos v0) r -> r_dist r = norm (nth i pos v0)).
    { intros i r (R1 & R2 & R3 & _). unfold r_dist. rewrite R1, R2, R3. f_equal. destruct (nth i pos v0). reflexivity. }
    revert HS. induction HR as [|i r l rs Hr HR IH]; intros HS; [constructor|]. inversion HS as [|? ? S1 S2]; subst. constructor; [apply IH, S1|]. apply Forall_forall. intros r' Hr'.
    destruct (Forall2_in_r _ _ _ _ HR Hr') as (i' & Hi' & Hrow'). rewrite (RD _ _ Hr), (RD _ _ Hrow'). rewrite Forall_forall in S2. apply S2, Hi'.
  - intros HRoom [i n] P (x & Ex & EP) HReg HD. cbn [fst snd] in *. pose proof (nth_error_Some_lt _ _ _ Ex) as Li. assert (x0 : nth i pos0 v0 = x) by (apply nth_error_nth with (1 := Ex)).
    destruct (HW i Li) as (n' & En & Wn). rewrite x0 in En.
    assert (WP : in_window B (mkV (low md B) (low md B) (low md B)) P).
    { destruct (norm_coord P) as (N1 & N2 & N3). assert (G : forall a, Rabs a <= norm P -> - norm P <= a <= norm P) by (intros a Ha; split; [pose proof (Rle_abs (- a)) as Q; rewrite Rabs_Ropp in Q; lra|pose proof (Rle_abs a); lra]).
      apply G in N1, N2, N3. unfold in_window. cbn [vx vy vz]. destruct md; cbn [room low in_region] in *; repeat split; lra. }
    pose proof (window_one B P (nth i pos v0) n n' x p _ HB EP En WP Wn) as ->.
    assert (EQ : P = nth i pos v0) by (rewrite En; exact EP).
    assert (Ii : In i sel). { apply HI. split; [exact Li|]. apply sphere_sel_ok; [exact H0|exact H1|]. rewrite <- EQ. split; [exact HD|]. destruct md; cbn [in_region] in HReg; tauto. }
    assert (G : forall l nn, Forall2 (fun i n => nth i pos v0 = image B p (nth i pos0 v0) n) l nn -> In i l -> exists n2, In (i, n2) (combine l nn) /\ nth i pos v0 = image B p (nth i pos0 v0) n2).
    { intros l nn H. induction H as [|j k l nn Hj H IH]; intros I; [destruct I|]. destruct I as [->|I]; [exists k; split; [left; reflexivity|exact Hj]|]. destruct (IH I) as (n2 & I2 & E2). exists n2. split; [right; exact I2|exact E2]. }
    destruct (G sel ns HK Ii) as (n2 & I2 & E2). rewrite x0 in E2. pose proof (window_one B _ _ n2 n' x p _ HB E2 En Wn Wn) as ->. exact I2.
Qed.
