(** Proofs about the contents of a light cone (C40, C41). *)
From Coq Require Import Reals Permutation Sorted.
From Verif Require Import Dict Util RealUtil SnapModel SnapSpec Snap FormatModel FormatSpec Format LcModel LcSpec Lc Lc2 Lc3.
From Coq Require Import Lra Lia.
Open Scope string_scope.
Open Scope list_scope.
Open Scope R_scope.

Lemma Forall2_length_ {A B} (P : A -> B -> Prop) l r : Forall2 P l r -> length l = length r.
Proof. intros H. induction H; cbn; congruence. Qed.
Lemma seen_img c p pos0 k P : seen_at c p pos0 k P <-> (fst k < length pos0)%nat /\ P = img c p pos0 k.
Proof.
  unfold seen_at, img. split.
  - intros (x & E & ->). split; [apply nth_error_Some_lt with (1 := E)|]. rewrite (nth_error_nth _ _ _ E). reflexivity.
  - intros [L ->]. exists (nth (fst k) pos0 v0). split; [apply nth_error_nth'; exact L|reflexivity].
Qed.
Lemma row_dist az p masses s i P r : good_pt p -> row_at az p masses s i P r -> r_dist r = norm P.
Proof.
  intros Hp (E1 & E2 & E3 & _). unfold r_dist. rewrite E1, E2, E3, norm_perm.
  rewrite <- (rotation_norm _ P (sky_rotation p Hp)). destruct (sky p P); reflexivity.
Qed.

(** ** The opening in terms of the radius *)
Lemma sq_le_sqrt a b : 0 <= a -> 0 <= b -> a <= b ^ 2 -> sqrt a <= b.
Proof. intros Ha Hb H. rewrite <- (sqrt_pow2 b Hb). apply sqrt_le_1; [exact Ha|apply pow2_ge_0|exact H]. Qed.
Lemma opening_sq c p P : 0 <= radius c -> in_opening c p P ->
  vy (sky p P) ^ 2 + vz (sky p P) ^ 2 <= (radius c * norm P) ^ 2.
Proof.
  intros HR [HD H]. set (y := vy (sky p P)) in *. set (z := vz (sky p P)) in *. set (d := norm P) in *. unfold radius in *.
  destruct (lc_mode c).
  - apply Rlt_le in H. assert (HS : 0 <= y ^ 2 + z ^ 2) by (pose proof (pow2_ge_0 y); pose proof (pow2_ge_0 z); lra).
    rewrite <- (pow2_sqrt _ HS). apply pow_incr. split; [apply sqrt_pos|exact H].
  - destruct H as [H1 H2]. unfold angle1, angle2 in *.
    set (a := lc_open c) in *. set (b := a * lc_aspect c) in *.
    rewrite Rpow_mult_distr. replace ((sqrt (a ^ 2 + b ^ 2) / 2) ^ 2) with ((a ^ 2 + b ^ 2) / 4).
    + assert (G : forall u e, Rabs u <= e / 2 * d -> u ^ 2 <= e ^ 2 / 4 * d ^ 2).
      { intros u e Hu. rewrite <- (pow2_abs u). replace (e ^ 2 / 4 * d ^ 2) with ((e / 2 * d) ^ 2) by (field). apply pow_incr.
        split; [apply Rabs_pos|exact Hu]. }
      apply G in H1. apply G in H2. lra.
    + replace ((sqrt (a ^ 2 + b ^ 2) / 2) ^ 2) with (sqrt (a ^ 2 + b ^ 2) ^ 2 / 4) by field.
      rewrite pow2_sqrt; [reflexivity|]. pose proof (pow2_ge_0 a). pose proof (pow2_ge_0 b). lra.
Qed.
Lemma sky_split p P : good_pt p -> norm P ^ 2 = dot (p_los p) P ^ 2 + (vy (sky p P) ^ 2 + vz (sky p P) ^ 2).
Proof.
  intros Hp. pose proof (rotation_norm _ P (sky_rotation p Hp)) as E. rewrite <- E. rewrite <- (sky_vx p P Hp).
  replace (norm (sky p P) ^ 2) with (norm (sky p P) * norm (sky p P)) by ring. rewrite norm_sq. unfold dot. ring.
Qed.

(** ** Front and back *)
Lemma dot_window p side a P : good_pt p -> in_window side (vscale a (p_los p)) P -> a <= dot (p_los p) P.
Proof.
  intros (_ & H1 & Hx & Hy & Hz & _) (W1 & W2 & W3). cbn [vscale vx vy vz] in *. set (l := p_los p) in *.
  assert (dot l (vscale a l) <= dot l P).
  { unfold dot. cbn [vscale vx vy vz]. nra. }
  replace (dot l (vscale a l)) with (a * dot l l) in H by (unfold dot; cbn; ring). rewrite H1 in H. lra.
Qed.
Lemma front c p side a P : good_pt p -> 0 <= radius c < 1 -> 0 <= a -> in_window side (vscale a (p_los p)) P -> in_opening c p P -> in_cone c p P.
Proof.
  intros Hp HR Ha HW HO. split; [exact HO|]. pose proof (dot_window p side a P Hp HW) as H.
  destruct (Rle_lt_or_eq_dec 0 (dot (p_los p) P)) as [L|E]; [lra|exact L|exfalso].
  pose proof (opening_sq c p P (proj1 HR) HO) as H1. pose proof (sky_split p P Hp) as H2. rewrite <- E in H2. destruct HO as [HD _].
  assert ((radius c * norm P) ^ 2 < norm P ^ 2); [|lra]. rewrite Rpow_mult_distr. assert (radius c ^ 2 < 1) by nra.
  assert (0 < norm P ^ 2) by (apply pow_lt; exact HD). nra.
Qed.

(** ** The window holds the cone *)
Lemma across l t : dot l l = 1 -> dot l t = 0 ->
  vx t ^ 2 <= dot t t * (1 - vx l ^ 2) /\ vy t ^ 2 <= dot t t * (1 - vy l ^ 2) /\ vz t ^ 2 <= dot t t * (1 - vz l ^ 2).
Proof.
  destruct l as [a b c], t as [x y z]. unfold dot. cbn [vx vy vz]. intros H1 H0.
  assert (CS : forall u v p q : R, (u * p + v * q) ^ 2 <= (u ^ 2 + v ^ 2) * (p ^ 2 + q ^ 2)) by (intros; pose proof (pow2_ge_0 (u * q - v * p)); nra).
  assert (G : forall a b c x y z, a * a + b * b + c * c = 1 -> a * x + b * y + c * z = 0 -> x ^ 2 <= (x * x + y * y + z * z) * (1 - a ^ 2)).
  { clear -CS. intros a b c x y z H1 H0. pose proof (CS b c y z) as H. replace (b * y + c * z) with (- (a * x)) in H by lra.
    replace (1 - a ^ 2) with (b ^ 2 + c ^ 2) by lra. replace (x ^ 2) with (x ^ 2 * (a * a + b * b + c * c)) by (rewrite H1; ring). nra. }
  split; [|split].
  - apply (G a b c x y z); assumption.
  - rewrite (Rplus_comm (x * x)). apply (G b a c y x z); lra.
  - replace (x * x + y * y + z * z) with (z * z + x * x + y * y) by ring. apply (G c a b z x y); lra.
Qed.
Lemma axis_bound D u T t l s q rho E buf lo w box vm :
  0 <= D -> 0 < u -> 0 <= T -> 0 < l -> l <= vm -> s = sqrt (1 - l ^ 2) -> q = sqrt (1 - rho ^ 2) -> 0 <= rho <= 1 ->
  u ^ 2 + T ^ 2 = D ^ 2 -> T <= rho * D -> t ^ 2 <= T ^ 2 * (1 - l ^ 2) -> l ^ 2 <= 1 ->
  E * (rho * s + (1 - q) * l) <= buf * l -> D <= E -> lo <= D < lo + w -> w <= box / vm - 2 * buf ->
  (lo - buf) * l <= u * l + t < (lo - buf) * l + box.
Proof.
  intros HD Hu HT Hl Hv Es Eq HR HP HTr Ht Hl1 HW HE HDl Hw.
  assert (Hs : 0 <= s) by (rewrite Es; apply sqrt_pos).
  assert (Hs2 : s ^ 2 = 1 - l ^ 2) by (rewrite Es; apply pow2_sqrt; lra).
  assert (Hq : 0 <= q) by (rewrite Eq; apply sqrt_pos).
  assert (Hq2 : q ^ 2 = 1 - rho ^ 2) by (rewrite Eq; apply pow2_sqrt; nra).
  assert (Hq1 : q <= 1) by nra.
  assert (Hts : Rabs t <= T * s).
  { apply Rsqr_incr_0; [|apply Rabs_pos|nra]. unfold Rsqr. rewrite <- Rabs_mult, Rabs_pos_eq by nra.
    replace (T * s * (T * s)) with (T ^ 2 * s ^ 2) by ring. rewrite Hs2. nra. }
  assert (Hts2 : Rabs t <= rho * D * s) by (apply Rle_trans with (T * s); [exact Hts|apply Rmult_le_compat_r; [exact Hs|exact HTr]]).
  assert (Huq : D * q <= u).
  { apply Rsqr_incr_0; [|nra|lra]. unfold Rsqr. assert (T ^ 2 <= (rho * D) ^ 2) by (apply pow_incr; lra). nra. }
  assert (HuD : u <= D) by (apply Rsqr_incr_0; [unfold Rsqr; nra|lra|lra]).
  assert (Hb : D * (rho * s + (1 - q) * l) <= buf * l).
  { apply Rle_trans with (E * (rho * s + (1 - q) * l)); [|exact HW]. apply Rmult_le_compat_r; [|exact HE].
    assert (0 <= rho * s) by (apply Rmult_le_pos; lra). assert (0 <= (1 - q) * l) by (apply Rmult_le_pos; lra). lra. }
  assert (Hql : D * q * l <= u * l) by (apply Rmult_le_compat_r; lra).
  assert (HuDl : u * l <= D * l) by (apply Rmult_le_compat_r; lra).
  assert (A1 : lo * l <= D * l) by (apply Rmult_le_compat_r; lra).
  assert (A2 : D * l < (lo + w) * l) by (apply Rmult_lt_compat_r; lra).
  pose proof (Rle_abs t). pose proof (Rle_abs (- t)). rewrite Rabs_Ropp in H0.
  assert (A3 : 0 <= D * ((1 - q) * l)) by (apply Rmult_le_pos; [lra|apply Rmult_le_pos; lra]).
  split.
  - nra.
  - assert (Hvm : 0 < vm) by lra.
    assert (A4 : (w + 2 * buf) * l <= box).
    { assert (0 <= w + 2 * buf).
      { assert (0 <= D * (rho * s)) by (apply Rmult_le_pos; [lra|apply Rmult_le_pos; lra]).
        assert (0 <= buf * l) by nra. assert (0 <= buf); [|lra]. apply Rmult_le_reg_r with l; [exact Hl|lra]. }
      assert (B1 : (w + 2 * buf) * vm <= box).
      { replace box with (box / vm * vm) by (field; lra). apply Rmult_le_compat_r; lra. }
      apply Rle_trans with ((w + 2 * buf) * vm); [|exact B1]. apply Rmult_le_compat_l; assumption. }
    nra.
Qed.
Lemma dot_sub_l l P u : dot l (vsub P (vscale u l)) = dot l P - u * dot l l.
Proof. unfold dot. cbn [vsub vscale vx vy vz]. ring. Qed.
Lemma dot_sub_sub l P u : dot (vsub P (vscale u l)) (vsub P (vscale u l)) = dot P P - 2 * u * dot l P + u ^ 2 * dot l l.
Proof. unfold dot. cbn [vsub vscale vx vy vz]. ring. Qed.
Lemma wide_window c p m side lo w P : good_pt p -> wide_enough c p m -> in_cone c p P ->
  norm P <= d_end c m -> lo <= norm P < lo + w -> w <= side / vmax (p_los p) - 2 * buf_of p m ->
  in_window side (vscale (lo - buf_of p m) (p_los p)) P.
Proof.
  intros Hp (HR & HW) [HO Hf] HE HL Hw.
  pose proof (opening_sq c p P (proj1 HR) HO) as HT2. pose proof (sky_split p P Hp) as HS.
  set (T := sqrt (vy (sky p P) ^ 2 + vz (sky p P) ^ 2)).
  assert (HT0 : 0 <= vy (sky p P) ^ 2 + vz (sky p P) ^ 2) by (pose proof (pow2_ge_0 (vy (sky p P))); pose proof (pow2_ge_0 (vz (sky p P))); lra).
  assert (ET : T ^ 2 = vy (sky p P) ^ 2 + vz (sky p P) ^ 2) by (apply pow2_sqrt; exact HT0).
  rewrite <- ET in HT2, HS. assert (HTp : 0 <= T) by apply sqrt_pos. pose proof (norm_ge P) as HD.
  assert (HTr : T <= radius c * norm P) by (apply Rsqr_incr_0; [unfold Rsqr; nra|exact HTp|apply Rmult_le_pos; lra]).
  set (u := dot (p_los p) P) in *. set (t := vsub P (vscale u (p_los p))).
  pose proof Hp as (_ & H1 & Hx & Hy & Hz & _).
  assert (Hlt : dot (p_los p) t = 0).
  { unfold t. rewrite dot_sub_l, H1. fold u. ring. }
  assert (Htt : dot t t = T ^ 2).
  { unfold t. rewrite dot_sub_sub. fold u. rewrite H1, <- norm_sq. lra. }
  destruct (across _ _ H1 Hlt) as (B1 & B2 & B3). rewrite Htt in B1, B2, B3.
  assert (HP : u ^ 2 + T ^ 2 = norm P ^ 2) by lra.
  assert (V : vx (p_los p) <= vmax (p_los p) /\ vy (p_los p) <= vmax (p_los p) /\ vz (p_los p) <= vmax (p_los p)).
  { unfold vmax. pose proof (Rmax_l (vx (p_los p)) (Rmax (vy (p_los p)) (vz (p_los p)))). pose proof (Rmax_r (vx (p_los p)) (Rmax (vy (p_los p)) (vz (p_los p)))).
    pose proof (Rmax_l (vy (p_los p)) (vz (p_los p))). pose proof (Rmax_r (vy (p_los p)) (vz (p_los p))). lra. }
  assert (SQ : vx (p_los p) ^ 2 <= 1 /\ vy (p_los p) ^ 2 <= 1 /\ vz (p_los p) ^ 2 <= 1) by (unfold dot in H1; nra).
  assert (G : forall l tj, 0 < l -> l <= vmax (p_los p) -> l ^ 2 <= 1 -> l = vx (p_los p) \/ l = vy (p_los p) \/ l = vz (p_los p) ->
     tj ^ 2 <= T ^ 2 * (1 - l ^ 2) -> (lo - buf_of p m) * l <= u * l + tj < (lo - buf_of p m) * l + side).
  { intros l tj L1 L2 L3 L4 L5.
    apply (axis_bound (norm P) u T tj l (sqrt (1 - l ^ 2)) (sqrt (1 - radius c ^ 2)) (radius c) (d_end c m) (buf_of p m) lo w side (vmax (p_los p)));
      try reflexivity; try assumption. apply HW. exact L4. }
  unfold in_window. cbn [vscale vx vy vz].
  assert (EX : vx P = u * vx (p_los p) + vx t) by (unfold t; cbn; ring).
  assert (EY : vy P = u * vy (p_los p) + vy t) by (unfold t; cbn; ring).
  assert (EZ : vz P = u * vz (p_los p) + vz t) by (unfold t; cbn; ring).
  rewrite EX, EY, EZ. split; [|split]; apply G; tauto.
Qed.

(** ** C41 *)
Lemma step_width asort az c p m masses pos0 rows M keyss : snap_facts asort az c p m masses pos0 rows M keyss -> d_start c m < d_end c m ->
  (d_end c m - d_start c m) / INR (length rows) <= lc_box c * IZR M / vmax (p_los p) - 2 * buf_of p m.
Proof.
  intros [H1 _ [HN HZ] _ _ _ _] HU. set (X := lc_box c * IZR M / vmax (p_los p) - 2 * buf_of p m) in *. set (u := d_end c m - d_start c m) in *.
  assert (0 < u) by (unfold u; lra). pose proof (rceil_spec (u / X)) as [C1 C2]. rewrite <- HN, <- INR_IZR_INZ in C1, C2.
  assert (HN1 : 1 <= INR (length rows)) by (change 1 with (INR 1); apply le_INR; exact H1).
  assert (HX : 0 < X).
  { destruct (Rtotal_order X 0) as [L|[L|L]]; [exfalso|contradiction|exact L].
    assert (u / X < 0); [|lra]. apply Rmult_lt_reg_r with (- X); [lra|]. replace (u / X * - X) with (- u) by (field; lra). lra. }
  apply Rmult_le_reg_r with (INR (length rows)); [lra|]. replace (u / INR (length rows) * INR (length rows)) with u by (field; lra).
  replace u with (u / X * X) by (field; lra). rewrite (Rmult_comm X). apply Rmult_le_compat_r; lra.
Qed.
Lemma Forall2_concat {A B} (P : A -> B -> Prop) ll : forall rr, Forall2 (Forall2 P) ll rr -> Forall2 P (concat ll) (concat rr).
Proof. induction ll as [|l ll IH]; intros rr H; inversion H; subst; cbn; [constructor|]. apply Forall2_app; [assumption|apply IH; assumption]. Qed.
Lemma Forall2_weaken_r {A B} (P Q : A -> B -> Prop) l r : Forall2 P l r -> (forall a b, In b r -> P a b -> Q a b) -> Forall2 Q l r.
Proof.
  intros H. induction H as [|a b l r HP H IH]; intros I; constructor; [apply I; [left; reflexivity|exact HP]|].
  apply IH. intros; apply I; [right|]; assumption.
Qed.
Lemma c41 asort az c p m masses pos0 rows : argsorts asort -> good_pt p -> length masses = length pos0 -> 0 < lc_box c ->
  snap_slabs asort az c p m masses pos0 = Ok (map Ok rows) -> exists keys, NoDup keys /\
  Forall2 (fun r k => exists P, seen_at c p pos0 k P /\ row_at az p masses (m_index m) (fst k) P r /\
                                in_opening c p P /\ d_start c m <= norm P < d_end c m) (concat rows) keys /\
  (0 <= radius c < 1 -> buf_of p m <= d_start c m -> forall k P, In k keys -> seen_at c p pos0 k P -> in_cone c p P) /\
  (wide_enough c p m -> forall k P, seen_at c p pos0 k P -> in_cone c p P -> d_start c m <= norm P < d_end c m -> In k keys).
Proof.
  intros Hs Hp Hm HB E. destruct (snap_exact _ _ _ _ _ _ _ _ Hs Hp Hm HB E) as (M & keyss & F). pose proof F as F0.
  destruct F as [H1 _ _ HR HK HN _]. exists (concat keyss). split; [exact HN|].
  assert (HI : forall i n, In (i, n) (concat keyss) -> exists t, (t < length rows)%nat /\ (i < length pos0)%nat /\ in_opening c p (img c p pos0 (i, n)) /\
    (d_start c m <= norm (img c p pos0 (i, n)) < d_end c m) /\ d_start c m < d_end c m /\
    in_window (lc_box c * IZR M) (vscale (d_start c m + INR t * (d_end c m - d_start c m) / INR (length rows) - buf_of p m) (p_los p)) (img c p pos0 (i, n))).
  { intros i n H. apply in_concat in H. destruct H as (ks & H & Hk). apply In_nth_error in H. destruct H as [t Et].
    apply (HK _ _ Et) in Hk. destruct Hk as (A1 & A2 & A3 & A4). exists t.
    assert (L : (t < length rows)%nat) by (rewrite (Forall2_length_ _ _ _ HR); apply nth_error_Some_lt with (1 := Et)).
    split; [exact L|]. split; [exact A1|]. split; [exact A2|].
    destruct (Rlt_or_le (d_start c m) (d_end c m)) as [Hlt|Hle].
    - split; [apply (step_in _ _ (length rows) t _ L (Rlt_le _ _ Hlt) A3)|]. split; [exact Hlt|exact A4].
    - exfalso. exact (step_neg' _ _ _ t _ H1 Hle A3). }
  split; [|split].
  - apply (Forall2_weaken_r _ _ _ _ (Forall2_concat _ _ _ HR)). intros r [i n] Hk Hrow. destruct (HI i n Hk) as (t & _ & A1 & A2 & A3 & _).
    exists (img c p pos0 (i, n)). split; [apply seen_img; split; [exact A1|reflexivity]|]. split; [exact Hrow|]. split; assumption.
  - intros HRad Hb [i n] P Hk HP. apply seen_img in HP. destruct HP as [_ ->]. destruct (HI i n Hk) as (t & L & _ & A2 & _ & Hlt & A4).
    apply (front _ _ _ _ _ Hp HRad) with (2 := A4); [|exact A2].
    assert (0 <= INR t * (d_end c m - d_start c m) / INR (length rows)); [|lra].
    apply Rmult_le_pos; [apply Rmult_le_pos; [apply pos_INR|lra]|]. left. apply Rinv_0_lt_compat, lt_0_INR. lia.
  - intros HWide [i n] P HP HC HD. apply seen_img in HP. destruct HP as [Hi ->]. assert (Hlt : d_start c m < d_end c m) by lra.
    destruct (step_find _ _ (length rows) _ H1 HD) as (t & Lt & Ht).
    pose proof (Forall2_length_ _ _ _ HR) as EL.
    destruct (nth_error_lt_Some keyss t ltac:(lia)) as [ks Et].
    apply in_concat. exists ks. split; [apply nth_error_In with (1 := Et)|]. apply (HK _ _ Et). split; [exact Hi|]. split; [apply HC|]. split; [exact Ht|].
    apply (wide_window c p m _ _ ((d_end c m - d_start c m) / INR (length rows))).
    + exact Hp.
    + exact HWide.
    + exact HC.
    + lra.
    + replace ((INR t + 1) * (d_end c m - d_start c m) / INR (length rows)) with
        (INR t * (d_end c m - d_start c m) / INR (length rows) + (d_end c m - d_start c m) / INR (length rows)) in Ht by (unfold Rdiv; ring). lra.
    + apply (step_width _ _ _ _ _ _ _ _ _ _ F0 Hlt).
Qed.

(** ** C40 *)
Lemma c40 asort az c p m masses pos0 rows : argsorts asort -> good_pt p -> length masses = length pos0 -> 0 < lc_box c ->
  snap_slabs asort az c p m masses pos0 = Ok (map Ok rows) ->
  let w := (d_end c m - d_start c m) / INR (length rows) in
  (forall D, d_start c m <= D < d_end c m -> exists! t, (t < length rows)%nat /\ d_start c m + INR t * w <= D < d_start c m + (INR t + 1) * w) /\
  (forall t rs r, nth_error rows t = Some rs -> In r rs -> d_start c m + INR t * w <= r_dist r < d_start c m + (INR t + 1) * w /\ d_start c m <= r_dist r < d_end c m) /\
  StronglySorted (fun a b => r_dist a <= r_dist b) (concat rows).
Proof.
  intros Hs Hp Hm HB E w. destruct (snap_exact _ _ _ _ _ _ _ _ Hs Hp Hm HB E) as (M & keyss & F).
  destruct F as [H1 _ _ HR HK HN HS].
  assert (W : forall x, x * (d_end c m - d_start c m) / INR (length rows) = x * w) by (intros; unfold w, Rdiv; ring).
  split; [|split].
  - intros D HD. destruct (step_find _ _ (length rows) _ H1 HD) as (t & Lt & Ht). rewrite !W in Ht. exists t. split; [split; assumption|].
    intros t' [Lt' Ht']. destruct (Nat.lt_trichotomy t t') as [L|[L|L]]; [exfalso|exact L|exfalso].
    + rewrite <- !W in Ht, Ht'. pose proof (step_order (d_start c m) (d_end c m) (length rows) t t' D D H1 ltac:(lra) L (proj2 Ht) (proj1 Ht')). lra.
    + rewrite <- !W in Ht, Ht'. pose proof (step_order (d_start c m) (d_end c m) (length rows) t' t D D H1 ltac:(lra) L (proj2 Ht') (proj1 Ht)). lra.
  - intros t rs r Et Hr. pose proof (Forall2_length_ _ _ _ HR) as EL. pose proof (nth_error_Some_lt _ _ _ Et) as Lt.
    destruct (nth_error_lt_Some keyss t ltac:(lia)) as [ks Ek].
    assert (HF : Forall2 (fun r k => row_at az p masses (m_index m) (fst k) (img c p pos0 k) r) rs ks).
    { clear -HR Et Ek. revert t Et Ek. induction HR as [|a b l l' HP H IH]; intros t E1 E2; destruct t; try discriminate; cbn in *.
      - inversion E1; inversion E2; subst. exact HP.
      - exact (IH t E1 E2). }
    destruct (Forall2_in_l _ _ _ _ HF Hr) as ([i n] & Hk & Hrow). rewrite (row_dist _ _ _ _ _ _ _ Hp Hrow).
    apply (HK _ _ Ek) in Hk. destruct Hk as (_ & _ & Hk & _).
    assert (G : d_start c m <= norm (img c p pos0 (i, n)) < d_end c m).
    { destruct (Rlt_or_le (d_start c m) (d_end c m)) as [Hlt|Hle]; [apply (step_in _ _ (length rows) t _ Lt (Rlt_le _ _ Hlt) Hk)|].
      exfalso. exact (step_neg' _ _ _ t _ H1 Hle Hk). }
    split; [rewrite !W in Hk; exact Hk|exact G].
  - pose proof (Forall2_concat _ _ _ HR) as HC. clear -HC HS Hp. revert HS. induction HC as [|r k l l' Hr HC IH]; intros HS; [constructor|].
    inversion HS as [|? ? HS' HF]; subst. constructor; [apply IH; exact HS'|].
    apply Forall_forall. intros r' Hr'. destruct (Forall2_in_l _ _ _ _ HC Hr') as (k' & Hk' & Hrow').
    rewrite Forall_forall in HF. rewrite (row_dist _ _ _ _ _ _ _ Hp Hr), (row_dist _ _ _ _ _ _ _ Hp Hrow'). apply HF. exact Hk'.
Qed.
