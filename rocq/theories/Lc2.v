(** Proofs about replication and selection of halos (C40, C41, C42). *)
From Coq Require Import Reals Permutation Sorted.
From Verif Require Import Dict Util RealUtil SnapModel SnapSpec Snap FormatModel FormatSpec Format LcModel LcSpec Lc.
From Coq Require Import Lra Lia.
Open Scope string_scope.
Open Scope list_scope.
Open Scope R_scope.

(** * Replication *)
Definition v0 : vec := mkV 0 0 0.
Definition place (B : R) (pos0 : list vec) (k : nat * ivec) : vec := vadd (nth (fst k) pos0 v0) (vscale B (of_i (snd k))).
Record rep (B : R) (pos0 : list vec) (M : ivec) (pos : list vec) (ks : list (nat * ivec)) : Prop := mkRep {
  rep_pos : pos = map (place B pos0) ks;
  rep_nodup : NoDup ks;
  rep_in : forall i o, In (i, o) ks <-> (i < length pos0)%nat /\ (0 <= ix o < ix M)%Z /\ (0 <= iy o < iy M)%Z /\ (0 <= iz o < iz M)%Z;
  rep_len : exists q, length ks = (q * length pos0)%nat;
  rep_idx : forall j k, nth_error ks j = Some k -> fst k = (j mod length pos0)%nat }.

Lemma rep0 B pos0 : rep B pos0 (mkI 1 1 1) pos0 (map (fun i => (i, mkI 0 0 0)) (seq 0 (length pos0))).
Proof.
  constructor.
  - rewrite map_map. rewrite <- (map_ext_in' (fun i => nth i pos0 v0)).
    + apply nth_error_ext. intros i. rewrite nth_error_map, nth_error_seq. destruct (Nat.ltb_spec i (length pos0)) as [L|L].
      * cbn [option_map]. apply nth_error_nth'. exact L.
      * cbn. apply nth_error_None. lia.
    + intros i _. unfold place. cbn [fst snd]. apply vec_eq; cbn; ring.
  - apply FinFun.Injective_map_NoDup; [|apply seq_NoDup]. intros a b H. congruence.
  - intros i o. rewrite in_map_iff. split.
    + intros (x & E & H). apply in_seq in H. inversion E; subst. cbn. lia.
    + intros (H & H1 & H2 & H3). exists i. split; [|apply in_seq; lia]. destruct o as [a b c]. cbn in *. f_equal. f_equal; lia.
  - exists 1%nat. rewrite map_length, seq_length. lia.
  - intros j k H. rewrite nth_error_map, nth_error_seq in H. destruct (Nat.ltb_spec j (length pos0)) as [L|L]; [|discriminate].
    cbn in H. inversion H; subst. cbn. symmetry. apply Nat.mod_small. exact L.
Qed.

Definition comp (d : nat) (o : ivec) : Z := match d with 0%nat => ix o | 1%nat => iy o | _ => iz o end.
Definition bump (d : nat) (o : ivec) (a : Z) : ivec :=
  match d with 0%nat => mkI (ix o + a) (iy o) (iz o) | 1%nat => mkI (ix o) (iy o + a) (iz o) | _ => mkI (ix o) (iy o) (iz o + a) end.
Lemma rep_double B pos0 M pos ks d : rep B pos0 M pos ks -> (0 < comp d M)%Z ->
  exists ks', rep B pos0 (bump d M (comp d M)) (pos ++ map (fun v => vadd v (vscale (B * IZR (comp d M)) (unit_vec d))) pos) ks'.
Proof.
  intros [HP HN HI [q HL] HX] HM. exists (ks ++ map (fun k => (fst k, bump d (snd k) (comp d M))) ks).
  assert (HC : forall i o, In (i, o) ks -> (0 <= comp d o < comp d M)%Z).
  { intros i o H. apply HI in H. destruct d as [|[|d]]; cbn; lia. }
  constructor.
  - rewrite map_app, map_map. rewrite HP at 1. f_equal. rewrite HP, map_map. apply map_ext. intros [i o]. unfold place. cbn [fst snd].
    destruct d as [|[|d]]; apply vec_eq; cbn; rewrite ?plus_IZR; ring.
  - apply NoDup_app_i.
    + exact HN.
    + apply FinFun.Injective_map_NoDup; [|exact HN]. intros [i [a b c]] [i' [a' b' c']] H. inversion H as [[H1 H2]]. subst.
      destruct d as [|[|d]]; cbn in H2; inversion H2; subst; f_equal; f_equal; lia.
    + intros [i o] H1 H2. apply in_map_iff in H2. destruct H2 as ([i' o'] & E & H2). inversion E; subst.
      apply HC in H1. apply HC in H2. cbn [fst snd] in *. destruct d as [|[|d]]; cbn in *; lia.
  - intros i o. rewrite in_app_iff, in_map_iff. split.
    + intros [H|([i' o'] & E & H)].
      * apply HI in H. destruct d as [|[|d]]; cbn in *; lia.
      * inversion E; subst. apply HI in H. cbn [fst snd]. destruct d as [|[|d]]; cbn in *; lia.
    + intros H. destruct (Z_lt_ge_dec (comp d o) (comp d M)) as [L|L].
      * left. apply HI. destruct d as [|[|d]]; cbn in *; lia.
      * right. exists (i, bump d o (- comp d M)). split.
        -- cbn [fst snd]. f_equal. destruct o as [a b c]. destruct d as [|[|d]]; cbn; f_equal; lia.
        -- apply HI. destruct d as [|[|d]]; cbn in *; lia.
  - exists (2 * q)%nat. rewrite app_length, map_length. lia.
  - intros j k H. destruct (Nat.lt_ge_cases j (length ks)) as [L|L].
    + rewrite nth_error_app1 in H by exact L. apply HX. exact H.
    + rewrite nth_error_app2 in H by exact L. rewrite nth_error_map in H. destruct (nth_error ks (j - length ks)) as [k'|] eqn:E; [|discriminate].
      inversion H; subst. cbn [fst]. rewrite (HX _ _ E).
      destruct (Nat.eq_dec (length pos0) 0) as [Z0|Z0].
      { rewrite Z0 in HL. assert (ks = []) by (apply length_zero_iff_nil; lia). subst ks. rewrite HL in *. destruct (j - q * 0)%nat; discriminate. }
      replace j with ((j - length ks) + q * length pos0)%nat at 2 by lia. rewrite Nat.mod_add by exact Z0. reflexivity.
Qed.
Lemma rep_replicate B pos0 M pos ks : rep B pos0 (mkI M M M) pos ks -> (0 < M)%Z ->
  exists ks', rep B pos0 (mkI (2 * M) (2 * M) (2 * M)) (replicate (B * IZR M) pos) ks'.
Proof.
  intros H HM. unfold replicate. cbn [fold_left].
  destruct (rep_double _ _ _ _ _ 0%nat H HM) as [k1 H1].
  destruct (rep_double _ _ _ _ _ 1%nat H1 HM) as [k2 H2].
  destruct (rep_double _ _ _ _ _ 2%nat H2 HM) as [k3 H3].
  exists k3. cbn [comp bump ix iy iz] in H3. replace (2 * M)%Z with (M + M)%Z by lia. exact H3.
Qed.

(** * The number of slabs *)
Lemma ceil_div_ok a b n : ceil_div a b = Ok n -> b <> 0 /\ n = rceil (a / b).
Proof. unfold ceil_div. destruct (reqb b 0) eqn:EB; [destruct (reqb a 0); discriminate|]. intros E. inversion E. split; [apply reqb_ne, EB|reflexivity]. Qed.
Lemma expand_rep B vm pos0 : forall fuel cm copies use buf inbox box iters pos it' pos' box' M ks,
  expand fuel cm copies use buf inbox box iters pos = Ok (it', pos', box') ->
  rep B pos0 (mkI M M M) pos ks -> (0 < M)%Z -> box = B * IZR M -> inbox = box / vm ->
  inbox - 2 * buf <> 0 -> iters = rceil (use / (inbox - 2 * buf)) ->
  exists M' ks', (M <= M')%Z /\ rep B pos0 (mkI M' M' M') pos' ks' /\ box' = B * IZR M' /\ (1 <= it')%Z /\
    box' / vm - 2 * buf <> 0 /\ it' = rceil (use / (box' / vm - 2 * buf)) /\ exists e, M' = (M * 2 ^ Z.of_nat e)%Z.
Proof.
  assert (Done : forall use buf inbox box (iters : Z) pos it' pos' box' M ks,
    Ok (iters, pos, box) = Ok (it', pos', box') ->
    rep B pos0 (mkI M M M) pos ks -> (0 < M)%Z -> box = B * IZR M -> inbox = box / vm ->
    inbox - 2 * buf <> 0 -> iters = rceil (use / (inbox - 2 * buf)) -> (1 <= iters)%Z ->
    exists M' ks', (M <= M')%Z /\ rep B pos0 (mkI M' M' M') pos' ks' /\ box' = B * IZR M' /\ (1 <= it')%Z /\
    box' / vm - 2 * buf <> 0 /\ it' = rceil (use / (box' / vm - 2 * buf)) /\ exists e, M' = (M * 2 ^ Z.of_nat e)%Z).
  { intros use buf inbox box iters pos it' pos' box' M ks E HR HM HB HI HZ HT H1. inversion E; subst it' pos' box'.
    exists M, ks. split; [lia|]. split; [exact HR|]. split; [exact HB|]. split; [exact H1|]. rewrite <- HI. split; [exact HZ|]. split; [exact HT|].
    exists 0%nat. cbn. lia. }
  induction fuel as [|fuel IH]; intros cm copies use buf inbox box iters pos it' pos' box' M ks E HR HM HB HI HZ HT; cbn [expand] in E.
  - destruct (25 <? iters)%Z eqn:E1; cbn [orb] in E.
    + destruct (copies <? cm)%nat; [discriminate|]. destruct (Z.leb_spec iters 0); [discriminate|]. eapply Done; eauto; lia.
    + destruct (Z.leb_spec iters 0); [destruct (copies <? cm)%nat; discriminate|]. eapply Done; eauto; lia.
  - assert (HS : forall it0, ceil_div use (2 * inbox - 2 * buf) = Ok it0 ->
      expand fuel cm (copies * 2) use buf (2 * inbox) (2 * box) it0 (replicate box pos) = Ok (it', pos', box') ->
      exists M' ks', (M <= M')%Z /\ rep B pos0 (mkI M' M' M') pos' ks' /\ box' = B * IZR M' /\ (1 <= it')%Z /\
      box' / vm - 2 * buf <> 0 /\ it' = rceil (use / (box' / vm - 2 * buf)) /\ exists e, M' = (M * 2 ^ Z.of_nat e)%Z).
    { intros it0 HC HE. apply ceil_div_ok in HC. destruct HC as [HZ' HT'].
      destruct (rep_replicate _ _ _ _ _ HR HM) as [ks2 HR2]. rewrite HB in HE at 2.
      destruct (IH _ _ _ _ _ _ _ _ _ _ _ _ _ HE HR2) as (M' & ks' & A1 & A2 & A3 & A4 & A5 & A6 & e & A7).
      - lia.
      - rewrite HB, mult_IZR. ring.
      - rewrite HI. unfold Rdiv. ring.
      - exact HZ'.
      - exact HT'.
      - exists M', ks'. split; [lia|]. repeat (split; [assumption|]). exists (S e). rewrite A7, Nat2Z.inj_succ, Z.pow_succ_r by lia. ring. }
    destruct (25 <? iters)%Z eqn:E1; cbn [orb] in E.
    + destruct (copies <? cm)%nat.
      * destruct (ceil_div use (2 * inbox - 2 * buf)) as [it0|] eqn:EC; cbn [bind] in E; [|discriminate]. eapply HS; eauto.
      * destruct (Z.leb_spec iters 0); [discriminate|]. eapply Done; eauto; lia.
    + destruct (Z.leb_spec iters 0).
      * destruct (copies <? cm)%nat; [|discriminate].
        destruct (ceil_div use (2 * inbox - 2 * buf)) as [it0|] eqn:EC; cbn [bind] in E; [|discriminate]. eapply HS; eauto.
      * eapply Done; eauto; lia.
Qed.

(** * One slab *)
Lemma sign_z p : sign_vec (p_flip p) -> exists fz : ivec, p_flip p = of_i fz /\
  (ix fz = 1 \/ ix fz = -1)%Z /\ (iy fz = 1 \/ iy fz = -1)%Z /\ (iz fz = 1 \/ iz fz = -1)%Z.
Proof.
  assert (A : forall f, f = 1 \/ f = -1 -> exists z, f = IZR z /\ (z = 1 \/ z = -1)%Z).
  { intros f [H|H]; [exists 1%Z|exists (-1)%Z]; split; auto. }
  intros (H1 & H2 & H3). apply A in H1, H2, H3. destruct H1 as (a & E1 & H1), H2 as (b & E2 & H2), H3 as (c & E3 & H3).
  exists (mkI a b c). split; [apply vec_eq; assumption|]. cbn. auto.
Qed.
Lemma coord x f st l B M o start buf off :
  exists m : Z, rmod (rmod ((x + B * IZR o) * IZR f) (B * IZR M) - st - start * l + buf * l - off * l) (B * IZR M) =
    x * IZR f - st + B * IZR (f * o + M * m) - (start + off - buf) * l.
Proof.
  destruct (rmod_shift ((x + B * IZR o) * IZR f) (B * IZR M)) as [m1 E1]. rewrite E1.
  match goal with |- exists m, rmod ?a ?b = _ => destruct (rmod_shift a b) as [m2 E2] end. rewrite E2.
  exists (m1 + m2)%Z. rewrite !plus_IZR, !mult_IZR, plus_IZR. ring.
Qed.
Lemma Forall2_ex {A B} (Q : A -> B -> Prop) l : (forall a, In a l -> exists b, Q a b) -> exists r, Forall2 Q l r.
Proof.
  induction l as [|a l IH]; intros H; [exists []; constructor|].
  destruct (H a (or_introl eq_refl)) as [b Hb]. destruct IH as [r Hr]; [intros; apply H; right; assumption|].
  exists (b :: r). constructor; assumption.
Qed.
Lemma Forall2_NoDup {A B} (Q : A -> B -> Prop) l r : Forall2 Q l r -> (forall a a' b, Q a b -> Q a' b -> a = a') -> NoDup l -> NoDup r.
Proof.
  intros H I. induction H as [|a b l r HQ H IH]; intros N; [constructor|]. inversion N; subst. constructor; [|apply IH; assumption].
  intros Hb. destruct (Forall2_in_r _ _ _ _ H Hb) as (a' & Ha' & HQ'). assert (a = a') by (eapply I; eauto). subst. contradiction.
Qed.
Lemma mapM_fwd {A B} (f : A -> exc B) l : forall r, mapM f l = Ok r -> Forall2 (fun a b => f a = Ok b) l r.
Proof.
  induction l as [|a l IH]; intros r H; cbn in H; [inversion H; constructor|].
  destruct (f a) as [b|] eqn:E; [|discriminate]. cbn in H. destruct (mapM f l) as [r'|] eqn:E2; [|discriminate].
  cbn in H. inversion H; subst. constructor; [exact E|apply IH; reflexivity].
Qed.
Lemma Forall2_trans_ {A B C} (P : A -> B -> Prop) (Q : A -> C -> Prop) (S : B -> C -> Prop) l r t :
  Forall2 P l r -> Forall2 Q l t -> (forall a b c, In a l -> P a b -> Q a c -> S b c) -> Forall2 S r t.
Proof.
  intros H. revert t. induction H as [|a b l r HP H IH]; intros t HQ I; inversion HQ; subst; constructor.
  - eapply I; eauto. left. reflexivity.
  - apply IH; [assumption|]. intros. eapply I; eauto. right. assumption.
Qed.
Lemma norm_perm a b c : norm (mkV b c a) = norm (mkV a b c).
Proof. unfold norm. f_equal. unfold dot. cbn [vx vy vz]. ring. Qed.
Lemma norm_zero_eq a : norm a = 0 \/ 0 < norm a.
Proof. pose proof (norm_ge a). lra. Qed.
Lemma in_window_unique B M side corner P Q (m m' : ivec) : side = B * IZR M -> 0 < side ->
  in_window side corner (vadd P (vscale B (of_i (mkI (ix m * M) (iy m * M) (iz m * M))))) ->
  in_window side corner (vadd Q (vscale B (of_i (mkI (ix m' * M) (iy m' * M) (iz m' * M))))) -> P = Q -> m = m'.
Proof.
  intros E HS (H1 & H2 & H3) (G1 & G2 & G3) ->.
  assert (A : forall x lo (k k' : Z), lo <= x + B * IZR (k * M) < lo + side -> lo <= x + B * IZR (k' * M) < lo + side -> k = k').
  { intros x lo k k' I1 I2. rewrite mult_IZR in *.
    assert (J1 : side * IZR k < side * IZR k' + side) by (rewrite E in *; nra).
    assert (J2 : side * IZR k' < side * IZR k + side) by (rewrite E in *; nra).
    assert (IZR k < IZR k' + 1) by (apply Rmult_lt_reg_l with side; [exact HS|lra]).
    assert (IZR k' < IZR k + 1) by (apply Rmult_lt_reg_l with side; [exact HS|lra]).
    rewrite <- plus_IZR in *. apply lt_IZR in H. apply lt_IZR in H0. lia. }
  destruct m as [a b c], m' as [a' b' c']. cbn in *. f_equal; eapply A; eauto.
Qed.

Section Slab.
Context (asort : list R -> list nat) (Hs : argsorts asort) (az : R -> exc R) (c : lcconf) (p : pointing) (Hp : good_pt p)
  (s : Z) (masses : list R) (pos0 : list vec) (Hm : length masses = length pos0) (B : R) (HB : 0 < B) (M : Z) (HM : (0 < M)%Z)
  (pos : list vec) (ks : list (nat * ivec)) (Hr : rep B pos0 (mkI M M M) pos ks)
  (start end_ use buf : R) (iters : Z) (it : nat).
Let box := B * IZR M.
Let off := INR it * use / IZR iters.
Let corner := start + off - buf.
Let pos1 := map (fun v => vadd (vsub (vsub v (p_start p)) (vscale start (p_los p))) (vscale buf (p_los p)))
  (map (fun v => vmod (vmul v (p_flip p)) box) pos).
Let ip := map (fun v => mvec (p_pam p) (mvec (p_losm p) (vmod (vsub v (vscale off (p_los p))) box))) pos1.
Let cd := map (fun v => norm (vadd v (mkV corner 0 0))) ip.
Let img (k : nat * ivec) : vec := image B p (nth (fst k) pos0 v0) (snd k).
Let lo := start + off.
Let hi := Rmin (start + (INR it + 1) * use / IZR iters) end_.

Lemma box_pos : 0 < box.
Proof. unfold box. apply Rmult_lt_0_compat; [exact HB|]. apply IZR_lt. exact HM. Qed.
Lemma ip_length : length ip = length ks.
Proof. unfold ip, pos1. rewrite !map_length. rewrite (rep_pos _ _ _ _ _ Hr), map_length. reflexivity. Qed.

Definition cand (idx : nat) (k : nat * ivec) : Prop :=
  exists o m fz, nth_error ks idx = Some (fst k, o) /\ p_flip p = of_i fz /\
    snd k = mkI (ix fz * ix o + M * ix m) (iy fz * iy o + M * iy m) (iz fz * iz o + M * iz m) /\
    nth idx ip v0 = sky p (vsub (img k) (vscale corner (p_los p))) /\
    in_window box (vscale corner (p_los p)) (img k).

Lemma cand_ex idx : (idx < length ks)%nat -> exists k, cand idx k.
Proof.
  intros L. destruct (nth_error_lt_Some ks idx L) as [[i o] E].
  destruct Hp as (Hf & _). destruct (sign_z p Hf) as (fz & Ef & _).
  pose (x := nth i pos0 v0).
  destruct (coord (vx x) (ix fz) (vx (p_start p)) (vx (p_los p)) B M (ix o) start buf off) as [m1 E1].
  destruct (coord (vy x) (iy fz) (vy (p_start p)) (vy (p_los p)) B M (iy o) start buf off) as [m2 E2].
  destruct (coord (vz x) (iz fz) (vz (p_start p)) (vz (p_los p)) B M (iz o) start buf off) as [m3 E3].
  set (n := mkI (ix fz * ix o + M * m1) (iy fz * iy o + M * m2) (iz fz * iz o + M * m3)).
  exists (i, n), o, (mkI m1 m2 m3), fz. split; [exact E|]. split; [exact Ef|]. split; [reflexivity|].
  set (w := vmod (vsub (vadd (vsub (vsub (vmod (vmul (place B pos0 (i, o)) (p_flip p)) box) (p_start p)) (vscale start (p_los p)))
    (vscale buf (p_los p))) (vscale off (p_los p))) box).
  assert (Ew : w = vsub (img (i, n)) (vscale corner (p_los p))).
  { unfold w, img. rewrite Ef. apply vec_eq; cbn [vmod vsub vadd vmul vscale place image fst snd vx vy vz of_i n ix iy iz]; rewrite ?Ef; cbn [of_i vx vy vz];
      fold x; unfold corner, box; [rewrite E1|rewrite E2|rewrite E3]; ring. }
  split.
  - rewrite <- Ew. unfold ip, pos1. rewrite (rep_pos _ _ _ _ _ Hr). rewrite !map_map.
    erewrite nth_indep; [|rewrite map_length; exact L].
    rewrite (map_nth (fun k => mvec (p_pam p) (mvec (p_losm p) (vmod (vsub (vadd (vsub (vsub (vmod (vmul (place B pos0 k) (p_flip p)) box) (p_start p)) (vscale start (p_los p)))
    (vscale buf (p_los p))) (vscale off (p_los p))) box))) ks (i, o)).
    rewrite (nth_error_nth _ _ _ E). reflexivity.
  - pose proof box_pos as HX.
    assert (A : forall a, 0 <= rmod a box < box) by (intros; apply rmod_range; exact HX).
    assert (Hx : 0 <= vx w < box) by apply A. assert (Hy : 0 <= vy w < box) by apply A. assert (Hz : 0 <= vz w < box) by apply A.
    rewrite Ew in Hx, Hy, Hz. cbn [vsub vx vy vz] in Hx, Hy, Hz. unfold in_window. lra.
Qed.

Lemma of_i_inj a b : of_i a = of_i b -> a = b.
Proof. destruct a as [a1 a2 a3], b as [b1 b2 b3]. unfold of_i. cbn. intros H. inversion H as [[H1 H2 H3]]. apply eq_IZR in H1, H2, H3. subst. reflexivity. Qed.
Lemma small_mult a q : (- M < a < M -> a = M * q -> a = 0)%Z.
Proof. intros H E. assert (q = 0)%Z by nia. subst. lia. Qed.
Lemma same_res f o m o' m' : (f = 1 \/ f = -1 -> 0 <= o < M -> 0 <= o' < M -> f * o + M * m = f * o' + M * m' -> o = o')%Z.
Proof.
  intros Hf H H' E. assert (o - o' = 0)%Z; [|lia].
  destruct Hf as [->| ->]; [apply small_mult with (m' - m)%Z|apply small_mult with (m - m')%Z]; lia.
Qed.
Lemma cand_inj a b k : cand a k -> cand b k -> a = b.
Proof.
  intros (o & m & fz & E & Ef & En & _) (o' & m' & fz' & E' & Ef' & En' & _).
  assert (fz' = fz) by (apply of_i_inj; congruence). subst fz'.
  destruct Hp as (Hf & _). destruct (sign_z p Hf) as (f2 & Ef2 & F1 & F2 & F3).
  assert (f2 = fz) by (apply of_i_inj; congruence). subst f2.
  rewrite En in En'. inversion En' as [[G1 G2 G3]].
  pose proof (proj1 (rep_in _ _ _ _ _ Hr _ _) (nth_error_In _ _ E)) as (_ & I1 & I2 & I3).
  pose proof (proj1 (rep_in _ _ _ _ _ Hr _ _) (nth_error_In _ _ E')) as (_ & J1 & J2 & J3). cbn [ix iy iz] in *.
  assert (o = o').
  { apply (same_res _ _ _ _ _ F1 I1 J1) in G1. apply (same_res _ _ _ _ _ F2 I2 J2) in G2. apply (same_res _ _ _ _ _ F3 I3 J3) in G3.
    destruct o, o'; cbn in *; congruence. }
  subst o'. apply (proj1 (NoDup_nth_error ks) (rep_nodup _ _ _ _ _ Hr)); [apply nth_error_Some_lt with (1 := E)|congruence].
Qed.
Lemma residue f n : (f = 1 \/ f = -1 -> exists o m, 0 <= o < M /\ n = f * o + M * m)%Z.
Proof.
  intros Hf. exists ((f * n) mod M)%Z, (f * ((f * n) / M))%Z. split; [apply Z.mod_pos_bound; lia|].
  pose proof (Z.div_mod (f * n) M ltac:(lia)). set (q := (f * n / M)%Z) in *. set (o := ((f * n) mod M)%Z) in *. destruct Hf as [->| ->]; nia.
Qed.
Lemma cand_surj i n : (i < length pos0)%nat -> in_window box (vscale corner (p_los p)) (img (i, n)) ->
  exists idx, (idx < length ks)%nat /\ cand idx (i, n).
Proof.
  intros Hi HW. pose proof Hp as (Hf & _). destruct (sign_z p Hf) as (fz & Ef & F1 & F2 & F3).
  destruct (residue _ (ix n) F1) as (o1 & m1 & R1 & E1). destruct (residue _ (iy n) F2) as (o2 & m2 & R2 & E2).
  destruct (residue _ (iz n) F3) as (o3 & m3 & R3 & E3).
  assert (HI : In (i, mkI o1 o2 o3) ks) by (apply (rep_in _ _ _ _ _ Hr); cbn; auto).
  destruct (In_nth_error _ _ HI) as [idx EI]. pose proof (nth_error_Some_lt _ _ _ EI) as L. exists idx. split; [exact L|].
  destruct (cand_ex idx L) as (k & HC). pose proof HC as (o' & m' & fz' & E' & Ef' & En' & Eip & HW').
  assert (fz' = fz) by (apply of_i_inj; congruence). subst fz'.
  rewrite EI in E'. inversion E' as [[G1 G2]]. subst o'. destruct k as [i' n']. cbn [fst snd] in *. subst i'.
  assert (Hmm : m' = mkI m1 m2 m3).
  { apply (in_window_unique B M box (vscale corner (p_los p))
      (image B p (nth i pos0 v0) (mkI (ix fz * o1) (iy fz * o2) (iz fz * o3)))
      (image B p (nth i pos0 v0) (mkI (ix fz * o1) (iy fz * o2) (iz fz * o3)))); [reflexivity|exact box_pos| | |reflexivity].
    - replace (vadd _ _) with (img (i, n')); [exact HW'|]. unfold img. rewrite En'. cbn [fst snd].
      apply vec_eq; cbn; rewrite ?plus_IZR, ?mult_IZR; ring.
    - replace (vadd _ _) with (img (i, n)); [exact HW|]. unfold img. cbn [fst snd].
      apply vec_eq; cbn [image vadd vsub vscale of_i vx vy vz ix iy iz]; [rewrite E1|rewrite E2|rewrite E3]; rewrite ?plus_IZR, ?mult_IZR; ring. }
  assert (n' = n); [|subst; exact HC]. rewrite En', Hmm. cbn [ix iy iz]. destruct n as [a b d]. cbn in *. congruence.
Qed.

Lemma cand_geom idx k : cand idx k -> (idx < length ks)%nat ->
  nth idx cd 0 = norm (img k) /\ vy (nth idx ip v0) = vy (sky p (img k)) /\ vz (nth idx ip v0) = vz (sky p (img k)) /\
  vx (nth idx ip v0) + start + off - buf = vx (sky p (img k)).
Proof.
  intros (o & m & fz & _ & _ & _ & E & _) L. pose proof (sky_rotation p Hp) as HR. pose proof HR as (H1 & H2 & _ & _).
  assert (ES : sky p (img k) = vadd (nth idx ip v0) (mkV corner 0 0)).
  { rewrite E. replace (mkV corner 0 0) with (sky p (vscale corner (p_los p))).
    - rewrite <- H1. f_equal. apply vec_eq; cbn; ring.
    - rewrite H2, (sky_los p Hp). apply vec_eq; cbn; ring. }
  split; [|rewrite ES; cbn; unfold corner; lra].
  unfold cd. erewrite nth_indep by (rewrite map_length, ip_length; exact L).
  rewrite (map_nth (fun v => norm (vadd v (mkV corner 0 0)))). rewrite <- ES. apply rotation_norm, HR.
Qed.
Lemma in_angle_ok idx k : cand idx k -> (idx < length ks)%nat ->
  in_angle c (nth idx ip v0) (nth idx cd 0) = true <-> in_opening c p (img k).
Proof.
  intros HC L. destruct (cand_geom idx k HC L) as (Ed & Ey & Ez & _). rewrite Ed. unfold in_angle, in_opening.
  rewrite Ey, Ez. set (u := sky p (img k)). set (d := norm (img k)).
  destruct (norm_zero_eq (img k)) as [Z0|Z0]; fold d in Z0.
  - rewrite Z0. rewrite (proj2 (reqb_eq 0 0) eq_refl). cbn [negb andb]. split; [discriminate|]. intros [H _]. lra.
  - rewrite (proj2 (reqb_ne d 0)) by lra. cbn [negb andb]. unfold radius, angle1, angle2.
    assert (HD : forall a b, a / d < b <-> a < b * d).
    { intros a b. split; intros H.
      - apply Rmult_lt_reg_r with (/ d); [apply Rinv_0_lt_compat; exact Z0|]. unfold Rdiv in H. replace (b * d * / d) with b by (field; lra). exact H.
      - apply Rmult_lt_reg_r with d; [exact Z0|]. replace (a / d * d) with a by (field; lra). exact H. }
    assert (HE : forall a b, Rabs (a / d) <= b <-> Rabs a <= b * d).
    { intros a b. unfold Rdiv. rewrite Rabs_mult, (Rabs_pos_eq (/ d)) by (left; apply Rinv_0_lt_compat; exact Z0). split; intros H.
      - apply Rmult_le_reg_r with (/ d); [apply Rinv_0_lt_compat; exact Z0|]. replace (b * d * / d) with b by (field; lra). exact H.
      - apply Rmult_le_reg_r with d; [exact Z0|]. replace (Rabs a * / d * d) with (Rabs a) by (field; lra). exact H. }
    destruct (lc_mode c).
    + rewrite rltb_lt, HD. tauto.
    + rewrite andb_true_iff, !rleb_le, !HE. tauto.
Qed.

Lemma slab_exact rows : slab asort az c p s masses pos1 start end_ use buf box iters it = Ok rows ->
  exists keys, NoDup keys /\
    (forall i n, In (i, n) keys <-> (i < length pos0)%nat /\ in_opening c p (img (i, n)) /\ lo <= norm (img (i, n)) < hi /\
                                    in_window box (vscale corner (p_los p)) (img (i, n))) /\
    Forall2 (fun r k => row_at az p masses s (fst k) (img k) r) rows keys /\
    StronglySorted (fun a b => norm (img a) <= norm (img b)) keys.
Proof.
  unfold slab. fold off. fold box. cbv zeta.
  change (map (fun v => mvec (p_pam p) (mvec (p_losm p) (vmod (vsub v (vscale off (p_los p))) box))) pos1) with ip.
  fold corner. change (map (fun v => norm (vadd v (mkV corner 0 0))) ip) with cd. fold lo. fold hi. change (mkV 0 0 0) with v0.
  set (sel0 := filter _ _). set (sel := pick _ _). intros E.
  assert (HP : Permutation sel sel0).
  { unfold sel. apply pick_perm. destruct (Hs (map (fun i => nth i cd 0) sel0)) as [A _]. rewrite map_length in A. exact A. }
  assert (HS : StronglySorted (fun i j => nth i cd 0 <= nth j cd 0) sel) by (apply (pick_sorted (fun i => nth i cd 0)), Hs).
  assert (HL : forall i, In i sel -> (i < length ks)%nat /\ in_angle c (nth i ip v0) (nth i cd 0) = true /\ lo <= nth i cd 0 < hi).
  { intros i Hi. apply (Permutation_in _ HP) in Hi. unfold sel0 in Hi. apply filter_In in Hi. destruct Hi as [Hi Hb].
    apply in_seq in Hi. rewrite ip_length in Hi. rewrite !andb_true_iff, rltb_lt, rleb_le in Hb. repeat split; tauto. }
  destruct (Forall2_ex cand sel) as [keys HK]; [intros i Hi; apply cand_ex, HL, Hi|].
  exists keys. split; [|split; [|split]].
  - apply (Forall2_NoDup _ _ _ HK cand_inj). apply (Permutation_NoDup (Permutation_sym HP)). apply NoDup_filter, seq_NoDup.
  - intros i n. split.
    + intros Hk. destruct (Forall2_in_r _ _ _ _ HK Hk) as (idx & Hi & HC). destruct (HL _ Hi) as (L & HA & HD).
      destruct (cand_geom _ _ HC L) as (Ed & _). rewrite Ed in HD. split; [|split; [|split]].
      * destruct HC as (o & m & fz & E1 & _). apply nth_error_In in E1. apply (rep_in _ _ _ _ _ Hr) in E1. tauto.
      * apply (in_angle_ok _ _ HC L), HA.
      * exact HD.
      * destruct HC as (o & m & fz & _ & _ & _ & _ & HW). exact HW.
    + intros (Hi & HO & HD & HW). destruct (cand_surj i n Hi HW) as (idx & L & HC).
      assert (HI : In idx sel).
      { apply (Permutation_in _ (Permutation_sym HP)). apply filter_In. split; [apply in_seq; rewrite ip_length; lia|].
        rewrite (proj2 (in_angle_ok _ _ HC L) HO). destruct (cand_geom _ _ HC L) as (Ed & _). rewrite Ed.
        rewrite (proj2 (rltb_lt _ _)) by apply HD. rewrite (proj2 (rleb_le _ _)) by apply HD. reflexivity. }
      destruct (Forall2_in_l _ _ _ _ HK HI) as ([i' n'] & Hk & HC').
      destruct HC as (o & m & fz & E1 & Ef & En & Eip & HW1). destruct HC' as (o' & m' & fz' & E1' & Ef' & En' & Eip' & HW1').
      cbn [fst snd] in *. rewrite E1 in E1'. inversion E1'; subst i' o'. assert (fz' = fz) by (apply of_i_inj; congruence). subst fz'.
      assert (Hmm : m' = m).
      { apply (in_window_unique B M box (vscale corner (p_los p))
          (image B p (nth i pos0 v0) (mkI (ix fz * ix o) (iy fz * iy o) (iz fz * iz o)))
          (image B p (nth i pos0 v0) (mkI (ix fz * ix o) (iy fz * iy o) (iz fz * iz o)))); [reflexivity|exact box_pos| | |reflexivity].
        - replace (vadd _ _) with (img (i, n')); [exact HW1'|]. unfold img. rewrite En'. cbn [fst snd].
          apply vec_eq; cbn; rewrite ?plus_IZR, ?mult_IZR; ring.
        - replace (vadd _ _) with (img (i, n)); [exact HW1|]. unfold img. rewrite En. cbn [fst snd].
          apply vec_eq; cbn; rewrite ?plus_IZR, ?mult_IZR; ring. }
      replace n with n'; [exact Hk|]. rewrite En, En', Hmm. reflexivity.
  - apply mapM_fwd in E. apply (Forall2_trans_ _ _ _ _ _ _ E HK). intros idx r k Hi Er HC. destruct (HL _ Hi) as (L & _ & _).
    destruct (cand_geom _ _ HC L) as (Ed & Ey & Ez & Ex). rewrite Ed, Ey, Ez, Ex in Er.
    destruct (az (norm (img k))) as [z|] eqn:EZ; cbn [bind] in Er; [|discriminate]. inversion Er; subst r.
    destruct HC as (o & m & fz & E1 & _). pose proof (rep_idx _ _ _ _ _ Hr _ _ E1) as EI. cbn [fst] in EI.
    apply nth_error_In in E1. apply (rep_in _ _ _ _ _ Hr) in E1. destruct E1 as [Li _].
    unfold row_at. cbn [r_x r_y r_z r_ra r_dec r_red r_mass r_snap r_index]. rewrite Hm, <- EI.
    repeat (split; [reflexivity|]). split; [exact EZ|]. split; [apply nth_error_nth'; rewrite Hm; exact Li|]. split; reflexivity.
  - clear E HP. revert HS. induction HK as [|i k sel' keys' HC HK IH]; intros HS; [constructor|].
    inversion HS as [|? ? HS' HF]; subst. constructor.
    + apply IH; [intros; apply HL; right; assumption|exact HS'].
    + apply Forall_forall. intros k' Hk'. destruct (Forall2_in_r _ _ _ _ HK Hk') as (j & Hj & HC').
      rewrite Forall_forall in HF. specialize (HF _ Hj).
      destruct (cand_geom _ _ HC (proj1 (HL _ (or_introl eq_refl)))) as (E1 & _).
      destruct (cand_geom _ _ HC' (proj1 (HL _ (or_intror Hj)))) as (E2 & _). rewrite E1, E2 in HF. exact HF.
Qed.
End Slab.
