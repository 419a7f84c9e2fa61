(** Proofs about one snapshot of a light cone (C40, C41). *)
From Coq Require Import Reals Permutation Sorted.
From Verif Require Import Dict Util RealUtil SnapModel SnapSpec Snap FormatModel FormatSpec Format LcModel LcSpec Lc Lc2.
From Coq Require Import Lra Lia.
Open Scope string_scope.
Open Scope list_scope.
Open Scope R_scope.

Definition img (c : lcconf) (p : pointing) (pos0 : list vec) (k : nat * ivec) : vec := image (lc_box c) p (nth (fst k) pos0 v0) (snd k).
Definition buf_of (p : pointing) (m : meta) : R := m_tdmax m * p_buf p.

(** ** Equal steps *)
Lemma step_hi a e N t : (t < N)%nat -> a <= e -> Rmin (a + (INR t + 1) * (e - a) / INR N) e = a + (INR t + 1) * (e - a) / INR N.
Proof.
  intros L H. assert (HN : 0 < INR N) by (apply lt_0_INR; lia). assert (HT : INR t + 1 <= INR N) by (rewrite <- S_INR; apply le_INR; lia).
  apply Rmin_left. assert ((INR t + 1) * (e - a) / INR N <= e - a); [|lra].
  apply Rmult_le_reg_r with (INR N); [exact HN|]. unfold Rdiv. rewrite Rmult_assoc, Rinv_l by lra. nra.
Qed.
Lemma step_neg a e N t D : (t < N)%nat -> e <= a -> a + INR t * (e - a) / INR N <= D < Rmin (a + (INR t + 1) * (e - a) / INR N) e -> False.
Proof.
  intros L H [H1 H2]. assert (HN : 0 < INR N) by (apply lt_0_INR; lia).
  assert (HT : INR t * (e - a) / INR N >= e - a).
  { apply Rle_ge. apply Rmult_le_reg_r with (INR N); [exact HN|]. unfold Rdiv. rewrite Rmult_assoc, Rinv_l by lra.
    assert (INR t <= INR N) by (apply le_INR; lia). nra. }
  pose proof (Rmin_r (a + (INR t + 1) * (e - a) / INR N) e). lra.
Qed.
Lemma step_neg' a e N t D : (0 < N)%nat -> e <= a -> a + INR t * (e - a) / INR N <= D < a + (INR t + 1) * (e - a) / INR N -> False.
Proof.
  intros L H [H1 H2]. assert (HN : 0 < INR N) by (apply lt_0_INR; lia). assert (A : (e - a) / INR N <= 0).
  { apply Rmult_le_reg_r with (INR N); [exact HN|]. unfold Rdiv. rewrite Rmult_assoc, Rinv_l by lra. lra. }
  replace ((INR t + 1) * (e - a) / INR N) with (INR t * (e - a) / INR N + (e - a) / INR N) in H2 by (unfold Rdiv; ring). lra.
Qed.
Lemma step_order a e N t t' D D' : (0 < N)%nat -> a <= e -> (t < t')%nat -> D < a + (INR t + 1) * (e - a) / INR N ->
  a + INR t' * (e - a) / INR N <= D' -> D < D'.
Proof.
  intros L H Ht H1 H2. assert (HN : 0 < INR N) by (apply lt_0_INR; lia). assert (A : 0 <= (e - a) / INR N).
  { apply Rmult_le_reg_r with (INR N); [exact HN|]. unfold Rdiv. rewrite Rmult_assoc, Rinv_l by lra. lra. }
  assert (INR t + 1 <= INR t') by (rewrite <- S_INR; apply le_INR; lia).
  replace ((INR t + 1) * (e - a) / INR N) with ((INR t + 1) * ((e - a) / INR N)) in H1 by (unfold Rdiv; ring).
  replace (INR t' * (e - a) / INR N) with (INR t' * ((e - a) / INR N)) in H2 by (unfold Rdiv; ring). nra.
Qed.
Lemma step_find a e N D : (0 < N)%nat -> a <= D < e -> exists t, (t < N)%nat /\ a + INR t * (e - a) / INR N <= D < a + (INR t + 1) * (e - a) / INR N.
Proof.
  intros L [H1 H2]. assert (HN : 0 < INR N) by (apply lt_0_INR; lia). assert (HE : 0 < e - a) by lra.
  set (x := (D - a) * INR N / (e - a)). pose proof (rfloor_spec x) as [F1 F2].
  assert (X : a + x * (e - a) / INR N = D) by (unfold x; field; lra).
  assert (X0 : 0 <= x) by (unfold x; apply Rmult_le_pos; [nra|left; apply Rinv_0_lt_compat; lra]).
  assert (X1 : x < INR N).
  { apply Rmult_lt_reg_r with ((e - a) / INR N); [apply Rdiv_lt_0_compat; lra|].
    replace (x * ((e - a) / INR N)) with (x * (e - a) / INR N) by (unfold Rdiv; ring). replace (INR N * ((e - a) / INR N)) with (e - a) by (field; lra). lra. }
  assert (Z0 : (0 <= rfloor x)%Z) by (assert (-1 < rfloor x)%Z; [apply lt_IZR; lra|lia]).
  assert (ZN : (rfloor x < Z.of_nat N)%Z) by (apply lt_IZR; rewrite <- INR_IZR_INZ; lra).
  exists (Z.to_nat (rfloor x)). split; [lia|]. rewrite INR_IZR_INZ, Z2Nat.id by lia.
  assert (A : 0 < (e - a) / INR N) by (apply Rdiv_lt_0_compat; lra).
  replace (IZR (rfloor x) * (e - a) / INR N) with (IZR (rfloor x) * ((e - a) / INR N)) by (unfold Rdiv; ring).
  replace ((IZR (rfloor x) + 1) * (e - a) / INR N) with ((IZR (rfloor x) + 1) * ((e - a) / INR N)) by (unfold Rdiv; ring).
  replace (x * (e - a) / INR N) with (x * ((e - a) / INR N)) in X by (unfold Rdiv; ring). nra.
Qed.
Lemma step_in a e N t D : (t < N)%nat -> a <= e -> a + INR t * (e - a) / INR N <= D < a + (INR t + 1) * (e - a) / INR N -> a <= D < e.
Proof.
  intros L H [H1 H2]. pose proof (step_hi a e N t L H) as E. pose proof (Rmin_r (a + (INR t + 1) * (e - a) / INR N) e). rewrite E in H0.
  assert (HN : 0 < INR N) by (apply lt_0_INR; lia).
  assert (0 <= INR t * (e - a) / INR N); [|lra]. apply Rmult_le_pos; [|left; apply Rinv_0_lt_compat; lra].
  apply Rmult_le_pos; [apply pos_INR|lra].
Qed.

(** ** The slabs of a snapshot *)
Lemma snap_unfold asort az c p m masses pos0 slabs : snap_slabs asort az c p m masses pos0 = Ok slabs ->
  exists N M pos ks, (1 <= N)%nat /\ (0 < M)%Z /\ (exists e, M = 2 ^ Z.of_nat e)%Z /\ rep (lc_box c) pos0 (mkI M M M) pos ks /\
    lc_box c * IZR M / vmax (p_los p) - 2 * buf_of p m <> 0 /\
    Z.of_nat N = rceil ((d_end c m - d_start c m) / (lc_box c * IZR M / vmax (p_los p) - 2 * buf_of p m)) /\
    slabs = map (slab asort az c p (m_index m) masses
      (map (fun v => vadd (vsub (vsub v (p_start p)) (vscale (d_start c m) (p_los p))) (vscale (buf_of p m) (p_los p)))
        (map (fun v => vmod (vmul v (p_flip p)) (lc_box c * IZR M)) pos))
      (d_start c m) (d_end c m) (d_end c m - d_start c m) (buf_of p m) (lc_box c * IZR M) (Z.of_nat N)) (seq 0 N).
Proof.
  unfold snap_slabs. fold (d_start c m). fold (d_end c m). fold (buf_of p m). cbv zeta.
  destruct (ceil_div _ _) as [it0|] eqn:EC; cbn [bind]; [|discriminate]. apply ceil_div_ok in EC. destruct EC as [HZ HT].
  destruct (expand _ _ _ _ _ _ _ _ _) as [[[it pos] box]|] eqn:EE; cbn [bind]; [|discriminate]. intros E. inversion E; subst slabs.
  destruct (expand_rep (lc_box c) (vmax (p_los p)) pos0 _ _ _ _ _ _ _ _ _ _ _ _ 1%Z _ EE (rep0 _ _)) as (M & ks & A1 & A2 & A3 & A4 & A5 & A6 & e & A7).
  - lia.
  - ring.
  - reflexivity.
  - exact HZ.
  - exact HT.
  - exists (Z.to_nat it), M, pos, ks. rewrite Z2Nat.id by lia. subst box. split; [lia|]. split; [lia|].
    split; [exists e; lia|]. split; [exact A2|]. split; [exact A5|]. split; [exact A6|]. reflexivity.
Qed.
Lemma concat_sorted {A} (P : A -> A -> Prop) (ll : list (list A)) : Forall (StronglySorted P) ll ->
  (forall i j l l' a b, (i < j)%nat -> nth_error ll i = Some l -> nth_error ll j = Some l' -> In a l -> In b l' -> P a b) ->
  StronglySorted P (concat ll).
Proof.
  intros HF. induction HF as [|l ll HS HF IH]; intros H; [constructor|]. cbn [concat].
  assert (HC : StronglySorted P (concat ll)) by (apply IH; intros i j l1 l2 a b L E1 E2; apply (H (S i) (S j) l1 l2); [lia|exact E1|exact E2]).
  assert (HX : forall a b, In a l -> In b (concat ll) -> P a b).
  { intros a b Ha Hb. apply in_concat in Hb. destruct Hb as (l' & Hl & Hb). apply In_nth_error in Hl. destruct Hl as [j Ej].
    apply (H 0%nat (S j) l l'); [lia|reflexivity|exact Ej|exact Ha|exact Hb]. }
  clear H IH HF. induction HS as [|a l HS IH HA]; [exact HC|]. cbn [app]. constructor.
  - apply IH. intros; apply HX; [right|]; assumption.
  - apply Forall_app. split; [exact HA|]. apply Forall_forall. intros b Hb. apply HX; [left; reflexivity|exact Hb].
Qed.
Lemma concat_nodup {A} (ll : list (list A)) : Forall (@NoDup A) ll ->
  (forall i j l l' a, (i < j)%nat -> nth_error ll i = Some l -> nth_error ll j = Some l' -> In a l -> In a l' -> False) -> NoDup (concat ll).
Proof.
  intros HF. induction HF as [|l ll HS HF IH]; intros H; [constructor|]. cbn [concat]. apply NoDup_app_i.
  - exact HS.
  - apply IH. intros i j l1 l2 a L E1 E2. apply (H (S i) (S j) l1 l2); [lia|exact E1|exact E2].
  - intros a Ha Hb. apply in_concat in Hb. destruct Hb as (l' & Hl & Hb). apply In_nth_error in Hl. destruct Hl as [j Ej].
    apply (H 0%nat (S j) l l' a); [lia|reflexivity|exact Ej|exact Ha|exact Hb].
Qed.

Record snap_facts (asort : list R -> list nat) (az : R -> exc R) (c : lcconf) (p : pointing) (m : meta) (masses : list R) (pos0 : list vec)
    (rows : list (list row)) (M : Z) (keyss : list (list (nat * ivec))) : Prop := mkSF {
  sf_some : (1 <= length rows)%nat;
  sf_M : (0 < M)%Z /\ exists e, M = (2 ^ Z.of_nat e)%Z;
  sf_N : Z.of_nat (length rows) = rceil ((d_end c m - d_start c m) / (lc_box c * IZR M / vmax (p_los p) - 2 * buf_of p m)) /\
         lc_box c * IZR M / vmax (p_los p) - 2 * buf_of p m <> 0;
  sf_rows : Forall2 (Forall2 (fun r k => row_at az p masses (m_index m) (fst k) (img c p pos0 k) r)) rows keyss;
  sf_keys : forall t keys, nth_error keyss t = Some keys -> forall i n, In (i, n) keys <->
    (i < length pos0)%nat /\ in_opening c p (img c p pos0 (i, n)) /\
    d_start c m + INR t * (d_end c m - d_start c m) / INR (length rows) <= norm (img c p pos0 (i, n)) <
    d_start c m + (INR t + 1) * (d_end c m - d_start c m) / INR (length rows) /\
    in_window (lc_box c * IZR M) (vscale (d_start c m + INR t * (d_end c m - d_start c m) / INR (length rows) - buf_of p m) (p_los p)) (img c p pos0 (i, n));
  sf_nodup : NoDup (concat keyss);
  sf_sorted : StronglySorted (fun a b => norm (img c p pos0 a) <= norm (img c p pos0 b)) (concat keyss) }.

Lemma snap_exact asort az c p m masses pos0 rows : argsorts asort -> good_pt p -> length masses = length pos0 -> 0 < lc_box c ->
  snap_slabs asort az c p m masses pos0 = Ok (map Ok rows) -> exists M keyss, snap_facts asort az c p m masses pos0 rows M keyss.
Proof.
  intros Hs Hp Hm HB E. destruct (snap_unfold _ _ _ _ _ _ _ _ E) as (N & M & pos & ks & HN & HM & He & HR & HZ & HT & HS). clear E.
  assert (LN : length rows = N) by (apply (f_equal (@length _)) in HS; rewrite !map_length, seq_length in HS; exact HS).
  set (st := d_start c m) in *. set (en := d_end c m) in *.
  set (Q := fun t keys => NoDup keys /\
    (forall i n, In (i, n) keys <-> (i < length pos0)%nat /\ in_opening c p (img c p pos0 (i, n)) /\
    st + INR t * (en - st) / INR N <= norm (img c p pos0 (i, n)) < st + (INR t + 1) * (en - st) / INR N /\
    in_window (lc_box c * IZR M) (vscale (st + INR t * (en - st) / INR N - buf_of p m) (p_los p)) (img c p pos0 (i, n))) /\
    (forall rs, nth_error rows t = Some rs -> Forall2 (fun r k => row_at az p masses (m_index m) (fst k) (img c p pos0 k) r) rs keys) /\
    StronglySorted (fun a b => norm (img c p pos0 a) <= norm (img c p pos0 b)) keys).
  assert (HQ : exists keyss, Forall2 Q (seq 0 N) keyss).
  { apply Forall2_ex. intros t Ht. apply in_seq in Ht. destruct (nth_error_lt_Some rows t ltac:(lia)) as [rs Ers].
    assert (ES : nth_error (map Ok rows) t = Some (@Ok (list row) rs)) by (rewrite nth_error_map, Ers; reflexivity).
    rewrite HS in ES. rewrite nth_error_map, nth_error_seq in ES. destruct (Nat.ltb_spec t N) as [L|L]; [|lia]. cbn [option_map] in ES.
    injection ES as ES. cbn [Nat.add] in ES.
    destruct (slab_exact asort Hs az c p Hp (m_index m) masses pos0 Hm (lc_box c) HB M HM pos ks HR st en (en - st) (buf_of p m) (Z.of_nat N) t rs ES)
      as (keys & K1 & K2 & K3 & K4).
    exists keys. split; [exact K1|]. split; [|split; [|exact K4]].
    - intros i n. rewrite K2. rewrite <- INR_IZR_INZ. change (image (lc_box c) p (nth (fst (i, n)) pos0 v0) (snd (i, n))) with (img c p pos0 (i, n)).
      destruct (Rle_or_lt st en) as [Hle|Hlt].
      + rewrite (step_hi st en N t L Hle). tauto.
      + split; intros (A1 & A2 & A3 & A4); exfalso; [apply (step_neg st en N t _ L (Rlt_le _ _ Hlt) A3)|apply (step_neg' st en N t _ ltac:(lia) (Rlt_le _ _ Hlt) A3)].
    - intros rs' E'. rewrite Ers in E'. inversion E'; subst rs'. exact K3. }
  destruct HQ as [keyss HQ]. exists M, keyss.
  assert (HQn : forall t keys, nth_error keyss t = Some keys -> (t < N)%nat /\ Q t keys).
  { clear -HQ. intros t keys Et.
    assert (G : forall a l ks', Forall2 Q (seq a l) ks' -> forall t k, nth_error ks' t = Some k -> (t < l)%nat /\ Q (a + t)%nat k).
    { intros a l. revert a. induction l as [|l IH]; intros a ks' H t' k E; inversion H; subst; [destruct t'; discriminate|].
      destruct t' as [|t']; cbn in E.
      - inversion E; subst. rewrite Nat.add_0_r. split; [lia|assumption].
      - destruct (IH _ _ H4 _ _ E) as [I1 I2]. replace (a + S t')%nat with (S a + t')%nat by lia. split; [lia|exact I2]. }
    exact (G 0%nat N keyss HQ t keys Et). }
  constructor; rewrite ?LN; fold st en.
  - lia.
  - split; assumption.
  - split; assumption.
  - clear -HQ LN.
    assert (G : forall a l (ks' : list (list (nat * ivec))) (rs : list (list row)), Forall2 Q (seq a l) ks' -> (forall t r, nth_error rs t = Some r -> nth_error rows (a + t) = Some r) -> length rs = l ->
       Forall2 (Forall2 (fun r k => row_at az p masses (m_index m) (fst k) (img c p pos0 k) r)) rs ks').
    { intros a l. revert a. induction l as [|l IH]; intros a ks' rs H HI HL; destruct rs as [|r rs]; try discriminate; inversion H; subst; constructor.
      - destruct H2 as (_ & _ & H2 & _). apply H2. rewrite <- (Nat.add_0_r a). apply HI. reflexivity.
      - apply IH with (S a); [assumption| |cbn in HL; lia]. intros t r' E. replace (S a + t)%nat with (a + S t)%nat by lia. apply HI. exact E. }
    apply G with 0%nat N; [exact HQ|auto|exact LN].
  - intros t keys Et. destruct (HQn t keys Et) as [_ (_ & A & _)]. exact A.
  - apply concat_nodup.
    + apply Forall_forall. intros l Hl. apply In_nth_error in Hl. destruct Hl as [t Et]. apply (HQn t l Et).
    + intros i j l l' [a n] L E1 E2 I1 I2. destruct (HQn _ _ E1) as [L1 (_ & A1 & _)]. destruct (HQn _ _ E2) as [L2 (_ & A2 & _)].
      apply A1 in I1. apply A2 in I2. destruct I1 as (_ & _ & I1 & _), I2 as (_ & _ & I2 & _).
      destruct (Rle_or_lt st en) as [Hle|Hlt].
      * pose proof (step_order st en N i j _ _ ltac:(lia) Hle L (proj2 I1) (proj1 I2)). lra.
      * exact (step_neg' st en N i _ ltac:(lia) (Rlt_le _ _ Hlt) I1).
  - apply concat_sorted.
    + apply Forall_forall. intros l Hl. apply In_nth_error in Hl. destruct Hl as [t Et]. apply (HQn t l Et).
    + intros i j l l' [a n] [a' n'] L E1 E2 I1 I2. destruct (HQn _ _ E1) as [L1 (_ & A1 & _)]. destruct (HQn _ _ E2) as [L2 (_ & A2 & _)].
      apply A1 in I1. apply A2 in I2. destruct I1 as (_ & _ & I1 & _), I2 as (_ & _ & I2 & _).
      destruct (Rle_or_lt st en) as [Hle|Hlt].
      * pose proof (step_order st en N i j _ _ ltac:(lia) Hle L (proj2 I1) (proj1 I2)). lra.
      * exfalso. exact (step_neg' st en N i _ ltac:(lia) (Rlt_le _ _ Hlt) I1).
Qed.
