(** Discrete Fourier transforms of arrays: inversion, linearity, and the Fourier
    transform of a grid. *)
From Verif Require Import Util Rat Val Arr GridModel GridModel2 GridSpec GridAxis GridNew GridAdd.
Open Scope Qc_scope.

Lemma upd_nth_same {X} (l : list X) i d : upd l i (nth i l d) = l.
Proof. revert i; induction l as [|a l IH]; intros [|i]; simpl; auto. f_equal. apply IH. Qed.

Section Fold.
(** two families of operators on a set, each pair inverse, different ones commuting *)
Context {X : Type} (ok : X -> Prop) (P Q : nat -> X -> X) (good : nat -> Prop).
Context (okP : forall a x, good a -> ok x -> ok (P a x)) (okQ : forall a x, good a -> ok x -> ok (Q a x)).
Context (PQ : forall a x, good a -> ok x -> P a (Q a x) = x).
Context (com : forall a b x, good a -> good b -> a <> b -> ok x -> P a (Q b x) = Q b (P a x)).

Lemma fold_okQ l x : Forall good l -> ok x -> ok (fold_right Q x l).
Proof. induction 1; simpl; auto. Qed.

Lemma fold_com l b x : Forall good l -> good b -> ~ In b l -> ok x ->
  fold_right P (Q b x) l = Q b (fold_right P x l) /\ ok (fold_right P x l).
Proof.
  induction 1 as [|a l Ha Hl IH]; simpl; intros Hb Hn Hx; [auto|].
  destruct IH as [E O]; auto. split; [|auto]. rewrite E. apply com; auto.
Qed.

Lemma fold_inverse l x : Forall good l -> NoDup l -> ok x -> fold_right P (fold_right Q x l) l = x.
Proof.
  intros Hg Hd Hx. induction Hg as [|a l Ha Hl IH]; simpl; auto. inversion Hd; subst.
  destruct (fold_com l a (fold_right Q x l)) as [E O]; auto.
  - apply fold_okQ; auto.
  - rewrite E, IH by auto. apply PQ; auto.
Qed.
End Fold.

Section Four.
Context {A : Alg}.
Add Ring A_ring : (v_rt A).
Open Scope val_scope.

Definition aok (sh : list nat) (a : arr A) : Prop := awf a /\ shape a = sh.

Lemma inb_upd sh ix a k : inb sh ix = true -> (k < nth a sh 0%nat)%nat -> inb sh (upd ix a k) = true.
Proof.
  intros H Hk. apply inb_nth in H as [L H]. apply inb_nth. rewrite upd_length. split; auto.
  intros j i n Ei En. rewrite nth_error_upd in Ei. destruct (Nat.eqb_spec a j) as [->|N].
  - cbn [andb] in Ei. destruct (j <? length ix)%nat; [|eapply H; eauto]. injection Ei as <-.
    rewrite (nth_error_nth _ _ 0%nat En) in Hk. auto.
  - cbn [andb] in Ei. eapply H; eauto.
Qed.
Lemma inb_nth_lt sh ix a : inb sh ix = true -> (a < length sh)%nat -> (nth a ix 0 < nth a sh 0)%nat.
Proof.
  intros H Ha. pose proof (inb_length _ _ H) as L. apply inb_nth in H as [_ H].
  apply (H a); apply nth_error_nth'; lia.
Qed.

Lemma aok_tab sh f : aok sh (tab sh f).
Proof. split; [apply tab_wf|reflexivity]. Qed.

Lemma aok_ext sh (a b : arr A) : aok sh a -> aok sh b ->
  (forall ix, inb sh ix = true -> getd v0 a ix = getd v0 b ix) -> a = b.
Proof.
  intros [W S] [W' S'] H. subst sh. apply arr_ext; auto. intros ix Hi.
  rewrite (get_getd v0 a) by auto. rewrite (get_getd v0 b) by (auto; congruence). f_equal; auto.
Qed.

(** ** kernels along an axis *)
Lemma along_ok K ax sh a : aok sh a -> aok sh (along K ax a).
Proof. intros [_ <-]. apply aok_tab. Qed.
Lemma along_get K ax sh a ix : aok sh a -> inb sh ix = true ->
  getd v0 (along K ax a) ix = vsum (map (fun k => K (nth ax ix 0%nat) k * getd v0 a (upd ix ax k)) (seq 0 (nth ax sh 0%nat))).
Proof. intros [_ S] H. unfold along. rewrite getd_tab by (rewrite S; auto). rewrite S. reflexivity. Qed.

Lemma along_com K L a b sh x : a <> b -> aok sh x -> along K a (along L b x) = along L b (along K a x).
Proof.
  intros N O. apply (aok_ext sh); [repeat apply along_ok; auto..|]. intros ix Hi.
  rewrite (along_get K a sh) by (auto using along_ok). rewrite (along_get L b sh) by (auto using along_ok).
  transitivity (vsum (map (fun k => vsum (map (fun m => K (nth a ix 0%nat) k * (L (nth b ix 0%nat) m * getd v0 x (upd (upd ix a k) b m)))
     (seq 0 (nth b sh 0%nat)))) (seq 0 (nth a sh 0%nat)))).
  - apply vsum_ext. intros k Hk. apply in_seq in Hk. rewrite (along_get L b sh) by (auto; apply inb_upd; auto; lia).
    rewrite <- vsum_mul_l. rewrite nth_upd_ne by auto. reflexivity.
  - rewrite vsum_exchange. apply vsum_ext. intros m Hm. apply in_seq in Hm.
    rewrite (along_get K a sh) by (auto; apply inb_upd; auto; lia). rewrite <- vsum_mul_l. rewrite nth_upd_ne by auto.
    apply vsum_ext. intros k _. rewrite (upd_comm ix a b) by auto. ring.
Qed.

Lemma along_inv K L a sh x : aok sh x -> (a < length sh)%nat ->
  (forall i j, (i < nth a sh 0)%nat -> (j < nth a sh 0)%nat ->
     vsum (map (fun k => K i k * L k j) (seq 0 (nth a sh 0%nat))) = if (i =? j)%nat then 1 else 0) ->
  along K a (along L a x) = x.
Proof.
  intros O La H. apply (aok_ext sh); auto; [repeat apply along_ok; auto|]. intros ix Hi.
  rewrite (along_get K a sh) by (auto using along_ok).
  pose proof (inb_length _ _ Hi) as Len.
  pose proof (inb_nth_lt _ _ _ Hi La) as Hai.
  transitivity (vsum (map (fun k => vsum (map (fun m => K (nth a ix 0%nat) k * L k m * getd v0 x (upd ix a m))
     (seq 0 (nth a sh 0%nat)))) (seq 0 (nth a sh 0%nat)))).
  - apply vsum_ext. intros k Hk. apply in_seq in Hk. rewrite (along_get L a sh) by (auto; apply inb_upd; auto; lia).
    rewrite <- vsum_mul_l. rewrite nth_upd_eq by lia. apply vsum_ext. intros m _. rewrite upd_upd. ring.
  - rewrite vsum_exchange.
    transitivity (vsum (map (fun m => (if (nth a ix 0 =? m)%nat then 1 else 0) * getd v0 x (upd ix a m)) (seq 0 (nth a sh 0%nat)))).
    + apply vsum_ext. intros m Hm. apply in_seq in Hm. rewrite <- H by (auto; lia). rewrite <- vsum_mul_r. reflexivity.
    + rewrite (vsum_single _ _ (nth a ix 0%nat)).
      * rewrite Nat.eqb_refl, upd_nth_same. ring.
      * apply seq_NoDup.
      * apply in_seq. lia.
      * intros m _ Nm. destruct (Nat.eqb_spec (nth a ix 0%nat) m); [congruence|ring].
Qed.

(** ** rolls *)
Lemma roll_ok s ax sh a : aok sh a -> aok sh (roll_axis s ax a).
Proof. intros [_ <-]. apply aok_tab. Qed.
Lemma roll_get s ax sh a ix : aok sh a -> inb sh ix = true ->
  getd v0 (roll_axis s ax a) ix =
  getd v0 a (upd ix ax ((nth ax ix 0 + (nth ax sh 0 - s (nth ax sh 0))) mod (nth ax sh 0))%nat).
Proof. intros [_ S] H. unfold roll_axis. rewrite getd_tab by (rewrite S; auto). rewrite S. reflexivity. Qed.
Lemma mod_lt_n m n i : (i < n)%nat -> (m mod n < n)%nat.
Proof. intros. apply Nat.mod_upper_bound. lia. Qed.
Lemma roll_inb s ax sh ix : inb sh ix = true -> (ax < length sh)%nat ->
  inb sh (upd ix ax ((nth ax ix 0 + (nth ax sh 0 - s (nth ax sh 0))) mod (nth ax sh 0))%nat) = true.
Proof. intros H La. apply inb_upd; auto. eapply mod_lt_n. apply inb_nth_lt; eauto. Qed.

Lemma roll_com s t a b sh x : a <> b -> (a < length sh)%nat -> (b < length sh)%nat -> aok sh x ->
  roll_axis s a (roll_axis t b x) = roll_axis t b (roll_axis s a x).
Proof.
  intros N La Lb O. apply (aok_ext sh); [repeat apply roll_ok; auto..|]. intros ix Hi.
  rewrite (roll_get s a sh) by (auto using roll_ok). rewrite (roll_get t b sh) by (auto using roll_inb).
  rewrite (roll_get t b sh) by (auto using roll_ok). rewrite (roll_get s a sh) by (auto using roll_inb).
  rewrite !nth_upd_ne by auto. rewrite (upd_comm ix a b) by auto. reflexivity.
Qed.

Lemma roll_inv s t a sh x : (a < length sh)%nat -> aok sh x ->
  (let n := nth a sh 0%nat in s n <= n /\ t n <= n /\ s n + t n = n)%nat ->
  roll_axis s a (roll_axis t a x) = x.
Proof.
  intros La O (H1 & H2 & H3). apply (aok_ext sh); auto; [repeat apply roll_ok; auto|]. intros ix Hi.
  rewrite (roll_get s a sh) by (auto using roll_ok). rewrite (roll_get t a sh) by (auto using roll_inb).
  pose proof (inb_nth_lt _ _ _ Hi La) as Hl. pose proof (inb_length _ _ Hi) as Len.
  rewrite nth_upd_eq by lia. rewrite upd_upd. set (n := nth a sh 0%nat) in *.
  rewrite Nat.add_mod_idemp_l by lia.
  replace (nth a ix 0 + (n - s n) + (n - t n))%nat with (nth a ix 0 + 1 * n)%nat by lia.
  rewrite Nat.mod_add by lia. rewrite Nat.mod_small by auto. rewrite upd_nth_same. reflexivity.
Qed.

(** ** scalars *)
Lemma scale_ok c sh a : aok sh a -> aok sh (scale_arr c a).
Proof. intros [W S]. split; [apply amap_wf; auto|auto]. Qed.
Lemma scale_get c sh a ix : aok sh a -> inb sh ix = true -> getd v0 (scale_arr c a) ix = getd v0 a ix * c.
Proof.
  intros [W S] Hi. unfold getd, scale_arr. rewrite get_amap. rewrite (get_getd v0 a) by (auto; congruence). reflexivity.
Qed.
Lemma scale_along c K a sh x : aok sh x -> along K a (scale_arr c x) = scale_arr c (along K a x).
Proof.
  intros O. apply (aok_ext sh); [auto using along_ok, scale_ok..|]. intros ix Hi.
  rewrite (along_get K a sh), (scale_get c sh), (along_get K a sh) by auto using along_ok, scale_ok.
  rewrite <- vsum_mul_r. apply vsum_ext. intros k Hk. apply in_seq in Hk.
  rewrite (scale_get c sh) by (auto; apply inb_upd; auto; lia). ring.
Qed.
Lemma scale_roll c s a sh x : (a < length sh)%nat -> aok sh x -> roll_axis s a (scale_arr c x) = scale_arr c (roll_axis s a x).
Proof.
  intros La O. apply (aok_ext sh); [auto using roll_ok, scale_ok..|]. intros ix Hi.
  rewrite (roll_get s a sh), (scale_get c sh) by auto using roll_ok, scale_ok, roll_inb.
  rewrite (scale_get c sh), (roll_get s a sh) by auto using roll_ok, scale_ok, roll_inb.
  reflexivity.
Qed.
Lemma scale_scale c e (x : arr A) : scale_arr c (scale_arr e x) = scale_arr (e * c) x.
Proof. unfold scale_arr, amap. simpl. f_equal. rewrite map_map. apply map_ext. intros. ring. Qed.
Lemma scale_1 (x : arr A) : scale_arr 1 x = x.
Proof. destruct x as [s d]. unfold scale_arr, amap. simpl. f_equal. rewrite <- (map_id d) at 2. apply map_ext. intros. ring. Qed.

(** ** roots of unity *)
Lemma vpow_add (x : A) m n : vpow x (m + n) = vpow x m * vpow x n.
Proof. induction m as [|m IH]; simpl; [ring|]. rewrite IH. ring. Qed.
Lemma vpow_mul_distr (x y : A) n : vpow (x * y) n = vpow x n * vpow y n.
Proof. induction n as [|n IH]; simpl; [ring|]. rewrite IH. ring. Qed.
Lemma vpow_1 n : vpow (1 : A) n = 1.
Proof. induction n as [|n IH]; simpl; [ring|]. rewrite IH. ring. Qed.
Lemma star_pow (x : A) n : star (vpow x n) = vpow (star x) n.
Proof. induction n as [|n IH]; simpl; [apply star_1|]. rewrite star_mul, IH. reflexivity. Qed.
Lemma vsum_const {X} (c : A) (l : list X) : vsum (map (fun _ => c) l) = emb (nq (length l)) * c.
Proof.
  induction l as [|a l IH]; simpl length; simpl map.
  - change (nq 0) with 0%Qc. rewrite emb_0. unfold vsum; simpl. ring.
  - rewrite vsum_cons, IH, nq_S, emb_add, emb_1. ring.
Qed.

Section Root.
Context (w : nat -> A).

(** orthogonality *)
Lemma root_orth n i j : good_root (w n) n -> (i < n)%nat -> (j < n)%nat ->
  vsum (map (fun k => vpow (w n) (i * k) * vpow (star (w n)) (k * j)) (seq 0 n)) =
  if (i =? j)%nat then emb (nq n) else 0.
Proof.
  intros [G1 G2] Hi Hj.
  assert (E : forall m, vpow (w n) m * vpow (star (w n)) m = 1).
  { intros m. rewrite <- vpow_mul_distr, G1. apply vpow_1. }
  destruct (Nat.eqb_spec i j) as [->|N].
  - transitivity (vsum (map (fun _ : nat => (1 : A)) (seq 0 n))).
    + apply vsum_ext. intros k _. rewrite (Nat.mul_comm k j). apply E.
    + rewrite vsum_const, seq_length. ring.
  - destruct (Nat.lt_ge_cases j i) as [L|L].
    + rewrite <- (G2 (i - j)%nat) by lia. apply vsum_ext. intros k _.
      replace (i * k)%nat with (k * (i - j) + k * j)%nat by nia. rewrite vpow_add.
      transitivity (vpow (w n) (k * (i - j)) * (vpow (w n) (k * j) * vpow (star (w n)) (k * j))); [ring|].
      rewrite E. ring.
    + transitivity (star (0 : A)); [|apply star_0]. rewrite <- (G2 (j - i)%nat) by lia. rewrite star_sum, map_map.
      apply vsum_ext. intros k _. rewrite star_pow.
      replace (k * j)%nat with (k * (j - i) + i * k)%nat by nia. rewrite vpow_add.
      transitivity (vpow (star (w n)) (k * (j - i)) * (vpow (w n) (i * k) * vpow (star (w n)) (i * k))); [ring|].
      rewrite E. ring.
Qed.

Lemma good_star n : good_root (w n) n -> good_root (star (w n)) n.
Proof.
  intros [G1 G2]. split; [rewrite star_star, <- G1; ring|].
  intros k Hk. rewrite <- (star_0 (A:=A)), <- (G2 k Hk), star_sum, map_map. apply vsum_ext. intros j _. symmetry. apply star_pow.
Qed.
End Root.

Lemma nq_neq0 n : (0 < n)%nat -> nq n <> 0%Qc.
Proof. intros H E. apply (f_equal (fun q => qfloor q)) in E. unfold nq in E. rewrite qfloor_zq in E. change 0%Qc with (zq 0) in E. rewrite qfloor_zq in E. lia. Qed.

Section Root2.
Context (w : nat -> A).

Lemma fft_ok ax sh a : aok sh a -> aok sh (fft_axis w ax a).
Proof. apply along_ok. Qed.
Lemma ifft_ok ax sh a : aok sh a -> aok sh (ifft_axis w ax a).
Proof. apply along_ok. Qed.

Definition gaxis (sh : list nat) (a : nat) : Prop :=
  (a < length sh)%nat /\ good_root (w (nth a sh 0%nat)) (nth a sh 0%nat).

Lemma fft_ifft sh a x : gaxis sh a -> aok sh x -> fft_axis w a (ifft_axis w a x) = x.
Proof.
  intros [La G] O. pose proof (ifft_ok a sh x O) as [_ S2]. pose proof O as [_ S1]. unfold fft_axis. rewrite S2.
  unfold ifft_axis. rewrite S1. apply (along_inv _ _ a sh); auto.
  intros i j Hi Hj. set (n := nth a sh 0%nat) in *.
  transitivity (emb (/ nq n)%Qc * vsum (map (fun k => vpow (w n) (i * k) * vpow (star (w n)) (k * j)) (seq 0 n))).
  - rewrite <- vsum_mul_l. apply vsum_ext. intros. ring.
  - rewrite root_orth by auto. destruct (i =? j)%nat; [|ring]. rewrite vmul_comm. apply emb_inv. apply nq_neq0. lia.
Qed.
Lemma ifft_fft sh a x : gaxis sh a -> aok sh x -> ifft_axis w a (fft_axis w a x) = x.
Proof.
  intros [La G] O. pose proof (fft_ok a sh x O) as [_ S2]. pose proof O as [_ S1]. unfold ifft_axis. rewrite S2.
  unfold fft_axis. rewrite S1. apply (along_inv _ _ a sh); auto.
  intros i j Hi Hj. set (n := nth a sh 0%nat) in *.
  transitivity (emb (/ nq n)%Qc * vsum (map (fun k => vpow (star (w n)) (i * k) * vpow (star (star (w n))) (k * j)) (seq 0 n))).
  - rewrite <- vsum_mul_l. apply vsum_ext. intros. rewrite star_star. ring.
  - rewrite (root_orth (fun n => star (w n)) n) by (auto; apply good_star; auto).
    destruct (i =? j)%nat; [|ring]. rewrite vmul_comm. apply emb_inv. apply nq_neq0. lia.
Qed.
Lemma fft_com_ifft sh a b x : a <> b -> aok sh x -> fft_axis w a (ifft_axis w b x) = ifft_axis w b (fft_axis w a x).
Proof.
  intros N O.
  exact (along_com (fun j k => vpow (w (nth a (shape x) 0%nat)) (j * k))
    (fun j k => emb (/ nq (nth b (shape x) 0%nat))%Qc * vpow (star (w (nth b (shape x) 0%nat))) (j * k)) a b sh x N O).
Qed.

Lemma fftn_ok sh l x : aok sh x -> aok sh (fftn w l x).
Proof. intros O. induction l; simpl; auto using fft_ok. Qed.
Lemma ifftn_ok sh l x : aok sh x -> aok sh (ifftn w l x).
Proof. intros O. induction l; simpl; auto using ifft_ok. Qed.
Lemma shift_ok sh l x : aok sh x -> aok sh (shift_axes l x).
Proof. intros O. induction l; simpl; auto. apply roll_ok; auto. Qed.
Lemma unshift_ok sh l x : aok sh x -> aok sh (unshift_axes l x).
Proof. intros O. induction l; simpl; auto. apply roll_ok; auto. Qed.

Lemma fftn_ifftn sh l x : Forall (gaxis sh) l -> NoDup l -> aok sh x -> fftn w l (ifftn w l x) = x.
Proof.
  apply (fold_inverse (aok sh) (fft_axis w) (ifft_axis w) (gaxis sh)); intros; eauto using fft_ok, ifft_ok, fft_ifft.
  eapply fft_com_ifft; eauto.
Qed.
Lemma ifftn_fftn sh l x : Forall (gaxis sh) l -> NoDup l -> aok sh x -> ifftn w l (fftn w l x) = x.
Proof.
  apply (fold_inverse (aok sh) (ifft_axis w) (fft_axis w) (gaxis sh)); intros; eauto using fft_ok, ifft_ok, ifft_fft.
  symmetry. eapply fft_com_ifft; eauto.
Qed.
Lemma half_le n : (n / 2 <= n)%nat.
Proof. apply Nat.div_le_upper_bound; lia. Qed.
Lemma shift_unshift sh l x : Forall (fun a => (a < length sh)%nat) l -> NoDup l -> aok sh x -> shift_axes l (unshift_axes l x) = x.
Proof.
  apply (fold_inverse (aok sh) (roll_axis (fun n => n / 2)%nat) (roll_axis (fun n => n - n / 2)%nat) (fun a => (a < length sh)%nat));
    intros; auto using roll_ok.
  - apply (roll_inv _ _ _ sh); auto. cbv zeta. pose proof (half_le (nth a sh 0%nat)). lia.
  - apply (roll_com _ _ _ _ sh); auto.
Qed.
Lemma unshift_shift sh l x : Forall (fun a => (a < length sh)%nat) l -> NoDup l -> aok sh x -> unshift_axes l (shift_axes l x) = x.
Proof.
  apply (fold_inverse (aok sh) (roll_axis (fun n => n - n / 2)%nat) (roll_axis (fun n => n / 2)%nat) (fun a => (a < length sh)%nat));
    intros; auto using roll_ok.
  - apply (roll_inv _ _ _ sh); auto. cbv zeta. pose proof (half_le (nth a sh 0%nat)). lia.
  - apply (roll_com _ _ _ _ sh); auto.
Qed.

Lemma scale_fftn c sh l x : aok sh x -> fftn w l (scale_arr c x) = scale_arr c (fftn w l x).
Proof.
  intros O. induction l as [|a l IH]; simpl; auto. unfold fftn in *. rewrite IH. unfold fft_axis.
  cbn [scale_arr amap shape]. apply (scale_along _ _ _ sh). apply fftn_ok; auto.
Qed.
Lemma scale_ifftn c sh l x : aok sh x -> ifftn w l (scale_arr c x) = scale_arr c (ifftn w l x).
Proof.
  intros O. induction l as [|a l IH]; simpl; auto. unfold ifftn in *. rewrite IH. unfold ifft_axis.
  cbn [scale_arr amap shape]. apply (scale_along _ _ _ sh). apply ifftn_ok; auto.
Qed.
Lemma scale_shift c sh l x : Forall (fun a => (a < length sh)%nat) l -> aok sh x -> shift_axes l (scale_arr c x) = scale_arr c (shift_axes l x).
Proof.
  intros F O. induction F as [|a l Ha Hl IH]; simpl; auto. unfold shift_axes in *. rewrite IH.
  apply (scale_roll _ _ _ sh); auto. apply shift_ok; auto.
Qed.
Lemma scale_unshift c sh l x : Forall (fun a => (a < length sh)%nat) l -> aok sh x -> unshift_axes l (scale_arr c x) = scale_arr c (unshift_axes l x).
Proof.
  intros F O. induction F as [|a l Ha Hl IH]; simpl; auto. unfold unshift_axes in *. rewrite IH.
  apply (scale_roll _ _ _ sh); auto. apply unshift_ok; auto.
Qed.
End Root2.
End Four.
