(** Lemmas for C89 and C90: tables on the logarithmic grid. *)
From Verif Require Import Util RealUtil AmModel AmSpec Am DistModel DistSpec Dist Dist2.
From Coq Require Import Reals Lra Lia Sorted.
From Coquelicot Require Import Coquelicot.
Open Scope R_scope.

(** * Linear interpolation in tables given by functions *)
Section Tables.
Context (X Y : nat -> R) (n : nat) (Hn : (2 <= n)%nat) (HX : forall i, X i < X (S i)).
Lemma X_lt i j : (i < j)%nat -> X i < X j.
Proof. clear n Hn Y. induction 1; [apply HX|]. pose proof (HX m). lra. Qed.
Lemma X_le i j : (i <= j)%nat -> X i <= X j.
Proof. clear n Hn Y. intros H. destruct (Nat.eq_dec i j) as [->|E]; [lra|]. left. apply X_lt. lia. Qed.
Lemma seg_cell k m i x : (k <= i)%nat -> (S i < k + m)%nat -> X i <= x < X (S i) ->
  seg x (map X (seq k m)) (map Y (seq k m)) = Y i + (x - X i) / (X (S i) - X i) * (Y (S i) - Y i).
Proof.
  revert k. induction m as [|m IH]; intros k K M H; [lia|]. destruct m as [|m]; [lia|].
  cbn [seq map]. rewrite seg_cons. destruct (Nat.eq_dec k i) as [->|N].
  - rewrite (proj2 (rleb_gt (X (S i)) x)) by lra. pose proof (HX i). destruct (reqb x (X i)) eqn:E; [apply reqb_eq in E; subst x|]; field; lra.
  - pose proof (X_le (S k) i ltac:(lia)). rewrite (proj2 (rleb_le (X (S k)) x)) by lra.
    change (X (S k) :: map X (seq (S (S k)) m)) with (map X (seq (S k) (S m))). change (Y (S k) :: map Y (seq (S (S k)) m)) with (map Y (seq (S k) (S m))).
    apply IH; try lia. lra.
Qed.
Lemma last_map (Z : nat -> R) : last (map Z (seq 0 n)) 0 = Z (n - 1)%nat.
Proof.
  clear X Y HX. replace n with (S (n - 1)) at 1 by lia. rewrite seq_S, map_app. cbn. apply last_last.
Qed.
Lemma hd_map (Z : nat -> R) : hd 0 (map Z (seq 0 n)) = Z 0%nat. Proof. clear X Y HX. destruct n; [lia|reflexivity]. Qed.
Lemma X_incr : incr (map X (seq 0 n)). Proof. clear Hn Y. apply map_seq_sorted, HX. Qed.
Lemma look_cell i x : (S i < n)%nat -> X i <= x <= X (S i) ->
  look x (map X (seq 0 n)) (map Y (seq 0 n)) = Y i + (x - X i) / (X (S i) - X i) * (Y (S i) - Y i).
Proof.
  intros I H. unfold look. pose proof (X_le 0 i ltac:(lia)). pose proof (X_le (S i) (n - 1) ltac:(lia)).
  rewrite interp_in by (rewrite hd_map, last_map; lra).
  destruct (Rlt_dec x (X (S i))) as [L|L]; [apply seg_cell; try lia; lra|]. assert (x = X (S i)) as -> by lra. pose proof (HX i).
  replace (Y i + _) with (Y (S i)) by (field; lra).
  assert (A : nth (S i) (map X (seq 0 n)) 0 = X (S i)) by (rewrite (nth_indep _ 0 (X 0)) by (rewrite map_length, seq_length; auto); rewrite map_nth, seq_nth by auto; reflexivity).
  assert (B : nth (S i) (map Y (seq 0 n)) 0 = Y (S i)) by (rewrite (nth_indep _ 0 (Y 0)) by (rewrite map_length, seq_length; auto); rewrite map_nth, seq_nth by auto; reflexivity).
  rewrite <- B, <- A at 1. apply (nth_knot nil); [apply X_incr|rewrite !map_length; auto|rewrite map_length, seq_length; auto].
Qed.
Lemma look_low x : x <= X 0 -> look x (map X (seq 0 n)) (map Y (seq 0 n)) = Y 0.
Proof.
  intros [H| ->].
  - unfold look. rewrite interp_low; [apply hd_map|]. cbn. rewrite hd_map. exact H.
  - rewrite (look_cell 0) by (try lia; pose proof (HX 0); lra). unfold Rdiv. replace (X 0%nat - X 0%nat) with 0 by ring. ring.
Qed.
Lemma look_high x : X (n - 1) <= x -> look x (map X (seq 0 n)) (map Y (seq 0 n)) = Y (n - 1)%nat.
Proof.
  intros [H|H].
  - unfold look. rewrite interp_high; [apply last_map|rewrite hd_map, last_map; apply X_le; lia|]. cbn. rewrite last_map. exact H.
  - replace (n - 1)%nat with (S (n - 2)) in * by lia. rewrite (look_cell (n - 2)) by (try lia; pose proof (HX (n - 2)); lra). rewrite <- H. pose proof (HX (n - 2)). field. lra.
Qed.
Lemma cell_ex x : X 0 <= x -> x <= X (n - 1) -> exists i, (S i < n)%nat /\ X i <= x <= X (S i).
Proof.
  clear Y HX. intros A B. assert (G : forall k, (1 <= k < n)%nat -> x <= X k -> exists i, (S i < n)%nat /\ X i <= x <= X (S i)).
  { induction k as [|k IH]; intros K H; [lia|]. destruct (Rle_dec x (X k)) as [L|L].
    - destruct k as [|k]; [exists 0%nat; split; [lia|split; [lra|lra]]|]. apply IH; auto. lia.
    - exists k. split; [lia|lra]. }
  apply (G (n - 1)%nat); [lia|exact B].
Qed.
End Tables.

(** * The grid *)
Definition ratio : R := Rpower 10 (1 / 500).
Lemma ln10 : 0 < ln 10. Proof. rewrite <- ln_1. apply ln_increasing; lra. Qed.
Lemma ratio_gt : 1 < ratio.
Proof. unfold ratio, Rpower. rewrite <- exp_0 at 1. apply exp_increasing. pose proof ln10. lra. Qed.
Lemma npoints2 : (2 <= npoints)%nat.
Proof. apply Nat.leb_le. vm_compute. reflexivity. Qed.
Lemma npoints_INR : INR (npoints - 1) = 10000.
Proof. rewrite INR_IZR_INZ. replace (Z.of_nat (npoints - 1)) with 10000%Z by (vm_compute; reflexivity). reflexivity. Qed.
Lemma grid_S xmin i : gridpoint xmin (S i) = gridpoint xmin i * ratio.
Proof. unfold gridpoint, ratio. rewrite S_INR, Rmult_assoc, <- Rpower_plus. do 2 f_equal. field. Qed.
Lemma grid_0 xmin : gridpoint xmin 0 = xmin.
Proof. unfold gridpoint. replace (INR 0 / 500) with 0 by (cbn; field). rewrite Rpower_O by lra. ring. Qed.
Lemma grid_pos xmin i : 0 < xmin -> 0 < gridpoint xmin i.
Proof. intros H. apply Rmult_lt_0_compat; [auto|apply exp_pos]. Qed.
Lemma grid_lt xmin i : 0 < xmin -> gridpoint xmin i < gridpoint xmin (S i).
Proof. intros H. rewrite grid_S. pose proof (grid_pos xmin i H). pose proof ratio_gt. nra. Qed.
Lemma xint_grid xmin : 0 < xmin -> xint xmin = map (gridpoint xmin) (seq 0 npoints).
Proof.
  intros H. unfold xint, linspace. rewrite map_map. apply map_ext. intros i. rewrite npoints_INR. unfold gridpoint.
  rewrite Rpower_plus. f_equal.
  - unfold Rpower, log10. replace (ln xmin / ln 10 * ln 10) with (ln xmin) by (field; pose proof ln10; lra). apply exp_ln, H.
  - f_equal. field.
Qed.

(** * Schechter: the tabulated inverse *)
Section Ppf.
Context (F : special) (HF : scipy_special F) (p : schechter) (HP : sensible p).
Let xmin := s_xmin p.
Definition G (x : R) : R := 1 - lum_int F p x / lum_int F p (s_xmin p).
Lemma xmin_pos : 0 < xmin. Proof. destruct HP as (_ & H & _). exact H. Qed.
Lemma cdf_G x : xmin <= x -> sch_cdf F p (x :: nil) = Ok (G x :: nil).
Proof.
  intros H. rewrite cdf_one by auto. unfold G. do 2 f_equal. fold xmin. pose proof (int_pos F HF p HP xmin xmin_pos). field. lra.
Qed.
Lemma G_lt x y : 0 < x < y -> G x < G y.
Proof.
  intros H. unfold G. pose proof (int_pos F HF p HP xmin xmin_pos). pose proof (int_dec F HF p HP x y H). fold xmin.
  assert (lum_int F p y / lum_int F p xmin < lum_int F p x / lum_int F p xmin); [|lra].
  apply Rmult_lt_compat_r; [apply Rinv_0_lt_compat|]; auto.
Qed.
Lemma G_xmin : G xmin = 0.
Proof. unfold G. pose proof (int_pos F HF p HP xmin xmin_pos). fold xmin. field. lra. Qed.
Lemma G_lt1 x : 0 < x -> G x < 1.
Proof.
  intros H. unfold G. pose proof (int_pos F HF p HP xmin xmin_pos). pose proof (int_pos F HF p HP x H). fold xmin.
  assert (0 < lum_int F p x / lum_int F p xmin); [|lra]. apply Rdiv_lt_0_compat; auto.
Qed.
Lemma grid_ge i : xmin <= gridpoint xmin i.
Proof. rewrite <- (grid_0 xmin) at 1. apply (X_le (gridpoint xmin)); [intros; apply grid_lt, xmin_pos|lia]. Qed.
Lemma ppf_look c : sch_ppf F p c = look c (map (fun i => G (gridpoint xmin i)) (seq 0 npoints)) (map (gridpoint xmin) (seq 0 npoints)).
Proof.
  unfold sch_ppf. fold xmin. rewrite (xint_grid xmin xmin_pos). f_equal. unfold lum_function_int_xs. rewrite !map_map. apply map_ext. intros i. fold xmin.
  pose proof (grid_ge i). rewrite (proj2 (rltb_ge (gridpoint xmin i) xmin)) by auto.
  unfold lum_function_int. fold xmin. rewrite (proj2 (rltb_ge xmin xmin)) by lra. reflexivity.
Qed.
Lemma Gg_lt i : G (gridpoint xmin i) < G (gridpoint xmin (S i)).
Proof. apply G_lt. split; [apply grid_pos, xmin_pos|apply grid_lt, xmin_pos]. Qed.
Lemma ppf_cell i x : (S i < npoints)%nat -> gridpoint xmin i <= x <= gridpoint xmin (S i) ->
  sch_ppf F p (G x) = gridpoint xmin i + (G x - G (gridpoint xmin i)) / (G (gridpoint xmin (S i)) - G (gridpoint xmin i)) * (gridpoint xmin (S i) - gridpoint xmin i).
Proof.
  intros I H. rewrite ppf_look. apply (look_cell (fun i => G (gridpoint xmin i)) (gridpoint xmin) npoints npoints2 Gg_lt i); auto.
  pose proof (grid_pos xmin i xmin_pos).
  split; [destruct (Req_dec (gridpoint xmin i) x) as [<-|N]; [lra|left; apply G_lt; lra]|destruct (Req_dec x (gridpoint xmin (S i))) as [<-|N]; [lra|left; apply G_lt; lra]].
Qed.
Lemma frac01 a b x : a < b -> a <= x <= b -> 0 <= (x - a) / (b - a) <= 1.
Proof.
  intros A B. split; [apply Rdiv_le_0_compat; lra|]. apply (Rmult_le_reg_r (b - a)); [lra|]. unfold Rdiv. rewrite Rmult_assoc, Rinv_l by lra. lra.
Qed.
Lemma ppf_same_cell i x : (S i < npoints)%nat -> gridpoint xmin i <= x <= gridpoint xmin (S i) ->
  gridpoint xmin i <= sch_ppf F p (G x) <= gridpoint xmin (S i).
Proof.
  intros I H. rewrite (ppf_cell i x I H). pose proof (grid_lt xmin i xmin_pos). pose proof (grid_pos xmin i xmin_pos).
  assert (A : G (gridpoint xmin i) <= G x <= G (gridpoint xmin (S i))).
  { split; [destruct (Req_dec (gridpoint xmin i) x) as [<-|N]; [lra|left; apply G_lt; lra]|destruct (Req_dec x (gridpoint xmin (S i))) as [<-|N]; [lra|left; apply G_lt; lra]]. }
  pose proof (frac01 _ _ _ (Gg_lt i) A) as Q. nra.
Qed.
Lemma ppf_grid i : (i < npoints)%nat -> sch_ppf F p (G (gridpoint xmin i)) = gridpoint xmin i.
Proof.
  intros I. destruct i as [|i].
  - rewrite (ppf_cell 0); [unfold Rdiv; ring|pose proof npoints2; lia|pose proof (grid_lt xmin 0 xmin_pos); lra].
  - rewrite (ppf_cell i); [|auto|pose proof (grid_lt xmin i xmin_pos); lra]. pose proof (Gg_lt i). field. lra.
Qed.
Lemma ppf_near x : xmin <= x <= gridpoint xmin (npoints - 1) -> x / ratio <= sch_ppf F p (G x) <= x * ratio.
Proof.
  intros H. destruct (cell_ex (gridpoint xmin) npoints npoints2 x) as (i & I & C).
  { rewrite grid_0. lra. } { lra. }
  pose proof (ppf_same_cell i x I C) as S. rewrite grid_S in *. pose proof ratio_gt. split; [|nra].
  apply (Rmult_le_reg_r ratio); [lra|]. unfold Rdiv. rewrite Rmult_assoc, Rinv_l by lra. nra.
Qed.
Lemma ppf_range c : xmin <= sch_ppf F p c <= gridpoint xmin (npoints - 1).
Proof.
  rewrite ppf_look. set (X := fun i => G (gridpoint xmin i)). pose proof (grid_ge (npoints - 1)).
  destruct (Rle_dec c (X 0%nat)) as [A|A]; [rewrite (look_low X (gridpoint xmin) npoints npoints2 Gg_lt c A), grid_0; lra|].
  destruct (Rle_dec (X (npoints - 1)%nat) c) as [B|B]; [rewrite (look_high X (gridpoint xmin) npoints npoints2 Gg_lt c B); lra|].
  destruct (cell_ex X npoints npoints2 c ltac:(lra) ltac:(lra)) as (i & I & C).
  rewrite (look_cell X (gridpoint xmin) npoints npoints2 Gg_lt i c I C). pose proof (frac01 _ _ _ (Gg_lt i) C) as Q. fold (X i) (X (S i)) in Q.
  pose proof (grid_lt xmin i xmin_pos). pose proof (grid_ge i).
  pose proof (X_le (gridpoint xmin) (fun i => grid_lt xmin i xmin_pos) (S i) (npoints - 1) ltac:(lia)). nra.
Qed.
Lemma ppf_mono c d : G xmin <= c < d -> d <= G (gridpoint xmin (npoints - 1)) -> sch_ppf F p c < sch_ppf F p d.
Proof.
  intros H D. rewrite !ppf_look. set (X := fun i => G (gridpoint xmin i)).
  assert (E0 : G xmin = X 0%nat) by (unfold X; rewrite grid_0; reflexivity).
  unfold look. rewrite !interp_in by (rewrite (hd_map npoints npoints2), (last_map npoints npoints2); fold (X (npoints - 1)%nat) in D; lra).
  apply seg_mono; rewrite ?(hd_map npoints npoints2), ?(last_map npoints npoints2); try (fold (X (npoints - 1)%nat) in D; lra).
  - apply incr_nondec, X_incr. exact Gg_lt.
  - apply X_incr. intros; apply grid_lt, xmin_pos.
  - rewrite !map_length. reflexivity.
  - pose proof npoints2. destruct npoints; [lia|discriminate].
Qed.
(** a falling function: between grid points the inverse is too large *)
Lemma sch_falls x y : (forall c, In c (comps p) -> fst c <= 0) -> 0 < x < y -> schechter_function p y < schechter_function p x.
Proof.
  intros A H. destruct HP as (P & _ & N & (c & C & Q)). unfold schechter_function.
  assert (T : forall d, In d (comps p) -> snd d * Rpower (y / s_x0 p) (fst d) * exp (- (y / s_x0 p)) / s_x0 p <= snd d * Rpower (x / s_x0 p) (fst d) * exp (- (x / s_x0 p)) / s_x0 p /\
     (0 < snd d -> snd d * Rpower (y / s_x0 p) (fst d) * exp (- (y / s_x0 p)) / s_x0 p < snd d * Rpower (x / s_x0 p) (fst d) * exp (- (x / s_x0 p)) / s_x0 p)).
  { intros d D. set (u := x / s_x0 p). set (v := y / s_x0 p).
    assert (UV : 0 < u < v). { split; [apply Rdiv_lt_0_compat; lra|]. apply Rmult_lt_compat_r; [apply Rinv_0_lt_compat|]; lra. }
    assert (E : Rpower v (fst d) * exp (- v) < Rpower u (fst d) * exp (- u)).
    { unfold Rpower. rewrite <- !exp_plus. apply exp_increasing. pose proof (ln_increasing u v ltac:(lra) ltac:(lra)). pose proof (A d D). nra. }
    assert (I : 0 < / s_x0 p) by (apply Rinv_0_lt_compat; auto). specialize (N d D). unfold Rdiv.
    replace (snd d * Rpower v (fst d) * exp (- v) * / s_x0 p) with (snd d * / s_x0 p * (Rpower v (fst d) * exp (- v))) by ring.
    replace (snd d * Rpower u (fst d) * exp (- u) * / s_x0 p) with (snd d * / s_x0 p * (Rpower u (fst d) * exp (- u))) by ring.
    split; [apply Rmult_le_compat_l; [apply Rmult_le_pos; lra|lra]|intros S; apply Rmult_lt_compat_l; auto; apply Rmult_lt_0_compat; auto]. }
  clear N A. revert C T. induction (comps p) as [|d l IH]; intros C T; [destruct C|]. cbn [fold_right].
  assert (W : forall l', (forall e, In e l' -> In e (d :: l)) -> fold_right (fun c s => snd c * Rpower (y / s_x0 p) (fst c) * exp (- (y / s_x0 p)) / s_x0 p + s) 0 l' <= fold_right (fun c s => snd c * Rpower (x / s_x0 p) (fst c) * exp (- (x / s_x0 p)) / s_x0 p + s) 0 l').
  { induction l' as [|e l' IHl]; intros Z; cbn [fold_right]; [lra|]. pose proof (proj1 (T e (Z e (or_introl eq_refl)))). pose proof (IHl (fun f I => Z f (or_intror I))). lra. }
  destruct C as [->|C].
  - pose proof (proj2 (T c (or_introl eq_refl)) Q). pose proof (W l (fun e I => or_intror I)). lra.
  - pose proof (IH C (fun e I => T e (or_intror I))). pose proof (proj1 (T d (or_introl eq_refl))). lra.
Qed.
Lemma int_derive x : 0 < x -> is_derive (lum_int F p) x (- schechter_function p x).
Proof. intros X. apply (li_derive F HF (s_x0 p) (comps p)); auto. destruct HP; auto. Qed.
Lemma ppf_high i x : (S i < npoints)%nat -> (forall c, In c (comps p) -> fst c <= 0) -> gridpoint xmin i < x < gridpoint xmin (S i) -> x < sch_ppf F p (G x).
Proof.
  intros I A H. set (a := gridpoint xmin i) in *. set (b := gridpoint xmin (S i)) in *. assert (PA : 0 < a) by (apply grid_pos, xmin_pos).
  rewrite (ppf_cell i x I) by (fold a b; lra). fold a b.
  assert (M : forall u v, 0 < u < v -> exists w, u < w < v /\ lum_int F p u - lum_int F p v = schechter_function p w * (v - u)).
  { intros u v U. destruct (MVT_cor2 (lum_int F p) (fun t => - schechter_function p t) u v) as (w & E & W); [lra| |].
    - intros t T. apply is_derive_Reals, int_derive. lra.
    - exists w. split; [lra|]. lra. }
  destruct (M a x ltac:(lra)) as (c1 & C1 & E1). destruct (M x b ltac:(lra)) as (c2 & C2 & E2).
  pose proof (sch_falls c1 c2 A ltac:(lra)) as D. pose proof (sch_pos p HP c2) as P2. set (N := lum_int F p xmin).
  assert (NP : 0 < N) by (apply int_pos; auto using xmin_pos).
  assert (G1 : G x - G a = schechter_function p c1 * (x - a) / N). { unfold G. fold xmin N. rewrite <- E1. field. lra. }
  assert (G2 : G b - G a = (schechter_function p c1 * (x - a) + schechter_function p c2 * (b - x)) / N). { unfold G. fold xmin N. rewrite <- E1, <- E2. field. lra. }
  rewrite G1, G2. set (f1 := schechter_function p c1) in *. set (f2 := schechter_function p c2) in *.
  assert (Q : 0 < f1 * (x - a) + f2 * (b - x)). { assert (0 < f1 * (x - a)) by (apply Rmult_lt_0_compat; lra). assert (0 < f2 * (b - x)) by (apply Rmult_lt_0_compat; lra). lra. }
  replace (f1 * (x - a) / N / ((f1 * (x - a) + f2 * (b - x)) / N) * (b - a)) with (f1 * (x - a) * (b - a) / (f1 * (x - a) + f2 * (b - x))) by (field; split; lra).
  assert (x - a < f1 * (x - a) * (b - a) / (f1 * (x - a) + f2 * (b - x))); [|lra].
  apply (Rmult_lt_reg_r (f1 * (x - a) + f2 * (b - x))); [exact Q|]. unfold Rdiv. rewrite (Rmult_assoc _ (/ _)), Rinv_l, Rmult_1_r by lra.
  assert (0 < (f1 - f2) * ((x - a) * (b - x))); [|nra]. apply Rmult_lt_0_compat; [lra|]. apply Rmult_lt_0_compat; lra.
Qed.
End Ppf.
(** the last point of the grid *)
Lemma top_eq xmin : gridpoint xmin (npoints - 1) = xmin * 10 ^ 20.
Proof.
  unfold gridpoint. rewrite npoints_INR. replace (10000 / 500) with (INR 20) by (rewrite INR_IZR_INZ; cbn; field). rewrite Rpower_pow by lra. reflexivity.
Qed.
Lemma n10001 : 10001%nat = npoints. Proof. vm_compute. reflexivity. Qed.
Lemma in_table i : (i <= 10000)%nat -> (i < npoints)%nat.
Proof. intros H. rewrite <- n10001. apply Nat.lt_succ_r in H. exact H. Qed.
Lemma in_table_S i : (i < 10000)%nat -> (S i < npoints)%nat.
Proof. intros H. apply in_table. exact H. Qed.
