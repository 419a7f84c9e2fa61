(** Proofs about the search for the reference frequency (C105). *)
From Verif Require Import Dict Util RealUtil RawModel RespModel RespSpec.
From Coq Require Import Reals Lra Lia.
Open Scope string_scope. Open Scope list_scope.
Open Scope R_scope.

Lemma exp_lower x : 1 + x <= exp x.
Proof. destruct (Req_dec x 0) as [->|N]; [rewrite exp_0; lra|]. left. apply exp_ineq1. exact N. Qed.
Lemma ln10_2 : 2 < ln 10.
Proof.
  rewrite <- (ln_exp 2). apply ln_increasing; [apply exp_pos|]. replace 2 with (1 + 1) by ring. rewrite exp_plus. pose proof exp_le_3. pose proof (exp_pos 1). nra.
Qed.
Lemma div_ge x y d : 0 < d -> y * d <= x -> y <= x / d.
Proof. intros D H. apply Rmult_le_reg_r with d; [exact D|]. unfold Rdiv. rewrite Rmult_assoc, Rinv_l by lra. lra. Qed.
Lemma div_le x y d : 0 < d -> x <= y * d -> x / d <= y.
Proof. intros D H. apply Rmult_le_reg_r with d; [exact D|]. unfold Rdiv. rewrite Rmult_assoc, Rinv_l by lra. lra. Qed.
Definition e10 (t : R) : R := Rpower 10 t.
Lemma e10_exp t : e10 t = exp (t * ln 10).
Proof. reflexivity. Qed.
Lemma e10_pos t : 0 < e10 t.
Proof. apply exp_pos. Qed.
Lemma e10_lt s t : s < t -> e10 s < e10 t.
Proof. intros H. apply exp_increasing. pose proof ln10_2. nra. Qed.
Lemma e10_le s t : s <= t -> e10 s <= e10 t.
Proof. intros [H| ->]; [left; apply e10_lt; exact H|right; reflexivity]. Qed.
Lemma e10_lt_inv s t : e10 s < e10 t -> s < t.
Proof. intros H. destruct (Rlt_le_dec s t) as [L|L]; [exact L|]. apply e10_le in L. lra. Qed.
Lemma e10_inj s t : e10 s = e10 t -> s = t.
Proof. intros H. destruct (Rtotal_order s t) as [L|[L|L]]; [|exact L|]; apply e10_lt in L; lra. Qed.
Lemma log10_e10 t : log10 (e10 t) = t.
Proof. unfold log10, e10, Rpower. rewrite ln_exp. pose proof ln10_2. field. lra. Qed.
Lemma e10_log10 x : 0 < x -> e10 (log10 x) = x.
Proof. intros H. unfold log10, e10, Rpower. pose proof ln10_2. replace (ln x / ln 10 * ln 10) with (ln x) by (field; lra). apply exp_ln. exact H. Qed.
Lemma e10_plus s t : e10 (s + t) = e10 s * e10 t.
Proof. apply Rpower_plus. Qed.

(** * The grid *)
Lemma points_pos : (2 <= points)%nat.
Proof. apply Nat.leb_le. vm_compute. reflexivity. Qed.
Lemma points_R : INR (points - 1) = 50000.
Proof. rewrite INR_IZR_INZ. f_equal. Qed.
Lemma points_Z : (points = 2 * 25000 + 1)%nat.
Proof. apply Nat.eqb_eq. vm_compute. reflexivity. Qed.
Lemma half_R : INR 25000 = 25000.
Proof. rewrite INR_IZR_INZ. f_equal. Qed.
#[global] Opaque points.
(** the exponent of grid point [i] *)
Definition gridt (a b : R) (i : nat) : R := a + INR i * ((b - a) / 50000).
Lemma logspace_nth a b i : nth_error (logspace a b points) i = if (i <? points)%nat then Some (e10 (gridt a b i)) else None.
Proof.
  unfold logspace. rewrite nth_error_map. destruct (Nat.ltb_spec i points) as [L|L].
  - rewrite (nth_error_nth' _ 0%nat) by (rewrite seq_length; exact L). rewrite seq_nth by exact L. cbn [option_map Nat.add]. rewrite points_R. reflexivity.
  - replace (nth_error (seq 0 points) i) with (@None nat); [reflexivity|]. symmetry. apply nth_error_None. rewrite seq_length. exact L.
Qed.
Lemma gridt_0 a b : gridt a b 0 = a.
Proof. unfold gridt. cbn. ring. Qed.
Lemma gridt_last a b : gridt a b (points - 1) = b.
Proof. unfold gridt. rewrite points_R. field. Qed.
Lemma gridt_S a b i : gridt a b (S i) = gridt a b i + (b - a) / 50000.
Proof. unfold gridt. rewrite S_INR. ring. Qed.
Lemma gridt_lt a b i j : a < b -> (i < j)%nat -> gridt a b i < gridt a b j.
Proof. intros H L. unfold gridt. apply lt_INR in L. assert (0 < (b - a) / 50000) by lra. nra. Qed.
Lemma gridt_mid a b : gridt a b 25000 = (a + b) / 2.
Proof. unfold gridt. rewrite half_R. field. Qed.
Lemma gridt_range a b i : a < b -> (i < points)%nat -> a <= gridt a b i <= b.
Proof.
  intros H L. split.
  - destruct i as [|i]; [rewrite gridt_0; lra|]. rewrite <- (gridt_0 a b) at 1. left. apply gridt_lt; [exact H|lia].
  - destruct (Nat.eq_dec i (points - 1)) as [->|N]; [rewrite gridt_last; lra|]. rewrite <- (gridt_last a b) at 2. left. apply gridt_lt; [exact H|lia].
Qed.
(** a grid point just above a number of the window *)
Lemma gridt_above a b q : a < b -> a <= q <= b -> exists i, (i < points)%nat /\ q <= gridt a b i < q + (b - a) / 50000.
Proof.
  intros H Q. set (d := (b - a) / 50000). assert (D : 0 < d) by (unfold d; lra). pose proof (rceil_spec ((q - a) / d)) as C. set (z := rceil ((q - a) / d)) in *.
  assert (E : (q - a) / d * d = q - a) by (field; lra). assert (Z0 : (0 <= z)%Z). { apply le_IZR. assert (0 <= (q - a) / d) by (apply div_ge; lra). lra. }
  exists (Z.to_nat z). assert (I : INR (Z.to_nat z) = IZR z) by (rewrite INR_IZR_INZ, Z2Nat.id by exact Z0; reflexivity). split.
  - apply INR_lt. rewrite I. replace (INR points) with 50001 by (rewrite points_Z, plus_INR, mult_INR, half_R; cbn; lra).
    assert ((q - a) / d <= 50000) by (apply div_le; [exact D|unfold d; lra]). lra.
  - unfold gridt. fold d. rewrite I. nra.
Qed.
Lemma fold_min l : forall m, (forall x, In x l -> m <= x) -> fold_left Rmin l m = m.
Proof. induction l as [|x l IH]; intros m H; [reflexivity|]. cbn. rewrite Rmin_left by (apply H; left; reflexivity). apply IH. intros; apply H; right; auto. Qed.
Lemma fold_max l M : forall m, In M (m :: l) -> (forall x, In x (m :: l) -> x <= M) -> fold_left Rmax l m = M.
Proof.
  induction l as [|x l IH]; intros m HI H; [destruct HI as [HI|[]]; exact HI|]. cbn. apply IH.
  - destruct HI as [->|[->|HI]]; [left; apply Rmax_left, H; right; left; reflexivity|left; apply Rmax_right, H; left; reflexivity|right; exact HI].
  - intros y [<-|Hy]; [apply Rmax_lub; apply H; [left|right; left]; reflexivity|apply H; right; right; exact Hy].
Qed.
Lemma logspace_In a b x : In x (logspace a b points) <-> exists i, (i < points)%nat /\ x = e10 (gridt a b i).
Proof.
  split.
  - intros H. apply In_nth_error in H as [i H]. rewrite logspace_nth in H. destruct (Nat.ltb_spec i points); [|discriminate]. exists i. split; [assumption|congruence].
  - intros (i & L & ->). apply nth_error_In with i. rewrite logspace_nth. apply Nat.ltb_lt in L. rewrite L. reflexivity.
Qed.
Lemma logspace_min a b : a < b -> list_min (logspace a b points) = e10 a.
Proof.
  intros H. assert (H0 : nth_error (logspace a b points) 0 = Some (e10 a)).
  { rewrite logspace_nth, gridt_0. pose proof points_pos. destruct (Nat.ltb_spec 0 points); [reflexivity|lia]. }
  assert (HI : forall x, In x (logspace a b points) -> e10 a <= x). { intros x Hx. apply logspace_In in Hx as (i & L & ->). apply e10_le. apply gridt_range; auto. }
  destruct (logspace a b points) as [|x l]; [discriminate|]. injection H0 as ->. cbn [list_min]. apply fold_min. intros y Hy. apply HI. right. exact Hy.
Qed.
Lemma logspace_max a b : a < b -> list_max (logspace a b points) = e10 b.
Proof.
  intros H. assert (H0 : In (e10 b) (logspace a b points)).
  { apply logspace_In. exists (points - 1)%nat. pose proof points_pos. split; [lia|]. rewrite gridt_last. reflexivity. }
  assert (HI : forall x, In x (logspace a b points) -> x <= e10 b). { intros x Hx. apply logspace_In in Hx as (i & L & ->). apply e10_le. apply gridt_range; auto. }
  destruct (logspace a b points) as [|x l]; [destruct H0|]. cbn [list_max]. apply fold_max; assumption.
Qed.

(** * The maximum *)
Lemma argmax_from l : forall k best, match nanargmax_from k best (map Some l) with
  | Some (i, m) => match best with Some (j, x) => (i, m) = (j, x) /\ (forall y, In y l -> y <= m) | None => False end \/
      (exists n, i = (k + n)%nat /\ nth_error l n = Some m /\ (forall y, In y l -> y <= m) /\ (forall n' y, (n' < n)%nat -> nth_error l n' = Some y -> y < m) /\
         match best with Some (_, x) => x < m | None => True end)
  | None => best = None /\ l = []
  end.
Proof.
  induction l as [|x l IH]; intros k best; cbn [map nanargmax_from].
  - destruct best as [[j m]|]; [left; split; [reflexivity|intros y []]|auto].
  - set (nb := match best with Some (_, m) => if rltb m x then Some (k, x) else best | None => Some (k, x) end).
    assert (C : (nb = Some (k, x) /\ match best with Some (_, m) => m < x | None => True end) \/ (nb = best /\ exists j m, best = Some (j, m) /\ x <= m)).
    { unfold nb. destruct best as [[j m]|]; [|left; auto]. destruct (rltb m x) eqn:E; [apply rltb_lt in E; auto|apply rltb_ge in E; right; eauto]. }
    specialize (IH (S k) nb). destruct (nanargmax_from (S k) nb (map Some l)) as [[i m]|].
    + destruct C as [[-> C]|[-> (j & m0 & -> & C)]].
      * right. destruct IH as [[E F]|(n & -> & N & F & G & B)].
        -- injection E as -> ->. exists 0%nat. split; [lia|]. split; [reflexivity|]. split; [intros y [<-|Hy]; [lra|auto]|]. split; [intros n' y Hn; lia|exact C].
        -- exists (S n). split; [lia|]. split; [exact N|]. split; [intros y [<-|Hy]; [lra|auto]|]. split.
           ++ intros [|n'] y Hn Hy; [injection Hy as <-; exact B|]. apply (G n' y); [lia|exact Hy].
           ++ destruct best as [[j0 m1]|]; [lra|exact I].
      * destruct IH as [[E F]|(n & -> & N & F & G & B)].
        -- injection E as -> ->. left. split; [reflexivity|]. intros y [<-|Hy]; auto.
        -- right. exists (S n). split; [lia|]. split; [exact N|]. split; [intros y [<-|Hy]; [lra|auto]|]. split; [|exact B].
           intros [|n'] y Hn Hy; [injection Hy as <-; lra|]. apply (G n' y); [lia|exact Hy].
    + destruct IH as [E _]. destruct C as [[-> _]|[-> (j & m0 & -> & _)]]; discriminate E.
Qed.
Lemma argmax_ok l : l <> [] -> exists i m, nanargmax (map Some l) = Ok i /\ nth_error l i = Some m /\ (forall y, In y l -> y <= m) /\
  (forall n y, (n < i)%nat -> nth_error l n = Some y -> y < m).
Proof.
  intros H. unfold nanargmax. pose proof (argmax_from l 0 None) as G. destruct (nanargmax_from 0 None (map Some l)) as [[i m]|]; [|destruct G as [_ G]; contradiction].
  destruct G as [[]|(n & -> & N & F & B & _)]. exists n, m. auto.
Qed.
(** the best grid point of a sampled response: the first with the largest value *)
Lemma best_sampled h resp a b : sampled h resp -> exists i, (i < points)%nat /\ best_in resp a b = Ok (e10 (gridt a b i)) /\
  (forall j, (j < points)%nat -> h (e10 (gridt a b j)) <= h (e10 (gridt a b i))) /\ (forall j, (j < i)%nat -> h (e10 (gridt a b j)) < h (e10 (gridt a b i))).
Proof.
  intros HS. unfold best_in. rewrite HS. cbn [bind]. pose proof points_pos as P.
  assert (NE : map h (logspace a b points) <> []).
  { intros E. apply map_eq_nil in E. pose proof (logspace_nth a b 0) as N. rewrite E in N. destruct (Nat.ltb_spec 0 points); [discriminate N|lia]. }
  destruct (argmax_ok _ NE) as (i & m & E & N & F & G). rewrite map_map in E. rewrite E. cbn [bind]. rewrite nth_error_map in N.
  rewrite logspace_nth in *. destruct (Nat.ltb_spec i points) as [L|L]; [|discriminate N]. cbn in N. injection N as <-. exists i. split; [exact L|]. split; [reflexivity|]. split.
  - intros j Hj. apply F. apply in_map. apply logspace_In. eauto.
  - intros j Hj. apply (G j); [exact Hj|]. rewrite nth_error_map, logspace_nth. destruct (Nat.ltb_spec j points); [reflexivity|lia].
Qed.
Lemma best_point resp a b x : best_in resp a b = Ok x -> exists i, (i < points)%nat /\ x = e10 (gridt a b i).
Proof.
  unfold best_in. destruct (resp _) as [y|]; [|discriminate]. cbn [bind]. destruct (nanargmax y) as [i|]; [|discriminate]. cbn [bind]. rewrite logspace_nth.
  destruct (Nat.ltb_spec i points) as [L|L]; [|discriminate]. intros E. injection E as <-. eauto.
Qed.

(** * One pass *)
Lemma pass resp k c s last : 0 < s -> search resp (S k) (c - s / 2) (c + s / 2) last = Some Unknown \/
  exists i, (i < points)%nat /\ let t := gridt (c - s / 2) (c + s / 2) i in best_in resp (c - s / 2) (c + s / 2) = Ok (e10 t) /\ c - s / 2 < t < c + s / 2 /\
    search resp (S k) (c - s / 2) (c + s / 2) last =
      if match last with Some p => rleb (Rabs (p - e10 t)) (1 / 100) | None => false end then Some (Freq (e10 t))
      else search resp k (t - (s / 2) / 2) (t + (s / 2) / 2) (Some (e10 t)).
Proof.
  intros Hs. cbn [search]. destruct (best_in resp (c - s / 2) (c + s / 2)) as [x|] eqn:E; [|left; reflexivity].
  destruct (best_point _ _ _ _ E) as (i & L & ->). set (t := gridt (c - s / 2) (c + s / 2) i) in *. rewrite logspace_min, logspace_max by lra.
  destruct (reqb (e10 t) (e10 (c - s / 2))) eqn:E1; [left; reflexivity|]. destruct (reqb (e10 t) (e10 (c + s / 2))) eqn:E2; [left; reflexivity|]. cbn [orb]. right. exists i.
  split; [exact L|]. cbv zeta. fold t. split; [reflexivity|]. apply reqb_ne in E1, E2. destruct (gridt_range (c - s / 2) (c + s / 2) i) as [R1 R2]; [lra|exact L|]. fold t in R1, R2.
  split. { split; [destruct R1 as [R1|R1]; [exact R1|]|destruct R2 as [R2|R2]; [exact R2|]]; exfalso; [apply E1|apply E2]; congruence. }
  rewrite log10_e10. replace (t - (c + s / 2 - (c - s / 2)) / 4) with (t - (s / 2) / 2) by field. replace (t + (c + s / 2 - (c - s / 2)) / 4) with (t + (s / 2) / 2) by field. reflexivity.
Qed.
Lemma search_more resp k : forall k' a b last r, (k <= k')%nat -> search resp k a b last = Some r -> search resp k' a b last = Some r.
Proof.
  induction k as [|k IH]; intros [|k'] a b last r L H; try discriminate; [lia|]. cbn [search] in *. destruct (best_in resp a b); [|exact H].
  destruct (_ || _); [exact H|]. destruct (match last with Some _ => _ | None => _ end); [exact H|]. apply IH; [lia|exact H].
Qed.

(** * The end of the search *)
Definition tiny : R := / (100 * e10 60 * ln 10).
Lemma tiny_pos : 0 < tiny.
Proof. apply Rinv_0_lt_compat. pose proof ln10_2. pose proof (e10_pos 60). nra. Qed.
Lemma close c t s : 0 < s <= tiny -> Rabs c + s <= 60 -> c - s / 2 < t < c + s / 2 -> Rabs (e10 c - e10 t) <= 1 / 100.
Proof.
  intros Hs Hc Ht. assert (G : forall u v, u <= v -> v <= 60 -> v - u <= tiny -> 0 <= e10 v - e10 u <= 1 / 100).
  { intros u v L V D. split; [apply e10_le in L; lra|]. pose proof ln10_2 as L2.
    assert (E : e10 u = e10 v * exp (- ((v - u) * ln 10))) by (rewrite e10_exp, e10_exp, <- exp_plus; f_equal; ring).
    rewrite E. pose proof (exp_lower (- ((v - u) * ln 10))) as X. pose proof (e10_pos v) as P. pose proof (e10_le v 60 V) as Q. pose proof (e10_pos 60) as P6.
    assert (M : e10 v * (1 - exp (- ((v - u) * ln 10))) <= e10 60 * ((v - u) * ln 10)).
    { apply Rle_trans with (e10 v * ((v - u) * ln 10)); [apply Rmult_le_compat_l; lra|]. apply Rmult_le_compat_r; [apply Rmult_le_pos; lra|exact Q]. }
    assert (N : e10 60 * ((v - u) * ln 10) <= e10 60 * (tiny * ln 10)) by (apply Rmult_le_compat_l; [lra|]; apply Rmult_le_compat_r; lra).
    assert (T : e10 60 * (tiny * ln 10) = 1 / 100) by (unfold tiny; field; lra). lra. }
  assert (B : - Rabs c <= c <= Rabs c) by (pose proof (Rabs_pos c); unfold Rabs; destruct (Rcase_abs c); lra).
  destruct (Rle_lt_dec c t) as [L|L].
  - destruct (G c t) as [G1 G2]; try lra. rewrite Rabs_minus_sym, Rabs_pos_eq; lra.
  - destruct (G t c) as [G1 G2]; try lra. rewrite Rabs_pos_eq; lra.
Qed.
Lemma pow2_big x : exists n, x <= 2 ^ n.
Proof.
  destruct (archimed x) as [H _]. set (n := Z.to_nat (up x)). assert (Hn : x < INR n).
  { unfold n. destruct (Z.le_gt_cases 0 (up x)) as [L|L]; [rewrite INR_IZR_INZ, Z2Nat.id by exact L; lra|]. apply IZR_lt in L. pose proof (pos_INR (Z.to_nat (up x))). lra. }
  exists n. assert (G : forall m, INR m <= 2 ^ m). { induction m as [|m IH]; [cbn; lra|]. rewrite S_INR. cbn [pow]. assert (1 <= 2 ^ m) by (apply pow_R1_Rle; lra). lra. }
  pose proof (G n). lra.
Qed.
Lemma ends_from resp N : forall s c, 0 < s <= tiny * 2 ^ N -> Rabs c + s <= 60 -> exists r, search resp (S N) (c - s / 2) (c + s / 2) (Some (e10 c)) = Some r.
Proof.
  induction N as [|N IH]; intros s c Hs Hc; (destruct (pass resp 0 c s (Some (e10 c))) as [E|(i & L & _ & Ht & E)]; [lra| |]).
  - eauto.
  - set (t := gridt _ _ i) in *. rewrite E. cbn [pow] in Hs. pose proof (close c t s ltac:(lra) Hc Ht) as K. apply rleb_le in K. rewrite K. eauto.
  - exists Unknown. eapply search_more; [|exact E]. lia.
  - clear i L E Ht. destruct (pass resp (S N) c s (Some (e10 c))) as [E|(i & L & _ & Ht & E)]; [lra|eauto|]. set (t := gridt _ _ i) in *. rewrite E.
    destruct (rleb _ _); [eauto|]. apply IH; [cbn [pow] in Hs; lra|]. assert (Rabs t <= Rabs c + s / 2); [|lra].
    replace t with (c + (t - c)) by ring. eapply Rle_trans; [apply Rabs_triang|]. assert (Rabs (t - c) <= s / 2) by (apply Rabs_le; lra). lra.
Qed.
Lemma passes_enough : exists N, 20 <= tiny * 2 ^ N.
Proof.
  destruct (pow2_big (20 / tiny)) as [N H]. exists N. pose proof tiny_pos as T. apply Rmult_le_compat_l with (r := tiny) in H; [|lra]. replace (tiny * (20 / tiny)) with 20 in H by (field; lra). exact H.
Qed.
Lemma search_ends resp : exists r, finds resp r.
Proof.
  destruct passes_enough as [N HN]. cut (exists r, search resp (S (S N)) (-20) 20 None = Some r).
  { intros [r H]. exists r, (S (S N)). intros k' Hk. cbn [reffreq]. eapply search_more; eauto. }
  replace (-20) with (0 - 40 / 2) by field. replace 20 with (0 + 40 / 2) by field. destruct (pass resp (S N) 0 40 None) as [E|(i & L & _ & Ht & E)]; [lra|eauto|].
  rewrite E. set (t := gridt _ _ i) in *. apply ends_from; [lra|]. assert (Rabs t <= 20) by (apply Rabs_le; lra). lra.
Qed.
