(** Abundance matching: proofs (C56, C64). *)
From Verif Require Import Util RealUtil AmModel AmSpec.
From Coq Require Import Reals Lra Lia Permutation Sorted.
Open Scope R_scope.

(** * Order *)
Lemma extb_elt a b : extb a b = true <-> elt a b.
Proof. destruct a, b; cbn; try apply rltb_lt; split; try discriminate; try tauto; auto. Qed.
Lemma extb_ele a b : extb a b = false <-> ele b a.
Proof.
  unfold ele. destruct a as [|x|], b as [|y|]; cbn; try (split; [discriminate|intros [H|H]; [destruct H|discriminate]]); try (split; auto; fail).
  rewrite rltb_ge. split; [intros [H|H]; subst; auto|intros [H|H]; [lra|injection H; lra]].
Qed.
Lemma elt_irr a : ~ elt a a. Proof. destruct a; cbn; auto. lra. Qed.
Lemma elt_trans a b c : elt a b -> elt b c -> elt a c.
Proof. destruct a, b, c; cbn; try tauto. lra. Qed.
Lemma elt_total a b : elt a b \/ a = b \/ elt b a.
Proof. destruct a as [|x|], b as [|y|]; cbn; auto. destruct (Rtotal_order x y) as [H|[H|H]]; auto. right; left; congruence. Qed.
Lemma ele_trans a b c : ele a b -> ele b c -> ele a c.
Proof. intros [H| ->] [K| <-]; unfold ele; auto. left. eapply elt_trans; eauto. Qed.
Lemma ele_refl a : ele a a. Proof. right; auto. Qed.
Lemma elt_ele a b c : elt a b -> ele b c -> elt a c.
Proof. intros H [K| <-]; auto. eapply elt_trans; eauto. Qed.
Lemma ele_elt a b c : ele a b -> elt b c -> elt a c.
Proof. intros [H| ->] K; auto. eapply elt_trans; eauto. Qed.
Lemma ele_Fin x y : ele (Fin x) (Fin y) <-> x <= y.
Proof. unfold ele. cbn. split; [intros [H|H]; [lra|injection H; lra]|]. intros [H| ->]; auto. Qed.

(** * Piecewise linear interpolation *)
Notation incr := (Sorted Rlt).
Notation nondec := (Sorted Rle).
Lemma sorted_cons2 (P : R -> R -> Prop) a b l : Sorted P (a :: b :: l) <-> P a b /\ Sorted P (b :: l).
Proof. split; [intros H; inversion H as [|? ? H1 H2]; inversion H2; auto|]. intros [H K]. constructor; auto. Qed.
Lemma nondec_last a l : nondec (a :: l) -> a <= last (a :: l) 0.
Proof.
  revert a. induction l as [|b l IH]; intros a H; [cbn; lra|]. apply sorted_cons2 in H. destruct H as [H K]. specialize (IH b K).
  change (last (a :: b :: l) 0) with (last (b :: l) 0). lra.
Qed.
Lemma incr_nondec l : incr l -> nondec l.
Proof. induction 1 as [|a l H IH K]; constructor; auto. destruct K; constructor. lra. Qed.
Lemma slope x0 x1 y0 y1 x : x0 < x < x1 -> y0 < y1 -> y0 < (y1 - y0) / (x1 - x0) * (x - x0) + y0 < y1.
Proof.
  intros Hx Hy. assert (E : (y1 - y0) / (x1 - x0) * (x - x0) = (y1 - y0) * ((x - x0) / (x1 - x0))) by (field; lra). rewrite E.
  assert (0 < (x - x0) / (x1 - x0)) by (apply Rdiv_lt_0_compat; lra).
  assert ((x - x0) / (x1 - x0) < 1) by (apply (Rmult_lt_reg_r (x1 - x0)); [lra|]; unfold Rdiv; rewrite Rmult_assoc, Rinv_l by lra; lra). nra.
Qed.
Lemma seg_cons x x0 x1 xr y0 y1 yr : seg x (x0 :: x1 :: xr) (y0 :: y1 :: yr) =
  if rleb x1 x then seg x (x1 :: xr) (y1 :: yr) else if reqb x x0 then y0 else (y1 - y0) / (x1 - x0) * (x - x0) + y0.
Proof. reflexivity. Qed.
Lemma seg_range xp : forall fp x, nondec xp -> incr fp -> length xp = length fp -> xp <> [] -> hd 0 xp <= x <= last xp 0 ->
  hd 0 fp <= seg x xp fp <= last fp 0.
Proof.
  induction xp as [|x0 xp IH]; intros fp x Hx Hf L N Hr; [congruence|]. destruct fp as [|y0 fp]; [discriminate|].
  destruct xp as [|x1 xp]; destruct fp as [|y1 fp]; try discriminate; [cbn; lra|].
  pose proof Hx as Hx'. pose proof Hf as Hf'. apply sorted_cons2 in Hx. apply sorted_cons2 in Hf. destruct Hx as [X1 X2], Hf as [F1 F2].
  change (last (x0 :: x1 :: xp) 0) with (last (x1 :: xp) 0) in Hr. change (last (y0 :: y1 :: fp) 0) with (last (y1 :: fp) 0).
  pose proof (nondec_last y1 fp (incr_nondec _ F2)) as Ly. cbn [hd] in *. rewrite ?seg_cons. destruct (rleb x1 x) eqn:E1.
  - apply rleb_le in E1. specialize (IH (y1 :: fp) x X2 F2). cbn [hd] in IH. assert (y1 <= seg x (x1 :: xp) (y1 :: fp) <= last (y1 :: fp) 0); [|lra].
    apply IH; [cbn in *; lia|discriminate|lra].
  - apply rleb_gt in E1. destruct (reqb x x0) eqn:E2; [lra|]. apply reqb_ne in E2. pose proof (slope x0 x1 y0 y1 x). lra.
Qed.
Lemma seg_mono xp : forall fp x x', nondec xp -> incr fp -> length xp = length fp -> hd 0 xp <= x -> x < x' -> x' <= last xp 0 -> xp <> [] -> seg x xp fp < seg x' xp fp.
Proof.
  induction xp as [|x0 xp IH]; intros fp x x' Hx Hf L H1 H2 H3 N; [congruence|]. destruct fp as [|y0 fp]; [discriminate|].
  destruct xp as [|x1 xp]; destruct fp as [|y1 fp]; try discriminate; [cbn in *; lra|].
  apply sorted_cons2 in Hx. apply sorted_cons2 in Hf. destruct Hx as [X1 X2], Hf as [F1 F2].
  change (last (x0 :: x1 :: xp) 0) with (last (x1 :: xp) 0) in H3. cbn [hd] in *. rewrite ?seg_cons.
  assert (R : forall z, x1 <= z <= last (x1 :: xp) 0 -> y1 <= seg z (x1 :: xp) (y1 :: fp)).
  { intros z Hz. pose proof (seg_range (x1 :: xp) (y1 :: fp) z X2 F2) as Q. cbn [hd] in Q. apply Q; [cbn in *; lia|discriminate|auto]. }
  destruct (rleb x1 x) eqn:E1; destruct (rleb x1 x') eqn:E2.
  - apply rleb_le in E1, E2. apply IH; auto; discriminate.
  - apply rleb_le in E1. apply rleb_gt in E2. lra.
  - apply rleb_le in E2. apply rleb_gt in E1. specialize (R x' (conj E2 H3)). destruct (reqb x x0) eqn:E3; [lra|]. apply reqb_ne in E3. pose proof (slope x0 x1 y0 y1 x). lra.
  - apply rleb_gt in E1, E2. destruct (reqb x' x0) eqn:E4; [apply reqb_eq in E4; lra|]. pose proof (slope x0 x1 y0 y1 x'). destruct (reqb x x0) eqn:E3; [lra|]. apply reqb_ne in E3.
    apply Rplus_lt_compat_r. apply Rmult_lt_compat_l; [|lra]. apply Rdiv_lt_0_compat; lra.
Qed.
Lemma seg_hd xp fp : incr xp -> length xp = length fp -> seg (hd 0 xp) xp fp = hd 0 fp.
Proof.
  intros H L. destruct xp as [|x0 xp]; destruct fp as [|y0 fp]; try discriminate; [reflexivity|]. destruct xp as [|x1 xp]; destruct fp as [|y1 fp]; try discriminate; [reflexivity|].
  apply sorted_cons2 in H. destruct H as [H _]. rewrite seg_cons. cbn [hd].
  replace (rleb x1 x0) with false by (symmetry; apply rleb_gt; auto). replace (reqb x0 x0) with true by (symmetry; apply reqb_eq; auto). reflexivity.
Qed.
(** past the last abscissa *)
Lemma seg_last xp : forall fp x, length xp = length fp -> xp <> [] -> nondec xp -> last xp 0 <= x -> seg x xp fp = last fp 0.
Proof.
  induction xp as [|x0 xp IH]; intros fp x L N Hx Hl; [congruence|]. destruct fp as [|y0 fp]; [discriminate|].
  destruct xp as [|x1 xp]; destruct fp as [|y1 fp]; try discriminate; [reflexivity|].
  apply sorted_cons2 in Hx. destruct Hx as [X1 X2]. change (last (x0 :: x1 :: xp) 0) with (last (x1 :: xp) 0) in Hl. rewrite ?seg_cons.
  pose proof (nondec_last x1 xp X2). replace (rleb x1 x) with true by (symmetry; apply rleb_le; lra).
  change (last (y0 :: y1 :: fp) 0) with (last (y1 :: fp) 0). apply IH; auto; discriminate.
Qed.
Lemma seg_inverse xp : forall fp x, nondec xp -> incr fp -> length xp = length fp -> xp <> [] -> hd 0 xp <= x <= last xp 0 -> seg (seg x xp fp) fp xp = x.
Proof.
  induction xp as [|x0 xp IH]; intros fp x Hx Hf L N Hr; [congruence|]. destruct fp as [|y0 fp]; [discriminate|].
  destruct xp as [|x1 xp]; destruct fp as [|y1 fp]; try discriminate; [cbn in *; lra|].
  apply sorted_cons2 in Hx. apply sorted_cons2 in Hf. destruct Hx as [X1 X2], Hf as [F1 F2].
  change (last (x0 :: x1 :: xp) 0) with (last (x1 :: xp) 0) in Hr. cbn [hd] in *. rewrite ?seg_cons. destruct (rleb x1 x) eqn:E1.
  - apply rleb_le in E1. pose proof (seg_range (x1 :: xp) (y1 :: fp) x X2 F2) as Q. cbn [hd] in Q. assert (L2 : length (x1 :: xp) = length (y1 :: fp)) by (cbn in *; lia).
    assert (Q1 : y1 <= seg x (x1 :: xp) (y1 :: fp)) by (apply Q; auto; [discriminate|lra]).
    replace (rleb y1 _) with true by (symmetry; apply rleb_le; auto). apply IH; auto; [discriminate|]. cbn [hd]. lra.
  - apply rleb_gt in E1. destruct (reqb x x0) eqn:E2.
    + apply reqb_eq in E2. subst x. replace (rleb y1 y0) with false by (symmetry; apply rleb_gt; auto). replace (reqb y0 y0) with true by (symmetry; apply reqb_eq; auto). auto.
    + apply reqb_ne in E2. pose proof (slope x0 x1 y0 y1 x) as S. set (y := (y1 - y0) / (x1 - x0) * (x - x0) + y0) in *.
      replace (rleb y1 y) with false by (symmetry; apply rleb_gt; lra). replace (reqb y y0) with false by (symmetry; apply reqb_ne; lra). unfold y. field. lra.
Qed.

(** * Sorting and linspace *)
Lemma rinsert_perm x l : Permutation (rinsert x l) (x :: l).
Proof. induction l as [|a l IH]; cbn; auto. destruct (rleb x a); auto. rewrite IH. apply perm_swap. Qed.
Lemma rsort_perm l : Permutation (rsort l) l.
Proof. induction l as [|a l IH]; cbn; auto. rewrite rinsert_perm. auto. Qed.
Lemma rinsert_sorted x l : nondec l -> nondec (rinsert x l).
Proof.
  induction l as [|a l IH]; cbn; intros H; [repeat constructor|]. destruct (rleb x a) eqn:E.
  - apply rleb_le in E. constructor; auto.
  - apply rleb_gt in E. inversion H as [|? ? H1 H2]; subst. constructor; [apply IH; auto|].
    destruct l as [|b l]; cbn; [constructor; lra|]. inversion H2; subst. destruct (rleb x b); constructor; lra.
Qed.
Lemma rsort_sorted l : nondec (rsort l).
Proof. induction l; cbn; [constructor|]. apply rinsert_sorted; auto. Qed.
Lemma nondec_ends l : nondec l -> forall a, In a l -> hd 0 l <= a <= last l 0.
Proof.
  induction l as [|x l IH]; intros H a Ha; [destruct Ha|]. pose proof (nondec_last x l H) as Hl. destruct l as [|y l].
  - destruct Ha as [->|[]]. cbn. lra.
  - apply sorted_cons2 in H. destruct H as [H1 H2]. change (last (x :: y :: l) 0) with (last (y :: l) 0) in *. cbn [hd].
    destruct Ha as [->|Ha]; [lra|]. specialize (IH H2 a Ha). cbn [hd] in IH. lra.
Qed.
Lemma hd_in (l : list R) : l <> [] -> In (hd 0 l) l. Proof. destruct l; [congruence|left; auto]. Qed.
Lemma last_in (l : list R) : l <> [] -> In (last l 0) l.
Proof. induction l as [|a l IH]; [congruence|]. intros _. destruct l as [|b l]; [left; auto|]. right. apply IH. discriminate. Qed.
Lemma nondec_nodup l : nondec l -> NoDup l -> incr l.
Proof.
  induction l as [|a l IH]; intros H N; [constructor|]. inversion N as [|? ? N1 N2]; subst. destruct l as [|b l]; [repeat constructor|]. apply sorted_cons2 in H. destruct H as [H1 H2].
  apply sorted_cons2. split; [|apply IH; auto]. destruct H1 as [H1|H1]; auto. subst. exfalso. apply N1. left. auto.
Qed.
Lemma linspace_length a b n : length (linspace a b n) = n.
Proof. unfold linspace. rewrite map_length, seq_length. auto. Qed.
Lemma map_seq_sorted (f : nat -> R) n : (forall i, f i < f (S i)) -> forall k, incr (map f (seq k n)).
Proof.
  intros H. induction n as [|n IH]; intros k; cbn; [constructor|]. constructor; auto. destruct n; cbn; constructor. auto.
Qed.
Lemma linspace_incr a b n : a < b -> incr (linspace a b n).
Proof.
  intros H. destruct n as [|[|n]]; [constructor|repeat constructor|]. apply map_seq_sorted. intros i. rewrite S_INR.
  assert (0 < (b - a) / INR (S (S n) - 1)); [|lra]. apply Rdiv_lt_0_compat; [lra|]. apply lt_0_INR. lia.
Qed.
Lemma nth_linspace a b n k : (k < n)%nat -> nth k (linspace a b n) 0 = a + INR k * ((b - a) / INR (n - 1)).
Proof.
  intros H. unfold linspace. set (f := fun i => _). rewrite (nth_indep _ 0 (f 0%nat)) by (rewrite map_length, seq_length; auto).
  rewrite map_nth, seq_nth by auto. reflexivity.
Qed.
Lemma linspace_hd a b n : (0 < n)%nat -> hd 0 (linspace a b n) = a.
Proof. destruct n; [lia|]. intros _. cbn [linspace seq map hd INR]. lra. Qed.
Lemma linspace_last a b n : (2 <= n)%nat -> last (linspace a b n) 0 = b.
Proof.
  intros H. unfold linspace. destruct n as [|n]; [lia|]. rewrite seq_S, map_app. cbn [map]. rewrite last_last. cbn [Nat.add]. replace (S n - 1)%nat with n by lia.
  field. apply not_0_INR. lia.
Qed.

(** * The distribution functions *)
Section Rv.
Context (D : rv) (lo hi : ext) (Gd : good_rv D lo hi).
Lemma rv_mass : cdf D lo < cdf D hi.
Proof. apply (g_mono _ _ _ Gd); [apply ele_refl|apply Gd|apply ele_refl]. Qed.
Lemma rv_le x y : ele lo x -> ele x y -> ele y hi -> cdf D x <= cdf D y.
Proof. intros H [K| ->] L; [|lra]. left. apply (g_mono _ _ _ Gd); auto. Qed.
Lemma rv_back x : ele lo x -> ele x hi -> ppf D (cdf D x) = x.
Proof.
  intros H K. destruct (g_inv _ _ _ Gd (cdf D x)) as (A & B & C).
  { split; apply rv_le; auto using ele_refl. }
  destruct (elt_total (ppf D (cdf D x)) x) as [E|[E|E]]; auto.
  - pose proof (g_mono _ _ _ Gd _ _ A E K). lra.
  - pose proof (g_mono _ _ _ Gd _ _ H E B). lra.
Qed.
Lemma ppf_mono c c' : cdf D lo <= c -> c < c' -> c' <= cdf D hi -> elt (ppf D c) (ppf D c').
Proof.
  intros H1 H2 H3. destruct (g_inv _ _ _ Gd c) as (A & B & C); [lra|]. destruct (g_inv _ _ _ Gd c') as (A' & B' & C'); [lra|].
  destruct (elt_total (ppf D c) (ppf D c')) as [E|[E|E]]; auto; exfalso.
  - rewrite E in C. lra.
  - pose proof (g_mono _ _ _ Gd _ _ A' E B). lra.
Qed.

Context (low high : R) (Hm : low + high < 1).
(** the share of the distribution below [c], and back *)
Definition star c := (c - low) / (1 - high - low) * (cdf D hi - cdf D lo) / 1 + cdf D lo.
Lemma star_range c : low <= c <= 1 - high -> cdf D lo <= star c <= cdf D hi.
Proof.
  intros H. unfold star. pose proof rv_mass. assert (0 <= (c - low) / (1 - high - low) <= 1).
  { split; [apply Rmult_le_pos; [lra|left; apply Rinv_0_lt_compat; lra]|]. apply (Rmult_le_reg_r (1 - high - low)); [lra|]. unfold Rdiv. rewrite Rmult_assoc, Rinv_l by lra. lra. }
  unfold Rdiv at 1 3. rewrite Rinv_1, Rmult_1_r. nra.
Qed.
Lemma star_mono c c' : c < c' -> star c < star c'.
Proof.
  intros H. unfold star. pose proof rv_mass. unfold Rdiv. rewrite Rinv_1, !Rmult_1_r. apply Rplus_lt_compat_r. apply Rmult_lt_compat_r; [lra|]. apply Rmult_lt_compat_r; [apply Rinv_0_lt_compat; lra|lra].
Qed.
Definition share p := low + (cdf D p - cdf D lo) / (cdf D hi - cdf D lo) * (1 - high - low).
Lemma star_share p : star (share p) = cdf D p.
Proof. unfold star, share. pose proof rv_mass. field. lra. Qed.
Lemma share_star c v : cdf D v = star c -> share v = c.
Proof. intros E. unfold share. rewrite E. unfold star. pose proof rv_mass. field. lra. Qed.
Lemma share_range p : ele lo p -> ele p hi -> low <= share p <= 1 - high.
Proof.
  intros H1 H2. unfold share. pose proof rv_mass. pose proof (rv_le lo p (ele_refl _) H1 H2). pose proof (rv_le p hi H1 H2 (ele_refl _)).
  assert (0 <= (cdf D p - cdf D lo) / (cdf D hi - cdf D lo) <= 1).
  { split; [apply Rmult_le_pos; [lra|left; apply Rinv_0_lt_compat; lra]|]. apply (Rmult_le_reg_r (cdf D hi - cdf D lo)); [lra|]. unfold Rdiv. rewrite Rmult_assoc, Rinv_l by lra. lra. }
  nra.
Qed.
Lemma share_mono p p' : ele lo p -> elt p p' -> ele p' hi -> share p < share p'.
Proof.
  intros H1 H2 H3. unfold share. pose proof rv_mass. pose proof (g_mono _ _ _ Gd p p' H1 H2 H3). apply Rplus_lt_compat_l. apply Rmult_lt_compat_r; [lra|].
  apply Rmult_lt_compat_r; [apply Rinv_0_lt_compat; lra|lra].
Qed.
Lemma share_lo : share lo = low. Proof. unfold share. pose proof rv_mass. field. lra. Qed.
Lemma share_hi : share hi = 1 - high. Proof. unfold share. pose proof rv_mass. field. lra. Qed.

Lemma cdf_in p : ele lo p -> ele p hi -> cdf_func D lo hi low high p = Some (share p).
Proof.
  intros H1 H2. unfold cdf_func. apply extb_ele in H1. apply extb_ele in H2. rewrite H1, H2. pose proof rv_mass.
  replace (reqb _ 0) with false by (symmetry; apply reqb_ne; lra). reflexivity.
Qed.
Definition in_band (arr : bool) c := if arr then low < c < 1 - high else low <= c <= 1 - high.
Lemma ppf_in arr fl fh c : in_band arr c -> ppf_func arr D lo hi low high fl fh (Some c) = Some (ppf D (star c)).
Proof.
  intros H. unfold ppf_func. fold (star c).
  replace (rltb c low) with false by (symmetry; apply rltb_ge; destruct arr; cbn in H; lra).
  replace (rltb (1 - high) c) with false by (symmetry; apply rltb_ge; destruct arr; cbn in H; lra).
  destruct arr; cbn in H.
  - replace (rltb low c) with true by (symmetry; apply rltb_lt; lra). replace (rltb c (1 - high)) with true by (symmetry; apply rltb_lt; lra). reflexivity.
  - replace (reqb _ 0) with false by (symmetry; apply reqb_ne; lra). reflexivity.
Qed.
Lemma ppf_edge fl fh c : c = low \/ c = 1 - high -> ppf_func true D lo hi low high fl fh (Some c) = Some (Fin 0).
Proof.
  intros H. unfold ppf_func. replace (rltb c low) with false by (symmetry; apply rltb_ge; lra).
  replace (rltb (1 - high) c) with false by (symmetry; apply rltb_ge; lra).
  replace (rltb low c && rltb c (1 - high))%bool with false; auto. symmetry. apply Bool.andb_false_iff. rewrite !rltb_ge. lra.
Qed.
Lemma ppf_star_in c : low <= c <= 1 - high -> ele lo (ppf D (star c)) /\ ele (ppf D (star c)) hi /\ share (ppf D (star c)) = c.
Proof. intros H. destruct (g_inv _ _ _ Gd (star c) (star_range c H)) as (A & B & C). split; auto. split; auto. apply share_star. auto. Qed.
Lemma ppf_star_mono c c' : low <= c -> c < c' -> c' <= 1 - high -> elt (ppf D (star c)) (ppf D (star c')).
Proof. intros. apply ppf_mono; [apply star_range; lra|apply star_mono; lra|apply star_range; lra]. Qed.
End Rv.

Lemma reqb_refl x : reqb x x = true. Proof. apply reqb_eq. auto. Qed.
Lemma interp_in {X} (num : R -> X) r xp fp l h : hd 0 xp <= r <= last xp 0 -> interp num (Fin r) xp fp l h = num (seg r xp fp).
Proof.
  intros H. unfold interp. cbn [extb]. replace (rltb r _) with false by (symmetry; apply rltb_ge; lra).
  replace (rltb (last xp 0) r) with false by (symmetry; apply rltb_ge; lra). reflexivity.
Qed.
Lemma interp_low {X} (num : R -> X) x xp fp l h : elt x (Fin (hd 0 xp)) -> interp num x xp fp l h = l.
Proof. intros H. unfold interp. apply extb_elt in H. rewrite H. auto. Qed.
Lemma interp_high {X} (num : R -> X) x xp fp l h : hd 0 xp <= last xp 0 -> elt (Fin (last xp 0)) x -> interp num x xp fp l h = h.
Proof.
  intros K H. unfold interp. pose proof H as H'. apply extb_elt in H'. rewrite H'.
  replace (extb x _) with false; auto. symmetry. apply extb_ele. left. apply (ele_elt _ (Fin (last xp 0))); auto. apply ele_Fin. auto.
Qed.
Lemma check_masses_ok m : check_masses m = Ok tt <->
  (0 <= low1 m <= 1 /\ 0 <= low2 m <= 1 /\ 0 <= high1 m <= 1 /\ 0 <= high2 m <= 1 /\ low1 m + high1 m <= 1 /\ low2 m + high2 m <= 1).
Proof.
  unfold check_masses, check. cbn [existsb]. rewrite !Bool.orb_false_r.
  destruct (rltb 1 (low1 m)) eqn:A1; destruct (rltb 1 (low2 m)) eqn:A2; destruct (rltb 1 (high1 m)) eqn:A3; destruct (rltb 1 (high2 m)) eqn:A4;
  destruct (rltb (low1 m) 0) eqn:B1; destruct (rltb (low2 m) 0) eqn:B2; destruct (rltb (high1 m) 0) eqn:B3; destruct (rltb (high2 m) 0) eqn:B4;
  destruct (rltb 1 (low1 m + high1 m)) eqn:C1; destruct (rltb 1 (low2 m + high2 m)) eqn:C2; cbn;
  repeat match goal with H : rltb _ _ = true |- _ => apply rltb_lt in H | H : rltb _ _ = false |- _ => apply rltb_ge in H end;
  split; intros H; try discriminate; try reflexivity; lra.
Qed.
Lemma filler_asked e flat v : filler e flat = Ok v -> asked_fill e flat v.
Proof. destruct e; cbn; congruence. Qed.

Definition turnd (rev : bool) c := if rev then 1 - c else c.
Lemma turn_turned rev c : turn rev (Some c) = Some (turnd rev c). Proof. unfold turn, turnd. destruct rev; auto. Qed.
Lemma turned_back rev c : turnd rev (turnd rev c) = c. Proof. unfold turnd. destruct rev; lra. Qed.
Lemma turned_band m rev arr c : matched m rev -> in_band (low1 m) (high1 m) arr c <-> in_band (low2 m) (high2 m) arr (turnd rev c).
Proof. intros [_ H]. unfold turnd. destruct rev, arr; cbn; lra. Qed.
Lemma mass2 m rev : matched m rev -> low2 m + high2 m < 1. Proof. intros [H K]. destruct rev; lra. Qed.
Lemma band_le l h arr c : in_band l h arr c -> l <= c <= 1 - h. Proof. destruct arr; cbn; lra. Qed.

(** * Matching a catalogue *)
Section Cat.
Context (cat : list R) (D : rv) (lo hi : ext) (m : masses) (e : modes) (rev : bool) (rel : relation).
Context (HR : am_dfcat cat D lo hi m e rev = Ok rel).
Notation o := (rsort cat).
Notation c1 := (linspace (low1 m) (1 - high1 m) (length (rsort cat))).
Lemma cat_rel : check_masses m = Ok tt /\ cat <> [] /\ exists f,
  asked_fill (e_low1 e) (Fin (hd 0 o)) (f_low1 f) /\ asked_fill (e_high1 e) (Fin (last o 0)) (f_high1 f) /\ asked_fill (e_low2 e) lo (f_low2 f) /\ asked_fill (e_high2 e) hi (f_high2 f) /\
  (forall arr p, p2ofp1 rel arr p = ppf_func arr D lo hi (low2 m) (high2 m) (f_low2 f) (f_high2 f) (turn rev (Some (interp (fun y => y) p o c1 0 1)))) /\
  (forall arr p, p1ofp2 rel arr p = match turn rev (cdf_func D lo hi (low2 m) (high2 m) p) with None => None | Some x => interp (fun y => Some (Fin y)) (Fin x) c1 o (f_low1 f) (f_high1 f) end).
Proof.
  unfold am_dfcat in HR. destruct (check_masses m) as [[]|] eqn:Em; [|discriminate]. cbn [bind] in HR. split; auto.
  destruct cat as [|a l] eqn:Ec; [discriminate|]. split; [discriminate|]. rewrite <- Ec in *. cbn [length Nat.eqb negb check bind] in HR.
  replace (length cat =? 0)%nat with false in HR by (rewrite Ec; reflexivity). cbn [negb check bind] in HR. unfold fillers in HR.
  destruct (filler (e_low1 e) _) as [w|] eqn:F1; [|discriminate]. destruct (filler (e_high1 e) _) as [x|] eqn:F2; [|discriminate].
  destruct (filler (e_low2 e) _) as [y|] eqn:F3; [|discriminate]. destruct (filler (e_high2 e) _) as [z|] eqn:F4; [|discriminate]. cbn [bind] in HR.
  injection HR as <-. exists (mkFills w x y z). cbn [f_low1 f_high1 f_low2 f_high2 p2ofp1 p1ofp2]. repeat split; apply filler_asked; auto.
Qed.
Lemma o_ne : o <> [].
Proof. destruct cat_rel as (_ & N & _). intros E. apply N. apply Permutation_nil. rewrite <- E. apply rsort_perm. Qed.
Lemma c1_len : length o = length c1. Proof. symmetry. apply linspace_length. Qed.
Lemma o_len : (0 < length o)%nat. Proof. pose proof o_ne. destruct o; [congruence|cbn; lia]. Qed.
Lemma c1_ne : c1 <> [].
Proof. pose proof c1_len. pose proof o_len. intros E. rewrite E in *. cbn in *. lia. Qed.
Lemma c1_hd : hd 0 c1 = low1 m. Proof. apply linspace_hd, o_len. Qed.
Lemma c1_last : low1 m + high1 m <= 1 -> last c1 0 <= 1 - high1 m /\ ((2 <= length o)%nat -> last c1 0 = 1 - high1 m).
Proof.
  intros H. split; [|apply linspace_last]. destruct (le_lt_dec 2 (length o)) as [L|L]; [rewrite linspace_last; auto; lra|].
  pose proof o_len. replace (length o) with 1%nat by lia. cbn. lra.
Qed.
Lemma min_in : In (hd 0 o) cat. Proof. apply (Permutation_in _ (rsort_perm cat)), hd_in, o_ne. Qed.
Lemma max_in : In (last o 0) cat. Proof. apply (Permutation_in _ (rsort_perm cat)), last_in, o_ne. Qed.
Lemma cat_ends q : In q cat -> hd 0 o <= q <= last o 0.
Proof. intros H. apply nondec_ends; [apply rsort_sorted|]. apply (Permutation_in _ (Permutation_sym (rsort_perm cat))). auto. Qed.
Lemma inside_ends arr p : inside arr cat p -> if arr then hd 0 o < p < last o 0 else hd 0 o <= p <= last o 0.
Proof. intros (a & b & Ha & Hb & H). apply cat_ends in Ha. apply cat_ends in Hb. destruct arr; lra. Qed.
Lemma inside_le arr p : inside arr cat p -> hd 0 o <= p <= last o 0.
Proof. intros H. apply inside_ends in H. destruct arr; lra. Qed.

Context (Gd : good_rv D lo hi) (Hm : matched m rev).
Definition cum p := seg p o c1.
Lemma c1_incr : incr c1. Proof. apply linspace_incr. destruct Hm. lra. Qed.
Lemma o_nondec : nondec o. Proof. apply rsort_sorted. Qed.
Lemma cum_range p : hd 0 o <= p <= last o 0 -> hd 0 c1 <= cum p <= last c1 0.
Proof. intros H. apply seg_range; auto using c1_incr, o_nondec, c1_len, o_ne. Qed.
Lemma cum_band arr p : inside arr cat p -> in_band (low1 m) (high1 m) arr (cum p).
Proof.
  intros H. pose proof (inside_ends _ _ H) as K. pose proof (inside_le _ _ H) as K'. pose proof (cum_range p K') as Q. rewrite c1_hd in Q.
  destruct Hm as [Hm1 Hm2]. destruct (c1_last ltac:(lra)) as [L1 _]. destruct arr; cbn [in_band]; [|lra].
  assert (Qh : hd 0 c1 <= cum (hd 0 o)) by (apply cum_range; lra). assert (Ql : cum (last o 0) <= last c1 0) by (apply cum_range; lra). rewrite c1_hd in Qh.
  assert (cum (hd 0 o) < cum p) by (apply seg_mono; auto using c1_incr, o_nondec, c1_len, o_ne; lra).
  assert (cum p < cum (last o 0)) by (apply seg_mono; auto using c1_incr, o_nondec, c1_len, o_ne; lra). lra.
Qed.
Lemma cum_mono p p' : hd 0 o <= p -> p < p' -> p' <= last o 0 -> cum p < cum p'.
Proof. intros. apply seg_mono; auto using c1_incr, o_nondec, c1_len, o_ne. Qed.
Notation turned := (turnd rev).
Definition p2v p := ppf D (star D lo hi (low2 m) (high2 m) (turned (cum p))).
Lemma cat_p2 arr p : inside arr cat p -> p2ofp1 rel arr (Fin p) = Some (p2v p).
Proof.
  intros H. destruct cat_rel as (_ & _ & f & _ & _ & _ & _ & E & _). rewrite E, (interp_in (fun y => y)) by (eapply inside_le; eauto). rewrite turn_turned.
  apply ppf_in; [apply (mass2 m rev Hm)|]. apply (turned_band m rev arr _ Hm), cum_band. auto.
Qed.
Lemma cat_p2_range arr p : inside arr cat p -> ele lo (p2v p) /\ ele (p2v p) hi /\ share D lo hi (low2 m) (high2 m) (p2v p) = turned (cum p).
Proof. intros H. apply ppf_star_in; auto using (mass2 m rev Hm). apply (band_le _ _ arr). apply (turned_band m rev arr _ Hm), cum_band. auto. Qed.
Lemma cat_order arr p p' : inside arr cat p -> inside arr cat p' -> p < p' -> ordered rev (p2v p) (p2v p').
Proof.
  intros H H' L. pose proof (inside_le _ _ H). pose proof (inside_le _ _ H'). assert (C : cum p < cum p') by (apply cum_mono; lra).
  pose proof (band_le _ _ arr _ (proj1 (turned_band m rev arr _ Hm) (cum_band arr p H))) as B. pose proof (band_le _ _ arr _ (proj1 (turned_band m rev arr _ Hm) (cum_band arr p' H'))) as B'.
  unfold ordered, p2v. unfold turnd in *. pose proof (mass2 m rev Hm). destruct rev; apply ppf_star_mono; auto; lra.
Qed.
Lemma cat_back arr arr' p : inside arr cat p -> p1ofp2 rel arr' (p2v p) = Some (Fin p).
Proof.
  intros H. destruct cat_rel as (_ & _ & f & _ & _ & _ & _ & _ & E). rewrite E. destruct (cat_p2_range _ _ H) as (A & B & C).
  rewrite (cdf_in D lo hi Gd) by auto. rewrite C, turn_turned, turned_back. pose proof (inside_le _ _ H) as K.
  rewrite interp_in by (apply cum_range; auto). unfold cum. rewrite seg_inverse; auto using c1_incr, o_nondec, c1_len, o_ne.
Qed.
Lemma cat_round arr p2 : NoDup cat -> (2 <= length cat)%nat -> inlims arr lo hi p2 -> exists p1,
  p1ofp2 rel arr p2 = Some (Fin p1) /\ inside false cat p1 /\ p2ofp1 rel arr (Fin p1) = Some p2.
Proof.
  intros N L B. destruct cat_rel as (_ & _ & f & _ & _ & _ & _ & E2 & E1).
  assert (Bl : ele lo p2 /\ ele p2 hi) by (destruct arr; cbn in B; [destruct B; split; left; auto|auto]). destruct Bl as [Bl Bh].
  pose proof (mass2 m rev Hm) as M2. set (c := share D lo hi (low2 m) (high2 m) p2) in *.
  assert (Bd : in_band (low2 m) (high2 m) arr c).
  { destruct arr; cbn [in_band]; [|apply share_range; auto]. destruct B as [B1 B2]. unfold c. rewrite <- (share_lo D lo hi Gd (low2 m) (high2 m)), <- (share_hi D lo hi Gd (low2 m) (high2 m)) at 1.
    split; [rewrite share_lo by auto; rewrite <- (share_lo D lo hi Gd (low2 m) (high2 m)) at 1; apply share_mono; auto using ele_refl|apply share_mono; auto using ele_refl]. }
  assert (Lo : (2 <= length o)%nat) by (rewrite (Permutation_length (rsort_perm cat)); auto).
  assert (No : incr o). { apply nondec_nodup; [apply o_nondec|]. apply (Permutation_NoDup (Permutation_sym (rsort_perm cat))). auto. }
  assert (Bt : in_band (low1 m) (high1 m) arr (turned c)) by (apply (turned_band m rev arr _ Hm); rewrite turned_back; auto). apply band_le in Bt.
  destruct Hm as [Hm1 Hm2]. destruct (c1_last ltac:(lra)) as [_ Lc]. specialize (Lc Lo). pose proof c1_hd as Hc.
  pose proof (seg_range c1 o (turned c) (incr_nondec _ c1_incr) No (eq_sym c1_len) c1_ne ltac:(lra)) as Q.
  exists (seg (turned c) c1 o). split; [|split].
  - rewrite E1, (cdf_in D lo hi Gd) by auto. fold c. rewrite turn_turned, interp_in; auto. lra.
  - exists (hd 0 o), (last o 0). split; [apply min_in|]. split; [apply max_in|]. auto.
  - rewrite E2, interp_in by auto. rewrite (seg_inverse c1 o); auto using c1_ne, incr_nondec, c1_incr, (eq_sym c1_len); [|lra].
    rewrite turn_turned, turned_back. rewrite ppf_in by auto. f_equal. unfold c. rewrite star_share by auto. apply (rv_back D lo hi); auto.
Qed.

(** the ends of the catalogue, in an array *)
Lemma cat_ends_zero p : In p cat -> ((forall q, In q cat -> p <= q) \/ (forall q, In q cat -> q <= p)) -> NoDup cat -> (2 <= length cat)%nat ->
  p2ofp1 rel true (Fin p) = Some (Fin 0).
Proof.
  intros Hp H N L. destruct cat_rel as (_ & _ & f & _ & _ & _ & _ & E & _).
  assert (Lo : (2 <= length o)%nat) by (rewrite (Permutation_length (rsort_perm cat)); auto).
  assert (No : incr o). { apply nondec_nodup; [apply o_nondec|]. apply (Permutation_NoDup (Permutation_sym (rsort_perm cat))). auto. }
  rewrite E, (interp_in (fun y => y)) by (apply cat_ends; auto). rewrite turn_turned. apply ppf_edge; [apply (mass2 m rev Hm)|].
  pose proof (cat_ends p Hp). pose proof min_in as Mi. pose proof max_in as Ma. destruct Hm as [Hm1 Hm2]. destruct (c1_last ltac:(lra)) as [_ Lc]. specialize (Lc Lo).
  assert (seg p o c1 = low1 m \/ seg p o c1 = 1 - high1 m).
  { destruct H as [H|H]; [left|right].
    - specialize (H _ Mi). assert (p = hd 0 o) by lra. subst p. rewrite seg_hd by auto using c1_len. apply c1_hd.
    - specialize (H _ Ma). rewrite seg_last; auto using c1_len, o_ne, o_nondec. }
  unfold turnd. destruct rev; lra.
Qed.

(** ranks *)
Lemma nth_knot xp : forall fp k, incr xp -> length xp = length fp -> (k < length xp)%nat -> seg (nth k xp 0) xp fp = nth k fp 0.
Proof.
  induction xp as [|x0 xp IH]; intros fp k Hx L Hk; [cbn in Hk; lia|]. destruct fp as [|y0 fp]; [discriminate|].
  destruct xp as [|x1 xp]; destruct fp as [|y1 fp]; try discriminate; [cbn in Hk; replace k with 0%nat by lia; reflexivity|].
  apply sorted_cons2 in Hx. destruct Hx as [X1 X2]. rewrite seg_cons. destruct k as [|k].
  - cbn [nth]. replace (rleb x1 x0) with false by (symmetry; apply rleb_gt; auto). rewrite reqb_refl. auto.
  - change (nth (S k) (x0 :: x1 :: xp) 0) with (nth k (x1 :: xp) 0). change (nth (S k) (y0 :: y1 :: fp) 0) with (nth k (y1 :: fp) 0). assert (Hk' : (k < length (x1 :: xp))%nat) by (cbn in *; lia).
    pose proof (nondec_ends _ (incr_nondec _ X2) (nth k (x1 :: xp) 0) (nth_In _ _ Hk')) as Q. cbn [hd] in Q.
    replace (rleb x1 _) with true by (symmetry; apply rleb_le; lra).
    apply IH; auto.
Qed.
Lemma incr_smaller l : forall k, incr l -> (k < length l)%nat -> smaller l (nth k l 0) = k.
Proof.
  unfold smaller. induction l as [|a l IH]; intros k H Hk; [cbn in Hk; lia|]. inversion H as [|? ? H1 H2]; subst. cbn [filter]. destruct k as [|k].
  - cbn [nth]. replace (rltb a a) with false by (symmetry; apply rltb_ge; lra).
    assert (Z : forall l, (forall q, In q l -> a < q) -> length (filter (fun q => rltb q a) l) = 0%nat).
    { induction l0 as [|b l0 IHl]; intros HA; cbn; auto. replace (rltb b a) with false by (symmetry; apply rltb_ge; left; apply HA; left; auto). apply IHl. intros q Hq. apply HA. right. auto. }
    apply Z. intros q Hq. destruct l as [|b l]; [destruct Hq|]. inversion H2; subst. pose proof (nondec_ends _ (incr_nondec _ H1) q Hq). cbn [hd] in *. lra.
  - cbn [nth] in *. cbn [length] in Hk. assert (Hk' : (k < length l)%nat) by lia. replace (rltb a (nth k l 0)) with true.
    + cbn [length]. rewrite IH; auto.
    + symmetry. apply rltb_lt. destruct l as [|b l]; [cbn in Hk'; lia|]. inversion H2; subst. pose proof (nondec_ends _ (incr_nondec _ H1) _ (nth_In _ 0 Hk')). cbn [hd] in *. lra.
Qed.
Lemma smaller_perm l l' p : Permutation l l' -> smaller l p = smaller l' p.
Proof. unfold smaller. induction 1; cbn; auto; try lia. - destruct (rltb x p); cbn; auto. - destruct (rltb x p), (rltb y p); auto. Qed.
Lemma cat_rank arr p : NoDup cat -> (2 <= length cat)%nat -> In p cat -> inside arr cat p ->
  rank_of D lo hi (p2v p) = let r := INR (smaller cat p) / INR (length cat - 1) in if rev then 1 - r else r.
Proof.
  intros N L Hp Hi. assert (Lo : length o = length cat) by (apply Permutation_length, rsort_perm).
  assert (No : incr o). { apply nondec_nodup; [apply o_nondec|]. apply (Permutation_NoDup (Permutation_sym (rsort_perm cat))). auto. }
  apply (Permutation_in _ (Permutation_sym (rsort_perm cat))) in Hp. destruct (In_nth _ _ 0 Hp) as (k & Hk & <-). cbn zeta.
  rewrite (smaller_perm cat o) by (symmetry; apply rsort_perm). rewrite incr_smaller by auto.
  destruct (cat_p2_range _ _ Hi) as (_ & _ & C). unfold share in C. fold (rank_of D lo hi (p2v (nth k o 0))) in C.
  unfold cum in C. rewrite nth_knot in C; auto using c1_len.
  rewrite nth_linspace in C by auto. rewrite Lo in *. cbn [Nat.add] in C. unfold turnd in C.
  assert (HN : INR (length cat - 1) <> 0) by (apply not_0_INR; lia). destruct Hm as [Hm1 Hm2]. set (v := rank_of _ _ _ _) in *. set (n := INR (length cat - 1)) in *.
  assert (HD : 1 - high1 m - low1 m <> 0) by lra.
  destruct rev; destruct Hm2 as [E1 E2]; rewrite <- E1, <- E2 in C; apply (Rmult_eq_reg_r (1 - high1 m - low1 m)); auto; unfold Rdiv in *.
  - replace ((1 - INR k * / n) * (1 - high1 m - low1 m)) with (1 - low1 m - high1 m - INR k * ((1 - high1 m - low1 m) * / n)) by ring. lra.
  - replace (INR k * / n * (1 - high1 m - low1 m)) with (INR k * ((1 - high1 m - low1 m) * / n)) by ring. lra.
Qed.
End Cat.
