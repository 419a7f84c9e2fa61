(** Abundance matching: values outside the range, and two distributions (C56, C64). *)
From Verif Require Import Util RealUtil AmModel AmSpec Am.
From Coq Require Import Reals Lra Lia Permutation Sorted.
Open Scope R_scope.

(** * Out of the range *)
Lemma ppf_low arr D lo hi low high fl fh : 0 < low -> ppf_func arr D lo hi low high fl fh (Some 0) = fl.
Proof. intros H. unfold ppf_func. replace (rltb 0 low) with true; auto. symmetry. apply rltb_lt. auto. Qed.
Lemma ppf_high arr D lo hi low high fl fh : low <= 1 -> 0 < high -> ppf_func arr D lo hi low high fl fh (Some 1) = fh.
Proof.
  intros K H. unfold ppf_func. replace (rltb 1 low) with false by (symmetry; apply rltb_ge; lra).
  replace (rltb (1 - high) 1) with true; auto. symmetry. apply rltb_lt. lra.
Qed.
Lemma ppf_low0 D lo hi fl fh : good_rv D lo hi -> ppf_func false D lo hi 0 0 fl fh (Some 0) = Some lo /\ ppf_func true D lo hi 0 0 fl fh (Some 0) = Some (Fin 0).
Proof.
  intros G. split; [|apply ppf_edge; lra]. rewrite ppf_in by (cbn; lra). f_equal. replace (star D lo hi 0 0 0) with (cdf D lo) by (unfold star; field).
  apply (rv_back D lo hi); auto using ele_refl. left. apply G.
Qed.
Lemma ppf_high0 D lo hi fl fh : good_rv D lo hi -> ppf_func false D lo hi 0 0 fl fh (Some 1) = Some hi /\ ppf_func true D lo hi 0 0 fl fh (Some 1) = Some (Fin 0).
Proof.
  intros G. split; [|apply ppf_edge; lra]. rewrite ppf_in by (cbn; lra). f_equal. replace (star D lo hi 0 0 1) with (cdf D hi) by (unfold star; field).
  apply (rv_back D lo hi); auto using ele_refl. left. apply G.
Qed.
Lemma cdf_low D lo hi low high p : elt p lo -> cdf_func D lo hi low high p = Some 0.
Proof. intros H. unfold cdf_func. apply extb_elt in H. rewrite H. auto. Qed.
Lemma cdf_high D lo hi low high p : elt lo hi -> elt hi p -> cdf_func D lo hi low high p = Some 1.
Proof.
  intros H K. unfold cdf_func. replace (extb p lo) with false by (symmetry; apply extb_ele; left; eapply elt_trans; eauto).
  apply extb_elt in K. rewrite K. auto.
Qed.
Lemma turn0 rev : turn rev (Some 0) = Some (if rev then 1 else 0). Proof. destruct rev; cbn; f_equal. lra. Qed.
Lemma turn1 rev : turn rev (Some 1) = Some (if rev then 0 else 1). Proof. destruct rev; cbn; f_equal. lra. Qed.

Section CatOut.
Context (cat : list R) (D : rv) (lo hi : ext) (m : masses) (e : modes) (rev : bool) (rel : relation).
Context (HR : am_dfcat cat D lo hi m e rev = Ok rel).
Notation o := (rsort cat).
Notation c1 := (linspace (low1 m) (1 - high1 m) (length (rsort cat))).
Lemma cat_below p l h : below cat p -> interp (fun y => y) p o c1 l h = l.
Proof. intros H. apply interp_low, H. eapply min_in; eauto. Qed.
Lemma cat_above p l h : above cat p -> interp (fun y => y) p o c1 l h = h.
Proof.
  intros H. apply interp_high; [|apply H; eapply max_in; eauto]. apply nondec_ends; [apply rsort_sorted|]. apply hd_in. eapply o_ne; eauto.
Qed.
Lemma c1_order : low1 m + high1 m <= 1 -> hd 0 c1 <= last c1 0.
Proof.
  intros H. rewrite (c1_hd _ _ _ _ _ _ _ _ HR). destruct (c1_last _ _ _ _ _ _ _ _ HR H) as [A B].
  destruct (le_lt_dec 2 (length o)) as [L|L]; [rewrite B; auto; lra|]. pose proof (o_len _ _ _ _ _ _ _ _ HR). replace (length o) with 1%nat by lia. cbn. lra.
Qed.
Lemma out_p2_low arr p : (if rev then above cat p else below cat p) -> 0 < low2 m -> asked_fill (e_low2 e) lo (p2ofp1 rel arr p).
Proof.
  intros H L. destruct (cat_rel _ _ _ _ _ _ _ _ HR) as (M & _ & f & _ & _ & F & _ & E & _). rewrite E. apply check_masses_ok in M.
  pose proof (cat_below p 0 1) as CB. pose proof (cat_above p 0 1) as CA.
  destruct rev; [rewrite CA, turn1 by auto|rewrite CB, turn0 by auto]; cbn iota; rewrite ppf_low by auto; auto.
Qed.
Lemma out_p2_high arr p : (if rev then below cat p else above cat p) -> 0 < high2 m -> asked_fill (e_high2 e) hi (p2ofp1 rel arr p).
Proof.
  intros H L. destruct (cat_rel _ _ _ _ _ _ _ _ HR) as (M & _ & f & _ & _ & _ & F & E & _). rewrite E. apply check_masses_ok in M.
  pose proof (cat_below p 0 1) as CB. pose proof (cat_above p 0 1) as CA.
  destruct rev; [rewrite CB, turn0 by auto|rewrite CA, turn1 by auto]; cbn iota; rewrite ppf_high by lra; auto.
Qed.
Lemma out_p1_low arr p : elt lo hi -> (if rev then elt hi p else elt p lo) -> 0 < low1 m ->
  exists q, In q cat /\ (forall r, In r cat -> q <= r) /\ asked_fill (e_low1 e) (Fin q) (p1ofp2 rel arr p).
Proof.
  intros O H L. destruct (cat_rel _ _ _ _ _ _ _ _ HR) as (M & _ & f & F & _ & _ & _ & _ & E). rewrite E.
  assert (T : turn rev (cdf_func D lo hi (low2 m) (high2 m) p) = Some 0). { destruct rev; [rewrite cdf_high, turn1|rewrite cdf_low, turn0]; auto. }
  rewrite T. cbn iota. rewrite interp_low by (rewrite (c1_hd _ _ _ _ _ _ _ _ HR); auto).
  exists (hd 0 o). split; [eapply min_in; eauto|]. split; auto. intros r Hr. eapply cat_ends in Hr; eauto. apply Hr.
Qed.
Lemma out_p1_high arr p : elt lo hi -> (if rev then elt p lo else elt hi p) -> 0 < high1 m ->
  exists q, In q cat /\ (forall r, In r cat -> r <= q) /\ asked_fill (e_high1 e) (Fin q) (p1ofp2 rel arr p).
Proof.
  intros O H L. destruct (cat_rel _ _ _ _ _ _ _ _ HR) as (M & _ & f & _ & F & _ & _ & _ & E). rewrite E. apply check_masses_ok in M.
  assert (T : turn rev (cdf_func D lo hi (low2 m) (high2 m) p) = Some 1). { destruct rev; [rewrite cdf_low, turn0|rewrite cdf_high, turn1]; auto. }
  assert (S : low1 m + high1 m <= 1) by lra. destruct (c1_last _ _ _ _ _ _ _ _ HR S) as [A _].
  rewrite T. cbn iota. rewrite interp_high; [|apply c1_order; lra|cbn; lra].
  exists (last o 0). split; [eapply max_in; eauto|]. split; auto. intros r Hr. eapply cat_ends in Hr; eauto. apply Hr.
Qed.
Lemma lost_p2 p : good_rv D lo hi -> m = mkMass 0 0 0 0 ->
  (below cat p -> p2ofp1 rel false p = Some (if rev then hi else lo) /\ p2ofp1 rel true p = Some (Fin 0)) /\
  (above cat p -> p2ofp1 rel false p = Some (if rev then lo else hi) /\ p2ofp1 rel true p = Some (Fin 0)).
Proof.
  intros G M. destruct (cat_rel _ _ _ _ _ _ _ _ HR) as (_ & _ & f & _ & _ & _ & _ & E & _). rewrite !E.
  assert (Z : low2 m = 0 /\ high2 m = 0) by (rewrite M; auto). destruct Z as [-> ->]. pose proof (ppf_low0 D lo hi (f_low2 f) (f_high2 f) G) as [A1 A2]. pose proof (ppf_high0 D lo hi (f_low2 f) (f_high2 f) G) as [B1 B2].
  split; intros H; [rewrite cat_below, turn0 by auto|rewrite cat_above, turn1 by auto]; destruct rev; cbn iota; auto.
Qed.
End CatOut.

Lemma lost_p1 cat D lo hi e rev rel arr p : am_dfcat cat D lo hi (mkMass 0 0 0 0) e rev = Ok rel -> elt lo hi -> (2 <= length cat)%nat -> elt p lo \/ elt hi p ->
  exists q, In q cat /\ (if xorb rev (extb p lo) then forall r, In r cat -> q <= r else forall r, In r cat -> r <= q) /\ p1ofp2 rel arr p = Some (Fin q).
Proof.
  intros HR O L H. destruct (cat_rel _ _ _ _ _ _ _ _ HR) as (_ & _ & f & _ & _ & _ & _ & _ & E). rewrite E. clear E. cbn [low1 high1 low2 high2].
  set (o := rsort cat). assert (Lo : (2 <= length o)%nat) by (unfold o; rewrite (Permutation_length (rsort_perm cat)); auto).
  pose proof (c1_hd _ _ _ _ _ _ _ _ HR) as Hh. assert (S : low1 (mkMass 0 0 0 0) + high1 (mkMass 0 0 0 0) <= 1) by (cbn; lra). pose proof (proj2 (c1_last _ _ _ _ _ _ _ _ HR S) Lo) as Hl.
  cbn [low1 high1 low2 high2] in *. fold o in Hh, Hl. assert (I1 : incr (linspace 0 (1 - 0) (length o))) by (apply linspace_incr; lra).
  assert (Ll : length (linspace 0 (1 - 0) (length o)) = length o) by apply linspace_length.
  assert (Nl : linspace 0 (1 - 0) (length o) <> []) by (intros Z; rewrite Z in Ll; cbn in Ll; lia).
  assert (T : turn rev (cdf_func D lo hi 0 0 p) = Some (if xorb rev (extb p lo) then 0 else 1)).
  { destruct H as [H|H]; [rewrite cdf_low, turn0 by auto; apply extb_elt in H; rewrite H|rewrite cdf_high, turn1 by auto].
    - destruct rev; reflexivity.
    - replace (extb p lo) with false by (symmetry; apply extb_ele; left; eapply elt_trans; eauto). destruct rev; reflexivity. }
  rewrite T. destruct (xorb rev (extb p lo)).
  - exists (hd 0 o). split; [eapply min_in; eauto|]. split; [intros r Hr; eapply cat_ends in Hr; eauto; apply Hr|].
    rewrite interp_in by lra. rewrite <- Hh at 1. rewrite seg_hd by auto. auto.
  - exists (last o 0). split; [eapply max_in; eauto|]. split; [intros r Hr; eapply cat_ends in Hr; eauto; apply Hr|].
    rewrite interp_in by lra. rewrite seg_last; auto using incr_nondec. lra.
Qed.

(** * Two distributions *)
Section Df.
Context (D1 D2 : rv) (lo1 hi1 lo2 hi2 : ext) (l1 h1 l2 h2 : R) (rev : bool).
Context (G1 : good_rv D1 lo1 hi1) (G2 : good_rv D2 lo2 hi2) (Hm : matched (mkMass l1 h1 l2 h2) rev).
Definition dfv p := ppf D2 (star D2 lo2 hi2 l2 h2 (turnd rev (share D1 lo1 hi1 l1 h1 p))).
Lemma lims_le arr lo hi p : inlims arr lo hi p -> ele lo p /\ ele p hi.
Proof. destruct arr; cbn; auto. intros [H K]. split; left; auto. Qed.
Lemma df_band arr p : inlims arr lo1 hi1 p -> in_band l1 h1 arr (share D1 lo1 hi1 l1 h1 p).
Proof.
  intros H. destruct Hm as [Hs _]. cbn in Hs. destruct arr; cbn [in_band]; [|destruct H; apply share_range; auto]. destruct H as [A B].
  pose proof (share_mono D1 lo1 hi1 G1 l1 h1 Hs lo1 p (ele_refl _) A (or_introl B)) as Q. pose proof (share_mono D1 lo1 hi1 G1 l1 h1 Hs p hi1 (or_introl A) B (ele_refl _)) as Q'.
  rewrite share_lo in Q by auto. rewrite share_hi in Q' by auto. lra.
Qed.
Lemma df_tband arr p : inlims arr lo1 hi1 p -> in_band l2 h2 arr (turnd rev (share D1 lo1 hi1 l1 h1 p)).
Proof. intros H. apply (turned_band (mkMass l1 h1 l2 h2) rev arr _ Hm), df_band. auto. Qed.
Lemma df_mass2 : l2 + h2 < 1. Proof. apply (mass2 (mkMass l1 h1 l2 h2) rev Hm). Qed.
Lemma df_value arr fl fh p : inlims arr lo1 hi1 p -> ppf_func arr D2 lo2 hi2 l2 h2 fl fh (turn rev (cdf_func D1 lo1 hi1 l1 h1 p)) = Some (dfv p).
Proof.
  intros H. destruct (lims_le _ _ _ _ H). rewrite (cdf_in D1 lo1 hi1 G1) by auto. rewrite turn_turned. apply ppf_in; [apply df_mass2|apply df_tband; auto].
Qed.
Lemma df_share arr p : inlims arr lo1 hi1 p -> ele lo2 (dfv p) /\ ele (dfv p) hi2 /\ share D2 lo2 hi2 l2 h2 (dfv p) = turnd rev (share D1 lo1 hi1 l1 h1 p).
Proof. intros H. apply ppf_star_in; auto using df_mass2. apply (band_le _ _ arr). apply df_tband. auto. Qed.
Lemma df_lims arr p : inlims arr lo1 hi1 p -> inlims arr lo2 hi2 (dfv p).
Proof.
  intros H. destruct (df_share arr p H) as (A & B & C). destruct arr; cbn [inlims]; auto. pose proof (df_tband true p H) as Q. rewrite <- C in Q. cbn [in_band] in Q.
  pose proof df_mass2. split; [destruct A as [A|A]|destruct B as [B|B]]; auto; exfalso.
  - rewrite <- A in Q. rewrite share_lo in Q by auto. lra.
  - rewrite B in Q. rewrite share_hi in Q by auto. lra.
Qed.
Lemma df_order arr p p' : inlims arr lo1 hi1 p -> inlims arr lo1 hi1 p' -> elt p p' -> ordered rev (dfv p) (dfv p').
Proof.
  intros H H' L. pose proof (df_tband _ _ H) as B. pose proof (df_tband _ _ H') as B'. apply band_le in B, B'. destruct (lims_le _ _ _ _ H), (lims_le _ _ _ _ H').
  destruct Hm as [Hs Hr]. cbn in Hs. assert (C : share D1 lo1 hi1 l1 h1 p < share D1 lo1 hi1 l1 h1 p') by (apply share_mono; auto).
  unfold ordered, dfv. pose proof df_mass2. unfold turnd in *. destruct rev; apply ppf_star_mono; auto; lra.
Qed.
Lemma df_rank arr p : inlims arr lo1 hi1 p -> rank_of D2 lo2 hi2 (dfv p) = turnd rev (rank_of D1 lo1 hi1 p).
Proof.
  intros H. destruct (df_share arr p H) as (_ & _ & C). unfold share in C. fold (rank_of D2 lo2 hi2 (dfv p)) in C. fold (rank_of D1 lo1 hi1 p) in C.
  destruct Hm as [Hs Hr]. cbn in Hs, Hr. unfold turnd in *. set (a := rank_of D2 _ _ _) in *. set (b := rank_of D1 _ _ _) in *.
  destruct rev; destruct Hr as [<- <-]; apply (Rmult_eq_reg_r (1 - h1 - l1)); lra.
Qed.
End Df.
Lemma matched_sym l1 h1 l2 h2 rev : matched (mkMass l1 h1 l2 h2) rev -> matched (mkMass l2 h2 l1 h1) rev.
Proof. unfold matched. cbn. destruct rev; intros [H [K L]]; subst; split; auto; lra. Qed.
Lemma df_inverse D1 D2 lo1 hi1 lo2 hi2 l1 h1 l2 h2 rev arr p : good_rv D1 lo1 hi1 -> good_rv D2 lo2 hi2 -> matched (mkMass l1 h1 l2 h2) rev ->
  inlims arr lo1 hi1 p -> dfv D2 D1 lo2 hi2 lo1 hi1 l2 h2 l1 h1 rev (dfv D1 D2 lo1 hi1 lo2 hi2 l1 h1 l2 h2 rev p) = p.
Proof.
  intros G1 G2 Hm H. destruct (df_share D1 D2 lo1 hi1 lo2 hi2 l1 h1 l2 h2 rev G1 G2 Hm arr p H) as (_ & _ & C). unfold dfv at 1. rewrite C, turned_back.
  destruct Hm as [Hs _]. cbn in Hs. rewrite star_share by auto. destruct (lims_le _ _ _ _ H). apply (rv_back D1 lo1 hi1); auto.
Qed.

Section DfRel.
Context (D1 D2 : rv) (lo1 hi1 lo2 hi2 : ext) (m : masses) (e : modes) (rev : bool) (rel : relation).
Context (HR : am_dfdf D1 D2 lo1 hi1 lo2 hi2 m e rev = Ok rel).
Lemma dfdf_rel : check_masses m = Ok tt /\ exists f, asked_fill (e_low2 e) lo2 (f_low2 f) /\ asked_fill (e_high2 e) hi2 (f_high2 f) /\
  (forall arr p, p2ofp1 rel arr p = ppf_func arr D2 lo2 hi2 (low2 m) (high2 m) (f_low2 f) (f_high2 f) (turn rev (cdf_func D1 lo1 hi1 (low1 m) (high1 m) p))) /\
  (forall arr p, p1ofp2 rel arr p = ppf_func arr D1 lo1 hi1 (low1 m) (high1 m) (f_low2 f) (f_high2 f) (turn rev (cdf_func D2 lo2 hi2 (low2 m) (high2 m) p))).
Proof.
  unfold am_dfdf in HR. destruct (check_masses m) as [[]|] eqn:Em; [|discriminate]. cbn [bind] in HR. split; auto. unfold fillers in HR.
  destruct (filler (e_low1 e) _) as [w|] eqn:F1; [|discriminate]. destruct (filler (e_high1 e) _) as [x|] eqn:F2; [|discriminate].
  destruct (filler (e_low2 e) _) as [y|] eqn:F3; [|discriminate]. destruct (filler (e_high2 e) _) as [z|] eqn:F4; [|discriminate]. cbn [bind] in HR.
  injection HR as <-. exists (mkFills w x y z). cbn. repeat split; apply filler_asked; auto.
Qed.
Lemma dfdf_out_p2_low arr p : elt lo1 hi1 -> (if rev then elt hi1 p else elt p lo1) -> 0 < low2 m -> asked_fill (e_low2 e) lo2 (p2ofp1 rel arr p).
Proof.
  intros O H L. destruct dfdf_rel as (M & f & F & _ & E & _). rewrite E. clear E. destruct rev; [rewrite cdf_high, turn1 by auto|rewrite cdf_low, turn0 by auto]; cbn iota; rewrite ppf_low by auto; auto.
Qed.
Lemma dfdf_out_p2_high arr p : elt lo1 hi1 -> (if rev then elt p lo1 else elt hi1 p) -> 0 < high2 m -> asked_fill (e_high2 e) hi2 (p2ofp1 rel arr p).
Proof.
  intros O H L. destruct dfdf_rel as (M & f & _ & F & E & _). rewrite E. clear E. apply check_masses_ok in M. destruct rev; [rewrite cdf_low, turn0 by auto|rewrite cdf_high, turn1 by auto]; cbn iota; rewrite ppf_high by lra; auto.
Qed.
(** ... and the same values are used for property 1 *)
Lemma dfdf_out_p1_low arr p : elt lo2 hi2 -> (if rev then elt hi2 p else elt p lo2) -> 0 < low1 m -> asked_fill (e_low2 e) lo2 (p1ofp2 rel arr p).
Proof.
  intros O H L. destruct dfdf_rel as (M & f & F & _ & _ & E). rewrite E. clear E. destruct rev; [rewrite cdf_high, turn1 by auto|rewrite cdf_low, turn0 by auto]; cbn iota; rewrite ppf_low by auto; auto.
Qed.
Lemma dfdf_out_p1_high arr p : elt lo2 hi2 -> (if rev then elt p lo2 else elt hi2 p) -> 0 < high1 m -> asked_fill (e_high2 e) hi2 (p1ofp2 rel arr p).
Proof.
  intros O H L. destruct dfdf_rel as (M & f & _ & F & _ & E). rewrite E. clear E. apply check_masses_ok in M. destruct rev; [rewrite cdf_low, turn0 by auto|rewrite cdf_high, turn1 by auto]; cbn iota; rewrite ppf_high by lra; auto.
Qed.
Lemma dfdf_lost p : good_rv D1 lo1 hi1 -> good_rv D2 lo2 hi2 -> m = mkMass 0 0 0 0 ->
  (elt p lo1 -> p2ofp1 rel false p = Some (if rev then hi2 else lo2) /\ p2ofp1 rel true p = Some (Fin 0)) /\
  (elt hi1 p -> p2ofp1 rel false p = Some (if rev then lo2 else hi2) /\ p2ofp1 rel true p = Some (Fin 0)).
Proof.
  intros G1 G2 M. destruct dfdf_rel as (_ & f & _ & _ & E & _). rewrite !E. clear E.
  assert (Z : low2 m = 0 /\ high2 m = 0 /\ low1 m = 0 /\ high1 m = 0) by (rewrite M; auto). destruct Z as (-> & -> & -> & ->). pose proof (ppf_low0 D2 lo2 hi2 (f_low2 f) (f_high2 f) G2) as [A1 A2]. pose proof (ppf_high0 D2 lo2 hi2 (f_low2 f) (f_high2 f) G2) as [B1 B2].
  split; intros H; [rewrite cdf_low, turn0 by auto|rewrite cdf_high, turn1 by (auto; apply G1)]; destruct rev; cbn iota; auto.
Qed.
End DfRel.
(** what the theorems say *)
Lemma cat_order_thm cat D lo hi m e rev rel arr p p' : am_dfcat cat D lo hi m e rev = Ok rel -> good_rv D lo hi -> matched m rev ->
  inside arr cat p -> inside arr cat p' -> p < p' ->
  exists v v', p2ofp1 rel arr (Fin p) = Some v /\ p2ofp1 rel arr (Fin p') = Some v' /\ ordered rev v v' /\ ele lo v /\ ele v hi /\ ele lo v' /\ ele v' hi.
Proof.
  intros HR G M I I' L. exists (p2v cat D lo hi m rev p), (p2v cat D lo hi m rev p').
  destruct (cat_p2_range cat D lo hi m e rev rel HR G M arr p I) as (A & B & _). destruct (cat_p2_range cat D lo hi m e rev rel HR G M arr p' I') as (A' & B' & _).
  split; [eapply cat_p2; eauto|]. split; [eapply cat_p2; eauto|]. split; [eapply cat_order; eauto|auto].
Qed.
Lemma cat_rank_thm cat D lo hi m e rev rel arr p : am_dfcat cat D lo hi m e rev = Ok rel -> good_rv D lo hi -> matched m rev ->
  NoDup cat -> (2 <= length cat)%nat -> In p cat -> inside arr cat p ->
  exists v, p2ofp1 rel arr (Fin p) = Some v /\ rank_of D lo hi v = let r := INR (smaller cat p) / INR (length cat - 1) in if rev then 1 - r else r.
Proof.
  intros HR G M N L Hp I. exists (p2v cat D lo hi m rev p). split; [eapply cat_p2; eauto|]. eapply cat_rank; eauto.
Qed.
Lemma cat_inverse_thm cat D lo hi m e rev rel arr arr' p : am_dfcat cat D lo hi m e rev = Ok rel -> good_rv D lo hi -> matched m rev -> inside arr cat p ->
  exists v, p2ofp1 rel arr (Fin p) = Some v /\ p1ofp2 rel arr' v = Some (Fin p).
Proof. intros HR G M I. exists (p2v cat D lo hi m rev p). split; [eapply cat_p2; eauto|]. eapply cat_back; eauto. Qed.
Lemma dfdf_thm D1 D2 lo1 hi1 lo2 hi2 m e rev rel arr p : am_dfdf D1 D2 lo1 hi1 lo2 hi2 m e rev = Ok rel -> good_rv D1 lo1 hi1 -> good_rv D2 lo2 hi2 -> matched m rev ->
  inlims arr lo1 hi1 p ->
  exists v, p2ofp1 rel arr p = Some v /\ inlims arr lo2 hi2 v /\ rank_of D2 lo2 hi2 v = (if rev then 1 - rank_of D1 lo1 hi1 p else rank_of D1 lo1 hi1 p) /\
    p1ofp2 rel arr v = Some p /\
    forall p', inlims arr lo1 hi1 p' -> elt p p' -> exists v', p2ofp1 rel arr p' = Some v' /\ ordered rev v v'.
Proof.
  intros HR G1 G2 M I. destruct (dfdf_rel _ _ _ _ _ _ _ _ _ _ HR) as (_ & f & _ & _ & E2 & E1). destruct m as [l1 h1 l2 h2]. cbn [low1 high1 low2 high2] in *.
  exists (dfv D1 D2 lo1 hi1 lo2 hi2 l1 h1 l2 h2 rev p). pose proof (df_lims D1 D2 lo1 hi1 lo2 hi2 l1 h1 l2 h2 rev G1 G2 M arr p I) as I2.
  split; [rewrite E2; apply df_value; auto|]. split; auto. split; [rewrite (df_rank D1 D2 lo1 hi1 lo2 hi2 l1 h1 l2 h2 rev G1 G2 M arr p I); reflexivity|]. split.
  - rewrite E1, df_value by (auto using matched_sym). f_equal. eapply df_inverse; eauto.
  - intros p' I' L. exists (dfv D1 D2 lo1 hi1 lo2 hi2 l1 h1 l2 h2 rev p'). split; [rewrite E2; apply df_value; auto|]. eapply df_order; eauto.
Qed.
Lemma dfdf_back_thm D1 D2 lo1 hi1 lo2 hi2 m e rev rel arr p : am_dfdf D1 D2 lo1 hi1 lo2 hi2 m e rev = Ok rel -> good_rv D1 lo1 hi1 -> good_rv D2 lo2 hi2 -> matched m rev ->
  inlims arr lo2 hi2 p -> exists v, p1ofp2 rel arr p = Some v /\ inlims arr lo1 hi1 v /\ p2ofp1 rel arr v = Some p.
Proof.
  intros HR G1 G2 M I. destruct (dfdf_rel _ _ _ _ _ _ _ _ _ _ HR) as (_ & f & _ & _ & E2 & E1). destruct m as [l1 h1 l2 h2]. cbn [low1 high1 low2 high2] in *.
  apply matched_sym in M. exists (dfv D2 D1 lo2 hi2 lo1 hi1 l2 h2 l1 h1 rev p). pose proof (df_lims D2 D1 lo2 hi2 lo1 hi1 l2 h2 l1 h1 rev G2 G1 M arr p I) as I2.
  split; [rewrite E1; apply df_value; auto|]. split; auto. rewrite E2, df_value by (auto using matched_sym). f_equal. eapply df_inverse; eauto.
Qed.
Lemma dfdf_ends D1 D2 lo1 hi1 lo2 hi2 m e rev rel p : am_dfdf D1 D2 lo1 hi1 lo2 hi2 m e rev = Ok rel -> good_rv D1 lo1 hi1 -> matched m rev ->
  p = lo1 \/ p = hi1 -> p2ofp1 rel true p = Some (Fin 0).
Proof.
  intros HR G1 M H. destruct (dfdf_rel _ _ _ _ _ _ _ _ _ _ HR) as (_ & f & _ & _ & E2 & _). rewrite E2.
  assert (L : ele lo1 p /\ ele p hi1) by (destruct H as [->| ->]; split; auto using ele_refl; left; apply G1). rewrite (cdf_in D1 lo1 hi1 G1) by tauto. rewrite turn_turned.
  apply ppf_edge; [apply (mass2 m rev M)|]. destruct M as [_ M]. unfold turnd. destruct H as [->| ->]; [rewrite share_lo by auto|rewrite share_hi by auto]; destruct rev; lra.
Qed.
