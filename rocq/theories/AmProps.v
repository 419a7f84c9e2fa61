(** Abundance matching (simim.galprops.galprops_am): C56 and C64. *)
From Verif Require Import Util RealUtil AmModel AmSpec Am Am2.
From Coq Require Import Reals Lra Lia Permutation.
Open Scope R_scope.

(** a concrete case: three objects, a uniform distribution *)
Definition unif : rv := mkRv (fun x => match x with MInf => 0 | PInf => 1 | Fin x => if rltb x 0 then 0 else if rltb 1 x then 1 else x end) (fun c => Fin c).
Definition modes0 : modes := mkModes (EVal None) (EVal None) (EVal None) (EVal None).
Definition zero_mass : masses := mkMass 0 0 0 0.
Lemma unif_in x : 0 <= x <= 1 -> cdf unif (Fin x) = x.
Proof. intros H. cbn. replace (rltb x 0) with false by (symmetry; apply rltb_ge; lra). replace (rltb 1 x) with false by (symmetry; apply rltb_ge; lra). auto. Qed.
Lemma unif_good : good_rv unif (Fin 0) (Fin 1).
Proof.
  constructor; [cbn; lra| |].
  - intros x y A B C. destruct x as [|x|], y as [|y|]; cbn in B; try tauto; try (destruct A as [A|A]; [destruct A|discriminate]); try (destruct C as [C|C]; [destruct C|discriminate]).
    apply ele_Fin in A. apply ele_Fin in C. rewrite !unif_in by lra. auto.
  - rewrite !unif_in by lra. intros c H. split; [apply ele_Fin; cbn; lra|]. split; [apply ele_Fin; cbn; lra|]. apply unif_in. auto.
Qed.
Lemma zero_matched rev : matched zero_mass rev. Proof. split; [cbn; lra|]. destruct rev; cbn; auto. Qed.
Lemma masses_ok m : 0 <= low1 m -> 0 <= low2 m -> 0 <= high1 m -> 0 <= high2 m -> low1 m + high1 m <= 1 -> low2 m + high2 m <= 1 -> check_masses m = Ok tt.
Proof. intros. apply check_masses_ok. lra. Qed.
Lemma dfcat_ok cat D lo hi m rev : check_masses m = Ok tt -> cat <> [] -> exists rel, am_dfcat cat D lo hi m modes0 rev = Ok rel.
Proof. intros H N. unfold am_dfcat. rewrite H. destruct cat; [congruence|]. cbn [length Nat.eqb negb check bind fillers modes0 e_low1 e_high1 e_low2 e_high2 filler]. eexists. reflexivity. Qed.
Lemma dfdf_ok D1 D2 lo1 hi1 lo2 hi2 m rev : check_masses m = Ok tt -> exists rel, am_dfdf D1 D2 lo1 hi1 lo2 hi2 m modes0 rev = Ok rel.
Proof. intros H. unfold am_dfdf. rewrite H. cbn [bind fillers modes0 e_low1 e_high1 e_low2 e_high2 filler]. eexists. reflexivity. Qed.
Lemma zero_ok : check_masses zero_mass = Ok tt. Proof. apply masses_ok; cbn; lra. Qed.
Definition cat3 : list R := [3; 1; 2].
Lemma cat3_in arr : inside arr cat3 (3/2). Proof. exists 1, 2. cbn. destruct arr; repeat split; auto; lra. Qed.
Lemma cat3_in2 arr : inside arr cat3 2. Proof. exists 1, 3. cbn. destruct arr; repeat split; auto; lra. Qed.
Lemma cat3_nodup : NoDup cat3. Proof. repeat constructor; cbn; lra. Qed.

(** * C56: the relation keeps the order, matches the abundances, and is invertible *)
(** within the catalogue (for arrays: strictly within), with the same mass missing from both *)
Theorem C56_order_partial cat D lo hi m e rev rel arr p p' : am_dfcat cat D lo hi m e rev = Ok rel -> good_rv D lo hi -> matched m rev ->
  inside arr cat p -> inside arr cat p' -> p < p' ->
  exists v v', p2ofp1 rel arr (Fin p) = Some v /\ p2ofp1 rel arr (Fin p') = Some v' /\ ordered rev v v' /\ ele lo v /\ ele v hi /\ ele lo v' /\ ele v' hi.
Proof. exact (cat_order_thm cat D lo hi m e rev rel arr p p'). Qed.
Print Assumptions C56_order_partial.
(** an object with k smaller ones gets the value below which k of the n-1 steps of the distribution lie *)
Theorem C56_match_partial cat D lo hi m e rev rel arr p : am_dfcat cat D lo hi m e rev = Ok rel -> good_rv D lo hi -> matched m rev ->
  NoDup cat -> (2 <= length cat)%nat -> In p cat -> inside arr cat p ->
  exists v, p2ofp1 rel arr (Fin p) = Some v /\ rank_of D lo hi v = let r := INR (smaller cat p) / INR (length cat - 1) in if rev then 1 - r else r.
Proof. exact (cat_rank_thm cat D lo hi m e rev rel arr p). Qed.
Print Assumptions C56_match_partial.
Theorem C56_inverse_partial cat D lo hi m e rev rel arr arr' p : am_dfcat cat D lo hi m e rev = Ok rel -> good_rv D lo hi -> matched m rev -> inside arr cat p ->
  exists v, p2ofp1 rel arr (Fin p) = Some v /\ p1ofp2 rel arr' v = Some (Fin p).
Proof. exact (cat_inverse_thm cat D lo hi m e rev rel arr arr' p). Qed.
Print Assumptions C56_inverse_partial.
Theorem C56_back_partial cat D lo hi m e rev rel arr p2 : am_dfcat cat D lo hi m e rev = Ok rel -> good_rv D lo hi -> matched m rev ->
  NoDup cat -> (2 <= length cat)%nat -> inlims arr lo hi p2 -> exists p1,
  p1ofp2 rel arr p2 = Some (Fin p1) /\ inside false cat p1 /\ p2ofp1 rel arr (Fin p1) = Some p2.
Proof. intros H G M. exact (cat_round cat D lo hi m e rev rel H G M arr p2). Qed.
Print Assumptions C56_back_partial.
(** two distributions *)
Theorem C56_dfdf_partial D1 D2 lo1 hi1 lo2 hi2 m e rev rel arr p : am_dfdf D1 D2 lo1 hi1 lo2 hi2 m e rev = Ok rel -> good_rv D1 lo1 hi1 -> good_rv D2 lo2 hi2 -> matched m rev ->
  inlims arr lo1 hi1 p ->
  exists v, p2ofp1 rel arr p = Some v /\ inlims arr lo2 hi2 v /\ rank_of D2 lo2 hi2 v = (if rev then 1 - rank_of D1 lo1 hi1 p else rank_of D1 lo1 hi1 p) /\
    p1ofp2 rel arr v = Some p /\
    forall p', inlims arr lo1 hi1 p' -> elt p p' -> exists v', p2ofp1 rel arr p' = Some v' /\ ordered rev v v'.
Proof. exact (dfdf_thm D1 D2 lo1 hi1 lo2 hi2 m e rev rel arr p). Qed.
Print Assumptions C56_dfdf_partial.
Theorem C56_dfdf_back_partial D1 D2 lo1 hi1 lo2 hi2 m e rev rel arr p : am_dfdf D1 D2 lo1 hi1 lo2 hi2 m e rev = Ok rel -> good_rv D1 lo1 hi1 -> good_rv D2 lo2 hi2 -> matched m rev ->
  inlims arr lo2 hi2 p -> exists v, p1ofp2 rel arr p = Some v /\ inlims arr lo1 hi1 v /\ p2ofp1 rel arr v = Some p.
Proof. exact (dfdf_back_thm D1 D2 lo1 hi1 lo2 hi2 m e rev rel arr p). Qed.
Print Assumptions C56_dfdf_back_partial.
(** ... but in an array the smallest and the largest object always get the value 0 *)
Theorem C56_ends_refuted cat D lo hi m e rev rel p : am_dfcat cat D lo hi m e rev = Ok rel -> matched m rev -> NoDup cat -> (2 <= length cat)%nat ->
  In p cat -> (forall q, In q cat -> p <= q) \/ (forall q, In q cat -> q <= p) -> p2ofp1 rel true (Fin p) = Some (Fin 0).
Proof. intros H M N L Hp E. exact (cat_ends_zero cat D lo hi m e rev rel H M p Hp E N L). Qed.
Print Assumptions C56_ends_refuted.
Theorem C56_dfdf_ends_refuted D1 D2 lo1 hi1 lo2 hi2 m e rev rel p : am_dfdf D1 D2 lo1 hi1 lo2 hi2 m e rev = Ok rel -> good_rv D1 lo1 hi1 -> matched m rev ->
  p = lo1 \/ p = hi1 -> p2ofp1 rel true p = Some (Fin 0).
Proof. exact (dfdf_ends D1 D2 lo1 hi1 lo2 hi2 m e rev rel p). Qed.
Print Assumptions C56_dfdf_ends_refuted.
Example C56_nonvacuous : forall rev arr, exists rel, am_dfcat cat3 unif (Fin 0) (Fin 1) zero_mass modes0 rev = Ok rel /\ good_rv unif (Fin 0) (Fin 1) /\ matched zero_mass rev /\
  NoDup cat3 /\ (2 <= length cat3)%nat /\ inside arr cat3 (3/2) /\ inside arr cat3 2 /\ In 2 cat3 /\ inlims arr (Fin 0) (Fin 1) (Fin (1/2)) /\ smaller cat3 2 = 1%nat /\
  exists rel', am_dfdf unif unif (Fin 0) (Fin 1) (Fin 0) (Fin 1) zero_mass modes0 rev = Ok rel'.
Proof.
  intros rev arr. destruct (dfcat_ok cat3 unif (Fin 0) (Fin 1) zero_mass rev zero_ok) as (rel & E); [discriminate|]. exists rel.
  split; auto. split; [apply unif_good|]. split; [apply zero_matched|]. split; [apply cat3_nodup|]. split; [cbn; lia|]. split; [apply cat3_in|]. split; [apply cat3_in2|].
  split; [cbn; auto|]. split; [destruct arr; cbn; [lra|split; apply ele_Fin; lra]|]. split; [|apply dfdf_ok, zero_ok].
  unfold smaller, cat3. cbn [filter]. replace (rltb 3 2) with false by (symmetry; apply rltb_ge; lra). replace (rltb 1 2) with true by (symmetry; apply rltb_lt; lra).
  replace (rltb 2 2) with false by (symmetry; apply rltb_ge; lra). reflexivity.
Qed.

(** * C64: values outside the matched range get the extrapolation value asked for *)
(** ... when mass is missing on that side *)
Theorem C64_p2_partial cat D lo hi m e rev rel arr p : am_dfcat cat D lo hi m e rev = Ok rel ->
  ((if rev then above cat p else below cat p) -> 0 < low2 m -> asked_fill (e_low2 e) lo (p2ofp1 rel arr p)) /\
  ((if rev then below cat p else above cat p) -> 0 < high2 m -> asked_fill (e_high2 e) hi (p2ofp1 rel arr p)).
Proof. intros H. split; [exact (out_p2_low cat D lo hi m e rev rel H arr p)|exact (out_p2_high cat D lo hi m e rev rel H arr p)]. Qed.
Print Assumptions C64_p2_partial.
Theorem C64_p1_partial cat D lo hi m e rev rel arr p : am_dfcat cat D lo hi m e rev = Ok rel -> elt lo hi ->
  ((if rev then elt hi p else elt p lo) -> 0 < low1 m -> exists q, In q cat /\ (forall r, In r cat -> q <= r) /\ asked_fill (e_low1 e) (Fin q) (p1ofp2 rel arr p)) /\
  ((if rev then elt p lo else elt hi p) -> 0 < high1 m -> exists q, In q cat /\ (forall r, In r cat -> r <= q) /\ asked_fill (e_high1 e) (Fin q) (p1ofp2 rel arr p)).
Proof. intros H O. split; [exact (out_p1_low cat D lo hi m e rev rel H arr p O)|exact (out_p1_high cat D lo hi m e rev rel H arr p O)]. Qed.
Print Assumptions C64_p1_partial.
Theorem C64_dfdf_partial D1 D2 lo1 hi1 lo2 hi2 m e rev rel arr p : am_dfdf D1 D2 lo1 hi1 lo2 hi2 m e rev = Ok rel -> elt lo1 hi1 ->
  ((if rev then elt hi1 p else elt p lo1) -> 0 < low2 m -> asked_fill (e_low2 e) lo2 (p2ofp1 rel arr p)) /\
  ((if rev then elt p lo1 else elt hi1 p) -> 0 < high2 m -> asked_fill (e_high2 e) hi2 (p2ofp1 rel arr p)).
Proof. intros H O. split; [exact (dfdf_out_p2_low D1 D2 lo1 hi1 lo2 hi2 m e rev rel H arr p O)|exact (dfdf_out_p2_high D1 D2 lo1 hi1 lo2 hi2 m e rev rel H arr p O)]. Qed.
Print Assumptions C64_dfdf_partial.
(** with no missing mass (the default) what is asked for does not matter: [e] is not in the answers,
    even when NaN is asked for, as it is by default *)
Theorem C64_lost_refuted cat D lo hi e rev rel p : am_dfcat cat D lo hi zero_mass e rev = Ok rel -> good_rv D lo hi ->
  (below cat p -> p2ofp1 rel false p = Some (if rev then hi else lo) /\ p2ofp1 rel true p = Some (Fin 0)) /\
  (above cat p -> p2ofp1 rel false p = Some (if rev then lo else hi) /\ p2ofp1 rel true p = Some (Fin 0)).
Proof. intros H G. exact (lost_p2 cat D lo hi zero_mass e rev rel H p G eq_refl). Qed.
Print Assumptions C64_lost_refuted.
Theorem C64_lost_back_refuted cat D lo hi e rev rel arr p : am_dfcat cat D lo hi zero_mass e rev = Ok rel -> elt lo hi -> (2 <= length cat)%nat -> elt p lo \/ elt hi p ->
  exists q, In q cat /\ ((forall r, In r cat -> q <= r) \/ (forall r, In r cat -> r <= q)) /\ p1ofp2 rel arr p = Some (Fin q).
Proof.
  intros H O L P. destruct (lost_p1 cat D lo hi e rev rel arr p H O L P) as (q & A & B & C). exists q. split; auto. split; auto.
  destruct (xorb rev (extb p lo)); auto.
Qed.
Print Assumptions C64_lost_back_refuted.
Theorem C64_dfdf_lost_refuted D1 D2 lo1 hi1 lo2 hi2 e rev rel p : am_dfdf D1 D2 lo1 hi1 lo2 hi2 zero_mass e rev = Ok rel -> good_rv D1 lo1 hi1 -> good_rv D2 lo2 hi2 ->
  (elt p lo1 -> p2ofp1 rel false p = Some (if rev then hi2 else lo2) /\ p2ofp1 rel true p = Some (Fin 0)) /\
  (elt hi1 p -> p2ofp1 rel false p = Some (if rev then lo2 else hi2) /\ p2ofp1 rel true p = Some (Fin 0)).
Proof. intros H G G'. exact (dfdf_lost D1 D2 lo1 hi1 lo2 hi2 zero_mass e rev rel H p G G' eq_refl). Qed.
Print Assumptions C64_dfdf_lost_refuted.
(** with two distributions, property 1 is filled with what was asked for property 2 *)
Theorem C64_dfdf_swapped_refuted D1 D2 lo1 hi1 lo2 hi2 m e rev rel arr p : am_dfdf D1 D2 lo1 hi1 lo2 hi2 m e rev = Ok rel -> elt lo2 hi2 ->
  ((if rev then elt hi2 p else elt p lo2) -> 0 < low1 m -> asked_fill (e_low2 e) lo2 (p1ofp2 rel arr p)) /\
  ((if rev then elt p lo2 else elt hi2 p) -> 0 < high1 m -> asked_fill (e_high2 e) hi2 (p1ofp2 rel arr p)).
Proof. intros H O. split; [exact (dfdf_out_p1_low D1 D2 lo1 hi1 lo2 hi2 m e rev rel H arr p O)|exact (dfdf_out_p1_high D1 D2 lo1 hi1 lo2 hi2 m e rev rel H arr p O)]. Qed.
Print Assumptions C64_dfdf_swapped_refuted.
Definition tenths : masses := mkMass (1/10) (1/5) (1/10) (1/5).
Example C64_nonvacuous : forall rev m, m = tenths \/ m = zero_mass -> exists rel rel', am_dfcat cat3 unif (Fin 0) (Fin 1) m modes0 rev = Ok rel /\
  am_dfdf unif unif (Fin 0) (Fin 1) (Fin 0) (Fin 1) m modes0 rev = Ok rel' /\ below cat3 (Fin (1/2)) /\ above cat3 PInf /\ elt MInf (Fin 0) /\ elt (Fin 1) PInf /\
  0 < low1 tenths /\ 0 < low2 tenths /\ 0 < high1 tenths /\ 0 < high2 tenths.
Proof.
  intros rev m Hm. assert (M : check_masses m = Ok tt) by (destruct Hm as [->| ->]; apply masses_ok; cbn; lra).
  destruct (dfcat_ok cat3 unif (Fin 0) (Fin 1) m rev M) as (rel & E); [discriminate|]. destruct (dfdf_ok unif unif (Fin 0) (Fin 1) (Fin 0) (Fin 1) m rev M) as (rel' & E').
  exists rel, rel'. split; auto. split; auto. split; [|split; [|repeat split; cbn; lra]]; intros q Hq; cbn in Hq; cbn; auto.
  destruct Hq as [<-|[<-|[<-|[]]]]; lra.
Qed.
