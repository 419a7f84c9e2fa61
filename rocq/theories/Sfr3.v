(** Lemmas for C87. *)
From Verif Require Import Dict Util RealUtil RelModel AmModel AmSpec Am Rel SfrModel SfrSpec Sfr2.
From Coq Require Import Reals Lra Lia Sorted.
Open Scope string_scope. Open Scope list_scope.
Open Scope R_scope.

Lemma incr_nth l : forall i x0 x, incr (x0 :: l) -> nth_error (x0 :: l) i = Some x -> x0 <= x.
Proof.
  induction l as [|a l IH]; intros i x0 x H E.
  - destruct i as [|i]; cbn in E; [injection E as <-; lra|]. destruct i; discriminate.
  - apply sorted_cons2 in H. destruct H as (H1 & H2). destruct i as [|i]; cbn in E; [injection E as <-; lra|].
    specialize (IH i a x H2 E). lra.
Qed.
Lemma seg_mix xp : forall fp i x0 x1 y0 y1 t, incr xp -> length xp = length fp -> 0 <= t <= 1 ->
  nth_error xp i = Some x0 -> nth_error xp (S i) = Some x1 -> nth_error fp i = Some y0 -> nth_error fp (S i) = Some y1 ->
  seg (mix t x0 x1) xp fp = mix t y0 y1.
Proof.
  induction xp as [|a xp IH]; intros fp i x0 x1 y0 y1 t Hx L T X0 X1 Y0 Y1; [destruct i; discriminate|].
  destruct fp as [|b fp]; [discriminate|]. destruct xp as [|a' xp]; [destruct i as [|[|?]]; discriminate|].
  destruct fp as [|b' fp]; [discriminate|]. rewrite seg_cons. pose proof Hx as HX. apply sorted_cons2 in Hx. destruct Hx as (H1 & H2).
  destruct i as [|i].
  - cbn in X0, X1, Y0, Y1. injection X0 as ->. injection X1 as ->. injection Y0 as ->. injection Y1 as ->. unfold mix.
    destruct (Req_EM_T t 1) as [->|N].
    + replace ((1 - 1) * x0 + 1 * x1) with x1 by ring. rewrite (proj2 (rleb_le x1 x1)) by lra.
      change x1 with (hd 0 (x1 :: xp)) at 1. rewrite seg_hd; auto. cbn [hd]. ring.
    + rewrite (proj2 (rleb_gt x1 _)) by nra. destruct (reqb ((1 - t) * x0 + t * x1) x0) eqn:E.
      * apply reqb_eq in E. assert (t = 0) by nra. subst. ring.
      * field. lra.
  - cbn in X0, X1, Y0, Y1.
    assert (LE : a' <= x0) by (apply (incr_nth xp i a' x0 H2); exact X0).
    assert (LT : x0 < x1).
    { clear - H2 X0 X1. revert i a' H2 X0 X1. induction xp as [|c xp IH]; intros i a' H X0 X1; [destruct i as [|[|?]]; discriminate|].
      apply sorted_cons2 in H. destruct H as (A & B). destruct i as [|i]; cbn in X0, X1; [injection X0 as <-; injection X1 as <-; exact A|]. eauto. }
    rewrite (proj2 (rleb_le a' _)) by (unfold mix; nra). apply (IH (b' :: fp) i); auto.
Qed.
Lemma seg_cover xp : forall x, incr xp -> (2 <= length xp)%nat -> hd 0 xp <= x <= last xp 0 ->
  exists i x0 x1 t, nth_error xp i = Some x0 /\ nth_error xp (S i) = Some x1 /\ 0 <= t <= 1 /\ x = mix t x0 x1.
Proof.
  induction xp as [|a xp IH]; intros x H L B; [cbn in L; lia|]. destruct xp as [|a' xp]; [cbn in L; lia|].
  apply sorted_cons2 in H. destruct H as (H1 & H2). destruct (Rle_dec x a') as [X|X].
  - exists 0%nat, a, a', ((x - a) / (a' - a)). split; [reflexivity|]. split; [reflexivity|]. cbn in B.
    split; [|unfold mix; field; lra]. split; [unfold Rdiv; apply Rmult_le_pos; [lra|left; apply Rinv_0_lt_compat; lra]|].
    apply Rmult_le_reg_r with (a' - a); [lra|]. unfold Rdiv. rewrite Rmult_assoc, Rinv_l by lra. lra.
  - destruct xp as [|c xp]; [cbn in B; lra|].
    destruct (IH x H2 ltac:(cbn; lia)) as (i & x0 & x1 & t & E0 & E1 & T & E).
    { change (last (a :: a' :: c :: xp) 0) with (last (a' :: c :: xp) 0) in B. cbn [hd]. lra. }
    exists (S i), x0, x1, t. auto.
Qed.

Lemma zvals_ok : zvals = map mid smf_published.
Proof. unfold zvals, smf_bins, smf_published, mid. cbn [map zlo zhi s_zmin s_zmax]. repeat (f_equal; try lra). Qed.
Lemma a1_ok : a1vals = map s_a1 smf_published.
Proof. unfold a1vals, smf_bins, smf_published. cbn [map al1 s_a1]. repeat (f_equal; try lra). Qed.
Lemma a2_ok : a2vals = map s_a2 smf_published.
Proof. unfold a2vals, smf_bins, smf_published. cbn [map al2 s_a2]. repeat (f_equal; try lra). Qed.
Lemma p1_ok : p1vals = map s_p1 smf_published.
Proof. unfold p1vals, smf_bins, smf_published, ten. cbn [map ph1 s_p1 phi_val]. unfold p10. repeat (f_equal; try lra). Qed.
Lemma p2_ok : p2vals = map s_p2 smf_published.
Proof. unfold p2vals, smf_bins, smf_published, ten. cbn [map ph2 s_p2 phi_val]. unfold p10. repeat (f_equal; try lra). Qed.
Lemma ms_ok : msvals = map s_m smf_published.
Proof. unfold msvals, smf_bins, smf_published, ten. cbn [map lms salpeter s_m]. unfold p10. rewrite !Rmult_1_l. repeat (f_equal; try lra). Qed.

Lemma mids_incr : incr (map (fun s => 1 + mid s) smf_published).
Proof. unfold smf_published, mid. cbn [map s_zmin s_zmax]. repeat (constructor; [|]; try (constructor; lra)). all: constructor. Qed.

Section Cosmo.
Context (dlold vold dlnew vnew : R -> R).
Context (PD : forall z, 0 < z -> 0 < dlold z /\ 0 < vold z /\ 0 < dlnew z /\ 0 < vnew z).
Notation car := (carried dlold vold dlnew vnew).
Lemma bin_in s : In s smf_published -> 0 < mid s /\ 0 < s_m s /\ 0 <= s_p1 s /\ 0 < s_p2 s /\ -0.95 <= s_a1 s <= 0.82 /\ -1.88 <= s_a2 s <= -1.28.
Proof.
  intros H. assert (P : forall x, 0 < ten x) by (intros x; apply exp_pos).
  cbn in H. repeat destruct H as [<-|H]; try contradiction; unfold mid; cbn [s_zmin s_zmax s_m s_p1 s_p2 s_a1 s_a2];
    repeat match goal with |- context [ten ?x] => let y := fresh "y" in pose proof (P x); set (y := ten x) in * end; repeat split; lra.
Qed.
Lemma zp_ok : map (fun v => 1 + v) zvals = map (fun s => 1 + mid s) smf_published.
Proof. rewrite zvals_ok, map_map. reflexivity. Qed.
Lemma combine_maps {A B C} (f : A -> B) (g : A -> C) l : combine (map f l) (map g l) = map (fun a => (f a, g a)) l.
Proof. induction l; cbn; congruence. Qed.
Lemma cv_ok (f : smf -> R) l : l = map f smf_published ->
  map (fun p : R * R => snd p * / (vnew (fst p) / vold (fst p))) (combine zvals l) = map (fun s => f s * (vold (mid s) / vnew (mid s))) smf_published.
Proof.
  intros ->. rewrite zvals_ok, combine_maps, map_map. apply map_ext_in. intros s H. cbn [fst snd].
  destruct (bin_in s H) as (M & _). destruct (PD _ M) as (_ & A & _ & B). f_equal. field. split; lra.
Qed.
Lemma cd_ok : map (fun p : R * R => snd p * (dlnew (fst p) / dlold (fst p)) ^ 2) (combine zvals msvals) = map (fun s => s_m (car s)) smf_published.
Proof. rewrite ms_ok, zvals_ok, combine_maps, map_map. reflexivity. Qed.
(** the columns that are interpolated *)
Lemma smfpars_ok z : b17_smfpars dlold vold dlnew vnew z =
  let I f := interp_flat (1 + z) (map (fun s => 1 + mid s) smf_published) (map f smf_published) in
  (p10 (I (fun s => log (s_m (car s)))), I (fun s => s_a1 (car s)), I (fun s => s_p1 (car s)), I (fun s => s_a2 (car s)), p10 (I (fun s => log (s_p2 (car s))))).
Proof.
  unfold b17_smfpars. rewrite zp_ok, cd_ok, (cv_ok s_p1 _ p1_ok), (cv_ok s_p2 _ p2_ok), a1_ok, a2_ok, !map_map. reflexivity.
Qed.
Lemma hd_map {A} (f : A -> R) a l : hd 0 (map f (a :: l)) = f a. Proof. reflexivity. Qed.
Lemma flat_mix f i s u t : nth_error smf_published i = Some s -> nth_error smf_published (S i) = Some u -> 0 <= t <= 1 ->
  interp_flat (1 + mix t (mid s) (mid u)) (map (fun s => 1 + mid s) smf_published) (map f smf_published) = mix t (f s) (f u).
Proof.
  intros A B T. unfold interp_flat.
  replace (1 + mix t (mid s) (mid u)) with (mix t (1 + mid s) (1 + mid u)) by (unfold mix; ring).
  assert (HB : hd 0 (map (fun s => 1 + mid s) smf_published) <= mix t (1 + mid s) (1 + mid u) <= last (map (fun s => 1 + mid s) smf_published) 0).
  { assert (X : forall r, In r smf_published -> hd 0 (map (fun s => 1 + mid s) smf_published) <= 1 + mid r <= last (map (fun s => 1 + mid s) smf_published) 0).
    { intros r H. unfold smf_published, mid. cbn [map hd last s_zmin s_zmax].
      cbn in H. repeat destruct H as [<-|H]; try contradiction; cbn [s_zmin s_zmax]; lra. }
    pose proof (X s (nth_error_In _ _ A)). pose proof (X u (nth_error_In _ _ B)). unfold mix. nra. }
  rewrite interp_in by exact HB.
  apply (seg_mix _ _ i); auto; try apply mids_incr; try (rewrite !map_length; reflexivity); rewrite nth_error_map, ?A, ?B; reflexivity.
Qed.
Lemma smf_between i s u t : nth_error smf_published i = Some s -> nth_error smf_published (S i) = Some u -> 0 <= t <= 1 ->
  SfrSpec.between t (car s) (car u) (b17_smfpars dlold vold dlnew vnew (mix t (mid s) (mid u))).
Proof.
  intros A B T. rewrite smfpars_ok. cbv zeta beta. rewrite !(flat_mix _ i s u t A B T). reflexivity.
Qed.
Lemma smf_cover z : 0.0425 <= z <= 7 -> exists i s u t,
  nth_error smf_published i = Some s /\ nth_error smf_published (S i) = Some u /\ 0 <= t <= 1 /\ z = mix t (mid s) (mid u).
Proof.
  intros Z. destruct (seg_cover (map (fun s => 1 + mid s) smf_published) (1 + z)) as (i & x0 & x1 & t & A & B & T & E).
  - apply mids_incr.
  - rewrite map_length. cbn. lia.
  - unfold smf_published, mid. cbn [map hd last s_zmin s_zmax]. lra.
  - rewrite nth_error_map in A, B. destruct (nth_error smf_published i) as [s|] eqn:S; [|discriminate]. 
    destruct (nth_error smf_published (Datatypes.S i)) as [u|] eqn:U; [|discriminate]. cbn in A, B. injection A as <-. injection B as <-.
    exists i, s, u, t. split; [exact S|]. split; [exact U|]. split; [exact T|]. unfold mix in *. lra.
Qed.
Lemma log_inv x : 0 < x -> p10 (log x) = x.
Proof. intros H. unfold p10, Rpower, log. replace (ln x / ln 10 * ln 10) with (ln x) by (field; pose proof ln10; lra). apply exp_ln. exact H. Qed.
Lemma car_pos s : In s smf_published -> 0 < s_m (car s) /\ 0 <= s_p1 (car s) /\ 0 < s_p2 (car s).
Proof.
  intros H. destruct (bin_in s H) as (M & A & B & C & _). destruct (PD _ M) as (D1 & D2 & D3 & D4). unfold carried. cbn [s_m s_p1 s_p2].
  assert (0 < dlnew (mid s) / dlold (mid s)) by (apply Rdiv_lt_0_compat; lra).
  assert (0 < vold (mid s) / vnew (mid s)) by (apply Rdiv_lt_0_compat; lra).
  repeat split; [apply Rmult_lt_0_compat; [lra|apply pow_lt; lra]|apply Rmult_le_pos; lra|apply Rmult_lt_0_compat; lra].
Qed.
Lemma smf_flat z s : (z <= 0.0425 /\ s = hd s smf_published) \/ (7 <= z /\ s = last smf_published s) ->
  b17_smfpars dlold vold dlnew vnew z = (s_m (car s), s_a1 (car s), s_p1 (car s), s_a2 (car s), s_p2 (car s)).
Proof.
  intros H. rewrite smfpars_ok. cbv zeta beta.
  assert (X : forall f, interp_flat (1 + z) (map (fun s => 1 + mid s) smf_published) (map f smf_published) = f s).
  { intros f. destruct H as [(Z & ->)|(Z & ->)].
    - destruct Z as [Z|Z].
      + unfold interp_flat. rewrite interp_low; [reflexivity|]. cbn [elt]. unfold smf_published, mid. cbn [map hd s_zmin s_zmax]. lra.
      + replace (1 + z) with (hd 0 (map (fun s => 1 + mid s) smf_published)) by (rewrite Z; unfold smf_published, mid; cbn [map hd s_zmin s_zmax]; lra).
        unfold interp_flat. rewrite interp_in.
        * rewrite seg_hd; [reflexivity|apply mids_incr|rewrite !map_length; reflexivity].
        * split; [lra|]. apply nondec_last, incr_nondec, mids_incr.
    - destruct Z as [Z|Z].
      + unfold interp_flat. rewrite interp_high; [reflexivity|apply nondec_last, incr_nondec, mids_incr|].
        cbn [elt]. unfold smf_published, mid. cbn [map last s_zmin s_zmax]. lra.
      + unfold interp_flat. assert (E : 1 + z = last (map (fun s => 1 + mid s) smf_published) 0) by (rewrite <- Z; unfold smf_published, mid; cbn [map last s_zmin s_zmax]; lra).
        rewrite E. rewrite interp_in.
        * rewrite seg_last; [reflexivity|rewrite !map_length; reflexivity|discriminate|apply incr_nondec, mids_incr|lra].
        * split; [|lra]. apply nondec_last, incr_nondec, mids_incr. }
  assert (IN : In s smf_published) by (destruct H as [(_ & ->)|(_ & ->)]; cbn; tauto).
  destruct (car_pos s IN) as (A & _ & B). rewrite !X, !log_inv by assumption. reflexivity.
Qed.
Lemma smf_range z m a1 p1 a2 p2 : b17_smfpars dlold vold dlnew vnew z = (m, a1, p1, a2, p2) ->
  0 < m /\ 0 <= p1 /\ 0 < p2 /\ a2 < a1 /\ -0.95 <= a1 <= 0.82 /\ -1.88 <= a2 <= -1.28.
Proof.
  intros E.
  destruct (Rle_dec z 0.0425) as [L|L]; [|destruct (Rle_dec 7 z) as [L'|L']].
  - rewrite (smf_flat z (hd (Smf 0 0 0 0 0 0 0) smf_published)) in E by (left; split; [exact L|reflexivity]).
    assert (IN : In (hd (Smf 0 0 0 0 0 0 0) smf_published) smf_published) by (cbn; tauto).
    revert E IN. generalize (hd (Smf 0 0 0 0 0 0 0) smf_published). intros s E IN. pose proof (car_pos s IN). pose proof (bin_in s IN).
    unfold carried in *; cbn [s_m s_p1 s_p2 s_a1 s_a2] in *. injection E as <- <- <- <- <-. repeat split; try tauto; lra.
  - rewrite (smf_flat z (last smf_published (Smf 0 0 0 0 0 0 0))) in E by (right; split; [exact L'|reflexivity]).
    assert (IN : In (last smf_published (Smf 0 0 0 0 0 0 0)) smf_published) by (cbn; tauto).
    revert E IN. generalize (last smf_published (Smf 0 0 0 0 0 0 0)). intros s E IN. pose proof (car_pos s IN). pose proof (bin_in s IN).
    unfold carried in *; cbn [s_m s_p1 s_p2 s_a1 s_a2] in *. injection E as <- <- <- <- <-. repeat split; try tauto; lra.
  - destruct (smf_cover z ltac:(lra)) as (i & s & u & t & A & B & T & ->).
    pose proof (smf_between i s u t A B T) as X. rewrite E in X. unfold SfrSpec.between in X. injection X as -> -> -> -> ->.
    apply nth_error_In in A, B. pose proof (car_pos s A). pose proof (bin_in s A). pose proof (car_pos u B). pose proof (bin_in u B).
    unfold carried in *; cbn [s_m s_p1 s_p2 s_a1 s_a2] in *. unfold mix.
    repeat split; try (apply exp_pos); try nra.
Qed.
End Cosmo.
