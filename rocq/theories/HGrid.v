(** Lemmas on gridding the properties of a handler. *)
From Verif Require Import Dict Util Rat Val Arr HandlerModel Handler GridModel GridModel2 GridSpec GridAxis GridNew GridAdd GridCat GridEx GridMore HGridModel HGridSpec.
Open Scope string_scope. Open Scope list_scope.
Open Scope Qc_scope.

(** * Gridder with given centre and sides *)
Lemma bcast_side_id d s s' : bcast_side d s = Ok s' -> flen s = d -> forall i, (i < d)%nat -> fnth s' i = fnth s i.
Proof.
  intros H L i Hi. destruct (bcast_side_ok _ _ _ H) as [_ Q]. rewrite (Q i Hi).
  destruct (Nat.eqb_spec (flen s) 1) as [E|E]; [|reflexivity]. replace i with 0%nat by lia. reflexivity.
Qed.

Lemma times_seq k n : (k < n)%nat -> times k (seq 0 n) = 1%nat.
Proof.
  intros H. unfold times. assert (N : NoDup (seq 0 n)) by apply seq_NoDup.
  rewrite NoDup_count_occ' in N. apply N. apply in_seq. lia.
Qed.
Lemma scaled_1 {A : Alg} (x : A) : scaled 1 x = x.
Proof. unfold scaled. replace (nq 1) with 1 by reflexivity. rewrite emb_1. apply (ARmul_1_l (Rth_ARth (Eqsth _) (Eq_ext _ _ _) (v_rt _))). Qed.

Section G.
Context {A : Alg}.
Notation grid := (grid A).

Lemma gridder_fixed rows nv vrows c s pix (g : grid) :
  gridder (Pos2 3 rows) (Val2 nv vrows) (Some c) (Some s) pix None None None = Ok g -> rows_ok 3 rows ->
  flen c = 3%nat -> flen s = 3%nat -> (forall x, In x (fv pix) -> 0 < x) ->
  exists s' g0 d, rows <> [] /\ length vrows = length rows /\ bcast_side 3 s = Ok s' /\
    grid_new A nv c s' pix None None = Ok g0 /\ same_geometry g0 g /\ g_nprop g = nv /\ consistent g /\
    g_nobj g = inside_count g rows /\
    g_data g = Some d /\ awf d /\ shape d = g_npix g ++ [nv] /\
    forall ix k, inb (g_npix g) ix = true -> (k < nv)%nat ->
      getd v0 d (ix ++ [k]) = cell_total g ix rows (map (fun row => nth k row v0) vrows).
Proof.
  intros H R Lc Ls Pp. unfold gridder in H.
  destruct (Nat.eqb_spec (length rows) 0) as [L0|L0]; [discriminate|].
  assert (Rn : rows <> []) by (intros ->; simpl in L0; lia). cbn [bind] in H.
  destruct (Nat.eqb_spec (length vrows) (length rows)) as [Lv|]; [|discriminate]. cbn [check bind] in H.
  rewrite Lc in H. cbn [Nat.eqb check bind] in H.
  destruct (bcast_side 3 s) as [s'|] eqn:Es; cbn [bind] in H; [|discriminate].
  destruct (grid_new A nv c s' pix None None) as [g0|] eqn:Eg; cbn [bind] in H; [|discriminate].
  pose proof (grid_new_consistent _ _ _ _ _ _ _ _ Eg Pp) as C0.
  pose proof (grid_new_inv _ _ _ _ _ _ _ _ Eg) as I. cbv zeta in I.
  destruct I as (s1 & p1 & _ & _ & Inp & Ino & Ind & Ic & _ & _ & _ & _ & _ & _ & _ & _ & _ & _ & _ & If & _ & _ & _).
  rewrite Lc in Ind, If.
  assert (Rd : ready (init_grid g0) (full (g_npix g0 ++ [g_nprop g0]) v0)).
  { apply init_ready. rewrite If. reflexivity. }
  destruct (add_from_cat_existing (init_grid g0) _ rows (Val2 nv vrows) None (seq 0 (g_nprop g0)) (init_consistent g0 C0) Rd) as (d' & E1 & W & Sh & V).
  - cbn [g_ndim init_grid with_nobj with_data]. rewrite Ind. exact R.
  - cbn [val_rows]. exact Lv.
  - reflexivity.
  - right. cbn [val_cols]. rewrite seq_length, Inp. split; auto. apply Forall_forall. intros x Hx. apply in_seq in Hx. lia.
  - cbn [g_ndim init_grid with_nobj with_data] in E1. rewrite Ind in E1. rewrite E1 in H. injection H as <-.
    exists s', g0, d'. split; [exact Rn|]. split; [exact Lv|]. split; [reflexivity|]. split; [exact Eg|].
    split; [repeat split|]. split; [exact Inp|]. split.
    { pose proof (init_consistent g0 C0) as CI.
      assert (Cd : consistent (with_data (init_grid g0) (Some d'))) by (destruct CI; constructor; auto; cbn; split; auto).
      destruct Cd; constructor; auto. }
    split; [cbn; rewrite ?Ino; reflexivity|].
    split; [reflexivity|]. split; [exact W|]. split; [cbn; rewrite Sh; cbn; rewrite Inp; reflexivity|].
    intros ix k Hix Hk. cbn in Hix.
    rewrite (V ix k Hix) by (cbn; lia). rewrite getd_full.
    + rewrite Inp, (times_seq k nv Hk), scaled_1. unfold used_col. cbn [val_cols val_col].
      destruct (Nat.eqb_spec nv 1); [replace k with 0%nat by lia|];
        rewrite (ARadd_0_l (Rth_ARth (Eqsth _) (Eq_ext _ _ _) (v_rt A))); reflexivity.
    + rewrite inb_snoc by (apply inb_length; exact Hix). rewrite Hix, Inp. apply Nat.ltb_lt in Hk. rewrite Hk. reflexivity.
Qed.

Lemma gridder_new rows nv vrows c s pix (g : grid) :
  gridder (Pos2 3 rows) (Val2 nv vrows) (Some c) (Some s) pix None None None = Ok g -> flen c = 3%nat ->
  exists s' g0, bcast_side 3 s = Ok s' /\ grid_new A nv c s' pix None None = Ok g0.
Proof.
  intros H Lc. unfold gridder in H.
  destruct (Nat.eqb_spec (length rows) 0) as [L0|L0]; [discriminate|]. cbn [bind] in H.
  destruct (Nat.eqb_spec (length vrows) (length rows)) as [Lv|]; [|discriminate]. cbn [check bind] in H.
  rewrite Lc in H. cbn [Nat.eqb check bind] in H.
  destruct (bcast_side 3 s) as [s'|] eqn:Es; cbn [bind] in H; [|discriminate].
  destruct (grid_new A nv c s' pix None None) as [g0|] eqn:Eg; cbn [bind] in H; [|discriminate]. eauto.
Qed.

Lemma gridder_fixed_ok rows nv vrows c s pix (g0 : grid) s' : rows <> [] -> rows_ok 3 rows -> length vrows = length rows ->
  flen c = 3%nat -> bcast_side 3 s = Ok s' -> (forall x, In x (fv pix) -> 0 < x) -> grid_new A nv c s' pix None None = Ok g0 ->
  exists g, gridder (A:=A) (Pos2 3 rows) (Val2 nv vrows) (Some c) (Some s) pix None None None = Ok g.
Proof.
  intros Rn R Lv Lc Es Pp Eg. unfold gridder.
  destruct (Nat.eqb_spec (length rows) 0) as [L0|L0]; [destruct rows; [tauto|discriminate]|]. cbn [bind].
  rewrite Lv, Nat.eqb_refl. cbn [check bind]. rewrite Lc. cbn [Nat.eqb check bind]. rewrite Es. cbn [bind]. rewrite Eg. cbn [bind].
  pose proof (grid_new_consistent _ _ _ _ _ _ _ _ Eg Pp) as C0.
  pose proof (grid_new_inv _ _ _ _ _ _ _ _ Eg) as I. cbv zeta in I.
  destruct I as (s1 & p1 & _ & _ & Inp & Ino & Ind & Ic & _ & _ & _ & _ & _ & _ & _ & _ & _ & _ & _ & If & _ & _ & _).
  rewrite Lc in Ind, If.
  assert (Rd : ready (init_grid g0) (full (g_npix g0 ++ [g_nprop g0]) v0)).
  { apply init_ready. rewrite If. reflexivity. }
  destruct (add_from_cat_existing (init_grid g0) _ rows (Val2 nv vrows) None (seq 0 (g_nprop g0)) (init_consistent g0 C0) Rd) as (d' & E1 & W & Sh & V).
  - cbn [g_ndim init_grid with_nobj with_data]. rewrite Ind. exact R.
  - cbn [val_rows]. exact Lv.
  - reflexivity.
  - right. cbn [val_cols]. rewrite seq_length, Inp. split; auto. apply Forall_forall. intros x Hx. apply in_seq in Hx. lia.
  - cbn [g_ndim init_grid with_nobj with_data] in E1. rewrite Ind in E1. rewrite E1. eauto.
Qed.
End G.

(** * Reading numbers out of a handler *)
Lemma numbers_ok c l : numbers c = Ok l <-> exists k, c = Some k /\ c_val k = map Some l.
Proof.
  unfold numbers. destruct c as [k|]; [|split; [discriminate|intros (k & E & _); discriminate]]. split.
  - intros H. exists k. split; auto. revert l H. induction (c_val k) as [|v r IH]; intros l H; simpl in H; [injection H as <-; auto|].
    destruct v as [v|]; cbn [bind] in H; [|discriminate]. destruct (mapM _ r) as [m|] eqn:E; cbn [bind] in H; [|discriminate].
    injection H as <-. simpl. rewrite (IH m); auto.
  - intros (k' & E & V). injection E as <-. rewrite V. clear. induction l as [|v r IH]; simpl; auto. rewrite IH. reflexivity.
Qed.
Lemma get_numbers_ok s p ua ih l : get_numbers s p ua ih = Ok l <-> column s p ua ih l.
Proof.
  unfold get_numbers, column. destruct (return_property s p ua (Some ih)) as [c|e]; cbn [bind].
  - rewrite numbers_ok. split; intros (k & E & V); exists k; (split; [|exact V]); congruence.
  - split; [discriminate|intros (k & E & _); discriminate].
Qed.

Lemma lim_cl_ok side l c len : 0 <= side -> lim_cl side l = Ok (c, len) ->
  exists lo hi, lim_spec side l lo hi /\ lo <= hi /\ c = (lo + hi) / zq 2 /\ len = hi - lo.
Proof.
  intros Hs H. destruct l as [a|]; cbn [lim_cl] in H.
  - destruct (fv a) as [|x [|y [|]]] eqn:E; try discriminate. injection H as <- <-.
    destruct (Qclt_le_dec y x) as [L|L].
    + exists y, x. unfold lim_spec. rewrite E. assert (y <= x) by (apply Qclt_le_weak; auto). repeat split; auto.
      * unfold Qcdiv. ring.
      * unfold qmax, qmin. assert (Ex : qleb x y = false) by (destruct (qleb x y) eqn:X; auto; apply qleb_le in X; exfalso; exact (Qclt_not_le _ _ L X)).
        rewrite Ex. reflexivity.
    + exists x, y. unfold lim_spec. rewrite E. repeat split; auto.
      unfold qmax, qmin. assert (Ex : qleb x y = true) by (apply qleb_le; auto). rewrite Ex. reflexivity.
  - injection H as <- <-. exists 0, side. cbn [lim_spec]. repeat split; auto; try ring. unfold Qcdiv. ring.
Qed.

(** * The cells *)
Lemma rows_of_ok n cols r : rows_of n cols = Ok r ->
  (forall l, In l cols -> length l = n) /\ r = map (fun i => map (fun l => nth i l 0) cols) (seq 0 n).
Proof.
  unfold rows_of. destruct (forallb _ cols) eqn:E; [|discriminate]. intros H. injection H as <-. split; auto.
  intros l Hl. rewrite forallb_forall in E. apply Nat.eqb_eq, E, Hl.
Qed.
Lemma rows_of_all n cols : (forall l, In l cols -> length l = n) -> exists r, rows_of n cols = Ok r.
Proof.
  intros H. unfold rows_of. replace (forallb _ cols) with true; eauto. symmetry. apply forallb_forall. intros l Hl. apply Nat.eqb_eq. auto.
Qed.

Lemma combine_maps {I X Y} (f : I -> X) (h : I -> Y) l : combine (map f l) (map h l) = map (fun i => (f i, h i)) l.
Proof. induction l; simpl; congruence. Qed.
Lemma filter_map_c {X Y} (f : X -> Y) (p : Y -> bool) l : filter p (map f l) = map f (filter (fun x => p (f x)) l).
Proof. induction l as [|a r IH]; simpl; auto. destruct (p (f a)); simpl; congruence. Qed.

Lemma vsum_qc (l : list Qc) : vsum (A:=QcAlg) l = fold_right Qcplus 0 l.
Proof. reflexivity. Qed.

Lemma cell_halo (P : list Qc -> bool) x y z n (cols : list (list Qc)) k v : nth_error cols k = Some v -> length v = n ->
  vsum (A:=QcAlg) (map snd (filter (fun ov => P (fst ov)) (combine (map (fun i => map (fun l => nth i l 0) [x; y; z]) (seq 0 n))
    (map (fun row => nth k row 0) (map (fun i => map (fun l => nth i l 0) cols) (seq 0 n)))))) =
  halo_sum (fun j => P (pos3 x y z j)) v.
Proof.
  intros Ek Lv. rewrite map_map, combine_maps, filter_map_c, map_map. cbn [fst snd]. rewrite vsum_qc. unfold halo_sum. rewrite Lv.
  f_equal. apply map_ext. intros i. rewrite (nth_indep _ 0 ((fun l => nth i l 0) [])).
  - rewrite (map_nth (fun l => nth i l 0)). apply nth_error_nth with (d := []) in Ek. rewrite Ek. reflexivity.
  - rewrite map_length. apply nth_error_Some. congruence.
Qed.

Lemma prodq_norm (g : grid QcAlg) : consistent g -> g_ndim g = 3%nat ->
  prodq (fv (g_pix g)) = fnth (g_pix g) 0 * fnth (g_pix g) 1 * fnth (g_pix g) 2 /\ prodq (fv (g_pix g)) <> 0.
Proof.
  intros C D. pose proof (co_p _ C) as L. rewrite D in L. unfold fnth, flen in *.
  assert (P : forall i, (i < 3)%nat -> 0 < nth i (fv (g_pix g)) 0).
  { intros i Hi. pose proof (co_axis _ C i) as X. rewrite D in X. apply ao_p in X; auto. }
  pose proof (P 0%nat ltac:(lia)) as P0. pose proof (P 1%nat ltac:(lia)) as P1. pose proof (P 2%nat ltac:(lia)) as P2.
  destruct (fv (g_pix g)) as [|a [|b [|e [|]]]]; try discriminate. cbn in *. split; [ring|].
  intros H. apply Qcmult_integral in H as [H|H]; [subst; exact (Qclt_not_eq _ _ P0 eq_refl)|].
  apply Qcmult_integral in H as [H|H]; [subst; exact (Qclt_not_eq _ _ P1 eq_refl)|].
  apply Qcmult_integral in H as [H|H]; [subst; exact (Qclt_not_eq _ _ P2 eq_refl)|discriminate].
Qed.

Lemma qcsum_scale (q : Qc) l : fold_right Qcplus 0 (map (fun v => v * q) l) = q * fold_right Qcplus 0 l.
Proof. induction l as [|a r IH]; simpl; [ring|]. rewrite IH. ring. Qed.

Lemma div100 v : v / zq 100 = v * frac 1 100.
Proof. unfold Qcdiv. f_equal. Qed.

Lemma make_grid_ok x y z cols cl lint res norm g :
  make_grid x y z cols cl lint res norm = Ok g -> length cl = 3%nat -> good_res res -> (forall p, In p cl -> 0 <= snd p) ->
  x <> [] /\ cols <> [] /\ length y = length x /\ length z = length x /\ (forall v, In v cols -> length v = length x) /\
  gridded g x y z cols norm /\
  forall i c len, nth_error cl i = Some (c, len) -> exists p, pix_spec res i len p /\ 0 < p /\
    fnth (g_center g) i = c /\ fnth (g_pix g) i = p /\ frac 21 20 * p < len /\
    len - p * frac 1 20 <= fnth (g_side g) i /\ fnth (g_side g) i < len + p /\
    (forall k, len = zq k * p -> fnth (g_side g) i = len /\ nth i (g_npix g) 0%nat = Z.to_nat k).
Proof.
  intros H Lcl Gr Gl. unfold make_grid in H. set (pix := match res with Some r => r | None => _ end) in H.
  destruct (rows_of (length x) [x; y; z]) as [pos|] eqn:Ep; cbn [bind] in H; [|discriminate].
  destruct (rows_of_ok _ _ _ Ep) as [Lp ->].
  destruct (vals_of (length x) cols) as [vals|] eqn:Ev; cbn [bind] in H; [|discriminate].
  destruct cols as [|v0' cols'].
  { cbn in Ev. injection Ev as <-. exfalso. revert H. unfold gridder. rewrite map_length, seq_length.
    destruct (length x) as [|n]; cbn [Nat.eqb length bind]; discriminate. }
  set (cols := v0' :: cols') in *. unfold vals_of in Ev. change (match cols with [] => _ | _ => ?b end) with b in Ev.
  destruct (rows_of (length x) cols) as [vr|] eqn:Er; [|discriminate]. cbn [bind] in Ev.
  destruct (rows_of_ok _ _ _ Er) as [Lv ->].
  assert (Evv : vals = Val2 (A:=QcAlg) (length cols) (map (fun i => map (fun l => nth i l 0) cols) (seq 0 (length x)))) by (injection Ev; auto).
  subst vals. clear Ev.
  destruct (gridder _ _ _ _ _ _ _ _) as [g1|] eqn:Eg; cbn [bind] in H; [|discriminate].
  assert (Hp : forall w, In w (fv pix) -> 0 < w).
  { destruct res as [r|]; [exact Gr|]. subst pix. cbn [fv].
    intros w Hw. apply in_map_iff in Hw as (l & <- & Hl). apply in_map_iff in Hl as (p & <- & Hp).
    destruct (Qcle_lt_or_eq _ _ (Gl p Hp)) as [L|L].
    - clear - L. rewrite div100. qlra.
    - exfalso. apply In_nth_error in Hp as [i Hi].
      assert (Hi3 : (i < 3)%nat) by (rewrite <- Lcl; apply nth_error_Some; congruence).
      apply gridder_new in Eg; [|unfold flen; cbn [fv]; rewrite map_length; exact Lcl].
      destruct Eg as (s' & g0 & _ & Eg). apply grid_new_inv in Eg. cbv zeta in Eg.
      destruct Eg as (s1 & p1 & _ & Ep1 & Eg). unfold flen in Ep1; cbn [fv] in Ep1. rewrite map_length, Lcl in Ep1.
      destruct (bcast_pix_ok _ _ _ Ep1) as [_ Q]. specialize (Q i Hi3).
      decompose [and] Eg. match goal with X : forall i, (i < _)%nat -> fnth p1 i <> 0 /\ _ |- _ => destruct (X i) as [Y _] end.
      { unfold flen. cbn [fv]. rewrite map_length, Lcl. exact Hi3. }
      apply Y. rewrite Q. unfold flen, fnth. cbn [fv]. rewrite !map_length, Lcl. cbn [Nat.eqb].
      erewrite nth_error_nth; [|rewrite nth_error_map, nth_error_map, Hi; reflexivity]. cbn [option_map]. rewrite <- L. unfold Qcdiv. ring. }
  set (c := mkF false (map fst cl)) in *. set (s := mkF lint (map snd cl)) in *.
  assert (Lc : flen c = 3%nat) by (unfold flen, c; cbn [fv]; rewrite map_length; exact Lcl).
  assert (Ls : flen s = 3%nat) by (unfold flen, s; cbn [fv]; rewrite map_length; exact Lcl).
  destruct (gridder_fixed _ _ _ _ _ _ _ Eg) as (s' & g0 & d & Rn & _ & Es & Egn & SG & Np & C & No & Ed & Wd & Sd & V); auto.
  { apply Forall_forall. intros r Hr. apply in_map_iff in Hr as (i & <- & _). reflexivity. }
  injection H as <-.
  assert (D : g_ndim g1 = 3%nat).
  { apply grid_new_inv in Egn. cbv zeta in Egn. destruct Egn as (s1 & p1 & Egn). decompose [and] Egn. destruct SG as (-> & _). congruence. }
  set (q := norm_of norm g1).
  split; [intros ->; apply Rn; reflexivity|]. split; [discriminate|].
  split; [apply Lp; simpl; auto|]. split; [apply Lp; simpl; auto|]. split; [exact Lv|]. split.
  - assert (Hx : forall X, in_extent (g_axes (times_norm g1 X)) = in_extent (g_axes g1)) by reflexivity.
    assert (Cells : forall ix k v, inb (g_npix g1) ix = true -> nth_error cols k = Some v ->
       @get Qc d (ix ++ [k]) = Some (halo_sum (fun j => in_cell g1 ix (pos3 x y z j)) v)).
    { intros ix k v Hix Hk. assert (Hk' : (k < length cols)%nat) by (apply nth_error_Some; congruence).
      etransitivity; [apply (get_getd (A:=QcAlg) v0 d); [exact Wd|]|].
      { rewrite Sd, inb_snoc by (apply inb_length; exact Hix). rewrite Hix. apply Nat.ltb_lt in Hk'. rewrite Hk'. reflexivity. }
      f_equal. rewrite (V ix k Hix Hk'). unfold cell_total. apply (cell_halo (in_cell g1 ix)); auto. apply Lv. eapply nth_error_In; eauto. }
    split; [|split; [exact D|split; [exact Np|split]]].
    + destruct C as [? ? ? ? ? ? ? ? ? ? ? ? CD]. constructor; auto. cbn. rewrite Ed. cbn. split; [apply amap_wf; auto|]. rewrite Np. exact Sd.
    + cbn. rewrite No. unfold inside_count. rewrite filter_map_c, map_length. reflexivity.
    + exists (amap (fun v => v * q) d), q. split; [cbn; rewrite Ed; reflexivity|]. split.
      { unfold norm_is. destruct norm; try reflexivity. cbn [g_pix times_norm with_data]. unfold q, norm_of.
        destruct (prodq_norm g1 C D) as [E N]. rewrite <- E. field. exact N. }
      split.
      * intros ix k v Hix Hk. rewrite get_amap, (Cells ix k v Hix Hk). cbn [option_map]. f_equal. apply Qcmult_comm.
      * intros k v Hk. cbn [g_npix times_norm with_data].
        assert (Lvk : length v = length x) by (apply Lv; eapply nth_error_In; eauto).
        assert (T : fold_right Qcplus 0 (map (fun ix => halo_sum (fun j => in_cell g1 ix (pos3 x y z j)) v) (idxs (g_npix g1))) =
                    halo_sum (fun j => in_extent (g_axes g1) (pos3 x y z j)) v).
        { etransitivity; [|apply (cell_halo (in_extent (g_axes g1)) x y z (length x) cols k v Hk Lvk)].
          etransitivity; [|apply (cell_total_sum g1 (map (fun i => map (fun l => nth i l 0) [x; y; z]) (seq 0 (length x)))
            (map (fun row => nth k row 0) (map (fun i => map (fun l => nth i l 0) cols) (seq 0 (length x)))) C)].
          - rewrite vsum_qc. f_equal. apply map_ext. intros ix. symmetry. apply (cell_halo (in_cell g1 ix)); auto.
          - apply Forall_forall. intros r Hr. apply in_map_iff in Hr as (i & <- & _). rewrite D. reflexivity. }
        rewrite Hx, <- T. unfold prop_total. rewrite vsum_qc, <- qcsum_scale, map_map. f_equal. apply map_ext_in. intros ix Hix. apply in_idxs in Hix.
        unfold getd. etransitivity; [|apply (f_equal (fun o => match o with Some w => w * q | None => 0 end) (Cells ix k v Hix Hk))].
        rewrite (get_amap (fun v0 : Qc => v0 * q)). destruct (@get Qc d (ix ++ [k])); reflexivity.
  - intros i cc len Hi. assert (Hi3 : (i < 3)%nat) by (rewrite <- Lcl; apply nth_error_Some; congruence).
    assert (Ei : fnth s' i = len).
    { rewrite (bcast_side_id _ _ _ Es Ls i Hi3). unfold fnth, s. cbn [fv]. apply nth_error_nth. rewrite nth_error_map, Hi. reflexivity. }
    assert (Ls' : flen s' = 3%nat) by (apply (bcast_side_ok _ _ _ Es)).
    assert (Bs : bval s' i = len) by (unfold bval; rewrite Ls'; exact Ei).
    pose proof (proj1 (grid_new_success QcAlg (length cols) c s' pix None None Hp) (ex_intro _ g0 Egn)) as (_ & Lx & _ & _ & Big).
    rewrite Lc in Lx, Big. specialize (Big i Hi3). rewrite Bs in Big.
    assert (Bp : 0 < bval pix i).
    { apply Hp. unfold bval, fnth. unfold lens_ok, flen in *. destruct (Nat.eqb_spec (length (fv pix)) 1); apply nth_In; lia. }
    exists (bval pix i). split; [|split; [exact Bp|]].
    + unfold pix_spec, bval, pix in *. destruct res as [r|].
      * unfold lens_ok, flen, fnth in *. destruct (Nat.eqb_spec (length (fv r)) 1); apply nth_error_nth'; lia.
      * unfold flen, fnth. cbn [fv]. rewrite !map_length, Lcl. cbn [Nat.eqb]. apply nth_error_nth. rewrite !nth_error_map, Hi. reflexivity.
    + pose proof (grid_new_inv _ _ _ _ _ _ _ _ Egn) as I. cbv zeta in I. destruct I as (s1 & p1 & _ & _ & _ & _ & _ & Ic & _).
      destruct SG as (G1 & G2 & G3 & G4 & G5 & _).
      destruct (grid_new_side _ _ _ _ _ _ _ _ i Egn) as (E1 & E2 & E3 & E4); [lia|exact Bp|]. rewrite Bs in *.
      cbn [g_center g_pix g_side g_npix times_norm with_data]. rewrite G2, G3, G4, G5, Ic.
      split; [unfold fnth, c; cbn [fv]; apply nth_error_nth; rewrite nth_error_map, Hi; reflexivity|].
      auto.
Qed.
