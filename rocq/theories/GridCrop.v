(** crop: C12. *)
From Verif Require Import Util Rat Val Arr GridModel GridSpec GridAxis GridNew GridAdd GridCat GridSpectra GridSpecFunc GridEx GridPad.
Open Scope Qc_scope.

(** ** minimum and maximum of a list *)
Lemma qmin_le x y : qmin x y <= x /\ qmin x y <= y.
Proof. unfold qmin. destruct (qleb x y) eqn:E; [apply qleb_le in E|apply qleb_gt in E]; split; qlra. Qed.
Lemma qmax_ge x y : x <= qmax x y /\ y <= qmax x y.
Proof. unfold qmax. destruct (qleb x y) eqn:E; [apply qleb_le in E|apply qleb_gt in E]; split; qlra. Qed.
Lemma qmin_or x y : qmin x y = x \/ qmin x y = y.
Proof. unfold qmin. destruct (qleb x y); auto. Qed.
Lemma qmax_or x y : qmax x y = x \/ qmax x y = y.
Proof. unfold qmax. destruct (qleb x y); auto. Qed.

Lemma lmin_spec l : l <> [] -> In (lmin l) l /\ forall y, In y l -> lmin l <= y.
Proof.
  intros H. unfold lmin. destruct l as [|a l]; [tauto|]. cbn [hd]. clear H. split.
  - assert (G : forall m, fold_right qmin a m = a \/ In (fold_right qmin a m) m).
    { induction m as [|b m IH]; simpl; auto. destruct (qmin_or b (fold_right qmin a m)) as [->| ->]; [auto|]. destruct IH; auto. }
    destruct (G (a :: l)) as [E|E]; [rewrite E; left; auto|exact E].
  - generalize (a :: l). intros m. induction m as [|b m IH]; simpl; [tauto|]. intros y [<-|Hy].
    + apply qmin_le.
    + apply IH in Hy. destruct (qmin_le b (fold_right qmin a m)). qlra.
Qed.
Lemma lmax_spec l : l <> [] -> In (lmax l) l /\ forall y, In y l -> y <= lmax l.
Proof.
  intros H. unfold lmax. destruct l as [|a l]; [tauto|]. cbn [hd]. clear H. split.
  - assert (G : forall m, fold_right qmax a m = a \/ In (fold_right qmax a m) m).
    { induction m as [|b m IH]; simpl; auto. destruct (qmax_or b (fold_right qmax a m)) as [->| ->]; [auto|]. destruct IH; auto. }
    destruct (G (a :: l)) as [E|E]; [rewrite E; left; auto|exact E].
  - generalize (a :: l). intros m. induction m as [|b m IH]; simpl; [tauto|]. intros y [<-|Hy].
    + apply qmax_ge.
    + apply IH in Hy. destruct (qmax_ge b (fold_right qmax a m)). qlra.
Qed.
Lemma lmin_eq l x : In x l -> (forall y, In y l -> x <= y) -> lmin l = x.
Proof.
  intros H1 H2. destruct (lmin_spec l) as [M1 M2]; [intros ->; auto|]. apply Qcle_antisym; auto.
Qed.
Lemma lmax_eq l x : In x l -> (forall y, In y l -> y <= x) -> lmax l = x.
Proof.
  intros H1 H2. destruct (lmax_spec l) as [M1 M2]; [intros ->; auto|]. apply Qcle_antisym; auto.
Qed.

(** ** convex predicates select contiguous ranges *)
Lemma filter_convex (P : nat -> bool) n :
  (forall i j k, (i <= k <= j)%nat -> (j < n)%nat -> P i = true -> P j = true -> P k = true) ->
  exists lo m, filter P (seq 0 n) = seq lo m /\ (lo + m <= n)%nat.
Proof.
  induction n as [|n IH]; intros H.
  - exists 0%nat, 0%nat. split; auto.
  - destruct IH as (lo & m & E & L).
    { intros i j k H1 H2. apply (H i j k); lia. }
    rewrite seq_S, filter_app, E. simpl. destruct (P n) eqn:Pn.
    + destruct m as [|m].
      * exists n, 1%nat. split; [reflexivity|lia].
      * assert (lo + S m = n)%nat.
        { destruct (Nat.eq_dec (lo + S m) n); auto. exfalso.
          assert (I1 : In (lo + m)%nat (filter P (seq 0 n))) by (rewrite E; apply in_seq; lia).
          apply filter_In in I1 as [_ I1].
          assert (I2 : P (lo + S m)%nat = true) by (apply (H (lo + m)%nat n (lo + S m)%nat); auto; lia).
          assert (I3 : In (lo + S m)%nat (filter P (seq 0 n))) by (apply filter_In; split; auto; apply in_seq; lia).
          rewrite E in I3. apply in_seq in I3. lia. }
        exists lo, (S (S m)). split; [|lia]. subst n. rewrite (seq_S (S m) lo). reflexivity.
    + exists lo, m. rewrite app_nil_r. split; auto.
Qed.

Lemma filter_map_comm {X Y} (p : Y -> bool) (h : X -> Y) l : filter p (map h l) = map h (filter (fun x => p (h x)) l).
Proof. induction l as [|a l IH]; simpl; auto. destruct (p (h a)); simpl; rewrite IH; reflexivity. Qed.

Lemma filter_map_nth (f : Qc -> bool) l : filter f l = map (fun k => nth k l 0) (filter (fun k => f (nth k l 0)) (seq 0 (length l))).
Proof.
  induction l as [|a l IH]; auto. cbn [length]. rewrite <- cons_seq. cbn [filter].
  rewrite <- seq_shift, filter_map_comm. cbn [nth].
  destruct (f a) eqn:E; cbn [map nth]; rewrite IH at 1; [f_equal|]; rewrite map_map; reflexivity.
Qed.

Lemma nonzero_filter (f : Qc -> bool) l : nonzero f l = filter (fun k => f (nth k l 0)) (seq 0 (length l)).
Proof.
  assert (G : forall l s, map fst (filter (fun q => f (snd q)) (combine (seq s (length l)) l)) =
                          filter (fun k => f (nth (k - s) l 0)) (seq s (length l))).
  { clear. induction l as [|a l IH]; intros s; auto. cbn [length seq combine filter snd]. rewrite Nat.sub_diag. cbn [nth].
    assert (X : filter (fun k => f (nth (k - s) (a :: l) 0)) (seq (S s) (length l)) = filter (fun k => f (nth (k - S s) l 0)) (seq (S s) (length l))).
    2:{ cbn [nth] in X. rewrite X. destruct (f a); cbn [map fst]; rewrite IH; reflexivity. }
    { apply filter_ext_in. intros k Hk. apply in_seq in Hk. replace (k - s)%nat with (S (k - S s)) by lia. reflexivity. } }
  unfold nonzero. rewrite G. apply filter_ext. intros k. rewrite Nat.sub_0_r. reflexivity.
Qed.

Lemma upd_snoc {X} (l : list X) i x y : (i < length l)%nat -> upd (l ++ [x]) i y = upd l i y ++ [x].
Proof. revert i; induction l as [|a l IH]; intros [|i] H; simpl in *; try lia; auto. rewrite IH by lia. reflexivity. Qed.

Section Crop.
Context {A : Alg}.
Notation grid := (grid A).

Lemma selected_range (g : grid) i lo hi : consistent g -> (i < g_ndim g)%nat ->
  exists s m, selected g i lo hi = seq s m /\ (s + m <= nth i (g_npix g) 0)%nat.
Proof.
  intros C Hi. apply filter_convex. intros a b k Hk Hb Ha Hb'.
  pose proof (co_axis _ C i Hi) as O. 
  assert (Hc : forall k, (k < nth i (g_npix g) 0)%nat -> nth k (nth i (g_centers g) []) 0 =
     fnth (g_center g) i - fnth (g_side g) i / zq 2 + (nq k + frac 1 2) * fnth (g_pix g) i).
  { intros j Hj. apply nth_error_nth. apply (ao_cen _ _ _ _ _ _ _ _ O); auto. }
  rewrite !Hc in * by lia. pose proof (ao_p _ _ _ _ _ _ _ _ O) as Pp.
  apply andb_prop in Ha as [A1 A2]. apply andb_prop in Hb' as [B1 B2].
  rewrite qleb_le in *.
  assert (L1 : nq a * fnth (g_pix g) i <= nq k * fnth (g_pix g) i) by (apply Qcmult_pos_le; auto; unfold nq; apply zq_le; lia).
  assert (L2 : nq k * fnth (g_pix g) i <= nq b * fnth (g_pix g) i) by (apply Qcmult_pos_le; auto; unfold nq; apply zq_le; lia).
  clear Hc O. rewrite !Qcmult_plus_distr_l in *.
  apply andb_true_intro. rewrite !qleb_le. split; qlra.
Qed.


Definition crop_axis (g : grid) i := nth i (g_centers g) [].

Lemma center_nth (g : grid) i k : consistent g -> (i < g_ndim g)%nat -> (k < nth i (g_npix g) 0)%nat ->
  nth k (nth i (g_centers g) []) 0 = fnth (g_center g) i - fnth (g_side g) i / zq 2 + (nq k + frac 1 2) * fnth (g_pix g) i.
Proof. intros C Hi Hk. apply nth_error_nth. apply (ao_cen _ _ _ _ _ _ _ _ (co_axis _ C i Hi)); auto. Qed.
Lemma edge_nth (g : grid) i k : consistent g -> (i < g_ndim g)%nat -> (k <= nth i (g_npix g) 0)%nat ->
  nth k (nth i (g_axes g) []) 0 = fnth (g_center g) i - fnth (g_side g) i / zq 2 + nq k * fnth (g_pix g) i.
Proof. intros C Hi Hk. apply nth_error_nth. apply (ao_edge _ _ _ _ _ _ _ _ (co_axis _ C i Hi)); auto. Qed.

Lemma nq_mono_mul a b p : 0 < p -> (a <= b)%nat -> nq a * p <= nq b * p.
Proof. intros. apply Qcmult_pos_le; auto. unfold nq. apply zq_le. lia. Qed.

Lemma crop_lo_default (g : grid) i : consistent g -> (i < g_ndim g)%nat -> lmin (nth i (g_axes g) []) = hd 0 (nth i (g_axes g) []).
Proof.
  intros C Hi. pose proof (co_axis _ C i Hi) as O. pose proof (ao_elen _ _ _ _ _ _ _ _ O) as L.
  assert (E : hd 0 (nth i (g_axes g) []) = nth 0 (nth i (g_axes g) []) 0) by (destruct (nth i (g_axes g) []); reflexivity).
  rewrite E. apply lmin_eq.
  - apply nth_In. lia.
  - intros y Hy. apply In_nth with (d := 0) in Hy as (k & Hk & <-). rewrite L in Hk. rewrite !edge_nth by (auto; lia).
    pose proof (nq_mono_mul 0 k _ (ao_p _ _ _ _ _ _ _ _ O)). generalize dependent (nq k * fnth (g_pix g) i). intros.
    assert (nq 0 * fnth (g_pix g) i <= q) by (apply H; lia). generalize dependent (nq 0 * fnth (g_pix g) i). intros. qlra.
Qed.
Lemma crop_hi_default (g : grid) i : consistent g -> (i < g_ndim g)%nat -> lmax (nth i (g_axes g) []) = last (nth i (g_axes g) []) 0.
Proof.
  intros C Hi. pose proof (co_axis _ C i Hi) as O. pose proof (ao_elen _ _ _ _ _ _ _ _ O) as L.
  rewrite last_nth, L. apply lmax_eq.
  - apply nth_In. lia.
  - intros y Hy. apply In_nth with (d := 0) in Hy as (k & Hk & <-). rewrite L in Hk. rewrite !edge_nth by (auto; lia).
    pose proof (nq_mono_mul k (S (nth i (g_npix g) 0%nat) - 1) _ (ao_p _ _ _ _ _ _ _ _ O) ltac:(lia)).
    generalize dependent (nq k * fnth (g_pix g) i). intros. generalize dependent (nq (S (nth i (g_npix g) 0%nat) - 1) * fnth (g_pix g) i). intros. qlra.
Qed.

(** what a successful crop of axis [i] to the cells [s .. s+m-1] produces *)
Lemma axis_ok_sub n c sd p e ce fe fc s m fe' :
  axis_ok n c sd p e ce fe fc -> (2 <= m)%nat -> (s + m <= n)%nat ->
  axis_edges (fftshift (fftfreq m p)) = Ok fe' ->
  let ce' := map (fun k => nth k ce 0) (seq s m) in
  let e' := map (fun c => c - p / zq 2) ce' ++ [lmax ce' + p / zq 2] in
  axis_ok m (lmin e' + ptp e' / zq 2) (ptp e') p e' ce' fe' (fftshift (fftfreq m p)) /\
  (forall k, (k <= m)%nat -> nth_error e' k = nth_error e (s + k)).
Proof.
  intros O Hm Hs Hfe ce' e'. pose proof (ao_p _ _ _ _ _ _ _ _ O) as Pp.
  set (b := c - sd / zq 2).
  assert (Hce : forall k, (k < m)%nat -> nth_error ce' k = Some (b + (nq (s + k) + frac 1 2) * p)).
  { intros k Hk. unfold ce'. rewrite nth_error_map_seq. destruct (Nat.ltb_spec k m); [|lia].
    f_equal. apply nth_error_nth. apply (ao_cen _ _ _ _ _ _ _ _ O). lia. }
  assert (Lce : length ce' = m) by (unfold ce'; rewrite map_length, seq_length; auto).
  assert (Hmax : lmax ce' = b + (nq (s + (m - 1)) + frac 1 2) * p).
  { apply lmax_eq.
    - eapply nth_error_In. apply Hce. lia.
    - intros y Hy. apply In_nth_error in Hy as [k Hk]. assert (k < m)%nat by (apply nth_error_Some_lt in Hk; lia).
      rewrite Hce in Hk by auto. inversion Hk. pose proof (nq_mono_mul (s + k) (s + (m - 1)) p Pp ltac:(lia)).
      rewrite !Qcmult_plus_distr_l. qlra. }
  assert (He : forall k, (k <= m)%nat -> nth_error e' k = Some (b + nq (s + k) * p)).
  { intros k Hk. unfold e'. destruct (Nat.eq_dec k m) as [->|Hne].
    - rewrite nth_error_app2 by (rewrite map_length; lia). rewrite map_length, Lce, Nat.sub_diag. cbn [nth_error]. f_equal.
      rewrite Hmax. replace (s + m)%nat with (S (s + (m - 1))) by lia. rewrite nq_S. rewrite !Qcmult_plus_distr_l, div2_half, Qcmult_1_l. clear. clearbody b. set (x := nq (s + (m - 1)) * p). clearbody x. rewrite (Qcmult_comm (frac 1 2) p). qlra.
    - rewrite nth_error_app1 by (rewrite map_length; lia). rewrite nth_error_map_some, Hce by lia. cbn [option_map]. f_equal.
      rewrite div2_half. ring. }
  assert (Le : length e' = S m) by (unfold e'; rewrite app_length, map_length; simpl; lia).
  assert (Hmin' : lmin e' = b + nq s * p).
  { apply lmin_eq.
    - eapply nth_error_In. rewrite <- (Nat.add_0_r s). apply He. lia.
    - intros y Hy. apply In_nth_error in Hy as [k Hk]. assert (k < S m)%nat by (apply nth_error_Some_lt in Hk; lia).
      rewrite He in Hk by lia. inversion Hk. pose proof (nq_mono_mul s (s + k) p Pp ltac:(lia)).
      generalize dependent (nq (s + k) * p). generalize (nq s * p). intros. qlra. }
  assert (Hmax' : lmax e' = b + nq (s + m) * p).
  { apply lmax_eq.
    - eapply nth_error_In. apply He. lia.
    - intros y Hy. apply In_nth_error in Hy as [k Hk]. assert (k < S m)%nat by (apply nth_error_Some_lt in Hk; lia).
      rewrite He in Hk by lia. inversion Hk. pose proof (nq_mono_mul (s + k) (s + m) p Pp ltac:(lia)).
      generalize dependent (nq (s + k) * p). generalize (nq (s + m) * p). intros. qlra. }
  assert (Hnq : forall k, nq (s + k) = nq s + nq k) by (intros; unfold nq; rewrite <- zq_add; f_equal; lia).
  assert (Hptp : ptp e' = nq m * p). { unfold ptp. rewrite Hmax', Hmin', Hnq. ring. }
  split.
  - constructor; auto.
    + intros k Hk. rewrite He by auto. f_equal. rewrite Hmin', Hptp, Hnq. rewrite !div2_half. ring.
    + intros k Hk. rewrite Hce by auto. f_equal. rewrite Hmin', Hptp, Hnq. rewrite !div2_half. ring.
    + apply fcen_length. lia.
    + intros k Hk. apply nth_error_fcen; lia.
  - intros k Hk. rewrite He by auto. symmetry. rewrite (ao_edge _ _ _ _ _ _ _ _ O) by lia. reflexivity.
Qed.


Definition others_same (g g' : grid) (i : nat) : Prop := forall j, (j < g_ndim g)%nat -> j <> i ->
  fnth (g_center g') j = fnth (g_center g) j /\ fnth (g_side g') j = fnth (g_side g) j /\ fnth (g_pix g') j = fnth (g_pix g) j /\
  nth j (g_npix g') 0%nat = nth j (g_npix g) 0%nat /\ nth j (g_axes g') [] = nth j (g_axes g) [] /\
  nth j (g_centers g') [] = nth j (g_centers g) [] /\ nth j (g_faxes g') [] = nth j (g_faxes g) [] /\ nth j (g_fcenters g') [] = nth j (g_fcenters g) [].

Lemma flen_fset a i x : flen (fset a i x) = flen a.
Proof. unfold flen, fset; simpl. apply upd_length. Qed.
Lemma fnth_fset_eq a i x : fint a = false -> (i < flen a)%nat -> fnth (fset a i x) i = x.
Proof. intros E H. unfold fnth, fset; simpl. rewrite E. apply nth_upd_eq; auto. Qed.
Lemma fnth_fset_ne a i j x : i <> j -> fnth (fset a i x) j = fnth a j.
Proof. intros H. unfold fnth, fset; simpl. apply nth_upd_ne; auto. Qed.

Lemma in_centers (g : grid) i c : consistent g -> (i < g_ndim g)%nat -> In c (nth i (g_centers g) []) ->
  exists k, (k < nth i (g_npix g) 0)%nat /\ c = nth k (nth i (g_centers g) []) 0.
Proof.
  intros C Hi Hc. apply In_nth with (d := 0) in Hc as (k & Hk & E). exists k. split; auto.
  rewrite (ao_clen _ _ _ _ _ _ _ _ (co_axis _ C i Hi)) in Hk. auto.
Qed.

Lemma grid_crop_spec (g : grid) i omin omax : consistent g -> floats g -> (i < g_ndim g)%nat ->
  let lo := crop_lo g i omin in let hi := crop_hi g i omax in let sel := selected g i lo hi in
  nth i (g_fsp g) false = false -> lo < hi -> (2 <= length sel)%nat ->
  exists g', grid_crop g (Z.of_nat i) omin omax = (g', Ok tt) /\ consistent g' /\ floats g' /\
    g_nprop g' = g_nprop g /\ g_nobj g' = g_nobj g /\ g_ndim g' = g_ndim g /\ 
    g_axu g' = g_axu g /\ g_faxu g' = g_faxu g /\ g_gru g' = g_gru g /\ g_fsp g' = g_fsp g /\ g_ispow g' = g_ispow g /\
    others_same g g' i /\
    nth i (g_npix g') 0%nat = length sel /\ fnth (g_pix g') i = fnth (g_pix g) i /\
    nth i (g_centers g') [] = map (fun k => nth k (nth i (g_centers g) []) 0) sel /\
    (forall a k, nth_error sel a = Some k ->
        nth_error (nth i (g_axes g') []) a = nth_error (nth i (g_axes g) []) k /\
        nth_error (nth i (g_axes g') []) (S a) = nth_error (nth i (g_axes g) []) (S k)) /\
    match g_data g, g_data g' with
    | None, None => True
    | Some d, Some d' => forall ix k, inb (g_npix g') ix = true -> (k < g_nprop g)%nat ->
        getd v0 d' (ix ++ [k]) = getd v0 d (upd ix i (nth (nth i ix 0%nat) sel 0%nat) ++ [k])
    | _, _ => False
    end.
Proof.
  intros C F Hi lo hi sel Hf Hlt Hsel. destruct F as (F1 & F2 & F3).
  destruct (selected_range g i lo hi C Hi) as (s & m & Es & Hsm). fold sel in Es.
  pose proof (co_axis _ C i Hi) as O. pose proof (ao_clen _ _ _ _ _ _ _ _ O) as Lc.
  set (cen := nth i (g_centers g) []) in *. set (n := nth i (g_npix g) 0%nat) in *.
  assert (Hm : (2 <= m)%nat) by (rewrite Es, seq_length in Hsel; auto).
  unfold grid_crop. 
  replace ((Z.of_nat i <? 0)%Z || (Z.of_nat (g_ndim g) - 1 <? Z.of_nat i)%Z)%bool with false by lia.
  rewrite Nat2Z.id, Hf. cbv zeta.
  replace (match omin with Some x => x | None => lmin (nth i (g_axes g) []) end) with lo
    by (unfold lo, crop_lo; destruct omin; auto; symmetry; apply crop_lo_default; auto).
  replace (match omax with Some x => x | None => lmax (nth i (g_axes g) []) end) with hi
    by (unfold hi, crop_hi; destruct omax; auto; symmetry; apply crop_hi_default; auto).
  replace (qleb hi lo) with false by (symmetry; apply qleb_gt; auto).
  fold cen.
  set (inr := fun c => (qleb lo c && qleb c hi)%bool).
  assert (Enz : nonzero inr cen = sel) by (rewrite nonzero_filter, Lc; reflexivity).
  assert (Efl : filter inr cen = map (fun k => nth k cen 0) sel) by (rewrite filter_map_nth, Lc; reflexivity).
  assert (Hin0 : In s sel) by (rewrite Es; apply in_seq; lia).
  assert (Hs0 : inr (nth s cen 0) = true) by (apply filter_In in Hin0; apply Hin0).
  assert (Ins : In (nth s cen 0) cen) by (apply nth_In; lia).
  assert (Hguard : (forallb (fun c => qltb hi c) cen || forallb (fun c => qltb c lo) cen)%bool = false).
  { apply not_true_is_false. intros X. apply andb_prop in Hs0 as [Q1 Q2]. apply qleb_le in Q1, Q2.
    apply orb_prop in X as [X|X]; rewrite forallb_forall in X; specialize (X _ Ins); apply qltb_lt in X; qlra. }
  rewrite Hguard, Enz, Efl. clear Hguard.
  destruct (map (fun k => nth k cen 0) sel) as [|c0 cs] eqn:Ecs.
  { apply (f_equal (@length Qc)) in Ecs. rewrite map_length in Ecs. simpl in Ecs. lia. }
  rewrite <- Ecs. clear Efl c0 cs Ecs.
  set (px := fnth (g_pix g) i) in *. rewrite map_length.
  assert (Lsel : length sel = m) by (rewrite Es, seq_length; auto).
  destruct (axis_edges_ok (fftshift (fftfreq (length sel) px))) as [fe' Efe].
  { rewrite fcen_length; lia. }
  rewrite Efe. cbn [with_data with_geom g_data g_npix g_axes g_centers g_faxes g_fcenters g_center g_side g_pix].
  destruct (axis_ok_sub _ _ _ _ _ _ _ _ s m fe' O Hm Hsm) as [O' Hed]; [rewrite <- Lsel; exact Efe|].
  rewrite <- Es in O', Hed. rewrite <- Lsel in O', Hed.
  set (ce' := map (fun k => nth k cen 0) sel) in *.
  set (e' := map (fun c => c - px / zq 2) ce' ++ [lmax ce' + px / zq 2]) in *.
  eexists. split; [reflexivity|].
  assert (Ls : (i < flen (g_side g))%nat) by (rewrite (co_s _ C); auto).
  assert (Lcn : (i < flen (g_center g))%nat) by (rewrite (co_c _ C); auto).
  assert (Ln : (i < length (g_npix g))%nat) by (rewrite (co_n _ C); auto).
  assert (Lce : (i < length (g_centers g))%nat) by (rewrite (co_ce _ C); auto).
  assert (Lax : (i < length (g_axes g))%nat) by (rewrite (co_ax _ C); auto).
  assert (Lfa : (i < length (g_faxes g))%nat) by (rewrite (co_fa _ C); auto).
  assert (Lfc : (i < length (g_fcenters g))%nat) by (rewrite (co_fc _ C); auto).
  set (side' := fset (g_side g) i (ptp e')). 
  assert (Eside : fnth side' i = ptp e') by (apply fnth_fset_eq; auto). rewrite Eside.
  set (center' := fset (g_center g) i (lmin e' + ptp e' / zq 2)).
  assert (Ecen : fnth center' i = lmin e' + ptp e' / zq 2) by (apply fnth_fset_eq; auto).
  match goal with |- consistent ?g1 /\ _ => set (g' := g1) end.
  assert (OS : others_same g g' i).
  { intros j Hj Hne. unfold g'. gcbn. unfold side', center'. rewrite !fnth_fset_ne, !nth_upd_ne by auto. repeat split. }
  assert (Upd_app := upd_snoc (X:=nat)).
  assert (C' : consistent g').
  { pose proof C as C0. destruct C. constructor; unfold g'; gcbn; unfold side', center'; rewrite ?flen_fset, ?upd_length; auto.
    - intros j Hj. destruct (Nat.eq_dec j i) as [->|Hne].
      + fold side' center'. rewrite Eside, Ecen, !nth_upd_eq by auto. exact O'.
      + rewrite !fnth_fset_ne, !nth_upd_ne by auto. apply co_axis; auto.
    - destruct (g_data g) as [d|]; auto. gcbn. destruct co_data as [W S]. split; [apply tab_wf|].
      cbn [np_take tab shape]. rewrite S, Upd_app by auto. reflexivity. }
  split; [exact C'|]. split; [split; [exact F1|split; [exact F2|exact F3]]|].
  do 8 (split; [reflexivity|]). split; [exact OS|].
  split; [unfold g'; gcbn; apply nth_upd_eq; auto|]. split; [reflexivity|]. split; [unfold g'; gcbn; apply nth_upd_eq; auto|].
  split.
  - intros a k Ha. unfold g'; gcbn. rewrite nth_upd_eq by auto.
    assert (Hk : (a < m)%nat /\ k = (s + a)%nat).
    { rewrite Es, nth_error_seq in Ha. destruct (Nat.ltb_spec a m); [|discriminate]. inversion Ha. auto. }
    destruct Hk as [Ha' ->]. rewrite !Hed by lia. split; [reflexivity|]. f_equal. lia.
  - pose proof (co_data _ C) as D. unfold g'; gcbn. destruct (g_data g) as [d|]; gcbn; auto. destruct D as [W S].
    intros ix k Hix Hk.
    assert (Lix : length ix = length (g_npix g)) by (apply inb_length in Hix; rewrite upd_length in Hix; auto).
    unfold np_take. rewrite getd_tab.
    + rewrite app_nth1 by lia. rewrite Upd_app by lia. reflexivity.
    + rewrite S, Upd_app, inb_snoc by (rewrite ?upd_length; auto). rewrite Hix. apply Nat.ltb_lt; auto.
Qed.

Lemma grid_crop_raises (g g' : grid) i omin omax e : consistent g -> (i < g_ndim g)%nat ->
  grid_crop g (Z.of_nat i) omin omax = (g', Raise e) ->
  g' = g \/ (nth i (g_fsp g) false = false /\ crop_lo g i omin < crop_hi g i omax /\ (length (selected g i (crop_lo g i omin) (crop_hi g i omax)) < 2)%nat).
Proof.
  intros C Hi. unfold grid_crop.
  replace ((Z.of_nat i <? 0)%Z || (Z.of_nat (g_ndim g) - 1 <? Z.of_nat i)%Z)%bool with false by lia.
  rewrite Nat2Z.id. destruct (nth i (g_fsp g) false) eqn:Hf; [intros H; inversion H; auto|]. cbv zeta.
  set (lo := crop_lo g i omin). set (hi := crop_hi g i omax).
  replace (match omin with Some x => x | None => lmin (nth i (g_axes g) []) end) with lo
    by (unfold lo, crop_lo; destruct omin; auto; symmetry; apply crop_lo_default; auto).
  replace (match omax with Some x => x | None => lmax (nth i (g_axes g) []) end) with hi
    by (unfold hi, crop_hi; destruct omax; auto; symmetry; apply crop_hi_default; auto).
  destruct (qleb hi lo) eqn:El; [intros H; inversion H; auto|]. apply qleb_gt in El.
  destruct (_ || _)%bool; [intros H; inversion H; auto|].
  pose proof (co_axis _ C i Hi) as O. pose proof (ao_clen _ _ _ _ _ _ _ _ O) as Lc.
  set (cen := nth i (g_centers g) []) in *.
  set (inr := fun c => (qleb lo c && qleb c hi)%bool).
  assert (Efl : filter inr cen = map (fun k => nth k cen 0) (selected g i lo hi)) by (rewrite filter_map_nth, Lc; reflexivity).
  rewrite Efl. intros H. right. split; [auto|]. split; [auto|].
  destruct (map (fun k => nth k cen 0) (selected g i lo hi)) as [|c0 cs] eqn:Ecs.
  { apply (f_equal (@length Qc)) in Ecs. rewrite map_length in Ecs. simpl in Ecs. lia. }
  destruct (axis_edges _) as [fe|e'] eqn:Efe; [inversion H|].
  destruct (Nat.lt_ge_cases (length (selected g i lo hi)) 2) as [|Hge]; auto. exfalso.
  apply (f_equal (@length Qc)) in Ecs. rewrite map_length in Ecs.
  edestruct (axis_edges_ok) as [fe Efe']; [|rewrite Efe' in Efe; discriminate]. rewrite fcen_length; lia.
Qed.

End Crop.
