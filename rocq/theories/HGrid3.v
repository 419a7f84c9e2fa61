(** More lemmas for the statements on SnapHandler.grid and LCHandler.grid. *)
From Verif Require Import Dict Util Rat Val Arr HandlerModel Handler Handler2 GridModel GridModel2 GridSpec GridAxis GridNew GridAdd GridCat GridEx GridMore HGridModel HGridSpec HGrid HGrid2.
Open Scope string_scope. Open Scope list_scope.
Open Scope Qc_scope.

(** * Which halos the grid covers *)
Lemma two : zq 2 = 1 + 1. Proof. reflexivity. Qed.
Lemma len100 len : len = zq 100 * (len / zq 100).
Proof. field. discriminate. Qed.

Lemma npix3 (g : grid QcAlg) n : consistent g -> g_ndim g = 3%nat -> (forall i, (i < 3)%nat -> nth i (g_npix g) 0%nat = n) -> g_npix g = [n; n; n].
Proof.
  intros C D H. pose proof (co_n _ C) as L. rewrite D in L.
  pose proof (H 0%nat ltac:(lia)); pose proof (H 1%nat ltac:(lia)); pose proof (H 2%nat ltac:(lia)).
  destruct (g_npix g) as [|a [|b [|c [|]]]]; try discriminate. cbn in *. congruence.
Qed.

Lemma in_extent_ends (g : grid QcAlg) r : consistent g -> length r = g_ndim g ->
  in_extent (g_axes g) r = true <->
  forall i, (i < g_ndim g)%nat -> hd 0 (nth i (g_axes g) []) <= nth i r 0 /\ nth i r 0 < last (nth i (g_axes g) []) 0.
Proof.
  intros C L. rewrite (in_extent_iff g r C L). split; intros H i Hi; specialize (H i Hi); destruct (axis_ends g i C Hi) as [A B].
  - rewrite A, B. exact H.
  - rewrite A, B in H. exact H.
Qed.

(** in_cell, by coordinates *)
Lemma in_box_iff axes ix r : length ix = length axes -> length r = length axes ->
  in_box axes ix r = true <-> forall i, (i < length axes)%nat -> in_bin (nth i axes []) (nth i ix 0%nat) (nth i r 0) = true.
Proof.
  revert ix r. induction axes as [|e axes IH]; intros [|k ix] [|x r] L1 L2; try discriminate; cbn [in_box].
  - split; auto. intros _ i Hi. cbn in Hi. lia.
  - rewrite andb_true_iff, IH by (simpl in *; lia). split.
    + intros [A B] [|i] Hi; cbn [nth]; auto. apply B. cbn in Hi. lia.
    + intros H. split; [apply (H 0%nat); cbn; lia|]. intros i Hi. apply (H (S i)). cbn. lia.
Qed.
Lemma in_bin_iff n c s p e m fe fc x k : axis_ok n c s p e m fe fc ->
  in_bin e k x = true <-> (k < n)%nat /\ c - s / zq 2 + nq k * p <= x /\ x < c - s / zq 2 + nq (S k) * p.
Proof.
  intros X. destruct X as [Hp Hn Hs Le E _ _ _ _ _]. unfold in_bin. split.
  - intros H. assert (K : (k < n)%nat).
    { destruct (nth_error e k) eqn:E1; [|discriminate]. destruct (nth_error e (S k)) eqn:E2; [|discriminate].
      assert (S k < length e)%nat by (apply nth_error_Some; congruence). lia. }
    rewrite (E k), (E (S k)) in H by lia. apply andb_true_iff in H as [A B]. apply qleb_le in A. apply qltb_lt in B. auto.
  - intros (K & A & B). rewrite (E k), (E (S k)) by lia. apply andb_true_iff. split; [apply qleb_le|apply qltb_lt]; auto.
Qed.

Lemma in_cell_covers (g : grid QcAlg) ix r lims : consistent g -> g_ndim g = 3%nat -> length ix = 3%nat -> length r = 3%nat -> length lims = 3%nat ->
  (forall i lo hi, nth_error lims i = Some (lo, hi) -> covers g i lo hi ((hi - lo) / zq 100)) ->
  in_cell g ix r = true <->
  forall i lo hi, nth_error lims i = Some (lo, hi) -> (nth i ix 0 < 100)%nat /\
    lo + nq (nth i ix 0%nat) * ((hi - lo) / zq 100) <= nth i r 0 /\ nth i r 0 < lo + nq (S (nth i ix 0%nat)) * ((hi - lo) / zq 100).
Proof.
  intros C D Li Lr Ll V. unfold in_cell. assert (La : length (g_axes g) = 3%nat) by (rewrite (co_ax _ C); auto).
  rewrite in_box_iff by congruence. rewrite La.
  assert (K : forall i lo hi, nth_error lims i = Some (lo, hi) ->
    (in_bin (nth i (g_axes g) []) (nth i ix 0%nat) (nth i r 0) = true <->
     (nth i ix 0 < 100)%nat /\ lo + nq (nth i ix 0%nat) * ((hi - lo) / zq 100) <= nth i r 0 /\ nth i r 0 < lo + nq (S (nth i ix 0%nat)) * ((hi - lo) / zq 100))).
  { intros i lo hi Hi. assert (Hi3 : (i < 3)%nat) by (rewrite <- Ll; apply nth_error_Some; congruence).
    destruct (V i lo hi Hi) as (E1 & E2 & _ & _ & E5). destruct (E5 100%Z (len100 _)) as (En & Eh & _).
    destruct (axis_ends g i C ltac:(lia)) as [A _]. rewrite Eh in A.
    rewrite (in_bin_iff _ _ _ _ _ _ _ _ _ _ (co_axis _ C i ltac:(lia))), En, E2, <- A. change (Z.to_nat 100) with 100%nat. tauto. }
  split.
  - intros H i lo hi Hi. apply K; auto. apply H. rewrite <- Ll. apply nth_error_Some. congruence.
  - intros H i Hi. destruct (nth_error lims i) as [[lo hi]|] eqn:E; [|apply nth_error_None in E; lia]. rewrite (K i lo hi E). auto.
Qed.

Lemma default_covers (g : grid QcAlg) lims : consistent g -> g_ndim g = 3%nat -> length lims = 3%nat ->
  (forall i lo hi, nth_error lims i = Some (lo, hi) -> exists p, pix_spec None i (hi - lo) p /\ covers g i lo hi p) ->
  g_npix g = [100; 100; 100]%nat /\
  (forall i lo hi, nth_error lims i = Some (lo, hi) -> covers g i lo hi ((hi - lo) / zq 100)) /\
  forall r, length r = 3%nat -> in_extent (g_axes g) r = true <->
    forall i lo hi, nth_error lims i = Some (lo, hi) -> lo <= nth i r 0 /\ nth i r 0 < hi.
Proof.
  intros C D Ll V.
  assert (V' : forall i lo hi, nth_error lims i = Some (lo, hi) -> covers g i lo hi ((hi - lo) / zq 100)).
  { intros i lo hi Hi. destruct (V i lo hi Hi) as (p & P1 & P2). cbn in P1. subst p. exact P2. }
  assert (K : forall i lo hi, nth_error lims i = Some (lo, hi) -> nth i (g_npix g) 0%nat = 100%nat /\ hd 0 (nth i (g_axes g) []) = lo /\ last (nth i (g_axes g) []) 0 = hi).
  { intros i lo hi Hi. destruct (V' i lo hi Hi) as (_ & _ & _ & _ & E5). destruct (E5 100%Z (len100 _)) as (En & Eh & El). auto. }
  split; [|split; [exact V'|]].
  - apply npix3; auto. intros i Hi. destruct (nth_error lims i) as [[lo hi]|] eqn:E; [|apply nth_error_None in E; lia]. apply (K i lo hi E).
  - intros r Lr. rewrite in_extent_ends by congruence. rewrite D. split.
    + intros H i lo hi Hi. destruct (K i lo hi Hi) as (_ & <- & <-). apply H. rewrite <- Ll. apply nth_error_Some. congruence.
    + intros H i Hi. destruct (nth_error lims i) as [[lo hi]|] eqn:E; [|apply nth_error_None in E; lia]. destruct (K i lo hi E) as (_ & -> & ->). auto.
Qed.

Lemma forall3 (P : nat -> Qc -> Qc -> Prop) (a b c : Qc * Qc) :
  (forall i lo hi, nth_error [a; b; c] i = Some (lo, hi) -> P i lo hi) <-> P 0%nat (fst a) (snd a) /\ P 1%nat (fst b) (snd b) /\ P 2%nat (fst c) (snd c).
Proof.
  destruct a as [a1 a2], b as [b1 b2], c as [c1 c2]. cbn [fst snd]. split.
  - intros H. split; [|split]; apply H; reflexivity.
  - intros (A & B & D) [|[|[|i]]] lo hi Hi; cbn in Hi; try (injection Hi as <- <-; assumption). destruct i; discriminate.
Qed.

Lemma c73_default s names inh ua norm side g :
  snap_grid s names inh ua None None None None norm = Ok g -> box_side s (use_h s inh) side -> 0 <= side ->
  0 < side /\ g_npix g = [100; 100; 100]%nat /\
  (forall x y z, in_extent (g_axes g) [x; y; z] = true <-> (0 <= x /\ x < side) /\ (0 <= y /\ y < side) /\ (0 <= z /\ z < side)) /\
  (forall i j k x y z, let w := side / zq 100 in in_cell g [i; j; k] [x; y; z] = true <->
     (i < 100 /\ j < 100 /\ k < 100)%nat /\ (nq i * w <= x /\ x < nq (S i) * w) /\ (nq j * w <= y /\ y < nq (S j) * w) /\ (nq k * w <= z /\ z < nq (S k) * w)).
Proof.
  intros H Hb Hs. destruct (c73_cells _ _ _ _ _ _ _ _ _ _ _ H I Hb Hs) as (x & y & z & cols & _ & _ & _ & _ & G & V).
  destruct G as (C & D & _).
  set (lims := [(0, side); (0, side); (0, side)]).
  assert (V' : forall i lo hi, nth_error lims i = Some (lo, hi) -> exists p, pix_spec None i (hi - lo) p /\ covers g i lo hi p).
  { intros i lo hi Hi. assert (E : nth_error [@None farr; None; None] i = Some None /\ lo = 0 /\ hi = side).
    { destruct i as [|[|[|i]]]; cbn in Hi; try (injection Hi as <- <-; auto). destruct i; discriminate. }
    destruct E as (E & -> & ->). destruct (V i None E) as (lo' & hi' & p & [-> ->] & P1 & P2). eauto. }
  destruct (default_covers g lims C D eq_refl V') as (N & VC & X).
  assert (Pos : 0 < side).
  { pose proof (co_axis _ C 0%nat ltac:(lia)) as A. apply ao_p in A. destruct (VC 0%nat 0 side eq_refl) as (_ & E & _). rewrite E, div100 in A. clear - A. qlra. }
  split; [exact Pos|]. split; [exact N|]. split.
  - intros x' y' z'. rewrite X by reflexivity. apply (forall3 (fun i lo hi => lo <= nth i [x'; y'; z'] 0 /\ nth i [x'; y'; z'] 0 < hi)).
  - intros i j k x' y' z' w. rewrite (in_cell_covers g [i; j; k] [x'; y'; z'] lims C D eq_refl eq_refl eq_refl VC).
    assert (E : forall n, 0 + nq n * ((side - 0) / zq 100) = nq n * w).
    { intros n. unfold w. replace (side - 0) with side by ring. ring. }
    etransitivity; [apply (forall3 (fun a lo hi => (nth a [i; j; k] 0 < 100)%nat /\ lo + nq (nth a [i; j; k] 0%nat) * ((hi - lo) / zq 100) <= nth a [x'; y'; z'] 0 /\ nth a [x'; y'; z'] 0 < lo + nq (S (nth a [i; j; k] 0%nat)) * ((hi - lo) / zq 100)))|].
    cbn [fst snd nth]. rewrite !E. tauto.
Qed.

Lemma halo_sum_scale P P' v c : (forall j, (j < length v)%nat -> P' j = P j) -> halo_sum P' (map (fun x => x * c) v) = halo_sum P v * c.
Proof.
  intros E. unfold halo_sum. rewrite map_length.
  replace (filter P' (seq 0 (length v))) with (filter P (seq 0 (length v))).
  - assert (B : forall j, In j (filter P (seq 0 (length v))) -> (j < length v)%nat) by (intros j Hj; apply filter_In in Hj as [Hj _]; apply in_seq in Hj; lia).
    revert B. generalize (filter P (seq 0 (length v))). intros l. induction l as [|j l IH]; intros B; simpl; [ring|].
    rewrite IH by (intros; apply B; simpl; auto). rewrite (nth_indep _ 0 (0 * c)) by (rewrite map_length; apply B; simpl; auto).
    rewrite (map_nth (fun x => x * c)). ring.
  - apply filter_ext_in. intros j Hj. apply in_seq in Hj. symmetry. apply E. lia.
Qed.

Lemma column_convert s p ua e l : dget (h_hdep (fst s)) p = Some e -> column s p ua true l -> column s p ua false (map (fun v => v * hpow (h_h (fst s)) e) l).
Proof.
  intros He (c & E & V). destruct (c27_convert s p ua c e E He) as (c' & E' & V' & _). exists c'. split; auto. rewrite V', V, !map_map. reflexivity.
Qed.
Lemma column_fun s p ua ih l l' : column s p ua ih l -> column s p ua ih l' -> l = l'.
Proof.
  intros (c & E & V) (c' & E' & V'). rewrite E in E'. injection E' as <-. rewrite V in V'. clear - V'.
  revert l' V'. induction l as [|a l IH]; intros [|b l'] H; try discriminate; auto. injection H as -> H. f_equal. auto.
Qed.
Lemma columns_convert s names ua cols : (forall n, In n names -> exists e, dget (h_hdep (fst s)) n = Some e) -> columns s names ua true cols ->
  exists cols', columns s names ua false cols' /\ (forall v', In v' cols' -> exists v, In v cols /\ length v' = length v) /\
    forall k n e v, nth_error names k = Some n -> dget (h_hdep (fst s)) n = Some e -> nth_error cols k = Some v ->
      nth_error cols' k = Some (map (fun w => w * hpow (h_h (fst s)) e) v).
Proof.
  intros H F. induction F as [|n v names cols C F IH].
  - exists []. split; [constructor|]. split; [intros v' []|]. intros [|k]; discriminate.
  - destruct IH as (cols' & F' & L & K). { intros m Hm. apply H. simpl; auto. }
    destruct (H n) as [e He]; [simpl; auto|].
    exists (map (fun w => w * hpow (h_h (fst s)) e) v :: cols'). split; [constructor; auto; apply column_convert; auto|]. split.
    + intros v' [<-|Hv]; [exists v; rewrite map_length; simpl; auto|]. destruct (L v' Hv) as (v0 & I0 & E0). exists v0. simpl. auto.
    + intros [|k] m e' v0 Hm He' Hv; cbn in *; [|eauto]. injection Hm as <-. injection Hv as <-. rewrite He in He'. injection He' as <-. reflexivity.
Qed.
Lemma columns_fun s names ua ih a b : columns s names ua ih a -> columns s names ua ih b -> a = b.
Proof.
  intros F. revert b. induction F as [|n v names cols C F IH]; intros b G; inversion G as [|? v' ? b' C' G']; subst; auto.
  f_equal; [eapply column_fun; eauto|auto].
Qed.

Lemma nth_scaled (l : list Qc) c j : nth j (map (fun v => v * c) l) 0 = nth j l 0 * c.
Proof.
  destruct (Nat.lt_ge_cases j (length l)) as [L|L].
  - rewrite (nth_indep _ 0 (0 * c)) by (rewrite map_length; auto). apply (map_nth (fun v => v * c)).
  - rewrite !nth_overflow by (rewrite ?map_length; auto). ring.
Qed.
Lemma hpow_m1 h : hpow h (-1) = / h.
Proof. cbn. change (Pos.to_nat 1) with 1%nat. cbn. f_equal. ring. Qed.

Lemma c73_units s names ua box g :
  h_box (fst s) = Some box -> 0 <= box -> 0 < h_h (fst s) ->
  (forall p, In p ["pos_x"; "pos_y"; "pos_z"] -> dget (h_hdep (fst s)) p = Some (-1)%Z) ->
  (forall n, In n names -> exists e, dget (h_hdep (fst s)) n = Some e) ->
  snap_grid s names (Some true) ua None None None None NormNone = Ok g ->
  exists g' d d', snap_grid s names (Some false) ua None None None None NormNone = Ok g' /\
    g_npix g' = g_npix g /\ g_nobj g' = g_nobj g /\ g_data g = Some d /\ g_data g' = Some d' /\
    forall ix k n e, inb (g_npix g) ix = true -> nth_error names k = Some n -> dget (h_hdep (fst s)) n = Some e ->
      exists v, get d (ix ++ [k]) = Some v /\ get d' (ix ++ [k]) = Some (v * hpow (h_h (fst s)) e).
Proof.
  intros Eb Hb Hh Hp Hn H. assert (Gn : good_res None) by exact I. set (h := h_h (fst s)) in *. assert (Hh0 : h <> 0) by (apply Qc_pos_neq0; auto).
  assert (B1 : box_side s (use_h s (Some true)) box) by (exists box; auto).
  assert (B2 : box_side s (use_h s (Some false)) (box / h)) by (exists box; auto).
  assert (Hb2 : 0 <= box / h). { apply qdiv_le_iff; [exact Hh|]. replace (0 * h) with 0 by ring. exact Hb. }
  destruct (proj1 (c73_succeeds _ _ _ _ _ _ _ _ _ _ Gn B1 Hb) (ex_intro _ g H)) as (x & y & z & cols & lims & Cx & Cy & Cz & Cc & (X1 & X2 & X3 & X4 & X5) & F & A).
  destruct (c73_default _ _ _ _ _ _ _ H B1 Hb) as (Pos & N & Ext & Cell).
  destruct (columns_convert _ _ _ _ Hn Cc) as (cols' & Cc' & L' & K').
  pose proof (column_convert _ _ _ _ _ (Hp "pos_x" ltac:(simpl; auto)) Cx) as Cx'.
  pose proof (column_convert _ _ _ _ _ (Hp "pos_y" ltac:(simpl; auto)) Cy) as Cy'.
  pose proof (column_convert _ _ _ _ _ (Hp "pos_z" ltac:(simpl; auto)) Cz) as Cz'.
  fold h in Cx', Cy', Cz', K'. rewrite hpow_m1 in Cx', Cy', Cz'.
  assert (Pos' : 0 < box / h). { apply Qcnot_le_lt. intros L. apply (Qcmult_pos_le _ _ h Hh) in L. replace (box / h * h) with box in L by (field; auto). clear - L Pos. qlra. }
  assert (S : exists g', snap_grid s names (Some false) ua None None None None NormNone = Ok g').
  { apply (c73_succeeds _ _ _ _ _ _ _ _ _ _ Gn B2 Hb2).
    exists (map (fun v => v * / h) x), (map (fun v => v * / h) y), (map (fun v => v * / h) z), cols', [(0, box / h); (0, box / h); (0, box / h)].
    repeat (split; [assumption|]). split; [|split].
    - unfold same_lengths. rewrite !map_length. split; [destruct x; [tauto|discriminate]|]. split.
      { intros ->. inversion Cc'. subst names. inversion Cc. subst. tauto. }
      split; [exact X3|]. split; [exact X4|]. intros v Hv. destruct (L' v Hv) as (v0 & I0 & ->). auto.
    - repeat constructor.
    - split; [discriminate|]. intros i lo hi Hi. exists ((hi - lo) / zq 100). split; [reflexivity|].
      assert (E : lo = 0 /\ hi = box / h). { destruct i as [|[|[|i]]]; cbn in Hi; try (injection Hi as <- <-; auto). destruct i; discriminate. }
      destruct E as [-> ->]. rewrite div100. revert Pos'. generalize (box / h). clear. intros b Pb. split; qlra. }
  destruct S as [g' H']. exists g'.
  destruct (c73_default _ _ _ _ _ _ _ H' B2 Hb2) as (_ & N' & Ext' & Cell').
  destruct (c73_cells _ _ _ _ _ _ _ _ _ _ _ H Gn B1 Hb) as (x1 & y1 & z1 & cols1 & C1 & C2 & C3 & C4 & G & _).
  destruct (c73_cells _ _ _ _ _ _ _ _ _ _ _ H' Gn B2 Hb2) as (x2 & y2 & z2 & cols2 & D1 & D2 & D3 & D4 & G' & _).
  cbn [use_h] in *.
  rewrite (column_fun _ _ _ _ _ _ C1 Cx), (column_fun _ _ _ _ _ _ C2 Cy), (column_fun _ _ _ _ _ _ C3 Cz), (columns_fun _ _ _ _ _ _ C4 Cc) in G.
  rewrite (column_fun _ _ _ _ _ _ D1 Cx'), (column_fun _ _ _ _ _ _ D2 Cy'), (column_fun _ _ _ _ _ _ D3 Cz'), (columns_fun _ _ _ _ _ _ D4 Cc') in G'.
  clear x1 y1 z1 cols1 C1 C2 C3 C4 x2 y2 z2 cols2 D1 D2 D3 D4.
  destruct G as (GC & GD & Gnp & Go & d & q & Ed & Eq & Gc & _). destruct G' as (GC' & GD' & Gn' & Go' & d' & q' & Ed' & Eq' & Gc' & _).
  cbn in Eq, Eq'. subst q q'.
  assert (M1 : forall a b, a * / h <= b * / h <-> a <= b).
  { intros a b. split; intros L.
    - apply (Qcmult_pos_le _ _ h Hh) in L. replace (a * / h * h) with a in L by (field; auto). replace (b * / h * h) with b in L by (field; auto). exact L.
    - apply Qcmult_pos_le; auto. apply Qcnot_le_lt. intros L2. apply (Qcmult_pos_le _ _ h Hh) in L2. replace (/ h * h) with 1 in L2 by (field; auto). clear - L2. qlra. }
  assert (M2 : forall a b, a * / h < b * / h <-> a < b).
  { intros a b. split; intros L; apply Qcnot_le_lt; intros Q; [apply (M1 b a) in Q|apply (M1 b a) in Q]; exact (Qclt_not_le _ _ L Q). }
  assert (PE : forall j, pos3 (map (fun v => v * / h) x) (map (fun v => v * / h) y) (map (fun v => v * / h) z) j =
    [nth j x 0 * / h; nth j y 0 * / h; nth j z 0 * / h]) by (intros j; unfold pos3; rewrite !nth_scaled; reflexivity).
  assert (EE : forall j, in_extent (g_axes g') (pos3 (map (fun v => v * / h) x) (map (fun v => v * / h) y) (map (fun v => v * / h) z) j) = in_extent (g_axes g) (pos3 x y z j)).
  { intros j. rewrite PE. apply Bool.eq_true_iff_eq. rewrite Ext'. unfold pos3. rewrite Ext. unfold Qcdiv.
    assert (M0 : forall a, 0 <= a * / h <-> 0 <= a) by (intros a; rewrite <- (M1 0 a); replace (0 * / h) with 0 by ring; reflexivity).
    rewrite !M0, !M2. reflexivity. }
  exists d, d'. split; [exact H'|]. split; [congruence|]. split.
  { rewrite Go, Go', map_length. f_equal. apply filter_ext. exact EE. }
  split; [exact Ed|]. split; [exact Ed'|].
  intros ix k n e Hix Hk He. assert (Hk' : exists v, nth_error cols k = Some v).
  { destruct (nth_error cols k) eqn:E; eauto. exfalso. apply nth_error_None in E. pose proof (Forall2_len _ _ _ Cc) as L. assert (k < length names)%nat by (apply nth_error_Some; congruence). lia. }
  destruct Hk' as [v Hv]. pose proof (K' k n e v Hk He Hv) as Hv'.
  exists (halo_sum (fun j => in_cell g ix (pos3 x y z j)) v). split.
  - rewrite (Gc ix k v Hix Hv), Qcmult_1_l. reflexivity.
  - rewrite N, <- N' in Hix. rewrite (Gc' ix k _ Hix Hv'). rewrite Qcmult_1_l, (halo_sum_scale (fun j => in_cell g ix (pos3 x y z j))); [reflexivity|].
    intros j Hj. rewrite PE. rewrite N' in Hix. pose proof (inb_length _ _ Hix) as Lix. destruct ix as [|i1 [|i2 [|i3 [|]]]]; try discriminate.
    apply Bool.eq_true_iff_eq. rewrite Cell'. unfold pos3. rewrite Cell. cbv zeta.
    assert (W : forall m, nq m * (box / h / zq 100) = nq m * (box / zq 100) * / h) by (intros m; unfold Qcdiv; ring).
    rewrite !W, !M1, !M2. reflexivity.
Qed.
