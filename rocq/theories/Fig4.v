(** Proofs about the figures of a grid, continued: coordinates drawn, and the cases that go wrong. *)
From Coq Require Import Sorted String.
From Verif Require Import Util Rat Val Arr GridModel GridModel2 GridSpec GridAxis FigModel FigSpec Fig Fig2 Fig3.
Open Scope Qc_scope.

Lemma half_half (x : Qc) : x / zq 2 + x / zq 2 = x.
Proof.
  rewrite div2_half. replace (x * frac 1 2 + x * frac 1 2) with (x * (frac 1 2 + frac 1 2)) by ring.
  replace (frac 1 2 + frac 1 2) with 1 by (apply Qc_is_canon; reflexivity). ring.
Qed.
Lemma pos_mul a b : 0 < a -> 0 < b -> 0 < a * b.
Proof. intros Ha Hb. replace 0 with (0 * b) by ring. apply Qcmult_pos_lt; assumption. Qed.
Lemma pos_inv p : 0 < p -> 0 < 1 / p.
Proof.
  intros Hp. destruct (qcase (1 / p) 0) as [H|H]; [exfalso|exact H]. apply (Qcmult_pos_le _ _ p Hp) in H.
  replace (1 / p * p) with 1 in H by (field; apply Qc_pos_neq0; exact Hp). replace (0 * p) with 0 in H by ring. apply (Qcle_not_lt _ _ H). reflexivity.
Qed.

Lemma plus_lt x d : 0 < d -> x < x + d.
Proof.
  intros H. apply Qcnot_le_lt. intros L. apply (Qcplus_le_compat _ _ (- x) (- x)) in L; [|apply Qcle_refl].
  replace (x + d + - x) with d in L by ring. replace (x + - x) with 0 in L by ring. exact (Qcle_not_lt _ _ L H).
Qed.
Lemma minus_lt x d : 0 < d -> x - d < x.
Proof. intros H. replace x with (x - d + d) at 2 by ring. apply plus_lt, H. Qed.

Section Anim4.
Context {A : Alg}.
Notation grid := (grid A).

(** what is drawn along a face axis *)
Lemma face_edges (g : grid) a e : consistent g -> (a < g_ndim g)%nat -> axis_edges (nth a (g_centers g) []) = Ok e ->
  spans e (nth a (g_axes g) []) /\
  forall k, (1 <= k < nth a (g_npix g) 0)%nat -> nth k e 0 = nth k (nth a (g_axes g) []) 0 + fnth (g_pix g) a / zq 2.
Proof.
  intros C H E. pose proof (co_axis _ C a H) as X. pose proof (ao_clen _ _ _ _ _ _ _ _ X) as Lc. pose proof (npix2 g a C H) as N2.
  destruct (axis_edges_at _ _ E) as (E0 & Ek & En). rewrite Lc in *. pose proof (axis_edges_length _ _ E) as Le. rewrite Lc in Le.
  pose proof (axes_len g a C H) as La.
  split; [split; [lia|split]|].
  - replace (hd 0 e) with (nth 0 e 0) by (destruct e; reflexivity). rewrite E0, !cen_nth by (assumption || lia).
    rewrite edge_step by (assumption || lia). replace (hd 0 (nth a (g_axes g) [])) with (nth 0 (nth a (g_axes g) []) 0) by (destruct (nth a (g_axes g) []); reflexivity).
    unfold Qcdiv. ring.
  - rewrite !last_nth, Le, La. cbn [Nat.sub]. rewrite !Nat.sub_0_r, En. 
    assert (CN := fun k => cen_nth g a k C H). assert (ES := fun k => edge_step g a k C H).
    destruct (nth a (g_npix g) 0%nat) as [|[|m]]; [lia|lia|]. cbn [Nat.sub]. rewrite !Nat.sub_0_r.
    rewrite !CN, !ES by lia. set (X0 := nth m (nth a (g_axes g) []) 0). set (w := fnth (g_pix g) a).
    transitivity (X0 + w + (w / zq 2 + w / zq 2)); [unfold Qcdiv; ring|rewrite half_half; ring].
  - intros k Hk. rewrite Ek by lia. apply cen_nth; assumption || lia.
Qed.

(** what is drawn along the sliding axis *)
Lemma slide_edges (g : grid) a e : consistent g -> (a < g_ndim g)%nat -> nth a (g_fsp g) false = false -> axis_edges (sc g a) = Ok e ->
  length e = S (nth a (g_npix g) 0%nat) /\
  nth 0 e 0 = nth 0 (nth a (g_axes g) []) 0 - fnth (g_pix g) a / zq 2 /\
  (forall k, (1 <= k < nth a (g_npix g) 0)%nat -> nth k e 0 = nth k (nth a (g_axes g) []) 0) /\
  nth (nth a (g_npix g) 0%nat) e 0 = nth (nth a (g_npix g) 0%nat) (nth a (g_axes g) []) 0 - fnth (g_pix g) a / zq 2 /\
  forall k, (k < nth a (g_npix g) 0)%nat -> nth k (sc g a) 0 = nth k (nth a (g_axes g) []) 0.
Proof.
  intros C H F E. destruct (slide_centers_ok g a C H) as [_ Ls]. pose proof (npix2 g a C H) as N2.
  destruct (axis_edges_at _ _ E) as (E0 & Ek & En). rewrite Ls in *. pose proof (axis_edges_length _ _ E) as Le. rewrite Ls in Le.
  assert (V : forall k, (k < nth a (g_npix g) 0)%nat -> nth k (sc g a) 0 = nth k (nth a (g_axes g) []) 0).
  { intros k Hk. unfold sc in *. rewrite F in *. rewrite map_length in Ls.
    rewrite (nth_indep _ 0 (0 - fnth (g_pix g) a / zq 2)) by (rewrite map_length; lia).
    etransitivity; [apply (map_nth (fun x => x - fnth (g_pix g) a / zq 2))|]. rewrite cen_nth by assumption. ring. }
  split; [exact Le|]. split; [|split; [|split; [|exact V]]].
  - rewrite E0, !V, edge_step by (assumption || lia). unfold Qcdiv. ring.
  - intros k Hk. rewrite Ek by lia. apply V. lia.
  - rewrite En, !V by lia. assert (ES := fun k => edge_step g a k C H). clear - N2 ES.
    destruct (nth a (g_npix g) 0%nat) as [|[|m]]; [lia|lia|]. cbn [Nat.sub]. rewrite !Nat.sub_0_r.
    rewrite !ES by lia. set (X0 := nth m (nth a (g_axes g) []) 0). set (w := fnth (g_pix g) a).
    transitivity (X0 + w + (w / zq 2 + w / zq 2) - w / zq 2); [unfold Qcdiv; ring|rewrite half_half; ring].
Qed.

(** * Fourier axes *)
Lemma fourier_edges (g : grid) a : consistent g -> (a < g_ndim g)%nat ->
  let n := nth a (g_npix g) 0%nat in let dk := 1 / (nq n * fnth (g_pix g) a) in
  let c := nth a (g_fcenters g) [] in let e := nth a (g_faxes g) [] in
  length c = n /\ length e = S n /\ 0 < dk /\
  (forall k, (S k < n)%nat -> nth (S k) c 0 = nth k c 0 + dk) /\
  nth 0 e 0 = nth 0 c 0 - dk / zq 2 /\ nth n e 0 = nth (n - 1) c 0 + dk / zq 2 /\
  forall k, (1 <= k < n)%nat -> nth k e 0 = nth k c 0.
Proof.
  intros C H n dk c e. pose proof (co_axis _ C a H) as X. pose proof (ao_flen _ _ _ _ _ _ _ _ X) as Lc. pose proof (npix2 g a C H) as N2.
  pose proof (ao_fedge _ _ _ _ _ _ _ _ X) as E. destruct (axis_edges_at _ _ E) as (E0 & Ek & En). pose proof (axis_edges_length _ _ E) as Le.
  fold n in Lc, N2. fold c in Lc, E0, Ek, En, Le. fold e in E0, Ek, En, Le. rewrite Lc in Ek, En, Le.
  assert (Pp : 0 < nq n * fnth (g_pix g) a).
  { apply pos_mul. - replace 0 with (nq 0) by reflexivity. apply nq_lt. lia. - apply (ao_p _ _ _ _ _ _ _ _ X). }
  assert (St : forall k, (S k < n)%nat -> nth (S k) c 0 = nth k c 0 + dk).
  { intros k Hk. unfold c. rewrite (nth_error_nth _ _ 0 (ao_fcen _ _ _ _ _ _ _ _ X (S k) Hk)). rewrite (nth_error_nth _ _ 0 (ao_fcen _ _ _ _ _ _ _ _ X k ltac:(lia))).
    fold n. unfold dk. replace (Z.of_nat (S k) - Z.of_nat (n / 2))%Z with ((Z.of_nat k - Z.of_nat (n / 2)) + 1)%Z by lia. rewrite zq_add. change (zq 1) with 1. unfold Qcdiv. ring. }
  split; [exact Lc|]. split; [exact Le|]. split; [apply pos_inv; exact Pp|]. split; [exact St|]. split; [|split].
  - rewrite E0. rewrite St by lia. unfold Qcdiv. ring.
  - rewrite En. replace (n - 1)%nat with (S (n - 2)) by lia. rewrite St by lia. unfold Qcdiv. ring.
  - exact Ek.
Qed.

(** * Cases that go wrong *)
Lemma figure_high (g : grid) d p slide f0 f1 i0 : consistent g -> g_data g = Some d ->
  (3 <= slide < g_ndim g)%nat -> (f0 < g_ndim g)%nat -> (f1 < g_ndim g)%nat -> slide <> f0 -> slide <> f1 -> f0 <> f1 ->
  (p < g_nprop g)%nat -> (i0 < nth slide (g_npix g) 0)%nat ->
  grid_figure g (Z.of_nat p) (Z.of_nat slide) [Z.of_nat f0; Z.of_nat f1] (Z.of_nat i0) = Raise ValueError.
Proof.
  intros C E Hs H0 H1 N1 N2 N3 Hp Hi. pose proof (co_n _ C) as L.
  destruct (figure_start g d p slide f0 f1 (Z.of_nat i0) C E ltac:(lia) ltac:(lia) H0 H1 Hp) as (e0 & e1 & e2 & E0 & E1 & E2 & L0 & L1 & L2 & ->).
  destruct (edge_map g d p slide f0 f1 C E ltac:(lia) H0 H1 N1 N2 N3) as (em & Eem & Pem). cbv zeta. rewrite Eem. cbn [bind].
  set (edgem := if (Z.of_nat slide <? Z.of_nat f1)%Z then np_T em else em) in *.
  rewrite (pcolor_ok e0 e2 edgem _ _ (proj1 Pem) L0 L2). cbn [bind].
  destruct (slide_centers_ok g slide C ltac:(lia)) as [_ LS].
  rewrite (pyget_nat e0 i0 0) by lia. replace (Z.of_nat i0 + 1)%Z with (Z.of_nat (S i0)) by lia. rewrite (pyget_nat e0 (S i0) 0) by lia. cbn [bind].
  change 0%Z with (Z.of_nat 0). rewrite (pyget_nat (sc g slide) 0 0) by lia. cbn [bind].
  unfold face_map at 1. rewrite np_sum_nat; [|apply others_nodup|intros x Hx; apply others_in in Hx; change (shape (one_prop g d p)) with (g_npix g); lia]. cbn [bind].
  unfold np_take. rewrite (shape_total g d p (others (g_ndim g) [slide; f0; f1]) (others (length (g_npix g)) (others (g_ndim g) [slide; f0; f1])) eq_refl).
  assert (L3 : (length (others (length (g_npix g)) (others (g_ndim g) [slide; f0; f1])) <= 3)%nat).
  { rewrite L. assert (I : incl (others (g_ndim g) (others (g_ndim g) [slide; f0; f1])) [slide; f0; f1]).
    { intros x Hx. apply others_in in Hx as [Hx1 Hx2]. rewrite others_in in Hx2. destruct (in_dec Nat.eq_dec x [slide; f0; f1]); tauto. }
    apply NoDup_incl_length in I; [exact I|apply others_nodup]. }
  unfold at_pos. rewrite map_length. unfold pyidx at 1.
  replace ((0 <=? Z.of_nat slide) && (Z.of_nat slide <? Z.of_nat (length (others (length (g_npix g)) (others (g_ndim g) [slide; f0; f1])))))%Z%bool with false by (symmetry; apply andb_false_iff; right; lia).
  match goal with |- context [if ?b then _ else _] => replace b with false by (symmetry; apply andb_false_iff; right; lia) end. reflexivity.
Qed.

(** sliding along axis 1 while axis 0 is summed over: axis [f0] slides instead *)
Lemma face_wrong (g : grid) d p f0 f1 i : consistent g -> g_data g = Some d -> (1 < f0)%nat -> (f0 < f1)%nat -> (f1 < g_ndim g)%nat ->
  (i < nth f0 (g_npix g) 0)%nat ->
  exists m, face_map (one_prop g d p) (others (g_ndim g) [1%nat; f0; f1]) (Z.of_nat f0) (Z.of_nat f1) (Z.of_nat 1) (Z.of_nat i) = Ok m /\
    pictures m (nth 1 (g_npix g) 0%nat) (nth f1 (g_npix g) 0%nat)
      (fun u v => cells_total g d p vre (fun jx => on_axis 1 u jx && on_axis f0 i jx && on_axis f1 v jx)%bool).
Proof.
  intros C E H0 H1 H2 Hi. pose proof (co_n _ C) as L. unfold face_map.
  rewrite np_sum_nat; [|apply others_nodup|intros x Hx; apply others_in in Hx; change (shape (one_prop g d p)) with (g_npix g); lia]. cbn [bind].
  assert (Kp : others (length (g_npix g)) (others (g_ndim g) [1%nat; f0; f1]) = [1%nat; f0; f1]).
  { rewrite L. apply others_keep; [apply ss3; lia|cbn; intros x [<-|[<-|[<-|[]]]]; lia|]. intros k Hk. rewrite others_in. tauto. }
  pose proof (shape_total g d p _ _ Kp) as Sh. unfold at_pos in Sh. cbn [map] in Sh.
  destruct (np_take_3 _ _ _ _ 1%nat i Sh ltac:(lia) Hi) as (m & Em & Sm & Gm). rewrite Em. cbn [bind].
  rewrite (proj2 (Z.ltb_lt (Z.of_nat f0) (Z.of_nat f1))) by lia. eexists. split; [reflexivity|].
  apply T_pictures; [exact Sm|]. intros u v Hu Hv. cbn [del_nth] in Gm.
  rewrite Gm by (rewrite inb2; apply andb_true_intro; split; apply Nat.ltb_lt; assumption). f_equal. cbn [ins_nth].
  unfold getd. erewrite (sum_total g d p _ _ _ _ Kp); [reflexivity| |].
  - unfold at_pos; cbn [map]; rewrite inb3; repeat (apply andb_true_intro; split); apply Nat.ltb_lt; assumption.
  - intros jx _; unfold at_pos, on_axis; cbn [map]; rewrite !andb_true_iff, !Nat.eqb_eq.
    split; [intros Q'; injection Q'; auto|intros ((-> & ->) & ->); reflexivity].
Qed.

Lemma figure_wrong (g : grid) d p f0 f1 i0 : consistent g -> g_data g = Some d -> (1 < f0)%nat -> (f0 < f1)%nat -> (f1 < g_ndim g)%nat ->
  (p < g_nprop g)%nat -> (i0 < nth 1 (g_npix g) 0)%nat -> (i0 < nth f0 (g_npix g) 0)%nat ->
  (nth 1 (g_npix g) 0%nat <> nth f0 (g_npix g) 0%nat -> grid_figure g (Z.of_nat p) 1 [Z.of_nat f0; Z.of_nat f1] (Z.of_nat i0) = Raise TypeError) /\
  (nth 1 (g_npix g) 0%nat = nth f0 (g_npix g) 0%nat -> exists m, grid_figure g (Z.of_nat p) 1 [Z.of_nat f0; Z.of_nat f1] (Z.of_nat i0) = Ok m /\
    forall i, (i < nth 1 (g_npix g) 0)%nat -> exists fr, nth_error (mv_frames m) i = Some fr /\
      pictures (fr_map fr) (nth 1 (g_npix g) 0%nat) (nth f1 (g_npix g) 0%nat)
       (fun u v => cells_total g d p vre (fun jx => on_axis 1 u jx && on_axis f0 i jx && on_axis f1 v jx)%bool)).
Proof.
  intros C E H0 H1 H2 Hp Hi Hi0. change 1%Z with (Z.of_nat 1).
  destruct (figure_start g d p 1 f0 f1 (Z.of_nat i0) C E ltac:(lia) ltac:(lia) ltac:(lia) ltac:(lia) Hp) as (e0 & e1 & e2 & E0 & E1 & E2 & L0 & L1 & L2 & ->).
  destruct (edge_map g d p 1 f0 f1 C E ltac:(lia) ltac:(lia) ltac:(lia) ltac:(lia) ltac:(lia) ltac:(lia)) as (em & Eem & Pem). cbv zeta. rewrite Eem. cbn [bind].
  set (edgem := if (Z.of_nat 1 <? Z.of_nat f1)%Z then np_T em else em) in *.
  rewrite (pcolor_ok e0 e2 edgem _ _ (proj1 Pem) L0 L2). cbn [bind].
  destruct (slide_centers_ok g 1 C ltac:(lia)) as [_ LS].
  rewrite (pyget_nat e0 i0 0) by lia. replace (Z.of_nat i0 + 1)%Z with (Z.of_nat (S i0)) by lia. rewrite (pyget_nat e0 (S i0) 0) by lia. cbn [bind].
  change 0%Z with (Z.of_nat 0). rewrite (pyget_nat (sc g 1) 0 0) by lia. cbn [bind].
  destruct (face_wrong g d p f0 f1 i0 C E H0 H1 H2 Hi0) as (m0 & Em0 & Pm0). rewrite Em0. cbn [bind].
  split; intros N.
  - unfold pcolor. rewrite (proj1 Pm0), L1, L2.
    match goal with |- context [if ?b then _ else _] => replace b with false end; [reflexivity|]. symmetry. apply orb_false_intro; apply andb_false_iff.
    + left. apply Nat.eqb_neq. lia.
    + right. apply Nat.eqb_neq. lia.
  - rewrite <- N in L1. rewrite (pcolor_ok e1 e2 m0 _ _ (proj1 Pm0) L1 L2). cbn [bind].
    match goal with |- context [mapM ?f (seq 0 ?n)] => assert (FR : forall i, (i < n)%nat -> exists y, f i = Ok y /\
       pictures (fr_map y) (nth 1 (g_npix g) 0%nat) (nth f1 (g_npix g) 0%nat)
         (fun u v => cells_total g d p vre (fun jx => on_axis 1 u jx && on_axis f0 i jx && on_axis f1 v jx)%bool));
      [|destruct (mapM_seq_ok f n) as [fr Efr]; [intros i Hi'; destruct (FR i Hi') as (y & Ey & _); eauto|]] end.
    { intros i Hi'. rewrite LS in Hi'. destruct (face_wrong g d p f0 f1 i C E H0 H1 H2 ltac:(lia)) as (m & Em & Pm).
      rewrite (pyget_nat (sc g 1) i 0) by lia. cbn [bind]. rewrite (pyget_nat e0 i 0) by lia. replace (Z.of_nat i + 1)%Z with (Z.of_nat (S i)) by lia.
      rewrite (pyget_nat e0 (S i) 0) by lia. cbn [bind]. rewrite Em. cbn [bind]. eexists. split; [reflexivity|]. exact Pm. }
    rewrite Efr. cbn [bind]. eexists. split; [reflexivity|]. cbn [mv_frames].
    intros i Hi'. rewrite <- LS in Hi'.
    destruct (mapM_ok_nth _ _ _ i i Efr) as (y & Ny & Fy). { rewrite nth_error_seq. apply Nat.ltb_lt in Hi'. rewrite Hi'. reflexivity. }
    exists y. split; [exact Ny|]. destruct (FR i Hi') as (y' & Fy' & R). rewrite Fy in Fy'. injection Fy' as <-. exact R.
Qed.
End Anim4.
