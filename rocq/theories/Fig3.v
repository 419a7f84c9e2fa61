(** Proofs about the figures of a grid, continued: the whole animation. *)
From Coq Require Import Sorted String.
From Verif Require Import Util Rat Val Arr GridModel GridModel2 GridSpec GridAxis FigModel FigSpec Fig Fig2.
Open Scope Qc_scope.

Section Anim3.
Context {A : Alg}.
Notation grid := (grid A).

Definition fc (g : grid) (a : nat) : list Qc := if nth a (g_fsp g) false then nth a (g_fcenters g) [] else nth a (g_centers g) [].
Definition sc (g : grid) (a : nat) : list Qc :=
  if nth a (g_fsp g) false then nth a (g_fcenters g) [] else map (fun x => x - fnth (g_pix g) a / zq 2) (nth a (g_centers g) []).

Lemma fig_centers_ok (g : grid) a : consistent g -> (a < g_ndim g)%nat -> fig_centers g (Z.of_nat a) = Ok (fc g a) /\ length (fc g a) = nth a (g_npix g) 0%nat.
Proof.
  intros C H. pose proof (co_axis _ C a H) as X. unfold fig_centers, fc. rewrite (pyget_nat (g_fsp g) a false) by (rewrite (co_fs _ C); exact H). cbn [bind].
  destruct (nth a (g_fsp g) false).
  - split; [apply pyget_nat; rewrite (co_fc _ C); exact H|apply (ao_flen _ _ _ _ _ _ _ _ X)].
  - split; [apply pyget_nat; rewrite (co_ce _ C); exact H|apply (ao_clen _ _ _ _ _ _ _ _ X)].
Qed.

Lemma slide_centers_ok (g : grid) a : consistent g -> (a < g_ndim g)%nat -> slide_centers g (Z.of_nat a) = Ok (sc g a) /\ length (sc g a) = nth a (g_npix g) 0%nat.
Proof.
  intros C H. pose proof (co_axis _ C a H) as X. unfold slide_centers, sc. rewrite (pyget_nat (g_fsp g) a false) by (rewrite (co_fs _ C); exact H). cbn [bind].
  destruct (nth a (g_fsp g) false).
  - split; [apply pyget_nat; rewrite (co_fc _ C); exact H|apply (ao_flen _ _ _ _ _ _ _ _ X)].
  - rewrite (pyget_nat (g_centers g) a []) by (rewrite (co_ce _ C); exact H). cbn [bind].
    rewrite (pyget_nat (fv (g_pix g)) a 0) by (change (length (fv (g_pix g))) with (flen (g_pix g)); rewrite (co_p _ C); exact H). cbn [bind].
    split; [reflexivity|rewrite map_length; apply (ao_clen _ _ _ _ _ _ _ _ X)].
Qed.

Lemma npix2 (g : grid) a : consistent g -> (a < g_ndim g)%nat -> (2 <= nth a (g_npix g) 0)%nat.
Proof. intros C H. apply (ao_n _ _ _ _ _ _ _ _ (co_axis _ C a H)). Qed.

(** everything computed before the maps *)
Lemma figure_start (g : grid) d p slide f0 f1 i0 : consistent g -> g_data g = Some d -> (3 <= g_ndim g)%nat ->
  (slide < g_ndim g)%nat -> (f0 < g_ndim g)%nat -> (f1 < g_ndim g)%nat -> (p < g_nprop g)%nat ->
  exists e0 e1 e2, axis_edges (sc g slide) = Ok e0 /\ axis_edges (fc g f0) = Ok e1 /\ axis_edges (fc g f1) = Ok e2 /\
    length e0 = S (nth slide (g_npix g) 0%nat) /\ length e1 = S (nth f0 (g_npix g) 0%nat) /\ length e2 = S (nth f1 (g_npix g) 0%nat) /\
    grid_figure g (Z.of_nat p) (Z.of_nat slide) [Z.of_nat f0; Z.of_nat f1] i0 =
    (let d := one_prop g d p in let flatten := others (g_ndim g) [slide; f0; f1] in
     do em <- np_sum (map Z.of_nat flatten ++ [Z.of_nat f0]) d ;;
     let em := if (Z.of_nat slide <? Z.of_nat f1)%Z then np_T em else em in
     do edge <- pcolor e0 e2 em ;;
     do b0 <- pyget e0 i0 ;; do b1 <- pyget e0 (i0 + 1) ;;
     do t0 <- pyget (sc g slide) 0 ;;
     do m0 <- face_map d flatten (Z.of_nat f0) (Z.of_nat f1) (Z.of_nat slide) i0 ;;
     do p0 <- pcolor e1 e2 m0 ;;
     do frames <- mapM (fun i => let z := Z.of_nat i in
                   do t <- pyget (sc g slide) z ;; do l <- pyget e0 z ;; do r <- pyget e0 (z + 1) ;;
                   do m <- face_map d flatten (Z.of_nat f0) (Z.of_nat f1) (Z.of_nat slide) z ;;
                   Ok (mkFrame t (l, r) m)) (seq 0 (length (sc g slide))) ;;
     Ok (mkMovie edge e1 e2 (mkFrame t0 (b0, b1) m0) frames)).
Proof.
  intros C E H3 Hs H0 H1 Hp.
  destruct (slide_centers_ok g slide C Hs) as [S1 S2]. destruct (fig_centers_ok g f0 C H0) as [F1 F2]. destruct (fig_centers_ok g f1 C H1) as [G1 G2].
  destruct (axis_edges_ok (sc g slide)) as [e0 E0]; [rewrite S2; apply npix2; assumption|].
  destruct (axis_edges_ok (fc g f0)) as [e1 E1]; [rewrite F2; apply npix2; assumption|].
  destruct (axis_edges_ok (fc g f1)) as [e2 E2]; [rewrite G2; apply npix2; assumption|].
  exists e0, e1, e2. split; [exact E0|]. split; [exact E1|]. split; [exact E2|].
  split; [rewrite (axis_edges_length _ _ E0), S2; reflexivity|]. split; [rewrite (axis_edges_length _ _ E1), F2; reflexivity|]. split; [rewrite (axis_edges_length _ _ E2), G2; reflexivity|].
  unfold grid_figure. rewrite E. rewrite (proj2 (Nat.leb_le 3 (g_ndim g)) H3). cbn [check bind].
  rewrite (proj2 (Z.ltb_lt (Z.of_nat p) (Z.of_nat (g_nprop g)))) by lia. rewrite (proj2 (Z.ltb_lt (Z.of_nat slide) (Z.of_nat (g_ndim g)))) by lia. cbn [check bind forallb].
  rewrite (proj2 (Z.ltb_lt (Z.of_nat f0) (Z.of_nat (g_ndim g)))) by lia. rewrite (proj2 (Z.ltb_lt (Z.of_nat f1) (Z.of_nat (g_ndim g)))) by lia. cbn [check bind andb].
  change [Z.of_nat slide; Z.of_nat f0; Z.of_nat f1] with (map Z.of_nat [slide; f0; f1]). rewrite remaining_others.
  rewrite S1. cbn [bind]. rewrite E0. cbn [bind]. rewrite F1. cbn [bind]. rewrite E1. cbn [bind]. rewrite G1. cbn [bind]. rewrite E2. cbn [bind].
  destruct (one_prop_index g d p C E Hp) as (x & Ex & Rx). rewrite Ex. cbn [bind]. rewrite Rx. reflexivity.
Qed.

Lemma mapM_seq_ok {X} (f : nat -> exc X) n : (forall i, (i < n)%nat -> exists y, f i = Ok y) -> exists r, mapM f (seq 0 n) = Ok r.
Proof. intros H. apply mapM_all_ok. intros i Hi. apply in_seq in Hi. apply H. lia. Qed.

(** the whole figure, when every axis below the sliding one is a face axis *)
Lemma figure_ok (g : grid) d p slide f0 f1 i0 : consistent g -> g_data g = Some d ->
  (slide < g_ndim g)%nat -> (f0 < g_ndim g)%nat -> (f1 < g_ndim g)%nat -> slide <> f0 -> slide <> f1 -> f0 <> f1 ->
  (forall k, (k < slide)%nat -> k = f0 \/ k = f1) -> (p < g_nprop g)%nat -> (i0 < nth slide (g_npix g) 0)%nat ->
  exists m, grid_figure g (Z.of_nat p) (Z.of_nat slide) [Z.of_nat f0; Z.of_nat f1] (Z.of_nat i0) = Ok m /\
    axis_edges (sc g slide) = Ok (p_x (mv_edge m)) /\ axis_edges (fc g f1) = Ok (p_y (mv_edge m)) /\
    axis_edges (fc g f0) = Ok (mv_x m) /\ axis_edges (fc g f1) = Ok (mv_y m) /\
    pictures (p_c (mv_edge m)) (nth slide (g_npix g) 0%nat) (nth f1 (g_npix g) 0%nat)
      (fun i v => cells_total g d p vre (fun jx => on_axis slide i jx && on_axis f1 v jx)%bool) /\
    length (mv_frames m) = nth slide (g_npix g) 0%nat /\
    (forall i, (i < nth slide (g_npix g) 0)%nat -> exists fr, nth_error (mv_frames m) i = Some fr /\
       fr_title fr = nth i (sc g slide) 0 /\ fr_box fr = (nth i (p_x (mv_edge m)) 0, nth (S i) (p_x (mv_edge m)) 0) /\
       pictures (fr_map fr) (nth f0 (g_npix g) 0%nat) (nth f1 (g_npix g) 0%nat)
         (fun u v => cells_total g d p vre (fun jx => on_axis slide i jx && on_axis f0 u jx && on_axis f1 v jx)%bool)) /\
    fr_title (mv_still m) = nth 0 (sc g slide) 0 /\
    fr_box (mv_still m) = (nth i0 (p_x (mv_edge m)) 0, nth (S i0) (p_x (mv_edge m)) 0) /\
    pictures (fr_map (mv_still m)) (nth f0 (g_npix g) 0%nat) (nth f1 (g_npix g) 0%nat)
         (fun u v => cells_total g d p vre (fun jx => on_axis slide i0 jx && on_axis f0 u jx && on_axis f1 v jx)%bool).
Proof.
  intros C E Hs H0 H1 N1 N2 N3 K Hp Hi.
  destruct (figure_start g d p slide f0 f1 (Z.of_nat i0) C E ltac:(lia) Hs H0 H1 Hp) as (e0 & e1 & e2 & E0 & E1 & E2 & L0 & L1 & L2 & ->).
  destruct (edge_map g d p slide f0 f1 C E Hs H0 H1 N1 N2 N3) as (em & Eem & Pem). cbv zeta. rewrite Eem. cbn [bind].
  set (edgem := if (Z.of_nat slide <? Z.of_nat f1)%Z then np_T em else em) in *.
  rewrite (pcolor_ok e0 e2 edgem _ _ (proj1 Pem) L0 L2). cbn [bind].
  destruct (slide_centers_ok g slide C Hs) as [_ LS].
  rewrite (pyget_nat e0 i0 0) by lia. replace (Z.of_nat i0 + 1)%Z with (Z.of_nat (S i0)) by lia. rewrite (pyget_nat e0 (S i0) 0) by lia. cbn [bind].
  change 0%Z with (Z.of_nat 0). rewrite (pyget_nat (sc g slide) 0 0) by lia. cbn [bind].
  destruct (face_ok g d p slide f0 f1 i0 C E Hs H0 H1 N1 N2 N3 K Hi) as (m0 & Em0 & Pm0). rewrite Em0. cbn [bind].
  rewrite (pcolor_ok e1 e2 m0 _ _ (proj1 Pm0) L1 L2). cbn [bind].
  match goal with |- context [mapM ?f (seq 0 ?n)] => assert (FR : forall i, (i < n)%nat -> exists y, f i = Ok y /\
       fr_title y = nth i (sc g slide) 0 /\ fr_box y = (nth i e0 0, nth (S i) e0 0) /\
       pictures (fr_map y) (nth f0 (g_npix g) 0%nat) (nth f1 (g_npix g) 0%nat)
         (fun u v => cells_total g d p vre (fun jx => on_axis slide i jx && on_axis f0 u jx && on_axis f1 v jx)%bool));
     [|destruct (mapM_seq_ok f n) as [fr Efr]; [intros i Hi'; destruct (FR i Hi') as (y & Ey & _); eauto|]] end.
  { intros i Hi'. rewrite LS in Hi'. destruct (face_ok g d p slide f0 f1 i C E Hs H0 H1 N1 N2 N3 K Hi') as (m & Em & Pm).
    rewrite (pyget_nat (sc g slide) i 0) by lia. cbn [bind]. rewrite (pyget_nat e0 i 0) by lia. replace (Z.of_nat i + 1)%Z with (Z.of_nat (S i)) by lia.
    rewrite (pyget_nat e0 (S i) 0) by lia. cbn [bind]. rewrite Em. cbn [bind]. eexists. split; [reflexivity|]. cbn [fr_title fr_box fr_map]. auto. }
  rewrite Efr. cbn [bind]. eexists. split; [reflexivity|]. cbn [mv_edge mv_x mv_y mv_still mv_frames p_x p_y p_c fr_title fr_box fr_map].
  split; [exact E0|]. split; [exact E2|]. split; [exact E1|]. split; [exact E2|]. split; [exact Pem|].
  split; [rewrite (mapM_ok_length _ _ _ Efr), seq_length; exact LS|].
  split; [|auto]. intros i Hi'. rewrite <- LS in Hi'.
  destruct (mapM_ok_nth _ _ _ i i Efr) as (y & Ny & Fy). { rewrite nth_error_seq. apply Nat.ltb_lt in Hi'. rewrite Hi'. reflexivity. }
  exists y. split; [exact Ny|]. destruct (FR i Hi') as (y' & Fy' & R). rewrite Fy in Fy'. injection Fy' as <-. exact R.
Qed.

(** * Coordinates *)
Lemma cen_nth (g : grid) a k : consistent g -> (a < g_ndim g)%nat -> (k < nth a (g_npix g) 0)%nat ->
  nth k (nth a (g_centers g) []) 0 = nth k (nth a (g_axes g) []) 0 + fnth (g_pix g) a / zq 2.
Proof.
  intros C H Hk. pose proof (co_axis _ C a H) as X.
  rewrite (nth_error_nth _ _ 0 (ao_cen _ _ _ _ _ _ _ _ X k Hk)). rewrite (nth_error_nth _ _ 0 (ao_edge _ _ _ _ _ _ _ _ X k ltac:(lia))).
  change (frac 1 2) with (/ zq 2). unfold Qcdiv. ring.
Qed.
Lemma edge_step (g : grid) a k : consistent g -> (a < g_ndim g)%nat -> (k < nth a (g_npix g) 0)%nat ->
  nth (S k) (nth a (g_axes g) []) 0 = nth k (nth a (g_axes g) []) 0 + fnth (g_pix g) a.
Proof.
  intros C H Hk. pose proof (co_axis _ C a H) as X.
  rewrite (nth_error_nth _ _ 0 (ao_edge _ _ _ _ _ _ _ _ X (S k) ltac:(lia))). rewrite (nth_error_nth _ _ 0 (ao_edge _ _ _ _ _ _ _ _ X k ltac:(lia))).
  rewrite nq_S. ring.
Qed.
End Anim3.
