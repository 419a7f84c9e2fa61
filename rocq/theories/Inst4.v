(** Beams, convolved and collapsed maps: proofs (C52). *)
From Verif Require Import Dict Util Rat Val Arr GridModel GridModel2 GridSpec GridSpec2 ConvSpec GridNew GridEx GridCrop GridCollapse Conv InstModel InstSpec Inst Inst2 Inst3.
Open Scope string_scope.
Open Scope list_scope.
Open Scope Qc_scope.

Lemma three {X} (l : list X) (d : X) : length l = 3%nat -> l = [nth 0 l d; nth 1 l d; nth 2 l d].
Proof. destruct l as [|a [|b [|c [|e l]]]]; cbn; try discriminate. auto. Qed.
Lemma fat_nth a i : (i < flen a)%nat -> fat a i = Ok (fnth a i).
Proof. intros H. unfold fat, fnth, flen in *. rewrite (nth_error_nth' _ 0 H). auto. Qed.

Lemma obs_facts g : observable g -> flen (g_center g) = 3%nat /\ flen (g_side g) = 3%nat /\ flen (g_pix g) = 3%nat /\
  (forall i, (i < 3)%nat -> 0 < fnth (g_pix g) i) /\ (forall x, In x (fv (g_pix g)) -> 0 < x) /\ length (g_npix g) = 3%nat /\
  (forall i, (i < 3)%nat -> fnth (g_side g) i = zq (Z.of_nat (nth i (g_npix g) 0%nat)) * fnth (g_pix g) i).
Proof.
  intros (C & F & D & Fs & Pw & N & Np & Lg).
  assert (P : forall i, (i < 3)%nat -> 0 < fnth (g_pix g) i) by (intros i Hi; rewrite <- N in Hi; apply (ao_p _ _ _ _ _ _ _ _ (co_axis _ C i Hi))).
  rewrite <- N. split; [apply C|]. split; [apply C|]. split; [apply C|]. rewrite N. split; auto. split; [|split].
  - intros x Hx. apply In_nth with (d := 0) in Hx. destruct Hx as (i & Hi & <-). apply P. pose proof (co_p _ C) as L. unfold flen in L. lia.
  - rewrite (co_n _ C). auto.
  - intros i Hi. rewrite <- N in Hi. rewrite (ao_s _ _ _ _ _ _ _ _ (co_axis _ C i Hi)). auto.
Qed.

Lemma cens_beam n c s p e ce fe fc : axis_ok n c s p e ce fe fc -> c = 0 -> ce = beam_axis n p.
Proof.
  intros A ->. apply nth_error_ext. intros k. unfold beam_axis. rewrite nth_error_map_seq.
  destruct (Nat.ltb_spec k n) as [H|H].
  - rewrite (ao_cen _ _ _ _ _ _ _ _ A k H), (ao_s _ _ _ _ _ _ _ _ A). f_equal. cbn [Nat.add]. field. discriminate.
  - apply nth_error_None. rewrite (ao_clen _ _ _ _ _ _ _ _ A). auto.
Qed.
Lemma cens_same n c s p e ce fe fc e' ce' fe' fc' : axis_ok n c s p e ce fe fc -> axis_ok n c s p e' ce' fe' fc' -> ce = ce'.
Proof.
  intros A B. apply nth_error_ext. intros k. destruct (Nat.ltb_spec k n) as [H|H].
  - rewrite (ao_cen _ _ _ _ _ _ _ _ A k H), (ao_cen _ _ _ _ _ _ _ _ B k H). auto.
  - rewrite (proj2 (nth_error_None ce k)), (proj2 (nth_error_None ce' k)); auto; [rewrite (ao_clen _ _ _ _ _ _ _ _ B)|rewrite (ao_clen _ _ _ _ _ _ _ _ A)]; auto.
Qed.

(** the empty grid a beam is drawn on *)
Lemma beam_grid f k0 k1 b : observable f ->
  grid_new QcAlg 1 (mkF (fint (g_center f)) [0; 0; fnth (g_center f) 2]) (mkF (fint (g_pix f) && fint (g_side f)) [zq k0 * fnth (g_pix f) 0; zq k1 * fnth (g_pix f) 1; fnth (g_side f) 2])
     (g_pix f) (Some (g_axu f)) (Some (g_gru f)) = Ok b ->
  g_ndim b = 3%nat /\ g_nprop b = 1%nat /\ g_npix b = [Z.to_nat k0; Z.to_nat k1; nth 2 (g_npix f) 0%nat] /\ consistent b /\
  nth 0 (g_centers b) [] = beam_axis (Z.to_nat k0) (fnth (g_pix f) 0) /\ nth 1 (g_centers b) [] = beam_axis (Z.to_nat k1) (fnth (g_pix f) 1) /\
  nth 2 (g_centers b) [] = nth 2 (g_centers f) [].
Proof.
  intros O H. pose proof (obs_facts f O) as (L1 & L2 & L3 & Pp & Pi & Ln & Sd). destruct O as (C & _ & _ & _ & _ & N & _).
  destruct (grid_new_built _ _ _ _ _ _ _ _ Pi H) as (Nd & Np & _ & _ & Cc & Cb). unfold flen in Nd; cbn in Nd.
  assert (Sz : forall i k, (i < 3)%nat -> bval (mkF (fint (g_pix f) && fint (g_side f)) [zq k0 * fnth (g_pix f) 0; zq k1 * fnth (g_pix f) 1; fnth (g_side f) 2]) i = zq k * fnth (g_pix f) i ->
     fnth (g_pix b) i = fnth (g_pix f) i /\ nth i (g_npix b) 0%nat = Z.to_nat k).
  { intros i k Hi E. assert (Bp : bval (g_pix f) i = fnth (g_pix f) i) by (unfold bval; rewrite L3; auto).
    destruct (grid_new_side _ _ _ _ _ _ _ _ i H) as (Q1 & _ & _ & Q2); [unfold flen; cbn; auto|rewrite Bp; auto|].
    rewrite Bp in *. split; auto. apply Q2; auto. }
  destruct (Sz 0%nat k0) as [X1 X2]; [lia|reflexivity|]. destruct (Sz 1%nat k1) as [Y1 Y2]; [lia|reflexivity|].
  destruct (Sz 2%nat (Z.of_nat (nth 2 (g_npix f) 0%nat))) as [Z1 Z2]; [lia|unfold bval, fnth; cbn; apply Sd; lia|].
  rewrite Nat2Z.id in Z2.
  split; auto. split; auto. split; [rewrite (three (g_npix b) 0%nat) by (rewrite (co_n _ Cb); auto); congruence|]. split; auto.
  pose proof (co_axis _ Cb 0%nat ltac:(lia)) as A0. pose proof (co_axis _ Cb 1%nat ltac:(lia)) as A1. pose proof (co_axis _ Cb 2%nat ltac:(lia)) as A2.
  pose proof (co_axis _ C 2%nat ltac:(lia)) as B2.
  rewrite Cc in *. rewrite X1, X2 in A0. rewrite Y1, Y2 in A1. rewrite Z1, Z2 in A2. split; [|split].
  - eapply cens_beam; [exact A0|reflexivity].
  - eapply cens_beam; [exact A1|reflexivity].
  - eapply cens_same; [exact A2|]. replace (fnth (g_side b) 2) with (fnth (g_side f) 2); [exact B2|].
    rewrite (ao_s _ _ _ _ _ _ _ _ A2), (ao_s _ _ _ _ _ _ _ _ B2). auto.
Qed.
Lemma drop_last_axis (v : arr Qc) kx ky nz x y z : shape v = [kx; ky; nz] -> getd 0 (mkArr (shape v ++ [1%nat]) (dat v)) [x; y; z; 0%nat] = getd 0 v [x; y; z].
Proof.
  intros S. unfold getd, get. cbn [shape dat]. rewrite S. cbn [app inb flat size fold_right].
  rewrite !andb_true_r. destruct (x <? kx)%nat, (y <? ky)%nat, (z <? nz)%nat; cbn [andb Nat.ltb Nat.leb]; auto.
Qed.
Lemma idxs2_prod nx ny : idxs [nx; ny] = map (fun xy => [fst xy; snd xy]) (list_prod (seq 0 nx) (seq 0 ny)).
Proof.
  cbn [idxs]. induction (seq 0 nx) as [|x l IH]; auto. cbn [flat_map list_prod]. rewrite map_app, IH. f_equal. rewrite map_map.
  clear. induction (seq 0 ny) as [|y m IH]; auto. cbn. cbn in IH. rewrite IH. auto.
Qed.
Lemma plane_eq (v : arr Qc) kx ky nz z : shape v = [kx; ky; nz] -> plane (mkArr (shape v ++ [1%nat]) (dat v)) z = map (fun xy => getd 0 v [fst xy; snd xy; z]) (list_prod (seq 0 kx) (seq 0 ky)).
Proof.
  intros S. unfold plane. cbn [shape]. rewrite S. cbn [app firstn]. rewrite idxs2_prod, map_map. apply map_ext. intros [x y]. cbn [fst snd app].
  pose proof (drop_last_axis v kx ky nz x y z S) as D. rewrite S in D. exact D.
Qed.

Lemma norm_ok n v kx ky nz x y z q : shape v = [kx; ky; nz] -> (x < kx)%nat -> (y < ky)%nat -> (z < nz)%nat -> beam_scale n v kx ky z q ->
  getd 0 (norm_beam n (mkArr (shape v ++ [1%nat]) (dat v))) [x; y; z; 0%nat] = getd 0 v [x; y; z] / q.
Proof.
  intros S Hx Hy Hz. set (b := mkArr (shape v ++ [1%nat]) (dat v)).
  assert (In4 : inb (shape b) [x; y; z; 0%nat] = true).
  { cbn [b shape]. rewrite S. cbn [app inb]. rewrite !andb_true_iff, !Nat.ltb_lt. auto 10. }
  assert (Gv : getd 0 b [x; y; z; 0%nat] = getd 0 v [x; y; z]) by (apply (drop_last_axis v kx ky nz); auto).
  assert (Pl : plane b z = map (fun xy => getd 0 v [fst xy; snd xy; z]) (list_prod (seq 0 kx) (seq 0 ky))) by (apply (plane_eq v kx ky nz); auto).
  destruct n; cbn [beam_scale norm_beam].
  - intros [(x0 & y0 & H1 & H2 & H3) Hmax]. rewrite getd_tab by auto. cbn [nth]. rewrite Gv, Pl. f_equal. apply lmax_eq.
    + apply in_map_iff. exists (x0, y0). split; auto. apply in_prod; apply in_seq; lia.
    + intros w Hw. apply in_map_iff in Hw. destruct Hw as ([x1 y1] & <- & Hw). apply in_prod_iff in Hw. destruct Hw as [W1 W2]. apply in_seq in W1, W2. apply Hmax; cbn; lia.
  - intros ->. rewrite getd_tab by auto. cbn [nth]. rewrite Gv, Pl. auto.
  - intros ->. rewrite Gv. field. discriminate.
  - intros [].
Qed.
Lemma norm_wf n (b : arr Qc) : awf b -> awf (norm_beam n b) /\ shape (norm_beam n b) = shape b.
Proof. intros W. destruct n; cbn; auto; split; auto; apply tab_wf. Qed.

Section Beam.
Context (sp : fn -> kw -> list Qc -> list Qc -> list Qc -> exc (arr Qc)) (Wsp : forall f k x y z v, sp f k x y z = Ok v -> awf v).

Definition size_of (ks : ksize) (bres : option Qc) (f : G) (i : nat) (z : Z) : Prop :=
  match ks with KsSeq l => nth_error l i = Some z | KsNone => exists b, bres = Some b /\ z = (round_even (b / fnth (g_pix f) i) * 10 + 1)%Z | KsInt _ => False end.
Lemma size_of_size ks bres f i z : size_of ks bres f i z -> beam_size ks bres f i (Z.to_nat z).
Proof. destruct ks; cbn; auto. - intros (b & -> & ->). eauto. - intros H. eauto. Qed.
Lemma size_size_of ks bres f i k : beam_size ks bres f i k -> exists z, size_of ks bres f i z /\ k = Z.to_nat z.
Proof. destruct ks; cbn. - intros (b & E & ->). eauto 10. - intros []. - intros (z & E & ->). eauto. Qed.

Lemma setup_inv bres f r n ks b : observable f -> setup_beam sp bres f r n ks = Ok b ->
  exists k0 k1, size_of ks bres f 0 k0 /\ size_of ks bres f 1 k1 /\ is_beam sp f r n (Z.to_nat k0) (Z.to_nat k1) b /\ kernel_ok b.
Proof.
  intros O. pose proof (obs_facts f O) as (L1 & L2 & L3 & Pp & Pi & Ln & Sd). unfold setup_beam.
  assert (Sel : forall ksz, match ks, bres with KsNone, None => Raise ValueError | KsNone, Some b => Ok (Some (map (fun p => (round_even (b / p) * 10 + 1)%Z) (firstn 2 (fv (g_pix f)))))
            | KsInt _, _ => Ok None | KsSeq l, _ => Ok (Some l) end = Ok (Some ksz) -> forall i z, (i < 2)%nat -> nth_error ksz i = Some z -> size_of ks bres f i z).
  { intros ksz E i z Hi Hz. destruct ks as [|z0|l]; cbn.
    - destruct bres as [b0|]; [|discriminate]. exists b0. split; auto. injection E as <-. rewrite nth_error_map_some in Hz.
      unfold fnth, flen in *. destruct (fv (g_pix f)) as [|p0 [|p1 l]]; try discriminate L3.
      destruct i as [|[|i]]; [..|lia]; cbn in Hz |- *; injection Hz as <-; auto.
    - destruct bres; discriminate.
    - destruct bres; injection E as <-; auto. }
  destruct (match ks with KsNone => _ | _ => _ end) as [[ksz|]|e] eqn:Es; cbn [bind]; [|intros H|discriminate].
  2:{ destruct (check _ _); [|discriminate]. cbn [bind] in H. destruct (fat _ 2); discriminate. }
  specialize (Sel _ eq_refl). destruct (check _ _); cbn [bind]; [|discriminate].
  rewrite !fat_nth by (rewrite ?L1, ?L2, ?L3; lia). cbn [bind].
  unfold ks_at. destruct (nth_error ksz 0) as [k0|] eqn:K0; cbn [bind]; [|discriminate]. destruct (nth_error ksz 1) as [k1|] eqn:K1; cbn [bind]; [|discriminate].
  destruct (grid_new QcAlg 1 _ _ _ _ _) as [b1|e] eqn:Eg; cbn [bind]; [|discriminate]. cbv zeta.
  destruct (beam_grid f k0 k1 b1 O Eg) as (Nd & Np & Npx & Cb & E0 & E1 & E2).
  change (g_centers (init_grid b1)) with (g_centers b1). rewrite E0, E1, E2.
  destruct (sp _ _ _ _ _) as [v|e] eqn:Ev; cbn [bind]; [|discriminate].
  destruct (list_eq_dec _ _ _) as [Esh|]; cbn [check bind]; [|discriminate]. intros H; injection H as <-.
  assert (Sv : shape v = [Z.to_nat k0; Z.to_nat k1; nth 2 (g_npix f) 0%nat]).
  { change (dshape (init_grid b1)) with (g_npix b1 ++ [g_nprop b1]) in Esh. rewrite Npx, Np in Esh. apply app_inj_tail in Esh. tauto. }
  exists k0, k1. split; auto. split; auto.
  set (kx := Z.to_nat k0) in *. set (ky := Z.to_nat k1) in *. set (nz := nth 2 (g_npix f) 0%nat) in *.
  set (arr0 := mkArr (shape v ++ [1%nat]) (dat v)) in *.
  assert (W0 : awf arr0). { unfold awf, arr0; cbn [shape dat]. rewrite size_app. cbn [size fold_right]. rewrite (Wsp _ _ _ _ _ _ Ev). unfold size. lia. }
  destruct (norm_wf n arr0 W0) as [W1 W2]. split.
  - unfold is_beam. fold nz. split; [exact Nd|]. split; [exact Npx|]. split; [exact Np|]. exists v. split; [exact Ev|].
    intros x y z q Hx Hy Hz Hq _. unfold cell. cbn [with_data g_data app]. apply (norm_ok n v kx ky nz); auto.
  - unfold kernel_ok. cbn [with_data init_grid with_nobj g_npix g_ndim g_nprop g_data]. rewrite Nd, Np, Npx. split; auto. split; [|split; [lia|]].
    + rewrite <- Npx. apply Forall_forall. intros m Hm. apply In_nth with (d := 0%nat) in Hm. destruct Hm as (i & Hi & <-). rewrite (co_n _ Cb) in Hi.
      pose proof (ao_n _ _ _ _ _ _ _ _ (co_axis _ Cb i Hi)). lia.
    + eexists. split; [reflexivity|]. split; [exact W1|]. eapply eq_trans; [exact W2|]. unfold arr0. cbn [shape]. rewrite Sv. auto.
Qed.
End Beam.
