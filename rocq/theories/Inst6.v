(** Maps that can be made are made: proofs (C52). *)
From Verif Require Import Dict Util Rat Val Arr GridModel GridModel2 GridSpec GridSpec2 ConvSpec GridNew GridEx GridCrop GridCollapse Conv InstModel InstSpec Inst Inst2 Inst3 Inst4 Inst5.
Open Scope string_scope.
Open Scope list_scope.
Open Scope Qc_scope.

Section Success.
Context (sp : fn -> kw -> list Qc -> list Qc -> list Qc -> exc (arr Qc)) (sc : fn -> kw -> list Qc -> exc (arr Qc)) (Rok : responses_ok sp sc).

Lemma wide k p : (2 <= k)%Z -> 0 < p -> frac 21 20 * p < zq k * p.
Proof.
  intros Hk Hp. apply Qcmult_lt_compat_r; auto. apply Qclt_le_trans with (zq 2); [reflexivity|]. apply zq_le; auto.
Qed.
Lemma setup_ok bres f r n ks kx ky v : observable f -> g_nprop f = 1%nat -> n <> NOther -> (2 <= kx)%nat -> (2 <= ky)%nat -> beam_size ks bres f 0 kx -> beam_size ks bres f 1 ky ->
  sp (fst r) (snd r) (beam_axis kx (fnth (g_pix f) 0)) (beam_axis ky (fnth (g_pix f) 1)) (nth 2 (g_centers f) []) = Ok v -> shape v = [kx; ky; nth 2 (g_npix f) 0%nat] ->
  exists b, setup_beam sp bres f r n ks = Ok b.
Proof.
  intros O N1 Hn Hkx Hky Sx Sy Ev Sv. pose proof (obs_facts f O) as (L1 & L2 & L3 & Pp & Pi & Ln & Sd).
  destruct (size_size_of _ _ _ _ _ Sx) as (k0 & S0 & E0). destruct (size_size_of _ _ _ _ _ Sy) as (k1 & S1 & E1).
  unfold setup_beam.
  assert (Sel : exists ksz, match ks, bres with KsNone, None => Raise ValueError | KsNone, Some b => Ok (Some (map (fun p => (round_even (b / p) * 10 + 1)%Z) (firstn 2 (fv (g_pix f)))))
            | KsInt _, _ => Ok None | KsSeq l, _ => Ok (Some l) end = Ok (Some ksz) /\ nth_error ksz 0 = Some k0 /\ nth_error ksz 1 = Some k1).
  { destruct ks as [|z0|l]; cbn [size_of] in *.
    - destruct S0 as (b0 & -> & ->), S1 as (b1 & Eb & ->). injection Eb as <-. eexists; split; [reflexivity|].
      unfold fnth, flen in *. destruct (fv (g_pix f)) as [|p0 [|p1 l]]; try discriminate L3. cbn. auto.
    - contradiction.
    - exists l. destruct bres; auto. }
  destruct Sel as (ksz & -> & K0 & K1). cbn [bind]. replace (match n with NOther => false | _ => true end) with true by (destruct n; congruence). cbn [check bind].
  rewrite !fat_nth by (rewrite ?L1, ?L2, ?L3; lia). cbn [bind]. unfold ks_at. rewrite K0, K1. cbn [bind].
  pose proof O as (C & _ & _ & _ & _ & N & _ & Lg).
  set (cc := mkF (fint (g_center f)) [0; 0; fnth (g_center f) 2]). set (sd := mkF (fint (g_pix f) && fint (g_side f)) [zq k0 * fnth (g_pix f) 0; zq k1 * fnth (g_pix f) 1; fnth (g_side f) 2]).
  destruct (proj2 (grid_new_success QcAlg 1 cc sd (g_pix f) (Some (g_axu f)) (Some (g_gru f)) Pi)) as [b1 Eg].
  { split; [left; reflexivity|]. split; [left; rewrite L3; reflexivity|]. split; [left; rewrite (co_au _ C), N; reflexivity|]. split; [left; rewrite Lg; auto|].
    intros i Hi. change (flen cc) with 3%nat in Hi. assert (Bp : bval (g_pix f) i = fnth (g_pix f) i) by (unfold bval; rewrite L3; auto). rewrite Bp.
    destruct i as [|[|[|i]]]; [| | |lia].
    - apply (wide k0); [lia|apply Pp; lia].
    - apply (wide k1); [lia|apply Pp; lia].
    - unfold bval, fnth at 2; cbn. rewrite (Sd 2%nat) by lia. apply (wide (Z.of_nat (nth 2 (g_npix f) 0%nat))); [|apply Pp; lia].
      pose proof (ao_n _ _ _ _ _ _ _ _ (co_axis _ C 2%nat ltac:(lia))). lia. }
  destruct (beam_grid f k0 k1 b1 O Eg) as (Nd & Np & Npx & Cb & F0 & F1 & F2). rewrite Eg. cbn [bind]. cbv zeta.
  change (g_centers (init_grid b1)) with (g_centers b1). rewrite F0, F1, F2, <- E0, <- E1, Ev. cbn [bind].
  change (dshape (init_grid b1)) with (g_npix b1 ++ [g_nprop b1]). rewrite Npx, Np, Sv, E0, E1. destruct (list_eq_dec _ _ _); [|tauto]. cbn [check bind]. eauto.
Qed.

Definition ready (s : inst) (f : G) (a : mapargs) : Prop := observable f /\ plain_pad (m_pad a) /\ beam_fits f a /\ forall d x, dget (i_dets s) d = Some x -> sees sp sc (i_bres s) f a x.

Lemma groups_part s a gs : tables_ok s -> map_groups s a = Ok gs -> NoDup (concat gs) /\ (forall d, In d (concat gs) <-> In d (i_names s)) /\
  (forall g, In g gs -> m_beam a = None -> exists d0 r k, g = d0 :: r /\ forall d, In d g -> spat_of s d = Ok k).
Proof.
  intros T Hg. unfold map_groups in Hg. destruct (m_beam a) as [b|] eqn:Eb.
  - injection Hg as <-. cbn. rewrite app_nil_r. split; [apply T|]. split; [tauto|]. discriminate.
  - unfold spatial_clones in Hg. apply (clones_spec spat_eqb spat_eqb_spec (spat_of s)) in Hg; [|apply T|lia].
    destruct Hg as (A & B & C). split; auto. split; auto. intros g Hgg _. destruct (C g Hgg) as (d0 & r & k & -> & K & H).
    exists d0, r, k. split; auto. intros d1 Hd. apply H; auto. apply B. apply in_concat. exists (d0 :: r). auto.
Qed.
Lemma spat_at s d x : dget (i_dets s) d = Some x -> spat_of s d = match d_spat x with Some r => Ok r | None => Raise AttributeError end.
Proof. intros H. unfold spat_of, attr, det_at, dfind. rewrite H. reflexivity. Qed.
Lemma spec_at s d x : dget (i_dets s) d = Some x -> spec_of s d = match d_spec x with Some r => Ok r | None => Raise AttributeError end.
Proof. intros H. unfold spec_of, attr, det_at, dfind. rewrite H. reflexivity. Qed.

Lemma groups_ok s f a : tables_ok s -> ready s f a -> exists gs, map_groups s a = Ok gs.
Proof.
  intros T (O & Hp & Hb & Hs). unfold map_groups. destruct (m_beam a) as [b|] eqn:Eb; eauto. unfold spatial_clones.
  apply clones_ok; auto. { apply spat_eqb_spec. }
  intros d Hd. apply (t_dets _ T) in Hd. destruct Hd as [x Hx]. destruct (Hs d x Hx) as [S1 _]. destruct (S1 Eb) as (_ & _ & r & kx & ky & v & Hr & _).
  rewrite (spat_at s d x Hx), Hr. eauto.
Qed.
Lemma one_ok s f a : tables_ok s -> i_names s <> [] -> ready s f a -> forall gs, map_groups s a = Ok gs -> exists m, map_one sp sc s gs a f = Ok m.
Proof.
  intros T Ne (O & Hp & Hb & Hs) gs Hg. destruct (groups_part s a gs T Hg) as (N & P & K).
  assert (Bf : forall d, In d (i_names s) -> exists b, beam_for sp s f a d = Ok b).
  { intros d Hd. apply (t_dets _ T) in Hd. destruct Hd as [x Hx]. destruct (Hs d x Hx) as [S1 _]. unfold beam_for. destruct (m_beam a) as [b|] eqn:Eb; eauto.
    destruct (S1 eq_refl) as (Hn & Hn1 & r & kx & ky & v & Hr & H2 & H3 & H4 & H5 & H6 & H7). rewrite (spat_at s d x Hx), Hr. cbn [bind].
    apply (setup_ok _ _ _ _ _ kx ky v); auto. }
  assert (Gm : forall conv b ds, (forall d, In d ds -> In d (i_names s)) -> kernel_ok b -> conv_fits f b [0; 1]%nat -> grid_convolve_new f b (Some [0%Z; 1%Z]) (m_pad a) = Ok conv ->
     forall acc, exists acc', group_maps sc s conv ds acc = Ok acc').
  { intros conv b ds Hds Kb Fb Ec. induction ds as [|d ds IH]; intros acc; cbn [group_maps]; eauto.
    destruct (proj1 (t_dets _ T d) (Hds d (or_introl eq_refl))) as [x Hx]. destruct (Hs d x Hx) as [_ (r & w & Hr & Hw)].
    destruct (det_step_ok sp sc Rok s f b (m_pad a) d r w conv O Kb Fb Hp Ec) as (m & Em & _); auto. { rewrite (spec_at s d x Hx), Hr. auto. }
    rewrite Em. cbn [bind]. apply IH. intros; apply Hds; right; auto. }
  assert (Ag : forall gs', (forall g, In g gs' -> In g gs) -> forall acc, exists acc', all_groups sp sc s f a gs' acc = Ok acc').
  { induction gs' as [|g gs' IH]; intros Hin acc; cbn [all_groups]; eauto.
    assert (Hgn : forall d, In d g -> In d (i_names s)). { intros d Hd. apply P. apply in_concat. exists g. split; auto. apply Hin; left; auto. }
    assert (Eb : exists d b, group_beam sp s f a g = Ok b /\ beam_for sp s f a d = Ok b).
    { unfold group_beam, beam_for in *. destruct (m_beam a) as [b|] eqn:Ma; [exists "", b; auto|].
      destruct (K g (Hin g (or_introl eq_refl)) eq_refl) as (d0 & r & k & -> & Hk). destruct (Bf d0 (Hgn d0 (or_introl eq_refl))) as [b Hb0]. exists d0, b. auto. }
    destruct Eb as (d & b & E1 & E2). rewrite E1. cbn [bind]. destruct (beam_for_ok sp sc Rok s f a d b O Hp Hb E2) as (Kb & Fb & _).
    destruct (conv_step f b _ O Kb Fb Hp) as (d3 & E3 & _). rewrite E3. cbn [bind].
    destruct (Gm _ b g Hgn Kb Fb E3 acc) as [acc1 ->]. cbn [bind]. apply IH. intros; apply Hin; right; auto. }
  unfold map_one. destruct (Ag gs (fun g H => H) ([], None)) as [acc Ea]. rewrite Ea. cbn [bind].
  destruct (all_groups_ok sp sc s f a gs _ _ Ea K) as (ms & A & B & C & D). cbn [fst snd app] in A, D.
  assert (Hn : NoDup (map fst ms)) by congruence.
  assert (Ne2 : ms <> []). { intros ->. apply Ne. cbn in B. destruct (i_names s) as [|d l]; auto. pose proof (proj2 (P d) (or_introl eq_refl)) as Hc. rewrite <- B in Hc. destruct Hc. }
  assert (Sh : forall d m, In (d, m) ms -> exists dm, g_data m = Some dm /\ shape dm = [nth 0 (g_npix f) 0%nat; nth 1 (g_npix f) 0%nat; g_nprop f]).
  { intros d m Hd. destruct (C d m Hd) as (b & conv & B1 & B2 & B3). destruct (beam_for_ok sp sc Rok s f a d b O Hp Hb B1) as (Kb & Fb & _).
    assert (Hdn : In d (i_names s)) by (apply P; rewrite <- B; apply in_map_iff; exists (d, m); auto).
    destruct (proj1 (t_dets _ T d) Hdn) as [x Hx]. destruct (Hs d x Hx) as [_ (r & w & Hr & Hw)].
    destruct (det_step_ok sp sc Rok s f b (m_pad a) d r w conv O Kb Fb Hp B2) as (m2 & Em & Cm & Wm & Dm & _); auto. { rewrite (spec_at s d x Hx), Hr. auto. }
    rewrite B3 in Em. injection Em as <-. destruct (g_data m) as [dm|] eqn:Ed; [|tauto]. exists dm. split; auto.
    pose proof (co_data _ Cm) as Cd. rewrite Ed in Cd. destruct Cd as [_ Cd]. rewrite Cd. destruct Wm as (W1 & _ & _ & _ & _ & _ & _ & _ & W9 & _). rewrite W9, W1.
    destruct O as (Cf & _ & _ & _ & _ & N3 & _). rewrite (three (g_npix f) 0%nat) by (rewrite (co_n _ Cf); auto). reflexivity. }
  assert (St : exists d, stack_maps s (fst acc) = Ok d).
  { rewrite A. unfold stack_maps.
    destruct (mapM_all_ok (fun d => match dget ms d with Some m => match g_data m with Some x => Ok x | None => Raise ValueError end | None => Raise ValueError end) (i_names s)) as [ls Els].
    { intros d Hd. apply P in Hd. rewrite <- B in Hd. apply in_map_iff in Hd. destruct Hd as ([d1 m1] & <- & Hd). cbn [fst]. rewrite (dget_unique ms d1 m1) by auto.
      destruct (Sh _ _ Hd) as (dm & -> & _). eauto. }
    rewrite Els. cbn [bind]. destruct (mapM_nth _ _ _ Els) as [Ll Pl].
    assert (Hsh : forall l, In l ls -> shape l = [nth 0 (g_npix f) 0%nat; nth 1 (g_npix f) 0%nat; g_nprop f]).
    { intros l Hl. apply In_nth_error in Hl. destruct Hl as [i Hi]. assert (Hi2 : (i < length (i_names s))%nat) by (rewrite <- Ll; eapply nth_error_Some_lt; eauto).
      destruct (nth_error_lt_Some _ _ Hi2) as [d Hd]. destruct (Pl i d Hd) as (y & Hy & Hn2). rewrite Hi in Hn2. injection Hn2 as <-.
      destruct (dget ms d) as [m|] eqn:Em; [|discriminate]. apply dget_In in Em. destruct (Sh _ _ Em) as (dm & Hdm & Hs2). rewrite Hdm in Hy. injection Hy as <-. auto. }
    destruct ls as [|l0 ls']. { exfalso. apply Ne. destruct (i_names s); auto; discriminate. }
    rewrite (proj2 (forallb_forall _ (l0 :: ls'))).
    2:{ intros l Hl. rewrite (Hsh l Hl), (Hsh l0 (or_introl eq_refl)). destruct (list_eq_dec _ _ _); tauto. }
    cbn [check bind]. rewrite (Hsh l0 (or_introl eq_refl)). destruct O as (_ & _ & _ & _ & _ & _ & Np & _).
    destruct (Nat.eqb_spec (g_nprop f) 0) as [Hz|Hz]; [lia|]. cbn [negb check bind]. eauto. }
  destruct St as [d ->]. cbn [bind]. rewrite D. destruct (rev ms) as [|[d1 m1] l] eqn:R; eauto.
  exfalso. apply Ne2. rewrite <- (rev_involutive ms), R. auto.
Qed.

Lemma loop_ok s a gs : tables_ok s -> i_names s <> [] -> map_groups s a = Ok gs -> forall fs s1, i_dets s1 = i_dets s -> i_names s1 = i_names s -> i_bres s1 = i_bres s -> i_fields s1 = i_fields s ->
  (forall f, In f fs -> exists g, dget (i_fields s) f = Some g /\ ready s g a) -> exists s', map_loop sp sc gs a fs s1 = (s', Ok tt).
Proof.
  intros T Ne Hg fs. induction fs as [|f fs IH]; intros s1 E1 E2 E3 E4 H; cbn [map_loop]; eauto.
  destruct (H f (or_introl eq_refl)) as (g & Hf & R). unfold dfind. rewrite E4, Hf. cbn [bind].
  destruct (one_ok s g a T Ne R gs Hg) as [m Hm]. rewrite (map_one_ext sp sc s s1) by auto. rewrite Hm. apply IH; auto. intros; apply H; right; auto.
Qed.
Lemma map_ok s a names : tables_ok s -> i_names s <> [] -> args_ok a (i_bres s) -> (names = [] -> i_fnames s <> []) -> NoDup names ->
  (forall f, covers names s f -> exists g, dget (i_fields s) f = Some g /\ ready s g a) -> exists s', map_fields sp sc names a s = (s', Ok tt).
Proof.
  intros T Ne A Hf Nn H. unfold map_fields. cbv zeta.
  assert (Ex : exists f g, dget (i_fields s) f = Some g /\ ready s g a).
  { destruct names as [|f r]; [|exists f; apply H; right; left; auto]. destruct (i_fnames s) as [|f r] eqn:E; [destruct (Hf eq_refl); auto|]. exists f. apply H. left. rewrite E. split; auto. left; auto. }
  destruct Ex as (f0 & g0 & Hf0 & R0). destruct (groups_ok s g0 a T R0) as [gs Hg].
  assert (Es : exists fs, match names with [] => Ok (i_fnames s) | _ => do _ <- check_fields s names ;; Ok names end = Ok fs /\ forall f, In f fs -> covers names s f).
  { destruct names as [|f r]; [exists (i_fnames s); split; auto; intros; left; auto|]. remember (f :: r) as nn. exists nn. split; [|intros; right; auto].
    assert (Ck : check_fields s nn = Ok tt).
    { unfold check_fields. rewrite (proj2 (forallb_forall _ nn)); [|intros f1 Hf1; destruct (H f1 (or_intror Hf1)) as (g & Hg1 & _); apply dmem_some; eauto].
      cbn [check bind]. rewrite (proj2 (nodup_str_spec nn)); auto. }
    rewrite Ck. rewrite Heqnn. auto. }
  destruct Es as (fs & -> & Hfs). cbn [bind].
  replace (match m_beam a, m_ks a, i_bres s with None, KsNone, None => false | _, _, _ => true end) with true.
  2:{ unfold args_ok in A. destruct (m_beam a), (m_ks a), (i_bres s); auto; destruct A. }
  cbn [check bind]. replace (match m_beam a, m_ks a with Some _, KsNone => true | Some _, _ => false | _, _ => true end) with true.
  2:{ unfold args_ok in A. destruct (m_beam a), (m_ks a), (i_bres s); auto; destruct A. }
  cbn [check bind]. rewrite Hg. cbn [bind]. apply (loop_ok s a gs T Ne Hg); auto.
Qed.

Lemma loop_last gs a fs : forall s s' f g, map_loop sp sc gs a fs s = (s', Ok tt) -> In f fs -> dget (i_fields s) f = Some g ->
  exists m, dget (i_maps s') f = Some m /\ map_one sp sc s gs a g = Ok m.
Proof.
  induction fs as [|f0 fs IH]; intros s s' f g H Hi Hf; [destruct Hi|]. cbn [map_loop] in H. unfold dfind in H.
  destruct (dget (i_fields s) f0) as [g0|] eqn:E0; cbn [bind] in H; [|discriminate]. destruct (map_one sp sc s gs a g0) as [m0|] eqn:E1; [|discriminate].
  set (s1 := set_maps s (dset (i_maps s) f0 m0) (dset (i_cons s) f0 true)) in *.
  assert (M1 : forall g, map_one sp sc s1 gs a g = map_one sp sc s gs a g) by (intros; apply map_one_ext; reflexivity).
  destruct (loop_spec _ _ _ _ _ _ _ _ H) as (_ & _ & _ & _ & _ & _ & _ & _ & _ & _ & K & _).
  destruct Hi as [->|Hi].
  - rewrite Hf in E0. injection E0 as <-. destruct (K f) as [[_ K2]|(_ & _ & g1 & m1 & K3 & K4 & K5)].
    + exists m0. split; auto. rewrite K2. apply dget_dset_eq.
    + exists m1. split; auto. rewrite <- M1. change (i_fields s1) with (i_fields s) in K3. congruence.
  - destruct (IH s1 s' f g H Hi Hf) as (m & A & B). exists m. rewrite <- M1. auto.
Qed.
(** every map a successful call makes is as specified *)
Lemma map_seen s a names s' f g : tables_ok s -> map_fields sp sc names a s = (s', Ok tt) -> covers names s f -> dget (i_fields s) f = Some g ->
  observable g -> plain_pad (m_pad a) -> beam_fits g a ->
  exists m, dget (i_maps s') f = Some m /\ dget (i_cons s') f = Some true /\ flat_map_of g (length (i_names s)) m /\ g_data m <> None /\ layers_of sp sc s g a 0 m.
Proof.
  intros T E Cv Hf O Hp Hb. destruct (map_fields_spec sp sc _ _ _ _ _ E) as [(e & H & _)|(_ & gs & fs & Hg & Hfs & L)]; [discriminate|].
  destruct (loop_spec _ _ _ _ _ _ _ _ L) as (E1 & E2 & E3 & E4 & E5 & E6 & E7 & E8 & E9 & E10 & K & R).
  assert (Hin : In f fs). { destruct Cv as [[-> Hn]|Hn]; [destruct Hfs as [[_ ->]|(H & _)]; [auto|congruence]|]. destruct Hfs as [[-> _]|(_ & -> & _)]; [destruct Hn|auto]. }
  specialize (R eq_refl f Hin).
  destruct (loop_last gs a fs s s' f g L Hin Hf) as (m & M1 & M2).
  exists m. split; auto. split; auto. apply (map_one_seen sp sc Rok s gs a g m); auto.
Qed.
End Success.
