(** The layers of a detector map: proofs (C52). *)
From Verif Require Import Dict Util Rat Val Arr GridModel GridModel2 GridSpec GridSpec2 ConvSpec GridNew GridEx GridCrop GridCollapse GridPad Conv InstModel InstSpec Inst Inst2 Inst3 Inst4.
Open Scope string_scope.
Open Scope list_scope.
Open Scope Qc_scope.

Section Layers.
Context (sp : fn -> kw -> list Qc -> list Qc -> list Qc -> exc (arr Qc)) (sc : fn -> kw -> list Qc -> exc (arr Qc)) (Rok : responses_ok sp sc).

Lemma conv_step f b pad : observable f -> kernel_ok b -> conv_fits f b [0; 1]%nat -> plain_pad pad ->
  exists d3, grid_convolve_new f b (Some [0%Z; 1%Z]) pad = Ok (with_data f (Some d3)) /\ awf d3 /\ shape d3 = g_npix f ++ [g_nprop f] /\
    forall jx p, inb (g_npix f) jx = true -> (p < g_nprop f)%nat -> cell (with_data f (Some d3)) jx p = conv_value (A:=QcAlg) (fun i => (i <? 2)%nat) f b jx p.
Proof.
  intros (C & F & D & Fs & Pw & N & Np & Lg) K Fi Hp.
  assert (R : conv_ready f b (Some [0%Z; 1%Z]) [0; 1]%nat).
  { unfold conv_ready. split; [exact C|]. split; [exact F|]. split; [exact D|]. split; [exact Fs|]. split; [exact Pw|]. split; [exact K|].
    split; [reflexivity|]. split; [discriminate|]. split; [repeat constructor; cbn; lia|]. split; [|exact Fi]. rewrite N. cbn. lia. }
  assert (P : exists pl, pad_amounts [0; 1]%nat pad pl /\ (forall z, In z pl -> (0 <= z)%Z) /\ pads_agree f [0; 1]%nat pl).
  { destruct pad as [|z|l|l]; [| |contradiction Hp..]; cbn [pad_amounts].
    - eexists; split; [reflexivity|]. split; [cbn; lia|apply (agree_zero f [0; 1]%nat)].
    - cbn [plain_pad] in Hp. eexists; split; [reflexivity|]. split; [cbn [length repeat In]; lia|]. apply (agree_uniform f [0; 1]%nat z). cbn. lia. }
  destruct P as (pl & P1 & P2 & P3). destruct (c16_main f b _ _ pad pl R P1 P2 P3) as (d3 & E & W & S & V).
  destruct (c16_new f b _ _ pad pl R P1 P2 P3 Lg) as (g' & E1 & E2). rewrite E in E1. injection E1 as <-.
  exists d3. split; [exact E2|]. split; auto. split; auto. intros jx p Hj Hpp. rewrite V by auto. apply conv_value_ext.
  intros i. cbn. destruct i as [|[|i]]; auto.
Qed.

Lemma det_step_ok s f b pad d r w conv : observable f -> kernel_ok b -> conv_fits f b [0; 1]%nat -> plain_pad pad ->
  grid_convolve_new f b (Some [0%Z; 1%Z]) pad = Ok conv -> spec_of s d = Ok r -> sc (fst r) (snd r) (nth 2 (g_centers f) []) = Ok w ->
  exists m, det_map sc s conv d = Ok m /\ consistent m /\ without_axis 2 f m /\ g_data m <> None /\
    forall x y, inb (g_npix m) [x; y] = true -> weighted f w <> 0 -> cell m [x; y] 0 = seen f b w x y.
Proof.
  intros O K Fi Hp E Hr Hw. destruct (conv_step f b pad O K Fi Hp) as (d3 & E3 & W3 & S3 & V3). rewrite E in E3. injection E3 as ->.
  destruct O as (C & F & D & Fs & Pw & N & Np & Lg).
  destruct (data_with f d3 C F W3 S3) as [C3 F3]. set (conv := with_data f (Some d3)) in *.
  destruct (proj2 Rok _ _ _ _ Hw) as [Ww Sw].
  assert (Nz : nth 2 (g_npix f) 0%nat = length (nth 2 (g_centers f) [])) by (symmetry; apply (ao_clen _ _ _ _ _ _ _ _ (co_axis _ C 2%nat ltac:(lia)))).
  assert (Wok : weight_ok conv 2 (Some w)). { split; auto. left. rewrite Sw, <- Nz. auto. }
  destruct (c17_main conv 2 (Some w) MAverage C3 ltac:(discriminate) ltac:(cbn; lia) Wok ltac:(discriminate)) as (m & _ & Cm & Wm & Dm & Vm & En).
  exists m. split; [|split; [exact Cm|split; [exact Wm|split; [exact Dm|]]]].
  - unfold det_map. rewrite Hr. cbn [bind]. change (g_centers (with_data f (Some d3))) with (g_centers f). rewrite Hw. cbn [bind].
    apply En; auto.
  - intros x y Hi Hw0. destruct (Vm [x; y] 0%nat Hi Np) as [_ Va]. cbv zeta in Va. 
    assert (Wt : forall j, weight_at 2 (Some w) [x; y] j = getd 0 w [j]) by (intros j; unfold weight_at; rewrite Sw; auto).
    rewrite Va; auto.
    + unfold seen, seen_of. cbv zeta. unfold Qcdiv.
      assert (In3 : forall z, (z < nth 2 (g_npix f) 0)%nat -> inb (g_npix f) [x; y; z] = true).
      { intros z Hz. destruct Wm as (_ & _ & _ & _ & _ & _ & _ & _ & Enp & _). rewrite Enp in Hi. change (g_npix conv) with (g_npix f) in Hi.
        rewrite (three (g_npix f) 0%nat) in Hi |- * by (rewrite (co_n _ C); auto). cbn [del_nth inb nth] in *. rewrite !andb_true_iff, !Nat.ltb_lt in *. tauto. }
      cbn [vmul QcAlg emb]. f_equal.
      * change (nth 2 (g_npix conv) 0%nat) with (nth 2 (g_npix f) 0%nat). unfold vsum, qsum. cbn [vadd v0 QcAlg car]. f_equal. apply map_ext_in. intros z Hz. apply in_seq in Hz. rewrite Wt. cbn [ins_nth]. rewrite V3 by (auto; apply In3; lia). auto.
      * f_equal. change (nth 2 (g_npix conv) 0%nat) with (nth 2 (g_npix f) 0%nat). f_equal. apply map_ext. auto.
    + intros Hz. apply Hw0. unfold weighted. eapply eq_trans; [|exact Hz]. change (nth 2 (g_npix conv) 0%nat) with (nth 2 (g_npix f) 0%nat). f_equal. apply map_ext. auto.
Qed.

Lemma beam_for_ok s f a d b : observable f -> plain_pad (m_pad a) -> beam_fits f a -> beam_for sp s f a d = Ok b ->
  kernel_ok b /\ conv_fits f b [0; 1]%nat /\ forall x, dget (i_dets s) d = Some x -> detector_beam sp (i_bres s) f a x b.
Proof.
  intros O Hp Hb. unfold beam_for, detector_beam. destruct (m_beam a) as [b0|] eqn:Eb.
  - intros H; injection H as <-. destruct (Hb b0 Eb) as [H1 H2]. auto.
  - destruct (spat_of s d) as [r|e] eqn:Er; cbn [bind]; [|discriminate]. intros H.
    destruct (setup_inv sp (proj1 Rok) _ _ _ _ _ _ O H) as (k0 & k1 & S0 & S1 & Ib & K). split; auto. pose proof Ib as (Nd & Npx & Np & _).
    destruct O as (C & _ & _ & _ & _ & N & _). split.
    + unfold conv_fits. rewrite Nd, N, Npx, Np. split; [lia|]. split; [|auto]. intros i Hi Hn. cbn in Hn. destruct i as [|[|[|i]]]; [exfalso; lia|exfalso; lia|left; auto|exfalso; lia].
    + intros x Hx. exists r, (Z.to_nat k0), (Z.to_nat k1). split; [|auto using size_of_size].
      unfold spat_of, attr, det_at, dfind in Er. rewrite Hx in Er. cbn in Er. destruct (d_spat x); congruence.
Qed.
Lemma mapM_nth {X Y} (h : X -> exc Y) l r : mapM h l = Ok r -> length r = length l /\ forall i x, nth_error l i = Some x -> exists y, h x = Ok y /\ nth_error r i = Some y.
Proof.
  revert r. induction l as [|x l IH]; cbn; intros r H.
  - injection H as <-. split; auto. intros i x. destruct i; discriminate.
  - destruct (h x) as [y|] eqn:E; cbn [bind] in H; [|discriminate]. destruct (mapM h l) as [r1|] eqn:E1; cbn [bind] in H; [|discriminate]. injection H as <-.
    destruct (IH r1 eq_refl) as [L P]. cbn. split; [lia|]. intros [|i] z Hz; cbn in Hz |- *; [injection Hz as <-; eauto|auto].
Qed.

Lemma map_one_seen s gs a f m : tables_ok s -> map_groups s a = Ok gs -> observable f -> plain_pad (m_pad a) -> beam_fits f a -> map_one sp sc s gs a f = Ok m ->
  flat_map_of f (length (i_names s)) m /\ g_data m <> None /\ layers_of sp sc s f a 0 m.
Proof.
  intros T Hg O Hp Hb Hm. destruct (map_one_layers sp sc s gs a f m T Hg Hm) as (ms & dd & m0 & Hf & Hl & (dn & H0) & Em & Es).
  pose proof O as (C & F & D & Fs & Pw & N & Np & Lg).
  assert (Ly : forall d m1, In (d, m1) ms -> consistent m1 /\ without_axis 2 f m1 /\ exists b r w dm, (forall x, dget (i_dets s) d = Some x -> detector_beam sp (i_bres s) f a x b) /\
     spec_of s d = Ok r /\ sc (fst r) (snd r) (nth 2 (g_centers f) []) = Ok w /\ g_data m1 = Some dm /\ shape dm = firstn 2 (g_npix f) ++ [g_nprop f] /\
     forall px py, (px < nth 0 (g_npix f) 0)%nat -> (py < nth 1 (g_npix f) 0)%nat -> weighted f w <> 0 -> getd 0 dm [px; py; 0%nat] = seen f b w px py).
  { intros d m1 Hd. destruct (Hl _ _ Hd) as (b & conv & B1 & B2 & B3). destruct (beam_for_ok s f a d b O Hp Hb B1) as (K & Fi & Db).
    pose proof B3 as B3'. unfold det_map in B3. destruct (spec_of s d) as [r|] eqn:Er; cbn [bind] in B3; [|discriminate].
    destruct (conv_step f b _ O K Fi Hp) as (d3 & E3 & _). pose proof B2 as B2'. rewrite B2 in E3. injection E3 as Ec. rewrite Ec in B3. change (g_centers (with_data f (Some d3))) with (g_centers f) in B3.
    destruct (sc _ _ _) as [w|] eqn:Ew; cbn [bind] in B3; [|discriminate]. clear B3.
    destruct (det_step_ok s f b _ d r w conv O K Fi Hp B2' Er Ew) as (m2 & E2 & Cm & Wm & Dm & Vm). rewrite B3' in E2. injection E2 as ->.
    split; auto. split; auto. destruct (g_data m2) as [dm|] eqn:Edm; [|tauto]. exists b, r, w, dm. split; auto. split; auto. split; auto. split; auto.
    pose proof Wm as (W1 & _ & _ & _ & _ & _ & _ & _ & W9 & _).
    assert (Npx : g_npix m2 = firstn 2 (g_npix f)). { rewrite W9. rewrite (three (g_npix f) 0%nat) by (rewrite (co_n _ C); auto). reflexivity. }
    pose proof (co_data _ Cm) as Cd. rewrite Edm in Cd. destruct Cd as [_ Cd]. split; [rewrite Cd, Npx, W1; auto|].
    intros px py Hx Hy Hw. specialize (Vm px py). rewrite <- Vm; auto.
    - unfold cell. rewrite Edm. auto.
    - rewrite Npx. rewrite (three (g_npix f) 0%nat) by (rewrite (co_n _ C); auto). cbn [firstn inb]. rewrite !andb_true_iff, !Nat.ltb_lt. auto. }
  destruct (Ly _ _ H0) as (C0 & W0 & _). clear Hl.
  unfold stack_maps in Es. destruct (mapM _ (i_names s)) as [ls|] eqn:Els; cbn [bind] in Es; [|discriminate].
  destruct (mapM_nth _ _ _ Els) as [Ll Pl]. destruct ls as [|l0 ls']; [discriminate|]. remember (l0 :: ls') as ls eqn:El.
  destruct (forallb _ ls) eqn:Efa; cbn [check bind] in Es; [|discriminate].
  pose proof W0 as (W1 & _ & _ & _ & Wd & Wc & Wsd & Wp & Wn & _).
  assert (N3 : length (g_npix f) = 3%nat) by (rewrite (co_n _ C); auto).
  assert (Npx : g_npix m0 = firstn 2 (g_npix f)). { rewrite Wn. rewrite (three (g_npix f) 0%nat) by auto. reflexivity. }
  assert (Rel : forall i d, nth_error (i_names s) i = Some d -> exists m1 dm, In (d, m1) ms /\ g_data m1 = Some dm /\ nth_error ls i = Some dm).
  { intros i d Hi. destruct (Pl i d Hi) as (y & Hy & Hn). destruct (dget ms d) as [m1|] eqn:Ed; [|discriminate]. destruct (g_data m1) as [x|] eqn:Ex; [|discriminate].
    injection Hy as ->. exists m1, y. split; [apply dget_In; auto|auto]. }
  assert (S0 : shape l0 = firstn 2 (g_npix f) ++ [g_nprop f]).
  { destruct (i_names s) as [|d r] eqn:En; [rewrite El in Ll; discriminate|]. destruct (Rel 0%nat d eq_refl) as (m1 & dm & Hi & Hd & Hn). rewrite El in Hn. injection Hn as <-.
    destruct (Ly _ _ Hi) as (_ & _ & b & r1 & w & dm2 & _ & _ & _ & Hd2 & Sh & _). rewrite Hd in Hd2. injection Hd2 as <-. auto. }
  rewrite S0 in Es. rewrite (three (g_npix f) 0%nat) in Es by auto. cbn [firstn app] in Es.
  destruct (g_nprop f =? 0)%nat eqn:Ez; cbn [negb check bind] in Es; [discriminate|]. injection Es as <-.
  set (nx := nth 0 (g_npix f) 0%nat) in *. set (ny := nth 1 (g_npix f) 0%nat) in *.
  assert (N2 : firstn 2 (g_npix f) = [nx; ny]) by (rewrite (three (g_npix f) 0%nat) by auto; reflexivity).
  split; [|split; [rewrite Em; discriminate|]]. { split; [|split; [|split; [|split; [|split; [|split]]]]].
  - rewrite Em. destruct C0. constructor; auto. cbn [with_nprop with_data g_data g_npix g_nprop]. split; [apply tab_wf|]. rewrite Npx, N2. rewrite <- Ll. reflexivity.
  - rewrite Em. cbn. lia.
  - rewrite Em. reflexivity.
  - rewrite Em. exact Npx.
  - rewrite Em. cbn [with_nprop with_data g_center]. rewrite Wc. pose proof (co_c _ C) as L. unfold flen in L. rewrite N in L. rewrite (three (fv (g_center f)) 0) by auto. reflexivity.
  - rewrite Em. cbn [with_nprop with_data g_side]. rewrite Wsd. pose proof (co_s _ C) as L. unfold flen in L. rewrite N in L. rewrite (three (fv (g_side f)) 0) by auto. reflexivity.
  - rewrite Em. cbn [with_nprop with_data g_pix]. rewrite Wp. pose proof (co_p _ C) as L. unfold flen in L. rewrite N in L. rewrite (three (fv (g_pix f)) 0) by auto. reflexivity. }
  - intros i d x Hi Hx. destruct (Rel i d Hi) as (m1 & dm & Hin & Hd & Hn). destruct (Ly _ _ Hin) as (_ & _ & b & r & w & dm2 & Db & Hr & Hw & Hd2 & Sh & V).
    rewrite Hd in Hd2. injection Hd2 as <-. exists b, r, w. split; auto. split; [|split; auto].
    + unfold spec_of, attr, det_at, dfind in Hr. rewrite Hx in Hr. cbn in Hr. destruct (d_spec x); congruence.
    + intros px py Hpx Hpy Hww. rewrite <- V by auto. rewrite Em. unfold cell. cbn [with_nprop with_data g_data app].
      rewrite getd_tab.
      * cbn [nth]. rewrite (nth_error_nth _ _ _ Hn). auto.
      * cbn [inb]. rewrite !andb_true_iff, !Nat.ltb_lt. split; auto. split; auto. split; auto. eapply nth_error_Some_lt; eauto.
Qed.
End Layers.
