(** Down-sampling, grids from axes, and automatically sized grids. *)
From Verif Require Import Util Rat Val Arr GridModel GridModel2 GridSpec GridSpec2 GridAxis GridNew GridAdd GridCat GridEx GridPad GridCrop GridOps GridFourier GridFT.
Open Scope Qc_scope.

(** * down_sample (C24) *)
Section Down.
Context {A : Alg}.
Notation grid := (grid A).

Definition shrunk (g0 g : grid) : Prop :=
  g_ndim g = g_ndim g0 /\ length (g_npix g) = g_ndim g0 /\ length (g_centers g) = g_ndim g0 /\
  forall i, (i < g_ndim g0)%nat -> length (nth i (g_centers g) []) = nth i (g_npix g0) 0%nat /\ (nth i (g_npix g) 0 <= nth i (g_npix g0) 0)%nat.

Lemma down_one_shrunk old ff av factor (g0 g g' : grid) a : consistent g0 -> shrunk g0 g -> (a < g_ndim g0)%nat ->
  (forall f, In f factor -> (2 <= f)%Z) -> down_one old ff av factor g a = (g', Ok tt) ->
  shrunk g0 g' /\ (nth a (g_npix g') 0 < nth a (g_npix g0) 0)%nat.
Proof.
  intros C (S1 & S2 & S3 & S4) Ha F H. unfold down_one in H. destruct (nth_error factor a) as [fz|] eqn:Ef; [|discriminate].
  specialize (F fz (nth_error_In _ _ Ef)). destruct (fz <=? 0)%Z; [discriminate|].
  destruct (_ && _ && _)%bool; [discriminate|]. destruct (ff && _)%bool; [discriminate|].
  destruct (axis_edges _) as [fe|]; [|discriminate]. injection H as <-.
  pose proof (ao_n _ _ _ _ _ _ _ _ (co_axis _ C a Ha)) as N2.
  assert (Hm : (nth a (g_npix g) 0 / Z.to_nat fz < nth a (g_npix g0) 0)%nat).
  { destruct (S4 a Ha) as [_ H]. assert (Hl : (nth a (g_npix g) 0 / Z.to_nat fz <= nth a (g_npix g) 0 / 2)%nat) by (apply Nat.div_le_compat_l; lia).
    assert (Hh : (nth a (g_npix g) 0 / 2 <= nth a (g_npix g0) 0 / 2)%nat) by (apply Nat.div_le_mono; lia).
    assert (nth a (g_npix g0) 0 / 2 < nth a (g_npix g0) 0)%nat by (apply Nat.div_lt; lia). lia. }
  unfold shrunk. cbn [g_ndim g_npix g_centers with_geom with_data]. rewrite !upd_length. split.
  - split; auto. split; auto. split; auto. intros i Hi. destruct (S4 i Hi) as [H1 H2]. destruct (Nat.eq_dec i a) as [->|Hne].
    + rewrite !nth_upd_eq by lia. rewrite map_length, seq_length. split; auto. lia.
    + rewrite !nth_upd_ne by auto. auto.
  - rewrite nth_upd_eq by lia. auto.
Qed.

Lemma c24_never (g : grid) old ax factor av g' : consistent g -> ax <> [] -> (forall f, In f factor -> (2 <= f)%Z) ->
  down_sample old g ax factor av = (g', Ok tt) -> ~ consistent g'.
Proof.
  intros C N F H. unfold down_sample in H. destruct (axes_valid g ax) eqn:V; [|discriminate]. cbn [negb] in H.
  match type of H with match ?x with Ok _ => _ | Raise _ => _ end = _ => destruct x as [[ff fl]|e] eqn:Ef end; [|discriminate]. destruct (existsb _ _); [discriminate|].
  assert (F' : forall f, In f fl -> (2 <= f)%Z).
  { destruct (length factor =? 1)%nat eqn:E1.
    - injection Ef as <- <-. intros f Hf. apply repeat_spec in Hf. subst f. destruct factor as [|f0 l]; [discriminate|]. apply F. left. auto.
    - destruct (length factor =? length ax)%nat; [|discriminate]. injection Ef as <- <-. auto. }
  assert (Vn : forall a, In a (map Z.to_nat ax) -> (a < g_ndim g)%nat).
  { intros a Ia. apply in_map_iff in Ia as (z & <- & Iz). unfold axes_valid in V. rewrite forallb_forall in V. specialize (V z Iz). lia. }
  assert (S0 : shrunk g g).
  { split; auto. split; [apply (co_n _ C)|]. split; [apply (co_ce _ C)|]. intros i Hi. split; auto. apply (ao_clen _ _ _ _ _ _ _ _ (co_axis _ C i Hi)). }
  assert (M : map Z.to_nat ax <> []) by (destruct ax; [tauto|discriminate]).
  revert H S0 M Vn. generalize (map Z.to_nat ax) as l. clear ax N V Ef. intros l.
  assert (G : forall l (h : grid), down_loop old ff av fl h l = (g', Ok tt) -> shrunk g h -> (forall a, In a l -> (a < g_ndim g)%nat) ->
     (l <> [] \/ exists a, (a < g_ndim g)%nat /\ (nth a (g_npix h) 0 < nth a (g_npix g) 0)%nat) ->
     shrunk g g' /\ exists a, (a < g_ndim g)%nat /\ (nth a (g_npix g') 0 < nth a (g_npix g) 0)%nat).
  { clear l. induction l as [|a l IH]; intros h H S0 Vn Q; cbn [down_loop] in H.
    - injection H as <-. split; auto. destruct Q as [Q|Q]; auto. tauto.
    - destruct (down_one old ff av fl h a) as [h' [[]|]] eqn:E1; [|discriminate].
      destruct (down_one_shrunk _ _ _ _ _ _ _ _ C S0 (Vn a (or_introl eq_refl)) F' E1) as [S1 S2].
      apply (IH h'); auto; [intros b Hb; apply Vn; right; auto|]. right. exists a. split; auto. apply Vn. left. auto. }
  intros H S0 M Vn. destruct (G l g H S0 Vn (or_introl M)) as ((Sd & _ & _ & Sl) & a & Ha & Hlt). intros C'.
  pose proof (ao_clen _ _ _ _ _ _ _ _ (co_axis _ C' a ltac:(lia))) as L. destruct (Sl a Ha) as [L' _]. lia.
Qed.

(** with data in the grid, nothing is ever down-sampled *)
Lemma c24_active (g : grid) a ax factor av : consistent g -> g_data g <> None -> (forall f, In f factor -> (1 <= f)%Z) ->
  (forall i f, (i < g_ndim g)%nat -> In f factor -> (Z.to_nat f <= nth i (g_npix g) 0)%nat) ->
  exists e, down_sample false g (a :: ax) factor av = (g, Raise e).
Proof.
  intros C D F L. unfold down_sample. destruct (axes_valid g (a :: ax)) eqn:V; cbn [negb]; [|eauto].
  assert (Ha : (Z.to_nat a < g_ndim g)%nat).
  { unfold axes_valid in V. cbn [forallb] in V. lia. }
  assert (G : forall ff fl, (forall f, In f fl -> In f factor) -> exists e, down_loop false ff av fl g (map Z.to_nat (a :: ax)) = (g, Raise e)).
  { intros ff fl I. cbn [map down_loop]. unfold down_one. destruct (nth_error fl (Z.to_nat a)) as [fz|] eqn:Ef; [|eauto].
    specialize (I fz (nth_error_In _ _ Ef)). destruct (fz <=? 0)%Z; [eauto|].
    assert (M : (0 <? nth (Z.to_nat a) (g_npix g) 0 / Z.to_nat fz)%nat = true).
    { apply Nat.ltb_lt. apply Nat.div_str_pos. specialize (F _ I). specialize (L _ _ Ha I). lia. }
    rewrite M. unfold active. destruct (g_data g); [|tauto]. cbn. eauto. }
  destruct (length factor =? 1)%nat eqn:E1.
  - destruct (existsb _ _); [eauto|]. apply G. intros f Hf. apply repeat_spec in Hf. subst f. destruct factor as [|f0 l]; [discriminate|]. left; auto.
  - destruct (length factor =? length (a :: ax))%nat; [|eauto]. destruct (existsb _ _); [eauto|]. apply G. auto.
Qed.

(** what a call that returns does *)
Definition down_fact (av : bool) (factor : list Z) (l : list nat) (g g' : grid) : Prop :=
  g_ndim g' = g_ndim g /\ g_nprop g' = g_nprop g /\ length (g_npix g') = g_ndim g /\ length (g_centers g') = g_ndim g /\ flen (g_pix g') = g_ndim g /\ fint (g_pix g') = false /\
  (forall i, (i < g_ndim g)%nat -> In i l -> let f := Z.to_nat (nth i factor 0%Z) in
     (1 <= f)%nat /\ nth i (g_npix g') 0%nat = (nth i (g_npix g) 0 / f)%nat /\ fnth (g_pix g') i = nq f * fnth (g_pix g) i /\
     forall j, (j < nth i (g_npix g') 0)%nat -> nth j (nth i (g_centers g') []) 0 = qsum (map (fun k => nth (j * f + k) (nth i (g_centers g) []) 0) (seq 0 f)) / nq f) /\
  (forall i, (i < g_ndim g)%nat -> ~ In i l -> nth i (g_npix g') 0%nat = nth i (g_npix g) 0%nat /\ fnth (g_pix g') i = fnth (g_pix g) i /\
     nth i (g_axes g') [] = nth i (g_axes g) [] /\ nth i (g_centers g') [] = nth i (g_centers g) []) /\
  match g_data g, g_data g' with
  | None, None => True
  | Some d, Some d' => shape d' = g_npix g' ++ [g_nprop g] /\
      forall ix, inb (shape d') ix = true -> getd v0 d' ix = binned av (map (fun i => (i, Z.to_nat (nth i factor 0%Z))) (rev l)) d ix
  | _, _ => False
  end.
Lemma upd_app_l {X} (l m : list X) i x : (i < length l)%nat -> upd (l ++ m) i x = upd l i x ++ m.
Proof. revert i. induction l as [|a l IH]; intros i H; cbn in H; [lia|]. destruct i; cbn; auto. rewrite IH by lia. auto. Qed.
Lemma inb_upd sh a m f ix k : (a < length sh)%nat -> inb (upd sh a m) ix = true -> (m * f <= nth a sh 0)%nat -> (k < f)%nat ->
  inb sh (upd ix a (nth a ix 0 * f + k)%nat) = true.
Proof.
  intros Ha H Hm Hk. apply inb_nth in H as [L H]. rewrite upd_length in L. apply inb_nth. rewrite upd_length. split; auto.
  intros j i n Ei En. destruct (Nat.eq_dec j a) as [->|N].
  - rewrite nth_error_upd_eq in Ei by lia. injection Ei as <-. apply nth_error_nth with (d := 0%nat) in En. rewrite En in Hm.
    assert (La : (a < length ix)%nat) by lia. specialize (H a (nth a ix 0%nat) m (nth_error_nth' _ _ La) (nth_error_upd_eq _ _ _ Ha)). nia.
  - rewrite nth_error_upd_ne in Ei by auto. apply (H j); auto. rewrite nth_error_upd_ne by auto. auto.
Qed.
Lemma down_loop_app old ff av fl l : forall (g : grid) a, down_loop old ff av fl g (l ++ [a]) =
  match down_loop old ff av fl g l with (h, Ok _) => down_one old ff av fl h a | (h, Raise e) => (h, Raise e) end.
Proof.
  induction l as [|b l IH]; intros g a; cbn [app down_loop].
  - destruct (down_one old ff av fl g a) as [h [[]|]]; auto.
  - destruct (down_one old ff av fl g b) as [h [[]|]]; auto.
Qed.
Lemma down_loop_fact old ff av fl l : forall (g g' : grid), consistent g -> floats g -> NoDup l -> (forall a, In a l -> (a < g_ndim g)%nat) ->
  down_loop old ff av fl g l = (g', Ok tt) -> down_fact av fl l g g'.
Proof.
  induction l as [|a l IH] using rev_ind; intros g g' C F N V H.
  - cbn in H. injection H as <-. unfold down_fact. split; auto. split; auto. split; [apply C|]. split; [apply C|]. split; [apply C|]. split; [apply F|].
    split; [intros i Hi []|]. split; [auto|].
    pose proof (co_data _ C) as D. destruct (g_data g) as [d|]; auto. destruct D as [_ D]. split; auto.
  - rewrite down_loop_app in H. destruct (down_loop old ff av fl g l) as [h [[]|]] eqn:E; [|discriminate].
    assert (Nl : NoDup l /\ ~ In a l). { apply NoDup_remove in N. rewrite app_nil_r in N. exact N. }
    destruct Nl as [Nl Na].
    destruct (IH g h C F Nl ltac:(intros; apply V, in_or_app; auto) E) as (D1 & D2 & D3 & D4 & D5 & D6 & D7 & D8 & D9).
    assert (Ha : (a < g_ndim g)%nat) by (apply V, in_or_app; right; left; auto).
    unfold down_one in H. destruct (nth_error fl a) as [fz|] eqn:Ef; [|discriminate].
    destruct (Z.leb_spec fz 0) as [|Hf]; [discriminate|]. destruct (_ && _ && _)%bool; [discriminate|]. destruct (ff && _)%bool; [discriminate|].
    destruct (axis_edges _) as [fe|]; [|discriminate]. injection H as <-.
    assert (En : nth a fl 0%Z = fz) by (apply nth_error_nth; auto).
    destruct (D8 a Ha Na) as (Hn & Hp & _ & Hc). rewrite Hn, Hp, Hc.
    set (f := Z.to_nat fz). set (m := (nth a (g_npix g) 0 / f)%nat).
    unfold down_fact. cbn [g_ndim g_nprop g_npix g_centers g_axes g_pix g_data with_geom with_data].
    rewrite !upd_length. split; auto. split; auto. split; auto. split; auto.
    unfold fset at 1, flen. cbn [fv fint]. rewrite upd_length. split; auto. split; auto. split; [|split].
    + intros i Hi Il. apply in_app_or in Il. destruct (Nat.eq_dec i a) as [->|Ne].
      * rewrite En. fold f. split; [unfold f; lia|]. rewrite !nth_upd_eq by lia. split; auto. split.
        -- unfold fnth, fset. cbn [fv]. rewrite D6. unfold flen in D5. rewrite nth_upd_eq by lia. unfold f, nq. rewrite Z2Nat.id by lia. unfold fnth. ring.
        -- intros j Hj. assert (L : (m <= length (nth a (g_centers g) []))%nat).
           { rewrite (ao_clen _ _ _ _ _ _ _ _ (co_axis _ C a Ha)). apply Nat.div_le_upper_bound; unfold f; nia. }
           rewrite nth_map_seq by lia. destruct (Nat.ltb_spec j m); [reflexivity|lia].
      * destruct Il as [Il|[Il|[]]]; [|congruence]. destruct (D7 i Hi Il) as (B1 & B2 & B3 & B4).
        rewrite !nth_upd_ne by auto. split; auto. split; auto. split; auto.
        unfold fnth, fset. cbn [fv]. rewrite nth_upd_ne by auto. exact B3.
    + intros i Hi Il. assert (Ne : i <> a) by (intros ->; apply Il, in_or_app; right; left; auto).
      destruct (D8 i Hi ltac:(intros Il'; apply Il, in_or_app; auto)) as (B1 & B2 & B3 & B4).
      rewrite !nth_upd_ne by auto. split; auto. split; auto. unfold fnth, fset. cbn [fv]. rewrite nth_upd_ne by auto. exact B2.
    + destruct (g_data g) as [d|]; destruct (g_data h) as [dh|]; cbn [option_map]; auto. destruct D9 as [S1 S2].
      assert (ES : shape (group_cells av a f m dh) = upd (g_npix h) a m ++ [g_nprop g]).
      { unfold group_cells. cbn [shape tab]. rewrite S1. apply upd_app_l. lia. }
      split; auto. intros ix Hix. rewrite ES in Hix. unfold group_cells. rewrite getd_tab by (rewrite S1, upd_app_l by lia; auto).
      rewrite rev_app_distr. cbn [rev app map binned]. rewrite En. fold f.
      assert (G : forall k, (k < f)%nat -> getd v0 dh (upd ix a (nth a ix 0 * f + k)%nat) = binned av (map (fun i => (i, Z.to_nat (nth i fl 0%Z))) (rev l)) d (upd ix a (nth a ix 0 * f + k)%nat)).
      { intros k Hk. apply S2. apply inb_upd with m; auto.
        - rewrite S1, app_length. cbn. lia.
        - rewrite S1, upd_app_l by lia. auto.
        - rewrite S1, app_nth1 by lia. rewrite Hn. unfold m. rewrite Nat.mul_comm. apply Nat.mul_div_le. unfold f. lia. }
      rewrite (map_ext_in _ (fun k => binned av (map (fun i => (i, Z.to_nat (nth i fl 0%Z))) (rev l)) d (upd ix a (nth a ix 0 * f + k)%nat))); auto.
      intros k Hk. apply in_seq in Hk. apply G. lia.
Qed.
Lemma c24_bins (g : grid) old ax factor av g' : consistent g -> floats g -> NoDup ax -> length factor <> 1%nat ->
  down_sample old g ax factor av = (g', Ok tt) -> down_fact av factor (map Z.to_nat ax) g g'.
Proof.
  intros C F N L H. unfold down_sample in H. destruct (axes_valid g ax) eqn:V; [|discriminate]. cbn [negb] in H.
  destruct (Nat.eqb_spec (length factor) 1); [tauto|]. destruct (length factor =? length ax)%nat; [|discriminate].
  destruct (existsb _ _); [discriminate|]. unfold axes_valid in V. rewrite forallb_forall in V.
  apply (down_loop_fact _ _ _ _ _ _ _ C F) with (3 := H).
  - clear -N V. induction N as [|a l Ha N IH]; cbn; constructor.
    + intros Hi. apply in_map_iff in Hi as (b & E & Ib). pose proof (V a ltac:(left; auto)). pose proof (V b ltac:(right; auto)).
      assert (a = b) by lia. subst. auto.
    + apply IH. intros; apply V; right; auto.
  - intros a Ia. apply in_map_iff in Ia as (z & <- & Iz). specialize (V z Iz). lia.
Qed.
End Down.


(** * GridFromAxes (C25) *)
Lemma isclose_refl x : isclose x x = true.
Proof.
  unfold isclose. apply qleb_le. replace (x - x) with 0 by ring. replace (qabs 0) with 0 by reflexivity.
  assert (0 <= frac 1 100000000) by (apply Qclt_le_weak; reflexivity). assert (0 <= frac 1 100000) by (apply Qclt_le_weak; reflexivity).
  assert (0 <= qabs x). { unfold qabs. destruct (qleb 0 x) eqn:E; [apply qleb_le; auto|]. apply qleb_gt in E. qlra. }
  qnra.
Qed.
Lemma diff_uniform e0 p n s : diff (map (fun k => e0 + nq k * p) (seq s (S n))) = repeat p n.
Proof.
  revert s. induction n as [|n IH]; intros s; [reflexivity|].
  change (seq s (S (S n))) with (s :: seq (S s) (S n)). specialize (IH (S s)). cbn [map] in *.
  change (seq (S s) (S n)) with (S s :: seq (S (S s)) n) in *. cbn [map diff repeat] in *. f_equal; auto. rewrite nq_S. ring.
Qed.
Lemma from_axis_uniform e0 p n : (2 <= n)%nat -> 0 < p ->
  from_axis (map (fun k => e0 + nq k * p) (seq 0 (S n))) = Ok (e0 + nq n * p / zq 2, nq n * p, p).
Proof.
  intros Hn Hp. unfold from_axis. pose proof (diff_uniform e0 p n 0) as D. rewrite D.
  assert (La : last (map (fun k => e0 + nq k * p) (seq 0 (S n))) 0 = e0 + nq n * p).
  { rewrite seq_S, map_app. cbn [map]. rewrite last_last. rewrite Nat.add_0_l. reflexivity. }
  rewrite La. rewrite map_length, seq_length. cbn [seq map].
  assert (F : forallb (fun s => isclose s (hd 0 (repeat p n))) (repeat p n) = true).
  { apply forallb_forall. intros x Hx. apply repeat_spec in Hx. subst x. destruct n; [lia|]. cbn [repeat hd]. apply isclose_refl. }
  rewrite F. cbn [check bind]. destruct n as [|[|n]]; try lia. cbn [Nat.eqb]. f_equal. f_equal; [f_equal|].
  - replace (nq 0) with 0 by reflexivity. replace (zq 2) with (1 + 1) by reflexivity. field. discriminate.
  - replace (nq 0) with 0 by reflexivity. ring.
  - replace (nq 0) with 0 by reflexivity. replace (Z.of_nat (S (S (S n))) - 1)%Z with (Z.of_nat (S (S n))) by lia. fold (nq (S (S n))).
    field. apply nq_neq0. lia.
Qed.

Definition mkax (q : Qc * Qc * nat) : list Qc := map (fun k => fst (fst q) + nq k * snd (fst q)) (seq 0 (S (snd q))).
Definition axp (q : Qc * Qc * nat) : Prop := (2 <= snd q)%nat /\ 0 < snd (fst q).
Lemma uniform_list axes : Forall uniform_edges axes -> exists qs, axes = map mkax qs /\ Forall axp qs.
Proof.
  induction 1 as [|e l (e0 & p & n & Hn & Hp & E) F (qs & E2 & F2)].
  - exists []. auto.
  - exists ((e0, p, n) :: qs). subst. split; auto. constructor; auto. split; auto.
Qed.
Lemma mapM_from qs : Forall axp qs ->
  mapM from_axis (map mkax qs) = Ok (map (fun q => (fst (fst q) + nq (snd q) * snd (fst q) / zq 2, nq (snd q) * snd (fst q), snd (fst q))) qs).
Proof.
  induction 1 as [|[[e0 p] n] qs [Hn Hp] F IH]; [reflexivity|]. cbn [map mapM fst snd] in *. unfold mkax at 1. cbn [fst snd].
  rewrite from_axis_uniform by auto. cbn [bind]. rewrite IH. reflexivity.
Qed.

Section FromAxes.
Context {A : Alg}.
Notation grid := (grid A).

Lemma nth_map' {X Y} (f : X -> Y) l i dx dy : (i < length l)%nat -> nth i (map f l) dy = f (nth i l dx).
Proof. intros H. rewrite (nth_indep _ dy (f dx)) by (rewrite map_length; auto). apply map_nth. Qed.

Lemma c25_edges axes np au gu : axes <> [] -> Forall uniform_edges axes -> units_ok (length axes) au -> units_ok np gu ->
  exists g : grid, grid_from_axes axes np au gu = Ok g /\ consistent g /\ g_nprop g = np /\ g_ndim g = length axes /\ g_data g = None /\
    g_axes g = axes /\
    forall i k, (i < length axes)%nat -> (S k < length (nth i axes []))%nat ->
      nth k (nth i (g_centers g) []) 0 = (nth k (nth i axes []) 0 + nth (S k) (nth i axes []) 0) / zq 2.
Proof.
  intros Ne U Ua Ug. destruct (uniform_list axes U) as (qs & -> & F). unfold grid_from_axes. rewrite mapM_from by auto. cbn [bind].
  rewrite !map_map. cbn [fst snd]. rewrite map_length in *.
  set (c := mkF false (map (fun q : Qc * Qc * nat => fst (fst q) + nq (snd q) * snd (fst q) / zq 2) qs)).
  set (s := mkF false (map (fun q : Qc * Qc * nat => nq (snd q) * snd (fst q)) qs)).
  set (p := mkF false (map (fun q : Qc * Qc * nat => snd (fst q)) qs)).
  set (q0 := (0, 0, 0%nat) : Qc * Qc * nat).
  assert (Lc : flen c = length qs) by (unfold flen, c; cbn; apply map_length).
  assert (Ls : flen s = length qs) by (unfold flen, s; cbn; apply map_length).
  assert (Lp : flen p = length qs) by (unfold flen, p; cbn; apply map_length).
  assert (Q : forall i, (i < length qs)%nat -> axp (nth i qs q0)) by (intros i Hi; apply (proj1 (Forall_nth axp qs) F); auto).
  assert (B : forall a i, flen a = length qs -> (i < length qs)%nat -> bval a i = fnth a i).
  { intros a i La Hi. unfold bval. destruct (Nat.eqb_spec (flen a) 1); auto. replace i with 0%nat by lia. auto. }
  assert (Vs : forall i, (i < length qs)%nat -> fnth s i = nq (snd (nth i qs q0)) * snd (fst (nth i qs q0))).
  { intros i Hi. unfold fnth, s. cbn [fv]. apply (nth_map' (fun q : Qc * Qc * nat => nq (snd q) * snd (fst q)) qs i q0); auto. }
  assert (Vp : forall i, (i < length qs)%nat -> fnth p i = snd (fst (nth i qs q0))).
  { intros i Hi. unfold fnth, p. cbn [fv]. apply (nth_map' (fun q : Qc * Qc * nat => snd (fst q)) qs i q0); auto. }
  assert (Vc : forall i, (i < length qs)%nat -> fnth c i = fst (fst (nth i qs q0)) + nq (snd (nth i qs q0)) * snd (fst (nth i qs q0)) / zq 2).
  { intros i Hi. unfold fnth, c. cbn [fv]. apply (nth_map' (fun q : Qc * Qc * nat => fst (fst q) + nq (snd q) * snd (fst q) / zq 2) qs i q0); auto. }
  assert (Pp : forall x, In x (fv p) -> 0 < x).
  { intros x Hx. cbn in Hx. apply in_map_iff in Hx as (q & <- & Hq). rewrite Forall_forall in F. apply (F q Hq). }
  assert (Ex : exists g : grid, grid_new A np c s p au gu = Ok g).
  { apply grid_new_success; auto. rewrite Lc, Ls, Lp. split; [left; auto|]. split; [left; auto|]. split; auto. split; auto.
    intros i Hi. rewrite !B, Vs, Vp by auto. destruct (Q i Hi) as [Q1 Q2].
    assert (zq 2 <= nq (snd (nth i qs q0))) by (apply zq_le; lia).
    assert (frac 21 20 < zq 2) by reflexivity. generalize dependent (nq (snd (nth i qs q0))). generalize dependent (snd (fst (nth i qs q0))). intros. qnra. }
  destruct Ex as [g Eg]. rewrite Eg. cbn [bind].
  pose proof (grid_new_consistent _ _ _ _ _ _ _ _ Eg Pp) as C.
  pose proof (grid_new_inv _ _ _ _ _ _ _ _ Eg) as I. cbv zeta in I. destruct I as (s' & p' & _ & _ & Inp & _ & Ind & Ic & _ & _ & _ & _ & _ & _ & _ & _ & _ & _ & _ & _ & _ & Id & _).
  rewrite Lc in Ind.
  assert (Sd : forall i, (i < length qs)%nat -> fnth (g_pix g) i = fnth p i /\ fnth (g_side g) i = fnth s i /\ nth i (g_npix g) 0%nat = snd (nth i qs q0)).
  { intros i Hi. destruct (Q i Hi) as [Q1 Q2].
    destruct (grid_new_side _ _ _ _ _ _ _ _ i Eg) as (E1 & _ & _ & E2); [lia|rewrite B, Vp; auto|].
    rewrite !B in * by auto. split; auto. destruct (E2 (Z.of_nat (snd (nth i qs q0)))) as [E3 E4]; [rewrite Vs, Vp by auto; reflexivity|].
    split; auto. rewrite E4. apply Nat2Z.id. }
  assert (Ens : map (fun sp => qceil (fst sp / snd sp)) (combine (fv (g_side g)) (fv (g_pix g))) = map Z.of_nat (g_npix g)).
  { apply (nth_ext _ _ 0%Z 0%Z).
    - rewrite !map_length, combine_length. pose proof (co_s _ C). pose proof (co_p _ C). pose proof (co_n _ C). unfold flen in *. lia.
    - rewrite map_length, combine_length. pose proof (co_s _ C) as L1. pose proof (co_p _ C) as L2. pose proof (co_n _ C) as L3. unfold flen in L1, L2. rewrite L1, L2, Nat.min_id, Ind. intros i Hi.
      rewrite (nth_map' _ _ i (0, 0)) by (rewrite combine_length; lia). rewrite combine_nth by lia. cbn [fst snd].
      rewrite (nth_map' _ _ i 0%nat) by lia. destruct (Sd i Hi) as (E1 & E2 & E3). unfold fnth in E1, E2.
      rewrite E1, E2, E3. fold (fnth s i). fold (fnth p i). rewrite Vs, Vp by auto. destruct (Q i Hi) as [Q1 Q2].
      replace (nq (snd (nth i qs q0)) * snd (fst (nth i qs q0)) / snd (fst (nth i qs q0))) with (zq (Z.of_nat (snd (nth i qs q0)))); [apply qceil_zq|].
      unfold nq. field. apply Qc_pos_neq0; auto. }
  rewrite Ens.
  assert (Bad : existsb (fun t => negb (qeqb (fst (fst t) / snd (fst t)) (zq (snd t)))) (combine (combine (fv (g_side g)) (fv (g_pix g))) (map Z.of_nat (g_npix g))) = false).
  { apply not_true_is_false. intros H. apply existsb_exists in H as (t & Ht & Hq). apply (In_nth _ _ (0, 0, 0%Z)) in Ht as (i & Hi & <-).
    pose proof (co_s _ C) as L1. pose proof (co_p _ C) as L2. pose proof (co_n _ C) as L3. unfold flen in L1, L2.
    rewrite !combine_length, map_length in Hi. rewrite L1, L2, L3, !Nat.min_id, Ind in Hi.
    rewrite combine_nth in Hq by (rewrite combine_length, map_length; lia). rewrite combine_nth in Hq by lia. cbn [fst snd] in Hq.
    rewrite (nth_map' _ _ i 0%nat) in Hq by lia. destruct (Sd i Hi) as (E1 & E2 & E3). unfold fnth in E1, E2.
    rewrite E1, E2, E3 in Hq. fold (fnth s i) in Hq. fold (fnth p i) in Hq. rewrite Vs, Vp in Hq by auto. destruct (Q i Hi) as [Q1 Q2].
    apply negb_true_iff in Hq. rewrite (proj2 (qeqb_eq _ _)) in Hq; [discriminate|]. unfold nq. field. apply Qc_pos_neq0; auto. }
  rewrite Bad. rewrite map_map. rewrite (map_ext (fun x => Z.to_nat (Z.of_nat x)) (fun x => x)) by (intros; apply Nat2Z.id). rewrite map_id.
  eexists. split; [reflexivity|].
  assert (Eq : with_geom g (g_center g) (g_side g) (g_pix g) (g_npix g) (g_axes g) (g_centers g) (g_faxes g) (g_fcenters g) = g) by (destruct g; reflexivity).
  rewrite Eq. split; [auto|]. split; [auto|]. split; [auto|]. split; [auto|].
  assert (Ed : forall i, (i < length qs)%nat -> nth i (g_axes g) [] = mkax (nth i qs q0)).
  { intros i Hi. pose proof (co_axis _ C i ltac:(lia)) as O. destruct (Sd i Hi) as (E1 & E2 & E3). apply nth_error_ext. intros k.
    destruct (Nat.le_gt_cases k (snd (nth i qs q0))) as [Hk|Hk].
    - rewrite (ao_edge _ _ _ _ _ _ _ _ O) by lia. rewrite E1, E2, Ic, Vc, Vs, Vp by auto. unfold mkax.
      rewrite nth_error_map_some, nth_error_seq. rewrite (proj2 (Nat.ltb_lt k (S (snd (nth i qs q0))))) by lia. cbn [option_map]. rewrite ?Nat.add_0_l. f_equal. replace (zq 2) with (1 + 1) by reflexivity. field. discriminate.
    - rewrite !(proj2 (nth_error_None _ _)); auto; [unfold mkax; rewrite map_length, seq_length; lia|].
      rewrite (ao_elen _ _ _ _ _ _ _ _ O). lia. }
  split.
  - apply (nth_ext _ _ [] []); [rewrite map_length, (co_ax _ C); auto|]. rewrite (co_ax _ C), Ind. intros i Hi.
    rewrite (nth_map' mkax qs i q0) by auto. apply Ed; auto.
  - intros i k Hi Hk. rewrite (nth_map' mkax qs i q0) in * by auto. rewrite <- Ed in * by auto.
    destruct (consistent_axis g i C ltac:(lia)) as (X1 & _ & _ & _ & _ & _ & X2). rewrite X1 in Hk. destruct (X2 k ltac:(lia)) as [X3 X4].
    rewrite X4. replace (fnth (g_pix g) i) with (nth (S k) (nth i (g_axes g) []) 0 - nth k (nth i (g_axes g) []) 0). replace (zq 2) with (1 + 1) by reflexivity. field. discriminate.
Qed.
End FromAxes.

(** * Gridder (C21) *)
Section Auto.
Context {A : Alg}.
Notation grid := (grid A).

Lemma in_extent_iff (g : grid) r : consistent g -> length r = g_ndim g ->
  in_extent (g_axes g) r = true <->
  forall i, (i < g_ndim g)%nat -> fnth (g_center g) i - fnth (g_side g) i / zq 2 <= nth i r 0 /\ nth i r 0 < fnth (g_center g) i + fnth (g_side g) i / zq 2.
Proof.
  intros C L.
  assert (X : forall ax r, length r = length ax -> in_extent ax r = true <-> forall i, (i < length ax)%nat -> hd 0 (nth i ax []) <= nth i r 0 /\ nth i r 0 < last (nth i ax []) 0).
  { clear. induction ax as [|e ax IH]; intros [|x r] L; simpl in L; try discriminate; simpl.
    - split; [intros _ i Hi; lia|auto].
    - rewrite !andb_true_iff, qleb_le, qltb_lt, IH by lia. split.
      + intros [[H1 H2] H3] [|i] Hi; auto. apply H3. lia.
      + intros H. split; [apply (H 0%nat); lia|]. intros i Hi. apply (H (S i)). lia. }
  rewrite X by (rewrite (co_ax _ C); auto). rewrite (co_ax _ C).
  assert (Y : forall i, (i < g_ndim g)%nat -> hd 0 (nth i (g_axes g) []) = fnth (g_center g) i - fnth (g_side g) i / zq 2 /\ last (nth i (g_axes g) []) 0 = fnth (g_center g) i + fnth (g_side g) i / zq 2).
  { intros i Hi. destruct (consistent_axis g i C Hi) as (_ & _ & _ & X1 & _ & X2 & _). cbv zeta in *. rewrite <- X2, <- X1.
    replace (zq 2) with (1 + 1) by reflexivity. split; field; discriminate. }
  split; intros H i Hi; specialize (H i Hi); destruct (Y i Hi) as [Y1 Y2]; rewrite ?Y1, ?Y2 in *; auto.
Qed.

Lemma filter_len_all {X} (f : X -> bool) l : length (filter f l) = length l <-> forall x, In x l -> f x = true.
Proof.
  split.
  - induction l as [|x l IH]; simpl; [tauto|]. intros H y Hy. pose proof (filter_length_le f l) as Le.
    destruct (f x) eqn:E; simpl in H; [|lia]. destruct Hy as [<-|Hy]; auto.
  - intros H. rewrite filter_all; auto.
Qed.

Lemma gridder_inv nc rows vals pix au gu nd (g : grid) : gridder (Pos2 nc rows) vals None None pix au gu nd = Ok g ->
  rows_ok nc rows -> (forall x, In x (fv pix) -> 0 < x) ->
  exists c s g0, rows <> [] /\ flen c = nc /\ flen s = nc /\
    (forall i, (i < nc)%nat -> let l := col i rows in
        fnth c i = lmin l + ptp l / zq 2 /\ fnth s i = if qeqb (ptp l) 0 then 1 else ptp l * frac 10000001 10000000) /\
    grid_new A (val_cols vals) c s pix au gu = Ok g0 /\
    same_geometry g0 g /\ g_nprop g = g_nprop g0 /\ consistent g /\ g_nobj g = inside_count g rows.
Proof.
  intros H R Pp. unfold gridder in H.
  destruct (Nat.eqb_spec (length rows) 0) as [L0|L0].
  { destruct nd as [k|]; cbn [bind] in H; try discriminate.
    destruct vals; cbn [bind] in H; destruct (length _ =? length rows)%nat; cbn [check bind negb] in H; discriminate. }
  assert (Rn : rows <> []) by (intros ->; simpl in L0; lia).
  match type of H with bind ?x _ = _ => assert (En : x = Ok nc) end.
  { destruct nd as [k|]; auto. destruct (Nat.eqb_spec k nc); auto. discriminate. }
  rewrite En in H. cbn [bind] in H.
  set (vr := match vals with ValNone => (1%nat, map (fun _ => [v1]) rows) | Val1 l => (1%nat, map (fun v => [v]) l) | Val2 nc vr => (nc, vr) end) in H.
  assert (Ev : fst vr = val_cols vals) by (unfold vr; destruct vals; auto).
  destruct vr as [vc vrows] eqn:Evr. cbn [fst] in Ev. subst vc.
  destruct (Nat.eqb_spec (length vrows) (length rows)) as [Lv|]; [|discriminate]. cbn [check bind negb] in H.
  set (c := mkF false _) in H. set (s := mkF false _) in H.
  destruct (grid_new A (val_cols vals) c s pix au gu) as [g0|] eqn:Eg; cbn [bind] in H; [|discriminate].
  assert (Lc : flen c = nc) by (unfold flen, c; cbn [fv]; rewrite map_length, combine_length, !map_length, seq_length, Nat.min_id; auto).
  assert (Ls : flen s = nc) by (unfold flen, s; cbn [fv]; rewrite !map_length, seq_length; auto).
  pose proof (grid_new_consistent _ _ _ _ _ _ _ _ Eg Pp) as C0.
  pose proof (grid_new_inv _ _ _ _ _ _ _ _ Eg) as I. cbv zeta in I. destruct I as (s' & p' & _ & _ & Inp & _ & Ind & Ic & _ & _ & _ & _ & _ & _ & _ & _ & _ & _ & _ & If & _ & _ & _).
  rewrite Lc in Ind, If.
  assert (Rd : ready (init_grid g0) (full (g_npix g0 ++ [g_nprop g0]) v0)).
  { apply init_ready. rewrite If. clear. induction nc; simpl; auto. }
  destruct (add_from_cat_existing (init_grid g0) _ rows (Val2 (val_cols vals) vrows) None (seq 0 (g_nprop g0)) (init_consistent g0 C0) Rd) as (d' & E1 & W & Sh & _).
  - cbn [g_ndim init_grid with_nobj with_data]. rewrite Ind. auto.
  - cbn [val_rows]. auto.
  - reflexivity.
  - right. cbn [val_cols]. rewrite seq_length. split; auto. apply Forall_forall. intros x Hx. apply in_seq in Hx. lia.
  - cbn [g_ndim init_grid with_nobj with_data] in E1. rewrite Ind in E1. rewrite E1 in H. injection H as <-.
    exists c, s, g0. split; auto. split; auto. split; auto. split.
    { intros i Hi l. split.
      - unfold fnth, c. cbn [fv]. rewrite (nth_map' _ _ i (0, 0)) by (rewrite combine_length, !map_length, seq_length; lia).
        rewrite combine_nth by (rewrite !map_length; auto). cbn [fst snd]. rewrite !(nth_map' _ (seq 0 nc) i 0%nat) by (rewrite seq_length; auto). rewrite seq_nth by auto.
        cbn [Nat.add]. fold l. destruct (qeqb (ptp l) 0) eqn:E; auto. apply qeqb_eq in E. rewrite E. replace (zq 2) with (1 + 1) by reflexivity. field. discriminate.
      - unfold fnth, s. cbn [fv]. rewrite (nth_map' _ _ i 0) by (rewrite !map_length, seq_length; lia).
        rewrite !(nth_map' _ (seq 0 nc) i 0%nat) by (rewrite seq_length; auto). rewrite seq_nth by auto. reflexivity. }
    split; auto. split; [repeat split|]. split; auto. split; auto.
    assert (Cd : consistent (with_data (init_grid g0) (Some d'))).
    { pose proof (init_consistent g0 C0) as CI. destruct CI. constructor; auto. cbn. split; auto. }
    destruct Cd; constructor; auto.
Qed.

Lemma c21_iff nc rows vals pix au gu nd (g : grid) : gridder (Pos2 nc rows) vals None None pix au gu nd = Ok g ->
  rows_ok nc rows -> (forall x, In x (fv pix) -> 0 < x) ->
  consistent g /\ g_ndim g = nc /\ (forall i, (i < nc)%nat -> fnth (g_pix g) i = bval pix i) /\
  (g_nobj g = length rows <->
   forall i r r', (i < nc)%nat -> In r rows -> In r' rows -> nth i r 0 - nth i r' 0 < nq (nth i (g_npix g) 0%nat) * fnth (g_pix g) i).
Proof.
  intros H R Pp. destruct (gridder_inv _ _ _ _ _ _ _ _ H R Pp) as (c & s & g0 & Rn & Lc & Ls & V & Eg & SG & _ & C & No).
  pose proof (grid_new_inv _ _ _ _ _ _ _ _ Eg) as I. cbv zeta in I. destruct I as (s' & p' & _ & _ & _ & _ & Ind & Ic & _).
  destruct SG as (G1 & G2 & G3 & G4 & G5 & _). split; auto. rewrite Lc in Ind.
  assert (Hd : g_ndim g = nc) by congruence. split; auto. split.
  { intros i Hi. destruct (grid_new_side _ _ _ _ _ _ _ _ i Eg) as (E1 & _); [lia| |congruence].
    pose proof (grid_new_success A (val_cols vals) c s pix au gu Pp) as GS. destruct GS as [GS _]. destruct GS as (_ & Lx & _); [eauto|].
    apply Pp. unfold bval, fnth. destruct (Nat.eqb_spec (flen pix) 1); apply nth_In; unfold flen in *; unfold lens_ok in Lx; lia. }
  rewrite No. unfold inside_count. rewrite filter_len_all.
  assert (Rl : forall r, In r rows -> length r = g_ndim g) by (intros r Hr; rewrite Hd; unfold rows_ok in R; rewrite Forall_forall in R; auto).
  assert (Cn : forall i, (i < nc)%nat -> col i rows <> []) by (intros i _; unfold col; destruct rows; [tauto|discriminate]).
  assert (Ic' : forall i r, In r rows -> In (nth i r 0) (col i rows)) by (intros i r Hr; unfold col; apply in_map_iff; eauto).
  assert (Side : forall i, (i < nc)%nat -> fnth (g_side g) i = nq (nth i (g_npix g) 0%nat) * fnth (g_pix g) i).
  { intros i Hi. exact (ao_s _ _ _ _ _ _ _ _ (co_axis _ C i ltac:(lia))). }
  assert (Cen : forall i, (i < nc)%nat -> fnth (g_center g) i = (lmin (col i rows) + lmax (col i rows)) / zq 2).
  { intros i Hi. rewrite G2, Ic. destruct (V i Hi) as [-> _]. unfold ptp. replace (zq 2) with (1 + 1) by reflexivity. field. discriminate. }
  split.
  - intros All i r r' Hi Hr Hr'. rewrite <- Side by auto.
    destruct (proj1 (in_extent_iff g r C (Rl r Hr)) (All r Hr) i ltac:(lia)) as [_ B1].
    destruct (proj1 (in_extent_iff g r' C (Rl r' Hr')) (All r' Hr') i ltac:(lia)) as [B2 _].
    assert (fnth (g_side g) i = fnth (g_side g) i / zq 2 + fnth (g_side g) i / zq 2) by (replace (zq 2) with (1 + 1) by reflexivity; field; discriminate).
    qlra.
  - intros All r Hr. apply in_extent_iff; auto. rewrite Hd. intros i Hi.
    destruct (lmin_spec (col i rows) (Cn i Hi)) as [M1 M2]. destruct (lmax_spec (col i rows) (Cn i Hi)) as [M3 M4].
    unfold col in M1, M3. apply in_map_iff in M1 as (r1 & E1 & H1). apply in_map_iff in M3 as (r3 & E3 & H3). fold (col i rows) in E1, E3.
    pose proof (All i r3 r1 Hi H3 H1) as B. rewrite <- Side in B by auto. rewrite E1, E3 in B.
    pose proof (M2 _ (Ic' i r Hr)). pose proof (M4 _ (Ic' i r Hr)). rewrite Cen by auto.
    assert (fnth (g_side g) i = fnth (g_side g) i / zq 2 + fnth (g_side g) i / zq 2) by (replace (zq 2) with (1 + 1) by reflexivity; field; discriminate).
    assert ((lmin (col i rows) + lmax (col i rows)) / zq 2 + (lmin (col i rows) + lmax (col i rows)) / zq 2 = lmin (col i rows) + lmax (col i rows)) by (replace (zq 2) with (1 + 1) by reflexivity; field; discriminate).
    generalize dependent ((lmin (col i rows) + lmax (col i rows)) / zq 2). generalize dependent (fnth (g_side g) i / zq 2). intros. split; qlra.
Qed.

(** every object is gridded whenever the grid is as long as the side lengths chosen from the catalogue *)
Lemma c21_covers nc rows vals pix au gu nd (g : grid) : gridder (Pos2 nc rows) vals None None pix au gu nd = Ok g ->
  rows_ok nc rows -> (forall x, In x (fv pix) -> 0 < x) ->
  (forall i r r', (i < nc)%nat -> In r rows -> In r' rows ->
     (nth i r 0 - nth i r' 0) * frac 10000001 10000000 <= nq (nth i (g_npix g) 0%nat) * fnth (g_pix g) i) -> g_nobj g = length rows.
Proof.
  intros H R Pp K. destruct (c21_iff _ _ _ _ _ _ _ _ H R Pp) as (C & Hd & _ & [_ X]). apply X. intros i r r' Hi Hr Hr'.
  specialize (K i r r' Hi Hr Hr'). pose proof (co_axis _ C i ltac:(lia)) as O.
  assert (Sp : 0 < nq (nth i (g_npix g) 0%nat) * fnth (g_pix g) i).
  { pose proof (ao_p _ _ _ _ _ _ _ _ O) as P1. assert (P2 : 0 < nq (nth i (g_npix g) 0%nat)) by (apply (zq_lt 0); pose proof (ao_n _ _ _ _ _ _ _ _ O); lia).
    generalize dependent (nq (nth i (g_npix g) 0%nat)). generalize dependent (fnth (g_pix g) i). intros. qnra. }
  destruct (qltb_spec 0 (nth i r 0 - nth i r' 0)) as [P|P].
  - assert (1 < frac 10000001 10000000) by reflexivity. generalize dependent (nth i r 0 - nth i r' 0). generalize dependent (frac 10000001 10000000). intros. qnra.
  - apply Qcnot_lt_le in P. qlra.
Qed.
End Auto.
