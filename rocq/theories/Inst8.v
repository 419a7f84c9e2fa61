(** Sampling and histories: proofs (C50, C53). *)
From Verif Require Import Dict Util Rat Val Arr GridModel GridModel2 GridSpec GridSpec2 ConvSpec GridAdd GridCat InstModel InstSpec Inst Inst2 Inst3 Inst4 Inst5 Inst6 Inst7.
Open Scope string_scope.
Open Scope list_scope.
Open Scope Qc_scope.

Section Hist.
Context (sp : fn -> kw -> list Qc -> list Qc -> list Qc -> exc (arr Qc)) (sc : fn -> kw -> list Qc -> exc (arr Qc)).
Context (nz : string -> string -> fn -> kw -> nat -> Qc -> exc (list Qc)).

Lemma sel_fields s names fs : tables_ok s -> match names with [] => Ok (i_fnames s) | _ => do _ <- check_fields s names ;; Ok names end = Ok fs ->
  NoDup fs /\ (forall f, In f fs <-> covers names s f) /\ forall f, In f fs -> exists g, dget (i_fields s) f = Some g.
Proof.
  intros T. destruct names as [|n names].
  - intros H; injection H as <-. split; [apply T|]. split; [|intros f Hf; apply (t_fields _ T); auto]. intros f. unfold covers. cbn. tauto.
  - remember (n :: names) as nn eqn:En. destruct (check_fields s nn) as [u|] eqn:C; cbn [bind]; [|rewrite En; discriminate]. apply check_fld_ok in C. rewrite En at 1. intros H; injection H as <-.
    rewrite <- En. split; [tauto|]. split; [|tauto]. intros f. unfold covers. split; [auto|]. intros [[H _]|H]; [congruence|auto].
Qed.
Lemma sample_inv s pos names signal noise dt out : tables_ok s -> sample_fields nz pos names signal noise dt s = Ok out ->
  exists rows gs fs, pos = Pos2 2 rows /\ pointing_clones s = Ok gs /\ NoDup fs /\ (forall f, In f fs <-> covers names s f) /\ map fst out = fs /\
    (forall f, In f fs -> dget (i_cons s) f = Some true) /\ forall f tab, In (f, tab) out -> sample_one nz s rows signal noise dt gs f = Ok tab.
Proof.
  intros T. unfold sample_fields.
  destruct (match names with [] => _ | _ => _ end) as [fs|] eqn:Es; cbn [bind]; [|discriminate]. destruct (sel_fields s names fs T Es) as (N & Cv & _).
  destruct (mapM _ fs) as [us|] eqn:Ec; cbn [bind]; [|discriminate].
  destruct pos as [l|[|[|[|n]]] rows]; cbn [bind]; try discriminate.
  destruct (check _ _); cbn [bind]; [|discriminate]. destruct (check _ _); cbn [bind]; [|discriminate].
  destruct (pointing_clones s) as [gs|] eqn:Eg; cbn [bind]; [|discriminate]. intros H.
  exists rows, gs, fs. split; auto. split; auto. split; auto. split; auto.
  destruct (mapM_nth _ _ _ H) as [L V].
  split; [|split].
  - apply nth_error_ext. intros i. rewrite nth_error_map_some. destruct (nth_error fs i) as [f|] eqn:Ef.
    + destruct (V i f Ef) as (y & Hy & ->). destruct (sample_one _ _ _ _ _ _ _ f); cbn [bind] in Hy; [|discriminate]. injection Hy as <-. auto.
    + rewrite (proj2 (nth_error_None out i)); auto. rewrite L. apply nth_error_None. auto.
  - intros f Hf. apply In_nth_error in Hf. destruct Hf as [i Hi]. destruct (mapM_nth _ _ _ Ec) as [_ V2]. destruct (V2 i f Hi) as (y & Hy & _). unfold dfind in Hy.
    destruct (dget (i_cons s) f) as [[]|]; cbn in Hy; try discriminate; auto.
  - intros f tab Hi. apply In_nth_error in Hi. destruct Hi as [i Hi]. assert (Hl : (i < length fs)%nat) by (rewrite <- L; eapply nth_error_Some_lt; eauto).
    destruct (nth_error_lt_Some _ _ Hl) as [f1 Hf1]. destruct (V i f1 Hf1) as (y & Hy & Hn). rewrite Hi in Hn. injection Hn as <-.
    destruct (sample_one _ _ _ _ _ _ _ f1) eqn:E; cbn [bind] in Hy; [|discriminate]. injection Hy as -> ->. auto.
Qed.

(** C53 *)
Lemma sample_cols s rows names signal noise dt out : tables_ok s -> sample_fields nz (Pos2 2 rows) names signal noise dt s = Ok out -> forall f, covers names s f ->
  exists tab m, dget out f = Some tab /\ dget (i_maps s) f = Some m /\
  (consistent m -> g_ndim m = 2%nat -> g_nprop m = length (i_names s) -> g_data m <> None ->
   length tab = length rows /\ forall k r, nth_error rows k = Some r -> exists o, nth_error tab k = Some o /\ length o = length (i_names s) /\
    forall i d x, nth_error (i_names s) i = Some d -> dget (i_dets s) d = Some x -> exists v, nth_error o i = Some v /\ sampled nz m f d x rows k r signal noise dt i v).
Proof.
  intros T H f Hf. destruct (sample_inv _ _ _ _ _ _ _ T H) as (rows' & gs & fs & Ep & Eg & N & Cv & Ef & Cs & V). injection Ep as <-.
  assert (Hin : In f (map fst out)) by (rewrite Ef; apply Cv; auto). apply in_map_iff in Hin. destruct Hin as ([f1 tab] & E1 & Hin). cbn in E1. subst f1.
  pose proof (V f tab Hin) as V1.
  assert (exists m, dget (i_maps s) f = Some m) as [m Hm]. { unfold sample_one, dfind in V1. destruct (dget (i_maps s) f); [eauto|discriminate]. }
  exists tab, m. split; [apply dget_unique; auto; rewrite Ef; auto|]. split; auto. intros Cm N2 Np Dm. destruct (g_data m) as [dm|] eqn:Ed; [|tauto].
  apply (one_cols nz s m dm rows signal noise dt gs f tab); auto.
Qed.

(** sampling succeeds *)
Lemma sample_ok s rows names signal noise dt : tables_ok s -> i_names s <> [] -> (names = [] \/ NoDup names /\ forall f, In f names -> In f (i_fnames s)) ->
  (forall f, covers names s f -> dget (i_cons s) f = Some true /\ exists m, dget (i_maps s) f = Some m /\ (signal = true -> consistent m /\ g_ndim m = 2%nat /\ g_nprop m = length (i_names s) /\ g_data m <> None)) ->
  (forall d x, dget (i_dets s) d = Some x -> exists off, d_off x = Some off) -> noise = true \/ signal = true ->
  (noise = true -> exists t, dt = Some t /\ forall f d x, covers names s f -> dget (i_dets s) d = Some x -> exists r l, d_noise x = Some r /\ nz f d (fst r) (snd r) (length rows) t = Ok l /\ length l = length rows) ->
  exists out, sample_fields nz (Pos2 2 rows) names signal noise dt s = Ok out.
Proof.
  intros T Ne Hn Hm Ho Hs Hz. unfold sample_fields.
  assert (Es : exists fs, match names with [] => Ok (i_fnames s) | _ => do _ <- check_fields s names ;; Ok names end = Ok fs).
  { destruct names as [|n names]; eauto. remember (n :: names) as nn eqn:En. destruct Hn as [Hn|[N Hn]]; [congruence|].
    assert (Ck : check_fields s nn = Ok tt).
    { unfold check_fields. rewrite (proj2 (forallb_forall _ nn)); [|intros f1 Hf1; apply dmem_some; apply (t_fields _ T), Hn; auto]. cbn [check bind]. rewrite (proj2 (nodup_str_spec nn)); auto. }
    rewrite Ck. cbn [bind]. rewrite En. eauto. }
  destruct Es as [fs Es]. rewrite Es. cbn [bind]. destruct (sel_fields s names fs T Es) as (N & Cv & _).
  destruct (mapM_all_ok (fun f => do c <- dfind (i_cons s) f ;; check c ValueError) fs) as [us ->].
  { intros f Hf. apply Cv in Hf. destruct (Hm f Hf) as [Hc _]. unfold dfind. rewrite Hc. cbn. eauto. }
  cbn [bind]. replace (negb (match dt with None => noise | Some _ => false end)) with true.
  2:{ destruct noise; [destruct (Hz eq_refl) as (t & -> & _); auto|destruct dt; auto]. }
  cbn [check bind]. replace (noise || signal) with true by (destruct Hs as [-> | ->]; auto; apply eq_sym, orb_true_r). cbn [check bind].
  assert (exists gs, pointing_clones s = Ok gs) as [gs Eg].
  { unfold pointing_clones. apply clones_ok; auto; [apply off_eqb_spec|]. intros d Hd. apply (t_dets _ T) in Hd. destruct Hd as [x Hx]. rewrite (off_at s d x Hx).
    destruct (Ho d x Hx) as [off ->]. eauto. }
  rewrite Eg. cbn [bind]. apply mapM_all_ok. intros f Hf. apply Cv in Hf. destruct (Hm f Hf) as (_ & m & Em & Hok).
  assert (exists tab, sample_one nz s rows signal noise dt gs f = Ok tab) as [tab ->]; [|cbn; eauto].
  unfold sample_one, dfind. rewrite Em. cbn [bind].
  destruct (mapM_all_ok (fun d => match noise, dt with
                            | true, Some t => do r <- noise_of s d ;; do x <- nz f d (fst r) (snd r) (length rows) t ;;
                                              do _ <- check (length x =? length rows)%nat ValueError ;; Ok (map Some x)
                            | _, _ => Ok (repeat (Some 0) (length rows))
                            end) (i_names s)) as [cols Ec].
  { intros d Hd. apply (t_dets _ T) in Hd. destruct Hd as [x Hx]. destruct noise; [|eauto]. destruct (Hz eq_refl) as (t & -> & Hq). destruct (Hq f d x Hf Hx) as (r & l & Hr & Hl & Ll).
    rewrite (noise_at s d x Hx), Hr. cbn [bind]. rewrite Hl. cbn [bind]. rewrite Ll, Nat.eqb_refl. cbn. eauto. }
  rewrite Ec. cbn [bind]. destruct (mapM_nth _ _ _ Ec) as [Lc Vc].
  assert (Lr : forall c, In c cols -> length c = length rows).
  { intros c Hc. apply (mapM_in _ _ _ Ec) in Hc. destruct Hc as (d & Hd & Hy). destruct noise; [destruct dt as [t|]|]; try (injection Hy as <-; apply repeat_length).
    destruct (noise_of s d); cbn [bind] in Hy; [|discriminate]. destruct (nz _ _ _ _ _ _) as [l|]; cbn [bind] in Hy; [|discriminate].
    destruct (Nat.eqb_spec (length l) (length rows)); cbn [check bind] in Hy; [|discriminate]. injection Hy as <-. rewrite map_length. auto. }
  assert (Nz : length (i_names s) <> 0%nat) by (destruct (i_names s); [congruence|discriminate]).
  assert (Lz : forall n, n = length (i_names s) -> negb (n =? 0)%nat = true) by (intros n ->; destruct (Nat.eqb_spec (length (i_names s)) 0); auto).
  destruct signal; cbn [bind].
  - destruct (Hok eq_refl) as (Cm & N2 & Np & Dm). destruct (g_data m) as [dm|] eqn:Ed; [|tauto].
    pose proof Eg as Hp. unfold pointing_clones in Hp. apply (clones_spec off_eqb off_eqb_spec (off_of s)) in Hp; [|apply T|lia]. destruct Hp as (P1 & P2 & P3).
    destruct (groups_step nz s m dm rows gs T Cm N2 Np Ed P1) with (cols := cols) as (c2 & E2 & L2 & _); auto.
    { intros g Hg. destruct (P3 g Hg) as (d0 & r & k & -> & K & H). exists k. split; [discriminate|]. intros d1 Hd.
      assert (In d1 (i_names s)) by (apply P2; apply in_concat; exists (d0 :: r); auto). split; auto. apply H; auto. }
    rewrite E2. cbn [bind]. rewrite Lz by congruence. cbn. eauto.
  - rewrite Lz by auto. cbn. eauto.
Qed.

(** C50: a change of the detectors makes every map stale *)
Lemma change_stale o s s' : tables_ok s -> istep sp sc o s = (s', Ok tt) -> changes_detectors o s -> forall f, dget (i_cons s') f <> Some true.
Proof.
  intros T E Hc.
  assert (K : (forall k, dget (i_cons s') k = if smem k (i_fnames s) then Some false else dget (i_cons s) k) -> forall f, dget (i_cons s') f <> Some true).
  { intros H f. rewrite H. destruct (smem f (i_fnames s)) eqn:Ef; [discriminate|]. intros H2. apply smem_false in Ef. apply Ef. destruct (t_valid _ T f H2) as [m Hm]. apply (t_maps _ T _ _ Hm). }
  destruct o; cbn [istep changes_detectors] in *; try contradiction.
  - destruct (set_response_ok m names r k s s' (t_names _ T) E) as (ds & f & kk & Nd & Hds & Hin & Er & Ek & Hf & Es').
    apply K. intros k0. destruct Hc as [d Hd]. apply Hds in Hd. destruct ds as [|d0 ds]; [destruct Hd|]. rewrite Es'. cbv zeta.
    match goal with |- dget (i_cons (if _ then set_default (all_stale ?x) _ _ else _)) _ = _ => set (s1 := x) end.
    transitivity (dget (i_cons (all_stale s1)) k0); [destruct (smem "instrument" names); destruct m; reflexivity|].
    rewrite stale_cons. assert (E1 : i_fnames s1 = i_fnames s /\ i_cons s1 = i_cons s) by (unfold s1; destruct f; auto). destruct E1 as [-> ->]. auto.
  - destruct (add_any a s s' T E) as (Hn & En & Ed & _ & Es & _ & Ec). apply K. auto.
  - destruct (del_ok names s s' T E) as (_ & _ & D & _ & _ & _ & _ & H). specialize (H Hc). intros f H2.
    assert (Hf : In f (i_fnames s)). { destruct (ds_cons _ _ D) as [(_ & _ & C)|C]; [rewrite C in H2; destruct (t_valid _ T f H2) as [m Hm]; apply (t_maps _ T _ _ Hm)|].
      rewrite C in H2. destruct (smem f (i_fnames s)) eqn:Ef; [discriminate|]. destruct (t_valid _ T f H2) as [m Hm]; apply (t_maps _ T _ _ Hm). }
    rewrite (H f Hf) in H2. discriminate.
Qed.

(** whatever is sampled was mapped after the last change of the detectors *)
Lemma sample_after s0 os1 o os2 s1 s2 pos names signal noise dt out f : tables_ok s0 -> irun sp sc os1 s0 = s1 -> istep sp sc o s1 = (s2, Ok tt) -> changes_detectors o s1 ->
  sample_fields nz pos names signal noise dt (irun sp sc os2 s2) = Ok out -> covers names (irun sp sc os2 s2) f ->
  exists ns a, In (OMap ns a) os2 /\ (ns = [] \/ In f ns) /\ map_fields sp sc [f] a (irun sp sc os2 s2) = (irun sp sc os2 s2, Ok tt).
Proof.
  intros T <- E Hc Hs Hf. pose proof (run_tables sp sc os1 s0 T) as T1.
  assert (T2 : tables_ok s2). { pose proof (step_tables sp sc o _ T1) as H. rewrite E in H. auto. }
  assert (V2 : all_valid sp sc [] s2). { intros k Hk. destruct (change_stale o _ s2 T1 E Hc k Hk). }
  pose proof (run_valid sp sc os2 s2 T2 V2) as V. pose proof (run_tables sp sc os2 s2 T2) as T3.
  destruct (sample_inv _ _ _ _ _ _ _ T3 Hs) as (rows & gs & fs & _ & _ & _ & Cv & _ & Cs & _).
  assert (Hc2 : dget (i_cons (irun sp sc os2 s2)) f = Some true) by (apply Cs, Cv; auto).
  destruct (V f Hc2) as (ns & a & H1 & H2 & H3). exists ns, a. split; auto. split; auto. apply valid_remap; auto.
Qed.
Lemma sample_fresh s0 os pos names signal noise dt out f : tables_ok s0 -> all_valid sp sc [] s0 ->
  sample_fields nz pos names signal noise dt (irun sp sc os s0) = Ok out -> covers names (irun sp sc os s0) f ->
  exists ns a, In (OMap ns a) os /\ (ns = [] \/ In f ns) /\ map_fields sp sc [f] a (irun sp sc os s0) = (irun sp sc os s0, Ok tt).
Proof.
  intros T V0 Hs Hf. pose proof (run_valid sp sc os s0 T V0) as V. pose proof (run_tables sp sc os s0 T) as T3.
  destruct (sample_inv _ _ _ _ _ _ _ T3 Hs) as (rows & gs & fs & _ & _ & _ & Cv & _ & Cs & _).
  assert (Hc2 : dget (i_cons (irun sp sc os s0)) f = Some true) by (apply Cs, Cv; auto).
  destruct (V f Hc2) as (ns & a & H1 & H2 & H3). exists ns, a. split; auto. split; auto. apply valid_remap; auto.
Qed.
(** the number of layers of a map *)
Lemma map_layers names a s s' f : map_fields sp sc names a s = (s', Ok tt) -> tables_ok s -> covers names s f -> exists m, dget (i_maps s') f = Some m /\ g_nprop m = length (i_names s).
Proof.
  intros E T Hf. destruct (map_fields_spec sp sc _ _ _ _ _ E) as [(e & H & _)|(_ & gs & fs & Hg & Hfs & L)]; [discriminate|].
  assert (Hin : In f fs). { destruct Hf as [[-> Hn]|Hn]; [destruct Hfs as [[_ ->]|(H & _)]; [auto|congruence]|]. destruct Hfs as [[-> _]|(_ & -> & _)]; [destruct Hn|auto]. }
  assert (exists g, dget (i_fields s) f = Some g) as [g Hg2]. { destruct Hfs as [[_ ->]|(_ & -> & _ & H)]; [apply (t_fields _ T); auto|auto]. }
  destruct (loop_last sp sc gs a fs s s' f g L Hin Hg2) as (m & M1 & M2). exists m. split; auto.
  unfold map_one in M2. destruct (all_groups _ _ _ _ _ _ _) as [acc|]; cbn [bind] in M2; [|discriminate]. destruct (stack_maps _ _); cbn [bind] in M2; [|discriminate].
  destruct (snd acc); [|discriminate]. injection M2 as <-. reflexivity.
Qed.
Lemma stale_refused o s s' pos names signal noise dt f : tables_ok s -> istep sp sc o s = (s', Ok tt) -> changes_detectors o s -> covers names s' f ->
  sample_fields nz pos names signal noise dt s' = Raise ValueError.
Proof.
  intros T E Hc Hf. pose proof (step_tables sp sc o s T) as T'. rewrite E in T'. cbn [fst] in T'.
  pose proof (change_stale o s s' T E Hc) as St. unfold sample_fields.
  destruct (match names with [] => _ | _ => _ end) as [fs|e] eqn:Es; cbn [bind].
  - destruct (sel_fields s' names fs T' Es) as (_ & Cv & Cg). apply Cv in Hf.
    assert (Em : mapM (fun f => do c <- dfind (i_cons s') f ;; check c ValueError) fs = Raise ValueError); [|rewrite Em; auto].
    destruct fs as [|f0 fs]; [destruct Hf|]. cbn [mapM]. destruct (Cg f0 (or_introl eq_refl)) as [g Hg].
    destruct (t_cons _ T' f0) as [b Hb]. { apply (t_fields _ T'). eauto. } unfold dfind. rewrite Hb. destruct b; [destruct (St f0 Hb)|]. reflexivity.
  - destruct names as [|n names]; [discriminate|]. remember (n :: names) as nn. unfold check_fields in Es.
    destruct (forallb (fun f : string => dmem (i_fields s') f) nn); [|cbn in Es; injection Es as <-; reflexivity]. destruct (nodup_str nn); cbn in Es; [discriminate|injection Es as <-; reflexivity].
Qed.
End Hist.
