(** Simulation-wide theorems. *)
From Verif Require Import Dict Util Rat HandlerModel HandlerSpec Handler Handler2 Handler3 Handler4 SimModel SimSpec Sim Sim2 Sim3.
Open Scope string_scope.
Open Scope list_scope.
Open Scope nat_scope.

Lemma NoDup_left {A} (l m : list A) : NoDup (l ++ m) -> NoDup l.
Proof.
  induction l as [|x l IH]; simpl; intros H; [constructor|]. inversion H; subst. constructor; [|auto].
  intros Hx. apply H2. apply in_or_app. auto.
Qed.

(** ** What an opened simulation shows *)
Definition snap_extra (st : sst) (z : Qc) : dict pyval :=
  [("cosmo", VObj 0); ("redshift", VNum z); ("box_edge_h", VNum (sm_box (fst st)));
   ("box_edge_no_h", VNum (sm_box (fst st) / sf_h (snd st))%Qc)].
Lemma sees_opened n st i z : opened st -> good_sim n (snd st) -> In (i, z) (sf_meta (snd st)) ->
  exists g h, group_of (snd st) i = Ok g /\ good_file (n i) g /\ f_h g = sf_h (snd st) /\
    open_handler g (Some (sm_box (fst st))) (snap_extra st z) false = Ok h /\ sees st i (h, g).
Proof.
  intros O G Hi. destruct (open_snap_good n st i z false O G Hi) as (g & h & E1 & E2 & E3).
  exists g, h. split; [exact E1|]. split; [exact E2|].
  assert (Eh : f_h g = sf_h (snd st)).
  { unfold group_of in E1. destruct (zget _ i); [|discriminate]. injection E1 as <-. reflexivity. }
  split; [exact Eh|]. unfold open_snap in E3. rewrite E1 in E3. simpl in E3. rewrite Eh in E3.
  split; [exact E3|]. split; [|exact E1].
  destruct O as (O1 & O2 & O3 & O4). destruct st as [s f]. simpl in *.
  rewrite (find_meta_nodup s i z); [|rewrite O2; apply G|rewrite O2; exact Hi]. simpl. rewrite O1.
  unfold open_snap. rewrite E1. simpl. rewrite Eh. exact E3.
Qed.
Lemma sees_fun st i s t : sees st i s -> sees st i t -> s = t.
Proof. intros [A B] [C D]. destruct s, t; simpl in *; congruence. Qed.
Lemma opened_same st st' : same_sim st st' -> opened st -> opened st'.
Proof. unfold same_sim, opened. intuition congruence. Qed.

(** ** make_property, written to disk *)
Lemma c66_make n nanint p a st st' :
  opened st -> good_sim n (snd st) -> scall_ok (SMake p a) -> NoDup (sim_names p a) ->
  sa_write a = true -> sa_dtype a = None ->
  (forall i z g q, In (i, z) (sf_meta (snd st)) -> group_of (snd st) i = Ok g -> In q (sim_names p a) -> float_or_absent g q) ->
  sim_make_property nanint p a st = (st', Ok tt) ->
  opened st' /\ good_sim n (snd st') /\ fst st' = fst st /\
  forall i z, In (i, z) (sf_meta (snd st)) -> exists s s', sees st i s /\ sees st' i s' /\
    (exists args vals, p_fun p args = Ok vals /\ length vals = length (sim_names p a) /\
      (forall key, arg_spec s (p_kwargs p) (sa_remap a) (sa_all a) (p_give_h p) (sa_kws a) key (dget args key)) /\
      (forall j name v, nth_error (sim_names p a) j = Some name -> nth_error vals j = Some v ->
         exists c, return_property s' name true (Some (p_ret_h p)) = Ok (Some c) /\
           forall k, k < n i -> nth_error (c_val c) k = val_at v k)) /\
    (forall q ua b, ~ In q (sim_names p a) -> return_property s' q ua b = return_property s q ua b).
Proof.
  intros O G Hok ND W Dt Fl H. unfold sim_make_property in H. rewrite W, andb_false_r in H.
  pose proof (loop_fresh (make_step nanint p a) (fh_make_step nanint p a) _ _ _ _ _ H (proj1 O)) as Fr.
  destruct (loop_frame (make_step nanint p a) _ _ _ _ _ H) as [SS _].
  pose proof (opened_same _ _ SS O) as O'.
  assert (Om : sm_meta (fst st) = sf_meta (snd st)) by apply O.
  assert (St : forall i z, In (i, z) (sf_meta (snd st)) -> exists g h s' k, group_of (snd st) i = Ok g /\ good_file (n i) g /\
     f_h g = sf_h (snd st) /\ open_handler g (Some (sm_box (fst st))) (snap_extra st z) false = Ok h /\ sees st i (h, g) /\
     make_step nanint p a k (h, g) = (s', Ok tt) /\ group_of (snd st') i = Ok (snd s')).
  { intros i z Hi. destruct (sees_opened n st i z O G Hi) as (g & h & A1 & A2 & A3 & A4 & A5).
    rewrite <- Om in Hi. apply In_nth_error in Hi. destruct Hi as [m Hm].
    destruct (loop_ok (make_step nanint p a) (fh_make_step nanint p a) _ _ _ _ H) with (m := m) (r := (i, z)) as (s & s' & S1 & S2 & S3 & _);
      [rewrite Om; apply G|exact Hm|]. simpl in S1, S3.
    rewrite (sees_fun _ _ _ _ S1 A5) in S2. exists g, h, s', (0 + m). auto 10. }
  assert (Hh0 : sf_h (snd st) <> 0%Qc) by apply G.
  assert (SM : sf_meta (snd st') = sf_meta (snd st)) by apply SS.
  assert (SH : sf_h (snd st') = sf_h (snd st)) by apply SS.
  assert (G' : good_sim n (snd st')).
  { split; [rewrite SM; apply G|]. split; [rewrite SH; exact Hh0|]. intros i z Hi. rewrite SM in Hi.
    destruct (St i z Hi) as (g & h & s' & k & A1 & A2 & A3 & A4 & A5 & A6 & A7).
    exists (snd s'). split; [exact A7|].
    exact (proj1 (fresh_good nanint (n i) p a k g _ _ _ h s' A2 A4 Hok W A6)). }
  split; [exact O'|]. split; [exact G'|]. split; [exact Fr|]. intros i z Hi.
  destruct (St i z Hi) as (g & h & s' & k & A1 & A2 & A3 & A4 & A5 & A6 & A7).
  assert (Hi' : In (i, z) (sf_meta (snd st'))) by (rewrite SM; exact Hi).
  destruct (sees_opened n st' i z O' G' Hi') as (g' & h' & B1 & B2 & B3 & B4 & B5).
  assert (g' = snd s') by congruence. subst g'.
  exists (h, g), (h', snd s'). split; [exact A5|]. split; [exact B5|]. split.
  - assert (H0 : f_h g <> 0%Qc) by congruence.
    exact (fresh_values nanint (n i) p a k g _ _ _ h s' A2 A4 H0 Hok ND W A6 Dt (fun q Hq => Fl i z g q Hi A1 Hq) _ _ _ h' B4).
  - intros q ua b Hq. symmetry.
    destruct (fresh_good nanint (n i) p a k g _ _ _ h s' A2 A4 Hok W A6) as (C1 & C2 & C3 & _).
    eapply reopen_return; eauto. symmetry. apply C3. exact Hq.
Qed.

(** ** A failing make_property *)
Lemma c66_failed n nanint p a st st' e :
  opened st -> good_sim n (snd st) -> scall_ok (SMake p a) -> sa_write a = true ->
  sim_make_property nanint p a st = (st', Raise e) ->
  exists l1 r l2, sf_meta (snd st) = l1 ++ r :: l2 /\ fst st' = fst st /\
    (forall i z, In (i, z) l1 -> exists g, group_of (snd st') i = Ok g /\ good_file (n i) g /\
       forall q, In q (sim_names p a) -> dmem (f_grp g) q = true) /\
    (forall i z, In (i, z) l2 -> group_of (snd st') i = group_of (snd st) i).
Proof.
  intros O G Hok W H. unfold sim_make_property in H. rewrite W, andb_false_r in H.
  pose proof (loop_fresh (make_step nanint p a) (fh_make_step nanint p a) _ _ _ _ _ H (proj1 O)) as Fr.
  assert (Om : sm_meta (fst st) = sf_meta (snd st)) by apply O.
  destruct (loop_raise _ _ _ _ _ _ H) as (l1 & r & l2 & st1 & E1 & E2 & E3).
  exists l1, r, l2. rewrite <- Om. split; [exact E1|]. split; [exact Fr|].
  assert (NDm : NoDup (map fst (l1 ++ r :: l2))) by (rewrite <- E1, Om; apply G).
  rewrite map_app in NDm. simpl in NDm.
  destruct (on_snap_frame _ _ _ _ _ E3) as [_ F3]. destruct (loop_frame _ _ _ _ _ _ E2) as [_ F2].
  split.
  - intros i z Hi.
    assert (Hi0 : In (i, z) (sf_meta (snd st))) by (rewrite <- Om, E1; apply in_or_app; auto).
    destruct (sees_opened n st i z O G Hi0) as (g & h & A1 & A2 & A3 & A4 & A5).
    pose proof Hi as Hi1. apply In_nth_error in Hi1. destruct Hi1 as [m Hm].
    destruct (loop_ok (make_step nanint p a) (fh_make_step nanint p a) _ _ _ _ E2) with (m := m) (r := (i, z)) as (s & s' & S1 & S2 & S3 & _).
    { exact (NoDup_left _ _ NDm). }
    { exact Hm. }
    simpl in S1, S3. rewrite (sees_fun _ _ _ _ S1 A5) in S2.
    destruct (fresh_good nanint (n i) p a (0 + m) g _ _ _ h s' A2 A4 Hok W S2) as (C1 & C2 & C3 & C4).
    exists (snd s'). split; [|split; [exact C1|]].
    + destruct (F3 i) as [_ ->]; [|exact S3]. intros ->. apply NoDup_remove_2 in NDm. apply NDm. apply in_or_app. left.
      change (fst r) with (fst (fst r, z)). apply in_map. exact Hi.
    + intros q Hq. destruct (C4 q Hq) as (d & D1 & _). rewrite dmem_get, D1. reflexivity.
  - intros i z Hi. assert (Hin : In i (map fst l2)) by (change i with (fst (i, z)); apply in_map; exact Hi).
    destruct (F3 i) as [_ ->].
    { intros ->. apply NoDup_remove_2 in NDm. apply NDm. apply in_or_app. right. exact Hin. }
    destruct (F2 i) as [_ ->]; [|reflexivity]. intros Hl.
    apply NoDup_remove_1 in NDm. clear -NDm Hl Hin. induction (map fst l1) as [|x l IH]; simpl in *; [tauto|].
    inversion NDm; subst. destruct Hl as [->|Hl]; [apply H1; apply in_or_app; auto|auto].
Qed.

(** ** When make_property succeeds *)
Lemma make_loop_ok p inds hd : p_hdep p = Some hd -> forall l s,
  (forall nm nw ow c, In (nm, nw, ow, c) l -> (exists v, fill (h_n (fst s)) inds c = Ok v) /\
     (exists u, dget (p_units p) nm = Some u) /\ exists e, dget hd nm = Some e) ->
  exists s', for_each (make_one p inds) l s = (s', Ok tt).
Proof.
  intros Hd. induction l as [|[[[nm nw] ow] c] l IH]; intros s H; [exists s; reflexivity|].
  destruct (H nm nw ow c (or_introl eq_refl)) as ((v & E1) & (u & E2) & (e & E3)).
  assert (M : exists t, make_one p inds (nm, nw, ow, c) s = (t, Ok tt)).
  { destruct s as [h f]. unfold make_one. simpl in E1. rewrite E1, E2, Hd, E3. eauto. }
  destruct M as [t M]. simpl. unfold for_each in *. fold (@for_each (string * string * bool * col)) in *.
  rewrite M. apply IH. intros nm' nw' ow' c' Hin.
  destruct (make_one_act p inds (nm, nw, ow, c) s) as (_ & _ & Hn & _). rewrite M in Hn. simpl in Hn. rewrite Hn.
  apply (H nm' nw' ow' c'). right; exact Hin.
Qed.
Lemma write_ok n nanint dt ps : (forall g, dt = Some g -> keeps_length g) -> ~ In "mass_cuts" ps -> forall s, hinv n s ->
  (forall q, In q ps -> In q (h_all (fst s)) /\ exists c, dget (h_loaded (fst s)) q = Some c) ->
  exists s', write_property nanint ps true dt s = (s', Ok tt).
Proof.
  intros Kl. induction ps as [|q ps IH]; intros Mc s HI H; [exists s; reflexivity|].
  destruct (H q (or_introl eq_refl)) as (A & c & C).
  assert (Ew : exists t, write_one nanint true dt q s = (t, Ok tt)).
  { destruct (i_units _ _ HI q A) as [u U]. destruct (i_hdep _ _ HI q A) as [e E].
    destruct s as [h f]. simpl in *. unfold write_one. rewrite C, andb_false_r. rewrite U, E.
    destruct (dget (f_grp f) q) as [d|] eqn:Ed; [|eauto].
    destruct (i_file _ _ HI q d Ed) as (o & O1 & O2); [intros ->; tauto|]. rewrite O1.
    destruct (i_loaded _ _ HI q c C) as [L _]. rewrite L, O2, Nat.eqb_refl. simpl. eauto. }
  destruct Ew as [t Ew]. unfold write_property. simpl. rewrite Ew.
  pose proof (hinv_write n nanint true dt q s HI Kl) as HT. rewrite Ew in HT. simpl in HT.
  destruct (write_one_frame nanint true dt q s) as (sv & f' & F). rewrite Ew in F. simpl in F.
  apply IH; [simpl in Mc; tauto|exact HT|]. intros r Hr. subst t. simpl. apply H. right; exact Hr.
Qed.
Lemma guard_ok g names : (forall q d, In q names -> dget (f_grp g) q = Some d -> s_user d = true) ->
  make_guard true names g = Ok tt.
Proof.
  induction names as [|q names IH]; simpl; intros H; [reflexivity|].
  destruct (dget (f_grp g) q) as [d|] eqn:E; [|apply IH; intros; eapply H; eauto].
  rewrite (H q d (or_introl eq_refl) E). apply IH. intros; eapply H; eauto.
Qed.
Lemma combine_in4 (a b : list string) (c : list bool) (d : list col) x y z w :
  In (x, y, z, w) (combine (combine (combine a b) c) d) -> In x a /\ In w d.
Proof.
  intros H. split; [|eapply in_combine_r; exact H]. apply in_combine_l in H. apply in_combine_l in H. apply in_combine_l in H. exact H.
Qed.
Lemma make_step_ok n nanint p a k f box extra inh h :
  good_file n f -> open_handler f box extra inh = Ok h -> scall_ok (SMake p a) -> NoDup (sim_names p a) ->
  length (sim_names p a) = length (p_names p) -> sa_ow a = true -> documented p -> computable p a n (h, f) ->
  (k = 0 -> forall q d, In q (sim_names p a) -> dget (f_grp f) q = Some d -> s_user d = true) ->
  exists s', make_step nanint p a k (h, f) = (s', Ok tt).
Proof.
  intros Gf Op Hok ND Ln Ow (hd & Hd & Doc) (vals & Ev & Lv & Fv) Hg.
  destruct (open_act _ _ _ _ _ _ Gf Op) as (A1 & A2 & A3 & A4 & A5 & A6 & A7 & _).
  pose proof (reach_open nanint n f box extra inh h Gf Op) as R0.
  assert (M : exists s1, make_property nanint p (snap_args a) (h, f) = (s1, Ok tt)).
  { unfold make_property. cbn [snap_args m_all m_write m_rename m_ow m_remap m_kws fst]. rewrite andb_false_r. simpl.
    fold (sim_names p a).
    assert (E : match sa_rename a with
                | Some r => if Datatypes.length r =? Datatypes.length (p_names p) then Ok r else Raise ValueError
                | None => Ok (p_names p) end = Ok (sim_names p a)).
    { unfold sim_names in *. destruct (sa_rename a); [|reflexivity]. apply Nat.eqb_eq in Ln. rewrite Ln. reflexivity. }
    rewrite E. rewrite Ow, andb_false_r. rewrite Ev.
    edestruct (make_loop_ok p (if sa_all a then seq 0 (h_n h) else h_act h) hd Hd) as [s1 E1].
    2:{ rewrite E1. eauto. }
    intros nm nw ow c Hin. apply combine_in4 in Hin. destruct Hin as [H1 H2]. split; [|apply Doc; exact H1].
    apply (proj1 (Forall_forall _ _) Fv) in H2. destruct H2 as [H2 H3].
    unfold fill. rewrite H2, H3, A1. cbn [fst]. rewrite A2. assert (El : length (if sa_all a then seq 0 n else seq 0 n) = n) by (destruct (sa_all a); apply seq_length).
    rewrite El, Nat.eqb_refl. simpl. eauto. }
  destruct M as [s1 M]. unfold make_step. rewrite M. fold (sim_names p a).
  destruct (sa_write a) eqn:W; [|eauto]. rewrite Ln, Nat.eqb_refl. simpl.
  assert (S1 : snd s1 = f).
  { destruct (make_split _ _ _ _ _ M eq_refl) as (nm & vals' & _ & _ & _ & Lp).
    pose proof (make_loop_file p (if m_all (snap_args a) then seq 0 (h_n (fst (h, f))) else h_act (fst (h, f)))
      (combine (combine (combine (p_names p) nm) (map (fun k => smem k (h_all (fst (h,f)))) nm)) vals') (h, f)) as F.
    rewrite Lp in F. exact F. }
  assert (Gd : (if k =? 0 then make_guard (sa_ow a) (sim_names p a) (snd s1) else Ok tt) = Ok tt).
  { destruct (Nat.eqb_spec k 0) as [Hk|]; [|reflexivity]. rewrite Ow, S1. apply guard_ok. exact (Hg Hk). }
  rewrite Gd. rewrite Ow.
  pose proof (reach_hdo nanint n _ _ R0 (snap_args_ok p a Hok)) as R1. cbn [hdo] in R1. rewrite M in R1. simpl in R1.
  edestruct (write_ok n nanint (sa_dtype a) (sim_names p a)) as [s2 E2].
  { apply Hok. }
  { unfold sim_names. destruct Hok as (_ & X & Y). destruct (sa_rename a); [apply Y; reflexivity|exact X]. }
  { apply (reachable_inv n), (reach_reachable nanint). exact R1. }
  { intros q Hq. destruct (make_loaded_float n nanint p (snap_args a) (h, f) s1 q (reach_reachable _ _ _ R0) M eq_refl ND Hq) as (c & C1 & _ & C3 & _). eauto. }
  rewrite E2. destruct (unload_property (sim_names p a) s2) as [s3 r] eqn:E3.
  pose proof (proj2 (unload_file (sim_names p a) s2)) as U. rewrite E3 in U. simpl in U. subst r. eauto.
Qed.

Lemma c66_rerun_loop n nanint p a st0 : opened st0 -> good_sim n (snd st0) -> scall_ok (SMake p a) -> NoDup (sim_names p a) ->
  length (sim_names p a) = length (p_names p) -> sa_ow a = true -> documented p ->
  forall rows k st, same_sim st0 st -> sm_init (fst st) = false -> NoDup (map fst rows) -> incl rows (sf_meta (snd st0)) ->
  (forall i z, In (i, z) rows -> get_snap st i = get_snap st0 i /\ group_of (snd st) i = group_of (snd st0) i) ->
  (forall i z s, In (i, z) rows -> sees st0 i s -> computable p a (n i) s) ->
  (k = 0 -> forall r rest g q d, rows = r :: rest -> group_of (snd st0) (fst r) = Ok g -> In q (sim_names p a) -> dget (f_grp g) q = Some d -> s_user d = true) ->
  exists st', snaps_loop (make_step nanint p a) k rows st = (st', Ok tt).
Proof.
  intros O G Hok ND Ln Ow Doc. induction rows as [|[i z] rows IH]; intros k st SS I NDr Inc Same Comp Gd; [exists st; reflexivity|].
  assert (Hi : In (i, z) (sf_meta (snd st0))) by (apply Inc; left; reflexivity).
  destruct (sees_opened n st0 i z O G Hi) as (g & h & A1 & A2 & A3 & A4 & A5).
  destruct (Same i z (or_introl eq_refl)) as [S1 S2].
  simpl in NDr. inversion NDr as [|? ? N1 N2]; subst.
  destruct (make_step_ok (n i) nanint p a k g _ _ _ h A2 A4 Hok ND Ln Ow Doc (Comp i z (h, g) (or_introl eq_refl) A5)) as [s' E].
  { intros Hk q d Hq Hd. eapply (Gd Hk (i, z) rows g q d eq_refl); eauto. }
  simpl. unfold on_snap. destruct A5 as [B1 B2]. simpl in B1, B2. rewrite S1, B1, S2, B2, E. destruct s' as [h' g'].
  assert (Eo : on_snap i (make_step nanint p a k) st = (fst st, put_group (snd st) i g', Ok tt)).
  { unfold on_snap. rewrite S1, B1, S2, B2, E, I. reflexivity. }
  rewrite I. destruct (on_snap_frame _ _ _ _ _ Eo) as [F1 F2].
  apply IH.
  - eapply same_trans; eauto.
  - exact I.
  - exact N2.
  - intros x Hx. apply Inc. right; exact Hx.
  - intros j y Hj. assert (Hne : j <> i).
    { intros ->. apply N1. change i with (fst (i, y)). apply in_map. exact Hj. }
    destruct (F2 j Hne) as [-> ->]. apply (Same j y). right; exact Hj.
  - intros j y s Hj. apply (Comp j y s). right; exact Hj.
  - discriminate.
Qed.
Lemma c66_rerun n nanint p a st : opened st -> good_sim n (snd st) -> scall_ok (SMake p a) -> NoDup (sim_names p a) ->
  length (sim_names p a) = length (p_names p) -> sa_ow a = true -> sa_write a = true -> documented p ->
  (forall i z s, In (i, z) (sf_meta (snd st)) -> sees st i s -> computable p a (n i) s) ->
  (forall r rest g q d, sf_meta (snd st) = r :: rest -> group_of (snd st) (fst r) = Ok g -> In q (sim_names p a) ->
     dget (f_grp g) q = Some d -> s_user d = true) ->
  exists st', sim_make_property nanint p a st = (st', Ok tt).
Proof.
  intros O G Hok ND Ln Ow W Doc Comp Gd. unfold sim_make_property. rewrite W, andb_false_r.
  assert (Om : sm_meta (fst st) = sf_meta (snd st)) by apply O. rewrite Om.
  apply (c66_rerun_loop n nanint p a st O G Hok ND Ln Ow Doc); auto.
  - apply same_refl.
  - apply O.
  - apply G.
  - intros x Hx; exact Hx.
Qed.

(** ** Histories of an initialised simulation *)
Lemma sdo_h nanint st c : sf_h (snd (fst (sdo nanint st c))) = sf_h (snd st).
Proof.
  assert (SL : forall step k rows st, sf_h (snd (fst (snaps_loop step k rows st))) = sf_h (snd st)).
  { intros step k rows st0. destruct (snaps_loop step k rows st0) as [st' r] eqn:E.
    destruct (loop_frame step k rows _ _ _ E) as [F _]. unfold same_sim in F. simpl. tauto. }
  destruct c; cbn [sdo].
  - destruct st as [s f]. simpl. destruct (_ && _); [auto|]. destruct (init_loop _ _ _ _) as [d [[]|]]; simpl; auto.
  - destruct st; auto.
  - unfold sim_set_property_range. destruct (negb _); [auto|]. apply SL.
  - unfold sim_make_property. destruct (negb _ && _); [auto|]. apply SL.
  - apply SL.
  - destruct (on_snap snap _ st) as [st' r] eqn:E. apply on_snap_frame in E. destruct E as [F _]. unfold same_sim in F. simpl; tauto.
Qed.
Lemma sim_reach_meta n st : sim_reachable n st ->
  sm_init (fst st) = true /\ NoDup (map fst (sm_meta (fst st))) /\ sf_h (snd st) <> 0%Qc /\ sm_meta (fst st) = sf_meta (snd st).
Proof.
  intros R. destruct (sim_reach_inv n st R) as [ni [Hi _]].
  destruct R as (f & inh & s & st0 & nanint & cs & G & E & E0 & Hc & ->). split; [exact Hi|]. clear ni Hi.
  destruct (init_ok n f inh s G E) as (st & E1 & E2 & E3 & E4 & _). rewrite E1 in E0. injection E0 as ->.
  assert (I0 : NoDup (map fst (sm_meta (fst st0))) /\ sf_h (snd st0) <> 0%Qc /\ sm_meta (fst st0) = sf_meta (snd st0)).
  { rewrite E4, E3. split; [apply G|]. split; [apply G|reflexivity]. }
  clear -I0. unfold sdo_all. revert st0 I0. induction cs as [|c cs IH]; simpl; intros st0 I0; [exact I0|].
  apply IH. destruct (sdo_meta nanint st0 c) as [-> ->]. rewrite sdo_h. exact I0.
Qed.

Lemma c66_memory n nanint p a st st' :
  sim_reachable n st -> NoDup (sim_names p a) -> sa_write a = false ->
  sim_make_property nanint p a st = (st', Ok tt) ->
  forall i z, In (i, z) (sm_meta (fst st)) -> exists s s', sees st i s /\ sees st' i s' /\ snd s' = snd s /\
    let inds := if sa_all a then seq 0 (n i) else h_act (fst s) in
    (exists args vals, p_fun p args = Ok vals /\ length vals = length (sim_names p a) /\
      (forall key, arg_spec s (p_kwargs p) (sa_remap a) (sa_all a) (p_give_h p) (sa_kws a) key (dget args key)) /\
      (forall j name v, nth_error (sim_names p a) j = Some name -> nth_error vals j = Some v ->
         exists c, return_property s' name true (Some (p_ret_h p)) = Ok (Some c) /\
           (forall k i, nth_error inds k = Some i -> nth_error (c_val c) i = val_at v k) /\
           (forall k, k < n i -> ~ In k inds -> nth_error (c_val c) k = Some None))) /\
    (forall q ua b, ~ In q (sim_names p a) -> return_property s' q ua b = return_property s q ua b).
Proof.
  intros R ND W H i z Hi. destruct (sim_reach_meta n st R) as (M1 & M2 & M3 & M4).
  unfold sim_make_property in H. rewrite M1 in H. simpl in H.
  destruct (c65_handlers n st i z R Hi) as (s0 & T1 & T2).
  pose proof Hi as Hj. apply In_nth_error in Hj. destruct Hj as [m Hm].
  destruct (loop_ok (make_step nanint p a) (fh_make_step nanint p a) _ _ _ _ H M2 m (i, z) Hm) as (s & s' & S1 & S2 & S3 & S4).
  simpl in S1, S3, S4. assert (s = s0) by (eapply sees_fun; eauto). subst s0. specialize (S4 M1).
  unfold make_step in S2. rewrite W in S2.
  destruct (make_property nanint p (snap_args a) s) as [s1 [[]|e]] eqn:E; [|discriminate]. injection S2 as ->.
  assert (Hh : h_h (fst s) <> 0%Qc).
  { rewrite (i_h _ _ (reachable_inv _ _ T2)). destruct S1 as [_ S1]. unfold group_of in S1.
    destruct (zget _ i); [|discriminate]. injection S1 as S1. rewrite <- S1. exact M3. }
  destruct (c29 (n i) nanint p (snap_args a) s s' T2 Hh E eq_refl ND) as (args & vals & B1 & B2 & B3 & B4 & B5 & B6 & B7).
  exists s, s'. split; [exact S1|]. split; [split; assumption|]. split; [exact B7|]. cbv zeta. split; [|exact B5].
  exists args, vals. split; [exact B1|]. split; [exact B2|]. split; [exact B3|exact B4].
Qed.

(** ** delete_property *)
Lemma delete_guard_raise ps g q d : In q ps -> dget (f_grp g) q = Some d -> s_user d = false -> delete_guard ps g = Raise ValueError.
Proof.
  induction ps as [|x ps IH]; simpl; intros Hq Hd Hu; [tauto|].
  destruct Hq as [->|Hq]; [rewrite Hd, Hu; reflexivity|].
  destruct (dget (f_grp g) x) as [d'|]; [destruct (s_user d'); auto|auto].
Qed.
Lemma delete_guard_ok ps g q d : delete_guard ps g = Ok tt -> In q ps -> dget (f_grp g) q = Some d -> s_user d = true.
Proof.
  intros H Hq Hd. destruct (s_user d) eqn:Hu; [reflexivity|]. rewrite (delete_guard_raise ps g q d Hq Hd Hu) in H. discriminate.
Qed.
Lemma c67_delete ps st st' : NoDup (map fst (sm_meta (fst st))) -> sim_delete_property ps st = (st', Ok tt) ->
  forall i z, In (i, z) (sm_meta (fst st)) -> exists g g', group_of (snd st) i = Ok g /\ group_of (snd st') i = Ok g' /\
    f_h g' = f_h g /\ forall q, dget (f_grp g') q = if smem q ps then None else dget (f_grp g) q.
Proof.
  intros ND H i z Hi. apply In_nth_error in Hi. destruct Hi as [m Hm].
  destruct (loop_ok (delete_step ps) (fh_delete_step ps) _ _ _ _ H ND m (i, z) Hm) as (s & s' & [S0 S1] & S2 & S3 & _).
  simpl in S1, S3. unfold delete_step in S2. destruct (if 0 + m =? 0 then _ else _); [|discriminate].
  destruct (c30_delete ps s s' S2) as (C1 & C2 & _). exists (snd s), (snd s'). auto.
Qed.
(** a built-in property of the first snapshot: refused, nothing changed *)
Lemma c67_guard ps st i z rest g q d : sm_meta (fst st) = (i, z) :: rest ->
  (exists h, get_snap st i = Ok h) -> group_of (snd st) i = Ok g -> In q ps -> dget (f_grp g) q = Some d -> s_user d = false ->
  sim_delete_property ps st = (st, Raise ValueError).
Proof.
  intros Hm [h Hg] Eg Hq Hd Hu. unfold sim_delete_property. rewrite Hm. cbn [snaps_loop fst].
  destruct (on_snap i (delete_step ps 0) st) as [st' r] eqn:E.
  destruct (on_snap_cases i _ (fh_delete_step ps 0) _ _ _ E) as [(e & -> & -> & N)|(s & s' & S1 & S2 & S3 & S4 & S5 & S6)].
  - exfalso. apply N. exists (h, g). split; assumption.
  - assert (s = (h, g)) by (eapply sees_fun; [exact S1|split; assumption]). subst s.
    unfold delete_step in S2. simpl in S2. rewrite (delete_guard_raise ps g q d Hq Hd Hu) in S2. injection S2 as <- <-.
    rewrite (S6 eq_refl). reflexivity.
Qed.

(** ** set_property_range *)
Lemma c68_range n st st' p lo hi reset inh : sim_reachable n st ->
  sim_set_property_range (Some p) lo hi reset inh st = (st', Ok tt) ->
  snd st' = snd st /\
  forall i z, In (i, z) (sm_meta (fst st)) -> exists s s', sees st i s /\ sees st' i s' /\ reachable (n i) s /\
    ascending (h_act (fst s')) /\ h_nact (fst s') = length (h_act (fst s')) /\
    forall k, In k (h_act (fst s')) <->
      value_in s p (Some (match inh with Some b => b | None => sm_inh (fst st) end)) lo hi k /\ (reset = true \/ In k (h_act (fst s))).
Proof.
  intros R H. destruct (sim_reach_meta n st R) as (M1 & M2 & M3 & M4).
  unfold sim_set_property_range in H. rewrite M1 in H. simpl in H.
  set (b := match inh with Some b => b | None => sm_inh (fst st) end) in *.
  set (step := fun _ : nat => set_property_range (Some p) lo hi reset (Some b)) in *.
  assert (Hf : forall (k : nat) s, snd (fst (step k s)) = snd s) by (intros; apply range_file).
  assert (Hh : forall (k : nat) s, f_h (snd (fst (step k s))) = f_h (snd s)) by (intros; rewrite Hf; reflexivity).
  split.
  - clear -H Hf Hh. revert H. generalize (sm_meta (fst st)) as rows. intros rows. clearbody step. clear b.
    revert st. generalize 0 as k. induction rows as [|r rows IH]; simpl; intros k st0 H; [congruence|].
    destruct (on_snap (fst r) (step k) st0) as [st1 [[]|e]] eqn:E; [|discriminate].
    rewrite (IH _ _ H). clear IH H. unfold on_snap in E. destruct (get_snap st0 (fst r)); [|discriminate].
    destruct (group_of (snd st0) (fst r)) as [g|] eqn:Eg; [|discriminate].
    pose proof (Hf k (a, g)) as F. destruct (step k (a, g)) as [[h' g'] r']. simpl in F. subst g'.
    injection E as <- _. simpl. unfold put_group, group_of in *. destruct (zget _ _) eqn:Ez; [|discriminate]. injection Eg as <-.
    simpl. rewrite (zset_same _ _ _ Ez). destruct (snd st0); reflexivity.
  - intros i z Hi. destruct (c65_handlers n st i z R Hi) as (s0 & T1 & T2).
    apply In_nth_error in Hi. destruct Hi as [m Hm].
    destruct (loop_ok step Hh _ _ _ _ H M2 m (i, z) Hm) as (s & s' & S1 & S2 & S3 & S4).
    simpl in S1, S3, S4. assert (s = s0) by (eapply sees_fun; eauto). subst s0. specialize (S4 M1).
    exists s, s'. split; [exact S1|]. split; [split; assumption|]. split; [exact T2|].
    pose proof (hinv_range (n i) (Some p) lo hi reset (Some b) s (reachable_inv _ _ T2)) as HI. fold (step (0 + m) s) in HI.
    rewrite S2 in HI. simpl in HI. split; [exact (i_asc _ _ HI)|]. split; [exact (i_nact _ _ HI)|].
    intros k. pose proof (range_act s (HRange (Some p) lo hi reset (Some b)) 0%Qc k) as RA. cbn [hdo] in RA. fold (step (0 + m) s) in RA.
    rewrite S2 in RA. exact RA.
Qed.
Lemma c68_uninit p lo hi reset inh st : sm_init (fst st) = false ->
  sim_set_property_range p lo hi reset inh st = (st, Raise ValueError).
Proof. intros I. unfold sim_set_property_range. rewrite I. reflexivity. Qed.

(** ** snap_stat *)
Lemma c69_stat {V} st (stat : dict pyval -> exc V) kwargs remap kws inh ua snaps vals zs :
  snap_stat st stat kwargs remap kws inh ua snaps = Ok (vals, zs) ->
  let ps := match snaps with Some l => l | None => map Z.of_nat (seq 0 (length (sm_meta (fst st)))) end in
  length vals = length ps /\ length zs = length ps /\
  forall k pos, nth_error ps k = Some pos ->
    exists m i z s args v, nth_error (sm_meta (fst st)) m = Some (i, z) /\
      pos = (if (pos <? 0)%Z then Z.of_nat m - Z.of_nat (length (sm_meta (fst st))) else Z.of_nat m)%Z /\
      nth_error vals k = Some v /\ nth_error zs k = Some z /\ sees st i s /\ stat args = Ok v /\
      forall key, arg_spec s kwargs remap ua (match inh with Some b => b | None => sm_inh (fst st) end) kws key (dget args key).
Proof.
  unfold snap_stat. set (ps := match snaps with Some l => l | None => _ end).
  destruct (mapM _ ps) as [r|] eqn:E; simpl; [|discriminate]. intros [= <- <-].
  rewrite !map_length. pose proof (mapM_ok_length _ _ _ E) as L. split; [exact L|]. split; [exact L|].
  intros k pos Hk. destruct (mapM_ok_nth _ _ _ k pos E Hk) as (y & Y1 & Y2).
  unfold meta_at in Y2.
  set (N := Z.of_nat (length (sm_meta (fst st)))) in *.
  destruct ((if (pos <? 0)%Z then (pos + N)%Z else pos) <? 0)%Z eqn:Ej; [discriminate|].
  set (j := (if (pos <? 0)%Z then (pos + N)%Z else pos)) in *.
  destruct (nth_error (sm_meta (fst st)) (Z.to_nat j)) as [[i z]|] eqn:Em; [|discriminate]. cbn [bind fst snd] in Y2.
  destruct (get_snap st i) as [h|] eqn:Eg; [|discriminate]. cbn [bind] in Y2.
  destruct (group_of (snd st) i) as [g|] eqn:Er; [|discriminate]. cbn [bind] in Y2.
  destruct (eval_stat (h, g) _ _ _ _ _ _) as [v|] eqn:Ev; [|discriminate]. injection Y2 as <-.
  destruct (c32 _ _ _ _ _ _ _ _ Ev) as (args & A1 & A2).
  exists (Z.to_nat j), i, z, (h, g), args, v. split; [exact Em|]. split.
  { apply Z.ltb_ge in Ej. rewrite Z2Nat.id by exact Ej. subst j. destruct (pos <? 0)%Z; lia. }
  rewrite !nth_error_map, Y1. split; [reflexivity|]. split; [reflexivity|]. split; [split; assumption|]. split; [exact A1|exact A2].
Qed.

(** ** Units *)
Lemma c70_set nanint n st b i z : sim_reachable n st -> In (i, z) (sm_meta (fst st)) ->
  exists s, sees (fst (sdo nanint st (SSetH b))) i s /\ h_inh (fst s) = b.
Proof.
  intros R Hi. destruct (c65_handlers n st i z R Hi) as (s & [S1 S2] & _). destruct (sim_reach_meta n st R) as (M1 & _).
  exists (set_in_h_units (fst s) b, snd s). split.
  - split; [exact (set_h_get st b i (fst s) M1 S1)|]. destruct st; exact S2.
  - simpl. destruct (seth_frame (fst s) b) as [e ->]. reflexivity.
Qed.
Lemma c70_fresh n st i z s : opened st -> good_sim n (snd st) -> In (i, z) (sf_meta (snd st)) -> sees st i s -> h_inh (fst s) = false.
Proof.
  intros O G Hi S. destruct (sees_opened n st i z O G Hi) as (g & h & A1 & A2 & A3 & A4 & A5).
  rewrite (sees_fun _ _ _ _ S A5). simpl. apply (open_act _ _ _ _ _ _ A2 A4).
Qed.

(** ** number_volumes *)
Lemma c71 st v b : sm_box st <> 0%Qc -> sm_h st <> 0%Qc -> v <> 0%Qc ->
  let e := edge_in (sm_h st) (sm_box st) (match b with Some b => b | None => sm_inh st end) in
  (number_volumes st v b * (e * e * e / v) = 1)%Qc.
Proof.
  intros Hb Hh Hv. unfold number_volumes, edge_in. destruct (match b with Some b => b | None => sm_inh st end); cbv zeta; field; auto.
Qed.

(** ** extract_snap_keys *)
Lemma c72 nanint st c : extract_snap_keys (fst (fst (sdo nanint st c))) = extract_snap_keys (fst st).
Proof.
  assert (SL : forall step k rows st, sm_keys (fst (fst (snaps_loop step k rows st))) = sm_keys (fst st)).
  { intros step k rows st0. destruct (snaps_loop step k rows st0) as [st' r] eqn:E.
    destruct (loop_frame step k rows _ _ _ E) as [F _]. unfold same_sim in F. simpl. tauto. }
  unfold extract_snap_keys. destruct c; cbn [sdo].
  - destruct st as [s f]. simpl. destruct (_ && _); [auto|]. destruct (init_loop _ _ _ _) as [d [[]|]]; simpl; auto.
  - destruct st; auto.
  - unfold sim_set_property_range. destruct (negb _); [auto|]. apply SL.
  - unfold sim_make_property. destruct (negb _ && _); [auto|]. apply SL.
  - apply SL.
  - destruct (on_snap snap _ st) as [st' r] eqn:E. apply on_snap_frame in E. destruct E as [F _]. unfold same_sim in F. simpl; tauto.
Qed.
Lemma c71_right st v b : sm_box st <> 0%Qc -> sm_h st <> 0%Qc -> v <> 0%Qc ->
  let e := edge_in (sm_h st) (sm_box st) (match b with Some b => b | None => sm_inh st end) in
  (number_volumes st v b = e * e * e / v)%Qc <-> (v = e * e * e \/ v = - (e * e * e))%Qc.
Proof.
  intros Hb Hh Hv. cbv zeta. set (e := edge_in _ _ _).
  assert (He : (e * e * e <> 0)%Qc).
  { assert (e <> 0)%Qc. { unfold e, edge_in. destruct (match b with Some b => b | None => sm_inh st end); [exact Hb|].
      intros H. apply Hb. transitivity (sm_box st / sm_h st * sm_h st)%Qc; [field; exact Hh|rewrite H; ring]. }
    intros Z. repeat (apply Qcmult_integral in Z; destruct Z as [Z|Z]; [|tauto]). tauto. }
  assert (N : number_volumes st v b = (v / (e * e * e))%Qc).
  { unfold number_volumes, e, edge_in. destruct (match b with Some b => b | None => sm_inh st end); reflexivity. }
  rewrite N. set (w := (e * e * e)%Qc) in *. clearbody w. clear e N. split.
  - intros H. assert (K : (v * v = w * w)%Qc).
    { transitivity (v / w * v * w)%Qc; [field; exact He|]. rewrite H. field. exact Hv. }
    assert (P : ((v - w) * (v + w) = 0)%Qc) by (transitivity (v * v - w * w)%Qc; [ring|rewrite K; ring]).
    apply Qcmult_integral in P. destruct P as [P|P]; [left|right].
    + transitivity (v - w + w)%Qc; [ring|rewrite P; ring].
    + transitivity (v + w - w)%Qc; [ring|rewrite P; ring].
  - intros [->| ->]; field; auto. 
Qed.
Lemma c72_open f inh s : open_sim f false inh = Ok s ->
  exists i g r, sf_groups f = (i, g) :: r /\ forall q, In q (extract_snap_keys s) <-> q <> "mass_cuts" /\ dmem g q = true.
Proof.
  intros E. destruct (open_sim_fields _ _ _ _ E) as (_ & _ & _ & _ & _ & i & g & r & E1 & E2).
  exists i, g, r. split; [exact E1|]. intros q. unfold extract_snap_keys. rewrite E2. rewrite prop_keys_In. simpl.
  unfold dmem. rewrite smem_In. tauto.
Qed.
