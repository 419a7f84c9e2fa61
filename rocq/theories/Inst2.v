(** Mapping and stale maps: proofs (C49, C50). *)
From Verif Require Import Dict Util Rat Val Arr GridModel GridModel2 GridSpec GridSpec2 ConvSpec InstModel InstSpec Inst.
Open Scope string_scope.
Open Scope list_scope.

Section Map.
Context (sp : fn -> kw -> list Qc -> list Qc -> list Qc -> exc (arr Qc)) (sc : fn -> kw -> list Qc -> exc (arr Qc)).
Notation map_one := (map_one sp sc).
Notation map_loop := (map_loop sp sc).
Notation map_fields := (map_fields sp sc).
Notation istep := (istep sp sc).
Notation irun := (irun sp sc).

(** mapping only looks at the detectors and the best resolution *)
Section Ext.
Context (s s' : inst) (Ed : i_dets s' = i_dets s) (En : i_names s' = i_names s) (Eb : i_bres s' = i_bres s).
Lemma spat_ext d : spat_of s' d = spat_of s d.
Proof. unfold spat_of, det_at. rewrite Ed. auto. Qed.
Lemma spec_ext d : spec_of s' d = spec_of s d.
Proof. unfold spec_of, det_at. rewrite Ed. auto. Qed.
Lemma group_maps_ext conv ds : forall acc, group_maps sc s' conv ds acc = group_maps sc s conv ds acc.
Proof. induction ds as [|d ds IH]; intros acc; cbn; auto. unfold det_map. rewrite spec_ext. destruct (bind (spec_of s d) _); cbn; auto. Qed.
Lemma group_beam_ext f a g : group_beam sp s' f a g = group_beam sp s f a g.
Proof. unfold group_beam. destruct (m_beam a); auto. destruct g; auto. rewrite spat_ext, Eb. auto. Qed.
Lemma all_groups_ext f a gs : forall acc, all_groups sp sc s' f a gs acc = all_groups sp sc s f a gs acc.
Proof.
  induction gs as [|g gs IH]; intros acc; cbn; auto. rewrite group_beam_ext. destruct (group_beam sp s f a g); cbn; auto.
  destruct (grid_convolve_new _ _ _ _); cbn; auto. rewrite group_maps_ext. destruct (group_maps sc s _ g acc); cbn; auto.
Qed.
Lemma map_one_ext gs a f : map_one s' gs a f = map_one s gs a f.
Proof.
  unfold InstModel.map_one, stack_maps. rewrite all_groups_ext, En. auto.
Qed.
Lemma clones_key_ext {X} eqb (k k' : string -> exc X) n need : (forall d, k' d = k d) -> clones eqb k' n need = clones eqb k n need.
Proof.
  intros H. revert need. induction n as [|n IH]; intros need; cbn; auto. destruct need as [|d0 need]; auto.
  rewrite H. destruct (k d0); cbn [bind]; auto.
  rewrite (mapM_ext (fun d => do k1 <- k' d;; Ok (d, k1)) (fun d => do k1 <- k d;; Ok (d, k1))) by (intros d _; rewrite H; auto).
  destruct (mapM _ _); cbn [bind]; auto. rewrite IH. auto.
Qed.
Lemma map_groups_ext a : map_groups s' a = map_groups s a.
Proof. unfold map_groups, spatial_clones. rewrite En. destruct (m_beam a); auto. apply clones_key_ext, spat_ext. Qed.
End Ext.

(** the argument checks of map_fields *)
Definition args_ok (a : mapargs) (bres : option Qc) : Prop :=
  match m_beam a, m_ks a, bres with None, KsNone, None => False | Some _, KsNone, _ => True | Some _, _, _ => False | _, _, _ => True end.
(** the map of [f] is what mapping with arguments [a] gives now *)
Definition valid_for (s : inst) (f : string) (a : mapargs) : Prop :=
  args_ok a (i_bres s) /\ exists gs g m, map_groups s a = Ok gs /\ dget (i_fields s) f = Some g /\ map_one s gs a g = Ok m /\ dget (i_maps s) f = Some m.

Lemma valid_ext s s' f a : i_dets s' = i_dets s -> i_names s' = i_names s -> i_bres s' = i_bres s ->
  dget (i_fields s') f = dget (i_fields s) f -> dget (i_maps s') f = dget (i_maps s) f -> valid_for s f a -> valid_for s' f a.
Proof.
  intros Ed En Eb Ef Em [A (gs & g & m & H1 & H2 & H3 & H4)]. split; [congruence|]. exists gs, g, m.
  rewrite (map_groups_ext s s'), (map_one_ext s s') by auto. rewrite Ef, Em. auto.
Qed.
Lemma set_maps_same s : set_maps s (i_maps s) (i_cons s) = s.
Proof. destruct s. reflexivity. Qed.
Lemma valid_remap s f a : valid_for s f a -> dget (i_cons s) f = Some true -> map_fields [f] a s = (s, Ok tt).
Proof.
  intros [A (gs & g & m & H1 & H2 & H3 & H4)] C. unfold InstModel.map_fields. cbv zeta.
  assert (Ef : check_fields s [f] = Ok tt) by (unfold check_fields; cbn; rewrite dmem_get, H2; auto). rewrite Ef. cbn [bind].
  replace (match m_beam a, m_ks a, i_bres s with None, KsNone, None => false | _, _, _ => true end) with true.
  2:{ unfold args_ok in A. destruct (m_beam a), (m_ks a), (i_bres s); auto; destruct A. }
  replace (match m_beam a, m_ks a with Some _, KsNone => true | Some _, _ => false | _, _ => true end) with true.
  2:{ unfold args_ok in A. destruct (m_beam a), (m_ks a); auto; destruct A. }
  cbn [check bind]. rewrite H1. cbn [bind InstModel.map_loop]. unfold dfind. rewrite H2. cbn [bind]. rewrite H3.
  rewrite (dset_same _ _ _ H4), (dset_same _ _ _ C), set_maps_same. auto.
Qed.

(** ** the loop over the fields *)
Lemma loop_spec gs a fs : forall s s' r, map_loop gs a fs s = (s', r) ->
  i_dets s' = i_dets s /\ i_names s' = i_names s /\ i_count s' = i_count s /\ i_fields s' = i_fields s /\ i_fprops s' = i_fprops s /\ i_fnames s' = i_fnames s /\
  i_fcount s' = i_fcount s /\ i_bres s' = i_bres s /\ i_bspec s' = i_bspec s /\ same_defaults s s' /\
  (forall f, dget (i_cons s') f = dget (i_cons s) f /\ dget (i_maps s') f = dget (i_maps s) f \/
     In f fs /\ dget (i_cons s') f = Some true /\ exists g m, dget (i_fields s) f = Some g /\ map_one s gs a g = Ok m /\ dget (i_maps s') f = Some m) /\
  (r = Ok tt -> forall f, In f fs -> dget (i_cons s') f = Some true).
Proof.
  induction fs as [|f fs IH]; intros s s' r; cbn [InstModel.map_loop].
  - intros H; injection H as <- <-. repeat (split; [reflexivity|]). split; [repeat split|]. split; [auto|]. intros _ f [].
  - unfold dfind. destruct (dget (i_fields s) f) as [g|] eqn:Ef; cbn [bind].
    2:{ intros H; injection H as <- <-. repeat (split; [reflexivity|]). split; [repeat split|]. split; [auto|]. discriminate. }
    destruct (map_one s gs a g) as [m|e] eqn:Em.
    2:{ intros H; injection H as <- <-. repeat (split; [reflexivity|]). split; [repeat split|]. split; [auto|]. discriminate. }
    intros H. destruct (IH _ _ _ H) as (E1 & E2 & E3 & E4 & E5 & E6 & E7 & E8 & E9 & E10 & K & R).
    set (s1 := set_maps s (dset (i_maps s) f m) (dset (i_cons s) f true)) in *.
    assert (M1 : forall gs a g, map_one s1 gs a g = map_one s gs a g) by (intros; apply map_one_ext; reflexivity).
    repeat (split; [assumption|]). split.
    + intros k. destruct (K k) as [[K1 K2]|(K1 & K2 & gk & mk & K3 & K4 & K5)].
      * cbn in K1, K2. rewrite dget_dset in K1. rewrite dget_dset in K2. destruct (String.eqb_spec k f) as [Hk|Hk]; [|left; auto].
        rewrite Hk in *. right. split; [left; auto|]. split; auto. exists g, m. auto.
      * right. split; [right; auto|]. split; auto. exists gk, mk. rewrite M1 in K4. auto.
    + intros Hr k [->|Hk]; [|auto]. destruct (K k) as [[K1 K2]|(K1 & K2 & _)]; auto. rewrite K1. cbn. apply dget_dset_eq.
Qed.
Lemma map_fields_spec names a s s' r : map_fields names a s = (s', r) -> (exists e, r = Raise e /\ s' = s) \/
  args_ok a (i_bres s) /\ exists gs fs, map_groups s a = Ok gs /\ (names = [] /\ fs = i_fnames s \/ names <> [] /\ fs = names /\ NoDup names /\ forall f, In f names -> exists g, dget (i_fields s) f = Some g) /\
    map_loop gs a fs s = (s', r).
Proof.
  unfold InstModel.map_fields. cbv zeta.
  assert (Hsel : forall fs, match names with [] => Ok (i_fnames s) | _ => do _ <- check_fields s names ;; Ok names end = Ok fs ->
     (names = [] /\ fs = i_fnames s \/ names <> [] /\ fs = names /\ NoDup names /\ forall f, In f names -> exists g, dget (i_fields s) f = Some g)).
  { intros fs. destruct names as [|n names]; [intros H; injection H as <-; auto|]. remember (n :: names) as nn eqn:En.
    destruct (check_fields s nn) as [u|e] eqn:C; [|discriminate]. cbn [bind]. intros H; injection H as <-. right.
    apply check_fld_ok in C. split; [subst; discriminate|tauto]. }
  destruct (match names with [] => _ | _ => _ end) as [fs|e]; cbn [bind]; [|intros H; injection H as <- <-; left; eauto].
  specialize (Hsel _ eq_refl).
  destruct (match m_beam a, m_ks a, i_bres s with None, KsNone, None => false | _, _, _ => true end) eqn:C1; cbn [check bind];
    [|intros H; injection H as <- <-; left; eauto].
  destruct (match m_beam a, m_ks a with Some _, KsNone => true | Some _, _ => false | _, _ => true end) eqn:C2; cbn [check bind];
    [|intros H; injection H as <- <-; left; eauto].
  destruct (map_groups s a) as [gs|e] eqn:G; cbn [bind]; [|intros H; injection H as <- <-; left; eauto].
  intros H. right. split.
  - unfold args_ok. destruct (m_beam a), (m_ks a), (i_bres s); auto; discriminate.
  - exists gs, fs. auto.
Qed.
Lemma map_tables names a s : tables_ok s -> tables_ok (fst (map_fields names a s)).
Proof.
  intros T. destruct (map_fields names a s) as [s' r] eqn:E. cbn [fst].
  destruct (map_fields_spec _ _ _ _ _ E) as [(e & _ & ->)|(_ & gs & fs & _ & Hfs & L)]; auto.
  destruct (loop_spec _ _ _ _ _ _ L) as (E1 & E2 & E3 & E4 & E5 & E6 & E7 & E8 & E9 & E10 & K & R).
  assert (Hin : forall f, In f fs -> In f (i_fnames s)).
  { intros f Hf. destruct Hfs as [[_ ->]|(_ & -> & _ & H)]; auto. apply T. auto. }
  constructor.
  - rewrite E2. apply T.
  - rewrite E1, E2. apply T.
  - rewrite E6. apply T.
  - rewrite E4, E6. apply T.
  - rewrite E5, E6. apply T.
  - intros f m Hm. rewrite E6. destruct (K f) as [[_ K2]|(K1 & _)]; [apply (t_maps _ T f m); congruence|auto].
  - intros f. rewrite E6. intros Hf. destruct (K f) as [[-> _]|(K1 & -> & _)]; [apply T; auto|eauto].
  - intros f Hc. destruct (K f) as [[K1 K2]|(K1 & K2 & g & m & _ & _ & Hm)]; [|eauto]. rewrite K2. apply T. congruence.
Qed.

(** ** histories *)
Lemma step_tables o s : tables_ok s -> tables_ok (fst (istep o s)).
Proof.
  intros T. destruct o; cbn [InstModel.istep].
  - apply set_response_tables; auto.
  - destruct (add_detector a s) as [s' r] eqn:E. apply (add_step a s s' r T E).
  - apply del_tables; auto.
  - apply add_field_tables; auto.
  - destruct (del_fields names s) as [s' r] eqn:E. apply (del_fields_ok names s s' r T E).
  - apply map_tables; auto.
Qed.
Lemma run_app os o s : irun (os ++ [o]) s = fst (istep o (irun os s)).
Proof. unfold InstModel.irun. rewrite fold_left_app. auto. Qed.
Lemma run_ind (P : list iop -> inst -> Prop) s0 : P [] s0 -> (forall os o s, s = irun os s0 -> P os s -> P (os ++ [o]) (fst (istep o s))) -> forall os, P os (irun os s0).
Proof.
  intros H0 HS os. induction os as [|o os IH] using rev_ind; auto. rewrite run_app. apply HS; auto.
Qed.
Lemma run_tables os s0 : tables_ok s0 -> tables_ok (irun os s0).
Proof. intros T. apply (run_ind (fun _ => tables_ok)); auto. intros; apply step_tables; auto. Qed.

(** completeness of the detectors *)
Definition all_complete (s : inst) : Prop := forall d x, dget (i_dets s) d = Some x -> d <> "instrument" -> complete x.
Lemma set_resp_complete m r x : complete x -> complete (set_resp m r x).
Proof. intros (A & B & C & D). destruct m; repeat split; cbn; auto; discriminate. Qed.
Lemma step_complete o s : tables_ok s -> all_complete s -> all_complete (fst (istep o s)).
Proof.
  intros T A. destruct o; cbn [InstModel.istep].
  - destruct (set_response m names r k s) as [s' [[]|e]] eqn:E; cbn [fst].
    + destruct (set_response_ok m names r k s s' (t_names _ T) E) as (ds & f & kk & Nd & _ & _ & _ & _ & Hf & ->). cbn zeta.
      assert (G : forall s2, i_dets s2 = match f with Some f => fold_left (dalter (set_resp m (f, match kk with Some d => d | None => [] end))) ds (i_dets s) | None => i_dets s end -> all_complete s2).
      { intros s2 E2 d x. rewrite E2. destruct f as [f|]; [|apply A]. rewrite dget_dalters by auto. destruct (smem d ds); [|apply A].
        destruct (dget (i_dets s) d) as [y|] eqn:Ey; [|discriminate]. cbn. intros H Hi. injection H as <-. apply set_resp_complete. eapply A; eauto. }
      apply G. destruct (smem "instrument" names), f, ds; reflexivity.
    + apply set_response_raise in E. destruct E as [-> _]. auto.
  - destruct (add_detector a s) as [s' [[]|e]] eqn:E; cbn [fst].
    + destruct (add_any a s s' T E) as (Hn & En & Ed & _). intros d x Hd Hi.
      destruct (String.eqb_spec d (new_name a s)) as [->|H]; [|rewrite Ed in Hd by auto; eapply A; eauto].
      destruct (add_conv a s s' T Hi E) as (_ & off & x1 & y1 & z1 & Q1 & Q2 & Q3 & Q4).
      destruct (add_all a s off x1 y1 z1 T Hi Hn Q1 Q2 Q3 Q4) as (s2 & E2 & (_ & D2 & _)).
      assert (s2 = s') by congruence. subst s2. rewrite D2, dget_dset_eq in Hd. injection Hd as <-. repeat split; discriminate.
    + destruct (add_raise a s s' e T E) as [->|(_ & Ed & _)]; auto. intros d x. rewrite Ed. apply A.
  - destruct (del_detectors names s) as [s' [[]|e]] eqn:E; cbn [fst].
    + destruct (del_ok names s s' T E) as (_ & _ & _ & _ & Ed & _). intros d x. rewrite Ed. destruct (smem d names); [discriminate|apply A].
    + apply del_raise in E. destruct E as [-> _]. auto.
  - destruct (add_field g name idx in_place chk s) as [s' r] eqn:E. apply add_field_ok in E. cbn [fst].
    destruct E as [(e & _ & ->)|(_ & nm & g' & z & _ & _ & -> & _)]; auto.
  - destruct (del_fields names s) as [s' r] eqn:E. destruct (del_fields_ok names s s' r T E) as (_ & _ & Ed & _). cbn [fst]. intros d x. rewrite Ed. apply A.
  - destruct (map_fields names a s) as [s' r] eqn:E. cbn [fst]. destruct (map_fields_spec _ _ _ _ _ E) as [(e & _ & ->)|(_ & gs & fs & _ & _ & L)]; auto.
    destruct (loop_spec _ _ _ _ _ _ L) as (E1 & _). intros d x. rewrite E1. apply A.
Qed.
Lemma run_complete os s0 : tables_ok s0 -> all_complete s0 -> all_complete (irun os s0).
Proof.
  intros T A. apply (run_ind (fun os s => all_complete s)); auto. intros os' o s -> H. apply step_complete; auto. apply run_tables; auto.
Qed.

(** every valid map is what the last covering map_fields call would give now *)
Definition all_valid (os : list iop) (s : inst) : Prop := forall f, dget (i_cons s) f = Some true ->
  exists names a, In (OMap names a) os /\ (names = [] \/ In f names) /\ valid_for s f a.
Lemma det_step_valid s s' os o : det_step s s' -> tables_ok s -> all_valid os s -> all_valid (os ++ [o]) s'.
Proof.
  intros [Sf C] T V f Hf. destruct Sf as (A1 & A2 & A3 & A4 & A5 & A6 & _). destruct C as [(C1 & C2 & C3)|C].
  - rewrite C3 in Hf. destruct (V f Hf) as (names & a & H1 & H2 & H3). exists names, a. split; [apply in_or_app; auto|]. split; auto.
    apply (valid_ext s); congruence.
  - rewrite C in Hf. destruct (smem f (i_fnames s)) eqn:E; [discriminate|]. exfalso. apply smem_false in E. apply E.
    destruct (t_valid _ T f Hf) as [m Hm]. eapply t_maps; eauto.
Qed.
Lemma step_valid os o s : tables_ok s -> all_valid os s -> all_valid (os ++ [o]) (fst (istep o s)).
Proof.
  intros T V.
  assert (Same : all_valid (os ++ [o]) s).
  { intros f Hf. destruct (V f Hf) as (names & a & H1 & H2 & H3). exists names, a. split; [apply in_or_app; auto|auto]. }
  destruct o; cbn [InstModel.istep].
  - destruct (set_response m names r k s) as [s' [[]|e]] eqn:E; cbn [fst].
    + apply (det_step_valid s); auto. eapply set_response_step; eauto. apply T.
    + apply set_response_raise in E. destruct E as [-> _]. auto.
  - destruct (add_detector a s) as [s' r] eqn:E. apply (det_step_valid s); auto. eapply add_step; eauto.
  - destruct (del_detectors names s) as [s' [[]|e]] eqn:E; cbn [fst].
    + apply (det_step_valid s); auto. eapply del_ok; eauto.
    + apply del_raise in E. destruct E as [-> _]. auto.
  - destruct (add_field g name idx in_place chk s) as [s' r] eqn:E. apply add_field_ok in E. cbn [fst].
    destruct E as [(e & _ & ->)|(_ & nm & g' & z & _ & Hn & -> & _)]; auto. intros f. cbn [set_cons i_cons]. rewrite dget_dset.
    destruct (String.eqb_spec f nm) as [->|H]; [discriminate|]. intros Hf. destruct (Same f Hf) as (names & a & H1 & H2 & H3).
    exists names, a. split; auto. split; auto. apply (valid_ext s); auto. cbn. rewrite dget_dset. destruct (String.eqb_spec f nm); congruence.
  - destruct (del_fields names s) as [s' r] eqn:E. destruct (del_fields_ok names s s' r T E) as (_ & E1 & E2 & E3 & E4 & _). cbn [fst].
    intros f Hf. destruct (E4 f Hf) as (H1 & H2 & H3). destruct (Same f H1) as (ns & a & K1 & K2 & K3). exists ns, a. split; auto. split; auto.
    apply (valid_ext s); auto.
  - destruct (map_fields names a s) as [s' r] eqn:E. cbn [fst]. destruct (map_fields_spec _ _ _ _ _ E) as [(e & _ & ->)|(A & gs & fs & Hg & Hfs & L)]; auto.
    destruct (loop_spec _ _ _ _ _ _ L) as (E1 & E2 & E3 & E4 & E5 & E6 & E7 & E8 & E9 & E10 & K & R).
    intros f Hf. destruct (K f) as [[K1 K2]|(K1 & K2 & g & m & K3 & K4 & K5)].
    + rewrite K1 in Hf. destruct (Same f Hf) as (ns & a' & H1 & H2 & H3). exists ns, a'. split; auto. split; auto. apply (valid_ext s); congruence.
    + exists names, a. split; [apply in_or_app; right; left; auto|]. split; [destruct Hfs as [[-> _]|(_ & -> & _)]; auto|].
      split; [congruence|]. exists gs, g, m. rewrite (map_groups_ext s s'), (map_one_ext s s') by auto. rewrite E4. auto.
Qed.
Lemma run_valid os s0 : tables_ok s0 -> all_valid [] s0 -> all_valid os (irun os s0).
Proof.
  intros T A. apply (run_ind all_valid); auto. intros os' o s -> H. apply step_valid; auto. apply run_tables; auto.
Qed.
End Map.

(** new instruments *)
Lemma new_empty su pu fu br bs a1 k1 a2 k2 a3 k3 s : new_inst su pu fu br bs a1 k1 a2 k2 a3 k3 = Ok s ->
  i_dets s = [] /\ i_names s = [] /\ i_fields s = [] /\ i_fprops s = [] /\ i_fnames s = [] /\ i_cons s = [] /\ i_maps s = [] /\ i_count s = 0%nat /\ i_fcount s = 0%nat /\
  i_bres s = br /\ i_bspec s = bs /\ i_sunit s = su /\ i_punit s = pu /\ i_funit s = fu.
Proof.
  unfold new_inst. set (s0 := mkInst [] [] 0%nat [] [] [] 0%nat [] [] (None, None) (None, None) (None, None) br bs su pu fu). cbv zeta.
  set (P := fun s : inst => i_dets s = [] /\ i_names s = [] /\ i_fields s = [] /\ i_fprops s = [] /\ i_fnames s = [] /\ i_cons s = [] /\ i_maps s = [] /\ i_count s = 0%nat /\ i_fcount s = 0%nat /\
    i_bres s = br /\ i_bspec s = bs /\ i_sunit s = su /\ i_punit s = pu /\ i_funit s = fu).
  assert (P0 : P s0) by (repeat split). clearbody s0.
  assert (St : forall m r k t, P t -> P (fst (set_response m ["instrument"] r k t))).
  { intros m r k t Pt. destruct (set_response m ["instrument"] r k t) as [t' [[]|e]] eqn:E; cbn [fst].
    - unfold P in *. destruct Pt as (H1 & H2 & Pt). assert (N : NoDup (i_names t)) by (rewrite H2; constructor).
      destruct (set_response_ok m ["instrument"] r k t t' N E) as (ds & f & kk & Nd & Hds & Hin & _ & _ & _ & ->). cbn zeta.
      assert (ds = []) as ->.
      { destruct ds as [|d ds]; auto. exfalso. specialize (Hin d (or_introl eq_refl)). rewrite H2 in Hin. destruct Hin. }
      destruct f; cbn; auto.
    - apply set_response_raise in E. destruct E as [-> _]. auto. }
  assert (Th : P (fst (then_ (set_response Spatial ["instrument"] a1 k1) (then_ (set_response Spectral ["instrument"] a2 k2) (set_response Noise ["instrument"] a3 k3)) s0))).
  { unfold then_. pose proof (St Spatial a1 k1 s0 P0) as Q1. destruct (set_response Spatial _ _ _ s0) as [t1 [u|e]]; auto. cbn in Q1.
    pose proof (St Spectral a2 k2 t1 Q1) as Q2. destruct (set_response Spectral _ _ _ t1) as [t2 [u2|e]]; auto. }
  destruct (then_ _ _ s0) as [t [u|e]]; [|discriminate]. cbn in Th.
  destruct (check_unit known_spatial su); [|discriminate]. destruct (check_unit known_spectral pu); [|discriminate]. destruct (check_unit known_flux fu); [|discriminate].
  cbn. intros H; injection H as <-. exact Th.
Qed.
Lemma new_tables su pu fu br bs a1 k1 a2 k2 a3 k3 s : new_inst su pu fu br bs a1 k1 a2 k2 a3 k3 = Ok s -> tables_ok s /\ all_complete s /\ forall sp sc, all_valid sp sc [] s.
Proof.
  intros E. destruct (new_empty _ _ _ _ _ _ _ _ _ _ _ _ E) as (E1 & E2 & E3 & E4 & E5 & E6 & E7 & _). split; [|split].
  - constructor; rewrite ?E1, ?E2, ?E3, ?E4, ?E5, ?E6, ?E7; try constructor; cbn; try discriminate; try (intros []); try (intros f; split; [intros []|intros [? ?]; discriminate]); try (intros []); try discriminate; tauto.
  - intros d x. rewrite E1. discriminate.
  - intros sp sc f. rewrite E6. discriminate.
Qed.
