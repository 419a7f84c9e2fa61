(** Simulation-wide calls: reachability of the snapshot handlers, make_property. *)
From Verif Require Import Dict Util Rat HandlerModel HandlerSpec Handler Handler2 Handler3 Handler4 SimModel SimSpec Sim.
Open Scope string_scope.
Open Scope list_scope.
Open Scope nat_scope.

(** ** Stored handlers *)
Definition reach (nanint : Qc) (n : nat) (s : HandlerModel.st) : Prop :=
  exists f box extra inh h0 cs,
    good_file n f /\ open_handler f box extra inh = Ok h0 /\ Forall call_ok cs /\ s = hdo_all nanint (h0, f) cs.
Lemma reach_reachable nanint n s : reach nanint n s -> reachable n s.
Proof. intros (f & b & e & i & h & cs & H). exists f, b, e, i, h, nanint, cs. exact H. Qed.
Lemma reach_hdo nanint n s c : reach nanint n s -> call_ok c -> reach nanint n (fst (hdo nanint s c)).
Proof.
  intros (f & b & e & i & h & cs & H1 & H2 & H3 & ->) Hc. exists f, b, e, i, h, (cs ++ [c]).
  split; [exact H1|]. split; [exact H2|]. split; [apply Forall_app; auto|].
  unfold hdo_all. rewrite fold_left_app. reflexivity.
Qed.
Lemma reach_open nanint n f box extra inh h : good_file n f -> open_handler f box extra inh = Ok h -> reach nanint n (h, f).
Proof. intros H1 H2. exists f, box, extra, inh, h, []. auto. Qed.

Lemma snap_args_ok p a : scall_ok (SMake p a) -> call_ok (HMake p (snap_args a)).
Proof. intros (_ & H2 & H3). simpl. split; [discriminate|]. auto. Qed.
Lemma reach_make_step nanint n p a k s : scall_ok (SMake p a) -> reach nanint n s -> reach nanint n (fst (make_step nanint p a k s)).
Proof.
  intros Ha H. unfold make_step.
  pose proof (reach_hdo nanint n s _ H (snap_args_ok p a Ha)) as H1. cbn [hdo] in H1.
  destruct (make_property _ _ _ s) as [s1 [[]|e]]; simpl in H1; [|exact H1].
  destruct (sa_write a); [|exact H1].
  destruct (negb _); [exact H1|].
  destruct (if k =? 0 then _ else _); [|exact H1].
  fold (sim_names p a).
  assert (Hw : call_ok (HWrite (sim_names p a) (sa_ow a) (sa_dtype a))) by (destruct Ha as (Ha & _); exact Ha).
  pose proof (reach_hdo nanint n s1 _ H1 Hw) as H2. cbn [hdo] in H2.
  destruct (write_property _ _ _ _ s1) as [s2 [[]|e]]; simpl in H2; [|exact H2].
  exact (reach_hdo nanint n s2 (HUnload (sim_names p a)) H2 I).
Qed.
Lemma reach_delete_step nanint n ps k s : reach nanint n s -> reach nanint n (fst (delete_step ps k s)).
Proof.
  intros H. unfold delete_step. destruct (if k =? 0 then _ else _); [|exact H].
  exact (reach_hdo nanint n s (HDelete ps) H I).
Qed.

Definition sinv (nanint : Qc) (n : Z -> nat) (st : sst) : Prop :=
  sm_init (fst st) = true /\
  forall i z, In (i, z) (sm_meta (fst st)) -> exists s, sees st i s /\ reach nanint (n i) s.

Lemma sinv_on_snap nanint n i op st : (forall s, f_h (snd (fst (op s))) = f_h (snd s)) ->
  (forall s, reach nanint (n i) s -> reach nanint (n i) (fst (op s))) ->
  sinv nanint n st -> sinv nanint n (fst (on_snap (A:=unit) i op st)).
Proof.
  intros Hh Ho [I H]. destruct (on_snap i op st) as [st' r] eqn:E. simpl.
  destruct (on_snap_frame i op _ _ _ E) as [F1 F2].
  pose proof (on_snap_cases i op Hh _ _ _ E) as C.
  destruct F1 as (_ & Em & _ & _ & _ & _ & Ei & _).
  split; [congruence|]. intros j z Hj. rewrite Em in Hj. destruct (H j z Hj) as (s & S1 & S2).
  destruct (Z.eq_dec j i) as [->|Hne].
  - destruct C as [(e & _ & -> & _)|(s0 & s' & T1 & T2 & T3 & T4 & _)]; [exists s; auto|].
    destruct S1 as [S1 S1'], T1 as [T1 T1']. assert (s0 = s) by (destruct s, s0; simpl in *; congruence). subst s0.
    exists s'. split; [split; auto|]. pose proof (Ho s S2) as R. rewrite T2 in R. exact R.
  - destruct (F2 j Hne) as [G1 G2]. exists s. destruct S1. split; [split; congruence|exact S2].
Qed.
Lemma sinv_loop nanint n step k rows st : (forall k s, f_h (snd (fst (step k s))) = f_h (snd s)) ->
  (forall k m s, reach nanint m s -> reach nanint m (fst (step k s))) ->
  sinv nanint n st -> sinv nanint n (fst (snaps_loop step k rows st)).
Proof.
  intros Hh Ho. revert k st. induction rows as [|r rows IH]; simpl; intros k st H; [exact H|].
  pose proof (sinv_on_snap nanint n (fst r) (step k) st (Hh k) (Ho k (n (fst r))) H) as H1.
  destruct (on_snap (fst r) (step k) st) as [st1 [[]|e]]; simpl in H1; [|exact H1]. apply IH; exact H1.
Qed.
Lemma set_h_get st b i h : sm_init (fst st) = true -> get_snap st i = Ok h ->
  get_snap (sim_set_in_h_units b st) i = Ok (set_in_h_units h b).
Proof.
  destruct st as [s f]. simpl. intros I. unfold extract_snap_meta; simpl.
  destruct (find _ _) as [m|]; simpl; [|discriminate]. rewrite !I, (zget_map (fun x => set_in_h_units x b)).
  destruct (zget (sm_snaps s) (fst m)); simpl; [|discriminate]. intros [= ->]. reflexivity.
Qed.
Lemma sinv_sdo nanint n st c : scall_ok c -> sinv nanint n st -> sinv nanint n (fst (sdo nanint st c)).
Proof.
  intros Hc H. destruct c; cbn [sdo].
  - simpl in Hc; subst. destruct st as [s f]. destruct H as [I H]. simpl in *. rewrite I. simpl. split; auto.
  - destruct H as [I H]. split; [destruct st; exact I|]. intros i z Hi.
    assert (Hi' : In (i, z) (sm_meta (fst st))) by (destruct st; exact Hi).
    destruct (H i z Hi') as (s & [S1 S2] & S3). exists (set_in_h_units (fst s) b, snd s).
    split; [|exact (reach_hdo nanint (n i) s (HSetH b) S3 Logic.I)].
    split; [apply set_h_get; auto|]. destruct st; exact S2.
  - unfold sim_set_property_range. destruct (negb _); [exact H|].
    apply sinv_loop; [intros; rewrite range_file; reflexivity| |exact H].
    intros k m s Hs. exact (reach_hdo nanint m s (HRange p lo hi reset (Some _)) Hs Logic.I).
  - unfold sim_make_property. destruct (negb _ && _); [exact H|].
    apply sinv_loop; [intros; apply fh_make_step| |exact H]. intros k m s Hs. apply reach_make_step; auto.
  - unfold sim_delete_property.
    apply sinv_loop; [intros; apply fh_delete_step| |exact H]. intros k m s Hs. apply reach_delete_step; auto.
  - apply sinv_on_snap; [intros; apply fh_hdo| |exact H]. intros s Hs. apply reach_hdo; auto.
Qed.

Lemma init_loop_ok s f : forall rows d,
  NoDup (map fst rows) ->
  (forall i z, In (i, z) rows -> exists h, open_snap s f i z (sm_inh s) = Ok h) ->
  exists d', init_loop s f rows d = (d', Ok tt) /\
    (forall i z, In (i, z) rows -> exists h, open_snap s f i z (sm_inh s) = Ok h /\ zget d' i = Some h) /\
    forall i, ~ In i (map fst rows) -> zget d' i = zget d i.
Proof.
  induction rows as [|[i z] rows IH]; simpl; intros d ND H; [exists d; repeat split; auto; tauto|].
  inversion ND; subst. destruct (H i z) as [h Eh]; [auto|]. rewrite Eh.
  destruct (IH (zset d i h)) as (d' & E1 & E2 & E3); [assumption|intros; apply H; auto|].
  exists d'. split; [exact E1|]. split.
  - intros j y [[= <- <-]|Hj]; [|apply E2; exact Hj].
    exists h. split; [exact Eh|]. rewrite E3 by assumption. rewrite zget_set, Z.eqb_refl. reflexivity.
  - intros j Hj. rewrite E3 by tauto. rewrite zget_set. destruct (Z.eqb_spec j i); [subst; tauto|reflexivity].
Qed.
Lemma open_sim_fields f init inh s : open_sim f init inh = Ok s ->
  init = false /\ sm_inh s = inh /\ sm_snaps s = [] /\ opened (s, f) /\ sm_edge s = edge_in (sf_h f) (sf_box f) inh /\
  exists i g r, sf_groups f = (i, g) :: r /\ sm_keys s = prop_keys (mkFile (sf_h f) g).
Proof.
  unfold open_sim. destruct (sf_meta f) as [|m0 ms] eqn:Em; [discriminate|].
  destruct (sf_groups f) as [|[i g] r] eqn:Eg; [discriminate|].
  destruct (mapM _ _); simpl; [|discriminate]. destruct (mapM _ _); simpl; [|discriminate].
  destruct init; [discriminate|]. intros [= <-]. unfold opened; simpl. rewrite Em. repeat split; eauto 10.
Qed.
Lemma open_snap_good n st i z b : opened st -> good_sim n (snd st) -> In (i, z) (sf_meta (snd st)) ->
  exists g h, group_of (snd st) i = Ok g /\ good_file (n i) g /\ open_snap (fst st) (snd st) i z b = Ok h.
Proof.
  intros O (G1 & G2 & G3) Hi. destruct (G3 i z Hi) as (g & E1 & E2). exists g.
  unfold open_snap. rewrite E1. simpl. edestruct open_good as [h Eh]; [exact E2|]. exists h. eauto.
Qed.

Lemma init_ok n f inh s : good_sim n f -> open_sim f false inh = Ok s ->
  exists st0, initialize_all_snaps false (s, f) = (st0, Ok tt) /\ sm_init (fst st0) = true /\ snd st0 = f /\
    sm_meta (fst st0) = sf_meta f /\
    forall i z, In (i, z) (sf_meta f) -> exists h g, get_snap st0 i = Ok h /\ group_of f i = Ok g /\ good_file (n i) g /\
      open_snap s f i z inh = Ok h.
Proof.
  intros G E. destruct (open_sim_fields _ _ _ _ E) as (_ & E1 & E2 & O & _).
  pose proof O as (O1 & O2 & O3 & O4). simpl in *.
  assert (HO : forall i z, In (i, z) (sm_meta s) -> exists h, open_snap s f i z (sm_inh s) = Ok h).
  { intros i z Hi. rewrite O2 in Hi. destruct (open_snap_good n (s, f) i z (sm_inh s) O G Hi) as (g & h & _ & _ & Eh). eauto. }
  destruct (init_loop_ok s f (sm_meta s) []) as (d & D1 & D2 & D3); [rewrite O2; apply G|exact HO|].
  rewrite O1, D1. simpl. eexists. split; [reflexivity|]. simpl. repeat split; auto.
  intros i z Hi. rewrite <- O2 in Hi. destruct (D2 i z Hi) as (h & H1 & H2).
  rewrite (find_meta_nodup (with_snaps s true d) i z); [|simpl; rewrite O2; apply G|exact Hi]. simpl. rewrite H2.
  rewrite O2 in Hi. destruct (open_snap_good n (s, f) i z inh O G Hi) as (g & h' & H3 & H4 & H5).
  exists h, g. rewrite <- E1. auto.
Qed.
Lemma sinv_init nanint n f inh s st0 : good_sim n f -> open_sim f false inh = Ok s ->
  initialize_all_snaps false (s, f) = (st0, Ok tt) -> sinv nanint n st0.
Proof.
  intros G E E0. destruct (init_ok n f inh s G E) as (st & E1 & E2 & E3 & E4 & E5).
  rewrite E1 in E0. injection E0 as ->. split; [exact E2|]. intros i z Hi. rewrite E4 in Hi.
  destruct (E5 i z Hi) as (h & g & A & B & C & D). exists (h, g). split; [split; [exact A|rewrite E3; exact B]|].
  unfold open_snap in D. rewrite B in D. simpl in D. eapply reach_open; eauto.
Qed.
Lemma sim_reach_inv n st : sim_reachable n st -> exists nanint, sinv nanint n st.
Proof.
  intros (f & inh & s & st0 & nanint & cs & G & E & E0 & Hc & ->). exists nanint.
  pose proof (sinv_init nanint n f inh s st0 G E E0) as H. clear -Hc H. unfold sdo_all. revert st0 H.
  induction cs as [|c cs IH]; simpl; intros st0 H; [exact H|].
  inversion Hc; subst. apply IH; [assumption|]. apply sinv_sdo; assumption.
Qed.
Lemma c65_handlers n st i z : sim_reachable n st -> In (i, z) (sm_meta (fst st)) ->
  exists s, sees st i s /\ reachable (n i) s.
Proof.
  intros H Hi. destruct (sim_reach_inv n st H) as [nanint [_ S]].
  destruct (S i z Hi) as (s & S1 & S2). exists s. split; [exact S1|]. eapply reach_reachable; eauto.
Qed.

(** the history leaves the metadata alone *)
Lemma sdo_meta nanint st c : sm_meta (fst (fst (sdo nanint st c))) = sm_meta (fst st) /\
  sf_meta (snd (fst (sdo nanint st c))) = sf_meta (snd st).
Proof.
  assert (SL : forall step k rows st, (forall k s, f_h (snd (fst (step k s))) = f_h (snd s)) ->
     sm_meta (fst (fst (snaps_loop step k rows st))) = sm_meta (fst st) /\ sf_meta (snd (fst (snaps_loop step k rows st))) = sf_meta (snd st)).
  { intros step k rows st0 Hh. destruct (snaps_loop step k rows st0) as [st' r] eqn:E.
    destruct (loop_frame step k rows _ _ _ E) as [F _]. unfold same_sim in F. simpl. tauto. }
  destruct c; cbn [sdo].
  - destruct st as [s f]. simpl. destruct (_ && _); [auto|]. destruct (init_loop _ _ _ _) as [d [[]|]]; simpl; auto.
  - destruct st; auto.
  - unfold sim_set_property_range. destruct (negb _); [auto|]. apply SL. intros; rewrite range_file; reflexivity.
  - unfold sim_make_property. destruct (negb _ && _); [auto|]. apply SL. intros; apply fh_make_step.
  - apply SL. intros; apply fh_delete_step.
  - destruct (on_snap snap _ st) as [st' r] eqn:E. apply on_snap_frame in E. destruct E as [F _]. unfold same_sim in F. simpl; tauto.
Qed.

(** ** Snapshots do not interfere *)
Lemma c65_independent nanint st i c j : j <> i ->
  get_snap (fst (sdo nanint st (SSnap i c))) j = get_snap st j /\
  group_of (snd (fst (sdo nanint st (SSnap i c)))) j = group_of (snd st) j.
Proof.
  intros Hj. cbn [sdo]. destruct (on_snap i _ st) as [st' r] eqn:E. apply on_snap_frame in E. apply E. exact Hj.
Qed.
