(** Grouping of detectors and the maps of the groups: proofs (C52). *)
From Coq Require Import Permutation.
From Verif Require Import Dict Util Rat Val Arr GridModel GridModel2 GridSpec GridSpec2 ConvSpec InstModel InstSpec Inst Inst2.
Open Scope string_scope.
Open Scope list_scope.

Lemma mapM_pair {X} (key : string -> exc X) l : forall ks, mapM (fun d => do k <- key d ;; Ok (d, k)) l = Ok ks -> map fst ks = l /\ forall d k, In (d, k) ks -> key d = Ok k.
Proof.
  induction l as [|d l IH]; cbn; intros ks H.
  - injection H as <-. split; auto. intros d k [].
  - destruct (key d) as [k|e] eqn:E; cbn in H; [|discriminate]. destruct (mapM _ l) as [r|e]; cbn in H; [|discriminate]. injection H as <-.
    destruct (IH r eq_refl) as [A B]. cbn. rewrite A. split; auto. intros d' k' [Hd|Hd]; [congruence|auto].
Qed.
Lemma map_fst_filter {X} (f : string * X -> bool) ks : forall d, In d (map fst (filter f ks)) <-> exists k, In (d, k) ks /\ f (d, k) = true.
Proof.
  intros d. rewrite in_map_iff. split.
  - intros ([d' k] & <- & H). apply filter_In in H. exists k. auto.
  - intros (k & H1 & H2). exists (d, k). split; auto. apply filter_In. auto.
Qed.
Lemma NoDup_fst_filter {X} (f : string * X -> bool) ks : NoDup (map fst ks) -> NoDup (map fst (filter f ks)).
Proof.
  induction ks as [|[d k] ks IH]; cbn; auto. intros N. inversion N; subst. destruct (f (d, k)); cbn; auto. constructor; auto.
  intros H. apply map_fst_filter in H. destruct H as (k' & H & _). apply H1. apply in_map_iff. exists (d, k'). auto.
Qed.

Section Clones.
Context {X : Type} (eqb : X -> X -> bool) (Heq : forall a b, eqb a b = true <-> a = b) (key : string -> exc X).
Lemma clones_spec n : forall need gs, NoDup need -> (length need <= n)%nat -> clones eqb key n need = Ok gs ->
  NoDup (concat gs) /\ (forall d, In d (concat gs) <-> In d need) /\
  forall g, In g gs -> exists d0 r k, g = d0 :: r /\ key d0 = Ok k /\ forall d, In d need -> (In d g <-> key d = Ok k).
Proof.
  induction n as [|n IH]; intros need gs N L; cbn [clones].
  - destruct need as [|d need]; [|cbn in L; lia]. intros H; injection H as <-. cbn. split; [constructor|]. split; [tauto|]. intros g [].
  - destruct need as [|d0 need]. { intros H; injection H as <-. cbn. split; [constructor|]. split; [tauto|]. intros g []. }
    remember (d0 :: need) as nd eqn:End. destruct (key d0) as [k0|e] eqn:K0; cbn [bind]; [|discriminate].
    destruct (mapM _ nd) as [ks|e] eqn:Ks; cbn [bind]; [|discriminate]. destruct (mapM_pair key nd ks Ks) as [Kf Kv].
    cbv zeta. set (ms := map fst (filter (fun dk => eqb (snd dk) k0) ks)).
    destruct (clones eqb key n _) as [r|e] eqn:C; cbn [bind]; [|discriminate]. intros H; injection H as <-.
    assert (Hk : forall d, In d nd -> exists k, In (d, k) ks) by (intros d Hd; rewrite <- Kf in Hd; apply in_map_iff in Hd; destruct Hd as ([d' k] & <- & Hd); eauto).
    assert (Hm : forall d, In d ms <-> In d nd /\ key d = Ok k0).
    { intros d. unfold ms. rewrite map_fst_filter. split.
      - intros (k & H1 & H2). cbn in H2. apply Heq in H2. subst k. split; [|auto]. rewrite <- Kf. apply in_map_iff. exists (d, k0). auto.
      - intros [H1 H2]. destruct (Hk d H1) as [k Hk1]. pose proof (Kv _ _ Hk1). assert (k = k0) by congruence. subst k. exists k0. split; auto. cbn. apply Heq. auto. }
    assert (Hd0 : In d0 ms) by (apply Hm; split; [subst; left; auto|auto]).
    set (rest := filter (fun d => negb (smem d ms)) nd) in *.
    assert (Hr : forall d, In d rest <-> In d nd /\ ~ In d ms) by (intros d; unfold rest; rewrite filter_In, negb_true_iff, smem_false; tauto).
    destruct (IH rest r) as (A & B & G); auto.
    + apply NoDup_filter_; auto.
    + assert (length rest < length nd)%nat; [|lia]. unfold rest. rewrite End. cbn [filter]. replace (smem d0 ms) with true by (symmetry; apply smem_In; auto). cbn [negb length].
      pose proof (filter_length_le (fun d => negb (smem d ms)) need). lia.
    + cbn [concat]. split; [|split].
      * assert (Nm : NoDup ms) by (apply NoDup_fst_filter; rewrite Kf; auto).
        revert Nm. assert (Dj : forall d, In d ms -> ~ In d (concat r)) by (intros d Hd H; apply B, Hr in H; tauto). clear - A Dj. intros Nm.
        induction ms as [|d ms IHm]; auto. cbn. inversion Nm; subst. constructor.
        -- rewrite in_app_iff. intros [H|H]; [auto|]. apply (Dj d); auto. left; auto.
        -- apply IHm; auto. intros x Hx. apply Dj. right; auto.
      * intros d. rewrite in_app_iff, B, Hr. split; [intros [H|H]; [apply Hm in H; tauto|tauto]|]. intros H. destruct (in_dec string_dec d ms); tauto.
      * intros g [<-|Hg].
        -- destruct ms as [|d1 ms1] eqn:Ems; [destruct Hd0|]. exists d1, ms1, k0. split; auto. split; [apply Hm; left; auto|]. intros d Hd. rewrite Hm. tauto.
        -- destruct (G g Hg) as (d1 & r1 & k1 & -> & Hk1 & Hx). exists d1, r1, k1. split; auto. split; auto. intros d Hd.
           destruct (in_dec string_dec d ms) as [i|i].
           ++ split; intros Hy.
              ** assert (Hy2 : In d (concat r)) by (apply in_concat; eauto). apply B, Hr in Hy2. tauto.
              ** exfalso. assert (Hz : In d1 (concat r)) by (apply in_concat; exists (d1 :: r1); split; [auto|left; auto]). apply B, Hr in Hz. destruct Hz as [Hz1 Hz2].
                 apply Hz2, Hm. split; auto. apply Hm in i. destruct i as [_ i]. congruence.
           ++ apply Hx, Hr. auto.
Qed.
Lemma clones_ok n : forall need, (length need <= n)%nat -> (forall d, In d need -> exists k, key d = Ok k) -> exists gs, clones eqb key n need = Ok gs.
Proof.
  induction n as [|n IH]; intros need L Hk; cbn [clones]; eauto. destruct need as [|d0 need]; eauto.
  destruct (Hk d0 (or_introl eq_refl)) as [k0 K0]. rewrite K0. cbn [bind].
  destruct (mapM_all_ok (fun d => do k <- key d ;; Ok (d, k)) (d0 :: need)) as [ks Ks].
  { intros d Hd. destruct (Hk d Hd) as [k ->]. cbn. eauto. }
  rewrite Ks. cbn [bind]. cbv zeta. set (ms := map fst (filter (fun dk => eqb (snd dk) k0) ks)).
  destruct (mapM_pair key _ ks Ks) as [Kf Kv].
  assert (Hd0 : In d0 ms).
  { unfold ms. apply map_fst_filter. exists k0. split; [|cbn; apply Heq; auto].
    destruct ks as [|[d' k'] ks]; [discriminate|]. cbn in Kf. injection Kf as -> Kf. left. f_equal.
    pose proof (Kv d0 k' (or_introl eq_refl)). congruence. }
  destruct (IH (filter (fun d => negb (smem d ms)) (d0 :: need))) as [gs Gs].
  - cbn [filter]. replace (smem d0 ms) with true by (symmetry; apply smem_In; auto). cbn [negb].
    pose proof (filter_length_le (fun d => negb (smem d ms)) need). cbn [length] in L. lia.
  - intros d Hd. apply filter_In in Hd. apply Hk, Hd.
  - rewrite Gs. cbn. eauto.
Qed.
End Clones.

Lemma spat_eqb_spec a b : spat_eqb a b = true <-> a = b.
Proof.
  unfold spat_eqb. destruct a as [a1 a2], b as [b1 b2]. cbn [fst snd]. destruct (fn_dec a1 b1), (kw_dec a2 b2); cbn; split; intros; congruence.
Qed.
Lemma off_eqb_spec a b : off_eqb a b = true <-> a = b.
Proof.
  unfold off_eqb. destruct a as [a1 a2], b as [b1 b2]. cbn [fst snd]. rewrite andb_true_iff, !qeqb_eq. split; [intros [-> ->]; auto|]. intros H; injection H; auto.
Qed.

Section Map.
Context (sp : fn -> kw -> list Qc -> list Qc -> list Qc -> exc (arr Qc)) (sc : fn -> kw -> list Qc -> exc (arr Qc)).

Lemma group_maps_ok s conv ds : forall acc acc', group_maps sc s conv ds acc = Ok acc' ->
  exists ms, fst acc' = fst acc ++ ms /\ map fst ms = ds /\ (forall d m, In (d, m) ms -> det_map sc s conv d = Ok m) /\
    snd acc' = match rev ms with [] => snd acc | (_, m) :: _ => Some m end.
Proof.
  induction ds as [|d ds IH]; cbn [group_maps]; intros acc acc' H.
  - injection H as <-. exists []. rewrite app_nil_r. cbn. split; auto. split; auto. split; auto. intros d m [].
  - destruct (det_map sc s conv d) as [m|e] eqn:E; cbn [bind] in H; [|discriminate]. destruct (IH _ _ H) as (ms & A & B & C & D). cbn [fst snd] in *.
    exists ((d, m) :: ms). split; [rewrite A, <- app_assoc; auto|]. split; [cbn; congruence|]. split; [intros d' m' [Hd|Hd]; [congruence|auto]|].
    rewrite D. cbn [rev]. destruct (rev ms) as [|[d1 m1] l] eqn:R; auto.
Qed.
(** the beam a group of detectors is given is that of each of them *)
Definition beam_for (s : inst) (f : G) (a : mapargs) (d : string) : exc G :=
  match m_beam a with Some b => Ok b | None => do r <- spat_of s d ;; setup_beam sp (i_bres s) f r (m_norm a) (m_ks a) end.
Lemma all_groups_ok s f a gs : forall acc acc', all_groups sp sc s f a gs acc = Ok acc' ->
  (forall g, In g gs -> m_beam a = None -> exists d0 r k, g = d0 :: r /\ forall d, In d g -> spat_of s d = Ok k) ->
  exists ms, fst acc' = fst acc ++ ms /\ map fst ms = concat gs /\
    (forall d m, In (d, m) ms -> exists b conv, beam_for s f a d = Ok b /\ grid_convolve_new f b (Some [0%Z; 1%Z]) (m_pad a) = Ok conv /\ det_map sc s conv d = Ok m) /\
    snd acc' = match rev ms with [] => snd acc | (_, m) :: _ => Some m end.
Proof.
  induction gs as [|g gs IH]; cbn [all_groups]; intros acc acc' H Hg.
  - injection H as <-. exists []. rewrite app_nil_r. cbn. split; auto. split; auto. split; auto. intros d m [].
  - destruct (group_beam sp s f a g) as [b|e] eqn:Eb; cbn [bind] in H; [|discriminate].
    destruct (grid_convolve_new f b _ _) as [conv|e] eqn:Ec; cbn [bind] in H; [|discriminate].
    destruct (group_maps sc s conv g acc) as [acc1|e] eqn:Em; cbn [bind] in H; [|discriminate].
    destruct (group_maps_ok _ _ _ _ _ Em) as (ms1 & A1 & B1 & C1 & D1).
    destruct (IH _ _ H) as (ms2 & A2 & B2 & C2 & D2). { intros g' Hg'. apply Hg. right; auto. }
    exists (ms1 ++ ms2). split; [rewrite A2, A1, app_assoc; auto|]. split; [rewrite map_app; cbn; congruence|]. split.
    + intros d m Hd. apply in_app_iff in Hd. destruct Hd as [Hd|Hd]; [|auto]. exists b, conv. split; [|auto].
      unfold beam_for. unfold group_beam in Eb. destruct (m_beam a) as [b0|] eqn:Ma; auto.
      destruct (Hg g (or_introl eq_refl) eq_refl) as (d0 & r & k & -> & Hk).
      rewrite (Hk d0 (or_introl eq_refl)) in Eb. rewrite Hk; auto. rewrite <- B1. apply in_map_iff. exists (d, m). auto.
    + rewrite D2, rev_app_distr. destruct (rev ms2) as [|[d2 m2] l2]; auto.
Qed.

Lemma dget_unique {X} (ms : dict X) d m : NoDup (map fst ms) -> In (d, m) ms -> dget ms d = Some m.
Proof.
  induction ms as [|[k v] ms IH]; intros N H; [destruct H|]. cbn in N. inversion N; subst. cbn [dget]. destruct (String.eqb_spec d k) as [->|Hk].
  - destruct H as [H|H]; [congruence|]. exfalso. apply H2. apply in_map_iff. exists (k, m). auto.
  - apply IH; auto. destruct H as [H|H]; [congruence|auto].
Qed.

(** what map_one does: one layer per detector, each made with the detector's own beam *)
Lemma map_one_layers s gs a f m : tables_ok s -> map_groups s a = Ok gs -> map_one sp sc s gs a f = Ok m ->
  exists ms d m0, map fst ms = i_names s /\
    (forall d m, In (d, m) ms -> exists b conv, beam_for s f a d = Ok b /\ grid_convolve_new f b (Some [0%Z; 1%Z]) (m_pad a) = Ok conv /\ det_map sc s conv d = Ok m) /\
    (exists d0, In (d0, m0) ms) /\ m = with_nprop (with_data m0 (Some (d : arr QcAlg))) (length (i_names s)) /\ stack_maps s ms = Ok d.
Proof.
  intros T Hg. unfold map_one. destruct (all_groups sp sc s f a gs ([], None)) as [acc|e] eqn:Ea; cbn [bind]; [|discriminate].
  destruct (stack_maps s (fst acc)) as [d|e] eqn:Es; cbn [bind]; [|discriminate].
  assert (Part : NoDup (concat gs) /\ (forall d, In d (concat gs) <-> In d (i_names s)) /\
                 (forall g, In g gs -> m_beam a = None -> exists d0 r k, g = d0 :: r /\ forall d, In d g -> spat_of s d = Ok k)).
  { unfold map_groups in Hg. destruct (m_beam a) as [b|] eqn:Eb.
    - injection Hg as <-. cbn. rewrite app_nil_r. split; [apply T|]. split; [tauto|]. discriminate.
    - unfold spatial_clones in Hg. apply (clones_spec spat_eqb spat_eqb_spec (spat_of s)) in Hg; [|apply T|lia].
      destruct Hg as (A & B & C). split; auto. split; auto. intros g Hgg _. destruct (C g Hgg) as (d0 & r & k & -> & K & H).
      exists d0, r, k. split; auto. intros d1 Hd. apply H; auto. apply B. apply in_concat. exists (d0 :: r). auto. }
  destruct Part as (N & P & K). destruct (all_groups_ok _ _ _ _ _ _ Ea K) as (ms & A & B & C & D). cbn [fst snd app] in A, D. rewrite A in Es.
  assert (Hn : NoDup (map fst ms)) by congruence.
  assert (Hx : exists ms', map fst ms' = i_names s /\ forall d m, In (d, m) ms' <-> In (d, m) ms).
  { exists (flat_map (fun d => match dget ms d with Some m => [(d, m)] | None => [] end) (i_names s)). split.
    - assert (Hall : forall d, In d (i_names s) -> exists m, dget ms d = Some m).
      { intros d1 Hd1. apply P in Hd1. rewrite <- B in Hd1. apply dget_dkeys. auto. }
      clear - Hall. induction (i_names s) as [|d l IH]; auto. cbn. destruct (Hall d (or_introl eq_refl)) as [m1 ->]. cbn. f_equal. apply IH. intros; apply Hall; right; auto.
    - intros d1 m1. rewrite in_flat_map. split.
      + intros (d2 & H1 & H2). destruct (dget ms d2) as [m2|] eqn:E2; [|destruct H2]. destruct H2 as [H2|[]]. injection H2 as -> ->. apply dget_In; auto.
      + intros H. exists d1. split; [apply P; rewrite <- B; apply in_map_iff; exists (d1, m1); auto|]. rewrite (dget_unique ms d1 m1); auto. left; auto. }
  destruct Hx as (ms' & M1 & M2). destruct (snd acc) as [m0|] eqn:E0; [|discriminate]. intros H; injection H as <-.
  exists ms', d, m0. split; auto. split; [intros d1 m1 Hd; apply M2 in Hd; auto|]. split; [|split; auto].
  - destruct (rev ms) as [|[d1 m1] l] eqn:R; [discriminate|]. injection D as ->. exists d1. apply M2. apply in_rev. rewrite R. left; auto.
  - unfold stack_maps in *. rewrite (mapM_ext _ (fun d0 => match dget ms d0 with Some m => match g_data m with Some x => Ok x | None => Raise ValueError end | None => Raise ValueError end)); auto.
    intros d1 Hd1. assert (dget ms' d1 = dget ms d1) as ->; auto. rewrite <- M1 in Hd1. apply in_map_iff in Hd1. destruct Hd1 as ([d2 m2] & <- & H2). cbn [fst].
    rewrite (dget_unique ms' d2 m2); auto; [|rewrite M1; apply T]. symmetry. apply dget_unique; auto. apply M2; auto.
Qed.
End Map.
