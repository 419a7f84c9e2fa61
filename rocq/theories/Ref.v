(** Proofs behind RefProps.v *)
From Verif Require Import Dict Util Rat Val Arr GridModel GridModel2 InstModel InstSpec Inst Inst2 Inst9 RefModel.
Open Scope string_scope.
Open Scope list_scope.

Section Ref.
Context {F : Type} (peak : option (fn * kw) -> F).
Context (sp : fn -> kw -> list Qc -> list Qc -> list Qc -> exc (arr Qc)) (sc : fn -> kw -> list Qc -> exc (arr Qc)).
Notation rstep := (rstep peak sp sc).
Notation rrun := (rrun peak sp sc).

Lemma map_dets names a s s' r : map_fields sp sc names a s = (s', r) -> i_dets s' = i_dets s /\ i_names s' = i_names s.
Proof.
  intros E. destruct (map_fields_spec _ _ _ _ _ _ _ E) as [(e & _ & ->)|(_ & gs & fs & _ & _ & L)]; auto.
  destruct (loop_spec _ _ _ _ _ _ _ _ L) as (E1 & E2 & _). auto.
Qed.
Lemma rstep_inst o s : fst (fst (rstep o s)) = fst (istep sp sc (match o with RAdd a _ => OAddDet a | ROther o => o end) (fst s)).
Proof.
  destruct o as [a n|[]]; cbn; unfold radd; try (destruct (add_detector _ _) as [? []]; reflexivity); try (destruct (del_detectors _ _) as [? []]; reflexivity);
  match goal with |- context [let (_, _) := ?x in _] => destruct x; reflexivity end.
Qed.
Lemma rstep_tables o s : tables_ok (fst s) -> tables_ok (fst (fst (rstep o s))).
Proof. intros T. rewrite rstep_inst. apply step_tables; auto. Qed.
Lemma rrun_app os o s : rrun (os ++ [o]) s = fst (rstep o (rrun os s)).
Proof. unfold RefModel.rrun. rewrite fold_left_app. auto. Qed.
Lemma rrun_tables os s : tables_ok (fst s) -> tables_ok (fst (rrun os s)).
Proof. intros T. induction os as [|o os IH] using rev_ind; auto. rewrite rrun_app. apply rstep_tables; auto. Qed.

(** a detector there before and after a call *)
Lemma step_kept o s d x x' : tables_ok (fst s) -> dget (i_dets (fst s)) d = Some x -> dget (i_dets (fst (fst (rstep o s)))) d = Some x' ->
  dget (snd (fst (rstep o s))) d = dget (snd s) d.
Proof.
  intros T Hx. assert (A : forall a n, dget (snd (fst (radd peak a n s))) d = dget (snd s) d).
  { intros a n. unfold radd. fold (new_name a (fst s)). destruct (add_detector a (fst s)) as [i [[]|e]] eqn:E; cbn [fst snd]; [|reflexivity].
    destruct (add_any _ _ _ T E) as (Hn & _). rewrite dget_dset. destruct (String.eqb_spec d (new_name a (fst s))) as [->|Hd]; [|reflexivity].
    destruct Hn. apply (t_dets _ T). eauto. }
  destruct o as [a n|[m names r k|a|names|g name idx ip chk|names|names a]]; cbn [RefModel.rstep]; intros Hx'; try apply A.
  - destruct (istep _ _ _ _); reflexivity.
  - destruct (del_detectors names (fst s)) as [i [[]|e]] eqn:E; cbn [fst snd] in *; [|reflexivity].
    destruct (c49_del names (fst s) T) as (D & _). destruct (D _ E) as (_ & _ & D3 & _). rewrite D3 in Hx'. rewrite ddel_all.
    destruct (smem d names); [discriminate|reflexivity].
  - destruct (istep _ _ _ _); reflexivity.
  - destruct (istep _ _ _ _); reflexivity.
  - destruct (istep _ _ _ _); reflexivity.
Qed.

Definition current (s : rstate (F := F)) : Prop := forall d x, dget (i_dets (fst s)) d = Some x -> dget (snd s) d = Some (peak (d_spec x)).

Lemma add_current a s : tables_ok (fst s) -> current s -> current (fst (radd peak a None s)).
Proof.
  intros T C. unfold radd. fold (new_name a (fst s)). destruct (add_detector a (fst s)) as [i [[]|e]] eqn:E; cbn [fst snd].
  - destruct (add_any _ _ _ T E) as (Hn & _ & Ho & _). intros d x Hx. cbn [fst snd] in *. rewrite dget_dset.
    destruct (String.eqb_spec d (new_name a (fst s))) as [->|Hd]; [rewrite Hx; reflexivity|]. rewrite Ho in Hx by auto. apply C; auto.
  - destruct (add_raise _ _ _ _ T E) as [->|(_ & Ed & _)]; [exact C|]. intros d x Hx. cbn [fst snd] in *. rewrite Ed in Hx. apply C; auto.
Qed.
Lemma set_current m names r k s s' res : tables_ok (fst s) -> m <> Spectral -> set_response m names r k (fst s) = (s', res) -> current s -> current (s', snd s).
Proof.
  intros T Hm E C d x' Hx'. cbn [fst snd] in *. destruct res as [[]|e].
  - destruct (c49_set m names r k (fst s) T) as (_ & S). destruct (S _ E) as (En & _ & Se).
    assert (T' : tables_ok s') by (pose proof (set_response_tables m names r k (fst s) T) as H; rewrite E in H; exact H).
    assert (Hi : In d (i_names (fst s))) by (rewrite <- En; apply (t_dets _ T'); eauto). apply (t_dets _ T) in Hi. destruct Hi as [x Hx].
    rewrite (C d x Hx). destruct (Se d x Hx) as (S1 & S2).
    assert (D : names_det names (fst s) d \/ ~ names_det names (fst s) d).
    { unfold names_det. destruct (in_dec string_dec d names), (string_dec d "instrument"), (in_dec string_dec d (i_names (fst s))), names; try tauto; right; intros [[]|[]]; congruence || tauto. }
    destruct D as [D|D].
    + destruct (S1 D) as (f & kk & _ & _ & x2 & H2 & _ & H4 & _). rewrite Hx' in H2. injection H2 as <-.
      specialize (H4 Spectral (not_eq_sym Hm)). cbn in H4. rewrite H4. reflexivity.
    + rewrite (S2 D) in Hx'. injection Hx' as <-. reflexivity.
  - destruct (c49_set m names r k (fst s) T) as (S & _). destruct (S _ _ E) as [-> _]. apply C; auto.
Qed.
Lemma step_current o s : tables_ok (fst s) -> (forall names r k, o <> ROther (OSet Spectral names r k)) -> (forall a f, o <> RAdd a (Some f)) ->
  current s -> current (fst (rstep o s)).
Proof.
  intros T Hs Hn C. destruct o as [a [n|]|[m names r k|a|names|g name idx ip chk|names|names a]]; cbn [RefModel.rstep].
  - destruct (Hn a n); auto.
  - apply add_current; auto.
  - cbn [istep]. destruct (set_response m names r k (fst s)) as [i res] eqn:E. cbn [fst]. apply (set_current m names r k s i res); auto.
    intros ->. destruct (Hs names r k); auto.
  - apply add_current; auto.
  - destruct (del_detectors names (fst s)) as [i [[]|e]] eqn:E; cbn [fst snd]; destruct (c49_del names (fst s) T) as (D & D' & _).
    + destruct (D _ E) as (_ & _ & D3 & _). intros d x Hx. cbn [fst snd] in *. rewrite D3 in Hx. rewrite ddel_all. destruct (smem d names); [discriminate|]. apply C; auto.
    + destruct (D' _ _ E) as [-> _]. destruct s; exact C.
  - cbn [istep]. destruct (add_field g name idx ip chk (fst s)) as [i res] eqn:E. cbn [fst]. destruct (c49_fields (fst s) T) as (H & _).
    destruct (H _ _ _ _ _ _ _ E) as [(e & _ & ->)|(_ & nm & g' & _ & _ & _ & _ & _ & Ed & _)]; intros d x Hx; cbn [fst snd] in *; [|rewrite Ed in Hx]; apply C; auto.
  - cbn [istep]. destruct (del_fields names (fst s)) as [i res] eqn:E. cbn [fst]. destruct (c49_fields (fst s) T) as (_ & H).
    destruct (H _ _ _ E) as [(e & _ & ->)|(_ & _ & Ed & _)]; intros d x Hx; cbn [fst snd] in *; [|rewrite Ed in Hx]; apply C; auto.
  - cbn [istep]. destruct (map_fields sp sc names a (fst s)) as [i res] eqn:E. cbn [fst]. destruct (map_dets _ _ _ _ _ E) as [Ed _].
    intros d x Hx. cbn [fst snd] in *. rewrite Ed in Hx. apply C; auto.
Qed.
Lemma run_current os s : tables_ok (fst s) -> current s -> (forall names r k, ~ In (ROther (OSet Spectral names r k)) os) -> (forall a f, ~ In (RAdd a (Some f)) os) ->
  current (rrun os s).
Proof.
  intros T C. induction os as [|o os IH] using rev_ind; auto. intros Hs Hn. rewrite rrun_app. apply step_current.
  - apply rrun_tables; auto.
  - intros names r k ->. apply (Hs names r k). apply in_or_app. right. left. auto.
  - intros a f ->. apply (Hn a f). apply in_or_app. right. left. auto.
  - apply IH; [intros names r k H; apply (Hs names r k)|intros a f H; apply (Hn a f)]; apply in_or_app; auto.
Qed.

(** a detector just added *)
Lemma added a n s s' : tables_ok (fst s) -> rstep (RAdd a n) s = (s', Ok tt) -> exists x, dget (i_dets (fst s')) (new_name a (fst s)) = Some x /\
  dget (snd s') (new_name a (fst s)) = Some (match n with Some f => f | None => peak (d_spec x) end) /\
  (new_name a (fst s) <> "instrument" -> exists y, d_spec x = Some y /\ asked Spectral (i_dspec (fst s)) (a_spec a) (a_speck a) y) /\
  forall d, d <> new_name a (fst s) -> dget (snd s') d = dget (snd s) d.
Proof.
  intros T. cbn [RefModel.rstep]. unfold radd. fold (new_name a (fst s)). destruct (add_detector a (fst s)) as [i [[]|e]] eqn:E; [|discriminate].
  intros H. injection H as <-. cbn [fst snd]. destruct (add_any _ _ _ T E) as (Hn & _ & Ho & (x & Hx) & _). exists x. split; auto. split; [|split].
  - rewrite dget_dset, String.eqb_refl, Hx. reflexivity.
  - intros Hi. destruct (add_conv _ _ _ T Hi E) as (_ & off & u & y & z & H1 & H2 & H3 & H4).
    destruct (add_all a (fst s) off u y z T Hi Hn H1 H2 H3 H4) as (s2 & E2 & (_ & A1 & _)). rewrite E in E2. injection E2 as <-.
    rewrite A1, dget_dset, String.eqb_refl in Hx. injection Hx as <-. cbn. eauto.
  - intros d Hd. rewrite dget_dset. destruct (String.eqb_spec d (new_name a (fst s))); [contradiction|reflexivity].
Qed.
(** a detector there throughout *)
Lemma run_kept os s d : tables_ok (fst s) -> (forall n, (n <= length os)%nat -> In d (i_names (fst (rrun (firstn n os) s)))) -> dget (snd (rrun os s)) d = dget (snd s) d.
Proof.
  intros T. induction os as [|o os IH] using rev_ind; [reflexivity|]. intros H. rewrite rrun_app.
  assert (P : forall n, (n <= length os)%nat -> firstn n (os ++ [o]) = firstn n os) by (intros n Hn; rewrite firstn_app; replace (n - length os)%nat with 0%nat by lia; cbn; apply app_nil_r).
  assert (K : dget (snd (rrun os s)) d = dget (snd s) d).
  { apply IH. intros n Hn. rewrite <- P by auto. apply H. rewrite app_length. cbn. lia. }
  assert (H1 : In d (i_names (fst (rrun os s)))). { specialize (H (length os)). rewrite P, firstn_all in H by auto. apply H. rewrite app_length. cbn. lia. }
  assert (H2 : In d (i_names (fst (fst (rstep o (rrun os s)))))). { specialize (H (length (os ++ [o])) (le_n _)). rewrite firstn_all, rrun_app in H. exact H. }
  pose proof (rrun_tables os s T) as T1. pose proof (rstep_tables o _ T1) as T2.
  apply (t_dets _ T1) in H1. apply (t_dets _ T2) in H2. destruct H1 as [x Hx], H2 as [x' Hx'].
  rewrite (step_kept o _ d x x' T1 Hx Hx'). exact K.
Qed.
(** a response set later *)
Lemma set_stale names r k s s' d : tables_ok (fst s) -> In d (i_names (fst s)) -> names_det names (fst s) d -> rstep (ROther (OSet Spectral names r k)) s = (s', Ok tt) ->
  exists x f kk, dget (i_dets (fst s')) d = Some x /\ d_spec x = Some (f, kk) /\ means Spectral r f /\ kw_given k [] kk /\ dget (snd s') d = dget (snd s) d.
Proof.
  intros T Hd Hn. cbn [RefModel.rstep istep]. destruct (set_response Spectral names r k (fst s)) as [i res] eqn:E. intros H. injection H as <- ->. cbn [fst snd].
  destruct (c49_set Spectral names r k (fst s) T) as (_ & S). destruct (S _ E) as (_ & _ & Se). apply (t_dets _ T) in Hd. destruct Hd as [x Hx].
  destruct (Se d x Hx) as (S1 & _). destruct (S1 Hn) as (f & kk & A & B & x' & C & D & _). exists x', f, kk. auto.
Qed.
End Ref.
