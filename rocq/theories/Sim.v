(** Lemmas about the model of SimHandler. *)
From Verif Require Import Dict Util Rat HandlerModel HandlerSpec Handler Handler2 Handler3 Handler4 SimModel SimSpec.
Open Scope string_scope.
Open Scope list_scope.
Open Scope nat_scope.

(** ** Dictionaries *)
Lemma zget_set {A} (d : zdict A) k v j : zget (zset d k v) j = if Z.eqb j k then Some v else zget d j.
Proof.
  induction d as [|[k' w] d IH]; simpl; [reflexivity|].
  destruct (Z.eqb_spec k k') as [->|Hk]; simpl.
  - destruct (Z.eqb_spec j k'); reflexivity.
  - rewrite IH. destruct (Z.eqb_spec j k') as [->|]; [|reflexivity].
    destruct (Z.eqb_spec k' k); congruence.
Qed.
Lemma zset_same {A} (d : zdict A) k v : zget d k = Some v -> zset d k v = d.
Proof.
  induction d as [|[k' w] d IH]; simpl; [discriminate|].
  destruct (Z.eqb_spec k k') as [->|Hk]; intros H; [congruence|]. rewrite IH; auto.
Qed.
Lemma zget_map {A B} (g : A -> B) (d : zdict A) j :
  zget (map (fun kv => (fst kv, g (snd kv))) d) j = option_map g (zget d j).
Proof. induction d as [|[k' w] d IH]; simpl; [reflexivity|]. destruct (Z.eqb j k'); auto. Qed.

(** ** h of the file never changes *)
Lemma fh_each {A} (step : A -> st -> st * exc unit) l s :
  (forall x s, f_h (snd (fst (step x s))) = f_h (snd s)) -> f_h (snd (fst (for_each step l s))) = f_h (snd s).
Proof.
  intros H. apply (for_each_inv (fun t => f_h (snd t) = f_h (snd s))); [|reflexivity].
  intros x t _ E. rewrite H. exact E.
Qed.
Lemma fh_write_one nanint ow dt p s : f_h (snd (fst (write_one nanint ow dt p s))) = f_h (snd s).
Proof.
  destruct s as [h f]. unfold write_one.
  destruct (dget (h_loaded h) p); [|reflexivity].
  destruct (smem p (h_saved h) && negb ow); [reflexivity|].
  destruct (dget (f_grp f) p) as [d|].
  - destruct (s_data d) as [old|]; [|reflexivity].
    destruct (negb _); [reflexivity|].
    destruct (dget (h_units h) p); [|reflexivity]. destruct (dget (h_hdep h) p); reflexivity.
  - destruct (dget (h_units h) p); [|reflexivity]. destruct (dget (h_hdep h) p); reflexivity.
Qed.
Lemma fh_delete_one p s : f_h (snd (fst (delete_one p s))) = f_h (snd s).
Proof.
  destruct s as [h f]. unfold delete_one.
  destruct (negb _); [reflexivity|]. destruct (negb _); reflexivity.
Qed.
Lemma fh_write nanint ps ow dt s : f_h (snd (fst (write_property nanint ps ow dt s))) = f_h (snd s).
Proof. apply fh_each. intros; apply fh_write_one. Qed.
Lemma fh_delete ps s : f_h (snd (fst (delete_property ps s))) = f_h (snd s).
Proof. apply fh_each. intros; apply fh_delete_one. Qed.
Lemma fh_make nanint p a s : f_h (snd (fst (make_property nanint p a s))) = f_h (snd s).
Proof.
  unfold make_property.
  destruct (negb (m_all a) && m_write a && negb _); [reflexivity|].
  destruct (match m_rename a with None => _ | Some _ => _ end) as [names|]; [|reflexivity].
  destruct (existsb _ _ && _); [reflexivity|].
  destruct (evaluate_all _ _ _ _ _) as [vals|]; [|reflexivity].
  pose proof (make_loop_file p (if m_all a then seq 0 (h_n (fst s)) else h_act (fst s))
    (combine (combine (combine (p_names p) names) (map (fun k => smem k (h_all (fst s))) names)) vals) s) as E.
  destruct (for_each _ _ s) as [s1 [[]|e]]; simpl in E; [|simpl; congruence].
  destruct (m_write a); [|simpl; congruence].
  pose proof (fh_write nanint names (m_owdisk a) (m_dtype a) s1) as E2.
  destruct (write_property _ _ _ _ s1) as [s2 [[]|e]]; simpl in E2; [|simpl; congruence].
  destruct (m_unload a); [|simpl; congruence].
  rewrite (proj1 (unload_file names s2)). congruence.
Qed.
Lemma range_file p lo hi r inh s : snd (fst (set_property_range p lo hi r inh s)) = snd s.
Proof. destruct (range_frame p lo hi r inh s) as (a & n & ->). reflexivity. Qed.
Lemma fh_hdo nanint s c : f_h (snd (fst (hdo nanint s c))) = f_h (snd s).
Proof.
  destruct c; cbn [hdo].
  - rewrite load_file; reflexivity.
  - rewrite (proj1 (unload_file ps s)); reflexivity.
  - apply fh_make.
  - apply fh_write.
  - apply fh_delete.
  - rewrite range_file; reflexivity.
  - reflexivity.
Qed.
Lemma fh_make_step nanint p a i s : f_h (snd (fst (make_step nanint p a i s))) = f_h (snd s).
Proof.
  unfold make_step. pose proof (fh_make nanint p (snap_args a) s) as E.
  destruct (make_property _ _ _ s) as [s1 [[]|e]]; simpl in E; [|exact E].
  destruct (sa_write a); [|exact E].
  destruct (negb _); [exact E|].
  destruct (if i =? 0 then _ else _); [|exact E].
  pose proof (fh_write nanint (sim_names p a) (sa_ow a) (sa_dtype a) s1) as E2.
  fold (sim_names p a).
  destruct (write_property _ _ _ _ s1) as [s2 [[]|e]]; simpl in E2; [|simpl; congruence].
  rewrite (proj1 (unload_file (sim_names p a) s2)). congruence.
Qed.
Lemma fh_delete_step ps i s : f_h (snd (fst (delete_step ps i s))) = f_h (snd s).
Proof.
  unfold delete_step. destruct (if i =? 0 then _ else _); [|reflexivity]. apply fh_delete.
Qed.

(** ** One snapshot *)
(** [st'] is [st] apart from what concerns the snapshot handlers and groups *)
Definition same_sim (st st' : sst) : Prop :=
  sm_h (fst st') = sm_h (fst st) /\ sm_meta (fst st') = sm_meta (fst st) /\ sm_box (fst st') = sm_box (fst st) /\
  sm_inh (fst st') = sm_inh (fst st) /\ sm_edge (fst st') = sm_edge (fst st) /\ sm_keys (fst st') = sm_keys (fst st) /\
  sm_init (fst st') = sm_init (fst st) /\ sf_h (snd st') = sf_h (snd st) /\ sf_box (snd st') = sf_box (snd st) /\
  sf_meta (snd st') = sf_meta (snd st).
Lemma same_refl st : same_sim st st.
Proof. repeat split. Qed.
Lemma same_trans a b c : same_sim a b -> same_sim b c -> same_sim a c.
Proof. unfold same_sim. intuition congruence. Qed.

Lemma find_meta s i r : extract_snap_meta s i = Ok r -> fst r = i /\ In r (sm_meta s).
Proof.
  unfold extract_snap_meta. destruct (find _ _) as [x|] eqn:E; [|discriminate]. intros [= <-].
  apply find_some in E. destruct E as [H1 H2]. apply Z.eqb_eq in H2. auto.
Qed.
Lemma find_meta_ok s i z : In (i, z) (sm_meta s) -> exists r, extract_snap_meta s i = Ok r.
Proof.
  intros H. unfold extract_snap_meta. destruct (find _ _) as [x|] eqn:E; [eauto|].
  exfalso. apply (find_none _ _ E) in H. simpl in H. rewrite Z.eqb_refl in H. discriminate.
Qed.
Lemma find_meta_nodup s i z : NoDup (map fst (sm_meta s)) -> In (i, z) (sm_meta s) -> extract_snap_meta s i = Ok (i, z).
Proof.
  intros ND H. destruct (find_meta_ok s i z H) as [r E]. rewrite E. f_equal.
  apply find_meta in E. destruct E as [E1 E2]. subst i.
  clear -ND H E2. induction (sm_meta s) as [|x l IH]; simpl in *; [tauto|].
  inversion ND; subst. destruct H as [->|H], E2 as [->|E2]; auto.
  - simpl in H2. exfalso; apply H2. apply in_map. exact E2.
  - exfalso; apply H2. change (fst r) with (fst (fst r, z)). apply in_map. exact H.
Qed.

Lemma get_snap_same st st' i : same_sim st st' ->
  zget (sm_snaps (fst st')) i = zget (sm_snaps (fst st)) i ->
  group_of (snd st') i = group_of (snd st) i -> get_snap st' i = get_snap st i.
Proof.
  intros (A & B & C & D & E & F & G & H & I & J) K L. destruct st as [s f], st' as [s' f']. simpl in *.
  unfold get_snap, extract_snap_meta. rewrite B.
  destruct (find _ (sm_meta s)) as [m|] eqn:Ef; simpl; [|reflexivity].
  apply find_some in Ef. destruct Ef as [_ Ef]. apply Z.eqb_eq in Ef. rewrite Ef, G, K.
  destruct (sm_init s); [reflexivity|]. unfold open_snap. rewrite L, C. reflexivity.
Qed.

Section OnSnap.
  Context {A : Type} (i : Z) (op : HandlerModel.st -> HandlerModel.st * exc A).
  Hypothesis Hh : forall s, f_h (snd (fst (op s))) = f_h (snd s).

  Lemma on_snap_cases st st' r : on_snap i op st = (st', r) ->
    (exists e, r = Raise e /\ st' = st /\ ~ exists s, sees st i s) \/
    (exists s s', sees st i s /\ op s = (s', r) /\ group_of (snd st') i = Ok (snd s') /\
       (sm_init (fst st) = true -> get_snap st' i = Ok (fst s')) /\
       (sm_init (fst st) = false -> fst st' = fst st) /\
       (s' = s -> st' = st)) .
  Proof.
    unfold on_snap. intros H.
    destruct (get_snap st i) as [h|e] eqn:Eg.
    2:{ injection H as <- <-. left. exists e. repeat split; auto. intros [s [S1 S2]]. congruence. }
    destruct (group_of (snd st) i) as [g|e] eqn:Egr.
    2:{ injection H as <- <-. left. exists e. repeat split; auto. intros [s [S1 S2]]. congruence. }
    right. exists (h, g). pose proof (Hh (h, g)) as Hg.
    destruct (op (h, g)) as [[h' g'] r'] eqn:Eo. injection H as <- <-. exists (h', g'). simpl in Hg.
    split; [split; assumption|]. split; [reflexivity|].
    assert (G : group_of (put_group (snd st) i g') i = Ok g').
    { unfold group_of, put_group; simpl. rewrite zget_set, Z.eqb_refl. f_equal.
      unfold group_of in Egr. destruct (zget _ i); [|discriminate]. injection Egr as <-. simpl in Hg.
      destruct g' as [x y]; simpl in *. congruence. }
    split; [exact G|]. split; [|split].
    - intros I. simpl. rewrite I. unfold get_snap in *. simpl.
      destruct st as [s f]. simpl in *. unfold extract_snap_meta in *. simpl in *.
      destruct (find _ (sm_meta s)) as [m|] eqn:Ef; simpl in *; [|discriminate].
      apply find_some in Ef. destruct Ef as [_ Ef]. apply Z.eqb_eq in Ef. rewrite Ef, zget_set, Z.eqb_refl. reflexivity.
    - intros I. simpl. rewrite I. reflexivity.
    - intros [= -> ->]. destruct st as [s f]. simpl in *. f_equal.
      + destruct (sm_init s) eqn:I; [|reflexivity].
        unfold get_snap in Eg. simpl in Eg. try rewrite I in Eg.
        destruct (extract_snap_meta s i) as [m|] eqn:Em; [|discriminate]. simpl in Eg.
        apply find_meta in Em. destruct Em as [Em _]. rewrite Em in Eg.
        destruct (zget (sm_snaps s) i) as [h0|] eqn:Ez; [|discriminate]. injection Eg as ->.
        rewrite (zset_same _ _ _ Ez). destruct s; simpl in *. unfold with_snaps; simpl. congruence.
      + unfold put_group, group_of in *. destruct (zget (sf_groups f) i) eqn:Ez; [|discriminate].
        injection Egr as <-. simpl. rewrite (zset_same _ _ _ Ez). destruct f; reflexivity.
  Qed.

  Lemma on_snap_frame st st' r : on_snap i op st = (st', r) ->
    same_sim st st' /\ forall j, j <> i -> get_snap st' j = get_snap st j /\ group_of (snd st') j = group_of (snd st) j.
  Proof.
    unfold on_snap. intros H.
    destruct (get_snap st i) as [h|e] eqn:Eg.
    2:{ injection H as <- <-. split; [apply same_refl|auto]. }
    destruct (group_of (snd st) i) as [g|e] eqn:Egr.
    2:{ injection H as <- <-. split; [apply same_refl|auto]. }
    destruct (op (h, g)) as [[h' g'] r'] eqn:Eo. injection H as <- <-.
    assert (S : same_sim st (if sm_init (fst st) then with_snaps (fst st) true (zset (sm_snaps (fst st)) i h') else fst st, put_group (snd st) i g')).
    { destruct st as [s f]; simpl. destruct (sm_init s) eqn:I; repeat split; simpl; auto. }
    split; [exact S|]. intros j Hj.
    assert (G : group_of (put_group (snd st) i g') j = group_of (snd st) j).
    { unfold group_of, put_group; simpl. rewrite zget_set. destruct (Z.eqb_spec j i); [contradiction|reflexivity]. }
    split; [|exact G]. apply get_snap_same; [exact S| |exact G].
    simpl. destruct (sm_init (fst st)); [|reflexivity]. simpl. rewrite zget_set.
    destruct (Z.eqb_spec j i); [contradiction|reflexivity].
  Qed.
End OnSnap.

(** ** All snapshots *)
Lemma loop_raise step k rows st st' e : snaps_loop step k rows st = (st', Raise e) ->
  exists l1 r l2 st1, rows = l1 ++ r :: l2 /\ snaps_loop step k l1 st = (st1, Ok tt) /\
    on_snap (fst r) (step (k + length l1)) st1 = (st', Raise e).
Proof.
  revert k st; induction rows as [|r rows IH]; simpl; intros k st H; [discriminate|].
  destruct (on_snap (fst r) (step k) st) as [st1 [[]|e1]] eqn:E.
  - destruct (IH _ _ H) as (l1 & r1 & l2 & st2 & -> & H1 & H2).
    exists (r :: l1), r1, l2, st2. simpl. rewrite E. split; [reflexivity|]. split; [exact H1|].
    rewrite Nat.add_succ_r. exact H2.
  - injection H as <- <-. exists [], r, rows, st. simpl. rewrite Nat.add_0_r. auto.
Qed.

Section Loop.
  Context (step : nat -> HandlerModel.st -> HandlerModel.st * exc unit).
  Hypothesis Hh : forall k s, f_h (snd (fst (step k s))) = f_h (snd s).

  Lemma loop_frame k rows st st' r : snaps_loop step k rows st = (st', r) ->
    same_sim st st' /\ forall j, ~ In j (map fst rows) -> get_snap st' j = get_snap st j /\ group_of (snd st') j = group_of (snd st) j.
  Proof.
    revert k st; induction rows as [|x rows IH]; simpl; intros k st H.
    - injection H as <- <-. split; [apply same_refl|auto].
    - destruct (on_snap (fst x) (step k) st) as [st1 [[]|e]] eqn:E.
      + apply on_snap_frame in E. destruct E as [E1 E2]. apply IH in H. destruct H as [H1 H2].
        split; [eapply same_trans; eauto|]. intros j Hj.
        destruct (H2 j) as [-> ->]; [tauto|]. apply E2. intros ->. tauto.
      + injection H as <- <-. apply on_snap_frame in E. destruct E as [E1 E2]. split; [exact E1|].
        intros j Hj. apply E2. intros ->; tauto.
  Qed.

  Lemma loop_ok k rows st st' : snaps_loop step k rows st = (st', Ok tt) -> NoDup (map fst rows) ->
    forall m r, nth_error rows m = Some r ->
      exists s s', sees st (fst r) s /\ step (k + m) s = (s', Ok tt) /\ group_of (snd st') (fst r) = Ok (snd s') /\
        (sm_init (fst st) = true -> get_snap st' (fst r) = Ok (fst s')).
  Proof.
    revert k st; induction rows as [|x rows IH]; intros k st H ND m r Hm; [destruct m; discriminate|].
    simpl in H, ND. inversion ND as [|? ? N1 N2]; subst.
    destruct (on_snap (fst x) (step k) st) as [st1 [[]|e]] eqn:E; [|discriminate].
    pose proof (on_snap_frame (fst x) (step k) _ _ _ E) as [F1 F2].
    destruct m as [|m].
    - injection Hm as ->. rewrite Nat.add_0_r.
      destruct (on_snap_cases (fst r) (step k) (Hh k) _ _ _ E) as [(e & ? & _)|(s & s' & S1 & S2 & S3 & S4 & _)]; [discriminate|].
      destruct (loop_frame _ _ _ _ _ H) as [_ L]. destruct (L (fst r) N1) as [L1 L2].
      exists s, s'. rewrite L1, L2. auto.
    - destruct (IH _ _ H N2 m r Hm) as (s & s' & S1 & S2 & S3 & S4).
      assert (Hne : fst r <> fst x).
      { intros Eq. apply N1. rewrite <- Eq. apply in_map. eapply nth_error_In; eauto. }
      destruct (F2 _ Hne) as [G1 G2].
      exists s, s'. rewrite Nat.add_succ_r. split; [|split; [exact S2|split; [exact S3|]]].
      + destruct S1. split; congruence.
      + intros I. apply S4. destruct F1 as (_ & _ & _ & _ & _ & _ & -> & _). exact I.
  Qed.

  Lemma loop_fresh k rows st st' r : snaps_loop step k rows st = (st', r) -> sm_init (fst st) = false -> fst st' = fst st.
  Proof.
    revert k st; induction rows as [|x rows IH]; simpl; intros k st H I; [congruence|].
    destruct (on_snap (fst x) (step k) st) as [st1 [[]|e]] eqn:E.
    - assert (F : fst st1 = fst st).
      { destruct (on_snap_cases _ _ (Hh k) _ _ _ E) as [(e & ? & _)|(s & s' & _ & _ & _ & _ & S & _)]; [discriminate|auto]. }
      rewrite <- F. eapply IH; eauto. congruence.
    - injection H as <- <-.
      destruct (on_snap_cases _ _ (Hh k) _ _ _ E) as [(e' & _ & -> & _)|(s & s' & _ & _ & _ & _ & S & _)]; auto.
  Qed.
End Loop.
