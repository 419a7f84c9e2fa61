(** make_property over all snapshots. *)
From Verif Require Import Dict Util Rat HandlerModel HandlerSpec Handler Handler2 Handler3 Handler4 SimModel SimSpec Sim Sim2.
Open Scope string_scope.
Open Scope list_scope.
Open Scope nat_scope.

Lemma new_names_sim p a : new_names p (snap_args a) = sim_names p a.
Proof. reflexivity. Qed.

(** ** Handlers opened on two files *)
Lemma smem_prop_keys f q : smem q (prop_keys f) = dmem (f_grp f) q && negb (String.eqb q "mass_cuts").
Proof.
  apply Bool.eq_iff_eq_true. rewrite smem_In, prop_keys_In, andb_true_iff, negb_true_iff, String.eqb_neq.
  unfold dmem. rewrite smem_In. tauto.
Qed.
Lemma open_act n f box extra inh h : good_file n f -> open_handler f box extra inh = Ok h ->
  h_act h = seq 0 n /\ h_n h = n /\ h_loaded h = [] /\ h_all h = prop_keys f /\ h_saved h = prop_keys f /\
  h_h h = f_h f /\ h_inh h = inh /\ h_gen h = [].
Proof.
  intros G E. pose proof (i_n _ _ (open_hinv n f box extra inh h G E)) as Hn. simpl in Hn.
  destruct (open_fields _ _ _ _ _ E) as (us & hs & m & e & _ & _ & _ & F). cbv zeta in F. subst h. simpl in *. rewrite Hn. auto 10.
Qed.
Lemma open_hdep f box extra inh h q : open_handler f box extra inh = Ok h -> In q (prop_keys f) ->
  exists d e u, dget (f_grp f) q = Some d /\ s_hdep d = Some e /\ s_units d = Some u /\
    dget (h_hdep h) q = Some e /\ dget (h_units h) q = Some u.
Proof.
  intros E Hq. destruct (open_fields _ _ _ _ _ E) as (us & hs & m & e & F1 & F2 & _ & F). cbv zeta in F. subst h. simpl.
  destruct (mapM_attr s_units f _ _ F1 q Hq) as (d & u & A1 & A2 & A3).
  destruct (mapM_attr s_hdep f _ _ F2 q Hq) as (d' & e' & B1 & B2 & B3).
  assert (d' = d) by congruence. subst d'. exists d, e', u. auto.
Qed.
Lemma reopen_return n f f' box extra inh h h' box' extra' inh' q ua b :
  good_file n f -> good_file n f' ->
  open_handler f box extra inh = Ok h -> open_handler f' box' extra' inh' = Ok h' ->
  f_h f = f_h f' -> inh = inh' -> dget (f_grp f) q = dget (f_grp f') q ->
  return_property (h, f) q ua b = return_property (h', f') q ua b.
Proof.
  intros G G' E E' Hh Hi Hq.
  destruct (open_act _ _ _ _ _ _ G E) as (A1 & A2 & A3 & A4 & A5 & A6 & A7 & _).
  destruct (open_act _ _ _ _ _ _ G' E') as (B1 & B2 & B3 & B4 & B5 & B6 & B7 & _).
  rewrite !return_source. simpl. rewrite A1, A2, A4, A6, A7, B1, B2, B4, B6, B7, Hh, Hi.
  rewrite !smem_prop_keys, !dmem_get, Hq.
  destruct (dget (f_grp f') q) as [d|] eqn:Ed; [|reflexivity].
  destruct (String.eqb_spec q "mass_cuts") as [->|Hne]; [reflexivity|]. simpl.
  assert (K : In q (prop_keys f)).
  { apply smem_In. rewrite smem_prop_keys, dmem_get, Hq. apply String.eqb_neq in Hne. rewrite Hne. reflexivity. }
  assert (K' : In q (prop_keys f')).
  { apply smem_In. rewrite smem_prop_keys, dmem_get, Ed. apply String.eqb_neq in Hne. rewrite Hne. reflexivity. }
  destruct (open_hdep _ _ _ _ _ q E K) as (d1 & e1 & u1 & C1 & C2 & C3 & C4 & C5).
  destruct (open_hdep _ _ _ _ _ q E' K') as (d2 & e2 & u2 & D1 & D2 & D3 & D4 & D5).
  assert (e1 = e2) by congruence. subst e2. unfold dfind. rewrite C4, D4.
  unfold source. simpl. rewrite A3, A5, B3, B5. simpl. rewrite !smem_prop_keys, !dmem_get, Hq, Ed.
  unfold dfind. rewrite Hq, Ed. reflexivity.
Qed.

Lemma good_of n s : hinv n s -> attrs (snd s) -> good_file n (snd s).
Proof.
  intros H [A1 A2]. split; [exact A1|]. split; [exact (i_mc _ _ H)|].
  intros k d E Hk. destruct (A2 k d E Hk). split; [exact (i_file _ _ H k d E Hk)|auto].
Qed.
Lemma attrs_of n f : good_file n f -> attrs f.
Proof. intros (A & _ & B). split; [exact A|]. intros k d E Hk. destruct (B k d E Hk) as (_ & C). exact C. Qed.

(** ** One pass of the loop *)
Lemma make_step_parts nanint p a k s s' : make_step nanint p a k s = (s', Ok tt) -> sa_write a = true ->
  exists s1 s2, make_property nanint p (snap_args a) s = (s1, Ok tt) /\
    (k = 0 -> make_guard (sa_ow a) (sim_names p a) (snd s1) = Ok tt) /\
    write_property nanint (sim_names p a) (sa_ow a) (sa_dtype a) s1 = (s2, Ok tt) /\
    unload_property (sim_names p a) s2 = (s', Ok tt).
Proof.
  unfold make_step. intros H W. rewrite W in H. fold (sim_names p a) in H.
  destruct (make_property _ _ _ s) as [s1 [[]|e]]; [|discriminate].
  destruct (negb _); [discriminate|].
  destruct (if k =? 0 then _ else _) as [[]|e] eqn:G; [|discriminate].
  destruct (write_property _ _ _ _ s1) as [s2 [[]|e]] eqn:Ew; [|discriminate].
  exists s1, s2. split; [reflexivity|]. split; [|split; [exact Ew|exact H]].
  intros ->. simpl in G. exact G.
Qed.

Lemma make_loaded_float n nanint p a s s1 name : reachable n s -> make_property nanint p a s = (s1, Ok tt) -> m_write a = false ->
  NoDup (new_names p a) -> In name (new_names p a) ->
  exists c, dget (h_loaded (fst s1)) name = Some c /\ c_int c = false /\ In name (h_all (fst s1)) /\ length (c_val c) = n.
Proof.
  intros R M W ND Hn. destruct (make_split _ _ _ _ _ M W) as (names & vals & -> & L1 & Ev & Lp).
  assert (Lv : length vals = length (new_names p a)).
  { destruct (evaluate_spec _ _ _ _ _ _ Ev) as (args & raw & _ & Lr & _ & Hv).
    destruct (p_ret_h p); [subst; congruence|]. destruct (p_hdep p); [|destruct Hv as [-> ->]; simpl in *; congruence].
    rewrite (unh_length _ _ _ _ _ Hv Lr). congruence. }
  set (l := combine (combine (combine (p_names p) (new_names p a)) (map (fun k => smem k (h_all (fst s))) (new_names p a))) vals) in *.
  assert (Hnew : map (fun x => snd (fst (fst x))) l = new_names p a).
  { apply loop_new; [congruence|rewrite map_length; reflexivity|exact Lv]. }
  rewrite <- Hnew in Hn. apply in_map_iff in Hn. destruct Hn as (x & Hx & Hin).
  apply In_nth_error in Hin. destruct Hin as [j Hj]. destruct x as [[[nm nw] ow] c]. simpl in Hx. subst nw.
  edestruct (make_loop_at _ _ _ _ _ j nm name ow c Lp) as (v & u & hd & e & F1 & _ & _ & _ & F2 & _ & _ & F3).
  - rewrite Hnew. exact ND.
  - intros y Hy Hb. eapply loop_ow; [exact Hy|exact Hb].
  - exact Hj.
  - exists v. split; [exact F2|].
    pose proof (reachable_inv _ _ R) as HI.
    pose proof (i_n _ _ HI) as Hn.
    assert (N : NoDup (if m_all a then seq 0 (h_n (fst s)) else h_act (fst s))).
    { destruct (m_all a); [apply seq_NoDup|apply ascending_NoDup, (i_asc _ _ HI)]. }
    assert (F : Forall (fun i => i < h_n (fst s)) (if m_all a then seq 0 (h_n (fst s)) else h_act (fst s))).
    { destruct (m_all a); [apply Forall_forall; intros x Hx; apply in_seq in Hx; lia|rewrite Hn; apply (i_lt _ _ HI)]. }
    destruct (fill_spec _ _ _ _ N F F1) as (F4 & _).
    split; [exact F4|]. split; [exact F3|]. rewrite <- Hn. eapply fill_length; exact F1.
Qed.

Section Fresh.
  Context (nanint : Qc) (n : nat) (p : prop) (a : simargs) (k : nat).
  Context (f : gfile) (box : option Qc) (extra : dict pyval) (inh : bool) (h : handler) (s' : HandlerModel.st).
  Hypothesis Gf : good_file n f.
  Hypothesis Op : open_handler f box extra inh = Ok h.
  Hypothesis H0 : f_h f <> 0%Qc.
  Hypothesis Ok_ : scall_ok (SMake p a).
  Hypothesis ND : NoDup (sim_names p a).
  Hypothesis W : sa_write a = true.
  Hypothesis St : make_step nanint p a k (h, f) = (s', Ok tt).

  Lemma fresh_good : good_file n (snd s') /\ f_h (snd s') = f_h f /\
    (forall q, ~ In q (sim_names p a) -> dget (f_grp (snd s')) q = dget (f_grp f) q) /\
    (forall q, In q (sim_names p a) -> exists d, dget (f_grp (snd s')) q = Some d /\ s_user d = true).
  Proof.
    destruct (make_step_parts _ _ _ _ _ _ St W) as (s1 & s2 & E1 & E2 & E3 & E4).
    pose proof (reach_open nanint n f box extra inh h Gf Op) as R0.
    pose proof (reach_hdo nanint n _ _ R0 (snap_args_ok p a Ok_)) as R1. cbn [hdo] in R1. rewrite E1 in R1. simpl in R1.
    assert (Hw : call_ok (HWrite (sim_names p a) (sa_ow a) (sa_dtype a))) by (destruct Ok_ as (X & _); exact X).
    pose proof (reach_hdo nanint n _ _ R1 Hw) as R2. cbn [hdo] in R2. rewrite E3 in R2. simpl in R2.
    assert (S' : snd s' = snd s2) by (pose proof (proj1 (unload_file (sim_names p a) s2)) as U; rewrite E4 in U; exact U).
    assert (S1 : snd s1 = f).
    { destruct (make_split _ _ _ _ _ E1 eq_refl) as (nm & vals & _ & _ & _ & Lp).
      pose proof (make_loop_file p (if m_all (snap_args a) then seq 0 (h_n (fst (h, f))) else h_act (fst (h, f)))
        (combine (combine (combine (p_names p) nm) (map (fun k => smem k (h_all (fst (h,f)))) nm)) vals) (h, f)) as F.
      rewrite Lp in F. exact F. }
    rewrite S'. split; [|split; [|split]].
    - apply good_of; [apply (reachable_inv n), (reach_reachable nanint); exact R2|].
      assert (A1 : attrs (snd s1)) by (rewrite S1; eapply attrs_of; exact Gf).
      pose proof (attrs_write_all nanint (sa_ow a) (sa_dtype a) (sim_names p a) s1 A1) as A2. rewrite E3 in A2. apply A2. discriminate.
    - destruct (write_frame _ _ _ _ _ _ E3) as (_ & X & _). rewrite X, S1. reflexivity.
    - intros q Hq. destruct (write_frame _ _ _ _ _ _ E3) as (_ & _ & X). rewrite (X q Hq), S1. reflexivity.
    - clear - E3. revert s1 E3. induction (sim_names p a) as [|x l IH]; intros s1 E3 q Hq; [destruct Hq|].
      unfold write_property in E3. simpl in E3.
      destruct (write_one nanint (sa_ow a) (sa_dtype a) x s1) as [t [[]|e]] eqn:Ew; [|discriminate].
      destruct (in_dec string_dec q l) as [Hl|Hl].
      + exact (IH t E3 q Hl).
      + destruct Hq as [<-|Hq]; [|contradiction].
        destruct (write_frame _ _ _ _ _ _ E3) as (_ & _ & X). rewrite (X x Hl).
        clear - Ew. destruct s1 as [h f]. unfold write_one in Ew.
        destruct (dget (h_loaded h) x); [|discriminate]. destruct (_ && _); [discriminate|].
        assert (F : forall d, match dget (h_units h) x with
             | Some u => match dget (h_hdep h) x with
                | Some e => ((if smem x (h_saved h) then h else with_saved h (h_saved h ++ [x]), mkFile (f_h f) (dset (f_grp f) x (mkDS (s_data d) (Some u) (Some e) true))), Ok tt)
                | None => ((h, mkFile (f_h f) (dset (f_grp f) x (mkDS (s_data d) (Some u) (s_hdep d) (s_user d)))), Raise KeyError) end
             | None => ((h, mkFile (f_h f) (dset (f_grp f) x d)), Raise KeyError) end = (t, Ok tt) ->
             exists d', dget (f_grp (snd t)) x = Some d' /\ s_user d' = true).
        { intros d. destruct (dget (h_units h) x); [|discriminate]. destruct (dget (h_hdep h) x); [|discriminate].
          intros [= <-]. simpl. rewrite dget_dset_eq. eexists; split; reflexivity. }
        destruct (dget (f_grp f) x) as [d|].
        * destruct (s_data d); [|discriminate]. destruct (negb _); [discriminate|]. apply (F _ Ew).
        * apply (F _ Ew).
  Qed.

  Hypothesis NoDt : sa_dtype a = None.
  Hypothesis Fl : forall q, In q (sim_names p a) -> float_or_absent f q.

  Lemma fresh_values : forall box' extra' inh' h', open_handler (snd s') box' extra' inh' = Ok h' ->
    exists args vals, p_fun p args = Ok vals /\ length vals = length (sim_names p a) /\
      (forall key, arg_spec (h, f) (p_kwargs p) (sa_remap a) (sa_all a) (p_give_h p) (sa_kws a) key (dget args key)) /\
      (forall j name v, nth_error (sim_names p a) j = Some name -> nth_error vals j = Some v ->
         exists c, return_property (h', snd s') name true (Some (p_ret_h p)) = Ok (Some c) /\
           forall i, i < n -> nth_error (c_val c) i = val_at v i).
  Proof.
    intros box' extra' inh' h' Op'.
    destruct (make_step_parts _ _ _ _ _ _ St W) as (s1 & s2 & E1 & E2 & E3 & E4).
    pose proof (reach_open nanint n f box extra inh h Gf Op) as R0.
    pose proof (reach_hdo nanint n _ _ R0 (snap_args_ok p a Ok_)) as R1. cbn [hdo] in R1. rewrite E1 in R1. simpl in R1.
    assert (S' : snd s' = snd s2) by (pose proof (proj1 (unload_file (sim_names p a) s2)) as U; rewrite E4 in U; exact U).
    destruct (open_act _ _ _ _ _ _ Gf Op) as (A1 & A2 & A3 & A4 & A5 & A6 & A7 & _).
    destruct (c29 n nanint p (snap_args a) (h, f) s1 (reach_reachable _ _ _ R0)) as (args & vals & B1 & B2 & B3 & B4 & B5 & B6 & B7).
    { simpl. congruence. } { exact E1. } { reflexivity. } { exact ND. }
    exists args, vals. split; [exact B1|]. split; [exact B2|]. split; [exact B3|].
    intros j name v Hj Hv. destruct (B4 j name v Hj Hv) as (c & C1 & C2 & C3).
    assert (Hin : In name (sim_names p a)) by (eapply nth_error_In; eauto).
    destruct (make_loaded_float n nanint p (snap_args a) (h, f) s1 name (reach_reachable _ _ _ R0) E1 eq_refl ND Hin) as (c0 & D1 & D2 & D3 & D4).
    rewrite NoDt in E3.
    assert (SD : same_dtype (dget (f_grp (snd s1)) name) c0).
    { rewrite B7. simpl. unfold same_dtype. destruct (dget (f_grp f) name) as [d|] eqn:Ed; [|exact I].
      destruct (s_data d) as [o|] eqn:Es; [|exact I]. rewrite D2. exact (Fl name Hin d o Ed Es). }
    assert (HP : has_property (fst s1) name = true) by (unfold has_property; apply smem_In; exact D3).
    rewrite S' in Op' |- *.
    destruct (c30_reopen n nanint (sa_ow a) (sim_names p a) s1 s2 name c0 box' extra' inh' h' (p_ret_h p)
      (reach_reachable _ _ _ R1) E3 Hin HP D1 SD Op') as (F1 & _).
    exists c. split.
    - rewrite F1, <- C1. destruct (write_frame _ _ _ _ _ _ E3) as ((sv & Sv) & _ & _).
      rewrite !return_source. rewrite Sv. unfold source. rewrite Sv. cbn [with_saved h_all h_loaded h_saved h_n h_act h_h h_inh h_hdep].
      rewrite D1. reflexivity.
    - intros i Hi. apply (C2 i i). simpl in A1. cbn [snap_args m_all fst]. rewrite A1.
      apply Nat.ltb_lt in Hi. destruct (sa_all a); rewrite nth_error_seq, Hi; reflexivity.
  Qed.
End Fresh.
