(** Lemmas about the predefined properties. *)
From Verif Require Import Dict Util Rat HandlerModel HandlerSpec Handler Handler2 Handler3 Handler4 BuiltinModel.
Open Scope string_scope.
Open Scope list_scope.
Open Scope nat_scope.

Lemma builtin_shape b : In b builtins -> NoDup (b_names b) /\ b_names b <> [] /\ b_kwargs b = g_req (header (b_rel b)) /\
  (forall k, In k (b_kwargs b) -> k <> "box_edge").
Proof.
  intros B. assert (A : Forall (fun b => NoDup (b_names b) /\ b_names b <> [] /\ b_kwargs b = g_req (header (b_rel b)) /\
    (forall k, In k (b_kwargs b) -> k <> "box_edge")) builtins).
  { repeat constructor; cbn; try discriminate; intuition (try discriminate; subst; discriminate). }
  rewrite Forall_forall in A. apply A, B.
Qed.
Lemma builtin_ok rel b : In b builtins -> exists p hd, builtin_prop rel b = Ok p /\ p_names p = b_names b /\ p_kwargs p = b_kwargs b /\
  p_give_h p = false /\ p_ret_h p = false /\ p_hdep p = Some hd /\ p_fun p = pycall (header (b_rel b)) (rel (b_rel b)) /\
  forall name, In name (b_names b) -> dget (p_units p) name = Some (UStr (b_unit b)) /\ dget hd name = Some 0%Z.
Proof.
  intros B. destruct (builtin_shape b B) as (Nd & _).
  destruct (c55_single (b_names b) (pycall (header (b_rel b)) (rel (b_rel b))) (b_kwargs b) false false (b_unit b) 0%Z Nd) as (p & hd & E & N & H & U).
  exists p, hd. split; [exact E|]. unfold builtin_prop, new_multiprop in E. cbn [bind] in E. injection E as <-. cbn in *. auto 10.
Qed.

(** the h-dependence and unit of what was made, and that it is there *)
Lemma made_meta nanint p a s s' j name : make_property nanint p a s = (s', Ok tt) -> m_write a = false -> NoDup (new_names p a) ->
  nth_error (new_names p a) j = Some name ->
  exists on u hd e, nth_error (p_names p) j = Some on /\ dget (p_units p) on = Some u /\ p_hdep p = Some hd /\ dget hd on = Some e /\
    dget (h_units (fst s')) name = Some u /\ dget (h_hdep (fst s')) name = Some e /\ In name (h_all (fst s')).
Proof.
  intros Hm Hw Hd Hj. destruct (make_split _ _ _ _ _ Hm Hw) as (names & vals & -> & Ln & He & Hf).
  destruct (evaluate_spec _ _ _ _ _ _ He) as (args & raw & Hfun & Lr & Ha & Hv).
  assert (Lv : length vals = length (new_names p a)).
  { destruct (p_ret_h p); [congruence|]. destruct (p_hdep p).
    - rewrite Ln. eapply unh_length; eauto.
    - destruct Hv as [-> ->]. simpl in *; congruence. }
  set (L := combine (combine (combine (p_names p) (new_names p a))
       (map (fun k => smem k (h_all (fst s))) (new_names p a))) vals) in *.
  assert (EL : map (fun x => snd (fst (fst x))) L = new_names p a).
  { apply loop_new; rewrite ?map_length; auto. }
  destruct (nth_error_lt_Some vals j) as [w Hw'].
  { rewrite Lv. eapply nth_error_Some_lt; eauto. }
  destruct (nth_error_lt_Some (p_names p) j) as [pn Hpn].
  { rewrite <- Ln. eapply nth_error_Some_lt; eauto. }
  assert (HL : nth_error L j = Some (pn, name, smem name (h_all (fst s)), w)).
  { unfold L. rewrite !nth_error_combine, nth_error_map_some, Hpn, Hj, Hw'. reflexivity. }
  assert (K1 : NoDup (map (fun x => snd (fst (fst x))) L)) by (rewrite EL; auto).
  assert (K2 : forall x, In x L -> snd (fst x) = true -> In (snd (fst (fst x))) (h_all (fst s)))
    by (intros x Hx Ho; eapply loop_ow; eauto).
  destruct (make_loop_at _ _ _ _ _ j _ _ _ _ Hf K1 K2 HL) as (c & u & hd & e & Hfill & Hu & Hhd & Hee & Hlo & Hun & Hhe & Hal).
  exists pn, u, hd, e. auto 10.
Qed.

(** without dependence on h the units do not matter *)
Lemma return_h0 s p ua c : dget (h_hdep (fst s)) p = Some 0%Z -> return_property s p ua (Some false) = Ok (Some c) ->
  forall inh, return_property s p ua inh = Ok (Some c).
Proof.
  intros D H inh. rewrite return_source in *. destruct (negb _); [discriminate|]. unfold dfind in *. rewrite D in *. cbn [bind] in *.
  destruct (match inh with Some b => b | None => h_inh (fst s) end); exact H.
Qed.

(** an input that is nowhere *)
Lemma gather_missing n s kwargs remap ua g acc k : hinv n s -> In k kwargs -> has_property (fst s) (remapped remap k) = false ->
  dget (h_extra (fst s)) (remapped remap k) = None -> gather ValueError s kwargs remap ua (Some g) acc = Raise ValueError.
Proof.
  intros I. revert acc. induction kwargs as [|a l IH]; intros acc K Hp Hx; [destruct K|]. cbn [gather].
  destruct (has_property (fst s) (remapped remap a)) eqn:Ha.
  - assert (In (remapped remap a) (h_all (fst s))) as Al by (apply smem_In, Ha).
    assert (exists o, return_property s (remapped remap a) ua (Some g) = Ok o) as (o & ->).
    { destruct (dmem (h_loaded (fst s)) (remapped remap a)) eqn:E1; [destruct (return_ok n s _ ua (Some g) I Al (or_introl E1)); eauto|].
      destruct (in_dec string_dec (remapped remap a) (h_saved (fst s))) as [E2|E2]; [destruct (return_ok n s _ ua (Some g) I Al (or_intror E2)); eauto|].
      exists None. eapply return_none; eauto. }
    cbn [bind]. apply IH; auto. destruct K as [->|K]; [congruence|exact K].
  - destruct (dget (h_extra (fst s)) (remapped remap a)) eqn:Hxa; [|reflexivity]. apply IH; auto. destruct K as [->|K]; [congruence|exact K].
Qed.
Lemma make_before nanint p a s e : (forall ua, ua = m_all a -> evaluate_all p s ua (m_remap a) (m_kws a) = Raise e) ->
  make_property nanint p a s = (s, Raise e) \/ make_property nanint p a s = (s, Raise ValueError).
Proof.
  intros E. unfold make_property. cbv zeta. destruct (_ && negb (covers _ _)); [auto|].
  destruct (match m_rename a with None => _ | Some r => _ end) as [names|e'] eqn:En.
  - destruct (_ && _); [auto|]. rewrite (E _ eq_refl). auto.
  - destruct (m_rename a) as [r|]; [|discriminate]. destruct (_ =? _)%nat; [discriminate|]. injection En as <-. auto.
Qed.

(** the handler's unit setting is not seen *)
Lemma return_inh s p ua g u : return_property (set_in_h_units (fst s) u, snd s) p ua (Some g) = return_property s p ua (Some g).
Proof. destruct s as [h f]. unfold set_in_h_units. cbn [fst snd]. destruct (h_box h); reflexivity. Qed.
Lemma gather_inh missing s kwargs remap ua g acc u : (forall k, In k kwargs -> remapped remap k <> "box_edge") ->
  gather missing (set_in_h_units (fst s) u, snd s) kwargs remap ua (Some g) acc = gather missing s kwargs remap ua (Some g) acc.
Proof.
  intros Nb. revert acc. induction kwargs as [|a l IH]; intros acc; [reflexivity|]. cbn [gather]. rewrite return_inh.
  assert (E1 : has_property (fst (set_in_h_units (fst s) u, snd s)) (remapped remap a) = has_property (fst s) (remapped remap a)).
  { unfold set_in_h_units. cbn [fst]. destruct (h_box (fst s)); reflexivity. }
  assert (E2 : dget (h_extra (fst (set_in_h_units (fst s) u, snd s))) (remapped remap a) = dget (h_extra (fst s)) (remapped remap a)).
  { unfold set_in_h_units. cbn [fst]. destruct (h_box (fst s)); [|reflexivity]. cbn [with_inh h_extra]. apply dget_dset_ne, Nb. left; reflexivity. }
  rewrite E1, E2. destruct (has_property (fst s) (remapped remap a)).
  - destruct (return_property s (remapped remap a) ua (Some g)); [|reflexivity]. cbn [bind]. apply IH. intros k K. apply Nb. right; exact K.
  - destruct (dget (h_extra (fst s)) (remapped remap a)); [|reflexivity]. apply IH. intros k K. apply Nb. right; exact K.
Qed.
Lemma evaluate_inh p s ua remap kws u : (forall k, In k (p_kwargs p) -> remapped remap k <> "box_edge") ->
  evaluate_all p (set_in_h_units (fst s) u, snd s) ua remap kws = evaluate_all p s ua remap kws.
Proof.
  intros Nb. unfold evaluate_all. rewrite gather_inh by exact Nb. cbn [fst].
  replace (h_h (set_in_h_units (fst s) u)) with (h_h (fst s)); [reflexivity|]. unfold set_in_h_units. destruct (h_box (fst s)); reflexivity.
Qed.
Lemma gather_mem missing s kwargs remap ua g acc args : gather missing s kwargs remap ua (Some g) acc = Ok args ->
  forall k, dmem args k = smem k kwargs || dmem acc k.
Proof.
  revert acc. induction kwargs as [|a l IH]; intros acc H k; cbn [gather] in H; [injection H as <-; reflexivity|].
  assert (G : forall v, gather missing s l remap ua (Some g) (dset acc a v) = Ok args -> dmem args k = smem k (a :: l) || dmem acc k).
  { intros v Hg. rewrite (IH _ Hg k), dmem_dset. cbn [smem existsb]. unfold smem.
    destruct (String.eqb k a), (existsb (String.eqb k) l), (dmem acc k); reflexivity. }
  destruct (has_property (fst s) (remapped remap a)).
  - destruct (return_property s (remapped remap a) ua (Some g)); [|discriminate]. eapply G, H.
  - destruct (dget (h_extra (fst s)) (remapped remap a)); [|discriminate]. eapply G, H.
Qed.
(** making a property keeps a reachable state reachable *)
Lemma reach_make n nanint p a s : reachable n s -> m_write a = false -> ~ In "mass_cuts" (p_names p) -> (forall r, m_rename a = Some r -> ~ In "mass_cuts" r) ->
  reachable n (fst (make_property nanint p a s)).
Proof.
  intros (f & box & extra & inh & h0 & nanint' & cs & G & O & C & ->) W N1 N2.
  exists f, box, extra, inh, h0, nanint', (cs ++ [HMake p (mkMA (m_rename a) (m_remap a) (m_kws a) (m_ow a) (m_all a) false (m_owdisk a) None (m_unload a))]).
  split; [exact G|]. split; [exact O|]. split.
  - apply Forall_app. split; [exact C|]. constructor; [|constructor]. cbn. repeat split; auto. discriminate.
  - unfold hdo_all. rewrite fold_left_app. cbn [fold_left]. f_equal. destruct a. cbn in W. subst. reflexivity.
Qed.
Lemma make_h nanint p a s s' : make_property nanint p a s = (s', Ok tt) -> m_write a = false -> h_h (fst s') = h_h (fst s).
Proof. intros M W. destruct (make_split _ _ _ _ _ M W) as (names & vals & _ & _ & _ & F). apply make_loop_frame in F. apply F. Qed.
