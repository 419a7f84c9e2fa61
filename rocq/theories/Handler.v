(** Proofs about the Handler model. *)
From Verif Require Import Dict Util Rat HandlerModel HandlerSpec.
From Coq Require Import Sorted.
Open Scope string_scope.
Open Scope list_scope.
Open Scope nat_scope.

Arguments return_property : simpl never.
Arguments set_in_h_units : simpl never.

(** * for_each *)
Lemma for_each_inv {A} (P : st -> Prop) (step : A -> st -> st * exc unit) l s :
  (forall x s, In x l -> P s -> P (fst (step x s))) -> P s -> P (fst (for_each step l s)).
Proof.
  revert s; induction l as [|x l IH]; simpl; intros s Hs HP; auto.
  pose proof (Hs x s (or_introl eq_refl) HP) as H1.
  destruct (step x s) as [s' [u|e]]; simpl in *; auto.
Qed.

(** a loop that raises has completed a prefix and stopped in the next pass *)
Lemma for_each_raise {A} (step : A -> st -> st * exc unit) l s s' e :
  for_each step l s = (s', Raise e) ->
  exists l1 x l2 s1, l = l1 ++ x :: l2 /\ for_each step l1 s = (s1, Ok tt) /\ step x s1 = (s', Raise e).
Proof.
  revert s; induction l as [|x l IH]; simpl; intros s H; [discriminate|].
  destruct (step x s) as [s1 [[]|e1]] eqn:E.
  - destruct (IH _ H) as (l1 & y & l2 & s2 & -> & H1 & H2).
    exists (x :: l1), y, l2, s2. split; [reflexivity|]. simpl. rewrite E. auto.
  - inversion H; subst. exists [], x, l, s. auto.
Qed.

Lemma for_each_app {A} (step : A -> st -> st * exc unit) l1 l2 s s1 :
  for_each step l1 s = (s1, Ok tt) -> for_each step (l1 ++ l2) s = for_each step l2 s1.
Proof.
  revert s; induction l1 as [|x l IH]; simpl; intros s H.
  - inversion H; reflexivity.
  - destruct (step x s) as [s2 [u|e]]; [auto|discriminate].
Qed.

(** * columns *)
Definition rows (l : list (option Qc)) (inds : list nat) : exc (list (option Qc)) :=
  mapM (fun i => match nth_error l i with Some v => Ok v | None => Raise IndexError end) inds.

Lemma rows_ok l inds :
  Forall (fun i => i < length l) inds -> rows l inds = Ok (map (fun i => nth i l None) inds).
Proof.
  unfold rows. induction inds as [|i inds IH]; simpl; intros H; [reflexivity|].
  inversion H; subst. destruct (nth_error_lt_Some l i) as [x Hx]; auto.
  rewrite Hx. simpl. rewrite IH by auto. simpl. rewrite (nth_error_nth _ _ None Hx). reflexivity.
Qed.

Lemma map_nth_seq {A} (l : list A) d : map (fun i => nth i l d) (seq 0 (length l)) = l.
Proof.
  apply (list_eq_nth d); rewrite map_length, seq_length; [reflexivity|].
  intros i Hi. rewrite nth_map_seq; auto.
Qed.

Lemma rows_all l : rows l (seq 0 (length l)) = Ok l.
Proof.
  rewrite rows_ok; [rewrite map_nth_seq; reflexivity|].
  apply Forall_forall; intros i Hi; apply in_seq in Hi; lia.
Qed.

Lemma take_rows c inds : take c inds = bind (rows (c_val c) inds) (fun vs => Ok (mkCol (c_int c) vs)).
Proof. reflexivity. Qed.

Lemma take_all c n : length (c_val c) = n -> take c (seq 0 n) = Ok c.
Proof. intros <-. rewrite take_rows, rows_all. destruct c; reflexivity. Qed.

Lemma take_ok c inds : Forall (fun i => i < length (c_val c)) inds ->
  take c inds = Ok (mkCol (c_int c) (map (fun i => nth i (c_val c) None) inds)).
Proof. intros H. rewrite take_rows, rows_ok; auto. Qed.

Lemma take_length c inds v : take c inds = Ok v -> length (c_val v) = length inds.
Proof.
  unfold take. destruct (mapM _ _) as [vs|] eqn:E; simpl; [|discriminate].
  intros [= <-]. simpl. apply mapM_ok_length in E. auto.
Qed.

Lemma take_nth c inds v k i : take c inds = Ok v -> nth_error inds k = Some i ->
  nth_error (c_val v) k = nth_error (c_val c) i /\ i < length (c_val c).
Proof.
  unfold take. destruct (mapM _ _) as [vs|] eqn:E; simpl; [|discriminate].
  intros [= <-] Hk. simpl. destruct (mapM_ok_nth _ _ _ _ _ E Hk) as (y & Hy & Hi).
  destruct (nth_error (c_val c) i) as [w|] eqn:Ew; [|discriminate].
  inversion Hi; subst. split; auto. eapply nth_error_Some_lt; eauto.
Qed.

(** the loaded or stored column a property is read from *)
Definition source (s : st) (p : string) : exc (option col) :=
  match dget (h_loaded (fst s)) p with
  | Some c => Ok (Some c)
  | None =>
      if smem p (h_saved (fst s)) then
        do d <- dfind (f_grp (snd s)) p ;;
        match s_data d with SRec _ => Raise (UserExn 0) | SCol c => Ok (Some c) end
      else Ok None
  end.

Definition conv (h : Qc) (e : Z) (c : col) : col :=
  if (e =? 0)%Z then c else col_scale (hpow h e) c.

Lemma return_source s p ua inh :
  return_property s p ua inh =
  if negb (smem p (h_all (fst s))) then Raise ValueError
  else
    do e <- (if (match inh with Some b => b | None => h_inh (fst s) end) then Ok 0%Z else dfind (h_hdep (fst s)) p) ;;
    do o <- source s p ;;
    match o with
    | None => Ok None
    | Some c => do v <- take c (if ua then seq 0 (h_n (fst s)) else h_act (fst s)) ;;
                Ok (Some (conv (h_h (fst s)) e v))
    end.
Proof.
  destruct s as [h f]; unfold return_property, source; simpl.
  destruct (negb _); auto.
  destruct (if match inh with Some b => b | None => h_inh h end then _ else _) as [e|]; simpl; auto.
  destruct (dget (h_loaded h) p) as [c|]; simpl; auto.
  destruct (smem p (h_saved h)); simpl; auto.
  destruct (dfind (f_grp f) p) as [d|]; simpl; auto.
  destruct (s_data d); reflexivity.
Qed.

(** * C26: loading and unloading *)
Lemma with_loaded_id h : with_loaded h (h_loaded h) = h.
Proof. destruct h; reflexivity. Qed.

(** two states that differ only in the loaded columns of saved properties *)
Record same_but_loaded (s t : st) : Prop := {
  sl_file : snd s = snd t;
  sl_rest : with_loaded (fst s) (h_loaded (fst t)) = fst t;
  sl_src : forall p, source s p = source t p }.

Lemma sl_fields s t : same_but_loaded s t ->
  h_all (fst s) = h_all (fst t) /\ h_n (fst s) = h_n (fst t) /\ h_act (fst s) = h_act (fst t) /\
  h_inh (fst s) = h_inh (fst t) /\ h_hdep (fst s) = h_hdep (fst t) /\ h_h (fst s) = h_h (fst t).
Proof. intros [_ E _]. rewrite <- E. repeat split. Qed.

Lemma sl_return s t p ua inh : same_but_loaded s t ->
  return_property s p ua inh = return_property t p ua inh.
Proof.
  intros H. rewrite !return_source.
  destruct (sl_fields s t H) as (E1 & E2 & E3 & E4 & E5 & E6).
  rewrite E1, E2, E3, E4, E5, E6, (sl_src s t H). reflexivity.
Qed.

Lemma sl_refl s : same_but_loaded s s.
Proof. split; auto. apply with_loaded_id. Qed.

Lemma sl_trans s t u : same_but_loaded s t -> same_but_loaded t u -> same_but_loaded s u.
Proof.
  intros [A1 A2 A3] [B1 B2 B3]. split; [congruence| |intros; congruence].
  rewrite <- B2, <- A2. reflexivity.
Qed.

Lemma coherent_load s p : coherent s ->
  coherent (fst (load_one p s)) /\ same_but_loaded s (fst (load_one p s)).
Proof.
  intros C. destruct s as [h f]. unfold load_one.
  destruct (smem p (h_saved h)) eqn:Es; simpl; [|split; auto using sl_refl].
  destruct (dget (f_grp f) p) as [d|] eqn:Ed; simpl; [|split; auto using sl_refl].
  destruct (s_data d) as [c|] eqn:Ec; simpl; [|split; auto using sl_refl].
  split.
  - intros q c' Hq Hl. simpl in *. rewrite dget_dset in Hl.
    destruct (String.eqb_spec q p) as [->|Hn].
    + inversion Hl; subst. eauto.
    + apply (C q c'); auto.
  - split; simpl; auto. intros q. unfold source; simpl. rewrite dget_dset.
    destruct (String.eqb_spec q p) as [->|Hn]; [|reflexivity].
    rewrite Es. unfold dfind. rewrite Ed. simpl. rewrite Ec.
    destruct (dget (h_loaded h) p) as [c'|] eqn:El; auto.
    destruct (C p c') as (d' & Hd & Hc); simpl; auto.
    { apply smem_In; auto. }
    simpl in Hd. congruence.
Qed.

Lemma coherent_unload s p : coherent s -> coherent (fst (unload_one p s)).
Proof.
  intros C. destruct s as [h f]. intros q c Hq Hl. simpl in *.
  rewrite dget_ddel in Hl. destruct (String.eqb p q); [discriminate|]. eapply C; eauto.
Qed.

Lemma sl_unload s p : coherent s -> In p (h_saved (fst s)) ->
  same_but_loaded s (fst (unload_one p s)).
Proof.
  intros C Hs. destruct s as [h f]. split; simpl; auto.
  intros q. unfold source; simpl. rewrite dget_ddel.
  destruct (String.eqb_spec p q) as [->|Hn]; [|reflexivity].
  destruct (dget (h_loaded h) q) as [c|] eqn:El; [|reflexivity].
  destruct (C q c Hs El) as (d & Hd & Hc). simpl in *.
  apply smem_In in Hs. rewrite Hs. unfold dfind. rewrite Hd; simpl. rewrite Hc. reflexivity.
Qed.

(** in a history of reading calls only saved properties are ever loaded *)
Definition loaded_saved (s : st) : Prop :=
  forall p c, dget (h_loaded (fst s)) p = Some c -> In p (h_saved (fst s)).

Lemma ls_load s p : loaded_saved s -> loaded_saved (fst (load_one p s)).
Proof.
  intros L. destruct s as [h f]. unfold load_one.
  destruct (smem p (h_saved h)) eqn:Es; simpl; auto.
  destruct (dget (f_grp f) p) as [d|] eqn:Ed; simpl; auto.
  destruct (s_data d) as [c|] eqn:Ec; simpl; auto.
  intros q c' Hl. simpl in *. rewrite dget_dset in Hl.
  destruct (String.eqb_spec q p) as [->|Hn]; [apply smem_In; auto|eapply L; eauto].
Qed.

Lemma ls_unload s p : loaded_saved s -> loaded_saved (fst (unload_one p s)).
Proof.
  intros L. destruct s as [h f]. intros q c Hl. simpl in *.
  rewrite dget_ddel in Hl. destruct (String.eqb p q); [discriminate|]. eapply L; eauto.
Qed.

Lemma sl_unload_ls s p : coherent s -> loaded_saved s -> same_but_loaded s (fst (unload_one p s)).
Proof.
  intros C L. destruct (in_dec string_dec p (h_saved (fst s))) as [Hi|Hn]; [apply sl_unload; auto|].
  destruct s as [h f]. split; simpl; auto.
  intros q. unfold source; simpl. rewrite dget_ddel.
  destruct (String.eqb_spec p q) as [->|Hq]; [|reflexivity].
  destruct (dget (h_loaded h) q) as [c|] eqn:El; [|reflexivity].
  exfalso; apply Hn. apply (L q c El).
Qed.

Definition rinv (s : st) : Prop := coherent s /\ loaded_saved s.

Lemma rinv_memory c s nanint : moves_memory c = true -> rinv s ->
  rinv (fst (hdo nanint s c)) /\ same_but_loaded s (fst (hdo nanint s c)).
Proof.
  intros Hm HI.
  assert (G : forall step : string -> st -> st * exc unit,
     (forall p t, rinv t -> rinv (fst (step p t)) /\ same_but_loaded t (fst (step p t))) ->
     forall ps, rinv (fst (for_each step ps s)) /\ same_but_loaded s (fst (for_each step ps s))).
  { intros step Hst ps.
    apply (for_each_inv (fun t => rinv t /\ same_but_loaded s t)).
    - intros x t _ [I1 I2]. destruct (Hst x t I1) as [J1 J2]. split; auto. eapply sl_trans; eauto.
    - split; auto using sl_refl. }
  destruct c; try discriminate; simpl.
  - apply G. intros p t [C L]. split; [split|]; [apply coherent_load|apply ls_load|apply coherent_load]; auto.
  - apply G. intros p t [C L].
    split; [split|]; [apply coherent_unload|apply ls_unload|apply sl_unload_ls]; auto.
Qed.

Lemma coherent_frame h h' f : h_saved h' = h_saved h -> h_loaded h' = h_loaded h ->
  rinv (h, f) -> rinv (h', f).
Proof.
  intros E1 E2 [C L]. split; [intros p c|intros p c]; simpl; rewrite ?E1, ?E2; [apply C|apply L].
Qed.

Lemma range_frame p lo hi r inh s :
  exists a n, fst (set_property_range p lo hi r inh s) = (with_act (fst s) a n, snd s).
Proof.
  destruct s as [h f]. unfold set_property_range. destruct p as [name|].
  - destruct (return_property _ _ _ _) as [[c|]|e]; simpl; eauto;
      exists (h_act h), (h_nact h); destruct h; reflexivity.
  - simpl; eauto.
Qed.

Lemma seth_frame h b :
  exists e, set_in_h_units h b = with_inh h b e.
Proof. unfold set_in_h_units. destruct (h_box h); eauto. Qed.

Lemma rinv_hdo c s nanint : reading c = true -> rinv s -> rinv (fst (hdo nanint s c)).
Proof.
  intros Hr HI. destruct c; try discriminate.
  - apply rinv_memory; auto.
  - apply rinv_memory; auto.
  - cbn [hdo]. destruct (range_frame p lo hi reset inh s) as (a & n & ->).
    destruct s as [h f]. eapply coherent_frame; [| |exact HI]; reflexivity.
  - cbn [hdo fst]. destruct (seth_frame (fst s) b) as (e & ->).
    destruct s as [h f]. eapply coherent_frame; [| |exact HI]; reflexivity.
Qed.

(** calls other than load and unload act the same on states that differ only in
    what is loaded *)
Lemma sl_hdo c s t nanint : reading c = true -> moves_memory c = false -> same_but_loaded s t ->
  same_but_loaded (fst (hdo nanint s c)) (fst (hdo nanint t c)).
Proof.
  intros Hr Hm H. destruct (sl_fields s t H) as (E1 & E2 & E3 & E4 & E5 & E6).
  destruct c; try discriminate; cbn [hdo fst].
  - pose proof (sl_return s t) as HR. destruct H as [F R S].
    destruct s as [h f], t as [h' f']. simpl in *. subst f'.
    unfold set_property_range.
    destruct p as [name|].
    + rewrite <- E4. rewrite <- (HR name true (Some (match inh with Some b => b | None => h_inh h end))).
      2:{ split; simpl; auto. }
      destruct (return_property _ _ _ _) as [[c|]|e]; simpl; try (split; simpl; auto; fail).
      rewrite <- E3. split; simpl; auto.
      * rewrite <- R. reflexivity.
    + simpl. rewrite <- E2. split; simpl; auto. rewrite <- R. reflexivity.
  - destruct H as [F R S]. destruct s as [h f], t as [h' f']. simpl in *. subst f'.
    unfold set_in_h_units. rewrite <- R. simpl.
    destruct (h_box h) as [e|]; split; simpl; auto; intros q; specialize (S q); unfold source in *; simpl in *;
      rewrite S, <- R; reflexivity.
Qed.

Lemma c26_history cs s nanint : rinv s -> Forall (fun c => reading c = true) cs ->
  same_but_loaded (hdo_all nanint s (filter (fun c => negb (moves_memory c)) cs)) (hdo_all nanint s cs).
Proof.
  intros HI Hcs.
  assert (G : forall t, rinv t -> same_but_loaded s t ->
     same_but_loaded (hdo_all nanint s (filter (fun c => negb (moves_memory c)) cs)) (hdo_all nanint t cs)).
  2:{ apply G; auto using sl_refl. }
  clear HI. revert s. induction Hcs as [|c cs Hc Hcs IH]; intros s t HI Hst; cbn [filter hdo_all fold_left]; auto.
  destruct (moves_memory c) eqn:Em; cbn [negb].
  - destruct (rinv_memory c t nanint Em HI) as [I2 S2].
    apply IH; auto. eapply sl_trans; eauto.
  - unfold hdo_all; cbn [fold_left]. apply IH.
    + apply rinv_hdo; auto.
    + apply sl_hdo; auto.
Qed.

Lemma open_rinv f box extra inh h : open_handler f box extra inh = Ok h -> rinv (h, f).
Proof.
  unfold open_handler. intros H.
  destruct (mapM _ _) as [us|]; simpl in H; [|discriminate].
  destruct (mapM _ _) as [hs|]; simpl in H; [|discriminate].
  destruct (dfind _ _) as [m|]; simpl in H; [|discriminate].
  inversion H; subst h. clear H.
  match goal with |- rinv (set_in_h_units ?x ?b, _) => destruct (seth_frame x b) as (e & ->) end.
  split; intros p c; simpl; discriminate.
Qed.

Lemma c26 f box extra inh h nanint cs p ua i :
  open_handler f box extra inh = Ok h -> Forall (fun c => reading c = true) cs ->
  return_property (hdo_all nanint (h, f) cs) p ua i =
  return_property (hdo_all nanint (h, f) (filter (fun c => negb (moves_memory c)) cs)) p ua i.
Proof. intros Ho Hc. symmetry. apply sl_return, c26_history; auto. eapply open_rinv; eauto. Qed.

Lemma c26_one s ps p ua i : coherent s ->
  return_property (fst (load_property ps s)) p ua i = return_property s p ua i /\
  (Forall (fun q => In q (h_saved (fst s))) ps ->
   return_property (fst (unload_property ps s)) p ua i = return_property s p ua i).
Proof.
  intros C. split.
  - symmetry. apply sl_return.
    apply (for_each_inv (fun t => coherent t /\ same_but_loaded s t)); auto using sl_refl.
    intros x t _ [I1 I2]. destruct (coherent_load t x I1) as [J1 J2]. split; auto. eapply sl_trans; eauto.
  - intros Hps. symmetry. apply sl_return.
    apply (for_each_inv (fun t => coherent t /\ same_but_loaded s t)); auto using sl_refl.
    intros x t Hx [I1 I2]. split; [apply coherent_unload; auto|].
    eapply sl_trans; [eauto|]. apply sl_unload; auto.
    rewrite Forall_forall in Hps. specialize (Hps x Hx). destruct I2 as [_ R _]. rewrite <- R. auto.
Qed.

(** * The invariant of reachable states *)
Record hinv (n : nat) (s : st) : Prop := {
  i_n : h_n (fst s) = n;
  i_asc : ascending (h_act (fst s));
  i_lt : Forall (fun i => i < n) (h_act (fst s));
  i_nact : h_nact (fst s) = length (h_act (fst s));
  i_loaded : forall p c, dget (h_loaded (fst s)) p = Some c -> length (c_val c) = n /\ p <> "mass_cuts";
  i_hdep : forall p, In p (h_all (fst s)) -> exists e, dget (h_hdep (fst s)) p = Some e;
  i_units : forall p, In p (h_all (fst s)) -> exists u, dget (h_units (fst s)) p = Some u;
  i_file : forall k d, dget (f_grp (snd s)) k = Some d -> k <> "mass_cuts" ->
             exists c, s_data d = SCol c /\ length (c_val c) = n;
  i_mc : forall d, dget (f_grp (snd s)) "mass_cuts" = Some d -> exists r, s_data d = SRec r;
  i_saved : forall p, In p (h_saved (fst s)) -> dmem (f_grp (snd s)) p = true;
  i_all_mc : ~ In "mass_cuts" (h_all (fst s));
  i_h : h_h (fst s) = f_h (snd s) }.

Lemma ascending_seq a n : ascending (seq a n).
Proof.
  revert a; induction n as [|n IH]; intros a; simpl; [constructor|].
  constructor; [apply IH|]. apply Forall_forall; intros i Hi; apply in_seq in Hi; lia.
Qed.

Lemma ascending_filter f l : ascending l -> ascending (filter f l).
Proof.
  induction l as [|a l IH]; simpl; intros H; [constructor|]. inversion H; subst.
  destruct (f a); [|apply IH; auto]. constructor; [apply IH; auto|].
  apply Forall_forall; intros i Hi. apply filter_In in Hi. rewrite Forall_forall in H3. apply H3; tauto.
Qed.

Lemma nonzero_spec bs :
  nonzero bs = filter (fun i => nth i bs false) (seq 0 (length bs)).
Proof.
  unfold nonzero.
  assert (G : forall a, map fst (filter (fun p : nat * bool => snd p) (combine (seq a (length bs)) bs)) =
     filter (fun i => nth (i - a) bs false) (seq a (length bs))).
  { induction bs as [|b bs IH]; intros a; simpl; [reflexivity|].
    rewrite Nat.sub_diag.
    assert (E : filter (fun i => match i - a with 0 => b | S m => nth m bs false end) (seq (S a) (length bs))
       = filter (fun i => nth (i - S a) bs false) (seq (S a) (length bs))).
    { apply filter_ext_in. intros i Hi. apply in_seq in Hi.
      replace (i - a) with (S (i - S a)) by lia. reflexivity. }
    rewrite E. destruct b; simpl; rewrite IH; reflexivity. }
  rewrite G. apply filter_ext. intros i. rewrite Nat.sub_0_r. reflexivity.
Qed.

Lemma nonzero_asc bs : ascending (nonzero bs).
Proof. rewrite nonzero_spec. apply ascending_filter, ascending_seq. Qed.

Lemma nonzero_lt bs : Forall (fun i => i < length bs) (nonzero bs).
Proof.
  rewrite nonzero_spec. apply Forall_forall; intros i Hi. apply filter_In in Hi as [Hi _].
  apply in_seq in Hi; lia.
Qed.

Lemma nonzero_In bs i : In i (nonzero bs) <-> nth_error bs i = Some true.
Proof.
  rewrite nonzero_spec, filter_In, in_seq. split.
  - intros [H1 H2]. destruct (nth_error_lt_Some bs i) as [b Hb]; [lia|].
    rewrite (nth_error_nth _ _ false Hb) in H2. congruence.
  - intros H. pose proof (nth_error_Some_lt _ _ _ H). split; [lia|].
    apply (nth_error_nth _ _ false) in H. auto.
Qed.

Lemma return_all_length s p inh c :
  return_property s p true inh = Ok (Some c) -> length (c_val c) = h_n (fst s).
Proof.
  rewrite return_source. destruct (negb _); [discriminate|].
  destruct (if match inh with Some b => b | None => h_inh (fst s) end then _ else _) as [e|]; simpl; [|discriminate].
  destruct (source s p) as [[c0|]|]; simpl; try discriminate.
  destruct (take c0 _) as [v|] eqn:E; simpl; [|discriminate].
  intros [= <-]. apply take_length in E. rewrite seq_length in E.
  unfold conv. destruct (e =? 0)%Z; simpl; rewrite ?map_length; auto.
Qed.

(** a step that keeps the selection and everything but the listed parts *)
Lemma hinv_intro n s h' f' : hinv n s ->
  h_h h' = h_h (fst s) -> f_h f' = f_h (snd s) ->
  h_n h' = h_n (fst s) -> h_act h' = h_act (fst s) -> h_nact h' = h_nact (fst s) ->
  (forall p c, dget (h_loaded h') p = Some c -> length (c_val c) = n /\ p <> "mass_cuts") ->
  (forall p, In p (h_all h') -> exists e, dget (h_hdep h') p = Some e) ->
  (forall p, In p (h_all h') -> exists e, dget (h_units h') p = Some e) ->
  (forall k d, dget (f_grp f') k = Some d -> k <> "mass_cuts" ->
             exists c, s_data d = SCol c /\ length (c_val c) = n) ->
  (forall d, dget (f_grp f') "mass_cuts" = Some d -> exists r, s_data d = SRec r) ->
  (forall p, In p (h_saved h') -> dmem (f_grp f') p = true) ->
  ~ In "mass_cuts" (h_all h') ->
  hinv n (h', f').
Proof.
  intros [A1 A2 A3 A4 A5 A6 A7 A8 A9 A10 A11 A12] Eh Ef E1 E2 E3. intros.
  split; simpl; auto; rewrite ?E1, ?E2, ?E3; auto. congruence.
Qed.

Lemma hinv_load n p s : hinv n s -> hinv n (fst (load_one p s)).
Proof.
  intros I. destruct s as [h f]. unfold load_one.
  destruct (smem p (h_saved h)) eqn:Es; simpl; auto.
  destruct (dget (f_grp f) p) as [d|] eqn:Ed; simpl; auto.
  destruct (s_data d) as [c|] eqn:Ec; simpl; auto.
  apply (hinv_intro n (h, f)); auto; simpl; try apply I.
  intros q c' H. rewrite dget_dset in H. destruct (String.eqb_spec q p) as [->|Hn].
  - inversion H; subst c'. destruct (string_dec p "mass_cuts") as [->|Hp].
    + destruct (i_mc _ _ I d Ed) as (r & Hr). congruence.
    + destruct (i_file _ _ I p d Ed Hp) as (c1 & H1 & H2). split; congruence.
  - apply (i_loaded _ _ I q c'); auto.
Qed.

Lemma hinv_unload n p s : hinv n s -> hinv n (fst (unload_one p s)).
Proof.
  intros I. destruct s as [h f]. apply (hinv_intro n (h, f)); auto; simpl; try apply I.
  intros q c H. rewrite dget_ddel in H. destruct (String.eqb p q); [discriminate|].
  apply (i_loaded _ _ I q c); auto.
Qed.

Lemma fill_length n inds c v : fill n inds c = Ok v -> length (c_val v) = n.
Proof.
  unfold fill. destruct (c_int c); [discriminate|].
  destruct (if _ : bool then _ else _) as [vs|]; simpl; [|discriminate]. intros [= <-]. simpl.
  assert (G : forall l (a : list (option Qc)), length (fold_left (fun a iv => upd a (fst iv) (snd iv)) l a) = length a).
  { induction l as [|x l IH]; simpl; intros a; [reflexivity|]. rewrite IH, upd_length. reflexivity. }
  rewrite G, repeat_length. reflexivity.
Qed.

Lemma hinv_make n p inds x s : hinv n s -> snd (fst (fst x)) <> "mass_cuts" ->
  (snd (fst x) = true -> In (snd (fst (fst x))) (h_all (fst s))) ->
  hinv n (fst (make_one p inds x s)).
Proof.
  destruct x as [[[name new] ow] c]. cbn [fst snd]. intros I Hx How.
  destruct s as [h f]. unfold make_one.
  destruct (fill (h_n h) inds c) as [v|] eqn:Ef; [|exact I]. cbv zeta.
  assert (L : forall q c', dget (dset (h_loaded h) new v) q = Some c' ->
     length (c_val c') = n /\ q <> "mass_cuts").
  { intros q c' H. rewrite dget_dset in H. destruct (String.eqb_spec q new) as [->|Hn].
    - inversion H; subst c'. split; auto. apply fill_length in Ef. rewrite Ef. apply (i_n _ _ I).
    - apply (i_loaded _ _ I q c'); auto. }
  assert (U : forall u q, In q (h_all h) -> exists e, dget (dset (h_units h) new u) q = Some e).
  { intros u q Hq. rewrite dget_dset. destruct (String.eqb q new); eauto. apply (i_units _ _ I q Hq). }
  assert (D : forall u q, In q (h_all h) -> exists e, dget (dset (h_hdep h) new u) q = Some e).
  { intros u q Hq. rewrite dget_dset. destruct (String.eqb q new); eauto. apply (i_hdep _ _ I q Hq). }
  destruct (dget (p_units p) name) as [u|].
  2:{ apply (hinv_intro n (h, f)); auto; simpl; try apply I; auto. }
  destruct (p_hdep p) as [hd|].
  2:{ apply (hinv_intro n (h, f)); auto; simpl; try apply I; auto. }
  destruct (dget hd name) as [e|].
  2:{ apply (hinv_intro n (h, f)); auto; simpl; try apply I; auto. }
  destruct ow.
  - apply (hinv_intro n (h, f)); auto; simpl; try apply I; auto.
  - apply (hinv_intro n (h, f)); auto; simpl; try apply I; auto.
    + intros q Hq. apply in_app_or in Hq as [Hq|[<-|[]]]; auto. rewrite dget_dset_eq; eauto.
    + intros q Hq. apply in_app_or in Hq as [Hq|[<-|[]]]; auto. rewrite dget_dset_eq; eauto.
    + intros Hq. apply in_app_or in Hq as [Hq|[Hq|[]]]; [apply (i_all_mc _ _ I Hq)|congruence].
Qed.

Lemma store_length nanint old new : length (c_val (store_into nanint old new)) = length (c_val new).
Proof. unfold store_into. destruct (_ && _); simpl; rewrite ?map_length; reflexivity. Qed.

Lemma hinv_put n s p d : hinv n s -> p <> "mass_cuts" ->
  (exists c, s_data d = SCol c /\ length (c_val c) = n) ->
  hinv n (fst s, mkFile (f_h (snd s)) (dset (f_grp (snd s)) p d)).
Proof.
  intros I Hp Hd. apply (hinv_intro n s); auto; simpl; try apply I.
  - intros k d' H Hk. rewrite dget_dset in H. destruct (String.eqb k p).
    + inversion H; subst; auto.
    + apply (i_file _ _ I k d'); auto.
  - intros d' H. rewrite dget_dset_ne in H by auto. apply (i_mc _ _ I d' H).
  - intros q Hq. rewrite dmem_dset, (i_saved _ _ I q Hq). apply orb_true_r.
Qed.

Lemma hinv_write n nanint ow dt p s : hinv n s -> (forall g, dt = Some g -> keeps_length g) ->
  hinv n (fst (write_one nanint ow dt p s)).
Proof.
  intros I Hdt. destruct s as [h f]. unfold write_one.
  destruct (dget (h_loaded h) p) as [c|] eqn:Ec; [|exact I].
  destruct (i_loaded _ _ I p c Ec) as [Lc Pc].
  destruct (_ && _); [exact I|]. cbv zeta.
  assert (G : forall d, (exists c', s_data d = SCol c' /\ length (c_val c') = n) ->
    hinv n (fst (match dget (h_units h) p with
          | None => ((h, mkFile (f_h f) (dset (f_grp f) p d)), Raise (A:=unit) KeyError)
          | Some u =>
              match dget (h_hdep h) p with
              | None => ((h, mkFile (f_h f) (dset (f_grp f) p (mkDS (s_data d) (Some u) (s_hdep d) (s_user d)))), Raise KeyError)
              | Some e =>
                  ((if smem p (h_saved h) then h else with_saved h (h_saved h ++ [p]),
                    mkFile (f_h f) (dset (f_grp f) p (mkDS (s_data d) (Some u) (Some e) true))), Ok tt)
              end
          end))).
  { intros d Hd.
    destruct (dget (h_units h) p) as [u|]; [|apply (hinv_put n (h, f)); auto].
    destruct (dget (h_hdep h) p) as [e|]; [|apply (hinv_put n (h, f)); auto].
    cbn [fst].
    pose proof (hinv_put n (h, f) p (mkDS (s_data d) (Some u) (Some e) true) I Pc Hd) as J.
    destruct (smem p (h_saved h)); [exact J|].
    cbn [fst snd] in J.
    apply (hinv_intro n _ _ _ J); auto; simpl; try apply J.
    intros q Hq. apply in_app_or in Hq as [Hq|[<-|[]]].
    - apply (i_saved _ _ J q Hq).
    - rewrite dmem_dset, String.eqb_refl. reflexivity. }
  destruct (dget (f_grp f) p) as [d|] eqn:Ed.
  - destruct (s_data d) as [old|]; [|exact I].
    destruct (negb _) eqn:El; [exact I|]. apply G. simpl. eexists; split; [reflexivity|].
    rewrite store_length; auto.
  - apply G. simpl. eexists; split; [reflexivity|].
    destruct dt as [g|]; auto. rewrite (Hdt g eq_refl). auto.
Qed.

Lemma hinv_delete n p s : hinv n s -> hinv n (fst (delete_one p s)).
Proof.
  intros I. destruct s as [h f]. unfold delete_one.
  destruct (smem p (h_saved h)) eqn:Es; cbn [negb]; [|exact I].
  destruct (dmem (f_grp f) p) eqn:Em; cbn [negb]; [|exact I]. cbv zeta. cbn [fst].
  assert (K : forall q, q <> p -> String.eqb p q = false) by (intros q Hq; apply String.eqb_neq; auto).
  apply (hinv_intro n (h, f)); auto; simpl; try apply I.
  - intros q Hq. apply filter_In in Hq as [Hq Hn]. apply negb_true_iff, String.eqb_neq in Hn.
    rewrite dget_ddel, K by auto. apply (i_hdep _ _ I q Hq).
  - intros q Hq. apply filter_In in Hq as [Hq Hn]. apply negb_true_iff, String.eqb_neq in Hn.
    rewrite dget_ddel, K by auto. apply (i_units _ _ I q Hq).
  - intros k d H. rewrite dget_ddel in H. destruct (String.eqb p k); [discriminate|]. apply (i_file _ _ I k d H).
  - intros d H. rewrite dget_ddel in H. destruct (String.eqb p _); [discriminate|]. apply (i_mc _ _ I d H).
  - intros q Hq. unfold dmem. apply smem_In; auto.
  - intros Hq. apply filter_In in Hq as [Hq _]. apply (i_all_mc _ _ I Hq).
Qed.

Lemma hinv_range n p lo hi r inh s : hinv n s -> hinv n (fst (set_property_range p lo hi r inh s)).
Proof.
  intros I. destruct s as [h f].
  assert (G : forall a, ascending a -> Forall (fun i => i < n) a -> hinv n (with_act h a (length a), f)).
  { intros a Ha Hl. destruct I. split; simpl; auto. }
  unfold set_property_range. destruct p as [name|].
  - destruct (return_property _ _ _ _) as [[c|]|e] eqn:E; try exact I. cbn [fst].
    apply return_all_length in E. cbn [fst] in E.
    assert (F : Forall (fun i => i < n) (nonzero (map (in_range lo hi) (c_val c)))).
    { pose proof (nonzero_lt (map (in_range lo hi) (c_val c))) as F.
      rewrite map_length, E in F. pose proof (i_n _ _ I) as En. cbn [fst] in En. rewrite En in F. exact F. }
    destruct r; apply G; auto using nonzero_asc, ascending_filter.
    apply Forall_forall; intros i Hi. apply filter_In in Hi as [Hi _]. rewrite Forall_forall in F; auto.
  - cbn [fst]. rewrite <- (seq_length (h_n h) 0) at 2. apply G; [apply ascending_seq|].
    apply Forall_forall; intros i Hi; apply in_seq in Hi. pose proof (i_n _ _ I). simpl in *; lia.
Qed.

Lemma hinv_seth n b s : hinv n s -> hinv n (set_in_h_units (fst s) b, snd s).
Proof.
  intros I. destruct s as [h f]. cbn [fst snd]. destruct (seth_frame h b) as (e & ->).
  destruct I; split; simpl in *; auto.
Qed.

Lemma make_all_mono p inds x s q : In q (h_all (fst s)) -> In q (h_all (fst (fst (make_one p inds x s)))).
Proof.
  destruct x as [[[name new] ow] c]. destruct s as [h f]. unfold make_one. intros Hq.
  destruct (fill _ _ _); simpl; auto. destruct (dget _ _); simpl; auto.
  destruct (p_hdep p); simpl; auto. destruct (dget _ _); simpl; auto.
  destruct ow; simpl; auto. apply in_or_app; auto.
Qed.

Lemma hinv_make_loop n p inds l s : hinv n s ->
  Forall (fun x => snd (fst (fst x)) <> "mass_cuts" /\
                   (snd (fst x) = true -> In (snd (fst (fst x))) (h_all (fst s)))) l ->
  hinv n (fst (for_each (make_one p inds) l s)).
Proof.
  revert s; induction l as [|x l IH]; intros s I F; simpl; auto.
  inversion F; subst. destruct H1 as [H1 H1'].
  pose proof (hinv_make n p inds x s I H1 H1') as J.
  pose proof (make_all_mono p inds x s) as M.
  destruct (make_one p inds x s) as [s' [u|e]]; cbn [fst] in *; auto.
  apply IH; auto. eapply Forall_impl; [|exact H2]. cbn. intros a [Ha Hb]; split; auto.
Qed.

Lemma loop_names (names new : list string) (ow : list bool) (vals : list col) x :
  In x (combine (combine (combine names new) ow) vals) -> In (snd (fst (fst x))) new.
Proof.
  destruct x as [[[a b] c] d]. cbn. intros H.
  apply in_combine_l in H. apply in_combine_l in H. apply in_combine_r in H. auto.
Qed.

Lemma loop_ow h (names new : list string) (vals : list col) x :
  In x (combine (combine (combine names new) (map (fun k => smem k (h_all h)) new)) vals) ->
  snd (fst x) = true -> In (snd (fst (fst x))) (h_all h).
Proof.
  destruct x as [[[a b] c] d]. cbn. intros H Hc. subst c.
  apply in_combine_l in H. revert names H.
  induction new as [|k new IH]; intros [|m names] H; simpl in H; try tauto.
  destruct H as [H|H].
  - inversion H; subst. apply smem_In; auto.
  - eapply IH; eauto.
Qed.


Lemma hinv_makeprop n nanint p a s : hinv n s -> call_ok (HMake p a) ->
  hinv n (fst (make_property nanint p a s)).
Proof.
  intros I (Hdt & Hn & Hr). unfold make_property. cbv zeta.
  destruct (_ && negb (covers _ _)); [exact I|].
  destruct (match m_rename a with None => _ | Some r => _ end) as [names|] eqn:En; [|exact I].
  assert (Hmc : ~ In "mass_cuts" names).
  { destruct (m_rename a) as [r|] eqn:Er.
    - destruct (_ =? _); inversion En; subst; auto.
    - inversion En; subst; auto. }
  destruct (_ && _); [exact I|].
  destruct (evaluate_all _ _ _ _ _) as [vals|]; [|exact I].
  set (L := combine (combine (combine (p_names p) names) (map (fun k => smem k (h_all (fst s))) names)) vals).
  pose proof (hinv_make_loop n p (if m_all a then seq 0 (h_n (fst s)) else h_act (fst s)) L s I) as J.
  destruct (for_each _ L s) as [s1 [u|e]]; cbn [fst] in J.
  2:{ apply J. apply Forall_forall. intros x Hx. split.
      - intros E. apply Hmc. rewrite <- E. eapply loop_names; eauto.
      - eapply loop_ow; eauto. }
  assert (J1 : hinv n s1).
  { apply J. apply Forall_forall. intros x Hx. split.
      - intros E. apply Hmc. rewrite <- E. eapply loop_names; eauto.
      - eapply loop_ow; eauto. }
  destruct (m_write a); [|exact J1].
  assert (J2 : hinv n (fst (write_property nanint names (m_owdisk a) (m_dtype a) s1))).
  { unfold write_property. apply for_each_inv; auto. intros; apply hinv_write; auto. }
  destruct (write_property _ _ _ _ _) as [s2 [u2|e]]; cbn [fst] in J2; auto.
  destruct (m_unload a); [|exact J2]. unfold unload_property. apply for_each_inv; auto. intros; apply hinv_unload; auto.
Qed.

Lemma hinv_hdo n nanint s c : hinv n s -> call_ok c -> hinv n (fst (hdo nanint s c)).
Proof.
  intros I Hc. destruct c; cbn [hdo];
    unfold load_property, unload_property, write_property, delete_property.
  - apply for_each_inv; auto. intros; apply hinv_load; auto.
  - apply for_each_inv; auto. intros; apply hinv_unload; auto.
  - apply hinv_makeprop; auto.
  - apply for_each_inv; auto. intros; apply hinv_write; auto.
  - apply for_each_inv; auto. intros; apply hinv_delete; auto.
  - apply hinv_range; auto.
  - apply hinv_seth; auto.
Qed.

Lemma hinv_all n nanint s cs : hinv n s -> Forall call_ok cs -> hinv n (hdo_all nanint s cs).
Proof.
  intros I Hc. revert s I; induction Hc as [|c cs Hc Hcs IH]; intros s I; simpl; auto.
  apply IH, hinv_hdo; auto.
Qed.

Lemma prop_keys_In f k : In k (prop_keys f) <-> In k (dkeys (f_grp f)) /\ k <> "mass_cuts".
Proof.
  unfold prop_keys. rewrite filter_In, negb_true_iff, String.eqb_neq. tauto.
Qed.

Lemma mapM_dict {A} (g : string -> exc A) l r :
  mapM (fun k => do u <- g k ;; Ok (k, u)) l = Ok r ->
  forall k, In k l -> exists v, dget r k = Some v /\ g k = Ok v.
Proof.
  revert r; induction l as [|a l IH]; simpl; intros r H k Hk; [tauto|].
  destruct (g a) as [v|] eqn:Eg; simpl in H; [|discriminate].
  destruct (mapM _ l) as [ys|] eqn:El; simpl in H; [|discriminate].
  inversion H; subst r. simpl. destruct (String.eqb_spec k a) as [->|Hn].
  - eauto.
  - destruct Hk as [->|Hk]; [congruence|]. eapply IH; eauto.
Qed.

Lemma open_fields f box extra inh h : open_handler f box extra inh = Ok h ->
  exists us hs m e, 
    mapM (fun k => do d <- dfind (f_grp f) k ;; do u <- attr (s_units d) ;; Ok (k, u)) (prop_keys f) = Ok us /\
    mapM (fun k => do d <- dfind (f_grp f) k ;; do u <- attr (s_hdep d) ;; Ok (k, u)) (prop_keys f) = Ok hs /\
    dget (f_grp f) "mass" = Some m /\
    let n := match s_data m with SCol c => length (c_val c) | SRec r => length r end in
    h = mkH (f_h f) (prop_keys f) us hs (prop_keys f) n [] [] e (seq 0 n) n inh box.
Proof.
  unfold open_handler. intros H.
  destruct (mapM _ _) as [us|] eqn:E1; simpl in H; [|discriminate].
  destruct (mapM _ _) as [hs|] eqn:E2 in H; simpl in H; [|discriminate].
  unfold dfind in H. destruct (dget (f_grp f) "mass") as [m|] eqn:Em; simpl in H; [|discriminate].
  inversion H; subst h. clear H.
  match goal with |- context [set_in_h_units ?x ?b] => destruct (seth_frame x b) as (e & ->) end.
  exists us, hs, m, e. repeat split; auto.
Qed.

Lemma mapM_attr {A} (g : dset_ -> option A) f l r :
  mapM (fun k => do d <- dfind (f_grp f) k ;; do u <- attr (g d) ;; Ok (k, u)) l = Ok r ->
  forall k, In k l -> exists d v, dget (f_grp f) k = Some d /\ g d = Some v /\ dget r k = Some v.
Proof.
  intros H k Hk.
  rewrite (mapM_ext _ (fun k => do u <- (do d <- dfind (f_grp f) k ;; attr (g d)) ;; Ok (k, u))) in H.
  2:{ intros x _. destruct (dfind _ x); reflexivity. }
  destruct (mapM_dict _ _ _ H k Hk) as (v & Hv & Hg).
  unfold dfind in Hg. destruct (dget (f_grp f) k) as [d|] eqn:Ed; simpl in Hg; [|discriminate].
  destruct (g d) eqn:Egd; simpl in Hg; [|discriminate]. inversion Hg; subst. eauto.
Qed.

Lemma open_hinv n f box extra inh h : good_file n f -> open_handler f box extra inh = Ok h -> hinv n (h, f).
Proof.
  intros [(m & Hm) [Hmc Hg]] Ho. destruct (open_fields _ _ _ _ _ Ho) as (us & hs & m' & e & E1 & E2 & Em & ->).
  rewrite Hm in Em. inversion Em; subst m'. clear Em.
  destruct (Hg "mass" m Hm) as ((c & Hc & Lc) & _); [discriminate|]. rewrite Hc, Lc.
  split; cbn [fst snd h_n h_act h_nact h_loaded h_all h_hdep h_units h_saved]; auto.
  - apply ascending_seq.
  - apply Forall_forall; intros i Hi; apply in_seq in Hi; lia.
  - rewrite seq_length; auto.
  - intros p c' H; discriminate H.
  - intros p Hp. destruct (mapM_attr s_hdep _ _ _ E2 p Hp) as (d & v & _ & _ & ->). eauto.
  - intros p Hp. destruct (mapM_attr s_units _ _ _ E1 p Hp) as (d & v & _ & _ & ->). eauto.
  - intros k d Hk Hn. apply (Hg k d Hk Hn).
  - intros p Hp. apply prop_keys_In in Hp as [Hp _]. unfold dmem. apply smem_In; auto.
  - intros H. apply prop_keys_In in H. tauto.
Qed.

Lemma reachable_inv n s : reachable n s -> hinv n s.
Proof.
  intros (f & box & extra & inh & h0 & nanint & cs & Hg & Ho & Hc & ->).
  apply hinv_all; auto. eapply open_hinv; eauto.
Qed.
