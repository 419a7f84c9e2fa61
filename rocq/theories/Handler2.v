(** Proofs about the Handler model: units, selections, made properties. *)
From Verif Require Import Dict Util Rat HandlerModel HandlerSpec Handler.
From Coq Require Import Sorted.
Open Scope string_scope.
Open Scope list_scope.
Open Scope nat_scope.

Arguments make_one : simpl never.
Arguments write_one : simpl never.
Arguments delete_one : simpl never.
Arguments load_one : simpl never.

(** * C27: little h *)
Lemma return_parts s p ua inh c :
  return_property s p ua inh = Ok (Some c) ->
  exists c0 v e, source s p = Ok (Some c0) /\ In p (h_all (fst s)) /\
    take c0 (if ua then seq 0 (h_n (fst s)) else h_act (fst s)) = Ok v /\
    (if (match inh with Some b => b | None => h_inh (fst s) end) then Ok 0%Z else dfind (h_hdep (fst s)) p) = Ok e /\
    c = conv (h_h (fst s)) e v.
Proof.
  rewrite return_source. destruct (smem p (h_all (fst s))) eqn:Ea; cbn [negb]; [|discriminate].
  destruct (if match inh with Some b => b | None => h_inh (fst s) end then _ else _) as [e|]; simpl; [|discriminate].
  destruct (source s p) as [[c0|]|]; simpl; try discriminate.
  destruct (take c0 _) as [v|] eqn:E; simpl; [|discriminate].
  intros [= <-]. exists c0, v, e. repeat split; auto. apply smem_In; auto.
Qed.

Lemma c27_convert s p ua c e :
  return_property s p ua (Some true) = Ok (Some c) -> dget (h_hdep (fst s)) p = Some e ->
  exists c', return_property s p ua (Some false) = Ok (Some c') /\
    c_val c' = map (option_map (fun v => (v * hpow (h_h (fst s)) e)%Qc)) (c_val c) /\
    (e = 0%Z -> c' = c).
Proof.
  intros H He. destruct (return_parts _ _ _ _ _ H) as (c0 & v & e0 & Hs & Hin & Ht & E0 & ->).
  inversion E0; subst e0. rewrite return_source.
  apply smem_In in Hin. rewrite Hin. cbn [negb]. unfold dfind. rewrite He. cbn [bind].
  rewrite Hs. cbn [bind]. rewrite Ht. cbn [bind].
  eexists; split; [reflexivity|]. unfold conv. cbn [Z.eqb].
  destruct (Z.eqb_spec e 0) as [->|Hn].
  - split; [|auto]. cbn [hpow]. rewrite <- (map_id (c_val v)) at 1. apply map_ext.
    intros [x|]; simpl; [|reflexivity]. f_equal. ring.
  - split; [reflexivity|congruence].
Qed.

Lemma c27_default s p ua : return_property s p ua None = return_property s p ua (Some (h_inh (fst s))).
Proof. rewrite !return_source. reflexivity. Qed.

Lemma hpow_neq0 h e : h <> 0%Qc -> hpow h e <> 0%Qc.
Proof.
  intros Hh. assert (P : forall n, Qcpower h n <> 0%Qc).
  { induction n as [|n IH]; simpl; [discriminate|]. intros H. apply Qcmult_integral in H. tauto. }
  destruct e; simpl; auto; [discriminate|].
  intros H. assert (E : (Qcpower h (Pos.to_nat p) * / Qcpower h (Pos.to_nat p) = 1)%Qc) by (apply Qcmult_inv_r; auto).
  rewrite H in E. rewrite Qcmult_0_r in E. discriminate E.
Qed.

Lemma conv_unh h e c : h <> 0%Qc ->
  c_val (conv h e (if (e =? 0)%Z then c else col_div (hpow h e) c)) = c_val c.
Proof.
  intros Hh. unfold conv. destruct (e =? 0)%Z; [reflexivity|]. simpl. rewrite map_map.
  rewrite <- (map_id (c_val c)) at 2. apply map_ext. intros [x|]; simpl; [|reflexivity].
  f_equal. field. apply hpow_neq0; auto.
Qed.

(** * C28: selections *)
Lemma in_range_spec s p inh lo hi c i :
  return_property s p true inh = Ok (Some c) ->
  (In i (nonzero (map (in_range lo hi) (c_val c))) <-> value_in s p inh lo hi i).
Proof.
  intros Hc. rewrite nonzero_In, nth_error_map_some. unfold value_in. split.
  - destruct (nth_error (c_val c) i) as [[x|]|] eqn:E; simpl; try discriminate.
    intros [= H]. apply andb_prop in H as [H1 H2]. exists c, x. repeat split; auto.
    + destruct lo; simpl in H1; auto; [apply qleb_le; auto|discriminate].
    + destruct hi; simpl in H2; auto; [discriminate|apply qleb_le; auto].
  - intros (c' & x & Hc' & Hx & Hl & Hh). rewrite Hc in Hc'. inversion Hc'; subst c'.
    rewrite Hx. simpl. f_equal. apply andb_true_intro; split.
    + destruct lo; simpl; try tauto. apply qleb_le; auto.
    + destruct hi; simpl; try tauto. apply qleb_le; auto.
Qed.

Lemma act_frame_each {A} (step : A -> st -> st * exc unit) l s :
  (forall x s, h_act (fst (fst (step x s))) = h_act (fst s)) ->
  h_act (fst (fst (for_each step l s))) = h_act (fst s).
Proof.
  intros H. apply (for_each_inv (fun t => h_act (fst t) = h_act (fst s))); auto.
  intros x t _ E. rewrite H; auto.
Qed.

Lemma load_frame p s : exists l, fst (load_one p s) = (with_loaded (fst s) l, snd s).
Proof.
  destruct s as [h f]. unfold load_one. simpl.
  assert (E : h = with_loaded h (h_loaded h)) by (destruct h; reflexivity).
  destruct (negb _); [exists (h_loaded h); simpl; congruence|].
  destruct (dget _ _) as [d|]; [|exists (h_loaded h); simpl; congruence].
  destruct (s_data d); simpl; eauto. exists (h_loaded h); congruence.
Qed.

Lemma make_one_act p inds x s : h_act (fst (fst (make_one p inds x s))) = h_act (fst s) /\
  h_saved (fst (fst (make_one p inds x s))) = h_saved (fst s) /\
  h_n (fst (fst (make_one p inds x s))) = h_n (fst s) /\
  h_h (fst (fst (make_one p inds x s))) = h_h (fst s) /\
  h_inh (fst (fst (make_one p inds x s))) = h_inh (fst s) /\
  snd (fst (make_one p inds x s)) = snd s.
Proof.
  destruct x as [[[name new] ow] c]. destruct s as [h f]. unfold make_one.
  destruct (fill _ _ _); simpl; auto. destruct (dget _ _); simpl; auto.
  destruct (p_hdep p); simpl; auto 7. destruct (dget _ _); simpl; auto 7. destruct ow; simpl; auto 7.
  all: repeat split; auto.
Qed.

Lemma write_one_frame nanint ow dt p s :
  exists sv f', fst (write_one nanint ow dt p s) = (with_saved (fst s) sv, f').
Proof.
  destruct s as [h f]. unfold write_one. cbn [fst].
  assert (E : h = with_saved h (h_saved h)) by (destruct h; reflexivity).
  assert (G : forall f' : gfile, exists sv f'', (h, f') = (with_saved h sv, f'')) by (intros; exists (h_saved h), f'; congruence).
  destruct (dget (h_loaded h) p); [|apply G].
  destruct (_ && _); [apply G|]. cbv zeta.
  destruct (dget (f_grp f) p) as [d|].
  - destruct (s_data d); [|apply G]. destruct (negb _); [apply G|].
    destruct (dget (h_units h) p); [|apply G]. destruct (dget (h_hdep h) p); [|apply G].
    cbn [fst]. destruct (smem p (h_saved h)); [apply G|eauto].
  - destruct (dget (h_units h) p); [|apply G]. destruct (dget (h_hdep h) p); [|apply G].
    cbn [fst]. destruct (smem p (h_saved h)); [apply G|eauto].
Qed.

Lemma act_write_one nanint ow dt p s : h_act (fst (fst (write_one nanint ow dt p s))) = h_act (fst s).
Proof. destruct (write_one_frame nanint ow dt p s) as (sv & f' & ->). reflexivity. Qed.

Lemma act_frame nanint s c : (forall p lo hi r inh, c <> HRange p lo hi r inh) ->
  h_act (fst (fst (hdo nanint s c))) = h_act (fst s).
Proof.
  intros Hc. destruct c; cbn [hdo]; try (exfalso; eapply Hc; reflexivity; fail).
  - apply act_frame_each. intros x t. destruct (load_frame x t) as (l & ->). reflexivity.
  - apply act_frame_each. intros x [h f]. reflexivity.
  - unfold make_property. cbv zeta.
    destruct (_ && negb (covers _ _)); [reflexivity|].
    destruct (match m_rename a with None => _ | Some r => _ end) as [names|]; [|reflexivity].
    destruct (_ && _); [reflexivity|].
    destruct (evaluate_all _ _ _ _ _) as [vals|]; [|reflexivity].
    match goal with |- context [for_each (make_one p ?i) ?l s] =>
      pose proof (act_frame_each (make_one p i) l s (fun x t => proj1 (make_one_act p i x t))) as H1;
      destruct (for_each (make_one p i) l s) as [s1 [u|e]] end; cbn [fst] in H1; auto.
    destruct (m_write a); auto.
    pose proof (act_frame_each (write_one nanint (m_owdisk a) (m_dtype a)) names s1
       (act_write_one nanint (m_owdisk a) (m_dtype a))) as H2.
    unfold write_property. destruct (for_each _ names s1) as [s2 [u2|e]]; cbn [fst] in H2 |- *; [|congruence].
    destruct (m_unload a); [|cbn [fst]; congruence]. unfold unload_property.
    rewrite act_frame_each; [congruence|]. intros x [h f]. reflexivity.
  - apply act_frame_each. apply act_write_one.
  - apply act_frame_each. intros x [h f]. unfold delete_one.
    destruct (negb _); [reflexivity|]. destruct (negb _); reflexivity.
  - destruct (seth_frame (fst s) b) as (e & ->). reflexivity.
Qed.

Lemma selected_ext nanint cs s P Q : (forall i, P i <-> Q i) ->
  forall i, selected nanint s cs P i <-> selected nanint s cs Q i.
Proof.
  revert s P Q; induction cs as [|c cs IH]; intros s P Q H; cbn [selected]; auto.
  apply IH. intros i. destruct c; try apply H. destruct p, (snd _); try apply H; try reflexivity.
  rewrite (H i). reflexivity.
Qed.

Lemma range_act s c nanint :
  forall i, In i (h_act (fst (fst (hdo nanint s c)))) <->
    (match c, snd (hdo nanint s c) with
         | HRange None _ _ _ _, Ok _ => fun i => i < h_n (fst s)
         | HRange (Some p) lo hi reset inh, Ok _ =>
             fun i => value_in s p inh lo hi i /\ (reset = true \/ In i (h_act (fst s)))
         | _, _ => fun i => In i (h_act (fst s))
         end) i.
Proof.
  intros i. destruct c; try (rewrite act_frame by discriminate; reflexivity).
  cbn [hdo]. unfold set_property_range. destruct s as [h f]. destruct p as [name|].
  - set (b := match inh with Some b => b | None => h_inh h end).
    destruct (return_property (h, f) name true (Some b)) as [[c|]|e] eqn:E; cbn [fst snd]; try reflexivity.
    cbn [with_act h_act].
    assert (V : forall i, value_in (h, f) name (Some b) lo hi i <-> value_in (h, f) name inh lo hi i).
    { intros j. unfold value_in. destruct inh; [reflexivity|]. rewrite (c27_default (h, f)). reflexivity. }
    rewrite <- V. destruct reset.
    + rewrite (in_range_spec _ _ _ lo hi _ i E). tauto.
    + rewrite filter_In, (in_range_spec _ _ _ lo hi _ i E), mem_nat_spec.
      split; [intros [A B]; auto|intros [A [B|B]]; [discriminate|auto]].
  - cbn [fst snd with_act h_act]. rewrite in_seq. lia.
Qed.

Lemma c28_history nanint cs s :
  forall i, In i (h_act (fst (hdo_all nanint s cs))) <-> selected nanint s cs (fun i => In i (h_act (fst s))) i.
Proof.
  revert s; induction cs as [|c cs IH]; intros s i; cbn [selected]; [reflexivity|].
  unfold hdo_all; cbn [fold_left]. change (fold_left _ cs ?x) with (hdo_all nanint x cs).
  rewrite IH. apply selected_ext. intros j. rewrite range_act.
  destruct c; reflexivity.
Qed.

Lemma c28 n f box extra inh h nanint cs :
  good_file n f -> open_handler f box extra inh = Ok h -> Forall call_ok cs ->
  let s := hdo_all nanint (h, f) cs in
  ascending (h_act (fst s)) /\ h_nact (fst s) = length (h_act (fst s)) /\
  forall i, In i (h_act (fst s)) <-> selected nanint (h, f) cs (fun i => i < n) i.
Proof.
  intros Hg Ho Hc s.
  assert (I0 : hinv n (h, f)) by (eapply open_hinv; eauto).
  assert (I : hinv n s) by (apply hinv_all; auto).
  split; [apply I|]. split; [apply I|].
  intros i. unfold s. rewrite c28_history. apply selected_ext. intros j.
  destruct (open_fields _ _ _ _ _ Ho) as (us & hs & m & e & _ & _ & _ & E).
  pose proof (i_n _ _ I0) as En. cbv zeta in E. rewrite E in *. cbn [fst h_act h_n] in *.
  rewrite in_seq. lia.
Qed.

(** rows returned for the active halos are the active rows of the full column *)
Lemma take_seq_len c n v : take c (seq 0 n) = Ok v -> forall i, i < n -> nth_error (c_val v) i = nth_error (c_val c) i /\ i < length (c_val c).
Proof.
  intros H i Hi. apply (take_nth c (seq 0 n) v i i H). rewrite nth_error_seq.
  destruct (Nat.ltb_spec i n); [reflexivity|lia].
Qed.

Lemma c28_rows n s p inh c : reachable n s ->
  return_property s p true inh = Ok (Some c) ->
  exists c', return_property s p false inh = Ok (Some c') /\ c_int c' = c_int c /\
    c_val c' = map (fun i => nth i (c_val c) None) (h_act (fst s)).
Proof.
  intros Hr H. apply reachable_inv in Hr.
  destruct (return_parts _ _ _ _ _ H) as (c0 & v & e & Hs & Hin & Ht & E0 & ->).
  rewrite return_source. apply smem_In in Hin. rewrite Hin. cbn [negb]. rewrite E0. cbn [bind].
  rewrite Hs. cbn [bind].
  pose proof (i_n _ _ Hr) as En. pose proof (i_lt _ _ Hr) as Hlt.
  assert (L : Forall (fun i => i < length (c_val c0)) (h_act (fst s))).
  { eapply Forall_impl; [|exact Hlt]. cbn. intros i Hi.
    apply (take_seq_len _ _ _ Ht i). lia. }
  rewrite take_ok by auto. cbn [bind]. eexists; split; [reflexivity|].
  assert (Ei : c_int v = c_int c0).
  { unfold take in Ht. destruct (mapM _ _); simpl in Ht; inversion Ht; reflexivity. }
  unfold conv. destruct (e =? 0)%Z; cbn [c_int c_val col_scale].
  - split; [auto|]. apply map_ext_in. intros i Hi. rewrite Forall_forall in Hlt. specialize (Hlt i Hi).
    destruct (take_seq_len _ _ _ Ht i) as [Hn Hl]; [lia|].
    destruct (nth_error_lt_Some (c_val c0) i Hl) as [x Hx]. rewrite Hx in Hn.
    rewrite (nth_error_nth _ _ None Hx), (nth_error_nth _ _ None Hn). reflexivity.
  - split; [auto|]. rewrite map_map. apply map_ext_in. intros i Hi.
    rewrite Forall_forall in Hlt. specialize (Hlt i Hi).
    destruct (take_seq_len _ _ _ Ht i) as [Hn Hl]; [lia|].
    destruct (nth_error_lt_Some (c_val c0) i Hl) as [x Hx]. rewrite Hx in Hn.
    rewrite (nth_error_nth _ _ None Hx).
    erewrite (nth_error_nth (map _ (c_val v)) i None); [reflexivity|].
    rewrite nth_error_map_some, Hn. reflexivity.
Qed.

(** * C29: made properties *)
Lemma dget_app {A} (d e : dict A) k :
  dget (d ++ e) k = match dget d k with Some v => Some v | None => dget e k end.
Proof.
  induction d as [|(k', v) d IH]; simpl; [reflexivity|]. destruct (String.eqb k k'); auto.
Qed.

Lemma gather_spec missing s kwargs remap ua g acc args :
  gather missing s kwargs remap ua (Some g) acc = Ok args ->
  forall k, arg_spec s kwargs remap ua g acc k (dget args k).
Proof.
  revert acc; induction kwargs as [|a l IH]; simpl; intros acc H k.
  - inversion H; subst. unfold arg_spec. simpl. reflexivity.
  - unfold remapped in H. set (name := match dget remap a with Some k' => k' | None => a end) in *.
    assert (G : forall v, gather missing s l remap ua (Some g) (dset acc a v) = Ok args ->
       (if has_property (fst s) name then exists o, return_property s name ua (Some g) = Ok o /\ v = ret_val o
        else dget (h_extra (fst s)) name = Some v) ->
       arg_spec s (a :: l) remap ua g acc k (dget args k)).
    { intros v Hg Hv. specialize (IH _ Hg k). unfold arg_spec in *. cbn [smem existsb].
      unfold smem in *.
      destruct (existsb (String.eqb k) l) eqn:El; [rewrite orb_true_r; exact IH|].
      rewrite orb_false_r. rewrite dget_dset in IH.
      destruct (String.eqb_spec k a) as [->|Hn]; [|exact IH].
      fold name. destruct (has_property (fst s) name).
      - destruct Hv as (o & Ho & ->). exists o. split; auto.
      - exists v. auto. }
    destruct (has_property (fst s) name) eqn:Eh.
    + destruct (return_property s name ua (Some g)) as [o|] eqn:Er; simpl in H; [|discriminate].
      eapply G; eauto.
    + destruct (dget (h_extra (fst s)) name) as [v|]; [|discriminate]. eapply G; eauto.
Qed.

Lemma gather_keys missing s kwargs remap ua inh acc args :
  gather missing s kwargs remap ua inh acc = Ok args ->
  forall k, dmem args k = smem k kwargs || dmem acc k.
Proof.
  revert acc; induction kwargs as [|a l IH]; simpl; intros acc H k.
  - inversion H; subst; reflexivity.
  - assert (G : forall v, gather missing s l remap ua inh (dset acc a v) = Ok args ->
       dmem args k = String.eqb k a || smem k l || dmem acc k).
    { intros v Hv. rewrite (IH _ Hv), dmem_dset. destruct (String.eqb k a), (smem k l), (dmem acc k); reflexivity. }
    destruct (has_property (fst s) _).
    + destruct (return_property _ _ _ _); simpl in H; [|discriminate]. eapply G; eauto.
    + destruct (dget (h_extra (fst s)) _); [|discriminate]. eapply G; eauto.
Qed.

Lemma evaluate_spec p s ua remap kws vals :
  evaluate_all p s ua remap kws = Ok vals ->
  exists args raw, p_fun p args = Ok raw /\ length raw = length (p_names p) /\
    (forall k, arg_spec s (p_kwargs p) remap ua (p_give_h p) kws k (dget args k)) /\
    (if p_ret_h p then vals = raw
     else match p_hdep p with
          | None => raw = [] /\ vals = []
          | Some hd => unh (h_h (fst s)) hd (p_names p) raw = Ok vals
          end).
Proof.
  unfold evaluate_all. intros H.
  destruct (gather _ _ _ _ _ _ _) as [args|] eqn:Eg; simpl in H; [|discriminate].
  destruct (existsb _ _) eqn:Ee; [discriminate|].
  destruct (p_fun p (args ++ kws)) as [raw|] eqn:Ef; simpl in H; [|discriminate].
  destruct (_ =? _) eqn:El; simpl in H; [|discriminate]. apply Nat.eqb_eq in El.
  exists (args ++ kws), raw. repeat split; auto.
  - intros k. pose proof (gather_spec _ _ _ _ _ _ _ _ Eg k) as S.
    pose proof (gather_keys _ _ _ _ _ _ _ _ Eg k) as K. rewrite orb_false_r in K.
    rewrite dget_app. unfold arg_spec in *. rewrite dmem_get in K.
    destruct (smem k (p_kwargs p)).
    + destruct (dget args k) as [v|]; [exact S|discriminate].
    + destruct (dget args k) as [v|]; [discriminate|reflexivity].
  - destruct (p_ret_h p); [inversion H; auto|].
    destruct (p_hdep p) as [hd|]; auto. destruct raw; [inversion H; auto|discriminate].
Qed.

Lemma unh_nth h hd names raw vals j name v :
  unh h hd names raw = Ok vals -> nth_error names j = Some name -> nth_error raw j = Some v ->
  exists e, dget hd name = Some e /\
    nth_error vals j = Some (if (e =? 0)%Z then v else col_div (hpow h e) v).
Proof.
  revert raw vals j; induction names as [|k ks IH]; intros [|r raw] vals [|j]; simpl; try discriminate.
  - unfold dfind. destruct (dget hd k) as [e|] eqn:Ed; simpl; [|discriminate].
    destruct (unh h hd ks raw) as [r'|]; simpl; [|discriminate].
    intros [= <-] [= <-] [= <-]. exists e. auto.
  - unfold dfind. destruct (dget hd k) as [e|] eqn:Ed; simpl; [|discriminate].
    destruct (unh h hd ks raw) as [r'|] eqn:Eu; simpl; [|discriminate].
    intros [= <-] Hn Hv. simpl. eapply IH; eauto.
Qed.

Lemma unh_length h hd names raw vals : unh h hd names raw = Ok vals ->
  length raw = length names -> length vals = length names.
Proof.
  revert raw vals; induction names as [|k ks IH]; intros [|r raw] vals; simpl; try discriminate; intros H L.
  - inversion H; reflexivity.
  - unfold dfind in H. destruct (dget hd k) as [e|]; simpl in H; [|discriminate].
    destruct (unh h hd ks raw) as [r'|] eqn:Eu; simpl in H; [|discriminate].
    inversion H; subst. simpl. f_equal. eapply IH; eauto.
Qed.

(** assigning values at distinct positions *)
Lemma fold_upd_other (l : list (nat * option Qc)) a i :
  (forall x, ~ In (i, x) l) ->
  nth_error (fold_left (fun a iv => upd a (fst iv) (snd iv)) l a) i = nth_error a i.
Proof.
  revert a; induction l as [|(k, v) l IH]; simpl; intros a H; [reflexivity|].
  rewrite IH; [|intros x Hx; apply (H x); auto].
  apply nth_error_upd_ne. intros ->. apply (H v); auto.
Qed.

Lemma fold_upd_at (inds : list nat) (vs : list (option Qc)) a k i x :
  NoDup inds -> nth_error inds k = Some i -> nth_error vs k = Some x -> i < length a ->
  nth_error (fold_left (fun a iv => upd a (fst iv) (snd iv)) (combine inds vs) a) i = Some x.
Proof.
  intros Hd. revert vs a k; induction Hd as [|j inds Hj Hd IH]; intros [|v vs] a [|k]; simpl; try discriminate.
  - intros [= ->] [= ->] Hi. rewrite fold_upd_other.
    + apply nth_error_upd_eq; auto.
    + intros y Hy. apply Hj. eapply in_combine_l; eauto.
  - intros Hk Hv Hi. eapply IH; eauto. rewrite upd_length; auto.
Qed.

Lemma ascending_NoDup l : ascending l -> NoDup l.
Proof.
  induction 1 as [|a l Hs IH Hf]; constructor; auto.
  intros Hi. rewrite Forall_forall in Hf. specialize (Hf a Hi). lia.
Qed.

Lemma fill_spec n inds c v : NoDup inds -> Forall (fun i => i < n) inds -> fill n inds c = Ok v ->
  c_int v = false /\ c_int c = false /\
  (forall k i, nth_error inds k = Some i -> nth_error (c_val v) i = val_at c k) /\
  (forall i, i < n -> ~ In i inds -> nth_error (c_val v) i = Some None).
Proof.
  intros Hd Hl. unfold fill. destruct (c_int c) eqn:Ei; [discriminate|].
  intros H. split; [|split; [reflexivity|]].
  { destruct (if _ : bool then _ else _) as [vs|]; simpl in H; inversion H; reflexivity. }
  assert (G : forall vs : list (option Qc), length vs = length inds ->
     (forall k, k < length inds -> nth_error vs k = val_at c k) ->
     v = mkCol false (fold_left (fun a iv => upd a (fst iv) (snd iv)) (combine inds vs) (repeat None n)) ->
     (forall k i, nth_error inds k = Some i -> nth_error (c_val v) i = val_at c k) /\
     (forall i, i < n -> ~ In i inds -> nth_error (c_val v) i = Some None)).
  { intros vs Lv Hv ->. cbn [c_val]. split.
    - intros k i Hk. pose proof (nth_error_Some_lt _ _ _ Hk) as Hkl.
      destruct (nth_error_lt_Some vs k) as [x Hx]; [lia|].
      rewrite <- Hv by auto. rewrite Hx.
      apply (fold_upd_at inds vs _ k i x); auto. rewrite repeat_length.
      rewrite Forall_forall in Hl. apply Hl. eapply nth_error_In; eauto.
    - intros i Hi Hn. rewrite fold_upd_other.
      + destruct (nth_error_lt_Some (repeat (@None Qc) n) i) as [x Hx]; [rewrite repeat_length; auto|].
        rewrite Hx. f_equal. eapply repeat_spec, nth_error_In; eauto.
      + intros x Hx. apply Hn. eapply in_combine_l; eauto. }
  destruct (Nat.eqb_spec (length (c_val c)) (length inds)) as [El|El].
  - simpl in H. inversion H; subst v. apply (G (c_val c)); auto.
    intros k Hk. unfold val_at. destruct (c_val c) as [|x [|y l]] eqn:Ec; auto.
    simpl in El. destruct k; [reflexivity|lia].
  - destruct (c_val c) as [|x [|y l]] eqn:Ec; simpl in H; try discriminate.
    inversion H; subst v. apply (G (repeat x (length inds))); auto.
    + apply repeat_length.
    + intros k Hk. unfold val_at. rewrite Ec.
      destruct (nth_error_lt_Some (repeat x (length inds)) k) as [y Hy]; [rewrite repeat_length; auto|].
      rewrite Hy. f_equal. eapply repeat_spec, nth_error_In; eauto.
Qed.

(** one successful pass *)
Lemma make_one_ok p inds name new ow c h f s' :
  make_one p inds (name, new, ow, c) (h, f) = (s', Ok tt) ->
  exists v u hd e, fill (h_n h) inds c = Ok v /\ dget (p_units p) name = Some u /\
    p_hdep p = Some hd /\ dget hd name = Some e /\ snd s' = f /\
    h_loaded (fst s') = dset (h_loaded h) new v /\ h_units (fst s') = dset (h_units h) new u /\
    h_hdep (fst s') = dset (h_hdep h) new e /\
    h_all (fst s') = (if ow then h_all h else h_all h ++ [new]).
Proof.
  unfold make_one. destruct (fill _ _ _) as [v|] eqn:Ef; [|discriminate].
  destruct (dget (p_units p) name) as [u|] eqn:Eu; [|discriminate].
  destruct (p_hdep p) as [hd|] eqn:Eh; [|discriminate].
  destruct (dget hd name) as [e|] eqn:Ee; [|discriminate].
  intros [= <-]. exists v, u, hd, e. repeat split; auto; destruct ow; auto.
Qed.

(** what the loop leaves unchanged *)
Lemma make_loop_frame p inds l s s' :
  for_each (make_one p inds) l s = (s', Ok tt) ->
  (forall q, ~ In q (map (fun x => snd (fst (fst x))) l) ->
     dget (h_loaded (fst s')) q = dget (h_loaded (fst s)) q /\
     dget (h_units (fst s')) q = dget (h_units (fst s)) q /\
     dget (h_hdep (fst s')) q = dget (h_hdep (fst s)) q /\
     (In q (h_all (fst s')) <-> In q (h_all (fst s)))) /\
  (forall q, In q (h_all (fst s)) -> In q (h_all (fst s'))) /\
  h_act (fst s') = h_act (fst s) /\ h_saved (fst s') = h_saved (fst s) /\ h_n (fst s') = h_n (fst s) /\
  h_h (fst s') = h_h (fst s) /\ h_inh (fst s') = h_inh (fst s) /\ snd s' = snd s.
Proof.
  revert s; induction l as [|[[[name new] ow] c] l IH]; simpl; intros s H.
  - inversion H; subst. repeat split; auto.
  - pose proof (make_one_act p inds (name, new, ow, c) s) as (A1 & A2 & A3 & A4 & A5 & A6).
    destruct (make_one p inds (name, new, ow, c) s) as [s1 [[]|e]] eqn:E; [|discriminate].
    destruct s as [h f]. apply make_one_ok in E as (v & u & hd & e & Ef & Eu & Ehd & Ee & Es & El & Eun & Eh & Ea).
    cbn [fst snd] in *.
    destruct (IH _ H) as (B0 & B00 & B1 & B2 & B3 & B4 & B5 & B6).
    split; [|split; [|repeat split; congruence]].
    + intros q Hq. destruct (B0 q) as (C1 & C2 & C3 & C4); [tauto|].
      rewrite C1, C2, C3, C4, El, Eun, Eh, Ea.
      rewrite !dget_dset_ne by (intros ->; apply Hq; auto). repeat split; auto.
      * destruct ow; auto. intros X. apply in_app_or in X as [X|[X|[]]]; auto. exfalso; apply Hq; auto.
      * destruct ow; auto. intros X. apply in_or_app; auto.
    + intros q Hq. apply B00. rewrite Ea. destruct ow; auto. apply in_or_app; auto.
Qed.

Lemma make_loop_at p inds l s s' j name new ow c :
  for_each (make_one p inds) l s = (s', Ok tt) ->
  NoDup (map (fun x => snd (fst (fst x))) l) ->
  (forall x, In x l -> snd (fst x) = true -> In (snd (fst (fst x))) (h_all (fst s))) ->
  nth_error l j = Some (name, new, ow, c) ->
  exists v u hd e, fill (h_n (fst s)) inds c = Ok v /\ dget (p_units p) name = Some u /\
    p_hdep p = Some hd /\ dget hd name = Some e /\
    dget (h_loaded (fst s')) new = Some v /\ dget (h_units (fst s')) new = Some u /\
    dget (h_hdep (fst s')) new = Some e /\ In new (h_all (fst s')).
Proof.
  revert s j; induction l as [|[[[na ne] o] cc] l IH]; intros s [|j]; cbn [nth_error]; try discriminate.
  - intros H Hd How [= -> -> -> ->]. cbn [for_each] in H. cbn [map] in Hd. inversion Hd; subst.
    cbn [fst snd] in *.
    destruct (make_one p inds (name, new, ow, c) s) as [s1 [[]|e]] eqn:E; [|discriminate].
    destruct s as [h f]. apply make_one_ok in E as (v & u & hd & e & Ef & Eu & Ehd & Ee & Es & El & Eun & Eh & Ea).
    destruct (make_loop_frame p inds l s1 s' H) as (B0 & B00 & _).
    destruct (B0 new H2) as (C1 & C2 & C3 & C4).
    exists v, u, hd, e. rewrite C1, C2, C3, C4, El, Eun, Eh, !dget_dset_eq. repeat split; auto.
    rewrite Ea. destruct ow; [|apply in_or_app; simpl; auto].
    apply (How (name, new, true, c)); simpl; auto.
  - intros H Hd How Hj. cbn [for_each] in H. cbn [map] in Hd. inversion Hd; subst.
    pose proof (make_one_act p inds (na, ne, o, cc) s) as (A1 & A2 & A3 & A4 & A5 & A6).
    destruct (make_one p inds (na, ne, o, cc) s) as [s1 [[]|e]] eqn:E; [|discriminate].
    cbn [fst snd] in *. rewrite <- A3.
    eapply IH; eauto. intros x Hx Ho. 
    pose proof (make_all_mono p inds (na, ne, o, cc) s (snd (fst (fst x)))) as M. rewrite E in M. apply M.
    apply How; auto. right; auto.
Qed.

Lemma make_split nanint p a s s' :
  make_property nanint p a s = (s', Ok tt) -> m_write a = false ->
  exists names vals,
    names = new_names p a /\ length names = length (p_names p) /\
    evaluate_all p s (m_all a) (m_remap a) (m_kws a) = Ok vals /\
    for_each (make_one p (if m_all a then seq 0 (h_n (fst s)) else h_act (fst s)))
      (combine (combine (combine (p_names p) names) (map (fun k => smem k (h_all (fst s))) names)) vals) s = (s', Ok tt).
Proof.
  unfold make_property. cbv zeta. intros H Hw.
  destruct (_ && negb (covers _ _)); [discriminate|].
  destruct (match m_rename a with None => _ | Some r => _ end) as [names|] eqn:En; [|discriminate].
  destruct (_ && _); [discriminate|].
  destruct (evaluate_all _ _ _ _ _) as [vals|]; [|discriminate].
  exists names, vals. unfold new_names.
  assert (Hn : names = match m_rename a with None => p_names p | Some r => r end /\ length names = length (p_names p)).
  { destruct (m_rename a) as [r|].
    - destruct (Nat.eqb_spec (length r) (length (p_names p))); inversion En; subst; auto.
    - inversion En; auto. }
  destruct Hn. repeat split; auto.
  destruct (for_each _ _ _) as [s1 [[]|e]]; [|discriminate]. rewrite Hw in H. exact H.
Qed.

Lemma combine_fst {A B} (l : list A) (m : list B) : length l = length m -> map fst (combine l m) = l.
Proof. revert m; induction l as [|a l IH]; intros [|b m]; simpl; intros H; try discriminate; f_equal; auto. Qed.
Lemma combine_snd {A B} (l : list A) (m : list B) : length l = length m -> map snd (combine l m) = m.
Proof. revert m; induction l as [|a l IH]; intros [|b m]; simpl; intros H; try discriminate; f_equal; auto. Qed.

Lemma loop_new (names new : list string) (ow : list bool) (vals : list col) :
  length names = length new -> length ow = length new -> length vals = length new ->
  map (fun x => snd (fst (fst x))) (combine (combine (combine names new) ow) vals) = new.
Proof.
  intros L1 L2 L3.
  rewrite <- (map_map (fun x => fst x) (fun y => snd (fst y))).
  rewrite combine_fst by (rewrite !combine_length; lia).
  rewrite <- (map_map (fun x => fst x) (fun y => snd y)).
  rewrite combine_fst by (rewrite !combine_length; lia).
  apply combine_snd; auto.
Qed.

Lemma c29 n nanint p a s s' :
  reachable n s -> h_h (fst s) <> 0%Qc ->
  make_property nanint p a s = (s', Ok tt) -> m_write a = false -> NoDup (new_names p a) ->
  let inds := if m_all a then seq 0 n else h_act (fst s) in
  exists args vals, p_fun p args = Ok vals /\ length vals = length (new_names p a) /\
    (forall k, arg_spec s (p_kwargs p) (m_remap a) (m_all a) (p_give_h p) (m_kws a) k (dget args k)) /\
    (forall j name v, nth_error (new_names p a) j = Some name -> nth_error vals j = Some v ->
       exists c, return_property s' name true (Some (p_ret_h p)) = Ok (Some c) /\
         (forall k i, nth_error inds k = Some i -> nth_error (c_val c) i = val_at v k) /\
         (forall i, i < n -> ~ In i inds -> nth_error (c_val c) i = Some None)) /\
    (forall q ua inh, ~ In q (new_names p a) -> return_property s' q ua inh = return_property s q ua inh) /\
    h_act (fst s') = h_act (fst s) /\ snd s' = snd s.
Proof.
  intros Hr Hh Hm Hw Hd inds. apply reachable_inv in Hr.
  pose proof (i_n _ _ Hr) as En.
  destruct (make_split _ _ _ _ _ Hm Hw) as (names & vals & -> & Ln & He & Hf).
  rewrite En in Hf. fold inds in Hf.
  destruct (evaluate_spec _ _ _ _ _ _ He) as (args & raw & Hfun & Lr & Ha & Hv).
  assert (Lv : length vals = length (new_names p a)).
  { destruct (p_ret_h p); [congruence|]. destruct (p_hdep p).
    - rewrite Ln. eapply unh_length; eauto.
    - destruct Hv as [-> ->]. simpl in *; congruence. }
  set (L := combine (combine (combine (p_names p) (new_names p a))
       (map (fun k => smem k (h_all (fst s))) (new_names p a))) vals) in *.
  assert (EL : map (fun x => snd (fst (fst x))) L = new_names p a).
  { apply loop_new; rewrite ?map_length; auto. }
  destruct (make_loop_frame _ _ _ _ _ Hf) as (B0 & B00 & B1 & B2 & B3 & B4 & B5 & B6).
  exists args, raw. split; [auto|]. split; [congruence|]. split; [auto|]. split; [|split; [|split; auto]].
  - intros j name v Hj Hvj.
    destruct (nth_error_lt_Some vals j) as [w Hw'].
    { rewrite Lv. eapply nth_error_Some_lt; eauto. }
    destruct (nth_error_lt_Some (p_names p) j) as [pn Hpn].
    { rewrite <- Ln. eapply nth_error_Some_lt; eauto. }
    assert (HL : nth_error L j = Some (pn, name, smem name (h_all (fst s)), w)).
    { unfold L. rewrite !nth_error_combine, nth_error_map_some, Hpn, Hj, Hw'. reflexivity. }
    assert (K1 : NoDup (map (fun x => snd (fst (fst x))) L)) by (rewrite EL; auto).
    assert (K2 : forall x, In x L -> snd (fst x) = true -> In (snd (fst (fst x))) (h_all (fst s)))
      by (intros x Hx Ho; eapply loop_ow; eauto).
    destruct (make_loop_at _ _ _ _ _ j _ _ _ _ Hf K1 K2 HL) as (c & u & hd & e & Hfill & Hu & Hhd & Hee & Hlo & Hun & Hhe & Hal).
    rewrite En in Hfill.
    assert (Hin : NoDup inds /\ Forall (fun i => i < n) inds).
    { unfold inds. destruct (m_all a).
      - split; [apply seq_NoDup|]. apply Forall_forall; intros i Hi; apply in_seq in Hi; lia.
      - split; [apply ascending_NoDup|]; apply Hr. }
    destruct Hin as [Hi1 Hi2].
    pose proof (fill_length _ _ _ _ Hfill) as Lc.
    destruct (fill_spec _ _ _ _ Hi1 Hi2 Hfill) as (F1 & F2 & F3 & F4).
    apply smem_In in Hal.
    rewrite return_source, Hal. cbn [negb]. rewrite Hhd in Hv.
    unfold source. rewrite Hlo.
    destruct (p_ret_h p) eqn:Erh.
    + cbn [bind]. rewrite B3, En, take_all by auto. cbn [bind]. unfold conv. cbn [Z.eqb].
      exists c. split; [reflexivity|].
      rewrite Hv, Hvj in Hw'. inversion Hw'; subst w. auto.
    + unfold dfind. rewrite Hhe. cbn [bind]. rewrite B3, En, take_all by auto. cbn [bind].
      eexists; split; [reflexivity|].
      destruct (unh_nth _ _ _ _ _ _ _ _ Hv Hpn Hvj) as (e' & He' & Hw2).
      rewrite Hee in He'. inversion He'; subst e'. rewrite Hw2 in Hw'. inversion Hw'; subst w. rewrite B4.
      unfold conv. destruct (e =? 0)%Z eqn:Ez; [auto|].
      cbn [col_scale c_val]. split.
      * intros k i Hk. rewrite nth_error_map_some, (F3 k i Hk). unfold val_at, col_div. cbn [c_val].
        destruct (c_val v) as [|x [|y l]]; cbn [map].
        -- destruct k; reflexivity.
        -- cbn [option_map]. f_equal. destruct x as [x|]; cbn [option_map]; [|reflexivity].
           f_equal. field. apply hpow_neq0; auto.
        -- change (option_map ?f x :: option_map ?f y :: map (option_map ?f) l) with (map (option_map f) (x :: y :: l)).
           rewrite nth_error_map_some. destruct (nth_error (x :: y :: l) k) as [[z|]|]; cbn [option_map]; auto.
           do 2 f_equal. field. apply hpow_neq0; auto.
      * intros i Hi Hni. rewrite nth_error_map_some, (F4 i Hi Hni). reflexivity.
  - intros q ua inh Hq. rewrite <- EL in Hq. destruct (B0 q Hq) as (C1 & C2 & C3 & C4).
    assert (ES : smem q (h_all (fst s')) = smem q (h_all (fst s))).
    { destruct (smem q (h_all (fst s))) eqn:E1.
      - apply smem_In, C4, smem_In; auto.
      - apply smem_false. rewrite C4. apply smem_false; auto. }
    rewrite !return_source. unfold source, dfind. rewrite ES, B1, B2, B3, B4, B5, B6, C1, C3. reflexivity.
Qed.

(** integer-valued functions without h dependence can never be made *)
Lemma c29_int nanint p a s vals c hd :
  evaluate_all p s (m_all a) (m_remap a) (m_kws a) = Ok (c :: vals) -> c_int c = true ->
  p_hdep p = Some hd -> length (new_names p a) = length (p_names p) -> p_names p <> [] ->
  exists s', make_property nanint p a s = (s', Raise ValueError).
Proof.
  intros He Hc Hh Hl Hn. unfold make_property. cbv zeta.
  destruct (_ && negb (covers _ _)); [eauto|].
  destruct (match m_rename a with None => _ | Some r => _ end) as [names|] eqn:En.
  2:{ destruct (m_rename a); [|discriminate]. destruct (_ =? _); inversion En; eauto. }
  destruct (_ && _); [eauto|]. rewrite He.
  unfold new_names in Hl. assert (Hnn : names <> []).
  { destruct (m_rename a) as [r|].
    - destruct (_ =? _); inversion En; subst. destruct names; [|discriminate]. simpl in Hl. destruct (p_names p); [congruence|discriminate].
    - inversion En; subst; auto. }
  destruct names as [|nm names]; [congruence|]. destruct (p_names p) as [|pn pns]; [congruence|].
  cbn [map combine for_each make_one]. destruct s as [h f]. cbn [fst].
  unfold make_one at 1. unfold fill. rewrite Hc. eauto.
Qed.
