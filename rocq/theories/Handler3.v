(** Proofs about the Handler model: persistence, availability, statistics. *)
From Verif Require Import Dict Util Rat HandlerModel HandlerSpec Handler Handler2.
From Coq Require Import Sorted.
Open Scope string_scope.
Open Scope list_scope.
Open Scope nat_scope.

(** * C31 *)
Lemma source_ok n s p : hinv n s -> dmem (h_loaded (fst s)) p = true \/ In p (h_saved (fst s)) ->
  p <> "mass_cuts" -> exists c, source s p = Ok (Some c) /\ length (c_val c) = n.
Proof.
  intros I H Hp. unfold source. destruct (dget (h_loaded (fst s)) p) as [c|] eqn:E.
  - exists c. split; auto. apply (i_loaded _ _ I p c E).
  - destruct H as [H|H]; [apply dmem_some in H as (v & Hv); congruence|].
    pose proof (i_saved _ _ I p H) as Hm. apply smem_In in H. rewrite H.
    apply dmem_some in Hm as (d & Hd). unfold dfind. rewrite Hd. cbn [bind].
    destruct (i_file _ _ I p d Hd Hp) as (c & -> & Hc). eauto.
Qed.

Lemma hdep_ok n s p inh : hinv n s -> In p (h_all (fst s)) ->
  exists e, (if (match inh with Some b => b | None => h_inh (fst s) end) then Ok 0%Z else dfind (h_hdep (fst s)) p) = Ok e.
Proof.
  intros I H. destruct (match inh with Some b => b | None => h_inh (fst s) end); eauto.
  destruct (i_hdep _ _ I p H) as (e & He). unfold dfind. rewrite He. eauto.
Qed.

Lemma act_lt n s c ua : hinv n s -> length (c_val c) = n ->
  Forall (fun i => i < length (c_val c)) (if ua : bool then seq 0 (h_n (fst s)) else h_act (fst s)).
Proof.
  intros I ->. destruct ua; [|apply I]. rewrite (i_n _ _ I).
  apply Forall_forall; intros i Hi; apply in_seq in Hi; lia.
Qed.

Lemma return_ok n s p ua inh : hinv n s -> In p (h_all (fst s)) ->
  dmem (h_loaded (fst s)) p = true \/ In p (h_saved (fst s)) ->
  exists c, return_property s p ua inh = Ok (Some c).
Proof.
  intros I H Hd.
  assert (Hp : p <> "mass_cuts") by (intros ->; apply (i_all_mc _ _ I); auto).
  destruct (source_ok n s p I Hd Hp) as (c & Hc & Lc). destruct (hdep_ok n s p inh I H) as (e & He).
  rewrite return_source. apply smem_In in H. rewrite H. cbn [negb]. rewrite He. cbn [bind].
  rewrite Hc. cbn [bind]. rewrite take_ok by (apply (act_lt n); auto). simpl. eauto.
Qed.

Lemma return_none n s p ua inh : hinv n s -> In p (h_all (fst s)) ->
  dmem (h_loaded (fst s)) p = false -> ~ In p (h_saved (fst s)) ->
  return_property s p ua inh = Ok None.
Proof.
  intros I H Hl Hs. destruct (hdep_ok n s p inh I H) as (e & He).
  rewrite return_source. apply smem_In in H. rewrite H. cbn [negb]. rewrite He. cbn [bind].
  unfold source. apply dmem_none in Hl. rewrite Hl. apply smem_false in Hs. rewrite Hs. reflexivity.
Qed.

Lemma return_absent s p ua inh : has_property (fst s) p = false -> return_property s p ua inh = Raise ValueError.
Proof. intros H. rewrite return_source. unfold has_property in H. rewrite H. reflexivity. Qed.

Lemma c31 n s p ua inh : reachable n s ->
  (has_property (fst s) p = false -> return_property s p ua inh = Raise ValueError) /\
  (has_property (fst s) p = true ->
     (has_loaded (fst s) p = true \/ In p (h_saved (fst s)) <->
      exists c, return_property s p ua inh = Ok (Some c)) /\
     (has_loaded (fst s) p = false /\ ~ In p (h_saved (fst s)) <-> return_property s p ua inh = Ok None)).
Proof.
  intros I. apply reachable_inv in I. split; [apply return_absent|].
  intros H. apply smem_In in H. unfold has_loaded.
  destruct (dmem (h_loaded (fst s)) p) eqn:El; [|destruct (in_dec string_dec p (h_saved (fst s))) as [Hs|Hs]].
  - destruct (return_ok n s p ua inh I H) as (c & Hc); [auto|]. rewrite Hc.
    split; split; intros; eauto; try discriminate. destruct H0; discriminate.
  - destruct (return_ok n s p ua inh I H) as (c & Hc); [auto|]. rewrite Hc.
    split; split; intros; eauto; try discriminate. destruct H0; tauto.
  - rewrite (return_none n s p ua inh) by auto.
    split; split; intros; eauto. + destruct H0; [discriminate|tauto]. + destruct H0; discriminate.
Qed.

(** properties always have a source when unloads only name saved properties *)
Definition sourced (s : st) : Prop :=
  forall p, In p (h_all (fst s)) -> dmem (h_loaded (fst s)) p = true \/ In p (h_saved (fst s)).

Lemma sourced_load p s : sourced s -> sourced (fst (load_one p s)).
Proof.
  intros K q Hq. destruct s as [h f]. unfold load_one in *.
  destruct (negb _); [apply K; auto|]. destruct (dget (f_grp f) p) as [d|]; [|apply K; auto].
  destruct (s_data d); [|apply K; auto]. simpl in *. rewrite dmem_dset.
  destruct (K q Hq) as [H|H]; auto. simpl in H. rewrite H. left. apply orb_true_r.
Qed.

Lemma sourced_unload p s : sourced s -> (has_property (fst s) p = true -> In p (h_saved (fst s))) ->
  sourced (fst (unload_one p s)).
Proof.
  intros K Hp q Hq. destruct s as [h f]. simpl in *. rewrite dmem_ddel.
  destruct (String.eqb_spec p q) as [->|Hn]; simpl.
  - right. apply Hp. apply smem_In; auto.
  - apply K; auto.
Qed.

Lemma sourced_make p inds x s : sourced s -> sourced (fst (make_one p inds x s)).
Proof.
  intros K q. destruct x as [[[name new] ow] c]. destruct s as [h f]. unfold make_one.
  destruct (fill _ _ _) as [v|]; [|apply K]. cbv zeta.
  assert (G : In q (h_all h) -> dmem (dset (h_loaded h) new v) q = true \/ In q (h_saved h)).
  { intros Hq. rewrite dmem_dset. destruct (K q Hq) as [H|H]; auto. simpl in H. rewrite H, orb_true_r. auto. }
  destruct (dget (p_units p) name); [|exact G]. destruct (p_hdep p); [|exact G].
  destruct (dget _ name); [|exact G]. destruct ow; [exact G|].
  cbn [fst with_all with_hdep with_units with_loaded h_all h_loaded h_saved]. intros Hq. apply in_app_or in Hq as [Hq|[<-|[]]]; [apply G; auto|].
  rewrite dmem_dset, String.eqb_refl. auto.
Qed.

Lemma write_saved_mono nanint ow dt p s q : In q (h_saved (fst s)) -> In q (h_saved (fst (fst (write_one nanint ow dt p s)))).
Proof.
  intros H. destruct s as [h f]. unfold write_one.
  destruct (dget (h_loaded h) p); [|exact H]. destruct (_ && _); [exact H|]. cbv zeta.
  destruct (dget (f_grp f) p) as [d|]; [destruct (s_data d); [|exact H]; destruct (negb _); [exact H|]|];
    (destruct (dget (h_units h) p); [|exact H]; destruct (dget (h_hdep h) p); [|exact H]; cbn [fst];
     destruct (smem p (h_saved h)); [exact H|simpl; apply in_or_app; auto]).
Qed.

Lemma write_one_saved nanint ow dt p s s' : write_one nanint ow dt p s = (s', Ok tt) -> In p (h_saved (fst s')).
Proof.
  destruct s as [h f]. unfold write_one.
  destruct (dget (h_loaded h) p); [|discriminate]. destruct (_ && _); [discriminate|]. cbv zeta.
  destruct (dget (f_grp f) p) as [d|]; [destruct (s_data d); [|discriminate]; destruct (negb _); [discriminate|]|];
    (destruct (dget (h_units h) p); [|discriminate]; destruct (dget (h_hdep h) p); [|discriminate];
     intros [= <-]; cbn [fst]; destruct (smem p (h_saved h)) eqn:E;
     [apply smem_In; auto|simpl; apply in_or_app; simpl; auto]).
Qed.

Lemma sourced_write nanint ow dt p s : sourced s -> sourced (fst (write_one nanint ow dt p s)).
Proof.
  intros K q Hq. pose proof (write_saved_mono nanint ow dt p s q) as M.
  destruct (write_one_frame nanint ow dt p s) as (sv & f' & E). rewrite E in *. simpl in *.
  destruct (K q Hq); auto.
Qed.

Lemma write_prop_saved nanint ow dt ps s s' : write_property nanint ps ow dt s = (s', Ok tt) ->
  forall p, In p ps -> In p (h_saved (fst s')).
Proof.
  unfold write_property. revert s; induction ps as [|a ps IH]; simpl; intros s H p Hp; [tauto|].
  destruct (write_one nanint ow dt a s) as [s1 [[]|e]] eqn:E; [|discriminate].
  destruct Hp as [->|Hp]; [|eapply IH; eauto].
  apply write_one_saved in E.
  pose proof (for_each_inv (fun t => In p (h_saved (fst t))) (write_one nanint ow dt) ps s1) as G.
  rewrite H in G. apply G; auto. intros x t _ Ht. apply write_saved_mono; auto.
Qed.

Lemma sourced_delete n p s : hinv n s -> sourced s -> sourced (fst (delete_one p s)).
Proof.
  intros I K q. destruct s as [h f]. unfold delete_one.
  destruct (negb _); [apply K|]. destruct (negb _); [apply K|]. cbv zeta. cbn.
  intros Hq. apply filter_In in Hq as [Hq Hn]. apply negb_true_iff, String.eqb_neq in Hn.
  destruct (K q Hq) as [H|H]; auto. right.
  pose proof (i_saved _ _ I q H) as Hm. cbn [snd] in Hm.
  apply smem_In. change (dmem (ddel (f_grp f) p) q = true). rewrite dmem_ddel, Hm.
  destruct (String.eqb_spec p q); [congruence|reflexivity].
Qed.

Lemma for_each_inv2 {A} (P : st -> Prop) (Q : st -> Prop) (step : A -> st -> st * exc unit) l s :
  (forall x s, In x l -> P s -> Q s -> P (fst (step x s))) ->
  (forall x s, In x l -> P s -> Q s -> Q (fst (step x s))) -> P s -> Q s ->
  P (fst (for_each step l s)) /\ Q (fst (for_each step l s)).
Proof.
  intros H1 H2 HP HQ. apply (for_each_inv (fun t => P t /\ Q t)); auto.
  intros x t Hx [A1 A2]; split; auto.
Qed.

Lemma sourced_hdo n nanint s c : hinv n s -> call_ok c -> sourced s ->
  match c with
  | HUnload ps => forall p, In p ps -> has_property (fst s) p = true -> In p (h_saved (fst s))
  | _ => True
  end -> sourced (fst (hdo nanint s c)).
Proof.
  intros I Hc K Hu. destruct c; cbn [hdo]; unfold load_property, unload_property, write_property, delete_property.
  - apply for_each_inv; auto. intros; apply sourced_load; auto.
  - apply (for_each_inv (fun t => sourced t /\ (forall p, In p ps -> has_property (fst t) p = true -> In p (h_saved (fst t))))); auto.
    intros x t Hx [K1 K2]. split; [apply sourced_unload; auto|]. destruct t as [h f]. exact K2.
  - unfold make_property. cbv zeta.
    destruct (_ && negb (covers _ _)); [exact K|].
    destruct (match m_rename a with None => _ | Some r => _ end) as [names|]; [|exact K].
    destruct (_ && _); [exact K|].
    destruct (evaluate_all _ _ _ _ _) as [vals|]; [|exact K].
    match goal with |- context [for_each (make_one p ?i) ?l s] =>
      pose proof (for_each_inv sourced (make_one p i) l s (fun x t _ Kt => sourced_make p i x t Kt) K) as H1;
      destruct (for_each (make_one p i) l s) as [s1 [u|e]] end; cbn [fst] in H1; auto.
    destruct (m_write a); auto.
    pose proof (for_each_inv sourced (write_one nanint (m_owdisk a) (m_dtype a)) names s1
       (fun x t _ Kt => sourced_write nanint (m_owdisk a) (m_dtype a) x t Kt) H1) as H2.
    pose proof (write_prop_saved nanint (m_owdisk a) (m_dtype a) names s1) as H3.
    unfold write_property in *. destruct (for_each _ names s1) as [s2 [[]|e]]; cbn [fst] in H2 |- *; auto.
    specialize (H3 s2 eq_refl).
    destruct (m_unload a); auto. unfold unload_property.
    apply (for_each_inv (fun t => sourced t /\ (forall p, In p names -> In p (h_saved (fst t))))); auto.
    intros x t Hx [K1 K2]. split; [apply sourced_unload; auto|]. destruct t as [h f]. exact K2.
  - apply for_each_inv; auto. intros; apply sourced_write; auto.
  - apply (for_each_inv2 sourced (hinv n)); auto.
    + intros x t _ K1 I1. eapply sourced_delete; eauto.
    + intros x t _ K1 I1. apply hinv_delete; auto.
  - destruct (range_frame p lo hi reset inh s) as (a & m & ->). exact K.
  - cbn [fst]. destruct (seth_frame (fst s) b) as (e & ->). exact K.
Qed.

Lemma c31_saved n f box extra inh0 h nanint cs p ua inh :
  good_file n f -> open_handler f box extra inh0 = Ok h -> Forall call_ok cs ->
  unloads_saved nanint (h, f) cs ->
  has_property (fst (hdo_all nanint (h, f) cs)) p = true <->
  exists c, return_property (hdo_all nanint (h, f) cs) p ua inh = Ok (Some c).
Proof.
  intros Hg Ho Hc Hu.
  assert (G : forall cs s, Forall call_ok cs -> hinv n s -> sourced s -> unloads_saved nanint s cs ->
     hinv n (hdo_all nanint s cs) /\ sourced (hdo_all nanint s cs)).
  { clear. induction cs as [|c cs IH]; intros s Hc I K Hu; [auto|].
    inversion Hc; subst. destruct Hu as [Hu1 Hu2]. unfold hdo_all; cbn [fold_left].
    apply IH; auto; [apply hinv_hdo|eapply sourced_hdo]; eauto. }
  destruct (G cs (h, f) Hc) as [I K]; auto.
  { eapply open_hinv; eauto. }
  { intros q Hq. destruct (open_fields _ _ _ _ _ Ho) as (us & hs & m & e & _ & _ & _ & ->).
    simpl in *. auto. }
  split; intros H.
  - apply smem_In in H. eapply return_ok; eauto.
  - destruct H as (c & Hc'). destruct (return_parts _ _ _ _ _ Hc') as (c0 & v & e & _ & Hin & _).
    apply smem_In; auto.
Qed.

(** * C30 *)
(** the effect of a successful write of one name *)
Lemma write_one_ok nanint ow dt p h f s' : write_one nanint ow dt p (h, f) = (s', Ok tt) ->
  exists c u e d, dget (h_loaded h) p = Some c /\ dget (h_units h) p = Some u /\ dget (h_hdep h) p = Some e /\
    snd s' = mkFile (f_h f) (dset (f_grp f) p d) /\ s_units d = Some u /\ s_hdep d = Some e /\
    s_data d = SCol (match dget (f_grp f) p, dt with None, Some g => g c | o, _ => on_disk nanint o c end) /\
    (exists sv, fst s' = with_saved h sv) /\
    (ow = false -> ~ In p (h_saved h)).
Proof.
  unfold write_one. destruct (dget (h_loaded h) p) as [c|]; [|discriminate].
  destruct (smem p (h_saved h) && negb ow) eqn:Eo; [discriminate|]. cbv zeta.
  assert (Q : ow = false -> ~ In p (h_saved h)).
  { intros ->. rewrite andb_true_r in Eo. apply smem_false; auto. }
  assert (W : forall x : bool, exists sv, (if x then h else with_saved h (h_saved h ++ [p])) = with_saved h sv).
  { intros []; [exists (h_saved h); destruct h; reflexivity|eauto]. }
  clear Eo.
  destruct (dget (f_grp f) p) as [d|] eqn:Ed.
  - destruct (s_data d) as [o|] eqn:Es; [|discriminate]. destruct (negb _); [discriminate|].
    destruct (dget (h_units h) p) as [u|]; [|discriminate]. destruct (dget (h_hdep h) p) as [e|]; [|discriminate].
    intros H. apply (f_equal fst) in H. cbn [fst] in H. subst s'. exists c, u, e. eexists. repeat split; auto; [|apply W].
    simpl. rewrite Es. reflexivity.
  - destruct (dget (h_units h) p) as [u|]; [|discriminate]. destruct (dget (h_hdep h) p) as [e|]; [|discriminate].
    intros H. apply (f_equal fst) in H. cbn [fst] in H. subst s'. exists c, u, e. eexists. repeat split; auto; apply W.
Qed.

Lemma store_self nanint o c : store_into nanint (store_into nanint o c) c = store_into nanint o c.
Proof.
  unfold store_into. destruct (c_int o) eqn:E1, (c_int c) eqn:E2; cbn [andb negb c_int]; try reflexivity.
Qed.
Lemma store_same nanint c : store_into nanint c c = c.
Proof. unfold store_into. destruct c as [[|] v]; reflexivity. Qed.

Lemma write_frame nanint ow dt ps s s' : write_property nanint ps ow dt s = (s', Ok tt) ->
  (exists sv, fst s' = with_saved (fst s) sv) /\ f_h (snd s') = f_h (snd s) /\
  forall q, ~ In q ps -> dget (f_grp (snd s')) q = dget (f_grp (snd s)) q.
Proof.
  unfold write_property. revert s; induction ps as [|a ps IH]; simpl; intros s H.
  - inversion H; subst. repeat split; auto. exists (h_saved (fst s')). destruct s' as [[] ]; reflexivity.
  - destruct (write_one nanint ow dt a s) as [s1 [[]|e]] eqn:E; [|discriminate].
    destruct s as [h f]. apply write_one_ok in E as (c & u & e & d & _ & _ & _ & E1 & _ & _ & _ & (sv & E2) & _).
    destruct (IH _ H) as ((sv' & A) & B & C). split; [|split].
    + exists sv'. rewrite A, E2. reflexivity.
    + rewrite B, E1. reflexivity.
    + intros q Hq. rewrite C by tauto. rewrite E1. simpl. apply dget_dset_ne. intros ->; tauto.
Qed.

Lemma c30_write nanint ow ps s s' p : write_property nanint ps ow None s = (s', Ok tt) -> In p ps ->
  exists c u e d, dget (h_loaded (fst s)) p = Some c /\ dget (h_units (fst s)) p = Some u /\
    dget (h_hdep (fst s)) p = Some e /\ dget (f_grp (snd s')) p = Some d /\
    s_units d = Some u /\ s_hdep d = Some e /\
    s_data d = SCol (on_disk nanint (dget (f_grp (snd s)) p) c).
Proof.
  unfold write_property. revert s; induction ps as [|a ps IH]; simpl; intros s H Hp; [tauto|].
  destruct (write_one nanint ow None a s) as [s1 [[]|e]] eqn:E; [|discriminate].
  destruct s as [h f]. pose proof E as E'.
  apply write_one_ok in E as (c & u & e & d & H1 & H2 & H3 & E1 & D1 & D2 & D3 & (sv & E2) & _).
  assert (D3' : s_data d = SCol (on_disk nanint (dget (f_grp f) a) c)) by (destruct (dget (f_grp f) a); auto).
  clear D3. cbn [fst snd].
  destruct (in_dec string_dec p ps) as [Hi|Hn].
  - destruct (IH _ H Hi) as (c' & u' & e' & d' & A1 & A2 & A3 & A4 & A5 & A6 & A7).
    rewrite E2 in *. rewrite E1 in A7. cbn [with_saved h_loaded h_units h_hdep f_grp] in *.
    exists c', u', e', d'. repeat split; auto. rewrite A7. f_equal. rewrite dget_dset.
    destruct (String.eqb_spec p a) as [->|Hpa]; [|reflexivity].
    rewrite A1 in H1. inversion H1; subst c'. unfold on_disk at 1. rewrite D3'.
    unfold on_disk. destruct (dget (f_grp f) a) as [d0|]; [|apply store_same].
    destruct (s_data d0); [apply store_self|apply store_same].
  - destruct Hp as [->|Hp]; [|tauto].
    destruct (write_frame nanint ow None ps s1 s' H) as (_ & _ & F).
    exists c, u, e, d. repeat split; auto. rewrite F by auto. rewrite E1. simpl. apply dget_dset_eq.
Qed.

Lemma on_disk_same nanint o c : same_dtype o c -> on_disk nanint o c = c.
Proof.
  unfold same_dtype, on_disk. destruct o as [d|]; auto. destruct (s_data d) as [o|]; auto.
  intros E. unfold store_into. rewrite E. destruct c as [[|] v]; reflexivity.
Qed.

Lemma c30_reopen n nanint ow ps s s' p c box extra inh h' b :
  reachable n s -> write_property nanint ps ow None s = (s', Ok tt) -> In p ps ->
  has_property (fst s) p = true ->
  dget (h_loaded (fst s)) p = Some c -> same_dtype (dget (f_grp (snd s)) p) c ->
  open_handler (snd s') box extra inh = Ok h' ->
  return_property (h', snd s') p true (Some b) = return_property s' p true (Some b) /\
  dget (h_units h') p = dget (h_units (fst s')) p /\ dget (h_hdep h') p = dget (h_hdep (fst s')) p.
Proof.
  intros R Hw Hp Hh Hl Hs Ho. apply reachable_inv in R.
  assert (I' : hinv n s').
  { pose proof (hinv_hdo n nanint s (HWrite ps ow None) R) as J. cbn [hdo] in J. rewrite Hw in J.
    apply J. simpl. discriminate. }
  destruct (c30_write _ _ _ _ _ _ Hw Hp) as (c' & u & e & d & A1 & A2 & A3 & A4 & A5 & A6 & A7).
  rewrite Hl in A1. inversion A1; subst c'. rewrite on_disk_same in A7 by auto.
  destruct (write_frame _ _ _ _ _ _ Hw) as ((sv & F1) & F2 & _).
  pose proof (i_loaded _ _ R p c Hl) as [Lc Pc].
  destruct (open_fields _ _ _ _ _ Ho) as (us & hs & m & ex & E1 & E2 & Em & ->).
  assert (Hk : In p (prop_keys (snd s'))).
  { apply prop_keys_In. split; auto. apply dget_dkeys. eauto. }
  destruct (mapM_attr s_units _ _ _ E1 p Hk) as (d1 & v1 & G1 & G2 & G3).
  destruct (mapM_attr s_hdep _ _ _ E2 p Hk) as (d2 & v2 & G4 & G5 & G6).
  rewrite A4 in G1, G4. inversion G1; inversion G4; subst d1 d2. clear G1 G4.
  rewrite A5 in G2. rewrite A6 in G5. inversion G2; inversion G5; subst v1 v2.
  cbn [h_units h_hdep]. rewrite G3, G6, F1. cbn [with_saved h_units h_hdep]. split; [|auto].
  assert (Ln : match s_data m with SCol c0 => length (c_val c0) | SRec r => length r end = n).
  { destruct (i_file _ _ I' "mass" m Em) as (cm & -> & ->); [discriminate|reflexivity]. }
  rewrite Ln, !return_source. cbn [fst snd h_all h_inh h_n h_act h_h].
  apply smem_In in Hk. rewrite Hk. unfold has_property in Hh. rewrite F1. cbn [with_saved h_all]. rewrite Hh. cbn [negb].
  unfold dfind. cbn [h_hdep with_saved]. rewrite G6, A3.
  destruct (if b then Ok 0%Z else Ok e) as [e0|]; cbn [bind]; [|reflexivity].
  unfold source. rewrite F1. cbn [fst snd h_loaded h_saved with_saved dget h_n h_h]. rewrite Hk, Hl. unfold dfind. rewrite A4. cbn [bind].
  rewrite A7. cbn [bind]. rewrite (i_n _ _ R), (i_h _ _ R), F2. reflexivity.
Qed.

(** deletion *)
Lemma delete_one_ok p h f s' : delete_one p (h, f) = (s', Ok tt) ->
  snd s' = mkFile (f_h f) (ddel (f_grp f) p) /\ In p (h_saved h) /\
  (forall q, In q (h_all (fst s')) <-> In q (h_all h) /\ q <> p) /\
  h_loaded (fst s') = h_loaded h.
Proof.
  unfold delete_one. destruct (smem p (h_saved h)) eqn:Es; cbn [negb]; [|discriminate].
  destruct (dmem (f_grp f) p) eqn:Em; cbn [negb]; [|discriminate]. cbv zeta. intros [= <-].
  split; [reflexivity|]. split; [apply smem_In; auto|]. split; [|reflexivity].
  intros q. cbn. rewrite filter_In, negb_true_iff, String.eqb_neq. tauto.
Qed.

Lemma c30_delete ps s s' : delete_property ps s = (s', Ok tt) ->
  f_h (snd s') = f_h (snd s) /\
  (forall q, dget (f_grp (snd s')) q = if smem q ps then None else dget (f_grp (snd s)) q) /\
  (forall q, has_property (fst s') q = has_property (fst s) q && negb (smem q ps)).
Proof.
  unfold delete_property. revert s; induction ps as [|a ps IH]; simpl; intros s H.
  - inversion H; subst. repeat split; auto. intros q. rewrite andb_true_r. reflexivity.
  - destruct (delete_one a s) as [s1 [[]|e]] eqn:E; [|discriminate].
    destruct s as [h f]. apply delete_one_ok in E as (E1 & E2 & E3 & _).
    destruct (IH _ H) as (A & B & C). cbn [fst snd]. split; [|split].
    + rewrite A, E1. reflexivity.
    + intros q. rewrite B, E1. cbn [f_grp]. rewrite dget_ddel, String.eqb_sym.
      destruct (smem q ps), (String.eqb q a); reflexivity.
    + intros q. rewrite C. unfold has_property.
      assert (Eq : smem q (h_all (fst s1)) = smem q (h_all h) && negb (String.eqb q a)).
      { apply eq_true_iff_eq. rewrite andb_true_iff, negb_true_iff, String.eqb_neq, !smem_In. apply E3. }
      rewrite Eq. unfold smem. destruct (existsb (String.eqb q) (h_all h)), (String.eqb q a), (existsb (String.eqb q) ps); reflexivity.
Qed.

(** failures *)
Lemma delete_one_raise p s s' e : delete_one p s = (s', Raise e) -> s' = s.
Proof.
  destruct s as [h f]. unfold delete_one. destruct (negb _); [congruence|]. destruct (negb _); [congruence|discriminate].
Qed.

Lemma write_one_raise nanint ow dt p s s' e : write_one nanint ow dt p s = (s', Raise e) -> e <> KeyError -> s' = s.
Proof.
  destruct s as [h f]. unfold write_one. intros H Hk.
  destruct (dget (h_loaded h) p); [|congruence]. destruct (_ && _); [congruence|]. cbv zeta in H.
  destruct (dget (f_grp f) p) as [d|]; [destruct (s_data d); [|congruence]; destruct (negb _); [congruence|]|];
    (destruct (dget (h_units h) p); [|congruence]; destruct (dget (h_hdep h) p); [discriminate|congruence]).
Qed.

Lemma c30_atomic nanint ow dt ps s s' e :
  write_property nanint ps ow dt s = (s', Raise e) -> e <> KeyError ->
  exists ps1 p ps2, ps = ps1 ++ p :: ps2 /\ write_property nanint ps1 ow dt s = (s', Ok tt).
Proof.
  intros H Hk. unfold write_property in *. apply for_each_raise in H as (l1 & x & l2 & s1 & -> & H1 & H2).
  apply write_one_raise in H2; auto. subst. eauto.
Qed.

Lemma c30_atomic_delete ps s s' e :
  delete_property ps s = (s', Raise e) ->
  exists ps1 p ps2, ps = ps1 ++ p :: ps2 /\ delete_property ps1 s = (s', Ok tt).
Proof.
  intros H. unfold delete_property in *. apply for_each_raise in H as (l1 & x & l2 & s1 & -> & H1 & H2).
  apply delete_one_raise in H2; auto. subst. eauto.
Qed.
