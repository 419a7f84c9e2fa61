(** Lemmas about the lists extract_keys hands out. *)
From Verif Require Import Dict Util Rat HandlerModel HandlerSpec Handler Handler2 Handler3 Handler4 KeysModel KeysSpec.
Open Scope string_scope.
Open Scope list_scope.
Open Scope nat_scope.

Definition wf (s : kst) : Prop :=
  k_any s < length (k_heap s) /\ k_sav s < length (k_heap s) /\ k_gen s < length (k_heap s) /\
  k_any s <> k_sav s /\ k_any s <> k_gen s /\ k_sav s <> k_gen s.

Lemma st_eta h f : (with_saved (with_all h (h_all h) (h_gen h)) (h_saved h), f) = ((h, f) : st).
Proof. destruct h; reflexivity. Qed.

Lemma in_place_wf s t : wf s -> wf (in_place s t).
Proof. unfold wf, in_place; cbn. rewrite !upd_length. auto. Qed.
Lemma in_place_view s t : wf s -> view (in_place s t) = t.
Proof.
  intros (A & B & C & D & E & F). destruct t as [h f]. unfold view, cell, in_place; cbn.
  rewrite (nth_upd_ne _ (k_gen s) (k_any s)), (nth_upd_ne _ (k_sav s) (k_any s)) by congruence.
  rewrite (nth_upd_ne _ (k_gen s) (k_sav s)) by congruence.
  rewrite !nth_upd_eq by (rewrite ?upd_length; assumption). apply st_eta.
Qed.
Lemma in_place_cell s t r : r <> k_any s -> r <> k_sav s -> r <> k_gen s -> cell (in_place s t) r = cell s r.
Proof. intros A B C. unfold cell, in_place; cbn. rewrite !nth_upd_ne by congruence. reflexivity. Qed.

Lemma rebind_wf s t : wf s -> wf (rebind s t).
Proof. unfold wf, rebind; cbn. rewrite app_length; cbn. lia. Qed.
Lemma rebind_view s t : wf s -> h_gen (fst t) = cell s (k_gen s) -> view (rebind s t) = t.
Proof.
  intros (A & B & C & D & E & F) G. destruct t as [h f]. unfold view, cell, rebind in *; cbn in *.
  rewrite (app_nth1 _ _ _ C), !app_nth2 by lia.
  replace (S (length (k_heap s)) - length (k_heap s)) with 1 by lia.
  replace (length (k_heap s) - length (k_heap s)) with 0 by lia. cbn. rewrite <- G. apply st_eta.
Qed.
Lemma rebind_cell s t r : r < length (k_heap s) -> cell (rebind s t) r = cell s r.
Proof. intros H. unfold cell, rebind; cbn. now apply app_nth1. Qed.

Lemma delete_gen p t t' : delete_one p t = (t', Ok tt) -> h_gen (fst t') = h_gen (fst t).
Proof.
  destruct t as [h f]. unfold delete_one. destruct (negb _); [discriminate|]. destruct (negb _); [discriminate|].
  now intros [= <-].
Qed.
Lemma delete_raise p t t' e : delete_one p t = (t', Raise e) -> t' = t.
Proof.
  destruct t as [h f]. unfold delete_one. destruct (negb _); [now intros [= <- _]|].
  destruct (negb _); [now intros [= <- _]|discriminate].
Qed.

Lemma keys_delete_view ps s : wf s ->
  wf (fst (keys_delete ps s)) /\
  view (fst (keys_delete ps s)) = fst (delete_property ps (view s)) /\
  snd (keys_delete ps s) = snd (delete_property ps (view s)).
Proof.
  unfold delete_property. revert s. induction ps as [|p ps IH]; intros s W; cbn [keys_delete for_each]; [auto|].
  destruct (delete_one p (view s)) as [t [[]|e]] eqn:E.
  - destruct (IH (rebind s t) (rebind_wf _ _ W)) as (A & B & C).
    rewrite rebind_view in B, C by (auto; exact (delete_gen _ _ _ E)). auto.
  - rewrite (delete_raise _ _ _ _ E). auto.
Qed.

Lemma keys_do_view nanint s c : wf s ->
  wf (fst (keys_do nanint s c)) /\
  view (fst (keys_do nanint s c)) = fst (hdo nanint (view s) c) /\
  snd (keys_do nanint s c) = snd (hdo nanint (view s) c).
Proof.
  intros W. destruct c as [ps|ps|p a|ps ow dt|ps|p lo hi r inh|b]; try exact (keys_delete_view ps s W);
  unfold keys_do; destruct (hdo nanint (view s) _) as [t r0]; cbn [fst snd]; auto using in_place_wf, in_place_view.
Qed.

Lemma extract_wf set s : wf s -> wf (fst (extract_keys set s)).
Proof. destruct set; cbn; auto. unfold wf; cbn. rewrite app_length; cbn. lia. Qed.
Lemma extract_view set s : wf s -> view (fst (extract_keys set s)) = view s.
Proof.
  intros (A & B & C & _). destruct set; cbn; auto. unfold view, cell; cbn. now rewrite !app_nth1 by assumption.
Qed.
Lemma edit_wf r l s : wf s -> wf (edit r l s).
Proof. unfold wf, edit; cbn. now rewrite upd_length. Qed.

Lemma step_wf nanint s c : wf s -> wf (keys_step nanint s c).
Proof. destruct c; cbn [keys_step]; intros W; [now apply keys_do_view|now apply extract_wf|now apply edit_wf]. Qed.
Lemma run_wf nanint cs : forall s, wf s -> wf (keys_run nanint s cs).
Proof. induction cs as [|c cs IH]; intros s W; [exact W|]. apply IH, step_wf, W. Qed.
Lemma reach_wf s : keys_reach s -> wf s.
Proof. intros (s0 & nanint & cs & ->). apply run_wf. unfold wf, keys_open; cbn. lia. Qed.

Lemma answer s set s' r : wf s -> extract_keys set s = (s', Ok r) ->
  cell s' r = names_of set (view s) /\ view s' = view s.
Proof.
  intros W E. split; [|rewrite <- (extract_view set s W), E; reflexivity].
  destruct set; cbn in E; try discriminate; injection E as <- <-; try reflexivity.
  unfold cell; cbn. rewrite app_nth2, Nat.sub_diag by lia. reflexivity.
Qed.

(** * Lists the handler no longer uses *)
Definition detached (r : nat) (s : kst) : Prop :=
  r < length (k_heap s) /\ r <> k_any s /\ r <> k_sav s /\ r <> k_gen s.

Lemma delete_heap ps : forall s, exists l, k_heap (fst (keys_delete ps s)) = k_heap s ++ l.
Proof.
  induction ps as [|p ps IH]; intros s; cbn [keys_delete]; [exists []; now rewrite app_nil_r|].
  destruct (delete_one p (view s)) as [t [[]|e]]; [|exists []; now rewrite app_nil_r].
  destruct (IH (rebind s t)) as [l ->]. exists ([h_saved (fst t); h_all (fst t)] ++ l). cbn [rebind k_heap]. now rewrite <- app_assoc.
Qed.
Lemma delete_refs ps : forall s r, detached r s -> detached r (fst (keys_delete ps s)).
Proof.
  induction ps as [|p ps IH]; intros s r D; cbn [keys_delete]; [exact D|].
  destruct (delete_one p (view s)) as [t [[]|e]]; [|exact D]. apply IH.
  unfold detached, rebind in *; cbn. rewrite app_length; cbn. lia.
Qed.

Lemma detached_step nanint s c r : detached r s ->
  detached r (keys_step nanint s c) /\ (edits r c = false -> cell (keys_step nanint s c) r = cell s r).
Proof.
  intros D. pose proof D as (A & B & C & G). destruct c as [c|set|r' l]; cbn [keys_step].
  - destruct c as [ps|ps|p a|ps ow dt|ps|p lo hi r0 inh|b];
    try (unfold keys_do; destruct (hdo nanint (view s) _) as [t r1]; cbn [fst]; split;
         [unfold detached, in_place in *; cbn; rewrite !upd_length; auto|intros _; now apply in_place_cell]).
    cbn [keys_do]. split; [now apply delete_refs|]. intros _. unfold cell. destruct (delete_heap ps s) as [l ->]. now apply app_nth1.
  - split; destruct set; cbn; auto.
    + unfold detached; cbn. rewrite app_length; cbn. lia.
    + intros _. unfold cell; cbn. now apply app_nth1.
  - split; [unfold detached, edit; cbn; rewrite upd_length; auto|].
    cbn [edits]. intros E. apply Nat.eqb_neq in E. unfold cell, edit; cbn. apply nth_upd_ne. congruence.
Qed.
Lemma detached_run nanint cs : forall s r, detached r s -> forallb (fun c => negb (edits r c)) cs = true ->
  cell (keys_run nanint s cs) r = cell s r.
Proof.
  induction cs as [|c cs IH]; intros s r D E; [reflexivity|]. cbn [forallb] in E. apply andb_prop in E as [E1 E2].
  destruct (detached_step nanint s c r D) as [D' Q]. cbn [keys_run fold_left]. fold (keys_run nanint (keys_step nanint s c) cs).
  rewrite IH by assumption. apply Q. now destruct (edits r c).
Qed.

Definition agree (r : nat) (s t : kst) : Prop :=
  k_st s = k_st t /\ k_any s = k_any t /\ k_sav s = k_sav t /\ k_gen s = k_gen t /\
  length (k_heap s) = length (k_heap t) /\ forall j, j <> r -> cell s j = cell t j.

Lemma agree_view r s t : agree r s t -> detached r s -> view s = view t.
Proof.
  intros (A & B & C & D & E & F) (G & H & I & J). unfold view. rewrite A, <- B, <- C, <- D, !F by congruence. reflexivity.
Qed.
Lemma agree_upd r s t j l : agree r s t -> forall k, k <> r -> nth k (upd (k_heap s) j l) [] = nth k (upd (k_heap t) j l) [].
Proof.
  intros (_ & _ & _ & _ & E & F) k N. destruct (Nat.eq_dec j k) as [->|M]; [|rewrite !nth_upd_ne by assumption; now apply F].
  destruct (Nat.lt_ge_cases k (length (k_heap s))).
  - rewrite !nth_upd_eq by congruence. reflexivity.
  - rewrite !nth_overflow by (rewrite upd_length; lia). reflexivity.
Qed.
Lemma agree_app (a b c : list (list string)) r : length a = length b -> (forall j, j <> r -> nth j a [] = nth j b []) ->
  forall j, j <> r -> nth j (a ++ c) [] = nth j (b ++ c) [].
Proof.
  intros L F j N. destruct (Nat.lt_ge_cases j (length a)).
  - rewrite !app_nth1 by lia. now apply F.
  - rewrite !app_nth2 by lia. now rewrite L.
Qed.
Lemma agree_in_place r s t u : agree r s t -> agree r (in_place s u) (in_place t u).
Proof.
  intros (A & B & C & D & E & F). unfold in_place, agree; cbn. rewrite <- B, <- C, <- D, !upd_length.
  repeat split; auto.
  assert (G : forall (a b : list (list string)) i l, length a = length b -> (forall j, j <> r -> nth j a [] = nth j b []) ->
    forall j, j <> r -> nth j (upd a i l) [] = nth j (upd b i l) []).
  { intros a b i l La Fa j N. destruct (Nat.eq_dec i j) as [->|M]; [|rewrite !nth_upd_ne by assumption; now apply Fa].
    destruct (Nat.lt_ge_cases j (length a)).
    - rewrite !nth_upd_eq by congruence. reflexivity.
    - rewrite !nth_overflow by (rewrite upd_length; lia). reflexivity. }
  unfold cell; cbn. repeat (apply G; [rewrite ?upd_length; auto|]). exact F.
Qed.
Lemma agree_rebind r s t u : agree r s t -> agree r (rebind s u) (rebind t u).
Proof.
  intros (A & B & C & D & E & F). unfold rebind, agree, cell; cbn. rewrite !app_length, E. repeat split; auto.
  apply agree_app; auto.
Qed.
Lemma agree_delete r ps : forall s t, agree r s t -> detached r s ->
  agree r (fst (keys_delete ps s)) (fst (keys_delete ps t)).
Proof.
  induction ps as [|p ps IH]; intros s t A D; cbn [keys_delete]; [exact A|].
  rewrite <- (agree_view _ _ _ A D). destruct (delete_one p (view s)) as [u [[]|e]]; [|exact A].
  apply IH; [now apply agree_rebind|]. unfold detached, rebind in *; cbn. rewrite app_length; cbn. lia.
Qed.
Lemma agree_step nanint r s t c : agree r s t -> detached r s -> agree r (keys_step nanint s c) (keys_step nanint t c).
Proof.
  intros A D. destruct c as [c|set|r' l]; cbn [keys_step].
  - destruct c as [ps|ps|p a|ps ow dt|ps|p lo hi r0 inh|b]; try (now apply agree_delete);
    unfold keys_do; rewrite <- (agree_view _ _ _ A D); destruct (hdo nanint (view s) _) as [u e]; cbn [fst]; now apply agree_in_place.
  - destruct set; cbn; auto. destruct A as (A & B & C & G & E & F). unfold agree, cell; cbn. rewrite A, !app_length, E.
    repeat split; auto. apply agree_app; auto.
  - pose proof A as (A1 & B & C & G & E & F). unfold agree, edit; cbn. rewrite !upd_length. repeat split; auto.
    exact (agree_upd r s t r' l A).
Qed.
Lemma agree_run nanint r cs : forall s t, agree r s t -> detached r s ->
  view (keys_run nanint s cs) = view (keys_run nanint t cs).
Proof.
  induction cs as [|c cs IH]; intros s t A D; [exact (agree_view r s t A D)|]. cbn [keys_run fold_left].
  apply IH; [now apply agree_step|now apply detached_step].
Qed.
Lemma edit_agree r l s : agree r (edit r l s) s.
Proof.
  unfold agree, edit, cell; cbn. rewrite upd_length. repeat split; auto. intros j N. apply nth_upd_ne. congruence.
Qed.

Lemma loaded_detached s s' r : wf s -> extract_keys SetLoaded s = (s', Ok r) -> detached r s'.
Proof. intros (A & B & C & _) [= <- <-]. unfold detached; cbn. rewrite app_length; cbn. lia. Qed.
Lemma loaded_private s s' r nanint cs l : wf s -> extract_keys SetLoaded s = (s', Ok r) ->
  (forallb (fun c => negb (edits r c)) cs = true -> cell (keys_run nanint s' cs) r = cell s' r) /\
  view (keys_run nanint (edit r l s') cs) = view (keys_run nanint s' cs).
Proof.
  intros W E. pose proof (loaded_detached _ _ _ W E) as D. split; [intros F; now apply detached_run|].
  symmetry. apply agree_run with r; auto. destruct (edit_agree r l s') as (a & b & c & d & e & f).
  repeat split; auto. intros j N. symmetry. now apply f.
Qed.

(** * Lists the handler goes on using *)
Lemma same_refs nanint s c : is_delete c = false ->
  k_any (keys_step nanint s c) = k_any s /\ k_sav (keys_step nanint s c) = k_sav s /\ k_gen (keys_step nanint s c) = k_gen s.
Proof.
  destruct c as [c|set|r l]; cbn [keys_step is_delete]; [|destruct set; cbn; auto|auto].
  destruct c; intros H; try discriminate; unfold keys_do; destruct (hdo nanint (view s) _); auto.
Qed.
Lemma same_refs_run nanint cs : forall s, forallb (fun c => negb (is_delete c)) cs = true ->
  k_any (keys_run nanint s cs) = k_any s /\ k_sav (keys_run nanint s cs) = k_sav s /\ k_gen (keys_run nanint s cs) = k_gen s.
Proof.
  induction cs as [|c cs IH]; intros s H; [auto|]. cbn [forallb] in H. apply andb_prop in H as [H1 H2].
  cbn [keys_run fold_left]. destruct (IH (keys_step nanint s c) H2) as (A & B & C). unfold keys_run in A, B, C. rewrite A, B, C.
  apply same_refs. now destruct (is_delete c).
Qed.
Lemma gen_delete ps : forall s, k_gen (fst (keys_delete ps s)) = k_gen s.
Proof.
  induction ps as [|p ps IH]; intros s; cbn [keys_delete]; [reflexivity|].
  destruct (delete_one p (view s)) as [t [[]|e]]; [rewrite IH|]; reflexivity.
Qed.
Lemma gen_run nanint cs : forall s, k_gen (keys_run nanint s cs) = k_gen s.
Proof.
  induction cs as [|c cs IH]; intros s; [auto|]. cbn [keys_run fold_left]. fold (keys_run nanint (keys_step nanint s c) cs).
  rewrite IH. destruct (is_delete c) eqn:E; [|now apply same_refs].
  destruct c as [[]| |]; try discriminate. apply gen_delete.
Qed.

Lemma live set s s1 r nanint cs : set <> SetLoaded -> wf s -> extract_keys set s = (s1, Ok r) ->
  forallb (fun c => negb (is_delete c)) cs = true \/ set = SetGenerated ->
  let s2 := keys_run nanint s1 cs in
  extract_keys set s2 = (s2, Ok r) /\ cell s2 r = names_of set (view s2).
Proof.
  intros N W E H s2.
  assert (Q : extract_keys set s2 = (s2, Ok r)).
  { destruct set; try congruence; cbn in E |- *; try discriminate; injection E as <- <-.
    - destruct H as [H|H]; [|discriminate]. subst s2. now rewrite (proj1 (same_refs_run nanint cs s H)).
    - destruct H as [H|H]; [|discriminate]. subst s2. now rewrite (proj1 (proj2 (same_refs_run nanint cs s H))).
    - subst s2. now rewrite gen_run. }
  split; [exact Q|]. apply (answer s2 set s2 r); [|exact Q]. subst s2. apply run_wf.
  replace s1 with (fst (extract_keys set s)) by now rewrite E. now apply extract_wf.
Qed.

Lemma delete_detached p ps s r : wf s -> r = k_any s \/ r = k_sav s -> snd (delete_one p (view s)) = Ok tt ->
  detached r (fst (keys_delete (p :: ps) s)) /\ cell (fst (keys_delete (p :: ps) s)) r = cell s r.
Proof.
  intros W R D. cbn [keys_delete]. destruct (delete_one p (view s)) as [t [[]|e]]; [|discriminate].
  destruct W as (A & B & C & E & F & G). split.
  - apply delete_refs. unfold detached, rebind; cbn. rewrite app_length; cbn. destruct R as [->| ->]; lia.
  - unfold cell. destruct (delete_heap ps (rebind s t)) as [l ->]. cbn [rebind k_heap]. rewrite <- app_assoc, app_nth1; [reflexivity|].
    destruct R as [->| ->]; assumption.
Qed.

Lemma frozen set s s1 r p ps nanint cs : set = SetAny \/ set = SetSaved -> wf s -> extract_keys set s = (s1, Ok r) ->
  snd (delete_one p (view s)) = Ok tt -> forallb (fun c => negb (edits r c)) cs = true ->
  cell (keys_run nanint s1 (KDo (HDelete (p :: ps)) :: cs)) r = names_of set (view s).
Proof.
  intros H W E D F. rewrite <- (proj1 (answer s set s1 r W E)).
  assert (R : s1 = s /\ (r = k_any s \/ r = k_sav s)) by (destruct H as [->| ->]; cbn in E; injection E as <- <-; auto).
  destruct R as [-> R]. destruct (delete_detached p ps s r W R D) as [Dt Q].
  change (keys_run nanint s (KDo (HDelete (p :: ps)) :: cs)) with (keys_run nanint (fst (keys_delete (p :: ps) s)) cs).
  rewrite detached_run by assumption. exact Q.
Qed.

(** * What the calls do to the lists *)

Lemma make_one_lists p inds name new ow c s s' :
  make_one p inds (name, new, ow, c) s = (s', Ok tt) ->
  h_all (fst s') = h_all (fst s) ++ (if ow : bool then [] else [new]) /\
  h_gen (fst s') = h_gen (fst s) ++ (if ow then [] else [new]).
Proof.
  destruct s as [h f]. unfold make_one. destruct (fill _ _ _) as [v|]; [|discriminate].
  destruct (dget (p_units p) name) as [u|]; [|discriminate].
  destruct (p_hdep p) as [hd|]; [|discriminate].
  destruct (dget hd name) as [e|]; [|discriminate].
  intros [= <-]. destruct ow; cbn; rewrite ?app_nil_r; auto.
Qed.
Lemma make_loop_lists p inds old new : forall names vals s s',
  length names = length new -> length vals = length new ->
  for_each (make_one p inds) (combine (combine (combine names new) (map (fun k => smem k old) new)) vals) s = (s', Ok tt) ->
  h_all (fst s') = h_all (fst s) ++ fresh old new /\ h_gen (fst s') = h_gen (fst s) ++ fresh old new.
Proof.
  induction new as [|q new IH]; intros [|n names] [|v vals] s s' L1 L2; try discriminate; cbn [combine map for_each fresh filter].
  - intros [= <-]. now rewrite !app_nil_r.
  - destruct (make_one p inds (n, q, smem q old, v) s) as [s1 [[]|e]] eqn:E; [|discriminate]. intros H.
    destruct (IH names vals s1 s' ltac:(cbn in L1; lia) ltac:(cbn in L2; lia) H) as [A B].
    destruct (make_one_lists _ _ _ _ _ _ _ _ E) as [C D]. rewrite A, B, C, D.
    destruct (smem q old); cbn [negb app]; rewrite ?app_nil_r, <- ?app_assoc; auto.
Qed.
Lemma write_one_lists nanint ow dt p s :
  h_all (fst (fst (write_one nanint ow dt p s))) = h_all (fst s) /\ h_gen (fst (fst (write_one nanint ow dt p s))) = h_gen (fst s).
Proof.
  destruct s as [h f]. unfold write_one. destruct (dget (h_loaded h) p) as [c|]; [|auto].
  destruct (smem p (h_saved h) && negb ow); [auto|].
  destruct (dget (f_grp f) p) as [d|]; [destruct (s_data d); [destruct (negb _); [auto|]|auto]|];
  destruct (dget (h_units h) p); auto; destruct (dget (h_hdep h) p); auto; destruct (smem p (h_saved h)); auto.
Qed.
Lemma write_lists nanint ow dt ps : forall s,
  h_all (fst (fst (write_property nanint ps ow dt s))) = h_all (fst s) /\ h_gen (fst (fst (write_property nanint ps ow dt s))) = h_gen (fst s).
Proof.
  unfold write_property. induction ps as [|p ps IH]; intros s; cbn [for_each]; [auto|].
  pose proof (write_one_lists nanint ow dt p s) as [A B].
  destruct (write_one nanint ow dt p s) as [s1 [[]|e]]; cbn [fst snd] in *; [|auto].
  destruct (IH s1) as [C D]. rewrite C, D. auto.
Qed.
Lemma unload_lists ps : forall s,
  h_all (fst (fst (unload_property ps s))) = h_all (fst s) /\ h_gen (fst (fst (unload_property ps s))) = h_gen (fst s).
Proof.
  unfold unload_property. induction ps as [|p ps IH]; intros [h f]; cbn [for_each unload_one]; [auto|].
  exact (IH (with_loaded h (ddel (h_loaded h) p), f)).
Qed.
Lemma make_lists0 nanint p a s s' : make_property nanint p a s = (s', Ok tt) -> m_write a = false ->
  h_all (fst s') = h_all (fst s) ++ fresh (h_all (fst s)) (new_names p a) /\
  h_gen (fst s') = h_gen (fst s) ++ fresh (h_all (fst s)) (new_names p a).
Proof.
  intros Hm Hw. destruct (make_split _ _ _ _ _ Hm Hw) as (names & vals & -> & Ln & He & Hf).
  destruct (evaluate_spec _ _ _ _ _ _ He) as (args & raw & Hfun & Lr & Ha & Hv).
  assert (Lv : length vals = length (new_names p a)).
  { destruct (p_ret_h p); [congruence|]. destruct (p_hdep p).
    - rewrite Ln. eapply unh_length; eauto.
    - destruct Hv as [-> ->]. simpl in *; congruence. }
  apply make_loop_lists in Hf; auto.
Qed.
Lemma make_lists nanint p a s s' : make_property nanint p a s = (s', Ok tt) ->
  h_all (fst s') = h_all (fst s) ++ fresh (h_all (fst s)) (new_names p a) /\
  h_gen (fst s') = h_gen (fst s) ++ fresh (h_all (fst s)) (new_names p a).
Proof.
  intros Hm. destruct (m_write a) eqn:Hw; [|now apply (make_lists0 nanint)].
  destruct (make_write _ _ _ _ _ Hm Hw) as (s1 & s2 & H1 & H2 & H3).
  apply make_lists0 in H1 as [A B]; [|reflexivity].
  pose proof (write_lists nanint (m_owdisk a) (m_dtype a) (new_names p a) s1) as [C D]. rewrite H2 in C, D. cbn [fst] in C, D.
  unfold new_names in A, B, C, D |- *. cbn [m_rename] in A, B.
  destruct (m_unload a).
  - pose proof (unload_lists (new_names p a) s2) as [E F]. rewrite H3 in E, F. cbn [fst] in E, F. split; congruence.
  - subst s2. split; congruence.
Qed.

Lemma make_changes nanint p a s s1 r s2 q : wf s -> extract_keys SetAny s = (s1, Ok r) ->
  keys_do nanint s1 (HMake p a) = (s2, Ok tt) ->
  In q (new_names p a) -> ~ In q (cell s1 r) -> In q (cell s2 r).
Proof.
  intros W [= <- <-] E Hq N.
  destruct (keys_do_view nanint s (HMake p a) W) as (A & B & C). rewrite E in A, B, C. cbn [fst snd hdo] in A, B, C.
  destruct (make_property nanint p a (view s)) as [t x] eqn:M. cbn [fst snd] in B, C. subst x t.
  assert (R : k_any s2 = k_any s) by (pose proof (f_equal fst E) as X; cbn in X; rewrite M in X; rewrite <- X; reflexivity).
  rewrite <- R. change (In q (names_of SetAny (view s2))). cbn [names_of].
  destruct (make_lists _ _ _ _ _ M) as [L _]. rewrite L. apply in_or_app; right. unfold fresh. apply filter_In. split; [exact Hq|].
  apply negb_true_iff. destruct (smem q (h_all (fst (view s)))) eqn:X; [|reflexivity]. exfalso. apply N.
  apply smem_In in X. exact X.
Qed.

Lemma edit_hides s s1 r p ua inh : wf s -> extract_keys SetAny s = (s1, Ok r) ->
  let s2 := edit r (filter (fun q => negb (String.eqb q p)) (cell s1 r)) s1 in
  return_property (view s2) p ua inh = Raise ValueError /\ k_st s2 = k_st s.
Proof.
  intros (A & B & C & D & E & F) [= <- <-] s2. split; [|reflexivity].
  destruct (view s2) as [h f] eqn:V. unfold return_property.
  assert (Hh : h_all h = filter (fun q => negb (String.eqb q p)) (cell s (k_any s))).
  { change h with (fst (h, f)). rewrite <- V. cbn. unfold cell at 1. cbn. now rewrite nth_upd_eq by assumption. }
  destruct (smem p (h_all h)) eqn:X; [|reflexivity]. exfalso. rewrite Hh in X. apply smem_In, filter_In in X as [_ X].
  rewrite String.eqb_refl in X. discriminate.
Qed.

Lemma delete_names ps : forall t t', delete_property ps t = (t', Ok tt) -> ps <> [] ->
  h_saved (fst t') = dkeys (f_grp (snd t')).
Proof.
  unfold delete_property. induction ps as [|p ps IH]; intros t t' H N; [congruence|]. cbn [for_each] in H.
  destruct (delete_one p t) as [t1 [[]|e]] eqn:E; [|discriminate].
  destruct ps as [|p' ps]; [|now apply (IH t1)]. cbn in H. injection H as <-.
  destruct t as [h f]. unfold delete_one in E. destruct (negb _); [discriminate|]. destruct (negb _); [discriminate|].
  injection E as <-. reflexivity.
Qed.
Lemma delete_gens ps : forall t, h_gen (fst (fst (delete_property ps t))) = h_gen (fst t).
Proof.
  unfold delete_property. induction ps as [|p ps IH]; intros t; cbn [for_each]; [auto|].
  destruct (delete_one p t) as [t1 [[]|e]] eqn:E; cbn [fst].
  - rewrite IH. exact (delete_gen _ _ _ E).
  - now rewrite (delete_raise _ _ _ _ E).
Qed.
