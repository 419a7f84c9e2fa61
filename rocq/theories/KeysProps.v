(** Property theorems about the lists of names a handler gives out: C116. *)
From Verif Require Import Dict Util Rat HandlerModel HandlerSpec Handler Handler4 HandlerProps KeysModel KeysSpec Keys.
Open Scope string_scope.
Open Scope list_scope.
Open Scope nat_scope.

(** * C116: extract_keys *)
(** The list handed out holds the names of the set at the time of the call, and asking
    changes nothing. *)
Theorem C116_answer s set s' r : keys_reach s -> extract_keys set s = (s', Ok r) ->
  cell s' r = names_of set (view s) /\ view s' = view s.
Proof. intros H. exact (answer s set s' r (reach_wf s H)). Qed.
Print Assumptions C116_answer.
(** Only the four documented sets are accepted; a refused call changes nothing. *)
Theorem C116_sets s set :
  match set with
  | SetOther => extract_keys set s = (s, Raise ValueError)
  | _ => exists s' r, extract_keys set s = (s', Ok r)
  end.
Proof. destruct set; cbn; eauto. Qed.
Print Assumptions C116_sets.
(** With list objects the methods do to the handler what C26-C32 say. *)
Theorem C116_methods s nanint c : keys_reach s ->
  view (fst (keys_do nanint s c)) = fst (hdo nanint (view s) c) /\ snd (keys_do nanint s c) = snd (hdo nanint (view s) c).
Proof. intros H. exact (proj2 (keys_do_view nanint s c (reach_wf s H))). Qed.
Print Assumptions C116_methods.
(** make_property appends the names that are new to 'any' and to 'generated' *)
Theorem C116_make nanint p a t t' : make_property nanint p a t = (t', Ok tt) ->
  names_of SetAny t' = names_of SetAny t ++ fresh (names_of SetAny t) (new_names p a) /\
  names_of SetGenerated t' = names_of SetGenerated t ++ fresh (names_of SetAny t) (new_names p a).
Proof. exact (make_lists nanint p a t t'). Qed.
Print Assumptions C116_make.
(** The list of loaded properties belongs to the caller: no call changes it, and changing
    it changes nothing for the handler. *)
Theorem C116_loaded_partial s s' r nanint cs l : keys_reach s -> extract_keys SetLoaded s = (s', Ok r) ->
  (forallb (fun c => negb (edits r c)) cs = true -> cell (keys_run nanint s' cs) r = cell s' r) /\
  view (keys_run nanint (edit r l s') cs) = view (keys_run nanint s' cs).
Proof. intros H. exact (loaded_private s s' r nanint cs l (reach_wf s H)). Qed.
Print Assumptions C116_loaded_partial.
(** The other lists are the handler's own: as long as nothing is deleted the list handed
    out earlier shows the names of the set now. *)
Theorem C116_live_partial set s s1 r nanint cs : set <> SetLoaded -> keys_reach s -> extract_keys set s = (s1, Ok r) ->
  forallb (fun c => negb (is_delete c)) cs = true \/ set = SetGenerated ->
  let s2 := keys_run nanint s1 cs in
  extract_keys set s2 = (s2, Ok r) /\ cell s2 r = names_of set (view s2).
Proof. intros N H. exact (live set s s1 r nanint cs N (reach_wf s H)). Qed.
Print Assumptions C116_live_partial.
(** From the first deletion on it shows the names from before that deletion, for ever. *)
Theorem C116_frozen_partial set s s1 r p ps nanint cs : set = SetAny \/ set = SetSaved ->
  keys_reach s -> extract_keys set s = (s1, Ok r) ->
  snd (delete_property [p] (view s)) = Ok tt -> forallb (fun c => negb (edits r c)) cs = true ->
  cell (keys_run nanint s1 (KDo (HDelete (p :: ps)) :: cs)) r = names_of set (view s).
Proof.
  intros N H E D. apply (frozen set s s1 r p ps nanint cs N (reach_wf s H) E).
  unfold delete_property in D. cbn in D. now destruct (delete_one p (view s)) as [t [[]|e]].
Qed.
Print Assumptions C116_frozen_partial.
(** So a list taken earlier is no record of that time: every call of make_property with a
    new name adds the name to it. *)
Theorem C116_record_refuted nanint p a s s1 r s2 q : keys_reach s -> extract_keys SetAny s = (s1, Ok r) ->
  keys_do nanint s1 (HMake p a) = (s2, Ok tt) ->
  In q (new_names p a) -> ~ In q (cell s1 r) -> In q (cell s2 r).
Proof. intros H. exact (make_changes nanint p a s s1 r s2 q (reach_wf s H)). Qed.
Print Assumptions C116_record_refuted.
(** Taking a name out of the list takes the property away from the handler, though the
    values in memory and in the file are still there. *)
Theorem C116_edit_refuted s s1 r p ua inh : keys_reach s -> extract_keys SetAny s = (s1, Ok r) ->
  let s2 := edit r (filter (fun q => negb (String.eqb q p)) (cell s1 r)) s1 in
  return_property (view s2) p ua inh = Raise ValueError /\
  h_loaded (fst (view s2)) = h_loaded (fst (view s)) /\ snd (view s2) = snd (view s).
Proof.
  intros H E s2. destruct (edit_hides s s1 r p ua inh (reach_wf s H) E) as [A B]. fold s2 in A, B.
  split; [exact A|]. change (k_st s1 = k_st s) in B. cbn. rewrite B. auto.
Qed.
Print Assumptions C116_edit_refuted.
(** After a deletion 'saved' lists everything in the group, with the table mass_cuts *)
Theorem C116_cuts_refuted ps t t' : delete_property ps t = (t', Ok tt) -> ps <> [] ->
  names_of SetSaved t' = dkeys (f_grp (snd t')) /\
  (dmem (f_grp (snd t)) "mass_cuts" = true -> ~ In "mass_cuts" ps -> In "mass_cuts" (names_of SetSaved t')).
Proof.
  intros H N. pose proof (delete_names ps t t' H N) as E. split; [exact E|]. intros M X. cbn [names_of]. rewrite E.
  destruct (Handler3.c30_delete ps t t' H) as (_ & G & _). specialize (G "mass_cuts").
  destruct (smem "mass_cuts" ps) eqn:S; [apply smem_In in S; contradiction|].
  apply dmem_some in M as [d M]. apply smem_In. change (dmem (f_grp (snd t')) "mass_cuts" = true). apply dmem_some. exists d. congruence.
Qed.
Print Assumptions C116_cuts_refuted.
(** A deleted property is still listed as generated. *)
Theorem C116_generated_refuted ps t t' p : delete_property ps t = (t', Ok tt) -> In p ps ->
  In p (names_of SetGenerated t) -> In p (names_of SetGenerated t') /\ has_property (fst t') p = false.
Proof.
  intros H I G. cbn [names_of] in *. split.
  - pose proof (delete_gens ps t) as E. rewrite H in E. cbn [fst] in E. now rewrite E.
  - destruct (Handler3.c30_delete ps t t' H) as (_ & _ & K). rewrite K.
    replace (smem p ps) with true by (symmetry; now apply smem_In). apply andb_false_r.
Qed.
Print Assumptions C116_generated_refuted.
Example C116_nonvacuous :
  let mk := KDo (HMake ex_prop (ex_args true true false)) in
  let s := keys_run 0%Qc (keys_open ex_s) [KKeys SetAny; KKeys SetLoaded; mk] in
  keys_reach s /\ cell s (k_any s) = ["mass"; "redshift"; "id"; "y"] /\ cell s 0 = cell s (k_any s) /\ cell s 3 = [] /\
  let s' := keys_run 0%Qc s [KDo (HDelete ["y"])] in
  snd (keys_do 0%Qc s (HDelete ["y"])) = Ok tt /\
  cell s' 0 = ["mass"; "redshift"; "id"; "y"] /\ cell s' (k_any s') = ["mass"; "redshift"; "id"] /\
  cell s' (k_sav s') = ["mass"; "redshift"; "id"; "mass_cuts"] /\ cell s' (k_gen s') = ["y"].
Proof.
  cbv zeta. split; [exists ex_s, 0%Qc; eexists; reflexivity|]. vm_compute. repeat split.
Qed.
