(** C127: the first run of setupsimim. *)
From Verif Require Import Dict Util PathsModel PathsSpec PathsProps2.
From Coq Require Import Ascii Lia.
Open Scope string_scope. Open Scope list_scope.

(** the directory meant by what the user types: nothing stands for the home directory *)
Definition meant (E : env) (a : string) : string := if String.eqb a "" then e_user E "~" else e_user E a.

(** On a machine where no root is recorded, a directory that is typed as it is (or nothing, for the home directory) and
    confirmed becomes the root, in memory and on disk, with the directories below it; no other file changes. An 'n' changes
    nothing, and so does a directory that does not exist. *)
Theorem C127_first_partial E fs fs0 s0 a : new_session E fs = (fs0, Ok s0) -> s_root s0 = None ->
  (a <> "" -> exists_ fs0 a = true) -> forall pre rest, Forall unclear pre ->
  (exists_ fs0 (meant E a) = true -> setupsimim E (a :: pre ++ "n" :: rest) fs = ((s0, fs0), Ok tt)) /\
  (exists_ fs0 (meant E a) = false -> setupsimim E (a :: pre ++ rest) fs = ((s0, fs0), Raise NameError)) /\
  (forall s' fs', setupsimim E (a :: pre ++ "y" :: rest) fs = ((s', fs'), Ok tt) ->
     s_root s' = Some (e_abs E (meant E a)) /\ fs_file fs' (e_rootfile E) = Some (e_abs E (meant E a))
     /\ (forall d, In d tree -> exists_ fs' (join (e_abs E (meant E a)) d) = true)
     /\ (forall q, q <> e_rootfile E -> fs_file fs' q = fs_file fs0 q)).
Proof.
  intros N R A pre rest F.
  assert (S : forall l, setupsimim E (a :: l) fs = setup E (if String.eqb a "" then "~" else a) true l (s0, fs0)).
  { intros l. unfold setupsimim. rewrite N. destruct (String.eqb_spec a "") as [->|H]; [reflexivity|]. rewrite (A H). reflexivity. }
  assert (M : e_user E (if String.eqb a "" then "~" else a) = meant E a) by (unfold meant; destruct (String.eqb a ""); reflexivity).
  destruct (C126_first E (if String.eqb a "" then "~" else a) s0 fs0 R) as [X Y]. rewrite M in X, Y.
  split; [|split].
  - intros H. rewrite S. apply (proj1 (Y H pre F)).
  - intros H. rewrite S. apply X. exact H.
  - intros s' fs' H. rewrite S in H.
    destruct (exists_ fs0 (meant E a)) eqn:D; [|rewrite (X true (pre ++ "y" :: rest) eq_refl) in H; discriminate].
    rewrite (proj1 (proj2 (Y eq_refl pre F)) rest) in H.
    assert (K : s_root s' = Some (e_abs E (meant E a))).
    { unfold setup, pick_root in H. rewrite R, M, D in H. cbn [negb] in H.
      destruct (write_file fs0 (e_rootfile E) (e_abs E (meant E a))) as [f1 [[]|e]]; [|discriminate].
      match type of H with context [mkdirs ?f ?l] => destruct (mkdirs f l) as [f2 [[]|e]] end; [|discriminate].
      match type of H with context [load_paths f2 ?s1] => pose proof (load_root_kept f2 s1) as L; destruct (load_paths f2 s1) as [s2 rr] end.
      injection H as <- _ _. exact L. }
    destruct (C126_setup _ _ _ _ _ _ _ _ H) as [[-> _]|(r & [-> |Q] & _ & B1 & B2 & B3 & B4 & _)]; [congruence| |congruence].
    rewrite M in B1, B2, B3. auto.
Qed.
Print Assumptions C127_first_partial.

(** A directory below the home directory that is typed with '~' is refused: whether it exists is asked before '~' is expanded. *)
Theorem C127_tilde_refuted :
  (forall E fs fs0 s0 a rest, new_session E fs = (fs0, Ok s0) -> a <> "" -> exists_ fs0 a = false ->
     setupsimim E (a :: rest) fs = ((s0, fs0), Raise NameError)) /\
  exists E fs fs0 s0, new_session E fs = (fs0, Ok s0) /\ s_root s0 = None /\ exists_ fs0 "~/data" = false /\ exists_ fs0 (e_user E "~/data") = true.
Proof.
  split.
  - intros E fs fs0 s0 a rest N H X. unfold setupsimim. rewrite N. apply String.eqb_neq in H. rewrite H, X. reflexivity.
  - exists (mkEnv (fun p => p) (fun p => match p with String "~"%char r => String.append "/w" r | _ => p end) "/lib/res").
    exists (mkFS (fun _ => None) (fun q => smem q ["/w"; "/lib"; "/lib/res"; "/w/data"])).
    do 2 eexists. split; [reflexivity|]. split; [reflexivity|]. split; vm_compute; reflexivity.
Qed.
Print Assumptions C127_tilde_refuted.

Example C127_nonvacuous :
  let E := mkEnv (fun p => p) (fun p => if String.eqb p "~" then "/w" else p) "/lib/res" in
  let fs := mkFS (fun _ => None) (fun q => smem q ["/w"; "/lib"; "/w/data"]) in
  exists fs0 s0, new_session E fs = (fs0, Ok s0) /\ s_root s0 = None /\ exists_ fs0 "/w/data" = true /\
  exists s1 fs1 s2 fs2, setupsimim E [""; "what"; "y"] fs = ((s1, fs1), Ok tt) /\ s_root s1 = Some "/w"
    /\ setupsimim E ["/w/data"; "y"] fs = ((s2, fs2), Ok tt) /\ s_root s2 = Some "/w/data".
Proof.
  cbv zeta. do 2 eexists. split; [reflexivity|]. split; [reflexivity|]. split; [vm_compute; reflexivity|].
  do 4 eexists. split; [reflexivity|]. split; [reflexivity|]. split; reflexivity.
Qed.
