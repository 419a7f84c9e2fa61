(** Theorems about the question format asks before it deletes raw files (C125). *)
From Coq Require Import Reals.
From Verif Require Import Dict Util RealUtil PathsSpec SnapModel SnapSpec Snap FormatModel FormatSpec Format FormatProps AskModel Ask.
From Verif Require RawModel.
Open Scope string_scope.
Open Scope list_scope.

(** * C125 *)
(** A call that is asked and refused, after any number of unclear answers, changes nothing, and a killed one neither. *)
Theorem C125_refused : forall asort ct a w k pre post, a_clean a = true -> Forall unclear pre ->
  format_asked asort ct a true (pre ++ "n" :: post) w = (w, Ok tt) /\ format_asked_crash asort ct a true (pre ++ "n" :: post) k w = w.
Proof. intros asort ct a w k pre post Hc F. unfold format_asked, format_asked_crash, asked_steps. rewrite Hc, (confirm_word pre "n" post F (or_intror eq_refl)). cbn. destruct k; split; reflexivity. Qed.
Print Assumptions C125_refused.
(** Without a clear answer the call does not go on. *)
Theorem C125_unclear : forall asort ct a w answers, a_clean a = true -> Forall unclear answers -> exists e, format_asked asort ct a true answers w = (w, Raise e).
Proof.
  intros asort ct a w answers Hc F. unfold format_asked, asked_steps. rewrite Hc. cbn [andb]. assert (E : exists e, RawModel.confirm answers = Raise e).
  { induction F as [|b r [N1 N2] F IH]; cbn [RawModel.confirm]; [eauto|]. apply String.eqb_neq in N1, N2. rewrite N1, N2. exact IH. }
  destruct E as [e ->]. exists e. reflexivity.
Qed.
Print Assumptions C125_unclear.
(** A call that is agreed to, and one that needs no question, is the call the other properties are about. *)
Theorem C125_agreed : forall asort ct a w check answers k,
  a_clean a = false \/ check = false \/ (exists pre post, answers = pre ++ "y" :: post /\ Forall unclear pre) ->
  format_asked asort ct a check answers w = format asort ct a w /\ format_asked_crash asort ct a check answers k w = format_crash asort ct a k w.
Proof.
  intros asort ct a w check answers k H. assert (E : asked_steps asort ct a check answers w = format_steps asort ct a w).
  { unfold asked_steps. destruct H as [-> |[-> |(pre & post & -> & F)]]; [reflexivity|rewrite Bool.andb_false_r; reflexivity|]. rewrite (confirm_word pre "y" post F (or_introl eq_refl)). destruct (_ && _); reflexivity. }
  unfold format_asked, format_asked_crash, format, format_crash. rewrite E. split; reflexivity.
Qed.
Print Assumptions C125_agreed.
(** Whatever the arguments, the state, the raw data and the moment a call ends: raw files go only when it was asked to delete them, for snapshots
    of the instance, and with the user's consent unless the question was switched off. *)
Theorem C125_raw : forall asort ct a w check answers k s, let w' := format_asked_crash asort ct a check answers k w in
  In s (w_gone w') -> ~ In s (w_gone w) ->
  a_clean a = true /\ In s (ct_snaps ct) /\ (check = false \/ exists pre post, answers = pre ++ "y" :: post /\ Forall unclear pre).
Proof.
  intros asort ct a w check answers k s w' H N. destruct (exec_gone _ _ _ H) as [G|G]; [contradiction|]. apply firstn_sub in G. unfold asked_steps in G.
  destruct (a_clean a) eqn:Ec; cbn [andb] in G; [|destruct (steps_rm _ _ _ _ _ G); congruence]. destruct check.
  - destruct (RawModel.confirm answers) as [[|]|e] eqn:Ea; [|destruct G|destruct G as [G|[]]; discriminate].
    destruct (steps_rm _ _ _ _ _ G). auto using confirm_yes.
  - destruct (steps_rm _ _ _ _ _ G). auto.
Qed.
Print Assumptions C125_raw.
Example C125_nonvacuous : let ct := demo [4; 7]%Z in let a := mkArgs false false false true in
  runnable ct a (mkW None []) demo_others /\ Forall unclear ["yes"; ""] /\ a_clean a = true /\
  forall asort, asked_steps asort ct a true (["yes"; ""] ++ "y" :: []) (mkW None []) <> [] /\ asked_steps asort ct a true (["yes"; ""] ++ "n" :: []) (mkW None []) = [].
Proof.
  intros ct a. split; [apply demo_runnable; repeat constructor; cbn; intuition discriminate|]. split; [repeat constructor; discriminate|]. split; [reflexivity|].
  intros asort. split; [|reflexivity]. cbn. discriminate.
Qed.
