(** Proofs behind AskProps.v *)
From Coq Require Import Reals Lia.
From Verif Require Import Dict Util RealUtil PathsSpec SnapModel SnapSpec Snap FormatModel FormatSpec Format AskModel.
From Verif Require RawModel.
Open Scope string_scope.
Open Scope list_scope.

Lemma confirm_word pre a post : Forall unclear pre -> a = "y" \/ a = "n" -> RawModel.confirm (pre ++ a :: post) = Ok (String.eqb a "y").
Proof.
  induction pre as [|b pre IH]; intros F H; cbn [app RawModel.confirm].
  - destruct H as [-> | ->]; reflexivity.
  - inversion F as [|? ? [N1 N2] F']; subst. apply String.eqb_neq in N1, N2. rewrite N1, N2. auto.
Qed.
Lemma confirm_yes answers : RawModel.confirm answers = Ok true -> exists pre post, answers = pre ++ "y" :: post /\ Forall unclear pre.
Proof.
  induction answers as [|b r IH]; cbn [RawModel.confirm]; [discriminate|]. destruct (String.eqb b "y") eqn:E1; [apply String.eqb_eq in E1 as ->; exists [], r; split; [reflexivity|constructor]|].
  destruct (String.eqb b "n") eqn:E2; [discriminate|]. intros H. destruct (IH H) as (pre & post & -> & F). exists (b :: pre), post. split; [reflexivity|].
  constructor; [split; apply String.eqb_neq; assumption|exact F].
Qed.
Lemma exec_gone l : forall w s, In s (w_gone (fst (exec w l))) -> In s (w_gone w) \/ In (Ok (OpRm s)) l.
Proof.
  induction l as [|[o|e] l IH]; intros w s H; cbn [exec] in H; [auto| |auto]. destruct (apply_op w o) as [w'|] eqn:E; [|auto]. destruct (IH w' s H) as [G|G]; [|right; right; exact G].
  assert (D : not_rm o \/ exists t, o = OpRm t) by (destruct o; cbn; eauto). destruct D as [D|[t ->]]; [rewrite (op_gone _ _ _ D E) in G; auto|].
  cbn in E. injection E as <-. destruct G as [->|G]; [right; left; reflexivity|auto].
Qed.
Lemma no_rm s l : Forall (okop not_rm) l -> ~ In (Ok (OpRm s)) l.
Proof. intros F H. rewrite Forall_forall in F. exact (F _ H). Qed.
Lemma steps_rm asort ct a w s : In (Ok (OpRm s)) (format_steps asort ct a w) -> a_clean a = true /\ In s (ct_snaps ct).
Proof.
  unfold format_steps. destruct (other_fields ct a w) as [of|e]; [|intros [H|[]]; discriminate]. intros H. apply in_app_or in H as [H|H]; [destruct (no_rm _ _ (head_not_rm ct a w) H)|].
  apply in_flat_map in H as (t & Ht & H). unfold snap_steps in H. destruct (bind _ _) as [[[cuts cols] others]|e]; [|destruct H as [H|[]]; discriminate].
  apply in_app_or in H as [H|H].
  - exfalso. revert H. apply no_rm. eapply Forall_impl; [|apply write_group_own]. intros [o|]; cbn; tauto.
  - destruct (a_clean a); [|destruct H]. destruct H as [H|[]]. injection H as ->. split; [reflexivity|].
    unfold todo in Ht. destruct (is_new w a); [exact Ht|]. apply in_app_or in Ht as [Ht|Ht]; [apply filter_In in Ht; tauto|]. destruct (a_overwrite a); [apply filter_In in Ht; tauto|destruct Ht].
Qed.
Lemma firstn_sub {A} k (l : list A) x : In x (firstn k l) -> In x l.
Proof. intros H. rewrite <- (firstn_skipn k l). apply in_or_app. auto. Qed.
