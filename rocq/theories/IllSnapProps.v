(** C97: the snapshots of an Illustris or TNG catalogue that was asked for some of them. *)
From Verif Require Import Dict Util RealUtil SnapModel FormatModel RawModel Raw IllModel IllSpec Ill.
From Coq Require Import Sorted Lia.
Open Scope string_scope. Open Scope list_scope.

(** An instance holds, in increasing order and once each, the snapshots that were asked for and that the simulation has: all of
    them if none are named. *)
Theorem C97_requested u which dark req : published u which ->
  exists l, ill_snaps (sim_name u which dark) req = Ok l /\ StronglySorted Z.lt l /\ NoDup l
  /\ forall s, In s l <-> has_snapshot u which dark s /\ match req with None => True | Some r => In s r end.
Proof.
  intros P. destruct (allsnaps_ok u which dark P) as (all & E & H). unfold ill_snaps. rewrite E. cbn [bind].
  destruct (choose_ok req all) as [S M]. exists (choose_snaps req all). split; [reflexivity|]. split; [exact S|]. split.
  - clear - S. induction S as [|a l S IH F]; constructor; [|exact IH]. intros I. rewrite Forall_forall in F. specialize (F a I). lia.
  - intros s. rewrite M, H. reflexivity.
Qed.
Print Assumptions C97_requested.
(** two snapshots of Illustris-1 were lost *)
Example C97_requested_nonvacuous : published Illustris "1" /\ ill_snaps (sim_name Illustris "1" false) (Some [135; 54; 53; 54; 200]%Z) = Ok [54; 135]%Z.
Proof. split; [|vm_compute; reflexivity]. cbn; auto. Qed.
