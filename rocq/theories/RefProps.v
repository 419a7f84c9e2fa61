(** C121: the reference frequency of a detector. [peak r] is the frequency the search of add_detector finds for the
    response [r] (C105); a state is an instrument and the reference frequencies of its detectors. *)
From Verif Require Import Dict Util Rat Val Arr GridModel GridModel2 InstModel InstSpec Inst Inst2 Inst9 InstEx RefModel Ref.
Open Scope string_scope.
Open Scope list_scope.

(** right after a detector has been added its reference frequency is the one given, or else the peak of the response
    it was asked to have; those of the other detectors are as before *)
Theorem C121_added : forall F (peak : option (fn * kw) -> F) sp sc a nominal s s', tables_ok (fst s) -> rstep peak sp sc (RAdd a nominal) s = (s', Ok tt) ->
  exists x, dget (i_dets (fst s')) (new_name a (fst s)) = Some x /\
    dget (snd s') (new_name a (fst s)) = Some (match nominal with Some f => f | None => peak (d_spec x) end) /\
    (new_name a (fst s) <> "instrument" -> exists y, d_spec x = Some y /\ asked Spectral (i_dspec (fst s)) (a_spec a) (a_speck a) y) /\
    forall d, d <> new_name a (fst s) -> dget (snd s') d = dget (snd s) d.
Proof. intros F peak sp sc. exact (added peak sp sc). Qed.
Print Assumptions C121_added.

(** from then on it never changes: over any history throughout which the detector is there *)
Theorem C121_kept : forall F (peak : option (fn * kw) -> F) sp sc os s d, tables_ok (fst s) ->
  (forall n, (n <= length os)%nat -> In d (i_names (fst (rrun peak sp sc (firstn n os) s)))) -> dget (snd (rrun peak sp sc os s)) d = dget (snd s) d.
Proof. intros F peak sp sc. exact (run_kept peak sp sc). Qed.
Print Assumptions C121_kept.

(** in a history that gives no reference frequency itself and never sets a spectral response afterwards, every
    detector's reference frequency is the peak of its present response. What is missing: histories that do set
    one, for which it is false (C121_stale_refuted) *)
Theorem C121_current_partial : forall F (peak : option (fn * kw) -> F) sp sc su pu fu br bs a1 k1 a2 k2 a3 k3 s0 os, new_inst su pu fu br bs a1 k1 a2 k2 a3 k3 = Ok s0 ->
  (forall names r k, ~ In (ROther (OSet Spectral names r k)) os) -> (forall a f, ~ In (RAdd a (Some f)) os) ->
  let s := rrun peak sp sc os (s0, []) in forall d x, dget (i_dets (fst s)) d = Some x -> dget (snd s) d = Some (peak (d_spec x)).
Proof.
  intros F peak sp sc su pu fu br bs a1 k1 a2 k2 a3 k3 s0 os E Hs Hn. cbv zeta. destruct (new_tables _ _ _ _ _ _ _ _ _ _ _ _ E) as (T & _).
  apply (run_current peak sp sc os (s0, [])); auto. intros d x. destruct (new_empty _ _ _ _ _ _ _ _ _ _ _ _ E) as (E1 & _). cbn [fst]. rewrite E1. discriminate.
Qed.
Print Assumptions C121_current_partial.

(** a later set_spectral_respones that names a detector replaces its response by the function and the keywords given
    and leaves its reference frequency at that of the old one, whatever the two are *)
Theorem C121_stale_refuted : forall F (peak : option (fn * kw) -> F) sp sc names r k s s' d, tables_ok (fst s) -> In d (i_names (fst s)) -> names_det names (fst s) d ->
  rstep peak sp sc (ROther (OSet Spectral names r k)) s = (s', Ok tt) ->
  exists x f kk, dget (i_dets (fst s')) d = Some x /\ d_spec x = Some (f, kk) /\ means Spectral r f /\ kw_given k [] kk /\ dget (snd s') d = dget (snd s) d.
Proof. intros F peak sp sc. exact (set_stale peak sp sc). Qed.
Print Assumptions C121_stale_refuted.

(** responses told apart by their keywords *)
Definition ref_peak (r : option (fn * kw)) : option Qc := match r with Some (_, (_, q) :: _) => Some q | _ => None end.
Definition ref_ops : list (rop (F := option Qc)) :=
  [RAdd (det_args None RNone None) None; ROther (OAddDet (det_args (Some "b") (RFun (FUser 1)) (Some [1; 0]))); ROther (OSet Noise [] (RStr "none") KNone); ROther (ODelDet ["0"])].
Definition ref_s := rrun ref_peak toy_sp toy_sc ref_ops (ex_inst, []).
Definition ref_set : rop (F := option Qc) := ROther (OSet Spectral ["b"] (RStr "gauss") (KDict [("f0", zq 9)])).
Example C121_nonvacuous :
  tables_ok (fst ref_s) /\ i_names (fst ref_s) = ["b"] /\ snd ref_s = [("b", Some (zq 4))] /\
  (exists s', rstep ref_peak toy_sp toy_sc (RAdd (det_args None RNone None) (Some None)) ref_s = (s', Ok tt) /\ snd s' = [("b", Some (zq 4)); ("2", None)]) /\
  names_det ["b"] (fst ref_s) "b" /\
  (exists s', rstep ref_peak toy_sp toy_sc ref_set ref_s = (s', Ok tt) /\ snd s' = [("b", Some (zq 4))] /\
     option_map (fun x => ref_peak (d_spec x)) (dget (i_dets (fst s')) "b") = Some (Some (zq 9))).
Proof.
  split; [apply rrun_tables, ex_tables|]. split; [vm_compute; reflexivity|]. split; [vm_compute; reflexivity|].
  split; [eexists; split; [vm_compute; reflexivity|vm_compute; reflexivity]|]. split; [right; split; [left; reflexivity|discriminate]|].
  eexists. split; [vm_compute; reflexivity|]. split; vm_compute; reflexivity.
Qed.
