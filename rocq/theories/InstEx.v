(** A concrete instrument, field and history, for the non-vacuity examples of InstProps.v. *)
From Verif Require Import Dict Util Rat Val Arr GridModel GridModel2 GridSpec GridSpec2 ConvSpec GridAxis GridNew GridAdd GridCat GridEx GridOps InstModel InstSpec Inst Inst2 Inst3 Inst4 Inst5 Inst6 Inst7 Inst8 Inst9.
Open Scope string_scope.
Open Scope list_scope.
Open Scope Qc_scope.

Definition toy_sp (f : fn) (k : kw) (x y z : list Qc) : exc (arr Qc) :=
  Ok (tab [length x; length y; length z] (fun ix => match f with FGaussPsf => 1 | _ => nq (nth 0 ix 0%nat) + 1 end)).
Definition toy_sc (f : fn) (k : kw) (z : list Qc) : exc (arr Qc) := Ok (tab [length z] (fun ix => nq (nth 0 ix 0%nat) + 1)).
Definition toy_nz (f d : string) (g : fn) (k : kw) (n : nat) (t : Qc) : exc (list Qc) := Ok (repeat t n).
Lemma toy_ok : responses_ok toy_sp toy_sc.
Proof. split; [intros f k x y z v H; injection H as <-; apply tab_wf|]. intros f k z w H. injection H as <-. split; [apply tab_wf|reflexivity]. Qed.

(** 2 x 3 x 2 cells of size 1, [np] properties *)
Definition ex_cube (np : nat) (f : list nat -> Qc) : G :=
  with_data (mk QcAlg np (fl [0; 0; 5]%Z) (fl [2; 3; 2]%Z) (fl [1; 1; 1]%Z)) (Some (tab [2; 3; 2; np]%nat f : arr QcAlg)).
Lemma data_consistent (g : G) d : consistent g -> awf d -> shape d = g_npix g ++ [g_nprop g] -> consistent (with_data g (Some d)).
Proof. intros [] H1 H2. constructor; try assumption. split; assumption. Qed.
Lemma ex_cube_obs np f : (np = 1 \/ np = 2)%nat -> observable (ex_cube np f).
Proof.
  intros Hn.
  assert (E : grid_new QcAlg np (fl [0; 0; 5]%Z) (fl [2; 3; 2]%Z) (fl [1; 1; 1]%Z) None None = Ok (mk QcAlg np (fl [0; 0; 5]%Z) (fl [2; 3; 2]%Z) (fl [1; 1; 1]%Z))).
  { apply ok_or_eq. destruct Hn; subst np; vm_compute; reflexivity. }
  assert (C : consistent (mk QcAlg np (fl [0; 0; 5]%Z) (fl [2; 3; 2]%Z) (fl [1; 1; 1]%Z))).
  { eapply grid_new_consistent; [exact E|]. intros x. apply fl_pos. reflexivity. }
  split.
  { apply data_consistent; [exact C|apply tab_wf|]. destruct Hn; subst np; vm_compute; reflexivity. }
  split; [split; [|split]; destruct Hn; subst np; vm_compute; reflexivity|]. split; [discriminate|].
  repeat split; destruct Hn; subst np; vm_compute; (reflexivity || lia).
Qed.
Definition ex_field : G := ex_cube 1 (fun ix => nq (nth 0 ix 0 + 2 * nth 1 ix 0 + 6 * nth 2 ix 0)%nat).
(** property 0 is zero, property 1 is one *)
Definition ex_field2 : G := ex_cube 2 (fun ix => nq (nth 3 ix 0%nat)).
(** an explicit beam of 2 x 2 x 2 cells *)
Definition ex_beam : G := with_data (mk QcAlg 1 (fl [0; 0; 5]%Z) (fl [2; 2; 2]%Z) (fl [1; 1; 1]%Z)) (Some (tab [2; 2; 2; 1]%nat (fun _ => 1) : arr QcAlg)).
Lemma ex_beam_ok : kernel_ok ex_beam.
Proof.
  split; [vm_compute; reflexivity|]. split; [vm_compute; repeat constructor|]. split; [vm_compute; lia|].
  eexists. split; [reflexivity|]. split; [apply tab_wf|vm_compute; reflexivity].
Qed.
Definition ex_args : mapargs := mkMA NPeak (KsSeq [2; 2]%Z) None (PadInt 1).
Definition ex_bargs : mapargs := mkMA NPeak KsNone (Some ex_beam) PadNone.

Definition no_inst : inst := mkInst [] [] 0 [] [] [] 0 [] [] (None, None) (None, None) (None, None) None None None None None.
Definition ex_new_inst : exc inst :=
  new_inst (Some "rad") None None (Some (zq 2)) None (RStr "gauss") (KDict [("fwhm", 1)]) (RStr "boxcar") (KDict [("f0", zq 4); ("f1", zq 6)]) (RStr "white") (KDict [("rms", 1)]).
Definition ex_inst : inst := ok_or ex_new_inst no_inst.
Lemma ex_inst_ok : ex_new_inst = Ok ex_inst.
Proof. apply ok_or_eq. vm_compute. reflexivity. Qed.
Definition det_args (n : option string) (r : resp) (o : option (list Qc)) : detargs := mkDA n r KNone RNone KNone RNone KNone o.
(** three detectors: two like the instrument, one with a response and an offset of its own *)
Definition ex_ops : list iop :=
  [OAddDet (det_args None RNone None); OAddDet (det_args (Some "b") (RFun (FUser 1)) (Some [1; 0])); OAddDet (det_args (Some "c") RNone (Some [1; 0]));
   OAddField ex_field (Some "f") None true true].
Definition ex_s : inst := irun toy_sp toy_sc ex_ops ex_inst.
Definition ex_mapped : inst := fst (map_fields toy_sp toy_sc [] ex_args ex_s).
Lemma ex_tables : tables_ok ex_inst /\ all_complete ex_inst /\ all_valid toy_sp toy_sc [] ex_inst.
Proof. destruct (new_tables _ _ _ _ _ _ _ _ _ _ _ _ ex_inst_ok) as (A & B & C). split; auto. Qed.
Lemma ex_s_tables : tables_ok ex_s.
Proof. apply run_tables, ex_tables. Qed.
Lemma ex_map_ok : map_fields toy_sp toy_sc [] ex_args ex_s = (ex_mapped, Ok tt).
Proof.
  assert (H : snd (map_fields toy_sp toy_sc [] ex_args ex_s) = Ok tt) by (vm_compute; reflexivity).
  unfold ex_mapped. destruct (map_fields toy_sp toy_sc [] ex_args ex_s) as [t r]. cbn [snd fst] in *. rewrite H. reflexivity.
Qed.
Definition ex_rows : list (list Qc) := [[0; 0]; [frac (-1) 2; 1]].
Lemma map_tables sp sc ns a s s' : tables_ok s -> map_fields sp sc ns a s = (s', Ok tt) -> tables_ok s'.
Proof. intros T E. pose proof (step_tables sp sc (OMap ns a) s T) as H. cbn [istep] in H. rewrite E in H. exact H. Qed.
Lemma ex_mapped_tables : tables_ok ex_mapped.
Proof. exact (map_tables _ _ _ _ _ _ ex_s_tables ex_map_ok). Qed.
Lemma is_ok_ex {X} (x : exc X) : is_ok x = true -> exists v, x = Ok v.
Proof. destruct x; [eauto|discriminate]. Qed.
Lemma pair_fst {X Y} (p : X * Y) y : snd p = y -> p = (fst p, y).
Proof. destruct p. cbn. congruence. Qed.
Lemma ex_bfits : beam_fits ex_field2 ex_bargs.
Proof.
  intros b H. injection H as <-. split; [exact ex_beam_ok|]. split; [vm_compute; lia|]. split; [|right; left; vm_compute; reflexivity].
  intros i Hi N. assert (i = 2)%nat as ->. { vm_compute in Hi. destruct i as [|[|[|]]]; try lia; exfalso; apply N; cbn; auto. } left. vm_compute. reflexivity.
Qed.
Lemma dget_ne {X} (d : dict X) k (f : X -> Qc) (g : X -> Qc) : match dget d k with Some m => qeqb (f m) (g m) | None => true end = false -> exists m, dget d k = Some m /\ f m <> g m.
Proof. destruct (dget d k) as [m|]; [|discriminate]. intros H. exists m. split; [reflexivity|]. intros E. apply qeqb_eq in E. congruence. Qed.
(** the weights of the first detector at the frequencies of [ex_field2] *)
Definition ex_weights : arr Qc := ok_or (toy_sc FBoxcar [("f0", zq 4); ("f1", zq 6)] (nth 2 (g_centers ex_field2) [])) (mkArr [] []).
(** property 1 of [ex_field2] added in place *)
Definition ex_wrong : inst := fst (add_field ex_field2 (Some "n") (Some 1%Z) true true ex_s).
