(** Lemmas about the class [Detector]. *)
From Verif Require Import Dict Util Rat Val Arr GridModel GridModel2 GridSpec GridSpec2 ConvSpec InstModel InstSpec Inst Inst2 DetModel.
Open Scope string_scope.
Open Scope list_scope.

Definition blank (su pu fu : option string) (sr pr : option Qc) : inst :=
  mkInst [] [] 0 [] [] [] 0 [] [] (None, None) (None, None) (None, None) sr pr su pu fu.
Definition det_of (a : detargs) : detargs :=
  mkDA (Some "detector") (a_spat a) (a_spatk a) (a_spec a) (a_speck a) (a_noise a) (a_noisek a) (a_off a).
Lemma new_blank su pu fu sr pr s : new_inst su pu fu sr pr RNone KNone RNone KNone RNone KNone = Ok s ->
  s = blank su pu fu sr pr /\ In su known_spatial /\ In pu known_spectral /\ In fu known_flux.
Proof.
  unfold new_inst. cbn. unfold check_unit, check. destruct (in_dec unit_dec su known_spatial); [|discriminate].
  destruct (in_dec unit_dec pu known_spectral); [|discriminate]. destruct (in_dec unit_dec fu known_flux); [|discriminate].
  cbn. intros E. injection E as <-. auto.
Qed.

(** everything that goes wrong is a ValueError *)
Lemma check_err b e e' : check b e = Raise e' -> e' = e.
Proof. destruct b; cbn; congruence. Qed.
Lemma names_err s ds e : check_detectors s ds = Raise e -> e = ValueError.
Proof.
  unfold check_detectors. destruct (check (forallb _ ds) ValueError) eqn:A; cbn [bind]; intros H.
  - eapply check_err; eassumption.
  - injection H as <-. eapply check_err; eassumption.
Qed.
Lemma resolve_err m r b e : resolve m r b = Raise e -> e = ValueError.
Proof.
  destruct r; cbn; [destruct b; congruence| |congruence|congruence].
  destruct m; repeat match goal with |- context [if ?c then _ else _] => destruct c end; congruence.
Qed.
Lemma set_err m names r k s s' e : set_response m names r k s = (s', Raise e) -> e = ValueError.
Proof.
  unfold set_response. cbv zeta. intros H.
  match type of H with context [bind ?x ?f] => destruct (bind x f) as [[[[di ds] f0] kk]|e0] eqn:P; [congruence|] end.
  injection H as _ <-. destruct names as [|n names].
  - cbn [bind] in P. destruct (resolve m r _) eqn:Rr; cbn [bind] in P; [|injection P as <-; eapply resolve_err; eassumption].
    destruct k; cbn in P; congruence.
  - destruct (check_detectors s _) as [u|e1] eqn:C; cbn [bind] in P; [|injection P as <-; eapply names_err; eassumption].
    destruct (resolve m r _) eqn:Rr; cbn [bind] in P; [|injection P as <-; eapply resolve_err; eassumption].
    destruct k; cbn in P; congruence.
Qed.
Lemma then_err (f g : inst -> inst * exc unit) s s' e :
  (forall s s' e, f s = (s', Raise e) -> e = ValueError) -> (forall s s' e, g s = (s', Raise e) -> e = ValueError) ->
  then_ f g s = (s', Raise e) -> e = ValueError.
Proof. intros F G. unfold then_. destruct (f s) as [s1 [u|e1]] eqn:E; [apply G|]. intros H. injection H as _ <-. eapply F, E. Qed.
Lemma del_err names s s' e : del_detectors names s = (s', Raise e) -> e = ValueError.
Proof. unfold del_detectors. destruct (check_detectors s names) eqn:C; intros H; [congruence|]. injection H as _ <-. eapply names_err, C. Qed.
Lemma pick_err d r k e : pick d r k = Raise e -> e = ValueError.
Proof. unfold pick. destruct r; [|congruence..]. destruct (fst d); [|congruence]. destruct k; [|congruence..]. destruct (snd d); congruence. Qed.
Lemma add_err a s s' e : add_detector a s = (s', Raise e) -> e = ValueError.
Proof.
  unfold add_detector. cbv zeta. intros H.
  match type of H with context [bind ?x ?f] => destruct (bind x f) as [[[[off sp] sc] no]|e0] eqn:P end.
  - clear P. match type of H with context [then_ ?f ?g ?t] => destruct (then_ f g t) as [s2 [u|e2]] eqn:T end; [congruence|].
    match type of H with context [del_detectors ?l s2] => destruct (del_detectors l s2) as [s3 [u|e3]] eqn:D end.
    + injection H as _ <-. eapply then_err; [| |exact T]; [apply set_err|]. intros t t' e'. apply then_err; apply set_err.
    + injection H as _ <-. eapply del_err, D.
  - injection H as _ <-. destruct (check _ ValueError) eqn:C; cbn [bind] in P; [|injection P as <-; eapply check_err, C].
    match type of P with bind ?x _ = _ => destruct x as [off|e1] eqn:O end; cbn [bind] in P.
    2:{ injection P as <-. destruct (a_off a) as [[|x [|y [|? ?]]]|]; congruence. }
    destruct (pick (i_dspat s) _ _) eqn:P1; cbn [bind] in P; [|injection P as <-; eapply pick_err, P1].
    destruct (pick (i_dspec s) _ _) eqn:P2; cbn [bind] in P; [|injection P as <-; eapply pick_err, P2].
    destruct (pick (i_dnoise s) _ _) eqn:P3; cbn [bind] in P; [congruence|injection P as <-; eapply pick_err, P3].
Qed.

Lemma blank_tables su pu fu sr pr : tables_ok (blank su pu fu sr pr).
Proof. constructor; cbn; try constructor; try discriminate; try tauto; try (intros [? ?]; discriminate). Qed.
Lemma asked_blank m r k x : asked m (None, None) r k x <-> means m r (fst x) /\ kw_given k [] (snd x).
Proof. split; [intros [H|(_ & H & _)]; [exact H|discriminate]|left; assumption]. Qed.
Lemma new_ok su pu fu sr pr : In su known_spatial -> In pu known_spectral -> In fu known_flux ->
  new_inst su pu fu sr pr RNone KNone RNone KNone RNone KNone = Ok (blank su pu fu sr pr).
Proof.
  intros A B C. unfold new_inst. cbn. unfold check_unit, check. destruct (in_dec unit_dec su known_spatial); [|contradiction].
  destruct (in_dec unit_dec pu known_spectral); [|contradiction]. destruct (in_dec unit_dec fu known_flux); [|contradiction]. reflexivity.
Qed.
Lemma new_err su pu fu sr pr e : new_inst su pu fu sr pr RNone KNone RNone KNone RNone KNone = Raise e -> e = ValueError.
Proof.
  unfold new_inst. cbn. unfold check_unit, check. destruct (in_dec unit_dec su known_spatial); cbn [bind]; [|congruence].
  destruct (in_dec unit_dec pu known_spectral); cbn [bind]; [|congruence]. destruct (in_dec unit_dec fu known_flux); cbn [bind]; congruence.
Qed.
