(** Further theorems about the built-in responses of detectors: their keyword arguments (C102, C103). *)
From Verif Require Import Dict Util RealUtil RawModel RespModel RespSpec Resp.
From Coq Require Import Reals Lra.
Open Scope string_scope. Open Scope list_scope.
Open Scope R_scope.

(** the value [x] of keyword [k], which is [d] when left out *)
Definition given (kw : dict R) (k : string) (d x : R) : Prop := dget kw k = Some x \/ (dget kw k = None /\ x = d).
Definition only (names : list string) (kw : dict R) : Prop := forall k, In k (dkeys kw) -> In k names.
Lemma given_kw kw k d x : given kw k d x -> kwarg kw k d = x.
Proof. intros [H|[H ->]]; unfold kwarg; rewrite H; reflexivity. Qed.
Lemma only_known names kw : only names kw -> known_kws names kw = Ok tt.
Proof. intros H. unfold known_kws. replace (forallb _ _) with true; [reflexivity|]. symmetry. apply forallb_forall. intros k I. apply smem_In, H, I. Qed.
Lemma unknown names kw k : In k (dkeys kw) -> ~ In k names -> known_kws names kw = Raise TypeError.
Proof. intros I N. unfold known_kws. replace (forallb _ _) with false; [reflexivity|]. symmetry. apply Bool.not_true_iff_false. intros Q. rewrite forallb_forall in Q. apply N, smem_In, Q, I. Qed.

(** A beam without keyword arguments is centred, of unit widths and, if it depends on frequency, defined at 100 GHz; each
    keyword replaces its own default; an unknown keyword raises. *)
Theorem C102_keywords : forall kw dx dy freq,
  (forall wx wy cx cy, only ["fwhmx"; "fwhmy"; "cx"; "cy"] kw ->
     given kw "fwhmx" 1 wx -> given kw "fwhmy" 1 wy -> given kw "cx" 0 cx -> given kw "cy" 0 cy ->
     call_gauss_psf kw dx dy freq = gauss_psf dx dy freq wx wy cx cy) /\
  (forall f0 wx wy cx cy e, only ["freq0"; "fwhmx"; "fwhmy"; "cx"; "cy"; "freq_exp"] kw ->
     given kw "freq0" 100000000000 f0 -> given kw "fwhmx" 1 wx -> given kw "fwhmy" 1 wy -> given kw "cx" 0 cx -> given kw "cy" 0 cy -> given kw "freq_exp" (-1) e ->
     call_gauss_psf_freq kw dx dy freq = gauss_psf_freq dx dy freq f0 wx wy cx cy e) /\
  (forall k, In k (dkeys kw) -> ~ In k ["freq0"; "fwhmx"; "fwhmy"; "cx"; "cy"; "freq_exp"] ->
     call_gauss_psf kw dx dy freq = Raise TypeError /\ call_gauss_psf_freq kw dx dy freq = Raise TypeError).
Proof.
  intros kw dx dy freq. split; [|split].
  - intros wx wy cx cy O A B C D. unfold call_gauss_psf. rewrite (only_known _ _ O), (given_kw _ _ _ _ A), (given_kw _ _ _ _ B), (given_kw _ _ _ _ C), (given_kw _ _ _ _ D). reflexivity.
  - intros f0 wx wy cx cy e O F A B C D G. unfold call_gauss_psf_freq. replace (10 ^ 11) with 100000000000 by lra.
    rewrite (only_known _ _ O), (given_kw _ _ _ _ F), (given_kw _ _ _ _ A), (given_kw _ _ _ _ B), (given_kw _ _ _ _ C), (given_kw _ _ _ _ D), (given_kw _ _ _ _ G). reflexivity.
  - intros k I N. unfold call_gauss_psf, call_gauss_psf_freq. rewrite (unknown _ _ k I N), (unknown ["fwhmx"; "fwhmy"; "cx"; "cy"] _ k I); [split; reflexivity|].
    intros J. apply N. cbn in J |- *. tauto.
Qed.
Print Assumptions C102_keywords.
Example C102_keywords_nonvacuous : let kw := [("cy", 3); ("fwhmx", 2)] in
  only ["fwhmx"; "fwhmy"; "cx"; "cy"] kw /\ given kw "fwhmx" 1 2 /\ given kw "fwhmy" 1 1 /\ given kw "cx" 0 0 /\ given kw "cy" 0 3.
Proof. unfold only, given. cbn. intuition. Qed.

(** The same for bands: of unit height and width, at 100. *)
Theorem C103_keywords : forall kw freq A f0 w, given kw "A" 1 A -> given kw "freq0" 100 f0 ->
  (only ["A"; "freq0"; "fwhm"] kw -> given kw "fwhm" 1 w -> call_gauss kw freq = gauss_response freq A f0 w) /\
  (only ["A"; "freq0"; "width"] kw -> given kw "width" 1 w -> call_boxcar kw freq = boxcar_response freq A f0 w) /\
  (forall k, In k (dkeys kw) -> ~ In k ["A"; "freq0"; "fwhm"; "width"] -> call_gauss kw freq = Raise TypeError /\ call_boxcar kw freq = Raise TypeError).
Proof.
  intros kw freq A f0 w HA HF. unfold call_gauss, call_boxcar. rewrite (given_kw _ _ _ _ HA), (given_kw _ _ _ _ HF). split; [|split].
  - intros O H. rewrite (only_known _ _ O), (given_kw _ _ _ _ H). reflexivity.
  - intros O H. rewrite (only_known _ _ O), (given_kw _ _ _ _ H). reflexivity.
  - intros k I N. rewrite (unknown _ _ k I), (unknown _ _ k I); [split; reflexivity| |]; intros J; apply N; cbn in J |- *; tauto.
Qed.
Print Assumptions C103_keywords.
Example C103_keywords_nonvacuous : let kw := [("width", 7)] in given kw "A" 1 1 /\ given kw "freq0" 100 100 /\ only ["A"; "freq0"; "width"] kw /\ given kw "width" 1 7.
Proof. unfold only, given. cbn. intuition. Qed.
