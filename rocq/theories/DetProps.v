(** Property C111: the class [Detector]. The vocabulary is in InstSpec.v. *)
From Verif Require Import Dict Util Rat Val Arr GridModel GridModel2 GridSpec GridSpec2 ConvSpec InstModel InstSpec Inst Inst2 DetModel Det.
Open Scope string_scope.
Open Scope list_scope.


(** * C111 *)

(** a Detector can be made exactly when the units and the frame are known, the three functions are given (there are no
    defaults), and the offset, if given, is a pair; anything else is a ValueError *)
Theorem C111_accepts su pu fu sr pr frame a :
  (exists s, new_detector su pu fu sr pr frame a = Ok s) <->
  In su [Some "rad"; Some "deg"; Some "arcmin"; Some "arcsec"; None] /\ In pu [Some "GHz"; Some "Hz"; Some "m"; Some "mm"; Some "um"; None] /\
  In fu [Some "Jy"; Some "mJy"; None] /\ In frame [None; Some "radec"; Some "none"] /\
  exists off x y z, asked_off (a_off a) off /\ means Spatial (a_spat a) (fst x) /\ kw_given (a_spatk a) [] (snd x) /\
    means Spectral (a_spec a) (fst y) /\ kw_given (a_speck a) [] (snd y) /\ means Noise (a_noise a) (fst z) /\ kw_given (a_noisek a) [] (snd z).
Proof.
  split.
  - intros [s E]. unfold new_detector in E. destruct (new_inst _ _ _ _ _ _ _ _ _ _ _) as [s0|] eqn:N; cbn [bind] in E; [|discriminate].
    apply new_blank in N. destruct N as (-> & N1 & N2 & N3). destruct (check_frame frame) eqn:F; cbn [bind] in E; [|discriminate].
    fold (det_of a) in E. destruct (add_detector (det_of a) _) as [s1 [u|]] eqn:A; [|discriminate]. destruct u.
    apply add_conv in A; [|apply blank_tables|discriminate]. destruct A as (_ & off & x & y & z & A1 & A2 & A3 & A4).
    apply asked_blank in A2, A3, A4. repeat (split; [assumption|]). split.
    + destruct frame as [fr|]; [|left; reflexivity]. right. unfold check_frame, check in F. destruct (smem fr ["radec"; "none"]) eqn:Q; [|discriminate].
      apply smem_In in Q. destruct Q as [<-|[<-|[]]]; cbn; auto.
    + exists off, x, y, z. tauto.
  - intros (N1 & N2 & N3 & F & off & x & y & z & A1 & A2 & A2' & A3 & A3' & A4 & A4').
    destruct (add_all (det_of a) (blank su pu fu sr pr) off x y z) as (s' & E & _);
      [apply blank_tables|discriminate|intros []|exact A1|apply asked_blank; auto..|].
    exists s'. unfold new_detector. rewrite new_ok by assumption. cbn [bind]. fold (det_of a).
    assert (Fr : check_frame frame = Ok tt) by (destruct F as [<-|[<-|[<-|[]]]]; reflexivity). rewrite Fr. cbn [bind]. rewrite E. reflexivity.
Qed.
Print Assumptions C111_accepts.

Theorem C111_error su pu fu sr pr frame a e : new_detector su pu fu sr pr frame a = Raise e -> e = ValueError.
Proof.
  unfold new_detector. destruct (new_inst _ _ _ _ _ _ _ _ _ _ _) as [s0|e0] eqn:N; cbn [bind].
  - destruct (check_frame frame) eqn:F; cbn [bind].
    + destruct (add_detector _ s0) as [s1 [u|e1]] eqn:A; [discriminate|]. intros H. injection H as <-. eapply add_err, A.
    + intros H. injection H as <-. unfold check_frame in F. destruct frame; [eapply check_err, F|discriminate].
  - intros H. injection H as <-. eapply new_err, N.
Qed.
Print Assumptions C111_error.

(** it has exactly one detector, called "detector", with the responses, keywords and offset asked for, no fields, the units
    and resolutions given, and consistent tables, so that every theorem about instruments applies to it *)
Theorem C111_one su pu fu sr pr frame a s : new_detector su pu fu sr pr frame a = Ok s ->
  tables_ok s /\ i_names s = ["detector"] /\ i_fnames s = [] /\ i_bres s = sr /\ i_bspec s = pr /\ i_sunit s = su /\ i_punit s = pu /\ i_funit s = fu /\
  exists off x y z, asked_off (a_off a) off /\ means Spatial (a_spat a) (fst x) /\ kw_given (a_spatk a) [] (snd x) /\
    means Spectral (a_spec a) (fst y) /\ kw_given (a_speck a) [] (snd y) /\ means Noise (a_noise a) (fst z) /\ kw_given (a_noisek a) [] (snd z) /\
    forall d, dget (i_dets s) d = if String.eqb d "detector" then Some (mkDet (Some x) (Some y) (Some z) (Some off)) else None.
Proof.
  intros E. unfold new_detector in E. destruct (new_inst _ _ _ _ _ _ _ _ _ _ _) as [s0|] eqn:N; cbn [bind] in E; [|discriminate].
  apply new_blank in N. destruct N as (-> & N1 & N2 & N3). destruct (check_frame frame) eqn:F; cbn [bind] in E; [|discriminate].
  fold (det_of a) in E. destruct (add_detector (det_of a) _) as [s1 [u|]] eqn:A; [|discriminate]. destruct u. injection E as ->.
  pose proof (step_tables (fun _ _ _ _ _ => Raise ValueError) (fun _ _ _ => Raise ValueError) (OAddDet (det_of a)) _ (blank_tables su pu fu sr pr)) as T. cbn [istep] in T. rewrite A in T. cbn [fst] in T.
  pose proof A as A0. apply add_conv in A0; [|apply blank_tables|discriminate]. destruct A0 as (_ & off & x & y & z & A1 & A2 & A3 & A4).
  destruct (add_all (det_of a) (blank su pu fu sr pr) off x y z) as (s' & E & (B1 & B2 & _ & (B3 & B4 & B5 & B6 & B7 & B8 & B9 & B10 & B11 & B12) & _));
      [apply blank_tables|discriminate|intros []|assumption..|].
  assert (s' = s) by congruence. subst s'. apply asked_blank in A2, A3, A4.
  split; [exact T|]. split; [exact B1|]. split; [exact B5|]. split; [exact B8|]. split; [exact B9|]. split; [exact B10|]. split; [exact B11|]. split; [exact B12|].
  exists off, x, y, z. cbn in A1, A2, A3, A4. repeat (split; [tauto|]). intros d. rewrite B2, dget_dset. reflexivity.
Qed.
Print Assumptions C111_one.

Example C111_nonvacuous : exists s, new_detector (Some "arcmin") (Some "GHz") None None None (Some "radec")
  (mkDA None (RStr "gauss") KNone (RStr "boxcar") (KDict []) (RStr "white") KNone None) = Ok s /\
  new_detector (Some "arcmin") (Some "GHz") None None None (Some "azel")
  (mkDA None (RStr "gauss") KNone (RStr "boxcar") (KDict []) (RStr "white") KNone None) = Raise ValueError.
Proof. eexists. split; vm_compute; reflexivity. Qed.
