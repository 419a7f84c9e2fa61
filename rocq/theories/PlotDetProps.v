(** Property C110: plots of detectors. *)
From Verif Require Import Dict Util RealUtil RawModel RespModel PlotModel PlotSpec Plot Plot2.
From Coq Require Import Reals Lra.
Open Scope string_scope. Open Scope list_scope.
Open Scope R_scope.

(** one figure per detector named, or per detector of the instrument, in that order: the curve is the response at 1000
    equally spaced frequencies from fmin to fmax, the line is at fspatial or the reference frequency *)
Theorem C110_spectra_partial s names xmin xmax ymin ymax fmin fmax fsp figs :
  plot_detector_response s names xmin xmax ymin ymax fmin fmax fsp = Ok figs ->
  map df_name figs = match names with [] => pi_names s | _ => names end /\
  forall fig, In fig figs -> exists d, dget (pi_dets s) (df_name fig) = Some d /\
    length (df_f fig) = 1000%nat /\ pd_spec d (ASeq (df_f fig)) = Ok (df_curve fig) /\
    (forall a b, fmin = Some a -> fmax = Some b -> forall i, (i < 1000)%nat -> nth i (df_f fig) 0 = a + (b - a) * INR i / 999) /\
    (forall a, fsp = Some a -> df_line fig = a) /\ (fsp = None -> pd_ref d = Freq (df_line fig)).
Proof.
  intros E. apply plot_inv in E. destruct E as (f1 & f2 & x1 & x2 & y1 & y2 & F1 & F2 & _ & _ & _ & _ & E). split.
  - change (map df_name figs = plotted s names). clear F1 F2. revert figs E. induction (plotted s names) as [|n l IH]; intros figs E; cbn in E.
    + injection E as <-. reflexivity.
    + apply bind_ok in E. destruct E as (fig & Ef & E). apply bind_ok in E. destruct E as (r & Er & E). injection E as <-.
      cbn. rewrite (IH _ Er). f_equal. apply figure_inv in Ef. destruct Ef as (d & fs & r' & _ & _ & N & _). exact N.
  - intros fig Hf. destruct (mapM_in _ _ _ _ E Hf) as (dn & _ & Ef). apply figure_inv in Ef.
    destruct Ef as (d & fs & r & D & Fs & N & Li & Ff & Sp & _). subst dn. exists d. split; [exact D|].
    split; [rewrite Ff; apply linspace_length|]. split; [exact Sp|]. split; [|split].
    + intros a b -> -> i Hi. cbn in F1, F2. injection F1 as <-. injection F2 as <-. rewrite Ff, linspace_nth by exact Hi.
      replace (INR (1000 - 1)) with 999 by (rewrite INR_IZR_INZ; reflexivity). field.
    + intros a ->. cbn in Fs. congruence.
    + intros ->. cbn in Fs. unfold ref_of, dfind in Fs. rewrite D in Fs. cbn in Fs. destruct (pd_ref d) as [x|]; [|discriminate].
      injection Fs as <-. rewrite Li. reflexivity.
Qed.
Print Assumptions C110_spectra_partial.

(** without fmin and fmax the curves run over a range that contains the reference frequencies of all the detectors plotted *)
Theorem C110_range_partial s names xmin xmax ymin ymax fsp figs fig fig' d r :
  plot_detector_response s names xmin xmax ymin ymax None None fsp = Ok figs -> In fig figs -> In fig' figs ->
  dget (pi_dets s) (df_name fig') = Some d -> pd_ref d = Freq r ->
  (forall k e x, In k (map df_name figs) -> dget (pi_dets s) k = Some e -> pd_ref e = Freq x -> 0 < x) ->
  nth 0 (df_f fig) 0 < r < nth 999 (df_f fig) 0.
Proof.
  intros E Hf Hf' D Rf Pos. pose proof (proj1 (C110_spectra_partial _ _ _ _ _ _ _ _ _ _ E)) as Nm. rewrite Nm in Pos.
  fold (plotted s names) in Nm, Pos. apply plot_inv in E. destruct E as (f1 & f2 & x1 & x2 & y1 & y2 & F1 & F2 & _ & _ & _ & _ & E).
  destruct (mapM_in _ _ _ _ E Hf) as (dn & _ & Ef). apply figure_inv in Ef. destruct Ef as (d0 & fs & r0 & _ & _ & _ & _ & Ff & _).
  rewrite Ff, !linspace_nth by lia. replace (INR 0) with 0 by reflexivity. replace (INR (1000 - 1)) with 999 by (rewrite INR_IZR_INZ; reflexivity).
  replace (INR 999) with 999 by (rewrite INR_IZR_INZ; reflexivity). replace (f1 + 0 * ((f2 - f1) / 999)) with f1 by lra.
  replace (f1 + 999 * ((f2 - f1) / 999)) with f2 by lra.
  cbn [opt_or] in F1, F2. apply bind_ok in F1. destruct F1 as (l & M & F1). apply bind_ok in F1. destruct F1 as (m & Em & F1). injection F1 as <-.
  rewrite M in F2. cbn [bind] in F2. apply bind_ok in F2. destruct F2 as (m' & Em' & F2). injection F2 as <-.
  assert (In r l) as Hr.
  { assert (Hn : In (df_name fig') (plotted s names)) by (rewrite <- Nm; apply in_map, Hf').
    destruct (mapM_in_l _ _ _ _ M Hn) as (y & Hy & Ey). unfold ref_of, dfind in Ey. rewrite D in Ey. cbn in Ey. rewrite Rf in Ey. congruence. }
  assert (All : forall x, In x l -> 0 < x).
  { intros x Hx. destruct (mapM_in _ _ _ _ M Hx) as (k & Hk & Ek). unfold ref_of, dfind in Ek. destruct (dget (pi_dets s) k) as [e|] eqn:De; [|discriminate].
    cbn in Ek. destruct (pd_ref e) as [x'|] eqn:Re; [|discriminate]. injection Ek as ->. eapply Pos; eauto. }
  assert (Nl : l <> []) by (destruct l; [destruct Hr|discriminate]).
  assert (m = list_min l) by (destruct l; [congruence|cbn [np_ext] in Em; congruence]). assert (m' = list_max l) by (destruct l; [congruence|cbn [np_ext] in Em'; congruence]). subst m m'.
  pose proof (list_min_le _ _ Hr). pose proof (list_max_ge _ _ Hr). pose proof (All _ (list_min_in _ Nl)). pose proof (All _ Hr). lra.
Qed.
Print Assumptions C110_range_partial.

(** the picture of the beam is right if the beam is the same in x and y, and so is the window *)
Theorem C110_beam_partial s names xmin xmax ymin ymax fmin fmax fsp figs fig d F :
  plot_detector_response s names xmin xmax ymin ymax fmin fmax fsp = Ok figs -> In fig figs ->
  dget (pi_dets s) (df_name fig) = Some d -> pointwise F (pd_spat d) ->
  (forall x y f, F x y f = F y x f) -> xmin = ymin -> xmax = ymax ->
  forall i j, (i < 100)%nat -> (j < 100)%nat -> colour_at fig j i = F (nth j (df_x fig) 0) (nth i (df_y fig) 0) (df_line fig).
Proof.
  intros E Hf D P Sym <- <- i j Hi Hj. apply plot_inv in E. destruct E as (f1 & f2 & x1 & x2 & y1 & y2 & _ & _ & X1 & X2 & Y1 & Y2 & E).
  assert (y1 = x1) by congruence. assert (y2 = x2) by congruence. subst y1 y2.
  destruct (mapM_in _ _ _ _ E Hf) as (dn & _ & Ef). pose proof Ef as G. apply figure_inv in G. destruct G as (d0 & fs & r0 & _ & _ & N & _ & _ & _ & Dx & Dy & _).
  rewrite N in D. rewrite (figure_colours F _ _ _ _ _ _ _ _ _ _ _ Ef D P) by assumption. rewrite Sym, Dx, Dy. reflexivity.
Qed.
Print Assumptions C110_beam_partial.

(** otherwise it is not: the cell at (x, y) has the colour that belongs at (y, x). In the default window, the elliptical
    beam of widths wx and wy, centred on (cx, cy), is drawn with widths wy and wx, centred on (cy, cx) *)
Theorem C110_beam_refuted s names fmin fmax fsp figs fig d wx wy cx cy :
  plot_detector_response s names None None None None fmin fmax fsp = Ok figs -> In fig figs ->
  dget (pi_dets s) (df_name fig) = Some d -> pd_spat d = (fun x y f => gauss_psf x y f wx wy cx cy) ->
  (forall i j, (i < 100)%nat -> (j < 100)%nat ->
     gauss_psf (ANum (nth j (df_x fig) 0)) (ANum (nth i (df_y fig) 0)) (ANum (df_line fig)) wy wx cy cx = Ok [[[colour_at fig j i]]]) /\
  (0 < wx -> 0 < wy -> wx <> wy -> cx = 0 -> cy = 0 -> (forall r, pi_res s = Some r -> 0 < r) ->
     exists i j, (i < 100)%nat /\ (j < 100)%nat /\
     gauss_psf (ANum (nth j (df_x fig) 0)) (ANum (nth i (df_y fig) 0)) (ANum (df_line fig)) wx wy cx cy <> Ok [[[colour_at fig j i]]]).
Proof.
  intros E Hf D P. apply plot_inv in E. destruct E as (f1 & f2 & x1 & x2 & y1 & y2 & _ & _ & X1 & X2 & Y1 & Y2 & E).
  unfold window in *. cbn [opt_or] in *. destruct (pi_res s) as [rr|]; [|discriminate].
  injection X1 as <-. injection X2 as <-. injection Y1 as <-. injection Y2 as <-.
  destruct (mapM_in _ _ _ _ E Hf) as (dn & _ & Ef). pose proof Ef as G. apply figure_inv in G. destruct G as (d0 & fs & r0 & _ & _ & N & _ & _ & _ & Dx & Dy & _).
  rewrite N in D. assert (Pw : pointwise (fun x y _ => ellipse wx wy cx cy x y) (pd_spat d)) by (rewrite P; apply gauss_pointwise).
  pose proof (figure_colours _ _ _ _ _ _ _ _ _ _ _ _ Ef D Pw) as Col. cbv beta in Col. split.
  - intros i j Hi Hj. rewrite Col by assumption. rewrite ellipse_swap. rewrite Dx, Dy. reflexivity.
  - intros Px Py Ne -> -> Pr. specialize (Pr rr eq_refl). exists 0%nat, 50%nat. split; [lia|]. split; [lia|].
    rewrite Col by lia. rewrite Dx, Dy, !linspace_nth by lia. change (INR 0) with 0. replace (INR (100 - 1)) with 99 by (rewrite INR_IZR_INZ; reflexivity).
    replace (INR 50) with 50 by (rewrite INR_IZR_INZ; reflexivity).
    replace (-1 * 5 * rr + 0 * ((1 * 5 * rr - -1 * 5 * rr) / 99)) with (-1 * 5 * rr) by lra.
    replace (-1 * 5 * rr + 50 * ((1 * 5 * rr - -1 * 5 * rr) / 99)) with (5 * rr / 99) by lra.
    intros Q. unfold gauss_psf in Q. cbn [check_shape bind map] in Q. injection Q as Q.
    apply (ellipse_wrong wx wy rr Px Py Ne Pr). exact Q.
Qed.
Print Assumptions C110_beam_refuted.

(** the plot of the spectral responses of all the detectors always raises *)
Theorem C110_all_spectra_refuted s fmin fmax : exists e, plot_spectral_response s fmin fmax = Raise e /\ (e = TypeError \/ e = AttributeError).
Proof. destruct fmin, fmax; cbn; eauto. Qed.
Print Assumptions C110_all_spectra_refuted.

(** a name the instrument does not have, or one given twice, is a ValueError *)
Theorem C110_names s names xmin xmax ymin ymax fmin fmax fsp :
  (exists k, In k names /\ ~ In k (pi_names s)) \/ ~ NoDup names ->
  plot_detector_response s names xmin xmax ymin ymax fmin fmax fsp = Raise ValueError.
Proof.
  intros H. assert (Ne : names <> []) by (intros ->; destruct H as [(k & [] & _)|H]; apply H; constructor).
  assert (C : check_names s names = Raise ValueError).
  { unfold check_names. destruct (forallb (fun d => smem d (pi_names s)) names) eqn:F; cbn [check bind]; [|reflexivity].
    destruct (no_repeats names) eqn:N; [|reflexivity]. exfalso. destruct H as [(k & K1 & K2)|H].
    - rewrite forallb_forall in F. specialize (F k K1). apply smem_In in F. tauto.
    - apply H. clear -N. induction names as [|a l IH]; [constructor|]. cbn in N. apply andb_prop in N. destruct N as [N1 N2]. constructor; [|apply IH, N2].
      intros I. apply smem_In in I. rewrite I in N1. discriminate. }
  unfold plot_detector_response. destruct names as [|a l]; [congruence|]. rewrite C. reflexivity.
Qed.
Print Assumptions C110_names.
Example C110_names_nonvacuous : ~ NoDup ["a"; "a"].
Proof. intros H. inversion H as [|? ? N _]. apply N. left. reflexivity. Qed.

(** two detectors, one with a round beam, one with an elliptical one *)
Definition ex_det (r wx wy : R) : pdet := mkPD (Freq r) (fun f => gauss_response f 1 r 1) (fun x y f => gauss_psf x y f wx wy 0 0).
Definition ex_plot : pinst := mkPI [("a", ex_det 100 1 1); ("b", ex_det 200 1 2)] ["a"; "b"] (Some 1).
Example C110_nonvacuous : exists figs, plot_detector_response ex_plot [] None None None None None None None = Ok figs /\
  map df_name figs = ["a"; "b"] /\ (forall r, pi_res ex_plot = Some r -> 0 < r).
Proof.
  unfold plot_detector_response. cbn [ex_plot pi_names mapM ref_of dfind pi_dets dget String.eqb Ascii.eqb Bool.eqb bind pd_ref ex_det opt_or np_ext pi_res].
  fold ex_plot.
  match goal with |- context [detector_figure ex_plot ?a ?b ?x1 ?x2 ?y1 ?y2 None "a"] =>
    destruct (figure_ok _ ex_plot a b x1 x2 y1 y2 "a" (ex_det 100 1 1) 100 _ eq_refl eq_refl eq_refl (gauss_pointwise 1 1 0 0)) as (f1 & E1 & N1);
    destruct (figure_ok _ ex_plot a b x1 x2 y1 y2 "b" (ex_det 200 1 2) 200 _ eq_refl eq_refl eq_refl (gauss_pointwise 1 2 0 0)) as (f2 & E2 & N2) end.
  rewrite E1. cbn [bind]. rewrite E2. cbn [bind]. eexists. split; [reflexivity|]. split; [cbn [map]; congruence|].
  intros r Q. injection Q as <-. lra.
Qed.
