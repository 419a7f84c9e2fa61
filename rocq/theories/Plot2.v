(** Lemmas about the plots of detectors. *)
From Verif Require Import Dict Util RealUtil RawModel RespModel PlotModel PlotSpec Plot.
From Coq Require Import Reals Lra.
Open Scope string_scope. Open Scope list_scope.
Open Scope R_scope.

Lemma linspace_nth a b n i : (i < n)%nat -> nth i (linspace a b n) 0 = a + INR i * ((b - a) / INR (n - 1)).
Proof.
  intros H. unfold linspace. rewrite (nth_indep _ 0 (a + INR 0 * ((b - a) / INR (n - 1)))) by (rewrite map_length, seq_length; exact H).
  rewrite (map_nth (fun i => a + INR i * ((b - a) / INR (n - 1)))). rewrite seq_nth by exact H. reflexivity.
Qed.
Lemma linspace_length a b n : length (linspace a b n) = n.
Proof. unfold linspace. rewrite map_length, seq_length. reflexivity. Qed.

Lemma bind_ok {X Y} (e : exc X) (f : X -> exc Y) y : bind e f = Ok y -> exists x, e = Ok x /\ f x = Ok y.
Proof. destruct e as [x|]; cbn; [eauto|discriminate]. Qed.

Lemma figure_inv s fmin fmax xmin xmax ymin ymax fsp dn fig : detector_figure s fmin fmax xmin xmax ymin ymax fsp dn = Ok fig ->
  exists d fs r, dget (pi_dets s) dn = Some d /\ opt_or fsp (ref_of s dn) = Ok fs /\ df_name fig = dn /\ df_line fig = fs /\
    df_f fig = linspace fmin fmax 1000 /\ pd_spec d (ASeq (df_f fig)) = Ok (df_curve fig) /\
    df_x fig = linspace xmin xmax 100 /\ df_y fig = linspace ymin ymax 100 /\
    pd_spat d (ASeq (df_x fig)) (ASeq (df_y fig)) (ANum fs) = Ok r /\
    mapM (mapM (fun l => match l with v :: _ => Ok v | [] => Raise IndexError end)) r = Ok (df_c fig).
Proof.
  unfold detector_figure. intros E. apply bind_ok in E. destruct E as (d & Ed & E). apply bind_ok in E. destruct E as (fs & Ef & E).
  cbv zeta in E. apply bind_ok in E. destruct E as (curve & Ec & E). apply bind_ok in E. destruct E as (r & Er & E).
  apply bind_ok in E. destruct E as (c & Em & E). injection E as <-. exists d, fs, r. cbn [df_name df_line df_f df_curve df_x df_y df_c].
  unfold dfind in Ed. destruct (dget (pi_dets s) dn); [|discriminate]. injection Ed as ->. repeat split; auto.
Qed.

Definition plotted (s : pinst) (names : list string) : list string := match names with [] => pi_names s | _ => names end.
Definition window (o : option R) (s : pinst) (sign : R) : exc R := opt_or o (match pi_res s with Some r => Ok (sign * 5 * r) | None => Raise ValueError end).
Lemma plot_inv s names xmin xmax ymin ymax fmin fmax fsp figs :
  plot_detector_response s names xmin xmax ymin ymax fmin fmax fsp = Ok figs ->
  exists f1 f2 x1 x2 y1 y2,
    opt_or fmin (do l <- mapM (ref_of s) (plotted s names) ;; do m <- np_ext list_min l ;; Ok (9 / 10 * m)) = Ok f1 /\
    opt_or fmax (do l <- mapM (ref_of s) (plotted s names) ;; do m <- np_ext list_max l ;; Ok (11 / 10 * m)) = Ok f2 /\
    window xmin s (-1) = Ok x1 /\ window xmax s 1 = Ok x2 /\ window ymin s (-1) = Ok y1 /\ window ymax s 1 = Ok y2 /\
    mapM (detector_figure s f1 f2 x1 x2 y1 y2 fsp) (plotted s names) = Ok figs.
Proof.
  unfold plot_detector_response. intros E. apply bind_ok in E. destruct E as (ns & En & E).
  assert (N : ns = plotted s names).
  { destruct names; [injection En as <-; reflexivity|]. apply bind_ok in En. destruct En as (_ & _ & En). injection En as <-. reflexivity. }
  subst ns. apply bind_ok in E. destruct E as (f1 & E1 & E). apply bind_ok in E. destruct E as (f2 & E2 & E). cbv zeta in E.
  apply bind_ok in E. destruct E as (x1 & X1 & E). apply bind_ok in E. destruct E as (x2 & X2 & E).
  apply bind_ok in E. destruct E as (y1 & Y1 & E). apply bind_ok in E. destruct E as (y2 & Y2 & E).
  exists f1, f2, x1, x2, y1, y2. repeat split; assumption.
Qed.

Lemma mapM_in {X Y} (f : X -> exc Y) l r y : mapM f l = Ok r -> In y r -> exists x, In x l /\ f x = Ok y.
Proof.
  revert r. induction l as [|a l IH]; intros r E Hy; cbn in E.
  - injection E as <-. destruct Hy.
  - apply bind_ok in E. destruct E as (b & Eb & E). apply bind_ok in E. destruct E as (r' & Er & E). injection E as <-.
    destruct Hy as [<-|Hy]; [exists a; split; [left; reflexivity|exact Eb]|]. destruct (IH _ Er Hy) as (x & Hx & Ex). exists x. split; [right; exact Hx|exact Ex].
Qed.
Lemma mapM_in_l {X Y} (f : X -> exc Y) l r x : mapM f l = Ok r -> In x l -> exists y, In y r /\ f x = Ok y.
Proof.
  revert r. induction l as [|a l IH]; intros r E Hx; [destruct Hx|]. cbn in E.
  apply bind_ok in E. destruct E as (b & Eb & E). apply bind_ok in E. destruct E as (r' & Er & E). injection E as <-.
  destruct Hx as [<-|Hx]; [exists b; split; [left; reflexivity|exact Eb]|]. destruct (IH _ Er Hx) as (y & Hy & Ey). exists y. split; [right; exact Hy|exact Ey].
Qed.

(** the colours of a pointwise response *)
Lemma heads_of (F : R -> R -> R -> option R) xs ys f : mapM (mapM (fun l => match l with v :: _ => Ok v | [] => Raise IndexError end))
    (map (fun x => map (fun y => [F x y f]) ys) xs) = Ok (map (fun x => map (fun y => F x y f : option R) ys) xs).
Proof.
  assert (I : forall x l, mapM (fun l => match l with v :: _ => Ok v | [] => Raise IndexError end) (map (fun y => [F x y f]) l) = Ok (map (fun y => F x y f : option R) l)).
  { intros x l. induction l as [|y l IH]; cbn; [reflexivity|]. cbn in IH. rewrite IH. reflexivity. }
  induction xs as [|x xs IH]; cbn [map mapM]; [reflexivity|]. rewrite I. cbn [bind]. rewrite IH. reflexivity.
Qed.
Lemma colours_of (F : R -> R -> R -> option R) xs ys f i j : (i < length xs)%nat -> (j < length ys)%nat ->
  nth j (nth i (map (fun x => map (fun y => F x y f : option R) ys) xs) []) None = F (nth i xs 0) (nth j ys 0) f.
Proof.
  intros Hi Hj. rewrite (nth_indep _ [] (map (fun y => F 0 y f) ys)) by (rewrite map_length; exact Hi).
  rewrite (map_nth (fun x => map (fun y => F x y f) ys)).
  rewrite (nth_indep _ None (F (nth i xs 0) 0 f)) by (rewrite map_length; exact Hj). rewrite (map_nth (fun y => F (nth i xs 0) y f)). reflexivity.
Qed.
Lemma figure_colours F s fmin fmax xmin xmax ymin ymax fsp dn fig d : detector_figure s fmin fmax xmin xmax ymin ymax fsp dn = Ok fig ->
  dget (pi_dets s) dn = Some d -> pointwise F (pd_spat d) -> forall i j, (i < 100)%nat -> (j < 100)%nat ->
  colour_at fig j i = F (nth i (df_x fig) 0) (nth j (df_y fig) 0) (df_line fig).
Proof.
  intros E D P i j Hi Hj. apply figure_inv in E. destruct E as (d' & fs & r & D' & _ & _ & Li & _ & _ & X & Y & Sp & M).
  assert (d' = d) by congruence. subst d'. rewrite P in Sp. injection Sp as <-. rewrite heads_of in M. injection M as M.
  unfold colour_at. rewrite <- M, Li. apply colours_of; [rewrite X|rewrite Y]; rewrite linspace_length; assumption.
Qed.

(** the built-in elliptical beam *)
Definition ellipse (wx wy cx cy x y : R) : option R := falloff (ext_add (sq_over (x - cx) wx) (sq_over (y - cy) wy)).
Lemma ellipse_swap wx wy cx cy x y : ellipse wx wy cx cy x y = ellipse wy wx cy cx y x.
Proof. unfold ellipse. f_equal. destruct (sq_over (x - cx) wx), (sq_over (y - cy) wy); cbn; try reflexivity. f_equal. lra. Qed.
Lemma gauss_pointwise wx wy cx cy : pointwise (fun x y _ => ellipse wx wy cx cy x y) (fun x y f => gauss_psf x y f wx wy cx cy).
Proof. intros xs ys f. reflexivity. Qed.
Lemma ellipse_wrong wx wy r : 0 < wx -> 0 < wy -> wx <> wy -> 0 < r ->
  let a := - 1 * 5 * r in let b := 5 * r / 99 in ellipse wx wy 0 0 b a <> ellipse wx wy 0 0 a b.
Proof.
  intros Hx Hy N Hr a b. unfold ellipse, sq_over. rewrite !(proj2 (reqb_ne wx 0)), !(proj2 (reqb_ne wy 0)) by lra. cbn [ext_add falloff].
  intros E. injection E as E. apply exp_inv in E. assert (L2 : 0 < ln 2) by (rewrite <- ln_1; apply ln_increasing; lra).
  apply (Rmult_eq_reg_l (-4 * ln 2)) in E; [|lra]. rewrite !Rminus_0_r in E.
  assert (Q : (a ^ 2 - b ^ 2) * (/ wx ^ 2 - / wy ^ 2) = 0).
  { assert (E2 : b ^ 2 * / wx ^ 2 + a ^ 2 * / wy ^ 2 = a ^ 2 * / wx ^ 2 + b ^ 2 * / wy ^ 2) by exact E. clearbody a b. lra. }
  apply Rmult_integral in Q. destruct Q as [Q|Q].
  - assert (a ^ 2 - b ^ 2 = r * r * (25 - 25 / 9801)) by (unfold a, b; field). rewrite H in Q.
    assert (0 < r * r) by (apply Rmult_lt_0_compat; lra). assert (0 < r * r * (25 - 25 / 9801)) by (apply Rmult_lt_0_compat; lra). lra.
  - apply N. assert (Hx2 : 0 < wx ^ 2) by (apply pow_lt; lra). assert (Hy2 : 0 < wy ^ 2) by (apply pow_lt; lra).
    assert (I : wx ^ 2 = wy ^ 2). { rewrite <- (Rinv_inv (wx ^ 2)), <- (Rinv_inv (wy ^ 2)). f_equal. lra. }
    assert (Z : (wx - wy) * (wx + wy) = 0) by (cbn in I; lra). apply Rmult_integral in Z. lra.
Qed.

Lemma figure_ok F s fmin fmax xmin xmax ymin ymax dn d r c : dget (pi_dets s) dn = Some d -> pd_ref d = Freq r ->
  pd_spec d (ASeq (linspace fmin fmax 1000)) = Ok c -> pointwise F (pd_spat d) ->
  exists fig, detector_figure s fmin fmax xmin xmax ymin ymax None dn = Ok fig /\ df_name fig = dn.
Proof.
  intros D Rf Sp P. unfold detector_figure, ref_of, dfind. rewrite D. cbn [bind opt_or]. rewrite Rf. cbn [bind]. rewrite Sp. cbn [bind].
  rewrite P. cbn [bind]. rewrite heads_of. cbn [bind]. eexists. split; reflexivity.
Qed.
