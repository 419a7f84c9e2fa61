(** Properties C112 (plots and histograms of a handler) and C113 (evaluating a property without adding it). *)
From Verif Require Import Dict Util Rat HandlerModel HandlerSpec Handler Handler2 HandlerProps HPlotModel.
Open Scope string_scope.
Open Scope list_scope.
Open Scope nat_scope.

(** * C112 *)
(** the points of the halos [inds], from the columns of all halos *)
Definition pairs (x y : col) (inds : list nat) : list (option Qc * option Qc) :=
  map (fun i => (nth i (c_val x) None, nth i (c_val y) None)) inds.

Lemma plot_kws_free kws k : k <> "ls" -> k <> "marker" -> dmem (plot_kws kws) k = dmem kws k.
Proof.
  intros A B. unfold plot_kws. destruct (negb (dmem kws "ls") && negb (dmem kws "linestyle")); destruct (negb (dmem _ "marker"));
  rewrite ?dmem_dset; apply String.eqb_neq in A, B; rewrite ?A, ?B; reflexivity.
Qed.
Lemma combine_pairs (x y : list (option Qc)) (l : list nat) :
  combine (map (fun i => nth i x None) l) (map (fun i => nth i y None) l) = map (fun i => (nth i x None, nth i y None)) l.
Proof. induction l as [|i l IH]; cbn; [reflexivity|]. rewrite IH. reflexivity. Qed.
Lemma combine_all (x y : list (option Qc)) n : length x = n -> length y = n ->
  combine x y = map (fun i => (nth i x None, nth i y None)) (seq 0 n).
Proof.
  revert y n. induction x as [|a x IH]; intros [|b y] [|n] Lx Ly; try discriminate; [reflexivity|].
  cbn [combine seq map]. f_equal. rewrite <- seq_shift, map_map. cbn [nth]. cbn in Lx, Ly. apply IH; lia.
Qed.

(** Every y property is drawn against x, in order: the active halos, all of them, or with 'compare' all of them under the
    active ones; each point is one halo; values are as return_property gives them. The figure is shown, and saved if asked *)
Theorem C112_plot_partial n s x cx ys cy w save kws inh : reachable n s ->
  return_property s x true inh = Ok (Some cx) -> (forall y, In y ys -> return_property s y true inh = Ok (Some (cy y))) ->
  dmem kws "label" = false -> (w = WCompare -> dmem kws "color" = false) ->
  let active y := pairs cx (cy y) (h_act (fst s)) in let all y := pairs cx (cy y) (seq 0 n) in
  exists fig kws', hplot s x ys w save kws inh = (match save with Some f => [HSaved f fig; HShown fig] | None => [HShown fig] end, kws', Ok tt) /\
    map cu_points (fg_curves fig) = flat_map (fun y => match w with WActive => [active y] | WAll => [all y] | WCompare => [all y; active y] end) ys /\
    map cu_label (fg_curves fig) = flat_map (fun y => match w with WCompare => [Some y; None] | _ => [Some y] end) ys /\
    (w = WCompare -> map cu_color (fg_curves fig) = flat_map (fun _ => [Some "k"; Some "r"]) ys) /\
    (fg_legend fig = true <-> 2 <= length ys) /\ (forall c, In c (fg_curves fig) -> cu_kws c = kws').
Proof.
  intros Rc Hx Hy Nl Nc active all. unfold hplot. set (b := match inh with Some b => b | None => h_inh (fst s) end).
  assert (Rx : forall q ua, return_property s q ua inh = return_property s q ua (Some b)).
  { intros q ua. unfold b. destruct inh; [reflexivity|apply c27_default]. }
  rewrite Rx in Hx. assert (Hy' : forall y, In y ys -> return_property s y true (Some b) = Ok (Some (cy y))) by (intros y Y; rewrite <- Rx; apply Hy, Y).
  pose proof (reachable_inv _ _ Rc) as Iv. pose proof (i_n _ _ Iv) as En.
  destruct (c28_rows _ _ _ _ _ Rc Hx) as (cx' & Hx1 & _ & Vx).
  assert (Lx : length (c_val cx) = n) by (rewrite <- En; eapply return_all_length; eassumption).
  set (k2 := plot_kws kws). assert (Fl : dmem k2 "label" = false) by (unfold k2; rewrite plot_kws_free by discriminate; exact Nl).
  assert (Fc : w = WCompare -> dmem k2 "color" = false) by (intros E; unfold k2; rewrite plot_kws_free by discriminate; auto).
  assert (One : forall y, In y ys -> exists cs, plot_one s x w k2 (Some b) y = Ok cs /\
     map cu_points cs = match w with WActive => [active y] | WAll => [all y] | WCompare => [all y; active y] end /\
     map cu_label cs = match w with WCompare => [Some y; None] | _ => [Some y] end /\
     (w = WCompare -> map cu_color cs = [Some "k"; Some "r"]) /\ (forall c, In c cs -> cu_kws c = k2)).
  { intros y Hin. pose proof (Hy' y Hin) as Y. destruct (c28_rows _ _ _ _ _ Rc Y) as (cy' & Y1 & _ & Vy).
    assert (Ly : length (c_val (cy y)) = n) by (rewrite <- En; eapply return_all_length; eassumption).
    assert (Eq1 : (length (c_val cx') =? length (c_val cy')) = true) by (apply Nat.eqb_eq; rewrite Vx, Vy, !map_length; reflexivity).
    assert (Eq2 : (length (c_val cx) =? length (c_val (cy y))) = true) by (apply Nat.eqb_eq; congruence).
    unfold plot_one. destruct w; cbn [bind].
    - rewrite Hx1, Y1. cbn [bind]. unfold ax_plot. rewrite Fl, Eq1. cbn [orb bind]. eexists. split; [reflexivity|].
      cbn [map cu_points cu_label]. rewrite Vx, Vy, combine_pairs. repeat split; try discriminate. intros c [<-|[]]. reflexivity.
    - rewrite Hx, Y. cbn [bind]. unfold ax_plot. rewrite Fl, Eq2. cbn [orb bind]. eexists. split; [reflexivity|].
      cbn [map cu_points cu_label]. rewrite (combine_all _ _ n Lx Ly). repeat split; try discriminate. intros c [<-|[]]. reflexivity.
    - rewrite Hx, Y. cbn [bind]. unfold ax_plot. rewrite Fl, (Fc eq_refl), Eq2. cbn [orb bind]. rewrite Hx1, Y1. cbn [bind]. rewrite Eq1. cbn [bind].
      eexists. split; [reflexivity|]. cbn [map cu_points cu_label cu_color]. rewrite (combine_all _ _ n Lx Ly), Vx, Vy, combine_pairs. repeat split; auto. intros c [<-|[<-|[]]]; reflexivity. }
  assert (All : exists css, mapM (plot_one s x w k2 (Some b)) ys = Ok css /\
     map cu_points (concat css) = flat_map (fun y => match w with WActive => [active y] | WAll => [all y] | WCompare => [all y; active y] end) ys /\
     map cu_label (concat css) = flat_map (fun y => match w with WCompare => [Some y; None] | _ => [Some y] end) ys /\
     (w = WCompare -> map cu_color (concat css) = flat_map (fun _ => [Some "k"; Some "r"]) ys) /\ (forall c, In c (concat css) -> cu_kws c = k2)).
  { clear Hy Hy'. induction ys as [|y ys IH]; [exists []; cbn; repeat split; auto; intros c []|].
    destruct (One y (or_introl eq_refl)) as (cs & E1 & E2 & E3 & E4 & E5). destruct IH as (css & I1 & I2 & I3 & I4 & I5); [intros z Hz; apply One; right; exact Hz|].
    exists (cs :: css). cbn [mapM concat flat_map]. rewrite E1. cbn [bind]. rewrite I1. cbn [bind]. rewrite !map_app, E2, E3, I2, I3.
    split; [reflexivity|]. split; [reflexivity|]. split; [reflexivity|]. split; [intros Q; rewrite (E4 Q), (I4 Q); reflexivity|].
    intros c I. apply in_app_or in I. destruct I as [I|I]; [apply E5, I|apply I5, I]. }
  destruct All as (css & A1 & A2 & A3 & A4 & A5). cbv zeta. rewrite A1. eexists _, _. split; [unfold put; destruct save; reflexivity|].
  cbn [fg_curves fg_legend]. repeat split; auto; intros L; apply Nat.ltb_lt; lia || (apply Nat.ltb_lt in L; lia).
Qed.
Print Assumptions C112_plot_partial.

(** A label among the keyword arguments, or a colour when comparing, is never accepted, whatever is plotted *)
Theorem C112_kws_refuted n s x cx y cy ys w save kws inh : reachable n s ->
  return_property s x true inh = Ok (Some cx) -> return_property s y true inh = Ok (Some cy) ->
  dmem kws "label" = true \/ (w = WCompare /\ dmem kws "color" = true) ->
  exists kws', hplot s x (y :: ys) w save kws inh = ([], kws', Raise TypeError).
Proof.
  intros Rc Hx Hy Hk. unfold hplot. set (b := match inh with Some b => b | None => h_inh (fst s) end).
  assert (Rx : forall q ua, return_property s q ua inh = return_property s q ua (Some b)).
  { intros q ua. unfold b. destruct inh; [reflexivity|apply c27_default]. }
  rewrite Rx in Hx, Hy.
  destruct (c28_rows _ _ _ _ _ Rc Hx) as (cx' & Hx1 & _ & Vx). destruct (c28_rows _ _ _ _ _ Rc Hy) as (cy' & Hy1 & _ & Vy).
  eexists. cbv zeta. assert (E : plot_one s x w (plot_kws kws) (Some b) y = Raise TypeError).
  { unfold plot_one. destruct Hk as [Hk|[-> Hk]].
    - assert (F : dmem (plot_kws kws) "label" = true) by (rewrite plot_kws_free by discriminate; exact Hk).
      destruct w; rewrite ?Hx, ?Hy, ?Hx1, ?Hy1; cbn [bind]; unfold ax_plot; rewrite F, ?orb_true_r; reflexivity.
    - assert (F : dmem (plot_kws kws) "color" = true) by (rewrite plot_kws_free by discriminate; exact Hk).
      rewrite Hx, Hy. cbn [bind]. unfold ax_plot. rewrite F. reflexivity. }
  cbn [mapM]. rewrite E. reflexivity.
Qed.
Print Assumptions C112_kws_refuted.

(** The dictionary of keyword arguments keeps what the caller put in *)
Theorem C112_keep s x ys w save kws inh out kws' r q v :
  hplot s x ys w save kws inh = (out, kws', r) -> dget kws q = Some v -> dget kws' q = Some v.
Proof.
  intros H G. assert (E : kws' = plot_kws kws) by (unfold hplot in H; destruct (mapM _ ys); inversion H; reflexivity).
  subst kws'. assert (K : forall (d : dict string) k w, dmem d k = false -> dget d q = Some v -> dget (dset d k w) q = Some v).
  { intros d k u N D. rewrite dget_dset. destruct (String.eqb_spec q k) as [->|]; [|exact D]. apply dmem_none in N. congruence. }
  unfold plot_kws. destruct (dmem kws "ls") eqn:L, (dmem kws "linestyle") eqn:L2; cbn [negb andb];
  match goal with |- context [dmem ?d "marker"] => destruct (dmem d "marker") eqn:M end; cbn [negb]; auto.
Qed.
Print Assumptions C112_keep.
(** what is added: points without lines, unless a line style or a marker is given *)
Theorem C112_defaults s x ys w save kws inh out kws' r : hplot s x ys w save kws inh = (out, kws', r) ->
  (dget kws "marker" = None -> dget kws' "marker" = Some ".") /\
  (dget kws "ls" = None -> dget kws' "ls" = match dget kws "linestyle" with Some _ => None | None => Some "" end) /\
  forall q, q <> "ls" -> q <> "marker" -> dget kws' q = dget kws q.
Proof.
  intros H. assert (E : kws' = plot_kws kws) by (unfold hplot in H; destruct (mapM _ ys); inversion H; reflexivity). subst kws'. clear H.
  unfold plot_kws. set (k1 := if negb (dmem kws "ls") && negb (dmem kws "linestyle") then _ else _).
  assert (A : forall q, q <> "ls" -> dget k1 q = dget kws q).
  { intros q Q. unfold k1. destruct (negb _ && negb _); [|reflexivity]. rewrite dget_dset. destruct (String.eqb_spec q "ls"); [contradiction|reflexivity]. }
  assert (B : forall q, q <> "marker" -> dget (if negb (dmem k1 "marker") then dset k1 "marker" "." else k1) q = dget k1 q).
  { intros q Q. destruct (dmem k1 "marker"); [reflexivity|]. cbn [negb]. rewrite dget_dset. destruct (String.eqb_spec q "marker"); [contradiction|reflexivity]. }
  split; [|split].
  - intros N. assert (M : dmem k1 "marker" = false) by (apply dmem_none; rewrite A by discriminate; exact N). rewrite M. cbn [negb]. rewrite dget_dset. reflexivity.
  - intros N. rewrite B by discriminate. unfold k1. rewrite (proj2 (dmem_none kws "ls") N). cbn [negb andb].
    destruct (dget kws "linestyle") as [v|] eqn:L.
    + rewrite (proj2 (dmem_some kws "linestyle") (ex_intro _ v L)). exact N.
    + rewrite (proj2 (dmem_none kws "linestyle") L). cbn [negb]. rewrite dget_dset. reflexivity.
  - intros q Q1 Q2. rewrite B, A by assumption. reflexivity.
Qed.
Print Assumptions C112_defaults.

Lemma plot_kws_idem kws : plot_kws (plot_kws kws) = plot_kws kws.
Proof.
  assert (A : (negb (dmem (plot_kws kws) "ls") && negb (dmem (plot_kws kws) "linestyle"))%bool = false /\ dmem (plot_kws kws) "marker" = true).
  { unfold plot_kws. destruct (dmem kws "ls") eqn:L, (dmem kws "linestyle") eqn:L2; cbn [negb andb];
    match goal with |- context [dmem ?d "marker"] => destruct (dmem d "marker") eqn:M end; cbn [negb];
    rewrite ?dmem_dset in *; cbn [String.eqb Ascii.eqb Bool.eqb] in *; rewrite ?L, ?L2, ?M; auto. }
  destruct A as (A1 & A2). unfold plot_kws at 1. rewrite A1. rewrite A2. reflexivity.
Qed.
(** but is changed, also when the plot fails: it has a marker afterwards. A further plot is not affected, a histogram
    with the same dictionary is no longer possible *)
Theorem C112_dict_refuted s x ys w save kws inh out kws' r : hplot s x ys w save kws inh = (out, kws', r) ->
  dmem kws' "marker" = true /\ (dmem kws "marker" = false -> kws' <> kws) /\
  (forall x2 ys2 w2 save2 inh2, fst (hplot s x2 ys2 w2 save2 kws' inh2) = fst (hplot s x2 ys2 w2 save2 kws inh2)) /\
  forall log10 p ps c ua logt save' inh', return_property s p ua inh' = Ok (Some c) -> dmem kws "label" = false ->
    hhist log10 s (p :: ps) ua logt save' kws' inh' = ([], Raise AttributeError).
Proof.
  intros H. assert (E : kws' = plot_kws kws) by (unfold hplot in H; destruct (mapM _ ys); inversion H; reflexivity). subst kws'.
  assert (M : dmem (plot_kws kws) "marker" = true).
  { unfold plot_kws. set (d := if negb (dmem kws "ls") && negb (dmem kws "linestyle") then _ else _).
    destruct (dmem d "marker") eqn:M; cbn [negb]; [exact M|]. rewrite dmem_dset. reflexivity. }
  split; [exact M|]. split; [intros N Q; congruence|]. split.
  { intros. unfold hplot. rewrite plot_kws_idem. reflexivity. }
  intros log10 p ps c ua logt save' inh' Hp Nl. unfold hhist. cbv zeta. cbn [mapM].
  assert (Rx : return_property s p ua (Some (match inh' with Some b => b | None => h_inh (fst s) end)) = Ok (Some c)).
  { destruct inh'; [exact Hp|]. rewrite <- Hp. symmetry. apply c27_default. }
  rewrite Rx. cbn [bind]. unfold ax_hist. rewrite plot_kws_free by discriminate. rewrite Nl, M. destruct logt; reflexivity.
Qed.
Print Assumptions C112_dict_refuted.

(** A histogram is of the values return_property gives, or of their logarithms, one set of bars per name in order *)
Theorem C112_hist_partial log10 s ps c ua logt save kws inh :
  (forall p, In p ps -> return_property s p ua inh = Ok (Some (c p))) -> dmem kws "label" = false -> dmem kws "marker" = false ->
  exists bs, let legend := (2 <=? length ps) in
    hhist log10 s ps ua logt save kws inh = (match save with Some f => [BSaved f bs legend; BShown bs legend] | None => [BShown bs legend] end, Ok tt) /\
    map br_label bs = ps /\ (forall b, In b bs -> br_kws b = kws) /\
    map br_values bs = map (fun p => map (fun v => match v with Some q => if logt then log10 q else Some q | None => None end) (c_val (c p))) ps.
Proof.
  intros Hp Nl Nm. unfold hhist. set (b := match inh with Some b => b | None => h_inh (fst s) end).
  assert (Rx : forall q, return_property s q ua (Some b) = return_property s q ua inh).
  { intros q. unfold b. destruct inh; [reflexivity|symmetry; apply c27_default]. }
  cbv zeta. match goal with |- context [mapM ?f ps] => set (one := f) end.
  assert (O : forall p, In p ps -> one p = Ok (mkBars (map (fun v => match v with Some q => if logt then log10 q else Some q | None => None end) (c_val (c p))) p kws)).
  { intros p P. unfold one. rewrite Rx, (Hp p P). cbn [bind]. unfold ax_hist. rewrite Nl, Nm. destruct logt; [reflexivity|].
    f_equal. f_equal. rewrite <- (map_id (c_val (c p))) at 1. apply map_ext. intros [q|]; reflexivity. }
  assert (L : mapM one ps = Ok (map (fun p => mkBars (map (fun v => match v with Some q => if logt then log10 q else Some q | None => None end) (c_val (c p))) p kws) ps)).
  { clear Hp Rx. clearbody one. induction ps as [|p ps IH]; [reflexivity|]. cbn [mapM map]. rewrite (O p (or_introl eq_refl)). cbn [bind].
    rewrite IH by (intros; apply O; right; assumption). reflexivity. }
  rewrite L. eexists. split; [destruct save; cbn [app]; reflexivity|]. rewrite !map_map. cbn [br_label br_values].
  split; [apply map_id|]. split; [|reflexivity]. intros x Hx. apply in_map_iff in Hx. destruct Hx as (p & <- & _). reflexivity.
Qed.
Print Assumptions C112_hist_partial.

Example C112_nonvacuous :
  reachable 3 ex_s /\ (exists c, return_property ex_s "mass" true None = Ok (Some c) /\ length (c_val c) = 3) /\
  snd (hplot ex_s "mass" ["mass"] WCompare (Some "f.png") [] None) = Ok tt /\
  snd (hplot ex_s "mass" ["mass"] WCompare None [("color", "b")] None) = Raise TypeError /\
  snd (hplot ex_s "mass" ["mass"] WActive None [("label", "b")] None) = Raise TypeError /\
  snd (fst (hplot ex_s "mass" ["mass"] WActive None [] None)) = [("ls", ""); ("marker", ".")] /\
  snd (hhist Some ex_s ["mass"] false true None [("bins", "5")] None) = Ok tt.
Proof. split; [exact ex_reach0|]. split; [eexists; vm_compute; split; reflexivity|]. repeat split; vm_compute; reflexivity. Qed.

(** * C113 *)
(** Evaluating a property that returns one column gives that column, in h units; the arguments are those asked for *)
Theorem C113_prop_partial p s ua remap v name : p_names p = [name] -> prop_evaluate p s ua remap = Ok v ->
  exists args raw, p_fun p args = Ok [raw] /\ (forall k, arg_spec s (p_kwargs p) remap ua (p_give_h p) [] k (dget args k)) /\
    (if p_ret_h p then v = raw
     else exists hd e, p_hdep p = Some hd /\ dget hd name = Some e /\ v = if (e =? 0)%Z then raw else col_div (hpow (h_h (fst s)) e) raw).
Proof.
  intros Nm H. unfold prop_evaluate in H. destruct (evaluate_all p s ua remap []) as [vals|] eqn:E; [|discriminate]. cbn [bind] in H.
  apply evaluate_spec in E. destruct E as (args & raw & F & L & A & R). rewrite Nm in *.
  destruct raw as [|r [|r2 raw]]; cbn in L; try discriminate L. exists args, r. split; [exact F|]. split; [exact A|].
  destruct (p_ret_h p); [subst vals; congruence|]. destruct (p_hdep p) as [hd|]; [|destruct R; discriminate].
  cbn [unh] in R. destruct (dfind hd name) as [e|] eqn:De; [|discriminate]. cbn [bind] in R. exists hd, e.
  injection R as <-. split; [reflexivity|]. split; [unfold dfind in De; destruct (dget hd name); congruence|congruence].
Qed.
Print Assumptions C113_prop_partial.
(** evaluating succeeds whenever the function and its arguments do, and fails with the same exception *)
Theorem C113_single p s ua remap name : p_names p = [name] ->
  (forall v, prop_evaluate p s ua remap = Ok v <-> evaluate_all p s ua remap [] = Ok [v]) /\
  forall e, prop_evaluate p s ua remap = Raise e <-> evaluate_all p s ua remap [] = Raise e.
Proof.
  intros Nm. unfold prop_evaluate. destruct (evaluate_all p s ua remap []) as [vals|e] eqn:E; cbn [bind].
  - assert (L : length vals = 1).
    { apply evaluate_spec in E. destruct E as (args & raw & _ & L & _ & R). rewrite Nm in *. destruct raw as [|r [|r2 raw]]; try discriminate L.
      destruct (p_ret_h p); [subst vals; reflexivity|]. destruct (p_hdep p) as [hd|]; [|destruct R; discriminate].
      cbn [unh] in R. destruct (dfind hd name); [|discriminate]. cbn [bind] in R. injection R as <-. reflexivity. }
    destruct vals as [|v0 [|v1 vals]]; try discriminate L. split; [intros v; split; congruence|intros e; split; discriminate].
  - split; [intros v; split; discriminate|intros e'; split; congruence].
Qed.
Print Assumptions C113_single.

(** The additional keyword arguments given to [evaluate] of several properties never reach the function: a name that is
    not one of its properties is not passed *)
Theorem C113_kws_refuted p s ua remap kws vals : multi_evaluate p s ua remap kws = Ok vals ->
  exists args raw, p_fun p args = Ok raw /\ forall k, ~ In k (p_kwargs p) -> dget args k = None.
Proof.
  intros H. apply evaluate_spec in H. destruct H as (args & raw & F & _ & A & _). exists args, raw. split; [exact F|].
  intros k K. specialize (A k). unfold arg_spec in A. destruct (smem k (p_kwargs p)) eqn:E; [|exact A]. apply smem_In in E. tauto.
Qed.
Print Assumptions C113_kws_refuted.

(** without them the values are the columns of the function, one per name, in h units *)
Theorem C113_multi_partial p s ua remap vals : multi_evaluate p s ua remap [] = Ok vals ->
  exists args raw, p_fun p args = Ok raw /\ length raw = length (p_names p) /\ length vals = length raw /\
    (forall k, arg_spec s (p_kwargs p) remap ua (p_give_h p) [] k (dget args k)) /\
    forall i k r v, nth_error (p_names p) i = Some k -> nth_error raw i = Some r -> nth_error vals i = Some v ->
      if p_ret_h p then v = r
      else exists hd e, p_hdep p = Some hd /\ dget hd k = Some e /\ v = if (e =? 0)%Z then r else col_div (hpow (h_h (fst s)) e) r.
Proof.
  intros H. apply evaluate_spec in H. destruct H as (args & raw & F & L & A & R). exists args, raw. split; [exact F|]. split; [exact L|].
  destruct (p_ret_h p); [subst vals; split; [reflexivity|]; split; [exact A|]; intros; congruence|].
  destruct (p_hdep p) as [hd|]; [|destruct R as (-> & ->); split; [reflexivity|]; split; [exact A|]; intros [|i]; discriminate].
  assert (G : length vals = length raw /\ forall i k r v, nth_error (p_names p) i = Some k -> nth_error raw i = Some r -> nth_error vals i = Some v ->
    exists e, dget hd k = Some e /\ v = if (e =? 0)%Z then r else col_div (hpow (h_h (fst s)) e) r).
  { clear A F. revert raw vals L R. induction (p_names p) as [|n ns IH]; intros [|r raw] vals L R; try discriminate.
    - injection R as <-. split; [reflexivity|]. intros [|i]; discriminate.
    - cbn [unh] in R. unfold dfind in R at 1. destruct (dget hd n) as [e|] eqn:De; [|discriminate]. cbn [bind] in R.
      destruct (unh _ hd ns raw) as [vs|] eqn:U; [|discriminate]. injection R as <-. cbn in L. injection L as L.
      destruct (IH raw vs L U) as (I1 & I2). split; [cbn; congruence|]. intros [|i] k r0 v K1 K2 K3; [|exact (I2 i k r0 v K1 K2 K3)].
      injection K1 as <-. injection K2 as <-. injection K3 as <-. eauto. }
  destruct G as (G1 & G2). split; [exact G1|]. split; [exact A|]. intros i k r v K1 K2 K3. destruct (G2 i k r v K1 K2 K3) as (e & D & V). eauto.
Qed.
Print Assumptions C113_multi_partial.

(** A function that returns a tuple of columns cannot be used when one of them needs converting; otherwise it does not
    matter *)
Theorem C113_tuple_refuted p s ua remap kws hd k e vals : p_ret_h p = false -> p_hdep p = Some hd -> In k (p_names p) -> dget hd k = Some e -> e <> 0%Z ->
  evaluate_all p s ua remap kws = Ok vals -> evaluate_all_tuple p s ua remap kws = Raise TypeError.
Proof.
  intros R D K G E V. unfold evaluate_all_tuple. rewrite V. cbn [bind]. rewrite R, D.
  assert (X : existsb (fun k => match dget hd k with Some e => negb (e =? 0)%Z | None => false end) (p_names p) = true).
  { apply existsb_exists. exists k. split; [exact K|]. rewrite G. apply negb_true_iff, Z.eqb_neq, E. }
  rewrite X. reflexivity.
Qed.
Print Assumptions C113_tuple_refuted.
Theorem C113_tuple_partial p s ua remap kws : (p_ret_h p = true \/ exists hd, p_hdep p = Some hd /\ forall k e, In k (p_names p) -> dget hd k = Some e -> e = 0%Z) ->
  evaluate_all_tuple p s ua remap kws = evaluate_all p s ua remap kws.
Proof.
  intros H. unfold evaluate_all_tuple. destruct (evaluate_all p s ua remap kws); cbn [bind]; [|reflexivity].
  destruct (p_ret_h p); [reflexivity|]. destruct H as [H|(hd & D & Z)]; [discriminate|]. rewrite D.
  destruct (existsb _ (p_names p)) eqn:X; [|reflexivity]. apply existsb_exists in X. destruct X as (k & K & E).
  destruct (dget hd k) as [e|] eqn:G; [|discriminate]. apply negb_true_iff, Z.eqb_neq in E. exfalso. eauto.
Qed.
Print Assumptions C113_tuple_partial.

(** adds a number to a column *)
Definition ex_shift (a : dict pyval) : exc (list col) :=
  match dget a "x", dget a "by" with Some (VCol c), Some (VCol d) => Ok [c] | _, _ => Raise TypeError end.
Example C113_nonvacuous :
  (exists v, prop_evaluate ex_prop ex_s true [("x", "mass")] = Ok v /\ length (c_val v) = 3) /\
  (let p := mkProp ["y"] ["x"] false false [] (Some [("y", 1%Z)]) ex_shift in let k := [("by", VCol (mkCol false [None]))] in
   (exists v, evaluate_all p ex_s true [("x", "mass")] k = Ok v) /\ multi_evaluate p ex_s true [("x", "mass")] k = Raise TypeError /\
   evaluate_all_tuple p ex_s true [("x", "mass")] k = Raise TypeError).
Proof. split; [eexists; vm_compute; split; reflexivity|]. split; [eexists; vm_compute; reflexivity|]. split; vm_compute; reflexivity. Qed.
