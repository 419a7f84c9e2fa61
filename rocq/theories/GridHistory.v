(** Histories of calls on one grid, for property C13. *)
From Verif Require Import Util Rat Val Arr GridModel GridSpec GridModel2 GridSpec2 GridAxis GridNew GridAdd GridCat GridSpecFunc GridPad GridCrop GridOps GridFT GridCollapse.
Open Scope Qc_scope.

Section History.
Context {A : Alg}.
Notation grid := (grid A).
Context (w : nat -> A).

(** a call on the grid, with its arguments *)
Inductive gcall : Type :=
| CInit
| CPad (ax pad : list Z) (val : A)
| CCrop (ax : Z) (lo hi : option Qc)
| CScale (ax : list Z) (factor : list Qc) (scalecenter : bool)
| CNewProp (value : option (arr A))
| CAddCat (pos : posarg) (vals : @valarg A) (new_props : bool) (props : option (list Z))
| CAddArr (pos : posarg) (vals : list (list A)) (ax : Z) (new_prop : bool) (props : option (list Z))
| CAddSpec (P : Type) (pos : posarg) (spec : list Qc -> list P -> list (list A)) (args : list P) (ax : Z)
    (cumulative eval_as_loop careful new_prop : bool) (props : option (list Z))
| CSum (props : option (list Z))
| CFourier (ax : option (list Z)) (normalize : bool)
| CCollapse (ax : Z) (wt : option (arr Qc)) (mode : cmode).

(** what the call does to the grid, and how it ends *)
Definition gdo (g : grid) (c : gcall) : grid * exc unit :=
  match c with
  | CInit => (init_grid g, Ok tt)
  | CPad ax pad val => grid_pad g ax pad val
  | CCrop ax lo hi => grid_crop g ax lo hi
  | CScale ax factor sc => grid_scale_axis g ax factor sc
  | CNewProp v => add_new_prop g v
  | CAddCat pos vals np props => add_from_cat g pos vals np props
  | CAddArr pos vals ax np props => add_from_pos_plus_array g pos vals ax np props
  | CAddSpec P pos spec args ax cu el ca np props => add_from_spec_func g pos spec args ax cu el ca np props
  | CSum props => sum_props_in_place g props
  | CFourier ax nz => fourier_transform w g ax nz
  | CCollapse ax wt mode => grid_collapse g [ax] (option_map (fun x => [x]) wt) mode
  end.

(** restrictions on a call.  Calls of [pad], [crop] and [scale_axis] have to return
    normally (those of the other methods may raise), and scale factors to be positive;
    arrays passed in have one entry per cell of their shape; weights for collapsing are
    absent, per axis cell or per grid cell. *)
Definition gcall_ok (g : grid) (c : gcall) : Prop :=
  match c with
  | CPad _ _ _ | CCrop _ _ _ => snd (gdo g c) = Ok tt
  | CScale _ factor _ => snd (gdo g c) = Ok tt /\ (forall f, In f factor -> 0 < f)
  | CNewProp (Some v) => awf v
  | CCollapse ax wt mode => weight_ok g (Z.to_nat ax) wt
  | _ => True
  end.
Fixpoint gcalls_ok (g : grid) (cs : list gcall) : Prop :=
  match cs with
  | [] => True
  | c :: cs' => gcall_ok g c /\ gcalls_ok (fst (gdo g c)) cs'
  end.
Definition gdo_all (g : grid) (cs : list gcall) : grid := fold_left (fun g c => fst (gdo g c)) cs g.

(** ** calls that only touch the data and the counts *)
Definition data_fits (g : grid) : Prop :=
  match g_data g with Some d => awf d /\ shape d = g_npix g ++ [g_nprop g] | None => True end.
Definition touched (g g' : grid) : Prop := same_geometry g g' /\ data_fits g'.

Lemma touched_consistent (g g' : grid) : touched g g' -> consistent g -> consistent g'.
Proof.
  intros [(E1 & E2 & E3 & E4 & E5 & E6 & E7 & E8 & E9 & E10 & E11 & E12 & E13) D] [].
  constructor; rewrite ?E1, ?E2, ?E3, ?E4, ?E5, ?E6, ?E7, ?E8, ?E9, ?E10, ?E11, ?E12; auto.
  unfold data_fits in D. rewrite E5 in D. exact D.
Qed.
Lemma touched_floats (g g' : grid) : touched g g' -> floats g -> floats g'.
Proof. intros [(E1 & E2 & E3 & E4 & _) _]. unfold floats. rewrite E2, E3, E4. auto. Qed.
Lemma touched_refl (g : grid) : consistent g -> touched g g.
Proof. intros C. split; [repeat split|]. exact (co_data _ C). Qed.
Lemma touched_trans (g g1 g2 : grid) : touched g g1 -> touched g1 g2 -> touched g g2.
Proof.
  intros [S1 D1] [S2 D2]. split; [|exact D2]. unfold same_geometry in *.
  repeat match goal with H : _ /\ _ |- _ => destruct H end. repeat match goal with |- _ /\ _ => split end; congruence.
Qed.
Lemma touched_data (g : grid) d : awf d -> shape d = g_npix g ++ [g_nprop g] -> touched g (with_data g (Some d)).
Proof. intros W S. split; [repeat split|]. split; auto. Qed.
Lemma touched_nobj (g g' : grid) n : touched g g' -> touched g (with_nobj g' n).
Proof. intros [S D]. split; [exact S|exact D]. Qed.

Lemma touched_new_prop (g : grid) v : consistent g -> (forall a, v = Some a -> awf a) -> touched g (fst (add_new_prop g v)).
Proof.
  intros C W. pose proof (co_data _ C) as D. unfold add_new_prop. destruct (g_data g) as [d|] eqn:E.
  - destruct D as [Wd Sd]. destruct v as [a|]; cbv zeta.
    + destruct (_ =? _)%nat; [destruct (list_eq_dec _ _ _)|destruct (_ =? _)%nat; [destruct (list_eq_dec _ _ _)|]]; cbn [fst];
        try (apply touched_refl; auto; fail).
      * split; [repeat split|]. split; [apply tab_wf|]. gcbn. cbn [concat_last tab shape]. rewrite Sd, last_last. reflexivity.
      * split; [repeat split|]. split; [apply tab_wf|]. gcbn. cbn [concat_last tab shape]. rewrite Sd, last_last. reflexivity.
    + cbn [fst]. split; [repeat split|]. split; [apply tab_wf|]. gcbn. cbn [concat_last tab shape full]. rewrite Sd, !last_last. reflexivity.
  - destruct v as [a|]; cbn [fst]; [apply touched_refl; auto|]. split; [repeat split|]. unfold data_fits. gcbn. rewrite E. exact I.
Qed.

Lemma add_at_ok k ixs vs s (d : arr A) : awf d /\ shape d = s -> awf (add_at d k ixs vs) /\ shape (add_at d k ixs vs) = s.
Proof.
  unfold add_at. revert d. induction (combine ixs vs) as [|x l IH]; intros d H; simpl; auto. apply IH.
  destruct H as [H1 H2]. split; [apply aalter_wf; auto|rewrite shape_aalter; auto].
Qed.
Lemma add_props_ok ixs nc rows ps s : forall d : arr A, awf d /\ shape d = s ->
  awf (fst (add_props ixs nc rows ps d)) /\ shape (fst (add_props ixs nc rows ps d)) = s.
Proof.
  induction ps as [|p ps IH]; intros d H; cbn [add_props]; auto.
  destruct (nc =? 1)%nat; [apply IH, add_at_ok; auto|]. destruct (p <? nc)%nat; [apply IH, add_at_ok; auto|]. exact H.
Qed.
Lemma fold_add_at_ok ik vk s l : forall d : arr A, awf d /\ shape d = s ->
  awf (fold_left (fun a k => add_at a k ik (column k vk)) l d) /\ shape (fold_left (fun a k => add_at a k ik (column k vk)) l d) = s.
Proof. induction l as [|k l IH]; intros d H; simpl; auto. apply IH, add_at_ok; auto. Qed.
Lemma add_spectrum_ok ax p ix spec s (d : arr A) : awf d /\ shape d = s -> awf (add_spectrum d ax p ix spec) /\ shape (add_spectrum d ax p ix spec) = s.
Proof.
  unfold add_spectrum. revert d. induction (combine _ spec) as [|x l IH]; intros d H; simpl; auto. apply IH.
  destruct H as [H1 H2]. split; [apply aalter_wf; auto|rewrite shape_aalter; auto].
Qed.
Lemma add_spectra_ok ax p ixs rows s (d : arr A) : awf d /\ shape d = s -> awf (add_spectra d ax p ixs rows) /\ shape (add_spectra d ax p ixs rows) = s.
Proof.
  unfold add_spectra. revert d. induction (combine ixs rows) as [|x l IH]; intros d H; simpl; auto. apply IH, add_spectrum_ok; auto.
Qed.
Lemma fold_spectra_ok ax ik vk s ps : forall d : arr A, awf d /\ shape d = s ->
  awf (fold_left (fun d p => add_spectra d ax p ik vk) ps d) /\ shape (fold_left (fun d p => add_spectra d ax p ik vk) ps d) = s.
Proof. induction ps as [|k l IH]; intros d H; simpl; auto. apply IH, add_spectra_ok; auto. Qed.

Lemma touched_cat (g : grid) pos vals np props : consistent g -> touched g (fst (add_from_cat g pos vals np props)).
Proof.
  intros C. pose proof (co_data _ C) as D. unfold add_from_cat. destruct (g_data g) as [d|] eqn:E; [|apply touched_refl; auto].
  destruct (existsb _ _); [apply touched_refl; auto|]. destruct pos as [[|x l]|nc rows].
  - destruct np; [|apply touched_refl; auto]. destruct vals; try (apply touched_refl; auto; fail).
    apply touched_new_prop; auto. intros a Ha. injection Ha as <-. apply tab_wf.
  - apply touched_refl; auto.
  - destruct rows as [|r rows]; [apply touched_refl; auto|]. destruct (negb _); [apply touched_refl; auto|].
    destruct (match vals with ValNone => _ | Val1 l => _ | Val2 nc0 vr => _ end) as [vc vrows]. cbv zeta.
    destruct (negb (length vrows =? _)%nat); [apply touched_refl; auto|]. destruct np.
    + match goal with |- context [add_new_prop g (Some ?x)] => pose proof (touched_new_prop g (Some x) C) as T; destruct (add_new_prop g (Some x)) as [g' [u|e]] end; cbn [fst] in *.
      * apply touched_nobj. apply T. intros a Ha. injection Ha as <-. apply (fold_add_at_ok _ _ (g_npix g ++ [vc])). split; [apply tab_wf|reflexivity].
      * apply T. intros a Ha. injection Ha as <-. apply (fold_add_at_ok _ _ (g_npix g ++ [vc])). split; [apply tab_wf|reflexivity].
    + destruct (check_props g props) as [ps|e]; [|apply touched_refl; auto]. destruct (negb _); [apply touched_refl; auto|].
      match goal with |- context [add_props ?a ?b ?c ps d] => pose proof (add_props_ok a b c ps _ d D) as T; destruct (add_props a b c ps d) as [d' [u|e]] end; cbn [fst] in *.
      * apply touched_nobj. apply touched_data; apply T.
      * apply touched_data; apply T.
Qed.

Lemma touched_arr (g : grid) pos vals ax np props : consistent g -> touched g (fst (add_from_pos_plus_array g pos vals ax np props)).
Proof.
  intros C. pose proof (co_data _ C) as D. unfold add_from_pos_plus_array. destruct (g_data g) as [d|] eqn:E; [|apply touched_refl; auto].
  destruct (existsb _ _); [apply touched_refl; auto|]. destruct (norm_axis g ax) as [a|e]; [|apply touched_refl; auto].
  assert (G : forall ncol rows, touched g (fst (if (g_ndim g <=? 1)%nat then (g, Raise (UserExn 0))
                else if negb (ncol =? g_ndim g - 1)%nat then (g, Raise ValueError)
                else if negb (length vals =? length rows)%nat then (g, Raise ValueError)
                else if negb (forallb (fun r => length r =? nth a (g_npix g) 0)%nat vals) then (g, Raise ValueError)
                else
                  let zs := map (cell_index (del_nth (fv (g_center g)) a) (del_nth (fv (g_side g)) a)
                                            (del_nth (fv (g_pix g)) a)) rows in
                  let keep := map (in_range (del_nth (g_npix g) a)) zs in
                  let vk := select keep vals in
                  let ik := map (map Z.to_nat) (select keep zs) in
                  if np then
                    let new := add_spectra (full (g_npix g ++ [1%nat]) v0) a 0 ik vk in
                    match add_new_prop g (Some new) with
                    | (g', Ok _) => (with_nobj g' (g_nobj g' + length vk), Ok tt)
                    | (g', Raise e) => (g', Raise e)
                    end
                  else
                    match check_props g props with
                    | Raise e => (g, Raise e)
                    | Ok ps =>
                        let d' := fold_left (fun d p => add_spectra d a p ik vk) ps d in
                        (with_nobj (with_data g (Some d')) (g_nobj g + length vk), Ok tt)
                    end))).
  { intros ncol rows. do 4 (match goal with |- context [if ?b then (g, _) else _] => destruct b end; [apply touched_refl; auto|]). cbv zeta. destruct np.
    - match goal with |- context [add_new_prop g (Some ?x)] => pose proof (touched_new_prop g (Some x) C) as T; destruct (add_new_prop g (Some x)) as [g' [u|e]] end; cbn [fst] in *.
      + apply touched_nobj. apply T. intros b Hb. injection Hb as <-. apply (add_spectra_ok _ _ _ _ (g_npix g ++ [1%nat])). split; [apply tab_wf|reflexivity].
      + apply T. intros b Hb. injection Hb as <-. apply (add_spectra_ok _ _ _ _ (g_npix g ++ [1%nat])). split; [apply tab_wf|reflexivity].
    - destruct (check_props g props) as [ps|e]; [|apply touched_refl; auto]. cbn [fst]. apply touched_nobj.
      match goal with |- touched g (with_data g (Some ?x)) => assert (T : awf x /\ shape x = g_npix g ++ [g_nprop g]) by (apply fold_spectra_ok; auto) end.
      apply touched_data; apply T. }
  destruct pos as [[|x l]|nc [|r rows]]; try (apply touched_refl; auto; fail); try exact (G _ _).
  destruct np; [|apply touched_refl; auto]. apply touched_new_prop; auto. intros b Hb. injection Hb as <-. apply tab_wf.
Qed.

Lemma touched_spec {P} (spec : list Qc -> list P -> list (list A)) nc el cu axis ax chunk fuel : forall (g : grid) rows args np props,
  consistent g -> touched g (fst (spec_loop spec nc el cu axis ax chunk fuel g rows args np props)).
Proof.
  induction fuel as [|fuel IH]; intros g rows args np props C; cbn [spec_loop]; [apply touched_refl; auto|].
  destruct (negb _); [apply touched_refl; auto|]. destruct (negb _); [apply touched_refl; auto|].
  match goal with |- context [add_from_pos_plus_array ?a ?b ?c ?d ?e ?f] => pose proof (touched_arr a b c d e f C) as T; destruct (add_from_pos_plus_array a b c d e f) as [g' [u|x]] end; cbn [fst] in *; auto.
  eapply touched_trans; [exact T|]. apply IH. eapply touched_consistent; eauto.
Qed.

Lemma touched_spec_func {P} (g : grid) pos (spec : list Qc -> list P -> list (list A)) args ax cu el ca np props : consistent g ->
  touched g (fst (add_from_spec_func g pos spec args ax cu el ca np props)).
Proof.
  intros C. unfold add_from_spec_func. destruct (g_data g); [|apply touched_refl; auto]. destruct (existsb _ _); [apply touched_refl; auto|].
  destruct (norm_axis g ax) as [a'|e]; [|apply touched_refl; auto].
  destruct pos as [[|x l]|nc [|r rows]]; try (apply touched_refl; auto; fail); try (destruct np; apply touched_refl; auto; fail); cbv zeta;
  do 3 (match goal with |- context [if ?b then (g, _) else _] => destruct b end; [apply touched_refl; auto|]); apply touched_spec; auto.
Qed.

(** ** the other calls *)
Lemma pad_axis_any (g : grid) ax pad i pa : consistent g -> floats g -> (i < g_ndim g)%nat -> pad_axis g ax pad i = Ok pa ->
  axis_ok (pa_n pa) (fnth (g_center g) i) (pa_side pa) (pa_pix pa) (pa_axes pa) (pa_centers pa) (pa_faxes pa) (pa_fcenters pa).
Proof.
  intros C (F1 & F2 & F3) Hi. unfold pad_axis. pose proof (co_axis _ C i Hi) as O.
  destruct (index_nat i ax) as [ip|]; [|intros H; injection H as <-; exact O].
  destruct (_ =? 0)%Z; [intros H; injection H as <-; exact O|]. destruct (nth_error ax i) as [a|]; [|discriminate].
  destruct (nth_error pad a) as [pz|]; [|discriminate]. unfold fstore. rewrite F2, F3.
  set (n := (Z.of_nat (nth i (g_npix g) 0%nat) + 2 * pz)%Z).
  set (px := if nth i (g_fsp g) false then _ / _ else _). set (side := if nth i (g_fsp g) false then _ else _).
  destruct (fourier_axis n px) as [[fe fc]|e] eqn:Ef; cbn [bind]; [|discriminate]. intros H. injection H as <-.
  cbn [pa_n pa_side pa_pix pa_axes pa_centers pa_faxes pa_fcenters].
  assert (Hn : (2 <= n)%Z) by (apply fourier_axis_inv in Ef as (Hn & _); lia).
  assert (Hz : 0 < zq n) by (replace 0 with (zq 0) by reflexivity; apply zq_lt; lia).
  pose proof (ao_p _ _ _ _ _ _ _ _ O) as Pp. pose proof (ao_s _ _ _ _ _ _ _ _ O) as Ps. pose proof (ao_n _ _ _ _ _ _ _ _ O) as Pn.
  assert (Hs0 : 0 < fnth (g_side g) i).
  { rewrite Ps. replace 0 with (0 * fnth (g_pix g) i) by ring. apply Qcmult_pos_lt; auto.
    replace 0 with (zq 0) by reflexivity. unfold nq. apply zq_lt. lia. }
  apply axis_ok_built; auto.
  - unfold px. destruct (nth i (g_fsp g) false); auto. apply qdiv_pos; auto.
  - unfold side, px. destruct (nth i (g_fsp g) false); auto. field. apply Qc_pos_neq0; auto.
Qed.

Lemma pad_any (g g' : grid) ax pad val : consistent g -> floats g -> grid_pad g ax pad val = (g', Ok tt) -> consistent g' /\ floats g'.
Proof.
  intros C F. unfold grid_pad. destruct (pad_args g ax pad) as [[axn padl]|e]; [|discriminate]. destruct (existsb _ _); [discriminate|].
  destruct (mapM _ _) as [ps|e] eqn:E; [|discriminate]. pose proof (mapM_ok_length _ _ _ E) as L. rewrite seq_length in L.
  set (gg := with_data _ _). intros H.
  assert (K : g' = gg /\ match g_data gg with Some d => removelast (shape d) = g_npix gg | None => True end).
  { unfold gg in *. cbn [g_data with_data g_npix with_geom] in *. destruct (g_data g) as [d|]; [|injection H as <-; auto].
    destruct (list_eq_dec _ _ _) as [Q|Q]; [|discriminate]. injection H as <-. auto. }
  destruct K as [-> K]. split; [|exact F].
  assert (Ax : forall i, (i < g_ndim g)%nat -> axis_ok (pa_n (nth i ps pad0)) (fnth (g_center g) i) (pa_side (nth i ps pad0)) (pa_pix (nth i ps pad0))
     (pa_axes (nth i ps pad0)) (pa_centers (nth i ps pad0)) (pa_faxes (nth i ps pad0)) (pa_fcenters (nth i ps pad0))).
  { intros i Hi. destruct (mapM_ok_nth _ _ _ i i E) as (y & Ey & Hy).
    { rewrite nth_error_seq. destruct (Nat.ltb_spec i (g_ndim g)); [auto|lia]. }
    rewrite (nth_error_nth _ _ pad0 Ey). eapply pad_axis_any; eauto. }
  pose proof (co_data _ C) as D. clear H E.
  destruct C. constructor; unfold gg; gcbn; auto; try (unfold flen; cbn [fv]; rewrite map_length; auto; fail); try (rewrite map_length; auto; fail).
  - intros i Hi. unfold fnth at 2 3. cbn [fv]. rewrite !(nth_map_default _ ps i pad0) by lia. auto.
  - unfold gg in K. cbn [g_data with_data g_npix with_geom] in K. destruct (g_data g) as [d|]; auto. split; [apply tab_wf|].
    rewrite <- K. destruct D as [Wd Sd]. unfold np_unpad, np_pad. cbn [tab shape]. rewrite Sd.
    assert (CA : forall (a b c d : list nat), length a = length c -> combine (a ++ b) (c ++ d) = combine a c ++ combine b d).
    { clear. intros a; induction a; intros b [|] d Hl; simpl in *; try discriminate; auto. rewrite IHa; auto. }
    rewrite CA by (rewrite map_length; lia). rewrite map_app. rewrite CA by (rewrite !map_length, combine_length, map_length; lia).
    rewrite map_app, removelast_app by discriminate. cbn [combine map fst snd removelast]. rewrite app_nil_r. do 2 f_equal. lia.
Qed.

Lemma crop_any (g g' : grid) z lo hi : consistent g -> floats g -> grid_crop g z lo hi = (g', Ok tt) -> consistent g' /\ floats g'.
Proof.
  intros C F H. assert (Z0 : exists i, z = Z.of_nat i /\ (i < g_ndim g)%nat).
  { unfold grid_crop in H. destruct (_ || _)%bool eqn:E; [discriminate|]. exists (Z.to_nat z). lia. }
  destruct Z0 as (i & -> & Hi).
  assert (Ok2 : nth i (g_fsp g) false = false /\ crop_lo g i lo < crop_hi g i hi /\ (2 <= length (selected g i (crop_lo g i lo) (crop_hi g i hi)))%nat).
  { unfold grid_crop in H. destruct (_ || _)%bool; [discriminate|]. rewrite Nat2Z.id in H. destruct (nth i (g_fsp g) false); [discriminate|]. cbv zeta in H.
    replace (match lo with Some x => x | None => lmin (nth i (g_axes g) []) end) with (crop_lo g i lo) in H
      by (unfold crop_lo; destruct lo; auto; symmetry; apply crop_lo_default; auto).
    replace (match hi with Some x => x | None => lmax (nth i (g_axes g) []) end) with (crop_hi g i hi) in H
      by (unfold crop_hi; destruct hi; auto; symmetry; apply crop_hi_default; auto).
    destruct (qleb _ _) eqn:El; [discriminate|]. apply qleb_gt in El. destruct (_ || _)%bool; [discriminate|]. split; auto. split; auto.
    pose proof (ao_clen _ _ _ _ _ _ _ _ (co_axis _ C i Hi)) as Lc.
    rewrite filter_map_nth, Lc in H. fold (selected g i (crop_lo g i lo) (crop_hi g i hi)) in H.
    change (filter _ (seq 0 (nth i (g_npix g) 0%nat))) with (selected g i (crop_lo g i lo) (crop_hi g i hi)) in H.
    destruct (selected g i _ _) as [|a [|b l]]; [discriminate| |simpl; lia].
    cbn [map length] in H. destruct (axis_edges _) eqn:Ee; [|discriminate]. exfalso.
    unfold axis_edges in Ee. destruct (fftshift _) as [|x [|y l]] eqn:Ef; try discriminate. }
  destruct Ok2 as (K1 & K2 & K3). destruct (grid_crop_spec g i lo hi C F Hi K1 K2 K3) as (g2 & E & C2 & F2 & _).
  rewrite E in H. injection H as <-. auto.
Qed.

Lemma scale_loop_any fs ax : forall (g g' : grid) sc, (forall f, In f fs -> 0 < f) -> consistent g -> floats g ->
  (forall i, In i ax -> (i < g_ndim g)%nat) -> scale_loop sc fs g ax = (g', Ok tt) -> consistent g' /\ floats g'.
Proof.
  induction ax as [|i ax IH]; intros g g' sc P C F V H; cbn [scale_loop] in H; [injection H as <-; auto|].
  destruct (nth_error fs i) as [f|] eqn:Ef; [|unfold scale_one in H; rewrite Ef in H; discriminate].
  destruct sc; [|unfold scale_one in H; rewrite Ef in H; discriminate].
  destruct (scale_one_ok g fs i f (consistent_dims _ C) F (V i (or_introl eq_refl)) Ef) as (g1 & E1 & D1 & F1 & R). rewrite E1 in H.
  assert (C1 : consistent g1).
  { assert (N : g_ndim g1 = g_ndim g) by apply R. destruct D1.
    eapply rescaled_consistent; eauto; try congruence. intros j Hj. cbv beta. destruct (Nat.eqb j i); [apply P; eapply nth_error_In; eauto|reflexivity]. }
  eapply (IH g1 g' true); eauto. intros j Hj. assert (N : g_ndim g1 = g_ndim g) by apply R. rewrite N. apply V. right. auto.
Qed.
Lemma scale_any (g g' : grid) ax factor sc : (forall f, In f factor -> 0 < f) -> consistent g -> floats g ->
  grid_scale_axis g ax factor sc = (g', Ok tt) -> consistent g' /\ floats g'.
Proof.
  intros P C F. unfold grid_scale_axis. destruct (forallb _ ax) eqn:V; cbn [negb]; [|discriminate].
  destruct (if (length factor =? 1)%nat then _ else _) as [fl|e] eqn:E; [|discriminate]. intros H.
  eapply scale_loop_any; [|exact C|exact F| |exact H].
  - intros f Hf. destruct (Nat.eqb_spec (length factor) 1).
    + injection E as <-. apply repeat_spec in Hf. subst f. apply P. destruct factor; [discriminate|left; auto].
    + destruct (_ =? _)%nat; [|discriminate]. injection E as <-. auto.
  - intros i Hi. apply in_map_iff in Hi as (z & <- & Hz). rewrite forallb_forall in V. specialize (V z Hz). lia.
Qed.

Lemma fourier_any (g : grid) ax nz : consistent g -> floats g -> consistent (fst (fourier_transform w g ax nz)) /\ floats (fst (fourier_transform w g ax nz)).
Proof.
  intros C F. unfold fourier_transform. destruct (g_data g) as [d|] eqn:E; [|auto]. destruct (g_ispow g); [auto|]. destruct (axes_arg g ax); [|auto].
  cbn [fst]. split; [apply ft_consistent; auto|]. rewrite ft_apply_eq. exact F.
Qed.

Lemma collapse_any (g : grid) z wt mode : consistent g -> floats g -> weight_ok g (Z.to_nat z) wt ->
  consistent (fst (grid_collapse g [z] (option_map (fun x => [x]) wt) mode)) /\ floats (fst (grid_collapse g [z] (option_map (fun x => [x]) wt) mode)).
Proof.
  intros C F K. destruct (grid_collapse g [z] (option_map (fun x => [x]) wt) mode) as [g' [u|e]] eqn:E.
  2:{ apply c17_refused in E. subst. auto. }
  cbn [fst].
  assert (V : axes_valid g [z] = true /\ g_data g <> None /\ mode <> MOther).
  { unfold grid_collapse, collapse_plan in E. destruct (g_data g) as [d|]; [|discriminate]. destruct (axes_valid g [z]); [|discriminate].
    split; auto. split; [discriminate|]. intros ->. cbn [check bind] in E. destruct (cook_weights _ _ _ _); discriminate. }
  destruct V as (V & D & M). unfold axes_valid in V. cbn [forallb] in V.
  destruct (c17_main g (Z.to_nat z) wt mode C D ltac:(lia) K M) as (g2 & E2 & C2 & W2 & _).
  rewrite Z2Nat.id in E2 by lia. rewrite E2 in E. injection E as <-. split; auto.
  unfold grid_collapse in E2. destruct (collapse_plan _ _ _ _) as [[[d axn] st]|e]; [|discriminate].
  destruct (collapse_loop d st) as [d' [u'|e]]; [|discriminate]. injection E2 as <-. exact F.
Qed.

Lemma gdo_keeps (g : grid) c : consistent g -> floats g -> gcall_ok g c -> consistent (fst (gdo g c)) /\ floats (fst (gdo g c)).
Proof.
  intros C F K. destruct c; cbn [gdo gcall_ok] in *.
  - assert (T : touched g (init_grid g)) by (split; [repeat split|]; split; [apply tab_wf|reflexivity]).
    split; [eapply touched_consistent; eauto|eapply touched_floats; eauto].
  - destruct (grid_pad _ _ _ _) as [g' r] eqn:E. cbn [fst snd] in *. subst r. eapply pad_any; eauto.
  - destruct (grid_crop _ _ _ _) as [g' r] eqn:E. cbn [fst snd] in *. subst r. eapply crop_any; eauto.
  - destruct (grid_scale_axis _ _ _ _) as [g' r] eqn:E. cbn [fst snd] in *. destruct K as [-> P]. eapply scale_any; eauto.
  - assert (T : touched g (fst (add_new_prop g value))) by (apply touched_new_prop; auto; intros a ->; auto).
    split; [eapply touched_consistent; eauto|eapply touched_floats; eauto].
  - assert (T := touched_cat g pos vals new_props props C). split; [eapply touched_consistent; eauto|eapply touched_floats; eauto].
  - assert (T := touched_arr g pos vals ax new_prop props C). split; [eapply touched_consistent; eauto|eapply touched_floats; eauto].
  - assert (T := touched_spec_func g pos spec args ax cumulative eval_as_loop careful new_prop props C).
    split; [eapply touched_consistent; eauto|eapply touched_floats; eauto].
  - unfold sum_props_in_place. destruct (g_data g) as [d|]; [|auto]. destruct (check_props g props); [|auto].
    match goal with |- context [add_new_prop g (Some ?v)] => assert (T : touched g (fst (add_new_prop g (Some v)))) end.
    { apply touched_new_prop; auto. intros a0 Ha. injection Ha as <-. apply tab_wf. }
    split; [eapply touched_consistent; eauto|eapply touched_floats; eauto].
  - apply fourier_any; auto.
  - apply collapse_any; auto.
Qed.

Lemma c13_history cs : forall g : grid, consistent g -> floats g -> gcalls_ok g cs -> consistent (gdo_all g cs) /\ floats (gdo_all g cs).
Proof.
  induction cs as [|c cs IH]; intros g C F K; [auto|]. destruct K as [K1 K2]. unfold gdo_all. cbn [fold_left].
  destruct (gdo_keeps g c C F K1) as [C1 F1]. apply IH; auto.
Qed.
End History.
