(** Lemmas for the statements on SnapHandler.grid and LCHandler.grid. *)
From Verif Require Import Dict Util Rat Val Arr HandlerModel Handler Handler2 GridModel GridModel2 GridSpec GridAxis GridNew GridAdd GridCat GridEx GridMore HGridModel HGridSpec HGrid.
Open Scope string_scope. Open Scope list_scope.
Open Scope Qc_scope.

Lemma axis_ends (g : grid QcAlg) i : consistent g -> (i < g_ndim g)%nat ->
  hd 0 (nth i (g_axes g) []) = fnth (g_center g) i - fnth (g_side g) i / zq 2 /\
  last (nth i (g_axes g) []) 0 = fnth (g_center g) i + fnth (g_side g) i / zq 2.
Proof.
  intros C Hi. pose proof (co_axis _ C i Hi) as X. destruct X as [Hp Hn Hs Le E _ _ _ _ _].
  set (e := nth i (g_axes g) []) in *. split.
  - pose proof (E 0%nat ltac:(lia)) as E0. destruct e; simpl in Le; [discriminate|]. simpl in *. injection E0 as ->. replace (nq 0) with 0 by reflexivity. ring.
  - pose proof (E _ (Nat.le_refl _)) as En. rewrite Hs.
    destruct (exists_last (l:=e)) as (e' & w & ->); [intros X; rewrite X in Le; discriminate|].
    rewrite last_last. rewrite app_length in Le. cbn in Le. rewrite nth_error_app2 in En by lia.
    replace (nth i (g_npix g) 0 - length e')%nat with 0%nat in En by lia. cbn in En. injection En as ->.
    rewrite Hs. replace (zq 2) with (1 + 1) by reflexivity. field. discriminate.
Qed.

Lemma covers_of (g : grid QcAlg) i lo hi p : consistent g -> (i < g_ndim g)%nat ->
  fnth (g_center g) i = (lo + hi) / zq 2 -> fnth (g_pix g) i = p ->
  hi - lo - p * frac 1 20 <= fnth (g_side g) i -> fnth (g_side g) i < hi - lo + p ->
  (forall k, hi - lo = zq k * p -> fnth (g_side g) i = hi - lo /\ nth i (g_npix g) 0%nat = Z.to_nat k) -> covers g i lo hi p.
Proof.
  intros C Hi E1 E2 E3 E4 E5. repeat (split; [assumption|]). intros k Hk. destruct (E5 k Hk) as [Es En]. split; [exact En|].
  destruct (axis_ends g i C Hi) as [A1 A2]. rewrite A1, A2, E1, Es. replace (zq 2) with (1 + 1) by reflexivity. split; field; discriminate.
Qed.

Lemma mapM_Forall2 {X Y} (f : X -> exc Y) l r : mapM f l = Ok r <-> Forall2 (fun a b => f a = Ok b) l r.
Proof.
  revert r. induction l as [|a l IH]; intros r; simpl.
  - split; [intros H; injection H as <-; constructor|intros H; inversion H; auto].
  - destruct (f a) as [b|e] eqn:Ea; cbn [bind].
    + destruct (mapM f l) as [m|e] eqn:Em; cbn [bind].
      * split; [intros H; injection H as <-; constructor; auto; apply IH; auto|].
        intros H. inversion H as [|? b' ? l' H1 H2 H3]; subst. rewrite H1 in Ea. injection Ea as ->. apply IH in H2. congruence.
      * split; [discriminate|]. intros H. inversion H as [|? b' ? l' H1 H2 H3]; subst. apply IH in H2. discriminate.
    + split; [discriminate|]. intros H. inversion H as [|? b' ? l' H1 H2 H3]; subst. congruence.
Qed.
Lemma Forall2_imp {X Y} (P Q : X -> Y -> Prop) l r : (forall a b, P a b -> Q a b) -> Forall2 P l r -> Forall2 Q l r.
Proof. intros H F. induction F; constructor; auto. Qed.

Lemma Forall2_len {X Y} (P : X -> Y -> Prop) l r : Forall2 P l r -> length l = length r.
Proof. intros F. induction F; simpl; congruence. Qed.

(** * make_grid: exactly when it succeeds *)
Lemma make_grid_all x y z cols (lims : list (Qc * Qc)) lint res norm : length lims = 3%nat -> good_res res ->
  x <> [] -> cols <> [] -> length y = length x -> length z = length x -> (forall v, In v cols -> length v = length x) ->
  axes_fit res lims ->
  exists g, make_grid x y z cols (map (fun l => ((fst l + snd l) / zq 2, snd l - fst l)) lims) lint res norm = Ok g.
Proof.
  intros Ll Gr Xn Cn Ly Lz Lv [Fr Ff]. set (cl := map _ lims). assert (Lcl : length cl = 3%nat) by (unfold cl; rewrite map_length; auto).
  unfold make_grid. set (pix := match res with Some r => r | None => _ end).
  assert (Lp : forall l, In l [x; y; z] -> length l = length x) by (intros l [<-|[<-|[<-|[]]]]; auto).
  destruct (rows_of_all _ _ Lp) as [r Er]. rewrite Er. cbn [bind]. apply rows_of_ok in Er as [_ ->].
  destruct (rows_of_all _ _ Lv) as [r Er].
  assert (Ev : vals_of (length x) cols = Ok (Val2 (A:=QcAlg) (length cols) r)) by (unfold vals_of; rewrite Er; destruct cols; [tauto|reflexivity]).
  rewrite Ev. cbn [bind]. apply rows_of_ok in Er as [_ ->].
  set (c := mkF false (map fst cl)). set (s := mkF lint (map snd cl)).
  assert (Lc : flen c = 3%nat) by (unfold flen, c; cbn [fv]; rewrite map_length; exact Lcl).
  assert (Ls : flen s = 3%nat) by (unfold flen, s; cbn [fv]; rewrite map_length; exact Lcl).
  assert (Hp : forall w, In w (fv pix) -> 0 < w).
  { destruct res as [r|]; [exact Gr|]. subst pix. cbn [fv]. intros w Hw. apply in_map_iff in Hw as (l & <- & Hl).
    unfold cl in Hl. rewrite map_map in Hl. cbn [snd] in Hl. apply in_map_iff in Hl as ([lo hi] & <- & Hl). apply In_nth_error in Hl as [i Hi].
    destruct (Ff i lo hi Hi) as (p & P1 & P2 & _). cbn [pix_spec fst snd] in *. subst p. exact P2. }
  destruct (proj2 (bcast_side_iff 3 s)) as [s' Es]; [left; exact Ls|].
  assert (Ls' : flen s' = 3%nat) by (apply (bcast_side_ok _ _ _ Es)).
  destruct (proj2 (grid_new_success QcAlg (length cols) c s' pix None None Hp)) as [g0 Eg].
  { rewrite Lc, Ls'. split; [left; auto|]. split.
    { unfold lens_ok, pix. destruct res as [r|]; [destruct (Fr r eq_refl); auto|]. left. unfold flen. cbn [fv]. rewrite !map_length. exact Lcl. }
    split; [exact I|]. split; [exact I|]. intros i Hi. destruct (nth_error lims i) as [[lo hi]|] eqn:El; [|apply nth_error_None in El; lia].
    destruct (Ff i lo hi El) as (p & P1 & P2 & P3).
    assert (Bs : bval s' i = hi - lo).
    { unfold bval. rewrite Ls'. cbn [Nat.eqb]. rewrite (bcast_side_id _ _ _ Es Ls i Hi). unfold fnth, s, cl. cbn [fv]. apply nth_error_nth. rewrite map_map, nth_error_map, El. reflexivity. }
    assert (Bp : bval pix i = p).
    { unfold pix_spec in P1. unfold bval, pix. destruct res as [r|].
      - unfold flen, fnth. destruct (length (fv r) =? 1)%nat; apply nth_error_nth; exact P1.
      - unfold flen, fnth. cbn [fv]. rewrite !map_length, Lcl. cbn [Nat.eqb]. subst p. apply nth_error_nth. unfold cl. rewrite !nth_error_map, El. reflexivity. }
    rewrite Bs, Bp. exact P3. }
  destruct (gridder_fixed_ok (A:=QcAlg) (map (fun i => map (fun l => nth i l 0) [x; y; z]) (seq 0 (length x))) (length cols)
     (map (fun i => map (fun l => nth i l 0) cols) (seq 0 (length x))) c s pix g0 s') as [g E]; auto.
  - destruct x; [tauto|discriminate].
  - apply Forall_forall. intros r Hr. apply in_map_iff in Hr as (i & <- & _). reflexivity.
  - rewrite !map_length. reflexivity.
  - rewrite E. cbn [bind]. eauto.
Qed.

(** * SnapHandler.grid *)
Lemma cols_of s names ua ih cols : mapM (fun p => get_numbers s p ua ih) names = Ok cols <-> columns s names ua ih cols.
Proof.
  rewrite mapM_Forall2. unfold columns. split; apply Forall2_imp; intros a b; apply get_numbers_ok.
Qed.

Lemma lims_of side ls cl : 0 <= side -> mapM (lim_cl side) ls = Ok cl ->
  exists lims, length lims = length ls /\ cl = map (fun l => ((fst l + snd l) / zq 2, snd l - fst l)) lims /\
    (forall p, In p lims -> fst p <= snd p) /\ Forall2 (fun l p => lim_spec side l (fst p) (snd p)) ls lims.
Proof.
  intros Hs H. apply mapM_Forall2 in H. induction H as [|l [c len] ls cl H1 H2 IH].
  - exists []. repeat split; auto. intros p [].
  - destruct IH as (lims & L & -> & Q & F). destruct (lim_cl_ok _ _ _ _ Hs H1) as (lo & hi & S & O & -> & ->).
    exists ((lo, hi) :: lims). cbn. split; [lia|]. split; auto. split; [|constructor; auto]. intros p [<-|Hp]; auto.
Qed.
Lemma lim_cl_spec side l lo hi : lim_spec side l lo hi -> lim_cl side l = Ok ((lo + hi) / zq 2, hi - lo).
Proof.
  unfold lim_spec, lim_cl. destruct l as [a|].
  - intros [E L]. unfold qmax, qmin. destruct E as [-> | ->].
    + assert (X : qleb lo hi = true) by (apply qleb_le; auto). rewrite X. reflexivity.
    + destruct (qleb hi lo) eqn:X.
      * apply qleb_le in X. assert (lo = hi) by (apply Qcle_antisym; auto). subst. reflexivity.
      * f_equal. f_equal. unfold Qcdiv. ring.
  - intros [-> ->]. f_equal. f_equal; [unfold Qcdiv; ring|ring].
Qed.
Lemma lims_back side ls lims : Forall2 (fun l p => lim_spec side l (fst p) (snd p)) ls lims ->
  mapM (lim_cl side) ls = Ok (map (fun l => ((fst l + snd l) / zq 2, snd l - fst l)) lims).
Proof.
  intros F. apply mapM_Forall2. induction F; simpl; constructor; auto. apply lim_cl_spec. auto.
Qed.
Lemma lim_len side l lo hi : 0 <= side -> lim_spec side l lo hi -> lo <= hi.
Proof. intros Hs. unfold lim_spec. destruct l; [tauto|]. intros [-> ->]. exact Hs. Qed.

Lemma nth_cl (lims : list (Qc * Qc)) i lo hi : nth_error lims i = Some (lo, hi) ->
  nth_error (map (fun l => ((fst l + snd l) / zq 2, snd l - fst l)) lims) i = Some ((lo + hi) / zq 2, hi - lo).
Proof. intros H. rewrite nth_error_map, H. reflexivity. Qed.

Lemma make_grid_all_iff x y z cols lims lint res norm : length lims = 3%nat -> good_res res -> (forall p, In p lims -> fst p <= snd p) ->
  (exists g, make_grid x y z cols (map (fun l => ((fst l + snd l) / zq 2, snd l - fst l)) lims) lint res norm = Ok g) <->
  same_lengths x y z cols /\ axes_fit res lims.
Proof.
  intros Ll Gr O. split.
  - intros [g H]. assert (Lr : forall r, res = Some r -> length (fv r) = 1%nat \/ length (fv r) = 3%nat).
    { intros r ->. unfold make_grid in H. destruct (rows_of _ _); cbn [bind] in H; [|discriminate].
      destruct (vals_of _ _) as [v|] eqn:Ev; cbn [bind] in H; [|discriminate].
      destruct (gridder _ _ _ _ _ _ _ _) as [g1|] eqn:Eg; cbn [bind] in H; [|discriminate].
      destruct v as [|l1|nc vr].
      - unfold vals_of in Ev. destruct cols; [discriminate|]. destruct (rows_of _ _); discriminate.
      - unfold vals_of in Ev. destruct cols; [injection Ev as <-|destruct (rows_of _ _); discriminate].
        exfalso. revert Eg. unfold gridder. match goal with |- context[(length ?l =? 0)%nat] => destruct (length l) as [|m] end; cbn [Nat.eqb length bind]; discriminate.
      - apply gridder_new in Eg; [|unfold flen; cbn [fv]; rewrite !map_length; exact Ll].
        destruct Eg as (s' & g0 & _ & Eg).
        pose proof (proj1 (grid_new_success QcAlg nc _ s' r None None Gr) (ex_intro _ g0 Eg)) as (_ & Lx & _).
        unfold lens_ok, flen in Lx. cbn [fv] in Lx. rewrite !map_length, Ll in Lx. tauto. }
    apply make_grid_ok in H; auto.
    + destruct H as (H1 & H2 & H3 & H4 & H5 & _ & H6). split; [repeat split; auto|]. split; [exact Lr|].
      intros i lo hi Hi. destruct (H6 i _ _ (nth_cl _ _ _ _ Hi)) as (p & P1 & P2 & _ & _ & P3 & _). eauto.
    + rewrite map_length. exact Ll.
    + intros p Hp. apply in_map_iff in Hp as (l & <- & Hl). cbn [snd]. specialize (O l Hl). clear - O. qlra.
  - intros [(H1 & H2 & H3 & H4 & H5) H6]. apply make_grid_all; auto.
Qed.

Lemma c73_succeeds s names inh ua res xl yl zl norm side :
  good_res res -> box_side s (use_h s inh) side -> 0 <= side ->
  (exists g, snap_grid s names inh ua res xl yl zl norm = Ok g) <->
  exists x y z cols lims,
    column s "pos_x" ua (use_h s inh) x /\ column s "pos_y" ua (use_h s inh) y /\ column s "pos_z" ua (use_h s inh) z /\
    columns s names ua (use_h s inh) cols /\ same_lengths x y z cols /\
    Forall2 (fun l p => lim_spec side l (fst p) (snd p)) [xl; yl; zl] lims /\ axes_fit res lims.
Proof.
  intros Gr (box & Eb & Es) Hs. unfold snap_grid. fold (use_h s inh). rewrite Eb. rewrite <- Es. split.
  - intros [g H].
    destruct (get_numbers s "pos_x" _ _) as [x|] eqn:E1; cbn [bind] in H; [|discriminate]. apply get_numbers_ok in E1.
    destruct (get_numbers s "pos_y" _ _) as [y|] eqn:E2; cbn [bind] in H; [|discriminate]. apply get_numbers_ok in E2.
    destruct (get_numbers s "pos_z" _ _) as [z|] eqn:E3; cbn [bind] in H; [|discriminate]. apply get_numbers_ok in E3.
    destruct (mapM _ names) as [cols|] eqn:E4; cbn [bind] in H; [|discriminate]. apply cols_of in E4.
    destruct (mapM _ [xl; yl; zl]) as [cl|] eqn:E5; cbn [bind] in H; [|discriminate].
    destruct (lims_of _ _ _ Hs E5) as (lims & L & -> & O & F).
    exists x, y, z, cols, lims. repeat (split; [assumption|]).
    destruct (proj1 (make_grid_all_iff _ _ _ _ _ _ _ _ L Gr O) (ex_intro _ g H)) as [A B]. auto.
  - intros (x & y & z & cols & lims & E1 & E2 & E3 & E4 & A & F & B).
    apply get_numbers_ok in E1, E2, E3. apply cols_of in E4. rewrite E1, E2, E3. cbn [bind]. rewrite E4. cbn [bind].
    rewrite (lims_back _ _ _ F). cbn [bind]. apply make_grid_all_iff; auto.
    + rewrite <- (Forall2_len _ _ _ F). reflexivity.
    + clear - F Hs. induction F; intros p; [intros []|]. intros [<-|Hp]; auto. eapply lim_len; eauto.
Qed.

Lemma grid_of_make (x y z : list Qc) cols lims lint res norm g : length lims = 3%nat -> good_res res -> (forall p, In p lims -> fst p <= snd p) ->
  make_grid x y z cols (map (fun l => ((fst l + snd l) / zq 2, snd l - fst l)) lims) lint res norm = Ok g ->
  gridded g x y z cols norm /\
  forall i lo hi, nth_error lims i = Some (lo, hi) -> exists p, pix_spec res i (hi - lo) p /\ covers g i lo hi p.
Proof.
  intros L Gr O H. apply make_grid_ok in H; auto.
  - destruct H as (H1 & H2 & H3 & H4 & H5 & G & H6). split; [exact G|].
    intros i lo hi Hi. destruct (H6 i _ _ (nth_cl _ _ _ _ Hi)) as (p & P1 & P2 & E1 & E2 & P3 & E3 & E4 & E5). exists p. split; [exact P1|].
    destruct G as (C & D & _). apply covers_of; auto. rewrite D, <- L. apply nth_error_Some. congruence.
  - rewrite map_length. exact L.
  - intros p Hp. apply in_map_iff in Hp as (l & <- & Hl). cbn [snd]. specialize (O l Hl). clear - O. qlra.
Qed.

Lemma c73_cells s names inh ua res xl yl zl norm side g :
  snap_grid s names inh ua res xl yl zl norm = Ok g -> good_res res -> box_side s (use_h s inh) side -> 0 <= side ->
  exists x y z cols,
    column s "pos_x" ua (use_h s inh) x /\ column s "pos_y" ua (use_h s inh) y /\ column s "pos_z" ua (use_h s inh) z /\
    columns s names ua (use_h s inh) cols /\ gridded g x y z cols norm /\
    forall i l, nth_error [xl; yl; zl] i = Some l ->
      exists lo hi p, lim_spec side l lo hi /\ pix_spec res i (hi - lo) p /\ covers g i lo hi p.
Proof.
  intros H Gr (box & Eb & Es) Hs. unfold snap_grid in H. fold (use_h s inh) in H. rewrite Eb in H. rewrite <- Es in H.
  destruct (get_numbers s "pos_x" _ _) as [x|] eqn:E1; cbn [bind] in H; [|discriminate]. apply get_numbers_ok in E1.
  destruct (get_numbers s "pos_y" _ _) as [y|] eqn:E2; cbn [bind] in H; [|discriminate]. apply get_numbers_ok in E2.
  destruct (get_numbers s "pos_z" _ _) as [z|] eqn:E3; cbn [bind] in H; [|discriminate]. apply get_numbers_ok in E3.
  destruct (mapM _ names) as [cols|] eqn:E4; cbn [bind] in H; [|discriminate]. apply cols_of in E4.
  destruct (mapM _ [xl; yl; zl]) as [cl|] eqn:E5; cbn [bind] in H; [|discriminate].
  destruct (lims_of _ _ _ Hs E5) as (lims & L & -> & O & F).
  exists x, y, z, cols. repeat (split; [assumption|]).
  destruct (grid_of_make _ _ _ _ _ _ _ _ _ L Gr O H) as [G V]. split; [exact G|].
  intros i l Hi. assert (X : exists lo hi, nth_error lims i = Some (lo, hi) /\ lim_spec side l lo hi).
  { clear - F Hi. revert i Hi. induction F as [|a [lo hi] la lb Q F IH]; intros [|i] Hi; try discriminate.
    - injection Hi as <-. exists lo, hi. auto.
    - apply IH in Hi. exact Hi. }
  destruct X as (lo & hi & Hl & Sl). destruct (V i lo hi Hl) as (p & P1 & P2). eauto 6.
Qed.
