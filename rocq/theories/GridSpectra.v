(** Order independence (C05), spectra (C08-C10). *)
From Verif Require Import Util Rat Val Arr GridModel GridSpec GridAxis GridNew GridAdd GridCat.
Open Scope Qc_scope.

Section Perm.
Context {A : Alg}.
Add Ring A_ring : (v_rt A).
Notation grid := (grid A).

Lemma alter_comm {X} (f g : X -> X) l i j : (forall x, f (g x) = g (f x)) ->
  alter f (alter g l i) j = alter g (alter f l j) i.
Proof.
  intros H. revert i j; induction l as [|a l IH]; intros [|i] [|j]; simpl; f_equal; auto.
Qed.

Lemma add_all_perm (d : arr A) l m : Permutation l m -> add_all d l = add_all d m.
Proof.
  intros P; revert d; induction P as [|x l m P IH|x y l|l m n P1 IH1 P2 IH2]; intros d; unfold add_all in *; simpl; auto.
  - f_equal. unfold aalter; simpl. f_equal. apply alter_comm. intros z; ring.
  - rewrite IH1; auto.
Qed.

Lemma flat_map_perm {X Y} (f g : X -> list Y) l : (forall x, In x l -> Permutation (f x) (g x)) ->
  Permutation (flat_map f l) (flat_map g l).
Proof.
  induction l as [|a l IH]; simpl; intros H; [constructor|]. apply Permutation_app; auto.
Qed.
Lemma flat_map_app_perm {X Y} (f g : X -> list Y) l :
  Permutation (flat_map (fun x => f x ++ g x) l) (flat_map f l ++ flat_map g l).
Proof.
  induction l as [|a l IH]; simpl; [constructor|].
  rewrite <- !app_assoc. apply Permutation_app_head.
  eapply perm_trans; [apply Permutation_app_head; exact IH|].
  rewrite !app_assoc. apply Permutation_app_tail. apply Permutation_app_comm.
Qed.
Lemma filter_perm {X} (p : X -> bool) l m : Permutation l m -> Permutation (filter p l) (filter p m).
Proof.
  induction 1; simpl; auto.
  - destruct (p x); auto.
  - destruct (p x), (p y); auto. constructor.
  - eapply perm_trans; eauto.
Qed.

(** contributions as a function of the list of objects *)
Lemma contrib_objs (place : list Qc -> list nat) (inside : list Qc -> bool) (rows : list (list Qc)) (vr : list (list A)) k :
  map (fun ov => (place (fst ov), snd ov)) (filter (fun ov => inside (fst ov)) (combine rows (column k vr))) =
  map (fun o => (place (fst o), nth k (snd o) v0)) (filter (fun o => inside (fst o)) (combine rows vr)).
Proof.
  revert vr; induction rows as [|r rows IH]; intros [|v vr]; simpl; auto.
  destruct (inside r); simpl; rewrite IH; auto.
Qed.

Definition cts (g : grid) (objs : list (list Qc * list A)) (k : nat) : list (list nat * A) :=
  map (fun o => (map Z.to_nat (cell_index (fv (g_center g)) (fv (g_side g)) (fv (g_pix g)) (fst o)), nth k (snd o) v0))
      (filter (fun o => in_range (g_npix g) (cell_index (fv (g_center g)) (fv (g_side g)) (fv (g_pix g)) (fst o))) objs).

Definition nin (g : grid) (objs : list (list Qc * list A)) : nat :=
  length (filter (fun o => in_range (g_npix g) (cell_index (fv (g_center g)) (fv (g_side g)) (fv (g_pix g)) (fst o))) objs).

Lemma cts_combine (g : grid) rows vr k :
  combine (map (map Z.to_nat) (select (map (in_range (g_npix g)) (map (cell_index (fv (g_center g)) (fv (g_side g)) (fv (g_pix g))) rows))
       (map (cell_index (fv (g_center g)) (fv (g_side g)) (fv (g_pix g))) rows)))
     (column k (select (map (in_range (g_npix g)) (map (cell_index (fv (g_center g)) (fv (g_side g)) (fv (g_pix g))) rows)) vr))
  = cts g (combine rows vr) k.
Proof. rewrite column_select, contrib_combine. unfold contrib, cts. apply contrib_objs. Qed.

Lemma nin_select (g : grid) rows vr : length rows = length vr ->
  length (select (map (in_range (g_npix g)) (map (cell_index (fv (g_center g)) (fv (g_side g)) (fv (g_pix g))) rows)) vr) = nin g (combine rows (vr : list (list A))).
Proof.
  intros H. rewrite map_map, select_map_combine, map_length by auto. reflexivity.
Qed.

Lemma cts_perm g o o' k : Permutation o o' -> Permutation (cts g o k) (cts g o' k).
Proof. intros H. unfold cts. apply Permutation_map, filter_perm; auto. Qed.
Lemma nin_perm g o o' : Permutation o o' -> nin g o = nin g o'.
Proof. intros H. unfold nin. apply Permutation_length, filter_perm; auto. Qed.
Lemma cts_app g o o' k : cts g (o ++ o') k = cts g o k ++ cts g o' k.
Proof. unfold cts. rewrite filter_app, map_app. reflexivity. Qed.
Lemma nin_app g o o' : nin g (o ++ o') = (nin g o + nin g o')%nat.
Proof. unfold nin. rewrite filter_app, app_length. reflexivity. Qed.

(** add_from_cat as a function of the object list *)
Fixpoint addp (g : grid) (objs : list (list Qc * list A)) (nc : nat) (ps : list nat) (d : arr A) : arr A * exc unit :=
  match ps with
  | [] => (d, Ok tt)
  | ip :: ps' =>
      if (nc =? 1)%nat then addp g objs nc ps' (add_all d (map (fun iv => (fst iv ++ [ip], snd iv)) (cts g objs 0)))
      else if (ip <? nc)%nat then addp g objs nc ps' (add_all d (map (fun iv => (fst iv ++ [ip], snd iv)) (cts g objs ip)))
      else (d, Raise IndexError)
  end.

Definition add_objs (g : grid) (d : arr A) (objs : list (list Qc * list A)) (nc : nat) (new : bool) (props : option (list Z)) : grid * exc unit :=
  if new then
    match add_new_prop g (Some (add_all (full (g_npix g ++ [nc]) v0)
        (flat_map (fun k => map (fun iv => (fst iv ++ [k], snd iv)) (cts g objs k)) (seq 0 nc)))) with
    | (g', Ok _) => (with_nobj g' (g_nobj g' + nin g objs), Ok tt)
    | (g', Raise e) => (g', Raise e)
    end
  else match check_props g props with
       | Raise e => (g, Raise e)
       | Ok ps =>
           if negb ((nc =? length ps)%nat || (nc =? 1)%nat) then (g, Raise ValueError)
           else let '(d', r) := addp g objs nc ps d in
                match r with
                | Ok _ => (with_nobj (with_data g (Some d')) (g_nobj g + nin g objs), Ok tt)
                | Raise e => (with_data g (Some d'), Raise e)
                end
       end.

Lemma addp_props (g : grid) rows vr nc ps d :
  add_props (map (map Z.to_nat) (select (map (in_range (g_npix g)) (map (cell_index (fv (g_center g)) (fv (g_side g)) (fv (g_pix g))) rows))
       (map (cell_index (fv (g_center g)) (fv (g_side g)) (fv (g_pix g))) rows))) nc
     (select (map (in_range (g_npix g)) (map (cell_index (fv (g_center g)) (fv (g_side g)) (fv (g_pix g))) rows)) vr) ps d
  = addp g (combine rows vr) nc ps d.
Proof.
  revert d; induction ps as [|ip ps IH]; intros d; cbn [add_props addp]; auto.
  rewrite !IH, !add_at_all, !cts_combine. reflexivity.
Qed.

Lemma add_from_cat_objs (g : grid) d rows vals new props : ready g d -> rows <> [] ->
  val_rows vals (length rows) = length rows ->
  add_from_cat g (Pos2 (g_ndim g) rows) vals new props = add_objs g d (objects rows vals) (val_cols vals) new props.
Proof.
  intros R Hne Hv. destruct rows as [|r rows']; [congruence|].
  rewrite (add_from_cat_unfold g d _ r rows' vals new props R). set (rows := r :: rows') in *. cbv zeta.
  rewrite Nat.eqb_refl. simpl negb. cbv iota.
  rewrite vrows_length, Hv, Nat.eqb_refl. simpl negb. cbv iota.
  rewrite nin_select by (rewrite vrows_length; auto).
  unfold vrows_of. fold (objects rows vals). unfold add_objs.
  destruct new.
  - rewrite <- add_all_fold.
    erewrite (fold_left_ext_in _ _ (seq 0 (val_cols vals))); [reflexivity|].
    intros x k _. cbv beta. rewrite add_at_all, cts_combine. reflexivity.
  - destruct (check_props g props); auto. destruct (negb _); auto.
    rewrite addp_props. reflexivity.
Qed.

Lemma addp_perm g o o' nc ps d : Permutation o o' -> addp g o nc ps d = addp g o' nc ps d.
Proof.
  intros P. revert d; induction ps as [|ip ps IH]; intros d; cbn [addp]; auto.
  destruct (nc =? 1)%nat; [|destruct (ip <? nc)%nat; [|reflexivity]];
    rewrite IH; f_equal; apply add_all_perm, Permutation_map, cts_perm; auto.
Qed.

Lemma add_objs_perm g d o o' nc new props : Permutation o o' -> add_objs g d o nc new props = add_objs g d o' nc new props.
Proof.
  intros P. unfold add_objs. rewrite (nin_perm g o o' P). destruct new.
  - rewrite (add_all_perm _ _ (flat_map (fun k => map (fun iv => (fst iv ++ [k], snd iv)) (cts g o' k)) (seq 0 nc))); auto.
    apply flat_map_perm. intros k _. apply Permutation_map, cts_perm; auto.
  - destruct (check_props g props); auto. destruct (negb _); auto. rewrite (addp_perm g o o' nc a d P). reflexivity.
Qed.

Lemma objects_length rows (vals : valarg (A:=A)) : val_rows vals (length rows) = length rows -> length (objects rows vals) = length rows.
Proof.
  intros H. unfold objects. rewrite combine_length. pose proof (vrows_length vals rows) as E. unfold vrows_of in E. rewrite E, H. lia.
Qed.

Lemma add_from_cat_perm (g : grid) ncol rows rows' vals vals' new props :
  val_rows vals (length rows) = length rows -> val_rows vals' (length rows') = length rows' ->
  val_cols vals = val_cols vals' ->
  Permutation (objects rows vals) (objects rows' vals') ->
  add_from_cat g (Pos2 ncol rows) vals new props = add_from_cat g (Pos2 ncol rows') vals' new props.
Proof.
  intros H H' Hc P.
  assert (Hl : length rows = length rows').
  { apply Permutation_length in P. rewrite !objects_length in P; auto. }
  destruct (g_data g) as [d|] eqn:Hd; [|unfold add_from_cat; rewrite Hd; reflexivity].
  destruct (existsb (fun b => b) (g_fsp g)) eqn:Hf; [unfold add_from_cat; rewrite Hd, Hf; reflexivity|].
  destruct rows as [|r rows]; destruct rows' as [|r' rows']; try discriminate.
  { unfold add_from_cat; rewrite Hd, Hf; reflexivity. }
  destruct (Nat.eqb_spec ncol (g_ndim g)) as [->|N].
  - rewrite !(add_from_cat_objs g d) by (auto; try split; auto; discriminate). rewrite Hc. apply add_objs_perm; auto.
  - rewrite !(add_from_cat_unfold g d) by (split; auto). cbv zeta.
    destruct (Nat.eqb_spec ncol (g_ndim g)); [congruence|]. reflexivity.
Qed.

Lemma cts_geom (g g' : grid) o k : same_geometry g g' -> cts g' o k = cts g o k.
Proof. intros (_ & Hc & Hs & Hp & Hn & _). unfold cts. rewrite Hc, Hs, Hp, Hn. reflexivity. Qed.
Lemma nin_geom (g g' : grid) o : same_geometry g g' -> nin g' o = nin g o.
Proof. intros (_ & Hc & Hs & Hp & Hn & _). unfold nin. rewrite Hc, Hs, Hp, Hn. reflexivity. Qed.

Lemma same_geometry_set (g : grid) d n : same_geometry g (with_nobj (with_data g d) n).
Proof. repeat split. Qed.

(** closed form of addp when it succeeds *)
Lemma addp_ok g o nc ps d d' : addp g o nc ps d = (d', Ok tt) ->
  (nc = 1 \/ Forall (fun p => p < nc) ps)%nat /\
  d' = add_all d (flat_map (fun ip => map (fun iv => (fst iv ++ [ip], snd iv)) (cts g o (if (nc =? 1)%nat then 0%nat else ip))) ps).
Proof.
  revert d d'; induction ps as [|ip ps IH]; cbn [addp]; intros d d' H.
  - inversion H. auto.
  - destruct (Nat.eqb_spec nc 1) as [E|E].
    + apply IH in H as [_ ->]. split; auto. simpl. rewrite add_all_app. reflexivity.
    + destruct (Nat.ltb_spec ip nc); [|discriminate]. apply IH in H as [Hp ->]. split.
      * right. destruct Hp; [congruence|]. constructor; auto.
      * simpl. rewrite add_all_app. reflexivity.
Qed.
Lemma addp_ok_conv g o nc ps d : (nc = 1 \/ Forall (fun p => p < nc) ps)%nat ->
  addp g o nc ps d = (add_all d (flat_map (fun ip => map (fun iv => (fst iv ++ [ip], snd iv)) (cts g o (if (nc =? 1)%nat then 0%nat else ip))) ps), Ok tt).
Proof.
  revert d; induction ps as [|ip ps IH]; cbn [addp]; intros d H; auto.
  assert (H' : (nc = 1 \/ Forall (fun p => p < nc) ps)%nat) by (destruct H as [H|H]; auto; inversion H; auto).
  simpl. destruct (Nat.eqb_spec nc 1) as [E|E].
  - rewrite IH, add_all_app by auto. reflexivity.
  - destruct H as [H|H]; [congruence|]. inversion H; subst. destruct (Nat.ltb_spec ip nc); [|lia].
    rewrite IH, add_all_app by auto. reflexivity.
Qed.

Lemma add_objs_app (g : grid) d o1 o2 nc props g1 :
  g_data g = Some d ->
  add_objs g d o1 nc false props = (g1, Ok tt) ->
  exists d1, g_data g1 = Some d1 /\
  add_objs g d (o1 ++ o2) nc false props = add_objs g1 d1 o2 nc false props.
Proof.
  intros Hd H. unfold add_objs in *. destruct (check_props g props) as [ps|] eqn:Ep; [|discriminate].
  destruct (negb _) eqn:En; [discriminate|].
  destruct (addp g o1 nc ps d) as [d1 r] eqn:Ea. destruct r as [[]|]; [|discriminate].
  inversion H; subst g1; clear H. exists d1. split; [reflexivity|].
  assert (Eg : check_props (with_nobj (with_data g (Some d1)) (g_nobj g + nin g o1)) props = Ok ps).
  { rewrite <- Ep. destruct g; reflexivity. }
  rewrite Eg, En. apply addp_ok in Ea as [Hc ->].
  rewrite !addp_ok_conv by auto.
  assert (Eq : flat_map (fun ip => map (fun iv => (fst iv ++ [ip], snd iv)) (cts (with_nobj (with_data g (Some
       (add_all d (flat_map (fun ip => map (fun iv => (fst iv ++ [ip], snd iv)) (cts g o1 (if (nc =? 1)%nat then 0%nat else ip))) ps)))) (g_nobj g + nin g o1)) o2 (if (nc =? 1)%nat then 0%nat else ip))) ps
    = flat_map (fun ip => map (fun iv => (fst iv ++ [ip], snd iv)) (cts g o2 (if (nc =? 1)%nat then 0%nat else ip))) ps).
  { apply flat_map_ext. intros ip. rewrite (cts_geom g) by apply same_geometry_set. reflexivity. }
  rewrite Eq, add_all_app.
  rewrite (nin_geom g _ o2) by apply same_geometry_set. rewrite nin_app.
  set (dd := add_all d _). set (dd' := add_all d (_ ++ _)).
  assert (E : dd = dd').
  { apply add_all_perm. eapply perm_trans; [|apply flat_map_app_perm]. apply flat_map_perm. intros ip _.
    rewrite cts_app, map_app. apply Permutation_refl. }
  rewrite E. destruct g; simpl. rewrite Nat.add_assoc. reflexivity.
Qed.

Lemma objects_app rows1 rows2 (v1 v2 v : valarg (A:=A)) : val_app v1 v2 = Some v ->
  val_rows v1 (length rows1) = length rows1 ->
  objects (rows1 ++ rows2) v = objects rows1 v1 ++ objects rows2 v2 /\ val_cols v = val_cols v1 /\ val_cols v = val_cols v2 /\
  (val_rows v2 (length rows2) = length rows2 -> val_rows v (length (rows1 ++ rows2)) = length (rows1 ++ rows2)).
Proof.
  assert (CA : forall {X Y} (a b : list X) (c d : list Y), length a = length c -> combine (a ++ b) (c ++ d) = combine a c ++ combine b d).
  { intros X Y a; induction a; intros b [|] d Hl; simpl in *; try discriminate; auto. rewrite IHa; auto. }
  unfold objects. destruct v1, v2; simpl; try discriminate.
  - intros H _; inversion H; subst; simpl. rewrite app_length, repeat_app, CA by (rewrite repeat_length; auto).
    repeat split; auto.
  - intros H H1; inversion H; subst; simpl. rewrite map_app, CA by (rewrite map_length; auto).
    rewrite !app_length. repeat split; auto; lia.
  - destruct (Nat.eqb_spec ncol ncol0) as [->|]; [|discriminate].
    intros H H1; inversion H; subst; simpl. rewrite CA by auto. rewrite !app_length. repeat split; auto; lia.
Qed.

Lemma add_from_cat_split (g : grid) ncol rows1 rows2 v1 v2 v props g1 :
  val_app v1 v2 = Some v ->
  val_rows v1 (length rows1) = length rows1 -> val_rows v2 (length rows2) = length rows2 ->
  ncol = g_ndim g ->
  add_from_cat g (Pos2 ncol rows1) v1 false props = (g1, Ok tt) ->
  add_from_cat g (Pos2 ncol (rows1 ++ rows2)) v false props = add_from_cat g1 (Pos2 ncol rows2) v2 false props.
Proof.
  intros Hv H1 H2 Hn H.
  destruct (objects_app rows1 rows2 v1 v2 v Hv H1) as (Eo & Ec1 & Ec2 & Er). specialize (Er H2).
  destruct (g_data g) as [d|] eqn:Hd; [|unfold add_from_cat in H; rewrite Hd in H; discriminate].
  destruct (existsb (fun b => b) (g_fsp g)) eqn:Hf; [unfold add_from_cat in H; rewrite Hd, Hf in H; discriminate|].
  assert (R : ready g d) by (split; auto). subst ncol.
  destruct rows1 as [|r1 rows1'].
  - unfold add_from_cat in H. rewrite Hd, Hf in H. inversion H; subst g1. simpl app in *.
    destruct rows2 as [|r2 rows2']; [unfold add_from_cat; rewrite Hd, Hf; reflexivity|].
    rewrite !(add_from_cat_objs g d) by (auto; discriminate). rewrite Eo, Ec2. 
    replace (objects [] v1) with (@nil (list Qc * list A)) by (unfold objects; destruct v1; reflexivity). reflexivity.
  - rewrite (add_from_cat_objs g d) in H by (auto; discriminate). rewrite <- Ec1 in H.
    destruct (add_objs_app g d _ (objects rows2 v2) _ _ _ Hd H) as (d1 & Hd1 & E).
    assert (Hg1 : g_ndim g1 = g_ndim g /\ g_fsp g1 = g_fsp g).
    { unfold add_objs in H. destruct (check_props g props); [|discriminate]. destruct (negb _); [discriminate|].
      destruct (addp _ _ _ _ _) as [? [|]]; inversion H; auto. }
    destruct Hg1 as [Hg1 Hg2].
    destruct rows2 as [|r2 rows2'].
    + rewrite app_nil_r in *.
      assert (E0 : objects [] v2 = []) by (unfold objects; destruct v2; reflexivity).
      rewrite E0, app_nil_r in Eo.
      rewrite (add_from_cat_objs g d) by (auto; discriminate). rewrite Eo, H.
      unfold add_from_cat. rewrite Hd1, Hg2, Hf. reflexivity.
    + rewrite (add_from_cat_objs g d) by (auto; discriminate). rewrite Eo, E. rewrite <- Hg1.
      rewrite (add_from_cat_objs g1 d1); auto; [|split; auto; congruence|discriminate]. rewrite Ec2. reflexivity.
Qed.

(** rejected calls *)
Lemma add_from_cat_rejected (g : grid) pos vals new props g' e :
  add_from_cat g pos vals new props = (g', Raise e) -> e <> IndexError -> g' = g.
Proof.
  unfold add_from_cat. destruct (g_data g) as [d|] eqn:Hd; [|intros H; inversion H; auto].
  destruct (existsb _ _); [intros H; inversion H; auto|].
  assert (N : forall (a : arr A) g' e, add_new_prop g (Some a) = (g', Raise e) -> g' = g).
  { intros a g0 e0. unfold add_new_prop. rewrite Hd.
    match goal with |- match ?v with _ => _ end = _ -> _ => destruct v end; intros H; inversion H; auto. }
  destruct pos as [[|x l]|nc [|r rows]].
  - destruct new; [|discriminate]. destruct vals; try (intros H; inversion H; auto; fail). intros H _; eapply N; eauto.
  - intros H; inversion H; auto.
  - discriminate.
  - destruct (negb _); [intros H; inversion H; auto|].
    destruct (match vals with ValNone => _ | Val1 _ => _ | Val2 _ _ => _ end) as [nc' vr].
    destruct (negb _); [intros H; inversion H; auto|].
    destruct new.
    + destruct (add_new_prop g (Some _)) as [g0 [|]] eqn:E; [discriminate|]. intros H He; inversion H; subst. eapply N; eauto.
    + destruct (check_props g props) as [ps|]; [|intros H; inversion H; auto].
      destruct (negb _); [intros H; inversion H; auto|].
      match goal with |- context [add_props ?a ?b ?c ps d] => set (aa := a); set (bb := b); set (cc := c); destruct (add_props aa bb cc ps d) as [d' [|]] eqn:E end; [discriminate|].
      intros H He; inversion H; subst. exfalso. apply He. clear - E.
      revert d E; induction ps as [|ip ps IH]; cbn [add_props]; intros d E; [inversion E|].
      destruct (bb =? 1)%nat; [eapply IH; eauto|]. destruct (ip <? bb)%nat; [eapply IH; eauto|]. congruence.
Qed.

End Perm.
