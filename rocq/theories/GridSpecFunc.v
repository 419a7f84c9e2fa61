(** add_from_pos_plus_array and add_from_spec_func: C08-C10. *)
From Verif Require Import Util Rat Val Arr GridModel GridSpec GridAxis GridNew GridAdd GridCat GridSpectra.
Open Scope Qc_scope.

Section Spectra.
Context {A : Alg}.
Add Ring A_ring : (v_rt A).
Notation grid := (grid A).

Lemma del_nth_none {X} (l : list X) i : (length l <= i)%nat -> del_nth l i = l.
Proof. revert i; induction l as [|a l IH]; intros [|i] H; simpl in *; auto; try lia. f_equal. apply IH. lia. Qed.

Lemma ins_eq_iff (ix jx : list nat) ax c : (ax <= length ix)%nat -> length jx = S (length ix) ->
  (ins_nth ix ax c = jx <-> ix = del_nth jx ax /\ c = nth ax jx 0%nat).
Proof.
  intros Ha Hl. split.
  - intros <-. rewrite del_ins_nth by auto. split; auto.
    symmetry. apply nth_error_nth. apply nth_error_ins_nth_eq; auto.
  - intros [-> ->]. apply ins_del_nth. apply nth_error_nth'. rewrite Hl. lia.
Qed.

Lemma inb_ins sh ix ax k n : (ax < length sh)%nat -> nth_error sh ax = Some n -> length ix = (length sh - 1)%nat ->
  inb sh (ins_nth ix ax k) = (inb (del_nth sh ax) ix && (k <? n)%nat)%bool.
Proof.
  revert ax ix; induction sh as [|m sh IH]; intros ax ix Ha Hn Hl; [simpl in Ha; lia|].
  destruct ax as [|ax]; simpl in *.
  - inversion Hn; subst. apply andb_comm.
  - destruct ix as [|i ix]; simpl in *; [lia|]. rewrite IH by (auto; lia). rewrite andb_assoc. reflexivity.
Qed.

(** contribution of spectra to one property *)
Definition sct (g : grid) (ax : nat) (objs : list (list Qc * list A)) (p : nat) : list (list nat * A) :=
  flat_map (fun o => map (fun kv => (ins_nth (map Z.to_nat (cell_index (del_nth (fv (g_center g)) ax) (del_nth (fv (g_side g)) ax) (del_nth (fv (g_pix g)) ax) (fst o))) ax (fst kv) ++ [p], snd kv))
                         (combine (seq 0 (length (snd o))) (snd o)))
    (filter (fun o => in_range (del_nth (g_npix g) ax) (cell_index (del_nth (fv (g_center g)) ax) (del_nth (fv (g_side g)) ax) (del_nth (fv (g_pix g)) ax) (fst o))) objs).

Lemma flat_map_map {X Y Z} (f : Y -> list Z) (h : X -> Y) l : flat_map f (map h l) = flat_map (fun x => f (h x)) l.
Proof. induction l; simpl; auto. rewrite IHl. reflexivity. Qed.

Lemma sct_spectra (g : grid) ax rows (vals : list (list A)) p d :
  let cell := cell_index (del_nth (fv (g_center g)) ax) (del_nth (fv (g_side g)) ax) (del_nth (fv (g_pix g)) ax) in
  let zs := map cell rows in
  let keep := map (in_range (del_nth (g_npix g) ax)) zs in
  add_spectra d ax p (map (map Z.to_nat) (select keep zs)) (select keep vals) = add_all d (sct g ax (combine rows vals) p).
Proof.
  cbv zeta. rewrite add_spectra_all, contrib_combine. unfold contrib, sct. rewrite flat_map_map. reflexivity.
Qed.

Lemma combine_seq_filter {X} (l : list X) s c (f : nat -> X -> A) : 
  vsum (map (fun kv => if (fst kv =? c)%nat then f (fst kv) (snd kv) else v0) (combine (seq s (length l)) l)) =
  match nth_error l (c - s) with Some x => if (s <=? c)%nat then f c x else v0 | None => v0 end.
Proof.
  revert s; induction l as [|a l IH]; intros s.
  - simpl. destruct (c - s)%nat; reflexivity.
  - cbn [length seq combine map fst snd]. rewrite vsum_cons, IH. destruct (Nat.eqb_spec s c) as [->|N].
    + rewrite Nat.sub_diag. cbn [nth_error]. destruct (Nat.leb_spec c c); [|lia].
      destruct (Nat.leb_spec (S c) c); [lia|]. destruct (nth_error l (c - S c)); ring.
    + destruct (Nat.leb_spec s c).
      * replace (c - s)%nat with (S (c - S s)) by lia. cbn [nth_error].
        destruct (Nat.leb_spec (S s) c); [|lia]. destruct (nth_error l (c - S s)); ring.
      * replace (c - s)%nat with 0%nat by lia. cbn [nth_error].
        destruct (Nat.leb_spec (S s) c); [lia|]. destruct (nth_error l (c - S s)); ring.
Qed.

Section Fix.
Context (g : grid) (ax : nat) (C : consistent g) (Hax : (ax < g_ndim g)%nat).
Notation n_ax := (nth ax (g_npix g) 0%nat).

Definition sp_ok (objs : list (list Qc * list A)) : Prop :=
  Forall (fun o => length (fst o) = (g_ndim g - 1)%nat /\ length (snd o) = n_ax) objs.

Lemma sct_lat : lat (del_nth (g_npix g) ax) (del_nth (fv (g_center g)) ax) (del_nth (fv (g_side g)) ax)
                    (del_nth (fv (g_pix g)) ax) (del_nth (g_axes g) ax).
Proof. apply lat_del, consistent_lat; auto. Qed.

Lemma del_npix_len : length (del_nth (g_npix g) ax) = (g_ndim g - 1)%nat.
Proof. rewrite del_nth_length; rewrite (co_n _ C); auto. Qed.

Lemma nth_npix : nth_error (g_npix g) ax = Some n_ax.
Proof. apply nth_error_nth'. rewrite (co_n _ C). auto. Qed.

Lemma sct_in objs p m iv : sp_ok objs -> (p < m)%nat -> In iv (sct g ax objs p) -> inb (g_npix g ++ [m]) (fst iv) = true.
Proof.
  intros O Hp H. unfold sct in H. apply in_flat_map in H as (o & Ho & Hiv).
  apply filter_In in Ho as [Ho Hr]. unfold sp_ok in O. rewrite Forall_forall in O. destruct (O o Ho) as [L1 L2].
  apply in_map_iff in Hiv as ([k v] & <- & Hkv). simpl.
  assert (Hc : inb (del_nth (g_npix g) ax) (map Z.to_nat (cell_index (del_nth (fv (g_center g)) ax) (del_nth (fv (g_side g)) ax) (del_nth (fv (g_pix g)) ax) (fst o))) = true).
  { refine (place_inb _ _ _ _ _ sct_lat (fst o) _ Hr). rewrite del_npix_len. auto. }
  pose proof (inb_length _ _ Hc) as Hl. rewrite del_npix_len in Hl.
  pose proof (co_n _ C) as Hn.
  assert (Hlen : length (ins_nth (map Z.to_nat (cell_index (del_nth (fv (g_center g)) ax) (del_nth (fv (g_side g)) ax) (del_nth (fv (g_pix g)) ax) (fst o))) ax k) = length (g_npix g)).
  { rewrite ins_nth_length, Hl. lia. }
  rewrite inb_snoc by auto. apply andb_true_intro; split; [|apply Nat.ltb_lt; auto].
  rewrite (inb_ins _ _ _ _ n_ax); auto using nth_npix; try lia.
  rewrite Hc. simpl. apply Nat.ltb_lt. apply in_combine_l in Hkv. apply in_seq in Hkv. lia.
Qed.

Lemma sct_sum objs p jx k' : sp_ok objs -> inb (g_npix g) jx = true ->
  vsum (map snd (filter (fun iv => ixeq (fst iv) (jx ++ [k'])) (sct g ax objs p))) =
  if (p =? k')%nat then
    vsum (map (fun os => nth (nth ax jx 0%nat) (snd os) v0)
            (filter (fun os => in_box (del_nth (g_axes g) ax) (del_nth jx ax) (fst os)) objs))
  else v0.
Proof.
  intros O Hj. unfold sct. rewrite filter_flat_map, vsum_map_flat_map.
  rewrite vsum_filter, vsum_filter.
  assert (HJ : length jx = g_ndim g) by (rewrite <- (co_n _ C); apply inb_length; auto).
  assert (Hterm : forall o, In o objs ->
    (if in_range (del_nth (g_npix g) ax) (cell_index (del_nth (fv (g_center g)) ax) (del_nth (fv (g_side g)) ax) (del_nth (fv (g_pix g)) ax) (fst o))
     then vsum (map snd (filter (fun iv => ixeq (fst iv) (jx ++ [k']))
            (map (fun kv => (ins_nth (map Z.to_nat (cell_index (del_nth (fv (g_center g)) ax) (del_nth (fv (g_side g)) ax) (del_nth (fv (g_pix g)) ax) (fst o))) ax (fst kv) ++ [p], snd kv))
                         (combine (seq 0 (length (snd o))) (snd o))))) else v0)
    = if (p =? k')%nat then (if in_box (del_nth (g_axes g) ax) (del_nth jx ax) (fst o) then nth (nth ax jx 0%nat) (snd o) v0 else v0) else v0).
  { intros o Ho. unfold sp_ok in O. rewrite Forall_forall in O. destruct (O o Ho) as [L1 L2].
    set (pl := map Z.to_nat _). set (ir := in_range _ _).
    assert (B : in_box (del_nth (g_axes g) ax) (del_nth jx ax) (fst o) = (ir && ixeq pl (del_nth jx ax))%bool).
    { symmetry. apply (inside_place_box _ _ _ _ _ sct_lat). rewrite del_npix_len. auto. }
    rewrite B. destruct ir eqn:Eir; simpl; [|destruct (p =? k')%nat; reflexivity].
    assert (Hpl : length pl = (g_ndim g - 1)%nat).
    { unfold pl. rewrite map_length. destruct (lat_lengths _ _ _ _ _ sct_lat) as (E1 & E2 & E3 & _). rewrite del_npix_len in *.
      apply cell_index_length; auto. }
    assert (F : forall l : list (nat * A), vsum (map snd (filter (fun iv => ixeq (fst iv) (jx ++ [k'])) (map (fun kv => (ins_nth pl ax (fst kv) ++ [p], snd kv)) l)))
       = vsum (map (fun kv => if (fst kv =? nth ax jx 0%nat)%nat then (if (ixeq pl (del_nth jx ax) && (p =? k')%nat)%bool then snd kv else v0) else v0) l)).
    { induction l as [|[a b] l IH]; [reflexivity|]. cbn [map filter fst snd]. rewrite ixeq_snoc.
      assert (E : ixeq (ins_nth pl ax a) jx = ((a =? nth ax jx 0%nat)%nat && ixeq pl (del_nth jx ax))%bool).
      { apply eq_iff_eq_true. rewrite andb_true_iff, !ixeq_true, Nat.eqb_eq.
        rewrite ins_eq_iff by lia. tauto. }
      rewrite E. destruct (Nat.eqb_spec a (nth ax jx 0%nat)); simpl.
      - destruct (ixeq pl (del_nth jx ax) && (p =? k')%nat)%bool; cbn [map snd]; rewrite ?vsum_cons, IH; [reflexivity|ring].
      - rewrite vsum_cons, IH. ring. }
    rewrite F.
    rewrite (combine_seq_filter (snd o) 0 (nth ax jx 0%nat) (fun _ v => if (ixeq pl (del_nth jx ax) && (p =? k')%nat)%bool then v else v0)).
    rewrite Nat.sub_0_r. 
    assert (Hlt : (nth ax jx 0 < length (snd o))%nat).
    { rewrite L2. apply inb_nth in Hj as [_ Hj]. eapply (Hj ax); [|apply nth_npix]. apply nth_error_nth'. lia. }
    rewrite (nth_error_nth' _ v0 Hlt). simpl.
    destruct (ixeq pl (del_nth jx ax)), (p =? k')%nat; reflexivity. }
  rewrite (vsum_ext _ _ _ Hterm). destruct (p =? k')%nat; [reflexivity|].
  apply vsum_map_0. auto.
Qed.

End Fix.

Lemma norm_axis_lt (g : grid) axz ax : norm_axis g axz = Ok ax -> (ax < g_ndim g)%nat.
Proof.
  unfold norm_axis. set (a := (if (axz <? 0)%Z then _ else _)).
  destruct ((Z.of_nat (g_ndim g) <=? a)%Z || (a <? 0)%Z)%bool eqn:E; [discriminate|].
  intros H; inversion H; subst. apply orb_false_iff in E. lia.
Qed.

Lemma norm_axis_nat (g : grid) ax : (ax < g_ndim g)%nat -> norm_axis g (Z.of_nat ax) = Ok ax.
Proof.
  intros H. unfold norm_axis. destruct (Z.ltb_spec (Z.of_nat ax) 0); [lia|].
  destruct ((Z.of_nat (g_ndim g) <=? Z.of_nat ax)%Z || (Z.of_nat ax <? 0)%Z)%bool eqn:E.
  - apply orb_true_iff in E. lia.
  - rewrite Nat2Z.id. reflexivity.
Qed.

(** add_from_pos_plus_array as a function of the objects *)
Definition sp_add (g : grid) (d : arr A) (ax : nat) (objs : list (list Qc * list A)) (new : bool) (props : option (list Z)) : grid * exc unit :=
  let nk := length (filter (fun o => in_range (del_nth (g_npix g) ax) (cell_index (del_nth (fv (g_center g)) ax) (del_nth (fv (g_side g)) ax) (del_nth (fv (g_pix g)) ax) (fst o))) objs) in
  if new then
    match add_new_prop g (Some (add_all (full (g_npix g ++ [1%nat]) v0) (sct g ax objs 0))) with
    | (g', Ok _) => (with_nobj g' (g_nobj g' + nk), Ok tt)
    | (g', Raise e) => (g', Raise e)
    end
  else match check_props g props with
       | Raise e => (g, Raise e)
       | Ok ps => (with_nobj (with_data g (Some (add_all d (flat_map (sct g ax objs) ps)))) (g_nobj g + nk), Ok tt)
       end.

Lemma pos_plus_add (g : grid) d axz ax rows (vals : list (list A)) new props :
  ready g d -> norm_axis g axz = Ok ax -> (2 <= g_ndim g)%nat -> rows <> [] ->
  length vals = length rows -> Forall (fun v => length v = nth ax (g_npix g) 0%nat) vals ->
  add_from_pos_plus_array g (Pos2 (g_ndim g - 1) rows) vals axz new props = sp_add g d ax (combine rows vals) new props.
Proof.
  intros [Hd Hf] Ha H2 Hne Hl Hv. unfold add_from_pos_plus_array. rewrite Hd, Hf, Ha.
  destruct rows as [|r rows']; [congruence|]. set (rows := r :: rows') in *.
  destruct (Nat.leb_spec (g_ndim g) 1); [lia|]. rewrite Nat.eqb_refl. simpl negb. cbv iota.
  rewrite Hl, Nat.eqb_refl. simpl negb. cbv iota.
  replace (forallb (fun r0 : list A => (length r0 =? nth ax (g_npix g) 0)%nat) vals) with true.
  2:{ symmetry. apply forallb_forall. intros v Hin. rewrite Forall_forall in Hv. apply Nat.eqb_eq; auto. }
  simpl negb. cbv iota. unfold sp_add.
  assert (Hk : forall B (v : list B), length v = length rows ->
    length (select (map (in_range (del_nth (g_npix g) ax)) (map (cell_index (del_nth (fv (g_center g)) ax) (del_nth (fv (g_side g)) ax) (del_nth (fv (g_pix g)) ax)) rows)) v)
    = length (filter (fun o => in_range (del_nth (g_npix g) ax) (cell_index (del_nth (fv (g_center g)) ax) (del_nth (fv (g_side g)) ax) (del_nth (fv (g_pix g)) ax) (fst o))) (combine rows v))).
  { intros B v E. rewrite map_map, select_map_combine, map_length by auto. reflexivity. }
  rewrite Hk by auto. rewrite sct_spectra.
  destruct new; [reflexivity|]. destruct (check_props g props); auto.
  erewrite (fold_left_ext_in _ _ a).
  2:{ intros x y _. apply sct_spectra. }
  rewrite add_all_fold. reflexivity.
Qed.

Lemma combine_sp_ok (g : grid) ax rows (vals : list (list A)) :
  rows_ok (g_ndim g - 1) rows -> Forall (fun v => length v = nth ax (g_npix g) 0%nat) vals ->
  sp_ok g ax (combine rows vals).
Proof.
  intros R V. unfold sp_ok. rewrite Forall_forall. intros [r v] H. apply in_combine_both in H as [H1 H2].
  unfold rows_ok in R. rewrite Forall_forall in R, V. simpl. auto.
Qed.

Lemma filter_fst_combine {X Y} (p : X -> bool) (l : list X) (m : list Y) : length l = length m ->
  length (filter (fun o => p (fst o)) (combine l m)) = length (filter p l).
Proof.
  revert m; induction l as [|a l IH]; intros [|b m] H; simpl in *; try discriminate; auto.
  destruct (p a); simpl; rewrite IH; auto.
Qed.

Lemma over_count_eq (g : grid) ax rows (vals : list (list A)) : consistent g -> (ax < g_ndim g)%nat ->
  length vals = length rows -> rows_ok (g_ndim g - 1) rows ->
  length (filter (fun o => in_range (del_nth (g_npix g) ax) (cell_index (del_nth (fv (g_center g)) ax) (del_nth (fv (g_side g)) ax) (del_nth (fv (g_pix g)) ax) (fst o))) (combine rows vals))
  = over_count g ax rows.
Proof.
  intros C Hax Hl R. rewrite (filter_fst_combine (fun r => in_range _ (cell_index _ _ _ r))) by auto. unfold over_count.
  f_equal. clear Hl. induction R as [|r rows Hr R IH]; simpl; auto.
  rewrite (in_range_extent _ _ _ _ _ r (sct_lat g ax C)) by (rewrite del_npix_len; auto). rewrite IH. reflexivity.
Qed.

(** effect on existing properties *)
Lemma pos_plus_existing (g : grid) d axz ax rows (vals : list (list A)) props ps :
  consistent g -> ready g d -> norm_axis g axz = Ok ax -> (2 <= g_ndim g)%nat ->
  rows_ok (g_ndim g - 1) rows -> length vals = length rows ->
  Forall (fun v => length v = nth ax (g_npix g) 0%nat) vals ->
  check_props g props = Ok ps ->
  exists d',
    add_from_pos_plus_array g (Pos2 (g_ndim g - 1) rows) vals axz false props
      = (with_nobj (with_data g (Some d')) (g_nobj g + over_count g ax rows), Ok tt) /\
    awf d' /\ shape d' = shape d /\
    forall ix k, inb (g_npix g) ix = true -> (k < g_nprop g)%nat ->
      getd v0 d' (ix ++ [k]) = (getd v0 d (ix ++ [k]) + scaled (times k ps) (spec_total g ax ix rows vals))%V.
Proof.
  intros C R Ha H2 Rk Hl Hv Hp. destruct (ready_data g d C R) as [W S].
  pose proof (norm_axis_lt _ _ _ Ha) as Hax.
  destruct rows as [|r rows'].
  { exists d. destruct R as [Hd Hf]. split; [|split; [auto|split; [auto|]]].
    - unfold add_from_pos_plus_array. rewrite Hd, Hf, Ha. unfold over_count; simpl. rewrite Nat.add_0_r.
      destruct g; simpl in *; subst; reflexivity.
    - intros ix k _ _. unfold spec_total; simpl. unfold scaled. change (vsum []) with (v0 : A). ring. }
  set (rows := r :: rows') in *.
  rewrite (pos_plus_add g d axz ax) by (auto; discriminate).
  pose proof (combine_sp_ok g ax rows vals Rk Hv) as O.
  unfold sp_add. rewrite Hp, over_count_eq by auto.
  eexists. split; [reflexivity|]. split; [apply add_all_wf; auto|]. split; [apply add_all_shape|].
  intros ix k Hix Hk.
  rewrite getd_add_all; auto.
  - f_equal. rewrite filter_flat_map, vsum_map_flat_map.
    rewrite <- (vsum_times (fun _ => spec_total g ax ix rows vals)). apply vsum_ext. intros p _.
    rewrite sct_sum; auto.
  - intros iv Hiv. apply in_flat_map in Hiv as (p & Hpp & Hiv). rewrite S.
    apply (sct_in g ax C Hax (combine rows vals) p); auto. apply check_props_lt in Hp. rewrite Forall_forall in Hp. auto.
  - rewrite S, inb_snoc by (apply inb_length; auto). rewrite Hix. simpl. apply Nat.ltb_lt; auto.
Qed.

Lemma pos_plus_new (g : grid) d axz ax rows (vals : list (list A)) props :
  consistent g -> ready g d -> norm_axis g axz = Ok ax -> (2 <= g_ndim g)%nat -> rows <> [] ->
  rows_ok (g_ndim g - 1) rows -> length vals = length rows ->
  Forall (fun v => length v = nth ax (g_npix g) 0%nat) vals ->
  exists d',
    add_from_pos_plus_array g (Pos2 (g_ndim g - 1) rows) vals axz true props
      = (with_nobj (with_nprop (with_data g (Some d')) (g_nprop g + 1)) (g_nobj g + over_count g ax rows), Ok tt) /\
    awf d' /\ shape d' = g_npix g ++ [g_nprop g + 1]%nat /\
    forall ix k, inb (g_npix g) ix = true -> (k < g_nprop g + 1)%nat ->
      getd v0 d' (ix ++ [k]) = if (k <? g_nprop g)%nat then getd v0 d (ix ++ [k]) else spec_total g ax ix rows vals.
Proof.
  intros C R Ha H2 Hne Rk Hl Hv. destruct (ready_data g d C R) as [W S].
  pose proof (norm_axis_lt _ _ _ Ha) as Hax.
  rewrite (pos_plus_add g d axz ax) by auto.
  pose proof (combine_sp_ok g ax rows vals Rk Hv) as O.
  unfold sp_add. rewrite over_count_eq by auto.
  destruct (add_new_prop_ok g d (add_all (full (g_npix g ++ [1%nat]) v0) (sct g ax (combine rows vals) 0)) 1 C (proj1 R)) as (d' & Ea & Wd' & Sd' & Gd').
  { apply add_all_wf, tab_wf. }
  { rewrite add_all_shape. reflexivity. }
  rewrite Ea. exists d'. split; [destruct g; reflexivity|]. split; [auto|]. split; [auto|].
  intros ix k Hix Hk. rewrite Gd' by auto. destruct (Nat.ltb_spec k (g_nprop g)); auto.
  replace (k - g_nprop g)%nat with 0%nat by lia.
  assert (Hi : inb (g_npix g ++ [1%nat]) (ix ++ [0%nat]) = true).
  { rewrite inb_snoc by (apply inb_length; auto). rewrite Hix. reflexivity. }
  rewrite getd_add_all.
  - rewrite getd_full, sct_sum by auto. simpl. rewrite vadd_0_l. reflexivity.
  - apply tab_wf.
  - intros iv Hiv. eapply sct_in; eauto.
  - exact Hi.
Qed.

(** array equality from cell values *)
Lemma arr_eq_cells (d1 d2 : arr A) npix m : awf d1 -> awf d2 -> shape d1 = npix ++ [m] -> shape d2 = npix ++ [m] ->
  (forall ix k, inb npix ix = true -> (k < m)%nat -> getd v0 d1 (ix ++ [k]) = getd v0 d2 (ix ++ [k])) -> d1 = d2.
Proof.
  intros W1 W2 S1 S2 H. apply arr_ext; auto; [congruence|]. intros ix Hix. rewrite S1 in Hix.
  assert (E : ix = removelast ix ++ [last ix 0%nat]).
  { apply app_removelast_last. intros ->. apply inb_length in Hix. rewrite app_length in Hix. simpl in Hix. lia. }
  rewrite E in Hix. assert (Hl : length (removelast ix) = length npix).
  { apply inb_length in Hix. rewrite !app_length in Hix. simpl in Hix. lia. }
  rewrite inb_snoc in Hix by auto. apply andb_prop in Hix as [H1 H2]. apply Nat.ltb_lt in H2.
  rewrite !(get_getd v0); auto.
  - f_equal. rewrite E. apply H; auto.
  - rewrite S2, E, inb_snoc, H1 by auto. apply Nat.ltb_lt; auto.
  - rewrite S1, E, inb_snoc, H1 by auto. apply Nat.ltb_lt; auto.
Qed.

(** C08: spectra are the same as one object per channel *)
Lemma expand_rows_ok (g : grid) ax rows : consistent g -> (ax < g_ndim g)%nat ->
  rows_ok (g_ndim g - 1) rows -> rows_ok (g_ndim g) (expand g ax rows).
Proof.
  intros C Hax R. unfold rows_ok, expand in *. rewrite Forall_forall in *. intros x Hx.
  apply in_flat_map in Hx as (r & Hr & Hx). apply in_map_iff in Hx as (c & <- & _).
  rewrite ins_nth_length, R by auto. lia.
Qed.

Lemma expand_length (g : grid) ax rows (vals : list (list A)) : consistent g -> (ax < g_ndim g)%nat ->
  length vals = length rows -> Forall (fun v => length v = nth ax (g_npix g) 0%nat) vals ->
  length (concat vals) = length (expand g ax rows).
Proof.
  intros C Hax Hl V. revert rows Hl; induction V as [|v vals Hv V IH]; intros [|r rows] Hl; simpl in *; try discriminate; auto.
  rewrite !app_length, map_length, (IH rows) by lia. f_equal. rewrite Hv.
  symmetry. pose proof (co_axis _ C ax Hax) as O. apply (ao_clen _ _ _ _ _ _ _ _ O).
Qed.

Lemma center_in_bin n c s p e m fe fc k k' x : axis_ok n c s p e m fe fc -> nth_error m k = Some x -> (k' < n)%nat ->
  in_bin e k' x = (k' =? k)%nat.
Proof.
  intros O Hx Hk'. assert (Hk : (k < n)%nat) by (apply nth_error_Some_lt in Hx; rewrite (ao_clen _ _ _ _ _ _ _ _ O) in Hx; auto).
  rewrite (ao_cen _ _ _ _ _ _ _ _ O k Hk) in Hx. inversion Hx as [Ex]. clear Hx.
  pose proof (ao_p _ _ _ _ _ _ _ _ O) as Hp.
  assert (E : qfloor ((x - c + s / zq 2) / p) = Z.of_nat k).
  { apply qfloor_spec. rewrite <- Ex.
    replace ((c - s / zq 2 + (nq k + frac 1 2) * p - c + s / zq 2) / p) with (nq k + frac 1 2).
    - change (zq (Z.of_nat k)) with (nq k). split; qlra.
    - field. split; [discriminate|apply Qc_pos_neq0; auto]. }
  rewrite Ex.
  destruct (in_bin e k' x) eqn:B.
  - apply (floor_bin _ _ _ _ _ _ _ _ x k' O Hk') in B. symmetry. apply Nat.eqb_eq. lia.
  - destruct (Nat.eqb_spec k' k) as [->|]; auto.
    apply (floor_bin _ _ _ _ _ _ _ _ x k O Hk) in E. congruence.
Qed.

Lemma expand_total (g : grid) ax ix rows (vals : list (list A)) : consistent g -> (ax < g_ndim g)%nat ->
  rows_ok (g_ndim g - 1) rows -> length vals = length rows ->
  Forall (fun v => length v = nth ax (g_npix g) 0%nat) vals -> inb (g_npix g) ix = true ->
  cell_total g ix (expand g ax rows) (concat vals) = spec_total g ax ix rows vals.
Proof.
  intros C Hax R Hl V Hix. pose proof (co_axis _ C ax Hax) as O.
  unfold cell_total, spec_total.
  assert (HL : length ix = g_ndim g) by (rewrite <- (co_n _ C); apply inb_length; auto).
  assert (Hk : (nth ax ix 0 < nth ax (g_npix g) 0)%nat).
  { apply inb_nth in Hix as [_ H]. apply (H ax); apply nth_error_nth'; rewrite ?(co_n _ C); lia. }
  revert vals Hl V; induction R as [|r rows Hr R IH]; intros [|v vals] Hl V; simpl in Hl; try discriminate; [reflexivity|].
  inversion V; subst. unfold expand in *. cbn [flat_map concat combine filter fst snd].
  assert (CA : forall {X Y} (a b : list X) (c d : list Y), length a = length c -> combine (a ++ b) (c ++ d) = combine a c ++ combine b d).
  { clear. intros X Y a; induction a; intros b [|] d Hl; simpl in *; try discriminate; auto. rewrite IHa; auto. }
  rewrite CA by (rewrite map_length, (ao_clen _ _ _ _ _ _ _ _ O); auto).
  rewrite filter_app, map_app, vsum_app, IH by (auto; lia).
  assert (E : vsum (map snd (filter (fun ov => in_cell g ix (fst ov)) (combine (map (fun c => ins_nth r ax c) (nth ax (g_centers g) [])) v)))
     = if in_box (del_nth (g_axes g) ax) (del_nth ix ax) r then nth (nth ax ix 0%nat) v v0 else v0).
  { rewrite vsum_filter.
    rewrite (vsum_ext _ (fun ov => if (in_box (g_axes g) ix (fst ov)) then snd ov else v0)) by reflexivity.
    set (cs := nth ax (g_centers g) []) in *.
    (* index the channels *)
    assert (G : forall (l : list Qc) (w : list A) s, length l = length w ->
       (forall j x, nth_error l j = Some x -> nth_error cs (s + j) = Some x) ->
       vsum (map (fun ov => if in_box (g_axes g) ix (fst ov) then snd ov else v0) (combine (map (fun c => ins_nth r ax c) l) w))
       = vsum (map (fun kv => if (fst kv =? nth ax ix 0%nat)%nat then (if in_box (del_nth (g_axes g) ax) (del_nth ix ax) r then snd kv else v0) else v0) (combine (seq s (length w)) w))).
    { induction l as [|x l IHl]; intros [|y w] s El Hs; simpl in El; try discriminate; [reflexivity|].
      cbn [map combine seq length fst snd]. rewrite !vsum_cons. rewrite (IHl w (S s)); [|lia|].
      2:{ intros j z Hj. replace (S s + j)%nat with (s + S j)%nat by lia. apply Hs. exact Hj. }
      f_equal.
      assert (Hx : nth_error cs s = Some x) by (specialize (Hs 0%nat x eq_refl); rewrite Nat.add_0_r in Hs; auto).
      assert (Eix : ix = ins_nth (del_nth ix ax) ax (nth ax ix 0%nat)).
      { symmetry. apply ins_del_nth. apply nth_error_nth'. lia. }
      rewrite Eix at 1.
      rewrite (in_box_ins (g_axes g) ax _ r _ x (nth ax (g_axes g) [])).
      - rewrite del_nth_length by lia. rewrite (co_ax _ C), HL, Hr, Nat.eqb_refl. cbn [andb].
        rewrite (center_in_bin _ _ _ _ _ _ _ _ s (nth ax ix 0%nat) x O Hx Hk). rewrite Nat.eqb_sym.
        destruct (s =? nth ax ix 0%nat)%nat, (in_box _ _ _); reflexivity.
      - rewrite (co_ax _ C); auto.
      - apply nth_error_nth'. rewrite (co_ax _ C). auto. }
    rewrite (G cs v 0%nat); [|pose proof (ao_clen _ _ _ _ _ _ _ _ O); lia|auto].
    rewrite (combine_seq_filter v 0 (nth ax ix 0%nat) (fun _ x => if in_box (del_nth (g_axes g) ax) (del_nth ix ax) r then x else v0)).
    rewrite Nat.sub_0_r. rewrite (nth_error_nth' v v0) by lia. reflexivity. }
  rewrite E. destruct (in_box _ _ r); cbn [map snd]; rewrite ?vsum_cons; ring.
Qed.

Lemma pos_plus_as_cat (g : grid) d axz ax rows (vals : list (list A)) new props ps :
  consistent g -> ready g d -> norm_axis g axz = Ok ax -> (2 <= g_ndim g)%nat ->
  rows_ok (g_ndim g - 1) rows -> length vals = length rows ->
  Forall (fun v => length v = nth ax (g_npix g) 0%nat) vals ->
  check_props g props = Ok ps ->
  exists g1 g2,
    add_from_pos_plus_array g (Pos2 (g_ndim g - 1) rows) vals axz new props = (g1, Ok tt) /\
    add_from_cat g (Pos2 (g_ndim g) (expand g ax rows)) (Val1 (concat vals)) new props = (g2, Ok tt) /\
    with_nobj g1 0 = with_nobj g2 0 /\ g_nobj g1 = (g_nobj g + over_count g ax rows)%nat.
Proof.
  intros C R Ha H2 Rk Hl Hv Hp. pose proof (norm_axis_lt _ _ _ Ha) as Hax.
  pose proof (expand_rows_ok g ax rows C Hax Rk) as Re. pose proof (expand_length g ax rows vals C Hax Hl Hv) as Le.
  destruct (ready_data g d C R) as [W S].
  destruct new.
  - destruct rows as [|r rows'].
    { destruct vals; [|discriminate]. exists g, g. destruct R as [Hd Hf].
      unfold add_from_pos_plus_array, add_from_cat. rewrite Hd, Hf, Ha. cbn [expand flat_map]. unfold over_count. simpl. rewrite Nat.add_0_r. auto. }
    set (rows := r :: rows') in *.
    destruct (pos_plus_new g d axz ax rows vals props) as (d1 & E1 & W1 & S1 & G1); auto; [discriminate|].
    destruct (add_from_cat_new g d (expand g ax rows) (Val1 (concat vals)) props) as (d2 & E2 & W2 & S2 & G2); auto.
    { intros En. assert (length (expand g ax rows) = 0%nat) as Z by (rewrite En; reflexivity).
      rewrite <- Le in Z. destruct vals as [|v vals]; [discriminate|]. inversion Hv; subst. simpl in Z. rewrite app_length in Z.
      pose proof (ao_n _ _ _ _ _ _ _ _ (co_axis _ C ax Hax)). lia. }
    cbn [val_cols] in *.
    eexists; eexists. split; [exact E1|]. split; [exact E2|]. split; [|destruct g; reflexivity].
    assert (d1 = d2); [|subst; destruct g; reflexivity].
    apply (arr_eq_cells _ _ (g_npix g) (g_nprop g + 1)); auto.
    intros ix k Hix Hk. rewrite G1, G2 by auto. destruct (k <? g_nprop g)%nat; auto.
    cbn [val_col]. rewrite expand_total; auto.
  - destruct (pos_plus_existing g d axz ax rows vals props ps) as (d1 & E1 & W1 & S1 & G1); auto.
    destruct (add_from_cat_existing g d (expand g ax rows) (Val1 (concat vals)) props ps) as (d2 & E2 & W2 & S2 & G2); auto.
    eexists; eexists. split; [exact E1|]. split; [exact E2|]. split; [|destruct g; reflexivity].
    assert (d1 = d2); [|subst; destruct g; reflexivity].
    rewrite S in S1, S2.
    apply (arr_eq_cells _ _ (g_npix g) (g_nprop g)); auto.
    intros ix k Hix Hk. rewrite G1, G2 by auto. cbn [val_col]. rewrite expand_total; auto.
Qed.

(** * chunks: C09 *)
Lemma spec_total_app (g : grid) ax ix r1 r2 (v1 v2 : list (list A)) : length v1 = length r1 ->
  spec_total g ax ix (r1 ++ r2) (v1 ++ v2) = (spec_total g ax ix r1 v1 + spec_total g ax ix r2 v2)%V.
Proof.
  intros H. unfold spec_total.
  assert (CA : forall {X Y} (a b : list X) (c d : list Y), length a = length c -> combine (a ++ b) (c ++ d) = combine a c ++ combine b d).
  { clear. intros X Y a; induction a; intros b [|] d Hl; simpl in *; try discriminate; auto. rewrite IHa; auto. }
  rewrite CA, filter_app, map_app, vsum_app by auto. reflexivity.
Qed.
Lemma over_count_app (g : grid) ax r1 r2 : over_count g ax (r1 ++ r2) = (over_count g ax r1 + over_count g ax r2)%nat.
Proof. unfold over_count. rewrite filter_app, app_length. reflexivity. Qed.

Lemma set_consistent (g : grid) d n m : consistent g -> awf d -> shape d = g_npix g ++ [m] ->
  consistent (with_nobj (with_nprop (with_data g (Some d)) m) n).
Proof. intros [] W S. constructor; simpl; auto. Qed.
Lemma set_consistent' (g : grid) d n : consistent g -> awf d -> shape d = g_npix g ++ [g_nprop g] ->
  consistent (with_nobj (with_data g (Some d)) n).
Proof. intros [] W S. constructor; simpl; auto. Qed.

Lemma scaled_add m (x y : A) : scaled m (x + y)%V = (scaled m x + scaled m y)%V.
Proof. unfold scaled. ring. Qed.

Lemma pos_plus_split (g : grid) d axz ax r1 r2 (v1 v2 : list (list A)) props ps g1 :
  consistent g -> ready g d -> norm_axis g axz = Ok ax -> (2 <= g_ndim g)%nat ->
  rows_ok (g_ndim g - 1) (r1 ++ r2) -> length v1 = length r1 -> length v2 = length r2 ->
  Forall (fun v => length v = nth ax (g_npix g) 0%nat) (v1 ++ v2) ->
  check_props g props = Ok ps ->
  add_from_pos_plus_array g (Pos2 (g_ndim g - 1) r1) v1 axz false props = (g1, Ok tt) ->
  consistent g1 /\ (exists d1, ready g1 d1) /\ same_geometry g g1 /\ g_nprop g1 = g_nprop g /\
  add_from_pos_plus_array g (Pos2 (g_ndim g - 1) (r1 ++ r2)) (v1 ++ v2) axz false props =
  add_from_pos_plus_array g1 (Pos2 (g_ndim g - 1) r2) v2 axz false props.
Proof.
  intros C R Ha H2 Rk L1 L2 V Hp H. destruct (ready_data g d C R) as [W S].
  unfold rows_ok in Rk. apply Forall_app in Rk as [Rk1 Rk2]. apply Forall_app in V as [V1 V2].
  destruct (pos_plus_existing g d axz ax r1 v1 props ps) as (d1 & E1 & W1 & S1 & G1); auto.
  destruct (pos_plus_existing g d axz ax (r1 ++ r2) (v1 ++ v2) props ps) as (d3 & E3 & W3 & S3 & G3); auto.
  { apply Forall_app; auto. } { rewrite !app_length; lia. } { apply Forall_app; auto. }
  rewrite H in E1. inversion E1; subst g1; clear E1.
  set (g1 := with_nobj (with_data g (Some d1)) (g_nobj g + over_count g ax r1)) in *.
  assert (C1 : consistent g1) by (apply set_consistent'; auto; congruence).
  assert (R1 : ready g1 d1) by (split; [reflexivity|exact (proj2 R)]).
  split; [auto|]. split; [eauto|]. split; [repeat split|]. split; [reflexivity|].
  destruct (pos_plus_existing g1 d1 axz ax r2 v2 props ps) as (d2 & E2 & W2 & S2 & G2); auto.
  rewrite E3. change (g_ndim g) with (g_ndim g1). rewrite E2.
  assert (d3 = d2) as ->.
  { apply (arr_eq_cells _ _ (g_npix g) (g_nprop g)); auto; try congruence.
    intros ix k Hix Hk. rewrite G3, G2, G1 by auto. rewrite spec_total_app by auto.
    change (spec_total g1 ax ix r2 v2) with (spec_total g ax ix r2 v2). rewrite scaled_add. ring. }
  rewrite over_count_app. unfold g1; destruct g; simpl. rewrite Nat.add_assoc. reflexivity.
Qed.

Lemma pos_plus_split_new (g : grid) d axz ax r1 r2 (v1 v2 : list (list A)) props g1 :
  consistent g -> ready g d -> norm_axis g axz = Ok ax -> (2 <= g_ndim g)%nat -> r1 <> [] ->
  rows_ok (g_ndim g - 1) (r1 ++ r2) -> length v1 = length r1 -> length v2 = length r2 ->
  Forall (fun v => length v = nth ax (g_npix g) 0%nat) (v1 ++ v2) ->
  add_from_pos_plus_array g (Pos2 (g_ndim g - 1) r1) v1 axz true props = (g1, Ok tt) ->
  consistent g1 /\ (exists d1, ready g1 d1) /\ same_geometry g g1 /\ g_nprop g1 = (g_nprop g + 1)%nat /\
  add_from_pos_plus_array g (Pos2 (g_ndim g - 1) (r1 ++ r2)) (v1 ++ v2) axz true props =
  add_from_pos_plus_array g1 (Pos2 (g_ndim g - 1) r2) v2 axz false (Some [Z.of_nat (g_nprop g1) - 1]%Z).
Proof.
  intros C R Ha H2 Hne Rk L1 L2 V H. destruct (ready_data g d C R) as [W S].
  unfold rows_ok in Rk. apply Forall_app in Rk as [Rk1 Rk2]. apply Forall_app in V as [V1 V2].
  destruct (pos_plus_new g d axz ax r1 v1 props) as (d1 & E1 & W1 & S1 & G1); auto.
  destruct (pos_plus_new g d axz ax (r1 ++ r2) (v1 ++ v2) props) as (d3 & E3 & W3 & S3 & G3); auto.
  { destruct r1; [congruence|discriminate]. }
  { apply Forall_app; auto. } { rewrite !app_length; lia. } { apply Forall_app; auto. }
  rewrite H in E1. inversion E1; subst g1; clear E1.
  set (g1 := with_nobj (with_nprop (with_data g (Some d1)) (g_nprop g + 1)) (g_nobj g + over_count g ax r1)) in *.
  assert (C1 : consistent g1) by (apply set_consistent; auto; congruence).
  assert (R1 : ready g1 d1) by (split; [reflexivity|exact (proj2 R)]).
  split; [auto|]. split; [eauto|]. split; [repeat split|]. split; [reflexivity|].
  destruct (pos_plus_existing g1 d1 axz ax r2 v2 (Some [Z.of_nat (g_nprop g1) - 1]%Z) [g_nprop g]) as (d2 & E2 & W2 & S2 & G2); auto.
  { unfold check_props. simpl forallb. change (g_nprop g1) with (g_nprop g + 1)%nat.
    replace ((0 <=? Z.of_nat (g_nprop g + 1) - 1)%Z && (Z.of_nat (g_nprop g + 1) - 1 <? Z.of_nat (g_nprop g + 1))%Z && true)%bool with true by lia.
    cbn [bind check map]. do 2 f_equal. lia. }
  rewrite E3. change (g_ndim g) with (g_ndim g1). rewrite E2.
  assert (d3 = d2) as ->.
  { apply (arr_eq_cells _ _ (g_npix g) (g_nprop g + 1)); auto; try congruence.
    intros ix k Hix Hk. rewrite G3, G2, G1 by auto. rewrite spec_total_app by auto.
    change (spec_total g1 ax ix r2 v2) with (spec_total g ax ix r2 v2).
    unfold times. simpl. destruct (Nat.ltb_spec k (g_nprop g)), (Nat.eq_dec (g_nprop g) k); try lia; rewrite ?scaled_0, ?scaled_1; ring. }
  rewrite over_count_app. unfold g1; destruct g; simpl. rewrite Nat.add_assoc. reflexivity.
Qed.

(** the evaluated spectra of independent objects *)
Lemma eval_spectra_map {P} (spec : list Qc -> list P -> list (list A)) (f : list Qc -> P -> list A) (loop cum : bool) axis args :
  (forall axis args, spec axis args = map (f axis) args) ->
  eval_spectra spec loop cum axis args = map (fun a => if cum then vdiff (f axis a) else f axis a) args.
Proof.
  intros H. unfold eval_spectra. destruct loop.
  - assert (E : map (fun a => concat (spec axis [a])) args = map (f axis) args).
    { apply map_ext. intros a. rewrite H. simpl. apply app_nil_r. }
    rewrite E. destruct cum; auto. rewrite map_map. reflexivity.
  - rewrite H. destruct cum; auto. rewrite map_map. reflexivity.
Qed.

Lemma spec_loop_existing {P} (spec : list Qc -> list P -> list (list A)) (f : list Qc -> P -> list A) (loop cum : bool) axis ax chunk props ps :
  (forall axis args, spec axis args = map (f axis) args) -> (0 < chunk)%nat ->
  forall fuel (g : grid) d rows (args : list P),
  consistent g -> ready g d -> (ax < g_ndim g)%nat -> (2 <= g_ndim g)%nat ->
  rows_ok (g_ndim g - 1) rows -> length args = length rows ->
  Forall (fun v => length v = nth ax (g_npix g) 0%nat) (map (fun a => if cum then vdiff (f axis a) else f axis a) args) ->
  check_props g props = Ok ps -> (length rows <= fuel * chunk)%nat ->
  spec_loop spec (g_ndim g - 1) loop cum axis ax chunk fuel g rows args false props =
  add_from_pos_plus_array g (Pos2 (g_ndim g - 1) rows) (map (fun a => if cum then vdiff (f axis a) else f axis a) args) (Z.of_nat ax) false props.
Proof.
  intros Hs Hch. induction fuel as [|fuel IH]; intros g d rows args C R Hax H2 Rk Hl V Hp Hf.
  - destruct rows; [|simpl in Hf; lia]. destruct args; [|discriminate]. destruct R as [Hd Hfs].
    cbn [spec_loop]. unfold add_from_pos_plus_array. rewrite Hd, Hfs, norm_axis_nat by auto. reflexivity.
  - cbn [spec_loop]. rewrite (eval_spectra_map _ f) by auto.
    set (h := fun a => if cum then vdiff (f axis a) else f axis a) in *.
    rewrite <- (firstn_skipn chunk rows) in Rk.
    rewrite <- (firstn_skipn chunk args), map_app in V.
    transitivity (add_from_pos_plus_array g (Pos2 (g_ndim g - 1) (firstn chunk rows ++ skipn chunk rows))
      (map h (firstn chunk args) ++ map h (skipn chunk args)) (Z.of_nat ax) false props);
      [|rewrite <- map_app, !firstn_skipn; reflexivity].
    pose proof V as V'. apply Forall_app in V' as [V1 V2].
    replace (forallb (fun r : list A => (length r =? nth ax (g_npix g) 0)%nat) (map h (firstn chunk args))) with true.
    2:{ symmetry. apply forallb_forall. intros v Hin. rewrite Forall_forall in V1. apply Nat.eqb_eq; auto. }
    simpl negb. cbv iota. rewrite map_length, !firstn_length, Hl, Nat.eqb_refl. simpl negb. cbv iota.
    assert (L1 : length (map h (firstn chunk args)) = length (firstn chunk rows)) by (rewrite map_length, !firstn_length; lia).
    assert (L2 : length (map h (skipn chunk args)) = length (skipn chunk rows)) by (rewrite map_length, !skipn_length; lia).
    unfold rows_ok in Rk. pose proof Rk as Rk'. apply Forall_app in Rk' as [Rk1 Rk2].
    destruct (pos_plus_existing g d (Z.of_nat ax) ax (firstn chunk rows) (map h (firstn chunk args)) props ps) as (d1 & E1 & _); auto using norm_axis_nat.
    destruct (pos_plus_split g d (Z.of_nat ax) ax _ (skipn chunk rows) _ (map h (skipn chunk args)) props ps _ C R (norm_axis_nat _ _ Hax) H2 Rk L1 L2 V Hp E1)
      as (C1 & [d1' R1] & G & Np & E).
    rewrite E1, E. set (g1 := with_nobj _ _) in *.
    change (g_ndim g) with (g_ndim g1). rewrite (IH g1 d1'); auto.
    + rewrite !skipn_length. lia.
    + rewrite skipn_length. lia.
Qed.

Lemma spec_loop_new {P} (spec : list Qc -> list P -> list (list A)) (f : list Qc -> P -> list A) (loop cum : bool) axis ax chunk props :
  (forall axis args, spec axis args = map (f axis) args) -> (0 < chunk)%nat ->
  forall fuel (g : grid) d rows (args : list P),
  consistent g -> ready g d -> (ax < g_ndim g)%nat -> (2 <= g_ndim g)%nat -> rows <> [] ->
  rows_ok (g_ndim g - 1) rows -> length args = length rows ->
  Forall (fun v => length v = nth ax (g_npix g) 0%nat) (map (fun a => if cum then vdiff (f axis a) else f axis a) args) ->
  (length rows <= fuel * chunk)%nat ->
  spec_loop spec (g_ndim g - 1) loop cum axis ax chunk fuel g rows args true props =
  add_from_pos_plus_array g (Pos2 (g_ndim g - 1) rows) (map (fun a => if cum then vdiff (f axis a) else f axis a) args) (Z.of_nat ax) true props.
Proof.
  intros Hs Hch fuel g d rows args C R Hax H2 Hne Rk Hl V Hf.
  destruct fuel as [|fuel]; [destruct rows; [congruence|simpl in Hf; lia]|].
  cbn [spec_loop]. rewrite (eval_spectra_map _ f) by auto.
  set (h := fun a => if cum then vdiff (f axis a) else f axis a) in *.
  rewrite <- (firstn_skipn chunk rows) in Rk.
  rewrite <- (firstn_skipn chunk args), map_app in V.
  transitivity (add_from_pos_plus_array g (Pos2 (g_ndim g - 1) (firstn chunk rows ++ skipn chunk rows))
    (map h (firstn chunk args) ++ map h (skipn chunk args)) (Z.of_nat ax) true props);
    [|rewrite <- map_app, !firstn_skipn; reflexivity].
  pose proof V as V'. apply Forall_app in V' as [V1 V2].
  replace (forallb (fun r : list A => (length r =? nth ax (g_npix g) 0)%nat) (map h (firstn chunk args))) with true.
  2:{ symmetry. apply forallb_forall. intros v Hin. rewrite Forall_forall in V1. apply Nat.eqb_eq; auto. }
  simpl negb. cbv iota. rewrite map_length, !firstn_length, Hl, Nat.eqb_refl. simpl negb. cbv iota.
  assert (L1 : length (map h (firstn chunk args)) = length (firstn chunk rows)) by (rewrite map_length, !firstn_length; lia).
  assert (L2 : length (map h (skipn chunk args)) = length (skipn chunk rows)) by (rewrite map_length, !skipn_length; lia).
  assert (N1 : firstn chunk rows <> []) by (destruct chunk; [lia|]; destruct rows; [congruence|discriminate]).
  unfold rows_ok in Rk. pose proof Rk as Rk'. apply Forall_app in Rk' as [Rk1 Rk2].
  destruct (pos_plus_new g d (Z.of_nat ax) ax (firstn chunk rows) (map h (firstn chunk args)) props) as (d1 & E1 & _); auto using norm_axis_nat.
  destruct (pos_plus_split_new g d (Z.of_nat ax) ax _ (skipn chunk rows) _ (map h (skipn chunk args)) props _ C R (norm_axis_nat _ _ Hax) H2 N1 Rk L1 L2 V E1)
    as (C1 & [d1' R1] & G & Np & E).
  rewrite E1, E. set (g1 := with_nobj _ _) in *.
  change (g_ndim g) with (g_ndim g1).
  rewrite (spec_loop_existing spec f loop cum axis ax chunk (Some [(Z.of_nat (g_nprop g1) - 1)%Z]) [g_nprop g] Hs Hch fuel g1 d1'); auto.
  - rewrite !skipn_length. lia.
  - unfold check_props. simpl forallb. change (g_nprop g1) with (g_nprop g + 1)%nat.
    replace ((0 <=? Z.of_nat (g_nprop g + 1) - 1)%Z && (Z.of_nat (g_nprop g + 1) - 1 <? Z.of_nat (g_nprop g + 1))%Z && true)%bool with true by lia.
    cbn [bind check map]. do 2 f_equal. lia.
  - rewrite skipn_length. lia.
Qed.

Lemma ceil_chunks n c : (0 < c -> n <= (n + c - 1) / c * c)%nat.
Proof. intros H. pose proof (Nat.div_mod (n + c - 1) c). pose proof (Nat.mod_upper_bound (n + c - 1) c). nia. Qed.

Lemma size_pos sh : Forall (fun n => (0 < n)%nat) sh -> (0 < size sh)%nat.
Proof. induction 1; unfold size in *; simpl; nia. Qed.

Lemma npix_pos (g : grid) : consistent g -> Forall (fun n => (2 <= n)%nat) (g_npix g).
Proof.
  intros C. rewrite Forall_forall. intros n Hn. apply In_nth_error in Hn as [i Hi].
  pose proof (nth_error_Some_lt _ _ _ Hi) as Hlt. rewrite (co_n _ C) in Hlt.
  pose proof (ao_n _ _ _ _ _ _ _ _ (co_axis _ C i Hlt)) as H. rewrite (nth_error_nth _ _ _ Hi) in H. auto.
Qed.

Lemma del_nth_Forall {X} (P : X -> Prop) l i : Forall P l -> Forall P (del_nth l i).
Proof. intros H; revert i; induction H; intros [|i]; simpl; auto. Qed.

Lemma add_from_spec_func_eq {P} (g : grid) d axz ax rows (spec : list Qc -> list P -> list (list A)) (f : list Qc -> P -> list A) args (cum loop careful new : bool) props ps :
  consistent g -> ready g d -> norm_axis g axz = Ok ax -> (2 <= g_ndim g)%nat ->
  rows_ok (g_ndim g - 1) rows -> length args = length rows ->
  (forall axis args, spec axis args = map (f axis) args) ->
  let axis := if cum then nth ax (g_axes g) [] else nth ax (g_centers g) [] in
  let values := map (fun a => if cum then vdiff (f axis a) else f axis a) args in
  Forall (fun v => length v = nth ax (g_npix g) 0%nat) values ->
  check_props g props = Ok ps ->
  add_from_spec_func g (Pos2 (g_ndim g - 1) rows) spec args axz cum loop careful new props
  = add_from_pos_plus_array g (Pos2 (g_ndim g - 1) rows) values axz new props.
Proof.
  intros C R Ha H2 Rk Hl Hs axis values V Hp. pose proof (norm_axis_lt _ _ _ Ha) as Hax.
  pose proof R as [Hd Hf].
  unfold add_from_spec_func. rewrite Hd, Hf, Ha.
  destruct rows as [|r rows'].
  { unfold add_from_pos_plus_array. rewrite Hd, Hf, Ha. reflexivity. }
  set (rows := r :: rows') in *. rewrite Nat.eqb_refl. simpl negb. cbv iota.
  rewrite Hl, Nat.eqb_refl. simpl negb. cbv iota.
  destruct (Nat.leb_spec (g_ndim g) 1); [lia|]. rewrite andb_false_r.
  set (chunk := if careful then size (del_nth (g_npix g) ax) else length rows).
  assert (Hch : (0 < chunk)%nat).
  { unfold chunk. destruct careful; [|simpl; lia]. apply size_pos. eapply Forall_impl; [|apply del_nth_Forall, npix_pos; auto].
    intros a X; simpl in X; lia. }
  assert (Hax' : norm_axis g (Z.of_nat ax) = norm_axis g axz) by (rewrite Ha; apply norm_axis_nat; auto).
  assert (E : forall new, add_from_pos_plus_array g (Pos2 (g_ndim g - 1) rows) values (Z.of_nat ax) new props
     = add_from_pos_plus_array g (Pos2 (g_ndim g - 1) rows) values axz new props).
  { intros n. unfold add_from_pos_plus_array. rewrite Hax'. reflexivity. }
  fold axis. rewrite <- E. destruct new.
  - apply (spec_loop_new spec f) with (d := d); auto; [discriminate|apply ceil_chunks; auto].
  - apply (spec_loop_existing spec f) with (d := d) (ps := ps); auto. apply ceil_chunks; auto.
Qed.

(** * cumulative spectra: C10 *)
Lemma vdiff_length (l : list A) : length (vdiff l) = (length l - 1)%nat.
Proof. induction l as [|a [|b l] IH]; simpl in *; auto. rewrite IH. lia. Qed.

Lemma vdiff_nth (l : list A) k x y : nth_error l k = Some x -> nth_error l (S k) = Some y -> nth_error (vdiff l) k = Some (y - x)%V.
Proof.
  revert k; induction l as [|a [|b l] IH]; intros k; simpl.
  - destruct k; discriminate.
  - intros H1 H2. destruct k; discriminate.
  - destruct k as [|k]; simpl.
    + intros H1 H2; inversion H1; inversion H2; subst; auto.
    + intros H1 H2. apply IH; auto.
Qed.

Lemma vdiff_sum (l : list A) : l <> [] -> vsum (vdiff l) = (last l v0 - hd v0 l)%V.
Proof.
  induction l as [|a [|b l] IH]; intros H; [congruence| |].
  - simpl. unfold vsum; simpl. ring.
  - change (vdiff (a :: b :: l)) with ((b - a)%V :: vdiff (b :: l)). rewrite vsum_cons, IH by discriminate.
    change (last (a :: b :: l) v0) with (last (b :: l) v0). simpl hd. ring.
Qed.

End Spectra.
