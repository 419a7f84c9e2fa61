(** add_from_cat and sample: C03-C07. *)
From Verif Require Import Util Rat Val Arr GridModel GridSpec GridAxis GridNew GridAdd.
Open Scope Qc_scope.

Section Cat.
Context {A : Alg}.
Add Ring A_ring : (v_rt A).
Notation grid := (grid A).

Lemma select_map {X Y} (f : X -> Y) bs l : select bs (map f l) = map f (select bs l).
Proof. revert l; induction bs as [|[] bs IH]; intros [|x l]; simpl; auto. f_equal; auto. Qed.

Lemma column_select k bs (l : list (list A)) : column k (select bs l) = select bs (column k l).
Proof. unfold column. symmetry. apply select_map. Qed.

Lemma ixeq_snoc ix jx k k' : ixeq (ix ++ [k]) (jx ++ [k']) = (ixeq ix jx && (k =? k')%nat)%bool.
Proof.
  apply eq_iff_eq_true. rewrite andb_true_iff, !ixeq_true, Nat.eqb_eq. split.
  - intros H. apply app_inj_tail in H. auto.
  - intros [-> ->]. auto.
Qed.

Lemma inb_snoc sh n ix k : length ix = length sh ->
  inb (sh ++ [n]) (ix ++ [k]) = (inb sh ix && (k <? n)%nat)%bool.
Proof. intros H. rewrite inb_app by auto. simpl. rewrite andb_true_r. reflexivity. Qed.

(** contributions of a catalogue to one property *)
Section Contrib.
Context (ns : list nat) (cs ss ps : list Qc) (es : list (list Qc)).
Context (L : lat ns cs ss ps es).

Definition place (r : list Qc) : list nat := map Z.to_nat (cell_index cs ss ps r).
Definition inside (r : list Qc) : bool := in_range ns (cell_index cs ss ps r).

Definition contrib {X} (rows : list (list Qc)) (vs : list X) : list (list nat * X) :=
  map (fun ov => (place (fst ov), snd ov)) (filter (fun ov => inside (fst ov)) (combine rows vs)).

Lemma contrib_combine {X} rows (vs : list X) :
  combine (map (map Z.to_nat) (select (map (in_range ns) (map (cell_index cs ss ps) rows)) (map (cell_index cs ss ps) rows)))
          (select (map (in_range ns) (map (cell_index cs ss ps) rows)) vs)
  = contrib rows vs.
Proof.
  unfold contrib. revert vs; induction rows as [|r rows IH]; intros [|v vs]; simpl; auto.
  - destruct (in_range ns (cell_index cs ss ps r)); simpl; auto.
    destruct (map _ _); reflexivity.
  - unfold inside at 1. destruct (in_range ns (cell_index cs ss ps r)); simpl; [f_equal|]; apply IH.
Qed.

Lemma place_inb r : length r = length ns -> inside r = true -> inb ns (place r) = true.
Proof.
  intros Hl H. destruct (in_box_cell _ _ _ _ _ r (place r) L Hl) as [_ B].
  eapply in_box_inb; [exact L|]. apply B. auto.
Qed.

Lemma contrib_in {X} rows (vs : list X) iv : rows_ok (length ns) rows -> In iv (contrib rows vs) -> inb ns (fst iv) = true.
Proof.
  intros R H. unfold contrib in H. apply in_map_iff in H as ([r v] & <- & H). apply filter_In in H as [H1 H2].
  simpl in *. apply place_inb; auto. apply in_combine_l in H1. unfold rows_ok in R. rewrite Forall_forall in R. auto.
Qed.

Lemma inside_place_box r jx : length r = length ns -> (inside r && ixeq (place r) jx)%bool = in_box es jx r.
Proof.
  intros Hl. apply eq_iff_eq_true. rewrite andb_true_iff, ixeq_true.
  symmetry. apply (in_box_cell _ _ _ _ _ _ _ L Hl).
Qed.

Lemma contrib_filter {X} rows (vs : list X) jx : rows_ok (length ns) rows ->
  map snd (filter (fun iv => ixeq (fst iv) jx) (contrib rows vs)) =
  map snd (filter (fun ov => in_box es jx (fst ov)) (combine rows vs)).
Proof.
  intros R. unfold contrib. revert vs; induction R as [|r rows Hr R IH]; intros [|v vs]; simpl; auto.
  rewrite <- (inside_place_box r jx Hr). destruct (inside r); simpl; [destruct (ixeq (place r) jx); simpl; f_equal|]; apply IH.
Qed.

Lemma contrib_sum rows (vs : list A) jx k k' : rows_ok (length ns) rows ->
  vsum (map snd (filter (fun iv => ixeq (fst iv) (jx ++ [k'])) (map (fun iv => (fst iv ++ [k], snd iv)) (contrib rows vs)))) =
  if (k =? k')%nat then vsum (map snd (filter (fun ov => in_box es jx (fst ov)) (combine rows vs))) else v0.
Proof.
  intros R.
  assert (E : forall l : list (list nat * A),
     map snd (filter (fun iv => ixeq (fst iv) (jx ++ [k'])) (map (fun iv => (fst iv ++ [k], snd iv)) l))
     = if (k =? k')%nat then map snd (filter (fun iv => ixeq (fst iv) jx) l) else []).
  { induction l as [|[a b] l IH]; simpl.
    - destruct (k =? k')%nat; auto.
    - rewrite ixeq_snoc. destruct (k =? k')%nat; simpl; rewrite ?andb_true_r, ?andb_false_r.
      + destruct (ixeq a jx); simpl; rewrite IH; auto.
      + auto. }
  rewrite E. destruct (k =? k')%nat; [|reflexivity]. rewrite contrib_filter; auto.
Qed.

Lemma contrib_length {X} rows (vs : list X) : length rows = length vs -> rows_ok (length ns) rows ->
  length (select (map (in_range ns) (map (cell_index cs ss ps) rows)) vs) = length (filter (in_extent es) rows).
Proof.
  revert vs; induction rows as [|r rows IH]; intros [|v vs] Hl R; simpl in *; try discriminate; auto.
  inversion R; subst. rewrite (in_range_extent _ _ _ _ _ r L) by auto.
  destruct (in_extent es r); simpl; rewrite IH; auto.
Qed.

End Contrib.

(** normalised value rows of the model *)
Definition vrows_of (vals : valarg (A:=A)) (rows : list (list Qc)) : list (list A) := val_list vals (length rows).
Lemma vrows_length vals rows : length (vrows_of vals rows) = val_rows vals (length rows).
Proof. destruct vals; simpl; rewrite ?map_length, ?repeat_length; auto. Qed.
Lemma vrows_column vals rows k : (val_cols vals = 1 -> k = 0)%nat ->
  column k (vrows_of vals rows) = val_col vals (length rows) k.
Proof.
  intros H. destruct vals; simpl in *; auto.
  - rewrite H by auto. unfold column, vrows_of; simpl. induction rows; simpl; f_equal; auto.
  - rewrite H by auto. unfold column, vrows_of; simpl. rewrite map_map. simpl. apply map_id.
Qed.

Lemma add_from_cat_unfold (g : grid) d ncol r rows vals new props : ready g d ->
  add_from_cat g (Pos2 ncol (r :: rows)) vals new props =
  let rows := r :: rows in
  if negb (ncol =? g_ndim g)%nat then (g, Raise ValueError) else
  let nc := val_cols vals in let vrows := vrows_of vals rows in
  if negb (length vrows =? length rows)%nat then (g, Raise ValueError)
  else
    let zs := map (cell_index (fv (g_center g)) (fv (g_side g)) (fv (g_pix g))) rows in
    let keep := map (in_range (g_npix g)) zs in
    let vk := select keep vrows in
    let ik := map (map Z.to_nat) (select keep zs) in
    if new then
      let new := fold_left (fun a k => add_at a k ik (column k vk)) (seq 0 nc)
                           (full (g_npix g ++ [nc]) v0) in
      match add_new_prop g (Some new) with
      | (g', Ok _) => (with_nobj g' (g_nobj g' + length vk), Ok tt)
      | (g', Raise e) => (g', Raise e)
      end
    else
      match check_props g props with
      | Raise e => (g, Raise e)
      | Ok ps =>
          if negb ((nc =? length ps)%nat || (nc =? 1)%nat) then (g, Raise ValueError)
          else
            let '(d', r) := add_props ik nc vk ps d in
            match r with
            | Ok _ => (with_nobj (with_data g (Some d')) (g_nobj g + length vk), Ok tt)
            | Raise e => (with_data g (Some d'), Raise e)
            end
      end.
Proof.
  intros [Hd Hf]. unfold add_from_cat. rewrite Hd, Hf. destruct vals; try reflexivity.
  assert (E : map (fun _ : list Qc => [v1 : A]) (r :: rows) = vrows_of ValNone (r :: rows)).
  { unfold vrows_of; simpl. f_equal. clear. induction rows; simpl; f_equal; auto. }
  rewrite E. reflexivity.
Qed.

(** which column the code uses for property [ip] *)
Definition used_col (vals : valarg (A:=A)) (ip : nat) : nat := if (val_cols vals =? 1)%nat then 0%nat else ip.

Lemma add_props_ok ixs nc (rows : list (list A)) ps d : (nc = 1 \/ Forall (fun p => p < nc) ps)%nat ->
  add_props ixs nc rows ps d =
  (add_all d (flat_map (fun ip => map (fun iv => (fst iv ++ [ip], snd iv))
        (combine ixs (column (if (nc =? 1)%nat then 0%nat else ip) rows))) ps), Ok tt).
Proof.
  revert d; induction ps as [|ip ps IH]; intros d H; cbn [add_props]; auto.
  assert (H' : (nc = 1 \/ Forall (fun p => p < nc) ps)%nat) by (destruct H as [H|H]; auto; inversion H; auto).
  simpl. destruct (Nat.eqb_spec nc 1) as [E|E].
  - rewrite IH, add_at_all, add_all_app by auto. reflexivity.
  - destruct H as [H|H]; [lia|]. inversion H; subst.
    destruct (Nat.ltb_spec ip nc); [|lia]. rewrite IH, add_at_all, add_all_app by auto. reflexivity.
Qed.

Lemma get_removelast_snoc {X} (ix : list X) k : removelast (ix ++ [k]) = ix.
Proof. rewrite removelast_app by discriminate. simpl. apply app_nil_r. Qed.
Lemma last_snoc {X} (ix : list X) k d : last (ix ++ [k]) d = k.
Proof. apply last_last. Qed.

Lemma filter_flat_map {X Y} (p : Y -> bool) (f : X -> list Y) l :
  filter p (flat_map f l) = flat_map (fun x => filter p (f x)) l.
Proof. induction l as [|a l IH]; simpl; auto. rewrite filter_app, IH. reflexivity. Qed.

Lemma map_flat_map' {X Y Z} (h : Y -> Z) (f : X -> list Y) l :
  map h (flat_map f l) = flat_map (fun x => map h (f x)) l.
Proof. induction l as [|a l IH]; simpl; auto. rewrite map_app, IH. reflexivity. Qed.

Lemma scaled_S n (x : A) : scaled (S n) x = (x + scaled n x)%V.
Proof. unfold scaled. rewrite nq_S, emb_add, emb_1. ring. Qed.
Lemma scaled_0 (x : A) : scaled 0 x = v0.
Proof. unfold scaled. change (nq 0) with 0. rewrite emb_0. ring. Qed.
Lemma scaled_1 (x : A) : scaled 1 x = x.
Proof. rewrite scaled_S, scaled_0. ring. Qed.

Lemma vsum_times (f : nat -> A) ps k :
  vsum (map (fun ip => if (ip =? k)%nat then f ip else v0) ps) = scaled (times k ps) (f k).
Proof.
  induction ps as [|ip ps IH]; simpl.
  - rewrite scaled_0. reflexivity.
  - rewrite vsum_cons, IH. unfold times. simpl. destruct (Nat.eqb_spec ip k) as [->|N].
    + destruct (Nat.eq_dec k k); [|congruence]. rewrite scaled_S. reflexivity.
    + destruct (Nat.eq_dec ip k); [congruence|]. ring.
Qed.

Lemma ndim_npix (g : grid) : consistent g -> length (g_npix g) = g_ndim g.
Proof. apply co_n. Qed.

Lemma ready_data (g : grid) d : consistent g -> ready g d -> awf d /\ shape d = g_npix g ++ [g_nprop g].
Proof. intros C [Hd _]. pose proof (co_data _ C) as D. rewrite Hd in D. exact D. Qed.

Lemma check_props_lt (g : grid) props ps : check_props g props = Ok ps -> Forall (fun p => p < g_nprop g)%nat ps.
Proof.
  unfold check_props. destruct props as [l|].
  - destruct (forallb _ l) eqn:E; simpl; [|discriminate]. intros H; inversion H; subst.
    rewrite Forall_forall. intros p Hp. apply in_map_iff in Hp as (z & <- & Hz).
    rewrite forallb_forall in E. specialize (E z Hz). lia.
  - intros H; inversion H. rewrite Forall_forall. intros p Hp. apply in_seq in Hp. lia.
Qed.

(** * add_from_cat onto existing properties *)
Lemma add_from_cat_existing (g : grid) d rows vals props ps :
  consistent g -> ready g d -> rows_ok (g_ndim g) rows ->
  val_rows vals (length rows) = length rows ->
  check_props g props = Ok ps ->
  (val_cols vals = 1 \/ val_cols vals = length ps /\ Forall (fun p => p < val_cols vals) ps)%nat ->
  exists d',
    add_from_cat g (Pos2 (g_ndim g) rows) vals false props
      = (with_nobj (with_data g (Some d')) (g_nobj g + inside_count g rows), Ok tt) /\
    awf d' /\ shape d' = shape d /\
    forall ix k, inb (g_npix g) ix = true -> (k < g_nprop g)%nat ->
      getd v0 d' (ix ++ [k]) =
      (getd v0 d (ix ++ [k]) + scaled (times k ps) (cell_total g ix rows (val_col vals (length rows) (used_col vals k))))%V.
Proof.
  intros C R Rk Hv Hp Hc. destruct (ready_data g d C R) as [W S].
  pose proof (consistent_lat g C) as L.
  destruct rows as [|r rows'].
  { exists d. destruct R as [Hd Hf]. split; [|split; [auto|split; [auto|]]].
    - unfold add_from_cat. rewrite Hd, Hf. unfold inside_count; simpl. rewrite Nat.add_0_r.
      destruct g; simpl in *; subst; reflexivity.
    - intros ix k _ _. unfold cell_total; simpl. unfold scaled.
      change (vsum []) with (v0 : A). ring. }
  set (rows := r :: rows') in *.
  rewrite (add_from_cat_unfold g d _ r rows' vals false props R). fold rows. cbv zeta.
  rewrite Nat.eqb_refl. simpl negb. cbv iota.
  rewrite vrows_length, Hv, Nat.eqb_refl. simpl negb. cbv iota. rewrite Hp.
  replace ((val_cols vals =? length ps)%nat || (val_cols vals =? 1)%nat)%bool with true
    by (destruct Hc as [Hc|[Hc _]]; rewrite Hc, Nat.eqb_refl, ?orb_true_r; reflexivity).
  simpl negb. cbv iota.
  rewrite add_props_ok by (destruct Hc as [Hc|[_ Hc]]; auto). cbv iota beta.
  rewrite (contrib_length _ _ _ _ _ L) by (rewrite ?vrows_length, ?Hv, ?(co_n _ C); auto).
  fold (inside_count g rows).
  set (ct := flat_map _ ps). exists (add_all d ct). split; [reflexivity|].
  split; [apply add_all_wf; auto|]. split; [apply add_all_shape|].
  assert (Ect : ct = flat_map (fun ip => map (fun iv => (fst iv ++ [ip], snd iv))
       (contrib (g_npix g) (fv (g_center g)) (fv (g_side g)) (fv (g_pix g)) rows (val_col vals (length rows) (used_col vals ip)))) ps).
  { unfold ct. apply flat_map_ext. intros ip. f_equal.
    rewrite column_select, contrib_combine.
    fold (used_col vals ip). rewrite <- vrows_column; [reflexivity|].
    intros E. unfold used_col. rewrite E. reflexivity. }
  intros ix k Hix Hk.
  assert (Hl : length ix = length (g_npix g)) by (apply inb_length; auto).
  rewrite getd_add_all; auto.
  - f_equal. rewrite Ect, filter_flat_map, vsum_map_flat_map.
    rewrite <- (vsum_times (fun ip => cell_total g ix rows (val_col vals (length rows) (used_col vals ip)))).
    apply vsum_ext. intros ip _. rewrite (contrib_sum _ _ _ _ _ L).
    + destruct (Nat.eqb_spec ip k); reflexivity.
    + rewrite (co_n _ C). auto.
  - intros iv Hiv. rewrite Ect in Hiv. apply in_flat_map in Hiv as (ip & Hip & Hiv).
    apply in_map_iff in Hiv as (iv' & <- & Hiv). simpl. rewrite S.
    apply (contrib_in _ _ _ _ _ L) in Hiv; [|rewrite (co_n _ C); auto].
    rewrite inb_snoc by (apply inb_length; auto). rewrite Hiv. simpl.
    apply check_props_lt in Hp. rewrite Forall_forall in Hp. apply Nat.ltb_lt; auto.
  - rewrite S, inb_snoc by auto. rewrite Hix. simpl. apply Nat.ltb_lt; auto.
Qed.

(** * new properties *)
Lemma concat_last_get npix ka kb (a b : arr A) ix k :
  inb npix ix = true -> (k < ka + kb)%nat ->
  getd v0 (concat_last npix ka kb a b) (ix ++ [k]) =
  if (k <? ka)%nat then getd v0 a (ix ++ [k]) else getd v0 b (ix ++ [(k - ka)%nat]).
Proof.
  intros Hi Hk. unfold concat_last. rewrite getd_tab.
  - rewrite last_snoc, get_removelast_snoc. reflexivity.
  - rewrite inb_snoc by (apply inb_length; auto). rewrite Hi. simpl. apply Nat.ltb_lt; auto.
Qed.

Lemma add_new_prop_ok (g : grid) d (a : arr A) m :
  consistent g -> g_data g = Some d -> awf a -> shape a = g_npix g ++ [m] ->
  exists d', add_new_prop g (Some a) = (with_nprop (with_data g (Some d')) (g_nprop g + m), Ok tt) /\
    awf d' /\ shape d' = g_npix g ++ [g_nprop g + m]%nat /\
    forall ix k, inb (g_npix g) ix = true -> (k < g_nprop g + m)%nat ->
      getd v0 d' (ix ++ [k]) = if (k <? g_nprop g)%nat then getd v0 d (ix ++ [k]) else getd v0 a (ix ++ [(k - g_nprop g)%nat]).
Proof.
  intros C Hd Wa Sa. pose proof (co_data _ C) as D. rewrite Hd in D. destruct D as [W S].
  unfold add_new_prop. rewrite Hd, S, Sa, !app_length, Nat.eqb_refl, get_removelast_snoc, !last_snoc. simpl.
  destruct (list_eq_dec Nat.eq_dec (g_npix g) (g_npix g)); [|congruence].
  rewrite Sa, last_snoc.
  eexists. split; [reflexivity|]. split; [apply tab_wf|]. split; [reflexivity|].
  intros ix k Hi Hk. apply concat_last_get; auto.
Qed.

Lemma getd_full sh (x : A) ix : inb sh ix = true -> getd v0 (full sh x) ix = x.
Proof. intros H. unfold full. rewrite getd_tab; auto. Qed.

Lemma add_from_cat_new (g : grid) d rows vals props :
  consistent g -> ready g d -> rows_ok (g_ndim g) rows -> rows <> [] ->
  val_rows vals (length rows) = length rows ->
  exists d',
    add_from_cat g (Pos2 (g_ndim g) rows) vals true props
      = (with_nobj (with_nprop (with_data g (Some d')) (g_nprop g + val_cols vals)) (g_nobj g + inside_count g rows), Ok tt) /\
    awf d' /\ shape d' = g_npix g ++ [g_nprop g + val_cols vals]%nat /\
    forall ix k, inb (g_npix g) ix = true -> (k < g_nprop g + val_cols vals)%nat ->
      getd v0 d' (ix ++ [k]) =
      if (k <? g_nprop g)%nat then getd v0 d (ix ++ [k])
      else cell_total g ix rows (val_col vals (length rows) (k - g_nprop g)).
Proof.
  intros C R Rk Hne Hv. destruct (ready_data g d C R) as [W S].
  pose proof (consistent_lat g C) as L.
  destruct rows as [|r rows']; [congruence|]. set (rows := r :: rows') in *.
  rewrite (add_from_cat_unfold g d _ r rows' vals true props R). fold rows. cbv zeta.
  rewrite Nat.eqb_refl. simpl negb. cbv iota.
  rewrite vrows_length, Hv, Nat.eqb_refl. simpl negb. cbv iota.
  rewrite (contrib_length _ _ _ _ _ L) by (rewrite ?vrows_length, ?Hv, ?(co_n _ C); auto).
  fold (inside_count g rows).
  set (new := fold_left _ _ _).
  set (ct := flat_map (fun ip => map (fun iv => (fst iv ++ [ip], snd iv))
       (contrib (g_npix g) (fv (g_center g)) (fv (g_side g)) (fv (g_pix g)) rows (val_col vals (length rows) ip))) (seq 0 (val_cols vals))).
  assert (En : new = add_all (full (g_npix g ++ [val_cols vals]) v0) ct).
  { unfold new, ct. rewrite <- add_all_fold. apply fold_left_ext_in. intros x k Hk. rewrite add_at_all. f_equal. f_equal.
    rewrite column_select, contrib_combine.
    rewrite vrows_column; [reflexivity|]. intros E. apply in_seq in Hk. lia. }
  destruct (add_new_prop_ok g d new (val_cols vals) C (proj1 R)) as (d' & Ea & Wd' & Sd' & Gd').
  { rewrite En. apply add_all_wf, tab_wf. }
  { rewrite En, add_all_shape. reflexivity. }
  rewrite Ea. exists d'. split; [|split; [auto|split; [auto|]]].
  { destruct g; reflexivity. }
  intros ix k Hix Hk. rewrite Gd' by auto. destruct (Nat.ltb_spec k (g_nprop g)); auto.
  assert (Hl : length ix = length (g_npix g)) by (apply inb_length; auto).
  set (k' := (k - g_nprop g)%nat).
  assert (Hin : inb (g_npix g ++ [val_cols vals]) (ix ++ [k']) = true).
  { rewrite inb_snoc by auto. rewrite Hix. simpl. apply Nat.ltb_lt; lia. }
  rewrite En, getd_add_all.
  - rewrite getd_full by auto. rewrite vadd_0_l. unfold ct. rewrite filter_flat_map, vsum_map_flat_map.
    rewrite (vsum_single _ _ k').
    + rewrite (contrib_sum _ _ _ _ _ L), Nat.eqb_refl by (rewrite (co_n _ C); auto). reflexivity.
    + apply seq_NoDup.
    + apply in_seq. lia.
    + intros ip _ Hne'. rewrite (contrib_sum _ _ _ _ _ L) by (rewrite (co_n _ C); auto).
      destruct (Nat.eqb_spec ip k'); congruence.
  - apply tab_wf.
  - intros iv Hiv. unfold ct in Hiv. apply in_flat_map in Hiv as (ip & Hip & Hiv).
    apply in_map_iff in Hiv as (iv' & <- & Hiv). simpl.
    apply (contrib_in _ _ _ _ _ L) in Hiv; [|rewrite (co_n _ C); auto].
    rewrite inb_snoc by (apply inb_length; auto). rewrite Hiv. simpl.
    apply Nat.ltb_lt. apply in_seq in Hip. lia.
  - exact Hin.
Qed.

(** * every in-range object is in exactly one cell; totals *)
Lemma cell_total_sum (g : grid) rows (vs : list A) : consistent g -> rows_ok (g_ndim g) rows ->
  vsum (map (fun ix => cell_total g ix rows vs) (idxs (g_npix g))) = inside_total g rows vs.
Proof.
  intros C Rk. pose proof (consistent_lat g C) as L. unfold cell_total, inside_total.
  rewrite (vsum_ext _ (fun ix => vsum (map (fun ov => if in_cell g ix (fst ov) then snd ov else v0) (combine rows vs))))
    by (intros; apply vsum_filter).
  rewrite vsum_exchange, vsum_filter. apply vsum_ext. intros [r v] Hin. simpl.
  assert (Hr : length r = length (g_npix g)).
  { apply in_combine_l in Hin. unfold rows_ok in Rk. rewrite Forall_forall in Rk. rewrite (co_n _ C). auto. }
  destruct (in_extent (g_axes g) r) eqn:E.
  - apply (in_extent_box _ _ _ _ _ _ L Hr) in E as [ix Hb].
    rewrite (vsum_single _ _ ix).
    + unfold in_cell. rewrite Hb. reflexivity.
    + apply nodup_idxs.
    + apply in_idxs. eapply in_box_inb; eauto.
    + intros jx _ Hne. destruct (in_cell g jx r) eqn:Ej; auto. exfalso. apply Hne.
      eapply in_box_unique; eauto.
  - apply vsum_map_0. intros ix _. destruct (in_cell g ix r) eqn:Ej; auto.
    assert (X : in_extent (g_axes g) r = true) by (apply (in_extent_box _ _ _ _ _ _ L Hr); eauto). congruence.
Qed.

Lemma vsum_scaled {X} n (f : X -> A) l : vsum (map (fun x => scaled n (f x)) l) = scaled n (vsum (map f l)).
Proof. unfold scaled. apply vsum_mul_l. Qed.

Lemma add_from_cat_total (g : grid) d d' rows vals (ps : list nat) k n :
  consistent g -> rows_ok (g_ndim g) rows ->
  (forall ix, inb (g_npix g) ix = true ->
      getd v0 d' (ix ++ [k]) = (getd v0 d (ix ++ [k]) + scaled n (cell_total g ix rows vals))%V) ->
  prop_total (g_npix g) d' k = (prop_total (g_npix g) d k + scaled n (inside_total g rows vals))%V.
Proof.
  intros C Rk H. unfold prop_total.
  rewrite (vsum_ext _ (fun ix => (getd v0 d (ix ++ [k]) + scaled n (cell_total g ix rows vals))%V))
    by (intros ix Hi; apply H, in_idxs; auto).
  rewrite vsum_map_add, vsum_scaled, cell_total_sum; auto.
Qed.

(** * sample *)
Lemma grid_sample_ok (g : grid) d rows props ps :
  consistent g -> g_data g = Some d -> rows_ok (g_ndim g) rows -> check_props g props = Ok ps ->
  exists out, grid_sample g (g_ndim g) rows props = Ok out /\ length out = length rows /\
    forall i r, nth_error rows i = Some r ->
      exists o, nth_error out i = Some o /\ length o = length ps /\
        forall j p, nth_error ps j = Some p ->
          (in_extent (g_axes g) r = false -> nth_error o j = Some None) /\
          (forall ix, in_cell g ix r = true -> nth_error o j = Some (get d (ix ++ [p]))).
Proof.
  intros C Hd Rk Hp. pose proof (consistent_lat g C) as L.
  unfold grid_sample. rewrite Hd, Hp. cbn [bind]. rewrite Nat.eqb_refl, orb_true_r. cbn [bind check].
  eexists. split; [reflexivity|]. split; [apply map_length|].
  intros i r Hr. rewrite nth_error_map_some, Hr. eexists. split; [reflexivity|]. cbv zeta.
  split; [apply map_length|]. intros j p Hj. rewrite nth_error_map_some, Hj. cbn [option_map].
  assert (Hl : length r = length (g_npix g)).
  { rewrite (co_n _ C). unfold rows_ok in Rk. eapply Forall_nth_error in Rk; eauto. }
  split.
  - intros E. rewrite (in_range_extent _ _ _ _ _ r L Hl), E. reflexivity.
  - intros ix Hb. apply (in_box_cell _ _ _ _ _ _ _ L Hl) in Hb as [H1 H2]. rewrite H1, H2. reflexivity.
Qed.

End Cat.
