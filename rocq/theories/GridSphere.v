(** Spherical averages (C20). *)
From Verif Require Import Util Rat Val Arr GridModel GridModel2 GridSpec GridSpec2 GridAxis GridNew GridAdd GridCat GridEx GridPad GridOps GridFourier GridFT GridPower GridCollapse.
Open Scope Qc_scope.

(** what [reaches] means *)
Lemma reaches_ok s r : 0 <= r -> reaches s (r * r) = true <-> s <= r.
Proof.
  intros Hr. unfold reaches. rewrite orb_true_iff, qltb_lt, qleb_le. split.
  - intros [H|H]; [qlra|]. destruct (Qclt_le_dec r s); auto. exfalso. assert (r * r < s * s) by qnra. qlra.
  - intros H. destruct (qltb_spec s 0) as [H0|H0]; auto. right. apply Qcnot_lt_le in H0. qnra.
Qed.

Lemma reaches_mono s t r2 : s <= t -> reaches t r2 = true -> reaches s r2 = true.
Proof.
  unfold reaches. rewrite !orb_true_iff, !qltb_lt, !qleb_le. intros L [H|H]; [left; qlra|].
  destruct (qltb_spec s 0) as [H0|H0]; auto. right. apply Qcnot_lt_le in H0. qnra.
Qed.
Lemma increasing_tl a l : increasing (a :: l) = true -> increasing l = true.
Proof. destruct l; simpl; auto. intros H. apply andb_true_iff in H. tauto. Qed.
Lemma increasing_hd a l : increasing (a :: l) = true -> forall x, In x l -> a < x.
Proof.
  revert a. induction l as [|b l IH]; intros a H x Hx; [inversion Hx|]. simpl in H. apply andb_true_iff in H as [H1 H2]. apply qltb_lt in H1.
  destruct Hx as [<-|Hx]; auto. assert (b < x) by (apply IH; auto). qlra.
Qed.
(** shells below a radius are exactly an initial segment *)
Lemma reaches_count l r2 : increasing l = true -> forall j, (j < length l)%nat ->
  reaches (nth j l 0) r2 = (j <? length (filter (fun s => reaches s r2) l))%nat.
Proof.
  induction l as [|a l IH]; intros I j Hj; simpl in Hj; [lia|]. specialize (IH (increasing_tl _ _ I)). cbn [filter].
  destruct (reaches a r2) eqn:Ea.
  - cbn [length]. destruct j; auto. cbn [nth]. rewrite IH by lia. reflexivity.
  - assert (N : forall x, In x l -> reaches x r2 = false).
    { intros x Hx. destruct (reaches x r2) eqn:Ex; auto. pose proof (increasing_hd _ _ I x Hx).
      rewrite (reaches_mono a x r2) in Ea; auto. apply Qclt_le_weak; auto. }
    rewrite (filter_none _ l) by auto. cbn [length]. destruct j; cbn [nth]; auto. apply N. apply nth_In. lia.
Qed.
Lemma digitize_shell l r2 i : increasing l = true -> (S i < length l)%nat ->
  in_shell l i r2 = (digitize l r2 =? Z.of_nat i)%Z.
Proof.
  intros I Hi. unfold in_shell. rewrite !reaches_count by (auto; lia). unfold digitize.
  change (fun s => (qltb s 0 || qleb (s * s) r2)%bool) with (fun s => reaches s r2). lia.
Qed.

Lemma filter_map_comm {X Y} (f : X -> Y) (P : Y -> bool) l : filter P (map f l) = map f (filter (fun x => P (f x)) l).
Proof. induction l as [|x l IH]; simpl; auto. destruct (P (f x)); simpl; rewrite IH; auto. Qed.
Lemma filter_eq_seq k p s : (s <= k < s + p)%nat -> filter (fun k' => (k' =? k)%nat) (seq s p) = [k].
Proof.
  revert s. induction p as [|p IH]; intros s H; [lia|]. cbn [seq filter]. destruct (Nat.eqb_spec s k) as [->|N].
  - rewrite filter_none; auto. intros x Hx. apply in_seq in Hx. apply Nat.eqb_neq. lia.
  - apply IH. lia.
Qed.
Lemma idxs_one p : idxs [p] = map (fun k => [k]) (seq 0 p).
Proof. cbn [idxs]. induction (seq 0 p) as [|x l IH]; [reflexivity|]. exact (f_equal (cons [x]) IH). Qed.
Lemma filter_snoc s p k (P Q : list nat -> bool) : (k < p)%nat ->
  (forall ix k', inb s ix = true -> P (ix ++ [k']) = (Q ix && (k' =? k)%nat)%bool) ->
  filter P (idxs (s ++ [p])) = map (fun ix => ix ++ [k]) (filter Q (idxs s)).
Proof.
  intros Hk H. rewrite idxs_app.
  assert (G : forall l, (forall ix, In ix l -> inb s ix = true) ->
    filter P (flat_map (fun i => map (app i) (idxs [p])) l) = map (fun ix => ix ++ [k]) (filter Q l)).
  { induction l as [|ix l IH]; intros Hl; [reflexivity|]. cbn [flat_map filter]. rewrite filter_app, IH by (intros; apply Hl; right; auto).
    rewrite idxs_one, map_map, filter_map_comm.
    assert (E : forall x, In x (seq 0 p) -> P (ix ++ [x]) = (Q ix && (x =? k)%nat)%bool) by (intros x _; apply H, Hl; left; auto).
    rewrite (filter_ext_in _ (fun x => (Q ix && (x =? k)%nat)%bool)) by auto.
    destruct (Q ix) eqn:EQ; cbn [andb].
    - rewrite filter_eq_seq by lia. cbn [map app]. reflexivity.
    - rewrite filter_none by auto. reflexivity. }
  apply G. intros ix. apply in_idxs.
Qed.

Definition integral (q : Qc) : Prop := exists z, q = zq z.
Lemma qtrunc_zq z : qtrunc (zq z) = z.
Proof. unfold qtrunc. destruct (qleb 0 (zq z)); [apply qfloor_zq|apply qceil_zq]. Qed.
Lemma trunc_fold {X} (f : X -> Qc) l z : (forall x, In x l -> integral (f x)) ->
  fold_left (fun acc x => zq (qtrunc (acc + f x))) l (zq z) = zq z + qsum (map f l).
Proof.
  revert z. induction l as [|x l IH]; intros z H; cbn [fold_left map].
  - unfold qsum. simpl. ring.
  - destruct (H x (or_introl eq_refl)) as [y Ey]. rewrite Ey, <- zq_add, qtrunc_zq, IH by (intros; apply H; right; auto).
    rewrite zq_add. unfold qsum. simpl. ring.
Qed.
Lemma trunc_fold_small {X} (f : X -> Qc) l : (forall x, In x l -> 0 <= f x /\ f x < 1) ->
  fold_left (fun acc x => zq (qtrunc (acc + f x))) l 0 = 0.
Proof.
  induction l as [|x l IH]; intros H; cbn [fold_left]; auto.
  destruct (H x (or_introl eq_refl)) as [H0 H1]. replace (zq (qtrunc (0 + f x))) with 0; [apply IH; intros; apply H; right; auto|].
  replace (0 + f x) with (f x) by ring. unfold qtrunc. rewrite (proj2 (qleb_le 0 (f x)) H0).
  replace (qfloor (f x)) with 0%Z; [reflexivity|]. symmetry. apply qfloor_spec. replace (zq 0) with 0 by reflexivity. split; [exact H0|]. replace (0 + 1) with 1 by ring. exact H1.
Qed.

Lemma in_combine_same {X} (l : list X) x y : In (x, y) (combine l l) -> x = y.
Proof. induction l as [|z l IH]; simpl; [tauto|]. intros [H|H]; [congruence|auto]. Qed.

Section Sphere.
Context {A : Alg}.
Notation grid := (grid A).

(** all the axes named are in the same space *)
Definition one_space (g : grid) (axn : list nat) : Prop :=
  (forall i, In i axn -> nth i (g_fsp g) false = true) \/ (forall i, In i axn -> nth i (g_fsp g) false = false).

Lemma sweights_ok (g : grid) d w : consistent g -> g_data g = Some d -> shell_weight_ok g w -> exists cw,
  cook_sweights d w = Ok cw /\
  forall ix k, inb (g_npix g) ix = true -> (k < g_nprop g)%nat -> getd 0 cw (bidx (shape cw) (ix ++ [k])) = shell_weight w ix k.
Proof.
  intros C E K. destruct (data_ok g d C E) as [_ Sd]. unfold cook_sweights. destruct w as [w|].
  - destruct K as [W [K|K]].
    + rewrite Sd, K, app_length. cbn [length]. destruct (Nat.ltb_spec (length (g_npix g) + 1) (length (g_npix g))); [lia|].
      replace (length (g_npix g) + 1 - length (g_npix g))%nat with 1%nat by lia. cbn [repeat shape dat].
      assert (Q : forallb (fun p => ((fst p =? snd p) || (fst p =? 1))%nat) (combine (g_npix g ++ [1%nat]) (g_npix g ++ [g_nprop g])) = true).
      { rewrite combine_snoc by auto. rewrite forallb_app. cbn [forallb fst snd]. rewrite Nat.eqb_refl. rewrite orb_true_r. cbn [andb]. rewrite andb_true_r.
        apply forallb_forall. intros [x y] Hp. cbn [fst snd]. apply in_combine_same in Hp. subst. rewrite Nat.eqb_refl. reflexivity. }
      rewrite Q. eexists. split; [reflexivity|]. cbn [shape]. intros ix k Hi Hk. rewrite bidx_snoc by auto. unfold prop_ix. cbn [Nat.eqb].
      rewrite getd_snoc1 by (apply inb_length; auto). unfold shell_weight. rewrite K, (inb_length _ _ Hi), Nat.eqb_refl. rewrite <- K. destruct w; reflexivity.
    + rewrite Sd, K. rewrite Nat.ltb_irrefl, Nat.sub_diag. cbn [repeat]. rewrite app_nil_r. cbn [shape].
      assert (Q : forallb (fun p => ((fst p =? snd p) || (fst p =? 1))%nat) (combine (g_npix g ++ [g_nprop g]) (g_npix g ++ [g_nprop g])) = true).
      { apply forallb_forall. intros [x y] Hp. cbn [fst snd]. apply in_combine_same in Hp. subst. rewrite Nat.eqb_refl. reflexivity. }
      rewrite Q. eexists. split; [reflexivity|]. cbn [shape]. intros ix k Hi Hk.
      rewrite bidx_same by (rewrite inb_snoc by (apply inb_length; auto); rewrite Hi; apply Nat.ltb_lt; auto).
      unfold shell_weight. rewrite K, app_length, (inb_length _ _ Hi). cbn [length]. destruct (Nat.eqb_spec (length (g_npix g) + 1) (length (g_npix g))); [lia|].
      rewrite <- K. destruct w; reflexivity.
  - eexists. split; [reflexivity|]. intros ix k Hi Hk. unfold shell_weight. cbn [full tab shape]. unfold full.
    rewrite bidx_bi by (rewrite repeat_length, Sd, !app_length, (inb_length _ _ Hi); auto).
    rewrite bi_ones by (rewrite Sd, !app_length, (inb_length _ _ Hi); auto). rewrite getd_tab; auto. apply inb_ones.
Qed.

Lemma c20_main (g : grid) d ax axn cen shells w :
  consistent g -> g_data g = Some d -> axes_named g ax axn -> (forall a, In a axn -> (a < g_ndim g)%nat) -> one_space g axn ->
  (forall c, cen = Some c -> length c = g_ndim g) -> shell_weight_ok g w -> increasing shells = true -> shells <> [] ->
  exists res, spherical_average g ax cen shells w = Ok (shells, res) /\
    shape res = [length shells - 1]%nat ++ map (fun i => nth i (g_npix g) 0%nat) (other_axes g axn) ++ [g_nprop g] /\
    forall i jx k, (S i < length shells)%nat -> inb (map (fun i => nth i (g_npix g) 0%nat) (other_axes g axn)) jx = true -> (k < g_nprop g)%nat ->
      let cells := shell_cells g axn cen shells i jx in
      ((S (S i) < length shells)%nat -> (forall ix, In ix cells -> integral (shell_weight w ix k)) ->
         let W := qsum (map (fun ix => shell_weight w ix k) cells) in
         getd None res (i :: jx ++ [k]) = if qeqb W 0 then None
           else Some (vsum (map (fun ix => (cell g ix k * emb (shell_weight w ix k))%V) cells) * emb (/ W))%V) /\
      (S (S i) = length shells -> getd None res (i :: jx ++ [k]) = None) /\
      ((forall ix, In ix cells -> 0 <= shell_weight w ix k /\ shell_weight w ix k < 1) -> getd None res (i :: jx ++ [k]) = None).
Proof.
  intros C E Ax Ha Sp Hc K I Ne. destruct (data_ok g d C E) as [_ Sd]. destruct (sweights_ok g d w C E K) as (cw & Ec & Wv).
  unfold spherical_average. rewrite E. rewrite (axes_arg_ok (fun _ => v0) g ax axn Ax) by auto. cbn [bind].
  set (fs := map (fun i => nth i (g_fsp g) false) axn).
  assert (Cf : check (forallb (fun b => b) fs || forallb negb fs) ValueError = Ok tt).
  { destruct Sp as [S1|S1].
    - replace (forallb (fun b => b) fs) with true; auto. symmetry. apply forallb_forall. intros b Hb. apply in_map_iff in Hb as (i & <- & Hi). auto.
    - replace (forallb negb fs) with true; [rewrite orb_true_r; auto|]. symmetry. apply forallb_forall. intros b Hb. apply in_map_iff in Hb as (i & <- & Hi). rewrite S1; auto. }
  rewrite Cf. cbn [bind]. set (fo := forallb (fun b => b) fs).
  assert (Fo : forall i, In i axn -> nth i (g_fsp g) false = fo).
  { intros i Hi. unfold fo. destruct Sp as [S1|S1]; rewrite S1 by auto; symmetry.
    - apply forallb_forall. intros b Hb. apply in_map_iff in Hb as (j & <- & Hj). auto.
    - apply not_true_is_false. intros X. rewrite forallb_forall in X. specialize (X (nth i (g_fsp g) false)). rewrite S1 in X by auto.
      discriminate X. apply in_map_iff. exists i. split; auto. }
  set (cv := match cen with None => if fo then repeat 0 (g_ndim g) else fv (g_center g) | Some c => c end).
  assert (Cc : match cen with None => Ok (if fo then repeat 0 (g_ndim g) else fv (g_center g))
                | Some c => do _ <- check (length c =? g_ndim g)%nat ValueError ;; Ok c end = Ok cv).
  { unfold cv. destruct cen as [c|]; auto. rewrite (Hc c eq_refl), Nat.eqb_refl. reflexivity. }
  rewrite Cc. cbn [bind]. rewrite Ec. cbn [bind]. rewrite I. cbn [check bind]. assert (L1 : (1 <=? length shells)%nat = true) by (destruct shells; [tauto|reflexivity]).
  rewrite L1. cbn [check bind]. eexists. split; [reflexivity|]. fold (other_axes g axn). change (keep_axes g axn) with (other_axes g axn).
  split; [reflexivity|]. intros i jx k Hi Hj Hk. set (cells := shell_cells g axn cen shells i jx).
  set (r2 := rad2 (if fo then g_fcenters g else g_centers g) cv axn).
  assert (R2 : forall ix k', inb (g_npix g) ix = true -> r2 (ix ++ [k']) = radius2 g axn cen ix).
  { intros ix k' Hix. unfold r2, rad2, radius2. f_equal. apply map_ext_in. intros a Hia. rewrite (Fo a Hia).
    rewrite app_nth1 by (rewrite (inb_length _ _ Hix), (co_n _ C); auto).
    replace (nth a cv 0) with (shell_center g cen a); [destruct fo; reflexivity|]. unfold shell_center, cv. destruct cen; auto.
    rewrite (Fo a Hia). destruct fo; auto. symmetry. apply nth_repeat. }
  set (coord := fun ix => Z.to_nat (digitize shells (r2 ix)) :: map (fun a => nth a ix 0%nat) (other_axes g axn) ++ [last ix 0%nat]).
  set (good := filter (fun ix => ((-1 <? digitize shells (r2 ix)) && (digitize shells (r2 ix) <? Z.of_nat (length shells) - 2))%Z%bool) (idxs (shape d))).
  rewrite getd_tab.
  2:{ cbn [app inb]. rewrite (proj2 (Nat.ltb_lt i (length shells - 1))) by lia. cbn [andb]. rewrite inb_snoc by (apply inb_length; auto). rewrite Hj. apply Nat.ltb_lt; auto. }
  assert (Cells : (S (S i) < length shells)%nat ->
     filter (fun ix => if list_eq_dec Nat.eq_dec (coord ix) (i :: jx ++ [k]) then true else false) good = map (fun ix => ix ++ [k]) cells).
  { intros Hl. unfold good. rewrite filter_filter, Sd. unfold cells, shell_cells. apply filter_snoc; auto.
    intros ix k' Hix. rewrite R2 by auto. unfold coord. rewrite R2, last_last by auto.
    rewrite (map_ext_in (fun a => nth a (ix ++ [k']) 0%nat) (fun a => nth a ix 0%nat)).
    2:{ intros a Hia. unfold other_axes in Hia. apply filter_In in Hia as [Hia _]. apply in_seq in Hia. apply app_nth1. rewrite (inb_length _ _ Hix), (co_n _ C). lia. }
    rewrite digitize_shell by (auto; lia).
    destruct (list_eq_dec Nat.eq_dec (Z.to_nat _ :: _) _) as [Q|Q].
    - injection Q as Q1 Q2. apply app_inj_tail in Q2 as [Q2 Q3]. subst k'. rewrite Nat.eqb_refl. destruct (list_eq_dec _ _ _); [|tauto]. lia.
    - destruct (Z.eqb_spec (digitize shells (radius2 g axn cen ix)) (Z.of_nat i)) as [Qd|Qd]; [|rewrite andb_false_r; auto].
      destruct (list_eq_dec _ _ _) as [Qe|Qe]; [|rewrite andb_false_r; auto]. destruct (Nat.eqb_spec k' k) as [Qk|Qk]; [|rewrite !andb_false_r; auto].
      exfalso. apply Q. rewrite Qd, Qe, Qk, Nat2Z.id. reflexivity. }
  assert (Last : S (S i) = length shells -> filter (fun ix => if list_eq_dec Nat.eq_dec (coord ix) (i :: jx ++ [k]) then true else false) good = []).
  { intros Hl. unfold good. rewrite filter_filter. apply filter_none. intros ix _. destruct (list_eq_dec _ _ _) as [Q|Q]; [|apply andb_false_r].
    unfold coord in Q. injection Q as Q1 _. rewrite andb_true_r. lia. }
  assert (Wc : forall ix, In ix cells -> getd 0 cw (bidx (shape cw) (ix ++ [k])) = shell_weight w ix k).
  { intros ix Hix. unfold cells, shell_cells in Hix. apply filter_In in Hix as [Hix _]. apply in_idxs in Hix. apply Wv; auto. }
  unfold coord in Cells, Last. clear coord. cbv beta in Cells, Last.
  split; [|split].
  - intros Hl Hw. set (W := qsum (map (fun ix => shell_weight w ix k) cells)). rewrite (Cells Hl).
    assert (F : fold_left (fun acc ix => zq (qtrunc (acc + getd 0 cw (bidx (shape cw) ix)))) (map (fun ix => ix ++ [k]) cells) 0 = W).
    { rewrite (trunc_fold (fun ix => getd 0 cw (bidx (shape cw) ix)) _ 0%Z).
      - change (zq 0) with 0. rewrite map_map. unfold W. rewrite (map_ext_in _ (fun ix => shell_weight w ix k)) by auto. ring.
      - intros x Hx. apply in_map_iff in Hx as (ix & <- & Hix). rewrite Wc by auto. auto. }
    rewrite F. destruct (qeqb W 0); auto. do 2 f_equal. rewrite map_map. f_equal. apply map_ext_in. intros ix Hix. rewrite Wc by auto. unfold cell. rewrite E. reflexivity.
  - intros Hl. rewrite (Last Hl). reflexivity.
  - intros Hw. destruct (Nat.eq_dec (S (S i)) (length shells)) as [Hl|Hl]; [rewrite (Last Hl); reflexivity|].
    rewrite Cells by lia. rewrite (trunc_fold_small (fun ix => getd 0 cw (bidx (shape cw) ix))); [reflexivity|]. intros x Hx. apply in_map_iff in Hx as (ix & <- & Hix). rewrite Wc by auto. auto.
Qed.

Lemma c20_shells (g : grid) d ax axn cen shells w :
  consistent g -> g_data g = Some d -> axes_named g ax axn -> (forall a, In a axn -> (a < g_ndim g)%nat) -> one_space g axn ->
  (forall c, cen = Some c -> length c = g_ndim g) -> shell_weight_ok g w -> increasing shells = true -> shells <> [] ->
  exists res, spherical_average g ax cen shells w = Ok (shells, res) /\
    shape res = [length shells - 1]%nat ++ map (fun i => nth i (g_npix g) 0%nat) (other_axes g axn) ++ [g_nprop g] /\
    forall i jx k, (S (S i) < length shells)%nat -> inb (map (fun i => nth i (g_npix g) 0%nat) (other_axes g axn)) jx = true -> (k < g_nprop g)%nat ->
      let cells := shell_cells g axn cen shells i jx in
      (forall ix, In ix cells -> integral (shell_weight w ix k)) ->
      let W := qsum (map (fun ix => shell_weight w ix k) cells) in
      getd None res (i :: jx ++ [k]) = if qeqb W 0 then None
        else Some (vsum (map (fun ix => (cell g ix k * emb (shell_weight w ix k))%V) cells) * emb (/ W))%V.
Proof.
  intros C E Ax Ha Sp Hc K I Ne. destruct (c20_main g d ax axn cen shells w C E Ax Ha Sp Hc K I Ne) as (res & E1 & E2 & H).
  exists res. split; auto. split; auto. intros i jx k Hi Hj Hk cells Hw. apply (H i jx k); auto. lia.
Qed.
Lemma c20_last (g : grid) d ax axn cen shells w :
  consistent g -> g_data g = Some d -> axes_named g ax axn -> (forall a, In a axn -> (a < g_ndim g)%nat) -> one_space g axn ->
  (forall c, cen = Some c -> length c = g_ndim g) -> shell_weight_ok g w -> increasing shells = true ->
  forall i jx k, S (S i) = length shells -> inb (map (fun i => nth i (g_npix g) 0%nat) (other_axes g axn)) jx = true -> (k < g_nprop g)%nat ->
  exists res, spherical_average g ax cen shells w = Ok (shells, res) /\ getd None res (i :: jx ++ [k]) = None.
Proof.
  intros C E Ax Ha Sp Hc K I i jx k Hi Hj Hk. assert (Ne : shells <> []) by (destruct shells; [discriminate|congruence]).
  destruct (c20_main g d ax axn cen shells w C E Ax Ha Sp Hc K I Ne) as (res & E1 & E2 & H).
  exists res. split; auto. destruct (H i jx k ltac:(lia) Hj Hk) as (_ & X & _). apply X. auto.
Qed.
Lemma c20_small (g : grid) d ax axn cen shells w :
  consistent g -> g_data g = Some d -> axes_named g ax axn -> (forall a, In a axn -> (a < g_ndim g)%nat) -> one_space g axn ->
  (forall c, cen = Some c -> length c = g_ndim g) -> shell_weight_ok g w -> increasing shells = true ->
  forall i jx k, (S i < length shells)%nat -> inb (map (fun i => nth i (g_npix g) 0%nat) (other_axes g axn)) jx = true -> (k < g_nprop g)%nat ->
  (forall ix, In ix (shell_cells g axn cen shells i jx) -> 0 <= shell_weight w ix k /\ shell_weight w ix k < 1) ->
  exists res, spherical_average g ax cen shells w = Ok (shells, res) /\ getd None res (i :: jx ++ [k]) = None.
Proof.
  intros C E Ax Ha Sp Hc K I i jx k Hi Hj Hk Hw. assert (Ne : shells <> []) by (destruct shells; [simpl in *; lia|congruence]).
  destruct (c20_main g d ax axn cen shells w C E Ax Ha Sp Hc K I Ne) as (res & E1 & E2 & H).
  exists res. split; auto. destruct (H i jx k ltac:(lia) Hj Hk) as (_ & _ & X). apply X. auto.
Qed.
End Sphere.
