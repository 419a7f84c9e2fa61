(** Collapsing dimensions. *)
From Verif Require Import Util Rat Val Arr GridModel GridModel2 GridSpec GridSpec2 GridAxis GridNew GridAdd GridCat GridEx GridPad GridOps GridFourier GridFT GridPower.
Open Scope Qc_scope.

(** * broadcasting into a shape *)
Definition fits (sw s : list nat) : Prop := Forall2 (fun x y => x = y \/ x = 1%nat) sw s.
Definition bi (sw ix : list nat) : list nat := map (fun p => if (fst p =? 1)%nat then 0%nat else snd p) (combine sw ix).

Lemma Forall2_rev' {X Y} (P : X -> Y -> Prop) a b : Forall2 P a b -> Forall2 P (rev a) (rev b).
Proof.
  induction 1; simpl; auto. apply Forall2_app; auto.
Qed.
Lemma bshape_rev_fits sw s : fits sw s -> bshape_rev s sw = Some s.
Proof.
  induction 1 as [|x y sw s H F IH]; simpl; auto. rewrite IH. unfold bdim.
  destruct (Nat.eqb_spec y x); auto. destruct (Nat.eqb_spec y 1); destruct (Nat.eqb_spec x 1); auto; lia.
Qed.
Lemma bshape_fits sw s : fits sw s -> bshape s sw = Some s.
Proof.
  intros F. unfold bshape. rewrite (bshape_rev_fits (rev sw) (rev s)) by (apply Forall2_rev'; auto). simpl. rewrite rev_involutive. auto.
Qed.
Lemma fits_length sw s : fits sw s -> length sw = length s.
Proof. induction 1; simpl; auto. Qed.
Lemma combine_snoc {X Y} (a : list X) (b : list Y) x y : length a = length b -> combine (a ++ [x]) (b ++ [y]) = combine a b ++ [(x, y)].
Proof. revert b; induction a as [|u a IH]; intros [|v b]; simpl; intros; try discriminate; auto. f_equal. auto. Qed.
Lemma bidx_bi sw ix : length sw = length ix -> bidx sw ix = bi sw ix.
Proof.
  intros L. unfold bidx, bi. revert ix L. induction sw as [|x sw IH]; intros [|i ix] L; simpl in *; try discriminate; auto.
  rewrite combine_snoc by (rewrite !rev_length; lia). rewrite map_app, rev_app_distr. simpl. f_equal. apply IH. lia.
Qed.
Lemma bi_inb sw s ix : fits sw s -> inb s ix = true -> inb sw (bi sw ix) = true.
Proof.
  intros F. revert ix. induction F as [|x y sw s H F IH]; intros [|i ix]; simpl; auto; try discriminate.
  intros X. apply andb_true_iff in X as [X1 X2]. apply andb_true_iff. split; [|apply IH; auto].
  apply Nat.ltb_lt in X1. apply Nat.ltb_lt. destruct (Nat.eqb_spec x 1); lia.
Qed.
Lemma bi_same s ix : inb s ix = true -> bi s ix = ix.
Proof.
  revert ix. induction s as [|n s IH]; intros [|i ix]; simpl; auto; try discriminate. intros X.
  apply andb_true_iff in X as [X1 X2]. apply Nat.ltb_lt in X1. unfold bi in *. simpl. rewrite IH by auto.
  f_equal. destruct (Nat.eqb_spec n 1); lia.
Qed.
(** insertion and broadcasting *)
Lemma bi_ins sw ix a j : (a < length sw)%nat -> length sw = S (length ix) -> nth a sw 0%nat <> 1%nat ->
  bi sw (ins_nth ix a j) = ins_nth (bi (del_nth sw a) ix) a j.
Proof.
  revert ix a. induction sw as [|x sw IH]; intros ix a Ha L N; simpl in *; [lia|].
  destruct a as [|a].
  - simpl. unfold bi. simpl. destruct (Nat.eqb_spec x 1); [tauto|]. destruct ix; reflexivity.
  - destruct ix as [|i ix]; simpl in *; [lia|]. unfold bi in *. simpl. f_equal. apply IH; auto; lia.
Qed.
Lemma fits_del sw s a : fits sw s -> fits (del_nth sw a) (del_nth s a).
Proof.
  intros F. revert a. induction F as [|x y sw s H F IH]; intros [|a]; simpl; auto; try constructor; auto. apply IH.
Qed.
Lemma inb_ins s ix a j : (a < length s)%nat -> inb (del_nth s a) ix = true -> (j < nth a s 0%nat)%nat -> inb s (ins_nth ix a j) = true.
Proof.
  revert ix a. induction s as [|n s IH]; intros ix a Ha; simpl in *; [lia|]. destruct a as [|a].
  - intros H Hj. simpl. destruct ix; simpl; apply andb_true_iff; split; auto; apply Nat.ltb_lt; auto.
  - destruct ix as [|i ix]; simpl; [discriminate|]. intros H Hj. apply andb_true_iff in H as [H1 H2].
    apply andb_true_iff. split; auto. apply IH; auto. lia.
Qed.

Lemma getd_snoc1 {X} (dx : X) s (d : list X) ix : length ix = length s -> getd dx (mkArr (s ++ [1%nat]) d) (ix ++ [0%nat]) = getd dx (mkArr s d) ix.
Proof.
  intros L. unfold getd, get. simpl. rewrite inb_app by auto. simpl. rewrite andb_true_r.
  replace (flat (s ++ [1%nat]) (ix ++ [0%nat])) with (flat s ix); auto.
  clear d. revert ix L. induction s as [|n s IH]; intros [|i ix] L; simpl in *; try discriminate; auto.
  rewrite IH by lia. f_equal. f_equal. unfold size. rewrite fold_right_app. simpl. auto.
Qed.

(** an array varying along one axis only *)
Lemma size_ones k : size (repeat 1%nat k) = 1%nat.
Proof. induction k; simpl; auto. unfold size in *. simpl. lia. Qed.
Lemma bi_ones k ix : length ix = k -> bi (repeat 1%nat k) ix = repeat 0%nat k.
Proof. revert ix; induction k; intros [|i ix] L; simpl in *; try discriminate; auto. unfold bi in *. simpl. f_equal. apply IHk. lia. Qed.
Lemma inb_ones k : inb (repeat 1%nat k) (repeat 0%nat k) = true.
Proof. induction k; simpl; auto. Qed.
Lemma flat_zeros s k : flat s (repeat 0%nat k) = 0%nat.
Proof. revert k; induction s as [|n s IH]; intros [|k]; simpl; auto. Qed.
Lemma upd_S {X} (x : X) l a v : upd (x :: l) (S a) v = x :: upd l a v.
Proof. reflexivity. Qed.
Lemma line_get (dx : Qc) (w : arr Qc) k a m ix : length ix = k -> (a < k)%nat -> (nth a ix 0 < m)%nat -> m <> 1%nat -> shape w = [m] ->
  getd dx (mkArr (upd (repeat 1%nat k) a m) (dat w)) (bi (upd (repeat 1%nat k) a m) ix) = getd dx w [nth a ix 0%nat].
Proof.
  intros L Ha Hj Nm Sw.
  assert (G : inb (upd (repeat 1%nat k) a m) (bi (upd (repeat 1%nat k) a m) ix) = true /\
              flat (upd (repeat 1%nat k) a m) (bi (upd (repeat 1%nat k) a m) ix) = nth a ix 0%nat).
  { clear Sw. revert a ix L Ha Hj. induction k as [|k IH]; intros a ix L Ha Hj; [lia|]. destruct ix as [|i ix]; simpl in L; [lia|].
    destruct a as [|a].
    - simpl repeat. simpl upd. unfold bi. simpl combine. simpl map.
      destruct (Nat.eqb_spec m 1); [tauto|]. fold (bi (repeat 1%nat k) ix). rewrite bi_ones by lia. simpl inb. simpl flat. simpl nth in *.
      rewrite inb_ones, size_ones, flat_zeros. split; [|lia]. apply andb_true_iff. split; auto. apply Nat.ltb_lt; auto.
    - simpl repeat. rewrite upd_S. simpl nth in *. destruct (IH a ix) as [I1 I2]; try lia.
      unfold bi in *. simpl. split; auto. }
  destruct G as [G1 G2]. unfold getd, get. cbn [shape dat]. rewrite G1, G2, Sw. simpl.
  rewrite (proj2 (Nat.ltb_lt _ _) Hj). simpl. rewrite Nat.mul_1_r, Nat.add_0_r. reflexivity.
Qed.
Lemma line_fits k a m s : length s = k -> (a < k)%nat -> nth a s 0%nat = m -> fits (upd (repeat 1%nat k) a m) s.
Proof.
  intros L Ha E. revert a k L Ha E. induction s as [|n s IH]; intros a k L Ha E; simpl in L; [lia|]. destruct k; [lia|].
  assert (O : forall s, fits (repeat 1%nat (length s)) s) by (clear; induction s; simpl; constructor; auto).
  destruct a as [|a]; simpl repeat.
  - simpl. simpl in E. constructor; auto. replace k with (length s) by lia. apply O.
  - rewrite upd_S. constructor; auto. apply IH; auto; lia.
Qed.

Section Collapse.
Context {A : Alg}.
Add Ring A_ring : (v_rt A).
Notation grid := (grid A).


Lemma sum_axis_ok (s : list nat) a (d : arr A) : shape d = s -> (a < length s)%nat ->
  exists r, sum_axis a d = Ok r /\ aok (del_nth s a) r /\
    forall ix, inb (del_nth s a) ix = true -> getd v0 r ix = vsum (map (fun j => getd v0 d (ins_nth ix a j)) (seq 0 (nth a s 0%nat))).
Proof.
  intros S Ha. unfold sum_axis. rewrite S. rewrite (nth_error_nth' s 0%nat Ha). eexists. split; [reflexivity|]. split; [apply aok_tab|].
  intros ix Hi. rewrite getd_tab by auto. reflexivity.
Qed.
End Collapse.

Section Collapse2.
Context {A : Alg}.
Add Ring A_ring2 : (v_rt A).
Notation grid := (grid A).

(** the general step: weights [cw] of a shape fitting the data and full along [a] *)
Lemma step_sum (s : list nat) a (d : arr A) (cw : arr Qc) : aok s d -> (a < length s)%nat -> fits (shape cw) s ->
  exists r, collapse_step d a cw None = Ok r /\ aok (del_nth s a) r /\
    forall ix, inb (del_nth s a) ix = true ->
      getd v0 r ix = vsum (map (fun j => (getd v0 d (ins_nth ix a j) * emb (getd 0%Qc cw (bi (shape cw) (ins_nth ix a j))))%V) (seq 0 (nth a s 0%nat))).
Proof.
  intros [W S] Ha F. unfold collapse_step, bop. rewrite S, (bshape_fits _ _ F). cbn [bind].
  match goal with |- context [sum_axis a ?p] => destruct (sum_axis_ok s a p eq_refl Ha) as (r & E & O & G) end.
  exists r. rewrite E. cbn [bind]. split; [reflexivity|]. split; [exact O|]. intros ix Hi. rewrite G by auto.
  apply vsum_ext. intros j Hj. apply in_seq in Hj.
  assert (Hx : inb s (ins_nth ix a j) = true) by (apply inb_ins; auto; lia).
  rewrite getd_tab by auto. rewrite bidx_same by (auto). rewrite bidx_bi by (rewrite (fits_length _ _ F), (inb_length _ _ Hx); auto). reflexivity.
Qed.
Lemma step_avg (s : list nat) a (d : arr A) (cw nm : arr Qc) : aok s d -> (a < length s)%nat -> fits (shape cw) s ->
  nth a (shape cw) 0%nat = nth a s 0%nat -> nth a s 0%nat <> 1%nat -> sum_axis (A:=QcAlg) a cw = Ok nm ->
  exists r, collapse_step d a cw (Some nm) = Ok r /\ aok (del_nth s a) r /\
    forall ix, inb (del_nth s a) ix = true ->
      let W j := getd 0 cw (bi (shape cw) (ins_nth ix a j)) in
      getd v0 r ix = (vsum (map (fun j => getd v0 d (ins_nth ix a j) * emb (W j)) (seq 0 (nth a s 0%nat))) * emb (/ qsum (map W (seq 0 (nth a s 0%nat)))))%V.
Proof.
  intros O Ha F Na N1 En. destruct (step_sum s a d cw O Ha F) as (r & E & Or & G).
  pose proof (fits_length _ _ F) as Lf.
  destruct (sum_axis_ok (A:=QcAlg) (shape cw) a cw eq_refl) as (nm' & En' & On & Gn); [lia|]. rewrite En in En'. injection En' as <-.
  unfold collapse_step in *. destruct (bop _ _ _ d cw) as [p|] eqn:Ep; cbn [bind] in *; [|discriminate].
  destruct (sum_axis a p) as [r'|] eqn:Es; cbn [bind] in *; [|discriminate]. injection E as ->.
  unfold bop. destruct Or as [Wr Sr], On as [Wn Sn]. pose proof (fits_del _ _ a F) as Fd.
  change (@shape Qc nm = del_nth (shape cw) a) in Sn.
  rewrite Sr, Sn, (bshape_fits _ _ Fd). eexists. split; [reflexivity|]. split; [apply aok_tab|].
  intros ix Hi. rewrite getd_tab by auto. rewrite bidx_same by auto.
  rewrite bidx_bi by (rewrite (fits_length _ _ Fd), (inb_length _ _ Hi); auto). rewrite G by auto. f_equal. do 2 f_equal.
  specialize (Gn (bi (del_nth (shape cw) a) ix) (bi_inb _ _ _ Fd Hi)). rewrite Na in Gn.
  etransitivity; [exact Gn|]. change (vsum (A:=QcAlg)) with qsum. f_equal. apply map_ext. intros j. rewrite bi_ins; auto; [lia| |congruence].
  rewrite (inb_length _ _ Hi), del_nth_length by auto. lia.
Qed.
End Collapse2.

(** * one axis removed *)
Lemma nth_del {X} (l : list X) a i dx : (a < length l)%nat -> nth i (del_nth l a) dx = nth (if (i <? a)%nat then i else S i) l dx.
Proof.
  revert a i. induction l as [|x l IH]; intros a i H; simpl in H; [lia|]. destruct a as [|a]; simpl.
  - reflexivity.
  - destruct i as [|i]; simpl; auto. rewrite IH by lia. change (S i <? S a)%nat with (i <? a)%nat. destruct (i <? a)%nat; auto.
Qed.
Lemma del_map {X Y} (f : X -> Y) l a : del_nth (map f l) a = map f (del_nth l a).
Proof. revert a; induction l as [|x l IH]; intros [|a]; simpl; auto. f_equal. auto. Qed.
Lemma keep_del {X} (l : list X) dx a n s : length l = n -> (a < n)%nat ->
  map (fun i => nth (i - s) l dx) (filter (fun i => negb (mem_nat i [(s + a)%nat])) (seq s n)) = del_nth l a.
Proof.
  revert a s n. induction l as [|x l IH]; intros a s n L Ha; simpl in L; [lia|]. subst n. cbn [seq filter mem_nat existsb].
  rewrite orb_false_r. destruct a as [|a].
  - rewrite Nat.add_0_r, Nat.eqb_refl. cbn [negb del_nth].
    rewrite filter_all.
    2:{ intros i Hi. apply in_seq in Hi. rewrite orb_false_r. destruct (Nat.eqb_spec i s); auto; lia. }
    apply (nth_ext _ _ dx dx); [rewrite map_length, seq_length; auto|]. rewrite map_length, seq_length. intros i Hi.
    rewrite (nth_indep _ dx (nth (0 - s) (x :: l) dx)) by (rewrite map_length, seq_length; auto).
    rewrite (map_nth (fun i => nth (i - s) (x :: l) dx)), seq_nth by auto. replace (S s + i - s)%nat with (S i) by lia. reflexivity.
  - destruct (Nat.eqb_spec s (s + S a)); [lia|]. cbn [negb map del_nth]. rewrite Nat.sub_diag. cbn [nth]. f_equal.
    rewrite <- (IH a (S s) (length l) eq_refl ltac:(lia)). replace (S s + a)%nat with (s + S a)%nat by lia.
    apply map_ext_in. intros i Hi. apply filter_In in Hi as [Hi _]. apply in_seq in Hi.
    replace (i - s)%nat with (S (i - S s)) by lia. reflexivity.
Qed.
Lemma keep_del0 {X} (l : list X) dx a n : length l = n -> (a < n)%nat ->
  map (fun i => nth i l dx) (filter (fun i => negb (mem_nat i [a])) (seq 0 n)) = del_nth l a.
Proof.
  intros L Ha. rewrite <- (keep_del l dx a n 0 L Ha). simpl. apply map_ext. intros i. rewrite Nat.sub_0_r. reflexivity.
Qed.
Lemma ins_snoc {X} (l : list X) a x y : (a <= length l)%nat -> ins_nth (l ++ [y]) a x = ins_nth l a x ++ [y].
Proof. revert a; induction l as [|z l IH]; intros [|a] H; simpl in *; try lia; auto. f_equal. apply IH. lia. Qed.
Lemma del_snoc {X} (l : list X) a y : (a < length l)%nat -> del_nth (l ++ [y]) a = del_nth l a ++ [y].
Proof. revert a; induction l as [|z l IH]; intros [|a] H; simpl in *; try lia; auto. f_equal. apply IH. lia. Qed.

Section Collapse3.
Context {A : Alg}.
Add Ring A_ring3 : (v_rt A).
Notation grid := (grid A).

Lemma drop_without (g : grid) a d : consistent g -> (a < g_ndim g)%nat -> without_axis a g (drop_axes g [a] d).
Proof.
  intros C Ha. destruct C as [c1 c2 c3 c4 c5 c6 c7 c8 c9 c10 c11 _ _]. unfold flen in *.
  assert (Lfu : length (g_faxu g) = g_ndim g) by (rewrite c11, map_length; auto).
  unfold without_axis, drop_axes, keep_axes, ftake, fnth. gcbn.
  repeat split; auto; try (apply keep_del0; auto). simpl. lia.
Qed.

Lemma drop_consistent (g : grid) a d : consistent g -> (a < g_ndim g)%nat -> aok (del_nth (g_npix g) a ++ [g_nprop g]) d ->
  consistent (drop_axes g [a] d).
Proof.
  intros C Ha [W S]. destruct (drop_without g a d C Ha) as (_ & _ & _ & _ & En & E1 & E2 & E3 & E4 & E5 & E6 & E7 & E8 & E9 & E10 & E11).
  set (g' := drop_axes g [a] d) in *.
  pose proof (co_axis _ C) as AX. destruct C as [c1 c2 c3 c4 c5 c6 c7 c8 c9 c10 c11 _ _]. unfold flen in *.
  assert (Lfu : length (g_faxu g) = g_ndim g) by (rewrite c11, map_length; auto).
  constructor; unfold flen, fnth; rewrite ?E1, ?E2, ?E3, ?E4, ?E5, ?E6, ?E7, ?E8, ?E9, ?E10, ?E11; try (rewrite del_nth_length by lia; lia).
  - rewrite c11. apply del_map.
  - intros i Hi. rewrite !nth_del by lia.
    assert (Hi' : ((if (i <? a)%nat then i else Datatypes.S i) < g_ndim g)%nat) by (destruct (i <? a)%nat; lia).
    exact (AX _ Hi').
  - unfold g', drop_axes. gcbn. auto.
Qed.

(** the weights of a single axis *)
Lemma cook_ok (g : grid) d a w : consistent g -> g_data g = Some d -> (a < g_ndim g)%nat -> weight_ok g a w ->
  exists cw, cook_weights g d [a] (option_map (fun w => [w]) w) = Ok [cw] /\
    fits (shape cw) (g_npix g ++ [g_nprop g]) /\ nth a (shape cw) 0%nat = nth a (g_npix g) 0%nat /\
    forall ix k j, inb (del_nth (g_npix g) a) ix = true -> (k < g_nprop g)%nat -> (j < nth a (g_npix g) 0%nat)%nat ->
      getd 0 cw (bi (shape cw) (ins_nth (ix ++ [k]) a j)) = weight_at a w ix j.
Proof.
  intros C E Ha K. destruct (data_ok g d C E) as [_ Sd]. pose proof (co_n _ C) as Ln.
  pose proof (ao_n _ _ _ _ _ _ _ _ (co_axis _ C a Ha)) as N2. pose proof (ao_clen _ _ _ _ _ _ _ _ (co_axis _ C a Ha)) as Lc.
  set (m := nth a (g_npix g) 0%nat) in *.
  assert (Lix : forall ix, inb (del_nth (g_npix g) a) ix = true -> S (length ix) = g_ndim g).
  { intros ix H. apply inb_length in H. rewrite del_nth_length in H by lia. lia. }
  (* a weight per cell along the axis *)
  assert (Line : forall w0, shape w0 = [m] ->
    exists cw, cook_weight g d a w0 = Ok cw /\
    fits (shape cw) (g_npix g ++ [g_nprop g]) /\ nth a (shape cw) 0%nat = m /\
    forall ix k j, inb (del_nth (g_npix g) a) ix = true -> (k < g_nprop g)%nat -> (j < m)%nat ->
      getd 0 cw (bi (shape cw) (ins_nth (ix ++ [k]) a j)) = getd 0 w0 [j]).
  { intros w0 S0. unfold cook_weight. rewrite S0. cbn [length hd]. rewrite Nat.eqb_refl, Lc, Nat.eqb_refl.
    eexists. split; [reflexivity|]. cbn [shape]. split; [|split].
    - apply line_fits; [rewrite app_length; simpl; lia|lia|]. rewrite app_nth1 by lia. reflexivity.
    - apply nth_upd_eq. rewrite repeat_length. lia.
    - intros ix k j Hi Hk Hj. specialize (Lix ix Hi).
      assert (Ej : nth a (ins_nth (ix ++ [k]) a j) 0%nat = j).
      { apply nth_error_nth. apply nth_error_ins_nth_eq. rewrite app_length. simpl. lia. }
      rewrite line_get; try rewrite Ej; auto; try lia. rewrite ins_nth_length, app_length. simpl. lia. }
  destruct w as [w|].
  - destruct K as [W [K|K]].
    + destruct (Line w K) as (cw & E1 & E2 & E3 & E4). exists cw. cbn [option_map]. unfold cook_weights. cbn [length Nat.eqb check bind combine mapM fst snd].
      rewrite E1. cbn [bind]. split; [reflexivity|]. split; [auto|]. split; [auto|]. intros. unfold weight_at. rewrite K. apply E4; auto.
    + destruct (Nat.eq_dec (g_ndim g) 1) as [D1|D1].
      * assert (K' : shape w = [m]).
        { rewrite K. unfold m. rewrite D1 in Ln. destruct (g_npix g) as [|x [|]]; simpl in Ln; try lia. assert (a = 0%nat) by lia. subst a. reflexivity. }
        destruct (Line w K') as (cw & E1 & E2 & E3 & E4). exists cw. cbn [option_map]. unfold cook_weights. cbn [length Nat.eqb check bind combine mapM fst snd].
        rewrite E1. cbn [bind]. split; [reflexivity|]. split; [auto|]. split; [auto|]. intros. unfold weight_at. rewrite K'. apply E4; auto.
      * exists (mkArr (g_npix g ++ [1%nat]) (dat w)). cbn [option_map]. unfold cook_weights. cbn [length Nat.eqb check bind combine mapM fst snd].
        unfold cook_weight. rewrite K, Ln, Nat.eqb_refl. rewrite (proj2 (Nat.eqb_neq _ _) D1). rewrite Sd, get_removelast_snoc.
        destruct (list_eq_dec Nat.eq_dec (g_npix g) (g_npix g)); [|tauto]. cbn [bind]. split; [reflexivity|]. cbn [shape]. split; [|split].
        -- apply Forall2_app; [|constructor; auto]. clear. induction (g_npix g); constructor; auto.
        -- apply app_nth1. lia.
        -- intros ix k j Hi Hk Hj. specialize (Lix ix Hi). unfold weight_at. rewrite K, Ln, (proj2 (Nat.eqb_neq _ _) D1).
           rewrite ins_snoc by lia. rewrite <- bidx_bi by (rewrite !app_length, ins_nth_length; simpl; lia).
           rewrite bidx_snoc by (apply inb_ins; auto; lia). unfold prop_ix. cbn [Nat.eqb].
           rewrite getd_snoc1 by (rewrite ins_nth_length; lia). rewrite <- K. destruct w. reflexivity.
  - destruct (Line (full [length (nth a (g_centers g) [])] 1)) as (cw & E1 & E2 & E3 & E4).
    { cbn [full tab shape]. rewrite Lc. reflexivity. }
    exists cw. cbn [option_map]. unfold cook_weights. cbn [map length Nat.eqb check bind combine mapM fst snd].
    rewrite E1. cbn [bind]. split; [reflexivity|]. split; [auto|]. split; [auto|]. intros ix k j Hi Hk Hj. unfold weight_at.
    rewrite E4 by auto. unfold full. rewrite getd_tab; auto. simpl. rewrite Lc, andb_true_r. apply Nat.ltb_lt; auto.
Qed.

Lemma c17_one (g : grid) d a w mode : consistent g -> g_data g = Some d -> (a < g_ndim g)%nat -> weight_ok g a w -> mode <> MOther ->
  exists d', grid_collapse g [Z.of_nat a] (option_map (fun w => [w]) w) mode = (drop_axes g [a] d', Ok tt) /\
    (forall dc, dc = d -> exists steps, collapse_plan g [Z.of_nat a] (option_map (fun w => [w]) w) mode = Ok (d, [a], steps) /\ collapse_loop dc steps = (d', Ok tt)) /\
    aok (del_nth (g_npix g) a ++ [g_nprop g]) d' /\
    (forall ix k, inb (del_nth (g_npix g) a) ix = true -> (k < g_nprop g)%nat ->
       let n := nth a (g_npix g) 0%nat in
       let S := vsum (map (fun j => (cell g (ins_nth ix a j) k * emb (weight_at a w ix j))%V) (seq 0 n)) in
       (mode = MSum -> getd v0 d' (ix ++ [k]) = S) /\
       (mode = MAverage -> getd v0 d' (ix ++ [k]) = (S * emb (/ qsum (map (weight_at a w ix) (seq 0 n))))%V)).
Proof.
  intros C E Ha K Hm. pose proof (data_ok g d C E) as O. destruct (cook_ok g d a w C E Ha K) as (cw & Ec & F & Na & V).
  pose proof (co_n _ C) as Ln. set (s := g_npix g ++ [g_nprop g]) in *.
  assert (Hs : (a < length s)%nat) by (unfold s; rewrite app_length; simpl; lia).
  assert (Es : nth a s 0%nat = nth a (g_npix g) 0%nat) by (apply app_nth1; lia).
  pose proof (ao_n _ _ _ _ _ _ _ _ (co_axis _ C a Ha)) as N2.
  assert (Ed : del_nth s a = del_nth (g_npix g) a ++ [g_nprop g]) by (apply del_snoc; lia).
  assert (Ib : forall ix k, inb (del_nth (g_npix g) a) ix = true -> (k < g_nprop g)%nat -> inb (del_nth s a) (ix ++ [k]) = true).
  { intros ix k Hi Hk. rewrite Ed, inb_snoc by (apply inb_length; auto). rewrite Hi. apply Nat.ltb_lt; auto. }
  assert (Lix : forall ix, inb (del_nth (g_npix g) a) ix = true -> S (length ix) = g_ndim g).
  { intros ix H. apply inb_length in H. rewrite del_nth_length in H by lia. lia. }
  assert (EV : forall ix k, inb (del_nth (g_npix g) a) ix = true -> (k < g_nprop g)%nat -> 
     vsum (map (fun j => (getd v0 d (ins_nth (ix ++ [k]) a j) * emb (getd 0%Qc cw (bi (shape cw) (ins_nth (ix ++ [k]) a j))))%V) (seq 0 (nth a s 0%nat))) =
     vsum (map (fun j => (cell g (ins_nth ix a j) k * emb (weight_at a w ix j))%V) (seq 0 (nth a (g_npix g) 0%nat)))).
  { intros ix k Hi Hk. rewrite Es. apply vsum_ext. intros j Hj. apply in_seq in Hj. rewrite V by (auto; lia).
    unfold cell. rewrite E, ins_snoc by (specialize (Lix ix Hi); lia). reflexivity. }
  assert (Pl : forall nm, collapse_norms mode [a] [cw] = Ok [nm] ->
     collapse_plan g [Z.of_nat a] (option_map (fun w => [w]) w) mode = Ok (d, [a], [(a, cw, nm)])).
  { intros nm Hn. unfold collapse_plan. rewrite E. change [Z.of_nat a] with (map Z.of_nat [a]). rewrite (axes_valid_nat (fun _ => v0) g [a]) by (intros b [<-|[]]; auto).
    cbn [check bind map]. rewrite Nat2Z.id. rewrite Ec. cbn [bind]. rewrite Hn. reflexivity. }
  destruct mode; [| |tauto].
  - destruct (step_sum s a d cw O Hs F) as (r & E1 & E2 & E3). exists r. specialize (Pl None eq_refl).
    split; [|split; [|split]].
    + unfold grid_collapse. rewrite Pl. unfold collapse_loop. rewrite E1. reflexivity.
    + intros dc ->. eexists. split; [exact Pl|]. unfold collapse_loop. rewrite E1. reflexivity.
    + rewrite <- Ed. exact E2.
    + intros ix k Hi Hk n S. split; [|discriminate]. intros _. rewrite E3 by auto. apply EV; auto.
  - assert (En : exists nm : arr Qc, sum_axis (A:=QcAlg) a cw = Ok nm).
    { destruct (sum_axis_ok (A:=QcAlg) (shape cw) a cw eq_refl) as (nm & En & _ & _); [rewrite (fits_length _ _ F); auto|]. exists nm. exact En. }
    destruct En as [nm En].
    destruct (step_avg s a d cw nm O Hs F) as (r & E1 & E2 & E3); auto; try lia; try congruence.
    exists r. specialize (Pl (Some nm)). unfold collapse_norms in Pl. cbn [combine mapM fst snd] in Pl. rewrite En in Pl. specialize (Pl eq_refl).
    split; [|split; [|split]].
    + unfold grid_collapse. rewrite Pl. unfold collapse_loop. rewrite E1. reflexivity.
    + intros dc ->. eexists. split; [exact Pl|]. unfold collapse_loop. rewrite E1. reflexivity.
    + rewrite <- Ed. exact E2.
    + intros ix k Hi Hk n S. split; [discriminate|]. intros _. rewrite E3 by auto. rewrite EV by auto. fold n. unfold S. do 4 f_equal. rewrite Es.
      apply map_ext_in. intros j Hj. apply in_seq in Hj. apply V; auto; lia.
Qed.
End Collapse3.

(** * the API forms *)
Lemma bshape_rev_len a b r : bshape_rev a b = Some r -> length r = Nat.max (length a) (length b).
Proof.
  revert b r. induction a as [|x a IH]; intros [|y b] r; simpl; intros H; try (injection H as <-; simpl; lia).
  destruct (bdim x y); [|discriminate]. destruct (bshape_rev a b) as [r'|] eqn:E; [|discriminate]. injection H as <-.
  simpl. rewrite (IH _ _ E). reflexivity.
Qed.
Lemma bshape_len a b r : bshape a b = Some r -> length r = Nat.max (length a) (length b).
Proof.
  unfold bshape. destruct (bshape_rev _ _) as [r'|] eqn:E; simpl; [|discriminate]. intros H. injection H as <-.
  apply bshape_rev_len in E. rewrite rev_length, E, !rev_length. reflexivity.
Qed.
Lemma bop_len {X Y Z} dx dy (f : X -> Y -> Z) a b r : bop dx dy f a b = Ok r -> length (shape r) = Nat.max (length (shape a)) (length (shape b)).
Proof. unfold bop. destruct (bshape _ _) as [s|] eqn:E; [|discriminate]. intros H. injection H as <-. simpl. apply bshape_len; auto. Qed.

Section Collapse4.
Context {A : Alg}.
Add Ring A_ring4 : (v_rt A).
Notation grid := (grid A).

Lemma idxs_ins {B : Alg} (s : list nat) a (f : list nat -> B) : (a < length s)%nat ->
  vsum (map f (idxs s)) = vsum (map (fun ix => vsum (map (fun j => f (ins_nth ix a j)) (seq 0 (nth a s 0%nat)))) (idxs (del_nth s a))).
Proof.
  revert a f. induction s as [|n s IH]; intros a f Ha; simpl in Ha; [lia|]. destruct a as [|a]; cbn [del_nth nth].
  - cbn [idxs]. rewrite vsum_map_flat_map.
    rewrite <- (vsum_exchange (fun j ix => f (ins_nth ix 0 j)) (seq 0 n) (idxs s)). apply vsum_ext. intros j _. rewrite map_map. apply vsum_ext.
    intros ix _. destruct ix; reflexivity.
  - cbn [idxs]. rewrite !vsum_map_flat_map. apply vsum_ext. intros i _. rewrite !map_map.
    rewrite (IH a (fun ix => f (i :: ix))) by lia. reflexivity.
Qed.

Lemma c17_main (g : grid) a w mode : consistent g -> g_data g <> None -> (a < g_ndim g)%nat -> weight_ok g a w -> mode <> MOther ->
  exists g', grid_collapse g [Z.of_nat a] (option_map (fun w => [w]) w) mode = (g', Ok tt) /\
    consistent g' /\ without_axis a g g' /\ g_data g' <> None /\
    (forall ix k, inb (g_npix g') ix = true -> (k < g_nprop g)%nat ->
       let n := nth a (g_npix g) 0%nat in
       let S := vsum (map (fun j => (cell g (ins_nth ix a j) k * emb (weight_at a w ix j))%V) (seq 0 n)) in
       let W := qsum (map (weight_at a w ix) (seq 0 n)) in
       (mode = MSum -> cell g' ix k = S) /\ (mode = MAverage -> W <> 0 -> cell g' ix k = (S * emb (/ W))%V)) /\
    (floats g -> length (g_gru g) = g_nprop g -> grid_collapse_new g [Z.of_nat a] (option_map (fun w => [w]) w) mode = Ok g').
Proof.
  intros C Hd Ha K Hm. destruct (g_data g) as [d|] eqn:E; [clear Hd|tauto].
  destruct (c17_one g d a w mode C E Ha K Hm) as (d' & E1 & P & O & V).
  exists (drop_axes g [a] d'). split; [auto|]. split; [apply drop_consistent; auto|].
  pose proof (drop_without g a d' C Ha) as WO. split; [auto|]. split; [discriminate|]. split.
  - destruct WO as (_ & _ & _ & _ & _ & _ & _ & _ & -> & _). intros ix k Hi Hk n S W.
    destruct (V ix k Hi Hk) as [V1 V2]. unfold cell at 1. gcbn. split; auto.
  - intros F L. destruct (P d eq_refl) as (steps & P1 & P2). unfold grid_collapse_new. rewrite P1. cbn [bind].
    rewrite copy_all by (auto; congruence). cbn [bind]. rewrite E, P2. reflexivity.
Qed.

Lemma c17_total (g : grid) d a : consistent g -> g_data g = Some d -> (a < g_ndim g)%nat ->
  exists g' d', grid_collapse g [Z.of_nat a] None MSum = (g', Ok tt) /\ g_data g' = Some d' /\
    forall k, (k < g_nprop g)%nat -> prop_total (g_npix g') d' k = prop_total (g_npix g) d k.
Proof.
  intros C E Ha. destruct (c17_main g a None MSum C ltac:(congruence) Ha I ltac:(discriminate)) as (g' & E1 & _ & WO & D & V & _).
  destruct (g_data g') as [d'|] eqn:E'; [|tauto]. exists g', d'. split; [exact E1|]. split; auto. intros k Hk.
  unfold prop_total. rewrite (idxs_ins (g_npix g) a) by (rewrite (co_n _ C); auto).
  assert (En : g_npix g' = del_nth (g_npix g) a) by (destruct WO as (_ & _ & _ & _ & _ & _ & _ & _ & -> & _); auto). rewrite En in *.
  apply vsum_ext. intros ix Hi. apply in_idxs in Hi. destruct (V ix k Hi Hk) as [V1 _]. specialize (V1 eq_refl). unfold cell in V1.
  rewrite E, E' in V1. rewrite V1. apply vsum_ext. intros j _. unfold weight_at. rewrite emb_1. ring.
Qed.

(** whatever is refused leaves the grid alone *)
Lemma c17_refused (g : grid) z ws mode g' e : grid_collapse g [z] ws mode = (g', Raise e) -> g' = g.
Proof.
  unfold grid_collapse. destruct (collapse_plan g [z] ws mode) as [[[d axn] steps]|e0] eqn:P; [|congruence].
  unfold collapse_plan in P. destruct (g_data g) as [d0|] eqn:E; [|discriminate]. destruct (check _ _); [|discriminate]. cbn [bind map] in P.
  destruct (cook_weights _ _ _ _) as [cw|]; [|discriminate]. cbn [bind] in P. destruct (collapse_norms _ _ _) as [nm|]; [|discriminate].
  cbn [bind] in P. injection P as <- <- <-.
  assert (Q : forall dd, dd = d0 -> with_data g (Some dd) = g) by (intros dd ->; rewrite <- E; destruct g; reflexivity).
  destruct cw as [|cw l]; [cbn; congruence|]. cbn [combine]. destruct l; destruct nm as [|nm nml]; cbn [combine collapse_loop]; try congruence;
  destruct (collapse_step _ _ _ _); intros H; try discriminate H; injection H as <- _; auto.
Qed.

Lemma step_rank d a (cw : arr Qc) nm r : collapse_step (A:=A) d a cw nm = Ok r -> (length (shape cw) <= S (length (shape r)))%nat.
Proof.
  unfold collapse_step. destruct (bop _ _ _ d cw) as [p|] eqn:E; [|discriminate]. cbn [bind]. apply bop_len in E.
  unfold sum_axis. destruct (nth_error (shape p) a) as [n|] eqn:En; [|discriminate]. cbn [bind].
  assert (a < length (shape p))%nat by (apply nth_error_Some; congruence).
  destruct nm as [nm|]; intros H0.
  - apply bop_len in H0. cbn [tab shape] in H0. rewrite del_nth_length in H0 by auto. lia.
  - injection H0 as <-. cbn [tab shape]. rewrite del_nth_length by auto. lia.
Qed.
Lemma loop_rank R d l d' : collapse_loop (A:=A) d l = (d', Ok tt) -> l <> [] ->
  (forall x, In x l -> (R < length (shape (snd (fst x))))%nat) -> (R <= length (shape d'))%nat.
Proof.
  revert d. induction l as [|[[a w] nm] l IH]; intros d H N F; [tauto|]. cbn [collapse_loop] in H.
  destruct (collapse_step d a w nm) as [r|] eqn:Es; [|discriminate].
  destruct l as [|y l].
  - injection H as <-. apply step_rank in Es. specialize (F _ (or_introl eq_refl)). cbn in F. lia.
  - apply (IH r); auto; [discriminate|]. intros x Hx. apply F. right. auto.
Qed.
Lemma cook_rank (g : grid) d a w cw : cook_weight g d a w = Ok cw ->
  length (shape cw) = S (g_ndim g) \/ (length (shape w) = S (g_ndim g) /\ length (shape cw) = S (S (g_ndim g))).
Proof.
  unfold cook_weight. destruct (_ =? 1)%nat eqn:E1.
  - destruct (hd 0 (shape w) =? _)%nat; [|discriminate]. intros H; injection H as <-. cbn [shape]. rewrite upd_length, repeat_length. left. lia.
  - destruct (length (shape w) =? g_ndim g)%nat eqn:E2.
    + destruct (list_eq_dec _ _ _); [|discriminate]. intros H; injection H as <-. cbn [shape]. rewrite app_length. simpl. apply Nat.eqb_eq in E2. left. lia.
    + destruct (length (shape w) =? g_ndim g + 1)%nat eqn:E3; [|discriminate].
      destruct (list_eq_dec _ _ _); [|discriminate]. intros H; injection H as <-. cbn [shape]. rewrite app_length. simpl. apply Nat.eqb_eq in E3. right. lia.
Qed.
Lemma success_plan (g : grid) ax ws mode g' : grid_collapse g ax ws mode = (g', Ok tt) -> ax <> [] ->
  exists d cw nm d', g_data g = Some d /\ cook_weights g d (map Z.to_nat ax) ws = Ok cw /\ length cw = length ax /\
    collapse_loop d (combine (combine (map Z.to_nat ax) cw) nm) = (d', Ok tt) /\
    combine (combine (map Z.to_nat ax) cw) nm <> [] /\ g' = drop_axes g (map Z.to_nat ax) d'.
Proof.
  intros H N. unfold grid_collapse, collapse_plan in H. destruct (g_data g) as [d|]; [|discriminate].
  destruct (check _ _); [|discriminate]. cbn [bind] in H. destruct (cook_weights _ _ _ _) as [cw|] eqn:Ec; [|discriminate].
  cbn [bind] in H. destruct (collapse_norms _ _ _) as [nm|] eqn:En; [|discriminate]. cbn [bind] in H.
  destruct (collapse_loop _ _) as [d' [[]|]] eqn:El; [|discriminate]. injection H as <-.
  exists d, cw, nm, d'. split; auto. split; auto.
  assert (L : length cw = length ax).
  { unfold cook_weights in Ec. destruct (length _ =? length _)%nat eqn:El'; [|discriminate]. apply Nat.eqb_eq in El'. cbn [check bind] in Ec.
    apply mapM_ok_length in Ec. rewrite Ec, combine_length, El', Nat.min_id, map_length. reflexivity. }
  split; auto. split; auto. split; auto.
  assert (Ln : length nm = length ax).
  { destruct mode; cbn in En; [injection En as <-; rewrite !map_length; auto| |discriminate]. apply mapM_ok_length in En. rewrite En, combine_length, L, map_length, Nat.min_id. reflexivity. }
  destruct ax; [tauto|]. destruct cw; [discriminate|]. destruct nm; [discriminate|]. cbn. discriminate.
Qed.
Lemma cook_weights_in (g : grid) d ax ws cw : cook_weights g d ax ws = Ok cw ->
  forall x (nm : list (option (arr Qc))), In x (combine (combine ax cw) nm) -> exists a w, cook_weight g d a w = Ok (snd (fst x)) /\ (forall l, ws = Some l -> In w l).
Proof.
  intros H x nm Hx. destruct x as [[a c] n]. apply in_combine_l, in_combine_r in Hx. cbn [fst snd].
  unfold cook_weights in H. destruct (check _ _); [|discriminate]. cbn [bind] in H.
  apply In_nth_error in Hx as [i Hi]. 
  destruct (nth_error (combine ax match ws with Some l => l | None => map (fun a0 => full [length (nth a0 (g_centers g) [])] 1) ax end) i) as [q|] eqn:Hq.
  2:{ apply nth_error_None in Hq. apply mapM_ok_length in H. assert (i < length cw)%nat by (apply nth_error_Some; congruence). lia. }
  destruct (mapM_ok_nth _ _ _ i q H Hq) as (y & Hy & Eq). rewrite Hi in Hy. injection Hy as <-.
  exists (fst q), (snd q). split; auto. intros l ->. apply nth_error_In in Hq. destruct q. apply in_combine_r in Hq. auto.
Qed.

Lemma c17_two (g : grid) ax ws mode g' : consistent g -> (2 <= g_ndim g)%nat -> (2 <= length ax)%nat ->
  grid_collapse g ax ws mode = (g', Ok tt) ->
  ~ consistent g' /\ exists d', g_data g' = Some d' /\ (S (g_ndim g') < length (shape d'))%nat.
Proof.
  intros C H2 L H. destruct (success_plan g ax ws mode g' H) as (d & cw & nm & d' & E & Ec & Lc & El & Nn & ->); [intros ->; simpl in L; lia|].
  assert (R : (g_ndim g <= length (shape d'))%nat).
  { apply (loop_rank _ _ _ _ El Nn). intros x Hx. destruct (cook_weights_in _ _ _ _ _ Ec x nm Hx) as (a & w & Ew & _). apply cook_rank in Ew. lia. }
  split.
  - intros C'. pose proof (co_data _ C') as D. cbn in D. destruct D as [_ D]. pose proof (co_n _ C') as N. unfold drop_axes in N. cbn [g_npix g_ndim] in N.
    rewrite D, app_length, N, map_length in R. cbn [length] in R. lia.
  - exists d'. split; [reflexivity|]. unfold drop_axes. cbn [g_ndim]. rewrite map_length. lia.
Qed.

Lemma c17_full_rank (g : grid) z w mode g' : consistent g -> length (shape w) = S (g_ndim g) -> (1 <= g_ndim g)%nat ->
  grid_collapse g [z] (Some [w]) mode = (g', Ok tt) ->
  ~ consistent g' /\ exists d', g_data g' = Some d' /\ (S (g_ndim g') < length (shape d'))%nat.
Proof.
  intros C Hw H1 H. destruct (success_plan g [z] (Some [w]) mode g' H) as (d & cw & nm & d' & E & Ec & Lc & El & Nn & ->); [discriminate|].
  assert (R : (S (g_ndim g) <= length (shape d'))%nat).
  { apply (loop_rank _ _ _ _ El Nn). intros x Hx. destruct (cook_weights_in _ _ _ _ _ Ec x nm Hx) as (a & w' & Ew & I). specialize (I _ eq_refl).
    destruct I as [<-|[]]. unfold cook_weight in Ew.
    rewrite Hw in Ew. destruct (Nat.eqb_spec (S (g_ndim g)) 1); [lia|]. destruct (Nat.eqb_spec (S (g_ndim g)) (g_ndim g)); [lia|].
    destruct (_ =? _)%nat; [|discriminate]. destruct (list_eq_dec _ _ _); [|discriminate]. injection Ew as <-. cbn [shape]. rewrite app_length, Hw. simpl. lia. }
  split.
  - intros C'. pose proof (co_data _ C') as D. cbn in D. destruct D as [_ D]. pose proof (co_n _ C') as N. unfold drop_axes in N. cbn [g_npix g_ndim map] in N. cbn [map] in D.
    rewrite D, app_length, N in R. cbn [length] in R. lia.
  - exists d'. split; [reflexivity|]. unfold drop_axes. cbn [g_ndim length map]. lia.
Qed.
End Collapse4.
