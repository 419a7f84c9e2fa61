(** Lemmas for gridding and sampling (C03-C08). *)
From Verif Require Import Util Rat Val Arr GridModel GridSpec GridAxis GridNew.
Open Scope Qc_scope.

(** * Positions and cells *)

Lemma floor_bin n c s p e m fe fc x k : axis_ok n c s p e m fe fc -> (k < n)%nat ->
  (qfloor ((x - c + s / zq 2) / p) = Z.of_nat k <-> in_bin e k x = true).
Proof.
  intros O Hk. unfold in_bin. rewrite (ao_edge _ _ _ _ _ _ _ _ O k), (ao_edge _ _ _ _ _ _ _ _ O (S k)) by lia.
  pose proof (ao_p _ _ _ _ _ _ _ _ O) as Hp.
  rewrite qfloor_spec, andb_true_iff, qleb_le, qltb_lt.
  rewrite qdiv_le_iff by auto. change (zq (Z.of_nat k)) with (nq k). rewrite <- nq_S. rewrite qdiv_lt_iff by auto. rewrite !div2_half.
  generalize dependent (nq k * p). generalize dependent (nq (S k) * p). intros a b.
  split; intros [H1 H2]; split; qlra.
Qed.

Lemma in_bin_lt n c s p e m fe fc x k : axis_ok n c s p e m fe fc -> in_bin e k x = true -> (k < n)%nat.
Proof.
  intros O. unfold in_bin. destruct (nth_error e k); [|discriminate].
  destruct (nth_error e (S k)) eqn:E; [|discriminate]. intros _.
  apply nth_error_Some_lt in E. rewrite (ao_elen _ _ _ _ _ _ _ _ O) in E. lia.
Qed.

Lemma hd_nth {X} (d : X) l : hd d l = nth 0 l d. Proof. destruct l; reflexivity. Qed.
Lemma last_nth {X} (d : X) l : last l d = nth (length l - 1) l d.
Proof.
  induction l as [|a l IH]; auto. destruct l as [|b l]; auto.
  change (last (a :: b :: l) d) with (last (b :: l) d). rewrite IH.
  replace (length (a :: b :: l) - 1)%nat with (S (length (b :: l) - 1)) by (simpl; lia). reflexivity.
Qed.

Lemma axis_hd n c s p e m fe fc : axis_ok n c s p e m fe fc -> hd 0 e = c - s / zq 2.
Proof.
  intros O. rewrite hd_nth. erewrite nth_error_nth; [|apply (ao_edge _ _ _ _ _ _ _ _ O 0); lia].
  unfold nq; simpl. qlra.
Qed.
Lemma axis_last n c s p e m fe fc : axis_ok n c s p e m fe fc -> last e 0 = c + s / zq 2.
Proof.
  intros O. rewrite last_nth, (ao_elen _ _ _ _ _ _ _ _ O).
  erewrite nth_error_nth; [|apply (ao_edge _ _ _ _ _ _ _ _ O (S n - 1)); lia].
  replace (S n - 1)%nat with n by lia. rewrite (ao_s _ _ _ _ _ _ _ _ O), div2_half. qlra.
Qed.

Lemma floor_range n c s p e m fe fc x : axis_ok n c s p e m fe fc ->
  ((0 <=? qfloor ((x - c + s / zq 2) / p))%Z && (qfloor ((x - c + s / zq 2) / p) <? Z.of_nat n)%Z)%bool
  = (qleb (hd 0 e) x && qltb x (last e 0))%bool.
Proof.
  intros O. rewrite (axis_hd _ _ _ _ _ _ _ _ O), (axis_last _ _ _ _ _ _ _ _ O).
  pose proof (ao_p _ _ _ _ _ _ _ _ O) as Hp. pose proof (ao_s _ _ _ _ _ _ _ _ O) as Hs.
  apply eq_iff_eq_true. rewrite !andb_true_iff, Z.leb_le, Z.ltb_lt, qleb_le, qltb_lt.
  rewrite qfloor_ge, qfloor_lt_z, qdiv_le_iff, qdiv_lt_iff by auto.
  change (zq (Z.of_nat n)) with (nq n). rewrite <- Hs, !div2_half. 
  change (zq 0) with (0:Qc). split; intros [H1 H2]; split; qlra.
Qed.

(** the lattice, axis by axis *)
Inductive lat : list nat -> list Qc -> list Qc -> list Qc -> list (list Qc) -> Prop :=
| lat_nil : lat [] [] [] [] []
| lat_cons n c s p e m fe fc ns cs ss ps es :
    axis_ok n c s p e m fe fc -> lat ns cs ss ps es -> lat (n :: ns) (c :: cs) (s :: ss) (p :: ps) (e :: es).

Lemma lat_of_nth : forall d ns cs ss ps es ms fes fcs,
  length ns = d -> length cs = d -> length ss = d -> length ps = d -> length es = d ->
  (forall i, (i < d)%nat -> axis_ok (nth i ns 0%nat) (nth i cs 0) (nth i ss 0) (nth i ps 0)
      (nth i es []) (nth i ms []) (nth i fes []) (nth i fcs [])) ->
  lat ns cs ss ps es.
Proof.
  induction d as [|d IH]; intros ns cs ss ps es ms fes fcs Hn Hc Hs Hp He H;
    destruct ns, cs, ss, ps, es; try discriminate.
  - constructor.
  - econstructor.
    + apply (H 0%nat). lia.
    + apply (IH _ _ _ _ _ (tl ms) (tl fes) (tl fcs)); simpl in *; try lia.
      intros i Hi. specialize (H (S i)). simpl in H.
      replace (nth i (tl ms) []) with (nth (S i) ms []) by (destruct ms; destruct i; reflexivity).
      replace (nth i (tl fes) []) with (nth (S i) fes []) by (destruct fes; destruct i; reflexivity).
      replace (nth i (tl fcs) []) with (nth (S i) fcs []) by (destruct fcs; destruct i; reflexivity).
      apply H. lia.
Qed.

Lemma consistent_lat {A} (g : grid A) : consistent g ->
  lat (g_npix g) (fv (g_center g)) (fv (g_side g)) (fv (g_pix g)) (g_axes g).
Proof.
  intros C. eapply lat_of_nth.
  - apply (co_n _ C).
  - apply (co_c _ C).
  - apply (co_s _ C).
  - apply (co_p _ C).
  - apply (co_ax _ C).
  - apply (co_axis _ C).
Qed.

Lemma lat_lengths ns cs ss ps es : lat ns cs ss ps es ->
  length cs = length ns /\ length ss = length ns /\ length ps = length ns /\ length es = length ns.
Proof. induction 1; simpl; intuition congruence. Qed.

Lemma cell_index_length c s p pos n : length c = n -> length s = n -> length p = n -> length pos = n ->
  length (cell_index c s p pos) = n.
Proof. intros. unfold cell_index. rewrite map_length, !combine_length. lia. Qed.

Lemma in_range_extent ns cs ss ps es pos : lat ns cs ss ps es -> length pos = length ns ->
  in_range ns (cell_index cs ss ps pos) = in_extent es pos.
Proof.
  intros L; revert pos; induction L as [|n c s p e m fe fc ns cs ss ps es O L IH]; intros [|x pos] Hl; simpl in *; try discriminate; auto.
  unfold in_range, cell_index in *. simpl. rewrite IH by lia. f_equal. apply (floor_range _ _ _ _ _ _ _ _ _ O).
Qed.

Lemma in_box_cell ns cs ss ps es pos ix : lat ns cs ss ps es -> length pos = length ns ->
  in_box es ix pos = true <->
  in_range ns (cell_index cs ss ps pos) = true /\ map Z.to_nat (cell_index cs ss ps pos) = ix.
Proof.
  intros L; revert pos ix; induction L as [|n c s p e m fe fc ns cs ss ps es O L IH]; intros [|x pos] ix Hl; simpl in *; try discriminate.
  - destruct ix; simpl; intuition congruence.
  - unfold in_range, cell_index in *; simpl. destruct ix as [|k ix]; [split; [discriminate|intros [_ ?]; discriminate]|].
    rewrite andb_true_iff, (IH pos ix) by lia. rewrite andb_true_iff.
    set (z := qfloor ((x - c + s / zq 2) / p)).
    assert (Q : in_bin e k x = true <-> ((0 <=? z)%Z && (z <? Z.of_nat n)%Z = true)%bool /\ Z.to_nat z = k).
    { split.
      - intros H. pose proof (in_bin_lt _ _ _ _ _ _ _ _ _ _ O H) as Hk.
        apply (floor_bin _ _ _ _ _ _ _ _ _ _ O Hk) in H. fold z in H. rewrite H. split; lia.
      - intros [H1 H2]. assert (Hk : (k < n)%nat) by lia.
        apply (floor_bin _ _ _ _ _ _ _ _ _ _ O Hk). fold z. lia. }
    rewrite Q. split.
    + intros [[H1 H2] [H3 H4]]. subst. auto.
    + intros [[H1 H2] H3]. inversion H3; subst. auto.
Qed.

Lemma in_box_inb ns cs ss ps es pos ix : lat ns cs ss ps es -> in_box es ix pos = true -> inb ns ix = true.
Proof.
  intros L; revert pos ix; induction L as [|n c s p e m fe fc ns cs ss ps es O L IH]; intros pos ix H.
  - destruct ix, pos; simpl in *; congruence.
  - destruct ix as [|k ix], pos as [|x pos]; simpl in *; try discriminate.
    apply andb_prop in H as [H1 H2]. apply andb_true_intro; split.
    + apply Nat.ltb_lt. eapply in_bin_lt; eauto.
    + eapply IH; eauto.
Qed.

Lemma in_extent_box ns cs ss ps es pos : lat ns cs ss ps es -> length pos = length ns ->
  in_extent es pos = true <-> exists ix, in_box es ix pos = true.
Proof.
  intros L Hl. rewrite <- (in_range_extent _ _ _ _ _ _ L Hl). split.
  - intros H. exists (map Z.to_nat (cell_index cs ss ps pos)). apply (in_box_cell _ _ _ _ _ _ _ L Hl). auto.
  - intros [ix H]. apply (in_box_cell _ _ _ _ _ _ _ L Hl) in H. tauto.
Qed.

Lemma in_box_unique ns cs ss ps es pos ix jx : lat ns cs ss ps es -> length pos = length ns ->
  in_box es ix pos = true -> in_box es jx pos = true -> ix = jx.
Proof.
  intros L Hl H1 H2. apply (in_box_cell _ _ _ _ _ _ _ L Hl) in H1 as [_ <-].
  apply (in_box_cell _ _ _ _ _ _ _ L Hl) in H2 as [_ <-]. reflexivity.
Qed.

(** dropping one axis *)
Lemma lat_del ns cs ss ps es i : lat ns cs ss ps es ->
  lat (del_nth ns i) (del_nth cs i) (del_nth ss i) (del_nth ps i) (del_nth es i).
Proof.
  intros L; revert i; induction L as [|n c s p e m fe fc ns cs ss ps es O L IH]; intros i.
  - simpl. constructor.
  - destruct i; simpl; auto. econstructor; eauto.
Qed.

Lemma in_box_ins es i ix pos k x e : (i < length es)%nat -> nth_error es i = Some e ->
  in_box es (ins_nth ix i k) (ins_nth pos i x) =
  ((length ix =? length es - 1)%nat && (length pos =? length es - 1)%nat && in_bin e k x && in_box (del_nth es i) ix pos)%bool.
Proof.
  revert i ix pos; induction es as [|e0 es IH]; intros i ix pos Hi He; [simpl in Hi; lia|].
  assert (B : forall es ix pos, in_box es ix pos = true -> length ix = length es /\ length pos = length es).
  { clear. induction es as [|e es IH]; intros [|i ix] [|p pos]; simpl; try discriminate; auto.
    intros H. apply andb_prop in H as [_ H]. apply IH in H. lia. }
  destruct i as [|i]; simpl in *.
  - inversion He; subst e0; clear He. rewrite !Nat.sub_0_r.
    destruct (in_box es ix pos) eqn:E.
    + apply B in E as [-> ->]. rewrite !Nat.eqb_refl. simpl. rewrite !andb_true_r. reflexivity.
    + rewrite !andb_false_r. reflexivity.
  - rewrite !Nat.sub_0_r. destruct ix as [|k0 ix], pos as [|x0 pos]; simpl.
    + destruct (length es) eqn:E; [lia|]. simpl. destruct es; simpl in *; [lia|]. destruct i; simpl in *.
      * rewrite andb_false_r. reflexivity.
      * rewrite andb_false_r. reflexivity.
    + destruct (length es) eqn:E; [lia|]. simpl. destruct es; simpl in *; [lia|].
      rewrite andb_false_iff. right. destruct pos, i; reflexivity.
    + destruct (length es) eqn:E; [lia|]. simpl. destruct es; simpl in *; [lia|].
      rewrite !andb_false_r. simpl. rewrite andb_false_iff. right. destruct ix, i; simpl; reflexivity.
    + rewrite IH by (auto; lia). destruct (length es) eqn:E; [lia|]. simpl. rewrite Nat.sub_0_r.
      destruct (length ix =? n)%nat, (length pos =? n)%nat, (in_bin e k x), (in_bin e0 k0 x0), (in_box (del_nth es i) ix pos); reflexivity.
Qed.

(** * Accumulating contributions *)
Section Accum.
Context {A : Alg}.
Add Ring A_ring : (v_rt A).

Definition ixeq (ix jx : list nat) : bool := if list_eq_dec Nat.eq_dec ix jx then true else false.
Lemma ixeq_true ix jx : ixeq ix jx = true <-> ix = jx.
Proof. unfold ixeq. destruct (list_eq_dec Nat.eq_dec ix jx); split; congruence. Qed.
Lemma ixeq_refl ix : ixeq ix ix = true. Proof. apply ixeq_true; auto. Qed.

Definition add_all (d : arr A) (l : list (list nat * A)) : arr A :=
  fold_left (fun d iv => aalter (fun x => (x + snd iv)%V) d (fst iv)) l d.

Lemma add_all_shape l d : shape (add_all d l) = shape d.
Proof. revert d; induction l as [|a l IH]; intros d; simpl; auto. unfold add_all in *. simpl. rewrite IH. reflexivity. Qed.
Lemma add_all_wf l d : awf d -> awf (add_all d l).
Proof. revert d; induction l as [|a l IH]; intros d; simpl; auto. intros W. unfold add_all in *. simpl. apply IH, aalter_wf; auto. Qed.

Lemma get_add_all l d jx :
  (forall iv, In iv l -> inb (shape d) (fst iv) = true) ->
  get (add_all d l) jx =
  option_map (fun x => (x + vsum (map snd (filter (fun iv => ixeq (fst iv) jx) l)))%V) (get d jx).
Proof.
  revert d; induction l as [|a l IH]; intros d H.
  - unfold add_all; simpl. destruct (get d jx); simpl; auto. f_equal. unfold vsum; simpl. ring.
  - unfold add_all in *. simpl. rewrite IH by (intros; rewrite shape_aalter; apply H; simpl; auto).
    rewrite get_aalter by (apply H; simpl; auto). unfold ixeq at 2.
    destruct (list_eq_dec Nat.eq_dec (fst a) jx) as [E|E]; auto.
    destruct (get d jx); simpl; auto. f_equal. rewrite vsum_cons. ring.
Qed.

Lemma getd_add_all l d jx : awf d ->
  (forall iv, In iv l -> inb (shape d) (fst iv) = true) -> inb (shape d) jx = true ->
  getd v0 (add_all d l) jx = (getd v0 d jx + vsum (map snd (filter (fun iv => ixeq (fst iv) jx) l)))%V.
Proof.
  intros W H Hj. unfold getd. rewrite get_add_all by auto.
  destruct (get_inb_some d jx W Hj) as [x ->]. reflexivity.
Qed.

Lemma fold_left_ext_in {X Y} (f g : X -> Y -> X) l a :
  (forall x y, In y l -> f x y = g x y) -> fold_left f l a = fold_left g l a.
Proof.
  revert a; induction l as [|y l IH]; intros a H; simpl; auto.
  rewrite H by (simpl; auto). apply IH. intros; apply H; simpl; auto.
Qed.
Lemma fold_left_map {X Y Z} (f : X -> Y -> X) (h : Z -> Y) l a :
  fold_left f (map h l) a = fold_left (fun x z => f x (h z)) l a.
Proof. revert a; induction l; intros a0; simpl; auto. Qed.
Lemma fold_left_flat_map {X Y Z} (f : X -> Y -> X) (h : Z -> list Y) l a :
  fold_left f (flat_map h l) a = fold_left (fun x z => fold_left f (h z) x) l a.
Proof. revert a; induction l; intros a0; simpl; auto. rewrite fold_left_app. auto. Qed.

Lemma add_at_all d k ixs vs :
  add_at d k ixs vs = add_all d (map (fun iv => (fst iv ++ [k], snd iv)) (combine ixs vs)).
Proof. unfold add_at, add_all. rewrite fold_left_map. reflexivity. Qed.

Lemma add_spectra_all d ax p ixs rows :
  add_spectra d ax p ixs rows =
  add_all d (flat_map (fun ir => map (fun kv => (ins_nth (fst ir) ax (fst kv) ++ [p], snd kv))
                                     (combine (seq 0 (length (snd ir))) (snd ir))) (combine ixs rows)).
Proof.
  unfold add_spectra, add_all. rewrite fold_left_flat_map. apply fold_left_ext_in. intros x y _.
  unfold add_spectrum. rewrite fold_left_map. reflexivity.
Qed.

Lemma add_all_app d l m : add_all (add_all d l) m = add_all d (l ++ m).
Proof. unfold add_all. rewrite fold_left_app. reflexivity. Qed.

Lemma add_all_fold {X} (f : X -> list (list nat * A)) l d :
  fold_left (fun d x => add_all d (f x)) l d = add_all d (flat_map f l).
Proof. unfold add_all. rewrite fold_left_flat_map. reflexivity. Qed.

End Accum.
