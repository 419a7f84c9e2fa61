(** Proofs about the figures of a grid. *)
From Coq Require Import Sorted String.
From Verif Require Import Util Rat Val Arr GridModel GridModel2 GridSpec FigModel FigSpec.
Open Scope Qc_scope.

(** * Axes kept *)
Lemma filter_sorted_aux (l : list nat) : forall s m, StronglySorted lt l -> (forall x, In x l -> s <= x < s + m)%nat ->
  filter (fun i => mem_nat i l) (seq s m) = l.
Proof.
  intros s m; revert s l. induction m as [|m IH]; intros s l S B.
  - destruct l as [|x l]; [reflexivity|]. specialize (B x (or_introl eq_refl)). lia.
  - cbn [seq filter]. destruct l as [|x l].
    + cbn. apply filter_none. reflexivity.
    + inversion S as [|? ? S' F]; subst. rewrite Forall_forall in F.
      destruct (Nat.eq_dec x s) as [->|N].
      * cbn [mem_nat existsb]. unfold mem_nat; cbn [existsb]. rewrite Nat.eqb_refl. cbn [orb]. f_equal.
        etransitivity; [|apply (IH (Datatypes.S s) l S')].
        -- apply filter_ext_in. intros y Hy. apply in_seq in Hy. unfold mem_nat; cbn [existsb].
           replace (y =? s)%nat with false by (symmetry; apply Nat.eqb_neq; lia). reflexivity.
        -- intros y Hy. specialize (F y Hy). specialize (B y (or_intror Hy)). lia.
      * assert (E : mem_nat s (x :: l) = false).
        { apply mem_nat_false. intros [Q|Q]; [congruence|]. specialize (F s Q).
          specialize (B x (or_introl eq_refl)). lia. }
        rewrite E. apply IH; [exact S|]. intros y Hy. specialize (B y Hy).
        assert (y <> s). { intros ->. apply mem_nat_spec in Hy. congruence. } lia.
Qed.

Lemma others_keep n (drop keep : list nat) : StronglySorted lt keep -> (forall x, In x keep -> x < n)%nat ->
  (forall k, (k < n)%nat -> In k drop <-> ~ In k keep) -> others n drop = keep.
Proof.
  intros S B H. unfold others. etransitivity; [|apply (filter_sorted_aux keep 0 n S)].
  - apply filter_ext_in. intros k Hk. apply in_seq in Hk. specialize (H k ltac:(lia)).
    destruct (mem_nat k keep) eqn:E1, (mem_nat k drop) eqn:E2; try reflexivity; exfalso.
    + apply mem_nat_spec in E1, E2. tauto.
    + apply mem_nat_false in E1, E2. tauto.
  - intros x Hx. specialize (B x Hx). lia.
Qed.

Lemma pyidx_nat n i : (i < n)%nat -> pyidx n (Z.of_nat i) = Ok i.
Proof.
  intros H. unfold pyidx. replace ((0 <=? Z.of_nat i) && (Z.of_nat i <? Z.of_nat n))%Z%bool with true
    by (symmetry; apply andb_true_intro; split; lia). f_equal. lia.
Qed.
Lemma pyget_nat {X} (l : list X) i dx : (i < length l)%nat -> pyget l (Z.of_nat i) = Ok (nth i l dx).
Proof. intros H. unfold pyget. rewrite pyidx_nat by exact H. cbn. rewrite (nth_error_nth' l dx H). reflexivity. Qed.

Lemma norm_axes_nat n l : NoDup l -> (forall x, In x l -> x < n)%nat -> norm_axes n (map Z.of_nat l) = Ok l.
Proof.
  intros N B. unfold norm_axes.
  assert (E : mapM (fun z => match pyidx n z with Ok i => Ok i | Raise _ => Raise ValueError end) (map Z.of_nat l) = Ok l).
  { clear N. induction l as [|x l IH]; [reflexivity|]. cbn [map mapM]. rewrite pyidx_nat by (apply B; left; reflexivity). cbn.
    rewrite IH; [reflexivity|]. intros y Hy; apply B; right; exact Hy. }
  rewrite E. cbn. rewrite (proj2 (nodupb_spec l) N). reflexivity.
Qed.

Lemma np_sum_nat {A : Alg} l (a : arr A) : NoDup l -> (forall x, In x l -> x < length (shape a))%nat ->
  np_sum (map Z.of_nat l) a = Ok (sum_out l a).
Proof. intros N B. unfold np_sum. rewrite norm_axes_nat by assumption. reflexivity. Qed.

Lemma existsb_nat k l : existsb (Z.eqb (Z.of_nat k)) (map Z.of_nat l) = mem_nat k l.
Proof.
  unfold mem_nat. induction l as [|x l IH]; [reflexivity|]. cbn [map existsb]. rewrite IH. f_equal.
  destruct (Nat.eqb_spec k x) as [->|N]; [apply Z.eqb_refl|]. apply Z.eqb_neq. lia.
Qed.

Lemma remaining_others n l : filter (fun i => negb (existsb (Z.eqb (Z.of_nat i)) (map Z.of_nat l))) (seq 0 n) = others n l.
Proof. unfold others. apply filter_ext. intros i. rewrite existsb_nat. reflexivity. Qed.

Lemma others_in n l k : In k (others n l) <-> (k < n)%nat /\ ~ In k l.
Proof.
  unfold others. rewrite filter_In, in_seq. split; intros [H1 H2]; split; try lia.
  - apply mem_nat_false. destruct (mem_nat k l); [discriminate|reflexivity].
  - apply mem_nat_false in H2. rewrite H2. reflexivity.
Qed.
Lemma others_nodup n l : NoDup (others n l).
Proof. apply NoDup_filter, seq_NoDup. Qed.

(** * Two dimensional arrays *)
Lemma inb2 a b i j : inb [a; b] [i; j] = ((i <? a) && (j <? b))%nat%bool.
Proof. cbn. rewrite andb_true_r. reflexivity. Qed.
Lemma inb3 a b c i j k : inb [a; b; c] [i; j; k] = ((i <? a) && ((j <? b) && (k <? c)))%nat%bool.
Proof. cbn. rewrite andb_true_r. reflexivity. Qed.

Section Fig.
Context {A : Alg}.
Add Ring A_ringF : (v_rt A).
Notation grid := (grid A).

Lemma T_pictures (a : arr A) m n F : shape a = [m; n] -> (forall i j, (i < m)%nat -> (j < n)%nat -> get a [i; j] = Some (F i j)) ->
  pictures (np_T a) m n F.
Proof.
  intros S H. unfold pictures, np_T. rewrite S. cbn [rev app]. split; [reflexivity|].
  intros i j Hi Hj. rewrite get_tab, inb2. replace ((j <? n) && (i <? m))%nat%bool with true by (symmetry; apply andb_true_intro; split; apply Nat.ltb_lt; assumption).
  f_equal. cbn [rev app]. unfold getd. rewrite H by assumption. reflexivity.
Qed.

(** the sum over the axes not kept, as a total over cells *)
Lemma get_sum_out drop keep (a : arr A) ix : others (length (shape a)) drop = keep -> inb (at_pos keep (shape a)) ix = true ->
  get (sum_out drop a) ix =
  Some (vsum (map (getd v0 a) (filter (fun jx => if list_eq_dec Nat.eq_dec (at_pos keep jx) ix then true else false) (idxs (shape a))))).
Proof. intros E I. unfold sum_out. rewrite E. rewrite get_tab, I. reflexivity. Qed.

Lemma shape_sum_out drop keep (a : arr A) : others (length (shape a)) drop = keep -> shape (sum_out drop a) = at_pos keep (shape a).
Proof. intros E. unfold sum_out. rewrite E. reflexivity. Qed.

(** a total over the whole data array restricted to one property is a total over cells *)
Lemma total_prop sh np p (f : list nat -> A) (P : list nat -> bool) (Q : list nat -> bool) : (p < np)%nat ->
  (forall jx q, inb sh jx = true -> (q < np)%nat -> Q (jx ++ [q]) = (P jx && (q =? p))%nat%bool) ->
  vsum (map f (filter Q (idxs (sh ++ [np])))) = vsum (map (fun jx => f (jx ++ [p])) (filter P (idxs sh))).
Proof.
  intros Hp H. rewrite !vsum_filter, idxs_app, vsum_map_flat_map. apply vsum_ext. intros jx Hj. apply in_idxs in Hj.
  rewrite map_map. cbn [idxs].
  assert (E : flat_map (fun i => map (cons i) [[]]) (seq 0 np) = map (fun i => [i]) (seq 0 np)).
  { generalize (seq 0 np). induction l as [|x l IH]; [reflexivity|]. cbn. f_equal. }
  rewrite E, map_map.
  rewrite (vsum_single _ (seq 0 np) p).
  - rewrite H by assumption. rewrite Nat.eqb_refl, andb_true_r. reflexivity.
  - apply seq_NoDup.
  - apply in_seq. lia.
  - intros q Hq N. apply in_seq in Hq. rewrite H by (assumption || lia). apply Nat.eqb_neq in N. rewrite N, andb_false_r. reflexivity.
Qed.

Lemma plane_ok (a : arr A) m n k p : shape a = [m; n; k] -> (p < k)%nat ->
  plane (Z.of_nat p) a = Ok (tab [m; n] (fun ix => getd v0 a (sel_index [None; None; Some p] ix))).
Proof.
  intros S Hp. unfold plane. rewrite S. unfold np_index. rewrite S. cbn [np_sel]. rewrite pyidx_nat by exact Hp. cbn [bind np_sel sel_shape]. reflexivity.
Qed.

Lemma shape_d (g : grid) d : consistent g -> g_data g = Some d -> shape d = g_npix g ++ [g_nprop g] /\ length (g_npix g) = g_ndim g /\ awf d.
Proof.
  intros C E. pose proof (co_data _ C) as K. rewrite E in K. destruct K as [K1 K2]. split; [exact K2|]. split; [apply (co_n _ C)|exact K1].
Qed.

Lemma nth_npix (g : grid) a : (a < length (g_npix g))%nat -> nth a (g_npix g ++ [g_nprop g]) 0%nat = nth a (g_npix g) 0%nat.
Proof. intros H. apply app_nth1, H. Qed.

Lemma axes_len (g : grid) a : consistent g -> (a < g_ndim g)%nat -> length (nth a (g_axes g) []) = S (nth a (g_npix g) 0%nat).
Proof. intros C H. apply (ao_elen _ _ _ _ _ _ _ _ (co_axis _ C a H)). Qed.

Lemma ss3 a b c : (a < b)%nat -> (b < c)%nat -> StronglySorted lt [a; b; c].
Proof. intros. repeat constructor; lia. Qed.

(** the preliminaries of visualize *)
Lemma visualize_start (g : grid) d a0 a1 sl prop : consistent g -> g_data g = Some d -> (a0 < g_ndim g)%nat -> (a1 < g_ndim g)%nat -> (2 <= g_ndim g)%nat ->
  grid_visualize g [Z.of_nat a0; Z.of_nat a1] sl prop =
  (do image <- match sl with
               | SumOut => do s <- np_sum (map Z.of_nat (others (g_ndim g) [a0; a1])) d ;; plane prop s
               | AtIndices l =>
                   do _ <- check (length l =? length (others (g_ndim g) [a0; a1]))%nat ValueError ;;
                   do s <- np_index (slice_tuple (g_ndim g) 0 [Z.of_nat a0; Z.of_nat a1] l) d ;; plane prop s
               end ;; pcolor (nth a0 (g_axes g) []) (nth a1 (g_axes g) []) (np_T (np_real image))).
Proof.
  intros C E H0 H1 H2. unfold grid_visualize. rewrite E. rewrite (proj2 (Nat.leb_le 2 (g_ndim g)) H2). cbn [check bind].
  change (pyget [Z.of_nat a0; Z.of_nat a1] 0) with (Ok (Z.of_nat a0)). change (pyget [Z.of_nat a0; Z.of_nat a1] 1) with (Ok (Z.of_nat a1)).
  cbn [bind]. rewrite (pyget_nat (g_axu g) a0 None) by (rewrite (co_au _ C); exact H0).
  rewrite (pyget_nat (g_axu g) a1 None) by (rewrite (co_au _ C); exact H1). cbn [bind length Nat.eqb check].
  change [Z.of_nat a0; Z.of_nat a1] with (map Z.of_nat [a0; a1]). rewrite remaining_others.
  rewrite (pyget_nat (g_axes g) a0 []) by (rewrite (co_ax _ C); exact H0).
  rewrite (pyget_nat (g_axes g) a1 []) by (rewrite (co_ax _ C); exact H1). cbn [bind]. reflexivity.
Qed.

Lemma keep2 (n a b : nat) : (a < b)%nat -> (b < n)%nat -> others (n + 1) (others n [a; b]) = [a; b; n].
Proof.
  intros H1 H2. apply others_keep; [apply ss3; lia| |].
  - cbn. intros x [<-|[<-|[<-|[]]]]; lia.
  - intros k Hk. rewrite others_in. cbn. split.
    + intros [K1 K2] [<-|[<-|[<-|[]]]]; try tauto; lia.
    + intros K. split; [|tauto]. assert (k <> n) by (intros ->; tauto). lia.
Qed.

Lemma others_sym n a b : others n [a; b] = others n [b; a].
Proof. unfold others. apply filter_ext. intros i. unfold mem_nat. cbn [existsb]. destruct (i =? a)%nat, (i =? b)%nat; reflexivity. Qed.

(** the image summed over the other axes *)
Lemma sum_image (g : grid) d a b p : consistent g -> g_data g = Some d -> (a < b)%nat -> (b < g_ndim g)%nat -> (p < g_nprop g)%nat ->
  exists im, (do s <- np_sum (map Z.of_nat (others (g_ndim g) [a; b])) d ;; plane (Z.of_nat p) s) = Ok im /\
  shape im = [nth a (g_npix g) 0%nat; nth b (g_npix g) 0%nat] /\
  forall i j, (i < nth a (g_npix g) 0)%nat -> (j < nth b (g_npix g) 0)%nat ->
    get im [i; j] = Some (cells_total g d p (fun x => x) (fun jx => on_axis a i jx && on_axis b j jx)%bool).
Proof.
  intros C E Hab Hb Hp. destruct (shape_d g d C E) as (S & L & W).
  assert (LS : length (shape d) = (g_ndim g + 1)%nat) by (rewrite S, app_length, L; reflexivity).
  assert (K : others (length (shape d)) (others (g_ndim g) [a; b]) = [a; b; g_ndim g]) by (rewrite LS; apply keep2; assumption).
  rewrite np_sum_nat; [|apply others_nodup|intros x Hx; apply others_in in Hx; lia]. cbn [bind].
  assert (Sh : shape (sum_out (others (g_ndim g) [a; b]) d) = [nth a (g_npix g) 0%nat; nth b (g_npix g) 0%nat; g_nprop g]).
  { rewrite (shape_sum_out _ _ _ K), S. unfold at_pos. cbn [map]. rewrite !nth_npix by (rewrite L; lia).
    rewrite app_nth2, L by (rewrite L; lia). rewrite Nat.sub_diag. reflexivity. }
  rewrite (plane_ok _ _ _ _ p Sh Hp). eexists. split; [reflexivity|]. split; [reflexivity|].
  intros i j Hi Hj. rewrite get_tab, inb2. rewrite (proj2 (Nat.ltb_lt _ _) Hi), (proj2 (Nat.ltb_lt _ _) Hj). cbn [andb sel_index].
  f_equal. unfold getd at 1. rewrite (get_sum_out _ [a; b; g_ndim g] d [i; j; p] K).
  - rewrite S. unfold cells_total. apply (total_prop (g_npix g) (g_nprop g) p (getd v0 d) (fun jx => on_axis a i jx && on_axis b j jx)%bool); [exact Hp|].
    intros jx q Ij Hq. apply inb_length in Ij. rewrite L in Ij. unfold at_pos, on_axis. cbn [map].
    rewrite !app_nth1 by lia. rewrite app_nth2 by lia. rewrite Ij, Nat.sub_diag. cbn [nth].
    destruct (Nat.eqb_spec (nth a jx 0%nat) i), (Nat.eqb_spec (nth b jx 0%nat) j), (Nat.eqb_spec q p); cbn [andb];
      destruct (list_eq_dec Nat.eq_dec _ _); try reflexivity; congruence.
  - rewrite <- (shape_sum_out _ _ _ K), Sh, inb3. rewrite (proj2 (Nat.ltb_lt _ _) Hi), (proj2 (Nat.ltb_lt _ _) Hj), (proj2 (Nat.ltb_lt _ _) Hp). reflexivity.
Qed.

Lemma pcolor_ok (x y : list Qc) (c : arr A) r k : shape c = [r; k] -> length x = Datatypes.S k -> length y = Datatypes.S r -> pcolor x y c = Ok (mkPanel x y c).
Proof. intros S Lx Ly. unfold pcolor. rewrite S, Lx, Ly. rewrite !Nat.add_1_r, !Nat.eqb_refl. reflexivity. Qed.

Lemma real_pictures (im : arr A) m n F : shape im = [m; n] -> (forall i j, (i < m)%nat -> (j < n)%nat -> get im [i; j] = Some (F i j)) ->
  pictures (np_T (np_real im)) m n (fun i j => vre (F i j)).
Proof.
  intros S H. apply T_pictures; [exact S|]. intros i j Hi Hj. unfold np_real. rewrite get_amap, H by assumption. reflexivity.
Qed.

Lemma vis_sum (g : grid) d a b p : consistent g -> g_data g = Some d -> (a < b)%nat -> (b < g_ndim g)%nat -> (p < g_nprop g)%nat ->
  exists P, grid_visualize g [Z.of_nat a; Z.of_nat b] SumOut (Z.of_nat p) = Ok P /\
    p_x P = nth a (g_axes g) [] /\ p_y P = nth b (g_axes g) [] /\
    pictures (p_c P) (nth a (g_npix g) 0%nat) (nth b (g_npix g) 0%nat)
      (fun i j => vre (cells_total g d p (fun x => x) (fun jx => on_axis a i jx && on_axis b j jx)%bool)).
Proof.
  intros C E Hab Hb Hp. rewrite (visualize_start g d a b SumOut _ C E) by lia.
  destruct (sum_image g d a b p C E Hab Hb Hp) as (im & Ei & Si & Gi). cbn [bind] in Ei |- *. rewrite Ei. cbn [bind].
  pose proof (real_pictures im _ _ _ Si Gi) as R. 
  erewrite pcolor_ok; [|apply (proj1 R)|apply axes_len; [exact C|lia]|apply axes_len; [exact C|lia]].
  eexists. split; [reflexivity|]. cbn [p_x p_y p_c]. split; [reflexivity|]. split; [reflexivity|]. exact R.
Qed.

(** the property index *)
Lemma pyidx_end n i : (i < n)%nat -> pyidx n (Z.of_nat i - Z.of_nat n) = Ok i.
Proof.
  intros H. unfold pyidx. replace ((0 <=? Z.of_nat i - Z.of_nat n) && (Z.of_nat i - Z.of_nat n <? Z.of_nat n))%Z%bool with false
    by (symmetry; apply andb_false_iff; left; lia).
  replace ((- Z.of_nat n <=? Z.of_nat i - Z.of_nat n) && (Z.of_nat i - Z.of_nat n <? 0))%Z%bool with true
    by (symmetry; apply andb_true_intro; split; lia). f_equal. lia.
Qed.
Lemma pyidx_out n z : (z < - Z.of_nat n \/ Z.of_nat n <= z)%Z -> pyidx n z = Raise IndexError.
Proof.
  intros H. unfold pyidx. replace ((0 <=? z) && (z <? Z.of_nat n))%Z%bool with false by (symmetry; apply andb_false_iff; lia).
  replace ((- Z.of_nat n <=? z) && (z <? 0))%Z%bool with false by (symmetry; apply andb_false_iff; lia). reflexivity.
Qed.
Lemma sum_shape (g : grid) d a b : consistent g -> g_data g = Some d -> (a < b)%nat -> (b < g_ndim g)%nat ->
  exists s, np_sum (map Z.of_nat (others (g_ndim g) [a; b])) d = Ok s /\
  shape s = [nth a (g_npix g) 0%nat; nth b (g_npix g) 0%nat; g_nprop g].
Proof.
  intros C E Hab Hb. destruct (shape_d g d C E) as (S & L & W).
  assert (LS : length (shape d) = (g_ndim g + 1)%nat) by (rewrite S, app_length, L; reflexivity).
  assert (K : others (length (shape d)) (others (g_ndim g) [a; b]) = [a; b; g_ndim g]) by (rewrite LS; apply keep2; assumption).
  rewrite np_sum_nat; [|apply others_nodup|intros x Hx; apply others_in in Hx; lia]. eexists. split; [reflexivity|].
  rewrite (shape_sum_out _ _ _ K), S. unfold at_pos. cbn [map]. rewrite !nth_npix by (rewrite L; lia).
  rewrite app_nth2, L by (rewrite L; lia). rewrite Nat.sub_diag. reflexivity.
Qed.
Lemma vis_prop_index (g : grid) d a b : consistent g -> g_data g = Some d -> (a < b)%nat -> (b < g_ndim g)%nat ->
  (forall p, (p < g_nprop g)%nat ->
     grid_visualize g [Z.of_nat a; Z.of_nat b] SumOut (Z.of_nat p - Z.of_nat (g_nprop g)) = grid_visualize g [Z.of_nat a; Z.of_nat b] SumOut (Z.of_nat p)) /\
  (forall z, (z < - Z.of_nat (g_nprop g) \/ Z.of_nat (g_nprop g) <= z)%Z -> grid_visualize g [Z.of_nat a; Z.of_nat b] SumOut z = Raise IndexError).
Proof.
  intros C E Hab Hb. destruct (sum_shape g d a b C E Hab Hb) as (s & Es & Ss). split.
  - intros p Hp. rewrite !(visualize_start g d a b SumOut _ C E) by lia. rewrite Es. cbn [bind].
    unfold plane, np_index. rewrite Ss. cbn [np_sel]. rewrite pyidx_end, pyidx_nat by exact Hp. reflexivity.
  - intros z Hz. rewrite (visualize_start g d a b SumOut _ C E) by lia. rewrite Es. cbn [bind].
    unfold plane, np_index. rewrite Ss. cbn [np_sel]. rewrite pyidx_out by exact Hz. reflexivity.
Qed.

(** the two axes named in decreasing order *)
Lemma vis_swapped (g : grid) d a b p : consistent g -> g_data g = Some d -> (a < b)%nat -> (b < g_ndim g)%nat -> (p < g_nprop g)%nat ->
  (nth a (g_npix g) 0%nat <> nth b (g_npix g) 0%nat -> grid_visualize g [Z.of_nat b; Z.of_nat a] SumOut (Z.of_nat p) = Raise TypeError) /\
  (nth a (g_npix g) 0%nat = nth b (g_npix g) 0%nat -> exists P, grid_visualize g [Z.of_nat b; Z.of_nat a] SumOut (Z.of_nat p) = Ok P /\
     p_x P = nth b (g_axes g) [] /\ p_y P = nth a (g_axes g) [] /\
     pictures (p_c P) (nth b (g_npix g) 0%nat) (nth a (g_npix g) 0%nat)
      (fun i j => vre (cells_total g d p (fun x => x) (fun jx => on_axis a i jx && on_axis b j jx)%bool))).
Proof.
  intros C E Hab Hb Hp. rewrite (visualize_start g d b a SumOut _ C E) by lia. rewrite (others_sym _ b a).
  destruct (sum_image g d a b p C E Hab Hb Hp) as (im & Ei & Si & Gi). cbn [bind] in Ei |- *. rewrite Ei. cbn [bind].
  pose proof (real_pictures im _ _ _ Si Gi) as R. pose proof (axes_len g a C ltac:(lia)) as La. pose proof (axes_len g b C ltac:(lia)) as Lb.
  split; intros N.
  - unfold pcolor. rewrite (proj1 R), La, Lb.
    replace (_ || _)%bool with false; [reflexivity|]. symmetry. apply orb_false_intro; apply andb_false_iff.
    + left. apply Nat.eqb_neq. lia.
    + destruct (Nat.eq_dec (Datatypes.S (nth b (g_npix g) 0)) (nth a (g_npix g) 0))%nat as [Q|Q]; [right|left]; apply Nat.eqb_neq; lia.
  - rewrite <- N in *. erewrite pcolor_ok; [|apply (proj1 R)|exact Lb|exact La].
    eexists. split; [reflexivity|]. cbn [p_x p_y p_c]. split; [reflexivity|]. split; [reflexivity|]. exact R.
Qed.

(** * A slice *)
Definition part (q : nat -> bool) (s : nat) (jx : list nat) : list nat :=
  map snd (filter (fun p => q (fst p)) (combine (seq s (length jx)) jx)).
Definition isax (ax : list Z) (k : nat) : bool := existsb (Z.eqb (Z.of_nat k)) ax.

Lemma slice_sel ax rest tl : forall sh jx s, inb sh jx = true ->
  exists sel, np_sel (sh ++ rest) (slice_tuple (length sh) s ax (map Z.of_nat (part (fun k => negb (isax ax k)) s jx))) = Ok sel /\
    sel_shape sel (sh ++ rest) = part (isax ax) s sh ++ rest /\
    (forall kx, length kx = length jx -> part (fun k => negb (isax ax k)) s kx = part (fun k => negb (isax ax k)) s jx ->
       sel_index sel (part (isax ax) s kx ++ tl) = kx ++ tl).
Proof.
  induction sh as [|n sh IH]; intros [|i jx] s I; cbn in I; try discriminate.
  - exists []. cbn. split; [destruct rest; reflexivity|]. split; [reflexivity|]. intros kx L _. destruct kx; [reflexivity|discriminate].
  - apply andb_prop in I as [I1 I2]. apply Nat.ltb_lt in I1. destruct (IH jx (S s) I2) as (sel & E1 & E2 & E3).
    unfold part in *. cbn [length seq combine filter fst slice_tuple app].
    change (existsb (Z.eqb (Z.of_nat s)) ax) with (isax ax s). destruct (isax ax s) eqn:Q; cbn [negb map snd].
    + cbn [np_sel]. rewrite E1. cbn [bind]. eexists. split; [reflexivity|]. split; [cbn [sel_shape map snd app]; rewrite E2; reflexivity|].
      intros [|k kx] L K; [discriminate|]. cbn [length seq combine filter fst] in K |- *. rewrite Q in *. cbn [negb map snd app sel_index] in *.
      rewrite E3; [reflexivity|cbn in L; lia|exact K].
    + cbn [np_sel]. rewrite pyidx_nat by exact I1. cbn [bind]. rewrite E1. cbn [bind]. eexists. split; [reflexivity|].
      split; [cbn [sel_shape]; rewrite E2; reflexivity|].
      intros [|k kx] L K; [discriminate|]. cbn [length seq combine filter fst] in K |- *. rewrite Q in *. cbn [negb map snd app sel_index] in *.
      injection K as -> K. rewrite E3; [reflexivity|cbn in L; lia|exact K].
Qed.

Lemma part_none q s jx : (forall k, (s <= k < s + length jx)%nat -> q k = false) -> part q s jx = [].
Proof.
  revert s. induction jx as [|i jx IH]; intros s H; [reflexivity|]. unfold part in *. cbn [length seq combine filter fst].
  rewrite H by (cbn [length]; lia). apply IH. intros k Hk. apply H. cbn [length]. lia.
Qed.
Lemma part_ext q q' s jx : (forall k, q k = q' k) -> part q s jx = part q' s jx.
Proof. intros H. unfold part. f_equal. apply filter_ext. intros x. apply H. Qed.

Lemma part_one b s jx : (s <= b < s + length jx)%nat -> part (fun k => (k =? b)%nat) s jx = [nth (b - s) jx 0%nat].
Proof.
  revert s. induction jx as [|i jx IH]; intros s H; cbn [length] in H; [lia|]. unfold part in *. cbn [length seq combine filter fst].
  destruct (Nat.eqb_spec s b) as [->|N].
  - rewrite Nat.sub_diag. cbn. f_equal. apply (part_none (fun k => (k =? b)%nat) (S b)). intros k Hk. apply Nat.eqb_neq. lia.
  - rewrite IH by lia. replace (b - s)%nat with (S (b - S s)) by lia. reflexivity.
Qed.

Lemma part_two a b s jx : (s <= a)%nat -> (a < b)%nat -> (b < s + length jx)%nat ->
  part (fun k => (k =? a) || (k =? b))%nat%bool s jx = [nth (a - s) jx 0%nat; nth (b - s) jx 0%nat].
Proof.
  revert s. induction jx as [|i jx IH]; intros s H1 H2 H3; cbn [length] in H3; [lia|]. 
  destruct (Nat.eqb_spec s a) as [->|N].
  - unfold part. cbn [length seq combine filter fst]. rewrite Nat.eqb_refl. cbn [orb map snd]. rewrite Nat.sub_diag. cbn [nth]. f_equal.
    replace (b - a)%nat with (S (b - S a)) by lia. cbn [nth]. rewrite <- (part_one b (S a) jx) by lia.
    unfold part. f_equal. apply filter_ext_in. intros [k v] Hk. apply in_combine_l in Hk. apply in_seq in Hk. cbn [fst].
    replace (k =? a)%nat with false by (symmetry; apply Nat.eqb_neq; lia). reflexivity.
  - unfold part in *. cbn [length seq combine filter fst]. 
    replace (s =? a)%nat with false by (symmetry; apply Nat.eqb_neq; lia). replace (s =? b)%nat with false by (symmetry; apply Nat.eqb_neq; lia).
    cbn [orb]. rewrite IH by lia. replace (a - s)%nat with (S (a - S s)) by lia. replace (b - s)%nat with (S (b - S s)) by lia. reflexivity.
Qed.

Lemma part_upd q a v jx s : q (s + a)%nat = false -> part q s (upd jx a v) = part q s jx.
Proof.
  revert a s. induction jx as [|i jx IH]; intros a s H; [destruct a; reflexivity|]. destruct a as [|a]; unfold part in *; cbn [upd length seq combine filter fst].
  - rewrite Nat.add_0_r in H. rewrite H. reflexivity.
  - specialize (IH a (S s)). rewrite Nat.add_succ_r in H. cbn [Nat.add] in IH. specialize (IH H).
    destruct (q s); cbn [map]; rewrite IH; reflexivity.
Qed.

Lemma isax_two a b k : isax [Z.of_nat a; Z.of_nat b] k = ((k =? a) || (k =? b))%nat%bool.
Proof. unfold isax. change [Z.of_nat a; Z.of_nat b] with (map Z.of_nat [a; b]). rewrite existsb_nat. unfold mem_nat. cbn. rewrite orb_false_r. reflexivity. Qed.

Lemma part_others_len q jx s : length (part q s jx) = length (filter q (seq s (length jx))).
Proof.
  revert s. induction jx as [|i jx IH]; intros s; [reflexivity|]. unfold part in *. cbn [length seq combine filter fst].
  destruct (q s); cbn [map length]; rewrite IH; reflexivity.
Qed.

Lemma vis_slice (g : grid) d a b p jx : consistent g -> g_data g = Some d -> (a < b)%nat -> (b < g_ndim g)%nat -> (p < g_nprop g)%nat ->
  inb (g_npix g) jx = true ->
  exists P, grid_visualize g [Z.of_nat a; Z.of_nat b] (AtIndices (map Z.of_nat (off_axes a b jx))) (Z.of_nat p) = Ok P /\
    p_x P = nth a (g_axes g) [] /\ p_y P = nth b (g_axes g) [] /\
    pictures (p_c P) (nth a (g_npix g) 0%nat) (nth b (g_npix g) 0%nat)
      (fun i j => vre (getd v0 d (upd (upd jx a i) b j ++ [p]))).
Proof.
  intros C E Hab Hb Hp I. rewrite (visualize_start g d a b _ _ C E) by lia. destruct (shape_d g d C E) as (Sd & L & W).
  pose proof (inb_length _ _ I) as Lj. rewrite L in Lj.
  assert (O : off_axes a b jx = part (fun k => negb (isax [Z.of_nat a; Z.of_nat b] k)) 0 jx).
  { unfold off_axes. apply (part_ext (fun k => negb ((k =? a) || (k =? b))%nat%bool)). intros k. rewrite isax_two. reflexivity. }
  assert (Q : (length (map Z.of_nat (off_axes a b jx)) =? length (others (g_ndim g) [a; b]))%nat = true).
  { apply Nat.eqb_eq. rewrite map_length, O, part_others_len, Lj. unfold others. f_equal. apply filter_ext. intros k. rewrite isax_two.
    unfold mem_nat. cbn. rewrite orb_false_r. reflexivity. }
  rewrite Q. cbn [check bind]. rewrite O.
  destruct (slice_sel [Z.of_nat a; Z.of_nat b] [g_nprop g] [p] (g_npix g) jx 0 I) as (sel & E1 & E2 & E3). rewrite L in E1.
  unfold np_index at 1. rewrite Sd, E1. cbn [bind]. rewrite E2.
  assert (P2 : forall kx, length kx = g_ndim g -> part (isax [Z.of_nat a; Z.of_nat b]) 0 kx = [nth a kx 0%nat; nth b kx 0%nat]).
  { intros kx Lk. rewrite (part_ext _ _ 0 kx (isax_two a b)). rewrite part_two by lia. rewrite !Nat.sub_0_r. reflexivity. }
  rewrite (P2 (g_npix g) L). cbn [app].
  set (arr1 := tab _ _).
  rewrite (plane_ok arr1 _ _ _ p eq_refl Hp). cbn [bind].
  assert (R : pictures (np_T (np_real (tab [nth a (g_npix g) 0%nat; nth b (g_npix g) 0%nat] (fun ix => getd v0 arr1 (sel_index [None; None; Some p] ix)))))
     (nth a (g_npix g) 0%nat) (nth b (g_npix g) 0%nat) (fun i j => vre (getd v0 d (upd (upd jx a i) b j ++ [p])))).
  { apply real_pictures; [reflexivity|]. intros i j Hi Hj. rewrite get_tab, inb2. rewrite (proj2 (Nat.ltb_lt _ _) Hi), (proj2 (Nat.ltb_lt _ _) Hj). cbn [andb sel_index].
    f_equal. unfold arr1. rewrite getd_tab.
    - f_equal. set (kx := upd (upd jx a i) b j).
      assert (Lk : length kx = length jx) by (unfold kx; rewrite !upd_length; reflexivity).
      specialize (E3 kx Lk). rewrite (P2 kx) in E3 by lia.
      replace (nth a kx 0%nat) with i in E3 by (unfold kx; rewrite nth_upd_ne by lia; rewrite nth_upd_eq by lia; reflexivity).
      replace (nth b kx 0%nat) with j in E3 by (unfold kx; rewrite nth_upd_eq by (rewrite upd_length; lia); reflexivity).
      apply E3. unfold kx. rewrite !part_upd; [reflexivity| |]; cbn [Nat.add]; rewrite isax_two, Nat.eqb_refl; rewrite ?orb_true_r; reflexivity.
    - rewrite inb3. rewrite (proj2 (Nat.ltb_lt _ _) Hi), (proj2 (Nat.ltb_lt _ _) Hj), (proj2 (Nat.ltb_lt _ _) Hp). reflexivity. }
  erewrite pcolor_ok; [|apply (proj1 R)|apply axes_len; [exact C|lia]|apply axes_len; [exact C|lia]].
  eexists. split; [reflexivity|]. cbn [p_x p_y p_c]. split; [reflexivity|]. split; [reflexivity|]. exact R.
Qed.

Lemma others_two_len n a b : (a < b)%nat -> (b < n)%nat -> length (others n [a; b]) = (n - 2)%nat.
Proof.
  intros H1 H2. assert (P : Permutation (seq 0 n) (others n [a; b] ++ [a; b])).
  { apply NoDup_Permutation; [apply seq_NoDup| |].
    - apply (Permutation_NoDup (l := [a; b] ++ others n [a; b])); [apply Permutation_app_comm|]. cbn. constructor; [|constructor; [|apply others_nodup]].
      + intros [Q|Q]; [lia|]. apply others_in in Q. cbn in Q. tauto.
      + intros Q. apply others_in in Q. cbn in Q. tauto.
    - intros x. rewrite in_app_iff, in_seq, others_in. cbn. destruct (Nat.eq_dec x a), (Nat.eq_dec x b); subst; split; intros Q; try lia; tauto || lia. }
  apply Permutation_length in P. rewrite seq_length, app_length in P. cbn in P. lia.
Qed.

Lemma vis_count (g : grid) d a b l prop : consistent g -> g_data g = Some d -> (a < b)%nat -> (b < g_ndim g)%nat ->
  length l <> (g_ndim g - 2)%nat -> grid_visualize g [Z.of_nat a; Z.of_nat b] (AtIndices l) prop = Raise ValueError.
Proof.
  intros C E H1 H2 N. rewrite (visualize_start g d a b _ _ C E) by lia. rewrite others_two_len by assumption.
  apply Nat.eqb_neq in N. rewrite N. reflexivity.
Qed.
End Fig.
