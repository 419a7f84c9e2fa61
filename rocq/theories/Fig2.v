(** Proofs about the figures of a grid, continued: bin edges and animations. *)
From Coq Require Import Sorted String.
From Verif Require Import Util Rat Val Arr GridModel GridModel2 GridSpec GridAxis FigModel FigSpec Fig.
Open Scope Qc_scope.

(** * The edges computed from centres *)
Lemma diff_nth l : forall k, (S k < length l)%nat -> nth k (diff l) 0 = nth (S k) l 0 - nth k l 0.
Proof.
  induction l as [|a l IH]; intros k H; [cbn in H; lia|]. destruct l as [|b l]; [cbn in H; lia|].
  destruct k as [|k]; [reflexivity|]. change (diff (a :: b :: l)) with ((b - a) :: diff (b :: l)). cbn [nth].
  rewrite IH by (cbn [length] in *; lia). reflexivity.
Qed.
Lemma removelast_nth {X} (l : list X) dx k : (S k < length l)%nat -> nth k (removelast l) dx = nth k l dx.
Proof.
  revert k; induction l as [|a l IH]; intros k H; [cbn in H; lia|]. destruct l as [|b l]; [cbn in H; lia|].
  change (removelast (a :: b :: l)) with (a :: removelast (b :: l)). destruct k as [|k]; [reflexivity|]. cbn [nth].
  apply IH. cbn [length] in *. lia.
Qed.
Lemma removelast_len {X} (l : list X) : length (removelast l) = (length l - 1)%nat.
Proof. induction l as [|a l IH]; [reflexivity|]. destruct l as [|b l]; [reflexivity|]. cbn [removelast length] in *. lia. Qed.
Lemma last_nth {X} (l : list X) dx : last l dx = nth (length l - 1) l dx.
Proof.
  induction l as [|a l IH]; [reflexivity|]. destruct l as [|b l]; [reflexivity|].
  change (last (a :: b :: l) dx) with (last (b :: l) dx). rewrite IH. cbn [length]. replace (S (S (length l)) - 1)%nat with (S (length l)) by lia.
  cbn [nth]. replace (S (length l) - 1)%nat with (length l) by lia. reflexivity.
Qed.

(** first, inner and last entries *)
Lemma axis_edges_at l e : axis_edges l = Ok e ->
  nth 0 e 0 = nth 0 l 0 - (nth 1 l 0 - nth 0 l 0) / zq 2 /\
  (forall k, (1 <= k < length l)%nat -> nth k e 0 = nth k l 0) /\
  nth (length l) e 0 = nth (length l - 1) l 0 + (nth (length l - 1) l 0 - nth (length l - 2) l 0) / zq 2.
Proof.
  intros H. assert (L2 : (2 <= length l)%nat).
  { destruct (le_lt_dec 2 (length l)); [assumption|]. rewrite axis_edges_short in H by lia. discriminate. }
  unfold axis_edges in H. destruct l as [|a0 l]; [discriminate|]. destruct (diff (a0 :: l)) as [|d0 ds] eqn:D; [discriminate|].
  rewrite <- D in H. set (L := a0 :: l) in *.
  set (mid := map (fun p => fst p + snd p) (combine (removelast L) (diff L))) in *.
  assert (Lm : length mid = (length L - 1)%nat).
  { unfold mid. rewrite map_length, combine_length, removelast_len, diff_length. lia. }
  assert (E : e = [a0 - d0 / zq 2] ++ mid ++ [last L 0 + last (diff L) 0 / zq 2]) by congruence. clear H.
  subst e. split.
  - cbn [app nth]. f_equal. f_equal. f_equal. transitivity (nth 0 (diff L) 0); [rewrite D; reflexivity|]. rewrite diff_nth by lia. reflexivity.
  - split.
    + intros k Hk. destruct k as [|k]; [lia|]. cbn [app nth]. rewrite app_nth1 by lia. unfold mid.
      rewrite (nth_indep _ 0 (0 + 0)) by (fold mid; lia).
      etransitivity; [apply (map_nth (fun p : Qc * Qc => fst p + snd p) (combine (removelast L) (diff L)) (0, 0) k)|].
      rewrite combine_nth by (rewrite removelast_len, diff_length; reflexivity). cbn [fst snd].
      rewrite removelast_nth by lia. rewrite diff_nth by lia. ring.
    + replace (length L) with (S (length mid)) at 1 by lia. cbn [app nth]. rewrite app_nth2, Nat.sub_diag by lia. cbn [nth].
      rewrite !last_nth, diff_length. rewrite diff_nth by lia. 
      replace (S (length L - 1 - 1)) with (length L - 1)%nat by lia. replace (length L - 1 - 1)%nat with (length L - 2)%nat by lia. reflexivity.
Qed.

Section Anim.
Context {A : Alg}.
Add Ring A_ringF2 : (v_rt A).
Notation grid := (grid A).

(** * The data of one property *)
Lemma np_sel_all sh n p : (p < n)%nat -> np_sel (sh ++ [n]) (map (fun _ => None) sh ++ [Some (Z.of_nat p)]) = Ok (map (fun _ => None) sh ++ [Some p]).
Proof. intros H. induction sh as [|m sh IH]; cbn [map app np_sel]; [rewrite pyidx_nat by exact H; reflexivity|]. rewrite IH. reflexivity. Qed.
Lemma sel_shape_all (sh : list nat) n p : sel_shape (map (fun _ => None) sh ++ [Some p]) (sh ++ [n]) = sh.
Proof. induction sh as [|m sh IH]; [reflexivity|]. cbn. f_equal. exact IH. Qed.
Lemma sel_index_all (sh : list nat) p jx : length jx = length sh -> sel_index (map (fun _ => None) sh ++ [Some p]) jx = jx ++ [p].
Proof.
  revert jx. induction sh as [|m sh IH]; intros [|j jx] L; try discriminate; [reflexivity|]. cbn in *. f_equal. apply IH. lia.
Qed.

Definition one_prop (g : grid) (d : arr A) (p : nat) : arr A := np_real (tab (g_npix g) (fun jx => getd v0 d (sel_index (map (fun _ => None) (g_npix g) ++ [Some p]) jx))).
Lemma one_prop_index (g : grid) d p : consistent g -> g_data g = Some d -> (p < g_nprop g)%nat ->
  exists x, np_index (map (fun _ => None) (g_npix g) ++ [Some (Z.of_nat p)]) d = Ok x /\ np_real x = one_prop g d p.
Proof.
  intros C E Hp. destruct (shape_d g d C E) as (S & L & W). unfold np_index. rewrite S, np_sel_all by exact Hp. cbn [bind].
  rewrite sel_shape_all. eexists. split; reflexivity.
Qed.
Lemma one_prop_get (g : grid) d p jx : inb (g_npix g) jx = true -> getd v0 (one_prop g d p) jx = vre (getd v0 d (jx ++ [p])).
Proof.
  intros I. unfold one_prop, np_real. unfold getd at 1. rewrite get_amap, get_tab, I. cbn [option_map].
  rewrite sel_index_all by (apply inb_length, I). reflexivity.
Qed.

Lemma sum_total (g : grid) d p drop keep ix P : others (length (g_npix g)) drop = keep -> inb (at_pos keep (g_npix g)) ix = true ->
  (forall jx, inb (g_npix g) jx = true -> (at_pos keep jx = ix <-> P jx = true)) ->
  get (sum_out drop (one_prop g d p)) ix = Some (cells_total g d p vre P).
Proof.
  intros K I H. rewrite (get_sum_out drop keep (one_prop g d p) ix K I). f_equal. unfold cells_total.
  change (shape (one_prop g d p)) with (g_npix g). rewrite !vsum_filter. apply vsum_ext. intros jx Hj. apply in_idxs in Hj.
  rewrite one_prop_get by exact Hj. specialize (H jx Hj).
  destruct (list_eq_dec Nat.eq_dec (at_pos keep jx) ix) as [Q|Q], (P jx); try reflexivity.
  - destruct H as [H _]. specialize (H Q). discriminate.
  - destruct H as [_ H]. specialize (H eq_refl). contradiction.
Qed.

Lemma shape_total (g : grid) d p drop keep : others (length (g_npix g)) drop = keep -> shape (sum_out drop (one_prop g d p)) = at_pos keep (g_npix g).
Proof. intros K. apply (shape_sum_out drop keep (one_prop g d p) K). Qed.

(** * The edge-on map *)
Lemma keep_edge n slide f0 f1 lo hi : (slide < n)%nat -> (f0 < n)%nat -> (f1 < n)%nat -> slide <> f0 -> slide <> f1 -> f0 <> f1 ->
  (lo < hi)%nat -> (lo = slide /\ hi = f1 \/ lo = f1 /\ hi = slide) ->
  others n (others n [slide; f0; f1] ++ [f0]) = [lo; hi].
Proof.
  intros H1 H2 H3 N1 N2 N3 LH Q. apply others_keep.
  - repeat constructor; lia.
  - cbn. intros x [<-|[<-|[]]]; lia.
  - intros k Hk. rewrite in_app_iff, others_in. cbn. split.
    + intros [[K1 K2]|[<-|[]]] [<-|[<-|[]]]; destruct Q as [[-> ->]|[-> ->]]; tauto || congruence.
    + intros K. destruct (Nat.eq_dec k f0) as [->|N]; [tauto|]. left. split; [exact Hk|]. destruct Q as [[-> ->]|[-> ->]]; intros [<-|[<-|[<-|[]]]]; tauto.
Qed.

Lemma edge_map (g : grid) d p slide f0 f1 : consistent g -> g_data g = Some d ->
  (slide < g_ndim g)%nat -> (f0 < g_ndim g)%nat -> (f1 < g_ndim g)%nat -> slide <> f0 -> slide <> f1 -> f0 <> f1 ->
  exists em, np_sum (map Z.of_nat (others (g_ndim g) [slide; f0; f1]) ++ [Z.of_nat f0]) (one_prop g d p) = Ok em /\
    pictures (if (Z.of_nat slide <? Z.of_nat f1)%Z then np_T em else em) (nth slide (g_npix g) 0%nat) (nth f1 (g_npix g) 0%nat)
      (fun i v => cells_total g d p vre (fun jx => on_axis slide i jx && on_axis f1 v jx)%bool).
Proof.
  intros C E H1 H2 H3 N1 N2 N3. pose proof (co_n _ C) as L.
  change (map Z.of_nat (others (g_ndim g) [slide; f0; f1]) ++ [Z.of_nat f0]) with (map Z.of_nat (others (g_ndim g) [slide; f0; f1]) ++ map Z.of_nat [f0]).
  rewrite <- map_app. rewrite np_sum_nat.
  2:{ apply (Permutation_NoDup (Permutation_cons_append _ f0)). constructor; [rewrite others_in; cbn; tauto|apply others_nodup]. }
  2:{ intros x Hx. change (shape (one_prop g d p)) with (g_npix g). rewrite L. apply in_app_iff in Hx as [Hx|[<-|[]]]; [apply others_in in Hx; lia|exact H2]. }
  eexists. split; [reflexivity|].
  destruct (Z.ltb_spec (Z.of_nat slide) (Z.of_nat f1)) as [Q|Q].
  - assert (K : others (length (g_npix g)) (others (g_ndim g) [slide; f0; f1] ++ [f0]) = [slide; f1]) by (rewrite L; apply keep_edge; try assumption; [lia|tauto]).
    apply T_pictures; [apply (shape_total _ _ _ _ _ K)|]. intros i v Hi Hv. apply (sum_total g d p _ _ _ _ K).
    + unfold at_pos. cbn [map]. rewrite inb2. apply andb_true_intro; split; apply Nat.ltb_lt; assumption.
    + intros jx _. unfold at_pos, on_axis. cbn [map]. rewrite andb_true_iff, !Nat.eqb_eq. split; [intros Q'; injection Q'; auto|intros [-> ->]; reflexivity].
  - assert (K : others (length (g_npix g)) (others (g_ndim g) [slide; f0; f1] ++ [f0]) = [f1; slide]) by (rewrite L; apply keep_edge; try assumption; [lia|tauto]).
    split; [apply (shape_total _ _ _ _ _ K)|]. intros i v Hi Hv. apply (sum_total g d p _ _ _ _ K).
    + unfold at_pos. cbn [map]. rewrite inb2. apply andb_true_intro; split; apply Nat.ltb_lt; assumption.
    + intros jx _. unfold at_pos, on_axis. cbn [map]. rewrite andb_true_iff, !Nat.eqb_eq. split; [intros Q'; injection Q'; auto|intros [-> ->]; reflexivity].
Qed.

(** * The face-on maps *)
Lemma np_take_3 (s : arr A) n0 n1 n2 q i : shape s = [n0; n1; n2] -> (q < 3)%nat -> (i < nth q [n0; n1; n2] 0)%nat ->
  exists m, np_take s (Z.of_nat i) (Z.of_nat q) = Ok m /\ shape m = del_nth [n0; n1; n2] q /\
    forall ix, inb (del_nth [n0; n1; n2] q) ix = true -> get m ix = Some (getd v0 s (ins_nth ix q i)).
Proof.
  intros S Hq Hi. unfold np_take. rewrite S. rewrite pyidx_nat by exact Hq. cbn [bind]. rewrite pyidx_nat by exact Hi. cbn [bind].
  eexists. split; [reflexivity|]. split; [reflexivity|]. intros ix I. rewrite get_tab, I. reflexivity.
Qed.

Lemma keep_face n slide lo hi : (slide < n)%nat -> (hi < n)%nat -> (lo < hi)%nat -> slide <> lo -> slide <> hi ->
  (forall k, (k < slide)%nat -> k = lo \/ k = hi) ->
  others n (others n [slide; lo; hi]) = ins_nth [lo; hi] slide slide /\ (slide < 3)%nat.
Proof.
  intros H1 H2 H3 N1 N2 K.
  assert (Q : (slide = 0 /\ 0 < lo \/ slide = 1 /\ lo = 0 /\ 1 < hi \/ slide = 2 /\ lo = 0 /\ hi = 1)%nat).
  { destruct slide as [|[|[|s]]].
    - left. lia.
    - right. left. specialize (K 0%nat ltac:(lia)). lia.
    - right. right. pose proof (K 0%nat ltac:(lia)). pose proof (K 1%nat ltac:(lia)). lia.
    - exfalso. pose proof (K 0%nat ltac:(lia)). pose proof (K 1%nat ltac:(lia)). pose proof (K 2%nat ltac:(lia)). lia. }
  split; [|lia]. apply others_keep.
  - destruct Q as [[-> Q]|[(-> & -> & Q)|(-> & -> & ->)]]; cbn; repeat constructor; lia.
  - destruct Q as [[-> Q]|[(-> & -> & Q)|(-> & -> & ->)]]; cbn; intros x [<-|[<-|[<-|[]]]]; lia.
  - intros k Hk. rewrite others_in.
    assert (R : In k (ins_nth [lo; hi] slide slide) <-> In k [slide; lo; hi]).
    { destruct Q as [[-> Q]|[(-> & -> & Q)|(-> & -> & ->)]]; cbn; tauto. }
    rewrite R. tauto.
Qed.

Lemma face_take (g : grid) d p slide lo hi i : consistent g -> g_data g = Some d ->
  (slide < g_ndim g)%nat -> (hi < g_ndim g)%nat -> (lo < hi)%nat -> slide <> lo -> slide <> hi ->
  (forall k, (k < slide)%nat -> k = lo \/ k = hi) -> (i < nth slide (g_npix g) 0)%nat ->
  exists m, np_take (sum_out (others (g_ndim g) [slide; lo; hi]) (one_prop g d p)) (Z.of_nat i) (Z.of_nat slide) = Ok m /\
    shape m = [nth lo (g_npix g) 0%nat; nth hi (g_npix g) 0%nat] /\
    forall u v, (u < nth lo (g_npix g) 0)%nat -> (v < nth hi (g_npix g) 0)%nat ->
      get m [u; v] = Some (cells_total g d p vre (fun jx => on_axis slide i jx && (on_axis lo u jx && on_axis hi v jx))%bool).
Proof.
  intros C E H1 H2 H3 N1 N2 K Hi. pose proof (co_n _ C) as L.
  destruct (keep_face (g_ndim g) slide lo hi H1 H2 H3 N1 N2 K) as [Kp Hs]. rewrite <- L in Kp at 1.
  pose proof (shape_total g d p _ _ Kp) as Sh.
  assert (Q : (slide = 0 \/ slide = 1 \/ slide = 2)%nat) by lia.
  destruct Q as [Q|[Q|Q]]; rewrite Q in *; cbn [ins_nth] in Kp, Sh; unfold at_pos in Sh; cbn [map] in Sh;
    (destruct (np_take_3 _ _ _ _ _ i Sh Hs Hi) as (m & Em & Sm & Gm); exists m; split; [exact Em|]; split; [exact Sm|];
     intros u v Hu Hv; cbn [del_nth] in Gm;
     (rewrite Gm by (rewrite inb2; apply andb_true_intro; split; apply Nat.ltb_lt; assumption)); f_equal; cbn [ins_nth];
     unfold getd; erewrite (sum_total g d p _ _ _ _ Kp);
     [reflexivity
     |unfold at_pos; cbn [map]; rewrite inb3; repeat (apply andb_true_intro; split); apply Nat.ltb_lt; assumption
     |intros jx _; unfold at_pos, on_axis; cbn [map]; rewrite !andb_true_iff, !Nat.eqb_eq;
      split; [intros Q'; injection Q'; auto|intros (-> & -> & ->); reflexivity]]).
Qed.

Lemma others_swap n s a b : others n [s; a; b] = others n [s; b; a].
Proof. unfold others. apply filter_ext. intros i. unfold mem_nat. cbn [existsb]. destruct (i =? s)%nat, (i =? a)%nat, (i =? b)%nat; reflexivity. Qed.

Lemma face_ok (g : grid) d p slide f0 f1 i : consistent g -> g_data g = Some d ->
  (slide < g_ndim g)%nat -> (f0 < g_ndim g)%nat -> (f1 < g_ndim g)%nat -> slide <> f0 -> slide <> f1 -> f0 <> f1 ->
  (forall k, (k < slide)%nat -> k = f0 \/ k = f1) -> (i < nth slide (g_npix g) 0)%nat ->
  exists m, face_map (one_prop g d p) (others (g_ndim g) [slide; f0; f1]) (Z.of_nat f0) (Z.of_nat f1) (Z.of_nat slide) (Z.of_nat i) = Ok m /\
    pictures m (nth f0 (g_npix g) 0%nat) (nth f1 (g_npix g) 0%nat)
      (fun u v => cells_total g d p vre (fun jx => on_axis slide i jx && on_axis f0 u jx && on_axis f1 v jx)%bool).
Proof.
  intros C E H1 H2 H3 N1 N2 N3 K Hi. pose proof (co_n _ C) as L. unfold face_map.
  rewrite np_sum_nat; [|apply others_nodup|intros x Hx; apply others_in in Hx; change (shape (one_prop g d p)) with (g_npix g); lia]. cbn [bind].
  destruct (Z.ltb_spec (Z.of_nat f0) (Z.of_nat f1)) as [Q|Q].
  - destruct (face_take g d p slide f0 f1 i C E H1 H3 ltac:(lia) N1 N2 K Hi) as (m & Em & Sm & Gm). rewrite Em. cbn [bind].
    eexists. split; [reflexivity|]. apply T_pictures; [exact Sm|]. intros u v Hu Hv. rewrite Gm by assumption. f_equal. unfold cells_total. f_equal. f_equal.
    apply filter_ext. intros jx. rewrite andb_assoc. reflexivity.
  - rewrite others_swap.
    destruct (face_take g d p slide f1 f0 i C E H1 H2 ltac:(lia) N2 N1 ltac:(intros k Hk; destruct (K k Hk); tauto) Hi) as (m & Em & Sm & Gm). rewrite Em. cbn [bind].
    eexists. split; [reflexivity|]. split; [exact Sm|]. intros u v Hu Hv. rewrite Gm by assumption. f_equal. unfold cells_total. f_equal. f_equal.
    apply filter_ext. intros jx. rewrite <- andb_assoc. f_equal. apply andb_comm.
Qed.
End Anim.
