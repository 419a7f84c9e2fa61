(** Power spectra. *)
From Coq Require Import Permutation.
From Verif Require Import Util Rat Val Arr GridModel GridModel2 GridSpec GridSpec2 GridAxis GridNew GridAdd GridCat GridEx GridPad GridOps GridFourier GridFT GridFT2.
Open Scope Qc_scope.

(** * broadcasting *)
Lemma bshape_rev_same s : bshape_rev s s = Some s.
Proof. induction s as [|x s IH]; simpl; auto. unfold bdim. rewrite Nat.eqb_refl, IH. reflexivity. Qed.
Lemma bshape_snoc s a b : bshape (s ++ [a]) (s ++ [b]) = option_map (fun c => s ++ [c]) (bdim a b).
Proof.
  unfold bshape. rewrite !rev_app_distr. simpl. rewrite bshape_rev_same.
  destruct (bdim a b); simpl; auto. rewrite rev_involutive. reflexivity.
Qed.
Lemma bidx_same s ix : inb s ix = true -> bidx s ix = ix.
Proof.
  intros H. unfold bidx. rewrite <- (rev_involutive ix) at 2. f_equal.
  pose proof (inb_length _ _ H) as L.
  apply (nth_ext _ _ 0%nat 0%nat).
  - rewrite map_length, combine_length, !rev_length. lia.
  - rewrite map_length, combine_length, !rev_length. intros i Hi.
    rewrite (map_nth (fun p => if (fst p =? 1)%nat then 0%nat else snd p) _ (0, 0)%nat), combine_nth by (rewrite !rev_length; lia). simpl.
    destruct (Nat.eqb_spec (nth i (rev s) 0%nat) 1) as [E|E]; auto.
    rewrite rev_nth in E |- * by lia. rewrite L in *.
    pose proof (inb_nth_lt s ix (length s - S i) H ltac:(lia)) as X. rewrite E in X. lia.
Qed.
Lemma bidx_snoc s a ix k : inb s ix = true -> bidx (s ++ [a]) (ix ++ [k]) = ix ++ [prop_ix a k].
Proof.
  intros H. unfold bidx. rewrite !rev_app_distr. simpl. rewrite <- (bidx_same s ix H) at 2. reflexivity.
Qed.

Lemma NoDup_app_intro {X} (a b : list X) : NoDup a -> NoDup b -> (forall x, In x a -> ~ In x b) -> NoDup (a ++ b).
Proof.
  induction a as [|x a IH]; simpl; auto. intros Na Nb D. inversion Na; subst. constructor.
  - rewrite in_app_iff. intros [H|H]; auto. exact (D x (or_introl eq_refl) H).
  - apply IH; auto.
Qed.

Section Power.
Context {A : Alg} (w : nat -> A).
Add Ring A_ring : (v_rt A).
Notation grid := (grid A).

Lemma bdim_compat a b : (a = b \/ a = 1 \/ b = 1)%nat -> bdim a b = Some (Nat.max (if a =? 1 then b else a) (if b =? 1 then a else b))%nat.
Proof.
  intros H. unfold bdim. destruct (Nat.eqb_spec a b) as [->|N].
  - destruct (b =? 1)%nat; rewrite Nat.max_id; auto.
  - destruct (Nat.eqb_spec a 1) as [->|N1].
    + destruct (Nat.eqb_spec b 1); f_equal; lia.
    + destruct (Nat.eqb_spec b 1); f_equal; lia.
Qed.
Lemma tl_nodup (g : grid) axn : NoDup axn -> NoDup (transform_list g axn).
Proof.
  intros Nd. unfold transform_list. apply NoDup_app_intro.
  - apply NoDup_filter; auto.
  - apply NoDup_filter, seq_NoDup.
  - intros x H1 H2. apply filter_In in H1 as [H1 _]. apply filter_In in H2 as [_ H2].
    apply andb_true_iff in H2 as [H2 _]. apply mem_nat_in in H1. rewrite H1 in H2. discriminate.
Qed.
Lemma tl_in (g : grid) axn i : (forall a, In a axn -> (a < g_ndim g)%nat) ->
  In i (transform_list g axn) <-> In i (to_change g axn).
Proof.
  intros H. unfold transform_list, to_change. rewrite in_app_iff, !filter_In, in_seq, andb_true_iff.
  rewrite <- mem_nat_in. split.
  - intros [[H1 H2]|[H1 [H2 H3]]].
    + split; [apply mem_nat_in in H1; specialize (H _ H1); lia|]. rewrite H1, <- H2. destruct (nth i _ _); auto.
    + split; [lia|]. rewrite H3. apply negb_true_iff in H2. rewrite H2. auto.
  - intros [H1 H2]. destruct (mem_nat i axn) eqn:M; [left|right].
    + split; auto.
    + split; auto. split; auto. destruct (nth i _ _); auto.
Qed.
Lemma tl_perm (g : grid) axn : NoDup axn -> (forall a, In a axn -> (a < g_ndim g)%nat) -> Permutation (transform_list g axn) (to_change g axn).
Proof.
  intros Nd H. apply NoDup_Permutation.
  - apply tl_nodup; auto.
  - apply NoDup_filter, seq_NoDup.
  - intros x. apply tl_in; auto.
Qed.
Lemma change_lt (g : grid) axn a : In a (to_change g axn) -> (a < g_ndim g)%nat.
Proof. intros H. apply filter_In in H as [H _]. apply in_seq in H. lia. Qed.

Lemma change_mem (g : grid) axn i : (i < g_ndim g)%nat -> mem_nat i (to_change g axn) = xorb (mem_nat i axn) (nth i (g_fsp g) false).
Proof.
  intros Hi. apply eq_true_iff_eq. rewrite mem_nat_in. unfold to_change. rewrite filter_In, in_seq. split; [tauto|]. intros; split; auto; lia.
Qed.

(** the transform bringing exactly [axn] to Fourier space *)
Lemma ft_change (g : grid) d axn nz : consistent g -> g_data g = Some d -> g_ispow g = false ->
  NoDup axn -> (forall a, In a axn -> (a < g_ndim g)%nat) ->
  fourier_transform w g (Some (map Z.of_nat (to_change g axn))) nz = (ft_apply w g d (transform_list g axn) nz, Ok tt) /\
  (forall i, (i < g_ndim g)%nat -> nth i (g_fsp (ft_apply w g d (transform_list g axn) nz)) false = mem_nat i axn).
Proof.
  intros C E P Nd Ha.
  assert (Ep : ft_apply w g d (transform_list g axn) nz = ft_apply w g d (to_change g axn) nz).
  { apply ft_perm; auto using tl_nodup, tl_perm. intros a X. apply tl_in in X; auto. eapply change_lt; eauto. }
  split.
  - unfold fourier_transform. rewrite E, P, (axes_arg_ok w g _ (to_change g axn)); [congruence|reflexivity|apply change_lt].
  - intros i Hi. rewrite Ep, ft_apply_eq. cbn [with_data with_fsp g_fsp].
    rewrite (ft_fsp_nth w); [|auto|apply change_lt]. rewrite change_mem by auto.
    destruct (mem_nat i axn), (nth i (g_fsp g) false); reflexivity.
Qed.

Notation pw_ok := compatible.
Definition pw_props (g c : grid) : nat := Nat.max (if g_nprop g =? 1 then g_nprop c else g_nprop g)%nat (if g_nprop c =? 1 then g_nprop g else g_nprop c)%nat.

Lemma power_ok sh a b (x y : arr A) : aok (sh ++ [a]) x -> aok (sh ++ [b]) y -> (a = b \/ a = 1 \/ b = 1)%nat ->
  let n := Nat.max (if a =? 1 then b else a)%nat (if b =? 1 then a else b)%nat in
  exists p, power x y = Ok p /\ aok (sh ++ [n]) p /\
    forall ix k, inb sh ix = true -> (k < n)%nat ->
      getd v0 p (ix ++ [k]) = vre (getd v0 x (ix ++ [prop_ix a k]) * star (getd v0 y (ix ++ [prop_ix b k])))%V.
Proof.
  intros [_ Sx] [_ Sy] H n. unfold power, bop. rewrite Sx, Sy, bshape_snoc, bdim_compat by auto. cbn [option_map]. fold n.
  eexists. split; [reflexivity|]. split; [apply aok_tab|].
  intros ix k Hi Hk. rewrite getd_tab.
  - rewrite !bidx_snoc by auto. reflexivity.
  - rewrite inb_snoc by (apply inb_length; auto). rewrite Hi. apply Nat.ltb_lt; auto.
Qed.
Lemma vre_star (x : A) : star (vre x) = vre x.
Proof. unfold vre. rewrite star_mul, star_emb, star_add, star_star. ring. Qed.
Lemma vre_real (x : A) : star x = x -> vre x = x.
Proof.
  intros H. unfold vre. rewrite H. transitivity ((emb (frac 1 2) + emb (frac 1 2)) * x)%V; [ring|].
  rewrite <- emb_add. replace (frac 1 2 + frac 1 2) with 1 by (apply qeqb_eq; vm_compute; reflexivity).
  rewrite emb_1. ring.
Qed.
Lemma vre_swap (x y : A) : vre (x * star y)%V = vre (y * star x)%V.
Proof. unfold vre. rewrite !star_mul, !star_star. ring. Qed.

Lemma ft_back (g : grid) d l nz : consistent g -> roots_ok w g -> g_data g = Some d ->
  NoDup l -> (forall a, In a l -> (a < g_ndim g)%nat) ->
  match g_data (ft_apply w g d l nz) with Some d1 => ft_apply w (ft_apply w g d l nz) d1 l nz | None => ft_apply w g d l nz end = g.
Proof. intros C R E Nd Ha. rewrite ft_apply_eq at 1. cbn [with_data g_data]. apply ft_twice; auto. Qed.

Lemma tl_lt (g : grid) axn a : (forall a, In a axn -> (a < g_ndim g)%nat) -> In a (transform_list g axn) -> (a < g_ndim g)%nat.
Proof. intros H X. apply tl_in in X; auto. eapply change_lt; eauto. Qed.

Definition pgrid (g : grid) (p : arr A) : grid :=
  with_fsp (with_ispow (with_nobj (with_data (blank g (g_nprop g) (spread_units (g_nprop g) (g_gru g))) (Some p)) (g_nobj g)) true)
           (map (fun _ => true) (g_fsp g)).

Lemma power_grid (g : grid) : consistent g -> floats g -> (length (g_gru g) = g_nprop g \/ length (g_gru g) = 1)%nat ->
  grid_new A (g_nprop g) (g_center g) (g_side g) (g_pix g) (Some (g_axu g)) (Some (g_gru g)) =
  Ok (blank g (g_nprop g) (spread_units (g_nprop g) (g_gru g))).
Proof.
  intros C F H. change (grid_new A (g_nprop g) (g_center g) (g_side g) (g_pix g) (Some (g_axu g)) (Some (g_gru g))) with (copy_axes g (g_nprop g)).
  rewrite copy_axes_ok by auto. replace (_ || _)%bool with true; auto.
  symmetry. apply orb_true_iff. rewrite !Nat.eqb_eq. auto.
Qed.

Lemma cross_ok_true (g c : grid) dc : g_data c = Some dc -> g_ispow c = false -> pw_ok g c -> cross_ok g (Some c) = true.
Proof.
  intros E P (N & _ & Q). unfold cross_ok, active. rewrite E, P, N, Nat.eqb_refl. simpl.
  rewrite !orb_true_iff, !Nat.eqb_eq. tauto.
Qed.

Lemma c15_cross (g c : grid) d dc ax axn nz :
  consistent g -> consistent c -> roots_ok w g -> g_data g = Some d -> g_data c = Some dc ->
  g_ispow g = false -> g_ispow c = false -> pw_ok g c ->
  axes_named g ax axn -> NoDup axn -> (forall a, In a axn -> (a < g_ndim g)%nat) ->
  exists g1 c1 p,
    fourier_transform w g (Some (map Z.of_nat (to_change g axn))) nz = (g1, Ok tt) /\
    fourier_transform w c (Some (map Z.of_nat (to_change c axn))) nz = (c1, Ok tt) /\
    (forall i, (i < g_ndim g)%nat -> nth i (g_fsp g1) false = mem_nat i axn /\ nth i (g_fsp c1) false = mem_nat i axn) /\
    aok (g_npix g ++ [pw_props g c]) p /\
    (forall ix k, inb (g_npix g) ix = true -> (k < pw_props g c)%nat ->
       getd v0 p (ix ++ [k]) = vre (cell g1 ix (prop_ix (g_nprop g) k) * star (cell c1 ix (prop_ix (g_nprop c) k)))%V) /\
    (floats g -> (length (g_gru g) = g_nprop g \/ length (g_gru g) = 1)%nat ->
     power_spectrum w g (Some c) ax false nz = (g, Some c, Ok (pgrid g p))) /\
    (let g2 := with_ispow (with_data g1 (Some p)) true in
     power_spectrum w g (Some c) ax true nz = (g2, Some c, Ok g2)).
Proof.
  intros C Cc R E Ec P Pc K N Nd Ha. pose proof K as (K1 & K2 & K3).
  assert (Hac : forall a, In a axn -> (a < g_ndim c)%nat) by (rewrite K1; auto).
  assert (Rc : roots_ok w c) by (intros n Hn; apply R; rewrite <- K2; auto).
  destruct (ft_change g d axn nz C E P Nd Ha) as [F1 L1].
  destruct (ft_change c dc axn nz Cc Ec Pc Nd Hac) as [F2 L2].
  set (g1 := ft_apply w g d (transform_list g axn) nz) in *. set (c1 := ft_apply w c dc (transform_list c axn) nz) in *.
  set (d1 := ft_data w g d (transform_list g axn) nz). set (dc1 := ft_data w c dc (transform_list c axn) nz).
  assert (Ed1 : g_data g1 = Some d1) by (unfold g1; rewrite ft_apply_eq; reflexivity).
  assert (Edc1 : g_data c1 = Some dc1) by (unfold c1; rewrite ft_apply_eq; reflexivity).
  assert (O1 : aok (g_npix g ++ [g_nprop g]) d1) by (apply ft_data_ok, data_ok; auto).
  assert (O2 : aok (g_npix g ++ [g_nprop c]) dc1) by (rewrite <- K2; apply ft_data_ok, data_ok; auto).
  destruct (power_ok (g_npix g) (g_nprop g) (g_nprop c) d1 dc1 O1 O2) as (p & Ep & Op & Gp); [intuition|].
  exists g1, c1, p. split; [exact F1|]. split; [exact F2|].
  split; [intros i Hi; split; [apply L1; auto|apply L2; rewrite K1; auto]|].
  split; [exact Op|]. split; [intros ix k Hi Hk; unfold cell; rewrite Ed1, Edc1; apply Gp; auto|].
  assert (B1 : ft_apply w g1 d1 (transform_list g axn) nz = g).
  { apply (ft_twice w); auto using tl_nodup. intros a. apply tl_lt; auto. }
  assert (B2 : ft_apply w c1 dc1 (transform_list c axn) nz = c).
  { apply (ft_twice w); auto using tl_nodup. intros a. apply tl_lt; auto. }
  split; [intros F U|]; unfold power_spectrum; rewrite E, P, (cross_ok_true g c dc) by auto; cbn [negb];
    rewrite (axes_arg_ok w g ax axn) by auto; rewrite Ec; fold g1 c1; rewrite Ed1, Edc1, Ep.
  - rewrite power_grid by auto. rewrite B1, B2. reflexivity.
  - rewrite B2. reflexivity.
Qed.

Lemma c15_auto (g : grid) d ax axn nz :
  consistent g -> roots_ok w g -> g_data g = Some d -> g_ispow g = false ->
  axes_named g ax axn -> NoDup axn -> (forall a, In a axn -> (a < g_ndim g)%nat) ->
  exists g1 p,
    fourier_transform w g (Some (map Z.of_nat (to_change g axn))) nz = (g1, Ok tt) /\
    (forall i, (i < g_ndim g)%nat -> nth i (g_fsp g1) false = mem_nat i axn) /\
    aok (g_npix g ++ [g_nprop g]) p /\
    (forall ix k, inb (g_npix g) ix = true -> (k < g_nprop g)%nat ->
       getd v0 p (ix ++ [k]) = (cell g1 ix k * star (cell g1 ix k))%V) /\
    (floats g -> (length (g_gru g) = g_nprop g \/ length (g_gru g) = 1)%nat ->
     power_spectrum w g None ax false nz = (g, None, Ok (pgrid g p))) /\
    (let g2 := with_ispow (with_data g1 (Some p)) true in
     power_spectrum w g None ax true nz = (g2, None, Ok g2)).
Proof.
  intros C R E P N Nd Ha. destruct (ft_change g d axn nz C E P Nd Ha) as [F1 L1].
  set (g1 := ft_apply w g d (transform_list g axn) nz) in *. set (d1 := ft_data w g d (transform_list g axn) nz).
  assert (Ed1 : g_data g1 = Some d1) by (unfold g1; rewrite ft_apply_eq; reflexivity).
  assert (O1 : aok (g_npix g ++ [g_nprop g]) d1) by (apply ft_data_ok, data_ok; auto).
  destruct (power_ok (g_npix g) (g_nprop g) (g_nprop g) d1 d1 O1 O1) as (p & Ep & Op & Gp); [auto|].
  assert (En : Nat.max (if (g_nprop g =? 1)%nat then g_nprop g else g_nprop g) (if (g_nprop g =? 1)%nat then g_nprop g else g_nprop g) = g_nprop g)
    by (destruct (g_nprop g =? 1)%nat; apply Nat.max_id).
  rewrite En in *.
  exists g1, p. split; [exact F1|]. split; [exact L1|]. split; [exact Op|]. split.
  { intros ix k Hi Hk. unfold cell. rewrite Ed1, Gp by auto.
    replace (prop_ix (g_nprop g) k) with k by (unfold prop_ix; destruct (Nat.eqb_spec (g_nprop g) 1); lia).
    apply vre_real. rewrite star_mul, star_star. ring. }
  assert (B1 : ft_apply w g1 d1 (transform_list g axn) nz = g).
  { apply (ft_twice w); auto using tl_nodup. intros a. apply tl_lt; auto. }
  split; [intros F U|]; unfold power_spectrum; rewrite E, P; cbn [cross_ok negb];
    rewrite (axes_arg_ok w g ax axn) by auto; fold g1; rewrite Ed1, Ep.
  - rewrite power_grid by auto. rewrite B1. reflexivity.
  - reflexivity.
Qed.

Lemma pgrid_lattice (g : grid) p : same_lattice g (pgrid g p) /\ g_ispow (pgrid g p) = true /\ g_nobj (pgrid g p) = g_nobj g /\
  g_nprop (pgrid g p) = g_nprop g /\ g_data (pgrid g p) = Some p /\ (forall b, In b (g_fsp (pgrid g p)) -> b = true).
Proof.
  unfold pgrid. repeat split. intros b H. unfold with_fsp in H. cbn [g_fsp] in H. apply in_map_iff in H as (x & <- & _). auto.
Qed.

(** * symmetry *)
Lemma pw_props_comm (g c : grid) : pw_props g c = pw_props c g.
Proof. unfold pw_props. apply Nat.max_comm. Qed.

Lemma c15_symmetric (g c : grid) d dc ax axn nz :
  consistent g -> consistent c -> roots_ok w g -> g_data g = Some d -> g_data c = Some dc ->
  g_ispow g = false -> g_ispow c = false -> pw_ok g c -> floats g -> floats c ->
  (length (g_gru g) = g_nprop g \/ length (g_gru g) = 1)%nat -> (length (g_gru c) = g_nprop c \/ length (g_gru c) = 1)%nat ->
  axes_named g ax axn -> NoDup axn -> (forall a, In a axn -> (a < g_ndim g)%nat) ->
  exists p q, power_spectrum w g (Some c) ax false nz = (g, Some c, Ok p) /\
    power_spectrum w c (Some g) ax false nz = (c, Some g, Ok q) /\ g_data p = g_data q.
Proof.
  intros C Cc R E Ec P Pc K F Fc U Uc N Nd Ha. pose proof K as (K1 & K2 & K3).
  assert (K' : pw_ok c g) by (split; [auto|]; split; [auto|]; intuition).
  assert (N' : axes_named c ax axn) by (unfold axes_named in *; destruct ax; auto; rewrite K1; auto).
  destruct (c15_cross g c d dc ax axn nz) as (g1 & c1 & p & X1 & X2 & _ & X4 & X5 & X6 & _); auto.
  destruct (c15_cross c g dc d ax axn nz) as (c1' & g1' & q & Y2 & Y1 & _ & Y4 & Y5 & Y6 & _); auto.
  { intros n Hn. apply R. rewrite <- K2. auto. } { rewrite K1. auto. }
  rewrite X1 in Y1. rewrite X2 in Y2. injection Y1 as <-. injection Y2 as <-.
  exists (pgrid g p), (pgrid c q). split; [auto|]. split; [auto|].
  change (Some p = Some q). f_equal. apply (aok_ext (g_npix g ++ [pw_props g c])); auto.
  { rewrite pw_props_comm, <- K2. auto. }
  intros ix Hi. pose proof (inb_length _ _ Hi) as L. rewrite app_length in L. simpl in L.
  destruct (@exists_last _ ix) as (jx & k & ->); [intros ->; simpl in L; lia|].
  rewrite app_length in L. simpl in L. rewrite inb_snoc in Hi by lia. apply andb_true_iff in Hi as [Hi Hk]. apply Nat.ltb_lt in Hk.
  rewrite X5 by auto. rewrite Y5 by (rewrite ?K2, ?(pw_props_comm c g); auto). apply vre_swap.
Qed.

Lemma c15_props (g c : grid) d dc ax axn nz :
  consistent g -> consistent c -> roots_ok w g -> g_data g = Some d -> g_data c = Some dc ->
  g_ispow g = false -> g_ispow c = false -> g_ndim c = g_ndim g -> g_npix c = g_npix g -> g_nprop g = 1%nat -> (1 < g_nprop c)%nat ->
  floats g -> length (g_gru g) = 1%nat ->
  axes_named g ax axn -> NoDup axn -> (forall a, In a axn -> (a < g_ndim g)%nat) ->
  exists p d, power_spectrum w g (Some c) ax false nz = (g, Some c, Ok p) /\ g_nprop p = 1%nat /\
    g_data p = Some d /\ shape d = g_npix p ++ [g_nprop c].
Proof.
  intros C Cc R E Ec P Pc K1 K2 K3 K4 F U N Nd Ha.
  destruct (c15_cross g c d dc ax axn nz) as (g1 & c1 & p & X1 & X2 & _ & [_ X4] & X5 & X6 & _); auto.
  { split; [auto|]. split; auto. }
  exists (pgrid g p), p. split; [apply X6; auto|]. split; [exact K3|]. split; [reflexivity|].
  rewrite X4. change (g_npix (pgrid g p)) with (g_npix g). unfold pw_props. rewrite K3.
  destruct (Nat.eqb_spec (g_nprop c) 1); [lia|]. simpl (1 =? 1)%nat. cbv iota. rewrite Nat.max_id. reflexivity.
Qed.

Lemma pw_count_eq (g c : grid) : pw_ok g c -> pair_props g c = pw_props g c.
Proof.
  intros (_ & _ & H). unfold pw_props, pair_props.
  destruct (Nat.eqb_spec (g_nprop g) 1), (Nat.eqb_spec (g_nprop c) 1); lia.
Qed.

Lemma c15_cross_api (g c : grid) d dc ax axn nz :
  consistent g -> consistent c -> roots_ok w g -> g_data g = Some d -> g_data c = Some dc ->
  g_ispow g = false -> g_ispow c = false -> pw_ok g c ->
  floats g -> (length (g_gru g) = g_nprop g \/ length (g_gru g) = 1)%nat ->
  axes_named g ax axn -> NoDup axn -> (forall a, In a axn -> (a < g_ndim g)%nat) ->
  exists F1 F2 P,
    fourier_transform w g (Some (map Z.of_nat (to_change g axn))) nz = (F1, Ok tt) /\
    fourier_transform w c (Some (map Z.of_nat (to_change c axn))) nz = (F2, Ok tt) /\
    (forall i, (i < g_ndim g)%nat -> nth i (g_fsp F1) false = mem_nat i axn /\ nth i (g_fsp F2) false = mem_nat i axn) /\
    power_spectrum w g (Some c) ax false nz = (g, Some c, Ok P) /\
    same_lattice g P /\ g_ispow P = true /\ g_nobj P = g_nobj g /\
    (forall ix k, inb (g_npix g) ix = true -> (k < pair_props g c)%nat ->
       cell P ix k = vre (cell F1 ix (prop_ix (g_nprop g) k) * star (cell F2 ix (prop_ix (g_nprop c) k)))%V).
Proof.
  intros C Cc R E Ec P Pc K F U N Nd Ha.
  destruct (c15_cross g c d dc ax axn nz) as (g1 & c1 & p & X1 & X2 & X3 & X4 & X5 & X6 & _); auto.
  exists g1, c1, (pgrid g p). split; [auto|]. split; [auto|]. split; [auto|]. split; [auto|].
  destruct (pgrid_lattice g p) as (Y1 & Y2 & Y3 & Y4 & Y5 & Y6). split; [auto|]. split; [auto|]. split; [auto|].
  intros ix k Hi Hk. unfold cell at 1. rewrite Y5. apply X5; auto. rewrite pw_count_eq in Hk by auto. auto.
Qed.
Lemma c15_in_place (g c : grid) d dc ax axn nz :
  consistent g -> consistent c -> roots_ok w g -> g_data g = Some d -> g_data c = Some dc ->
  g_ispow g = false -> g_ispow c = false -> pw_ok g c ->
  axes_named g ax axn -> NoDup axn -> (forall a, In a axn -> (a < g_ndim g)%nat) ->
  exists F1 F2 P,
    fourier_transform w g (Some (map Z.of_nat (to_change g axn))) nz = (F1, Ok tt) /\
    fourier_transform w c (Some (map Z.of_nat (to_change c axn))) nz = (F2, Ok tt) /\
    power_spectrum w g (Some c) ax true nz = (P, Some c, Ok P) /\
    same_lattice g P /\ g_ispow P = true /\ g_fsp P = g_fsp F1 /\
    (forall ix k, inb (g_npix g) ix = true -> (k < pair_props g c)%nat ->
       cell P ix k = vre (cell F1 ix (prop_ix (g_nprop g) k) * star (cell F2 ix (prop_ix (g_nprop c) k)))%V).
Proof.
  intros C Cc R E Ec P Pc K N Nd Ha.
  destruct (c15_cross g c d dc ax axn nz) as (g1 & c1 & p & X1 & X2 & X3 & X4 & X5 & _ & X6); auto.
  exists g1, c1, (with_ispow (with_data g1 (Some p)) true). split; [auto|]. split; [auto|]. split; [exact X6|].
  destruct (ft_change g d axn nz C E P Nd Ha) as [F1 _]. rewrite X1 in F1. injection F1 as ->.
  split; [repeat split|]. split; [reflexivity|]. split; [reflexivity|].
  intros ix k Hi Hk. unfold cell at 1. cbn [with_ispow with_data g_data]. apply X5; auto. rewrite pw_count_eq in Hk by auto. auto.
Qed.

Lemma c15_auto_api (g : grid) d ax axn nz :
  consistent g -> roots_ok w g -> g_data g = Some d -> g_ispow g = false ->
  floats g -> (length (g_gru g) = g_nprop g \/ length (g_gru g) = 1)%nat ->
  axes_named g ax axn -> NoDup axn -> (forall a, In a axn -> (a < g_ndim g)%nat) ->
  exists F P,
    fourier_transform w g (Some (map Z.of_nat (to_change g axn))) nz = (F, Ok tt) /\
    (forall i, (i < g_ndim g)%nat -> nth i (g_fsp F) false = mem_nat i axn) /\
    power_spectrum w g None ax false nz = (g, None, Ok P) /\
    same_lattice g P /\ g_ispow P = true /\ g_nobj P = g_nobj g /\ consistent P /\
    (forall ix k, inb (g_npix g) ix = true -> (k < g_nprop g)%nat ->
       cell P ix k = (cell F ix k * star (cell F ix k))%V /\ star (cell P ix k) = cell P ix k).
Proof.
  intros C R E P F U N Nd Ha.
  destruct (c15_auto g d ax axn nz) as (g1 & p & X1 & X3 & X4 & X5 & X6 & _); auto.
  exists g1, (pgrid g p). split; [auto|]. split; [auto|]. split; [auto|].
  destruct (pgrid_lattice g p) as (Y1 & Y2 & Y3 & Y4 & Y5 & Y6). split; [auto|]. split; [auto|]. split; [auto|].
  assert (V : forall ix k, inb (g_npix g) ix = true -> (k < g_nprop g)%nat -> cell (pgrid g p) ix k = (cell g1 ix k * star (cell g1 ix k))%V).
  { intros ix k Hi Hk. unfold cell at 1. rewrite Y5. auto. }
  split.
  - pose proof (co_fs _ C) as Lf. pose proof (blank_consistent g (g_nprop g) (spread_units (g_nprop g) (g_gru g)) C) as []. constructor; auto.
    unfold pgrid, with_fsp. cbn [g_fsp g_ndim]. rewrite map_length. exact Lf.
  - intros ix k Hi Hk. split; auto. rewrite V by auto. rewrite star_mul, star_star. ring.
Qed.

(** * error exits *)
Lemma bshape_len a b : length a = length b -> (forall x, In x a -> x <> 1%nat) -> (forall x, In x b -> x <> 1%nat) ->
  bshape_rev a b <> None -> a = b.
Proof.
  revert b. induction a as [|x a IH]; intros [|y b] L Ha Hb H; simpl in *; try discriminate; auto.
  unfold bdim in H. destruct (Nat.eqb_spec x y) as [->|N].
  - f_equal. apply IH; auto. destruct (bshape_rev a b); congruence.
  - exfalso. assert (x <> 1%nat) by auto. assert (y <> 1%nat) by auto.
    rewrite (proj2 (Nat.eqb_neq x 1)), (proj2 (Nat.eqb_neq y 1)) in H by auto. congruence.
Qed.

Lemma npix_ge2 (g : grid) x : consistent g -> In x (g_npix g) -> (2 <= x)%nat.
Proof.
  intros C H. apply (In_nth _ _ 0%nat) in H as (i & Hi & <-). rewrite (co_n _ C) in Hi.
  exact (ao_n _ _ _ _ _ _ _ _ (co_axis _ C i Hi)).
Qed.

Lemma bshape_mismatch a b x y : length a = length b -> (forall x, In x a -> x <> 1%nat) -> (forall x, In x b -> x <> 1%nat) ->
  a <> b -> bshape (a ++ [x]) (b ++ [y]) = None.
Proof.
  intros L Ha Hb N. unfold bshape. rewrite !rev_app_distr. simpl. destruct (bdim x y); auto.
  destruct (bshape_rev (rev a) (rev b)) eqn:E; auto. exfalso. apply N.
  rewrite <- (rev_involutive a), <- (rev_involutive b). f_equal. apply bshape_len.
  - rewrite !rev_length; auto.
  - intros z Hz. apply Ha. apply in_rev; auto.
  - intros z Hz. apply Hb. apply in_rev; auto.
  - congruence.
Qed.

Lemma c15_mismatch (g c : grid) d dc ax axn nz ip :
  consistent g -> consistent c -> floats g -> (length (g_gru g) = g_nprop g \/ length (g_gru g) = 1)%nat ->
  g_data g = Some d -> g_data c = Some dc -> g_ispow g = false -> g_ispow c = false ->
  g_ndim c = g_ndim g -> g_nprop c = g_nprop g -> g_npix c <> g_npix g ->
  axes_named g ax axn -> NoDup axn -> (forall a, In a axn -> (a < g_ndim g)%nat) ->
  exists g1 c1, power_spectrum w g (Some c) ax ip nz = (g1, Some c1, Raise ValueError) /\
    (forall i, (i < g_ndim g)%nat -> nth i (g_fsp g1) false = mem_nat i axn /\ nth i (g_fsp c1) false = mem_nat i axn).
Proof.
  intros C Cc F U E Ec P Pc K1 K3 K2 N Nd Ha.
  assert (Hac : forall a, In a axn -> (a < g_ndim c)%nat) by (rewrite K1; auto).
  destruct (ft_change g d axn nz C E P Nd Ha) as [F1 L1].
  destruct (ft_change c dc axn nz Cc Ec Pc Nd Hac) as [F2 L2].
  set (g1 := ft_apply w g d (transform_list g axn) nz) in *. set (c1 := ft_apply w c dc (transform_list c axn) nz) in *.
  set (d1 := ft_data w g d (transform_list g axn) nz). set (dc1 := ft_data w c dc (transform_list c axn) nz).
  assert (Ed1 : g_data g1 = Some d1) by (unfold g1; rewrite ft_apply_eq; reflexivity).
  assert (Edc1 : g_data c1 = Some dc1) by (unfold c1; rewrite ft_apply_eq; reflexivity).
  assert (O1 : aok (g_npix g ++ [g_nprop g]) d1) by (apply ft_data_ok, data_ok; auto).
  assert (O2 : aok (g_npix c ++ [g_nprop c]) dc1) by (apply ft_data_ok, data_ok; auto).
  assert (Ep : power d1 dc1 = Raise ValueError).
  { unfold power, bop. destruct O1 as [_ ->], O2 as [_ ->]. rewrite bshape_mismatch; auto.
    - rewrite (co_n _ C), (co_n _ Cc); auto.
    - intros x Hx. pose proof (npix_ge2 g x C Hx). lia.
    - intros x Hx. pose proof (npix_ge2 c x Cc Hx). lia. }
  exists g1, c1. split; [|intros i Hi; split; [apply L1; auto|apply L2; rewrite K1; auto]].
  unfold power_spectrum. rewrite E, P. unfold cross_ok, active. rewrite Ec, Pc, K1, K3, !Nat.eqb_refl, !orb_true_r. cbn [negb andb].
  rewrite (axes_arg_ok w g ax axn) by auto. fold g1 c1. rewrite Ed1, Edc1, Ep. rewrite power_grid by auto. destruct ip; reflexivity.
Qed.

Lemma c15_units (g : grid) d ax axn nz :
  consistent g -> floats g -> (length (g_gru g) <> g_nprop g /\ length (g_gru g) <> 1)%nat ->
  g_data g = Some d -> g_ispow g = false ->
  axes_named g ax axn -> NoDup axn -> (forall a, In a axn -> (a < g_ndim g)%nat) ->
  exists g1, power_spectrum w g None ax false nz = (g1, None, Raise ValueError) /\
    (forall i, (i < g_ndim g)%nat -> nth i (g_fsp g1) false = mem_nat i axn).
Proof.
  intros C F [U1 U2] E P N Nd Ha. destruct (ft_change g d axn nz C E P Nd Ha) as [F1 L1].
  exists (ft_apply w g d (transform_list g axn) nz). split; [|exact L1].
  unfold power_spectrum. rewrite E, P. cbn [cross_ok negb]. rewrite (axes_arg_ok w g ax axn) by auto.
  change (grid_new A (g_nprop g) (g_center g) (g_side g) (g_pix g) (Some (g_axu g)) (Some (g_gru g))) with (copy_axes g (g_nprop g)).
  rewrite copy_axes_ok by auto. rewrite (proj2 (Nat.eqb_neq _ _) U1), (proj2 (Nat.eqb_neq _ _) U2). reflexivity.
Qed.
End Power.
