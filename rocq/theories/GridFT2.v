(** What a Fourier transform computes: order of the axes, and the value in each cell. *)
From Verif Require Import Util Rat Val Arr GridModel GridModel2 GridSpec GridAxis GridNew GridAdd GridCat GridEx GridPad GridOps GridFourier GridFT.
Open Scope Qc_scope.

Lemma foldr_ext {X} (F G : nat -> X -> X) l x : (forall a y, In a l -> F a y = G a y) -> fold_right F x l = fold_right G x l.
Proof. induction l as [|a l IH]; simpl; intros H; auto. rewrite IH by auto. auto. Qed.
Lemma NoDup_app_l {X} (a b : list X) : NoDup (a ++ b) -> NoDup a.
Proof. induction a as [|x a IH]; simpl; intros H; [constructor|]. inversion H; subst. constructor; auto. rewrite in_app_iff in *. tauto. Qed.
Lemma NoDup_app_r {X} (a b : list X) : NoDup (a ++ b) -> NoDup b.
Proof. induction a as [|x a IH]; simpl; intros H; auto. inversion H; auto. Qed.

Section Fuse.
Context {X : Type} (ok : X -> Prop) (good : nat -> Prop) (P Q : nat -> X -> X).
Context (okP : forall a x, good a -> ok x -> ok (P a x)) (okQ : forall a x, good a -> ok x -> ok (Q a x)).
Context (com : forall a b x, good a -> good b -> a <> b -> ok x -> P a (Q b x) = Q b (P a x)).

Lemma fold_ok (F : nat -> X -> X) l x : (forall a x, good a -> ok x -> ok (F a x)) -> Forall good l -> ok x -> ok (fold_right F x l).
Proof. intros H. induction 1; simpl; auto. Qed.

(** one operator moved through a fold *)
Lemma fold_through l b x : Forall good l -> good b -> ~ In b l -> ok x ->
  fold_right P (Q b x) l = Q b (fold_right P x l).
Proof.
  induction 1 as [|a l Ha Hl IH]; simpl; intros Hb Hn Hx; auto.
  rewrite IH by tauto. apply com; auto. apply fold_ok; auto.
Qed.

(** the two folds can be done axis by axis *)
Lemma fold_fuse l x : Forall good l -> NoDup l -> ok x ->
  fold_right P (fold_right Q x l) l = fold_right (fun a y => P a (Q a y)) x l.
Proof.
  intros Hg Hd Hx. induction Hg as [|a l Ha Hl IH]; simpl; auto. inversion Hd; subst.
  rewrite fold_through by (auto; apply fold_ok; auto). rewrite IH by auto. reflexivity.
Qed.

(** a fold over the axes selected by [f] after a fold over the others *)
Lemma fold_split (f : nat -> bool) l x : Forall good l -> NoDup l -> ok x ->
  fold_right P (fold_right Q x (filter (fun a => negb (f a)) l)) (filter f l) =
  fold_right (fun a y => if f a then P a y else Q a y) x l.
Proof.
  intros Hg Hd Hx. induction Hg as [|a l Ha Hl IH]; simpl; auto. inversion Hd; subst.
  assert (G1 : Forall good (filter f l)) by (apply Forall_forall; intros b Hb; apply filter_In in Hb; rewrite Forall_forall in Hl; apply Hl, Hb).
  assert (G2 : Forall good (filter (fun a => negb (f a)) l)) by (apply Forall_forall; intros b Hb; apply filter_In in Hb; rewrite Forall_forall in Hl; apply Hl, Hb).
  destruct (f a) eqn:E; simpl.
  - rewrite IH by auto. reflexivity.
  - rewrite fold_through; auto; [|rewrite filter_In; tauto|apply fold_ok; auto]. rewrite IH by auto. reflexivity.
Qed.
End Fuse.

Section FT2.
Context {A : Alg} (w : nat -> A).
Add Ring A_ring : (v_rt A).
Notation grid := (grid A).
Open Scope val_scope.

Lemma roll_along s (K : nat -> nat -> A) a b sh x : a <> b -> (a < length sh)%nat -> aok sh x ->
  roll_axis s a (along K b x) = along K b (roll_axis s a x).
Proof.
  intros N La O. apply (aok_ext sh); [auto using roll_ok, along_ok..|]. intros ix Hi.
  rewrite (roll_get s a sh) by auto using along_ok. rewrite (along_get K b sh) by auto using roll_inb.
  rewrite (along_get K b sh) by auto using roll_ok. rewrite nth_upd_ne by auto.
  apply vsum_ext. intros k Hk. apply in_seq in Hk. rewrite (roll_get s a sh) by (auto; apply inb_upd; auto; lia).
  rewrite nth_upd_ne by auto. rewrite (upd_comm ix a b) by auto. reflexivity.
Qed.

(** one axis of a transform, in either direction *)
Definition step (pix : farr) (nz : bool) (fl : bool) (a : nat) (x : arr A) : arr A :=
  if fl then scale_arr (sc nz (/ fnth pix a)%Qc) (ifft_axis w a (roll_axis (fun n => n - n / 2)%nat a x))
  else scale_arr (sc nz (fnth pix a)) (roll_axis (fun n => n / 2)%nat a (fft_axis w a x)).

Lemma step_ok pix nz fl a sh x : aok sh x -> aok sh (step pix nz fl a x).
Proof. intros O. unfold step. destruct fl; auto using scale_ok, ifft_ok, fft_ok, roll_ok. Qed.

Lemma scale_com c e (x : arr A) : scale_arr c (scale_arr e x) = scale_arr e (scale_arr c x).
Proof. rewrite !scale_scale. f_equal. ring. Qed.

(** any two single-axis operators on different axes commute *)
Definition opok (sh : list nat) (F : arr A -> arr A) := forall x, aok sh x -> aok sh (F x).
Definition comm (sh : list nat) (F G : arr A -> arr A) := forall x, aok sh x -> F (G x) = G (F x).
Lemma comm_sym sh F G : comm sh F G -> comm sh G F.
Proof. intros H x O. symmetry. auto. Qed.
Lemma comm_comp sh F G H : opok sh F -> opok sh G -> opok sh H -> comm sh F H -> comm sh G H -> comm sh (fun x => F (G x)) H.
Proof. intros OF OG OH C1 C2 x O. rewrite C2 by auto. apply C1. auto. Qed.

Lemma fft_is_along sh a x : aok sh x -> fft_axis w a x = along (fun j k => vpow (w (nth a sh 0%nat)) (j * k)) a x.
Proof. intros [_ <-]. reflexivity. Qed.
Lemma ifft_is_along sh a x : aok sh x -> ifft_axis w a x = along (fun j k => emb (/ nq (nth a sh 0%nat))%Qc * vpow (star (w (nth a sh 0%nat))) (j * k)) a x.
Proof. intros [_ <-]. reflexivity. Qed.

Inductive kind := KFft | KIfft | KRoll (s : nat -> nat).
Definition kop (k : kind) (a : nat) : arr A -> arr A :=
  match k with KFft => fft_axis w a | KIfft => ifft_axis w a | KRoll s => roll_axis s a end.
Lemma kop_ok sh k a : opok sh (kop k a).
Proof. intros x O. destruct k; simpl; auto using fft_ok, ifft_ok, roll_ok. Qed.
Lemma kop_com sh k l a b : a <> b -> (a < length sh)%nat -> (b < length sh)%nat -> comm sh (kop k a) (kop l b).
Proof.
  intros N La Lb x O. pose proof (kop_ok sh k a x O) as O1. pose proof (kop_ok sh l b x O) as O2.
  destruct k, l; simpl in *; rewrite ?(fft_is_along sh), ?(ifft_is_along sh) by auto using along_ok, roll_ok;
    try (apply (along_com _ _ _ _ sh); auto; fail); try (apply (roll_along _ _ _ _ sh); auto; fail);
    try (symmetry; apply (roll_along _ _ _ _ sh); auto; fail).
  apply (roll_com _ _ _ _ sh); auto.
Qed.
Lemma kop_scale sh k a c : (a < length sh)%nat -> comm sh (kop k a) (scale_arr c).
Proof.
  intros La x O. pose proof (scale_ok c sh x O) as O1. pose proof (kop_ok sh k a x O) as O2.
  destruct k; simpl in *; rewrite ?(fft_is_along sh), ?(ifft_is_along sh) by auto.
  - apply (scale_along _ _ _ sh); auto.
  - apply (scale_along _ _ _ sh); auto.
  - apply (scale_roll _ _ _ sh); auto.
Qed.

Definition stepk (fl : bool) : kind * kind := if fl then (KIfft, KRoll (fun n => n - n / 2)%nat) else (KRoll (fun n => n / 2)%nat, KFft).
Definition stepc (pix : farr) nz (fl : bool) a : A := if fl then sc nz (/ fnth pix a)%Qc else sc nz (fnth pix a).
Lemma step_kop pix nz fl a x : step pix nz fl a x = scale_arr (stepc pix nz fl a) (kop (fst (stepk fl)) a (kop (snd (stepk fl)) a x)).
Proof. destruct fl; reflexivity. Qed.

Lemma step_com pix nz f1 f2 a b sh : a <> b -> (a < length sh)%nat -> (b < length sh)%nat ->
  comm sh (step pix nz f1 a) (step pix nz f2 b).
Proof.
  intros N La Lb x O. rewrite !step_kop. set (c := stepc pix nz f1 a). set (e := stepc pix nz f2 b).
  set (k1 := fst (stepk f1)). set (k2 := snd (stepk f1)). set (l1 := fst (stepk f2)). set (l2 := snd (stepk f2)).
  assert (Oa : forall k a x, aok sh x -> aok sh (kop k a x)) by (intros; apply kop_ok; auto).
  rewrite (kop_scale sh k2 a e La) by auto. rewrite (kop_scale sh k1 a e La) by auto.
  rewrite (kop_scale sh l2 b c Lb) by auto. rewrite (kop_scale sh l1 b c Lb) by auto.
  rewrite scale_com. do 2 f_equal.
  rewrite (kop_com sh k2 l1 a b N La Lb) by auto. rewrite (kop_com sh k2 l2 a b N La Lb) by auto.
  rewrite (kop_com sh k1 l1 a b N La Lb) by auto. rewrite (kop_com sh k1 l2 a b N La Lb) by auto. reflexivity.
Qed.

(** the transform is the fold of its steps *)
Lemma prod_sc nz (f : nat -> Qc) l :
  sc nz (fold_left (fun acc i => acc * f i)%Qc l 1%Qc) = fold_right (fun a y => y * sc nz (f a)) (1 : A) l.
Proof.
  assert (E : forall c, fold_left (fun acc i => acc * f i)%Qc l c = (c * fold_right (fun i acc => acc * f i)%Qc 1%Qc l)%Qc).
  { induction l as [|a l IH]; simpl; intros c; [symmetry; apply Qcmult_1_r|]. rewrite IH. ring. }
  rewrite E. clear E. destruct nz; simpl.
  - rewrite emb_mul, emb_1. induction l as [|a l IH]; simpl; [rewrite emb_1; ring|].
    rewrite emb_mul. rewrite <- IH. ring.
  - induction l as [|a l IH]; simpl; [reflexivity|]. rewrite <- IH. ring.
Qed.

Lemma fold_scale sh (F : nat -> arr A -> arr A) (c : nat -> A) l x :
  (forall a, In a l -> opok sh (F a) /\ forall e, comm sh (F a) (scale_arr e)) -> aok sh x ->
  fold_right (fun a y => scale_arr (c a) (F a y)) x l = scale_arr (fold_right (fun a y => y * c a) (1 : A) l) (fold_right F x l)
  /\ aok sh (fold_right F x l).
Proof.
  intros H O. induction l as [|a l IH]; simpl.
  - rewrite scale_1. auto.
  - destruct IH as [E O1]; [intros; apply H; simpl; auto|]. destruct (H a) as [H1 H2]; [simpl; auto|].
    split; [|auto]. rewrite E, H2, scale_scale by auto. reflexivity.
Qed.

Lemma ft_data_fold (g : grid) d axn nz sh : aok sh d -> NoDup axn -> (forall a, In a axn -> (a < length sh)%nat) ->
  ft_data w g d axn nz = fold_right (fun a => step (g_pix g) nz (nth a (g_fsp g) false) a) d axn.
Proof.
  intros O Nd H. unfold ft_data.
  set (fl := fun i => nth i (g_fsp g) false). change (fun i => nth i (g_fsp g) false) with fl.
  change (fun i => negb (nth i (g_fsp g) false)) with (fun i => negb (fl i)).
  set (fw := filter (fun i => negb (fl i)) axn). set (bk := filter fl axn).
  assert (Hf : forall a, In a fw -> (a < length sh)%nat) by (intros a X; apply filter_In in X; apply H, X).
  assert (Hb : forall a, In a bk -> (a < length sh)%nat) by (intros a X; apply filter_In in X; apply H, X).
  assert (Ga : Forall (fun a => (a < length sh)%nat) axn) by (apply Forall_forall; auto).
  assert (Gf : Forall (fun a => (a < length sh)%nat) fw) by (apply Forall_forall; auto).
  assert (Gb : Forall (fun a => (a < length sh)%nat) bk) by (apply Forall_forall; auto).
  assert (Nf : NoDup fw) by (apply NoDup_filter; auto). assert (Nb : NoDup bk) by (apply NoDup_filter; auto).
  assert (Oa : forall k a x, aok sh x -> aok sh (kop k a x)) by (intros; apply kop_ok; auto).
  transitivity (fold_right (fun a y => if fl a then step (g_pix g) nz true a y else step (g_pix g) nz false a y) d axn).
  2:{ apply foldr_ext. intros a y _. destruct (nth a (g_fsp g) false) eqn:E; unfold fl; rewrite E; reflexivity. }
  set (Y := scale_arr (sc nz (qprod_over (fun i => fnth (g_pix g) i) fw)) (shift_axes fw (fftn w fw d))).
  assert (EY : Y = fold_right (step (g_pix g) nz false) d fw).
  { unfold Y, qprod_over. rewrite prod_sc.
    unfold shift_axes, fftn.
    rewrite (fold_fuse (aok sh) (fun a => (a < length sh)%nat) (kop (KRoll (fun n => n / 2)%nat)) (kop KFft)); auto.
    2:{ intros a b x La Lb N Ox. apply (kop_com sh); auto. }
    destruct (fold_scale sh (fun a y => kop (KRoll (fun n => n / 2)%nat) a (kop KFft a y)) (fun a => sc nz (fnth (g_pix g) a)) fw d) as [E _]; auto.
    intros a Ha. split; [intros x Ox; auto|]. intros e. apply comm_comp; try (intros x Ox; auto; fail).
    - intros x Ox. apply scale_ok; auto.
    - apply kop_scale; auto.
    - apply kop_scale; auto. }
  assert (OY : aok sh Y) by (apply scale_ok, shift_ok, fftn_ok; auto).
  transitivity (fold_right (step (g_pix g) nz true) Y bk).
  { change (fold_left (fun acc i => acc / fnth (g_pix g) i)%Qc bk 1%Qc) with (fold_left (fun acc i => acc * (fun i => / fnth (g_pix g) i) i)%Qc bk 1%Qc).
    rewrite prod_sc. unfold unshift_axes, ifftn.
    rewrite (fold_fuse (aok sh) (fun a => (a < length sh)%nat) (kop KIfft) (kop (KRoll (fun n => n - n / 2)%nat))); auto.
    2:{ intros a b x La Lb N Ox. apply (kop_com sh); auto. }
    destruct (fold_scale sh (fun a y => kop KIfft a (kop (KRoll (fun n => n - n / 2)%nat) a y)) (fun a => sc nz (/ fnth (g_pix g) a)%Qc) bk Y) as [E _]; auto.
    intros a Ha. split; [intros x Ox; auto|]. intros e. apply comm_comp; try (intros x Ox; auto; fail).
    - intros x Ox. apply scale_ok; auto.
    - apply kop_scale; auto.
    - apply kop_scale; auto. }
  rewrite EY. unfold bk, fw.
  apply (fold_split (aok sh) (fun a => (a < length sh)%nat)); auto; intros; auto using step_ok.
  apply (step_com _ _ _ _ _ _ sh); auto.
Qed.

Lemma ft_fsp_nth (g : grid) l i : consistent g -> (forall a, In a l -> (a < g_ndim g)%nat) ->
  nth i (ft_fsp g l) false = if mem_nat i l then negb (nth i (g_fsp g) false) else nth i (g_fsp g) false.
Proof. intros C H. apply (ft_flags w). intros a X. rewrite (co_fs _ C). auto. Qed.
Lemma ft_fsp_length (g : grid) l : length (ft_fsp g l) = length (g_fsp g).
Proof. unfold ft_fsp. rewrite !fold_upd_length. auto. Qed.

(** the result does not depend on the order in which the axes are named *)
Lemma ft_perm (g : grid) d l l' nz : consistent g -> g_data g = Some d -> NoDup l -> Permutation l l' ->
  (forall a, In a l -> (a < g_ndim g)%nat) -> ft_apply w g d l nz = ft_apply w g d l' nz.
Proof.
  intros C E Nd P Ha. rewrite !ft_apply_eq.
  assert (Nd' : NoDup l') by (eapply Permutation_NoDup; eauto).
  assert (Ha' : forall a, In a l' -> (a < g_ndim g)%nat) by (intros a X; apply Ha; eapply Permutation_in; [symmetry|]; eauto).
  assert (Ef : ft_fsp g l = ft_fsp g l').
  { apply (nth_ext _ _ false false); [rewrite !ft_fsp_length; auto|]. intros i _.
    rewrite !ft_fsp_nth by auto.
    replace (mem_nat i l') with (mem_nat i l); auto.
    apply eq_true_iff_eq. rewrite !mem_nat_in. split; intros; [eapply Permutation_in; eauto|eapply Permutation_in; [symmetry|]; eauto]. }
  rewrite Ef. do 2 f_equal. set (sh := g_npix g ++ [g_nprop g]).
  pose proof (data_ok g d C E) as O.
  assert (L : forall a, (a < g_ndim g)%nat -> (a < length sh)%nat) by (intros a X; unfold sh; rewrite app_length, (co_n _ C); simpl; lia).
  rewrite !(ft_data_fold g d _ nz sh) by auto.
  revert Nd. clear - P O Ha L.
  intros Nd. assert (G : forall l l' x, Permutation l l' -> NoDup l -> (forall a, In a l -> (a < g_ndim g)%nat) -> aok sh x ->
     fold_right (fun a => step (g_pix g) nz (nth a (g_fsp g) false) a) x l = fold_right (fun a => step (g_pix g) nz (nth a (g_fsp g) false) a) x l').
  { clear - L. induction 1 as [|a l l' Hp IH|a b l|l l' l'' H1 IH1 H2 IH2]; intros Nd Ha Hx; simpl; auto.
    - inversion Nd; subst. f_equal. apply IH; auto. intros; apply Ha; simpl; auto.
    - inversion Nd as [|? ? N1 N2]; subst. apply (step_com _ _ _ _ _ _ sh); auto.
      + intros ->. apply N1. simpl; auto.
      + apply L, Ha. simpl; auto.
      + apply L, Ha. simpl; auto.
      + clear - Hx. induction l; simpl; auto using step_ok.
    - rewrite IH1 by auto. apply IH2; auto; [eapply Permutation_NoDup; eauto|].
      intros a X. apply Ha. eapply Permutation_in; [symmetry|]; eauto. }
  apply G; auto.
Qed.

(** several axes at once, or one group after the other *)
Lemma ft_app (g : grid) d l1 l2 nz : consistent g -> g_data g = Some d -> NoDup (l1 ++ l2) ->
  (forall a, In a (l1 ++ l2) -> (a < g_ndim g)%nat) ->
  ft_apply w (ft_apply w g d l2 nz) (ft_data w g d l2 nz) l1 nz = ft_apply w g d (l1 ++ l2) nz.
Proof.
  intros C E Nd Ha. rewrite (ft_apply_eq w (ft_apply w g d l2 nz)), (ft_apply_eq w g d (l1 ++ l2)).
  assert (Nd1 : NoDup l1) by (eapply NoDup_app_l; eauto). assert (Nd2 : NoDup l2) by (eapply NoDup_app_r; eauto).
  assert (Disj : forall a, In a l1 -> ~ In a l2).
  { intros a X Y. clear - Nd X Y. induction l1 as [|b l1 IH]; simpl in *; [tauto|]. inversion Nd; subst.
    destruct X as [->|X]; [apply H1, in_app_iff; auto|auto]. }
  assert (H1 : forall a, In a l1 -> (a < g_ndim g)%nat) by (intros; apply Ha, in_app_iff; auto).
  assert (H2 : forall a, In a l2 -> (a < g_ndim g)%nat) by (intros; apply Ha, in_app_iff; auto).
  pose proof (data_ok g d C E) as O. set (sh := g_npix g ++ [g_nprop g]) in *.
  assert (L : forall a, (a < g_ndim g)%nat -> (a < length sh)%nat) by (intros a X; unfold sh; rewrite app_length, (co_n _ C); simpl; lia).
  assert (F2 : forall i, nth i (ft_fsp g l2) false = if mem_nat i l2 then negb (nth i (g_fsp g) false) else nth i (g_fsp g) false).
  { intros i. apply ft_fsp_nth; auto. }
  assert (Ef : ft_fsp (ft_apply w g d l2 nz) l1 = ft_fsp g (l1 ++ l2)).
  { apply (nth_ext _ _ false false).
    - rewrite !ft_fsp_length. rewrite ft_apply_eq. cbn [with_data with_fsp g_fsp]. apply ft_fsp_length.
    - intros i _. rewrite ft_fsp_nth by (try (apply ft_consistent; auto; fail); intros a X; rewrite ft_apply_eq; cbn [with_data with_fsp g_ndim]; auto).
      rewrite ft_fsp_nth by auto. rewrite ft_apply_eq. cbn [with_data with_fsp g_fsp].
      rewrite F2. unfold mem_nat. rewrite existsb_app. fold (mem_nat i l1) (mem_nat i l2).
      destruct (mem_nat i l1) eqn:M1, (mem_nat i l2) eqn:M2; auto.
      apply mem_nat_in in M1, M2. exfalso. eapply Disj; eauto. }
  rewrite Ef.
  assert (Ed : ft_data w (ft_apply w g d l2 nz) (ft_data w g d l2 nz) l1 nz = ft_data w g d (l1 ++ l2) nz).
  { rewrite (ft_data_fold g d (l1 ++ l2) nz sh) by auto. rewrite fold_right_app.
    rewrite <- (ft_data_fold g d l2 nz sh) by auto.
    rewrite (ft_data_fold _ _ l1 nz sh) by (auto; apply ft_data_ok; auto).
    apply foldr_ext. intros a y Hin. rewrite ft_apply_eq. cbn [with_data with_fsp g_fsp g_pix]. rewrite F2.
    destruct (mem_nat a l2) eqn:M; auto. apply mem_nat_in in M. exfalso. eapply Disj; eauto. }
  rewrite Ed. rewrite ft_apply_eq. reflexivity.
Qed.

(** the value in a cell after the forward transform of one axis *)
Lemma ft_one_get (g : grid) d a nz ix p : consistent g -> g_data g = Some d -> (a < g_ndim g)%nat ->
  nth a (g_fsp g) false = false -> inb (g_npix g) ix = true -> (p < g_nprop g)%nat ->
  let n := nth a (g_npix g) 0%nat in
  getd v0 (ft_data w g d [a] nz) (ix ++ [p]) =
  vsum (map (fun j => vpow (w n) ((((nth a ix 0%nat + (n - n / 2)) mod n) * j)%nat) * getd v0 d (upd ix a j ++ [p])) (seq 0 n)) * sc nz (fnth (g_pix g) a).
Proof.
  intros C E Ha Hf Hi Hp n. pose proof (data_ok g d C E) as O. set (sh := g_npix g ++ [g_nprop g]) in *.
  pose proof (inb_length _ _ Hi) as Li. rewrite (co_n _ C) in Li.
  assert (L : (a < length sh)%nat) by (unfold sh; rewrite app_length, (co_n _ C); simpl; lia).
  assert (Hi' : inb sh (ix ++ [p]) = true).
  { unfold sh. rewrite inb_snoc by (rewrite (co_n _ C); auto). rewrite Hi. apply Nat.ltb_lt; auto. }
  assert (En : nth a sh 0%nat = n) by (unfold sh; rewrite app_nth1 by (rewrite (co_n _ C); auto); reflexivity).
  assert (Ei : nth a (ix ++ [p]) 0%nat = nth a ix 0%nat) by (apply app_nth1; lia).
  rewrite (ft_data_fold g d [a] nz sh); [|auto|repeat constructor; simpl; tauto|intros b [<-|[]]; auto].
  cbn [fold_right]. rewrite Hf. unfold step.
  rewrite (scale_get _ sh) by auto using roll_ok, fft_ok. f_equal.
  rewrite (roll_get _ a sh) by auto using fft_ok. rewrite En, Ei.
  rewrite (fft_is_along sh) by auto. rewrite (along_get _ a sh); auto.
  2:{ apply inb_upd; auto. rewrite En. eapply mod_lt_n. rewrite <- En. apply (inb_nth_lt sh (ix ++ [p])); eauto. }
  rewrite En, nth_upd_eq by (rewrite app_length; lia). apply vsum_ext. intros j _. rewrite upd_upd. do 3 f_equal.
  clear - Ha Li. revert a Ha. rewrite <- Li. clear Li. induction ix as [|i ix IH]; intros [|a] H; simpl in *; try lia; auto.
  f_equal. apply IH. lia.
Qed.
End FT2.

Section API.
Context {A : Alg} (w : nat -> A).
Notation grid := (grid A).
Lemma c14_refused (g : grid) ax nz : g_data g = None \/ g_ispow g = true -> fourier_transform w g ax nz = (g, Raise ValueError).
Proof. unfold fourier_transform. intros [-> | ->]; auto. destruct (g_data g); auto. Qed.

Lemma axes_valid_perm (g : grid) l l' : Permutation l l' -> axes_valid g l = axes_valid g l'.
Proof.
  intros P. unfold axes_valid. apply eq_true_iff_eq. rewrite !forallb_forall. split; intros H x X; apply H.
  - eapply Permutation_in; [symmetry|]; eauto.
  - eapply Permutation_in; eauto.
Qed.
Lemma axes_valid_lt (g : grid) l : axes_valid g (map Z.of_nat l) = true -> forall a, In a l -> (a < g_ndim g)%nat.
Proof.
  unfold axes_valid. rewrite forallb_forall. intros H a Ha. specialize (H _ (in_map _ _ _ Ha)).
  apply andb_true_iff in H as [H1 H2]. lia.
Qed.
Lemma c58_order (g : grid) l l' nz : consistent g -> NoDup l -> Permutation l l' ->
  fourier_transform w g (Some (map Z.of_nat l)) nz = fourier_transform w g (Some (map Z.of_nat l')) nz.
Proof.
  intros C Nd P. unfold fourier_transform. destruct (g_data g) as [d|] eqn:E; auto. destruct (g_ispow g); auto.
  simpl axes_arg. rewrite <- (axes_valid_perm g _ _ (Permutation_map _ P)).
  destruct (axes_valid g (map Z.of_nat l)) eqn:V; simpl; auto. rewrite !map_to_of_nat. f_equal.
  apply ft_perm; auto. apply axes_valid_lt; auto.
Qed.
Lemma c58_groups (g g1 : grid) l1 l2 nz : consistent g -> NoDup (l1 ++ l2) -> (forall a, In a (l1 ++ l2) -> (a < g_ndim g)%nat) ->
  fourier_transform w g (Some (map Z.of_nat l2)) nz = (g1, Ok tt) ->
  fourier_transform w g1 (Some (map Z.of_nat l1)) nz = fourier_transform w g (Some (map Z.of_nat (l1 ++ l2))) nz.
Proof.
  intros C Nd Ha. unfold fourier_transform at 1. destruct (g_data g) as [d|] eqn:E; [|discriminate].
  destruct (g_ispow g) eqn:P; [discriminate|].
  rewrite (axes_arg_ok w g _ l2) by (simpl; auto; intros; apply Ha, in_app_iff; auto). intros H. injection H as <-.
  unfold fourier_transform. rewrite E, P. rewrite ft_apply_eq at 1. cbn [with_data with_fsp g_data g_ispow].
  rewrite ft_apply_eq at 1. cbn [with_data with_fsp g_data g_ispow]. rewrite P.
  rewrite (axes_arg_ok w g _ (l1 ++ l2)) by (simpl; auto).
  rewrite (axes_arg_ok w _ _ l1) by (simpl; auto; intros a X; change (g_ndim (ft_apply w g d l2 nz)) with (g_ndim g); apply Ha, in_app_iff; auto).
  f_equal. apply ft_app; auto.
Qed.
End API.
