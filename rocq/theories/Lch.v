(** Lemmas about volumes of light cones and the light cone iterator. *)
From Verif Require Import Dict Util RealUtil LchModel LchSpec.
From Coq Require Import Reals Lra.
Open Scope string_scope. Open Scope list_scope.
Open Scope R_scope.

Definition shape_ok (s : string) : Prop := s = "box" \/ s = "circle".
Lemma shape_okb s : ((s =? "box") || (s =? "circle"))%bool = true <-> shape_ok s.
Proof. unfold shape_ok. rewrite orb_true_iff, !String.eqb_eq. reflexivity. Qed.

(** the checks of the region, as propositions *)
Definition region_ok (m : lch) (t ra : R) (sh : string) (a r : R) : Prop :=
  (sh = v_shape m \/ v_shape m = "box" -> a <= t /\ a * r <= t * ra) /\
  (sh = "box" -> v_shape m = "circle" -> a * a + a * r * (a * r) <= t).
Lemma check_region_ok m t ra sh a r : v_geom m = Some (t, ra) ->
  (check_region m sh a r = Ok tt <-> region_ok m t ra sh a r) /\ (check_region m sh a r = Ok tt \/ check_region m sh a r = Raise ValueError).
Proof.
  intros E. unfold check_region, meta_angle, meta_aspect, region_ok. rewrite E. cbn [fst snd bind].
  assert (A : ((sh =? v_shape m) || (v_shape m =? "box"))%bool = true <-> (sh = v_shape m \/ v_shape m = "box")) by (rewrite orb_true_iff, !String.eqb_eq; reflexivity).
  assert (B : ((sh =? "box") && (v_shape m =? "circle"))%bool = true <-> (sh = "box" /\ v_shape m = "circle")) by (rewrite andb_true_iff, !String.eqb_eq; reflexivity).
  destruct ((sh =? v_shape m) || (v_shape m =? "box"))%bool.
  - assert (A' : sh = v_shape m \/ v_shape m = "box") by (apply A; auto).
    destruct (rltb t a) eqn:E1; cbn [bind].
    { apply rltb_lt in E1. split; [|auto]. split; [discriminate|]. intros [H _]. specialize (H A'). lra. }
    apply rltb_ge in E1.
    destruct (rltb (t * ra) (a * r)) eqn:E2; cbn [bind].
    { apply rltb_lt in E2. split; [|auto]. split; [discriminate|]. intros [H _]. specialize (H A'). lra. }
    apply rltb_ge in E2.
    destruct ((sh =? "box") && (v_shape m =? "circle"))%bool.
    + assert (B' : sh = "box" /\ v_shape m = "circle") by (apply B; auto).
      destruct (rltb t _) eqn:E3; cbn [bind].
      * apply rltb_lt in E3. split; [|auto]. split; [discriminate|]. intros [_ H]. specialize (H (proj1 B') (proj2 B')). lra.
      * apply rltb_ge in E3. split; [|auto]. split; [|auto]. intros _. auto.
    + split; [|auto]. split; [|auto]. intros _. split; auto. intros H1 H2. exfalso. assert (false = true) by (apply B; auto). discriminate.
  - cbn [bind]. assert (A' : ~ (sh = v_shape m \/ v_shape m = "box")) by (intros X; apply A in X; discriminate).
    destruct ((sh =? "box") && (v_shape m =? "circle"))%bool.
    + assert (B' : sh = "box" /\ v_shape m = "circle") by (apply B; auto).
      destruct (rltb t _) eqn:E3; cbn [bind].
      * apply rltb_lt in E3. split; [|auto]. split; [discriminate|]. intros [_ H]. specialize (H (proj1 B') (proj2 B')). lra.
      * apply rltb_ge in E3. split; [|auto]. split; [|auto]. intros _. split; tauto.
    + split; [|auto]. split; [|auto]. intros _. split; [tauto|]. intros H1 H2. exfalso. assert (false = true) by (apply B; auto). discriminate.
Qed.

Definition z_lo (m : lch) (o : option R) : R := match o with Some z => z | None => v_zmin m end.
Definition z_hi (m : lch) (o : option R) : R := match o with Some z => z | None => v_zmax m end.
Definition sh_of (m : lch) (o : option string) : string := match o with Some s => s | None => v_shape m end.
Definition or_ (o : option R) (d : R) : R := match o with Some x => x | None => d end.

Lemma lc_volume_iff cv hh m t ra z1 z2 sh a r ih v : v_geom m = Some (t, ra) ->
  lc_volume cv hh m z1 z2 sh a r ih = Ok v <->
  v_zmin m <= z_lo m z1 /\ z_hi m z2 <= v_zmax m /\ shape_ok (sh_of m sh) /\ region_ok m t ra (sh_of m sh) (or_ a t) (or_ r ra) /\
  v = (cv (v_cosmo m) (z_hi m z2) - cv (v_cosmo m) (z_lo m z1)) * sky_area (sh_of m sh) (or_ a t) (or_ r ra) / (4 * PI) *
      (if match ih with Some b => b | None => v_inh m end then hh (v_cosmo m) ^ 3 else 1).
Proof.
  intros E. unfold lc_volume. fold (z_lo m z1) (z_hi m z2) (sh_of m sh).
  assert (Ea : dflt a (meta_angle m) = Ok (or_ a t)) by (destruct a; auto; unfold meta_angle; rewrite E; reflexivity).
  assert (Er : dflt r (meta_aspect m) = Ok (or_ r ra)) by (destruct r; auto; unfold meta_aspect; rewrite E; reflexivity).
  rewrite Ea, Er. cbn [bind].
  destruct (rltb (z_lo m z1) (v_zmin m)) eqn:E1; [apply rltb_lt in E1; split; [discriminate|lra]|apply rltb_ge in E1].
  destruct (rltb (v_zmax m) (z_hi m z2)) eqn:E2; [apply rltb_lt in E2; split; [discriminate|intros (? & ? & _); lra]|apply rltb_ge in E2].
  pose proof (shape_okb (sh_of m sh)) as S.
  destruct ((sh_of m sh =? "box") || (sh_of m sh =? "circle"))%bool eqn:E3; cbn [negb].
  2:{ split; [discriminate|]. intros (_ & _ & H & _). apply S in H. discriminate. }
  assert (S' : shape_ok (sh_of m sh)) by (apply S; auto).
  destruct (check_region_ok m t ra (sh_of m sh) (or_ a t) (or_ r ra) E) as [C D].
  destruct (check_region m _ _ _) as [[]|e]; cbn [bind].
  2:{ split; [discriminate|]. intros (_ & _ & _ & H & _). apply C in H. discriminate. }
  assert (C' : region_ok m t ra (sh_of m sh) (or_ a t) (or_ r ra)) by (apply C; auto).
  assert (Ar : (if sh_of m sh =? "box" then or_ a t * or_ a t * or_ r ra else PI * (or_ a t / 2 * (or_ a t / 2))) = sky_area (sh_of m sh) (or_ a t) (or_ r ra)).
  { unfold sky_area. destruct (_ =? _); simpl; ring. }
  rewrite Ar. split.
  - intros H. injection H as <-. repeat (split; [assumption|]).
    destruct ih as [[|]|]; [simpl; ring|ring|]. destruct (v_inh m); simpl; ring.
  - intros (_ & _ & _ & _ & ->). f_equal. destruct ih as [[|]|]; [simpl; ring|ring|]. destruct (v_inh m); simpl; ring.
Qed.

Lemma c75_additive cv hh m t ra z1 z2 z3 sh a r ih v1 v2 : v_geom m = Some (t, ra) ->
  lc_volume cv hh m (Some z1) (Some z2) sh a r ih = Ok v1 -> lc_volume cv hh m (Some z2) (Some z3) sh a r ih = Ok v2 ->
  lc_volume cv hh m (Some z1) (Some z3) sh a r ih = Ok (v1 + v2).
Proof.
  intros E H1 H2. apply (lc_volume_iff _ _ _ _ _ _ _ _ _ _ _ _ E) in H1. apply (lc_volume_iff _ _ _ _ _ _ _ _ _ _ _ _ E) in H2.
  apply (lc_volume_iff _ _ _ _ _ _ _ _ _ _ _ _ E). cbn [z_lo z_hi] in *. destruct H1 as (A1 & A2 & A3 & A4 & ->), H2 as (B1 & B2 & B3 & B4 & ->).
  repeat (split; [assumption|]). unfold Rdiv. ring.
Qed.

Lemma c75_h cv hh m t ra z1 z2 sh a r v : v_geom m = Some (t, ra) ->
  lc_volume cv hh m z1 z2 sh a r (Some false) = Ok v <-> lc_volume cv hh m z1 z2 sh a r (Some false) = Ok v /\
  lc_volume cv hh m z1 z2 sh a r (Some true) = Ok (v * hh (v_cosmo m) ^ 3).
Proof.
  intros E. split; [|tauto]. intros H. split; [exact H|]. apply (lc_volume_iff _ _ _ _ _ _ _ _ _ _ _ _ E) in H.
  apply (lc_volume_iff _ _ _ _ _ _ _ _ _ _ _ _ E). destruct H as (A1 & A2 & A3 & A4 & ->). repeat (split; [assumption|]). ring.
Qed.

Lemma within_box a r t ra : 0 <= a -> 0 <= r -> (within "box" a r "box" t ra <-> a <= t /\ a * r <= t * ra).
Proof.
  intros Ha Hr. unfold within, on_sky. cbn [String.eqb Ascii.eqb Bool.eqb]. assert (P : 0 <= a * r) by (apply Rmult_le_pos; auto). split.
  - intros H. destruct (H (a / 2) (a * r / 2)) as [H1 H2].
    + rewrite !Rabs_right by lra. lra.
    + rewrite !Rabs_right in * by lra. lra.
  - intros [H1 H2] x y [X Y]. lra.
Qed.
Lemma within_disc a r t ra : 0 <= a -> 0 <= t -> (within "circle" a r "circle" t ra <-> a <= t).
Proof.
  intros Ha Ht. unfold within, on_sky. cbn [String.eqb Ascii.eqb Bool.eqb]. split.
  - intros H. specialize (H (a / 2) 0). destruct (Rle_lt_dec a t) as [L|L]; auto. nra.
  - intros H x y X. nra.
Qed.

Lemma c75_box cv hh m t ra z1 z2 a r ih : cone m t ra -> v_shape m = "box" -> 0 <= a -> 0 <= r ->
  (exists v, lc_volume cv hh m z1 z2 (Some "box") (Some a) (Some r) ih = Ok v) <->
  v_zmin m <= z_lo m z1 /\ z_hi m z2 <= v_zmax m /\ within "box" a r "box" t ra.
Proof.
  intros (E & _) S Ha Hr. rewrite (within_box a r t ra Ha Hr). split.
  - intros [v H]. apply (lc_volume_iff _ _ _ _ _ _ _ _ _ _ _ _ E) in H. destruct H as (A1 & A2 & _ & [A4 _] & _). cbn [or_ sh_of] in A4. auto.
  - intros (A1 & A2 & A3). eexists. apply (lc_volume_iff _ _ _ _ _ _ _ _ _ _ _ _ E). repeat split; auto; try (left; reflexivity); cbn [or_ sh_of]; try tauto.
    intros _ X. rewrite S in X. discriminate.
Qed.
Lemma c75_disc cv hh m t ra z1 z2 a ih : cone m t ra -> v_shape m = "circle" -> 0 <= a ->
  (exists v, lc_volume cv hh m z1 z2 (Some "circle") (Some a) None ih = Ok v) <->
  v_zmin m <= z_lo m z1 /\ z_hi m z2 <= v_zmax m /\ within "circle" a ra "circle" t ra.
Proof.
  intros (E & Ht & Hr & _) S Ha. rewrite (within_disc a ra t ra Ha) by lra. split.
  - intros [v H]. apply (lc_volume_iff _ _ _ _ _ _ _ _ _ _ _ _ E) in H. destruct H as (A1 & A2 & _ & [A4 _] & _). cbn [or_ sh_of] in A4. split; auto. split; auto. apply A4. left; auto.
  - intros (A1 & A2 & A3). eexists. apply (lc_volume_iff _ _ _ _ _ _ _ _ _ _ _ _ E). cbn [or_ sh_of]. repeat split; auto; try (right; reflexivity); try lra; try nra; try discriminate.
Qed.

Lemma area_le m t ra sh a r : cone m t ra -> sh = v_shape m -> 0 <= a -> 0 <= r -> a <= t -> a * r <= t * ra ->
  0 <= sky_area sh a r <= sky_area (v_shape m) t ra.
Proof.
  intros (E & Ht & Hr & S) -> Ha Hr' L1 L2. unfold sky_area. pose proof PI_RGT_0 as P.
  assert (Q : 0 <= a * r) by (apply Rmult_le_pos; auto).
  destruct (v_shape m =? "box").
  - split; [apply Rmult_le_pos; auto|]. apply Rmult_le_compat; auto.
  - split; [apply Rmult_le_pos; [lra|nra]|]. apply Rmult_le_compat_l; [lra|]. simpl. nra.
Qed.

Lemma c75_monotone cv hh m t ra z1 z2 sh a r ih v tot : cone m t ra -> sh = v_shape m -> 0 <= a -> 0 <= r -> z1 <= z2 ->
  increasing (cv (v_cosmo m)) -> 0 <= hh (v_cosmo m) ->
  lc_volume cv hh m (Some z1) (Some z2) (Some sh) (Some a) (Some r) ih = Ok v ->
  lc_volume cv hh m None None None None None ih = Ok tot -> 0 <= v <= tot.
Proof.
  intros C S Ha Hr Z I Hh H1 H2. pose proof C as (E & Ht & Hra & Sh).
  apply (lc_volume_iff _ _ _ _ _ _ _ _ _ _ _ _ E) in H1. apply (lc_volume_iff _ _ _ _ _ _ _ _ _ _ _ _ E) in H2.
  cbn [z_lo z_hi sh_of or_] in *. destruct H1 as (A1 & A2 & A3 & [A4 _] & ->), H2 as (_ & _ & _ & _ & ->).
  destruct A4 as [A4 A5]; [auto|]. destruct (area_le m t ra sh a r C S Ha Hr A4 A5) as [B1 B2].
  set (k := if match ih with Some b => b | None => v_inh m end then hh (v_cosmo m) ^ 3 else 1). assert (K : 0 <= k).
  { unfold k. destruct ih as [[|]|]; [apply pow_le; auto|lra|]. destruct (v_inh m); [apply pow_le; auto|lra]. }
  pose proof (I _ _ Z) as I1. pose proof (I _ _ A1) as I2. pose proof (I _ _ A2) as I3. pose proof PI_RGT_0 as P.
  assert (PP : 0 < / (4 * PI)) by (apply Rinv_0_lt_compat; lra). unfold Rdiv.
  set (d := cv (v_cosmo m) z2 - cv (v_cosmo m) z1). set (d' := cv (v_cosmo m) (v_zmax m) - cv (v_cosmo m) (v_zmin m)).
  assert (D : 0 <= d <= d') by (unfold d, d'; lra).
  split.
  - apply Rmult_le_pos; auto. apply Rmult_le_pos; [|lra]. apply Rmult_le_pos; lra.
  - apply Rmult_le_compat_r; auto. apply Rmult_le_compat_r; [lra|]. apply Rmult_le_compat; lra.
Qed.

(** * Where the checks go wrong *)
Lemma PI_lt_4 : PI < 4.
Proof. pose proof (PI_ineq 1) as [_ H]. unfold tg_alt, PI_tg in H. simpl in H. lra. Qed.
Lemma PI_gt_3 : 3 < PI.
Proof. pose proof PI2_3_2. lra. Qed.
Lemma c75_box_in_disc cv hh m t ra ih tot : cone m t ra -> v_shape m = "circle" -> t <= 1 / 2 ->
  cv (v_cosmo m) (v_zmin m) < cv (v_cosmo m) (v_zmax m) -> 0 < hh (v_cosmo m) -> 
  lc_volume cv hh m None None None None None ih = Ok tot ->
  ~ within "box" t 1 "circle" t ra /\
  exists v, lc_volume cv hh m None None (Some "box") None (Some 1) ih = Ok v /\ tot < v.
Proof.
  intros (E & Ht & Hra & _) S L I Hh H. apply (lc_volume_iff _ _ _ _ _ _ _ _ _ _ _ _ E) in H.
  cbn [z_lo z_hi sh_of or_] in *. destruct H as (A1 & A2 & _ & _ & ->). split.
  - unfold within, on_sky. cbn [String.eqb Ascii.eqb Bool.eqb]. intros W. specialize (W (t / 2) (t / 2)).
    assert (X : Rabs (t / 2) <= t / 2) by (rewrite Rabs_right; lra). assert (X' : Rabs (t / 2) <= t * 1 / 2) by lra. specialize (W (conj X X')). nra.
  - eexists. split; [apply (lc_volume_iff _ _ _ _ _ _ _ _ _ _ _ _ E); cbn [z_lo z_hi sh_of or_]; split; [exact A1|]; split; [exact A2|]; split; [left; reflexivity|]; split; [|reflexivity]|].
    + split; [rewrite S; intros [X|X]; discriminate|]. intros _ _. nra.
    + rewrite S. unfold sky_area. cbn [String.eqb Ascii.eqb Bool.eqb]. pose proof PI_RGT_0 as P. pose proof PI_4 as P4.
      set (k := if match ih with Some b => b | None => v_inh m end then hh (v_cosmo m) ^ 3 else 1). assert (K : 0 < k).
      { unfold k. destruct ih as [[|]|]; [apply pow_lt; auto|lra|]. destruct (v_inh m); [apply pow_lt; auto|lra]. }
      assert (PP : 0 < / (4 * PI)) by (apply Rinv_0_lt_compat; lra). unfold Rdiv.
      apply Rmult_lt_compat_r; auto. apply Rmult_lt_compat_r; auto. apply Rmult_lt_compat_l; [lra|].
      pose proof PI_lt_4 as Q. simpl. assert (0 < t * t) by nra. nra.
Qed.

Lemma sq_abs x b : Rabs x <= b -> x * x <= b * b.
Proof. intros H. fold (Rsqr x). rewrite Rsqr_abs. unfold Rsqr. pose proof (Rabs_pos x). apply Rmult_le_compat; lra. Qed.
Lemma within_box_disc a r t ra : 0 <= a -> 0 <= r -> (within "box" a r "circle" t ra <-> a * a + a * r * (a * r) <= t * t).
Proof.
  intros Ha Hr. unfold within, on_sky. cbn [String.eqb Ascii.eqb Bool.eqb]. assert (P : 0 <= a * r) by (apply Rmult_le_pos; auto). split.
  - intros H. specialize (H (a / 2) (a * r / 2)). assert (X : Rabs (a / 2) <= a / 2) by (rewrite Rabs_right; lra). assert (Y : Rabs (a * r / 2) <= a * r / 2) by (rewrite Rabs_right; lra). specialize (H (conj X Y)). nra.
  - intros H x y [X Y]. pose proof (Rabs_pos x). pose proof (Rabs_pos y).
    assert (X2 : x * x <= (a / 2) * (a / 2)) by (apply sq_abs; auto).
    assert (Y2 : y * y <= (a * r / 2) * (a * r / 2)) by (apply sq_abs; auto). nra.
Qed.
Lemma within_disc_box a r t ra : 0 <= a -> 0 < t -> 0 < ra -> (within "circle" a r "box" t ra <-> a <= t /\ a <= t * ra).
Proof.
  intros Ha Ht Hra. unfold within, on_sky. cbn [String.eqb Ascii.eqb Bool.eqb]. assert (P : 0 < t * ra) by (apply Rmult_lt_0_compat; auto). split.
  - intros H. destruct (H (a / 2) 0) as [H1 _]; [lra|]. destruct (H 0 (a / 2)) as [_ H2]; [lra|]. rewrite Rabs_right in * by lra. lra.
  - intros [H1 H2] x y X. split; apply Rabs_le; split; nra.
Qed.

Lemma c75_contained cv hh m t ra z1 z2 a r ih : cone m t ra -> v_shape m = "circle" -> t <= 1 -> 0 <= a -> 0 <= r ->
  within "box" a r "circle" t ra -> v_zmin m <= z1 -> z2 <= v_zmax m ->
  exists v, lc_volume cv hh m (Some z1) (Some z2) (Some "box") (Some a) (Some r) ih = Ok v.
Proof.
  intros (E & Ht & Hra & _) S L Ha Hr W Z1 Z2. apply within_box_disc in W; auto.
  eexists. apply (lc_volume_iff _ _ _ _ _ _ _ _ _ _ _ _ E). cbn [z_lo z_hi sh_of or_]. repeat split; auto; try (left; reflexivity).
  1,2: destruct H as [X|X]; rewrite S in X; discriminate. intros _ _. nra.
Qed.
Lemma c75_rejected cv hh m t ra z1 z2 ih : cone m t ra -> v_shape m = "circle" -> 1 < t -> v_zmin m <= z1 -> z2 <= v_zmax m ->
  exists a, 0 < a /\ within "box" a 1 "circle" t ra /\
  lc_volume cv hh m (Some z1) (Some z2) (Some "box") (Some a) (Some 1) ih = Raise ValueError.
Proof.
  intros (E & Ht & Hra & _) S L Z1 Z2. set (a := sqrt (t * t / 2)).
  assert (A : a * a = t * t / 2) by (apply sqrt_sqrt; nra). assert (P : 0 < a) by (apply sqrt_lt_R0; nra).
  exists a. split; auto. split; [apply within_box_disc; lra|].
  unfold lc_volume. cbn [dflt bind]. replace (rltb z1 (v_zmin m)) with false by (symmetry; apply rltb_ge; auto).
  replace (rltb (v_zmax m) z2) with false by (symmetry; apply rltb_ge; auto). cbn [String.eqb Ascii.eqb Bool.eqb orb negb].
  destruct (check_region_ok m t ra "box" a 1 E) as [C [D|D]]; [|rewrite D; reflexivity].
  apply C in D. destruct D as [_ D]. specialize (D eq_refl S). nra.
Qed.
Lemma c75_disc_box cv hh m t ra z1 z2 a ih : cone m t ra -> v_shape m = "box" -> 0 <= a ->
  (exists v, lc_volume cv hh m (Some z1) (Some z2) (Some "circle") (Some a) (Some 1) ih = Ok v) <->
  v_zmin m <= z1 /\ z2 <= v_zmax m /\ within "circle" a 1 "box" t ra.
Proof.
  intros (E & Ht & Hra & _) S Ha. rewrite (within_disc_box a 1 t ra Ha Ht Hra). split.
  - intros [v H]. apply (lc_volume_iff _ _ _ _ _ _ _ _ _ _ _ _ E) in H. destruct H as (A1 & A2 & _ & [A4 _] & _). cbn [or_ sh_of] in A4. specialize (A4 (or_intror S)). rewrite Rmult_1_r in A4. auto.
  - intros (A1 & A2 & A3). eexists. apply (lc_volume_iff _ _ _ _ _ _ _ _ _ _ _ _ E). cbn [z_lo z_hi or_ sh_of]. repeat split; auto; try (right; reflexivity); try lra; try discriminate.
Qed.
Lemma c75_disc_in_box cv hh m t ra ih tot : cone m t ra -> v_shape m = "box" -> ra < 1 ->
  cv (v_cosmo m) (v_zmin m) < cv (v_cosmo m) (v_zmax m) -> 0 < hh (v_cosmo m) ->
  lc_volume cv hh m None None None None None ih = Ok tot ->
  ~ within "circle" t ra "box" t ra /\
  exists v, lc_volume cv hh m None None (Some "circle") None None ih = Ok v /\ (ra <= 3 / 4 -> tot < v).
Proof.
  intros (E & Ht & Hra & _) S L I Hh H. apply (lc_volume_iff _ _ _ _ _ _ _ _ _ _ _ _ E) in H.
  cbn [z_lo z_hi sh_of or_] in *. destruct H as (A1 & A2 & _ & _ & ->). split.
  - rewrite within_disc_box; [|lra|auto|auto]. nra.
  - eexists. split; [apply (lc_volume_iff _ _ _ _ _ _ _ _ _ _ _ _ E); cbn [z_lo z_hi sh_of or_]; split; [exact A1|]; split; [exact A2|]; split; [right; reflexivity|]; split; [|reflexivity]|].
    + split; [lra|discriminate].
    + intros L'. rewrite S. unfold sky_area. cbn [String.eqb Ascii.eqb Bool.eqb]. pose proof PI_RGT_0 as P.
      set (k := if match ih with Some b => b | None => v_inh m end then hh (v_cosmo m) ^ 3 else 1). assert (K : 0 < k).
      { unfold k. destruct ih as [[|]|]; [apply pow_lt; auto|lra|]. destruct (v_inh m); [apply pow_lt; auto|lra]. }
      assert (PP : 0 < / (4 * PI)) by (apply Rinv_0_lt_compat; lra). unfold Rdiv.
      apply Rmult_lt_compat_r; auto. apply Rmult_lt_compat_r; auto. apply Rmult_lt_compat_l; [lra|].
      pose proof PI_gt_3 as Q. simpl. assert (0 < t * t) by nra. nra.
Qed.
Lemma c75_reversed cv hh m t ra z1 z2 ih : cone m t ra -> v_zmin m <= z1 -> z1 < z2 -> z2 <= v_zmax m ->
  cv (v_cosmo m) z1 < cv (v_cosmo m) z2 -> 0 < hh (v_cosmo m) ->
  exists v, lc_volume cv hh m (Some z2) (Some z1) None None None ih = Ok v /\ v < 0.
Proof.
  intros (E & Ht & Hra & S) Z1 Z Z2 I Hh.
  eexists. split; [apply (lc_volume_iff _ _ _ _ _ _ _ _ _ _ _ _ E); cbn [z_lo z_hi sh_of or_]; split; [lra|]; split; [lra|]; split; [exact S|]; split; [|reflexivity]|].
  - split; [lra|]. intros A B. rewrite A in B. discriminate.
  - pose proof PI_RGT_0 as P.
    set (k := if match ih with Some b => b | None => v_inh m end then hh (v_cosmo m) ^ 3 else 1). assert (K : 0 < k).
    { unfold k. destruct ih as [[|]|]; [apply pow_lt; auto|lra|]. destruct (v_inh m); [apply pow_lt; auto|lra]. }
    assert (PP : 0 < / (4 * PI)) by (apply Rinv_0_lt_compat; lra). unfold Rdiv.
    assert (AA : 0 < sky_area (v_shape m) t ra).
    { unfold sky_area. destruct (_ =? _). - repeat apply Rmult_lt_0_compat; lra. - apply Rmult_lt_0_compat; [lra|]. apply pow_lt. lra. }
    assert (Q : 0 < (cv (v_cosmo m) z2 - cv (v_cosmo m) z1) * sky_area (v_shape m) t ra * / (4 * PI) * k) by (repeat apply Rmult_lt_0_compat; lra). lra.
Qed.
Lemma c75_other cv hh m z1 z2 a r ih : v_geom m = None -> v_shape m <> "box" -> v_shape m <> "circle" -> v_zmin m <= z1 -> z2 <= v_zmax m ->
  lc_volume cv hh m None None None None None ih = Raise KeyError /\
  exists v, lc_volume cv hh m (Some z1) (Some z2) (Some "box") (Some a) (Some r) ih = Ok v.
Proof.
  intros E B C Z1 Z2. split; [unfold lc_volume, meta_angle; rewrite E; reflexivity|].
  unfold lc_volume. cbn [dflt bind]. replace (rltb z1 (v_zmin m)) with false by (symmetry; apply rltb_ge; auto).
  replace (rltb (v_zmax m) z2) with false by (symmetry; apply rltb_ge; auto). cbn [String.eqb Ascii.eqb Bool.eqb orb negb].
  unfold check_region. replace ("box" =? v_shape m) with false by (symmetry; apply String.eqb_neq; auto).
  replace (v_shape m =? "box") with false by (symmetry; apply String.eqb_neq; auto).
  replace (v_shape m =? "circle") with false by (symmetry; apply String.eqb_neq; auto). rewrite !andb_false_r. cbn [orb bind]. eexists. reflexivity.
Qed.
