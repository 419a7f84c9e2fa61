(** Lemmas for C82. *)
From Verif Require Import Dict Util RealUtil RelModel RelSpec Rel Rel2 YangModel YangSpec.
From Coq Require Import Reals Lra Lia.
Open Scope string_scope. Open Scope list_scope.
Open Scope R_scope.

Lemma by_range_cases z lo mid hi :
  (z < 4 /\ by_range z lo mid hi = lo) \/ (4 <= z < 5 /\ by_range z lo mid hi = mid) \/ (5 <= z /\ by_range z lo mid hi = hi).
Proof.
  unfold by_range. destruct (rltb z 4) eqn:A.
  - apply rltb_lt in A. auto.
  - apply rltb_ge in A. destruct (rltb z 5) eqn:B; [apply rltb_lt in B|apply rltb_ge in B]; auto.
Qed.
Lemma dp_cong m1 n a b m1' n' a' b' m : m1 = m1' -> n = n' -> a = a' -> b = b' -> double_power m1 n a b m = double_power m1' n' a' b' m.
Proof. intros. subst. reflexivity. Qed.
Lemma dp_pos m1 n a b m : 0 < m -> 0 < double_power m1 n a b m.
Proof.
  intros M. unfold double_power, Rdiv.
  repeat apply Rmult_lt_0_compat; try lra; try apply exp_pos.
  apply Rinv_0_lt_compat, Rplus_lt_0_compat; apply exp_pos.
Qed.
Ltac rng z := unfold by_range;
  match goal with
  | H : z < 4 |- _ => rewrite (proj2 (rltb_lt z 4)) by lra
  | H : 4 <= z < 5 |- _ => rewrite (proj2 (rltb_ge z 4)) by lra; rewrite (proj2 (rltb_lt z 5)) by lra
  | H : 5 <= z |- _ => rewrite (proj2 (rltb_ge z 4)) by lra; rewrite (proj2 (rltb_ge z 5)) by lra
  end.
Lemma exp_cong c x c' x' k k' : c = c' -> x = x' -> k = k' -> c * exp x + k = c' * exp x' + k'.
Proof. intros. subst. reflexivity. Qed.

Lemma cii_law z m : 0 < z -> yang_law yang_cii m z (yang_L (cii_fit z) m).
Proof.
  intros Z. unfold yang_law, at_z, yang_cii.
  assert (C : z < 4 \/ 4 <= z < 5 \/ 5 <= z) by lra.
  destruct C as [C|[C|C]]; eexists; (split; [|]).
  1: left; split; [exact C|reflexivity].
  2: right; left; split; [exact C|reflexivity].
  3: right; right; split; [exact C|reflexivity].
  all: unfold yang_L, cii_fit, f_m1, f_n, f_a, f_b, r_m1, r_n, r_a, r_b; rewrite (proj2 (rleb_gt z 0)) by exact Z; rng z;
       unfold p10; apply dp_cong; try lra.
  - f_equal; try lra. f_equal. lra.
  - unfold Rminus. apply exp_cong; [lra| |lra]. f_equal; lra.
  - apply exp_cong; [lra| |lra]. f_equal; lra.
  - apply exp_cong; [lra| |lra]. f_equal; lra.
Qed.
Lemma cii_sig z : f_sig (cii_fit z) = width yang_cii z.
Proof. unfold cii_fit, f_sig, width, yang_cii, snd. apply exp_cong; [lra| |lra]. f_equal; lra. Qed.

Lemma co_law line i t z m : index_of yang_co_names line = Some i -> yang_co line = Some t ->
  yang_law t m z (yang_L (co_fit i z) m) /\ f_sig (co_fit i z) = width t z.
Proof.
  intros I T. unfold yang_co_names in I. cbn [index_of] in I.
  unfold yang_co in T.
  assert (C : z < 4 \/ 4 <= z < 5 \/ 5 <= z) by lra.
  destruct (String.eqb line "CO1-0"); [|destruct (String.eqb line "CO2-1"); [|destruct (String.eqb line "CO3-2"); [|
    destruct (String.eqb line "CO4-3"); [|destruct (String.eqb line "CO5-4"); [|discriminate T]]]]];
    cbn [option_map] in I; injection I as <-; injection T as <-.
  all: (split;
    [unfold yang_law, at_z; destruct C as [C|[C|C]]; eexists;
      [split; [left; split; [exact C|reflexivity]|]
      |split; [right; left; split; [exact C|reflexivity]|]
      |split; [right; right; split; [exact C|reflexivity]|]];
      unfold yang_L, co_fit, f_m1, f_n, f_a, f_b, r_m1, r_n, r_a, r_b; rng z; unfold p10, co_par; cbn [dget yang_co_params String.eqb Ascii.eqb Bool.eqb nth];
      apply dp_cong; try lra; apply exp_cong; try lra; f_equal; lra
    |unfold co_fit, f_sig, width, snd, co_par; cbn [dget yang_co_params String.eqb Ascii.eqb Bool.eqb nth]; lra]).
Qed.

Lemma fduty_ok m z : yang_on m z (yang_fduty m z) /\ 0 < yang_fduty m z <= 1.
Proof.
  unfold yang_on, yang_fduty. destruct (rltb z 4) eqn:A; [apply rltb_lt in A|apply rltb_ge in A].
  - split; [split; intros H; [|lra]|].
    + unfold p10, Rdiv. rewrite Rmult_1_l. do 2 f_equal. f_equal; [|lra]. do 3 f_equal; lra.
    + pose proof (exp_pos ((137 / 100 - 190 / 1000 * z + 215 / 10 ^ 4 * z ^ 2) * ln (m / p10 (1173 / 100 + 6634 / 10 ^ 4 * z)))) as P.
      unfold Rpower. split; [apply Rinv_0_lt_compat; lra|].
      rewrite <- Rinv_1. apply Rinv_le_contravar; lra.
  - split; [split; intros H; lra|lra].
Qed.

Lemma yang_fit_ok line z n t : yang_table line = Some t -> z_fits line z n ->
  exists f, yang_fit line z = Ok f /\ (forall m x, 0 < x -> yang_law t m x (yang_L (f x) m)) /\ (forall x, f_sig (f x) = width t x).
Proof.
  intros T Z. unfold yang_table in T. unfold yang_fit.
  destruct (String.eqb_spec line "CII") as [->|N].
  - injection T as <-. exists cii_fit. split; [reflexivity|]. split; [intros; apply cii_law; auto|exact cii_sig].
  - destruct z as [z|zs]; [elim (N Z)|].
    assert (X : String.eqb line "CI1-0" || String.eqb line "CI2-1" = false).
    { destruct (String.eqb_spec line "CI1-0") as [->|_]; [discriminate T|].
      destruct (String.eqb_spec line "CI2-1") as [->|_]; [discriminate T|reflexivity]. }
    rewrite X. destruct (index_of yang_co_names line) as [i|] eqn:I.
    + exists (co_fit i). split; [reflexivity|]. split; intros; eapply co_law; eauto.
    + exfalso. unfold yang_co_names in I. cbn [index_of] in I. unfold yang_co in T.
      repeat match type of T with (if ?b then _ else _) = _ => destruct b; [discriminate I|] end. discriminate T.
Qed.
Lemma zlist_at z line n i : z_fits line z n -> (i < n)%nat -> nth_error (zlist n z) i = z_at z i.
Proof.
  destruct z as [z|zs]; cbn; auto. intros _ H. revert i H.
  induction n; intros i H; [lia|]. destruct i; cbn; auto. apply IHn. lia.
Qed.
Lemma zlist_len z line n : z_fits line z n -> length (zlist n z) = n.
Proof. destruct z; cbn; auto. intros _. apply repeat_length. Qed.
Lemma nth_some {A} (l : list A) i : (i < length l)%nat -> exists x, nth_error l i = Some x.
Proof. intros H. destruct (nth_error l i) eqn:E; eauto. apply nth_error_None in E. lia. Qed.

Section Rand.
Context {G : Type} (normals uniforms : nat -> G -> list R * G) (DN : draws normals) (DU : draws uniforms).
Lemma yang_ok line t mass z duty scatter fix_ g gg : yang_table line = Some t -> z_fits line z (length mass) ->
  (forall i x, nth_error mass i = Some x -> 0 < x) -> (forall i x, z_at z i = Some x -> 0 < x) ->
  exists out, yang22 normals uniforms mass z line duty scatter fix_ g gg
      = Ok (out, (if scatter then snd (normals (length mass) g) else g), (if duty then snd (uniforms (length mass) gg) else gg))
    /\ length out = length mass
    /\ forall i m x n u, nth_error mass i = Some m -> z_at z i = Some x ->
         nth_error (fst (normals (length mass) g)) i = Some n -> nth_error (fst (uniforms (length mass) gg)) i = Some u ->
         exists L f y, yang_law t m x L /\ 0 < L /\ yang_on m x f /\ 0 < f <= 1 /\ nth_error out i = Some y
           /\ let base := if scatter then scatter_of Median (match fix_ with Some s => s | None => width t x end) L n else L in
              (duty = false \/ u <= f -> y = base) /\ (duty = true /\ f < u -> y = 0).
Proof.
  intros T Z M X. destruct (yang_fit_ok line z (length mass) t T Z) as (f & F & LAW & SIG).
  unfold yang22. rewrite F. cbn [bind].
  pose proof (zlist_len z line _ Z) as ZL. rewrite ZL, Nat.eqb_refl.
  set (zs := zlist (length mass) z) in *.
  set (L0 := map (fun p : R * R => yang_L (f (snd p)) (fst p)) (combine mass zs)).
  assert (LL : length L0 = length mass) by (unfold L0; rewrite map_length, combine_length; lia).
  set (sig := map (fun x => match fix_ with Some s => s | None => f_sig (f x) end) zs).
  rewrite LL. pose proof (DN (length mass) g) as DN1. destruct (normals (length mass) g) as [ns g'] eqn:EN. cbn [fst snd] in DN1 |- *.
  set (L1 := map (fun p : R * (R * R) => fst p * p10 (fst (snd p) * snd (snd p))) (combine L0 (combine sig ns))).
  assert (LS : length sig = length mass) by (unfold sig; rewrite map_length; exact ZL).
  assert (LL1 : length L1 = length mass) by (unfold L1; rewrite map_length, !combine_length; lia).
  set (L2 := if scatter then L1 else L0).
  assert (LL2 : length L2 = length mass) by (unfold L2; destruct scatter; auto).
  assert (E : (if scatter then (L1, g') else (L0, g)) = (L2, if scatter then g' else g)) by (unfold L2; destruct scatter; reflexivity).
  rewrite E, LL2. clear E. pose proof (DU (length mass) gg) as DU1.
  destruct (uniforms (length mass) gg) as [us gg'] eqn:EU. cbn [fst snd] in DU1 |- *.
  set (L3 := map (fun p : R * (R * R * R) => if rltb (yang_fduty (fst (fst (snd p))) (snd (fst (snd p)))) (snd (snd p)) then 0 else fst p)
                  (combine L2 (combine (combine mass zs) us))).
  assert (LL3 : length L3 = length mass) by (unfold L3; rewrite map_length, !combine_length; lia).
  exists (if duty then L3 else L2). split; [destruct duty; reflexivity|]. split; [destruct duty; auto|].
  intros i m x n u Mi Xi Ni Ui.
  assert (HI : (i < length mass)%nat) by (apply nth_error_Some; congruence).
  assert (Zi : nth_error zs i = Some x) by (unfold zs; rewrite (zlist_at z line _ i Z HI); exact Xi).
  assert (L0i : nth_error L0 i = Some (yang_L (f x) m)).
  { unfold L0. rewrite nth_error_map, nth_error_combine, Mi, Zi. reflexivity. }
  assert (Si : nth_error sig i = Some (match fix_ with Some s => s | None => width t x end)).
  { unfold sig. rewrite nth_error_map, Zi. cbn. rewrite SIG. reflexivity. }
  assert (L1i : nth_error L1 i = Some (scatter_of Median (match fix_ with Some s => s | None => width t x end) (yang_L (f x) m) n)).
  { unfold L1. rewrite nth_error_map, !nth_error_combine, L0i, Si, Ni. cbn. rewrite p10_exp. do 2 f_equal. f_equal. ring. }
  set (base := if scatter then scatter_of Median (match fix_ with Some s => s | None => width t x end) (yang_L (f x) m) n else yang_L (f x) m).
  assert (L2i : nth_error L2 i = Some base) by (unfold L2, base; destruct scatter; assumption).
  assert (L3i : nth_error L3 i = Some (if rltb (yang_fduty m x) u then 0 else base)).
  { unfold L3. rewrite nth_error_map, !nth_error_combine, L2i, Mi, Zi, Ui. reflexivity. }
  destruct (fduty_ok m x) as (ON & RG). pose proof (LAW m x (X i x Xi)) as LW.
  exists (yang_L (f x) m), (yang_fduty m x), (if duty then (if rltb (yang_fduty m x) u then 0 else base) else base).
  split; [exact LW|]. split; [destruct LW as (r & _ & ->); apply dp_pos; eauto|]. split; [exact ON|]. split; [exact RG|].
  split; [destruct duty; assumption|]. cbv zeta. fold base.
  destruct duty; split.
  - intros [H|H]; [discriminate|]. rewrite (proj2 (rltb_ge _ _)) by exact H. reflexivity.
  - intros [_ H]. rewrite (proj2 (rltb_lt _ _)) by exact H. reflexivity.
  - reflexivity.
  - intros [H _]. discriminate.
Qed.
End Rand.
