(** Lemmas for C78-C81: which names are accepted, the scatter and the duty cycles. *)
From Verif Require Import Dict Util RealUtil RelModel RelSpec RelGauss Rel.
From Coq Require Import Reals Lra Lia.
From Coquelicot Require Import Coquelicot.
Open Scope string_scope. Open Scope list_scope.
Open Scope R_scope.

Ltac names := repeat (cbn [dget]; match goal with
  | |- context [String.eqb ?a ?b] => is_var a; destruct (String.eqb_spec a b); [subst a|]
  end).

Section Names.
Context {G : Type} (normals : nat -> G -> list R * G).

Lemma delooze_names sfr line set sc fs g :
  (exists m b, In (line, set, m, b) delooze_fits) \/ delooze14 normals sfr line set sc fs g = Raise ValueError.
Proof.
  unfold delooze14, delooze_table.
  destruct set as [n|]; cbn [dget]; names; try (right; reflexivity);
    left; do 2 eexists; unfold delooze_fits; repeat (apply in_eq || apply in_cons).
Qed.
Lemma ir_names table (fts : list (string * R * R)) sfr d line sc sig g :
  (forall l, dget table l = None -> ~ exists A B, In (l, A, B) fts) ->
  (forall l ab, dget table l = Some ab -> exists A B, In (l, A, B) fts) ->
  ((exists A B, In (line, A, B) fts) -> exists r, ir_fit normals table sfr d line sc sig g = Ok r)
  /\ ((~ exists A B, In (line, A, B) fts) -> ir_fit normals table sfr d line sc sig g = Raise NameError).
Proof.
  intros N S. unfold ir_fit. destruct (dget table line) as [[A B]|] eqn:E; split; intros H.
  - eexists; reflexivity.
  - elim H. eapply S, E.
  - elim (N _ E H).
  - reflexivity.
Qed.
Ltac notin H := destruct H as (A & B & H); simpl in H; repeat destruct H as [H|H]; try contradiction; injection H as ? _ _; congruence.
Lemma uzgil_names sfr d line sc sig g :
  ((exists A B, In (line, A, B) uzgil_fits) -> exists r, uzgil14 normals sfr d line sc sig g = Ok r)
  /\ ((~ exists A B, In (line, A, B) uzgil_fits) -> uzgil14 normals sfr d line sc sig g = Raise NameError).
Proof.
  apply ir_names.
  - intros l. unfold uzgil_table; cbn [dget]. names; try discriminate. intros _ H. notin H.
  - intros l ab. unfold uzgil_table; cbn [dget]. names; try discriminate; intros _; do 2 eexists; unfold uzgil_fits; repeat (apply in_eq || apply in_cons).
Qed.
Lemma spinoglio_names sfr d line sc sig g :
  ((exists A B, In (line, A, B) spinoglio_fits) -> exists r, spinoglio12 normals sfr d line sc sig g = Ok r)
  /\ ((~ exists A B, In (line, A, B) spinoglio_fits) -> spinoglio12 normals sfr d line sc sig g = Raise NameError).
Proof.
  apply ir_names.
  - intros l. unfold spinoglio_table; cbn [dget]. names; try discriminate. intros _ H. notin H.
  - intros l ab. unfold spinoglio_table; cbn [dget]. names; try discriminate; intros _; do 2 eexists; unfold spinoglio_fits; repeat (apply in_eq || apply in_cons).
Qed.
Lemma schaerer_names sfr set sc sig g :
  (exists m b, In (set, m, b) schaerer_fits) \/ schaerer20 normals sfr set sc sig g = Raise ValueError.
Proof.
  unfold schaerer20, schaerer_table. destruct set as [n|]; cbn [dget]; names; try (right; reflexivity);
    left; do 2 eexists; unfold schaerer_fits; repeat (apply in_eq || apply in_cons).
Qed.
End Names.

(** * Scatter *)
Section Scatter.
Context {G : Type} (normals : nat -> G -> list R * G) (DN : draws normals).

Lemma p10_exp y : p10 y = exp (ln 10 * y).
Proof. unfold p10, Rpower. now rewrite Rmult_comm. Qed.

Lemma nth_error_combine {A B} (l : list A) (l' : list B) i :
  nth_error (combine l l') i = match nth_error l i, nth_error l' i with Some a, Some b => Some (a, b) | _, _ => None end.
Proof.
  revert l' i. induction l as [|a l IH]; intros [|b l'] [|i]; simpl; try reflexivity.
  - now destruct (nth_error l i).
  - apply IH.
Qed.

Definition kp (preserve : bool) : keeps := if preserve then Mean else Median.
Lemma log10normal_ok x dex p g :
  scatters (kp p) dex (fst (normals (length x) g)) x (fst (log10normal normals x dex p g))
  /\ snd (log10normal normals x dex p g) = snd (normals (length x) g).
Proof.
  unfold log10normal.
  set (mu := if p then map (option_map (fun v => v / p10 (dex * dex * ln 10 / 2))) x else x).
  assert (Lm : length mu = length x) by (unfold mu; destruct p; [apply map_length|reflexivity]).
  rewrite Lm. pose proof (DN (length x) g) as LD. destruct (normals (length x) g) as [ns g'] eqn:E. simpl in *.
  split; [|reflexivity]. split.
  - rewrite map_length, combine_length. lia.
  - intros i n N. split.
    + intros v V. rewrite nth_error_map, nth_error_combine, N. unfold mu. destruct p; simpl.
      * rewrite nth_error_map, V. simpl. do 2 f_equal. rewrite !p10_exp.
        replace (ln 10 * (dex * n)) with (ln 10 * dex * n) by ring.
        replace (ln 10 * (dex * dex * ln 10 / 2)) with ((ln 10 * dex) ^ 2 / 2) by field.
        simpl. field. apply Rgt_not_eq, exp_pos.
      * rewrite V. simpl. rewrite p10_exp. do 4 f_equal. ring.
    + intros V. rewrite nth_error_map, nth_error_combine, N. unfold mu. destruct p; simpl.
      * now rewrite nth_error_map, V.
      * now rewrite V.
Qed.
Lemma scatter_pos k dex x n : (0 < x -> 0 < scatter_of k dex x n) /\ (x = 0 -> scatter_of k dex x n = 0).
Proof.
  destruct k; simpl; (split; intros H).
  - apply Rmult_lt_0_compat; [exact H|apply exp_pos].
  - subst. ring.
  - apply Rmult_lt_0_compat; [apply Rmult_lt_0_compat; [exact H|apply exp_pos]|apply Rinv_0_lt_compat, exp_pos].
  - subst. unfold Rdiv. ring.
Qed.
Lemma scatter_mean dex x : normal_mean (scatter_of Mean dex x) x.
Proof.
  set (t := ln 10 * dex). set (q := exp (t ^ 2 / 2)).
  assert (Q : 0 < q) by apply exp_pos.
  apply (normal_mean_ext (fun n => x / q * exp (t * n))).
  - intros n. simpl. fold t. replace (t * (t * 1) / 2) with (t ^ 2 / 2) by reflexivity. fold q. field. lra.
  - pose proof (normal_mean_cexp (x / q) t) as H.
    replace (t * t / 2) with (t ^ 2 / 2) in H by field. fold q in H.
    replace (x / q * q) with x in H by (field; lra). exact H.
Qed.
Lemma scatter_median dex x : normal_mean (scatter_of Median dex x) (x * exp ((ln 10 * dex) ^ 2 / 2)).
Proof.
  pose proof (normal_mean_cexp x (ln 10 * dex)) as H.
  replace (ln 10 * dex * (ln 10 * dex) / 2) with ((ln 10 * dex) ^ 2 / 2) in H by field. exact H.
Qed.

(** the scatter of each relation; [b] is what it gives without *)
Lemma scattered_ok p sig l g : exists out, scattered normals true p sig l g = (out, snd (normals (length l) g))
  /\ scatters (kp p) sig (fst (normals (length l) g)) l out.
Proof.
  unfold scattered. destruct (log10normal_ok l sig p g) as (A & B).
  destruct (log10normal normals l sig p g) as [o g'] eqn:E. simpl in *. subst. eauto.
Qed.
Lemma li_scatter sfr d a b nu sig g : exists base out,
  li16 normals sfr d a b nu false sig g = (base, g) /\ length base = length sfr
  /\ li16 normals sfr d a b nu true sig g = (out, snd (normals (length sfr) g))
  /\ scatters Mean sig (fst (normals (length sfr) g)) base out.
Proof.
  unfold li16. set (l := map _ sfr). assert (L : length l = length sfr) by apply map_length.
  destruct (scattered_ok true sig l g) as (out & A & B). rewrite L in *. exists l, out. (split; [reflexivity|split; [exact L|split; [first [exact A | reflexivity]|exact B]]]).
Qed.
Lemma gao_scatter sfr d a b nu sig g : exists base out,
  hcn_gao normals sfr d a b nu false sig g = (base, g) /\ length base = length sfr
  /\ hcn_gao normals sfr d a b nu true sig g = (out, snd (normals (length sfr) g))
  /\ scatters Mean sig (fst (normals (length sfr) g)) base out.
Proof.
  unfold hcn_gao. set (l := map _ sfr). assert (L : length l = length sfr) by apply map_length.
  destruct (scattered_ok true sig l g) as (out & A & B). rewrite L in *. exists l, out. (split; [reflexivity|split; [exact L|split; [first [exact A | reflexivity]|exact B]]]).
Qed.
Lemma zhao_scatter sfr d sig g : exists base out,
  zhao13 normals sfr d false sig g = (base, g) /\ length base = length sfr
  /\ zhao13 normals sfr d true sig g = (out, snd (normals (length sfr) g))
  /\ scatters Median sig (fst (normals (length sfr) g)) base out.
Proof.
  unfold zhao13. set (l := map _ sfr). assert (L : length l = length sfr) by apply map_length.
  destruct (scattered_ok false sig l g) as (out & A & B). rewrite L in *. exists l, out. (split; [reflexivity|split; [exact L|split; [first [exact A | reflexivity]|exact B]]]).
Qed.
Lemma schaerer_scatter sfr set m b sig g : In (set, m, b) schaerer_fits -> exists base out,
  schaerer20 normals sfr set false sig g = Ok (base, g) /\ length base = length sfr
  /\ schaerer20 normals sfr set true sig g = Ok (out, snd (normals (length sfr) g))
  /\ scatters Median sig (fst (normals (length sfr) g)) base out.
Proof.
  intros H. destruct (schaerer_fit normals set m b sfr sig g H) as (o & E & _). unfold schaerer20 in *.
  destruct (dget _ _) as [[A B]|]; [|discriminate].
  set (l := map _ sfr) in *. assert (L : length l = length sfr) by apply map_length.
  destruct (scattered_ok false sig l g) as (out & A1 & B1). rewrite L in *. exists l, out. rewrite A1. (split; [reflexivity|split; [exact L|split; [reflexivity|exact B1]]]).
Qed.
Lemma ir_scatter table sfr d line sig g r : ir_fit normals table sfr d line false sig g = Ok r -> exists base out,
  r = (base, g) /\ length base = length sfr
  /\ ir_fit normals table sfr d line true sig g = Ok (out, snd (normals (length sfr) g))
  /\ scatters Median sig (fst (normals (length sfr) g)) base out.
Proof.
  unfold ir_fit. destruct (dget _ _) as [[A B]|]; [|discriminate].
  set (l := map _ sfr). assert (L : length l = length sfr) by apply map_length. intros E.
  destruct (scattered_ok false sig l g) as (out & A1 & B1). rewrite L in *. exists l, out. rewrite A1.
  injection E as <-. (split; [reflexivity|split; [exact L|split; [reflexivity|exact B1]]]).
Qed.
Lemma delooze_scatter sfr line set fs g sg : In (line, set, sg) delooze_sigma ->
  let sigma := match fs with Some x => x | None => sg end in
  exists base out,
  delooze14 normals sfr line set false fs g = Ok (base, g) /\ length base = length sfr
  /\ delooze14 normals sfr line set true fs g = Ok (out, snd (normals (length sfr) g))
  /\ scatters Median sigma (fst (normals (length sfr) g)) base out.
Proof.
  intros H sigma. unfold delooze14.
  assert (E : exists w sets m b s, dget delooze_table line = Some (w, sets)
    /\ match set with None => Some w | Some n => dget sets n end = Some (m, b, s) /\ hundredths s = sg).
  { unfold delooze_sigma in H. simpl in H. repeat destruct H as [H|H]; try contradiction; injection H as <- <- <-;
      (do 5 eexists; split; [reflexivity|]; split; [reflexivity|]; unfold hundredths; lra). }
  destruct E as (w & sets & m & b & s & -> & -> & ES). rewrite ES. fold sigma.
  set (l := map _ sfr). assert (L : length l = length sfr) by apply map_length.
  destruct (scattered_ok false sigma l g) as (out & A1 & B1). rewrite L in *. exists l, out. rewrite A1. (split; [reflexivity|split; [exact L|split; [reflexivity|exact B1]]]).
Qed.
Lemma pad_scatter m1 b n1 a mz sig g : exists base out,
  padmanabhan19 normals m1 b n1 a mz false None g = Ok (base, g) /\ length base = length mz
  /\ padmanabhan19 normals m1 b n1 a mz true (Some sig) g = Ok (out, snd (normals (length mz) g))
  /\ scatters Mean sig (fst (normals (length mz) g)) base out.
Proof.
  unfold padmanabhan19. set (l := map _ mz). assert (L : length l = length mz) by apply map_length.
  destruct (scattered_ok true sig l g) as (out & A & B). unfold scattered in A. rewrite L in *.
  exists l, out. rewrite A. (split; [reflexivity|split; [exact L|split; [first [exact A | reflexivity]|exact B]]]).
Qed.
Lemma behroozi_scatter f zm sig g gd : exists base out,
  behroozi normals (Some f) zm false sig g gd = (BVal base, g, gd) /\ base = map (fun p => Some (f (fst p) (snd p))) zm
  /\ behroozi normals (Some f) zm true sig g gd = (BVal out, g, snd (normals (length zm) gd))
  /\ scatters Mean sig (fst (normals (length zm) gd)) base out.
Proof.
  unfold behroozi. set (l := map _ zm). assert (L : length l = length zm) by apply map_length.
  destruct (scattered_ok true sig l gd) as (out & A & B). rewrite L in *. exists l, out. rewrite A. (split; [reflexivity|split; [reflexivity|split; [first [exact A | reflexivity]|exact B]]]).
Qed.

(** keating16: the cut comes after the scatter *)
Lemma keating_ok mass m_min A sc sig g :
  let r := keating16 normals mass m_min A sc sig g in
  length (fst r) = length mass /\
  forall i m, nth_error mass i = Some m ->
    (m < m_min -> nth_error (fst r) i = Some (Some 0))
    /\ (m_min <= m -> sc = false -> nth_error (fst r) i = Some (Some (A * m)))
    /\ (m_min <= m -> sc = true -> forall n, nth_error (fst (normals (length mass) g)) i = Some n ->
         nth_error (fst r) i = Some (Some (scatter_of Median sig (A * m) n))).
Proof.
  intros r. unfold r, keating16. set (l := map _ mass).
  assert (L : length l = length mass) by apply map_length.
  assert (N : forall i m, nth_error mass i = Some m -> nth_error l i = Some (Some (A * m))) by (intros i m H; unfold l; now rewrite nth_error_map, H).
  assert (S : exists o g', scattered normals sc false sig l g = (o, g') /\ length o = length mass
    /\ (sc = false -> o = l) /\ (sc = true -> scatters Median sig (fst (normals (length mass) g)) l o)).
  { destruct sc.
    - destruct (scattered_ok false sig l g) as (o & E & S). rewrite L in *. exists o; eexists; split; [exact E|].
      split; [rewrite <- L; apply S|split; [discriminate|intros _; exact S]].
    - exists l, g. split; [reflexivity|split; [exact L|split; [reflexivity|discriminate]]]. }
  destruct S as (o & g' & -> & Lo & F & T). simpl. split; [rewrite map_length, combine_length; lia|].
  intros i m M. rewrite nth_error_map, nth_error_combine, M.
  assert (X : exists v, nth_error o i = Some v).
  { destruct (nth_error o i) eqn:E; [eauto|]. apply nth_error_None in E.
    assert (i < length mass)%nat by (apply nth_error_Some; congruence). lia. }
  destruct X as (v & V). rewrite V. simpl. split; [|split].
  - intros H. apply rltb_lt in H. now rewrite H.
  - intros H Hs. apply rltb_ge in H. rewrite H. rewrite (F Hs), (N _ _ M) in V. congruence.
  - intros H Hs n Hn. pose proof H as H'. apply rltb_ge in H'. rewrite H'. f_equal.
    destruct (proj2 (T Hs) i n Hn) as (Y & _). rewrite (Y _ (N _ _ M)) in V. injection V as <-. reflexivity.
Qed.
End Scatter.

(** * Duty cycles *)
Lemma f_duty_ok age sf zs : 0 < sf -> (forall z, 0 < age z) ->
  Forall2 (fun z f => f = Rmin 1 (sf / age z) /\ 0 < f <= 1) zs (f_duty age sf zs).
Proof.
  intros S A. apply Forall2_map_r. intros z.
  assert (P : 0 < sf / age z) by (apply Rmult_lt_0_compat; [exact S|apply Rinv_0_lt_compat, A]).
  destruct (rltb 1 (sf / age z)) eqn:E.
  - apply rltb_lt in E. rewrite Rmin_left by lra. lra.
  - apply rltb_ge in E. rewrite Rmin_right by lra. lra.
Qed.

(** [out] has, for each halo, the full luminosity or zero, by its own draw and fraction *)
Section Duty.
Context {G : Type} (uniforms : nat -> G -> list R * G) (DU : draws uniforms).

Lemma lidz_random mass fd g :
  let us := fst (uniforms (length mass) g) in let r := lidz11 uniforms mass fd true g in
  length (fst r) = length mass /\ snd r = snd (uniforms (length mass) g) /\
  forall i m u, nth_error mass i = Some m -> nth_error us i = Some u ->
    (u < fd -> nth_error (fst r) i = Some (lidz_L m)) /\ (fd <= u -> nth_error (fst r) i = Some 0).
Proof.
  unfold lidz11. pose proof (DU (length mass) g) as L. destruct (uniforms (length mass) g) as [us g']. simpl in *.
  split; [rewrite map_length, combine_length; lia|]. split; [reflexivity|]. intros i m u M U.
  rewrite nth_error_map, nth_error_combine, M, U. simpl. split; intros H.
  - apply rltb_lt in H. rewrite H. f_equal. unfold lidz_L. lra.
  - apply rltb_ge in H. now rewrite H.
Qed.
Lemma lidz_plain mass fd g : lidz11 uniforms mass fd false g = (map (fun m => fd * lidz_L m) mass, g).
Proof. unfold lidz11. f_equal. apply map_ext. intros m. unfold lidz_L. lra. Qed.

Lemma breysse_pos m : 0 < m -> 17 / 10 ^ 16 * rpow m (167 / 100) = breysse_L m.
Proof.
  intros M. unfold rpow, breysse_L. destruct (reqb m 0) eqn:E; [apply reqb_eq in E; lra|].
  replace (1.7 / 10 ^ 15) with (17 / 10 ^ 16) by lra. reflexivity.
Qed.
Lemma breysse_random (mass : list R) fd g : List.Forall (fun m : R => 0 < m) mass ->
  let us := fst (uniforms (length mass) g) in let r := hcn_breysse uniforms mass fd true g in
  length (fst r) = length mass /\ snd r = snd (uniforms (length mass) g) /\
  forall i m u, nth_error mass i = Some m -> nth_error us i = Some u ->
    (u < fd -> nth_error (fst r) i = Some (breysse_L m)) /\ (fd <= u -> nth_error (fst r) i = Some 0).
Proof.
  intros P. unfold hcn_breysse. pose proof (DU (length mass) g) as L. destruct (uniforms (length mass) g) as [us g']. simpl in *.
  split; [rewrite map_length, combine_length; lia|]. split; [reflexivity|]. intros i m u M U.
  rewrite nth_error_map, nth_error_combine, M, U. simpl fst; simpl snd. cbn [option_map].
  assert (0 < m) by (rewrite Forall_forall in P; apply P; eapply nth_error_In, M).
  split; intros H'.
  - apply rltb_lt in H'. cbn [fst snd]. rewrite H'. f_equal. now apply breysse_pos.
  - apply rltb_ge in H'. cbn [fst snd]. now rewrite H'.
Qed.
Lemma breysse_plain (mass : list R) fd g : List.Forall (fun m : R => 0 < m) mass ->
  hcn_breysse uniforms mass fd false g = (map (fun m => fd * breysse_L m) mass, g).
Proof.
  intros P. unfold hcn_breysse. f_equal. apply map_ext_in. intros m M. rewrite Forall_forall in P.
  rewrite breysse_pos by now apply P. ring.
Qed.

Lemma pullen_frac age mass zs rand sf g : length zs = length mass \/ length zs = 1%nat ->
  exists frac, length frac = length mass
    /\ (forall i, (i < length mass)%nat -> exists z, redshift_of zs i = Some z /\ nth_error frac i = Some (if rltb 1 (sf / age z) then 1 else sf / age z))
    /\ pullen13 uniforms age mass zs rand sf g =
       (let full := map (fun m => 10 ^ 6 * m / (5 * 10 ^ 11)) mass in
        if rand then
          let '(us, g') := uniforms (length mass) g in
          Ok (map (fun p => if rltb (snd (fst p)) (snd p) then 0 else fst (fst p)) (combine (combine full frac) us), g')
        else Ok (map (fun p => fst p * snd p) (combine full frac), g)).
Proof.
  intros H. unfold pullen13.
  assert (LF : length (f_duty age sf zs) = length zs) by apply map_length.
  destruct zs as [|z [|z2 zs]].
  - simpl in H. destruct H as [H|H]; [|discriminate]. exists []. split; [exact H|]. split; [intros i; rewrite <- H; lia|].
    cbn [f_duty map bind length]. rewrite <- H. reflexivity.
  - cbn [f_duty map bind]. eexists. split; [apply map_length|]. split; [|reflexivity].
    intros i I. exists z. split; [reflexivity|].
    destruct (nth_error mass i) eqn:E; [|apply nth_error_None in E; lia]. now rewrite nth_error_map, E.
  - destruct H as [H|H]; [|simpl in H; lia].
    exists (f_duty age sf (z :: z2 :: zs)). split; [congruence|]. split.
    + intros i I. rewrite <- H in I. destruct (nth_error (z :: z2 :: zs) i) as [z'|] eqn:E; [|apply nth_error_None in E; lia].
      exists z'. split; [exact E|]. unfold f_duty. now rewrite nth_error_map, E.
    + remember (f_duty age sf (z :: z2 :: zs)) as fs eqn:Ef. destruct fs as [|f1 [|f2 fs]]; [discriminate Ef|discriminate Ef|].
      rewrite LF, H, Nat.eqb_refl. reflexivity.
Qed.
Lemma pullen_random age mass zs sf g : 0 < sf -> (forall z, 0 < age z) -> length zs = length mass \/ length zs = 1%nat ->
  let us := fst (uniforms (length mass) g) in
  exists out, pullen13 uniforms age mass zs true sf g = Ok (out, snd (uniforms (length mass) g)) /\ length out = length mass /\
  forall i m u z, nth_error mass i = Some m -> nth_error us i = Some u -> redshift_of zs i = Some z ->
    (u <= Rmin 1 (sf / age z) -> nth_error out i = Some (pullen_L m)) /\ (Rmin 1 (sf / age z) < u -> nth_error out i = Some 0).
Proof.
  intros S A H us. destruct (pullen_frac age mass zs true sf g H) as (frac & L & F & E).
  unfold us. pose proof (DU (length mass) g) as LU. rewrite E. destruct (uniforms (length mass) g) as [u0 g']. simpl in *.
  eexists. split; [reflexivity|]. split; [rewrite map_length, !combine_length, map_length; lia|].
  intros i m u z M U Z. assert (I : (i < length mass)%nat) by (apply nth_error_Some; congruence).
  destruct (F i I) as (z' & Z' & N). rewrite Z in Z'. injection Z' as <-.
  rewrite nth_error_map, !nth_error_combine, nth_error_map, M, N, U. cbn [option_map fst snd].
  replace (if rltb 1 (sf / age z) then 1 else sf / age z) with (Rmin 1 (sf / age z)).
  2:{ destruct (rltb 1 (sf / age z)) eqn:Q; [apply rltb_lt in Q; now rewrite Rmin_left by lra|apply rltb_ge in Q; now rewrite Rmin_right by lra]. }
  split; intros Q.
  - apply rltb_ge in Q. rewrite Q. reflexivity.
  - apply rltb_lt in Q. now rewrite Q.
Qed.
Lemma pullen_plain age mass zs sf g : 0 < sf -> (forall z, 0 < age z) -> length zs = length mass \/ length zs = 1%nat ->
  exists out, pullen13 uniforms age mass zs false sf g = Ok (out, g) /\ length out = length mass /\
  forall i m z, nth_error mass i = Some m -> redshift_of zs i = Some z ->
    nth_error out i = Some (Rmin 1 (sf / age z) * (pullen_L m)).
Proof.
  intros S A H. destruct (pullen_frac age mass zs false sf g H) as (frac & L & F & E).
  rewrite E. eexists. split; [reflexivity|]. split; [rewrite map_length, combine_length, map_length; lia|].
  intros i m z M Z. assert (I : (i < length mass)%nat) by (apply nth_error_Some; congruence).
  destruct (F i I) as (z' & Z' & N). rewrite Z in Z'. injection Z' as <-.
  rewrite nth_error_map, nth_error_combine, nth_error_map, M, N. cbn [option_map fst snd]. f_equal.
  destruct (rltb 1 (sf / age z)) eqn:Q; [apply rltb_lt in Q; rewrite Rmin_left by lra|apply rltb_ge in Q; rewrite Rmin_right by lra]; unfold pullen_L; lra.
Qed.
Lemma pullen_raise age mass zs rand sf g : length zs <> length mass -> length zs <> 1%nat ->
  exists e, pullen13 uniforms age mass zs rand sf g = Raise e.
Proof.
  intros A B. unfold pullen13. assert (LF : length (f_duty age sf zs) = length zs) by apply map_length.
  destruct (f_duty age sf zs) as [|f1 [|f2 fs]]; simpl in LF; [|congruence|].
  - destruct mass; simpl in A; [congruence|]. simpl. destruct (rand && _); eexists; reflexivity.
  - cbn [length] in *. replace (S (S (length fs)) =? length mass)%nat with false by (symmetry; apply Nat.eqb_neq; congruence).
    destruct (rand && _); eexists; reflexivity.
Qed.
End Duty.

(** the mean of a halo that is on for draws below [f] *)
Lemma duty_mean (v : R -> R) L f : 0 <= f <= 1 -> (forall u, u < f -> v u = L) -> (forall u, f < u -> v u = 0) ->
  uniform_mean v (f * L).
Proof. intros F A B. rewrite Rmult_comm. now apply uniform_step. Qed.

(** one halo, as a function of its draw *)
Lemma lidz_mean m fd (g : unit) : 0 <= fd <= 1 -> exists v,
  (forall u, fst (lidz11 (fun _ g => (u :: nil, g)) (m :: nil) fd true g) = v u :: nil) /\
  uniform_mean v (fd * lidz_L m) /\ fst (lidz11 (fun _ g => (0 :: nil, g)) (m :: nil) fd false g) = fd * lidz_L m :: nil.
Proof.
  intros F. exists (fun u => if rltb u fd then 28 * 10 ^ 2 * (m / 10 ^ 8) else 0). split; [reflexivity|]. split.
  - apply duty_mean; [exact F| |]; intros u U.
    + apply rltb_lt in U. rewrite U. unfold lidz_L. lra.
    + now rewrite (proj2 (rltb_ge u fd) ltac:(lra)).
  - now rewrite lidz_plain.
Qed.
Lemma breysse_mean m fd (g : unit) : 0 < m -> 0 <= fd <= 1 -> exists v,
  (forall u, fst (hcn_breysse (fun _ g => (u :: nil, g)) (m :: nil) fd true g) = v u :: nil) /\
  uniform_mean v (fd * breysse_L m) /\ fst (hcn_breysse (fun _ g => (0 :: nil, g)) (m :: nil) fd false g) = fd * breysse_L m :: nil.
Proof.
  intros M F. exists (fun u => if rltb u fd then 17 / 10 ^ 16 * rpow m (167 / 100) else 0). split; [reflexivity|]. split.
  - apply duty_mean; [exact F| |]; intros u U.
    + apply rltb_lt in U. rewrite U. now apply breysse_pos.
    + now rewrite (proj2 (rltb_ge u fd) ltac:(lra)).
  - rewrite breysse_plain; [reflexivity|]. constructor; [exact M|constructor].
Qed.
Lemma pullen_mean age m z sf (g : unit) : 0 < sf -> 0 < age z -> exists v,
  (forall u, pullen13 (fun _ g => (u :: nil, g)) age (m :: nil) (z :: nil) true sf g = Ok (v u :: nil, g)) /\
  uniform_mean v (Rmin 1 (sf / age z) * pullen_L m) /\
  pullen13 (fun _ g => (0 :: nil, g)) age (m :: nil) (z :: nil) false sf g = Ok (Rmin 1 (sf / age z) * pullen_L m :: nil, g).
Proof.
  intros S A. assert (P : 0 < sf / age z) by (apply Rmult_lt_0_compat; [exact S|now apply Rinv_0_lt_compat]).
  set (f := if rltb 1 (sf / age z) then 1 else sf / age z).
  assert (E : f = Rmin 1 (sf / age z)).
  { unfold f. destruct (rltb 1 (sf / age z)) eqn:Q; [apply rltb_lt in Q; now rewrite Rmin_left by lra|apply rltb_ge in Q; now rewrite Rmin_right by lra]. }
  assert (F : 0 <= f <= 1) by (rewrite E; pose proof (Rmin_l 1 (sf / age z)); split; [apply Rmin_glb; lra|lra]).
  exists (fun u => if rltb f u then 0 else pullen_L m). split; [reflexivity|]. split.
  - rewrite <- E. apply duty_mean; [exact F| |]; intros u U.
    + now rewrite (proj2 (rltb_ge f u) ltac:(lra)).
    + apply rltb_lt in U. now rewrite U.
  - rewrite <- E. unfold pullen13. cbn. fold f. unfold pullen_L. do 3 f_equal. lra.
Qed.
(** GHz *)
Lemma li_ghz {G} (normals : nat -> G -> list R * G) sfr d a b sig g :
  fst (li16 normals sfr d a b (nu_co10 / 10 ^ 9) false sig g) = map (omul (1 / 10 ^ 27)) (fst (li16 normals sfr d a b nu_co10 false sig g)).
Proof.
  unfold li16, scattered. cbn [fst]. rewrite map_map. apply map_ext. intros s.
  destruct (p10log _ _) as [v|]; [|reflexivity]. cbn [omul option_map]. f_equal.
  pose proof nu_co10_pos. field. lra.
Qed.
Lemma gao_ghz {G} (normals : nat -> G -> list R * G) sfr d a b sig g :
  fst (hcn_gao normals sfr d a b (nu_hcn10 / 10 ^ 9) false sig g) = map (omul (1 / 10 ^ 27)) (fst (hcn_gao normals sfr d a b nu_hcn10 false sig g)).
Proof.
  unfold hcn_gao, scattered. cbn [fst]. rewrite map_map. apply map_ext. intros s.
  destruct (p10log _ _) as [v|]; [|reflexivity]. cbn [omul option_map]. f_equal.
  pose proof nu_hcn10_pos. field. lra.
Qed.
