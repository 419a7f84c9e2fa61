(** Lemmas for C83 and C84. *)
From Verif Require Import Dict Util RealUtil RelModel RelSpec Rel Rel2 SfrModel SfrSpec.
From Coq Require Import Reals Lra Lia.
Open Scope string_scope. Open Scope list_scope.
Open Scope R_scope.

(** * C83 *)
Lemma Rpower_pos x y : 0 < Rpower x y. Proof. apply exp_pos. Qed.
Lemma Rpower_1_base y : Rpower 1 y = 1. Proof. unfold Rpower. rewrite ln_1, Rmult_0_r, exp_0. reflexivity. Qed.
Lemma irlf_ok self a s l p z :
  exists P L, get_irlf_pars self (Some a) s l p z = Ok (P, L, a, s) /\ g13_lstar l z L /\ g13_phistar p z P.
Proof.
  unfold get_irlf_pars. cbn [bind lf_lstar0 lf_phistar0 lf_alpha0 lf_sigma0]. do 2 eexists. split; [reflexivity|].
  assert (E1 : 355 / 100 = 3.55) by lra. assert (E2 : 162 / 100 = 1.62) by lra. assert (E3 : - 57 / 100 = -0.57) by lra.
  assert (E4 : - 392 / 100 = -3.92) by lra. rewrite E1, E2, E3, E4.
  replace (1 + 2) with 3 by lra. replace (1 + 11 / 10) with 2.1 by lra.
  split; split; intros H.
  - destruct (rltb z 2) eqn:B; [reflexivity|apply rltb_ge in B]. assert (z = 2) as -> by lra.
    replace ((1 + 2) / 3) with 1 by lra. rewrite Rpower_1_base. replace (1 + 2) with 3 by lra. ring.
  - rewrite (proj2 (rltb_ge z 2)) by lra. reflexivity.
  - destruct (rltb z (11 / 10)) eqn:B; [reflexivity|apply rltb_ge in B]. assert (z = 1.1) as -> by lra.
    replace ((1 + 1.1) / 2.1) with 1 by lra. rewrite Rpower_1_base. replace (1 + 1.1) with 2.1 by lra. ring.
  - rewrite (proj2 (rltb_ge z (11 / 10))) by lra. reflexivity.
Qed.
Lemma Rpower_inc x y a : 0 < a -> 0 < x < y -> Rpower x a < Rpower y a.
Proof. intros A H. apply exp_increasing, Rmult_lt_compat_l; [exact A|apply ln_increasing; lra]. Qed.
Lemma Rpower_dec x y a : a < 0 -> 0 < x < y -> Rpower y a < Rpower x a.
Proof. intros A H. apply exp_increasing. pose proof (ln_increasing x y). nra. Qed.
Lemma lstar_inc l0 y z L M : 0 < l0 -> -1 < y < z -> g13_lstar l0 y L -> g13_lstar l0 z M -> 0 < L < M.
Proof.
  intros P H (A & B) (C & D).
  assert (LP : 0 < L).
  { destruct (Rle_dec y 2) as [X|X]; [rewrite A by lra|rewrite B by lra]; repeat apply Rmult_lt_0_compat; try apply Rpower_pos; lra. }
  split; [exact LP|].
  destruct (Rle_dec z 2) as [X|X].
  - rewrite A, C by lra. apply Rmult_lt_compat_l; [lra|]. apply Rpower_inc; lra.
  - destruct (Rle_dec 2 y) as [Y|Y].
    + rewrite B, D by lra. apply Rmult_lt_compat_l; [apply Rmult_lt_0_compat; [lra|apply Rpower_pos]|]. apply Rpower_inc; lra.
    + rewrite A, D by lra. rewrite Rmult_assoc. apply Rmult_lt_compat_l; [lra|].
      apply Rlt_trans with (Rpower 3 3.55); [apply Rpower_inc; lra|].
      rewrite <- (Rmult_1_r (Rpower 3 3.55)) at 1. apply Rmult_lt_compat_l; [apply Rpower_pos|].
      assert (U : 1 < (1 + z) / 3) by lra. pose proof (Rpower_inc 1 ((1 + z) / 3) 1.62 ltac:(lra) ltac:(lra)) as W. rewrite Rpower_1_base in W. exact W.
Qed.
Lemma phistar_dec p0 y z L M : 0 < p0 -> -1 < y < z -> g13_phistar p0 y L -> g13_phistar p0 z M -> 0 < M < L.
Proof.
  intros P H (A & B) (C & D).
  assert (MP : 0 < M).
  { destruct (Rle_dec z 1.1) as [X|X]; [rewrite C by lra|rewrite D by lra]; repeat apply Rmult_lt_0_compat; try apply Rpower_pos; lra. }
  split; [exact MP|].
  destruct (Rle_dec z 1.1) as [X|X].
  - rewrite A, C by lra. apply Rmult_lt_compat_l; [lra|]. apply Rpower_dec; lra.
  - destruct (Rle_dec 1.1 y) as [Y|Y].
    + rewrite B, D by lra. apply Rmult_lt_compat_l; [apply Rmult_lt_0_compat; [lra|apply Rpower_pos]|]. apply Rpower_dec; lra.
    + rewrite A, D by lra. rewrite Rmult_assoc. apply Rmult_lt_compat_l; [lra|].
      apply Rlt_trans with (Rpower 2.1 (-0.57)); [|apply Rpower_dec; lra].
      rewrite <- (Rmult_1_r (Rpower 2.1 (-0.57))) at 2. apply Rmult_lt_compat_l; [apply Rpower_pos|].
      assert (U : 1 < (1 + z) / 2.1) by lra. pose proof (Rpower_dec 1 ((1 + z) / 2.1) (-3.92) ltac:(lra) ltac:(lra)) as W. rewrite Rpower_1_base in W. exact W.
Qed.

(** * C84 *)
Lemma sfms_ok b m z : 0 < m -> b17_sfms b (Some m) z = Some (main_sequence b m z).
Proof.
  intros M. unfold b17_sfms. rewrite (proj2 (rltb_ge m 0)) by lra. rewrite (proj2 (reqb_ne m 0)) by lra.
  unfold main_sequence, p10. do 2 f_equal. unfold ms_log. change log10 with log.
  set (t := log (m / 10 ^ 9) - m1 b - a2 b * log (1 + z)).
  replace (if rltb t 0 then 0 else t) with (Rmax 0 t).
  2:{ unfold Rmax. destruct (rltb t 0) eqn:B; [apply rltb_lt in B|apply rltb_ge in B]; destruct (Rle_dec 0 t); lra. }
  destruct (correct b); cbn [andb]; [|lra].
  set (k := 0.1 * (0.5 - z) / (0.5 - 0.22)).
  destruct (rltb z (5 / 10)) eqn:B; [apply rltb_lt in B|apply rltb_ge in B].
  - rewrite (Rmax_right 0 k); [unfold k; lra|]. unfold k, Rdiv. apply Rmult_le_pos; [lra|]. left. apply Rinv_0_lt_compat. lra.
  - rewrite (Rmax_left 0 k); [lra|]. unfold k, Rdiv. assert (0 < / (0.5 - 0.22)) by (apply Rinv_0_lt_compat; lra). nra.
Qed.
Lemma sfms_rest b z : b17_sfms b None z = None /\ (forall m, m < 0 -> b17_sfms b (Some m) z = None) /\ b17_sfms b (Some 0) z = Some 0.
Proof.
  split; [reflexivity|]. split.
  - intros m H. unfold b17_sfms. rewrite (proj2 (rltb_lt m 0)) by lra. reflexivity.
  - unfold b17_sfms. rdec. reflexivity.
Qed.
Lemma ms_default m z : main_sequence b17_default m z = ms_published m z.
Proof.
  unfold main_sequence, ms_published, ms_log, b17_default. cbn [m0 m1 a0 a1 a2 correct]. reflexivity.
Qed.
Lemma sffrac_ok erf b m z : 0 < m -> b17_sffrac erf b (Some m) z = Some (sf_fraction erf b m z).
Proof.
  intros M. unfold b17_sffrac. rewrite (proj2 (rltb_ge m 0)) by lra. rewrite (proj2 (reqb_ne m 0)) by lra.
  unfold sf_fraction, sigsf. change log10 with log. f_equal. lra.
Qed.
Lemma sffrac_default erf m z : 0 < m -> b17_sffrac erf b17_default (Some m) z = Some (sf_published erf m z).
Proof.
  intros M. unfold b17_sffrac. rewrite (proj2 (rltb_ge m 0)) by lra. rewrite (proj2 (reqb_ne m 0)) by lra.
  unfold b17_default, sf_published, sigsf. cbn [fq00 gamma_ logmt0 alpha1 alpha2 sigsf0 beta1 beta2]. change log10 with log. f_equal.
  replace (- 1039 / 1000) with (-1.039) by lra.
  replace ((log m - (1053 / 100 + 2232 / 10 ^ 4 * z + 913 / 10 ^ 4 * z ^ 2)) / (8488 / 10 ^ 4 + 418 / 10 ^ 4 * z + - 159 / 10 ^ 4 * z ^ 2))
    with ((log m - (10.53 + 0.2232 * z + 0.0913 * z ^ 2)) / (0.8488 + 0.0418 * z - 0.0159 * z ^ 2)).
  2:{ f_equal; lra. }
  lra.
Qed.
Lemma fq_range z : 0 <= z -> 0 < 1 - 0.1017 * Rpower (1 + z) (-1.039) < 1.
Proof.
  intros Z. assert (X : Rpower (1 + z) (-1.039) <= 1).
  { destruct Z as [Z|<-]; [|rewrite Rplus_0_r, Rpower_1_base; lra].
    pose proof (Rpower_dec 1 (1 + z) (-1.039) ltac:(lra) ltac:(lra)) as W. rewrite Rpower_1_base in W. lra. }
  pose proof (Rpower_pos (1 + z) (-1.039)). lra.
Qed.
Lemma sf_range erf m z : erf_like erf -> 0 <= z -> 0 < sf_published erf m z < 1.
Proof.
  intros (E & _) Z. unfold sf_published. pose proof (fq_range z Z) as F.
  set (x := (log m - _) / _). pose proof (E x). set (f := 1 - _) in *. split; nra.
Qed.
Lemma sf_mono erf m m' z : erf_like erf -> 0 <= z -> 0 < m < m' ->
  (0 < 0.8488 + 0.0418 * z - 0.0159 * z ^ 2 -> sf_published erf m' z < sf_published erf m z)
  /\ (0.8488 + 0.0418 * z - 0.0159 * z ^ 2 < 0 -> sf_published erf m z < sf_published erf m' z).
Proof.
  intros (_ & E) Z M. unfold sf_published. pose proof (fq_range z Z) as F.
  set (f := 1 - 0.1017 * _) in *. set (t := 10.53 + _ + _). set (s := 0.8488 + _ - _) in *.
  assert (L : log m < log m').
  { unfold log, Rdiv. apply Rmult_lt_compat_r; [apply Rinv_0_lt_compat, ln10|apply ln_increasing; lra]. }
  split; intros S.
  - assert (X : (log m - t) / s < (log m' - t) / s).
    { unfold Rdiv. apply Rmult_lt_compat_r; [apply Rinv_0_lt_compat|]; lra. }
    apply E in X. nra.
  - assert (X : (log m' - t) / s < (log m - t) / s).
    { unfold Rdiv. pose proof (Rinv_lt_0_compat s S). nra. }
    apply E in X. nra.
Qed.
Lemma sf_default erf m z : 0 < m -> sf_fraction erf b17_default m z = sf_published erf m z.
Proof. intros M. pose proof (sffrac_ok erf b17_default m z M) as A. rewrite sffrac_default in A by exact M. congruence. Qed.
Lemma sbfrac_ok z : b17_sbfrac z = sb_published z.
Proof.
  unfold b17_sbfrac, sb_published, Rmin. destruct (rltb 1 z) eqn:B; [apply rltb_lt in B|apply rltb_ge in B]; destruct (Rle_dec 1 z); try lra.
Qed.

Lemma sb_range z : 0 <= z -> 0.015 <= sb_published z <= 0.03.
Proof. intros Z. unfold sb_published, Rmin. destruct (Rle_dec 1 z); lra. Qed.
Lemma sb_mono y z : y <= z -> sb_published y <= sb_published z.
Proof. intros Z. unfold sb_published, Rmin. destruct (Rle_dec 1 z), (Rle_dec 1 y); lra. Qed.
Lemma assign_ok erf b m z e u1 u2 : 0 < m -> 0 < msoffset b -> 0 <= sboffset b -> 0 <= sflimit b -> 0 < e ->
  let rate o := Some (Rmin (sflimit b) (o * main_sequence b m z * e)) in
  let r := b17_assign erf b (Some m) z (option_map (fun v => msoffset b * v * e) (b17_sfms b (Some m) z)) u1 u2 in
  (sf_fraction erf b m z < u2 -> r = (Some 0, false, true))
  /\ (u2 <= sf_fraction erf b m z -> u1 < sb_published z -> r = (rate (sboffset b), true, false))
  /\ (u2 <= sf_fraction erf b m z -> sb_published z <= u1 -> r = (rate (msoffset b), false, false)).
Proof.
  intros M O1 O2 L E rate r. unfold r, rate, b17_assign. rewrite sfms_ok, sffrac_ok, sbfrac_ok by exact M. cbn [option_map].
  assert (CAP : forall v, (if rltb (sflimit b) v then Some (sflimit b) else Some v) = Some (Rmin (sflimit b) v)).
  { intros v. unfold Rmin. destruct (rltb (sflimit b) v) eqn:B; [apply rltb_lt in B|apply rltb_ge in B]; destruct (Rle_dec (sflimit b) v); f_equal; lra. }
  split; [|split].
  - intros Q. rewrite (proj2 (rltb_lt _ u2)) by exact Q. rewrite (proj2 (rltb_ge (sflimit b) 0)) by lra. reflexivity.
  - intros Q S. rewrite (proj2 (rltb_ge _ u2)) by exact Q. rewrite (proj2 (rltb_lt u1 _)) by exact S. rewrite CAP. do 4 f_equal. field. lra.
  - intros Q S. rewrite (proj2 (rltb_ge _ u2)) by exact Q. rewrite (proj2 (rltb_ge u1 _)) by exact S. rewrite CAP. reflexivity.
Qed.
Lemma assign_nan erf b m z s u1 u2 : (forall x, m = Some x -> x < 0) ->
  b17_assign erf b m z (option_map s (b17_sfms b m z)) u1 u2 = (None, rltb u1 (sb_published z), false).
Proof.
  intros H. unfold b17_assign. rewrite sbfrac_ok.
  assert (A : b17_sfms b m z = None).
  { destruct m as [x|]; [|reflexivity]. apply sfms_rest. apply H. reflexivity. }
  assert (B : b17_sffrac erf b m z = None).
  { destruct m as [x|]; [|reflexivity]. unfold b17_sffrac. rewrite (proj2 (rltb_lt x 0)) by (apply H; reflexivity). reflexivity. }
  rewrite A, B. cbn [option_map]. destruct (rltb u1 _); reflexivity.
Qed.

Section Rand.
Context {G : Type} (normals uniforms : nat -> G -> list R * G) (DN : draws normals) (DU : draws uniforms) (erf : R -> R).
(** what happens to galaxy [i] *)
Lemma sfr_ok b mz g : exists out n1 n2 g',
  b17_sfr normals uniforms erf b mz g = (out, g') /\ length out = length mz
  /\ n1 = snd (normals (length mz) g) /\ n2 = snd (uniforms (length mz) n1) /\ g' = snd (uniforms (length mz) n2)
  /\ forall i m z n u1 u2, nth_error mz i = Some (m, z) -> nth_error (fst (normals (length mz) g)) i = Some n ->
       nth_error (fst (uniforms (length mz) n1)) i = Some u1 -> nth_error (fst (uniforms (length mz) n2)) i = Some u2 ->
       nth_error out i = Some (b17_assign erf b m z (option_map (fun v => msoffset b * v * exp (ln 10 * scat b * n)) (b17_sfms b m z)) u1 u2).
Proof.
  unfold b17_sfr.
  set (base := map (fun p : option R * R => option_map (fun v => msoffset b * v) (b17_sfms b (fst p) (snd p))) mz).
  destruct (log10normal normals base (scat b) false g) as [s g1] eqn:E.
  pose proof (log10normal_ok normals DN base (scat b) false g) as OK. rewrite E in OK. cbn [fst snd] in OK. destruct OK as ((LS & VS) & GS).
  assert (LB : length base = length mz) by (unfold base; apply map_length). rewrite LB in *. rewrite LS.
  pose proof (DU (length mz) g1) as D1. destruct (uniforms (length mz) g1) as [u1 g2] eqn:E1.
  pose proof (DU (length mz) g2) as D2. destruct (uniforms (length mz) g2) as [u2 g3] eqn:E2. cbn [fst] in D1, D2.
  eexists _, g1, g2, g3. split; [reflexivity|]. split; [rewrite map_length, !combine_length; lia|].
  split; [exact GS|]. split; [rewrite E1; reflexivity|]. split; [rewrite E2; reflexivity|].
  rewrite E1, E2. cbn [fst].
  intros i m z n x1 x2 MZ N U1 U2. rewrite nth_error_map, !nth_error_combine, MZ, U1, U2.
  assert (BI : nth_error base i = Some (option_map (fun v => msoffset b * v) (b17_sfms b m z))).
  { unfold base. rewrite nth_error_map, MZ. reflexivity. }
  destruct (VS i n N) as (V1 & V2). destruct (b17_sfms b m z) as [v|]; cbn [option_map] in BI |- *.
  - rewrite (V1 _ BI). reflexivity.
  - rewrite (V2 BI). reflexivity.
Qed.
End Rand.
