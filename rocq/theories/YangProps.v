(** C82: the line luminosities of Yang et al. 2022. *)
From Verif Require Import Dict Util RealUtil RelModel RelSpec Rel Rel2 YangModel YangSpec Yang Yang2.
From Coq Require Import Reals Lra Lia.
Open Scope string_scope. Open Scope list_scope.
Open Scope R_scope.

(** Every halo gets the double power law of its line, mass and redshift, scattered around it
    in the median if asked, and set to zero by the duty cycle if its uniform draw exceeds the
    fraction that is on. *)
Theorem C82_value_partial {G} (normals uniforms : nat -> G -> list R * G) line t mass z duty scatter fix_ g gg :
  draws normals -> draws uniforms ->
  yang_table line = Some t -> z_fits line z (length mass) ->
  (forall i x, nth_error mass i = Some x -> 0 < x) -> (forall i x, z_at z i = Some x -> 0 < x) ->
  exists out, yang22 normals uniforms mass z line duty scatter fix_ g gg
      = Ok (out, (if scatter then snd (normals (length mass) g) else g), (if duty then snd (uniforms (length mass) gg) else gg))
    /\ length out = length mass
    /\ forall i m x n u, nth_error mass i = Some m -> z_at z i = Some x ->
         nth_error (fst (normals (length mass) g)) i = Some n -> nth_error (fst (uniforms (length mass) gg)) i = Some u ->
         exists L f y, yang_law t m x L /\ 0 < L /\ yang_on m x f /\ 0 < f <= 1 /\ nth_error out i = Some y
           /\ let base := if scatter then scatter_of Median (match fix_ with Some s => s | None => width t x end) L n else L in
              (duty = false \/ u <= f -> y = base) /\ (duty = true /\ f < u -> y = 0).
Proof. intros DN DU. exact (yang_ok normals uniforms DN DU line t mass z duty scatter fix_ g gg). Qed.
Print Assumptions C82_value_partial.

(** On average over the draw of the duty cycle a halo has the fraction times the law. *)
Theorem C82_mean m z line t : yang_table line = Some t -> 0 < m -> 0 < z ->
  exists v L f,
    (forall u, exists g, yang22 (fun _ (g : unit) => (0 :: nil, g)) (fun _ (g : unit) => (u :: nil, g))
                           (m :: nil) (ZArray (z :: nil)) line true false None tt tt = Ok (v u :: nil, fst g, snd g))
    /\ yang_law t m z L /\ yang_on m z f /\ uniform_mean v (f * L).
Proof. exact (yang_mean m z line t). Qed.
Print Assumptions C82_mean.

(** A name that is not documented is rejected. *)
Theorem C82_names {G} (normals uniforms : nat -> G -> list R * G) mass z line d s fs g gg :
  ~ In line ["CII"; "CI1-0"; "CI2-1"; "CO1-0"; "CO2-1"; "CO3-2"; "CO4-3"; "CO5-4"] ->
  yang22 normals uniforms mass z line d s fs g gg = Raise ValueError.
Proof.
  intros N. cbn in N. apply yang_names; try (intros ->; tauto).
  unfold yang_table, yang_co.
  repeat match goal with |- (if String.eqb line ?b then _ else _) = _ => destruct (String.eqb_spec line b) as [->|_]; [tauto|] end. reflexivity.
Qed.
Print Assumptions C82_names.

(** The two documented CI lines always raise IndexError. *)
Theorem C82_ci_refuted {G} (normals uniforms : nat -> G -> list R * G) mass z line d s fs g gg :
  line = "CI1-0" \/ line = "CI2-1" -> yang22 normals uniforms mass z line d s fs g gg = Raise IndexError.
Proof. exact (yang_ci normals uniforms mass z line d s fs g gg). Qed.
Print Assumptions C82_ci_refuted.

(** One redshift for all halos, documented for every line, is a TypeError for every CO
    line. *)
Theorem C82_scalar_refuted {G} (normals uniforms : nat -> G -> list R * G) mass z line t d s fs g gg :
  yang_co line = Some t -> yang22 normals uniforms mass (ZScalar z) line d s fs g gg = Raise TypeError.
Proof. exact (yang_co_scalar normals uniforms mass z line t d s fs g gg). Qed.
Print Assumptions C82_scalar_refuted.

(** The caller's generator does not fix the result: with the same generator, whether a halo is
    on follows the global one. *)
Theorem C82_seed_refuted {G} (normals uniforms : nat -> G -> list R * G) line t mass z scatter fix_ g gg1 gg2 i m x f u1 u2 :
  draws normals -> draws uniforms ->
  yang_table line = Some t -> z_fits line z (length mass) ->
  (forall i x, nth_error mass i = Some x -> 0 < x) -> (forall i x, z_at z i = Some x -> 0 < x) ->
  nth_error mass i = Some m -> z_at z i = Some x -> yang_on m x f ->
  nth_error (fst (uniforms (length mass) gg1)) i = Some u1 -> nth_error (fst (uniforms (length mass) gg2)) i = Some u2 ->
  u1 <= f < u2 ->
  exists out1 out2 y s1 s2,
    yang22 normals uniforms mass z line true scatter fix_ g gg1 = Ok (out1, fst s1, snd s1)
    /\ yang22 normals uniforms mass z line true scatter fix_ g gg2 = Ok (out2, fst s2, snd s2)
    /\ nth_error out1 i = Some y /\ 0 < y /\ nth_error out2 i = Some 0.
Proof.
  intros DN DU T Z M X Mi Xi ON U1 U2 F.
  destruct (yang_ok normals uniforms DN DU line t mass z true scatter fix_ g gg1 T Z M X) as (o1 & R1 & _ & H1).
  destruct (yang_ok normals uniforms DN DU line t mass z true scatter fix_ g gg2 T Z M X) as (o2 & R2 & _ & H2).
  destruct (nth_some (fst (normals (length mass) g)) i) as (n & Ni).
  { rewrite DN. apply nth_error_Some. congruence. }
  destruct (H1 i m x n u1 Mi Xi Ni U1) as (L & f1 & y & _ & LP & F1 & _ & Y & B & _).
  destruct (H2 i m x n u2 Mi Xi Ni U2) as (L' & f2 & y' & _ & _ & F2 & _ & Y' & _ & B').
  rewrite (on_unique _ _ _ _ F1 ON) in B. rewrite (on_unique _ _ _ _ F2 ON) in B'.
  exists o1, o2, y, (if scatter then snd (normals (length mass) g) else g, snd (uniforms (length mass) gg1)),
    (if scatter then snd (normals (length mass) g) else g, snd (uniforms (length mass) gg2)).
  split; [exact R1|]. split; [exact R2|]. split; [exact Y|]. split.
  - rewrite B by (right; lra). destruct scatter; [apply scatter_pos|]; exact LP.
  - rewrite Y', B' by (split; [reflexivity|lra]). reflexivity.
Qed.
Print Assumptions C82_seed_refuted.

(** The [CII] luminosity is not continuous at redshift zero: it is positive there, and
    arbitrarily faint at arbitrarily small redshifts. *)
Theorem C82_zero_refuted {G} (normals uniforms : nat -> G -> list R * G) m fs g gg : 0 < m ->
  exists L0, 0 < L0 /\ yang22 normals uniforms (m :: nil) (ZScalar 0) "CII" false false fs g gg = Ok (L0 :: nil, g, gg)
  /\ forall e, 0 < e -> exists z L, 0 < z < e /\ L < e
       /\ yang22 normals uniforms (m :: nil) (ZScalar z) "CII" false false fs g gg = Ok (L :: nil, g, gg).
Proof.
  intros M. exists (yang_L (cii_fit 0) m). split; [exact (yang_zero m M)|]. split; [reflexivity|].
  intros e E. destruct (cii_faint m e M E) as (z & Z & _ & H). exists z, (yang_L (cii_fit z) m).
  split; [exact Z|]. split; [exact H|reflexivity].
Qed.
Print Assumptions C82_zero_refuted.

Example C82_nonvacuous :
  let u := fun (n : nat) (g : bool) => (repeat (if g then 0 else 1) n, g) in
  draws u /\ (exists t, yang_table "CO3-2" = Some t) /\ yang_table "CI1-0" = None
  /\ z_fits "CO3-2" (ZArray (1 :: 2 :: nil)) (length (1 :: 3 :: nil)) /\ z_fits "CII" (ZScalar 1) 7
  /\ (exists f, yang_on 1 1 f /\ 0 <= f < 1).
Proof.
  intros u. split; [intros n g; apply repeat_length|]. split; [eexists; reflexivity|]. split; [reflexivity|].
  split; [reflexivity|]. split; [reflexivity|].
  exists (yang_fduty 1 1). destruct (fduty_ok 1 1) as (A & B). split; [exact A|]. split; [lra|].
  rewrite (proj1 A) by lra. unfold Rpower at 1.
  pose proof (exp_pos ((1.37 - 0.190 * 1 + 0.0215 * 1 ^ 2) * ln (1 / Rpower 10 (11.73 + 0.6634 * 1)))) as P.
  apply Rmult_lt_reg_r with (1 + exp ((1.37 - 0.190 * 1 + 0.0215 * 1 ^ 2) * ln (1 / Rpower 10 (11.73 + 0.6634 * 1)))); [lra|].
  unfold Rdiv at 1. rewrite Rmult_assoc, Rinv_l by lra. lra.
Qed.
