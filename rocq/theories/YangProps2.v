(** Further theorems about the line luminosities of Yang et al. 2022 (C82): halos at redshift zero. *)
From Verif Require Import Dict Util RealUtil RelModel RelSpec Rel Rel2 YangModel YangSpec Yang Yang2.
From Coq Require Import Reals Lra Lia.
Open Scope string_scope. Open Scope list_scope.
Open Scope R_scope.

(** The CO lines follow the law at every redshift, zero included. *)
Theorem C82_co {G} (normals uniforms : nat -> G -> list R * G) line t mass zs fs g gg : yang_co line = Some t -> length zs = length mass ->
  exists out, yang22 normals uniforms mass (ZArray zs) line false false fs g gg = Ok (out, g, gg) /\ length out = length mass
  /\ forall i m z, nth_error mass i = Some m -> nth_error zs i = Some z -> exists L, nth_error out i = Some L /\ yang_law t m z L.
Proof.
  intros T E.
  assert (F : exists k, index_of yang_co_names line = Some k /\ yang_fit line (ZArray zs) = Ok (co_fit k)).
  { pose proof T as T'. unfold yang_co in T'.
    repeat match type of T' with (if String.eqb line ?b then _ else _) = _ => destruct (String.eqb_spec line b) as [->|_]; [eexists; split; reflexivity|] end. discriminate. }
  destruct F as (k & K & F). unfold yang22. rewrite F. cbn [bind zlist]. rewrite E, Nat.eqb_refl.
  eexists. split; [reflexivity|]. split; [rewrite map_length, combine_length, E; apply Nat.min_id|].
  intros i m z Hm Hz. exists (yang_L (co_fit k z) m). split; [|exact (proj1 (co_law line k t z m K T))].
  assert (C : nth_error (combine mass zs) i = Some (m, z)).
  { clear - Hm Hz. revert zs i Hm Hz. induction mass as [|a l IH]; intros [|b l'] [|i]; cbn; try discriminate; [congruence|]. apply IH. }
  rewrite nth_error_map, C. reflexivity.
Qed.
Print Assumptions C82_co.

(** The [CII] line at redshift zero: the characteristic mass is that of the fit at redshift one, and the rest of the law is that
    of redshift zero. *)
Theorem C82_now {G} (normals uniforms : nat -> G -> list R * G) mass fs g gg :
  yang22 normals uniforms mass (ZScalar 0) "CII" false false fs g gg
    = Ok (map (double_power 12.11 (-3.947) 1.35 2.6275) mass, g, gg).
Proof.
  unfold yang22. cbn [yang_fit String.eqb Ascii.eqb Bool.eqb bind zlist]. rewrite repeat_length, Nat.eqb_refl. do 3 f_equal.
  assert (V : forall m, yang_L (cii_fit 0) m = double_power 12.11 (-3.947) 1.35 2.6275 m).
  { intros m. unfold yang_L, cii_fit, by_range, f_m1, f_n, f_a, f_b. rewrite (proj2 (rleb_le 0 0) (Rle_refl 0)), (proj2 (rltb_lt 0 4)) by lra.
    replace (- 0 / (867 / 1000)) with 0 by lra. replace (- 0 / (155 / 100)) with 0 by lra. rewrite exp_0. unfold p10.
    transitivity (double_power (1211 / 100) (- 907 / 1000 * 1 - 304 / 100) (135 / 100 + 450 / 1000 * 0 - 805 / 10 ^ 4 * 0 ^ 2) (257 / 100 * 1 + 575 / 10 ^ 4) m); [reflexivity|].
    apply dp_cong; lra. }
  induction mass as [|m l IH]; cbn; [reflexivity|]. f_equal; [apply V|exact IH].
Qed.
Print Assumptions C82_now.
Example C82_now_nonvacuous : (exists t, yang_co "CO3-2" = Some t) /\ length [0; 2] = length [10 ^ 12; 10 ^ 13].
Proof. split; [eexists; reflexivity|reflexivity]. Qed.
