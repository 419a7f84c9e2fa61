(** Property C109: the animation of a light cone. *)
From Verif Require Import Dict Util RealUtil RawModel RespModel PlotModel PlotSpec Plot.
From Coq Require Import Reals Lra.
Open Scope string_scope. Open Scope list_scope.
Open Scope R_scope.

(** * C109 *)

(** the movie is shown, and saved if a name is given; its boxes lie end to end from the nearest distance, in Mpc/h, to
    at least the farthest, and are at most 50 long *)
Theorem C109_tiles dist trans z_at c save use_all color cs size ss in_h out :
  lc_animate dist trans z_at c save use_all color cs size ss in_h = (out, Ok tt) ->
  exists m w, out = match save with Some s => [LSaved (String.append s ".mp4") m; LShown m] | None => [LShown m] end /\
    0 < w <= 50 /\ tiles (dist (k_zmin c) * k_h c) w (lm_frames m) /\ (1 <= length (lm_frames m))%nat /\
    dist (k_zmax c) * k_h c <= dist (k_zmin c) * k_h c + w * INR (length (lm_frames m)).
Proof.
  intros E. unfold lc_animate in E. destruct (lc_movie dist trans z_at c use_all color cs size ss in_h) as [m|] eqn:M; [|discriminate].
  apply movie_inv in M. destruct M as (z & angle & sv & rel & _ & _ & _ & _ & L & F). cbv zeta in *.
  set (lo := dist (k_zmin c) * k_h c) in *. set (hi := dist (k_zmax c) * k_h c) in *.
  destruct (step_facts lo hi L) as [[S1 S2] S3]. pose proof (steps_pos lo hi L) as N.
  exists m, (IZR (lc_step lo hi)). split; [injection E as <-; destruct save; reflexivity|].
  apply IZR_le in S1, S2. split; [lra|]. rewrite F, map_length, seq_length. split; [|split].
  - intros i fr H. apply frame_at in H. destruct H as [_ ->]. unfold lc_frame. cbn [lf_box]. rewrite S_INR. reflexivity.
  - lia.
  - rewrite INR_IZR_INZ, Z2Nat.id by lia. exact S3.
Qed.
Print Assumptions C109_tiles.

(** in units of Mpc/h, and if the size property is not constant: a halo inside the light cone that is not on the edge of
    a box is visible in exactly one frame, the one whose box contains it *)
Theorem C109_once_partial dist trans z_at c use_all color cs size ss in_h m z sv k zk :
  lc_movie dist trans z_at c use_all color cs size ss in_h = Ok m ->
  match in_h with Some b => b | None => k_inh c end = true ->
  column c "pos_z" use_all true = Ok z -> nth_error z k = Some zk ->
  column c size use_all true = Ok sv -> length sv = length z -> (exists a b, In a sv /\ In b sv /\ a < b) ->
  dist (k_zmin c) * k_h c < zk < dist (k_zmax c) * k_h c ->
  (forall fr, In fr (lm_frames m) -> fst (lf_box fr) <> zk) ->
  exists i fr, nth_error (lm_frames m) i = Some fr /\ visible fr k /\ fst (lf_box fr) < zk < snd (lf_box fr) /\
    forall j fr', nth_error (lm_frames m) j = Some fr' -> visible fr' k -> j = i.
Proof.
  intros M U Cz Hz Cs Ls Ne R Ed. apply movie_inv in M. cbv zeta in M. rewrite U in M.
  destruct M as (z' & angle & sv' & rel & Cz' & _ & Cs' & Er & L & F).
  assert (z' = z) by congruence. assert (sv' = sv) by congruence. subst z' sv'.
  set (lo := dist (k_zmin c) * k_h c) in *. set (hi := dist (k_zmax c) * k_h c) in *.
  destruct (step_facts lo hi L) as [[S1 _] S3]. pose proof (steps_pos lo hi L) as N. apply IZR_le in S1.
  set (w := IZR (lc_step lo hi)) in *. set (n := Z.to_nat (lc_steps lo hi)) in *.
  assert (Sn : IZR (lc_steps lo hi) = INR n) by (unfold n; rewrite INR_IZR_INZ, Z2Nat.id by lia; reflexivity).
  rewrite Sn in S3.
  assert (exists v, nth_error sv k = Some v) as [v Hv].
  { destruct (nth_error sv k) eqn:Q; [eauto|]. apply nth_error_None in Q. assert (nth_error z k <> None) by congruence. apply nth_error_Some in H. lia. }
  destruct (sizes_range _ _ _ Er Ne _ _ Hv) as (s & Hs & Rs).
  set (sizes := map (option_map (fun r => (r + 1 / 5) * 5)) rel) in *.
  assert (Fr : forall j, (j < n)%nat -> nth_error (lm_frames m) j = Some (lc_frame trans z_at lo (trans (k_zmax c) * k_h c * angle) angle w z sizes j)).
  { intros j Hj. rewrite F. rewrite nth_error_map. rewrite (nth_error_nth' _ 0%nat) by (rewrite seq_length; exact Hj).
    rewrite seq_nth by exact Hj. reflexivity. }
  destruct (one_slab lo w n zk) as (i & Hi & Bi); [lra|lra| |].
  { intros j Hj Q. apply (Ed (lc_frame trans z_at lo (trans (k_zmax c) * k_h c * angle) angle w z sizes j)).
    - eapply nth_error_In, Fr, Hj.
    - cbn. symmetry. exact Q. }
  exists i. eexists. split; [apply Fr, Hi|]. split; [|split].
  - apply (visible_iff _ _ _ _ _ _ _ _ _ _ _ _ Hz Hs). split; [exact Bi|]. exists s. split; [reflexivity|lra].
  - cbn [lc_frame lf_box fst snd]. rewrite S_INR in Bi. exact Bi.
  - intros j fr' Hj V. rewrite F in Hj. apply frame_at in Hj. destruct Hj as [_ ->].
    apply (visible_iff _ _ _ _ _ _ _ _ _ _ _ _ Hz Hs) in V. destruct V as [V _]. eapply slab_unique; eauto. lra.
Qed.
Print Assumptions C109_once_partial.

(** a halo on the edge of a box is visible in no frame *)
Theorem C109_edge_refuted dist trans z_at c use_all color cs size ss in_h m z k zk fr :
  lc_movie dist trans z_at c use_all color cs size ss in_h = Ok m ->
  column c "pos_z" use_all (match in_h with Some b => b | None => k_inh c end) = Ok z -> nth_error z k = Some zk ->
  In fr (lm_frames m) -> fst (lf_box fr) = zk \/ snd (lf_box fr) = zk ->
  forall fr', In fr' (lm_frames m) -> ~ visible fr' k.
Proof.
  intros M Cz Hz Hf Ed fr' Hf' (s & Vs & P). apply movie_inv in M. cbv zeta in M.
  destruct M as (z' & angle & sv & rel & Cz' & _ & _ & _ & L & F). assert (z' = z) by congruence. subst z'.
  set (lo := dist (k_zmin c) * k_h c) in *. set (hi := dist (k_zmax c) * k_h c) in *.
  destruct (step_facts lo hi L) as [[S1 _] _]. apply IZR_le in S1.
  apply In_nth_error in Hf. destruct Hf as [i Hi]. rewrite F in Hi. apply frame_at in Hi. destruct Hi as [_ ->].
  apply In_nth_error in Hf'. destruct Hf' as [j Hj]. rewrite F in Hj. apply frame_at in Hj. destruct Hj as [_ ->].
  set (w := IZR (lc_step lo hi)) in *. cbn [lc_frame lf_box fst snd lf_sizes] in *.
  assert (exists i', zk = lo + w * INR i') as [i' Ei]. { destruct Ed as [<-|<-]; [eauto|]. exists (S i). rewrite S_INR. reflexivity. }
  rewrite nth_error_map, nth_error_combine, Hz in Vs.
  destruct (nth_error _ k) as [o|] in Vs; [|discriminate]. cbn [option_map fst snd] in Vs.
  destruct (rltb (lo + w * INR j) zk && rltb zk (lo + w * (INR j + 1))) eqn:B.
  - apply andb_true_iff in B. destruct B as [B1 B2]. apply rltb_lt in B1, B2. apply (edge_nowhere lo w j i'); [lra|].
    rewrite S_INR. rewrite <- Ei. split; assumption.
  - injection Vs as <-. lra.
Qed.
Print Assumptions C109_edge_refuted.

(** without units of h (the default): halos are placed at their distance in Mpc, the boxes at distances in Mpc/h, so that
    a halo at zk Mpc/h is visible in no frame as soon as zk/h is beyond the last box *)
Theorem C109_units_refuted dist trans z_at c use_all color cs size ss in_h m vs zh k zk :
  lc_movie dist trans z_at c use_all color cs size ss in_h = Ok m ->
  match in_h with Some b => b | None => k_inh c end = false ->
  dget (k_cols c) "pos_z" = Some ((-1)%Z, vs) ->
  column c "pos_z" use_all true = Ok zh -> nth_error zh k = Some zk ->
  (forall fr, In fr (lm_frames m) -> snd (lf_box fr) <= zk / k_h c) ->
  forall fr, In fr (lm_frames m) -> ~ visible fr k.
Proof.
  intros M U Dv Cz Hz Far fr Hf (s & Vs & P). specialize (Far fr Hf). apply movie_inv in M. cbv zeta in M. rewrite U in M.
  destruct M as (z & angle & sv & rel & Cz' & _ & _ & _ & L & F). rewrite (column_h _ _ _ _ _ Dv Cz) in Cz'. injection Cz' as <-.
  apply (map_nth_error (fun v => v / k_h c)) in Hz.
  apply In_nth_error in Hf. destruct Hf as [i Hi]. rewrite F in Hi. apply frame_at in Hi. destruct Hi as [_ ->].
  cbn [lc_frame lf_box fst snd lf_sizes] in *. rewrite nth_error_map, nth_error_combine, Hz in Vs.
  destruct (nth_error _ k) as [o|] in Vs; [|discriminate]. cbn [option_map fst snd] in Vs.
  rewrite (proj2 (rltb_ge (zk / k_h c) _)) in Vs by exact Far. rewrite andb_false_r in Vs. injection Vs as <-. lra.
Qed.
Print Assumptions C109_units_refuted.

(** the title of a frame is too low: it is the redshift at which the middle of the box would be if its distance were
    in Mpc, not Mpc/h *)
Theorem C109_title_refuted dist trans z_at c use_all color cs size ss in_h m fr zc :
  (forall d, 0 < d -> 0 < z_at d /\ dist (z_at d) = d) -> (forall a b, a < b -> dist a < dist b) -> 0 <= dist (k_zmin c) ->
  0 < k_h c < 1 ->
  lc_movie dist trans z_at c use_all color cs size ss in_h = Ok m -> In fr (lm_frames m) ->
  dist zc * k_h c = (fst (lf_box fr) + snd (lf_box fr)) / 2 -> lf_title fr < zc.
Proof.
  intros Zat Mono D0 Hh M Hf Mid. apply movie_inv in M. cbv zeta in M.
  destruct M as (z & angle & sv & rel & _ & _ & _ & _ & L & F).
  set (lo := dist (k_zmin c) * k_h c) in *. set (hi := dist (k_zmax c) * k_h c) in *.
  assert (L0 : 0 <= lo) by (unfold lo; apply Rmult_le_pos; lra).
  destruct (step_facts lo hi L) as [[S1 _] _]. apply IZR_le in S1.
  apply In_nth_error in Hf. destruct Hf as [i Hi]. rewrite F in Hi. apply frame_at in Hi. destruct Hi as [_ ->].
  set (w := IZR (lc_step lo hi)) in *. cbn [lc_frame lf_box lf_title fst snd] in *.
  set (d := lo + w * (INR i + / 2)). assert (Pd : 0 < d).
  { unfold d. pose proof (pos_INR i). assert (0 < w * (INR i + / 2)) by (apply Rmult_lt_0_compat; lra). lra. }
  destruct (Zat d Pd) as [_ Zd]. assert (Md : dist zc * k_h c = d) by (unfold d; lra).
  destruct (Rlt_le_dec (z_at d) zc) as [Q|Q]; [exact Q|exfalso].
  assert (dist zc <= dist (z_at d)). { destruct Q as [Q|Q]; [apply Rlt_le, Mono, Q|rewrite Q; lra]. }
  rewrite Zd in H. assert (dist zc <= 0 \/ 0 < dist zc) by lra. destruct H0 as [G|G].
  - assert (dist zc * k_h c <= 0). { apply (Rmult_le_compat_r (k_h c)) in G; lra. } lra.
  - assert (dist zc * k_h c < dist zc * 1) by (apply Rmult_lt_compat_l; lra). lra.
Qed.
Print Assumptions C109_title_refuted.

(** the outline on the physical cross-section is half the open angle times the distance of the middle of the box, both in
    Mpc/h, in a flat cosmology *)
Theorem C109_outline_partial dist trans z_at c use_all color cs size ss in_h m fr angle :
  (forall d, 0 < d -> 0 < z_at d /\ dist (z_at d) = d) -> (forall x, trans x = dist x) -> 0 <= dist (k_zmin c) -> 0 < k_h c ->
  k_angle c = Some angle ->
  lc_movie dist trans z_at c use_all color cs size ss in_h = Ok m -> In fr (lm_frames m) ->
  lf_outline fr = (fst (lf_box fr) + snd (lf_box fr)) / 2 * angle / 2.
Proof.
  intros Zat Fl D0 Hh A M Hf. apply movie_inv in M. cbv zeta in M.
  destruct M as (z & angle' & sv & rel & _ & A' & _ & _ & L & F). assert (angle' = angle) by congruence. subst angle'.
  set (lo := dist (k_zmin c) * k_h c) in *. set (hi := dist (k_zmax c) * k_h c) in *.
  assert (L0 : 0 <= lo) by (unfold lo; apply Rmult_le_pos; lra).
  destruct (step_facts lo hi L) as [[S1 _] _]. apply IZR_le in S1.
  apply In_nth_error in Hf. destruct Hf as [i Hi]. rewrite F in Hi. apply frame_at in Hi. destruct Hi as [_ ->].
  set (w := IZR (lc_step lo hi)) in *. cbn [lc_frame lf_box lf_outline fst snd] in *.
  assert (Pd : 0 < lo + w * (INR i + / 2)).
  { pose proof (pos_INR i). assert (0 < w * (INR i + / 2)) by (apply Rmult_lt_0_compat; lra). lra. }
  rewrite Fl, (proj2 (Zat _ Pd)). lra.
Qed.
Print Assumptions C109_outline_partial.

(** markers are between 1 and 6 in size and grow with the property, *)
Theorem C109_sizes_partial ss vs rel : relative ss vs = Ok rel -> (exists a b, In a vs /\ In b vs /\ a < b) ->
  let sizes := map (option_map (fun r => (r + 1 / 5) * 5)) rel in
  (forall k v, nth_error vs k = Some v -> exists s, nth_error sizes k = Some (Some s) /\ 1 <= s <= 6) /\
  (forall j k u v s t, nth_error vs j = Some u -> nth_error vs k = Some v -> nth_error sizes j = Some (Some s) ->
     nth_error sizes k = Some (Some t) -> u < v -> s < t).
Proof. intros E N. split; [exact (sizes_range _ _ _ E N)|exact (sizes_grow _ _ _ E)]. Qed.
Print Assumptions C109_sizes_partial.

(** but if all halos have the same value of it, or there is only one halo, no frame shows any halo *)
Theorem C109_equal_refuted dist trans z_at c use_all color cs size ss in_h m sv v :
  lc_movie dist trans z_at c use_all color cs size ss in_h = Ok m ->
  column c size use_all (match in_h with Some b => b | None => k_inh c end) = Ok sv -> (forall u, In u sv -> u = v) ->
  forall fr k, In fr (lm_frames m) -> ~ visible fr k.
Proof.
  intros M Cs Eq fr k Hf (s & Vs & P). apply movie_inv in M. cbv zeta in M.
  destruct M as (z & angle & sv' & rel & _ & _ & Cs' & Er & _ & F). assert (sv' = sv) by congruence. subst sv'.
  pose proof (sizes_equal _ _ _ _ Er Eq) as N.
  apply In_nth_error in Hf. destruct Hf as [i Hi]. rewrite F in Hi. apply frame_at in Hi. destruct Hi as [_ ->].
  cbn [lc_frame lf_sizes] in Vs. apply nth_error_In in Vs. apply in_map_iff in Vs. destruct Vs as ([a o] & E & Hin). cbn [fst snd] in E.
  apply in_combine_r in Hin. apply N in Hin. subst o.
  destruct (rltb _ a && rltb a _); [discriminate|]. injection E as <-. lra.
Qed.
Print Assumptions C109_equal_refuted.

(** a light cone from 1000 to 2000 Mpc/h, h = 1/2: four halos at 1020, 1050, 1500 and 1999 Mpc/h *)
Definition ex_cone (inh : bool) : cone :=
  mkCone (/ 2) 2000 4000 (Some 1) inh
    [("pos_x", ((-1)%Z, [0; 0; 0; 0])); ("pos_y", ((-1)%Z, [0; 0; 0; 0])); ("pos_z", ((-1)%Z, [1020; 1050; 1500; 1999]));
     ("ra", (0%Z, [0; 0; 0; 0])); ("dec", (0%Z, [0; 0; 0; 0])); ("redshift", (0%Z, [1; 1; 1; 1])); ("mass", ((-1)%Z, [1; 2; 3; 4]))] [0; 1; 2; 3]%nat.
Definition ex_movie inh := lc_movie (fun x => x) (fun x => x) (fun x => x) (ex_cone inh) false "mass" "linear" "mass" "linear" None.
Lemma ex_steps : lc_steps 1000 2000 = 20%Z /\ lc_step 1000 2000 = 50%Z.
Proof.
  assert (A : lc_steps 1000 2000 = 20%Z) by (unfold lc_steps; apply rceil_unique; cbn; lra).
  split; [exact A|]. unfold lc_step. rewrite A. apply rceil_unique. cbn; lra.
Qed.
Lemma ex_movie_ok inh : exists m, ex_movie inh = Ok m /\ length (lm_frames m) = 20%nat /\
  forall i fr, nth_error (lm_frames m) i = Some fr -> lf_box fr = (1000 + 50 * INR i, 1000 + 50 * (INR i + 1)).
Proof.
  assert (exists m, ex_movie inh = Ok m) as [m E].
  { unfold ex_movie, lc_movie. cbn [ex_cone k_inh k_angle k_zmax k_zmin k_h]. 
    unfold column, relative. cbn [ex_cone k_cols dget String.eqb Ascii.eqb Bool.eqb mapM k_active nth_error bind map].
    rewrite (proj2 (rleb_gt (4000 * / 2) (2000 * / 2))) by lra. eauto. }
  exists m. split; [exact E|]. apply movie_inv in E. destruct E as (z & angle & sv & rel & _ & _ & _ & _ & _ & F). cbn [ex_cone k_zmin k_zmax k_h] in F.
  replace (2000 * / 2) with 1000 in F by lra. replace (4000 * / 2) with 2000 in F by lra. destruct ex_steps as [S1 S2]. rewrite S1, S2 in F.
  split; [rewrite F, map_length, seq_length; reflexivity|]. intros i fr H. rewrite F in H. apply frame_at in H. destruct H as [_ ->]. reflexivity.
Qed.
(** in Mpc/h the first halo is shown once and the second never; in Mpc the third is beyond every box *)
Example C109_nonvacuous :
  (exists m, ex_movie true = Ok m /\
     column (ex_cone true) "pos_z" false true = Ok [1020 * 1; 1050 * 1; 1500 * 1; 1999 * 1] /\
     column (ex_cone true) "mass" false true = Ok [1 * 1; 2 * 1; 3 * 1; 4 * 1] /\
     (forall fr, In fr (lm_frames m) -> fst (lf_box fr) <> 1020) /\ (exists fr, In fr (lm_frames m) /\ snd (lf_box fr) = 1050)) /\
  (exists m, ex_movie false = Ok m /\
     column (ex_cone false) "pos_z" false true = Ok [1020 * 1; 1050 * 1; 1500 * 1; 1999 * 1] /\
     (forall fr, In fr (lm_frames m) -> snd (lf_box fr) <= 1500 * 1 / k_h (ex_cone false))).
Proof.
  split.
  - destruct (ex_movie_ok true) as (m & E & Ln & B). exists m. split; [exact E|]. split; [reflexivity|]. split; [reflexivity|]. split.
    + intros fr H. apply In_nth_error in H. destruct H as [i H]. rewrite (B _ _ H). cbn [fst]. rewrite INR_IZR_INZ. intros Q.
      assert (Q2 : IZR (5 * Z.of_nat i) = IZR 2) by (rewrite mult_IZR; lra). apply eq_IZR in Q2. lia.
    + destruct (nth_error (lm_frames m) 0) as [fr|] eqn:F; [|apply nth_error_None in F; lia]. exists fr. split; [eapply nth_error_In, F|].
      rewrite (B _ _ F). cbn. lra.
  - destruct (ex_movie_ok false) as (m & E & Ln & B). exists m. split; [exact E|]. split; [reflexivity|].
    intros fr H. apply In_nth_error in H. destruct H as [i H]. rewrite (B _ _ H). cbn [snd].
    assert (Li : (i < 20)%nat). { rewrite <- Ln. apply nth_error_Some. congruence. }
    assert (INR i <= 19). { replace 19 with (INR 19) by (cbn; lra). apply le_INR. lia. }
    cbn. lra.
Qed.
