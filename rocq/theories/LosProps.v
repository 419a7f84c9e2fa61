(** Theorems about the constructor of LCMaker and the search for a line of sight (C119). *)
From Coq Require Import Reals Lra Lia.
From Verif Require Import Dict Util RealUtil SnapModel LcModel LosModel LosSpec Los Lc6 Lch.
Open Scope string_scope.
Open Scope list_scope.
Open Scope R_scope.

(** * C119: every maker that is accepted can build light cones *)
(** LCMaker accepts its arguments exactly if the mode is known, the aspect at most one, the
    redshifts are in order and the angle spans at most the box at the far end. *)
Theorem C119_accepts mode openangle aspect zmin zmax mass ms td dist h box copies c :
  lc_init mode openangle aspect zmin zmax mass ms td dist h box copies = Ok c <->
  exists md zm, (mode = "box" /\ md = Box \/ mode = "circle" /\ md = Circle) /\ aspect <= 1 /\
    (zmax = Some zm \/ zmax = None /\ (exists m, In m ms /\ m_zmax m = zm) /\ forall m, In m ms -> m_zmax m <= zm) /\
    zmin <= zm /\ td zm * h * deg openangle <= box /\
    c = mkLC md (deg openangle) aspect mass box copies (dist zmin) (dist zm) (snapshots_use zmin zm ms).
Proof. exact (init_spec mode openangle aspect zmin zmax mass ms td dist h box copies c). Qed.
Print Assumptions C119_accepts.

(** A cone of a radius below 44/3 degrees with more than 10 Mpc/h of room along the diagonal:
    whatever was drawn before, drawing the diagonal ends the search. *)
Theorem C119_found_partial c t pre x : made c -> farthest c t -> 0 < radius c < deg (44 / 3) ->
  10 < room (radius c) (lc_box c) t (lc_copies c) -> 0 < x ->
  exists l, search c (pre ++ [mkV x x x]) = Ok (Some l).
Proof.
  intros _ F [R0 R1] H X. unfold deg in R1. pose proof PI_RGT_0.
  destruct (diagonal (radius c) (lc_box c) t (lc_copies c) x X R0 ltac:(lra) H) as (A & B & G).
  destruct (draw_found _ _ _ _ _ A B G pre false false) as [l E]. exists l. apply search_spec. exists t. split; [exact F|now symmetry].
Qed.
Print Assumptions C119_found_partial.
(** Without the room no line of sight is ever found: the build does not end. *)
Theorem C119_room_refuted c t draws l : made c -> farthest c t -> 0 <= t -> 0 <= lc_box c ->
  0 <= radius c < deg 90 -> room (radius c) (lc_box c) t (lc_copies c) <= 10 ->
  Forall positive draws -> search c draws <> Ok (Some l).
Proof.
  intros _ F T B R H D E. apply search_spec in E as (t' & F' & E).
  assert (t' = t) as ->.
  { destruct F as [(m & I & <-) M], F' as [(m' & I' & <-) M']. apply Rle_antisym; auto. }
  rewrite small in E; auto; [discriminate|]. unfold deg in R. lra.
Qed.
Print Assumptions C119_room_refuted.
(** Nor is it for a radius from 15 to 60 degrees, whatever the box. *)
Theorem C119_wide_refuted c draws l : made c -> deg 15 <= radius c < deg 60 ->
  Forall positive draws -> search c draws <> Ok (Some l).
Proof.
  intros _ R D E. apply search_spec in E as (t & _ & E). rewrite wide in E; auto; [discriminate|]. unfold deg in R. lra.
Qed.
Print Assumptions C119_wide_refuted.

(** Circles of a simulation with one snapshot, of diameter [open], in a box of edge [box]; the
    distance of the far end is 700 Mpc/h, that of the snapshot's end [t]. *)
Definition ex_los (open box t : R) : lcconf :=
  mkLC Circle (deg open) 1 0 box 1 0 700 (snapshots_use 0 1 [mkMeta 7 1 0 2 0 0 0 1 0 t]).
Lemma ex_made open box t : 700 * deg open <= box -> made (ex_los open box t).
Proof.
  intros H. exists "circle", open, 1, 0, (Some 1), 0, [mkMeta 7 1 0 2 0 0 0 1 0 t], (fun _ => 1000), (fun z => z * 700), (7 / 10), box, 1%nat.
  apply C119_accepts. exists Circle, 1. split; [auto|]. split; [lra|]. split; [auto|]. split; [lra|].
  split; [lra|]. unfold ex_los. f_equal; ring.
Qed.
Lemma ex_use open box t : lc_use (ex_los open box t) = [mkMeta 7 1 0 2 0 0 0 1 0 t].
Proof.
  unfold ex_los, snapshots_use; cbn. assert (A : rleb 0 2 = true) by (apply rleb_le; lra). assert (B : rleb 0 1 = true) by (apply rleb_le; lra).
  now rewrite A, B.
Qed.
Lemma ex_far open box t : farthest (ex_los open box t) t.
Proof.
  unfold farthest. rewrite ex_use. split; [eexists; split; [now left|reflexivity]|]. intros m [<-|[]]. cbn. lra.
Qed.
Lemma ex_radius open box t : radius (ex_los open box t) = deg open / 2.
Proof. reflexivity. Qed.
Example C119_nonvacuous :
  (made (ex_los 2 100 750) /\ farthest (ex_los 2 100 750) 750 /\ 0 < radius (ex_los 2 100 750) < deg (44 / 3) /\
   10 < room (radius (ex_los 2 100 750)) 100 750 1) /\
  (made (ex_los 2 35 1300) /\ farthest (ex_los 2 35 1300) 1300 /\ 0 <= radius (ex_los 2 35 1300) < deg 90 /\
   room (radius (ex_los 2 35 1300)) 35 1300 1 <= 10) /\
  (made (ex_los 40 1000 750) /\ deg 15 <= radius (ex_los 40 1000 750) < deg 60) /\
  Forall positive [mkV 1 (1 / 2) (1 / 3); mkV (1 / 4) (1 / 2) 1].
Proof.
  pose proof PI_lt_4. pose proof PI_gt_3.
  assert (S2 : 1.4 <= sqrt 2 <= 1.5) by (split; [rewrite <- (sqrt_square 1.4) by lra; apply sqrt_le_1_alt; lra|rewrite <- (sqrt_square 1.5) by lra; apply sqrt_le_1_alt; lra]).
  assert (S3 : 1.7 <= sqrt 3 <= 1.8) by (split; [rewrite <- (sqrt_square 1.7) by lra; apply sqrt_le_1_alt; lra|rewrite <- (sqrt_square 1.8) by lra; apply sqrt_le_1_alt; lra]).
  assert (D : 1 / 60 <= deg 2 / 2 <= 1 / 45) by (unfold deg; lra).
  assert (T1 : deg 2 / 2 <= tan (deg 2 / 2)) by (apply tan_ge; lra).
  assert (T2 : tan (deg 2 / 2) <= 1 / 40).
  { eapply Rle_trans; [apply tan_le_small; lra|]. apply Rmult_le_reg_r with (1 - (deg 2 / 2) ^ 2 / 2); [nra|].
    unfold Rdiv at 1. rewrite Rmult_assoc, Rinv_l by nra. nra. }
  rewrite !ex_radius. unfold room. change (INR 1) with 1.
  split; [|split; [|split]].
  - split; [apply ex_made; unfold deg; lra|]. split; [apply ex_far|]. split; [unfold deg; lra|]. nra.
  - split; [apply ex_made; unfold deg; lra|]. split; [apply ex_far|]. split; [unfold deg; lra|].
    assert (1 / 60 * 1.4 <= tan (deg 2 / 2) * sqrt 2) by (apply Rmult_le_compat; lra). lra.
  - split; [apply ex_made; unfold deg; lra|]. unfold deg; lra.
  - repeat constructor; cbn; lra.
Qed.
