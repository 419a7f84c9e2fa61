(** Proofs about light cones (C40 to C46, C48, C59, C60). *)
From Coq Require Import Reals Permutation Sorted.
From Verif Require Import Dict Util RealUtil SnapModel SnapSpec Snap FormatModel FormatSpec Format LcModel LcSpec.
From Coq Require Import Lra Lia.
Open Scope string_scope.
Open Scope list_scope.
Open Scope R_scope.

(** * Vectors *)
Lemma vec_eq a b : vx a = vx b -> vy a = vy b -> vz a = vz b -> a = b.
Proof. destruct a, b; cbn; intros; subst; reflexivity. Qed.
Ltac vring := intros; apply vec_eq; cbn [cross vx vy vz vadd vsub vscale vmul]; ring.
Lemma norm_sq a : norm a * norm a = dot a a.
Proof. unfold norm. apply sqrt_sqrt. unfold dot. pose proof (Rle_0_sqr (vx a)). pose proof (Rle_0_sqr (vy a)). pose proof (Rle_0_sqr (vz a)). unfold Rsqr in *. lra. Qed.
Lemma norm_ge a : 0 <= norm a.
Proof. apply sqrt_pos. Qed.

(** a unit vector not along z *)
Definition upright (l : vec) : Prop := dot l l = 1 /\ (vx l <> 0 \/ vy l <> 0).
Lemma minv_transpose a b c : dot a (cross b c) = 1 ->
  minv (transpose (mkM a b c)) = mkM (cross b c) (cross c a) (cross a b).
Proof.
  intros H.
  assert (HD : det (transpose (mkM a b c)) = 1).
  { rewrite <- H. unfold det, transpose, dot, cross. cbn [row1 row2 row3 vx vy vz]. ring. }
  unfold minv. rewrite HD. rewrite Rinv_1. destruct a as [a1 a2 a3], b as [b1 b2 b3], c as [c1 c2 c3].
  unfold transpose. cbn [row1 row2 row3 vx vy vz]. f_equal; apply vec_eq; cbn [vscale cross vx vy vz]; ring.
Qed.
Lemma cross_norm a b c : norm (cross (mkV a b c) (mkV 0 0 1)) = sqrt (a ^ 2 + b ^ 2).
Proof. unfold norm. f_equal. unfold dot. cbn [cross vx vy vz]. ring. Qed.
Lemma los_matrix_rows l : upright l ->
  let k := / sqrt (vx l ^ 2 + vy l ^ 2) in
  k * k * (vx l ^ 2 + vy l ^ 2) = 1 /\
  los_matrix l = mkM l (mkV (k * vy l) (- (k * vx l)) 0)
    (mkV (k * vx l * vz l) (k * vy l * vz l) (- (k * (vx l ^ 2 + vy l ^ 2)))).
Proof.
  intros [H1 H2] k. destruct l as [a b c]. cbn [vx vy vz] in *. unfold dot in H1. cbn [vx vy vz] in H1.
  assert (Hs : 0 < a ^ 2 + b ^ 2).
  { assert (0 <= a ^ 2) by apply pow2_ge_0. assert (0 <= b ^ 2) by apply pow2_ge_0.
    destruct H2 as [H2|H2]; apply pow_nonzero with (n := 2%nat) in H2; lra. }
  assert (Hk : k * k * (a ^ 2 + b ^ 2) = 1).
  { unfold k. rewrite <- Rinv_mult. rewrite sqrt_sqrt by lra. field. lra. }
  split; [exact Hk|].
  unfold los_matrix. rewrite cross_norm. fold k. clearbody k.
  assert (E2 : vscale k (cross (mkV a b c) (mkV 0 0 1)) = mkV (k * b) (- (k * a)) 0) by (apply vec_eq; cbn [vscale cross vx vy vz]; ring).
  rewrite E2.
  assert (E3 : cross (mkV a b c) (mkV (k * b) (- (k * a)) 0) = mkV (k * a * c) (k * b * c) (- (k * (a ^ 2 + b ^ 2))))
    by (apply vec_eq; cbn [vscale cross vx vy vz]; ring).
  rewrite E3.
  assert (E1 : cross (mkV (k * b) (- (k * a)) 0) (mkV (k * a * c) (k * b * c) (- (k * (a ^ 2 + b ^ 2)))) = mkV a b c).
  { apply vec_eq; cbn [cross vx vy vz].
    - transitivity (k * k * (a ^ 2 + b ^ 2) * a); [ring|rewrite Hk; ring].
    - transitivity (k * k * (a ^ 2 + b ^ 2) * b); [ring|rewrite Hk; ring].
    - transitivity (k * k * (a ^ 2 + b ^ 2) * c); [ring|rewrite Hk; ring]. }
  rewrite minv_transpose; [|rewrite E1; unfold dot; cbn [vx vy vz]; exact H1].
  rewrite E1, E3. f_equal. apply vec_eq; cbn [cross vx vy vz].
  - transitivity (k * b * (a * a + b * b + c * c)); [ring|rewrite H1; ring].
  - transitivity (- (k * a * (a * a + b * b + c * c))); [ring|rewrite H1; ring].
  - ring.
Qed.

(** columns orthonormal, and each row the product of the other two *)
Definition orth (m : mat) : Prop :=
  let t := transpose m in
  dot (row1 t) (row1 t) = 1 /\ dot (row2 t) (row2 t) = 1 /\ dot (row3 t) (row3 t) = 1 /\
  dot (row1 t) (row2 t) = 0 /\ dot (row1 t) (row3 t) = 0 /\ dot (row2 t) (row3 t) = 0 /\
  cross (row2 m) (row3 m) = row1 m /\ cross (row3 m) (row1 m) = row2 m /\ cross (row1 m) (row2 m) = row3 m.
Lemma orth_rotation m : orth m -> rotation (mvec m).
Proof.
  intros (A1 & A2 & A3 & B1 & B2 & B3 & C1 & C2 & C3). split; [|split; [|split]].
  - intros. apply vec_eq; cbn; unfold dot; cbn; ring.
  - intros. apply vec_eq; cbn; unfold dot; cbn; ring.
  - intros a b.
    transitivity (vx a * vx b * dot (row1 (transpose m)) (row1 (transpose m)) + vy a * vy b * dot (row2 (transpose m)) (row2 (transpose m)) +
      vz a * vz b * dot (row3 (transpose m)) (row3 (transpose m)) + (vx a * vy b + vy a * vx b) * dot (row1 (transpose m)) (row2 (transpose m)) +
      (vx a * vz b + vz a * vx b) * dot (row1 (transpose m)) (row3 (transpose m)) + (vy a * vz b + vz a * vy b) * dot (row2 (transpose m)) (row3 (transpose m))).
    + unfold mvec, dot. cbn. ring.
    + rewrite A1, A2, A3, B1, B2, B3. unfold dot. ring.
  - intros a b.
    transitivity (mkV (dot (cross (row2 m) (row3 m)) (cross a b)) (dot (cross (row3 m) (row1 m)) (cross a b)) (dot (cross (row1 m) (row2 m)) (cross a b))).
    + rewrite C1, C2, C3. reflexivity.
    + apply vec_eq; unfold mvec, dot, cross; cbn; ring.
Qed.
Lemma rotation_comp f g : rotation f -> rotation g -> rotation (fun v => f (g v)).
Proof.
  intros (F1 & F2 & F3 & F4) (G1 & G2 & G3 & G4). split; [|split; [|split]]; intros.
  - rewrite G1, F1. reflexivity.
  - rewrite G2, F2. reflexivity.
  - rewrite F3, G3. reflexivity.
  - rewrite G4, F4. reflexivity.
Qed.
Lemma los_orth l : upright l -> orth (los_matrix l).
Proof.
  intros H. destruct (los_matrix_rows l H) as [Hk E]. rewrite E. clear E. destruct H as [H1 _].
  set (k := / sqrt _) in *. clearbody k. destruct l as [a b c]. unfold dot in H1. cbn [vx vy vz] in *.
  assert (H : c * c = 1 - a * a - b * b) by lra.
  unfold orth, transpose, dot, cross. cbn [row1 row2 row3 vx vy vz].
  split; [|split; [|split; [|split; [|split; [|split; [|split; [|split]]]]]]].
  - transitivity (a * a + k * k * (a * a * (c * c) + b * b)); [ring|]. rewrite H.
    transitivity (a * a + k * k * (a ^ 2 + b ^ 2) * (1 - a * a)); [ring|]. rewrite Hk. ring.
  - transitivity (b * b + k * k * (b * b * (c * c) + a * a)); [ring|]. rewrite H.
    transitivity (b * b + k * k * (a ^ 2 + b ^ 2) * (1 - b * b)); [ring|]. rewrite Hk. ring.
  - transitivity (c * c + k * k * (a ^ 2 + b ^ 2) * (a ^ 2 + b ^ 2)); [ring|]. rewrite Hk. lra.
  - transitivity (a * b + k * k * (a * b * (c * c) - a * b)); [ring|]. rewrite H.
    transitivity (a * b - k * k * (a ^ 2 + b ^ 2) * (a * b)); [ring|]. rewrite Hk. ring.
  - transitivity (a * c - k * k * (a ^ 2 + b ^ 2) * (a * c)); [ring|]. rewrite Hk. ring.
  - transitivity (b * c - k * k * (a ^ 2 + b ^ 2) * (b * c)); [ring|]. rewrite Hk. ring.
  - apply vec_eq; cbn [cross vx vy vz].
    + transitivity (k * k * (a ^ 2 + b ^ 2) * a); [ring|rewrite Hk; ring].
    + transitivity (k * k * (a ^ 2 + b ^ 2) * b); [ring|rewrite Hk; ring].
    + transitivity (k * k * (a ^ 2 + b ^ 2) * c); [ring|rewrite Hk; ring].
  - apply vec_eq; cbn [cross vx vy vz].
    + transitivity (k * b * (a * a + b * b + c * c)); [ring|rewrite H1; ring].
    + transitivity (- (k * a * (a * a + b * b + c * c))); [ring|rewrite H1; ring].
    + ring.
  - apply vec_eq; cbn [cross vx vy vz vadd vsub vscale vmul]; ring.
Qed.
Lemma pa_orth pa : orth (pa_matrix pa).
Proof.
  pose proof (sin2_cos2 pa) as H. unfold Rsqr in H. set (s := sin pa) in *. set (c := cos pa) in *.
  unfold orth, pa_matrix, transpose, dot, cross. fold s c. cbn [row1 row2 row3 vx vy vz]. clearbody s c.
  split; [|split; [|split; [|split; [|split; [|split; [|split; [|split]]]]]]]; try lra; try ring; apply vec_eq; cbn [cross vx vy vz]; try ring; lra.
Qed.
Lemma los_first l : upright l -> mvec (los_matrix l) l = mkV 1 0 0.
Proof.
  intros H. destruct (los_matrix_rows l H) as [Hk E]. rewrite E. clear E. destruct H as [H1 _].
  set (k := / sqrt _) in *. clearbody k. destruct l as [a b c]. unfold dot in H1. cbn [vx vy vz] in *.
  apply vec_eq; cbn; unfold dot; cbn; [exact H1|ring|ring].
Qed.
Lemma los_row1 l : upright l -> forall v, vx (mvec (los_matrix l) v) = dot l v.
Proof. intros H v. destruct (los_matrix_rows l H) as [Hk E]. rewrite E. reflexivity. Qed.

Lemma pa_vx pa v : vx (mvec (pa_matrix pa) v) = vx v.
Proof. unfold mvec, pa_matrix, dot. cbn [row1 vx vy vz]. ring. Qed.
Lemma good_upright p : good_pt p -> upright (p_los p).
Proof. intros (_ & H & Hx & _). split; [exact H|left; lra]. Qed.
Lemma sky_rotation p : good_pt p -> rotation (sky p).
Proof.
  intros H. pose proof (good_upright p H) as HU. destruct H as (_ & _ & _ & _ & _ & E & pa & E'). unfold sky. rewrite E, E'.
  apply (rotation_comp (mvec (pa_matrix pa)) (mvec (los_matrix (p_los p)))); apply orth_rotation; [apply pa_orth|apply los_orth, HU].
Qed.
Lemma sky_vx p v : good_pt p -> vx (sky p v) = dot (p_los p) v.
Proof.
  intros H. pose proof (good_upright p H) as HU. destruct H as (_ & _ & _ & _ & _ & E & pa & E'). unfold sky. rewrite E, E'.
  rewrite <- (los_row1 _ HU). apply pa_vx.
Qed.
Lemma sky_los p : good_pt p -> sky p (p_los p) = mkV 1 0 0.
Proof.
  intros H. pose proof (good_upright p H) as HU. destruct H as (_ & _ & _ & _ & _ & E & pa & E'). unfold sky. rewrite E, E', los_first by exact HU.
  unfold mvec, pa_matrix, dot. cbn [row1 row2 row3 vx vy vz]. apply vec_eq; cbn [vx vy vz]; ring.
Qed.
Lemma rotation_norm f v : rotation f -> norm (f v) = norm v.
Proof. intros (_ & _ & H & _). unfold norm. rewrite H. reflexivity. Qed.
