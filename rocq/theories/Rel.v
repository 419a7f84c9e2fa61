(** Lemmas for C78-C81: the fits, the scatter and the duty cycles. *)
From Verif Require Import Dict Util RealUtil RelModel RelSpec RelGauss.
From Coq Require Import Reals Lra Lia.
From Coquelicot Require Import Coquelicot.
Open Scope string_scope. Open Scope list_scope.
Open Scope R_scope.

Lemma ln10 : 0 < ln 10.
Proof. rewrite <- ln_1. apply ln_increasing; lra. Qed.
Lemma p10_pos y : 0 < p10 y.
Proof. apply exp_pos. Qed.
Lemma lg_p10 y : lg (p10 y) = y.
Proof. unfold lg, p10, Rpower. rewrite ln_exp. field. pose proof ln10; lra. Qed.
Lemma lg_mult x y : 0 < x -> 0 < y -> lg (x * y) = lg x + lg y.
Proof. intros. unfold lg. rewrite ln_mult by assumption. field. pose proof ln10; lra. Qed.
Lemma lg_lt x y : 0 < x -> x < y -> lg x < lg y.
Proof.
  intros A B. unfold lg. apply Rmult_lt_compat_r; [apply Rinv_0_lt_compat, ln10|]. now apply ln_increasing.
Qed.
Lemma lg_lt_inv x y : 0 < x -> 0 < y -> lg x < lg y -> x < y.
Proof.
  intros A B H. destruct (Rle_lt_dec y x) as [L|L]; [|exact L]. exfalso.
  destruct L as [L|L]; [pose proof (lg_lt _ _ B L); lra|subst; lra].
Qed.

(** one value of a fit *)
Lemma p10log_fits f x : fits (fun x L => lg L = f (lg x)) x (p10log f x).
Proof.
  unfold fits, p10log. repeat split; intros H.
  - destruct (rltb x 0) eqn:E; [reflexivity|]. apply rltb_ge in E. lra.
  - subst. destruct (rltb 0 0) eqn:E; [apply rltb_lt in E; lra|].
    destruct (reqb 0 0) eqn:E2; [reflexivity|]. apply reqb_ne in E2. congruence.
  - destruct (rltb x 0) eqn:E; [apply rltb_lt in E; lra|].
    destruct (reqb x 0) eqn:E2; [apply reqb_eq in E2; lra|].
    eexists; split; [reflexivity|]. split; [apply p10_pos|]. apply lg_p10.
Qed.
Lemma p10log_ext f g x : (forall l, f l = g l) -> p10log f x = p10log g x.
Proof. intros H. unfold p10log. now rewrite H. Qed.
Lemma p10log_scaled f c k x : 0 < c -> 0 < k ->
  fits (fun x L => lg (L / c) = f (lg (k * x))) x (omul c (p10log f (k * x))).
Proof.
  intros C K. destruct (p10log_fits f (k * x)) as (A & B & D). unfold fits. repeat split; intros H.
  - rewrite A by nra. reflexivity.
  - rewrite B by (subst; ring). simpl. now rewrite Rmult_0_r.
  - destruct D as (L & E & P & Q); [nra|]. rewrite E. exists (c * L). repeat split; [nra|].
    rewrite <- Q. f_equal. field. lra.
Qed.
Lemma fits_imp (r1 r2 : R -> R -> Prop) x o : (forall L, 0 < x -> 0 < L -> r1 x L -> r2 x L) -> fits r1 x o -> fits r2 x o.
Proof. intros H (A & B & C). repeat split; auto. intros X. destruct (C X) as (L & ? & ? & ?). exists L; auto. Qed.
Lemma Forall2_map_r {A B} (P : A -> B -> Prop) (f : A -> B) l : (forall x, P x (f x)) -> Forall2 P l (map f l).
Proof. intros H. induction l; simpl; constructor; auto. Qed.
Lemma Forall2_nth {A B} (P : A -> B -> Prop) l l' i x y : Forall2 P l l' -> nth_error l i = Some x -> nth_error l' i = Some y -> P x y.
Proof.
  intros H. revert i. induction H; intros [|i] X Y; simpl in *; try discriminate; [congruence|eauto].
Qed.
(** a relation that increases gives increasing luminosities *)
Lemma fits_increasing (rel : R -> R -> Prop) xs os :
  (forall x y a b, 0 < x < y -> 0 < a -> 0 < b -> rel x a -> rel y b -> a < b) ->
  Forall2 (fits rel) xs os -> brighter xs os.
Proof.
  intros M F i j x y a b X Y (L0 & L) A B.
  pose proof (Forall2_nth _ _ _ _ _ _ F X A) as (_ & Z & P).
  pose proof (Forall2_nth _ _ _ _ _ _ F Y B) as (_ & _ & Q).
  destruct Q as (b' & Eb & Pb & Rb); [lra|]. injection Eb as <-.
  destruct (Req_dec x 0) as [E|E].
  - specialize (Z E). injection Z as ->. exact Pb.
  - destruct P as (a' & Ea & Pa & Ra); [lra|]. injection Ea as <-. apply (M x y); auto; lra.
Qed.

(** * C78 *)
Definition increases (rel : R -> R -> Prop) : Prop := forall x y a b, 0 < x < y -> 0 < a -> 0 < b -> rel x a -> rel y b -> a < b.
Lemma inc_inverse m b : 0 < m -> increases (fun x L => lg x = m * lg L + b).
Proof.
  intros M x y a c (X & Y) A C E1 E2. apply lg_lt_inv; auto. pose proof (lg_lt x y X Y). nra.
Qed.
Lemma inc_direct m b : 0 < m -> increases (fun x L => lg L = m * lg x + b).
Proof.
  intros M x y a c (X & Y) A C E1 E2. apply lg_lt_inv; auto. pose proof (lg_lt x y X Y). nra.
Qed.
(** the same with both sides in other units *)
Lemma inc_units (rel : R -> R -> Prop) k c : 0 < k -> 0 < c -> increases rel -> increases (fun x L => rel (k * x) (c * L)).
Proof.
  intros K C H x y a b (X & Y) A B R1 R2. apply Rmult_lt_reg_l with c; [exact C|].
  apply (H (k * x) (k * y)); auto; nra.
Qed.

Lemma div_cong l b b' m m' : b = b' -> m = m' -> (l - b) / m = (l - b') / m'.
Proof. now intros -> ->. Qed.

Section Fits.
Context {G : Type} (normals : nat -> G -> list R * G).

Lemma delooze_in line set m b : In (line, set, m, b) delooze_fits ->
  0 < m /\ forall sfr fs g, delooze14 normals sfr line set false fs g = Ok (map (p10log (fun l => (l - b) / m)) sfr, g).
Proof.
  intros H. unfold delooze_fits in H. simpl in H.
  repeat destruct H as [H|H]; try contradiction;
    injection H as <- <- <- <-; (split; [lra|]); intros sfr fs g; unfold delooze14; cbn;
    do 2 f_equal; apply map_ext; intros s; apply p10log_ext; intros l; unfold hundredths; apply div_cong; lra.
Qed.
Lemma delooze_fit line set m b sfr fs g : In (line, set, m, b) delooze_fits ->
  exists out, delooze14 normals sfr line set false fs g = Ok (out, g)
    /\ Forall2 (fits (fun x L => lg x = m * lg L + b)) sfr out /\ brighter sfr out.
Proof.
  intros H. destruct (delooze_in _ _ _ _ H) as (M & E). rewrite E. eexists; split; [reflexivity|].
  assert (F : Forall2 (fits (fun x L => lg x = m * lg L + b)) sfr (map (p10log (fun l => (l - b) / m)) sfr)).
  { apply Forall2_map_r. intros x. eapply fits_imp; [|apply p10log_fits]. intros L _ _ Q. cbv beta in *. rewrite Q. field. lra. }
  split; [exact F|]. eapply fits_increasing; [apply inc_inverse; exact M|exact F].
Qed.

Lemma L_IR_k d x : L_IR d x = 10 ^ 10 / d * x.
Proof. unfold L_IR, Rdiv. ring. Qed.
Lemma k_pos d : 0 < d -> 0 < 10 ^ 10 / d.
Proof. intros D. apply Rmult_lt_0_compat; [lra|now apply Rinv_0_lt_compat]. Qed.

Lemma Lsun_e41 : Lsun_to_W / 10 ^ 34 = 3.828 / 10 ^ 8.
Proof. unfold Lsun_to_W. lra. Qed.
Lemma Lsun_pos : 0 < Lsun_to_W.
Proof. unfold Lsun_to_W. lra. Qed.
Lemma ir_out d A B A' B' sfr : 0 < d -> 0 < A -> A' = A -> B' = B ->
  let out := map (fun s => omul (10 ^ 34 / Lsun_to_W)
     (p10log (fun l => A' * l - B') (s / d * 10 ^ 10 * (Lsun_to_W / 10 ^ 34)))) sfr in
  Forall2 (fits (ir_rel d A B)) sfr out /\ brighter sfr out.
Proof.
  intros D A0 -> -> out. pose proof Lsun_pos as LP.
  assert (U : 0 < Lsun_to_W / 10 ^ 34) by (rewrite Lsun_e41; lra).
  assert (V : 0 < 10 ^ 34 / Lsun_to_W) by (replace (10 ^ 34 / Lsun_to_W) with (/ (Lsun_to_W / 10 ^ 34)) by (field; lra); now apply Rinv_0_lt_compat).
  assert (F : Forall2 (fits (ir_rel d A B)) sfr out).
  { apply Forall2_map_r. intros x.
    replace (x / d * 10 ^ 10 * (Lsun_to_W / 10 ^ 34)) with (10 ^ 10 / d * (Lsun_to_W / 10 ^ 34) * x) by (field; lra).
    eapply fits_imp; [|apply p10log_scaled; [exact V|apply Rmult_lt_0_compat; [now apply k_pos|exact U]]].
    intros L _ _ Q. cbv beta in Q. unfold ir_rel, e41. rewrite <- Lsun_e41, L_IR_k.
    replace (L * (Lsun_to_W / 10 ^ 34)) with (L / (10 ^ 34 / Lsun_to_W)) by (field; lra).
    rewrite Q. do 3 f_equal. ring. }
  split; [exact F|]. eapply fits_increasing; [|exact F].
  pose proof (k_pos d D) as K.
  intros x y a b X A1 B1 R1 R2. unfold ir_rel, e41 in *. rewrite !L_IR_k in *.
  apply (inc_units _ (10 ^ 10 / d * (3.828 / 10 ^ 8)) (3.828 / 10 ^ 8) ltac:(apply Rmult_lt_0_compat; lra) ltac:(lra)
    (inc_direct A (- B) A0) x y a b X A1 B1).
  - rewrite Rmult_comm, R1. unfold Rminus. do 3 f_equal. ring.
  - rewrite Rmult_comm, R2. unfold Rminus. do 3 f_equal. ring.
Qed.
Lemma uzgil_fit line A B d sfr sig g : In (line, A, B) uzgil_fits -> 0 < d ->
  exists out, uzgil14 normals sfr d line false sig g = Ok (out, g)
    /\ Forall2 (fits (ir_rel d A B)) sfr out /\ brighter sfr out.
Proof.
  intros H D. unfold uzgil_fits in H. simpl in H.
  repeat destruct H as [H|H]; try contradiction; injection H as <- <- <-;
    (eexists; split; [reflexivity|]); apply ir_out; try exact D; unfold hundredths; lra.
Qed.
Lemma spinoglio_fit line A B d sfr sig g : In (line, A, B) spinoglio_fits -> 0 < d ->
  exists out, spinoglio12 normals sfr d line false sig g = Ok (out, g)
    /\ Forall2 (fits (ir_rel d A B)) sfr out /\ brighter sfr out.
Proof.
  intros H D. unfold spinoglio_fits in H. simpl in H.
  repeat destruct H as [H|H]; try contradiction; injection H as <- <- <-;
    (eexists; split; [reflexivity|]); apply ir_out; try exact D; unfold hundredths; lra.
Qed.
Lemma schaerer_fit set m b sfr sig g : In (set, m, b) schaerer_fits ->
  exists out, schaerer20 normals sfr set false sig g = Ok (out, g)
    /\ Forall2 (fits (fun x L => lg L = m * lg x + b)) sfr out /\ brighter sfr out.
Proof.
  intros H.
  assert (E : 0 < m /\ schaerer20 normals sfr set false sig g = Ok (map (p10log (fun l => m * l + b)) sfr, g)).
  { unfold schaerer_fits in H. simpl in H.
    repeat destruct H as [H|H]; try contradiction; injection H as <- <- <-;
      (split; [lra|]); unfold schaerer20; cbn; do 2 f_equal; apply map_ext; intros s; apply p10log_ext; intros l; unfold hundredths; lra. }
  destruct E as (M & ->). eexists; split; [reflexivity|].
  assert (F : Forall2 (fits (fun x L => lg L = m * lg x + b)) sfr (map (p10log (fun l => m * l + b)) sfr)).
  { apply Forall2_map_r. intros x. apply p10log_fits. }
  split; [exact F|]. eapply fits_increasing; [apply inc_direct; exact M|exact F].
Qed.
Lemma zhao_fit d sfr sig g : 0 < d ->
  exists out, zhao13 normals sfr d false sig g = (out, g)
    /\ Forall2 (fits (fun x L => lg (L_IR d x) = 0.95 * lg L + 4.51)) sfr out /\ brighter sfr out.
Proof.
  intros D. eexists; split; [reflexivity|].
  assert (F : Forall2 (fits (fun x L => lg (L_IR d x) = 0.95 * lg L + 4.51)) sfr
    (map (fun s => p10log (fun l => (l - 451 / 100) / (95 / 100)) (s * 10 ^ 10 / d)) sfr)).
  { apply Forall2_map_r. intros x. replace (x * 10 ^ 10 / d) with (10 ^ 10 / d * x) by (field; lra).
    pose proof (p10log_scaled (fun l => (l - 451 / 100) / (95 / 100)) 1 (10 ^ 10 / d) x ltac:(lra) (k_pos d D)) as Q.
    replace (omul 1 (p10log (fun l => (l - 451 / 100) / (95 / 100)) (10 ^ 10 / d * x)))
      with (p10log (fun l => (l - 451 / 100) / (95 / 100)) (10 ^ 10 / d * x)) in Q
      by (destruct (p10log _ _); simpl; [now rewrite Rmult_1_l|reflexivity]).
    eapply fits_imp; [|exact Q]. intros L _ _ E. cbv beta in E. rewrite L_IR_k.
    replace (L / 1) with L in E by field. lra. }
  split; [exact F|]. eapply fits_increasing; [|exact F].
  pose proof (k_pos d D) as K.
  intros x y a b X A1 B1 R1 R2. cbv beta in *. rewrite !L_IR_k in *.
  apply (inc_units _ (10 ^ 10 / d) 1 K ltac:(lra) (inc_inverse 0.95 4.51 ltac:(lra)) x y a b X A1 B1); rewrite Rmult_1_l; assumption.
Qed.
(** li16 and hcn_gao *)
Lemma ks_out (c0 d a b nu nu0 : R) sfr : 0 < c0 -> 0 < d -> 0 < a -> 0 < nu -> 0 < nu0 ->
  let out := map (fun s => omul (c0 * (nu / nu0) ^ 3) (p10log (fun l => (l - b) / a) (s / d * 10 ^ 10))) sfr in
  Forall2 (fits (fun x L => lg (L_IR d x) = a * lg (L / (c0 * (nu / nu0) ^ 3)) + b)) sfr out /\ brighter sfr out.
Proof.
  intros C D A N N0 out.
  assert (Q : 0 < nu / nu0) by (apply Rmult_lt_0_compat; [exact N|now apply Rinv_0_lt_compat]).
  assert (C3 : 0 < c0 * (nu / nu0) ^ 3) by (apply Rmult_lt_0_compat; [exact C|now apply pow_lt]).
  set (c := c0 * (nu / nu0) ^ 3) in *. pose proof (k_pos d D) as K.
  assert (F : Forall2 (fits (fun x L => lg (L_IR d x) = a * lg (L / c) + b)) sfr out).
  { apply Forall2_map_r. intros x. replace (x / d * 10 ^ 10) with (10 ^ 10 / d * x) by (field; lra).
    eapply fits_imp; [|apply p10log_scaled; [exact C3|exact K]]. intros L _ _ E. cbv beta in E.
    rewrite L_IR_k, E. field. lra. }
  split; [exact F|]. eapply fits_increasing; [|exact F].
  intros x y u v X U V R1 R2. cbv beta in *. rewrite !L_IR_k in *.
  apply (inc_units _ (10 ^ 10 / d) (/ c) K ltac:(now apply Rinv_0_lt_compat) (inc_inverse a b A) x y u v X U V);
    rewrite (Rmult_comm (/ c)); assumption.
Qed.
Lemma nu_co10_pos : 0 < nu_co10.
Proof. unfold nu_co10; lra. Qed.
Lemma nu_hcn10_pos : 0 < nu_hcn10.
Proof. unfold nu_hcn10; lra. Qed.
Lemma li_fit sfr d a b nu sig g : 0 < d -> 0 < a -> 0 < nu ->
  exists out, li16 normals sfr d a b nu false sig g = (out, g)
    /\ Forall2 (fits (fun x L => lg (L_IR d x) = a * lg (L / (4.9 / 10 ^ 5 * (nu / (115.2712018 * 10 ^ 9)) ^ 3)) + b)) sfr out
    /\ brighter sfr out.
Proof.
  intros D A N. eexists; split; [reflexivity|].
  replace (4.9 / 10 ^ 5) with (49 / 10 ^ 6) by lra. replace (115.2712018 * 10 ^ 9) with nu_co10 by (unfold nu_co10; lra).
  apply ks_out; auto using nu_co10_pos. lra.
Qed.
Lemma gao_fit sfr d a b nu sig g : 0 < d -> 0 < a -> 0 < nu ->
  exists out, hcn_gao normals sfr d a b nu false sig g = (out, g)
    /\ Forall2 (fits (fun x L => lg (L_IR d x) = a * lg (L / (2.2 / 10 ^ 5 * (nu / (88.63 * 10 ^ 9)) ^ 3)) + b)) sfr out
    /\ brighter sfr out.
Proof.
  intros D A N. eexists; split; [reflexivity|].
  replace (2.2 / 10 ^ 5) with (22 / 10 ^ 6) by lra. replace (88.63 * 10 ^ 9) with nu_hcn10 by (unfold nu_hcn10; lra).
  apply ks_out; auto using nu_hcn10_pos. lra.
Qed.
End Fits.
