(** Proofs about the reference frequency of gaussian and boxcar responses (C105). *)
From Verif Require Import Dict Util RealUtil RawModel RespModel RespSpec Resp.
From Coq Require Import Reals Lra Lia.
Open Scope string_scope. Open Scope list_scope.
Open Scope R_scope.

(** * Peaks *)
Lemma peak_near h resp a b q : sampled h resp -> peaked h (e10 q) -> a < b -> a <= q <= b ->
  exists i, (i < points)%nat /\ best_in resp a b = Ok (e10 (gridt a b i)) /\ q - (b - a) / 50000 < gridt a b i < q + (b - a) / 50000.
Proof.
  intros HS [H1 H2] Hab Hq. destruct (best_sampled h resp a b HS) as (i & L & E & F & _). exists i. split; [exact L|]. split; [exact E|]. split.
  - destruct (Rlt_le_dec (q - (b - a) / 50000) (gridt a b i)) as [G|G]; [exact G|exfalso]. assert (L2 : (S i < points)%nat).
    { destruct (Nat.eq_dec i (points - 1)) as [->|N]; [|lia]. rewrite gridt_last in G. lra. }
    pose proof (F (S i) L2) as K. apply Rle_not_lt in K. apply K. apply H1; [apply e10_pos|apply e10_lt; apply gridt_lt; [exact Hab|lia]|]. apply e10_le. rewrite gridt_S. lra.
  - destruct (Rlt_le_dec (gridt a b i) (q + (b - a) / 50000)) as [G|G]; [exact G|exfalso]. destruct i as [|i]; [rewrite gridt_0 in G; lra|].
    pose proof (F i ltac:(lia)) as K. apply Rle_not_lt in K. apply K. apply H2; [|apply e10_lt; apply gridt_lt; [exact Hab|lia]]. apply e10_le. rewrite gridt_S in G. lra.
Qed.
Lemma pass_at resp k c s last i : 0 < s -> (i < points)%nat -> let t := gridt (c - s / 2) (c + s / 2) i in best_in resp (c - s / 2) (c + s / 2) = Ok (e10 t) -> c - s / 2 < t < c + s / 2 ->
  search resp (S k) (c - s / 2) (c + s / 2) last =
      if match last with Some p => rleb (Rabs (p - e10 t)) (1 / 100) | None => false end then Some (Freq (e10 t))
      else search resp k (t - (s / 2) / 2) (t + (s / 2) / 2) (Some (e10 t)).
Proof.
  intros Hs L t E Ht. cbn [search]. rewrite E, logspace_min, logspace_max by lra.
  replace (reqb (e10 t) (e10 (c - s / 2))) with false by (symmetry; apply reqb_ne; intros Q; apply e10_inj in Q; lra).
  replace (reqb (e10 t) (e10 (c + s / 2))) with false by (symmetry; apply reqb_ne; intros Q; apply e10_inj in Q; lra). cbn [orb]. rewrite log10_e10.
  replace (t - (c + s / 2 - (c - s / 2)) / 4) with (t - (s / 2) / 2) by field. replace (t + (c + s / 2 - (c - s / 2)) / 4) with (t + (s / 2) / 2) by field. reflexivity.
Qed.
(** an interval property that every pass keeps *)
Section Track.
Context (resp : axin -> exc (list (option R))) (near : R -> R -> Prop).
(** [near d t]: the exponent [t] is acceptable with tolerance [d] *)
Context (near_mono : forall d d' t, d <= d' -> near d t -> near d' t).
Context (step : forall c s, 0 < s -> near (s / 25000) c -> exists i, (i < points)%nat /\ let t := gridt (c - s / 2) (c + s / 2) i in
  best_in resp (c - s / 2) (c + s / 2) = Ok (e10 t) /\ c - s / 2 < t < c + s / 2 /\ near (s / 50000) t).
Lemma track N : forall s c, 0 < s <= tiny * 2 ^ N -> Rabs c + s <= 60 -> near (s / 25000) c ->
  exists r, search resp (S N) (c - s / 2) (c + s / 2) (Some (e10 c)) = Some (Freq (e10 r)) /\ near (s / 50000) r.
Proof.
  induction N as [|N IH]; intros s c Hs Hc Hn; destruct (step c s ltac:(lra) Hn) as (i & L & E & Ht & Hd); set (t := gridt _ _ i) in *.
  - rewrite (pass_at resp 0 c s (Some (e10 c)) i) by (auto; lra). fold t. cbn [pow] in Hs. pose proof (close c t s ltac:(lra) Hc Ht) as K. apply rleb_le in K. rewrite K. eauto.
  - rewrite (pass_at resp (S N) c s (Some (e10 c)) i) by (auto; lra). fold t. destruct (rleb _ _); [eauto|]. destruct (IH (s / 2) t) as (r & R1 & R2).
    + cbn [pow] in Hs. lra.
    + assert (Rabs t <= Rabs c + s / 2); [|lra]. replace t with (c + (t - c)) by ring. eapply Rle_trans; [apply Rabs_triang|]. assert (Rabs (t - c) <= s / 2) by (apply Rabs_le; lra). lra.
    + eapply near_mono; [|exact Hd]. lra.
    + exists r. split; [exact R1|]. eapply near_mono; [|exact R2]. lra.
Qed.
Lemma track_all i : (i < points)%nat -> let t := gridt (-20) 20 i in best_in resp (-20) 20 = Ok (e10 t) -> -20 < t < 20 -> near (8 / 10000) t ->
  exists r, finds resp (Freq (e10 r)) /\ near (4 / 10000) r.
Proof.
  intros L t E Ht Hn. destruct passes_enough as [N HN]. destruct (track N 20 t) as (r & R1 & R2); [lra|assert (Rabs t <= 20) by (apply Rabs_le; lra); lra|eapply near_mono; [|exact Hn]; lra|].
  exists r. split; [|eapply near_mono; [|exact R2]; lra]. exists (S (S N)). intros k' Hk. cbn [reffreq]. eapply search_more; [exact Hk|].
  pose proof (pass_at resp (S N) 0 40 None i) as P. replace (0 - 40 / 2) with (-20) in P by field. replace (0 + 40 / 2) with 20 in P by field. cbv zeta in P. fold t in P.
  rewrite P; [|lra|exact L|exact E|exact Ht]. replace (40 / 2) with 20 by field. exact R1.
Qed.
End Track.

(** ** Gaussian and other peaks *)
Lemma peak_found h resp q : sampled h resp -> peaked h (e10 q) -> -20 + 8 / 10000 <= q <= 20 - 8 / 10000 ->
  exists r, finds resp (Freq (e10 r)) /\ q - 4 / 10000 < r < q + 4 / 10000.
Proof.
  intros HS HP Hq. destruct (peak_near h resp (-20) 20 q HS HP ltac:(lra) ltac:(lra)) as (i & L & E & Ht).
  apply (track_all resp (fun d t => q - d < t < q + d)) with (i := i); [intros; lra| |exact L|exact E|lra|lra].
  intros c s Hs Hc. destruct (peak_near h resp (c - s / 2) (c + s / 2) q HS HP ltac:(lra) ltac:(lra)) as (j & Lj & Ej & Hj).
  replace ((c + s / 2 - (c - s / 2)) / 50000) with (s / 50000) in Hj by field. exists j. split; [exact Lj|]. cbv zeta. split; [exact Ej|]. split; lra.
Qed.
(** ** Boxcars *)
Definition box (A lo hi f : R) : R := if rleb lo f && rleb f hi then A else 0.
Lemma box_in A lo hi f : lo <= f <= hi -> box A lo hi f = A.
Proof. intros [H1 H2]. unfold box. apply rleb_le in H1, H2. rewrite H1, H2. reflexivity. Qed.
Lemma box_out A lo hi f : ~ lo <= f <= hi -> box A lo hi f = 0.
Proof. intros H. unfold box. destruct (rleb lo f) eqn:E1; [|reflexivity]. destruct (rleb f hi) eqn:E2; [|reflexivity]. apply rleb_le in E1, E2. tauto. Qed.
Lemma box_first A u v resp a b : 0 < A -> sampled (box A (e10 u) (e10 v)) resp -> a < b -> a < u -> (exists j, (j < points)%nat /\ u <= gridt a b j <= v) ->
  exists i, (i < points)%nat /\ best_in resp a b = Ok (e10 (gridt a b i)) /\ u <= gridt a b i <= v /\ gridt a b i < u + (b - a) / 50000 /\
    forall j, u <= gridt a b j <= v -> gridt a b i <= gridt a b j.
Proof.
  intros HA HS Hab Hu (j & Lj & Hj). assert (IN : forall t, u <= t <= v -> e10 u <= e10 t <= e10 v) by (intros t Ht; split; apply e10_le; lra).
  assert (OUT : forall t, e10 u <= e10 t <= e10 v -> u <= t <= v). { intros t [Q1 Q2]. split; apply Rnot_lt_le; intros Q; apply e10_lt in Q; lra. }
  destruct (best_sampled _ resp a b HS) as (i & L & E & F & G). exists i. split; [exact L|]. split; [exact E|].
  assert (Hi : u <= gridt a b i <= v).
  { destruct (Rle_dec (e10 u) (e10 (gridt a b i))) as [D1|D1]; [destruct (Rle_dec (e10 (gridt a b i)) (e10 v)) as [D2|D2]; [apply OUT; auto|]|]; exfalso.
    all: pose proof (F j Lj) as K; rewrite (box_in A _ _ (e10 (gridt a b j))) in K by (apply IN; exact Hj); rewrite box_out in K by tauto; lra. }
  assert (First : forall k, (k < i)%nat -> ~ u <= gridt a b k <= v).
  { intros k Hk Q. pose proof (G k Hk) as K. rewrite !box_in in K by (apply IN; auto). lra. }
  split; [exact Hi|]. split.
  - destruct i as [|i]; [rewrite gridt_0 in Hi; lra|]. pose proof (First i ltac:(lia)) as K. pose proof (gridt_S a b i) as Q. assert (0 < (b - a) / 50000) by lra. lra.
  - intros k Hk. destruct (Nat.lt_ge_cases k i) as [D|D]; [destruct (First k D Hk)|]. destruct (Nat.eq_dec i k) as [->|N]; [lra|]. left. apply gridt_lt; [exact Hab|lia].
Qed.
Lemma half_points : (25000 < points)%nat.
Proof. rewrite points_Z. lia. Qed.
Lemma box_found A u v resp : 0 < A -> sampled (box A (e10 u) (e10 v)) resp -> -20 < u -> v < 20 -> u + 8 / 10000 <= v ->
  exists r, finds resp (Freq (e10 r)) /\ u <= r < u + 4 / 10000.
Proof.
  intros HA HS Hu Hv Hw. destruct (gridt_above (-20) 20 u) as (j & Lj & Hj); [lra|lra|].
  destruct (box_first A u v resp (-20) 20 HA HS ltac:(lra) Hu) as (i & L & E & Hi & Hlt & _); [exists j; split; [exact Lj|lra]|].
  destruct (track_all resp (fun d t => u <= t <= v /\ t < u + d)) with (i := i) as (r & R1 & [R2 R3] & R4); [intros; lra| |exact L|exact E|lra|lra|exists r; split; [exact R1|lra]].
  intros c s Hs [Hc1 Hc2].
  destruct (box_first A u v resp (c - s / 2) (c + s / 2) HA HS ltac:(lra) ltac:(lra)) as (k & Lk & Ek & Hk & Hk2 & Hmin).
  { exists 25000%nat. split; [apply half_points|]. rewrite gridt_mid. lra. }
  replace ((c + s / 2 - (c - s / 2)) / 50000) with (s / 50000) in Hk2 by field. specialize (Hmin 25000%nat). rewrite gridt_mid in Hmin. specialize (Hmin ltac:(lra)).
  exists k. split; [exact Lk|]. cbv zeta. split; [exact Ek|]. split; lra.
Qed.
Lemma box_missed A lo hi resp : sampled (box A lo hi) resp -> (forall i, (i < points)%nat -> ~ lo <= e10 (gridt (-20) 20 i) <= hi) -> finds resp Unknown.
Proof.
  intros HS H. exists 1%nat. intros [|k] Hk; [lia|]. cbn [reffreq search]. destruct (best_sampled _ resp (-20) 20 HS) as (i & L & E & F & G).
  destruct i as [|i]; [|exfalso; pose proof (G 0%nat ltac:(lia)) as K; rewrite !box_out in K by (apply H; lia); lra].
  rewrite E, gridt_0, logspace_min by lra. rewrite (proj2 (reqb_eq (e10 (-20)) (e10 (-20)))) by reflexivity. reflexivity.
Qed.
