(** Lemmas about the movie of a light cone. *)
From Verif Require Import Dict Util RealUtil RawModel RespModel PlotModel PlotSpec.
From Coq Require Import Reals Lra.
Open Scope string_scope. Open Scope list_scope.
Open Scope R_scope.

Lemma steps_pos lo hi : lo < hi -> (1 <= lc_steps lo hi)%Z.
Proof.
  intros H. unfold lc_steps. destruct (rceil_spec ((hi - lo) / 50)) as [_ B].
  assert (0 < IZR (rceil ((hi - lo) / 50))) by lra. apply lt_IZR in H0. lia.
Qed.
Lemma step_facts lo hi : lo < hi ->
  (1 <= lc_step lo hi <= 50)%Z /\ hi <= lo + IZR (lc_step lo hi) * IZR (lc_steps lo hi).
Proof.
  intros H. pose proof (steps_pos lo hi H) as P. apply IZR_le in P.
  assert (P0 : 0 < IZR (lc_steps lo hi)) by lra.
  destruct (rceil_spec ((hi - lo) / 50)) as [_ A]. fold (lc_steps lo hi) in A.
  destruct (rceil_spec ((hi - lo) / IZR (lc_steps lo hi))) as [B C]. fold (lc_step lo hi) in B, C.
  set (n := IZR (lc_steps lo hi)) in *. set (q := (hi - lo) / n) in *.
  assert (Q : q * n = hi - lo) by (unfold q; field; lra).
  assert (Q0 : 0 < q). { unfold q. apply Rdiv_lt_0_compat; lra. }
  assert (Q1 : q <= 50). { apply (Rmult_le_reg_r n); [exact P0|]. lra. }
  split.
  - split.
    + assert (0 < IZR (lc_step lo hi)) by lra. apply lt_IZR in H0. lia.
    + assert (IZR (lc_step lo hi) < 51) by lra. apply lt_IZR in H0. lia.
  - apply (Rmult_le_compat_r n) in C; [|lra]. lra.
Qed.

Section Movie.
Context (dist trans z_at : R -> R).
Notation movie := (lc_movie dist trans z_at).

(** what a successful call computes *)
Lemma movie_inv c use_all color cs size ss in_h m : movie c use_all color cs size ss in_h = Ok m ->
  let ih := match in_h with Some b => b | None => k_inh c end in
  let lo := dist (k_zmin c) * k_h c in let hi := dist (k_zmax c) * k_h c in
  exists z angle sv rel, column c "pos_z" use_all ih = Ok z /\ k_angle c = Some angle /\ column c size use_all ih = Ok sv /\
    relative ss sv = Ok rel /\ lo < hi /\
    lm_frames m = map (lc_frame trans z_at lo (trans (k_zmax c) * k_h c * angle) angle (IZR (lc_step lo hi)) z
       (map (option_map (fun r => (r + 1 / 5) * 5)) rel)) (seq 0 (Z.to_nat (lc_steps lo hi))).
Proof.
  intros E ih lo hi. unfold lc_movie in E. fold ih in E. fold lo in E. fold hi in E.
  destruct (column c "pos_x" use_all ih) as [x|]; cbn [bind] in E; [|discriminate].
  destruct (column c "pos_y" use_all ih) as [y|]; cbn [bind] in E; [|discriminate].
  destruct (column c "pos_z" use_all ih) as [z|]; cbn [bind] in E; [|discriminate].
  destruct (column c "ra" use_all ih) as [ra|]; cbn [bind] in E; [|discriminate].
  destruct (column c "dec" use_all ih) as [dec|]; cbn [bind] in E; [|discriminate].
  destruct (column c "redshift" use_all ih) as [rs|]; cbn [bind] in E; [|discriminate].
  destruct (k_angle c) as [angle|]; cbn [bind] in E; [|discriminate].
  destruct (column c color use_all ih) as [cv|]; cbn [bind] in E; [|discriminate].
  destruct (relative cs cv) as [colors|]; cbn [bind] in E; [|discriminate].
  destruct (column c size use_all ih) as [sv|]; cbn [bind] in E; [|discriminate].
  destruct (relative ss sv) as [rel|] eqn:Er; cbn [bind] in E; [|discriminate].
  destruct (rleb hi lo) eqn:Eh; [discriminate|]. apply rleb_gt in Eh.
  exists z, angle, sv, rel. injection E as <-. repeat split; auto.
Qed.

Lemma frame_at lo lim angle w z sizes n i fr :
  nth_error (map (lc_frame trans z_at lo lim angle w z sizes) (seq 0 n)) i = Some fr ->
  (i < n)%nat /\ fr = lc_frame trans z_at lo lim angle w z sizes i.
Proof.
  intros H. assert (L : (i < n)%nat).
  { assert (N : nth_error (map (lc_frame trans z_at lo lim angle w z sizes) (seq 0 n)) i <> None) by congruence.
    apply nth_error_Some in N. rewrite map_length, seq_length in N. exact N. }
  split; [exact L|]. rewrite nth_error_map in H.
  assert (S0 : nth_error (seq 0 n) i = Some i).
  { rewrite (nth_error_nth' _ 0%nat) by (rewrite seq_length; exact L). rewrite seq_nth by exact L. reflexivity. }
  rewrite S0 in H. cbn in H. congruence.
Qed.

End Movie.

Lemma nth_error_combine {X Y} (a : list X) (b : list Y) k : nth_error (combine a b) k =
  match nth_error a k, nth_error b k with Some x, Some y => Some (x, y) | _, _ => None end.
Proof.
  revert b k. induction a as [|x a IH]; intros [|y b] [|k]; cbn; try reflexivity.
  - destruct (nth_error a k); reflexivity.
  - apply IH.
Qed.

(** * sizes *)
Lemma fold_min_le (l : list R) a : fold_left Rmin l a <= a /\ forall x, In x l -> fold_left Rmin l a <= x.
Proof.
  revert a. induction l as [|b l IH]; intros a; cbn.
  - split; [lra|tauto].
  - destruct (IH (Rmin a b)) as [A B]. split; [pose proof (Rmin_l a b); lra|].
    intros x [<-|H]; [pose proof (Rmin_r a b); lra|apply B, H].
Qed.
Lemma fold_max_ge (l : list R) a : a <= fold_left Rmax l a /\ forall x, In x l -> x <= fold_left Rmax l a.
Proof.
  revert a. induction l as [|b l IH]; intros a; cbn.
  - split; [lra|tauto].
  - destruct (IH (Rmax a b)) as [A B]. split; [pose proof (Rmax_l a b); lra|].
    intros x [<-|H]; [pose proof (Rmax_r a b); lra|apply B, H].
Qed.
Lemma list_min_le l x : In x l -> list_min l <= x.
Proof. destruct l as [|a l]; [intros []|]. cbn. destruct (fold_min_le l a) as [A B]. intros [<-|H]; auto. Qed.
Lemma list_max_ge l x : In x l -> x <= list_max l.
Proof. destruct l as [|a l]; [intros []|]. cbn. destruct (fold_max_ge l a) as [A B]. intros [<-|H]; auto. Qed.
Lemma fold_min_in l a : fold_left Rmin l a = a \/ In (fold_left Rmin l a) l.
Proof.
  revert a. induction l as [|b l IH]; intros a; cbn; [auto|]. destruct (IH (Rmin a b)) as [E|E].
  - rewrite E. unfold Rmin. destruct (Rle_dec a b); auto.
  - auto.
Qed.
Lemma fold_max_in l a : fold_left Rmax l a = a \/ In (fold_left Rmax l a) l.
Proof.
  revert a. induction l as [|b l IH]; intros a; cbn; [auto|]. destruct (IH (Rmax a b)) as [E|E].
  - rewrite E. unfold Rmax. destruct (Rle_dec a b); auto.
  - auto.
Qed.
Lemma list_min_in l : l <> [] -> In (list_min l) l.
Proof. destruct l as [|a l]; [congruence|]. intros _. cbn. destruct (fold_min_in l a) as [E|E]; auto. Qed.
Lemma list_max_in l : l <> [] -> In (list_max l) l.
Proof. destruct l as [|a l]; [congruence|]. intros _. cbn. destruct (fold_max_in l a) as [E|E]; auto. Qed.

Lemma relative_inv ss vs rel : relative ss vs = Ok rel -> exists ws, ws <> [] /\
  ((ss = "linear" /\ ws = vs) \/ (ss = "log" /\ (forall v, In v vs -> 0 < v) /\ ws = map log10 vs)) /\
  rel = map (fun w => if reqb (list_max ws - list_min ws) 0 then None else Some ((w - list_min ws) / (list_max ws - list_min ws))) ws.
Proof.
  unfold relative. intros E.
  destruct (ss =? "log") eqn:E1.
  - apply String.eqb_eq in E1. destruct (forallb (rltb 0) vs) eqn:F; cbn [bind] in E; [|discriminate].
    exists (map log10 vs). destruct (map log10 vs) eqn:Em; [discriminate|]. split; [discriminate|]. split.
    + right. split; [exact E1|]. split; [|reflexivity]. rewrite forallb_forall in F. intros v Hv. apply rltb_lt, F, Hv.
    + injection E as <-. reflexivity.
  - destruct (ss =? "linear") eqn:E2; cbn [bind] in E; [|discriminate]. apply String.eqb_eq in E2.
    exists vs. destruct vs eqn:Em; [discriminate|]. split; [discriminate|]. split; [left; auto|]. injection E as <-. reflexivity.
Qed.

Lemma log10_lt a b : 0 < a -> a < b -> log10 a < log10 b.
Proof.
  intros A B. unfold log10. apply Rmult_lt_compat_r; [|apply ln_increasing; assumption].
  apply Rinv_0_lt_compat. rewrite <- ln_1. apply ln_increasing; lra.
Qed.

(** sizes are between 1 and 6, and grow with the property, unless all its values are equal *)
Lemma sizes_range ss vs rel : relative ss vs = Ok rel -> (exists a b, In a vs /\ In b vs /\ a < b) ->
  forall k v, nth_error vs k = Some v ->
  exists s, nth_error (map (option_map (fun r => (r + 1 / 5) * 5)) rel) k = Some (Some s) /\ 1 <= s <= 6.
Proof.
  intros E (a & b & Ha & Hb & L) k v Hk. destruct (relative_inv _ _ _ E) as (ws & N & C & ->).
  assert (P : 0 < list_max ws - list_min ws).
  { destruct C as [[_ ->]|(_ & Pv & ->)].
    - pose proof (list_min_le _ _ Ha). pose proof (list_max_ge _ _ Hb). lra.
    - assert (log10 a < log10 b) by (apply log10_lt; auto).
      pose proof (list_min_le _ _ (in_map log10 _ _ Ha)). pose proof (list_max_ge _ _ (in_map log10 _ _ Hb)). lra. }
  assert (exists w, nth_error ws k = Some w) as [w Hw].
  { destruct C as [[_ ->]|(_ & _ & ->)]; [eauto|]. exists (log10 v). rewrite nth_error_map, Hk. reflexivity. }
  rewrite !nth_error_map, Hw. cbn [option_map]. rewrite (proj2 (reqb_ne _ _)) by lra. cbn [option_map].
  eexists. split; [reflexivity|]. apply nth_error_In in Hw.
  pose proof (list_min_le _ _ Hw). pose proof (list_max_ge _ _ Hw).
  set (r := list_max ws - list_min ws) in *. set (q := (w - list_min ws) / r).
  assert (Q : q * r = w - list_min ws) by (unfold q; field; lra).
  assert (0 <= q). { apply (Rmult_le_reg_r r); lra. }
  assert (q <= 1). { apply (Rmult_le_reg_r r); [lra|]. unfold r in *. lra. }
  lra.
Qed.
Lemma sizes_grow ss vs rel : relative ss vs = Ok rel ->
  forall j k u v s t, nth_error vs j = Some u -> nth_error vs k = Some v ->
  nth_error (map (option_map (fun r => (r + 1 / 5) * 5)) rel) j = Some (Some s) ->
  nth_error (map (option_map (fun r => (r + 1 / 5) * 5)) rel) k = Some (Some t) -> u < v -> s < t.
Proof.
  intros E j k u v s t Hj Hk Hs Ht L. destruct (relative_inv _ _ _ E) as (ws & N & C & ->).
  assert (exists a b, nth_error ws j = Some a /\ nth_error ws k = Some b /\ a < b) as (a & b & Ha & Hb & L2).
  { destruct C as [[_ ->]|(_ & Pv & ->)]; [eauto|]. exists (log10 u), (log10 v). rewrite !nth_error_map, Hj, Hk. cbn.
    split; [reflexivity|]. split; [reflexivity|]. apply log10_lt; [|exact L]. apply Pv. eapply nth_error_In; eassumption. }
  rewrite !nth_error_map, Ha in Hs. rewrite !nth_error_map, Hb in Ht. cbn [option_map] in Hs, Ht.
  destruct (reqb (list_max ws - list_min ws) 0) eqn:Z; [discriminate|]. apply reqb_ne in Z. cbn [option_map] in Hs, Ht.
  injection Hs as <-. injection Ht as <-.
  assert (P : 0 < list_max ws - list_min ws). { apply nth_error_In in Ha. pose proof (list_min_le _ _ Ha). pose proof (list_max_ge _ _ Ha). lra. }
  assert ((a - list_min ws) / (list_max ws - list_min ws) < (b - list_min ws) / (list_max ws - list_min ws)).
  { apply Rmult_lt_compat_r; [apply Rinv_0_lt_compat; exact P|lra]. }
  lra.
Qed.
Lemma sizes_equal ss vs rel v : relative ss vs = Ok rel -> (forall u, In u vs -> u = v) ->
  forall o, In o (map (option_map (fun r => (r + 1 / 5) * 5)) rel) -> o = None.
Proof.
  intros E A o Ho. destruct (relative_inv _ _ _ E) as (ws & N & C & ->).
  assert (W : exists w, forall u, In u ws -> u = w).
  { destruct C as [[_ ->]|(_ & _ & ->)]; [eauto|]. exists (log10 v). intros u Hu. apply in_map_iff in Hu. destruct Hu as (x & <- & Hx).
    rewrite (A x Hx). reflexivity. }
  destruct W as [w W]. rewrite (W _ (list_min_in _ N)), (W _ (list_max_in _ N)) in Ho.
  rewrite (proj2 (reqb_eq (w - w) 0)) in Ho by lra. apply in_map_iff in Ho. destruct Ho as (x & <- & Hx).
  apply in_map_iff in Hx. destruct Hx as (y & <- & _). reflexivity.
Qed.

(** * which frame shows a marker *)
Section Frames.
Context (trans z_at : R -> R).
Lemma visible_iff lo lim angle w z sizes i k zk s : nth_error z k = Some zk -> nth_error sizes k = Some s ->
  (visible (lc_frame trans z_at lo lim angle w z sizes i) k <->
   lo + w * INR i < zk < lo + w * INR (S i) /\ exists x, s = Some x /\ 0 < x).
Proof.
  intros Hz Hs. unfold visible, lc_frame. cbn [lf_sizes]. rewrite nth_error_map, nth_error_combine, Hz, Hs. cbn [option_map fst snd].
  rewrite S_INR. destruct (rltb (lo + w * INR i) zk && rltb zk (lo + w * (INR i + 1))) eqn:B.
  - apply andb_true_iff in B. destruct B as [B1 B2]. apply rltb_lt in B1, B2. split.
    + intros (x & E & P). injection E as E. split; [split; assumption|]. exists x. auto.
    + intros (_ & x & -> & P). exists x. auto.
  - split.
    + intros (x & E & P). injection E as <-. lra.
    + intros ((B1 & B2) & _). apply rltb_lt in B1, B2. rewrite B1, B2 in B. discriminate.
Qed.
End Frames.

(** a number strictly between two multiples lies strictly between exactly one pair of neighbours, unless it is a multiple *)
Lemma one_slab lo w n z : 0 < w -> lo < z < lo + w * INR n -> (forall j, (j < n)%nat -> z <> lo + w * INR j) ->
  exists i, (i < n)%nat /\ lo + w * INR i < z < lo + w * INR (S i).
Proof.
  intros W. induction n as [|n IH]; intros H N; [cbn in H; lra|]. destruct (Rlt_le_dec (lo + w * INR n) z) as [L|L].
  - exists n. split; [lia|]. split; [exact L|tauto].
  - assert (Q : z <> lo + w * INR n) by (apply N; lia). destruct IH as (i & I1 & I2); [lra|intros j Hj; apply N; lia|].
    exists i. split; [lia|exact I2].
Qed.
Lemma slab_unique lo w z i j : 0 < w -> lo + w * INR i < z < lo + w * INR (S i) -> lo + w * INR j < z < lo + w * INR (S j) -> i = j.
Proof.
  intros W A B. assert (D : (i < j)%nat \/ (j < i)%nat \/ i = j) by lia. destruct D as [D|[D|D]]; [| |exact D].
  - assert (INR (S i) <= INR j) by (apply le_INR; lia). apply (Rmult_le_compat_l w) in H; lra.
  - assert (INR (S j) <= INR i) by (apply le_INR; lia). apply (Rmult_le_compat_l w) in H; lra.
Qed.
Lemma edge_nowhere lo w i j : 0 < w -> ~ (lo + w * INR i < lo + w * INR j < lo + w * INR (S i)).
Proof.
  intros W [A B]. assert (INR i < INR j) by (apply (Rmult_lt_reg_l w); lra). assert (INR j < INR (S i)) by (apply (Rmult_lt_reg_l w); lra).
  apply INR_lt in H, H0. lia.
Qed.

(** positions without units of h *)
Lemma column_h c name use_all vs zh : dget (k_cols c) name = Some ((-1)%Z, vs) -> column c name use_all true = Ok zh ->
  column c name use_all false = Ok (map (fun v => v / k_h c) zh).
Proof.
  unfold column. intros -> E.
  destruct (if use_all then Ok vs else mapM (fun i => match nth_error vs i with Some v => Ok v | None => Raise IndexError end) (k_active c)) as [l|]; cbn [bind] in *; [|discriminate].
  injection E as <-. rewrite map_map. f_equal. apply map_ext. intros v. unfold Rdiv. rewrite Rmult_1_r. f_equal.
  change (powerRZ (k_h c) (-1)) with (/ (k_h c) ^ 1). rewrite pow_1. reflexivity.
Qed.
