(** Proofs about snapshot metadata (C37, C38). *)
From Verif Require Import Util RealUtil SnapModel SnapSpec.
From Coq Require Import Reals Sorted Permutation Lra.
Open Scope R_scope.

Lemma make_meta_eq C h l a : nth_error l 0 = Some a ->
  make_meta C h l =
    (let l := upd l 0 (set_upper a (c_z a) (age C (c_z a)) (cdist C (c_z a)) (tdist C (c_z a))) in
     match nth_error l (length l - 1) with
     | None => Raise IndexError
     | Some b =>
          let l := upd l (length l - 1) (set_lower b 0 (age C 0) 0 0) in
          do l <- links C (seq 0 (length l - 1)) l ;; mapM (to_meta h) l
     end).
Proof. destruct l; intros H; [discriminate|]. injection H as ->. reflexivity. Qed.

Section Meta.
Context (C : cosmo) (h : R) (l : list snapc).
Local Notation n := (length l).
Let c0 := new_snap 0 0.
Let sn (i : nat) := nth i l c0.
Let z (i : nat) := c_z (sn i).
Let tm (i : nat) := (age C (z i) + age C (z (S i))) / 2.
Let mid (i : nat) := z_at_age C (tm i).

Let hi (i : nat) := match i with O => z 0%nat | S j => mid j end.
Let ts (i : nat) := match i with O => age C (z 0%nat) | S j => tm j end.
Let lo (i : nat) := if (S i =? n)%nat then 0 else mid i.
Let te (i : nat) := if (S i =? n)%nat then age C 0 else tm i.
Let dlo (f : R -> R) (i : nat) := if (S i =? n)%nat then 0 else f (mid i).

(** after [k] passes of the loop *)
Let fin (k i : nat) : snapc :=
  let c := sn i in
  let c := if (i <=? k)%nat then set_upper c (hi i) (ts i) (cdist C (hi i)) (tdist C (hi i)) else c in
  if (i <? k)%nat || (S i =? n)%nat then set_lower c (lo i) (te i) (dlo (cdist C) i) (dlo (tdist C) i) else c.
Let stage (k : nat) : list snapc := map (fin k) (seq 0 n).

Lemma fin_z k i : c_z (fin k i) = z i.
Proof. unfold fin. destruct ((i <? k)%nat || _), (i <=? k)%nat; reflexivity. Qed.

Lemma stage_nth k i : (i < n)%nat -> nth_error (stage k) i = Some (fin k i).
Proof. intros H. unfold stage. rewrite nth_error_map_seq. rewrite (proj2 (Nat.ltb_lt i n) H). reflexivity. Qed.
Lemma stage_length k : length (stage k) = n.
Proof. unfold stage. rewrite map_length, seq_length. reflexivity. Qed.

Lemma link_stage k : (S k < n)%nat ->
  link C (stage k) k = if rltb (z k) (z (S k)) then Raise ValueError else Ok (stage (S k)).
Proof.
  intros H. unfold link. rewrite !stage_nth by lia. unfold dif_lowerz. rewrite !fin_z.
  destruct (rltb (z k) (z (S k))) eqn:Ez; [reflexivity|].
  unfold dif_snap. rewrite !fin_z. cbn [bind].
  unfold dif_higherz, dif_snap. cbn [c_z set_lower]. rewrite !fin_z, Ez. cbn [bind].
  f_equal. apply nth_error_ext. intros i.
  destruct (Nat.eq_dec (S k) i) as [<-|Ni].
  - rewrite nth_error_upd_eq by (rewrite upd_length, stage_length; lia). rewrite stage_nth by lia.
    f_equal. unfold fin.
    replace (S k <=? k)%nat with false by (symmetry; apply Nat.leb_gt; lia).
    replace (S k <? k)%nat with false by (symmetry; apply Nat.ltb_ge; lia).
    rewrite Nat.leb_refl, Nat.ltb_irrefl. cbn [orb].
    assert (E : (age C (z (S k)) + age C (z k)) / 2 = tm k) by (unfold tm; lra). rewrite E.
    destruct (S (S k) =? n)%nat; reflexivity.
  - rewrite nth_error_upd_ne by auto. destruct (Nat.eq_dec k i) as [<-|Nk].
    + rewrite nth_error_upd_eq by (rewrite stage_length; lia). rewrite stage_nth by lia. f_equal. unfold fin.
      replace (k <=? S k)%nat with true by (symmetry; apply Nat.leb_le; lia).
      replace (k <? S k)%nat with true by (symmetry; apply Nat.ltb_lt; lia).
      rewrite Nat.leb_refl, Nat.ltb_irrefl. cbn [orb].
      unfold lo, te, dlo. replace (S k =? n)%nat with false by (symmetry; apply Nat.eqb_neq; lia). reflexivity.
    + rewrite nth_error_upd_ne by auto. unfold stage. rewrite !nth_error_map_seq. destruct (Nat.ltb_spec i n); [|reflexivity]. f_equal.
      unfold fin. cbn [Nat.add].
      replace (i <=? S k)%nat with (i <=? k)%nat by (destruct (Nat.leb_spec i k), (Nat.leb_spec i (S k)); auto; lia).
      replace (i <? S k)%nat with (i <? k)%nat by (destruct (Nat.ltb_spec i k), (Nat.ltb_spec i (S k)); auto; lia).
      reflexivity.
Qed.

Lemma links_stage m : forall k, (k + m < n)%nat ->
  (forall i, (k <= i < k + m)%nat -> z (S i) <= z i) -> links C (seq k m) (stage k) = Ok (stage (k + m)).
Proof.
  induction m as [|m IH]; intros k H Hz; cbn [seq links].
  - rewrite Nat.add_0_r. reflexivity.
  - rewrite link_stage by lia. rewrite (proj2 (rltb_ge _ _)) by (apply Hz; lia). cbn [bind].
    rewrite IH; [f_equal; f_equal; lia|lia|]. intros i Hi. apply Hz. lia.
Qed.
Lemma links_bad m : forall k i, (k <= i < k + m)%nat -> (k + m < n)%nat -> z i < z (S i) ->
  links C (seq k m) (stage k) = Raise ValueError.
Proof.
  induction m as [|m IH]; intros k i Hi Hn Hz; [lia|]. cbn [seq links].
  rewrite link_stage by lia. destruct (rltb (z k) (z (S k))) eqn:E; [reflexivity|]. cbn [bind].
  apply (IH (S k) i); auto; try lia. destruct (Nat.eq_dec k i); [|lia]. subst. apply rltb_ge in E. lra.
Qed.

Let row (i : nat) : meta :=
  mkMeta (c_index (sn i)) (z i) (lo i) (hi i) (ts i) (te i) (dlo (cdist C) i * h) (cdist C (hi i) * h)
    (dlo (tdist C) i * h) (tdist C (hi i) * h).

Lemma to_meta_row i : (i < n)%nat -> to_meta h (fin (n - 1) i) = Ok (row i).
Proof.
  intros H. unfold fin. replace (i <=? n - 1)%nat with true by (symmetry; apply Nat.leb_le; lia).
  replace ((i <? n - 1)%nat || (S i =? n)%nat) with true.
  - reflexivity.
  - destruct (Nat.ltb_spec i (n - 1)); [reflexivity|]. symmetry. apply Nat.eqb_eq. lia.
Qed.

Lemma start_stage : (0 < n)%nat ->
  make_meta C h l = (do l <- links C (seq 0 (n - 1)) (stage 0) ;; mapM (to_meta h) l).
Proof.
  intros Hn.
  assert (NE : forall i, (i < n)%nat -> nth_error l i = Some (sn i)) by (intros i Hi; apply nth_error_nth'; auto).
  rewrite (make_meta_eq C h l (sn 0)) by auto. cbv zeta. fold (z 0). rewrite upd_length.
  set (a' := set_upper (sn 0) (z 0) (age C (z 0)) (cdist C (z 0)) (tdist C (z 0))).
  destruct (nth_error (upd l 0 a') (n - 1)) as [b|] eqn:Eb.
  2:{ apply nth_error_None in Eb. rewrite upd_length in Eb. lia. }
  rewrite !upd_length.
  replace (upd (upd l 0 a') (n - 1) (set_lower b 0 (age C 0) 0 0)) with (stage 0); [reflexivity|].
  apply nth_error_ext. intros i. destruct (Nat.lt_ge_cases i n) as [Hi|Hi].
  - rewrite stage_nth by auto. unfold fin. replace (i <? 0)%nat with false by reflexivity. cbn [orb].
    destruct (Nat.eq_dec (n - 1) i) as [Ei|Ni].
    + subst i. rewrite nth_error_upd_eq by (rewrite upd_length; auto). f_equal.
      unfold lo, te, dlo. replace (S (n - 1) =? n)%nat with true by (symmetry; apply Nat.eqb_eq; lia).
      destruct (Nat.eq_dec (n - 1) 0) as [Em|Em].
      * rewrite Em in *. rewrite nth_error_upd_eq in Eb by auto. injection Eb as <-.
        reflexivity.
      * rewrite nth_error_upd_ne in Eb by auto. rewrite NE in Eb by lia. injection Eb as <-.
        replace (n - 1 <=? 0)%nat with false by (symmetry; apply Nat.leb_gt; lia). reflexivity.
    + rewrite nth_error_upd_ne by auto.
      replace (S i =? n)%nat with false by (symmetry; apply Nat.eqb_neq; lia).
      destruct i as [|i].
      * rewrite nth_error_upd_eq by auto. reflexivity.
      * rewrite nth_error_upd_ne by auto. rewrite NE by auto. reflexivity.
  - rewrite (proj2 (nth_error_None _ _)) by (rewrite stage_length; auto).
    symmetry. apply nth_error_None. rewrite !upd_length. auto.
Qed.

Lemma mapM_rows : mapM (to_meta h) (stage (n - 1)) = Ok (map row (seq 0 n)).
Proof.
  unfold stage. assert (H : forall i, In i (seq 0 n) -> to_meta h (fin (n - 1) i) = Ok (row i)).
  { intros i Hi. apply in_seq in Hi. apply to_meta_row. lia. }
  induction (seq 0 n) as [|i s IH]; [reflexivity|]. cbn [map mapM]. rewrite H by (left; auto). cbn [bind].
  rewrite IH by (intros; apply H; right; auto). reflexivity.
Qed.

Lemma make_ok : (0 < n)%nat -> (forall i, (S i < n)%nat -> z (S i) <= z i) ->
  make_meta C h l = Ok (map row (seq 0 n)).
Proof.
  intros Hn Hz. rewrite start_stage by auto. rewrite links_stage; [|lia|].
  - cbn [bind Nat.add]. apply mapM_rows.
  - intros i Hi. apply Hz. lia.
Qed.
Lemma make_bad i : (S i < n)%nat -> z i < z (S i) -> make_meta C h l = Raise ValueError.
Proof.
  intros Hi Hz. rewrite start_stage by lia. rewrite (links_bad _ _ i); auto; lia.
Qed.

Context (HC : good_cosmo C) (Hd : descending_z l).

Lemma z_desc i j : (i < j < n)%nat -> z j < z i.
Proof.
  intros H. destruct Hd as [Hs _]. clear Hd. revert i j H. unfold z, sn.
  induction Hs as [|a r Hr IH Ha]; intros i j H; simpl in H; [lia|].
  destruct j as [|j]; [lia|]. destruct i as [|i]; simpl.
  - rewrite Forall_forall in Ha. apply Ha. apply nth_In. lia.
  - apply IH. lia.
Qed.
Lemma z_pos i : (i < n)%nat -> 0 <= z i.
Proof. intros H. destruct Hd as [_ Hp]. rewrite Forall_forall in Hp. apply Hp. apply nth_In. auto. Qed.

Lemma age_le a b : 0 <= a -> 0 <= b -> age C b <= age C a -> a <= b.
Proof.
  intros Ha Hb H. destruct (Rle_or_lt a b); auto. exfalso. assert (age C a < age C b) by (apply (g_age C HC); lra). lra.
Qed.
Lemma age_lt a b : 0 <= a -> 0 <= b -> age C b < age C a -> a < b.
Proof.
  intros Ha Hb H. destruct (Rlt_or_le a b) as [|H0]; auto. exfalso. destruct (Req_dec a b); [subst; lra|].
  assert (age C a < age C b) by (apply (g_age C HC); lra). lra.
Qed.
Lemma age_mono a b : 0 <= a <= b -> age C b <= age C a.
Proof. intros [Ha [H|H]]; [left; apply (g_age C HC); lra|subst; lra]. Qed.

Lemma mid_spec i : (S i < n)%nat -> z (S i) < mid i < z i /\ age C (mid i) = tm i.
Proof.
  intros Hi. pose proof (z_desc i (S i) ltac:(lia)) as Hlt. pose proof (z_pos (S i) Hi) as Hp.
  pose proof (z_pos i ltac:(lia)) as Hp'.
  assert (A : age C (z i) < age C (z (S i))) by (apply (g_age C HC); lra).
  assert (B : age C (z (S i)) <= age C 0) by (apply age_mono; lra).
  destruct (g_inv C HC (z i) (tm i)) as [I1 I2]; [lra|unfold tm; lra|]. fold (mid i) in *.
  split; auto. split; apply age_lt; auto; rewrite I2; unfold tm; lra.
Qed.

Lemma rows_tile : tiles C h (map row (seq 0 n)).
Proof.
  unfold tiles. rewrite map_length, seq_length. split; [|split; [|split]].
  - intros i m m'. rewrite !nth_error_map_seq. destruct (Nat.ltb_spec i n); [|discriminate].
    destruct (Nat.ltb_spec (S i) n); [|discriminate]. intros [= <-] [= <-]. cbn [Nat.add row m_zmin m_zmax m_tend m_tstart m_dmin m_dmax m_tdmin m_tdmax].
    unfold row, lo, te, dlo; cbn [m_zmin m_zmax m_tend m_tstart m_dmin m_dmax m_tdmin m_tdmax hi ts].
    replace (S i =? n)%nat with false by (symmetry; apply Nat.eqb_neq; lia). auto.
  - intros m. rewrite nth_error_map_seq. destruct (Nat.ltb_spec (n - 1) n); [|discriminate]. intros [= <-].
    unfold row, lo, te, dlo; cbn [m_zmin m_tend m_dmin m_tdmin Nat.add]. replace (S (n - 1) =? n)%nat with true by (symmetry; apply Nat.eqb_eq; lia).
    repeat split; try reflexivity; lra.
  - intros m. rewrite nth_error_map_seq. destruct (Nat.ltb_spec 0 n); [|discriminate]. intros [= <-]. reflexivity.
  - intros m Hm. apply in_map_iff in Hm. destruct Hm as (i & <- & Hi). apply in_seq in Hi.
    unfold row; cbn [m_zmin m_zmax m_z m_tend m_tstart m_dmin m_dmax m_tdmin m_tdmax].
    assert (U : z i <= hi i /\ ts i = age C (hi i)).
    { destruct i as [|j]; cbn [hi ts]; [split; [lra|reflexivity]|].
      destruct (mid_spec j ltac:(lia)) as [[A B] D]. split; [lra|auto]. }
    assert (L : lo i <= z i /\ te i = age C (lo i) /\ (forall f, f 0 = 0 -> dlo f i = f (lo i))).
    { unfold lo, te, dlo. destruct (Nat.eqb_spec (S i) n).
      - split; [apply z_pos; lia|]. split; auto.
      - destruct (mid_spec i ltac:(lia)) as [[A B] D]. split; [lra|]. split; auto. }
    destruct U as [U1 U2], L as (L1 & L2 & L3).
    rewrite (L3 _ (g_cd0 C HC)), (L3 _ (g_td0 C HC)). repeat split; auto.
Qed.
End Meta.

Lemma c38_tile C h l : good_cosmo C -> descending_z l -> l <> [] ->
  exists ms, make_meta C h l = Ok ms /\ map m_index ms = map c_index l /\ map m_z ms = map c_z l /\ tiles C h ms.
Proof.
  intros HC Hd Hl. assert (Hn : (0 < length l)%nat) by (destruct l; simpl; [tauto|lia]).
  eexists. split; [apply make_ok; auto|].
  - intros i Hi. apply Rlt_le. apply (z_desc C h l Hd). lia.
  - split; [|split].
    + rewrite map_map. cbn [m_index]. symmetry. apply (list_eq_nth 0%Z).
      * rewrite !map_length, seq_length. reflexivity.
      * rewrite map_length. intros i Hi. rewrite nth_map_seq by auto.
        rewrite (nth_indep _ 0%Z (c_index (new_snap 0 0))) by (rewrite map_length; auto). rewrite map_nth. reflexivity.
    + rewrite map_map. cbn [m_z]. symmetry. apply (list_eq_nth 0).
      * rewrite !map_length, seq_length. reflexivity.
      * rewrite map_length. intros i Hi. rewrite nth_map_seq by auto.
        rewrite (nth_indep _ 0 (c_z (new_snap 0 0))) by (rewrite map_length; auto). rewrite map_nth. reflexivity.
    + apply rows_tile; auto.
Qed.

Lemma c38_unsorted C h l i a b : nth_error l i = Some a -> nth_error l (S i) = Some b -> c_z a < c_z b ->
  make_meta C h l = Raise ValueError.
Proof.
  intros Ha Hb Hz. apply (make_bad C h l i).
  - eapply nth_error_Some_lt; eauto.
  - rewrite (nth_error_nth _ _ _ Ha), (nth_error_nth _ _ _ Hb). auto.
Qed.

(** * z_to_snap *)
Lemma pick_length {A} (l : list A) p : Forall (fun i => (i < length l)%nat) p -> length (pick l p) = length p.
Proof.
  induction 1 as [|i p Hi Hp IH]; [reflexivity|]. unfold pick in *. cbn [flat_map].
  destruct (nth_error_lt_Some l i Hi) as [x Hx]. rewrite Hx. cbn [app length]. auto.
Qed.
Lemma pick_nth {A} (l : list A) p k : Forall (fun i => (i < length l)%nat) p ->
  nth_error (pick l p) k = match nth_error p k with Some i => nth_error l i | None => None end.
Proof.
  intros H. revert k. induction H as [|i p Hi Hp IH]; intros k; [destruct k; reflexivity|].
  unfold pick in *. cbn [flat_map]. destruct (nth_error_lt_Some l i Hi) as [x Hx]. rewrite Hx. cbn [app].
  destruct k; cbn [nth_error]; auto.
Qed.
Lemma argsort_bound l p : is_argsort l p -> Forall (fun i => (i < length l)%nat) p.
Proof.
  intros [H _]. apply Forall_forall. intros i Hi. apply (Permutation_in _ H) in Hi. apply in_seq in Hi. lia.
Qed.
Lemma flat_map_perm {A B} (f : A -> list B) l m : Permutation l m -> Permutation (flat_map f l) (flat_map f m).
Proof. apply Permutation_flat_map. Qed.
Lemma pick_all {A} (l : list A) : pick l (seq 0 (length l)) = l.
Proof.
  apply nth_error_ext. intros k. rewrite pick_nth.
  - rewrite nth_error_seq. destruct (Nat.ltb_spec k (length l)); [reflexivity|]. symmetry. apply nth_error_None. auto.
  - apply Forall_forall. intros i Hi. apply in_seq in Hi. lia.
Qed.
Lemma pick_perm {A} (l : list A) p : Permutation p (seq 0 (length l)) -> Permutation (pick l p) l.
Proof. intros H. rewrite <- (pick_all l) at 2. apply Permutation_flat_map. auto. Qed.

(** a list sorted by strictly ascending redshift is what any argsort produces *)
Lemma sorted_unique {A} (f : A -> R) (s t : list A) : Permutation s t ->
  StronglySorted (fun a b => f a < f b) s -> StronglySorted (fun a b => f a <= f b) t -> s = t.
Proof.
  revert t. induction s as [|a s IH]; intros t P Hs Ht.
  - apply Permutation_nil in P. auto.
  - inversion Hs as [|? ? Hs1 Hs2]; subst. destruct t as [|b t]; [apply Permutation_sym, Permutation_nil in P; discriminate|].
    inversion Ht as [|? ? Ht1 Ht2]; subst. rewrite Forall_forall in Hs2, Ht2.
    assert (E : a = b).
    { assert (Ia : In a (b :: t)) by (apply (Permutation_in _ P); left; auto).
      assert (Ib : In b (a :: s)) by (apply (Permutation_in _ (Permutation_sym P)); left; auto).
      destruct Ia as [|Ia]; auto. destruct Ib as [|Ib]; auto.
      apply Ht2 in Ia. apply Hs2 in Ib. lra. }
    subst. f_equal. apply IH; auto. eapply Permutation_cons_inv; eauto.
Qed.

Lemma pick_sorted {A} (f : A -> R) (l : list A) p : is_argsort (map f l) p ->
  StronglySorted (fun a b => f a <= f b) (pick l p).
Proof.
  intros H. pose proof (argsort_bound _ _ H) as B. rewrite map_length in B. destruct H as [_ H].
  induction H as [|i p Hp IH Hi]; [constructor|]. inversion B as [|? ? B1 B2]; subst.
  unfold pick in *. cbn [flat_map]. destruct (nth_error_lt_Some l i B1) as [x Hx]. rewrite Hx. cbn [app].
  constructor; auto. apply Forall_forall. intros y Hy. apply in_flat_map in Hy. destruct Hy as (j & Hj & Hy).
  rewrite Forall_forall in Hi. specialize (Hi j Hj).
  destruct (nth_error l j) as [w|] eqn:Ew; [|destruct Hy]. destruct Hy as [<-|[]].
  rewrite (nth_error_nth (map f l) i 0 (x := f x)), (nth_error_nth (map f l) j 0 (x := f w)) in Hi; auto;
    rewrite nth_error_map; [rewrite Ew|rewrite Hx]; reflexivity.
Qed.

(** ** tables sorted by redshift whose shells join *)
Definition joined (s : list meta) : Prop :=
  (forall i m m', nth_error s i = Some m -> nth_error s (S i) = Some m' -> m_zmax m = m_zmin m') /\
  Forall (fun m => m_zmin m <= m_zmax m) s.

Lemma joined_tl m s : joined (m :: s) -> joined s.
Proof. intros [H1 H2]. inversion H2; subst. split; auto. intros i a b Ha Hb. apply (H1 (S i)); auto. Qed.

Definition bins_of (s : list meta) : list R :=
  match nth_error s (length s - 1) with Some l => map m_zmin s ++ [m_zmax l] | None => [] end.

Lemma bins_cons m m' s : bins_of (m :: m' :: s) = m_zmin m :: bins_of (m' :: s).
Proof.
  unfold bins_of. cbn [length Nat.sub nth_error]. rewrite Nat.sub_0_r.
  destruct (nth_error (m' :: s) (length s)) eqn:E; [reflexivity|]. apply nth_error_None in E. simpl in E. lia.
Qed.

Lemma bins_asc s : joined s -> ascending_ (bins_of s) = true /\
  forall m r, s = m :: r -> Forall (fun b => m_zmin m <= b) (bins_of s).
Proof.
  induction s as [|m s IH]; intros H; [split; [reflexivity|discriminate]|].
  destruct s as [|m' s].
  - cbn. destruct H as [_ H]. inversion H; subst. split.
    + rewrite (proj2 (rleb_le _ _)); auto.
    + intros ? ? [= <- _]. constructor; [lra|]. constructor; [lra|constructor].
  - rewrite bins_cons. destruct (IH (joined_tl _ _ H)) as [I1 I2]. specialize (I2 m' s eq_refl).
    assert (L : m_zmin m <= m_zmin m').
    { destruct H as [H1 H2]. inversion H2; subst. rewrite <- (H1 0%nat m m'); auto. }
    split.
    + destruct s as [|m2 s]; cbn [bins_of] in *.
      * change (rleb (m_zmin m) (m_zmin m') && ascending_ (bins_of [m']) = true). rewrite I1, (proj2 (rleb_le _ _)); auto.
      * rewrite bins_cons in I1 |- *. change (rleb (m_zmin m) (m_zmin m') && ascending_ (m_zmin m' :: bins_of (m2 :: s)) = true).
        rewrite I1, (proj2 (rleb_le _ _)); auto.
    + intros ? ? [= <- <-]. constructor; [lra|]. eapply Forall_impl; [|apply I2]. simpl. intros; lra.
Qed.

Lemma filter_Forall_true {A} (f : A -> bool) l : Forall (fun x => f x = true) l -> filter f l = l.
Proof. intros H. apply filter_all. apply Forall_forall. auto. Qed.

Lemma bins_len s : s <> [] -> length (bins_of s) = S (length s).
Proof.
  intros H. unfold bins_of. destruct (nth_error s (length s - 1)) eqn:E.
  - rewrite app_length, map_length. simpl. lia.
  - apply nth_error_None in E. destruct s; simpl in *; [tauto|lia].
Qed.

(** the count of bins at or below z *)
Lemma count_bins s : joined s -> forall k m z, nth_error s k = Some m -> m_zmin m <= z < m_zmax m ->
  length (filter (fun b => rleb b z) (bins_of s)) = S k.
Proof.
  induction s as [|a s IH]; intros H k m z Hk Hz; [destruct k; discriminate|].
  destruct s as [|b s].
  - destruct k; [|destruct k; discriminate]. injection Hk as ->. cbn.
    rewrite (proj2 (rleb_le _ _)) by lra. cbn. rewrite (proj2 (rleb_gt _ _)) by lra. reflexivity.
  - rewrite bins_cons. destruct (bins_asc _ H) as [_ F]. specialize (F a (b :: s) eq_refl). rewrite bins_cons in F.
    destruct (bins_asc _ (joined_tl _ _ H)) as [_ F2]. specialize (F2 b s eq_refl).
    cbn [filter]. destruct k as [|k].
    + injection Hk as ->. rewrite (proj2 (rleb_le _ _)) by lra. cbn [length]. f_equal.
      rewrite filter_none; [reflexivity|]. intros x Hx. apply rleb_gt. rewrite Forall_forall in F2. apply F2 in Hx.
      destruct H as [H1 _]. rewrite (H1 0%nat m b) in Hz; auto. lra.
    + cbn [nth_error] in Hk. specialize (IH (joined_tl _ _ H) k m z Hk Hz).
      assert (L : m_zmin a <= z).
      { apply Rle_trans with (m_zmin m); [|lra].
        rewrite Forall_forall in F. apply F. right. unfold bins_of.
        destruct (nth_error (b :: s) (length (b :: s) - 1)) eqn:E.
        - apply in_or_app. left. apply in_map. eapply nth_error_In; eauto.
        - apply nth_error_None in E. simpl in E. lia. }
      rewrite (proj2 (rleb_le _ _)) by auto. cbn [length]. auto.
Qed.

Lemma fold_max_ge l : forall a, a <= fold_left Rmax l a /\ (forall x, In x l -> x <= fold_left Rmax l a).
Proof.
  induction l as [|b l IH]; intros a; cbn [fold_left]; [split; [lra|intros x []]|].
  destruct (IH (Rmax a b)) as [A B]. pose proof (Rmax_l a b). pose proof (Rmax_r a b). split; [lra|].
  intros x [<-|Hx]; [lra|auto].
Qed.
Lemma fold_max_in l : forall a, In (fold_left Rmax l a) (a :: l).
Proof.
  induction l as [|b l IH]; intros a; cbn [fold_left]; [left; auto|].
  destruct (IH (Rmax a b)) as [<-|H]; [|right; right; auto]. unfold Rmax. destruct (Rle_dec a b); [right; left|left]; auto.
Qed.
Lemma rmax_ge l x : In x l -> x <= rmax l.
Proof. destruct l as [|a l]; [intros []|]. destruct (fold_max_ge l a) as [A B]. intros [<-|H]; simpl; auto. Qed.
Lemma rmax_in l : l <> [] -> In (rmax l) l.
Proof. destruct l as [|a l]; [tauto|]. intros _. apply fold_max_in. Qed.

Lemma rmax_bins s l : joined s -> nth_error s (length s - 1) = Some l -> rmax (bins_of s) = m_zmax l.
Proof.
  intros H Hl. assert (Hin : In (m_zmax l) (bins_of s)) by (unfold bins_of; rewrite Hl; apply in_or_app; right; left; auto).
  assert (B : forall x, In x (bins_of s) -> x <= m_zmax l).
  { revert l Hl Hin. induction s as [|a s IH]; intros l Hl Hin x Hx; [discriminate|].
    destruct s as [|b s].
    - injection Hl as ->. cbn in Hx. destruct H as [_ H]. inversion H; subst. destruct Hx as [<-|[<-|[]]]; lra.
    - cbn [length Nat.sub nth_error] in Hl. rewrite bins_cons in Hx.
      assert (Hl' : nth_error (b :: s) (length (b :: s) - 1) = Some l) by (cbn [length Nat.sub]; rewrite Nat.sub_0_r; exact Hl).
      assert (Hin' : In (m_zmax l) (bins_of (b :: s))) by (unfold bins_of; rewrite Hl'; apply in_or_app; right; left; auto).
      destruct Hx as [<-|Hx]; [|eapply IH; eauto using joined_tl].
      apply Rle_trans with (m_zmin b).
      + destruct H as [H1 H2]. inversion H2; subst. rewrite <- (H1 0%nat a b); auto.
      + destruct (bins_asc _ (joined_tl _ _ H)) as [_ F]. specialize (F b s eq_refl). rewrite Forall_forall in F. auto. }
  apply Rle_antisym; [apply B, rmax_in; intros E; rewrite E in Hin; destruct Hin|apply rmax_ge; auto].
Qed.

Definition zh_of (s : list meta) : zhandler := mkZH (bins_of s) (map m_index s).

Lemma open_eq asort ms : ms <> [] -> argsorts asort -> exists s,
  open_zhandler asort ms = Ok (zh_of s) /\ Permutation s ms /\ StronglySorted (fun a b => m_z a <= m_z b) s.
Proof.
  intros Hne HA. exists (pick ms (asort (map m_z ms))). specialize (HA (map m_z ms)).
  assert (P : Permutation (pick ms (asort (map m_z ms))) ms).
  { apply pick_perm. destruct HA as [HA _]. rewrite map_length in HA. auto. }
  split; [|split; auto].
  - unfold open_zhandler, zh_of, bins_of.
    destruct (nth_error (pick ms (asort (map m_z ms))) (length (pick ms (asort (map m_z ms))) - 1)) eqn:E; [reflexivity|].
    apply nth_error_None in E. apply Permutation_length in P. destruct ms; simpl in *; [tauto|lia].
  - apply pick_sorted. auto.
Qed.

Lemma z_to_snap_in s z k m : joined s -> nth_error s k = Some m -> 0 <= z -> m_zmin m <= z < m_zmax m ->
  z_to_snap (zh_of s) z = Ok (m_index m).
Proof.
  intros H Hk Hz Hm. unfold z_to_snap, zh_of. cbn [zh_bins zh_snaps].
  destruct (nth_error s (length s - 1)) as [l|] eqn:El.
  2:{ apply nth_error_None in El. apply nth_error_Some_lt in Hk. lia. }
  rewrite (rmax_bins s l H El).
  assert (Hl : z <= m_zmax l).
  { rewrite <- (rmax_bins s l H El). apply Rle_trans with (m_zmax m); [lra|]. apply rmax_ge.
    unfold bins_of. rewrite El. apply in_or_app.
    destruct (nth_error s (S k)) as [m'|] eqn:E'.
    - left. destruct H as [H1 _]. rewrite (H1 k m m'); auto. apply in_map. eapply nth_error_In; eauto.
    - right. left. apply nth_error_None in E'. apply nth_error_Some_lt in Hk as Hk'.
      replace (length s - 1)%nat with k in El by lia. congruence. }
  rewrite (proj2 (rltb_ge _ _)) by auto. rewrite (proj2 (rltb_ge _ _)) by auto. cbn [orb].
  unfold digitize. rewrite (proj1 (bins_asc s H)). cbn [bind]. rewrite (count_bins s H k m z); auto.
  rewrite nth_error_map, Hk. reflexivity.
Qed.

Lemma z_to_snap_out s z l : joined s -> nth_error s (length s - 1) = Some l ->
  (z < 0 \/ m_zmax l < z -> z_to_snap (zh_of s) z = Raise ValueError) /\
  (0 <= z -> z = m_zmax l -> z_to_snap (zh_of s) z = Raise IndexError) /\
  (forall f, nth_error s 0 = Some f -> 0 <= z < m_zmin f -> z_to_snap (zh_of s) z = Ok (m_index l)).
Proof.
  intros H El. unfold z_to_snap, zh_of. cbn [zh_bins zh_snaps]. rewrite (rmax_bins s l H El).
  assert (Hs : s <> []) by (intros ->; discriminate).
  assert (MX : forall x, In x (bins_of s) -> x <= m_zmax l) by (intros x Hx; rewrite <- (rmax_bins s l H El); apply rmax_ge; auto).
  split; [|split].
  - intros [Hz|Hz].
    + rewrite (proj2 (rltb_lt z 0)) by auto. rewrite orb_true_r. reflexivity.
    + rewrite (proj2 (rltb_lt _ _)) by auto. reflexivity.
  - intros Hz ->. rewrite !(proj2 (rltb_ge _ _)) by lra. cbn [orb]. unfold digitize.
    rewrite (proj1 (bins_asc s H)). cbn [bind]. rewrite filter_all.
    + rewrite bins_len by auto. rewrite (proj2 (nth_error_None _ _)); auto. rewrite map_length. auto.
    + intros x Hx. apply rleb_le. auto.
  - intros f Hf Hz. destruct s as [|a s]; [discriminate|]. injection Hf as ->.
    destruct (bins_asc _ H) as [A F]. specialize (F f s eq_refl). rewrite Forall_forall in F.
    assert (m_zmin f <= m_zmax l). { apply F. unfold bins_of. rewrite El. apply in_or_app; right; left; auto. }
    rewrite !(proj2 (rltb_ge _ _)) by lra. cbn [orb]. unfold digitize. rewrite A. cbn [bind].
    rewrite filter_none. 2:{ intros x Hx. apply rleb_gt. apply F in Hx. lra. }
    cbn [length]. rewrite map_length, nth_error_map, El. reflexivity.
Qed.

Lemma SS_nth {A} (P : A -> A -> Prop) l : StronglySorted P l -> forall i j a b, (i < j)%nat ->
  nth_error l i = Some a -> nth_error l j = Some b -> P a b.
Proof.
  induction 1 as [|c l Hl IH Hc]; intros i j a b H Ha Hb; [destruct i; discriminate|].
  destruct j as [|j]; [lia|]. destruct i as [|i]; cbn in *.
  - injection Ha as ->. rewrite Forall_forall in Hc. apply Hc. eapply nth_error_In; eauto.
  - eapply (IH i j); eauto. lia.
Qed.
Lemma nth_SS {A} (P : A -> A -> Prop) l : (forall i j a b, (i < j)%nat ->
  nth_error l i = Some a -> nth_error l j = Some b -> P a b) -> StronglySorted P l.
Proof.
  induction l as [|c l IH]; intros H; constructor.
  - apply IH. intros i j a b Hij Ha Hb. apply (H (S i) (S j)); auto. lia.
  - apply Forall_forall. intros b Hb. apply In_nth_error in Hb as [j Hj]. apply (H 0%nat (S j)); auto. lia.
Qed.
Lemma nth_error_rev {A} (l : list A) i : (i < length l)%nat -> nth_error (rev l) i = nth_error l (length l - 1 - i).
Proof.
  intros H. destruct l as [|d l]; [cbn in H; lia|].
  rewrite (nth_error_nth' (rev (d :: l)) d) by (rewrite rev_length; auto).
  rewrite (nth_error_nth' (d :: l) d) by lia. f_equal. rewrite rev_nth by auto. f_equal. lia.
Qed.
Lemma SS_rev {A} (P : A -> A -> Prop) l : StronglySorted P l -> StronglySorted (fun a b => P b a) (rev l).
Proof.
  intros H. apply nth_SS. intros i j a b Hij Ha Hb.
  apply nth_error_Some_lt in Ha as La. apply nth_error_Some_lt in Hb as Lb. rewrite rev_length in La, Lb.
  rewrite nth_error_rev in Ha, Hb by auto. eapply (SS_nth P l H); [|exact Hb|exact Ha]. lia.
Qed.
Lemma SS_map {A B} (f : A -> B) (P : B -> B -> Prop) l :
  StronglySorted P (map f l) <-> StronglySorted (fun a b => P (f a) (f b)) l.
Proof.
  induction l as [|a l IH]; cbn; [split; constructor|].
  split; intros H; inversion H as [|? ? H1 H2]; subst; constructor; try apply IH; auto.
  - rewrite Forall_map in H2. auto.
  - rewrite Forall_map. auto.
Qed.
Lemma SS_impl {A} (P Q : A -> A -> Prop) l : (forall a b, P a b -> Q a b) -> StronglySorted P l -> StronglySorted Q l.
Proof. intros H. induction 1; constructor; auto. eapply Forall_impl; [|eauto]. auto. Qed.

(** ** the handler opened on a generated table *)
Lemma open_rev C h asort ms : ms <> [] -> argsorts asort -> tiles C h ms ->
  StronglySorted (fun a b => m_z b < m_z a) ms ->
  open_zhandler asort ms = Ok (zh_of (rev ms)) /\ joined (rev ms).
Proof.
  intros Hne HA (T1 & T2 & T3 & T4) HS. destruct (open_eq asort ms Hne HA) as (s & E & P & Ss).
  apply SS_rev in HS. split.
  - rewrite E. do 2 f_equal. symmetry. apply (sorted_unique m_z); auto.
    apply Permutation_sym. apply (Permutation_trans P), Permutation_rev.
  - split.
    + intros i m m' Hm Hm'. apply nth_error_Some_lt in Hm as L. apply nth_error_Some_lt in Hm' as L'.
      rewrite rev_length in L, L'. rewrite nth_error_rev in Hm, Hm' by auto.
      symmetry. apply (T1 (length ms - 1 - S i)%nat); auto. rewrite <- Hm. f_equal. lia.
    + apply Forall_forall. intros m Hm. apply in_rev in Hm. destruct (T4 m Hm) as [L _]. lra.
Qed.

Lemma find_shell s : joined s -> forall f l z, nth_error s 0 = Some f -> nth_error s (length s - 1) = Some l ->
  m_zmin f <= z < m_zmax l -> exists k m, nth_error s k = Some m /\ m_zmin m <= z < m_zmax m.
Proof.
  induction s as [|a s IH]; intros H f l z Hf Hl Hz; [discriminate|]. injection Hf as ->.
  destruct (Rlt_or_le z (m_zmax f)) as [L|L]; [exists 0%nat, f; split; [reflexivity|lra]|].
  destruct s as [|b s]; [injection Hl as ->; lra|].
  destruct (IH (joined_tl _ _ H) b l z) as (k & m & Hk & Hm); auto.
  - cbn [length Nat.sub nth_error] in *. rewrite Nat.sub_0_r. auto.
  - destruct H as [H1 _]. rewrite <- (H1 0%nat f b); auto. lra.
  - exists (S k), m. auto.
Qed.
Lemma shell_unique s : joined s -> forall i j m m' z, nth_error s i = Some m -> nth_error s j = Some m' ->
  m_zmin m <= z < m_zmax m -> m_zmin m' <= z < m_zmax m' -> i = j.
Proof.
  intros H i j m m' z Hi Hj Hm Hm'. pose proof (count_bins s H i m z Hi Hm). pose proof (count_bins s H j m' z Hj Hm').
  congruence.
Qed.

Lemma last_rev {A} (l : list A) a : nth_error l 0 = Some a -> nth_error (rev l) (length (rev l) - 1) = Some a.
Proof.
  intros H. apply nth_error_Some_lt in H as L. rewrite rev_length, nth_error_rev by lia. rewrite <- H. f_equal. lia.
Qed.
Lemma first_rev {A} (l : list A) a : nth_error l (length l - 1) = Some a -> nth_error (rev l) 0 = Some a.
Proof.
  intros H. apply nth_error_Some_lt in H as L. rewrite nth_error_rev by lia. rewrite <- H. f_equal. lia.
Qed.

Lemma make_nonempty C h l ms : make_meta C h l = Ok ms -> ms <> [] -> l <> [].
Proof. destruct l; [discriminate|]. intros _ _. discriminate. Qed.

Lemma c37_find C h l asort : good_cosmo C -> descending_z l -> l <> [] -> argsorts asort ->
  exists ms H m0, make_meta C h l = Ok ms /\ open_zhandler asort ms = Ok H /\ hd_error ms = Some m0 /\
    (forall z, 0 <= z < m_z m0 ->
       exists m, In m ms /\ m_zmin m <= z < m_zmax m /\ z_to_snap H z = Ok (m_index m) /\
         forall m', In m' ms -> m_zmin m' <= z < m_zmax m' -> m' = m) /\
    (forall z, z < 0 \/ m_z m0 < z -> z_to_snap H z = Raise ValueError) /\
    (z_to_snap H (m_z m0) = Raise IndexError).
Proof.
  intros HC Hd Hl HA. destruct (c38_tile C h l HC Hd Hl) as (ms & Em & Ei & Ez & T).
  assert (Hne : ms <> []). { intros ->. destruct l; [tauto|discriminate]. }
  assert (HS : StronglySorted (fun a b => m_z b < m_z a) ms).
  { apply (SS_map m_z (fun a b => b < a)). rewrite Ez. apply SS_map. apply Hd. }
  destruct (open_rev C h asort ms Hne HA T HS) as [Eo J].
  destruct ms as [|m0 r] eqn:Ems; [tauto|]. rewrite <- Ems in *. clear Hne.
  assert (H0 : nth_error ms 0 = Some m0) by (rewrite Ems; reflexivity).
  assert (exists l0, nth_error ms (length ms - 1) = Some l0) as [l0 Hl0].
  { apply nth_error_lt_Some. apply nth_error_Some_lt in H0. lia. }
  pose proof (last_rev ms m0 H0) as HL. pose proof (first_rev ms l0 Hl0) as HF.
  destruct T as (T1 & T2 & T3 & T4). destruct (T2 l0 Hl0) as (Z0 & _). specialize (T3 m0 H0).
  exists ms, (zh_of (rev ms)), m0. split; [auto|]. split; [auto|]. split; [rewrite Ems; reflexivity|].
  assert (P0 : 0 <= m_z m0).
  { destruct Hd as [_ Hp]. assert (In (m_z m0) (map c_z l)).
    { rewrite <- Ez. apply in_map. eapply nth_error_In; eauto. }
    apply in_map_iff in H as (c & <- & Hc). rewrite Forall_forall in Hp. auto. }
  split; [|split].
  - intros z Hz. destruct (find_shell (rev ms) J l0 m0 z HF HL ltac:(rewrite Z0, T3; auto)) as (k & m & Hk & Hm).
    exists m. split; [apply in_rev; eapply nth_error_In; eauto|]. split; [auto|]. split.
    + apply (z_to_snap_in (rev ms) z k m); auto. lra.
    + intros m' Hm' Hz'. apply in_rev in Hm'. apply In_nth_error in Hm' as [j Hj].
      assert (j = k) by (eapply (shell_unique (rev ms) J); eauto). subst j. congruence.
  - intros z Hz. apply (z_to_snap_out (rev ms) z m0 J HL). rewrite T3. auto.
  - apply (z_to_snap_out (rev ms) (m_z m0) m0 J HL); auto.
Qed.

(** ** which snapshots are used *)
Lemma sorted_pick_id {A} (f : A -> R) l p : StronglySorted (fun a b => f a < f b) l -> is_argsort (map f l) p -> p = seq 0 (length l).
Proof.
  intros HS [P S]. rewrite map_length in P. symmetry. apply (sorted_unique (fun i => nth i (map f l) 0)); auto.
  - apply Permutation_sym. auto.
  - apply nth_SS. intros i j a b Hij Ha Hb. rewrite nth_error_seq in Ha, Hb.
    destruct (Nat.ltb_spec i (length l)); [|discriminate]. destruct (Nat.ltb_spec j (length l)); [|discriminate].
    injection Ha as <-. injection Hb as <-. cbn [Nat.add].
    destruct (nth_error_lt_Some l i) as [x Hx]; [lia|]. destruct (nth_error_lt_Some l j) as [y Hy]; [lia|].
    rewrite (nth_error_nth (map f l) i 0 (x := f x)), (nth_error_nth (map f l) j 0 (x := f y));
      try (rewrite nth_error_map; [rewrite Hx || rewrite Hy]; reflexivity).
    eapply (SS_nth _ l HS i j); eauto.
Qed.

Lemma illustris_ok asort raw snaps : argsorts asort -> StronglySorted (fun a b => (fst a < fst b)%Z) raw ->
  illustris_classes asort raw snaps = map (fun nz => new_snap (fst nz) (snd nz)) (filter (fun nz => zmem (fst nz) snaps) raw).
Proof.
  intros HA HS. unfold illustris_classes.
  rewrite (sorted_pick_id (fun nz => IZR (fst nz)) raw (asort (map (fun nz => IZR (fst nz)) raw))).
  2:{ eapply SS_impl; [|exact HS]. intros a b. apply IZR_lt. }
  2:{ apply HA. }
  pose proof (pick_all (map (fun nz : Z * R => new_snap (fst nz) (snd nz)) raw)) as PA.
  rewrite map_length in PA. cbv zeta. rewrite PA. clear HS PA.
  induction raw as [|a raw IH] using rev_ind; [reflexivity|].
  rewrite app_length, seq_app, flat_map_app. cbn [length seq Nat.add flat_map].
  rewrite filter_app, !map_app. f_equal.
  - rewrite <- IH. rewrite !flat_map_concat_map. f_equal. apply map_ext_in. intros i Hi. apply in_seq in Hi.
    rewrite nth_error_app1 by lia. rewrite nth_error_app1 by (rewrite map_length; lia). reflexivity.
  - rewrite nth_error_app2, Nat.sub_diag by lia. rewrite nth_error_app2 by (rewrite map_length; lia).
    rewrite map_length, Nat.sub_diag. cbn. destruct (zmem (fst a) snaps); reflexivity.
Qed.

Lemma descending_filter (f : Z * R -> bool) raw :
  StronglySorted (fun a b => snd b < snd a) raw -> Forall (fun a => 0 <= snd a) raw ->
  descending_z (map (fun nz => new_snap (fst nz) (snd nz)) (filter f raw)).
Proof.
  intros HS HP. split.
  - apply SS_map. cbn. induction HS as [|a l Hl IH Ha]; [constructor|]. inversion HP; subst. cbn.
    destruct (f a); auto. constructor; auto. apply Forall_forall. intros b Hb. apply filter_In in Hb as [Hb _].
    rewrite Forall_forall in Ha. auto.
  - rewrite Forall_map. cbn. apply Forall_forall. intros b Hb. apply filter_In in Hb as [Hb _].
    rewrite Forall_forall in HP. auto.
Qed.

Lemma combine_seq_nth {A} (l : list A) : forall a i x, nth_error (combine (seq a (length l)) l) i = Some x <->
  exists y, nth_error l i = Some y /\ x = ((a + i)%nat, y).
Proof.
  induction l as [|b l IH]; intros a i x; cbn.
  - destruct i; cbn; split; try discriminate; intros (y & H & _); discriminate.
  - destruct i; cbn.
    + split; [intros [= <-]; exists b; rewrite Nat.add_0_r; auto|]. intros (y & [= <-] & ->). rewrite Nat.add_0_r. auto.
    + rewrite IH. split; intros (y & H & ->); exists y; split; auto; f_equal; lia.
Qed.

Lemma Permutation_filter {A} (f : A -> bool) l m : Permutation l m -> Permutation (filter f l) (filter f m).
Proof.
  induction 1; cbn; auto.
  - destruct (f x); auto.
  - destruct (f x), (f y); auto. apply perm_swap.
  - eapply perm_trans; eauto.
Qed.

Lemma numbered_ok asort zs snaps : argsorts asort -> Forall (fun z => 0 <= z) zs -> NoDup zs ->
  descending_z (numbered_classes asort zs snaps) /\
  (forall i, (forall c, In c (numbered_classes asort zs snaps) -> c_index c = i ->
                In (c_z c) zs /\ Z.of_nat (length (filter (fun z => rltb (c_z c) z) zs)) = i /\ zmem i snaps = true)) /\
  (forall z, In z zs -> zmem (Z.of_nat (length (filter (fun w => rltb z w) zs))) snaps = true ->
     In (new_snap (Z.of_nat (length (filter (fun w => rltb z w) zs))) z) (numbered_classes asort zs snaps)).
Proof.
  intros HA HP HN. unfold numbered_classes. set (p := asort (map Ropp zs)).
  assert (A0 : is_argsort (map Ropp zs) p) by apply HA.
  assert (Pm : Permutation (pick zs p) zs). { apply pick_perm. destruct A0 as [A0 _]. rewrite map_length in A0. auto. }
  assert (S0 : StronglySorted (fun a b => b < a) (pick zs p)).
  { pose proof (pick_sorted Ropp zs p A0) as S1. assert (N1 : NoDup (pick zs p)) by (eapply Permutation_NoDup; [apply Permutation_sym; exact Pm|auto]).
    clear - S1 N1. induction S1 as [|a l Hl IH Ha]; [constructor|]. inversion N1; subst. constructor; auto.
    apply Forall_forall. intros b Hb. rewrite Forall_forall in Ha. pose proof (Ha b Hb). assert (a <> b) by (intros ->; auto). lra. }
  set (q := pick zs p) in *. clearbody q. clear A0 p.
  assert (Hnth : forall i c, nth_error (map (fun iz : nat * R => new_snap (Z.of_nat (fst iz)) (snd iz)) (combine (seq 0 (length q)) q)) i = Some c <->
    exists z, nth_error q i = Some z /\ c = new_snap (Z.of_nat i) z).
  { intros i c. rewrite nth_error_map. destruct (nth_error (combine _ q) i) as [x|] eqn:E; cbn.
    - apply combine_seq_nth in E as (y & Hy & ->). cbn. split; [intros [= <-]; eauto|]. intros (z & Hz & ->). do 2 f_equal. congruence.
    - split; [discriminate|]. intros (z & Hz & _). assert (nth_error (combine (seq 0 (length q)) q) i = Some (i, z)) by (apply combine_seq_nth; eauto). congruence. }
  set (cs := map _ (combine (seq 0 (length q)) q)) in *. clearbody cs.
  assert (cnt : forall i z, nth_error q i = Some z -> length (filter (fun w => rltb z w) zs) = i).
  { intros i z Hi. rewrite <- (Permutation_length (Permutation_filter _ _ _ Pm)). clear - S0 Hi. revert i Hi.
    induction S0 as [|a l Hl IH Ha]; intros i Hi; [destruct i; discriminate|]. rewrite Forall_forall in Ha.
    destruct i as [|i]; cbn in *.
    - injection Hi as ->. rewrite (proj2 (rltb_ge z z)) by lra. rewrite filter_none; auto.
      intros b Hb. apply rltb_ge. apply Ha in Hb. lra.
    - rewrite (proj2 (rltb_lt z a)) by (apply Ha; eapply nth_error_In; eauto). cbn. f_equal. auto. }
  split; [split|split].
  - assert (SC : StronglySorted (fun a b => c_z b < c_z a) cs).
    { apply nth_SS. intros i j a b Hij Ha Hb. apply Hnth in Ha as (za & Ha & ->). apply Hnth in Hb as (zb & Hb & ->).
      cbn. eapply (SS_nth _ q S0 i j); eauto. }
    clear - SC. induction SC as [|a l Hl IH Ha]; [constructor|]. cbn. destruct (zmem _ _); auto. constructor; auto.
    apply Forall_forall. intros b Hb. apply filter_In in Hb as [Hb _]. rewrite Forall_forall in Ha. auto.
  - apply Forall_forall. intros c Hc. apply filter_In in Hc as [Hc _]. apply In_nth_error in Hc as [i Hi].
    apply Hnth in Hi as (z & Hz & ->). cbn. rewrite Forall_forall in HP. apply HP. apply (Permutation_in _ Pm). eapply nth_error_In; eauto.
  - intros i c Hc Ec. apply filter_In in Hc as [Hc Hm]. apply In_nth_error in Hc as [k Hk]. apply Hnth in Hk as (z & Hz & ->). cbn in *.
    split; [apply (Permutation_in _ Pm); eapply nth_error_In; eauto|]. rewrite (cnt k z Hz). subst i. auto.
  - intros z Hz Hm. apply (Permutation_in _ (Permutation_sym Pm)) in Hz. apply In_nth_error in Hz as [k Hk].
    rewrite (cnt k z Hk) in *. apply filter_In. split; auto. eapply nth_error_In. apply Hnth. eauto.
Qed.

Lemma pairs_eq {A B X} (f : X -> A) (g : X -> B) : forall (l : list X) (r : list (A * B)),
  map f l = map fst r -> map g l = map snd r -> map (fun x => (f x, g x)) l = r.
Proof.
  induction l as [|x l IH]; intros [|[a b] r] H1 H2; try discriminate; [reflexivity|].
  cbn in *. injection H1 as H1 H1'. injection H2 as H2 H2'. rewrite IH with (r := r); auto. congruence.
Qed.

Lemma c38_illustris C h asort raw snaps : good_cosmo C -> argsorts asort ->
  StronglySorted (fun a b => (fst a < fst b)%Z) raw -> StronglySorted (fun a b => snd b < snd a) raw ->
  Forall (fun a => 0 <= snd a) raw -> filter (fun nz => zmem (fst nz) snaps) raw <> [] ->
  exists ms, make_meta C h (illustris_classes asort raw snaps) = Ok ms /\ tiles C h ms /\
    map (fun m => (m_index m, m_z m)) ms = filter (fun nz => zmem (fst nz) snaps) raw.
Proof.
  intros HC HA H1 H2 H3 H4. rewrite (illustris_ok asort raw snaps HA H1).
  destruct (c38_tile C h _ HC (descending_filter (fun nz => zmem (fst nz) snaps) raw H2 H3)) as (ms & E & Ei & Ez & T).
  - intros E. apply H4. destruct (filter _ raw); [reflexivity|discriminate].
  - exists ms. split; [exact E|]. split; [exact T|]. rewrite !map_map in *. apply pairs_eq; [exact Ei|exact Ez].
Qed.

Lemma c38_numbered C h asort zs snaps : good_cosmo C -> argsorts asort -> Forall (fun z => 0 <= z) zs -> NoDup zs ->
  (exists z, In z zs /\ zmem (Z.of_nat (length (filter (fun w => rltb z w) zs))) snaps = true) ->
  exists ms, make_meta C h (numbered_classes asort zs snaps) = Ok ms /\ tiles C h ms /\
    (forall i z, In (i, z) (map (fun m => (m_index m, m_z m)) ms) <->
       In z zs /\ i = Z.of_nat (length (filter (fun w => rltb z w) zs)) /\ In i snaps).
Proof.
  intros HC HA HP HN (z0 & Hz0 & Hm0). destruct (numbered_ok asort zs snaps HA HP HN) as (HD & HF & HB).
  destruct (c38_tile C h _ HC HD) as (ms & E & Ei & Ez & T).
  - intros E. specialize (HB z0 Hz0 Hm0). rewrite E in HB. destruct HB.
  - assert (Emem : forall i, zmem i snaps = true <-> In i snaps).
    { intros i. unfold zmem. rewrite existsb_exists. split; [intros (x & Hx & Q); apply Z.eqb_eq in Q; subst; auto|].
      intros Hi. exists i. rewrite Z.eqb_refl. auto. }
    exists ms. split; [exact E|]. split; [exact T|].
    rewrite (pairs_eq m_index m_z ms (map (fun c => (c_index c, c_z c)) (numbered_classes asort zs snaps))) by (rewrite map_map; auto).
    intros i z. rewrite in_map_iff. split.
    + intros (c & [= <- <-] & Hc). destruct (HF (c_index c) c Hc eq_refl) as (A & B & D). rewrite <- Emem. auto.
    + intros (Hz & -> & Hi). rewrite <- Emem in Hi. eexists. split; [|apply HB; eauto]. reflexivity.
Qed.

(** a toy cosmology for examples *)
Definition toy : cosmo := mkCosmo (fun z => / (1 + z)) (fun t => / t - 1) (fun z => z) (fun z => z).
Lemma toy_good : good_cosmo toy.
Proof.
  split; cbn; intros; try lra.
  - apply Rinv_lt_contravar; [|lra]. apply Rmult_lt_0_compat; lra.
  - replace (1 + 0) with 1 in * by lra. rewrite Rinv_1 in *.
    assert (0 < / (1 + z)) by (apply Rinv_0_lt_compat; lra).
    assert (0 < t) by lra. split.
    + assert (1 <= / t); [|lra]. rewrite <- Rinv_1. apply Rinv_le_contravar; lra.
    + replace (1 + (/ t - 1)) with (/ t) by lra. apply Rinv_inv.
Qed.

Lemma order_unique asort : argsorts asort -> forall l p, Permutation p (seq 0 (length l)) ->
  StronglySorted (fun i j => nth i l 0 < nth j l 0) p -> asort l = p.
Proof.
  intros HA l p Hp Hs. destruct (HA l) as [P S]. symmetry. apply (sorted_unique (fun i => nth i l 0)); auto.
  apply (Permutation_trans Hp). apply Permutation_sym. auto.
Qed.
