(** Sampling: proofs (C53). *)
From Verif Require Import Dict Util Rat Val Arr GridModel GridModel2 GridSpec GridSpec2 GridAdd GridCat InstModel InstSpec Inst Inst2 Inst3 Inst4 Inst5.
Open Scope string_scope.
Open Scope list_scope.
Open Scope Qc_scope.

Lemma insert_in x l y : In y (insert_nat x l) <-> y = x \/ In y l.
Proof. induction l as [|a l IH]; cbn; [intuition|]. destruct (x <=? a)%nat; cbn; intuition congruence. Qed.
Lemma sort_in l y : In y (sort_nat l) <-> In y l.
Proof. induction l as [|a l IH]; cbn; [tauto|]. rewrite insert_in, IH. intuition congruence. Qed.
Lemma insert_nodup x l : ~ In x l -> NoDup l -> NoDup (insert_nat x l).
Proof.
  induction l as [|a l IH]; cbn; intros H N; [constructor; auto|]. inversion N; subst. destruct (x <=? a)%nat; [constructor; auto|]. constructor; [|apply IH; auto].
  rewrite insert_in. intros [->|Hi]; auto.
Qed.
Lemma sort_nodup l : NoDup l -> NoDup (sort_nat l).
Proof. induction 1; cbn; [constructor|]. apply insert_nodup; auto. rewrite sort_in. auto. Qed.
Lemma index_ok d l i : NoDup l -> (index_of d l = Ok i <-> nth_error l i = Some d).
Proof.
  intros N. revert i. induction N as [|a l Ha N IH]; intros i; cbn [index_of]; [split; [discriminate|destruct i; discriminate]|].
  destruct (String.eqb_spec a d) as [->|Hd].
  - split; [intros H; injection H as <-; auto|]. destruct i; auto. cbn. intros H. exfalso. apply Ha. eapply nth_error_In; eauto.
  - destruct (index_of d l) as [j|e] eqn:E; cbn [bind].
    + split; [intros H; injection H as <-; apply IH; auto|]. destruct i as [|i]; cbn; [congruence|]. intros H. apply IH in H. congruence.
    + split; [discriminate|]. destruct i as [|i]; cbn; [congruence|]. intros H. apply IH in H. congruence.
Qed.
Lemma index_in d l : In d l -> exists i, index_of d l = Ok i.
Proof. induction l as [|a l IH]; cbn; [intros []|]. intros H. destruct (String.eqb_spec a d); eauto. destruct H as [H|H]; [congruence|]. destruct (IH H) as [i ->]. cbn. eauto. Qed.

(** updating columns one after another *)
Lemma fold_cols {X} (F : nat -> X -> X) (dx : X) ps : forall cs : list X, NoDup (map snd ps) -> (forall j i, In (j, i) ps -> (i < length cs)%nat) ->
  let cs' := fold_left (fun cs ji => upd cs (snd ji) (F (fst ji) (nth (snd ji) cs dx))) ps cs in
  length cs' = length cs /\ (forall i, ~ In i (map snd ps) -> nth_error cs' i = nth_error cs i) /\
  forall j i, In (j, i) ps -> nth_error cs' i = Some (F j (nth i cs dx)).
Proof.
  induction ps as [|[j i] ps IH]; intros cs N L; cbn [fold_left].
  - cbn. split; auto. split; auto. intros j i [].
  - cbn [map snd fst] in *. inversion N; subst. specialize (IH (upd cs i (F j (nth i cs dx))) H2). rewrite upd_length in IH.
    destruct IH as (A & B & C). { intros j1 i1 Hi. apply (L j1). right; auto. }
    cbv zeta. split; auto. split.
    + intros k Hk. rewrite B by (intros Hc; apply Hk; right; auto). rewrite nth_error_upd_ne; auto. intros ->. apply Hk. left; auto.
    + intros j1 i1 [E|Hi].
      * injection E as <- <-. rewrite B by auto. apply nth_error_upd_eq. apply (L j). left; auto.
      * rewrite (C _ _ Hi). f_equal. f_equal. assert (Hne : i1 <> i) by (intros ->; apply H1; apply in_map_iff; exists (j1, i); auto).
        apply nth_upd_ne; auto.
Qed.

Lemma mapM_in {X Y} (h : X -> exc Y) l r : mapM h l = Ok r -> forall y, In y r <-> exists x, In x l /\ h x = Ok y.
Proof.
  revert r. induction l as [|x l IH]; cbn; intros r H y.
  - injection H as <-. split; [intros []|intros (? & [] & _)].
  - destruct (h x) as [z|] eqn:E; cbn [bind] in H; [|discriminate]. destruct (mapM h l) as [r1|]; cbn [bind] in H; [|discriminate]. injection H as <-. cbn [In]. rewrite (IH r1 eq_refl).
    split; [intros [<-|(x1 & H1 & H2)]; eauto|]. intros (x1 & [->|H1] & H2); [left; congruence|right; eauto].
Qed.
Lemma mapM_nodup {X Y} (h : X -> exc Y) l : NoDup l -> (forall x1 x2 y, h x1 = Ok y -> h x2 = Ok y -> x1 = x2) -> forall r, mapM h l = Ok r -> NoDup r.
Proof.
  intros N Inj. induction N as [|x l Hx N IH]; cbn; intros r H; [injection H as <-; constructor|].
  destruct (h x) as [z|] eqn:E; cbn [bind] in H; [|discriminate]. destruct (mapM h l) as [r1|] eqn:E1; cbn [bind] in H; [|discriminate]. injection H as <-.
  constructor; auto. rewrite (mapM_in _ _ _ E1). intros (x1 & H1 & H2). rewrite (Inj x x1 z E H2) in Hx. auto.
Qed.
Lemma in_combine_seq {X} (l : list X) : forall a j x, In (j, x) (combine (seq a (length l)) l) <-> (a <= j)%nat /\ nth_error l (j - a) = Some x.
Proof.
  induction l as [|y l IH]; cbn [length seq combine In]; intros a j x.
  - split; [intros []|]. intros [_ H]. destruct (j - a)%nat; discriminate.
  - rewrite IH. split.
    + intros [H|[H1 H2]]; [injection H as <- <-; rewrite Nat.sub_diag; auto|]. split; [lia|]. replace (j - a)%nat with (S (j - S a)) by lia. auto.
    + intros [H1 H2]. destruct (Nat.eq_dec j a) as [->|Hn].
      * rewrite Nat.sub_diag in H2. cbn in H2. injection H2 as <-. auto.
      * right. split; [lia|]. replace (j - a)%nat with (S (j - S a)) in H2 by lia. auto.
Qed.
Lemma map_snd_combine_ {X Y} (l : list X) (r : list Y) : length l = length r -> map snd (combine l r) = r.
Proof. revert r. induction l as [|x l IH]; intros [|y r]; cbn; try discriminate; auto. intros H. rewrite IH; auto. Qed.

Lemma NoDup_app_split {X} (l r : list X) : NoDup (l ++ r) -> NoDup l /\ NoDup r /\ forall x, In x l -> In x r -> False.
Proof.
  induction l as [|a l IH]; cbn; intros H; [split; [constructor|split; auto]|]. inversion H; subst. destruct (IH H3) as (A & B & C). rewrite in_app_iff in H2.
  split; [constructor; tauto|]. split; auto. intros x [->|Hx]; [tauto|eauto].
Qed.

Section Sample.
Context (nz : string -> string -> fn -> kw -> nat -> Qc -> exc (list Qc)).

(** [c'] is [c] plus layer [i] of [m] at the shifted positions *)
Definition plus_layer (m : G) (rows : list (list Qc)) (off : Qc * Qc) (i : nat) (c c' : list (option Qc)) : Prop :=
  length c' = length rows /\ forall k r, nth_error rows k = Some r -> exists v, nth_error c' k = Some (opt_add (nth k c None) v) /\
    let p := [nth 0 r 0 + fst off; nth 1 r 0 + snd off] in
    (in_extent (g_axes m) p = false -> v = None) /\ forall ix, in_cell m ix p = true -> v = Some (cell m ix i).

Lemma group_step s m dm rows group cols off : tables_ok s -> consistent m -> g_ndim m = 2%nat -> g_nprop m = length (i_names s) -> g_data m = Some dm ->
  length cols = length (i_names s) -> (forall c, In c cols -> length c = length rows) -> group <> [] -> NoDup group -> (forall d, In d group -> In d (i_names s) /\ off_of s d = Ok off) ->
  exists cols', sample_group s m rows group cols = Ok cols' /\ length cols' = length cols /\ (forall c, In c cols' -> length c = length rows) /\
    forall i d c, nth_error (i_names s) i = Some d -> nth_error cols i = Some c ->
      (~ In d group -> nth_error cols' i = Some c) /\ (In d group -> exists c', nth_error cols' i = Some c' /\ plus_layer m rows off i c c').
Proof.
  intros T Cm N2 Np Dm Lc Lr Ne Ng Hg. unfold sample_group.
  destruct (mapM_all_ok (fun d => index_of d (i_names s)) group) as [ix0 Eix]. { intros d Hd. apply index_in, Hg, Hd. }
  rewrite Eix. cbn [bind]. cbv zeta.
  assert (Hoff : match group with [] => Raise IndexError | d :: _ => off_of s d end = Ok off) by (destruct group as [|d g]; [congruence|]; apply Hg; left; auto).
  rewrite Hoff. cbn [bind]. set (ix := sort_nat ix0).
  assert (Hix : forall i, In i ix <-> exists d, In d group /\ nth_error (i_names s) i = Some d).
  { intros i. unfold ix. rewrite sort_in. rewrite (mapM_in _ _ _ Eix). split; intros (d & H1 & H2); exists d; (split; [auto|]); apply index_ok; auto; apply T. }
  assert (Nix : NoDup ix).
  { apply sort_nodup. apply (mapM_nodup (fun d => index_of d (i_names s)) group Ng); auto.
    intros d1 d2 i H1 H2. apply index_ok in H1; [|apply T]. apply index_ok in H2; [|apply T]. congruence. }
  assert (Lix : forall i, In i ix -> (i < length (i_names s))%nat). { intros i Hi. apply Hix in Hi. destruct Hi as (d & _ & Hi). eapply nth_error_Some_lt; eauto. }
  assert (Ecp : check_props m (Some (map Z.of_nat ix)) = Ok ix).
  { unfold check_props. rewrite (proj2 (forallb_forall _ _)).
    - cbn. f_equal. rewrite map_map. erewrite map_ext; [apply map_id|]. intros; apply Nat2Z.id.
    - intros z Hz. apply in_map_iff in Hz. destruct Hz as (i & <- & Hi). apply Lix in Hi. rewrite Np. apply andb_true_iff. split; [apply Z.leb_le; lia|apply Z.ltb_lt; lia]. }
  set (srows := map (fun r => [nth 0 r 0 + fst off; nth 1 r 0 + snd off]) rows).
  destruct (grid_sample_ok m dm srows (Some (map Z.of_nat ix)) ix Cm Dm) as (sm & Esm & Lsm & Vsm); auto.
  { apply Forall_forall. intros r Hr. apply in_map_iff in Hr. destruct Hr as (r0 & <- & _). rewrite N2. auto. }
  rewrite N2 in Esm. rewrite Esm. cbn [bind]. eexists. split; [reflexivity|].
  set (ps := combine (seq 0 (length ix)) ix).
  assert (Sps : map snd ps = ix) by (apply map_snd_combine_; rewrite seq_length; auto).
  assert (Ips : forall j i, In (j, i) ps <-> nth_error ix j = Some i).
  { intros j i. unfold ps. rewrite in_combine_seq, Nat.sub_0_r. split; [tauto|]. intros; split; [lia|auto]. }
  destruct (fold_cols (fun j c => map (fun cv : option Qc * option Qc => opt_add (fst cv) (snd cv)) (combine c (map (fun row => nth j row None) sm))) [] ps cols) as (A & B & C).
  { rewrite Sps. auto. }
  { intros j i Hi. rewrite Lc. apply Lix. apply Ips in Hi. eapply nth_error_In; eauto. }
  cbv zeta in A, B, C. set (cols' := fold_left _ ps cols) in *.
  assert (Main : forall i d c, nth_error (i_names s) i = Some d -> nth_error cols i = Some c ->
      (~ In d group -> nth_error cols' i = Some c) /\ (In d group -> exists c', nth_error cols' i = Some c' /\ plus_layer m rows off i c c')).
  { intros i d c Hi Hc. split; intros Hd.
    - rewrite B; auto. rewrite Sps. intros H. apply Hix in H. destruct H as (d2 & H1 & H2). congruence.
    - assert (Hin : In i ix) by (apply Hix; eauto). apply In_nth_error in Hin. destruct Hin as [j Hj]. pose proof (proj2 (Ips j i) Hj) as Hp.
      rewrite (C _ _ Hp). rewrite (nth_error_nth _ _ _ Hc). eexists. split; [reflexivity|].
      assert (Lcc : length c = length rows) by (apply Lr; eapply nth_error_In; eauto). assert (Lsm2 : length sm = length rows) by (rewrite Lsm; apply map_length).
      split; [rewrite map_length, combine_length, map_length; lia|].
      intros k r Hk. assert (Hk2 : nth_error srows k = Some [nth 0 r 0 + fst off; nth 1 r 0 + snd off]) by (unfold srows; rewrite nth_error_map_some, Hk; auto).
      destruct (Vsm k _ Hk2) as (o & Ho & Lo & Vo). destruct (Vo j i Hj) as [V1 V2].
      exists (nth j o None). split.
      + rewrite nth_error_map_some, nth_error_combine, nth_error_map_some, Ho. destruct (nth_error c k) as [x|] eqn:Ex.
        * cbn. rewrite (nth_error_nth _ _ _ Ex). auto.
        * exfalso. apply nth_error_None in Ex. apply nth_error_Some_lt in Hk. lia.
      + cbv zeta. split.
        * intros H. apply nth_error_nth. auto.
        * intros jx H. pose proof (V2 jx H) as Hv. rewrite (nth_error_nth _ _ _ Hv). unfold cell. rewrite Dm.
          pose proof (co_data _ Cm) as Cd. rewrite Dm in Cd. destruct Cd as [Wd Sd].
          assert (Hb : inb (shape dm) (jx ++ [i]) = true).
          { rewrite Sd. apply (in_box_inb _ _ _ _ _ _ _ (consistent_lat m Cm)) in H. rewrite inb_snoc; [|apply inb_length in H; auto]. rewrite H. apply Nat.ltb_lt. rewrite Np. eapply nth_error_Some_lt; eauto. }
          apply (get_getd (0 : Qc) dm); auto. }
  split; auto. split; [|exact Main].
  intros c Hc. apply In_nth_error in Hc. destruct Hc as [i Hi]. assert (Hi2 : (i < length cols)%nat) by (rewrite <- A; eapply nth_error_Some_lt; eauto).
  destruct (nth_error_lt_Some _ _ Hi2) as [c0 Hc0]. rewrite Lc in Hi2. destruct (nth_error_lt_Some _ _ Hi2) as [d Hd].
  destruct (Main i d c0 Hd Hc0) as [M1 M2]. destruct (in_dec string_dec d group) as [H|H].
  - destruct (M2 H) as (c' & Hc' & P & _). congruence.
  - rewrite (M1 H) in Hi. injection Hi as <-. apply Lr. eapply nth_error_In; eauto.
Qed.

Lemma groups_step s m dm rows gs : tables_ok s -> consistent m -> g_ndim m = 2%nat -> g_nprop m = length (i_names s) -> g_data m = Some dm ->
  NoDup (concat gs) -> (forall g, In g gs -> exists off, g <> [] /\ forall d, In d g -> In d (i_names s) /\ off_of s d = Ok off) ->
  forall cols, length cols = length (i_names s) -> (forall c, In c cols -> length c = length rows) ->
  exists cols', sample_groups s m rows gs cols = Ok cols' /\ length cols' = length cols /\ (forall c, In c cols' -> length c = length rows) /\
    forall i d c, nth_error (i_names s) i = Some d -> nth_error cols i = Some c ->
      (~ In d (concat gs) -> nth_error cols' i = Some c) /\
      (In d (concat gs) -> exists c' off, nth_error cols' i = Some c' /\ off_of s d = Ok off /\ plus_layer m rows off i c c').
Proof.
  intros T Cm N2 Np Dm. induction gs as [|g gs IH]; intros Nd Hg cols Lc Lr; cbn [sample_groups concat].
  - exists cols. split; auto. split; auto. split; auto. intros i d c H1 H2. split; auto. intros [].
  - destruct (Hg g (or_introl eq_refl)) as (off & Ne & Hd). cbn [concat] in Nd. apply NoDup_app_split in Nd. destruct Nd as (N1 & N3 & N4).
    destruct (group_step s m dm rows g cols off T Cm N2 Np Dm Lc Lr Ne N1 Hd) as (c1 & E1 & L1 & R1 & V1). rewrite E1. cbn [bind].
    destruct (IH N3) with (cols := c1) as (c2 & E2 & L2 & R2 & V2); [intros; apply Hg; right; auto|congruence|auto|].
    exists c2. split; auto. split; [congruence|]. split; auto. intros i d c Hi Hc. destruct (V1 i d c Hi Hc) as [A B].
    split; intros H.
    + rewrite in_app_iff in H. assert (Hc1 : nth_error c1 i = Some c) by (apply A; tauto). apply (V2 i d c Hi Hc1). tauto.
    + apply in_app_iff in H. destruct H as [H|H].
      * destruct (B H) as (c' & Hc' & P). exists c', off. split; [|split; auto; apply Hd; auto]. apply (V2 i d c' Hi Hc'). intros H2. apply (N4 d); auto.
      * assert (Hc1 : nth_error c1 i = Some c) by (apply A; intros H2; apply (N4 d); auto). apply (V2 i d c Hi Hc1); auto.
Qed.
Lemma off_at s d x : dget (i_dets s) d = Some x -> off_of s d = match d_off x with Some r => Ok r | None => Raise AttributeError end.
Proof. intros H. unfold off_of, attr, det_at, dfind. rewrite H. reflexivity. Qed.
Lemma noise_at s d x : dget (i_dets s) d = Some x -> noise_of s d = match d_noise x with Some r => Ok r | None => Raise AttributeError end.
Proof. intros H. unfold noise_of, attr, det_at, dfind. rewrite H. reflexivity. Qed.

(** the columns of one field *)
Lemma one_cols s m dm rows signal noise dt gs f tab : tables_ok s -> pointing_clones s = Ok gs -> dget (i_maps s) f = Some m ->
  consistent m -> g_ndim m = 2%nat -> g_nprop m = length (i_names s) -> g_data m = Some dm ->
  sample_one nz s rows signal noise dt gs f = Ok tab ->
  length tab = length rows /\ forall k r, nth_error rows k = Some r -> exists o, nth_error tab k = Some o /\ length o = length (i_names s) /\
    forall i d x, nth_error (i_names s) i = Some d -> dget (i_dets s) d = Some x -> exists v, nth_error o i = Some v /\ sampled nz m f d x rows k r signal noise dt i v.
Proof.
  intros T Hp Hm Cm N2 Np Dm. unfold sample_one, dfind. rewrite Hm. cbn [bind].
  destruct (mapM _ (i_names s)) as [cols|] eqn:Ec; cbn [bind]; [|discriminate].
  destruct (mapM_nth _ _ _ Ec) as [Lc Vc].
  unfold pointing_clones in Hp. pose proof Hp as Hp0. apply (clones_spec off_eqb off_eqb_spec (off_of s)) in Hp; [|apply T|lia]. destruct Hp as (P1 & P2 & P3).
  assert (Base : forall i d x c, nth_error (i_names s) i = Some d -> dget (i_dets s) d = Some x -> nth_error cols i = Some c -> length c = length rows /\
     forall k r, nth_error rows k = Some r -> exists nv, nth_error c k = Some (Some nv) /\ noise_value nz f d x noise dt rows k nv).
  { intros i d x c Hi Hx Hc. destruct (Vc i d Hi) as (y & Hy & Hn). rewrite Hc in Hn. injection Hn as ->. unfold noise_value.
    destruct noise; [destruct dt as [t|]|].
    - rewrite (noise_at s d x Hx) in Hy. destruct (d_noise x) as [r|] eqn:Er; cbn [bind] in Hy; [|discriminate]. destruct (nz f d (fst r) (snd r) _ t) as [l|] eqn:El; cbn [bind] in Hy; [|discriminate].
      destruct (Nat.eqb_spec (length l) (length rows)) as [Hl|]; cbn [check bind] in Hy; [|discriminate]. injection Hy as <-. rewrite map_length. split; auto.
      intros k r0 Hk. apply nth_error_Some_lt in Hk. rewrite <- Hl in Hk. destruct (nth_error_lt_Some _ _ Hk) as [q Hq]. exists q. rewrite nth_error_map_some, Hq. split; auto.
      exists r, t, l. auto.
    - injection Hy as <-. rewrite repeat_length. split; auto. intros k r0 Hk. exists 0. apply nth_error_Some_lt in Hk. rewrite nth_error_repeat by auto. auto.
    - injection Hy as <-. rewrite repeat_length. split; auto. intros k r0 Hk. exists 0. apply nth_error_Some_lt in Hk. rewrite nth_error_repeat by auto. auto. }
  assert (Lr : forall c, In c cols -> length c = length rows).
  { intros c Hc. apply In_nth_error in Hc. destruct Hc as [i Hi]. assert (Hi2 : (i < length (i_names s))%nat) by (rewrite <- Lc; eapply nth_error_Some_lt; eauto).
    destruct (nth_error_lt_Some _ _ Hi2) as [d Hd]. destruct (proj1 (t_dets _ T d) (nth_error_In _ _ Hd)) as [x Hx]. apply (Base i d x c); auto. }
  set (fin := if signal then sample_groups s m rows gs cols else Ok cols).
  assert (Fin : forall cols', fin = Ok cols' -> length cols' = length (i_names s) /\ (forall i d x, nth_error (i_names s) i = Some d -> dget (i_dets s) d = Some x -> exists c, nth_error cols' i = Some c /\
     forall k r, nth_error rows k = Some r -> exists v, nth_error c k = Some v /\ sampled nz m f d x rows k r signal noise dt i v)).
  { intros cols' E. unfold fin in E. destruct signal.
    - assert (Gs : forall g, In g gs -> exists off, g <> [] /\ forall d, In d g -> In d (i_names s) /\ off_of s d = Ok off).
      { intros g Hg. destruct (P3 g Hg) as (d0 & r & k & -> & K & H). exists k. split; [discriminate|]. intros d1 Hd.
        assert (In d1 (i_names s)) by (apply P2; apply in_concat; exists (d0 :: r); auto). split; auto. apply H; auto. }
      destruct (groups_step s m dm rows gs T Cm N2 Np Dm P1 Gs cols Lc Lr) as (c2 & E2 & L2 & R2 & V2). rewrite E in E2. injection E2 as <-. split; [congruence|].
      intros i d x Hi Hx. assert (Hi2 : (i < length cols)%nat) by (rewrite Lc; eapply nth_error_Some_lt; eauto). destruct (nth_error_lt_Some _ _ Hi2) as [c Hc].
      destruct (V2 i d c Hi Hc) as [_ V]. destruct V as (c' & off & H1 & H2 & Pl). { apply P2. eapply nth_error_In; eauto. }
      exists c'. split; auto. intros k r Hk. destruct (Base i d x c Hi Hx Hc) as [_ Bk]. destruct (Bk k r Hk) as (nv & Hnv & Nv).
      destruct Pl as [_ Pl]. destruct (Pl k r Hk) as (v & Hv & X1 & X2). rewrite (nth_error_nth _ _ _ Hnv) in Hv. eexists. split; [exact Hv|].
      unfold sampled. exists nv. split; auto. split; [discriminate|]. intros _. rewrite (off_at s d x Hx) in H2. destruct (d_off x) as [o1|] eqn:Eo; [|discriminate]. injection H2 as ->.
      exists off. split; auto. cbv zeta in *. split.
      + intros H. rewrite (X1 H). auto.
      + intros ix H. rewrite (X2 ix H). cbn. f_equal. ring.
    - injection E as <-. split; auto. intros i d x Hi Hx. assert (Hi2 : (i < length cols)%nat) by (rewrite Lc; eapply nth_error_Some_lt; eauto). destruct (nth_error_lt_Some _ _ Hi2) as [c Hc].
      exists c. split; auto. intros k r Hk. destruct (Base i d x c Hi Hx Hc) as [_ Bk]. destruct (Bk k r Hk) as (nv & Hnv & Nv). exists (Some nv). split; auto. exists nv. split; auto. split; auto. discriminate. }
  fold fin. destruct fin as [cols'|] eqn:Ef; cbn [bind]; [|discriminate]. destruct (negb _); cbn [check bind]; [|discriminate]. intros H; injection H as <-.
  destruct (Fin cols' eq_refl) as [L' V']. unfold by_rows. split; [rewrite map_length, seq_length; auto|].
  intros k r Hk. pose proof Hk as Hlt. apply nth_error_Some_lt in Hlt. eexists. split; [rewrite nth_error_map_seq; apply Nat.ltb_lt in Hlt; rewrite Hlt; reflexivity|].
  split; [rewrite map_length; auto|]. intros i d x Hi Hx. destruct (V' i d x Hi Hx) as (c & Hc & Vk). destruct (Vk k r Hk) as (v & Hv & Sv). exists v. split; auto.
  rewrite nth_error_map_some, Hc. cbn. f_equal. apply nth_error_nth. auto.
Qed.
End Sample.
