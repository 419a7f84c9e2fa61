(** Proofs about the Handler model: files stay openable, statistics, redshift
    bins, units of multi-properties. *)
From Verif Require Import Dict Util Rat HandlerModel HandlerSpec Handler Handler2 Handler3.
From Coq Require Import Sorted Permutation.
Open Scope string_scope.
Open Scope list_scope.
Open Scope nat_scope.

(** * C30: the file can be opened again *)
Definition attrs (f : gfile) : Prop :=
  (exists d, dget (f_grp f) "mass" = Some d) /\
  forall k d, dget (f_grp f) k = Some d -> k <> "mass_cuts" ->
    (exists u, s_units d = Some u) /\ (exists e, s_hdep d = Some e).

Lemma attrs_put f p d : attrs f -> (exists u, s_units d = Some u) -> (exists e, s_hdep d = Some e) ->
  attrs (mkFile (f_h f) (dset (f_grp f) p d)).
Proof.
  intros [[m Hm] A] Hu He. split; cbn [f_grp].
  - rewrite dget_dset. destruct (String.eqb _ _); eauto.
  - intros k x Hx Hk. rewrite dget_dset in Hx. destruct (String.eqb_spec k p); [inversion Hx; subst; auto|].
    eapply A; eauto.
Qed.

Lemma attrs_write nanint ow dt p s : attrs (snd s) -> snd (write_one nanint ow dt p s) <> Raise KeyError ->
  attrs (snd (fst (write_one nanint ow dt p s))).
Proof.
  intros A H. destruct (write_one nanint ow dt p s) as [s' [[]|e]] eqn:E; cbn [fst snd] in *.
  - destruct s as [h f]. apply write_one_ok in E as (c & u & e & d & _ & _ & _ & E & D1 & D2 & _).
    rewrite E. apply attrs_put; eauto.
  - apply write_one_raise in E; [congruence|]. congruence.
Qed.

Lemma attrs_write_all nanint ow dt ps s : attrs (snd s) -> snd (write_property nanint ps ow dt s) <> Raise KeyError ->
  attrs (snd (fst (write_property nanint ps ow dt s))).
Proof.
  unfold write_property. revert s; induction ps as [|p ps IH]; simpl; intros s A H; auto.
  pose proof (attrs_write nanint ow dt p s A) as W.
  destruct (write_one nanint ow dt p s) as [s1 [[]|e]]; cbn [fst snd] in *; auto.
  apply IH; auto. apply W. discriminate.
Qed.

Lemma unload_file ps s : snd (fst (unload_property ps s)) = snd s /\ snd (unload_property ps s) = Ok tt.
Proof.
  unfold unload_property. revert s; induction ps as [|p ps IH]; simpl; intros s; auto.
  destruct s as [h f]. simpl. destruct (IH (with_loaded h (ddel (h_loaded h) p), f)) as [-> ->]. auto.
Qed.

Lemma make_loop_file p inds l s : snd (fst (for_each (make_one p inds) l s)) = snd s.
Proof.
  apply (for_each_inv (fun t => snd t = snd s)); auto. intros x t _ E.
  destruct (make_one_act p inds x t) as (_ & _ & _ & _ & _ & ->). auto.
Qed.

Lemma load_file ps s : snd (fst (load_property ps s)) = snd s.
Proof.
  unfold load_property. apply (for_each_inv (fun t => snd t = snd s)); auto.
  intros x t _ E. destruct (load_frame x t) as (l & ->). auto.
Qed.

Lemma attrs_hdo nanint s c : attrs (snd s) -> keeps_mass c -> snd (hdo nanint s c) <> Raise KeyError ->
  attrs (snd (fst (hdo nanint s c))).
Proof.
  intros A Hm Hk. destruct c; cbn [hdo] in *.
  - rewrite load_file; auto.
  - destruct (unload_file ps s) as [-> _]; auto.
  - revert Hk. unfold make_property. cbv zeta.
    destruct (_ && negb (covers _ _)); [auto|].
    destruct (match m_rename a with None => _ | Some r => _ end) as [names|]; [|auto].
    destruct (_ && _); [auto|]. destruct (evaluate_all _ _ _ _ _) as [vals|]; [|auto].
    match goal with |- context [for_each (make_one p ?i) ?l s] =>
      pose proof (make_loop_file p i l s) as F; destruct (for_each (make_one p i) l s) as [s1 [u|e]] end;
      cbn [fst snd] in F; [|cbn [fst snd]; rewrite F; auto].
    destruct (m_write a); [|cbn [fst snd]; rewrite F; auto].
    rewrite <- F in A. pose proof (attrs_write_all nanint (m_owdisk a) (m_dtype a) names s1 A) as W.
    destruct (write_property _ _ _ _ s1) as [s2 [u2|e]]; cbn [fst snd] in *; auto.
    destruct (m_unload a); cbn [fst snd]; intros _; [destruct (unload_file names s2) as [-> _]|];
      apply W; discriminate.
  - apply attrs_write_all; auto.
  - clear Hk. unfold delete_property. simpl in Hm.
    assert (G : forall l, ~ In "mass" l -> forall t, attrs (snd t) -> attrs (snd (fst (for_each delete_one l t)))).
    { intros l Hl t At. apply (for_each_inv (fun t => attrs (snd t))); auto.
      intros x u Hx Au. destruct u as [h f]. unfold delete_one. destruct (negb _); [auto|]. destruct (negb _); [auto|].
      cbv zeta. cbn [fst snd]. destruct Au as [[m Em] Au]. split; cbn [f_grp].
      - rewrite dget_ddel. destruct (String.eqb_spec "mass" x); [subst; tauto|]. cbn [snd] in Em. rewrite Em.
        destruct (String.eqb_spec x "mass"); [subst; tauto|eauto].
      - intros k d. rewrite dget_ddel. destruct (String.eqb _ _); [discriminate|]. apply Au. }
    apply G; auto.
  - destruct (range_frame p lo hi reset inh s) as (a & m & ->). auto.
  - auto.
Qed.

Lemma mapM_ok_all {X Y} (g : X -> exc Y) l : (forall x, In x l -> exists y, g x = Ok y) -> exists r, mapM g l = Ok r.
Proof.
  induction l as [|a l IH]; simpl; intros H; [eauto|].
  destruct (H a) as (y & ->); auto. destruct IH as (r & ->); auto. simpl. eauto.
Qed.

Lemma open_good n f box extra inh : good_file n f -> exists h, open_handler f box extra inh = Ok h.
Proof.
  intros ((m & Hm) & Hmc & Hg). unfold open_handler.
  assert (K : forall k, In k (prop_keys f) -> exists d u e, dget (f_grp f) k = Some d /\ s_units d = Some u /\ s_hdep d = Some e).
  { intros k Hk. apply prop_keys_In in Hk as [Hk Hn]. apply dget_dkeys in Hk as (d & Hd).
    destruct (Hg k d Hd Hn) as (_ & (u & Hu) & (e & He)). eauto 8. }
  match goal with |- context [mapM ?g (prop_keys f)] => destruct (mapM_ok_all g (prop_keys f)) as (us & ->) end.
  { intros k Hk. destruct (K k Hk) as (d & u & e & E1 & E2 & E3). unfold dfind. rewrite E1. simpl. rewrite E2. simpl. eauto. }
  cbn [bind].
  match goal with |- context [mapM ?g (prop_keys f)] => destruct (mapM_ok_all g (prop_keys f)) as (hs & ->) end.
  { intros k Hk. destruct (K k Hk) as (d & u & e & E1 & E2 & E3). unfold dfind. rewrite E1. simpl. rewrite E3. simpl. eauto. }
  cbn [bind]. unfold dfind. rewrite Hm. cbn [bind]. eauto.
Qed.

Lemma c30_openable n f box extra inh h nanint cs box' extra' inh' :
  good_file n f -> open_handler f box extra inh = Ok h -> Forall call_ok cs ->
  Forall keeps_mass cs -> no_key_error nanint (h, f) cs ->
  exists h', open_handler (snd (hdo_all nanint (h, f) cs)) box' extra' inh' = Ok h'.
Proof.
  intros Hg Ho Hc Hm Hk.
  assert (I0 : hinv n (h, f)) by (eapply open_hinv; eauto).
  assert (A0 : attrs (snd (h, f))).
  { destruct Hg as (G1 & _ & G2). split; auto. intros k d Hd Hn. apply (G2 k d); auto. }
  assert (I : hinv n (hdo_all nanint (h, f) cs)) by (apply hinv_all; auto).
  assert (A : attrs (snd (hdo_all nanint (h, f) cs))).
  { clear Hg Ho I I0 Hc. revert Hk A0. generalize (h, f) as s.
    induction Hm as [|c cs Hc Hm IH]; intros s Hk A; auto.
    destruct Hk as [Hk1 Hk2]. unfold hdo_all; cbn [fold_left]. apply IH; auto. apply attrs_hdo; auto. }
  apply (open_good n). split; [apply A|]. split; [apply I|].
  intros k d Hd Hn. split; [eapply i_file; eauto|]. destruct A as [_ A]. eapply A; eauto.
Qed.

(** * C30: a property is written only when it covers all halos *)
Lemma covers_spec n act : ascending act -> Forall (fun i => i < n) act ->
  n <> 1 \/ act <> [] -> act <> seq 0 n -> covers act (seq 0 n) = false.
Proof.
  intros Ha Hl H1 H2. unfold covers. rewrite seq_length.
  destruct (Nat.eqb_spec (length act) n) as [E|E].
  - destruct (forallb _ _) eqn:F; auto. exfalso; apply H2. rewrite forallb_forall in F.
    apply nth_ext with 0 0; [rewrite seq_length; auto|]. intros k Hk.
    assert (G : In (nth k act 0, nth k (seq 0 n) 0) (combine act (seq 0 n))).
    { rewrite <- combine_nth by (rewrite seq_length; auto). apply nth_In.
      rewrite combine_length, seq_length. lia. }
    apply F in G. cbn [fst snd] in G. apply Nat.eqb_eq in G. exact G.
  - destruct act as [|i [|j act]].
    + destruct n as [|[|n]]; simpl in *; try lia; auto. destruct H1; congruence.
    + destruct n as [|[|n]]; [inversion Hl; lia|simpl in E; lia|]. simpl.
      destruct i; simpl; auto.
    + destruct n as [|[|n]]; simpl; auto.
      exfalso. inversion Hl; subst. inversion H4; subst. inversion Ha; subst. inversion H8; subst. lia.
Qed.

Lemma c30_guard n nanint p a s : reachable n s -> m_write a = true -> m_all a = false ->
  n <> 1 \/ h_act (fst s) <> [] -> h_act (fst s) <> seq 0 n ->
  make_property nanint p a s = (s, Raise ValueError).
Proof.
  intros R Hw Ha H1 H2. apply reachable_inv in R. unfold make_property. cbv zeta.
  rewrite Hw, Ha. cbn [negb andb]. rewrite (i_n _ _ R).
  rewrite covers_spec; auto; apply R.
Qed.

(** * C32 *)
Lemma c32 {V} s (stat : dict pyval -> exc V) kwargs remap kws ua inh v :
  eval_stat s stat kwargs remap kws ua inh = Ok v ->
  exists args, stat args = Ok v /\
    forall k, arg_spec s kwargs remap ua (match inh with Some b => b | None => h_inh (fst s) end) kws k (dget args k).
Proof.
  unfold eval_stat. intros H. destruct (gather _ _ _ _ _ _ _) as [args|] eqn:E; [|discriminate].
  cbn [bind] in H. exists args. split; auto. eapply gather_spec; eauto.
Qed.

(** * C47 *)
Lemma qinsert_perm x l : Permutation (x :: l) (qinsert x l).
Proof.
  induction l as [|y l IH]; simpl; auto. destruct (qleb x y); auto.
  eapply perm_trans; [apply perm_swap|]. auto.
Qed.
Lemma qsort_perm l : Permutation l (qsort l).
Proof.
  induction l as [|x l IH]; simpl; auto. eapply perm_trans; [apply perm_skip, IH|apply qinsert_perm].
Qed.
Lemma qinsert_sorted x l : StronglySorted Qcle l -> StronglySorted Qcle (qinsert x l).
Proof.
  induction l as [|y l IH]; intros H; simpl; [repeat constructor|].
  inversion H; subst. destruct (qleb x y) eqn:E.
  - apply qleb_le in E. constructor; auto. constructor; auto.
    eapply Forall_impl; [|exact H3]. intros z Hz. eapply Qcle_trans; eauto.
  - assert (E' : (y <= x)%Qc). { apply Qclt_le_weak, Qcnot_le_lt. intros C. apply qleb_le in C. congruence. }
    constructor; auto. apply (Permutation_Forall (qinsert_perm x l)). constructor; auto.
Qed.
Lemma qsort_sorted l : StronglySorted Qcle (qsort l).
Proof. induction l; simpl; [constructor|apply qinsert_sorted; auto]. Qed.

Lemma range_value s lo hi s1 :
  set_property_range (Some "redshift") (Fin lo) (Fin hi) true None s = (s1, Ok tt) ->
  exists act, s1 = (with_act (fst s) act (length act), snd s) /\ ascending act /\
    forall i, In i act <-> value_in s "redshift" None (Fin lo) (Fin hi) i.
Proof.
  intros H. pose proof (range_act s (HRange (Some "redshift") (Fin lo) (Fin hi) true None) 0%Qc) as R.
  cbn [hdo] in R. rewrite H in R. cbn [fst snd] in R.
  destruct s as [h f]. unfold set_property_range in H.
  destruct (return_property _ _ _ _) as [[c|]|] eqn:E; try discriminate.
  apply (f_equal fst) in H. cbn [fst] in H. subst s1. eexists. split; [reflexivity|]. split; [apply nonzero_asc|].
  intros i. specialize (R i). cbn [fst with_act h_act] in R. rewrite R. tauto.
Qed.

Lemma ret_act s act m p inh : return_property (with_act (fst s) act m, snd s) p true inh = return_property s p true inh.
Proof. destruct s as [h f]. reflexivity. Qed.

Lemma value_act s act m lo hi i :
  value_in (with_act (fst s) act m, snd s) "redshift" None lo hi i <-> value_in s "redshift" None lo hi i.
Proof. unfold value_in. setoid_rewrite ret_act. reflexivity. Qed.

Lemma evo_spec {V} (stat : dict pyval -> exc V) kwargs remap zl zh in_h bins s kws acc s1 out :
  evo_bins bins stat kwargs remap kws zl zh in_h s acc = (s1, Ok out) ->
  (exists act m, s1 = (with_act (fst s) act m, snd s)) /\
  exists vs, out = acc ++ vs /\ length vs = length bins - 1 /\
    forall b v, nth_error vs b = Some v ->
      exists lo hi act k' args, nth_error bins b = Some lo /\ nth_error bins (S b) = Some hi /\
        ascending act /\ (forall i, In i act <-> value_in s "redshift" None (Fin lo) (Fin hi) i) /\
        bin_kws kws zl zh lo hi k' /\ stat args = Ok v /\
        forall k, arg_spec (with_act (fst s) act (length act), snd s) kwargs remap false in_h k' k (dget args k).
Proof.
  revert s kws acc s1 out. induction bins as [|a bins IH]; intros s kws acc s1 out H.
  { inversion H; subst. split; [exists (h_act (fst s1)), (h_nact (fst s1)); destruct s1 as [[] ]; reflexivity|].
    exists []. rewrite app_nil_r. repeat split; auto. intros [|b]; discriminate. }
  destruct bins as [|b0 bins].
  { inversion H; subst. split; [exists (h_act (fst s1)), (h_nact (fst s1)); destruct s1 as [[] ]; reflexivity|].
    exists []. rewrite app_nil_r. repeat split; auto. intros [|b]; discriminate. }
  cbn [evo_bins] in H.
  destruct (set_property_range _ _ _ _ _ s) as [s2 [[]|e]] eqn:E; [|discriminate].
  apply range_value in E as (act & -> & Ha & Hact).
  set (k2 := if zh then _ else _) in H.
  destruct (eval_stat _ _ _ _ k2 false (Some in_h)) as [v|] eqn:Ev; [|discriminate].
  apply c32 in Ev as (args & Es & Eargs).
  assert (Bk : bin_kws kws zl zh a b0 k2).
  { unfold bin_kws, k2. destruct zl, zh; (split; [|split]); intros; try discriminate;
      repeat rewrite dget_dset_ne by (auto; discriminate); try rewrite dget_dset_eq; auto. }
  apply IH in H as ((act' & m & ->) & vs & -> & Lv & Hv). split; [exists act', m; reflexivity|].
  exists (v :: vs). rewrite <- app_assoc. cbn [app length]. split; auto. split; [simpl in *; lia|].
  intros [|b] x Hx; cbn [nth_error] in *.
  - inversion Hx; subst x. exists a, b0, act, k2, args. repeat split; auto; try apply Hact; apply Bk.
  - destruct (Hv b x Hx) as (lo & hi & act2 & k' & args2 & B1 & B2 & B3 & B4 & B5 & B6 & B7).
    exists lo, hi, act2, k', args2. split; [auto|]. split; [auto|]. split; [auto|].
    split; [intros i; rewrite B4; apply value_act|]. split; [|auto]. split; [|split].
    + intros k N1 N2. destruct B5 as [B5 _]. rewrite B5 by auto. rewrite !dget_ddel.
      destruct (String.eqb_spec "zmax" k); [congruence|]. destruct (String.eqb_spec "zmin" k); [congruence|].
      apply Bk; auto.
    + apply B5. + apply B5.
Qed.

Lemma c47 {V} bins (stat : dict pyval -> exc V) kwargs remap kws zl zh inh s s1 es out :
  eval_stat_evo bins stat kwargs remap kws zl zh inh s = (s1, Ok (es, out)) ->
  Permutation bins es /\ StronglySorted Qcle es /\ length out = length es - 1 /\
  (h_act (fst s1) = h_act (fst s) /\ exists m, s1 = (with_act (fst s) (h_act (fst s)) m, snd s)) /\
  forall b v, nth_error out b = Some v ->
    exists lo hi act k' args, nth_error es b = Some lo /\ nth_error es (S b) = Some hi /\
      ascending act /\ (forall i, In i act <-> bin_row s es b i) /\
      bin_kws kws zl zh lo hi k' /\ stat args = Ok v /\
      forall k, arg_spec (with_act (fst s) act (length act), snd s) kwargs remap false
                  (match inh with Some b => b | None => h_inh (fst s) end) k' k (dget args k).
Proof.
  unfold eval_stat_evo. intros H.
  destruct (evo_bins (qsort bins) _ _ _ _ _ _ _ s []) as [s2 [vs|e]] eqn:E; [|discriminate].
  inversion H; subst; clear H. apply evo_spec in E as ((act & m & ->) & vs' & Ev & Lv & Hv). simpl in Ev; subst vs'.
  split; [apply qsort_perm|]. split; [apply qsort_sorted|]. split; [auto|].
  split; [split; [reflexivity|exists m; reflexivity]|].
  intros b v Hb. destruct (Hv b v Hb) as (lo & hi & act2 & k' & args & B1 & B2 & B3 & B4 & B5 & B6 & B7).
  exists lo, hi, act2, k', args. repeat split; auto; try apply B5.
  - intros Hi. exists lo, hi. repeat split; auto. apply B4; auto.
  - intros (lo' & hi' & E1 & E2 & Hi). rewrite B1 in E1. rewrite B2 in E2. inversion E1; inversion E2; subst. apply B4; auto.
Qed.

Lemma sorted_nth es i j x y : StronglySorted Qcle es -> i <= j -> nth_error es i = Some x -> nth_error es j = Some y -> (x <= y)%Qc.
Proof.
  intros S. revert i j. induction S as [|a es S IH F]; intros i j Hij Hi Hj; [destruct i; discriminate|].
  destruct j as [|j]; [assert (i = 0) by lia; subst; rewrite Hi in Hj; inversion Hj; apply Qcle_refl|].
  destruct i as [|i]; simpl in *.
  - inversion Hi; subst. rewrite Forall_forall in F. apply F. eapply nth_error_In; eauto.
  - eapply IH; [|eauto|eauto]. lia.
Qed.

Lemma value_z s lo hi i z : redshift_is s i z ->
  (value_in s "redshift" None (Fin lo) (Fin hi) i <-> (lo <= z /\ z <= hi)%Qc).
Proof.
  intros (c & Hc & Hi). unfold value_in. split.
  - intros (c' & x & H1 & H2 & H3 & H4). rewrite Hc in H1. inversion H1; subst. rewrite Hi in H2. inversion H2; subst. auto.
  - intros [H1 H2]. exists c, z. auto.
Qed.

Lemma c47_unique s es i z lo hi :
  StronglySorted Qcle es -> redshift_is s i z ->
  nth_error es 0 = Some lo -> nth_error es (length es - 1) = Some hi -> (lo <= z)%Qc -> (z <= hi)%Qc -> 2 <= length es ->
  (forall k e, 1 <= k -> k < length es - 1 -> nth_error es k = Some e -> e <> z) ->
  exists b, bin_row s es b i /\ forall b', bin_row s es b' i -> b' = b.
Proof.
  intros S Z H0 H1 L1 L2 Hn Hint.
  (* existence *)
  assert (G : forall m, m <= length es - 1 -> exists b, b < length es - 1 /\ 
             exists x y, nth_error es b = Some x /\ nth_error es (Datatypes.S b) = Some y /\ (x <= z)%Qc /\ ((z <= y)%Qc \/ b + 1 >= m)).
  { induction m as [|m IH]; intros Hm.
    - destruct es as [|x [|y es]]; simpl in *; try lia. exists 0. split; [lia|]. inversion H0; subst. exists lo, y. repeat split; auto. right; lia.
    - destruct IH as (b & Hb & x & y & E1 & E2 & X1 & X2); [lia|].
      assert (Dz : (z <= y)%Qc \/ ~ (z <= y)%Qc).
      { destruct (qleb z y) eqn:Q; [left; apply qleb_le; auto|right; intros C; apply qleb_le in C; congruence]. }
      destruct Dz as [Hz|Hz].
      + exists b. split; auto. exists x, y. auto.
      + destruct X2 as [X2|X2]; [tauto|].
        destruct (Nat.eq_dec (b + 1) (length es - 1)) as [Ee|Ee].
        * exfalso. replace (length es - 1) with (Datatypes.S b) in H1 by lia. rewrite H1 in E2. inversion E2; subst. tauto.
        * assert (Hl : Datatypes.S (Datatypes.S b) < length es) by lia.
          destruct (nth_error es (Datatypes.S (Datatypes.S b))) as [w|] eqn:Ew; [|apply nth_error_None in Ew; lia].
          exists (Datatypes.S b). split; [lia|]. exists y, w. repeat split; auto.
          { apply Qclt_le_weak, Qcnot_le_lt; auto. } { right; lia. } }
  destruct (G (length es - 1)) as (b & Hb & x & y & E1 & E2 & X1 & X2); [lia|].
  assert (Xz : (z <= y)%Qc).
  { destruct X2 as [|X2]; auto. replace (length es - 1) with (Datatypes.S b) in H1 by lia. rewrite H1 in E2. inversion E2; subst; auto. }
  exists b. split.
  { exists x, y. repeat split; auto. apply value_z with (z := z); auto. }
  intros b' (x' & y' & E1' & E2' & V). apply (value_z _ _ _ _ z) in V as [V1 V2]; auto.
  destruct (Nat.lt_trichotomy b' b) as [Hlt|[->|Hgt]]; auto.
  - assert (D := sorted_nth es (Datatypes.S b') b y' x S ltac:(lia) E2' E1).
    assert (Ey : y' = z) by (apply Qcle_antisym; auto; eapply Qcle_trans; eauto).
    exfalso. apply (Hint (Datatypes.S b') y'); auto; lia.
  - assert (D := sorted_nth es (Datatypes.S b) b' y x' S ltac:(lia) E2 E1').
    assert (Ey : y = z) by (apply Qcle_antisym; auto; eapply Qcle_trans; eauto).
    assert (Lb : Datatypes.S b' < length es) by (apply nth_error_Some; congruence).
    exfalso. apply (Hint (Datatypes.S b) y); auto; lia.
Qed.

Lemma c47_double s es i z b lo hi :
  redshift_is s i z -> nth_error es b = Some lo -> nth_error es (S b) = Some z -> nth_error es (S (S b)) = Some hi ->
  (lo <= z)%Qc -> (z <= hi)%Qc -> bin_row s es b i /\ bin_row s es (S b) i.
Proof.
  intros Z E1 E2 E3 L1 L2. split.
  - exists lo, z. repeat split; auto. apply value_z with (z := z); auto using Qcle_refl.
  - exists z, hi. repeat split; auto. apply value_z with (z := z); auto using Qcle_refl.
Qed.

(** * C55 *)
Lemma mkdict_other {A} ks (vs : list A) d k : ~ In k ks -> dget (mkdict ks vs d) k = dget d k.
Proof.
  revert vs d; induction ks as [|a ks IH]; intros [|v vs] d H; simpl in *; auto.
  rewrite IH by tauto. apply dget_dset_ne. intros ->; tauto.
Qed.
Lemma mkdict_nth {A} ks (vs : list A) d j k v : NoDup ks -> nth_error ks j = Some k -> nth_error vs j = Some v ->
  dget (mkdict ks vs d) k = Some v.
Proof.
  revert vs d j; induction ks as [|a ks IH]; intros [|w vs] d [|j] N; simpl; try discriminate.
  - intros [= ->] [= ->]. inversion N; subst. rewrite mkdict_other by auto. apply dget_dset_eq.
  - intros H1 H2. inversion N; subst. eapply IH; eauto.
Qed.

Lemma c55 names fn kwargs gh rh units e : NoDup names -> length units = length names ->
  exists p hd, new_multiprop names fn kwargs gh rh units [e] = Ok p /\ p_names p = names /\ p_hdep p = Some hd /\
    forall j name u, nth_error names j = Some name -> nth_error units j = Some u ->
      dget (p_units p) name = Some (UStr u) /\ dget hd name = Some e.
Proof.
  intros N L. unfold new_multiprop.
  assert (R : forall j name, nth_error names j = Some name -> nth_error (repeat e (length names)) j = Some e).
  { intros j name H. assert (j < length names) by (apply nth_error_Some; congruence).
    rewrite nth_error_nth' with (d := e) by (rewrite repeat_length; auto). rewrite nth_repeat. reflexivity. }
  assert (G : exists us, (match units with
            | [u] => Ok (mkdict names (repeat (UStr u) (length names)) [])
            | _ => if (length units =? length names)%nat then Ok (mkdict names (map UStr units) []) else Raise ValueError
            end) = Ok us /\ forall j name u, nth_error names j = Some name -> nth_error units j = Some u ->
                     dget us name = Some (UStr u)).
  { destruct units as [|u [|u' units]].
    - simpl in L. rewrite <- L. simpl. eexists. split; [reflexivity|]. intros [|j]; discriminate.
    - eexists. split; [reflexivity|]. intros j name v H1 H2. simpl in L. rewrite <- L.
      eapply mkdict_nth; eauto. destruct j as [|[|j]]; simpl in *; try discriminate. congruence.
    - rewrite <- L, Nat.eqb_refl. eexists. split; [reflexivity|]. intros j name v H1 H2.
      eapply mkdict_nth; eauto. apply map_nth_error; auto. }
  destruct G as (us & -> & Hus). cbn [bind]. eexists. eexists. split; [reflexivity|].
  cbn [p_names p_hdep p_units]. split; auto. split; auto.
  intros j name u H1 H2. split; [eapply Hus; eauto|]. eapply mkdict_nth; eauto.
Qed.

Lemma c55_single names fn kwargs gh rh u e : NoDup names ->
  exists p hd, new_multiprop names fn kwargs gh rh [u] [e] = Ok p /\ p_names p = names /\ p_hdep p = Some hd /\
    forall name, In name names -> dget (p_units p) name = Some (UStr u) /\ dget hd name = Some e.
Proof.
  intros N. unfold new_multiprop. cbn [bind]. eexists. eexists. split; [reflexivity|].
  cbn [p_names p_hdep p_units]. split; auto. split; auto. intros name Hi. apply In_nth_error in Hi as (j & Hj).
  assert (j < length names) by (apply nth_error_Some; congruence).
  assert (R : forall A (x : A), nth_error (repeat x (length names)) j = Some x).
  { intros A x. rewrite nth_error_nth' with (d := x) by (rewrite repeat_length; auto). rewrite nth_repeat. reflexivity. }
  split; eapply mkdict_nth; eauto.
Qed.

Lemma c55_never names fn kwargs gh rh units hdep p nanint a s s' :
  new_multiprop names fn kwargs gh rh units hdep = Ok p -> 2 <= length names -> length hdep = length names ->
  make_property nanint p a s <> (s', Ok tt).
Proof.
  intros H L1 L2 M.
  assert (Hp : p_hdep p = None /\ p_names p = names).
  { unfold new_multiprop in H. destruct (match units with [] => _ | _ => _ end) as [us|]; [|discriminate].
    cbn [bind] in H. destruct hdep as [|e1 [|e2 hdep]]; simpl in L2; try lia.
    rewrite <- L2 in H. cbn [length] in H. rewrite Nat.eqb_refl in H. inversion H; subst. auto. }
  destruct Hp as [Hp Hn]. revert M. unfold make_property. cbv zeta.
  destruct (_ && negb (covers _ _)); [discriminate|].
  destruct (match m_rename a with None => _ | Some r => _ end) as [new|] eqn:En; [|discriminate].
  assert (Ln : length new = length names).
  { destruct (m_rename a) as [r|]; [|inversion En; congruence].
    destruct (Nat.eqb_spec (length r) (length (p_names p))); [|discriminate]. inversion En; congruence. }
  destruct (_ && _); [discriminate|].
  destruct (evaluate_all p s (m_all a) (m_remap a) (m_kws a)) as [vals|] eqn:Ev; [|discriminate].
  apply evaluate_spec in Ev as (args & raw & _ & Lr & _ & Ev). rewrite Hp in Ev. rewrite Hn in *.
  destruct (p_ret_h p).
  - subst vals. destruct names as [|n1 names]; [simpl in L1; lia|]. destruct new as [|m1 new]; [discriminate|].
    destruct raw as [|r1 raw]; [discriminate|]. cbn [combine map for_each].
    destruct s as [h f]. unfold make_one. destruct (fill _ _ _); [|discriminate].
    destruct (dget (p_units p) n1); [|discriminate]. rewrite Hp. discriminate.
  - destruct Ev as [-> ->]. simpl in Lr. lia.
Qed.

Lemma c55_units names fn kwargs gh rh units hdep p name j e :
  new_multiprop names fn kwargs gh rh units hdep = Ok p -> NoDup names -> 2 <= length names ->
  length hdep = length names -> nth_error names j = Some name -> nth_error hdep j = Some e ->
  dget (p_units p) name = Some (UNum e).
Proof.
  intros H N L1 L2 H1 H2. unfold new_multiprop in H.
  destruct (match units with [] => _ | _ => _ end) as [us|]; [|discriminate].
  cbn [bind] in H. destruct hdep as [|e1 [|e2 hdep]]; simpl in L2; try lia.
  rewrite <- L2 in H. cbn [length] in H. rewrite Nat.eqb_refl in H. inversion H; subst. cbn [p_units].
  change (UNum e1 :: UNum e2 :: map UNum hdep) with (map UNum (e1 :: e2 :: hdep)).
  eapply mkdict_nth; eauto. apply map_nth_error; auto.
Qed.

(** * make_property(write=True) is make_property followed by write_property *)
Lemma make_write nanint p a s s' :
  make_property nanint p a s = (s', Ok tt) -> m_write a = true ->
  exists s1 s2,
    make_property nanint p (mkMA (m_rename a) (m_remap a) (m_kws a) (m_ow a) (m_all a) false (m_owdisk a) (m_dtype a) (m_unload a)) s = (s1, Ok tt) /\
    write_property nanint (new_names p a) (m_owdisk a) (m_dtype a) s1 = (s2, Ok tt) /\
    (if m_unload a then unload_property (new_names p a) s2 = (s', Ok tt) else s' = s2).
Proof.
  intros H Hw. revert H. unfold make_property. cbn [m_rename m_remap m_kws m_ow m_all m_write m_owdisk m_dtype m_unload]. cbv zeta.
  rewrite Hw, andb_false_r. cbn [andb].
  destruct (_ && negb (covers _ _)); [discriminate|].
  destruct (match m_rename a with None => _ | Some r => _ end) as [names|] eqn:En; [|discriminate].
  assert (E : names = new_names p a).
  { unfold new_names. destruct (m_rename a) as [r|]; [|congruence].
    destruct (_ =? _); [congruence|discriminate]. }
  subst names.
  destruct (_ && _); [discriminate|]. destruct (evaluate_all _ _ _ _ _) as [vals|]; [|discriminate].
  destruct (for_each _ _ s) as [s1 [u|e]]; [|discriminate].
  destruct (write_property _ _ _ _ s1) as [s2 [u2|e]] eqn:E2; [|discriminate].
  intros H. exists s1, s2. split; [reflexivity|]. destruct u2. split; [auto|].
  destruct (m_unload a); [auto|]. congruence.
Qed.

Lemma c32_evo {V} bins (stat : dict pyval -> exc V) kwargs remap kws zl zh inh s s1 r :
  eval_stat_evo bins stat kwargs remap kws zl zh inh s = (s1, Ok r) ->
  exists m, s1 = (with_act (fst s) (h_act (fst s)) m, snd s).
Proof. destruct r as [es out]. intros H. apply c47 in H as (_ & _ & _ & (_ & m & ->) & _). eauto. Qed.

(** * C27 *)
Lemma c27_stored n s p ua c d c0 : reachable n s -> dmem (h_loaded (fst s)) p = false ->
  return_property s p ua (Some true) = Ok (Some c) ->
  dget (f_grp (snd s)) p = Some d -> s_data d = SCol c0 ->
  c_int c = c_int c0 /\ c_val c = map (fun i => nth i (c_val c0) None) (if ua then seq 0 n else h_act (fst s)).
Proof.
  intros R Hl H Hd Hc. apply reachable_inv in R.
  destruct (return_parts _ _ _ _ _ H) as (c1 & v & e & Hs & Hin & Ht & E0 & ->).
  inversion E0; subst e.
  unfold source in Hs. apply dmem_none in Hl. rewrite Hl in Hs.
  destruct (smem p (h_saved (fst s))); [|discriminate]. unfold dfind in Hs. rewrite Hd in Hs. cbn [bind] in Hs.
  rewrite Hc in Hs. inversion Hs; subst c1. rewrite (i_n _ _ R) in Ht.
  assert (Hp : p <> "mass_cuts") by (intros ->; apply (i_all_mc _ _ R); auto).
  destruct (i_file _ _ R p d Hd Hp) as (c2 & E2 & L2). rewrite Hc in E2. inversion E2; subst c2.
  rewrite take_ok in Ht.
  2:{ pose proof (act_lt n s c0 ua R L2) as F. rewrite (i_n _ _ R) in F. exact F. }
  inversion Ht; subst v. split; reflexivity.
Qed.

Lemma c27_function n nanint p a s s' :
  reachable n s -> h_h (fst s) <> 0%Qc ->
  make_property nanint p a s = (s', Ok tt) -> m_write a = false -> NoDup (new_names p a) -> p_ret_h p = false ->
  exists args vals, p_fun p args = Ok vals /\
    forall j name v k i, nth_error (new_names p a) j = Some name -> nth_error vals j = Some v ->
      nth_error (if m_all a then seq 0 n else h_act (fst s)) k = Some i ->
      exists c, return_property s' name true (Some false) = Ok (Some c) /\ nth_error (c_val c) i = val_at v k.
Proof.
  intros H1 H2 H3 H4 H5 H6. destruct (c29 n nanint p a s s' H1 H2 H3 H4 H5) as (args & vals & A & _ & _ & B & _).
  exists args, vals. split; auto. intros j name v k i X1 X2 X3. destruct (B j name v X1 X2) as (c & C1 & C2 & _).
  rewrite H6 in C1. exists c. split; auto.
Qed.
