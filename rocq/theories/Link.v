(** Lemmas about the two tables of a light cone file. *)
From Verif Require Import Dict Util Rat HandlerModel HandlerSpec Handler Handler2 Handler3 Handler4 LinkModel LinkSpec.
Open Scope string_scope.
Open Scope list_scope.
Open Scope nat_scope.

(** * What a call does to the group *)
Inductive puts (P : string -> Prop) (g : dict dset_) : dict dset_ -> Prop :=
| puts_refl : puts P g g
| puts_put g1 k d : puts P g g1 -> P k -> puts P g (dset g1 k d).
Inductive dels (P : string -> Prop) (g : dict dset_) : dict dset_ -> Prop :=
| dels_refl : dels P g g
| dels_del g1 k : dels P g g1 -> P k -> dels P g (ddel g1 k).

Lemma puts_trans P g1 g2 g3 : puts P g1 g2 -> puts P g2 g3 -> puts P g1 g3.
Proof. intros A B. induction B; [exact A|]. now constructor. Qed.
Lemma puts_mono (P Q : string -> Prop) g g' : (forall k, P k -> Q k) -> puts P g g' -> puts Q g g'.
Proof. intros PQ A. induction A; constructor; auto. Qed.

Lemma dkeys_dset {A} (d : dict A) k v : dkeys (dset d k v) = if dmem d k then dkeys d else dkeys d ++ [k].
Proof.
  induction d as [|[k' w] d IH]; [reflexivity|]. unfold dmem in *. cbn [dset dkeys map fst smem existsb].
  destruct (String.eqb_spec k k') as [->|N]; [reflexivity|]. cbn [orb dkeys map fst]. fold (dkeys (dset d k v)).
  rewrite IH. unfold smem, dkeys. now destruct (existsb _ _).
Qed.
Lemma nodup_dset {A} (d : dict A) k v : NoDup (dkeys d) -> NoDup (dkeys (dset d k v)).
Proof.
  intros N. rewrite dkeys_dset. destruct (dmem d k) eqn:E; [exact N|].
  apply smem_false in E. apply NoDup_rev in N. rewrite <- (rev_involutive (dkeys d ++ [k])). apply NoDup_rev.
  rewrite rev_app_distr. cbn. constructor; [|exact N]. now rewrite <- in_rev.
Qed.
Lemma nodup_ddel {A} (d : dict A) k : NoDup (dkeys d) -> NoDup (dkeys (ddel d k)).
Proof.
  unfold ddel, dkeys. induction d as [|[k' w] d IH]; [auto|]. cbn. intros N. inversion N as [|? ? N1 N2]; subst.
  destruct (negb _); [|auto]. cbn. constructor; [|auto]. rewrite in_map_iff. intros ([k2 v2] & E & I).
  apply filter_In in I as [I _]. apply N1. cbn in E. subst. now apply (in_map fst) in I.
Qed.

Lemma puts_nodup P g g' : puts P g g' -> NoDup (dkeys g) -> NoDup (dkeys g').
Proof. induction 1; auto using nodup_dset. Qed.
Lemma dels_nodup P g g' : dels P g g' -> NoDup (dkeys g) -> NoDup (dkeys g').
Proof. induction 1; auto using nodup_ddel. Qed.
Lemma puts_keep P g g' k : puts P g g' -> dmem g k = true -> dmem g' k = true.
Proof. induction 1; auto. intros H1. rewrite dmem_dset, IHputs by auto. apply orb_true_r. Qed.
Lemma puts_same P g g' k : puts P g g' -> ~ P k -> dget g' k = dget g k.
Proof. induction 1; auto. intros N. rewrite dget_dset_ne by congruence. auto. Qed.
Lemma dels_sub P g g' k : dels P g g' -> dget g' k = None \/ dget g' k = dget g k.
Proof. induction 1 as [|g1 j D IH Pj]; auto. rewrite dget_ddel. destruct (String.eqb _ _); auto. Qed.
Lemma dels_same P g g' k : dels P g g' -> ~ P k -> dget g' k = dget g k.
Proof.
  induction 1 as [|g1 j D IH Pj]; auto. intros N. rewrite dget_ddel.
  destruct (String.eqb_spec j k) as [->|]; [tauto|auto].
Qed.

Lemma write_one_puts nanint ow dt p s :
  puts (eq p) (f_grp (snd s)) (f_grp (snd (fst (write_one nanint ow dt p s)))) /\
  f_h (snd (fst (write_one nanint ow dt p s))) = f_h (snd s).
Proof.
  destruct s as [h f]. unfold write_one. cbn [fst snd].
  assert (G : puts (eq p) (f_grp f) (f_grp f) /\ f_h f = f_h f) by (split; [constructor|auto]).
  assert (G2 : forall d, puts (eq p) (f_grp f) (dset (f_grp f) p d) /\ f_h f = f_h f) by (split; [constructor; auto; constructor|auto]).
  destruct (dget (h_loaded h) p); [|apply G]. destruct (_ && _); [apply G|]. cbv zeta.
  destruct (dget (f_grp f) p) as [d|].
  - destruct (s_data d); [|apply G]. destruct (negb _); [apply G|].
    destruct (dget (h_units h) p); [|apply G2]. destruct (dget (h_hdep h) p); apply G2.
  - destruct (dget (h_units h) p); [|apply G2]. destruct (dget (h_hdep h) p); apply G2.
Qed.
Lemma write_puts nanint ow dt ps s :
  puts (fun k => In k ps) (f_grp (snd s)) (f_grp (snd (fst (write_property nanint ps ow dt s)))) /\
  f_h (snd (fst (write_property nanint ps ow dt s))) = f_h (snd s).
Proof.
  unfold write_property. revert s. induction ps as [|p ps IH]; intros s; cbn [for_each]; [split; [constructor|reflexivity]|].
  destruct (write_one_puts nanint ow dt p s) as [A B].
  assert (A' : puts (fun k => In k (p :: ps)) (f_grp (snd s)) (f_grp (snd (fst (write_one nanint ow dt p s))))).
  { revert A. apply puts_mono. intros k <-. now left. }
  destruct (write_one nanint ow dt p s) as [s1 [[]|e]]; [|split; [exact A'|exact B]].
  cbn [fst] in *. destruct (IH s1) as [C D]. split; [|now rewrite D].
  refine (puts_trans _ _ _ _ A' _). revert C. apply puts_mono. now right.
Qed.
Lemma delete_dels ps s :
  dels (fun k => In k ps) (f_grp (snd s)) (f_grp (snd (fst (delete_property ps s)))) /\
  f_h (snd (fst (delete_property ps s))) = f_h (snd s).
Proof.
  unfold delete_property.
  apply (for_each_inv (fun t => dels (fun k => In k ps) (f_grp (snd s)) (f_grp (snd t)) /\ f_h (snd t) = f_h (snd s)));
  [|split; [constructor|reflexivity]].
  intros p t I (A & B). destruct (delete_one p t) as [t' [[]|e]] eqn:E.
  - destruct t as [h f]. apply delete_one_ok in E as (E & _). cbn [fst]. rewrite E. cbn. split; [now constructor|exact B].
  - apply delete_one_raise in E. now subst.
Qed.

Definition effect (c : hcall) (g g' : dict dset_) : Prop :=
  match c with
  | HDelete ps => dels (fun k => In k ps) g g'
  | _ => puts (fun k => writes k (LDo c)) g g'
  end.
Lemma hdo_effect nanint s c :
  effect c (f_grp (snd s)) (f_grp (snd (fst (hdo nanint s c)))) /\ f_h (snd (fst (hdo nanint s c))) = f_h (snd s).
Proof.
  destruct c as [ps|ps|p a|ps ow dt|ps|p lo hi r inh|b]; cbn [hdo effect].
  - rewrite load_file. split; [constructor|reflexivity].
  - destruct (unload_file ps s) as [-> _]. split; [constructor|reflexivity].
  - unfold make_property. cbv zeta.
    assert (G : puts (fun k => writes k (LDo (HMake p a))) (f_grp (snd s)) (f_grp (snd s)) /\ f_h (snd s) = f_h (snd s))
      by (split; [constructor|auto]).
    destruct (_ && negb (covers _ _)); [apply G|].
    destruct (match m_rename a with None => _ | Some r => _ end) as [names|] eqn:En; [|apply G].
    assert (Hn : names = match m_rename a with Some r => r | None => p_names p end).
    { destruct (m_rename a); [destruct (_ =? _)|]; now inversion En. }
    destruct (_ && _); [apply G|]. destruct (evaluate_all _ _ _ _ _) as [vals|]; [|apply G].
    match goal with |- context [for_each ?st ?l s] => pose proof (make_loop_file p (if m_all a then seq 0 (h_n (fst s)) else h_act (fst s)) l s) as F end.
    destruct (for_each _ _ _) as [s1 [[]|e]]; cbn [fst snd] in *; [|rewrite F; apply G].
    destruct (m_write a) eqn:Ew; [|cbn [fst]; rewrite F; apply G].
    destruct (write_puts nanint (m_owdisk a) (m_dtype a) names s1) as [A B].
    rewrite F in A, B.
    assert (A' : puts (fun k => writes k (LDo (HMake p a))) (f_grp (snd s))
      (f_grp (snd (fst (write_property nanint names (m_owdisk a) (m_dtype a) s1))))).
    { revert A. apply puts_mono. intros k I. cbn. rewrite <- Hn. now split. }
    destruct (write_property _ _ _ _ _) as [s2 [[]|e]]; cbn [fst] in *; [|now split].
    destruct (m_unload a); [|now split]. destruct (unload_file names s2) as [-> _]. now split.
  - apply write_puts.
  - apply delete_dels.
  - destruct s as [h f]. unfold set_property_range. destruct p as [p|]; [|split; [constructor|reflexivity]].
    destruct (return_property _ _ _ _) as [[c|]|]; split; constructor || reflexivity.
  - split; [constructor|reflexivity].
Qed.
Lemma effect_nodup c g g' : effect c g g' -> NoDup (dkeys g) -> NoDup (dkeys g').
Proof. destruct c; cbn [effect]; apply puts_nodup || apply dels_nodup. Qed.

(** * Groups of references *)
Definition bounded (heap : list dset_) (m : dict nat) : Prop := forall k r, dget m k = Some r -> r < length heap.
Definition inj (m : dict nat) : Prop := forall j k r, dget m j = Some r -> dget m k = Some r -> j = k.

Lemma bounded_tail heap k r m : NoDup (dkeys ((k, r) :: m)) -> bounded heap ((k, r) :: m) -> bounded heap m.
Proof.
  intros N B j q E. apply (B j q). cbn. destruct (String.eqb_spec j k) as [->|]; [|exact E].
  cbn in N. inversion N as [|? ? N1 _]; subst. exfalso. apply N1. apply dget_dkeys. eauto.
Qed.
Lemma group_spec heap m : NoDup (dkeys m) -> bounded heap m ->
  dkeys (group_of heap m) = dkeys m /\
  forall k, dget (group_of heap m) k = match dget m k with Some r => nth_error heap r | None => None end.
Proof.
  induction m as [|[k r] m IH]; intros N B; [auto|].
  destruct IH as [A C]; [now inversion N|eapply bounded_tail; eauto|].
  assert (L : r < length heap) by (apply (B k); cbn; now rewrite String.eqb_refl).
  apply nth_error_Some in L. unfold group_of in *. cbn [flat_map fst snd]. destruct (nth_error heap r) as [d|] eqn:E; [|congruence].
  cbn. split; [now f_equal|]. intros j. destruct (String.eqb j k); [now rewrite E|apply C].
Qed.

Lemma sync_spec full g : inj full -> NoDup (dkeys g) -> forall heap heap' m,
  bounded heap full -> sync full heap g = (heap', m) ->
  length heap <= length heap' /\
  dkeys m = dkeys g /\
  (forall k d, dget g k = Some d -> exists r, dget m k = Some r /\ nth_error heap' r = Some d /\
      match dget full k with Some q => r = q | None => length heap <= r end) /\
  (forall r, r < length heap -> (forall k, dmem g k = true -> dget full k <> Some r) -> nth_error heap' r = nth_error heap r) /\
  inj m.
Proof.
  intros J. induction g as [|[k d] g IH]; intros N heap heap' m B S.
  - cbn in S. injection S as <- <-. split; [auto|]. split; [auto|]. split; [discriminate|]. split; [auto|]. discriminate.
  - cbn in N. inversion N as [|? ? N1 N2]; subst. cbn [sync] in S.
    assert (NK : dget g k = None).
    { destruct (dget g k) eqn:E; [|reflexivity]. exfalso. apply N1, dget_dkeys. eauto. }
    destruct (dget full k) as [r|] eqn:Ek.
    + destruct (sync full (upd heap r d) g) as [h1 m1] eqn:E1. injection S as <- <-.
      assert (B1 : bounded (upd heap r d) full) by (intros j q Q; rewrite upd_length; eauto).
      destruct (IH N2 _ _ _ B1 E1) as (L & K & G & O & I). rewrite upd_length in *.
      assert (Lr : r < length heap) by eauto.
      assert (Hr : nth_error h1 r = Some d).
      { rewrite O by (auto; intros j Hj Q; assert (j = k) by (eapply J; eauto); subst;
          apply dmem_some in Hj as (v & Hv); congruence).
        now apply nth_error_upd_eq. }
      split; [exact L|]. split; [cbn; now f_equal|]. split; [|split].
      * intros j v. cbn. destruct (String.eqb_spec j k) as [->|Nj].
        -- intros [= <-]. exists r. rewrite Ek. auto.
        -- apply G.
      * intros q Lq Hq. assert (q <> r).
        { intros ->. apply (Hq k); [|exact Ek]. apply dmem_some. exists d. cbn. now rewrite String.eqb_refl. }
        rewrite O; [|exact Lq|].
        { apply nth_error_upd_ne; congruence. }
        intros j Hj. apply Hq. unfold dmem in *. cbn. fold (dkeys g). apply orb_true_iff. right. exact Hj.
      * assert (U : forall j, dget m1 j <> Some r).
        { intros j Ej. assert (Dj : dmem m1 j = true) by (apply dmem_some; eauto).
          unfold dmem in Dj. rewrite K in Dj. apply dmem_some in Dj as (v & Hv).
          destruct (G j v Hv) as (q & Q1 & Q2 & Q3). rewrite Q1 in Ej. injection Ej as ->.
          destruct (dget full j) as [q'|] eqn:Ej'; [|lia]. subst q'. assert (j = k) by (eapply J; eauto). subst. congruence. }
        intros a b q. cbn. destruct (String.eqb_spec a k) as [->|Na], (String.eqb_spec b k) as [->|Nb]; auto.
        -- intros [= <-] E2. exfalso. now apply (U b).
        -- intros E2 [= <-]. exfalso. now apply (U a).
        -- apply I.
    + destruct (sync full (heap ++ [d]) g) as [h1 m1] eqn:E1. injection S as <- <-.
      assert (B1 : bounded (heap ++ [d]) full) by (intros j q Q; rewrite app_length; specialize (B j q Q); lia).
      destruct (IH N2 _ _ _ B1 E1) as (L & K & G & O & I). rewrite app_length in *. cbn [length] in *.
      assert (Hr : nth_error h1 (length heap) = Some d).
      { rewrite O by (try lia; intros j Hj Q; specialize (B j _ Q); lia).
        rewrite nth_error_app2, Nat.sub_diag by lia. reflexivity. }
      split; [lia|]. split; [cbn; now f_equal|]. split; [|split].
      * intros j v. cbn. destruct (String.eqb_spec j k) as [->|Nj].
        -- intros [= <-]. exists (length heap). rewrite Ek. auto.
        -- intros Hv. destruct (G j v Hv) as (q & Q1 & Q2 & Q3). exists q. split; [auto|]. split; [auto|].
           destruct (dget full j); [auto|lia].
      * intros q Lq Hq. rewrite O; [apply nth_error_app1; exact Lq|lia|].
        intros j Hj. apply Hq. unfold dmem in *. cbn. fold (dkeys g). apply orb_true_iff. right. exact Hj.
      * assert (U : forall j, dget m1 j <> Some (length heap)).
        { intros j Ej. assert (Dj : dmem m1 j = true) by (apply dmem_some; eauto).
          unfold dmem in Dj. rewrite K in Dj. apply dmem_some in Dj as (v & Hv).
          destruct (G j v Hv) as (q & Q1 & Q2 & Q3). rewrite Q1 in Ej. injection Ej as ->.
          destruct (dget full j) as [q'|] eqn:Ej'; [|lia]. subst q'. specialize (B j _ Ej'). lia. }
        intros a b q. cbn. destruct (String.eqb_spec a k) as [->|Na], (String.eqb_spec b k) as [->|Nb]; auto.
        -- intros [= <-] E2. exfalso. now apply (U b).
        -- intros E2 [= <-]. exfalso. now apply (U a).
        -- apply I.
Qed.
Lemma sync_bounded full heap g heap' m : inj full -> NoDup (dkeys g) -> bounded heap full -> sync full heap g = (heap', m) ->
  bounded heap' m.
Proof.
  intros J N B S k r E. destruct (sync_spec full g J N heap heap' m B S) as (_ & K & G & _).
  assert (D : dmem m k = true) by (apply dmem_some; eauto). unfold dmem in D. rewrite K in D.
  apply dmem_some in D as (d & D). destruct (G k d D) as (q & Q1 & Q2 & _). rewrite Q1 in E. injection E as ->.
  apply nth_error_Some. congruence.
Qed.

(** * The invariant *)
Record lwf (s : lst) : Prop := {
  w_nd : NoDup (dkeys (l_full s));
  w_inj : inj (l_full s);
  w_full : bounded (l_heap s) (l_full s);
  w_basic : bounded (l_heap s) (l_basic s);
  w_same : forall j k r, dget (l_basic s) j = Some r -> dget (l_full s) k = Some r -> j = k }.

Lemma view_get s k : lwf s -> dget (f_grp (snd (lview s))) k = full_get s k.
Proof. intros W. cbn. apply group_spec; apply W. Qed.
Lemma view_keys s : lwf s -> dkeys (f_grp (snd (lview s))) = dkeys (l_full s).
Proof. intros W. cbn. apply group_spec; apply W. Qed.

Definition linked (s : lst) (k : string) : Prop := exists r, dget (l_basic s) k = Some r /\ dget (l_full s) k = Some r.
Lemma linked_get s k : linked s k -> basic_get s k = full_get s k.
Proof. intros (r & A & B). unfold basic_get, full_get. now rewrite A, B. Qed.

(** two dictionaries with the same keys in order and the same values *)
Lemma dict_ext {A} (a b : dict A) : NoDup (dkeys a) -> dkeys a = dkeys b -> (forall k, dget a k = dget b k) -> a = b.
Proof.
  revert b. induction a as [|[k v] a IH]; intros [|[j w] b] N K G; try discriminate; [reflexivity|].
  cbn in K. injection K as <- K. cbn in N. inversion N as [|? ? N1 N2]; subst.
  pose proof (G k) as Gk. cbn in Gk. rewrite String.eqb_refl in Gk. injection Gk as <-. f_equal.
  apply IH; auto. intros q. specialize (G q). cbn in G. destruct (String.eqb q k) eqn:Eq; [|exact G]. apply String.eqb_eq in Eq as ->.
  assert (E1 : dget a k = None).
  { destruct (dget a k) eqn:E; [|reflexivity]. exfalso. apply N1, dget_dkeys. eauto. }
  assert (E2 : dget b k = None).
  { destruct (dget b k) eqn:E; [|reflexivity]. exfalso. apply N1. fold (dkeys a) in *. rewrite K. apply dget_dkeys. eauto. }
  congruence.
Qed.

Lemma step_facts nanint s c s' : lwf s -> link_step nanint s (LDo c) = s' ->
  lwf s' /\ l_basic s' = l_basic s /\ lview s' = fst (hdo nanint (lview s) c) /\
  (forall k, dmem (l_basic s) k = true -> ~ linked s k -> ~ linked s' k /\ basic_get s' k = basic_get s k) /\
  (forall k, linked s k -> full_get s' k = None -> ~ linked s' k /\ basic_get s' k = basic_get s k) /\
  (forall k, linked s k -> full_get s' k <> None -> linked s' k).
Proof.
  intros W <-. destruct (hdo_effect nanint (lview s) c) as [F FH]. cbn [link_step].
  set (t := fst (hdo nanint (lview s) c)) in *.
  assert (NG : NoDup (dkeys (f_grp (snd t)))).
  { eapply effect_nodup; [exact F|]. rewrite view_keys by exact W. apply W. }
  destruct (sync (l_full s) (l_heap s) (f_grp (snd t))) as [heap m] eqn:S.
  pose proof (sync_spec _ _ (w_inj s W) NG _ _ _ (w_full s W) S) as (L & K & G & O & I).
  pose proof (sync_bounded _ _ _ _ _ (w_inj s W) NG (w_full s W) S) as BM.
  set (s' := mkL (fst t) (l_h s) heap m (l_basic s)).
  assert (MR : forall k r, dget m k = Some r -> r < length (l_heap s) -> dget (l_full s) k = Some r).
  { intros k r E Lr. assert (D : dmem m k = true) by (apply dmem_some; eauto). unfold dmem in D. rewrite K in D.
    apply dmem_some in D as (d & D). destruct (G k d D) as (q & Q1 & Q2 & Q3). rewrite Q1 in E. injection E as ->.
    destruct (dget (l_full s) k); [congruence|lia]. }
  assert (W' : lwf s').
  { constructor; cbn [l_full l_basic l_heap s'].
    - rewrite K. exact NG.
    - exact I.
    - exact BM.
    - intros k r E. pose proof (w_basic s W k r E). lia.
    - intros j k r E1 E2. apply (w_same s W j k r E1). apply MR; [exact E2|]. exact (w_basic s W j r E1). }
  assert (FG : forall k, full_get s' k = dget (f_grp (snd t)) k).
  { intros k. unfold full_get. cbn [s' l_full l_heap]. destruct (dget (f_grp (snd t)) k) as [d|] eqn:E.
    - destruct (G k d E) as (r & -> & R & _). exact R.
    - destruct (dget m k) as [r|] eqn:Em; [|reflexivity].
      assert (D : dmem m k = true) by (apply dmem_some; eauto). unfold dmem in D. rewrite K in D.
      apply dmem_some in D as (d & D). congruence. }
  assert (BG : forall k, dmem (l_basic s) k = true -> (forall r, dget (l_basic s) k = Some r -> dget (f_grp (snd t)) k = None \/ dget (l_full s) k <> Some r) ->
    basic_get s' k = basic_get s k).
  { intros k D H. apply dmem_some in D as (r & D). unfold basic_get. cbn [s' l_basic l_heap]. rewrite D.
    apply O; [exact (w_basic s W k r D)|]. intros j Dj Ej. pose proof (w_same s W k j r D Ej) as <-.
    apply dmem_some in Dj as (v & Dj). destruct (H r D); congruence. }
  split; [exact W'|]. split; [reflexivity|]. split; [|split; [|split]].
  - destruct t as [h f] eqn:Et. unfold lview. cbn [s' l_hand l_h l_heap l_full fst snd] in *. f_equal.
    destruct f as [fh fg]. cbn in FH. subst fh. f_equal. cbn [f_grp snd] in *.
    destruct (group_spec heap m (w_nd s' W') BM) as [GK GG].
    apply dict_ext; [rewrite GK, K; exact NG|congruence|]. intros k. rewrite GG. exact (FG k).
  - intros k D NL. split.
    + intros (r & A & B). apply NL. exists r. split; [exact A|]. apply MR; [exact B|]. exact (w_basic s W k r A).
    + apply BG; [exact D|]. intros r A. right. intros B. apply NL. exists r. auto.
  - intros k (r & A & B) N. split.
    + intros (q & Q1 & Q2). rewrite FG in N. assert (D : dmem m k = true) by (apply dmem_some; cbn in Q2; eauto).
      unfold dmem in D. rewrite K in D. apply dmem_some in D as (d & D). congruence.
    + apply BG; [apply dmem_some; eauto|]. intros q _. left. now rewrite <- FG.
  - intros k (r & A & B) N. rewrite FG in N. destruct (dget (f_grp (snd t)) k) as [d|] eqn:E; [|congruence].
    destruct (G k d E) as (q & Q1 & Q2 & Q3). rewrite B in Q3. subst q. exists r. cbn. auto.
Qed.

Lemma open_step nanint s extra inh : exists hd, link_step nanint s (LOpen extra inh) = mkL hd (l_h s) (l_heap s) (l_full s) (l_basic s) /\
  lview (link_step nanint s (LOpen extra inh)) = plain_step nanint (lview s) (LOpen extra inh).
Proof.
  cbn [link_step plain_step]. destruct (open_handler _ _ _ _) as [hd|e].
  - exists hd. split; reflexivity.
  - exists (l_hand s). split; [destruct s; reflexivity|reflexivity].
Qed.

Lemma step_all nanint s c : lwf s ->
  let s' := link_step nanint s c in
  lwf s' /\ l_basic s' = l_basic s /\ lview s' = plain_step nanint (lview s) c /\
  (forall k, dmem (l_basic s) k = true -> ~ linked s k -> ~ linked s' k /\ basic_get s' k = basic_get s k) /\
  (forall k, linked s k -> full_get s' k = None -> ~ linked s' k /\ basic_get s' k = basic_get s k) /\
  (forall k, linked s k -> full_get s' k <> None -> linked s' k).
Proof.
  intros W. destruct c as [c|extra inh]; [exact (step_facts nanint s c _ W eq_refl)|].
  destruct (open_step nanint s extra inh) as (hd & E & V). cbv zeta. rewrite V. rewrite E.
  split; [destruct W; constructor; auto|]. split; [reflexivity|]. split; [reflexivity|]. split; [|split].
  - intros k _ NL. split; [exact NL|reflexivity].
  - intros k (r & A & B) N. exfalso. unfold full_get in N. cbn in N. rewrite B in N. apply nth_error_None in N.
    pose proof (w_full s W k r B). lia.
  - intros k L _. exact L.
Qed.

Lemma run_wf nanint cs : forall s, lwf s -> lwf (link_run nanint s cs) /\ l_basic (link_run nanint s cs) = l_basic s /\
  lview (link_run nanint s cs) = fold_left (plain_step nanint) cs (lview s).
Proof.
  induction cs as [|c cs IH]; intros s W; [auto|]. destruct (step_all nanint s c W) as (A & B & C & _).
  destruct (IH _ A) as (D & E & F). cbn [link_run fold_left] in *. unfold link_run in *. rewrite E, F, C. auto.
Qed.

Lemma refs_get (ks : list string) n k : NoDup ks ->
  (forall r, dget (combine ks (seq n (length ks))) k = Some r -> nth_error ks (r - n) = Some k /\ n <= r < n + length ks) /\
  (In k ks -> exists r, dget (combine ks (seq n (length ks))) k = Some r).
Proof.
  revert n. induction ks as [|a ks IH]; intros n N; [split; [discriminate|intros []]|].
  inversion N as [|? ? N1 N2]; subst. destruct (IH (S n) N2) as [A B]. cbn [length seq combine dget].
  destruct (String.eqb_spec k a) as [->|Nk]; split.
  - intros r [= <-]. rewrite Nat.sub_diag. cbn. split; [reflexivity|lia].
  - eauto.
  - intros r E. destruct (A r E) as [A1 A2]. replace (r - n) with (S (r - S n)) by lia. cbn. split; [exact A1|lia].
  - intros [->|I]; [congruence|auto].
Qed.
Lemma dkeys_combine (ks : list string) (l : list nat) : length ks = length l -> dkeys (combine ks l) = ks.
Proof. revert l. induction ks as [|k ks IH]; intros [|x l] H; try discriminate; [reflexivity|]. cbn. f_equal. apply IH. now injection H. Qed.

Lemma open_wf h g extra inh s : NoDup (dkeys g) -> link_open h g extra inh = Ok s ->
  lwf s /\ l_full s = l_basic s /\ dkeys (l_basic s) = dkeys g /\ f_grp (snd (lview s)) = g /\
  forall k, basic_get s k = dget g k.
Proof.
  intros N. unfold link_open, link_close. destruct (open_handler _ _ _ _) as [hd|e]; [|discriminate]. cbn. intros [= <-].
  assert (Lk : length (dkeys g) = length g) by apply map_length.
  set (refs := combine (dkeys g) (seq 0 (length g))).
  assert (Kr : dkeys refs = dkeys g) by (apply dkeys_combine; rewrite seq_length; exact Lk).
  assert (B : bounded (map snd g) refs).
  { intros k r E. unfold refs in E. rewrite <- Lk in E. apply (refs_get (dkeys g) 0 k N) in E as [_ E]. rewrite map_length, <- Lk. lia. }
  assert (J : inj refs).
  { intros j k r E1 E2. unfold refs in E1, E2. rewrite <- Lk in E1, E2.
    apply (refs_get (dkeys g) 0 j N) in E1 as [E1 _]. apply (refs_get (dkeys g) 0 k N) in E2 as [E2 _]. congruence. }
  assert (NR : NoDup (dkeys refs)) by (rewrite Kr; exact N).
  assert (Gg : group_of (map snd g) refs = g).
  { unfold refs. clear. change (seq 0 (length g)) with (seq (length (@nil dset_)) (length g)).
    change (map snd g) with ([] ++ map snd g). generalize (@nil dset_) as pre.
    induction g as [|[k d] g IH]; intros pre; [reflexivity|]. cbn [length seq dkeys map fst snd combine].
    unfold group_of. cbn [flat_map fst snd]. rewrite nth_error_app2, Nat.sub_diag by lia. cbn [nth_error app]. f_equal.
    specialize (IH (pre ++ [d])). rewrite app_length in IH. cbn [length] in IH. rewrite Nat.add_1_r in IH.
    rewrite <- app_assoc in IH. exact IH. }
  split; [constructor; cbn; auto|]. split; [reflexivity|]. split; [exact Kr|]. split; [exact Gg|].
  intros k. rewrite <- Gg at 2. symmetry. now apply group_spec.
Qed.

(** * Histories *)
Lemma after_wf g cs s : link_after g cs s -> lwf s /\ dkeys (l_basic s) = dkeys g.
Proof.
  intros (N & nanint & h & extra & inh & s0 & O & ->). destruct (open_wf _ _ _ _ _ N O) as (W & _ & K & _).
  destruct (run_wf nanint cs s0 W) as (A & B & _). split; [exact A|]. now rewrite B.
Qed.

Lemma plain_keep nanint t c k : ~ deletes k c ->
  dmem (f_grp (snd t)) k = true -> dmem (f_grp (snd (plain_step nanint t c))) k = true.
Proof.
  destruct c as [c|extra inh]; cbn [plain_step]; intros N D.
  - destruct (hdo_effect nanint t c) as [F _]. destruct c; cbn [effect] in F; try exact (puts_keep _ _ _ _ F D).
    cbn in N. apply dmem_some in D as (d & D). apply dmem_some. exists d. now rewrite (dels_same _ _ _ _ F N).
  - destruct (open_handler _ _ _ _); exact D.
Qed.
Lemma plain_same nanint t c k : ~ writes k c ->
  dget (f_grp (snd (plain_step nanint t c))) k = None \/
  dget (f_grp (snd (plain_step nanint t c))) k = dget (f_grp (snd t)) k.
Proof.
  destruct c as [c|extra inh]; cbn [plain_step]; intros M.
  - destruct (hdo_effect nanint t c) as [F _]. destruct c; cbn [effect] in F; try (right; exact (puts_same _ _ _ _ F M)).
    exact (dels_sub _ _ _ _ F).
  - right. destruct (open_handler _ _ _ _); reflexivity.
Qed.

Lemma run_linked nanint cs k : (forall c, In c cs -> ~ deletes k c) -> forall s, lwf s -> linked s k ->
  linked (link_run nanint s cs) k.
Proof.
  induction cs as [|c cs IH]; intros H s W L; [exact L|].
  destruct (step_all nanint s c W) as (A & _ & V & _ & _ & Z). apply IH; [intros; apply H; now right|exact A|].
  apply Z; [exact L|]. rewrite <- view_get by exact A. rewrite V.
  assert (D : dmem (f_grp (snd (lview s))) k = true).
  { apply dmem_some. rewrite view_get by exact W. destruct L as (r & L1 & L2). unfold full_get. rewrite L2.
    destruct (nth_error (l_heap s) r) eqn:E; [eauto|]. apply nth_error_None in E. pose proof (w_full s W k r L2). lia. }
  apply (plain_keep nanint _ c) in D; [|apply H; now left]. apply dmem_some in D as (d & ->). discriminate.
Qed.
Lemma run_frozen nanint cs k : forall s, lwf s -> dmem (l_basic s) k = true -> ~ linked s k ->
  basic_get (link_run nanint s cs) k = basic_get s k.
Proof.
  induction cs as [|c cs IH]; intros s W D N; [reflexivity|].
  destruct (step_all nanint s c W) as (A & B & _ & Z & _). destruct (Z k D N) as [Z1 Z2].
  rewrite <- Z2. apply IH; [exact A|now rewrite B|exact Z1].
Qed.

Lemma shared g cs s k : link_after g cs s -> In k (dkeys g) -> (forall c, In c cs -> ~ deletes k c) -> linked s k.
Proof.
  intros (N & nanint & h & extra & inh & s0 & O & ->) I H. destruct (open_wf _ _ _ _ _ N O) as (W & E & K & _).
  apply run_linked; auto. rewrite <- K in I. apply dget_dkeys in I as (r & I). exists r. now rewrite E.
Qed.
Lemma frozen g cs s k nanint cs' : link_after g cs s -> In k (dkeys g) -> full_get s k = None ->
  basic_get (link_run nanint s cs') k = basic_get s k.
Proof.
  intros A I E. destruct (after_wf _ _ _ A) as [W K]. apply run_frozen; [exact W|apply smem_In; now rewrite K|].
  intros (r & L1 & L2). unfold full_get in E. rewrite L2 in E. apply nth_error_None in E. pose proof (w_full s W k r L2). lia.
Qed.
(** one step never loses what 'Lightcone Basic' held when the name is unlinked *)
Lemma unlink g cs s k nanint c : link_after g cs s -> In k (dkeys g) -> full_get (link_step nanint s c) k = None ->
  basic_get (link_step nanint s c) k = basic_get s k.
Proof.
  intros A I E. destruct (after_wf _ _ _ A) as [W K]. destruct (step_all nanint s c W) as (_ & _ & _ & Z1 & Z2 & _).
  assert (D : dmem (l_basic s) k = true) by (apply smem_In; now rewrite K).
  apply dmem_some in D as D'. destruct D' as (r & D').
  destruct (dget (l_full s) k) as [q|] eqn:F.
  - destruct (Nat.eq_dec q r) as [->|Nq].
    + apply Z2; [exists r; auto|exact E].
    + apply Z1; [exact D|]. intros (r' & L1 & L2). congruence.
  - apply Z1; [exact D|]. intros (r' & L1 & L2). congruence.
Qed.
Lemma kept g cs s k : link_after g cs s -> In k (dkeys g) -> (forall c, In c cs -> ~ writes k c) ->
  basic_get s k = dget g k.
Proof.
  intros (N & nanint & h & extra & inh & s0 & O & ->) I H. destruct (open_wf _ _ _ _ _ N O) as (W & E & K & V & G).
  rewrite <- (G k).
  assert (D0 : dmem (l_basic s0) k = true) by (apply smem_In; now rewrite K).
  clear O G V E. revert s0 W K D0. induction cs as [|c cs IH]; intros s W K D; [reflexivity|].
  destruct (step_all nanint s c W) as (A & B & V & Z1 & Z2 & Z3). unfold link_run in *. cbn [fold_left].
  rewrite (IH (fun c' I' => H c' (or_intror I')) _ A); [|now rewrite B|now rewrite B].
  apply dmem_some in D as D'. destruct D' as (r & D').
  assert (C : linked s k \/ ~ linked s k).
  { destruct (dget (l_full s) k) as [q|] eqn:F; [destruct (Nat.eq_dec q r) as [->|Nq]|];
    [left; exists r; auto|right; intros (r' & L1 & L2); congruence..]. }
  destruct C as [L|L]; [|now apply Z1].
  destruct (full_get (link_step nanint s c) k) as [d|] eqn:F; [|now apply Z2].
  assert (L' : linked (link_step nanint s c) k) by (apply Z3; congruence).
  rewrite (linked_get _ _ L), (linked_get _ _ L'), <- (view_get _ _ W), <- (view_get _ _ A), V.
  rewrite <- (view_get _ _ A), V in F. destruct (plain_same nanint (lview s) c k) as [P|P]; [apply H; now left|congruence|exact P].
Qed.

(** a successful delete *)
Lemma deleted g cs s k nanint ps t : link_after g cs s -> In k (dkeys g) -> In k ps ->
  delete_property ps (lview s) = (t, Ok tt) ->
  let s' := link_step nanint s (LDo (HDelete ps)) in
  lview s' = t /\ full_get s' k = None /\ forall cs', basic_get (link_run nanint s' cs') k = basic_get s k.
Proof.
  intros A I P E s'. destruct (after_wf _ _ _ A) as [W K].
  destruct (step_all nanint s (LDo (HDelete ps)) W) as (W' & B & V & _). fold s' in W', B, V.
  cbn [plain_step hdo] in V. rewrite E in V. cbn [fst] in V.
  assert (F : full_get s' k = None).
  { rewrite <- view_get by exact W'. rewrite V. destruct (c30_delete _ _ _ E) as (_ & G & _). rewrite G.
    apply smem_In in P. now rewrite P. }
  assert (D : dmem (l_basic s') k = true) by (unfold dmem; rewrite B, K; now apply smem_In).
  split; [exact V|]. split; [exact F|]. intros cs'. rewrite <- (unlink g cs s k nanint _ A I F).
  apply run_frozen; [exact W'|exact D|]. fold s'.
  intros (r & L1 & L2). unfold full_get in F. rewrite L2 in F. apply nth_error_None in F. pose proof (w_full s' W' k r L2). lia.
Qed.

(** a successful write *)
Lemma written g cs s k nanint ps ow t : link_after g cs s -> In k (dkeys g) -> (forall c, In c cs -> ~ deletes k c) ->
  In k ps -> write_property nanint ps ow None (lview s) = (t, Ok tt) ->
  let s' := link_step nanint s (LDo (HWrite ps ow None)) in
  exists c d, dget (h_loaded (l_hand s)) k = Some c /\ basic_get s' k = Some d /\
    s_data d = SCol (on_disk nanint (full_get s k) c).
Proof.
  intros A I H P E s'. destruct (after_wf _ _ _ A) as [W K].
  destruct (step_all nanint s (LDo (HWrite ps ow None)) W) as (W' & B & V & _ & _ & Z). fold s' in W', B, V, Z.
  cbn [plain_step hdo] in V. rewrite E in V. cbn [fst] in V.
  destruct (c30_write _ _ _ _ _ _ E P) as (c & u & e & d & L & _ & _ & D & _ & _ & D3).
  exists c, d. split; [exact L|]. rewrite view_get in D3 by exact W. split; [|exact D3].
  assert (F : full_get s' k = Some d) by (rewrite <- view_get by exact W'; rewrite V; exact D).
  rewrite linked_get; [exact F|]. apply Z; [exact (shared _ _ _ _ A I H)|congruence].
Qed.

Lemma refines g cs s : link_after g cs s -> exists nanint h hd extra inh,
  open_handler (mkFile h g) None extra inh = Ok hd /\
  lview s = fold_left (plain_step nanint) cs (hd, mkFile h g) /\
  forall k, full_get s k = dget (f_grp (snd (lview s))) k.
Proof.
  intros A. destruct (after_wf _ _ _ A) as [W' _].
  destruct A as (N & nanint & h & extra & inh & s0 & O & ->). destruct (open_wf _ _ _ _ _ N O) as (W & _ & _ & V & _).
  unfold link_open in O. destruct (link_close g) as [[heap full] basic] eqn:Ec.
  destruct (open_handler _ _ _ _) as [hd|] eqn:Eh; [|discriminate]. cbn in O. injection O as <-.
  change (group_of heap full = g) in V. rewrite V in Eh.
  exists nanint, h, hd, extra, inh. split; [exact Eh|]. split; [|intros; symmetry; now apply view_get].
  destruct (run_wf nanint cs _ W) as (_ & _ & ->). unfold lview. cbn [l_hand l_h l_heap l_full]. now rewrite V.
Qed.
