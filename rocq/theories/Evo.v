(** Lemmas about the keywords of eval_stat_evo. *)
From Verif Require Import Dict Util Rat HandlerModel HandlerSpec Handler Handler2 Handler4 EvoModel EvoSpec.
From Coq Require Import Permutation Sorted.
Open Scope string_scope. Open Scope list_scope.

(** * Without the volume keyword it is the model of C47 *)
Lemma evo_loop_bins {V} vol (stat : dict pyval -> exc V) kwargs remap zl zh in_h bins kws s acc :
  (fst (fst (evo_loop vol bins stat kwargs remap kws zl zh false in_h s acc)), snd (evo_loop vol bins stat kwargs remap kws zl zh false in_h s acc)) =
  evo_bins bins stat kwargs remap kws zl zh in_h s acc.
Proof.
  revert kws s acc. induction bins as [|a [|b bins] IH]; intros kws s acc; try reflexivity.
  cbn [evo_loop evo_bins]. destruct (set_property_range _ _ _ _ _ s) as [s1 [u|e]]; [|reflexivity].
  cbv zeta. destruct (eval_stat _ _ _ _ _ _ _); [|reflexivity]. apply IH.
Qed.
Lemma evo_with_evo {V} vol bins (stat : dict pyval -> exc V) kwargs remap kws zl zh inh s :
  let r := evo_with vol bins stat kwargs remap kws zl zh false inh s in
  (fst (fst r), snd r) = eval_stat_evo bins stat kwargs remap kws zl zh inh s.
Proof.
  unfold evo_with, eval_stat_evo. rewrite <- (evo_loop_bins vol).
  destruct (evo_loop _ _ _ _ _ _ _ _ _ _ s []) as [[s1 k] [vs|e]]; reflexivity.
Qed.

(** * The keywords of each bin *)
(** zmin and zmax after a bin *)
Definition gone (kws : dict pyval) : dict pyval := ddel (ddel kws "zmin") "zmax".
Lemma gone_get kws k : dget (gone kws) k = if (k =? "zmin") || (k =? "zmax") then None else dget kws k.
Proof.
  unfold gone. rewrite !dget_ddel. rewrite (String.eqb_sym "zmax" k), (String.eqb_sym "zmin" k).
  destruct (k =? "zmin"), (k =? "zmax"); reflexivity.
Qed.

Lemma evo_loop_spec {V} vol (stat : dict pyval -> exc V) kwargs remap zl zh vk in_h bins s kws acc s1 k1 out :
  evo_loop vol bins stat kwargs remap kws zl zh vk in_h s acc = (s1, k1, Ok out) ->
  (exists act m, s1 = (with_act (fst s) act m, snd s)) /\
  (length bins < 2 -> k1 = kws) /\
  (2 <= length bins ->
    (forall k, k <> "volume" \/ vk = false -> dget k1 k = if (k =? "zmin") || (k =? "zmax") then None else dget kws k) /\
    (vk = true -> exists lo hi w, nth_error bins (length bins - 2) = Some lo /\ nth_error bins (length bins - 1) = Some hi /\ vol lo hi in_h = Ok w /\ dget k1 "volume" = Some (VNum w))) /\
  exists vs, out = acc ++ vs /\ length vs = length bins - 1 /\
    forall b v, nth_error vs b = Some v ->
      exists lo hi act k' args, nth_error bins b = Some lo /\ nth_error bins (S b) = Some hi /\
        ascending act /\ (forall i, In i act <-> value_in s "redshift" None (Fin lo) (Fin hi) i) /\
        (dget k' "zmin" = if zl then Some (VNum lo) else if (b =? 0)%nat then dget kws "zmin" else None) /\
        (dget k' "zmax" = if zh then Some (VNum hi) else if (b =? 0)%nat then dget kws "zmax" else None) /\
        (if vk then exists w, vol lo hi in_h = Ok w /\ dget k' "volume" = Some (VNum w) else dget k' "volume" = dget kws "volume") /\
        (forall k, k <> "zmin" -> k <> "zmax" -> k <> "volume" -> dget k' k = dget kws k) /\
        stat args = Ok v /\
        forall k, arg_spec (with_act (fst s) act (length act), snd s) kwargs remap false in_h k' k (dget args k).
Proof.
  revert s kws acc s1 k1 out. induction bins as [|a bins IH]; intros s kws acc s1 k1 out H.
  { inversion H; subst. split; [exists (h_act (fst s1)), (h_nact (fst s1)); destruct s1 as [[] ]; reflexivity|].
    split; [auto|]. split; [simpl; lia|]. exists []. rewrite app_nil_r. repeat split; auto. intros [|b]; discriminate. }
  destruct bins as [|b0 bins].
  { inversion H; subst. split; [exists (h_act (fst s1)), (h_nact (fst s1)); destruct s1 as [[] ]; reflexivity|].
    split; [auto|]. split; [simpl; lia|]. exists []. rewrite app_nil_r. repeat split; auto. intros [|b]; discriminate. }
  cbn [evo_loop] in H.
  destruct (set_property_range _ _ _ _ _ s) as [s2 [[]|e]] eqn:E; [|discriminate].
  apply range_value in E as (act & -> & Ha & Hact). cbv zeta in H.
  set (k2 := if zh then _ else _) in H.
  assert (K2 : (dget k2 "zmin" = if zl then Some (VNum a) else dget kws "zmin") /\ (dget k2 "zmax" = if zh then Some (VNum b0) else dget kws "zmax") /\
               (forall k, k <> "zmin" -> k <> "zmax" -> dget k2 k = dget kws k)).
  { unfold k2. destruct zl, zh; (split; [|split]); intros; repeat rewrite dget_dset_ne by (auto; discriminate); try rewrite dget_dset_eq; auto. }
  destruct K2 as (K2a & K2b & K2c).
  destruct (if vk then _ else Ok k2) as [k3|e] eqn:E3; [|discriminate].
  assert (K3 : (forall k, k <> "volume" -> dget k3 k = dget k2 k) /\
               (if vk then exists w, vol a b0 in_h = Ok w /\ dget k3 "volume" = Some (VNum w) else dget k3 "volume" = dget kws "volume")).
  { destruct vk.
    - destruct (vol a b0 in_h) as [w|]; [|discriminate]. cbn [bind] in E3. injection E3 as <-. split; [intros k N; apply dget_dset_ne; auto|].
      exists w. split; auto. apply dget_dset_eq.
    - injection E3 as <-. split; auto. apply K2c; discriminate. }
  destruct K3 as (K3a & K3b). clear E3.
  destruct (eval_stat _ _ _ _ k3 false (Some in_h)) as [v|] eqn:Ev; [|discriminate].
  apply c32 in Ev as (args & Es & Eargs). fold (gone k3) in H.
  apply IH in H as ((act' & m & ->) & Hs & Hl & vs & -> & Lv & Hv). split; [exists act', m; reflexivity|].
  split; [simpl; lia|]. split.
  { intros _. split.
    - intros k N. destruct bins as [|b1 bins].
      + rewrite Hs by (simpl; lia). rewrite gone_get. destruct ((k =? "zmin") || (k =? "zmax")) eqn:Z; [reflexivity|].
        apply orb_false_iff in Z as [Z1 Z2]. apply String.eqb_neq in Z1, Z2.
        destruct (String.eqb_spec k "volume") as [->|Nv].
        * destruct N as [N|N]; [congruence|]. rewrite N in K3b. exact K3b.
        * rewrite K3a by auto. apply K2c; auto.
      + destruct Hl as [Hl _]; [simpl; lia|]. rewrite Hl by exact N. rewrite gone_get.
        destruct ((k =? "zmin") || (k =? "zmax")) eqn:Z; [reflexivity|].
        apply orb_false_iff in Z as [Z1 Z2]. apply String.eqb_neq in Z1, Z2.
        destruct (String.eqb_spec k "volume") as [->|Nv].
        * destruct N as [N|N]; [congruence|]. rewrite N in K3b. exact K3b.
        * rewrite K3a by auto. apply K2c; auto.
    - intros Hk. rewrite Hk in K3b. destruct bins as [|b1 bins].
      + rewrite Hs by (simpl; lia). destruct K3b as (w & W1 & W2). exists a, b0, w. split; [reflexivity|]. split; [reflexivity|]. split; [exact W1|]. rewrite gone_get. exact W2.
      + destruct Hl as [_ Hl]; [simpl; lia|]. destruct (Hl Hk) as (lo & hi & w & L1 & L2 & L3 & L4).
        assert (N2 : length (a :: b0 :: b1 :: bins) - 2 = S (length (b0 :: b1 :: bins) - 2)) by (simpl; lia).
        assert (N1 : length (a :: b0 :: b1 :: bins) - 1 = S (length (b0 :: b1 :: bins) - 1)) by (simpl; lia).
        exists lo, hi, w. rewrite N1, N2. repeat split; auto. }
  exists (v :: vs). rewrite <- app_assoc. cbn [app length]. split; auto. split; [simpl in *; lia|].
  intros [|b] x Hx; cbn [nth_error] in *.
  - inversion Hx; subst x. exists a, b0, act, k3, args. cbn [Nat.eqb].
    split; [auto|]. split; [auto|]. split; [auto|]. split; [exact Hact|].
    split; [rewrite K3a by discriminate; exact K2a|]. split; [rewrite K3a by discriminate; exact K2b|]. split; [exact K3b|].
    split; [intros k N1 N2 N3; rewrite K3a by auto; apply K2c; auto|]. split; [exact Es|exact Eargs].
  - destruct (Hv b x Hx) as (lo & hi & act2 & k' & args2 & B1 & B2 & B3 & B4 & B5 & B6 & B7 & B8 & B9 & B10).
    exists lo, hi, act2, k', args2. split; [auto|]. split; [auto|]. split; [auto|].
    split; [intros i; rewrite B4; apply value_act|]. cbn [Nat.eqb].
    split; [rewrite B5; destruct zl; auto; destruct (b =? 0)%nat; auto; rewrite gone_get; reflexivity|].
    split; [rewrite B6; destruct zh; auto; destruct (b =? 0)%nat; auto; rewrite gone_get; reflexivity|].
    split; [destruct vk; [exact B7|]; rewrite B7, gone_get; exact K3b|].
    split; [|auto]. intros k N1 N2 N3. rewrite B8 by auto. rewrite gone_get.
    destruct (String.eqb_spec k "zmin"); [congruence|]. destruct (String.eqb_spec k "zmax"); [congruence|]. cbn [orb].
    rewrite K3a by auto. apply K2c; auto.
Qed.
Lemma qsort_len l : length (qsort l) = length l.
Proof. symmetry. apply Permutation_length, qsort_perm. Qed.

(** * A call *)
Lemma evo_call_ok {V} vol (c : ecall V) s d s1 d1 es out : evo_call vol c s d = (s1, d1, Ok (es, out)) ->
  exists s2 k, evo_loop vol (qsort (e_bins c)) (e_stat c) (e_kwargs c) (e_remap c) (given c d) (e_zmin c) (e_zmax c) (e_vol c) (c_units c s) s [] = (s2, k, Ok out) /\
  es = qsort (e_bins c) /\ d1 = (match e_kws c with Some _ => d | None => k end) /\ s1 = (with_act (fst s2) (h_act (fst s)) (h_nact (fst s2)), snd s2).
Proof.
  unfold evo_call, evo_with, given, c_units. destruct (evo_loop _ _ _ _ _ _ _ _ _ _ s []) as [[s2 k] [vs|e]] eqn:E; [|discriminate].
  intros H. injection H as <- <- <- <-. exists s2, k. auto.
Qed.

Lemma c76_bins {V} vol (c : ecall V) s d s1 d1 es out : evo_call vol c s d = (s1, d1, Ok (es, out)) ->
  Permutation (e_bins c) es /\ StronglySorted Qcle es /\ length out = length es - 1 /\
  forall b v, nth_error out b = Some v ->
    exists lo hi act args, nth_error es b = Some lo /\ nth_error es (S b) = Some hi /\
      ascending act /\ (forall i, In i act <-> bin_row s es b i) /\ e_stat c args = Ok v /\
      (forall k, smem k (e_kwargs c) = true -> arg_spec (with_act (fst s) act (length act), snd s) (e_kwargs c) (e_remap c) false (c_units c s) [] k (dget args k)) /\
      (forall k, smem k (e_kwargs c) = false -> b = 0 \/ dget (given c d) k = None \/ (k <> "zmin" /\ k <> "zmax") ->
         wanted vol c (c_units c s) (given c d) lo hi k (dget args k)).
Proof.
  intros H. apply evo_call_ok in H as (s2 & k2 & E & -> & _ & _).
  split; [apply qsort_perm|]. split; [apply qsort_sorted|].
  apply evo_loop_spec in E as (_ & _ & _ & vs & -> & L & Hv). cbn [app]. split; [exact L|].
  intros b v Hb. destruct (Hv b v Hb) as (lo & hi & act & k' & args & B1 & B2 & B3 & B4 & B5 & B6 & B7 & B8 & B9 & B10).
  exists lo, hi, act, args. split; [exact B1|]. split; [exact B2|]. split; [exact B3|]. split.
  { intros i. rewrite B4. split; [intros X; exists lo, hi; auto|]. intros (lo' & hi' & E1 & E2 & X). rewrite B1 in E1. rewrite B2 in E2. injection E1 as <-. injection E2 as <-. exact X. }
  split; [exact B9|]. split.
  - intros k Hk. pose proof (B10 k) as X. unfold arg_spec in *. rewrite Hk in *. exact X.
  - intros k Hk N. pose proof (B10 k) as X. unfold arg_spec in X. rewrite Hk in X. rewrite X. unfold wanted.
    destruct (String.eqb_spec k "zmin") as [->|N1]; cbn [andb String.eqb Ascii.eqb Bool.eqb].
    { rewrite B5. destruct (e_zmin c); [reflexivity|]. destruct N as [->|[N|[N _]]]; [reflexivity| |congruence]. rewrite N. destruct (b =? 0)%nat; reflexivity. }
    destruct (String.eqb_spec k "zmax") as [->|N2]; cbn [andb String.eqb Ascii.eqb Bool.eqb].
    { rewrite B6. destruct (e_zmax c); [reflexivity|]. destruct N as [->|[N|[_ N]]]; [reflexivity| |congruence]. rewrite N. destruct (b =? 0)%nat; reflexivity. }
    destruct (String.eqb_spec k "volume") as [->|N3]; cbn [andb].
    { destruct (e_vol c); [exact B7|]. exact B7. }
    apply B8; auto.
Qed.

(** the caller's dictionary and the default one afterwards *)
Lemma c76_dict {V} vol bins (stat : dict pyval -> exc V) kwargs remap kws zl zh vk inh s s1 k1 r :
  evo_with vol bins stat kwargs remap kws zl zh vk inh s = (s1, k1, Ok r) ->
  (length bins < 2 -> k1 = kws) /\
  (2 <= length bins ->
    dget k1 "zmin" = None /\ dget k1 "zmax" = None /\
    (forall k, k <> "zmin" -> k <> "zmax" -> k <> "volume" \/ vk = false -> dget k1 k = dget kws k) /\
    (vk = true -> exists w, dget k1 "volume" = Some (VNum w))).
Proof.
  unfold evo_with. destruct (evo_loop _ _ _ _ _ _ _ _ _ _ s []) as [[s2 k] [vs|e]] eqn:E; [|discriminate].
  intros H. injection H as <- <- <-. apply evo_loop_spec in E as (_ & A & B & _). rewrite qsort_len in *. split; [exact A|].
  intros L. destruct (B L) as [B1 B2]. split; [rewrite B1 by (left; discriminate); reflexivity|]. split; [rewrite B1 by (left; discriminate); reflexivity|]. split.
  - intros k' N1 N2 N3. rewrite B1 by exact N3. destruct (String.eqb_spec k' "zmin"); [congruence|]. destruct (String.eqb_spec k' "zmax"); [congruence|]. reflexivity.
  - intros Hv. destruct (B2 Hv) as (lo & hi & w & _ & _ & _ & W). eauto.
Qed.

Lemma same_nil (k : dict pyval) : same_dict k [] -> k = [].
Proof. destruct k as [|[j v] k]; [reflexivity|]. intros H. specialize (H j). cbn in H. rewrite String.eqb_refl in H. discriminate. Qed.

Lemma c76_clean {V} (cs : list ((Qc -> Qc -> bool -> exc Qc) * ecall V * st)) :
  (forall vol c s, In (vol, c, s) cs -> e_kws c = None -> e_vol c = false) ->
  (forall r, In r (snd (evo_calls cs [])) -> exists x, r = Ok x) ->
  fst (evo_calls cs []) = [] /\
  forall i vol c s, nth_error cs i = Some (vol, c, s) -> nth_error (snd (evo_calls cs [])) i = Some (snd (evo_call vol c s [])).
Proof.
  induction cs as [|[[vol c] s] cs IH]; intros Hv Hr.
  - split; [reflexivity|]. intros [|i]; discriminate.
  - cbn [evo_calls] in *. destruct (evo_call vol c s []) as [[s1 d1] r] eqn:E.
    assert (D : (exists x, r = Ok x) -> d1 = []).
    { intros [x ->]. unfold evo_call in E. destruct (evo_with _ _ _ _ _ _ _ _ _ _ _) as [[s2 k2] r2] eqn:E2. injection E as <- <- ->.
      destruct (e_kws c) eqn:K; [reflexivity|]. rewrite (Hv vol c s (or_introl eq_refl) K) in E2. apply c76_dict in E2 as [A B].
      destruct (Nat.lt_ge_cases (length (e_bins c)) 2) as [L|L]; [exact (A L)|]. destruct (B L) as (B1 & B2 & B3 & _).
      apply same_nil. intros k. cbn [dget]. destruct (String.eqb_spec k "zmin") as [->|N1]; [exact B1|]. destruct (String.eqb_spec k "zmax") as [->|N2]; [exact B2|].
      rewrite B3; auto. }
    destruct (evo_calls cs d1) as [d' rs] eqn:E3. cbn [snd fst] in *.
    assert (D' : d1 = []) by (apply D, Hr; left; reflexivity). subst d1. rewrite E3 in IH. cbn [fst snd] in IH.
    destruct IH as [I1 I2]; [intros vol' c' s' I; apply (Hv vol' c' s'); right; exact I|intros r' I; apply Hr; right; exact I|].
    split; [exact I1|]. intros [|i] vol' c' s' X; cbn [nth_error] in *; [|apply I2; exact X]. injection X as <- <- <-. rewrite E. reflexivity.
Qed.

(** * Leaks *)
Lemma evo_reject {V} vol bins (stat : dict pyval -> exc V) kwargs remap kws zl zh inh s v : rejects stat "volume" -> dget kws "volume" = Some v ->
  smem "volume" kwargs = false -> 2 <= length bins -> forall r, snd (evo_with vol bins stat kwargs remap kws zl zh false inh s) <> Ok r.
Proof.
  intros R G N L r H. destruct (evo_with _ _ _ _ _ _ _ _ _ _ _) as [[s1 k1] r1] eqn:E. cbn [snd] in H. subst r1.
  unfold evo_with in E. destruct (evo_loop _ _ _ _ _ _ _ _ _ _ s []) as [[s2 k] [vs|e]] eqn:E2; [|discriminate].
  apply evo_loop_spec in E2 as (_ & _ & _ & vs' & Ev & Lv & Hv). cbn [app] in Ev. subst vs'. rewrite qsort_len in Lv.
  destruct vs as [|x vs]; [simpl in Lv; lia|]. destruct (Hv 0 x eq_refl) as (lo & hi & act & k' & args & _ & _ & _ & _ & _ & _ & B7 & _ & B9 & B10).
  specialize (B10 "volume"). unfold arg_spec in B10. rewrite N in B10. rewrite (R args v) in B9; [discriminate|]. rewrite B10, B7, G. reflexivity.
Qed.

Lemma c76_own {V} vol (c : ecall V) s d s1 d1 es out : evo_call vol c s d = (s1, d1, Ok (es, out)) ->
  e_zmin c = false -> smem "zmin" (e_kwargs c) = false ->
  forall b v, nth_error out b = Some v -> exists args, e_stat c args = Ok v /\ dget args "zmin" = if (b =? 0)%nat then dget (given c d) "zmin" else None.
Proof.
  intros H Z N. apply evo_call_ok in H as (s2 & k2 & E & -> & _ & _).
  apply evo_loop_spec in E as (_ & _ & _ & vs & -> & L & Hv). cbn [app].
  intros b v Hb. destruct (Hv b v Hb) as (lo & hi & act & k' & args & _ & _ & _ & _ & B5 & _ & _ & _ & B9 & B10).
  exists args. split; [exact B9|]. specialize (B10 "zmin"). unfold arg_spec in B10. rewrite N in B10. rewrite B10, B5, Z. reflexivity.
Qed.

Lemma qsort_min a l : exists lo l', qsort (a :: l) = lo :: l' /\ (forall x, In x (a :: l) -> (lo <= x)%Qc) /\ length l' = length l.
Proof.
  destruct (qsort (a :: l)) as [|lo l'] eqn:E; [pose proof (qsort_len (a :: l)) as X; rewrite E in X; discriminate|].
  exists lo, l'. split; [reflexivity|]. split.
  - intros x I. pose proof (qsort_sorted (a :: l)) as S. rewrite E in S. inversion S as [|? ? S' F]; subst.
    assert (I' : In x (lo :: l')) by (rewrite <- E; eapply Permutation_in; [apply qsort_perm|exact I]).
    destruct I' as [->|I']; [apply Qcle_refl|]. rewrite Forall_forall in F. auto.
  - pose proof (qsort_len (a :: l)) as X. rewrite E in X. injection X. auto.
Qed.
Lemma c76_fail {V} vol (c : ecall V) s d e col : e_kws c = None -> e_zmin c = true -> e_vol c = false -> e_kwargs c = [] -> 2 <= length (e_bins c) ->
  (forall args, e_stat c args = Raise e) -> return_property s "redshift" true None = Ok (Some col) ->
  exists s1 d1 lo, evo_call vol c s d = (s1, d1, Raise e) /\ In lo (e_bins c) /\ (forall x, In x (e_bins c) -> (lo <= x)%Qc) /\ dget d1 "zmin" = Some (VNum lo).
Proof.
  intros K Z Vk Kw L R Hc. destruct (e_bins c) as [|a l] eqn:Eb; [simpl in L; lia|].
  destruct (qsort_min a l) as (lo & l' & E & M & Ll). destruct l' as [|b l']; [simpl in *; lia|].
  assert (I : In lo (a :: l)) by (eapply Permutation_in; [apply Permutation_sym, qsort_perm|rewrite E; left; reflexivity]).
  unfold evo_call, evo_with. rewrite K, Z, Vk, Kw, Eb, E. cbn [evo_loop]. unfold set_property_range at 1. destruct s as [h f].
  assert (Hc' : return_property (h, f) "redshift" true (Some (h_inh h)) = Ok (Some col)) by exact Hc.
  rewrite Hc'. cbv zeta. unfold eval_stat. cbn [gather bind]. rewrite R.
  eexists. eexists. exists lo. split; [reflexivity|]. split; [exact I|]. split; [exact M|].
  destruct (e_zmax c); [rewrite dget_dset_ne by discriminate|]; apply dget_dset_eq.
Qed.

Lemma c76_leak {V} vol vol' (c c' : ecall V) s s' d s1 d1 r : e_kws c = None -> e_vol c = true -> 2 <= length (e_bins c) ->
  evo_call vol c s d = (s1, d1, Ok r) ->
  (exists w, dget d1 "volume" = Some (VNum w)) /\
  (e_kws c' = None -> e_vol c' = false -> 2 <= length (e_bins c') -> smem "volume" (e_kwargs c') = false -> rejects (e_stat c') "volume" ->
   forall r', snd (evo_call vol' c' s' d1) <> Ok r').
Proof.
  intros K Vk L H. unfold evo_call in H. rewrite K, Vk in H. destruct (evo_with _ _ _ _ _ _ _ _ _ _ _) as [[s2 k2] r2] eqn:E. injection H as <- <- ->.
  destruct (c76_dict _ _ _ _ _ _ _ _ _ _ _ _ _ _ E) as [_ A]. destruct (A L) as (_ & _ & _ & B). destruct (B eq_refl) as [w W]. split; [eauto|].
  intros K' V' L' N' R' r'. unfold evo_call. rewrite K', V'.
  pose proof (evo_reject vol' (e_bins c') (e_stat c') (e_kwargs c') (e_remap c') k2 (e_zmin c') (e_zmax c') (e_inh c') s' _ R' W N' L' r') as X.
  clear E. destruct (evo_with _ _ _ _ _ _ _ _ _ _ _) as [[s3 k3] r3]. exact X.
Qed.
