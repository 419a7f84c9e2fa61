(** Proof support for the raw catalogues: Uchuu. *)
From Verif Require Import Dict Util RealUtil PathsModel SnapModel SnapSpec Snap FormatModel FormatSpec Format RawModel RawSpec Raw Raw2.
From Coq Require Import Reals Ascii Sorted Permutation Lra Lia.
Open Scope string_scope.
Open Scope list_scope.
Open Scope nat_scope.

(** * Replacing data1 *)
Lemma prefix_in_left pre r : pre <> "" -> String.prefix "data1" (pre ++ String "d" r) = true -> String.prefix "data1" pre = true.
Proof.
  intros N H. apply prefix_iff in H as [b H]. cbn in H.
  repeat (destruct pre as [|? pre]; [first [congruence|cbn in H; discriminate H]|]; cbn in H; injection H as -> H).
  apply prefix_iff. exists pre. reflexivity.
Qed.
Lemma prefix_app_l a u v : String.prefix a u = true -> String.prefix a (u ++ v) = true.
Proof. intros H. apply prefix_iff in H as [b ->]. apply prefix_iff. exists (b ++ v)%string. apply sapp_assoc. Qed.
Lemma not_occurs_tail sub a s : ~ occurs sub (String a s) -> ~ occurs sub s.
Proof. intros H (x & y & ->). apply H. exists (String a x), y. reflexivity. Qed.
Lemma not_occurs_prefix sub s : ~ occurs sub s -> String.prefix sub s = false.
Proof. intros H. destruct (String.prefix sub s) eqn:E; auto. apply prefix_iff in E as [b ->]. exfalso. apply H. exists "", b. reflexivity. Qed.
Lemma rep_skip old new x : forall s, rep old new (String.length x) (x ++ s) = rep old new 0 s.
Proof. induction x; intros s; [reflexivity|]. cbn. apply IHx. Qed.
Lemma replace_none old new s : ~ occurs old s -> replace old new s = s.
Proof.
  unfold replace. induction s as [|a s IH]; [reflexivity|]. intros H. cbn [rep]. rewrite not_occurs_prefix by auto. f_equal. apply IH. eapply not_occurs_tail; eauto.
Qed.
Lemma replace_mid new pre suf : ~ occurs "data1" pre -> replace "data1" new (pre ++ "data1" ++ suf) = (pre ++ new ++ replace "data1" new suf)%string.
Proof.
  unfold replace. induction pre as [|a s IH]; intros H.
  - cbn. rewrite (proj2 (prefix_iff "" suf)) by (exists suf; reflexivity). reflexivity.
  - change (String a s ++ ?x)%string with (String a (s ++ x)). cbn [rep]. destruct (String.prefix "data1" (String a (s ++ "data1" ++ suf))) eqn:E.
    + exfalso. apply (prefix_in_left (String a s) ("ata1" ++ suf)) in E; [|discriminate]. rewrite not_occurs_prefix in E by auto. discriminate.
    + f_equal. apply IH. eapply not_occurs_tail; eauto.
Qed.
Lemma replace_h5 n pre : ~ occurs "data1" pre -> replace "data1" (data_name n) (pre ++ "data1.h5") = (pre ++ data_name n ++ ".h5")%string.
Proof. intros H. change "data1.h5" with ("data1" ++ ".h5")%string. rewrite replace_mid by auto. do 2 f_equal. Qed.

(** * The loader *)
Definition hc (f : nat -> dict (list R)) (df : nat) (key : string) : col := Col1 (match dget (f df) key with Some l => l | None => [] end).
Definition df_of (key : string) : nat := match dget datafiles key with Some k => k | None => 0 end.
Definition here (fs : list string) (df : nat) : list string := filter (fun f => match dget datafiles f with Some k => k =? df | None => false end) fs.
Definition good_uchuu (f : nat -> dict (list R)) (n : nat) : Prop :=
  forall df key, In (df, key) uchuu_columns -> exists l, dget (f df) key = Some l /\ length l = n.
Lemma columns_file df key : In (df, key) uchuu_columns -> dget datafiles key = Some df /\ 1 <= df <= 3.
Proof. intros H. cbn in H. repeat (destruct H as [E|H]; [injection E as <- <-; split; [reflexivity|lia]|]). destruct H. Qed.
Lemma dfind_get {A} (d : dict A) k v : dget d k = Some v -> dfind d k = Ok v.
Proof. intros H. unfold dfind. rewrite H. reflexivity. Qed.
Lemma uchuu_loads d web path s f n pre fs :
  nth_error web (Z.to_nat s) = Some (pre ++ "data1.h5")%string -> ~ occurs "data1" pre -> (0 <= s)%Z ->
  (forall df, 1 <= df <= 3 -> d (path ++ pre ++ data_name df ++ ".h5")%string = Some (H5 (f df))) -> good_uchuu f n ->
  fs <> [] -> Forall (fun k => In (df_of k, k) uchuu_columns) fs ->
  uchuu_loader d web path s fs = Ok (concat (map (fun df => map (fun k => (k, hc f df k)) (here fs df)) (seq 1 12)), n).
Proof.
  intros HW Hpre Hs HD HG HN HF. rewrite Forall_forall in HF. unfold uchuu_loader.
  replace (forallb (dmem datafiles) fs) with true.
  2:{ symmetry. apply forallb_forall. intros k Hk. destruct (columns_file _ _ (HF k Hk)) as [E _]. rewrite dmem_get, E. reflexivity. }
  cbn [check bind].
  rewrite (mapM_ok_map _ (fun df => map (fun k => (k, hc f df k)) (here fs df))).
  - cbn [bind]. set (sub := concat _).
    assert (HS : forall kc, In kc sub -> rows (snd kc) = n).
    { intros kc H. unfold sub in H. apply in_concat in H as (l & Hl & H). apply in_map_iff in Hl as (df & <- & _). apply in_map_iff in H as (k & <- & Hk).
      apply filter_In in Hk as [Hk E]. specialize (HF k Hk). destruct (columns_file _ _ HF) as [E1 _]. rewrite E1 in E. apply Nat.eqb_eq in E. rewrite E in HF.
      destruct (HG _ _ HF) as (l & E2 & E3). cbn. rewrite E2. exact E3. }
    destruct sub as [|[k0 c0] r] eqn:ES.
    + exfalso. destruct fs as [|k fs]; [congruence|]. specialize (HF k (or_introl eq_refl)). destruct (columns_file _ _ HF) as [E1 E2].
      assert (In (k, hc f (df_of k) k) sub).
      { unfold sub. apply in_concat. exists (map (fun k0 => (k0, hc f (df_of k) k0)) (here (k :: fs) (df_of k))). split; [apply (in_map (fun df => map (fun k0 => (k0, hc f df k0)) (here (k :: fs) df))); apply in_seq; lia|].
        apply (in_map (fun k0 => (k0, hc f (df_of k) k0))). apply filter_In. split; [left; reflexivity|]. rewrite E1. apply Nat.eqb_refl. }
      rewrite ES in H. destruct H.
    + replace (forallb _ _) with true.
      2:{ symmetry. apply forallb_forall. intros kc H. rewrite (HS kc) by exact H. apply Nat.eqb_eq. symmetry. apply (HS (k0, c0)). left. reflexivity. }
      cbn [check bind]. do 2 f_equal. apply (HS (k0, c0)). left. reflexivity.
  - intros df Hdf. fold (here fs df). unfold file_of. rewrite HW. cbn [bind].
    destruct (here fs df) as [|k1 r1] eqn:EH; [reflexivity|]. unfold uchuu_file. rewrite replace_h5 by auto.
    assert (HB : forall k, In k (here fs df) -> In (df, k) uchuu_columns).
    { intros k Hk. apply filter_In in Hk as [Hk E]. specialize (HF k Hk). destruct (columns_file _ _ HF) as [E1 _]. rewrite E1 in E. apply Nat.eqb_eq in E. rewrite E in HF. exact HF. }
    rewrite HD. 2:{ apply (columns_file df k1). apply HB. rewrite EH. left. reflexivity. }
    apply mapM_ok_map. intros k Hk. rewrite <- EH in Hk. destruct (HG _ _ (HB k Hk)) as (l & E & _). rewrite (dfind_get _ _ _ E). cbn [bind]. unfold hc. rewrite E. reflexivity.
Qed.

Definition uchuu_others (a : fargs) : fields := if a_basic a then [] else uchuu_dm ++ uchuu_matter.
Definition uchuu_table (a : fargs) (f : nat -> dict (list R)) : list out :=
  uchuu_out_basic f ++ if a_basic a then [] else uchuu_out_other uchuu_h f.
Lemma uchuu_keys a : Forall (fun k => In (df_of k, k) uchuu_columns) (dkeys (uchuu_basic ++ uchuu_others a)).
Proof.
  unfold uchuu_others. destruct (a_basic a); cbn [uchuu_basic xyz_fields uchuu_dm uchuu_matter app dkeys map fst];
    repeat (constructor; [match goal with |- In (df_of ?k, _) _ => let e := eval compute in (df_of k) in change (df_of k) with e end; cbn; tauto|]); constructor.
Qed.
Lemma uchuu_new d path web snaps ms a w : is_new w a = true -> other_fields (uchuu_catalog d path web snaps ms) a w = Ok (uchuu_others a).
Proof. intros H. unfold other_fields, uchuu_others. rewrite H. destruct (a_basic a); reflexivity. Qed.
Lemma uchuu_merge a : dkeys (dmerge uchuu_basic (uchuu_others a)) = dkeys (uchuu_basic ++ uchuu_others a).
Proof. unfold uchuu_others. destruct (a_basic a); reflexivity. Qed.
Lemma uchuu_fields_ok a : fields_ok uchuu_basic (uchuu_others a).
Proof.
  unfold fields_ok, uchuu_others. split; [apply nodup_str_ok; destruct (a_basic a); reflexivity|].
  split; [apply smem_false; destruct (a_basic a); reflexivity|]. split; [apply smem_In; reflexivity|].
  intros key specs H E. subst. destruct (a_basic a); cbn in H; intuition discriminate.
Qed.
Lemma dget_app_ {A} (a b : dict A) k : dget (a ++ b) k = match dget a k with Some v => Some v | None => dget b k end.
Proof. induction a as [|[k' v] a IH]; [reflexivity|]. cbn. rewrite IH. destruct (String.eqb k k'); reflexivity. Qed.
Lemma dget_here f fs df key : dget (map (fun k => (k, hc f df k)) (here fs df)) key = if existsb (String.eqb key) fs && (match dget datafiles key with Some k => k =? df | None => false end) then Some (hc f df key) else None.
Proof.
  unfold here. induction fs as [|k fs IH]; [reflexivity|]. cbn [filter existsb]. destruct (String.eqb_spec key k) as [<-|N]; cbn [orb andb].
  - destruct (dget datafiles key) as [x|]; [destruct (x =? df)|]; cbn [map].
    + cbn. rewrite String.eqb_refl. reflexivity.
    + rewrite IH, andb_false_r. reflexivity.
    + rewrite IH, andb_false_r. reflexivity.
  - destruct (match dget datafiles k with Some k0 => k0 =? df | None => false end); cbn [map]; [|exact IH]. cbn [dget]. destruct (String.eqb_spec key k); [congruence|]. exact IH.
Qed.
Lemma dget_groups f fs key : In key fs -> In (df_of key, key) uchuu_columns ->
  dget (concat (map (fun df => map (fun k => (k, hc f df k)) (here fs df)) (seq 1 12))) key = Some (hc f (df_of key) key).
Proof.
  intros H HC. destruct (columns_file _ _ HC) as [E1 E2]. cbn [seq map concat]. rewrite !dget_app_, !dget_here, E1.
  replace (existsb (String.eqb key) fs) with true by (symmetry; apply existsb_exists; exists key; split; [auto|apply String.eqb_refl]). cbn [andb].
  destruct (df_of key) as [|[|[|[|]]]]; try lia; reflexivity.
Qed.

Section Uchuu.
Context (d : disk) (path : string) (web : list string) (snaps : list Z) (ms : list meta).
Context (Hp : good_path path).
Lemma uchuu_load s f n pre fs : nth_error web (Z.to_nat s) = Some (pre ++ "data1.h5")%string -> ~ occurs "data1" pre -> (0 <= s)%Z ->
  (forall df, 1 <= df <= 3 -> d (raw_file path (pre ++ data_name df ++ ".h5")) = Some (H5 (f df))) -> good_uchuu f n ->
  fs <> [] -> Forall (fun k => In (df_of k, k) uchuu_columns) fs ->
  ct_load (uchuu_catalog d path web snaps ms) s fs = Ok (concat (map (fun df => map (fun k => (k, hc f df k)) (here fs df)) (seq 1 12)), n).
Proof.
  intros H1 H2 H3 H4. cbn [ct_load uchuu_catalog]. eapply uchuu_loads; eauto. intros df Hdf. rewrite raw_dir_good by auto. rewrite <- (H4 df Hdf). unfold raw_file. rewrite !sapp_assoc. reflexivity.
Qed.
Lemma uchuu_matches a f n sub : good_uchuu f n ->
  (forall key, In key (dkeys (uchuu_basic ++ uchuu_others a)) -> dget sub key = Some (hc f (df_of key) key)) ->
  Forall2 (matches (uchuu_catalog d path web snaps ms) sub n) (out_fields uchuu_basic (uchuu_others a)) (uchuu_table a f).
Proof.
  intros HG HS.
  assert (M : forall key df g sp o, In key (dkeys (uchuu_basic ++ uchuu_others a)) -> In (df, key) uchuu_columns -> df_of key = df ->
     fs_name sp = o_name o -> fs_units sp = o_units o -> fs_h sp = o_h o ->
     (forall x, conv (uchuu_catalog d path web snaps ms) key x = g x) -> (forall i, o_val o i = g (hcol f df key i)) ->
     matches (uchuu_catalog d path web snaps ms) sub n (key, 0, sp) o).
  { intros key df g sp o Hin Hc Hdf E1 E2 E3 E4 E5. repeat (split; [assumption|]). intros i Hi. exists (hc f df key), (hcol f df key i).
    split; [rewrite HS, Hdf by auto; reflexivity|]. split; [|rewrite E4, E5; reflexivity].
    destruct (HG _ _ Hc) as (l & El & Ln). unfold hc, hcol. rewrite El. cbn [entry]. apply nth_error_nth'. lia. }
  unfold uchuu_table, uchuu_others in *. clear Hp.
  destruct (a_basic a);
    cbn [uchuu_basic xyz_fields out_fields out_basic out_other uchuu_dm uchuu_matter app flat_map map numbered combine seq length fst snd filter uchuu_out_basic uchuu_out_other f1];
    repeat (constructor; [match goal with |- matches _ _ _ (?key, _, _) _ => let e := eval compute in (df_of key) in eapply (M key e) end;
      [cbn; tauto|cbn; tauto|reflexivity|reflexivity|reflexivity|reflexivity|
      unfold conv; cbn; intros; reflexivity|cbn; unfold times, apply_h, Rdiv; intros; reflexivity]|]); constructor.
Qed.
Context (f : Z -> nat -> dict (list R)) (n : Z -> nat).
Context (Hf : forall s, In s snaps -> (0 <= s)%Z /\ good_uchuu (f s) (n s) /\ exists pre, nth_error web (Z.to_nat s) = Some (pre ++ "data1.h5")%string /\ ~ occurs "data1" pre /\
          forall df, 1 <= df <= 3 -> d (raw_file path (pre ++ data_name df ++ ".h5")) = Some (H5 (f s df))).
Lemma uchuu_loaded a s : In s snaps -> exists sub, ct_load (uchuu_catalog d path web snaps ms) s (dkeys (uchuu_basic ++ uchuu_others a)) = Ok (sub, n s) /\
  forall key, In key (dkeys (uchuu_basic ++ uchuu_others a)) -> dget sub key = Some (hc (f s) (df_of key) key).
Proof.
  intros Hs. destruct (Hf s Hs) as (H0 & HG & pre & H1 & H2 & H3). eexists. split; [eapply uchuu_load; eauto; [discriminate|apply uchuu_keys]|].
  intros key Hk. apply dget_groups; auto. pose proof (uchuu_keys a) as K. rewrite Forall_forall in K. auto.
Qed.
Lemma uchuu_runnable a w : is_new w a = true -> NoDup snaps -> runnable (uchuu_catalog d path web snaps ms) a w (uchuu_others a).
Proof.
  intros HN ND. split; [apply uchuu_new; auto|]. split; [apply uchuu_fields_ok|]. split; [apply nodup_str_ok; reflexivity|]. split; [exact ND|]. split; [|left; exact HN].
  intros s Hs. unfold todo in Hs. rewrite HN in Hs. cbn [ct_snaps uchuu_catalog] in Hs. cbn [ct_basic uchuu_catalog]. rewrite uchuu_merge.
  destruct (uchuu_loaded a s Hs) as (sub & EL & HS). exists sub, (n s). split; [exact EL|]. right. intros key specs Hin.
  assert (Hk : In key (dkeys (uchuu_basic ++ uchuu_others a))) by (change key with (fst (key, specs)); apply in_map; exact Hin).
  exists (hc (f s) (df_of key) key). split; [apply HS; auto|].
  pose proof (uchuu_keys a) as K. rewrite Forall_forall in K. destruct (proj1 (proj2 (Hf s Hs)) _ _ (K key Hk)) as (l & El & Ln).
  split; [cbn; rewrite El; exact Ln|].
  assert (Hone : exists sp, specs = [sp]).
  { unfold uchuu_others in Hin. clear - Hin. destruct (a_basic a); cbn in Hin;
      repeat (destruct Hin as [E|Hin]; [injection E as <- <-; eexists; reflexivity|]); destruct Hin. }
  destruct Hone as [sp ->]. unfold hc. eauto.
Qed.
Lemma uchuu_format asort a w : argsorts asort -> fresh a w -> NoDup snaps ->
  exists w', format asort (uchuu_catalog d path web snaps ms) a w = (w', Ok tt) /\
    forall s, In s snaps -> exists g, group_of w' s = Some g /\ stored g (n s) (uchuu_table a (f s)).
Proof.
  intros HA HF ND. pose proof (fresh_new a w HF) as HN.
  destruct (c35 asort _ a w (uchuu_others a) HA (uchuu_runnable a w HN ND)) as (w' & E & H). exists w'. split; [exact E|].
  intros s Hs. cbn [ct_basic uchuu_catalog] in H. rewrite uchuu_merge in H. destruct (uchuu_loaded a s Hs) as (sub & EL & HS).
  destruct (H s _ _ ltac:(unfold todo; rewrite HN; exact Hs) EL) as (g & Eg & Hh). exists g. split; [exact Eg|].
  eapply holds_stored; [|exact Hh]. apply uchuu_matches; auto. apply (Hf s Hs).
Qed.
End Uchuu.

(** * Failures *)
Lemma format_raises ct asort a w of s r e : fresh a w -> other_fields ct a w = Ok of -> ct_snaps ct = s :: r ->
  ct_load ct s (dkeys (dmerge (ct_basic ct) of)) = Raise e -> snd (format asort ct a w) = Raise e.
Proof.
  intros HF EO ES EL. pose proof (fresh_new a w HF) as HN. unfold format, format_steps. rewrite EO. unfold todo. rewrite HN, ES. cbn [flat_map].
  unfold snap_steps at 1. rewrite EL. cbn [bind app]. rewrite exec_raise_head; [reflexivity|]. apply head_new_ok. auto.
Qed.
Lemma mapM_raise {A B} (f : A -> exc B) e l : (forall x, In x l -> (exists y, f x = Ok y) \/ f x = Raise e) -> (exists x, In x l /\ f x = Raise e) -> mapM f l = Raise e.
Proof.
  induction l as [|a l IH]; intros H (x & Hx & E); [destruct Hx|]. cbn. destruct (H a (or_introl eq_refl)) as [[y Ey]|Ey]; rewrite Ey; [|reflexivity].
  cbn [bind]. rewrite IH; [reflexivity|intros; apply H; right; auto|]. destruct Hx as [->|Hx]; [congruence|eauto].
Qed.
Lemma here_in fs df : In df [1; 2; 3] -> incl (dkeys uchuu_basic) fs -> here fs df <> [].
Proof.
  intros Hdf HI E.
  assert (K : exists k, In k (dkeys uchuu_basic) /\ dget datafiles k = Some df).
  { destruct Hdf as [<-|[<-|[<-|[]]]]; [exists "Mvir"|exists "x"|exists "vx"]; (split; [cbn; tauto|reflexivity]). }
  destruct K as (k & Hk & Ek). assert (In k (here fs df)) by (apply filter_In; split; [auto|rewrite Ek; apply Nat.eqb_refl]). rewrite E in H. destruct H.
Qed.
Lemma uchuu_missing d web path s f pre fs df0 :
  nth_error web (Z.to_nat s) = Some (pre ++ "data1.h5")%string -> ~ occurs "data1" pre ->
  (forall df, 1 <= df <= 3 -> d (path ++ pre ++ data_name df ++ ".h5")%string = None \/
     d (path ++ pre ++ data_name df ++ ".h5")%string = Some (H5 (f df)) /\ forall key, In (df, key) uchuu_columns -> exists l, dget (f df) key = Some l) ->
  1 <= df0 <= 3 -> d (path ++ pre ++ data_name df0 ++ ".h5")%string = None ->
  incl (dkeys uchuu_basic) fs -> Forall (fun k => In (df_of k, k) uchuu_columns) fs ->
  uchuu_loader d web path s fs = Raise OSError.
Proof.
  intros HW Hpre HD Hdf0 HM HI HF. rewrite Forall_forall in HF. unfold uchuu_loader.
  replace (forallb (dmem datafiles) fs) with true.
  2:{ symmetry. apply forallb_forall. intros k Hk. destruct (columns_file _ _ (HF k Hk)) as [E _]. rewrite dmem_get, E. reflexivity. }
  cbn [check bind].
  assert (HB : forall df k, In k (here fs df) -> In (df, k) uchuu_columns).
  { intros df k Hk. apply filter_In in Hk as [Hk E]. specialize (HF k Hk). destruct (columns_file _ _ HF) as [E1 _]. rewrite E1 in E. apply Nat.eqb_eq in E. rewrite E in HF. exact HF. }
  rewrite (mapM_raise _ OSError); [reflexivity| |].
  - intros df Hdf. fold (here fs df). unfold file_of. rewrite HW. cbn [bind]. destruct (here fs df) as [|k1 r1] eqn:EH; [left; eauto|].
    unfold uchuu_file. rewrite replace_h5 by auto.
    destruct (HD df) as [E|[E EK]]; [apply (columns_file df k1); apply HB; rewrite EH; left; reflexivity| |]; rewrite E; [right; reflexivity|left].
    eexists. apply (mapM_ok_map _ (fun k => (k, hc f df k))). intros k Hk. rewrite <- EH in Hk. destruct (EK k (HB df k Hk)) as [l El]. rewrite (dfind_get _ _ _ El). cbn [bind]. unfold hc. rewrite El. reflexivity.
  - exists df0. split; [apply in_seq; lia|]. fold (here fs df0). unfold file_of. rewrite HW. cbn [bind].
    destruct (here fs df0) as [|k1 r1] eqn:EH; [exfalso; revert EH; apply here_in; auto; cbn; lia|]. unfold uchuu_file. rewrite replace_h5, HM by auto. reflexivity.
Qed.
Lemma uchuu_uneven d web path s f pre fs k1 k2 l1 l2 :
  nth_error web (Z.to_nat s) = Some (pre ++ "data1.h5")%string -> ~ occurs "data1" pre ->
  (forall df, 1 <= df <= 3 -> d (path ++ pre ++ data_name df ++ ".h5")%string = Some (H5 (f df))) ->
  (forall df key, In (df, key) uchuu_columns -> exists l, dget (f df) key = Some l) ->
  Forall (fun k => In (df_of k, k) uchuu_columns) fs ->
  In k1 fs -> In k2 fs -> dget (f (df_of k1)) k1 = Some l1 -> dget (f (df_of k2)) k2 = Some l2 -> length l1 <> length l2 ->
  uchuu_loader d web path s fs = Raise ValueError.
Proof.
  intros HW Hpre HD HG HF H1 H2 E1 E2 NE. rewrite Forall_forall in HF. unfold uchuu_loader.
  replace (forallb (dmem datafiles) fs) with true.
  2:{ symmetry. apply forallb_forall. intros k Hk. destruct (columns_file _ _ (HF k Hk)) as [E _]. rewrite dmem_get, E. reflexivity. }
  cbn [check bind].
  rewrite (mapM_ok_map _ (fun df => map (fun k => (k, hc f df k)) (here fs df))).
  - cbn [bind]. set (sub := concat _).
    assert (HS : forall k, In k fs -> In (k, hc f (df_of k) k) sub).
    { intros k Hk. destruct (columns_file _ _ (HF k Hk)) as [A1 A2]. unfold sub. apply in_concat. exists (map (fun k0 => (k0, hc f (df_of k) k0)) (here fs (df_of k))).
      split; [apply (in_map (fun df => map (fun k0 => (k0, hc f df k0)) (here fs df))); apply in_seq; lia|].
      apply (in_map (fun k0 => (k0, hc f (df_of k) k0))). apply filter_In. split; [auto|]. rewrite A1. apply Nat.eqb_refl. }
    clearbody sub. destruct sub as [|[k0 c0] r]; [destruct (HS k1 H1)|].
    destruct (forallb (fun kc => rows (snd kc) =? rows c0) ((k0, c0) :: r)) eqn:EF; [|reflexivity]. exfalso. rewrite forallb_forall in EF.
    pose proof (EF _ (HS k1 H1)) as A1. pose proof (EF _ (HS k2 H2)) as A2. apply Nat.eqb_eq in A1, A2. cbn [snd] in A1, A2. unfold hc in A1, A2. rewrite E1 in A1. rewrite E2 in A2. cbn in A1, A2. congruence.
  - intros df Hdf. fold (here fs df). unfold file_of. rewrite HW. cbn [bind].
    destruct (here fs df) as [|a1 r1] eqn:EH; [reflexivity|]. unfold uchuu_file. rewrite replace_h5 by auto.
    assert (HB : forall k, In k (here fs df) -> In (df, k) uchuu_columns).
    { intros k Hk. apply filter_In in Hk as [Hk E]. specialize (HF k Hk). destruct (columns_file _ _ HF) as [A1 _]. rewrite A1 in E. apply Nat.eqb_eq in E. rewrite E in HF. exact HF. }
    rewrite HD. 2:{ apply (columns_file df a1). apply HB. rewrite EH. left. reflexivity. }
    apply mapM_ok_map. intros k Hk. rewrite <- EH in Hk. destruct (HG _ _ (HB k Hk)) as (l & E). rewrite (dfind_get _ _ _ E). cbn [bind]. unfold hc. rewrite E. reflexivity.
Qed.
