(** Proofs about formatting UniverseMachine catalogues (C92). *)
From Verif Require Import Dict Util RealUtil PathsModel SnapModel SnapSpec Snap FormatModel FormatSpec Format.
From Verif Require Import RawModel RawSpec Raw.
From Coq Require Import Reals Ascii Sorted Permutation Lra.
Open Scope string_scope.
Open Scope list_scope.
Open Scope nat_scope.

(** * From a formatted group to the table of outputs *)
Definition matches (ct : catalog) (sub : dict col) (n : nat) (kjs : string * nat * fspec) (o : out) : Prop :=
  let '(key, j, sp) := kjs in
  fs_name sp = o_name o /\ fs_units sp = o_units o /\ fs_h sp = o_h o /\
  forall i, i < n -> exists c x, dget sub key = Some c /\ entry c j i = Some x /\ conv ct key x = o_val o i.
Lemma Forall2_in_r {A B} (P : A -> B -> Prop) l m b : Forall2 P l m -> In b m -> exists a, In a l /\ P a b.
Proof. induction 1; cbn; [tauto|]. intros [<-|H1]; [eauto|]. destruct (IHForall2 H1) as (a & Ha & Hp). eauto. Qed.
Lemma holds_stored ct bf of sub n g outs : Forall2 (matches ct sub n) (out_fields bf of) outs -> holds ct bf of sub n g -> stored g n outs.
Proof.
  intros HF (p & Pm & Hn & Hd & Hm). exists p. split; [exact Pm|].
  assert (Lp : length p = n) by (rewrite (Permutation_length Pm); apply seq_length).
  assert (Bp : forall r i, nth_error p r = Some i -> i < n).
  { intros r i E. apply nth_error_In in E. apply (Permutation_in _ Pm) in E. apply in_seq in E. lia. }
  assert (HD : forall o, In o outs -> exists d, In d (g_data g) /\ d_name d = o_name o /\ d_units d = Some (o_units o) /\ d_h d = Some (o_h o) /\
       rows (d_vals d) = n /\ forall r i, nth_error p r = Some i -> entry (d_vals d) 0 r = Some (o_val o i)).
  { intros o Ho. destruct (Forall2_in_r _ _ _ _ HF Ho) as (((key, j), sp) & Hin & E1 & E2 & E3 & E4).
    destruct (Hd key j sp Hin) as (d & D1 & D2 & D3 & D4 & D5 & D6). exists d. rewrite <- E1, <- E2, <- E3. repeat (split; [auto; congruence|]).
    intros r i Hr. destruct (D6 r i Hr) as (c & x & Q1 & Q2 & Q3). destruct (E4 i (Bp r i Hr)) as (c' & x' & R1 & R2 & R3). congruence. }
  split; [|split; [exact HD|]].
  - rewrite Hn. unfold out_names. clear - HF. induction HF as [|((key, j), sp) o l m H _ IH]; [reflexivity|]. cbn. destruct H as (H & _). f_equal; auto.
  - intros o r1 r2 i1 i2 Ho En Hr H1 H2. destruct (HD o Ho) as (d & D1 & D2 & _ & _ & _ & D6).
    destruct (Hm d D1) as (v & Ev & Sv); [congruence|]. pose proof (D6 r1 i1 H1) as Q1. pose proof (D6 r2 i2 H2) as Q2. rewrite Ev in Q1, Q2. cbn in Q1, Q2.
    exact (SS_nth _ v Sv r1 r2 _ _ Hr Q1 Q2).
Qed.

Lemma nodup_str_ok l : nodup_str l = true -> NoDup l.
Proof.
  induction l as [|a l IH]; cbn; [constructor|]. intros H. apply andb_true_iff in H as [H1 H2]. constructor; auto.
  apply smem_false. destruct (smem a l); auto; discriminate.
Qed.
Lemma dget_pairs {A} (F : string -> A) fs k : In k fs -> dget (map (fun k => (k, F k)) fs) k = Some (F k).
Proof.
  induction fs as [|a fs IH]; [intros []|]. intros H. cbn. destruct (String.eqb_spec k a); [subst; reflexivity|]. destruct H; [congruence|auto].
Qed.
Lemma fresh_new a w : fresh a w -> is_new w a = true.
Proof. unfold fresh, is_new. intros [E|E]; rewrite E; auto. destruct (w_file w); auto. Qed.
Lemma ends_slash_last p c : ends_slash (p ++ String c "") = Ascii.eqb c "/".
Proof. induction p as [|a p IH]; [reflexivity|]. cbn [String.append ends_slash]. rewrite IH. destruct p; reflexivity. Qed.
Lemma append_neq_empty p c : String.eqb (p ++ String c "") "" = false.
Proof. destruct p; reflexivity. Qed.
Lemma join_good path n : good_path path -> starts_slash n = false -> join path n = (path ++ "/" ++ n)%string.
Proof.
  intros (p & c & -> & Hc) Hn. unfold join. rewrite Hn, append_neq_empty, ends_slash_last. apply Ascii.eqb_neq in Hc. rewrite Hc. reflexivity.
Qed.
Lemma raw_dir_good path : good_path path -> raw_dir path = (path ++ "/raw/")%string.
Proof.
  intros H. unfold raw_dir. rewrite (join_good path "raw") by auto. unfold join. cbn [starts_slash].
  change (path ++ "/" ++ "raw")%string with (path ++ "/raw")%string.
  replace (path ++ "/raw")%string with ((path ++ "/ra") ++ String "w" "")%string by (rewrite sapp_assoc; reflexivity).
  rewrite append_neq_empty, ends_slash_last. cbn [Ascii.eqb orb]. change (Ascii.eqb "w" "/") with false. cbv iota. rewrite !sapp_assoc. reflexivity.
Qed.
Lemma raw_dir_join path n : good_path path -> starts_slash n = false -> join (raw_dir path) n = raw_file path n.
Proof.
  intros H Hn. rewrite raw_dir_good by auto. unfold join, raw_file. rewrite Hn.
  replace (path ++ "/raw/")%string with ((path ++ "/raw") ++ String "/" "")%string by (rewrite sapp_assoc; reflexivity).
  rewrite append_neq_empty, ends_slash_last. cbn. rewrite !sapp_assoc. reflexivity.
Qed.
Lemma raw_join_file path n : good_path path -> starts_slash n = false -> join (join path "raw") n = raw_file path n.
Proof.
  intros H Hn. rewrite (join_good path "raw") by auto. unfold join, raw_file. rewrite Hn.
  replace (path ++ "/" ++ "raw")%string with ((path ++ "/ra") ++ String "w" "")%string by (rewrite sapp_assoc; reflexivity).
  rewrite append_neq_empty, ends_slash_last. change (Ascii.eqb "w" "/") with false. cbn [orb]. rewrite !sapp_assoc. reflexivity.
Qed.

(** * Text *)
Definition tcol (l : list (list R)) (key : string) : col :=
  Col1 (map (fun r => nth (match index_of key text_names with Some j => j | None => 0 end) r 0%R) l).
Lemma text_loads l fs : good_text l -> Forall (fun k => index_of k text_names <> None) fs ->
  text_loader l fs = Ok (map (fun k => (k, tcol l k)) fs, length l).
Proof.
  intros [H1 H2] HF. unfold text_loader.
  replace (forallb _ l) with true.
  2:{ symmetry. apply forallb_forall. intros r Hr. rewrite Forall_forall in H1. rewrite (H1 r Hr). reflexivity. }
  cbn [check bind]. rewrite (mapM_ok_map _ (fun k => (k, tcol l k))).
  - cbn [bind]. replace (length l =? 1) with false by (symmetry; apply Nat.eqb_neq; auto). reflexivity.
  - intros k Hk. unfold tcol. rewrite Forall_forall in HF. specialize (HF k Hk). destruct (index_of k text_names); [reflexivity|tauto].
Qed.
Definition tkind (k : um_sim) : R := match k with Bolshoi => um_h | _ => 1%R end.
Definition others_of (k : um_sim) (a : fargs) : fields := if a_basic a then [] else um_dm ++ um_matter k.
Definition text_table (k : um_sim) (a : fargs) (l : list (list R)) : list out :=
  text_basic (tkind k) l ++ if a_basic a then [] else text_other um_h (tkind k) l.
Lemma others_new k d path web snaps ms a w : is_new w a = true -> other_fields (um_catalog k d path web snaps ms) a w = Ok (others_of k a).
Proof.
  intros H. unfold other_fields, others_of. rewrite H. destruct (a_basic a); [reflexivity|]. destruct k; reflexivity.
Qed.
Lemma tcol_entry l key c i : good_text l -> i < length l -> index_of key text_names = Some c -> entry (tcol l key) 0 i = Some (txt l c i).
Proof.
  intros [H1 _] Hi E. unfold tcol, txt. rewrite E. cbn. rewrite nth_error_map. destruct (nth_error_lt_Some l i Hi) as [r Hr]. rewrite Hr. cbn.
  rewrite (nth_error_nth l i [] Hr). reflexivity.
Qed.
Lemma text_matches k d path web snaps ms a l fs : is_text k = true -> good_text l ->
  (forall key, In key (dkeys (um_basic k ++ others_of k a)) -> In key fs) ->
  Forall2 (matches (um_catalog k d path web snaps ms) (map (fun k => (k, tcol l k)) fs) (length l))
    (out_fields (um_basic k) (others_of k a)) (text_table k a l).
Proof.
  intros Hk Hl Hfs.
  assert (M : forall key c f sp o, In key (dkeys (um_basic k ++ others_of k a)) -> index_of key text_names = Some c ->
     fs_name sp = o_name o -> fs_units sp = o_units o -> fs_h sp = o_h o ->
     (forall x, conv (um_catalog k d path web snaps ms) key x = f x) -> (forall i, o_val o i = f (txt l c i)) ->
     matches (um_catalog k d path web snaps ms) (map (fun k => (k, tcol l k)) fs) (length l) (key, 0, sp) o).
  { intros key c f sp o Hin Hc E1 E2 E3 E4 E5. repeat (split; [assumption|]). intros i Hi. exists (tcol l key), (txt l c i).
    split; [apply (dget_pairs (tcol l)); auto|]. split; [apply tcol_entry; auto|]. rewrite E4, E5. reflexivity. }
  unfold text_table, others_of in *.
  destruct k; try discriminate Hk; destruct (a_basic a);
    cbn [um_basic is_text xyz_fields out_fields out_basic out_other um_dm um_matter app flat_map map numbered combine seq length fst snd filter text_basic text_other f1];
    repeat (constructor; [eapply M; [cbn; tauto|reflexivity|reflexivity|reflexivity|reflexivity|
      unfold conv; cbn; intros; reflexivity|cbn; unfold times, apply_h, kpc_to_mpc, Rdiv; intros; try reflexivity; ring]|]); constructor.
Qed.

Lemma um_fields_ok k a : fields_ok (um_basic k) (others_of k a).
Proof.
  unfold fields_ok, others_of. split; [apply nodup_str_ok; destruct k, (a_basic a); reflexivity|].
  split; [apply smem_false; destruct k, (a_basic a); reflexivity|]. split; [apply smem_In; destruct k; reflexivity|].
  intros key specs H E. subst. destruct k, (a_basic a); cbn in H; intuition discriminate.
Qed.
Lemma um_tr_nodup k : NoDup (dkeys (um_tr k)).
Proof. apply nodup_str_ok. destruct k; reflexivity. Qed.
Lemma keys_merge k a : dkeys (dmerge (um_basic k) (others_of k a)) = dkeys (um_basic k ++ others_of k a).
Proof. unfold others_of. destruct k, (a_basic a); reflexivity. Qed.

Section Text.
Context (k : um_sim) (d : disk) (path : string) (web : list string) (snaps : list Z) (ms : list meta) (lines : Z -> list (list R)).
Context (Hk : is_text k = true) (Hp : good_path path)
  (Hf : forall s, In s snaps -> exists name, nth_error web (Z.to_nat s) = Some name /\ starts_slash name = false /\
          d (raw_file path name) = Some (Text (lines s)) /\ good_text (lines s)).
Lemma text_load s fs : In s snaps -> Forall (fun k => index_of k text_names <> None) fs ->
  ct_load (um_catalog k d path web snaps ms) s fs = Ok (map (fun k => (k, tcol (lines s) k)) fs, length (lines s)) /\ good_text (lines s).
Proof.
  intros Hs HF. destruct (Hf s Hs) as (name & E1 & E2 & E3 & E4). split; [|exact E4]. cbn [ct_load um_catalog]. unfold um_loader, file_of. rewrite E1. cbn [bind].
  rewrite raw_dir_join, E3 by auto. destruct k; try discriminate Hk; apply text_loads; auto.
Qed.
Lemma text_keys a : Forall (fun k => index_of k text_names <> None) (dkeys (um_basic k ++ others_of k a)).
Proof.
  clear Hf Hp lines ms snaps web path d. unfold others_of. destruct k; try discriminate Hk; destruct (a_basic a); cbn; repeat (constructor; [discriminate|]); constructor.
Qed.
Lemma text_runnable a w : is_new w a = true -> NoDup snaps -> runnable (um_catalog k d path web snaps ms) a w (others_of k a).
Proof.
  intros HN ND. split; [apply others_new; auto|]. split; [apply um_fields_ok|]. split; [apply um_tr_nodup|]. split; [exact ND|]. split; [|left; exact HN].
  intros s Hs. unfold todo in Hs. rewrite HN in Hs. cbn [ct_snaps um_catalog] in Hs. cbn [ct_basic um_catalog]. rewrite keys_merge.
  destruct (text_load s _ Hs (text_keys a)) as [EL Hl]. eexists _, _. split; [exact EL|]. right. intros key specs Hin.
  exists (tcol (lines s) key). split; [apply (dget_pairs (tcol (lines s))); change key with (fst (key, specs)); apply in_map; exact Hin|].
  split; [unfold tcol; cbn; apply map_length|].
  assert (Hone : exists sp, specs = [sp]).
  { unfold others_of in Hin. clear - Hin Hk. destruct k; try discriminate Hk; destruct (a_basic a); cbn in Hin;
      repeat (destruct Hin as [E|Hin]; [injection E as <- <-; eexists; reflexivity|]); destruct Hin. }
  destruct Hone as [sp ->]. unfold tcol. eauto.
Qed.
Lemma text_format asort a w : argsorts asort -> fresh a w -> NoDup snaps ->
  exists w', format asort (um_catalog k d path web snaps ms) a w = (w', Ok tt) /\
    forall s, In s snaps -> exists g, group_of w' s = Some g /\ stored g (length (lines s)) (text_table k a (lines s)).
Proof.
  intros HA HF ND. pose proof (fresh_new a w HF) as HN.
  destruct (c35 asort _ a w (others_of k a) HA (text_runnable a w HN ND)) as (w' & E & H). exists w'. split; [exact E|].
  intros s Hs. cbn [ct_basic um_catalog] in H. rewrite keys_merge in H. destruct (text_load s _ Hs (text_keys a)) as [EL Hl].
  destruct (H s _ _ ltac:(unfold todo; rewrite HN; exact Hs) EL) as (g & Eg & Hh). exists g. split; [exact Eg|].
  eapply holds_stored; [|exact Hh]. apply text_matches; auto.
Qed.
End Text.

(** a file with one line *)
Lemma exec_raise_head w l e r : snd (exec w l) = Ok tt -> exec w (l ++ Raise e :: r) = (fst (exec w l), Raise e).
Proof.
  revert w. induction l as [|[o|e'] l IH]; intros w H; cbn in *; [reflexivity| |discriminate].
  destruct (apply_op w o); [apply IH; exact H|discriminate].
Qed.
Lemma head_new_ok ct a w : is_new w a = true -> snd (exec w (head_steps ct a w)) = Ok tt.
Proof.
  intros HN. unfold head_steps. rewrite HN. cbn [exec apply_op].
  assert (G : forall (l : list (string * R)) f gone tl, (forall f', snd (exec (mkW (Some f') gone) tl) = Ok tt) ->
    snd (exec (mkW (Some f) gone) (map (fun kv => Ok (OpAttr (fst kv) (snd kv))) l ++ tl)) = Ok tt).
  { induction l as [|x l IH]; intros f gone tl H; cbn; auto. }
  apply G. intros f'. destruct (ct_number ct); reflexivity.
Qed.
Lemma text_one k d path web snaps ms s r0 name line asort a w : is_text k = true -> good_path path -> fresh a w -> snaps = s :: r0 ->
  nth_error web (Z.to_nat s) = Some name -> starts_slash name = false -> d (raw_file path name) = Some (Text [line]) -> length line = 28 ->
  snd (format asort (um_catalog k d path web snaps ms) a w) = Raise TypeError.
Proof.
  intros Hk Hp HF -> E1 E2 E3 E4. pose proof (fresh_new a w HF) as HN. unfold format, format_steps. rewrite others_new by auto.
  unfold todo. rewrite HN. cbn [ct_snaps um_catalog flat_map].
  assert (ES : snap_steps asort (um_catalog k d path web (s :: r0) ms) (um_basic k) (others_of k a) (a_clean a) s = [Raise TypeError]).
  { unfold snap_steps. cbn [ct_load um_catalog]. unfold um_loader, file_of. rewrite E1. cbn [bind]. rewrite raw_dir_join, E3 by auto. rewrite keys_merge.
    assert (EL : text_loader [line] (dkeys (um_basic k ++ others_of k a)) = Raise TypeError).
    { unfold text_loader. cbn [forallb]. rewrite E4. cbn [check bind Nat.eqb andb length text_names].
      rewrite (mapM_ok_map _ (fun k => (k, tcol [line] k))); [reflexivity|]. intros key Hkey. pose proof (text_keys k Hk a) as TK. rewrite Forall_forall in TK.
      specialize (TK key Hkey). unfold tcol. destruct (index_of key text_names); [reflexivity|tauto]. }
    destruct k; try discriminate Hk; rewrite EL; reflexivity. }
  cbn [ct_basic um_catalog]. rewrite ES. cbn [app]. rewrite exec_raise_head; [reflexivity|]. apply head_new_ok. auto.
Qed.
