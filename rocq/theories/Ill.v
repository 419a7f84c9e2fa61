(** Proofs about Illustris and TNG catalogues: names, files, loading and formatting (C97, C98). *)
From Verif Require Import Dict Util RealUtil PathsModel SnapModel SnapSpec Snap FormatModel FormatSpec Format.
From Verif Require Import RawModel RawSpec Raw Raw2 Raw4 IllModel IllSpec.
From Coq Require Import Reals Ascii Sorted Permutation Lra DecimalString DecimalNat.
Open Scope string_scope.
Open Scope list_scope.
Open Scope nat_scope.

(** * Names *)
Lemma published_cases u which dark (P : string -> Prop) : published u which ->
  (u = Illustris -> P (sim_name u which dark)) -> (u = TNG -> P (sim_name u which dark)) -> P (sim_name u which dark).
Proof. destruct u; auto. Qed.
Lemma sim_tng u which dark : published u which -> smem (sim_name u which dark) tngsims = match u with TNG => true | Illustris => false end.
Proof. intros H. destruct u; cbn in H; destruct dark; repeat (destruct H as [<-|H]; [reflexivity|]); destruct H. Qed.
Lemma sim_ill u which dark : published u which -> smem (sim_name u which dark) illsims = match u with TNG => false | Illustris => true end.
Proof. intros H. destruct u; cbn in H; destruct dark; repeat (destruct H as [<-|H]; [reflexivity|]); destruct H. Qed.
Lemma sim_dark u which dark : published u which -> is_dark (sim_name u which dark) = dark.
Proof. intros H. destruct u; cbn in H; destruct dark; repeat (destruct H as [<-|H]; [reflexivity|]); destruct H. Qed.
Lemma sims_published sim : In sim (illsims ++ tngsims) <-> exists u which dark, published u which /\ sim = sim_name u which dark.
Proof.
  split.
  - intros H. cbn in H.
    assert (G : forall u w d, published u w -> sim_name u w d = sim -> exists u which dark, published u which /\ sim = sim_name u which dark) by (intros; eauto).
    repeat (destruct H as [E|H]; [first
      [apply (G Illustris "1" false); [cbn; tauto|exact E]|apply (G Illustris "2" false); [cbn; tauto|exact E]|apply (G Illustris "3" false); [cbn; tauto|exact E]
      |apply (G Illustris "1" true); [cbn; tauto|exact E]|apply (G Illustris "2" true); [cbn; tauto|exact E]|apply (G Illustris "3" true); [cbn; tauto|exact E]
      |apply (G TNG "300-1" false); [cbn; tauto|exact E]|apply (G TNG "300-2" false); [cbn; tauto|exact E]|apply (G TNG "300-3" false); [cbn; tauto|exact E]
      |apply (G TNG "300-1" true); [cbn; tauto|exact E]|apply (G TNG "300-2" true); [cbn; tauto|exact E]|apply (G TNG "300-3" true); [cbn; tauto|exact E]
      |apply (G TNG "100-1" false); [cbn; tauto|exact E]|apply (G TNG "100-2" false); [cbn; tauto|exact E]|apply (G TNG "100-3" false); [cbn; tauto|exact E]
      |apply (G TNG "100-1" true); [cbn; tauto|exact E]|apply (G TNG "100-2" true); [cbn; tauto|exact E]|apply (G TNG "100-3" true); [cbn; tauto|exact E]]|]).
    destruct H.
  - intros (u & w & d & H & ->). destruct u; cbn in H; destruct d; repeat (destruct H as [<-|H]; [cbn; tauto|]); destruct H.
Qed.
Lemma znums_In n x : In x (znums n) <-> (0 <= x < Z.of_nat n)%Z.
Proof.
  unfold znums. rewrite in_map_iff. split.
  - intros (k & <- & H). apply in_seq in H. lia.
  - intros H. exists (Z.to_nat x). split; [lia|]. apply in_seq. lia.
Qed.
Lemma allsnaps_ok u which dark : published u which -> exists all, ill_allsnaps (sim_name u which dark) = Ok all /\ forall s, In s all <-> has_snapshot u which dark s.
Proof.
  intros H. unfold ill_allsnaps. rewrite sim_ill, sim_tng by auto. destruct u.
  - destruct (String.eqb_spec (sim_name Illustris which dark) "Illustris-1") as [E|N].
    + eexists. split; [reflexivity|]. assert (which = "1" /\ dark = false) as [-> ->].
      { cbn in H. destruct dark; repeat (destruct H as [<-|H]; [first [split; reflexivity|discriminate E]|]); destruct H. }
      intros s. rewrite filter_In, znums_In. unfold has_snapshot. cbn [zmem]. destruct (Z.eqb_spec s 53), (Z.eqb_spec s 55); cbn; intuition (try congruence; try lia).
    + eexists. split; [reflexivity|]. intros s. rewrite znums_In. unfold has_snapshot. split; [|tauto]. intros Hs. split; [lia|]. intros -> ->. contradiction N. reflexivity.
  - eexists. split; [reflexivity|]. intros s. rewrite znums_In. unfold has_snapshot. lia.
Qed.

(** * File names *)
Lemma pad3_digits n : n < 1000 -> pad3 n = digits3 n.
Proof.
  assert (G : forallb (fun n => String.eqb (pad3 n) (digits3 n)) (seq 0 1000) = true) by (vm_compute; reflexivity).
  intros H. rewrite forallb_forall in G. apply String.eqb_eq. apply G. apply in_seq. lia.
Qed.
Lemma fname_stem u which dark : published u which -> raw_fname (sim_name u which dark) = file_stem u.
Proof. intros H. unfold raw_fname. rewrite sim_tng, sim_ill by auto. destruct u; reflexivity. Qed.
Lemma good_raw path : good_path (path ++ "/raw").
Proof. exists (path ++ "/ra")%string, "w"%char. split; [|discriminate]. rewrite sapp_assoc. reflexivity. Qed.
Lemma snap_dir_eq path s : good_path path -> s < 1000 -> snap_dir path s = snapshot_dir path s.
Proof.
  intros Hp Hs. unfold snap_dir, snapshot_dir, group_dir. rewrite (join_good path "raw") by auto. change ("/" ++ "raw")%string with "/raw".
  rewrite join_good; [|apply good_raw|reflexivity]. rewrite pad3_digits by auto. rewrite sapp_assoc. reflexivity.
Qed.
Lemma digit_last n : exists p c, dec n = (p ++ String c "")%string /\ c <> "/"%char.
Proof.
  unfold dec. assert (G : forall u, u <> Decimal.Nil -> exists p c, NilEmpty.string_of_uint u = (p ++ String c "")%string /\ c <> "/"%char).
  { induction u; intros N; [contradiction N; reflexivity|..]; cbn [NilEmpty.string_of_uint];
      (destruct u; [eexists "", _; split; [reflexivity|discriminate]|..]);
      (destruct IHu as (p & c & E & Hc); [discriminate|]; eexists (String _ p), c; split; [rewrite E; reflexivity|exact Hc]). }
  apply G. destruct n; [discriminate|]. intros E. pose proof (DecimalNat.Unsigned.of_to (S n)) as Q. rewrite E in Q. discriminate Q.
Qed.
Lemma good_dir path s : s < 1000 -> good_path (snapshot_dir path s).
Proof.
  intros Hs. destruct (digit_last s) as (p & c & E & Hc). unfold snapshot_dir, digits3. rewrite E.
  destruct (s <? 10); [|destruct (s <? 100)].
  - exists (path ++ "/raw/groups_" ++ "00" ++ p)%string, c. split; [|exact Hc]. rewrite !sapp_assoc. reflexivity.
  - exists (path ++ "/raw/groups_" ++ "0" ++ p)%string, c. split; [|exact Hc]. rewrite !sapp_assoc. reflexivity.
  - exists (path ++ "/raw/groups_" ++ p)%string, c. split; [|exact Hc]. rewrite !sapp_assoc. reflexivity.
Qed.
Lemma chunk_file_eq u path s j : good_path path -> s < 1000 -> chunk_file path (file_stem u) s j = snapshot_file u path s j.
Proof.
  intros Hp Hs. unfold chunk_file, snapshot_file, chunk_name. rewrite snap_dir_eq, pad3_digits by auto.
  rewrite join_good; [reflexivity|apply good_dir; auto|destruct u; reflexivity].
Qed.
Lemma join_slash a b : starts_slash b = false -> join (a ++ "/") b = ((a ++ "/") ++ b)%string.
Proof.
  intros H. unfold join. rewrite H. replace (ends_slash (a ++ "/")) with true by (symmetry; apply (ends_slash_last a "/"%char)).
  rewrite orb_true_r. reflexivity.
Qed.
Lemma base_dir path : good_path path -> join (raw_dir path) "" = (path ++ "/raw/")%string.
Proof.
  intros Hp. rewrite raw_dir_good by auto. replace (path ++ "/raw/")%string with ((path ++ "/raw") ++ "/")%string by (rewrite sapp_assoc; reflexivity).
  rewrite join_slash by reflexivity. rewrite !sapp_assoc. reflexivity.
Qed.
Lemma gc_path_eq d u path s j l : good_path path -> s < 1000 -> snapshot_on_disk d u path s l -> j < length l ->
  gc_path (on_disk d) (join (raw_dir path) "") s j = snapshot_file u path s j.
Proof.
  intros Hp Hs [H1 H2] Hj. rewrite base_dir by auto. unfold gc_path.
  assert (E : forall v, (join (path ++ "/raw/") (group_dir s ++ "/") ++ chunk_name (file_stem v) s j)%string = snapshot_file v path s j).
  { intros v. replace (path ++ "/raw/")%string with ((path ++ "/raw") ++ "/")%string by (rewrite sapp_assoc; reflexivity).
    rewrite join_slash by reflexivity. unfold snapshot_file, snapshot_dir, chunk_name, group_dir. rewrite pad3_digits by auto. rewrite !sapp_assoc. reflexivity. }
  change (chunk_name "groups_" s j) with (chunk_name (file_stem Illustris) s j). change (chunk_name "fof_subhalo_tab_" s j) with (chunk_name (file_stem TNG) s j).
  rewrite (E Illustris), (E TNG). unfold on_disk. destruct u.
  - destruct (nth_error_lt_Some l j Hj) as [f Hf]. rewrite (H1 j f Hf). reflexivity.
  - rewrite H2 by reflexivity. reflexivity.
Qed.
Lemma mapM_nth {A B} (f : nat -> exc B) (g : A -> B) l k : (forall j a, nth_error l j = Some a -> f (k + j) = Ok (g a)) -> mapM f (seq k (length l)) = Ok (map g l).
Proof.
  revert k. induction l as [|a l IH]; intros k H; [reflexivity|]. cbn [length seq mapM map]. pose proof (H 0 a eq_refl) as E. rewrite Nat.add_0_r in E. rewrite E. cbn [bind].
  rewrite (IH (S k)); [reflexivity|]. intros j b Hj. replace (S k + j) with (k + S j) by lia. apply H. exact Hj.
Qed.
Lemma gc_files_ok d u path s f0 r : good_path path -> s < 1000 -> snapshot_on_disk d u path s (f0 :: r) ->
  gc_files d (join (raw_dir path) "") s = Ok (if ch_total f0 =? 0 then [f0] else f0 :: r).
Proof.
  intros Hp Hs HD. unfold gc_files, open_chunk.
  rewrite (gc_path_eq d u path s 0 (f0 :: r)) by (auto; cbn; lia). destruct HD as [H1 H2] eqn:ED. rewrite (H1 0 f0 eq_refl). cbn [bind snd fst length].
  destruct (ch_total f0 =? 0); [reflexivity|].
  rewrite (mapM_nth _ (fun f => f) r 1).
  - cbn [bind]. rewrite map_id. reflexivity.
  - intros j f Hj. rewrite (gc_path_eq d u path s (1 + j) (f0 :: r)); auto; [|cbn; apply nth_error_Some_lt in Hj; lia].
    rewrite (H1 (1 + j) f Hj). reflexivity.
Qed.

(** * Loading *)
Definition rep_sim (u : suite) (dark : bool) : string := sim_name u (match u with Illustris => "1" | TNG => "100-1" end) dark.
Lemma rep_published u : published u (match u with Illustris => "1" | TNG => "100-1" end).
Proof. destruct u; cbn; tauto. Qed.
Lemma basic_rep u which dark : published u which -> ill_basic (sim_name u which dark) = ill_basic (rep_sim u dark).
Proof. intros H. unfold ill_basic, rep_sim. rewrite !sim_tng, !sim_dark by (auto using rep_published). reflexivity. Qed.
Lemma matter_rep u which dark : published u which -> ill_matter (sim_name u which dark) = ill_matter (rep_sim u dark).
Proof. intros H. unfold ill_matter, rep_sim. rewrite !sim_tng, !sim_dark by (auto using rep_published). reflexivity. Qed.
Definition ill_others (u : suite) (dark basic : bool) : fields := if basic then [] else ill_dm ++ ill_matter (rep_sim u dark).
Lemma ill_keys u dark basic : dkeys (ill_basic (rep_sim u dark) ++ ill_others u dark basic) = map fst (columns u dark basic).
Proof. destruct u, dark, basic; reflexivity. Qed.
Lemma ill_merge u dark basic : dkeys (dmerge (ill_basic (rep_sim u dark)) (ill_others u dark basic)) = map fst (columns u dark basic).
Proof. destruct u, dark, basic; reflexivity. Qed.
Lemma cols_nodup u dark basic : NoDup (map fst (columns u dark basic)).
Proof. apply nodup_str_ok. destruct u, dark, basic; reflexivity. Qed.
Lemma cols_two u dark basic : 2 <= length (map fst (columns u dark basic)).
Proof. destruct u, dark, basic; cbn; lia. Qed.
Lemma all_rows_good l key w : (forall f, In f l -> ch_here f <> 0 -> has_column f key w) ->
  length (all_rows l key) = FormatSpec.here l /\ Forall (fun r => length r = w) (all_rows l key).
Proof.
  induction l as [|f l IH]; intros H; [split; [reflexivity|constructor]|]. rewrite all_rows_cons. cbn [FormatSpec.here fold_right]. fold (FormatSpec.here l).
  destruct IH as [I1 I2]; [intros g Hg; apply H; right; auto|]. destruct (Nat.eqb_spec (ch_here f) 0) as [E|N]; [rewrite E; cbn; auto|].
  destruct (H f (or_introl eq_refl) N) as (c & C1 & C2 & _ & C4). rewrite C1. rewrite app_length, rows_len, I1, C2. split; [reflexivity|]. apply Forall_app. auto.
Qed.
Definition loads (l : list chunk) (cols : list (string * nat)) (sub : dict col) : Prop :=
  forall key w, In (key, w) cols -> exists c, dget sub key = Some c /\ rows c = halos l /\ flat c = (w =? 1) /\
    Forall (fun r => length r = w) (rows_of c) /\ rows_of c = all_rows l key.
Lemma ill_loads d u dark basic path s l fs : good_path path -> (0 <= s < 1000)%Z -> snapshot_on_disk d u path (Z.to_nat s) l -> good_files u dark basic l ->
  fs = map fst (columns u dark basic) ->
  exists sub, ill_loader d (join (raw_dir path) "") s fs = Ok (sub, halos l) /\ (halos l = 0 \/ loads l (columns u dark basic) sub).
Proof.
  intros Hp Hs HD (f0 & r & -> & HT & HC) ->. unfold ill_loader. rewrite (gc_files_ok d u path (Z.to_nat s) f0 r) by (auto; lia). cbn [bind]. unfold illustris_loader, halos.
  destruct (Nat.eqb_spec (ch_total f0) 0) as [E|N].
  - exists []. rewrite <- HT, E. unfold load_objects. rewrite E. cbn. auto.
  - specialize (HC N). set (fs := map fst (columns u dark basic)).
    assert (Hfs : match fs with [] => dkeys (ch_data f0) | _ => fs end = fs) by (pose proof (cols_two u dark basic) as Q; fold fs in Q; destruct fs; [cbn in Q; lia|reflexivity]).
    assert (S : split_ok f0 (f0 :: r) fs).
    { split; [left; reflexivity|]. split; [exact HT|]. split; [exact N|]. split; [apply cols_nodup|].
      intros k Hk. apply in_map_iff in Hk as ((k', w) & <- & Hk). cbn [fst]. destruct (HC _ _ Hk) as [(c0 & A1 & A2 & A3 & A4) HF]. exists c0. split; [exact A1|].
      intros f Hf Hh. destruct (HF f Hf Hh) as (c & B1 & B2 & B3 & _). exists c. split; [auto|]. split; [auto|]. congruence. }
    pose proof (c57 f0 r fs) as G. cbv zeta in G. rewrite Hfs in G. destruct (G (cols_two u dark basic) S) as (dd & E & K1 & K2).
    rewrite E. cbn [bind]. exists dd. split; [rewrite HT; reflexivity|]. right. intros key w Hk. destruct (K2 key) as (c & C1 & C2 & C3); [apply in_map_iff; exists (key, w); auto|].
    destruct (HC _ _ Hk) as [(c0 & A1 & A2 & A3 & A4) HF]. destruct (all_rows_good (f0 :: r) key w HF) as [L1 L2].
    exists c. split; [exact C1|]. split; [rewrite <- rows_len, C2; exact L1|]. split; [rewrite (C3 c0 A1); exact A3|]. split; [rewrite C2; exact L2|exact C2].
Qed.
Lemma cell_entry l key w c j i : rows c = halos l -> flat c = (w =? 1) -> Forall (fun r => length r = w) (rows_of c) -> rows_of c = all_rows l key -> i < halos l -> j < w ->
  entry c j i = Some (cell l key j i).
Proof.
  intros H1 H2 H3 H4 Hi Hj. unfold cell. rewrite <- H4. destruct c as [v|v]; cbn [rows flat rows_of entry] in *.
  - symmetry in H2. apply Nat.eqb_eq in H2. subst w. assert (j = 0) by lia. subst j. rewrite (nth_indep _ [] [0%R]) by (rewrite map_length; lia).
    rewrite (map_nth (fun x => [x]) v 0%R). cbn. apply nth_error_nth'. lia.
  - destruct (nth_error_lt_Some v i) as [r Hr]; [lia|]. rewrite Hr, (nth_error_nth v i [] Hr). apply nth_error_nth'. rewrite Forall_forall in H3. rewrite (H3 r); [lia|]. eapply nth_error_In; eauto.
Qed.

Lemma in_cols key w cols : existsb (fun kw => String.eqb (fst kw) key && (snd kw =? w)) cols = true -> In (key, w) cols.
Proof.
  intros H. apply existsb_exists in H as ((k, v) & Hin & E). apply andb_true_iff in E as [E1 E2]. apply String.eqb_eq in E1. apply Nat.eqb_eq in E2. cbn in *. congruence.
Qed.
(** * Formatting *)
Section Ill.
Context (u : suite) (which : string) (dark : bool) (d : h5disk) (path : string) (snaps : list Z) (attrs : dict R) (number : option Z) (ms : list meta) (h : R).
Context (Hu : published u which) (Hp : good_path path).
Definition cat_ := ill_catalog (sim_name u which dark) d path snaps attrs number ms h.
Lemma cat_basic : ct_basic cat_ = ill_basic (rep_sim u dark).
Proof. apply basic_rep; auto. Qed.
Lemma ill_new a w : is_new w a = true -> other_fields cat_ a w = Ok (ill_others u dark (a_basic a)).
Proof.
  intros H. unfold other_fields, ill_others. rewrite H. cbn [ct_dm ct_matter cat_ ill_catalog]. rewrite (matter_rep u which dark) by auto.
  clear Hp Hu. destruct (a_basic a); [reflexivity|]. f_equal. destruct u, dark; reflexivity.
Qed.
Lemma ill_fields_ok basic : fields_ok (ill_basic (rep_sim u dark)) (ill_others u dark basic).
Proof.
  clear. split; [apply nodup_str_ok; destruct u, dark, basic; vm_compute; reflexivity|].
  split; [apply smem_false; destruct u, dark, basic; vm_compute; reflexivity|]. split; [apply smem_In; destruct u, dark; reflexivity|].
  intros key specs H E. subst specs.
  assert (G : forallb (fun ks => match snd ks with [] => false | _ => true end) (ill_basic (rep_sim u dark) ++ ill_others u dark basic) = true) by (destruct u, dark, basic; reflexivity).
  rewrite forallb_forall in G. specialize (G _ H). discriminate G.
Qed.
(** the fields of the tables have as many entries as the columns have values *)
Lemma field_width basic : map (fun ks => (fst ks, length (snd ks))) (ill_basic (rep_sim u dark) ++ ill_others u dark basic) = columns u dark basic.
Proof. clear. destruct u, dark, basic; reflexivity. Qed.
Definition dirty_outs (basic : bool) (l : list chunk) : list out := outs (978 / 1000)%R "SubhaloSFRinHalfRad" u dark basic l.
Lemma ill_matches basic l sub : halos l = 0 \/ loads l (columns u dark basic) sub ->
  Forall2 (matches cat_ sub (halos l)) (out_fields (ill_basic (rep_sim u dark)) (ill_others u dark basic)) (dirty_outs basic l).
Proof.
  intros HL.
  assert (M : forall key w j g sp o, (halos l = 0 \/ In (key, w) (columns u dark basic)) -> j < w -> fs_name sp = o_name o -> fs_units sp = o_units o -> fs_h sp = o_h o ->
     (forall x, conv cat_ key x = g x) -> (forall i, o_val o i = g (cell l key j i)) -> matches cat_ sub (halos l) (key, j, sp) o).
  { intros key w j g sp o Hin Hj E1 E2 E3 E4 E5. repeat (split; [assumption|]). intros i Hi. destruct HL as [HL|HL]; [lia|]. destruct Hin as [Hin|Hin]; [lia|].
    destruct (HL _ _ Hin) as (c & C1 & C2 & C3 & C4 & C5). exists c, (cell l key j i). split; [exact C1|]. split; [eapply cell_entry; eauto|]. rewrite E4, E5. reflexivity. }
  clear HL. unfold dirty_outs.
  assert (C : forall key x, conv cat_ key x = match dget ill_tr key with Some f => f x h | None => x end) by reflexivity. set (ct := cat_) in *. clearbody ct. clear Hp Hu.
  destruct u, dark, basic;
    (match goal with |- Forall2 _ ?a _ => let a' := eval compute in a in change a with a' end);
    unfold outs, outs_basic, outs_dm, outs_matter, only, several;
    repeat (match goal with |- context [filter ?f ?c] => let v := eval vm_compute in (filter f c) in change (filter f c) with v end);
    cbn [map fst snd app];
    repeat (constructor; [match goal with |- matches _ _ _ (?key, ?j, _) _ =>
        let w := eval compute in (match dget (columns TNG false false) key with Some w => w | None => 0 end) in
        eapply (M key w j); [right; apply in_cols; reflexivity|lia|reflexivity|reflexivity|reflexivity|intros x; rewrite C; cbn; reflexivity|
          intros i; first [reflexivity|apply Rmult_1_r]] end|]).
  all: constructor.
Qed.
End Ill.
