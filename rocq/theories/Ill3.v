(** Proofs about single objects of Illustris and TNG catalogues (C99), their downloads (C100) and their removal (C101). *)
From Verif Require Import Dict Util RealUtil PathsModel SnapModel SnapSpec Snap FormatModel FormatSpec Format.
From Verif Require Import RawModel RawSpec Raw Raw2 Raw4 Raw5 Raw6 IllModel IllSpec Ill Ill2.
From Coq Require Import Reals Ascii Sorted Permutation Lra.
Open Scope string_scope.
Open Scope list_scope.
Open Scope nat_scope.

(** * One object *)
Lemma mapM_all {A B} (f : A -> exc B) l : (forall a, In a l -> exists b, f a = Ok b) -> exists m, mapM f l = Ok m /\ Forall2 (fun a b => f a = Ok b) l m.
Proof.
  induction l as [|a l IH]; intros H; [exists []; split; [reflexivity|constructor]|].
  destruct (H a) as [b Hb]; [left; reflexivity|]. destruct IH as (m & E & F); [intros; apply H; right; auto|].
  exists (b :: m). split; [cbn; rewrite Hb; cbn; rewrite E; reflexivity|constructor; auto].
Qed.
Definition pick_row (row : nat) (kc : string * col) : exc (string * list R) :=
  match nth_error (match snd kc with Col1 l => map (fun x => [x]) l | Col2 l => l end) row with
  | Some r => Ok (fst kc, r)
  | None => Raise IndexError
  end.
Lemma pick_ok row kc : row < rows (snd kc) -> exists r, pick_row row kc = Ok (fst kc, r) /\ nth_error (rows_of (snd kc)) row = Some r.
Proof.
  intros H. destruct kc as [k c]. cbn [fst snd] in *. assert (E : (match c with Col1 l => map (fun x => [x]) l | Col2 l => l end) = rows_of c) by (destruct c; reflexivity).
  unfold pick_row. cbn [fst snd]. rewrite E. destruct (nth_error (rows_of c) row) as [r|] eqn:N; [eauto|].
  apply nth_error_None in N. rewrite rows_len in N. lia.
Qed.
Lemma pick_bad row kc : rows (snd kc) <= row -> pick_row row kc = Raise IndexError.
Proof.
  intros H. destruct kc as [k c]. cbn [fst snd] in *. assert (E : (match c with Col1 l => map (fun x => [x]) l | Col2 l => l end) = rows_of c) by (destruct c; reflexivity).
  unfold pick_row. cbn [fst snd]. rewrite E. replace (nth_error (rows_of c) row) with (@None (list R)); [reflexivity|]. symmetry. apply nth_error_None. rewrite rows_len. exact H.
Qed.
Lemma dget_rows row (d : dict col) m key c : Forall2 (fun kc b => pick_row row kc = Ok b) d m -> dget d key = Some c ->
  dget m key = nth_error (rows_of c) row.
Proof.
  intros F. induction F as [|[k c'] [k' r] d m H F IH]; [discriminate|]. intros G. cbn [dget] in *.
  destruct (Nat.lt_ge_cases row (rows c')) as [L|L]; [|rewrite pick_bad in H by exact L; discriminate H].
  destruct (pick_ok row (k, c') L) as (r' & P & N). rewrite P in H. injection H as <- <-. cbn [fst snd] in *.
  destruct (String.eqb key k); [|exact (IH G)]. injection G as ->. rewrite N. reflexivity.
Qed.
Lemma single_eq files i : load_single (starts 0 files) files (-1) (Z.of_nat i) =
  match last_below (starts 0 files) (Z.of_nat i) 0 None with
  | None => Raise ValueError
  | Some k => match nth_error files k with None => Raise OSError | Some f => mapM (pick_row (Z.to_nat (Z.of_nat i - nth k (starts 0 files) 0%Z))) (ch_data f) end
  end.
Proof.
  unfold load_single. replace (Z.of_nat i <? 0)%Z with false by (symmetry; apply Z.ltb_ge; lia). cbn [andb orb Z.ltb Z.leb Z.compare]. reflexivity.
Qed.
Lemma starts_offsets l : starts 0 l = offsets l.
Proof.
  unfold offsets. change 0 with (FormatSpec.here []) at 1. assert (G : forall l1, starts (FormatSpec.here l1) l = map (fun k => Z.of_nat (FormatSpec.here (firstn k (l1 ++ l)))) (seq (length l1) (length l))).
  { induction l as [|f r IH]; intros l1; [reflexivity|]. cbn [starts length seq map]. f_equal.
    - rewrite firstn_app, firstn_all, Nat.sub_diag. cbn [firstn]. rewrite app_nil_r. reflexivity.
    - specialize (IH (l1 ++ [f])). replace (FormatSpec.here (l1 ++ [f])) with (FormatSpec.here l1 + ch_here f) in IH.
      + rewrite IH, app_length. cbn [length]. rewrite Nat.add_1_r. apply map_ext. intros k. rewrite <- app_assoc. reflexivity.
      + clear. induction l1 as [|g l1 IH]; cbn; [lia|]. fold (FormatSpec.here l1). fold (FormatSpec.here (l1 ++ [f])). lia. }
  exact (G []).
Qed.
Lemma single_ok files i : i < halos files -> Forall full files ->
  exists r, load_single (starts 0 files) files (-1) (Z.of_nat i) = Ok r /\
    forall key w, (forall f, In f files -> ch_here f <> 0 -> has_column f key w) -> dget r key = nth_error (all_rows files key) i.
Proof.
  intros Hi HF. destruct (locate files i Hi) as (l1 & f & l2 & -> & B). destruct (find_file l1 f l2 i B) as [E1 E2]. rewrite single_eq, E1, E2.
  rewrite nth_error_app2, Nat.sub_diag by lia. cbn [nth_error]. replace (Z.to_nat _) with (i - FormatSpec.here l1) by lia.
  assert (HFf : full f). { rewrite Forall_forall in HF. apply HF. apply in_or_app. right. left. reflexivity. }
  destruct (mapM_all (pick_row (i - FormatSpec.here l1)) (ch_data f)) as (m & E & F).
  { intros kc Hk. destruct (pick_ok (i - FormatSpec.here l1) kc) as (r & P & _); [rewrite (HFf kc Hk); lia|eauto]. }
  exists m. split; [exact E|]. intros key w H. destruct (all_rows_at key w l1 f l2 i H B) as (c & C1 & C2). rewrite <- C2. eapply dget_rows; eauto.
Qed.
Lemma single_beyond l f i : halos (l ++ [f]) <= i -> full f ->
  load_single (starts 0 (l ++ [f])) (l ++ [f]) (-1) (Z.of_nat i) = match ch_data f with [] => Ok [] | _ => Raise IndexError end.
Proof.
  intros Hi HF. unfold halos in Hi. assert (EH : FormatSpec.here (l ++ [f]) = FormatSpec.here l + ch_here f).
  { clear. induction l as [|g r IH]; cbn; [lia|]. fold (FormatSpec.here r). fold (FormatSpec.here (r ++ [f])). rewrite IH. lia. }
  rewrite EH in Hi. rewrite single_eq.
  assert (E1 : last_below (starts 0 (l ++ [f])) (Z.of_nat i) 0 None = Some (length l)).
  { rewrite starts_app, last_below_app, starts_length. cbn [starts last_below]. rewrite !Nat.add_0_l. destruct (Z.leb_spec 0 (Z.of_nat i - Z.of_nat (FormatSpec.here l))); [reflexivity|lia]. }
  rewrite E1. rewrite nth_error_app2, Nat.sub_diag by lia. cbn [nth_error].
  replace (nth (length l) (starts 0 (l ++ [f])) 0%Z) with (Z.of_nat (FormatSpec.here l)) by (rewrite starts_app, app_nth2; rewrite starts_length; [rewrite Nat.sub_diag; reflexivity|lia]).
  replace (Z.to_nat _) with (i - FormatSpec.here l) by lia. unfold full in HF. destruct (ch_data f) as [|kc r]; [reflexivity|]. cbn [mapM].
  rewrite pick_bad; [reflexivity|]. rewrite HF by (left; reflexivity). lia.
Qed.

(** * Downloads *)
Lemma wget_keeps dir l : forall st p v, dget st p = Some v -> dget (wget_nc dir l st) p = Some v.
Proof.
  unfold wget_nc. induction l as [|nb r IH]; intros st p v H; [exact H|]. cbn [fold_left]. apply IH.
  destruct (dmem st _) eqn:E; [exact H|]. rewrite dget_dset_ne; [exact H|]. intros ->. apply dmem_none in E. congruence.
Qed.
Lemma fetch_snap_keeps path fname nf s ats : forall st st' r p v, fetch_snap path fname nf s ats st = Some (st', r) -> dget st p = Some v -> dget st' p = Some v.
Proof.
  induction ats as [|a l IH]; intros st st' r p v H G; [discriminate|]. cbn [fetch_snap] in H. apply (wget_keeps (snap_dir path s) (at_files a)) in G.
  destruct (at_stop a); [injection H as <- <-; exact G|]. destruct (arrived _ _ _ _ _); [injection H as <- <-; exact G|]. eapply IH; eauto.
Qed.
Lemma fetch_all_keeps path fname nf l : forall ats st st' r p v, fetch_all path fname nf l ats st = Some (st', r) -> dget st p = Some v -> dget st' p = Some v.
Proof.
  induction l as [|s l IH]; intros ats st st' r p v H G; cbn [fetch_all] in H; [injection H as <- <-; exact G|].
  destruct (fetch_snap path fname nf s ats st) as [[st1 ats1]|] eqn:E; [|discriminate]. eapply IH; [exact H|]. eapply fetch_snap_keeps; eauto.
Qed.
Lemma mem_get {A} (d : dict A) k : dmem d k = true -> exists v, dget d k = Some v.
Proof. apply dmem_some. Qed.
Lemma get_mem {A} (d : dict A) k v : dget d k = Some v -> dmem d k = true.
Proof. intros H. apply dmem_some. eauto. Qed.
Lemma fetch_snap_complete path fname n s ats : forall st st' r, fetch_snap path fname (Some n) s ats st = Some (st', r) -> Forall (fun a => at_stop a = false) ats ->
  (forall j, j < n -> dmem st' (chunk_file path fname s j) = true) /\ Forall (fun a => at_stop a = false) r.
Proof.
  induction ats as [|a l IH]; intros st st' r H F; [discriminate|]. inversion F as [|? ? F1 F2]; subst. cbn [fetch_snap] in H. rewrite F1 in H.
  destruct (arrived _ _ _ _ _) eqn:E; [|eapply IH; eauto]. injection H as <- <-. split; [|exact F2]. cbn in E. rewrite forallb_forall in E. intros j Hj. apply E. apply in_seq. lia.
Qed.
Lemma fetch_all_complete path fname n l : forall ats st st' r, fetch_all path fname (Some n) l ats st = Some (st', r) -> Forall (fun a => at_stop a = false) ats ->
  forall s j, In s l -> j < n -> dmem st' (chunk_file path fname s j) = true.
Proof.
  induction l as [|s0 l IH]; intros ats st st' r H F s j Hs Hj; [destruct Hs|]. cbn [fetch_all] in H.
  destruct (fetch_snap path fname (Some n) s0 ats st) as [[st1 ats1]|] eqn:E; [|discriminate]. destruct (fetch_snap_complete _ _ _ _ _ _ _ _ E F) as [G F1].
  destruct Hs as [->|Hs]; [|eapply IH; eauto]. destruct (mem_get _ _ (G j Hj)) as [v Hv]. eapply get_mem. eapply fetch_all_keeps; eauto.
Qed.
(** runs that bring nothing *)
Lemma idle_runs path fname nf b l : nf = None \/ b = true -> forall st more, fetch_all path fname nf l (repeat (mkAtt [] b) (length l) ++ more) st = Some (st, more).
Proof.
  intros H. induction l as [|s l IH]; intros st more; [reflexivity|]. cbn [length repeat app fetch_all fetch_snap at_files at_stop wget_nc fold_left].
  destruct b; [apply IH|]. destruct H as [->|H]; [|discriminate]. cbn [arrived]. apply IH.
Qed.
(** a file that never comes *)
Lemma wget_new dir l p : forall st, dmem st p = false -> (forall nb, In nb l -> (dir ++ "/" ++ fst nb)%string <> p) -> dmem (wget_nc dir l st) p = false.
Proof.
  unfold wget_nc. induction l as [|nb r IH]; intros st H N; [exact H|]. cbn [fold_left]. apply IH; [|intros; apply N; right; auto].
  destruct (dmem st (dir ++ "/" ++ fst nb)) eqn:E; [exact H|]. rewrite dmem_dset, H, orb_false_r. apply String.eqb_neq. intros E2. apply (N nb); [left; reflexivity|symmetry; exact E2].
Qed.
Lemma fetch_snap_absent path fname nf s p ats : (forall a nb, In a ats -> In nb (at_files a) -> (snap_dir path s ++ "/" ++ fst nb)%string <> p) ->
  forall st st' r, fetch_snap path fname nf s ats st = Some (st', r) -> dmem st p = false -> dmem st' p = false /\ incl r ats.
Proof.
  induction ats as [|a l IH]; intros N st st' r H G; [discriminate|]. cbn [fetch_snap] in H.
  assert (G2 : dmem (wget_nc (snap_dir path s) (at_files a) st) p = false) by (apply wget_new; [exact G|intros nb Hn; apply (N a nb); [left; reflexivity|exact Hn]]).
  assert (I : incl l (a :: l)) by (intros x Hx; right; exact Hx).
  destruct (at_stop a); [injection H as <- <-; split; auto|]. destruct (arrived _ _ _ _ _); [injection H as <- <-; split; auto|].
  destruct (IH (fun a' nb Ha => N a' nb (or_intror Ha)) _ _ _ H G2) as [G3 I2]. split; [exact G3|]. eapply incl_tran; eauto.
Qed.
Lemma fetch_all_absent path fname nf p l : forall ats, (forall s a nb, In s l -> In a ats -> In nb (at_files a) -> (snap_dir path s ++ "/" ++ fst nb)%string <> p) ->
  forall st st' r, fetch_all path fname nf l ats st = Some (st', r) -> dmem st p = false -> dmem st' p = false.
Proof.
  induction l as [|s l IH]; intros ats N st st' r H G; cbn [fetch_all] in H; [injection H as <- <-; exact G|].
  destruct (fetch_snap path fname nf s ats st) as [[st1 ats1]|] eqn:E; [|discriminate].
  destruct (fetch_snap_absent path fname nf s p ats (fun a nb => N s a nb (or_introl eq_refl)) _ _ _ E G) as [G1 I].
  eapply (IH ats1); [|exact H|exact G1]. intros s2 a nb Hs Ha. apply N; [right; exact Hs|apply I; exact Ha].
Qed.
(** names of different snapshots do not meet *)
Definition digit (c : ascii) : nat := nat_of_ascii c - 48.
Definition value3 (s : string) : nat := match s with String a (String b (String c "")) => digit a * 100 + digit b * 10 + digit c | _ => 1000 end.
Lemma digits3_value n : n < 1000 -> value3 (digits3 n) = n /\ String.length (digits3 n) = 3.
Proof.
  assert (G : forallb (fun n => (value3 (digits3 n) =? n) && (String.length (digits3 n) =? 3)) (seq 0 1000) = true) by (vm_compute; reflexivity).
  intros H. rewrite forallb_forall in G. specialize (G n ltac:(apply in_seq; lia)). apply andb_true_iff in G as [G1 G2]. apply Nat.eqb_eq in G1, G2. auto.
Qed.
Lemma sapp_len_inj a b c d : String.length a = String.length c -> (a ++ b)%string = (c ++ d)%string -> a = c /\ b = d.
Proof.
  revert c. induction a as [|x a IH]; intros [|y c] L E; try discriminate L; [auto|]. cbn in L, E. injection L as L. injection E as -> E. destruct (IH c L E) as [-> ->]. auto.
Qed.
Lemma dirs_differ path s s' a b : s < 1000 -> s' < 1000 -> (snapshot_dir path s ++ a)%string = (snapshot_dir path s' ++ b)%string -> s = s' /\ a = b.
Proof.
  intros Hs Hs' E. unfold snapshot_dir in E. rewrite !sapp_assoc in E. apply sapp_inj_l in E. cbn [String.append] in E.
  injection E as E. destruct (digits3_value s Hs) as [V L]. destruct (digits3_value s' Hs') as [V' L']. apply sapp_len_inj in E as [E ->]; [|congruence]. split; [|reflexivity]. congruence.
Qed.
Lemma incomplete_stays u path nf snaps ats s j : good_path path -> Forall (fun s => s < 1000) snaps -> s < 1000 ->
  forall st st' r, dmem st (snapshot_file u path s 0) = true -> dmem st (snapshot_file u path s j) = false ->
  ill_download path (file_stem u) nf false snaps ats st = Some (st', r) -> dmem st' (snapshot_file u path s j) = false.
Proof.
  intros Hp HS Hs st st' r M0 Mj H. unfold ill_download, ill_wanted in H. eapply fetch_all_absent; [|exact H|exact Mj].
  intros s2 a nb Hs2 _ _ E. apply filter_In in Hs2 as [Hin Hneg]. rewrite Forall_forall in HS. pose proof (HS _ Hin) as Hl.
  rewrite snap_dir_eq in E by auto. unfold snapshot_file in E. apply dirs_differ in E as [-> _]; auto. rewrite chunk_file_eq, M0 in Hneg by auto. discriminate Hneg.
Qed.
Lemma dir_len path s : s < 1000 -> String.length (snapshot_dir path s) = String.length path + 15.
Proof. intros Hs. unfold snapshot_dir. rewrite !slength_app. destruct (digits3_value s Hs) as [_ ->]. cbn. lia. Qed.
Lemma never_ends u path n j s : good_path path -> s < 1000 -> j < n ->
  forall ats, Forall (fun a => at_stop a = false /\ ~ brings a (file_stem u ++ digits3 s ++ "." ++ dec j ++ ".hdf5")) ats ->
  forall l, In s l -> Forall (fun s => s < 1000) l -> forall st, dmem st (snapshot_file u path s j) = false ->
  fetch_all path (file_stem u) (Some n) l ats st = None.
Proof.
  intros Hp Hs Hj ats HA l Hin HL st G. destruct (fetch_all path (file_stem u) (Some n) l ats st) as [[st' r]|] eqn:E; [|reflexivity]. exfalso.
  assert (M : dmem st' (chunk_file path (file_stem u) s j) = true).
  { eapply fetch_all_complete; eauto. eapply Forall_impl; [|exact HA]. cbn. tauto. }
  rewrite chunk_file_eq in M by auto. rewrite (fetch_all_absent path (file_stem u) (Some n) (snapshot_file u path s j) l ats) with (3 := G) (2 := E) in M; [discriminate M|].
  intros s2 a nb Hs2 Ha Hn E2. rewrite Forall_forall in HL. rewrite snap_dir_eq in E2 by auto. unfold snapshot_file in E2. apply dirs_differ in E2 as [-> E2]; auto.
  injection E2 as E2. rewrite Forall_forall in HA. destruct (HA a Ha) as [_ HB]. apply HB. destruct nb as [nm b]. cbn in E2. subst nm. exists b. exact Hn.
Qed.

(** * Removal *)
Lemma plain_digits n : plain (dec n).
Proof. unfold dec. generalize (Nat.to_uint n). intros u. unfold plain. induction u; cbn; constructor; auto. Qed.
Lemma ill_clean cwd path s paths : good_path path -> plain path -> starts_slash path = true -> s < 1000 ->
  exists left, clean_files cwd path (ill_rawfiles s) paths = Ok left /\ removed [snapshot_dir path s] paths left.
Proof.
  intros Hp HP HS Hs. unfold ill_rawfiles. replace (snapshot_dir path s) with (raw_file path (group_dir s)).
  - apply (clean_files_ok cwd path [group_dir s]); auto. constructor; [|constructor]. split; [|reflexivity]. unfold group_dir. rewrite pad3_digits by auto.
    apply plain_app. split; [repeat constructor|]. unfold digits3. destruct (s <? 10); [|destruct (s <? 100)]; try apply plain_digits; (apply plain_app; split; [repeat constructor|apply plain_digits]).
  - unfold raw_file, snapshot_dir, group_dir. rewrite pad3_digits by auto. reflexivity.
Qed.
Lemma sapp_nil a : (a ++ "")%string = a.
Proof. induction a as [|c a IH]; [reflexivity|]. cbn. rewrite IH. reflexivity. Qed.
Lemma other_dirs path s s' q : s < 1000 -> s' < 1000 -> s <> s' -> inside (snapshot_dir path s') q -> ~ inside (snapshot_dir path s) q.
Proof.
  intros Hs Hs' N [->|[r ->]] [E|[r' E]].
  - apply N. destruct (dirs_differ path s' s "" "") as [-> _]; auto. rewrite !sapp_nil. exact E.
  - assert (E2 : (snapshot_dir path s' ++ "")%string = (snapshot_dir path s ++ "/" ++ r')%string) by (rewrite sapp_nil; exact E). apply dirs_differ in E2 as [-> _]; auto.
  - assert (E2 : (snapshot_dir path s' ++ "/" ++ r)%string = (snapshot_dir path s ++ "")%string) by (rewrite sapp_nil; exact E). apply dirs_differ in E2 as [-> _]; auto.
  - apply dirs_differ in E as [-> _]; auto.
Qed.
