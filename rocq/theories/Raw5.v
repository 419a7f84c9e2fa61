(** Proof support for the raw catalogues: downloads. *)
From Verif Require Import Dict Util RealUtil PathsModel RawModel RawSpec Raw Raw2 Raw4.
From Coq Require Import Ascii DecimalString DecimalNat Lia.
Open Scope string_scope.
Open Scope list_scope.
Open Scope nat_scope.

(** * Runs *)
Lemma run_app st l1 l2 : run_dops st (l1 ++ l2) = match run_dops st l1 with (s, Ok tt) => run_dops s l2 | (s, Raise e) => (s, Raise e) end.
Proof. revert st. induction l1 as [|[o|e] l1 IH]; intros st; cbn; [reflexivity|apply IH|reflexivity]. Qed.
Lemma run_writes p bs : forall st l, dget st p = Some l ->
  exists st', run_dops st (map (fun b => Ok (DWrite p b)) bs) = (st', Ok tt) /\ dget st' p = Some (l ++ bs) /\ forall q, q <> p -> dget st' q = dget st q.
Proof.
  induction bs as [|b bs IH]; intros st l E; cbn [map run_dops apply_dop].
  - exists st. rewrite app_nil_r. auto.
  - rewrite E. destruct (IH (dset st p (l ++ [b])) (l ++ [b])) as (st' & E1 & E2 & E3); [apply dget_dset_eq|].
    exists st'. split; [exact E1|]. rewrite <- app_assoc in E2. split; [exact E2|]. intros q N. rewrite E3 by auto. apply dget_dset_ne. auto.
Qed.
Lemma run_fetch sv u p bs st : sv u = Some bs ->
  exists st', run_dops st (fetch sv u p) = (st', Ok tt) /\ dget st' p = Some bs /\ forall q, q <> p -> dget st' q = dget st q.
Proof.
  intros E. unfold fetch. rewrite E. cbn [run_dops apply_dop]. destruct (run_writes p bs (dset st p []) []) as (st' & E1 & E2 & E3); [apply dget_dset_eq|].
  exists st'. split; [exact E1|]. split; [exact E2|]. intros q N. rewrite E3 by auto. apply dget_dset_ne. auto.
Qed.
Definition fetches (sv : server) (l : list (string * string)) : list (exc dop) := flat_map (fun up => fetch sv (fst up) (snd up)) l.
Lemma run_fetches sv l : forall st, NoDup (map snd l) -> (forall up, In up l -> sv (fst up) <> None) ->
  exists st', run_dops st (fetches sv l) = (st', Ok tt) /\ (forall u p, In (u, p) l -> complete sv st' u p) /\ forall q, ~ In q (map snd l) -> dget st' q = dget st q.
Proof.
  induction l as [|[u p] l IH]; intros st ND HS; cbn [fetches flat_map].
  - exists st. split; [reflexivity|]. split; [intros u p []|auto].
  - inversion ND as [|? ? N1 N2]; subst. cbn [fst snd]. destruct (sv u) as [bs|] eqn:E; [|exfalso; apply (HS (u, p)); [left; reflexivity|exact E]].
    destruct (run_fetch sv u p bs st E) as (s1 & R1 & G1 & O1). rewrite run_app, R1.
    destruct (IH s1 N2) as (s2 & R2 & G2 & O2); [intros; apply HS; right; auto|]. exists s2. split; [exact R2|]. split.
    + intros u' p' [E'|H]; [|auto]. injection E' as <- <-. exists bs. split; [exact E|]. rewrite O2; auto.
    + intros q Hq. cbn in Hq. rewrite O2 by tauto. apply O1. intros ->. tauto.
Qed.
(** a run that is cut short *)
Lemma run_writes_cut p bs : forall k st l, dget st p = Some l ->
  exists st' c, run_dops st (firstn k (map (fun b => Ok (DWrite p b)) bs)) = (st', Ok tt) /\ dget st' p = Some (l ++ firstn c bs) /\ forall q, q <> p -> dget st' q = dget st q.
Proof.
  intros k st l E. rewrite firstn_map. destruct (run_writes p (firstn k bs) st l E) as (st' & H). exists st', k. exact H.
Qed.
Lemma run_cut sv l : forall k st, NoDup (map snd l) -> (forall up, In up l -> sv (fst up) <> None) ->
  let st' := fst (run_dops st (firstn k (fetches sv l))) in
  forall q, dget st' q = dget st q \/ exists u bs c, In (u, q) l /\ sv u = Some bs /\ dget st' q = Some (firstn c bs).
Proof.
  induction l as [|[u p] l IH]; intros k st ND HS; cbv zeta; intros q; cbn [fetches flat_map].
  - rewrite firstn_nil. left. reflexivity.
  - inversion ND as [|? ? N1 N2]; subst. cbn [fst snd]. destruct (sv u) as [bs|] eqn:E; [|exfalso; apply (HS (u, p)); [left; reflexivity|exact E]].
    assert (HSl : forall up, In up l -> sv (fst up) <> None) by (intros; apply HS; right; auto).
    rewrite firstn_app. set (k2 := k - length (fetch sv u p)).
    assert (H1 : exists s1, run_dops st (firstn k (fetch sv u p)) = (s1, Ok tt) /\ (forall x, x <> p -> dget s1 x = dget st x) /\ (dget s1 p = dget st p \/ exists c, dget s1 p = Some (firstn c bs))).
    { unfold fetch. rewrite E. destruct k as [|k]; cbn [firstn run_dops apply_dop]; [exists st; auto|].
      destruct (run_writes_cut p bs k (dset st p []) []) as (s1 & c & R & G & O); [apply dget_dset_eq|]. exists s1. split; [exact R|].
      split; [|right; exists c; exact G]. intros x N. rewrite O by auto. apply dget_dset_ne. auto. }
    destruct H1 as (s1 & R1 & O1 & G1). rewrite run_app, R1. specialize (IH k2 s1 N2 HSl q). cbv zeta in IH. fold (fetches sv l) in *.
    destruct IH as [IH|(u' & bs' & c & H1 & H2 & H3)].
    + rewrite IH. destruct (String.eqb_spec q p) as [->|N]; [|left; apply O1; auto]. destruct G1 as [G|[c G]]; [left; exact G|right]. exists u, bs, c. split; [left; reflexivity|auto].
    + right. exists u', bs', c. split; [right; auto|auto].
Qed.
(** a server that does not answer *)
Lemma run_unanswered sv l1 u p l2 st : NoDup (map snd l1) -> (forall up, In up l1 -> sv (fst up) <> None) -> sv u = None ->
  exists st', run_dops st (fetches sv (l1 ++ (u, p) :: l2)) = (st', Raise OSError) /\ (forall u p, In (u, p) l1 -> complete sv st' u p) /\ forall q, ~ In q (map snd l1) -> dget st' q = dget st q.
Proof.
  intros ND HS E. unfold fetches. rewrite flat_map_app. cbn [flat_map fst snd]. destruct (run_fetches sv l1 st ND HS) as (s1 & R1 & H). exists s1.
  unfold fetches in R1. rewrite run_app, R1. unfold fetch at 1. rewrite E. auto.
Qed.

(** * The wanted files *)
Definition wanted (redo : bool) (st : store) (all : list (string * string)) : list (string * string) :=
  if redo then all else filter (fun up => negb (dmem st (snd up))) all.
Definition todo_file (redo : bool) (st : store) (p : string) : Prop := redo = true \/ dget st p = None.
Lemma wanted_in redo st all u p : In (u, p) (wanted redo st all) <-> In (u, p) all /\ todo_file redo st p.
Proof.
  unfold wanted, todo_file. destruct redo; [intuition|]. rewrite filter_In. cbn [snd]. rewrite negb_true_iff, dmem_none. intuition discriminate.
Qed.
Lemma NoDup_map_filter {A B} (g : A -> B) f l : NoDup (map g l) -> NoDup (map g (filter f l)).
Proof.
  induction l as [|a l IH]; [auto|]. cbn. intros H. inversion H as [|? ? H1 H2]; subst. destruct (f a); cbn; [|auto]. constructor; [|auto].
  intros HI. apply H1. apply in_map_iff in HI as (x & E & HI). apply filter_In in HI as [HI _]. rewrite <- E. apply in_map. exact HI.
Qed.
Lemma wanted_nodup redo st all : NoDup (map snd all) -> NoDup (map snd (wanted redo st all)).
Proof. intros H. unfold wanted. destruct redo; [auto|apply NoDup_map_filter; auto]. Qed.
Lemma fetch_all sv redo all st : NoDup (map snd all) -> (forall up, In up all -> sv (fst up) <> None) ->
  exists st', run_dops st (fetches sv (wanted redo st all)) = (st', Ok tt) /\
    (forall u p, In (u, p) all -> todo_file redo st p -> complete sv st' u p) /\
    (forall q, (forall u, In (u, q) all -> ~ todo_file redo st q) -> dget st' q = dget st q).
Proof.
  intros ND HS. destruct (run_fetches sv (wanted redo st all) st) as (st' & R & H1 & H2); [apply wanted_nodup; auto|intros [u p] H; apply HS; apply wanted_in in H; tauto|].
  exists st'. split; [exact R|]. split; [intros u p A B; apply H1; apply wanted_in; auto|].
  intros q Hq. apply H2. intros H. apply in_map_iff in H as ([u p] & E & H). cbn in E. subst p. apply wanted_in in H as [A B]. apply (Hq u A B).
Qed.
Lemma fetch_cut sv redo all st k : NoDup (map snd all) -> (forall up, In up all -> sv (fst up) <> None) ->
  let st' := fst (run_dops st (firstn k (fetches sv (wanted redo st all)))) in
  forall q, dget st' q = dget st q \/ exists u bs c, In (u, q) all /\ todo_file redo st q /\ sv u = Some bs /\ dget st' q = Some (firstn c bs).
Proof.
  intros ND HS st' q. destruct (run_cut sv (wanted redo st all) k st) with (q := q) as [H|(u & bs & c & H1 & H2 & H3)]; [apply wanted_nodup; auto|intros [u p] H; apply HS; apply wanted_in in H; tauto| |].
  - left. exact H.
  - right. exists u, bs, c. apply wanted_in in H1 as [A B]. auto.
Qed.

(** ** UniverseMachine *)
Lemma sapp_inj_l (a b c : string) : (a ++ b)%string = (a ++ c)%string -> b = c.
Proof. induction a; cbn; intros H; [exact H|injection H; auto]. Qed.
Lemma raw_file_inj path a b : raw_file path a = raw_file path b -> a = b.
Proof. unfold raw_file. intros H. apply sapp_inj_l in H. apply sapp_inj_l in H. exact H. Qed.
Definition name_of (web : list string) (s : Z) : string := nth (Z.to_nat s) web "".
Lemma file_of_ok web snaps s : snaps_ok web snaps -> In s snaps -> file_of web s = Ok (name_of web s).
Proof. intros [_ H] Hs. specialize (H s Hs). unfold file_of, name_of. rewrite (nth_error_nth' web "") by lia. reflexivity. Qed.
Lemma names_nodup web snaps : snaps_ok web snaps -> NoDup web -> NoDup (map (name_of web) snaps).
Proof.
  intros [ND HR] HW. induction snaps as [|s r IH]; [constructor|]. inversion ND as [|? ? N1 N2]; subst. cbn. constructor; [|apply IH; auto; intros; apply HR; right; auto].
  intros H. apply in_map_iff in H as (s' & E & H). pose proof (HR s (or_introl eq_refl)). pose proof (HR s' (or_intror H)).
  unfold name_of in E. apply (NoDup_nth web "") in E; try lia; auto. assert (s' = s) by lia. subst. auto.
Qed.
Lemma um_wanted_eq redo path page web snaps st : good_path path -> Forall (fun n => starts_slash n = false) web -> snaps_ok web snaps ->
  um_wanted redo path page web snaps st = Ok (wanted redo st (map (fun s => ((page ++ name_of web s)%string, raw_file path (name_of web s))) snaps)).
Proof.
  intros Hp HW HR. unfold um_wanted. rewrite (mapM_ok_map _ (fun s => ((page ++ name_of web s)%string, raw_file path (name_of web s)))); [reflexivity|].
  intros s Hs. rewrite (file_of_ok web snaps) by auto. cbn [bind]. rewrite raw_join_file; [reflexivity|auto|].
  rewrite Forall_forall in HW. apply HW. apply nth_In. destruct HR as [_ H]. specialize (H s Hs). lia.
Qed.
Lemma um_targets_nodup path page web snaps : snaps_ok web snaps -> NoDup web ->
  NoDup (map snd (map (fun s => ((page ++ name_of web s)%string, raw_file path (name_of web s))) snaps)).
Proof.
  intros HR HW. rewrite map_map. cbn [snd]. pose proof (names_nodup web snaps HR HW) as H. clear HR HW. induction snaps as [|s r IH]; [constructor|].
  cbn in *. inversion H as [|? ? N1 N2]; subst. constructor; [|auto]. intros HI. apply N1. apply in_map_iff in HI as (s' & E & HI). apply raw_file_inj in E. rewrite <- E. apply in_map. exact HI.
Qed.

(** ** Uchuu *)
Lemma sapp_list (a b : string) : list_ascii_of_string (a ++ b) = list_ascii_of_string a ++ list_ascii_of_string b.
Proof. induction a; cbn; congruence. Qed.
Lemma list_ascii_inj a b : list_ascii_of_string a = list_ascii_of_string b -> a = b.
Proof. intros H. rewrite <- (string_of_list_ascii_of_string a), <- (string_of_list_ascii_of_string b), H. reflexivity. Qed.
Lemma split_first {A} (x : A) l1 l2 r1 r2 : ~ In x l1 -> ~ In x l2 -> l1 ++ x :: r1 = l2 ++ x :: r2 -> l1 = l2 /\ r1 = r2.
Proof.
  revert l2. induction l1 as [|a l1 IH]; intros [|b l2] H1 H2 E; cbn in *.
  - injection E; auto.
  - injection E as -> _. tauto.
  - injection E as -> _. tauto.
  - injection E as -> E. destruct (IH l2) as [-> ->]; auto.
Qed.
Lemma digits_no_a u : ~ In "a"%char (list_ascii_of_string (NilEmpty.string_of_uint u)).
Proof. induction u; cbn; intuition discriminate. Qed.
Lemma data_name_inj n m : NilEmpty.string_of_uint (Nat.to_uint n) = NilEmpty.string_of_uint (Nat.to_uint m) -> n = m.
Proof.
  intros H. apply (f_equal NilEmpty.uint_of_string) in H. rewrite !NilEmpty.usu in H. injection H as H. rewrite <- (Unsigned.of_to n), <- (Unsigned.of_to m), H. reflexivity.
Qed.
Lemma h5_inj p q n m : (p ++ data_name n ++ ".h5" = q ++ data_name m ++ ".h5")%string -> p = q /\ n = m.
Proof.
  intros H. apply (f_equal list_ascii_of_string) in H. unfold data_name in H. rewrite !sapp_list in H. rewrite !app_assoc in H. apply app_inv_tail in H.
  apply (f_equal (@rev ascii)) in H. cbn [list_ascii_of_string] in H. rewrite !rev_app_distr in H. rewrite !app_assoc in H. cbn [rev app] in H.
  rewrite <- !app_assoc in H. cbn [app] in H. apply split_first in H as [H1 H2]; [|intros HI; apply in_rev in HI; revert HI; apply digits_no_a..].
  injection H2 as H2. apply (f_equal (@rev ascii)) in H1, H2. rewrite !rev_involutive in H1, H2. apply list_ascii_inj in H1, H2. apply data_name_inj in H1. auto.
Qed.
Lemma prefix_sep c sub a b : lacks c sub -> String.prefix sub (a ++ String c b) = true -> String.prefix sub a = true.
Proof.
  revert a. induction sub as [|x sub IH]; intros a HL H; [destruct a; reflexivity|]. apply lacks_cons in HL as [N HL].
  destruct a as [|y a]; cbn in *.
  - destruct (ascii_dec x c); [congruence|discriminate].
  - destruct (ascii_dec x y); [|discriminate]. apply IH; auto.
Qed.
Lemma occurs_sep c sub a b : lacks c sub -> sub <> "" -> ~ occurs sub a -> ~ occurs sub b -> ~ occurs sub (a ++ String c b).
Proof.
  intros HL HN HA HB. induction a as [|x a IH].
  - cbn. apply contains_false. cbn. apply contains_false in HB. rewrite HB, orb_false_r. destruct sub as [|y sub]; [congruence|]. apply lacks_cons in HL as [N _]. cbn. destruct (ascii_dec y c); [congruence|reflexivity].
  - apply contains_false. change ((String x a ++ String c b)%string) with (String x (a ++ String c b)). cbn [contains]. apply orb_false_iff. split.
    + destruct (String.prefix sub (String x (a ++ String c b))) eqn:E; [|reflexivity]. apply (prefix_sep c sub (String x a) b HL) in E. rewrite not_occurs_prefix in E by auto. discriminate.
    + apply contains_false. apply IH. eapply not_occurs_tail; eauto.
Qed.
Lemma raw_no_data path pre : ~ occurs "data1" path -> ~ occurs "data1" pre -> ~ occurs "data1" (path ++ "/raw/" ++ pre)%string.
Proof.
  intros H1 H2. change ("/raw/" ++ pre)%string with (String "/" ("raw" ++ String "/" pre)). apply occurs_sep; [cbv; intuition discriminate|discriminate|exact H1|].
  apply occurs_sep; [cbv; intuition discriminate|discriminate| |exact H2]. apply contains_false. reflexivity.
Qed.
Lemma uchuu_target path pre df : ~ occurs "data1" path -> ~ occurs "data1" pre ->
  replace "data1" (data_name df) (raw_file path (pre ++ "data1.h5")) = raw_file path (pre ++ data_name df ++ ".h5").
Proof.
  intros H1 H2. unfold raw_file. replace (path ++ "/raw/" ++ pre ++ "data1.h5")%string with ((path ++ "/raw/" ++ pre) ++ "data1.h5")%string by (rewrite !sapp_assoc; reflexivity).
  rewrite replace_h5 by (apply raw_no_data; auto). rewrite !sapp_assoc. reflexivity.
Qed.
Definition stem (pres : list string) (s : Z) : string := nth (Z.to_nat s) pres "".
Definition h5_names (pres : list string) : list string := map (fun p => (p ++ "data1.h5")%string) pres.
Lemma stem_name pres s : (0 <= s < Z.of_nat (length pres))%Z -> name_of (h5_names pres) s = (stem pres s ++ "data1.h5")%string.
Proof. intros H. unfold name_of, h5_names, stem. rewrite (nth_indep _ "" ("" ++ "data1.h5")%string) by (rewrite map_length; lia). apply (map_nth (fun p => (p ++ "data1.h5")%string)). Qed.
Lemma starts_slash_app a b : a <> "" -> starts_slash (a ++ b) = starts_slash a.
Proof. destruct a; [congruence|reflexivity]. Qed.
Definition uchuu_all (path page : string) (pres : list string) (snaps : list Z) (dfs : list nat) : list (string * string) :=
  flat_map (fun s => map (fun df => ((uchuu_page page df ++ stem pres s ++ data_name df ++ ".h5")%string, raw_file path (stem pres s ++ data_name df ++ ".h5"))) dfs) snaps.
Lemma stem_good pres s : stems_ok pres -> (0 <= s < Z.of_nat (length pres))%Z -> ~ occurs "data1" (stem pres s) /\ starts_slash (stem pres s) = false.
Proof. intros [_ H] Hs. rewrite Forall_forall in H. apply H. apply nth_In. lia. Qed.
Lemma uchuu_wanted_eq redo path page pres snaps dfs st : good_path path -> ~ occurs "data1" path -> stems_ok pres -> snaps_ok (h5_names pres) snaps ->
  uchuu_wanted redo path page (h5_names pres) snaps dfs st = Ok (wanted redo st (uchuu_all path page pres snaps dfs)).
Proof.
  intros Hp HO HG HR. unfold uchuu_wanted, uchuu_all.
  rewrite (mapM_ok_map _ (fun s => map (fun df => ((uchuu_page page df ++ stem pres s ++ data_name df ++ ".h5")%string, raw_file path (stem pres s ++ data_name df ++ ".h5"))) dfs)).
  - cbn [bind]. rewrite <- flat_map_concat_map. reflexivity.
  - intros s Hs. rewrite (file_of_ok (h5_names pres) snaps) by auto. cbn [bind]. f_equal.
    pose proof (proj2 HR s Hs) as Hr. unfold h5_names in Hr. rewrite map_length in Hr. destruct (stem_good pres s HG Hr) as [G1 G2]. rewrite stem_name by auto.
    apply map_ext. intros df. f_equal; [rewrite replace_h5 by auto; reflexivity|]. rewrite raw_join_file; [apply uchuu_target; auto|auto|].
    destruct (stem pres s); [reflexivity|exact G2].
Qed.
Lemma NoDup_app_ {A} (a b : list A) : NoDup a -> NoDup b -> (forall x, In x a -> ~ In x b) -> NoDup (a ++ b).
Proof.
  induction a as [|x a IH]; intros HA HB H; [exact HB|]. inversion HA; subst. cbn. constructor; [|apply IH; auto; intros y Hy; apply H; right; auto].
  rewrite in_app_iff. intros [E|E]; [auto|]. apply (H x); [left; reflexivity|exact E].
Qed.
Lemma uchuu_all_in path page pres snaps dfs u p : In (u, p) (uchuu_all path page pres snaps dfs) <->
  exists s df, In s snaps /\ In df dfs /\ u = (uchuu_page page df ++ stem pres s ++ data_name df ++ ".h5")%string /\ p = raw_file path (stem pres s ++ data_name df ++ ".h5").
Proof.
  unfold uchuu_all. rewrite in_flat_map. split.
  - intros (s & Hs & H). apply in_map_iff in H as (df & E & H). injection E as <- <-. eauto 8.
  - intros (s & df & Hs & Hd & -> & ->). exists s. split; [auto|]. apply in_map_iff. eauto.
Qed.
Lemma uchuu_targets_nodup path page pres snaps dfs : stems_ok pres -> snaps_ok (h5_names pres) snaps -> NoDup dfs ->
  NoDup (map snd (uchuu_all path page pres snaps dfs)).
Proof.
  intros [HG _] [ND HR] HD. induction snaps as [|s r IH]; [constructor|]. inversion ND as [|? ? N1 N2]; subst.
  change (uchuu_all path page pres (s :: r) dfs) with (map (fun df => ((uchuu_page page df ++ stem pres s ++ data_name df ++ ".h5")%string, raw_file path (stem pres s ++ data_name df ++ ".h5"))) dfs ++ uchuu_all path page pres r dfs).
  rewrite map_app, map_map. cbn [snd]. apply NoDup_app_.
  - clear - HD. induction dfs as [|df dfs IH]; [constructor|]. inversion HD as [|? ? N1 N2]; subst. cbn. constructor; [|auto].
    intros H. apply in_map_iff in H as (df' & E & H). apply raw_file_inj in E. apply h5_inj in E as [_ ->]. auto.
  - apply IH; auto. intros; apply HR; right; auto.
  - intros q H1 H2. apply in_map_iff in H1 as (df & <- & H1). apply in_map_iff in H2 as ([u p] & E & H2). cbn in E. subst p.
    apply uchuu_all_in in H2 as (s' & df' & A & B & _ & E). apply raw_file_inj in E. apply h5_inj in E as [E _].
    pose proof (HR s (or_introl eq_refl)) as R1. pose proof (HR s' (or_intror A)) as R2. unfold h5_names in *. rewrite map_length in *.
    unfold stem in E. apply (NoDup_nth pres "") in E; try lia; auto. assert (s = s') by lia. subst. auto.
Qed.

(** ** A directory whose name has data1 in it *)
Lemma first_occurrence s : occurs "data1" s -> exists a b, s = (a ++ "data1" ++ b)%string /\ ~ occurs "data1" a.
Proof.
  induction s as [|c s IH]; intros H.
  - destruct H as (a & b & E). destruct a; discriminate E.
  - destruct (String.prefix "data1" (String c s)) eqn:E.
    + apply prefix_iff in E as [b E]. exists "", b. split; [exact E|]. apply contains_false. reflexivity.
    + assert (H1 : occurs "data1" s). { apply contains_iff in H. cbn [contains] in H. rewrite E in H. cbn [orb] in H. apply contains_iff. exact H. }
      destruct (IH H1) as (a & b & Es & Ha). exists (String c a), b. split; [rewrite Es; reflexivity|].
      apply contains_false. cbn [contains]. apply orb_false_iff. split; [|apply contains_false; exact Ha].
      destruct (String.prefix "data1" (String c a)) eqn:Ep; [|reflexivity]. apply (prefix_app_l "data1" (String c a) ("data1" ++ b)) in Ep.
      rewrite Es in E. cbn [append] in Ep, E. congruence.
Qed.
Lemma rep_length new k s : 5 <= String.length new -> String.length s <= String.length (rep "data1" new k s) + k.
Proof.
  intros HN. revert k. induction s as [|a s IH]; intros k; [cbn; lia|]. destruct k as [|k].
  - cbn [rep]. destruct (String.prefix "data1" (String a s)); cbn [String.length].
    + rewrite slength_app. specialize (IH 4). cbn [String.length Nat.sub]. cbn in IH. lia.
    + specialize (IH 0). lia.
  - cbn [rep String.length]. specialize (IH k). lia.
Qed.
Lemma wrong_place path pre df : occurs "data1" path -> ~ occurs "data1" pre -> 2 <= df <= 12 ->
  replace "data1" (data_name df) (raw_file path (pre ++ "data1.h5")) <> raw_file path (pre ++ data_name df ++ ".h5").
Proof.
  intros H1 H2 Hdf E. destruct (first_occurrence path H1) as (a & b & -> & Ha).
  unfold raw_file in E.
  replace ((a ++ "data1" ++ b) ++ "/raw/" ++ pre ++ "data1.h5")%string with (a ++ "data1" ++ (b ++ "/raw/" ++ pre ++ "data1.h5"))%string in E by (rewrite !sapp_assoc; reflexivity).
  rewrite replace_mid in E by auto. rewrite !sapp_assoc in E. apply sapp_inj_l in E.
  assert (L : String.length (b ++ "/raw/" ++ pre ++ "data1.h5") <= String.length (replace "data1" (data_name df) (b ++ "/raw/" ++ pre ++ "data1.h5"))).
  { unfold replace. pose proof (rep_length (data_name df) 0 (b ++ "/raw/" ++ pre ++ "data1.h5")) as L. rewrite Nat.add_0_r in L. apply L. unfold data_name. rewrite slength_app. cbn [String.length].
    do 13 (destruct df as [|df]; [cbn; lia|]). lia. }
  assert (D : (2 <= df <= 9) \/ (10 <= df <= 12)) by lia. destruct D as [D|D].
  - do 10 (destruct df as [|df]; [try lia; cbn in E; discriminate E|]). lia.
  - assert (L2 : String.length (data_name df) = 6) by (do 13 (destruct df as [|df]; [try lia; reflexivity|]); lia).
    apply (f_equal String.length) in E. rewrite !slength_app in L.
    assert (L3 : S (String.length b + (String.length "/raw/" + (String.length pre + String.length "data1.h5"))) <= String.length (replace "data1" (data_name df) (b ++ "/raw/" ++ pre ++ "data1.h5"))).
    { clear E L. unfold replace.
      assert (G : forall x y, ~ occurs "data1" y -> S (String.length (x ++ y ++ "data1.h5")) <= String.length (rep "data1" (data_name df) 0 (x ++ y ++ "data1.h5"))).
      { clear - L2. intros x y _. remember (x ++ y)%string as z. replace (x ++ y ++ "data1.h5")%string with (z ++ "data1.h5")%string by (subst z; apply sapp_assoc). clear x y Heqz.
        assert (Q : forall z k, k < 5 -> (k <= String.length z) -> S (String.length (z ++ "data1.h5")) <= String.length (rep "data1" (data_name df) k (z ++ "data1.h5")) + k).
        { clear z. induction z as [|c z IH]; intros k Hk Hz.
          - cbn in Hz. assert (k = 0) by lia. subst. cbn. rewrite slength_app. unfold data_name in L2. cbn in L2. cbn. lia.
          - cbn [append]. destruct k as [|k]; [|cbn [rep String.length]; cbn in Hz; specialize (IH k ltac:(lia) ltac:(lia)); lia].
            cbn [rep]. destruct (String.prefix "data1" (String c (z ++ "data1.h5"))) eqn:EP.
            + rewrite slength_app, L2. assert (5 <= String.length (String c z)).
              { apply (prefix_in_left (String c z) "ata1.h5") in EP; [|discriminate]. apply prefix_iff in EP as [b EP]. rewrite EP, slength_app. cbn. lia. }
              cbn in H. specialize (IH 4 ltac:(lia) ltac:(lia)). cbn [String.length Nat.sub]. lia.
            + cbn [String.length]. specialize (IH 0 ltac:(lia) ltac:(lia)). lia. }
        specialize (Q z 0 ltac:(lia) ltac:(lia)). lia. }
      specialize (G (b ++ "/raw/")%string pre H2). rewrite !sapp_assoc, !slength_app in G. exact G. }
    set (RR := replace _ _ _) in *. clearbody RR. rewrite !slength_app, L2 in E. change (String.length "data1") with 5 in E. change (String.length ".h5") with 3 in E. change (String.length "data1.h5") with 8 in L3. lia.
Qed.
