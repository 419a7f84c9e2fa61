(** Proofs about the raw catalogues: names, file lists and snapshot tables (C91, C96). *)
From Verif Require Import Dict Util RealUtil PathsModel SnapModel SnapSpec Snap FormatModel FormatSpec.
From Verif Require Paths.
From Verif Require Import RawModel RawSpec.
From Coq Require Import Reals Ascii Sorted Permutation Lra.
Open Scope string_scope.
Open Scope list_scope.
Open Scope nat_scope.

(** * Strings *)
Lemma lacks_cons c a s : lacks c (String a s) <-> a <> c /\ lacks c s.
Proof. unfold lacks. cbn. split; [intros H; split; [intros ->|]; tauto|]. intros [H1 H2] [E|E]; auto. Qed.
Lemma lacks_app c a b : lacks c (a ++ b)%string <-> lacks c a /\ lacks c b.
Proof. unfold lacks. rewrite Paths.list_ascii_app, in_app_iff. tauto. Qed.
Lemma split_lacks c s : lacks c s -> split_on c s = [s].
Proof. exact (Paths.split_lacks c s). Qed.
Lemma split_word c w s : lacks c w -> split_on c (w ++ String c s) = w :: split_on c s.
Proof. exact (Paths.split_word c w s). Qed.
Lemma split_after c s t : split_on c (s ++ String c t) = split_on c s ++ split_on c t.
Proof. exact (Paths.split_after c s t). Qed.
Lemma sapp_assoc (a b c : string) : ((a ++ b) ++ c = a ++ (b ++ c))%string.
Proof. exact (Paths.sapp_assoc a b c). Qed.
Lemma slength_app (a b : string) : String.length (a ++ b) = String.length a + String.length b.
Proof. induction a; cbn; auto. Qed.
Lemma substring_prefix (a b : string) : substring 0 (String.length a) (a ++ b) = a.
Proof. induction a as [|c a IH]; cbn; [destruct b; reflexivity|]. rewrite IH. reflexivity. Qed.
Lemma drop_end_app (a b : string) : drop_end (String.length b) (a ++ b) = a.
Proof. unfold drop_end. rewrite slength_app. replace (_ + _ - _) with (String.length a) by lia. apply substring_prefix. Qed.
Lemma prefix_iff (a s : string) : String.prefix a s = true <-> exists b, s = (a ++ b)%string.
Proof.
  revert s. induction a as [|c a IH]; intros s.
  - split; [intros _; exists s; reflexivity|]. intros _. destruct s; reflexivity.
  - destruct s as [|d s]; [split; [discriminate|intros (b & E); discriminate]|]. simpl.
    destruct (ascii_dec c d) as [->|N].
    + rewrite IH. split; intros (b & E); exists b; [subst; reflexivity|]. injection E as ->. reflexivity.
    + split; [discriminate|]. intros (b & E). injection E as -> _. tauto.
Qed.
Lemma contains_iff a s : contains a s = true <-> occurs a s.
Proof.
  induction s as [|c s IH]; cbn [contains].
  - rewrite orb_false_r, prefix_iff. split; [intros (b & E); exists "", b; auto|].
    intros (u & b & E). destruct u; [exists b; auto|discriminate].
  - rewrite orb_true_iff, prefix_iff, IH. split.
    + intros [(b & E)|(u & b & E)]; [exists "", b; auto|]. exists (String c u), b. rewrite E. reflexivity.
    + intros ([|d u] & b & E); [left; eauto|]. right. injection E as -> ->. exists u, b. reflexivity.
Qed.
Lemma contains_false a s : contains a s = false <-> ~ occurs a s.
Proof. rewrite <- contains_iff. destruct (contains a s); split; congruence. Qed.

(** * Scraping *)
Lemma split_blank_words ws : ws <> [] -> Forall (lacks " "%char) ws -> split_on " "%char (String.concat " " ws) = ws.
Proof.
  induction ws as [|w ws IH]; [congruence|]. intros _ H. inversion H; subst. destruct ws as [|v ws].
  - cbn. apply split_lacks. auto.
  - change (String.concat " " (w :: v :: ws)) with (w ++ String " " (String.concat " " (v :: ws)))%string.
    rewrite split_word by auto. rewrite IH; auto. discriminate.
Qed.
Lemma quoted_link l : good_link l -> quoted (link_text l) = Ok (l_name l).
Proof.
  intros (_ & H1 & H2). unfold quoted, link_text, quote.
  change (String "034"%char "" ++ ?x)%string with (String "034"%char x).
  cbn [String.append]. rewrite split_word by auto. rewrite split_word by auto. reflexivity.
Qed.
Lemma scrape_gen (f : string -> bool) ws : ws <> [] ->
  (forall l, In (Link l) ws -> good_link l /\ f (link_text l) = true) ->
  (forall s, In (Noise s) ws -> lacks " "%char s /\ f s = false) ->
  mapM quoted (filter f (split_on " "%char (page_text ws))) = Ok (page_names ws).
Proof.
  intros HN HL HZ. unfold page_text. rewrite split_blank_words.
  2:{ destruct ws; [congruence|discriminate]. }
  2:{ apply Forall_forall. intros t Ht. apply in_map_iff in Ht as ([l|s] & <- & Hi); cbn; [apply HL in Hi as [[G _] _]|apply HZ in Hi as [G _]]; auto. }
  clear HN. induction ws as [|w ws IH]; [reflexivity|].
  assert (IH' : mapM quoted (filter f (map word_text ws)) = Ok (page_names ws)).
  { apply IH; intros; [apply HL|apply HZ]; right; auto. }
  cbn [map filter]. destruct w as [l|s]; cbn [word_text].
  - destruct (HL l (or_introl eq_refl)) as [G1 G2]. rewrite G2. cbn [mapM]. rewrite quoted_link by auto. cbn [bind]. rewrite IH'. reflexivity.
  - destruct (HZ s (or_introl eq_refl)) as [_ G2]. rewrite G2. exact IH'.
Qed.

(** * Names *)
Lemma um_scale_name float p d e : lacks "_"%char d -> lacks "_"%char e -> String.length e = 4 ->
  um_scale float (p ++ "_" ++ d ++ e) = float d.
Proof.
  intros H1 H2 H3. unfold um_scale. change ("_" ++ d ++ e)%string with (String "_" (d ++ e)). rewrite split_after.
  rewrite (split_lacks "_"%char (d ++ e)) by (apply lacks_app; auto). rewrite rev_app_distr. cbn [rev app]. rewrite <- H3, drop_end_app. reflexivity.
Qed.
Lemma sreverse_app a b : sreverse (a ++ b) = (sreverse b ++ sreverse a)%string.
Proof.
  unfold sreverse. rewrite Paths.list_ascii_app, rev_app_distr. generalize (rev (list_ascii_of_string b)) as l.
  induction l as [|c l IH]; cbn; [reflexivity|]. rewrite IH. reflexivity.
Qed.
Lemma sreverse_inv s : sreverse (sreverse s) = s.
Proof. unfold sreverse. rewrite list_ascii_of_string_of_list_ascii, rev_involutive. apply string_of_list_ascii_of_string. Qed.
Lemma lstrip_lacks c s : lacks c s -> lstrip c s = s.
Proof. destruct s as [|a s]; cbn; auto. intros H. apply lacks_cons in H as [H _]. apply Ascii.eqb_neq in H. rewrite H. reflexivity. Qed.
Lemma lacks_sreverse c s : lacks c s -> lacks c (sreverse s).
Proof. unfold lacks, sreverse. rewrite list_ascii_of_string_of_list_ascii, <- in_rev. auto. Qed.
Lemma strip_one c s : lacks c s -> strip c (String c s) = s.
Proof.
  intros H. unfold strip. cbn [lstrip]. rewrite Ascii.eqb_refl, (lstrip_lacks c s) by auto. rewrite lstrip_lacks by (apply lacks_sreverse; auto).
  apply sreverse_inv.
Qed.
Lemma replace_p_lacks s : lacks "p"%char s -> replace "p" "." s = s.
Proof.
  unfold replace. induction s as [|a s IH]; [reflexivity|]. intros H. apply lacks_cons in H as [H1 H2]. cbn [rep String.prefix].
  destruct (ascii_dec "p" a); [subst; tauto|]. rewrite IH by auto. reflexivity.
Qed.
Lemma replace_p_mid a b : lacks "p"%char a -> lacks "p"%char b -> replace "p" "." (a ++ "p" ++ b) = (a ++ "." ++ b)%string.
Proof.
  intros Ha Hb. induction a as [|c a IH].
  - cbn [String.append]. unfold replace. cbn [rep String.prefix]. destruct (ascii_dec "p" "p"); [|tauto].
    cbn [String.length Nat.sub String.append]. replace (String.prefix "" b) with true by (destruct b; reflexivity).
    f_equal. exact (replace_p_lacks b Hb).
  - apply lacks_cons in Ha as [H1 H2]. unfold replace in *. cbn [String.append rep String.prefix].
    destruct (ascii_dec "p" c); [subst; tauto|]. f_equal. apply IH. auto.
Qed.
Lemma uchuu_z_name float a b t : lacks "_"%char a -> lacks "_"%char b -> lacks "z"%char a -> lacks "z"%char b -> lacks "p"%char a -> lacks "p"%char b ->
  uchuu_z float ("Uchuu_UM_z" ++ a ++ "p" ++ b ++ "_" ++ t) = float (a ++ "." ++ b)%string.
Proof.
  intros A1 B1 A2 B2 A3 B3. unfold uchuu_z.
  change ("Uchuu_UM_z" ++ ?x)%string with ("Uchuu" ++ String "_" ("UM" ++ String "_" (String "z" x)))%string.
  rewrite !split_word by (unfold lacks; cbn; intuition discriminate).
  replace (String "z" (a ++ "p" ++ b ++ "_" ++ t)) with (String "z" (a ++ "p" ++ b) ++ String "_" t)%string.
  2:{ cbn [String.append]. f_equal. rewrite !sapp_assoc. reflexivity. }
  rewrite split_word.
  - cbn [nth_error]. rewrite strip_one, replace_p_mid; auto. apply lacks_app. split; auto. cbn [String.append]. apply lacks_cons. split; [discriminate|auto].
  - apply lacks_cons. split; [discriminate|]. apply lacks_app. split; auto. cbn [String.append]. apply lacks_cons. split; [discriminate|auto].
Qed.

(** * Snapshot tables *)
Lemma zmem_In x l : zmem x l = true <-> In x l.
Proof.
  unfold zmem. rewrite existsb_exists. split; [intros (y & Hy & Q); apply Z.eqb_eq in Q; subst; auto|].
  intros Hi. exists x. rewrite Z.eqb_refl. auto.
Qed.
Definition numbers (q : list R) (snaps : list Z) : list snapc :=
  filter (fun c => zmem (c_index c) snaps) (map (fun iz => new_snap (Z.of_nat (fst iz)) (snd iz)) (combine (seq 0 (length q)) q)).
Lemma numbers_In q snaps c : In c (numbers q snaps) <->
  exists i z, nth_error q i = Some z /\ In (Z.of_nat i) snaps /\ c = new_snap (Z.of_nat i) z.
Proof.
  unfold numbers. rewrite filter_In, in_map_iff, zmem_In. split.
  - intros (((i, z) & <- & Hi) & Hs). apply In_nth_error in Hi as (k & Hk). apply combine_seq_nth in Hk as (y & Hy & E). injection E as -> ->.
    cbn in *. eauto.
  - intros (i & z & Hz & Hs & ->). split; [|exact Hs]. exists (i, z). split; [reflexivity|]. apply (nth_error_In _ i). apply combine_seq_nth. exists z. auto.
Qed.
Lemma numbers_desc q snaps : StronglySorted (fun a b => (b < a)%R) q -> Forall (fun z => 0 <= z)%R q -> descending_z (numbers q snaps).
Proof.
  intros HS HP. split.
  - assert (SC : StronglySorted (fun a b => (c_z b < c_z a)%R) (map (fun iz : nat * R => new_snap (Z.of_nat (fst iz)) (snd iz)) (combine (seq 0 (length q)) q))).
    { apply nth_SS. intros i j a b Hij Ha Hb. rewrite nth_error_map in Ha, Hb.
      destruct (nth_error (combine _ q) i) as [x|] eqn:Ex; [|discriminate]. destruct (nth_error (combine _ q) j) as [y|] eqn:Ey; [|discriminate].
      apply combine_seq_nth in Ex as (za & Ha' & ->). apply combine_seq_nth in Ey as (zb & Hb' & ->). injection Ha as <-. injection Hb as <-.
      cbn. eapply (SS_nth _ q HS i j); eauto. }
    unfold numbers. induction SC as [|a l Hl IH Ha]; [constructor|]. cbn. destruct (zmem _ _); auto. constructor; auto.
    apply Forall_forall. intros b Hb. apply filter_In in Hb as [Hb _]. rewrite Forall_forall in Ha. auto.
  - apply Forall_forall. intros c Hc. apply numbers_In in Hc as (i & z & Hz & _ & ->). cbn. rewrite Forall_forall in HP. apply HP. eapply nth_error_In; eauto.
Qed.
Lemma numbers_table C h q snaps : good_cosmo C -> StronglySorted (fun a b => (b < a)%R) q -> Forall (fun z => 0 <= z)%R q ->
  (exists i, i < length q /\ In (Z.of_nat i) snaps) ->
  exists ms, make_meta C h (numbers q snaps) = Ok ms /\ tiles C h ms /\
    (forall i z, In (i, z) (map (fun m => (m_index m, m_z m)) ms) <-> (0 <= i)%Z /\ nth_error q (Z.to_nat i) = Some z /\ In i snaps).
Proof.
  intros HC HS HP (i0 & Hi0 & Hs0).
  destruct (c38_tile C h (numbers q snaps) HC (numbers_desc q snaps HS HP)) as (ms & E & Ei & Ez & T).
  - intros E. destruct (nth_error_lt_Some q i0 Hi0) as [z Hz].
    assert (In (new_snap (Z.of_nat i0) z) (numbers q snaps)) by (apply numbers_In; eauto). rewrite E in H. destruct H.
  - exists ms. split; [exact E|]. split; [exact T|].
    rewrite (pairs_eq m_index m_z ms (map (fun c => (c_index c, c_z c)) (numbers q snaps))) by (rewrite map_map; auto).
    intros i z. rewrite in_map_iff. split.
    + intros (c & E1 & Hc). apply numbers_In in Hc as (k & y & Hy & Hs & ->). cbn in E1. injection E1 as <- <-.
      rewrite Nat2Z.id. repeat split; auto. lia.
    + intros (H0 & Hz & Hs). exists (new_snap i z). split; [reflexivity|]. apply numbers_In. exists (Z.to_nat i), z. rewrite Z2Nat.id by auto. auto.
Qed.

(** ** UniverseMachine *)
Lemma mapM_ok_map {A B} (f : A -> exc B) (g : A -> B) l : (forall x, In x l -> f x = Ok (g x)) -> mapM f l = Ok (map g l).
Proof.
  induction l as [|a l IH]; intros H; [reflexivity|]. cbn. rewrite (H a (or_introl eq_refl)). cbn. rewrite IH; [reflexivity|]. intros; apply H; right; auto.
Qed.
Lemma pick_map {A B} (f : A -> B) l p : pick (map f l) p = map f (pick l p).
Proof.
  unfold pick. induction p as [|i p IH]; [reflexivity|]. cbn [flat_map]. rewrite nth_error_map, map_app, IH.
  destruct (nth_error l i); reflexivity.
Qed.
Lemma strictly {A} (f : A -> R) l : StronglySorted (fun a b => (f a <= f b)%R) l -> NoDup (map f l) -> StronglySorted (fun a b => (f a < f b)%R) l.
Proof.
  intros HS HN. induction HS as [|a l Hl IH Ha]; [constructor|]. inversion HN; subst. constructor; auto.
  rewrite Forall_forall in *. intros b Hb. specialize (Ha b Hb). assert (f a <> f b) by (intros E; apply H1; rewrite E; apply in_map; auto). lra.
Qed.
Definition zof (a : R) : R := (1 / a - 1)%R.
Lemma zof_lt a b : (0 < a < b)%R -> (zof b < zof a)%R.
Proof. intros H. unfold zof, Rdiv. rewrite !Rmult_1_l. apply Rplus_lt_compat_r, Rinv_lt_contravar; [apply Rmult_lt_0_compat|]; lra. Qed.
Lemma zof_nonneg a : (0 < a <= 1)%R -> (0 <= zof a)%R.
Proof.
  intros H. unfold zof, Rdiv. rewrite Rmult_1_l. assert (/ 1 <= / a)%R by (apply Rinv_le_contravar; lra). rewrite Rinv_1 in H0. lra.
Qed.
Lemma zof_inj a b : (0 < a)%R -> (0 < b)%R -> zof a = zof b -> a = b.
Proof.
  intros Ha Hb E. unfold zof, Rdiv in E. rewrite !Rmult_1_l in E. assert (/ a = / b)%R by lra.
  rewrite <- (Rinv_inv a), <- (Rinv_inv b). congruence.
Qed.
(** the table of [um_meta] in terms of the sorted scale factors *)
Lemma um_table asort float C h web sc snaps : good_cosmo C -> argsorts asort ->
  (forall t, In t web -> um_scale float t = Ok (sc t)) -> Forall (fun t => 0 < sc t <= 1)%R web -> NoDup (map sc web) ->
  (exists i, i < length web /\ In (Z.of_nat i) snaps) ->
  exists ms s, um_meta asort float C h web snaps = Ok ms /\ tiles C h ms /\ Permutation s web /\
    StronglySorted (fun a b => (sc a < sc b)%R) s /\
    (forall i z, In (i, z) (map (fun m => (m_index m, m_z m)) ms) <->
       (0 <= i)%Z /\ option_map (fun t => zof (sc t)) (nth_error s (Z.to_nat i)) = Some z /\ In i snaps).
Proof.
  intros HC HA HF HP HN HX. set (p := asort (map sc web)).
  assert (Ap : is_argsort (map sc web) p) by apply HA.
  assert (Pm : Permutation (pick web p) web). { apply pick_perm. destruct Ap as [A0 _]. rewrite map_length in A0. auto. }
  assert (SS : StronglySorted (fun a b => (sc a < sc b)%R) (pick web p)).
  { apply strictly; [apply pick_sorted; exact Ap|]. eapply Permutation_NoDup; [apply Permutation_map, Permutation_sym; exact Pm|auto]. }
  assert (P0 : Forall (fun t => 0 < sc t <= 1)%R (pick web p)) by (eapply Permutation_Forall; [apply Permutation_sym; exact Pm|auto]).
  set (q := map (fun t => zof (sc t)) (pick web p)).
  destruct (numbers_table C h q snaps HC) as (ms & E & T & I).
  - unfold q. clear - SS P0. induction SS as [|a l Hl IH Ha]; cbn; [constructor|]. inversion P0; subst. constructor; auto.
    apply Forall_map. rewrite Forall_forall in *. intros b Hb. apply zof_lt. split; [lra|]. apply Ha. auto.
  - unfold q. apply Forall_map. rewrite Forall_forall in *. intros b Hb. apply zof_nonneg. auto.
  - unfold q. rewrite map_length, (Permutation_length Pm). exact HX.
  - exists ms, (pick web p). split.
    { unfold um_meta, um_classes. rewrite (mapM_ok_map _ sc) by auto. cbn [bind]. fold p.
      change (fun x : R => (1 / x - 1)%R) with zof. rewrite map_map. rewrite pick_map. exact E. }
    split; [exact T|]. split; [exact Pm|]. split; [exact SS|]. intros i z. rewrite I. unfold q. rewrite nth_error_map. reflexivity.
Qed.
Lemma sorted_self {A} (f : A -> R) s l : Permutation s l -> StronglySorted (fun a b => (f a < f b)%R) s -> StronglySorted (fun a b => (f a < f b)%R) l -> s = l.
Proof. intros P S1 S2. apply (sorted_unique f s l P S1). eapply SS_impl; [|exact S2]. intros; lra. Qed.
Lemma rows_pair ms i z : In (i, z) (map (fun m => (m_index m, m_z m)) ms) <-> exists m, In m ms /\ m_index m = i /\ m_z m = z.
Proof.
  rewrite in_map_iff. split; [intros (m & [= <- <-] & H); eauto|]. intros (m & H & <- & <-). eauto.
Qed.
Lemma um_rows_ok asort float C h web sc snaps : good_cosmo C -> argsorts asort ->
  (forall t, In t web -> um_scale float t = Ok (sc t)) -> Forall (fun t => 0 < sc t <= 1)%R web ->
  StronglySorted (fun a b => (sc a < sc b)%R) web -> (exists i, i < length web /\ In (Z.of_nat i) snaps) ->
  exists ms, um_meta asort float C h web snaps = Ok ms /\ tiles C h ms /\ rows_requested (length web) snaps ms /\
    rows_match web (fun t => zof (sc t)) ms.
Proof.
  intros HC HA HF HP HS HX.
  assert (HN : NoDup (map sc web)).
  { clear - HS. induction HS as [|a l Hl IH Ha]; cbn; constructor; auto. intros H. apply in_map_iff in H as (b & E & Hb). rewrite Forall_forall in Ha.
    specialize (Ha b Hb). lra. }
  destruct (um_table asort float C h web sc snaps HC HA HF HP HN HX) as (ms & s & E & T & Pm & SS & I).
  rewrite (sorted_self sc s web Pm SS HS) in I. clear s Pm SS. exists ms. split; [exact E|]. split; [exact T|]. split.
  - intros i. rewrite in_map_iff. split.
    + intros (m & <- & Hm). assert (Q : In (m_index m, m_z m) (map (fun m => (m_index m, m_z m)) ms)) by (apply rows_pair; eauto).
      apply I in Q as (Q1 & Q2 & Q3). split; [|exact Q3]. split; [exact Q1|].
      destruct (nth_error web (Z.to_nat (m_index m))) eqn:En; [|discriminate]. apply nth_error_Some_lt in En. lia.
    + intros ((H1 & H2) & H3). destruct (nth_error_lt_Some web (Z.to_nat i)) as [t Ht]; [lia|].
      assert (Q : In (i, zof (sc t)) (map (fun m => (m_index m, m_z m)) ms)) by (apply I; rewrite Ht; auto).
      apply rows_pair in Q as (m & Hm & Em & _). eauto.
  - intros m Hm. assert (Q : In (m_index m, m_z m) (map (fun m => (m_index m, m_z m)) ms)) by (apply rows_pair; eauto).
    apply I in Q as (Q1 & Q2 & _). destruct (nth_error web (Z.to_nat (m_index m))) as [t|]; [|discriminate]. exists t. injection Q2 as <-. auto.
Qed.
Lemma um_rows_bad asort float C h web sc i j ti tj : good_cosmo C -> argsorts asort ->
  (forall t, In t web -> um_scale float t = Ok (sc t)) -> Forall (fun t => 0 < sc t <= 1)%R web -> NoDup (map sc web) ->
  i < j -> nth_error web i = Some ti -> nth_error web j = Some tj -> (sc tj < sc ti)%R ->
  exists ms, um_meta asort float C h web (all_snaps (length web)) = Ok ms /\ tiles C h ms /\
    exists m name, In m ms /\ nth_error web (Z.to_nat (m_index m)) = Some name /\ m_z m <> zof (sc name).
Proof.
  intros HC HA HF HP HN Hij Hi Hj Hlt.
  assert (HS0 : forall k, k < length web -> In (Z.of_nat k) (all_snaps (length web))) by (intros k Hk; apply in_map, in_seq; lia).
  destruct (um_table asort float C h web sc (all_snaps (length web)) HC HA HF HP HN) as (ms & s & E & T & Pm & SS & I).
  { exists i. apply nth_error_Some_lt in Hi. split; auto. }
  exists ms. split; [exact E|]. split; [exact T|].
  assert (D : exists k t u, nth_error s k = Some t /\ nth_error web k = Some u /\ sc t <> sc u).
  { pose proof (nth_error_Some_lt _ _ _ Hi) as Li. pose proof (nth_error_Some_lt _ _ _ Hj) as Lj. rewrite <- (Permutation_length Pm) in Li, Lj.
    destruct (nth_error_lt_Some s i Li) as [si Hsi]. destruct (nth_error_lt_Some s j Lj) as [sj Hsj].
    destruct (Req_dec (sc si) (sc ti)) as [E1|N]; [|exists i, si, ti; auto]. destruct (Req_dec (sc sj) (sc tj)) as [E2|N]; [|exists j, sj, tj; auto].
    pose proof (SS_nth _ s SS i j si sj Hij Hsi Hsj). cbv beta in *. lra. }
  destruct D as (k & t & u & Ht & Hu & Hne).
  assert (Q : In (Z.of_nat k, zof (sc t)) (map (fun m => (m_index m, m_z m)) ms)).
  { apply I. rewrite Nat2Z.id, Ht. split; [lia|]. split; [reflexivity|]. apply HS0. eapply nth_error_Some_lt; eauto. }
  apply rows_pair in Q as (m & Hm & Em & Ez). exists m, u. split; [exact Hm|]. rewrite Em, Nat2Z.id. split; [exact Hu|]. rewrite Ez.
  rewrite Forall_forall in HP. intros Eq. apply Hne. apply zof_inj; auto.
  - apply HP. apply (Permutation_in _ Pm). eapply nth_error_In; eauto.
  - apply HP. eapply nth_error_In; eauto.
Qed.

(** ** Uchuu *)
Lemma uchuu_rows_ok asort float C h web zf snaps : good_cosmo C -> argsorts asort ->
  (forall t, In t web -> uchuu_z float t = Ok (zf t)) -> Forall (fun t => 0 <= zf t)%R web ->
  StronglySorted (fun a b => (zf b < zf a)%R) web -> (exists i, i < length web /\ In (Z.of_nat i) snaps) ->
  exists ms, uchuu_meta asort float C h web snaps = Ok ms /\ tiles C h ms /\ rows_requested (length web) snaps ms /\ rows_match web zf ms.
Proof.
  intros HC HA HF HP HS HX.
  assert (ES : pick (map zf web) (asort (map Ropp (map zf web))) = map zf web).
  { rewrite map_map, pick_map. f_equal. rewrite (sorted_pick_id (fun t => - zf t)%R web (asort (map (fun t => - zf t)%R web))); [apply pick_all| |apply HA].
    eapply SS_impl; [|exact HS]. intros; lra. }
  destruct (numbers_table C h (map zf web) snaps HC) as (ms & E & T & I).
  - apply SS_map. exact HS.
  - apply Forall_map. exact HP.
  - rewrite map_length. exact HX.
  - exists ms. split.
    { unfold uchuu_meta. rewrite (mapM_ok_map _ zf) by auto. cbn [bind]. unfold numbered_classes. cbv zeta. rewrite ES. exact E. }
    split; [exact T|]. split.
    + intros i. rewrite in_map_iff. split.
      * intros (m & <- & Hm). assert (Q : In (m_index m, m_z m) (map (fun m => (m_index m, m_z m)) ms)) by (apply rows_pair; eauto).
        apply I in Q as (Q1 & Q2 & Q3). split; [|exact Q3]. split; [exact Q1|].
        apply nth_error_Some_lt in Q2. rewrite map_length in Q2. lia.
      * intros ((H1 & H2) & H3). destruct (nth_error_lt_Some web (Z.to_nat i)) as [t Ht]; [lia|].
        assert (Q : In (i, zf t) (map (fun m => (m_index m, m_z m)) ms)) by (apply I; rewrite nth_error_map, Ht; auto).
        apply rows_pair in Q as (m & Hm & Em & _). eauto.
    + intros m Hm. assert (Q : In (m_index m, m_z m) (map (fun m => (m_index m, m_z m)) ms)) by (apply rows_pair; eauto).
      apply I in Q as (Q1 & Q2 & _). rewrite nth_error_map in Q2.
      destruct (nth_error web (Z.to_nat (m_index m))) as [t|]; [|discriminate]. exists t. injection Q2 as <-. auto.
Qed.
Lemma uchuu_open_sorted asort float zf page names : argsorts asort -> uchuu_scrape page = Ok names ->
  (forall t, In t names -> uchuu_z float t = Ok (zf t)) -> NoDup (map zf names) ->
  exists web, uchuu_open asort float None page = Ok (web, Some web) /\ Permutation web names /\
    StronglySorted (fun a b => (zf b < zf a)%R) web.
Proof.
  intros HA HE HF HN. set (p := asort (map (fun t => - zf t)%R names)).
  assert (Ap : is_argsort (map (fun t => - zf t)%R names) p) by apply HA.
  assert (Pm : Permutation (pick names p) names). { apply pick_perm. destruct Ap as [A0 _]. rewrite map_length in A0. auto. }
  exists (pick names p). split; [|split; [exact Pm|]].
  - unfold uchuu_open. rewrite HE. cbn [bind]. rewrite (mapM_ok_map _ zf) by auto. cbn [bind]. rewrite map_map. reflexivity.
  - eapply SS_impl; [|apply strictly; [apply pick_sorted; exact Ap|]]; [cbv beta; intros; lra|].
    eapply Permutation_NoDup; [apply Permutation_map, Permutation_sym; exact Pm|].
    clear - HN. induction names as [|a l IH]; cbn in *; [constructor|]. inversion HN; subst. constructor; auto.
    intros H. apply H1. apply in_map_iff in H as (b & E & Hb). apply in_map_iff. exists b. split; auto. lra.
Qed.

(** * Chosen snapshots *)
Lemma zins_In x y l : In y (zins x l) <-> y = x \/ In y l.
Proof.
  induction l as [|a l IH]; cbn; [intuition|]. destruct (Z.ltb_spec x a); cbn; [intuition|]. destruct (Z.eqb_spec x a); cbn; [subst; intuition|]. rewrite IH. intuition.
Qed.
Lemma zins_sorted x l : StronglySorted Z.lt l -> StronglySorted Z.lt (zins x l).
Proof.
  induction 1 as [|a l Hl IH Ha]; cbn; [repeat constructor|]. destruct (Z.ltb_spec x a).
  - constructor; [constructor; auto|]. constructor; auto. eapply Forall_impl; [|exact Ha]. cbv beta. intros; lia.
  - destruct (Z.eqb_spec x a); [constructor; auto|]. constructor; auto. apply Forall_forall. intros b Hb. apply zins_In in Hb as [->|Hb]; [lia|].
    rewrite Forall_forall in Ha. auto.
Qed.
Lemma choose_ok req all : StronglySorted Z.lt (choose_snaps req all) /\
  (forall s, In s (choose_snaps req all) <-> In s all /\ match req with None => True | Some l => In s l end).
Proof.
  unfold choose_snaps. set (l := match req with None => all | Some l => l end).
  assert (G : forall m, StronglySorted Z.lt (fold_right zins [] m) /\ forall s, In s (fold_right zins [] m) <-> In s m).
  { induction m as [|a m [IH1 IH2]]; cbn; [split; [constructor|tauto]|]. split; [apply zins_sorted; auto|]. intros s. rewrite zins_In, IH2. intuition. }
  destruct (G (filter (fun x => zmem x all) l)) as [G1 G2]. split; [exact G1|]. intros s. rewrite G2, filter_In, zmem_In. unfold l.
  destruct req; tauto.
Qed.
