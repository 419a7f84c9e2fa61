(** Proofs about formatting binary UniverseMachine catalogues (C92). *)
From Verif Require Import Dict Util RealUtil PathsModel SnapModel SnapSpec Snap FormatModel FormatSpec Format.
From Verif Require Import RawModel RawSpec Raw Raw2.
From Coq Require Import Reals Ascii Sorted Permutation Lra.
Open Scope string_scope.
Open Scope list_scope.
Open Scope nat_scope.

(** * Records *)
Fixpoint field_off (key : string) (l : list (string * ty)) : option (ty * nat) :=
  match l with
  | [] => None
  | (k, t) :: r => if String.eqb key k then Some (t, 0) else option_map (fun to => (fst to, width t + snd to)) (field_off key r)
  end.
Lemma skipn_add {A} a : forall b (l : list A), skipn b (skipn a l) = skipn (a + b) l.
Proof. induction a as [|a IH]; intros b l; [reflexivity|]. destruct l; cbn; [apply skipn_nil|apply IH]. Qed.
Lemma field_words_off key l : forall ws, field_words key l ws = option_map (fun to => (fst to, firstn (width (fst to)) (skipn (snd to) ws))) (field_off key l).
Proof.
  induction l as [|(k, t) l IH]; intros ws; [reflexivity|]. cbn [field_words field_off]. destruct (String.eqb key k); [reflexivity|].
  rewrite IH. destruct (field_off key l) as [[t' o]|]; [|reflexivity]. cbn [option_map fst snd]. rewrite skipn_add. reflexivity.
Qed.
Lemma nth_skipn_ {A} o : forall (l : list A) j x, nth j (skipn o l) x = nth (o + j) l x.
Proof. induction o as [|o IH]; intros l j x; [reflexivity|]. destruct l; cbn; [destruct j; reflexivity|apply IH]. Qed.
Lemma nth_firstn_ {A} w : forall (l : list A) j x, j < w -> nth j (firstn w l) x = nth j l x.
Proof. induction w as [|w IH]; intros l j x H; [lia|]. destruct l; [reflexivity|]. destruct j; cbn; [reflexivity|]. apply IH. lia. Qed.
Lemma nth_window {A} (l : list A) o w j x : j < w -> nth j (firstn w (skipn o l)) x = nth (o + j) l x.
Proof. intros H. rewrite nth_firstn_ by auto. apply nth_skipn_. Qed.

Lemma records_concat recs : good_records recs -> records (concat recs) = recs.
Proof.
  intros H. unfold records. change rec_words with 32.
  assert (L : length (concat recs) = length recs * 32).
  { clear - H. induction H as [|r l [Hr _] _ IH]; [reflexivity|]. cbn [concat length]. rewrite app_length, IH, Hr. lia. }
  rewrite L, Nat.div_mul by lia. clear L. induction H as [|r l [Hr _] Hl IH]; [reflexivity|].
  cbn [length seq map concat]. f_equal.
  - cbn [Nat.mul skipn]. rewrite firstn_app, Hr, Nat.sub_diag, firstn_O, app_nil_r. apply firstn_all2. lia.
  - rewrite <- seq_shift, map_map. rewrite <- IH at 2. apply map_ext. intros i. f_equal.
    replace (S i * 32) with (length r + i * 32) by lia. rewrite <- skipn_add, skipn_app, Nat.sub_diag, skipn_all. reflexivity.
Qed.
Lemma flags_word r : flags r = i4 (nth 6 r 0%Z).
Proof. unfold flags. rewrite field_words_off. change (field_off "flags" bin_dtype) with (Some (I4, 6)). cbn [option_map fst snd width]. rewrite nth_window by lia. reflexivity. Qed.
Lemma land16 w : (0 <= w < 2 ^ 32)%Z -> (Z.land (i4 w) 16 =? 16)%Z = Z.testbit w 4.
Proof.
  intros H. assert (E : Z.testbit (i4 w) 4 = Z.testbit w 4).
  { unfold i4. destruct (w <? 2 ^ 31)%Z; [reflexivity|]. rewrite !Z.testbit_eqb by lia. apply (f_equal (fun z => (z =? 1)%Z)).
    change (2 ^ 32)%Z with (2 ^ 28 * 2 ^ 4)%Z. replace (w - 2 ^ 28 * 2 ^ 4)%Z with (w + (- 2 ^ 28) * 2 ^ 4)%Z by lia. rewrite Z.div_add by lia.
    rewrite (Zplus_mod _ (- 2 ^ 28)). change ((- 2 ^ 28) mod 2)%Z with 0%Z. rewrite Z.add_0_r. apply Z.mod_mod. lia. }
  rewrite <- E. generalize (i4 w) as x. intros x. destruct (Z.testbit x 4) eqn:B.
  - apply Z.eqb_eq. apply Z.bits_inj'. intros n Hn. rewrite Z.land_spec. destruct (Z.eq_dec n 4) as [->|N]; [rewrite B; reflexivity|].
    change 16%Z with (2 ^ 4)%Z. rewrite Z.pow2_bits_eqb by lia. destruct (Z.eqb_spec 4 n); [congruence|]. apply andb_false_r.
  - apply Z.eqb_neq. intros Q. assert (T : Z.testbit (Z.land x 16) 4 = true) by (rewrite Q; reflexivity). rewrite Z.land_spec, B in T. discriminate.
Qed.
Lemma kept_filter recs : good_records recs -> filter (fun r => negb (Z.land (flags r) 16 =? 16)%Z) recs = filter kept recs.
Proof.
  intros H. apply filter_ext_in. intros r Hr. unfold good_records in H. rewrite Forall_forall in H. destruct (H r Hr) as [L F].
  unfold kept. rewrite flags_word, land16; [reflexivity|]. rewrite Forall_forall in F. apply F. apply nth_In. lia.
Qed.
Definition bcol (recs : list (list Z)) (key : string) : col :=
  match field_off key bin_dtype with
  | Some (F4x6, o) => Col2 (map (fun r => decode F4x6 (firstn 6 (skipn o r))) recs)
  | Some (t, o) => Col1 (map (fun r => nth 0 (decode t (firstn (width t) (skipn o r))) 0%R) recs)
  | None => Col1 []
  end.
Lemma bin_col_ok key recs : field_off key bin_dtype <> None -> bin_col key recs = Ok (bcol recs key).
Proof.
  intros H. unfold bin_col, bcol. rewrite field_words_off. destruct (field_off key bin_dtype) as [[t o]|] eqn:E; [|tauto]. cbn [option_map fst snd].
  f_equal. assert (G : forall r, match field_words key bin_dtype r with Some (t0, ws) => decode t0 ws | None => [] end = decode t (firstn (width t) (skipn o r))).
  { intros r. rewrite field_words_off, E. reflexivity. }
  destruct t; [f_equal; rewrite map_map; apply map_ext; intros r; rewrite G; reflexivity..|]. f_equal. apply map_ext. exact G.
Qed.
Lemma bin_loads recs fs : good_records recs -> Forall (fun k => field_off k bin_dtype <> None) fs -> In "pos" fs ->
  bin_loader (concat recs) fs = Ok (map (fun k => (k, bcol (filter kept recs) k)) fs, length (filter kept recs)).
Proof.
  intros H HF HP. unfold bin_loader. rewrite records_concat, kept_filter by auto. cbv zeta.
  rewrite (mapM_ok_map _ (fun k => (k, bcol (filter kept recs) k))).
  - cbn [bind]. apply smem_In in HP. rewrite HP. reflexivity.
  - intros k Hk. rewrite Forall_forall in HF. rewrite bin_col_ok by auto. reflexivity.
Qed.
Lemma nth_map_in {A B} (f : A -> B) l i a b : i < length l -> nth i (map f l) b = f (nth i l a).
Proof. intros H. rewrite (nth_indep _ b (f a)) by (rewrite map_length; auto). apply map_nth. Qed.
Lemma bcol_f4 recs key o i : good_records recs -> i < length recs -> field_off key bin_dtype = Some (F4, o) -> o < 32 -> entry (bcol recs key) 0 i = Some (single recs o i).
Proof.
  intros HR Hi E Ho. unfold bcol, single. rewrite E. cbn [entry]. rewrite nth_error_map. destruct (nth_error_lt_Some recs i Hi) as [r Hr]. rewrite Hr, (nth_error_nth recs i [] Hr).
  cbn [option_map decode width]. f_equal. unfold good_records in HR. rewrite Forall_forall in HR. destruct (HR r (nth_error_In _ _ Hr)) as [L _].
  rewrite (nth_map_in f4 _ 0 0%Z 0%R) by (rewrite firstn_length, skipn_length; lia). rewrite nth_window by lia. f_equal. f_equal. lia.
Qed.
Lemma bcol_i4 recs key o i : i < length recs -> field_off key bin_dtype = Some (I4, o) -> entry (bcol recs key) 0 i = Some (int32 recs o i).
Proof.
  intros Hi E. unfold bcol, int32. rewrite E. cbn [entry]. rewrite nth_error_map. destruct (nth_error_lt_Some recs i Hi) as [r Hr]. rewrite Hr, (nth_error_nth recs i [] Hr).
  cbn [option_map decode width nth]. f_equal. rewrite nth_window by lia. rewrite Nat.add_0_r. reflexivity.
Qed.
Lemma bcol_i8 recs key o i : i < length recs -> field_off key bin_dtype = Some (I8, o) -> entry (bcol recs key) 0 i = Some (int64 recs o i).
Proof.
  intros Hi E. unfold bcol, int64. rewrite E. cbn [entry]. rewrite nth_error_map. destruct (nth_error_lt_Some recs i Hi) as [r Hr]. rewrite Hr, (nth_error_nth recs i [] Hr).
  cbn [option_map decode width]. f_equal. change (nth 0 [?x] ?y) with x. rewrite !nth_window by lia. rewrite Nat.add_0_r, Nat.add_1_r. reflexivity.
Qed.
Lemma bcol_pos recs j i : good_records recs -> i < length recs -> j < 6 -> entry (bcol recs "pos") j i = Some (single recs (8 + j) i).
Proof.
  intros HR Hi Hj. unfold bcol, single. change (field_off "pos" bin_dtype) with (Some (F4x6, 8)). cbn [entry decode]. rewrite nth_error_map.
  destruct (nth_error_lt_Some recs i Hi) as [r Hr]. rewrite Hr, (nth_error_nth recs i [] Hr). cbn [option_map]. rewrite nth_error_map.
  unfold good_records in HR. rewrite Forall_forall in HR. destruct (HR r (nth_error_In _ _ Hr)) as [L _].
  destruct (nth_error_lt_Some (firstn 6 (skipn 8 r)) j) as [x Hx]; [rewrite firstn_length, skipn_length; lia|]. rewrite Hx. cbn. f_equal. f_equal.
  change (x = nth (8 + j) r 0%Z). rewrite <- (nth_window r 8 6 j 0%Z) by auto. symmetry. apply nth_error_nth. exact Hx.
Qed.

Definition bin_table (a : fargs) (sfr : nat -> R) (l : list (list Z)) : list out :=
  bin_basic l ++ if a_basic a then [] else bin_other um_h sfr l.
Lemma bin_matches k d path web snaps ms a l fs : is_text k = false -> good_records l ->
  (forall key, In key (dkeys (um_basic k ++ others_of k a)) -> In key fs) ->
  Forall2 (matches (um_catalog k d path web snaps ms) (map (fun k => (k, bcol l k)) fs) (length l))
    (out_fields (um_basic k) (others_of k a)) (bin_table a (int32 l 27) l).
Proof.
  intros Hk Hl Hfs.
  assert (M : forall key j f v sp o, In key (dkeys (um_basic k ++ others_of k a)) ->
     (forall i, i < length l -> entry (bcol l key) j i = Some (v i)) ->
     fs_name sp = o_name o -> fs_units sp = o_units o -> fs_h sp = o_h o ->
     (forall x, conv (um_catalog k d path web snaps ms) key x = f x) -> (forall i, o_val o i = f (v i)) ->
     matches (um_catalog k d path web snaps ms) (map (fun k => (k, bcol l k)) fs) (length l) (key, j, sp) o).
  { intros key j f v sp o Hin Hc E1 E2 E3 E4 E5. repeat (split; [assumption|]). intros i Hi. exists (bcol l key), (v i).
    split; [apply (dget_pairs (bcol l)); auto|]. split; [apply Hc; auto|]. rewrite E4, E5. reflexivity. }
  unfold bin_table, others_of in *.
  destruct k; try discriminate Hk; destruct (a_basic a);
    cbn [um_basic is_text xyz_fields out_fields out_basic out_other um_dm um_matter app flat_map map numbered combine seq length fst snd filter bin_basic bin_other f1];
    repeat (constructor; [match goal with |- matches _ _ _ (?key, ?j, _) _ =>
        let E := eval compute in (field_off key bin_dtype) in
        match E with
        | Some (F4, ?o) => eapply (M key j _ (single l o)); [cbn; tauto|intros i Hi; apply bcol_f4; [exact Hl|exact Hi|reflexivity|lia]|..]
        | Some (I4, ?o) => eapply (M key j _ (int32 l o)); [cbn; tauto|intros i Hi; apply bcol_i4; [exact Hi|reflexivity]|..]
        | Some (I8, ?o) => eapply (M key j _ (int64 l o)); [cbn; tauto|intros i Hi; apply bcol_i8; [exact Hi|reflexivity]|..]
        | Some (F4x6, ?o) => let o' := eval compute in (o + j) in eapply (M key j _ (single l o')); [cbn; tauto|intros i Hi; apply (bcol_pos l j); [exact Hl|exact Hi|lia]|..]
        end end;
      [reflexivity|reflexivity|reflexivity|
      unfold conv; cbn; intros; reflexivity|cbn; unfold times, apply_h, kpc_to_mpc, Rdiv; intros; try reflexivity; ring]|]); constructor.
Qed.
Lemma good_kept recs : good_records recs -> good_records (filter kept recs).
Proof. unfold good_records. rewrite !Forall_forall. intros H r Hr. apply filter_In in Hr as [Hr _]. auto. Qed.

Section Bin.
Context (k : um_sim) (d : disk) (path : string) (web : list string) (snaps : list Z) (ms : list meta) (recs : Z -> list (list Z)).
Context (Hk : is_text k = false) (Hp : good_path path)
  (Hf : forall s, In s snaps -> exists name, nth_error web (Z.to_nat s) = Some name /\ starts_slash name = false /\
          d (raw_file path name) = Some (Words (concat (recs s))) /\ good_records (recs s)).
Lemma bin_load s fs : In s snaps -> Forall (fun k => field_off k bin_dtype <> None) fs -> In "pos" fs ->
  ct_load (um_catalog k d path web snaps ms) s fs = Ok (map (fun k => (k, bcol (filter kept (recs s)) k)) fs, length (filter kept (recs s))) /\ good_records (recs s).
Proof.
  intros Hs HF HP. destruct (Hf s Hs) as (name & E1 & E2 & E3 & E4). split; [|exact E4]. cbn [ct_load um_catalog]. unfold um_loader, file_of. rewrite E1. cbn [bind].
  rewrite raw_dir_join, E3 by auto. destruct k; try discriminate Hk; apply bin_loads; auto.
Qed.
Lemma bin_keys a : Forall (fun k => field_off k bin_dtype <> None) (dkeys (um_basic k ++ others_of k a)) /\ In "pos" (dkeys (um_basic k ++ others_of k a)).
Proof.
  clear Hf Hp recs ms snaps web path d. unfold others_of. destruct k; try discriminate Hk; destruct (a_basic a); cbn; (split; [|left; reflexivity]); repeat (constructor; [discriminate|]); constructor.
Qed.
Lemma bin_runnable a w : is_new w a = true -> NoDup snaps -> runnable (um_catalog k d path web snaps ms) a w (others_of k a).
Proof.
  intros HN ND. split; [apply others_new; auto|]. split; [apply um_fields_ok|]. split; [apply um_tr_nodup|]. split; [exact ND|]. split; [|left; exact HN].
  intros s Hs. unfold todo in Hs. rewrite HN in Hs. cbn [ct_snaps um_catalog] in Hs. cbn [ct_basic um_catalog]. rewrite keys_merge.
  destruct (bin_keys a) as [BK BP]. destruct (bin_load s _ Hs BK BP) as [EL Hl]. eexists _, _. split; [exact EL|]. right. intros key specs Hin.
  exists (bcol (filter kept (recs s)) key). split; [apply (dget_pairs (bcol (filter kept (recs s)))); change key with (fst (key, specs)); apply in_map; exact Hin|].
  apply good_kept in Hl. set (l := filter kept (recs s)) in *. clearbody l. clear EL Hs HN BK BP Hf ND.
  unfold others_of in Hin. destruct k; try discriminate Hk; destruct (a_basic a); cbn [um_basic is_text xyz_fields um_dm um_matter app flat_map snd f1] in Hin;
    repeat (destruct Hin as [E|Hin]; [injection E as <- <-; unfold bcol; cbn [field_off bin_dtype String.eqb Ascii.eqb Bool.eqb option_map fst snd width Nat.add];
      (split; [apply map_length|]); eexists; first [reflexivity|split; [reflexivity|]]|]); try (destruct Hin).
  all: apply Forall_map, Forall_forall; intros r Hr; unfold good_records in Hl; rewrite Forall_forall in Hl; destruct (Hl r Hr) as [L _];
    unfold decode; rewrite map_length, firstn_length, skipn_length; cbn [length]; lia.
Qed.
Lemma bin_format asort a w : argsorts asort -> fresh a w -> NoDup snaps ->
  exists w', format asort (um_catalog k d path web snaps ms) a w = (w', Ok tt) /\
    forall s, In s snaps -> exists g, group_of w' s = Some g /\
      let l := filter kept (recs s) in stored g (length l) (bin_table a (int32 l 27) l).
Proof.
  intros HA HF ND. pose proof (fresh_new a w HF) as HN.
  destruct (c35 asort _ a w (others_of k a) HA (bin_runnable a w HN ND)) as (w' & E & H). exists w'. split; [exact E|].
  intros s Hs. cbn [ct_basic um_catalog] in H. rewrite keys_merge in H. destruct (bin_keys a) as [BK BP]. destruct (bin_load s _ Hs BK BP) as [EL Hl].
  destruct (H s _ _ ltac:(unfold todo; rewrite HN; exact Hs) EL) as (g & Eg & Hh). exists g. split; [exact Eg|]. cbv zeta.
  eapply holds_stored; [|exact Hh]. apply bin_matches; auto. apply good_kept. auto.
Qed.
End Bin.

(** * Star formation rates read as integers *)
Lemma powerRZ_small e : (e <= 0)%Z -> (0 < powerRZ 2 e <= 1)%R.
Proof.
  intros H. split; [apply powerRZ_lt; lra|]. rewrite powerRZ_Rpower by lra. rewrite <- (Rpower_O 2) by lra. apply Rle_Rpower; [lra|]. apply IZR_le. auto.
Qed.
Lemma powerRZ_big e : (1 <= e)%Z -> (2 <= powerRZ 2 e)%R.
Proof.
  intros H. rewrite powerRZ_Rpower by lra. rewrite <- (Rpower_1 2) at 1 by lra. apply Rle_Rpower; [lra|]. apply IZR_le. auto.
Qed.
Lemma f4_below w : (0 < w < 2 ^ 31)%Z -> (f4 w < 16777216)%R -> (f4 w < IZR (i4 w))%R.
Proof.
  intros Hw. unfold f4, i4. rewrite (proj2 (Z.ltb_lt w (2 ^ 31))) by lia. rewrite Rmult_1_l.
  assert (E : (w = 2 ^ 23 * (w / 2 ^ 23) + w mod 2 ^ 23)%Z) by (apply Z.div_mod; lia).
  assert (B : (0 <= w mod 2 ^ 23 < 2 ^ 23)%Z) by (apply Z.mod_pos_bound; lia).
  assert (B2 : (0 <= w / 2 ^ 23 < 2 ^ 8)%Z) by (split; [apply Z.div_pos; lia|apply Z.div_lt_upper_bound; lia]).
  rewrite (Z.mod_small (w / 2 ^ 23) (2 ^ 8)) by lia. set (e := (w / 2 ^ 23)%Z) in *. set (m := (w mod 2 ^ 23)%Z) in *. clearbody e m.
  destruct (Z.eqb_spec e 0) as [->|N].
  - intros _. assert (Ew : w = m) by lia. rewrite Ew. pose proof (powerRZ_small (-149) ltac:(lia)). assert (1 <= IZR m)%R by (apply IZR_le; lia).
    assert (H2 : (powerRZ 2 (-149) <= / 2)%R).
    { change (powerRZ 2 (-149)) with (/ 2 ^ 149)%R. apply Rinv_le_contravar; [lra|]. rewrite <- (pow_1 2) at 1. apply Rle_pow; [lra|lia]. }
    nra.
  - intros H1. assert (Hm : (1 <= IZR (2 ^ 23 + m))%R) by (apply IZR_le; lia). assert (Hm2 : (8388608 <= IZR (2 ^ 23 + m))%R) by (apply IZR_le; lia).
    destruct (Z.le_gt_cases e 150) as [L|L].
    + pose proof (powerRZ_small (e - 150) ltac:(lia)) as P. destruct (Z.le_gt_cases 2 e) as [L2|L2].
      * assert (16777216 <= IZR w)%R by (apply IZR_le; lia). lra.
      * assert (e = 1)%Z by lia. subst e. assert (Ew : (2 ^ 23 + m = w)%Z) by lia. rewrite Ew in *.
        assert (H2 : (powerRZ 2 (1 - 150) <= / 2)%R).
        { change (powerRZ 2 (1 - 150)) with (/ 2 ^ 149)%R. apply Rinv_le_contravar; [lra|]. rewrite <- (pow_1 2) at 1. apply Rle_pow; [lra|lia]. }
        nra.
    + pose proof (powerRZ_big (e - 150) ltac:(lia)) as P. nra.
Qed.
