(** Theorems about the raw catalogues of UniverseMachine and Uchuu (C91-C93). *)
From Verif Require Import Dict Util RealUtil PathsModel SnapModel SnapSpec Snap FormatModel FormatSpec Format RawModel RawSpec Raw Raw2 Raw3 Raw4.
From Coq Require Import Reals Ascii Sorted Permutation Lra Lia.
Open Scope string_scope.
Open Scope list_scope.
Open Scope nat_scope.

(** * C91: the list of files and the snapshot table *)
(** the files found on a page are the quoted names of its links, in page order *)
Theorem C91_page : forall ws : list word, ws <> [] -> (forall l, In (Link l) ws -> good_link l) ->
  (forall s, In (Noise s) ws -> lacks " "%char s) ->
  ((forall l, In (Link l) ws -> occurs "sfr_catalog_" (link_text l)) -> (forall s, In (Noise s) ws -> ~ occurs "sfr_catalog_" s) ->
     um_scrape (Some (page_text ws)) = Ok (page_names ws)) /\
  ((forall l, In (Link l) ws -> contains2 "Uchuu_UM_" "data1.h5" (link_text l) = true) -> (forall s, In (Noise s) ws -> contains2 "Uchuu_UM_" "data1.h5" s = false) ->
     uchuu_scrape (Some (page_text ws)) = Ok (page_names ws)).
Proof.
  intros ws HN HL HB. split; intros H1 H2; apply scrape_gen; auto; intros x Hx; (split; [auto|]); auto; [apply contains_iff|apply contains_false]; auto.
Qed.
Print Assumptions C91_page.
Example C91_page_nonvacuous :
  let ws := [Noise "<a"; Link (mkLink "href=" "sfr_catalog_0.5.txt" ">x</a>"); Noise "<a"; Link (mkLink "href=" "sfr_catalog_1.0.txt" ">y</a>"); Noise "end"] in
  (forall l, In (Link l) ws -> good_link l /\ occurs "sfr_catalog_" (link_text l)) /\ (forall s, In (Noise s) ws -> lacks " "%char s /\ ~ occurs "sfr_catalog_" s) /\
  page_names ws = ["sfr_catalog_0.5.txt"; "sfr_catalog_1.0.txt"].
Proof.
  intros ws. split; [|split; [|reflexivity]].
  - intros l H. unfold ws in H. cbn [In] in H. destruct H as [E|[E|[E|[E|[E|[]]]]]]; try discriminate E; injection E as E; subst l; (split; [repeat split; cbv; intuition discriminate|apply contains_iff; reflexivity]).
  - intros s H. unfold ws in H. cbn [In] in H. destruct H as [E|[E|[E|[E|[E|[]]]]]]; try discriminate E; injection E as E; subst s; (split; [cbv; intuition discriminate|apply contains_false; reflexivity]).
Qed.

(** scale factors and redshifts are read from the names *)
Theorem C91_names : forall float p a b t d e,
  (lacks "_"%char d -> lacks "_"%char e -> String.length e = 4 -> um_scale float (p ++ "_" ++ d ++ e) = float d) /\
  (Forall (fun c => lacks c a /\ lacks c b) ["_"%char; "z"%char; "p"%char] -> uchuu_z float ("Uchuu_UM_z" ++ a ++ "p" ++ b ++ "_" ++ t) = float (a ++ "." ++ b)%string).
Proof.
  intros. split; [apply um_scale_name|]. intros H. inversion H as [|? ? [A1 A2] H1]; subst. inversion H1 as [|? ? [B1 B2] H2]; subst. inversion H2 as [|? ? [C1 C2] _]; subst.
  apply uchuu_z_name; auto.
Qed.
Print Assumptions C91_names.
Example C91_names_nonvacuous : exists float, um_scale float "sfr_catalog_0.055623.txt" = Ok 7%R /\ uchuu_z float "Uchuu_UM_z0p49_data1.h5" = Ok 8%R.
Proof.
  exists (fun s => if String.eqb s "0.055623" then Ok 7%R else if String.eqb s "0.49" then Ok 8%R else Raise ValueError). split; reflexivity.
Qed.

(** When the page lists the UniverseMachine files with growing scale factors, the snapshot table has one
    row for each requested snapshot that exists, with the redshift of the file that is read for it.
    Partial: only then. *)
Theorem C91_um_partial : forall asort float C h web sc snaps, good_cosmo C -> argsorts asort ->
  (forall t, In t web -> um_scale float t = Ok (sc t)) -> Forall (fun t => 0 < sc t <= 1)%R web ->
  StronglySorted (fun a b => (sc a < sc b)%R) web -> (exists i, i < length web /\ In (Z.of_nat i) snaps) ->
  exists ms, um_meta asort float C h web snaps = Ok ms /\ tiles C h ms /\ rows_requested (length web) snaps ms /\
    rows_match web (fun t => 1 / sc t - 1)%R ms.
Proof. exact um_rows_ok. Qed.
Print Assumptions C91_um_partial.
(** in every other order some row has the redshift of a different file: the table is sorted, the files are not *)
Theorem C91_um_refuted : forall asort float C h web sc i j ti tj, good_cosmo C -> argsorts asort ->
  (forall t, In t web -> um_scale float t = Ok (sc t)) -> Forall (fun t => 0 < sc t <= 1)%R web -> NoDup (map sc web) ->
  i < j -> nth_error web i = Some ti -> nth_error web j = Some tj -> (sc tj < sc ti)%R ->
  exists ms, um_meta asort float C h web (all_snaps (length web)) = Ok ms /\ tiles C h ms /\
    exists m name, In m ms /\ nth_error web (Z.to_nat (m_index m)) = Some name /\ m_z m <> (1 / sc name - 1)%R.
Proof. exact um_rows_bad. Qed.
Print Assumptions C91_um_refuted.
Definition two_scales (t : string) : R := if String.eqb t "a_1.txt" then (1 / 2)%R else (1 / 4)%R.
Definition two_float (t : string) : exc R := if String.eqb t "1" then Ok (1 / 2)%R else if String.eqb t "2" then Ok (1 / 4)%R else Raise ValueError.
Example C91_um_nonvacuous : (forall t, In t ["a_2.txt"; "a_1.txt"] -> um_scale two_float t = Ok (two_scales t)) /\
  StronglySorted (fun a b => (two_scales a < two_scales b)%R) ["a_2.txt"; "a_1.txt"] /\
  (forall t, In t ["a_1.txt"; "a_2.txt"] -> um_scale two_float t = Ok (two_scales t)) /\ NoDup (map two_scales ["a_1.txt"; "a_2.txt"]) /\
  (two_scales "a_2.txt" < two_scales "a_1.txt")%R /\ Forall (fun t => 0 < two_scales t <= 1)%R ["a_1.txt"; "a_2.txt"] /\ good_cosmo toy.
Proof.
  split; [intros t [<-|[<-|[]]]; reflexivity|]. split; [repeat constructor; unfold two_scales; cbn; lra|]. split; [intros t [<-|[<-|[]]]; reflexivity|].
  split; [repeat constructor; unfold two_scales; cbn; intros H; repeat destruct H as [H|H]; lra|]. split; [unfold two_scales; cbn; lra|].
  split; [repeat constructor; unfold two_scales; cbn; lra|apply toy_good].
Qed.

(** Uchuu sorts the files themselves, so its table always agrees with the files *)
Theorem C91_uchuu : forall asort float C h page names zf snaps, good_cosmo C -> argsorts asort -> uchuu_scrape page = Ok names ->
  (forall t, In t names -> uchuu_z float t = Ok (zf t)) -> NoDup (map zf names) -> Forall (fun t => 0 <= zf t)%R names ->
  (exists i, i < length names /\ In (Z.of_nat i) snaps) ->
  exists web ms, uchuu_open asort float None page = Ok (web, Some web) /\ Permutation web names /\ StronglySorted (fun a b => (zf b < zf a)%R) web /\
    uchuu_meta asort float C h web snaps = Ok ms /\ tiles C h ms /\ rows_requested (length names) snaps ms /\ rows_match web zf ms.
Proof.
  intros asort float C h page names zf snaps HC HA HS HZ HN HP HI. destruct (uchuu_open_sorted asort float zf page names HA HS HZ HN) as (web & E & P & S0).
  assert (HL : length web = length names) by (apply Permutation_length; auto).
  destruct (uchuu_rows_ok asort float C h web zf snaps) as (ms & M1 & M2 & M3 & M4); auto.
  - intros t Ht. apply HZ. eapply Permutation_in; eauto.
  - eapply Permutation_Forall; [symmetry|]; eauto.
  - rewrite HL. exact HI.
  - exists web, ms. rewrite HL in M3. repeat (split; [assumption|]). assumption.
Qed.
Print Assumptions C91_uchuu.
Example C91_uchuu_nonvacuous :
  let page := page_text [Link (mkLink "=" "Uchuu_UM_z0p00_data1.h5" ">"); Noise "x"; Link (mkLink "=" "Uchuu_UM_z1p00_data1.h5" ">")] in
  let float := fun s => if String.eqb s "0.00" then Ok 0%R else if String.eqb s "1.00" then Ok 1%R else Raise ValueError in
  uchuu_scrape (Some page) = Ok ["Uchuu_UM_z0p00_data1.h5"; "Uchuu_UM_z1p00_data1.h5"] /\
  mapM (uchuu_z float) ["Uchuu_UM_z0p00_data1.h5"; "Uchuu_UM_z1p00_data1.h5"] = Ok [0; 1]%R.
Proof. split; reflexivity. Qed.

(** the list of files is read from the web once: afterwards the saved list is used, whatever the page says *)
Theorem C91_saved : forall asort float page page' l s,
  (forall k, um_open k None page = Ok (l, s) -> um_open k s page' = Ok (l, s)) /\
  (uchuu_open asort float None page = Ok (l, s) -> uchuu_open asort float s page' = Ok (l, s)).
Proof.
  intros asort float page page' l s. split.
  - intros k. unfold um_open. destruct k; try (intros H; injection H as <- <-; reflexivity);
      (destruct (um_scrape page) as [x|]; cbn [bind]; [|discriminate]); intros H; injection H as <- <-; reflexivity.
  - unfold uchuu_open. destruct (uchuu_scrape page) as [x|]; cbn [bind]; [|discriminate]. destruct (mapM (uchuu_z float) x); cbn [bind]; [|discriminate].
    intros H. injection H as <- <-. reflexivity.
Qed.
Print Assumptions C91_saved.
Example C91_saved_nonvacuous : um_open Bolshoi None (Some ("a =" ++ quote ++ "sfr_catalog_1.txt" ++ quote)%string) = Ok (["sfr_catalog_1.txt"], Some ["sfr_catalog_1.txt"]).
Proof. reflexivity. Qed.

(** * C92: formatting UniverseMachine catalogues *)
(** Every halo of a text catalogue is stored, with all its fields converted and labelled as in the table, all
    datasets in one order, heaviest first. Partial: the values of r and of the test box, below. *)
Theorem C92_text_partial : forall asort k d path web snaps ms lines a w, argsorts asort -> is_text k = true -> good_path path -> NoDup snaps -> fresh a w ->
  text_files d path web snaps lines ->
  let mk := match k with Bolshoi => 678 / 1000 | _ => 1 end%R in
  exists w', format asort (um_catalog k d path web snaps ms) a w = (w', Ok tt) /\
    forall s, In s snaps -> exists g, group_of w' s = Some g /\
      stored g (length (lines s)) (text_basic mk (lines s) ++ if a_basic a then [] else text_other (678 / 1000) mk (lines s)).
Proof. intros asort k d path web snaps ms lines a w HA Hk Hp ND HF Hf. apply (text_format k d path web snaps ms lines Hk Hp Hf asort a w HA HF ND). Qed.
Print Assumptions C92_text_partial.
(** Every halo of a binary catalogue that is not marked to be ignored is stored. Partial: the star formation
    rates and positions, below. *)
Theorem C92_binary_partial : forall asort k d path web snaps ms recs a w, argsorts asort -> is_text k = false -> good_path path -> NoDup snaps -> fresh a w ->
  bin_files d path web snaps recs ->
  exists w', format asort (um_catalog k d path web snaps ms) a w = (w', Ok tt) /\
    forall s, In s snaps -> exists g, group_of w' s = Some g /\
      let l := filter kept (recs s) in
      stored g (length l) (bin_basic l ++ if a_basic a then [] else bin_other (678 / 1000) (int32 l 27) l).
Proof. intros asort k d path web snaps ms recs a w HA Hk Hp ND HF Hf. apply (bin_format k d path web snaps ms recs Hk Hp Hf asort a w HA HF ND). Qed.
Print Assumptions C92_binary_partial.

Definition a_line (m : R) : list R := map (fun i => if i =? 11 then m else INR i) (seq 0 28).
Definition a_record (x m sfr fl : Z) : list Z := map (fun i => if i =? 8 then x else if i =? 17 then m else if i =? 27 then sfr else if i =? 6 then fl else 0%Z) (seq 0 32).
Definition one_disk (r : raw) : disk := fun p => if String.eqb p "/d/raw/sfr_catalog_1.txt" then Some r else None.
Example C92_nonvacuous :
  good_path "/d" /\ text_files (one_disk (Text [a_line 3; a_line 5; a_line 4])) "/d" ["sfr_catalog_1.txt"] [0%Z] (fun _ => [a_line 3; a_line 5; a_line 4]) /\
  bin_files (one_disk (Words (concat [a_record 1 2 3 0; a_record 4 5 6 16]))) "/d" ["sfr_catalog_1.txt"] [0%Z] (fun _ => [a_record 1 2 3 0; a_record 4 5 6 16]) /\
  filter kept [a_record 1 2 3 0; a_record 4 5 6 16] = [a_record 1 2 3 0].
Proof.
  split; [exists "/", "d"%char; split; [reflexivity|discriminate]|]. split; [|split; [|reflexivity]].
  - intros s [<-|[]]. exists "sfr_catalog_1.txt". repeat split; [repeat constructor|discriminate].
  - intros s [<-|[]]. exists "sfr_catalog_1.txt". split; [reflexivity|]. split; [reflexivity|]. split; [reflexivity|].
    repeat constructor; cbn; lia.
Qed.

(** The star formation rates of binary catalogues are stored wrongly: the bits of a single precision number are
    read as an integer, which is larger than every rate below 2^24 *)
Theorem C92_sfr_refuted : forall asort k d path web snaps ms recs a w, argsorts asort -> is_text k = false -> good_path path -> NoDup snaps -> fresh a w ->
  bin_files d path web snaps recs -> a_basic a = false ->
  exists w', format asort (um_catalog k d path web snaps ms) a w = (w', Ok tt) /\
    forall s, In s snaps -> exists g c p, group_of w' s = Some g /\ In c (g_data g) /\ d_name c = "sfr" /\
      let l := filter kept (recs s) in Permutation p (seq 0 (length l)) /\
      forall r i, nth_error p r = Some i -> exists x, entry (d_vals c) 0 r = Some x /\
        ((0 < nth 27 (nth i l []) 0 < 2 ^ 31)%Z -> (single l 27 i < 16777216)%R -> (single l 27 i < x)%R).
Proof.
  intros asort k d path web snaps ms recs a w HA Hk Hp ND HF Hf Ha. destruct (C92_binary_partial asort k d path web snaps ms recs a w HA Hk Hp ND HF Hf) as (w' & E & H).
  exists w'. split; [exact E|]. intros s Hs. destruct (H s Hs) as (g & Eg & p & HP & _ & HO & _). rewrite Ha in HO. cbv zeta in *. set (l := filter kept (recs s)) in *.
  destruct (HO (mkOut "sfr" (int32 l 27) "Msun/yr" 0)) as (c & C1 & C2 & _ & _ & _ & C3); [apply in_or_app; right; cbn; tauto|].
  exists g, c, p. split; [exact Eg|]. split; [exact C1|]. split; [exact C2|]. split; [exact HP|]. intros r i Hr. exists (int32 l 27 i). split; [apply C3; exact Hr|].
  intros W L. unfold single, int32 in *. apply f4_below; auto.
Qed.
Print Assumptions C92_sfr_refuted.
(** a rate of one is stored as 1065353216 *)
Example C92_sfr_refuted_nonvacuous : f4 1065353216 = 1%R /\ i4 1065353216 = 1065353216%Z /\
  (single [a_record 1 2 1065353216 0] 27 0 = 1 /\ int32 [a_record 1 2 1065353216 0] 27 0 = 1065353216)%R.
Proof.
  assert (E : f4 1065353216 = 1%R).
  { unfold f4. change ((1065353216 / 2 ^ 23) mod 2 ^ 8)%Z with 127%Z. change (1065353216 mod 2 ^ 23)%Z with 0%Z. change (127 =? 0)%Z with false.
    change (1065353216 <? 2 ^ 31)%Z with true. change (2 ^ 23 + 0)%Z with 8388608%Z. change (powerRZ 2 (127 - 150)) with (/ 2 ^ 23)%R. replace (2 ^ 23)%R with 8388608%R by ring. lra. }
  split; [exact E|]. split; [reflexivity|]. split; [exact E|reflexivity].
Qed.

(** Positions of binary catalogues that lie outside of the box are stored outside of the box *)
Theorem C92_wrap_refuted : forall asort k d path web snaps ms recs a w s i, argsorts asort -> is_text k = false -> good_path path -> NoDup snaps -> fresh a w ->
  bin_files d path web snaps recs -> In s snaps ->
  let l := filter kept (recs s) in i < length l -> (single l 8 i < 0 \/ um_box k <= single l 8 i)%R ->
  exists w' g c r x, format asort (um_catalog k d path web snaps ms) a w = (w', Ok tt) /\ group_of w' s = Some g /\ In c (g_data g) /\ d_name c = "pos_x" /\
    entry (d_vals c) 0 r = Some x /\ ~ (0 <= x < um_box k)%R.
Proof.
  intros asort k d path web snaps ms recs a w s i HA Hk Hp ND HF Hf Hs l Hi Hx. destruct (C92_binary_partial asort k d path web snaps ms recs a w HA Hk Hp ND HF Hf) as (w' & E & H).
  destruct (H s Hs) as (g & Eg & p & HP & _ & HO & _). fold l in HP, HO.
  destruct (HO (mkOut "pos_x" (single l 8) "Mpc/h" (-1))) as (c & C1 & C2 & _ & _ & _ & C3); [apply in_or_app; left; left; reflexivity|].
  assert (HI : In i p) by (eapply Permutation_in; [symmetry; exact HP|apply in_seq; lia]). apply In_nth_error in HI as [r Hr].
  exists w', g, c, r, (single l 8 i). repeat (split; [assumption|]). split; [apply (C3 r i Hr)|]. lra.
Qed.
Print Assumptions C92_wrap_refuted.
(** x = 1024 in a box of 1000 *)
Example C92_wrap_refuted_nonvacuous : f4 1149239296 = 1024%R /\ (um_box Mdpl2 <= single [a_record 1149239296 2 3 0] 8 0)%R.
Proof.
  assert (E : f4 1149239296 = 1024%R).
  { unfold f4. change ((1149239296 / 2 ^ 23) mod 2 ^ 8)%Z with 137%Z. change (1149239296 mod 2 ^ 23)%Z with 0%Z. change (137 =? 0)%Z with false.
    change (1149239296 <? 2 ^ 31)%Z with true. change (2 ^ 23 + 0)%Z with 8388608%Z. change (powerRZ 2 (137 - 150)) with (/ 2 ^ 13)%R. replace (2 ^ 13)%R with 8192%R by ring. lra. }
  split; [exact E|]. unfold single. cbn [nth a_record map seq Nat.eqb]. rewrite E. cbn. lra.
Qed.

(** Radii are labelled kpc/h, the unit they have in the catalogue, but stored divided by a thousand *)
Theorem C92_r_refuted : forall asort k d path web snaps ms lines a w, argsorts asort -> is_text k = true -> good_path path -> NoDup snaps -> fresh a w ->
  text_files d path web snaps lines -> a_basic a = false ->
  exists w', format asort (um_catalog k d path web snaps ms) a w = (w', Ok tt) /\
    forall s, In s snaps -> exists g c p, group_of w' s = Some g /\ In c (g_data g) /\ d_name c = "r" /\ d_units c = Some "kpc/h" /\
      Permutation p (seq 0 (length (lines s))) /\ forall r i, nth_error p r = Some i -> entry (d_vals c) 0 r = Some (txt (lines s) 15 i / 1000)%R.
Proof.
  intros asort k d path web snaps ms lines a w HA Hk Hp ND HF Hf Ha. destruct (C92_text_partial asort k d path web snaps ms lines a w HA Hk Hp ND HF Hf) as (w' & E & H).
  exists w'. split; [exact E|]. intros s Hs. destruct (H s Hs) as (g & Eg & p & HP & _ & HO & _). rewrite Ha in HO. cbv zeta in *.
  destruct (HO (mkOut "r" (times (/ 1000) (txt (lines s) 15)) "kpc/h" (-1))) as (c & C1 & C2 & C4 & _ & _ & C3); [apply in_or_app; right; cbn; tauto|].
  exists g, c, p. repeat (split; [assumption|]). intros r i Hr. apply (C3 r i Hr).
Qed.
Print Assumptions C92_r_refuted.
Example C92_r_refuted_nonvacuous : txt [a_line 3; a_line 5] 15 1 = 15%R.
Proof. unfold txt. cbn. lra. Qed.

(** The same catalogue read as the test box: stellar and halo masses are both labelled Msun/h, but only the first
    are multiplied by h, so every ratio of them is smaller by h than in the catalogue *)
Theorem C92_ratio_refuted : forall asort k d path web snaps ms lines a w, argsorts asort -> is_text k = true -> good_path path -> NoDup snaps -> fresh a w ->
  text_files d path web snaps lines -> a_basic a = false ->
  exists w', format asort (um_catalog k d path web snaps ms) a w = (w', Ok tt) /\
    forall s, In s snaps -> exists g c e p, group_of w' s = Some g /\ In c (g_data g) /\ d_name c = "m_stars" /\ d_units c = Some "Msun/h" /\
      In e (g_data g) /\ d_name e = "mass" /\ d_units e = Some "Msun/h" /\ Permutation p (seq 0 (length (lines s))) /\
      forall r i, nth_error p r = Some i -> exists x y, entry (d_vals c) 0 r = Some x /\ entry (d_vals e) 0 r = Some y /\
        (txt (lines s) 11 i <> 0 -> x / y = match k with Bolshoi => 1 | _ => 678 / 1000 end * (txt (lines s) 20 i / txt (lines s) 11 i))%R.
Proof.
  intros asort k d path web snaps ms lines a w HA Hk Hp ND HF Hf Ha. destruct (C92_text_partial asort k d path web snaps ms lines a w HA Hk Hp ND HF Hf) as (w' & E & H).
  exists w'. split; [exact E|]. intros s Hs. destruct (H s Hs) as (g & Eg & p & HP & _ & HO & _). rewrite Ha in HO. cbv zeta in *.
  set (mk := match k with Bolshoi => (678 / 1000)%R | _ => 1%R end) in *.
  destruct (HO (mkOut "m_stars" (times (678 / 1000) (txt (lines s) 20)) "Msun/h" (-1))) as (c & C1 & C2 & C4 & _ & _ & C3); [apply in_or_app; right; cbn; tauto|].
  destruct (HO (mkOut "mass" (times mk (txt (lines s) 11)) "Msun/h" (-1))) as (e & D1 & D2 & D4 & _ & _ & D3); [apply in_or_app; left; cbn; tauto|].
  exists g, c, e, p. repeat (split; [assumption|]). intros r i Hr. eexists _, _. split; [apply (C3 r i Hr)|]. split; [apply (D3 r i Hr)|].
  intros N. cbn [o_val]. unfold times, mk. destruct k; try discriminate Hk; field; auto.
Qed.
Print Assumptions C92_ratio_refuted.
Example C92_ratio_refuted_nonvacuous : txt [a_line 3; a_line 5] 11 1 = 5%R /\ txt [a_line 3; a_line 5] 20 1 = 20%R.
Proof. unfold txt. split; cbn; lra. Qed.

(** A text catalogue of one halo cannot be formatted *)
Theorem C92_one_refuted : forall asort k d path web snaps ms s r0 name line a w, is_text k = true -> good_path path -> fresh a w -> snaps = s :: r0 ->
  nth_error web (Z.to_nat s) = Some name -> starts_slash name = false -> d (raw_file path name) = Some (Text [line]) -> length line = 28 ->
  snd (format asort (um_catalog k d path web snaps ms) a w) = Raise TypeError.
Proof. intros. eapply text_one; eauto. Qed.
Print Assumptions C92_one_refuted.
Example C92_one_refuted_nonvacuous : one_disk (Text [a_line 3]) (raw_file "/d" "sfr_catalog_1.txt") = Some (Text [a_line 3]) /\ length (a_line 3) = 28 /\ fresh (mkArgs false false false false) (mkW None []).
Proof. split; [reflexivity|]. split; [reflexivity|left; reflexivity]. Qed.

(** * C93: formatting Uchuu catalogues *)
(** The columns of the three files of a snapshot are put together halo by halo, converted and labelled as in the table *)
Theorem C93_stored : forall asort d path web snaps ms f n a w, argsorts asort -> good_path path -> NoDup snaps -> fresh a w ->
  (forall s, In s snaps -> (0 <= s)%Z /\ whole (f s) (n s) /\ uchuu_files d path web s (f s)) ->
  exists w', format asort (uchuu_catalog d path web snaps ms) a w = (w', Ok tt) /\
    forall s, In s snaps -> exists g, group_of w' s = Some g /\
      stored g (n s) (uchuu_out_basic (f s) ++ if a_basic a then [] else uchuu_out_other (6775 / 10000) (f s)).
Proof.
  intros asort d path web snaps ms f n a w HA Hp ND HF H. apply (uchuu_format d path web snaps ms Hp f n); auto.
  intros s Hs. destruct (H s Hs) as (H0 & H1 & pre & A1 & A2 & A3 & A4 & A5). split; [exact H0|]. split; [exact H1|]. exists pre. split; [exact A1|]. split; [exact A2|].
  intros df Hdf. destruct df as [|[|[|[|]]]]; try lia; assumption.
Qed.
Print Assumptions C93_stored.
(** Files of different lengths are refused, whichever columns differ *)
Theorem C93_uneven : forall asort d path web snaps ms f s r0 df1 df2 k1 k2 l1 l2 a w, good_path path -> fresh a w -> a_basic a = false -> snaps = s :: r0 ->
  uchuu_files d path web s f -> (forall df key, In (df, key) uchuu_columns -> exists l, dget (f df) key = Some l) ->
  In (df1, k1) uchuu_columns -> In (df2, k2) uchuu_columns -> dget (f df1) k1 = Some l1 -> dget (f df2) k2 = Some l2 -> length l1 <> length l2 ->
  snd (format asort (uchuu_catalog d path web snaps ms) a w) = Raise ValueError.
Proof.
  intros asort d path web snaps ms f s r0 df1 df2 k1 k2 l1 l2 a w Hp HF Ha -> (pre & A1 & A2 & A3 & A4 & A5) HG HI1 HI2 E1 E2 NE.
  eapply format_raises; [exact HF|apply uchuu_new; apply fresh_new; exact HF|reflexivity|]. cbn [ct_basic ct_load uchuu_catalog]. rewrite uchuu_merge.
  assert (K : forall df key, In (df, key) uchuu_columns -> df_of key = df /\ In key (dkeys (uchuu_basic ++ uchuu_others a))).
  { intros df key Hin. split; [unfold df_of; destruct (columns_file _ _ Hin) as [-> _]; reflexivity|]. unfold uchuu_others. rewrite Ha.
    cbn in Hin. repeat (destruct Hin as [Q|Hin]; [injection Q as <- <-; apply smem_In; reflexivity|]). destruct Hin. }
  destruct (K _ _ HI1) as [D1 K1]. destruct (K _ _ HI2) as [D2 K2].
  eapply (uchuu_uneven d web (raw_dir path) s f pre _ k1 k2 l1 l2); eauto; try (rewrite ?D1, ?D2; assumption); [|apply uchuu_keys].
  intros df Hdf. rewrite raw_dir_good by auto. rewrite sapp_assoc. destruct df as [|[|[|[|]]]]; try lia; assumption.
Qed.
Print Assumptions C93_uneven.
(** A missing file is an error, not a catalogue with fewer fields *)
Theorem C93_missing : forall asort d path web snaps ms f pre s r0 df0 a w, good_path path -> fresh a w -> snaps = s :: r0 ->
  nth_error web (Z.to_nat s) = Some (pre ++ "data1.h5")%string -> ~ occurs "data1" pre ->
  (forall df, In df [1; 2; 3] -> let p := raw_file path (pre ++ data_name df ++ ".h5") in
     d p = None \/ d p = Some (H5 (f df)) /\ forall key, In (df, key) uchuu_columns -> exists l, dget (f df) key = Some l) ->
  In df0 [1; 2; 3] -> d (raw_file path (pre ++ data_name df0 ++ ".h5")) = None ->
  snd (format asort (uchuu_catalog d path web snaps ms) a w) = Raise OSError.
Proof.
  intros asort d path web snaps ms f pre s r0 df0 a w Hp HF -> A1 A2 HD HI HM.
  eapply format_raises; [exact HF|apply uchuu_new; apply fresh_new; exact HF|reflexivity|]. cbn [ct_basic ct_load uchuu_catalog]. rewrite uchuu_merge.
  assert (Q : forall df, (raw_dir path ++ pre ++ data_name df ++ ".h5")%string = raw_file path (pre ++ data_name df ++ ".h5")) by (intros df; rewrite raw_dir_good by auto; rewrite sapp_assoc; reflexivity).
  apply (uchuu_missing d web (raw_dir path) s f pre _ df0); auto.
  - intros df Hdf. rewrite Q. apply HD. cbn. lia.
  - cbn in HI. lia.
  - rewrite Q. exact HM.
  - unfold dkeys. rewrite map_app. apply incl_appl, incl_refl.
  - apply uchuu_keys.
Qed.
Print Assumptions C93_missing.
Definition h5_all (n : nat) (df : nat) : dict (list R) := map (fun k => (snd k, repeat (INR (fst k)) n)) (filter (fun k => fst k =? df) uchuu_columns).
Example C93_nonvacuous : whole (h5_all 4) 4 /\
  uchuu_files (fun p => if String.eqb p "/d/raw/Uchuu_UM_z0p00_data1.h5" then Some (H5 (h5_all 4 1)) else
                        if String.eqb p "/d/raw/Uchuu_UM_z0p00_data2.h5" then Some (H5 (h5_all 4 2)) else
                        if String.eqb p "/d/raw/Uchuu_UM_z0p00_data3.h5" then Some (H5 (h5_all 4 3)) else None)
    "/d" ["Uchuu_UM_z0p00_data1.h5"] 0 (h5_all 4) /\ data_name 2 = "data2".
Proof.
  split; [|split; [|reflexivity]].
  - intros df key H. cbn in H. repeat (destruct H as [E|H]; [injection E as <- <-; eexists; split; reflexivity|]). destruct H.
  - exists "Uchuu_UM_z0p00_". split; [reflexivity|]. split; [apply contains_false; reflexivity|]. repeat split.
Qed.
