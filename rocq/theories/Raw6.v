(** Proof support for the raw catalogues: removal. *)
From Verif Require Import Dict Util RealUtil PathsModel RawModel RawSpec Raw Raw2 Raw4 Raw5.
From Coq Require Import Ascii Lia.
Open Scope string_scope.
Open Scope list_scope.
Open Scope nat_scope.

Lemma within_iff d q : within d q = true <-> inside d q.
Proof.
  unfold within, inside. rewrite orb_true_iff, prefix_iff. split.
  - intros [H|[b H]]; [left; apply String.eqb_eq; exact H|right; exists b; rewrite H, sapp_assoc; reflexivity].
  - intros [->|[r ->]]; [left; apply String.eqb_refl|right; exists r; rewrite sapp_assoc; reflexivity].
Qed.
Lemma plain_app a b : plain (a ++ b) <-> plain a /\ plain b.
Proof. unfold plain. rewrite sapp_list. apply Forall_app. Qed.
Lemma plain_blank s : plain s -> lacks " "%char s.
Proof. intros H HI. unfold plain in H. rewrite Forall_forall in H. specialize (H _ HI). discriminate H. Qed.
Lemma plain_safe s : plain s -> forallb (fun a => safe a || Ascii.eqb a " "%char) (list_ascii_of_string s) = true.
Proof. intros H. apply forallb_forall. intros a Ha. unfold plain in H. rewrite Forall_forall in H. rewrite (H a Ha). reflexivity. Qed.
Lemma slash_shape s : starts_slash s = true -> exists r, s = String "/" r.
Proof. destruct s as [|c r]; [discriminate|]. cbn. intros H. apply Ascii.eqb_eq in H. subst. eauto. Qed.
Lemma slash_word s : starts_slash s = true -> String.eqb s "" = false /\ String.prefix "-" s = false.
Proof. intros H. destruct (slash_shape s H) as [r ->]. split; reflexivity. Qed.
Lemma rm_one cwd p paths : plain p -> starts_slash p = true -> rm_r cwd p paths = Ok (filter (fun q => negb (within p q)) paths).
Proof.
  intros HP HS. destruct (slash_word p HS) as [E1 E2]. unfold rm_r, shell_words. rewrite plain_safe by auto. cbn [check bind]. rewrite split_lacks by (apply plain_blank; auto).
  cbn [filter]. rewrite E1. cbn [negb forallb]. rewrite E2. cbn [negb andb check bind existsb]. unfold absolute. rewrite HS. f_equal.
  apply filter_ext. intros q. rewrite orb_false_r. reflexivity.
Qed.
Lemma removed_one g paths : removed [g] paths (filter (fun q => negb (within g q)) paths).
Proof.
  exists (fun q => negb (within g q)). split; [reflexivity|]. intros q. rewrite negb_true_iff, <- not_true_iff_false, within_iff.
  split; [intros H (x & [<-|[]] & Hx); auto|intros H Hx; apply H; exists g; split; [left; reflexivity|auto]].
Qed.
Lemma starts_app p q : starts_slash p = true -> starts_slash (p ++ q) = true.
Proof. intros H. destruct (slash_shape p H) as [r ->]. reflexivity. Qed.
Lemma clean_raw_ok cwd path paths answers : good_path path -> plain path -> starts_slash path = true -> confirm answers = Ok true ->
  exists left, clean_raw cwd path answers paths = Ok left /\ removed [(path ++ "/raw")%string] paths left.
Proof.
  intros Hp HP HS E. unfold clean_raw. rewrite E. cbn [bind]. rewrite (join_good path "raw") by auto. rewrite rm_one; [|apply plain_app; split; [auto|repeat constructor]|apply starts_app; auto].
  eexists. split; [reflexivity|]. apply removed_one.
Qed.
Lemma confirm_no answers : Forall (fun a => a <> "y" /\ a <> "n") answers -> confirm (answers ++ ["y"]) = Ok true /\ confirm (answers ++ ["n"]) = Ok false /\ confirm answers = Raise EOFError.
Proof.
  induction answers as [|a r IH]; intros H; [repeat split|]. inversion H as [|? ? [N1 N2] H2]; subst. cbn.
  destruct (String.eqb_spec a "y"); [congruence|]. destruct (String.eqb_spec a "n"); [congruence|]. auto.
Qed.
Lemma confirm_after l1 r l2 : confirm l1 = Ok r -> confirm (l1 ++ l2) = Ok r.
Proof. induction l1 as [|a l IH]; cbn; [discriminate|]. destruct (String.eqb a "y"); [auto|]. destruct (String.eqb a "n"); auto. Qed.
(** a blank in the path *)
Lemma clean_blank cwd u v paths : plain u -> starts_slash u = true -> plain v -> String.prefix "-" v = false -> good_path (u ++ " " ++ v) ->
  exists left, clean_raw cwd (u ++ " " ++ v) ["y"] paths = Ok left /\ removed [u; absolute cwd (v ++ "/raw")] paths left.
Proof.
  intros HU HS HV HD Hp. unfold clean_raw. cbn [confirm String.eqb Ascii.eqb Bool.eqb bind]. rewrite (join_good _ "raw") by auto. unfold rm_r, shell_words.
  replace ((u ++ " " ++ v) ++ "/" ++ "raw")%string with (u ++ String " " (v ++ "/raw"))%string by (rewrite !sapp_assoc; reflexivity).
  assert (HV2 : plain (v ++ "/raw")) by (apply plain_app; split; [auto|repeat constructor]).
  replace (forallb _ _) with true.
  2:{ symmetry. rewrite sapp_list, forallb_app. cbn [list_ascii_of_string forallb]. rewrite !plain_safe by auto. reflexivity. }
  cbn [check bind]. rewrite split_word by (apply plain_blank; auto). rewrite split_lacks by (apply plain_blank; auto). destruct (slash_word u HS) as [E1 E2].
  assert (E3 : String.eqb (v ++ "/raw") "" = false) by (destruct v; reflexivity).
  assert (E4 : String.prefix "-" (v ++ "/raw") = false).
  { destruct (String.prefix "-" (v ++ "/raw")) eqn:E; [|reflexivity]. apply prefix_iff in E as [b E]. destruct v as [|c v]; [discriminate E|].
    injection E as -> E. rewrite <- HD. symmetry. apply prefix_iff. exists v. reflexivity. }
  cbn [filter]. rewrite E1, E3. cbn [negb forallb]. rewrite E2, E4. cbn [negb andb check bind existsb]. eexists. split; [reflexivity|].
  eexists. split; [reflexivity|]. intros q. cbn beta. rewrite negb_true_iff, orb_false_r, orb_false_iff, <- !not_true_iff_false, !within_iff.
  unfold absolute at 1. rewrite HS. split.
  - intros [A B] (g & [<-|[<-|[]]] & Hg); auto.
  - intros H. split; intros Hx; apply H; [exists u|eexists]; (split; [|exact Hx]); cbn; auto.
Qed.
Lemma outside_blank u v : ~ inside (u ++ " " ++ v ++ "/raw") u.
Proof.
  intros [E|[r E]]; apply (f_equal String.length) in E; repeat rewrite slength_app in E; cbn in E; lia.
Qed.

(** * Single files *)
Lemma clean_files_ok cwd path names : good_path path -> plain path -> starts_slash path = true -> Forall (fun n => plain n /\ starts_slash n = false) names ->
  forall paths, exists left, clean_files cwd path names paths = Ok left /\ removed (map (raw_file path) names) paths left.
Proof.
  intros Hp HP HS. induction names as [|n r IH]; intros HN paths; cbn [clean_files].
  - exists paths. split; [reflexivity|]. exists (fun _ => true). split; [symmetry; clear; induction paths; cbn; congruence|]. intros q. split; [|auto]. intros _ (g & [] & _).
  - inversion HN as [|? ? [N1 N2] N3]; subst. rewrite raw_join_file by auto. rewrite rm_one; [|unfold raw_file; apply plain_app; split; [auto|apply plain_app; split; [repeat constructor|auto]]|apply starts_app; auto].
    cbn [bind]. destruct (IH N3 (filter (fun q => negb (within (raw_file path n) q)) paths)) as (left & E & keep & EL & HK). exists left. split; [exact E|].
    exists (fun q => negb (within (raw_file path n) q) && keep q). split.
    + rewrite EL. clear. induction paths as [|q l IH]; [reflexivity|]. cbn. destruct (within (raw_file path n) q); cbn; [exact IH|]. destruct (keep q); rewrite IH; reflexivity.
    + intros q. rewrite andb_true_iff, negb_true_iff, <- not_true_iff_false, within_iff, HK. cbn [map]. split.
      * intros [A B] (g & [<-|Hg] & Hi); [auto|]. apply B. eauto.
      * intros H. split; [intros Hi; apply H; exists (raw_file path n); split; [left; reflexivity|auto]|]. intros (g & Hg & Hi). apply H. exists g. split; [right; auto|auto].
Qed.
Lemma plain_data n : plain (data_name n).
Proof. unfold data_name. apply plain_app. split; [repeat constructor|]. generalize (Nat.to_uint n). intros u. unfold plain. induction u; cbn; constructor; auto. Qed.
Lemma data12_stays pre i : 1 <= i <= 11 -> ~ inside (pre ++ data_name i ++ ".h5") (pre ++ data_name 12 ++ ".h5").
Proof.
  intros Hi [E|[r E]].
  - symmetry in E. apply h5_inj in E as [_ E]. lia.
  - rewrite !sapp_assoc in E. apply sapp_inj_l in E. do 12 (destruct i as [|i]; [try lia; cbn in E; discriminate E|]). lia.
Qed.
