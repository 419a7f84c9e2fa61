(** Proofs about formatting Illustris and TNG catalogues (C98) and about single objects (C99). *)
From Verif Require Import Dict Util RealUtil PathsModel SnapModel SnapSpec Snap FormatModel FormatSpec Format.
From Verif Require Import RawModel RawSpec Raw Raw2 Raw4 IllModel IllSpec Ill.
From Coq Require Import Reals Ascii Sorted Permutation Lra.
Open Scope string_scope.
Open Scope list_scope.
Open Scope nat_scope.

(** * Formatting *)
Section Ill.
Context (u : suite) (which : string) (dark : bool) (d : h5disk) (path : string) (snaps : list Z) (attrs : dict R) (number : option Z) (ms : list meta) (h : R).
Context (Hu : published u which) (Hp : good_path path).
Context (files : Z -> list chunk) (a : fargs).
Context (Hf : forall s, In s snaps -> (0 <= s < 1000)%Z /\ snapshot_on_disk d u path (Z.to_nat s) (files s) /\ good_files u dark (a_basic a) (files s)).
Notation cat := (ill_catalog (sim_name u which dark) d path snaps attrs number ms h).
Lemma ill_load s : In s snaps -> exists sub, ct_load cat s (dkeys (dmerge (ct_basic cat) (ill_others u dark (a_basic a)))) = Ok (sub, halos (files s)) /\
  (halos (files s) = 0 \/ loads (files s) (columns u dark (a_basic a)) sub).
Proof.
  intros Hs. destruct (Hf s Hs) as (H1 & H2 & H3). replace (ct_basic cat) with (ill_basic (rep_sim u dark)) by (symmetry; apply basic_rep; auto).
  rewrite ill_merge. cbn [ct_load ill_catalog]. eapply ill_loads; eauto.
Qed.
Lemma ill_runnable w : is_new w a = true -> NoDup snaps -> runnable cat a w (ill_others u dark (a_basic a)).
Proof.
  intros HN ND. split; [apply ill_new; auto|]. assert (EB : ct_basic cat = ill_basic (rep_sim u dark)) by (apply basic_rep; auto).
  split; [rewrite EB; apply ill_fields_ok|]. split; [apply nodup_str_ok; reflexivity|]. split; [exact ND|]. split; [|left; exact HN].
  intros s Hs. unfold todo in Hs. rewrite HN in Hs. cbn [ct_snaps ill_catalog] in Hs. destruct (ill_load s Hs) as (sub & EL & HL). exists sub, (halos (files s)). split; [exact EL|].
  destruct HL as [HL|HL]; [left; exact HL|right]. rewrite EB. intros key specs Hin.
  assert (Hc : In (key, length specs) (columns u dark (a_basic a))) by (rewrite <- field_width; apply in_map_iff; exists (key, specs); auto).
  assert (Hne : specs <> []) by (intros ->; eapply (ill_fields_ok u dark (a_basic a)); eauto).
  destruct (HL _ _ Hc) as (c & C1 & C2 & C3 & C4 & _). exists c. split; [exact C1|]. split; [exact C2|].
  destruct specs as [|s1 [|s2 r]]; [contradiction Hne; reflexivity|..]; destruct c as [v|v]; cbn in C3; try discriminate C3.
  - eauto.
  - exists v. split; [reflexivity|]. eapply Forall_impl; [|exact C4]. cbn. intros x ->. lia.
Qed.
Lemma ill_format asort w : argsorts asort -> fresh a w -> NoDup snaps ->
  exists w', format asort cat a w = (w', Ok tt) /\
    forall s, In s snaps -> exists g, group_of w' s = Some g /\ stored g (halos (files s)) (outs (978 / 1000) "SubhaloSFRinHalfRad" u dark (a_basic a) (files s)).
Proof.
  intros HA HF ND. pose proof (fresh_new a w HF) as HN.
  destruct (c35 asort _ a w _ HA (ill_runnable w HN ND)) as (w' & E & H). exists w'. split; [exact E|].
  intros s Hs. destruct (ill_load s Hs) as (sub & EL & HL).
  destruct (H s _ _ ltac:(unfold todo; rewrite HN; exact Hs) EL) as (g & Eg & Hh). exists g. split; [exact Eg|].
  eapply holds_stored; [|exact Hh]. replace (ct_basic cat) with (ill_basic (rep_sim u dark)) by (symmetry; apply basic_rep; auto).
  apply (ill_matches u which dark d path snaps attrs number ms h); auto.
Qed.
End Ill.

(** * One object *)
Fixpoint starts (k : nat) (l : list chunk) : list Z := match l with [] => [] | f :: r => Z.of_nat k :: starts (k + ch_here f) r end.
Lemma last_below_app offs1 offs2 id : forall k best, last_below (offs1 ++ offs2) id k best = last_below offs2 id (k + length offs1) (last_below offs1 id k best).
Proof. induction offs1 as [|o r IH]; intros k best; cbn; [rewrite Nat.add_0_r; reflexivity|]. rewrite IH. f_equal. lia. Qed.
Lemma last_below_none offs id : forall k best, Forall (fun o => (id < o)%Z) offs -> last_below offs id k best = best.
Proof. induction offs as [|o r IH]; intros k best H; [reflexivity|]. inversion H; subst. cbn. destruct (Z.leb_spec 0 (id - o)); [lia|]. apply IH. auto. Qed.
Lemma starts_app l1 l2 : forall k, starts k (l1 ++ l2) = starts k l1 ++ starts (k + FormatSpec.here l1) l2.
Proof.
  induction l1 as [|f r IH]; intros k; cbn; [rewrite Nat.add_0_r; reflexivity|]. rewrite IH. f_equal. f_equal. fold (FormatSpec.here r). f_equal. lia.
Qed.
Lemma starts_ge l : forall k, Forall (fun o => (Z.of_nat k <= o)%Z) (starts k l).
Proof.
  induction l as [|f r IH]; intros k; cbn; constructor; [lia|]. eapply Forall_impl; [|apply IH]. cbn. intros; lia.
Qed.
Lemma starts_length l : forall k, length (starts k l) = length l.
Proof. induction l; intros; cbn; auto. Qed.
(** the file that holds row [i] of all rows *)
Lemma locate l : forall i, i < FormatSpec.here l -> exists l1 f l2, l = l1 ++ f :: l2 /\ FormatSpec.here l1 <= i < FormatSpec.here l1 + ch_here f.
Proof.
  induction l as [|f r IH]; intros i H; [cbn in H; lia|]. cbn in H. fold (FormatSpec.here r) in H. destruct (Nat.lt_ge_cases i (ch_here f)) as [L|L].
  - exists [], f, r. split; [reflexivity|cbn; lia].
  - destruct (IH (i - ch_here f)) as (l1 & g & l2 & -> & B); [lia|]. exists (f :: l1), g, l2. split; [reflexivity|]. cbn. fold (FormatSpec.here l1). lia.
Qed.
Lemma find_file l1 f l2 i : FormatSpec.here l1 <= i < FormatSpec.here l1 + ch_here f ->
  last_below (starts 0 (l1 ++ f :: l2)) (Z.of_nat i) 0 None = Some (length l1) /\ nth (length l1) (starts 0 (l1 ++ f :: l2)) 0%Z = Z.of_nat (FormatSpec.here l1).
Proof.
  intros B. rewrite starts_app. cbn [starts]. rewrite Nat.add_0_l. split.
  - rewrite last_below_app. rewrite starts_length, Nat.add_0_l. cbn [last_below]. destruct (Z.leb_spec 0 (Z.of_nat i - Z.of_nat (FormatSpec.here l1))); [|lia].
    apply last_below_none. eapply Forall_impl; [|apply starts_ge]. cbn. intros; lia.
  - rewrite app_nth2; rewrite starts_length; [|lia]. rewrite Nat.sub_diag. reflexivity.
Qed.
Lemma all_rows_at key w l1 f l2 i : (forall g, In g (l1 ++ f :: l2) -> ch_here g <> 0 -> has_column g key w) -> FormatSpec.here l1 <= i < FormatSpec.here l1 + ch_here f ->
  exists c, dget (ch_data f) key = Some c /\ nth_error (rows_of c) (i - FormatSpec.here l1) = nth_error (all_rows (l1 ++ f :: l2) key) i.
Proof.
  intros H B. destruct (H f) as (c & C1 & C2 & C3 & C4); [apply in_or_app; right; left; reflexivity|lia|]. exists c. split; [exact C1|].
  assert (E : all_rows (l1 ++ f :: l2) key = all_rows l1 key ++ rows_of c ++ all_rows l2 key).
  { unfold all_rows. rewrite flat_map_app. cbn [flat_map]. destruct (Nat.eqb_spec (ch_here f) 0); [lia|]. rewrite C1. reflexivity. }
  rewrite E. destruct (all_rows_good l1 key w) as [L1 _]; [intros g Hg; apply H; apply in_or_app; auto|].
  rewrite nth_error_app2 by lia. rewrite L1. rewrite nth_error_app1; [reflexivity|]. rewrite rows_len. lia.
Qed.
