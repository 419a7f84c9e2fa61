(** Proofs about light-cone files: builds and added properties (C44, C45, C46, C61). *)
From Coq Require Import Reals Permutation Sorted.
From Verif Require Import Dict Util RealUtil SnapModel SnapSpec Snap FormatModel FormatSpec Format LcModel LcSpec Lc Lc2 Lc3 Lc4 Lc5 Lc7.
From Coq Require Import Lra Lia.
Open Scope string_scope.
Open Scope list_scope.
Open Scope nat_scope.

Lemma concat_concat {A} (l : list (list (list A))) : concat (concat l) = concat (map (@concat A) l).
Proof. induction l as [|a l IH]; cbn; [reflexivity|]. rewrite concat_app, IH. reflexivity. Qed.
Lemma Forall2_map_r {A B C} (P : A -> C -> Prop) (f : B -> C) l r : Forall2 (fun a b => P a (f b)) l r -> Forall2 P l (map f r).
Proof. intros H. induction H; cbn; constructor; assumption. Qed.
Lemma Forall2_imp {A B} (P Q : A -> B -> Prop) l r : (forall a b, P a b -> Q a b) -> Forall2 P l r -> Forall2 Q l r.
Proof. intros I H. induction H; constructor; auto. Qed.
Lemma cone_chunks asort az mi sd c p css : chunks_of (cone_F asort az mi sd c) (lc_use c) p css -> cone_rows asort az mi sd c p (concat (concat css)).
Proof.
  intros H. exists (map (@concat row) css). split; [apply concat_concat|]. apply Forall2_map_r. eapply Forall2_imp; [|exact H].
  intros m cs (G & E1 & E2). unfold cone_F in E1. destruct (snap_load mi sd (lc_mass c) (m_index m)) as [[ma po]|]; cbn in E1; [|discriminate]. inversion E1; subst. exists ma, po, cs. split; [reflexivity|]. split; [exact E2|reflexivity].
Qed.
Lemma ball_chunks asort az sk mi sd md c p css : chunks_of (ball_F asort az sk mi sd md c) (lc_use c) p css -> ball_rows asort az sk mi sd md c p (concat (concat css)).
Proof.
  intros H. exists (map (@concat row) css). split; [apply concat_concat|]. apply Forall2_map_r. eapply Forall2_imp; [|exact H].
  intros m cs (G & E1 & E2). unfold ball_F in E1. destruct (snap_load mi sd (lc_mass c) (m_index m)) as [[ma po]|]; cbn [bind fst snd] in E1; [|discriminate]. inversion E1; subst. exists ma, po.
  split; [reflexivity|]. destruct cs as [|rs [|? ?]]; inversion E2 as [E3]. rewrite E3. cbn. rewrite app_nil_r. reflexivity.
Qed.
(** ** Builds *)
Lemma build_done asort az mi sd c pts w w' : build asort az mi sd c pts w = (w', Ok tt) ->
  (forall i p, nth_error pts i = Some p -> exists f rows, w' i = Some f /\ marked_done f /\ cone_rows asort az mi sd c p rows /\ holds_rows f p rows) /\
  (forall i, length pts <= i -> w' i = w i).
Proof.
  unfold build. rewrite build_gen. intros E. apply gen_done in E. destruct E as [E1 E2]. split; [|exact E2].
  intros i p Ep. destruct (E1 i p Ep) as (css & HC & Hf). exists (done_file p (concat (concat css))), (concat (concat css)). destruct (done_holds p (concat (concat css))).
  split; [exact Hf|]. split; [assumption|]. split; [apply cone_chunks; exact HC|assumption].
Qed.
Lemma sphere_done asort az sk mi sd md c pts w w' : lexec w (sphere_steps asort az sk mi sd md c pts) = (w', Ok tt) ->
  (forall i p, nth_error pts i = Some p -> exists f rows, w' i = Some f /\ marked_done f /\ ball_rows asort az sk mi sd md c p rows /\ holds_rows f p rows) /\
  (forall i, length pts <= i -> w' i = w i).
Proof.
  rewrite sphere_gen. intros E. apply gen_done in E. destruct E as [E1 E2]. split; [|exact E2].
  intros i p Ep. destruct (E1 i p Ep) as (css & HC & Hf). exists (done_file p (concat (concat css))), (concat (concat css)). destruct (done_holds p (concat (concat css))).
  split; [exact Hf|]. split; [assumption|]. split; [apply ball_chunks; exact HC|assumption].
Qed.
Lemma build_crash_safe asort az mi sd c pts k w i f : build_crash asort az mi sd c pts k w i = Some f -> lf_finished f = Some true ->
  build_crash asort az mi sd c pts k w i = w i \/ exists p rows, nth_error pts i = Some p /\ cone_rows asort az mi sd c p rows /\ holds_rows f p rows.
Proof.
  unfold build_crash. rewrite build_gen. destruct (lexec w _) as [w' r] eqn:E. cbn [fst]. intros Ef Hf.
  destruct (gen_crash _ _ _ _ _ _ _ i E f Ef Hf) as [H|(p & css & Ep & HC & ->)]; [left; exact H|right].
  exists p, (concat (concat css)). split; [exact Ep|]. split; [apply cone_chunks; exact HC|]. apply done_holds.
Qed.
Lemma build_fail_safe asort az mi sd c pts w w' r i f : build asort az mi sd c pts w = (w', r) -> w' i = Some f -> lf_finished f = Some true ->
  w' i = w i \/ exists p rows, nth_error pts i = Some p /\ cone_rows asort az mi sd c p rows /\ holds_rows f p rows.
Proof.
  intros E Ef Hf. pose proof (build_crash_safe asort az mi sd c pts (length (build_steps asort az mi sd c pts)) w i f) as H.
  unfold build_crash in H. rewrite firstn_all in H. unfold build in E. rewrite E in H. cbn [fst] in H. apply H; assumption.
Qed.
Lemma sphere_crash_safe asort az sk mi sd md c pts k w i f : fst (lexec w (firstn k (sphere_steps asort az sk mi sd md c pts))) i = Some f -> lf_finished f = Some true ->
  fst (lexec w (firstn k (sphere_steps asort az sk mi sd md c pts))) i = w i \/ exists p rows, nth_error pts i = Some p /\ ball_rows asort az sk mi sd md c p rows /\ holds_rows f p rows.
Proof.
  rewrite sphere_gen. destruct (lexec w _) as [w' r] eqn:E. cbn [fst]. intros Ef Hf.
  destruct (gen_crash _ _ _ _ _ _ _ i E f Ef Hf) as [H|(p & css & Ep & HC & ->)]; [left; exact H|right].
  exists p, (concat (concat css)). split; [exact Ep|]. split; [apply ball_chunks; exact HC|]. apply done_holds.
Qed.

(** ** The redshift table *)
Lemma red_edges_length : length red_edges = 100.
Proof. unfold red_edges. rewrite map_length. apply seq_length. Qed.
Lemma red_edges_nth j : j < 100 -> nth_error red_edges j = Some (Rpower (21 + 5 / 100) (INR j / 99) - 1)%R.
Proof.
  intros L. unfold red_edges. rewrite nth_error_map.
  replace (nth_error (seq 0 100) j) with (Some j); [reflexivity|]. symmetry. rewrite nth_error_nth' with (d := 0) by (rewrite seq_length; exact L). rewrite seq_nth by exact L. reflexivity.
Qed.
Lemma red_edges_incr i j a b : i < j -> nth_error red_edges i = Some a -> nth_error red_edges j = Some b -> (a < b)%R.
Proof.
  intros L Ea Eb. pose proof (nth_error_Some_lt _ _ _ Eb) as Lj. rewrite red_edges_length in Lj. rewrite red_edges_nth in Ea, Eb by lia. inversion Ea; inversion Eb.
  assert (Rpower (21 + 5 / 100) (INR i / 99) < Rpower (21 + 5 / 100) (INR j / 99))%R; [|lra]. apply Rpower_lt; [lra|]. apply lt_INR in L. lra.
Qed.
Lemma red_edges_first : nth_error red_edges 0 = Some 0%R.
Proof. rewrite red_edges_nth by lia. f_equal. cbn [INR]. replace (0 / 99)%R with 0%R by field. rewrite Rpower_O by lra. lra. Qed.
Lemma red_edges_last : nth_error red_edges 99 = Some (20 + 5 / 100)%R.
Proof. rewrite red_edges_nth by lia. f_equal. rewrite INR_IZR_INZ. cbn [Z.of_nat Pos.of_succ_nat Pos.succ]. replace (99 / 99)%R with 1%R by field. rewrite Rpower_1 by lra. lra. Qed.
Lemma count_mono a b zs : (a <= b)%R -> count_le a zs <= count_le b zs.
Proof.
  intros H. unfold count_le. induction zs as [|z zs IH]; cbn; [lia|].
  destruct (rleb z a) eqn:E1; destruct (rleb z b) eqn:E2; cbn; try lia. apply rleb_le in E1. apply rleb_gt in E2. lra.
Qed.
Lemma count_all e zs : (forall z, In z zs -> z <= e)%R -> count_le e zs = length zs.
Proof.
  intros H. unfold count_le. induction zs as [|z zs IH]; cbn; [reflexivity|]. rewrite (proj2 (rleb_le z e)) by (apply H; left; reflexivity). cbn. f_equal. apply IH. intros; apply H; right; assumption.
Qed.
Lemma count_none e zs : (forall z, In z zs -> e < z)%R -> count_le e zs = 0.
Proof.
  intros H. unfold count_le. induction zs as [|z zs IH]; cbn; [reflexivity|]. rewrite (proj2 (rleb_gt z e)) by (apply H; left; reflexivity). cbn. apply IH. intros; apply H; right; assumption.
Qed.
(** the table of a finished file *)
Lemma done_table p rows j : j < 100 -> exists e, nth_error red_edges j = Some e /\
  nth_error (lf_red (done_file p rows)) j = Some (e, match j with 0 => 0 | S _ => count_le e (map r_red rows) end).
Proof.
  intros L. destruct (nth_error_lt_Some red_edges j ltac:(rewrite red_edges_length; exact L)) as [e Ee]. exists e. split; [exact Ee|].
  cbn [done_file lf_red]. destruct red_edges as [|e0 E]; [destruct j; discriminate|]. cbn [red_tab]. destruct j as [|j]; [cbn in *; congruence|]. cbn [nth_error] in *.
  rewrite nth_error_map, Ee. reflexivity.
Qed.

(** ** Success from the parts *)
Lemma lexec_conv l : forall w, Forall isok l -> (forall i, exists o, frun (w i) (ops_of i l) = Ok o) -> exists w', lexec w l = (w', Ok tt).
Proof.
  induction l as [|x l IH]; intros w HF HR; [exists w; reflexivity|]. inversion HF as [|? ? [[j a] ->] HF']; subst. cbn [lexec].
  assert (HS : exists w1, lstep w (j, a) = Ok w1).
  { destruct (HR j) as [o Ho]. cbn in Ho. rewrite Nat.eqb_refl in Ho. cbn [app frun] in Ho. destruct (fop1 (w j) a) as [o1|] eqn:E1; [|discriminate].
    unfold lstep, fop1 in *. cbn [fst snd]. destruct a; try (eexists; reflexivity); destruct (w j) as [f|]; try discriminate;
    match goal with H : bind ?b _ = Ok _ |- _ => destruct b; [eexists; reflexivity|discriminate] end. }
  destruct HS as [w1 HS]. rewrite HS. apply IH; [exact HF'|]. intros i. destruct (lstep_proj _ _ _ HS) as [P1 P2]. cbn [fst snd] in *. destruct (HR i) as [o Ho]. exists o.
  change (ops_of i (Ok (j, a) :: l)) with (op_of i (Ok (j, a)) ++ ops_of i l) in Ho. cbn [op_of fst snd] in Ho.
  destruct (Nat.eqb_spec j i) as [<-|Hn]; cbn [app frun] in Ho.
  - rewrite P1 in Ho. exact Ho.
  - rewrite (P2 i) by congruence. exact Ho.
Qed.
Lemma isok_map (i : nat) (l : list lop) : Forall isok (map (fun o => Ok (i, o)) l).
Proof. induction l; constructor; [eexists; reflexivity|assumption]. Qed.
Lemma file_runs p cs o : cs <> [] -> frun o (head_ops p ++ flat_map row_ops cs ++ tail_ops) = Ok (Some (done_file p (concat cs))).
Proof.
  intros H. rewrite frun_app, head_run. cbn [bind]. rewrite frun_app.
  change (red_tab red_edges []) with (red_tab red_edges (map r_red [])). change (@nil (Z * nat)) with (simof []) at 1.
  rewrite (chunks_run _ _ _ _ _ red_edges [] cs [] []) by (left; split; reflexivity). cbn [bind app].
  destruct cs as [|c cs]; [congruence|]. rewrite tail_run. reflexivity.
Qed.
Lemma cone_steps_isok cs i : Forall isok (cone_steps (Ok (map Ok cs)) i).
Proof. cbn [cone_steps]. apply Forall_flat. intros s Hs. apply in_map_iff in Hs. destruct Hs as (rows & <- & _). rewrite write_rows_ops. apply isok_map. Qed.
Lemma Forall2_in_l_ {A B} (P : A -> B -> Prop) l r a : Forall2 P l r -> In a l -> exists b, In b r /\ P a b.
Proof. intros H. induction H as [|x y l r HP H IH]; intros I; [destruct I|]. destruct I as [->|I]; [exists y; split; [left; reflexivity|exact HP]|]. destruct (IH I) as (b & B1 & B2). exists b. split; [right; exact B1|exact B2]. Qed.
Lemma gen_runs F use pts w : (forall m, In m use -> exists G, F m = Ok G) -> (forall p, In p pts -> exists css, chunks_of F use p css /\ concat css <> []) ->
  exists w', lexec w (gen_steps F use pts) = (w', Ok tt).
Proof.
  intros HU HC.
  assert (HM : Forall isok (gen_mid F use pts)).
  { unfold gen_mid. apply Forall_flat. intros m Hm. destruct (HU m Hm) as [G EG]. rewrite EG. apply Forall_flat. intros [i p] Hi. apply in_combine_r in Hi. cbn [fst snd].
    destruct (HC p Hi) as (css & H1 & _). destruct (Forall2_in_l_ _ _ _ _ H1 Hm) as (cs & _ & G' & E1 & E2). rewrite EG in E1. inversion E1; subst. rewrite E2. apply cone_steps_isok. }
  apply lexec_conv.
  - unfold gen_steps. apply Forall_app. split; [|apply Forall_app; split; [exact HM|]].
    + apply Forall_flat. intros [i p] _. apply isok_map.
    + rewrite final_eq. apply Forall_flat. intros i _. apply isok_map.
  - intros i. destruct (nth_error pts i) as [p|] eqn:Ep.
    + destruct (mid_ops F use pts i p Ep HM) as (css & H1 & H2). unfold gen_steps.
      rewrite !ops_app, (init_ops _ _ _ Ep), H2, final_ops by (apply nth_error_Some_lt with (1 := Ep)). eexists. apply file_runs.
      destruct (HC p (nth_error_In _ _ Ep)) as (css' & H3 & H4). intros H5. apply H4.
      assert (EE : css = css').
      { clear -H1 H3. revert css' H3. induction H1 as [|m cs use css (G & E1 & E2) H1 IH]; intros css' H3; inversion H3 as [|? cs' ? ? (G' & E1' & E2') H3']; subst; [reflexivity|].
        f_equal; [|apply IH; exact H3']. rewrite E1 in E1'. inversion E1'; subst. rewrite E2 in E2'. inversion E2' as [E]. clear -E. revert cs' E. induction cs as [|a cs IH]; intros [|b cs'] E; inversion E; [reflexivity|]. f_equal. apply IH. assumption. }
      rewrite <- EE. exact H5.
    + apply nth_error_None in Ep. unfold gen_steps. rewrite !ops_app, init_ops_none, mid_ops_none, final_ops_none by exact Ep. eexists. reflexivity.
Qed.

(** ** Rows *)
Lemma pick_in {A} (l : list A) p a : In a (pick l p) -> In a l.
Proof. unfold pick. intros H. apply in_flat_map in H. destruct H as (i & _ & H). destruct (nth_error l i) eqn:E; [|destruct H]. destruct H as [<-|[]]. apply nth_error_In with (1 := E). Qed.
Lemma slab_row asort az c p s masses pos start end_ use buf box iters it rows r :
  slab asort az c p s masses pos start end_ use buf box iters it = Ok rows -> In r rows -> r_snap r = s /\ exists d, (0 < d)%R /\ az d = Ok (r_red r).
Proof.
  unfold slab. cbv zeta. intros E Hr. apply mapM_fwd in E. destruct (Forall2_in_r _ _ _ _ E Hr) as (i & Hi & Ei).
  apply pick_in, filter_In in Hi. destruct Hi as [_ Hi]. apply andb_true_iff in Hi. destruct Hi as [Hi _]. unfold in_angle in Hi. apply andb_true_iff in Hi. destruct Hi as [Hi _].
  apply negb_true_iff, reqb_ne in Hi. set (d := nth i _ 0%R) in *. destruct (az d) as [z|] eqn:Ez; cbn [bind] in Ei; [|discriminate]. inversion Ei; subst r. cbn [r_snap r_red].
  split; [reflexivity|]. exists d. split; [|exact Ez]. destruct (Rtotal_order d 0) as [H|[H|H]]; [|congruence|exact H]. exfalso.
  assert (0 <= d)%R; [|lra]. unfold d. clear.
  match goal with |- (0 <= nth i (map ?f ?l) 0)%R => generalize l as l0; intros l0; revert i; induction l0 as [|x l0 IH]; intros i; destruct i; cbn [map nth]; try lra; try apply IH; apply norm_ge end.
Qed.
Lemma snap_row asort az c p m masses pos0 slabs r : snap_slabs asort az c p m masses pos0 = Ok (map Ok slabs) -> In r (concat slabs) ->
  r_snap r = m_index m /\ exists d, (0 < d)%R /\ az d = Ok (r_red r).
Proof.
  intros E Hr. destruct (snap_unfold _ _ _ _ _ _ _ _ E) as (N & M & pos & ks & _ & _ & _ & _ & _ & _ & HS). apply in_concat in Hr. destruct Hr as (rs & Hrs & Hr).
  assert (I : In (Ok rs) (map Ok slabs)) by (apply in_map; exact Hrs). rewrite HS in I. apply in_map_iff in I. destruct I as (t & Et & _). apply (slab_row _ _ _ _ _ _ _ _ _ _ _ _ _ _ _ _ Et Hr).
Qed.
Lemma cone_rows_red asort az mi sd c p rows r : cone_rows asort az mi sd c p rows -> In r rows -> exists d, (0 < d)%R /\ az d = Ok (r_red r).
Proof.
  intros (rss & -> & H) Hr. apply in_concat in Hr. destruct Hr as (rs & Hrs & Hr). destruct (Forall2_in_r _ _ _ _ H Hrs) as (m & _ & ma & po & sl & _ & E & ->). apply (snap_row _ _ _ _ _ _ _ _ _ E Hr).
Qed.
Lemma c44 asort az mi sd c pts w w' i p : (forall d z, (0 < d)%R -> az d = Ok z -> (0 < z <= 20 + 5 / 100)%R) ->
  build asort az mi sd c pts w = (w', Ok tt) -> nth_error pts i = Some p ->
  exists f rows, w' i = Some f /\ holds_rows f p rows /\ length (lf_red f) = 100 /\
    (forall j e n, nth_error (lf_red f) j = Some (e, n) -> n = count_le e (map r_red rows)) /\
    (forall j k ej nj ek nk, j < k -> nth_error (lf_red f) j = Some (ej, nj) -> nth_error (lf_red f) k = Some (ek, nk) -> (ej < ek)%R /\ nj <= nk) /\
    (exists e, nth_error (lf_red f) 99 = Some (e, length rows)).
Proof.
  intros HZ. unfold build. rewrite build_gen. intros E Ep. apply gen_done in E. destruct E as [E1 _]. destruct (E1 i p Ep) as (css & HC & Hf). apply cone_chunks in HC.
  set (rows := concat (concat css)) in *. exists (done_file p rows), rows. split; [exact Hf|]. split; [apply done_holds|].
  assert (HP : forall z, In z (map r_red rows) -> (0 < z <= 20 + 5 / 100)%R).
  { intros z Hz. apply in_map_iff in Hz. destruct Hz as (r & <- & Hr). destruct (cone_rows_red _ _ _ _ _ _ _ _ HC Hr) as (d & Hd & Ed). apply (HZ d _ Hd Ed). }
  assert (HL : length (lf_red (done_file p rows)) = 100).
  { rewrite <- (map_length fst). destruct (done_holds p rows) as [_ (_ & _ & _ & -> & _)]. apply red_edges_length. }
  assert (HN : forall j e n, nth_error (lf_red (done_file p rows)) j = Some (e, n) -> nth_error red_edges j = Some e /\ n = count_le e (map r_red rows)).
  { intros j e n H. pose proof (nth_error_Some_lt _ _ _ H) as Lj. rewrite HL in Lj. destruct (done_table p rows j Lj) as (e' & G1 & G2). rewrite H in G2. inversion G2; subst. split; [exact G1|].
    destruct j as [|j]; [|reflexivity]. rewrite red_edges_first in G1. inversion G1; subst. symmetry. apply count_none. intros z Hz. apply HP, Hz. }
  split; [exact HL|]. split; [|split].
  - intros j e n H. apply (HN j e n H).
  - intros j k ej nj ek nk L H1 H2. destruct (HN _ _ _ H1) as [G1 ->]. destruct (HN _ _ _ H2) as [G2 ->]. pose proof (red_edges_incr _ _ _ _ L G1 G2). split; [assumption|]. apply count_mono. lra.
  - destruct (done_table p rows 99 ltac:(lia)) as (e & G1 & G2). exists e. rewrite G2, red_edges_last in *. inversion G1. rewrite count_all; [rewrite map_length; reflexivity|]. intros z Hz. apply HP, Hz.
Qed.
(** the first entry is never counted *)
Lemma c44_first asort az sk mi sd md c pts w w' i p : lexec w (sphere_steps asort az sk mi sd md c pts) = (w', Ok tt) -> nth_error pts i = Some p ->
  exists f rows, w' i = Some f /\ holds_rows f p rows /\ nth_error (lf_red f) 0 = Some (0%R, 0) /\
    ((exists r, In r rows /\ (r_red r <= 0)%R) -> count_le 0 (map r_red rows) <> 0).
Proof.
  rewrite sphere_gen. intros E Ep. apply gen_done in E. destruct E as [E1 _]. destruct (E1 i p Ep) as (css & HC & Hf). exists (done_file p (concat (concat css))), (concat (concat css)).
  split; [exact Hf|]. split; [apply done_holds|]. split.
  - destruct (done_table p (concat (concat css)) 0 ltac:(lia)) as (e & G1 & G2). rewrite G2. rewrite red_edges_first in G1. inversion G1. reflexivity.
  - intros (r & Hr & Hz) H0. unfold count_le in H0. apply length_zero_iff_nil in H0.
    assert (I : In (r_red r) (filter (fun z => rleb z 0) (map r_red (concat (concat css))))) by (apply filter_In; split; [apply in_map; exact Hr|apply rleb_le; exact Hz]). rewrite H0 in I. destruct I.
Qed.
