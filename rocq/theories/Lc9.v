(** Proofs about light-cone files: added properties (C45, C59, C61). *)
From Coq Require Import Reals Permutation Sorted.
From Verif Require Import Dict Util RealUtil SnapModel SnapSpec Snap FormatModel FormatSpec Format LcModel LcSpec Lc Lc2 Lc3 Lc4 Lc5 Lc7 Lc8.
From Coq Require Import Lra Lia.
Open Scope string_scope.
Open Scope list_scope.
Open Scope nat_scope.

(** ** Rows by snapshot *)
Definition blocks (g : list (Z * list nat)) : list (Z * nat) := concat (map (fun mi => map (pair (fst mi)) (snd mi)) g).
Lemma blocks_snap g e : In e (blocks g) -> In (fst e) (map fst g).
Proof.
  unfold blocks. intros H. apply in_concat in H. destruct H as (l & Hl & He). apply in_map_iff in Hl. destruct Hl as (mi & <- & Hm). apply in_map_iff in He. destruct He as (x & <- & _).
  cbn. apply in_map_iff. exists mi. split; [reflexivity|exact Hm].
Qed.
Lemma blocks_app a b : blocks (a ++ b) = blocks a ++ blocks b.
Proof. unfold blocks. rewrite map_app, concat_app. reflexivity. Qed.
Lemma filter_out s (l : list (Z * nat)) : (forall e, In e l -> fst e <> s) -> filter (fun e => Z.eqb (fst e) s) l = [].
Proof. intros H. induction l as [|e l IH]; cbn; [reflexivity|]. destruct (Z.eqb_spec (fst e) s) as [E|E]; [exfalso; apply (H e); [left; reflexivity|exact E]|]. apply IH. intros; apply H; right; assumption. Qed.
Lemma snap_rows_block a s ix b : NoDup (map fst (a ++ (s, ix) :: b)) -> snap_rows (blocks (a ++ (s, ix) :: b)) s = ix.
Proof.
  intros N. rewrite map_app in N. cbn [map fst] in N. apply NoDup_remove_2 in N. unfold snap_rows. rewrite blocks_app. change (blocks ((s, ix) :: b)) with (map (pair s) ix ++ blocks b).
  rewrite !filter_app, (filter_out s (blocks a)), (filter_out s (blocks b)).
  - rewrite app_nil_r. cbn [app]. induction ix as [|x ix IH]; cbn; [reflexivity|]. rewrite Z.eqb_refl. cbn. f_equal. exact IH.
  - intros e He E. apply N. apply blocks_snap in He. rewrite E in He. apply in_or_app. right. exact He.
  - intros e He E. apply N. apply blocks_snap in He. rewrite E in He. apply in_or_app. left. exact He.
Qed.
Lemma snap_start_block a s ix b : NoDup (map fst (a ++ (s, ix) :: b)) -> ix <> [] -> snap_start (blocks (a ++ (s, ix) :: b)) s = length (blocks a).
Proof.
  intros N Hx. rewrite map_app in N. cbn [map fst] in N. apply NoDup_remove_2 in N. rewrite blocks_app. change (blocks ((s, ix) :: b)) with (map (pair s) ix ++ blocks b).
  destruct ix as [|x ix]; [congruence|]. unfold snap_start. set (l := blocks a ++ map (pair s) (x :: ix) ++ blocks b).
  assert (EL : length l = length (blocks a) + S (length ix + length (blocks b))) by (unfold l; rewrite !app_length; cbn [length map]; rewrite app_length, map_length || rewrite map_length; lia).
  rewrite EL, seq_app, filter_app. cbn [seq filter].
  replace (filter _ (seq 0 (length (blocks a)))) with (@nil nat).
  - cbn [app plus]. unfold l at 1. rewrite app_nth2 by lia. rewrite Nat.sub_diag. cbn [map app nth fst]. rewrite Z.eqb_refl. reflexivity.
  - symmetry. assert (G : forall k, k <= length (blocks a) -> filter (fun i => Z.eqb (fst (nth i l (0%Z, 0))) s) (seq 0 k) = []); [|apply G; lia].
    induction k as [|k IH]; intros Lk; [reflexivity|]. rewrite seq_S, filter_app, IH by lia. cbn [filter app plus].
    destruct (Z.eqb_spec (fst (nth k l (0%Z, 0))) s) as [E|E]; [|reflexivity]. exfalso. unfold l in E. rewrite app_nth1 in E by lia. apply N.
    apply in_or_app. left. rewrite <- E. apply blocks_snap. apply nth_In. lia.
Qed.
Lemma grouped_blocks sim use : grouped sim use -> exists ixs, length ixs = length use /\ sim = blocks (combine (map m_index use) ixs) /\ NoDup (map m_index use).
Proof.
  intros (N & ixs & H & E). exists ixs. pose proof (Forall2_length_ _ _ _ H) as L. split; [lia|]. split; [|exact N]. rewrite E. unfold blocks. f_equal. clear -L.
  revert ixs L. induction use as [|m use IH]; intros [|ix ixs] L; cbn; try reflexivity; try discriminate. f_equal. apply IH. cbn in L. lia.
Qed.

(** ** Writing blocks *)
Definition same_but_full (f f' : lcfile) : Prop :=
  lf_finished f' = lf_finished f /\ lf_status f' = lf_status f /\ lf_extra f' = lf_extra f /\ lf_done f' = lf_done f /\ lf_pt f' = lf_pt f /\ lf_red f' = lf_red f /\
  lf_basic f' = lf_basic f /\ lf_sim f' = lf_sim f.
Lemma same_refl f : same_but_full f f.
Proof. repeat split. Qed.
Lemma same_trans f g h : same_but_full f g -> same_but_full g h -> same_but_full f h.
Proof. unfold same_but_full. intuition congruence. Qed.
Lemma frun_cons f a l o : frun (Some f) (a :: l) = Ok o -> a <> LNew -> exists f', lapply a f = Ok f' /\ frun (Some f') l = Ok o.
Proof.
  cbn [frun]. intros H Ha. unfold fop1 in H. destruct a; try congruence;
  match goal with H : bind (bind ?b _) _ = _ |- _ => destruct b as [f'|]; cbn [bind] in H; [exists f'; split; [reflexivity|exact H]|discriminate] end.
Qed.
Lemma add_inv k n f f' : lapply (LAdd k n) f = Ok f' -> dget (lf_full f) k = None /\ lf_full f' = dset (lf_full f) k (repeat 0%R n) /\ same_but_full f f'.
Proof.
  destruct f as [fin st ex dn pt red basic sim full]. cbn [lapply lf_full]. destruct (dmem full k) eqn:E; cbn [negb check bind andb]; [discriminate|].
  destruct (0 <? n); cbn [check bind]; [|discriminate]. intros H. inversion H.
  split; [apply dmem_none, E|]. split; [reflexivity|]. repeat split.
Qed.
Lemma put_inv k o v f f' : lapply (LPut k o v) f = Ok f' -> exists old, dget (lf_full f) k = Some old /\ o + length v <= length old /\
  lf_full f' = dset (lf_full f) k (splice old o v) /\ same_but_full f f'.
Proof.
  destruct f as [fin st ex dn pt red basic sim full]. cbn [lapply lf_full]. unfold dfind. destruct (dget full k) as [old|]; cbn [bind]; [|discriminate].
  destruct (o + length v <=? length old) eqn:E; cbn [check bind]; [|discriminate]. intros H. inversion H. exists old. split; [reflexivity|]. split; [apply Nat.leb_le, E|]. split; [reflexivity|]. repeat split.
Qed.
Lemma adds_run n cols : forall f f', frun (Some f) (map (fun k => LAdd k n) cols) = Ok f' ->
  exists g, f' = Some g /\ NoDup cols /\ same_but_full f g /\ (forall k, In k cols -> dget (lf_full f) k = None /\ dget (lf_full g) k = Some (repeat 0%R n)) /\
    (forall k, ~ In k cols -> dget (lf_full g) k = dget (lf_full f) k).
Proof.
  induction cols as [|k cols IH]; intros f f' E.
  - cbn in E. inversion E. exists f. split; [reflexivity|]. split; [constructor|]. split; [apply same_refl|]. split; [intros k []|reflexivity].
  - cbn [map] in E. apply frun_cons in E; [|discriminate]. destruct E as (f1 & E1 & E2). apply add_inv in E1. destruct E1 as (A1 & A2 & A3).
    destruct (IH _ _ E2) as (g & -> & N & S & H1 & H2). exists g. split; [reflexivity|].
    assert (Hk : ~ In k cols). { intros I. destruct (H1 k I) as [C _]. rewrite A2, dget_dset_eq in C. discriminate. }
    split; [constructor; assumption|]. split; [eapply same_trans; eassumption|]. split.
    + intros j [<-|I].
      * split; [exact A1|]. rewrite (H2 k Hk), A2. apply dget_dset_eq.
      * destruct (H1 j I) as [B1 B2]. split; [|exact B2]. rewrite A2 in B1. rewrite dget_dset_ne in B1 by (intros ->; contradiction). exact B1.
    + intros j Hj. cbn in Hj. rewrite H2 by tauto. rewrite A2. apply dget_dset_ne. intros ->. tauto.
Qed.
Lemma puts_run o (d : dict (list R)) : NoDup (dkeys d) -> forall f f', frun (Some f) (map (fun kv => LPut (fst kv) o (snd kv)) d) = Ok f' ->
  exists g, f' = Some g /\ same_but_full f g /\
    (forall k v, In (k, v) d -> exists old, dget (lf_full f) k = Some old /\ o + length v <= length old /\ dget (lf_full g) k = Some (splice old o v)) /\
    (forall k, ~ In k (dkeys d) -> dget (lf_full g) k = dget (lf_full f) k).
Proof.
  induction d as [|[k v] d IH]; intros N f f' E.
  - cbn in E. inversion E. exists f. split; [reflexivity|]. split; [apply same_refl|]. split; [intros k v []|reflexivity].
  - cbn [map fst snd] in E. apply frun_cons in E; [|discriminate]. destruct E as (f1 & E1 & E2). apply put_inv in E1. destruct E1 as (old & A1 & A2 & A3 & A4).
    cbn [dkeys map fst] in N. inversion N as [|? ? N1 N2]; subst.
    destruct (IH N2 _ _ E2) as (g & -> & S & H1 & H2). exists g. split; [reflexivity|]. split; [eapply same_trans; eassumption|]. split.
    + intros j u [I|I].
      * inversion I; subst. exists old. split; [exact A1|]. split; [exact A2|]. rewrite (H2 j N1), A3. apply dget_dset_eq.
      * destruct (H1 j u I) as (old' & B1 & B2 & B3). exists old'. split; [|split; assumption]. rewrite A3 in B1. rewrite dget_dset_ne in B1; [exact B1|]. intros ->. apply N1. apply in_map with (f := fst) in I. exact I.
    + intros j Hj. cbn in Hj. rewrite H2 by tauto. rewrite A3. apply dget_dset_ne. intros ->. tauto.
Qed.
(** the columns written for one snapshot *)
Definition put_ops (sim : list (Z * nat)) (sd : Z * dict (list R)) : list lop := map (fun kv => LPut (fst kv) (snap_start sim (fst sd)) (snd kv)) (snd sd).
Lemma blocks_run sim cols : NoDup cols -> forall (todo : list (Z * list nat)) (ds : list (dict (list R))) done f f' (pre : string -> list R),
  sim = blocks (done ++ todo) -> NoDup (map fst (done ++ todo)) -> length ds = length todo -> (forall d, In d ds -> dkeys d = cols) ->
  Forall2 (fun g d => forall k v, In (k, v) d -> length v = length (snd g)) todo ds ->
  (forall k, In k cols -> length (pre k) = length (blocks done) /\ dget (lf_full f) k = Some (pre k ++ repeat 0%R (length (blocks todo)))) ->
  frun (Some f) (flat_map (put_ops sim) (combine (map fst todo) ds)) = Ok f' ->
  exists g, f' = Some g /\ same_but_full f g /\ (forall k, ~ In k cols -> dget (lf_full g) k = dget (lf_full f) k) /\
    (forall k, In k cols -> exists vs, Forall2 (fun d v => In (k, v) d) ds vs /\ dget (lf_full g) k = Some (pre k ++ concat vs)).
Proof.
  intros HN. induction todo as [|[s ix] todo IH]; intros ds done f f' pre ES ND EL HK HV HP E.
  - destruct ds; [|discriminate]. cbn in E. inversion E. exists f. split; [reflexivity|]. split; [apply same_refl|]. split; [reflexivity|].
    intros k Hk. exists []. split; [constructor|]. destruct (HP k Hk) as [_ ->]. reflexivity.
  - destruct ds as [|d ds]; [discriminate|]. cbn [map fst combine flat_map] in E. rewrite frun_app in E. inversion HV as [|? ? ? ? HV1 HV2]; subst.
    destruct (frun (Some f) (put_ops _ (s, d))) as [o1|] eqn:E1; cbn [bind] in E; [|discriminate]. unfold put_ops in E1. cbn [fst snd] in E1.
    pose proof (HK d (or_introl eq_refl)) as Kd. destruct (puts_run _ d ltac:(rewrite Kd; exact HN) _ _ E1) as (f1 & -> & S1 & P1 & P2).
    assert (Hd : forall k, In k cols -> exists v, In (k, v) d).
    { intros k Hk. rewrite <- Kd in Hk. unfold dkeys in Hk. apply in_map_iff in Hk. destruct Hk as ([k' v] & <- & I). exists v. exact I. }
    assert (Hcol : forall k v, In (k, v) d -> length v = length ix /\ dget (lf_full f1) k = Some (pre k ++ v ++ repeat 0%R (length (blocks todo)))).
    { intros k v I. specialize (HV1 k v I). cbn [snd] in HV1. split; [exact HV1|]. destruct (P1 k v I) as (old & B1 & B2 & B3). rewrite B3. f_equal.
      assert (Hk : In k cols) by (rewrite <- Kd; apply in_map with (f := fst) in I; exact I). destruct (HP k Hk) as [L1 B]. rewrite B in B1. inversion B1; subst old.
      change (blocks ((s, ix) :: todo)) with (map (pair s) ix ++ blocks todo). rewrite app_length, map_length, repeat_app.
      destruct ix as [|x ix].
      - destruct v; [|discriminate]. cbn [length repeat app]. unfold splice. cbn [length]. rewrite Nat.add_0_r. cbn [app]. apply firstn_skipn.
      - rewrite (snap_start_block done s (x :: ix) todo ND ltac:(discriminate)), <- L1, splice_app. do 2 f_equal. rewrite skipn_app, repeat_length, HV1, Nat.sub_diag. cbn [skipn].
        rewrite skipn_all2 by (rewrite repeat_length; lia). reflexivity. }
    destruct (IH ds (done ++ [(s, ix)]) f1 f' (fun k => pre k ++ match dget d k with Some v => v | None => [] end)) as (g & -> & S2 & G1 & G2).
    + rewrite <- app_assoc. reflexivity.
    + rewrite <- app_assoc. exact ND.
    + cbn in EL. lia.
    + intros d' Hd'. apply HK. right. exact Hd'.
    + exact HV2.
    + intros k Hk. destruct (Hd k Hk) as [v Iv]. assert (Ev : dget d k = Some v).
      { destruct (proj1 (dget_dkeys d k)) as [u Eu]; [rewrite Kd; exact Hk|]. rewrite Eu. f_equal. apply dget_In in Eu. rewrite <- Kd in HN. unfold dkeys in HN. clear -HN Iv Eu.
        induction d as [|[a b] d IHd]; [destruct Iv|]. cbn [map fst] in HN. inversion HN as [|? ? N1 N2]; subst.
        destruct Iv as [Iv|Iv]; destruct Eu as [Eu|Eu]; [congruence| | |exact (IHd N2 Iv Eu)]; exfalso; apply N1; [inversion Iv; subst; apply in_map with (f := fst) in Eu; exact Eu|inversion Eu; subst; apply in_map with (f := fst) in Iv; exact Iv]. }
      rewrite Ev. destruct (Hcol k v Iv) as [C1 C2]. rewrite C2, <- app_assoc. split; [|reflexivity]. rewrite blocks_app, !app_length. destruct (HP k Hk) as [-> _]. cbn. rewrite app_length, map_length, C1. cbn. lia.
    + exact E.
    + exists g. split; [reflexivity|]. split; [eapply same_trans; eassumption|]. split.
      * intros k Hk. rewrite G1 by exact Hk. apply P2. rewrite Kd. exact Hk.
      * intros k Hk. destruct (G2 k Hk) as (vs & F & Eg). destruct (Hd k Hk) as [v Iv]. destruct (proj1 (dget_dkeys d k)) as [u Eu]; [rewrite Kd; exact Hk|]. rewrite Eu in Eg.
        exists (u :: vs). split; [constructor; [apply dget_In; exact Eu|exact F]|]. rewrite Eg, <- app_assoc. reflexivity.
Qed.

(** ** The operations on one file *)
Lemma gen_add_mid (A : meta -> string -> exc (nat -> list (exc (nat * lop)))) (Q : meta -> string -> dict (list R) -> Prop) sim n i :
  (forall m k G j, A m k = Ok G -> j <> i -> ops_of i (G j) = []) ->
  (forall m k G, A m k = Ok G -> Forall isok (G i) -> exists d, ops_of i (G i) = put_ops sim (m_index m, d) /\ Q m k d) ->
  i < n -> forall ks use, Forall isok (flat_map (fun m => flat_map (fun k => match A m k with Raise e => [Raise e] | Ok G => flat_map G (seq 0 n) end) ks) use) ->
  exists ds, Forall2 (fun m d => exists dd, d = concat dd /\ Forall2 (Q m) ks dd) use ds /\
    ops_of i (flat_map (fun m => flat_map (fun k => match A m k with Raise e => [Raise e] | Ok G => flat_map G (seq 0 n) end) ks) use) =
    flat_map (put_ops sim) (combine (map m_index use) ds).
Proof.
  intros HO HI Li ks use.
  assert (Inner : forall m ks, Forall isok (flat_map (fun k => match A m k with Raise e => [Raise e] | Ok G => flat_map G (seq 0 n) end) ks) ->
    exists dd, Forall2 (Q m) ks dd /\ ops_of i (flat_map (fun k => match A m k with Raise e => [Raise e] | Ok G => flat_map G (seq 0 n) end) ks) = put_ops sim (m_index m, concat dd)).
  { intros m. induction ks0 as [|k ks0 IH]; cbn [flat_map]; intros H; [exists []; split; [constructor|reflexivity]|].
    apply Forall_app in H. destruct H as [H1 H2]. destruct (IH H2) as (dd & F & E). destruct (A m k) as [G|e] eqn:EA; [|inversion H1 as [|? ? [o C] _]; discriminate].
    assert (HG : Forall isok (G i)) by (apply (Forall_flat_in _ _ _ H1); apply in_seq; lia). destruct (HI m k G EA HG) as (d & E1 & Hq).
    exists (d :: dd). split; [constructor; assumption|]. rewrite ops_app, E, ops_flat, (flat_pick _ i n) by (first [intros j Hj; apply (HO m k G j EA Hj)|exact Li]).
    rewrite E1. unfold put_ops. cbn [fst snd concat]. rewrite map_app. reflexivity. }
  induction use as [|m use IH]; cbn [flat_map]; intros H; [exists []; split; [constructor|reflexivity]|].
  apply Forall_app in H. destruct H as [H1 H2]. destruct (IH H2) as (ds & F & E). destruct (Inner m ks H1) as (dd & F1 & E1).
  exists (concat dd :: ds). split; [constructor; [exists dd; split; [reflexivity|exact F1]|exact F]|]. rewrite ops_app, E, E1. reflexivity.
Qed.
Lemma add_head_ok w n ks i : Forall isok (add_head w n ks) -> i < n -> exists f, w i = Some f /\ ops_of i (add_head w n ks) = LExtra true false :: map (fun k => LAdd k (length (lf_sim f))) ks.
Proof.
  unfold add_head. intros H Li. pose proof (Forall_flat_in _ _ _ H i ltac:(apply in_seq; lia)) as Hi. cbv beta in Hi. destruct (w i) as [f|] eqn:Ef; [|inversion Hi as [|? ? [o C] _]; discriminate].
  exists f. split; [reflexivity|]. rewrite ops_flat, (flat_pick _ i n).
  - rewrite Ef. rewrite <- (map_map (fun k => LAdd k (length (lf_sim f))) (fun o => Ok (i, o) : exc (nat * lop))).
    apply (ops_map_i i (LExtra true false :: map (fun k => LAdd k (length (lf_sim f))) ks)).
  - intros j Hj. destruct (w j) as [g|]; [|reflexivity]. rewrite <- (map_map (fun k => LAdd k (length (lf_sim g))) (fun o => Ok (j, o) : exc (nat * lop))).
    apply (ops_map_j i j (LExtra true false :: map (fun k => LAdd k (length (lf_sim g))) ks) Hj).
  - exact Li.
Qed.
Lemma add_tail_ops n i : i < n -> ops_of i (add_tail n) = [LExtra true true].
Proof.
  intros L. unfold add_tail, ops_of. rewrite flat_map_concat_map, map_map, <- flat_map_concat_map. rewrite (flat_pick _ i n); [cbn; rewrite Nat.eqb_refl; reflexivity| |exact L].
  intros j Hj. cbn. destruct (Nat.eqb_spec j i); [congruence|reflexivity].
Qed.
Lemma extra_inv b d f f' : lapply (LExtra b d) f = Ok f' -> lf_full f' = lf_full f /\ lf_extra f' = b /\ lf_done f' = d /\
  lf_finished f' = lf_finished f /\ lf_status f' = lf_status f /\ lf_pt f' = lf_pt f /\ lf_red f' = lf_red f /\ lf_basic f' = lf_basic f /\ lf_sim f' = lf_sim f.
Proof. destruct f. cbn. intros H. inversion H. cbn. repeat split. Qed.

Lemma add_file f o cols use ds : grouped (lf_sim f) use ->
  Forall2 (fun m d => dkeys d = cols /\ forall k v, In (k, v) d -> length v = length (snap_rows (lf_sim f) (m_index m))) use ds ->
  frun (Some f) ((LExtra true false :: map (fun k => LAdd k (length (lf_sim f))) cols) ++ flat_map (put_ops (lf_sim f)) (combine (map m_index use) ds) ++ [LExtra true true]) = Ok o ->
  exists f', o = Some f' /\ only_added cols f f' /\ NoDup cols /\ (forall k, In k cols -> dget (lf_full f) k = None) /\
    forall k, In k cols -> exists vs, Forall2 (fun d v => In (k, v) d) ds vs /\ dget (lf_full f') k = Some (concat vs).
Proof.
  intros HG HD E. destruct (grouped_blocks _ _ HG) as (ixs & L & ES & N). pose proof (Forall2_length_ _ _ _ HD) as LD.
  rewrite <- app_comm_cons in E. apply frun_cons in E; [|discriminate]. destruct E as (f1 & E1 & E). apply extra_inv in E1. destruct E1 as (X1 & _ & _ & X2 & X3 & X4 & X5 & X6 & X7).
  rewrite frun_app in E. destruct (frun (Some f1) _) as [o2|] eqn:E2 in E; cbn [bind] in E; [|discriminate]. apply adds_run in E2. destruct E2 as (f2 & -> & NC & (Y1 & Y2 & Y3 & Y4 & Y5 & Y6 & Y7 & Y8) & Z1 & Z2).
  rewrite frun_app in E. destruct (frun (Some f2) _) as [o3|] eqn:E3 in E; cbn [bind] in E; [|discriminate].
  assert (EC : map fst (combine (map m_index use) ixs) = map m_index use).
  { clear -L. revert ixs L. induction use as [|m use IH]; intros [|ix ixs] L; cbn; try discriminate; [reflexivity|]. f_equal. apply IH. cbn in L. lia. }
  assert (HB : length (combine (map m_index use) ixs) = length use) by (rewrite combine_length, map_length; lia).
  destruct (blocks_run (lf_sim f) cols NC (combine (map m_index use) ixs) ds [] f2 o3 (fun _ => [])) as (f3 & -> & (W1 & W2 & W3 & W4 & W5 & W6 & W7 & W8) & G1 & G2).
  - exact ES.
  - cbn [app]. rewrite EC. exact N.
  - lia.
  - intros d Hd. destruct (Forall2_in_r _ _ _ _ HD Hd) as (m & _ & H & _). exact H.
  - assert (SR : forall a s ix b, combine (map m_index use) ixs = a ++ (s, ix) :: b -> snap_rows (lf_sim f) s = ix).
    { intros a s ix b H. rewrite ES, H. apply snap_rows_block. rewrite <- H, EC. exact N. }
    assert (Gen : forall us is a, combine (map m_index use) ixs = a ++ combine (map m_index us) is -> length is = length us -> forall dd : list (dict (list R)),
      Forall2 (fun m d => dkeys d = cols /\ forall k v, In (k, v) d -> length v = length (snap_rows (lf_sim f) (m_index m))) us dd ->
      Forall2 (fun (g : Z * list nat) (d : dict (list R)) => forall k v, In (k, v) d -> length v = length (snd g)) (combine (map m_index us) is) dd).
    { induction us as [|m us IH]; intros [|ix is] a H Ll dd HF; try discriminate; inversion HF as [|? d ? dd' [_ F1] F2]; subst; cbn [map combine]; constructor.
      - intros k v I. cbn [snd]. rewrite (F1 k v I). cbn [map combine] in H. rewrite (SR _ _ _ _ H). reflexivity.
      - apply (IH is (a ++ [(m_index m, ix)])); [rewrite <- app_assoc; exact H|cbn in Ll; lia|exact F2]. }
    apply (Gen use ixs [] eq_refl L ds HD).
  - intros k Hk. split; [reflexivity|]. cbn [app]. destruct (Z1 k Hk) as [_ ->]. rewrite ES. reflexivity.
  - rewrite EC. exact E3.
  - apply frun_cons in E; [|discriminate]. destruct E as (f4 & E4 & E). cbn in E. inversion E. apply extra_inv in E4. destruct E4 as (V1 & V2 & V3 & V4 & V5 & V6 & V7 & V8 & V9).
    exists f4. split; [reflexivity|]. split; [|split; [exact NC|split]].
    + unfold only_added. repeat (split; [congruence|]). intros k Hk. rewrite V1, G1, Z2, X1 by exact Hk. reflexivity.
    + intros k Hk. rewrite <- X1. apply Z1, Hk.
    + intros k Hk. destruct (G2 k Hk) as (vs & F & Eg). exists vs. split; [exact F|]. rewrite V1, Eg. reflexivity.
Qed.
Lemma add_steps_shape sv use n keys all w f0 : w 0 = Some f0 -> add_steps sv use n keys all w =
  add_head w n (add_keys keys (dkeys (lf_full f0)) all) ++
  flat_map (fun m => flat_map (fun k => match (do vals <- sv (m_index m) k ;; Ok (fun i => [match w i with
      | None => Raise OSError
      | Some f => do v <- take_vals vals (snap_rows (lf_sim f) (m_index m)) ;; Ok (i, LPut k (snap_start (lf_sim f) (m_index m)) v)
      end])) with Raise e => [Raise e] | Ok G => flat_map G (seq 0 n) end) (add_keys keys (dkeys (lf_full f0)) all)) use ++ add_tail n.
Proof.
  intros E. unfold add_steps. rewrite E. f_equal. f_equal. apply flat_map_ext_. intros m. apply flat_map_ext_. intros k. destruct (sv (m_index m) k) as [vals|e]; cbn [bind]; [|reflexivity].
  generalize (seq 0 n) as l. induction l as [|i l IH]; cbn; [reflexivity|]. rewrite IH. reflexivity.
Qed.
Lemma insert_str_in k l x : In x (insert_str k l) <-> x = k \/ In x l.
Proof. induction l as [|a l IH]; cbn; [intuition|]. destruct (String.leb k a); cbn; [intuition|]. rewrite IH. intuition. Qed.
Lemma sort_str_in l x : In x (sort_str l) <-> In x l.
Proof. unfold sort_str. induction l as [|a l IH]; cbn; [tauto|]. rewrite insert_str_in, IH. intuition. Qed.
Lemma add_keys_in keys old all k : In k (add_keys keys old all) <-> In k keys /\ ~ In k pos_keys /\ ~ In k old /\ (In k all \/ k = "masscheck").
Proof.
  unfold add_keys. rewrite sort_str_in, filter_In, !andb_true_iff, orb_true_iff, !negb_true_iff, !smem_false, smem_In, String.eqb_eq. tauto.
Qed.
Lemma take_vals_fwd vals ix v : take_vals vals ix = Ok v -> Forall2 (fun i x => nth_error vals i = Some x) ix v.
Proof. unfold take_vals. intros H. apply mapM_fwd in H. eapply Forall2_imp; [|exact H]. intros i x E. cbn in E. destruct (nth_error vals i); inversion E. reflexivity. Qed.
Lemma Forall2_map_l {A B C} (P : C -> B -> Prop) (f : A -> C) l r : Forall2 (fun a b => P (f a) b) l r -> Forall2 P (map f l) r.
Proof. intros H. induction H; cbn; constructor; assumption. Qed.
Lemma blocks_values (P : Z * nat -> R -> Prop) sim use (ds : list (dict (list R))) (vs : list (list R)) (k : string) : grouped sim use ->
  Forall2 (fun m d => forall v, In (k, v) d -> Forall2 (fun i x => P (m_index m, i) x) (snap_rows sim (m_index m)) v) use ds ->
  Forall2 (fun d v => In (k, v) d) ds vs -> Forall2 P sim (concat vs).
Proof.
  intros HG HD HV. destruct (grouped_blocks _ _ HG) as (ixs & L & ES & N).
  assert (EC : map fst (combine (map m_index use) ixs) = map m_index use).
  { clear -L. revert ixs L. induction use as [|m use IH]; intros [|ix ixs] L; cbn; try discriminate; [reflexivity|]. f_equal. apply IH. cbn in L. lia. }
  assert (SR : forall a s ix b, combine (map m_index use) ixs = a ++ (s, ix) :: b -> snap_rows sim s = ix).
  { intros a s ix b H. rewrite ES, H. apply snap_rows_block. rewrite <- H, EC. exact N. }
  assert (Gen : forall us is a, combine (map m_index use) ixs = a ++ combine (map m_index us) is -> length is = length us -> forall (dd : list (dict (list R))) (ww : list (list R)),
    Forall2 (fun m d => forall v, In (k, v) d -> Forall2 (fun i x => P (m_index m, i) x) (snap_rows sim (m_index m)) v) us dd ->
    Forall2 (fun d v => In (k, v) d) dd ww -> Forall2 P (blocks (combine (map m_index us) is)) (concat ww)).
  { induction us as [|m us IH]; intros [|ix is] a H Ll dd ww HF HW; try discriminate.
    - inversion HF; subst. inversion HW; subst. constructor.
    - inversion HF as [|? d ? dd' F1 F2]; subst. inversion HW as [|? v ? ww' W1 W2]; subst. cbn [map combine concat]. cbn [map combine] in H.
      change (blocks ((m_index m, ix) :: combine (map m_index us) is)) with (map (pair (m_index m)) ix ++ blocks (combine (map m_index us) is)). apply Forall2_app.
      + apply Forall2_map_l. specialize (F1 v W1). rewrite (SR _ _ _ _ H) in F1. exact F1.
      + apply (IH is (a ++ [(m_index m, ix)])) with (dd := dd'); [rewrite <- app_assoc; exact H|cbn in Ll; lia|exact F2|exact W2]. }
  rewrite ES. apply (Gen use ixs [] eq_refl L ds vs HD HV).
Qed.
Lemma Forall2_len {A B} (P : A -> B -> Prop) l r : Forall2 P l r -> length l = length r.
Proof. intros H. induction H; cbn; congruence. Qed.
