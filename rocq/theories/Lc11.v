(** Proofs about light-cone files: added properties (C45, C61). *)
From Coq Require Import Reals Permutation Sorted.
From Verif Require Import Dict Util RealUtil SnapModel SnapSpec Snap FormatModel FormatSpec Format LcModel LcSpec Lc Lc2 Lc3 Lc4 Lc5 Lc7 Lc8 Lc9.
From Coq Require Import Lra Lia.
Open Scope string_scope.
Open Scope list_scope.
Open Scope nat_scope.

(** ** One file through a run, or part of one *)
Definition gmid (A : meta -> string -> exc (nat -> list (exc (nat * lop)))) (ks : list string) (use : list meta) (n : nat) : list (exc (nat * lop)) :=
  flat_map (fun m => flat_map (fun k => match A m k with Raise e => [Raise e] | Ok G => flat_map G (seq 0 n) end) ks) use.
Definition gsteps A w n cols ks use := add_head w n cols ++ gmid A ks use n ++ add_tail n.
Definition quiet (o : lop) : Prop := match o with LAdd _ _ | LPut _ _ _ => True | _ => False end.
Lemma quiet_run l : Forall quiet l -> forall f o, frun (Some f) l = Ok o -> exists g, o = Some g /\ lf_done g = lf_done f.
Proof.
  induction l as [|a l IH]; intros HF f o E; [cbn in E; inversion E; exists f; auto|]. inversion HF as [|? ? Ha HF']; subst.
  apply frun_cons in E; [|destruct a; try discriminate; destruct Ha]. destruct E as (f1 & E1 & E2). destruct (IH HF' _ _ E2) as (g & -> & Hg). exists g. split; [reflexivity|]. rewrite Hg.
  destruct a; try destruct Ha; [apply add_inv in E1; destruct E1 as (_ & _ & H)|apply put_inv in E1; destruct E1 as (old & _ & _ & _ & H)]; apply H.
Qed.
Section Add.
Context (A : meta -> string -> exc (nat -> list (exc (nat * lop)))) (w : lcworld) (n i : nat) (cols ks : list string) (use : list meta) (f : lcfile)
  (Q : meta -> string -> dict (list R) -> Prop) (colsof : string -> list string)
  (Ef : w i = Some f) (Li : i < n) (HG : grouped (lf_sim f) use)
  (HO : forall m k G j, A m k = Ok G -> j <> i -> ops_of i (G j) = [])
  (HI : forall m k G, A m k = Ok G -> Forall isok (G i) -> exists d, ops_of i (G i) = put_ops (lf_sim f) (m_index m, d) /\ Q m k d)
  (HQt : forall m k G o, A m k = Ok G -> In o (ops_of i (G i)) -> quiet o)
  (HQ : forall m k d, Q m k d -> dkeys d = colsof k /\ forall c v, In (c, v) d -> length v = length (snap_rows (lf_sim f) (m_index m)))
  (HC : cols = flat_map colsof ks).
Definition add_result (f' : lcfile) : Prop :=
  only_added cols f f' /\ NoDup cols /\ (forall k, In k cols -> dget (lf_full f) k = None) /\
  exists ds, Forall2 (fun m d => exists dd, d = concat dd /\ Forall2 (Q m) ks dd) use ds /\
    forall c, In c cols -> exists vs, Forall2 (fun d v => In (c, v) d) ds vs /\ dget (lf_full f') c = Some (concat vs).
Lemma add_core o : Forall isok (gmid A ks use n) ->
  frun (Some f) ((LExtra true false :: map (fun k => LAdd k (length (lf_sim f))) cols) ++ ops_of i (gmid A ks use n) ++ [LExtra true true]) = Ok o ->
  exists f', o = Some f' /\ add_result f'.
Proof.
  intros HM E. destruct (gen_add_mid A Q (lf_sim f) n i HO HI Li ks use HM) as (ds & HD & EM). unfold gmid in E. rewrite EM in E.
  destruct (add_file f o cols use ds HG) as (f' & -> & HA & HN & HNo & HV).
  - eapply Forall2_imp; [|exact HD]. intros m d (dd & -> & F). rewrite HC. clear -F HQ. induction F as [|k d ks dd Hq F (IH1 & IH2)]; [split; [reflexivity|intros k v []]|].
    destruct (HQ m k d Hq) as [Q1 Q2]. cbn [concat flat_map]. split; [unfold dkeys in *; rewrite map_app, Q1, IH1; reflexivity|].
    intros c v I. apply in_app_or in I. destruct I as [I|I]; [apply (Q2 c v I)|apply (IH2 c v I)].
  - exact E.
  - exists f'. split; [reflexivity|]. split; [exact HA|]. split; [exact HN|]. split; [exact HNo|]. exists ds. split; [exact HD|exact HV].
Qed.
Lemma add_full w' : lexec w (gsteps A w n cols ks use) = (w', Ok tt) -> exists f', w' i = Some f' /\ add_result f'.
Proof.
  intros E. destruct (lexec_ok _ _ _ E) as [HP HF]. specialize (HP i). unfold gsteps in *. apply Forall_app in HF. destruct HF as [HF1 HF]. apply Forall_app in HF. destruct HF as [HF2 _].
  destruct (add_head_ok _ _ _ i HF1 Li) as (f1 & Ef1 & EH). rewrite Ef in Ef1. inversion Ef1; subst f1.
  rewrite !ops_app, EH, (add_tail_ops _ _ Li), Ef in HP. apply (add_core _ HF2 HP).
Qed.
Lemma mid_quiet : Forall quiet (ops_of i (gmid A ks use n)).
Proof.
  unfold gmid. rewrite ops_flat. apply Forall_flat. intros m _. rewrite ops_flat. apply Forall_flat. intros k _. destruct (A m k) as [G|e] eqn:EA; [|constructor].
  rewrite ops_flat, (flat_pick _ i n) by (first [intros j Hj; apply (HO m k G j EA Hj)|exact Li]). apply Forall_forall. intros o Ho. apply (HQt m k G o EA Ho).
Qed.
Lemma head_at : exists r, ops_of i (add_head w n cols) = LExtra true false :: r /\ Forall quiet r.
Proof.
  exists (map (fun k => LAdd k (length (lf_sim f))) cols). split; [|apply Forall_forall; intros o Ho; apply in_map_iff in Ho; destruct Ho as (k & <- & _); exact I].
  unfold add_head. rewrite ops_flat, (flat_pick _ i n).
  - rewrite Ef. rewrite <- (map_map (fun k => LAdd k (length (lf_sim f))) (fun o => Ok (i, o) : exc (nat * lop))).
    apply (ops_map_i i (LExtra true false :: map (fun k => LAdd k (length (lf_sim f))) cols)).
  - intros j Hj. destruct (w j) as [g|]; [|reflexivity]. rewrite <- (map_map (fun k => LAdd k (length (lf_sim g))) (fun o => Ok (j, o) : exc (nat * lop))).
    apply (ops_map_j i j (LExtra true false :: map (fun k => LAdd k (length (lf_sim g))) cols) Hj).
  - exact Li.
Qed.
Lemma add_crash l w' r g : lexec w (firstn l (gsteps A w n cols ks use)) = (w', r) -> w' i = Some g -> lf_done g = true -> g = f \/ add_result g.
Proof.
  intros E Eg Hd. destruct (lexec_proj _ _ _ _ E) as (k0 & _ & HP & HF & _). specialize (HP i). rewrite firstn_firstn in HP, HF.
  set (k := Nat.min k0 l) in *. clearbody k. clear E. rewrite Ef, Eg in HP. destruct head_at as (r0 & EH & Hr0).
  assert (Stop : forall j, frun (Some f) (firstn j (LExtra true false :: r0 ++ ops_of i (gmid A ks use n))) = Ok (Some g) -> g = f).
  { intros [|j] H; [cbn in H; congruence|]. exfalso. cbn [firstn] in H. apply frun_cons in H; [|discriminate]. destruct H as (f1 & E1 & E2). apply extra_inv in E1. destruct E1 as (_ & _ & E1 & _).
    apply quiet_run in E2; [destruct E2 as (g' & Eg' & Hg'); inversion Eg'; subst; congruence|]. apply Forall_firstn, Forall_app. split; [exact Hr0|apply mid_quiet]. }
  unfold gsteps in HP, HF. rewrite app_assoc in HP, HF. rewrite firstn_app in HP, HF. rewrite ops_app in HP. apply Forall_app in HF. destruct HF as [HF _].
  set (HM := add_head w n cols ++ gmid A ks use n) in *.
  destruct (Nat.le_gt_cases (length HM) k) as [Lk|Lk].
  - rewrite (firstn_all2 HM) in HP, HF by exact Lk. apply Forall_app in HF. destruct HF as [HF1 HF2].
    destruct (ops_prefix i (k - length HM) (add_tail n)) as [j Ej]. rewrite Ej, (add_tail_ops _ _ Li) in HP.
    unfold HM in HP. rewrite ops_app in HP. destruct j as [|j].
    + left. cbn [firstn] in HP. rewrite app_nil_r in HP. apply (Stop (length (LExtra true false :: r0 ++ ops_of i (gmid A ks use n)))). rewrite firstn_all, app_comm_cons, <- EH. exact HP.
    + right. cbn [firstn] in HP. rewrite firstn_nil in HP. destruct (add_head_ok _ _ _ i HF1 Li) as (f1 & Ef1 & EH1). rewrite Ef in Ef1. inversion Ef1; subst f1. rewrite EH1, <- app_assoc in HP.
      destruct (add_core _ HF2 HP) as (f' & Ef' & HR). inversion Ef'; subst. exact HR.
  - left. replace (k - length HM) with 0 in HP by lia. cbn [firstn] in HP. unfold ops_of at 2 in HP. cbn [flat_map] in HP. rewrite app_nil_r in HP.
    destruct (ops_prefix i k HM) as [j Ej]. rewrite Ej in HP. unfold HM in HP. rewrite ops_app, EH in HP. apply (Stop j). exact HP.
Qed.
End Add.

(** ** Scalars *)
Definition addA (sv : Z -> string -> exc (list R)) (w : lcworld) : meta -> string -> exc (nat -> list (exc (nat * lop))) :=
  fun m k => do vals <- sv (m_index m) k ;; Ok (fun i : nat => [match w i with
      | None => Raise OSError | Some f => do v <- take_vals vals (snap_rows (lf_sim f) (m_index m)) ;; Ok (i, LPut k (snap_start (lf_sim f) (m_index m)) v) end]).
Definition addQ (sv : Z -> string -> exc (list R)) (f : lcfile) (m : meta) (k : string) (d : dict (list R)) : Prop :=
  exists vals v, sv (m_index m) k = Ok vals /\ take_vals vals (snap_rows (lf_sim f) (m_index m)) = Ok v /\ d = [(k, v)].
Lemma add_steps_gen sv use n keys all w f0 : w 0 = Some f0 -> add_steps sv use n keys all w =
  gsteps (addA sv w) w n (add_keys keys (dkeys (lf_full f0)) all) (add_keys keys (dkeys (lf_full f0)) all) use.
Proof. intros E. rewrite (add_steps_shape _ _ _ _ _ _ _ E). reflexivity. Qed.
Lemma addA_other sv w i m k G j : addA sv w m k = Ok G -> j <> i -> ops_of i (G j) = [].
Proof.
  intros EG Hj. unfold addA in EG. destruct (sv (m_index m) k) as [vals|]; cbn [bind] in EG; [|discriminate]. inversion EG; subst G.
  destruct (w j) as [g|]; [|reflexivity]. destruct (take_vals _ _) as [v|]; [|reflexivity]. cbn. destruct (Nat.eqb_spec j i); [congruence|reflexivity].
Qed.
Lemma addA_here sv w i f m k G : w i = Some f -> addA sv w m k = Ok G -> Forall isok (G i) -> exists d, ops_of i (G i) = put_ops (lf_sim f) (m_index m, d) /\ addQ sv f m k d.
Proof.
  intros Ef EG HI. unfold addA in EG. destruct (sv (m_index m) k) as [vals|] eqn:Es; cbn [bind] in EG; [|discriminate]. inversion EG; subst G. rewrite Ef in *.
  destruct (take_vals vals (snap_rows (lf_sim f) (m_index m))) as [v|] eqn:Et; [|inversion HI as [|? ? [o C] _]; discriminate].
  exists [(k, v)]. split; [cbn; rewrite Nat.eqb_refl; reflexivity|]. exists vals, v. auto.
Qed.
Lemma addA_quiet sv w i m k G o : addA sv w m k = Ok G -> In o (ops_of i (G i)) -> quiet o.
Proof.
  intros EG. unfold addA in EG. destruct (sv (m_index m) k) as [vals|] eqn:Es; cbn [bind] in EG; [|discriminate]. inversion EG; subst G.
  destruct (w i) as [g|]; [|intros []]. destruct (take_vals _ _) as [v|]; [|intros []]. cbn. rewrite Nat.eqb_refl. cbn. intros [<-|[]]. exact I.
Qed.
Lemma addQ_len sv f m k d : addQ sv f m k d -> dkeys d = [k] /\ forall c v, In (c, v) d -> length v = length (snap_rows (lf_sim f) (m_index m)).
Proof.
  intros (vals & v & _ & Et & ->). split; [reflexivity|]. intros c u [I|[]]. inversion I; subst. apply take_vals_fwd in Et. symmetry. apply (Forall2_len _ _ _ Et).
Qed.
Lemma flat_single {A} (l : list A) : l = flat_map (fun x => [x]) l.
Proof. induction l as [|a l IH]; cbn; [reflexivity|]. f_equal. exact IH. Qed.
Lemma add_result_added sv use f ks f' : grouped (lf_sim f) use -> add_result ks ks use f (addQ sv f) f' -> added sv ks f f' /\ NoDup ks.
Proof.
  intros HG (HA & HN & HNo & ds & HD & HV). split; [|exact HN]. split; [exact HA|]. intros k Hk. split; [apply HNo, Hk|]. destruct (HV k Hk) as (vs & F & Eg). exists (concat vs). split; [exact Eg|].
  apply (blocks_values (value_of sv k) (lf_sim f) use ds vs k HG); [|exact F]. eapply Forall2_imp; [|exact HD]. intros m d (dd & -> & FF) v I.
  apply in_concat in I. destruct I as (d & Id & I). destruct (Forall2_in_r _ _ _ _ FF Id) as (k' & _ & vals & v' & E1 & Et & ->). destruct I as [I|[]]. inversion I; subst.
  apply take_vals_fwd in Et. eapply Forall2_imp; [|exact Et]. intros j x Hx. exists vals. split; [exact E1|exact Hx].
Qed.
Lemma c45 sv use n keys all w w' f0 : lexec w (add_steps sv use n keys all w) = (w', Ok tt) -> w 0 = Some f0 ->
  forall i f, i < n -> w i = Some f -> grouped (lf_sim f) use -> exists f', w' i = Some f' /\ added sv (add_keys keys (dkeys (lf_full f0)) all) f f' /\ NoDup (add_keys keys (dkeys (lf_full f0)) all).
Proof.
  intros E E0 i f Li Ef HG. rewrite (add_steps_gen _ _ _ _ _ _ _ E0) in E. set (ks := add_keys keys (dkeys (lf_full f0)) all) in *.
  destruct (add_full (addA sv w) w n i ks ks use f (addQ sv f) (fun k => [k]) Ef Li HG) with (w' := w') as (f' & E' & HR).
  - intros; eapply addA_other; eassumption.
  - intros; eapply addA_here; eassumption.
  - apply addQ_len.
  - apply flat_single.
  - exact E.
  - exists f'. split; [exact E'|]. apply add_result_added with (1 := HG) (2 := HR).
Qed.
Lemma c61 sv use n keys all w l w' r f0 : lexec w (firstn l (add_steps sv use n keys all w)) = (w', r) -> w 0 = Some f0 ->
  forall i f g, i < n -> w i = Some f -> grouped (lf_sim f) use -> w' i = Some g -> lf_done g = true -> g = f \/ added sv (add_keys keys (dkeys (lf_full f0)) all) f g.
Proof.
  intros E E0 i f g Li Ef HG Eg Hd. rewrite (add_steps_gen _ _ _ _ _ _ _ E0) in E. set (ks := add_keys keys (dkeys (lf_full f0)) all) in *.
  destruct (add_crash (addA sv w) w n i ks ks use f (addQ sv f) (fun k => [k]) Ef Li HG) with (l := l) (w' := w') (r := r) (g := g) as [H|HR].
  - intros; eapply addA_other; eassumption.
  - intros; eapply addA_here; eassumption.
  - intros; eapply addA_quiet; eassumption.
  - apply addQ_len.
  - apply flat_single.
  - exact E.
  - exact Eg.
  - exact Hd.
  - left. exact H.
  - right. apply add_result_added with (1 := HG) (2 := HR).
Qed.

(** ** Vectors *)
Definition vecA (sv : Z -> string -> exc (list vec)) (w : lcworld) : meta -> string -> exc (nat -> list (exc (nat * lop))) :=
  fun m k => match sv (m_index m) k with Raise e => Raise e | Ok vals => Ok (fun i : nat => match w i with
            | None => [Raise OSError]
            | Some f =>
                match mapM (fun j => match nth_error vals j with Some x => Ok x | None => Raise IndexError end) (snap_rows (lf_sim f) (m_index m)), lf_pt f with
                | Raise e, _ => [Raise e]
                | _, None => [Raise KeyError]
                | Ok v, Some p =>
                    let u := map (rotate_prop p) v in
                    let o := snap_start (lf_sim f) (m_index m) in
                    [Ok (i, LPut (k ++ "_x")%string o (map vx u)); Ok (i, LPut (k ++ "_y")%string o (map vy u));
                     Ok (i, LPut (k ++ "_z")%string o (map vz u))]
                end
            end) end.
Definition vecQ (sv : Z -> string -> exc (list vec)) (f : lcfile) (m : meta) (k : string) (d : dict (list R)) : Prop :=
  exists vals v p, lf_pt f = Some p /\ sv (m_index m) k = Ok vals /\ Forall2 (fun j x => nth_error vals j = Some x) (snap_rows (lf_sim f) (m_index m)) v /\
    d = [((k ++ "_x")%string, map vx (map (rotate_prop p) v)); ((k ++ "_y")%string, map vy (map (rotate_prop p) v)); ((k ++ "_z")%string, map vz (map (rotate_prop p) v))].
Lemma addpos_gen sv use n keys all w f0 : w 0 = Some f0 -> addpos_steps sv use n keys all w =
  gsteps (vecA sv w) w n (flat_map subkeys (addpos_keys keys (dkeys (lf_full f0)) all)) (addpos_keys keys (dkeys (lf_full f0)) all) use.
Proof.
  intros E. unfold addpos_steps. rewrite E. unfold gsteps, gmid. f_equal. f_equal. apply flat_map_ext_. intros m. apply flat_map_ext_. intros k. unfold vecA. destruct (sv (m_index m) k); reflexivity.
Qed.
Lemma vecA_other sv w i m k G j : vecA sv w m k = Ok G -> j <> i -> ops_of i (G j) = [].
Proof.
  intros EG Hj. unfold vecA in EG. destruct (sv (m_index m) k) as [vals|]; [|discriminate]. inversion EG; subst G.
  destruct (w j) as [g|]; [|reflexivity]. destruct (mapM _ _) as [v|]; [|reflexivity]. destruct (lf_pt g); [|reflexivity]. cbn. destruct (Nat.eqb_spec j i); [congruence|reflexivity].
Qed.
Lemma vecA_here sv w i f m k G : w i = Some f -> vecA sv w m k = Ok G -> Forall isok (G i) -> exists d, ops_of i (G i) = put_ops (lf_sim f) (m_index m, d) /\ vecQ sv f m k d.
Proof.
  intros Ef EG HI. unfold vecA in EG. destruct (sv (m_index m) k) as [vals|] eqn:Es; [|discriminate]. inversion EG; subst G. rewrite Ef in *.
  destruct (mapM _ _) as [v|] eqn:Et; [|inversion HI as [|? ? [o C] _]; discriminate]. destruct (lf_pt f) as [p|] eqn:Ep; [|inversion HI as [|? ? [o C] _]; discriminate].
  exists [((k ++ "_x")%string, map vx (map (rotate_prop p) v)); ((k ++ "_y")%string, map vy (map (rotate_prop p) v)); ((k ++ "_z")%string, map vz (map (rotate_prop p) v))].
  split; [cbn [ops_of flat_map op_of fst snd]; rewrite Nat.eqb_refl; reflexivity|]. exists vals, v, p. split; [exact Ep|]. split; [exact Es|]. split; [|reflexivity].
  apply mapM_fwd in Et. eapply Forall2_imp; [|exact Et]. intros j x E. cbn in E. destruct (nth_error vals j); inversion E. reflexivity.
Qed.
Lemma vecA_quiet sv w i m k G o : vecA sv w m k = Ok G -> In o (ops_of i (G i)) -> quiet o.
Proof.
  intros EG. unfold vecA in EG. destruct (sv (m_index m) k) as [vals|] eqn:Es; [|discriminate]. inversion EG; subst G.
  destruct (w i) as [g|]; [|intros []]. destruct (mapM _ _) as [v|]; [|intros []]. destruct (lf_pt g); [|intros []]. cbn [ops_of flat_map op_of fst snd]. rewrite Nat.eqb_refl. cbn. intros [<-|[<-|[<-|[]]]]; exact I.
Qed.
Lemma vecQ_len sv f m k d : vecQ sv f m k d -> dkeys d = subkeys k /\ forall c v, In (c, v) d -> length v = length (snap_rows (lf_sim f) (m_index m)).
Proof.
  intros (vals & v & p & _ & _ & Et & ->). split; [reflexivity|]. apply Forall2_len in Et. intros c u [I|[I|[I|[]]]]; inversion I; subst; rewrite !map_length; congruence.
Qed.
Lemma app_suffix a : forall b c d, String.length c = String.length d -> (a ++ c = b ++ d)%string -> a = b /\ c = d.
Proof.
  assert (LA : forall x y, String.length (x ++ y) = String.length x + String.length y) by (induction x; intros; cbn; [reflexivity|rewrite IHx; reflexivity]).
  induction a as [|x a IH]; intros [|y b] c d L E; cbn in E.
  - auto.
  - exfalso. subst c. cbn in L. rewrite LA in L. lia.
  - exfalso. subst d. cbn in L. rewrite LA in L. lia.
  - inversion E. destruct (IH b c d L H1). subst. auto.
Qed.
Lemma Forall2_map_r {A B C} (P : A -> C -> Prop) (f : B -> C) l r : Forall2 (fun a b => P a (f b)) l r -> Forall2 P l (map f r).
Proof. intros H. induction H; cbn; constructor; assumption. Qed.
Lemma add_result_vectors sv use f ks f' : grouped (lf_sim f) use -> add_result (flat_map subkeys ks) ks use f (vecQ sv f) f' -> use <> [] -> added_vectors sv ks f f'.
Proof.
  intros HG (HA & HN & HNo & ds & HD & HV) HU. split; [exact HA|].
  assert (HP : exists p, ks = [] \/ lf_pt f = Some p).
  { destruct ks as [|k ks]; [exists (mkPt v0 v0 v0 (mkM v0 v0 v0) (mkM v0 v0 v0) 0%R); left; reflexivity|]. destruct use as [|m use]; [congruence|]. inversion HD as [|? d ? ? (dd & _ & F) _]; subst.
    inversion F as [|? ? ? ? (vals & v & p & Ep & _) _]; subst. exists p. right. exact Ep. }
  destruct HP as [p HP]. exists p. split; [exact HP|]. intros k Hk. destruct HP as [->|HP]; [destruct Hk|].
  assert (Col : forall s (g : vec -> R), In (s, g) [("_x", fun v => vy (sky p v)); ("_y", fun v => vz (sky p v)); ("_z", fun v => vx (sky p v))] ->
    exists xs, dget (lf_full f') (k ++ s)%string = Some xs /\ Forall2 (fun e x => exists v, vector_of sv k e v /\ x = g v) (lf_sim f) xs).
  { intros s g Is. destruct (HV (k ++ s)%string) as (vs & F & Eg).
    { apply in_flat_map. exists k. split; [exact Hk|]. cbn in Is. destruct Is as [E|[E|[E|[]]]]; inversion E; subst; cbn; auto. }
    exists (concat vs). split; [exact Eg|]. apply (blocks_values (fun e x => exists v, vector_of sv k e v /\ x = g v) (lf_sim f) use ds vs (k ++ s)%string HG); [|exact F].
    eapply Forall2_imp; [|exact HD]. intros m d (dd & -> & FF) v I. apply in_concat in I. destruct I as (d & Id & I). destruct (Forall2_in_r _ _ _ _ FF Id) as (k' & _ & vals & v' & p' & Ep & E1 & Et & ->).
    rewrite HP in Ep. inversion Ep; subst p'.
    assert (G : k' = k /\ v = map g v').
    { cbn in Is, I. destruct Is as [Es|[Es|[Es|[]]]]; inversion Es; subst s g; destruct I as [I|[I|[I|[]]]]; inversion I as [[I1 I2]]; apply app_suffix in I1; try reflexivity; destruct I1 as [I1 I3]; try discriminate I3;
      (split; [exact I1|rewrite !map_map; reflexivity]). }
    destruct G as [-> ->]. apply Forall2_map_r. eapply Forall2_imp; [|exact Et]. intros j x Hx. exists x. split; [|reflexivity]. exists vals. split; [exact E1|exact Hx]. }
  destruct (Col "_x" _ (or_introl eq_refl)) as (xs & X1 & X2). destruct (Col "_y" _ (or_intror (or_introl eq_refl))) as (ys & Y1 & Y2).
  destruct (Col "_z" _ (or_intror (or_intror (or_introl eq_refl)))) as (zs & Z1 & Z2). exists xs, ys, zs. auto 10.
Qed.
Lemma c45_vectors sv use n keys all w w' f0 : lexec w (addpos_steps sv use n keys all w) = (w', Ok tt) -> w 0 = Some f0 -> use <> [] ->
  forall i f, i < n -> w i = Some f -> grouped (lf_sim f) use -> exists f', w' i = Some f' /\ added_vectors sv (addpos_keys keys (dkeys (lf_full f0)) all) f f'.
Proof.
  intros E E0 HU i f Li Ef HG. rewrite (addpos_gen _ _ _ _ _ _ _ E0) in E. set (ks := addpos_keys keys (dkeys (lf_full f0)) all) in *.
  destruct (add_full (vecA sv w) w n i (flat_map subkeys ks) ks use f (vecQ sv f) subkeys Ef Li HG) with (w' := w') as (f' & E' & HR).
  - intros; eapply vecA_other; eassumption.
  - intros; eapply vecA_here; eassumption.
  - apply vecQ_len.
  - reflexivity.
  - exact E.
  - exists f'. split; [exact E'|]. apply add_result_vectors with (1 := HG) (2 := HR) (3 := HU).
Qed.
Lemma c61_vectors sv use n keys all w l w' r f0 : lexec w (firstn l (addpos_steps sv use n keys all w)) = (w', r) -> w 0 = Some f0 -> use <> [] ->
  forall i f g, i < n -> w i = Some f -> grouped (lf_sim f) use -> w' i = Some g -> lf_done g = true -> g = f \/ added_vectors sv (addpos_keys keys (dkeys (lf_full f0)) all) f g.
Proof.
  intros E E0 HU i f g Li Ef HG Eg Hd. rewrite (addpos_gen _ _ _ _ _ _ _ E0) in E. set (ks := addpos_keys keys (dkeys (lf_full f0)) all) in *.
  destruct (add_crash (vecA sv w) w n i (flat_map subkeys ks) ks use f (vecQ sv f) subkeys Ef Li HG) with (l := l) (w' := w') (r := r) (g := g) as [H|HR].
  - intros; eapply vecA_other; eassumption.
  - intros; eapply vecA_here; eassumption.
  - intros; eapply vecA_quiet; eassumption.
  - apply vecQ_len.
  - reflexivity.
  - exact E.
  - exact Eg.
  - exact Hd.
  - left. exact H.
  - right. apply add_result_vectors with (1 := HG) (2 := HR) (3 := HU).
Qed.

(** ** Built light cones are grouped by snapshot *)
Lemma rows_grouped use (rss : list (list row)) : NoDup (map m_index use) -> Forall2 (fun m rs => forall r, In r rs -> r_snap r = m_index m) use rss ->
  grouped (map (fun r => (r_snap r, r_index r)) (concat rss)) use.
Proof.
  intros N H. split; [exact N|]. exists (map (map r_index) rss). clear N. split.
  - induction H; cbn; constructor; auto.
  - induction H as [|m rs use rss Hr H IH]; cbn; [reflexivity|]. rewrite map_app, IH. f_equal. rewrite map_map. apply map_ext_in. intros r I. rewrite (Hr r I). reflexivity.
Qed.
Lemma cone_grouped asort az mi sd c p rows : NoDup (map m_index (lc_use c)) -> cone_rows asort az mi sd c p rows -> grouped (map (fun r => (r_snap r, r_index r)) rows) (lc_use c).
Proof.
  intros N (rss & -> & H). apply rows_grouped; [exact N|]. eapply Forall2_imp; [|exact H]. intros m rs (ma & po & sl & _ & E & ->) r Hr. apply (snap_row _ _ _ _ _ _ _ _ _ E Hr).
Qed.
Lemma ball_grouped asort az sk mi sd md c p rows : NoDup (map m_index (lc_use c)) -> ball_rows asort az sk mi sd md c p rows -> grouped (map (fun r => (r_snap r, r_index r)) rows) (lc_use c).
Proof.
  intros N (rss & -> & H). apply rows_grouped; [exact N|]. eapply Forall2_imp; [|exact H]. intros m rs (ma & po & _ & E) r Hr. unfold sphere_rows in E. apply mapM_fwd in E.
  destruct (Forall2_in_r _ _ _ _ E Hr) as (i & _ & Er). cbn in Er. destruct (az _); cbn [bind] in Er; [|discriminate]. inversion Er. reflexivity.
Qed.
Lemma built_grouped asort az mi sd c pts w w' i p : NoDup (map m_index (lc_use c)) -> build asort az mi sd c pts w = (w', Ok tt) -> nth_error pts i = Some p ->
  exists f, w' i = Some f /\ grouped (lf_sim f) (lc_use c).
Proof.
  intros N E Ep. destruct (build_done _ _ _ _ _ _ _ _ E) as [H _]. destruct (H i p Ep) as (f & rows & Ef & _ & HR & _ & ES & _). exists f. split; [exact Ef|]. rewrite ES. apply (cone_grouped _ _ _ _ _ _ _ N HR).
Qed.
