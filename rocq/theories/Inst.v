(** The instrument's tables: proofs (C49, C50, C51). *)
From Verif Require Import Dict Util Rat Val Arr GridModel GridModel2 GridSpec GridSpec2 ConvSpec InstModel InstSpec.
Open Scope string_scope.
Open Scope list_scope.

(** * Dictionaries and lists *)
Lemma eqb_sym a b : String.eqb a b = String.eqb b a.
Proof. destruct (String.eqb_spec a b), (String.eqb_spec b a); congruence. Qed.
Lemma dset_same {A} (d : dict A) k v : dget d k = Some v -> dset d k v = d.
Proof.
  induction d as [|[k' w] d IH]; cbn; [discriminate|]. destruct (String.eqb_spec k k') as [->|H]; intros E; [congruence|]. rewrite IH; auto.
Qed.
Lemma ddel_dset {A} (d : dict A) k v : dget d k = None -> ddel (dset d k v) k = d.
Proof.
  induction d as [|[k' w] d IH]; cbn; intros E.
  - rewrite String.eqb_refl. auto.
  - destruct (String.eqb_spec k k') as [->|H]; [discriminate|]. cbn. destruct (String.eqb_spec k k'); [congruence|]. cbn. f_equal. apply IH; auto.
Qed.
Lemma ddel_dset2 {A} (d : dict A) k v w : dget d k = None -> ddel (dset (dset d k v) k w) k = d.
Proof.
  induction d as [|[k' u] d IH]; cbn; intros E.
  - rewrite String.eqb_refl. cbn. rewrite String.eqb_refl. auto.
  - destruct (String.eqb_spec k k') as [->|H]; [discriminate|]. cbn. destruct (String.eqb_spec k k'); [congruence|]. cbn.
    destruct (String.eqb_spec k k'); [congruence|]. cbn. f_equal. apply IH; auto.
Qed.
Lemma dset_dset {A} (d : dict A) k v w : dset (dset d k v) k w = dset d k w.
Proof.
  induction d as [|[k' u] d IH]; cbn; [rewrite String.eqb_refl; auto|]. destruct (String.eqb_spec k k') as [->|H]; cbn.
  - rewrite String.eqb_refl. auto.
  - destruct (String.eqb_spec k k'); [congruence|]. rewrite IH; auto.
Qed.
Lemma dget_dalter {A} (f : A -> A) (d : dict A) k j : dget (dalter f d k) j = if String.eqb j k then option_map f (dget d j) else dget d j.
Proof.
  unfold dalter. destruct (dget d k) as [x|] eqn:E.
  - rewrite dget_dset. destruct (String.eqb_spec j k) as [->|]; auto. rewrite E. auto.
  - destruct (String.eqb_spec j k) as [->|]; auto. rewrite E. auto.
Qed.
Lemma dget_dalters {A} (f : A -> A) ds (d : dict A) j : NoDup ds ->
  dget (fold_left (dalter f) ds d) j = if smem j ds then option_map f (dget d j) else dget d j.
Proof.
  intros N. revert d. induction N as [|k ds Hk N IH]; intros d; cbn; auto. rewrite IH, dget_dalter.
  destruct (String.eqb_spec j k) as [->|H]; cbn; auto.
  apply smem_false in Hk. rewrite Hk. auto.
Qed.
Lemma nodup_str_spec l : nodup_str l = true <-> NoDup l.
Proof.
  induction l as [|a l IH]; cbn; [split; auto; constructor|]. rewrite andb_true_iff, negb_true_iff, smem_false, IH. split.
  - intros [H1 H2]. constructor; auto.
  - intros N. inversion N; auto.
Qed.
Lemma check_det_ok s ds u : check_detectors s ds = Ok u -> NoDup ds /\ forall d, In d ds -> In d (i_names s).
Proof.
  unfold check_detectors. destruct (forallb _ ds) eqn:E; [|discriminate]. cbn. destruct (nodup_str ds) eqn:N; [|discriminate]. intros _.
  split; [apply nodup_str_spec; auto|]. intros d Hd. rewrite forallb_forall in E. apply smem_In. auto.
Qed.
Lemma check_det_raise s ds e : check_detectors s ds = Raise e -> e = ValueError.
Proof. unfold check_detectors. destruct (forallb _ ds); cbn; [destruct (nodup_str ds); cbn; congruence|congruence]. Qed.
Lemma check_det_do s ds : NoDup ds -> (forall d, In d ds -> In d (i_names s)) -> check_detectors s ds = Ok tt.
Proof.
  intros N H. unfold check_detectors. replace (forallb _ ds) with true.
  - cbn. replace (nodup_str ds) with true; auto. symmetry. apply nodup_str_spec; auto.
  - symmetry. apply forallb_forall. intros d Hd. apply smem_In; auto.
Qed.
Lemma check_fld_ok s ds u : check_fields s ds = Ok u -> NoDup ds /\ forall d, In d ds -> exists g, dget (i_fields s) d = Some g.
Proof.
  unfold check_fields. destruct (forallb _ ds) eqn:E; [|discriminate]. cbn. destruct (nodup_str ds) eqn:N; [|discriminate]. intros _.
  split; [apply nodup_str_spec; auto|]. intros d Hd. rewrite forallb_forall in E. apply dmem_some. auto.
Qed.

(** * all_stale *)
Lemma stale_get fs : forall (c : dict bool) k, dget (fold_left (fun c k => dset c k false) fs c) k = if smem k fs then Some false else dget c k.
Proof.
  induction fs as [|f fs IH]; intros c k; cbn; auto. rewrite IH, dget_dset. destruct (String.eqb_spec k f) as [->|H]; cbn; auto.
  destruct (smem f fs); auto.
Qed.
Lemma stale_cons s k : dget (i_cons (all_stale s)) k = if smem k (i_fnames s) then Some false else dget (i_cons s) k.
Proof. apply stale_get. Qed.

(** * set_response *)
Lemma resolve_means m r b f : resolve m r b = Ok (Some f) -> means m r f.
Proof.
  intros H. destruct r as [|s|g|]; cbn [resolve] in H.
  - destruct b; discriminate.
  - right. exists s. split; auto.
    assert (K : forall l g, smem s l = true -> (forall x, In x l -> In (x, g) (nicknames m)) -> In (s, g) (nicknames m)).
    { intros l g E F. apply F. apply smem_In. auto. }
    destruct m.
    + destruct (smem s ["gauss"; "Gauss"; "gaussian"; "Gaussian"]) eqn:E.
      * injection H as <-. apply (K _ _ E). intros x Hx. cbn [In] in Hx. repeat (destruct Hx as [<-|Hx]; [cbn [nicknames In]; auto 20|]); destruct Hx.
      * match type of H with (if smem s ?l then _ else _) = _ => destruct (smem s l) eqn:E2 end; [|discriminate].
        injection H as <-. apply (K _ _ E2). intros x Hx. cbn [In] in Hx. repeat (destruct Hx as [<-|Hx]; [cbn [nicknames In]; auto 20|]); destruct Hx.
    + destruct (smem s ["gauss"; "Gauss"; "gaussian"; "Gaussian"]) eqn:E.
      * injection H as <-. apply (K _ _ E). intros x Hx. cbn [In] in Hx. repeat (destruct Hx as [<-|Hx]; [cbn [nicknames In]; auto 20|]); destruct Hx.
      * match type of H with (if smem s ?l then _ else _) = _ => destruct (smem s l) eqn:E2 end; [|discriminate].
        injection H as <-. apply (K _ _ E2). intros x Hx. cbn [In] in Hx. repeat (destruct Hx as [<-|Hx]; [cbn [nicknames In]; auto 20|]); destruct Hx.
    + destruct (smem s ["none"; "None"]) eqn:E.
      * injection H as <-. apply (K _ _ E). intros x Hx. cbn [In] in Hx. repeat (destruct Hx as [<-|Hx]; [cbn [nicknames In]; auto 20|]); destruct Hx.
      * match type of H with (if smem s ?l then _ else _) = _ => destruct (smem s l) eqn:E2 end; [|discriminate].
        injection H as <-. apply (K _ _ E2). intros x Hx. cbn [In] in Hx. repeat (destruct Hx as [<-|Hx]; [cbn [nicknames In]; auto 20|]); destruct Hx.
  - left. congruence.
  - discriminate.
Qed.
Lemma means_resolve m r b f : means m r f -> resolve m r b = Ok (Some f).
Proof.
  intros [->|[s [-> H]]]; auto. destruct m; cbn [nicknames In] in H; repeat (destruct H as [H|H]; [inversion H; subst; reflexivity|]); destruct H.
Qed.
Lemma resolve_raise m r b e : resolve m r b = Raise e -> e = ValueError.
Proof.
  destruct r as [|s|f|]; cbn; try congruence.
  - destruct b; congruence.
  - destruct m; repeat (match goal with |- (if ?c then _ else _) = _ -> _ => destruct c end); congruence.
Qed.

(** what a call to [set_response] does *)
Lemma set_response_ok m names r k s s' : NoDup (i_names s) -> set_response m names r k s = (s', Ok tt) ->
  exists ds f kk, NoDup ds /\ (forall d, In d ds <-> names_det names s d) /\ (forall d, In d ds -> In d (i_names s)) /\
    resolve m r (negb (length ds =? 0)%nat) = Ok f /\ check_kwargs k = Ok kk /\ (ds <> [] -> f <> None) /\
    s' = (let s1 := match f with
                    | Some f => set_dets s (fold_left (dalter (set_resp m (f, match kk with Some d => d | None => [] end))) ds (i_dets s)) (i_names s)
                    | None => s end in
          let s2 := match ds with [] => s1 | _ => all_stale s1 end in
          if smem "instrument" names then set_default s2 m (f, kk) else s2).
Proof.
  intros N. unfold set_response.
  assert (Hsel : forall x, match names with
                   | [] => Ok (false, i_names s)
                   | _ => let ds := filter (fun d => negb (String.eqb d "instrument")) names in
                          do _ <- check_detectors s ds ;; Ok (smem "instrument" names, ds)
                   end = Ok x -> fst x = smem "instrument" names /\ NoDup (snd x) /\ (forall d, In d (snd x) <-> names_det names s d) /\ forall d, In d (snd x) -> In d (i_names s)).
  { intros x E. destruct names as [|n names].
    - inversion E; subst. cbn. split; auto. split; auto. split; auto. intros d. unfold names_det. cbn [In]. tauto.
    - cbn zeta in E. remember (n :: names) as nn eqn:En. destruct (check_detectors s _) as [u|e] eqn:C; [|discriminate]. cbn [bind] in E. injection E as <-. cbn [fst snd].
      apply check_det_ok in C. split; auto. split; [tauto|]. split; [|tauto]. intros d. rewrite filter_In. unfold names_det.
      rewrite negb_true_iff, String.eqb_neq. intuition congruence. }
  destruct (match names with [] => _ | _ => _ end) as [[di ds]|e] eqn:Es; [|intros H; inversion H].
  specialize (Hsel _ eq_refl). cbn [fst snd] in Hsel. destruct Hsel as (Hd & Nd & Hds & Hin). cbn [bind].
  destruct (resolve m r _) as [f|e] eqn:Er; [|intros H; inversion H]. cbn [bind].
  destruct (check_kwargs k) as [kk|e] eqn:Ek; [|intros H; inversion H]. cbn [bind]. intros H. inversion H; subst.
  exists ds, f, kk. split; auto. split; auto. split; auto. split; auto. split; auto. split; auto.
  intros Hn ->. destruct r as [|st|g|]; cbn in Er; try discriminate.
  - destruct ds; [congruence|]. cbn in Er. discriminate.
  - destruct m; repeat (match type of Er with (if ?c then _ else _) = _ => destruct c end); discriminate.
Qed.
Lemma set_response_raise m names r k s s' e : set_response m names r k s = (s', Raise e) -> s' = s /\ e = ValueError.
Proof.
  unfold set_response. destruct names as [|n names].
  - cbn [bind]. destruct (resolve m r _) as [f|e0] eqn:Er; cbn [bind].
    + destruct (check_kwargs k) as [kk|e0] eqn:Ek; cbn [bind]; intros H; inversion H; subst. split; auto. destruct k; inversion Ek; auto.
    + intros H; inversion H; subst. split; auto. eapply resolve_raise; eauto.
  - cbn zeta. destruct (check_detectors s _) as [u|e0] eqn:C; cbn [bind].
    + destruct (resolve m r _) as [f|e0] eqn:Er; cbn [bind].
      * destruct (check_kwargs k) as [kk|e0] eqn:Ek; cbn [bind]; intros H; inversion H; subst. split; auto. destruct k; inversion Ek; auto.
      * intros H; inversion H; subst. split; auto. eapply resolve_raise; eauto.
    + intros H; inversion H; subst. split; auto. eapply check_det_raise; eauto.
Qed.

(** a change to the detectors that keeps the fields, their maps, and the validity flags or unsets them *)
Record det_step (s s' : inst) : Prop := {
  ds_same : same_fields s s';
  ds_cons : (i_dets s' = i_dets s /\ i_names s' = i_names s /\ i_cons s' = i_cons s) \/
            (forall k, dget (i_cons s') k = if smem k (i_fnames s) then Some false else dget (i_cons s) k) }.
Lemma stale_step s s1 : same_fields s s1 -> i_cons s1 = i_cons s -> det_step s (all_stale s1).
Proof.
  intros H E. split; [exact H|]. right. intros k. rewrite stale_cons, E. replace (i_fnames s1) with (i_fnames s); auto. symmetry. apply H.
Qed.
Lemma same_refl s : same_fields s s.
Proof. repeat split. Qed.
Lemma set_response_step m names r k s s' : NoDup (i_names s) -> set_response m names r k s = (s', Ok tt) ->
  det_step s s' /\ i_names s' = i_names s /\ i_count s' = i_count s /\
  (forall d, dget (i_dets s') d = None <-> dget (i_dets s) d = None).
Proof.
  intros N H. destruct (set_response_ok m names r k s s' N H) as (ds & f & kk & Nd & Hds & Hin & Er & Ek & Hf & ->). cbn zeta.
  destruct f as [f|].
  - assert (G : forall s2, s2 = match ds with [] => set_dets s (fold_left (dalter (set_resp m (f, match kk with Some d => d | None => [] end))) ds (i_dets s)) (i_names s)
                | _ => all_stale (set_dets s (fold_left (dalter (set_resp m (f, match kk with Some d => d | None => [] end))) ds (i_dets s)) (i_names s)) end ->
              det_step s s2 /\ i_names s2 = i_names s /\ i_count s2 = i_count s /\ (forall d, dget (i_dets s2) d = None <-> dget (i_dets s) d = None)).
    { intros s2 ->. destruct ds as [|d0 ds].
      - cbn. split; [|tauto]. split; [repeat split|]. left. auto.
      - split; [apply stale_step; [repeat split|reflexivity]|]. split; [reflexivity|]. split; [reflexivity|]. intros d.
        cbn [all_stale set_cons i_dets set_dets]. rewrite dget_dalters by auto. destruct (smem d (d0 :: ds)); [|tauto].
        destruct (dget (i_dets s) d); cbn; intuition congruence. }
    specialize (G _ eq_refl). destruct G as (G1 & G2 & G3 & G4).
    destruct (smem "instrument" names); [|tauto].
    split; [|tauto]. destruct G1 as [A B]. split; [exact A|]. exact B.
  - assert (ds = []) as -> by (destruct ds; auto; destruct Hf; [discriminate|auto]).
    assert (G : det_step s s) by (split; [repeat split|left; auto]).
    destruct (smem "instrument" names); [|tauto]. split; [|tauto]. destruct G as [A B]. split; [exact A|]. exact B.
Qed.

(** * Tables under detector changes *)
Lemma tables_det s s' : tables_ok s -> det_step s s' -> NoDup (i_names s') ->
  (forall d, In d (i_names s') <-> exists x, dget (i_dets s') d = Some x) -> tables_ok s'.
Proof.
  intros T [S C] N D. destruct S as (S1 & S2 & S3 & S4 & S5 & _). constructor; auto.
  - rewrite S3. apply T.
  - rewrite S1, S3. apply T.
  - rewrite S2, S3. apply T.
  - rewrite S3, S5. apply T.
  - rewrite S3. intros f Hf. destruct C as [(_ & _ & ->)|C]; [apply T; auto|]. rewrite C. exists false.
    apply smem_In in Hf. rewrite Hf. auto.
  - rewrite S5. intros f. destruct C as [(_ & _ & ->)|C]; [apply T|]. rewrite C. destruct (smem f (i_fnames s)); [discriminate|apply T].
Qed.
Lemma some_not_none {X} (o : option X) : (exists x, o = Some x) <-> o <> None.
Proof. destruct o; split; try discriminate; eauto. intros [x E]; discriminate. tauto. Qed.
Lemma set_response_tables m names r k s : tables_ok s -> tables_ok (fst (set_response m names r k s)).
Proof.
  intros T. destruct (set_response m names r k s) as [s' [[]|e]] eqn:E; cbn [fst].
  - destruct (set_response_step m names r k s s' (t_names _ T) E) as (D & Hn & _ & Hd). apply (tables_det s); auto.
    + rewrite Hn. apply T.
    + intros d. rewrite Hn, (t_dets _ T), !some_not_none, Hd. tauto.
  - apply set_response_raise in E. destruct E as [-> _]. auto.
Qed.
Lemma remove_first_none k l : ~ In k l -> remove_first k l = l.
Proof. induction l as [|a l IH]; cbn; auto. intros H. destruct (String.eqb_spec a k); [tauto|]. rewrite IH; tauto. Qed.
Lemma remove_first_filter k l : NoDup l -> remove_first k l = filter (fun d => negb (String.eqb d k)) l.
Proof.
  induction 1 as [|a l Ha N IH]; cbn; auto. destruct (String.eqb_spec a k) as [->|H]; cbn.
  - symmetry. apply filter_all. intros x Hx. apply negb_true_iff, String.eqb_neq. congruence.
  - rewrite IH. auto.
Qed.
Lemma NoDup_filter_ {X} (f : X -> bool) l : NoDup l -> NoDup (filter f l).
Proof. induction 1 as [|a l Ha N IH]; cbn; [constructor|]. destruct (f a); auto. constructor; auto. rewrite filter_In. tauto. Qed.
Lemma remove_all ds : forall l, NoDup l -> fold_left (fun l d => remove_first d l) ds l = filter (fun d => negb (smem d ds)) l.
Proof.
  induction ds as [|d ds IH]; intros l N; cbn [fold_left].
  - symmetry. apply filter_all. auto.
  - rewrite remove_first_filter by auto. rewrite IH by (apply NoDup_filter_; auto). rewrite filter_filter. apply filter_ext. intros x.
    cbn [smem existsb]. destruct (String.eqb_spec x d); cbn; auto.
Qed.
Lemma ddel_all {X} ds : forall (d : dict X) k, dget (fold_left ddel ds d) k = if smem k ds then None else dget d k.
Proof.
  induction ds as [|a ds IH]; intros d k; cbn [fold_left smem existsb]; auto. rewrite IH, dget_ddel.
  rewrite (eqb_sym a k). destruct (String.eqb k a); cbn; destruct (smem k ds) eqn:E; unfold smem in E; rewrite ?E; auto.
Qed.

(** * del_detectors *)
Lemma del_ok names s s' : tables_ok s -> del_detectors names s = (s', Ok tt) ->
  NoDup names /\ (forall d, In d names -> In d (i_names s)) /\ det_step s s' /\
  i_names s' = filter (fun d => negb (smem d names)) (i_names s) /\
  (forall d, dget (i_dets s') d = if smem d names then None else dget (i_dets s) d) /\
  i_count s' = i_count s /\ same_defaults s s' /\ (names <> [] -> forall k, In k (i_fnames s) -> dget (i_cons s') k = Some false).
Proof.
  intros T. unfold del_detectors. destruct (check_detectors s names) as [u|e] eqn:C; [|intros H; inversion H].
  apply check_det_ok in C. destruct C as [N Hin]. intros H. split; auto. split; auto.
  set (s1 := set_dets s (fold_left ddel names (i_dets s)) (fold_left (fun l d => remove_first d l) names (i_names s))) in *.
  assert (E1 : i_names s1 = filter (fun d => negb (smem d names)) (i_names s)) by (apply remove_all; apply T).
  assert (E2 : forall d, dget (i_dets s1) d = if smem d names then None else dget (i_dets s) d) by (intros d; apply ddel_all).
  destruct names as [|n0 names].
  - inversion H; subst s'. split; [split; [repeat split|left; auto]|]. split; auto. split; auto. split; auto. split; [repeat split|]. congruence.
  - injection H as <-. split; [apply stale_step; [repeat split|reflexivity]|]. split; auto. split; auto. split; auto. split; [repeat split|].
    intros _ k Hk. rewrite stale_cons. cbn [s1 set_dets i_fnames]. apply smem_In in Hk. rewrite Hk. auto.
Qed.
Lemma del_raise names s s' e : del_detectors names s = (s', Raise e) -> s' = s /\ e = ValueError.
Proof.
  unfold del_detectors. destruct (check_detectors s names) as [u|e0] eqn:C; intros H; inversion H; subst.
  split; auto. eapply check_det_raise; eauto.
Qed.
Lemma del_tables names s : tables_ok s -> tables_ok (fst (del_detectors names s)).
Proof.
  intros T. destruct (del_detectors names s) as [s' [[]|e]] eqn:E; cbn [fst].
  - destruct (del_ok names s s' T E) as (N & Hin & D & En & Ed & _). apply (tables_det s); auto.
    + rewrite En. apply NoDup_filter_, T.
    + intros d. rewrite En, filter_In, Ed, (t_dets _ T). destruct (smem d names) eqn:Ed'; cbn; split; try tauto.
      * intros [_ H]; discriminate.
      * intros [x H]; discriminate.
  - apply del_raise in E. destruct E as [-> _]. auto.
Qed.

(** * add_detector *)
(** the state while a detector is being added *)
Record grown (s : inst) (nm : string) (s2 : inst) : Prop := {
  gr_det : exists x, i_dets s2 = dset (i_dets s) nm x;
  gr_names : i_names s2 = i_names s ++ [nm];
  gr_same : same_fields s s2;
  gr_def : nm <> "instrument" -> same_defaults s s2;
  gr_count : i_count s2 = i_count s;
  gr_cons : forall k, dget (i_cons s2) k = dget (i_cons s) k \/ In k (i_fnames s) /\ dget (i_cons s2) k = Some false }.
Lemma NoDup_snoc {X} (l : list X) x : NoDup l -> ~ In x l -> NoDup (l ++ [x]).
Proof.
  intros N H. induction N as [|a l Ha N IH]; cbn.
  - constructor; auto. constructor.
  - constructor.
    + rewrite in_app_iff. cbn. intros [|[|[]]]; [tauto|subst; apply H; left; auto].
    + apply IH. intros Hx. apply H. right. auto.
Qed.
Lemma set_grown s nm m r k s2 : tables_ok s -> ~ In nm (i_names s) -> grown s nm s2 -> grown s nm (fst (set_response m [nm] r k s2)).
Proof.
  intros T Hn Gr. destruct (set_response m [nm] r k s2) as [s3 [[]|e]] eqn:E; cbn [fst].
  - assert (N2 : NoDup (i_names s2)) by (rewrite (gr_names _ _ _ Gr); apply NoDup_snoc; auto; apply T).
    pose proof (set_response_step m [nm] r k s2 s3 N2 E) as (D & Sn & Sc & _).
    destruct (set_response_ok m [nm] r k s2 s3 N2 E) as (ds & f & kk & Nd & Hds & Hin & Er & Ek & Hf & E3).
    destruct Gr as [[x Gx] Gn [Gs1 Gs2] Gd Gc Gk]. destruct D as [Ds Dc].
    assert (Sf : same_fields s s3).
    { destruct Gs2 as (A2 & A3 & A4 & A5 & A6 & A7 & A8 & A9 & A10). unfold same_fields in *.
      destruct Ds as (B1 & B2 & B3 & B4 & B5 & B6 & B7 & B8 & B9 & B10). repeat split; congruence. }
    constructor; auto; try congruence.
    + destruct (String.eqb_spec nm "instrument") as [->|Hi].
      * assert (ds = []) as ->.
        { destruct ds as [|d ds]; auto. destruct (proj1 (Hds d) (or_introl eq_refl)) as [[H _]|[[H|[]] H2]]; [discriminate|congruence]. }
        exists x. subst s3. cbn zeta. destruct f; cbn; auto.
      * assert (ds = [nm]) as ->.
        { assert (H1 : In nm ds) by (apply Hds; right; split; [left; auto|auto]).
          destruct ds as [|d ds]; [destruct H1|].
          assert (Hall : forall z, In z (d :: ds) -> z = nm).
          { intros z Hz. destruct (proj1 (Hds z) Hz) as [[H _]|[[H|[]] _]]; [discriminate|auto]. }
          rewrite (Hall d (or_introl eq_refl)) in *. destruct ds as [|d2 ds]; auto. exfalso. inversion Nd; subst. apply H2. left.
          rewrite (Hall d2); auto. right. left. auto. }
        destruct f as [f|]; [|exfalso; apply Hf; [discriminate|auto]].
        exists (set_resp m (f, match kk with Some d => d | None => [] end) x). subst s3. cbn zeta.
        replace (smem "instrument" [nm]) with false.
        -- cbn [fold_left all_stale set_cons i_dets set_dets]. unfold dalter. rewrite Gx, dget_dset_eq, dset_dset. auto.
        -- symmetry. apply smem_false. intros [H|[]]. congruence.
    + intros Hi. specialize (Gd Hi). subst s3. cbn zeta. replace (smem "instrument" [nm]) with false.
      * destruct Gd as (C1 & C2 & C3). destruct ds, f; repeat split; auto.
      * symmetry. apply smem_false. intros [H|[]]. congruence.
    + intros kf. destruct Dc as [(_ & _ & ->)|Dc]; [apply Gk|]. rewrite Dc. destruct (smem kf (i_fnames s2)) eqn:F; [|apply Gk].
      right. split; auto. apply smem_In in F. destruct Gs2 as (_ & G3 & _). rewrite G3 in F. auto.
  - apply set_response_raise in E. destruct E as [-> _]. auto.
Qed.
Lemma then_grown s nm f g s2 : (forall t, grown s nm t -> grown s nm (fst (f t))) -> (forall t, grown s nm t -> grown s nm (fst (g t))) ->
  grown s nm s2 -> grown s nm (fst (then_ f g s2)).
Proof. intros F G H. unfold then_. specialize (F s2 H). destruct (f s2) as [s' [u|e]]; cbn in *; auto. Qed.
Lemma grow_first s nm d : grown s nm (set_dets s (dset (i_dets s) nm d) (i_names s ++ [nm])).
Proof. constructor; cbn; auto; try (repeat split). exists d. auto. Qed.
Lemma del_grown s nm s2 : tables_ok s -> ~ In nm (i_names s) -> grown s nm s2 ->
  exists s3, del_detectors [nm] s2 = (s3, Ok tt) /\ i_dets s3 = i_dets s /\ i_names s3 = i_names s /\ same_fields s s3 /\
    (nm <> "instrument" -> same_defaults s s3) /\ i_count s3 = i_count s.
Proof.
  intros T Hn [[x Gx] Gn Gs Gd Gc Gk]. unfold del_detectors. rewrite check_det_do.
  - eexists. split; [reflexivity|]. cbn. rewrite Gx, Gn. split.
    + apply ddel_dset. destruct (dget (i_dets s) nm) as [y|] eqn:E; auto. exfalso. apply Hn, (t_dets _ T). eauto.
    + split; [|repeat split; auto; try apply Gs; apply Gd; auto].
      rewrite remove_first_filter by (apply NoDup_snoc; auto; apply T). rewrite filter_app. cbn. rewrite String.eqb_refl. cbn. rewrite app_nil_r.
      apply filter_all. intros y Hy. apply negb_true_iff, String.eqb_neq. congruence.
  - constructor; auto. constructor.
  - intros d [<-|[]]. rewrite Gn. apply in_or_app. right. left. auto.
Qed.
Lemma dmem_fresh s nm : tables_ok s -> ~ In nm (i_names s) -> dget (i_dets s) nm = None.
Proof. intros T H. destruct (dget (i_dets s) nm) as [y|] eqn:E; auto. exfalso. apply H, (t_dets _ T). eauto. Qed.

(** what add_detector leaves behind when it raises *)
Lemma add_raise a s s' e : tables_ok s -> add_detector a s = (s', Raise e) ->
  s' = s \/ new_name a s = "instrument" /\ i_dets s' = i_dets s /\ i_names s' = i_names s /\ same_fields s s' /\ i_count s' = i_count s /\ i_cons s' = i_cons s.
Proof.
  intros T. unfold add_detector. fold (new_name a s). set (nm := new_name a s) in *. cbv zeta.
  destruct (smem nm (i_names s)) eqn:Em; [cbn; intros H; inversion H; auto|]. cbn [negb check bind].
  apply smem_false in Em.
  match goal with |- (match ?p with Ok _ => _ | Raise _ => _ end) = _ -> _ => destruct p as [[[[off sp] sc] no]|e0] end; [|intros H; inversion H; auto].
  match goal with |- (match then_ ?f ?g ?s0 with _ => _ end) = _ -> _ =>
    assert (Gr : grown s nm (fst (then_ f g s0))); [|destruct (then_ f g s0) as [s2 [u|e0]]] end.
  { apply then_grown; [intros; apply set_grown; auto|intros; apply then_grown; [intros; apply set_grown; auto|intros; apply set_grown; auto|auto]|].
    apply grow_first. }
  - intros H. inversion H.
  - cbn [fst] in Gr. destruct (del_grown s nm s2 T Em Gr) as (s3 & -> & Ed & En & Es & Edf & Ec).
    intros H. injection H as <- _. destruct (String.eqb_spec nm "instrument") as [Hi|Hi].
    + right. split; auto 10.
    + left. specialize (Edf Hi). destruct s, s3. unfold same_fields, same_defaults in *. cbn in *. unfold set_cons; cbn.
      destruct Es as (-> & -> & -> & -> & -> & -> & -> & -> & -> & ->). destruct Edf as (-> & -> & ->). congruence.
Qed.

Lemma pick_asked m dflt r k x : asked m dflt r k x <->
  exists r' k', pick dflt r k = Ok (r', k') /\ resolve m r' true = Ok (Some (fst x)) /\ check_kwargs k' = Ok (Some (snd x)).
Proof.
  split.
  - intros [[M K]|(-> & D & K)].
    + destruct r as [|st|g|]; try (destruct M as [M|[st' [M _]]]; discriminate);
        (eexists; eexists; split; [reflexivity|]; split; [apply means_resolve; auto|]; destruct K as [->|[-> ->]]; auto).
    + unfold pick. rewrite D. destruct K as [->|[-> K]].
      * eexists; eexists; split; [reflexivity|]. auto.
      * rewrite K. eexists; eexists; split; [reflexivity|]. auto.
  - intros (r' & k' & P & R & K). unfold pick in P. destruct r as [|st|g|].
    + right. split; auto. destruct (fst dflt) as [f|]; [|discriminate]. destruct k as [|d|].
      * destruct (snd dflt) as [d|]; [|discriminate]. injection P as <- <-. cbn in R, K. split; [congruence|]. right. split; congruence.
      * injection P as <- <-. cbn in R, K. split; [congruence|]. left. congruence.
      * injection P as <- <-. discriminate.
    + left. injection P as <- <-. split; [eapply resolve_means; eauto|]. destruct k as [|d|]; cbn in K; [right; split; congruence|left; congruence|discriminate].
    + left. injection P as <- <-. split; [eapply resolve_means; eauto|]. destruct k as [|d|]; cbn in K; [right; split; congruence|left; congruence|discriminate].
    + injection P as <- <-. discriminate.
Qed.
Lemma pick_kw dflt r k r' k' : pick dflt r k = Ok (r', k') -> k' <> KNone /\ r' <> RNone.
Proof.
  unfold pick. destruct r; destruct k; try (intros H; injection H as <- <-; split; discriminate);
    (destruct (fst dflt); [|discriminate]); try (destruct (snd dflt); [|discriminate]); intros H; injection H as <- <-; split; discriminate.
Qed.
Lemma resolve_some m r b f : resolve m r b = Ok f -> r <> RNone -> exists g, f = Some g.
Proof.
  destruct r as [|st|g|]; cbn [resolve]; try congruence; intros H _.
  - destruct m; repeat (match type of H with (if ?c then _ else _) = _ => destruct c end); try discriminate; injection H as <-; eauto.
  - injection H as <-. eauto.
Qed.
(** setting one response of one detector *)
Lemma set_one m nm r k s : nm <> "instrument" -> In nm (i_names s) ->
  set_response m [nm] r k s =
    match resolve m r true, check_kwargs k with
    | Ok (Some f), Ok kk => (all_stale (set_dets s (dalter (set_resp m (f, match kk with Some d => d | None => [] end)) (i_dets s) nm) (i_names s)), Ok tt)
    | Ok None, Ok _ => (all_stale s, Ok tt)
    | Raise e, _ => (s, Raise e)
    | Ok _, Raise e => (s, Raise e)
    end.
Proof.
  intros Hi Hn. unfold set_response.
  assert (F : filter (fun d => negb (d =? "instrument")) [nm] = [nm]).
  { cbn [filter]. replace (nm =? "instrument") with false; auto. symmetry. apply String.eqb_neq. auto. }
  rewrite F. cbv zeta. rewrite check_det_do; [|constructor; auto; constructor|intros d [<-|[]]; auto]. cbn [bind length Nat.eqb negb].
  assert (F2 : smem "instrument" [nm] = false) by (apply smem_false; intros [H|[]]; congruence). rewrite F2.
  destruct (resolve m r true) as [[f|]|e]; cbn [bind]; destruct (check_kwargs k) as [kk|e0]; cbn [bind]; auto.
Qed.

Definition added (a : detargs) (s : inst) (off : Qc * Qc) (x y z : fn * kw) (s' : inst) : Prop :=
  i_names s' = i_names s ++ [new_name a s] /\ i_dets s' = dset (i_dets s) (new_name a s) (mkDet (Some x) (Some y) (Some z) (Some off)) /\
  i_count s' = S (i_count s) /\ same_fields s s' /\ same_defaults s s' /\
  forall k, dget (i_cons s') k = if smem k (i_fnames s) then Some false else dget (i_cons s) k.
Lemma add_all a s off x y z : tables_ok s -> new_name a s <> "instrument" -> ~ In (new_name a s) (i_names s) ->
  asked_off (a_off a) off -> asked Spatial (i_dspat s) (a_spat a) (a_spatk a) x -> asked Spectral (i_dspec s) (a_spec a) (a_speck a) y ->
  asked Noise (i_dnoise s) (a_noise a) (a_noisek a) z ->
  exists s', add_detector a s = (s', Ok tt) /\ added a s off x y z s'.
Proof.
  intros T Hi Hn Ho Hx Hy Hz. unfold add_detector. fold (new_name a s). set (nm := new_name a s) in *. cbv zeta.
  apply smem_false in Hn. rewrite Hn. cbn [negb check bind]. apply smem_false in Hn.
  assert (Eo : match a_off a with None => Ok (0, 0)%Qc | Some [x; y] => Ok (x, y) | Some _ => Raise ValueError end = Ok off).
  { destruct off as [o1 o2]. destruct Ho as [[-> E]|E]; [congruence|]. rewrite E. auto. }
  rewrite Eo. cbn [bind].
  apply pick_asked in Hx. destruct Hx as (rx & kx & -> & Rx & Kx). apply pick_asked in Hy. destruct Hy as (ry & ky & -> & Ry & Ky).
  apply pick_asked in Hz. destruct Hz as (rz & kz & -> & Rz & Kz). cbn [bind fst snd]. unfold then_.
  rewrite set_one; [|auto|cbn; apply in_or_app; right; left; auto]. rewrite Rx, Kx.
  rewrite set_one; [|auto|cbn; apply in_or_app; right; left; auto]. rewrite Ry, Ky.
  rewrite set_one; [|auto|cbn; apply in_or_app; right; left; auto]. rewrite Rz, Kz.
  eexists. split; [reflexivity|]. cbn [all_stale set_cons set_count set_dets i_dets i_names i_count i_cons i_fnames].
  split; [reflexivity|]. split.
  - cbn [all_stale set_cons set_count set_dets i_dets]. unfold dalter. repeat rewrite dget_dset_eq. rewrite ?dset_dset. cbn.
    repeat rewrite dget_dset_eq. rewrite ?dset_dset. destruct x, y, z; cbn. auto.
  - split; [reflexivity|]. split; [repeat split|]. split; [repeat split|]. intros k. cbn. rewrite !stale_get. destruct (smem k (i_fnames s)); auto.
Qed.
Lemma add_conv a s s' : tables_ok s -> new_name a s <> "instrument" -> add_detector a s = (s', Ok tt) ->
  ~ In (new_name a s) (i_names s) /\ exists off x y z, asked_off (a_off a) off /\ asked Spatial (i_dspat s) (a_spat a) (a_spatk a) x /\
    asked Spectral (i_dspec s) (a_spec a) (a_speck a) y /\ asked Noise (i_dnoise s) (a_noise a) (a_noisek a) z.
Proof.
  intros T Hi. unfold add_detector. fold (new_name a s). set (nm := new_name a s) in *. cbv zeta.
  destruct (smem nm (i_names s)) eqn:Em; [intros H; inversion H|]. cbn [negb check bind]. apply smem_false in Em.
  match goal with |- context [match a_off a with None => ?a1 | Some _ => _ end] => set (eo := match a_off a with None => a1 | Some [x; y] => Ok (x, y) | Some _ => Raise ValueError end) end.
  assert (Eo : forall o, eo = Ok o -> asked_off (a_off a) o).
  { unfold eo. intros o. destruct (a_off a) as [[|o1 [|o2 [|o3 l]]]|]; intros H; inversion H; subst; [right|left]; auto. }
  destruct eo as [off|e]; [|intros H; inversion H]. cbn [bind].
  destruct (pick (i_dspat s) (a_spat a) (a_spatk a)) as [[rx kx]|e] eqn:Px; [|intros H; inversion H].
  destruct (pick (i_dspec s) (a_spec a) (a_speck a)) as [[ry ky]|e] eqn:Py; [|intros H; inversion H].
  destruct (pick (i_dnoise s) (a_noise a) (a_noisek a)) as [[rz kz]|e] eqn:Pz; [|intros H; inversion H].
  cbn [bind fst snd]. unfold then_.
  destruct (pick_kw _ _ _ _ _ Px) as [Kx Nx]. destruct (pick_kw _ _ _ _ _ Py) as [Ky Ny]. destruct (pick_kw _ _ _ _ _ Pz) as [Kz Nz].
  assert (Dead : forall e (s0 : inst), match del_detectors [nm] s0 with (s3, Ok _) => (set_cons s3 (i_cons s), Raise e) | (s3, Raise e') => (s3, Raise e') end = (s', Ok tt) -> False).
  { intros e s0. destruct (del_detectors [nm] s0) as [s3 [u|e']]; intros H; inversion H. }
  assert (Fin : forall m r k, k <> KNone -> r <> RNone -> forall f, resolve m r true = Ok f -> forall kk, check_kwargs k = Ok kk -> exists g d, f = Some g /\ kk = Some d).
  { intros m r k Hk Hr f Ef kk Ekk. destruct (resolve_some m r true f Ef Hr) as [g ->]. destruct k; cbn in Ekk; try congruence. injection Ekk as <-. eauto. }
  rewrite set_one; [|auto|cbn; apply in_or_app; right; left; auto].
  destruct (resolve Spatial rx true) as [fx|e] eqn:Rx; [|intros H; destruct (Dead _ _ H)].
  destruct (check_kwargs kx) as [dx|e] eqn:Dx; [|destruct fx; intros H; destruct (Dead _ _ H)].
  destruct (Fin _ _ _ Kx Nx _ Rx _ Dx) as (gx & ex & -> & ->).
  rewrite set_one; [|auto|cbn; apply in_or_app; right; left; auto].
  destruct (resolve Spectral ry true) as [fy|e] eqn:Ry; [|intros H; destruct (Dead _ _ H)].
  destruct (check_kwargs ky) as [dy|e] eqn:Dy; [|destruct fy; intros H; destruct (Dead _ _ H)].
  destruct (Fin _ _ _ Ky Ny _ Ry _ Dy) as (gy & ey & -> & ->).
  rewrite set_one; [|auto|cbn; apply in_or_app; right; left; auto].
  destruct (resolve Noise rz true) as [fz|e] eqn:Rz; [|intros H; destruct (Dead _ _ H)].
  destruct (check_kwargs kz) as [dz|e] eqn:Dz; [|destruct fz; intros H; destruct (Dead _ _ H)].
  destruct (Fin _ _ _ Kz Nz _ Rz _ Dz) as (gz & ez & -> & ->).
  intros _. split; auto. exists off, (gx, ex), (gy, ey), (gz, ez). split; [apply Eo; auto|].
  split; [apply pick_asked; eauto|]. split; apply pick_asked; eauto.
Qed.

Lemma add_any a s s' : tables_ok s -> add_detector a s = (s', Ok tt) ->
  ~ In (new_name a s) (i_names s) /\ i_names s' = i_names s ++ [new_name a s] /\ (forall d, d <> new_name a s -> dget (i_dets s') d = dget (i_dets s) d) /\
  (exists x, dget (i_dets s') (new_name a s) = Some x) /\ same_fields s s' /\ i_count s' = S (i_count s) /\
  (forall k, dget (i_cons s') k = if smem k (i_fnames s) then Some false else dget (i_cons s) k).
Proof.
  intros T. unfold add_detector. fold (new_name a s). set (nm := new_name a s) in *. cbv zeta.
  destruct (smem nm (i_names s)) eqn:Em; [cbn; intros H; inversion H; auto|]. cbn [negb check bind].
  apply smem_false in Em.
  match goal with |- (match ?p with Ok _ => _ | Raise _ => _ end) = _ -> _ => destruct p as [[[[off sp] sc] no]|e0] end; [|intros H; inversion H; auto].
  match goal with |- (match then_ ?f ?g ?s0 with _ => _ end) = _ -> _ =>
    assert (Gr : grown s nm (fst (then_ f g s0))); [|destruct (then_ f g s0) as [s2 [u|e0]]] end.
  { apply then_grown; [intros; apply set_grown; auto|intros; apply then_grown; [intros; apply set_grown; auto|intros; apply set_grown; auto|auto]|].
    apply grow_first. }
  - cbn [fst] in Gr. destruct Gr as [[x Gx] Gn Gs Gd Gc Gk]. intros H. injection H as <-. split; auto.
    cbn [all_stale set_cons set_count set_dets i_dets i_names i_count i_cons i_fnames]. split; auto. split; [|split; [|split; [|split]]].
    + intros d Hd. rewrite dget_dalter, Gx, dget_dset. destruct (String.eqb_spec d nm); [congruence|auto].
    + rewrite dget_dalter, Gx, dget_dset, String.eqb_refl. cbn. eauto.
    + exact Gs.
    + congruence.
    + intros k. cbn. rewrite stale_get. destruct Gs as (_ & _ & G3 & _). rewrite G3. destruct (smem k (i_fnames s)) eqn:F; auto.
      destruct (Gk k) as [->|[Hk _]]; auto. apply smem_In in Hk. congruence.
  - cbn [fst] in Gr. destruct (del_grown s nm s2 T Em Gr) as (s3 & -> & _). intros H. inversion H.
Qed.
Lemma add_step a s s' r : tables_ok s -> add_detector a s = (s', r) -> det_step s s' /\ tables_ok s'.
Proof.
  intros T E. destruct r as [[]|e].
  - destruct (add_any a s s' T E) as (Hn & En & Ed & [x Ex] & Es & _ & Ec).
    assert (D : det_step s s') by (split; auto). split; auto. apply (tables_det s); auto.
    + rewrite En. apply NoDup_snoc; auto. apply T.
    + intros d. rewrite En, in_app_iff. cbn [In]. destruct (String.eqb_spec d (new_name a s)) as [->|Hd].
      * split; [eauto|]. intros _. right. left. auto.
      * rewrite Ed by auto. rewrite <- (t_dets _ T). split; [intros [|[|[]]]; auto; congruence|auto].
  - destruct (add_raise a s s' e T E) as [->|(_ & Ed & En & Es & _ & Ec)].
    + split; auto. split; [repeat split|left; auto].
    + assert (D : det_step s s') by (split; auto). split; auto. apply (tables_det s); auto.
      * rewrite En. apply T.
      * rewrite En, Ed. apply T.
Qed.

(** * Fields *)
Lemma add_field_ok g name idx ip chk s s' r : add_field g name idx ip chk s = (s', r) ->
  (exists e, r = Raise e /\ s' = s) \/ r = Ok tt /\ exists nm g' z, nm = match name with Some n => n | None => str_nat (i_fcount s) end /\ dget (i_fields s) nm = None /\
    s' = set_cons (set_fields s (dset (i_fields s) nm g') (dset (i_fprops s) nm z) (i_fnames s ++ [nm]) (S (i_fcount s))) (dset (i_cons s) nm false) /\
    (ip = true /\ g' = g /\ z = match idx with Some z => z | None => 0%Z end \/
     ip = false /\ grid_copy g (Some [match idx with Some z => z | None => 0%Z end]) = Ok g' /\ z = 0%Z).
Proof.
  unfold add_field. cbv zeta. set (iz := match idx with Some z => z | None => 0%Z end). set (nm := match name with Some n => n | None => _ end).
  destruct (check (negb (_ || _)%bool) ValueError); cbn [bind]; [|intros H; injection H as <- <-; left; eauto].
  match goal with |- context [bind ?x _] => destruct x; cbn [bind] end; [|intros H; injection H as <- <-; left; eauto].
  destruct (dmem (i_fields s) nm) eqn:Dm; cbn [negb check bind]; [intros H; injection H as <- <-; left; eauto|].
  match goal with |- context [bind ?x _] => destruct x; cbn [bind] end; [|intros H; injection H as <- <-; left; eauto].
  match goal with |- context [bind ?x _] => destruct x; cbn [bind] end; [|intros H; injection H as <- <-; left; eauto].
  apply dmem_none in Dm. destruct ip.
  - intros H; injection H as <- <-. right. split; auto. exists nm, g, iz. auto 10.
  - destruct (grid_copy g (Some [iz])) as [c|e] eqn:Ec; cbn [bind]; [|intros H; injection H as <- <-; left; eauto].
    intros H; injection H as <- <-. right. split; auto. exists nm, c, 0%Z. auto 10.
Qed.
Lemma add_field_tables g name idx ip chk s : tables_ok s -> tables_ok (fst (add_field g name idx ip chk s)).
Proof.
  intros T. destruct (add_field g name idx ip chk s) as [s' r] eqn:E. apply add_field_ok in E. cbn [fst].
  destruct E as [(e & _ & ->)|(_ & nm & g' & z & _ & Hn & -> & _)]; auto.
  assert (Hf : ~ In nm (i_fnames s)) by (intros H; apply (t_fields _ T) in H; destruct H; congruence).
  constructor; cbn; try apply T.
  - apply NoDup_snoc; auto. apply T.
  - intros f. rewrite in_app_iff, dget_dset, (t_fields _ T). cbn [In]. destruct (String.eqb_spec f nm) as [->|H]; split; eauto; intros [|[|[]]]; auto. congruence.
  - intros f. rewrite in_app_iff, dget_dset, (t_fprops _ T). cbn [In]. destruct (String.eqb_spec f nm) as [->|H]; split; eauto; intros [|[|[]]]; auto. congruence.
  - intros f m H. apply in_or_app. left. eapply t_maps; eauto.
  - intros f. rewrite in_app_iff, dget_dset. cbn [In]. destruct (String.eqb_spec f nm) as [->|H]; eauto. intros [Hi|[Hi|[]]]; [apply T; auto|congruence].
  - intros f. rewrite dget_dset. destruct (String.eqb_spec f nm) as [->|H]; [discriminate|]. apply T.
Qed.
Lemma del_field_one s f : tables_ok s -> In f (i_fnames s) -> tables_ok (del_field s f) /\ i_fnames (del_field s f) = filter (fun k => negb (String.eqb k f)) (i_fnames s) /\
  i_names (del_field s f) = i_names s /\ i_dets (del_field s f) = i_dets s /\ i_bres (del_field s f) = i_bres s /\
  (forall k, k <> f -> dget (i_fields (del_field s f)) k = dget (i_fields s) k /\ dget (i_maps (del_field s f)) k = dget (i_maps s) k /\ dget (i_cons (del_field s f)) k = dget (i_cons s) k) /\
  dget (i_cons (del_field s f)) f <> Some true.
Proof.
  intros T Hf. unfold del_field. cbv zeta. cbn [i_maps set_fields i_cons].
  assert (En : remove_first f (i_fnames s) = filter (fun k => negb (String.eqb k f)) (i_fnames s)) by (apply remove_first_filter; apply T).
  assert (Df : forall X (d : dict X) k, k <> f -> dget (ddel d f) k = dget d k).
  { intros X d k Hk. rewrite dget_ddel. destruct (String.eqb_spec f k); [congruence|auto]. }
  assert (Sel : forall X (d : dict X) k, (In k (i_fnames s) <-> exists x, dget d k = Some x) ->
     (In k (filter (fun k => negb (String.eqb k f)) (i_fnames s)) <-> exists x, dget (ddel d f) k = Some x)).
  { intros X d k H. rewrite filter_In, dget_ddel, negb_true_iff, eqb_sym. destruct (String.eqb f k); [split; [intros []; discriminate|intros [? ?]; discriminate]|].
    rewrite <- H. tauto. }
  destruct (dmem (i_maps s) f) eqn:Em.
  - split; [|cbn; split; [auto|]; split; [auto|]; split; [auto|]; split; [auto|]; split; [intros k Hk; auto using Df|rewrite dget_ddel, String.eqb_refl; discriminate]].
    constructor; cbn; rewrite ?En; try apply T.
    + apply NoDup_filter_, T.
    + intros k. apply Sel, T.
    + intros k. apply Sel, T.
    + intros k m. rewrite dget_ddel. destruct (String.eqb_spec f k) as [->|H]; [discriminate|]. intros Hm. rewrite filter_In. split; [eapply t_maps; eauto|].
      apply negb_true_iff, String.eqb_neq. auto.
    + intros k. rewrite filter_In, negb_true_iff, String.eqb_neq. intros [Hk Hk2]. rewrite Df by auto. apply T; auto.
    + intros k. rewrite !dget_ddel. destruct (String.eqb f k); [discriminate|apply T].
  - apply dmem_none in Em. split; [|cbn; split; [auto|]; split; [auto|]; split; [auto|]; split; [auto|]; split; [intros k Hk; auto using Df|]].
    + constructor; cbn; rewrite ?En; try apply T.
      * apply NoDup_filter_, T.
      * intros k. apply Sel, T.
      * intros k. apply Sel, T.
      * intros k m Hm. rewrite filter_In. split; [eapply t_maps; eauto|]. apply negb_true_iff, String.eqb_neq. congruence.
      * intros k. rewrite filter_In. intros [Hk _]. apply T; auto.
    + intros H. apply (t_valid _ T) in H. destruct H. congruence.
Qed.
Lemma del_fields_ok names s s' r : tables_ok s -> del_fields names s = (s', r) ->
  tables_ok s' /\ i_names s' = i_names s /\ i_dets s' = i_dets s /\ i_bres s' = i_bres s /\
  (forall k, dget (i_cons s') k = Some true -> dget (i_cons s) k = Some true /\ dget (i_fields s') k = dget (i_fields s) k /\ dget (i_maps s') k = dget (i_maps s) k) /\
  (r = Ok tt -> i_fnames s' = filter (fun k => negb (smem k names)) (i_fnames s) /\ forall k, ~ In k names ->
     dget (i_fields s') k = dget (i_fields s) k /\ dget (i_maps s') k = dget (i_maps s) k /\ dget (i_cons s') k = dget (i_cons s) k) /\
  (forall e, r = Raise e -> s' = s).
Proof.
  intros T. unfold del_fields. destruct (check_fields s names) as [u|e] eqn:C.
  - apply check_fld_ok in C. destruct C as [N Hin]. intros H. injection H as <- <-.
    enough (K : forall names s, tables_ok s -> NoDup names -> (forall d, In d names -> In d (i_fnames s)) -> let s' := fold_left del_field names s in
       tables_ok s' /\ i_names s' = i_names s /\ i_dets s' = i_dets s /\ i_bres s' = i_bres s /\
      (forall k, dget (i_cons s') k = Some true -> dget (i_cons s) k = Some true /\ dget (i_fields s') k = dget (i_fields s) k /\ dget (i_maps s') k = dget (i_maps s) k) /\
      (i_fnames s' = filter (fun k => negb (smem k names)) (i_fnames s) /\ forall k, ~ In k names ->
     dget (i_fields s') k = dget (i_fields s) k /\ dget (i_maps s') k = dget (i_maps s) k /\ dget (i_cons s') k = dget (i_cons s) k)).
    { destruct (K names s T N) as (A & B & C & D & E & F); [intros d Hd; apply T; auto|]. split; auto. split; auto. split; auto. split; auto. split; auto. split; auto. discriminate. }
    clear. induction names as [|f names IH]; intros s T N Hin; cbn [fold_left]; cbv zeta.
    { repeat (split; [solve [auto]|]). split; auto. symmetry. apply filter_all. auto. }
    inversion N; subst. destruct (del_field_one s f T (Hin f (or_introl eq_refl))) as (T1 & F1 & N1 & D1 & B1 & K1 & Z1).
    assert (Hin1 : forall d, In d names -> In d (i_fnames (del_field s f))).
    { intros d Hd. rewrite F1, filter_In, negb_true_iff, String.eqb_neq. split; [apply Hin; right; auto|congruence]. }
    destruct (IH (del_field s f) T1 H2 Hin1) as (A & B & C & D & E & F & G). split; auto.
    split; [congruence|]. split; [congruence|]. split; [congruence|]. split; [|split].
    + intros k Hk. destruct (E k Hk) as (E1 & E2 & E3). assert (Hkf : k <> f) by congruence. destruct (K1 k Hkf) as (K2 & K3 & K4).
      split; [congruence|]. split; congruence.
    + rewrite F, F1, filter_filter. apply filter_ext. intros k. cbn [smem existsb]. destruct (String.eqb_spec k f); cbn; auto.
    + intros k Hk. assert (Hk1 : k <> f) by (intros ->; apply Hk; left; auto). assert (Hk2 : ~ In k names) by (intros Hx; apply Hk; right; auto).
      destruct (K1 k Hk1) as (K2 & K3 & K4). destruct (G k Hk2) as (G1 & G2 & G3). split; [congruence|]. split; congruence.
  - intros H; injection H as <- <-. repeat (split; [solve [auto]|]). split; [discriminate|auto].
Qed.
