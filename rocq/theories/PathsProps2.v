(** C126: what setting up the root and registering entries leave on disk. *)
From Verif Require Import Dict Util PathsModel PathsSpec.
From Coq Require Import Ascii Lia.
Open Scope string_scope. Open Scope list_scope.

(** the directories below the root *)
Definition tree : list string :=
  ["simim_resources"; "simim_resources/.paths"; "simim_resources/simulations"; "simim_resources/lightcones"; "simim_resources/galprops"].
(** the data directory of a kind of entry *)
Definition home (k : kind) : string :=
  match k with KSim => "simim_resources/simulations" | KLc => "simim_resources/lightcones" | KProp => "simim_resources/galprops" end.

Lemma mkdir_ok fs p fs' : (if exists_ fs p then (fs, Ok tt) else mkdir fs p) = (fs', Ok tt) ->
  exists_ fs' p = true /\ (forall q, fs_file fs' q = fs_file fs q) /\ (forall q, fs_dir fs' q = true <-> fs_dir fs q = true \/ (q = p /\ exists_ fs p = false)).
Proof.
  destruct (exists_ fs p) eqn:X.
  - intros [= <-]. split; [exact X|]. split; [reflexivity|]. intros q. split; [auto|]. intros [H|[_ H]]; [exact H|discriminate].
  - unfold mkdir. rewrite X. cbn [orb]. destruct (negb (parent_ok fs p)); [discriminate|]. intros [= <-].
    split; [unfold exists_; cbn; destruct (fs_file fs p); [reflexivity|]; rewrite String.eqb_refl; reflexivity|]. split; [reflexivity|].
    intros q. cbn. destruct (String.eqb_spec q p); cbn; intuition.
Qed.
Lemma exists_mono fs fs' p : (forall q, fs_file fs' q = fs_file fs q) -> (forall q, fs_dir fs q = true -> fs_dir fs' q = true) -> exists_ fs p = true -> exists_ fs' p = true.
Proof. intros F D. unfold exists_. rewrite F. destruct (fs_file fs p); [reflexivity|apply D]. Qed.
Lemma mkdirs_ok ps : forall fs fs', mkdirs fs ps = (fs', Ok tt) ->
  (forall p, In p ps -> exists_ fs' p = true) /\ (forall q, fs_file fs' q = fs_file fs q) /\ (forall q, fs_dir fs q = true -> fs_dir fs' q = true)
  /\ (forall q, fs_dir fs' q = true -> fs_dir fs q = true \/ In q ps).
Proof.
  induction ps as [|p r IH]; intros fs fs'; cbn [mkdirs].
  - intros [= <-]. repeat split; try tauto. intros p [].
  - destruct (if exists_ fs p then (fs, Ok tt) else mkdir fs p) as [f1 [[]|e]] eqn:M; [|discriminate]. intros H.
    destruct (mkdir_ok _ _ _ M) as (A & B & C). destruct (IH _ _ H) as (A' & B' & C' & D').
    split; [intros x [<-|I]; [exact (exists_mono _ _ _ B' C' A)|exact (A' x I)]|].
    split; [intros q; rewrite B'; apply B|]. split; [intros q Q; apply C', C; auto|].
    intros q Q. destruct (D' q Q) as [Q'|Q']; [|right; right; exact Q']. apply C in Q'. destruct Q' as [Q'|[-> _]]; [left; exact Q'|right; left; reflexivity].
Qed.

Lemma load_root_kept fs s : s_root (fst (load_paths fs s)) = s_root s.
Proof.
  unfold load_paths. destruct (s_root s) as [r|] eqn:R; [|reflexivity].
  destruct (load_paths_file fs (join r (list_ext KLc))); [|cbn; exact R].
  destruct (load_paths_file fs (join r (list_ext KSim))); [|cbn; exact R].
  destruct (load_paths_file fs (join r (list_ext KProp))); cbn; exact R.
Qed.

(** A setup that returns normally has changed nothing at all, or has recorded a root: it is the one asked for or the one that was
    there, made absolute. The record on disk is the root and the five directories below it exist. No other file changes and
    nothing but these directories is created. *)
Theorem C126_setup E root confirm answers s fs s' fs' : setup E root confirm answers (s, fs) = ((s', fs'), Ok tt) ->
  (s' = s /\ fs' = fs) \/
  exists r, (r = e_user E root \/ s_root s = Some r) /\ exists_ fs r = true
    /\ s_root s' = Some (e_abs E r) /\ fs_file fs' (e_rootfile E) = Some (e_abs E r)
    /\ (forall d, In d tree -> exists_ fs' (join (e_abs E r) d) = true)
    /\ (forall q, q <> e_rootfile E -> fs_file fs' q = fs_file fs q)
    /\ (forall q, fs_dir fs q = true -> fs_dir fs' q = true)
    /\ (forall q, fs_dir fs' q = true -> fs_dir fs q = true \/ exists d, In d tree /\ q = join (e_abs E r) d).
Proof.
  unfold setup. destruct (pick_root E root answers s) as [[r rest]|e] eqn:P; [|discriminate].
  assert (PR : r = e_user E root \/ s_root s = Some r).
  { unfold pick_root in P. destruct (s_root s) as [r0|]; [|injection P as <- _; auto].
    destruct (String.eqb (e_user E root) r0); [injection P as <- _; auto|]. destruct (ask answers) as [[b a]|]; [|discriminate].
    cbn [bind] in P. injection P as <- _. destruct b; auto. }
  destruct (exists_ fs r) eqn:X; cbn [negb]; [|discriminate].
  destruct (if confirm then _ else _) as [[|]|e]; [|intros [= <- <-]; auto|discriminate].
  destruct (write_file fs (e_rootfile E) (e_abs E r)) as [f1 [[]|e]] eqn:W; [|discriminate].
  unfold write_file in W. destruct (fs_dir fs (e_rootfile E) || negb (parent_ok fs (e_rootfile E))); [discriminate|]. injection W as <-.
  match goal with |- context [mkdirs ?f ?l] => destruct (mkdirs f l) as [f2 [[]|e]] eqn:M end; [|discriminate].
  destruct (mkdirs_ok _ _ _ M) as (A & B & C & D).
  match goal with |- context [load_paths f2 ?s1] => pose proof (load_root_kept f2 s1) as L; destruct (load_paths f2 s1) as [s2 rr] end.
  intros [= <- <- _]. cbn in L. right. exists r. split; [exact PR|]. split; [exact X|]. split; [exact L|].
  split; [rewrite B; cbn [put fs_file]; rewrite String.eqb_refl; reflexivity|].
  split. { intros d Hd. apply A. unfold tree in Hd. cbn [In] in Hd |- *. intuition (subst; auto). }
  split. { intros q Q. rewrite B. cbn [put fs_file]. apply String.eqb_neq in Q. rewrite Q. reflexivity. }
  split; [exact C|]. intros q Q. destruct (D q Q) as [H|H]; [left; exact H|right]. cbn [In] in H.
  repeat (destruct H as [<-|H]; [eexists; split; [|reflexivity]; unfold tree; cbn [In data_ext]; tauto|]). destruct H.
Qed.
Print Assumptions C126_setup.

(** The first setup: a root that does not exist is refused and an 'n' leaves everything as it was; after a 'y' it goes on as it
    does when no confirmation is asked for. *)
Theorem C126_first E root s fs : s_root s = None ->
  (forall confirm answers, exists_ fs (e_user E root) = false -> setup E root confirm answers (s, fs) = ((s, fs), Raise NameError)) /\
  (exists_ fs (e_user E root) = true -> forall pre, Forall unclear pre ->
    (forall rest, setup E root true (pre ++ "n" :: rest) (s, fs) = ((s, fs), Ok tt)) /\
    (forall rest, setup E root true (pre ++ "y" :: rest) (s, fs) = setup E root false [] (s, fs)) /\
    setup E root true pre (s, fs) = ((s, fs), Raise EOFError)).
Proof.
  intros R.
  assert (A : forall pre, Forall unclear pre -> forall l, ask (pre ++ l) = ask l).
  { intros pre F l. induction F as [|a p [Hy Hn] F IH]; [reflexivity|]. cbn. apply String.eqb_neq in Hy, Hn. rewrite Hy, Hn. exact IH. }
  split.
  - intros confirm answers X. unfold setup, pick_root. rewrite R, X. reflexivity.
  - intros X pre F. unfold setup, pick_root. rewrite R, X. cbn [negb]. pose proof (A pre F []) as A0. rewrite app_nil_r in A0.
    split; [|split]; intros; rewrite ?(A pre F), ?A0; reflexivity.
Qed.
Print Assumptions C126_first.

(** Where an entry goes. With 'auto' it gets the directory of its name below the data directory of its kind, which is made if
    it is not there; with a path typed in it gets that path, which must exist. Nothing else is created. *)
Theorem C126_place E k name np answers s fs r : s_root s = Some r ->
  let p := join (join r (home k)) name in
  (forall s' fs', register E k name (Some "auto") false answers (s, fs) = ((s', fs'), Ok tt) ->
     dget (reg s' k) name = Some (e_abs E p) /\ exists_ fs' p = true
     /\ (forall q, fs_dir fs' q = true <-> fs_dir fs q = true \/ (q = p /\ exists_ fs p = false))) /\
  (np = None \/ np = Some "" -> forall a,
     (exists_ fs a = false -> register E k name np false (a :: answers) (s, fs) = ((s, fs), Raise NameError)) /\
     (forall s' fs', register E k name np false (a :: answers) (s, fs) = ((s', fs'), Ok tt) ->
        exists_ fs a = true /\ dget (reg s' k) name = Some (e_abs E a) /\ (forall q, fs_dir fs' q = fs_dir fs q))).
Proof.
  intros R p.
  assert (HD : data_ext k = home k) by (destruct k; reflexivity).
  assert (G : forall d v, dget (reg (set_reg s k d) k) v = dget d v) by (destruct k; reflexivity).
  assert (AP : forall f q c f', append_file f q c = (f', Ok tt) -> (forall x, fs_dir f' x = fs_dir f x) /\ (forall x, fs_file f x <> None -> fs_file f' x <> None)).
  { intros f q c f'. unfold append_file. destruct (fs_dir f q || negb (parent_ok f q)); [discriminate|]. intros [= <-].
    split; [reflexivity|]. intros x. cbn. destruct (String.eqb x q); [discriminate|auto]. }
  split.
  - intros s' fs'. unfold register. rewrite R. cbn [andb]. unfold resolve. cbn [String.eqb Ascii.eqb Bool.eqb]. rewrite HD. fold p.
    destruct (if exists_ fs p then (fs, Ok tt) else mkdir fs p) as [f1 [[]|e]] eqn:M; [|discriminate].
    destruct (mkdir_ok _ _ _ M) as (A & B & C).
    match goal with |- context [append_file f1 ?q ?c] => destruct (append_file f1 q c) as [f2 [[]|e]] eqn:W end; [|discriminate].
    destruct (AP _ _ _ _ W) as [D F]. intros [= <- <-]. split; [rewrite G; apply dget_dset_eq|]. split.
    + unfold exists_ in A |- *. rewrite D. specialize (F p). destruct (fs_file f1 p); destruct (fs_file f2 p); auto. elim F; [discriminate|reflexivity].
    + intros q. rewrite D. apply C.
  - intros N a.
    assert (RS : resolve k name np (a :: answers) r fs = if exists_ fs a then (fs, Ok a) else (fs, Raise NameError)) by (destruct N as [->| ->]; reflexivity).
    unfold register. rewrite R. cbn [andb]. rewrite RS. split; [intros ->; reflexivity|]. intros s' fs'.
    destruct (exists_ fs a); [|discriminate].
    match goal with |- context [append_file fs ?q ?c] => destruct (append_file fs q c) as [f2 [[]|e]] eqn:W end; [|discriminate].
    destruct (AP _ _ _ _ W) as [D _]. intros [= <- <-]. split; [reflexivity|]. split; [rewrite G; apply dget_dset_eq|exact D].
Qed.
Print Assumptions C126_place.

(** a fresh installation with the root /w, where a simulation and a light cone are then registered *)
Example C126_nonvacuous :
  let E := mkEnv (fun p => if String.eqb p "data" then "/w/data" else p) (fun p => if String.eqb p "~" then "/w" else p) "/lib/res" in
  let fs := mkFS (fun _ => None) (fun q => smem q ["/w"; "/lib"; "/lib/res"; "/w/data"]) in
  let s := mkSess None [] [] [] in
  exists s1 fs1 s2 fs2, setup E "~" true ["maybe"; "y"] (s, fs) = ((s1, fs1), Ok tt)
    /\ s_root s1 = Some "/w" /\ fs_dir fs1 "/w/simim_resources/lightcones" = true
    /\ register E KLc "cone" (Some "auto") false [] (s1, fs1) = ((s2, fs2), Ok tt)
    /\ fs_dir fs2 "/w/simim_resources/lightcones/cone" = true.
Proof. cbv zeta. do 4 eexists. split; [reflexivity|]. split; [reflexivity|]. split; [vm_compute; reflexivity|]. split; [vm_compute; reflexivity|]. vm_compute. reflexivity. Qed.
