(** Proofs about the path registry. *)
From Verif Require Import Dict Util PathsModel PathsSpec.
From Coq Require Import Ascii.
Open Scope string_scope.
Open Scope list_scope.
Notation sapp := String.append.

(** * Strings *)
Lemma sapp_assoc a b c : sapp (sapp a b) c = sapp a (sapp b c).
Proof. induction a; simpl; congruence. Qed.
Lemma sapp_nil a : sapp a "" = a.
Proof. induction a; simpl; congruence. Qed.
Lemma sapp_inj a b c : sapp a b = sapp a c -> b = c.
Proof. induction a; simpl; auto. intros [= H]; auto. Qed.

Lemma plain_cons a s : plain (String a s) <-> (a <> sp /\ a <> nl /\ a <> cr) /\ plain s.
Proof.
  unfold plain; simpl. split.
  - intros H; split; [apply H; auto|]. intros c Hc; apply H; auto.
  - intros [H1 H2] c [<-|Hc]; auto.
Qed.
Lemma list_ascii_app a b : list_ascii_of_string (sapp a b) = list_ascii_of_string a ++ list_ascii_of_string b.
Proof. induction a; simpl; congruence. Qed.
Lemma plain_app a b : plain (sapp a b) <-> plain a /\ plain b.
Proof.
  unfold plain. rewrite list_ascii_app. setoid_rewrite in_app_iff. firstorder.
Qed.

(** [c] does not occur in [s] *)
Definition lacks (c : ascii) (s : string) : Prop := ~ In c (list_ascii_of_string s).
Lemma plain_lacks s : plain s -> lacks sp s /\ lacks nl s /\ lacks cr s.
Proof. intros H. repeat split; intros Hc; apply H in Hc; tauto. Qed.

Lemma split_lacks c s : lacks c s -> split_on c s = [s].
Proof.
  induction s as [|a s IH]; simpl; intros H; auto.
  destruct (Ascii.eqb_spec a c); [subst; exfalso; apply H; simpl; auto|].
  rewrite IH; auto. intros Hc; apply H; simpl; auto.
Qed.
Lemma split_neq c s : split_on c s <> [].
Proof. destruct s as [|a s]; simpl; [discriminate|]. destruct (Ascii.eqb a c); [discriminate|]. destruct (split_on c s); discriminate. Qed.
Lemma split_word c w s : lacks c w -> split_on c (sapp w (String c s)) = w :: split_on c s.
Proof.
  induction w as [|a w IH]; simpl; intros H.
  - rewrite Ascii.eqb_refl. reflexivity.
  - destruct (Ascii.eqb_spec a c); [subst; exfalso; apply H; simpl; auto|].
    rewrite IH; auto. intros Hc; apply H; simpl; auto.
Qed.
Lemma split_after c s t : split_on c (sapp s (String c t)) = split_on c s ++ split_on c t.
Proof.
  induction s as [|a s IH]; simpl.
  - rewrite Ascii.eqb_refl. reflexivity.
  - destruct (Ascii.eqb a c); [rewrite IH; reflexivity|].
    rewrite IH. destruct (split_on c s) as [|w ws] eqn:E; [exfalso; eapply split_neq; eauto|reflexivity].
Qed.

(** [s] ends in a newline or is empty *)
Definition clean (s : string) : Prop := s = "" \/ exists s', s = sapp s' (String nl EmptyString).
Lemma univ_lacks s : lacks cr s -> univ s = s.
Proof.
  induction s as [|a s IH]; simpl; intros H; auto.
  destruct (Ascii.eqb_spec a cr); [subst; exfalso; apply H; simpl; auto|].
  rewrite IH; auto. intros Hc; apply H; simpl; auto.
Qed.
Lemma univ_nl_end s : exists s', univ (sapp s (String nl EmptyString)) = sapp s' (String nl EmptyString) /\
  forall t, lacks cr t -> univ (sapp s (String nl t)) = sapp s' (String nl t).
Proof.
  enough (G : forall n s, String.length s <= n -> exists s', univ (sapp s (String nl EmptyString)) = sapp s' (String nl EmptyString) /\
    forall t, lacks cr t -> univ (sapp s (String nl t)) = sapp s' (String nl t)) by (apply (G (String.length s)); auto).
  clear s. induction n as [|n IH]; intros s Hn.
  - destruct s; simpl in Hn; [|lia]. exists "". split; auto. intros t Ht. simpl. rewrite univ_lacks; auto.
  - destruct s as [|a s]; [exists ""; split; auto; intros t Ht; simpl; rewrite univ_lacks; auto|].
    simpl in Hn. destruct (Ascii.eqb_spec a cr) as [->|Ha].
    + destruct s as [|b s]; [exists ""; split; auto; intros t Ht; simpl; rewrite univ_lacks; auto|].
      destruct (Ascii.eqb_spec b nl) as [->|Hb].
      * simpl in Hn. destruct (IH s) as (s' & E1 & E2); [lia|]. exists (String nl s').
        split; [simpl; rewrite E1; reflexivity|]. intros t Ht. simpl. rewrite E2; auto.
      * destruct (IH (String b s)) as (s' & E1 & E2); [simpl in *; lia|]. exists (String nl s').
        assert (Eb : Ascii.eqb b nl = false) by (apply Ascii.eqb_neq; auto).
        split.
        { transitivity (String nl (univ (sapp (String b s) (String nl EmptyString)))).
          - cbn [sapp univ]. change (Ascii.eqb cr cr) with true. cbv iota. rewrite Eb. reflexivity.
          - rewrite E1. reflexivity. }
        { intros t Ht. transitivity (String nl (univ (sapp (String b s) (String nl t)))).
          - cbn [sapp univ]. change (Ascii.eqb cr cr) with true. cbv iota. rewrite Eb. reflexivity.
          - rewrite E2; auto. }
    + destruct (IH s) as (s' & E1 & E2); [lia|]. exists (String a s').
      assert (Ea : Ascii.eqb a cr = false) by (apply Ascii.eqb_neq; auto).
      split; [cbn [sapp univ]; rewrite Ea, E1; reflexivity|]. intros t Ht. cbn [sapp univ]. rewrite Ea, E2; auto.
Qed.

Lemma lines_end s l : l <> "" -> lacks nl l -> lacks cr l -> clean s -> lines (sapp s l) = lines s ++ [l].
Proof.
  intros Hl H1 H2 [->|(s' & ->)].
  - unfold lines. simpl. rewrite univ_lacks, split_lacks by auto. simpl. destruct l; [tauto|reflexivity].
  - unfold lines. rewrite sapp_assoc. cbn [sapp].
    destruct (univ_nl_end s') as (u & E1 & E2). rewrite E1, E2 by auto.
    rewrite !split_after, (split_lacks nl l) by auto. simpl (split_on nl "").
    rewrite !rev_app_distr. simpl rev. cbn [app]. rewrite rev_involutive. destruct l; [tauto|reflexivity].
Qed.

Lemma lines_append s l : lacks nl l -> lacks cr l -> clean s ->
  lines (sapp s (sapp l (String nl EmptyString))) = lines s ++ [l] /\ clean (sapp s (sapp l (String nl EmptyString))).
Proof.
  intros H1 H2 Hc. split; [|right; exists (sapp s l); rewrite sapp_assoc; reflexivity].
  destruct Hc as [->|(s' & ->)].
  - simpl. unfold lines at 1.
    assert (E : univ (sapp l (String nl EmptyString)) = sapp l (String nl EmptyString)).
    { apply univ_lacks. unfold lacks. rewrite list_ascii_app, in_app_iff. simpl. intros [H|[H|[]]]; [apply H2; auto|discriminate]. }
    rewrite E, split_word by auto. reflexivity.
  - unfold lines. rewrite sapp_assoc. cbn [sapp].
    destruct (univ_nl_end s') as (u & E1 & E2). rewrite E1.
    rewrite E2. 2:{ unfold lacks. rewrite list_ascii_app, in_app_iff. simpl. intros [H|[H|[]]]; [apply H2; auto|discriminate]. }
    rewrite !split_after, (split_lacks nl l) by auto. simpl (split_on nl "").
    rewrite !rev_app_distr. simpl rev. cbn [app]. rewrite !rev_involutive.
    simpl. rewrite rev_involutive. reflexivity.
Qed.

Lemma read_app l1 l2 d : read_lines (l1 ++ l2) d = bind (read_lines l1 d) (read_lines l2).
Proof.
  revert d; induction l1 as [|a l1 IH]; intros d; simpl; auto.
  destruct (split_on sp a) as [|x [|y r]]; auto.
Qed.

Lemma read_line name p d : lacks sp name -> lacks sp p -> read_lines [sapp name (String sp p)] d = Ok (dset d name p).
Proof. intros H1 H2. cbn [read_lines]. rewrite split_word, split_lacks by auto. reflexivity. Qed.

(** * Paths *)
Lemma join_inj r a b : starts_slash a = false -> starts_slash b = false -> join r a = join r b -> a = b.
Proof.
  unfold join. intros -> ->. destruct (_ || _); intros H; apply sapp_inj in H; auto. congruence.
Qed.

Definition sufx (s : string) : list ascii := firstn 5 (rev (list_ascii_of_string s)).
Lemma sufx_app a b : (5 <= String.length b)%nat -> sufx (sapp a b) = sufx b.
Proof.
  intros H. unfold sufx. rewrite list_ascii_app, rev_app_distr, firstn_app, rev_length.
  assert (E : length (list_ascii_of_string b) = String.length b).
  { clear. induction b; simpl; auto. }
  rewrite E. replace (5 - String.length b)%nat with 0%nat by lia. rewrite firstn_O, app_nil_r. reflexivity.
Qed.
Lemma sufx_join r a : (5 <= String.length a)%nat -> sufx (join r a) = sufx a.
Proof.
  intros H. unfold join. destruct (starts_slash a); auto. destruct (_ || _).
  - apply sufx_app; auto.
  - rewrite (sufx_app r (String "/" a)) by (simpl; lia). apply (sufx_app "/" a); auto.
Qed.
Lemma rootfile_neq E r k : e_rootfile E <> join r (list_ext k).
Proof.
  intros H. apply (f_equal sufx) in H. unfold e_rootfile in H. rewrite !sufx_join in H by (try destruct k; simpl; lia).
  destruct k; discriminate.
Qed.
Lemma list_ext_inj r k k' : join r (list_ext k) = join r (list_ext k') -> k = k'.
Proof.
  intros H. apply join_inj in H; [|destruct k; reflexivity|destruct k'; reflexivity].
  destruct k, k'; auto; discriminate.
Qed.
Lemma kind_dec (k k' : kind) : {k = k'} + {k <> k'}.
Proof. decide equality. Qed.

Lemma ends_slash_app a b : b <> "" -> ends_slash (sapp a b) = ends_slash b.
Proof.
  intros Hb. induction a as [|c a IH]; auto. cbn [sapp ends_slash].
  destruct (sapp a b) eqn:E; [|auto]. destruct a; simpl in E; [congruence|discriminate].
Qed.
Lemma data_join r k name : starts_slash name = false ->
  join (join r (data_ext k)) name = join r (sapp (data_ext k) (String "/" name)).
Proof.
  intros H. unfold join at 1. rewrite H.
  assert (N : String.eqb (join r (data_ext k)) "" || ends_slash (join r (data_ext k)) = false).
  { unfold join. replace (starts_slash (data_ext k)) with false by (destruct k; reflexivity).
    destruct ((r =? "") || ends_slash r);
       (rewrite ends_slash_app by (destruct k; discriminate); destruct r, k; reflexivity). }
  rewrite N. unfold join. replace (starts_slash (data_ext k)) with false by (destruct k; reflexivity).
  replace (starts_slash (sapp (data_ext k) (String "/" name))) with false by (destruct k; reflexivity).
  destruct ((r =? "") || ends_slash r); rewrite !sapp_assoc; reflexivity.
Qed.
Lemma data_neq r k k' name : (starts_slash name = true -> name <> join r (list_ext k')) ->
  join (join r (data_ext k)) name <> join r (list_ext k').
Proof.
  intros H. destruct (starts_slash name) eqn:Hs; [unfold join at 1; rewrite Hs; auto|]. clear H.
  rewrite data_join by auto. intros E. apply join_inj in E; [|destruct k; reflexivity|destruct k'; reflexivity].
  destruct k, k'; discriminate.
Qed.

(** * The invariant *)
Definition reg_ok (fs : fsys) (r : string) (k : kind) (d : dict string) : Prop :=
  fs_dir fs (join r (list_ext k)) = false /\
  match fs_file fs (join r (list_ext k)) with
  | None => d = []
  | Some c => clean c /\ read_lines (lines c) [] = Ok d
  end.

Record pinv (E : env) (s : sess) (fs : fsys) : Prop := {
  v_res : exists_ fs (e_res E) = true;
  v_root : load_root fs (e_rootfile E) = Ok (s_root s);
  v_regs : match s_root s with
           | None => s_lcs s = [] /\ s_sims s = [] /\ s_props s = []
           | Some r => plain r /\ forall k, reg_ok fs r k (reg s k)
           end }.

Lemma reg_load fs r k d : reg_ok fs r k d -> load_paths_file fs (join r (list_ext k)) = Ok d.
Proof.
  intros [H1 H2]. unfold load_paths_file, exists_. rewrite H1.
  destruct (fs_file fs (join r (list_ext k))) as [c|]; [tauto|subst; reflexivity].
Qed.

Lemma pinv_load E s fs : pinv E s fs -> new_session E fs = (fs, Ok s).
Proof.
  intros [H1 H2 H3]. unfold new_session. rewrite H1, H2. unfold load_paths. cbn [s_root].
  destruct (s_root s) as [r|] eqn:Er.
  - destruct H3 as [_ H3]. rewrite (reg_load _ _ _ _ (H3 KLc)), (reg_load _ _ _ _ (H3 KSim)), (reg_load _ _ _ _ (H3 KProp)).
    destruct s; simpl in *; subst; reflexivity.
  - destruct s; simpl in *. destruct H3 as (-> & -> & ->). subst. reflexivity.
Qed.

Lemma mkdir_frame fs p fs' x : mkdir fs p = (fs', x) ->
  fs_file fs' = fs_file fs /\ (forall q, exists_ fs q = true -> exists_ fs' q = true) /\
  (forall q, q <> p -> fs_dir fs' q = fs_dir fs q).
Proof.
  unfold mkdir. destruct (_ || _); intros H; apply (f_equal fst) in H; cbn [fst] in H; subst fs'; cbn [fs_file fs_dir].
  - auto.
  - split; auto. split.
    + intros q. unfold exists_. cbn [fs_file fs_dir]. destruct (fs_file fs q); auto. intros ->. apply orb_true_r.
    + intros q Hq. apply String.eqb_neq in Hq. rewrite Hq. reflexivity.
Qed.
Lemma mkdir_unless_frame fs p fs' x : (if exists_ fs p then (fs, Ok tt) else mkdir fs p) = (fs', x) ->
  fs_file fs' = fs_file fs /\ (forall q, exists_ fs q = true -> exists_ fs' q = true) /\
  (forall q, q <> p -> fs_dir fs' q = fs_dir fs q).
Proof.
  destruct (exists_ fs p); [|apply mkdir_frame].
  intros H; apply (f_equal fst) in H; cbn [fst] in H; subst fs'. auto.
Qed.
Lemma mkdirs_frame ps : forall fs fs' x, mkdirs fs ps = (fs', x) ->
  fs_file fs' = fs_file fs /\ (forall q, exists_ fs q = true -> exists_ fs' q = true) /\
  (forall q, ~ In q ps -> fs_dir fs' q = fs_dir fs q).
Proof.
  induction ps as [|p ps IH]; intros fs fs' x; cbn [mkdirs].
  - intros H; apply (f_equal fst) in H; cbn [fst] in H; subst fs'. auto.
  - destruct (if exists_ fs p then (fs, Ok tt) else mkdir fs p) as [fs1 r] eqn:E1.
    apply mkdir_unless_frame in E1. destruct E1 as (A & B & C).
    destruct r; intros H.
    + apply IH in H. destruct H as (A' & B' & C'). split; [congruence|]. split; auto.
      intros q Hq. simpl in Hq. rewrite C', C; auto.
    + apply (f_equal fst) in H; cbn [fst] in H; subst fs'. split; auto. split; auto.
      intros q Hq. apply C. simpl in Hq. intros ->. tauto.
Qed.

Lemma mkdirs_raise ps : forall fs fs' e, mkdirs fs ps = (fs', Raise e) -> e = OSError.
Proof.
  induction ps as [|p ps IH]; intros fs fs' e; cbn [mkdirs]; [discriminate|].
  unfold mkdir. destruct (exists_ fs p); [apply IH|].
  destruct (_ || _); [|apply IH]. intros [= _ <-]; auto.
Qed.

Lemma load_root_file fs p c : fs_file fs p = Some c ->
  load_root fs p = match lines c with [] => Raise IndexError | l :: _ => Ok (Some l) end.
Proof. intros H. unfold load_root, exists_. rewrite H. reflexivity. Qed.
Lemma load_root_some fs p r : load_root fs p = Ok (Some r) -> exists c, fs_file fs p = Some c.
Proof. unfold load_root. destruct (exists_ fs p); [|discriminate]. destruct (fs_file fs p); [eauto|discriminate]. Qed.

Lemma reg_ok_ext fs fs' r k d :
  fs_file fs' (join r (list_ext k)) = fs_file fs (join r (list_ext k)) ->
  fs_dir fs' (join r (list_ext k)) = fs_dir fs (join r (list_ext k)) -> reg_ok fs r k d -> reg_ok fs' r k d.
Proof. intros H1 H2. unfold reg_ok. rewrite H1, H2. auto. Qed.

(** adding directories elsewhere keeps the invariant of a session with a root *)
Lemma pinv_dirs E s fs fs' r : s_root s = Some r -> pinv E s fs ->
  fs_file fs' = fs_file fs -> (forall q, exists_ fs q = true -> exists_ fs' q = true) ->
  (forall k, fs_dir fs' (join r (list_ext k)) = fs_dir fs (join r (list_ext k))) -> pinv E s fs'.
Proof.
  intros Hr [H1 H2 H3] A B C. split.
  - auto.
  - rewrite Hr in H2 |- *. destruct (load_root_some _ _ _ H2) as [c Hc].
    rewrite (load_root_file _ _ _ Hc) in H2. rewrite (load_root_file fs' _ c); [auto|rewrite A; auto].
  - rewrite Hr in H3 |- *. destruct H3 as [Hp H3]. split; auto.
    intros k. apply (reg_ok_ext fs); auto. rewrite A; auto.
Qed.

Lemma put_other fs p c q : q <> p -> fs_file (put fs p c) q = fs_file fs q.
Proof. intros H. cbn [put fs_file]. apply String.eqb_neq in H. rewrite H. reflexivity. Qed.
Lemma put_same fs p c : fs_file (put fs p c) p = Some c.
Proof. cbn [put fs_file]. rewrite String.eqb_refl. reflexivity. Qed.
Lemma put_exists fs p c q : exists_ fs q = true -> exists_ (put fs p c) q = true.
Proof. unfold exists_. cbn [put fs_file fs_dir]. destruct (String.eqb q p); auto. Qed.

Lemma reg_set s k d k' : reg (set_reg s k d) k' = if kind_dec k' k then d else reg s k'.
Proof. destruct (kind_dec k' k) as [->|H]; destruct k; try destruct k'; simpl; congruence. Qed.
Lemma root_set s k d : s_root (set_reg s k d) = s_root s.
Proof. destruct k; reflexivity. Qed.

Lemma line_eq name p : sapp name (String sp (sapp p (String nl ""))) = sapp (sapp name (String sp p)) (String nl "").
Proof. rewrite sapp_assoc. reflexivity. Qed.

(** what a register call does to the file and the memory *)
Lemma append_inv E s fs r k name p : s_root s = Some r -> pinv E s fs -> plain name -> plain p ->
  forall fs' x, append_file fs (join r (list_ext k)) (sapp name (String sp (sapp p (String nl "")))) = (fs', x) ->
  match x with
  | Raise _ => fs' = fs
  | Ok _ => pinv E (set_reg s k (dset (reg s k) name p)) fs'
  end.
Proof.
  intros Hr Hv Hn Hp fs' x. unfold append_file. destruct (_ || _); intros H.
  - inversion H; subst; auto.
  - inversion H; subst; clear H. destruct Hv as [H1 H2 H3]. rewrite Hr in H3. destruct H3 as [Hpr H3].
    apply plain_lacks in Hn. apply plain_lacks in Hp.
    split.
    + apply put_exists; auto.
    + rewrite root_set, Hr in *. destruct (load_root_some _ _ _ H2) as [c Hc].
      rewrite (load_root_file _ _ _ Hc) in H2. rewrite (load_root_file _ _ c); auto.
      rewrite put_other; auto. apply rootfile_neq.
    + rewrite root_set, Hr. split; auto. intros k'. rewrite reg_set. destruct (kind_dec k' k) as [->|Hk].
      * destruct (H3 k) as [D F]. split; [cbn [put fs_dir]; auto|]. rewrite put_same.
        assert (L1 : lacks nl (sapp name (String sp p))).
        { unfold lacks. rewrite list_ascii_app, in_app_iff. simpl. unfold lacks in *. intros [A|[A|A]]; [tauto|discriminate|tauto]. }
        assert (L2 : lacks cr (sapp name (String sp p))).
        { unfold lacks. rewrite list_ascii_app, in_app_iff. simpl. unfold lacks in *. intros [A|[A|A]]; [tauto|discriminate|tauto]. }
        rewrite line_eq. destruct (fs_file fs (join r (list_ext k))) as [c|].
        { destruct F as [F1 F2]. destruct (lines_append c _ L1 L2 F1) as [Q1 Q2]. split; auto.
          rewrite Q1, read_app, F2. cbn [bind]. apply read_line; tauto. }
        { destruct (lines_append "" _ L1 L2 (or_introl eq_refl)) as [Q1 Q2]. split; auto.
          rewrite Q1, F. apply read_line; tauto. }
      * apply (reg_ok_ext fs); auto. rewrite put_other; auto. intros A. apply list_ext_inj in A. auto.
Qed.

Lemma join_plain a b : plain a -> plain b -> plain (join a b).
Proof.
  intros Ha Hb. unfold join. destruct (starts_slash b); auto. destruct (_ || _); apply plain_app; split; auto.
  apply plain_cons. split; auto. repeat split; discriminate.
Qed.
Lemma plain_dec s : forallb (fun c => negb (Ascii.eqb c sp) && negb (Ascii.eqb c nl) && negb (Ascii.eqb c cr)) (list_ascii_of_string s) = true -> plain s.
Proof.
  intros H c Hc. rewrite forallb_forall in H. apply H in Hc.
  destruct (Ascii.eqb_spec c sp), (Ascii.eqb_spec c nl), (Ascii.eqb_spec c cr); simpl in Hc; try discriminate; auto.
Qed.
Lemma data_plain k : plain (data_ext k).
Proof. apply plain_dec. destruct k; reflexivity. Qed.

Lemma ask_rest answers b rest : ask answers = Ok (b, rest) -> forall a, In a rest -> In a answers.
Proof.
  induction answers as [|x l IH]; simpl; [discriminate|].
  destruct (String.eqb x "y"); [intros [= <- <-]; auto|]. destruct (String.eqb x "n"); [intros [= <- <-]; auto|].
  intros H a Ha. right; eauto.
Qed.

Lemma register_inv E k name np check answers s fs : env_plain E -> pinv E s fs ->
  call_plain (PRegister k name np check answers) ->
  pinv E (fst (fst (register E k name np check answers (s, fs)))) (snd (fst (register E k name np check answers (s, fs)))).
Proof.
  intros [HE _] Hv (Hn & Hs & Hnp & Ha). unfold register.
  destruct (s_root s) as [r|] eqn:Hr; [|auto].
  destruct (if check && dmem (reg s k) name then ask answers else Ok (true, answers)) as [[b rest]|] eqn:EA; [|auto].
  destruct b; [|auto].
  assert (Hrest : forall a, In a rest -> plain a).
  { intros a H. apply Ha. destruct (check && dmem (reg s k) name).
    - eapply ask_rest; eauto.
    - injection EA as <-. auto. }
  assert (Hpr : plain r) by (pose proof (v_regs _ _ _ Hv) as H; rewrite Hr in H; tauto).
  destruct (resolve k name np rest r fs) as [fs1 T] eqn:ET.
  assert (HT : pinv E s fs1 /\ forall p, T = Ok p -> plain p).
  { revert ET. unfold resolve. set (q := match np with Some q => q | None => "" end).
    assert (Hq : plain q) by (destruct np as [q'|]; [apply Hnp; auto|apply plain_dec; reflexivity]).
    assert (Hauto : q = "auto" -> np = Some "auto") by (subst q; destruct np; [congruence|discriminate]). clearbody q.
    destruct (String.eqb q "").
    { destruct rest as [|a rest']; [intros [= <- <-]; split; auto; discriminate|].
      destruct (exists_ fs a); intros [= <- <-]; (split; [auto|]); intros p [= <-]. apply Hrest; simpl; auto. }
    destruct (String.eqb_spec q "auto") as [Eq|]; [|intros [= <- <-]; split; auto; intros p [= <-]; auto].
    cbv zeta.
    destruct (if exists_ fs (join (join r (data_ext k)) name) then (fs, Ok tt) else mkdir fs (join (join r (data_ext k)) name)) as [fs2 x] eqn:E1.
    apply mkdir_unless_frame in E1. destruct E1 as (A & B & C).
    assert (V1 : pinv E s fs2).
    { apply (pinv_dirs E s fs fs2 r); auto. intros k'. apply C. intros Q. symmetry in Q. revert Q. apply data_neq; auto. }
    destruct x; intros [= <- <-]; (split; [auto|]); intros p [= <-].
    apply join_plain; auto. apply join_plain; auto. apply data_plain. }
  clear ET. destruct T as [p|e]; destruct HT as [V1 HP]; [|auto].
  specialize (HP p eq_refl). destruct (HE p HP) as [HP' _].
  destruct (append_file fs1 (join r (list_ext k)) (sapp name (String sp (sapp (e_abs E p) (String nl ""))))) as [fs2 x] eqn:EP.
  apply (append_inv E s fs1 r k name (e_abs E p)) in EP; auto.
  destruct x; cbn [fst snd]; [auto|subst; auto].
Qed.

(** * Setup *)
Lemma readable_reg fs r k : readable fs r -> exists d, reg_ok fs r k d.
Proof.
  intros H. destruct (H k) as [D F]. unfold reg_ok.
  destruct (fs_file fs (join r (list_ext k))) as [c|] eqn:Ec; [|eauto].
  destruct (F c eq_refl) as [[d Hd] Hc]. exists d. split; auto. split; [exact Hc|].
  unfold load_paths_file, exists_ in Hd. rewrite Ec in Hd. exact Hd.
Qed.

Lemma resdirs_neq r k : ~ In (join r (list_ext k))
  [join r "simim_resources"; join r "simim_resources/.paths"; join r (data_ext KSim); join r (data_ext KLc); join r (data_ext KProp)].
Proof.
  intros H. simpl in H.
  destruct H as [H|[H|[H|[H|[H|[]]]]]]; apply join_inj in H; try (destruct k; reflexivity); try reflexivity; destruct k; discriminate.
Qed.

Lemma setup_inv E root confirm answers s fs : env_plain E -> pinv E s fs -> plain root ->
  snd (setup E root confirm answers (s, fs)) <> Raise OSError ->
  (forall r, s_root (fst (fst (setup E root confirm answers (s, fs)))) = Some r -> readable fs r) ->
  pinv E (fst (fst (setup E root confirm answers (s, fs)))) (snd (fst (setup E root confirm answers (s, fs)))).
Proof.
  intros [HE HU] Hv Hp. unfold setup.
  destruct (pick_root E root answers s) as [[r0 rest]|] eqn:ET; [|auto].
  assert (P0 : plain r0).
  { revert ET. unfold pick_root. destruct (s_root s) as [r|] eqn:Er; [|intros [= <- <-]; auto].
    assert (plain r) by (pose proof (v_regs _ _ _ Hv) as H; rewrite Er in H; tauto).
    destruct (String.eqb (e_user E root) r); [intros [= <- <-]; auto|].
    destruct (ask answers) as [[b l]|]; cbn [bind]; [|discriminate]. intros [= <- <-]. destruct b; auto. }
  clear ET. destruct (negb (exists_ fs r0)); [auto|].
  destruct (HE r0 P0) as [P1 N1]. set (r1 := e_abs E r0) in *. clearbody r1.
  destruct (if confirm then do (b, _) <- ask rest;; Ok b else Ok true) as [[|]|]; [|auto|auto].
  unfold write_file. destruct (fs_dir fs (e_rootfile E) || negb (parent_ok fs (e_rootfile E))); [auto|].
  destruct (mkdirs (put fs (e_rootfile E) r1) _) as [fs2 x] eqn:EM.
  destruct x as [u|e].
  2:{ cbn [snd]. intros H _. exfalso. apply H. f_equal. eapply mkdirs_raise; eauto. }
  apply mkdirs_frame in EM. destruct EM as (A & B & C).
  destruct (load_paths fs2 (mkSess (Some r1) (s_lcs s) (s_sims s) (s_props s))) as [s2 x2] eqn:EL. cbn [fst snd].
  intros _ HR.
  assert (R2 : s_root s2 = Some r1).
  { apply (f_equal fst) in EL. cbn [fst] in EL. rewrite <- EL. unfold load_paths. cbn [s_root].
    repeat (destruct (load_paths_file _ _); [|reflexivity]). reflexivity. }
  specialize (HR r1 R2).
  assert (RO : forall k, exists d, reg_ok fs2 r1 k d).
  { intros k. destruct (readable_reg fs r1 k HR) as [d Hd]. exists d. apply (reg_ok_ext fs); auto.
    - rewrite A. apply put_other. intros Q; symmetry in Q; revert Q; apply rootfile_neq.
    - rewrite C; [reflexivity|apply resdirs_neq]. }
  destruct (RO KLc) as [d1 O1], (RO KSim) as [d2 O2], (RO KProp) as [d3 O3].
  unfold load_paths in EL. cbn [s_root] in EL.
  rewrite (reg_load _ _ _ _ O1), (reg_load _ _ _ _ O2), (reg_load _ _ _ _ O3) in EL.
  apply (f_equal fst) in EL. cbn [fst set_reg s_root s_lcs s_sims s_props] in EL. subst s2.
  split.
  - apply B, put_exists, (v_res _ _ _ Hv).
  - cbn [s_root]. rewrite (load_root_file _ _ r1) by (rewrite A; apply put_same).
    apply plain_lacks in P1.
    pose proof (lines_end "" r1 N1) as L. cbn [sapp] in L. rewrite L by (tauto || (left; reflexivity)). reflexivity.
  - cbn [s_root]. split; auto. intros k; destruct k; cbn [reg s_lcs s_sims s_props]; auto.
Qed.

(** * Histories *)
Lemma session_inv E fs fs0 s0 : new_session E fs = (fs0, Ok s0) ->
  (forall r, s_root s0 = Some r -> plain r /\ readable fs0 r) -> pinv E s0 fs0.
Proof.
  unfold new_session. intros H HR.
  assert (X : exists_ fs0 (e_res E) = true /\ exists r s, load_root fs0 (e_rootfile E) = Ok r /\ load_paths fs0 (mkSess r [] [] []) = (s, Ok tt) /\ s0 = s).
  { destruct (if exists_ fs (e_res E) then (fs, Ok tt) else mkdir fs (e_res E)) as [fs1 [u|e]] eqn:E1; [|discriminate].
    assert (exists_ fs1 (e_res E) = true).
    { destruct (exists_ fs (e_res E)) eqn:Ex; [injection E1 as <- _; auto|].
      unfold mkdir in E1. destruct (_ || _); [discriminate|]. injection E1 as <- _.
      unfold exists_. cbn [fs_file fs_dir]. rewrite String.eqb_refl. destruct (fs_file fs (e_res E)); reflexivity. }
    destruct (load_root fs1 (e_rootfile E)) as [r|] eqn:E2; [|discriminate].
    destruct (load_paths fs1 (mkSess r [] [] [])) as [s [[]|]] eqn:E3; [|discriminate].
    injection H as <- <-. split; auto. exists r, s. auto. }
  destruct X as (X1 & r & s & X2 & X3 & ->). destruct r as [r|].
  - unfold load_paths in X3. cbn [s_root] in X3.
    destruct (load_paths_file fs0 (join r (list_ext KLc))) as [d1|] eqn:L1; [|discriminate].
    destruct (load_paths_file fs0 (join r (list_ext KSim))) as [d2|] eqn:L2; [|discriminate].
    destruct (load_paths_file fs0 (join r (list_ext KProp))) as [d3|] eqn:L3; [|discriminate].
    injection X3 as <-. cbn [s_root] in HR. destruct (HR r eq_refl) as [P R].
    split; auto. cbn [s_root]. split; auto. intros k. destruct (readable_reg fs0 r k R) as [d Hd].
    pose proof (reg_load _ _ _ _ Hd) as Q.
    destruct k; cbn [reg s_lcs s_sims s_props set_reg]; congruence.
  - unfold load_paths in X3. cbn [s_root] in X3. injection X3 as <-. split; auto. cbn. auto.
Qed.

Lemma history_inv E : env_plain E -> forall cs s fs, pinv E s fs -> Forall call_plain cs -> setups_ok E (s, fs) cs ->
  pinv E (fst (pdo_all E (s, fs) cs)) (snd (pdo_all E (s, fs) cs)).
Proof.
  intros HE. induction cs as [|c cs IH]; intros s fs Hv Hc Hs; [auto|].
  inversion Hc as [|? ? C1 C2]; subst. destruct Hs as [S1 S2].
  change (pdo_all E (s, fs) (c :: cs)) with (pdo_all E (fst (pdo E (s, fs) c)) cs).
  destruct (fst (pdo E (s, fs) c)) as [s1 fs1] eqn:Ed. apply IH; auto.
  destruct c as [root cf an|k n np ch an]; cbn [pdo] in *.
  - destruct S1 as [S1 S3]. pose proof (setup_inv E root cf an s fs HE Hv C1 S1) as Q. rewrite Ed in Q. exact (Q S3).
  - pose proof (register_inv E k n np ch an s fs HE Hv C1) as Q. rewrite Ed in Q. exact Q.
Qed.

Lemma c33_history E fs fs0 s0 cs : env_plain E -> new_session E fs = (fs0, Ok s0) ->
  (forall r, s_root s0 = Some r -> plain r /\ readable fs0 r) ->
  Forall call_plain cs -> setups_ok E (s0, fs0) cs ->
  let st := pdo_all E (s0, fs0) cs in new_session E (snd st) = (snd st, Ok (fst st)).
Proof.
  intros HE H0 HR Hc Hs st. apply pinv_load. apply history_inv; auto. eapply session_inv; eauto.
Qed.

(** * Prompts *)
Lemma ask_spec pre a rest : Forall unclear pre ->
  (a = "y" -> ask (pre ++ a :: rest) = Ok (true, rest)) /\ (a = "n" -> ask (pre ++ a :: rest) = Ok (false, rest)) /\
  ask pre = Raise EOFError.
Proof.
  induction 1 as [|x l [H1 H2] Hl IH]; simpl.
  - repeat split; intros ->; reflexivity.
  - apply String.eqb_neq in H1. apply String.eqb_neq in H2. rewrite H1, H2. tauto.
Qed.

Lemma c34_register E k name np st r : s_root (fst st) = Some r -> dmem (reg (fst st) k) name = true ->
  forall pre, Forall unclear pre ->
  (forall rest, register E k name np true (pre ++ "n" :: rest) st = (st, Ok tt)) /\
  (forall rest, register E k name np true (pre ++ "y" :: rest) st = register E k name np false rest st) /\
  register E k name np true pre st = (st, Raise EOFError).
Proof.
  destruct st as [s fs]. cbn [fst]. intros Hr Hm pre Hp. unfold register. rewrite Hr, Hm. cbn [andb].
  split; [|split].
  - intros rest. destruct (ask_spec pre "n" rest Hp) as (_ & Q & _). rewrite Q; auto.
  - intros rest. destruct (ask_spec pre "y" rest Hp) as (Q & _). rewrite Q; auto.
  - destruct (ask_spec pre "" [] Hp) as (_ & _ & Q). rewrite Q. reflexivity.
Qed.

Lemma c34_fresh E k name np answers st : dmem (reg (fst st) k) name = false ->
  register E k name np true answers st = register E k name np false answers st.
Proof. destruct st as [s fs]. cbn [fst]. intros H. unfold register. rewrite H. reflexivity. Qed.

Lemma c34_others E k name np ch answers st :
  let st' := fst (register E k name np ch answers st) in
  s_root (fst st') = s_root (fst st) /\
  (forall k' q, k' <> k \/ q <> name -> dget (reg (fst st') k') q = dget (reg (fst st) k') q) /\
  (forall q, (forall r, s_root (fst st) = Some r -> q <> join r (list_ext k)) -> fs_file (snd st') q = fs_file (snd st) q).
Proof.
  destruct st as [s fs]. cbv zeta. unfold register. cbn [fst snd].
  destruct (s_root s) as [r|] eqn:Hr; [|cbn [fst snd]; auto].
  destruct (if ch && dmem (reg s k) name then ask answers else Ok (true, answers)) as [[[|] rest]|]; cbn [fst snd]; auto.
  destruct (resolve k name np rest r fs) as [fs1 T] eqn:ET.
  assert (F : fs_file fs1 = fs_file fs).
  { revert ET. unfold resolve. destruct (String.eqb _ "").
    - destruct rest as [|a ?]; [intros [= <- _]; auto|]. destruct (exists_ fs a); intros [= <- _]; auto.
    - destruct (String.eqb _ "auto"); [|intros [= <- _]; auto]. cbv zeta.
      destruct (if exists_ fs (join (join r (data_ext k)) name) then (fs, Ok tt) else mkdir fs (join (join r (data_ext k)) name)) as [fs2 x] eqn:E1.
      apply mkdir_unless_frame in E1. destruct E1 as (A & _).
      destruct x; intros [= <- _]; auto. }
  destruct T as [p|e]; cbn [fst snd]; [|rewrite F; auto].
  unfold append_file. destruct (_ || _); cbn [fst snd]; [rewrite F; auto|].
  rewrite root_set. split; auto. split.
  - intros k' q Hq. rewrite reg_set. destruct (kind_dec k' k) as [->|]; auto.
    rewrite dget_dset. destruct (String.eqb_spec q name); auto. subst. tauto.
  - intros q Hq. rewrite put_other by auto. rewrite F. reflexivity.
Qed.

Lemma c34_setup E root confirm st r : s_root (fst st) = Some r -> e_user E root <> r ->
  forall pre, Forall unclear pre ->
  (forall rest, s_root (fst (fst (setup E root confirm (pre ++ "n" :: rest) st))) = Some r \/
                s_root (fst (fst (setup E root confirm (pre ++ "n" :: rest) st))) = Some (e_abs E r)) /\
  setup E root confirm pre st = (st, Raise EOFError).
Proof.
  destruct st as [s fs]. cbn [fst]. intros Hr Hn pre Hp. unfold setup, pick_root. rewrite Hr.
  apply String.eqb_neq in Hn. rewrite Hn. split.
  - intros rest. destruct (ask_spec pre "n" rest Hp) as (_ & Q & _). rewrite Q by auto. cbn [bind].
    destruct (negb (exists_ fs r)); cbn [fst]; auto.
    destruct (if confirm then do (b, _) <- ask rest;; Ok b else Ok true) as [[|]|]; cbn [fst]; auto.
    destruct (write_file fs (e_rootfile E) (e_abs E r)) as [fs1 [u|e]]; cbn [fst s_root]; auto.
    destruct (mkdirs fs1 _) as [fs2 [u2|e]]; cbn [fst s_root]; auto.
    destruct (load_paths fs2 _) as [s2 x2] eqn:EL. cbn [fst]. right.
    apply (f_equal fst) in EL. cbn [fst] in EL. rewrite <- EL. unfold load_paths. cbn [s_root].
    repeat (destruct (load_paths_file _ _); [|reflexivity]). reflexivity.
  - destruct (ask_spec pre "" [] Hp) as (_ & _ & Q). rewrite Q. reflexivity.
Qed.

Lemma c33_last E k name q answers st st' : q <> "" -> q <> "auto" ->
  register E k name (Some q) false answers st = (st', Ok tt) -> dget (reg (fst st') k) name = Some (e_abs E q).
Proof.
  destruct st as [s fs]. intros H1 H2. unfold register. destruct (s_root s) as [r|]; [|discriminate].
  cbn [andb]. unfold resolve. apply String.eqb_neq in H1. apply String.eqb_neq in H2. rewrite H1, H2.
  destruct (append_file _ _ _) as [fs2 [u|e]]; [|discriminate]. intros [= <-]. cbn [fst].
  rewrite reg_set. destruct (kind_dec k k); [|tauto]. apply dget_dset_eq.
Qed.
