(** Proofs behind MakeProps.v *)
From Coq Require Import Reals Lra.
From Verif Require Import Dict Util RealUtil SnapModel PathsModel PathsSpec Paths LcModel LosModel LosSpec Los MakeModel.
Open Scope string_scope.
Open Scope list_scope.

(** no file is lost or changed, and no directory lost *)
Definition kept (fs fs' : fsys) : Prop :=
  (forall p, fs_dir fs p = true -> fs_dir fs' p = true) /\ forall p c, fs_file fs p = Some c -> fs_file fs' p = Some c.
Lemma kept_refl fs : kept fs fs.
Proof. split; auto. Qed.
Lemma mkdir_kept fs p fs' x : mkdir fs p = (fs', x) -> kept fs fs'.
Proof.
  unfold mkdir. destruct (_ || _); intros H; apply (f_equal fst) in H; cbn [fst] in H; subst fs'; [apply kept_refl|]. split; cbn [fs_dir fs_file]; auto.
  intros q ->. apply Bool.orb_true_r.
Qed.
Lemma session_kept E fs fs' r : new_session E fs = (fs', r) -> kept fs fs' /\ fs_file fs' = fs_file fs.
Proof.
  unfold new_session. destruct (if exists_ fs (e_res E) then (fs, Ok tt) else mkdir fs (e_res E)) as [fs1 x] eqn:E1.
  assert (K : kept fs fs1 /\ fs_file fs1 = fs_file fs).
  { split; [|apply (mkdir_unless_frame _ _ _ _ E1)]. destruct (exists_ fs (e_res E)); [injection E1 as <- _; apply kept_refl|apply (mkdir_kept _ _ _ _ E1)]. }
  destruct x as [u|e]; [|intros H; injection H as <- _; exact K]. destruct (load_root fs1 (e_rootfile E)); [|intros H; injection H as <- _; exact K].
  destruct (load_paths fs1 _) as [s [v|e]]; intros H; injection H as <- _; exact K.
Qed.
Lemma register_auto E sim s fs s' fs' r : dmem (s_lcs s) sim = false -> register E KLc sim (Some "auto") true [] (s, fs) = ((s', fs'), r) ->
  (forall p, fs_dir fs p = true -> fs_dir fs' p = true) /\
  (forall p c, fs_file fs p = Some c -> fs_file fs' p = Some c \/ exists root, s_root s = Some root /\ p = join root "simim_resources/.paths/lcpaths.txt" /\
     fs_file fs' p = Some (sapp c (sapp sim (String sp (sapp (e_abs E (join (join root "simim_resources/lightcones") sim)) (String nl EmptyString)))))).
Proof.
  intros Hm. unfold register. destruct (s_root s) as [root|]; [|intros H; injection H as _ <- _; split; auto]. cbn [reg]. rewrite Hm. cbn [andb].
  unfold resolve. change (String.eqb "auto" "") with false. change (String.eqb "auto" "auto") with true. cbn [data_ext list_ext]. cbv iota.
  set (q := join (join root "simim_resources/lightcones") sim).
  destruct (if exists_ fs q then (fs, Ok tt) else mkdir fs q) as [fs1 x] eqn:E1.
  assert (K : kept fs fs1). { destruct (exists_ fs q); [injection E1 as <- _; apply kept_refl|apply (mkdir_kept _ _ _ _ E1)]. }
  destruct K as [K1 K2]. destruct x as [u|e]; [|intros H; injection H as _ <- _; split; auto].
  unfold append_file. destruct (_ || _); [intros H; injection H as _ <- _; split; auto|]. intros H; injection H as _ <- _.
  split; [exact K1|]. intros p c Hc. unfold put. cbn [fs_file]. destruct (String.eqb p (join root "simim_resources/.paths/lcpaths.txt")) eqn:Ep; [|left; auto].
  right. exists root. split; [reflexivity|]. apply String.eqb_eq in Ep. split; [exact Ep|]. rewrite <- Ep, (K2 p c Hc). reflexivity.
Qed.

Lemma made_kept E sim name ow answers fs fs' r : maker_dir E sim name ow answers fs = (fs', r) ->
  (forall p, fs_dir fs p = true -> fs_dir fs' p = true) /\
  (forall p c, fs_file fs p = Some c -> fs_file fs' p = Some c \/ exists s root, snd (new_session E fs) = Ok s /\ dmem (s_lcs s) sim = false /\
     s_root s = Some root /\ p = join root "simim_resources/.paths/lcpaths.txt" /\
     fs_file fs' p = Some (sapp c (sapp sim (String sp (sapp (e_abs E (join (join root "simim_resources/lightcones") sim)) (String nl EmptyString)))))).
Proof.
  unfold maker_dir. destruct (negb _); [intros H; injection H as <- _; split; auto|].
  destruct (new_session E fs) as [fs1 [s|e]] eqn:Es; destruct (session_kept _ _ _ _ Es) as [[K1 K2] _]; [|intros H; injection H as <- _; split; auto]. cbn [snd].
  destruct (negb _); [intros H; injection H as <- _; split; auto|].
  destruct ow; try (intros H; injection H as <- _; split; auto; fail);
  (destruct (if dmem (s_lcs s) sim then (s, fs1, Ok tt) else register E KLc sim (Some "auto") true [] (s, fs1)) as [[s2 fs2] x] eqn:Er;
  assert (R : (forall p, fs_dir fs p = true -> fs_dir fs2 p = true) /\
    (forall p c, fs_file fs p = Some c -> fs_file fs2 p = Some c \/ exists s0 root, Ok (A:=sess) s = Ok s0 /\ dmem (s_lcs s0) sim = false /\ s_root s0 = Some root /\ p = join root "simim_resources/.paths/lcpaths.txt" /\
     fs_file fs2 p = Some (sapp c (sapp sim (String sp (sapp (e_abs E (join (join root "simim_resources/lightcones") sim)) (String nl EmptyString))))))); [
    destruct (dmem (s_lcs s) sim) eqn:Em; [injection Er as <- <- <-; split; auto|];
    destruct (register_auto _ _ _ _ _ _ _ Em Er) as [R1 R2]; split; [auto|]; intros p c Hc; destruct (R2 p c (K2 p c Hc)) as [H|(root & A & B & C)]; [left; exact H|right; exists s, root; auto]|];
  destruct R as [R1 R2]; destruct x as [u|e]; [|intros H; injection H as <- _; split; auto];
  destruct (dget (s_lcs s2) sim) as [base|]; [|intros H; injection H as <- _; split; auto];
  destruct (lc_open_dir _ _ _); [|intros H; injection H as <- _; split; auto];
  destruct (exists_ fs2 (join base name)); [intros H; injection H as <- _; split; auto|];
  destruct (mkdir fs2 (join base name)) as [fs3 y] eqn:Ey; destruct (mkdir_kept _ _ _ _ Ey) as [M1 M2];
  intros H; assert (fs' = fs3) as -> by (destruct y; injection H as <- _; reflexivity);
  split; [auto|]; intros p c Hc; destruct (R2 p c Hc) as [H1|(s0 & root & A & B & C & D & F)]; [left; auto|right; exists s0, root; auto 10]).
Qed.

Lemma made_known E sim name ow answers fs s base : new_session E fs = (fs, Ok s) -> In sim accepted_sims -> dmem (s_sims s) sim = true -> dget (s_lcs s) sim = Some base ->
  maker_dir E sim name ow answers fs =
  match lc_open_dir ow (exists_ fs (join base name)) answers with
  | Raise e => (fs, Raise e)
  | Ok _ => if exists_ fs (join base name) then (fs, Ok (join base name))
            else match mkdir fs (join base name) with (fs3, Ok _) => (fs3, Ok (join base name)) | (fs3, Raise e) => (fs3, Raise e) end
  end.
Proof.
  intros Es Ha Hs Hb. unfold maker_dir. apply smem_In in Ha. rewrite Ha, Es, Hs. cbn [negb].
  assert (Hm : dmem (s_lcs s) sim = true) by (rewrite dmem_get, Hb; reflexivity). rewrite Hm, Hb. destruct ow; reflexivity.
Qed.
Lemma made_new E sim name ow answers fs s base : new_session E fs = (fs, Ok s) -> In sim accepted_sims -> dmem (s_sims s) sim = true -> dget (s_lcs s) sim = Some base ->
  exists_ fs (join base name) = false -> parent_ok fs (join base name) = true -> ow <> OwOther ->
  maker_dir E sim name ow answers fs = (mkFS (fs_file fs) (fun q => String.eqb q (join base name) || fs_dir fs q), Ok (join base name)).
Proof.
  intros Es Ha Hs Hb Hx Hp Ho. rewrite (made_known _ _ _ _ _ _ _ _ Es Ha Hs Hb), Hx. unfold mkdir. rewrite Hx, Hp. cbn [orb negb]. destruct ow; try reflexivity. congruence.
Qed.

(** a session after a directory has been made *)
Lemma load_more fs q p d : load_paths_file (mkFS (fs_file fs) (fun x => String.eqb x q || fs_dir fs x)) p = Ok d -> load_paths_file fs p = Ok d \/ fs_file fs p = None.
Proof. unfold load_paths_file, exists_. cbn [fs_file fs_dir]. destruct (fs_file fs p); [auto|]. auto. Qed.
Lemma load_file fs fs' p : fs_file fs' = fs_file fs -> fs_file fs p <> None -> load_paths_file fs' p = load_paths_file fs p.
Proof. intros E H. unfold load_paths_file, exists_. rewrite E. destruct (fs_file fs p); [reflexivity|congruence]. Qed.
Lemma load_mem fs p d k : load_paths_file fs p = Ok d -> dmem d k = true -> fs_file fs p <> None.
Proof. unfold load_paths_file, exists_. destruct (fs_file fs p); [discriminate|]. destruct (fs_dir fs p); [discriminate|]. intros [= <-]. discriminate. Qed.
Lemma session_again E fs s q fs2 s2 sim : new_session E fs = (fs, Ok s) -> dmem (s_sims s) sim = true -> dmem (s_lcs s) sim = true ->
  new_session E (mkFS (fs_file fs) (fun x => String.eqb x q || fs_dir fs x)) = (fs2, Ok s2) ->
  dget (s_lcs s2) sim = dget (s_lcs s) sim /\ fs_file fs2 = fs_file fs /\ forall x, exists_ (mkFS (fs_file fs) (fun x => String.eqb x q || fs_dir fs x)) x = true -> exists_ fs2 x = true.
Proof.
  set (fs' := mkFS _ _). intros E1 Hs Hl E2. destruct (session_kept _ _ _ _ E2) as [[K1 K2] KF].
  assert (X : forall x, exists_ fs' x = true -> exists_ fs2 x = true).
  { intros x. unfold exists_. rewrite KF. destruct (fs_file fs' x); [auto|apply K1]. }
  split; [|split; [exact KF|exact X]]. clear K1 K2 X.
  unfold new_session in E1, E2.
  destruct (if exists_ fs (e_res E) then (fs, Ok tt) else mkdir fs (e_res E)) as [f1 x1] eqn:A1. pose proof (proj1 (mkdir_unless_frame _ _ _ _ A1)) as F1.
  destruct x1 as [u1|]; [|discriminate]. destruct (load_root f1 (e_rootfile E)) as [r1|] eqn:R1; [|discriminate].
  destruct (if exists_ fs' (e_res E) then (fs', Ok tt) else mkdir fs' (e_res E)) as [f2 x2] eqn:A2. pose proof (proj1 (mkdir_unless_frame _ _ _ _ A2)) as F2.
  destruct x2 as [u2|]; [|discriminate]. destruct (load_root f2 (e_rootfile E)) as [r2|] eqn:R2; [|discriminate].
  destruct r1 as [root|]; [|cbn in E1; injection E1 as _ <-; discriminate].
  assert (r2 = Some root) as ->.
  { destruct (load_root_some _ _ _ R1) as [c Hc]. unfold load_root, exists_ in R1, R2. rewrite F2 in R2. change (fs_file fs') with (fs_file fs) in R2. rewrite F1 in Hc, R1. rewrite Hc in R1, R2. congruence. }
  unfold load_paths in E1, E2. cbn [s_root] in E1, E2.
  destruct (load_paths_file f1 (join root (list_ext KLc))) as [l1|] eqn:L1; [|discriminate].
  destruct (load_paths_file f1 (join root (list_ext KSim))) as [m1|] eqn:M1; [|discriminate].
  destruct (load_paths_file f1 (join root (list_ext KProp))) as [p1|] eqn:P1; [|discriminate].
  destruct (load_paths_file f2 (join root (list_ext KLc))) as [l2|] eqn:L2; [|discriminate].
  destruct (load_paths_file f2 (join root (list_ext KSim))) as [m2|] eqn:M2; [|discriminate].
  destruct (load_paths_file f2 (join root (list_ext KProp))) as [p2|] eqn:P2; [|discriminate].
  injection E1 as _ <-. injection E2 as _ <-. cbn in *.
  assert (l2 = l1) as ->; [|reflexivity].
  rewrite (load_file f1 f2) in L2; [congruence| |apply (load_mem _ _ _ _ L1 Hl)]. rewrite F2, F1. reflexivity.
Qed.
Lemma left_behind {X} E sim name ow answers (e : exn) fs s base : new_session E fs = (fs, Ok s) -> In sim accepted_sims -> dmem (s_sims s) sim = true -> dget (s_lcs s) sim = Some base ->
  exists_ fs (join base name) = false -> parent_ok fs (join base name) = true -> ow <> OwOther ->
  exists fs', maker_new E sim name ow answers (Raise (A:=X) e) fs = (fs', Raise e) /\ exists_ fs' (join base name) = true /\
    forall answers' geo fs2 r, maker_new E sim name OwFalse answers' (geo : exc X) fs' = (fs2, r) -> exists e', r = Raise e'.
Proof.
  intros Es Ha Hs Hb Hx Hp Ho. unfold maker_new at 1. rewrite (made_new _ _ _ _ _ _ _ _ Es Ha Hs Hb Hx Hp Ho). cbn [bind].
  eexists. split; [reflexivity|]. split.
  { unfold exists_. cbn [fs_file fs_dir]. rewrite String.eqb_refl. destruct (fs_file fs (join base name)); reflexivity. }
  intros answers' geo fs2 r. unfold maker_new, maker_dir. apply smem_In in Ha. rewrite Ha. cbn [negb].
  assert (Hm : dmem (s_lcs s) sim = true) by (rewrite dmem_get, Hb; reflexivity).
  destruct (new_session E (mkFS _ _)) as [f1 [s1|e1]] eqn:E1; [|intros H; injection H as _ <-; eauto].
  destruct (session_again _ _ _ _ _ _ _ Es Hs Hm E1) as (B1 & _ & B3).
  destruct (negb _); [intros H; injection H as _ <-; eauto|].
  assert (Hm1 : dmem (s_lcs s1) sim = true) by (rewrite dmem_get, B1, Hb; reflexivity). rewrite Hm1, B1, Hb.
  rewrite B3; [cbn; intros H; injection H as _ <-; eauto|]. unfold exists_. cbn [fs_file fs_dir]. rewrite String.eqb_refl. destruct (fs_file fs (join base name)); reflexivity.
Qed.

Open Scope R_scope.
Lemma smode_spec s md : smode_of s = Ok md <-> s = match md with Sphere => "sphere" | Hemi => "hemisphere" | Quarter => "quarter" | Eighth => "eighth" end.
Proof.
  unfold smode_of. split.
  - destruct (String.eqb s "sphere") eqn:E1; [apply String.eqb_eq in E1; intros [= <-]; auto|]. destruct (String.eqb s "hemisphere") eqn:E2; [apply String.eqb_eq in E2; intros [= <-]; auto|].
    destruct (String.eqb s "quarter") eqn:E3; [apply String.eqb_eq in E3; intros [= <-]; auto|]. destruct (String.eqb s "eighth") eqn:E4; [apply String.eqb_eq in E4; intros [= <-]; auto|]. discriminate.
  - intros ->. destruct md; reflexivity.
Qed.
Lemma check_iff b u : check (negb b) ValueError = Ok u <-> b = false.
Proof. destruct b, u; cbn; split; congruence. Qed.
Lemma sphere_init_spec mode zmin zmax mass ms D dist h box copies md c :
  sphere_init mode zmin zmax mass ms D dist h box copies = Ok (md, c) <->
  exists zm d, mode = match md with Sphere => "sphere" | Hemi => "hemisphere" | Quarter => "quarter" | Eighth => "eighth" end /\
    (zmax = Some zm \/ zmax = None /\ (exists m, In m ms /\ m_zmax m = zm) /\ forall m, In m ms -> m_zmax m <= zm) /\
    zmin <= zm /\ D zm = Ok d /\ d <= match md with Eighth => box / h | _ => box / h / 2 end /\
    c = mkLC Circle 0 1 mass box copies (dist zmin) (dist zm) (snapshots_use zmin zm ms).
Proof.
  assert (Z : forall zm, match zmax with Some z => Ok z | None => amax (map m_zmax ms) end = Ok zm <->
    (zmax = Some zm \/ zmax = None /\ (exists m, In m ms /\ m_zmax m = zm) /\ forall m, In m ms -> m_zmax m <= zm)).
  { intros zm. destruct zmax as [z|].
    - split; [intros [= ->]; left; reflexivity|intros [[= ->]|[H _]]; [reflexivity|discriminate]].
    - rewrite amax_spec. split.
      + intros [I M]. right. split; [reflexivity|]. apply in_map_iff in I. destruct I as (m & Em & Im). split; [eauto|]. intros m' I'. apply M, in_map, I'.
      + intros [H|(_ & (m & Im & Em) & M)]; [discriminate|]. split; [rewrite <- Em; apply in_map, Im|]. intros x Ix. apply in_map_iff in Ix. destruct Ix as (m' & <- & I'). auto. }
  unfold sphere_init. split.
  - destruct (smode_of mode) as [md'|] eqn:Em; cbn [bind]; [|discriminate]. apply smode_spec in Em.
    destruct (match zmax with Some z => _ | None => _ end) as [zm|] eqn:Ez; cbn [bind]; [|discriminate].
    destruct (rltb zm zmin) eqn:E1; cbn [negb check bind]; [discriminate|]. apply rltb_ge in E1.
    destruct (D zm) as [d|] eqn:Ed; cbn [bind]; [|discriminate]. unfold sphere_check.
    destruct (rltb _ d) eqn:E2; cbn [negb check bind]; [discriminate|]. apply rltb_ge in E2. intros [= <- <-]. exists zm, d. pose proof (proj1 (Z zm) eq_refl). auto 10.
  - intros (zm & d & A & B & C & Dd & F & ->). apply smode_spec in A. rewrite A. apply Z in B. cbn [bind]. rewrite B. cbn [bind].
    apply rltb_ge in C. rewrite C. cbn [negb check bind]. rewrite Dd. cbn [bind]. unfold sphere_check. apply rltb_ge in F. rewrite F. reflexivity.
Qed.

(** the first light cone of a simulation *)
Lemma made_first E sim name ow answers fs s root c : new_session E fs = (fs, Ok s) -> In sim accepted_sims -> dmem (s_sims s) sim = true -> dmem (s_lcs s) sim = false ->
  s_root s = Some root -> let q := join (join root "simim_resources/lightcones") sim in let l := join root "simim_resources/.paths/lcpaths.txt" in let p := join q name in
  fs_file fs l = Some c -> fs_dir fs l = false -> parent_ok fs l = true -> exists_ fs q = false -> parent_ok fs q = true -> e_abs E q = q -> exists_ fs p = false -> p <> q -> dirname p = q -> ow <> OwOther ->
  maker_dir E sim name ow answers fs =
  (mkFS (fun x => if String.eqb x l then Some (sapp c (sapp sim (String sp (sapp q (String nl EmptyString))))) else fs_file fs x)
        (fun x => String.eqb x p || (String.eqb x q || fs_dir fs x)), Ok p).
Proof.
  intros Es Ha Hs Hm Hr q l p. assert (Eq : join (join root "simim_resources/lightcones") sim = q) by reflexivity.
  assert (El : join root "simim_resources/.paths/lcpaths.txt" = l) by reflexivity. assert (Ep : join q name = p) by reflexivity. clearbody p. clearbody q l.
  intros Hc Hd Hl Hq Pq Aq Hp Np Dp Ho. unfold maker_dir. apply smem_In in Ha. rewrite Ha, Es, Hs, Hm. cbn [negb].
  assert (NL : q <> l). { intros Q. unfold exists_ in Hq. rewrite Q, Hc in Hq. discriminate. }
  assert (NP : p <> l). { intros Q. unfold exists_ in Hp. rewrite Q, Hc in Hp. discriminate. }
  assert (R : register E KLc sim (Some "auto") true [] (s, fs) =
    ((mkSess (Some root) (dset (s_lcs s) sim q) (s_sims s) (s_props s),
      mkFS (fun x => if String.eqb x l then Some (sapp c (sapp sim (String sp (sapp q (String nl EmptyString))))) else fs_file fs x) (fun x => String.eqb x q || fs_dir fs x)), Ok tt)).
  { unfold register. rewrite Hr. cbn [reg]. rewrite Hm. cbn [andb]. unfold resolve. change (String.eqb "auto" "") with false. change (String.eqb "auto" "auto") with true. cbv iota. cbn [data_ext list_ext].
    rewrite Eq, El, Hq. unfold mkdir. rewrite Hq, Pq. cbn [orb negb]. unfold append_file. cbn [fs_file fs_dir].
    replace (String.eqb l q) with false by (symmetry; apply String.eqb_neq; congruence). rewrite Hd. cbn [orb].
    replace (parent_ok _ l) with true.
    2: { symmetry. unfold parent_ok in *. cbn [fs_dir]. destruct (String.eqb (dirname l) ""); [reflexivity|]. cbn [orb] in *. rewrite Hl. apply Bool.orb_true_r. }
    cbn [negb]. rewrite Hc, Aq. destruct s; cbn in *. subst. reflexivity. }
  destruct ow; try congruence;
  (rewrite R; cbn [s_lcs]; rewrite dget_dset_eq, Ep;
   assert (X : forall f d, f p = fs_file fs p -> d p = fs_dir fs p -> exists_ (mkFS f d) p = false) by (intros f d A B; unfold exists_ in *; cbn [fs_file fs_dir]; rewrite A, B; exact Hp);
   rewrite X; [|cbn; apply String.eqb_neq in NP; rewrite NP; reflexivity|cbn; apply String.eqb_neq in Np; rewrite Np; reflexivity];
   cbn [lc_open_dir]; unfold mkdir; rewrite X; [|cbn; apply String.eqb_neq in NP; rewrite NP; reflexivity|cbn; apply String.eqb_neq in Np; rewrite Np; reflexivity];
   unfold parent_ok; cbn [fs_dir]; rewrite Dp, String.eqb_refl, Bool.orb_true_r; reflexivity).
Qed.
