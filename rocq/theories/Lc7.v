(** Proofs about light-cone files (C44, C45, C46). *)
From Coq Require Import Reals Permutation Sorted.
From Verif Require Import Dict Util RealUtil SnapModel SnapSpec Snap FormatModel FormatSpec Format LcModel LcSpec Lc Lc2 Lc3 Lc4.
From Coq Require Import Lra Lia.
Open Scope string_scope.
Open Scope list_scope.
Open Scope nat_scope.

(** ** One file at a time *)
Definition fop1 (o : option lcfile) (a : lop) : exc (option lcfile) :=
  match a, o with
  | LNew, _ => Ok (Some (mkLF None false false false None [] [] [] []))
  | _, None => Raise OSError
  | a, Some f => do f' <- lapply a f ;; Ok (Some f')
  end.
Fixpoint frun (o : option lcfile) (l : list lop) : exc (option lcfile) :=
  match l with
  | [] => Ok o
  | a :: r => do o' <- fop1 o a ;; frun o' r
  end.
Lemma frun_app l r : forall o, frun o (l ++ r) = (do o' <- frun o l ;; frun o' r).
Proof. induction l as [|a l IH]; intros o; cbn; [reflexivity|]. destruct (fop1 o a); cbn; [apply IH|reflexivity]. Qed.
Definition op_of (i : nat) (x : exc (nat * lop)) : list lop :=
  match x with Ok ja => if fst ja =? i then [snd ja] else [] | Raise _ => [] end.
Definition ops_of (i : nat) (l : list (exc (nat * lop))) : list lop := flat_map (op_of i) l.
Lemma ops_app i a b : ops_of i (a ++ b) = ops_of i a ++ ops_of i b.
Proof. apply flat_map_app. Qed.
Lemma ops_flat {A} i (f : A -> list (exc (nat * lop))) l : ops_of i (flat_map f l) = flat_map (fun a => ops_of i (f a)) l.
Proof. induction l as [|a l IH]; [reflexivity|]. cbn [flat_map]. rewrite ops_app, IH. reflexivity. Qed.
Lemma lstep_proj w ja w' : lstep w ja = Ok w' -> fop1 (w (fst ja)) (snd ja) = Ok (w' (fst ja)) /\ forall i, i <> fst ja -> w' i = w i.
Proof.
  destruct ja as [j a]. unfold lstep, fop1. cbn [fst snd]. intros H.
  assert (G : forall f, w' = wput w j f -> w' j = Some f /\ forall i, i <> j -> w' i = w i).
  { intros f ->. unfold wput. rewrite Nat.eqb_refl. split; [reflexivity|]. intros i Hi. destruct (Nat.eqb_spec i j); congruence. }
  assert (K : forall b : exc lcfile, (do f' <- b ;; Ok (wput w j f')) = Ok w' -> (do f' <- b ;; Ok (Some f')) = Ok (w' j) /\ forall i, i <> j -> w' i = w i).
  { intros b E. destruct b as [f'|]; cbn in *; [|discriminate]. inversion E as [E']. destruct (G f' (eq_sym E')) as [G1 G2]. rewrite E', G1. split; [reflexivity|exact G2]. }
  destruct a; try (destruct (w j) as [f|]; [apply K; exact H|discriminate]).
  inversion H as [E]. destruct (G _ (eq_sym E)) as [G1 G2]. rewrite E, G1. split; [reflexivity|exact G2].
Qed.
Lemma lexec_proj l : forall w w' r, lexec w l = (w', r) ->
  exists k, k <= length l /\ (forall i, frun (w i) (ops_of i (firstn k l)) = Ok (w' i)) /\ Forall (fun x => exists o, x = Ok o) (firstn k l) /\
            (r = Ok tt -> k = length l).
Proof.
  induction l as [|x l IH]; intros w w' r E; cbn [lexec] in E.
  - inversion E; subst. exists 0. split; [cbn; lia|]. split; [reflexivity|]. split; [constructor|reflexivity].
  - assert (Stop : forall e, (w, Raise e) = (w', r) -> exists k, k <= length (x :: l) /\ (forall i, frun (w i) (ops_of i (firstn k (x :: l))) = Ok (w' i)) /\
      Forall (fun x => exists o, x = Ok o) (firstn k (x :: l)) /\ (r = Ok tt -> k = length (x :: l))).
    { intros e H. inversion H; subst. exists 0. split; [cbn; lia|]. split; [reflexivity|]. split; [constructor|discriminate]. }
    destruct x as [ja|e]; [|apply (Stop e E)]. destruct (lstep w ja) as [w1|e] eqn:ES; [|apply (Stop e E)].
    destruct (IH _ _ _ E) as (k & Hk & HP & HF & HR). exists (S k). split; [cbn; lia|]. split; [|split].
    + intros i. cbn [firstn]. change (ops_of i (Ok ja :: firstn k l)) with (op_of i (Ok ja) ++ ops_of i (firstn k l)). cbn [op_of].
      destruct (lstep_proj _ _ _ ES) as [P1 P2]. destruct (Nat.eqb_spec (fst ja) i) as [<-|Hn].
      * cbn [app frun]. rewrite P1. cbn [bind]. apply HP.
      * cbn [app]. rewrite <- (P2 i) by congruence. apply HP.
    + cbn [firstn]. constructor; [eexists; reflexivity|exact HF].
    + intros Hr. cbn [length]. f_equal. apply HR, Hr.
Qed.
Lemma lexec_ok l w w' : lexec w l = (w', Ok tt) -> (forall i, frun (w i) (ops_of i l) = Ok (w' i)) /\ Forall (fun x => exists o, x = Ok o) l.
Proof.
  intros E. destruct (lexec_proj _ _ _ _ E) as (k & _ & HP & HF & HR). rewrite (HR eq_refl), firstn_all in *. split; assumption.
Qed.
Lemma flat_nil {A B} (f : A -> list B) l : (forall a, In a l -> f a = []) -> flat_map f l = [].
Proof. induction l as [|a l IH]; intros H; cbn; [reflexivity|]. rewrite (H a (or_introl eq_refl)). apply IH. intros; apply H; right; assumption. Qed.
Lemma flat_pick {B} (g : nat -> list B) i n : (forall j, j <> i -> g j = []) -> i < n -> flat_map g (seq 0 n) = g i.
Proof.
  intros H L. replace n with (i + S (n - i - 1)) by lia. rewrite seq_app, flat_map_app. cbn [seq flat_map plus].
  rewrite !flat_nil; [rewrite app_nil_r; reflexivity| |]; intros a Ha; apply in_seq in Ha; apply H; lia.
Qed.
Lemma flat_pick2 {A B} (g : nat * A -> list B) pts : forall a i p, (forall j q, j <> a + i -> g (j, q) = []) -> nth_error pts i = Some p ->
  flat_map g (combine (seq a (length pts)) pts) = g (a + i, p).
Proof.
  induction pts as [|q pts IH]; intros a i p H E; [destruct i; discriminate|]. cbn [length seq combine flat_map]. destruct i as [|i].
  - cbn in E. inversion E; subst. rewrite Nat.add_0_r in *. rewrite flat_nil, app_nil_r; [reflexivity|]. intros [j r] Hj.
    apply in_combine_l, in_seq in Hj. apply H. lia.
  - rewrite H by lia. cbn [app]. cbn in E. rewrite (IH (S a) i p); [f_equal; f_equal; lia| |exact E]. intros j r Hj. apply H. lia.
Qed.
Lemma flat_none2 {A B} (g : nat * A -> list B) pts i : (forall j q, j <> i -> g (j, q) = []) -> length pts <= i -> flat_map g (combine (seq 0 (length pts)) pts) = [].
Proof. intros H L. apply flat_nil. intros [j q] Hj. apply in_combine_l, in_seq in Hj. apply H. lia. Qed.
Lemma ops_map_i i (l : list lop) : ops_of i (map (fun o => Ok (i, o)) l) = l.
Proof. induction l as [|a l IH]; cbn; [reflexivity|]. rewrite Nat.eqb_refl. cbn. f_equal. exact IH. Qed.
Lemma ops_map_j i j (l : list lop) : j <> i -> ops_of i (map (fun o => Ok (j, o)) l) = [].
Proof. intros H. induction l as [|a l IH]; cbn; [reflexivity|]. destruct (Nat.eqb_spec j i); [congruence|]. exact IH. Qed.

(** ** The operations of a build on one file *)
Definition head_ops (p : pointing) : list lop := [LNew; LMeta p; LFin false; LStatus false; LExtra false false; LIndex red_edges].
Definition tail_ops : list lop := map LFull ["dec"; "mass"; "pos_x"; "pos_y"; "pos_z"; "ra"; "redshift"] ++ [LStatus true; LFin true].
Definition row_ops (rows : list row) : list lop :=
  map (fun kc => LCol (fst kc) (map (snd kc) rows)) columns ++ [LSim (map (fun r => (r_snap r, r_index r)) rows); LRed (map r_red rows)].
Lemma write_rows_ops i rows : write_rows i rows = map (fun o => Ok (i, o)) (row_ops rows).
Proof. unfold write_rows, row_ops. rewrite map_app, map_map. reflexivity. Qed.
Lemma init_ops pts i p : nth_error pts i = Some p -> ops_of i (init_steps pts) = head_ops p.
Proof.
  intros E. unfold init_steps. rewrite ops_flat. rewrite (flat_pick2 _ pts 0 i p); [cbn [fst snd plus]; apply ops_map_i| |exact E].
  intros j q Hj. cbn [fst snd]. apply ops_map_j. exact Hj.
Qed.
Lemma init_ops_none pts i : length pts <= i -> ops_of i (init_steps pts) = [].
Proof. intros L. unfold init_steps. rewrite ops_flat. apply (flat_none2 _ pts i); [|exact L]. intros j q Hj. apply ops_map_j. exact Hj. Qed.
Lemma final_eq n : final_steps n = flat_map (fun i => map (fun o => Ok (i, o)) tail_ops) (seq 0 n).
Proof. reflexivity. Qed.
Lemma final_ops n i : i < n -> ops_of i (final_steps n) = tail_ops.
Proof. intros L. rewrite final_eq, ops_flat, (flat_pick _ i n); [apply ops_map_i| |exact L]. intros j Hj. apply ops_map_j. exact Hj. Qed.
Lemma final_ops_none n i : n <= i -> ops_of i (final_steps n) = [].
Proof. intros L. rewrite final_eq, ops_flat. apply flat_nil. intros j Hj. apply in_seq in Hj. apply ops_map_j. lia. Qed.

(** a build in general: [F m] loads a snapshot and makes the slabs of every cone *)
Definition gen_mid (F : meta -> exc (pointing -> exc (list (exc (list row))))) (use : list meta) (pts : list pointing) : list (exc (nat * lop)) :=
  flat_map (fun m => match F m with
    | Raise e => [Raise e]
    | Ok G => flat_map (fun ip => cone_steps (G (snd ip)) (fst ip)) (combine (seq 0 (length pts)) pts)
    end) use.
Definition gen_steps F use pts := init_steps pts ++ gen_mid F use pts ++ final_steps (length pts).
Definition cone_F asort az mi sd c : meta -> exc (pointing -> exc (list (exc (list row)))) := fun m =>
  do x <- snap_load mi sd (lc_mass c) (m_index m) ;; Ok (fun p => snap_slabs asort az c p m (fst x) (snd x)).
Definition ball_F asort az sk mi sd md c : meta -> exc (pointing -> exc (list (exc (list row)))) := fun m =>
  do x <- snap_load mi sd (lc_mass c) (m_index m) ;;
  Ok (fun p => Ok [sphere_rows asort az sk md (lc_box c) (lc_dmin c) (lc_dmax c) (p_start p) (p_flip p) m (fst x) (snd x)]).
Lemma flat_map_ext_ {A B} (f g : A -> list B) l : (forall a, f a = g a) -> flat_map f l = flat_map g l.
Proof. intros H. induction l as [|a l IH]; cbn; [reflexivity|]. rewrite H, IH. reflexivity. Qed.
Lemma build_gen asort az mi sd c pts : build_steps asort az mi sd c pts = gen_steps (cone_F asort az mi sd c) (lc_use c) pts.
Proof.
  unfold build_steps, gen_steps, gen_mid. do 2 f_equal. apply flat_map_ext_. intros m. unfold cone_F.
  destruct (snap_load mi sd (lc_mass c) (m_index m)) as [[ma po]|e]; reflexivity.
Qed.
Lemma sphere_gen asort az sk mi sd md c pts : sphere_steps asort az sk mi sd md c pts = gen_steps (ball_F asort az sk mi sd md c) (lc_use c) pts.
Proof.
  unfold sphere_steps, gen_steps, gen_mid. do 2 f_equal. apply flat_map_ext_. intros m. unfold ball_F.
  destruct (snap_load mi sd (lc_mass c) (m_index m)) as [[ma po]|e]; [|reflexivity]. cbn [bind fst snd]. apply flat_map_ext_. intros [i p]. cbn [fst snd].
  unfold cone_steps. cbn [flat_map]. destruct (sphere_rows _ _ _ _ _ _ _ _ _ _ _ _) as [rows|e]; [rewrite app_nil_r; reflexivity|reflexivity].
Qed.
(** the chunks of rows written for cone [p] *)
Definition chunks_of (F : meta -> exc (pointing -> exc (list (exc (list row))))) (use : list meta) (p : pointing) (css : list (list (list row))) : Prop :=
  Forall2 (fun m cs => exists G, F m = Ok G /\ G p = Ok (map Ok cs)) use css.
Definition isok (x : exc (nat * lop)) : Prop := exists o, x = Ok o.
Lemma cone_steps_ok x i : Forall isok (cone_steps x i) -> exists cs, x = Ok (map Ok cs) /\ ops_of i (cone_steps x i) = flat_map row_ops cs /\ forall j, j <> i -> ops_of j (cone_steps x i) = [].
Proof.
  destruct x as [l|e]; cbn [cone_steps].
  - induction l as [|s l IH]; cbn [flat_map]; intros H.
    + exists []. split; [reflexivity|]. split; reflexivity.
    + apply Forall_app in H. destruct H as [H1 H2]. destruct (IH H2) as (cs & E & Eo & En). destruct s as [rows|e].
      * exists (rows :: cs). split; [inversion E; reflexivity|]. split.
        -- rewrite ops_app, Eo, write_rows_ops, ops_map_i. reflexivity.
        -- intros j Hj. rewrite ops_app, En, write_rows_ops, ops_map_j by congruence. reflexivity.
      * inversion H1 as [|? ? [o C] _]. discriminate.
  - intros H. inversion H as [|? ? [o C] _]. discriminate.
Qed.
Lemma Forall_flat_in {A B} (P : B -> Prop) (f : A -> list B) l : Forall P (flat_map f l) -> forall a, In a l -> Forall P (f a).
Proof. intros H a Ha. rewrite Forall_forall in *. intros b Hb. apply H, in_flat_map. exists a. split; assumption. Qed.
Lemma flat_pick3 {A B} (g : nat * A -> list B) pts : forall a i p, (forall j q, In (j, q) (combine (seq a (length pts)) pts) -> j <> a + i -> g (j, q) = []) -> nth_error pts i = Some p ->
  flat_map g (combine (seq a (length pts)) pts) = g (a + i, p).
Proof.
  induction pts as [|q pts IH]; intros a i p H E; [destruct i; discriminate|]. cbn [length seq combine flat_map]. destruct i as [|i].
  - cbn in E. inversion E; subst. rewrite Nat.add_0_r in *. rewrite flat_nil, app_nil_r; [reflexivity|]. intros [j r] Hj.
    apply H; [right; exact Hj|]. apply in_combine_l, in_seq in Hj. lia.
  - rewrite H; [|left; reflexivity|lia]. cbn [app]. cbn in E. rewrite (IH (S a) i p); [f_equal; f_equal; lia| |exact E]. intros j r Hj Hn. apply H; [right; exact Hj|lia].
Qed.
Lemma in_combine_nth {A} (pts : list A) : forall a j q, In (j, q) (combine (seq a (length pts)) pts) <-> exists i, j = a + i /\ nth_error pts i = Some q.
Proof.
  induction pts as [|x pts IH]; intros a j q; cbn [length seq combine In].
  - split; [tauto|]. intros (i & _ & E). destruct i; discriminate.
  - rewrite IH. split.
    + intros [E|(i & -> & E)]; [inversion E; subst; exists 0; split; [lia|reflexivity]|exists (S i); split; [lia|exact E]].
    + intros ([|i] & -> & E); [left; cbn in E; inversion E; f_equal; lia|right; exists i; split; [lia|exact E]].
Qed.
Lemma mid_ops F use pts i p : nth_error pts i = Some p -> Forall isok (gen_mid F use pts) ->
  exists css, chunks_of F use p css /\ ops_of i (gen_mid F use pts) = flat_map row_ops (concat css).
Proof.
  intros Ep. unfold gen_mid. induction use as [|m use IH]; cbn [flat_map]; intros H.
  - exists []. split; [constructor|reflexivity].
  - apply Forall_app in H. destruct H as [H1 H2]. destruct (IH H2) as (css & HC & HO).
    destruct (F m) as [G|e] eqn:EF; [|inversion H1 as [|? ? [o C] _]; discriminate].
    assert (Hi : In (i, p) (combine (seq 0 (length pts)) pts)) by (apply in_combine_nth; exists i; split; [reflexivity|exact Ep]).
    pose proof (Forall_flat_in _ _ _ H1) as HA. destruct (cone_steps_ok _ _ (HA _ Hi)) as (cs & E1 & E2 & E3). cbn [fst snd] in *.
    exists (cs :: css). split; [constructor; [exists G; split; assumption|exact HC]|].
    rewrite ops_app, HO, ops_flat. cbn [concat]. rewrite flat_map_app. f_equal.
    rewrite (flat_pick3 _ pts 0 i p); [exact E2| |exact Ep]. intros j q Hj Hn. destruct (cone_steps_ok _ _ (HA _ Hj)) as (cs' & _ & _ & E'). apply E'. cbn in *. lia.
Qed.
Lemma ops_none_map {A} (f : A -> list (exc (nat * lop))) i l : (forall a, In a l -> ops_of i (f a) = []) -> ops_of i (flat_map f l) = [].
Proof. intros H. rewrite ops_flat. apply flat_nil, H. Qed.
Lemma cone_steps_other x i j : j <> i -> ops_of j (cone_steps x i) = [].
Proof.
  intros Hn. destruct x as [l|e]; [|reflexivity]. cbn [cone_steps]. apply ops_none_map. intros [rows|e] _; [|reflexivity]. rewrite write_rows_ops. apply ops_map_j. congruence.
Qed.
Lemma mid_ops_none F use pts i : length pts <= i -> ops_of i (gen_mid F use pts) = [].
Proof.
  intros L. unfold gen_mid. apply ops_none_map. intros m _. destruct (F m) as [G|e]; [|reflexivity]. apply ops_none_map. intros [j q] Hj.
  apply in_combine_l, in_seq in Hj. apply cone_steps_other. cbn. lia.
Qed.

(** ** What a finished file holds *)
Definition basic_dict (rows : list row) : dict (list R) := map (fun kc => (fst kc, map (snd kc) rows)) columns.
Definition full_dict (rows : list row) : dict (list R) :=
  [("dec", map r_dec rows); ("mass", map r_mass rows); ("pos_x", map r_x rows); ("pos_y", map r_y rows); ("pos_z", map r_z rows); ("ra", map r_ra rows); ("redshift", map r_red rows)].
Definition simof (rows : list row) : list (Z * nat) := map (fun r => (r_snap r, r_index r)) rows.
Definition red_tab (E : list R) (zs : list R) : list (R * nat) :=
  match E with [] => [] | e :: r => (e, 0) :: map (fun e => (e, count_le e zs)) r end.
Lemma red_tab_add E zs zs' : red_add (red_tab E zs) zs' = red_tab E (zs ++ zs').
Proof.
  destruct E as [|e E]; [reflexivity|]. cbn [red_tab red_add]. f_equal. rewrite map_map. apply map_ext. intros x. cbn [fst snd]. unfold count_le.
  rewrite filter_app, app_length. reflexivity.
Qed.
Lemma red_tab_0 E : map (fun z => (z, 0)) E = red_tab E [].
Proof. destruct E; reflexivity. Qed.
Lemma row_ops_run fin st ex dn pt E acc b full rows : (b = [] /\ acc = []) \/ b = basic_dict acc ->
  frun (Some (mkLF fin st ex dn pt (red_tab E (map r_red acc)) b (simof acc) full)) (row_ops rows) =
  Ok (Some (mkLF fin st ex dn pt (red_tab E (map r_red (acc ++ rows))) (basic_dict (acc ++ rows)) (simof (acc ++ rows)) full)).
Proof.
  intros H. unfold row_ops, columns. cbn [map app fst snd]. destruct H as [[-> ->]| ->].
  - cbn [frun fop1 lapply bind dget dset String.eqb Ascii.eqb Bool.eqb]. rewrite red_tab_add. reflexivity.
  - unfold basic_dict, columns. cbn [map fst snd]. cbn [frun fop1 lapply bind dget dset String.eqb Ascii.eqb Bool.eqb].
    rewrite red_tab_add. unfold simof. rewrite !map_app. reflexivity.
Qed.
Lemma chunks_run fin st ex dn pt E full chunks : forall acc b, (b = [] /\ acc = []) \/ b = basic_dict acc ->
  frun (Some (mkLF fin st ex dn pt (red_tab E (map r_red acc)) b (simof acc) full)) (flat_map row_ops chunks) =
  Ok (Some (mkLF fin st ex dn pt (red_tab E (map r_red (acc ++ concat chunks))) (match chunks with [] => b | _ => basic_dict (acc ++ concat chunks) end) (simof (acc ++ concat chunks)) full)).
Proof.
  induction chunks as [|rows chunks IH]; intros acc b H; cbn [flat_map concat].
  - rewrite app_nil_r. reflexivity.
  - rewrite frun_app, row_ops_run by exact H. cbn [bind]. rewrite IH by (right; reflexivity). rewrite <- !app_assoc.
    destruct chunks; [rewrite app_nil_r|]; reflexivity.
Qed.
Lemma head_run o p : frun o (head_ops p) = Ok (Some (mkLF (Some false) false false false (Some p) (red_tab red_edges []) [] [] [])).
Proof. unfold head_ops. cbn [frun fop1 lapply bind]. rewrite red_tab_0. reflexivity. Qed.
Lemma tail_run fin st ex dn pt red rows sim :
  frun (Some (mkLF fin st ex dn pt red (basic_dict rows) sim [])) tail_ops = Ok (Some (mkLF (Some true) true ex dn pt red (basic_dict rows) sim (full_dict rows))).
Proof. reflexivity. Qed.
Lemma tail_run_nil fin st ex dn pt red sim : frun (Some (mkLF fin st ex dn pt red [] sim [])) tail_ops = Raise KeyError.
Proof. reflexivity. Qed.
Definition done_file (p : pointing) (rows : list row) : lcfile :=
  mkLF (Some true) true false false (Some p) (red_tab red_edges (map r_red rows)) (basic_dict rows) (simof rows) (full_dict rows).
Lemma done_holds p rows : marked_done (done_file p rows) /\ holds_rows (done_file p rows) p rows.
Proof.
  split; [repeat split|]. split; [reflexivity|]. split; [reflexivity|]. split; [|split].
  - intros k g I. unfold stored in I. cbn [In] in I. destruct I as [E|[E|[E|[E|[E|[E|[E|[]]]]]]]]; inversion E; subst; split; reflexivity.
  - cbn [done_file lf_red]. destruct red_edges as [|e E]; [reflexivity|]. cbn [red_tab map fst]. f_equal. rewrite map_map. cbn [fst]. apply map_id.
  - intros j e n Hj. cbn [done_file lf_red]. destruct red_edges as [|e0 E]; [destruct j; discriminate|]. cbn [red_tab]. destruct j as [|j]; [lia|]. cbn [nth_error].
    rewrite nth_error_map. destruct (nth_error E j); cbn; intros H; inversion H; subst; reflexivity.
Qed.
Lemma file_run p cs o o' : frun o (head_ops p ++ flat_map row_ops cs ++ tail_ops) = Ok o' -> cs <> [] /\ o' = Some (done_file p (concat cs)).
Proof.
  rewrite frun_app, head_run. cbn [bind]. rewrite frun_app.
  change (red_tab red_edges []) with (red_tab red_edges (map r_red [])). change (@nil (Z * nat)) with (simof []) at 1.
  rewrite (chunks_run _ _ _ _ _ red_edges [] cs [] []) by (left; split; reflexivity). cbn [bind app].
  destruct cs as [|c cs].
  - rewrite tail_run_nil. discriminate.
  - rewrite tail_run. intros E. inversion E. split; [discriminate|reflexivity].
Qed.

(** ** Crashes *)
Definition nofin (a : lop) : Prop := match a with LFin true => False | _ => True end.
Lemma nofin_run l : Forall nofin l -> forall f f', frun (Some f) l = Ok f' -> lf_finished f <> Some true -> exists g, f' = Some g /\ lf_finished g <> Some true.
Proof.
  induction l as [|a l IH]; intros HF f f' E H; cbn [frun] in E.
  - inversion E. exists f. split; [reflexivity|exact H].
  - inversion HF as [|? ? Ha HF']; subst. destruct (fop1 (Some f) a) as [o|] eqn:E1; cbn [bind] in E; [|discriminate].
    assert (G : exists g, o = Some g /\ lf_finished g <> Some true).
    { destruct f as [fin st ex dn pt red basic sim full]. cbn [lf_finished] in H.
      assert (K : forall b, (do f' <- b ;; Ok (Some f')) = Ok o -> (forall g, b = Ok g -> lf_finished g <> Some true) -> exists g, o = Some g /\ lf_finished g <> Some true).
      { intros b Eb Hb. destruct b as [g|]; cbn in Eb; [|discriminate]. inversion Eb. exists g. split; [reflexivity|apply Hb; reflexivity]. }
      destruct a; unfold fop1 in E1.
      - inversion E1. eexists. split; [reflexivity|]. cbn. discriminate.
      - apply (K _ E1). cbn. intros g Eg. inversion Eg. exact H.
      - destruct b; [destruct Ha|]. apply (K _ E1). cbn. intros g Eg. inversion Eg. cbn. discriminate.
      - apply (K _ E1). cbn. intros g Eg. inversion Eg. exact H.
      - apply (K _ E1). cbn. intros g Eg. inversion Eg. exact H.
      - apply (K _ E1). cbn. intros g Eg. inversion Eg. exact H.
      - apply (K _ E1). cbn [lapply]. intros g Eg. inversion Eg. exact H.
      - apply (K _ E1). cbn. intros g Eg. inversion Eg. exact H.
      - apply (K _ E1). cbn. intros g Eg. inversion Eg. exact H.
      - apply (K _ E1). cbn [lapply]. destruct (dfind basic k); cbn [bind]; intros g Eg; inversion Eg. exact H.
      - apply (K _ E1). cbn [lapply]. destruct (check _ _); cbn [bind]; intros g Eg; inversion Eg. exact H.
      - apply (K _ E1). cbn [lapply]. destruct (dfind full k); cbn [bind]; [|intros g Eg; inversion Eg]. destruct (check _ _); cbn [bind]; intros g Eg; inversion Eg. exact H. }
    destruct G as (g & -> & Hg). exact (IH HF' g f' E Hg).
Qed.
Lemma ops_prefix i k l : exists j, ops_of i (firstn k l) = firstn j (ops_of i l).
Proof.
  exists (length (ops_of i (firstn k l))). rewrite <- (firstn_skipn k l) at 3. rewrite ops_app.
  rewrite firstn_app, firstn_all, Nat.sub_diag. cbn. rewrite app_nil_r. reflexivity.
Qed.
Lemma row_ops_nofin rows : Forall nofin (row_ops rows).
Proof. unfold row_ops, columns. cbn. repeat constructor. Qed.
Lemma mid_nofin F use pts i : Forall nofin (ops_of i (gen_mid F use pts)).
Proof.
  unfold gen_mid. rewrite ops_flat. apply Forall_flat. intros m _. destruct (F m) as [G|e]; [|constructor]. rewrite ops_flat. apply Forall_flat. intros [j q] _. cbn [fst snd].
  destruct (Nat.eq_dec i j) as [->|Hn]; [|rewrite cone_steps_other by exact Hn; constructor].
  destruct (G q) as [l|e]; [|constructor]. cbn [cone_steps]. rewrite ops_flat. apply Forall_flat. intros [rows|e] _; [|constructor]. rewrite write_rows_ops, ops_map_i. apply row_ops_nofin.
Qed.
Lemma tail_prefix j : firstn j tail_ops = tail_ops \/ Forall nofin (firstn j tail_ops).
Proof.
  destruct (Nat.le_gt_cases 9 j) as [L|L]; [left; apply firstn_all2; cbn; lia|right].
  do 9 (destruct j as [|j]; [cbn; repeat constructor|]). lia.
Qed.
Lemma gen_crash F use pts l w w' r i : lexec w (firstn l (gen_steps F use pts)) = (w', r) -> forall f, w' i = Some f -> lf_finished f = Some true ->
  w' i = w i \/ exists p css, nth_error pts i = Some p /\ chunks_of F use p css /\ f = done_file p (concat (concat css)).
Proof.
  intros E f Ef Hf. destruct (lexec_proj _ _ _ _ E) as (k0 & _ & HP & HF & _). specialize (HP i). rewrite firstn_firstn in HP, HF.
  set (k := Nat.min k0 l) in *. clearbody k. clear E. rewrite Ef in HP.
  destruct (nth_error pts i) as [p|] eqn:Ep.
  - pose proof (nth_error_Some_lt _ _ _ Ep) as Li. unfold gen_steps in HP, HF. rewrite app_assoc in HP, HF.
    rewrite firstn_app in HP, HF. rewrite ops_app in HP. apply Forall_app in HF. destruct HF as [HF _].
    destruct (Nat.le_gt_cases (length (init_steps pts ++ gen_mid F use pts)) k) as [Lk|Lk].
    + rewrite firstn_all2 in HP, HF by exact Lk. apply Forall_app in HF. destruct HF as [_ HF].
      destruct (mid_ops F use pts i p Ep HF) as (css & HC & HO). rewrite ops_app, (init_ops _ _ _ Ep), HO in HP.
      destruct (ops_prefix i (k - length (init_steps pts ++ gen_mid F use pts)) (final_steps (length pts))) as [j Ej]. rewrite Ej, (final_ops _ _ Li) in HP.
      destruct (tail_prefix j) as [Ht|Ht].
      * rewrite Ht, <- app_assoc in HP. apply file_run in HP. destruct HP as [_ HP]. inversion HP. right. exists p, css. repeat split; assumption.
      * exfalso. unfold head_ops in HP. cbn [app frun fop1 bind] in HP. apply nofin_run in HP; [destruct HP as (g & Eg & Hg); inversion Eg; subst; congruence| |cbn; discriminate].
        repeat (constructor; [exact I|]). rewrite <- HO. apply Forall_app. split; [apply mid_nofin|exact Ht].
    + replace (k - length (init_steps pts ++ gen_mid F use pts)) with 0 in HP by lia. cbn [firstn] in HP. unfold ops_of at 2 in HP. cbn [flat_map] in HP. rewrite app_nil_r in HP.
      destruct (ops_prefix i k (init_steps pts ++ gen_mid F use pts)) as [j Ej]. rewrite Ej, ops_app, (init_ops _ _ _ Ep) in HP.
      destruct j as [|j]; [left; cbn in HP; congruence|]. exfalso. unfold head_ops in HP. cbn [app firstn frun fop1 bind] in HP.
      apply nofin_run in HP; [destruct HP as (g & Eg & Hg); inversion Eg; subst; congruence| |cbn; discriminate].
      apply Forall_firstn. repeat (constructor; [exact I|]). apply mid_nofin.
  - left. apply nth_error_None in Ep. destruct (ops_prefix i k (gen_steps F use pts)) as [j Ej]. rewrite Ej in HP.
    unfold gen_steps in HP. rewrite !ops_app, init_ops_none, mid_ops_none, final_ops_none in HP by exact Ep. cbn in HP. destruct j; cbn in HP; congruence.
Qed.
Lemma gen_done F use pts w w' : lexec w (gen_steps F use pts) = (w', Ok tt) ->
  (forall i p, nth_error pts i = Some p -> exists css, chunks_of F use p css /\ w' i = Some (done_file p (concat (concat css)))) /\
  (forall i, length pts <= i -> w' i = w i).
Proof.
  intros E. destruct (lexec_ok _ _ _ E) as [HP HF]. split.
  - intros i p Ep. specialize (HP i). unfold gen_steps in *. apply Forall_app in HF. destruct HF as [_ HF]. apply Forall_app in HF. destruct HF as [HF _].
    destruct (mid_ops F use pts i p Ep HF) as (css & HC & HO). exists css. split; [exact HC|].
    rewrite !ops_app, (init_ops _ _ _ Ep), HO, final_ops in HP by (apply nth_error_Some_lt with (1 := Ep)). apply file_run in HP. symmetry; symmetry; apply HP.
  - intros i L. specialize (HP i). unfold gen_steps in HP. rewrite !ops_app, init_ops_none, mid_ops_none, final_ops_none in HP by exact L. cbn in HP. congruence.
Qed.
