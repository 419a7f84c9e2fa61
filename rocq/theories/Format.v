(** Proofs about formatted catalogues (C35, C36, C39, C57). *)
From Coq Require Import Reals Permutation Sorted Lra.
From Verif Require Import Dict Util RealUtil SnapModel SnapSpec Snap FormatModel FormatSpec.
Open Scope string_scope.
Open Scope list_scope.
Open Scope nat_scope.

(** * running operations *)
Lemma exec_app l1 : forall w l2, exec w (l1 ++ l2) =
  match exec w l1 with (w1, Ok _) => exec w1 l2 | (w1, Raise e) => (w1, Raise e) end.
Proof.
  induction l1 as [|[o|e] l1 IH]; intros w l2; cbn [app exec]; [reflexivity| |reflexivity].
  destruct (apply_op w o); [apply IH|reflexivity].
Qed.
Lemma exec_app_ok w w1 l1 l2 : exec w l1 = (w1, Ok tt) -> exec w (l1 ++ l2) = exec w1 l2.
Proof. intros H. rewrite exec_app, H. reflexivity. Qed.
Lemma exec_cons w w1 o l : apply_op w o = Ok w1 -> exec w (Ok o :: l) = exec w1 l.
Proof. intros H. cbn [exec]. rewrite H. reflexivity. Qed.

(** ** lists keyed by snapshot *)
Lemma zget_app {A} (l m : list (Z * A)) s : zget (l ++ m) s = match zget l s with Some x => Some x | None => zget m s end.
Proof. induction l as [|[k v] l IH]; cbn; [reflexivity|]. destruct (Z.eqb k s); auto. Qed.
Lemma zget_del {A} (l : list (Z * A)) s t : zget (zdel l s) t = if Z.eqb s t then None else zget l t.
Proof.
  induction l as [|[k v] l IH]; cbn; [destruct (Z.eqb s t); reflexivity|].
  unfold zdel in *. destruct (Z.eqb_spec k s); cbn.
  - rewrite IH. subst. destruct (Z.eqb_spec s t); [reflexivity|]. destruct (Z.eqb_spec s t); congruence.
  - rewrite IH. destruct (Z.eqb_spec k t), (Z.eqb_spec s t); congruence.
Qed.
Lemma zget_put {A} (l : list (Z * A)) s f t : zget (zput l s f) t = if Z.eqb s t then option_map f (zget l t) else zget l t.
Proof.
  induction l as [|[k v] l IH]; cbn; [destruct (Z.eqb s t); reflexivity|].
  unfold zput in *. destruct (Z.eqb_spec k s); cbn; rewrite IH; destruct (Z.eqb_spec k t), (Z.eqb_spec s t); cbn; congruence.
Qed.
Lemma zput_absent {A} (l : list (Z * A)) s f : zget l s = None -> zput l s f = l.
Proof.
  unfold zput. induction l as [|[k v] l IH]; cbn; [reflexivity|]. destruct (Z.eqb k s); [discriminate|]. intros H. rewrite IH; auto.
Qed.

(** the world while group [s] is being written *)
Definition wg (f : ffile) (gone : list Z) (s : Z) (g : group) : world :=
  mkW (Some (set_groups f (zdel (f_groups f) s ++ [(s, g)]))) gone.
Lemma in_group_wg f gone s g k : in_group (wg f gone s g) s k = (do g' <- k g ;; Ok (wg f gone s g')).
Proof.
  unfold in_group, in_file, wg. cbn [w_file f_groups set_groups w_gone].
  rewrite zget_app, zget_del, Z.eqb_refl. cbn [zget]. rewrite Z.eqb_refl.
  destruct (k g); [|reflexivity]. cbn [bind]. unfold set_groups. cbn [f_groups f_attrs f_number f_table].
  unfold zput at 1. rewrite map_app. fold (zput (zdel (f_groups f) s) s (fun _ => a)). rewrite zput_absent by (rewrite zget_del, Z.eqb_refl; reflexivity).
  cbn [map fst snd]. rewrite Z.eqb_refl. reflexivity.
Qed.

Definition mk_ds (sv : fspec * col) : dset_ :=
  mkD (fs_name (fst sv)) (snd sv) (Some (fs_units (fst sv))) (Some (fs_h (fst sv))).

Lemma map_last_name name k d l : ~ In name (map d_name l) -> d_name d = name ->
  map (fun d => if String.eqb (d_name d) name then k d else d) (l ++ [d]) = l ++ [k d].
Proof.
  intros H E. rewrite map_app. cbn. rewrite E, String.eqb_refl. f_equal.
  rewrite <- (map_id l) at 2. apply map_ext_in. intros a Ha. destruct (String.eqb_spec (d_name a) name); [|reflexivity].
  exfalso. apply H. rewrite <- e. apply in_map. auto.
Qed.

Lemma exec_ds f gone s g sp v : ~ In (fs_name sp) (data_names g) ->
  exec (wg f gone s g) (write_ds s sp v) = (wg f gone s (set_data g (g_data g ++ [mk_ds (sp, v)])), Ok tt).
Proof.
  intros H. unfold write_ds. cbn [exec apply_op]. rewrite in_group_wg.
  rewrite (proj2 (smem_false _ _)) by auto. cbn [bind].
  assert (H' : ~ In (fs_name sp) (map d_name (g_data g))) by (intros Q; apply H; apply in_or_app; right; auto).
  rewrite in_group_wg. unfold put_ds. cbn [g_data set_data g_cuts g_meta].
  rewrite (proj2 (smem_In _ _)) by (rewrite map_app; apply in_or_app; right; left; reflexivity).
  cbn [bind]. rewrite map_last_name by auto. rewrite in_group_wg. cbn [g_data set_data g_cuts g_meta d_name d_vals d_units d_h].
  rewrite (proj2 (smem_In _ _)) by (rewrite map_app; apply in_or_app; right; left; reflexivity).
  cbn [bind]. rewrite map_last_name by auto. reflexivity.
Qed.

Lemma exec_dss f gone s L : forall g, NoDup (map (fun sv => fs_name (fst sv)) L) ->
  (forall x, In x (map (fun sv => fs_name (fst sv)) L) -> ~ In x (data_names g)) ->
  exec (wg f gone s g) (flat_map (fun sv => write_ds s (fst sv) (snd sv)) L) =
    (wg f gone s (set_data g (g_data g ++ map mk_ds L)), Ok tt).
Proof.
  induction L as [|[sp v] L IH]; intros g HN HD.
  - cbn. rewrite app_nil_r. destruct g; reflexivity.
  - cbn [flat_map map fst snd] in *. inversion HN as [|? ? H1 H2]; subst.
    rewrite (exec_app_ok _ _ _ _ (exec_ds f gone s g sp v (HD _ (or_introl eq_refl)))).
    rewrite IH; auto.
    + unfold set_data. cbn [g_data g_cuts g_meta]. rewrite <- app_assoc. reflexivity.
    + intros x Hx Q. unfold data_names in Q. cbn [set_data g_cuts g_data] in Q. rewrite map_app in Q.
      apply in_app_or in Q as [Q|Q]; [apply (HD x); [right; auto|]; apply in_or_app; left; auto|].
      apply in_app_or in Q as [Q|[Q|[]]]; [apply (HD x); [right; auto|]; apply in_or_app; right; auto|].
      cbn in Q. subst x. auto.
Qed.

(** the writes of one snapshot *)
Lemma exec_group f gone s cuts cols others mrows L :
  flat_map (fun ko => write_other s (fst (snd ko)) (snd (snd ko))) others = flat_map (fun sv => write_ds s (fst sv) (snd sv)) L ->
  let D := map (fun sc : fspec * list R => (fst sc, Col1 (snd sc))) cols ++ L in
  NoDup (map (fun sv => fs_name (fst sv)) D) -> ~ In "mass_cuts" (map (fun sv => fs_name (fst sv)) D) ->
  exec (mkW (Some f) gone) (write_group s cuts cols others mrows) =
    (wg f gone s (mkG (Some cuts) (map mk_ds D) (Some mrows)), Ok tt).
Proof.
  intros HL D HN HM. unfold write_group. rewrite HL.
  replace (flat_map (fun sc : fspec * list R => write_ds s (fst sc) (Col1 (snd sc))) cols)
    with (flat_map (fun sv => write_ds s (fst sv) (snd sv)) (map (fun sc : fspec * list R => (fst sc, Col1 (snd sc))) cols)).
  2:{ clear. induction cols as [|a l IH]; [reflexivity|]. cbn [map flat_map fst snd]. rewrite IH. reflexivity. }
  cbn [app]. rewrite (app_assoc (flat_map _ _)). rewrite <- flat_map_app. fold D.
  rewrite (exec_cons _ (mkW (Some (set_groups f (zdel (f_groups f) s))) gone)) by reflexivity.
  rewrite (exec_cons _ (wg f gone s (mkG None [] None))).
  2:{ cbn [apply_op in_file w_file f_groups set_groups]. rewrite zget_del, Z.eqb_refl. reflexivity. }
  rewrite (exec_cons _ (wg f gone s (mkG (Some cuts) [] None))).
  2:{ cbn [apply_op]. rewrite in_group_wg. reflexivity. }
  erewrite exec_app_ok; [|apply exec_dss; auto].
  - cbn [set_data g_cuts g_meta g_data app]. cbn [exec apply_op]. rewrite in_group_wg. reflexivity.
  - intros x Hx [Q|[]]. subst x. auto.
Qed.

(** * preparing one snapshot *)
Lemma col_map_id f c : (forall x, f x = x) -> col_map f c = c.
Proof.
  intros H. destruct c as [l|l]; cbn; f_equal.
  - rewrite <- (map_id l) at 2. apply map_ext. auto.
  - rewrite <- (map_id l) at 2. apply map_ext. intros r. rewrite <- (map_id r) at 2. apply map_ext. auto.
Qed.
Lemma transform_get h tr : NoDup (dkeys tr) -> forall sub key,
  dget (transform h tr sub) key =
    option_map (col_map (fun x => match dget tr key with Some f => f x h | None => x end)) (dget sub key).
Proof.
  unfold transform. induction tr as [|[k f] tr IH]; intros HN sub key.
  - cbn. destruct (dget sub key); [|reflexivity]. cbn. rewrite col_map_id; auto.
  - inversion HN as [|? ? H1 H2]; subst. cbn [fold_left fst snd]. rewrite IH by auto. cbn [dget].
    destruct (String.eqb_spec key k) as [<-|N].
    + assert (E : dget tr key = None).
      { destruct (dget tr key) eqn:E; [|reflexivity]. exfalso. apply H1. apply dget_dkeys. eauto. }
      rewrite E. destruct (dget sub key) as [c|] eqn:Ec.
      * rewrite dget_dset_eq. cbn. rewrite col_map_id; auto.
      * rewrite Ec. reflexivity.
    + destruct (dget sub k); [|reflexivity]. rewrite dget_dset_ne by congruence. reflexivity.
Qed.
Lemma entry_map f c j i : entry (col_map f c) j i = option_map f (entry c j i).
Proof.
  destruct c as [l|l]; cbn; rewrite nth_error_map; [reflexivity|].
  destruct (nth_error l i); [|reflexivity]. cbn. apply nth_error_map.
Qed.
Lemma rows_map f c : rows (col_map f c) = rows c.
Proof. destruct c; cbn; apply map_length. Qed.

Lemma mapM_Forall2 {A B} (f : A -> exc B) (P : A -> B -> Prop) l :
  (forall x, In x l -> exists y, f x = Ok y /\ P x y) -> exists r, mapM f l = Ok r /\ Forall2 P l r.
Proof.
  induction l as [|a l IH]; intros H; [exists []; split; constructor|].
  destruct (H a (or_introl eq_refl)) as (y & E & Hy). destruct IH as (r & Er & Hr); [intros x Hx; apply H; right; auto|].
  exists (y :: r). cbn. rewrite E. cbn. rewrite Er. cbn. split; [reflexivity|constructor; auto].
Qed.
Lemma Forall2_concat_map {A B C} (P : B -> C -> Prop) (f : A -> list B) : forall (l : list A) (r : list (list C)),
  Forall2 (fun a x => Forall2 P (f a) x) l r -> Forall2 P (flat_map f l) (concat r).
Proof. induction 1; cbn; [constructor|]. apply Forall2_app; auto. Qed.

Lemma comp_ok l j : Forall (fun r : list R => j < length r) l ->
  exists v, comp (Col2 l) j = Ok v /\ length v = length l /\ forall i, nth_error v i = entry (Col2 l) j i.
Proof.
  induction 1 as [|r l Hr Hl IH]; cbn [comp mapM]; [exists []; split; [reflexivity|split; [reflexivity|]]; intros []; reflexivity|].
  destruct IH as (v & Ev & Lv & Nv). cbn [comp] in Ev. rewrite Ev. destruct (nth_error_lt_Some r j Hr) as [x Hx]. rewrite Hx. cbn [bind].
  exists (x :: v). split; [reflexivity|]. split; [cbn; congruence|]. intros [|i]; cbn; [auto|]. apply Nv.
Qed.

(** a column before sorting *)
Definition before (sub : dict col) (n : nat) (kjs : string * nat * fspec) (sv : fspec * list R) : Prop :=
  fst sv = snd kjs /\ length (snd sv) = n /\
  forall i, i < n -> exists c x, dget sub (fst (fst kjs)) = Some c /\ entry c (snd (fst kjs)) i = Some x /\ nth_error (snd sv) i = Some x.
(** a column after sorting *)
Definition after (sub : dict col) (p : list nat) (kjs : string * nat * fspec) (sv : fspec * col) : Prop :=
  fst sv = snd kjs /\ rows (snd sv) = length p /\
  forall r i, nth_error p r = Some i ->
    exists c x, dget sub (fst (fst kjs)) = Some c /\ entry c (snd (fst kjs)) i = Some x /\ entry (snd sv) 0 r = Some x.

Definition field_ok (sub : dict col) (n : nat) (key : string) (specs : list fspec) : Prop :=
  n = 0 \/ exists c, dget sub key = Some c /\ rows c = n /\
    match specs with
    | [_] => exists l, c = Col1 l
    | _ => exists l, c = Col2 l /\ Forall (fun r => length specs <= length r) l
    end.

Lemma numbered_In {A} (l : list A) j x : In (j, x) (numbered l) -> nth_error l j = Some x.
Proof.
  intros H. apply In_nth_error in H as [k Hk]. unfold numbered in Hk. apply (combine_seq_nth l 0 k) in Hk as (y & Hy & [= -> ->]). auto.
Qed.
Lemma fit_ok n l : length l = n -> fit n l = Ok l.
Proof. intros H. unfold fit. rewrite H, Nat.eqb_refl. reflexivity. Qed.

Lemma Forall2_map_l {A B C} (P : B -> C -> Prop) (f : A -> B) l r : Forall2 (fun a c => P (f a) c) l r -> Forall2 P (map f l) r.
Proof. induction 1; constructor; auto. Qed.

Lemma basic_field_ok n sub key specs : specs <> [] -> field_ok sub n key specs ->
  exists r, basic_field n sub key specs = Ok r /\
    Forall2 (before sub n) (map (fun js => (key, fst js, snd js)) (numbered specs)) r.
Proof.
  intros Hne H. destruct specs as [|sp [|sp2 rest]] eqn:Esp; [tauto| |].
  - cbn [basic_field]. destruct (Nat.eqb_spec n 0) as [->|N].
    + eexists. split; [reflexivity|]. repeat constructor. cbn. intros; lia.
    + destruct H as [?|(c & Ec & Hr & l & ->)]; [contradiction|]. unfold dfind. rewrite Ec. cbn [bind].
      cbn [rows] in Hr. rewrite fit_ok by auto. cbn [bind]. eexists. split; [reflexivity|]. repeat constructor; cbn; auto.
      intros i Hi. destruct (nth_error_lt_Some l i) as [x Hx]; [lia|]. exists (Col1 l), x. auto.
  - rewrite <- Esp in *. assert (E : basic_field n sub key specs = mapM (fun js =>
        if n =? 0 then Ok (snd js, [])
        else do c <- dfind sub key ;; do l <- comp c (fst js) ;; do v <- fit n l ;; Ok (snd js, v)) (numbered specs)).
    { rewrite Esp. reflexivity. }
    rewrite E. destruct (mapM_Forall2 (fun js =>
        if n =? 0 then Ok (snd js, [])
        else do c <- dfind sub key ;; do l <- comp c (fst js) ;; do v <- fit n l ;; Ok (snd js, v))
        (fun js y => before sub n (key, fst js, snd js) y) (numbered specs)) as (r & Er & Hr).
    + intros [j s] Hj. cbn [fst snd]. apply numbered_In in Hj. destruct (Nat.eqb_spec n 0) as [->|N].
      * eexists. split; [reflexivity|]. split; [reflexivity|]. split; [reflexivity|]. cbn. intros; lia.
      * destruct H as [?|(c & Ec & Hrow & Hc)]; [contradiction|].
        assert (exists l, c = Col2 l /\ Forall (fun r => length specs <= length r) l) as (l & -> & Hl) by (rewrite Esp in Hc |- *; exact Hc).
        unfold dfind. rewrite Ec. cbn [bind].
        destruct (comp_ok l j) as (v & Ev & Lv & Nv).
        { eapply Forall_impl; [|exact Hl]. cbn. intros r0 Hr0. apply nth_error_Some_lt in Hj. lia. }
        rewrite Ev. cbn [bind]. cbn [rows] in Hrow. rewrite fit_ok by congruence. cbn [bind].
        eexists. split; [reflexivity|]. split; [reflexivity|]. split; [cbn; congruence|]. cbn [fst snd].
        intros i Hi. destruct (nth_error_lt_Some v i) as [x Hx]; [lia|]. exists (Col2 l), x. rewrite Nv in Hx. rewrite Nv. auto.
    + exists r. split; [exact Er|]. apply Forall2_map_l. exact Hr.
Qed.

Lemma nodup_str_spec l : nodup_str l = true <-> NoDup l.
Proof.
  induction l as [|a l IH]; cbn; [split; [constructor|reflexivity]|].
  rewrite andb_true_iff, negb_true_iff, smem_false, IH. split.
  - intros [A B]. constructor; auto.
  - intros H. inversion H; auto.
Qed.

Lemma numbered_snd {A} (l : list A) : map snd (numbered l) = l.
Proof.
  unfold numbered. generalize 0. induction l as [|a l IH]; intros k; cbn; [reflexivity|]. f_equal. apply IH.
Qed.
Lemma out_basic_names bf : map (fun kjs => fs_name (snd kjs)) (out_basic bf) = flat_map (fun ks => map fs_name (snd ks)) bf.
Proof.
  unfold out_basic. induction bf as [|[k l] bf IH]; [reflexivity|]. cbn [flat_map fst snd]. rewrite map_app, IH. f_equal.
  rewrite map_map. cbn. rewrite <- (map_map snd fs_name), numbered_snd. reflexivity.
Qed.

Lemma basic_columns_ok n sub bf : NoDup (map (fun kjs => fs_name (snd kjs)) (out_basic bf)) ->
  (forall key specs, In (key, specs) bf -> specs <> [] /\ field_ok sub n key specs) ->
  exists cols, basic_columns n sub bf = Ok cols /\ Forall2 (before sub n) (out_basic bf) cols.
Proof.
  intros HN H. unfold basic_columns. rewrite <- out_basic_names, (proj2 (nodup_str_spec _) HN). cbn [check bind].
  destruct (mapM_Forall2 (fun ks => basic_field n sub (fst ks) (snd ks))
    (fun ks r => Forall2 (before sub n) (map (fun js => (fst ks, fst js, snd js)) (numbered (snd ks))) r) bf) as (r & Er & Hr).
  - intros [key specs] Hk. cbn [fst snd]. apply basic_field_ok; apply (H key specs Hk).
  - rewrite Er. cbn [bind]. exists (concat r). split; [reflexivity|].
    unfold out_basic. apply Forall2_concat_map. exact Hr.
Qed.

Lemma find_Some_In {A} (f : A -> bool) l x : find f l = Some x -> In x l /\ f x = true.
Proof. apply find_some. Qed.
Lemma before_names sub n l cols : Forall2 (before sub n) l cols ->
  map (fun kjs => fs_name (snd kjs)) l = map (fun sc => fs_name (fst sc)) cols.
Proof. induction 1 as [|a b l r (E & _) _ IH]; cbn; [reflexivity|]. rewrite IH, E. reflexivity. Qed.
Lemma Forall2_in_r {A B} (P : A -> B -> Prop) l r b : Forall2 P l r -> In b r -> exists a, In a l /\ P a b.
Proof. induction 1 as [|x y l r H _ IH]; intros []; [subst; exists x|destruct IH as (a & Ha & Hp); auto; exists a]; cbn; auto. Qed.
Lemma Forall2_in_l {A B} (P : A -> B -> Prop) l r a : Forall2 P l r -> In a l -> exists b, In b r /\ P a b.
Proof. induction 1 as [|x y l r H _ IH]; intros []; [subst; exists y|destruct IH as (b & Hb & Hp); auto; exists b]; cbn; auto. Qed.

Lemma mass_column_ok (cols : list (fspec * list R)) : In "mass" (map (fun sc => fs_name (fst sc)) cols) ->
  exists sc, In sc cols /\ fs_name (fst sc) = "mass" /\ mass_column cols = Ok (snd sc) /\
    forall (f : list R -> list R), mass_column (map (fun sc => (fst sc, f (snd sc))) cols) = Ok (f (snd sc)).
Proof.
  unfold mass_column. induction cols as [|a cols IH]; [intros []|]. cbn [map find fst snd].
  destruct (String.eqb_spec (fs_name (fst a)) "mass") as [E|N].
  - intros _. exists a. cbn. repeat split; auto.
  - intros [Q|H]; [contradiction|]. destruct (IH H) as (sc & H1 & H2 & H3 & H4). exists sc. cbn [In]. auto.
Qed.

Lemma pick_after sub n p kjs sv : Permutation p (seq 0 n) -> before sub n kjs sv ->
  after sub p kjs (fst sv, Col1 (pick (snd sv) p)).
Proof.
  intros Hp (E & L & H). assert (F : Forall (fun i => i < length (snd sv)) p).
  { rewrite L. apply Forall_forall. intros i Hi. apply (Permutation_in _ Hp), in_seq in Hi. lia. }
  split; [exact E|]. split; [cbn; apply pick_length; auto|]. intros r i Hr. cbn [fst snd entry].
  rewrite pick_nth by auto. rewrite Hr. apply H. rewrite <- L. rewrite Forall_forall in F. apply F. eapply nth_error_In; eauto.
Qed.

Lemma combine_map_ext {A B} (f g : nat * A -> list B) (l : list A) :
  (forall js, In js (numbered l) -> f js = g js) -> flat_map f (numbered l) = flat_map g (numbered l).
Proof. intros H. rewrite !flat_map_concat_map. f_equal. apply map_ext_in. auto. Qed.

Lemma take_ok c p : Forall (fun i => i < rows c) p ->
  exists c', take c p = Ok c' /\ rows c' = length p /\
    (forall r i j, nth_error p r = Some i -> entry c' j r = entry c j i) /\
    match c with Col1 _ => True | Col2 l => exists l', c' = Col2 l' /\ incl l' l end.
Proof.
  intros F. unfold take. rewrite (proj2 (forallb_forall _ _)).
  2:{ intros i Hi. apply Nat.ltb_lt. rewrite Forall_forall in F. auto. }
  eexists. split; [reflexivity|]. destruct c as [l|l]; cbn [rows] in *.
  - split; [apply pick_length; auto|]. split; [|exact I]. intros r i j Hr. cbn. rewrite pick_nth by auto. rewrite Hr. reflexivity.
  - split; [apply pick_length; auto|]. split.
    + intros r i j Hr. cbn. rewrite pick_nth by auto. rewrite Hr. reflexivity.
    + eexists. split; [reflexivity|]. intros r Hr.
      unfold pick in Hr. apply in_flat_map in Hr as (i & _ & Hr). destruct (nth_error l i) eqn:E; [|destruct Hr].
      destruct Hr as [<-|[]]. eapply nth_error_In; eauto.
Qed.

(** the columns of one other field *)
Definition other_get (n : nat) (sub : dict col) (p : list nat) (key : string) (specs : list fspec) : exc (string * (list fspec * col)) :=
  if n =? 0 then Ok (key, (specs, Col2 []))
  else do c <- dfind sub key ;; do c' <- take c p ;; Ok (key, (specs, c')).

Lemma multi_write s sub p key (specs : list fspec) l : (forall r i, nth_error p r = Some i -> exists c0, dget sub key = Some c0 /\
      forall j, entry (Col2 l) j r = entry c0 j i) -> length l = length p ->
  Forall (fun r => length specs <= length r) l -> forall q, (forall js, In js q -> fst js < length specs) ->
  exists L, flat_map (fun js : nat * fspec => if String.prefix "none" (fs_name (snd js)) then []
                             else match comp (Col2 l) (fst js) with
                                  | Ok v => write_ds s (snd js) (Col1 v)
                                  | Raise e => [Raise e]
                                  end) q = flat_map (fun sv => write_ds s (fst sv) (snd sv)) L /\
    Forall2 (after sub p) (map (fun js => (key, fst js, snd js)) (filter (fun js => negb (String.prefix "none" (fs_name (snd js)))) q)) L.
Proof.
  intros HE HL HF q. induction q as [|[j sp] q IH]; intros Hq; [exists []; split; [reflexivity|constructor]|].
  destruct IH as (L & EL & FL); [intros js Hjs; apply Hq; right; auto|].
  cbn [flat_map filter fst snd]. rewrite EL. destruct (String.prefix "none" (fs_name sp)); cbn [negb].
  - exists L. split; [reflexivity|exact FL].
  - destruct (comp_ok l j) as (v & Ev & Lv & Nv).
    { eapply Forall_impl; [|exact HF]. cbn. intros r Hr. specialize (Hq _ (or_introl eq_refl)). cbn in Hq. lia. }
    rewrite Ev. exists ((sp, Col1 v) :: L). split; [reflexivity|]. cbn [map]. constructor; [|exact FL].
    split; [reflexivity|]. split; [cbn; congruence|]. cbn [fst snd]. intros r i Hr. destruct (HE r i Hr) as (c0 & E0 & H0).
    apply nth_error_Some_lt in Hr as Lr. destruct (nth_error_lt_Some v r) as [x Hx]; [lia|].
    exists c0, x. split; [auto|]. rewrite <- H0, <- Nv. cbn [entry]. auto.
Qed.

Lemma numbered_lt {A} (l : list A) js : In js (numbered l) -> fst js < length l.
Proof. destruct js as [j x]. intros H. apply numbered_In, nth_error_Some_lt in H. auto. Qed.

Lemma other_field_ok s n sub key specs p : specs <> [] -> field_ok sub n key specs -> Permutation p (seq 0 n) ->
  exists c, other_get n sub p key specs = Ok (key, (specs, c)) /\
  exists L, write_other s specs c = flat_map (fun sv => write_ds s (fst sv) (snd sv)) L /\
    Forall2 (after sub p) (out_other [(key, specs)]) L.
Proof.
  intros Hne H Hp. unfold other_get. destruct specs as [|sp [|sp2 rest]] eqn:Esp; [tauto| |].
  - destruct (Nat.eqb_spec n 0) as [->|N].
    + apply Permutation_sym, Permutation_nil in Hp. subst p. eexists. split; [reflexivity|]. exists [(sp, Col2 [])].
      split; [reflexivity|]. repeat constructor. intros [] i; discriminate.
    + destruct H as [?|(c & Ec & Rc & l & ->)]; [contradiction|]. unfold dfind. rewrite Ec. cbn [bind rows] in *.
      destruct (take_ok (Col1 l) p) as (c' & Et & R' & N' & _).
      { apply Forall_forall. intros i Hi. apply (Permutation_in _ Hp), in_seq in Hi. cbn. lia. }
      rewrite Et. cbn [bind]. eexists. split; [reflexivity|]. exists [(sp, c')]. split; [reflexivity|].
      constructor; [|constructor]. split; [reflexivity|]. split; [exact R'|]. cbn [fst snd]. intros r i Hr.
      rewrite (N' r i 0 Hr). apply nth_error_In in Hr as Hi. apply (Permutation_in _ Hp), in_seq in Hi.
      destruct (nth_error_lt_Some l i) as [x Hx]; [lia|]. exists (Col1 l), x. auto.
  - rewrite <- Esp in *. assert (EW : forall c, write_other s specs c =
      flat_map (fun js : nat * fspec => if String.prefix "none" (fs_name (snd js)) then []
                             else match comp c (fst js) with
                                  | Ok v => write_ds s (snd js) (Col1 v)
                                  | Raise e => [Raise e]
                                  end) (numbered specs)) by (rewrite Esp; reflexivity).
    assert (EO : out_other [(key, specs)] = map (fun js => (key, fst js, snd js))
       (filter (fun js => negb (String.prefix "none" (fs_name (snd js)))) (numbered specs))).
    { unfold out_other. cbn [flat_map fst snd]. rewrite app_nil_r, Esp. reflexivity. }
    rewrite EO. clear EO. destruct (Nat.eqb_spec n 0) as [->|N].
    + apply Permutation_sym, Permutation_nil in Hp. subst p. eexists. split; [reflexivity|]. rewrite EW.
      apply (multi_write s sub [] key specs); try constructor; [intros [] i; discriminate|apply numbered_lt].
    + destruct H as [?|(c & Ec & Rc & Sc)]; [contradiction|].
      assert (exists l, c = Col2 l /\ Forall (fun r => length specs <= length r) l) as (l & -> & Hl) by (rewrite Esp in Sc |- *; exact Sc).
      unfold dfind. rewrite Ec. cbn [bind rows] in *.
      destruct (take_ok (Col2 l) p) as (c' & Et & R' & N' & l' & -> & Il).
      { apply Forall_forall. intros i Hi. apply (Permutation_in _ Hp), in_seq in Hi. cbn. lia. }
      rewrite Et. cbn [bind]. eexists. split; [reflexivity|]. rewrite EW. apply (multi_write s sub p key specs).
      * intros r i Hr. exists (Col2 l). split; [auto|]. intros j. apply N'. auto.
      * exact R'.
      * apply Forall_forall. intros r Hr. rewrite Forall_forall in Hl. auto.
      * apply numbered_lt.
Qed.

Lemma out_other_cons k of : out_other (k :: of) = out_other [k] ++ out_other of.
Proof. unfold out_other. cbn [flat_map]. rewrite app_nil_r. reflexivity. Qed.

Lemma sort_others_ok s n sub p of : Permutation p (seq 0 n) ->
  (forall key specs, In (key, specs) of -> specs <> [] /\ field_ok sub n key specs) ->
  exists others, sort_others n sub of p = Ok others /\ exists L,
    flat_map (fun ko => write_other s (fst (snd ko)) (snd (snd ko))) others = flat_map (fun sv => write_ds s (fst sv) (snd sv)) L /\
    Forall2 (after sub p) (out_other of) L.
Proof.
  intros Hp. unfold sort_others. fold (other_get n sub p). induction of as [|[key specs] of IH]; intros H.
  - exists []. split; [reflexivity|]. exists []. split; [reflexivity|constructor].
  - destruct (H key specs (or_introl eq_refl)) as [H1 H2].
    destruct (other_field_ok s n sub key specs p H1 H2 Hp) as (c & Ec & L1 & E1 & F1).
    destruct IH as (others & Eo & L & EL & FL); [intros; apply H; right; auto|].
    unfold other_get in Ec. cbn [mapM fst snd] in *. rewrite Ec. cbn [bind]. rewrite Eo. cbn [bind].
    eexists. split; [reflexivity|]. exists (L1 ++ L). cbn [flat_map fst snd]. rewrite E1, EL, flat_map_app. split; [reflexivity|].
    rewrite out_other_cons. apply Forall2_app; auto.
Qed.

Lemma pick_app {A} (l : list A) p q : pick l (p ++ q) = pick l p ++ pick l q.
Proof. unfold pick. apply flat_map_app. Qed.
Lemma pick_rev {A} (l : list A) p : pick l (rev p) = rev (pick l p).
Proof.
  induction p as [|i p IH]; [reflexivity|]. cbn [rev]. rewrite pick_app, IH.
  change (i :: p) with ([i] ++ p). rewrite pick_app, rev_app_distr. f_equal.
  unfold pick. cbn. destruct (nth_error l i); reflexivity.
Qed.
Lemma pick_descending asort v : argsorts asort -> StronglySorted (fun a b => (b <= a)%R) (pick v (rev (asort v))).
Proof.
  intros HA. rewrite pick_rev. apply (SS_rev (fun a b => (a <= b)%R)). apply (pick_sorted (fun x => x)). rewrite map_id. apply HA.
Qed.

Lemma Forall2_app_map {A B C} (P : A -> C -> Prop) (f : B -> C) (Q : A -> B -> Prop) l r :
  (forall a b, Q a b -> P a (f b)) -> Forall2 Q l r -> Forall2 P l (map f r).
Proof. intros H. induction 1; constructor; auto. Qed.

Lemma after_names sub p l L : Forall2 (after sub p) l L ->
  map (fun kjs => fs_name (snd kjs)) l = map (fun sv => fs_name (fst sv)) L.
Proof. induction 1 as [|a b l r (E & _) _ IH]; cbn; [reflexivity|]. rewrite IH, E. reflexivity. Qed.

Lemma find_mass_unique (L : list (fspec * col)) sv : NoDup (map (fun sv => fs_name (fst sv)) L) -> In sv L ->
  find (fun d => String.eqb (d_name d) (fs_name (fst sv))) (map mk_ds L) = Some (mk_ds sv).
Proof.
  induction L as [|a L IH]; intros HN [].
  - subst. cbn. rewrite String.eqb_refl. reflexivity.
  - cbn [map] in HN. inversion HN; subst. cbn [map find mk_ds d_name]. destruct (String.eqb_spec (fs_name (fst a)) (fs_name (fst sv))) as [E|N]; [|apply IH; auto].
    exfalso. match goal with H : ~ In _ _ |- _ => apply H end. rewrite E. apply (in_map (fun sv => fs_name (fst sv)) L sv). auto.
Qed.

Lemma NoDup_app_l {A} (l m : list A) : NoDup (l ++ m) -> NoDup l.
Proof.
  induction l as [|a l IH]; intros H; [constructor|]. inversion H; subst. constructor; auto.
  intros Q. match goal with H : ~ In _ _ |- _ => apply H end. apply in_or_app. auto.
Qed.

Lemma snap_ok asort ct bf of clean s sub n f gone :
  argsorts asort -> NoDup (dkeys (ct_tr ct)) -> fields_ok bf of ->
  ct_load ct s (dkeys (dmerge bf of)) = Ok (sub, n) -> catalogue_ok bf of sub n ->
  exists g, exec (mkW (Some f) gone) (snap_steps asort ct bf of clean s) =
      (mkW (Some (set_groups f (zdel (f_groups f) s ++ [(s, g)]))) (if clean then s :: gone else gone), Ok tt) /\
    holds ct bf of sub n g /\ g_meta g = Some (filter (fun m => Z.eqb (m_index m) s) (ct_meta ct)) /\
    g_cuts g = Some (mass_cuts (masses g)) /\ StronglySorted (fun a b => (b <= a)%R) (masses g) /\ length (masses g) = n.
Proof.
  intros HA HT (HN & HM & Hmass & Hne) HL HC.
  set (sub1 := if n =? 0 then sub else transform (ct_hub ct) (ct_tr ct) sub).
  assert (HF : forall key specs, In (key, specs) (bf ++ of) -> specs <> [] /\ field_ok sub1 n key specs).
  { intros key specs Hin. split; [eapply Hne; eauto|]. unfold sub1. destruct (Nat.eqb_spec n 0); [left; auto|].
    destruct HC as [?|HC]; [contradiction|]. right. destruct (HC key specs Hin) as (c & Ec & Rc & Sc).
    exists (col_map (conv ct key) c). split; [|split].
    - rewrite transform_get by auto. rewrite Ec. reflexivity.
    - rewrite rows_map. auto.
    - destruct specs as [|sp [|sp2 r]].
      + destruct Sc as (l & -> & Hl). cbn. eexists. split; [reflexivity|]. apply Forall_forall. intros; cbn; lia.
      + destruct Sc as (l & ->). cbn. eauto.
      + destruct Sc as (l & -> & Hl). cbn [col_map]. eexists. split; [reflexivity|]. rewrite Forall_map.
        eapply Forall_impl; [|exact Hl]. intros a Ha. rewrite map_length. auto. }
  assert (HNb : NoDup (map (fun kjs => fs_name (snd kjs)) (out_basic bf))).
  { unfold out_names, out_fields in HN. rewrite map_app in HN. apply NoDup_app_l in HN. auto. }
  destruct (basic_columns_ok n sub1 bf HNb) as (cols & Ecols & Fcols).
  { intros key specs Hin. apply HF. apply in_or_app. auto. }
  destruct (mass_column_ok cols) as (sc & Hsc & Nsc & Esc & Psc).
  { rewrite <- (before_names _ _ _ _ Fcols). auto. }
  set (v := snd sc) in *. set (p := rev (asort v)).
  assert (Lv : length v = n). { destruct (Forall2_in_r _ _ _ sc Fcols Hsc) as (a & _ & (_ & La & _)). auto. }
  assert (Hp : Permutation p (seq 0 n)).
  { unfold p. rewrite <- Lv. apply (Permutation_trans (Permutation_sym (Permutation_rev _))). apply HA. }
  destruct (sort_others_ok s n sub1 p of Hp) as (others & Eo & L & EL & FL).
  { intros key specs Hin. apply HF. apply in_or_app. auto. }
  assert (EP : (do ld <- ct_load ct s (dkeys (dmerge bf of)) ;; snap_prep asort ct bf of (fst ld) (snd ld)) =
    Ok (mass_cuts (pick v p), map (fun sc => (fst sc, pick (snd sc) p)) cols, others)).
  { rewrite HL. cbn [bind fst snd]. unfold snap_prep. fold sub1. rewrite Ecols. cbn [bind]. rewrite Esc. cbn [bind]. fold v p.
    rewrite Eo. cbn [bind]. rewrite (Psc (fun l => pick l p)). reflexivity. }
  set (D := map (fun sc : fspec * list R => (fst sc, Col1 (snd sc))) (map (fun sc => (fst sc, pick (snd sc) p)) cols) ++ L).
  assert (FD : Forall2 (after sub1 p) (out_fields bf of) D).
  { unfold out_fields, D. apply Forall2_app; [|exact FL]. rewrite map_map. cbn [fst snd].
    eapply Forall2_app_map; [|exact Fcols]. intros a b Hab. cbn. apply (pick_after sub1 n); auto. }
  assert (ND : map (fun sv => fs_name (fst sv)) D = out_names bf of) by (symmetry; apply (after_names _ _ _ _ FD)).
  set (mrows := filter (fun m => Z.eqb (m_index m) s) (ct_meta ct)).
  set (g := mkG (Some (mass_cuts (pick v p))) (map mk_ds D) (Some mrows)).
  assert (EX : exec (mkW (Some f) gone) (write_group s (mass_cuts (pick v p)) (map (fun sc => (fst sc, pick (snd sc) p)) cols) others mrows)
     = (wg f gone s g, Ok tt)).
  { apply (exec_group f gone s _ _ others mrows L EL); fold D; rewrite ND; auto. }
  assert (Hmv : In (fst sc, Col1 (pick v p)) D).
  { unfold D. apply in_or_app. left. rewrite map_map. cbn [fst snd]. apply in_map_iff. exists sc. split; [reflexivity|auto]. }
  assert (NDD : NoDup (map (fun sv : fspec * col => fs_name (fst sv)) D)) by (rewrite ND; auto).
  assert (EM : masses g = pick v p).
  { unfold masses, g. cbn [g_data]. pose proof (find_mass_unique D (fst sc, Col1 (pick v p)) NDD Hmv) as Q. cbn [fst] in Q. rewrite Nsc in Q.
    rewrite Q. reflexivity. }
  assert (SD : StronglySorted (fun a b => (b <= a)%R) (pick v p)) by (apply pick_descending; auto).
  exists g. split; [|split; [|split; [|split; [|split]]]].
  - unfold snap_steps. rewrite EP. fold mrows. rewrite exec_app, EX. destruct clean; reflexivity.
  - exists p. split; [exact Hp|]. split; [|split].
    + unfold g. cbn [g_data]. rewrite map_map. cbn [mk_ds d_name]. exact ND.
    + intros key j sp Hin. destruct (Forall2_in_l _ _ _ _ FD Hin) as (sv & Hsv & (E1 & R1 & N1)). cbn [fst snd] in *.
      exists (mk_ds sv). unfold g. cbn [g_data]. split; [apply in_map; auto|]. cbn [mk_ds d_name d_units d_h d_vals]. rewrite E1.
      split; [reflexivity|]. split; [reflexivity|]. split; [reflexivity|]. split; [exact R1|].
      intros r i Hr. destruct (N1 r i Hr) as (c & x & Ec & Ex & Ev).
      assert (N0 : n <> 0).
      { intros ->. apply Permutation_sym, Permutation_nil in Hp. rewrite Hp in Hr. destruct r; discriminate. }
      unfold sub1 in Ec. destruct (Nat.eqb_spec n 0); [contradiction|]. rewrite transform_get in Ec by auto.
      destruct (dget sub key) as [c0|]; [|discriminate]. cbn in Ec. injection Ec as <-. rewrite entry_map in Ex.
      destruct (entry c0 j i) as [x0|] eqn:E0; [|discriminate]. cbn in Ex. injection Ex as <-. exists c0, x0. auto.
    + intros d Hd Nd. unfold g in Hd. cbn [g_data] in Hd. apply in_map_iff in Hd as (sv & <- & Hsv). cbn [mk_ds d_name d_vals] in *.
      assert (sv = (fst sc, Col1 (pick v p))) as ->.
      { pose proof (find_mass_unique D sv NDD Hsv) as Q1. pose proof (find_mass_unique D _ NDD Hmv) as Q2. cbn [fst] in Q2. rewrite Nd in Q1. rewrite Nsc in Q2.
        rewrite Q1 in Q2. injection Q2 as QA QB QC QD. destruct sv as [sp c]. cbn in *. f_equal; [|auto].
        destruct sp, (fst sc). cbn in *. congruence. }
      eexists. split; [reflexivity|auto].
  - reflexivity.
  - unfold g at 1. cbn [g_cuts]. rewrite EM. reflexivity.
  - rewrite EM. auto.
  - rewrite EM. rewrite pick_length; [|rewrite Lv; apply Forall_forall; intros i Hi; apply (Permutation_in _ Hp), in_seq in Hi; lia].
    apply Permutation_length in Hp. rewrite seq_length in Hp. auto.
Qed.

(** * whole runs *)
Definition made (ct : catalog) (bf of : fields) (s : Z) (g : group) : Prop :=
  exists sub n, ct_load ct s (dkeys (dmerge bf of)) = Ok (sub, n) /\ holds ct bf of sub n g /\
    g_meta g = Some (filter (fun m => Z.eqb (m_index m) s) (ct_meta ct)) /\
    g_cuts g = Some (mass_cuts (masses g)) /\ StronglySorted (fun a b => (b <= a)%R) (masses g) /\ length (masses g) = n.

Lemma snaps_run asort ct bf of clean : argsorts asort -> NoDup (dkeys (ct_tr ct)) -> fields_ok bf of ->
  forall l, NoDup l ->
  (forall s, In s l -> exists sub n, ct_load ct s (dkeys (dmerge bf of)) = Ok (sub, n) /\ catalogue_ok bf of sub n) ->
  forall f gone, exists G gone', exec (mkW (Some f) gone) (flat_map (snap_steps asort ct bf of clean) l) = (mkW (Some (set_groups f G)) gone', Ok tt) /\
    (forall s, In s l -> exists g, zget G s = Some g /\ made ct bf of s g) /\
    (forall s, ~ In s l -> zget G s = zget (f_groups f) s).
Proof.
  intros HA HT HF. induction l as [|a l IH]; intros HN HL f gone.
  - exists (f_groups f), gone. split; [destruct f; reflexivity|]. split; [intros s []|reflexivity].
  - inversion HN as [|? ? H1 H2]; subst. destruct (HL a (or_introl eq_refl)) as (sub & n & E1 & E2).
    destruct (snap_ok asort ct bf of clean a sub n f gone HA HT HF E1 E2) as (g & Eg & Hg).
    destruct (IH H2 (fun s H => HL s (or_intror H)) (set_groups f (zdel (f_groups f) a ++ [(a, g)])) (if clean then a :: gone else gone)) as (G & gone' & EG & G1 & G2).
    exists G, gone'. cbn [flat_map]. rewrite (exec_app_ok _ _ _ _ Eg), EG. split; [reflexivity|]. cbn [set_groups f_groups] in G2. split.
    + intros s [<-|Hs]; [|auto]. exists g. rewrite G2 by auto. rewrite zget_app, zget_del, Z.eqb_refl. cbn. rewrite Z.eqb_refl.
      split; [reflexivity|]. exists sub, n. auto.
    + intros s Hs. rewrite G2 by (intros Q; apply Hs; right; auto). rewrite zget_app, zget_del.
      destruct (Z.eqb_spec a s); [exfalso; apply Hs; left; auto|]. destruct (zget (f_groups f) s) eqn:E; [reflexivity|]. cbn.
      destruct (Z.eqb_spec a s); [contradiction|reflexivity].
Qed.

Lemma exec_attrs attrs : forall w l, (exists f, w_file w = Some f) ->
  exists A, exec w (map (fun kv => Ok (OpAttr (fst kv) (snd kv))) attrs ++ l) =
    exec (match w_file w with Some f => mkW (Some (mkF A (f_number f) (f_table f) (f_groups f))) (w_gone w) | None => w end) l.
Proof.
  induction attrs as [|[k v] attrs IH]; intros w l [f Ef].
  - exists (f_attrs f). destruct w as [wf gone]. cbn in *. subst wf. destruct f; reflexivity.
  - cbn [map app exec fst snd apply_op]. unfold in_file at 1. rewrite Ef. cbn [bind].
    destruct (IH (mkW (Some (mkF (dset (f_attrs f) k v) (f_number f) (f_table f) (f_groups f))) (w_gone w)) l) as [A HA]; [eexists; reflexivity|].
    exists A. rewrite HA. reflexivity.
Qed.

(** the file after the first writes *)
Definition head_file (ct : catalog) (a : fargs) (w : world) (h : ffile) : Prop :=
  if is_new w a then f_table h = Some (ct_meta ct) /\ f_number h = ct_number ct /\ f_groups h = []
  else exists f t, w_file w = Some f /\ f_table f = Some t /\
    f_table h = Some (merge_rows t (ct_meta ct) (todo ct a w)) /\
    f_number h = Some (Z.of_nat (length (merge_rows t (ct_meta ct) (todo ct a w)))) /\ f_groups h = f_groups f.
Lemma head_ok ct a w : is_new w a = true \/ (exists f t k, w_file w = Some f /\ f_table f = Some t /\ f_number f = Some k) ->
  exists h, exec w (head_steps ct a w) = (mkW (Some h) (w_gone w), Ok tt) /\ head_file ct a w h.
Proof.
  intros H. unfold head_file, head_steps. destruct (is_new w a) eqn:E.
  - cbn [exec apply_op].
    destruct (exec_attrs (ct_attrs ct) (mkW (Some (mkF [] None None [])) (w_gone w))
      (match ct_number ct with Some n => [Ok (OpNumber n)] | None => [] end ++ [Ok (OpTable (ct_meta ct))]) (ex_intro _ _ eq_refl)) as [A HA].
    rewrite HA. cbn [w_file w_gone f_number f_table f_groups]. destruct (ct_number ct); cbn; eexists; repeat split.
  - destruct H as [H|(f & t & k & E1 & E2 & E3)]; [discriminate|]. rewrite E1, E2, E3. cbn [exec apply_op]. unfold in_file. rewrite E1. cbn.
    eexists. split; [reflexivity|]. exists f, t. repeat split; auto.
Qed.

Lemma todo_in ct a w s : In s (todo ct a w) -> In s (ct_snaps ct).
Proof.
  unfold todo. destruct (is_new w a); [auto|]. intros H. apply in_app_or in H as [H|H]; [apply filter_In in H; tauto|].
  destruct (a_overwrite a); [apply filter_In in H; tauto|destruct H].
Qed.
Lemma NoDup_filter' {A} (f : A -> bool) l : NoDup l -> NoDup (filter f l).
Proof. apply NoDup_filter. Qed.
Lemma todo_nodup ct a w : NoDup (ct_snaps ct) -> NoDup (todo ct a w).
Proof.
  intros H. unfold todo. destruct (is_new w a); [auto|].
  apply (NoDup_filter (fun s => negb (present w s))) in H as H1. apply (NoDup_filter (present w)) in H as H2.
  destruct (a_overwrite a); [|rewrite app_nil_r; auto].
  assert (D : forall x, In x (filter (fun s => negb (present w s)) (ct_snaps ct)) -> ~ In x (filter (present w) (ct_snaps ct))).
  { intros x A B. apply filter_In in A as [_ A]. apply filter_In in B as [_ B]. rewrite B in A. discriminate. }
  induction H1 as [|x l Hx Hl IH]; cbn; [auto|]. constructor; [|apply IH; intros y Hy; apply D; right; auto].
  intros Q. apply in_app_or in Q as [Q|Q]; [contradiction|]. apply (D x); [left|]; auto.
Qed.

Lemma format_ok asort ct a w of : argsorts asort -> runnable ct a w of ->
  exists h G gone', format asort ct a w = (mkW (Some (set_groups h G)) gone', Ok tt) /\ head_file ct a w h /\
    (forall s, In s (todo ct a w) -> exists g, zget G s = Some g /\ made ct (ct_basic ct) of s g) /\
    (forall s, ~ In s (todo ct a w) -> zget G s = zget (f_groups h) s).
Proof.
  intros HA (HO & HF & HT & HN & HL & HH). unfold format, format_steps. rewrite HO.
  destruct (head_ok ct a w HH) as (h & Eh & Hh).
  destruct (snaps_run asort ct (ct_basic ct) of (a_clean a) HA HT HF (todo ct a w) (todo_nodup ct a w HN) HL h (w_gone w)) as (G & gone' & EG & G1 & G2).
  exists h, G, gone'. rewrite (exec_app_ok _ _ _ _ Eh). split; [exact EG|]. auto.
Qed.

(** * C35, C36 *)
Lemma c35 asort ct a w of : argsorts asort -> runnable ct a w of ->
  exists w', format asort ct a w = (w', Ok tt) /\
    forall s sub n, In s (todo ct a w) -> ct_load ct s (dkeys (dmerge (ct_basic ct) of)) = Ok (sub, n) ->
      exists g, group_of w' s = Some g /\ holds ct (ct_basic ct) of sub n g.
Proof.
  intros HA HR. destruct (format_ok asort ct a w of HA HR) as (h & G & gone' & E & _ & H1 & _).
  eexists. split; [exact E|]. intros s sub n Hs EL. destruct (H1 s Hs) as (g & Eg & sub' & n' & EL' & Hh & _).
  exists g. split; [exact Eg|]. rewrite EL in EL'. injection EL' as <- <-. auto.
Qed.

Lemma where_cons x v m : where_ge (x :: v) m = (if rleb m x then [0] else []) ++ map S (where_ge v m).
Proof.
  unfold where_ge. cbn [length seq filter nth]. rewrite <- seq_shift.
  assert (E : forall l, filter (fun i => rleb m (nth i (x :: v) 0%R)) (map S l) = map S (filter (fun i => rleb m (nth i v 0%R)) l)).
  { induction l as [|a l IH]; [reflexivity|]. cbn [map filter]. rewrite IH. change (nth (S a) (x :: v) 0%R) with (nth a v 0%R).
    destruct (rleb m (nth a v 0%R)); reflexivity. }
  change (fun i : nat => rleb m match i with 0 => x | S m0 => nth m0 v 0%R end) with (fun i => rleb m (nth i (x :: v) 0%R)).
  rewrite E. destruct (rleb m x); reflexivity.
Qed.
Lemma where_sorted v m : StronglySorted (fun a b => (b <= a)%R) v ->
  where_ge v m = seq 0 (length (filter (fun x => rleb m x) v)).
Proof.
  induction 1 as [|x v Hv IH Hx]; [reflexivity|]. rewrite where_cons, IH. cbn [filter].
  destruct (rleb m x) eqn:E.
  - cbn [length app]. rewrite seq_shift. reflexivity.
  - rewrite filter_none; [reflexivity|]. intros y Hy. apply rleb_gt in E. apply rleb_gt. rewrite Forall_forall in Hx. specialize (Hx y Hy). lra.
Qed.
Lemma fold_max_seq k : forall a, fold_left Nat.max (seq (S a) k) a = a + k.
Proof.
  induction k as [|k IH]; intros a; cbn [seq fold_left]; [lia|]. replace (Nat.max a (S a)) with (S a) by lia. rewrite IH. lia.
Qed.
Lemma cut_index_ok v m : StronglySorted (fun a b => (b <= a)%R) v -> cut_ok v m (cut_index v m).
Proof.
  intros H. assert (E : cut_index v m = length (filter (fun x => rleb m x) v)).
  { unfold cut_index. rewrite (where_sorted v m H). destruct (length (filter _ v)) as [|k]; [reflexivity|]. cbn [seq]. rewrite fold_max_seq. reflexivity. }
  unfold cut_ok. rewrite E. split; [reflexivity|]. clear E. induction H as [|x v Hv IH Hx]; [split; constructor|]. cbn [filter].
  destruct (rleb m x) eqn:E.
  - apply rleb_le in E. cbn [length firstn skipn]. destruct IH. split; [constructor|]; auto.
  - apply rleb_gt in E. rewrite filter_none; [split; [constructor|]|].
    + cbn [length skipn]. constructor; [auto|]. eapply Forall_impl; [|exact Hx]. cbn. intros; lra.
    + intros y Hy. apply rleb_gt. rewrite Forall_forall in Hx. specialize (Hx y Hy). lra.
Qed.

Lemma made_cuts ct bf of s g : made ct bf of s g -> cuts_stored g.
Proof.
  intros (sub & n & _ & _ & _ & E & HS & _). exists (mass_cuts (masses g)). split; [exact E|]. unfold mass_cuts. split.
  - rewrite map_map. cbn [fst]. apply map_id.
  - rewrite Forall_map. cbn [fst snd]. apply Forall_forall. intros m _. apply cut_index_ok. auto.
Qed.
Lemma c36_cuts asort ct a w of : argsorts asort -> runnable ct a w of ->
  exists w', format asort ct a w = (w', Ok tt) /\
    forall s, In s (todo ct a w) -> exists g, group_of w' s = Some g /\ cuts_stored g.
Proof.
  intros HA HR. destruct (format_ok asort ct a w of HA HR) as (h & G & gone' & E & _ & H1 & _).
  eexists. split; [exact E|]. intros s Hs. destruct (H1 s Hs) as (g & Eg & Hg). exists g. split; [exact Eg|]. eapply made_cuts; eauto.
Qed.

Lemma cuts_descending : StronglySorted (fun a b => (b < a)%R) cut_masses.
Proof.
  apply nth_SS. intros i j a b Hij Ha Hb. unfold cut_masses in *. rewrite nth_error_map_seq in Ha, Hb.
  destruct (i <? 141); [|discriminate]. destruct (j <? 141); [|discriminate]. injection Ha as <-. injection Hb as <-.
  apply Rpower_lt; [lra|]. apply lt_INR in Hij. cbn [Nat.add]. lra.
Qed.
Lemma cuts_first : nth_error cut_masses 0 = Some (Rpower 10 20).
Proof. unfold cut_masses. rewrite nth_error_map_seq. cbn [Nat.ltb Nat.leb Nat.add INR]. do 2 f_equal. lra. Qed.
Lemma cuts_last : nth_error cut_masses 140 = Some (Rpower 10 6).
Proof. unfold cut_masses. rewrite nth_error_map_seq. cbn [Nat.ltb Nat.leb Nat.add]. do 2 f_equal. rewrite INR_IZR_INZ. cbn. lra. Qed.
Lemma cuts_length : length cut_masses = 141.
Proof. unfold cut_masses. rewrite map_length, seq_length. reflexivity. Qed.

(** in a descending list the entries above [m] come first *)
Lemma above_first l m : StronglySorted (fun a b => (b < a)%R) l -> let k := length (filter (fun c => rltb m c) l) in
  (forall i c, nth_error l i = Some c -> (i < k <-> (m < c)%R)).
Proof.
  induction 1 as [|x l Hl IH Hx]; intros k i c Hi; [destruct i; discriminate|]. unfold k. cbn [filter].
  destruct (rltb m x) eqn:E.
  - apply rltb_lt in E. cbn [length]. destruct i as [|i]; cbn in Hi; [injection Hi as <-; split; intros; [lra|lia]|].
    rewrite <- (IH i c Hi). lia.
  - apply rltb_ge in E. assert (length (filter (fun c => rltb m c) l) = 0).
    { rewrite filter_none; [reflexivity|]. intros y Hy. apply rltb_ge. rewrite Forall_forall in Hx. specialize (Hx y Hy). lra. }
    rewrite H. split; [lia|]. intros Hc. exfalso. destruct i as [|i]; cbn in Hi; [injection Hi as <-; lra|].
    rewrite Forall_forall in Hx. apply nth_error_In in Hi. specialize (Hx c Hi). lra.
Qed.

Lemma cut_rows v m k r x : cut_ok v m k -> nth_error v r = Some x -> (r < k <-> (m <= x)%R).
Proof.
  intros (_ & H1 & H2) Hr. split; intros H.
  - rewrite Forall_forall in H1. apply H1. eapply nth_error_In. rewrite nth_error_firstn. instantiate (1 := r).
    destruct (Nat.ltb_spec r k); [eauto|lia].
  - destruct (Nat.lt_ge_cases r k); [auto|]. exfalso. rewrite Forall_forall in H2. assert (x < m)%R; [|lra].
    apply H2. apply (nth_error_In (skipn k v) (r - k)). rewrite nth_error_skipn. replace (k + (r - k)) with r by lia. auto.
Qed.

Lemma mass_index_eq tb f h mass s (in_h : bool) g cuts : In s (map m_index tb) -> zget (f_groups f) s = Some g -> g_cuts g = Some cuts ->
  map fst cuts = cut_masses ->
  get_mass_index tb f h mass s in_h =
    (let m := if in_h then mass else (mass / h)%R in
     let k := length (filter (fun c => rltb m c) cut_masses) in
     if k <? 1 then Ok 0 else match nth_error cuts (if k =? 141 then 140 else k) with Some c => Ok (snd c) | None => Raise IndexError end).
Proof.
  intros Ht Eg Ec Em. unfold get_mass_index.
  replace (existsb (fun m => Z.eqb (m_index m) s) tb) with true.
  2:{ symmetry. apply existsb_exists. apply in_map_iff in Ht as (m & E & Hm). exists m. rewrite E, Z.eqb_refl. auto. }
  rewrite Eg, Ec. cbv zeta. set (m := if in_h then mass else (mass / h)%R).
  assert (L : length cuts = 141) by (rewrite <- (map_length fst), Em; apply cuts_length).
  assert (E : length (filter (fun c : R * nat => rltb 0 (fst c - m)) cuts) = length (filter (fun c => rltb m c) cut_masses)).
  { rewrite <- Em. clear. induction cuts as [|c l IH]; [reflexivity|]. cbn [map filter].
    replace (rltb 0 (fst c - m)) with (rltb m (fst c)).
    - destruct (rltb m (fst c)); cbn [length]; rewrite IH; reflexivity.
    - destruct (rltb m (fst c)) eqn:Q; symmetry; [apply rltb_lt in Q; apply rltb_lt; lra|apply rltb_ge in Q; apply rltb_ge; lra]. }
  rewrite E, L. reflexivity.
Qed.

Lemma cuts_nth (cuts : list (R * nat)) k c : map fst cuts = cut_masses -> nth_error cut_masses k = Some c -> exists n, nth_error cuts k = Some (c, n).
Proof.
  intros E H. rewrite <- E, nth_error_map in H. destruct (nth_error cuts k) as [[c' n]|]; [|discriminate]. injection H as <-. eauto.
Qed.

Lemma c36_index tb f h mass s g in_h : let m := if in_h : bool then mass else (mass / h)%R in
  In s (map m_index tb) -> zget (f_groups f) s = Some g -> cuts_stored g ->
  (Rpower 10 6 <= m < Rpower 10 20)%R ->
  exists c k, get_mass_index tb f h mass s in_h = Ok k /\ In c cut_masses /\ (c <= m)%R /\
    (forall c', In c' cut_masses -> (c' <= m)%R -> (c' <= c)%R) /\ cut_ok (masses g) c k.
Proof.
  intros m Ht Eg (cuts & Ec & Em & Hc) Hm. rewrite (mass_index_eq tb f h mass s in_h g cuts Ht Eg Ec Em). cbv zeta. fold m.
  set (k := length (filter (fun c => rltb m c) cut_masses)).
  pose proof (above_first cut_masses m cuts_descending) as AF. cbv zeta in AF. fold k in AF.
  assert (K0 : 0 < k) by (apply (AF 0 _ cuts_first); lra).
  assert (K1 : ~ 140 < k). { intros Q. apply (AF 140 _ cuts_last) in Q. lra. }
  destruct (Nat.ltb_spec k 1); [lia|]. destruct (Nat.eqb_spec k 141); [lia|].
  destruct (nth_error_lt_Some cut_masses k) as [c Hk]; [rewrite cuts_length; lia|].
  destruct (cuts_nth cuts k c Em Hk) as [n0 Hn]. rewrite Hn. exists c, n0. cbn [snd]. split; [reflexivity|].
  split; [eapply nth_error_In; eauto|]. split; [|split].
  - destruct (Rle_or_lt c m); auto. exfalso. apply (AF k c Hk) in H0. lia.
  - intros c' Hc' Hle. apply In_nth_error in Hc' as [i Hi]. destruct (Nat.lt_ge_cases i k) as [Q|Q]; [apply (AF i c' Hi) in Q; lra|].
    destruct (Nat.eq_dec i k) as [->|]; [assert (c = c') by congruence; subst; lra|].
    apply Rlt_le. apply (SS_nth _ _ cuts_descending k i); auto. lia.
  - rewrite Forall_forall in Hc. apply nth_error_In in Hn. apply (Hc _ Hn).
Qed.
Lemma c36_low tb f h mass s g in_h : let m := if in_h : bool then mass else (mass / h)%R in
  In s (map m_index tb) -> zget (f_groups f) s = Some g -> cuts_stored g ->
  ((m < Rpower 10 6)%R -> exists k, get_mass_index tb f h mass s in_h = Ok k /\ cut_ok (masses g) (Rpower 10 6) k) /\
  ((Rpower 10 20 <= m)%R -> get_mass_index tb f h mass s in_h = Ok 0).
Proof.
  intros m Ht Eg (cuts & Ec & Em & Hc). rewrite (mass_index_eq tb f h mass s in_h g cuts Ht Eg Ec Em). cbv zeta. fold m.
  set (k := length (filter (fun c => rltb m c) cut_masses)).
  pose proof (above_first cut_masses m cuts_descending) as AF. cbv zeta in AF. fold k in AF. split; intros Hm.
  - assert (K : 140 < k) by (apply (AF 140 _ cuts_last); auto).
    assert (k <= 141). { rewrite <- cuts_length. apply filter_length_le. }
    destruct (Nat.ltb_spec k 1); [lia|]. destruct (Nat.eqb_spec k 141); [|lia].
    destruct (cuts_nth cuts 140 _ Em cuts_last) as [n Hn]. rewrite Hn. exists n. split; [reflexivity|].
    rewrite Forall_forall in Hc. apply nth_error_In in Hn. apply (Hc _ Hn).
  - destruct (Nat.ltb_spec k 1); [reflexivity|]. exfalso. assert (0 < k) as Q by lia. apply (AF 0 _ cuts_first) in Q. lra.
Qed.

(** * C39 *)
Definition okop (Q : fop -> Prop) (x : exc fop) : Prop := match x with Ok o => Q o | Raise _ => True end.
Lemma exec_inv (P : world -> Prop) (Q : fop -> Prop) l :
  (forall w o w', Q o -> P w -> apply_op w o = Ok w' -> P w') ->
  Forall (okop Q) l -> forall w, P w -> P (fst (exec w l)).
Proof.
  intros H. induction 1 as [|[o|e] l Ho Hl IH]; intros w Hw; cbn [exec]; auto.
  destruct (apply_op w o) eqn:E; [|exact Hw]. apply IH. eapply H; eauto.
Qed.
Lemma Forall_firstn {A} (P : A -> Prop) k l : Forall P l -> Forall P (firstn k l).
Proof. intros H. rewrite <- (firstn_skipn k l) in H. apply Forall_app in H. tauto. Qed.

(** operations on snapshot [s] only *)
Definition own (s : Z) (o : fop) : Prop :=
  match o with
  | OpDel t | OpGroup t | OpCuts t _ | OpData t _ _ | OpUnits t _ _ | OpH t _ _ | OpMeta t _ | OpRm t => t = s
  | _ => False
  end.
Definition not_rm (o : fop) : Prop := match o with OpRm _ => False | _ => True end.
Lemma Forall_flat {A B} (P : B -> Prop) (f : A -> list B) l : (forall a, In a l -> Forall P (f a)) -> Forall P (flat_map f l).
Proof.
  induction l as [|a l IH]; intros H; cbn; [constructor|]. apply Forall_app. split; [apply H; left; auto|apply IH; intros; apply H; right; auto].
Qed.
Lemma write_other_own s specs c : Forall (okop (fun o => own s o /\ not_rm o)) (write_other s specs c).
Proof.
  assert (forall sp v, Forall (okop (fun o => own s o /\ not_rm o)) (write_ds s sp v)) as W by (intros; repeat constructor).
  unfold write_other. destruct specs as [|sp [|sp2 r]]; [repeat constructor|apply W|].
  apply Forall_flat. intros js _. destruct (String.prefix _ _); [constructor|]. destruct (comp _ _); [apply W|repeat constructor].
Qed.
Lemma write_group_own s cuts cols others mrows : Forall (okop (fun o => own s o /\ not_rm o)) (write_group s cuts cols others mrows).
Proof.
  unfold write_group. apply Forall_app. split; [repeat constructor|]. apply Forall_app. split.
  - apply Forall_flat. intros sc _. repeat constructor.
  - apply Forall_app. split; [|repeat constructor]. apply Forall_flat. intros ko _. apply write_other_own.
Qed.
Lemma snap_steps_own asort ct bf of clean s : Forall (okop (own s)) (snap_steps asort ct bf of clean s).
Proof.
  unfold snap_steps. destruct (bind _ _) as [[[cuts cols] others]|]; [|repeat constructor]. apply Forall_app. split.
  - eapply Forall_impl; [|apply write_group_own]. intros [o|]; cbn; tauto.
  - destruct clean; repeat constructor.
Qed.

Lemma in_group_other w s t k w' : s <> t -> in_group w s k = Ok w' -> group_of w' t = group_of w t.
Proof.
  intros N. unfold in_group, in_file, group_of. destruct (w_file w) as [f|]; [|discriminate].
  destruct (zget (f_groups f) s) as [g|]; [|discriminate]. destruct (k g); [|discriminate]. intros [= <-]. cbn [w_file set_groups f_groups].
  rewrite zget_put. destruct (Z.eqb_spec s t); [contradiction|reflexivity].
Qed.
Lemma in_group_table w s k w' : in_group w s k = Ok w' -> table w' = table w.
Proof.
  unfold in_group, in_file, table. destruct (w_file w) as [f|]; [|discriminate].
  destruct (zget (f_groups f) s) as [g|]; [|discriminate]. destruct (k g); [|discriminate]. intros [= <-]. reflexivity.
Qed.
Lemma in_group_gone w s k w' : in_group w s k = Ok w' -> w_gone w' = w_gone w.
Proof.
  unfold in_group, in_file. destruct (w_file w) as [f|]; [|discriminate].
  destruct (zget (f_groups f) s) as [g|]; [|discriminate]. destruct (k g); [|discriminate]. intros [= <-]. reflexivity.
Qed.

Definition spares (t : Z) (o : fop) : Prop := match o with OpNew => False | OpDel s | OpGroup s | OpCuts s _ | OpData s _ _ | OpUnits s _ _ | OpH s _ _ | OpMeta s _ => s <> t | _ => True end.
Lemma spares_group t w o w' : spares t o -> apply_op w o = Ok w' -> group_of w' t = group_of w t.
Proof.
  intros H E. destruct o; cbn [apply_op spares] in *; try contradiction; try (eapply in_group_other; eassumption);
    unfold in_file, group_of in *; try (injection E as <-; reflexivity);
    (destruct (w_file w) as [f|]; [|discriminate]); try (injection E as <-; reflexivity).
  - cbn in E. injection E as <-. cbn. rewrite zget_del. destruct (Z.eqb_spec s t); [contradiction|reflexivity].
  - destruct (zget (f_groups f) s); [discriminate|]. cbn in E. injection E as <-. cbn. rewrite zget_app. destruct (zget (f_groups f) t); [reflexivity|].
    cbn. destruct (Z.eqb_spec s t); [contradiction|reflexivity].
Qed.
Lemma op_table (P : list meta -> Prop) w o w' : match o with OpNew => False | OpTable ms => P ms | _ => True end ->
  P (table w) -> apply_op w o = Ok w' -> P (table w').
Proof.
  intros H HP E. destruct o; cbn [apply_op] in *; try contradiction; try (rewrite (in_group_table _ _ _ _ E); exact HP);
    unfold in_file in E; unfold table in *; try (injection E as <-; exact HP);
    (destruct (w_file w) as [f|]; [|discriminate]); try (injection E as <-; exact HP).
  - injection E as <-. exact H.
  - destruct (zget (f_groups f) s); [discriminate|]. cbn in E. injection E as <-. exact HP.
Qed.
Lemma op_gone w o w' : not_rm o -> apply_op w o = Ok w' -> w_gone w' = w_gone w.
Proof.
  intros H E. destruct o; cbn [apply_op] in *; try contradiction; try (eapply in_group_gone; eassumption);
    unfold in_file in E; try (injection E as <-; reflexivity);
    (destruct (w_file w) as [f|]; [|discriminate]); try (injection E as <-; reflexivity).
  destruct (zget (f_groups f) s); [discriminate|]. cbn in E. injection E as <-. reflexivity.
Qed.

Lemma sort_perm l : Permutation (sort_rows l) l.
Proof.
  unfold sort_rows. induction l as [|a l IH]; cbn; [constructor|].
  assert (forall m l, Permutation (insert_row m l) (m :: l)) as I.
  { intros m. induction l0 as [|b l0 IH0]; cbn; [auto|]. destruct (_ <=? _)%Z; [auto|]. eapply perm_trans; [apply perm_skip, IH0|apply perm_swap]. }
  eapply perm_trans; [apply I|auto].
Qed.
Lemma merge_in old new td m : In m (merge_rows old new td) <->
  (In m old /\ ~ In (m_index m) td) \/ (In m new /\ In (m_index m) td).
Proof.
  assert (Emem : forall i, zmem i td = true <-> In i td).
  { intros i. unfold zmem. rewrite existsb_exists. split; [intros (x & Hx & Q); apply Z.eqb_eq in Q; subst; auto|].
    intros Hi. exists i. rewrite Z.eqb_refl. auto. }
  unfold merge_rows. split.
  - intros H. apply (Permutation_in _ (sort_perm _)) in H. apply in_app_or in H as [H|H]; apply filter_In in H as [H Q].
    + left. split; [auto|]. rewrite <- Emem. destruct (zmem _ _); [discriminate|congruence].
    + right. rewrite <- Emem. auto.
  - intros H. apply (Permutation_in _ (Permutation_sym (sort_perm _))). apply in_or_app. destruct H as [[H Q]|[H Q]].
    + left. apply filter_In. split; [auto|]. rewrite <- Emem in Q. destruct (zmem _ _); [contradiction Q|]; reflexivity.
    + right. apply filter_In. rewrite Emem. auto.
Qed.

Lemma c39_crash asort ct a w k s : is_new w a = false -> ~ In s (todo ct a w) ->
  let w' := format_crash asort ct a k w in
  group_of w' s = group_of w s /\ (forall m, m_index m = s -> (In m (table w') <-> In m (table w))).
Proof.
  intros HN HS. unfold format_crash. set (l := format_steps asort ct a w).
  assert (HL : Forall (okop (fun o => spares s o /\ match o with OpNew => False
      | OpTable ms => forall m, m_index m = s -> (In m ms <-> In m (table w)) | _ => True end)) l).
  { unfold l, format_steps. destruct (other_fields ct a w) as [of|]; [|repeat constructor]. apply Forall_app. split.
    - unfold head_steps. rewrite HN. destruct (w_file w) as [f|] eqn:Ef; [|repeat constructor].
      destruct (f_table f) as [old|] eqn:Et; [|repeat constructor]. destruct (f_number f); [|repeat constructor].
      repeat constructor. intros H0. rewrite merge_in in H0. unfold table. rewrite Ef, Et. destruct H0 as [[? ?]|[? Q]]; [auto|]. rewrite H in Q. contradiction.
      intros H0. rewrite merge_in. left. unfold table in H0. rewrite Ef, Et in H0. rewrite H. auto.
    - apply Forall_flat. intros t Ht. eapply Forall_impl; [|apply snap_steps_own]. intros [o|] Q; cbn in *; [|exact I].
      assert (t <> s) by congruence. destruct o; cbn in *; subst; auto; contradiction. }
  apply (Forall_firstn _ k) in HL. cbv zeta. split.
  - apply (exec_inv (fun w' => group_of w' s = group_of w s) _ _) with (2 := HL); [|reflexivity].
    intros w0 o w1 [Hs _] H0 E. rewrite (spares_group s w0 o w1 Hs E). auto.
  - apply (exec_inv (fun w' => forall m, m_index m = s -> (In m (table w') <-> In m (table w))) _ _) with (2 := HL); [|tauto].
    intros w0 o w1 [_ Ho] H0 E. apply (op_table (fun t => forall m, m_index m = s -> (In m t <-> In m (table w))) w0 o w1); auto.
Qed.

Lemma gone_inv l w : Forall (okop not_rm) l -> w_gone (fst (exec w l)) = w_gone w.
Proof.
  intros H. apply (exec_inv (fun w' => w_gone w' = w_gone w) not_rm l); auto.
  intros w0 o w1 Ho E0 E. rewrite (op_gone _ _ _ Ho E). auto.
Qed.
Lemma group_inv t l w : Forall (okop (spares t)) l -> group_of (fst (exec w l)) t = group_of w t.
Proof.
  intros H. apply (exec_inv (fun w' => group_of w' t = group_of w t) (spares t) l); auto.
  intros w0 o w1 Ho E0 E. rewrite (spares_group _ _ _ _ Ho E). auto.
Qed.
Lemma own_spares s t l : s <> t -> Forall (okop (own s)) l -> Forall (okop (spares t)) l.
Proof. intros N. apply Forall_impl. intros [o|]; cbn; [|auto]. destruct o; cbn; intros; subst; auto; contradiction. Qed.

Lemma snaps_raw asort ct bf of clean : argsorts asort -> NoDup (dkeys (ct_tr ct)) -> fields_ok bf of ->
  forall l, NoDup l ->
  (forall s, In s l -> exists sub n, ct_load ct s (dkeys (dmerge bf of)) = Ok (sub, n) /\ catalogue_ok bf of sub n) ->
  forall f gone k, let w' := fst (exec (mkW (Some f) gone) (firstn k (flat_map (snap_steps asort ct bf of clean) l))) in
  forall s, In s (w_gone w') -> In s gone \/ (In s l /\ exists g, group_of w' s = Some g /\ made ct bf of s g).
Proof.
  intros HA HT HF. induction l as [|a l IH]; intros HN HL f gone k w' s Hs.
  - unfold w' in Hs. cbn [flat_map] in Hs. rewrite firstn_nil in Hs. left. exact Hs.
  - inversion HN as [|? ? H1 H2]; subst. destruct (HL a (or_introl eq_refl)) as (sub & n & E1 & E2).
    destruct (snap_ok asort ct bf of clean a sub n f gone HA HT HF E1 E2) as (g & Eg & Hg).
    assert (HR : forall t j, In t (a :: l) -> ~ In t l -> Forall (okop (spares t)) (firstn j (flat_map (snap_steps asort ct bf of clean) l))).
    { intros t j _ Ht. apply Forall_firstn, Forall_flat. intros u Hu. apply (own_spares u); [congruence|]. apply snap_steps_own. }
    cbn [flat_map] in w'. unfold w' in *. clear w'. rewrite firstn_app in *.
    destruct (Nat.lt_ge_cases k (length (snap_steps asort ct bf of clean a))) as [Hk|Hk].
    + left. replace (k - length (snap_steps asort ct bf of clean a)) with 0 in Hs by lia. cbn [firstn] in Hs. rewrite app_nil_r in Hs.
      rewrite gone_inv in Hs; [exact Hs|]. unfold snap_steps in *. destruct (bind _ _) as [[[cuts cols] others]|]; [|apply Forall_firstn; repeat constructor].
      set (G := write_group a cuts cols others _) in *.
      assert (Q : Forall (okop not_rm) G) by (eapply Forall_impl; [|apply write_group_own]; intros [o|]; cbn; tauto).
      destruct clean; [|rewrite app_nil_r; apply Forall_firstn, Q]. rewrite app_length in Hk. cbn [length] in Hk.
      rewrite firstn_app. replace (k - length G) with 0 by lia. cbn [firstn]. rewrite app_nil_r. apply Forall_firstn, Q.
    + rewrite firstn_all2 in * by lia. set (j := k - _) in *. rewrite (exec_app_ok _ _ _ _ Eg) in *.
      destruct (IH H2 (fun s H => HL s (or_intror H)) (set_groups f (zdel (f_groups f) a ++ [(a, g)])) (if clean then a :: gone else gone) j s Hs) as [H|[H3 H4]].
      2: right; split; [right; auto|exact H4].
      assert (D : In s gone \/ s = a) by (destruct clean; [destruct H as [H|H]; auto|auto]).
      destruct D as [D| ->]; [left; auto|]. right. split; [left; auto|]. exists g. split.
      * rewrite (group_inv a _ _ (HR a j (or_introl eq_refl) H1)). unfold group_of. cbn [w_file set_groups f_groups].
        rewrite zget_app, zget_del, Z.eqb_refl. cbn. rewrite Z.eqb_refl. reflexivity.
      * exists sub, n. auto.
Qed.

Lemma head_not_rm ct a w : Forall (okop not_rm) (head_steps ct a w).
Proof.
  unfold head_steps. destruct (is_new w a).
  - constructor; [exact I|]. apply Forall_app. split.
    + apply Forall_forall. intros x Hx. apply in_map_iff in Hx as (kv & <- & _). exact I.
    + destruct (ct_number ct); repeat constructor.
  - destruct (w_file w) as [f|]; [|repeat constructor]. destruct (f_table f); [|repeat constructor]. destruct (f_number f); repeat constructor.
Qed.
Lemma c39_raw asort ct a w of k s : argsorts asort -> runnable ct a w of ->
  let w' := format_crash asort ct a k w in
  In s (w_gone w') -> ~ In s (w_gone w) ->
  In s (todo ct a w) /\ exists g sub n, group_of w' s = Some g /\
    ct_load ct s (dkeys (dmerge (ct_basic ct) of)) = Ok (sub, n) /\ holds ct (ct_basic ct) of sub n g /\ cuts_stored g.
Proof.
  intros HA (HO & HF & HT & HN & HL & HH) w' H1 H2. unfold w', format_crash, format_steps in *. clear w'. rewrite HO in *.
  destruct (head_ok ct a w HH) as (h & Eh & Hh). rewrite firstn_app in *.
  destruct (Nat.lt_ge_cases k (length (head_steps ct a w))) as [Hk|Hk].
  - exfalso. apply H2. replace (k - length (head_steps ct a w)) with 0 in H1 by lia. cbn [firstn] in H1. rewrite app_nil_r in H1.
    rewrite gone_inv in H1; [exact H1|]. apply Forall_firstn, head_not_rm.
  - rewrite firstn_all2 in * by lia. rewrite (exec_app_ok _ _ _ _ Eh) in *.
    destruct (snaps_raw asort ct (ct_basic ct) of (a_clean a) HA HT HF (todo ct a w) (todo_nodup ct a w HN) HL h (w_gone w) _ s H1) as [H|(H & g & Eg & sub & n & M)]; [contradiction|].
    split; [exact H|]. exists g, sub, n. split; [exact Eg|]. destruct M as (M1 & M2 & M3 & M4 & M5 & M6). split; [auto|]. split; [auto|].
    apply (made_cuts ct (ct_basic ct) of s). exists sub, n. auto 10.
Qed.

(** ** Histories *)
Lemma zget_zset {A} (l : list (Z * A)) s v t : zget (zset l s v) t = if Z.eqb s t then Some v else zget l t.
Proof.
  induction l as [|[k x] l IH]; cbn; [reflexivity|]. destruct (Z.eqb_spec k s) as [->|N]; cbn.
  - destruct (Z.eqb_spec s t); reflexivity.
  - rewrite IH. destruct (Z.eqb_spec k t) as [->|]; [|reflexivity]. destruct (Z.eqb_spec s t); congruence.
Qed.
Lemma spec_step_get l ct a s : zget (spec_step l (ct, a)) s =
  let base := if a_remake a then [] else l in
  if zmem s (ct_snaps ct) && (match zget base s with Some _ => a_overwrite a | None => true end) then Some ct else zget base s.
Proof.
  unfold spec_step. cbn [fst snd]. set (base := if a_remake a then [] else l).
  assert (G : forall sn acc, zget (fold_left (fun acc s => match zget base s with
                          | Some _ => if a_overwrite a then zset acc s ct else acc
                          | None => zset acc s ct end) sn acc) s =
     if zmem s sn && (match zget base s with Some _ => a_overwrite a | None => true end) then Some ct else zget acc s).
  { induction sn as [|x sn IH]; intros acc; [reflexivity|]. cbn [fold_left]. rewrite IH. unfold zmem. cbn [existsb].
    destruct (Z.eqb_spec s x) as [<-|N].
    - destruct (existsb (Z.eqb s) sn); cbn; destruct (zget base s); cbn; try destruct (a_overwrite a); cbn;
        rewrite ?zget_zset, ?Z.eqb_refl; reflexivity.
    - assert (E : zget (match zget base x with Some _ => if a_overwrite a then zset acc x ct else acc | None => zset acc x ct end) s = zget acc s).
      { destruct (zget base x); [destruct (a_overwrite a)|]; rewrite ?zget_zset; try reflexivity; destruct (Z.eqb_spec x s); congruence. }
      rewrite E. reflexivity. }
  apply G.
Qed.

Lemma insert_head m l x : In x (insert_row m l) -> x = m \/ In x l.
Proof. induction l as [|a l IH]; cbn; [intros [?|[]]; auto|]. destruct (_ <=? _)%Z; cbn; intuition. Qed.
Lemma sort_sorted l : NoDup (map m_index l) -> StronglySorted (fun a b => (m_index a < m_index b)%Z) (sort_rows l).
Proof.
  induction l as [|a l IH]; cbn; intros H; [constructor|]. inversion H as [|? ? H1 H2]; subst. specialize (IH H2). fold (sort_rows l).
  assert (HX : Forall (fun b => m_index b <> m_index a) (sort_rows l)).
  { apply Forall_forall. intros b Hb Q. apply H1. rewrite <- Q. apply in_map. apply (Permutation_in _ (sort_perm l)), Hb. }
  revert HX IH. generalize (sort_rows l). clear. intros L. induction L as [|b L IHL]; intros HX HS; cbn; [constructor; constructor|].
  inversion HX; subst. inversion HS as [|? ? S1 S2]; subst. destruct (Z.leb_spec (m_index a) (m_index b)).
  - constructor; [auto|]. constructor; [lia|]. eapply Forall_impl; [|exact S2]. cbn. intros; lia.
  - constructor; [auto|]. apply Forall_forall. intros x Hx. apply insert_head in Hx as [->|Hx]; [lia|].
    rewrite Forall_forall in S2. auto.
Qed.
Lemma sorted_nodup l : StronglySorted (fun a b => (m_index a < m_index b)%Z) l -> NoDup (map m_index l).
Proof.
  induction 1 as [|a l H IH F]; cbn; constructor; [|auto]. intros Q. apply in_map_iff in Q as (b & E & Hb).
  rewrite Forall_forall in F. specialize (F b Hb). lia.
Qed.
Lemma zmem_in i l : zmem i l = true <-> In i l.
Proof.
  unfold zmem. rewrite existsb_exists. split; [intros (x & Hx & Q); apply Z.eqb_eq in Q; subst; auto|].
  intros Hi. exists i. rewrite Z.eqb_refl. auto.
Qed.
Lemma NoDup_map_filter {A B} (f : A -> B) p l : NoDup (map f l) -> NoDup (map f (filter p l)).
Proof.
  induction l as [|a l IH]; cbn; [auto|]. intros H. inversion H as [|? ? H1 H2]; subst. destruct (p a); cbn; [|auto].
  constructor; [|auto]. intros Q. apply H1. apply in_map_iff in Q as (b & <- & Hb). apply filter_In in Hb as [? _]. apply in_map; auto.
Qed.
Lemma NoDup_app_i {A} (l1 l2 : list A) : NoDup l1 -> NoDup l2 -> (forall x, In x l1 -> ~ In x l2) -> NoDup (l1 ++ l2).
Proof.
  induction l1 as [|a l1 IH]; cbn; intros H1 H2 H; [auto|]. inversion H1; subst. constructor.
  - intros Q. apply in_app_or in Q as [Q|Q]; [auto|]. apply (H a); auto.
  - apply IH; auto.
Qed.
Lemma merge_sorted old new td : StronglySorted (fun a b => (m_index a < m_index b)%Z) old ->
  StronglySorted (fun a b => (m_index a < m_index b)%Z) new ->
  StronglySorted (fun a b => (m_index a < m_index b)%Z) (merge_rows old new td).
Proof.
  intros H1 H2. apply sort_sorted. rewrite map_app. apply NoDup_app_i; try (apply NoDup_map_filter, sorted_nodup; auto).
  intros x Hx Hy. apply in_map_iff in Hx as (b & <- & Hb). apply in_map_iff in Hy as (c & E & Hc).
  apply filter_In in Hb as [_ Hb]. apply filter_In in Hc as [_ Hc]. rewrite E in Hc. rewrite Hc in Hb. discriminate.
Qed.

(** what the file holds is what the list of calls should have made *)
Definition agrees (l : list (Z * catalog)) (w : world) : Prop :=
  StronglySorted (fun a b => (m_index a < m_index b)%Z) (table w) /\
  forall s, match zget l s with
            | None => group_of w s = None /\ ~ In s (map m_index (table w))
            | Some ct => (exists m, In m (table w) /\ In m (ct_meta ct) /\ m_index m = s) /\
                exists g of sub n, group_of w s = Some g /\
                  ct_load ct s (dkeys (dmerge (ct_basic ct) of)) = Ok (sub, n) /\ holds ct (ct_basic ct) of sub n g /\ cuts_stored g
            end.

Lemma agrees_present l w s : agrees l w -> present w s = match zget l s with Some _ => true | None => false end.
Proof.
  intros [_ H]. specialize (H s). unfold present. unfold group_of in H. destruct (zget l s).
  - destruct H as (_ & g & of & sub & n & E & _). destruct (w_file w); [rewrite E; auto|discriminate].
  - destruct H as [E _]. destruct (w_file w); [rewrite E; auto|reflexivity].
Qed.
Lemma is_new_true l w a : agrees l w -> is_new w a = true -> forall s, zget (if a_remake a then [] else l) s = None.
Proof.
  intros H E s. unfold is_new in E. destruct (a_remake a); [reflexivity|]. pose proof (agrees_present l w s H) as P.
  unfold present in P. destruct (w_file w) as [f|].
  - cbn in E. destruct (f_groups f); [|discriminate]. cbn in P. destruct (zget l s); [discriminate|reflexivity].
  - destruct (zget l s); [discriminate|reflexivity].
Qed.
Lemma todo_iff ct a w s : is_new w a = false -> (In s (todo ct a w) <-> In s (ct_snaps ct) /\ (present w s = false \/ a_overwrite a = true)).
Proof.
  intros E. unfold todo. rewrite E. rewrite in_app_iff, filter_In. destruct (a_overwrite a).
  - rewrite filter_In. destruct (present w s); cbn; intuition.
  - destruct (present w s); cbn; intuition discriminate.
Qed.

Lemma agrees_step asort l ct a w : argsorts asort -> agrees l w -> own_rows ct -> (exists of, runnable ct a w of) ->
  agrees (spec_step l (ct, a)) (fst (format asort ct a w)).
Proof.
  intros HA HG [O1 O2] [of HR]. destruct (format_ok asort ct a w of HA HR) as (h & G & gone' & E & HH & HT & HU). rewrite E. cbn [fst].
  pose proof (agrees_present l w) as HP. unfold head_file in HH.
  assert (MK : forall s g, made ct (ct_basic ct) of s g -> exists of sub n,
     ct_load ct s (dkeys (dmerge (ct_basic ct) of)) = Ok (sub, n) /\ holds ct (ct_basic ct) of sub n g /\ cuts_stored g).
  { intros s g M. pose proof (made_cuts _ _ _ _ _ M) as C. destruct M as (sub & n & M1 & M2 & _). exists of, sub, n. auto. }
  assert (RW : forall s, In s (ct_snaps ct) -> exists m, In m (ct_meta ct) /\ m_index m = s).
  { intros s Hs. apply O2 in Hs. apply in_map_iff in Hs as (m & ? & ?). exists m. auto. }
  unfold agrees, table, group_of. cbn [w_file set_groups f_table f_groups].
  destruct (is_new w a) eqn:EN.
  - destruct HH as (Ht & _ & Hg). rewrite Ht. split; [exact O1|]. intros s. rewrite spec_step_get. cbv zeta. rewrite (is_new_true l w a HG EN).
    unfold todo in *. rewrite EN in *. rewrite andb_true_r. destruct (zmem s (ct_snaps ct)) eqn:EM.
    + apply zmem_in in EM. destruct (RW s EM) as (m & ? & ?). split; [exists m; auto|]. destruct (HT s EM) as (g & Eg & M).
      destruct (MK s g M) as (of' & sub & n & M'). exists g, of', sub, n. auto.
    + assert (NI : ~ In s (ct_snaps ct)) by (rewrite <- zmem_in; congruence). split; [rewrite (HU s NI), Hg; reflexivity|]. rewrite <- O2. exact NI.
  - destruct HH as (f & t & Ef & Et & Ht & _ & Hg). rewrite Ht. pose proof HG as HG0. destruct HG as [HS HG]. unfold table in HS. rewrite Ef, Et in HS.
    split; [apply merge_sorted; auto|]. intros s. rewrite spec_step_get. cbv zeta.
    assert (ER : a_remake a = false) by (unfold is_new in EN; rewrite Ef in EN; destruct (a_remake a); [discriminate|reflexivity]). rewrite ER.
    specialize (HP s HG0). specialize (HG s). unfold table, group_of in HG. rewrite Ef, Et in HG.
    pose proof (todo_iff ct a w s EN) as TI. rewrite HP in TI.
    assert (D : zmem s (ct_snaps ct) && (match zget l s with Some _ => a_overwrite a | None => true end) = true <-> In s (todo ct a w)).
    { rewrite TI, andb_true_iff, zmem_in. destruct (zget l s); intuition discriminate. }
    destruct (zmem s (ct_snaps ct) && _) eqn:EC.
    + assert (HI : In s (todo ct a w)) by (apply D; reflexivity). pose proof (todo_in _ _ _ _ HI) as HS'.
      destruct (RW s HS') as (m & M1 & M2). split.
      * exists m. split; [|auto]. apply merge_in. right. rewrite M2. auto.
      * destruct (HT s HI) as (g & Eg & M). destruct (MK s g M) as (of' & sub & n & M'). exists g, of', sub, n. auto.
    + assert (HI : ~ In s (todo ct a w)) by (intros Q; apply D in Q; discriminate). rewrite (HU s HI), Hg. destruct (zget l s).
      * destruct HG as [(m & M1 & M2 & M3) HG]. split; [|exact HG]. exists m. split; [|auto]. apply merge_in. left. rewrite M3. auto.
      * destruct HG as [HG1 HG2]. split; [exact HG1|]. intros Q. apply in_map_iff in Q as (m & M1 & M2). apply merge_in in M2 as [[M2 _]|[_ M2]].
        -- apply HG2. rewrite <- M1. apply in_map, M2.
        -- rewrite M1 in M2. contradiction.
Qed.
Lemma c39_history asort : argsorts asort -> forall cs l w, agrees l w -> good_history asort cs w ->
  agrees (fold_left spec_step cs l) (run asort cs w).
Proof.
  intros HA. induction cs as [|[ct a] cs IH]; intros l w HG HH; [exact HG|]. cbn in HH. destruct HH as (H1 & H2 & H3 & H4).
  apply IH; [|exact H4]. apply agrees_step; auto.
Qed.
Lemma c39_start gone : agrees [] (mkW None gone).
Proof. split; [constructor|]. intros s. cbn. auto. Qed.

(** * C57 *)
Lemma rows_len c : length (rows_of c) = rows c.
Proof. destruct c; cbn; [apply map_length|reflexivity]. Qed.
Lemma splice_app {A} (a z v : list A) : splice (a ++ z) (length a) v = a ++ v ++ skipn (length v) z.
Proof.
  unfold splice. rewrite firstn_app, firstn_all, Nat.sub_diag. cbn [firstn]. rewrite app_nil_r. do 2 f_equal.
  rewrite skipn_app, (skipn_all2 a) by lia. cbn. f_equal. lia.
Qed.
Lemma splice_map {A B} (f : A -> B) d o v : map f (splice d o v) = splice (map f d) o (map f v).
Proof. unfold splice. rewrite !map_app, firstn_map, skipn_map, map_length. reflexivity. Qed.
Lemma put_ok dst src a z : flat src = flat dst -> rows_of dst = a ++ z -> rows src <= length z ->
  exists d, put_rows dst (length a) src = Ok d /\ flat d = flat dst /\ rows_of d = a ++ rows_of src ++ skipn (rows src) z.
Proof.
  intros HF HR HL. unfold put_rows. assert (E : length a + rows src <= rows dst).
  { rewrite <- (rows_len dst), HR, app_length. lia. }
  apply Nat.leb_le in E. rewrite E. destruct dst as [d|d], src as [v|v]; try discriminate; eexists; (split; [reflexivity|]); (split; [reflexivity|]).
  - cbn in *. rewrite splice_map, HR, splice_app, map_length. reflexivity.
  - cbn in *. rewrite HR, splice_app. reflexivity.
Qed.

Lemma dkeys_dset_new {A} (d : dict A) k v : ~ In k (dkeys d) -> dkeys (dset d k v) = dkeys d ++ [k].
Proof.
  unfold dkeys. induction d as [|[j x] d IH]; cbn; intros H; [reflexivity|].
  destruct (String.eqb_spec k j) as [->|N]; [exfalso; apply H; left; reflexivity|]. cbn. f_equal. apply IH. intros Q. apply H. right. exact Q.
Qed.
Lemma dkeys_dset_old {A} (d : dict A) k v : In k (dkeys d) -> dkeys (dset d k v) = dkeys d.
Proof.
  unfold dkeys. induction d as [|[j x] d IH]; cbn; intros H; [contradiction|].
  destruct (String.eqb_spec k j) as [->|N]; [reflexivity|]. cbn. f_equal. apply IH. destruct H; [congruence|auto].
Qed.

Lemma alloc_ok f0 n fs : (forall k, In k fs -> exists c0, dget (ch_data f0) k = Some c0) -> NoDup fs ->
  forall res, (forall k, In k fs -> ~ In k (dkeys res)) -> exists r, alloc f0 n fs res = Ok r /\ dkeys r = dkeys res ++ fs /\
    (forall k, In k fs -> forall c0, dget (ch_data f0) k = Some c0 -> dget r k = Some (zeros_like c0 n)) /\
    (forall k, ~ In k fs -> dget r k = dget res k).
Proof.
  intros H HN. induction fs as [|k fs IH]; intros res HR; cbn [alloc].
  - exists res. rewrite app_nil_r. repeat split; [intros k []].
  - inversion HN as [|? ? N1 N2]; subst. destruct (H k (or_introl eq_refl)) as [c0 E]. rewrite E.
    destruct (IH (fun j Hj => H j (or_intror Hj)) N2 (dset res k (zeros_like c0 n))) as (r & Er & K1 & K2 & K3).
    { intros j Hj. rewrite dkeys_dset_new by (apply HR; left; auto). intros Q. apply in_app_or in Q as [Q|[<-|[]]]; [|contradiction].
      apply (HR j); [right; auto|auto]. }
    exists r. split; [exact Er|]. rewrite K1, dkeys_dset_new by (apply HR; left; auto). rewrite <- app_assoc. split; [reflexivity|]. split.
    + intros j [<-|Hj] c1 E1; [|apply K2; auto]. rewrite K3 by auto. rewrite dget_dset_eq. congruence.
    + intros j Hj. rewrite K3 by (intros Q; apply Hj; right; auto). apply dget_dset_ne. intros Q. apply Hj. left. auto.
Qed.

Lemma read_ok f o fs : NoDup fs -> fs <> [] -> forall last (A Z : string -> list (list R)) res,
  (forall k, In k fs -> In k (dkeys res) /\ length (A k) = o /\
     exists d c, dget res k = Some d /\ dget (ch_data f) k = Some c /\ flat c = flat d /\
       rows c = ch_here f /\ rows_of d = A k ++ Z k /\ ch_here f <= length (Z k)) ->
  exists r, read_chunk f o fs last res = Ok (r, ch_here f) /\ dkeys r = dkeys res /\
    (forall k, In k fs -> exists d c d', dget res k = Some d /\ dget (ch_data f) k = Some c /\ dget r k = Some d' /\ flat d' = flat d /\
       rows_of d' = A k ++ rows_of c ++ skipn (ch_here f) (Z k)) /\
    (forall k, ~ In k fs -> dget r k = dget res k).
Proof.
  induction fs as [|k fs IH]; intros HN HE last A Z res H; [contradiction HE; reflexivity|]. clear HE.
  inversion HN as [|? ? N1 N2]; subst. destruct (H k (or_introl eq_refl)) as (Hk & HA & d & c & Ed & Ec & HF & HR & HZ & HL).
  cbn [read_chunk]. rewrite Ec. unfold dfind. rewrite Ed. cbn [bind].
  destruct (put_ok d c (A k) (Z k) HF HZ ltac:(lia)) as (d' & Ed' & F' & R'). rewrite HA in Ed'. rewrite Ed'. cbn [bind]. rewrite HR in *.
  destruct fs as [|k2 fs].
  - cbn [read_chunk]. eexists. split; [reflexivity|]. rewrite dkeys_dset_old by auto. split; [reflexivity|]. split.
    + intros j [<-|[]]. exists d, c, d'. rewrite dget_dset_eq. auto.
    + intros j Hj. apply dget_dset_ne. intros Q. apply Hj. left. auto.
  - destruct (IH N2 ltac:(discriminate) (ch_here f) A Z (dset res k d')) as (r & Er & K1 & K2 & K3).
    { intros j Hj. rewrite dkeys_dset_old by auto. destruct (H j (or_intror Hj)) as (Q1 & Q2 & d2 & c2 & Q3 & Q4). split; [auto|]. split; [auto|].
      exists d2, c2. rewrite dget_dset_ne by (intros ->; contradiction). auto. }
    exists r. split; [exact Er|]. rewrite K1, dkeys_dset_old by auto. split; [reflexivity|]. split.
    + intros j [<-|Hj].
      * exists d, c, d'. rewrite K3 by auto. rewrite dget_dset_eq. auto.
      * destruct (K2 j Hj) as (d2 & c2 & d3 & Q1 & Q2). rewrite dget_dset_ne in Q1 by (intros ->; contradiction). exists d2, c2, d3. auto.
    + intros j Hj. rewrite K3 by (intros Q; apply Hj; right; auto). apply dget_dset_ne. intros Q. apply Hj. left. auto.
Qed.
Lemma skipn_add {A} a b (l : list A) : skipn b (skipn a l) = skipn (a + b) l.
Proof. revert l. induction a as [|a IH]; intros [|x l]; cbn; try reflexivity; [destruct b; reflexivity|apply IH]. Qed.
Lemma all_rows_cons f l k : all_rows (f :: l) k = (if ch_here f =? 0 then [] else match dget (ch_data f) k with Some c => rows_of c | None => [] end) ++ all_rows l k.
Proof. reflexivity. Qed.

Lemma reads_ok fs (fl : string -> bool) : NoDup fs -> fs <> [] -> forall l o (A Z : string -> list (list R)) res,
  (forall k, In k fs -> forall f, In f l -> ch_here f <> 0 -> exists c, dget (ch_data f) k = Some c /\ rows c = ch_here f /\ flat c = fl k) ->
  (forall k, In k fs -> In k (dkeys res) /\ length (A k) = o /\ exists d, dget res k = Some d /\ flat d = fl k /\ rows_of d = A k ++ Z k /\ here l <= length (Z k)) ->
  exists r, read_chunks l o fs res = Ok r /\ dkeys r = dkeys res /\
    forall k, In k fs -> exists d, dget r k = Some d /\ flat d = fl k /\ rows_of d = A k ++ all_rows l k ++ skipn (here l) (Z k).
Proof.
  intros HN HE. induction l as [|f l IH]; intros o A Z res HC HR.
  - exists res. split; [reflexivity|]. split; [reflexivity|]. intros k Hk. destruct (HR k Hk) as (_ & _ & d & E1 & E2 & E3 & _). exists d. auto.
  - cbn [read_chunks here fold_right]. fold (here l). destruct (Nat.eqb_spec (ch_here f) 0) as [E0|N0].
    + destruct (IH o A Z res) as (r & Er & K1 & K2).
      { intros k Hk g Hg. apply HC; [auto|right; auto]. }
      { intros k Hk. destruct (HR k Hk) as (? & ? & d & ? & ? & ? & HL). cbn in HL. fold (here l) in HL. rewrite E0 in HL. split; [auto|]. split; [auto|]. exists d. auto. }
      exists r. split; [auto|]. split; [auto|]. intros k Hk. rewrite all_rows_cons, E0. cbn [Nat.eqb app Nat.add]. apply K2, Hk.
    + replace (match fs with [] => Raise NameError | _ :: _ => do rl <- read_chunk f o fs 0 res ;; read_chunks l (o + snd rl) fs (fst rl) end)
        with (do rl <- read_chunk f o fs 0 res ;; read_chunks l (o + snd rl) fs (fst rl)) by (destruct fs; [contradiction HE; reflexivity|reflexivity]).
      destruct (read_ok f o fs HN HE 0 A Z res) as (r1 & E1 & D1 & D2 & D3).
      { intros k Hk. destruct (HR k Hk) as (Q1 & Q2 & d & Q3 & Q4 & Q5 & HL). cbn in HL. fold (here l) in HL.
        destruct (HC k Hk f (or_introl eq_refl) N0) as (c & C1 & C2 & C3). split; [auto|]. split; [auto|]. exists d, c.
        split; [auto|]. split; [auto|]. split; [congruence|]. split; [auto|]. split; [auto|lia]. }
      rewrite E1. cbn [bind fst snd].
      set (A' k := A k ++ match dget (ch_data f) k with Some c => rows_of c | None => [] end). set (Z' k := skipn (ch_here f) (Z k)).
      destruct (IH (o + ch_here f) A' Z' r1) as (r & Er & K1 & K2).
      { intros k Hk g Hg. apply HC; [auto|right; auto]. }
      { intros k Hk. destruct (HR k Hk) as (Q1 & Q2 & d & Q3 & Q4 & Q5 & HL). cbn in HL. fold (here l) in HL. destruct (D2 k Hk) as (d0 & c & d' & P1 & P2 & P3 & P4 & P5).
        destruct (HC k Hk f (or_introl eq_refl) N0) as (c' & C1 & C2 & C3). rewrite C1 in P2. injection P2 as <-.
        split; [rewrite D1; auto|]. unfold A', Z'. rewrite C1. split; [rewrite app_length, rows_len; lia|]. exists d'. rewrite <- app_assoc.
        split; [auto|]. split; [congruence|]. split; [auto|]. rewrite skipn_length. lia. }
      exists r. split; [auto|]. split; [congruence|]. intros k Hk. destruct (K2 k Hk) as (d & P1 & P2 & P3). exists d. split; [auto|]. split; [auto|].
      rewrite P3. unfold A', Z'. rewrite all_rows_cons. apply Nat.eqb_neq in N0. rewrite N0. rewrite <- !app_assoc. do 3 f_equal.
      apply skipn_add.
Qed.

Lemma load_ok f0 l fs0 : let fs := match fs0 with [] => dkeys (ch_data f0) | _ => fs0 end in
  fs <> [] -> split_ok f0 (f0 :: l) fs ->
  exists r, (do res <- alloc f0 (ch_total f0) fs [] ;; read_chunks (f0 :: l) 0 fs res) = Ok r /\ dkeys r = fs /\
    forall k, In k fs -> exists c, dget r k = Some c /\ rows_of c = all_rows (f0 :: l) k /\ forall c0, dget (ch_data f0) k = Some c0 -> flat c = flat c0.
Proof.
  intros fs HE (_ & HT & HZ & HN & HC). set (n := ch_total f0) in *.
  destruct (alloc_ok f0 n fs) with (res := @nil (string * col)) as (r0 & E0 & K0 & K1 & _); [|exact HN|cbn; auto|].
  { intros k Hk. destruct (HC k Hk) as (c & ? & _). exists c. auto. }
  rewrite E0. cbn [bind].
  set (fl k := match dget (ch_data f0) k with Some c => flat c | None => true end).
  set (Z k := match dget r0 k with Some d => rows_of d | None => [] end).
  assert (ZL : forall c, length (rows_of (zeros_like c n)) = n) by (intros [|]; cbn; rewrite ?map_length, ?repeat_length; reflexivity).
  destruct (reads_ok fs fl HN HE (f0 :: l) 0 (fun _ => []) Z r0) as (r & Er & D1 & D2).
  { intros k Hk f Hf Hh. destruct (HC k Hk) as (c0 & C1 & C2). destruct (C2 f Hf Hh) as (c & ? & ? & ?). exists c. unfold fl. rewrite C1. auto. }
  { intros k Hk. destruct (HC k Hk) as (c0 & C1 & C2). pose proof (K1 k Hk c0 C1) as E1. split; [rewrite K0; auto|]. split; [reflexivity|].
    exists (zeros_like c0 n). unfold fl, Z. rewrite E1, C1. split; [reflexivity|]. split; [destruct c0; reflexivity|]. split; [reflexivity|]. rewrite ZL, HT. lia. }
  exists r. split; [exact Er|]. split; [rewrite D1, K0; reflexivity|]. intros k Hk. destruct (D2 k Hk) as (d & P1 & P2 & P3). exists d. split; [auto|].
  split; [|intros c0 C0; rewrite P2; unfold fl; rewrite C0; reflexivity].
  rewrite P3. cbn [app]. destruct (HC k Hk) as (c0 & C1 & _). rewrite skipn_all2; [apply app_nil_r|]. unfold Z. rewrite (K1 k Hk c0 C1), ZL, HT. lia.
Qed.

Lemma c57 f0 l fs0 : let fs := match fs0 with [] => dkeys (ch_data f0) | _ => fs0 end in
  2 <= length fs -> split_ok f0 (f0 :: l) fs ->
  exists d, load_objects (f0 :: l) fs0 = Ok (LDict (ch_total f0) d) /\ dkeys d = fs /\
    forall k, In k fs -> exists c, dget d k = Some c /\ rows_of c = all_rows (f0 :: l) k /\ forall c0, dget (ch_data f0) k = Some c0 -> flat c = flat c0.
Proof.
  intros fs H2 HS. destruct (load_ok f0 l fs0) as (r & E & K1 & K2); fold fs; [intros Q; rewrite Q in H2; cbn in H2; lia|exact HS|].
  fold fs in E, K1, K2. exists r. split; [|auto]. unfold load_objects. destruct HS as (_ & _ & HZ & _). destruct (Nat.eqb_spec (ch_total f0) 0); [contradiction|].
  fold fs. destruct (alloc f0 (ch_total f0) fs []) as [a|]; [|discriminate]. cbn [bind] in *. rewrite E. cbn [bind].
  destruct fs as [|x [|y t]]; [cbn in H2; lia|cbn in H2; lia|reflexivity].
Qed.
Lemma c57_one f0 l k : split_ok f0 (f0 :: l) [k] ->
  exists c, load_objects (f0 :: l) [k] = Ok (LArray c) /\ rows_of c = all_rows (f0 :: l) k.
Proof.
  intros HS. destruct (load_ok f0 l [k]) as (r & E & K1 & K2); [discriminate|exact HS|]. destruct (K2 k (or_introl eq_refl)) as (c & C1 & C2 & _).
  exists c. split; [|auto]. unfold load_objects. destruct HS as (_ & _ & HZ & _). destruct (Nat.eqb_spec (ch_total f0) 0); [contradiction|].
  destruct (alloc f0 (ch_total f0) [k] []) as [a|]; [|discriminate]. cbn [bind] in *. rewrite E. cbn [bind]. unfold dfind. rewrite C1. reflexivity.
Qed.
Lemma c57_first f0 l fs k : ch_total f0 <> 0 -> In k fs -> dget (ch_data f0) k = None ->
  load_objects (f0 :: l) fs = Raise plain_exception.
Proof.
  intros HZ HI HD. unfold load_objects. destruct (Nat.eqb_spec (ch_total f0) 0); [contradiction|].
  assert (E : forall fs n res, In k fs -> alloc f0 n fs res = Raise plain_exception).
  { intros fs1. induction fs1 as [|j fs1 IH]; intros m res Hi; [contradiction|]. cbn [alloc]. destruct (dget (ch_data f0) j) eqn:Ej; [|reflexivity].
    apply IH. destruct Hi as [->|]; [congruence|auto]. }
  destruct fs; [contradiction|]. rewrite E by exact HI. reflexivity.
Qed.

(** * End to end *)
Lemma format_row asort ct a w of s : argsorts asort -> runnable ct a w of -> own_rows ct -> In s (todo ct a w) ->
  let w' := fst (format asort ct a w) in
  exists f g, w_file w' = Some f /\ zget (f_groups f) s = Some g /\ In s (map m_index (table w')) /\ cuts_stored g.
Proof.
  intros HA HR [O1 O2] Hs. destruct (format_ok asort ct a w of HA HR) as (h & G & gone' & E & HH & HT & _). rewrite E. cbn [fst w_file].
  destruct (HT s Hs) as (g & Eg & M). exists (set_groups h G), g. split; [reflexivity|]. split; [exact Eg|]. split; [|eapply made_cuts; eauto].
  pose proof (todo_in _ _ _ _ Hs) as Hi. apply O2 in Hi. unfold table. cbn [w_file set_groups f_table]. unfold head_file in HH. destruct (is_new w a).
  - destruct HH as (-> & _). exact Hi.
  - destruct HH as (f & t & _ & _ & -> & _). apply in_map_iff in Hi as (m & <- & Hm). apply in_map. apply merge_in. right. auto.
Qed.

Lemma firstn_app_exact {A} (l r : list A) k : firstn (length l + k) (l ++ r) = l ++ firstn k r.
Proof. rewrite firstn_app, firstn_all2 by lia. do 2 f_equal. lia. Qed.

Lemma c39_head asort ct a w of : other_fields ct a w = Ok of -> is_new w a = true ->
  let w' := format_crash asort ct a (length (head_steps ct a w)) w in
  table w' = ct_meta ct /\ forall s, group_of w' s = None.
Proof.
  intros HO HN. unfold format_crash, format_steps. rewrite HO. rewrite <- (Nat.add_0_r (length (head_steps ct a w))), firstn_app_exact. cbn [firstn].
  rewrite app_nil_r. destruct (head_ok ct a w (or_introl HN)) as (h & E & H). rewrite E. unfold head_file in H. rewrite HN in H. destruct H as (H1 & _ & H3).
  cbv zeta. unfold table, group_of. cbn. rewrite H1, H3. auto.
Qed.

Lemma c39_half asort ct a w of s r : argsorts asort -> runnable ct a w of -> todo ct a w = s :: r ->
  let w' := format_crash asort ct a (length (head_steps ct a w) + 2) w in
  group_of w' s = Some (mkG None [] None) /\
  forall ct' a', a_remake a' = false -> a_overwrite a' = false -> ~ In s (todo ct' a' w').
Proof.
  intros HA (HO & HF & HT & HN & HL & HH) ET. cbv zeta. unfold format_crash, format_steps. rewrite HO, firstn_app_exact, ET. cbn [flat_map].
  destruct (head_ok ct a w HH) as (h & Eh & Hh). rewrite (exec_app_ok _ _ _ _ Eh).
  assert (ES : exists l, snap_steps asort ct (ct_basic ct) of (a_clean a) s = Ok (OpDel s) :: Ok (OpGroup s) :: l).
  { destruct (HL s ltac:(rewrite ET; left; auto)) as (sub & n & E1 & E2).
    destruct (snap_ok asort ct (ct_basic ct) of (a_clean a) s sub n h (w_gone w) HA HT HF E1 E2) as (g & Eg & _). revert Eg.
    unfold snap_steps. destruct (bind _ _) as [[[cuts cols] others]|]; [|discriminate]. intros _. eexists. reflexivity. }
  destruct ES as [l ->]. cbn [app firstn exec apply_op in_file w_file bind set_groups f_groups].
  assert (EZ : zget (zdel (f_groups h) s) s = None) by (rewrite zget_del, Z.eqb_refl; reflexivity).
  rewrite EZ. cbn [bind fst]. set (w' := mkW _ _).
  assert (EG : group_of w' s = Some (mkG None [] None)).
  { unfold group_of, w'. cbn. rewrite zget_app, EZ. cbn. rewrite Z.eqb_refl. reflexivity. }
  split; [exact EG|]. intros ct' a' H1 H2 Q.
  assert (P : present w' s = true) by (unfold present; unfold group_of in EG; destruct (w_file w'); [rewrite EG; reflexivity|discriminate]).
  assert (EN : is_new w' a' = false).
  { unfold is_new, w'. cbn. rewrite H1. destruct (zdel (f_groups h) s); reflexivity. }
  apply (todo_iff ct' a' w' s EN) in Q as [_ [Q|Q]]; congruence.
Qed.

Lemma row_unique l a b : StronglySorted (fun a b => (m_index a < m_index b)%Z) l -> In a l -> In b l -> m_index a = m_index b -> a = b.
Proof.
  induction 1 as [|x l H IH F]; intros Ha Hb E; [contradiction|]. rewrite Forall_forall in F.
  destruct Ha as [<-|Ha], Hb as [<-|Hb]; auto; [specialize (F b Hb)|specialize (F a Ha)]; lia.
Qed.
Lemma c39_merge asort C h ct1 ct2 a1 a2 gone : argsorts asort -> tiles C h (ct_meta ct1) -> tiles C h (ct_meta ct2) ->
  (forall s, In s (ct_snaps ct1) -> ~ In s (ct_snaps ct2)) -> a_remake a2 = false ->
  good_history asort [(ct1, a1); (ct2, a2)] (mkW None gone) ->
  let w := run asort [(ct1, a1); (ct2, a2)] (mkW None gone) in
  exists m1 m2, In m1 (table w) /\ In m2 (table w) /\ m_index m1 <> m_index m2 /\ m_zmin m1 = 0%R /\ m_zmin m2 = 0%R.
Proof.
  intros HA T1 T2 HD HR HG w. pose proof (c39_history asort HA _ [] _ (c39_start gone) HG) as [_ H]. fold w in H.
  cbn in HG. destruct HG as ([S1 O1] & N1 & _ & ([S2 O2] & N2 & _)).
  assert (L : forall ct, tiles C h (ct_meta ct) -> (forall s, In s (ct_snaps ct) <-> In s (map m_index (ct_meta ct))) -> ct_snaps ct <> [] ->
     exists m, In m (ct_meta ct) /\ In (m_index m) (ct_snaps ct) /\ m_zmin m = 0%R).
  { intros ct (_ & T & _) O N. destruct (nth_error (ct_meta ct) (length (ct_meta ct) - 1)) as [m|] eqn:E.
    - exists m. pose proof (nth_error_In _ _ E). split; [auto|]. split; [apply O, in_map; auto|apply T; auto].
    - apply nth_error_None in E. destruct (ct_meta ct) eqn:Em; [|cbn in E; lia]. destruct (ct_snaps ct) as [|s r]; [contradiction N; reflexivity|].
      destruct (proj1 (O s) (or_introl eq_refl)). }
  destruct (L ct1 T1 O1 N1) as (m1 & I1 & J1 & Z1). destruct (L ct2 T2 O2 N2) as (m2 & I2 & J2 & Z2).
  exists m1, m2.
  assert (G1 : zget (fold_left spec_step [(ct1, a1); (ct2, a2)] []) (m_index m1) = Some ct1).
  { cbn [fold_left]. rewrite spec_step_get. cbv zeta. rewrite HR. assert (zmem (m_index m1) (ct_snaps ct2) = false).
    { destruct (zmem (m_index m1) (ct_snaps ct2)) eqn:E; [|reflexivity]. apply zmem_in in E. destruct (HD _ J1 E). }
    rewrite H0. cbn [andb]. rewrite spec_step_get. cbv zeta. rewrite (proj2 (zmem_in _ _) J1). destruct (a_remake a1); reflexivity. }
  assert (G2 : zget (fold_left spec_step [(ct1, a1); (ct2, a2)] []) (m_index m2) = Some ct2).
  { cbn [fold_left]. rewrite spec_step_get. cbv zeta. rewrite HR, (proj2 (zmem_in _ _) J2). cbn [andb]. rewrite spec_step_get. cbv zeta.
    assert (zmem (m_index m2) (ct_snaps ct1) = false).
    { destruct (zmem (m_index m2) (ct_snaps ct1)) eqn:E; [|reflexivity]. apply zmem_in in E. destruct (HD _ E J2). }
    rewrite H0. cbn [andb]. destruct (a_remake a1); reflexivity. }
  pose proof (H (m_index m1)) as H1. rewrite G1 in H1. destruct H1 as [(x & X1 & X2 & X3) _].
  pose proof (H (m_index m2)) as H2. rewrite G2 in H2. destruct H2 as [(y & Y1 & Y2 & Y3) _].
  rewrite (row_unique _ _ _ S1 X2 I1 X3) in X1. rewrite (row_unique _ _ _ S2 Y2 I2 Y3) in Y1.
  split; [auto|]. split; [auto|]. split; [|auto]. intros E. rewrite E in J1. apply (HD _ J1 J2).
Qed.

Lemma c39_number asort ct a w of : argsorts asort -> runnable ct a w of ->
  let w' := fst (format asort ct a w) in
  exists f, w_file w' = Some f /\
    (if is_new w a then f_number f = ct_number ct /\ table w' = ct_meta ct
     else f_number f = Some (Z.of_nat (length (table w')))).
Proof.
  intros HA HR. destruct (format_ok asort ct a w of HA HR) as (h & G & gone' & E & HH & _). rewrite E. cbn [fst w_file].
  eexists. split; [reflexivity|]. unfold table. cbn [w_file set_groups f_table f_number]. unfold head_file in HH. destruct (is_new w a).
  - destruct HH as (-> & -> & _). auto.
  - destruct HH as (f & t & _ & _ & -> & -> & _). reflexivity.
Qed.

(** * A small catalogue for examples *)
Definition demo_meta (s : Z) : meta := mkMeta s 0 0 0 0 0 0 0 0 0.
Definition demo (snaps : list Z) : catalog := mkCat snaps [("box_edge", 50%R)] (Some 100%Z) (map demo_meta snaps) (1/2)%R
  [("SubhaloMass", (fun x _ => x * Rpower 10 8)%R)]
  [("SubhaloMass", [mkFS "mass" "Msun" (-1)]); ("SubhaloPos", [mkFS "pos_x" "Mpc" (-1); mkFS "pos_y" "Mpc" (-1)])]
  [("SubhaloVmax", [mkFS "vmax" "km/s" 0])]
  [("SubhaloPhot", [mkFS "mag_u" "mag" 0; mkFS "none1" "" 0; mkFS "mag_b" "mag" 0])]
  (fun s _ => Ok ([("SubhaloMass", Col1 [1; 6; 3]%R); ("SubhaloPos", Col2 [[1; 2]; [3; 4]; [5; 6]]%R);
                   ("SubhaloVmax", Col1 [10; 30; 20]%R); ("SubhaloPhot", Col2 [[7; 0; 4]; [8; 0; 5]; [9; 0; 6]]%R)], 3)).
Definition demo_args : fargs := mkArgs false false false true.
Definition demo_others : fields := [("SubhaloVmax", [mkFS "vmax" "km/s" 0]); ("SubhaloPhot", [mkFS "mag_u" "mag" 0; mkFS "none1" "" 0; mkFS "mag_b" "mag" 0])].
Definition demo_others2 : fields := rev demo_others.
Lemma demo_fields snaps of : of = demo_others \/ of = demo_others2 -> fields_ok (ct_basic (demo snaps)) of.
Proof.
  intros [-> | ->]; (split; [|split; [|split]];
  [cbn; repeat (constructor; [cbn; intuition discriminate|]); constructor
  |cbn; intuition discriminate
  |cbn; auto
  |intros key specs H; cbn in H; intuition; match goal with E : (_, _) = _ |- _ => injection E as <- <- end; discriminate]).
Qed.
Lemma demo_loads snaps s fs of : of = demo_others \/ of = demo_others2 ->
  exists sub n, ct_load (demo snaps) s fs = Ok (sub, n) /\ catalogue_ok (ct_basic (demo snaps)) of sub n.
Proof.
  intros Hof. eexists _, 3. split; [reflexivity|]. right. intros key specs H.
  assert (H' : In (key, specs) (ct_basic (demo snaps) ++ demo_others)).
  { destruct Hof as [-> | ->]; [exact H|]. cbn in *. intuition. }
  cbn in H'. intuition; match goal with E : (_, _) = _ |- _ => injection E as <- <- end; eexists; (split; [reflexivity|]); (split; [reflexivity|]); cbn; eexists; try reflexivity; (split; [reflexivity|]);
    repeat constructor.
Qed.
Lemma demo_runnable snaps gone : NoDup snaps -> runnable (demo snaps) demo_args (mkW None gone) demo_others.
Proof.
  intros HN. split; [reflexivity|]. split; [apply demo_fields; auto|]. split; [cbn; repeat constructor; auto|]. split; [exact HN|].
  split; [|left; reflexivity]. intros s _. apply demo_loads. auto.
Qed.
Lemma demo_first asort s : argsorts asort -> exists g, fst (format asort (demo [s]) demo_args (mkW None [])) =
  mkW (Some (mkF [("box_edge", 50%R)] (Some 100%Z) (Some [demo_meta s]) [(s, g)])) [s] /\ map d_name (g_data g) = out_names (ct_basic (demo [s])) demo_others.
Proof.
  intros HA. destruct (demo_loads [s] s (dkeys (dmerge (ct_basic (demo [s])) demo_others)) demo_others (or_introl eq_refl)) as (sub & n & E1 & E2).
  destruct (snap_ok asort (demo [s]) (ct_basic (demo [s])) demo_others true s sub n (mkF [("box_edge", 50%R)] (Some 100%Z) (Some [demo_meta s]) []) [] HA
    ltac:(cbn; repeat constructor; auto) (demo_fields [s] _ (or_introl eq_refl)) E1 E2) as (g & Eg & (p & _ & Hn & _) & _).
  exists g. split; [|exact Hn]. unfold format, format_steps. change (other_fields (demo [s]) demo_args (mkW None [])) with (Ok demo_others).
  change (todo (demo [s]) demo_args (mkW None [])) with [s]. cbn [flat_map]. rewrite app_nil_r.
  assert (EH : exec (mkW None []) (head_steps (demo [s]) demo_args (mkW None [])) = (mkW (Some (mkF [("box_edge", 50%R)] (Some 100%Z) (Some [demo_meta s]) [])) [], Ok tt)) by reflexivity.
  rewrite (exec_app_ok _ _ _ _ EH). change (a_clean demo_args) with true. rewrite Eg. reflexivity.
Qed.
Lemma demo_second asort : argsorts asort -> let w := fst (format asort (demo [0%Z]) demo_args (mkW None [])) in
  runnable (demo [0%Z; 1%Z]) demo_args w demo_others2 /\ todo (demo [0%Z; 1%Z]) demo_args w = [1%Z].
Proof.
  intros HA w. destruct (demo_first asort 0%Z HA) as (g & Eg & Hn). fold w in Eg. rewrite Eg. clear w Eg.
  assert (ET : todo (demo [0%Z; 1%Z]) demo_args (mkW (Some (mkF [("box_edge", 50%R)] (Some 100%Z) (Some [demo_meta 0]) [(0%Z, g)])) [0%Z]) = [1%Z]) by reflexivity.
  split; [|exact ET].
  split; [|split; [apply demo_fields; auto|split; [cbn; repeat constructor; auto|split; [repeat constructor; cbn; intuition discriminate|split]]]].
  - unfold other_fields. cbn [is_new w_file f_groups a_remake demo_args orb first_group]. change (check _ _) with (Ok tt). cbn [bind].
    unfold data_names. rewrite Hn. destruct (g_cuts g); reflexivity.
  - intros s _. apply demo_loads. auto.
  - right. eexists _, _, _. repeat split.
Qed.
Lemma demo_own snaps : StronglySorted Z.lt snaps -> own_rows (demo snaps).
Proof.
  intros H. split.
  - cbn. induction H as [|a l H IH F]; cbn; constructor; [auto|]. apply Forall_forall. intros m Hm. apply in_map_iff in Hm as (b & <- & Hb).
    rewrite Forall_forall in F. cbn. auto.
  - intros s. cbn. rewrite map_map. cbn. rewrite map_id. reflexivity.
Qed.
