(** Lemmas about the light cone iterator. *)
From Verif Require Import Dict Util RealUtil LchModel LchSpec Lch.
From Coq Require Import Reals Lra.
Open Scope string_scope. Open Scope list_scope.

(** * The wrappers *)
Section Calls.
Context {S V : Type} (call : S -> S * exc V).
Lemma iter_call_ok : forall d d' vs, iter_call call d = (d', Ok vs) ->
  map fst d' = map fst d /\ map fst vs = map fst d /\
  forall i k s, nth_error d i = Some (k, s) -> exists s' v, call s = (s', Ok v) /\ nth_error d' i = Some (k, s') /\ nth_error vs i = Some (k, v).
Proof.
  induction d as [|[k s] d IH]; intros d' vs H; cbn [iter_call] in H.
  - injection H as <- <-. repeat split; auto. intros [|i] k s E; discriminate.
  - destruct (call s) as [s' [v|e]] eqn:E; [|discriminate]. destruct (iter_call call d) as [r' [vs'|e]] eqn:E'; [|discriminate].
    injection H as <- <-. destruct (IH _ _ eq_refl) as (A & B & C). cbn [map fst]. rewrite A, B. repeat split; auto.
    intros [|i] k' t; cbn [nth_error]; [|apply C]. intros X. injection X as <- <-. exists s', v. auto.
Qed.
Lemma iter_call_raise : forall d d' e, iter_call call d = (d', Raise e) ->
  exists pre pre' k s s' post, d = pre ++ (k, s) :: post /\ d' = pre' ++ (k, s') :: post /\ call s = (s', Raise e) /\
  (exists vs, iter_call call pre = (pre', Ok vs)).
Proof.
  induction d as [|[k s] d IH]; intros d' e H; cbn [iter_call] in H; [discriminate|].
  destruct (call s) as [s' [v|e']] eqn:E.
  - destruct (iter_call call d) as [r' [vs'|e']] eqn:E'; [discriminate|]. injection H as <- <-.
    destruct (IH _ _ eq_refl) as (pre & pre' & k1 & s1 & s1' & post & -> & -> & C & vs & P).
    exists ((k, s) :: pre), ((k, s') :: pre'), k1, s1, s1', post. repeat split; auto. exists ((k, v) :: vs). cbn [iter_call]. rewrite E, P. reflexivity.
  - injection H as <- <-. exists [], [], k, s, s', d. repeat split; auto. exists []. reflexivity.
Qed.
Lemma iter_call_all d : (forall k s, In (k, s) d -> exists s' v, call s = (s', Ok v)) -> exists d' vs, iter_call call d = (d', Ok vs).
Proof.
  induction d as [|[k s] d IH]; intros H; [exists [], []; reflexivity|]. cbn [iter_call].
  destruct (H k s (or_introl eq_refl)) as (s' & v & E). rewrite E. destruct IH as (d' & vs & E'); [intros; eapply H; right; eauto|].
  rewrite E'. eauto.
Qed.
End Calls.

(** * The constructor *)
Definition with_h (m : lch) (b : bool) : lch := mkLch (v_shape m) (v_zmin m) (v_zmax m) (v_geom m) (v_cosmo m) b.
Lemma zfind_set d k v j : zfind (zset d k v) j = if (j =? k)%Z then Some v else zfind d j.
Proof.
  induction d as [|[i w] d IH]; cbn [zset zfind]; [reflexivity|]. destruct (Z.eqb_spec k i) as [->|N]; cbn [zfind].
  - destruct (j =? i)%Z; reflexivity.
  - rewrite IH. destruct (Z.eqb_spec j i) as [->|N']; [|reflexivity]. destruct (Z.eqb_spec i k); [congruence|reflexivity].
Qed.
Lemma fold_find (f : Z -> option lch) hs : (forall n m, In (n, m) hs -> f n = Some m) -> forall d,
  (forall j m, zfind d j = Some m -> f j = Some m) -> forall j,
  (In j (map fst hs) \/ (exists m, zfind d j = Some m) -> zfind (fold_left (fun d nh => zset d (fst nh) (snd nh)) hs d) j = f j) /\
  (~ In j (map fst hs) -> zfind (fold_left (fun d nh => zset d (fst nh) (snd nh)) hs d) j = zfind d j).
Proof.
  induction hs as [|[n m] hs IH]; intros H d D j; cbn [fold_left map fst snd].
  - split; [|reflexivity]. intros [[]|[m E]]. rewrite E. symmetry. apply D, E.
  - assert (D' : forall j' m', zfind (zset d n m) j' = Some m' -> f j' = Some m').
    { intros j' m'. rewrite zfind_set. destruct (Z.eqb_spec j' n) as [->|N]; [|apply D]. intros X. injection X as <-. apply H. left. reflexivity. }
    destruct (IH (fun n0 m0 I => H n0 m0 (or_intror I)) (zset d n m) D' j) as [A B]. split.
    + intros C. apply A. rewrite zfind_set. destruct C as [[->|C]|C]; [right; rewrite Z.eqb_refl; eauto|left; auto|].
      right. destruct (j =? n)%Z; eauto.
    + intros C. rewrite B by (intros X; apply C; right; auto). rewrite zfind_set. destruct (Z.eqb_spec j n) as [->|N]; [exfalso; apply C; left; auto|reflexivity].
Qed.

Lemma same_attrs_ok a b t : same_attrs a b = Ok t -> (t = true <-> agree a b).
Proof.
  unfold same_attrs, agree. destruct (v_geom a) as [[u r]|]; [|discriminate]. destruct (v_geom b) as [[u' r']|]; [|discriminate].
  intros H. injection H as <-. rewrite !andb_true_iff, Nat.eqb_eq, !reqb_eq. split.
  - intros ((((A & B) & C) & D) & E). subst. auto.
  - intros (A & B & C & D). injection B as -> ->. auto.
Qed.
Lemma same_attrs_def a b : v_geom a <> None -> v_geom b <> None -> exists t, same_attrs a b = Ok t.
Proof. unfold same_attrs. destruct (v_geom a) as [[? ?]|], (v_geom b) as [[? ?]|]; try congruence. eauto. Qed.

Lemma mapM_ok {A B} (f : A -> exc B) l l' : mapM f l = Ok l' <-> Forall2 (fun a b => f a = Ok b) l l'.
Proof.
  split.
  - revert l'. induction l as [|a l IH]; intros l' H; cbn [mapM] in H.
    + injection H as <-. constructor.
    + destruct (f a) eqn:E; cbn [bind] in H; [|discriminate]. destruct (mapM f l) eqn:E'; cbn [bind] in H; [|discriminate].
      injection H as <-. constructor; auto.
  - induction 1 as [|a b l l' E F IH]; cbn [mapM]; [reflexivity|]. rewrite E, IH. reflexivity.
Qed.

Lemma iter_new_ok files numbers ih req it : iter_new files numbers ih req = Ok it ->
  li_numbers it = numbers /\ numbers <> [] /\
  (forall n, In n numbers -> exists m, stored files n m /\ v_geom m <> None /\ zfind (li_handlers it) n = Some (with_h m ih)) /\
  (li_consistent it = true <-> forall n m n' m', In n numbers -> In n' numbers -> stored files n m -> stored files n' m' -> agree m m') /\
  (req = true -> li_consistent it = true).
Proof.
  unfold iter_new. destruct (mapM _ numbers) as [hs|e] eqn:E; cbn [bind]; [|discriminate]. apply mapM_ok in E.
  assert (F1 : map fst hs = numbers).
  { clear -E. induction E as [|n [n' m] l l' H _ IH]; [reflexivity|]. destruct (zfind files n); [|discriminate]. injection H as <- <-. cbn [map fst]. congruence. }
  assert (F2 : forall n m, In (n, m) hs -> option_map (fun m => with_h m ih) (zfind files n) = Some m).
  { clear -E. induction E as [|n [n' m] l l' H _ IH]; intros n0 m0 []; [|auto]. injection H0 as <- <-. destruct (zfind files n) eqn:Z; [|discriminate]. injection H as <- <-. rewrite Z. reflexivity. }
  assert (F3 : forall n, In n numbers -> exists m, stored files n m /\ In (n, with_h m ih) hs).
  { clear -E. induction E as [|n [n' m] l l' H _ IH]; intros n0 []; [|destruct (IH _ H0) as (m0 & A & B); exists m0; split; [auto|right; auto]].
    subst. unfold stored. destruct (zfind files n0) eqn:Z; [|discriminate]. injection H as <- <-. eexists. split; [reflexivity|]. left. reflexivity. }
  destruct hs as [|[n0 ref] rest]; [discriminate|].
  destruct (v_geom ref) as [g|] eqn:G; cbn [bind]; [|discriminate].
  destruct (mapM (fun nh => same_attrs (snd nh) ref) rest) as [bs|e] eqn:E2; cbn [bind]; [|discriminate]. apply mapM_ok in E2.
  set (d := fold_left _ _ _).
  assert (Dn : forall n, In n numbers -> zfind d n = option_map (fun m => with_h m ih) (zfind files n)).
  { intros n I. unfold d. destruct (fold_find (fun n => option_map (fun m => with_h m ih) (zfind files n)) ((n0, ref) :: rest) F2 [] ltac:(discriminate) n) as [A _].
    apply A. left. rewrite F1. exact I. }
  assert (Geo : forall n m, In (n, m) rest -> v_geom m <> None).
  { clear -E2 G. induction E2 as [|[n1 m1] b l l' H _ IH]; intros n m []; [|eauto]. injection H0 as <- <-. intros X. unfold same_attrs in H. cbn [snd] in H. rewrite X in H. discriminate. }
  assert (All : forallb (fun b => b) bs = true <-> forall n m, In (n, m) ((n0, ref) :: rest) -> agree m ref).
  { clear -E2. assert (R : forallb (fun b => b) bs = true <-> forall n m, In (n, m) rest -> agree m ref).
    { induction E2 as [|[n1 m1] b l l' H _ IH]; cbn [forallb]; [split; [intros _ n m []|reflexivity]|].
      rewrite andb_true_iff, IH. pose proof (same_attrs_ok _ _ _ H) as S. cbn [snd] in S. rewrite S. split.
      - intros [A B] n m [X|X]; [injection X as <- <-; exact A|eauto].
      - intros A. split; [apply (A n1); left; reflexivity|]. intros n m X. apply (A n). right. exact X. }
    rewrite R. split; [|intros A n m X; apply (A n); right; exact X]. intros A n m [X|X]; [injection X as <- <-; repeat split|eauto]. }
  assert (All2 : forallb (fun b => b) bs = true <-> forall n m n' m', In n numbers -> In n' numbers -> stored files n m -> stored files n' m' -> agree m m').
  { rewrite All. split.
    - intros A n m n' m' I I' S S'. destruct (F3 n I) as (m1 & S1 & I1), (F3 n' I') as (m2 & S2 & I2). unfold stored in *.
      assert (m1 = m) by congruence. assert (m2 = m') by congruence. subst. pose proof (A _ _ I1) as (P1 & P2 & P3 & P4). pose proof (A _ _ I2) as (Q1 & Q2 & Q3 & Q4).
      cbn [with_h v_cosmo v_geom v_zmin v_zmax] in *. repeat split; congruence.
    - intros A n m I. pose proof (F2 n m I) as X. pose proof (F2 n0 ref (or_introl eq_refl)) as Y.
      destruct (zfind files n) as [m1|] eqn:S1; [|discriminate]. destruct (zfind files n0) as [m2|] eqn:S2; [|discriminate]. cbn [option_map] in *.
      injection X as <-. injection Y as <-. apply (A n m1 n0 m2); auto; [rewrite <- F1; apply (in_map fst) in I; exact I|rewrite <- F1; left; reflexivity]. }
  intros H.
  assert (C : li_numbers it = numbers /\ li_handlers it = d /\ li_consistent it = forallb (fun b => b) bs /\ (req = true -> li_consistent it = true)).
  { destruct (forallb (fun b => b) bs); [injection H as <-; repeat split; auto|]. destruct req; [discriminate|]. injection H as <-. repeat split; auto. }
  destruct C as (C1 & C2 & C3 & C4). split; [exact C1|]. split; [rewrite <- F1; discriminate|]. split; [|split; [|exact C4]].
  - intros n I. destruct (F3 n I) as (m & S & I2). exists m. split; [exact S|]. split.
    + destruct I2 as [X|X]; [injection X as _ X; intros Y; assert (v_geom ref = None) by (rewrite X; exact Y); congruence|]. apply (Geo n (with_h m ih) X).
    + rewrite C2, Dn by exact I. unfold stored in S. rewrite S. reflexivity.
  - rewrite C3. exact All2.
Qed.

(** it succeeds when it should *)
Lemma iter_new_succeeds files numbers ih req : numbers <> [] ->
  (forall n, In n numbers -> exists m, stored files n m /\ v_geom m <> None) ->
  (req = true -> forall n m n' m', In n numbers -> In n' numbers -> stored files n m -> stored files n' m' -> agree m m') ->
  exists it, iter_new files numbers ih req = Ok it.
Proof.
  intros NE S A. unfold iter_new.
  set (f := fun n => match zfind files n with Some m => Ok (n, mkLch (v_shape m) (v_zmin m) (v_zmax m) (v_geom m) (v_cosmo m) ih) | None => Raise ValueError end).
  assert (M : exists hs, mapM f numbers = Ok hs).
  { clear A NE. induction numbers as [|n l IH]; [exists []; reflexivity|]. destruct IH as [hs E]; [intros; apply S; right; auto|].
    destruct (S n (or_introl eq_refl)) as (m & St & _). cbn [mapM]. unfold f at 1. rewrite St. cbn [bind]. rewrite E. eexists. reflexivity. }
  destruct M as [hs E]. rewrite E. cbn [bind]. pose proof E as E'. apply mapM_ok in E'.
  assert (F : forall n m, In (n, m) hs -> exists m0, In n numbers /\ stored files n m0 /\ m = with_h m0 ih).
  { clear -E'. induction E' as [|n [n' m] l l' H _ IH]; intros n1 m1 []; [|destruct (IH _ _ H0) as (m0 & X & Y); exists m0; split; [right; auto|auto]].
    injection H0 as <- <-. unfold f in H. unfold stored. destruct (zfind files n) eqn:Z; [|discriminate]. injection H as <- <-. eexists. split; [left; reflexivity|]. split; [exact Z|reflexivity]. }
  destruct hs as [|[n0 ref] rest]; [inversion E'; subst; congruence|].
  destruct (F n0 ref (or_introl eq_refl)) as (m0 & I0 & S0 & R0).
  assert (G0 : v_geom ref <> None). { subst. destruct (S n0 I0) as (m' & S' & G'). unfold stored in *. replace m0 with m' by congruence. exact G'. }
  destruct (v_geom ref) as [g|] eqn:G; [|congruence]. cbn [bind].
  assert (M2 : exists bs, mapM (fun nh => same_attrs (snd nh) ref) rest = Ok bs).
  { assert (F' : forall n m, In (n, m) rest -> v_geom m <> None).
    { intros n m I. destruct (F n m (or_intror I)) as (m1 & I1 & S1 & ->). destruct (S n I1) as (m' & S' & G'). unfold stored in *. replace m1 with m' by congruence. exact G'. }
    clear -F' G. induction rest as [|[n m] l IH]; [exists []; reflexivity|]. destruct IH as [bs E]; [intros; eapply F'; right; eauto|].
    destruct (same_attrs_def m ref) as [t Et]; [eapply F'; left; reflexivity|congruence|]. cbn [mapM snd]. rewrite Et. cbn [bind]. rewrite E. eexists. reflexivity. }
  destruct M2 as [bs E2]. rewrite E2. cbn [bind]. destruct (forallb (fun b => b) bs) eqn:Fb; [eauto|]. destruct req; [|eauto].
  exfalso. apply mapM_ok in E2. apply Bool.not_true_iff_false in Fb. apply Fb. apply forallb_forall. intros b Ib.
  specialize (A eq_refl). clear -A E2 F Ib S0 I0 R0.
  assert (F' : forall n m, In (n, m) rest -> agree m ref).
  { intros n m I. destruct (F n m (or_intror I)) as (m1 & I1 & S1 & ->). subst ref. exact (A n m1 n0 m0 I1 I0 S1 S0). }
  clear A F. induction E2 as [|[n m] b' l l' H _ IH]; [destruct Ib|]. destruct Ib as [<-|Ib]; [|apply IH; auto; intros; eapply F'; right; eauto].
  apply (same_attrs_ok _ _ _ H). apply (F' n). left. reflexivity.
Qed.

(** * Volumes of the iterator *)
Lemma vol_agree cv hh a b z1 z2 sh an r ih : agree a b -> v_shape a = v_shape b -> v_inh a = v_inh b ->
  lc_volume cv hh a z1 z2 sh an r ih = lc_volume cv hh b z1 z2 sh an r ih.
Proof. intros (A & B & C & D) S I. destruct a, b. cbn in *. subst. reflexivity. Qed.

Lemma iter_vol_number cv hh files numbers ih req it z1 z2 sh an r h n m : iter_new files numbers ih req = Ok it -> In n numbers -> stored files n m ->
  iter_volume cv hh it z1 z2 sh an r h (Some n) = lc_volume cv hh (with_h m ih) z1 z2 sh an r h.
Proof.
  intros H I S. destruct (iter_new_ok _ _ _ _ _ H) as (A & _ & B & _). unfold iter_volume. rewrite A.
  replace (existsb (Z.eqb n) numbers) with true by (symmetry; apply existsb_exists; exists n; split; [auto|apply Z.eqb_refl]). cbn [bind].
  destruct (B n I) as (m' & S' & _ & F). unfold stored in *. replace m' with m in F by congruence. rewrite F. reflexivity.
Qed.
Lemma iter_vol_common cv hh files numbers ih it z1 z2 sh an r h n m : iter_new files numbers ih true = Ok it -> In n numbers -> stored files n m ->
  (forall n' m', In n' numbers -> stored files n' m' -> v_shape m' = v_shape m) ->
  iter_volume cv hh it z1 z2 sh an r h None = lc_volume cv hh (with_h m ih) z1 z2 sh an r h.
Proof.
  intros H I S Sh. destruct (iter_new_ok _ _ _ _ _ H) as (A & NE & B & C & D). unfold iter_volume. rewrite A, (D eq_refl).
  destruct numbers as [|n0 l]; [congruence|]. cbn [bind]. destruct (B n0 (or_introl eq_refl)) as (m' & S' & _ & F). rewrite F.
  apply vol_agree; [|apply (Sh n0 m'); [left; reflexivity|exact S']|reflexivity].
  destruct (proj1 C (D eq_refl) n0 m' n m (or_introl eq_refl) I S' S) as (P1 & P2 & P3 & P4). repeat split; assumption.
Qed.
