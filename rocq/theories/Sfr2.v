(** Lemmas for C85 and C86. *)
From Verif Require Import Dict Util RealUtil RelModel SfrModel SfrSpec.
From Coq Require Import Reals Lra Lia.
Open Scope string_scope. Open Scope list_scope.
Open Scope R_scope.

(** * C85 *)
Section Cache.
Context {V A : Type} (main : string) (make : A -> exc (V * V * V)).
Context (MAIN : main = "stellarmass.npy" \/ main = "lir.npy").
Notation files := (@files V).

Lemma main_ne : main <> "mass_axis.npy" /\ main <> "redshift_axis.npy".
Proof. destruct MAIN as [-> | ->]; split; discriminate. Qed.
Ltac look := unfold put; cbn [fst snd]; rewrite ?dget_dset.
Lemma names_eqb : String.eqb main "mass_axis.npy" = false /\ String.eqb main "redshift_axis.npy" = false
  /\ String.eqb "mass_axis.npy" main = false /\ String.eqb "redshift_axis.npy" main = false.
Proof. destruct main_ne. rewrite !String.eqb_neq. repeat split; auto. Qed.

Definition holds (fs : files) (now : option A) : Prop :=
  match now with
  | None => dget fs main = None
  | Some a => exists t, make a = Ok t /\ dget fs "mass_axis.npy" = Some (Some (fst (fst t)))
              /\ dget fs "redshift_axis.npy" = Some (Some (snd (fst t))) /\ dget fs main = Some (Some (snd t))
  end.
Lemma wrote (fs : files) t :
  let fs' := fold_left put (make_writes main t) fs in
  dget fs' "mass_axis.npy" = Some (Some (fst (fst t))) /\ dget fs' "redshift_axis.npy" = Some (Some (snd (fst t))) /\ dget fs' main = Some (Some (snd t)).
Proof.
  destruct t as [[a z] t]. destruct names_eqb as (A1 & A2 & A3 & A4). cbn [make_writes save app fold_left fst snd].
  look. rewrite A1, A2, A3, A4, !String.eqb_refl. cbn. auto.
Qed.
Lemma cut (fs : files) t k : (k <= 4)%nat -> dget (fold_left put (firstn k (make_writes main t)) fs) main = dget fs main.
Proof.
  intros K. destruct t as [[a z] t]. destruct names_eqb as (A1 & A2 & A3 & A4).
  do 5 (destruct k as [|k]; [cbn [make_writes save app firstn fold_left]; look; rewrite ?A1, ?A2; reflexivity|]). lia.
Qed.
Lemma load_holds fs now : holds fs now ->
  cache_load main fs = Ok (match now with None => None | Some a => match make a with Ok t => Some t | Raise _ => None end end).
Proof.
  unfold cache_load, exists_file. destruct now as [a|]; cbn [holds].
  - intros ([[x z] t] & E & M1 & M2 & M3). rewrite E, M3. unfold load_file. rewrite M1, M2, M3. reflexivity.
  - intros ->. reflexivity.
Qed.
Lemma init_holds fs now (comp remake : bool) a : holds fs now ->
  let now' := if fails make a then now else if remake then Some a else match now with Some b => Some b | None => if comp then Some a else None end in
  holds (fst (cache_init main make comp remake a fs)) now'.
Proof.
  intros H. unfold cache_init, cache_writes, fails.
  assert (EX : exists_file fs main = match now with Some _ => true | None => false end).
  { unfold exists_file. destruct now; cbn in H; [destruct H as (t & _ & _ & _ & ->)|rewrite H]; reflexivity. }
  rewrite EX. destruct (make a) as [t|e] eqn:E.
  - cbn [bind]. destruct remake; cbn [orb].
    + cbn [fst holds]. exists t. split; [exact E|]. apply wrote.
    + destruct now as [b|]; cbn [negb]; rewrite ?andb_false_r, ?andb_true_r; [exact H|].
      destruct comp; [|exact H]. exists t. split; [exact E|]. apply wrote.
  - cbn [bind]. destruct (remake || comp && negb _); exact H.
Qed.
Lemma crash_holds fs comp remake a k : holds fs None -> (k <= 4)%nat -> holds (cache_crash main make comp remake a k fs) None.
Proof.
  intros H K. unfold cache_crash, cache_writes. destruct (remake || _); [|cbn; rewrite firstn_nil; exact H].
  destruct (make a) as [t|e]; cbn [bind]; [|exact H]. cbn. rewrite cut; auto.
Qed.
Lemma history h : forall fs now, holds fs now -> harmless (fails make) h now -> holds (fold_left (run main make) h fs) (held (fails make) h now).
Proof.
  induction h as [|e h IH]; intros fs now H S; [exact H|]. cbn [fold_left held harmless] in *. destruct e as [c r a|c r a k].
  - apply IH; [|exact S]. apply init_holds. exact H.
  - destruct S as (-> & K & S). apply IH; [|exact S]. apply crash_holds; auto.
Qed.
(** what a constructor call gives *)
Lemma init_result fs now (comp remake : bool) a : holds fs now ->
  snd (cache_init main make comp remake a fs) =
    if remake || (comp && match now with None => true | Some _ => false end)
    then match make a with Ok t => Ok (Some t) | Raise e => Raise e end
    else Ok (match now with None => None | Some b => match make b with Ok t => Some t | Raise _ => None end end).
Proof.
  intros H. unfold cache_init, cache_writes.
  assert (EX : exists_file fs main = match now with Some _ => true | None => false end).
  { unfold exists_file. destruct now; cbn in H; [destruct H as (t & _ & _ & _ & ->)|rewrite H]; reflexivity. }
  rewrite EX. replace (negb match now with Some _ => true | None => false end) with (match now with None => true | Some _ => false end) by (destruct now; reflexivity).
  destruct (remake || _).
  - destruct (make a) as [t|e] eqn:E; cbn [bind snd]; [|reflexivity].
    rewrite (load_holds _ (Some a)); [rewrite E; reflexivity|]. exists t. split; [exact E|]. apply wrote.
  - cbn [snd fold_left]. apply load_holds. exact H.
Qed.
(** an interrupted remake *)
Lemma remake_mixed fs a b c t u k : holds fs (Some a) -> make a = Ok t -> make b = Ok u -> 
  let fs' := cache_crash main make c true b k fs in
  (k = 2%nat \/ k = 4%nat -> cache_load main fs' = Ok (Some (fst (fst u), (if k =? 2 then snd (fst t) else snd (fst u))%nat, snd t)))
  /\ (k = 1%nat \/ k = 3%nat \/ k = 5%nat -> cache_load main fs' = Raise (UserExn 1)).
Proof.
  intros (t' & E & M1 & M2 & M3) EA EB. assert (t' = t) by congruence. subst t'.
  unfold cache_crash, cache_writes. cbn [orb]. rewrite EB. cbn [bind].
  destruct u as [[ua uz] ut]. destruct names_eqb as (A1 & A2 & A3 & A4).
  split.
  - intros [-> | ->]; cbn [make_writes save app firstn fold_left Nat.eqb fst snd];
      unfold cache_load, exists_file, load_file; look; rewrite A1, ?A2, M3; cbn; rewrite ?M2; reflexivity.
  - intros [->|[-> | ->]]; cbn [make_writes save app firstn fold_left];
      unfold cache_load, exists_file, load_file; look; rewrite ?A1, ?A2, ?A3, ?A4, ?String.eqb_refl, ?M3; cbn; rewrite ?M3; reflexivity.
Qed.
(** a first run interrupted while the table is written *)
Lemma torn fs a t : dget fs main = None -> make a = Ok t ->
  let fs' := cache_crash main make true false a 5 fs in
  forall comp b, cache_init main make comp false b fs' = (fs', Raise (UserExn 1)).
Proof.
  intros N E fs' comp b. unfold fs', cache_crash, cache_writes, exists_file. cbn [orb andb]. rewrite N. cbn [negb]. rewrite E. cbn [bind].
  destruct t as [[ta tz] t]. destruct names_eqb as (A1 & A2 & A3 & A4).
  cbn [make_writes save app firstn fold_left]. unfold cache_init, cache_writes, exists_file.
  look. rewrite String.eqb_refl. cbn [negb]. rewrite andb_false_r. cbn [orb fold_left].
  unfold cache_load, exists_file, load_file. look. rewrite ?A1, ?A2, ?A3, ?A4, String.eqb_refl. reflexivity.
Qed.
End Cache.

(** * C86 *)
Lemma missing_ok x : is_missing x = true <-> missing x.
Proof.
  unfold is_missing, missing. rewrite rleb_le. split.
  - intros H. pose proof (Rle_abs (x + 1000)). pose proof (Rle_abs (- (x + 1000))) as Q. rewrite Rabs_Ropp in Q. lra.
  - intros H. apply Rabs_le. lra.
Qed.
Lemma missing_no x : is_missing x = false <-> ~ missing x.
Proof. rewrite <- missing_ok. destruct (is_missing x); split; congruence. Qed.
Lemma filter_last l : rev (filter (fun x => negb (is_missing x)) l) = nil /\ (forall x, In x l -> missing x)
  \/ exists v r', rev (filter (fun x => negb (is_missing x)) l) = v :: r' /\ last_valid l v.
Proof.
  induction l as [|x l IH] using rev_ind; [left; split; [reflexivity|intros ? []]|].
  rewrite filter_app. cbn [filter]. destruct (is_missing x) eqn:E; cbn [negb].
  - apply missing_ok in E. rewrite app_nil_r. destruct IH as [(A & B)|(v & r' & A & (p & q & -> & N & Q))].
    + left. split; [exact A|]. intros y Y. apply in_app_or in Y. destruct Y as [Y|[<-|[]]]; auto.
    + right. exists v, r'. split; [exact A|]. exists p, (q ++ x :: nil). split; [rewrite <- app_assoc; reflexivity|]. split; [exact N|].
      intros y Y. apply in_app_or in Y. destruct Y as [Y|[<-|[]]]; auto.
  - right. apply missing_no in E. rewrite rev_app_distr. cbn [rev app]. exists x. eexists. split; [reflexivity|].
    exists l, nil. split; [reflexivity|]. split; [exact E|]. intros y [].
Qed.
Lemma fill_ok col :
  (exists v out, last_valid col v /\ fill_column col = Ok out /\ Forall2 (filled v) col out)
  \/ ((forall x, In x col -> missing x) /\ fill_column col = Raise IndexError).
Proof.
  unfold fill_column. destruct (filter_last col) as [(A & B)|(v & r' & A & L)]; rewrite A; [right; auto|].
  left. exists v. eexists. split; [exact L|]. split; [reflexivity|].
  clear A L r'. induction col as [|x col IH]; cbn; constructor; auto.
  unfold filled. destruct (is_missing x) eqn:E; [left; apply missing_ok in E|right; apply missing_no in E]; auto.
Qed.

Lemma b13_fresh {V} (s m a z : V) : b13_init (Ok (s, m, a, z)) nil = (fst (b13_init (Ok (s, m, a, z)) nil), Ok (s, m, a, z))
  /\ forall make, b13_init make (fst (b13_init (Ok (s, m, a, z)) nil)) = (fst (b13_init (Ok (s, m, a, z)) nil), Ok (s, m, a, z)).
Proof. split; [reflexivity|]. intros make. reflexivity. Qed.
Lemma b13_broken {V} (s m a z : V) k : (1 <= k <= 7)%nat ->
  let fs := b13_crash (Ok (s, m, a, z)) k nil in
  exists e, (e = OSError \/ e = UserExn 1) /\ forall make, b13_init make fs = (fs, Raise e).
Proof.
  intros K. do 8 (destruct k as [|k]; [try lia; eexists; (split; [|intros make; reflexivity]); auto|]). lia.
Qed.
Lemma b13_safe {V} (s m a z : V) k : (k = 0 \/ 8 <= k)%nat ->
  snd (b13_init (Ok (s, m, a, z)) (b13_crash (Ok (s, m, a, z)) k nil)) = Ok (s, m, a, z).
Proof.
  intros [->|K]; [reflexivity|]. do 8 (destruct k as [|k]; [lia|]). unfold b13_crash, b13_writes. cbn. rewrite firstn_nil. reflexivity.
Qed.

Lemma uinsert_in x l : forall y, In y (uinsert x l) <-> y = x \/ In y l.
Proof.
  induction l as [|a l IH]; intros y; cbn [uinsert]; [cbn; intuition|].
  destruct (rltb x a); [cbn; intuition|]. destruct (reqb x a) eqn:E.
  - apply reqb_eq in E. subst. cbn. intuition.
  - cbn [In]. rewrite IH. intuition.
Qed.
Lemma uinsert_sorted x l : Sorted.StronglySorted Rlt l -> Sorted.StronglySorted Rlt (uinsert x l).
Proof.
  induction l as [|a l IH]; cbn [uinsert]; intros H; [constructor; constructor|].
  inversion H as [|? ? H1 H2]; subst. destruct (rltb x a) eqn:E.
  - apply rltb_lt in E. constructor; [exact H|]. constructor; [exact E|].
    rewrite Forall_forall in *. intros y Y. specialize (H2 y Y). lra.
  - apply rltb_ge in E. destruct (reqb x a) eqn:Q; [exact H|]. apply reqb_ne in Q.
    constructor; [apply IH; exact H1|]. rewrite Forall_forall in *. intros y Y. apply uinsert_in in Y. destruct Y as [->|Y]; [lra|auto].
Qed.
Lemma unique_ok l : Sorted.StronglySorted Rlt (unique l) /\ forall y, In y (unique l) <-> In y l.
Proof.
  induction l as [|a l (S1 & S2)]; cbn [unique fold_right]; [split; [constructor|tauto]|].
  split; [apply uinsert_sorted; exact S1|]. intros y. rewrite uinsert_in, S2. cbn. intuition.
Qed.
Lemma filter_one {T} (f : T -> bool) l r : filter f l = r :: nil <-> exists p q, l = p ++ r :: q /\ f r = true /\ forall s, In s (p ++ q) -> f s = false.
Proof.
  split.
  - induction l as [|a l IH]; cbn [filter]; [discriminate|]. destruct (f a) eqn:E; intros H.
    + injection H as -> H. exists nil, l. split; [reflexivity|]. split; [exact E|]. cbn [app]. intros s S.
      destruct (f s) eqn:F; [|reflexivity]. assert (X : In s (filter f l)) by (apply filter_In; auto). rewrite H in X. destruct X.
    + destruct (IH H) as (p & q & -> & A & B). exists (a :: p), q. split; [reflexivity|]. split; [exact A|].
      intros s [<-|S]; auto.
  - intros (p & q & -> & A & B). rewrite filter_app. cbn [filter]. rewrite A.
    assert (N : forall l, (forall s, In s l -> f s = false) -> filter f l = nil).
    { induction l as [|a l IH]; intros H; cbn; [reflexivity|]. rewrite (H a) by (left; reflexivity). apply IH. intros s S. apply H. right. exact S. }
    rewrite !N; [reflexivity| |]; intros s S; apply B; apply in_or_app; auto.
Qed.
Lemma entry_ok f rows m z v : entry f rows m z = Ok v <-> exists r, only m z rows r /\ v = f r.
Proof.
  assert (P : forall r, (reqb (b_m r) m && reqb (b_z r) z = true) <-> (b_m r = m /\ b_z r = z)).
  { intros r. rewrite andb_true_iff, !reqb_eq. tauto. }
  assert (Q : forall r, (reqb (b_m r) m && reqb (b_z r) z = false) <-> ~ (b_m r = m /\ b_z r = z)).
  { intros r. rewrite <- P. destruct (_ && _); split; congruence. }
  unfold entry. destruct (filter _ rows) as [|r [|r2 l]] eqn:E.
  - split; [discriminate|]. intros (r & (p & q & -> & A & B & C) & _). exfalso.
    assert (X : In r (filter (fun r => reqb (b_m r) m && reqb (b_z r) z) (p ++ r :: q))).
    { apply filter_In. split; [apply in_or_app; right; left; reflexivity|]. apply P. auto. }
    rewrite E in X. destruct X.
  - pose proof E as E'. rewrite filter_one in E'. destruct E' as (p & q & -> & A & B). split.
    + intros H. injection H as <-. exists r. split; [|reflexivity]. exists p, q. split; [reflexivity|]. apply P in A.
      destruct A as (A1 & A2). split; [exact A1|]. split; [exact A2|]. intros s S. apply Q. auto.
    + intros (r' & (p' & q' & E2 & A1 & A2 & B') & ->). f_equal.
      assert (X : filter (fun r => reqb (b_m r) m && reqb (b_z r) z) (p ++ r :: q) = r' :: nil).
      { rewrite filter_one. exists p', q'. split; [exact E2|]. split; [apply P; auto|]. intros s S. apply Q. auto. }
      rewrite E in X. injection X as ->. reflexivity.
  - split; [discriminate|]. intros (r' & (p' & q' & E2 & A1 & A2 & B') & _). exfalso.
    assert (X : filter (fun r => reqb (b_m r) m && reqb (b_z r) z) rows = r' :: nil).
    { rewrite filter_one. exists p', q'. split; [exact E2|]. split; [apply P; auto|]. intros s S. apply Q. auto. }
    rewrite E in X. discriminate X.
Qed.
Lemma mapM_F2 {T U} (f : T -> exc U) l : forall r, mapM f l = Ok r -> Forall2 (fun x y => f x = Ok y) l r.
Proof.
  induction l as [|a l IH]; intros r H; cbn in H; [injection H as <-; constructor|].
  destruct (f a) as [y|] eqn:E; [|discriminate]. cbn in H. destruct (mapM f l) as [ys|]; [|discriminate]. injection H as <-. constructor; auto.
Qed.
Lemma F2_imp {T U} (P Q : T -> U -> Prop) l r : (forall x y, P x y -> Q x y) -> Forall2 P l r -> Forall2 Q l r.
Proof. intros H F. induction F; constructor; auto. Qed.
Lemma F2_nth {T U} (P : T -> U -> Prop) l r i x : Forall2 P l r -> nth_error l i = Some x -> exists y, nth_error r i = Some y /\ P x y.
Proof. intros F. revert i. induction F as [|a b l r H F IH]; intros [|i] E; cbn in *; try discriminate; [injection E as <-; eauto|auto]. Qed.
(** the columns of one redshift *)
Definition column_ok (rows : list brow) (ms : list R) (z : R) (s t : list R) : Prop :=
  exists col v, Forall2 (fun m x => exists r, only m z rows r /\ x = b_sfr r) ms col /\ last_valid col v
    /\ Forall2 (fun x y => exists w, filled v x w /\ y = Rpower 10 w) col s
    /\ Forall2 (fun m x => exists r, only m z rows r /\ x = b_star r) ms t.
Lemma F2_map_r {T U W} (P : T -> W -> Prop) (g : U -> W) l r : Forall2 (fun x y => P x (g y)) l r -> Forall2 P l (map g r).
Proof. intros F. induction F; cbn; constructor; auto. Qed.
Lemma spline_ok rows s t ms zs : spline_tables rows = Ok (s, t, ms, zs) ->
  ms = unique (map b_m rows) /\ zs = unique (map b_z rows) /\ length s = length zs /\ length t = length zs
  /\ forall j z, nth_error zs j = Some z -> exists cs ct, nth_error s j = Some cs /\ nth_error t j = Some ct /\ column_ok rows ms z cs ct.
Proof.
  unfold spline_tables. set (zz := unique (map b_z rows)). set (mm := unique (map b_m rows)).
  destruct (mapM (fun z => mapM (fun m => entry b_sfr rows m z) mm) zz) as [s0|] eqn:E1; cbn [bind]; [|discriminate].
  destruct (mapM (fun z => mapM (fun m => entry b_star rows m z) mm) zz) as [t0|] eqn:E2; cbn [bind]; [|discriminate].
  destruct (mapM fill_column s0) as [s1|] eqn:E3; cbn [bind]; [|discriminate].
  intros H. injection H as <- <- <- <-. split; [reflexivity|]. split; [reflexivity|].
  pose proof (mapM_ok_length _ _ _ E1). pose proof (mapM_ok_length _ _ _ E2). pose proof (mapM_ok_length _ _ _ E3).
  split; [rewrite map_length; congruence|]. split; [congruence|].
  intros j z Z. destruct (F2_nth _ _ _ j z (mapM_F2 _ _ _ E1) Z) as (c & C & F1).
  destruct (F2_nth _ _ _ j z (mapM_F2 _ _ _ E2) Z) as (d & D & F2).
  destruct (F2_nth _ _ _ j c (mapM_F2 _ _ _ E3) C) as (e & E & F3).
  exists (map p10 e), d. split; [rewrite nth_error_map, E; reflexivity|]. split; [exact D|].
  destruct (fill_ok c) as [(v & o & V & W & X)|(_ & W)]; [|congruence]. assert (o = e) by congruence. subst o.
  exists c, v. split; [|split; [exact V|split]].
  - apply mapM_F2 in F1. revert F1. apply F2_imp. intros m x. apply entry_ok.
  - apply F2_map_r. revert X. apply F2_imp. intros x y F. exists y. split; [exact F|reflexivity].
  - apply mapM_F2 in F2. revert F2. apply F2_imp. intros m x. apply entry_ok.
Qed.
Lemma spline_succeeds rows :
  (forall m z, In m (map b_m rows) -> In z (map b_z rows) -> exists r, only m z rows r) ->
  (forall z, In z (map b_z rows) -> exists r, In r rows /\ b_z r = z /\ ~ missing (b_sfr r)) ->
  exists res, spline_tables rows = Ok res.
Proof.
  intros C V. unfold spline_tables.
  assert (EN : forall f m z, In m (unique (map b_m rows)) -> In z (unique (map b_z rows)) -> exists y, entry f rows m z = Ok y).
  { intros f m z M Z. apply (proj2 (unique_ok (map b_m rows))) in M. apply (proj2 (unique_ok (map b_z rows))) in Z. destruct (C m z M Z) as (r & O).
    exists (f r). apply entry_ok. eauto. }
  destruct (mapM_all_ok (fun z => mapM (fun m => entry b_sfr rows m z) (unique (map b_m rows))) (unique (map b_z rows))) as (s0 & E1).
  { intros z Z. apply mapM_all_ok. intros m M. auto. }
  destruct (mapM_all_ok (fun z => mapM (fun m => entry b_star rows m z) (unique (map b_m rows))) (unique (map b_z rows))) as (t0 & E2).
  { intros z Z. apply mapM_all_ok. intros m M. auto. }
  rewrite E1. cbn [bind]. rewrite E2. cbn [bind].
  destruct (mapM_all_ok fill_column s0) as (s1 & E3); [|rewrite E3; cbn [bind]; eauto].
  intros c CI. apply In_nth_error in CI. destruct CI as (j & J).
  assert (L : (j < length (unique (map b_z rows)))%nat).
  { rewrite <- (mapM_ok_length _ _ _ E1). apply nth_error_Some. congruence. }
  destruct (nth_error (unique (map b_z rows)) j) as [z|] eqn:Z; [|apply nth_error_None in Z; lia].
  destruct (F2_nth _ _ _ j z (mapM_F2 _ _ _ E1) Z) as (c' & C' & F1). assert (c' = c) by congruence. subst c'.
  destruct (fill_ok c) as [(v & o & _ & W & _)|(ALL & _)]; [eauto|]. exfalso.
  apply nth_error_In in Z. apply (proj2 (unique_ok (map b_z rows))) in Z. destruct (V z Z) as (r & R1 & R2 & R3).
  assert (M : In (b_m r) (unique (map b_m rows))) by (apply (proj2 (unique_ok _)), in_map; exact R1).
  apply In_nth_error in M. destruct M as (i & I). apply mapM_F2 in F1. destruct (F2_nth _ _ _ i _ F1 I) as (y & Y & EY).
  apply entry_ok in EY. destruct EY as (r' & (p & q & PQ & A1 & A2 & B) & ->).
  assert (r' = r).
  { rewrite PQ in R1. apply in_app_or in R1. destruct R1 as [R1|[R1|R1]]; [|exact R1|];
      exfalso; apply (B r); auto; apply in_or_app; auto. }
  subst r'. apply R3, ALL. exact (nth_error_In _ _ Y).
Qed.
Lemma spline_pair rows m z : In m (map b_m rows) -> In z (map b_z rows) -> (forall r, ~ only m z rows r) -> spline_tables rows = Raise ValueError.
Proof.
  intros M Z N.
  assert (EN : forall f m z e, entry f rows m z = Raise e -> e = ValueError).
  { intros f m' z' e. unfold entry. destruct (filter _ rows) as [|r [|]]; intros H; congruence. }
  assert (RM : forall {T U} (f : T -> exc U) l e, (forall x e', f x = Raise e' -> e' = ValueError) -> mapM f l = Raise e -> e = ValueError).
  { intros T U f l. induction l as [|a l IH]; intros e F H; cbn in H; [discriminate|].
    destruct (f a) eqn:E; cbn in H; [|injection H as <-; eauto]. destruct (mapM f l) eqn:E2; cbn in H; [discriminate|]. injection H as <-. eauto. }
  unfold spline_tables. destruct (mapM _ (unique (map b_z rows))) as [s0|e] eqn:E1.
  - exfalso. apply (proj2 (unique_ok (map b_z rows))) in Z. apply (proj2 (unique_ok (map b_m rows))) in M.
    apply In_nth_error in Z. destruct Z as (j & Z). destruct (F2_nth _ _ _ j z (mapM_F2 _ _ _ E1) Z) as (c & _ & F1).
    apply In_nth_error in M. destruct M as (i & I). destruct (F2_nth _ _ _ i _ (mapM_F2 _ _ _ F1) I) as (y & _ & EY).
    apply entry_ok in EY. destruct EY as (r & O & _). exact (N r O).
  - cbn [bind]. f_equal. eapply RM; [|exact E1]. intros x e' H. eapply RM; [|exact H]. intros y e'' H'. eapply EN. exact H'.
Qed.
