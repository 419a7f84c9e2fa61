(** Lemmas for C88 and C89: the Schechter distributions. *)
From Verif Require Import Util RealUtil AmModel AmSpec Am DistModel DistSpec Dist.
From Coq Require Import Reals Lra Lia.
From Coquelicot Require Import Coquelicot.
Open Scope R_scope.

(** * One value *)
Section One.
Context (F : special) (HF : scipy_special F).
Definition sf (x0 : R) (cs : list (R * R)) (x : R) : R :=
  fold_right (fun c s => snd c * Rpower (x / x0) (fst c) * exp (- (x / x0)) / x0 + s) 0 cs.
Definition li (x0 : R) (cs : list (R * R)) (x : R) : R :=
  total (map (fun c => snd c * uppergammamod F (fst c + 1) (x / x0)) cs).
Lemma sf_cont x0 cs : 0 < x0 -> cont (sf x0 cs).
Proof.
  intros P x X. induction cs as [|(al, ph) cs IH]; cbn [sf fold_right].
  - apply continuous_const.
  - apply (@continuous_plus R_UniformSpace R_AbsRing R_NormedModule (fun x => snd (al, ph) * Rpower (x / x0) (fst (al, ph)) * exp (- (x / x0)) / x0) (sf x0 cs)); [|exact IH].
    apply (@ex_derive_continuous R_AbsRing R_NormedModule). unfold Rpower. auto_derive. apply Rdiv_lt_0_compat; lra.
Qed.
Lemma li_derive x0 cs : 0 < x0 -> (forall x, 0 < x -> is_derive (li x0 cs) x (- sf x0 cs x)) /\ is_lim (li x0 cs) p_infty 0.
Proof.
  intros P. induction cs as [|(al, ph) cs (ID & IL)].
  - split.
    + intros x X. apply (is_derive_ext (fun _ => 0)); [reflexivity|]. replace (- sf x0 nil x) with 0 by (unfold sf; cbn [fold_right]; ring).
      apply (@is_derive_const R_AbsRing R_NormedModule).
    + apply (is_lim_ext (fun _ => 0)); [reflexivity|apply is_lim_const].
  - destruct (ugamma_ok F (al + 1) HF) as (D & L). split.
    + intros x X. cbn [sf fold_right fst snd]. fold (sf x0 cs x).
      apply (is_derive_ext (fun x => ph * uppergammamod F (al + 1) (x / x0) + li x0 cs x)); [reflexivity|].
      replace (- (ph * Rpower (x / x0) al * exp (- (x / x0)) / x0 + sf x0 cs x))
        with (ph * (/ x0 * (- kern (al + 1) (x / x0))) + - sf x0 cs x).
      * apply (@is_derive_plus R_AbsRing R_NormedModule); [|apply ID; auto]. apply is_derive_scal.
        apply (is_derive_comp (uppergammamod F (al + 1)) (fun x => x / x0)); [apply D, Rdiv_lt_0_compat; auto|].
        auto_derive; [trivial|]. field. lra.
      * unfold kern. replace (al + 1 - 1) with al by ring. field. lra.
    + apply (is_lim_ext (fun x => ph * uppergammamod F (al + 1) (x / x0) + li x0 cs x)); [reflexivity|].
      eapply is_lim_plus; [|exact IL|].
      * apply is_lim_scal_l. apply (is_lim_comp (uppergammamod F (al + 1)) (fun x => x / x0) p_infty 0 p_infty); [exact L| |exists 0; discriminate].
        apply (is_lim_ext (fun x => / x0 * x)); [intros; exact (Rmult_comm _ _)|].
        replace p_infty with (Rbar_mult (/ x0) p_infty) at 2; [apply is_lim_scal_l, is_lim_id|].
        pose proof (Rinv_0_lt_compat x0 P). cbn. destruct (Rle_dec 0 (/ x0)) as [Q|Q]; [|lra]. destruct (Rle_lt_or_eq_dec _ _ Q); [reflexivity|lra].
      * unfold is_Rbar_plus. cbn. f_equal. f_equal. ring.
Qed.
Lemma li_above x0 cs x : 0 < x0 -> 0 < x -> integral_above (sf x0 cs) x (li x0 cs x).
Proof. intros P. revert x. apply above_derive; [apply sf_cont, P|apply li_derive, P]. Qed.
Lemma li_RInt x0 cs x y : 0 < x0 -> 0 < x -> 0 < y -> li x0 cs x - li x0 cs y = RInt (sf x0 cs) x y.
Proof.
  intros P X Y. pose proof (proj1 (above_lim _ _ _ (sf_cont x0 cs P) X) (li_above x0 cs x P X)) as A.
  pose proof (proj1 (above_lim _ _ _ (sf_cont x0 cs P) Y) (li_above x0 cs y P Y)) as B.
  assert (B2 : is_lim (fun z => RInt (sf x0 cs) y z) p_infty (li x0 cs x - RInt (sf x0 cs) x y)).
  { apply (is_lim_ext_loc (fun z => RInt (sf x0 cs) x z - RInt (sf x0 cs) x y)).
    - exists 0. intros z Z. rewrite <- (chasles (sf x0 cs) x y z (sf_cont x0 cs P) X Y Z). ring.
    - eapply is_lim_minus; [exact A|apply is_lim_const|]. reflexivity. }
  apply is_lim_unique in B. apply is_lim_unique in B2. rewrite B in B2. injection B2. lra.
Qed.
Lemma sf_pos x0 cs x : 0 < x0 -> (forall c, In c cs -> 0 <= snd c) -> (exists c, In c cs /\ 0 < snd c) -> 0 < sf x0 cs x.
Proof.
  intros P N (c & C & Q).
  assert (G : forall l, (forall c, In c l -> 0 <= snd c) -> 0 <= sf x0 l x).
  { induction l as [|d l IH]; intros H; cbn [sf fold_right]; [lra|]. fold (sf x0 l x).
    assert (0 <= snd d * Rpower (x / x0) (fst d) * exp (- (x / x0)) / x0).
    { apply Rdiv_le_0_compat; [|auto]. apply Rmult_le_pos; [apply Rmult_le_pos; [apply H; left; auto|]|]; left; apply exp_pos. }
    pose proof (IH (fun e E => H e (or_intror E))). lra. }
  induction cs as [|d l IH]; [destruct C|]. cbn [sf fold_right]. fold (sf x0 l x). destruct C as [->|C].
  - pose proof (G l (fun e E => N e (or_intror E))).
    assert (0 < snd c * Rpower (x / x0) (fst c) * exp (- (x / x0)) / x0); [|lra].
    apply Rdiv_lt_0_compat; auto. repeat apply Rmult_lt_0_compat; auto; apply exp_pos.
  - specialize (IH (fun e E => N e (or_intror E)) C).
    assert (0 <= snd d * Rpower (x / x0) (fst d) * exp (- (x / x0)) / x0); [|lra].
    apply Rdiv_le_0_compat; [|auto]. apply Rmult_le_pos; [apply Rmult_le_pos; [apply N; left; auto|]|]; left; apply exp_pos.
Qed.

Context (p : schechter) (HP : sensible p).
Let x0 := s_x0 p. Let xmin := s_xmin p.
Lemma sch_pos x : 0 < schechter_function p x.
Proof. destruct HP as (A & B & C & D). apply (sf_pos x0 (comps p)); auto. Qed.
Lemma int_above x : 0 < x -> integral_above (schechter_function p) x (lum_int F p x).
Proof. destruct HP as (A & _). intros X. apply (li_above x0 (comps p)); auto. Qed.
Lemma int_diff x y : 0 < x -> 0 < y -> lum_int F p x - lum_int F p y = RInt (schechter_function p) x y.
Proof. destruct HP as (A & _). intros X Y. apply (li_RInt x0 (comps p)); auto. Qed.
Lemma sch_cont : cont (schechter_function p). Proof. destruct HP as (A & _). apply (sf_cont x0 (comps p)); auto. Qed.
Lemma int_dec x y : 0 < x < y -> lum_int F p y < lum_int F p x.
Proof.
  intros H. assert (0 < RInt (schechter_function p) x y).
  { apply RInt_gt_0; [lra|intros; apply sch_pos|]. intros t T. apply sch_cont. lra. }
  rewrite <- int_diff in * by lra. lra.
Qed.
Lemma int_lim : is_lim (lum_int F p) p_infty 0.
Proof. apply (li_derive x0 (comps p)). destruct HP; auto. Qed.
Lemma int_pos x : 0 < x -> 0 < lum_int F p x.
Proof.
  intros X. destruct (Rlt_dec 0 (lum_int F p x)) as [H|H]; auto. exfalso.
  pose proof (int_dec x (x + 1) ltac:(lra)) as D. pose proof int_lim as L. apply is_lim_spec in L.
  destruct (L (mkposreal (- lum_int F p (x + 1)) ltac:(lra))) as [M HM]. cbn in HM.
  set (y := Rmax M (x + 1) + 1). assert (Y : M < y /\ x + 1 < y).
  { pose proof (Rmax_l M (x + 1)). pose proof (Rmax_r M (x + 1)). unfold y. lra. }
  specialize (HM y (proj1 Y)). apply Rabs_def2 in HM. pose proof (int_dec (x + 1) y ltac:(lra)). lra.
Qed.

(** arrays of length one *)
Lemma weighted_one x : weighted F p (x :: nil) = Ok (lum_int F p x :: nil).
Proof.
  unfold weighted, lum_int. induction (comps p) as [|c cs IH]; [reflexivity|]. cbn [mapM].
  destruct (mapM _ cs) as [t|e] eqn:E; cbn [bind] in IH; [|discriminate]. injection IH as IH.
  unfold uppergammamod_arr at 1. cbn [map length Nat.eqb bind fold_right]. cbn [repeat length] in IH. cbn [repeat length].
  rewrite IH. reflexivity.
Qed.
Lemma int_arr_one x : lum_function_int_arr F p (x :: nil) = Ok (lum_int F p (Rmax x xmin) :: nil).
Proof.
  unfold lum_function_int_arr. cbn [length repeat]. rewrite !weighted_one. cbn [bind map]. fold xmin.
  destruct (rltb x xmin) eqn:B; [apply rltb_lt in B; rewrite Rmax_right by lra|apply rltb_ge in B; rewrite Rmax_left by lra]; reflexivity.
Qed.
Lemma cdf_one x : xmin <= x -> sch_cdf F p (x :: nil) = Ok (((lum_int F p xmin - lum_int F p x) / lum_int F p xmin) :: nil).
Proof.
  intros H. unfold sch_cdf. cbn [length repeat]. rewrite !int_arr_one. fold xmin. rewrite !Rmax_left by lra. cbn. fold xmin.
  rewrite (proj2 (rltb_ge x xmin)) by lra. reflexivity.
Qed.
Lemma lum_function_ok x : xmin <= x -> lum_function p x = schechter_function p x.
Proof.
  intros H. unfold lum_function, schechter_function. fold xmin. rewrite (proj2 (rltb_ge x xmin)) by lra.
  assert (Q : s_x0 p <> 0) by (destruct HP; lra). replace (- x / s_x0 p) with (- (x / s_x0 p)) by (field; auto).
  induction (comps p) as [|c cs IH]; cbn [map total fold_right]; [field; auto|]. fold (total (map (fun c => snd c * Rpower (x / s_x0 p) (fst c)) cs)).
  rewrite <- IH. field. auto.
Qed.
Lemma pdf_one x : xmin <= x -> sch_pdf F p (x :: nil) = Ok (schechter_function p x :: nil).
Proof.
  intros H. unfold sch_pdf. cbn [length repeat]. rewrite !int_arr_one. cbn. fold xmin.
  rewrite (proj2 (rltb_ge x xmin)) by lra. rewrite lum_function_ok by auto. reflexivity.
Qed.

(** longer arrays *)
Lemma count_none (xs : list R) : (forall x, In x xs -> xmin <= x) -> filter (fun b => b) (map (fun x => rltb x xmin) xs) = nil.
Proof.
  induction xs as [|x xs IH]; intros H; [reflexivity|]. cbn. rewrite (proj2 (rltb_ge x xmin)) by (apply H; left; auto).
  apply IH. intros; apply H; right; auto.
Qed.
Lemma uppergammamod_arr_len a xs g : uppergammamod_arr F a xs = Ok g -> length g = length xs.
Proof.
  unfold uppergammamod_arr. destruct (length xs =? 1)%nat; [intros E; injection E as <-; apply map_length|].
  assert (I : forall l (e : exc (list R)) , (forall h, e = Ok h -> length h = length xs) -> forall g, fold_left (step_arr a xs) l e = Ok g -> length g = length xs).
  { induction l as [|i l IH]; intros e H h E; cbn in E; [apply H; exact E|]. apply IH in E; auto. intros k K.
    unfold step_arr in K. destruct e as [h'|]; [|discriminate]. cbn [bind] in K. destruct (1 <? steps a)%nat; [|discriminate]. injection K as <-.
    rewrite map_length, combine_length, (H h' eq_refl). lia. }
  apply I. intros h E. injection E as <-. apply map_length.
Qed.
Lemma step_arr_raise a xs e l : fold_left (step_arr a xs) l (Raise e) = Raise e.
Proof. induction l; [reflexivity|cbn; auto]. Qed.
Lemma weighted_len xs : (exists g, weighted F p xs = Ok g /\ length g = length xs) \/ weighted F p xs = Raise ValueError.
Proof.
  unfold weighted.
  assert (A : (exists t, mapM (fun c => do g <- uppergammamod_arr F (fst c + 1) (map (fun x => x / s_x0 p) xs) ;; Ok (map (Rmult (snd c)) g)) (comps p) = Ok t /\ List.Forall (fun g => length g = length xs) t) \/
              mapM (fun c => do g <- uppergammamod_arr F (fst c + 1) (map (fun x => x / s_x0 p) xs) ;; Ok (map (Rmult (snd c)) g)) (comps p) = Raise ValueError).
  { induction (comps p) as [|c cs IH]; [left; exists nil; split; [reflexivity|constructor]|]. cbn [mapM].
    destruct (uppergammamod_arr F (fst c + 1) (map (fun x => x / s_x0 p) xs)) as [g|e] eqn:E.
    - apply uppergammamod_arr_len in E. rewrite map_length in E. cbn [bind]. destruct IH as [(t & -> & T)| ->]; cbn [bind]; [|right; reflexivity].
      left. eexists. split; [reflexivity|]. constructor; auto. rewrite map_length. auto.
    - right. cbn [bind]. f_equal. unfold uppergammamod_arr in E. destruct (length _ =? 1)%nat; [discriminate|].
      assert (I : forall l (h : exc (list R)), (forall e, h = Raise e -> e = ValueError) -> forall e, fold_left (step_arr (fst c + 1) (map (fun x => x / s_x0 p) xs)) l h = Raise e -> e = ValueError).
      { induction l as [|i l IHl]; intros h H e' E'; cbn in E'; [apply H; exact E'|]. apply IHl in E'; auto. intros k K.
        unfold step_arr in K. destruct h as [h'|]; [|apply H; exact K]. cbn [bind] in K. destruct (1 <? _)%nat; [discriminate|]. injection K as <-. reflexivity. }
      refine (I _ (Ok _) _ _ E). intros; discriminate. }
  destruct A as [(t & -> & T)| ->]; cbn [bind]; [left|right; reflexivity]. eexists. split; [reflexivity|].
  induction T as [|g t G T IH]; cbn [fold_right]; [apply repeat_length|]. unfold add_lists at 1. rewrite map_length, combine_length, G, IH. lia.
Qed.
Lemma int_arr_raises xs : (2 <= length xs)%nat -> (forall x, In x xs -> xmin <= x) -> lum_function_int_arr F p xs = Raise ValueError.
Proof.
  intros L H. unfold lum_function_int_arr. destruct (weighted_len xs) as [(g & -> & G)| ->]; [cbn [bind]|reflexivity].
  destruct (weighted_len (repeat (s_xmin p) (length xs))) as [(h & -> & K)| ->]; [cbn [bind]|reflexivity]. rewrite repeat_length in K.
  unfold mask_set. fold xmin. rewrite count_none by auto. cbn [length].
  destruct (Nat.eqb_spec (length h) 1) as [E|_]; [lia|]. destruct (Nat.eqb_spec (length h) 0) as [E|_]; [lia|reflexivity].
Qed.
Lemma arr_raises xs : (2 <= length xs)%nat -> sch_cdf F p xs = Raise ValueError /\ sch_pdf F p xs = Raise ValueError.
Proof.
  intros L. unfold sch_cdf, sch_pdf. rewrite int_arr_raises; [split; reflexivity|rewrite repeat_length; auto|].
  intros x X. apply repeat_spec in X. subst. right. reflexivity.
Qed.
End One.
