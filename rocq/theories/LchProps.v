(** Properties C75 and C77: volumes of light cones, and the light cone iterator. *)
From Verif Require Import Dict Util RealUtil LchModel LchSpec Lch Lch2.
From Coq Require Import Reals Lra.
Open Scope string_scope. Open Scope list_scope.
Open Scope R_scope.

(** C75: LCHandler.volume returns the comoving volume of the requested part of the light
    cone. [cv c z] is the comoving volume of the whole sky out to redshift [z] in cosmology
    [c], [hh c] its h. An accepted request returns the solid angle's share of the shell
    between the two redshifts, in the units asked for. *)
Theorem C75_value cv hh m t ra z1 z2 sh a r (in_h : bool) v : cone m t ra ->
  lc_volume cv hh m (Some z1) (Some z2) (Some sh) (Some a) (Some r) (Some in_h) = Ok v ->
  v_zmin m <= z1 /\ z2 <= v_zmax m /\ (sh = "box" \/ sh = "circle") /\
  v = (cv (v_cosmo m) z2 - cv (v_cosmo m) z1) * sky_area sh a r / (4 * PI) * (if in_h then hh (v_cosmo m) ^ 3 else 1).
Proof.
  intros (E & _) H. apply (lc_volume_iff _ _ _ _ _ _ _ _ _ _ _ _ E) in H. destruct H as (A & B & C & _ & D). auto.
Qed.
Print Assumptions C75_value.

(** Omitted arguments stand for those of the light cone itself. *)
Theorem C75_default cv hh m t ra z1 z2 sh a r in_h : cone m t ra ->
  let or {T} (o : option T) (d : T) := match o with Some x => x | None => d end in
  lc_volume cv hh m z1 z2 sh a r in_h =
  lc_volume cv hh m (Some (or z1 (v_zmin m))) (Some (or z2 (v_zmax m))) (Some (or sh (v_shape m))) (Some (or a t)) (Some (or r ra)) (Some (or in_h (v_inh m))).
Proof.
  intros (E & _) or. unfold lc_volume, meta_angle, meta_aspect. rewrite E. cbn [fst snd].
  destruct z1, z2, sh, a, r, in_h; reflexivity.
Qed.
Print Assumptions C75_default.

(** Volumes of adjacent redshift ranges add up. *)
Theorem C75_additive cv hh m t ra z1 z2 z3 sh a r in_h v1 v2 : cone m t ra ->
  lc_volume cv hh m (Some z1) (Some z2) sh a r in_h = Ok v1 -> lc_volume cv hh m (Some z2) (Some z3) sh a r in_h = Ok v2 ->
  lc_volume cv hh m (Some z1) (Some z3) sh a r in_h = Ok (v1 + v2).
Proof. intros (E & _). exact (c75_additive cv hh m t ra z1 z2 z3 sh a r in_h v1 v2 E). Qed.
Print Assumptions C75_additive.

(** A region of the light cone's own shape is accepted exactly when it lies within the
    light cone, in redshift and on the sky (for a disc the aspect ratio is left out); so is
    a disc in a box-shaped light cone when the aspect ratio is given as 1. *)
Theorem C75_accepted_partial cv hh m t ra z1 z2 a r in_h : cone m t ra -> 0 <= a -> 0 <= r ->
  (v_shape m = "box" ->
    ((exists v, lc_volume cv hh m (Some z1) (Some z2) (Some "box") (Some a) (Some r) in_h = Ok v) <->
     v_zmin m <= z1 /\ z2 <= v_zmax m /\ within "box" a r "box" t ra) /\
    ((exists v, lc_volume cv hh m (Some z1) (Some z2) (Some "circle") (Some a) (Some 1) in_h = Ok v) <->
     v_zmin m <= z1 /\ z2 <= v_zmax m /\ within "circle" a 1 "box" t ra)) /\
  (v_shape m = "circle" ->
    ((exists v, lc_volume cv hh m (Some z1) (Some z2) (Some "circle") (Some a) None in_h = Ok v) <->
     v_zmin m <= z1 /\ z2 <= v_zmax m /\ within "circle" a ra "circle" t ra) /\
    (t <= 1 -> within "box" a r "circle" t ra -> v_zmin m <= z1 -> z2 <= v_zmax m ->
     exists v, lc_volume cv hh m (Some z1) (Some z2) (Some "box") (Some a) (Some r) in_h = Ok v)).
Proof.
  intros C Ha Hr. split; intros S; split.
  - exact (c75_box cv hh m t ra (Some z1) (Some z2) a r in_h C S Ha Hr).
  - exact (c75_disc_box cv hh m t ra z1 z2 a in_h C S Ha).
  - exact (c75_disc cv hh m t ra (Some z1) (Some z2) a in_h C S Ha).
  - intros L W Z1 Z2. exact (c75_contained cv hh m t ra z1 z2 a r in_h C S L Ha Hr W Z1 Z2).
Qed.
Print Assumptions C75_accepted_partial.

(** A region of the light cone's own shape has no more volume than the light cone. *)
Theorem C75_monotone_partial cv hh m t ra z1 z2 a r in_h v whole : cone m t ra -> 0 <= a -> 0 <= r -> z1 <= z2 ->
  increasing (cv (v_cosmo m)) -> 0 <= hh (v_cosmo m) ->
  lc_volume cv hh m (Some z1) (Some z2) (Some (v_shape m)) (Some a) (Some r) in_h = Ok v ->
  lc_volume cv hh m None None None None None in_h = Ok whole -> 0 <= v <= whole.
Proof. intros C. exact (c75_monotone cv hh m t ra z1 z2 (v_shape m) a r in_h v whole C eq_refl). Qed.
Print Assumptions C75_monotone_partial.

(** FALSE for a box in a circular light cone: the code compares the squared diagonal of the
    box with the diameter instead of its square. For a light cone less than half a radian
    wide the box around the whole light cone is accepted, and has more volume than the
    light cone it is said to be part of. *)
Theorem C75_box_refuted cv hh m t ra in_h whole : cone m t ra -> v_shape m = "circle" -> t <= 1 / 2 ->
  cv (v_cosmo m) (v_zmin m) < cv (v_cosmo m) (v_zmax m) -> 0 < hh (v_cosmo m) ->
  lc_volume cv hh m None None None None None in_h = Ok whole ->
  ~ within "box" t 1 "circle" t ra /\
  exists v, lc_volume cv hh m None None (Some "box") None (Some 1) in_h = Ok v /\ whole < v.
Proof. exact (c75_box_in_disc cv hh m t ra in_h whole). Qed.
Print Assumptions C75_box_refuted.

(** FALSE: in a light cone wider than one radian some boxes within it are rejected. *)
Theorem C75_rejected_refuted cv hh m t ra z1 z2 in_h : cone m t ra -> v_shape m = "circle" -> 1 < t ->
  v_zmin m <= z1 -> z2 <= v_zmax m ->
  exists a, 0 < a /\ within "box" a 1 "circle" t ra /\
  lc_volume cv hh m (Some z1) (Some z2) (Some "box") (Some a) (Some 1) in_h = Raise ValueError.
Proof. exact (c75_rejected cv hh m t ra z1 z2 in_h). Qed.
Print Assumptions C75_rejected_refuted.

(** FALSE for a disc in a box with unequal sides: with the default angle it is accepted
    though it does not fit, and may have more volume than the whole light cone. *)
Theorem C75_disc_refuted cv hh m t ra in_h whole : cone m t ra -> v_shape m = "box" -> ra < 1 ->
  cv (v_cosmo m) (v_zmin m) < cv (v_cosmo m) (v_zmax m) -> 0 < hh (v_cosmo m) ->
  lc_volume cv hh m None None None None None in_h = Ok whole ->
  ~ within "circle" t ra "box" t ra /\
  exists v, lc_volume cv hh m None None (Some "circle") None None in_h = Ok v /\ (ra <= 3 / 4 -> whole < v).
Proof. exact (c75_disc_in_box cv hh m t ra in_h whole). Qed.
Print Assumptions C75_disc_refuted.

(** FALSE: redshifts in the wrong order are accepted and give a negative volume. *)
Theorem C75_order_refuted cv hh m t ra z1 z2 in_h : cone m t ra -> v_zmin m <= z1 -> z1 < z2 -> z2 <= v_zmax m ->
  cv (v_cosmo m) z1 < cv (v_cosmo m) z2 -> 0 < hh (v_cosmo m) ->
  exists v, lc_volume cv hh m (Some z2) (Some z1) None None None in_h = Ok v /\ v < 0.
Proof. exact (c75_reversed cv hh m t ra z1 z2 in_h). Qed.
Print Assumptions C75_order_refuted.

(** FALSE for light cones that are neither boxes nor discs: without arguments volume fails,
    and any box at all is accepted. *)
Theorem C75_other_refuted cv hh m z1 z2 a r in_h : v_geom m = None -> v_shape m <> "box" -> v_shape m <> "circle" ->
  v_zmin m <= z1 -> z2 <= v_zmax m ->
  lc_volume cv hh m None None None None None in_h = Raise KeyError /\
  exists v, lc_volume cv hh m (Some z1) (Some z2) (Some "box") (Some a) (Some r) in_h = Ok v.
Proof. exact (c75_other cv hh m z1 z2 a r in_h). Qed.
Print Assumptions C75_other_refuted.

(** A circular light cone a quarter of a radian wide between redshifts 1 and 2; volumes
    grow as the cube of the redshift, h is 1/2. *)
Definition ex_cv (_ : nat) (z : R) : R := z ^ 3.
Definition ex_hh (_ : nat) : R := 1 / 2.
Definition ex_disc : lch := mkLch "circle" 1 2 (Some (1 / 4, 1)) 0 true.
Definition ex_box : lch := mkLch "box" 1 2 (Some (1 / 4, 1 / 2)) 0 true.
Example C75_nonvacuous :
  cone ex_disc (1 / 4) 1 /\ cone ex_box (1 / 4) (1 / 2) /\
  ex_cv 0 (v_zmin ex_disc) < ex_cv 0 (v_zmax ex_disc) /\ increasing (fun z => ex_cv 0 z) /\
  within "box" (1 / 8) (1 / 2) "box" (1 / 4) (1 / 2) /\
  (exists v, lc_volume ex_cv ex_hh ex_box (Some 1) (Some (3 / 2)) (Some "box") (Some (1 / 8)) (Some (1 / 2)) None = Ok v /\ 0 < v) /\
  (exists whole, lc_volume ex_cv ex_hh ex_disc None None None None None None = Ok whole) /\
  (exists v, lc_volume ex_cv ex_hh ex_disc None None (Some "box") None (Some 1) None = Ok v) /\
  v_geom (mkLch "sphere" 0 1 None 0 true) = None.
Proof.
  assert (Cd : cone ex_disc (1 / 4) 1) by (unfold cone; cbn; repeat split; try lra; auto).
  assert (Cb : cone ex_box (1 / 4) (1 / 2)) by (unfold cone; cbn; repeat split; try lra; auto).
  assert (W : exists whole, lc_volume ex_cv ex_hh ex_disc None None None None None None = Ok whole).
  { eexists. apply (lc_volume_iff _ _ ex_disc (1 / 4) 1 _ _ _ _ _ _ _ eq_refl). cbn. repeat split; try lra; try (right; reflexivity); discriminate. }
  split; [exact Cd|]. split; [exact Cb|]. split; [unfold ex_cv; cbn; lra|]. split.
  { intros a b H. unfold ex_cv. simpl. assert (0 <= (b - a) * (a * a + a * b + b * b)); [|nra]. apply Rmult_le_pos; nra. }
  split; [apply within_box; lra|]. split.
  { eexists. split; [apply (lc_volume_iff _ _ ex_box (1 / 4) (1 / 2) _ _ _ _ _ _ _ eq_refl); cbn; repeat split; try lra; try (left; reflexivity); try discriminate; reflexivity|].
    cbn. pose proof PI_RGT_0. assert (0 < / (4 * PI)) by (apply Rinv_0_lt_compat; lra). unfold ex_cv, ex_hh, sky_area, Rdiv. cbn [String.eqb Ascii.eqb Bool.eqb].
    repeat apply Rmult_lt_0_compat; simpl; lra. }
  split; [exact W|]. split; [|reflexivity]. destruct W as [w W].
  destruct (C75_box_refuted ex_cv ex_hh ex_disc (1 / 4) 1 None w Cd eq_refl) as (_ & v & H & _); [lra|unfold ex_cv; cbn; lra|unfold ex_hh; lra|exact W|]. eauto.
Qed.

(** C77: a call on an iterator over light cones does to each light cone, and returns for
    each, what the same call on its own handler would; [call] is the method, from the state
    of a handler to its new state and result. *)
Theorem C77_each {S V} (call : S -> S * exc V) d d' vs : iter_call call d = (d', Ok vs) ->
  map fst d' = map fst d /\ map fst vs = map fst d /\
  forall i k s, nth_error d i = Some (k, s) ->
    exists s' v, call s = (s', Ok v) /\ nth_error d' i = Some (k, s') /\ nth_error vs i = Some (k, v).
Proof. exact (iter_call_ok call d d' vs). Qed.
Print Assumptions C77_each.

(** It returns whenever every handler's call returns; when one fails, its exception is
    passed on, the light cones before it have been processed and those after it are as they
    were. *)
Theorem C77_fails {S V} (call : S -> S * exc V) d :
  ((forall k s, In (k, s) d -> exists s' v, call s = (s', Ok v)) -> exists d' vs, iter_call call d = (d', Ok vs)) /\
  (forall d' e, iter_call call d = (d', Raise e) ->
   exists pre pre' k s s' post, d = pre ++ (k, s) :: post /\ d' = pre' ++ (k, s') :: post /\ call s = (s', Raise e) /\
   exists vs, iter_call call pre = (pre', Ok vs)).
Proof. split; [exact (iter_call_all call d)|exact (iter_call_raise call d)]. Qed.
Print Assumptions C77_fails.

(** An iterator over light cones with angles is made whenever they exist and, if that is
    required, agree; it holds a handler for each, is marked consistent exactly when they
    all agree in cosmology, angles and redshifts, and with the requirement it always is. *)
Theorem C77_made files numbers in_h require :
  (numbers <> [] -> (forall n, In n numbers -> exists m, stored files n m /\ v_geom m <> None) ->
   (require = true -> forall n m n' m', In n numbers -> In n' numbers -> stored files n m -> stored files n' m' -> agree m m') ->
   exists it, iter_new files numbers in_h require = Ok it) /\
  (forall it, iter_new files numbers in_h require = Ok it ->
   (forall n, In n numbers -> exists m h, stored files n m /\ zfind (li_handlers it) n = Some h /\ agree h m /\ v_shape h = v_shape m /\ v_inh h = in_h) /\
   (li_consistent it = true <-> forall n m n' m', In n numbers -> In n' numbers -> stored files n m -> stored files n' m' -> agree m m') /\
   (require = true -> li_consistent it = true)).
Proof.
  split; [exact (iter_new_succeeds files numbers in_h require)|]. intros it H.
  destruct (iter_new_ok _ _ _ _ _ H) as (_ & _ & A & B & C). split; [|auto].
  intros n I. destruct (A n I) as (m & S & _ & F). exists m, (with_h m in_h). repeat split; auto.
Qed.
Print Assumptions C77_made.

(** The volume of a numbered light cone is that of its handler. Without a number, if the
    light cones all have the same shape, it is the volume of any of them. *)
Theorem C77_volume_partial cv hh files numbers in_h it z1 z2 sh a r h n m : 
  iter_new files numbers in_h true = Ok it -> In n numbers -> stored files n m ->
  let own := lc_volume cv hh (mkLch (v_shape m) (v_zmin m) (v_zmax m) (v_geom m) (v_cosmo m) in_h) z1 z2 sh a r h in
  iter_volume cv hh it z1 z2 sh a r h (Some n) = own /\
  ((forall n' m', In n' numbers -> stored files n' m' -> v_shape m' = v_shape m) -> iter_volume cv hh it z1 z2 sh a r h None = own).
Proof.
  intros H I S own. split; [exact (iter_vol_number cv hh files numbers in_h true it z1 z2 sh a r h n m H I S)|exact (iter_vol_common cv hh files numbers in_h it z1 z2 sh a r h n m H I S)].
Qed.
Print Assumptions C77_volume_partial.

(** FALSE: shapes are not compared, so a disc and a box with the same angles count as
    consistent, and the volume without a number is wrong for the second of them. *)
Theorem C77_shape_refuted cv hh (z1 z2 t : R) c in_h : z1 <= z2 -> 0 < t -> cv c z1 < cv c z2 -> 0 < hh c ->
  let files := [(0%Z, mkLch "circle" z1 z2 (Some (t, 1)) c false); (1%Z, mkLch "box" z1 z2 (Some (t, 1)) c false)] in
  exists it, iter_new files [0%Z; 1%Z] in_h true = Ok it /\ li_consistent it = true /\
  exists v v', iter_volume cv hh it None None None None None None None = Ok v /\
               iter_volume cv hh it None None None None None None (Some 1%Z) = Ok v' /\ v < v'.
Proof.
  intros Z T I Hh files.
  destruct (iter_new_succeeds files [0%Z; 1%Z] in_h true) as [it E].
  - discriminate.
  - intros n [<-|[<-|[]]]; eexists; (split; [reflexivity|discriminate]).
  - intros _ n m n' m' [<-|[<-|[]]] [<-|[<-|[]]] S S'; injection S as <-; injection S' as <-; repeat split.
  - exists it. split; [exact E|]. destruct (iter_new_ok _ _ _ _ _ E) as (A & _ & B & C & D). split; [exact (D eq_refl)|].
    unfold iter_volume. rewrite A, (D eq_refl). cbn [bind existsb Z.eqb orb Pos.eqb].
    destruct (B 0%Z (or_introl eq_refl)) as (m0 & S0 & _ & ->). destruct (B 1%Z (or_intror (or_introl eq_refl))) as (m1 & S1 & _ & ->).
    injection S0 as <-. injection S1 as <-.
    eexists. eexists. split; [|split].
    + apply (lc_volume_iff _ _ (with_h (mkLch "circle" z1 z2 (Some (t, 1)) c false) in_h) t 1 _ _ _ _ _ _ _ eq_refl). cbn. repeat split; try lra; try (right; reflexivity); discriminate.
    + apply (lc_volume_iff _ _ (with_h (mkLch "box" z1 z2 (Some (t, 1)) c false) in_h) t 1 _ _ _ _ _ _ _ eq_refl). cbn. repeat split; try lra; try (left; reflexivity); discriminate.
    + cbn. unfold sky_area. cbn [String.eqb Ascii.eqb Bool.eqb]. pose proof PI_RGT_0 as P.
      set (k := if in_h then _ else 1). assert (K : 0 < k) by (unfold k; destruct in_h; [apply (pow_lt _ 3 Hh)|lra]).
      assert (PP : 0 < / (4 * PI)) by (apply Rinv_0_lt_compat; lra). unfold Rdiv.
      apply Rmult_lt_compat_r; auto. apply Rmult_lt_compat_r; auto. apply Rmult_lt_compat_l; [lra|].
      pose proof PI_lt_4 as Q. simpl. assert (0 < t * t) by nra. nra.
Qed.
Print Assumptions C77_shape_refuted.

(** FALSE: no iterator can be made over an empty list, or over light cones without angles
    (other shapes), even without the requirement. *)
Theorem C77_made_refuted files in_h require :
  iter_new files [] in_h require = Raise IndexError /\
  (forall n m, stored files n m -> v_geom m = None -> iter_new files [n] in_h require = Raise AttributeError).
Proof.
  split; [reflexivity|]. intros n m S G. unfold iter_new, stored in *. cbn [mapM]. rewrite S. cbn [bind fst v_geom]. rewrite G. reflexivity.
Qed.
Print Assumptions C77_made_refuted.

(** Two light cones that agree, one that does not; handlers that count up to 2. *)
Definition ex_files : list (Z * lch) := [(0%Z, ex_disc); (1%Z, ex_disc); (2%Z, ex_box)].
Definition ex_count (s : nat) : nat * exc nat := if (s <? 2)%nat then (s + 1, Ok s)%nat else (s, Raise ValueError).
Example C77_nonvacuous :
  (exists it, iter_new ex_files [1%Z; 0%Z] false true = Ok it) /\
  (exists it, iter_new ex_files [1%Z; 2%Z] false false = Ok it /\ li_consistent it = false) /\
  iter_call ex_count [(0%Z, 0%nat); (5%Z, 1%nat)] = ([(0%Z, 1%nat); (5%Z, 2%nat)], Ok [(0%Z, 0%nat); (5%Z, 1%nat)]) /\
  iter_call ex_count [(0%Z, 0%nat); (5%Z, 2%nat); (6%Z, 0%nat)] = ([(0%Z, 1%nat); (5%Z, 2%nat); (6%Z, 0%nat)], Raise ValueError).
Proof.
  split; [|split; [|split; reflexivity]].
  - apply iter_new_succeeds; [discriminate| |].
    + intros n [<-|[<-|[]]]; eexists; (split; [reflexivity|discriminate]).
    + intros _ n m n' m' [<-|[<-|[]]] [<-|[<-|[]]] S S'; injection S as <-; injection S' as <-; repeat split.
  - destruct (iter_new_succeeds ex_files [1%Z; 2%Z] false false) as [it E]; [discriminate| |discriminate|].
    + intros n [<-|[<-|[]]]; eexists; (split; [reflexivity|discriminate]).
    + exists it. split; [exact E|]. destruct (iter_new_ok _ _ _ _ _ E) as (_ & _ & _ & C & _).
      destruct (li_consistent it); [|reflexivity]. destruct (proj1 C eq_refl 1%Z ex_disc 2%Z ex_box) as (_ & G & _); cbn; auto; try reflexivity.
      cbn in G. injection G. lra.
Qed.
