(** Lemmas for the statements on LCHandler.grid. *)
From Verif Require Import Dict Util Rat Val Arr HandlerModel Handler Handler2 GridModel GridModel2 GridSpec GridAxis GridNew GridAdd GridCat GridEx GridMore HGridModel HGridSpec HGrid HGrid2 HGrid3.
Open Scope string_scope. Open Scope list_scope.
Open Scope Qc_scope.

Lemma c73_empty s names inh ua res xl yl zl norm side : good_res res -> box_side s (use_h s inh) side -> 0 <= side ->
  column s "pos_x" ua (use_h s inh) [] -> forall g, snap_grid s names inh ua res xl yl zl norm <> Ok g.
Proof.
  intros Gr Hb Hs C g H. destruct (proj1 (c73_succeeds _ _ _ _ _ _ _ _ _ _ Gr Hb Hs) (ex_intro _ g H)) as (x & y & z & cols & lims & Cx & _ & _ & _ & (N & _) & _).
  apply N. eapply column_fun; eauto.
Qed.

Lemma qdiv_pos f u : 0 < f -> 0 < u -> 0 < f / u.
Proof.
  intros Hf Hu. apply Qcnot_le_lt. intros L. apply (Qcmult_pos_le _ _ u Hu) in L. replace (f / u * u) with f in L by (field; apply Qc_pos_neq0; auto).
  replace (0 * u) with 0 in L by ring. exact (Qclt_not_le _ _ Hf L).
Qed.
Lemma qdiv_anti f u v : 0 < f -> 0 < u -> 0 < v -> (f / u <= f / v <-> v <= u).
Proof.
  intros Hf Hu Hv. assert (Nu := Qc_pos_neq0 _ Hu). assert (Nv := Qc_pos_neq0 _ Hv). assert (Nf := Qc_pos_neq0 _ Hf).
  split; intros L.
  - apply (Qcmult_pos_le _ _ u Hu) in L. apply (Qcmult_pos_le _ _ v Hv) in L.
    replace (f / u * u * v) with (v * f) in L by (field; auto). replace (f / v * u * v) with (u * f) in L by (field; auto).
    apply Qcnot_lt_le. intros Q. apply (Qcmult_pos_lt _ _ f Hf) in Q. exact (Qclt_not_le _ _ Q L).
  - apply Qcnot_lt_le. intros Q. apply (Qcmult_pos_lt _ _ u Hu) in Q. apply (Qcmult_pos_lt _ _ v Hv) in Q.
    replace (f / u * u * v) with (v * f) in Q by (field; auto). replace (f / v * u * v) with (u * f) in Q by (field; auto).
    apply (Qcmult_pos_le _ _ f Hf) in L. exact (Qclt_not_le _ _ Q L).
Qed.
Lemma qdiv_anti_lt f u v : 0 < f -> 0 < u -> 0 < v -> (f / u < f / v <-> v < u).
Proof.
  intros Hf Hu Hv. pose proof (qdiv_anti f v u Hf Hv Hu) as E. split; intros L; apply Qcnot_le_lt; intros Q; apply E in Q; exact (Qclt_not_le _ _ L Q).
Qed.

Lemma lim_cl_two lo hi : lo <= hi -> lim_cl 0 (Some (mkF false [lo; hi])) = Ok ((lo + hi) / zq 2, hi - lo).
Proof. intros H. apply lim_cl_spec. cbn. auto. Qed.
Lemma half_le a : 0 <= a -> - a / zq 2 <= a / zq 2.
Proof.
  intros H. replace (- a / zq 2) with (- (a * frac 1 2)) by (replace (frac 1 2) with (/ zq 2) by reflexivity; unfold Qcdiv; ring).
  replace (a / zq 2) with (a * frac 1 2) by (unfold Qcdiv; f_equal; reflexivity). qlra.
Qed.
Lemma neg_mul a b : - a * b / zq 2 = - (a * b) / zq 2.
Proof. unfold Qcdiv. ring. Qed.

(** one axis of LCHandler.grid: its limits *)
Definition lc_default (m : lcmeta) (rf : option Qc) (i : nat) : exc (Qc * Qc) :=
  match i with
  | 0%nat => do g <- geom m ;; Ok (- fst g / zq 2, fst g / zq 2)
  | 1%nat => do g <- geom m ;; Ok (- fst g * snd g / zq 2, fst g * snd g / zq 2)
  | _ => match rf with Some f => Ok (f / (1 + lm_zmax m), f / (1 + lm_zmin m)) | None => Ok (lm_zmin m, lm_zmax m) end
  end.
Lemma lc_lim_iff m rf i l c len : lc_good m rf ->
  (do a <- or_lim l (lc_default m rf i) ;; lim_cl 0 a) = Ok (c, len) <->
  exists lo hi, lc_lim m rf i l lo hi /\ c = (lo + hi) / zq 2 /\ len = hi - lo.
Proof.
  intros (G1 & G2 & G3 & G4). destruct l as [a|]; cbn [or_lim bind lc_lim].
  - split.
    + intros H. destruct (lim_cl_ok 0 (Some a) c len (Qcle_refl 0) H) as (lo & hi & S & _ & E). cbn in S. eauto.
    + intros (lo & hi & S & -> & ->). apply (lim_cl_spec 0 (Some a)). exact S.
  - assert (Two : forall lo hi, lo <= hi -> (do a <- (do p <- Ok (lo, hi);; Ok (Some (mkF false [fst p; snd p])));; lim_cl 0 a) = Ok (c, len) <->
       c = (lo + hi) / zq 2 /\ len = hi - lo).
    { intros lo hi Q. cbn [bind fst snd]. rewrite (lim_cl_two lo hi Q). split; [intros E; injection E as <- <-; auto|intros [-> ->]; auto]. }
    destruct i as [|[|i]]; cbn [lc_default].
    + unfold geom. destruct (lm_geom m) as [[a r]|] eqn:Eg; cbn [bind fst snd].
      * destruct (G3 a r eq_refl) as [Pa Pr]. specialize (Two _ _ (half_le a Pa)). cbn [bind fst snd] in Two. rewrite Two. split.
        -- intros E. exists (- a / zq 2), (a / zq 2). split; [eauto 6|exact E].
        -- intros (lo & hi & (a' & r' & E & -> & ->) & H). injection E as <- <-. exact H.
      * split; [discriminate|]. intros (lo & hi & (a' & r' & E & _) & _). discriminate.
    + unfold geom. destruct (lm_geom m) as [[a r]|] eqn:Eg; cbn [bind fst snd].
      * destruct (G3 a r eq_refl) as [Pa Pr]. rewrite !neg_mul.
        assert (Par : 0 <= a * r) by (replace 0 with (0 * r) by ring; apply Qcmult_le_compat_r; auto).
        specialize (Two _ _ (half_le (a * r) Par)). cbn [bind fst snd] in Two. rewrite Two. split.
        -- intros E. exists (- (a * r) / zq 2), (a * r / zq 2). split; [eauto 6|exact E].
        -- intros (lo & hi & (a' & r' & E & -> & ->) & H). injection E as <- <-. exact H.
      * split; [discriminate|]. intros (lo & hi & (a' & r' & E & _) & _). discriminate.
    + destruct rf as [f|].
      * pose proof (G4 f eq_refl) as Pf.
        assert (Pz : 0 < 1 + lm_zmax m) by (clear - G1 G2; qlra).
        assert (Q : f / (1 + lm_zmax m) <= f / (1 + lm_zmin m)) by (apply qdiv_anti; auto; clear - G2; qlra).
        rewrite (Two _ _ Q). split; [intros E; eauto 6|]. intros (lo & hi & [-> ->] & H). exact H.
      * rewrite (Two _ _ G2). split; [intros E; eauto 6|]. intros (lo & hi & [-> ->] & H). exact H.
Qed.

Lemma lc_lim_le m rf i l lo hi : lc_good m rf -> lc_lim m rf i l lo hi -> lo <= hi.
Proof.
  intros (G1 & G2 & G3 & G4). destruct l as [a|]; [intros [_ H]; exact H|]. destruct i as [|[|i]]; cbn [lc_lim].
  - intros (a & r & E & -> & ->). apply half_le. apply (G3 a r E).
  - intros (a & r & E & -> & ->). apply half_le. destruct (G3 a r E). replace 0 with (0 * r) by ring; apply Qcmult_le_compat_r; auto.
  - destruct rf as [f|]; intros [-> ->]; auto. apply qdiv_anti; auto; clear - G1 G2; qlra.
Qed.

Lemma lc_lims_iff m rf l0 l1 l2 cl lint : lc_good m rf ->
  (do ra <- or_lim l0 (lc_default m rf 0) ;; do dec <- or_lim l1 (lc_default m rf 1) ;; do zl <- or_lim l2 (lc_default m rf 2) ;;
   do c <- mapM (lim_cl 0) [ra; dec; zl] ;; Ok (c, forallb lim_int [ra; dec; zl])) = Ok (cl, lint) ->
  exists lims, lc_lims m rf l0 l1 l2 lims /\ cl = map (fun l => ((fst l + snd l) / zq 2, snd l - fst l)) lims.
Proof.
  intros G H.
  destruct (or_lim l0 _) as [ra|] eqn:E0; cbn [bind] in H; [|discriminate].
  destruct (or_lim l1 _) as [de|] eqn:E1; cbn [bind] in H; [|discriminate].
  destruct (or_lim l2 _) as [zl|] eqn:E2; cbn [bind] in H; [|discriminate].
  destruct (mapM _ _) as [c|] eqn:Em; cbn [bind] in H; [|discriminate]. injection H as <- <-.
  apply mapM_Forall2 in Em. inversion Em as [|? [c0 n0] ? r0 A0 Em0]; subst. inversion Em0 as [|? [c1 n1] ? r1 A1 Em1]; subst.
  inversion Em1 as [|? [c2 n2] ? r2 A2 Em2]; subst. inversion Em2; subst.
  destruct (proj1 (lc_lim_iff m rf 0 l0 c0 n0 G)) as (a0 & b0 & S0 & -> & ->); [rewrite E0; exact A0|].
  destruct (proj1 (lc_lim_iff m rf 1 l1 c1 n1 G)) as (a1 & b1 & S1 & -> & ->); [rewrite E1; exact A1|].
  destruct (proj1 (lc_lim_iff m rf 2 l2 c2 n2 G)) as (a2 & b2 & S2 & -> & ->); [rewrite E2; exact A2|].
  exists [(a0, b0); (a1, b1); (a2, b2)]. split; [|reflexivity]. exists (a0, b0), (a1, b1), (a2, b2). auto.
Qed.
Lemma lc_lims_back m rf l0 l1 l2 lims : lc_good m rf -> lc_lims m rf l0 l1 l2 lims ->
  exists lint, (do ra <- or_lim l0 (lc_default m rf 0) ;; do dec <- or_lim l1 (lc_default m rf 1) ;; do zl <- or_lim l2 (lc_default m rf 2) ;;
   do c <- mapM (lim_cl 0) [ra; dec; zl] ;; Ok (c, forallb lim_int [ra; dec; zl])) =
   Ok (map (fun l => ((fst l + snd l) / zq 2, snd l - fst l)) lims, lint).
Proof.
  intros G (p0 & p1 & p2 & -> & S0 & S1 & S2).
  pose proof (proj2 (lc_lim_iff m rf 0 l0 _ _ G) (ex_intro _ _ (ex_intro _ _ (conj S0 (conj eq_refl eq_refl))))) as A0.
  pose proof (proj2 (lc_lim_iff m rf 1 l1 _ _ G) (ex_intro _ _ (ex_intro _ _ (conj S1 (conj eq_refl eq_refl))))) as A1.
  pose proof (proj2 (lc_lim_iff m rf 2 l2 _ _ G) (ex_intro _ _ (ex_intro _ _ (conj S2 (conj eq_refl eq_refl))))) as A2.
  destruct (or_lim l0 _) as [ra|] eqn:E0; cbn [bind] in A0; [|discriminate].
  destruct (or_lim l1 _) as [de|] eqn:E1; cbn [bind] in A1; [|discriminate].
  destruct (or_lim l2 _) as [zl|] eqn:E2; cbn [bind] in A2; [|discriminate].
  cbn [bind mapM]. rewrite A0, A1, A2. cbn [bind]. eauto.
Qed.

Lemma lc_grid_eq m s names rf inh ua res l0 l1 l2 norm :
  lc_grid m s names rf inh ua res l0 l1 l2 norm =
  do x <- get_numbers s "ra" ua (use_h s inh) ;; do y <- get_numbers s "dec" ua (use_h s inh) ;; do z0 <- get_numbers s "redshift" ua (use_h s inh) ;;
  do cols <- mapM (fun p => get_numbers s p ua (use_h s inh)) names ;;
  do r <- (do ra <- or_lim l0 (lc_default m rf 0) ;; do dec <- or_lim l1 (lc_default m rf 1) ;; do zl <- or_lim l2 (lc_default m rf 2) ;;
           do c <- mapM (lim_cl 0) [ra; dec; zl] ;; Ok (c, forallb lim_int [ra; dec; zl])) ;;
  make_grid x y (map (los rf) z0) cols (fst r) (snd r) res (match norm with Some q => NormNum q | None => NormNone end).
Proof.
  unfold lc_grid. fold (use_h s inh). destruct (get_numbers s "ra" _ _) as [x|]; cbn [bind]; auto.
  destruct (get_numbers s "dec" _ _) as [y|]; cbn [bind]; auto. destruct (get_numbers s "redshift" _ _) as [z|]; cbn [bind]; auto.
  destruct (mapM _ names) as [cols|]; cbn [bind]; auto.
  assert (Ez : match rf with Some f => map (fun v => f / (1 + v)) z | None => z end = map (los rf) z).
  { destruct rf; auto. rewrite <- (map_id z) at 1. reflexivity. }
  rewrite Ez. change (or_lim l0 (do g <- geom m;; Ok (- fst g / zq 2, fst g / zq 2))) with (or_lim l0 (lc_default m rf 0)).
  change (or_lim l1 (do g <- geom m;; Ok (- fst g * snd g / zq 2, fst g * snd g / zq 2))) with (or_lim l1 (lc_default m rf 1)).
  change (or_lim l2 match rf with Some f => Ok (f / (1 + lm_zmax m), f / (1 + lm_zmin m)) | None => Ok (lm_zmin m, lm_zmax m) end) with (or_lim l2 (lc_default m rf 2)).
  destruct (or_lim l0 _) as [ra|]; cbn [bind]; auto. destruct (or_lim l1 _) as [de|]; cbn [bind]; auto. destruct (or_lim l2 _) as [zl|]; cbn [bind]; auto.
  destruct (mapM _ [ra; de; zl]) as [c|]; cbn [bind fst snd]; auto.
Qed.

Lemma lc_lims_le m rf l0 l1 l2 lims : lc_good m rf -> lc_lims m rf l0 l1 l2 lims -> length lims = 3%nat /\ forall p, In p lims -> fst p <= snd p.
Proof.
  intros G (p0 & p1 & p2 & -> & S0 & S1 & S2). split; auto.
  intros p [<-|[<-|[<-|[]]]]; eapply lc_lim_le; eauto.
Qed.

Lemma c74_succeeds m s names rf inh ua res l0 l1 l2 norm : lc_good m rf -> good_res res ->
  (exists g, lc_grid m s names rf inh ua res l0 l1 l2 norm = Ok g) <->
  exists x y z cols lims,
    column s "ra" ua (use_h s inh) x /\ column s "dec" ua (use_h s inh) y /\ column s "redshift" ua (use_h s inh) z /\
    columns s names ua (use_h s inh) cols /\ same_lengths x y z cols /\ lc_lims m rf l0 l1 l2 lims /\ axes_fit res lims.
Proof.
  intros G Gr. rewrite lc_grid_eq. split.
  - intros [g H].
    destruct (get_numbers s "ra" _ _) as [x|] eqn:E1; cbn [bind] in H; [|discriminate]. apply get_numbers_ok in E1.
    destruct (get_numbers s "dec" _ _) as [y|] eqn:E2; cbn [bind] in H; [|discriminate]. apply get_numbers_ok in E2.
    destruct (get_numbers s "redshift" _ _) as [z|] eqn:E3; cbn [bind] in H; [|discriminate]. apply get_numbers_ok in E3.
    destruct (mapM _ names) as [cols|] eqn:E4; cbn [bind] in H; [|discriminate]. apply cols_of in E4.
    destruct (bind (or_lim l0 _) _) as [[cl lint]|] eqn:E5; cbn [bind] in H; [|discriminate].
    destruct (lc_lims_iff _ _ _ _ _ _ _ G E5) as (lims & S & ->). destruct (lc_lims_le _ _ _ _ _ _ G S) as [L O].
    exists x, y, z, cols, lims. repeat (split; [assumption|]).
    destruct (proj1 (make_grid_all_iff _ _ _ _ _ _ _ _ L Gr O) (ex_intro _ g H)) as [(A1 & A2 & A3 & A4 & A5) B].
    rewrite map_length in A4. repeat split; auto.
    + apply B. + apply B.
  - intros (x & y & z & cols & lims & E1 & E2 & E3 & E4 & (A1 & A2 & A3 & A4 & A5) & S & B).
    apply get_numbers_ok in E1, E2, E3. apply cols_of in E4. rewrite E1, E2, E3. cbn [bind]. rewrite E4. cbn [bind].
    destruct (lc_lims_back _ _ _ _ _ _ G S) as [lint ->]. destruct (lc_lims_le _ _ _ _ _ _ G S) as [L O]. cbn [bind fst snd].
    apply make_grid_all_iff; auto. split; auto. repeat split; auto. rewrite map_length. auto.
Qed.

Lemma c74_cells m s names rf inh ua res l0 l1 l2 norm g :
  lc_grid m s names rf inh ua res l0 l1 l2 norm = Ok g -> lc_good m rf -> good_res res ->
  exists x y z cols,
    column s "ra" ua (use_h s inh) x /\ column s "dec" ua (use_h s inh) y /\ column s "redshift" ua (use_h s inh) z /\
    columns s names ua (use_h s inh) cols /\
    gridded g x y (map (los rf) z) cols (match norm with Some q => NormNum q | None => NormNone end) /\
    forall i l, nth_error [l0; l1; l2] i = Some l ->
      exists lo hi p, lc_lim m rf i l lo hi /\ pix_spec res i (hi - lo) p /\ covers g i lo hi p.
Proof.
  intros H G Gr. rewrite lc_grid_eq in H.
  destruct (get_numbers s "ra" _ _) as [x|] eqn:E1; cbn [bind] in H; [|discriminate]. apply get_numbers_ok in E1.
  destruct (get_numbers s "dec" _ _) as [y|] eqn:E2; cbn [bind] in H; [|discriminate]. apply get_numbers_ok in E2.
  destruct (get_numbers s "redshift" _ _) as [z|] eqn:E3; cbn [bind] in H; [|discriminate]. apply get_numbers_ok in E3.
  destruct (mapM _ names) as [cols|] eqn:E4; cbn [bind] in H; [|discriminate]. apply cols_of in E4.
  destruct (bind (or_lim l0 _) _) as [[cl lint]|] eqn:E5; cbn [bind] in H; [|discriminate].
  destruct (lc_lims_iff _ _ _ _ _ _ _ G E5) as (lims & S & ->). destruct (lc_lims_le _ _ _ _ _ _ G S) as [L O].
  exists x, y, z, cols. repeat (split; [assumption|]).
  destruct (grid_of_make _ _ _ _ _ _ _ _ _ L Gr O H) as [Gd V]. split; [exact Gd|].
  destruct S as (p0 & p1 & p2 & -> & S0 & S1 & S2). destruct p0 as [a0 b0], p1 as [a1 b1], p2 as [a2 b2]. cbn [fst snd] in *.
  intros [|[|[|i]]] l Hi; cbn in Hi; [| | |destruct i; discriminate]; injection Hi as <-;
    match goal with |- exists lo hi p, lc_lim m rf ?i _ lo hi /\ _ => destruct (V i _ _ eq_refl) as (p & P1 & P2) end; eauto 6.
Qed.

Lemma c74_default m s names rf inh ua norm g ang asp :
  lc_grid m s names rf inh ua None None None None norm = Ok g -> lc_good m rf -> lm_geom m = Some (ang, asp) ->
  g_npix g = [100; 100; 100]%nat /\
  forall ra dec z, 0 < 1 + z -> in_extent (g_axes g) [ra; dec; los rf z] = true <->
    (- ang / zq 2 <= ra /\ ra < ang / zq 2) /\ (- (ang * asp) / zq 2 <= dec /\ dec < ang * asp / zq 2) /\
    match rf with
    | None => lm_zmin m <= z /\ z < lm_zmax m
    | Some _ => lm_zmin m < z /\ z <= lm_zmax m
    end.
Proof.
  intros H G Eg. destruct (c74_cells _ _ _ _ _ _ _ _ _ _ _ _ H G I) as (x & y & z & cols & _ & _ & _ & _ & (C & D & _) & V).
  set (lims := [(- ang / zq 2, ang / zq 2); (- (ang * asp) / zq 2, ang * asp / zq 2);
    match rf with None => (lm_zmin m, lm_zmax m) | Some f => (f / (1 + lm_zmax m), f / (1 + lm_zmin m)) end]).
  assert (V' : forall i lo hi, nth_error lims i = Some (lo, hi) -> exists p, pix_spec None i (hi - lo) p /\ covers g i lo hi p).
  { intros [|[|[|i]]] lo hi Hi; cbn in Hi; [| | |destruct i; discriminate].
    - injection Hi as <- <-. destruct (V 0%nat None eq_refl) as (lo & hi & p & (a & r & E & -> & ->) & P). rewrite Eg in E. injection E as <- <-. eauto.
    - injection Hi as <- <-. destruct (V 1%nat None eq_refl) as (lo & hi & p & (a & r & E & -> & ->) & P). rewrite Eg in E. injection E as <- <-. eauto.
    - destruct (V 2%nat None eq_refl) as (lo' & hi' & p & E & P). cbn in E. destruct rf as [f|]; destruct E as [-> ->]; injection Hi as <- <-; eauto. }
  destruct (default_covers g lims C D eq_refl V') as (N & VC & X). split; [exact N|].
  intros ra dec zz Pz. rewrite X by reflexivity. etransitivity; [apply (forall3 (fun i lo hi => lo <= nth i [ra; dec; los rf zz] 0 /\ nth i [ra; dec; los rf zz] 0 < hi))|].
  cbn [fst snd nth]. destruct rf as [f|]; cbn [fst snd los]; [|reflexivity].
  destruct G as (G1 & G2 & G3 & G4). pose proof (G4 f eq_refl) as Pf.
  rewrite (qdiv_anti f (1 + lm_zmax m) (1 + zz)), (qdiv_anti_lt f (1 + zz) (1 + lm_zmin m)) by (auto; clear - G1 G2; qlra).
  assert (Q : 1 + zz <= 1 + lm_zmax m <-> zz <= lm_zmax m) by (split; intros; qlra).
  assert (Q' : 1 + lm_zmin m < 1 + zz <-> lm_zmin m < zz) by (split; intros; qlra).
  rewrite Q, Q'. tauto.
Qed.

Lemma c74_shape m s names rf inh ua res l0 l1 l2 norm g : lc_good m rf -> good_res res -> lm_geom m = None -> l0 = None \/ l1 = None ->
  lc_grid m s names rf inh ua res l0 l1 l2 norm <> Ok g.
Proof.
  intros G Gr E L H. destruct (proj1 (c74_succeeds _ _ _ _ _ _ _ _ _ _ _ G Gr) (ex_intro _ g H)) as (x & y & z & cols & lims & _ & _ & _ & _ & _ & (p0 & p1 & p2 & _ & S0 & S1 & _) & _).
  destruct L as [-> | ->]; [destruct S0 as (a & b & X & _)|destruct S1 as (a & b & X & _)]; congruence.
Qed.
Lemma c74_empty m s names rf inh ua res l0 l1 l2 norm g : lc_good m rf -> good_res res -> column s "ra" ua (use_h s inh) [] ->
  lc_grid m s names rf inh ua res l0 l1 l2 norm <> Ok g.
Proof.
  intros G Gr C H. destruct (proj1 (c74_succeeds _ _ _ _ _ _ _ _ _ _ _ G Gr) (ex_intro _ g H)) as (x & y & z & cols & lims & Cx & _ & _ & _ & (N & _) & _).
  apply N. eapply column_fun; eauto.
Qed.

Lemma c73_edge s names inh ua norm side g :
  snap_grid s names inh ua None None None None norm = Ok g -> box_side s (use_h s inh) side -> 0 <= side ->
  forall y z, in_extent (g_axes g) [side; y; z] = false /\ forall i j k, in_cell g [i; j; k] [side; y; z] = false.
Proof.
  intros H B S y z. destruct (c73_default _ _ _ _ _ _ _ H B S) as (P & _ & E & _).
  assert (N : ~ side < side) by (intros X; exact (Qclt_not_eq _ _ X eq_refl)).
  assert (F : in_extent (g_axes g) [side; y; z] = false) by (destruct (in_extent _ _) eqn:X; auto; apply E in X; tauto).
  split; [exact F|]. intros i j k. destruct (in_cell _ _ _) eqn:X; auto. exfalso.
  destruct (c73_cells _ _ _ _ _ _ _ _ _ _ _ H I B S) as (x1 & y1 & z1 & cols & _ & _ & _ & _ & (C & D & _) & _).
  destruct (cell_unique g [side; y; z] C) as (U & _); [rewrite D; reflexivity|].
  rewrite (proj2 U) in F; [discriminate|eauto].
Qed.

Lemma c74_freq m s s' names names' f inh inh' ua ua' norm norm' g g' ang asp ra dec :
  lc_grid m s names None inh ua None None None None norm = Ok g ->
  lc_grid m s' names' (Some f) inh' ua' None None None None norm' = Ok g' ->
  lc_good m (Some f) -> lm_geom m = Some (ang, asp) ->
  - ang / zq 2 <= ra -> ra < ang / zq 2 -> - (ang * asp) / zq 2 <= dec -> dec < ang * asp / zq 2 -> lm_zmin m < lm_zmax m ->
  in_extent (g_axes g) [ra; dec; lm_zmin m] = true /\ in_extent (g_axes g') [ra; dec; los (Some f) (lm_zmin m)] = false /\
  in_extent (g_axes g) [ra; dec; lm_zmax m] = false /\ in_extent (g_axes g') [ra; dec; los (Some f) (lm_zmax m)] = true.
Proof.
  intros H H' G Eg A1 A2 A3 A4 Z. assert (G0 : lc_good m None) by (destruct G as (B1 & B2 & B3 & _); repeat split; auto; try discriminate; apply (B3 a r); auto).
  destruct (c74_default _ _ _ _ _ _ _ _ _ _ H G0 Eg) as [_ E]. destruct (c74_default _ _ _ _ _ _ _ _ _ _ H' G Eg) as [_ E'].
  assert (P : 0 < 1 + lm_zmin m) by exact (proj1 G). assert (P' : 0 < 1 + lm_zmax m) by (clear - P Z; qlra).
  assert (N : forall q : Qc, ~ q < q) by (intros q X; exact (Qclt_not_eq _ _ X eq_refl)).
  assert (Zl : lm_zmin m <= lm_zmax m) by (apply Qclt_le_weak; auto).
  pose proof (E ra dec (lm_zmin m) P) as F1. pose proof (E' ra dec (lm_zmin m) P) as F2. pose proof (E ra dec (lm_zmax m) P') as F3. pose proof (E' ra dec (lm_zmax m) P') as F4.
  cbn [los] in F1, F3. split; [apply F1; repeat split; auto; apply Qcle_refl|]. split; [|split].
  - apply Bool.not_true_is_false. intros X. apply F2 in X. apply (N (lm_zmin m)). tauto.
  - apply Bool.not_true_is_false. intros X. apply F3 in X. apply (N (lm_zmax m)). tauto.
  - apply F4. repeat split; auto; try apply Qcle_refl.
Qed.
