(** C83: scaling of the infrared luminosity function. C84: star formation rates of Bethermin et
    al. C85: cached matching tables. C86: the Behroozi tables. C87: stellar mass functions. *)
From Verif Require Import Dict Util RealUtil RelModel RelSpec Rel Rel2 AmModel SfrModel SfrSpec Sfr Sfr2 Sfr3.
From Coq Require Import Reals Lra Lia.
Open Scope string_scope. Open Scope list_scope.
Open Scope R_scope.

(** * C83 *)
(** Given its four redshift 0 parameters, the luminosity function scales with redshift as
    published. *)
Theorem C83_value_partial self a s l p z : -1 < z ->
  exists P L, get_irlf_pars self (Some a) s l p z = Ok (P, L, a, s) /\ g13_lstar l z L /\ g13_phistar p z P.
Proof. intros _. exact (irlf_ok self a s l p z). Qed.
Print Assumptions C83_value_partial.
(** Luminosities rise and densities fall with redshift, without jumps at the breaks. *)
Theorem C83_monotone self a s l p y z P L P' L' : 0 < l -> 0 < p -> -1 < y < z ->
  get_irlf_pars self (Some a) s l p y = Ok (P, L, a, s) -> get_irlf_pars self (Some a) s l p z = Ok (P', L', a, s) ->
  0 < L < L' /\ 0 < P' < P.
Proof.
  intros HL HP Z E E'. destruct (irlf_ok self a s l p y) as (? & ? & X & A & B). rewrite E in X. injection X as <- <-.
  destruct (irlf_ok self a s l p z) as (? & ? & X & A' & B'). rewrite E' in X. injection X as <- <-.
  split; [exact (lstar_inc l y z L L' HL Z A A')|exact (phistar_dec p y z P P' HP Z B B')].
Qed.
Print Assumptions C83_monotone.
(** The parameters given to the constructor do not change the matching it makes: it is
    always that of the default parameters. *)
Theorem C83_constructor_refuted given given' z : -1 < z ->
  constructor_pars given z = constructor_pars given' z
  /\ exists P L, constructor_pars given z = Ok (P, L, 1.2, 0.5) /\ g13_lstar (Rpower 10 9.95) z L /\ g13_phistar (Rpower 10 (-2.25)) z P.
Proof.
  intros _. split; [reflexivity|]. destruct (irlf_ok None 1.2 0.5 (Rpower 10 9.95) (Rpower 10 (-2.25)) z) as (P & L & E & A & B).
  exists P, L. split; [|split; [exact A|exact B]]. rewrite <- E. unfold constructor_pars, lf_default, p10. cbn [lf_alpha0 lf_sigma0 lf_lstar0 lf_phistar0].
  replace (12 / 10) with 1.2 by lra. replace (5 / 10) with 0.5 by lra. replace (995 / 100) with 9.95 by lra. replace (- 225 / 100) with (-2.25) by lra. reflexivity.
Qed.
Print Assumptions C83_constructor_refuted.
(** alpha0=None stands for the constructor's parameters, all four of them: the other three
    arguments are ignored. *)
Theorem C83_none_refuted given s l p z : -1 < z ->
  exists P L, get_irlf_pars (Some given) None s l p z = Ok (P, L, lf_alpha0 given, lf_sigma0 given)
    /\ g13_lstar (lf_lstar0 given) z L /\ g13_phistar (lf_phistar0 given) z P.
Proof.
  intros _. destruct (irlf_ok None (lf_alpha0 given) (lf_sigma0 given) (lf_lstar0 given) (lf_phistar0 given) z) as (P & L & E & A & B).
  exists P, L. split; [|split; [exact A|exact B]]. destruct given. exact E.
Qed.
Print Assumptions C83_none_refuted.
Example C83_nonvacuous : exists P L P' L', get_irlf_pars None (Some 1.2) 0.5 (10 ^ 9) 0.01 0 = Ok (P, L, 1.2, 0.5)
  /\ get_irlf_pars None (Some 1.2) 0.5 (10 ^ 9) 0.01 2 = Ok (P', L', 1.2, 0.5) /\ L = 10 ^ 9 /\ P = 0.01 /\ 0 < L < L' /\ 0 < P' < P.
Proof.
  destruct (C83_value_partial None 1.2 0.5 (10 ^ 9) 0.01 0 ltac:(lra)) as (P & L & E & (A & _) & (B & _)).
  destruct (C83_value_partial None 1.2 0.5 (10 ^ 9) 0.01 2 ltac:(lra)) as (P' & L' & E' & _).
  exists P, L, P', L'. split; [exact E|]. split; [exact E'|].
  split; [rewrite A by lra; rewrite Rplus_0_r, Rpower_1_base; ring|]. split; [rewrite B by lra; rewrite Rplus_0_r, Rpower_1_base; ring|].
  apply (C83_monotone None 1.2 0.5 (10 ^ 9) 0.01 0 2); auto; lra.
Qed.

(** * C84 *)
(** The main sequence is that of equation 6 with the parameters given, and with the defaults
    that of the paper; it is positive. *)
Theorem C84_main_sequence b m z : 0 < m -> -1 < z ->
  b17_sfms b (Some m) z = Some (main_sequence b m z) /\ 0 < main_sequence b m z /\ main_sequence b17_default m z = ms_published m z.
Proof. intros M Z. split; [exact (sfms_ok b m z M)|]. split; [apply exp_pos|exact (ms_default m z)]. Qed.
Print Assumptions C84_main_sequence.
(** The fraction of star forming galaxies is that of equation 2, for the defaults strictly
    between 0 and 1, and falls with mass up to redshift 8. *)
Theorem C84_fraction_partial erf b m z : 0 < m -> -1 < z -> sigsf0 b + beta1 b * z + beta2 b * z ^ 2 <> 0 ->
  b17_sffrac erf b (Some m) z = Some (sf_fraction erf b m z)
  /\ sf_fraction erf b17_default m z = sf_published erf m z
  /\ (erf_like erf -> 0 <= z -> 0 < sf_published erf m z < 1)
  /\ (erf_like erf -> 0 <= z <= 8 -> forall m', m < m' -> sf_published erf m' z < sf_published erf m z).
Proof.
  intros M Z W. split; [exact (sffrac_ok erf b m z M)|]. split; [exact (sf_default erf m z M)|]. split; [exact (sf_range erf m z)|].
  intros E Z8 m' M'. apply (sf_mono erf m m' z E ltac:(lra) ltac:(lra)). nra.
Qed.
Print Assumptions C84_fraction_partial.
(** From redshift 9 the width of the defaults is negative: heavier galaxies are more likely to
    form stars. *)
Theorem C84_fraction_refuted erf m m' z : erf_like erf -> 9 <= z -> 0 < m < m' ->
  exists f f', b17_sffrac erf b17_default (Some m) z = Some f /\ b17_sffrac erf b17_default (Some m') z = Some f' /\ f < f'.
Proof.
  intros E Z M. exists (sf_published erf m z), (sf_published erf m' z).
  split; [apply sffrac_default; lra|]. split; [apply sffrac_default; lra|]. apply (sf_mono erf m m' z E ltac:(lra) M). nra.
Qed.
Print Assumptions C84_fraction_refuted.
(** The fraction of starbursts rises from 1.5 % to 3 % at redshift 1. *)
Theorem C84_starburst y z : 0 <= y <= z -> b17_sbfrac z = sb_published z /\ 0.015 <= b17_sbfrac y <= b17_sbfrac z /\ b17_sbfrac z <= 0.03.
Proof.
  intros H. rewrite !sbfrac_ok. split; [reflexivity|]. pose proof (sb_range y). pose proof (sb_range z). pose proof (sb_mono y z). lra.
Qed.
Print Assumptions C84_starburst.
(** Every galaxy: with one normal and two uniform draws of its own, all from the generator that
    is passed, it is quenched, a starburst or on the main sequence; its rate is scattered
    around the median and capped. *)
Theorem C84_assign {G} (normals uniforms : nat -> G -> list R * G) erf b mz g :
  draws normals -> draws uniforms -> 0 < msoffset b -> 0 <= sboffset b -> 0 <= sflimit b ->
  exists out, b17_sfr normals uniforms erf b mz g = (out, snd (uniforms (length mz) (snd (uniforms (length mz) (snd (normals (length mz) g))))))
    /\ length out = length mz
    /\ let n1 := snd (normals (length mz) g) in
       forall i m z n u1 u2, nth_error mz i = Some (Some m, z) -> 0 < m -> -1 < z -> sigsf0 b + beta1 b * z + beta2 b * z ^ 2 <> 0 ->
         nth_error (fst (normals (length mz) g)) i = Some n ->
         nth_error (fst (uniforms (length mz) n1)) i = Some u1 ->
         nth_error (fst (uniforms (length mz) (snd (uniforms (length mz) n1)))) i = Some u2 ->
         let rate offset := Rmin (sflimit b) (offset * main_sequence b m z * Rpower 10 (scat b * n)) in
         (sf_fraction erf b m z < u2 -> nth_error out i = Some (Some 0, false, true))
         /\ (u2 <= sf_fraction erf b m z -> u1 < sb_published z -> nth_error out i = Some (Some (rate (sboffset b)), true, false))
         /\ (u2 <= sf_fraction erf b m z -> sb_published z <= u1 -> nth_error out i = Some (Some (rate (msoffset b)), false, false))
         /\ 0 <= rate (sboffset b) <= sflimit b /\ 0 <= rate (msoffset b) <= sflimit b.
Proof.
  intros DN DU O1 O2 L. destruct (sfr_ok normals uniforms DN DU erf b mz g) as (out & n1 & n2 & g' & E & LO & -> & -> & -> & V).
  exists out. split; [exact E|]. split; [exact LO|]. intros n1 i m z n u1 u2 MZ M Z W N U1 U2 rate.
  specialize (V i (Some m) z n u1 u2 MZ N U1 U2).
  destruct (assign_ok erf b m z (exp (ln 10 * scat b * n)) u1 u2 M O1 O2 L (exp_pos _)) as (A & B & C). rewrite V.
  assert (EQ : exp (ln 10 * scat b * n) = Rpower 10 (scat b * n)) by (unfold Rpower; f_equal; ring). rewrite EQ in *.
  split; [intros X; rewrite (A X); reflexivity|]. split; [intros X Y; rewrite (B X Y); reflexivity|]. split; [intros X Y; rewrite (C X Y); reflexivity|].
  assert (PO : forall o, 0 <= o -> 0 <= o * main_sequence b m z * Rpower 10 (scat b * n)).
  { intros o O. apply Rmult_le_pos; [apply Rmult_le_pos; [exact O|left; apply exp_pos]|left; apply exp_pos]. }
  pose proof (PO (sboffset b) O2). pose proof (PO (msoffset b) ltac:(lra)).
  unfold rate. split; (split; [apply Rmin_glb; lra|apply Rmin_l]).
Qed.
Print Assumptions C84_assign.
(** A galaxy whose mass is NaN or negative has rate NaN; it is never marked as quenched and may
    be marked as a starburst. *)
Theorem C84_nan_partial {G} (normals uniforms : nat -> G -> list R * G) erf b mz g i m z n u1 u2 :
  draws normals -> draws uniforms ->
  let n1 := snd (normals (length mz) g) in
  nth_error mz i = Some (m, z) -> (forall x, m = Some x -> x < 0) ->
  nth_error (fst (normals (length mz) g)) i = Some n -> nth_error (fst (uniforms (length mz) n1)) i = Some u1 ->
  nth_error (fst (uniforms (length mz) (snd (uniforms (length mz) n1)))) i = Some u2 ->
  exists sb, nth_error (fst (b17_sfr normals uniforms erf b mz g)) i = Some (None, sb, false) /\ (sb = true <-> u1 < sb_published z).
Proof.
  intros DN DU n1 MZ M N U1 U2. destruct (sfr_ok normals uniforms DN DU erf b mz g) as (out & ? & ? & g' & E & LO & -> & -> & -> & V).
  specialize (V i m z n u1 u2 MZ N U1 U2). rewrite assign_nan in V by exact M. rewrite E. eexists. split; [exact V|]. apply rltb_lt.
Qed.
Print Assumptions C84_nan_partial.
(** The correction at low redshift is documented for redshifts below 1, but between 0.5 and 1 it
    does nothing. *)
Theorem C84_lowz_refuted b b' m z : 0.5 <= z < 1 ->
  b' = B17 (fq00 b) (gamma_ b) (logmt0 b) (alpha1 b) (alpha2 b) (sigsf0 b) (beta1 b) (beta2 b) (m0 b) (m1 b) (a0 b) (a1 b) (a2 b)
           (negb (correct b)) (scat b) (msoffset b) (sboffset b) (sflimit b) ->
  b17_sfms b' m z = b17_sfms b m z.
Proof.
  intros Z ->. unfold b17_sfms. cbn [m0 m1 a0 a1 a2 correct]. rewrite (proj2 (rltb_ge z (5 / 10))) by lra. rewrite !andb_false_r. reflexivity.
Qed.
Print Assumptions C84_lowz_refuted.
Example C84_nonvacuous : exists erf : R -> R, erf_like erf
  /\ exists out, b17_sfr (fun k (g : unit) => (repeat 0 k, g)) (fun k g => (repeat 0 k, g)) erf b17_default ((Some (10 ^ 9), 0.5) :: nil) tt = (out, tt)
     /\ exists r, out = (Some r, true, false) :: nil.
Proof.
  assert (E : erf_like (fun x => 2 / PI * atan x)).
  { pose proof PI_RGT_0 as P. assert (Q : 0 < 2 / PI) by (apply Rdiv_lt_0_compat; lra). split.
    - intros x. pose proof (atan_bound x) as B. assert (W : 2 / PI * (PI / 2) = 1) by (field; lra).
      assert (W2 : 2 / PI * (- PI / 2) = -1) by (field; lra). nra.
    - intros x y X. apply Rmult_lt_compat_l; [exact Q|]. apply atan_increasing. exact X. }
  exists (fun x => 2 / PI * atan x). split; [exact E|].
  destruct (C84_assign (fun k (g : unit) => (repeat 0 k, g)) (fun k g => (repeat 0 k, g)) (fun x => 2 / PI * atan x) b17_default ((Some (10 ^ 9), 0.5) :: nil) tt)
    as (out & X & L & V).
  - intros k g. apply repeat_length.
  - intros k g. apply repeat_length.
  - cbn. lra.
  - cbn. lra.
  - cbn [sflimit b17_default]. apply pow_le. lra.
  - exists out. split; [exact X|]. specialize (V 0%nat (10 ^ 9) 0.5 0 0 0). cbn [nth_error length repeat fst snd] in V.
    destruct V as (_ & V & _); auto; try lra.
    { cbn [sigsf0 beta1 beta2 b17_default]. lra. }
    rewrite sf_default in V by lra. pose proof (sf_range _ (10 ^ 9) 0.5 E ltac:(lra)). pose proof (sb_range 0.5 ltac:(lra)).
    specialize (V ltac:(lra) ltac:(lra)). eexists. destruct out as [|o [|? ?]]; try discriminate. cbn [nth_error] in V. injection V as ->. reflexivity.
Qed.

(** * C85: [main] is stellarmass.npy or lir.npy; [make] is the matching, as a function of the
    constructor's arguments. *)
(** From an empty directory, after any history of constructor calls in which no interruption
    came after the table was begun, a constructor gives the table of the last matching that
    was due, complete and with its own axes. *)
Theorem C85_history_partial {V A} main (make : A -> exc (V * V * V)) (h : list (event A)) (comp remake : bool) a :
  main = "stellarmass.npy" \/ main = "lir.npy" -> harmless (fails make) h None ->
  let fs := fold_left (run main make) h nil in
  let now := held (fails make) h None in
  snd (cache_init main make comp remake a fs) =
    match remake, comp, now with
    | true, _, _ | false, true, None => match make a with Ok t => Ok (Some t) | Raise e => Raise e end
    | false, _, Some b => match make b with Ok t => Ok (Some t) | Raise _ => Ok None end
    | false, false, None => Ok None
    end.
Proof.
  intros M H fs now. rewrite (init_result main make M fs now comp remake a).
  - destruct remake, comp, now as [b|]; cbn; try reflexivity; destruct (make b); reflexivity.
  - apply history; auto. reflexivity.
Qed.
Print Assumptions C85_history_partial.
(** Without a table every evaluation raises ValueError; with one it is that of the
    interpolator. *)
Theorem C85_uninitialised {V X} (ev : V * V * V -> X -> option R) c x t :
  cache_eval ev c None x = Raise ValueError /\ cache_eval ev 1 (Some t) x = Ok (ev t x)
  /\ (forall v, ev t x = Some v -> cache_eval ev c (Some t) x = Ok (Some (v * c))).
Proof.
  split; [reflexivity|]. split; cbn; [destruct (ev t x); cbn; rewrite ?Rmult_1_r; reflexivity|]. intros v ->. reflexivity.
Qed.
Print Assumptions C85_uninitialised.
(** Which property is matched. *)
Theorem C85_property vm ma hp :
  match hp with
  | "vmax" => resolve vm ma hp = Ok "vmax"
  | "mass" => resolve vm ma hp = Ok "mass"
  | "auto" => resolve vm ma hp = if vm then Ok "vmax" else if ma then Ok "mass" else Raise ValueError
  | _ => resolve vm ma hp = Raise ValueError
  end.
Proof.
  destruct (String.eqb_spec hp "vmax") as [->|N1]; [reflexivity|]. destruct (String.eqb_spec hp "mass") as [->|N2]; [reflexivity|].
  destruct (String.eqb_spec hp "auto") as [->|N3]; [destruct vm, ma; reflexivity|].
  assert (E : resolve vm ma hp = Raise ValueError).
  { unfold resolve. cbn [existsb]. apply String.eqb_neq in N1, N2, N3. rewrite N1, N2, N3. reflexivity. }
  repeat (match goal with |- match ?x with _ => _ end => destruct x end; try exact E; try congruence).
Qed.
Print Assumptions C85_property.
(** A constructor with comp=True and other arguments returns the old table: the arguments the
    table was made with are not stored. *)
Theorem C85_stale_refuted {V A} main (make : A -> exc (V * V * V)) a b t :
  main = "stellarmass.npy" \/ main = "lir.npy" -> make a = Ok t ->
  snd (cache_init main make true false b (fst (cache_init main make true false a nil))) = Ok (Some t).
Proof.
  intros M E. pose proof (C85_history_partial main make (Made true false a :: nil) true false b M I) as H.
  cbv zeta in H. cbn [fold_left run held] in H. unfold fails in H. rewrite E in H. rewrite H, E. reflexivity.
Qed.
Print Assumptions C85_stale_refuted.
(** remake, documented as ignored unless comp is set, replaces the table. *)
Theorem C85_remake_refuted {V A} main (make : A -> exc (V * V * V)) a b t u c :
  main = "stellarmass.npy" \/ main = "lir.npy" -> make a = Ok t -> make b = Ok u ->
  let fs := fst (cache_init main make true false a nil) in
  snd (cache_init main make false true b fs) = Ok (Some u)
  /\ snd (cache_init main make false false c (fst (cache_init main make false true b fs))) = Ok (Some u).
Proof.
  intros M E F fs. pose proof (C85_history_partial main make (Made true false a :: nil) false true b M I) as H.
  pose proof (C85_history_partial main make (Made true false a :: Made false true b :: nil) false false c M I) as H2.
  cbv zeta in H, H2. cbn [fold_left run held] in H, H2. unfold fails in H, H2. rewrite F in H. rewrite E, F in H2. split; [exact H|rewrite F in H2; exact H2].
Qed.
Print Assumptions C85_remake_refuted.
(** A remake that is interrupted between its files leaves the new axes with the old table, and
    the next constructor takes them without complaint: all axes of the matched property have
    5000 entries. *)
Theorem C85_mixed_refuted {V A} main (make : A -> exc (V * V * V)) a b c axis zaxis table axis' zaxis' table' :
  main = "stellarmass.npy" \/ main = "lir.npy" -> make a = Ok (axis, zaxis, table) -> make b = Ok (axis', zaxis', table') ->
  let fs := fst (cache_init main make true false a nil) in
  snd (cache_init main make true false c (cache_crash main make true true b 2 fs)) = Ok (Some (axis', zaxis, table))
  /\ snd (cache_init main make true false c (cache_crash main make true true b 4 fs)) = Ok (Some (axis', zaxis', table))
  /\ forall q q' x x', length (prop_axis q x) = 5000%nat /\ length (prop_axis q' x') = 5000%nat.
Proof.
  intros M E F fs.
  assert (H : holds main make fs (Some a)).
  { pose proof (history main make M (Made true false a :: nil) nil None eq_refl I) as H. cbn [fold_left run held] in H. unfold fails in H. rewrite E in H. exact H. }
  assert (I1 : forall fs' x, cache_load main fs' = Ok (Some x) -> snd (cache_init main make true false c fs') = Ok (Some x)).
  { intros fs' x L. unfold cache_init, cache_writes. assert (EX : exists_file fs' main = true) by (unfold cache_load in L; destruct (exists_file fs' main); [reflexivity|discriminate]).
    rewrite EX. cbn. exact L. }
  split; [|split].
  - apply I1. destruct (remake_mixed main make M fs a b true _ _ 2 H E F) as (R & _). rewrite R by auto. reflexivity.
  - apply I1. destruct (remake_mixed main make M fs a b true _ _ 4 H E F) as (R & _). rewrite R by auto. reflexivity.
  - assert (X : forall q x, length (prop_axis q x) = 5000%nat).
    { intros q x. unfold prop_axis. destruct (String.eqb q "vmax"); rewrite ?map_length; unfold linspace; rewrite map_length, seq_length; reflexivity. }
    auto.
Qed.
Print Assumptions C85_mixed_refuted.
(** A first matching interrupted while the table is written leaves a file that every later
    constructor fails to read, comp or not; only remake repairs it. *)
Theorem C85_torn_refuted {V A} main (make : A -> exc (V * V * V)) a b t comp :
  main = "stellarmass.npy" \/ main = "lir.npy" -> make a = Ok t ->
  let fs := cache_crash main make true false a 5 nil in
  cache_init main make comp false b fs = (fs, Raise (UserExn 1)) /\ snd (cache_init main make comp true a fs) = Ok (Some t).
Proof.
  intros M E fs. split; [apply (torn main make M nil a t eq_refl E)|].
  unfold cache_init, cache_writes. cbn [orb]. rewrite E. cbn [bind snd]. rewrite (load_holds main make _ (Some a)); [rewrite E; reflexivity|].
  exists t. split; [exact E|]. apply wrote. exact M.
Qed.
Print Assumptions C85_torn_refuted.
Example C85_nonvacuous :
  let make (n : nat) : exc (nat * nat * nat) := if Nat.eqb n 0 then Raise ValueError else Ok (n, n, n) in
  let h := Crashed true false 3%nat 4 :: Made true false 0%nat :: Made true false 1%nat :: Made true true 2%nat :: nil in
  harmless (fails make) h None /\ held (fails make) h None = Some 2%nat
  /\ snd (cache_init "lir.npy" make false false 5%nat (fold_left (run "lir.npy" make) h nil)) = Ok (Some (2, 2, 2)%nat).
Proof. cbn. repeat split; auto; lia. Qed.

(** * C86 *)
(** The tables: masses and redshifts are those of the file, sorted, each once; at every mass and
    redshift stands the stellar mass of the only line with both, and the rate of that line,
    or that of the highest mass with a valid one if it is marked as missing. *)
Theorem C86_tables rows s t ms zs : spline_tables rows = Ok (s, t, ms, zs) ->
  Sorted.StronglySorted Rlt ms /\ Sorted.StronglySorted Rlt zs
  /\ (forall m, In m ms <-> In m (map b_m rows)) /\ (forall z, In z zs <-> In z (map b_z rows))
  /\ length s = length zs /\ length t = length zs
  /\ forall j z, nth_error zs j = Some z -> exists cs ct col v,
       nth_error s j = Some cs /\ nth_error t j = Some ct
       /\ Forall2 (fun m x => exists r, only m z rows r /\ x = b_sfr r) ms col /\ last_valid col v
       /\ Forall2 (fun x y => exists w, filled v x w /\ y = Rpower 10 w) col cs
       /\ Forall2 (fun m x => exists r, only m z rows r /\ x = b_star r) ms ct.
Proof.
  intros H. destruct (spline_ok rows s t ms zs H) as (-> & -> & L1 & L2 & C).
  destruct (unique_ok (map b_m rows)) as (S1 & I1). destruct (unique_ok (map b_z rows)) as (S2 & I2).
  do 6 (split; [assumption|]). intros j z Z. destruct (C j z Z) as (cs & ct & A & B & (col & v & D)). exists cs, ct, col, v. auto.
Qed.
Print Assumptions C86_tables.
(** They can be made whenever the file has exactly one line for every pair of its masses and
    redshifts and a valid rate at every redshift; a pair without one, or with two, is a
    ValueError. *)
Theorem C86_succeeds rows :
  (forall m z, In m (map b_m rows) -> In z (map b_z rows) -> exists r, only m z rows r) ->
  (forall z, In z (map b_z rows) -> exists r, In r rows /\ b_z r = z /\ ~ missing (b_sfr r)) ->
  exists res, spline_tables rows = Ok res.
Proof. exact (spline_succeeds rows). Qed.
Print Assumptions C86_succeeds.
Theorem C86_pair rows m z : In m (map b_m rows) -> In z (map b_z rows) -> (forall r, ~ only m z rows r) -> spline_tables rows = Raise ValueError.
Proof. exact (spline_pair rows m z). Qed.
Print Assumptions C86_pair.
(** Missing rates at low mass also get the rate of the highest mass. *)
Theorem C86_low_refuted x v rest : missing x -> ~ missing v ->
  exists out, fill_column (x :: rest ++ v :: nil) = Ok (v :: out).
Proof.
  intros X V. destruct (fill_ok (x :: rest ++ v :: nil)) as [(w & out & (l & r & E & NW & R) & F & A)|(A & _)].
  - assert (w = v).
    { destruct r as [|y r] using rev_ind.
      - change (x :: rest ++ v :: nil) with ((x :: rest) ++ v :: nil) in E. apply app_inj_tail in E. symmetry. apply E.
      - clear IHr. assert (Y : y = v).
        { change (x :: rest ++ v :: nil) with ((x :: rest) ++ v :: nil) in E.
          replace (l ++ w :: r ++ y :: nil) with ((l ++ w :: r) ++ y :: nil) in E by (rewrite <- app_assoc; reflexivity).
          apply app_inj_tail in E. symmetry. apply E. }
        exfalso. apply V. rewrite <- Y. apply R, in_or_app. right. left. reflexivity. }
    subst w. inversion A as [|? y ? ? Q]; subst. eexists. rewrite F. destruct Q as [(_ & ->)|(N & _)]; [reflexivity|contradiction].
  - exfalso. apply V, A. right. apply in_or_app. right. left. reflexivity.
Qed.
Print Assumptions C86_low_refuted.
(** The first use writes the tables and every later one reads them back, provided the first was not
    interrupted between its first and its last step. *)
Theorem C86_files_partial {V} (s m a z : V) k :
  (k = 0 \/ 8 <= k)%nat -> snd (b13_init (Ok (s, m, a, z)) (b13_crash (Ok (s, m, a, z)) k nil)) = Ok (s, m, a, z)
  /\ forall make, snd (b13_init make (fst (b13_init (Ok (s, m, a, z)) nil))) = Ok (s, m, a, z).
Proof.
  intros K. split; [exact (b13_safe s m a z k K)|]. intros make. rewrite (proj2 (b13_fresh s m a z) make). reflexivity.
Qed.
Print Assumptions C86_files_partial.
(** Interrupted anywhere in between, every later use raises. *)
Theorem C86_crash_refuted {V} (s m a z : V) k : (1 <= k <= 7)%nat ->
  let fs := b13_crash (Ok (s, m, a, z)) k nil in
  exists e, (e = OSError \/ e = UserExn 1) /\ forall make, b13_init make fs = (fs, Raise e).
Proof. exact (b13_broken s m a z k). Qed.
Print Assumptions C86_crash_refuted.
Example C86_nonvacuous :
  let rows := BRow 0 10 (-1000) 7 :: BRow 0 11 1 8 :: BRow 1 11 (-1000) 9 :: BRow 1 10 2 6 :: nil in
  exists s t ms zs, spline_tables rows = Ok (s, t, ms, zs) /\ In 10 ms /\ In 1 zs.
Proof.
  intros rows. destruct (C86_succeeds rows) as (((s & ms) & zs) & E).
  - cbn. intros m z M Z.
    assert (HM : m = 10 \/ m = 11) by (destruct M as [<-|[<-|[<-|[<-|[]]]]]; auto).
    assert (HZ : z = 0 \/ z = 1) by (destruct Z as [<-|[<-|[<-|[<-|[]]]]]; auto).
    clear M Z. destruct HM as [-> | ->], HZ as [-> | ->].
    + exists (BRow 0 10 (-1000) 7), nil, (BRow 0 11 1 8 :: BRow 1 11 (-1000) 9 :: BRow 1 10 2 6 :: nil).
      repeat split. intros r H (A & B). cbn in H. destruct H as [<-|[<-|[<-|[]]]]; cbn in A, B; lra.
    + exists (BRow 1 10 2 6), (BRow 0 10 (-1000) 7 :: BRow 0 11 1 8 :: BRow 1 11 (-1000) 9 :: nil), nil.
      repeat split. intros r H (A & B). cbn in H. destruct H as [<-|[<-|[<-|[]]]]; cbn in A, B; lra.
    + exists (BRow 0 11 1 8), (BRow 0 10 (-1000) 7 :: nil), (BRow 1 11 (-1000) 9 :: BRow 1 10 2 6 :: nil).
      repeat split. intros r H (A & B). cbn in H. destruct H as [<-|[<-|[<-|[]]]]; cbn in A, B; lra.
    + exists (BRow 1 11 (-1000) 9), (BRow 0 10 (-1000) 7 :: BRow 0 11 1 8 :: nil), (BRow 1 10 2 6 :: nil).
      repeat split. intros r H (A & B). cbn in H. destruct H as [<-|[<-|[<-|[]]]]; cbn in A, B; lra.
  - cbn. intros z [<-|[<-|[<-|[<-|[]]]]].
    1,2: exists (BRow 0 11 1 8); repeat split; [auto|unfold missing; cbn; lra].
    1,2: exists (BRow 1 10 2 6); repeat split; [auto|unfold missing; cbn; lra].
  - destruct s as [s t]. exists s, t, ms, zs. split; [exact E|]. destruct (C86_tables rows s t ms zs E) as (_ & _ & M & Z & _).
    split; [apply M|apply Z]; cbn; auto.
Qed.

(** * C87: [dlold], [vold]: luminosity distance and differential volume of the cosmology of the
    published fits; [dlnew], [vnew]: of the simulation. *)
(** Between the middles of two neighbouring bins the parameters are interpolated in 1 + z, the
    mass and the second density in their logarithms, after they have been carried over to the
    cosmology of the simulation. *)
Theorem C87_between dlold vold dlnew vnew i s u t :
  (forall z, 0 < z -> 0 < dlold z /\ 0 < vold z /\ 0 < dlnew z /\ 0 < vnew z) ->
  nth_error smf_published i = Some s -> nth_error smf_published (S i) = Some u -> 0 <= t <= 1 ->
  SfrSpec.between t (carried dlold vold dlnew vnew s) (carried dlold vold dlnew vnew u)
    (b17_smfpars dlold vold dlnew vnew (mix t (mid s) (mid u))).
Proof. intros PD. exact (smf_between dlold vold dlnew vnew PD i s u t). Qed.
Print Assumptions C87_between.
(** Every redshift from 0.0425 to 7 lies between two such middles; outside, the parameters of the
    first or last bin are used unchanged. *)
Theorem C87_range dlold vold dlnew vnew z :
  (forall z, 0 < z -> 0 < dlold z /\ 0 < vold z /\ 0 < dlnew z /\ 0 < vnew z) ->
  (0.0425 <= z <= 7 -> exists i s u t, nth_error smf_published i = Some s /\ nth_error smf_published (S i) = Some u
                       /\ 0 <= t <= 1 /\ z = mix t (mid s) (mid u))
  /\ forall s, (z <= 0.0425 /\ nth_error smf_published 0 = Some s) \/ (7 <= z /\ nth_error smf_published 12 = Some s) ->
       let c := carried dlold vold dlnew vnew s in
       b17_smfpars dlold vold dlnew vnew z = (s_m c, s_a1 c, s_p1 c, s_a2 c, s_p2 c).
Proof.
  intros PD. split; [apply (smf_cover dlold vold dlnew vnew PD)|]. intros s H. apply smf_flat; [exact PD|].
  destruct H as [(Z & H)|(Z & H)]; [left|right]; (split; [exact Z|]); cbn in H; injection H as <-; reflexivity.
Qed.
Print Assumptions C87_range.
(** The parameters always make a mass function: positive mass and second density, first density
    not negative, second slope steeper than the first, slopes within the published ones. *)
Theorem C87_valid dlold vold dlnew vnew z m a1 p1 a2 p2 :
  (forall z, 0 < z -> 0 < dlold z /\ 0 < vold z /\ 0 < dlnew z /\ 0 < vnew z) ->
  b17_smfpars dlold vold dlnew vnew z = (m, a1, p1, a2, p2) ->
  0 < m /\ 0 <= p1 /\ 0 < p2 /\ a2 < a1 /\ -0.95 <= a1 <= 0.82 /\ -1.88 <= a2 <= -1.28.
Proof. intros PD. exact (smf_range dlold vold dlnew vnew PD z m a1 p1 a2 p2). Qed.
Print Assumptions C87_valid.
(** In the cosmology of the fits the middle of a bin has the published parameters. *)
Theorem C87_published dl v i s : (forall z, 0 < z -> 0 < dl z /\ 0 < v z) -> nth_error smf_published i = Some s ->
  b17_smfpars dl v dl v (mid s) = (s_m s, s_a1 s, s_p1 s, s_a2 s, s_p2 s).
Proof.
  intros PD N. assert (PD' : forall z, 0 < z -> 0 < dl z /\ 0 < v z /\ 0 < dl z /\ 0 < v z) by (intros y Y; destruct (PD y Y); auto).
  pose proof (nth_error_In _ _ N) as IN. destruct (bin_in s IN) as (M & A & B & C & _). destruct (PD (mid s) M) as (P1 & P2).
  assert (CA : carried dl v dl v s = s).
  { unfold carried. destruct s as [z0 z1 m a p a' p']. cbn [s_m s_p1 s_p2 s_a1 s_a2 s_zmin s_zmax] in *. unfold Rdiv. rewrite !Rinv_r by lra. rewrite pow1, !Rmult_1_r. reflexivity. }
  destruct (nth_error smf_published (S i)) as [u|] eqn:U.
  - pose proof (C87_between dl v dl v i s u 0 PD' N U ltac:(lra)) as H. unfold SfrSpec.between in H. rewrite CA in H.
    unfold logmix, mix in H. rewrite Rminus_0_r, !Rmult_1_l, !Rmult_0_l, !Rplus_0_r in H. change (Rpower 10) with RelModel.p10 in H.
    rewrite !log_inv in H by lra. exact H.
  - assert (i = 12%nat). { apply nth_error_None in U. assert (i < 13)%nat by (change 13%nat with (length smf_published); apply nth_error_Some; congruence). cbn in U. lia. }
    subst i. pose proof (proj2 (C87_range dl v dl v (mid s) PD') s) as H. cbv zeta in H. rewrite CA in H. apply H. right. split; [|exact N].
    cbn in N. injection N as <-. unfold mid. cbn. lra.
Qed.
Print Assumptions C87_published.
Example C87_nonvacuous : exists s, nth_error smf_published 5 = Some s /\ mid s = 1.75
  /\ b17_smfpars (fun z => z) (fun z => z) (fun z => z) (fun z => z) 1.75 = (s_m s, 0.82, s_p1 s, -1.28, s_p2 s).
Proof.
  eexists. split; [reflexivity|]. split; [unfold mid; cbn; lra|].
  assert (E : 1.75 = mid (Smf 1.5 2.0 (ten 10.51) 0.82 (0.64 / 10 ^ 3) (-1.28) (0.969 / 10 ^ 3))) by (unfold mid; cbn; lra).
  rewrite E. rewrite (C87_published _ _ 5) by (try reflexivity; auto). reflexivity.
Qed.
