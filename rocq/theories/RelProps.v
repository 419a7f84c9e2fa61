(** C78-C81: luminosity relations, their scatter and their duty cycles. *)
From Verif Require Import Dict Util RealUtil RelModel RelSpec RelGauss Rel Rel2.
From Coq Require Import Reals Lra Lia.
From Coquelicot Require Import Coquelicot.
Open Scope string_scope. Open Scope list_scope.
Open Scope R_scope.

(** * C78: the published fits *)
Theorem C78_delooze {G} (normals : nat -> G -> list R * G) line set m b sfr fs g : In (line, set, m, b) delooze_fits ->
  exists out, delooze14 normals sfr line set false fs g = Ok (out, g)
    /\ Forall2 (fits (fun x L => lg x = m * lg L + b)) sfr out /\ brighter sfr out.
Proof. exact (delooze_fit normals line set m b sfr fs g). Qed.
Print Assumptions C78_delooze.

Theorem C78_uzgil {G} (normals : nat -> G -> list R * G) line A B d_mf sfr sig g : In (line, A, B) uzgil_fits -> 0 < d_mf ->
  exists out, uzgil14 normals sfr d_mf line false sig g = Ok (out, g)
    /\ Forall2 (fits (ir_rel d_mf A B)) sfr out /\ brighter sfr out.
Proof. exact (uzgil_fit normals line A B d_mf sfr sig g). Qed.
Print Assumptions C78_uzgil.

Theorem C78_spinoglio {G} (normals : nat -> G -> list R * G) line A B d_mf sfr sig g : In (line, A, B) spinoglio_fits -> 0 < d_mf ->
  exists out, spinoglio12 normals sfr d_mf line false sig g = Ok (out, g)
    /\ Forall2 (fits (ir_rel d_mf A B)) sfr out /\ brighter sfr out.
Proof. exact (spinoglio_fit normals line A B d_mf sfr sig g). Qed.
Print Assumptions C78_spinoglio.

Theorem C78_schaerer {G} (normals : nat -> G -> list R * G) set m b sfr sig g : In (set, m, b) schaerer_fits ->
  exists out, schaerer20 normals sfr set false sig g = Ok (out, g)
    /\ Forall2 (fits (fun x L => lg L = m * lg x + b)) sfr out /\ brighter sfr out.
Proof. exact (schaerer_fit normals set m b sfr sig g). Qed.
Print Assumptions C78_schaerer.

Theorem C78_zhao {G} (normals : nat -> G -> list R * G) d_mf sfr sig g : 0 < d_mf ->
  exists out, zhao13 normals sfr d_mf false sig g = (out, g)
    /\ Forall2 (fits (fun x L => lg (L_IR d_mf x) = 0.95 * lg L + 4.51)) sfr out /\ brighter sfr out.
Proof. exact (zhao_fit normals d_mf sfr sig g). Qed.
Print Assumptions C78_zhao.

(** log L_IR = a log L' + b, with L = 4.9e-5 (nu / 115.27 GHz)^3 L' for CO and
    L = 2.2e-5 (nu / 88.63 GHz)^3 L' for HCN *)
Theorem C78_li {G} (normals : nat -> G -> list R * G) sfr d_mf a b nu sig g : 0 < d_mf -> 0 < a -> 0 < nu ->
  exists out, li16 normals sfr d_mf a b nu false sig g = (out, g)
    /\ Forall2 (fits (fun x L => lg (L_IR d_mf x) = a * lg (L / (4.9 / 10 ^ 5 * (nu / (115.2712018 * 10 ^ 9)) ^ 3)) + b)) sfr out
    /\ brighter sfr out.
Proof. exact (li_fit normals sfr d_mf a b nu sig g). Qed.
Print Assumptions C78_li.
Theorem C78_gao {G} (normals : nat -> G -> list R * G) sfr d_mf a b nu sig g : 0 < d_mf -> 0 < a -> 0 < nu ->
  exists out, hcn_gao normals sfr d_mf a b nu false sig g = (out, g)
    /\ Forall2 (fits (fun x L => lg (L_IR d_mf x) = a * lg (L / (2.2 / 10 ^ 5 * (nu / (88.63 * 10 ^ 9)) ^ 3)) + b)) sfr out
    /\ brighter sfr out.
Proof. exact (gao_fit normals sfr d_mf a b nu sig g). Qed.
Print Assumptions C78_gao.

(** Names that are not in the tables never give numbers. *)
Theorem C78_names_partial {G} (normals : nat -> G -> list R * G) sfr d line set scatter fs sig g :
  ((~ exists m b, In (line, set, m, b) delooze_fits) -> delooze14 normals sfr line set scatter fs g = Raise ValueError)
  /\ ((~ exists m b, In (set, m, b) schaerer_fits) -> schaerer20 normals sfr set scatter sig g = Raise ValueError)
  /\ ((~ exists A B, In (line, A, B) uzgil_fits) -> uzgil14 normals sfr d line scatter sig g = Raise NameError)
  /\ ((~ exists A B, In (line, A, B) spinoglio_fits) -> spinoglio12 normals sfr d line scatter sig g = Raise NameError).
Proof.
  repeat split; intros H.
  - destruct (delooze_names normals sfr line set scatter fs g) as [X|X]; [elim (H X)|exact X].
  - destruct (schaerer_names normals sfr set scatter sig g) as [X|X]; [elim (H X)|exact X].
  - exact (proj2 (uzgil_names normals sfr d line scatter sig g) H).
  - exact (proj2 (spinoglio_names normals sfr d line scatter sig g) H).
Qed.
Print Assumptions C78_names_partial.

(** A documented set and two documented lines are among those. *)
Theorem C78_documented_refuted {G} (normals : nat -> G -> list R * G) sfr d line l scatter fs sig g :
  In l ["[SiIII]33um"; "[SiIII]19um"] ->
  In l ir_documented
  /\ delooze14 normals sfr line (Some "comp/agn") scatter fs g = Raise ValueError
  /\ uzgil14 normals sfr d l scatter sig g = Raise NameError
  /\ spinoglio12 normals sfr d l scatter sig g = Raise NameError.
Proof.
  intros H.
  assert (D : delooze14 normals sfr line (Some "comp/agn") scatter fs g = Raise ValueError).
  { destruct (delooze_names normals sfr line (Some "comp/agn") scatter fs g) as [(m & b & X)|X]; [|exact X].
    exfalso. simpl in X. repeat destruct X as [X|X]; try contradiction; discriminate X. }
  simpl in H. destruct H as [<-|[<-|[]]]; (split; [unfold ir_documented; simpl; tauto|]); (split; [exact D|]); split; reflexivity.
Qed.
Print Assumptions C78_documented_refuted.

(** The rest frequency is documented in GHz; giving the default line in GHz scales every
    luminosity down by 10^27. *)
Theorem C78_ghz_refuted {G} (normals : nat -> G -> list R * G) sfr d a b sig g :
  let scaled := map (option_map (fun L => 1 / 10 ^ 27 * L)) in
  fst (li16 normals sfr d a b 115.2712018 false sig g) = scaled (fst (li16 normals sfr d a b (115.2712018 * 10 ^ 9) false sig g))
  /\ fst (hcn_gao normals sfr d a b 88.63 false sig g) = scaled (fst (hcn_gao normals sfr d a b (88.63 * 10 ^ 9) false sig g)).
Proof.
  intros scaled. unfold scaled.
  replace 115.2712018 with (nu_co10 / 10 ^ 9) by (unfold nu_co10; lra).
  replace (nu_co10 / 10 ^ 9 * 10 ^ 9) with nu_co10 by field.
  replace 88.63 with (nu_hcn10 / 10 ^ 9) by (unfold nu_hcn10; lra).
  replace (nu_hcn10 / 10 ^ 9 * 10 ^ 9) with nu_hcn10 by field.
  exact (conj (li_ghz normals sfr d a b sig g) (gao_ghz normals sfr d a b sig g)).
Qed.
Print Assumptions C78_ghz_refuted.

Example C78_nonvacuous : In ("[CII]", Some "high z", 1.18, -8.52) delooze_fits /\ In ("[NeII]", 0.99, 2.94) spinoglio_fits
  /\ (exists L, fst (li16 (fun _ (g : unit) => (nil, g)) (1 :: nil) 1 1 10 nu_co10 false 0 tt) = Some L :: nil /\ L = 4.9 / 10 ^ 5)
  /\ (~ exists m b, In ("[CII]", Some "comp/agn", m, b) delooze_fits).
Proof.
  split; [unfold delooze_fits; simpl; tauto|]. split; [unfold spinoglio_fits; simpl; tauto|]. split.
  - assert (X : 1 / 1 * 10 ^ 10 = p10 10).
    { unfold p10. replace 10 with (INR 10) at 3 by (simpl; lra). rewrite Rpower_pow by lra. field. }
    unfold li16, scattered. cbn [fst map]. unfold p10log. rewrite X.
    pose proof (p10_pos 10).
    rewrite (proj2 (rltb_ge (p10 10) 0)) by lra. rewrite (proj2 (reqb_ne (p10 10) 0)) by lra.
    change (log10 (p10 10)) with (lg (p10 10)). rewrite lg_p10.
    eexists. split; [reflexivity|]. replace ((10 - 10) / 1) with 0 by field.
    unfold p10. rewrite Rpower_O by lra. pose proof nu_co10_pos.
    replace (nu_co10 / nu_co10) with 1 by (field; lra). lra.
  - intros (m & b & X). simpl in X. repeat destruct X as [X|X]; try contradiction; discriminate X.
Qed.

(** * C79: scatter *)
Theorem C79_value {G} (normals : nat -> G -> list R * G) x dex preserve g : draws normals ->
  let ns := fst (normals (length x) g) in
  let out := fst (log10normal normals x dex preserve g) in
  snd (log10normal normals x dex preserve g) = snd (normals (length x) g)
  /\ length out = length x
  /\ forall i n, nth_error ns i = Some n ->
       (nth_error x i = Some None -> nth_error out i = Some None)
       /\ forall v, nth_error x i = Some (Some v) ->
          nth_error out i = Some (Some (scatter_of (if preserve then Mean else Median) dex v n)).
Proof.
  intros D ns out. destruct (log10normal_ok normals D x dex preserve g) as ((A & B) & C).
  split; [exact C|]. split; [exact A|]. intros i n N. destruct (B i n N) as (U & V). split; [exact V|exact U].
Qed.
Print Assumptions C79_value.

(** zero stays zero, positive stays positive *)
Theorem C79_sign {G} (normals : nat -> G -> list R * G) x dex preserve g i v : draws normals -> nth_error x i = Some (Some v) ->
  exists w, nth_error (fst (log10normal normals x dex preserve g)) i = Some (Some w) /\ (0 < v -> 0 < w) /\ (v = 0 -> w = 0).
Proof.
  intros D V. destruct (log10normal_ok normals D x dex preserve g) as ((_ & B) & _).
  destruct (nth_error (fst (normals (length x) g)) i) as [n|] eqn:N.
  - eexists. split; [exact (proj1 (B i n N) v V)|]. apply scatter_pos.
  - apply nth_error_None in N. rewrite D in N. apply nth_error_None in N. congruence.
Qed.
Print Assumptions C79_sign.

(** With the linear mean preserved the mean over the normal draw is the value itself;
    otherwise it is larger by 10^(dex^2 ln 10 / 2), and the draw 0, the median, gives the
    value itself. *)
Theorem C79_mean dex x : exists v w,
  (forall n, fst (log10normal (fun _ (g : unit) => (n :: nil, g)) (Some x :: nil) dex true tt) = Some (v n) :: nil)
  /\ normal_mean v x
  /\ (forall n, fst (log10normal (fun _ (g : unit) => (n :: nil, g)) (Some x :: nil) dex false tt) = Some (w n) :: nil)
  /\ normal_mean w (x * Rpower 10 (dex * dex * ln 10 / 2)) /\ w 0 = x.
Proof.
  exists (scatter_of Mean dex x), (scatter_of Median dex x).
  assert (K : forall p n, fst (log10normal (fun _ (g : unit) => (n :: nil, g)) (Some x :: nil) dex p tt)
    = Some (scatter_of (if p then Mean else Median) dex x n) :: nil).
  { intros p n. unfold log10normal. destruct p; cbn; rewrite !p10_exp; do 2 f_equal.
    - replace (ln 10 * (dex * dex * ln 10 / 2)) with ((ln 10 * dex) ^ 2 / 2) by field.
      replace (ln 10 * (dex * n)) with (ln 10 * dex * n) by ring. simpl. field. apply Rgt_not_eq, exp_pos.
    - do 2 f_equal. ring. }
  split; [exact (K true)|]. split; [apply scatter_mean|]. split; [exact (K false)|]. split.
  - replace (Rpower 10 (dex * dex * ln 10 / 2)) with (exp ((ln 10 * dex) ^ 2 / 2)); [apply scatter_median|].
    unfold Rpower. f_equal. field.
  - simpl. rewrite Rmult_0_r, exp_0. ring.
Qed.
Print Assumptions C79_mean.

(** What scatter does to each relation: [base] is what the relation gives without it. *)
Theorem C79_relations {G} (normals : nat -> G -> list R * G) : draws normals -> forall sfr g,
  let ns := fst (normals (length sfr) g) in let g' := snd (normals (length sfr) g) in
  (forall d a b nu sig, exists base out, li16 normals sfr d a b nu false sig g = (base, g) /\ length base = length sfr
     /\ li16 normals sfr d a b nu true sig g = (out, g') /\ scatters Mean sig ns base out)
  /\ (forall d a b nu sig, exists base out, hcn_gao normals sfr d a b nu false sig g = (base, g) /\ length base = length sfr
     /\ hcn_gao normals sfr d a b nu true sig g = (out, g') /\ scatters Mean sig ns base out)
  /\ (forall d sig, exists base out, zhao13 normals sfr d false sig g = (base, g) /\ length base = length sfr
     /\ zhao13 normals sfr d true sig g = (out, g') /\ scatters Median sig ns base out)
  /\ (forall set m b sig, In (set, m, b) schaerer_fits ->
      exists base out, schaerer20 normals sfr set false sig g = Ok (base, g) /\ length base = length sfr
     /\ schaerer20 normals sfr set true sig g = Ok (out, g') /\ scatters Median sig ns base out)
  /\ (forall d line A B sig, In (line, A, B) uzgil_fits ->
      exists base out, uzgil14 normals sfr d line false sig g = Ok (base, g) /\ length base = length sfr
     /\ uzgil14 normals sfr d line true sig g = Ok (out, g') /\ scatters Median sig ns base out)
  /\ (forall d line A B sig, In (line, A, B) spinoglio_fits ->
      exists base out, spinoglio12 normals sfr d line false sig g = Ok (base, g) /\ length base = length sfr
     /\ spinoglio12 normals sfr d line true sig g = Ok (out, g') /\ scatters Median sig ns base out)
  /\ (forall line set sg fs, In (line, set, sg) delooze_sigma ->
      exists base out, delooze14 normals sfr line set false fs g = Ok (base, g) /\ length base = length sfr
     /\ delooze14 normals sfr line set true fs g = Ok (out, g')
     /\ scatters Median (match fs with Some x => x | None => sg end) ns base out).
Proof.
  intros D sfr g ns g'. repeat (split; [|]).
  - intros. exact (li_scatter normals D sfr d a b nu sig g).
  - intros. exact (gao_scatter normals D sfr d a b nu sig g).
  - intros. exact (zhao_scatter normals D sfr d sig g).
  - intros set m b sig H. exact (schaerer_scatter normals D sfr set m b sig g H).
  - intros d line A B sig H. destruct (proj1 (uzgil_names normals sfr d line false sig g) (ex_intro _ A (ex_intro _ B H))) as (r & E).
    destruct (ir_scatter normals D _ _ _ _ _ _ _ E) as (base & out & -> & X). exists base, out. split; [exact E|exact X].
  - intros d line A B sig H. destruct (proj1 (spinoglio_names normals sfr d line false sig g) (ex_intro _ A (ex_intro _ B H))) as (r & E).
    destruct (ir_scatter normals D _ _ _ _ _ _ _ E) as (base & out & -> & X). exists base, out. split; [exact E|exact X].
  - intros line set sg fs H. exact (delooze_scatter normals D sfr line set fs g sg H).
Qed.
Print Assumptions C79_relations.

Theorem C79_padmanabhan {G} (normals : nat -> G -> list R * G) m1 b n1 a mz sig g : draws normals ->
  (exists base out, padmanabhan19 normals m1 b n1 a mz false None g = Ok (base, g) /\ length base = length mz
    /\ padmanabhan19 normals m1 b n1 a mz true (Some sig) g = Ok (out, snd (normals (length mz) g))
    /\ scatters Mean sig (fst (normals (length mz) g)) base out)
  /\ padmanabhan19 normals m1 b n1 a mz true None g = Raise ValueError.
Proof. intros D. split; [exact (pad_scatter normals D m1 b n1 a mz sig g)|reflexivity]. Qed.
Print Assumptions C79_padmanabhan.

(** keating16: halos below the minimum mass stay dark, with and without scatter *)
Theorem C79_keating {G} (normals : nat -> G -> list R * G) mass m_min A scatter sig g : draws normals ->
  let out := fst (keating16 normals mass m_min A scatter sig g) in
  length out = length mass /\
  forall i m, nth_error mass i = Some m ->
    (m < m_min -> nth_error out i = Some (Some 0))
    /\ (m_min <= m -> scatter = false -> nth_error out i = Some (Some (A * m)))
    /\ (m_min <= m -> scatter = true -> forall n, nth_error (fst (normals (length mass) g)) i = Some n ->
         nth_error out i = Some (Some (scatter_of Median sig (A * m) n))).
Proof. intros D. exact (keating_ok normals D mass m_min A scatter sig g). Qed.
Print Assumptions C79_keating.

(** sfr and stellarmass of Behroozi et al. give the table at (redshift, mass), and scatter with the mean preserved, but with the
    generator of the module: the caller's is neither used nor advanced, so that two calls
    with the same seed give different values. *)
Theorem C79_behroozi_partial {G} (normals : nat -> G -> list R * G) f zm sig g gd : draws normals -> exists base out,
  behroozi normals (Some f) zm false sig g gd = (BVal base, g, gd) /\ length base = length zm
  /\ (forall i z m, nth_error zm i = Some (z, m) -> nth_error base i = Some (Some (f z m)))
  /\ behroozi normals (Some f) zm true sig g gd = (BVal out, g, snd (normals (length zm) gd))
  /\ scatters Mean sig (fst (normals (length zm) gd)) base out.
Proof.
  intros D. destruct (behroozi_scatter normals D f zm sig g gd) as (base & out & A & -> & B & H). do 2 eexists. split; [exact A|].
  split; [apply map_length|]. split; [|split; [exact B|exact H]]. intros i z m E. rewrite nth_error_map, E. reflexivity.
Qed.
Print Assumptions C79_behroozi_partial.
Theorem C79_seed_refuted :
  (forall {G} (normals : nat -> G -> list R * G) spl zm scatter sig g h gd,
     fst (fst (behroozi normals spl zm scatter sig g gd)) = fst (fst (behroozi normals spl zm scatter sig h gd))
     /\ snd (fst (behroozi normals spl zm scatter sig g gd)) = g)
  /\ exists (normals : nat -> nat -> list R * nat) spl zm g gd, draws normals /\
     let '(r1, _, gd') := behroozi normals spl zm true 1 g gd in
     let '(r2, _, _) := behroozi normals spl zm true 1 g gd' in r1 <> r2.
Proof.
  split.
  - intros G normals [f|] zm scatter sig g h gd; unfold behroozi; [|split; reflexivity].
    destruct (scattered normals scatter true sig _ gd). split; reflexivity.
  - exists (fun n g => (repeat (INR g) n, S g)), (Some (fun _ _ => 1)), ((1, 1) :: nil), 0%nat, 0%nat.
    split; [intros n g; apply repeat_length|]. cbn. intros E. injection E as E. rewrite !p10_exp in E.
    assert (Q : forall x, exp x <> 0) by (intros x; apply Rgt_not_eq, exp_pos).
    assert (H : exp (ln 10 * (1 * 0)) = exp (ln 10 * (1 * 1))).
    { apply Rmult_eq_reg_l with (1 / exp (ln 10 * (1 * 1 * ln 10 / 2))); [exact E|].
      unfold Rdiv. rewrite Rmult_1_l. apply Rinv_neq_0_compat, Q. }
    apply exp_inv in H. pose proof ln10. lra.
Qed.
Print Assumptions C79_seed_refuted.
(** Without a set up data directory the exception is returned as if it were the values. *)
Theorem C79_error_refuted {G} (normals : nat -> G -> list R * G) zm scatter sig g gd :
  behroozi normals None zm scatter sig g gd = (BErr ValueError, g, gd).
Proof. reflexivity. Qed.
Print Assumptions C79_error_refuted.

Example C79_nonvacuous : draws (fun n (g : nat) => (repeat (INR g) n, S g)) /\
  fst (log10normal (fun n (g : nat) => (repeat (INR g) n, S g)) (Some 3 :: None :: nil) 0 false 0%nat) = Some 3 :: None :: nil.
Proof.
  split; [intros n g; apply repeat_length|]. cbn. rewrite p10_exp. do 2 f_equal. rewrite !Rmult_0_r, exp_0. ring.
Qed.

(** * C80: duty cycles *)
Theorem C80_fraction age sf_length zs : 0 < sf_length -> (forall z, 0 < age z) ->
  Forall2 (fun z f => f = Rmin 1 (sf_length / age z) /\ 0 < f <= 1) zs (f_duty age sf_length zs).
Proof. exact (f_duty_ok age sf_length zs). Qed.
Print Assumptions C80_fraction.

(** At random: each halo has its full luminosity or none, by its own draw. *)
Theorem C80_random {G} (uniforms : nat -> G -> list R * G) (mass : list R) g : draws uniforms ->
  let us := fst (uniforms (length mass) g) in let g' := snd (uniforms (length mass) g) in
  (forall fd, let r := lidz11 uniforms mass fd true g in
    length (fst r) = length mass /\ snd r = g' /\
    forall i m u, nth_error mass i = Some m -> nth_error us i = Some u ->
      (u < fd -> nth_error (fst r) i = Some (lidz_L m)) /\ (fd <= u -> nth_error (fst r) i = Some 0))
  /\ (forall fd, List.Forall (fun m : R => 0 < m) mass -> let r := hcn_breysse uniforms mass fd true g in
    length (fst r) = length mass /\ snd r = g' /\
    forall i m u, nth_error mass i = Some m -> nth_error us i = Some u ->
      (u < fd -> nth_error (fst r) i = Some (breysse_L m)) /\ (fd <= u -> nth_error (fst r) i = Some 0))
  /\ (forall age zs sf, 0 < sf -> (forall z, 0 < age z) -> length zs = length mass \/ length zs = 1%nat ->
    exists out, pullen13 uniforms age mass zs true sf g = Ok (out, g') /\ length out = length mass /\
    forall i m u z, nth_error mass i = Some m -> nth_error us i = Some u -> redshift_of zs i = Some z ->
      (u <= Rmin 1 (sf / age z) -> nth_error out i = Some (pullen_L m)) /\ (Rmin 1 (sf / age z) < u -> nth_error out i = Some 0)).
Proof.
  intros D us g'. split; [|split].
  - intros fd. exact (lidz_random uniforms D mass fd g).
  - intros fd P. exact (breysse_random uniforms D mass fd g P).
  - intros age zs sf S A H. exact (pullen_random uniforms D age mass zs sf g S A H).
Qed.
Print Assumptions C80_random.

(** Not at random: every halo has its luminosity times the fraction, and nothing is drawn. *)
Theorem C80_plain {G} (uniforms : nat -> G -> list R * G) (mass : list R) g :
  (forall fd, lidz11 uniforms mass fd false g = (map (fun m => fd * lidz_L m) mass, g))
  /\ (forall fd, List.Forall (fun m : R => 0 < m) mass -> hcn_breysse uniforms mass fd false g = (map (fun m => fd * breysse_L m) mass, g))
  /\ (forall age zs sf, 0 < sf -> (forall z, 0 < age z) -> length zs = length mass \/ length zs = 1%nat ->
    exists out, pullen13 uniforms age mass zs false sf g = Ok (out, g) /\ length out = length mass /\
    forall i m z, nth_error mass i = Some m -> redshift_of zs i = Some z ->
      nth_error out i = Some (Rmin 1 (sf / age z) * pullen_L m)).
Proof.
  split; [|split].
  - intros fd. exact (lidz_plain uniforms mass fd g).
  - intros fd P. exact (breysse_plain uniforms mass fd g P).
  - intros age zs sf S A H. exact (pullen_plain uniforms age mass zs sf g S A H).
Qed.
Print Assumptions C80_plain.

(** The mean over the draw of the first is the second, so the total luminosity agrees. *)
Theorem C80_mean m :
  (forall fd, 0 <= fd <= 1 -> exists v,
    (forall u, fst (lidz11 (fun _ (g : unit) => (u :: nil, g)) (m :: nil) fd true tt) = v u :: nil)
    /\ uniform_mean v (fd * lidz_L m)
    /\ fst (lidz11 (fun _ (g : unit) => (0 :: nil, g)) (m :: nil) fd false tt) = fd * lidz_L m :: nil)
  /\ (forall fd, 0 < m -> 0 <= fd <= 1 -> exists v,
    (forall u, fst (hcn_breysse (fun _ (g : unit) => (u :: nil, g)) (m :: nil) fd true tt) = v u :: nil)
    /\ uniform_mean v (fd * breysse_L m)
    /\ fst (hcn_breysse (fun _ (g : unit) => (0 :: nil, g)) (m :: nil) fd false tt) = fd * breysse_L m :: nil)
  /\ (forall age z sf, 0 < sf -> 0 < age z -> exists v,
    (forall u, pullen13 (fun _ (g : unit) => (u :: nil, g)) age (m :: nil) (z :: nil) true sf tt = Ok (v u :: nil, tt))
    /\ uniform_mean v (Rmin 1 (sf / age z) * pullen_L m)
    /\ pullen13 (fun _ (g : unit) => (0 :: nil, g)) age (m :: nil) (z :: nil) false sf tt
       = Ok (Rmin 1 (sf / age z) * pullen_L m :: nil, tt)).
Proof.
  split; [|split].
  - intros fd. exact (lidz_mean m fd tt).
  - intros fd. exact (breysse_mean m fd tt).
  - intros age z sf. exact (pullen_mean age m z sf tt).
Qed.
Print Assumptions C80_mean.

Theorem C80_shapes {G} (uniforms : nat -> G -> list R * G) age mass zs rand sf g :
  length zs <> length mass -> length zs <> 1%nat -> exists e, pullen13 uniforms age mass zs rand sf g = Raise e.
Proof. exact (pullen_raise uniforms age mass zs rand sf g). Qed.
Print Assumptions C80_shapes.

Example C80_nonvacuous :
  f_duty (fun z => 13 / (1 + z)) (1 / 2) (0 :: 25 :: nil) = 1 / 26 :: 1 :: nil
  /\ fst (lidz11 (fun _ (g : unit) => (1 / 20 :: 1 / 2 :: nil, g)) (10 ^ 8 :: 10 ^ 8 :: nil) (1 / 10) true tt) = 2800 :: 0 :: nil.
Proof.
  split.
  - unfold f_duty. cbn [map]. rewrite (proj2 (rltb_ge 1 (1 / 2 / (13 / (1 + 0))))) by lra.
    replace (1 / 2 / (13 / (1 + 25))) with 1 by field. rewrite (proj2 (rltb_ge 1 1)) by lra.
    replace (1 / 2 / (13 / (1 + 0))) with (1 / 26) by field. reflexivity.
  - unfold lidz11. cbn [length combine map fst snd]. rewrite (proj2 (rltb_lt (1 / 20) (1 / 10))) by lra.
    rewrite (proj2 (rltb_ge (1 / 2) (1 / 10))) by lra. f_equal. lra.
Qed.

(** * C81: the CO ladder *)
(** The relation never returns, whatever the star formation rates and the lines. *)
Theorem C81_refuted sfr lines break_ulirgs :
  (forall r, kamenetzky16 sfr lines break_ulirgs <> Ok r)
  /\ (lines <> [] -> (forall j, In j lines -> (1 <= j <= 13)%Z) -> kamenetzky16 sfr lines break_ulirgs = Raise NameError)
  /\ ((exists j, In j lines /\ ~ (1 <= j <= 13)%Z) -> kamenetzky16 sfr lines break_ulirgs = Raise ValueError).
Proof.
  unfold kamenetzky16.
  assert (T : forallb (fun j => (1 <=? j)%Z && (j <=? 13)%Z) lines = true <-> forall j, In j lines -> (1 <= j <= 13)%Z).
  { rewrite forallb_forall. split; intros H j J; specialize (H j J); rewrite ?andb_true_iff, ?Z.leb_le in *; lia. }
  split; [|split].
  - intros r. destruct (forallb _ lines); [|discriminate]. destruct lines; [destruct break_ulirgs|]; discriminate.
  - intros N H. apply T in H. rewrite H. destruct lines; [congruence|reflexivity].
  - intros (j & J & B). destruct (forallb _ lines) eqn:E; [|reflexivity]. elim B. apply T; auto.
Qed.
Print Assumptions C81_refuted.
Example C81_nonvacuous : kamenetzky16 (1 :: nil) [1; 2; 3]%Z false = Raise NameError /\ kamenetzky16 (1 :: nil) (14 :: nil)%Z true = Raise ValueError.
Proof. split; reflexivity. Qed.
