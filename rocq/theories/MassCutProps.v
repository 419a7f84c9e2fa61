(** The mass cut of light cones: C117. The vocabulary is in MassCutSpec.v and FormatSpec.v. *)
From Coq Require Import Reals Permutation Sorted.
From Verif Require Import Dict Util RealUtil SnapModel SnapSpec Snap FormatModel FormatSpec Format LcModel LcSpec Lc Lc2 Lc3 Lc4 Lc5 Lc6 Lc7 Lc8 Lc9 Lc10 Lc11 Lc12 Lc13 MassCutModel MassCutSpec MassCut.
From Coq Require Import Lra Lia.
Open Scope string_scope.
Open Scope list_scope.
Open Scope R_scope.

(** * C117: a light cone takes every halo at or above minimum_mass *)
(** What is taken from a formatted snapshot, in all cases: the halos at or above
    minimum_mass that are also at or above a tabulated cut. The cut is looked up for
    minimum_mass / h, so nothing is lost only when no cut lies between the two. *)
Theorem C117_loaded_partial : forall asort ct a w of s, argsorts asort -> runnable ct a w of -> own_rows ct -> In s (todo ct a w) ->
  let w' := fst (format asort ct a w) in
  exists f g, formatted w' s f g /\
    forall h mmin sd pos, reads sd s g pos ->
      (Rpower 10 20 <= mmin / h -> snap_load (maker_index (table w') f h mmin) sd mmin s = Ok ([], [])) /\
      (mmin / h < Rpower 10 20 -> exists c k,
         (Rpower 10 6 <= mmin / h -> largest_cut (mmin / h) c) /\ (mmin / h < Rpower 10 6 -> c = Rpower 10 6) /\
         snap_load (maker_index (table w') f h mmin) sd mmin s = Ok (firstn k (masses g), firstn k pos) /\
         (forall r x, nth_error (masses g) r = Some x -> ((r < k)%nat <-> c <= x /\ mmin <= x)) /\
         (c <= mmin -> forall r x, nth_error (masses g) r = Some x -> ((r < k)%nat <-> mmin <= x))).
Proof.
  intros asort ct a w of s HA HR HO Hs w'. destruct (format_sorted asort ct a w of s HA HR HO Hs) as (f & g & HF & E3 & E4 & HS). exists f, g. split; [exact HF|].
  intros h mmin sd pos Hrd. destruct HF as [E1 E2]. pose proof (c36_low (table w') f h mmin s g false E3 E2 E4) as [HL HH]. cbv zeta in HL, HH. split.
  - intros H20. apply (none_rows _ _ _ _ _ _ Hrd). exact (HH H20).
  - intros H20. destruct (Rlt_le_dec (mmin / h) (Rpower 10 6)) as [H6|H6].
    + destruct (HL H6) as (k0 & K1 & K2). destruct (load_rows (maker_index (table w') f h mmin) sd s g pos mmin k0 _ Hrd HS K1 K2) as (k & L1 & L2).
      exists (Rpower 10 6), k. split; [lra|]. split; [reflexivity|]. split; [exact L1|]. split; [exact L2|]. intros Hc r x Hx. rewrite (L2 r x Hx). split; [tauto|]. intros; split; lra.
    + destruct (c36_index (table w') f h mmin s g false E3 E2 E4 (conj H6 H20)) as (c & k0 & K1 & K2 & K3 & K4 & K5).
      destruct (load_rows (maker_index (table w') f h mmin) sd s g pos mmin k0 c Hrd HS K1 K5) as (k & L1 & L2).
      exists c, k. split; [intros _; split; [exact K2|split; [exact K3|exact K4]]|]. split; [lra|]. split; [exact L1|]. split; [exact L2|]. intros Hc r x Hx. rewrite (L2 r x Hx). split; [tauto|]. intros; split; lra.
Qed.
Print Assumptions C117_loaded_partial.

(** In every finished set of light cones, the rows from the snapshot are halos at or above
    minimum_mass. minimum_mass is documented in Msun/h, the unit of the stored masses, but
    a halo x at or above it is in no light cone when a tabulated cut lies above x and not
    above minimum_mass / h *)
Theorem C117_units_refuted : forall asort ct a w of s, argsorts asort -> runnable ct a w of -> own_rows ct -> In s (todo ct a w) ->
  let w' := fst (format asort ct a w) in
  exists f g, formatted w' s f g /\
    forall h sd pos c az pts wl wl' i p, reads sd s g pos ->
      build asort az (maker_index (table w') f h (lc_mass c)) sd c pts wl = (wl', Ok tt) -> nth_error pts i = Some p -> good_pt p -> 0 < lc_box c ->
      exists lf rows, wl' i = Some lf /\ holds_rows lf p rows /\
        (forall r, In r rows -> r_snap r = s -> nth_error (masses g) (r_index r) = Some (r_mass r) /\ lc_mass c <= r_mass r) /\
        forall j x cut, nth_error (masses g) j = Some x -> lc_mass c <= x -> In cut cut_masses -> x < cut <= lc_mass c / h -> lc_mass c / h < Rpower 10 20 ->
          forall r, In r rows -> ~ (r_snap r = s /\ r_index r = j).
Proof.
  intros asort ct a w of s HA HR HO Hs w'. destruct (C117_loaded_partial asort ct a w of s HA HR HO Hs) as (f & g & HF & H). exists f, g. split; [exact HF|].
  intros h sd pos c az pts wl wl' i p Hrd E Hp HG HB. fold w' in H, HF. destruct (H h (lc_mass c) sd pos Hrd) as [H1 H2].
  destruct (Rlt_le_dec (lc_mass c / h) (Rpower 10 20)) as [H20|H20].
  - destruct (H2 H20) as (c0 & k & K1 & K2 & L1 & L2 & _). destruct (built_rows _ _ _ _ _ _ _ _ _ _ _ _ _ _ HA E Hp HG HB Hrd L1) as (lf & rows & Elf & HH & HRow).
    exists lf, rows. split; [exact Elf|]. split; [exact HH|]. split.
    + intros r Hr Hsn. destruct (HRow r Hr Hsn) as [Lk Em]. split; [exact Em|]. apply (L2 _ _ Em). exact Lk.
    + intros j x cut Hx Hm Hc Hcut _ r Hr [Hsn <-]. destruct (HRow r Hr Hsn) as [Lk _]. apply (L2 _ _ Hx) in Lk. destruct (Rlt_le_dec (lc_mass c / h) (Rpower 10 6)) as [H6|H6].
      * pose proof (cut_least cut Hc). lra.
      * destruct (K1 H6) as (_ & _ & KM). specialize (KM cut Hc (proj2 Hcut)). lra.
  - assert (L1 : snap_load (maker_index (table w') f h (lc_mass c)) sd (lc_mass c) s = Ok (firstn 0 (masses g), firstn 0 pos)) by exact (H1 H20).
    destruct (built_rows _ _ _ _ _ _ _ _ _ _ _ _ _ _ HA E Hp HG HB Hrd L1) as (lf & rows & Elf & HH & HRow). exists lf, rows. split; [exact Elf|]. split; [exact HH|].
    split; [intros r Hr Hsn; destruct (HRow r Hr Hsn); lia|]. intros; lra.
Qed.
Print Assumptions C117_units_refuted.
(** a snapshot with halos of 6, 3 and 1 times 10^8 Msun/h and h = 1/2: a minimum mass of
    6 10^8 Msun/h is looked up as 12 10^8, the cut below that is 10^9 or above, and the
    heaviest halo is in no light cone *)
Example C117_units_refuted_nonvacuous : let w' := fst (format argsort0 (demo [4; 7]%Z) demo_args (mkW None [])) in
  let m := 6 * Rpower 10 8 in let h := 1 / 2 in
  argsorts argsort0 /\ runnable (demo [4; 7]%Z) demo_args (mkW None []) demo_others /\ own_rows (demo [4; 7]%Z) /\
  In 7%Z (todo (demo [4; 7]%Z) demo_args (mkW None [])) /\ good_pt diag_pt /\
  (exists f g, formatted w' 7 f g /\ (exists j, nth_error (masses g) j = Some (6 * Rpower 10 8)) /\ forall pos, reads (fun _ => Some (masses g, pos)) 7 g pos ->
     exists wl', build argsort0 toy_az (maker_index (table w') f h m) (fun _ => Some (masses g, pos)) (mass_conf m) [diag_pt] (fun _ => None) = (wl', Ok tt)) /\
  In (Rpower 10 9) cut_masses /\ 6 * Rpower 10 8 < Rpower 10 9 <= m / h /\ m / h < Rpower 10 20.
Proof.
  intros w' m h. assert (H1 : argsorts argsort0) by apply argsort0_ok.
  assert (H2 : runnable (demo [4; 7]%Z) demo_args (mkW None []) demo_others) by (apply demo_runnable; repeat constructor; cbn; intuition discriminate).
  assert (H3 : own_rows (demo [4; 7]%Z)) by (apply demo_own; repeat constructor).
  assert (H4 : In 7%Z (todo (demo [4; 7]%Z) demo_args (mkW None []))) by (cbn; auto).
  split; [exact H1|]. split; [exact H2|]. split; [exact H3|]. split; [exact H4|]. split; [exact diag_good|].
  assert (E : Rpower 10 9 = 10 * Rpower 10 8).
  { replace 9 with (1 + 8) by lra. rewrite Rpower_plus, Rpower_1 by lra. reflexivity. }
  assert (E2 : Rpower 10 10 = 10 * Rpower 10 9).
  { replace 10 with (1 + 9) at 2 by lra. rewrite Rpower_plus, Rpower_1 by lra. reflexivity. }
  assert (P : 0 < Rpower 10 8) by (unfold Rpower; apply exp_pos).
  assert (L : Rpower 10 10 < Rpower 10 20) by (apply Rpower_lt; lra).
  assert (B : m / h < Rpower 10 20) by (unfold m, h; lra).
  split; [|split; [|split; [unfold m, h; lra|exact B]]].
  - destruct (C117_loaded_partial argsort0 _ _ _ _ _ H1 H2 H3 H4) as (f & g & HF & HL). exists f, g. split; [exact HF|]. split.
    + apply (mass_in argsort0 (demo [4; 7]%Z) demo_args (mkW None []) demo_others 7%Z f g _ 3 "SubhaloMass" (mkFS "mass" "Msun" (-1)) 1 (Col1 [1; 6; 3]) 6 H1 H2 H4 HF eq_refl); [left; reflexivity|reflexivity|lia|reflexivity|reflexivity].
    + intros pos Hrd. destruct (HL h m _ pos Hrd) as [_ HK]. destruct (HK B) as (c & k & _ & _ & EL & _). exact (mass_build _ _ _ _ _ _ EL).
  - apply in_map_iff. exists 110%nat. split; [|apply in_seq; lia]. f_equal. rewrite INR_IZR_INZ. cbn. lra.
Qed.

(** with the default minimum mass, 0, which is documented to include all halos, the halos
    below 10^6 are in no light cone; the same holds whenever minimum_mass / h is below 10^6 *)
Theorem C117_default_refuted : forall asort ct a w of s, argsorts asort -> runnable ct a w of -> own_rows ct -> In s (todo ct a w) ->
  let w' := fst (format asort ct a w) in
  exists f g, formatted w' s f g /\
    forall h sd pos c az pts wl wl' i p, reads sd s g pos ->
      build asort az (maker_index (table w') f h (lc_mass c)) sd c pts wl = (wl', Ok tt) -> nth_error pts i = Some p -> good_pt p -> 0 < lc_box c ->
      lc_mass c = 0 \/ lc_mass c / h < Rpower 10 6 ->
      exists lf rows, wl' i = Some lf /\ holds_rows lf p rows /\
        forall j x, nth_error (masses g) j = Some x -> lc_mass c <= x < Rpower 10 6 -> forall r, In r rows -> ~ (r_snap r = s /\ r_index r = j).
Proof.
  intros asort ct a w of s HA HR HO Hs w'. destruct (C117_loaded_partial asort ct a w of s HA HR HO Hs) as (f & g & HF & H). exists f, g. split; [exact HF|].
  intros h sd pos c az pts wl wl' i p Hrd E Hp HG HB HM. fold w' in H, HF. destruct (H h (lc_mass c) sd pos Hrd) as [_ H2].
  assert (P6 : 0 < Rpower 10 6) by (unfold Rpower; apply exp_pos). assert (P20 : Rpower 10 6 < Rpower 10 20) by (apply Rpower_lt; lra).
  assert (H6 : lc_mass c / h < Rpower 10 6). { destruct HM as [->|HM]; [unfold Rdiv; rewrite Rmult_0_l; exact P6|exact HM]. }
  destruct (H2 ltac:(lra)) as (c0 & k & _ & K2 & L1 & L2 & _). destruct (built_rows _ _ _ _ _ _ _ _ _ _ _ _ _ _ HA E Hp HG HB Hrd L1) as (lf & rows & Elf & HH & HRow).
  exists lf, rows. split; [exact Elf|]. split; [exact HH|]. intros j x Hx Hm r Hr [Hsn <-]. destruct (HRow r Hr Hsn) as [Lk _]. apply (L2 _ _ Hx) in Lk. rewrite (K2 H6) in Lk. lra.
Qed.
Print Assumptions C117_default_refuted.
(** a snapshot with a halo of 10^5 Msun/h *)
Example C117_default_refuted_nonvacuous : let w' := fst (format argsort0 (light [4; 7]%Z) demo_args (mkW None [])) in
  argsorts argsort0 /\ runnable (light [4; 7]%Z) demo_args (mkW None []) demo_others /\ own_rows (light [4; 7]%Z) /\
  In 7%Z (todo (light [4; 7]%Z) demo_args (mkW None [])) /\ good_pt diag_pt /\ 0 < lc_box (mass_conf 0) /\
  (exists f g, formatted w' 7 f g /\ (exists j, nth_error (masses g) j = Some (1 / 1000 * Rpower 10 8)) /\ forall pos, reads (fun _ => Some (masses g, pos)) 7 g pos ->
     exists wl', build argsort0 toy_az (maker_index (table w') f (1 / 2) 0) (fun _ => Some (masses g, pos)) (mass_conf 0) [diag_pt] (fun _ => None) = (wl', Ok tt)) /\
  0 <= 1 / 1000 * Rpower 10 8 < Rpower 10 6.
Proof.
  intros w'. assert (H1 : argsorts argsort0) by apply argsort0_ok.
  assert (H2 : runnable (light [4; 7]%Z) demo_args (mkW None []) demo_others) by (apply light_runnable; repeat constructor; cbn; intuition discriminate).
  assert (H3 : own_rows (light [4; 7]%Z)) by (apply light_own; repeat constructor).
  assert (H4 : In 7%Z (todo (light [4; 7]%Z) demo_args (mkW None []))) by (cbn; auto).
  assert (P6 : 0 < Rpower 10 6) by (unfold Rpower; apply exp_pos). assert (P20 : Rpower 10 6 < Rpower 10 20) by (apply Rpower_lt; lra).
  split; [exact H1|]. split; [exact H2|]. split; [exact H3|]. split; [exact H4|]. split; [exact diag_good|]. split; [cbn; lra|]. split.
  - destruct (C117_loaded_partial argsort0 _ _ _ _ _ H1 H2 H3 H4) as (f & g & HF & HL). exists f, g. split; [exact HF|]. split.
    + apply (mass_in argsort0 (light [4; 7]%Z) demo_args (mkW None []) demo_others 7%Z f g _ 3 "SubhaloMass" (mkFS "mass" "Msun" (-1)) 0 (Col1 [1 / 1000; 6; 3]) (1 / 1000) H1 H2 H4 HF eq_refl); [left; reflexivity|reflexivity|lia|reflexivity|reflexivity].
    + intros pos Hrd. destruct (HL (1 / 2) 0 _ pos Hrd) as [_ HK]. destruct HK as (c & k & _ & _ & EL & _); [unfold Rdiv; rewrite Rmult_0_l; lra|]. exact (mass_build _ _ _ _ _ _ EL).
  - assert (E : Rpower 10 8 = 100 * Rpower 10 6).
    { replace 8 with (1 + (1 + 6)) by lra. rewrite !Rpower_plus, Rpower_1 by lra. lra. }
    lra.
Qed.
