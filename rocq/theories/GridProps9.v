(** Property theorems for the point spread functions (C22).  Map values are real numbers.
    The specification is [positive] (every number of a list is above zero), the sum [vsum] of
    the cells, and [g_npix], the numbers of cells. *)
From Coq Require Import Reals.
From Verif Require Import Util Rat Val Arr GridModel GridModel2 GridSpec GridNew GridEx PsfModel Psf.

(** * C22: an area-normalised PSF has positive cells that sum to one, on a grid whose metadata
    are consistent, for every width, pixel size, side length and dimension. *)
Theorem C22_area : forall (fwhm pix : farr) (side : option farr) (axu : option units) (g : grid RAlg),
  psf fwhm pix side axu NArea = Ok g -> positive (fv pix) ->
  consistent g /\ g_ndim g = flen fwhm /\ g_nprop g = 1%nat /\ g_data g <> None /\
  (forall jx, inb (g_npix g) jx = true -> (0 < (cell g jx 0 : R))%R) /\
  vsum (map (fun jx => cell g jx 0) (idxs (g_npix g))) = (1%R : RAlg).
Proof. exact c22_area. Qed.
Print Assumptions C22_area.

(** In an area-normalised SpectralPSF every spectral slice sums to one. *)
Theorem C22_spectral_area : forall (spec : list Qc) (spec0 : Qc) (fwhm pix : farr) (side : option farr) (axu : option units) (e : R) (g : grid RAlg),
  spec_psf spec spec0 fwhm pix side axu NArea e = Ok g -> positive (fv pix) -> nth 0 spec 0%Qc <> nth 1 spec 0%Qc ->
  g_ndim g = S (flen fwhm) /\ g_nprop g = 1%nat /\ g_data g <> None /\ ((0 < flen fwhm)%nat -> last (g_npix g) 0%nat = length spec) /\
  forall c, (c < last (g_npix g) 0)%nat ->
  (forall jx, inb (removelast (g_npix g)) jx = true -> (0 < (cell g (jx ++ [c]) 0 : R))%R) /\
  vsum (map (fun jx => cell g (jx ++ [c]) 0) (idxs (removelast (g_npix g)))) = (1%R : RAlg).
Proof. exact c22_spectral. Qed.
Print Assumptions C22_spectral_area.

(** A peak-normalised PSF lies between zero and one.  It reaches one exactly when every axis
    has an odd number of cells: this is what remains of the claim about the maximum. *)
Theorem C22_peak_partial : forall (fwhm pix : farr) (side : option farr) (axu : option units) (g : grid RAlg),
  psf fwhm pix side axu NPeak = Ok g -> positive (fv pix) -> positive (fv fwhm) ->
  consistent g /\ g_ndim g = flen fwhm /\ g_nprop g = 1%nat /\
  (forall jx, inb (g_npix g) jx = true -> (0 < (cell g jx 0 : R) <= 1)%R) /\
  ((exists jx, inb (g_npix g) jx = true /\ cell g jx 0 = (1%R : RAlg)) <-> Forall Nat.Odd (g_npix g)).
Proof. exact c22_peak. Qed.
Print Assumptions C22_peak_partial.

(** The same in every slice of a SpectralPSF. *)
Theorem C22_spectral_peak_partial : forall (spec : list Qc) (spec0 : Qc) (fwhm pix : farr) (side : option farr) (axu : option units) (e : R) (g : grid RAlg),
  spec_psf spec spec0 fwhm pix side axu NPeak e = Ok g -> positive (fv pix) -> positive (fv fwhm) -> nth 0 spec 0%Qc <> nth 1 spec 0%Qc ->
  g_ndim g = S (flen fwhm) /\ g_nprop g = 1%nat /\ ((0 < flen fwhm)%nat -> last (g_npix g) 0%nat = length spec) /\
  forall c, (c < last (g_npix g) 0)%nat ->
  (forall jx, inb (removelast (g_npix g)) jx = true -> (0 < (cell g (jx ++ [c]) 0 : R) <= 1)%R) /\
  ((exists jx, inb (removelast (g_npix g)) jx = true /\ cell g (jx ++ [c]) 0 = (1%R : RAlg)) <-> Forall Nat.Odd (removelast (g_npix g))).
Proof. exact c22_spectral_peak. Qed.
Print Assumptions C22_spectral_peak_partial.

(** the parts of a call that do not involve the exponential compute *)
Definition ex_base (s : farr) : grid RAlg := mk RAlg 1 (mkF false [0%Qc; 0%Qc]) s (mkF false [frac 1 2; frac 1 2]).
Lemma ex_psf_ok norm side s : norm <> NOther ->
  match side with Some s' => bcast_ones 2 s' | None => Ok (mkF false (map (fun x => (zq 6 * x)%Qc) (fv (fl [1; 2]%Z)))) end = Ok s ->
  is_ok (grid_new RAlg 1 (mkF false [0%Qc; 0%Qc]) s (mkF false [frac 1 2; frac 1 2]) None None) = true ->
  exists g, psf (fl [1; 2]%Z) (mkF false [frac 1 2]) side None norm = Ok g /\ g_npix g = g_npix (ex_base s).
Proof.
  intros Hn Hs Hg. unfold psf.
  assert (E : grid_new RAlg 1 (mkF false [0%Qc; 0%Qc]) s (mkF false [frac 1 2; frac 1 2]) None None = Ok (ex_base s)) by (apply ok_or_eq; exact Hg).
  change (flen (fl [1; 2]%Z)) with 2%nat. cbn [fl fint] in *. rewrite Hs. change (bcast_ones 2 (mkF false [frac 1 2])) with (Ok (mkF false [frac 1 2; frac 1 2])).
  cbn [bind repeat]. rewrite E. cbn [bind]. destruct norm; [| |tauto]; eexists; split; reflexivity.
Qed.

Example C22_nonvacuous :
  (exists g, psf (fl [1; 2]%Z) (mkF false [frac 1 2]) None None NArea = Ok g /\ g_npix g = [12; 24]%nat) /\
  (exists g, psf (fl [1; 2]%Z) (mkF false [frac 1 2]) (Some (mkF false [frac 7 2; frac 5 2])) None NPeak = Ok g /\ g_npix g = [7; 5]%nat) /\
  positive [frac 1 2] /\ positive (fv (fl [1; 2]%Z)).
Proof.
  split; [|split].
  - edestruct (ex_psf_ok NArea None) as (g & Hg & En); [discriminate|reflexivity|vm_compute; reflexivity|]. exists g. split; [exact Hg|]. rewrite En. vm_compute. reflexivity.
  - edestruct (ex_psf_ok NPeak (Some (mkF false [frac 7 2; frac 5 2]))) as (g & Hg & En); [discriminate|reflexivity|vm_compute; reflexivity|]. exists g. split; [exact Hg|]. rewrite En. vm_compute. reflexivity.
  - split; intros x Hx; repeat (destruct Hx as [<-|Hx]; [vm_compute; reflexivity|]); destruct Hx.
Qed.

(** * False: a peak-normalised PSF with the default side length has twelve and twenty-four
    cells here, and its maximum is below one. *)
Theorem C22_peak_refuted : exists g : grid RAlg, psf (fl [1; 2]%Z) (mkF false [frac 1 2]) None None NPeak = Ok g /\
  forall jx, inb (g_npix g) jx = true -> ((cell g jx 0 : R) < 1)%R.
Proof.
  edestruct (ex_psf_ok NPeak None) as (g & Hg & En); [discriminate|reflexivity|vm_compute; reflexivity|]. exists g. split; [exact Hg|].
  destruct C22_nonvacuous as (_ & _ & P1 & P2). destruct (c22_peak _ _ _ _ _ Hg P1 P2) as (_ & _ & _ & B & I). intros jx Hj.
  destruct (proj2 (B jx Hj)) as [L|L]; [exact L|]. exfalso. assert (O : Forall Nat.Odd (g_npix g)) by (apply I; exists jx; auto).
  assert (E12 : g_npix g = [12; 24]%nat) by (rewrite En; vm_compute; reflexivity). rewrite E12 in O. inversion O as [|? ? [m Em] _]. lia.
Qed.
Print Assumptions C22_peak_refuted.

Example C22_spectral_nonvacuous : exists g, spec_psf [zq 10; zq 11; zq 12] (zq 11) (fl [1]%Z) (mkF false [frac 1 2]) (Some (fl [3]%Z)) None NArea 1%R = Ok g /\ g_npix g = [6; 3]%nat.
Proof.
  unfold spec_psf. change (flen (fl [1]%Z)) with 1%nat. cbv zeta. change (bcast_ones 1 (fl [3]%Z)) with (Ok (mkF false [zq 3])).
  change (bcast_ones 1 (mkF false [frac 1 2])) with (Ok (mkF false [frac 1 2])). cbn [bind].
  set (gg := grid_new _ _ _ _ _ _ _). assert (E : gg = Ok (ok_or gg (no_grid RAlg))) by (apply ok_or_eq; vm_compute; reflexivity).
  assert (En : g_npix (ok_or gg (no_grid RAlg)) = [6; 3]%nat) by (vm_compute; reflexivity). rewrite E. cbn [bind]. rewrite En. cbn [last length Nat.eqb orb check bind].
  eexists. split; [reflexivity|]. cbn [with_geom with_data g_npix]. exact En.
Qed.
