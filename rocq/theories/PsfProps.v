(** C122: point spread functions have the full width at half maximum they are asked for. Map values are real numbers.
    The specification is PsfSpec.v; [g_centers] are the centres of the cells along each axis. *)
From Coq Require Import Reals.
From Verif Require Import Util Rat Val Arr GridModel GridModel2 GridSpec GridNew GridEx Complex PsfModel PsfSpec Psf Psf2.
From Coq Require Import Lra.

(** a peak-normalised PSF halves its value once for each unit of (2x/w)^2: the gaussian whose full width at half
    maximum along each axis is the one given *)
Theorem C122_peak : forall (fwhm pix : farr) (side : option farr) (axu : option units) (g : grid RAlg),
  psf fwhm pix side axu NPeak = Ok g -> positive (fv pix) -> positive (fv fwhm) ->
  forall jx, inb (g_npix g) jx = true -> cell g jx 0 = Rpower 2 (- half_widths (map qr (fv fwhm)) (at_cell g (flen fwhm) jx)).
Proof. exact c122_peak. Qed.
Print Assumptions C122_peak.

(** an area-normalised PSF is the same up to a factor *)
Theorem C122_shape : forall (fwhm pix : farr) (side : option farr) (axu : option units) (norm : pnorm) (g : grid RAlg),
  psf fwhm pix side axu norm = Ok g -> positive (fv pix) -> positive (fv fwhm) ->
  exists t, (0 < t)%R /\ forall jx, inb (g_npix g) jx = true -> cell g jx 0 = (t * Rpower 2 (- half_widths (map qr (fv fwhm)) (at_cell g (flen fwhm) jx)))%R.
Proof. exact c122_ratio. Qed.
Print Assumptions C122_shape.

(** so whichever the norm a cell half a width off the centre along one axis holds half of what the central cell holds *)
Theorem C122_half : forall (fwhm pix : farr) (side : option farr) (axu : option units) (norm : pnorm) (g : grid RAlg),
  psf fwhm pix side axu norm = Ok g -> positive (fv pix) -> positive (fv fwhm) ->
  forall jx kx, inb (g_npix g) jx = true -> inb (g_npix g) kx = true -> (forall x, In x (at_cell g (flen fwhm) kx) -> x = 0%R) ->
  half_way (map qr (fv fwhm)) (at_cell g (flen fwhm) jx) -> cell g jx 0 = (cell g kx 0 / 2)%R.
Proof. exact c122_half. Qed.
Print Assumptions C122_half.

(** in a SpectralPSF the width at the frequency nu is the given one times (nu0/nu)^exp *)
Theorem C122_spectral : forall (spec : list Qc) (spec0 : Qc) (fwhm pix : farr) (side : option farr) (axu : option units) (e : R) (g : grid RAlg),
  spec_psf spec spec0 fwhm pix side axu NPeak e = Ok g -> positive (fv pix) -> positive (fv fwhm) -> nth 0 spec 0%Qc <> nth 1 spec 0%Qc ->
  forall jx c, inb (removelast (g_npix g)) jx = true -> (c < last (g_npix g) 0)%nat ->
  cell g (jx ++ [c]) 0 = Rpower 2 (- half_widths (map (fun w => (qr w * Rpower (qr (spec0 / nth c spec 0%Qc)) e)%R) (fv fwhm)) (at_cell g (flen fwhm) (jx ++ [c]))).
Proof. exact c122_spectral. Qed.
Print Assumptions C122_spectral.

(** without a side length a PSF is made on a grid six widths long, as documented *)
Theorem C122_default : forall (fwhm pix : farr) (axu : option units) (norm : pnorm), fint fwhm = false ->
  psf fwhm pix None axu norm = psf fwhm pix (Some (mkF false (map (fun w => zq 6 * w) (fv fwhm)))) axu norm.
Proof.
  intros fwhm pix axu norm Hb. unfold psf, flen. rewrite bcast_self, Hb. reflexivity.
Qed.
Print Assumptions C122_default.

(** a SpectralPSF is documented to be six widths long too; it is three of the widths at the lowest frequency, as if
    the exponent were one *)
Theorem C122_spectral_default_partial : forall (spec : list Qc) (spec0 : Qc) (fwhm pix : farr) (axu : option units) (norm : pnorm) (e : R),
  spec_psf spec spec0 fwhm pix None axu norm e =
  spec_psf spec spec0 fwhm pix (Some (mkF false (map (fun w => zq 3 * w * lmax (map (fun s => spec0 / s) spec)) (fv fwhm)))) axu norm e.
Proof.
  intros spec spec0 fwhm pix axu norm e. unfold spec_psf. destruct norm; try reflexivity; destruct spec as [|s0 [|s1 spec]]; try reflexivity;
  cbv zeta; unfold flen; rewrite bcast_self; reflexivity.
Qed.
Print Assumptions C122_spectral_default_partial.

(** cells half a width long, frequencies not below the reference: six cells, and twelve when six widths are asked for *)
Lemma px_spec side s : match side with Some s => bcast_ones 1 s | None => Ok (mkF false (map (fun x => zq 3 * x * lmax (map (fun s => zq 10 / s) [zq 10; zq 11; zq 12])) (fv (fl [1]%Z)))) end = Ok s ->
  forall n, (let gg := grid_new RAlg 1 (mkF false [0%Qc; ptp [zq 10; zq 11; zq 12] / zq 2 + lmin [zq 10; zq 11; zq 12]]) (mkF false (fv s ++ [ptp [zq 10; zq 11; zq 12] + qabs (zq 11 - zq 10)])) (mkF false [frac 1 2; qabs (zq 11 - zq 10)]) None None in
    is_ok gg && forallb (fun p => fst p =? snd p)%nat (combine (g_npix (ok_or gg (no_grid RAlg))) [n; 3]%nat) && (length (g_npix (ok_or gg (no_grid RAlg))) =? 2)%nat) = true ->
  exists g, spec_psf [zq 10; zq 11; zq 12] (zq 10) (fl [1]%Z) (mkF false [frac 1 2]) side None NPeak 1%R = Ok g /\ g_npix g = [n; 3]%nat.
Proof.
  intros Hs n Hg. unfold spec_psf. change (flen (fl [1]%Z)) with 1%nat. cbv zeta. rewrite Hs. change (bcast_ones 1 (mkF false [frac 1 2])) with (Ok (mkF false [frac 1 2])). cbn [bind fv repeat app].
  cbv zeta in Hg. revert Hg. set (gg := grid_new _ _ _ _ _ _ _). intros Hg. apply andb_prop in Hg. destruct Hg as [Hg Hl]. apply andb_prop in Hg. destruct Hg as [Hg Hn].
  assert (E : gg = Ok (ok_or gg (no_grid RAlg))) by (apply ok_or_eq; exact Hg). fold gg in E. set (g1 := ok_or gg (no_grid RAlg)) in *. rewrite E. cbn [bind].
  assert (En : g_npix g1 = [n; 3]%nat).
  { apply Nat.eqb_eq in Hl. destruct (g_npix g1) as [|a [|b [|]]]; try discriminate Hl. cbn in Hn. apply andb_prop in Hn. destruct Hn as [H1 H2]. apply andb_prop in H2. destruct H2 as [H2 _].
    apply Nat.eqb_eq in H1. apply Nat.eqb_eq in H2. subst. reflexivity. }
  rewrite En. cbn [last length Nat.eqb orb check bind]. eexists. split; [reflexivity|]. cbn [with_geom with_data g_npix]. exact En.
Qed.
Theorem C122_spectral_six_refuted :
  (exists g, spec_psf [zq 10; zq 11; zq 12] (zq 10) (fl [1]%Z) (mkF false [frac 1 2]) None None NPeak 1%R = Ok g /\ g_npix g = [6; 3]%nat) /\
  (exists g, spec_psf [zq 10; zq 11; zq 12] (zq 10) (fl [1]%Z) (mkF false [frac 1 2]) (Some (fl [6]%Z)) None NPeak 1%R = Ok g /\ g_npix g = [12; 3]%nat).
Proof. split; (eapply px_spec; [reflexivity|vm_compute; reflexivity]). Qed.
Print Assumptions C122_spectral_six_refuted.

(** one axis, cells half as long as the width: the neighbour of the central cell is half a width away *)
Definition px_base : grid RAlg := mk RAlg 1 (mkF false [0%Qc]) (mkF false [zq 5]) (mkF false [1%Qc]).
Example C122_nonvacuous : exists g, psf (fl [2]%Z) (mkF false [1%Qc]) (Some (mkF false [zq 5])) None NArea = Ok g /\ g_npix g = [5]%nat /\ positive [1%Qc] /\ positive (fv (fl [2]%Z)) /\
  at_cell g 1 [2%nat] = [qr 0] /\ at_cell g 1 [3%nat] = [qr 1] /\ half_way (map qr (fv (fl [2]%Z))) (at_cell g 1 [3%nat]).
Proof.
  assert (E : grid_new RAlg 1 (mkF false [0%Qc]) (mkF false [zq 5]) (mkF false [1%Qc]) None None = Ok px_base) by (apply ok_or_eq; vm_compute; reflexivity).
  assert (P : exists g, psf (fl [2]%Z) (mkF false [1%Qc]) (Some (mkF false [zq 5])) None NArea = Ok g /\ g_npix g = g_npix px_base /\ g_centers g = g_centers px_base).
  { unfold psf. change (flen (fl [2]%Z)) with 1%nat. change (bcast_ones 1 (mkF false [1%Qc])) with (Ok (mkF false [1%Qc])). change (bcast_ones 1 (mkF false [zq 5])) with (Ok (mkF false [zq 5])).
    cbn [bind repeat]. rewrite E. cbn [bind]. eexists. repeat split. }
  destruct P as (g & Hg & En & Ec). exists g. split; [exact Hg|]. split; [rewrite En; vm_compute; reflexivity|].
  assert (P1 : at_cell g 1 [2%nat] = [qr 0]). { unfold at_cell. rewrite Ec. cbn [seq map nth]. do 2 f_equal; try (apply Qc_is_canon; vm_compute; reflexivity). }
  assert (P2 : at_cell g 1 [3%nat] = [qr 1]). { unfold at_cell. rewrite Ec. cbn [seq map nth]. do 2 f_equal; try (apply Qc_is_canon; vm_compute; reflexivity). }
  split; [intros x Hx; repeat (destruct Hx as [<-|Hx]; [vm_compute; reflexivity|]); destruct Hx|].
  split; [intros x Hx; repeat (destruct Hx as [<-|Hx]; [vm_compute; reflexivity|]); destruct Hx|].
  split; [exact P1|]. split; [exact P2|]. rewrite P2. exists 0%nat. cbn. split; [lia|]. split; [reflexivity|]. intros i Hi.
  assert (i = 0%nat) as -> by lia. cbn. rewrite qr_1, Rabs_R1. unfold qr, Q2R. cbn. lra.
Qed.
