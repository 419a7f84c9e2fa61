(** Model of [PSF] and [SpectralPSF]: gridder.py 2150-2314.  Map values are real numbers
    and np.exp is the real exponential; positions stay rational. *)
From Coq Require Import Reals Qreals.
From Verif Require Import Util Rat Val Arr GridModel GridModel2 Complex.

(** the reals as cell values *)
Definition RAlg : Alg.
  refine {| car := R; v0 := 0%R; v1 := 1%R; vadd := Rplus; vmul := Rmult;
            vsub := Rminus; vopp := Ropp; v_rt := RTheory; emb := qr; star := fun x => x |};
  intros; auto using qr_1, qr_add, qr_mul.
Defined.

Inductive pnorm := NArea | NPeak | NOther.

(** 2*np.sqrt(2*np.log(2)): 2205, 2290 *)
Definition fwhm_sigma : R := (2 * sqrt (2 * ln 2))%R.

(** np.exp(-x**2/(2*sig**2)): 2208, 2294 *)
Definition gauss (sig : R) (x : Qc) : R := exp (- (qr x * qr x) / (2 * (sig * sig))).

Definition rprod (l : list R) : R := fold_right Rmult 1%R l.

(** 2206-2211 and 2291-2298: at one cell, the product over the first [d] axes of the 1-d profiles; [sig i]
    is the width on axis [i] *)
Definition profile (d : nat) (sig : nat -> R) (cens : list (list Qc)) (jx : list nat) : R :=
  rprod (map (fun i => gauss (sig i) (nth (nth i jx 0%nat) (nth i cens []) 0)) (seq 0 d)).

(** 2183-2202, 2265-2284 *)
Definition bcast_ones (d : nat) (s : farr) : exc farr :=
  if (flen s =? 1)%nat then Ok (mkF false (repeat (fnth s 0) d))
  else if (flen s =? d)%nat then Ok s else Raise ValueError.

(** 2150-2222 *)
Definition psf (fwhm : farr) (pix : farr) (side : option farr) (axu : option units) (norm : pnorm) : exc (grid RAlg) :=
  match norm with
  | NOther => Raise ValueError
  | _ =>
      let d := flen fwhm in
      do s <- match side with
              | Some s => bcast_ones d s
              | None => Ok (mkF (fint fwhm) (map (fun x => zq 6 * x) (fv fwhm)))
              end ;;
      do p <- bcast_ones d pix ;;
      do g <- grid_new RAlg 1 (mkF false (repeat 0 d)) s p axu None ;;
      let sig i := (qr (fnth fwhm i) / fwhm_sigma)%R in
      let raw := tab (g_npix g ++ [1%nat]) (fun ix => profile d sig (g_centers g) (removelast ix)) in
      let tot := asum (A:=RAlg) raw in
      let data := match norm with NArea => amap (fun x => (x / tot)%R) raw | _ => raw end in
      Ok (with_data g (Some (data : arr RAlg)))
  end.

(** 2225-2314.  Modelled for positive [spec0] and [spec_axis] (so that the power is the
    real one) *)
Definition spec_psf (spec : list Qc) (spec0 : Qc) (fwhm : farr) (pix : farr) (side : option farr)
    (axu : option units) (norm : pnorm) (e : R) : exc (grid RAlg) :=
  match norm with
  | NOther => Raise ValueError
  | _ =>
      match spec with
      | s0 :: s1 :: _ =>
          let d := flen fwhm in
          let step := qabs (s1 - s0) in
          do s <- match side with
                  | Some s => bcast_ones d s
                  | None => Ok (mkF false (map (fun x => zq 3 * x * lmax (map (fun s => spec0 / s) spec)) (fv fwhm)))
                  end ;;
          do p <- bcast_ones d pix ;;
          do g <- grid_new RAlg 1 (mkF false (repeat 0 d ++ [ptp spec / zq 2 + lmin spec]))
                    (mkF false (fv s ++ [ptp spec + step])) (mkF false (fv p ++ [step])) axu None ;;
          (* 2296-2298: the reshaped profile must have the shape of the data *)
          do _ <- check ((d =? 0)%nat || (last (g_npix g) 0 =? length spec)%nat) ValueError ;;
          let sig sv i := (qr (fnth fwhm i) / fwhm_sigma * Rpower (qr (spec0 / sv)) e)%R in
          let raw := tab (g_npix g ++ [1%nat])
                       (fun ix => profile d (sig (nth (nth d ix 0%nat) spec 0)) (g_centers g) (removelast ix)) in
          (* 2302-2306: each spectral slice divided by its own sum *)
          let slice (c : nat) := vsum (A:=RAlg) (map (fun jx => getd 0%R raw (jx ++ [c; 0%nat])) (idxs (removelast (g_npix g)))) in
          let data := match norm with
                      | NArea => tab (g_npix g ++ [1%nat]) (fun ix => (getd 0%R raw ix / slice (nth d ix 0%nat))%R)
                      | _ => raw
                      end in
          let g1 := with_data g (Some (data : arr RAlg)) in
          (* 2287: the last axis becomes the channel centres *)
          Ok (with_geom g1 (g_center g1) (g_side g1) (g_pix g1) (g_npix g1) (upd (g_axes g1) d spec)
                (g_centers g1) (g_faxes g1) (g_fcenters g1))
      | _ => Raise IndexError
      end
  end.
