(** Model of snapshot metadata and of the redshift table of a simulation:
    simim/siminterface/_rawsiminterface.py 16-115, the metadata part of
    illustris.py 452-488, universemachine.py 340-379 and uchuu.py 288-332, and
    simhandler.py 224-227, 349-368. No proofs here.

    Numbers are real; the float32 rounding of the stored table is not modelled.
    The astropy cosmology is a record of functions. *)
From Verif Require Import Util RealUtil.
From Coq Require Import Reals.
Open Scope R_scope.

(** FlatLambdaCDM: age in Gyr, z_at_value(age, .), comoving and transverse
    comoving distance in Mpc *)
Record cosmo := mkCosmo { age : R -> R; z_at_age : R -> R; cdist : R -> R; tdist : R -> R }.

(** ** Snapshot objects: _rawsiminterface.py 16-115 *)
(** attributes that are set later are None until then *)
Record snapc := mkSnap {
  c_index : Z; c_z : R;
  c_zmin : option R; c_zmax : option R; c_tstart : option R; c_tend : option R;
  c_dmin : option R; c_dmax : option R; c_tdmin : option R; c_tdmax : option R }.
(** Snapshot.__init__, 24-53 *)
Definition new_snap (i : Z) (z : R) : snapc := mkSnap i z None None None None None None None None.

(** dif_snap, 55-69 *)
Definition dif_snap (C : cosmo) (a b : snapc) : R * R :=
  let t := (age C (c_z a) + age C (c_z b)) / 2 in (z_at_age C t, t).

Definition set_lower (a : snapc) (z t d td : R) : snapc :=
  mkSnap (c_index a) (c_z a) (Some z) (c_zmax a) (c_tstart a) (Some t) (Some d) (c_dmax a) (Some td) (c_tdmax a).
Definition set_upper (a : snapc) (z t d td : R) : snapc :=
  mkSnap (c_index a) (c_z a) (c_zmin a) (Some z) (Some t) (c_tend a) (c_dmin a) (Some d) (c_tdmin a) (Some td).

(** dif_lowerz_snap, 71-92; None is other = 0 *)
Definition dif_lowerz (C : cosmo) (a : snapc) (other : option snapc) : exc snapc :=
  match other with
  | None => Ok (set_lower a 0 (age C 0) 0 0)
  | Some b =>
      if rltb (c_z a) (c_z b) then Raise ValueError
      else let (z, t) := dif_snap C a b in Ok (set_lower a z t (cdist C z) (tdist C z))
  end.
(** dif_higherz_snap, 94-115; None is other = 'max' *)
Definition dif_higherz (C : cosmo) (a : snapc) (other : option snapc) : exc snapc :=
  match other with
  | None => Ok (set_upper a (c_z a) (age C (c_z a)) (cdist C (c_z a)) (tdist C (c_z a)))
  | Some b =>
      if rltb (c_z b) (c_z a) then Raise ValueError
      else let (z, t) := dif_snap C a b in Ok (set_upper a z t (cdist C z) (tdist C z))
  end.

(** ** The metadata table *)
Record meta := mkMeta {
  m_index : Z; m_z : R; m_zmin : R; m_zmax : R; m_tstart : R; m_tend : R;
  m_dmin : R; m_dmax : R; m_tdmin : R; m_tdmax : R }.

(** illustris.py 464-466: one pass of the loop *)
Definition link (C : cosmo) (l : list snapc) (i : nat) : exc (list snapc) :=
  match nth_error l i, nth_error l (S i) with
  | Some a, Some b =>
      do a' <- dif_lowerz C a (Some b) ;;
      do b' <- dif_higherz C b (Some a') ;;
      Ok (upd (upd l i a') (S i) b')
  | _, _ => Raise IndexError
  end.
Fixpoint links (C : cosmo) (is : list nat) (l : list snapc) : exc (list snapc) :=
  match is with
  | [] => Ok l
  | i :: r => do l' <- link C l i ;; links C r l'
  end.
Definition get_attr (o : option R) : exc R := match o with Some x => Ok x | None => Raise AttributeError end.
(** 477-487 *)
Definition to_meta (h : R) (a : snapc) : exc meta :=
  do z0 <- get_attr (c_zmin a) ;; do z1 <- get_attr (c_zmax a) ;;
  do t0 <- get_attr (c_tstart a) ;; do t1 <- get_attr (c_tend a) ;;
  do d0 <- get_attr (c_dmin a) ;; do d1 <- get_attr (c_dmax a) ;;
  do e0 <- get_attr (c_tdmin a) ;; do e1 <- get_attr (c_tdmax a) ;;
  Ok (mkMeta (c_index a) (c_z a) z0 z1 t0 t1 (d0 * h) (d1 * h) (e0 * h) (e1 * h)).
(** 462-488, and the same lines in universemachine.py 353-379 and uchuu.py 301-332 *)
Definition make_meta (C : cosmo) (h : R) (l : list snapc) : exc (list meta) :=
  match l with
  | [] => Raise IndexError
  | a :: _ =>
      do a' <- dif_higherz C a None ;;
      let l := upd l 0 a' in
      match nth_error l (length l - 1) with
      | None => Raise IndexError
      | Some b =>
          do b' <- dif_lowerz C b None ;;
          let l := upd l (length l - 1) b' in
          do l <- links C (seq 0 (length l - 1)) l ;;
          mapM (to_meta h) l
      end
  end.

(** ** The snapshots used *)
Definition pick {A} (l : list A) (p : list nat) : list A :=
  flat_map (fun i => match nth_error l i with Some x => [x] | None => [] end) p.
Definition zmem (x : Z) (l : list Z) : bool := existsb (Z.eqb x) l.
(** illustris.py 452-460, [raw] the (number, redshift) pairs in the order the server
    sends them *)
Definition illustris_classes (asort : list R -> list nat) (raw : list (Z * R)) (snaps : list Z) : list snapc :=
  let classes := map (fun nz => new_snap (fst nz) (snd nz)) raw in
  let order := asort (map (fun nz => IZR (fst nz)) raw) in
  let classes := pick classes order in
  flat_map (fun i => match nth_error raw i, nth_error classes i with
                     | Some nz, Some c => if zmem (fst nz) snaps then [c] else []
                     | _, _ => []
                     end) order.
(** universemachine.py 340-351, uchuu.py 288-299: redshifts sorted in descending order
    are numbered from 0 *)
Definition numbered_classes (asort : list R -> list nat) (zs : list R) (snaps : list Z) : list snapc :=
  let zs := pick zs (asort (map Ropp zs)) in
  filter (fun c => zmem (c_index c) snaps)
    (map (fun iz => new_snap (Z.of_nat (fst iz)) (snd iz)) (combine (seq 0 (length zs)) zs)).

(** ** The redshift table of SimHandler: simhandler.py 224-227 *)
Record zhandler := mkZH { zh_bins : list R; zh_snaps : list Z }.
Definition open_zhandler (asort : list R -> list nat) (ms : list meta) : exc zhandler :=
  let s := pick ms (asort (map m_z ms)) in
  match nth_error s (length s - 1) with
  | None => Raise IndexError
  | Some l => Ok (mkZH (map m_zmin s ++ [m_zmax l]) (map m_index s))
  end.

Fixpoint ascending_ (l : list R) : bool :=
  match l with a :: (b :: _) as r => rleb a b && ascending_ r | _ => true end.
Fixpoint descending_ (l : list R) : bool :=
  match l with a :: (b :: _) as r => rleb b a && descending_ r | _ => true end.
(** np.digitize(x, bins) *)
Definition digitize (x : R) (bins : list R) : exc nat :=
  if ascending_ bins then Ok (length (filter (fun b => rleb b x) bins))
  else if descending_ bins then Ok (length (filter (fun b => rltb x b) bins))
  else Raise ValueError.
Definition rmax (l : list R) : R := match l with [] => 0 | a :: r => fold_left Rmax r a end.
(** z_to_snap, 349-368; a bin of -1 indexes the last snapshot *)
Definition z_to_snap (h : zhandler) (z : R) : exc Z :=
  if rltb (rmax (zh_bins h)) z || rltb z 0 then Raise ValueError
  else
    do n <- digitize z (zh_bins h) ;;
    let i := match n with 0%nat => (length (zh_snaps h) - 1)%nat | S k => k end in
    match nth_error (zh_snaps h) i with Some s => Ok s | None => Raise IndexError end.
