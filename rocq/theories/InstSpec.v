(** Specification of the instrument, independent of how the model computes. *)
From Verif Require Import Dict Util Rat Val Arr GridModel GridModel2 GridSpec GridSpec2 ConvSpec InstModel.
Open Scope string_scope.
Open Scope list_scope.
Open Scope Qc_scope.

(** * Tables (C49) *)
(** a detector with a response of each kind and an offset *)
Definition complete (d : det) : Prop := d_spat d <> None /\ d_spec d <> None /\ d_noise d <> None /\ d_off d <> None.
(** names are distinct and are exactly the keys of the tables; only fields have maps, and a map is
    marked valid only if it exists *)
Record tables_ok (s : inst) : Prop := {
  t_names : NoDup (i_names s);
  t_dets : forall d, In d (i_names s) <-> exists x, dget (i_dets s) d = Some x;
  t_fnames : NoDup (i_fnames s);
  t_fields : forall f, In f (i_fnames s) <-> exists g, dget (i_fields s) f = Some g;
  t_fprops : forall f, In f (i_fnames s) <-> exists z, dget (i_fprops s) f = Some z;
  t_maps : forall f m, dget (i_maps s) f = Some m -> In f (i_fnames s);
  t_cons : forall f, In f (i_fnames s) -> exists b, dget (i_cons s) f = Some b;
  t_valid : forall f, dget (i_cons s) f = Some true -> exists m, dget (i_maps s) f = Some m }.

(** the documented names of the predefined functions *)
Definition nicknames (m : rmode) : list (string * fn) :=
  match m with
  | Spatial => [("gauss", FGaussPsf); ("Gauss", FGaussPsf); ("gaussian", FGaussPsf); ("Gaussian", FGaussPsf);
                ("specgauss", FSpecGaussPsf); ("spec-gauss", FSpecGaussPsf); ("SpecGauss", FSpecGaussPsf); ("Spec-Gauss", FSpecGaussPsf);
                ("spectral-gaussian", FSpecGaussPsf); ("Spectral-Gaussian", FSpecGaussPsf)]
  | Spectral => [("gauss", FGaussResp); ("Gauss", FGaussResp); ("gaussian", FGaussResp); ("Gaussian", FGaussResp);
                 ("box", FBoxcar); ("boxcar", FBoxcar); ("Box", FBoxcar); ("Boxcar", FBoxcar)]
  | Noise => [("none", FZeroNoise); ("None", FZeroNoise); ("white", FWhiteNoise); ("White", FWhiteNoise)]
  end.
(** the function a response argument stands for *)
Definition means (m : rmode) (r : resp) (f : fn) : Prop :=
  r = RFun f \/ exists s, r = RStr s /\ In (s, f) (nicknames m).
(** the keywords given, if any *)
Definition kw_given (k : kwarg) (dflt d : kw) : Prop := k = KDict d \/ k = KNone /\ d = dflt.
(** the response [add_detector] is asked for: the given function with the given keywords, or the
    instrument's default function with the given or else the default keywords *)
Definition asked (m : rmode) (dflt : option fn * option kw) (r : resp) (k : kwarg) (x : fn * kw) : Prop :=
  means m r (fst x) /\ kw_given k [] (snd x) \/
  r = RNone /\ fst dflt = Some (fst x) /\ (k = KDict (snd x) \/ k = KNone /\ snd dflt = Some (snd x)).
Definition asked_off (o : option (list Qc)) (x : Qc * Qc) : Prop := o = None /\ x = (0, 0) \/ o = Some [fst x; snd x].
(** the name a new detector gets *)
Definition new_name (a : detargs) (s : inst) : string := match a_name a with Some n => n | None => str_nat (i_count s) end.

(** the detectors a [set_*] call names: all of them if it names none *)
Definition names_det (names : list string) (s : inst) (d : string) : Prop :=
  names = [] /\ In d (i_names s) \/ In d names /\ d <> "instrument".
(** what stays when detectors are changed *)
Definition same_fields (s s' : inst) : Prop :=
  i_fields s' = i_fields s /\ i_fprops s' = i_fprops s /\ i_fnames s' = i_fnames s /\ i_fcount s' = i_fcount s /\ i_maps s' = i_maps s /\
  i_bres s' = i_bres s /\ i_bspec s' = i_bspec s /\ i_sunit s' = i_sunit s /\ i_punit s' = i_punit s /\ i_funit s' = i_funit s.
Definition same_defaults (s s' : inst) : Prop := i_dspat s' = i_dspat s /\ i_dspec s' = i_dspec s /\ i_dnoise s' = i_dnoise s.
Definition default_of (m : rmode) (s : inst) : option fn * option kw :=
  match m with Spatial => i_dspat s | Spectral => i_dspec s | Noise => i_dnoise s end.
Definition resp_of (m : rmode) (d : det) : option (fn * kw) := match m with Spatial => d_spat d | Spectral => d_spec d | Noise => d_noise d end.

(** * Stale maps (C50) *)
(** calls that change the detectors when they succeed *)
Definition changes_detectors (o : iop) (s : inst) : Prop :=
  match o with
  | OAddDet _ => True
  | ODelDet names => names <> []
  | OSet _ names _ _ => exists d, names_det names s d
  | _ => False
  end.

(** * Maps (C52) *)
(** a field that can be observed: a real-space three-dimensional map with data and a unit per
    property, its attributes stored as floats *)
Definition observable (g : G) : Prop :=
  consistent g /\ floats g /\ g_data g <> None /\ existsb (fun b => b) (g_fsp g) = false /\ g_ispow g = false /\ g_ndim g = 3%nat /\
  (0 < g_nprop g)%nat /\ length (g_gru g) = g_nprop g.
(** response functions return proper arrays; a spectral response has one value per frequency *)
Definition responses_ok (sp : fn -> kw -> list Qc -> list Qc -> list Qc -> exc (arr Qc)) (sc : fn -> kw -> list Qc -> exc (arr Qc)) : Prop :=
  (forall f k x y z v, sp f k x y z = Ok v -> awf v) /\ (forall f k z w, sc f k z = Ok w -> awf w /\ shape w = [length z]).

(** [k] cell centres of width [p], centred on zero *)
Definition beam_axis (k : nat) (p : Qc) : list Qc := map (fun i => (nq i + frac 1 2 - nq k / zq 2) * p) (seq 0 k).
(** the number of cells of the beam along axis [i] of field [f]: as asked, or ten times the
    best resolution in cells, plus one *)
Definition beam_size (ks : ksize) (bres : option Qc) (f : G) (i : nat) (k : nat) : Prop :=
  match ks with
  | KsSeq l => exists z, nth_error l i = Some z /\ k = Z.to_nat z
  | KsNone => exists b, bres = Some b /\ k = Z.to_nat (round_even (b / fnth (g_pix f) i) * 10 + 1)
  | KsInt _ => False
  end.
(** what the response of [kx] by [ky] cells is divided by at frequency [z] *)
Definition beam_scale (n : bnorm) (v : arr Qc) (kx ky z : nat) (q : Qc) : Prop :=
  match n with
  | NPeak => (exists x y, (x < kx)%nat /\ (y < ky)%nat /\ getd 0 v [x; y; z] = q) /\
             forall x y, (x < kx)%nat -> (y < ky)%nat -> getd 0 v [x; y; z] <= q
  | NArea => q = qsum (map (fun xy => getd 0 v [fst xy; snd xy; z]) (list_prod (seq 0 kx) (seq 0 ky)))
  | NNone => q = 1
  | NOther => False
  end.
(** [b] is the beam of response [r] for field [f]: the response on cells of the field's size
    around zero and at the field's frequencies, normalised at each frequency *)
Definition is_beam (sp : fn -> kw -> list Qc -> list Qc -> list Qc -> exc (arr Qc)) (f : G) (r : fn * kw) (n : bnorm) (kx ky : nat) (b : G) : Prop :=
  let nz := nth 2 (g_npix f) 0%nat in
  g_ndim b = 3%nat /\ g_npix b = [kx; ky; nz] /\ g_nprop b = 1%nat /\
  exists v, sp (fst r) (snd r) (beam_axis kx (fnth (g_pix f) 0)) (beam_axis ky (fnth (g_pix f) 1)) (nth 2 (g_centers f) []) = Ok v /\
    forall x y z q, (x < kx)%nat -> (y < ky)%nat -> (z < nz)%nat -> beam_scale n v kx ky z q -> q <> 0 -> cell b [x; y; z] 0 = getd 0 v [x; y; z] / q.
(** the beam detector [x] sees field [f] with *)
Definition detector_beam (sp : fn -> kw -> list Qc -> list Qc -> list Qc -> exc (arr Qc)) (bres : option Qc) (f : G) (a : mapargs) (x : det) (b : G) : Prop :=
  match m_beam a with
  | Some b0 => b = b0
  | None => exists r kx ky, d_spat x = Some r /\ beam_size (m_ks a) bres f 0 kx /\ beam_size (m_ks a) bres f 1 ky /\ is_beam sp f r (m_norm a) kx ky b
  end.
(** property [p] of field [f] convolved with [b] over the first two axes and averaged over the
    third with weights [w] *)
Definition seen_of (p : nat) (f b : G) (w : arr Qc) (x y : nat) : Qc :=
  let nz := nth 2 (g_npix f) 0%nat in
  qsum (map (fun z => conv_value (A:=QcAlg) (fun i => (i <? 2)%nat) f b [x; y; z] p * getd 0 w [z]) (seq 0 nz)) / qsum (map (fun z => getd 0 w [z]) (seq 0 nz)).
Definition seen := seen_of 0.
(** the sum of the weights *)
Definition weighted (f : G) (w : arr Qc) : Qc := qsum (map (fun z => getd 0 w [z]) (seq 0 (nth 2 (g_npix f) 0%nat))).
(** pads that work (see C16) *)
Definition plain_pad (p : padarg) : Prop := match p with PadNone => True | PadInt z => (0 <= z)%Z | _ => False end.
(** an explicit beam that fits the field *)
Definition beam_fits (f : G) (a : mapargs) : Prop := forall b, m_beam a = Some b -> kernel_ok b /\ conv_fits f b [0; 1]%nat.
(** layer by layer: detector [i]'s layer of [m] is property [p] of [f] as that detector sees it *)
Definition layers_of (sp : fn -> kw -> list Qc -> list Qc -> list Qc -> exc (arr Qc)) (sc : fn -> kw -> list Qc -> exc (arr Qc)) (s : inst) (f : G) (a : mapargs) (p : nat) (m : G) : Prop :=
  forall i d x, nth_error (i_names s) i = Some d -> dget (i_dets s) d = Some x ->
    exists b r w, detector_beam sp (i_bres s) f a x b /\ d_spec x = Some r /\ sc (fst r) (snd r) (nth 2 (g_centers f) []) = Ok w /\
      forall px py, (px < nth 0 (g_npix f) 0)%nat -> (py < nth 1 (g_npix f) 0)%nat -> weighted f w <> 0 -> cell m [px; py] i = seen_of p f b w px py.
(** [m] is a consistent two-dimensional map with the spatial cells of [f] and [n] layers *)
Definition flat_map_of (f : G) (n : nat) (m : G) : Prop :=
  consistent m /\ g_ndim m = 2%nat /\ g_nprop m = n /\ g_npix m = firstn 2 (g_npix f) /\ fv (g_center m) = firstn 2 (fv (g_center f)) /\
  fv (g_side m) = firstn 2 (fv (g_side f)) /\ fv (g_pix m) = firstn 2 (fv (g_pix f)).
(** the fields a call names: all of them if it names none *)
Definition covers (names : list string) (s : inst) (f : string) : Prop := names = [] /\ In f (i_fnames s) \/ In f names.
(** detector [x] can see field [f]: its responses exist and return values on the cells asked for,
    and unless a beam is given, the beam has at least two cells along each direction, a known
    normalisation and a field with one property *)
Definition sees (sp : fn -> kw -> list Qc -> list Qc -> list Qc -> exc (arr Qc)) (sc : fn -> kw -> list Qc -> exc (arr Qc)) (bres : option Qc) (f : G) (a : mapargs) (x : det) : Prop :=
  (m_beam a = None -> m_norm a <> NOther /\ g_nprop f = 1%nat /\
     exists r kx ky v, d_spat x = Some r /\ (2 <= kx)%nat /\ (2 <= ky)%nat /\ beam_size (m_ks a) bres f 0 kx /\ beam_size (m_ks a) bres f 1 ky /\
       sp (fst r) (snd r) (beam_axis kx (fnth (g_pix f) 0)) (beam_axis ky (fnth (g_pix f) 1)) (nth 2 (g_centers f) []) = Ok v /\ shape v = [kx; ky; nth 2 (g_npix f) 0%nat]) /\
  exists r w, d_spec x = Some r /\ sc (fst r) (snd r) (nth 2 (g_centers f) []) = Ok w.

(** * Samples (C53) *)
(** the noise drawn for row [k] of detector [d] (none unless asked for) *)
Definition noise_value (nz : string -> string -> fn -> kw -> nat -> Qc -> exc (list Qc)) (f d : string) (x : det) (noise : bool) (dt : option Qc) (rows : list (list Qc)) (k : nat) (v : Qc) : Prop :=
  match noise, dt with
  | true, Some _ => exists r t l, d_noise x = Some r /\ dt = Some t /\ nz f d (fst r) (snd r) (length rows) t = Ok l /\ nth_error l k = Some v
  | _, _ => v = 0
  end.
(** [v] is what detector [d], number [i], reads at position [r] (row [k]) from map [m]: NaN if the
    shifted position is off the map, otherwise layer [i] of the cell it is in; plus the noise *)
Definition sampled (nz : string -> string -> fn -> kw -> nat -> Qc -> exc (list Qc)) (m : G) (f d : string) (x : det) (rows : list (list Qc)) (k : nat) (r : list Qc)
    (signal noise : bool) (dt : option Qc) (i : nat) (v : option Qc) : Prop :=
  exists nv, noise_value nz f d x noise dt rows k nv /\ (signal = false -> v = Some nv) /\
    (signal = true -> exists off, d_off x = Some off /\
       let p := [nth 0 r 0 + fst off; nth 1 r 0 + snd off] in
       (in_extent (g_axes m) p = false -> v = None) /\ forall ix, in_cell m ix p = true -> v = Some (cell m ix i + nv)).
