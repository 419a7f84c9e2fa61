(** Model of simim/instrument/instrument.py (class [Instrument]) and of the checks it takes from
    simim/instrument/_helpers.py. Grids are those of GridModel.v and GridModel2.v, with rational
    cells. Response and noise functions are named ([fn]); what they return is given by arguments
    of the model. Python's [None] is [None], [RNone], [KNone]; an exception is a value, and a
    method returns the state it leaves behind together with its outcome. *)
From Coq Require Import DecimalString.
From Verif Require Import Dict Util Rat Val Arr GridModel GridModel2.
Open Scope string_scope.
Open Scope list_scope.
Open Scope Qc_scope.

Notation G := (grid QcAlg).

(** functions, compared by identity: those of the user, and the predefined ones
    (instrument.py 11-13) *)
Inductive fn := FUser (n : nat) | FGaussPsf | FSpecGaussPsf | FGaussResp | FBoxcar | FZeroNoise | FWhiteNoise.
Definition fn_dec (a b : fn) : {a = b} + {a <> b}.
Proof. decide equality. apply Nat.eq_dec. Defined.
(** keyword dictionaries, given by their items in order of the keys, so that python's [==] is
    equality. Simplification: values are numbers. *)
Definition kw := list (string * Qc).
Definition kw_dec (a b : kw) : {a = b} + {a <> b}.
Proof. apply list_eq_dec. intros [s q] [t r]. destruct (string_dec s t) as [E|E]; [destruct (Qc_eq_dec q r) as [F|F]; [left; congruence|right; congruence]|right; congruence]. Defined.

(** the [*_response] / [noise_function] arguments: None, a string, a callable, anything else *)
Inductive resp := RNone | RStr (s : string) | RFun (f : fn) | ROther.
(** the [*_kwargs] arguments: None, a dict, anything else *)
Inductive kwarg := KNone | KDict (d : kw) | KOther.
Inductive rmode := Spatial | Spectral | Noise.

(** [_DetectorInfo], 19-31: attributes that are not set yet are None. [reffreq] (574-606) is
    left out here: it is only printed and plotted. RespModel.v and RefModel.v model it. *)
Record det := mkDet { d_spat : option (fn * kw); d_spec : option (fn * kw); d_noise : option (fn * kw); d_off : option (Qc * Qc) }.

(** the attributes of an [Instrument], 140-179; [pointing_offset_frame] is never read *)
Record inst := mkInst {
  i_dets : dict det; i_names : list string; i_count : nat;
  i_fields : dict G; i_fprops : dict Z; i_fnames : list string; i_fcount : nat;
  i_cons : dict bool; i_maps : dict G;
  i_dspat : option fn * option kw; i_dspec : option fn * option kw; i_dnoise : option fn * option kw;
  i_bres : option Qc; i_bspec : option Qc;
  i_sunit : option string; i_punit : option string; i_funit : option string }.

Definition set_dets (s : inst) (d : dict det) (n : list string) : inst :=
  mkInst d n (i_count s) (i_fields s) (i_fprops s) (i_fnames s) (i_fcount s) (i_cons s) (i_maps s) (i_dspat s) (i_dspec s) (i_dnoise s)
    (i_bres s) (i_bspec s) (i_sunit s) (i_punit s) (i_funit s).
Definition set_cons (s : inst) (c : dict bool) : inst :=
  mkInst (i_dets s) (i_names s) (i_count s) (i_fields s) (i_fprops s) (i_fnames s) (i_fcount s) c (i_maps s) (i_dspat s) (i_dspec s) (i_dnoise s)
    (i_bres s) (i_bspec s) (i_sunit s) (i_punit s) (i_funit s).
Definition set_count (s : inst) (n : nat) : inst :=
  mkInst (i_dets s) (i_names s) n (i_fields s) (i_fprops s) (i_fnames s) (i_fcount s) (i_cons s) (i_maps s) (i_dspat s) (i_dspec s) (i_dnoise s)
    (i_bres s) (i_bspec s) (i_sunit s) (i_punit s) (i_funit s).
Definition set_fields (s : inst) (f : dict G) (p : dict Z) (n : list string) (c : nat) : inst :=
  mkInst (i_dets s) (i_names s) (i_count s) f p n c (i_cons s) (i_maps s) (i_dspat s) (i_dspec s) (i_dnoise s)
    (i_bres s) (i_bspec s) (i_sunit s) (i_punit s) (i_funit s).
Definition set_maps (s : inst) (m : dict G) (c : dict bool) : inst :=
  mkInst (i_dets s) (i_names s) (i_count s) (i_fields s) (i_fprops s) (i_fnames s) (i_fcount s) c m (i_dspat s) (i_dspec s) (i_dnoise s)
    (i_bres s) (i_bspec s) (i_sunit s) (i_punit s) (i_funit s).
Definition set_default (s : inst) (m : rmode) (d : option fn * option kw) : inst :=
  mkInst (i_dets s) (i_names s) (i_count s) (i_fields s) (i_fprops s) (i_fnames s) (i_fcount s) (i_cons s) (i_maps s)
    (match m with Spatial => d | _ => i_dspat s end) (match m with Spectral => d | _ => i_dspec s end) (match m with Noise => d | _ => i_dnoise s end)
    (i_bres s) (i_bspec s) (i_sunit s) (i_punit s) (i_funit s).

(** for k in self.field_names: self.maps_consistent[k] = False *)
Definition all_stale (s : inst) : inst := set_cons s (fold_left (fun c k => dset c k false) (i_fnames s) (i_cons s)).

Fixpoint nodup_str (l : list string) : bool :=
  match l with [] => true | a :: r => negb (smem a r) && nodup_str r end.
(** 182-191 [_check_detectors] *)
Definition check_detectors (s : inst) (ds : list string) : exc unit :=
  do _ <- check (forallb (fun d => smem d (i_names s)) ds) ValueError ;; check (nodup_str ds) ValueError.
(** 193-202 [_check_fields] *)
Definition check_fields (s : inst) (fs : list string) : exc unit :=
  do _ <- check (forallb (fun f => dmem (i_fields s) f) fs) ValueError ;; check (nodup_str fs) ValueError.

(** 226-254: which function is meant; [some] tells whether there are detectors to change *)
Definition resolve (m : rmode) (r : resp) (some : bool) : exc (option fn) :=
  match r with
  | RNone => if some then Raise ValueError else Ok None
  | RFun f => Ok (Some f)
  | ROther => Raise ValueError
  | RStr s =>
      match m with
      | Spatial =>
          if smem s ["gauss"; "Gauss"; "gaussian"; "Gaussian"] then Ok (Some FGaussPsf)
          else if smem s ["specgauss"; "spec-gauss"; "SpecGauss"; "Spec-Gauss"; "spectral-gaussian"; "Spectral-Gaussian"] then Ok (Some FSpecGaussPsf)
          else Raise ValueError
      | Spectral =>
          if smem s ["gauss"; "Gauss"; "gaussian"; "Gaussian"] then Ok (Some FGaussResp)
          else if smem s ["box"; "boxcar"; "Box"; "Boxcar"] then Ok (Some FBoxcar)
          else Raise ValueError
      | Noise =>
          if smem s ["none"; "None"] then Ok (Some FZeroNoise)
          else if smem s ["white"; "White"] then Ok (Some FWhiteNoise)
          else Raise ValueError
      end
  end.

(** 258-262 *)
Definition check_kwargs (k : kwarg) : exc (option kw) :=
  match k with KNone => Ok None | KDict d => Ok (Some d) | KOther => Raise ValueError end.

(** 265-274: one detector (which is in the table, see C49) *)
Definition set_resp (m : rmode) (r : fn * kw) (d : det) : det :=
  match m with
  | Spatial => mkDet (Some r) (d_spec d) (d_noise d) (d_off d)
  | Spectral => mkDet (d_spat d) (Some r) (d_noise d) (d_off d)
  | Noise => mkDet (d_spat d) (d_spec d) (Some r) (d_off d)
  end.
Definition dalter {X} (f : X -> X) (d : dict X) (k : string) : dict X :=
  match dget d k with Some x => dset d k (f x) | None => d end.

(** 205-290 [_set_response] *)
Definition set_response (m : rmode) (names : list string) (r : resp) (k : kwarg) (s : inst) : inst * exc unit :=
  let plan :=
    do (di, ds) <- match names with
                   | [] => Ok (false, i_names s)
                   | _ => let ds := filter (fun d => negb (String.eqb d "instrument")) names in
                          do _ <- check_detectors s ds ;; Ok (smem "instrument" names, ds)
                   end ;;
    do f <- resolve m r (negb (length ds =? 0)%nat) ;;
    do kk <- check_kwargs k ;;
    Ok (di, ds, f, kk) in
  match plan with
  | Raise e => (s, Raise e)
  | Ok (di, ds, f, kk) =>
      let s1 := match f with
                | Some f => set_dets s (fold_left (dalter (set_resp m (f, match kk with Some d => d | None => [] end))) ds (i_dets s)) (i_names s)
                | None => s
                end in
      let s2 := match ds with [] => s1 | _ => all_stale s1 end in
      (if di : bool then set_default s2 m (f, kk) else s2, Ok tt)
  end.

(** list.remove *)
Fixpoint remove_first (k : string) (l : list string) : list string :=
  match l with [] => [] | a :: r => if String.eqb a k then r else a :: remove_first k r end.
(** 615-632 [del_detectors] *)
Definition del_detectors (names : list string) (s : inst) : inst * exc unit :=
  match check_detectors s names with
  | Raise e => (s, Raise e)
  | Ok _ =>
      let s1 := set_dets s (fold_left ddel names (i_dets s)) (fold_left (fun l d => remove_first d l) names (i_names s)) in
      (match names with [] => s1 | _ => all_stale s1 end, Ok tt)
  end.

(** the arguments of [add_detector]; [nominal_frequency] only sets [reffreq] *)
Record detargs := mkDA { a_name : option string; a_spat : resp; a_spatk : kwarg; a_spec : resp; a_speck : kwarg;
  a_noise : resp; a_noisek : kwarg; a_off : option (list Qc) }.

(** 504-552: function and keywords, with the defaults. All the errors are ValueErrors raised before
    anything changes, so that their order does not matter. *)
Definition pick (dflt : option fn * option kw) (r : resp) (k : kwarg) : exc (resp * kwarg) :=
  match r with
  | RNone =>
      match fst dflt with
      | None => Raise ValueError
      | Some f =>
          match k with
          | KNone => match snd dflt with None => Raise ValueError | Some d => Ok (RFun f, KDict d) end
          | _ => Ok (RFun f, k)
          end
      end
  | _ => Ok (r, match k with KNone => KDict [] | _ => k end)
  end.
Definition str_nat (n : nat) : string := NilEmpty.string_of_uint (Nat.to_uint n).

(** two steps, the second only if the first does not raise *)
Definition then_ (f g : inst -> inst * exc unit) (s : inst) : inst * exc unit :=
  match f s with (s', Ok _) => g s' | (s', Raise e) => (s', Raise e) end.

(** 407-612 [add_detector] *)
Definition add_detector (a : detargs) (s : inst) : inst * exc unit :=
  let name := match a_name a with Some n => n | None => str_nat (i_count s) end in
  let plan :=
    do _ <- check (negb (smem name (i_names s))) ValueError ;;
    do off <- match a_off a with None => Ok (0, 0) | Some [x; y] => Ok (x, y) | Some _ => Raise ValueError end ;;
    do sp <- pick (i_dspat s) (a_spat a) (a_spatk a) ;;
    do sc <- pick (i_dspec s) (a_spec a) (a_speck a) ;;
    do no <- pick (i_dnoise s) (a_noise a) (a_noisek a) ;;
    Ok (off, sp, sc, no) in
  match plan with
  | Raise e => (s, Raise e)
  | Ok (off, sp, sc, no) =>
      let s1 := set_dets s (dset (i_dets s) name (mkDet None None None None)) (i_names s ++ [name]) in
      match then_ (set_response Spatial [name] (fst sp) (snd sp))
              (then_ (set_response Spectral [name] (fst sc) (snd sc)) (set_response Noise [name] (fst no) (snd no))) s1 with
      | (s2, Raise e) =>
          (* 555-561: del_detectors, restore maps_consistent, raise again *)
          match del_detectors [name] s2 with
          | (s3, Ok _) => (set_cons s3 (i_cons s), Raise e)
          | (s3, Raise e') => (s3, Raise e')
          end
      | (s2, Ok _) =>
          let s3 := set_dets s2 (dalter (fun d => mkDet (d_spat d) (d_spec d) (d_noise d) (Some off)) (i_dets s2) name) (i_names s2) in
          (all_stale (set_count s3 (S (i_count s3))), Ok tt)
      end
  end.

(** 54-179 [__init__] *)
Definition known_spatial : list (option string) := [Some "rad"; Some "deg"; Some "arcmin"; Some "arcsec"; None].
Definition known_spectral : list (option string) := [Some "GHz"; Some "Hz"; Some "m"; Some "mm"; Some "um"; None].
Definition known_flux : list (option string) := [Some "Jy"; Some "mJy"; None].
Definition unit_dec (a b : option string) : {a = b} + {a <> b}.
Proof. decide equality. apply string_dec. Defined.
(** _helpers.py 20-33 *)
Definition check_unit (known : list (option string)) (u : option string) : exc unit :=
  check (if in_dec unit_dec u known then true else false) ValueError.
Definition new_inst (sunit punit funit : option string) (bres bspec : option Qc) (sp : resp) (spk : kwarg) (sc : resp) (sck : kwarg) (no : resp) (nok : kwarg) : exc inst :=
  let s0 := mkInst [] [] 0 [] [] [] 0 [] [] (None, None) (None, None) (None, None) bres bspec sunit punit funit in
  match then_ (set_response Spatial ["instrument"] sp spk) (then_ (set_response Spectral ["instrument"] sc sck) (set_response Noise ["instrument"] no nok)) s0 with
  | (_, Raise e) => Raise e
  | (s, Ok _) =>
      do _ <- check_unit known_spatial sunit ;; do _ <- check_unit known_spectral punit ;; do _ <- check_unit known_flux funit ;; Ok s
  end.

(** a[i] of a numpy array *)
Definition fat (a : farr) (i : nat) : exc Qc := match nth_error (fv a) i with Some x => Ok x | None => Raise IndexError end.
Definition uat (u : units) (i : nat) : exc (option string) := match nth_error u i with Some x => Ok x | None => Raise IndexError end.

(** _helpers.py 45-81, one axis *)
Definition check_axis_unit (known : list (option string)) (u mine : option string) : exc unit :=
  match u, mine with
  | None, _ => Ok tt
  | _, None => Ok tt
  | _, _ => do _ <- check_unit known u ;; check (if unit_dec u mine then true else false) ValueError
  end.
(** _helpers.py 35-96 [_check_grid_detector_compatibility]. At 92 the whole array of units is
    looked up in a list of strings: this works for arrays of one element, and raises for others *)
Definition check_compatible (s : inst) (g : G) (idx : nat) : exc unit :=
  do _ <- check (active g) ValueError ;;
  do _ <- check (negb (existsb (fun b => b) (g_fsp g))) ValueError ;;
  do _ <- check (g_ndim g =? 3)%nat ValueError ;;
  do u0 <- uat (g_axu g) 0 ;; do _ <- check_axis_unit known_spatial u0 (i_sunit s) ;;
  do u1 <- uat (g_axu g) 1 ;; do _ <- check_axis_unit known_spatial u1 (i_sunit s) ;;
  do u2 <- uat (g_axu g) 2 ;; do _ <- check_axis_unit known_spectral u2 (i_punit s) ;;
  do u <- uat (g_gru g) idx ;;
  match u, i_funit s with
  | None, _ => Ok tt
  | _, None => Ok tt
  | _, _ =>
      do _ <- match g_gru g with [v] => check_unit known_flux v | _ => Raise ValueError end ;;
      check (if unit_dec u (i_funit s) then true else false) ValueError
  end.

(** 634-705 [add_field]; the warnings are not modelled *)
Definition add_field (g : G) (name : option string) (oidx : option Z) (in_place chk : bool) (s : inst) : inst * exc unit :=
  let idx := match oidx with Some z => z | None => 0%Z end in
  let nm := match name with Some n => n | None => str_nat (i_fcount s) end in
  let plan :=
    do _ <- check (negb ((Z.of_nat (g_ndim g) - 1 <? idx)%Z || (idx <? 0)%Z)) ValueError ;;
    do _ <- (if chk : bool then check_compatible s g (Z.to_nat idx) else Ok tt) ;;
    do _ <- check (negb (dmem (i_fields s) nm)) ValueError ;;
    do _ <- match i_bres s with
            | None => Ok tt
            | Some b => do p0 <- fat (g_pix g) 0 ;;
                        if qltb b p0 then Raise ValueError
                        else do p1 <- fat (g_pix g) 1 ;; check (negb (qltb b p1)) ValueError
            end ;;
    do _ <- match i_bspec s with
            | None => Ok tt
            | Some b => do p2 <- fat (g_pix g) 2 ;; check (negb (qltb b p2)) ValueError
            end ;;
    if in_place : bool then Ok (g, idx) else do c <- grid_copy g (Some [idx]) ;; Ok (c, 0%Z) in
  match plan with
  | Raise e => (s, Raise e)
  | Ok (g', idx') =>
      (set_cons (set_fields s (dset (i_fields s) nm g') (dset (i_fprops s) nm idx') (i_fnames s ++ [nm]) (S (i_fcount s)))
         (dset (i_cons s) nm false), Ok tt)
  end.

(** 707-725 [del_fields] *)
Definition del_field (s : inst) (f : string) : inst :=
  let s1 := set_fields s (ddel (i_fields s) f) (ddel (i_fprops s) f) (remove_first f (i_fnames s)) (i_fcount s) in
  if dmem (i_maps s1) f then set_maps s1 (ddel (i_maps s1) f) (ddel (i_cons s1) f) else s1.
Definition del_fields (names : list string) (s : inst) : inst * exc unit :=
  match check_fields s names with
  | Raise e => (s, Raise e)
  | Ok _ => (fold_left del_field names s, Ok tt)
  end.

(** d.attr for an attribute that may not be set *)
Definition attr {X} (o : option X) : exc X := match o with Some x => Ok x | None => Raise AttributeError end.
Definition det_at (s : inst) (d : string) : exc det := dfind (i_dets s) d.

(** 728-739 and 741-752: detectors with equal attribute [key], in groups. [key d] raises when the
    attribute is not set. The first argument bounds the number of rounds (one per detector). *)
Fixpoint clones {X} (eqb : X -> X -> bool) (key : string -> exc X) (fuel : nat) (need : list string) : exc (list (list string)) :=
  match fuel, need with
  | S n, d0 :: _ =>
      do k0 <- key d0 ;;
      do ks <- mapM (fun d => do k <- key d ;; Ok (d, k)) need ;;
      let matches := map fst (filter (fun dk => eqb (snd dk) k0) ks) in
      do r <- clones eqb key n (filter (fun d => negb (smem d matches)) need) ;;
      Ok (matches :: r)
  | _, _ => Ok []
  end.
Definition spat_of (s : inst) (d : string) : exc (fn * kw) := do x <- det_at s d ;; attr (d_spat x).
Definition spec_of (s : inst) (d : string) : exc (fn * kw) := do x <- det_at s d ;; attr (d_spec x).
Definition noise_of (s : inst) (d : string) : exc (fn * kw) := do x <- det_at s d ;; attr (d_noise x).
Definition off_of (s : inst) (d : string) : exc (Qc * Qc) := do x <- det_at s d ;; attr (d_off x).
Definition spat_eqb (a b : fn * kw) : bool :=
  (if fn_dec (fst a) (fst b) then true else false) && (if kw_dec (snd a) (snd b) then true else false).
Definition off_eqb (a b : Qc * Qc) : bool := qeqb (fst a) (fst b) && qeqb (snd a) (snd b).
Definition spatial_clones (s : inst) : exc (list (list string)) := clones spat_eqb (spat_of s) (length (i_names s)) (i_names s).
Definition pointing_clones (s : inst) : exc (list (list string)) := clones off_eqb (off_of s) (length (i_names s)) (i_names s).

(** the [spatial_response_norm] argument: 'peak', 'area', 'none', other strings *)
Inductive bnorm := NPeak | NArea | NNone | NOther.
(** the [kernel_size] argument: None, an int, a sequence of ints *)
Inductive ksize := KsNone | KsInt (z : Z) | KsSeq (l : list Z).
Definition ks_at (k : list Z) (i : nat) : exc Z := match nth_error k i with Some z => Ok z | None => Raise IndexError end.

(** what the response functions return for their arguments *)
Section Map.
Context (sp : fn -> kw -> list Qc -> list Qc -> list Qc -> exc (arr Qc)) (sc : fn -> kw -> list Qc -> exc (arr Qc)).

(** 798-801: np.max / np.sum over x and y for every frequency (numpy divides by zero without
    raising; here the quotient is 0, and no theorem uses it) *)
Definition plane (b : arr Qc) (z : nat) : list Qc := map (fun xy => getd 0 b (xy ++ [z; 0%nat])) (idxs (firstn 2 (shape b))).
Definition norm_beam (n : bnorm) (b : arr Qc) : arr Qc :=
  match n with
  | NPeak => tab (shape b) (fun ix => getd 0 b ix / lmax (plane b (nth 2 ix 0%nat)))
  | NArea => tab (shape b) (fun ix => getd 0 b ix / qsum (plane b (nth 2 ix 0%nat)))
  | _ => b
  end.

(** 754-813 [_setup_beam] *)
Definition setup_beam (bres : option Qc) (f : G) (r : fn * kw) (n : bnorm) (ks : ksize) : exc G :=
  do ksz <- match ks, bres with
            | KsNone, None => Raise ValueError
            | KsNone, Some b => Ok (Some (map (fun p => (round_even (b / p) * 10 + 1)%Z) (firstn 2 (fv (g_pix f)))))
            | KsInt _, _ => Ok None
            | KsSeq l, _ => Ok (Some l)
            end ;;
  do _ <- check (match n with NOther => false | _ => true end) ValueError ;;
  do c2 <- fat (g_center f) 2 ;;
  do l <- match ksz with None => Raise TypeError | Some l => Ok l end ;;
  do k0 <- ks_at l 0 ;; do p0 <- fat (g_pix f) 0 ;;
  do k1 <- ks_at l 1 ;; do p1 <- fat (g_pix f) 1 ;;
  do s2 <- fat (g_side f) 2 ;;
  do b <- grid_new QcAlg 1 (mkF (fint (g_center f)) [0; 0; c2]) (mkF (fint (g_pix f) && fint (g_side f)) [zq k0 * p0; zq k1 * p1; s2]) (g_pix f)
            (Some (g_axu f)) (Some (g_gru f)) ;;
  let b0 := init_grid b in
  do v <- sp (fst r) (snd r) (nth 0 (g_centers b0) []) (nth 1 (g_centers b0) []) (nth 2 (g_centers b0) []) ;;
  do _ <- check (if list_eq_dec Nat.eq_dec (shape v ++ [1%nat]) (dshape b0) then true else false) ValueError ;;
  Ok (with_data b0 (Some (norm_beam n (mkArr (shape v ++ [1%nat]) (dat v) : arr Qc)))).

(** the arguments of [map_fields] after the names *)
Record mapargs := mkMA { m_norm : bnorm; m_ks : ksize; m_beam : option G; m_pad : padarg }.

(** 884-888: one detector of a group *)
Definition det_map (s : inst) (conv : G) (d : string) : exc G :=
  do r <- spec_of s d ;;
  do w <- sc (fst r) (snd r) (nth 2 (g_centers conv) []) ;;
  grid_collapse_new conv [2%Z] (Some [w]) MAverage.
(** the maps made so far, by detector, and the last one made *)
Definition acc_maps := (list (string * G) * option G)%type.
Fixpoint group_maps (s : inst) (conv : G) (ds : list string) (acc : acc_maps) : exc acc_maps :=
  match ds with
  | [] => Ok acc
  | d :: r => do m <- det_map s conv d ;; group_maps s conv r (fst acc ++ [(d, m)], Some m)
  end.
Definition group_beam (s : inst) (f : G) (a : mapargs) (group : list string) : exc G :=
  match m_beam a with
  | Some b => Ok b
  | None => match group with
            | [] => Raise IndexError
            | d :: _ => do r <- spat_of s d ;; setup_beam (i_bres s) f r (m_norm a) (m_ks a)
            end
  end.
Fixpoint all_groups (s : inst) (f : G) (a : mapargs) (gs : list (list string)) (acc : acc_maps) : exc acc_maps :=
  match gs with
  | [] => Ok acc
  | g :: r =>
      do b <- group_beam s f a g ;;
      do conv <- grid_convolve_new f b (Some [0%Z; 1%Z]) (m_pad a) ;;
      do acc' <- group_maps s conv g acc ;;
      all_groups s f a r acc'
  end.
(** 887-893: the maps in detector order, property 0 of each *)
Definition stack_maps (s : inst) (ms : list (string * G)) : exc (arr Qc) :=
  do ls <- mapM (fun d => match dget ms d with Some m => match g_data m with Some x => Ok x | None => Raise ValueError end | None => Raise ValueError end) (i_names s) ;;
  match ls with
  | [] => Raise ValueError
  | l0 :: _ =>
      do _ <- check (forallb (fun l => if list_eq_dec Nat.eq_dec (shape l) (shape l0) then true else false) ls) ValueError ;;
      match shape l0 with
      | [nx; ny; np] =>
          do _ <- check (negb (np =? 0)%nat) IndexError ;;
          Ok (tab [nx; ny; length ls] (fun ix => getd 0 (nth (nth 2 ix 0%nat) ls (mkArr [] [])) [nth 0 ix 0%nat; nth 1 ix 0%nat; 0%nat]))
      | _ => Raise (UserExn 0)
      end
  end.
(** 871-897: the map of one field *)
Definition map_one (s : inst) (groups : list (list string)) (a : mapargs) (f : G) : exc G :=
  do acc <- all_groups s f a groups ([], None) ;;
  do d <- stack_maps s (fst acc) ;;
  match snd acc with
  | None => Raise NameError
  | Some m => Ok (with_nprop (with_data m (Some (d : arr QcAlg))) (length (i_names s)))
  end.
(** 870-901: field after field; those before one that raises are kept *)
Fixpoint map_loop (groups : list (list string)) (a : mapargs) (fs : list string) (s : inst) : inst * exc unit :=
  match fs with
  | [] => (s, Ok tt)
  | f :: r =>
      match (do g <- dfind (i_fields s) f ;; map_one s groups a g) with
      | Raise e => (s, Raise e)
      | Ok m => map_loop groups a r (set_maps s (dset (i_maps s) f m) (dset (i_cons s) f true))
      end
  end.
(** 815-901 [map_fields] *)
Definition map_groups (s : inst) (a : mapargs) : exc (list (list string)) :=
  match m_beam a with Some _ => Ok [i_names s] | None => spatial_clones s end.
Definition map_fields (names : list string) (a : mapargs) (s : inst) : inst * exc unit :=
  let plan :=
    do fs <- match names with [] => Ok (i_fnames s) | _ => do _ <- check_fields s names ;; Ok names end ;;
    do _ <- check (match m_beam a, m_ks a, i_bres s with None, KsNone, None => false | _, _, _ => true end) ValueError ;;
    do _ <- check (match m_beam a, m_ks a with Some _, KsNone => true | Some _, _ => false | _, _ => true end) ValueError ;;
    do gs <- map_groups s a ;;
    Ok (fs, gs) in
  match plan with
  | Raise e => (s, Raise e)
  | Ok (fs, gs) => map_loop gs a fs s
  end.

(** * Histories: any of the methods that change an instrument *)
Inductive iop :=
  | OSet (m : rmode) (names : list string) (r : resp) (k : kwarg)
  | OAddDet (a : detargs) | ODelDet (names : list string)
  | OAddField (g : G) (name : option string) (idx : option Z) (in_place chk : bool) | ODelFields (names : list string)
  | OMap (names : list string) (a : mapargs).
Definition istep (o : iop) : inst -> inst * exc unit :=
  match o with
  | OSet m n r k => set_response m n r k
  | OAddDet a => add_detector a
  | ODelDet n => del_detectors n
  | OAddField g n i p c => add_field g n i p c
  | ODelFields n => del_fields n
  | OMap n a => map_fields n a
  end.
(** the calls of a program that catches what they raise *)
Definition irun (os : list iop) (s : inst) : inst := fold_left (fun s o => fst (istep o s)) os s.
End Map.

(** * sample_fields: 904-993 *)
(** [nz f d] is what the noise function of detector [d] returns when called for field [f].
    Simplification: an array of another length than the positions raises ValueError (numpy would
    broadcast an array of length one). NaN is None. *)
Section Sample.
Context (nz : string -> string -> fn -> kw -> nat -> Qc -> exc (list Qc)).
Definition opt_add (x y : option Qc) : option Qc := match x, y with Some a, Some b => Some (a + b) | _, _ => None end.
(** np.stack(columns,axis=1) *)
Definition by_rows (n : nat) (cols : list (list (option Qc))) : list (list (option Qc)) := map (fun r => map (fun c => nth r c None) cols) (seq 0 n).
(** insertion sort, np.sort *)
Fixpoint insert_nat (x : nat) (l : list nat) : list nat := match l with [] => [x] | a :: r => if (x <=? a)%nat then x :: l else a :: insert_nat x r end.
Definition sort_nat (l : list nat) : list nat := fold_right insert_nat [] l.
Fixpoint index_of (k : string) (l : list string) : exc nat :=
  match l with [] => Raise ValueError | a :: r => if String.eqb a k then Ok 0%nat else do i <- index_of k r ;; Ok (S i) end.
(** 975-982: one group of detectors with the same offset *)
Definition sample_group (s : inst) (m : G) (rows : list (list Qc)) (group : list string) (cols : list (list (option Qc))) : exc (list (list (option Qc))) :=
  do ix <- mapM (fun d => index_of d (i_names s)) group ;;
  let ix := sort_nat ix in
  do off <- match group with [] => Raise IndexError | d :: _ => off_of s d end ;;
  do sm <- grid_sample m 2 (map (fun r => [nth 0 r 0 + fst off; nth 1 r 0 + snd off]) rows) (Some (map Z.of_nat ix)) ;;
  Ok (fold_left (fun cs ji => upd cs (snd ji) (map (fun cv => opt_add (fst cv) (snd cv)) (combine (nth (snd ji) cs []) (map (fun row => nth (fst ji) row None) sm))))
        (combine (seq 0 (length ix)) ix) cols).
Fixpoint sample_groups (s : inst) (m : G) (rows : list (list Qc)) (gs : list (list string)) (cols : list (list (option Qc))) : exc (list (list (option Qc))) :=
  match gs with
  | [] => Ok cols
  | g :: r => do cols' <- sample_group s m rows g cols ;; sample_groups s m rows r cols'
  end.
(** 964-985: one field *)
Definition sample_one (s : inst) (rows : list (list Qc)) (signal noise : bool) (dt : option Qc) (groups : list (list string)) (f : string) : exc (list (list (option Qc))) :=
  do m <- dfind (i_maps s) f ;;
  do cols <- mapM (fun d => match noise, dt with
                            | true, Some t => do r <- noise_of s d ;; do x <- nz f d (fst r) (snd r) (length rows) t ;;
                                              do _ <- check (length x =? length rows)%nat ValueError ;; Ok (map Some x)
                            | _, _ => Ok (repeat (Some 0) (length rows))
                            end) (i_names s) ;;
  do cols' <- (if signal then sample_groups s m rows groups cols else Ok cols) ;;
  do _ <- check (negb (length cols' =? 0)%nat) ValueError ;;
  Ok (by_rows (length rows) cols').
(** the samples of each field; with a single field python returns the array itself (989-992) *)
Definition sample_fields (pos : posarg) (names : list string) (signal noise : bool) (dt : option Qc) (s : inst) : exc (dict (list (list (option Qc)))) :=
  do fs <- match names with [] => Ok (i_fnames s) | _ => do _ <- check_fields s names ;; Ok names end ;;
  do _ <- mapM (fun f => do c <- dfind (i_cons s) f ;; check c ValueError) fs ;;
  do rows <- match pos with Pos2 2%nat rows => Ok rows | _ => Raise ValueError end ;;
  do _ <- check (negb (match dt with None => noise | Some _ => false end)) ValueError ;;
  do _ <- check (noise || signal) ValueError ;;
  do gs <- pointing_clones s ;;
  mapM (fun f => do x <- sample_one s rows signal noise dt gs f ;; Ok (f, x)) fs.
End Sample.
