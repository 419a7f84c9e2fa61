(** Model of simim/galprops/sfr_ir.py, sfr_bethermin17.py and the tables of
    sfr_behroozi13.py. No proofs here.

    Simplifications that hold for the whole file:
    - floats are real numbers, NaN is None; scipy's erf, the interpolators, the cosmology and
      the abundance matching itself (AmModel.v models it separately) are arguments;
    - a file is absent, incomplete (None) or holds a value; np.save first opens the file,
      which truncates it, and then writes: two steps, so that a crash can fall between them.
      Loading an incomplete file is UserExn 1 (an EOFError or ValueError of numpy). *)
From Verif Require Import Dict Util RealUtil RelModel AmModel.
From Coq Require Import Reals.
Open Scope string_scope. Open Scope list_scope.
Open Scope R_scope.

(** * sfr_ir.py *)
(** redshift 0 parameters: alpha, sigma, lstar, phistar *)
Record lfpars := LF { lf_alpha0 : R; lf_sigma0 : R; lf_lstar0 : R; lf_phistar0 : R }.
(** the defaults of __init__ (19) and of get_irlf_pars (143) *)
Definition lf_default : lfpars := LF (12 / 10) (5 / 10) (p10 (995 / 100)) (p10 (- 225 / 100)).
(** get_irlf_pars, sfr_ir.py 143-169, at one redshift above -1. [self]: the four attributes,
    which do not exist before line 65; [alpha0]: None or a number; the result is phistar,
    lstar, alpha, sigma *)
Definition get_irlf_pars (self : option lfpars) (alpha0 : option R) (sigma0 lstar0 phistar0 z : R) : exc (R * R * R * R) :=
  do p <- match alpha0 with
          | Some a => Ok (LF a sigma0 lstar0 phistar0)
          | None => match self with Some l => Ok l | None => Raise AttributeError end
          end ;;
  let lstar := if rltb z 2 then lf_lstar0 p * Rpower (1 + z) (355 / 100)
               else lf_lstar0 p * Rpower (1 + 2) (355 / 100) * Rpower ((1 + z) / (1 + 2)) (162 / 100) in
  let phistar := if rltb z (11 / 10) then lf_phistar0 p * Rpower (1 + z) (- 57 / 100)
                 else lf_phistar0 p * Rpower (1 + 11 / 10) (- 57 / 100) * Rpower ((1 + z) / (1 + 11 / 10)) (- 392 / 100) in
  Ok (phistar, lstar, lf_alpha0 p, lf_sigma0 p).
(** the parameters that _make_lir_function (119) uses for a snapshot at [z], when called from
    __init__ (62), before the constructor's values are stored (65-68) *)
Definition constructor_pars (given : lfpars) (z : R) : exc (R * R * R * R) :=
  get_irlf_pars None (Some (lf_alpha0 lf_default)) (lf_sigma0 lf_default) (lf_lstar0 lf_default) (lf_phistar0 lf_default) z.

(** * sfr_bethermin17.py *)
Record b17 := B17 {
  fq00 : R; gamma_ : R; logmt0 : R; alpha1 : R; alpha2 : R; sigsf0 : R; beta1 : R; beta2 : R;
  m0 : R; m1 : R; a0 : R; a1 : R; a2 : R; correct : bool;
  scat : R; msoffset : R; sboffset : R; sflimit : R }.
(** the defaults of __init__, 73-76 *)
Definition b17_default : b17 :=
  B17 (1017 / 10 ^ 4) (- 1039 / 1000) (1053 / 100) (2232 / 10 ^ 4) (913 / 10 ^ 4) (8488 / 10 ^ 4) (418 / 10 ^ 4) (- 159 / 10 ^ 4)
      (5 / 10) (36 / 100) (15 / 10) (3 / 10) (25 / 10) true (3 / 10) (87 / 100) (53 / 10) (10 ^ 4).

(** b17_sffrac, sfr_bethermin17.py 243-250, at one mass and redshift. The logarithm of zero
    is -inf, at which erf is -1 for a positive width and 1 for a negative one. *)
Definition sigsf (b : b17) (z : R) : R := sigsf0 b + beta1 b * z + beta2 b * z ^ 2.
Definition b17_sffrac (erf : R -> R) (b : b17) (m : option R) (z : R) : option R :=
  let fq0 := fq00 b * Rpower (1 + z) (gamma_ b) in
  let logmt := logmt0 b + alpha1 b * z + alpha2 b * z ^ 2 in
  match m with
  | None => None
  | Some m =>
      if rltb m 0 then None
      else let e := if reqb m 0 then (if rltb 0 (sigsf b z) then - (1) else 1) else erf ((log10 m - logmt) / sigsf b z) in
           Some ((1 - fq0) * (5 / 10) * (1 - e))
  end.
(** b17_sfms, 252-265; zero at mass zero, 10**-inf *)
Definition b17_sfms (b : b17) (m : option R) (z : R) : option R :=
  match m with
  | None => None
  | Some m =>
      if rltb m 0 then None else if reqb m 0 then Some 0
      else let t := log10 (m / 10 ^ 9) - m1 b - a2 b * log10 (1 + z) in
           let t := if rltb t 0 then 0 else t in
           let logms := log10 (m / 10 ^ 9) - m0 b + a0 b * log10 (1 + z) - a1 b * t ^ 2 in
           let logms := if correct b && rltb z (5 / 10) then logms - 1 / 10 * (5 / 10 - z) / (5 / 10 - 22 / 100) else logms in
           Some (p10 logms)
  end.
(** b17_sbfrac, 267-275 *)
Definition b17_sbfrac (z : R) : R := if rltb 1 z then 3 / 100 else 15 / 1000 + 15 / 1000 * z.

Section Random.
Context {G : Type} (normals uniforms : nat -> G -> list R * G) (erf : R -> R).
(** what lines 286-295 do with one galaxy: [s] is its scattered rate, [u1] and [u2] its two
    uniform draws; comparisons with NaN are false *)
Definition b17_assign (b : b17) (m : option R) (z : R) (s : option R) (u1 u2 : R) : option R * bool * bool :=
  let sb := rltb u1 (b17_sbfrac z) in
  let s := if sb then option_map (fun v => v * (sboffset b / msoffset b)) s else s in
  let q := match b17_sffrac erf b m z with Some f => rltb f u2 | None => false end in
  let s := if q then Some 0 else s in
  let sb := if q then false else sb in
  (match s with Some v => if rltb (sflimit b) v then Some (sflimit b) else Some v | None => None end, sb, q).
(** b17_sfr, 277-300, with return_fracs=True: rate, starburst and quenched flags; [mz] are
    the stellar masses and redshifts *)
Definition b17_sfr (b : b17) (mz : list (option R * R)) (g : G) : list (option R * bool * bool) * G :=
  let base := map (fun p => option_map (fun v => msoffset b * v) (b17_sfms b (fst p) (snd p))) mz in
  let '(s, g1) := log10normal normals base (scat b) false g in
  let '(u1, g2) := uniforms (length s) g1 in
  let '(u2, g3) := uniforms (length s) g2 in
  (map (fun p => b17_assign b (fst (fst p)) (snd (fst p)) (fst (snd p)) (fst (snd (snd p))) (snd (snd (snd p))))
     (combine mz (combine s (combine u1 u2))), g3).
End Random.

(** the bins of the stellar mass function, 24-38: zmin, zmax in thousandths, alpha1, alpha2 in hundredths;
    log10 mstar in hundredths (a factor 0.61 for the last four); phistar1 and phistar2 as
    numbers, 10 to a power of hundredths or units of 1e-6 *)
Inductive phi := P6 (n : Z) | Pp (n : Z).
Definition phi_val (p : phi) : R := match p with P6 n => IZR n / 10 ^ 6 | Pp n => p10 (IZR n / 100) end.
Record smf_bin := Bin { zlo : Z; zhi : Z; al1 : Z; al2 : Z; lms : Z; salpeter : bool; ph1 : phi; ph2 : phi }.
Definition smf_bins : list smf_bin :=
  [Bin 25 60 (-43) (-150) 1064 false (P6 4180) (P6 740);
   Bin 200 500 (-95) (-182) 1083 false (Pp (-263)) (Pp (-401));
   Bin 500 800 (-57) (-149) 1076 false (Pp (-266)) (Pp (-324));
   Bin 800 1100 (-33) (-149) 1068 false (Pp (-257)) (Pp (-324));
   Bin 1100 1500 19 (-149) 1066 false (Pp (-288)) (Pp (-324));
   Bin 1500 2000 82 (-128) 1051 false (P6 640) (P6 969);
   Bin 2000 2500 7 (-157) 1060 false (P6 450) (P6 295);
   Bin 2500 3000 (-8) (-167) 1059 false (P6 210) (P6 228);
   Bin 3000 3500 0 (-176) 1083 false (P6 0) (P6 90);
   Bin 3500 4500 0 (-163) 1096 true (P6 0) (Pp (-394));
   Bin 4500 5500 0 (-163) 1078 true (P6 0) (Pp (-418));
   Bin 5500 6500 0 (-155) 1049 true (P6 0) (Pp (-416));
   Bin 6500 7500 0 (-188) 1069 true (P6 0) (Pp (-524))]%Z.
(** zvals, a1vals, a2vals, p1vals, p2vals, msvals, 49-54 *)
Definition zvals : list R := map (fun b => (IZR (zlo b) / 1000 + IZR (zhi b) / 1000) / 2) smf_bins.
Definition a1vals : list R := map (fun b => IZR (al1 b) / 100) smf_bins.
Definition a2vals : list R := map (fun b => IZR (al2 b) / 100) smf_bins.
Definition p1vals : list R := map (fun b => phi_val (ph1 b)) smf_bins.
Definition p2vals : list R := map (fun b => phi_val (ph2 b)) smf_bins.
Definition msvals : list R := map (fun b => (if salpeter b then 61 / 100 else 1) * p10 (IZR (lms b) / 100)) smf_bins.
(** np.interp with its default ends *)
Definition interp_flat (x : R) (xp fp : list R) : R := interp (fun y => y) (Fin x) xp fp (hd 0 fp) (last fp 0).
(** b17_smfpars, 227-241; luminosity distance and differential volume in the assumed cosmology
    ([dlold], [vold], line 22) and in that of the simulation *)
Definition b17_smfpars (dlold vold dlnew vnew : R -> R) (z : R) : R * R * R * R * R :=
  let zp := map (fun v => 1 + v) zvals in
  let cv (l : list R) := map (fun p => snd p * / (vnew (fst p) / vold (fst p))) (combine zvals l) in
  let cd (l : list R) := map (fun p => snd p * (dlnew (fst p) / dlold (fst p)) ^ 2) (combine zvals l) in
  (p10 (interp_flat (1 + z) zp (map log10 (cd msvals))),
   interp_flat (1 + z) zp a1vals,
   interp_flat (1 + z) zp (cv p1vals),
   interp_flat (1 + z) zp a2vals,
   p10 (interp_flat (1 + z) zp (map log10 (cv p2vals)))).

(** * Cached tables *)
Section Cache.
Context {V : Type}.
Definition files := list (string * option V).
Definition write := (string * option V)%type.
Definition put (fs : files) (w : write) : files := dset fs (fst w) (snd w).
Definition exists_file (fs : files) (n : string) : bool := match dget fs n with Some _ => true | None => false end.
(** np.save *)
Definition save (n : string) (v : V) : list write := [(n, None); (n, Some v)].
(** np.load *)
Definition load_file (fs : files) (n : string) : exc V :=
  match dget fs n with None => Raise OSError | Some None => Raise (UserExn 1) | Some (Some v) => Ok v end.

(** the property that is matched, sfr_bethermin17.py 175-184, sfr_ir.py 93-102; [vm] and [ma]:
    whether the first snapshot has vmax and mass *)
Definition resolve (vm ma : bool) (hp : string) : exc string :=
  if negb (existsb (String.eqb hp) ["vmax"; "mass"; "auto"]) then Raise ValueError
  else if String.eqb hp "auto" then if vm then Ok "vmax" else if ma then Ok "mass" else Raise ValueError
  else Ok hp.
(** _make_stellarmass_function, sfr_bethermin17.py 171-225, and _make_lir_function, sfr_ir.py
    89-141. [axis], [zaxis] and [table] give what is stored for a property and a minimum
    halo mass (and infrared luminosity: [P] stands for these numbers); the table may raise *)
Definition make_table {P} (vm ma : bool) (axis : string -> P -> V) (zaxis : V) (table : string -> P -> exc V)
    (hp : string) (p : P) : exc (V * V * V) :=
  do q <- resolve vm ma hp ;; do t <- table q p ;; Ok (axis q p, zaxis, t).
(** the writes of lines 223-225 and 139-141; [main] is stellarmass.npy or lir.npy *)
Definition make_writes (main : string) (t : V * V * V) : list write :=
  let '(a, z, t) := t in save "mass_axis.npy" a ++ save "redshift_axis.npy" z ++ save main t.
(** the writes of _load_stellarmass_function, 154-160, and _load_lir_function, 72-78 *)
Definition cache_writes {A} (main : string) (make : A -> exc (V * V * V)) (comp remake : bool) (a : A) (fs : files) : exc (list write) :=
  if remake || (comp && negb (exists_file fs main)) then do t <- make a ;; Ok (make_writes main t) else Ok [].
(** what the interpolator is made of, 162-169 and 80-87; None: not initialised *)
Definition cache_load (main : string) (fs : files) : exc (option (V * V * V)) :=
  if exists_file fs main then
    do a <- load_file fs "mass_axis.npy" ;; do z <- load_file fs "redshift_axis.npy" ;; do t <- load_file fs main ;; Ok (Some (a, z, t))
  else Ok None.
(** the constructor, sfr_bethermin17.py 70-152, sfr_ir.py 17-70, as far as files go *)
Definition cache_init {A} (main : string) (make : A -> exc (V * V * V)) (comp remake : bool) (a : A) (fs : files) : files * exc (option (V * V * V)) :=
  match cache_writes main make comp remake a fs with
  | Ok ws => let fs := fold_left put ws fs in (fs, cache_load main fs)
  | Raise e => (fs, Raise e)
  end.
(** the constructor interrupted after [k] steps of writing *)
Definition cache_crash {A} (main : string) (make : A -> exc (V * V * V)) (comp remake : bool) (a : A) (k : nat) (fs : files) : files :=
  match cache_writes main make comp remake a fs with Ok ws => fold_left put (firstn k ws) fs | Raise _ => fs end.
(** stellarmass, sfr_bethermin17.py 302-307, lir and sfr, sfr_ir.py 171-186; [ev]: the value of
    the interpolator, [c]: the factor of sfr, 1 for the others *)
Definition cache_eval {X} (ev : V * V * V -> X -> option R) (c : R) (o : option (V * V * V)) (x : X) : exc (option R) :=
  match o with Some t => Ok (option_map (fun v => v * c) (ev t x)) | None => Raise ValueError end.

(** * sfr_behroozi13.py, __init__ 34-55: the four tables, made if sfr.npy is missing.
    [make]: sfr, stellarmass, mass axis, redshift axis *)
Definition b13_writes (make : exc (V * V * V * V)) (fs : files) : exc (list write) :=
  if exists_file fs "sfr.npy" then Ok []
  else do t <- make ;; let '(s, m, a, z) := t in
       Ok (save "sfr.npy" s ++ save "stellarmass.npy" m ++ save "mass_axis.npy" a ++ save "redshift_axis.npy" z).
Definition b13_init (make : exc (V * V * V * V)) (fs : files) : files * exc (V * V * V * V) :=
  match b13_writes make fs with
  | Raise e => (fs, Raise e)
  | Ok ws =>
      let fs := fold_left put ws fs in
      (fs, do a <- load_file fs "mass_axis.npy" ;; do z <- load_file fs "redshift_axis.npy" ;;
           do s <- load_file fs "sfr.npy" ;; do m <- load_file fs "stellarmass.npy" ;; Ok (s, m, a, z))
  end.
Definition b13_crash (make : exc (V * V * V * V)) (k : nat) (fs : files) : files :=
  match b13_writes make fs with Ok ws => fold_left put (firstn k ws) fs | Raise _ => fs end.
End Cache.

(** the grid of the matched property, sfr_bethermin17.py 186-189, sfr_ir.py 104-107 *)
Definition prop_axis (q : string) (halomassmin : R) : list R :=
  if String.eqb q "vmax" then linspace 0 5000 5000
  else map p10 (linspace (log10 halomassmin) (log10 halomassmin + 10) 5000).

(** * The tables of sfr_behroozi13.py *)
(** np.isclose(x,-1000.0) *)
Definition is_missing (x : R) : bool := rleb (Rabs (x + 1000)) (1 / 10 ^ 8 + 1 / 10 ^ 5 * 1000).
(** one column, 92-94 *)
Definition fill_column (col : list R) : exc (list R) :=
  match rev (filter (fun x => negb (is_missing x)) col) with
  | [] => Raise IndexError
  | v :: _ => Ok (map (fun x => if is_missing x then v else x) col)
  end.
(** np.unique *)
Fixpoint uinsert (x : R) (l : list R) : list R :=
  match l with [] => [x] | a :: r => if rltb x a then x :: l else if reqb x a then l else a :: uinsert x r end.
Definition unique (l : list R) : list R := fold_right uinsert [] l.
(** one line of the file after 69-71: redshift, mass, log sfr, stellar mass *)
Record brow := BRow { b_z : R; b_m : R; b_sfr : R; b_star : R }.
(** the entry at a mass and redshift, 84-89: the value of the only line with both. Without
    such a line, or with two, the assignment raises ValueError *)
Definition entry (f : brow -> R) (rows : list brow) (m z : R) : exc R :=
  match filter (fun r => reqb (b_m r) m && reqb (b_z r) z) rows with [r] => Ok (f r) | _ => Raise ValueError end.
(** _make_spline_files, 57-101: the columns at each redshift of the sfr and stellar mass tables,
    the masses and the redshifts *)
Definition spline_tables (rows : list brow) : exc (list (list R) * list (list R) * list R * list R) :=
  let zs := unique (map b_z rows) in
  let ms := unique (map b_m rows) in
  do s <- mapM (fun z => mapM (fun m => entry b_sfr rows m z) ms) zs ;;
  do t <- mapM (fun z => mapM (fun m => entry b_star rows m z) ms) zs ;;
  do s <- mapM fill_column s ;;
  Ok (map (map p10) s, t, ms, zs).
