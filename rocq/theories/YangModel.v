(** Model of simim/galprops/line_fir_yang.py. No proofs here.

    Simplifications: floats are real numbers (the tables are float32 in the code); the masses
    are a one-dimensional array of positive numbers; the redshifts are one number or an
    array of the same length (other lengths are UserExn 0, not modelled). Generators as in
    RelModel.v: [g] is the caller's, [gg] the global one of numpy.random. *)
From Verif Require Import Dict Util RealUtil RelModel.
From Coq Require Import Reals.
Open Scope string_scope. Open Scope list_scope.
Open Scope R_scope.

Inductive zarg := ZScalar (z : R) | ZArray (zs : list R).
Definition zlist (n : nat) (z : zarg) : list R := match z with ZScalar z => repeat z n | ZArray zs => zs end.

(** a value that depends on the redshift range: below 4, from 4 to 5, from 5 *)
Definition by_range (z lo mid hi : R) : R := if rltb z 4 then lo else if rltb z 5 then mid else hi.
Record fit := Fit { f_m1 : R; f_n : R; f_a : R; f_b : R; f_sig : R }.

(** _yang22_cii_fit, line_fir_yang.py 65-95, at one redshift *)
Definition cii_fit (z : R) : fit :=
  {| f_m1 := if rleb z 0 then 1211 / 100
             else by_range z (1211 / 100 * Rpower z (- 4105 / 10 ^ 5)) (869 / 100 + 126 / 100 * z - 143 / 1000 * z ^ 2) (1192 / 100 - 1068 / 10 ^ 4 * z);
     f_n := by_range z (- 907 / 1000 * exp (- z / (867 / 1000)) - 304 / 100) (- 5467 / 1000 + 1056 / 1000 * z - 1133 / 10 ^ 4 * z ^ 2) (- 237 / 100 - 130 / 1000 * z);
     f_a := by_range z (135 / 100 + 450 / 1000 * z - 805 / 10 ^ 4 * z ^ 2) (6135 / 1000 - 1786 / 1000 * z + 1837 / 10 ^ 4 * z ^ 2) (282 / 100 - 298 / 1000 * z + 196 / 10 ^ 4 * z ^ 2);
     f_b := by_range z (257 / 100 * exp (- z / (155 / 100)) + 575 / 10 ^ 4) (443 / 1000 - 521 / 10 ^ 4 * z) (1760 * exp (- z / (520 / 1000)) + 782 / 10 ^ 4);
     f_sig := 32 / 100 * exp (- z / (15 / 10)) + 18 / 100 |}.

(** _yang22_co_params, 97-142: the five lines and the value of each parameter for them, in
    units of 1e-5 *)
Definition yang_co_names : list string := ["CO1-0"; "CO2-1"; "CO3-2"; "CO4-3"; "CO5-4"].
Definition yang_co_params : list (string * list Z) :=
  [("m1a", [1213000; 1212000; 1210000; 1209000; 1212000]);
   ("m1b", [(-16780); (-17040); (-17100); (-16620); (-17960)]);
   ("m4a", [1175000; 1174000; 1174000; 1173000; 1173000]);
   ("m4b", [(-6833); (-7050); (-7228); (-7457); (-7789)]);
   ("m5a", [1163000; 1163000; 1162000; 1160000; 1158000]);
   ("m5b", [(-4943); (-5266); (-5500); (-5290); (-5359)]);
   ("n1a", [(-685500); (-595000); (-553000); (-535000); (-537000)]);
   ("n1b", [23660; 27800; 32900; 40400; 51500]);
   ("n1c", [(-5013); (-5210); (-5700); (-6570); (-8020)]);
   ("n4a", [(-655400); (-557000); (-506000); (-478400); (-381000)]);
   ("n4b", [(-3725); (-2500); (-1500); 0; (-35900)]);
   ("n4c", [0; 0; 0; 0; 4190]);
   ("n5a", [(-627400); (-526000); (-472000); (-440000); (-421000)]);
   ("n5b", [(-9087); (-8490); (-8080); (-7440); (-6740)]);
   ("a1a", [164200; 169000; 184300; 224000; 214000]);
   ("a1b", [16630; 12600; 8405; (-8910); 11000]);
   ("a1c", [(-3238); (-2800); (-2485); 0; (-3710)]);
   ("a4a", [373000; 455700; 525300; 574000; 612000]);
   ("a4b", [(-83300); (-121500); (-150200); (-167000); (-177000)]);
   ("a4c", [8840; 13000; 16090; 17800; 18800]);
   ("a5a", [256000; 247000; 253000; 259000; 287000]);
   ("a5b", [(-22300); (-21000); (-22000); (-20600); (-25700)]);
   ("a5c", [1420; 1320; 1390; 1200; 1570]);
   ("b1a", [177000; 180000; 188000; 201700; 239000]);
   ("b1b", [272000; 276000; 274000; 287000; 255000]);
   ("b1c", [(-8270); (-6780); (-6230); (-11270); (-8900)]);
   ("b4a", [59800; 65700; 70700; 76200; 84600]);
   ("b4b", [(-7100); (-7940); (-8790); (-9840); (-11500)]);
   ("b5a", [3340000; 3830000; 3150000; 4160000; 2180000]);
   ("b5b", [84600; 84100; 87900; 84300; 95700]);
   ("b5c", [16000; 16900; 17000; 17200; 16800]);
   ("siga", [35700; 36000; 40000; 42000; 44000]);
   ("sigb", [(-7010); (-7200); (-8300); (-9100); (-8500)]);
   ("sigc", [621; 640; 700; 790; 630])]%Z.
(** pars['key'] for the line with index [i] *)
Definition co_par (i : nat) (k : string) : R :=
  match dget yang_co_params k with Some l => IZR (nth i l 0%Z) / 10 ^ 5 | None => 0 end.
Fixpoint index_of (l : list string) (x : string) : option nat :=
  match l with [] => None | y :: l' => if String.eqb x y then Some 0%nat else option_map S (index_of l' x) end.
(** _yang22_co_fit, 144-177, at one redshift, for the line with index [i] *)
Definition co_fit (i : nat) (z : R) : fit :=
  let p := co_par i in
  {| f_m1 := by_range z (p "m1a" + p "m1b" * z) (p "m4a" + p "m4b" * z) (p "m5a" + p "m5b" * z);
     f_n := by_range z (p "n1a" + p "n1b" * z + p "n1c" * z ^ 2) (p "n4a" + p "n4b" * z + p "n4c" * z ^ 2) (p "n5a" + p "n5b" * z);
     f_a := by_range z (p "a1a" + p "a1b" * z + p "a1c" * z ^ 2) (p "a4a" + p "a4b" * z + p "a4c" * z ^ 2) (p "a5a" + p "a5b" * z + p "a5c" * z ^ 2);
     f_b := by_range z (p "b1a" * exp (- z / p "b1b") + p "b1c") (p "b4a" + p "b4b" * z) (p "b5a" * exp (- z / p "b5b") + p "b5c");
     f_sig := p "siga" + p "sigb" * z + p "sigc" * z ^ 2 |}.

(** the fit that yang22 uses, 39-46. Line 235 indexes the two CI entries with a mask made
    from the five CO names: an IndexError. Line 153 takes the length of a scalar redshift: a
    TypeError. *)
Definition yang_fit (line : string) (z : zarg) : exc (R -> fit) :=
  if String.eqb line "CII" then Ok cii_fit
  else if String.eqb line "CI1-0" || String.eqb line "CI2-1" then Raise IndexError
  else match index_of yang_co_names line with
  | Some i => match z with ZScalar _ => Raise TypeError | ZArray _ => Ok (co_fit i) end
  | None => Raise ValueError
  end.

(** line 53 *)
Definition yang_L (f : fit) (m : R) : R :=
  2 * p10 (f_n f) * m * / (Rpower (m / p10 (f_m1 f)) (- f_a f) + Rpower (m / p10 (f_m1 f)) (f_b f)).
(** _yang22_fduty, 266-278, at one mass and redshift *)
Definition yang_fduty (m z : R) : R :=
  if rltb z 4 then
    / (1 + Rpower (m / p10 (1173 / 100 + 6634 / 10 ^ 4 * z)) (137 / 100 - 190 / 1000 * z + 215 / 10 ^ 4 * z ^ 2))
  else 1.

Section Random.
Context {G : Type} (normals uniforms : nat -> G -> list R * G).
(** yang22, 6-62. The scatter of line 56 has its own width for every halo. *)
Definition yang22 (mass : list R) (z : zarg) (line : string) (fduty scatter : bool) (fix_scatter : option R) (g gg : G)
  : exc (list R * G * G) :=
  do fit <- yang_fit line z ;;
  let zs := zlist (length mass) z in
  if (length zs =? length mass)%nat then
    let L := map (fun p => yang_L (fit (snd p)) (fst p)) (combine mass zs) in
    let sig := map (fun z => match fix_scatter with Some s => s | None => f_sig (fit z) end) zs in
    let '(L, g) := if scatter then
                     let '(ns, g') := normals (length L) g in
                     (map (fun p => fst p * p10 (fst (snd p) * snd (snd p))) (combine L (combine sig ns)), g')
                   else (L, g) in
    let '(L, gg) := if fduty then
                      let '(us, gg') := uniforms (length L) gg in
                      (map (fun p => if rltb (yang_fduty (fst (fst (snd p))) (snd (fst (snd p)))) (snd (snd p)) then 0 else fst p)
                         (combine L (combine (combine mass zs) us)), gg')
                    else (L, gg) in
    Ok (L, g, gg)
  else Raise (UserExn 0).
End Random.
