(** Model of the construction of light cone makers on a file system: GenericLCMaker.__init__, simim/lightcone/lcmaker.py
    54-86, on top of PathsModel.v; and SphereMaker.__init__, 893-923. No proofs here. *)
From Coq Require Import Reals.
From Verif Require Import Dict Util RealUtil SnapModel PathsModel LcModel LosModel.
Open Scope string_scope.
Open Scope list_scope.

(** simim/siminterface/_sims.py 7-11 *)
Definition accepted_sims : list string :=
  ["Illustris-1"; "Illustris-2"; "Illustris-3"; "Illustris-1-Dark"; "Illustris-2-Dark"; "Illustris-3-Dark";
   "TNG300-1"; "TNG300-2"; "TNG300-3"; "TNG300-1-Dark"; "TNG300-2-Dark"; "TNG300-3-Dark";
   "TNG100-1"; "TNG100-2"; "TNG100-3"; "TNG100-1-Dark"; "TNG100-2-Dark"; "TNG100-3-Dark";
   "UniverseMachine-BolshoiPlanck"; "UniverseMachine-SMDPL"; "UniverseMachine-MDPL2"; "_testbox"; "UniverseMachine-uchuu"].

(** lcmaker.py 54-86: the directory of the light cones. The registration of 68-69 finds no entry, so it asks nothing *)
Definition maker_dir (E : env) (sim name : string) (ow : overwrite) (answers : list string) (fs : fsys) : fsys * exc string :=
  if negb (smem sim accepted_sims) then (fs, Raise NameError)
  else match new_session E fs with
  | (fs1, Raise e) => (fs1, Raise e)
  | (fs1, Ok s) =>
      if negb (dmem (s_sims s) sim) then (fs1, Raise ValueError)
      else match ow with
      | OwOther => (fs1, Raise ValueError)
      | _ =>
          match (if dmem (s_lcs s) sim then ((s, fs1), Ok tt) else register E KLc sim (Some "auto") true [] (s, fs1)) with
          | ((_, fs2), Raise e) => (fs2, Raise e)
          | ((s2, fs2), Ok _) =>
              match dget (s_lcs s2) sim with
              | None => (fs2, Raise KeyError)
              | Some base =>
                  let p := join base name in
                  match lc_open_dir ow (exists_ fs2 p) answers with
                  | Raise e => (fs2, Raise e)
                  | Ok _ =>
                      if exists_ fs2 p then (fs2, Ok p)
                      else match mkdir fs2 p with
                           | (fs3, Ok _) => (fs3, Ok p)
                           | (fs3, Raise e) => (fs3, Raise e)
                           end
                  end
              end
          end
      end
  end.
(** the constructors of LCMaker and SphereMaker: the base class first (410 and 894), then the rest, [geo], which
    stands for reading the simulation (91-115) and for the checks of the geometry, and writes nothing *)
Definition maker_new {X} (E : env) (sim name : string) (ow : overwrite) (answers : list string) (geo : exc X) (fs : fsys) : fsys * exc (string * X) :=
  match maker_dir E sim name ow answers fs with
  | (fs1, Raise e) => (fs1, Raise e)
  | (fs1, Ok p) => (fs1, do c <- geo ;; Ok (p, c))
  end.

Open Scope R_scope.
(** 897-899 *)
Definition smode_of (s : string) : exc smode :=
  if String.eqb s "sphere" then Ok Sphere else if String.eqb s "hemisphere" then Ok Hemi
  else if String.eqb s "quarter" then Ok Quarter else if String.eqb s "eighth" then Ok Eighth else Raise ValueError.
(** SphereMaker.__init__ after the base class, 896-923. [assign_D] is the interpolation of 107 (distances with h; an
    error outside its range), [dist] the distance of 969-972, [box] the box edge with h and [h] little h (simhandler.py
    238). The result has no opening angle; mode, angle and aspect of the record are not used *)
Definition sphere_init (mode : string) (zmin : R) (zmax : option R) (mass : R) (ms : list meta) (assign_D : R -> exc R) (dist : R -> R)
    (h box : R) (copies : nat) : exc (smode * lcconf) :=
  do md <- smode_of mode ;;
  do zm <- match zmax with Some z => Ok z | None => amax (map m_zmax ms) end ;;
  do _ <- check (negb (rltb zm zmin)) ValueError ;;
  do d <- assign_D zm ;;
  do _ <- sphere_check md (box / h) d ;;
  Ok (md, mkLC Circle 0 1 mass box copies (dist zmin) (dist zm) (snapshots_use zmin zm ms)).
