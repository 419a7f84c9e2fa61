(** Model of simim/_paths.py. No proofs here.

    Text files hold strings; a file system is a map from path to contents
    together with the directories that exist. Interactive answers are a list of
    lines; running out of them is EOFError, written [UserExn 1].
    [os.path.abspath] and [os.path.expanduser] depend on the working and home
    directories and are arguments. Two spellings of one path count as two paths. *)
From Verif Require Import Dict Util.
From Coq Require Import Ascii.
Open Scope string_scope.

Definition nl : ascii := "010"%char.
Definition cr : ascii := "013"%char.
Definition sp : ascii := " "%char.
Definition EOFError : exn := UserExn 1.

(** ** Text: universal newlines, [file.readlines()], [line.split(' ')] *)
(** text mode turns "\r\n" and "\r" into "\n" when reading *)
Fixpoint univ (s : string) : string :=
  match s with
  | EmptyString => EmptyString
  | String a r =>
      if Ascii.eqb a cr
      then match r with
           | String b r' => if Ascii.eqb b nl then String nl (univ r') else String nl (univ r)
           | EmptyString => String nl EmptyString
           end
      else String a (univ r)
  end.
(** the pieces between the characters [c]; at least one *)
Fixpoint split_on (c : ascii) (s : string) : list string :=
  match s with
  | EmptyString => [EmptyString]
  | String a r =>
      if Ascii.eqb a c then EmptyString :: split_on c r
      else match split_on c r with
           | [] => [String a EmptyString]
           | w :: ws => String a w :: ws
           end
  end.
(** the lines of a file, newline removed (lines 12, 20-21 remove it by
    [replace('\n','')]); a final empty piece is no line *)
Definition lines (s : string) : list string :=
  let ps := split_on nl (univ s) in
  match rev ps with
  | EmptyString :: r => rev r
  | _ => ps
  end.

(** ** os.path.join and os.path.dirname (POSIX) *)
Definition starts_slash (s : string) : bool :=
  match s with String a _ => Ascii.eqb a "/"%char | _ => false end.
Fixpoint ends_slash (s : string) : bool :=
  match s with
  | EmptyString => false
  | String a EmptyString => Ascii.eqb a "/"%char
  | String _ r => ends_slash r
  end.
Definition join (a b : string) : string :=
  if starts_slash b then b
  else if String.eqb a "" || ends_slash a then String.append a b
  else String.append a (String "/" b).
(** everything before the last slash; the working directory is "" *)
Fixpoint dirname (s : string) : string :=
  match s with
  | EmptyString => EmptyString
  | String a r =>
      if existsb (Ascii.eqb "/"%char) (list_ascii_of_string s)
      then if existsb (Ascii.eqb "/"%char) (list_ascii_of_string r) then String a (dirname r)
           else if Ascii.eqb a "/"%char then EmptyString else String a (dirname r)
      else EmptyString
  end.

(** ** File system *)
Record fsys := mkFS { fs_file : string -> option string; fs_dir : string -> bool }.
Definition exists_ (fs : fsys) (p : string) : bool :=
  match fs_file fs p with Some _ => true | None => fs_dir fs p end.
(** the directory a new entry [p] goes to; the root and working directories exist *)
Definition parent_ok (fs : fsys) (p : string) : bool :=
  String.eqb (dirname p) "" || fs_dir fs (dirname p).
(** os.mkdir *)
Definition mkdir (fs : fsys) (p : string) : fsys * exc unit :=
  if exists_ fs p || negb (parent_ok fs p) then (fs, Raise OSError)
  else (mkFS (fs_file fs) (fun q => String.eqb q p || fs_dir fs q), Ok tt).
Definition put (fs : fsys) (p c : string) : fsys :=
  mkFS (fun q => if String.eqb q p then Some c else fs_file fs q) (fs_dir fs).
(** open(p,'w') / open(p,'a') followed by write(c) *)
Definition write_file (fs : fsys) (p c : string) : fsys * exc unit :=
  if fs_dir fs p || negb (parent_ok fs p) then (fs, Raise OSError) else (put fs p c, Ok tt).
Definition append_file (fs : fsys) (p c : string) : fsys * exc unit :=
  if fs_dir fs p || negb (parent_ok fs p) then (fs, Raise OSError)
  else (put fs p (String.append (match fs_file fs p with Some o => o | None => "" end) c), Ok tt).

(** ** Reading *)
(** _checkload_root_file, _paths.py 7-13 *)
Definition load_root (fs : fsys) (p : string) : exc (option string) :=
  if exists_ fs p then
    match fs_file fs p with
    | None => Raise OSError
    | Some c => match lines c with [] => Raise IndexError | l :: _ => Ok (Some l) end
    end
  else Ok None.
(** _checkload_path_file, _paths.py 15-23 *)
Fixpoint read_lines (ls : list string) (d : dict string) : exc (dict string) :=
  match ls with
  | [] => Ok d
  | l :: r =>
      match split_on sp l with
      | a :: b :: _ => read_lines r (dset d a b)
      | _ => Raise IndexError
      end
  end.
Definition load_paths_file (fs : fsys) (p : string) : exc (dict string) :=
  if exists_ fs p then
    match fs_file fs p with
    | None => Raise OSError
    | Some c => read_lines (lines c) []
    end
  else Ok [].

(** ** Sessions *)
Inductive kind := KLc | KSim | KProp.
(** _paths.py 42-48: the registry file and the data directory of each kind *)
Definition list_ext (k : kind) : string :=
  match k with
  | KLc => "simim_resources/.paths/lcpaths.txt"
  | KSim => "simim_resources/.paths/simpaths.txt"
  | KProp => "simim_resources/.paths/proppaths.txt"
  end.
Definition data_ext (k : kind) : string :=
  match k with
  | KLc => "simim_resources/lightcones"
  | KSim => "simim_resources/simulations"
  | KProp => "simim_resources/galprops"
  end.
(** attributes root, lcs, sims, props of _SimIMPaths *)
Record sess := mkSess { s_root : option string; s_lcs : dict string; s_sims : dict string; s_props : dict string }.
Definition reg (s : sess) (k : kind) : dict string :=
  match k with KLc => s_lcs s | KSim => s_sims s | KProp => s_props s end.
Definition set_reg (s : sess) (k : kind) (d : dict string) : sess :=
  match k with
  | KLc => mkSess (s_root s) d (s_sims s) (s_props s)
  | KSim => mkSess (s_root s) (s_lcs s) d (s_props s)
  | KProp => mkSess (s_root s) (s_lcs s) (s_sims s) d
  end.

Record env := mkEnv {
  e_abs : string -> string;      (* os.path.abspath *)
  e_user : string -> string;     (* os.path.expanduser *)
  e_res : string }.              (* <simim>/resources *)
(** _paths.py 38 *)
Definition e_rootfile (E : env) : string := join (e_res E) "rootpath.txt".

(** _load_paths, _paths.py 51-60 *)
Definition load_paths (fs : fsys) (s : sess) : sess * exc unit :=
  match s_root s with
  | None => (mkSess None [] [] [], Ok tt)
  | Some r =>
      match load_paths_file fs (join r (list_ext KLc)) with
      | Raise e => (s, Raise e)
      | Ok l =>
          let s1 := set_reg s KLc l in
          match load_paths_file fs (join r (list_ext KSim)) with
          | Raise e => (s1, Raise e)
          | Ok m =>
              let s2 := set_reg s1 KSim m in
              match load_paths_file fs (join r (list_ext KProp)) with
              | Raise e => (s2, Raise e)
              | Ok q => (set_reg s2 KProp q, Ok tt)
              end
          end
      end
  end.

(** _SimIMPaths.__init__, _paths.py 28-49 *)
Definition new_session (E : env) (fs : fsys) : fsys * exc sess :=
  match (if exists_ fs (e_res E) then (fs, Ok tt) else mkdir fs (e_res E)) with
  | (fs1, Raise e) => (fs1, Raise e)
  | (fs1, Ok _) =>
      match load_root fs1 (e_rootfile E) with
      | Raise e => (fs1, Raise e)
      | Ok r =>
          match load_paths fs1 (mkSess r [] [] []) with
          | (s, Ok _) => (fs1, Ok s)
          | (_, Raise e) => (fs1, Raise e)
          end
      end
  end.

(** the loops [while answer != 'y'], lines 74-82, 92-100, 126-133 (and the same
    in the other two methods): true for 'y', false for 'n', other answers are
    asked again *)
Fixpoint ask (answers : list string) : exc (bool * list string) :=
  match answers with
  | [] => Raise EOFError
  | a :: r => if String.eqb a "y" then Ok (true, r) else if String.eqb a "n" then Ok (false, r) else ask r
  end.

(** os.mkdir(p) unless it exists, over a list (lines 107-113) *)
Fixpoint mkdirs (fs : fsys) (ps : list string) : fsys * exc unit :=
  match ps with
  | [] => (fs, Ok tt)
  | p :: r => match (if exists_ fs p then (fs, Ok tt) else mkdir fs p) with
              | (fs1, Ok _) => mkdirs fs1 r
              | (fs1, Raise e) => (fs1, Raise e)
              end
  end.

Definition pst := (sess * fsys)%type.

(** the root to use, lines 66-83 *)
Definition pick_root (E : env) (root : string) (answers : list string) (s : sess) : exc (string * list string) :=
  match s_root s with
  | Some r => if String.eqb (e_user E root) r then Ok (e_user E root, answers)
              else do (b, rest) <- ask answers ;; Ok (if b then e_user E root else r, rest)
  | None => Ok (e_user E root, answers)
  end.
(** _setuppath, _paths.py 62-113 *)
Definition setup (E : env) (root : string) (confirm : bool) (answers : list string) (st : pst) : pst * exc unit :=
  let '(s, fs) := st in
  match pick_root E root answers s with
  | Raise e => (st, Raise e)
  | Ok (root, answers) =>
      if negb (exists_ fs root) then (st, Raise NameError)
      else
        let root := e_abs E root in
        match (if confirm then do (b, _) <- ask answers ;; Ok b else Ok true) with
        | Raise e => (st, Raise e)
        | Ok false => (st, Ok tt)
        | Ok true =>
            match write_file fs (e_rootfile E) root with
            | (fs1, Raise e) => ((s, fs1), Raise e)
            | (fs1, Ok _) =>
                let s1 := mkSess (Some root) (s_lcs s) (s_sims s) (s_props s) in
                match mkdirs fs1 [join root "simim_resources"; join root "simim_resources/.paths";
                                  join root (data_ext KSim); join root (data_ext KLc); join root (data_ext KProp)] with
                | (fs2, Raise e) => ((s1, fs2), Raise e)
                | (fs2, Ok _) => let (s2, r) := load_paths fs2 s1 in ((s2, fs2), r)
                end
            end
        end
  end.

(** setupsimim, _paths.py 232-244: the first answer is the root *)
Definition setupsimim (E : env) (answers : list string) (fs : fsys) : pst * exc unit :=
  match new_session E fs with
  | (fs1, Raise e) => ((mkSess None [] [] [], fs1), Raise e)
  | (fs1, Ok s) =>
      match answers with
      | [] => ((s, fs1), Raise EOFError)
      | a :: r =>
          if String.eqb a "" then setup E "~" true r (s, fs1)
          else if negb (exists_ fs1 a) then ((s, fs1), Raise NameError)
          else setup E a true r (s, fs1)
      end
  end.

(** the path to register, lines 135-143 (and the same in the other two methods).
    [np] is the argument new_path, None standing for any false value but ''. *)
Definition resolve (k : kind) (name : string) (np : option string) (answers : list string) (root : string)
    (fs : fsys) : fsys * exc string :=
  let q := match np with Some q => q | None => "" end in
  if String.eqb q "" then
    match answers with
    | [] => (fs, Raise EOFError)
    | a :: _ => if exists_ fs a then (fs, Ok a) else (fs, Raise NameError)
    end
  else if String.eqb q "auto" then
    let p := join (join root (data_ext k)) name in
    match (if exists_ fs p then (fs, Ok tt) else mkdir fs p) with
    | (fs1, Ok _) => (fs1, Ok p)
    | (fs1, Raise e) => (fs1, Raise e)
    end
  else (fs, Ok q).

(** _newsimpath 115-152, _newlcpath 154-191, _newproppath 193-230 *)
Definition register (E : env) (k : kind) (name : string) (np : option string) (check : bool)
    (answers : list string) (st : pst) : pst * exc unit :=
  let '(s, fs) := st in
  match s_root s with
  | None => (st, Raise ValueError)
  | Some root =>
      match (if check && dmem (reg s k) name then ask answers else Ok (true, answers)) with
      | Raise e => (st, Raise e)
      | Ok (false, _) => (st, Ok tt)
      | Ok (true, answers) =>
          match resolve k name np answers root fs with
          | (fs1, Raise e) => ((s, fs1), Raise e)
          | (fs1, Ok p) =>
              let p := e_abs E p in
              match append_file fs1 (join root (list_ext k))
                      (String.append name (String sp (String.append p (String nl EmptyString)))) with
              | (fs2, Raise e) => ((s, fs2), Raise e)
              | (fs2, Ok _) => ((set_reg s k (dset (reg s k) name p), fs2), Ok tt)
              end
          end
      end
  end.

(** calls in one session *)
Inductive pcall :=
| PSetup (root : string) (confirm : bool) (answers : list string)
| PRegister (k : kind) (name : string) (np : option string) (check : bool) (answers : list string).
Definition pdo (E : env) (st : pst) (c : pcall) : pst * exc unit :=
  match c with
  | PSetup r cf a => setup E r cf a st
  | PRegister k n np ch a => register E k n np ch a st
  end.
Definition pdo_all (E : env) (st : pst) (cs : list pcall) : pst :=
  fold_left (fun st c => fst (pdo E st c)) cs st.
