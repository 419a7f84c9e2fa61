(** Vocabulary for the statements about the path registry (C33, C34). *)
From Verif Require Import Dict Util PathsModel.
From Coq Require Import Ascii.
Open Scope string_scope.

(** no space, newline or carriage return *)
Definition plain (s : string) : Prop :=
  forall c, In c (list_ascii_of_string s) -> c <> sp /\ c <> nl /\ c <> cr.

(** the registry files below [r] are files, if they exist, that can be read and
    end in a newline *)
Definition readable (fs : fsys) (r : string) : Prop :=
  forall k, fs_dir fs (join r (list_ext k)) = false /\
    forall c, fs_file fs (join r (list_ext k)) = Some c ->
      (exists d, load_paths_file fs (join r (list_ext k)) = Ok d) /\
      (c = "" \/ exists c', c = String.append c' (String nl EmptyString)).

(** names, roots, paths and typed answers contain no space or newline; and no
    automatically placed entry is named after a registry file *)
Definition call_plain (c : pcall) : Prop :=
  match c with
  | PSetup root _ _ => plain root
  | PRegister _ name np _ answers =>
      plain name /\
      (np = Some "auto" -> forall r k, starts_slash name = true -> name <> join r (list_ext k)) /\
      (forall p, np = Some p -> plain p) /\ (forall a, In a answers -> plain a)
  end.

(** every setup call of the history meets readable registries at the root it ends
    up with, and does not fail while creating the data directories *)
Fixpoint setups_ok (E : env) (st : pst) (cs : list pcall) : Prop :=
  match cs with
  | [] => True
  | c :: r =>
      match c with
      | PSetup _ _ _ =>
          snd (pdo E st c) <> Raise OSError /\
          (forall root, s_root (fst (fst (pdo E st c))) = Some root -> readable (snd st) root)
      | _ => True
      end /\ setups_ok E (fst (pdo E st c)) r
  end.

(** abspath and expanduser introduce no space or newline (the working and home
    directories have none), and abspath never returns '' *)
Definition env_plain (E : env) : Prop :=
  (forall p, plain p -> plain (e_abs E p) /\ e_abs E p <> "") /\ (forall p, plain p -> plain (e_user E p)).

(** neither 'y' nor 'n' *)
Definition unclear (a : string) : Prop := a <> "y" /\ a <> "n".
