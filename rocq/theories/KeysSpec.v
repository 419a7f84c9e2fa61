(** Vocabulary of the theorems about extract_keys (C116). *)
From Verif Require Import Dict Util Rat HandlerModel KeysModel.
Open Scope string_scope.
Open Scope list_scope.
Open Scope nat_scope.

(** a handler some time after it was opened *)
Definition keys_reach (s : kst) : Prop := exists s0 nanint cs, s = keys_run nanint (keys_open s0) cs.
(** the names of a set *)
Definition names_of (set : keyset) (t : st) : list string :=
  match set with
  | SetAny => h_all (fst t)
  | SetLoaded => dkeys (h_loaded (fst t))
  | SetSaved => h_saved (fst t)
  | SetGenerated => h_gen (fst t)
  | SetOther => []
  end.
(** calls of delete_property, and changes by the caller of the list they hold as [r] *)
Definition is_delete (c : kcall) : bool := match c with KDo (HDelete _) => true | _ => false end.
Definition edits (r : nat) (c : kcall) : bool := match c with KEdit r' _ => Nat.eqb r r' | _ => false end.

(** the names not yet in a list *)
Definition fresh (old names : list string) : list string := filter (fun q => negb (smem q old)) names.
