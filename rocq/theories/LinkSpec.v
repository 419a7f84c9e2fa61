(** Vocabulary of the theorems about the two tables of a light cone file (C118). *)
From Verif Require Import Dict Util Rat HandlerModel LinkModel.
Open Scope string_scope.
Open Scope list_scope.

(** the dataset of a name in 'Lightcone Full' and in 'Lightcone Basic' *)
Definition full_get (s : lst) (k : string) : option dset_ :=
  match dget (l_full s) k with Some r => nth_error (l_heap s) r | None => None end.
Definition basic_get (s : lst) (k : string) : option dset_ :=
  match dget (l_basic s) k with Some r => nth_error (l_heap s) r | None => None end.

(** [s] is a state after some history of calls on handlers of a light cone whose maker left
    the table [g]; the names of an HDF5 group are distinct *)
Definition link_after (g : dict dset_) (cs : list lcall) (s : lst) : Prop :=
  NoDup (dkeys g) /\
  exists nanint h extra inh s0, link_open h g extra inh = Ok s0 /\ s = link_run nanint s0 cs.

(** a call that deletes the property [k], or that writes it to disk *)
Definition deletes (k : string) (c : lcall) : Prop :=
  match c with LDo (HDelete ps) => In k ps | _ => False end.
Definition writes (k : string) (c : lcall) : Prop :=
  match c with
  | LDo (HWrite ps _ _) => In k ps
  | LDo (HMake p a) => m_write a = true /\ In k (match m_rename a with Some r => r | None => p_names p end)
  | _ => False
  end.

(** the same calls on a file whose only table is 'Lightcone Full' *)
Definition plain_step (nanint : Qc) (s : st) (c : lcall) : st :=
  match c with
  | LDo c => fst (hdo nanint s c)
  | LOpen extra inh => match open_handler (snd s) None extra inh with Ok hd => (hd, snd s) | Raise _ => s end
  end.
