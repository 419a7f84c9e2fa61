(** Model of SimCatalogs.format with the question it asks before it deletes raw files: simim/siminterface/_rawsiminterface.py
    342 and 386-396, on top of FormatModel.v. No proofs here. *)
From Verif Require Import Dict Util RealUtil SnapModel FormatModel.
From Verif Require RawModel.
From Coq Require Import Reals.
Open Scope string_scope.
Open Scope list_scope.

(** 386-396: [check] is realtime_clean_raw_check, [answers] what the user types; n ends the call without an error *)
Definition asked_steps (asort : list R -> list nat) (ct : catalog) (a : fargs) (check : bool) (answers : list string) (w : world) : list (exc fop) :=
  if a_clean a && check then
    match RawModel.confirm answers with
    | Raise e => [Raise e]
    | Ok false => []
    | Ok true => format_steps asort ct a w
    end
  else format_steps asort ct a w.
(** a call that runs to its end or to an exception *)
Definition format_asked (asort : list R -> list nat) (ct : catalog) (a : fargs) (check : bool) (answers : list string) (w : world) : world * exc unit :=
  exec w (asked_steps asort ct a check answers w).
(** a call that is killed after [k] operations *)
Definition format_asked_crash (asort : list R -> list nat) (ct : catalog) (a : fargs) (check : bool) (answers : list string) (k : nat) (w : world) : world :=
  fst (exec w (firstn k (asked_steps asort ct a check answers w))).
