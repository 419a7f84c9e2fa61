(** Vocabulary for the statements about the keywords of eval_stat_evo (C76). *)
From Verif Require Import Dict Util Rat HandlerModel HandlerSpec EvoModel.
Open Scope string_scope.

(** the dictionary the call starts from *)
Definition given {V} (c : ecall V) (dflt : dict pyval) : dict pyval := match e_kws c with Some k => k | None => dflt end.
Definition c_units {V} (c : ecall V) (s : st) : bool := match e_inh c with Some b => b | None => h_inh (fst s) end.
(** What the statistic should be given for bin [lo,hi]: the caller's keywords, with the
    edges and the volume of the bin when they are asked for. *)
Definition wanted {V} (vol : Qc -> Qc -> bool -> exc Qc) (c : ecall V) (in_h : bool) (kws : dict pyval) (lo hi : Qc) (k : string) (v : option pyval) : Prop :=
  if ((k =? "zmin") && e_zmin c)%bool then v = Some (VNum lo)
  else if ((k =? "zmax") && e_zmax c)%bool then v = Some (VNum hi)
  else if ((k =? "volume") && e_vol c)%bool then exists w, vol lo hi in_h = Ok w /\ v = Some (VNum w)
  else v = dget kws k.
(** two dictionaries with the same contents *)
Definition same_dict (a b : dict pyval) : Prop := forall k, dget a k = dget b k.
(** a statistic that does not take the keyword [k], as python calls it *)
Definition rejects {V} (stat : dict pyval -> exc V) (k : string) : Prop :=
  forall args v, dget args k = Some v -> stat args = Raise TypeError.
