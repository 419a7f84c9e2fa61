(** Model of the reference frequencies of detectors in the course of a program: simim/instrument/instrument.py
    574-606 (set by add_detector), 205-290 (not touched by the set_ methods) and 626-628 (gone with the detector),
    on top of InstModel.v. No proofs here. *)
From Verif Require Import Dict Util Rat Val Arr GridModel GridModel2 InstModel.
Open Scope string_scope.
Open Scope list_scope.

Section Ref.
(** [peak r]: what 578-606 find for the spectral response [r] with its keywords, NaN included; None is a response that
    has not been set. RespModel.v models the search itself. [sp] and [sc] are as in InstModel.v *)
Context {F : Type} (peak : option (fn * kw) -> F).
Context (sp : fn -> kw -> list Qc -> list Qc -> list Qc -> exc (arr Qc)) (sc : fn -> kw -> list Qc -> exc (arr Qc)).

(** an instrument and the attribute reffreq of its detectors *)
Definition rstate := (inst * dict F)%type.
(** add_detector with its argument nominal_frequency, and all the other methods *)
Inductive rop := RAdd (a : detargs) (nominal : option F) | ROther (o : iop).

(** 407-612 with 575-606. A detector that could not be added is deleted again (570) before 574 is reached *)
Definition radd (a : detargs) (nominal : option F) (s : rstate) : rstate * exc unit :=
  let name := match a_name a with Some n => n | None => str_nat (i_count (fst s)) end in
  match add_detector a (fst s) with
  | (i, Ok _) =>
      let found := match nominal with
                   | Some f => f
                   | None => peak (match dget (i_dets i) name with Some x => d_spec x | None => None end)
                   end in
      ((i, dset (snd s) name found), Ok tt)
  | (i, Raise e) => ((i, snd s), Raise e)
  end.
Definition rstep (o : rop) (s : rstate) : rstate * exc unit :=
  match o with
  | RAdd a nominal => radd a nominal s
  | ROther (OAddDet a) => radd a None s
  | ROther (ODelDet names) =>
      match del_detectors names (fst s) with
      | (i, Ok _) => ((i, fold_left ddel names (snd s)), Ok tt)
      | (i, Raise e) => ((i, snd s), Raise e)
      end
  | ROther o => let (i, r) := istep sp sc o (fst s) in ((i, snd s), r)
  end.
(** a program that catches what its calls raise *)
Definition rrun (os : list rop) (s : rstate) : rstate := fold_left (fun s o => fst (rstep o s)) os s.
End Ref.
Arguments RAdd {F}. Arguments ROther {F}.
