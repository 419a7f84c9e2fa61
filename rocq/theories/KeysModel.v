(** Model of Handler.extract_keys, simim/_handlers.py 79-102, with the list objects it
    hands out. No proofs here.

    HandlerModel.v treats the name lists of a handler (properties_all, properties_saved,
    properties_generated) as values. Here they are list objects: a reference is a position
    in a heap, and a caller that holds the reference sees every change made to the object
    and can change it. Simplifications:
    - those of HandlerModel.v;
    - what a caller does to a list they hold (append, remove, sort, clear, ...) is any
      change of its contents. *)
From Verif Require Import Dict Util Rat HandlerModel.
Open Scope string_scope.

(** The handler with its file, the list objects, and the references
    self.properties_all, self.properties_saved and self.properties_generated. The name
    lists inside [k_st] are not used: [view] replaces them by the objects. *)
Record kst := mkK {
  k_st : st; k_heap : list (list string); k_any : nat; k_sav : nat; k_gen : nat }.

(** the contents of a list object *)
Definition cell (s : kst) (r : nat) : list string := nth r (k_heap s) [].

(** Handler.__init__, _handlers.py 43, 47 and 53: three separate objects *)
Definition keys_open (s : st) : kst := mkK s [h_all (fst s); h_saved (fst s); h_gen (fst s)] 0 1 2.

(** the handler the methods see *)
Definition view (s : kst) : st :=
  let h := fst (k_st s) in
  (with_saved (with_all h (cell s (k_any s)) (cell s (k_gen s))) (cell s (k_sav s)), snd (k_st s)).

(** a method changed the objects in place: append in lines 334, 335 and 386 *)
Definition in_place (s : kst) (t : st) : kst :=
  let h := fst t in
  mkK t (upd (upd (upd (k_heap s) (k_any s) (h_all h)) (k_sav s) (h_saved h)) (k_gen s) (h_gen h))
      (k_any s) (k_sav s) (k_gen s).

(** lines 411 and 412-416: new objects for properties_saved and properties_all *)
Definition rebind (s : kst) (t : st) : kst :=
  let n := length (k_heap s) in
  mkK t (k_heap s ++ [h_saved (fst t); h_all (fst t)]) (S n) n (k_gen s).

(** delete_property, _handlers.py 388-419 *)
Fixpoint keys_delete (ps : list string) (s : kst) : kst * exc unit :=
  match ps with
  | [] => (s, Ok tt)
  | p :: r =>
      match delete_one p (view s) with
      | (t, Ok _) => keys_delete r (rebind s t)
      | (_, Raise e) => (s, Raise e)
      end
  end.

(** a method of the handler; only delete_property makes new list objects *)
Definition keys_do (nanint : Qc) (s : kst) (c : hcall) : kst * exc unit :=
  match c with
  | HDelete ps => keys_delete ps s
  | _ => match hdo nanint (view s) c with (t, r) => (in_place s t, r) end
  end.

(** the argument of extract_keys; [SetOther] is any other value *)
Inductive keyset := SetAny | SetLoaded | SetSaved | SetGenerated | SetOther.

(** extract_keys, _handlers.py 79-102: a reference to the object of the handler (94, 98,
    100), or to a new list (96) *)
Definition extract_keys (set : keyset) (s : kst) : kst * exc nat :=
  match set with
  | SetAny => (s, Ok (k_any s))
  | SetLoaded =>
      (mkK (k_st s) (k_heap s ++ [dkeys (h_loaded (fst (k_st s)))]) (k_any s) (k_sav s) (k_gen s),
       Ok (length (k_heap s)))
  | SetSaved => (s, Ok (k_sav s))
  | SetGenerated => (s, Ok (k_gen s))
  | SetOther => (s, Raise ValueError)
  end.

(** the caller changes a list they hold *)
Definition edit (r : nat) (l : list string) (s : kst) : kst :=
  mkK (k_st s) (upd (k_heap s) r l) (k_any s) (k_sav s) (k_gen s).

(** what a caller can do; exceptions are caught *)
Inductive kcall := KDo (c : hcall) | KKeys (set : keyset) | KEdit (r : nat) (l : list string).
Definition keys_step (nanint : Qc) (s : kst) (c : kcall) : kst :=
  match c with
  | KDo c => fst (keys_do nanint s c)
  | KKeys set => fst (extract_keys set s)
  | KEdit r l => edit r l s
  end.
Definition keys_run (nanint : Qc) (s : kst) (cs : list kcall) : kst := fold_left (keys_step nanint) cs s.
