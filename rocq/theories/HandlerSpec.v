(** Vocabulary for the statements about handlers (C26-C32, C47, C55). *)
From Verif Require Import Dict Util Rat HandlerModel.
From Coq Require Import Sorted.
Open Scope string_scope.

(** A file in SimIM format: 'mass_cuts', if present, is a structured dataset;
    every other dataset is a column of [n] values carrying units and an h
    dependence; and 'mass' is one of them. *)
Definition good_file (n : nat) (f : gfile) : Prop :=
  (exists d, dget (f_grp f) "mass" = Some d) /\
  (forall d, dget (f_grp f) "mass_cuts" = Some d -> exists r, s_data d = SRec r) /\
  forall k d, dget (f_grp f) k = Some d -> k <> "mass_cuts" ->
    (exists c, s_data d = SCol c /\ length (c_val c) = n) /\
    (exists u, s_units d = Some u) /\ (exists e, s_hdep d = Some e).

(** The dtype argument of a write converts values one by one. *)
Definition keeps_length (g : col -> col) : Prop :=
  forall c, length (c_val (g c)) = length (c_val c).

(** Calls considered in histories: dtype conversions keep the number of rows,
    and nobody uses the reserved name 'mass_cuts' for a property. *)
Definition call_ok (c : hcall) : Prop :=
  match c with
  | HMake p a =>
      (forall g, m_dtype a = Some g -> keeps_length g) /\
      ~ In "mass_cuts" (p_names p) /\ (forall r, m_rename a = Some r -> ~ In "mass_cuts" r)
  | HWrite _ _ dt => forall g, dt = Some g -> keeps_length g
  | _ => True
  end.

(** [s] is the state of a handler opened on a well-formed file with [n] halos
    after some history of calls. *)
Definition reachable (n : nat) (s : st) : Prop :=
  exists f box extra inh h0 nanint cs,
    good_file n f /\ open_handler f box extra inh = Ok h0 /\
    Forall call_ok cs /\ s = hdo_all nanint (h0, f) cs.

(** Calls that read or select, but do not make, write or delete properties. *)
Definition reading (c : hcall) : bool :=
  match c with HLoad _ | HUnload _ | HRange _ _ _ _ _ | HSetH _ => true | _ => false end.
Definition moves_memory (c : hcall) : bool :=
  match c with HLoad _ | HUnload _ => true | _ => false end.

(** row [i] of property [p], as return_property reports it, lies in [lo,hi] *)
Definition value_in (s : st) (p : string) (inh : option bool) (lo hi : ext) (i : nat) : Prop :=
  exists c x, return_property s p true inh = Ok (Some c) /\
    nth_error (c_val c) i = Some (Some x) /\
    match lo with NInf => True | Fin a => (a <= x)%Qc | PInf => False end /\
    match hi with NInf => False | Fin b => (x <= b)%Qc | PInf => True end.

(** the rows that satisfy every range requested since the last reset *)
Fixpoint selected (nanint : Qc) (s : st) (cs : list hcall) (P : nat -> Prop) : nat -> Prop :=
  match cs with
  | [] => P
  | c :: r =>
      selected nanint (fst (hdo nanint s c)) r
        (match c, snd (hdo nanint s c) with
         | HRange None _ _ _ _, Ok _ => fun i => (i < h_n (fst s))%nat
         | HRange (Some p) lo hi reset inh, Ok _ =>
             fun i => value_in s p inh lo hi i /\ (reset = true \/ P i)
         | _, _ => P
         end)
  end.

(** ascending without repetition *)
Definition ascending (l : list nat) : Prop := StronglySorted lt l.

(** every loaded column of a saved property is the column on disk *)
Definition coherent (s : st) : Prop :=
  forall p c, In p (h_saved (fst s)) -> dget (h_loaded (fst s)) p = Some c ->
    exists d, dget (f_grp (snd s)) p = Some d /\ s_data d = SCol c.

(** the k-th value of a column assigned to a selection (one value is repeated) *)
Definition val_at (v : col) (k : nat) : option (option Qc) :=
  match c_val v with [x] => Some x | l => nth_error l k end.

(** the argument [k] of a function called through the handler: other keywords
    as given, kwargs from the (remapped) property or extra property *)
Definition arg_spec (s : st) (kwargs : list string) (remap : dict string) (use_all inh : bool)
    (kws : dict pyval) (k : string) (v : option pyval) : Prop :=
  if smem k kwargs then
    let name := match dget remap k with Some k' => k' | None => k end in
    if has_property (fst s) name
    then exists o, return_property s name use_all (Some inh) = Ok o /\
                   v = Some (match o with Some c => VCol c | None => VNone end)
    else exists x, dget (h_extra (fst s)) name = Some x /\ v = Some x
  else v = dget kws k.

(** every unload in the history names only properties that are on disk (or
    unknown to the handler) *)
Fixpoint unloads_saved (nanint : Qc) (s : st) (cs : list hcall) : Prop :=
  match cs with
  | [] => True
  | c :: r =>
      match c with
      | HUnload ps => forall p, In p ps -> has_property (fst s) p = true -> In p (h_saved (fst s))
      | _ => True
      end /\ unloads_saved nanint (fst (hdo nanint s c)) r
  end.

(** no call of the history raised KeyError *)
Fixpoint no_key_error (nanint : Qc) (s : st) (cs : list hcall) : Prop :=
  match cs with
  | [] => True
  | c :: r => snd (hdo nanint s c) <> Raise KeyError /\ no_key_error nanint (fst (hdo nanint s c)) r
  end.

(** the history never deletes the property 'mass' *)
Definition keeps_mass (c : hcall) : Prop :=
  match c with HDelete ps => ~ In "mass" ps | _ => True end.

(** what ends up on disk when column [c] is written over [old] *)
Definition on_disk (nanint : Qc) (old : option dset_) (c : col) : col :=
  match old with
  | Some d => match s_data d with SCol o => store_into nanint o c | SRec _ => c end
  | None => c
  end.

(** the dataset already on disk, if any, can hold the values of [c] exactly *)
Definition same_dtype (old : option dset_) (c : col) : Prop :=
  match old with
  | Some d => match s_data d with SCol o => c_int o = c_int c | SRec _ => True end
  | None => True
  end.

(** the rows of bin [b] of the edges [es]: redshift between the two edges *)
Definition bin_row (s : st) (es : list Qc) (b i : nat) : Prop :=
  exists lo hi, nth_error es b = Some lo /\ nth_error es (S b) = Some hi /\
    value_in s "redshift" None (Fin lo) (Fin hi) i.

(** the redshift of row [i] is [z] *)
Definition redshift_is (s : st) (i : nat) (z : Qc) : Prop :=
  exists c, return_property s "redshift" true None = Ok (Some c) /\ nth_error (c_val c) i = Some (Some z).

(** keywords of bin [lo,hi]: those of the caller, except zmin and zmax *)
Definition bin_kws (kws : dict pyval) (zmin_kw zmax_kw : bool) (lo hi : Qc) (k' : dict pyval) : Prop :=
  (forall k, k <> "zmin" -> k <> "zmax" -> dget k' k = dget kws k) /\
  (zmin_kw = true -> dget k' "zmin" = Some (VNum lo)) /\
  (zmax_kw = true -> dget k' "zmax" = Some (VNum hi)).

(** the names under which make_property records the properties *)
Definition new_names (p : prop) (a : mkargs) : list string :=
  match m_rename a with None => p_names p | Some r => r end.
