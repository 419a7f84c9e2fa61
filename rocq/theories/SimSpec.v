(** Vocabulary for the statements about SimHandler (C65-C72). *)
From Verif Require Import Dict Util Rat HandlerModel HandlerSpec SimModel.
Open Scope string_scope.

(** A simulation in SimIM format: the snapshots have different numbers, each has a group
    in SimIM format with [n] of its number halos, and h is not zero. *)
Definition good_sim (n : Z -> nat) (f : simfile) : Prop :=
  NoDup (map fst (sf_meta f)) /\ sf_h f <> 0%Qc /\
  forall i z, In (i, z) (sf_meta f) -> exists g, group_of f i = Ok g /\ good_file (n i) g.

(** A handler opened on the file, without stored snapshot handlers; set_in_h_units may
    have been called since. *)
Definition opened (st : sst) : Prop :=
  sm_init (fst st) = false /\ sm_meta (fst st) = sf_meta (snd st) /\
  sm_h (fst st) = sf_h (snd st) /\ sm_box (fst st) = sf_box (snd st).

(** what a user sees of snapshot [i]: the handler get_snap returns and its group *)
Definition sees (st : sst) (i : Z) (s : HandlerModel.st) : Prop :=
  get_snap st i = Ok (fst s) /\ group_of (snd st) i = Ok (snd s).

(** [st] is reached from a well-formed file by opening it, initialising the snapshot
    handlers and a history of calls other than initialising them again *)
Definition scall_ok (c : scall) : Prop :=
  match c with
  | SInit r => r = false
  | SMake p a =>
      (forall g, sa_dtype a = Some g -> keeps_length g) /\
      ~ In "mass_cuts" (p_names p) /\ (forall r, sa_rename a = Some r -> ~ In "mass_cuts" r)
  | SSnap _ c => call_ok c
  | _ => True
  end.
Definition sim_reachable (n : Z -> nat) (st : sst) : Prop :=
  exists f inh s st0 nanint cs,
    good_sim n f /\ open_sim f false inh = Ok s /\
    initialize_all_snaps false (s, f) = (st0, Ok tt) /\
    Forall scall_ok cs /\ st = sdo_all nanint st0 cs.

(** the names under which make_property records the properties *)
Definition sim_names (p : prop) (a : simargs) : list string :=
  match sa_rename a with None => p_names p | Some r => r end.

(** on snapshot [s] the function can be evaluated, and gives one float column of [n]
    values for each name *)
Definition computable (p : prop) (a : simargs) (n : nat) (s : HandlerModel.st) : Prop :=
  exists vals, evaluate_all p s (sa_all a) (sa_remap a) (sa_kws a) = Ok vals /\
    length vals = length (p_names p) /\
    Forall (fun c => c_int c = false /\ length (c_val c) = n) vals.
(** every name of the property has units and an h dependence *)
Definition documented (p : prop) : Prop :=
  exists hd, p_hdep p = Some hd /\
    forall k, In k (p_names p) -> (exists u, dget (p_units p) k = Some u) /\ exists e, dget hd k = Some e.

(** dataset [k] of a group, if there, is not of integer type *)
Definition float_or_absent (g : gfile) (k : string) : Prop :=
  forall d c, dget (f_grp g) k = Some d -> s_data d = SCol c -> c_int c = false.
