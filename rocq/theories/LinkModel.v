(** Model of the two tables of a finished light cone file: LCMaker.build_lightcones,
    simim/lightcone/lcmaker.py 838-846, and SphereMaker.build_lightcones, 1138-1146, then
    everything a handler does to the file (HandlerModel.v). No proofs here.

    The group 'Lightcone Full' is filled by [lc[key] = file['Lightcone Basic'][key]], which
    in HDF5 makes a hard link: the two groups share their datasets. LcModel.v and
    HandlerModel.v treat the datasets of a group as values. Here they are objects: a
    reference is a position in a heap, and each group maps names to references.
    Simplifications:
    - those of HandlerModel.v;
    - a handler is attached to 'Lightcone Full' (lchandler.py 70) and no code of simim
      writes to 'Lightcone Basic' after line 844;
    - datasets that no group links to stay in the heap. *)
From Verif Require Import Dict Util Rat HandlerModel.
Open Scope string_scope.

(** The handler, the attribute cosmo_h of the file, the datasets, and the two groups *)
Record lst := mkL {
  l_hand : handler; l_h : Qc; l_heap : list dset_; l_full : dict nat; l_basic : dict nat }.

(** the datasets of a group *)
Definition group_of (heap : list dset_) (m : dict nat) : dict dset_ :=
  flat_map (fun kr => match nth_error heap (snd kr) with Some d => [(fst kr, d)] | None => [] end) m.

(** the handler and the file it sees *)
Definition lview (s : lst) : st := (l_hand s, mkFile (l_h s) (group_of (l_heap s) (l_full s))).

(** lcmaker.py 842-844 (1142-1144): the group [g] named 'Lightcone Basic', and a new group
    whose links point to the same datasets *)
Definition link_close (g : dict dset_) : list dset_ * dict nat * dict nat :=
  let refs := combine (dkeys g) (seq 0 (length g)) in (map snd g, refs, refs).

(** A handler is opened on the finished file; lchandler.py 66-97, see [open_handler]. *)
Definition link_open (h : Qc) (g : dict dset_) (extra : dict pyval) (inh : bool) : exc lst :=
  match link_close g with
  | (heap, full, basic) =>
      do hd <- open_handler (mkFile h (group_of heap full)) None extra inh ;;
      Ok (mkL hd h heap full basic)
  end.

(** What a call of a handler does to the datasets, given the group [g] it leaves: a dataset
    that was there is assigned to (_handlers.py 379-383), a new one is created (377), a
    missing one was unlinked (409). No method both unlinks and creates a name. *)
Fixpoint sync (full : dict nat) (heap : list dset_) (g : dict dset_) : list dset_ * dict nat :=
  match g with
  | [] => (heap, [])
  | (k, d) :: g' =>
      match dget full k with
      | Some r => let '(heap', m) := sync full (upd heap r d) g' in (heap', (k, r) :: m)
      | None => let '(heap', m) := sync full (heap ++ [d]) g' in (heap', (k, length heap) :: m)
      end
  end.

(** Calls on the handler, or a new handler opened on the same file; exceptions are caught.
    Opening changes nothing in the file. *)
Inductive lcall := LDo (c : hcall) | LOpen (extra : dict pyval) (inh : bool).
Definition link_step (nanint : Qc) (s : lst) (c : lcall) : lst :=
  match c with
  | LDo c =>
      let t := fst (hdo nanint (lview s) c) in
      let '(heap, full) := sync (l_full s) (l_heap s) (f_grp (snd t)) in
      mkL (fst t) (l_h s) heap full (l_basic s)
  | LOpen extra inh =>
      match open_handler (snd (lview s)) None extra inh with
      | Ok hd => mkL hd (l_h s) (l_heap s) (l_full s) (l_basic s)
      | Raise _ => s
      end
  end.
Definition link_run (nanint : Qc) (s : lst) (cs : list lcall) : lst := fold_left (link_step nanint) cs s.
