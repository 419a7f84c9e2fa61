(** Model of how a light cone maker looks up its mass cut. No proofs here. *)
From Coq Require Import Reals.
From Verif Require Import Dict Util RealUtil SnapModel FormatModel LcModel.

(** lcmaker.py 671 and 1021 (and 191 and 295 for added properties): the maker's SimHandler
    is made without in_h_units (92), which is then False (simhandler.py 179), so
    get_mass_index (simhandler.py 385-426) takes minimum_mass to be without h. [table] and
    [f] are the snapshot table and the contents of the formatted file, [h] is little h *)
Definition maker_index (table : list meta) (f : ffile) (h mmin : R) (s : Z) : exc nat :=
  get_mass_index table f h mmin s false.
