(** Model of the class [Detector] (simim/instrument/instrument.py 1112-1137), an instrument with one detector. *)
From Verif Require Import Dict Util Rat Val Arr GridModel GridModel2 InstModel.
Open Scope string_scope.
Open Scope list_scope.

(** the frame of the pointing offsets, instrument.py 173-179 *)
Definition check_frame (f : option string) : exc unit :=
  match f with None => Ok tt | Some s => check (smem s ["radec"; "none"]) ValueError end.
(** 1115-1137. The name in [a] is not an argument of the class. *)
Definition new_detector (sunit punit funit : option string) (sres pres : option Qc) (frame : option string) (a : detargs) : exc inst :=
  do s <- new_inst sunit punit funit sres pres RNone KNone RNone KNone RNone KNone ;;
  do _ <- check_frame frame ;;
  match add_detector (mkDA (Some "detector") (a_spat a) (a_spatk a) (a_spec a) (a_speck a) (a_noise a) (a_noisek a) (a_off a)) s with
  | (s', Ok _) => Ok s'
  | (_, Raise e) => Raise e
  end.
