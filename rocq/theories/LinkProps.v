(** Theorems about the two tables of a light cone file (C118). *)
From Verif Require Import Dict Util Rat HandlerModel HandlerSpec LinkModel LinkSpec Link.
Open Scope string_scope.
Open Scope list_scope.
Open Scope nat_scope.

(** * C118: the tables 'Lightcone Basic' and 'Lightcone Full' *)
(** Linking is invisible to a handler: it sees a file whose only table is the one the
    maker left, changed by its own calls. *)
Theorem C118_handler g cs s : link_after g cs s ->
  exists nanint h hd extra inh,
    open_handler (mkFile h g) None extra inh = Ok hd /\
    lview s = fold_left (plain_step nanint) cs (hd, mkFile h g) /\
    forall k, full_get s k = dget (f_grp (snd (lview s))) k.
Proof. exact (refines g cs s). Qed.
Print Assumptions C118_handler.

(** The names of 'Lightcone Basic' never change. *)
Theorem C118_names g cs s : link_after g cs s -> dkeys (l_basic s) = dkeys g.
Proof. intros A. apply (after_wf g cs s A). Qed.
Print Assumptions C118_names.

(** A property that is never written keeps in 'Lightcone Basic' the data and the attributes
    the maker stored, even if it is deleted. *)
Theorem C118_kept_partial g cs s k : link_after g cs s -> In k (dkeys g) ->
  (forall c, In c cs -> ~ writes k c) -> basic_get s k = dget g k.
Proof. exact (kept g cs s k). Qed.
Print Assumptions C118_kept_partial.

(** A deleted property is gone from 'Lightcone Full', and 'Lightcone Basic' keeps what it had
    before the delete whatever is done later, new properties of that name included. *)
Theorem C118_deleted g cs s k nanint ps t : link_after g cs s -> In k (dkeys g) -> In k ps ->
  delete_property ps (lview s) = (t, Ok tt) ->
  let s' := link_step nanint s (LDo (HDelete ps)) in
  lview s' = t /\ full_get s' k = None /\
  forall cs', basic_get (link_run nanint s' cs') k = basic_get s k.
Proof. exact (deleted g cs s k nanint ps t). Qed.
Print Assumptions C118_deleted.
Theorem C118_frozen g cs s k nanint cs' : link_after g cs s -> In k (dkeys g) -> full_get s k = None ->
  basic_get (link_run nanint s cs') k = basic_get s k.
Proof. exact (frozen g cs s k nanint cs'). Qed.
Print Assumptions C118_frozen.

(** 'Lightcone Basic' is not a copy: as long as a property was not deleted, it is the
    property of 'Lightcone Full'. *)
Theorem C118_copy_refuted g cs s k : link_after g cs s -> In k (dkeys g) ->
  (forall c, In c cs -> ~ deletes k c) -> basic_get s k = full_get s k.
Proof. intros A I H. apply linked_get, (shared g cs s k A I H). Qed.
Print Assumptions C118_copy_refuted.
(** Writing the property through a handler writes it to 'Lightcone Basic' too. *)
Theorem C118_basic_refuted g cs s k nanint ps ow t : link_after g cs s -> In k (dkeys g) ->
  (forall c, In c cs -> ~ deletes k c) -> In k ps ->
  write_property nanint ps ow None (lview s) = (t, Ok tt) ->
  let s' := link_step nanint s (LDo (HWrite ps ow None)) in
  exists c d, dget (h_loaded (l_hand s)) k = Some c /\ basic_get s' k = Some d /\
    s_data d = SCol (on_disk nanint (full_get s k) c).
Proof. exact (written g cs s k nanint ps ow t). Qed.
Print Assumptions C118_basic_refuted.

(** A light cone of two halos. The mass is replaced, then the redshift deleted and written
    again under its name. *)
Definition ex_col (a b : Qc) : col := mkCol false [Some a; Some b].
Definition ex_ds (a b : Qc) : dset_ := mkDS (SCol (ex_col a b)) (Some (UStr "None")) (Some 0%Z) false.
Definition ex_basic : dict dset_ := [("mass", ex_ds 1 1); ("redshift", ex_ds 0 1)].
Definition ex_prop (k : string) : prop :=
  mkProp [k] [] false false [(k, UStr "None")] (Some [(k, 0%Z)]) (fun _ => Ok [ex_col 0 0]).
Definition ex_make (k : string) (w : bool) : lcall := LDo (HMake (ex_prop k) (mkMA None [] [] true true w true None false)).
Definition ex_open : lst := match link_open 1 ex_basic [] true with Ok s => s | Raise _ => mkL (mkH 0%Qc [] [] [] [] 0 [] [] [] [] 0 true None) 0 [] [] [] end.
Definition ex_run (cs : list lcall) : lst := link_run 0 ex_open cs.
Definition col_of (d : option dset_) : option (list (option Q)) :=
  match d with Some d => match s_data d with SCol c => Some (map (option_map this) (c_val c)) | SRec _ => None end | None => None end.
Lemma ex_after cs : link_after ex_basic cs (ex_run cs).
Proof.
  split; [repeat constructor; cbn; intuition congruence|]. exists 0%Qc, 1%Qc, [], true, ex_open. split; reflexivity.
Qed.
Example C118_nonvacuous :
  (* the maker's mass is lost *)
  (let s := ex_run [ex_make "mass" false] in
   link_after ex_basic [ex_make "mass" false] s /\ basic_get s "mass" = dget ex_basic "mass" /\
   snd (write_property 0 ["mass"] true None (lview s)) = Ok tt) /\
  col_of (basic_get (ex_run [ex_make "mass" true]) "mass") = Some [Some 0%Q; Some 0%Q] /\
  col_of (dget ex_basic "mass") = Some [Some 1%Q; Some 1%Q] /\
  (* the maker's redshift is kept *)
  snd (delete_property ["redshift"] (lview (ex_run [ex_make "mass" true]))) = Ok tt /\
  (let s := ex_run [ex_make "mass" true; LDo (HDelete ["redshift"]); ex_make "redshift" true; LOpen [] false] in
   basic_get s "redshift" = dget ex_basic "redshift" /\ col_of (full_get s "redshift") = Some [Some 0%Q; Some 0%Q]).
Proof.
  split; [split; [apply ex_after|split; vm_compute; reflexivity]|].
  split; [vm_compute; reflexivity|]. split; [vm_compute; reflexivity|]. split; [vm_compute; reflexivity|].
  split; vm_compute; reflexivity.
Qed.
