(** The path registry: C33 and C34. *)
From Verif Require Import Dict Util PathsModel PathsSpec Paths.
From Coq Require Import Ascii.
Open Scope string_scope.
Open Scope list_scope.

(** * An example session: the package in /lib, home and root in /w *)
Definition exE : env := mkEnv (fun p => if starts_slash p then p else String.append "/w/" p)
                              (fun p => if String.eqb p "~" then "/w" else p) "/lib/res".
Definition exfs (files : list (string * string)) (dirs : list string) : fsys :=
  mkFS (fun q => dget files q) (fun q => smem q dirs).
Definition fs_empty : fsys := exfs [] ["/w"; "/lib"; "/w/data"; "/w/old data"; "/v"].
Definition s_of (x : fsys * exc sess) : pst :=
  match x with (f, Ok s) => (s, f) | (f, Raise _) => (mkSess None [] [] [], f) end.
Definition ex_calls : list pcall :=
  [PSetup "~" true ["y"]; PRegister KSim "TNG" (Some "data") true []; PRegister KLc "cone" (Some "auto") true [];
   PRegister KSim "TNG" (Some "auto") true ["maybe"; "y"]; PRegister KSim "TNG" (Some "/elsewhere") true ["n"];
   PRegister KProp "sfr" None true ["/w/data"]; PSetup "/nowhere" true ["n"; "n"]].

(** ** C33: a new session loads what the old one held *)
Theorem C33_history : forall E fs fs0 s0 cs,
  env_plain E -> new_session E fs = (fs0, Ok s0) ->
  (forall r, s_root s0 = Some r -> plain r /\ readable fs0 r) ->
  Forall call_plain cs -> setups_ok E (s0, fs0) cs ->
  let st := pdo_all E (s0, fs0) cs in new_session E (snd st) = (snd st, Ok (fst st)).
Proof. exact c33_history. Qed.
Print Assumptions C33_history.

Theorem C33_last : forall E k name q answers st st',
  q <> "" -> q <> "auto" ->
  register E k name (Some q) false answers st = (st', Ok tt) ->
  dget (reg (fst st') k) name = Some (e_abs E q).
Proof. exact c33_last. Qed.
Print Assumptions C33_last.

Example C33_nonvacuous :
  let st0 := s_of (new_session exE fs_empty) in
  snd (new_session exE fs_empty) = Ok (fst st0) /\ s_root (fst st0) = None /\
  Forall call_plain ex_calls /\ setups_ok exE st0 ex_calls /\
  let st := pdo_all exE st0 ex_calls in
  fst st = mkSess (Some "/w") [("cone", "/w/simim_resources/lightcones/cone")]
             [("TNG", "/w/simim_resources/simulations/TNG")] [("sfr", "/w/data")] /\
  new_session exE (snd st) = (snd st, Ok (fst st)).
Proof.
  cbv zeta. split; [vm_compute; reflexivity|]. split; [vm_compute; reflexivity|].
  split.
  - repeat (apply Forall_cons; [try (apply plain_dec; vm_compute; reflexivity)|]); [| | | | |apply Forall_nil];
    cbn [call_plain];
    (split; [apply plain_dec; vm_compute; reflexivity|]; split; [intros _ r k H; vm_compute in H; discriminate|];
     split; [intros p [= <-]; apply plain_dec; vm_compute; reflexivity|]);
    intros a Ha; cbn [In] in Ha;
    repeat (destruct Ha as [<-|Ha]; [apply plain_dec; vm_compute; reflexivity|]); destruct Ha.
  - split; [|split; vm_compute; reflexivity].
    cbn [setups_ok ex_calls].
    split; [split; [vm_compute; discriminate|]|].
    { intros r H. vm_compute in H. injection H as <-. intros k; destruct k; (split; [vm_compute; reflexivity|]);
      intros c H; vm_compute in H; discriminate. }
    do 5 (split; [exact I|]). split; [|exact I]. split; [vm_compute; discriminate|].
    intros r H. vm_compute in H. injection H as <-. intros k; destruct k; (split; [vm_compute; reflexivity|]);
      intros c H; vm_compute in H; injection H as <-; (split; [eexists; vm_compute; reflexivity|]); right.
    + exists "cone /w/simim_resources/lightcones/cone"; reflexivity.
    + eexists (String.append "TNG /w/data" (String nl "TNG /w/simim_resources/simulations/TNG")); reflexivity.
    + exists "sfr /w/data"; reflexivity.
Qed.

(** without the condition on spaces: the reloaded path is cut at the space *)
Theorem C33_space_refuted : exists st st',
  new_session exE (snd st) = (snd st, Ok (fst st)) /\
  register exE KSim "old" (Some "/w/old data") true [] st = (st', Ok tt) /\
  dget (reg (fst st') KSim) "old" = Some "/w/old data" /\
  exists s, snd (new_session exE (snd st')) = Ok s /\ dget (reg s KSim) "old" = Some "/w/old".
Proof.
  exists (pdo_all exE (s_of (new_session exE fs_empty)) [PSetup "~" false []]).
  eexists. split; [vm_compute; reflexivity|]. split; [vm_compute; reflexivity|]. split; [vm_compute; reflexivity|].
  eexists. split; vm_compute; reflexivity.
Qed.
Print Assumptions C33_space_refuted.

(** a setup that fails while creating the directories leaves the registries of the
    old root in memory, while the new root is already on disk *)
Theorem C33_setup_refuted : exists st st',
  new_session exE (snd st) = (snd st, Ok (fst st)) /\
  setup exE "/v/f" false ["y"] st = (st', Raise OSError) /\
  dget (reg (fst st') KSim) "TNG" = Some "/w/data" /\
  exists s, snd (new_session exE (snd st')) = Ok s /\ dget (reg s KSim) "TNG" = None.
Proof.
  exists (pdo_all exE (s_of (new_session exE (exfs [("/v/f", "text")] ["/w"; "/lib"; "/v"])))
    [PSetup "~" false []; PRegister KSim "TNG" (Some "data") true []]).
  eexists. split; [vm_compute; reflexivity|]. split; [vm_compute; reflexivity|]. split; [vm_compute; reflexivity|].
  eexists. split; vm_compute; reflexivity.
Qed.
Print Assumptions C33_setup_refuted.

(** a registry file without a final newline swallows the next registration *)
Theorem C33_newline_refuted : exists st st',
  new_session exE (snd st) = (snd st, Ok (fst st)) /\
  register exE KSim "TNG" (Some "data") true [] st = (st', Ok tt) /\
  dget (reg (fst st') KSim) "TNG" = Some "/w/data" /\
  exists s, snd (new_session exE (snd st')) = Ok s /\ dget (reg s KSim) "TNG" = None.
Proof.
  exists (s_of (new_session exE (exfs [("/lib/res/rootpath.txt", "/w");
     ("/w/simim_resources/.paths/simpaths.txt", "UM /w/um")] ["/w"; "/lib"; "/lib/res"; "/w/simim_resources"; "/w/simim_resources/.paths"]))).
  eexists. split; [vm_compute; reflexivity|]. split; [vm_compute; reflexivity|]. split; [vm_compute; reflexivity|].
  eexists. split; vm_compute; reflexivity.
Qed.
Print Assumptions C33_newline_refuted.

(** ** C34: nothing is replaced without a 'y' *)
Theorem C34_existing : forall E k name np st r,
  s_root (fst st) = Some r -> dmem (reg (fst st) k) name = true ->
  forall pre, Forall unclear pre ->
  (forall rest, register E k name np true (pre ++ "n" :: rest) st = (st, Ok tt)) /\
  (forall rest, register E k name np true (pre ++ "y" :: rest) st = register E k name np false rest st) /\
  register E k name np true pre st = (st, Raise EOFError).
Proof. exact c34_register. Qed.
Print Assumptions C34_existing.

Theorem C34_fresh : forall E k name np answers st,
  dmem (reg (fst st) k) name = false ->
  register E k name np true answers st = register E k name np false answers st.
Proof. exact c34_fresh. Qed.
Print Assumptions C34_fresh.

Theorem C34_others : forall E k name np ch answers st,
  let st' := fst (register E k name np ch answers st) in
  s_root (fst st') = s_root (fst st) /\
  (forall k' q, k' <> k \/ q <> name -> dget (reg (fst st') k') q = dget (reg (fst st) k') q) /\
  (forall q, (forall r, s_root (fst st) = Some r -> q <> join r (list_ext k)) ->
             fs_file (snd st') q = fs_file (snd st) q).
Proof. exact c34_others. Qed.
Print Assumptions C34_others.

Theorem C34_root : forall E root confirm st r,
  s_root (fst st) = Some r -> e_user E root <> r ->
  forall pre, Forall unclear pre ->
  (forall rest, s_root (fst (fst (setup E root confirm (pre ++ "n" :: rest) st))) = Some r \/
                s_root (fst (fst (setup E root confirm (pre ++ "n" :: rest) st))) = Some (e_abs E r)) /\
  setup E root confirm pre st = (st, Raise EOFError).
Proof. exact c34_setup. Qed.
Print Assumptions C34_root.

Example C34_nonvacuous :
  let st := pdo_all exE (s_of (new_session exE fs_empty)) (firstn 2 ex_calls) in
  s_root (fst st) = Some "/w" /\ dmem (reg (fst st) KSim) "TNG" = true /\ dmem (reg (fst st) KSim) "UM" = false /\
  Forall unclear ["yes"; ""] /\ e_user exE "/v" <> "/w" /\
  dget (reg (fst (fst (register exE KSim "TNG" (Some "/v") true ["yes"; ""; "y"] st))) KSim) "TNG" = Some "/v".
Proof.
  cbv zeta. repeat split; try (vm_compute; reflexivity); try discriminate.
  repeat (apply Forall_cons; [split; discriminate|]). apply Forall_nil.
Qed.
