(** Property C76: the keyword arguments of eval_stat_evo. *)
From Verif Require Import Dict Util Rat HandlerModel HandlerSpec HandlerProps EvoModel EvoSpec Evo.
From Coq Require Import Permutation Sorted.
Open Scope string_scope. Open Scope list_scope.

(** C76: the statistic is called once per bin, on the properties of the rows in that bin
    and the caller's keywords, with the edges and the volume of that bin when asked for, in
    the units of the properties. [d] is the dictionary used when the caller gives none.
    Partial: a keyword zmin or zmax of the caller's own reaches the first bin only. *)
Theorem C76_bins_partial {V} vol (c : ecall V) s d s1 d1 es out : evo_call vol c s d = (s1, d1, Ok (es, out)) ->
  Permutation (e_bins c) es /\ StronglySorted Qcle es /\ length out = length es - 1 /\
  forall b v, nth_error out b = Some v ->
    exists lo hi act args, nth_error es b = Some lo /\ nth_error es (S b) = Some hi /\
      ascending act /\ (forall i, In i act <-> bin_row s es b i) /\ e_stat c args = Ok v /\
      (forall k, smem k (e_kwargs c) = true ->
         arg_spec (with_act (fst s) act (length act), snd s) (e_kwargs c) (e_remap c) false (c_units c s) [] k (dget args k)) /\
      (forall k, smem k (e_kwargs c) = false -> b = 0 \/ dget (given c d) k = None \/ (k <> "zmin" /\ k <> "zmax") ->
         wanted vol c (c_units c s) (given c d) lo hi k (dget args k)).
Proof. exact (c76_bins vol c s d s1 d1 es out). Qed.
Print Assumptions C76_bins_partial.

(** Without the volume keyword the handler and the result are those of C47. *)
Theorem C76_same {V} vol bins (stat : dict pyval -> exc V) kwargs remap kws zl zh inh s :
  let r := evo_with vol bins stat kwargs remap kws zl zh false inh s in
  (fst (fst r), snd r) = eval_stat_evo bins stat kwargs remap kws zl zh inh s.
Proof. exact (evo_with_evo vol bins stat kwargs remap kws zl zh inh s). Qed.
Print Assumptions C76_same.

(** As long as no call has failed and no call without a dictionary of its own has used the
    volume keyword, calls do not affect each other: each returns what it would if it were
    the first. *)
Theorem C76_independent_partial {V} (cs : list ((Qc -> Qc -> bool -> exc Qc) * ecall V * st)) :
  (forall vol c s, In (vol, c, s) cs -> e_kws c = None -> e_vol c = false) ->
  (forall r, In r (snd (evo_calls cs [])) -> exists x, r = Ok x) ->
  fst (evo_calls cs []) = [] /\
  forall i vol c s, nth_error cs i = Some (vol, c, s) -> nth_error (snd (evo_calls cs [])) i = Some (snd (evo_call vol c s [])).
Proof. exact (c76_clean cs). Qed.
Print Assumptions C76_independent_partial.

(** A dictionary given by the caller: afterwards it holds what it held, except that zmin
    and zmax are gone and, with the volume keyword, a volume has been added. *)
Theorem C76_dict_partial {V} vol bins (stat : dict pyval -> exc V) kwargs remap kws zl zh vk inh s s1 k1 r :
  evo_with vol bins stat kwargs remap kws zl zh vk inh s = (s1, k1, Ok r) ->
  (length bins < 2 -> k1 = kws) /\
  (2 <= length bins ->
    dget k1 "zmin" = None /\ dget k1 "zmax" = None /\
    (forall k, k <> "zmin" -> k <> "zmax" -> k <> "volume" \/ vk = false -> dget k1 k = dget kws k) /\
    (vk = true -> exists w, dget k1 "volume" = Some (VNum w))).
Proof. exact (c76_dict vol bins stat kwargs remap kws zl zh vk inh s s1 k1 r). Qed.
Print Assumptions C76_dict_partial.

(** FALSE that calls do not affect each other: after any successful call with the volume
    keyword and no dictionary of its own, a volume stays in the default dictionary, and
    every later call without a dictionary, on whichever light cone, fails if its
    statistic does not take a volume. *)
Theorem C76_leak_refuted {V} vol vol' (c c' : ecall V) s s' d s1 d1 r : e_kws c = None -> e_vol c = true -> 2 <= length (e_bins c) ->
  evo_call vol c s d = (s1, d1, Ok r) ->
  (exists w, dget d1 "volume" = Some (VNum w)) /\
  (e_kws c' = None -> e_vol c' = false -> 2 <= length (e_bins c') -> smem "volume" (e_kwargs c') = false -> rejects (e_stat c') "volume" ->
   forall r', snd (evo_call vol' c' s' d1) <> Ok r').
Proof. exact (c76_leak vol vol' c c' s s' d s1 d1 r). Qed.
Print Assumptions C76_leak_refuted.

(** FALSE: a call whose statistic fails leaves the lowest edge as zmin in the default
    dictionary. *)
Theorem C76_fail_refuted {V} vol (c : ecall V) s d e col :
  e_kws c = None -> e_zmin c = true -> e_vol c = false -> e_kwargs c = [] -> 2 <= length (e_bins c) ->
  (forall args, e_stat c args = Raise e) -> return_property s "redshift" true None = Ok (Some col) ->
  exists s1 d1 lo, evo_call vol c s d = (s1, d1, Raise e) /\ In lo (e_bins c) /\ (forall x, In x (e_bins c) -> (lo <= x)%Qc) /\
    dget d1 "zmin" = Some (VNum lo).
Proof. exact (c76_fail vol c s d e col). Qed.
Print Assumptions C76_fail_refuted.

(** FALSE that the caller's keywords reach every bin: a zmin of the caller's own reaches
    the first bin only. *)
Theorem C76_own_refuted {V} vol (c : ecall V) s d s1 d1 es out : evo_call vol c s d = (s1, d1, Ok (es, out)) ->
  e_zmin c = false -> smem "zmin" (e_kwargs c) = false ->
  forall b v, nth_error out b = Some v -> exists args, e_stat c args = Ok v /\ dget args "zmin" = if (b =? 0)%nat then dget (given c d) "zmin" else None.
Proof. exact (c76_own vol c s d s1 d1 es out). Qed.
Print Assumptions C76_own_refuted.

(** Volumes are ten times the width of the bin; the first statistic multiplies the number
    of rows with it, the second takes no volume. *)
Definition ev_vol (a b : Qc) (_ : bool) : exc Qc := Ok (zq 10 * (b - a))%Qc.
Definition ev_dens (a : dict pyval) : exc Qc :=
  match dget a "redshift", dget a "volume" with Some (VCol c), Some (VNum w) => Ok (nq (length (c_val c)) * w)%Qc | _, _ => Raise TypeError end.
Definition ev_count (a : dict pyval) : exc Qc :=
  match dget a "redshift", dget a "volume" with Some (VCol c), None => Ok (nq (length (c_val c))) | _, _ => Raise TypeError end.
Definition ev_edges : list Qc := [zq 3; frac (-1) 2; frac 1 2].
Definition ev_c (stat : dict pyval -> exc Qc) (kws : option (dict pyval)) (vk : bool) : ecall Qc :=
  mkEcall ev_edges stat ["redshift"] [] kws true true vk None.
Example C76_nonvacuous :
  (exists s1 d1, evo_call ev_vol (ev_c ev_dens None true) ex_s [] = (s1, d1, Ok ([frac (-1) 2; frac 1 2; zq 3], [zq 10; zq 50])) /\
     dget d1 "volume" = Some (VNum (zq 25)) /\ snd (evo_call ev_vol (ev_c ev_count None false) ex_s d1) = Raise TypeError) /\
  rejects ev_count "volume" /\
  (exists r, snd (evo_call ev_vol (ev_c ev_count None false) ex_s []) = Ok r) /\
  snd (evo_calls [(ev_vol, ev_c ev_count None false, ex_s); (ev_vol, ev_c ev_dens (Some []) true, ex_s); (ev_vol, ev_c ev_count None false, ex_s)] [])
   = [Ok ([frac (-1) 2; frac 1 2; zq 3], [zq 1; zq 2]); Ok ([frac (-1) 2; frac 1 2; zq 3], [zq 10; zq 50]); Ok ([frac (-1) 2; frac 1 2; zq 3], [zq 1; zq 2])].
Proof.
  split; [|split; [|split]].
  - eexists. eexists. split; [vm_compute; reflexivity|]. split; [cbn [dget String.eqb Ascii.eqb Bool.eqb]; do 2 f_equal; apply Qc_is_canon; vm_compute; reflexivity|vm_compute; reflexivity].
  - intros a v H. unfold ev_count. rewrite H. destruct (dget a "redshift") as [[]|]; reflexivity.
  - eexists. vm_compute. reflexivity.
  - vm_compute. reflexivity.
Qed.
