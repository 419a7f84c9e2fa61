(** Property theorems about handlers: C26-C32, C47, C55. *)
From Verif Require Import Dict Util Rat HandlerModel HandlerSpec Handler Handler2 Handler3 Handler4.
From Coq Require Import Sorted Permutation.
Open Scope string_scope.
Open Scope list_scope.
Open Scope nat_scope.

(** * Examples *)
Definition ex_col (l : list Z) : col := mkCol false (map (fun z => Some (zq z)) l).
Definition ex_icol (l : list Z) : col := mkCol true (map (fun z => Some (zq z)) l).
Definition ex_ds (c : col) (u : string) (e : Z) : dset_ := mkDS (SCol c) (Some (UStr u)) (Some e) false.
Definition ex_file : gfile := mkFile (frac 7 10)
  [("mass", ex_ds (ex_col [5; 3; 8]%Z) "Msun" (-1)%Z); ("redshift", ex_ds (ex_col [0; 1; 2]%Z) "None" 0%Z);
   ("id", ex_ds (ex_icol [10; 11; 12]%Z) "None" 0%Z); ("mass_cuts", mkDS (SRec [(zq 1, 0)]) None None false)].
Definition ex_open : handler :=
  match open_handler ex_file None [("cosmo", VObj 1)] true with Ok h => h | Raise _ => mkH 0%Qc [] [] [] [] 0 [] [] [] [] 0 true None end.
Definition ex_s : st := (ex_open, ex_file).
(** doubles a column *)
Definition ex_double (a : dict pyval) : exc (list col) :=
  match dget a "x" with Some (VCol c) => Ok [mkCol false (map (option_map (fun v => (v + v)%Qc)) (c_val c))] | _ => Raise TypeError end.
Definition ex_prop : prop := mkProp ["y"] ["x"] false false [("y", UStr "Msun")] (Some [("y", (-1)%Z)]) ex_double.
Definition ex_args (all write ow : bool) : mkargs := mkMA None [("x", "mass")] [] ow all write ow None false.

Lemma ex_good : good_file 3 ex_file.
Proof.
  split; [eexists; reflexivity|]. split.
  - intros d [= <-]. eexists; reflexivity.
  - intros k d. cbn [ex_file f_grp dget].
    destruct (String.eqb k "mass"); [intros [= <-] _; split; [eexists; split; reflexivity|split; eexists; reflexivity]|].
    destruct (String.eqb k "redshift"); [intros [= <-] _; split; [eexists; split; reflexivity|split; eexists; reflexivity]|].
    destruct (String.eqb k "id"); [intros [= <-] _; split; [eexists; split; reflexivity|split; eexists; reflexivity]|].
    destruct (String.eqb_spec k "mass_cuts"); [tauto|discriminate].
Qed.
Lemma ex_opened : open_handler ex_file None [("cosmo", VObj 1)] true = Ok ex_open.
Proof. reflexivity. Qed.
Lemma ex_calls_ok : Forall call_ok
  [HLoad ["mass"]; HRange (Some "redshift") (Fin (zq 1)) PInf true None; HMake ex_prop (ex_args false false false); HUnload ["mass"]].
Proof. repeat constructor; simpl; try congruence; intros ?; intuition congruence. Qed.
Definition ex_hist : list hcall :=
  [HLoad ["mass"]; HRange (Some "redshift") (Fin (zq 1)) PInf true None; HMake ex_prop (ex_args false false false); HUnload ["mass"]].
Lemma ex_reach cs : Forall call_ok cs -> reachable 3 (hdo_all 0%Qc ex_s cs).
Proof. intros H. exists ex_file, None, [("cosmo", VObj 1)], true, ex_open, 0%Qc, cs. auto using ex_good. Qed.
Lemma ex_reach0 : reachable 3 ex_s.
Proof. apply (ex_reach []). constructor. Qed.

(** * C26: loading and unloading never change what is returned *)
(** For any history of loads, unloads, selections and unit switches, removing all
    loads and unloads from the history gives the same values. *)
Theorem C26_transparent f box extra inh h nanint cs p ua i :
  open_handler f box extra inh = Ok h -> Forall (fun c => reading c = true) cs ->
  return_property (hdo_all nanint (h, f) cs) p ua i =
  return_property (hdo_all nanint (h, f) (filter (fun c => negb (moves_memory c)) cs)) p ua i.
Proof. exact (c26 f box extra inh h nanint cs p ua i). Qed.
Print Assumptions C26_transparent.
Example C26_nonvacuous :
  let cs := [HLoad ["mass"; "id"]; HRange (Some "mass") (Fin (zq 4)) PInf true None; HUnload ["mass"; "nothing"]; HSetH false] in
  Forall (fun c => reading c = true) cs /\
  exists c, return_property (hdo_all 0%Qc ex_s cs) "mass" false None = Ok (Some c) /\ length (c_val c) = 2 /\
    h_loaded (fst (hdo_all 0%Qc ex_s cs)) <> [].
Proof. split; [repeat constructor|]. eexists. split; [vm_compute; reflexivity|]. split; [reflexivity|discriminate]. Qed.

(** also in the presence of made and written properties: one load or unload does
    not change any value as long as the loaded columns of saved properties are
    those on disk *)
Theorem C26_one s ps p ua i : coherent s ->
  return_property (fst (load_property ps s)) p ua i = return_property s p ua i /\
  (Forall (fun q => In q (h_saved (fst s))) ps ->
   return_property (fst (unload_property ps s)) p ua i = return_property s p ua i).
Proof. exact (c26_one s ps p ua i). Qed.
Print Assumptions C26_one.

(** * C27: unit conversion *)
Theorem C27_convert s p ua c e :
  return_property s p ua (Some true) = Ok (Some c) -> dget (h_hdep (fst s)) p = Some e ->
  exists c', return_property s p ua (Some false) = Ok (Some c') /\
    c_val c' = map (option_map (fun v => (v * hpow (h_h (fst s)) e)%Qc)) (c_val c) /\
    (e = 0%Z -> c' = c).
Proof. exact (c27_convert s p ua c e). Qed.
Print Assumptions C27_convert.
Theorem C27_stored n s p ua c d c0 : reachable n s -> dmem (h_loaded (fst s)) p = false ->
  return_property s p ua (Some true) = Ok (Some c) ->
  dget (f_grp (snd s)) p = Some d -> s_data d = SCol c0 ->
  c_int c = c_int c0 /\ c_val c = map (fun i => nth i (c_val c0) None) (if ua then seq 0 n else h_act (fst s)).
Proof. exact (c27_stored n s p ua c d c0). Qed.
Print Assumptions C27_stored.
Theorem C27_default s p ua : return_property s p ua None = return_property s p ua (Some (h_inh (fst s))).
Proof. exact (c27_default s p ua). Qed.
Print Assumptions C27_default.
(** a function whose results are free of h: asking for h-free units gives them back *)
Theorem C27_function n nanint p a s s' :
  reachable n s -> h_h (fst s) <> 0%Qc ->
  make_property nanint p a s = (s', Ok tt) -> m_write a = false -> NoDup (new_names p a) -> p_ret_h p = false ->
  exists args vals, p_fun p args = Ok vals /\
    forall j name v k i, nth_error (new_names p a) j = Some name -> nth_error vals j = Some v ->
      nth_error (if m_all a then seq 0 n else h_act (fst s)) k = Some i ->
      exists c, return_property s' name true (Some false) = Ok (Some c) /\ nth_error (c_val c) i = val_at v k.
Proof. exact (c27_function n nanint p a s s'). Qed.
Print Assumptions C27_function.
Example C27_nonvacuous :
  (exists c, return_property ex_s "mass" true (Some true) = Ok (Some c) /\ dget (h_hdep (fst ex_s)) "mass" = Some (-1)%Z) /\
  (exists s', make_property 0%Qc ex_prop (ex_args true false false) ex_s = (s', Ok tt)) /\
  reachable 3 ex_s /\ h_h (fst ex_s) <> 0%Qc /\ NoDup (new_names ex_prop (ex_args true false false)) /\ p_ret_h ex_prop = false /\
  dmem (h_loaded (fst ex_s)) "mass" = false.
Proof.
  split; [eexists; split; reflexivity|]. split; [eexists; vm_compute; reflexivity|].
  split; [exact ex_reach0|]. split; [discriminate|]. split; [repeat constructor; simpl; tauto|split; reflexivity].
Qed.

(** * C28: selections *)
Theorem C28_selection n f box extra inh h nanint cs :
  good_file n f -> open_handler f box extra inh = Ok h -> Forall call_ok cs ->
  let s := hdo_all nanint (h, f) cs in
  ascending (h_act (fst s)) /\ h_nact (fst s) = length (h_act (fst s)) /\
  forall i, In i (h_act (fst s)) <-> selected nanint (h, f) cs (fun i => i < n) i.
Proof. exact (c28 n f box extra inh h nanint cs). Qed.
Print Assumptions C28_selection.
Theorem C28_rows n s p inh c : reachable n s ->
  return_property s p true inh = Ok (Some c) ->
  exists c', return_property s p false inh = Ok (Some c') /\ c_int c' = c_int c /\
    c_val c' = map (fun i => nth i (c_val c) None) (h_act (fst s)).
Proof. exact (c28_rows n s p inh c). Qed.
Print Assumptions C28_rows.
Example C28_nonvacuous :
  let cs := [HRange (Some "redshift") (Fin (zq 1)) PInf true None; HRange (Some "mass") (Fin (zq 3)) (Fin (zq 5)) false None] in
  Forall call_ok cs /\ h_act (fst (hdo_all 0%Qc ex_s cs)) = [1] /\
  exists c, return_property (hdo_all 0%Qc ex_s cs) "mass" true None = Ok (Some c).
Proof. split; [repeat constructor|]. split; [reflexivity|eexists; vm_compute; reflexivity]. Qed.

(** * C29: make_property *)
Theorem C29_make n nanint p a s s' :
  reachable n s -> h_h (fst s) <> 0%Qc ->
  make_property nanint p a s = (s', Ok tt) -> m_write a = false -> NoDup (new_names p a) ->
  let inds := if m_all a then seq 0 n else h_act (fst s) in
  exists args vals, p_fun p args = Ok vals /\ length vals = length (new_names p a) /\
    (forall k, arg_spec s (p_kwargs p) (m_remap a) (m_all a) (p_give_h p) (m_kws a) k (dget args k)) /\
    (forall j name v, nth_error (new_names p a) j = Some name -> nth_error vals j = Some v ->
       exists c, return_property s' name true (Some (p_ret_h p)) = Ok (Some c) /\
         (forall k i, nth_error inds k = Some i -> nth_error (c_val c) i = val_at v k) /\
         (forall i, i < n -> ~ In i inds -> nth_error (c_val c) i = Some None)) /\
    (forall q ua inh, ~ In q (new_names p a) -> return_property s' q ua inh = return_property s q ua inh) /\
    h_act (fst s') = h_act (fst s) /\ snd s' = snd s.
Proof. exact (c29 n nanint p a s s'). Qed.
Print Assumptions C29_make.
(** with write=True the call is the same call without writing, followed by
    write_property (and by unload_property when asked for) *)
Theorem C29_write nanint p a s s' :
  make_property nanint p a s = (s', Ok tt) -> m_write a = true ->
  exists s1 s2,
    make_property nanint p (mkMA (m_rename a) (m_remap a) (m_kws a) (m_ow a) (m_all a) false (m_owdisk a) (m_dtype a) (m_unload a)) s = (s1, Ok tt) /\
    write_property nanint (new_names p a) (m_owdisk a) (m_dtype a) s1 = (s2, Ok tt) /\
    (if m_unload a then unload_property (new_names p a) s2 = (s', Ok tt) else s' = s2).
Proof. exact (make_write nanint p a s s'). Qed.
Print Assumptions C29_write.
(** functions that return integers cannot be used at all *)
Theorem C29_integer_refuted nanint p a s vals c hd :
  evaluate_all p s (m_all a) (m_remap a) (m_kws a) = Ok (c :: vals) -> c_int c = true ->
  p_hdep p = Some hd -> length (new_names p a) = length (p_names p) -> p_names p <> [] ->
  exists s', make_property nanint p a s = (s', Raise ValueError).
Proof. exact (c29_int nanint p a s vals c hd). Qed.
Print Assumptions C29_integer_refuted.
Definition ex_iprop : prop := mkProp ["y"] ["x"] false false [("y", UStr "None")] (Some [("y", 0%Z)])
  (fun a => match dget a "x" with Some (VCol c) => Ok [c] | _ => Raise TypeError end).
Example C29_nonvacuous :
  let s := fst (hdo 0%Qc ex_s (HRange (Some "redshift") (Fin (zq 1)) PInf true None)) in
  (exists s', make_property 0%Qc ex_prop (ex_args false false false) s = (s', Ok tt) /\ h_act (fst s) = [1; 2] /\
     return_property s' "y" true (Some false) = Ok (Some (mkCol false [None; Some (frac 60 7); Some (frac 160 7)]))) /\
  reachable 3 s /\
  (exists c, evaluate_all ex_iprop s true [("x", "id")] [] = Ok [c] /\ c_int c = true) /\
  (exists s', make_property 0%Qc ex_prop (ex_args true true false) s = (s', Ok tt)).
Proof.
  cbv zeta. split; [eexists; split; [vm_compute; reflexivity|split; vm_compute; reflexivity]|].
  split; [apply (ex_reach [HRange (Some "redshift") (Fin (zq 1)) PInf true None]); repeat constructor|].
  split; eexists; [split; vm_compute; reflexivity|vm_compute; reflexivity].
Qed.

(** * C30: what is on disk *)
(** a successful write puts the values, the units and the h-dependence on disk,
    and a handler opened later returns the same values *)
Theorem C30_write_partial n nanint ow ps s s' p c box extra inh h' b :
  reachable n s -> write_property nanint ps ow None s = (s', Ok tt) -> In p ps ->
  has_property (fst s) p = true ->
  dget (h_loaded (fst s)) p = Some c -> same_dtype (dget (f_grp (snd s)) p) c ->
  open_handler (snd s') box extra inh = Ok h' ->
  return_property (h', snd s') p true (Some b) = return_property s' p true (Some b) /\
  dget (h_units h') p = dget (h_units (fst s')) p /\ dget (h_hdep h') p = dget (h_hdep (fst s')) p.
Proof. exact (c30_reopen n nanint ow ps s s' p c box extra inh h' b). Qed.
Print Assumptions C30_write_partial.
Theorem C30_other nanint ow dt ps s s' : write_property nanint ps ow dt s = (s', Ok tt) ->
  (exists sv, fst s' = with_saved (fst s) sv) /\ f_h (snd s') = f_h (snd s) /\
  forall q, ~ In q ps -> dget (f_grp (snd s')) q = dget (f_grp (snd s)) q.
Proof. exact (write_frame nanint ow dt ps s s'). Qed.
Print Assumptions C30_other.
Theorem C30_delete ps s s' : delete_property ps s = (s', Ok tt) ->
  f_h (snd s') = f_h (snd s) /\
  (forall q, dget (f_grp (snd s')) q = if smem q ps then None else dget (f_grp (snd s)) q) /\
  (forall q, has_property (fst s') q = has_property (fst s) q && negb (smem q ps)).
Proof. exact (c30_delete ps s s'). Qed.
Print Assumptions C30_delete.
(** a failure leaves file and handler as after the names completed before it,
    unless it is the KeyError of C30_corrupt_refuted *)
Theorem C30_failure_partial nanint ow dt ps s s' e :
  write_property nanint ps ow dt s = (s', Raise e) -> e <> KeyError ->
  exists ps1 p ps2, ps = ps1 ++ p :: ps2 /\ write_property nanint ps1 ow dt s = (s', Ok tt).
Proof. exact (c30_atomic nanint ow dt ps s s' e). Qed.
Print Assumptions C30_failure_partial.
Theorem C30_failed_delete ps s s' e :
  delete_property ps s = (s', Raise e) ->
  exists ps1 p ps2, ps = ps1 ++ p :: ps2 /\ delete_property ps1 s = (s', Ok tt).
Proof. exact (c30_atomic_delete ps s s' e). Qed.
Print Assumptions C30_failed_delete.
(** a partial selection is never written (with one halo the selection must not be empty) *)
Theorem C30_guard_partial n nanint p a s : reachable n s -> m_write a = true -> m_all a = false ->
  n <> 1 \/ h_act (fst s) <> [] -> h_act (fst s) <> seq 0 n ->
  make_property nanint p a s = (s, Raise ValueError).
Proof. exact (c30_guard n nanint p a s). Qed.
Print Assumptions C30_guard_partial.
(** histories without KeyError that keep 'mass' leave a file that can be opened *)
Theorem C30_openable_partial n f box extra inh h nanint cs box' extra' inh' :
  good_file n f -> open_handler f box extra inh = Ok h -> Forall call_ok cs ->
  Forall keeps_mass cs -> no_key_error nanint (h, f) cs ->
  exists h', open_handler (snd (hdo_all nanint (h, f) cs)) box' extra' inh' = Ok h'.
Proof. exact (c30_openable n f box extra inh h nanint cs box' extra' inh'). Qed.
Print Assumptions C30_openable_partial.

(** load, delete, write back: KeyError, and the file cannot be opened any more *)
Theorem C30_corrupt_refuted :
  let cs := [HLoad ["id"]; HDelete ["id"]; HWrite ["id"] false None] in
  Forall call_ok cs /\
  snd (hdo 0%Qc (hdo_all 0%Qc ex_s [HLoad ["id"]; HDelete ["id"]]) (HWrite ["id"] false None)) = Raise KeyError /\
  forall box extra inh, open_handler (snd (hdo_all 0%Qc ex_s cs)) box extra inh = Raise KeyError.
Proof.
  split; [repeat constructor; simpl; discriminate|]. split; [vm_compute; reflexivity|].
  intros box extra inh. reflexivity.
Qed.
Print Assumptions C30_corrupt_refuted.
(** the file cannot be opened after deleting 'mass', which is allowed *)
Theorem C30_mass_refuted :
  snd (hdo 0%Qc ex_s (HDelete ["mass"])) = Ok tt /\
  forall box extra inh, open_handler (snd (hdo_all 0%Qc ex_s [HDelete ["mass"]])) box extra inh = Raise KeyError.
Proof. split; [reflexivity|]. intros; reflexivity. Qed.
Print Assumptions C30_mass_refuted.
(** overwriting an integer property with fractional values: the write succeeds, but
    the values on disk are truncated *)
Theorem C30_truncate_refuted :
  let a := mkMA (Some ["id"]) [("x", "mass")] [] true true true true None true in
  let p := mkProp ["y"] ["x"] true true [("y", UStr "None")] (Some [("y", 0%Z)])
             (fun a => match dget a "x" with Some (VCol c) => Ok [mkCol false (map (option_map (fun v => (v / zq 2)%Qc)) (c_val c))] | _ => Raise TypeError end) in
  let s := fst (hdo 0%Qc ex_s (HMake p a)) in
  snd (hdo 0%Qc ex_s (HMake p a)) = Ok tt /\
  return_property s "id" true (Some true) = Ok (Some (ex_icol [2; 1; 4]%Z)).
Proof. split; vm_compute; reflexivity. Qed.
Print Assumptions C30_truncate_refuted.
(** one halo and an empty selection: NaN is written although nothing was computed *)
Definition ex_file1 : gfile := mkFile (frac 7 10) [("mass", ex_ds (ex_col [5]%Z) "Msun" (-1)%Z)].
Theorem C30_guard_refuted : exists h,
  open_handler ex_file1 None [] true = Ok h /\
  let s := fst (hdo 0%Qc (h, ex_file1) (HRange (Some "mass") (Fin (zq 6)) PInf true None)) in
  let r := make_property 0%Qc ex_prop (ex_args false true false) s in
  h_act (fst s) = [] /\ snd r = Ok tt /\
  exists d, dget (f_grp (snd (fst r))) "y" = Some d /\ s_data d = SCol (mkCol false [None]).
Proof.
  eexists. split; [reflexivity|]. cbv zeta. split; [reflexivity|]. split; [vm_compute; reflexivity|].
  eexists. split; vm_compute; reflexivity.
Qed.
Print Assumptions C30_guard_refuted.
Example C30_nonvacuous :
  let s := fst (hdo 0%Qc ex_s (HMake ex_prop (ex_args true false false))) in
  let r := write_property 0%Qc ["y"] false None s in
  snd r = Ok tt /\ has_property (fst s) "y" = true /\
  (exists c, dget (h_loaded (fst s)) "y" = Some c /\ same_dtype (dget (f_grp (snd s)) "y") c) /\
  (exists h', open_handler (snd (fst r)) None [] true = Ok h') /\
  reachable 3 s /\
  snd (delete_property ["y"; "id"] (fst r)) = Ok tt /\ snd (delete_property ["y"; "zzz"] (fst r)) = Raise ValueError /\
  snd (write_property 0%Qc ["y"; "zzz"] false None s) = Raise ValueError /\
  (let cs := [HMake ex_prop (ex_args true true false); HDelete ["id"]] in Forall call_ok cs /\ Forall keeps_mass cs /\ no_key_error 0%Qc ex_s cs) /\
  (let t := hdo_all 0%Qc ex_s [HRange (Some "redshift") (Fin (zq 1)) PInf true None] in reachable 3 t /\ h_act (fst t) <> seq 0 3).
Proof.
  cbv zeta. split; [vm_compute; reflexivity|]. split; [vm_compute; reflexivity|].
  split; [eexists; split; [vm_compute; reflexivity|exact I]|]. split; [eexists; vm_compute; reflexivity|].
  split. { apply (ex_reach [HMake ex_prop (ex_args true false false)]). repeat constructor; simpl; try discriminate; intuition discriminate. }
  split; [vm_compute; reflexivity|]. split; [vm_compute; reflexivity|]. split; [vm_compute; reflexivity|].
  split. { split; [repeat constructor; simpl; try discriminate; intuition discriminate|].
    split; [repeat constructor; simpl; intuition discriminate|]. cbn [no_key_error]. repeat split; vm_compute; discriminate. }
  split; [apply ex_reach; repeat constructor|vm_compute; discriminate].
Qed.

(** * C31: availability *)
Theorem C31_available_partial n s p ua inh : reachable n s ->
  (has_property (fst s) p = false -> return_property s p ua inh = Raise ValueError) /\
  (has_property (fst s) p = true ->
     (has_loaded (fst s) p = true \/ In p (h_saved (fst s)) <->
      exists c, return_property s p ua inh = Ok (Some c)) /\
     (has_loaded (fst s) p = false /\ ~ In p (h_saved (fst s)) <-> return_property s p ua inh = Ok None)).
Proof. exact (c31 n s p ua inh). Qed.
Print Assumptions C31_available_partial.
(** the full statement for histories that unload only properties on disk *)
Theorem C31_saved_partial n f box extra inh0 h nanint cs p ua inh :
  good_file n f -> open_handler f box extra inh0 = Ok h -> Forall call_ok cs ->
  unloads_saved nanint (h, f) cs ->
  has_property (fst (hdo_all nanint (h, f) cs)) p = true <->
  exists c, return_property (hdo_all nanint (h, f) cs) p ua inh = Ok (Some c).
Proof. exact (c31_saved n f box extra inh0 h nanint cs p ua inh). Qed.
Print Assumptions C31_saved_partial.
(** make, then unload: the property is reported but its values are None *)
Theorem C31_unload_refuted :
  let s := hdo_all 0%Qc ex_s [HMake ex_prop (ex_args true false false); HUnload ["y"]] in
  has_property (fst s) "y" = true /\ return_property s "y" true None = Ok None.
Proof. split; vm_compute; reflexivity. Qed.
Print Assumptions C31_unload_refuted.
Example C31_nonvacuous :
  let cs := [HMake ex_prop (ex_args true true false); HUnload ["y"; "mass"]; HDelete ["id"]] in
  Forall call_ok cs /\ unloads_saved 0%Qc ex_s cs /\
  has_property (fst (hdo_all 0%Qc ex_s cs)) "y" = true /\ has_property (fst (hdo_all 0%Qc ex_s cs)) "id" = false.
Proof.
  cbv zeta. split; [repeat constructor; simpl; try discriminate; intuition discriminate|].
  split; [|split; vm_compute; reflexivity]. cbn [unloads_saved]. repeat split.
  intros p [<-|[<-|[]]] _; vm_compute; auto.
Qed.

(** * C32: eval_stat *)
(** the statistic is called once, on the active rows (or all rows) of the named
    properties; eval_stat returns its value and changes nothing (it has no state
    to return) *)
Theorem C32_eval {V} s (stat : dict pyval -> exc V) kwargs remap kws ua inh v :
  eval_stat s stat kwargs remap kws ua inh = Ok v ->
  exists args, stat args = Ok v /\
    forall k, arg_spec s kwargs remap ua (match inh with Some b => b | None => h_inh (fst s) end) kws k (dget args k).
Proof. exact (c32 s stat kwargs remap kws ua inh v). Qed.
Print Assumptions C32_eval.
(** eval_stat_evo, when it succeeds, restores the active rows; the only attribute it
    may change is the number of active rows *)
Theorem C32_evo_partial {V} bins (stat : dict pyval -> exc V) kwargs remap kws zl zh inh s s1 r :
  eval_stat_evo bins stat kwargs remap kws zl zh inh s = (s1, Ok r) ->
  exists m, s1 = (with_act (fst s) (h_act (fst s)) m, snd s).
Proof. exact (c32_evo bins stat kwargs remap kws zl zh inh s s1 r). Qed.
Print Assumptions C32_evo_partial.
Definition ex_count (a : dict pyval) : exc nat :=
  match dget a "redshift" with Some (VCol c) => Ok (length (c_val c)) | _ => Raise TypeError end.
(** the number of active rows is left at that of the last bin *)
Theorem C32_count_refuted :
  let r := eval_stat_evo [zq 0; frac 1 2] ex_count ["redshift"] [] [] false false None ex_s in
  snd r = Ok ([zq 0; frac 1 2], [1]) /\ h_act (fst (fst r)) = [0; 1; 2] /\ h_nact (fst (fst r)) = 1.
Proof. split; [|split]; vm_compute; reflexivity. Qed.
Print Assumptions C32_count_refuted.
(** a statistic that raises leaves the selection of the bin *)
Theorem C32_raise_refuted :
  let r := eval_stat_evo (V:=nat) [zq 0; frac 1 2] (fun _ => Raise ValueError) ["redshift"] [] [] false false None ex_s in
  snd r = Raise ValueError /\ h_act (fst (fst r)) = [0].
Proof. split; vm_compute; reflexivity. Qed.
Print Assumptions C32_raise_refuted.
Example C32_nonvacuous :
  let s := fst (hdo 0%Qc ex_s (HRange (Some "mass") (Fin (zq 4)) PInf true None)) in
  eval_stat s (fun a => match dget a "q" with Some (VCol c) => Ok (c_val c) | _ => Raise TypeError end) ["q"] [("q", "mass")] [] false (Some true)
    = Ok [Some (zq 5); Some (zq 8)].
Proof. vm_compute; reflexivity. Qed.

(** * C47: redshift bins *)
(** each value is the statistic of exactly the rows between consecutive edges,
    both edges included *)
Theorem C47_bins_partial {V} bins (stat : dict pyval -> exc V) kwargs remap kws zl zh inh s s1 es out :
  eval_stat_evo bins stat kwargs remap kws zl zh inh s = (s1, Ok (es, out)) ->
  Permutation bins es /\ StronglySorted Qcle es /\ length out = length es - 1 /\
  (h_act (fst s1) = h_act (fst s) /\ exists m, s1 = (with_act (fst s) (h_act (fst s)) m, snd s)) /\
  forall b v, nth_error out b = Some v ->
    exists lo hi act k' args, nth_error es b = Some lo /\ nth_error es (S b) = Some hi /\
      ascending act /\ (forall i, In i act <-> bin_row s es b i) /\
      bin_kws kws zl zh lo hi k' /\ stat args = Ok v /\
      forall k, arg_spec (with_act (fst s) act (length act), snd s) kwargs remap false
                  (match inh with Some b => b | None => h_inh (fst s) end) k' k (dget args k).
Proof. exact (c47 bins stat kwargs remap kws zl zh inh s s1 es out). Qed.
Print Assumptions C47_bins_partial.
(** a row in the covered range that is not on an interior edge is in exactly one bin *)
Theorem C47_unique_partial s es i z lo hi :
  StronglySorted Qcle es -> redshift_is s i z ->
  nth_error es 0 = Some lo -> nth_error es (length es - 1) = Some hi -> (lo <= z)%Qc -> (z <= hi)%Qc -> 2 <= length es ->
  (forall k e, 1 <= k -> k < length es - 1 -> nth_error es k = Some e -> e <> z) ->
  exists b, bin_row s es b i /\ forall b', bin_row s es b' i -> b' = b.
Proof. exact (c47_unique s es i z lo hi). Qed.
Print Assumptions C47_unique_partial.
(** a row on an interior edge is in two bins *)
Theorem C47_edge_refuted s es i z b lo hi :
  redshift_is s i z -> nth_error es b = Some lo -> nth_error es (S b) = Some z -> nth_error es (S (S b)) = Some hi ->
  (lo <= z)%Qc -> (z <= hi)%Qc -> bin_row s es b i /\ bin_row s es (S b) i.
Proof. exact (c47_double s es i z b lo hi). Qed.
Print Assumptions C47_edge_refuted.
Theorem C47_count_refuted :
  snd (eval_stat_evo [zq 2; zq 0; zq 1] ex_count ["redshift"] [] [] false false None ex_s)
  = Ok ([zq 0; zq 1; zq 2], [2; 2]).
Proof. vm_compute; reflexivity. Qed.
Print Assumptions C47_count_refuted.
Example C47_nonvacuous :
  (exists s1, eval_stat_evo [zq 3; frac (-1) 2; frac 1 2] ex_count ["redshift"] [] [] true true None ex_s = (s1, Ok ([frac (-1) 2; frac 1 2; zq 3], [1; 2]))) /\
  redshift_is ex_s 1 (zq 1) /\ StronglySorted Qcle [frac (-1) 2; frac 1 2; zq 3].
Proof.
  split; [eexists; vm_compute; reflexivity|]. split; [eexists; split; vm_compute; reflexivity|].
  repeat constructor; vm_compute; discriminate.
Qed.

(** * C55: units and h-dependence of multi-properties *)
Theorem C55_units_partial names fn kwargs gh rh units e : NoDup names -> length units = length names ->
  exists p hd, new_multiprop names fn kwargs gh rh units [e] = Ok p /\ p_names p = names /\ p_hdep p = Some hd /\
    forall j name u, nth_error names j = Some name -> nth_error units j = Some u ->
      dget (p_units p) name = Some (UStr u) /\ dget hd name = Some e.
Proof. exact (c55 names fn kwargs gh rh units e). Qed.
Print Assumptions C55_units_partial.
Theorem C55_single_partial names fn kwargs gh rh u e : NoDup names ->
  exists p hd, new_multiprop names fn kwargs gh rh [u] [e] = Ok p /\ p_names p = names /\ p_hdep p = Some hd /\
    forall name, In name names -> dget (p_units p) name = Some (UStr u) /\ dget hd name = Some e.
Proof. exact (c55_single names fn kwargs gh rh u e). Qed.
Print Assumptions C55_single_partial.
(** one h-dependence per property (two or more properties): the units are replaced by
    the h-dependences, and make_property can never succeed *)
Theorem C55_hdep_refuted names fn kwargs gh rh units hdep p name j e :
  new_multiprop names fn kwargs gh rh units hdep = Ok p -> NoDup names -> 2 <= length names ->
  length hdep = length names -> nth_error names j = Some name -> nth_error hdep j = Some e ->
  dget (p_units p) name = Some (UNum e).
Proof. exact (c55_units names fn kwargs gh rh units hdep p name j e). Qed.
Print Assumptions C55_hdep_refuted.
Theorem C55_make_refuted names fn kwargs gh rh units hdep p nanint a s s' :
  new_multiprop names fn kwargs gh rh units hdep = Ok p -> 2 <= length names -> length hdep = length names ->
  make_property nanint p a s <> (s', Ok tt).
Proof. exact (c55_never names fn kwargs gh rh units hdep p nanint a s s'). Qed.
Print Assumptions C55_make_refuted.
Example C55_nonvacuous :
  (exists p, new_multiprop ["a"; "b"] (fun _ => Ok [ex_col [1; 2; 3]%Z; ex_col [4; 5; 6]%Z]) [] false true ["m"; "s"] [0%Z; (-1)%Z] = Ok p /\
     snd (make_property 0%Qc p (mkMA None [] [] false true false false None false) ex_s) = Raise AttributeError) /\
  NoDup ["a"; "b"].
Proof.
  split; [eexists; split; vm_compute; reflexivity|]. repeat constructor; simpl; intuition discriminate.
Qed.
