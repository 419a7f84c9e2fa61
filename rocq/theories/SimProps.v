(** Property theorems about SimHandler: C65-C72. *)
From Verif Require Import Dict Util Rat HandlerModel HandlerSpec Handler Handler2 Handler3 Handler4 SimModel SimSpec Sim Sim2 Sim3 Sim4.
From Coq Require Import Sorted.
Open Scope string_scope.
Open Scope list_scope.
Open Scope nat_scope.

(** * Examples *)
Definition sx_col (l : list Z) : col := mkCol false (map (fun z => Some (zq z)) l).
Definition sx_ds (c : col) (e : Z) (user : bool) : dset_ := mkDS (SCol c) (Some (UStr "u")) (Some e) user.
(** snapshots number 1 (three halos) and 0 (two halos); property z only in snapshot 1 *)
Definition sx_file : simfile := mkSF (frac 1 2) (zq 100) [(1%Z, zq 3); (0%Z, zq 7)]
  [(1%Z, [("mass", sx_ds (sx_col [5; 3; 8]%Z) (-1)%Z false); ("vel", sx_ds (sx_col [1; 2; 3]%Z) 0%Z false);
          ("z", sx_ds (sx_col [1; 1; 1]%Z) 0%Z true)]);
   (0%Z, [("mass", sx_ds (sx_col [4; 6]%Z) (-1)%Z false); ("vel", sx_ds (sx_col [8; 9]%Z) 0%Z false)])].
Definition sx_n (i : Z) : nat := if (i =? 1)%Z then 3 else 2.
Definition sx_sim (inh : bool) : sim :=
  mkSim (frac 1 2) [(1%Z, zq 3); (0%Z, zq 7)] (zq 100) inh (edge_in (frac 1 2) (zq 100) inh) ["mass"; "vel"; "z"] false [].
Definition sx_open : sst := (sx_sim true, sx_file).
Definition sx_init : sst := fst (initialize_all_snaps false sx_open).
Definition sx_double (a : dict pyval) : exc (list col) :=
  match dget a "x" with Some (VCol c) => Ok [mkCol false (map (option_map (fun v => (v + v)%Qc)) (c_val c))] | _ => Raise TypeError end.
Definition sx_prop : prop := mkProp ["y"] ["x"] false false [("y", UStr "Msun")] (Some [("y", (-1)%Z)]) sx_double.
Definition sx_args (rename : option (list string)) (all write ow : bool) : simargs :=
  mkSA rename [("x", "mass")] [] ow all write None.

Lemma sx_good : good_sim sx_n sx_file.
Proof.
  split; [repeat constructor; simpl; intuition discriminate|]. split; [vm_compute; discriminate|].
  intros i z [[= <- <-]|[[= <- <-]|[]]]; eexists; (split; [reflexivity|]);
    (split; [eexists; reflexivity|]); (split; [intros d; vm_compute; discriminate|]);
    intros k d; cbn [f_grp dget];
    (destruct (String.eqb k "mass"); [intros [= <-] _; split; [eexists; split; reflexivity|split; eexists; reflexivity]|]);
    (destruct (String.eqb k "vel"); [intros [= <-] _; split; [eexists; split; reflexivity|split; eexists; reflexivity]|]);
    try (destruct (String.eqb k "z"); [intros [= <-] _; split; [eexists; split; reflexivity|split; eexists; reflexivity]|]);
    discriminate.
Qed.
Lemma sx_opens inh : open_sim sx_file false inh = Ok (sx_sim inh).
Proof. reflexivity. Qed.
Lemma sx_opened inh : opened (sx_sim inh, sx_file).
Proof. repeat split. Qed.
Lemma sx_reach cs : Forall scall_ok cs -> sim_reachable sx_n (sdo_all 0%Qc sx_init cs).
Proof.
  intros H. exists sx_file, true, (sx_sim true), sx_init, 0%Qc, cs. split; [exact sx_good|]. split; [reflexivity|].
  split; [|split; [exact H|reflexivity]].
  destruct (init_ok sx_n sx_file true (sx_sim true) sx_good (sx_opens true)) as (st0 & E & _).
  unfold sx_init, sx_open. rewrite E. reflexivity.
Qed.
Lemma sx_make_ok r all w ow : match r with Some l => ~ In "mass_cuts" l | None => True end -> scall_ok (SMake sx_prop (sx_args r all w ow)).
Proof. intros H. simpl. split; [discriminate|]. split; [intuition discriminate|]. intros l ->. exact H. Qed.

(** * C65: one handler for each snapshot *)
(** Initialising gives, for every snapshot, the handler of its own group in the units
    of the simulation. *)
Theorem C65_init_partial n f inh s : good_sim n f -> open_sim f false inh = Ok s ->
  exists st0, initialize_all_snaps false (s, f) = (st0, Ok tt) /\ sm_init (fst st0) = true /\ snd st0 = f /\
    sm_meta (fst st0) = sf_meta f /\
    forall i z, In (i, z) (sf_meta f) -> exists h g, get_snap st0 i = Ok h /\ group_of f i = Ok g /\ good_file (n i) g /\
      open_snap s f i z inh = Ok h.
Proof. exact (init_ok n f inh s). Qed.
Print Assumptions C65_init_partial.
(** After any history, what get_snap gives for a snapshot is a state of a single handler
    after some history of its own: C26-C32 hold for it. *)
Theorem C65_handlers n st i z : sim_reachable n st -> In (i, z) (sm_meta (fst st)) ->
  exists s, sees st i s /\ reachable (n i) s.
Proof. exact (c65_handlers n st i z). Qed.
Print Assumptions C65_handlers.
(** A call on the handler of one snapshot changes neither the handler nor the data of
    another. *)
Theorem C65_independent nanint st i c j : j <> i ->
  get_snap (fst (sdo nanint st (SSnap i c))) j = get_snap st j /\
  group_of (snd (fst (sdo nanint st (SSnap i c)))) j = group_of (snd st) j.
Proof. exact (c65_independent nanint st i c j). Qed.
Print Assumptions C65_independent.
(** The constructor's own option to initialise always fails. *)
Theorem C65_option_refuted n f inh s : good_sim n f -> open_sim f false inh = Ok s -> open_sim f true inh = Raise TypeError.
Proof.
  intros _. unfold open_sim. destruct (sf_meta f); [discriminate|]. destruct (sf_groups f) as [|[i g] r]; [discriminate|].
  destruct (mapM _ _); simpl; [|discriminate]. destruct (mapM _ _); simpl; [|discriminate]. reflexivity.
Qed.
Print Assumptions C65_option_refuted.
Example C65_nonvacuous :
  good_sim sx_n sx_file /\ open_sim sx_file false true = Ok (sx_sim true) /\
  (let cs := [SRange (Some "mass") (Fin (zq 5)) PInf true None; SMake sx_prop (sx_args None true true false);
              SSnap 1 (HDelete ["y"]); SSetH false] in
   sim_reachable sx_n (sdo_all 0%Qc sx_init cs) /\
   exists s t, sees (sdo_all 0%Qc sx_init cs) 1 s /\ sees (sdo_all 0%Qc sx_init cs) 0 t /\
     has_property (fst s) "y" = false /\ has_property (fst t) "y" = true /\ h_act (fst s) = [0; 2] /\ h_act (fst t) = [1]).
Proof.
  split; [exact sx_good|]. split; [reflexivity|]. cbv zeta. split.
  - apply sx_reach. repeat constructor; simpl; try discriminate; intuition discriminate.
  - eexists (_, _), (_, _). split; [split; vm_compute; reflexivity|]. split; [split; vm_compute; reflexivity|].
    repeat split; vm_compute; reflexivity.
Qed.

(** * C66: make_property over all snapshots *)
(** Written to disk by a simulation without stored handlers: every snapshot gets the
    values of the function on its own properties, and nothing else changes. *)
Theorem C66_disk_partial n nanint p a st st' :
  opened st -> good_sim n (snd st) -> scall_ok (SMake p a) -> NoDup (sim_names p a) ->
  sa_write a = true -> sa_dtype a = None ->
  (forall i z g q, In (i, z) (sf_meta (snd st)) -> group_of (snd st) i = Ok g -> In q (sim_names p a) -> float_or_absent g q) ->
  sim_make_property nanint p a st = (st', Ok tt) ->
  opened st' /\ good_sim n (snd st') /\ fst st' = fst st /\
  forall i z, In (i, z) (sf_meta (snd st)) -> exists s s', sees st i s /\ sees st' i s' /\
    (exists args vals, p_fun p args = Ok vals /\ length vals = length (sim_names p a) /\
      (forall key, arg_spec s (p_kwargs p) (sa_remap a) (sa_all a) (p_give_h p) (sa_kws a) key (dget args key)) /\
      (forall j name v, nth_error (sim_names p a) j = Some name -> nth_error vals j = Some v ->
         exists c, return_property s' name true (Some (p_ret_h p)) = Ok (Some c) /\
           forall k, k < n i -> nth_error (c_val c) k = val_at v k)) /\
    (forall q ua b, ~ In q (sim_names p a) -> return_property s' q ua b = return_property s q ua b).
Proof. exact (c66_make n nanint p a st st'). Qed.
Print Assumptions C66_disk_partial.
(** Kept in memory by a simulation with stored handlers, after any history. *)
Theorem C66_memory_partial n nanint p a st st' :
  sim_reachable n st -> NoDup (sim_names p a) -> sa_write a = false ->
  sim_make_property nanint p a st = (st', Ok tt) ->
  forall i z, In (i, z) (sm_meta (fst st)) -> exists s s', sees st i s /\ sees st' i s' /\ snd s' = snd s /\
    let inds := if sa_all a then seq 0 (n i) else h_act (fst s) in
    (exists args vals, p_fun p args = Ok vals /\ length vals = length (sim_names p a) /\
      (forall key, arg_spec s (p_kwargs p) (sa_remap a) (sa_all a) (p_give_h p) (sa_kws a) key (dget args key)) /\
      (forall j name v, nth_error (sim_names p a) j = Some name -> nth_error vals j = Some v ->
         exists c, return_property s' name true (Some (p_ret_h p)) = Ok (Some c) /\
           (forall k i, nth_error inds k = Some i -> nth_error (c_val c) i = val_at v k) /\
           (forall k, k < n i -> ~ In k inds -> nth_error (c_val c) k = Some None))) /\
    (forall q ua b, ~ In q (sim_names p a) -> return_property s' q ua b = return_property s q ua b).
Proof. exact (c66_memory n nanint p a st st'). Qed.
Print Assumptions C66_memory_partial.
(** A call that fails has done the snapshots before the one it failed on, and has not
    touched those after it. *)
Theorem C66_failed_partial n nanint p a st st' e :
  opened st -> good_sim n (snd st) -> scall_ok (SMake p a) -> sa_write a = true ->
  sim_make_property nanint p a st = (st', Raise e) ->
  exists l1 r l2, sf_meta (snd st) = l1 ++ r :: l2 /\ fst st' = fst st /\
    (forall i z, In (i, z) l1 -> exists g, group_of (snd st') i = Ok g /\ good_file (n i) g /\
       forall q, In q (sim_names p a) -> dmem (f_grp g) q = true) /\
    (forall i z, In (i, z) l2 -> group_of (snd st') i = group_of (snd st) i).
Proof. exact (c66_failed n nanint p a st st' e). Qed.
Print Assumptions C66_failed_partial.
(** With overwrite the call succeeds wherever the function can be evaluated, in
    particular after one that failed half way. *)
Theorem C66_repeat_partial n nanint p a st : opened st -> good_sim n (snd st) -> scall_ok (SMake p a) -> NoDup (sim_names p a) ->
  length (sim_names p a) = length (p_names p) -> sa_ow a = true -> sa_write a = true -> documented p ->
  (forall i z s, In (i, z) (sf_meta (snd st)) -> sees st i s -> computable p a (n i) s) ->
  (forall r rest g q d, sf_meta (snd st) = r :: rest -> group_of (snd st) (fst r) = Ok g -> In q (sim_names p a) ->
     dget (f_grp g) q = Some d -> s_user d = true) ->
  exists st', sim_make_property nanint p a st = (st', Ok tt).
Proof. exact (c66_rerun n nanint p a st). Qed.
Print Assumptions C66_repeat_partial.
(** With a selection on the stored handlers, values that were never computed are
    written to disk. A single handler refuses to do that (C30). *)
Theorem C66_selection_refuted :
  let st := sdo_all 0%Qc sx_init [SRange (Some "mass") (Fin (zq 5)) PInf true None] in
  let r := sim_make_property 0%Qc sx_prop (sx_args None false true false) st in
  sim_reachable sx_n st /\ snd r = Ok tt /\
  exists g d c, group_of (snd (fst r)) 1 = Ok g /\ dget (f_grp g) "y" = Some d /\ s_data d = SCol c /\
    nth_error (c_val c) 1 = Some None.
Proof.
  cbv zeta. split; [apply sx_reach; repeat constructor|]. split; [vm_compute; reflexivity|].
  do 3 eexists. split; [vm_compute; reflexivity|]. split; [vm_compute; reflexivity|]. split; reflexivity.
Qed.
Print Assumptions C66_selection_refuted.
(** Overwriting a built-in property is refused, but the stored handler of the first
    snapshot returns the new values all the same. *)
Theorem C66_refusal_refuted :
  let r := sim_make_property 0%Qc sx_prop (sx_args (Some ["mass"]) true true true) sx_init in
  sim_reachable sx_n sx_init /\ snd r = Raise ValueError /\ snd (fst r) = snd sx_init /\
  exists s s' c, sees sx_init 1 s /\ sees (fst r) 1 s' /\
    return_property s "mass" true (Some true) = Ok (Some (sx_col [5; 3; 8]%Z)) /\
    return_property s' "mass" true (Some true) = Ok (Some c) /\ nth_error (c_val c) 0 = Some (Some (zq 10)).
Proof.
  cbv zeta. split; [apply (sx_reach []); constructor|]. split; [vm_compute; reflexivity|]. split; [vm_compute; reflexivity|].
  eexists (_, _), (_, _), _. split; [split; vm_compute; reflexivity|]. split; [split; vm_compute; reflexivity|].
  split; [vm_compute; reflexivity|]. split; [vm_compute; reflexivity|]. simpl. do 2 f_equal. apply Qc_is_canon. vm_compute. reflexivity.
Qed.
Print Assumptions C66_refusal_refuted.
(** The refusal looks at the first snapshot only: a built-in property that snapshot
    lacks is overwritten in the others. *)
Theorem C66_builtin_refuted :
  let st := fst (sdo 0%Qc sx_open (SSnap 1 (HDelete ["vel"]))) in
  let r := sim_make_property 0%Qc sx_prop (sx_args (Some ["vel"]) true true true) st in
  opened st /\ good_sim sx_n (snd sx_open) /\ snd r = Ok tt /\
  exists g d g' d' c, group_of (snd st) 0 = Ok g /\ dget (f_grp g) "vel" = Some d /\ s_user d = false /\
    s_data d = SCol (sx_col [8; 9]%Z) /\
    group_of (snd (fst r)) 0 = Ok g' /\ dget (f_grp g') "vel" = Some d' /\ s_data d' = SCol c /\ c <> sx_col [8; 9]%Z.
Proof.
  cbv zeta. split; [repeat split|]. split; [exact sx_good|]. split; [vm_compute; reflexivity|].
  do 5 eexists. repeat (split; [vm_compute; reflexivity|]). vm_compute. discriminate.
Qed.
Print Assumptions C66_builtin_refuted.
Example C66_nonvacuous :
  opened sx_open /\ good_sim sx_n (snd sx_open) /\ scall_ok (SMake sx_prop (sx_args None true true true)) /\
  NoDup (sim_names sx_prop (sx_args None true true true)) /\ documented sx_prop /\
  (forall i z s, In (i, z) (sf_meta (snd sx_open)) -> sees sx_open i s -> computable sx_prop (sx_args None true true true) (sx_n i) s) /\
  (exists st', sim_make_property 0%Qc sx_prop (sx_args None true true true) sx_open = (st', Ok tt)) /\
  (exists st', sim_make_property 0%Qc sx_prop (mkSA None [("x", "z")] [] true true true None) sx_open = (st', Raise ValueError)) /\
  (exists st', sim_make_property 0%Qc sx_prop (sx_args None false false false)
     (sdo_all 0%Qc sx_init [SRange (Some "mass") (Fin (zq 5)) PInf true None]) = (st', Ok tt)).
Proof.
  split; [apply sx_opened|]. split; [exact sx_good|]. split; [apply sx_make_ok; exact I|].
  split; [repeat constructor; simpl; tauto|].
  split. { eexists. split; [reflexivity|]. intros k [<-|[]]. split; eexists; reflexivity. }
  split. { intros i z s [[= <- <-]|[[= <- <-]|[]]] [S1 S2]; destruct s as [h g]; simpl in S1, S2; vm_compute in S1, S2;
    injection S1 as <-; injection S2 as <-; eexists; (split; [vm_compute; reflexivity|]); repeat constructor. }
  split; [eexists; vm_compute; reflexivity|]. split; [eexists; vm_compute; reflexivity|]. eexists; vm_compute; reflexivity.
Qed.

(** * C67: delete_property over all snapshots *)
Theorem C67_delete_partial ps st st' : NoDup (map fst (sm_meta (fst st))) -> sim_delete_property ps st = (st', Ok tt) ->
  forall i z, In (i, z) (sm_meta (fst st)) -> exists g g', group_of (snd st) i = Ok g /\ group_of (snd st') i = Ok g' /\
    f_h g' = f_h g /\ forall q, dget (f_grp g') q = if smem q ps then None else dget (f_grp g) q.
Proof. exact (c67_delete ps st st'). Qed.
Print Assumptions C67_delete_partial.
(** a built-in property of the first snapshot is refused, and nothing changes *)
Theorem C67_builtin_partial ps st i z rest g q d : sm_meta (fst st) = (i, z) :: rest ->
  (exists h, get_snap st i = Ok h) -> group_of (snd st) i = Ok g -> In q ps -> dget (f_grp g) q = Some d -> s_user d = false ->
  sim_delete_property ps st = (st, Raise ValueError).
Proof. exact (c67_guard ps st i z rest g q d). Qed.
Print Assumptions C67_builtin_partial.
(** A property missing in a later snapshot: the call fails having deleted it from the
    earlier ones, and fails again when repeated. *)
Theorem C67_half_refuted :
  let r := sim_delete_property ["z"] sx_open in
  snd r = Raise ValueError /\
  (exists g d, group_of (snd sx_open) 1 = Ok g /\ dget (f_grp g) "z" = Some d) /\
  (exists g, group_of (snd (fst r)) 1 = Ok g /\ dget (f_grp g) "z" = None) /\
  snd (sim_delete_property ["z"] (fst r)) = Raise ValueError.
Proof.
  cbv zeta. split; [vm_compute; reflexivity|]. split; [do 2 eexists; split; vm_compute; reflexivity|].
  split; [eexists; split; vm_compute; reflexivity|]. vm_compute; reflexivity.
Qed.
Print Assumptions C67_half_refuted.
(** A built-in property that the first snapshot lacks is deleted from the others. *)
Theorem C67_builtin_refuted :
  let f := mkSF (frac 1 2) (zq 100) [(1%Z, zq 3); (0%Z, zq 7)]
    [(1%Z, [("mass", sx_ds (sx_col [5]%Z) (-1)%Z false); ("vel", sx_ds (sx_col [1]%Z) 0%Z true)]);
     (0%Z, [("mass", sx_ds (sx_col [4]%Z) (-1)%Z false); ("vel", sx_ds (sx_col [8]%Z) 0%Z false)])] in
  exists s, open_sim f false true = Ok s /\
  let r := sim_delete_property ["vel"] (s, f) in snd r = Ok tt /\
  (exists g d, group_of f 0 = Ok g /\ dget (f_grp g) "vel" = Some d /\ s_user d = false) /\
  exists g, group_of (snd (fst r)) 0 = Ok g /\ dget (f_grp g) "vel" = None.
Proof.
  cbv zeta. eexists. split; [reflexivity|]. split; [vm_compute; reflexivity|].
  split; [do 2 eexists; repeat (split; [vm_compute; reflexivity|]); vm_compute; reflexivity|].
  eexists; split; vm_compute; reflexivity.
Qed.
Print Assumptions C67_builtin_refuted.
Example C67_nonvacuous :
  let st := fst (sim_make_property 0%Qc sx_prop (sx_args None true true true) sx_open) in
  NoDup (map fst (sm_meta (fst st))) /\ snd (sim_delete_property ["y"] st) = Ok tt /\
  (exists h, get_snap st 1 = Ok h) /\
  (exists g d, group_of (snd st) 1 = Ok g /\ dget (f_grp g) "mass" = Some d /\ s_user d = false) /\
  (exists g d, group_of (snd st) 1 = Ok g /\ dget (f_grp g) "y" = Some d).
Proof.
  cbv zeta. split; [vm_compute; repeat constructor; simpl; intuition discriminate|]. split; [vm_compute; reflexivity|].
  split; [eexists; vm_compute; reflexivity|].
  split; [do 2 eexists; repeat (split; [vm_compute; reflexivity|]); vm_compute; reflexivity|].
  do 2 eexists; split; vm_compute; reflexivity.
Qed.

(** * C68: set_property_range over all snapshots *)
Theorem C68_range_partial n st st' p lo hi reset inh : sim_reachable n st ->
  sim_set_property_range (Some p) lo hi reset inh st = (st', Ok tt) ->
  snd st' = snd st /\
  forall i z, In (i, z) (sm_meta (fst st)) -> exists s s', sees st i s /\ sees st' i s' /\ reachable (n i) s /\
    ascending (h_act (fst s')) /\ h_nact (fst s') = length (h_act (fst s')) /\
    forall k, In k (h_act (fst s')) <->
      value_in s p (Some (match inh with Some b => b | None => sm_inh (fst st) end)) lo hi k /\ (reset = true \/ In k (h_act (fst s))).
Proof. exact (c68_range n st st' p lo hi reset inh). Qed.
Print Assumptions C68_range_partial.
(** without stored handlers the selection would be lost, and is refused *)
Theorem C68_refused p lo hi reset inh st : sm_init (fst st) = false ->
  sim_set_property_range p lo hi reset inh st = (st, Raise ValueError).
Proof. exact (c68_uninit p lo hi reset inh st). Qed.
Print Assumptions C68_refused.
(** A property missing in a later snapshot: the call fails, and the selection of the
    earlier snapshots has changed. *)
Theorem C68_half_refuted :
  let r := sim_set_property_range (Some "z") (Fin (zq 5)) PInf true None sx_init in
  sim_reachable sx_n sx_init /\ snd r = Raise ValueError /\
  exists s s' t t', sees sx_init 1 s /\ sees (fst r) 1 s' /\ sees sx_init 0 t /\ sees (fst r) 0 t' /\
    h_act (fst s) = [0; 1; 2] /\ h_act (fst s') = [] /\ h_act (fst t') = h_act (fst t).
Proof.
  cbv zeta. split; [apply (sx_reach []); constructor|]. split; [vm_compute; reflexivity|].
  eexists (_, _), (_, _), (_, _), (_, _). repeat (split; [split; vm_compute; reflexivity|]). repeat split; vm_compute; reflexivity.
Qed.
Print Assumptions C68_half_refuted.
Example C68_nonvacuous :
  sim_reachable sx_n sx_init /\
  (exists st', sim_set_property_range (Some "mass") (Fin (zq 5)) PInf true None sx_init = (st', Ok tt) /\
    exists s, sees st' 1 s /\ h_act (fst s) = [0; 2]) /\
  sm_init (fst sx_open) = false.
Proof.
  split; [apply (sx_reach []); constructor|]. split; [|reflexivity]. eexists. split; [vm_compute; reflexivity|].
  eexists (_, _). split; [split; vm_compute; reflexivity|]. vm_compute; reflexivity.
Qed.

(** * C69: snap_stat *)
(** The k-th value is the statistic on the snapshot in the position asked for, with that
    snapshot's arguments, and the k-th redshift is that snapshot's. *)
Theorem C69_stat_partial {V} st (stat : dict pyval -> exc V) kwargs remap kws inh ua snaps vals zs :
  snap_stat st stat kwargs remap kws inh ua snaps = Ok (vals, zs) ->
  let ps := match snaps with Some l => l | None => map Z.of_nat (seq 0 (length (sm_meta (fst st)))) end in
  length vals = length ps /\ length zs = length ps /\
  forall k pos, nth_error ps k = Some pos ->
    exists m i z s args v, nth_error (sm_meta (fst st)) m = Some (i, z) /\
      pos = (if (pos <? 0)%Z then Z.of_nat m - Z.of_nat (length (sm_meta (fst st))) else Z.of_nat m)%Z /\
      nth_error vals k = Some v /\ nth_error zs k = Some z /\ sees st i s /\ stat args = Ok v /\
      forall key, arg_spec s kwargs remap ua (match inh with Some b => b | None => sm_inh (fst st) end) kws key (dget args key).
Proof. exact (c69_stat st stat kwargs remap kws inh ua snaps vals zs). Qed.
Print Assumptions C69_stat_partial.
Definition sx_count (a : dict pyval) : exc nat :=
  match dget a "x" with Some (VCol c) => Ok (length (c_val c)) | _ => Raise TypeError end.
(** Asked for snapshot 0 (two halos at redshift 7), it returns snapshot 1 (three halos at
    redshift 3). *)
Theorem C69_number_refuted :
  snap_stat sx_open sx_count ["x"] [("x", "mass")] [] None true (Some [0%Z]) = Ok ([3], [zq 3]) /\
  (exists s c, sees sx_open 0 s /\ return_property s "mass" true (Some true) = Ok (Some c) /\ length (c_val c) = 2) /\
  extract_snap_meta (fst sx_open) 0 = Ok (0%Z, zq 7).
Proof.
  split; [vm_compute; reflexivity|]. split; [|vm_compute; reflexivity].
  eexists (_, _), _. split; [split; vm_compute; reflexivity|]. split; vm_compute; reflexivity.
Qed.
Print Assumptions C69_number_refuted.
Example C69_nonvacuous :
  snap_stat sx_open sx_count ["x"] [("x", "mass")] [] None false None = Ok ([3; 2], [zq 3; zq 7]) /\
  snap_stat sx_init sx_count ["x"] [("x", "mass")] [] (Some false) false (Some [(-1)%Z; 0%Z]) = Ok ([2; 3], [zq 7; zq 3]).
Proof. split; vm_compute; reflexivity. Qed.

(** * C70: the default units of the snapshots *)
Theorem C70_stored_partial nanint n st b i z : sim_reachable n st -> In (i, z) (sm_meta (fst st)) ->
  exists s, sees (fst (sdo nanint st (SSetH b))) i s /\ h_inh (fst s) = b.
Proof. exact (c70_set nanint n st b i z). Qed.
Print Assumptions C70_stored_partial.
(** Without stored handlers get_snap always gives a handler that removes h, whatever the
    units of the simulation are. *)
Theorem C70_fresh_refuted n st i z s : opened st -> good_sim n (snd st) -> In (i, z) (sf_meta (snd st)) -> sees st i s ->
  h_inh (fst s) = false.
Proof. exact (c70_fresh n st i z s). Qed.
Print Assumptions C70_fresh_refuted.
(** snap_stat then gives masses with h and the box edge without. *)
Theorem C70_mixed_refuted :
  (exists e, snap_stat sx_open (fun a => Ok a) ["mass"; "box_edge"] [] [] None true (Some [1%Z]) =
    Ok ([[("mass", VCol (sx_col [4; 6]%Z)); ("box_edge", VNum e)]], [zq 7]) /\ e = zq 200) /\
  snap_stat sx_init (fun a => Ok a) ["mass"; "box_edge"] [] [] None true (Some [1%Z]) =
    Ok ([[("mass", VCol (sx_col [4; 6]%Z)); ("box_edge", VNum (zq 100))]], [zq 7]).
Proof.
  split; [|vm_compute; reflexivity]. eexists. split; [vm_compute; reflexivity|]. apply Qc_is_canon. vm_compute. reflexivity.
Qed.
Print Assumptions C70_mixed_refuted.
Example C70_nonvacuous :
  sim_reachable sx_n sx_init /\ In (1%Z, zq 3) (sm_meta (fst sx_init)) /\
  opened sx_open /\ good_sim sx_n (snd sx_open) /\ sm_inh (fst sx_open) = true /\ (exists s, sees sx_open 0 s).
Proof.
  split; [apply (sx_reach []); constructor|]. split; [left; vm_compute; reflexivity|]. split; [apply sx_opened|].
  split; [exact sx_good|]. split; [reflexivity|]. eexists (_, _). split; vm_compute; reflexivity.
Qed.

(** * C71: number_volumes *)
(** It returns one over the number of volumes that fit in the box ... *)
Theorem C71_inverse_refuted s v b : sm_box s <> 0%Qc -> sm_h s <> 0%Qc -> v <> 0%Qc ->
  let e := edge_in (sm_h s) (sm_box s) (match b with Some b => b | None => sm_inh s end) in
  (number_volumes s v b * (e * e * e / v) = 1)%Qc.
Proof. exact (c71 s v b). Qed.
Print Assumptions C71_inverse_refuted.
(** ... so it is right exactly when the volume is that of the box (or minus that). *)
Theorem C71_partial s v b : sm_box s <> 0%Qc -> sm_h s <> 0%Qc -> v <> 0%Qc ->
  let e := edge_in (sm_h s) (sm_box s) (match b with Some b => b | None => sm_inh s end) in
  (number_volumes s v b = e * e * e / v)%Qc <-> (v = e * e * e \/ v = - (e * e * e))%Qc.
Proof. exact (c71_right s v b). Qed.
Print Assumptions C71_partial.
Example C71_nonvacuous :
  sm_box (fst sx_open) <> 0%Qc /\ sm_h (fst sx_open) <> 0%Qc /\
  number_volumes (fst sx_open) (zq 500000) (Some true) = frac 1 2 /\ number_volumes (fst sx_open) (zq 1000000) None = 1%Qc.
Proof.
  split; [vm_compute; discriminate|]. split; [vm_compute; discriminate|]. split; apply Qc_is_canon; vm_compute; reflexivity.
Qed.

(** * C72: extract_snap_keys *)
(** Right after opening it lists the properties of the first group of the file, *)
Theorem C72_open_partial f inh s : open_sim f false inh = Ok s ->
  exists i g r, sf_groups f = (i, g) :: r /\ forall q, In q (extract_snap_keys s) <-> q <> "mass_cuts" /\ dmem g q = true.
Proof. exact (c72_open f inh s). Qed.
Print Assumptions C72_open_partial.
(** and no call changes the list, so that it misses every property made and lists those
    deleted. *)
Theorem C72_constant_partial nanint st c : extract_snap_keys (fst (fst (sdo nanint st c))) = extract_snap_keys (fst st).
Proof. exact (c72 nanint st c). Qed.
Print Assumptions C72_constant_partial.
Theorem C72_stale_refuted :
  let r := sim_make_property 0%Qc sx_prop (sx_args None true true true) sx_open in
  snd r = Ok tt /\ (forall i, In i [0%Z; 1%Z] -> exists s, sees (fst r) i s /\ has_property (fst s) "y" = true) /\
  ~ In "y" (extract_snap_keys (fst (fst r))) /\ In "z" (extract_snap_keys (fst (fst r))) /\
  exists s, sees (fst r) 0 s /\ has_property (fst s) "z" = false.
Proof.
  cbv zeta. split; [vm_compute; reflexivity|].
  split. { intros i [<-|[<-|[]]]; eexists (_, _); (split; [split; vm_compute; reflexivity|vm_compute; reflexivity]). }
  split; [vm_compute; intuition discriminate|]. split; [vm_compute; auto|].
  eexists (_, _). split; [split; vm_compute; reflexivity|vm_compute; reflexivity].
Qed.
Print Assumptions C72_stale_refuted.
Example C72_nonvacuous : open_sim sx_file false true = Ok (sx_sim true) /\ extract_snap_keys (sx_sim true) = ["mass"; "vel"; "z"].
Proof. split; reflexivity. Qed.
