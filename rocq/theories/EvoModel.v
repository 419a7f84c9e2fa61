(** Model of LCHandler.eval_stat_evo (simim/lightcone/lchandler.py 177-218) with all its
    keywords, and of what it does to its dictionary of keyword arguments. No proofs here.

    In python the dictionary is changed in place. A call that does not give [other_kws]
    uses the dictionary made when the function was defined, the same one for all calls on
    all handlers; here it is an argument and a result. *)
From Verif Require Import Dict Util Rat HandlerModel.
Open Scope string_scope. Open Scope list_scope.

(** lines 190-213, the loop over the bins. [vol a b h] is self.volume(redshift_min=a,
    redshift_max=b, in_h_units=h), which depends on the light cone only. *)
Fixpoint evo_loop {V} (vol : Qc -> Qc -> bool -> exc Qc) (bins : list Qc) (stat : dict pyval -> exc V)
    (kwargs : list string) (remap : dict string) (kws : dict pyval) (zmin_kw zmax_kw vol_kw in_h : bool)
    (s : st) (acc : list V) : st * dict pyval * exc (list V) :=
  match bins with
  | a :: (b :: _) as rest =>
      match set_property_range (Some "redshift") (Fin a) (Fin b) true None s with
      | (s1, Raise e) => (s1, kws, Raise e)
      | (s1, Ok _) =>
          let k1 := if zmin_kw then dset kws "zmin" (VNum a) else kws in
          let k2 := if zmax_kw then dset k1 "zmax" (VNum b) else k1 in
          match (if vol_kw then do w <- vol a b in_h ;; Ok (dset k2 "volume" (VNum w)) else Ok k2) with
          | Raise e => (s1, k2, Raise e)
          | Ok k3 =>
              match eval_stat s1 stat kwargs remap k3 false (Some in_h) with
              | Raise e => (s1, k3, Raise e)
              | Ok v =>
                  evo_loop vol rest stat kwargs remap (ddel (ddel k3 "zmin") "zmax") zmin_kw zmax_kw vol_kw in_h s1
                           (acc ++ [v])
              end
          end
      end
  | _ => (s, kws, Ok acc)
  end.

(** eval_stat_evo with the dictionary [kws], 181-218 *)
Definition evo_with {V} (vol : Qc -> Qc -> bool -> exc Qc) (bins : list Qc) (stat : dict pyval -> exc V)
    (kwargs : list string) (remap : dict string) (kws : dict pyval) (zmin_kw zmax_kw vol_kw : bool)
    (inh : option bool) (s : st) : st * dict pyval * exc (list Qc * list V) :=
  let in_h := match inh with Some b => b | None => h_inh (fst s) end in
  let sorted := qsort bins in
  match evo_loop vol sorted stat kwargs remap kws zmin_kw zmax_kw vol_kw in_h s [] with
  | (s1, k, Raise e) => (s1, k, Raise e)
  | (s1, k, Ok vs) => ((with_act (fst s1) (h_act (fst s)) (h_nact (fst s1)), snd s1), k, Ok (sorted, vs))
  end.

(** A call. [v_kws] is the caller's dictionary, None when the argument is left out. *)
Record ecall (V : Type) := mkEcall {
  e_bins : list Qc; e_stat : dict pyval -> exc V; e_kwargs : list string; e_remap : dict string;
  e_kws : option (dict pyval); e_zmin : bool; e_zmax : bool; e_vol : bool; e_inh : option bool }.
Arguments mkEcall {V}. Arguments e_bins {V}. Arguments e_stat {V}. Arguments e_kwargs {V}. Arguments e_remap {V}.
Arguments e_kws {V}. Arguments e_zmin {V}. Arguments e_zmax {V}. Arguments e_vol {V}. Arguments e_inh {V}.

(** The call, 177: the handler and the default dictionary before and after, and the result.
    A dictionary of the caller's is not the default one. *)
Definition evo_call {V} (vol : Qc -> Qc -> bool -> exc Qc) (c : ecall V) (s : st) (dflt : dict pyval)
  : st * dict pyval * exc (list Qc * list V) :=
  let '(s1, k, r) := evo_with vol (e_bins c) (e_stat c) (e_kwargs c) (e_remap c)
                       (match e_kws c with Some k => k | None => dflt end) (e_zmin c) (e_zmax c) (e_vol c) (e_inh c) s in
  (s1, match e_kws c with Some _ => dflt | None => k end, r).

(** Successive calls; each handler is given with its [vol]. What happens to handlers
    between the calls is up to the caller, so each call names the state it starts from. *)
Fixpoint evo_calls {V} (cs : list ((Qc -> Qc -> bool -> exc Qc) * ecall V * st)) (dflt : dict pyval)
  : dict pyval * list (exc (list Qc * list V)) :=
  match cs with
  | [] => (dflt, [])
  | (vol, c, s) :: cs' =>
      let '(_, d, r) := evo_call vol c s dflt in
      let '(d', rs) := evo_calls cs' d in (d', r :: rs)
  end.
