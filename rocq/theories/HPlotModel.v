(** Model of the plots and histograms of a handler (simim/_handlers.py 542-663) and of evaluating a property without adding
    it (simim/galprops/galprops.py 136-217). No proofs here.

    Simplifications: a figure is the data and keyword arguments handed to matplotlib; the values of keyword arguments are
    strings; keyword arguments other than 'label', 'color' and 'marker' are taken to be accepted by matplotlib; [axkws] is
    left out. *)
From Verif Require Import Dict Util Rat HandlerModel.
Open Scope string_scope.
Open Scope list_scope.

(** one call of ax.plot *)
Record curve := mkCurve { cu_points : list (option Qc * option Qc); cu_label : option string; cu_color : option string; cu_kws : dict string }.
Record figure := mkFig { fg_curves : list curve; fg_legend : bool }.
Inductive houtput := HSaved (file : string) (f : figure) | HShown (f : figure).

(** the keyword argument use_all_inds of [plot] *)
Inductive which := WActive | WAll | WCompare.

(** ax.plot(x, y, color=.., **plotkws, label=..): a keyword given twice is a TypeError; None or lengths that differ are a
    ValueError of matplotlib *)
Definition ax_plot (x y : option col) (color : option string) (kws : dict string) (label : option string) : exc curve :=
  if (match color with Some _ => dmem kws "color" | None => false end || match label with Some _ => dmem kws "label" | None => false end)%bool
  then Raise TypeError else
  match x, y with
  | Some x, Some y => if (length (c_val x) =? length (c_val y))%nat then Ok (mkCurve (combine (c_val x) (c_val y)) label color kws) else Raise ValueError
  | _, _ => Raise ValueError
  end.

(** one pass of the loop 590-601 *)
Definition plot_one (s : st) (xname : string) (w : which) (kws : dict string) (inh : option bool) (yn : string) : exc (list curve) :=
  match w with
  | WCompare =>
      do x <- return_property s xname true inh ;; do y <- return_property s yn true inh ;; do c1 <- ax_plot x y (Some "k") kws (Some yn) ;;
      do x <- return_property s xname false inh ;; do y <- return_property s yn false inh ;; do c2 <- ax_plot x y (Some "r") kws None ;;
      Ok [c1; c2]
  | _ =>
      let all := match w with WAll => true | _ => false end in
      do x <- return_property s xname all inh ;; do y <- return_property s yn all inh ;; do c <- ax_plot x y None kws (Some yn) ;; Ok [c]
  end.

(** 585-588: the dictionary of the caller is changed *)
Definition plot_kws (kws : dict string) : dict string :=
  let k1 := if negb (dmem kws "ls") && negb (dmem kws "linestyle") then dset kws "ls" "" else kws in
  if negb (dmem k1 "marker") then dset k1 "marker" "." else k1.

Definition put (save : option string) (f : figure) : list houtput := match save with Some n => [HSaved n f] | None => [] end ++ [HShown f].

(** 543-609: what is saved and shown, the dictionary the caller is left with, and the outcome *)
Definition hplot (s : st) (xname : string) (ynames : list string) (w : which) (save : option string) (kws : dict string) (inh : option bool)
  : list houtput * dict string * exc unit :=
  let inh := Some (match inh with Some b => b | None => h_inh (fst s) end) in
  let kws := plot_kws kws in
  match mapM (plot_one s xname w kws inh) ynames with
  | Raise e => ([], kws, Raise e)
  | Ok cs => (put save (mkFig (concat cs) (1 <? length ynames)%nat), kws, Ok tt)
  end.

(** one call of ax.hist(x, **plotkws, label=..). 'marker' is not a property of the bars: AttributeError *)
Record bars := mkBars { br_values : list (option Qc); br_label : string; br_kws : dict string }.
Inductive boutput := BSaved (file : string) (b : list bars) (legend : bool) | BShown (b : list bars) (legend : bool).
Definition ax_hist (x : option col) (kws : dict string) (label : string) : exc bars :=
  if dmem kws "label" then Raise TypeError else
  match x with
  | None => Raise (UserExn 0) (* not modelled *)
  | Some c => if dmem kws "marker" then Raise AttributeError else Ok (mkBars (c_val c) label kws)
  end.
(** 611-663; [log10] is numpy's, None for NaN *)
Definition hhist (log10 : Qc -> option Qc) (s : st) (names : list string) (use_all logt : bool) (save : option string) (kws : dict string) (inh : option bool)
  : list boutput * exc unit :=
  let inh := Some (match inh with Some b => b | None => h_inh (fst s) end) in
  let one pn :=
    do x <- return_property s pn use_all inh ;;
    let x := if logt then option_map (fun c => mkCol false (map (fun v => match v with Some q => log10 q | None => None end) (c_val c))) x else x in
    ax_hist x kws pn in
  match mapM one names with
  | Raise e => ([], Raise e)
  | Ok bs => (match save with Some n => [BSaved n bs (1 <? length names)%nat] | None => [] end ++ [BShown bs (1 <? length names)%nat], Ok tt)
  end.

(** MultiProp.evaluate, galprops.py 136-139: kw_arguments is not passed on *)
Definition multi_evaluate (p : prop) (s : st) (use_all : bool) (remap : dict string) (kws : dict pyval) : exc (list col) :=
  evaluate_all p s use_all remap [].
(** Prop.evaluate, galprops.py 191-217; len(vals) is 1 since the value is wrapped, so vals[0] exists *)
Definition prop_evaluate (p : prop) (s : st) (use_all : bool) (remap : dict string) : exc col :=
  do vals <- evaluate_all p s use_all remap [] ;; match vals with v :: _ => Ok v | [] => Raise IndexError end.
(** MultiProp.evaluate_all, galprops.py 75-134, for a function that returns its columns as a tuple: line 132 assigns to an
    item of it, which a tuple does not allow *)
Definition evaluate_all_tuple (p : prop) (s : st) (use_all : bool) (remap : dict string) (kws : dict pyval) : exc (list col) :=
  do vals <- evaluate_all p s use_all remap kws ;;
  if p_ret_h p then Ok vals
  else match p_hdep p with
       | None => Ok vals
       | Some hd => if existsb (fun k => match dget hd k with Some e => negb (e =? 0)%Z | None => false end) (p_names p) then Raise TypeError else Ok vals
       end.
