(** Model of the predefined properties, simim/galprops/galprops_builtin.py 1-75. No proofs here.

    Simplifications: the relations themselves are an argument [rel] (their formulas are in RelModel.v, YangModel.v and
    SfrModel.v); a relation that returns one column is taken to return a list of it. *)
From Verif Require Import Dict Util Rat HandlerModel.
Open Scope string_scope.
Open Scope list_scope.

(** the parameters of a function: without and with a default value *)
Record sig := mkSig { g_req : list string; g_opt : list string }.

(** a call with keyword arguments only: a missing or an unknown parameter is a TypeError *)
Definition pycall (g : sig) (fn : dict pyval -> exc (list col)) (args : dict pyval) : exc (list col) :=
  if forallb (fun k => dmem args k) (g_req g) && forallb (fun k => smem k (g_req g ++ g_opt g)) (dkeys args)
  then fn args else Raise TypeError.

(** the function headers: line_co.py 7-10, 46-49, 92-94, 140-142, 187-194; line_densegas.py 6-9, 48-50; line_fir.py 6-9,
    144-148, 251-255, 354-357, 408-411, 447-450; line_fir_yang.py 6-9; sfr_behroozi13.py 220 and 245 *)
Inductive relation := Kamenetzky16 | Li16 | Lidz11 | Pullen13 | Keating16 | HcnGao | HcnBreysse | Delooze14 | Uzgil14 | Spinoglio12
  | Schaerer20 | Yang22 | Padmanabhan19 | Zhao13 | BehrooziSfr | BehrooziMass.
Definition header (r : relation) : sig :=
  match r with
  | Kamenetzky16 => mkSig ["sfr"] ["lines"; "d_mf"; "fircor"; "scatter_lco"; "sig_lco"; "break_ulirgs"; "rng"]
  | Li16 => mkSig ["sfr"] ["d_mf"; "a"; "b"; "nu_rest"; "scatter_lco"; "sig_lco"; "rng"]
  | Lidz11 => mkSig ["mass"] ["f_duty"; "rand_f_duty"; "rng"]
  | Pullen13 => mkSig ["mass"; "redshift"; "cosmo"] ["rand_f_duty"; "sf_length"; "rng"]
  | Keating16 => mkSig ["mass"] ["m_min"; "A"; "scatter_lco"; "sig_lco"; "rng"]
  | HcnGao => mkSig ["sfr"] ["d_mf"; "a"; "b"; "nu_rest"; "scatter_lhcn"; "sig_lhcn"; "rng"]
  | HcnBreysse => mkSig ["mass"] ["f_duty"; "rand_f_duty"; "rng"]
  | Delooze14 => mkSig ["sfr"] ["line"; "set"; "scatter"; "fix_scatter"; "rng"]
  | Uzgil14 => mkSig ["sfr"] ["d_mf"; "line"; "set"; "scatter"; "sig_scatter"; "rng"]
  | Spinoglio12 => mkSig ["sfr"] ["d_mf"; "line"; "set"; "scatter"; "sig_scatter"; "rng"]
  | Schaerer20 => mkSig ["sfr"] ["set"; "scatter"; "sig_scatter"; "rng"]
  | Yang22 => mkSig ["mass"; "redshift"] ["line"; "fduty"; "scatter"; "fix_scatter"; "rng"]
  | Padmanabhan19 => mkSig ["mass"; "redshift"] ["m1"; "b"; "n1"; "a"; "scatter"; "sig_scatter"; "rng"]
  | Zhao13 => mkSig ["sfr"] ["d_mf"; "scatter"; "sig_scatter"; "rng"]
  | BehrooziSfr => mkSig ["redshift"; "mass"] ["scatter"; "sigma_scatter"; "rng"]
  | BehrooziMass => mkSig ["redshift"; "mass"] ["scatter"; "sigma_scatter"; "rng"]
  end.

(** the arguments of the constructors; give_args_in_h_units and function_return_in_h_units keep their default False, and
    every h_dependence is 0 *)
Record builtin := mkB { b_names : list string; b_rel : relation; b_kwargs : list string; b_unit : string }.
Definition prop_co_sled := (* galprops_builtin.py 6-8 *)
  mkB ["L10"; "L21"; "L32"; "L43"; "L54"; "L65"; "L76"; "L87"; "L98"; "L109"; "L1110"; "L1211"; "L1312"] Kamenetzky16 ["sfr"] "Lsun".
Definition prop_li_co := mkB ["LCO"] Li16 ["sfr"] "Lsun". (* galprops_builtin.py 10-12 *)
Definition prop_lidz_co := mkB ["LCO"] Lidz11 ["mass"] "Lsun". (* galprops_builtin.py 14-16 *)
Definition prop_pullen_co := mkB ["LCO"] Pullen13 ["mass"; "redshift"; "cosmo"] "Lsun". (* galprops_builtin.py 18-20 *)
Definition prop_keating_co := mkB ["LCO"] Keating16 ["mass"] "Lsun". (* galprops_builtin.py 22-24 *)
Definition prop_gao_hcn := mkB ["LHCN"] HcnGao ["sfr"] "Lsun". (* galprops_builtin.py 26-28 *)
Definition prop_breysse_hcn := mkB ["LHCN"] HcnBreysse ["mass"] "Lsun". (* galprops_builtin.py 30-32 *)
Definition prop_delooze_fir := mkB ["Lfir"] Delooze14 ["sfr"] "Lsun". (* galprops_builtin.py 34-36 *)
Definition prop_uzgil_fir := mkB ["Lfir"] Uzgil14 ["sfr"] "Lsun". (* galprops_builtin.py 38-40 *)
Definition prop_spinoglio_fir := mkB ["Lfir"] Spinoglio12 ["sfr"] "Lsun". (* galprops_builtin.py 42-44 *)
Definition prop_schaerer_cii := mkB ["LCII"] Schaerer20 ["sfr"] "Lsun". (* galprops_builtin.py 46-48 *)
Definition prop_yang_cii := mkB ["LCII"] Yang22 ["mass"; "redshift"] "Lsun". (* galprops_builtin.py 50-52 *)
Definition prop_padmanabhan_cii := mkB ["LCII"] Padmanabhan19 ["mass"; "redshift"] "Lsun". (* galprops_builtin.py 54-56 *)
Definition prop_zhao_nii := mkB ["LNII"] Zhao13 ["sfr"] "Lsun". (* galprops_builtin.py 58-60 *)
Definition prop_behroozi_sfr := mkB ["sfr"] BehrooziSfr ["redshift"; "mass"] "Msun/yr". (* galprops_builtin.py 63-65 *)
Definition prop_behroozi_mass := mkB ["stellar mass"] BehrooziMass ["redshift"; "mass"] "Msun". (* galprops_builtin.py 67-69 *)
(** all of them; lines 73-75 of galprops_builtin.py add only aliases *)
Definition builtins : list builtin :=
  [prop_co_sled; prop_li_co; prop_lidz_co; prop_pullen_co; prop_keating_co; prop_gao_hcn; prop_breysse_hcn; prop_delooze_fir; prop_uzgil_fir;
   prop_spinoglio_fir; prop_schaerer_cii; prop_yang_cii; prop_padmanabhan_cii; prop_zhao_nii; prop_behroozi_sfr; prop_behroozi_mass].

(** the constructor calls, galprops_builtin.py 6-69. A Prop and a MultiProp differ here only in the wrapping of the value *)
Definition builtin_prop (rel : relation -> dict pyval -> exc (list col)) (b : builtin) : exc prop :=
  new_multiprop (b_names b) (pycall (header (b_rel b)) (rel (b_rel b))) (b_kwargs b) false false [b_unit b] [0%Z].
