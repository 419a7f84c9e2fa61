# A Rocq model of simim (rpkeenan/simim_public)

`/repo` is read as text; nothing is run. The model lives in `rocq/theories/`
(logical name `Verif`), one group of files per area of the code:

| area | code | model | specification | proofs | theorems |
|---|---|---|---|---|---|
| base | numpy, python lists and dicts | `Util.v` (exceptions), `Rat.v`, `Val.v`, `Arr.v`, `Dict.v`, `RealUtil.v`, `Complex.v` | | same files | |
| grids | `simim/map/gridder.py` | `GridModel.v`, `GridModel2.v`, `PsfModel.v` | `GridSpec.v`, `GridSpec2.v`, `ConvSpec.v` | `Grid*.v`, `Conv.v`, `Psf.v` | `GridProps*.v`, `GridFuncProps.v` |
| handlers | `simim/_handlers.py`, `galprops/galprops.py`, parts of `lchandler.py` | `HandlerModel.v` | `HandlerSpec.v` | `Handler.v`, `Handler2-4.v` | `HandlerProps.v` |
| simulations | `siminterface/simhandler.py` (SimHandler) | `SimModel.v` | `SimSpec.v` | `Sim.v`, `Sim2-4.v` | `SimProps.v` |
| gridding handlers | `SnapHandler.grid`, `LCHandler.grid` | `HGridModel.v` | `HGridSpec.v` | `HGrid.v`, `HGrid2-4.v` | `HGridProps.v` |
| light cone handlers | `lchandler.py`: `volume`, `LCIterator` | `LchModel.v` | `LchSpec.v` | `Lch.v`, `Lch2.v` | `LchProps.v` |
| statistics by redshift | `lchandler.py`: `eval_stat_evo` | `EvoModel.v` | `EvoSpec.v` | `Evo.v` | `EvoProps.v` |
| paths | `simim/_paths.py` | `PathsModel.v` | `PathsSpec.v` | `Paths.v` | `PathsProps.v`, `PathsProps2.v`, `PathsProps3.v` |
| snapshots | `siminterface/_rawsiminterface.py` 16-115, metadata of the three simulations, `z_to_snap` | `SnapModel.v` | `SnapSpec.v` | `Snap.v` | `SnapProps.v` |
| formatting | `_rawsiminterface.py` 342-580, `get_mass_index`, `_illustris_datahandling.py` | `FormatModel.v` | `FormatSpec.v` | `Format.v` | `FormatProps.v` |
| light cones | `simim/lightcone/lcmaker.py` | `LcModel.v` | `LcSpec.v` | `Lc.v`, `Lc2-13.v` | `LcProps.v` |
| instrument | `simim/instrument/instrument.py`, `_helpers.py` | `InstModel.v` | `InstSpec.v` | `Inst.v`, `Inst2-9.v`, `InstEx.v` | `InstProps.v` |
| galaxy relations | `line_co.py`, `line_densegas.py`, `line_fir.py`, `log10normal.py`, `line_co_dutycycle.py`, parts of `sfr_behroozi13.py` | `RelModel.v` | `RelSpec.v` | `RelGauss.v`, `Rel.v`, `Rel2.v` | `RelProps.v`, `RelProps2.v` |
| lines of Yang et al. | `line_fir_yang.py` | `YangModel.v` | `YangSpec.v` | `Yang.v`, `Yang2.v` | `YangProps.v`, `YangProps2.v` |
| star formation rates | `sfr_ir.py`, `sfr_bethermin17.py`, tables of `sfr_behroozi13.py` | `SfrModel.v` | `SfrSpec.v` | `Sfr.v`, `Sfr2.v`, `Sfr3.v` | `SfrProps.v` |
| raw catalogues | `simim/siminterface/universemachine.py`, `uchuu.py`, `_rawsiminterface.py` 273-282, 319-340, 575-580 | `RawModel.v` | `RawSpec.v` | `Raw.v` to `Raw6.v` | `RawProps.v`, `RawFileProps.v` |
| responses and noise | `spatial_response.py`, `spectral_response.py`, `noise_functions.py`, `_helpers.py` 5-18, `instrument.py` 574-606 | `RespModel.v` | `RespSpec.v` | `Resp.v`, `Resp2.v`, `Resp3.v`, `Resp4.v` | `RespProps.v`, `RespProps2.v` |
| handler plots | `_handlers.py`: `plot`, `hist`; `galprops.py`: `evaluate` | `HPlotModel.v` | `HandlerSpec.v` | `HPlotProps.v` | `HPlotProps.v` |
| light cone and detector plots | `lchandler.py`: `animate`; `instrument.py`: `plot_detector_response`, `plot_spectral_response` | `PlotModel.v` | `PlotSpec.v` | `Plot.v`, `Plot2.v` | `PlotProps.v`, `PlotDetProps.v` |
| class Detector | `instrument.py` 1112-1137 | `DetModel.v` | `InstSpec.v` | `Det.v` | `DetProps.v` |
| predefined properties | `galprops_builtin.py` | `BuiltinModel.v` | `HandlerSpec.v` | `Builtin.v` | `BuiltinProps.v` |
| units of axes | `Grid.scale_axis`, `Grid.__init__` | `UnitModel.v` | | `Unit.v` | `UnitProps.v` |
| lists of names | `Handler.extract_keys` and the lists behind it | `KeysModel.v` | `KeysSpec.v` | `Keys.v` | `KeysProps.v` |
| mass cut of light cones | `LCMaker`'s use of `get_mass_index` on a formatted file | `MassCutModel.v` | `MassCutSpec.v` | `MassCut.v` | `MassCutProps.v` |
| tables of a light cone file | end of `build_lightcones` (hard links), then handler calls | `LinkModel.v` | `LinkSpec.v` | `Link.v` | `LinkProps.v` |
| geometry of light cone makers | `LCMaker.__init__`, search in `_initialize_los` | `LosModel.v` | `LosSpec.v` | `Los.v` | `LosProps.v` |
| the function form of Gridder | `gridder_function` | `GfModel.v` | `GfSpec.v` | `Gf.v` | `GfProps.v` |
| reference frequencies | `reffreq` in the methods of `Instrument` | `RefModel.v` | `InstSpec.v` | `Ref.v` | `RefProps.v` |
| widths of PSFs | `PSF`, `SpectralPSF` | `PsfModel.v` | `PsfSpec.v` | `Psf.v`, `Psf2.v` | `PsfProps.v` |
| constructors of light cone makers | `GenericLCMaker.__init__`, `SphereMaker.__init__` | `MakeModel.v` | `PathsSpec.v`, `LcSpec.v` | `Make.v` | `MakeProps.v` |
| the question of format | `SimCatalogs.format` 386-396 | `AskModel.v` | `PathsSpec.v`, `FormatSpec.v` | `Ask.v` | `AskProps.v` |
| figures of grids | `simim/map/gridder.py` 1790-1967 | `FigModel.v` | `FigSpec.v` | `Fig.v` to `Fig4.v` | `FigProps.v` |
| Illustris and TNG | `simim/siminterface/illustris.py`, `_illustris_datahandling.py` 12-27, 128-157 | `IllModel.v` | `IllSpec.v` | `Ill.v`, `Ill2.v`, `Ill3.v` | `IllProps.v`, `IllSnapProps.v` |
| luminosity functions | `simim/galprops/galprops_am.py` 317-758 | `DistModel.v` | `DistSpec.v` | `Dist.v` to `Dist4.v` | `DistProps.v`, `DistProps2.v` |
| abundance matching | `simim/galprops/galprops_am.py` 5-315 | `AmModel.v` | `AmSpec.v` | `Am.v`, `Am2.v` | `AmProps.v` |

Within an area: `*Model.v` holds executable definitions without proofs, each citing
the lines of `/repo` it models; `*Spec.v` small specifications that do not use the
model's helpers; `*Props*.v` the property theorems only, each closed by `exact` or a
few steps, followed by `Print Assumptions` and a non-vacuity `Example`
(`CXX_nonvacuous`).

## Modelling decisions

* **Numbers.** Grid and handler coordinates, sides and values are canonical rationals
  `Qc`: computable, Leibniz equality, no axioms. Snapshots, formatting, light cones,
  point spread functions and abundance matching use the standard library's reals.
  Floating-point rounding is *not* modelled: arithmetic is exact. Where the code
  rounds on purpose (`np.round(x,1)`, `floor`, `ceil`, integer truncation on
  assignment into an integer array) the rounding is modelled.
* **Cell values** of a grid are elements of an arbitrary algebra (`Alg`: a record with
  its ring laws as fields); it is instantiated with `Qc`, the reals and the complex
  numbers.
* **NaN** is `None`.
* **Exceptions** are values (`exc`): a method returns the state it leaves behind
  together with a value or the exception. So a theorem about a failed call speaks
  of the object the caller is left with.
* **External code** (numpy FFT, astropy cosmology, scipy distributions, the user's
  functions, random numbers, argsort tie breaking, typed answers) is a universally
  quantified argument of the theorem, its assumed law written as a hypothesis of the
  theorem, never an axiom; or it has an executable model (the DFT by its defining sum
  over an algebra with roots of unity; files as finite maps).
* **Files and crashes.** Each h5py call that changes a file is one operation; a run is a
  list of operations and a crash is any prefix of it. Resizing and filling a column
  is one operation. Buffering inside HDF5 is not modelled.
* **False expectations.** When the code violates the property a user would expect, the
  theorem set contains `..._refuted`, with a witness or for all inputs of a kind, and
  the condition under which the property holds is proved as `..._partial`.
* **numpy >= 1.24** is assumed where versions differ (`np.int` is gone, ragged arrays raise).
* **Aliasing.** Values are immutable in the model; two python names for one array are
  two values. Where the code's aliasing matters (fields added in place, `copy`), the
  model returns both objects explicitly.

## What is not modelled

* `map/gridder.py`: colours, labels and rendering of `visualize` and `animate`, `logscale=True`, the compression flag of `save`.
* `_handlers.py`: `axkws` and rendering of `plot` and `hist`, column dtypes other than integer and float,
  two-dimensional columns.
* `siminterface`: the requests of Illustris metadata and the haloID branch of `_loadSingle`, casts to the stored dtypes, Uchuu data files 4 to 12
  (format does not use them), shell characters other than blanks.
* `lightcone`: colours and rendering of `animate`, casts of redshift edges to float32.
* `instrument`: rendering of plots. Responses and noise are arguments of the model of instruments; their formulas are modelled on their own.
* `galprops`: scipy's `rv_continuous` wrapper around the luminosity functions, scipy's spline interpolators, single numbers (not arrays) as stellar masses.

## Plan per property

| id | modelled | proof |
|---|---|---|
| C01 | `Grid.__init__`, `_axis_edges`, broadcast and error branches | algebra on `Qc` axes; exact success condition |
| C02 | `ceil(round(side/pix,1))` | case analysis on round-half-even |
| C03 | `add_from_cat` index computation and `np.add.at` | induction on catalogue; floor characterisation |
| C04 | as C03 | sum exchange |
| C05 | as C03 | permutation induction in a commutative ring |
| C06 | property routing | refutation plus exact condition |
| C07 | `sample` | shared floor lemma |
| C08 | `add_from_pos_plus_array` | reduction to C03 |
| C09 | `add_from_spec_func` chunks | induction on chunks |
| C10 | `np.diff` of edges | telescoping |
| C11 | `pad`, `_unpad` | array extensionality; refutation for non-leading axes |
| C12 | `crop` | filter-interval lemma; refutation of atomicity |
| C13 | all operations as a step function | invariant over op lists |
| C14 | DFT with shifts over a ring with roots of unity | orthogonality of characters |
| C15 | `power_spectrum` | from C14 |
| C16 | direct convolution sum (the documented contract of fftconvolve) (ConvSpec.v, Conv.v) | induction over the axes, index algebra; refutation for list pads and single later axes |
| C17 | `collapse_dimension` | array sums; refutation for several axes |
| C18 | `sum_properties` | extensionality; refutation of flags |
| C19 | `copy`, `save`, `LoadGrid`, file system as a map | round trip; refutations |
| C20 | `spherical_average` | digitize characterisation; refutation of last shell |
| C21 | `Gridder` | floor lemma; refutation |
| C22 | `PSF`, `SpectralPSF` with real-valued cells and the real exponential (PsfModel.v) | sum of normalised list; the peak is reached iff all cell counts are odd; refutation of the peak |
| C23 | `scale_axis` | algebra; refutations |
| C24 | `down_sample` | refutation of consistency |
| C25 | `GridFromAxes` | algebra |
| C26-C32 | `Handler` as a state machine over a file map | invariants over op lists |
| C33-C34 | `_paths.py` with text files as line lists and scripted answers | refinement to last-write-wins map |
| C35-C36 | sort, `mass_cuts`, `get_mass_index` | permutation, counting lemmas |
| C37 | `np.digitize` | characterisation and refutation of edge cases |
| C38 | `dif_*` chain | induction on the snapshot list |
| C39 | metadata merge, write order | refinement to a sorted map; crash prefix |
| C40-C48 | slab iteration, geometry tests, copies, rotation, `redshift_index`, `add_properties`, files as operation lists | algebra and geometry over the reals, list induction, crash prefixes; refutations of buffer width and sphere size check |
| C49-C54 | `Instrument` as a state machine | invariants over op lists |
| C55 | `MultiProp.__init__`, `evaluate_all` | refutation and single-valued case |
| C56 | `am_dfcat` / `am_dfdf` interpolation tables | piecewise linear interpolation is strictly monotone and inverted by exchanging its tables; refutation at the ends of arrays |
| C57 | `_loadObjects` | induction on chunks |
| C58 | cell values and axis labels after `fourier_transform` | the defining sum at the labelled frequency |
| C59 | `add_pos_properties` | refutation for flipped boxes; exact condition |
| C60 | drawing a line of sight, flags kept between draws | induction on draws; refutation |
| C61 | crash points of `add_properties` | prefix invariant; refutation of repair |
| C62-C63 | fields with several properties, beam sizes | as C49-C54; universal refutations |
| C64 | values outside the range of abundance matching | case analysis; universal refutations |
| C65-C70 | `SimHandler`: stored and fresh snapshot handlers, loops over snapshots, failure in the middle | handlers reached by histories of their own (refines C26-C32); frame and prefix lemmas for the loops; refutations |
| C71-C72 | `number_volumes`, `extract_snap_keys` | algebra; histories |
| C73-C74 | `SnapHandler.grid`, `LCHandler.grid` on top of the handler and gridder models | refinement to column and cell specifications, exact success condition; refutations at the edges |
| C75 | `LCHandler.volume` over the reals, regions as sets of points of the sky | algebra, equivalence of the checks with containment; universal refutations (bounds on pi) |
| C76 | `eval_stat_evo` with the shared default dictionary as explicit state | induction on bins and on histories of calls; universal refutations |
| C77 | `LCIterator` constructor, wrappers and volume | induction on the list of light cones; refutations |
| C78 | `delooze14`, `uzgil14`, `spinoglio12`, `schaerer20`, `zhao13`, `li16`, `hcn_gao` over the reals, with their tables | tables compared entry by entry with the published relation, stated in logarithms; monotonicity from the relation; universal refutations |
| C79 | `log10normal`, every relation that calls it, `keating16`, `padmanabhan19`, Behroozi `sfr`/`stellarmass`; generators are quantified | pointwise equations; the mean by shifting a Gaussian integral (Coquelicot), limit of truncated integrals |
| C80 | `f_duty`, `pullen13`, `lidz11`, `hcn_breysse` | pointwise equations; uniform mean by an integral over the draw |
| C81 | `kamenetzky16` up to the failing read | case analysis: universal refutation |
| C82 | `yang22` with its tables over the reals; generators are quantified | tables compared with the published law; pointwise equations; universal refutations |
| C83 | `get_irlf_pars` and its use by the constructor | case analysis at the breaks; monotonicity of powers |
| C84 | `b17_sfms`, `b17_sffrac`, `b17_sbfrac`, `b17_sfr`; the error function is any increasing function into (-1, 1) | pointwise equations per galaxy; monotonicity |
| C85 | `_load_*`/`_make_*` as writes to files, each save in two steps; the matching itself is an argument (see C56) | invariant by induction on the history of calls and interruptions; refutations |
| C86 | `_make_spline_files`, `behroozi13_base.__init__` | lists: filter, sort, last valid entry; crash points by case analysis |
| C87 | `b17_smfpars` with its table and np.interp | table compared with the published one; lemma on piecewise linear interpolation |
| C88 | `schechter_gen`, `double_schechter_gen`: `lum_function`, `lum_function_int`, `_uppergammamod`, `_pdf`, `_cdf`, `_argcheck`; scipy's special functions are arguments with their documented integrals | recursion of the incomplete gamma function by induction on the number of steps, integrals by Coquelicot; numpy shapes as lists for the refutations |
| C89 | `_ppf` of both | lemmas on tables over a geometric grid; mean value theorem for the refutation |
| C90 | `modified_schechter_gen`, `double_power_law_gen`: all methods | cumulative sums by induction on the grid, exact round trip by algebra in one cell |
| C91 | `UniversemachineCatalogs.__init__`, `download_meta`, `UchuuCatalogs.__init__`, `download_meta`; python's float is an argument, web pages are strings | lemmas on split and contains; sorting is the identity exactly on sorted lists, uniqueness of the sorted order for the refutation; C38 for the tables |
| C92 | `_ascii_loader`, `_bin_loader` (32 bit words, IEEE single precision), field tables, with `SimCatalogs.format` of C35 | offsets of the record type, then C35 instantiated; the sfr refutation by bounds on the exponent |
| C93 | `UchuuCatalogs._loader`, field tables, with `format` | lemmas on replace and on joining dictionaries, then C35 |
| C94 | `download` of both, as lists of opens and block writes; the server is an argument | invariant over the list of writes, every prefix for crashes; strings: no border of data1, lengths |
| C95 | `clean_raw`, cleaning in `format`, `_get_rawsnapfiles`; `rm -r` with shell word splitting for plain characters and blanks | lemmas on splitting, filters |
| C96 | choice of snapshots in `SimCatalogs.__init__` | sorted insertion |
| C97 | lists of simulations and snapshots of `IllustrisCatalogs.__init__` | enumeration |
| C98 | field tables with dictionary displays, units, `_gcPath`, the chunked loader and `format` | refinement: C57 for the loader, C35 for format, then each column |
| C99 | `_loadSingle` with the offsets of the files | induction on the files |
| C100 | `download`: the loop around `wget -nc`, runs as a list of what they bring | induction on runs and snapshots |
| C101 | `_get_rawsnapfiles` with `rm -r` of C95 | names of three digits are injective |
| C102 | `gauss_psf`, `gauss_psf_freq_dependent`, `_check_shape` over reals, arrays as nested lists | exponent laws; the half power point of the default moves with frequency (refutation) |
| C103 | `gauss_response`, `boxcar_response` with keyword arguments | case analysis per channel, sums with one or two non-zero terms |
| C104 | `zero_noise`, `white_noise`, draws of the generator as arguments | linearity of sums, square root laws |
| C105 | the search loop of `add_detector` with fuel, the response as argument | windows halve until two grid points differ by less than 0.01; invariant: the peak is within one grid step |
| C106 | `_axis_edges` applied to shifted frequencies (grid model) | arithmetic of equally spaced sequences |
| C107 | `visualize` as the coordinate lists and array handed to the plot, with numpy's indexing, sums and transpose | pointwise description of each array operation; sums over cells reordered |
| C108 | `animate` as a list of frames plus what is saved and shown | as C107, one frame per index; axis renumbering after each sum tracked exactly |
| C109 | `animate` of a light cone as boxes, marker sizes, titles and outlines, with the distance-redshift relation as an argument | floor arithmetic for the boxes; each halo has one index; inverse relation as hypothesis |
| C110 | the two plotting methods as curves, lines and colour arrays handed to matplotlib | pointwise description of the arrays; index swap for the transposed picture |
| C111 | `Detector.__init__` on top of the instrument model | case analysis over the constructor and `add_detector` lemmas |
| C112 | `plot` and `hist` as the data and keyword arguments handed to matplotlib | selection lemma of C28 per property; dictionary laws |
| C113 | `evaluate` of both property classes and the assignment to a tuple | specification of `evaluate_all` (C29), induction over names |
| C114 | `galprops_builtin.py` as a table of constructor calls over arbitrary relations, with the headers of the relations | `make_property` theorem (C29) specialised; table facts by computation; composition of two calls |
| C115 | the arrays of units with their numpy dtype (objects, or strings of a fixed width) in `__init__` and `scale_axis` | invariant of the dtypes over histories of calls; induction on the axes; geometry as in C23 |
| C116 | the name lists of a handler as objects in a heap, `extract_keys` handing out references, callers changing lists they hold | refinement of the handler model (`view`); invariants for lists the handler uses and no longer uses; two-run argument for lists of the caller |
| C117 | the lookup of a maker's mass cut in a formatted file, composed with the formatting and build models | composition of C35/C36, the loading of a snapshot and C42 |
| C118 | the two groups of a finished light cone file as names bound to shared datasets, under any history of handler calls | invariant: references of the full table are distinct, and a dataset in both tables has one name; refinement to the handler model |
| C119 | the constructor of `LCMaker` and the rejection loop over arbitrary lists of draws | monotonicity of tan and atan; the diagonal is the best line of sight; induction over draws |
| C120 | `gridder_function` on top of the model of `Gridder` | inversion of the constructor, the lattice lemmas of C03 and C04, stated with the returned edges only |
| C121 | the attribute reffreq beside the model of `Instrument`, the peak search as argument | induction over histories with the table invariant of C49; the refutation is for every call that sets a response |
| C122 | `PSF` and `SpectralPSF` as for C22 | the gaussian rewritten as a power of one half, product over the axes by induction; the default side by rewriting |
| C123 | `GenericLCMaker.__init__` on the file system of C33; the rest of the constructors is an arbitrary outcome that writes nothing | frame lemmas for each step; the answers by C46_overwrite; a session opened after a directory was made holds the same registry |
| C124 | `SphereMaker.__init__`; the interpolated distance is an arbitrary partial function | inversion of the checks; the greatest redshift by C119's lemma |
| C125 | the question of `SimCatalogs.format` in front of the model of C39 | induction on the answers; a removal in the trace can only come from the last step of a snapshot |
| C126 | the model of `_setuppath` and the three registration methods of C33 | induction on the list of directories; case analysis on the answers |
| C127 | `setupsimim` in front of the model of C126 | C126 and case analysis on what is typed; refuted for '~/...' |
| C128 | `GridFromAxesAndFunction` on top of the grids of C25 | C25 for the geometry; the last axis of length one does not change the order of the values; refuted for several properties |

No property in the list is left out as inexpressible; each has theorems.

## Trusted base

* Coq 8.16.1's kernel, and the standard library. No axioms of our own, no functors, no
  module types, no plugins, no kernel check switched off.
* That the model reads the python correctly. Every definition cites the lines it models.
* The modelling decisions above: exact arithmetic, atomic h5py calls, numpy's documented
  behaviour.

`Print Assumptions` follows every theorem. The axioms that appear are those of the standard
library's real numbers and nothing else. By set of axioms:

* `ClassicalDedekindReals.sig_forall_dec`, `FunctionalExtensionality.functional_extensionality_dep` (52 theorems):
  C56_order_partial, C56_match_partial, C56_inverse_partial, C56_back_partial, C56_dfdf_partial, C56_dfdf_back_partial, C56_ends_refuted, C56_dfdf_ends_refuted, C64_p2_partial, C64_p1_partial, C64_dfdf_partial, C64_lost_refuted, C64_lost_back_refuted, C64_dfdf_lost_refuted, C64_dfdf_swapped_refuted, C88_accepts, C40_snapshots_partial, C42_replication, C45_added, C45_vectors, C45_twice, C45_empty, C61_crash_partial, C61_crash_vectors_partial, C61_skipped_refuted, C77_made, C77_made_refuted, C124_accepts, C124_fits_partial, C124_size_refuted, C110_spectra_partial, C110_range_partial, C110_beam_partial, C110_names, C91_um_partial, C91_um_refuted, C91_uchuu, C80_fraction, C80_shapes, C103_boxcar, C103_channels_partial, C103_edges_refuted, C84_starburst, C85_uninitialised, C86_low_refuted, C38_tile, C38_order, C38_illustris, C38_numbered, C38_illustris_refuted, C37_find_partial, C37_top_refuted
* `ClassicalDedekindReals.sig_forall_dec`, `ClassicalDedekindReals.sig_not_dec`, `Classical_Prop.classic`, `FunctionalExtensionality.functional_extensionality_dep` (156 theorems):
  C125_refused, C125_unclear, C125_agreed, C125_raw, C88_total, C88_cdf_partial, C88_shape, C88_array_refuted, C88_pdf_refuted, C88_below_refuted, C89_partial, C89_order, C89_inverse_refuted, C90_cdf_partial, C90_inverse_refuted, C90_inverse_partial, C90_top_refuted, C90_functions, C88_zero, C90_zero, C90_double, C90_modified, C35_format, C36_cuts, C36_index_partial, C36_range_refuted, C36_units_refuted, C39_history_partial, C39_crash, C39_raw, C39_head_refuted, C39_half_refuted, C39_merge_refuted, C39_number_refuted, C22_area, C22_spectral_area, C22_peak_partial, C22_spectral_peak_partial, C22_peak_refuted, C98_stored_partial, C98_sfr_refuted, C98_bhmdot_refuted, C41_buffer_partial, C41_buffer_refuted, C44_partial, C44_first_refuted, C45_built, C46_finished, C46_crash, C46_failed, C46_sphere_crash, C46_stale, C59_flip_refuted, C60_partial, C60_sticky_refuted, C61_zeros_refuted, C75_box_refuted, C75_disc_refuted, C77_shape_refuted, C119_found_partial, C119_room_refuted, C119_wide_refuted, C117_loaded_partial, C117_units_refuted, C117_default_refuted, C110_beam_refuted, C109_tiles, C109_once_partial, C109_edge_refuted, C109_units_refuted, C109_title_refuted, C109_outline_partial, C109_sizes_partial, C109_equal_refuted, C122_peak, C122_shape, C122_half, C122_spectral, C122_default, C122_spectral_default_partial, C122_spectral_six_refuted, C92_text_partial, C92_binary_partial, C92_sfr_refuted, C92_wrap_refuted, C92_r_refuted, C92_ratio_refuted, C92_one_refuted, C93_stored, C93_uneven, C93_missing, C78_delooze, C78_uzgil, C78_spinoglio, C78_schaerer, C78_zhao, C78_li, C78_gao, C78_names_partial, C78_documented_refuted, C78_ghz_refuted, C79_value, C79_sign, C79_mean, C79_relations, C79_padmanabhan, C79_keating, C79_behroozi_partial, C79_seed_refuted, C80_random, C80_plain, C80_mean, C80_massless, C78_padmanabhan, C102_beam, C102_width, C102_bad_axes, C102_scaled_partial, C102_default_refuted, C103_gauss, C103_keyword_refuted, C105_ends, C105_peak_partial, C105_gauss_partial, C105_accuracy_refuted, C105_boxcar_refuted, C105_narrow_refuted, C102_keywords, C103_keywords, C83_value_partial, C83_monotone, C83_constructor_refuted, C83_none_refuted, C84_main_sequence, C84_fraction_partial, C84_fraction_refuted, C84_assign, C84_nan_partial, C84_lowz_refuted, C85_mixed_refuted, C86_tables, C86_succeeds, C86_pair, C87_between, C87_range, C87_valid, C87_published, C82_value_partial, C82_mean, C82_names, C82_ci_refuted, C82_scalar_refuted, C82_seed_refuted, C82_zero_refuted, C82_co, C82_now
* **Closed under the global context** (335 theorems):
  C114_made, C114_unit, C114_value, C114_units, C114_missing, C114_keywords, C114_chain, C114_clash_refuted, C111_accepts, C111_error, C111_one, C76_bins_partial, C76_same, C76_independent_partial, C76_dict_partial, C76_leak_refuted, C76_fail_refuted, C76_own_refuted, C106_fourier_bins_partial, C106_fourier_edges_refuted, C107_sum_partial, C107_slice_partial, C107_order_refuted, C107_fourier_refuted, C107_property_index, C107_slice_count, C108_frames_partial, C108_coordinates_partial, C108_boundaries_refuted, C108_high_axis_refuted, C108_summed_below_refuted, C108_still_refuted, C120_cells, C120_total, C120_edges, C120_returns, C120_gridder, C128_values_partial, C128_shape, C128_properties_refuted, C01_construction, C01_raises_exactly, C01_axis, C02_side_partial, C02_covers_refuted, C03_cells, C03_new_property, C03_unique_cell, C04_conservation, C04_conservation_new, C05_order, C05_split, C05_rejected_partial, C05_rejected_refuted, C06_routing_partial, C06_routing_refuted, C07_sample, C07_sample_after_gridding, C08_spectra, C08_axis, C09_chunks, C09_is_one_call, C10_flux, C16_default, C16_value_partial, C16_padding_default, C16_padding_partial, C16_linear, C16_identity, C16_new_partial, C16_list_pad_refuted, C16_one_axis_refuted, C11_pad_partial, C11_round_trip_partial, C11_agree_in_order, C11_single_axis_refuted, C12_crop_partial, C12_raises_partial, C12_failed_crop_refuted, C12_empty_crop_refuted, C18_in_place, C18_default, C18_rejects, C18_new_partial, C18_new_raises_refuted, C18_new_flags_refuted, C19_copy_partial, C19_save_load_partial, C19_units_new, C19_no_overwrite_partial, C19_overwrite_refuted, C19_subset_partial, C19_subset_refuted, C19_after_sum_refuted, C23_scale_partial, C23_single_axis_refuted, C23_fixed_center_refuted, C14_twice, C14_refused, C58_order, C58_groups, C15_cross_partial, C15_auto_partial, C15_symmetric_partial, C15_in_place, C15_mismatch_refuted, C15_units_refuted, C15_props_refuted, C17_one_axis_partial, C17_total_partial, C17_refused, C17_two_axes_refuted, C17_two_axes_total_refuted, C17_property_weights_refuted, C20_shells_partial, C20_last_refuted, C20_small_weights_refuted, C21_all_iff_partial, C21_all_refuted, C24_bins_partial, C24_consistent_refuted, C24_active_refuted, C25_edges, C13_history_partial, C13_integers_refuted, C13_failed_crop_refuted, C73_cells, C73_succeeds, C73_default, C73_units, C73_edge_refuted, C73_empty_refuted, C74_cells, C74_succeeds, C74_default_partial, C74_freq_refuted, C74_shape_refuted, C74_empty_refuted, C112_plot_partial, C112_kws_refuted, C112_keep, C112_defaults, C112_dict_refuted, C112_hist_partial, C113_prop_partial, C113_single, C113_kws_refuted, C113_multi_partial, C113_tuple_refuted, C113_tuple_partial, C26_transparent, C26_one, C27_convert, C27_stored, C27_default, C27_function, C28_selection, C28_rows, C29_make, C29_write, C29_integer_refuted, C30_write_partial, C30_other, C30_delete, C30_failure_partial, C30_failed_delete, C30_guard_partial, C30_openable_partial, C30_corrupt_refuted, C30_mass_refuted, C30_truncate_refuted, C30_guard_refuted, C31_available_partial, C31_saved_partial, C31_unload_refuted, C32_eval, C32_evo_partial, C32_count_refuted, C32_raise_refuted, C47_bins_partial, C47_unique_partial, C47_edge_refuted, C47_count_refuted, C55_units_partial, C55_single_partial, C55_hdep_refuted, C55_make_refuted, C97_snapshots, C97_unknown, C99_row, C99_refused_partial, C99_beyond_refuted, C100_complete_partial, C100_keeps, C100_redownload_refuted, C100_resume_refuted, C100_silent_refuted, C100_waits, C101_snapshot, C97_requested, C49_partial, C49_lost_refuted, C49_name_refuted, C49_add, C49_del, C49_set, C49_fields, C50_after_change, C50_fresh, C50_refused, C51_partial, C51_tables_partial, C51_name_refuted, C52_groups, C52_layers, C52_succeeds, C53_columns, C53_observed, C53_succeeds, C54_partial, C54_rejects_partial, C54_ignored_refuted, C54_wrong_refuted, C54_accepts_refuted, C62_copy_refuted, C62_units_refuted, C62_map_refuted, C62_partial, C63_number_refuted, C63_partial, C116_answer, C116_sets, C116_methods, C116_make, C116_loaded_partial, C116_live_partial, C116_frozen_partial, C116_record_refuted, C116_edit_refuted, C116_cuts_refuted, C116_generated_refuted, C46_overwrite, C77_each, C77_fails, C118_handler, C118_names, C118_kept_partial, C118_deleted, C118_frozen, C118_copy_refuted, C118_basic_refuted, C123_kept, C123_occupied, C123_new, C123_first, C123_unknown, C123_names, C123_left_refuted, C33_history, C33_last, C33_space_refuted, C33_setup_refuted, C33_newline_refuted, C34_existing, C34_fresh, C34_others, C34_root, C126_setup, C126_first, C126_place, C127_first_partial, C127_tilde_refuted, C110_all_spectra_refuted, C94_um, C94_um_crash, C94_resume_refuted, C94_uchuu_partial, C94_uchuu_crash, C94_place_refuted, C95_raw_partial, C95_blank_refuted, C95_um_files, C95_uchuu_refuted, C96_snapshots, C91_page, C91_names, C121_added, C121_kept, C121_current_partial, C121_stale_refuted, C79_error_refuted, C81_refuted, C85_history_partial, C85_property, C85_stale_refuted, C85_remake_refuted, C85_torn_refuted, C86_files_partial, C86_crash_refuted, C65_init_partial, C65_handlers, C65_independent, C65_option_refuted, C66_disk_partial, C66_memory_partial, C66_failed_partial, C66_repeat_partial, C66_selection_refuted, C66_refusal_refuted, C66_builtin_refuted, C67_delete_partial, C67_builtin_partial, C67_half_refuted, C67_builtin_refuted, C68_range_partial, C68_refused, C68_half_refuted, C69_stat_partial, C69_number_refuted, C70_stored_partial, C70_fresh_refuted, C70_mixed_refuted, C71_inverse_refuted, C71_partial, C72_open_partial, C72_constant_partial, C72_stale_refuted, C115_unit_partial, C115_long_refuted, C115_none_refuted, C115_list_partial, C115_order_refuted, C115_list_refuted, C115_same, C115_geometry
* `ClassicalDedekindReals.sig_forall_dec` (5 theorems):
  C57_concat_partial, C57_first_refuted, C57_one_refuted, C91_saved, C104_none
* `ClassicalDedekindReals.sig_forall_dec`, `ClassicalDedekindReals.sig_not_dec`, `FunctionalExtensionality.functional_extensionality_dep` (25 theorems):
  C14_complex, C58_frequencies, C40_slabs_partial, C40_boundary_refuted, C41_partial, C41_behind_refuted, C42_parents, C43_rotation, C43_every, C48_partial, C48_size_refuted, C59_partial, C75_value, C75_default, C75_additive, C75_accepted_partial, C75_monotone_partial, C75_rejected_refuted, C75_order_refuted, C75_other_refuted, C77_volume_partial, C119_accepts, C104_white, C104_negative, C104_mean

## Mutation testing

`seeded/LOG.jsonl` lists the wrong programs tried: each line names the edited definition, the
edit, the claim it breaks, the theorems that then failed to prove and what was tightened.
