{
 "claims": [
  {
   "property": "C01",
   "status": "proved",
   "theorems": [
    "C01_construction",
    "C01_raises_exactly",
    "C01_axis"
   ],
   "note": "floats idealised as exact rationals"
  },
  {
   "property": "C02",
   "status": "partial",
   "theorems": [
    "C02_side_partial",
    "C02_covers_refuted"
   ],
   "note": "bounds on the change proved; 'the grid covers the requested side' is false: rounding to one decimal can shrink the side (3.04 with pixel 1 gives 3)"
  },
  {
   "property": "C03",
   "status": "proved",
   "theorems": [
    "C03_cells",
    "C03_new_property",
    "C03_unique_cell"
   ],
   "note": "float positions; several columns are covered by C06"
  },
  {
   "property": "C04",
   "status": "proved",
   "theorems": [
    "C04_conservation",
    "C04_conservation_new"
   ],
   "note": ""
  },
  {
   "property": "C05",
   "status": "partial",
   "theorems": [
    "C05_order",
    "C05_split",
    "C05_rejected_partial",
    "C05_rejected_refuted"
   ],
   "note": "order and split proved; 'a rejected call leaves the grid unchanged' fails for the IndexError raised inside the property loop"
  },
  {
   "property": "C06",
   "status": "partial",
   "theorems": [
    "C06_routing_partial",
    "C06_routing_refuted"
   ],
   "note": "true for one column or for the properties 0..n-1 in order; columns are indexed by property number, so [1,0] swaps them"
  },
  {
   "property": "C07",
   "status": "proved",
   "theorems": [
    "C07_sample",
    "C07_sample_after_gridding"
   ],
   "note": ""
  },
  {
   "property": "C08",
   "status": "proved",
   "theorems": [
    "C08_spectra",
    "C08_axis"
   ],
   "note": "grids of dimension >= 2; n_objects counts objects, not channels"
  },
  {
   "property": "C09",
   "status": "proved",
   "theorems": [
    "C09_chunks",
    "C09_is_one_call"
   ],
   "note": "2-d position arrays, dimension >= 2"
  },
  {
   "property": "C10",
   "status": "proved",
   "theorems": [
    "C10_flux"
   ],
   "note": ""
  },
  {
   "property": "C11",
   "status": "partial",
   "theorems": [
    "C11_pad_partial",
    "C11_round_trip_partial",
    "C11_agree_in_order",
    "C11_agree_common",
    "C11_single_axis_refuted"
   ],
   "note": "exact effect and exact round trip proved when the code's entry pad[ax[i]] agrees with the one requested; padding any single axis i>=1 always raises IndexError"
  },
  {
   "property": "C12",
   "status": "partial",
   "theorems": [
    "C12_crop_partial",
    "C12_raises_partial",
    "C12_failed_crop_refuted",
    "C12_empty_crop_refuted"
   ],
   "note": "exact effect proved when at least two centres are selected; otherwise crop raises after having changed the grid"
  },
  {
   "property": "C18",
   "status": "partial",
   "theorems": [
    "C18_in_place",
    "C18_default",
    "C18_rejects",
    "C18_new_partial",
    "C18_new_raises_refuted",
    "C18_new_flags_refuted"
   ],
   "note": "In place fully proved. Out of place the claim is false: any grid with more than one unit entry raises ValueError and Fourier/power flags are cleared; proved for the remaining grids."
  },
  {
   "property": "C19",
   "status": "partial",
   "theorems": [
    "C19_copy_partial",
    "C19_save_load_partial",
    "C19_units_new",
    "C19_no_overwrite_partial",
    "C19_overwrite_refuted",
    "C19_subset_partial",
    "C19_subset_refuted",
    "C19_after_sum_refuted"
   ],
   "note": "Copy and save/LoadGrid reproduce the grid when there is one unit per property and the file name ends in .npz; false after a property was appended, for property subsets of multi-unit grids, and overwrite=False replaces files when the suffix is omitted. File contents are abstract (the stored fields)."
  },
  {
   "property": "C23",
   "status": "partial",
   "theorems": [
    "C23_scale_partial",
    "C23_single_axis_refuted",
    "C23_fixed_center_refuted"
   ],
   "note": "Holds when factor[axis] is the factor given for that axis; refuted for any single axis other than the first and for a fixed centre."
  },
  {
   "property": "C14",
   "status": "proved",
   "theorems": [
    "C14_twice",
    "C14_complex",
    "C14_refused"
   ],
   "note": "Axes distinct (a repeated axis transforms twice by definition of fftn). FFTs are modelled by the defining sums over an abstract algebra with roots of unity, instantiated with the complex numbers over the stdlib reals."
  },
  {
   "property": "C58",
   "status": "proved",
   "theorems": [
    "C58_frequencies",
    "C58_order",
    "C58_groups"
   ],
   "note": "Value of every cell after transforming one axis; several axes reduce to this by C58_groups."
  },
  {
   "property": "C15",
   "status": "partial",
   "theorems": [
    "C15_cross_partial",
    "C15_auto_partial",
    "C15_symmetric_partial",
    "C15_in_place",
    "C15_mismatch_refuted",
    "C15_units_refuted",
    "C15_props_refuted"
   ],
   "note": "Proved whenever the call succeeds for distinct axes (cell counts agree, unit list fits). False on the error exits: differing cell counts or unit lists raise ValueError after both grids were moved to Fourier space."
  },
  {
   "property": "C17",
   "status": "partial",
   "theorems": [
    "C17_one_axis_partial",
    "C17_total_partial",
    "C17_refused",
    "C17_two_axes_refuted",
    "C17_two_axes_total_refuted",
    "C17_property_weights_refuted"
   ],
   "note": "Proved for a single axis (weights absent, per axis cell or per grid cell; sum or average; in place or copied). Refuted for two or more axes and for per-property weights: no such call ever gives a well-formed grid."
  },
  {
   "property": "C20",
   "status": "partial",
   "theorems": [
    "C20_shells_partial",
    "C20_last_refuted",
    "C20_small_weights_refuted"
   ],
   "note": "Every shell but the last is averaged over exactly its cells for whole-number weights; the last shell is always nan, and weights below one are truncated to nothing."
  },
  {
   "property": "C21",
   "status": "partial",
   "theorems": [
    "C21_all_iff_partial",
    "C21_all_refuted"
   ],
   "note": "Exact condition under which every object is gridded; false in general because the side length may be rounded down."
  },
  {
   "property": "C24",
   "status": "partial",
   "theorems": [
    "C24_bins_partial",
    "C24_consistent_refuted",
    "C24_active_refuted"
   ],
   "note": "Proved: a returning call bins complete groups (counts, pixel sizes, centres, cell values). False: no returning call leaves a consistent grid, and with current numpy a grid with data cannot be down-sampled at all."
  },
  {
   "property": "C25",
   "status": "proved",
   "theorems": [
    "C25_edges"
   ],
   "note": "Edges and midpoints exactly reproduced for uniform edges, three or more per axis."
  },
  {
   "property": "C13",
   "status": "partial",
   "theorems": [
    "C13_history_partial",
    "C13_integers_refuted",
    "C13_failed_crop_refuted"
   ],
   "note": "Proved by induction over arbitrary call histories for float attributes and positive scale factors; integer grids and failed crops break it."
  },
  {
   "property": "C22",
   "status": "partial",
   "theorems": [
    "C22_area",
    "C22_spectral_area",
    "C22_peak_partial",
    "C22_spectral_peak_partial",
    "C22_peak_refuted"
   ],
   "note": "Area normalisation fully proved over the real exponential. The peak is one exactly when every axis has an odd number of cells; refuted for the default side length."
  },
  {
   "property": "C16",
   "status": "partial",
   "theorems": [
    "C16_default",
    "C16_value_partial",
    "C16_padding_default",
    "C16_padding_partial",
    "C16_linear",
    "C16_identity",
    "C16_new_partial",
    "C16_list_pad_refuted",
    "C16_one_axis_refuted"
   ],
   "note": "Fully proved for the default axes with no or integer padding. For chosen axes the padding must reach the right axes (bug of pad, C11); list pads raise TypeError and leave the padded grid; padding a single axis other than the first raises IndexError."
  },
  {
   "property": "C26",
   "status": "proved",
   "theorems": [
    "C26_transparent",
    "C26_one"
   ],
   "note": "Reading histories: removing every load and unload from a history changes no returned value. One load/unload in any coherent state (made properties included)."
  },
  {
   "property": "C27",
   "status": "proved",
   "theorems": [
    "C27_convert",
    "C27_stored",
    "C27_default",
    "C27_function"
   ],
   "note": "Integer powers of h; exact arithmetic."
  },
  {
   "property": "C28",
   "status": "proved",
   "theorems": [
    "C28_selection",
    "C28_rows"
   ],
   "note": "Over all histories of handler calls (load, unload, make, write, delete, set range, unit switch). eval_stat_evo breaks the count: C32_count_refuted."
  },
  {
   "property": "C29",
   "status": "partial",
   "theorems": [
    "C29_make",
    "C29_write",
    "C29_integer_refuted"
   ],
   "note": "Holds for functions that return floats; a function returning an integer array always raises ValueError (line 326)."
  },
  {
   "property": "C30",
   "status": "partial",
   "theorems": [
    "C30_write_partial",
    "C30_other",
    "C30_delete",
    "C30_failure_partial",
    "C30_failed_delete",
    "C30_guard_partial",
    "C30_openable_partial",
    "C30_corrupt_refuted",
    "C30_mass_refuted",
    "C30_truncate_refuted",
    "C30_guard_refuted"
   ],
   "note": "False as stated: load, delete, write back raises KeyError and leaves a file that cannot be opened; writing floats over an integer dataset truncates; with one halo an empty selection passes the coverage guard. Proved outside these cases."
  },
  {
   "property": "C31",
   "status": "partial",
   "theorems": [
    "C31_available_partial",
    "C31_saved_partial",
    "C31_unload_refuted"
   ],
   "note": "False for made properties that are unloaded before being written (returns None). Proved for histories that unload only saved properties."
  },
  {
   "property": "C32",
   "status": "partial",
   "theorems": [
    "C32_eval",
    "C32_evo_partial",
    "C32_count_refuted",
    "C32_raise_refuted"
   ],
   "note": "eval_stat_evo restores the rows but not their number, and nothing when the statistic raises. volume_kw is not modelled."
  },
  {
   "property": "C47",
   "status": "partial",
   "theorems": [
    "C47_bins_partial",
    "C47_unique_partial",
    "C47_edge_refuted",
    "C47_count_refuted"
   ],
   "note": "Bins are closed on both sides: rows on interior edges are in two bins."
  },
  {
   "property": "C55",
   "status": "partial",
   "theorems": [
    "C55_units_partial",
    "C55_single_partial",
    "C55_hdep_refuted",
    "C55_make_refuted"
   ],
   "note": "Line 68 stores the h-dependences in units: lists of two or more h-dependences never work."
  },
  {
   "property": "C33",
   "status": "proved",
   "theorems": [
    "C33_history",
    "C33_last",
    "C33_space_refuted",
    "C33_setup_refuted",
    "C33_newline_refuted"
   ],
   "note": "For histories of registrations (any outcome) and setups that do not fail while creating directories, with names and paths without spaces or newlines. The refuted theorems show what fails outside these conditions: a space cuts the path, a setup that fails half way leaves the old registries in memory, a file without a final newline swallows the next entry."
  },
  {
   "property": "C34",
   "status": "proved",
   "theorems": [
    "C34_existing",
    "C34_fresh",
    "C34_others",
    "C34_root"
   ],
   "note": "Answers are a list of typed lines; running out of lines is EOFError."
  },
  {
   "property": "C37",
   "status": "partial",
   "theorems": [
    "C37_find_partial",
    "C37_top_refuted"
   ],
   "note": "Proved for every table make_meta generates, every valid argsort: inside [0, z of the first snapshot) the lookup returns the unique snapshot whose shell holds z, outside it raises ValueError. Missing: the upper end itself, which passes the range check and then always raises IndexError. Numbers are real, float32 rounding of the stored table is not modelled."
  },
  {
   "property": "C38",
   "status": "proved",
   "theorems": [
    "C38_tile",
    "C38_order",
    "C38_illustris",
    "C38_numbered",
    "C38_illustris_refuted"
   ],
   "note": "Neighbouring shells share redshift, time and distance boundaries for every descending snapshot list and monotone cosmology; wrong order is refused. C38_illustris_refuted: Illustris sorts the server's list twice, so a listing that is not already in order raises or describes another snapshot."
  },
  {
   "property": "C35",
   "status": "proved",
   "theorems": [
    "C35_format"
   ],
   "note": "A call of format that can run does run; the group of every snapshot it formats holds all datasets in one common halo order, heaviest first, with the right unit conversion, units and h dependence. Casts to the stored dtypes are not modelled."
  },
  {
   "property": "C36",
   "status": "partial",
   "theorems": [
    "C36_cuts",
    "C36_index_partial",
    "C36_range_refuted",
    "C36_units_refuted"
   ],
   "note": "The stored indices are right. get_mass_index includes every halo above the mass for masses in [1e6,1e20) in units with h; below 1e6 it drops halos, and without h (the default) it divides by h instead of multiplying and drops halos."
  },
  {
   "property": "C39",
   "status": "partial",
   "theorems": [
    "C39_history_partial",
    "C39_crash",
    "C39_raw",
    "C39_head_refuted",
    "C39_half_refuted",
    "C39_merge_refuted",
    "C39_number_refuted"
   ],
   "note": "Proved for every list of completed calls and every crash point: rows sorted, one per formatted snapshot, data of the last call, other snapshots untouched, raw files deleted only after a complete write. Refuted: a crash leaves rows without data or an empty group that later calls skip; merged rows never tile; number_snaps changes meaning."
  },
  {
   "property": "C57",
   "status": "partial",
   "theorems": [
    "C57_concat_partial",
    "C57_first_refuted",
    "C57_one_refuted"
   ],
   "note": "Concatenation proved for two or more fields and any split whose first file has the fields; an empty first file raises, and a single field makes the Illustris loader fail."
  },
  {
   "property": "C40",
   "status": "partial",
   "theorems": [
    "C40_slabs_partial",
    "C40_snapshots_partial",
    "C40_boundary_refuted"
   ],
   "note": "Proved for every build that runs: slabs of a snapshot tile its range, rows are in order, and every distance belongs to one snapshot in use. Missing: a snapshot that only touches the redshift range is in use and makes the build raise ValueError."
  },
  {
   "property": "C41",
   "status": "partial",
   "theorems": [
    "C41_partial",
    "C41_buffer_partial",
    "C41_buffer_refuted",
    "C41_behind_refuted"
   ],
   "note": "Soundness for all pointings; completeness if the buffer is wide enough, which is proved for narrow cones with balanced lines of sight. Refuted: a line of sight the code accepts whose buffer loses a halo; halos behind the observer when the cone starts at distance 0. Angles are in exact reals; masses are cut with get_mass_index as given."
  },
  {
   "property": "C42",
   "status": "proved",
   "theorems": [
    "C42_replication",
    "C42_parents"
   ],
   "note": "Each periodic image exactly once; the recorded parent is the halo the row is an image of. copies_max is 1 or 2 in practice; the theorem is for any number of doublings."
  },
  {
   "property": "C43",
   "status": "proved",
   "theorems": [
    "C43_rotation",
    "C43_every"
   ],
   "note": "For every unit line of sight not along the third axis (the code divides by zero there) and every position angle; rotations are linear and keep scalar and vector products."
  },
  {
   "property": "C44",
   "status": "partial",
   "theorems": [
    "C44_partial",
    "C44_first_refuted"
   ],
   "note": "Proved for cones and redshifts in (0, 20.05]. The first entry is never counted: in spherical modes a halo at the observer (redshift 0) is missing from it."
  },
  {
   "property": "C45",
   "status": "proved",
   "theorems": [
    "C45_added",
    "C45_vectors",
    "C45_built",
    "C45_twice",
    "C45_empty"
   ],
   "note": "For every set of light cones whose rows are grouped by snapshot, which C45_built proves of every finished build. C45_twice: a key given twice makes the call fail. C45_empty: so does one light cone without halos. Dtypes are not modelled."
  },
  {
   "property": "C46",
   "status": "proved",
   "theorems": [
    "C46_finished",
    "C46_crash",
    "C46_failed",
    "C46_sphere_crash",
    "C46_overwrite",
    "C46_stale"
   ],
   "note": "Every h5py call is one atomic step and a crash is any prefix. C46_stale records that files of an earlier, larger set survive a rebuild and stay marked as finished."
  },
  {
   "property": "C48",
   "status": "partial",
   "theorems": [
    "C48_partial",
    "C48_size_refuted"
   ],
   "note": "Proved: rows are the halos of the region, each at most once, all of them if the distance range fits into the box. Refuted: the size check compares Mpc/h with Mpc, so ranges that do not fit are accepted and halos are misplaced."
  },
  {
   "property": "C59",
   "status": "partial",
   "theorems": [
    "C59_partial",
    "C59_flip_refuted"
   ],
   "note": "add_pos_properties ignores the flips of the box: right exactly when the flip leaves the vector unchanged."
  },
  {
   "property": "C60",
   "status": "partial",
   "theorems": [
    "C60_partial",
    "C60_sticky_refuted"
   ],
   "note": "The box size test holds for the accepted draw; each angle test holds for it or for an earlier draw, since the flags are not reset between draws. A draw accepted at once passes all tests."
  },
  {
   "property": "C61",
   "status": "partial",
   "theorems": [
    "C61_crash_partial",
    "C61_crash_vectors_partial",
    "C61_skipped_refuted",
    "C61_zeros_refuted"
   ],
   "note": "The first half holds at every crash point. Repeating the call does not repair: columns that exist are skipped and stay at their initial zeros."
  },
  {
   "property": "C49",
   "status": "partial",
   "theorems": [
    "C49_partial",
    "C49_add",
    "C49_del",
    "C49_set",
    "C49_fields",
    "C49_name_refuted",
    "C49_lost_refuted"
   ],
   "note": "Holds through every history for detectors not called 'instrument'. add_detector accepts that name, gives the detector no responses, and map_fields then always fails."
  },
  {
   "property": "C50",
   "status": "proved",
   "theorems": [
    "C50_after_change",
    "C50_fresh",
    "C50_refused",
    "C52_layers"
   ],
   "note": "Over all histories of the instrument's methods, failed calls included. C52_layers gives the content and order of the layers."
  },
  {
   "property": "C51",
   "status": "partial",
   "theorems": [
    "C51_partial",
    "C51_tables_partial",
    "C51_name_refuted"
   ],
   "note": "Holds unless the new detector is called 'instrument': then the instrument's default responses may have changed. The tables, counters and map flags never change."
  },
  {
   "property": "C52",
   "status": "proved",
   "theorems": [
    "C52_groups",
    "C52_layers",
    "C52_succeeds"
   ],
   "note": "For three-dimensional real-space fields with data, integer or no padding and beams that fit; cells whose weights add up to zero are not determined."
  },
  {
   "property": "C53",
   "status": "proved",
   "theorems": [
    "C53_columns",
    "C53_observed",
    "C53_succeeds"
   ],
   "note": "Positions are given as an n x 2 array; noise functions return one value per position."
  },
  {
   "property": "C54",
   "status": "partial",
   "theorems": [
    "C54_partial",
    "C54_rejects_partial",
    "C54_ignored_refuted",
    "C54_wrong_refuted",
    "C54_accepts_refuted"
   ],
   "note": "Right for index 0 and for copied fields. In place the index is checked against the number of axes and then ignored: property 0 is mapped."
  },
  {
   "property": "C62",
   "status": "partial",
   "theorems": [
    "C62_partial",
    "C62_copy_refuted",
    "C62_units_refuted",
    "C62_map_refuted"
   ],
   "note": "Holds for grids with one property. Grids with several are refused unless added in place, refused by the unit check, and cannot be mapped without an explicit beam."
  },
  {
   "property": "C63",
   "status": "partial",
   "theorems": [
    "C63_partial",
    "C63_number_refuted"
   ],
   "note": "A size per axis works; one number raises TypeError."
  },
  {
   "property": "C56",
   "status": "partial",
   "theorems": [
    "C56_order_partial",
    "C56_match_partial",
    "C56_inverse_partial",
    "C56_back_partial",
    "C56_dfdf_partial",
    "C56_dfdf_back_partial",
    "C56_ends_refuted",
    "C56_dfdf_ends_refuted"
   ],
   "note": "Holds within the range when both properties miss the same mass (strictly within it for array arguments; distinct values for the inverse from property 2). In an array the smallest and largest values always get 0."
  },
  {
   "property": "C64",
   "status": "partial",
   "theorems": [
    "C64_p2_partial",
    "C64_p1_partial",
    "C64_dfdf_partial",
    "C64_lost_refuted",
    "C64_lost_back_refuted",
    "C64_dfdf_lost_refuted",
    "C64_dfdf_swapped_refuted"
   ],
   "note": "Holds on a side where mass is missing. With none missing (the default) the extrapolation arguments have no effect; am_dfdf fills property 1 with the values of property 2."
  },
  {
   "property": "C65",
   "status": "partial",
   "theorems": [
    "C65_init_partial",
    "C65_handlers",
    "C65_independent",
    "C65_option_refuted"
   ],
   "note": "Holds for initialize_all_snaps through every history. The constructor option init_snaps=True always raises TypeError."
  },
  {
   "property": "C66",
   "status": "partial",
   "theorems": [
    "C66_disk_partial",
    "C66_memory_partial",
    "C66_failed_partial",
    "C66_repeat_partial",
    "C66_selection_refuted",
    "C66_refusal_refuted",
    "C66_builtin_refuted"
   ],
   "note": "Values, frame, failure prefix and repeatability hold as stated. With a selection on stored handlers NaN is written; a refused overwrite of a built-in still replaces it in memory; built-ins absent from the first snapshot are overwritten in the others."
  },
  {
   "property": "C67",
   "status": "partial",
   "theorems": [
    "C67_delete_partial",
    "C67_builtin_partial",
    "C67_half_refuted",
    "C67_builtin_refuted"
   ],
   "note": "A successful call removes exactly the names; refusals look at the first snapshot only. A name missing in a later snapshot leaves the deletion half done, and the call can then never be completed."
  },
  {
   "property": "C68",
   "status": "partial",
   "theorems": [
    "C68_range_partial",
    "C68_refused",
    "C68_half_refuted"
   ],
   "note": "A successful call selects as C28 says in every snapshot. A failing call has changed the selection of the earlier snapshots."
  },
  {
   "property": "C69",
   "status": "partial",
   "theorems": [
    "C69_stat_partial",
    "C69_number_refuted"
   ],
   "note": "The snaps argument holds positions in the table of snapshots, not snapshot numbers."
  },
  {
   "property": "C70",
   "status": "partial",
   "theorems": [
    "C70_stored_partial",
    "C70_fresh_refuted",
    "C70_mixed_refuted"
   ],
   "note": "Stored handlers follow the setting. Without them get_snap always removes h, so that snap_stat mixes masses with h and box edge without."
  },
  {
   "property": "C71",
   "status": "partial",
   "theorems": [
    "C71_inverse_refuted",
    "C71_partial"
   ],
   "note": "It returns the inverse of the number, for every volume; right exactly when the volume is that of the box."
  },
  {
   "property": "C72",
   "status": "partial",
   "theorems": [
    "C72_open_partial",
    "C72_constant_partial",
    "C72_stale_refuted"
   ],
   "note": "Right for the first group of the file when opened; never updated afterwards."
  },
  {
   "property": "C73",
   "status": "partial",
   "theorems": [
    "C73_cells",
    "C73_succeeds",
    "C73_default",
    "C73_units",
    "C73_edge_refuted",
    "C73_empty_refuted"
   ],
   "note": "Cells, limits, units and the exact condition for success are proved in general. False at the corners: a halo on the upper edge of the box is in no cell, and an empty selection raises."
  },
  {
   "property": "C74",
   "status": "partial",
   "theorems": [
    "C74_cells",
    "C74_succeeds",
    "C74_default_partial",
    "C74_freq_refuted",
    "C74_shape_refuted",
    "C74_empty_refuted"
   ],
   "note": "Cells, limits and the exact condition for success are proved in general. The redshift grid lacks the highest redshift and the frequency grid the lowest; shapes without open angle need explicit limits; empty selections raise."
  },
  {
   "property": "C75",
   "status": "partial",
   "theorems": [
    "C75_value",
    "C75_default",
    "C75_additive",
    "C75_accepted_partial",
    "C75_monotone_partial",
    "C75_box_refuted",
    "C75_rejected_refuted",
    "C75_disc_refuted",
    "C75_order_refuted",
    "C75_other_refuted"
   ],
   "note": "Right for regions of the light cone's own shape. A box in a circular light cone is compared with the diameter instead of its square; a disc in an oblong box may stick out; redshifts in reverse order give a negative volume; other shapes are not checked at all."
  },
  {
   "property": "C76",
   "status": "partial",
   "theorems": [
    "C76_bins_partial",
    "C76_same",
    "C76_independent_partial",
    "C76_dict_partial",
    "C76_leak_refuted",
    "C76_fail_refuted",
    "C76_own_refuted"
   ],
   "note": "The default dictionary is shared: a volume stays in it for all later calls, and a failed call leaves zmin. The caller's own zmin reaches the first bin only."
  },
  {
   "property": "C77",
   "status": "partial",
   "theorems": [
    "C77_each",
    "C77_fails",
    "C77_made",
    "C77_volume_partial",
    "C77_shape_refuted",
    "C77_made_refuted"
   ],
   "note": "Shapes are not compared, so the common volume may be wrong; empty lists and light cones without open angle raise."
  },
  {
   "property": "C78",
   "status": "partial",
   "theorems": [
    "C78_delooze",
    "C78_uzgil",
    "C78_spinoglio",
    "C78_schaerer",
    "C78_zhao",
    "C78_li",
    "C78_gao",
    "C78_padmanabhan",
    "C78_names_partial",
    "C78_documented_refuted",
    "C78_ghz_refuted"
   ],
   "note": "Every accepted line and set follows its published fit and increases. The documented set 'comp/agn' and the lines '[SiIII]33um' and '[SiIII]19um' are rejected, and unknown lines of uzgil14 and spinoglio12 end in an UnboundLocalError. Rest frequencies are documented in GHz but read in Hz. kamenetzky16 is C81."
  },
  {
   "property": "C79",
   "status": "partial",
   "theorems": [
    "C79_value",
    "C79_sign",
    "C79_mean",
    "C79_relations",
    "C79_padmanabhan",
    "C79_keating",
    "C79_behroozi_partial",
    "C79_seed_refuted",
    "C79_error_refuted"
   ],
   "note": "The scatter is as documented, with the mean taken as a limit of Gaussian integrals. The Behroozi relations ignore the generator they are given and return an exception object when the data directory is not set up."
  },
  {
   "property": "C80",
   "status": "proved",
   "theorems": [
    "C80_fraction",
    "C80_random",
    "C80_plain",
    "C80_mean",
    "C80_shapes",
    "C80_massless"
   ],
   "note": "The age of the universe is any positive function of redshift."
  },
  {
   "property": "C81",
   "status": "partial",
   "theorems": [
    "C81_refuted"
   ],
   "note": "The relation reads L_ir before assigning it: no call returns, so prop_co_sled never works. Nothing positive is left to prove."
  },
  {
   "property": "C82",
   "status": "partial",
   "theorems": [
    "C82_value_partial",
    "C82_mean",
    "C82_names",
    "C82_ci_refuted",
    "C82_scalar_refuted",
    "C82_seed_refuted",
    "C82_zero_refuted",
    "C82_co",
    "C82_now"
   ],
   "note": "Holds for [CII] at positive redshift and for the CO lines at every redshift. The two CI lines always raise IndexError, one redshift for all halos is a TypeError for CO, the duty cycle draws from the global generator, and [CII] jumps at redshift 0."
  },
  {
   "property": "C83",
   "status": "partial",
   "theorems": [
    "C83_value_partial",
    "C83_monotone",
    "C83_constructor_refuted",
    "C83_none_refuted"
   ],
   "note": "The scaling is right. The constructor matches before it stores its parameters, with the defaults; alpha0=None ignores the other three arguments."
  },
  {
   "property": "C84",
   "status": "partial",
   "theorems": [
    "C84_main_sequence",
    "C84_fraction_partial",
    "C84_starburst",
    "C84_assign",
    "C84_nan_partial",
    "C84_fraction_refuted",
    "C84_lowz_refuted"
   ],
   "note": "Assignment, rates, cap and generator hold in general; masses come as arrays. The star forming fraction rises with mass from redshift 9; the correction documented for z<1 acts below 0.5 only."
  },
  {
   "property": "C85",
   "status": "partial",
   "theorems": [
    "C85_history_partial",
    "C85_uninitialised",
    "C85_property",
    "C85_stale_refuted",
    "C85_remake_refuted",
    "C85_mixed_refuted",
    "C85_torn_refuted"
   ],
   "note": "Holds for histories whose interruptions come before the table is begun and when none exists. Arguments are not compared with those of the stored table; remake acts without comp; an interrupted remake leaves new axes with the old table, unnoticed."
  },
  {
   "property": "C86",
   "status": "partial",
   "theorems": [
    "C86_tables",
    "C86_succeeds",
    "C86_pair",
    "C86_files_partial",
    "C86_low_refuted",
    "C86_crash_refuted"
   ],
   "note": "The tables are right for every file. Missing rates at low mass get the rate of the highest mass; an interruption between the first and the last step makes every later use raise."
  },
  {
   "property": "C87",
   "status": "proved",
   "theorems": [
    "C87_between",
    "C87_range",
    "C87_valid",
    "C87_published"
   ],
   "note": "Distances and volumes are any positive functions of redshift."
  },
  {
   "property": "C88",
   "status": "partial",
   "theorems": [
    "C88_total",
    "C88_cdf_partial",
    "C88_shape",
    "C88_accepts",
    "C88_array_refuted",
    "C88_pdf_refuted",
    "C88_below_refuted",
    "C88_zero"
   ],
   "note": "Integral and cdf of a single value are right for every slope. With two or more values cdf and pdf raise ValueError; the pdf is not normalised; lum_function_int of a number below xmin is 1."
  },
  {
   "property": "C89",
   "status": "partial",
   "theorems": [
    "C89_partial",
    "C89_order",
    "C89_inverse_refuted"
   ],
   "note": "Exact at the table's points, within one step (0.5 per cent) between them; for a falling function always too large between them."
  },
  {
   "property": "C90",
   "status": "partial",
   "theorems": [
    "C90_cdf_partial",
    "C90_inverse_partial",
    "C90_inverse_refuted",
    "C90_top_refuted",
    "C90_functions",
    "C90_zero",
    "C90_double",
    "C90_modified"
   ],
   "note": "ppf(cdf(x)) is always one table step too small (exactly max(xmin, x/10^0.002)); the cdf does not reach 1 at the top; the pdf is per factor of ten, not per unit."
  },
  {
   "property": "C91",
   "status": "partial",
   "theorems": [
    "C91_page",
    "C91_names",
    "C91_um_partial",
    "C91_um_refuted",
    "C91_uchuu",
    "C91_saved"
   ],
   "note": "Uchuu sorts its files and is always consistent. UniverseMachine sorts only the redshifts: right when the page lists the files by growing scale factor, and wrong for some snapshot in every other order."
  },
  {
   "property": "C92",
   "status": "partial",
   "theorems": [
    "C92_text_partial",
    "C92_binary_partial",
    "C92_sfr_refuted",
    "C92_wrap_refuted",
    "C92_r_refuted",
    "C92_ratio_refuted",
    "C92_one_refuted"
   ],
   "note": "Every halo and field is stored as the tables say. Binary star formation rates are read as integers and always too large; positions are not wrapped into the box; r is stored in Mpc/h and labelled kpc/h; halo masses of the test box are not multiplied by h; a text file with one halo raises TypeError. Values in float32 and int32 are reals and integers here."
  },
  {
   "property": "C93",
   "status": "proved",
   "theorems": [
    "C93_stored",
    "C93_uneven",
    "C93_missing"
   ],
   "note": "For the fields that format asks for, from files 1 to 3."
  },
  {
   "property": "C94",
   "status": "partial",
   "theorems": [
    "C94_um",
    "C94_um_crash",
    "C94_resume_refuted",
    "C94_uchuu_partial",
    "C94_uchuu_crash",
    "C94_place_refuted"
   ],
   "note": "A truncated file left by an interruption is never repaired without redownload. Uchuu files go to the wrong place exactly when the directory has data1 in its name."
  },
  {
   "property": "C95",
   "status": "partial",
   "theorems": [
    "C95_raw_partial",
    "C95_blank_refuted",
    "C95_um_files",
    "C95_uchuu_refuted"
   ],
   "note": "Right for plain paths. With a blank in the path other directories are removed; data12 of Uchuu is never removed. Paths with other characters are not modelled."
  },
  {
   "property": "C96",
   "status": "proved",
   "theorems": [
    "C96_snapshots"
   ],
   "note": ""
  },
  {
   "property": "C97",
   "status": "proved",
   "theorems": [
    "C97_snapshots",
    "C97_unknown",
    "C97_requested"
   ],
   "note": ""
  },
  {
   "property": "C98",
   "status": "partial",
   "theorems": [
    "C98_stored_partial",
    "C98_sfr_refuted",
    "C98_bhmdot_refuted"
   ],
   "note": "All columns are right but two: sfr_2hr holds the rates within one half mass radius (a key that stands twice in a dictionary), and bhmdot is 10^10/0.978^2 times too small for its label."
  },
  {
   "property": "C99",
   "status": "partial",
   "theorems": [
    "C99_row",
    "C99_refused_partial",
    "C99_beyond_refuted"
   ],
   "note": "Right for every existing object. An object that does not exist is answered with an empty dictionary if the last file is empty. The offsets are those of the catalogue; haloID is found by the same lines and not modelled."
  },
  {
   "property": "C100",
   "status": "partial",
   "theorems": [
    "C100_complete_partial",
    "C100_keeps",
    "C100_redownload_refuted",
    "C100_resume_refuted",
    "C100_silent_refuted",
    "C100_waits"
   ],
   "note": "Complete with metadata, without interruption and for snapshots whose first file was absent. redownload replaces nothing, a snapshot with its first file is never completed, interruptions are swallowed, and a file that never comes keeps the loop going."
  },
  {
   "property": "C101",
   "status": "proved",
   "theorems": [
    "C101_snapshot"
   ],
   "note": "For paths of plain characters, as in C95."
  },
  {
   "property": "C102",
   "status": "partial",
   "theorems": [
    "C102_beam",
    "C102_width",
    "C102_bad_axes",
    "C102_scaled_partial",
    "C102_default_refuted",
    "C102_keywords"
   ],
   "note": "Real arithmetic. The default exponent of the beam that depends on frequency makes it widen with frequency."
  },
  {
   "property": "C103",
   "status": "partial",
   "theorems": [
    "C103_gauss",
    "C103_boxcar",
    "C103_channels_partial",
    "C103_edges_refuted",
    "C103_keyword_refuted",
    "C103_keywords"
   ],
   "note": "Shared edges of boxcar channels are counted twice; the documented keyword fwhm of the boxcar raises."
  },
  {
   "property": "C104",
   "status": "proved",
   "theorems": [
    "C104_none",
    "C104_white",
    "C104_negative",
    "C104_mean"
   ],
   "note": "The draws are arguments; time steps that are not positive are not modelled."
  },
  {
   "property": "C105",
   "status": "partial",
   "theorems": [
    "C105_ends",
    "C105_peak_partial",
    "C105_gauss_partial",
    "C105_accuracy_refuted",
    "C105_boxcar_refuted",
    "C105_narrow_refuted"
   ],
   "note": "Real arithmetic: a float gaussian far narrower than the grid underflows to zero and behaves like the narrow boxcar. Relative accuracy 10^0.0004; boxcars get their lower edge; narrow boxcars get NaN."
  },
  {
   "property": "C106",
   "status": "partial",
   "theorems": [
    "C106_fourier_bins_partial",
    "C106_fourier_edges_refuted"
   ],
   "note": "Inner edges equal the upper frequency instead of the midpoint."
  },
  {
   "property": "C107",
   "status": "partial",
   "theorems": [
    "C107_sum_partial",
    "C107_slice_partial",
    "C107_slice_count",
    "C107_property_index",
    "C107_order_refuted",
    "C107_fourier_refuted"
   ],
   "note": "Holds for axes named in increasing order and not transformed. In decreasing order the picture is transposed or the call raises; a transformed axis is drawn against positions. Colours and rendering are not modelled."
  },
  {
   "property": "C108",
   "status": "partial",
   "theorems": [
    "C108_frames_partial",
    "C108_coordinates_partial",
    "C108_boundaries_refuted",
    "C108_high_axis_refuted",
    "C108_summed_below_refuted",
    "C108_still_refuted"
   ],
   "note": "Linear scale only. Frames are right when every axis below the sliding one is a face axis; cell boundaries are off by half a pixel; a sliding axis above 2 raises; still=True shows its picture and then raises NameError."
  },
  {
   "property": "C109",
   "status": "partial",
   "theorems": [
    "C109_tiles",
    "C109_once_partial",
    "C109_edge_refuted",
    "C109_units_refuted",
    "C109_title_refuted",
    "C109_outline_partial",
    "C109_sizes_partial",
    "C109_equal_refuted"
   ],
   "note": "True in units of Mpc/h for halos not on the edge of a box and a size property that is not constant. Without h units (the default) boxes and halos are in different units; titles are too low for h < 1; a constant size property hides every halo. Colours and rendering are not modelled."
  },
  {
   "property": "C110",
   "status": "partial",
   "theorems": [
    "C110_spectra_partial",
    "C110_range_partial",
    "C110_beam_partial",
    "C110_beam_refuted",
    "C110_all_spectra_refuted",
    "C110_names"
   ],
   "note": "The picture of the beam is transposed, so only beams and windows symmetric in x and y are right; plotting the spectral responses of all detectors always raises."
  },
  {
   "property": "C111",
   "status": "proved",
   "theorems": [
    "C111_accepts",
    "C111_error",
    "C111_one"
   ],
   "note": ""
  },
  {
   "property": "C112",
   "status": "partial",
   "theorems": [
    "C112_plot_partial",
    "C112_kws_refuted",
    "C112_keep",
    "C112_dict_refuted",
    "C112_hist_partial",
    "C112_defaults"
   ],
   "note": "A label, or a colour when comparing, among the keyword arguments raises; the dictionary given to plot gets a line style and marker, after which a histogram with it raises. axkws, colours and rendering are not modelled."
  },
  {
   "property": "C113",
   "status": "partial",
   "theorems": [
    "C113_prop_partial",
    "C113_multi_partial",
    "C113_kws_refuted",
    "C113_tuple_refuted",
    "C113_tuple_partial",
    "C113_single"
   ],
   "note": "Additional keyword arguments given to evaluate are dropped; a function that returns a tuple fails when a column needs converting."
  },
  {
   "property": "C114",
   "status": "partial",
   "theorems": [
    "C114_made",
    "C114_value",
    "C114_units",
    "C114_missing",
    "C114_keywords",
    "C114_chain",
    "C114_clash_refuted",
    "C114_unit"
   ],
   "note": "Side by side fails: four CO, two HCN, three FIR and three [CII] properties share a name, so the second is refused unless renamed or told to overwrite."
  },
  {
   "property": "C115",
   "status": "partial",
   "theorems": [
    "C115_unit_partial",
    "C115_long_refuted",
    "C115_none_refuted",
    "C115_list_partial",
    "C115_order_refuted",
    "C115_list_refuted",
    "C115_same",
    "C115_geometry"
   ],
   "note": "False on grids made with string units: longer units are cut to the length of the longest unit at construction, None is stored as a word. Lists of units are indexed by axis number, and a list with one unit raises after the side length has been scaled."
  },
  {
   "property": "C116",
   "status": "partial",
   "theorems": [
    "C116_answer",
    "C116_sets",
    "C116_methods",
    "C116_make",
    "C116_loaded_partial",
    "C116_live_partial",
    "C116_frozen_partial",
    "C116_record_refuted",
    "C116_edit_refuted",
    "C116_cuts_refuted",
    "C116_generated_refuted"
   ],
   "note": "Only the list of loaded properties is the caller's own. The others are the handler's lists: they grow with make_property and write_property until the first deletion and are frozen from then on, and changing 'any' takes properties away from the handler. After a deletion 'saved' lists mass_cuts, and 'generated' keeps deleted names."
  },
  {
   "property": "C117",
   "status": "partial",
   "theorems": [
    "C117_loaded_partial",
    "C117_units_refuted",
    "C117_default_refuted"
   ],
   "note": "The halos taken are those at or above minimum_mass and at or above the largest tabulated cut not above minimum_mass / h: minimum_mass is documented in Msun/h but is looked up as if it were without h, so halos between minimum_mass and such a cut are in no light cone. With the default of 0, documented to include all halos, those below 10^6 are in none."
  },
  {
   "property": "C118",
   "status": "partial",
   "theorems": [
    "C118_handler",
    "C118_names",
    "C118_kept_partial",
    "C118_deleted",
    "C118_frozen",
    "C118_copy_refuted",
    "C118_basic_refuted"
   ],
   "note": "The tables share their datasets (hard links): a property that was never deleted is the same in both, so writing it through a handler with overwrite replaces the maker's data. A property that is never written is kept, also when it is deleted, and after a delete later writes under its name do not reach the basic table."
  },
  {
   "property": "C119",
   "status": "partial",
   "theorems": [
    "C119_accepts",
    "C119_found_partial",
    "C119_room_refuted",
    "C119_wide_refuted"
   ],
   "note": "The constructor's conditions are exact. The search can end if the radius is below 44/3 degrees and a cone along the diagonal of the box leaves more than 10 Mpc/h; otherwise accepted makers search for ever: without that room, and for every radius from 15 to 60 degrees. Radii between 44/3 and 15 degrees are not decided."
  },
  {
   "property": "C120",
   "status": "proved",
   "theorems": [
    "C120_cells",
    "C120_total",
    "C120_edges",
    "C120_returns",
    "C120_gridder"
   ],
   "note": "Positions are floats (an integer array is covered by the findings on dtypes); pixel sizes are positive. The exact condition for returning is for given centre and sides; a grid sized from the catalogue is C21."
  },
  {
   "property": "C121",
   "status": "partial",
   "theorems": [
    "C121_added",
    "C121_kept",
    "C121_current_partial",
    "C121_stale_refuted"
   ],
   "note": "False as expected by a user: set_spectral_respones leaves the reference frequency at the peak of the old response. Proved: it is right when a detector is added, is kept from then on, and is current in every history that sets no spectral response. The search for the peak is an argument here; C105 is about it."
  },
  {
   "property": "C122",
   "status": "partial",
   "theorems": [
    "C122_peak",
    "C122_shape",
    "C122_half",
    "C122_spectral",
    "C122_default",
    "C122_spectral_default_partial",
    "C122_spectral_six_refuted"
   ],
   "note": "The shape is proved for both classes. False: SpectralPSF documents a default side of six widths and takes three of the widths at the lowest frequency, computed as if the exponent were one. Real arithmetic."
  },
  {
   "property": "C123",
   "status": "partial",
   "theorems": [
    "C123_kept",
    "C123_occupied",
    "C123_new",
    "C123_first",
    "C123_unknown",
    "C123_names",
    "C123_left_refuted"
   ],
   "note": "False: the directory is made before the geometry is checked, so a refused geometry leaves it behind and the corrected call with overwrite=False raises as well. Answers are a finite list; running out of them raises."
  },
  {
   "property": "C124",
   "status": "partial",
   "theorems": [
    "C124_accepts",
    "C124_fits_partial",
    "C124_size_refuted"
   ],
   "note": "False: the distance carries little h and the edge it is compared with does not, so shells up to 1/h times too large are accepted; C48_size_refuted shows what is then lost. Real arithmetic."
  },
  {
   "property": "C125",
   "status": "proved",
   "theorems": [
    "C125_refused",
    "C125_unclear",
    "C125_agreed",
    "C125_raw"
   ],
   "note": "Answers are a finite list; running out of them raises. What is deleted for a snapshot is C39_raw's and the removal of raw files' business."
  },
  {
   "property": "C126",
   "status": "proved",
   "theorems": [
    "C126_setup",
    "C126_first",
    "C126_place"
   ],
   "note": "About calls that return normally; what a call that raises leaves behind is part of C33. Success on a fresh installation is the example."
  },
  {
   "property": "C127",
   "status": "partial",
   "theorems": [
    "C127_first_partial",
    "C127_tilde_refuted"
   ],
   "note": "A directory typed with '~' is refused although it exists, because setupsimim asks whether the path exists before expanding it. Everything else holds."
  },
  {
   "property": "C128",
   "status": "partial",
   "theorems": [
    "C128_values_partial",
    "C128_shape",
    "C128_properties_refuted"
   ],
   "note": "Holds for one property. With any other n_properties, which is documented, every function is refused, because the values get a last axis of length one."
  }
 ]
}