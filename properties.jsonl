{"id": "C01", "title": "Grid construction yields a consistent, centred, uniform axis system", "statement": "Building a Grid from a centre, side length and pixel size either raises or yields, on every axis, n+1 equally spaced edges and n cell centres lying half a pixel above each lower edge, with edges symmetric about the requested centre and last edge minus first edge equal to the reported side length = n_pixels * pixel_size; it raises exactly when lengths are inconsistent or some axis would get fewer than two pixels.", "quantifier": "every dimensionality, every centre, side length and positive pixel size", "why_tests_cant": "axis arithmetic must hold for every size and real-valued geometry, tests only sample a few literal grids", "anchors": ["simim/map/gridder.py:Grid.__init__", "simim/map/gridder.py:_axis_edges"]}
{"id": "C02", "title": "Side length is changed by less than one pixel when it is not a multiple of the pixel size", "statement": "The side length of the constructed grid differs from the requested one by less than one pixel (it never grows by a pixel or more and never shrinks by more than 1/20 pixel), it equals the request when the request is a whole number of pixels, and - contrary to the warning text 'increased' - it can shrink, so the grid does not always cover the requested side.", "quantifier": "every side length and positive pixel size", "why_tests_cant": "rounding behaviour is a statement about all reals", "anchors": ["simim/map/gridder.py:Grid.__init__"]}
{"id": "C03", "title": "add_from_cat puts every object in exactly the cell whose edges bracket it", "statement": "After add_from_cat on an active physical-space grid, each cell of each selected property has grown by exactly the sum of the values of the objects whose coordinates lie in that cell's half-open box [lower edge, upper edge) on every axis; objects outside the grid contribute nothing, and every in-range position lies in exactly one cell.", "quantifier": "every grid, every catalogue of any length and dimension, every cell", "why_tests_cant": "for-all over catalogues, positions on edges, and cells", "anchors": ["simim/map/gridder.py:Grid.add_from_cat"]}
{"id": "C04", "title": "Gridding conserves the total of the in-range values and counts the in-range objects", "statement": "The sum over all cells of a property grows by exactly the sum of the values of the in-range objects, and n_objects grows by exactly their number.", "quantifier": "every grid and catalogue", "why_tests_cant": "a conservation law over all catalogues", "anchors": ["simim/map/gridder.py:Grid.add_from_cat", "simim/map/gridder.py:Grid.n_objects"]}
{"id": "C05", "title": "Gridding is order independent and incremental", "statement": "Adding a catalogue in one call, in any permutation, or split into any two consecutive calls gives the same grid and the same n_objects; a rejected call leaves the grid unchanged.", "quantifier": "every catalogue, permutation and split point", "why_tests_cant": "quantifies over all permutations and splits", "anchors": ["simim/map/gridder.py:Grid.add_from_cat"]}
{"id": "C06", "title": "add_from_cat routes value columns to the requested properties", "statement": "With several value columns, column j is added to the j-th requested property and no other property changes; a single column is broadcast to all requested properties.", "quantifier": "every property list, every number of columns", "why_tests_cant": "quantifies over all property selections; the bundled tests use only the default selection", "anchors": ["simim/map/gridder.py:Grid.add_from_cat", "simim/map/gridder.py:Grid._check_property_input"]}
{"id": "C07", "title": "sample reads back the cell an object was gridded into", "statement": "sample(p) returns, per property, the content of the unique cell whose edges bracket p, returns NaN for exactly the positions that add_from_cat would drop, and never changes the grid; after gridding a catalogue on a fresh grid it returns the sum of the values of the objects in p's cell.", "quantifier": "every grid, catalogue and sample position", "why_tests_cant": "agreement of two index computations for all reals", "anchors": ["simim/map/gridder.py:Grid.sample", "simim/map/gridder.py:Grid.add_from_cat"]}
{"id": "C08", "title": "add_from_pos_plus_array equals gridding each channel as its own object", "statement": "Adding per-object arrays along an axis gives the same grid as adding, for each object and each channel k, one object at the centre of channel k with add_from_cat, for every choice of the array axis including negative indices.", "quantifier": "every grid of dimension >= 2, array axis, catalogue", "why_tests_cant": "equivalence of two code paths over all inputs", "anchors": ["simim/map/gridder.py:Grid.add_from_pos_plus_array"]}
{"id": "C09", "title": "Memory-saving chunking in add_from_spec_func is invisible", "statement": "For a spectrum function that evaluates objects independently, add_from_spec_func produces the same grid, property count and object count whether or not careful_with_memory is set and whether or not eval_as_loop is set, for any number of objects and for new_prop True or False.", "quantifier": "every catalogue length, grid shape and per-object spectrum function", "why_tests_cant": "the chunk boundary depends on grid size and catalogue length; tests use one size", "anchors": ["simim/map/gridder.py:Grid.add_from_spec_func"]}
{"id": "C10", "title": "Cumulative spectra conserve flux", "statement": "With is_cumulative=True the channels added for an in-range object sum to F(last axis edge) - F(first axis edge), independently of the number of channels.", "quantifier": "every cumulative function, every grid", "why_tests_cant": "telescoping for any number of channels", "anchors": ["simim/map/gridder.py:Grid.add_from_spec_func"]}
{"id": "C11", "title": "Padding and unpadding round-trip", "statement": "pad by p >= 0 on some axes followed by pad by -p restores the grid exactly (data, axes, side lengths, Fourier axes); padding keeps the original data at an offset of p cells with the pad value elsewhere, whichever axes are named and in whichever order.", "quantifier": "every grid, axis selection, order of axes, pad widths, pad value", "why_tests_cant": "quantifies over all axis selections and orders; the tests pad only leading axes", "anchors": ["simim/map/gridder.py:Grid.pad", "simim/map/gridder.py:_unpad"]}
{"id": "C12", "title": "crop keeps exactly the cells whose centres are in range", "statement": "crop(ax,min,max) either raises and changes nothing, or keeps precisely the cells whose centre along ax lies in [min,max], in order, with their data, and re-derives edges, centre and side length consistently.", "quantifier": "every grid, axis and real bounds", "why_tests_cant": "for all real bounds including ones falling between cell centres", "anchors": ["simim/map/gridder.py:Grid.crop"]}
{"id": "C13", "title": "Grid metadata stays consistent with its data through any history of operations", "statement": "After any sequence of successful init_grid, pad, crop, scale_axis, add_*, sum_properties, fourier_transform and single-axis collapse calls, n_pixels equals the data shape, every axis has n_pixels+1 edges and n_pixels centres, and axes, centre, side length and pixel size still describe the same uniform grid, so that positions keep mapping to the cell whose edges bracket them.", "quantifier": "every finite sequence of operations with any arguments", "why_tests_cant": "an invariant over unbounded histories", "anchors": ["simim/map/gridder.py:Grid"]}
{"id": "C14", "title": "Fourier transforming twice is the identity", "statement": "fourier_transform applied twice with the same axes returns the data and the per-axis space flags to their original values, for any subset of distinct axes, any mixture of axes currently in map and Fourier space, and either normalisation setting.", "quantifier": "every shape, axis subset, data", "why_tests_cant": "holds for all shapes (odd and even, where fftshift differs)", "anchors": ["simim/map/gridder.py:Grid.fourier_transform"]}
{"id": "C15", "title": "power_spectrum leaves its inputs unchanged and is a squared modulus", "statement": "With in_place=False, power_spectrum leaves the grid and the cross grid exactly as they were; each value is F1 * conj(F2) (real part) of the Fourier data of the two grids, so the auto spectrum is real and the cross spectrum is symmetric in its arguments.", "quantifier": "every grid pair, axis subset, current space flags", "why_tests_cant": "restoration over all shapes and flags, including the error exits", "anchors": ["simim/map/gridder.py:Grid.power_spectrum"]}
{"id": "C16", "title": "Zero padding is invisible in convolve, and convolve is linear and position invariant", "statement": "Convolving with any zero padding gives the same grid as convolving without, convolving is linear in the data, convolving with a one-cell unit kernel is the identity, and axes and other metadata are unchanged.", "quantifier": "every grid, kernel shape, pad", "why_tests_cant": "equality over all shapes and paddings", "anchors": ["simim/map/gridder.py:Grid.convolve"]}
{"id": "C17", "title": "collapse_dimension computes the weighted sum or average over the named axes only", "statement": "Collapsing axes yields, at every remaining cell, the weighted sum (or sum divided by sum of weights) of the data along the collapsed axes, and the remaining axes keep their geometry; with mode sum and no weights the property totals are conserved.", "quantifier": "every grid, axis list, weights", "why_tests_cant": "quantifies over all axis lists; tests collapse one axis", "anchors": ["simim/map/gridder.py:Grid.collapse_dimension"]}
{"id": "C18", "title": "sum_properties appends or returns the cell-wise sum of the selected properties", "statement": "In place, a new last property equal to the cell-wise sum is appended and all earlier properties are unchanged; out of place, a new one-property grid with the same geometry and space flags is returned and the original is unchanged.", "quantifier": "every grid and property selection", "why_tests_cant": "for all property counts", "anchors": ["simim/map/gridder.py:Grid.sum_properties"]}
{"id": "C19", "title": "copy and save/LoadGrid reproduce the grid", "statement": "copy() and save followed by LoadGrid yield a grid with the same data, geometry, units, object count, space flags and power-spectrum flag; copy(properties=S) keeps exactly the properties in S; overwrite=False never replaces an existing file.", "quantifier": "every grid reachable by the API, every path and property subset", "why_tests_cant": "depends on histories such as crop/scale/add_new_prop before saving", "anchors": ["simim/map/gridder.py:Grid.copy", "simim/map/gridder.py:Grid.save", "simim/map/gridder.py:LoadGrid"]}
{"id": "C20", "title": "spherical_average averages every shell over exactly its cells", "statement": "For strictly increasing shell edges s_0<...<s_m, entry i of the result is the weighted mean of the cells whose radius r satisfies s_i <= r < s_{i+1}, for every i in 0..m-1.", "quantifier": "every grid, centre, shells, axes", "why_tests_cant": "all shells, all radii", "anchors": ["simim/map/gridder.py:Grid.spherical_average"]}
{"id": "C21", "title": "Automatically sized Gridder grids include every object", "statement": "A Gridder built without center_point and side_length grids every supplied object: n_objects equals the number of positions.", "quantifier": "every non-empty catalogue and pixel size", "why_tests_cant": "extremal objects sit on the boundary, where rounding decides", "anchors": ["simim/map/gridder.py:Gridder"]}
{"id": "C22", "title": "PSF normalisation", "statement": "An area-normalised PSF sums to one; an area-normalised SpectralPSF sums to one in every spectral slice; a peak-normalised PSF has maximum one.", "quantifier": "every fwhm, pixel size, side length, dimension", "why_tests_cant": "for all grid parities", "anchors": ["simim/map/gridder.py:PSF", "simim/map/gridder.py:SpectralPSF"]}
{"id": "C23", "title": "scale_axis rescales exactly the named axes", "statement": "scale_axis multiplies centre (optionally), side length, pixel size, edges and centres of the named axes by the factor given for each, divides the Fourier axes, and leaves the other axes alone.", "quantifier": "every axis list, factor list", "why_tests_cant": "quantifies over axis lists other than the leading ones", "anchors": ["simim/map/gridder.py:Grid.scale_axis"]}
{"id": "C24", "title": "down_sample bins groups of pixels", "statement": "down_sample by an integer factor replaces each complete group of factor pixels by its mean or sum and leaves axes consistent with the data.", "quantifier": "every axis, factor", "why_tests_cant": "all factors and axis lists", "anchors": ["simim/map/gridder.py:Grid.down_sample"]}
{"id": "C25", "title": "GridFromAxes reproduces the edges it was given", "statement": "GridFromAxes built from uniformly spaced edge arrays has exactly those edges as its axes and their midpoints as cell centres.", "quantifier": "every uniform edge array with at least three edges", "why_tests_cant": "for all spacings", "anchors": ["simim/map/gridder.py:GridFromAxes"]}
{"id": "C26", "title": "Loading and unloading properties is transparent", "statement": "Whether a saved property is currently loaded in memory never changes the values, units conversion or row selection returned by return_property.", "quantifier": "every sequence of load, unload and return calls", "why_tests_cant": "cache coherence over all histories", "anchors": ["simim/_handlers.py:Handler.load_property", "simim/_handlers.py:Handler.unload_property", "simim/_handlers.py:Handler.return_property"]}
{"id": "C27", "title": "Little-h conversion is consistent", "statement": "return_property with in_h_units False equals the stored value times h to the property's h-dependence, True equals the stored value, and both agree for h-independent properties; a property defined by a function in h-free units is returned unchanged when requested in h-free units.", "quantifier": "every property, h, h-dependence", "why_tests_cant": "for all h and exponents", "anchors": ["simim/_handlers.py:Handler.return_property", "simim/galprops/galprops.py:MultiProp.evaluate_all"]}
{"id": "C28", "title": "set_property_range selects exactly the requested halos", "statement": "After any sequence of set_property_range calls the active rows are exactly those satisfying every inclusive range since the last reset, in ascending order without repetition, and the reported active count equals their number.", "quantifier": "every sequence of selection calls", "why_tests_cant": "an invariant over histories", "anchors": ["simim/_handlers.py:Handler.set_property_range"]}
{"id": "C29", "title": "make_property assigns computed values to active halos and NaN to the rest", "statement": "A newly made property returns the function's values, in order, on the active halos and NaN elsewhere, and other properties are unchanged.", "quantifier": "every selection, function, property set", "why_tests_cant": "over all selections", "anchors": ["simim/_handlers.py:Handler.make_property"]}
{"id": "C30", "title": "Properties written to disk survive reopening and failed operations do not corrupt the file", "statement": "After make_property(write) / write_property a handler opened on the same file returns the same values, units and h-dependence; a property is written only when it covers all halos; deleting removes exactly that property; operations that raise leave the file unchanged for already-completed names.", "quantifier": "every history of write and delete operations", "why_tests_cant": "over all histories and failure points", "anchors": ["simim/_handlers.py:Handler.write_property", "simim/_handlers.py:Handler.delete_property", "simim/_handlers.py:Handler.make_property"]}
{"id": "C31", "title": "A property reported as available can be returned", "statement": "has_property(name) is True exactly when return_property(name) yields values.", "quantifier": "every history of handler operations", "why_tests_cant": "over histories including unload and delete", "anchors": ["simim/_handlers.py:Handler.has_property", "simim/_handlers.py:Handler.return_property"]}
{"id": "C32", "title": "eval_stat evaluates on the active halos and leaves the handler unchanged", "statement": "eval_stat passes to the statistic exactly the active rows of each named property (after keyword remapping), and neither it nor eval_stat_evo changes the active selection.", "quantifier": "every statistic, selection, keyword map", "why_tests_cant": "over selections and failures of the user function", "anchors": ["simim/_handlers.py:Handler.eval_stat", "simim/lightcone/lchandler.py:LCHandler.eval_stat_evo"]}
{"id": "C33", "title": "The path registry persists across sessions", "statement": "After any sequence of registrations, and of setup calls that do not fail while creating directories, a new session loads exactly the registry the old session held in memory (last registration of a name wins), for names and paths without spaces or newlines that are not themselves the path of a registry file.", "quantifier": "every sequence of registrations", "why_tests_cant": "over histories; the file format is append-only text", "anchors": ["simim/_paths.py:_SimIMPaths", "simim/_paths.py:_checkload_path_file"]}
{"id": "C34", "title": "Existing registrations are never replaced without a 'y' answer", "statement": "With checkoverwrite, an existing path is replaced only if the user's answers contain 'y' before 'n'; otherwise the file and memory are unchanged; other names are never affected.", "quantifier": "every registry, every answer sequence", "why_tests_cant": "over all interactive input sequences", "anchors": ["simim/_paths.py:_SimIMPaths._newsimpath", "simim/_paths.py:_SimIMPaths._newlcpath", "simim/_paths.py:_SimIMPaths._setuppath"]}
{"id": "C35", "title": "Formatting a catalogue keeps each halo's row together, in descending mass order", "statement": "The formatted snapshot contains every halo once, every field is permuted by the same permutation, and masses are non-increasing.", "quantifier": "every catalogue, field set and transform", "why_tests_cant": "permutation statement over all inputs", "anchors": ["simim/siminterface/_rawsiminterface.py:SimCatalogs.format"]}
{"id": "C36", "title": "Mass-cut index bounds the halos above a mass", "statement": "For a formatted snapshot, the index stored for a cut m is the number of halos with mass >= m, those are the first rows, and get_mass_index(m) returns an index that includes every halo with mass >= m.", "quantifier": "every snapshot, cut and queried mass", "why_tests_cant": "over all mass lists and queries including edge cases", "anchors": ["simim/siminterface/_rawsiminterface.py:SimCatalogs.format", "simim/siminterface/simhandler.py:SimHandler.get_mass_index"]}
{"id": "C37", "title": "z_to_snap returns the snapshot whose redshift interval contains z", "statement": "For every redshift covered by the simulation, z_to_snap returns the index of the snapshot whose interval contains it, and raises otherwise.", "quantifier": "every redshift, every snapshot table", "why_tests_cant": "all reals including interval boundaries", "anchors": ["simim/siminterface/simhandler.py:SimHandler.z_to_snap"]}
{"id": "C38", "title": "Snapshot shells tile redshift, time and distance without gap or overlap", "statement": "For the metadata generated for any list of snapshots ordered in redshift, the upper redshift, time and distance boundary of a snapshot equals the lower boundary of the next, the first starts at redshift zero, and each snapshot's redshift lies in its own interval.", "quantifier": "every list of snapshots and every monotone cosmology", "why_tests_cant": "over arbitrary snapshot tables", "anchors": ["simim/siminterface/_rawsiminterface.py:Snapshot", "simim/siminterface/universemachine.py:UniversemachineCatalogs.download_meta", "simim/siminterface/illustris.py:IllustrisCatalogs.download_meta"]}
{"id": "C39", "title": "Formatting snapshots incrementally yields the same metadata as formatting them at once", "statement": "Formatting any snapshots in any order of calls yields a metadata table with one row per formatted snapshot, sorted by index and with the data of the last run; a crash at any point leaves previously formatted, not-selected snapshots intact.", "quantifier": "every sequence of format calls and crash point", "why_tests_cant": "over histories and crash points", "anchors": ["simim/siminterface/_rawsiminterface.py:SimCatalogs.format"]}
{"id": "C40", "title": "Light-cone slabs tile the line of sight", "statement": "For each snapshot, the iterations' distance intervals are contiguous, disjoint and cover exactly the snapshot's distance range, so each position along the line of sight is drawn from exactly one slab.", "quantifier": "every distance range, box size and iteration count", "why_tests_cant": "over all reals and iteration counts", "anchors": ["simim/lightcone/lcmaker.py:LCMaker.build_lightcones"]}
{"id": "C41", "title": "A halo is in the light cone iff it lies inside the geometry", "statement": "Halos written to the cone are exactly the (replicated, flipped, rotated) halos with distance in [d_min,d_max) and angular position inside the opening box (inclusive) or circle (strict).", "quantifier": "every halo position and geometry", "why_tests_cant": "over all positions incl. boundaries", "anchors": ["simim/lightcone/lcmaker.py:LCMaker.build_lightcones"]}
{"id": "C42", "title": "Periodic replication loses no halo and remembers its parent", "statement": "The replicated catalogue contains every periodic image within the requested number of copies exactly once, and the stored parent index of every image refers to the halo it was copied from, so properties added later belong to the right halo.", "quantifier": "every number of copies, every catalogue length", "why_tests_cant": "over all sizes", "anchors": ["simim/lightcone/lcmaker.py:LCMaker.build_lightcones", "simim/lightcone/lcmaker.py:GenericLCMaker.add_properties"]}
{"id": "C43", "title": "Line-of-sight and position-angle rotations preserve distances", "statement": "The change of basis applied to halo positions and velocities is orthonormal for every line of sight and position angle, so distances and speeds are unchanged.", "quantifier": "every direction and angle", "why_tests_cant": "all reals", "anchors": ["simim/lightcone/lcmaker.py:LCMaker._initialize_los", "simim/lightcone/lcmaker.py:LCMaker._initialize_pa"]}
{"id": "C44", "title": "redshift_index counts halos below each redshift edge", "statement": "For redshift bins stored with a light cone, the index table gives the number of halos at or below each edge, is monotone, and ends at the number of halos.", "quantifier": "every halo redshift list", "why_tests_cant": "over all lists", "anchors": ["simim/lightcone/lcmaker.py:LCMaker.build_lightcones"]}
{"id": "C45", "title": "add_properties writes each snapshot property to the rows of its own halos", "statement": "After add_properties, row r of the new property is the snapshot's value for the halo recorded in row r, for every row, and the other columns and the row count are unchanged.", "quantifier": "every light cone file and property", "why_tests_cant": "over all files", "anchors": ["simim/lightcone/lcmaker.py:GenericLCMaker.add_properties", "simim/lightcone/lcmaker.py:GenericLCMaker.add_pos_properties"]}
{"id": "C46", "title": "An interrupted light-cone build is never presented as finished, and existing cones are not overwritten silently", "statement": "At every crash point of the build the file's finished flag is False until all rows are written; with overwrite=False an existing cone directory is left untouched.", "quantifier": "every crash point and overwrite setting", "why_tests_cant": "crash points", "anchors": ["simim/lightcone/lcmaker.py:GenericLCMaker.__init__", "simim/lightcone/lcmaker.py:LCMaker.build_lightcones"]}
{"id": "C47", "title": "Redshift-evolution bins partition the halos", "statement": "eval_stat_evo evaluates the statistic so that each halo in the covered range is in exactly one bin.", "quantifier": "every bin list and halo redshifts", "why_tests_cant": "halos on bin edges", "anchors": ["simim/lightcone/lchandler.py:LCHandler.eval_stat_evo"]}
{"id": "C48", "title": "Spherical light cones wrap and cut positions correctly", "statement": "For full-sky, hemisphere, quarter and octant cones the kept halos are exactly those in the requested sky region after periodic wrapping, and each halo appears at most once.", "quantifier": "every position and mode", "why_tests_cant": "over all positions", "anchors": ["simim/lightcone/lcmaker.py:SphereMaker"]}
{"id": "C49", "title": "The instrument's detector and field tables stay consistent", "statement": "Through any history of add/del/set calls, detector names are distinct and are exactly the keys of the detector table, every detector has a response of each kind, and likewise for fields.", "quantifier": "every sequence of instrument operations", "why_tests_cant": "an invariant over histories", "anchors": ["simim/instrument/instrument.py:Instrument"]}
{"id": "C50", "title": "Samples are never drawn from stale maps", "statement": "sample_fields succeeds for a field only if map_fields was run for it after the last change to the detector list or any detector response, and then the map it reads has one layer per current detector, in detector order.", "quantifier": "every history of operations", "why_tests_cant": "over histories", "anchors": ["simim/instrument/instrument.py:Instrument.sample_fields", "simim/instrument/instrument.py:Instrument.map_fields"]}
{"id": "C51", "title": "A failed add_detector leaves the instrument unchanged", "statement": "If add_detector raises, detectors, names, counter, defaults and map validity are as before.", "quantifier": "every argument combination and state", "why_tests_cant": "over failure points", "anchors": ["simim/instrument/instrument.py:Instrument.add_detector"]}
{"id": "C52", "title": "Each detector's map uses its own response", "statement": "Grouping detectors with equal spatial responses partitions them; layer i of the mapped field is the field convolved with detector i's beam and averaged with detector i's spectral response.", "quantifier": "every detector list", "why_tests_cant": "over all groupings", "anchors": ["simim/instrument/instrument.py:Instrument._find_spatial_clones", "simim/instrument/instrument.py:Instrument.map_fields"]}
{"id": "C53", "title": "sample_fields returns one column per detector at the detector's offset position", "statement": "Column i of the samples is detector i's map sampled at the positions shifted by detector i's pointing offset, plus detector i's noise.", "quantifier": "every detector list, offsets, positions", "why_tests_cant": "over all groupings", "anchors": ["simim/instrument/instrument.py:Instrument.sample_fields", "simim/instrument/instrument.py:Instrument._find_pointing_clones"]}
{"id": "C54", "title": "add_field observes the requested grid property", "statement": "The property index given to add_field is the grid property that map_fields maps, and invalid indices are rejected.", "quantifier": "every grid and property index", "why_tests_cant": "over property counts", "anchors": ["simim/instrument/instrument.py:Instrument.add_field", "simim/instrument/instrument.py:Instrument.map_fields"]}
{"id": "C55", "title": "Per-property units and h-dependences reach the right property", "statement": "A MultiProp with per-property units and h-dependence lists records, for each property, the unit and h-dependence at its position, and evaluation converts each property with its own h-dependence.", "quantifier": "every list of names, units, dependences", "why_tests_cant": "over all lengths", "anchors": ["simim/galprops/galprops.py:MultiProp"]}
{"id": "C56", "title": "Abundance matching is monotone and invertible", "statement": "For a monotone distribution, the matched relation assigns larger property-2 values to larger property-1 values (smaller with reverseorder), and the two returned functions invert each other on the catalogue.", "quantifier": "every catalogue and distribution", "why_tests_cant": "over all catalogues", "anchors": ["simim/galprops/galprops_am.py:am_dfcat", "simim/galprops/galprops_am.py:am_dfdf"]}
{"id": "C57", "title": "Multi-file group catalogues are concatenated in file order", "statement": "Loading a snapshot split over any number of (possibly empty) files returns, for every field, the concatenation of the files' rows in file order, all fields row-aligned.", "quantifier": "every split of a catalogue", "why_tests_cant": "over all splits", "anchors": ["simim/siminterface/_illustris_datahandling.py:_loadObjects"]}
{"id": "C58", "title": "Fourier data sit at the labelled frequencies", "statement": "After fourier_transform of an axis, the cell whose Fourier-axis centre is f holds the sum over cells j of value_j * exp(-2 pi i f (x_j - x_0)), times the pixel size when normalised, x_j being the cell centres. The result does not depend on the order in which axes are named, and transforming two disjoint groups of axes one after the other equals one transform over their union.", "quantifier": "every grid, cell count parity, axis subset and order", "why_tests_cant": "shift conventions differ between even and odd sizes and between axes; must hold for all sizes and data", "anchors": ["simim/map/gridder.py:Grid.fourier_transform", "simim/map/gridder.py:Grid.__init__"]}
{"id": "C59", "title": "Vector properties point the same way as the halos they belong to", "statement": "A vector added by add_pos_properties is expressed in the coordinates of the light cone: if a halo moves by v in the simulation box, its image in the light cone moves by the vector written for v.", "quantifier": "every pointing (origin, flips, line of sight, position angle), halo and vector", "why_tests_cant": "over all pointings and vectors", "anchors": ["simim/lightcone/lcmaker.py:GenericLCMaker.add_pos_properties", "simim/lightcone/lcmaker.py:LCMaker._initialize_los"]}
{"id": "C60", "title": "The line of sight that is drawn satisfies the geometry tests", "statement": "A light cone's line of sight is a normalised draw that itself passes both angle tests and the box size test, so that the cone avoids the box axes and repeated structure.", "quantifier": "every sequence of random draws, opening angle, box and distance", "why_tests_cant": "over all sequences of random draws", "anchors": ["simim/lightcone/lcmaker.py:LCMaker._initialize_los"]}
{"id": "C61", "title": "An interrupted add_properties can be repeated", "statement": "If add_properties is interrupted at any point, no file marked complete lacks or has wrong added columns, and repeating the call gives what an uninterrupted call gives.", "quantifier": "every crash point, light cone set and list of properties", "why_tests_cant": "crash points", "anchors": ["simim/lightcone/lcmaker.py:GenericLCMaker.add_properties", "simim/lightcone/lcmaker.py:GenericLCMaker.add_pos_properties"]}
{"id": "C62", "title": "Any property of a grid can be observed", "statement": "A grid with several properties can be added to an instrument and mapped: add_field accepts it, copied or in place, with any of its properties, and map_fields maps it.", "quantifier": "every grid with one or more properties, instrument and detector list", "why_tests_cant": "over all property counts and unit settings", "anchors": ["simim/instrument/instrument.py:Instrument.add_field", "simim/instrument/instrument.py:Instrument._setup_beam", "simim/instrument/_helpers.py:_check_grid_detector_compatibility"]}
{"id": "C63", "title": "Every documented form of the beam size works", "statement": "map_fields accepts the size of the beam as one number or as one number per spatial axis and makes a beam of that size.", "quantifier": "every instrument, field and size", "why_tests_cant": "over all sizes and instruments", "anchors": ["simim/instrument/instrument.py:Instrument.map_fields", "simim/instrument/instrument.py:Instrument._setup_beam"]}
{"id": "C64", "title": "Values outside the matched range get the extrapolation value asked for", "statement": "The functions returned by am_dfcat and am_dfdf give, for an argument below (above) the range of its property, the value named by the extrapolation argument of the other property for that side: the limit for 'flat', NaN for 'none' and by default, the given number otherwise.", "quantifier": "every catalogue, distribution, missing mass, extrapolation argument and out-of-range value", "why_tests_cant": "over all arguments and missing masses", "anchors": ["simim/galprops/galprops_am.py:am_dfcat", "simim/galprops/galprops_am.py:am_dfdf"]}
{"id": "C65", "title": "Every snapshot has its own handler", "statement": "After initialising all snapshots (by the method or by the constructor's option), get_snap gives each snapshot a handler on its own data in the simulation's units, every guarantee about a single handler holds for it after any history, and work on one snapshot never changes another.", "quantifier": "every simulation, history of calls on the simulation and on snapshots, and snapshot", "why_tests_cant": "over all interleavings of calls on snapshots", "anchors": ["simim/siminterface/simhandler.py:SimHandler.initialize_all_snaps", "simim/siminterface/simhandler.py:SimHandler.get_snap", "simim/siminterface/simhandler.py:SimHandler.__init__"]}
{"id": "C66", "title": "make_property computes and writes a property in every snapshot, safely", "statement": "A successful make_property records in every snapshot the values of the function on that snapshot's own data (on disk if writing, else in memory) and changes nothing else; values not computed are never written; a refused or failed call can be repeated with overwrite, and built-in properties are never overwritten.", "quantifier": "every simulation, property, selection and history, and every snapshot at which a call may fail", "why_tests_cant": "histories and failure points", "anchors": ["simim/siminterface/simhandler.py:SimHandler.make_property"]}
{"id": "C67", "title": "delete_property removes a property everywhere or nowhere", "statement": "A successful delete_property removes exactly the named properties from every snapshot; a call that fails leaves everything as it was; built-in properties are never deleted.", "quantifier": "every simulation and list of names", "why_tests_cant": "over all combinations of properties in snapshots", "anchors": ["simim/siminterface/simhandler.py:SimHandler.delete_property"]}
{"id": "C68", "title": "set_property_range selects the same range in every snapshot", "statement": "After a successful set_property_range the active halos of every snapshot are those in the range, in the simulation's units; without stored handlers the call is refused; a call that fails leaves every selection as it was.", "quantifier": "every simulation, history, property and range", "why_tests_cant": "over all histories and combinations of properties", "anchors": ["simim/siminterface/simhandler.py:SimHandler.set_property_range"]}
{"id": "C69", "title": "snap_stat evaluates the statistic on the snapshots asked for", "statement": "snap_stat returns, for each snapshot listed (or all), the statistic evaluated on that snapshot's data and its redshift, in order.", "quantifier": "every simulation, statistic and list of snapshots", "why_tests_cant": "over all statistics and snapshot numberings", "anchors": ["simim/siminterface/simhandler.py:SimHandler.snap_stat"]}
{"id": "C70", "title": "Snapshot handlers use the simulation's units", "statement": "The handler get_snap returns, and the arguments snap_stat gives, follow the simulation's in_h_units setting.", "quantifier": "every simulation, setting and snapshot", "why_tests_cant": "over all settings and histories", "anchors": ["simim/siminterface/simhandler.py:SimHandler.get_snap", "simim/siminterface/simhandler.py:SimHandler.set_in_h_units", "simim/siminterface/simhandler.py:SimHandler.snap_stat"]}
{"id": "C71", "title": "number_volumes counts the volumes that fit in the box", "statement": "number_volumes(v) is the box volume divided by v, in either unit system.", "quantifier": "every simulation and volume", "why_tests_cant": "over all volumes", "anchors": ["simim/siminterface/simhandler.py:SimHandler.number_volumes"]}
{"id": "C72", "title": "extract_snap_keys lists the properties of the snapshots", "statement": "extract_snap_keys lists the properties that snapshots have at the time of the call.", "quantifier": "every simulation and history", "why_tests_cant": "histories", "anchors": ["simim/siminterface/simhandler.py:SimHandler.extract_snap_keys"]}
{"id": "C73", "title": "SnapHandler.grid puts each selected halo's properties into the cell that contains it", "statement": "For every snapshot, selection, unit system, resolution, limits and normalisation, SnapHandler.grid returns a grid over the requested limits (by default the box) whose cells hold the (normalised) sums of the named properties over exactly the selected halos in the cell; h units rescale values and box consistently; every halo of the box is in the grid, and an empty selection gives an empty grid.", "quantifier": "every file, selection history, property list, units, resolution, limits, norm", "why_tests_cant": "the cell of each halo depends on all positions, limits and unit factors; edges and empty selections are corner cases", "anchors": ["simim/siminterface/simhandler.py:SnapHandler.grid", "simim/map/gridder.py:Gridder"]}
{"id": "C74", "title": "LCHandler.grid puts each selected galaxy into the cell of its sky position and redshift or frequency", "statement": "For every light cone, LCHandler.grid returns a grid in right ascension, declination and redshift (or observed frequency of a line) whose cells hold the sums of the named properties over exactly the selected galaxies in the cell; by default it covers the whole light cone; redshift and frequency grids hold the same galaxies; light cones of every shape and empty selections can be gridded.", "quantifier": "every light cone, selection, rest frequency, units, resolution, limits, norm", "why_tests_cant": "all positions, shapes and limits", "anchors": ["simim/lightcone/lchandler.py:LCHandler.grid", "simim/map/gridder.py:Gridder"]}
{"id": "C75", "title": "LCHandler.volume is the comoving volume of the requested part of the light cone", "statement": "volume(...) returns the share of the shell between the two redshifts that the requested region of the sky has; requests are accepted exactly when the region lies within the light cone; so volumes add over adjacent redshift ranges, scale with h^3 in h units, are never negative and never exceed the volume of the whole light cone.", "quantifier": "every light cone shape, angle, aspect ratio, cosmology, redshift range and requested region", "why_tests_cant": "containment of regions over all angles", "anchors": ["simim/lightcone/lchandler.py:LCHandler.volume"]}
{"id": "C76", "title": "eval_stat_evo gives each bin its own keywords and leaves no trace of them", "statement": "For every sequence of calls of eval_stat_evo on any light cones, the statistic of each bin receives the caller's keywords plus that bin's own zmin, zmax and volume when asked for; calls do not influence each other and the caller's dictionary is left as it was.", "quantifier": "every call history, every statistic (also failing ones), bins, keyword flags and dictionaries", "why_tests_cant": "histories of calls share a default dictionary; needs induction on histories", "anchors": ["simim/lightcone/lchandler.py:LCHandler.eval_stat_evo"]}
{"id": "C77", "title": "LCIterator does to every light cone what its own handler would", "statement": "A call on an LCIterator processes every light cone as its own handler would, in order, and reports each result under its number; a failure leaves the later ones untouched; light cones count as consistent exactly when their parameters agree, and the volume of a consistent iterator is that of each of its light cones.", "quantifier": "every list of light cones, every method and state", "why_tests_cant": "any number of light cones and any method", "anchors": ["simim/lightcone/lchandler.py:LCIterator"]}
{"id": "C78", "title": "Line luminosities follow their published fits", "statement": "Without scatter, the luminosity that delooze14, uzgil14, spinoglio12, schaerer20, zhao13, li16 and hcn_gao give a halo satisfies the published relation for the line and galaxy set asked for; it increases with the star formation rate, is zero at zero and NaN below. Every documented line, set and unit is accepted and unknown ones are rejected. padmanabhan19 gives the published function of mass and redshift, and more to the heavier of two halos at the same redshift.", "quantifier": "every array of star formation rates, every line, set and conversion factor", "why_tests_cant": "continuum of inputs; every table entry and every name", "anchors": ["simim/galprops/line_fir.py:delooze14", "simim/galprops/line_fir.py:uzgil14", "simim/galprops/line_fir.py:spinoglio12", "simim/galprops/line_fir.py:schaerer20", "simim/galprops/line_fir.py:zhao13", "simim/galprops/line_co.py:li16", "simim/galprops/line_densegas.py:hcn_gao", "simim/galprops/line_fir.py:padmanabhan19"]}
{"id": "C79", "title": "Scatter keeps the mean or the median, as documented", "statement": "Scatter multiplies each value by its own lognormal factor of the documented width; zeros stay zero and signs are kept; the expectation over the normal draw is the unscattered value where the linear mean is documented as preserved, and the median otherwise; halos below the minimum mass stay dark; all randomness comes from the generator that the caller passes.", "quantifier": "every value, width, generator and generator state", "why_tests_cant": "an expectation over a continuous distribution is not observable in finitely many runs", "anchors": ["simim/galprops/log10normal.py:log10normal", "simim/galprops/line_co.py:keating16", "simim/galprops/line_fir.py:padmanabhan19", "simim/galprops/sfr_behroozi13.py:behroozi13_base.sfr"]}
{"id": "C80", "title": "Duty cycles conserve the expected luminosity", "statement": "The fraction of halos that are on lies in (0, 1] and is the star formation time over the age of the universe, capped. With random duty cycles each halo has its full luminosity or none by its own draw; without, every halo has the fraction of it, which is the expectation of the random version. A halo without mass emits nothing.", "quantifier": "every mass, redshift, age function, fraction and draw", "why_tests_cant": "an expectation over a continuous distribution; every mass and redshift", "anchors": ["simim/galprops/line_co_dutycycle.py:f_duty", "simim/galprops/line_co.py:pullen13", "simim/galprops/line_co.py:lidz11", "simim/galprops/line_densegas.py:hcn_breysse"]}
{"id": "C81", "title": "The CO ladder gives one luminosity per line and halo", "statement": "For every array of star formation rates and every list of lines between 1-0 and 13-12, kamenetzky16 returns one array of luminosities per line.", "quantifier": "every array of rates, every list of lines, both settings of break_ulirgs", "why_tests_cant": "every input", "anchors": ["simim/galprops/line_co.py:kamenetzky16", "simim/galprops/galprops_builtin.py:prop_co_sled"]}
{"id": "C82", "title": "The Yang et al. line luminosities follow the published double power law", "statement": "For every documented line, halo mass and redshift, yang22 gives the published double power law at that redshift, scattered by its own normal draw around the median if scatter is on, and set to zero by its own uniform draw with the published duty cycle if that is on; on average over the duty draw a halo has the fraction times the law; unknown line names raise ValueError; the caller's generator fixes the result; one redshift may be given for all halos.", "quantifier": "every line, mass, redshift, scatter setting and generator state", "why_tests_cant": "every mass and redshift; an expectation over a continuous draw", "anchors": ["simim/galprops/line_fir_yang.py:yang22"]}
{"id": "C83", "title": "The infrared luminosity function scales with redshift as published, from the parameters given", "statement": "get_irlf_pars gives the Gruppioni scaling of the four redshift 0 parameters, continuous at the breaks, luminosities rising and densities falling with redshift; the matching made by the constructor uses the parameters given to it.", "quantifier": "every set of parameters and every redshift above -1", "why_tests_cant": "every redshift and parameter value", "anchors": ["simim/galprops/sfr_ir.py:g13_sfr.get_irlf_pars", "simim/galprops/sfr_ir.py:g13_sfr._make_lir_function"]}
{"id": "C84", "title": "Star formation rates: main sequence, quenching, starbursts, scatter and cap", "statement": "Each galaxy is quenched, a starburst or on the main sequence according to its own draws and the published fractions; quenched galaxies have rate zero, others the main sequence rate times their offset and lognormal factor, never above the limit; the fractions are probabilities, the star forming one falls with mass; all draws come from the generator passed; the low redshift correction acts below redshift 1 as documented.", "quantifier": "every list of masses and redshifts, every parameter set, generator and state", "why_tests_cant": "every mass, redshift and draw", "anchors": ["simim/galprops/sfr_bethermin17.py:b17_sfr", "simim/galprops/sfr_bethermin17.py:b17_sfms", "simim/galprops/sfr_bethermin17.py:b17_sffrac", "simim/galprops/sfr_bethermin17.py:b17_sbfrac"]}
{"id": "C85", "title": "Cached matching tables belong together and to the arguments given", "statement": "After any history of constructor calls, finished or interrupted, a constructor gives a table with its own axes, made with the arguments of this call or, if the files existed, those it was last made with; nothing is recomputed unless comp is set; evaluation without a table raises ValueError.", "quantifier": "every history of constructor calls, every interruption point, every matching", "why_tests_cant": "histories and crash points are unbounded", "anchors": ["simim/galprops/sfr_bethermin17.py:_load_stellarmass_function", "simim/galprops/sfr_bethermin17.py:_make_stellarmass_function", "simim/galprops/sfr_ir.py:_load_lir_function", "simim/galprops/sfr_ir.py:_make_lir_function"]}
{"id": "C86", "title": "The Behroozi tables hold the value of the file at every mass and redshift", "statement": "Axes are the sorted distinct masses and redshifts of the file; each entry is the value of the only line with both; rates marked as missing are replaced by the valid rate at the highest mass of that redshift; files with missing or double pairs are rejected; the stored tables can be read back, also after an interruption.", "quantifier": "every data file; every interruption point", "why_tests_cant": "every file; crash points", "anchors": ["simim/galprops/sfr_behroozi13.py:behroozi13_base._make_spline_files", "simim/galprops/sfr_behroozi13.py:behroozi13_base.__init__"]}
{"id": "C87", "title": "Stellar mass function parameters interpolate the published bins in the simulation's cosmology", "statement": "At the middle of a bin the parameters are the published ones, rescaled by luminosity distance and volume to the cosmology of the simulation; between middles they are interpolated in 1+z, mass and second density in the logarithm; outside they are constant; they always make a valid mass function.", "quantifier": "every redshift and every pair of cosmologies", "why_tests_cant": "every redshift and cosmology", "anchors": ["simim/galprops/sfr_bethermin17.py:b17_smfpars"]}
{"id": "C88", "title": "The cumulative distribution of a Schechter function is the share of its integral", "statement": "For a single or double Schechter function with any slopes, lum_function_int(x) is the integral of the function from x to infinity, and cdf(x) is the share of the total that lies between xmin and x, for a number or an array x; the pdf is the derivative of the cdf. Nothing lies below xmin: cdf and pdf are zero there.", "quantifier": "every scale, lower limit, normalisation and slope (also steeper than -1 and whole numbers), every x and every array", "why_tests_cant": "all real slopes, with a recursion whose depth depends on the slope", "anchors": ["simim/galprops/galprops_am.py:schechter_gen", "simim/galprops/galprops_am.py:double_schechter_gen"]}
{"id": "C89", "title": "The percentile function of a Schechter distribution inverts its cumulative distribution", "statement": "ppf(cdf(x)) is x, and ppf is increasing and stays in the support.", "quantifier": "every parameter set and every x from xmin to 10^20 xmin", "why_tests_cant": "all values, between as well as on the points of the internal table", "anchors": ["simim/galprops/galprops_am.py:schechter_gen._ppf", "simim/galprops/galprops_am.py:double_schechter_gen._ppf"]}
{"id": "C90", "title": "Modified Schechter and double power law distributions are consistent", "statement": "The cdf grows from 0 at xmin to 1 at the top of the support, ppf(cdf(x)) is x, and the pdf is the rate at which the cdf grows. Nothing lies below xmin. The double power law is phi0/2 at the knee and follows the slopes -alpha and -beta on its sides; the modified Schechter function is a power law of slope 1-alpha times a gaussian in log10(1+x/x0) of width sigma.", "quantifier": "every parameter set and every x in the support", "why_tests_cant": "all real parameters and values; the cdf and the ppf are tabulated by different sums", "anchors": ["simim/galprops/galprops_am.py:modified_schechter_gen", "simim/galprops/galprops_am.py:double_power_law_gen"]}
{"id": "C91", "title": "Snapshot numbers of UniverseMachine and Uchuu stand for one file and its redshift", "statement": "The files of a simulation are the links on its web page; the scale factor or redshift of a file is read from its name; snapshot i of the instance has, in the metadata, the redshift of the file that is downloaded and read for snapshot i; once the list is saved, later instances use it.", "quantifier": "every web page (order of links, other text around them), every set of names and requested snapshots, every cosmology", "why_tests_cant": "the order of links on a remote page is not under the tests' control; the claim is for every order", "anchors": ["simim/siminterface/universemachine.py:UniversemachineCatalogs.__init__", "simim/siminterface/universemachine.py:UniversemachineCatalogs.download_meta", "simim/siminterface/uchuu.py:UchuuCatalogs.__init__", "simim/siminterface/uchuu.py:UchuuCatalogs.download_meta"]}
{"id": "C92", "title": "Formatting a UniverseMachine catalogue keeps every halo's fields, units and labels", "statement": "After format, each snapshot group has every halo of the raw file that is not flagged, all fields of one halo in one row, heaviest first, each field being the catalogue's value in the unit of its label, positions inside the box.", "quantifier": "every catalogue (text or binary) with any number of halos and any values, every set of snapshots, basic or full", "why_tests_cant": "all catalogues and all bit patterns of the binary records; the tests use one small text file", "anchors": ["simim/siminterface/universemachine.py:UniversemachineCatalogs._ascii_loader", "simim/siminterface/universemachine.py:UniversemachineCatalogs._bin_loader", "simim/siminterface/_rawsiminterface.py:SimCatalogs.format"]}
{"id": "C93", "title": "Formatting an Uchuu catalogue joins the right data files halo by halo", "statement": "After format each group holds, for every halo, the fields from data files 1, 2 and 3 of that snapshot in one row with the right units; files of different lengths or missing files make format raise instead of producing a catalogue.", "quantifier": "every set of hdf5 files with any number of halos, every set of snapshots", "why_tests_cant": "all files and lengths; the catalogues are terabytes large", "anchors": ["simim/siminterface/uchuu.py:UchuuCatalogs._loader", "simim/siminterface/_rawsiminterface.py:SimCatalogs.format"]}
{"id": "C94", "title": "Downloads are complete, resumable and go where they are read", "statement": "download() fetches every requested file that is missing to the place where format reads it, leaves other files alone, with redownload=True repairs everything; after an interruption a later download() completes what is missing.", "quantifier": "every state of the disk, every set of files, every point at which a call is killed", "why_tests_cant": "all crash points and prior disk contents", "anchors": ["simim/siminterface/universemachine.py:UniversemachineCatalogs.download", "simim/siminterface/uchuu.py:UchuuCatalogs.download"]}
{"id": "C95", "title": "Cleaning removes the raw files and nothing else", "statement": "clean_raw() asks first and after 'y' removes exactly the directory raw; cleaning while formatting removes exactly the raw files of the snapshots that were formatted.", "quantifier": "every path, every content of the disk, every sequence of answers", "why_tests_cant": "all paths (the shell splits and expands them), all answers", "anchors": ["simim/siminterface/_rawsiminterface.py:SimCatalogs.clean_raw", "simim/siminterface/universemachine.py:UniversemachineCatalogs._get_rawsnapfiles", "simim/siminterface/uchuu.py:UchuuCatalogs._get_rawsnapfiles"]}
{"id": "C96", "title": "An instance works on the requested snapshots that exist", "statement": "The snapshots of an instance are the requested ones among the existing ones, ascending, each once, for every request including 'all'.", "quantifier": "every list of requested and of existing snapshots, with repetitions and in any order", "why_tests_cant": "all lists", "anchors": ["simim/siminterface/_rawsiminterface.py:SimCatalogs.__init__"]}
{"id": "C97", "title": "The simulations and snapshots of Illustris and TNG", "statement": "For each of the 18 simulation names of the documentation the known snapshots are exactly those that were published (136 for Illustris, without 53 and 55 for Illustris-1, 100 for TNG), ascending; every other name is refused. A catalogue that is asked for some snapshots holds those of them that exist, in order and once each.", "quantifier": "every simulation name (all strings)", "why_tests_cant": "all strings, and all snapshot numbers of all simulations", "anchors": ["simim/siminterface/illustris.py:IllustrisCatalogs.__init__", "simim/siminterface/_sims.py"]}
{"id": "C98", "title": "Formatting Illustris and TNG catalogues keeps every halo with its values in the labelled units", "statement": "After format() every snapshot holds all subhalos of all its files with exactly the columns of the simulation (matter columns only with baryons, flags and metal fractions only for TNG), each value converted to the unit written beside it, and each under the name of the quantity it is.", "quantifier": "every published simulation, every division of the subhalos into files, every content of the columns, basic or all fields", "why_tests_cant": "all numbers of files, halos and all values", "anchors": ["simim/siminterface/illustris.py:IllustrisCatalogs.__init__", "simim/siminterface/illustris.py:IllustrisCatalogs._loader", "simim/siminterface/_illustris_datahandling.py:_loadSubhalos", "simim/siminterface/_illustris_datahandling.py:_gcPath", "simim/siminterface/_rawsiminterface.py:SimCatalogs.format"]}
{"id": "C99", "title": "Reading one subhalo gives its row of the whole catalogue", "statement": "Reading a single subhalo by its number gives the same values as its row in the whole catalogue, whichever file holds it; asking for no object, two objects or an object that does not exist is refused.", "quantifier": "every division of the catalogue into files, including empty files, and every number", "why_tests_cant": "all divisions and all numbers", "anchors": ["simim/siminterface/_illustris_datahandling.py:_loadSingle"]}
{"id": "C100", "title": "Downloading Illustris and TNG catalogues brings every file", "statement": "download() returns only when every file of every requested snapshot is there; redownload=True replaces existing files; a download that was interrupted can be completed by a further one.", "quantifier": "every content of the disk, every sequence of runs of wget with whatever they bring, interruptions included", "why_tests_cant": "all histories of runs and interruptions", "anchors": ["simim/siminterface/illustris.py:IllustrisCatalogs.download"]}
{"id": "C101", "title": "Cleaning an Illustris or TNG snapshot removes its directory only", "statement": "Cleaning the raw files of a snapshot removes everything inside its directory and nothing of any other snapshot.", "quantifier": "every content of the disk, all snapshot numbers", "why_tests_cant": "all contents and pairs of snapshots", "anchors": ["simim/siminterface/illustris.py:IllustrisCatalogs._get_rawsnapfiles", "simim/siminterface/_rawsiminterface.py:SimCatalogs.format"]}
{"id": "C102", "title": "Built-in beams are gaussians of the stated widths", "statement": "The built-in gaussian beam returns an array of shape (len(dx), len(dy), len(freq)) that is 1 at its centre and one half on the ellipse with the given full widths at half maximum, the same at every frequency. The version that depends on frequency has at each frequency the widths fwhm*(freq0/freq)**freq_exp, and its default is that of a typical beam. Axes that are not one-dimensional raise. Keyword arguments that are left out have their documented defaults; unknown ones raise.", "quantifier": "every axis, width, centre, reference frequency and exponent", "why_tests_cant": "all real offsets, widths and frequencies", "anchors": ["simim/instrument/spatial_response.py:gauss_psf", "simim/instrument/spatial_response.py:gauss_psf_freq_dependent", "simim/instrument/_helpers.py:_check_shape"]}
{"id": "C103", "title": "Built-in bands have the stated peak and width", "statement": "The gaussian band is A at its centre and A/2 half a full width away. The boxcar band is A within half a width of its centre and zero outside. Boxcar channels side by side count every frequency between them exactly once. Both bands accept the keyword arguments that the documentation names. Keyword arguments that are left out have their documented defaults; unknown ones raise.", "quantifier": "every frequency, amplitude, centre and width, any number of channels", "why_tests_cant": "all real frequencies, also those on channel edges", "anchors": ["simim/instrument/spectral_response.py:gauss_response", "simim/instrument/spectral_response.py:boxcar_response", "simim/instrument/instrument.py:Instrument.__init__"]}
{"id": "C104", "title": "White noise integrates down with time", "statement": "The samples of white noise are the offset plus standard normal draws times rms/sqrt(dt), drawn from the generator given by the caller. The mean over a duration T is the offset plus rms/sqrt(T) times a standard normal number, whatever the time step. The absence of noise is all zeros and leaves the generator alone. A negative rms raises.", "quantifier": "every number of samples, time step, rms, offset and generator", "why_tests_cant": "all time steps and draws of the generator", "anchors": ["simim/instrument/noise_functions.py:white_noise", "simim/instrument/noise_functions.py:zero_noise"]}
{"id": "C105", "title": "Adding a detector finds the peak of its response", "statement": "Adding a detector without a nominal frequency always ends, whatever its response function does, and sets the reference frequency to the frequency at which the response peaks, for a boxcar its centre, to the tolerance of 0.01 of the search.", "quantifier": "every response function, including those that raise, every peak frequency", "why_tests_cant": "termination of a loop for all functions, all peak positions", "anchors": ["simim/instrument/instrument.py:Instrument.add_detector"]}
{"id": "C106", "title": "Fourier bin edges bound the frequencies of a grid", "statement": "For every grid the edges of the Fourier bins of an axis enclose each bin's own frequency and no other, the outer edges lie half a bin beyond the outermost frequencies, and the inner edges lie half way between neighbouring frequencies.", "quantifier": "every grid, axis and bin", "why_tests_cant": "all pixel counts and pixel sizes", "anchors": ["simim/map/gridder.py:_axis_edges", "simim/map/gridder.py:Grid.__init__"]}
{"id": "C107", "title": "A picture of a grid shows its cells", "statement": "Visualizing a grid on two axes draws, at column i and row j, the total of the cells with those indices on those axes, or the single cell at the given indices of the other axes, against the edges of the two axes, whichever order the axes are named in and whether or not they are Fourier transformed; a wrong number of slice indices is a ValueError.", "quantifier": "every grid, axis pair, property and slice", "why_tests_cant": "all shapes, axis pairs and contents", "anchors": ["simim/map/gridder.py:Grid.visualize"]}
{"id": "C108", "title": "An animation of a grid steps through its slices", "statement": "Animating a grid gives one frame per index of the sliding axis; frame i shows the total of the cells with index i on the sliding axis at each pair of face indices, against the edges of the face axes, titled and boxed with the coordinates of that slice; the frames are shown, and saved if a name is given; a still picture shows the slice asked for.", "quantifier": "every grid, sliding axis, pair of face axes, property and start index", "why_tests_cant": "all numbers of axes and choices of axes", "anchors": ["simim/map/gridder.py:Grid.animate"]}
{"id": "C109", "title": "The animation of a light cone shows every halo once", "statement": "Animating a light cone gives frames whose boxes lie end to end from the nearest to the farthest distance; every halo inside the light cone is drawn in exactly one frame, the one whose box contains it, in either unit convention; the title is the redshift of the middle of the box and the outline the extent of the field there; markers grow with the chosen property; the movie is shown, and saved if a name is given.", "quantifier": "every light cone, cosmology, property, scaling, unit convention and halo", "why_tests_cant": "all light cones, halos and distance-redshift relations", "anchors": ["simim/lightcone/lchandler.py:LCHandler.animate"]}
{"id": "C110", "title": "Plots of detectors show their responses", "statement": "Plotting detectors gives one figure per detector named, in order, or for all; the curve is its spectral response from fmin to fmax, by default over a range containing all the reference frequencies; the cell of the picture at (x, y) has the value of its spatial response at (x, y); the spectral responses of all detectors can be plotted together.", "quantifier": "every instrument, list of detectors, window, frequency range and response", "why_tests_cant": "all responses and windows", "anchors": ["simim/instrument/instrument.py:Instrument.plot_detector_response", "simim/instrument/instrument.py:Instrument.plot_spectral_response"]}
{"id": "C111", "title": "A Detector is an instrument with one detector", "statement": "A Detector can be made exactly when its units and frame are known, its three functions are given and its offset, if any, is a pair; anything else is a ValueError. It then has exactly one detector, with the responses, keywords and offset asked for, no fields, and consistent tables.", "quantifier": "all arguments", "why_tests_cant": "all combinations of arguments", "anchors": ["simim/instrument/instrument.py:Detector.__init__"]}
{"id": "C112", "title": "Plots and histograms of a handler show its properties", "statement": "A plot draws every y property against x, one point per halo, for the active halos, all halos or both, with the values that return_property gives; a histogram is of those values or their logarithms; any keyword argument of matplotlib can be passed; the dictionary passed is not changed.", "quantifier": "every reachable handler, list of properties, choice of halos, unit convention and dictionary of keyword arguments", "why_tests_cant": "all histories of the handler and all dictionaries", "anchors": ["simim/_handlers.py:Handler.plot", "simim/_handlers.py:Handler.hist"]}
{"id": "C113", "title": "A property can be evaluated without adding it", "statement": "Evaluating a property on a handler returns the columns of its function, one per name, converted to h units, with the arguments named, remapped and additionally given; a single property returns its one column; the function may return any sequence of columns.", "quantifier": "every property function, handler state, remapping and additional arguments", "why_tests_cant": "all property functions", "anchors": ["simim/galprops/galprops.py:MultiProp.evaluate", "simim/galprops/galprops.py:Prop.evaluate", "simim/galprops/galprops.py:MultiProp.evaluate_all"]}
{"id": "C114", "title": "The predefined properties can be made on any handler that has their inputs", "statement": "Every predefined property asks for exactly the inputs its relation needs; making it gives each selected halo the value of the relation at its properties without h (and the snapshot's redshift or cosmology), the same in both unit settings and labelled with its unit; a missing input or an unknown keyword is refused and changes nothing; properties made first are the inputs of those made later; different predefined properties can be made side by side.", "quantifier": "every predefined property, relation, reachable handler, selection and set of keywords", "why_tests_cant": "all histories of the handler, all relations and keywords", "anchors": ["simim/galprops/galprops_builtin.py", "simim/_handlers.py:Handler.make_property"]}
{"id": "C115", "title": "scale_axis gives the rescaled axes the units it is told", "statement": "After scale_axis(ax, factor, axunits=u) the axes in ax report the unit u and their Fourier axes u^-1, the other axes keep theirs; with a list of units each axis gets its own; None removes the unit; 'same' keeps all units; the geometry changes in the same way whatever the units.", "quantifier": "every grid made by the constructor, every history of scale_axis calls, all units, axes and factors", "why_tests_cant": "all unit strings, lists, axis orders and histories", "anchors": ["simim/map/gridder.py:Grid.__init__", "simim/map/gridder.py:Grid.scale_axis"]}
{"id": "C116", "title": "extract_keys answers with the names of a set in a list of the caller's own", "statement": "extract_keys(set) lists the names of the properties in the set (any, loaded, saved, generated) at the time of the call; the list stays a record of that time whatever is made, written or deleted later, and the caller can change it without changing the handler.", "quantifier": "every handler, every history of load, unload, make, write, delete, range and extract_keys calls and of changes the caller makes to lists they hold", "why_tests_cant": "all histories and interleavings of calls with changes to shared lists", "anchors": ["simim/_handlers.py:Handler.extract_keys", "simim/_handlers.py:Handler.make_property", "simim/_handlers.py:Handler.write_property", "simim/_handlers.py:Handler.delete_property"]}
{"id": "C117", "title": "A light cone takes every halo at or above minimum_mass", "statement": "The light cones of a maker contain, from each snapshot in use, exactly halos of mass at or above minimum_mass (in Msun/h, the unit of the stored masses), and no halo at or above it is left out because of its mass; with the default minimum_mass of 0 all halos are eligible.", "quantifier": "every formatted catalogue and snapshot, every little h and minimum mass, every finished set of light cones", "why_tests_cant": "all masses relative to the tabulated cuts, all values of h, composed over formatting, the cut lookup and the build", "anchors": ["simim/lightcone/lcmaker.py:LCMaker.build_lightcones", "simim/lightcone/lcmaker.py:GenericLCMaker.__init__", "simim/siminterface/simhandler.py:SimHandler.get_mass_index", "simim/siminterface/_rawsiminterface.py:SimCatalogs.format"]}
{"id": "C118", "title": "The basic table of a light cone is the one its maker stored", "statement": "A finished light cone file has a table 'Lightcone Basic' and a table 'Lightcone Full' that starts with the same properties. Whatever is done through handlers of the light cone, the basic table keeps the names, data and attributes the maker stored, and the handler sees exactly the full table with its own changes.", "quantifier": "every table left by a maker, every history of loads, unloads, makes, writes, deletes, selections and reopenings", "why_tests_cant": "an unbounded history of calls over two tables that share their datasets", "anchors": ["simim/lightcone/lcmaker.py:LCMaker.build_lightcones", "simim/lightcone/lcmaker.py:SphereMaker.build_lightcones", "simim/_handlers.py:Handler.write_property", "simim/_handlers.py:Handler.delete_property", "simim/lightcone/lchandler.py:LCHandler.__init__"]}
{"id": "C119", "title": "Every light cone maker that is accepted can build light cones", "statement": "LCMaker refuses geometries that do not fit the simulation box; for a maker it accepts, the search for a line of sight can succeed, so that build_lightcones ends.", "quantifier": "every mode, opening angle, aspect, redshift range, box and snapshot table; every sequence of random draws", "why_tests_cant": "an unbounded random search; failure means that no sequence of draws ever ends it", "anchors": ["simim/lightcone/lcmaker.py:LCMaker.__init__", "simim/lightcone/lcmaker.py:LCMaker._initialize_los"]}
{"id": "C120", "title": "gridder_function returns a cube that its edges explain", "statement": "gridder_function returns a data cube and the edges of its cells: between each two neighbouring edges there is one cell, the edges are one pixel apart, each cell holds the sum of the values of exactly the objects between its edges, and the cells together hold the total over all objects inside the outermost edges; with centre and sides given it returns whenever the shapes fit and every side is longer than 1.05 pixels, also for an empty catalogue with setndims.", "quantifier": "every catalogue in every number of dimensions, every set of values, centre, sides and pixel sizes", "why_tests_cant": "all catalogues and geometries", "anchors": ["simim/map/gridder.py:gridder_function", "simim/map/gridder.py:Gridder"]}
{"id": "C121", "title": "The reference frequency of a detector is that of its present response", "statement": "A detector's reference frequency, which fixes the frequencies its figures cover, is the nominal frequency given when it was added or else the peak of its spectral response; it does not change while other detectors are added, changed or removed, and it follows the detector's response when that is set anew.", "quantifier": "every instrument and every sequence of calls adding, changing and removing detectors and fields", "why_tests_cant": "all histories of calls and all responses", "anchors": ["simim/instrument/instrument.py:Instrument.add_detector", "simim/instrument/instrument.py:Instrument.set_spectral_respones", "simim/instrument/instrument.py:Instrument.del_detectors"]}
{"id": "C122", "title": "PSFs have the full width at half maximum they are asked for", "statement": "A PSF is the gaussian whose full width at half maximum along each axis is the one given: a cell half a width off the centre holds half of what the central cell holds, whichever the normalisation; in a SpectralPSF the width at frequency nu is the given one times (nu0/nu) to the given power; without a side length the grid is six widths long.", "quantifier": "every width, pixel size, side length, dimension, frequency axis and exponent", "why_tests_cant": "all widths and grids, with exact values", "anchors": ["simim/map/gridder.py:PSF", "simim/map/gridder.py:SpectralPSF"]}
{"id": "C123", "title": "Making a light cone maker destroys nothing, asks before it reuses a name, and leaves nothing behind when it fails", "statement": "Constructing an LCMaker or SphereMaker removes no directory and changes no file, except for one line appended to the registry of light cones when the simulation has none; a name that is in use is taken only with overwrite=True or after a 'y' to the question, and a refusal changes nothing; a new name gets its directory and nothing else; a constructor that raises leaves no trace.", "quantifier": "every file system, registry, simulation name, light cone name, overwrite argument, sequence of typed answers and outcome", "why_tests_cant": "all file systems, answers and failures of the geometry checks", "anchors": ["simim/lightcone/lcmaker.py:GenericLCMaker.__init__", "simim/lightcone/lcmaker.py:LCMaker.__init__", "simim/lightcone/lcmaker.py:SphereMaker.__init__", "simim/siminterface/_sims.py:_checksim"]}
{"id": "C124", "title": "SphereMaker accepts exactly the shells that fit in the box", "statement": "A SphereMaker is created exactly for the modes sphere, hemisphere, quarter and eighth, a least redshift not above the greatest, and a far end no farther than the box edge (eighth) or half of it (the others); without a greatest redshift it takes the largest of the simulation.", "quantifier": "every mode, redshift range, box, little h, list of snapshots and distance function", "why_tests_cant": "all boxes and redshifts, with exact comparisons", "anchors": ["simim/lightcone/lcmaker.py:SphereMaker.__init__"]}
{"id": "C125", "title": "format deletes raw files only with the user's consent", "statement": "With realtime_clean_raw and the check left on, format asks first: after a 'n', however many unclear answers came before, it returns and nothing has changed, and without a clear answer it never goes on; raw files are deleted only when the caller asked for it, only for snapshots of the instance, and only after a 'y' unless the check was switched off, whenever the call ends or is killed. After a 'y' the call is the same as without the question.", "quantifier": "every catalogue, arguments, state of the data file, sequence of typed answers and crash point", "why_tests_cant": "all answer sequences, states and crash points", "anchors": ["simim/siminterface/_rawsiminterface.py:SimCatalogs.format"]}
{"id": "C126", "title": "Setting up and registering create the directories they promise and nothing else", "statement": "A setup that returns normally either changes nothing or records an absolute root, the one asked for or the one that was there, in memory and on disk, with the five directories below it in place; it changes no other file and creates no other directory. At a first setup a root that does not exist is refused and an 'n' leaves everything as it was. An entry registered with 'auto' gets the directory of its name below the data directory of its kind, made if missing; an entry with a path typed in gets that path, which must exist.", "quantifier": "every file system, root, working and home directory, kind, name and list of answers", "why_tests_cant": "unboundedly many file systems and answer sequences; that nothing else changes is a claim about every other path", "anchors": ["simim/_paths.py:_SimIMPaths._setuppath", "simim/_paths.py:_SimIMPaths._newsimpath", "simim/_paths.py:_SimIMPaths._newlcpath", "simim/_paths.py:_SimIMPaths._newproppath"]}
{"id": "C127", "title": "The first setup makes the directory that the user names the root", "statement": "On a machine without a recorded root, setupsimim makes the existing directory that the user types the root, the home directory if nothing is typed, once the user confirms with 'y'; '~' stands for the home directory. The root is recorded in memory and on disk, the data directories are made and no other file changes. An 'n', or a directory that does not exist, changes nothing.", "quantifier": "every file system without a recorded root, every directory typed and every sequence of answers", "why_tests_cant": "unboundedly many file systems, paths and answer sequences", "anchors": ["simim/_paths.py:setupsimim", "simim/_paths.py:_SimIMPaths._setuppath"]}
{"id": "C128", "title": "GridFromAxesAndFunction fills each cell with the function's value there", "statement": "GridFromAxesAndFunction built from uniformly spaced edges calls the function with the midpoints of the edges and stores in each cell the value that the function gives for it, for the number of properties asked for; the grid keeps the edges given. A function that gives an array of another shape is refused with ValueError.", "quantifier": "every function, every number of axes and uniform edges with at least three edges, every number of properties", "why_tests_cant": "quantifies over functions and grids of every dimension", "anchors": ["simim/map/gridder.py:GridFromAxesAndFunction"]}
