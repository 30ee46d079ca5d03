{"id": "C01", "title": "get_iminmax brackets the valid data", "statement": "get_iminmax(data1d) returns the index of the first and of the last non-NaN value, and (-1, -1) exactly when there is none; every index outside the returned bracket is NaN.", "quantifier": "every 1d array of every length and every NaN pattern", "why_tests_cant": "Infinitely many lengths and NaN patterns; the early-exit test (imin > 0 and imax > 0) never fires when an index is 0, so only an argument over all patterns shows it harmless.", "anchors": ["xoa/interp.py:get_iminmax"]}
{"id": "C02", "title": "linear1d computes the piecewise-linear interpolant and NaN elsewhere", "statement": "When input coordinates increase strictly and output coordinates never decrease (NaNs allowed anywhere in both), linear1d gives for each output point lying in a cell with two valid bounds the linear interpolant of that cell's two values (the upper cell when the point is a shared node), and NaN for every output point that is NaN or lies in no such cell.", "quantifier": "every row length, every NaN pattern of the data and of both coordinates, every rational value", "why_tests_cant": "The scan keeps a moving lower index and two early exits; that no output point is ever skipped is an invariant over all coordinate arrangements.", "anchors": ["xoa/interp.py:linear1d"]}
{"id": "C03", "title": "linear1d obeys the maximum principle and is exact on affine data", "statement": "Under the same conditions every non-NaN output of linear1d lies between the two neighbouring data values, and if the data are an affine function of the input coordinate the output is that function at the output coordinate.", "quantifier": "every valid grid pair and every data row", "why_tests_cant": "Statement over all real-valued data and grids.", "anchors": ["xoa/interp.py:linear1d"]}
{"id": "C04", "title": "nearest1d returns the closest node's value", "statement": "For strictly increasing input and nondecreasing output coordinates with no NaN strictly inside their valid range, nearest1d gives at each covered output point the value of a data point whose coordinate is at minimal distance among ALL input coordinates, and NaN outside the input range. With NaN inside the valid range the guarantee fails: a NaN output coordinate can receive a value (counterexample proved).", "quantifier": "every row, every coordinate arrangement", "why_tests_cant": "Minimality is quantified over all nodes of all grids.", "anchors": ["xoa/interp.py:nearest1d"]}
{"id": "C05", "title": "1D kernels never read or write outside their arrays", "statement": "nearest1d and linear1d perform only in-range array accesses (numba does no bounds check) for ANY coordinates, monotone or not, NaN or not, as soon as every row of the output coordinate has at least one element and the shapes are those documented.", "quantifier": "every content of the three arrays, including non-monotone and all-NaN rows", "why_tests_cant": "An out-of-bounds read in jitted code is silent; only an invariant on the moving index excludes it for all contents.", "anchors": ["xoa/interp.py:nearest1d", "xoa/interp.py:linear1d", "xoa/interp.py:get_iminmax"]}
{"id": "C06", "title": "parallel kernels give the same result under every schedule", "statement": "nearest1d, linear1d, cubic1d and hermit1d distribute rows over threads; the output is the same for every order in which the rows are processed, and row ix depends only on data row ix mod nxi and coordinate rows ix mod nxiy, ix mod nxo.", "quantifier": "every permutation of the parallel iterations, every array", "why_tests_cant": "The number of schedules is factorial and not controllable from a test.", "anchors": ["xoa/interp.py:nearest1d", "xoa/interp.py:linear1d", "xoa/interp.py:cubic1d", "xoa/interp.py:hermit1d"]}
{"id": "C07", "title": "cubic1d and hermit1d interpolate the nodes and NaN elsewhere", "statement": "When data and output have the same number of rows, input coordinates increase strictly and output coordinates increase strictly, cubic1d and hermit1d return the data value at every output point that coincides with a node, give a number in every input cell and NaN for output points in no input cell; hermit1d with zero tension reproduces affine data on regular grids, cubic1d does not (counterexample proved). When there are fewer data rows than output rows they read data row ix instead of ix mod nxi, i.e. out of bounds (counterexample proved).", "quantifier": "every row, every bias and tension", "why_tests_cant": "All real-valued data, bias and tension; polynomial identities.", "anchors": ["xoa/interp.py:cubic1d", "xoa/interp.py:hermit1d"]}
{"id": "C08", "title": "extrap1d only fills the requested side and never alters valid data", "statement": "extrap1d(vari, mode) keeps every non-NaN value and every interior NaN; with 'bottom'/'both' every leading NaN takes the first valid value, with 'top'/'both' every trailing NaN takes the last valid value, otherwise they stay NaN; mode 'no' is the identity; applying it twice changes nothing.", "quantifier": "every 2d array, every NaN pattern, every mode string", "why_tests_cant": "All NaN patterns and lengths; idempotence is a universal law.", "anchors": ["xoa/interp.py:extrap1d"]}
{"id": "C09", "title": "cellave1d in conservative mode conserves the integral", "statement": "For one row (or as many data rows as output rows) with increasing cell bounds, no NaN and output cells covering the input cells, the sum over output cells of value times width equals the same sum over input cells; in the default mode each output value is the overlap-weighted mean of the input cells meeting it, hence lies between their extrema and is NaN where nothing overlaps. With the extrapolation modes the first input cell counts as reaching minus infinity ('bellow' or 'both') and the last one infinity ('above' or 'both'), the same means and integrals being computed; with 'both' and data everywhere no output is NaN.", "quantifier": "every pair of increasing bound sequences and every data row", "why_tests_cant": "Conservation is an identity over all grids; the moving start index must never skip an overlapping cell.", "anchors": ["xoa/interp.py:cellave1d"]}
{"id": "C10", "title": "regrid1d honours its method arguments (dispatch)", "statement": "regrid1d calls the kernel named by method; method names and numeric codes are interchangeable; but extrap, bias, tension and conservative options never reach the kernels because enumeration members are compared with strings (proved as a fact of the dispatch code).", "quantifier": "every method name, every extrap option", "why_tests_cant": "The dispatch depends on Python enum comparison semantics over all option spellings.", "anchors": ["xoa/regrid.py:regrid1d", "xoa/regrid.py:regrid1d_methods", "xoa/regrid.py:extrap_modes", "xoa/misc.py:XEnumMeta"]}
{"id": "C11", "title": "closest2d returns the nearest grid point", "statement": "closest2d returns indices of a grid point at minimal great-circle distance from the target, the first one in scan order in case of ties, provided some grid point is at distance less than the search bound.", "quantifier": "every 2d grid and every target point", "why_tests_cant": "Minimality over all points of all grids.", "anchors": ["xoa/interp.py:closest2d", "xoa/interp.py:haversine"]}
{"id": "C12", "title": "cell2relloc inverts bilinear interpolation exactly", "statement": "If the sides 1-4 and 2-3 of a cell are parallel, or have a cross product of at least twice the machine epsilon, every pair returned by cell2relloc satisfies the bilinear equations; for a point of a strictly convex cell it is exactly the pair of weights of this point, and it is returned in every counterclockwise cell and every parallelogram; in clockwise trapezoids a division by zero may occur (counterexample proved).", "quantifier": "every quadrangle, every point", "why_tests_cant": "Algebraic identity over all real cells.", "anchors": ["xoa/interp.py:cell2relloc"]}
{"id": "C13", "title": "grid2relloc only reports true locations", "statement": "When grid2relloc returns (p, q) different from (-1, -1), the point lies in the cell of integer part (p, q) with the fractional parts as relative location; but points within the grid are missed when the closest node is on the border (counterexample proved).", "quantifier": "every curvilinear grid and every point", "why_tests_cant": "All grids; the search window is an off-by-one that only a general statement exposes.", "anchors": ["xoa/interp.py:grid2relloc", "xoa/interp.py:cell2relloc", "xoa/interp.py:closest2d"]}
{"id": "C14", "title": "get_edges 1D edges enclose their cells", "statement": "For any axis of n >= 2 values, the edges are n+1; interior edges are midpoints of neighbouring values; each end value is midway between its two edges; a strictly monotonic axis gives strictly monotonic edges strictly separating the values; on a regular axis all edges are regular with the same step.", "quantifier": "every axis, every size", "why_tests_cant": "All sizes and spacings.", "anchors": ["xoa/grid.py:get_edges_1d"]}
{"id": "C15", "title": "apply-along-axis slices are a partition", "statement": "get_axis_slices(ndim, axis) returns, for every non-negative or negative axis in range, slices that address only the requested axis: first, last, all-but-first, all-but-last and the interior regions, each full on the other axes; 'first' and 'all but first' (respectively 'last' and 'all but last') are disjoint and cover the axis.", "quantifier": "every number of dimensions, every axis, every axis length", "why_tests_cant": "Unbounded ndim and lengths.", "anchors": ["xoa/misc.py:get_axis_slices"]}
{"id": "C16", "title": "dict_merge gives priority to the first dictionary and merges recursively", "statement": "dict_merge(d1, ..., dn) contains exactly the keys having a non-skipped value; each scalar value is that of the first dictionary which has the key (with None skipped when requested); nested dictionaries are merged recursively by the same rule; merging with empty dictionaries or with itself changes nothing.", "quantifier": "every list of nested dictionaries, every depth, every keyword setting", "why_tests_cant": "Unbounded nesting and number of dictionaries.", "anchors": ["xoa/misc.py:dict_merge"]}
{"id": "C17", "title": "dict_merge never modifies its arguments", "statement": "Without list merging, no input dictionary is modified by dict_merge, whatever the aliasing between them. With mergelists=True the first dictionary's list object is extended in place (counterexample proved).", "quantifier": "every heap, every aliasing of inputs", "why_tests_cant": "Aliasing patterns are unbounded; in-place += is invisible on copies.", "anchors": ["xoa/misc.py:dict_merge"]}
{"id": "C18", "title": "dict_filter partitions the keyword arguments", "statement": "dict_filter moves to the result exactly the entries whose key carries the prefix (short or not), never invents a value, and unless copy is requested removes exactly the selected entries from the source; nothing is lost.", "quantifier": "every dictionary, prefix list and option", "why_tests_cant": "All keyword dictionaries.", "anchors": ["xoa/misc.py:dict_filter"]}
{"id": "C19", "title": "gunique keeps the first occurrence of each value in order", "statement": "list(gunique(seq)) has no duplicates, the same set of elements as seq, and keeps the order of first occurrences; it is idempotent.", "quantifier": "every finite sequence", "why_tests_cant": "All sequences.", "anchors": ["xoa/misc.py:gunique"]}
{"id": "C20", "title": "ArgList/ArgTuple put is the inverse of get", "statement": "With al = ArgList(x), al.get() is always a list and al.put(al.get()) is x; for every result list r of the processing, al.put(r) is r when x was a list and the first item of r when it was not. Same for ArgTuple with tuples.", "quantifier": "every value", "why_tests_cant": "All shapes of argument.", "anchors": ["xoa/misc.py:ArgList", "xoa/misc.py:ArgTuple"]}
{"id": "C21", "title": "match_string decides according to its pattern", "statement": "match_string(ss, checks, ignorecase, transform) is true exactly when ss and checks are not empty and some check accepts the stripped (and lower-cased when ignorecase) string: equality up to surrounding blanks (and case) for a string, a true result for a callable; None checks are ignored and the order of checks never matters.", "quantifier": "every string and list of checks", "why_tests_cant": "Unbounded strings and lists.", "anchors": ["xoa/misc.py:match_string"]}
{"id": "C22", "title": "Choices accepts exactly its members", "statement": "A Choices object maps every accepted spelling to its canonical choice and raises for everything else (case-insensitively when configured).", "quantifier": "every choice set and every value", "why_tests_cant": "All values.", "anchors": ["xoa/misc.py:Choices"]}
{"id": "C23", "title": "transpose is a permutation of the dimensions", "statement": "transpose(da, dims, mode) yields an array whose dimensions end with the requested order, keeps each remaining dimension in its original relative order on the left, and loses no element: every element keeps its coordinates. Modes 'classic' rejects unknown dimensions, 'compat' ignores them, 'insert'/'resize' create them.", "quantifier": "every array rank, every dims request", "why_tests_cant": "All ranks and permutations.", "anchors": ["xoa/coords.py:transpose"]}
{"id": "C24", "title": "dimension flushing round-trips", "statement": "When the input coordinate varies only along dimensions of the output coordinate (or the output coordinate is 1D and the input coordinate has the last other dimensions of the data), DimFlusher1D reshapes n-d data to 2-d (rows x axis) so that row indices of data and of coordinates correspond modulo their number of rows, every row is reached, and get_back restores the original element positions: get_back(data2d) is the inverse of the flattening, with the dimensions of the data in their order and the extra dimensions of the output coordinate on the left. Outside of this condition the rows do not correspond (two counterexamples proved).", "quantifier": "every shape, every position of the axis, every subset of coordinate dimensions", "why_tests_cant": "All ranks and shapes; index arithmetic.", "anchors": ["xoa/coords.py:DimFlusher1D"]}
{"id": "C25", "title": "set_options is scoped: leaving the context restores the previous options", "statement": "After 'with set_options(...)', however nested and whether or not the body raises, every option has the value it had before entering; inside, the options given have their new value; but options set earlier in the session and not repeated are reset to their defaults (counterexample proved).", "quantifier": "every nesting of contexts, every sequence of set/reset/get calls", "why_tests_cant": "Unbounded histories.", "anchors": ["xoa/__init__.py:set_options", "xoa/__init__.py:reset_options", "xoa/__init__.py:get_option", "xoa/__init__.py:load_options"]}
{"id": "C26", "title": "staggered-grid names: parse is the inverse of format", "statement": "For every root and every location made of letters, parse_attr of the formatted name, standard_name or long_name returns the root and the lower-case location (default locator; custom root-first or location-first formats whose separator does not begin with a letter; lists of valid locations when none is a prefix of another). In general parse_attr finds a location exactly when the value begins with root and location in the attribute's format up to case, and prefers the longest root; otherwise it returns the value unchanged. Deviations proved by counterexample: prefix locations, trailing text, plain names containing underscores.", "quantifier": "every root, location, value, valid location list, separator", "why_tests_cant": "All strings; the regular expression is greedy, backtracking and unanchored at the end.", "anchors": ["xoa/cf.py:SGLocator.parse_attr", "xoa/cf.py:SGLocator.format_attr", "xoa/cf.py:_compile_sg_match_"]}
{"id": "C27", "title": "SGLocator formatting, merging and patching respect the requested location", "statement": "format_attr with a location gives a value at that location with the same standardised root, and is idempotent; loc=None keeps the location; loc=False leaves the root; invalid locations raise XoaCFError. format_attrs changes only standard_name and long_name. merge_attr takes the root of the second value and the location of the argument, else of the second, else of the first value. patch_attrs handles each attribute independently: fill mode only adds missing ones, replace mode gives priority to the patch. match_attr accepts what format_attr produces; get_location returns the common location or raises XoaCFError on conflict. Deviations (loc='any', loc=True, capital locations, string of locations) proved by counterexample.", "quantifier": "every attribute dictionary, value and location", "why_tests_cant": "All dictionaries and strings.", "anchors": ["xoa/cf.py:SGLocator.format_attrs", "xoa/cf.py:SGLocator.merge_attr", "xoa/cf.py:SGLocator.patch_attrs", "xoa/cf.py:SGLocator.match_attr", "xoa/cf.py:SGLocator.get_location"]}
{"id": "C28", "title": "CF specification inheritance is resolved", "statement": "After loading valid specifications whose inheritance chains all end, every entry (of coords or data_vars, across categories, transitively) holds its own values with precedence, the values of its parent for what it leaves empty, and for lists (names, standard names, units, long names) its own items followed by those of the parent; keys foreign to its category are dropped; the result does not depend on the order of the entries; each axis type of dims is extended by the names of the coordinates with that axis. A direct self-inheritance raises AssertionError, a missing parent KeyError, and a longer cycle fails at every recursion limit. Findings: duplicates stay in merged lists (unique=True is silently ignored) and domain/search_order, which have non-empty defaults, are never inherited.", "quantifier": "every specification and inheritance graph", "why_tests_cant": "Unbounded graphs.", "anchors": ["xoa/cf.py:CFSpecs._process_entry_", "xoa/cf.py:CFSpecs._post_process_", "xoa/cf.py:CFSpecs.set_specs"]}
{"id": "C29", "title": "CF search returns exactly the objects that match, in priority order", "statement": "search(dsa, name) returns exactly the items of the dataset that meet a criterion of the name (name, standard_name, long_name, axis or units equal up to case and spaces to a reference, or with the same root at an accepted location), each once, ordered by the first criterion of the entry's search order that they meet and then by their order in the dataset; single=True returns the first one, and with errors='raise' fails unless there is exactly one; an unknown name gives None or XoaCFError. It never fails when attributes are text, the item's axis attribute does not face an entry without axis, and loc is not text. match(da) without name gives the first matching entry. Found false and proved so: an item with an axis attribute makes matching fail (TypeError) as soon as an entry with axis=None precedes; a location given as text makes unlocated items fail (TypeError); search without a name labels every item with the CF name of the first one. CFSpecs.search returns the best match of the first category that has one (data variables first for a dataset, coordinates first for an array), and raises XoaCFError with errors='raise' exactly when no category has a match; a list of categories given by the user is ignored.", "quantifier": "every dataset, every specification, every location argument", "why_tests_cant": "All datasets and specifications.", "anchors": ["xoa/cf.py:_CFCatSpecs_.search", "xoa/cf.py:_CFCatSpecs_.match", "xoa/cf.py:_CFCatSpecs_._get_ordered_match_specs_", "xoa/cf.py:CFSpecs.search"]}
{"id": "C30", "title": "dimension types are resolved consistently", "statement": "A dimension has at most one type: the registered one of its unlocated name, else the axis of its coordinate or of the array. search_dim(da, type, loc) returns the first dimension of da with this type and a compatible location, None exactly when there is none; without a type, it returns a dimension of da with the axis of da, or the only dimension. get_dims returns for every requested type what search_dim finds, raises XoaError when errors='raise' and one is missing, and never gives one dimension to two different types; with allow_positional, types found keep their dimension and the others get the dimension at their place from the end. search_from_dim returns a coordinate that carries the dimension and its type, with the most dimensions, or None when there is none. Found false and proved so: an unknown dimension named like my_dim raises XoaCFError; upper case registered names are never recognised; repeated types give a shorter tuple; the positional fallback may give one dimension twice or raise IndexError; search_dim without a type on a single dimension at another location raises UnboundLocalError.", "quantifier": "every array, specification, type list, location", "why_tests_cant": "All dims lists and coordinates.", "anchors": ["xoa/cf.py:CFCoordSpecs.get_dims", "xoa/cf.py:CFCoordSpecs.search_dim", "xoa/cf.py:CFCoordSpecs.get_dim_type", "xoa/cf.py:CFCoordSpecs.search_from_dim", "xoa/cf.py:CFCoordSpecs.get_axis"]}
{"id": "C31", "title": "current CF specs: set_cf_specs is scoped and get_cf_specs is stable", "statement": "Inside 'with set_cf_specs(s)' get_cf_specs() returns s; leaving it, whatever the body has done (exceptions, nested contexts, other set_cf_specs, reset_cache), restores the former specifications and propagates the outcome of the body, except that a first context whose body resets the memory ends with KeyError. As long as they are not set, get_cf_specs() returns the same object, whatever its cache mode and whatever happens to the cache file. It never fails, whatever is in the cache file: a usable file is read with cache='read' only, else specifications are computed; what a session writes is what a later session reads. Entries are searched in data_vars then coords. Found false and proved so: the default mode 'rw' never reads the cache file.", "quantifier": "every nesting and sequence of calls, every content of the cache file", "why_tests_cant": "Unbounded histories.", "anchors": ["xoa/cf.py:set_cf_specs", "xoa/cf.py:get_cf_specs", "xoa/cf.py:reset_cache"]}
{"id": "C32", "title": "list validators accept exactly lists of allowed lengths", "statement": "A list validator returns None for None; otherwise it accepts a value exactly when its number of elements satisfies n, nmin, nmax, odd and even and every element is valid, and returns the validated elements in the same order and number, a tuple for a tuple and a list otherwise; a wrong size raises VdtSizeError, a wrong element raises its own error. Found false and proved so: the setting 'shape' refuses every value; an empty text takes the first positional argument (e.g. the minimum) as default.", "quantifier": "every value, every setting, every element validator", "why_tests_cant": "All lengths and settings.", "anchors": ["xoa/cfgm.py:_valwraplist_"]}
{"id": "C33", "title": "bounded numeric validators clamp into the bounds", "statement": "is_numerics with ordered bounds returns, for every list or tuple of numbers or numeric texts, a tuple of the same length where each value is unchanged if within the bounds and else replaced by the violated bound; a wrong count raises VdtTypeError; is_minmax does the same for two values without reordering them. Found false and proved so: is_minmax does not sort its values; NaN is accepted whatever the bounds; integer type with a fractional bound gives a value out of the bounds.", "quantifier": "every numeric list and bounds", "why_tests_cant": "All values.", "anchors": ["xoa/cfgm.py:is_numerics", "xoa/cfgm.py:is_minmax", "xoa/cfgm.py:is_figsize"]}
{"id": "C34", "title": "Options given on the command line reach the configuration, and only them", "statement": "When option names contain no dash, space or underscore (section names may be surrounded by underscores) and the nested prefix is lower case without dash, each option of the configuration gets one flag, distinct options get distinct flags, and after parsing the command line the configuration holds the given value for each option that was given and its previous value everywhere else. Section name lists and config paths list the names of all enclosing sections from the outermost. FALSE otherwise, each refuted in the model: names with underscores may give the same flag to two options; an option whose name contains a space or a dash has a flag that is accepted and silently ignored, as has any option with a nested prefix containing a capital; a boolean option absent from the command line overrides the value of the configuration file.", "quantifier": "every section path", "why_tests_cant": "All paths and names.", "anchors": ["xoa/cfgm.py:_opt2cfgname_", "xoa/cfgm.py:_cfg2optname_", "xoa/cfgm.py:get_cfg_path"]}
{"id": "C35", "title": "patching a configuration only changes what the patch names", "statement": "For well-formed trees where no name is an option on one side and a section on the other, and a patch whose section names neither start nor end with an underscore, ConfigManager.patch(cfg, patch) gives every option of patch its patch value (converted to the type of the previous value when that conversion succeeds, unchanged when the types agree), leaves every other option untouched at every depth, adds no section that neither had, and patching twice is the same as once. FALSE otherwise, each refuted in the model: a boolean patched with the text 'False' is True; a list patched with a text becomes the list of its letters; sections named with leading or trailing underscores are never patched; an option replaced by a section keeps only the last option of that section, or raises AttributeError when the specifications know the option; a section replaced by an option leaves a tree that can no longer be walked.", "quantifier": "every pair of nested configurations", "why_tests_cant": "Unbounded depth.", "anchors": ["xoa/cfgm.py:ConfigManager.patch", "xoa/cfgm.py:_walker_patch_"]}
{"id": "C36", "title": "filter_section removes exactly what the filter rejects", "statement": "filter_section(sec, cfgfilter, default) keeps, at every depth, exactly the options and sections all of whose names are kept by the filter of their level (value of the name in the filter, else the opposite of the default for exceptions, else the default), never changes a kept value nor the order of names, keeps the tree well formed and is idempotent; the default argument applies to the first level only.", "quantifier": "every configuration tree, every filter tree", "why_tests_cant": "Unbounded depth.", "anchors": ["xoa/cfgm.py:filter_section"]}
{"id": "C37", "title": "convolve is a normalised weighted mean", "statement": "convolve(data, kernel, normalize=True), for every float array with any NaN pattern and any non-negative kernel, gives at each point the kernel-weighted mean of the valid data under the kernel; it preserves constants, lies between the bounds of the valid data that have weight, is linear in data with the same NaNs, and is NaN exactly where this weight is null or, if there is a NaN anywhere in the data, at most a millionth of the kernel sum (so the result at a point may depend on a NaN far from it: refuted locality). Without normalisation it is the weighted sum. Integer data cannot be normalised (TypeError) and truncate the kernel. For kernels with negative weights the normalised result is no weighted mean and does not preserve constants (refuted).", "quantifier": "every array of every rank and shape, every kernel, every NaN pattern", "why_tests_cant": "All arrays and kernels.", "anchors": ["xoa/filter.py:convolve", "xoa/filter.py:_convolve_"]}
{"id": "C38", "title": "kernels have the declared shape, values and symmetry", "statement": "generate_kernel gives a kernel with the dimensions of the data in their order, the size of each 1d kernel along its dimension and 1 elsewhere, and the product of the 1d kernels as values, for one or two 1d kernels (a tuple is for the last dimensions); with three or more it raises ValueError unless the kernels in the middle have size one, so convolve(data, 3) fails on 3D data; a ready kernel is inserted by name; an integral float size gives another kernel than the same int; shapiro_kernel has 3 points per dimension, counts the centred coordinates and is symmetric; generate_isotropic_kernel is symmetric, has the fill value outside of the ellipsoid, and is NaN everywhere as soon as one size is 1; a window given by values is interpolated within its range and unchanged for the same size. A window name is one of numpy, else of scipy.signal.windows, else an XoaError, and its arguments come after the size; with isotropic dimensions only, generate_kernel gives the isotropic kernel of the given sizes (or of the values, which must be near those of the first dimension) along them and size one elsewhere; without isotropic dimensions it is the orthogonal kernel. False (refuted): isotropic and orthogonal dimensions can be mixed (it always fails); the arguments of the window function are used for isotropic kernels (they are ignored); numpy arrays are accepted for isotropic dimensions (ValueError).", "quantifier": "every size, every rank, every 1d kernel, every window function", "why_tests_cant": "All sizes and ranks.", "anchors": ["xoa/filter.py:generate_orthogonal_kernel", "xoa/filter.py:shapiro_kernel", "xoa/filter.py:generate_kernel", "xoa/filter.py:generate_isotropic_kernel", "xoa/filter.py:get_window_func"]}
{"id": "C39", "title": "erode_mask never alters valid data and only shrinks the mask", "statement": "erode_mask keeps every valid value unchanged and fills missing ones with values in the range of the valid data; after n passes with the default kernel the valid points are exactly those at most n steps along x and y from a valid point of the same slice. With a mask, it ends exactly when each horizontal slice with an unmasked point has valid data, and then no unmasked point is missing; otherwise it loops for ever, as it does with a mask lacking one of the kernel dimensions as soon as it is True somewhere. Points under the mask may be filled too.", "quantifier": "every array, mask, kernel and number of iterations", "why_tests_cant": "Unbounded number of iterations; termination.", "anchors": ["xoa/filter.py:erode_mask"]}
{"id": "C40", "title": "sigma formulas compute the CF formulas and map the surface and the bottom to themselves", "statement": "atmosphere_sigma_coordinate, ocean_sigma_coordinate and ocean_s_coordinate(_g1,_g2) return, at every grid point, the value of the CF appendix D formula of the terms at this point; sigma=0 gives the sea surface height, sigma=-1 gives minus the bathymetry, and the altitude increases strictly with sigma when the water column is thick enough; atmosphere_sigma gives the surface pressure at sigma=1 and the top pressure at sigma=0. ocean_s_coordinate raises ValueError as soon as the bathymetry or the curve has a dimension that sig and hc lack; g1/g2 without cs need scalar thetas and thetab (missing: XoaSigmaError; array: ValueError).", "quantifier": "every bathymetry, elevation, stretching parameter and sigma level, every set of dimensions", "why_tests_cant": "Real-analysis statement on sinh/tanh.", "anchors": ["xoa/sigma.py:atmosphere_sigma_coordinate", "xoa/sigma.py:ocean_sigma_coordinate", "xoa/sigma.py:get_cs", "xoa/sigma.py:ocean_s_coordinate", "xoa/sigma.py:ocean_s_coordinate_g1", "xoa/sigma.py:ocean_s_coordinate_g2"]}
{"id": "C41", "title": "caching in the sigma formulas is transparent", "statement": "Calling a sigma formula with a cache dictionary filled by previous calls with the same static terms gives the same result as without cache, for every elevation; with changed static terms the stale cache is used, and a cache filled by another formula raises KeyError (counterexamples proved).", "quantifier": "every sequence of calls sharing a cache", "why_tests_cant": "Unbounded histories of calls.", "anchors": ["xoa/sigma.py:ocean_sigma_coordinate", "xoa/sigma.py:ocean_s_coordinate", "xoa/sigma.py:ocean_s_coordinate_g1", "xoa/sigma.py:ocean_s_coordinate_g2"]}
{"id": "C42", "title": "decode_formula_terms parses what CF writes", "statement": "For every list of (term, variable) pairs of word names and every white space around the colons and between the pairs, decode_formula_terms returns exactly this mapping (the last of repeated terms wins). For every string at all: it is cut, in a unique way, at the white space between two word characters; if every piece has exactly one colon the result maps the text before it (right-stripped) to the text after it (left-stripped), otherwise XoaSigmaError is raised.", "quantifier": "every attribute string; every list of pairs, every white space", "why_tests_cant": "All strings.", "anchors": ["xoa/sigma.py:decode_formula_terms"]}
{"id": "C43", "title": "CmapAdapter limits follow its specification", "statement": "After any sequence of calls on a CmapAdapter: with 'piv<value>' get_dict gives the limits of the last set_vlim and the colormap cropped around the value (the colormap itself and no limits before the first set_vlim); with 'cyc<value>' the limits are (0, value) until set_vlim is called and (0, 360) ever after, whatever the value and the limits asked for (documented as 0..value: counterexample proved), and no colormap is returned; without specifications the construction fails, and with any other prefix every later call fails.", "quantifier": "every specification string and every sequence of set_vlim calls", "why_tests_cant": "Unbounded call histories and specification strings.", "anchors": ["xoa/color.py:CmapAdapter"]}
{"id": "C44", "title": "regrid1d interpolates every column of an n-d array", "statement": "For data of any rank, an input coordinate varying along any compatible subset of the data dimensions and an output coordinate with fewer or more dimensions, regrid1d(da, coord, method) returns an array with the dimensions of the data (output dimension in place of the input one, extra dimensions of the output coordinate on the left) whose column at every position is the 1D interpolation (linear, nearest, cubic, hermit, cell average) of the data column at that position with the input and output coordinates at that position.", "quantifier": "every rank, shape, order of dimensions, compatible subset of coordinate dimensions, method, column", "why_tests_cant": "All ranks and shapes; index arithmetic composed with the numerical kernels.", "anchors": ["xoa/regrid.py:regrid1d", "xoa/coords.py:DimFlusher1D", "xoa/interp.py"]}
{"id": "C45", "title": "sigma terms of a dataset are those its arrays declare", "statement": "get_sigma_terms maps, for each location, the variables named by the formula_terms of the last array at this location to the arguments of the conversion functions; the first array that is not well declared makes it raise, with XoaSigmaError except when a variable is not a data variable (AttributeError). decode_cf_sigma calls the formula of the type with the array as sig and exactly the declared variables as arguments; errors='ignore' or 'warn' only hide XoaSigmaError; only ocean_sigma_coordinate and ocean_s_coordinate_g2 are ever called (the other documented types and the CF term names sigma, ps, ptop are refused: proved).", "quantifier": "every dataset, every list of sigma arrays and attributes, every errors mode", "why_tests_cant": "All datasets and attribute strings; the refusal of three documented formulas holds for every dataset.", "anchors": ["xoa/sigma.py:get_sigma_terms", "xoa/sigma.py:decode_cf_sigma", "xoa/sigma.py:_ds_search_ci_", "xoa/sigma.py:SIGMA_COORDINATE_TYPES", "xoa/sigma.py:FORMULA_TERMS_TO_CF_NAMES"]}
{"id": "C46", "title": "Loading CF specs is determined by the sources; the in-memory cache leaks state", "statement": "Without the cache, CFSpecs built from a list of sources gives, whatever was loaded before, for every axis the concatenation of the dims lists of the sources in order followed by the name and names of every coordinate bound to that axis, and for every coordinate the first axis set and the concatenation of its names. With the cache (default), the lists of the cached configuration are extended in place: after k loads of the same file the coordinate names appear k times in the valid dimensions of every specification made so far; a (key, file) source raises KeyError the second time it is loaded; set_specs drops entries that did not come from the user or default files. CFSpecs.copy() leaves the original unchanged and has the same coordinates, but is not a copy (refuted): the names of the coordinates come once more among the dimensions of their axis at each copy, and set_specs on it forgets everything.", "quantifier": "every list of sources and their contents, every previous state of the heap and of the cache, every number of loads", "why_tests_cant": "the result depends on the history of previous loads in the process; tests look at one fresh process state", "anchors": ["xoa/cf.py:CFSpecs._load_cfg_as_dict_", "xoa/cf.py:CFSpecs.load_cfg", "xoa/cf.py:CFSpecs._post_process_", "xoa/cf.py:CFSpecs.set_specs", "xoa/cf.py:_CF_DICT_MERGE_KWARGS", "xoa/cf.py:CFSpecs.copy"]}
{"id": "C47", "title": "get_edges_2d: inner edges are cell-corner means; border edges should extrapolate half a cell", "statement": "For a 2D DataArray of floats with at least 2 rows and 2 columns, get_edges_2d gives ny+1 x nx+1 edges: inside, the mean of the four surrounding values; on the border, the linear extrapolation by half a cell (bilinear at corners), plus the content of the uninitialised memory that the function adds to (so exact on regular grids only if that memory is zero; any value may come out). It refuses plain ndarrays (AttributeError), integer arrays (TypeError) and arrays with less than 2 rows or columns (IndexError).", "quantifier": "every size, every value of the array, every content of the uninitialised memory", "why_tests_cant": "fresh memory is often zero in tests, so that the dependence on uninitialised memory does not show; all sizes and values", "anchors": ["xoa/grid.py:get_edges_2d", "xoa/grid.py:get_edges_1d"]}
{"id": "C48", "title": "Formatting arrays and datasets with CF specifications", "statement": "When an array is recognised (or a known CF name is given), format_coord/format_data_var/format_dataset give it the CF name (the first specialised name with specialize) at the location its former name carried, or at the location asked for; without replace_attrs every attribute it already had stays (standard_name and long_name at most reformatted), each missing declared attribute gets the first declared value and no other attribute appears; with replace_attrs the declared value wins; an array that is not recognised is returned unchanged and an unknown CF name is refused. The coordinates of a formatted array get their new names and attributes and the dimensions follow; two variables ending with the same name is an error. get_attrs returns every declared attribute and the extra ones with priority. Documented behaviour that fails: select/exclude have no effect (and the exclude list grows), attrs=False still reformats attributes, unrecognised coordinates are renamed to None (two of them: ValueError), fill_attrs of an array returns a string and fills nothing, standardize and coords of format_dataset are ignored, formatting twice differs from once.", "quantifier": "all specifications, arrays, datasets, attributes, names, locations and options", "why_tests_cant": "The result depends on every combination of existing attributes, declared attributes, names with locations and renaming conflicts; examples cannot cover them.", "anchors": ["xoa/cf.py:CFSpecs.format_coord", "xoa/cf.py:CFSpecs.format_data_var", "xoa/cf.py:CFSpecs.format_dataset", "xoa/cf.py:CFSpecs.fill_attrs", "xoa/cf.py:_CFCatSpecs_.get_attrs", "xoa/cf.py:_CFCatSpecs_.get_name", "xoa/cf.py:_CFCatSpecs_.format_dataarray"]}
{"id": "C49", "title": "Precedence of the sources of a configuration", "statement": "When the options can be told apart by their flags, arg_parse gives each option of the configuration the value of the command line if its flag is given, else that of the configuration file, else its default (completing the file), else that of the patch; no option value is mixed up with another one, and it fails only when the command line or the file holds a value refused by the validator; arg_patch has the same precedence. Two options with the same flag make the parser fail. Documented behaviour that fails: with cfgfilepatch='after' the command line has no effect at all (the file is completed with all the defaults before it is applied, even if it does not exist); a boolean option that is not given on the command line overrides the value of the configuration file with its default; of several extra options only the last one is declared.", "quantifier": "all configuration specifications, configuration files, command lines, patches, exclusions and extra options", "why_tests_cant": "Any subset of the options may be present in each of the four sources, and the absence of interference between options concerns all pairs of names.", "anchors": ["xoa/cfgm.py:ConfigManager.arg_parse", "xoa/cfgm.py:ConfigManager.arg_patch", "xoa/cfgm.py:ConfigManager.load", "xoa/cfgm.py:ConfigManager.patch", "xoa/cfgm.py:_walker_argcfg_setarg_", "xoa/cfgm.py:_walker_argcfg_setcfg_"]}
{"id": "C50", "title": "Accessors of arrays and datasets", "statement": "For every array and specifications, the CF name given by the cfd/xoa accessor is that of the first entry that matches, looked up in the category of the array (a coordinate when its name is one of its dimensions or coordinates) and then in the other one. Once read, the CF name, the attributes and the specifications of a sub-accessor never change again, whatever is done afterwards; before, they follow the current array and specifications. An attribute of the accessor is a CF attribute of the array, else the coordinate found under that name, else None. False (refuted): the name follows set_cf_specs; xdim/ydim/get_dim give dimensions (they always fail); da.xoa.cf, ds.xoa.cf and ds.xoa.decode_sigma give accessors (they are None); register_accessors(cf='name') registers the xoa accessor under 'xoa'.", "quantifier": "all arrays, attributes, specifications, histories of reads, in-place changes and set_cf_specs", "why_tests_cant": "The cached values depend on the order of an unbounded history of operations, and the names on all specifications.", "anchors": ["xoa/accessors.py:_CFAccessor_", "xoa/accessors.py:_CoordAccessor_.get_dim", "xoa/accessors.py:CFDataArrayAccessor", "xoa/accessors.py:XoaDataArrayAccessor.cf", "xoa/accessors.py:XoaDatasetAccessor", "xoa/__init__.py:register_accessors", "xoa/cf.py:CFSpecs.match", "xoa/cf.py:CFSpecs.get_category"]}
{"id": "C51", "title": "Similar arrays", "statement": "are_similar is true exactly when both arrays have the same standard_name (up to case), CF name, name or long_name (up to case), and it is symmetric. False (refuted): it works without an accessor named 'cf' (AttributeError unless the standard names agree); it is transitive; search_similar searches in the dataset (it always fails on datasets, and with an array it scans the coordinates of the searched array and gives the first similar one).", "quantifier": "all pairs of arrays, CF names and attributes", "why_tests_cant": "An equivalence between the result and four criteria over all attributes and names.", "anchors": ["xoa/cf.py:are_similar", "xoa/cf.py:search_similar"]}
{"id": "C52", "title": "Validators of single values", "statement": "bbox accepts exactly the texts made of four numbers separated by one comma or blanks, and gives them in order; interval gives the two evaluated bounds and the optional closed/open code, whatever brackets are around; paths are expanded only on demand; colours with a component above 1 are divided by 256 and stay within [0,1]; a dict is given by a call, braces or key=value lists and anything else is a validation error; an eval option that can not be evaluated is left unchanged. False (refuted): bbox written with commas in a file (AttributeError) or with comma+space; interval bounds are checked as a whole ('included' gives 'c'); [0, 10] without quotes is an interval of numbers; flags written False are false; date ranges work (no date range is ever accepted); white is (255,255,255).", "quantifier": "all texts and values, all evaluation and conversion functions", "why_tests_cant": "Characterises the accepted texts: infinitely many strings, separators and values.", "anchors": ["xoa/cfgm.py:is_bbox", "xoa/cfgm.py:is_interval", "xoa/cfgm.py:is_path", "xoa/cfgm.py:is_timedelta", "xoa/cfgm.py:is_daterange", "xoa/cfgm.py:is_eval", "xoa/cfgm.py:is_color", "xoa/cfgm.py:is_dict"]}
{"id": "C53", "title": "Registry of validation functions", "statement": "After register_validation_functions(k=f), options of type k are validated by f, options of type k_list and of its plural by f element by element (unless these names were taken); names that are not registered again keep their function after any history of registrations; functions are always wrapped exactly once; a validator gets the keywords it declares and no other; functions given to get_validator win over the registry, which wins over those of the validate package. False (refuted): registering a function again replaces it (the list forms keep the first one); registering adds the forms of this name only (each call adds forms of forms: after n calls there are at least 2^(n+1)-1 names).", "quantifier": "all registries, names, functions and histories of registrations, all calls", "why_tests_cant": "Invariant of a registry over all histories of registrations.", "anchors": ["xoa/cfgm.py:register_validation_functions", "xoa/cfgm.py:_update_registry_", "xoa/cfgm.py:get_validator", "xoa/cfgm.py:_valwrap_", "xoa/cfgm.py:_valwraplist_"]}
{"id": "C54", "title": "Removing default values from a configuration", "statement": "remove_defaults removes exactly the options of specified sections whose value is the text (or the list of texts) of their default value, or None when they have no default; it keeps all other options and all sections, and is idempotent; validating the result again gives back the same configuration, provided validation is idempotent, no default is the text None and no option without default is None. False (refuted): options at their default value are removed (numbers and booleans never are, since the default is compared as a text); an undeclared option that is None is restored; an option without default that is None can be removed (the result is then refused); the text None survives.", "quantifier": "all specifications, configurations, nesting depths and idempotent validation functions", "why_tests_cant": "Round trip over all configuration trees and validators.", "anchors": ["xoa/cfgm.py:remove_defaults", "xoa/cfgm.py:_walker_unchanged_options_", "xoa/cfgm.py:get_spec", "xoa/cfgm.py:ConfigManager.load"]}
{"id": "C55", "title": "Resetting a configuration file", "statement": "After ConfigManager.reset the file holds the default configuration, file.bak what the file held (with backup), and no other file changed; when the defaults can not be computed nothing is touched; with a backup, at every crash point the old configuration is complete in the file or in file.bak. False (refuted): without backup a crash leaves either the old or the new file (it may leave none); the backup survives a second reset (it becomes the defaults).", "quantifier": "all file systems, file contents and crash points between two elementary writes", "why_tests_cant": "Must hold at every crash point.", "anchors": ["xoa/cfgm.py:ConfigManager.reset"]}
{"id": "C56", "title": "Getting given coordinates and searching both categories", "statement": "get_lon, get_lat, get_depth and get_altitude return the best match of the first category that has one (data variables first for a dataset, coordinates first for an array), and None otherwise. get_vertical returns the depth, else the altitude. get_level and get_time return the only matching coordinate. get_cf_coords returns one result per name, in the order of the names, each the best match or None. CFSpecs.match tries the coordinates first for an array that has the name of one of its dimensions or coordinates, the data variables first otherwise, and returns the first entry that matches. CFSpecs.search(single=False) returns the matches of both categories. CFSpecs[name] is a category, else a data variable, else a coordinate, else another section. False (refuted): errors='raise' makes get_lon and the like raise (it is ignored); errors='ignore' makes get_vertical, get_level or get_time return None (they raise); search(single=False) always returns a list (it fails when one of the categories does not know the name); a name that can be got from a CFSpecs is in it.", "quantifier": "all specifications, items with distinct names, names, and values of errors", "why_tests_cant": "Ranges over all specifications and all sets of items.", "anchors": ["xoa/coords.py:get_lon", "xoa/coords.py:get_lat", "xoa/coords.py:get_depth", "xoa/coords.py:get_altitude", "xoa/coords.py:get_level", "xoa/coords.py:get_vertical", "xoa/coords.py:get_time", "xoa/coords.py:get_cf_coords", "xoa/cf.py:CFSpecs.match", "xoa/cf.py:CFSpecs.get_category", "xoa/cf.py:CFSpecs.search", "xoa/cf.py:CFSpecs.__getitem__", "xoa/cf.py:CFSpecs.__contains__", "xoa/cf.py:_CFCatSpecs_.get_specs"]}
{"id": "C57", "title": "Enumerations of choices", "statement": "For an enumeration class built with XEnumMeta/DefaultEnumMeta: a name is 'in' the class iff it is declared (aliases included); a non-zero value is in it when declared; calling the class (or indexing it) with a value gives the first declaration with this value, without value the first declaration; the printed groups are one per value in declaration order, each with all its names in order; two enumerations that print the same have the same groups; is_iterable is true exactly for sized non-string objects, for strings when nostr=False and for generators when nogen=False. False (refuted): 'value in enumeration' tells whether it is a value (0 never is, an unknown value raises ValueError); str() of the enumerations of xoa always works (before Python 3.12 it raises ValueError); a name can be called.", "quantifier": "all enumerations, names and values", "why_tests_cant": "Ranges over all enumerations, with any aliases, and all values.", "anchors": ["xoa/misc.py:XEnumMeta", "xoa/misc.py:DefaultEnumMeta", "xoa/misc.py:IntEnumChoices", "xoa/misc.py:is_iterable"]}
{"id": "C58", "title": "Help of the command line options", "statement": "The help shown for an option generated from a configuration is its comments (inline, above or both according to the mode), each stripped from blanks and sharps and ended by a dot, or 'Undocumented' when there is none, followed by its default value, lists being joined by commas, whatever characters, percents included, the default value holds. False (refuted): this is so whatever the comments (a % in a comment makes argparse fail); an option without comment is said to be undocumented (a blank line above it counts as a comment); a default value keeps its parentheses.", "quantifier": "all comments, modes and default values", "why_tests_cant": "Ranges over all texts, including those with format characters.", "anchors": ["xoa/cfgm.py:_shelp_", "xoa/cfgm.py:_sdefault_", "xoa/cfgm.py:_walker_argcfg_setarg_"]}
{"id": "C59", "title": "Booleans of specifications default to False", "statement": "With boolean_false, a specification 'boolean' or 'boolean(parameters)' without default value is rewritten into one with the same name and parameters and default value False; all other specifications are unchanged; rewriting twice is rewriting once. False (refuted): this holds for every boolean specification that can be parsed ('boolean()' and 'boolean(x,)' become syntax errors).", "quantifier": "all specification texts", "why_tests_cant": "Ranges over all specification texts.", "anchors": ["xoa/cfgm.py:_walker_set_boolean_false_by_default_", "xoa/cfgm.py:ConfigManager.__init__"]}
{"id": "C60", "title": "Types of all the dimensions of an array", "statement": "CFSpecs.get_dim_types gives one type per dimension, in the order of the dimensions, as a dictionary or as a tuple of the same length: the type of the dimension when it has one, else the 'unknown' value. False (refuted): xoa.coords.get_dim_types, xoa.coords.reorder and xoa.regrid.grid2loc succeed (they raise for all arguments).", "quantifier": "all specifications, arrays and orders", "why_tests_cant": "Ranges over all specifications and arrays.", "anchors": ["xoa/cf.py:CFCoordSpecs.get_dim_types", "xoa/coords.py:get_dim_types", "xoa/coords.py:reorder", "xoa/regrid.py:grid2loc"]}
{"id": "C61", "title": "linear1d on doubles: NaNs exactly placed and a bounded rounding error", "statement": "For double precision arrays whose numbers are at most 2^500 in magnitude, with strictly increasing input coordinates and non-decreasing output coordinates (NaNs anywhere), linear1d succeeds; an output is NaN exactly where its coordinate is NaN, lies in no cell or one of the two data of its cell is NaN; elsewhere it is a finite number that differs from the exact linear interpolant by at most 7 half-units in the last place of the largest of the two data (plus terms below the smallest doubles). It is NOT exact: a constant field 0.1 on the grid [0, 3] interpolated onto that same grid comes back larger than 0.1, so neither constants, nor the own-grid identity, nor the maximum principle survive rounding; and with data of 2^1023 a finite interpolant comes back as infinity.", "quantifier": "all double arrays of the stated shapes and magnitudes, all NaN patterns", "why_tests_cant": "rounding errors depend on every bit of the five numbers involved; a bound must hold for all 2^320 combinations", "anchors": ["xoa/interp.py: linear1d, get_iminmax"]}
{"id": "C62", "title": "nearest1d on doubles: the closest coordinate up to rounding, ties to the lower one", "statement": "For double coordinates of magnitude at most 2^1022, with strictly increasing input coordinates and non-decreasing output coordinates whose NaNs are at the ends, nearest1d gives at every output coordinate that lies in a cell the datum (any double) of a coordinate such that none is closer by more than a factor 1+2^-51 and none of lower index is as close; NaN elsewhere. The datum is NOT always that of the closest coordinate: two different distances may round to a tie.", "quantifier": "all double arrays of the stated shapes and magnitudes", "why_tests_cant": "which of two distances rounds below the other depends on every bit of three numbers", "anchors": ["xoa/interp.py: nearest1d"]}
{"id": "C63", "title": "cubic1d and hermit1d on doubles: no overflow, exact data at the nodes, accuracy in the cells", "statement": "For finite double data of magnitude at most 2^900 and coordinates of magnitude at most 2^1000, strictly increasing on both sides, with no more output rows than data rows, cubic1d and hermit1d (with bias and tension up to 2^40) give a finite number at every output coordinate that lies in a cell and NaN elsewhere; at an output coordinate equal to an input one, hermit1d returns the datum itself to the last bit whatever the bias and the tension, and so does cubic1d when the node is the lower end of a cell. At the last node cubic1d may return a number with no correct digit: the data 1 and 2^-60 give 0 there. In a cell the value differs from the cubic (Hermite, for bias and tension in [-1, 1]) polynomial of the four surrounding data, evaluated in real arithmetic, by at most 2^-44 (2^-41) times the largest datum of the row (counted as 2^-900 when smaller).", "quantifier": "all double arrays of the stated shapes and magnitudes, all biases and tensions", "why_tests_cant": "cancellation and overflow depend on all magnitudes", "anchors": ["xoa/interp.py: cubic1d, hermit1d"]}
{"id": "C64", "title": "Whatever the doubles: safe, schedule-independent, and exact extrapolation", "statement": "For all double arrays, infinities included and in any order, linear1d and nearest1d never read or write out of range under any schedule of their parallel loop; any schedule of linear1d, nearest1d, cubic1d, hermit1d gives the same result; get_iminmax gives the first and last indices that do not hold NaN; extrap1d keeps every number, replaces NaNs by the first (last) number of the row before (after) it as the mode says, and changes nothing else.", "quantifier": "all double arrays, all schedules, all modes", "why_tests_cant": "all bit patterns and all interleavings", "anchors": ["xoa/interp.py: get_iminmax, linear1d, nearest1d, cubic1d, hermit1d, extrap1d"]}
{"id": "C65", "title": "What the shipped CF configuration recognises", "statement": "With no user configuration, the CF specifications load and every entry of xoa/cf.cfg is there, resolved through its inheritance. A data variable without standard name whose name is one of the declared names of an entry - in any case, bare or followed by an underscore and a location - is recognised as that entry, except for a fixed list of names that belong to an earlier entry (sigma0, u3d, v3d, w3d, wlv among the CF names themselves); the same for coordinates without standard name, units and axis. A data variable or coordinate whose name tells nothing is recognised from any declared standard name, at any location, as the first entry declaring it. Known failure: any coordinate with an axis attribute that is not recognised as time, lon, lat or x makes the search raise TypeError, whatever its name (depth, level, ...).", "quantifier": "every entry, declared name and standard name of the shipped configuration; every array, every case of its name, every location; every recursion limit of at least 3", "why_tests_cant": "152 entries with aliases, every location suffix and every array: the interactions between entries cannot be sampled; a test only sees the few names it tries", "anchors": ["xoa/cf.cfg", "xoa/cf.ini", "xoa/cf.py:CFSpecs.load_cfg", "xoa/cf.py:_CFCatSpecs_.match"]}
{"id": "C66", "title": "Formatting with the shipped CF configuration can be undone by recognition", "statement": "A data variable that has no standard name and has been formatted as a CF name (renamed and its missing attributes filled), with or without a location, is recognised afterwards as this CF name, except for 17 variables that are taken for an earlier one with the same standard name or alias (listed). Formatted time, lon, lat, x and y coordinates are recognised again. Known failure: depth, altitude, sig, level and forecast coordinates get an axis, and then any search among the coordinates and any second formatting raise TypeError; a coordinate called nav_lon is renamed lon_lon.", "quantifier": "every entry of the shipped configuration, every array (name, other attributes), every location made of letters", "why_tests_cant": "holds for every entry and array; the failures are interactions between the formatted attributes and the other entries", "anchors": ["xoa/cf.cfg", "xoa/cf.py:_CFCatSpecs_.format_dataarray", "xoa/cf.py:_CFCatSpecs_.match"]}
{"id": "C67", "title": "Dimension types of the shipped CF configuration", "statement": "Every dimension name listed in the [dims] section of the shipped configuration, or declared as a name of a coordinate with an axis, belongs to exactly one type, and a dimension with this name - in any case, bare or at any location - has this type whatever the array. Known failure: nav_lon, nav_lat and model_level are listed but not recognised, since what follows the underscore is taken for a location; they are recognised when a location is added.", "quantifier": "every dimension name of the shipped configuration, every case, every location, every array", "why_tests_cant": "all names, cases and locations at once", "anchors": ["xoa/cf.cfg", "xoa/cf.py:CFCoordSpecs.get_dim_type"]}
{"id": "C68", "title": "The disk cache shared by processes, crashes and edits", "statement": "get_cf_specs(cache=...) run by any number of processes on the same cache file, in any interleaving of their atomic steps (exists, stat, open and load, compute, open for writing which truncates, writes of any sizes, exists, remove), with processes killed at any point, input/output errors, removals of the file while it is open, and edits of the configuration files: if the file is not opened for writing while another process writes it, every call returns specifications that the configuration files did define at some moment (a truncated file is never taken for specifications); if moreover the default file is only edited between calls, with its date, and the user file is not edited, a process without specifications gets those of the current files. Without cache='read' this holds with any number of writers and any former cache file. Without cache='clean' no call fails. When several processes write the same specifications at the same time and none is killed, the file is right when nobody writes any more. Found false and proved so: during such writes a reader may load specifications that never were; an edit of the user file, an edit that keeps an old date, or an edit during a computation leaves the cache stale for ever; a removal at the wrong time makes cache='read' and cache='clean' raise FileNotFoundError.", "quantifier": "every number of processes, interleaving, crash point, chunking of the writes and history of edits, every pickle format that is not readable without its end", "why_tests_cant": "Schedules of several processes and crash points cannot be enumerated.", "anchors": ["xoa/cf.py:get_cf_specs", "xoa/cf.py:reset_cache"]}
{"id": "C69", "title": "Cell averaging computed in double precision", "statement": "With doubles (IEEE binary64, round to nearest even) cellave1d never raises on edges that are numbers, nondecreasing for the input and increasing for the output, and every output is within 3(n+2)2^-53 M of the exact mean of the data over the part of the output cell that holds data (2(n+5)2^-53 M of the exact integral divided by the width of the cell with conserv=True), where n is the number of input cells and M the largest magnitude of the data; it is NaN exactly where no datum is met; this for the four modes of extrapolation, data and edges being zero, NaN (data) or of magnitude within 2^-200..2^200. For integer data and edges the mean is the nearest double of the exact mean, so a constant is preserved exactly. With conserv=True the total is kept up to this rounding when the output grid covers the input one. Found false and proved so: a constant (0.1) is not preserved; a mean of a representable datum may overflow to infinity.", "quantifier": "every array of doubles of ordinary magnitudes, every number of cells, every edges, every mode", "why_tests_cant": "all the doubles and all the orders of accumulation", "anchors": ["xoa/interp.py:cellave1d"]}
{"id": "C70", "title": "Sigma coordinates to heights computed in double precision", "statement": "With doubles (each numpy operation rounded to nearest even), the five conversions of sigma coordinates give, at every position where the inputs are numbers with sigma and the stretching curve within [-1,1], a number close to the CF formula: within 8 x 2^-53 M for atmosphere_sigma_coordinate and ocean_sigma_coordinate, 18 x 2^-53 M for ocean_s_coordinate, 36 x 2^-53 h for ocean_s_coordinate_g1 and 30 x 2^-53 M for ocean_s_coordinate_g2, M bounding the magnitudes of the inputs. At s = C = 0 the height is exactly the sea surface height (or the pressure at the top of the model); at s = C = -1 the height of ocean_s_coordinate_g2 is exactly minus the bathymetry whatever the sea surface height, and that of ocean_s_coordinate does not depend on the sea surface height. Where the water column is not inverted and, for the three stretched coordinates, the sea surface height is not negative, levels in increasing order have heights in non decreasing order, rounding included. A NaN input gives NaN. Found false and proved so: the pressure at s = 1 may exceed the surface pressure, and the bottom of the three others may be below the bathymetry, by one unit in the last place; with a negative sea surface height two levels may cross by one unit in the last place.", "quantifier": "every array of doubles of reasonable magnitude, of any dimensions, every stretching curve, whatever the implementations of sinh and tanh", "why_tests_cant": "all the doubles", "anchors": ["xoa/sigma.py:atmosphere_sigma_coordinate", "xoa/sigma.py:ocean_sigma_coordinate", "xoa/sigma.py:ocean_s_coordinate", "xoa/sigma.py:ocean_s_coordinate_g1", "xoa/sigma.py:ocean_s_coordinate_g2"]}
{"id": "C71", "title": "Edges of cells computed in double precision", "statement": "On a float64 axis of at least two values (NaN or of magnitude at most 2^900), get_edges_1d never raises and returns one more value; every inner edge is a double as close as possible to the exact midpoint of its two neighbours (the two operations round only once in effect), so lies between them; the two outer edges are within 5 x 2^-53 M of the half-cell extrapolation; an edge is NaN when one of its neighbours is. On a monotonic axis without NaN the edges are monotonic in the same direction and every value lies in its cell, bounds included, rounding included. On integers up to 2^50 all the edges are exact. With less than two values it raises IndexError. Found false and proved so: edges of a strictly increasing axis are not always distinct (two adjacent doubles).", "quantifier": "every array of doubles, of any length >= 2", "why_tests_cant": "all the doubles and all lengths, subnormal numbers included", "anchors": ["xoa/grid.py:get_edges_1d"]}
{"id": "C72", "title": "Options shared by threads", "statement": "Once options are loaded, any number of threads may call get_option: no call fails or changes the options and every answer is the one a single thread gets. If threads also call load_options, under any interleaving no call fails, every value read is the value at the start or one that some load gives (as given or converted to the type of the option), the objects kept by enclosing contexts do not change, and when all threads have ended every option has its value at the start or a loaded value converted to its type; an option to which all loads give the same value ends with it. A thread that is not interrupted behaves as the program does alone in a session, and no interleaving blocks a thread. Neither contexts (set_options, set_option, reset_options) nor the first use of options nor the atomicity of load_options are safe: two overlapping contexts leave the session with changed options, a get_option raises KeyError when another thread enters a context, and at first use it can return the error object.", "quantifier": "every reachable session, every number of threads, every program of option calls (whose sequel may depend on the answers), every interleaving of their accesses to the cache and to option values", "why_tests_cant": "the schedules of threads are not under the control of a test and grow exponentially; the failing ones need switches between two adjacent dictionary accesses", "anchors": ["xoa/__init__.py:load_options", "xoa/__init__.py:_get_options_", "xoa/__init__.py:get_option", "xoa/__init__.py:set_options", "xoa/__init__.py:reset_options"]}
{"id": "C73", "title": "Current CF specifications shared by threads", "statement": "Once a session has current CF specifications, any number of threads may get and set them, in contexts or not, and clean or use the cache file: under any interleaving no get_cf_specs, set_cf_specs or end of a context raises KeyError, get_cf_specs answers as it does in a single thread whose current object is the one of the start or one that some thread sets, and the session always has current specifications, among these. At first use, threads that only call get_cf_specs without reading the cache file get the entries of the configuration files, and the cache file is missing, unchanged or holds these. A thread that is not interrupted behaves as the program does alone in a session, and no interleaving blocks a thread. What is not safe: overlapping contexts of two threads end with the specifications of one of them, a thread gets in its context the specifications of another, at first use get_cf_specs and the end of a context can raise KeyError, two threads may get different objects, and the specifications of a context can end in the cache file that other sessions read.", "quantifier": "every reachable session, every number of threads, every program of get_cf_specs/set_cf_specs/reset_cache calls (whose sequel may depend on the answers), every interleaving of their accesses to the cache", "why_tests_cant": "the schedules of threads are not under the control of a test and grow exponentially; the failing ones need switches between two adjacent dictionary accesses", "anchors": ["xoa/cf.py:set_cf_specs", "xoa/cf.py:reset_cache", "xoa/cf.py:get_cf_specs"]}
{"id": "C74", "title": "Documentation of a configuration", "statement": "cfg2rst makes a document whose lines are exactly, in order, one directive per option and per section: options first, then every subsection followed by what it holds, each directive being indented under the section it is in and holding the name with its path, the default value (mode values) or the type, arguments and keyword arguments of its specification (mode specs), and the inline comment without the sharps and blanks around it, with a capital. Nothing documented is lost: two configurations with the same document have the same options and sections at the same places, descriptions and displayed values. When names of sections have no bracket the names of directives identify options and sections. It only fails on a bad mode or on a specification that cannot be parsed. False (refuted): capitals inside comments are kept; names with brackets stay unambiguous; the possible choices of an option are labelled so in mode specs (they are labelled args).", "quantifier": "every configuration (any depth, any number of options and sections), role names, modes and validator parsers", "why_tests_cant": "configurations have any shape and any text; injectivity ranges over pairs of configurations", "anchors": ["xoa/cfgm.py:cfg2rst", "xoa/cfgm.py:_walker_cfg2rst_", "xoa/cfgm.py:_redent", "xoa/cfgm.py:get_sec_names", "xoa/cfgm.py:get_spec"]}
{"id": "C75", "title": "Specification objects shared by configuration managers", "statement": "ConfigManager(specs, cfgfilter, cfgfilter_default, boolean_false) made from files has specifications of its own that no later manager or configuration changes. Made on a ConfigObj it works on the object itself: for specifications that can be parsed it succeeds, and afterwards the object holds exactly the options and sections kept by the filter, each as it was, with default value False for the booleans without one (unless boolean_false is false); after any number of managers on the same object all of them see what all the filters keep. The manager can only fail (then also does) on a kept option that is not a text or cannot be parsed; the object is then left filtered and partly completed. get_defaults(nocomments) gives a configuration whose comments no other operation ever changes, without comments on options, nor on sections if nocomments is 2; without nocomments, the inline comments of the top level are those of the specifications, the same dictionary, and only operations on objects that share it change what the configuration writes. Found false and proved so: a manager keeps its options when another one is made on the same object; a usable object can be used twice (boolean()); default configurations of a manager are independent (comments changed or options removed in one change or break the others, the filter of a later manager makes earlier configurations impossible to write).", "quantifier": "every specification tree, filter, and every sequence of constructions of managers and default configurations, changes of comments and removals of options", "why_tests_cant": "all histories of operations on shared objects, of any length, and all trees", "anchors": ["xoa/cfgm.py:ConfigManager.__init__", "xoa/cfgm.py:ConfigManager.get_defaults", "xoa/cfgm.py:filter_section", "xoa/cfgm.py:_walker_set_boolean_false_by_default_", "xoa/cfgm.py:_walker_remove_all_comments_"]}
{"id": "C76", "title": "Interpolation of gridded data to points (linear4dto1dxx)", "statement": "linear4dto1dxx is documented to return the values interpolated at the points. It does not, whatever its arguments and whatever the arithmetic: a call that ends gives no result, leaves the array vo given by the caller as it is, and its local array still holds NaNs only. With arguments as documented, a call ends exactly when each point is either inside the box of the grid (then it is skipped; the box along x goes from the least datum, not the least longitude, to the greatest longitude) or is located by grid2relloc out of a curvilinear grid; with any other point the call fails with an IndexError, a TypeError or a ValueError, where a NaN is expected.", "quantifier": "all arrays, shapes, points and arithmetics (rounded or exact, with NaNs)", "why_tests_cant": "the test of the function is disabled; a test only shows one point without result, not that no input gives one", "anchors": ["xoa/interp.py:linear4dto1dxx"]}
{"id": "C77", "title": "Horizontal dimensions of erode_mask", "statement": "When erode_mask is not given the names of the horizontal dimensions, x is the first dimension of the data of type x or, when none is, the last one, and y the first of type y or, when none is, the last but one; a name that is given is kept. They are always found when the data have two dimensions or more whose types can be searched. They are two different dimensions when both are recognised or none is; when only one is recognised they can be the same one. With different dimensions, eroding n times keeps the valid data and fills exactly the points within n steps, in the plane of these two dimensions, of a valid one. A mask given as a numpy array is that of (y, x): it must have two dimensions, else XoaError or ValueError. The data's and the mask's dimensions are checked before any search, and with a kernel there is no search.", "quantifier": "all data, dimension names, coordinates, CF specifications, masks and kernels", "why_tests_cant": "the tests give the dimensions or use one recognised array; the combinations of names, types and positions are unbounded", "anchors": ["xoa/filter.py:_get_xydims_", "xoa/filter.py:erode_mask", "xoa/coords.py:get_dims", "xoa/cf.py:CFSpecs.get_dims"]}
{"id": "C78", "title": "regrid1d on labelled arrays of doubles", "statement": "On labelled arrays of doubles of any dimensions, regrid1d gives an array with the dimensions of the data, the vertical one replaced by that of the output coordinate (and those that only the output coordinate has), and its column at each position is what the method makes of the columns of the data and of the coordinates at that position, with the rounding error that C61 (linear), C62 (nearest), C63 (cubic and Hermite) or C69 with the edges of C71 (cellave) gives, and with missing values at the same places as in exact arithmetic. bias, tension, conserv and extrap have no effect. Axes of increasing integers always have edges fit for cellave.", "quantifier": "all labelled arrays of doubles, dimensions and their orders, sizes, columns, methods and names of them", "why_tests_cant": "a test compares a few columns with a tolerance; that every column of every shape stays within the bound of its own data needs the composition of the flattening with the error analysis", "anchors": ["xoa/regrid.py:regrid1d", "xoa/coords.py:DimFlusher1D", "xoa/interp.py:linear1d", "xoa/interp.py:nearest1d", "xoa/interp.py:cubic1d", "xoa/interp.py:hermit1d", "xoa/interp.py:cellave1d", "xoa/grid.py:get_edges_1d"]}
{"id": "C79", "title": "The xoa command and what it prints", "statement": "Without -h and --help: `xoa info` and `xoa info all` print the versions, the paths and the specifications of the options, in this order, and never read the configuration of the user; `xoa info versions|paths|options` print what show_versions(), show_paths() and show_options() print, the latter failing exactly as loading the options fails; `xoa` alone raises an AttributeError instead of showing its usage; anything else prints a usage and exits with code 2. With -h or --help nothing else than a help (code 0) is printed, or a usage (code 2) when a word before is refused. show_paths marks with a star exactly the missing files and explains the star if and only if there is one. show_versions has one line per package in a fixed order. get_data_sample gives the names of the samples, the path of a name of this list, and raises XoaError for another name. show_options prints the options as written, without blank lines around, with a space inserted before each #, even inside a value.", "quantifier": "all lists of arguments (dashes: only -h and --help), file systems, installed packages, samples and configurations", "why_tests_cant": "the command takes any list of words in any environment; a test runs a few of them", "anchors": ["xoa/cli.py:main", "xoa/cli.py:get_parser", "xoa/cli.py:main_info", "xoa/__init__.py:show_info", "xoa/__init__.py:show_paths", "xoa/__init__.py:show_versions", "xoa/__init__.py:show_options", "xoa/__init__.py:get_data_sample", "xoa/__init__.py:show_data_samples"]}
{"id": "C80", "title": "Corners of 2D cells in double precision", "statement": "get_edges_2d of a float64 coordinate array computes, inside, the mean of the four neighbouring centres with an error of a few units of the 53rd bit, always between the least and the greatest of the four (so four equal centres give exactly this value), and NaN as soon as one of them is missing; whatever the rest of the array and the memory. When the memory returned by np.empty holds the numbers q, the whole result is the bilinear extrapolation plus what is left of q on the border, with a relative error below 29*2^-53; it is exact for coordinates that are multiples of a power of two (integer, half, quarter degrees), and a regular grid, rotated or not, then gets its exact corners when the memory is zero. False (refuted): the border depends on the coordinates only (it is NaN for every array when the memory holds NaN).", "quantifier": "all shapes of at least 2x2, all arrays of doubles (bounded by 2^900), all memory contents", "why_tests_cant": "Bounds on rounding errors over all doubles, including ties and subnormal numbers; content of uninitialised memory.", "anchors": ["xoa/grid.py:get_edges_2d", "xoa/grid.py:get_edges_1d"]}
{"id": "C81", "title": "a help text becomes rst directives", "statement": "opt2rst turns the lines of a help text that hold no section title into rst: each option line (two or four spaces, the forms of the option separated by a comma, then two spaces or more and a description of two words or more) becomes a cmdoption directive of exactly these forms followed by the description, the following lines that start with three spaces go on with the description, and any other line is kept, all in order; with a format without field, the title of each ordinary section becomes this format before its lines, followed by the text that is on the line of the title if any, and the usage becomes the program (given, or the base name of the first word) and a block of code; it fails on no text when the format of the sections has no field, the program is named and no line is made of spaces only. False for the code: with the default format of the sections any section title (so any help of argparse) is a KeyError; a description of one word is taken as the value of a long option; arg_long_help(rst=True) always raises TypeError.", "quantifier": "all texts, numbers of lines, forms of the options, descriptions, paddings, programs and description names", "why_tests_cant": "the options and descriptions are free text matched by backtracking regular expressions, so that a test on some lines says nothing about the others", "anchors": ["xoa/cfgm.py:opt2rst", "xoa/cfgm.py:ConfigManager.arg_long_help"]}
{"id": "C82", "title": "dates read by the validators", "statement": "The pydatetime validator, with its default format, turns a text into a date exactly when the text writes a date of the calendar as year-month-dayThour:minute:second (leap years, lengths of the months and ranges included, one or two digits, T or t), the result is that date, the isoformat of any date is read back as that date, any other non-empty text is a validation error, None and 'None' give None, and the default is read for an empty text; a time step is read exactly from a list of a value and a unit. False for the code: an empty text without default is a TypeError instead of a validation error; the bounds min and max of the date validator are compared with a text that is not the date, so that two dates are accepted alike; the daterange validator never gives a range. The datetime and datetime64 validators accept the same values as the timestamp validator and give the same instant in their type; a range of datetime64 is read exactly from two dates and a unit. False: a timedelta64 can be read (numpy refuses the float that it is given).", "quantifier": "all texts, dates (years 1 to 9999), defaults, bounds, and comparisons and conversions of the external libraries", "why_tests_cant": "3.2e11 dates and an unbounded set of texts, read by an ordered regular expression where the choice of an alternative decides what is refused", "anchors": ["xoa/cfgm.py:is_pydatetime", "xoa/cfgm.py:is_cdtime", "xoa/cfgm.py:is_daterange", "xoa/cfgm.py:is_timedelta", "xoa/cfgm.py:is_timestamp", "xoa/cfgm.py:is_datetime", "xoa/cfgm.py:is_datetime64", "xoa/cfgm.py:is_timedelta64", "xoa/cfgm.py:is_daterange64"]}
{"id": "C83", "title": "Options, groups and helps of the command line parser", "statement": "Whatever parser the caller gives to arg_parse (made with the argparse API, conflicts being errors) and whatever the configuration: arg_parse builds its options if and only if no option string is wanted twice among those of the caller (other than -h, --help, --long-help, --short-help, which it takes over), those four, the last extra option, the configuration file option and the options of the configuration (and the initial comment of the specifications is not reduced to a coding line, which raises UnboundLocalError); otherwise an ArgumentError. Then -h and --help print the short help, --long-help the long one, --short-help the very short one; the options of the caller keep all their other strings and the positional arguments are kept; each option of the configuration has exactly its string; the option of the configuration file has exactly the given names. The long help has the groups of the caller, one group for the global options and one per section in order, each with exactly its options; the title and description come from the comment. The short help is the long one without the groups whose title is not one of the two standard ones; the usage of the very short one has only the positional arguments, the helps, --cfgfile and other-options. False (refuted): -h shows the options of the program (never since Python 3.10); the short helps never show options of the configuration (a section comment may give a standard title); with a parser that resolves conflicts the helps are kept; --short-help shows the option of the configuration file under any name; cfgargparse returns a configuration (it returns a pair).", "quantifier": "all parsers made by any sequence of argparse calls, all configurations (sections, comments, options), exclusions, nested names, extra options and names of the configuration file option", "why_tests_cant": "Interferences between option strings concern all pairs of options of the caller and of the configuration, and the groups depend on arbitrary comments.", "anchors": ["xoa/cfgm.py:ConfigManager.arg_parse", "xoa/cfgm.py:print_short_help", "xoa/cfgm.py:_AP_ShortHelpAction", "xoa/cfgm.py:_AP_VeryShortHelpAction", "xoa/cfgm.py:cfgargparse"]}
{"id": "C84", "title": "Documentation of choices", "statement": "The documentation of a Choices object has the parameter with all its choices in order, each shown as Python writes it (so that different texts are shown differently and can be read back), then its description if any, then each documented choice exactly once, in order of first occurrence and with its last documentation; every line has the indentation asked for (4 for functions, 8 for methods). The docstring decorators put it at every place of {parameter}, turn doubled braces into braces and keep all other characters; any other field is a KeyError (IndexError for an empty or numeric one), a single brace is a ValueError, no docstring is an AttributeError. False (refuted): two parameters can be documented one after the other (the result of a decorator has braces, decorating it again always raises KeyError).", "quantifier": "all choices (texts, integers, None), with or without documentation, all names, descriptions, indentations and docstrings", "why_tests_cant": "quoting, escaping and brace parsing concern every character at every place of arbitrary texts", "anchors": ["xoa/misc.py:Choices.to_docstring", "xoa/misc.py:Choices.format_function_docstring", "xoa/misc.py:Choices.format_method_docstring"]}
{"id": "C85", "title": "Values of the options of the command line", "statement": "The value of an option of a list type on the command line is the one that the same text gives in a configuration file, its words being validated one by one with the function of the elements; a value of another type is the text itself, validated by its function, hence the same as in a file when the file reads the text as it is; an option that is not given brings nothing; a boolean is a flag that inverts its default. False (refuted): quotes are removed as in a file; an invalid value is an error of usage (the validation error goes up as an exception); the validation functions given by the user work for all options (they are unknown for top level options); a list of booleans can be given (it is a flag, which is True when it is not given, whatever the default); None can be given (it is as if the option was not given).", "quantifier": "all specifications (types and parameters), validation functions, texts, defaults and reading functions of configuration files", "why_tests_cant": "the agreement between command line and file must hold for every text, type and set of registered validation functions", "anchors": ["xoa/cfgm.py:_walker_argcfg_setarg_", "xoa/cfgm.py:ConfigManager.arg_parse", "xoa/cfgm.py:get_validator"]}
{"id": "C86", "title": "Listing the validation functions", "statement": "After any history of register_validation_functions calls, print_validation_functions(pattern) never fails and prints exactly one entry for each registered type name that matches the shell pattern (*, ?, [set], [!set], ranges; a bracket that is not closed stands for itself), in increasing order of names; each entry is the name followed by the signature of the registered function and, when it has a documentation, its first line. The name of a new type alone prints its function; the name of the type of its lists prints the function of one value, not the one of lists.", "quantifier": "every initial registry, every history of registrations, every pattern, every signature and documentation", "why_tests_cant": "histories, names and patterns are unbounded; tests only print a few patterns", "anchors": ["xoa/cfgm.py:print_validation_functions", "xoa/cfgm.py:_update_registry_", "xoa/cfgm.py:register_validation_functions"]}
{"id": "C87", "title": "Changing units or combining data commutes with the 1D interpolations", "statement": "Interpolating a*v + b*w + g with linear1d, cubic1d or hermit1d, on coordinates converted to other units (multiplied by a positive factor and shifted), gives a times the interpolation of v plus b times the one of w plus g; in particular converting the data (K to degC) or the depths (m to km) before or after the interpolation is the same. nearest1d commutes with any function of the values that keeps NaN, extrap1d with any function that keeps NaN and non-NaN apart, and cellave1d with a*v + b*w when v and w have the same NaNs, whether it conserves or averages and whatever the units of the edges. The failing calls are the same with the same error. Reversing the direction of the coordinates is not covered: it changes the result.", "quantifier": "for all data arrays (any shape, NaNs), coordinate arrays (unsorted, repeated, NaN), factors a, b, g, scale c > 0, shift d, bias, tension, extrapolation mode, and order of the parallel loop", "why_tests_cant": "a test compares a few arrays in two units; the commutation must hold for every missing-value pattern, unsorted coordinate and branch of the search loops", "anchors": ["xoa/interp.py:nearest1d", "xoa/interp.py:linear1d", "xoa/interp.py:cubic1d", "xoa/interp.py:hermit1d", "xoa/interp.py:extrap1d", "xoa/interp.py:cellave1d"]}
{"id": "C88", "title": "regrid1d commutes with changes of units and with combinations of data arrays", "statement": "regrid1d of a*x + b*y + g, for two arrays x and y of the same dimensions and sizes, with the input and output coordinates both converted to other units (positive factor and shift), gives a times the regridded x plus b times the regridded y plus g, with the same dimensions, or the three calls fail with the same error. This holds for all dimensions, broadcast layouts, NaNs, coordinate values (sorted or not), method names, codes and options; with cellave it holds without constant term for arrays that have the same NaNs. A constant term (degrees Celsius to kelvins) commutes with cellave when coordinates are increasing without NaN, but not with a constant output coordinate, for which the result is zero in all units.", "quantifier": "all pairs of data arrays of any rank, all input and output coordinates, dimension names, methods, extrapolation modes, factors and shifts", "why_tests_cant": "it relates three calls for every array, NaN pattern, layout, method and rational factor, including the calls that fail", "anchors": ["xoa/regrid.py:regrid1d", "xoa/coords.py:DimFlusher1D", "xoa/grid.py:get_edges_1d", "xoa/interp.py:linear1d", "xoa/interp.py:cellave1d"]}
{"id": "C89", "title": "Filters commute with changes of units and combinations of data; only the relative weights of a kernel matter", "statement": "convolve of a*x + b*y + g, for two arrays of the same dimensions and sizes with the same NaNs, gives a times the convolved x plus b times the convolved y plus g, NaNs included, or the three calls fail with the same error; a non-zero constant g requires normalized weights, none of them negative. erode_mask has the same property in all its modes, with the same number of passes and the same filled points; with the default kernel it holds for any change of units of float data. Multiplying a kernel array by a positive number changes neither the normalized convolution nor erode_mask. With negative weights, adding a constant to the data does not add it to the result.", "quantifier": "all pairs of data arrays of any rank and NaN pattern, all kernel specifications, normalized or not, all ways to stop erode_mask, all rational factors", "why_tests_cant": "it relates three runs, of an unbounded number of passes for erode_mask, for every array, kernel and factor, including the calls that fail", "anchors": ["xoa/filter.py:convolve", "xoa/filter.py:_convolve_", "xoa/filter.py:erode_mask", "xoa/filter.py:generate_kernel"]}
{"id": "C90", "title": "The order of the dimensions of the data does not matter to filters", "statement": "When two arrays hold the same values at the same named positions, with their dimensions in any two orders (for instance an array and its transposed version), convolve with a kernel given as a labelled array or as a dictionary of dimension names gives results that are equal at the same named positions, each one with the dimensions of its input, or fails with the same error. So does erode_mask with such kernels or the default one, with a number of passes or a mask on the same grid: same number of passes, same filled points and same values. A kernel given as a sequence is positional, and its result depends on the order of the dimensions.", "quantifier": "all arrays of any rank and NaN pattern, all orders of their dimensions, all labelled and dictionary kernels, normalized or not, all stopping modes and numbers of passes", "why_tests_cant": "it relates two runs for every pair of orders of any number of dimensions, every kernel and mask, and unboundedly many passes", "anchors": ["xoa/filter.py:convolve", "xoa/filter.py:_convolve_", "xoa/filter.py:generate_kernel", "xoa/filter.py:erode_mask", "xoa/coords.py:transpose"]}
{"id": "C91", "title": "regrid1d is local: a column of the result depends only on the same columns of the arguments", "statement": "When two calls of regrid1d(da, coord, method) succeed with the same method, and at some position of each the data columns are equal, the input coordinate columns are equal and the output coordinate columns are equal, then the columns of the two results at these positions are equal, whatever the other columns hold, the order, the names and the sizes of the dimensions, conserv, extrap, bias and tension, and whether the coordinates are sorted or have missing values. In particular, transposing the data, the input coordinate or the output coordinate does not change the result at any named position. Selecting a position along another dimension before the call or in its result gives the same.", "quantifier": "every pair of calls that succeed: all ranks, shapes, orders of dimensions, data and coordinate values, sorted or not, with NaNs anywhere, all methods, all positions", "why_tests_cant": "it relates every pair of calls, and the state of the kernels is carried from cell to cell and may leak from one row to the next", "anchors": ["xoa/regrid.py:regrid1d", "xoa/coords.py:DimFlusher1D", "xoa/interp.py:cellave1d", "xoa/interp.py:linear1d", "xoa/interp.py:get_iminmax", "xoa/grid.py:get_edges_1d"]}
