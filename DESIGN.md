# Formal model of VACUMM/xoa in Rocq (Coq 8.16.1)

Status of this file: written before the proofs, kept current as the model grows.

## 1. Method

* The model is a set of small, total, computable Gallina functions that mirror
  the Python functions of `/repo/xoa` branch by branch.  Every definition
  carries a comment `xoa/<file>.py:<lines>`.
* Python exceptions are values: `res A := Ok a | Raise exn` (`PyBase.v`).
* Python loops are `for_each` over an explicit list of indices, whose body
  answers `Next s`, `Break s` or `Fail e` (`continue` is `Next` of the
  unchanged state).
* Array accesses go through `pyget`/`pyset`, which implement Python/numpy
  indexing (negative indices wrap once) and answer `Raise IndexError` out of
  bounds.  numba does not check bounds: an `IndexError` of the model is an
  undefined read of the real code, hence the safety theorems.
* Numbers.  A float is `option Q`: `None` is NaN, `Some q` an exact rational.
  Rounding, overflow and infinities are modelled for the 1D kernels only (C61-C64): `InterpG.v` has their
  code for any arithmetic, equal by computation to that of `Interp.v` for the rationals (`InterpGSame.v`), and
  `Float64.v` instantiates it with the binary64 numbers of Flocq (round to nearest even, one NaN).
  Everywhere else they are not modelled.  Functions using
  `sinh`, `tanh`, `sin`, `atan2` (`sigma.py`, `haversine`) are modelled over
  the Coq reals `R`, or take the transcendental function as an argument.
* Strings are Coq `string`s (ASCII).  Unicode case mapping is not modelled.
* Dictionaries are association lists in insertion order.
* Layout: `<Area>.v` (model only), `<Area>Proofs.v` (lemmas),
  `<Area>Props.v` (property theorems, each closed by `exact`, with
  `Print Assumptions` and a non-vacuity `Example`).

## 2. Trusted base

* Coq's kernel (`coqc` 8.16.1).
* The reading of the Python code: nothing is run; the tie between a definition
  and the code is the cited line range.
* Modelled semantics of Python, numpy and xarray primitives: list indexing,
  dict order, `range`, slices, regular expressions used by `SGLocator`, IntEnum
  versus `str` comparison.
* Axioms: see section 5.

## 3. Plan per property

* **C01** get_iminmax brackets the valid data — `Interp.get_iminmax` with its two counters and early exit; induction over the loop with an invariant on both counters.
* **C02** linear1d computes the piecewise-linear interpolant and NaN elsewhere — `Interp.linear1d` with moving lower index, `continue`, `break`; invariants of both loops; spec `in_cell`/`lerp` in `InterpSpec.v`.
* **C03** linear1d obeys the maximum principle and is exact on affine data — corollary of C02 by `field`/`nra` on Q.
* **C04** nearest1d returns the closest node's value — `Interp.nearest1d`; same loop invariant; minimality over all nodes by monotonicity; `_refuted` witness with NaN coordinate by `vm_compute`.
* **C05** 1D kernels never read or write outside their arrays — the same model with checked accesses: result never `Raise IndexError`, for arbitrary contents.
* **C06** parallel kernels give the same result under every schedule — the parallel loop is a fold over an arbitrary permutation of rows of a body updating row ix; commutation of updates.
* **C07** cubic1d and hermit1d interpolate the nodes and NaN elsewhere — `Interp.cubic1d`/`hermit1d`; loop invariant plus polynomial identities; out of bounds `_refuted` witness.
* **C08** extrap1d only fills the requested side and never alters valid data — `Interp.extrap1d`; from C01 by list reasoning.
* **C09** cellave1d in conservative mode conserves the integral — `Interp.cellave1d`; per cell overlap sums; telescoping.  Extrapolation modes: `CellaveExtrap.v`, from the loop theorem for any arithmetic of `InterpGCell`.
* **C10** regrid1d honours its method arguments (dispatch) — `Regrid.v`: enum lookup and dispatch as a decision function.
* **C11** closest2d returns the nearest grid point — `Geo.closest2d` with an abstract distance (then instantiated with a haversine on R).
* **C12** cell2relloc inverts bilinear interpolation exactly — `Geo.cell2relloc` with square root abstracted as an argument satisfying s*s=d; `field`/`nra`.
* **C13** grid2relloc only reports true locations — `Geo.grid2relloc`; soundness from the loop structure; `_refuted` witness.
* **C14** get_edges 1D edges enclose their cells — `Grid.get_edges_1d`; list induction, `lra`.
* **C15** apply-along-axis slices are a partition — `Misc.get_axis_slices` with numpy slice semantics as index lists.
* **C16** dict_merge gives priority to the first dictionary and merges recursively — `DictMerge.v`: nested values; functional model; lookups specified recursively. `DictMergeFull.v`: merges of lists, tuples, dictionaries and empty values together, as for the CF configurations.
* **C17** dict_merge never modifies its arguments — `DictHeap.v`: heap of objects; frame theorem; `_refuted` witness for `+=` on lists.
* **C18** dict_filter partitions the keyword arguments — `Misc.dict_filter` on association lists.
* **C19** gunique keeps the first occurrence of each value in order — `Misc.gunique` with its `seen` set.
* **C20** ArgList/ArgTuple put is the inverse of get — `Misc.ArgList`, `ArgTuple`.
* **C21** match_string decides according to its pattern — `Misc.match_string` with checks as strings / callables.
* **C22** Choices accepts exactly its members — `Misc.Choices`.
* **C23** transpose is a permutation of the dimensions — `Coords.transpose` on named dims; elements as functions of named indices.
* **C24** dimension flushing round-trips — `Coords.v`: row-major index arithmetic, divmod lemmas.
* **C25** set_options is scoped: leaving the context restores the previous options — `Options.v`: state machine with contexts as a stack of saved options.
* **C26** staggered-grid names: parse is the inverse of format — `SGLoc.v`: the three regular expressions as explicit greedy matchers.
* **C27** SGLocator.merge_attr and patch_attrs respect the requested location — `SGLoc.v` attribute dictionaries.
* **C28** CF specification inheritance is resolved — `CFInherit.v`: entry processing with fuel; termination for acyclic graphs by rank.
* **C29** CF search returns an object that matches — `CFSearch.v`: match and search loops over an abstract dataset.
* **C30** dimension types are resolved consistently — `CFDims.v`: get_dim_type/search_dim/get_dims decision code.
* **C31** current CF specs: set_cf_specs is scoped and get_cf_specs is stable — `CFCurrent.v`: state machine with cache dictionary and nested contexts.
* **C32** list validators accept exactly lists of allowed lengths — `Cfgm._valwraplist_` length checks.
* **C33** bounded numeric validators clamp into the bounds — `Cfgm.is_numerics`, `is_minmax`.
* **C34** configuration option names round-trip through the command line — `Cfgm._opt2cfgname_`, `_cfg2optname_` on strings.
* **C35** patching a configuration only changes what the patch names — `Cfgm.patch` on configuration trees.
* **C36** filter_section removes exactly what is not in the reference — `Cfgm.filter_section` on configuration trees.
* **C37** convolve is a normalised weighted mean — `Filter.convolve` on 1-d and n-d arrays as functions on index lists; sums over Q.
* **C38** kernels have the declared shape, centre and symmetry — `Filter.v` kernels as functions of index lists; `FilterIso.v`: window functions by name, values or callable, splitting of the 1d kernels into isotropic and orthogonal ones.
* **C39** erode_mask never alters valid data and only shrinks the mask — `Filter.erode_mask` with fuel; invariant and measure (number of NaNs).
* **C40** sigma formulas map the surface and the bottom to themselves — `Sigma.v` over R; derivative-free monotonicity from sinh/tanh monotonicity.
* **C41** caching in the sigma formulas is transparent — `Sigma.v`: cache record threaded through calls.
* **C42** decode_formula_terms parses what CF writes — `FormulaTerms.v`: tokenizer on strings.
* **C43** CmapAdapter limits follow its specification — `Color.v`: state machine.
* **C44** regrid1d interpolates every column of an n-d array — `RegridND.v` on labelled arrays (`Labelled.v`): transposition, broadcast, flattening and reshape as index arithmetic; columnwise correctness from C02–C09, C23, C24.
* **C45** sigma terms of a dataset are those its arrays declare — `FormulaTerms.v`: the loop over the arrays; `SigmaTermsProps.v`.
* **C46** loading CF specs is determined by the sources — `CFLoad.v`: heap of shared configuration lists and the in-memory cache; invariant over any sequence of loads.
* **C47** get_edges_2d — `Grid2D.v`: the array of `np.empty` is a parameter; algebra on Q.
* **C48** formatting with CF specifications — `CFFormat.v` on top of `CFSearch`, `SGLoc`, `FormulaTerms`-like dictionaries with possibly missing names.
* **C49** precedence of the configuration sources — `CfgArgs.v`: options of a configuration tree, command line as parsed namespace.
* **C50** accessors — `Access.v`: accessor as a state machine with its caches (state and exception monad); `hasattr` through `__getattr__`.
* **C51** similar arrays — `Access.v`: decision code of are_similar and search_similar.
* **C52** validators of single values — `ValScalar.v`: the text processing of each function; Python's eval, float, strptime and matplotlib's converter are parameters.
* **C54** removing defaults — `RemDef.v`: configuration and specification trees, configobj's validation; nested induction.
* **C55** resetting a file — `ResetFile.v`: byte-wise file system steps, every prefix is a crash state.
* **C56** coordinate getters — `CFGetters.v` on top of the search model of C29: get_* of coords.py, CFSpecs.match/search over both categories, containers.
* **C57** enumerations — `Enums.v`: declared names and values, membership, calls, groups and texts (decimal printing of the standard library).
* **C58** help of options — `CfgHelp.v`: comments, default value, and the expansion of % by argparse.
* **C59** boolean specifications — `BoolSpec.v`: configobj's parsing of a specification without quotes, and its rewriting.
* **C60** dimension types — `DimTypes.v`: on top of C30; Python's binding of arguments is modelled to show which calls never succeed.
* **C61** linear1d on doubles — `InterpGFacts.v` redoes the loop invariants for any arithmetic in which comparisons and signs of differences are right; Flocq's theorems give this for binary64; error analysis in `Float64Err.v` (`core`) and `Float64Lin.v`.
* **C62** nearest1d on doubles — same loops; relative error of a subtraction; monotonicity of rounding.
* **C63** cubic1d and hermit1d on doubles — magnitudes by intervals of powers of two (`fin`), exact arithmetic on 0 and 1 at the nodes; the accuracy in the cells with a calculus of absolute errors (`Float64App.app`).
* **C64** whatever the doubles — the generic safety and schedule lemmas (`InterpGArrays.v`), no arithmetic.
* **C65** the shipped configuration — `CFShippedData.v` is generated from xoa/cf.cfg by tools/cfdata.py (a translator in the trusted base: it reads
  the file as ConfigObj would and stops on anything it does not know); `CFShipped.v` validates it as cf.ini says and runs the model of C28.  `CFShippedProofs.v` has an evaluation of the
  matching that only knows the roots of the name and of the standard name, proved sound for all arrays and locations; it is run on all entries by the kernel.
* **C66** formatting then recognition — the same evaluation on what C48 says of a formatted array.
* **C67** dimension types — parsing of names at a location (C26), then the tables.
* **C68** the cache file as a transition system (processes, inodes, bytes, dates, edits, crashes); invariants by induction on histories: the bytes of a single writer are a prefix of a pickle; with calm edits, a file newer than the configuration holds the current specifications; with several writers of the same bytes, the last opener has a right prefix.
* **C69** cellave1d on doubles — the loop invariant is proved for any arithmetic (`InterpGCell`: each output cell accumulates the contributions of the cells it meets, in order), then a relative error calculus on the sums of weights, an absolute one on the weighted sums.
* **C70** sigma.py on doubles — the formulas for any arithmetic (`SigmaG`, the same as `Sigma` on the reals: `SigmaGSame`), the `app` error calculus of C61 extended to quotients, monotonicity of rounding for the order of the levels; sinh and tanh are parameters.
* **C71** get_edges_1d on doubles — for any arithmetic (`GridG`, the same as `Grid` on rationals: `GridGSame`), then: halving commutes with rounding of a sum (exact in the subnormal range), monotonicity of rounding.
* **C53** registry of validation functions — `ValRegistry.v`: dictionary of entries, wrapping as a datatype; invariants over any history of registrations.
* **C72** Options shared by threads: `OptThreads.v` turns every access to `_CACHE["options"]` and to an option of a ConfigObj
  object into one atomic action; threads run the programs of `Options.v`. Proofs: an uninterrupted thread simulates `run`;
  invariants over any schedule (`safe`: only loaded or converted values are written; `settles`/`responsible`: an unconverted
  value always has a thread about to convert it; `will_write`). Unsafe uses are refuted by explicit schedules.
* **C73** Current CF specifications shared by threads: `CFThreads.v` turns every access to `_CACHE["specs"]`, every creation of a
  CFSpecs object and every access to the cache file into one atomic action; threads run the programs of C31 and a schedule interleaves
  the actions. Proved with an invariant over states and a `safe` predicate over what remains of each thread; refutations by explicit schedules.
* **C74** Documentation of a configuration (cfg2rst): `CfgRst.v` models the walk, the directives and the indentation on strings;
  `CfgRstSpec.v` says which lines must be there. Proved by splitting the text back into lines, by induction on configurations; injectivity by
  reading the lines back (indentation gives the depth, the role tells options from sections).
* **C75** Specification objects shared by managers: `CfgSpecs.v` models ConfigManager.__init__ and get_defaults on a store of specification
  objects, configurations and dictionaries of comments. What the walk does to a tree by induction on well-formed trees (`CfgSpecsProofs.v`), the
  filter by C36, booleans by C59; histories by a frame relation ("what may change") proved for every operation and composed.
* **C76** `linear4dto1dxx` over any arithmetic (a record of operations without laws): the local array
  and the Python scalars it subscripts are modelled; invariant of the loop on points (the array is
  never written), and case analysis of one point (skipped, off the grid, or an exception).
* **C77** `_get_xydims_` and the beginning of `erode_mask`, on top of the models of C30 and C39: the
  dimensions by type or position, then the erosion theorem with those names.
* **C78** regrid1d for any arithmetic (`RegridNDG`, the same as `RegridND` on rationals: `RegridNDGSame`); a kernel that is right
  on rows gives an array that is right on columns (`RegridNDGProofs.through_ok`, from C24), then the row theorems on doubles.
* **C79** `Cli.v`: the world (versions, files, samples, options) is a record; the functions give the printed lines and their end;
  the parser as a decision on the list of words.  Proved by case analysis, and induction on texts for what show_options inserts.
* **C80** get_edges_2d on doubles: `Grid2DG.v` (generic arithmetic, same at rationals as `Grid2D.v`: `Grid2DGSame.v`) instantiated with binary64. Rounding: error calculus of `Float64App`; the mean of four stays between its neighbours because RN(RN(3x)+x) = 4x for every double x (case analysis on the binade of 3x, ties to even); exactness by an invariant "z/2^p with bounded z" (`Edges2D64Facts.v`).
* **C81** opt2rst: `Opt2Rst.v` is the line loop with a small backtracking regex engine (list of the matches in the order of `re`); `Opt2RstProofs.v` proves that the engine lists exactly the words of the language (`ways_iff`), then that the split of an option line is unique (`C81_option_line`); `C81_body` by induction on the lines; the refuted parts by the first match of the greedy search. Not modelled: `\w` and line boundaries beyond ASCII, format fields `0.x`/`0[x]`/conversions.
* **C82** validators of dates: `Dates.v` models strptime for the default format (regular expressions of Lib/_strptime.py in their order on the engine of `Opt2Rst.v`, first match, nothing after it, checks of datetime); `DatesSpec.v` has the calendar by divisibility and the written form; accepts-iff by the language of the expressions one way and by the first match of each directive the other way. cdtime and pandas functions are universally quantified parameters. Not modelled: other formats, non-ASCII digits.

* **C83** the parser of argparse is modelled as groups and actions with option strings and the two conflict handlers;
  arg_parse's declarations (cfgm.py:1137-1262) and print_short_help on top of it.  Proved by an explicit form of the
  final parser under the handler "error" (induction over the options and the sections), an invariant over the calls
  of the caller, and a permutation argument for the strings.

* **C84** documentation of choices — `ChoiceDoc`: repr and str of ASCII texts, Choices with documentation,
  `to_docstring`, `str.format` as a state machine over the characters (CPython's MarkupIterator), the two
  decorators; theorems against an independent reading of literals (`literal`), pieces of text and lines.
* **C85** values of the options of the command line — `CliValues`: the type and the action that
  `_walker_argcfg_setarg_` gives to argparse, `Validator.check`, errors that argparse catches.  Compared with the value
  that the same text has in a configuration file; the reading of values by configobj is a parameter.
* **C86** listing of validation functions — `ValList.v`: sorted names, the pattern matcher of fnmatch on tokens; `ValListSpec.v`: inductive relations for patterns, sets and the order of strings; matcher and sort are proved equivalent to them for every pattern and name, the listing by induction on the names, over any history of registrations (invariants of C53).
* **C87** units and combinations in the 1D interpolations — on the kernels of `Interp.v` (no new model): `InterpUnitsSpec.v` defines rescaling and combinations; a relational simulation of three runs (v, w, a*v+b*w+g on rescaled coordinates), loop by loop, for any schedule; for the averages of `cellave1d` the relation is indexed by the state of each output cell (zero, sum in progress, done).
* **C88** units and combinations through regrid1d — no new model: `RegridUnitsSpec.v` defines combinations of labelled arrays; a three-run relation is carried through `flush`, `flush_data`, the edges, the kernels of C87 and `get_back` (`RegridUnits.v`); constant terms with cellave from C44 (`RegridUnitsProps.v`).
* **C89** units and combinations through filters — no new model: `FilterUnitsSpec.v` defines the relations of three calls; a relation of three runs is carried through the kernel generation, the convolution and the loop of `erode_mask` (`FilterUnits.v`, `FilterUnitsProps.v`).
* **C90** order of the dimensions in filters — no new model: `FilterDimsSpec.v` defines arrays that are the same by named positions; the positions of an array in two orders are permutations of each other (`FilterDims.v`), so that sums, counts and searches agree; then through the kernel generation, the convolution and `erode_mask` (`FilterDimsProps.v`).
* **C91** locality of regrid1d — no new model: `CellaveDep.v` shows that a row of the result of `cellave1d` is that of a one-row call with the same data and edges, for any values; `RegridLocal.v` gets the shape and the row dependence of the five kernels and goes through the flattening (C24); `RegridLocalProps.v` relates the columns of any two calls that succeed.

### Which files hold the theorems

`InterpProps` C01–C09; `RegridProps` C10; `GeoProps` C11–C13; `GridProps` C14; `MiscProps` C15, C18–C22;
`DictMergeProps`, `DictMergeFull`, `DictMergeSteps` C16; `DictHeapProps` C17; `TransposeProps` C23; `FlushProps` C24; `OptionsProps` C25;
`SGLocProps`, `SGLocFmt` C26, C27; `CFInheritProps`, `CFInheritProps2` C28; `CFSearchProps` C29; `CFDimsProps` C30;
`CFCurrentProps` C31; `ValidatorsProps` C32, C33; `CfgNamesProps` C34; `CfgTreeProps` C35; `CfgFilterProps` C36;
`FilterProps` C37; `KernelProps`, `FilterIsoProps` C38; `ErodeProps` C39; `SigmaProps` C40, C41; `FormulaTermsProps` C42; `ColorProps` C43;
`RegridNDProps` C44; `SigmaTermsProps` C45; `CFLoadProps` C46; `Grid2DProps` C47; `CFFormatProps` C48;
`CfgArgsProps` C49; `AccessProps` C50, C51; `ValScalarProps`, `ValScalarMore` C52; `ValRegistryProps` C53; `RemDefProps` C54; `ResetFileProps` C55; `CFGettersProps` C56; `EnumsProps` C57; `CfgHelpProps` C58; `BoolSpecProps` C59; `DimTypesProps` C60; `Float64Props` C61–C64, `Float64PolyProps` C63 (accuracy); `CFShippedProps` C65–C67, `CFShippedValid` C65; `CFDisk*` C68; `InterpGCell`, `Float64Cell*` C69; `SigmaG*`, `Sigma64*` C70; `GridG*`, `Edges64*` C71; `OptThreads*` C72; `CFThreads*` C73; `CfgRst*` C74; `CfgSpecs*` C75; `Linear4d*` C76; `ErodeDims*` C77; `RegridNDG*`, `RegridND64*` C78; `Cli*` C79; `Grid2DG*`, `Edges2D64*` C80; `Opt2Rst*` C81; `Dates*` C82; `CfgParser*` C83; `ChoiceDoc*`, `ChoiceFmtProps` C84; `CliValues*` C85; `ValList*` C86; `InterpUnits*` C87; `RegridUnits*` C88; `FilterUnits*` C89; `FilterDims*` C90; `CellaveDep`, `RegridLocal*` C91.

A theorem named `_refuted` is the negation, on a concrete or a general case, of a behaviour that is documented or that a user
would expect and that the code does not have.  The property it belongs to states what does hold, and says what does not.

## 4. Not modelled

I/O (reading data files, the parsing of configuration files by configobj; the cache file is in C68
and the default one in C55), matplotlib and cmocean calls, xarray's own alignment and dask laziness,
sphinx directives (the rst printing of `cfgm` is in C74 and C81), floating point
rounding outside C61–C64, C69–C71, C78 and C80 (the 2D interpolation and the filters are exact), Unicode, numba compilation, thread interleavings inside numpy.

* `regrid.grid2loc` is unfinished (TypeError at its
  first call of `get_time`).
* configobj and `validate`: values are trees of strings and parsed values; the
  validator functions of xoa are modelled, those of `validate` are not.
* Regular expressions: only those of xoa, as explicit matchers (`PyRe.v`).

## 5. Axioms

`ASSUMPTIONS.md`, generated by `tools/assum.py`, gives the output of `Print Assumptions` for each theorem of the manifest.
Everything is closed under the global context except the theorems over the reals (`Geo*`: C11–C13; `Sigma*`: C40, C41; `Float64*`: C61–C64, C69; `Sigma64*`: C70; `Edges64*`: C71; `RegridND64*`: C78; `CellaveExtrap`: C09 with extrapolation),
which rest on the axioms of the standard library's `Reals`: `ClassicalDedekindReals.sig_forall_dec`,
`ClassicalDedekindReals.sig_not_dec`, `FunctionalExtensionality.functional_extensionality_dep` and, for some of them,
`Classical_Prop.classic`.  There is no other axiom: Flocq, used in `Float64*`, adds none of its own.
That numba compiles `+ - * /` and comparisons of float64 to the IEEE operations, without contraction, is trusted (the functions concerned are not declared `fastmath`; `extrap1d` is, but it does no arithmetic).
