{
 "claims": [
  {
   "property": "C01",
   "status": "proved",
   "theorems": [
    "C01_get_iminmax"
   ],
   "note": "every array, every NaN pattern"
  },
  {
   "property": "C02",
   "status": "proved",
   "theorems": [
    "C02_linear1d"
   ],
   "note": "all shapes, NaN anywhere in data and coordinates; exact rational arithmetic"
  },
  {
   "property": "C03",
   "status": "proved",
   "theorems": [
    "C03_linear1d_bounded_affine"
   ],
   "note": "maximum principle and affine exactness"
  },
  {
   "property": "C04",
   "status": "proved",
   "theorems": [
    "C04_nearest1d",
    "C04_nearest1d_nan_refuted"
   ],
   "note": "closest node among all; the NaN caveat is exhibited by a computed witness"
  },
  {
   "property": "C05",
   "status": "proved",
   "theorems": [
    "C05_linear1d_safe",
    "C05_nearest1d_safe",
    "C05_cubic1d_out_of_bounds_refuted"
   ],
   "note": "any contents, any schedule"
  },
  {
   "property": "C06",
   "status": "proved",
   "theorems": [
    "C06_schedule",
    "C06_row_dependence"
   ],
   "note": "every permutation of the parallel iterations; iterations are atomic (each touches its own row only)"
  },
  {
   "property": "C07",
   "status": "proved",
   "theorems": [
    "C07_cubic1d",
    "C07_hermit1d",
    "C07_hermit1d_affine",
    "C07_cubic1d_affine_refuted",
    "C05_cubic1d_out_of_bounds_refuted"
   ],
   "note": "any bias and tension"
  },
  {
   "property": "C08",
   "status": "proved",
   "theorems": [
    "C08_extrap1d",
    "C08_extrap1d_no",
    "C08_extrap1d_idempotent"
   ],
   "note": "every array and mode string"
  },
  {
   "property": "C09",
   "status": "proved",
   "theorems": [
    "C09_cellave1d",
    "C09_cellave1d_conserves",
    "C09_cellave1d_mean_bounded",
    "C09_cellave1d_extrap",
    "C09_extrap_mean_bounded",
    "C09_extrap_both_total"
   ],
   "note": "extrap mode 'no'; valid bounds; as many data rows as output rows or more"
  },
  {
   "property": "C10",
   "status": "proved",
   "theorems": [
    "C10_regrid1d_dispatch",
    "C10_regrid1d_unknown_method",
    "C10_regrid1d_extrap_refuted",
    "C10_regrid1d_tension_refuted"
   ],
   "note": "options conserv, extrap, bias, tension never reach the kernels"
  },
  {
   "property": "C11",
   "status": "proved",
   "theorems": [
    "C11_haversine",
    "C11_closest2d",
    "C11_antipodal",
    "C11_node"
   ],
   "note": "Real numbers (stdlib axioms of the reals)."
  },
  {
   "property": "C12",
   "status": "proved",
   "theorems": [
    "C12_sound",
    "C12_inverse",
    "C12_inverse_ccw",
    "C12_parallelogram",
    "C12_clockwise_refuted"
   ],
   "note": "Real numbers. Exact for skew = 0 or >= 2 eps; refuted: ZeroDivisionError on clockwise trapezoids."
  },
  {
   "property": "C13",
   "status": "proved",
   "theorems": [
    "C13_sound",
    "C13_points",
    "C13_two_columns_refuted",
    "C13_center_refuted",
    "C13_points_short"
   ],
   "note": "Soundness for every grid; refuted completeness: only one candidate cell, never the last ones."
  },
  {
   "property": "C14",
   "status": "proved",
   "theorems": [
    "C14_edges_1d",
    "C14_edges_1d_needs_two",
    "C14_edges_increasing",
    "C14_edges_decreasing",
    "C14_edges_regular",
    "C14_edges_integer_refuted"
   ],
   "note": "float axes; an integer axis is refuted (edges are truncated to its type). nD arrays are processed slice by slice along the axis"
  },
  {
   "property": "C15",
   "status": "proved",
   "theorems": [
    "C15_axis_slices",
    "C15_axis_partition",
    "C15_axis_out_of_range",
    "C15_given",
    "C15_bad_keyword",
    "C15_given_positions"
   ],
   "note": "every region addresses exactly the stated positions of the requested axis and everything on the others"
  },
  {
   "property": "C16",
   "status": "proved",
   "theorems": [
    "C16_dict_merge",
    "C16_first_wins",
    "C16_keys",
    "C16_empty_ignored",
    "C16_self",
    "C16_lists",
    "C16_tuples",
    "C16_overwriteempty",
    "C16_nondict_refuted",
    "C16_uniquify_refuted",
    "C16_self_none_refuted",
    "C16_unique_tuples",
    "C16_equal",
    "C16_joined",
    "C16_in_steps",
    "C16_in_steps_all",
    "C16_last_first_refuted"
   ],
   "note": "Full characterisation (order included) for mergesubdicts/skipnones (C16_dict_merge), and for every setting of mergesubdicts, mergelists, mergetuples and overwriteempty without skipnones nor uniquify (C16_joined: among them the options with which CF configurations are merged); merging in several steps is merging at once (C16_in_steps). Refuted: arguments that are not dictionaries are not skipped; uniquify loses lists; self-merge drops nested None."
  },
  {
   "property": "C17",
   "status": "proved",
   "theorems": [
    "C17_arguments_unchanged",
    "C17_only_lists_extended",
    "C17_result_fresh",
    "C17_same_result_as_copies",
    "C17_mergelists_refuted",
    "C17_mergelists_twice_refuted"
   ],
   "note": "On a heap with arbitrary sharing; refuted for mergelists=True as the property says."
  },
  {
   "property": "C18",
   "status": "proved",
   "theorems": [
    "C18_dict_filter",
    "C18_dict_filter_value"
   ],
   "note": "colliding output names: the last one wins (Example C18_collision)"
  },
  {
   "property": "C19",
   "status": "proved",
   "theorems": [
    "C19_gunique"
   ],
   "note": "for any hash-compatible equality given as an equivalence"
  },
  {
   "property": "C20",
   "status": "proved",
   "theorems": [
    "C20_arglist",
    "C20_argtuple"
   ],
   "note": ""
  },
  {
   "property": "C21",
   "status": "proved",
   "theorems": [
    "C21_match_string",
    "C21_strip",
    "C21_match_string_order",
    "C21_match_attrs"
   ],
   "note": "ASCII strings"
  },
  {
   "property": "C22",
   "status": "proved",
   "theorems": [
    "C22_choices",
    "C22_choices_reject",
    "C22_choices_error_refuted",
    "C22_choices_shown"
   ],
   "note": "finding: with non-string choices the error path raises TypeError"
  },
  {
   "property": "C23",
   "status": "proved",
   "theorems": [
    "C23_no_element_lost",
    "C23_compat",
    "C23_insert_resize",
    "C23_classic",
    "C23_unknown_mode"
   ],
   "note": "Arrays of any rank as functions of named positions."
  },
  {
   "property": "C24",
   "status": "proved",
   "theorems": [
    "C24_flatten_and_back",
    "C24_round_trip",
    "C24_narrow_output_coordinate_refuted",
    "C24_narrow_input_coordinate_refuted"
   ],
   "note": "The rows correspond under the stated condition; counterexamples for the two excluded configurations."
  },
  {
   "property": "C25",
   "status": "proved",
   "theorems": [
    "C25_with_restores",
    "C25_set_options",
    "C25_not_loaded",
    "C25_bad_keyword",
    "C25_reset",
    "C25_load",
    "C25_get",
    "C25_new_session",
    "C25_session_option_kept_refuted",
    "C25_flat_name",
    "C25_plain_name",
    "C25_flat_name_iff"
   ],
   "note": "Programs are arbitrary interaction trees over the API; reachable states; nested contexts and exceptions. Findings: set_options before any read raises KeyError, an invalid keyword drops all session options, an earlier session option is dropped by the next set_options (counterexample), unknown options are returned as exception objects."
  },
  {
   "property": "C26",
   "status": "proved",
   "theorems": [
    "C26_parse",
    "C26_parse_other",
    "C26_preference",
    "C26_roundtrip",
    "C26_roundtrip_valid",
    "C26_roundtrip_name",
    "C26_roundtrip_loc_first",
    "C26_reformat",
    "C26_no_location",
    "C26_prefix_locations_refuted",
    "C26_trailing_text_refuted",
    "C26_plain_name_refuted"
   ],
   "note": "Backtracking regular-expression matcher modelled on ASCII strings; literal parts of name_format assumed without special characters. Findings: a valid location that is a prefix of another hides it; text after a location is dropped; without valid_locations any _word is a location."
  },
  {
   "property": "C27",
   "status": "proved",
   "theorems": [
    "C27_set_location",
    "C27_invalid_location",
    "C27_keep_location",
    "C27_remove_location",
    "C27_remove_once_refuted",
    "C27_true_location",
    "C27_format_attrs",
    "C27_merge_explicit",
    "C27_merge_keep",
    "C27_merge_one",
    "C27_any_refuted",
    "C27_capital_location_refuted",
    "C27_patch_fill",
    "C27_patch_replace",
    "C27_match_formatted",
    "C27_match_string_refuted",
    "C27_get_location",
    "C27_patch_list",
    "C27_get_location_not_text"
   ],
   "note": "Findings (proved): loc=any becomes a location, loc=True fails with valid_locations, capitals in valid_locations cannot be used, a string of locations in match_attr raises TypeError or matches substrings, loc=False is not idempotent."
  },
  {
   "property": "C28",
   "status": "proved",
   "theorems": [
    "C28_inheritance",
    "C28_unique",
    "C28_order_independent",
    "C28_attrs",
    "C28_attr_lists",
    "C28_options",
    "C28_wrong_inheritance"
   ],
   "note": "Specs by value (sharing with the in-memory cache is C45); validated specifications assumed."
  },
  {
   "property": "C29",
   "status": "proved",
   "theorems": [
    "C29_search",
    "C29_found_iff",
    "C29_single",
    "C29_unknown",
    "C29_total",
    "C29_match_total",
    "C29_match",
    "C29_search_any",
    "C29_axis_refuted",
    "C29_loc_refuted",
    "C29_sticky_refuted",
    "C29_search_cats",
    "C29_search_cats_total",
    "C29_search_cats_raise",
    "C29_categories"
   ],
   "note": "Model of match/search of one category; values of the dataset given as a list."
  },
  {
   "property": "C30",
   "status": "proved",
   "theorems": [
    "C30_one_type",
    "C30_get_dim_type",
    "C30_search_dim",
    "C30_search_dim_total",
    "C30_get_dims",
    "C30_get_dims_total",
    "C30_get_dims_raise",
    "C30_distinct",
    "C30_positional",
    "C30_search_dim_auto",
    "C30_search_from_dim",
    "C30_located_refuted",
    "C30_upper_refuted",
    "C30_repeat_refuted",
    "C30_positional_refuted",
    "C30_positional_index_refuted",
    "C30_unbound_refuted",
    "C30_search_from_dim_unknown"
   ],
   "note": "dict_wf cs says that keys of a dict are distinct."
  },
  {
   "property": "C31",
   "status": "proved",
   "theorems": [
    "C31_with",
    "C31_stable",
    "C31_same",
    "C31_get",
    "C31_entry",
    "C31_disk",
    "C31_clean",
    "C31_rw_never_reads",
    "C31_rw_reads_refuted",
    "C31_reset_in_with_refuted"
   ],
   "note": "What CFSpecs() builds is a parameter (any function of the history); categories are the two documented ones."
  },
  {
   "property": "C32",
   "status": "proved",
   "theorems": [
    "C32_none",
    "C32_accepts",
    "C32_size",
    "C32_element",
    "C32_shape_refuted",
    "C32_default_refuted"
   ],
   "note": "Any element validator; n, nmin, nmax are given as integers."
  },
  {
   "property": "C33",
   "status": "proved",
   "theorems": [
    "C33_numerics",
    "C33_count",
    "C33_minmax",
    "C33_minmax_refuted",
    "C33_nan_refuted",
    "C33_int_bound_refuted",
    "C33_text",
    "C33_bad_bound",
    "C33_not_number",
    "C33_figsize"
   ],
   "note": "Python eval, number parsing and bracket stripping of texts are parameters."
  },
  {
   "property": "C34",
   "status": "proved",
   "theorems": [
    "C34_roundtrip",
    "C34_unambiguous",
    "C34_command_line",
    "C34_sec_names",
    "C34_cfg_path",
    "C34_collision_refuted",
    "C34_lost_refuted",
    "C34_nested_refuted",
    "C34_boolean_refuted",
    "C34_given",
    "C34_flag_characters"
   ],
   "note": "Positive part proved for all paths, prefixes and namespaces under the stated naming conditions; the four cases where the claim is false are refuted by model executions."
  },
  {
   "property": "C35",
   "status": "proved",
   "theorems": [
    "C35_patch",
    "C35_idempotent",
    "C35_same_type",
    "C35_boolean_refuted",
    "C35_list_refuted",
    "C35_underscore_refuted",
    "C35_section_refuted",
    "C35_specs_refuted",
    "C35_option_refuted",
    "C35_conversion",
    "C35_patched"
   ],
   "note": "Positive part for all trees and all text/number conversion functions; six refutations."
  },
  {
   "property": "C36",
   "status": "proved",
   "theorems": [
    "C36_filter",
    "C36_wf",
    "C36_order",
    "C36_idempotent",
    "C36_default_not_inherited"
   ],
   "note": ""
  },
  {
   "property": "C37",
   "status": "proved",
   "theorems": [
    "C37_mean",
    "C37_sum",
    "C37_convolve",
    "C37_bounds",
    "C37_constant",
    "C37_defined",
    "C37_linear",
    "C37_integers_refuted",
    "C37_local_refuted",
    "C37_truncated_refuted",
    "C37_negative_refuted"
   ],
   "note": "exact rationals; scipy rounding and FFT not modelled"
  },
  {
   "property": "C38",
   "status": "proved",
   "theorems": [
    "C38_orthogonal",
    "C38_one",
    "C38_generate",
    "C38_specs",
    "C38_three_dims_refuted",
    "C38_ready",
    "C38_numpy",
    "C38_shapiro",
    "C38_isotropic",
    "C38_window",
    "C38_numpy_scalar",
    "C38_window_func",
    "C38_iso_sizes",
    "C38_iso_values",
    "C38_iso_specs",
    "C38_iso_consistent",
    "C38_mixed_refuted",
    "C38_iso_args_refuted",
    "C38_iso_array_refuted",
    "C38_not_isotropic"
   ],
   "note": "isotropic=False for generate_kernel; window functions are parameters"
  },
  {
   "property": "C39",
   "status": "proved",
   "theorems": [
    "C39_times",
    "C39_default",
    "C39_mask",
    "C39_first",
    "C39_default_mask",
    "C39_partial_mask_refuted",
    "C39_errors",
    "C39_masked_refuted",
    "C39_no_data_refuted"
   ],
   "note": ""
  },
  {
   "property": "C40",
   "status": "proved",
   "theorems": [
    "C40_stretch",
    "C40_atmosphere",
    "C40_sigma",
    "C40_s",
    "C40_g1",
    "C40_g2",
    "C40_formula_atmosphere",
    "C40_formula_sigma",
    "C40_formula_s",
    "C40_formula_g1",
    "C40_formula_g2",
    "C40_missing"
   ],
   "note": "over the Coq reals; sinh/tanh of the standard library; arrays with named dimensions; no rounding"
  },
  {
   "property": "C41",
   "status": "proved",
   "theorems": [
    "C41_transparent",
    "C41_stale_refuted",
    "C41_other_formula_refuted"
   ],
   "note": "cache dictionary threaded through calls; refuted witnesses show the stale cases"
  },
  {
   "property": "C42",
   "status": "proved",
   "theorems": [
    "C42_every_attribute",
    "C42_roundtrip"
   ],
   "note": "the two regular expressions are modelled as leftmost, greedy, backtracking matchers on ASCII strings"
  },
  {
   "property": "C43",
   "status": "proved",
   "theorems": [
    "C43_pivot",
    "C43_cycle",
    "C43_other",
    "C43_cycle_refuted",
    "C43_validator_refuted",
    "C43_returned"
   ],
   "note": "colormaps, cmocean.tools.crop and float() are arguments of the model"
  },
  {
   "property": "C44",
   "status": "proved",
   "theorems": [
    "C44_regrid1d"
   ],
   "note": "End to end, under the compatibility condition of C24 and the monotonicity conditions of the kernels."
  },
  {
   "property": "C45",
   "status": "proved",
   "theorems": [
    "C45_terms",
    "C45_refused",
    "C45_errors",
    "C45_call",
    "C45_only_two_formulas",
    "C45_g1_refuted",
    "C45_sigma_refuted",
    "C45_coord_refuted"
   ],
   "note": "the sigma arrays are an input (their search is C29); the formatting of the result and its assignment as a coordinate are not modelled"
  },
  {
   "property": "C46",
   "status": "proved",
   "theorems": [
    "C46_no_cache",
    "C46_cache_grows_refuted",
    "C46_stale",
    "C46_tuple_refuted",
    "C46_set_specs_forgets_refuted",
    "C46_set_specs_sources",
    "C46_copy_refuted",
    "C46_copies_refuted"
   ],
   "note": "the cache pollution, the KeyError of tuple sources and the loss of entries in set_specs are proved as refutations of the expected behaviour"
  },
  {
   "property": "C47",
   "status": "proved",
   "theorems": [
    "C47_edges_2d",
    "C47_inside",
    "C47_affine",
    "C47_border_refuted",
    "C47_ndarray_refuted",
    "C47_integers_refuted",
    "C47_too_small"
   ],
   "note": "border edges accumulate onto np.empty: dependence on junk proved"
  },
  {
   "property": "C48",
   "status": "proved",
   "theorems": [
    "C48_get_attrs",
    "C48_get_attrs_unknown",
    "C48_select_ignored",
    "C48_fill",
    "C48_replace",
    "C48_given_attrs",
    "C48_unmatched",
    "C48_unknown",
    "C48_same_name",
    "C48_name",
    "C48_name_at",
    "C48_coords",
    "C48_none",
    "C48_two_unknown",
    "C48_fill_attrs_array",
    "C48_fill_attrs_inplace",
    "C48_fill_attrs_dataset",
    "C48_dataset",
    "C48_dataset_ignored",
    "C48_select_refuted",
    "C48_attrs_false_refuted",
    "C48_fill_attrs_refuted",
    "C48_none_refuted",
    "C48_two_unknown_refuted",
    "C48_twice_refuted",
    "C48_specialised_refuted",
    "C48_get_name",
    "C48_get_name_unknown",
    "C48_rename"
   ],
   "note": "Formatting modelled for a category, for an array with its coordinates and for a dataset, with the renaming of xarray; the documented behaviours that fail are stated as refuted or ignored theorems."
  },
  {
   "property": "C49",
   "status": "proved",
   "theorems": [
    "C49_arg_parse",
    "C49_total",
    "C49_collision",
    "C49_extraopts",
    "C49_line_wins",
    "C49_file_or_default",
    "C49_boolean",
    "C49_after_lost",
    "C49_arg_patch",
    "C49_after_refuted",
    "C49_boolean_refuted"
   ],
   "note": "Values, validator checks and patch casts are parameters. good_schema excludes names that the flags cannot tell apart (see C34); C49_*_refuted are concrete counterexamples to the documented behaviour."
  },
  {
   "property": "C50",
   "status": "proved",
   "theorems": [
    "C50_category",
    "C50_match",
    "C50_match_total",
    "C50_name_sticky",
    "C50_name_fresh",
    "C50_attrs_sticky",
    "C50_sub_sticky",
    "C50_getattr",
    "C50_attrs",
    "C50_any_attribute",
    "C50_get_dim_refuted",
    "C50_xoa_cf_refuted",
    "C50_ds_lazy_refuted",
    "C50_register",
    "C50_register_refuted",
    "C50_stale_refuted",
    "C50_recursion_refuted",
    "C50_array",
    "C50_ds_attribute",
    "C50_register_asked"
   ],
   "note": "Accessors as a state machine with their caches; hasattr through __getattr__ is always true, hence the refuted claims."
  },
  {
   "property": "C51",
   "status": "proved",
   "theorems": [
    "C51_similar",
    "C51_symmetric",
    "C51_no_accessor_refuted",
    "C51_transitive_refuted",
    "C51_search_dataset_refuted",
    "C51_search_array",
    "C51_not_text"
   ],
   "note": "CF names of arrays are any function; with and without an accessor called cf."
  },
  {
   "property": "C52",
   "status": "proved",
   "theorems": [
    "C52_bbox",
    "C52_bbox_list_refuted",
    "C52_interval",
    "C52_interval_shape",
    "C52_interval_bounds_refuted",
    "C52_interval_square_refuted",
    "C52_path",
    "C52_flags_refuted",
    "C52_daterange_refuted",
    "C52_timedelta",
    "C52_eval_list_refuted",
    "C52_eval",
    "C52_check256",
    "C52_check256_range",
    "C52_white_refuted",
    "C52_color_errors",
    "C52_color_list_refuted",
    "C52_dict_shape",
    "C52_dict_set",
    "C52_dict_list",
    "C52_bbox_spaces_refuted",
    "C52_timedelta_iff",
    "C52_timedelta_errors",
    "C52_pydatetime",
    "C52_dict_text",
    "C52_dict_others",
    "C52_daterange_errors",
    "C52_color_truth",
    "C52_color_256"
   ],
   "note": "eval, float, strptime and matplotlib colours are parameters"
  },
  {
   "property": "C53",
   "status": "proved",
   "theorems": [
    "C53_register",
    "C53_lists",
    "C53_kept",
    "C53_replace_refuted",
    "C53_wrapped_once",
    "C53_growth_refuted",
    "C53_call",
    "C53_extra_keywords",
    "C53_list_call",
    "C53_validator",
    "C53_import"
   ],
   "note": "functions are told apart by number and wrapping; parameters of functions and their results are parameters of the calls"
  },
  {
   "property": "C54",
   "status": "proved",
   "theorems": [
    "C54_removed",
    "C54_sections",
    "C54_numbers_refuted",
    "C54_idempotent",
    "C54_restored",
    "C54_restored_refuted"
   ],
   "note": "validation functions are a parameter; configobj's validation is modelled for specifications without __many__"
  },
  {
   "property": "C55",
   "status": "proved",
   "theorems": [
    "C55_done",
    "C55_failed",
    "C55_crash",
    "C55_nobackup_refuted",
    "C55_twice_refuted"
   ],
   "note": "files are lists of bytes written one by one"
  },
  {
   "property": "C56",
   "status": "proved",
   "theorems": [
    "C56_named",
    "C56_named_refuted",
    "C56_vertical",
    "C56_vertical_refuted",
    "C56_coord",
    "C56_coord_refuted",
    "C56_coords",
    "C56_match",
    "C56_multi_refuted",
    "C56_multi",
    "C56_getitem",
    "C56_contains_refuted",
    "C56_get_specs",
    "C56_lon_lat_depth_altitude",
    "C56_level_time",
    "C56_multi_error",
    "C56_contains",
    "C56_multi_new"
   ],
   "note": "errors handling claims refuted as stated in the property"
  },
  {
   "property": "C57",
   "status": "proved",
   "theorems": [
    "C57_name_in",
    "C57_value_in",
    "C57_zero_refuted",
    "C57_unknown_refuted",
    "C57_call",
    "C57_call_total",
    "C57_default",
    "C57_call_name_refuted",
    "C57_groups",
    "C57_order",
    "C57_text",
    "C57_text_refuted",
    "C57_links",
    "C57_iterable"
   ],
   "note": "false parts of the expected behaviour are refuted by the theorems named _refuted"
  },
  {
   "property": "C58",
   "status": "proved",
   "theorems": [
    "C58_help",
    "C58_percent_refuted",
    "C58_blank_refuted",
    "C58_paren_refuted",
    "C58_help_plain"
   ],
   "note": "false parts of the expected behaviour are refuted by the theorems named _refuted"
  },
  {
   "property": "C59",
   "status": "proved",
   "theorems": [
    "C59_default",
    "C59_other",
    "C59_bad",
    "C59_section",
    "C59_twice",
    "C59_empty_refuted",
    "C59_comma_refuted",
    "C59_keyword_names"
   ],
   "note": "false parts of the expected behaviour are refuted by the theorems named _refuted"
  },
  {
   "property": "C60",
   "status": "proved",
   "theorems": [
    "C60_types",
    "C60_tuple",
    "C60_total",
    "C60_get_dim_types_refuted",
    "C60_reorder_refuted",
    "C60_grid2loc_refuted",
    "C60_binding"
   ],
   "note": "false parts of the expected behaviour are refuted by the theorems named _refuted"
  },
  {
   "property": "C61",
   "status": "proved",
   "theorems": [
    "C61_linear1d_binary64",
    "C61_constant_refuted",
    "C61_overflow_refuted"
   ],
   "note": "binary64 of IEEE 754 (Flocq), see Float64.v"
  },
  {
   "property": "C62",
   "status": "proved",
   "theorems": [
    "C62_nearest1d_binary64",
    "C62_closest_refuted"
   ],
   "note": "binary64 of IEEE 754 (Flocq), see Float64.v"
  },
  {
   "property": "C63",
   "status": "proved",
   "theorems": [
    "C63_cubic1d_binary64",
    "C63_hermit1d_binary64",
    "C63_cubic_last_node_refuted",
    "C63_cubic1d_error_binary64",
    "C63_hermit1d_error_binary64"
   ],
   "note": "binary64 of IEEE 754 (Flocq), see Float64.v"
  },
  {
   "property": "C64",
   "status": "proved",
   "theorems": [
    "C64_get_iminmax_binary64",
    "C64_safe_binary64",
    "C64_schedule_binary64",
    "C64_extrap1d_binary64"
   ],
   "note": "binary64 of IEEE 754 (Flocq), see Float64.v"
  },
  {
   "property": "C65",
   "status": "proved",
   "theorems": [
    "C65_loads",
    "C65_vars_by_name",
    "C65_vars",
    "C65_coords_by_name",
    "C65_located_names",
    "C65_vars_by_title",
    "C65_coords_by_title",
    "C65_axis",
    "C65_axis_refuted",
    "C65_resolves",
    "C65_attributes"
   ],
   "note": "Shipped cf.cfg (generated data) validated and processed; statements quantify over arrays and locations; deviations are the explicit tables and the _refuted theorems"
  },
  {
   "property": "C66",
   "status": "proved",
   "theorems": [
    "C66_vars",
    "C66_coords",
    "C66_coords_refuted",
    "C66_nav_refuted"
   ],
   "note": "Shipped cf.cfg (generated data) validated and processed; statements quantify over arrays and locations; deviations are the explicit tables and the _refuted theorems"
  },
  {
   "property": "C67",
   "status": "proved",
   "theorems": [
    "C67_dims",
    "C67_located_refuted",
    "C67_located",
    "C67_unique",
    "C67_coord_dims"
   ],
   "note": "Shipped cf.cfg (generated data) validated and processed; statements quantify over arrays and locations; deviations are the explicit tables and the _refuted theorems"
  },
  {
   "property": "C68",
   "status": "proved",
   "theorems": [
    "C68_untorn",
    "C68_up_to_date",
    "C68_default_mode",
    "C68_never_fails",
    "C68_same_writers",
    "C68_torn_refuted",
    "C68_user_stale_refuted",
    "C68_old_date_refuted",
    "C68_edit_race_refuted",
    "C68_vanish_refuted",
    "C68_clean_refuted",
    "C68_returns_memory"
   ],
   "note": "Small-step model of the cache file with inodes, crashes and edits; the refutations give schedules."
  },
  {
   "property": "C69",
   "status": "proved",
   "theorems": [
    "C69_cellave1d_binary64",
    "C69_cellave1d_integers",
    "C69_constant_integers",
    "C69_cellave1d_conserves",
    "C69_constant_refuted",
    "C69_overflow_refuted"
   ],
   "note": "doubles by Flocq BinarySingleNaN; conserv and all the extrap modes; magnitudes 0 or 2^-200..2^200; the two refuted theorems are the limits"
  },
  {
   "property": "C70",
   "status": "proved",
   "theorems": [
    "C70_accuracy_two_levels",
    "C70_accuracy_stretched",
    "C70_surface",
    "C70_bottom",
    "C70_levels_ordered",
    "C70_missing",
    "C70_ends_refuted",
    "C70_crossing_refuted"
   ],
   "note": "SigmaG.v is the code for any arithmetic, equal to Sigma.v (C40, C41) on the reals by SigmaGSame.v; on doubles sinh and tanh are arbitrary functions."
  },
  {
   "property": "C71",
   "status": "proved",
   "theorems": [
    "C71_edges",
    "C71_cells_hold_their_centres",
    "C71_integer_axis_exact",
    "C71_strict_refuted",
    "C71_needs_two"
   ],
   "note": "GridG.v is get_edges_1d for any arithmetic, equal to Grid.v (C14) on rationals with NaN (same_get_edges_1d)."
  },
  {
   "property": "C72",
   "status": "proved",
   "theorems": [
    "C72_uninterrupted",
    "C72_ends",
    "C72_readers",
    "C72_reads_and_loads",
    "C72_loads_agree",
    "C72_refuted_atomic",
    "C72_refuted_contexts",
    "C72_refuted_kept",
    "C72_refuted_read",
    "C72_refuted_first"
   ],
   "note": "Small-step model of every access to _CACHE and to option values; safety and settlement invariants for any schedule. The unsafe uses (contexts, first use, atomicity) are proved to fail by explicit schedules. Reading or writing options[section][option] is one atomic action."
  },
  {
   "property": "C73",
   "status": "proved",
   "theorems": [
    "C73_uninterrupted",
    "C73_ends",
    "C73_set_first",
    "C73_first_use",
    "C73_refuted_contexts",
    "C73_refuted_inside",
    "C73_refuted_get",
    "C73_refuted_exit",
    "C73_refuted_same",
    "C73_refuted_file"
   ],
   "note": "every access to _CACHE[\"specs\"] is an atomic action; disk reads and writes atomic (C68 has their steps)"
  },
  {
   "property": "C74",
   "status": "proved",
   "theorems": [
    "C74_lines",
    "C74_faithful",
    "C74_names",
    "C74_all",
    "C74_description",
    "C74_succeeds",
    "C74_refuted_case",
    "C74_refuted_names",
    "C74_refuted_choice"
   ],
   "note": "default formats of directives; texts on one line; the parser of specifications is a parameter"
  },
  {
   "property": "C75",
   "status": "proved",
   "theorems": [
    "C75_manager",
    "C75_history",
    "C75_failure",
    "C75_bad",
    "C75_file",
    "C75_file_options",
    "C75_specs_frame",
    "C75_who_changes",
    "C75_private",
    "C75_nocomments",
    "C75_shared",
    "C75_default_names",
    "C75_leak_refuted",
    "C75_twice_refuted",
    "C75_lists_refuted",
    "C75_comments_refuted",
    "C75_remove_refuted",
    "C75_filter_refuted",
    "C75_empty_specs"
   ],
   "note": "Trees of specifications, objects and dictionaries of comments at addresses; validation abstract (which options have a default value)."
  },
  {
   "property": "C76",
   "status": "proved",
   "theorems": [
    "C76_never_writes",
    "C76_no_result",
    "C76_ends"
   ],
   "note": "The arithmetic (floats, comparisons, min, searchsorted, grid2relloc) is a parameter without hypothesis. The documented behaviour is refuted for every input."
  },
  {
   "property": "C77",
   "status": "proved",
   "theorems": [
    "C77_dimensions",
    "C77_total",
    "C77_distinct",
    "C77_erode",
    "C77_array",
    "C77_checks",
    "C77_same_refuted"
   ],
   "note": "Composition of the search of dimensions (C30) and of the erosion (C39). C77_same_refuted: x and y can be the same dimension."
  },
  {
   "property": "C78",
   "status": "proved",
   "theorems": [
    "C78_regrid1d_binary64",
    "C78_integer_axes"
   ],
   "note": "composition of the flattening (C24), of the dispatch (C10) and of the kernels on doubles (C61-C63, C69, C71); same_regrid1d: with rationals this is the model of C44"
  },
  {
   "property": "C79",
   "status": "proved",
   "theorems": [
    "C79_arguments",
    "C79_help",
    "C79_configuration",
    "C79_paths",
    "C79_samples",
    "C79_versions",
    "C79_options",
    "C79_options_refuted",
    "C79_specs"
   ],
   "note": "argparse is modelled for words and -h/--help; the texts of help and usage are not"
  },
  {
   "property": "C80",
   "status": "proved",
   "theorems": [
    "C80_accuracy",
    "C80_inside",
    "C80_flat",
    "C80_missing",
    "C80_border_refuted",
    "C80_exact",
    "C80_regular",
    "same_get_edges_2d"
   ],
   "note": "same_get_edges_2d: the generic model at rationals is the model of C47. The claim that the border is a function of the coordinates is refuted."
  },
  {
   "property": "C81",
   "status": "proved",
   "theorems": [
    "C81_option_line",
    "C81_body",
    "C81_total",
    "C81_default_refuted",
    "C81_one_word_refuted",
    "C81_long_help_refuted",
    "C81_sections",
    "C81_usage",
    "C81_last_line"
   ],
   "note": "the regular expressions are modelled with the backtracking order of re; the default section format, one-word descriptions and arg_long_help(rst=True) refuted"
  },
  {
   "property": "C82",
   "status": "proved",
   "theorems": [
    "C82_accepts",
    "C82_text",
    "C82_round_trip",
    "C82_none_default",
    "C82_timedelta",
    "C82_empty_refuted",
    "C82_bounds_refuted",
    "C82_daterange_refuted",
    "C82_timestamps",
    "C82_timedelta64_refuted",
    "C82_daterange64"
   ],
   "note": "strptime of CPython modelled for the default format with the ordered regular expressions of TimeRE; cdtime and pandas are parameters; bounds, dateranges and empty text refuted"
  },
  {
   "property": "C83",
   "status": "proved",
   "theorems": [
    "C83_succeeds_iff",
    "C83_errors",
    "C83_helps",
    "C83_caller",
    "C83_positionals",
    "C83_configuration",
    "C83_file_option",
    "C83_extras",
    "C83_short_help",
    "C83_compressed_help",
    "C83_long_help",
    "C83_run",
    "C83_short_sections",
    "C83_h_shows_options_refuted",
    "C83_hides_configuration_refuted",
    "C83_help_kept_refuted",
    "C83_option_help_fails",
    "C83_file_shown_refuted",
    "C83_cfgargparse_refuted",
    "C83_arg_parse_returns"
   ],
   "note": "Model of argparse: groups, actions and option strings (CfgParser.v); the layout of the text, abbreviations, sub parsers and mutually exclusive groups are not modelled. The clauses of the statement marked false are proved false of the model."
  },
  {
   "property": "C84",
   "status": "proved",
   "theorems": [
    "C84_repr",
    "C84_repr_distinct",
    "C84_documented",
    "C84_lines",
    "C84_filled",
    "C84_other_field",
    "C84_single_brace",
    "C84_decorated",
    "C84_once_refuted",
    "C84_other_suffix",
    "C84_own_suffix"
   ],
   "note": "ASCII texts; format paths, conversions and format specifications after the name of the parameter are any function. Refuted: decorators cannot be stacked."
  },
  {
   "property": "C85",
   "status": "proved",
   "theorems": [
    "C85_lists",
    "C85_list_words",
    "C85_texts",
    "C85_plain_texts",
    "C85_quotes_refuted",
    "C85_invalid_refuted",
    "C85_user_type_refuted",
    "C85_boolean",
    "C85_booleans_refuted"
   ],
   "note": "Parameters: the reading of values by configobj and the validation functions. The claims marked false in the statement are refuted by the *_refuted theorems."
  },
  {
   "property": "C86",
   "status": "proved",
   "theorems": [
    "C86_types",
    "C86_printed",
    "C86_registered",
    "C86_everything",
    "C86_literal",
    "C86_contains"
   ],
   "note": "fnmatch of the standard library is modelled (POSIX, no case folding); the signature and documentation of a function are arguments."
  },
  {
   "property": "C87",
   "status": "proved",
   "theorems": [
    "C87_linear",
    "C87_cubic",
    "C87_hermit",
    "C87_units",
    "C87_nearest",
    "C87_extrap",
    "C87_cellave",
    "C87_reversed_refuted"
   ],
   "note": "Exact rational arithmetic with NaN. Proved as a simulation of the three runs; the sum of an output cell of cellave1d is tracked in the units of the edges until it is divided. Negative scales are refuted (C87_reversed_refuted)."
  },
  {
   "property": "C88",
   "status": "proved",
   "theorems": [
    "C88_regrid1d",
    "C88_units",
    "C88_cellave_origin",
    "C88_cellave_origin_refuted"
   ],
   "note": "Relational simulation of three runs of regrid1d on labelled arrays (RegridUnits.v), from flush to get_back. The constant term with cellave is proved from the description of the cell averages (C44) and refuted for empty output cells."
  },
  {
   "property": "C89",
   "status": "proved",
   "theorems": [
    "C89_convolve",
    "C89_erode",
    "C89_erode_units",
    "C89_relative_weights",
    "C89_negative_refuted"
   ],
   "note": "C89_convolve and C89_erode: combinations of two arrays with the same NaNs, for all kernel specifications and stopping modes; a constant term with non-negative normalised weights. C89_erode_units: default kernel, any change of units. C89_relative_weights: kernel arrays up to a positive factor. C89_negative_refuted: the sign condition matters (finding). Exact rational arithmetic."
  },
  {
   "property": "C90",
   "status": "proved",
   "theorems": [
    "C90_convolve",
    "C90_transposed",
    "C90_erode",
    "C90_sequence_refuted"
   ],
   "note": "C90_convolve: labelled and dictionary kernels. C90_transposed: the same for the result of transpose. C90_erode: all modes; the mask has the sizes of the data. C90_sequence_refuted: sequences of kernels are positional. Exact rational arithmetic."
  },
  {
   "property": "C91",
   "status": "proved",
   "theorems": [
    "C91_local",
    "C91_order",
    "C91_select"
   ],
   "note": "C91_local: any two calls that succeed, with the hypotheses of C24 on the dimensions (problem, compatible); no hypothesis on the values. C91_order: same arguments up to the order of their dimensions. C91_select: isel along another dimension before or after. Exact rational arithmetic with NaN; says nothing of when a call succeeds (C44)."
  }
 ]
}