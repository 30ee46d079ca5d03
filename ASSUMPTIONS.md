# What Print Assumptions lists for each theorem of MANIFEST.json

Generated by `tools/assum.py`.

## Closed under the global context (650 theorems)

* **C01**: C01_get_iminmax
* **C02**: C02_linear1d
* **C03**: C03_linear1d_bounded_affine
* **C04**: C04_nearest1d, C04_nearest1d_nan_refuted
* **C05**: C05_linear1d_safe, C05_nearest1d_safe, C05_cubic1d_out_of_bounds_refuted
* **C06**: C06_schedule, C06_row_dependence
* **C07**: C07_cubic1d, C07_hermit1d, C07_hermit1d_affine, C07_cubic1d_affine_refuted, C05_cubic1d_out_of_bounds_refuted
* **C08**: C08_extrap1d, C08_extrap1d_no, C08_extrap1d_idempotent
* **C09**: C09_cellave1d, C09_cellave1d_conserves, C09_cellave1d_mean_bounded
* **C10**: C10_regrid1d_dispatch, C10_regrid1d_unknown_method, C10_regrid1d_extrap_refuted, C10_regrid1d_tension_refuted
* **C14**: C14_edges_1d, C14_edges_1d_needs_two, C14_edges_increasing, C14_edges_decreasing, C14_edges_regular, C14_edges_integer_refuted
* **C15**: C15_axis_slices, C15_axis_partition, C15_axis_out_of_range, C15_given, C15_bad_keyword, C15_given_positions
* **C16**: C16_dict_merge, C16_first_wins, C16_keys, C16_empty_ignored, C16_self, C16_lists, C16_tuples, C16_overwriteempty, C16_nondict_refuted, C16_uniquify_refuted, C16_self_none_refuted, C16_unique_tuples, C16_equal, C16_joined, C16_in_steps, C16_in_steps_all, C16_last_first_refuted
* **C17**: C17_arguments_unchanged, C17_only_lists_extended, C17_result_fresh, C17_same_result_as_copies, C17_mergelists_refuted, C17_mergelists_twice_refuted
* **C18**: C18_dict_filter, C18_dict_filter_value
* **C19**: C19_gunique
* **C20**: C20_arglist, C20_argtuple
* **C21**: C21_match_string, C21_strip, C21_match_string_order, C21_match_attrs
* **C22**: C22_choices, C22_choices_reject, C22_choices_error_refuted, C22_choices_shown
* **C23**: C23_no_element_lost, C23_compat, C23_insert_resize, C23_classic, C23_unknown_mode
* **C24**: C24_flatten_and_back, C24_round_trip, C24_narrow_output_coordinate_refuted, C24_narrow_input_coordinate_refuted
* **C25**: C25_with_restores, C25_set_options, C25_not_loaded, C25_bad_keyword, C25_reset, C25_load, C25_get, C25_new_session, C25_session_option_kept_refuted, C25_flat_name, C25_plain_name, C25_flat_name_iff
* **C26**: C26_parse, C26_parse_other, C26_preference, C26_roundtrip, C26_roundtrip_valid, C26_roundtrip_name, C26_roundtrip_loc_first, C26_reformat, C26_no_location, C26_prefix_locations_refuted, C26_trailing_text_refuted, C26_plain_name_refuted
* **C27**: C27_set_location, C27_invalid_location, C27_keep_location, C27_remove_location, C27_remove_once_refuted, C27_true_location, C27_format_attrs, C27_merge_explicit, C27_merge_keep, C27_merge_one, C27_any_refuted, C27_capital_location_refuted, C27_patch_fill, C27_patch_replace, C27_match_formatted, C27_match_string_refuted, C27_get_location, C27_patch_list, C27_get_location_not_text
* **C28**: C28_inheritance, C28_unique, C28_order_independent, C28_attrs, C28_attr_lists, C28_options, C28_wrong_inheritance
* **C29**: C29_search, C29_found_iff, C29_single, C29_unknown, C29_total, C29_match_total, C29_match, C29_search_any, C29_axis_refuted, C29_loc_refuted, C29_sticky_refuted, C29_search_cats, C29_search_cats_total, C29_search_cats_raise, C29_categories
* **C30**: C30_one_type, C30_get_dim_type, C30_search_dim, C30_search_dim_total, C30_get_dims, C30_get_dims_total, C30_get_dims_raise, C30_distinct, C30_positional, C30_search_dim_auto, C30_search_from_dim, C30_located_refuted, C30_upper_refuted, C30_repeat_refuted, C30_positional_refuted, C30_positional_index_refuted, C30_unbound_refuted, C30_search_from_dim_unknown
* **C31**: C31_with, C31_stable, C31_same, C31_get, C31_entry, C31_disk, C31_clean, C31_rw_never_reads, C31_rw_reads_refuted, C31_reset_in_with_refuted
* **C32**: C32_none, C32_accepts, C32_size, C32_element, C32_shape_refuted, C32_default_refuted
* **C33**: C33_numerics, C33_count, C33_minmax, C33_minmax_refuted, C33_nan_refuted, C33_int_bound_refuted, C33_text, C33_bad_bound, C33_not_number, C33_figsize
* **C34**: C34_roundtrip, C34_unambiguous, C34_command_line, C34_sec_names, C34_cfg_path, C34_collision_refuted, C34_lost_refuted, C34_nested_refuted, C34_boolean_refuted, C34_given, C34_flag_characters
* **C35**: C35_patch, C35_idempotent, C35_same_type, C35_boolean_refuted, C35_list_refuted, C35_underscore_refuted, C35_section_refuted, C35_specs_refuted, C35_option_refuted, C35_conversion, C35_patched
* **C36**: C36_filter, C36_wf, C36_order, C36_idempotent, C36_default_not_inherited
* **C37**: C37_mean, C37_sum, C37_convolve, C37_bounds, C37_constant, C37_defined, C37_linear, C37_integers_refuted, C37_local_refuted, C37_truncated_refuted, C37_negative_refuted
* **C38**: C38_orthogonal, C38_one, C38_generate, C38_specs, C38_three_dims_refuted, C38_ready, C38_numpy, C38_shapiro, C38_isotropic, C38_window, C38_numpy_scalar, C38_window_func, C38_iso_sizes, C38_iso_values, C38_iso_specs, C38_iso_consistent, C38_mixed_refuted, C38_iso_args_refuted, C38_iso_array_refuted, C38_not_isotropic
* **C39**: C39_times, C39_default, C39_mask, C39_first, C39_default_mask, C39_partial_mask_refuted, C39_errors, C39_masked_refuted, C39_no_data_refuted
* **C42**: C42_every_attribute, C42_roundtrip
* **C43**: C43_pivot, C43_cycle, C43_other, C43_cycle_refuted, C43_validator_refuted, C43_returned
* **C44**: C44_regrid1d
* **C45**: C45_terms, C45_refused, C45_errors, C45_call, C45_only_two_formulas, C45_g1_refuted, C45_sigma_refuted, C45_coord_refuted
* **C46**: C46_no_cache, C46_cache_grows_refuted, C46_stale, C46_tuple_refuted, C46_set_specs_forgets_refuted, C46_set_specs_sources, C46_copy_refuted, C46_copies_refuted
* **C47**: C47_edges_2d, C47_inside, C47_affine, C47_border_refuted, C47_ndarray_refuted, C47_integers_refuted, C47_too_small
* **C48**: C48_get_attrs, C48_get_attrs_unknown, C48_select_ignored, C48_fill, C48_replace, C48_given_attrs, C48_unmatched, C48_unknown, C48_same_name, C48_name, C48_name_at, C48_coords, C48_none, C48_two_unknown, C48_fill_attrs_array, C48_fill_attrs_inplace, C48_fill_attrs_dataset, C48_dataset, C48_dataset_ignored, C48_select_refuted, C48_attrs_false_refuted, C48_fill_attrs_refuted, C48_none_refuted, C48_two_unknown_refuted, C48_twice_refuted, C48_specialised_refuted, C48_get_name, C48_get_name_unknown, C48_rename
* **C49**: C49_arg_parse, C49_total, C49_collision, C49_extraopts, C49_line_wins, C49_file_or_default, C49_boolean, C49_after_lost, C49_arg_patch, C49_after_refuted, C49_boolean_refuted
* **C50**: C50_category, C50_match, C50_match_total, C50_name_sticky, C50_name_fresh, C50_attrs_sticky, C50_sub_sticky, C50_getattr, C50_attrs, C50_any_attribute, C50_get_dim_refuted, C50_xoa_cf_refuted, C50_ds_lazy_refuted, C50_register, C50_register_refuted, C50_stale_refuted, C50_recursion_refuted, C50_array, C50_ds_attribute, C50_register_asked
* **C51**: C51_similar, C51_symmetric, C51_no_accessor_refuted, C51_transitive_refuted, C51_search_dataset_refuted, C51_search_array, C51_not_text
* **C52**: C52_bbox, C52_bbox_list_refuted, C52_interval, C52_interval_shape, C52_interval_bounds_refuted, C52_interval_square_refuted, C52_path, C52_flags_refuted, C52_daterange_refuted, C52_timedelta, C52_eval_list_refuted, C52_eval, C52_check256, C52_check256_range, C52_white_refuted, C52_color_errors, C52_color_list_refuted, C52_dict_shape, C52_dict_set, C52_dict_list, C52_bbox_spaces_refuted, C52_timedelta_iff, C52_timedelta_errors, C52_pydatetime, C52_dict_text, C52_dict_others, C52_daterange_errors, C52_color_truth, C52_color_256
* **C53**: C53_register, C53_lists, C53_kept, C53_replace_refuted, C53_wrapped_once, C53_growth_refuted, C53_call, C53_extra_keywords, C53_list_call, C53_validator, C53_import
* **C54**: C54_removed, C54_sections, C54_numbers_refuted, C54_idempotent, C54_restored, C54_restored_refuted
* **C55**: C55_done, C55_failed, C55_crash, C55_nobackup_refuted, C55_twice_refuted
* **C56**: C56_named, C56_named_refuted, C56_vertical, C56_vertical_refuted, C56_coord, C56_coord_refuted, C56_coords, C56_match, C56_multi_refuted, C56_multi, C56_getitem, C56_contains_refuted, C56_get_specs, C56_lon_lat_depth_altitude, C56_level_time, C56_multi_error, C56_contains, C56_multi_new
* **C57**: C57_name_in, C57_value_in, C57_zero_refuted, C57_unknown_refuted, C57_call, C57_call_total, C57_default, C57_call_name_refuted, C57_groups, C57_order, C57_text, C57_text_refuted, C57_links, C57_iterable
* **C58**: C58_help, C58_percent_refuted, C58_blank_refuted, C58_paren_refuted, C58_help_plain
* **C59**: C59_default, C59_other, C59_bad, C59_section, C59_twice, C59_empty_refuted, C59_comma_refuted, C59_keyword_names
* **C60**: C60_types, C60_tuple, C60_total, C60_get_dim_types_refuted, C60_reorder_refuted, C60_grid2loc_refuted, C60_binding
* **C65**: C65_loads, C65_vars_by_name, C65_vars, C65_coords_by_name, C65_located_names, C65_vars_by_title, C65_coords_by_title, C65_axis, C65_axis_refuted, C65_resolves, C65_attributes
* **C66**: C66_vars, C66_coords, C66_coords_refuted, C66_nav_refuted
* **C67**: C67_dims, C67_located_refuted, C67_located, C67_unique, C67_coord_dims
* **C68**: C68_untorn, C68_up_to_date, C68_default_mode, C68_never_fails, C68_same_writers, C68_torn_refuted, C68_user_stale_refuted, C68_old_date_refuted, C68_edit_race_refuted, C68_vanish_refuted, C68_clean_refuted, C68_returns_memory
* **C72**: C72_uninterrupted, C72_ends, C72_readers, C72_reads_and_loads, C72_loads_agree, C72_refuted_atomic, C72_refuted_contexts, C72_refuted_kept, C72_refuted_read, C72_refuted_first
* **C73**: C73_uninterrupted, C73_ends, C73_set_first, C73_first_use, C73_refuted_contexts, C73_refuted_inside, C73_refuted_get, C73_refuted_exit, C73_refuted_same, C73_refuted_file
* **C74**: C74_lines, C74_faithful, C74_names, C74_all, C74_description, C74_succeeds, C74_refuted_case, C74_refuted_names, C74_refuted_choice
* **C75**: C75_manager, C75_history, C75_failure, C75_bad, C75_file, C75_file_options, C75_specs_frame, C75_who_changes, C75_private, C75_nocomments, C75_shared, C75_default_names, C75_leak_refuted, C75_twice_refuted, C75_lists_refuted, C75_comments_refuted, C75_remove_refuted, C75_filter_refuted, C75_empty_specs
* **C76**: C76_never_writes, C76_no_result, C76_ends
* **C77**: C77_dimensions, C77_total, C77_distinct, C77_erode, C77_array, C77_checks, C77_same_refuted
* **C79**: C79_arguments, C79_help, C79_configuration, C79_paths, C79_samples, C79_versions, C79_options, C79_options_refuted, C79_specs
* **C80**: same_get_edges_2d
* **C81**: C81_option_line, C81_body, C81_total, C81_default_refuted, C81_one_word_refuted, C81_long_help_refuted, C81_sections, C81_usage, C81_last_line
* **C82**: C82_accepts, C82_text, C82_round_trip, C82_none_default, C82_timedelta, C82_empty_refuted, C82_bounds_refuted, C82_daterange_refuted, C82_timestamps, C82_timedelta64_refuted, C82_daterange64
* **C83**: C83_succeeds_iff, C83_errors, C83_helps, C83_caller, C83_positionals, C83_configuration, C83_file_option, C83_extras, C83_short_help, C83_compressed_help, C83_long_help, C83_run, C83_short_sections, C83_h_shows_options_refuted, C83_hides_configuration_refuted, C83_help_kept_refuted, C83_option_help_fails, C83_file_shown_refuted, C83_cfgargparse_refuted, C83_arg_parse_returns
* **C84**: C84_repr, C84_repr_distinct, C84_documented, C84_lines, C84_filled, C84_other_field, C84_single_brace, C84_decorated, C84_once_refuted, C84_other_suffix, C84_own_suffix
* **C85**: C85_lists, C85_list_words, C85_texts, C85_plain_texts, C85_quotes_refuted, C85_invalid_refuted, C85_user_type_refuted, C85_boolean, C85_booleans_refuted
* **C86**: C86_types, C86_printed, C86_registered, C86_everything, C86_literal, C86_contains
* **C87**: C87_linear, C87_cubic, C87_hermit, C87_units, C87_nearest, C87_extrap, C87_cellave, C87_reversed_refuted
* **C88**: C88_regrid1d, C88_units, C88_cellave_origin, C88_cellave_origin_refuted
* **C89**: C89_convolve, C89_erode, C89_erode_units, C89_relative_weights, C89_negative_refuted
* **C90**: C90_convolve, C90_transposed, C90_erode, C90_sequence_refuted
* **C91**: C91_local, C91_order, C91_select

## Axioms of the standard library: `ClassicalDedekindReals.sig_forall_dec`, `FunctionalExtensionality.functional_extensionality_dep` (10 theorems)

* **C09**: C09_cellave1d_extrap, C09_extrap_mean_bounded, C09_extrap_both_total
* **C40**: C40_atmosphere, C40_sigma, C40_s, C40_g1, C40_g2, C40_formula_atmosphere, C40_formula_sigma

## Axioms of the standard library: `ClassicalDedekindReals.sig_forall_dec`, `ClassicalDedekindReals.sig_not_dec`, `FunctionalExtensionality.functional_extensionality_dep` (12 theorems)

* **C12**: C12_sound, C12_inverse, C12_inverse_ccw, C12_parallelogram, C12_clockwise_refuted
* **C40**: C40_formula_s, C40_formula_g1, C40_formula_g2, C40_missing
* **C41**: C41_transparent, C41_stale_refuted, C41_other_formula_refuted

## Axioms of the standard library: `ClassicalDedekindReals.sig_forall_dec`, `ClassicalDedekindReals.sig_not_dec`, `Classical_Prop.classic`, `FunctionalExtensionality.functional_extensionality_dep` (52 theorems)

* **C11**: C11_haversine, C11_closest2d, C11_antipodal, C11_node
* **C13**: C13_sound, C13_points, C13_two_columns_refuted, C13_center_refuted, C13_points_short
* **C40**: C40_stretch
* **C61**: C61_linear1d_binary64, C61_constant_refuted, C61_overflow_refuted
* **C62**: C62_nearest1d_binary64, C62_closest_refuted
* **C63**: C63_cubic1d_binary64, C63_hermit1d_binary64, C63_cubic_last_node_refuted, C63_cubic1d_error_binary64, C63_hermit1d_error_binary64
* **C64**: C64_get_iminmax_binary64, C64_safe_binary64, C64_schedule_binary64, C64_extrap1d_binary64
* **C69**: C69_cellave1d_binary64, C69_cellave1d_integers, C69_constant_integers, C69_cellave1d_conserves, C69_constant_refuted, C69_overflow_refuted
* **C70**: C70_accuracy_two_levels, C70_accuracy_stretched, C70_surface, C70_bottom, C70_levels_ordered, C70_missing, C70_ends_refuted, C70_crossing_refuted
* **C71**: C71_edges, C71_cells_hold_their_centres, C71_integer_axis_exact, C71_strict_refuted, C71_needs_two
* **C78**: C78_regrid1d_binary64, C78_integer_axes
* **C80**: C80_accuracy, C80_inside, C80_flat, C80_missing, C80_border_refuted, C80_exact, C80_regular
