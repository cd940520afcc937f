{
"C11_sum": [],
"C11_nansum": [],
"C11_mean": [],
"C11_nanmean": [],
"C11_min": [],
"C11_nanmin": [],
"C11_orders": [],
"C11_float32": [],
"C11_nansum_float32_partial": [],
"C11_nansum_float32_uninitialised_refuted": [],
"C13_sum": [],
"C13_nansum": [],
"C13_mean": [],
"C13_nanmean": [],
"C13_min": [],
"C13_nanmin": [],
"C13_exact_instances": [],
"C13_sum_float32": [],
"C13_nansum_float32_partial": [],
"C13_mean_float32": [],
"C13_nanmean_float32_partial": [],
"C13_nansum_float32_uninitialised_refuted": [],
"C13_rounding_depends_on_schedule_refuted": [],
"C122_integers_partial": [],
"C122_floats_partial": [],
"C122_columns_refused": [],
"C122_times_refused": [],
"C122_three_refuted": [],
"C122_gaps_refuted": [],
"C122_dates_refuted": [],
"C122_columns_refuted": [],
"C123_member_partial": [],
"C123_refused": [],
"C123_sizes_refused": [],
"C123_empty_refuted": [],
"C123_three_refuted": [],
"C97_groups_partial": [],
"C97_integers": [],
"C97_floats": [],
"C97_errors": [],
"C97_strided_key_refuted": [],
"C97_nansum_refuted": [],
"C97_bin_high_refuted": [],
"C97_empty_refuted": [],
"C97_range_refuted": [],
"C97_one_row_refuted": [],
"C97_function_number_refuted": [],
"C97_bool_refuted": [],
"C124_counts_partial": [],
"C124_packed_partial": [],
"C124_groups_partial": [],
"C124_two_steps_partial": [],
"C124_refused": [],
"C124_types_refused": [],
"C124_types_refuted": [],
"C124_gaps_refuted": [],
"C124_counts_refuted": [],
"C125_rows_partial": [],
"C125_refused": [],
"C125_outside_refuted": [],
"C125_gaps_refuted": [],
"C125_narrow_refuted": [],
"C09_searchsorted_right_partial": [],
"C09_searchsorted_left_partial": [],
"C09_right_truncated_edges_refuted": [],
"C09_left_truncated_edges_refuted": [],
"C09_no_edges_refuted": [],
"C09_midpoint_overflow_refuted": [],
"C10_cut_into_bins_partial": [],
"C10_truncated_edges_refuted": [],
"C10_truncated_edges_out_of_bounds_refuted": [],
"C39_reindex_gathers": [],
"C39_remap_index": [],
"C41_cut_with_sort_index_partial": [],
"C41_value_above_last_edge_refuted": [],
"C42_string_comparisons": [],
"C42_cut_strings_partial": [],
"C42_threaded_cut_refuted": [],
"C107_search_partial": [],
"C107_cut_partial": [],
"C107_text_partial": [],
"C107_refused": [],
"C107_converted_edges_refuted": [],
"C107_bool_refuted": [],
"C107_strided_refuted": [],
"C107_no_edges_refuted": [],
"C107_text_modes_refuted": [],
"C108_counts": [],
"C108_cut_partial": [],
"C108_refused": [],
"C108_none": [],
"C108_unchecked_refuted": [],
"C109_reindex_partial": [],
"C109_reindex_refused": [],
"C109_objects": [],
"C109_rows_refuted": [],
"C109_uint32_refuted": [],
"C109_remap_partial": [],
"C109_remap_refused": [],
"C109_remap_refuted": [],
"C132_sum": [],
"C132_fancy_partial": [],
"C132_refused": [],
"C132_gaps_refuted": [],
"C133_index_partial": [],
"C133_refused": [],
"C133_gaps_refuted": [],
"C28_crc64": [],
"C28_slicing": [],
"C28_incremental": [],
"C28_detects": [],
"C32_sum_signed_partial": [],
"C32_sum_unsigned_partial": [],
"C32_prod_signed_partial": [],
"C32_any_partial": [],
"C32_overflow_refuted": [],
"C32_negative_refuted": [],
"C37_bitcount": [],
"C37_bool": [],
"C38_min": [],
"C38_max": [],
"C38_int": [],
"C38_grouping": [],
"C38_grouping_int": [],
"C92_arrays_partial": [],
"C92_scalar_partial": [],
"C92_safe": [],
"C92_zero_inside_refuted": [],
"C92_shape_refuted": [],
"C92_strides_refuted": [],
"C92_output_refuted": [],
"C92_one_item_refuted": [],
"C116_filter_partial": [],
"C116_pairs_partial": [],
"C116_refused_filter": [],
"C116_refused_pairs": [],
"C116_gaps_refuted": [],
"C116_bytes_refuted": [],
"C116_overflow_refuted": [],
"C117_groups_partial": [],
"C117_first_partial": [],
"C117_refused_partial": [],
"C117_limits": [],
"C117_list_refuted": [],
"C117_gaps_refuted": [],
"C118_spaces_partial": [],
"C118_refused": [],
"C118_gaps_refuted": [],
"C78_integers_partial": [
"ClassicalDedekindReals.sig_forall_dec",
"ClassicalDedekindReals.sig_not_dec",
"Classical_Prop.classic",
"FunctionalExtensionality.functional_extensionality_dep"
],
"C78_scalar_partial": [
"ClassicalDedekindReals.sig_forall_dec",
"ClassicalDedekindReals.sig_not_dec",
"Classical_Prop.classic",
"FunctionalExtensionality.functional_extensionality_dep"
],
"C78_one_item_partial": [
"ClassicalDedekindReals.sig_forall_dec",
"ClassicalDedekindReals.sig_not_dec",
"Classical_Prop.classic",
"FunctionalExtensionality.functional_extensionality_dep"
],
"C78_floats": [],
"C78_mixed_partial": [
"ClassicalDedekindReals.sig_forall_dec",
"ClassicalDedekindReals.sig_not_dec",
"Classical_Prop.classic",
"FunctionalExtensionality.functional_extensionality_dep"
],
"C78_bits_refuted": [],
"C78_first_refuted": [],
"C78_negative_refuted": [],
"C78_small_refuted": [],
"C78_overflow_refuted": [],
"C78_invalid_refuted": [],
"C78_precision_refuted": [
"ClassicalDedekindReals.sig_forall_dec",
"FunctionalExtensionality.functional_extensionality_dep"
],
"C60_combine1_partial": [],
"C60_filter_partial": [],
"C60_filter_refuted": [],
"C61_combine2_partial": [],
"C61_bins_partial": [],
"C61_negative_refuted": [],
"C61_unbounded_refuted": [],
"C62_first_rows": [],
"C63_shift_1d": [],
"C63_shift_columns_partial": [],
"C63_safe_partial": [],
"C63_rows_refuted": [],
"C63_3d_nothing_partial": [],
"C64_trailing": [],
"C64_widen": [],
"C26_numbers": [
"ClassicalDedekindReals.sig_forall_dec",
"ClassicalDedekindReals.sig_not_dec",
"Classical_Prop.classic",
"FunctionalExtensionality.functional_extensionality_dep"
],
"C26_invalid": [],
"C26_cast_numbers": [
"ClassicalDedekindReals.sig_forall_dec",
"ClassicalDedekindReals.sig_not_dec",
"Classical_Prop.classic",
"FunctionalExtensionality.functional_extensionality_dep"
],
"C26_cast_invalid": [],
"C26_unsafe_numbers": [
"ClassicalDedekindReals.sig_forall_dec",
"ClassicalDedekindReals.sig_not_dec",
"Classical_Prop.classic",
"FunctionalExtensionality.functional_extensionality_dep"
],
"C26_nearest": [
"ClassicalDedekindReals.sig_forall_dec",
"ClassicalDedekindReals.sig_not_dec",
"Classical_Prop.classic",
"FunctionalExtensionality.functional_extensionality_dep"
],
"C26_truncate": [
"ClassicalDedekindReals.sig_forall_dec",
"FunctionalExtensionality.functional_extensionality_dep"
],
"C26_not_finite": [],
"C26_roundtrip": [
"ClassicalDedekindReals.sig_forall_dec",
"ClassicalDedekindReals.sig_not_dec",
"Classical_Prop.classic",
"FunctionalExtensionality.functional_extensionality_dep"
],
"C26_includes": [
"ClassicalDedekindReals.sig_forall_dec",
"ClassicalDedekindReals.sig_not_dec",
"Classical_Prop.classic",
"FunctionalExtensionality.functional_extensionality_dep"
],
"C26_invalid_bool_refuted": [],
"C26_becomes_invalid_refuted": [],
"C26_infinity_refuted": [],
"C58_hstack": [],
"C58_homogenize_partial": [],
"C58_homogenize_refuted": [],
"C58_upcast_partial": [],
"C58_upcast_double_refuted": [
"ClassicalDedekindReals.sig_forall_dec",
"FunctionalExtensionality.functional_extensionality_dep"
],
"C58_upcast_wrap_refuted": [],
"C59_putmask_partial": [],
"C59_putmask_numbers_partial": [
"ClassicalDedekindReals.sig_forall_dec",
"ClassicalDedekindReals.sig_not_dec",
"Classical_Prop.classic",
"FunctionalExtensionality.functional_extensionality_dep"
],
"C59_putmask_invalid": [],
"C59_putmask_bool_refuted": [],
"C59_putmask_infinity_refuted": [],
"C27_calendar": [],
"C27_calendar_range": [],
"C27_date": [],
"C27_time": [],
"C27_datetime": [],
"C27_datetime_midnight": [],
"C27_date_range": [],
"C27_time_range": [],
"C27_datetime_range": [],
"C27_no_digits": [],
"C27_date_safe": [],
"C27_time_safe": [],
"C27_datetime_safe": [],
"C27_rows": [],
"C27_strptime_partial": [],
"C27_strptime_safe": [],
"C27_strptime_old_refuted": [],
"C27_impossible_day_refuted": [],
"C27_bad_clock_refuted": [],
"C27_width_refuted": [],
"C27_warning_refuted": [],
"C27_isspace_refuted": [],
"C119_texts_partial": [],
"C119_safe_partial": [],
"C119_refused": [],
"C119_gaps_refuted": [],
"C119_characters_refuted": [],
"C120_format_partial": [],
"C120_safe_partial": [],
"C120_refused": [],
"C120_gaps_refuted": [],
"C120_week_refuted": [],
"C102_running_partial": [],
"C102_averages_partial": [
"ClassicalDedekindReals.sig_forall_dec",
"ClassicalDedekindReals.sig_not_dec",
"FunctionalExtensionality.functional_extensionality_dep"
],
"C102_refused": [],
"C102_none": [],
"C102_strided_refuted": [],
"C102_column_refuted": [],
"C102_undefined_refuted": [],
"C65_running": [],
"C66_nth": [],
"C67_nan_partial": [],
"C67_full_partial": [],
"C67_unwritten_refuted": [],
"C67_bin0_refuted": [],
"C68_decay_partial": [
"ClassicalDedekindReals.sig_forall_dec",
"ClassicalDedekindReals.sig_not_dec",
"FunctionalExtensionality.functional_extensionality_dep"
],
"C68_both_refuted": [
"ClassicalDedekindReals.sig_forall_dec",
"ClassicalDedekindReals.sig_not_dec",
"FunctionalExtensionality.functional_extensionality_dep"
],
"C68_unsigned_refuted": [
"ClassicalDedekindReals.sig_forall_dec",
"ClassicalDedekindReals.sig_not_dec",
"Classical_Prop.classic",
"FunctionalExtensionality.functional_extensionality_dep"
],
"C69_normal_partial": [
"ClassicalDedekindReals.sig_forall_dec",
"FunctionalExtensionality.functional_extensionality_dep"
],
"C69_weighted_partial": [
"ClassicalDedekindReals.sig_forall_dec",
"FunctionalExtensionality.functional_extensionality_dep"
],
"C69_reset_refuted": [
"ClassicalDedekindReals.sig_forall_dec",
"ClassicalDedekindReals.sig_not_dec",
"FunctionalExtensionality.functional_extensionality_dep"
],
"C69_excluded_refuted": [
"ClassicalDedekindReals.sig_forall_dec",
"ClassicalDedekindReals.sig_not_dec",
"FunctionalExtensionality.functional_extensionality_dep"
],
"C69_int64_refuted": [
"ClassicalDedekindReals.sig_forall_dec",
"ClassicalDedekindReals.sig_not_dec",
"FunctionalExtensionality.functional_extensionality_dep"
],
"C70_types_partial": [],
"C70_longdouble_refuted": [],
"C70_key_refuted": [],
"C70_column_refuted": [],
"C134_fixup_partial": [],
"C134_refused": [],
"C134_match_refused": [],
"C134_first_refused": [],
"C134_range_refuted": [],
"C134_gaps_refuted": [],
"C104_lexsort_partial": [],
"C104_cutoffs_partial": [],
"C104_listed_partial": [],
"C104_refused": [],
"C104_filter_refuted": [],
"C104_strided_refuted": [],
"C104_undefined_refuted": [],
"C104_argument_refuted": [],
"C126_keys_partial": [],
"C126_next_partial": [],
"C126_refused": [],
"C126_empty_refuted": [],
"C126_range_refuted": [],
"C126_gaps_refuted": [],
"C126_order_refuted": [],
"C126_inext_refuted": [],
"C14_group_from_bincount": [],
"C15_bincount_counts": [],
"C15_bincount_packed": [],
"C15_bincount_rejects_empty": [],
"C19_make_inext_partial": [],
"C19_row_number_truncated_refuted": [],
"C19_out_of_range_uninitialised_refuted": [],
"C40_group_by_pack_partial": [],
"C40_no_rows_refuted": [],
"C40_key_out_of_range_refuted": [],
"C40_next_mode_needs_first_occurrence_order_refuted": [],
"C16_nth": [],
"C16_first": [],
"C16_last": [],
"C12_bands": [],
"C12_median": [],
"C12_mode": [],
"C12_quantile": [
"ClassicalDedekindReals.sig_forall_dec",
"ClassicalDedekindReals.sig_not_dec",
"Classical_Prop.classic",
"FunctionalExtensionality.functional_extensionality_dep"
],
"C12_trimmean": [],
"C43_median_partial": [],
"C43_quicksort_sorts": [],
"C43_refuted": [],
"C43_overflow_refuted": [],
"C43_unsigned_refuted": [],
"C44_mode_partial": [],
"C44_refuted": [],
"C45_quantile_partial": [
"ClassicalDedekindReals.sig_forall_dec",
"ClassicalDedekindReals.sig_not_dec",
"Classical_Prop.classic",
"FunctionalExtensionality.functional_extensionality_dep"
],
"C45_refuted": [],
"C45_overflow_refuted": [],
"C46_trimmed_mean": [],
"C47_sum_partial": [],
"C47_nansum_partial": [],
"C47_mean_partial": [],
"C47_nanmean_partial": [],
"C47_nan_refuted": [],
"C47_window_refuted": [],
"C47_negative": [],
"C48_count": [],
"C48_shift_partial": [],
"C48_diff_partial": [],
"C48_window_refuted": [],
"C17_any_hash": [],
"C17_int": [],
"C17_small": [],
"C17_rows": [],
"C17_int_hint_partial": [],
"C17_f32_partial": [],
"C17_f64_partial": [],
"C17_string_partial": [],
"C17_negative_zero_refuted": [],
"C17_embedded_nul_refuted": [],
"C17_hint_refuted": [],
"C18_iff": [],
"C18_groupby_partial": [],
"C18_groupby_hint_partial": [],
"C18_groupby_rows": [],
"C18_partitioned_partial": [],
"C18_partitioned_rows": [],
"C18_prime_refuted": [],
"C18_hint_refuted": [],
"C18_negative_zero_refuted": [],
"C20_asof": [],
"C20_asof_int": [],
"C20_asof_float": [],
"C20_categorical_partial": [],
"C20_categorical_read_refuted": [],
"C20_categorical_refuted": [],
"C52_categories_int": [],
"C52_categories_small_partial": [],
"C52_fixup_partial": [],
"C52_small_refuted": [],
"C52_fixup_refuted": [],
"C53_super": [],
"C53_unique": [],
"C54_rolling_partial": [],
"C55_columns_partial": [],
"C55_filter_refuted": [],
"C56_same_row": [],
"C56_rotate": [],
"C35_heaps_partial": [],
"C35_any_index_partial": [],
"C35_rows_partial": [],
"C35_exact_partial": [],
"C35_median_partial": [],
"C35_groups_partial": [],
"C35_near_refuted": [],
"C35_overflow_refuted": [],
"C71_interpolation_partial": [],
"C71_beyond_undefined": [],
"C71_refuted": [],
"C100_ismember_partial": [],
"C100_refused": [],
"C100_unwritten": [],
"C100_longdouble_refuted": [],
"C100_strided_refuted": [],
"C100_hint_refuted": [],
"C101_categorical_partial": [],
"C101_refused": [],
"C101_unwritten": [],
"C101_longdouble_refuted": [],
"C101_prime_refuted": [],
"C101_rows_refuted": [],
"C57_safe_1d_partial": [],
"C57_safe_fortran_partial": [],
"C57_safe_c_partial": [],
"C57_safe_rows_partial": [],
"C57_first_dim_refuted": [],
"C57_fortran_slice_refuted": [],
"C57_broadcast_refuted": [],
"C57_window_refuted": [],
"C57_unwritten_refuted": [],
"C57_numpy_refuted": [],
"C57_unsafe_1d_partial": [],
"C57_unsafe_fortran_partial": [],
"C57_unsafe_refuted": [],
"C36_order": [],
"C36_fifo": [],
"C36_full_queue": [],
"C36_ends": [],
"C36_delivered": [],
"C36_cancel_partial": [],
"C36_cancel_refuted": [],
"C36_dropped_refuted": [],
"C91_list_partial": [],
"C91_list_safe": [],
"C91_scalar_partial": [],
"C91_big_int_refuted": [],
"C91_short_string_refuted": [],
"C91_empty_bytes_refuted": [],
"C91_object_refuted": [],
"C91_wrong_keyword_refuted": [],
"C91_fast_array_refuted": [],
"C103_sorted_partial": [],
"C103_index_partial": [],
"C103_cutoffs_partial": [],
"C103_refused": [],
"C103_undefined_refuted": [],
"C103_direction_refuted": [],
"C103_index_refuted": [],
"C59_mask_count": [],
"C59_setitem_partial": [],
"C59_setitem_scalar_partial": [],
"C59_setitem_punt_partial": [],
"C59_setitem_strided_refuted": [],
"C79_integers_partial": [
"ClassicalDedekindReals.sig_forall_dec",
"ClassicalDedekindReals.sig_not_dec",
"Classical_Prop.classic",
"FunctionalExtensionality.functional_extensionality_dep"
],
"C79_scalar_partial": [
"ClassicalDedekindReals.sig_forall_dec",
"ClassicalDedekindReals.sig_not_dec",
"Classical_Prop.classic",
"FunctionalExtensionality.functional_extensionality_dep"
],
"C79_inplace": [],
"C79_floats_partial": [
"ClassicalDedekindReals.sig_forall_dec",
"ClassicalDedekindReals.sig_not_dec",
"Classical_Prop.classic",
"FunctionalExtensionality.functional_extensionality_dep"
],
"C79_float_scalar_partial": [
"ClassicalDedekindReals.sig_forall_dec",
"ClassicalDedekindReals.sig_not_dec",
"Classical_Prop.classic",
"FunctionalExtensionality.functional_extensionality_dep"
],
"C79_nan": [],
"C79_divide_partial": [
"ClassicalDedekindReals.sig_forall_dec",
"ClassicalDedekindReals.sig_not_dec",
"Classical_Prop.classic",
"FunctionalExtensionality.functional_extensionality_dep"
],
"C79_divide_scalar_partial": [
"ClassicalDedekindReals.sig_forall_dec",
"ClassicalDedekindReals.sig_not_dec",
"Classical_Prop.classic",
"FunctionalExtensionality.functional_extensionality_dep"
],
"C79_subdates": [],
"C79_subdatetimes": [
"ClassicalDedekindReals.sig_forall_dec",
"ClassicalDedekindReals.sig_not_dec",
"Classical_Prop.classic",
"FunctionalExtensionality.functional_extensionality_dep"
],
"C79_andnot_refuted": [],
"C79_andnot_reads_refuted": [],
"C79_mod_zero_refuted": [],
"C79_floordiv_refuted": [],
"C79_divmod_refuted": [],
"C79_unaligned_refuted": [],
"C79_divide_refuted": [
"ClassicalDedekindReals.sig_forall_dec",
"FunctionalExtensionality.functional_extensionality_dep"
],
"C05_boolean_sum_counts_true": [],
"C05_boolean_index_partial": [],
"C05_strided_odd_items_refuted": [],
"C06_boolean_to_fancy_partial": [],
"C06_strided_mask_refuted": [],
"C07_fancy_index_partial": [],
"C07_unsigned_index_refuted": [],
"C07_unsigned_index_of_strings_refuted": [],
"C07_strided_values_refuted": [],
"C08_reverse_shuffle_is_inverse": [],
"C08_reverse_shuffle_never_out_of_bounds": [],
"C39_reindex_groups": [],
"C39_key_beyond_own_uniques_refuted": [],
"C110_groupby_partial": [],
"C110_hint_partial": [],
"C110_cutoffs_partial": [],
"C110_refused": [],
"C110_cutoffs_refused": [],
"C110_same_group": [],
"C110_filter_refuted": [],
"C110_no_columns_refuted": [],
"C110_narrow_refuted": [],
"C110_hint_refuted": [],
"C111_unique_partial": [],
"C111_super_partial": [],
"C111_hint_refuted": [],
"C112_hash_partial": [],
"C112_filter_refuted": [],
"C89_ints_partial": [],
"C89_floats_partial": [],
"C89_many_partial": [],
"C89_strings_partial": [],
"C89_short_strings_partial": [],
"C89_empty_refuted": [],
"C89_full_refuted": [],
"C89_same_refuted": [],
"C89_order_refuted": [],
"C89_strings_refuted": [],
"C89_unicode_refuted": [],
"C128_setitem_partial": [],
"C128_scalar_partial": [],
"C128_left": [],
"C128_count_partial": [],
"C128_refused": [],
"C128_mask_refuted": [],
"C128_array_refuted": [],
"C128_values_refuted": [],
"C129_putmask_partial": [],
"C129_left": [],
"C129_mask_refuted": [],
"C129_values_refuted": [],
"C94_new_array_partial": [
"ClassicalDedekindReals.sig_forall_dec",
"ClassicalDedekindReals.sig_not_dec",
"Classical_Prop.classic",
"FunctionalExtensionality.functional_extensionality_dep"
],
"C94_given_partial": [
"ClassicalDedekindReals.sig_forall_dec",
"ClassicalDedekindReals.sig_not_dec",
"Classical_Prop.classic",
"FunctionalExtensionality.functional_extensionality_dep"
],
"C94_tests_partial": [
"ClassicalDedekindReals.sig_forall_dec",
"Classical_Prop.classic",
"FunctionalExtensionality.functional_extensionality_dep"
],
"C94_named": [
"ClassicalDedekindReals.sig_forall_dec",
"FunctionalExtensionality.functional_extensionality_dep"
],
"C94_test_refuted": [],
"C94_gaps_refuted": [],
"C94_round_refuted": [],
"C94_abs64_refuted": [],
"C94_neg_refuted": [],
"C94_text_refuted": [],
"C94_matrix_refuted": [],
"C94_given_gaps_refuted": [],
"C94_finite_refuted": [],
"C94_floor_refuted": [],
"C94_throws_refuted": [],
"C94_rows_refuted": [],
"C94_returned": [],
"C81_output_partial": [],
"C81_output_inside_refuted": [],
"C81_output_threads_refuted": [],
"C82_same_order_partial": [],
"C82_one_item_partial": [],
"C82_taken": [],
"C82_slice_refuted": [],
"C82_row_refuted": [],
"C82_mixed_order_refuted": [],
"C82_shape_refuted": [],
"C98_concat_partial": [],
"C98_made_partial": [],
"C98_nothing_written": [],
"C98_moved_header": [],
"C98_names_refuted": [],
"C98_output_is_input_refuted": [],
"C99_pack_partial": [
"ClassicalDedekindReals.sig_forall_dec",
"ClassicalDedekindReals.sig_not_dec",
"Classical_Prop.classic",
"FunctionalExtensionality.functional_extensionality_dep"
],
"C99_integers": [],
"C99_rolling_integers": [],
"C99_errors": [],
"C99_void_refuted": [],
"C99_text_median_refuted": [],
"C99_text_median_threads_refuted": [],
"C99_strided_refuted": [],
"C99_lengths_refuted": [],
"C99_window_refuted": [],
"C33_copy_partial": [],
"C33_no_columns_refuted": [],
"C33_empty_record_refuted": [],
"C33_offset_refuted": [],
"C29_find_partial": [],
"C29_counts_partial": [],
"C29_safe_partial": [],
"C29_room_partial": [],
"C29_collect_partial": [],
"C29_stored_partial": [],
"C29_drop_partial": [],
"C29_type_refuted": [],
"C73_int_sum_partial": [],
"C73_int_sum_invalid": [],
"C73_int_nansum_partial": [],
"C73_float_sum_partial": [
"ClassicalDedekindReals.sig_forall_dec",
"FunctionalExtensionality.functional_extensionality_dep"
],
"C73_float_sum_nan": [
"ClassicalDedekindReals.sig_forall_dec",
"FunctionalExtensionality.functional_extensionality_dep"
],
"C73_float_nansum_partial": [
"ClassicalDedekindReals.sig_forall_dec",
"FunctionalExtensionality.functional_extensionality_dep"
],
"C73_int64_refuted": [],
"C73_uint64_refuted": [],
"C73_float_threads_refuted": [
"ClassicalDedekindReals.sig_forall_dec",
"FunctionalExtensionality.functional_extensionality_dep"
],
"C74_mean_partial": [
"ClassicalDedekindReals.sig_forall_dec",
"FunctionalExtensionality.functional_extensionality_dep"
],
"C74_mean_nan": [
"ClassicalDedekindReals.sig_forall_dec",
"FunctionalExtensionality.functional_extensionality_dep"
],
"C74_var_partial": [
"ClassicalDedekindReals.sig_forall_dec",
"ClassicalDedekindReals.sig_not_dec",
"FunctionalExtensionality.functional_extensionality_dep"
],
"C74_var_nan": [
"ClassicalDedekindReals.sig_forall_dec",
"ClassicalDedekindReals.sig_not_dec",
"FunctionalExtensionality.functional_extensionality_dep"
],
"C74_var_threads_refuted": [
"ClassicalDedekindReals.sig_forall_dec",
"ClassicalDedekindReals.sig_not_dec",
"FunctionalExtensionality.functional_extensionality_dep"
],
"C74_nanmean_empty_refuted": [
"ClassicalDedekindReals.sig_forall_dec",
"FunctionalExtensionality.functional_extensionality_dep"
],
"C75_int": [],
"C75_int_nan": [],
"C75_float": [],
"C75_float_nan": [],
"C76_int": [],
"C76_int_nan": [],
"C76_float": [],
"C76_float_nan": [],
"C77_contiguous_partial": [],
"C77_fortran_slice_refuted": [],
"C77_one_row_refuted": [],
"C77_scalar_refuted": [],
"C121_streams_partial": [],
"C121_delete": [],
"C121_refused": [],
"C121_three_refuted": [],
"C121_wide_refuted": [],
"C121_deleted_refuted": [],
"C34_sum_partial": [],
"C34_nansum_partial": [],
"C34_mean_partial": [],
"C34_nanmean_partial": [],
"C34_sum64_partial": [],
"C34_nansum64_partial": [],
"C34_var_partial": [],
"C34_nanvar_partial": [],
"C34_nan_refuted": [],
"C34_negative_refuted": [],
"C34_nanmean_int_refuted": [],
"C34_divisor_refuted": [],
"C34_nanvar_refuted": [],
"C130_reverse_partial": [],
"C130_safe_partial": [],
"C130_refused": [],
"C130_gaps_refuted": [],
"C131_reindex_partial": [],
"C131_refused": [],
"C131_short_refuted": [],
"C131_range_refuted": [],
"C131_gaps_refuted": [],
"C01_chunks_cover_each_element_once": [],
"C01_other_block_sizes_refuted": [],
"C02_no_block_runs_twice": [],
"C02_no_worker_inside_after_return": [],
"C02_worker_uses_current_call": [],
"C02_all_blocks_done_at_return": [],
"C02_call_can_always_return": [],
"C03_threaded_equals_sequential": [],
"C04_bands_partition_bins": [],
"C04_every_bin_in_exactly_one_band": [],
"C04_no_bins_no_bands": [],
"C31_sections_partial": [],
"C31_read_back_partial": [],
"C31_first_call_succeeds": [],
"C31_next_call_succeeds": [],
"C31_size_collision_refuted": [],
"C31_six_dimensions_refuted": [],
"C31_scalar_refuted": [],
"C127_shift_partial": [],
"C127_refused": [],
"C127_gaps_refuted": [],
"C127_least_refuted": [],
"C95_mask_partial": [],
"C95_many_partial": [],
"C95_saved_partial": [],
"C95_saved_many_partial": [],
"C95_many_never_stops": [],
"C95_error": [],
"C95_no_rows_refuted": [],
"C95_long_mask_refuted": [],
"C95_fortran_refuted": [],
"C95_strided_mask_refuted": [],
"C95_first_array_refuted": [],
"C21_int": [],
"C21_float": [],
"C21_string": [],
"C21_total": [],
"C22_sorts": [],
"C22_once": [],
"C22_no_race": [],
"C22_progress": [],
"C22_bounded": [],
"C22_same_as_sequential": [],
"C23_lexsort": [],
"C23_index": [],
"C23_columns": [],
"C24_issorted_int": [],
"C24_issorted_float": [],
"C24_issorted_string": [],
"C25_groups_partial": [],
"C25_base0_partial": [],
"C25_keys": [],
"C25_cutoffs_partial": [],
"C25_seven_refuted": [],
"C25_zero_refuted": [],
"C25_base_refuted": [],
"C25_empty_refuted": [],
"C25_cutoffs_refuted": [],
"C49_sort_partial": [],
"C49_int": [],
"C49_string_refuted": [],
"C49_double_refuted": [],
"C50_cutoffs_partial": [],
"C50_index_refuted": [],
"C51_void_partial": [],
"C51_string": [],
"C51_order_refuted": [],
"C51_descending_refuted": [],
"C113_sort_partial": [],
"C113_inplace_partial": [],
"C113_chars_partial": [],
"C113_gaps_refuted": [],
"C113_double_refuted": [],
"C113_mode_refuted": [],
"C113_dates_refuted": [],
"C113_text_refuted": [],
"C113_signed_refuted": [],
"C114_indirect_partial": [],
"C114_comment_refuted": [],
"C114_types_refuted": [],
"C114_unlisted_refuted": [],
"C114_range_refuted": [],
"C115_numbers": [],
"C115_text_partial": [],
"C115_refused": [],
"C115_after_sort": [],
"C115_raw_refuted": [],
"C93_columns": [],
"C93_rows": [],
"C93_types_partial": [],
"C93_stack_partial": [],
"C93_numbers_partial": [
"ClassicalDedekindReals.sig_forall_dec",
"ClassicalDedekindReals.sig_not_dec",
"Classical_Prop.classic",
"FunctionalExtensionality.functional_extensionality_dep"
],
"C93_invalid": [],
"C93_no_error": [],
"C93_bools_refuted": [],
"C93_uint64_refuted": [],
"C93_type_order_refuted": [],
"C93_text_rows_refuted": [],
"C93_text_unicode_refuted": [],
"C93_order_refuted": [],
"C93_empty_refuted": [],
"C93_long_double_refuted": [],
"C93_complex_refuted": [],
"C93_fortran_refuted": [],
"C93_type_as_read": [],
"C88_parse_partial": [],
"C88_fraction_partial": [],
"C88_safe_partial": [],
"C88_overread_refuted": [],
"C88_zone_refuted": [],
"C88_pm_refuted": [],
"C88_mismatch_refuted": [],
"C88_unicode_refuted": [],
"C88_yday_refuted": [],
"C88_second_refuted": [],
"C72_order": [],
"C72_stops": [],
"C72_ended": [],
"C72_handled_partial": [],
"C72_again_partial": [],
"C72_lost_refuted": [],
"C72_zero_batch_refuted": [],
"C80_int_scalar_partial": [
"ClassicalDedekindReals.sig_forall_dec",
"ClassicalDedekindReals.sig_not_dec",
"Classical_Prop.classic",
"FunctionalExtensionality.functional_extensionality_dep"
],
"C80_int_arrays_partial": [
"ClassicalDedekindReals.sig_forall_dec",
"ClassicalDedekindReals.sig_not_dec",
"Classical_Prop.classic",
"FunctionalExtensionality.functional_extensionality_dep"
],
"C80_one_item_partial": [
"ClassicalDedekindReals.sig_forall_dec",
"ClassicalDedekindReals.sig_not_dec",
"Classical_Prop.classic",
"FunctionalExtensionality.functional_extensionality_dep"
],
"C80_float_arrays_partial": [
"ClassicalDedekindReals.sig_forall_dec",
"ClassicalDedekindReals.sig_not_dec",
"Classical_Prop.classic",
"FunctionalExtensionality.functional_extensionality_dep"
],
"C80_same_type": [],
"C80_float_scalar_partial": [
"ClassicalDedekindReals.sig_forall_dec",
"ClassicalDedekindReals.sig_not_dec",
"Classical_Prop.classic",
"FunctionalExtensionality.functional_extensionality_dep"
],
"C80_negative_refuted": [],
"C80_overflow_refuted": [
"ClassicalDedekindReals.sig_forall_dec",
"FunctionalExtensionality.functional_extensionality_dep"
],
"C80_mod_refuted": [],
"C80_float32_refuted": [
"ClassicalDedekindReals.sig_forall_dec",
"FunctionalExtensionality.functional_extensionality_dep"
],
"C80_one_item_refuted": [
"ClassicalDedekindReals.sig_forall_dec",
"FunctionalExtensionality.functional_extensionality_dep"
],
"C80_precision_refuted": [
"ClassicalDedekindReals.sig_forall_dec",
"FunctionalExtensionality.functional_extensionality_dep"
],
"C80_invalid_refuted": [],
"C80_out_refuted": [],
"C84_floats_partial": [
"ClassicalDedekindReals.sig_forall_dec",
"ClassicalDedekindReals.sig_not_dec",
"Classical_Prop.classic",
"FunctionalExtensionality.functional_extensionality_dep"
],
"C84_integers": [],
"C84_invalid_partial": [],
"C84_round_refuted": [],
"C84_round_position_refuted": [
"ClassicalDedekindReals.sig_forall_dec",
"FunctionalExtensionality.functional_extensionality_dep"
],
"C84_zero_refuted": [],
"C84_invalid_refuted": [],
"C85_tests": [
"ClassicalDedekindReals.sig_forall_dec",
"FunctionalExtensionality.functional_extensionality_dep"
],
"C85_strings_partial": [],
"C85_unicode_refuted": [],
"C86_integers_partial": [
"ClassicalDedekindReals.sig_forall_dec",
"ClassicalDedekindReals.sig_not_dec",
"Classical_Prop.classic",
"FunctionalExtensionality.functional_extensionality_dep"
],
"C86_sqrt_partial": [
"ClassicalDedekindReals.sig_forall_dec",
"ClassicalDedekindReals.sig_not_dec",
"Classical_Prop.classic",
"FunctionalExtensionality.functional_extensionality_dep"
],
"C86_floats": [],
"C86_uint64_refuted": [],
"C86_invalid_refuted": [
"ClassicalDedekindReals.sig_forall_dec",
"FunctionalExtensionality.functional_extensionality_dep"
],
"C87_new_1d_partial": [],
"C87_new_fortran_partial": [],
"C87_new_c_partial": [],
"C87_new_rows_partial": [],
"C87_new_shape_partial": [],
"C87_zero_dim_refuted": [],
"C87_fortran_slice_refuted": [],
"C87_window_refuted": [],
"C87_unwritten_refuted": [],
"C87_out_partial": [],
"C87_length": [],
"C87_order_refuted": [],
"C87_shape_refuted": [],
"C87_overlap_refuted": [],
"C87_window_out_refuted": [],
"C96_variance": [],
"C96_variance_float32": [],
"C96_real_variance": [
"ClassicalDedekindReals.sig_forall_dec",
"FunctionalExtensionality.functional_extensionality_dep"
],
"C96_real_groups": [
"ClassicalDedekindReals.sig_forall_dec",
"ClassicalDedekindReals.sig_not_dec",
"FunctionalExtensionality.functional_extensionality_dep"
],
"C96_real_facts": [
"ClassicalDedekindReals.sig_forall_dec",
"FunctionalExtensionality.functional_extensionality_dep"
],
"C83_where_partial": [],
"C83_condition_refuted": [],
"C83_unaligned_refuted": [],
"C83_width_refuted": [],
"C83_scalar_refuted": [],
"C105_window_partial": [],
"C105_refused": [],
"C105_none": [],
"C105_strided_refuted": [],
"C105_overflow_refuted": [],
"C106_sums_partial": [],
"C106_quantile_partial": [],
"C106_refused": [],
"C106_none": [],
"C106_negative_refuted": [],
"C106_nan_refuted": [],
"C106_nanmean_refuted": [],
"C106_midpoint_refuted": [],
"C30_separate_partial": [],
"C30_no_double_free_partial": [],
"C30_uncached_partial": [],
"C30_shared_refuted": [],
"C30_freed_refuted": [],
"C30_collect_refuted": [],
"C30_larger_kept": [],
"C90_arrays_round_trip_partial": [],
"C90_string_round_trip_partial": [],
"C90_header": [],
"C90_level": [],
"C90_decompress_string_total": [],
"C90_empty_array_refuted": [],
"C90_empty_string_refuted": [],
"C90_none_refuted": [],
"C90_objects_refuted": [],
"C90_shapes_refuted": [],
"C90_decompress_unchecked_refuted": [],
"C90_modes_refuted": [],
"C90_no_context_refuted": [],
"C135_get_partial": [],
"C135_mask_partial": [],
"C135_refused": [],
"C135_empty": [],
"C135_unsigned_refuted": [],
"C135_strings_refuted": [],
"C135_gaps_refuted": [],
"C136_interp_partial": [],
"C136_refused": [],
"C136_types_refused": [],
"C136_gaps_refuted": [],
"C136_beyond_refuted": [],
"C137_merge_partial": [],
"C137_refused": [],
"C137_floats_refuted": [],
"C137_keys_refuted": [],
"C137_read_refuted": [],
"C137_types_refuted": [],
"C129_values_refused": [],
"C137_datetime_refuted": []
}