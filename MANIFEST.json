{
 "claims": [
  {
   "property": "C01",
   "status": "proved",
   "theorems": [
    "C01_chunks_cover_each_element_once",
    "C01_other_block_sizes_refuted"
   ],
   "note": "Generic chunk mode with the default block size, the only one callers use; another block size is refuted as a latent defect."
  },
  {
   "property": "C02",
   "status": "proved",
   "theorems": [
    "C02_no_block_runs_twice",
    "C02_no_worker_inside_after_return",
    "C02_worker_uses_current_call",
    "C02_all_blocks_done_at_return",
    "C02_call_can_always_return"
   ],
   "note": "Interleaving model of the main thread and any number of workers; sequentially consistent memory."
  },
  {
   "property": "C03",
   "status": "proved",
   "theorems": [
    "C03_threaded_equals_sequential"
   ],
   "note": ""
  },
  {
   "property": "C04",
   "status": "proved",
   "theorems": [
    "C04_bands_partition_bins",
    "C04_every_bin_in_exactly_one_band",
    "C04_no_bins_no_bands"
   ],
   "note": ""
  },
  {
   "property": "C05",
   "status": "partial",
   "theorems": [
    "C05_boolean_sum_counts_true",
    "C05_boolean_index_partial",
    "C05_strided_odd_items_refuted"
   ],
   "note": "Proved for every mask, stride, item size and schedule, except contiguous masks over strided values of item size not in {1,2,4,8}, where the code advances the output by the input stride (refuted)."
  },
  {
   "property": "C06",
   "status": "partial",
   "theorems": [
    "C06_boolean_to_fancy_partial",
    "C06_strided_mask_refuted"
   ],
   "note": "Proved for contiguous masks; strided masks are refuted (the fill pass ignores the stride)."
  },
  {
   "property": "C07",
   "status": "partial",
   "theorems": [
    "C07_fancy_index_partial",
    "C07_unsigned_index_refuted",
    "C07_unsigned_index_of_strings_refuted",
    "C07_strided_values_refuted"
   ],
   "note": "Proved for signed indices, unsigned indices below half range with fixed item sizes, and contiguous values when threaded; the excluded cases are refuted."
  },
  {
   "property": "C08",
   "status": "proved",
   "theorems": [
    "C08_reverse_shuffle_is_inverse",
    "C08_reverse_shuffle_never_out_of_bounds"
   ],
   "note": ""
  },
  {
   "property": "C09",
   "status": "partial",
   "theorems": [
    "C09_searchsorted_right_partial",
    "C09_searchsorted_left_partial",
    "C09_right_truncated_edges_refuted",
    "C09_left_truncated_edges_refuted",
    "C09_no_edges_refuted",
    "C09_midpoint_overflow_refuted"
   ],
   "note": "Proved for every value, chunking and schedule with at least one edge, at most 2^30 edges (or more than 2e9) and value/edge conversions that preserve comparisons; integer values against fractional edges, no edges, and about 2e9 edges are refuted."
  },
  {
   "property": "C10",
   "status": "partial",
   "theorems": [
    "C10_cut_into_bins_partial",
    "C10_truncated_edges_refuted",
    "C10_truncated_edges_out_of_bounds_refuted"
   ],
   "note": "As C09, for strictly ascending edges; integer values against fractional edges are refuted (wrong bin, out-of-bounds read)."
  },
  {
   "property": "C11",
   "status": "partial",
   "theorems": [
    "C11_sum",
    "C11_nansum",
    "C11_mean",
    "C11_nanmean",
    "C11_min",
    "C11_nanmin",
    "C11_orders",
    "C11_float32",
    "C11_nansum_float32_partial",
    "C11_nansum_float32_uninitialised_refuted"
   ],
   "note": "sum, nansum, mean, nanmean, min/max, nanmin/nanmax and the float32 specialisations, generic in the element type. Refuted beyond: float32 nansum/nanmean clear the wrong bins when the range does not start at bin 0. Group count is covered by C15."
  },
  {
   "property": "C12",
   "status": "proved",
   "theorems": [
    "C12_bands",
    "C12_median",
    "C12_mode",
    "C12_quantile",
    "C12_trimmean"
   ],
   "note": "For the four banded functions (median, mode, quantile, trimmed mean) and for any function writing one value per group; any number of threads, any order of writes."
  },
  {
   "property": "C13",
   "status": "partial",
   "theorems": [
    "C13_sum",
    "C13_nansum",
    "C13_mean",
    "C13_nanmean",
    "C13_min",
    "C13_nanmin",
    "C13_exact_instances",
    "C13_sum_float32",
    "C13_nansum_float32_partial",
    "C13_mean_float32",
    "C13_nanmean_float32_partial",
    "C13_nansum_float32_uninitialised_refuted",
    "C13_rounding_depends_on_schedule_refuted"
   ],
   "note": "Every assignment of blocks to cores; exact additions (64-bit wrap-around or no rounding). Refuted beyond: float32 nansum/nanmean with low > 0 read uninitialised memory, rounding additions depend on the schedule."
  },
  {
   "property": "C14",
   "status": "proved",
   "theorems": [
    "C14_group_from_bincount"
   ],
   "note": "All interleavings of the workers' steps on the shared cursor array; counts are the histogram of the keys."
  },
  {
   "property": "C15",
   "status": "proved",
   "theorems": [
    "C15_bincount_counts",
    "C15_bincount_packed",
    "C15_bincount_rejects_empty"
   ],
   "note": "Threaded and not, packed and not; every schedule of the writes to iGroup. No rows or no bins: error."
  },
  {
   "property": "C16",
   "status": "proved",
   "theorems": [
    "C16_nth",
    "C16_first",
    "C16_last"
   ],
   "note": "Packed layout as produced by GroupFromBinCount (C14)."
  },
  {
   "property": "C17",
   "status": "partial",
   "theorems": [
    "C17_any_hash",
    "C17_int",
    "C17_small",
    "C17_rows",
    "C17_int_hint_partial",
    "C17_f32_partial",
    "C17_f64_partial",
    "C17_string_partial",
    "C17_negative_zero_refuted",
    "C17_embedded_nul_refuted",
    "C17_hint_refuted"
   ],
   "note": "Proved for every hash function and table with room, for integers, 1/2-byte items and multi-key rows. Floats need one sign of zero, strings no characters after a NUL, hints room for the distinct values: refuted otherwise."
  },
  {
   "property": "C18",
   "status": "partial",
   "theorems": [
    "C18_iff",
    "C18_groupby_partial",
    "C18_groupby_hint_partial",
    "C18_groupby_rows",
    "C18_partitioned_partial",
    "C18_partitioned_rows",
    "C18_prime_refuted",
    "C18_hint_refuted",
    "C18_negative_zero_refuted"
   ],
   "note": "Proved for multi-key rows and all item types, with partitions. Refuted for 1/2-byte keys in PRIME mode (different keys share a group), for -0.0 and 0.0, and hints below the number of distinct keys throw."
  },
  {
   "property": "C19",
   "status": "partial",
   "theorems": [
    "C19_make_inext_partial",
    "C19_row_number_truncated_refuted",
    "C19_out_of_range_uninitialised_refuted"
   ],
   "note": "Guards: keys in range, row numbers fit the key type. Refuted beyond: int8 keys with more than 128 rows lose the row number; rows with an out-of-range key are never written."
  },
  {
   "property": "C20",
   "status": "partial",
   "theorems": [
    "C20_asof",
    "C20_asof_int",
    "C20_asof_float",
    "C20_categorical_partial",
    "C20_categorical_read_refuted",
    "C20_categorical_refuted"
   ],
   "note": "MultiKeyAlign (FindLastMatchMK, FindNextMatchMK): proved for both directions, with and without exact matches, any strict weak order of times. MergeBinnedAndSorted (FindLastMatchCategorical) reads the key of the second table at the cursor of the first: proved only when the second table has one key and is at least as long; refuted otherwise (wrong match, read behind the end). Its choice of the key type from the type of the times is not modelled"
  },
  {
   "property": "C21",
   "status": "proved",
   "theorems": [
    "C21_int",
    "C21_float",
    "C21_string",
    "C21_total"
   ],
   "note": "Integer, float, byte-string and unicode columns, ascending and descending, with and without threads."
  },
  {
   "property": "C22",
   "status": "proved",
   "theorems": [
    "C22_sorts",
    "C22_once",
    "C22_no_race",
    "C22_progress",
    "C22_bounded",
    "C22_same_as_sequential"
   ],
   "note": "Interleavings of the eight work indices; a worker's sort or merge is one step, and two that overlap in time touch disjoint rows."
  },
  {
   "property": "C23",
   "status": "proved",
   "theorems": [
    "C23_lexsort",
    "C23_index",
    "C23_columns"
   ],
   "note": "Any number of columns, with and without index=. The cutoffs case is C50."
  },
  {
   "property": "C24",
   "status": "proved",
   "theorems": [
    "C24_issorted_int",
    "C24_issorted_float",
    "C24_issorted_string"
   ],
   "note": ""
  },
  {
   "property": "C25",
   "status": "partial",
   "theorems": [
    "C25_groups_partial",
    "C25_base0_partial",
    "C25_keys",
    "C25_cutoffs_partial",
    "C25_seven_refuted",
    "C25_zero_refuted",
    "C25_base_refuted",
    "C25_empty_refuted",
    "C25_cutoffs_refuted"
   ],
   "note": "Refuted for 7-byte items in descending order, mixed 0.0/-0.0, base index 0 (different counts per item size), empty index, and cutoffs with item sizes other than 1, 2, 4, 8. Proved otherwise."
  },
  {
   "property": "C26",
   "status": "proved",
   "theorems": [
    "C26_numbers",
    "C26_invalid",
    "C26_cast_numbers",
    "C26_cast_invalid",
    "C26_unsafe_numbers",
    "C26_nearest",
    "C26_truncate",
    "C26_not_finite",
    "C26_roundtrip",
    "C26_includes",
    "C26_invalid_bool_refuted",
    "C26_becomes_invalid_refuted",
    "C26_infinity_refuted"
   ],
   "note": "ConvertSafe, ConvertUnsafe and cast_nan_aware for one item of all 144 pairs of numeric types (long double as x87). Also: rounding, truncation, round trips; refuted: invalid to bool gives True, an infinity from or to long double becomes NaN, a valid value can become the destination's invalid value."
  },
  {
   "property": "C27",
   "status": "partial",
   "theorems": [
    "C27_calendar",
    "C27_calendar_range",
    "C27_date",
    "C27_time",
    "C27_datetime",
    "C27_datetime_midnight",
    "C27_date_range",
    "C27_time_range",
    "C27_datetime_range",
    "C27_no_digits",
    "C27_date_safe",
    "C27_time_safe",
    "C27_datetime_safe",
    "C27_rows",
    "C27_strptime_partial",
    "C27_strptime_safe",
    "C27_strptime_old_refuted",
    "C27_impossible_day_refuted",
    "C27_bad_clock_refuted",
    "C27_width_refuted",
    "C27_warning_refuted",
    "C27_isspace_refuted"
   ],
   "note": "Every valid date, time and date-time text in every padding is proved to give the calendar instant of an independent Gregorian definition; out-of-range fields, text without digits, memory safety on every text and the array loop are proved. Refuted: day 31 of short months is accepted, a bad clock leaves the date, 'HH' depends on the array width, a padded HH:MM warns, isspace on wide characters, strptime before 1970. strptime itself is abstract."
  },
  {
   "property": "C28",
   "status": "proved",
   "theorems": [
    "C28_crc64",
    "C28_slicing",
    "C28_incremental",
    "C28_detects"
   ],
   "note": "CRC32.cpp: the tables it builds, slicing by 8 and the byte loop; equal to the bit-at-a-time CRC for every buffer, start value and polynomial; incremental; any change within eight consecutive bytes changes the checksum"
  },
  {
   "property": "C29",
   "status": "partial",
   "theorems": [
    "C29_find_partial",
    "C29_counts_partial",
    "C29_safe_partial",
    "C29_room_partial",
    "C29_collect_partial",
    "C29_stored_partial",
    "C29_drop_partial",
    "C29_type_refuted"
   ],
   "note": "All sequences of creating, referring to, dropping, finding and collecting arrays, any number of arrays; refuted for negative type numbers (AllocateNumpy/TryRecycleNumpy do not check them). Head and Tail are unbounded counters in the model (32-bit in the code). Assumes every release of a reference by Python was its own; callers of the recycler are not modelled."
  },
  {
   "property": "C30",
   "status": "partial",
   "theorems": [
    "C30_separate_partial",
    "C30_no_double_free_partial",
    "C30_uncached_partial",
    "C30_shared_refuted",
    "C30_freed_refuted",
    "C30_collect_refuted",
    "C30_larger_kept"
   ],
   "note": "One buffer at a time while caching is on, any number while it is off, any sequence of calls; refuted for two buffers held while caching is on and for RecycleGarbageCollectNow while threading is off. malloc returns a new address each time (addresses are not reused in the model)."
  },
  {
   "property": "C31",
   "status": "partial",
   "theorems": [
    "C31_sections_partial",
    "C31_read_back_partial",
    "C31_first_call_succeeds",
    "C31_next_call_succeeds",
    "C31_size_collision_refuted",
    "C31_six_dimensions_refuted",
    "C31_scalar_refuted"
   ],
   "note": "SDS files: any codec, any arrays of one to five dimensions, any interleaving of the writing threads, a first call and any number of later section calls: the directory lists each name with its offset, and reading at each offset returns names, meta data, dims, strides, flags, types and bytes (C31_sections_partial, C31_read_back_partial); saving succeeds for every complete thread schedule. Missing, with witnesses: banded size equal to the raw size is read raw (C31_size_collision_refuted), six dimensions overflow the read array (C31_six_dimensions_refuted), arrays without dimensions come back as None (C31_scalar_refuted); names with NUL bytes, fewer names than arrays and files of 2^62 bytes or more are excluded; masks and stacking are not modelled."
  },
  {
   "property": "C32",
   "status": "partial",
   "theorems": [
    "C32_sum_signed_partial",
    "C32_sum_unsigned_partial",
    "C32_prod_signed_partial",
    "C32_any_partial",
    "C32_overflow_refuted",
    "C32_negative_refuted"
   ],
   "note": "proved for a distance of at least 0 and times less than 2^63 apart; refuted: the int64 difference overflows for times further apart; a negative distance still counts the row itself. Floating point: the order of operations is proved, rounding is not modelled (C32_any_partial holds for any operation)"
  },
  {
   "property": "C33",
   "status": "partial",
   "theorems": [
    "C33_copy_partial",
    "C33_no_columns_refuted",
    "C33_empty_record_refuted",
    "C33_offset_refuted"
   ],
   "note": "Proved for every record size, field layout, row count and order of the threads' writes, with all five copy loops, the cache blocking and the 32-bit gather indices. Refuted: no columns (endless loop), records of zero bytes (division by zero), unchecked offsets (read past the records). Columns are separate contiguous buffers."
  },
  {
   "property": "C34",
   "status": "partial",
   "theorems": [
    "C34_sum_partial",
    "C34_nansum_partial",
    "C34_mean_partial",
    "C34_nanmean_partial",
    "C34_sum64_partial",
    "C34_nansum64_partial",
    "C34_var_partial",
    "C34_nanvar_partial",
    "C34_nan_refuted",
    "C34_negative_refuted",
    "C34_nanmean_int_refuted",
    "C34_divisor_refuted",
    "C34_nanvar_refuted"
   ],
   "note": "Sums, nansums, means and nanmeans equal those of the window in any exact arithmetic, and modulo 2^64 for int64; variances in exact rationals. Missing: rounding of floats. Refuted: a NaN stays in a float sum for ever, negative windows leave the arrays, nanmean of integers counts invalids, var divides the first full window by n-1 and later ones by n, nanvar is wrong once a NaN enters."
  },
  {
   "property": "C35",
   "status": "partial",
   "theorems": [
    "C35_heaps_partial",
    "C35_any_index_partial",
    "C35_rows_partial",
    "C35_exact_partial",
    "C35_median_partial",
    "C35_groups_partial",
    "C35_near_refuted",
    "C35_overflow_refuted"
   ],
   "note": "Both the array operation and the by-group one, for every stream, window and quantile: heap structure, and values at the code's index; the exact index where no window has an index within 1/1000 of a whole number but off it (always for medians). Missing: near-whole indices are snapped (C35_near_refuted), the int64 midpoint can overflow (C35_overflow_refuted); the rounding of the long double index is not modelled, the index is computed exactly."
  },
  {
   "property": "C36",
   "status": "partial",
   "theorems": [
    "C36_order",
    "C36_fifo",
    "C36_full_queue",
    "C36_ends",
    "C36_delivered",
    "C36_cancel_partial",
    "C36_cancel_refuted",
    "C36_dropped_refuted"
   ],
   "note": "Every interleaving of any number of threads, for all queue bounds: C36_order, C36_fifo, C36_full_queue (messages leave once, in push order; only a full queue drops), C36_ends and C36_delivered (every run is finite and no message is left while the consumer sleeps). The cancelled wait is proved where no cancel_wait writes wait_ between the consumer's test and its sleep; C36_cancel_refuted shows the lost wake up otherwise, as cancel_wait takes no lock. Memory is sequentially consistent in the model."
  },
  {
   "property": "C37",
   "status": "proved",
   "theorems": [
    "C37_bitcount",
    "C37_bool"
   ],
   "note": "all integer widths and booleans"
  },
  {
   "property": "C38",
   "status": "proved",
   "theorems": [
    "C38_min",
    "C38_max",
    "C38_int",
    "C38_grouping",
    "C38_grouping_int"
   ],
   "note": "floats, signed and unsigned integers; any order and any tree of combinations"
  },
  {
   "property": "C39",
   "status": "partial",
   "theorems": [
    "C39_reindex_gathers",
    "C39_remap_index",
    "C39_reindex_groups",
    "C39_key_beyond_own_uniques_refuted"
   ],
   "note": "ReIndexGroups, ReIndex and ReMapIndex; the code does not check that a key stays within the uniques of its own partition (refuted)."
  },
  {
   "property": "C40",
   "status": "partial",
   "theorems": [
    "C40_group_by_pack_partial",
    "C40_no_rows_refuted",
    "C40_key_out_of_range_refuted",
    "C40_next_mode_needs_first_occurrence_order_refuted"
   ],
   "note": "Guards: at least one row, keys in range, next array computed. Refuted beyond: no rows and out-of-range keys write out of bounds; with a supplied next array the groups must be numbered by first occurrence."
  },
  {
   "property": "C41",
   "status": "partial",
   "theorems": [
    "C41_cut_with_sort_index_partial",
    "C41_value_above_last_edge_refuted"
   ],
   "note": "Proved when no finite value exceeds the last edge; otherwise the code reads one element past the edges (refuted)."
  },
  {
   "property": "C42",
   "status": "partial",
   "theorems": [
    "C42_string_comparisons",
    "C42_cut_strings_partial",
    "C42_threaded_cut_refuted"
   ],
   "note": "Comparison functions proved for zero-padded strings; the cut is proved for unthreaded calls, the threaded call reads the wrong rows (refuted)."
  },
  {
   "property": "C43",
   "status": "partial",
   "theorems": [
    "C43_median_partial",
    "C43_quicksort_sorts",
    "C43_refuted",
    "C43_overflow_refuted",
    "C43_unsigned_refuted"
   ],
   "note": "Proved for values whose invalid marker is not equal to itself (NaN) and midpoints that do not overflow; int sentinels are counted as values, signed midpoints overflow, unsigned ones wrap (refuted)."
  },
  {
   "property": "C44",
   "status": "partial",
   "theorems": [
    "C44_mode_partial",
    "C44_refuted"
   ],
   "note": "Proved for NaN-like invalid values; integer sentinels are counted as values (refuted)."
  },
  {
   "property": "C45",
   "status": "partial",
   "theorems": [
    "C45_quantile_partial",
    "C45_refuted",
    "C45_overflow_refuted"
   ],
   "note": "Proved with the positions computed in binary64, shown to lie in the group; these are not always the exact floor and ceiling (refuted), and the integer midpoint can overflow (refuted)."
  },
  {
   "property": "C46",
   "status": "proved",
   "theorems": [
    "C46_trimmed_mean"
   ],
   "note": "For sums independent of order; ntrim >= 1, as ntrimbad returns."
  },
  {
   "property": "C47",
   "status": "partial",
   "theorems": [
    "C47_sum_partial",
    "C47_nansum_partial",
    "C47_mean_partial",
    "C47_nanmean_partial",
    "C47_nan_refuted",
    "C47_window_refuted",
    "C47_negative"
   ],
   "note": "Proved for exact arithmetic and non-negative windows that do not overflow the row number type; NaN stays in the sum forever, a negative window leaves the output unwritten, huge windows read out of bounds (refuted)."
  },
  {
   "property": "C48",
   "status": "partial",
   "theorems": [
    "C48_count",
    "C48_shift_partial",
    "C48_diff_partial",
    "C48_window_refuted"
   ],
   "note": "Proved unless the window overflows the row number type (refuted)."
  },
  {
   "property": "C49",
   "status": "partial",
   "theorems": [
    "C49_sort_partial",
    "C49_int",
    "C49_string_refuted",
    "C49_double_refuted"
   ],
   "note": "Proved for every total comparison; refuted for byte strings (only the first n bytes are sorted, as characters) and for the merge sort of doubles (compared as floats)."
  },
  {
   "property": "C50",
   "status": "partial",
   "theorems": [
    "C50_cutoffs_partial",
    "C50_index_refuted"
   ],
   "note": "Proved without index=; refuted when index= is given together with cutoffs=."
  },
  {
   "property": "C51",
   "status": "partial",
   "theorems": [
    "C51_void_partial",
    "C51_string",
    "C51_order_refuted",
    "C51_descending_refuted"
   ],
   "note": "Both comparisons are strict weak orders of fixed-size items; raw items are not compared in byte order, and descending is not the reverse for odd sizes."
  },
  {
   "property": "C52",
   "status": "partial",
   "theorems": [
    "C52_categories_int",
    "C52_categories_small_partial",
    "C52_fixup_partial",
    "C52_small_refuted",
    "C52_fixup_refuted"
   ],
   "note": "1/2-byte items are their own table position: refuted in PRIME mode for items past the table. The fix-up needs category numbers in range."
  },
  {
   "property": "C53",
   "status": "proved",
   "theorems": [
    "C53_super",
    "C53_unique"
   ],
   "note": "Any hash function, any table with room."
  },
  {
   "property": "C54",
   "status": "partial",
   "theorems": [
    "C54_rolling_partial"
   ],
   "note": "Keys wider than 16 bytes return uninitialised columns and are not modelled."
  },
  {
   "property": "C55",
   "status": "partial",
   "theorems": [
    "C55_columns_partial",
    "C55_filter_refuted"
   ],
   "note": "All seven columns without a filter; the filter is ignored by the code (C55_filter_refuted)."
  },
  {
   "property": "C56",
   "status": "proved",
   "theorems": [
    "C56_same_row",
    "C56_rotate"
   ],
   "note": "RotateArrays at the level of whole items; the blocked copy loops are not modelled."
  },
  {
   "property": "C57",
   "status": "partial",
   "theorems": [
    "C57_safe_1d_partial",
    "C57_safe_fortran_partial",
    "C57_safe_c_partial",
    "C57_safe_rows_partial",
    "C57_first_dim_refuted",
    "C57_fortran_slice_refuted",
    "C57_broadcast_refuted",
    "C57_window_refuted",
    "C57_unwritten_refuted",
    "C57_numpy_refuted",
    "C57_unsafe_1d_partial",
    "C57_unsafe_fortran_partial",
    "C57_unsafe_refuted"
   ],
   "note": "Proved for 0-D and 1-D arrays of any stride, C order, Fortran order, and rows any distance apart with the items of a row in C order (any number of dimensions); refuted for a first dimension of length 1, slices of Fortran arrays, broadcast and sliding-window views, three dimensions in Fortran order (items never written), and for ConvertUnsafe of ordinary 2-D arrays (writes outside the output). The conversion of one item is C26."
  },
  {
   "property": "C58",
   "status": "partial",
   "theorems": [
    "C58_hstack",
    "C58_homogenize_partial",
    "C58_homogenize_refuted",
    "C58_upcast_partial",
    "C58_upcast_double_refuted",
    "C58_upcast_wrap_refuted"
   ],
   "note": "HStack proved for every schedule; the common type is proved except for 64-bit integers with a floating result and ULONG with LONGLONG (refuted). HomogenizeArrays turns False into the invalid value (refuted)."
  },
  {
   "property": "C59",
   "status": "partial",
   "theorems": [
    "C59_putmask_partial",
    "C59_putmask_numbers_partial",
    "C59_putmask_invalid",
    "C59_putmask_bool_refuted",
    "C59_putmask_infinity_refuted",
    "C59_mask_count",
    "C59_setitem_partial",
    "C59_setitem_scalar_partial",
    "C59_setitem_punt_partial",
    "C59_setitem_strided_refuted"
   ],
   "note": "PutMask: proved except for bool values stored in another type (False is stored as the invalid value: refuted). SetItem: both paths and the vectorised count of the mask proved for contiguous arrays; strided masks are read as contiguous (refuted)."
  },
  {
   "property": "C60",
   "status": "partial",
   "theorems": [
    "C60_combine1_partial",
    "C60_filter_partial",
    "C60_filter_refuted"
   ],
   "note": "CombineAccum1Filter up to 2^31 rows (first rows are int32); CombineFilter for filter bytes 0 and 1, refuted for other bytes."
  },
  {
   "property": "C61",
   "status": "partial",
   "theorems": [
    "C61_combine2_partial",
    "C61_bins_partial",
    "C61_negative_refuted",
    "C61_unbounded_refuted"
   ],
   "note": "group numbers within 0..max; refuted for negative (invalid) group numbers, which collide with other pairs or leave the range"
  },
  {
   "property": "C62",
   "status": "proved",
   "theorems": [
    "C62_first_rows"
   ],
   "note": "MakeiFirst with bFirst true and false"
  },
  {
   "property": "C63",
   "status": "partial",
   "theorems": [
    "C63_shift_1d",
    "C63_shift_columns_partial",
    "C63_safe_partial",
    "C63_rows_refuted",
    "C63_3d_nothing_partial"
   ],
   "note": "1-D arrays and 2-D arrays in Fortran order; refuted for 2-D arrays in C order (items instead of rows are shifted); 3-D Fortran arrays are not shifted; strided arrays (copied first) not modelled"
  },
  {
   "property": "C64",
   "status": "proved",
   "theorems": [
    "C64_trailing",
    "C64_widen"
   ],
   "note": "strings given as contiguous characters; TrailingSpaces for 1-byte and 4-byte characters alike"
  },
  {
   "property": "C65",
   "status": "proved",
   "theorems": [
    "C65_running"
   ],
   "note": "Any addition (sums and products alike), all four mask combinations. Integer overflow is whatever the addition does; the conversion to the output type is a parameter."
  },
  {
   "property": "C66",
   "status": "proved",
   "theorems": [
    "C66_nth"
   ],
   "note": "Both loops; the int32 counter is undefined from 2^31 on, which the row bound excludes."
  },
  {
   "property": "C67",
   "status": "partial",
   "theorems": [
    "C67_nan_partial",
    "C67_full_partial",
    "C67_unwritten_refuted",
    "C67_bin0_refuted"
   ],
   "note": "All four loops of both functions for the rows of groups. Missing: with a mask the rows of no group are not written at all (C67_unwritten_refuted); without masks key 0 is treated as a group and a negative key is used as an index (C67_bin0_refuted)."
  },
  {
   "property": "C68",
   "status": "partial",
   "theorems": [
    "C68_decay_partial",
    "C68_both_refuted",
    "C68_unsigned_refuted"
   ],
   "note": "Closed form over the reals for the plain, filter and reset loops. Missing: filter plus reset writes 0 everywhere (C68_both_refuted); unsigned times that go back (C68_unsigned_refuted); rounding is not modelled."
  },
  {
   "property": "C69",
   "status": "partial",
   "theorems": [
    "C69_normal_partial",
    "C69_weighted_partial",
    "C69_reset_refuted",
    "C69_excluded_refuted",
    "C69_int64_refuted"
   ],
   "note": "Recurrence over the reals without masks. Missing: a reset row gets value * (1 - exp(-rate * time)) (C69_reset_refuted), excluded rows leak into the result (C69_excluded_refuted), int64 times overflow at the first row of each group (C69_int64_refuted); rounding is not modelled."
  },
  {
   "property": "C70",
   "status": "partial",
   "theorems": [
    "C70_types_partial",
    "C70_longdouble_refuted",
    "C70_key_refuted",
    "C70_column_refuted"
   ],
   "note": "Types agree except for long double times, where 16-byte items are written into an array of 8-byte items (C70_longdouble_refuted). Keys above the number of groups and columns shorter than the keys are accepted (C70_key_refuted, C70_column_refuted)."
  },
  {
   "property": "C71",
   "status": "partial",
   "theorems": [
    "C71_interpolation_partial",
    "C71_beyond_undefined",
    "C71_refuted"
   ],
   "note": "Proved in exact rational arithmetic for strictly increasing points, all lengths and thread orders, when no value lies above the last point of the last (or only) row. Such a value makes the search read xp[M] before testing j < M: C71_beyond_undefined proves the read outside of the array for every such input, clipping or not. Floating-point rounding and infinities are not modelled."
  },
  {
   "property": "C72",
   "status": "partial",
   "theorems": [
    "C72_order",
    "C72_stops",
    "C72_ended",
    "C72_handled_partial",
    "C72_again_partial",
    "C72_lost_refuted",
    "C72_zero_batch_refuted"
   ],
   "note": "Every interleaving: C72_order (each record once, in order), C72_stops (disable can always return, also after a lost wake up, as the flusher runs until the handler has ended), C72_ended. A record is handled if the handler was not between the two tests of active() when it was queued; C72_lost_refuted shows the loss, after which EnableLogging does nothing for ever as the queue is not empty. C72_zero_batch_refuted: a batch size of zero keeps disable from returning. Not modelled: the timeout of disable, the Python calls of the handler, a full queue."
  },
  {
   "property": "C73",
   "status": "partial",
   "theorems": [
    "C73_int_sum_partial",
    "C73_int_sum_invalid",
    "C73_int_nansum_partial",
    "C73_float_sum_partial",
    "C73_float_sum_nan",
    "C73_float_nansum_partial",
    "C73_int64_refuted",
    "C73_uint64_refuted",
    "C73_float_threads_refuted"
   ],
   "note": "Proved for every length, element type and schedule: the sum and nansum of integers while the sum of the absolute values is at most 2^53, the invalid result as soon as one element is invalid, and floating-point sums over the reals (threaded: below 2^63 in absolute value). Refuted beyond: int64 sums are accumulated in a double; uint64 sums from 2^63 on come back as the invalid value; threaded float sums of large values become NaN in some schedules. Rounding of floating-point additions is not modelled."
  },
  {
   "property": "C74",
   "status": "partial",
   "theorems": [
    "C74_mean_partial",
    "C74_mean_nan",
    "C74_var_partial",
    "C74_var_nan",
    "C74_var_threads_refuted",
    "C74_nanmean_empty_refuted"
   ],
   "note": "Proved over the reals with NaN for every length, ddof and schedule while the threaded sums stay below 2^63. Refuted: nanmean of an array of NaN only is 0; a threaded float64 variance with a large second sum is NaN."
  },
  {
   "property": "C75",
   "status": "proved",
   "theorems": [
    "C75_int",
    "C75_int_nan",
    "C75_float",
    "C75_float_nan"
   ],
   "note": "All eight integer types, float32 and float64, scalar and vector kernels, every schedule. Float values are modelled as ordered extended integers with NaN (no arithmetic takes place). Long double uses the scalar loop. The nan-aware float32 minimum (function 210) always returns NULL and is not covered."
  },
  {
   "property": "C76",
   "status": "proved",
   "theorems": [
    "C76_int",
    "C76_int_nan",
    "C76_float",
    "C76_float_nan"
   ],
   "note": "All eight integer types and floats."
  },
  {
   "property": "C77",
   "status": "partial",
   "theorems": [
    "C77_contiguous_partial",
    "C77_fortran_slice_refuted",
    "C77_one_row_refuted",
    "C77_scalar_refuted"
   ],
   "note": "Proved for one-dimensional arrays and for arrays contiguous in C or Fortran order. Refuted: slices of arrays in Fortran order, strided arrays with one row, arrays without dimensions."
  },
  {
   "property": "C78",
   "status": "partial",
   "theorems": [
    "C78_integers_partial",
    "C78_scalar_partial",
    "C78_one_item_partial",
    "C78_floats",
    "C78_mixed_partial",
    "C78_bits_refuted",
    "C78_first_refuted",
    "C78_negative_refuted",
    "C78_small_refuted",
    "C78_overflow_refuted",
    "C78_invalid_refuted",
    "C78_precision_refuted"
   ],
   "note": "Integer arrays of any two types, array and Python integer, array and one-element array, floats of one type with NaN, mixed types under representability. Refuted: == and != of uint64 with int64 compare bits; a one-element int64 array before uint64; uint64 with Python integers below -2^31; uint8 with -200; int64 with 2^63; invalid values; int64 with float64 rounds."
  },
  {
   "property": "C79",
   "status": "partial",
   "theorems": [
    "C79_integers_partial",
    "C79_scalar_partial",
    "C79_inplace",
    "C79_floats_partial",
    "C79_float_scalar_partial",
    "C79_nan",
    "C79_divide_partial",
    "C79_divide_scalar_partial",
    "C79_subdates",
    "C79_subdatetimes",
    "C79_andnot_refuted",
    "C79_andnot_reads_refuted",
    "C79_mod_zero_refuted",
    "C79_floordiv_refuted",
    "C79_divmod_refuted",
    "C79_unaligned_refuted",
    "C79_divide_refuted"
   ],
   "note": "Integers: exact result modulo the size of the smallest common type for arrays (new or in place) and Python integers on either side. Floats: the real result rounded once; NaN propagates. Division of integers up to 2^53. Missing because false: and-not with a scalar uses the first item only and reads past a register; x % 0 and INT_MIN // -1 trap; % has the sign of x while // rounds down; in place at an unaligned address faults; / of integers above 2^53 rounds three times. Not covered: uint64 with a signed type (converted to float), one-item arrays."
  },
  {
   "property": "C80",
   "status": "partial",
   "theorems": [
    "C80_int_scalar_partial",
    "C80_int_arrays_partial",
    "C80_one_item_partial",
    "C80_float_arrays_partial",
    "C80_same_type",
    "C80_float_scalar_partial",
    "C80_negative_refuted",
    "C80_overflow_refuted",
    "C80_mod_refuted",
    "C80_float32_refuted",
    "C80_one_item_refuted",
    "C80_precision_refuted",
    "C80_invalid_refuted",
    "C80_out_refuted"
   ],
   "note": "Integer arrays with Python integers, two integer arrays, one-element arrays, float arrays and Python floats keep their numbers under stated conditions. Refuted: negative scalars of 8, 16, 32 bits with unsigned arrays; Python integers of 2^63 and more; uint64 with a negative scalar becomes float32; one-element uint64 array of 2^63; int32 with float32; invalid values are replaced; with an output array scalars are cut."
  },
  {
   "property": "C81",
   "status": "partial",
   "theorems": [
    "C81_output_partial",
    "C81_output_inside_refuted",
    "C81_output_threads_refuted"
   ],
   "note": "Proved for operands whose items are not wider than those of the output (arithmetic, and comparisons of one-byte items). Refuted for accepted outputs with narrower items inside an operand, and at the same address where the result depends on the threads."
  },
  {
   "property": "C82",
   "status": "partial",
   "theorems": [
    "C82_same_order_partial",
    "C82_one_item_partial",
    "C82_taken",
    "C82_slice_refuted",
    "C82_row_refuted",
    "C82_mixed_order_refuted",
    "C82_shape_refuted"
   ],
   "note": "Proved for equal shapes both in C order or both in Fortran order, and for an operand with a single item. Refuted: slices of Fortran-ordered arrays and rows with strided columns are read as contiguous, mixed orders pair the wrong items, incompatible shapes are accepted, (1,n) with (n,1) and (0,3) get the wrong shape."
  },
  {
   "property": "C83",
   "status": "partial",
   "theorems": [
    "C83_where_partial",
    "C83_condition_refuted",
    "C83_unaligned_refuted",
    "C83_width_refuted",
    "C83_scalar_refuted"
   ],
   "note": "Proved for contiguous conditions, operands with the item size the caller gives, and arrays a whole number of items apart. Refuted: a condition with steps is read as contiguous, unaligned arrays and strings of another width are read at wrong addresses, a string scalar longer than the given item size overflows a buffer."
  },
  {
   "property": "C84",
   "status": "partial",
   "theorems": [
    "C84_floats_partial",
    "C84_integers",
    "C84_invalid_partial",
    "C84_round_refuted",
    "C84_round_position_refuted",
    "C84_zero_refuted",
    "C84_invalid_refuted"
   ],
   "note": "Not modelled: SIGNBIT; NaN payloads and signs. Refuted: round(2.5) is 2 in the vector code and 3 in the scalar code; the sign of a zero result depends on the alignment; sign and ~ of the invalid integer give ordinary integers."
  },
  {
   "property": "C85",
   "status": "partial",
   "theorems": [
    "C85_tests",
    "C85_strings_partial",
    "C85_unicode_refuted"
   ],
   "note": "Proved for all number types. Strings: proved for characters below 256; refuted for unicode, where only the lowest byte of the first character is looked at (U+0100 counts as empty)."
  },
  {
   "property": "C86",
   "status": "partial",
   "theorems": [
    "C86_integers_partial",
    "C86_sqrt_partial",
    "C86_floats",
    "C86_uint64_refuted",
    "C86_invalid_refuted"
   ],
   "note": "The functions of the C library are a parameter. Refuted: uint64 items from 2^63 on are read as negative numbers; the invalid value of unsigned types gives an ordinary number."
  },
  {
   "property": "C87",
   "status": "partial",
   "theorems": [
    "C87_new_1d_partial",
    "C87_new_fortran_partial",
    "C87_new_c_partial",
    "C87_new_rows_partial",
    "C87_new_shape_partial",
    "C87_zero_dim_refuted",
    "C87_fortran_slice_refuted",
    "C87_window_refuted",
    "C87_unwritten_refuted",
    "C87_out_partial",
    "C87_length",
    "C87_order_refuted",
    "C87_shape_refuted",
    "C87_overlap_refuted",
    "C87_window_out_refuted"
   ],
   "note": "Proved for one dimension with any strides, C order, Fortran order and rows of one stride into C order, with a new array or a given one that is apart from the input or the same array. Refuted: slices of arrays in Fortran order, windows (reads and writes outside of the array), unwritten items, arrays without dimensions, C order into Fortran order, arrays of another shape with as many items, overlapping arrays."
  },
  {
   "property": "C88",
   "status": "partial",
   "theorems": [
    "C88_parse_partial",
    "C88_fraction_partial",
    "C88_safe_partial",
    "C88_overread_refuted",
    "C88_zone_refuted",
    "C88_pm_refuted",
    "C88_mismatch_refuted",
    "C88_unicode_refuted",
    "C88_yday_refuted",
    "C88_second_refuted"
   ],
   "note": "Proved for every format of literals, spaces, %% and the conversions Y y C+y m d e H k I l M S p a A b B h j U W V w u g n t F D x T X R r c that tells the date, with any text after it and with fractions; and that no format without %G reads outside of the text. Refuted: %G reads past the end; %z and %Z are dropped; %p before %I; texts that do not match; characters beyond eight bits; %j alone; %e with a space; 61 seconds."
  },
  {
   "property": "C89",
   "status": "partial",
   "theorems": [
    "C89_ints_partial",
    "C89_floats_partial",
    "C89_many_partial",
    "C89_strings_partial",
    "C89_short_strings_partial",
    "C89_empty_refuted",
    "C89_full_refuted",
    "C89_same_refuted",
    "C89_order_refuted",
    "C89_strings_refuted",
    "C89_unicode_refuted"
   ],
   "note": "Proved for 1 to 999998 numbers, for more numbers if each million has a value for every hash map (some row; the first if the values are distinct), and for strings whose bytes are counted by the index type. Refuted: no items, 999999 or 1000000 items and a million and one equal items read the first item of an empty vector or divide by 0; with duplicates the row depends on the order of the messages; 16 strings of 16 characters are not found; 50 strings of 10 characters and unicode strings of 3 read outside the arrays. std::unordered_map is modelled as an association list."
  },
  {
   "property": "C90",
   "status": "partial",
   "theorems": [
    "C90_arrays_round_trip_partial",
    "C90_string_round_trip_partial",
    "C90_header",
    "C90_level",
    "C90_decompress_string_total",
    "C90_empty_array_refuted",
    "C90_empty_string_refuted",
    "C90_none_refuted",
    "C90_objects_refuted",
    "C90_shapes_refuted",
    "C90_decompress_unchecked_refuted",
    "C90_modes_refuted",
    "C90_no_context_refuted"
   ],
   "note": "Proved: arrays of one length (not empty, not of objects) and byte strings that are not empty come back for every codec that can undo its compression, every level, every thread; DecompressString is total. Refuted: empty arrays compress but cannot be decompressed, empty byte strings give unwritten bytes, None in the list and arrays of objects give undefined behaviour, decompressing trusts the header, modes 2 and above misbehave, and a missing ZSTD context is taken for success. Byte order of arrays is not modelled."
  },
  {
   "property": "C91",
   "status": "partial",
   "theorems": [
    "C91_list_partial",
    "C91_list_safe",
    "C91_scalar_partial",
    "C91_big_int_refuted",
    "C91_short_string_refuted",
    "C91_empty_bytes_refuted",
    "C91_object_refuted",
    "C91_wrong_keyword_refuted",
    "C91_fast_array_refuted"
   ],
   "note": "Proved: lists of one type give arrays of their items if ints fit in 64 bits, not all bytes are empty, and no string is shorter than another by two or more; scalars other than objects become arrays of one item; no list makes the code write outside of the array. Refuted: larger ints become -1, characters after a shorter string are left over from the memory, lists of empty bytes likewise, objects are stored without counting a reference, wrong copy= and order= give a SystemError, and AsFastArray dereferences null when AsAnyArray raises. What numpy makes of other things is a parameter."
  },
  {
   "property": "C92",
   "status": "partial",
   "theorems": [
    "C92_arrays_partial",
    "C92_scalar_partial",
    "C92_safe",
    "C92_zero_inside_refuted",
    "C92_shape_refuted",
    "C92_strides_refuted",
    "C92_output_refuted",
    "C92_one_item_refuted"
   ],
   "note": "Proved: arrays of one dimension whose items follow each other, and arrays and strings of their type, are joined item by item if items have zeros only at the end, and nothing outside is read. Refuted: what follows a zero in an item is lost, matrices lose their shape, strides beyond the first dimension are ignored, which may read outside, output arrays are ignored and switch off the comparison of types (bytes of a string are then used as a number), arrays of one item are not added to longer ones. Two scalars, leaks of references and the arithmetic of numbers are left out here."
  },
  {
   "property": "C93",
   "status": "partial",
   "theorems": [
    "C93_columns",
    "C93_rows",
    "C93_types_partial",
    "C93_stack_partial",
    "C93_numbers_partial",
    "C93_invalid",
    "C93_no_error",
    "C93_bools_refuted",
    "C93_uint64_refuted",
    "C93_type_order_refuted",
    "C93_text_rows_refuted",
    "C93_text_unicode_refuted",
    "C93_order_refuted",
    "C93_empty_refuted",
    "C93_long_double_refuted",
    "C93_complex_refuted",
    "C93_fortran_refuted",
    "C93_type_as_read"
   ],
   "note": "Refuted for bools stacked with other types, uint64 with signed integers, types depending on the order of files, matrices of texts with different widths, bytes with unicode of another width, arrays without rows in a dataset with rows, long doubles, complex64 with complex128 and some arrays in Fortran order; proved for the other columns in C order, for any number of files and any schedule of the threads."
  },
  {
   "property": "C94",
   "status": "partial",
   "theorems": [
    "C94_new_array_partial",
    "C94_given_partial",
    "C94_tests_partial",
    "C94_named",
    "C94_test_refuted",
    "C94_gaps_refuted",
    "C94_round_refuted",
    "C94_abs64_refuted",
    "C94_neg_refuted",
    "C94_text_refuted",
    "C94_matrix_refuted",
    "C94_given_gaps_refuted",
    "C94_finite_refuted",
    "C94_floor_refuted",
    "C94_throws_refuted",
    "C94_rows_refuted",
    "C94_returned"
   ],
   "note": "Proved for arrays without gaps and new results, for one dimension with a given result, and for the tests in memory that is large enough. Refuted: tests write outside of their new array, arrays with gaps and given matrices are written outside, ROUND and ABS of int64 depend on the position, NEG is INVERT, texts never end."
  },
  {
   "property": "C95",
   "status": "partial",
   "theorems": [
    "C95_mask_partial",
    "C95_many_partial",
    "C95_saved_partial",
    "C95_saved_many_partial",
    "C95_many_never_stops",
    "C95_error",
    "C95_no_rows_refuted",
    "C95_long_mask_refuted",
    "C95_fortran_refuted",
    "C95_strided_mask_refuted",
    "C95_first_array_refuted"
   ],
   "note": "Proved for masks without strides: one file (at least one True, columns with bytes, in C order, at least as many rows as the mask), several files (also no True element and longer masks, when the columns have as many rows as the first array), saved arrays come back row by row, errors, and no stop for several files whatever their bytes. Refuted: all-False mask of one file divides by zero, longer mask leaves bytes unwritten, Fortran order, strided masks, columns longer than the first array."
  },
  {
   "property": "C96",
   "status": "proved",
   "theorems": [
    "C96_variance",
    "C96_variance_float32",
    "C96_real_variance",
    "C96_real_groups",
    "C96_real_facts"
   ],
   "note": "Proved for one call over all rows (the code calls these functions in no other way). The arithmetic is a parameter; over the real numbers the result is the variance of the sample."
  },
  {
   "property": "C97",
   "status": "partial",
   "theorems": [
    "C97_groups_partial",
    "C97_integers",
    "C97_floats",
    "C97_errors",
    "C97_strided_key_refuted",
    "C97_nansum_refuted",
    "C97_bin_high_refuted",
    "C97_empty_refuted",
    "C97_range_refuted",
    "C97_one_row_refuted",
    "C97_function_number_refuted",
    "C97_bool_refuted"
   ],
   "note": "All functions, types, ranges and divisions of the rows. Refuted parts: keys with gaps are read as if contiguous; nansum of float32 clears the wrong bins when the range does not begin with bin 0; the list of last bins, the range of bins and an empty list of columns are not checked; a one-row view is refused; function numbers are cut to 32 bits; min of an empty group of bool is -128. When the rows are divided among threads, float sums and means are proved for arithmetic without rounding."
  },
  {
   "property": "C98",
   "status": "partial",
   "theorems": [
    "C98_concat_partial",
    "C98_made_partial",
    "C98_nothing_written",
    "C98_moved_header",
    "C98_names_refuted",
    "C98_output_is_input_refuted"
   ],
   "note": "Proved for every codec and every list of files that were saved, extended or put together: all sections of all files come back, in order, from the offsets of the directory, and nothing else changes. Missing: C31's restrictions on what is saved, output files from 2^62 bytes on. Refuted: the names of the sections are lost (all are listed as 0); an output that is also an input is emptied before it is read. With mustexist=False a missing file makes the call raise although the output was written."
  },
  {
   "property": "C99",
   "status": "partial",
   "theorems": [
    "C99_pack_partial",
    "C99_integers",
    "C99_rolling_integers",
    "C99_errors",
    "C99_void_refuted",
    "C99_text_median_refuted",
    "C99_text_median_threads_refuted",
    "C99_strided_refuted",
    "C99_lengths_refuted",
    "C99_window_refuted"
   ],
   "note": "Missing and refuted: gaps in iGroup/iFirst/nCount, VOID items, medians of text, negative windows, unchecked lengths. Sums of floating point numbers are shown where they are exact."
  },
  {
   "property": "C100",
   "status": "partial",
   "theorems": [
    "C100_ismember_partial",
    "C100_refused",
    "C100_unwritten",
    "C100_longdouble_refuted",
    "C100_strided_refuted",
    "C100_hint_refuted"
   ],
   "note": "Proved for contiguous arrays of comparable types whose table has room (hint 0 or at least the rows), without zeros of both signs and with padded text where widths differ; long doubles, wide complex numbers, strides and small hints are refuted. Half floats, complex64 (compared by bits) and the tbb table are outside."
  },
  {
   "property": "C101",
   "status": "partial",
   "theorems": [
    "C101_categorical_partial",
    "C101_refused",
    "C101_unwritten",
    "C101_longdouble_refuted",
    "C101_prime_refuted",
    "C101_rows_refuted"
   ],
   "note": "Proved for contiguous arrays of comparable types whose table has room, mode 2 for items of one or two bytes, fewer than 2^31 rows in b; long doubles, mode 1 with small items and 2^31 rows are refuted."
  },
  {
   "property": "C102",
   "status": "partial",
   "theorems": [
    "C102_running_partial",
    "C102_averages_partial",
    "C102_refused",
    "C102_none",
    "C102_strided_refuted",
    "C102_column_refuted",
    "C102_undefined_refuted"
   ],
   "note": "Proved for key, masks and times without gaps between elements, columns of the key's length, keys up to the number of groups; decayed sums and averages over the real numbers, with at most one mask (none for the averages), without long double times, and for the average by time without signed times that are not negative. Outside of this the code differs: strided keys, shorter columns, things that are no arrays as masks or times, calls without columns, long double times and signed times are refuted with witnesses. Refusals and None results are proved in full."
  },
  {
   "property": "C103",
   "status": "partial",
   "theorems": [
    "C103_sorted_partial",
    "C103_index_partial",
    "C103_cutoffs_partial",
    "C103_refused",
    "C103_undefined_refuted",
    "C103_direction_refuted",
    "C103_index_refuted"
   ],
   "note": "Proved for columns of numbers and text (columns of raw bytes have another order, C51), directions that are a bool or an array of bool without gaps, an index and cutoffs without gaps and with at least one element, not both. Outside of this the code differs: empty index, empty cutoffs, no columns, directions of another type, an index with gaps, and index together with cutoffs are refuted with witnesses. Refusals are proved in full."
  },
  {
   "property": "C104",
   "status": "partial",
   "theorems": [
    "C104_lexsort_partial",
    "C104_cutoffs_partial",
    "C104_listed_partial",
    "C104_refused",
    "C104_filter_refuted",
    "C104_strided_refuted",
    "C104_undefined_refuted",
    "C104_argument_refuted"
   ],
   "note": "from arguments to results; groups after LexSort with and without cutoffs, any sorted index, and refusals proved; filter, gaps, empty cutoffs, base 0 and the changed index refuted"
  },
  {
   "property": "C105",
   "status": "partial",
   "theorems": [
    "C105_window_partial",
    "C105_refused",
    "C105_none",
    "C105_strided_refuted",
    "C105_overflow_refuted"
   ],
   "note": "Proved for every array of numbers without gaps, int64 times that ascend and are less than 2^63 apart, every delta and every fair schedule; what is refused and what gives None in full. Refuted: arrays with gaps are read as if they had none; times 2^63 or more apart overflow."
  },
  {
   "property": "C106",
   "status": "partial",
   "theorems": [
    "C106_sums_partial",
    "C106_quantile_partial",
    "C106_refused",
    "C106_none",
    "C106_negative_refuted",
    "C106_nan_refuted",
    "C106_nanmean_refuted",
    "C106_midpoint_refuted"
   ],
   "note": "Proved for sums and means if adding and taking away again is exact (always for integers; for floating point numbers a hypothesis) and for quantiles whose index is not rounded wrongly; any stride; what is refused and what gives None in full. Not: variances (C34 has them over exact numbers). Refuted: negative windows, NaN that stays in the sum, the mean of valid integers counts the invalid one, midpoints of int32 that overflow."
  },
  {
   "property": "C107",
   "status": "partial",
   "theorems": [
    "C107_search_partial",
    "C107_cut_partial",
    "C107_text_partial",
    "C107_refused",
    "C107_converted_edges_refuted",
    "C107_bool_refuted",
    "C107_strided_refuted",
    "C107_no_edges_refuted",
    "C107_text_modes_refuted"
   ],
   "note": "numbers and text, from the arguments to the result; for arrays without gaps, edges that are numbers of the type of the values and the other way round, types other than bool and (text) no threads; refuted by witnesses otherwise"
  },
  {
   "property": "C108",
   "status": "partial",
   "theorems": [
    "C108_counts",
    "C108_cut_partial",
    "C108_refused",
    "C108_none",
    "C108_unchecked_refuted"
   ],
   "note": "counts proved for every layout; cutting for arrays without gaps, at least two edges and values not above the last edge; values above it, short indices and wrong counts are refuted by witnesses"
  },
  {
   "property": "C109",
   "status": "partial",
   "theorems": [
    "C109_reindex_partial",
    "C109_reindex_refused",
    "C109_objects",
    "C109_rows_refuted",
    "C109_uint32_refuted",
    "C109_remap_partial",
    "C109_remap_refused",
    "C109_remap_refuted"
   ],
   "note": "proved if every row is in range; ReMapIndex for arrays without gaps and of one length; refuted by witnesses otherwise"
  },
  {
   "property": "C110",
   "status": "partial",
   "theorems": [
    "C110_groupby_partial",
    "C110_hint_partial",
    "C110_cutoffs_partial",
    "C110_refused",
    "C110_cutoffs_refused",
    "C110_same_group",
    "C110_filter_refuted",
    "C110_no_columns_refuted",
    "C110_narrow_refuted",
    "C110_hint_refuted"
   ],
   "note": "Proved for every list of columns, filter without gaps, hint that is large enough or 0, mode and cutoffs: the numbers, the first rows, the partitions, the types, and what is refused. Refuted: a filter with gaps is read as if it had none, an empty list of columns reads outside of memory, mode 1 merges rows of one or two bytes, a hint that is too small with cutoffs raises an exception in a thread."
  },
  {
   "property": "C111",
   "status": "partial",
   "theorems": [
    "C111_unique_partial",
    "C111_super_partial",
    "C111_hint_refuted"
   ],
   "note": "Proved for every list of columns and every filter without gaps. Refuted: a hint that is too small makes MultiKeyUnique32 return None without an error (C111_unique_partial) and MultiKeyGroupBy32Super leave without the interpreter lock (C111_hint_refuted)."
  },
  {
   "property": "C112",
   "status": "partial",
   "theorems": [
    "C112_hash_partial",
    "C112_filter_refuted"
   ],
   "note": "Proved for every list of columns: the columns describe the groups of all rows. Refuted: dropped rows are grouped like the others, for every call with a filter that drops a row."
  },
  {
   "property": "C113",
   "status": "partial",
   "theorems": [
    "C113_sort_partial",
    "C113_inplace_partial",
    "C113_chars_partial",
    "C113_gaps_refuted",
    "C113_double_refuted",
    "C113_mode_refuted",
    "C113_dates_refuted",
    "C113_text_refuted",
    "C113_signed_refuted"
   ],
   "note": "Proved for arrays of numbers without gaps, the merge sort only for values that float holds exactly (C113_sort_partial, C113_inplace_partial), and for byte strings of one ASCII character. Refuted: arrays with gaps (C113_gaps_refuted), doubles with the merge sort (C113_double_refuted), unknown modes and types are not refused (C113_mode_refuted, C113_dates_refuted), text of several bytes (C113_text_refuted), characters above 127 (C113_signed_refuted)."
  },
  {
   "property": "C114",
   "status": "partial",
   "theorems": [
    "C114_indirect_partial",
    "C114_comment_refuted",
    "C114_types_refuted",
    "C114_unlisted_refuted",
    "C114_range_refuted"
   ],
   "note": "Proved for an index that lists every number once, keys below its length and the type pairs int32/int32, int32/int64, int64/int64. Refuted: the comment's formula (C114_comment_refuted), int64 keys with an int32 index (C114_types_refuted), keys that the index does not list (C114_unlisted_refuted), keys that are too great (C114_range_refuted)."
  },
  {
   "property": "C115",
   "status": "partial",
   "theorems": [
    "C115_numbers",
    "C115_text_partial",
    "C115_refused",
    "C115_after_sort",
    "C115_raw_refuted"
   ],
   "note": "Proved for numbers, byte strings and unicode strings; gaps and other types are refused; what Sort returns is sorted. Refuted for raw items, whose bytes are compared as little-endian words (C115_raw_refuted)."
  },
  {
   "property": "C116",
   "status": "partial",
   "theorems": [
    "C116_filter_partial",
    "C116_pairs_partial",
    "C116_refused_filter",
    "C116_refused_pairs",
    "C116_gaps_refuted",
    "C116_bytes_refuted",
    "C116_overflow_refuted"
   ],
   "note": "Proved for arrays without gaps, booleans 0 and 1, group numbers within their range and products below 2^63. Refuted: elements between those of a strided array are returned; a boolean stored as 2 doubles the number; the product of the maxima overflows unchecked."
  },
  {
   "property": "C117",
   "status": "partial",
   "theorems": [
    "C117_groups_partial",
    "C117_first_partial",
    "C117_refused_partial",
    "C117_limits",
    "C117_list_refuted",
    "C117_gaps_refuted"
   ],
   "note": "Proved for arrays without gaps and filters that are None or boolean arrays (up to 2^31 rows for CombineAccum1Filter, whose first rows are int32). Refuted: a filter that is another object, such as a list, is ignored without an error; strided arrays."
  },
  {
   "property": "C118",
   "status": "partial",
   "theorems": [
    "C118_spaces_partial",
    "C118_refused",
    "C118_gaps_refuted"
   ],
   "note": "Proved for arrays without gaps. Refuted: for a strided view the texts between its items are changed instead."
  },
  {
   "property": "C119",
   "status": "partial",
   "theorems": [
    "C119_texts_partial",
    "C119_safe_partial",
    "C119_refused",
    "C119_gaps_refuted",
    "C119_characters_refuted"
   ],
   "note": "Refuted for arrays with gaps and for characters from 128 on in byte strings or from 256 on in unicode strings; impossible days are those of C27."
  },
  {
   "property": "C120",
   "status": "partial",
   "theorems": [
    "C120_format_partial",
    "C120_safe_partial",
    "C120_refused",
    "C120_gaps_refuted",
    "C120_week_refuted"
   ],
   "note": "Refuted for arrays with gaps and formats with %G."
  },
  {
   "property": "C121",
   "status": "partial",
   "theorems": [
    "C121_streams_partial",
    "C121_delete",
    "C121_refused",
    "C121_three_refuted",
    "C121_wide_refuted",
    "C121_deleted_refuted"
   ],
   "note": "Refuted for a tuple of three or more columns, whose third is taken for the filter, and for rows of more than 16 bytes, for which uninitialised arrays are returned; hints that are too small and changed columns are left out."
  },
  {
   "property": "C122",
   "status": "partial",
   "theorems": [
    "C122_integers_partial",
    "C122_floats_partial",
    "C122_columns_refused",
    "C122_times_refused",
    "C122_three_refuted",
    "C122_gaps_refuted",
    "C122_dates_refuted",
    "C122_columns_refuted"
   ],
   "note": "Proved for lists of columns and tuples of one or two columns, and times without gaps that go up. Refuted for tuples of three columns, times with gaps, dates, and columns split differently."
  },
  {
   "property": "C123",
   "status": "partial",
   "theorems": [
    "C123_member_partial",
    "C123_refused",
    "C123_sizes_refused",
    "C123_empty_refuted",
    "C123_three_refuted"
   ],
   "note": "Proved for lists of columns and tuples of one or two columns, tables with rows and hints that are not too small. Refuted for tuples of three columns and tables without rows."
  },
  {
   "property": "C124",
   "status": "partial",
   "theorems": [
    "C124_counts_partial",
    "C124_packed_partial",
    "C124_groups_partial",
    "C124_two_steps_partial",
    "C124_refused",
    "C124_types_refused",
    "C124_types_refuted",
    "C124_gaps_refuted",
    "C124_counts_refuted"
   ],
   "note": "keys are signed integers without gaps (unsigned keys call a null pointer, gaps are read: refuted); the counts of GroupFromBinCount are those of the keys (refuted otherwise)"
  },
  {
   "property": "C125",
   "status": "partial",
   "theorems": [
    "C125_rows_partial",
    "C125_refused",
    "C125_outside_refuted",
    "C125_gaps_refuted",
    "C125_narrow_refuted"
   ],
   "note": "keys without gaps and in range, rows can be numbered in the type of the keys (all three refuted otherwise)"
  },
  {
   "property": "C126",
   "status": "partial",
   "theorems": [
    "C126_keys_partial",
    "C126_next_partial",
    "C126_refused",
    "C126_empty_refuted",
    "C126_range_refuted",
    "C126_gaps_refuted",
    "C126_order_refuted",
    "C126_inext_refuted"
   ],
   "note": "at least one row, keys in range and without gaps; a next array needs groups numbered by their first rows (all refuted otherwise)"
  },
  {
   "property": "C127",
   "status": "partial",
   "theorems": [
    "C127_shift_partial",
    "C127_refused",
    "C127_gaps_refuted",
    "C127_least_refuted"
   ],
   "note": "Proved for arrays without gaps of one dimension (C63 has those of two) whose length less the amount is a number of 64 bits. Refuted: arrays with gaps are left as they are; the least amount overflows."
  },
  {
   "property": "C128",
   "status": "partial",
   "theorems": [
    "C128_setitem_partial",
    "C128_scalar_partial",
    "C128_left",
    "C128_count_partial",
    "C128_refused",
    "C128_mask_refuted",
    "C128_array_refuted",
    "C128_values_refuted"
   ],
   "note": "Proved for arrays, masks and values without gaps. Refuted with gaps: each is read or written as if it had none."
  },
  {
   "property": "C129",
   "status": "partial",
   "theorems": [
    "C129_putmask_partial",
    "C129_left",
    "C129_mask_refuted",
    "C129_values_refuted",
    "C129_values_refused"
   ],
   "note": "Proved for masks and values without gaps and values that NumPy can convert. Refuted: masks with gaps are misread; values that cannot be converted lead to a null pointer."
  },
  {
   "property": "C130",
   "status": "partial",
   "theorems": [
    "C130_reverse_partial",
    "C130_safe_partial",
    "C130_refused",
    "C130_gaps_refuted"
   ],
   "note": "Proved for arrays without gaps. Refuted: an array with gaps is read as if it had none."
  },
  {
   "property": "C131",
   "status": "partial",
   "theorems": [
    "C131_reindex_partial",
    "C131_refused",
    "C131_short_refuted",
    "C131_range_refuted",
    "C131_gaps_refuted"
   ],
   "note": "Proved for arrays of signed integers without gaps and ends that ascend within the rows. Refuted: lists of ends of different lengths, ends behind the rows, gaps."
  },
  {
   "property": "C132",
   "status": "partial",
   "theorems": [
    "C132_sum",
    "C132_fancy_partial",
    "C132_refused",
    "C132_gaps_refuted"
   ],
   "note": "BooleanSum: every stride. BooleanToFancy: masks without gaps; refuted with gaps."
  },
  {
   "property": "C133",
   "status": "partial",
   "theorems": [
    "C133_index_partial",
    "C133_refused",
    "C133_gaps_refuted"
   ],
   "note": "Proved but for values with gaps of an item size other than 1, 2, 4 and 8 under a mask without gaps, which write behind the result (refuted)."
  },
  {
   "property": "C134",
   "status": "partial",
   "theorems": [
    "C134_fixup_partial",
    "C134_refused",
    "C134_match_refused",
    "C134_first_refused",
    "C134_range_refuted",
    "C134_gaps_refuted"
   ],
   "note": "Proved for arrays whose elements lie one after the other, category numbers within range and base offsets that are not negative. Refuted: category numbers that are too large (C134_range_refuted), arrays with gaps (C134_gaps_refuted)."
  },
  {
   "property": "C135",
   "status": "partial",
   "theorems": [
    "C135_get_partial",
    "C135_mask_partial",
    "C135_refused",
    "C135_empty",
    "C135_unsigned_refuted",
    "C135_strings_refuted",
    "C135_gaps_refuted"
   ],
   "note": "Proved for signed indexes, unsigned indexes of which the upper half is not used and item sizes 1, 2, 4, 8, 16, and with threads for values without gaps; masks as in C133. Refuted: unsigned indexes (C135_unsigned_refuted), unsigned indexes into strings (C135_strings_refuted), values with gaps when there are threads (C135_gaps_refuted)."
  },
  {
   "property": "C136",
   "status": "partial",
   "theorems": [
    "C136_interp_partial",
    "C136_refused",
    "C136_types_refused",
    "C136_gaps_refuted",
    "C136_beyond_refuted"
   ],
   "note": "Proved in exact arithmetic for values without gaps, rows of increasing points and values that are not above the last point of the last row. Refuted: values above the last point (C136_beyond_refuted), values with gaps (C136_gaps_refuted)."
  },
  {
   "property": "C137",
   "status": "partial",
   "theorems": [
    "C137_merge_partial",
    "C137_refused",
    "C137_floats_refuted",
    "C137_keys_refuted",
    "C137_read_refuted",
    "C137_types_refuted",
    "C137_datetime_refuted"
   ],
   "note": "Proved for int32 and int64 times with keys of the same width, arrays without gaps, second tables with one key and at least as many rows as the first. Refuted: several keys (C137_keys_refuted), fewer rows (C137_read_refuted), floats (C137_floats_refuted), keys of another width (C137_types_refuted), datetimes (C137_datetime_refuted)."
  }
 ]
}