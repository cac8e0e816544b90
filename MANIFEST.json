{"claims": [
{"property": "C01", "status": "proved", "theorems": ["C01_getitem_range", "C01_in_bounds", "C01_list_range_count", "C01_list_range", "C01_regular_range", "C01_huge_step_refuted"], "note": "The list kernels are proved for steps that keep the loop counter inside int64; C01_huge_step_refuted shows that it overflows for a step near 2^63."},
{"property": "C02", "status": "proved", "theorems": ["C02_getitem_at", "C02_index_cases", "C02_record_field"], "note": ""},
{"property": "C03", "status": "proved", "theorems": ["C03_getitem_range", "C03_getitem_range_nowrap"], "note": ""},
{"property": "C04", "status": "proved", "theorems": ["C04_carry", "C04_carry_out_of_range", "C04_carry_unchecked_refuted"], "note": "Out-of-range entries raise for list, indexed and byte-masked nodes; C04_carry_unchecked_refuted shows NumpyArray and UnionArray read out of bounds instead."},
{"property": "C05", "status": "proved", "theorems": ["C05_validity_check_safe", "C05_valid_to_list", "C05_valid_safe", "C05_validity_complete"], "note": "Parameters (strings, categoricals) and identities are not modelled."},
{"property": "C06", "status": "proved", "theorems": ["C06_toListOffsetArray64", "C06_compact_offsets64", "C06_broadcast_tooffsets64_list", "C06_broadcast_tooffsets64_regular", "C06_broadcast_tooffsets64_one", "C06_broadcast_nonmonotonic_refuted", "C06_toRegularArray", "C06_toRegularArray_irregular", "C06_toRegularArray_empty_refuted"], "note": "toRegularArray needs the offsets of empty lists inside the content; C06_toRegularArray_empty_refuted shows why."},
{"property": "C07", "status": "proved", "theorems": ["C07_missing_is_none", "C07_toIndexedOptionArray64", "C07_toByteMaskedArray", "C07_bytemask", "C07_project", "C07_project_mask"], "note": ""},
{"property": "C08", "status": "proved", "theorems": ["C08_simplify_optiontype", "C08_simplify_removes_level", "C08_three_levels_refuted"], "note": "One level per call; C08_three_levels_refuted shows deeper nesting stays."},
{"property": "C09", "status": "partial", "theorems": ["C09_flatten_axis1", "C09_flatten_partial", "C09_flatten_length", "C09_out_of_range", "C09_axis0", "C09_negative_axis", "C09_offsets_refuted", "C09_fieldless_refuted", "C09_unknown_refuted"], "note": "Axis 1 is proved for every array of lists. At deeper axes excluded: offsets of empty lists that lie beyond the content, records without fields, and parts of unknown type above the axis; each exclusion has a refutation."},
{"property": "C10", "status": "partial", "theorems": ["C10_num_partial", "C10_num_axis0", "C10_out_of_range", "C10_negative_axis", "C10_offset_refuted"], "note": "Union arrays are not covered. Offsets of the ListOffsetArrays above the counted lists have to start at 0; C10_offset_refuted shows that otherwise the counts come from the wrong lists."},
{"property": "C11", "status": "proved", "theorems": ["C11_local_index", "C11_local_index_axis0", "C11_out_of_range", "C11_negative_axis", "C11_negative_axis_refuted"], "note": ""},
{"property": "C12", "status": "proved", "theorems": ["C12_every_tuple", "C12_lexicographic", "C12_once", "C12_elements", "C12_size", "C12_combinations", "C12_combinations_axis0", "C12_n_positive", "C12_out_of_range", "C12_regular_refuted"], "note": "RegularArrays with 0 < size < n and no replacement are excluded; C12_regular_refuted shows that their scratch buffers overflow. The output size is computed with unbounded integers."},
{"property": "C13", "status": "partial", "theorems": ["C13_padded_length", "C13_padded_elements", "C13_pad_partial", "C13_out_of_range", "C13_pad_axis0", "C13_negative_axis", "C13_unmasked_clip_refuted", "C13_empty_refuted", "C13_untrimmed_refuted"], "note": "Union arrays below the first level are not covered. Record fields must be as long as the record (C13_untrimmed_refuted) and, without clip, no ListArray may be reached without lists (C13_empty_refuted: it is read out of bounds). UnmaskedArray ignores clip at axis 0 (C13_unmasked_clip_refuted)."},
{"property": "C14", "status": "partial", "theorems": ["C14_mergeable", "C14_mergemany", "C14_mergemany_succeeds", "C14_numbers", "C14_merge_as_union", "C14_option_then_indexed_refuted", "C14_untrimmed_record_refuted", "C14_fieldless_record_refuted", "C14_narrow_index_refuted"], "note": "Concatenation is proved for arrays of every class that are 'tidy' (record fields trimmed to the record's length, at least one field, no union nested directly in a union) with IndexedArrays and option types not mixed; numeric promotion is abstracted to three dtypes (bool, integer, real). The excluded cases are shown to go wrong in the code by the _refuted theorems."},
{"property": "C15", "status": "partial", "theorems": ["C15_reduce_partial", "C15_lists_of_numbers", "C15_outer_axis_partial", "C15_columns_of_numbers", "C15_middle_axis_refuted", "C15_outer_axis_refuted", "C15_all_axes_refuted", "C15_sliced_options_refuted", "C15_records_of_lists_refuted", "C15_regular_refuted"], "note": "Innermost axis (axis=-1 or depth-1) at any depth, and the outer axis (0 or -2) of two-level arrays in every layout, all reducers without positions, all node classes but unions; the middle and outer axes of deeper arrays are wrong in the code (refuted); mixed depths and unions not covered."},
{"property": "C16", "status": "partial", "theorems": ["C16_positions_partial", "C16_outer_axis_partial", "C16_first_smallest", "C16_first_largest", "C16_sliced_refuted", "C16_indexed_refuted", "C16_missing_lists_refuted"], "note": "Innermost axis with list offsets starting at zero, and axis 0 of lists of (possibly missing) numbers with any offsets; sliced arrays on the innermost axis, indexed arrays inside option types and axis 0 with missing lists are wrong in the code (refuted)."},
{"property": "C17", "status": "partial", "theorems": ["C17_sort_partial", "C17_argsort_partial", "C17_lists_of_integers", "C17_kernel", "C17_sliced_refuted", "C17_flat_option_refuted", "C17_argsort_missing_refuted", "C17_missing_lists_refuted", "C17_records_refuted", "C17_all_layouts_refuted"], "note": "Innermost axis (the default), lists of any depth in the three list classes, numbers possibly missing for sort; offsets starting at 0; both orders, stable or not (the quicksort below 2^48 elements per list). The remaining layouts are refuted: sliced lists, missing values at top level, missing lists, records, argsort with missing values."},
{"property": "C18", "status": "partial", "theorems": ["C18_simplify_uniontype", "C18_no_merge_is_identity", "C18_all_mergeable"], "note": "Proved for unions of any depth of direct nesting allowed by the code (one level, as the code does) over tidy contents (see C14), with every element kept up to numeric promotion; exact identity without merging; contents all mergeable leave no union. The hypotheses are those of C14."},
{"property": "C19", "status": "partial", "theorems": ["C19_field", "C19_range", "C19_at", "C19_carry", "C19_field_first", "C19_slice_partial", "C19_deep_slice_refuted", "C19_absent_key_refuted", "C19_fields", "C19_fields_field", "C19_fields_range", "C19_fields_carry", "C19_fields_refused", "C19_fields_absent_key_refuted"], "note": "Fields, and selections of several fields (C19_fields...), commute with ranges, single positions and lists of positions for all union-free arrays; single fields with whole slices for those of C20_getitem_partial. C19_deep_slice_refuted and C19_absent_key_refuted are bugs in the code; C19_fields_absent_key_refuted is the second one for selections."},
{"property": "C20", "status": "partial", "theorems": ["C20_getitem_partial", "C20_column", "C20_subslices", "C20_positions", "C20_jagged_partial", "C20_empty_index_refuted", "C20_three_arrays_refuted", "C20_records_refuted", "C20_missing_between_arrays_refuted", "C20_long_field_refuted"], "note": "Integers, ranges, one-dimensional index arrays, new axes, a final field, and jagged arrays of integers, over lists, options and records without unions. Refuted: empty index arrays, three index arrays after a range, several items inside records, index arrays around missing lists, record fields longer than the record array."},
{"property": "C21", "status": "proved", "theorems": ["C21_fillna", "C21_fillna_outer", "C21_nested_refuted", "C21_one_value"], "note": "fillna on every class, for arrays without an option inside another option; C21_fillna_outer covers the outermost level of all others and C21_nested_refuted shows that inner levels are left alone. Numbers may be converted to a common type (promotes)."},
{"property": "C22", "status": "proved", "theorems": ["C22_snapshot_shows_data", "C22_snapshot_at_any_time", "C22_successful_calls_append_data", "C22_length"], "note": "For every sequence of calls that raised no error (null, boolean, integer, real, lists, tuples, records without names), at any moment, with non-negative tuple sizes and indices and at most 122 different tuple sizes; strings, complex numbers, datetimes and append() of existing arrays are not modelled."},
{"property": "C23", "status": "partial", "theorems": ["C23_misnested_calls_raise", "C23_calls_not_well_nested_raise", "C23_well_nested_calls_succeed_partial", "C23_without_tuples", "C23_nested_tuples_refuted", "C23_negative_index_refuted", "C23_negative_size_refuted", "C23_many_types_refuted"], "note": "Misnested calls raise in every reachable state; well nested calls succeed when each index is in the bounds of every open tuple. Refuted otherwise: the bounds of an outer tuple are applied to the inner index, negative indices and sizes and more than 127 types at one place are undefined behaviour."},
{"property": "C24", "status": "proved", "theorems": ["C24_snapshots_do_not_change", "C24_snapshots_show_what_was_appended", "C24_memory_and_lists", "C24_buffer_snapshots_do_not_change", "C24_buffer_snapshots_are_what_was_appended", "C24_shortened_buffer_refuted"], "note": "For every history of calls, clear() and snapshot() on an ArrayBuilder in memory (nodes with their growable buffers on one heap). A history ends with the first call that raises. Nodes not modelled: as in C22."},
{"property": "C25", "status": "partial", "theorems": ["C25_clear_restarts_partial", "C25_cleared_length", "C25_reals_stay", "C25_record_refuted", "C25_same_record_refuted", "C25_null_after_tuple_refuted", "C25_tuple_refuted", "C25_open_list_refuted"], "note": "Proved for histories with any number of clears whose cleared data have no reals, tuples and records and nothing open; refuted for records, tuples and open lists."},
{"property": "C26", "status": "proved", "theorems": ["C26_buffers_keep_their_items", "C26_any_factor_above_one", "C26_unchecked_options_refuted"], "note": "For every program over any number of buffers with initial >= 1 and a resize factor above 1; refuted for initial 0 or factor 1, which the code does not reject. Sizes are counted in items and do not overflow."},
{"property": "C27", "status": "partial", "theorems": ["C27_executions_partial", "C27_programs_partial", "C27_sizes_partial", "C27_exit_in_loop_refuted", "C27_negative_rewind_refuted", "C27_negative_count_refuted", "C27_call_when_full_refuted"], "note": "For every source text that compiles, every history of begin/run/step/resume/call/reset and stack assignments: no access outside the data stack, call stack, loop stack, variables, inputs, outputs or bytecode, provided the three unguarded instructions (exit while a do-loop is under way, rewind by a negative number, repeated read of a negative count) are not executed that way. For sources without these words there is no condition on the execution. Each exception is refuted with a program. Also assumed: fewer than 2^31 words in the source, recursion depth at least 1, call() with room in the call stack (otherwise refuted)."},
{"property": "C28", "status": "proved", "theorems": ["C28_pauses_change_nothing", "C28_resuming_reaches_the_end"], "note": "For all programs (any bytecode) and inputs, both ways; the program without the pauses is the machine in which pause does nothing, and the results agree in everything but perhaps the instruction count."},
{"property": "C29", "status": "partial", "theorems": ["C29_stepping_is_running_partial", "C29_run_is_stepped_partial", "C29_loop_refuted", "C29_exit_refuted"], "note": "Proved, both ways, for executions without do and exit. False with them: C29_loop_refuted (the index never advances, the program never ends) and C29_exit_refuted."},
{"property": "C30", "status": "partial", "theorems": ["C30_stopped_machine_stays", "C30_begin_forgets", "C30_errors_sticky_partial", "C30_errors_of_run_sticky_partial", "C30_begin_clears", "C30_halt_not_sticky_refuted", "C30_is_done_blocks_call"], "note": "Proved for all programs (any bytecode), histories and errors but halt: C30_halt_not_sticky_refuted shows that after halt the next call reports not_ready."},
{"property": "C31", "status": "partial", "theorems": ["C31_programs_compute", "C31_word_computes", "C31_underflow_reported", "C31_overflow_reported", "C31_zero_divisor_reported", "C31_overflow_undefined", "C31_mod_of_large_numbers_refuted", "C31_mod_of_least_refuted", "C31_rshift_of_negative_refuted", "C31_shift_amount_refuted"], "note": "Programs of these words compute what standard Forth says whenever every result is a number of the stack type. Refuted for: mod of numbers whose sum with the divisor overflows, the least number mod -1, rshift of a negative number (arithmetic, not logical) and shift amounts outside the width (undefined). Overflowing results are undefined in the C++."},
{"property": "C32", "status": "partial", "theorems": ["C32_varint_to_stack", "C32_varint_to_output", "C32_varint_covers", "C32_varint_unique", "C32_varint_too_big", "C32_varint_truncated", "C32_nbit_to_stack", "C32_nbit_to_output", "C32_nbit_words", "C32_integers_to_stack", "C32_integers_to_output", "C32_wide_integers_to_stack_refuted", "C32_unsigned_to_stack_refuted", "C32_zigzag_to_wide_output_refuted", "C32_wide_fields_refuted", "C32_ten_bytes_refuted"], "note": "varint and zigzag (1 to 9 bytes), N-bit fields of 1 to 30 bits and fixed-size integers in both byte orders decode what was encoded, to the stack and to an output. Not so, each with a _refuted theorem: 64-bit and unsigned 32-bit integers to the stack keep 32 bits; zigzag to an int64 output keeps 32 bits on the 32-bit machine; fields of 31 bits and more are undefined; ten-byte encodings of 64-bit integers are refused. Floating-point items are opaque."},
{"property": "C33", "status": "partial", "theorems": ["C33_do_loop", "C33_do_step_loop", "C33_indices_partial", "C33_exit_returns_partial", "C33_wide_index_refuted", "C33_callers_loop_refuted", "C33_own_loop_refuted"], "note": "do...loop and do...+loop run the body for every index in order, for any bytecode, bounds, nesting and loops under way; i, j, k push indices of 32 bits (C33_wide_index_refuted beyond). exit returns from the word when no loop is under way; with a loop of the caller or of the word itself it is wrong (refuted: the caller's loop is forgotten, or the own loop stays on the loop stack, and memory is misread)."},
{"property": "C34", "status": "partial", "theorems": ["C34_getitem_at", "C34_getitem_range", "C34_getitem_range_nostep", "C34_zero_step", "C34_repartition_partial", "C34_wrong_length", "C34_trailing_empty_refuted"], "note": "Elements and ranges for all partitionings, starts, stops and steps. Repartitioning for partitions of mergeable types without unions and new stops whose only partition ending at the end of the array is the last one; further empty partitions at the end are refuted (out-of-bounds read)."},
{"property": "C35", "status": "partial", "theorems": ["C35_same_values_partial", "C35_inconsistent_generator_raises", "C35_longer_than_declared_refuted", "C35_bitmasked_refuted", "C35_inferred_form_refuted", "C35_union_field_refuted"], "note": "Every history of ranges, slices, index arrays, fields, carries, lengths and element accesses, for every cache behaviour, over arrays without BitMaskedArray and UnionArray inside. Generators that raise or give a short array or another form make every read raise. Refuted: longer generated arrays, BitMasked fields, inferred forms, union fields."},
{"property": "C36", "status": "partial", "theorems": ["C36_identities_partial", "C36_slices_keep_identities_partial", "C36_one_identity_refuted", "C36_deep_copy_refuted", "C36_masked_in_list_refuted", "C36_regular_leftover_refuted", "C36_offsets_beyond_refuted", "C36_longer_field_refuted", "C36_regular_range_refuted"], "note": "setidentities on every layout of the model: rows are labelled exactly with the ways to reach them (row of the outermost array, position in each list, fields on the way), missing only below shared rows. Any history of ranges and selections keeps the labels. Left out, each with a _refuted theorem: masked arrays inside lists, left-over rows of regular arrays, offsets outside the content, fields longer than their record, ranges of regular arrays (straight), Identities::getitem_at and deep_copy."},
{"property": "C37", "status": "partial", "theorems": ["C37_values_have_the_type", "C37_range_keeps_type", "C37_selection_keeps_type", "C37_element_has_type", "C37_equal_is_an_equivalence_partial", "C37_equal_types_have_the_same_values_partial", "C37_equal_refuted", "C37_empty", "C37_simplify_keeps_type_partial", "C37_simplify_keeps_type_refuted", "C37_depth_partial", "C37_depth_refuted", "C37_minmax_depth"], "note": "All layouts of the model, without parameters. Values, slices, elements, empty arrays and least/greatest depths are proved outright. Comparison of types is proved for records whose keys are words (refuted otherwise: the key \"0\" is looked up as a position). Simplifying options is proved but for UnmaskedArray of IndexedArray (refuted: the option is lost). Depth is proved where the alternatives of unions agree (refuted otherwise)."},
{"property": "C38", "status": "partial", "theorems": ["C38_writes_the_values_partial", "C38_writes_the_values_refuted_unsigned", "C38_writes_the_values_refuted_nan", "C38_reads_the_documents_partial", "C38_reads_the_documents_refuted_uint64", "C38_rejected_text_raises_partial", "C38_rejected_text_raises_refuted", "C38_key_twice_raises", "C38_round_trip_partial", "C38_special_numbers_come_back", "C38_round_trip_refuted_strings", "C38_round_trip_refuted_numbers", "C38_round_trip_refuted_records"], "note": "All layouts of the model, texts as rapidjson's events. Writing is proved for integers in int64 range and a string given for each non-finite number (otherwise refuted). Reading is proved for documents with integers in int64 range and no strings but the three (integers from 2^63 refuted; other strings not modelled). Rejected texts raise, but for a text cut within the first token of a document (refuted). The round trip is proved for arrays without unions whose records have different keys (refuted for unions, and for equal strings)."},
{"property": "C39", "status": "partial", "theorems": ["C39_item", "C39_range", "C39_basic_slice", "C39_contiguous", "C39_rows", "C39_index_arrays_partial", "C39_separated_refused", "C39_nested_partial", "C39_index_array_3d_refuted", "C39_empty_broadcast_refuted", "C39_nested_empty_refuted", "C39_one_ellipsis_refuted"], "note": "Items, ranges, slices without index arrays, contiguous copies and rows are proved outright. Slices with index arrays are proved for index arrays of one or two dimensions (three are refuted: the kernel that flattens them is wrong) when no length 1 is broadcast to 0 (refuted). Nested lists are proved when the dimensions after the second are not 0 (refuted otherwise). Slices with missing values, jagged arrays and fields are not modelled."},
{"property": "C40", "status": "partial", "theorems": ["C40_flat_partial", "C40_lists_partial", "C40_missing_lists_partial", "C40_mask", "C40_mask_lists", "C40_strided_mask_refuted", "C40_inner_missing_lists_refuted", "C40_missing_in_both_refuted", "C40_nested_missing_refuted", "C40_missing_deep_lists_refuted", "C40_empty_offsets_refuted", "C40_no_fields_refuted"], "note": "Slices without fixed-size dimensions, records and unions. Flat slices are proved for every array; lists of any depth when only integers or booleans are missing; missing lists at the outermost level above one level of lists, for arrays not longer than the slice. Refuted: masks that are not contiguous, missing lists below the outermost level, missing lists above lists of lists, missing lists in the array together with missing positions in the slice, missing values of two kinds around each other, empty lists with offsets out of range, records without fields."},
{"property": "C41", "status": "partial", "theorems": ["C41_reads", "C41_other_forms", "C41_strided_refuted", "C41_truncated_refuted", "C41_negative_length_refuted", "C41_no_offsets_refuted"], "note": "Well-formed contiguous data is read exactly; other forms raise. Refuted: data with a stride is read as if contiguous, truncated data is read beyond its end, negative lengths give an invalid array, no offsets at all write out of bounds."},
{"property": "C42", "status": "partial", "theorems": ["C42_round_trip_partial", "C42_no_confusion", "C42_reading_is_defined_partial", "C42_generic_list_refuted", "C42_round_trip_refuted", "C42_units_refuted", "C42_parameters_refuted", "C42_width_names_refuted", "C42_equal_is_the_same_partial", "C42_equal_is_an_equivalence_partial", "C42_equal_refuted"], "note": "Proper Forms come back identical; reading is defined except for the class \"ListOffsetArray\"; == is exactly sameness and an equivalence for records without repeated keys. Refuted: the class \"ListOffsetArray\" reads unassigned flags, sizes of 2^31 and other byte orders are written but refused, units of datetimes are lost, real parameters become integers and large integers cannot be written, beginnings of width names are accepted, records with repeated keys do not equal themselves. The text itself (rapidjson) is not modelled."},
{"property": "C43", "status": "partial", "theorems": ["C43_snapshot_partial", "C43_list_array_refuted", "C43_lists_in_records_refuted", "C43_records_in_records_refuted", "C43_strings_in_records_refuted", "C43_wrapped_lists_refuted", "C43_two_options_refuted", "C43_optional_lists_refuted", "C43_regular_in_lists_refuted", "C43_refused_refuted", "C43_undefined_refuted"], "note": "Proved for Forms of 64-bit integers, 64-bit floating-point numbers and booleans, lists with offsets to any depth, and records of such numbers or of such numbers and single lists, with at most 300 nodes, distinct keys that are words, and fewer than 2^31 values per level: text written, tokenized, compiled, run and read back. Refuted: lists with starts and stops cannot be made at all; lists of lists, strings, and records before lists as fields of records are refused; a mask or option around a list loses the first list; two options in a Form cannot be made; optional lists in lists are refused; regular lists in lists give an invalid array; after a refusal calls return although the machine has stopped; end_list on a record without an open list, and initial sizes below 8, are undefined. Not modelled: unions, complex and other number types, clear, append."},
{"property": "C44", "status": "partial", "theorems": ["C44_unique_numbers", "C44_unique_integers", "C44_is_unique_partial", "C44_lists_partial", "C44_last_list_refuted", "C44_later_lists_refuted", "C44_empty_list_refuted", "C44_nested_lists_refuted", "C44_records_partial", "C44_records_never_false_refuted", "C44_records_refuted", "C44_sliced_index_refuted", "C44_unique_view", "C44_strided_refuted", "C44_claim_refuted"], "note": "Proved: unique of numbers; is_unique of numbers, also behind any number of indexes with or without missing values; lists of numbers are only reported as repeated when two of them hold the same numbers (in any order, as the library's tests have it); records of two or more fields of numbers reported as unique are different. Refuted: the last list is never compared; a repeated list is forgotten when two later lists of the same length differ; a single empty list of unknown type is reported as repeated; lists of lists read outside of their buffers; repeated records are never reported; an index that is a view loses its first elements; a strided view is read as if it were contiguous. Not modelled: strings, virtual arrays; masks and unions are refused by the code."},
{"property": "C45", "status": "partial", "theorems": ["C45_values_astype_partial", "C45_refused", "C45_negative_refuted", "C45_unreachable_refuted", "C45_claim_refuted", "C45_dimensions_refuted"], "note": "Proved for every layout, with bool, all integer types and float64: structure and type are kept and every number is converted, if the buffers hold numbers that can be converted (floating-point numbers that fit the integer type, no negative numbers for bool); unsupported types are refused. Refuted: negative numbers become False; a number outside of all lists that does not fit makes the conversion undefined; with two or more dimensions only as many numbers are converted as the first dimension is long, and the result reads past its buffer. Not modelled: strings (kept by the code), float32, complex numbers, dates."},
{"property": "C46", "status": "partial", "theorems": ["C46_copy_partial", "C46_slice_refuted", "C46_claim_refuted"], "note": "Proved for every layout, if no NumpyArray in it is a contiguous slice that starts after the beginning of its buffer: the copy has the same elements, in every memory with the new buffers, and the original in every memory with the old ones. Refuted for such slices, all of them: the copy keeps the offset although its buffer starts at the slice, and reads past its end. Not modelled: several dimensions, identities, parameters."},
{"property": "C47", "status": "partial", "theorems": ["C47_at_most", "C47_nbytes_partial", "C47_shared", "C47_union_refuted", "C47_claim_refuted", "C47_starts_stops_refuted", "C47_broadcast_refuted"], "note": "Proved exact for arrays without unions whose parts of the same buffer are nested, and never too much for every layout without strides of zero. Refuted for unions, whose tags and index are never counted, for strides of zero, and (as documented) for starts and stops that overlap without being nested. Not modelled: identities, several dimensions, buffers read with elements of different sizes."},
{"property": "C48", "status": "partial", "theorems": ["C48_key", "C48_at", "C48_refused", "C48_read_back_partial", "C48_others", "C48_existing_key_refuted", "C48_claim_refuted", "C48_number_refuted"], "note": "Proved for names and positions: every record gets exactly the new field; wrong lengths and negative positions are refused; other fields stay. Reading back is proved for names that were not there (C48_read_back_partial) and refuted for all names that were: the old field is read. A field at position n takes the name n and hides one of that name. Not modelled: parameters, identities, caches."},
{"property": "C49", "status": "partial", "theorems": ["C49_names", "C49_union", "C49_readable_partial", "C49_haskey", "C49_haskey_reads", "C49_union_haskey", "C49_haskey_refuted", "C49_claim_refuted"], "note": "Proved for all arrays: the names listed are those of the type; a union lists what all its contents list; haskey is true for all that is listed or can be read, and outside unions for exactly what can be read. That listed names can be read is proved without unions above the records (C49_readable_partial). Refuted: haskey is true for every text that begins with the number of a field of a record, though it is not listed."},
{"property": "C50", "status": "partial", "theorems": ["C50_numfields", "C50_numfields_all", "C50_key_partial", "C50_fieldindex", "C50_inverse", "C50_haskey", "C50_refused", "C50_key_refuted", "C50_claim_refuted"], "note": "Proved for all valid arrays of records below lists and missing values: the number of fields, the names at all positions from zero on, the positions of all names, and that they undo each other; a name has a position exactly if haskey is true; everything else refuses both. Refuted: for positions below zero key returns the number itself as a name in tuples (C50_key_refuted), so C50_key_partial is for positions from zero on."}
]}
