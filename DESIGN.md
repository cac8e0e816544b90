# Formal model of awkward-1.0 in Rocq (Coq 8.16.1)

The code under study is the C++ in `/repo` (`src/cpu-kernels`, `src/libawkward`).  It is read as text only; nothing is compiled
or run.  The theorems are about the Gallina model in `rocq/theories`, and the tie to the code is the citation (file and lines) on
every definition.

## How to read the files

| kind | files | contents |
|------|-------|----------|
| vocabulary | `Base.v` | outcomes `Ok / Err / UB`, buffers, loops |
| kernels | `K*.v` | the loops of `src/cpu-kernels/*.cpp` over bounds-checked buffers (`list Z`) |
| array methods | `Content.v`, `Core.v`, `Convert.v`, `Option.v`, `Axis.v`, `Merge.v`, ... | one function per C++ method, by case over the class |
| builder | `Builder.v`, `Growable.v` | `src/libawkward/builder` |
| Forth | `Forth.v`, `ForthParse.v` | `src/libawkward/forth`: the machine with one transition per instruction, and the compiler |
| partitions, virtual arrays, identities, types | `Partition.v`, `Virtual.v`, `Identities.v`, `Types.v` | `src/libawkward/{partition,virtual,type}`, `VirtualArray.cpp`, `Identities.cpp` |
| specifications | `Spec*.v` | what the operations mean, without the model's helpers |
| proofs | `P*.v`, `*Lemmas.v` | lemmas |
| theorems | `ThmCxx.v` | the theorems of property Cxx, each followed by `Print Assumptions` and by an `Example` that meets its hypotheses |
| tests | `ForthTests.v` | expectations of the project's own Forth tests evaluated in the model |

`UB` (undefined behaviour) is an outcome of its own: a read or write outside of a buffer, an over-large shift and so on evaluate
to `UB`, never to a default value.  A theorem whose conclusion is `... = Ok r` therefore also says "no access outside of memory,
and no error".  Fresh memory is filled with a marker value; the kernels are proved for arbitrary contents of fresh memory.

The meaning of an array is `den : content -> option (list value)` (`SpecArray.v`), a short denotation written without any of the
model's functions.  Operations are specified on lists of values, and theorems say `den (op a) = spec_op (den a)`.

Properties that the code violates are recorded as `..._refuted` theorems with a concrete array or program, and the positive
theorem then excludes exactly what is needed; if that narrows the English property, it is named `..._partial`.

## Property by property

### C01 Range slices follow Python slice semantics — proved

* model: `KRange.v` (kernel-utils.cpp regularize_rangeslice, the range kernels)
* specification: `SpecSlice.v`: Python slices
* proof: case analysis and linear arithmetic; loop invariants
* theorems (`ThmC01.v`): `C01_getitem_range`, `C01_in_bounds`, `C01_list_range_count`, `C01_list_range`, `C01_regular_range`, `C01_huge_step_refuted`
* scope: The list kernels are proved for steps that keep the loop counter inside int64; C01_huge_step_refuted shows that it overflows for a step near 2^63.

### C02 Integer indexing: right element or an error, never out of bounds — proved

* model: `Core.v` getitem_at of every class
* specification: `SpecArray.v` (den)
* proof: induction on layouts
* theorems (`ThmC02.v`): `C02_getitem_at`, `C02_index_cases`, `C02_record_field`

### C03 Slicing a range gives the sub-list — proved

* model: `Core.v` getitem_range of every class
* specification: `SpecArray.v`, `SpecSlice.v`
* proof: induction on layouts
* theorems (`ThmC03.v`): `C03_getitem_range`, `C03_getitem_range_nowrap`

### C04 Taking by an integer index array picks those elements — proved

* model: `KCore.v`, `Core.v` carry of every class
* specification: `SpecArray.v`
* proof: induction on layouts, gather loops
* theorems (`ThmC04.v`): `C04_carry`, `C04_carry_out_of_range`, `C04_carry_unchecked_refuted`
* scope: Out-of-range entries raise for list, indexed and byte-masked nodes; C04_carry_unchecked_refuted shows NumpyArray and UnionArray read out of bounds instead.

### C05 A validated array is memory safe — proved

* model: `Core.v` validityerror of every class and its kernels
* specification: `SpecValid.v`
* proof: induction on layouts, both directions
* theorems (`ThmC05.v`): `C05_validity_check_safe`, `C05_valid_to_list`, `C05_valid_safe`, `C05_validity_complete`
* scope: Parameters (strings, categoricals) and identities are not modelled.

### C06 Changing list representation does not change values — proved

* model: `KConvert.v`, `Convert.v`
* specification: `SpecConvert.v`
* proof: loop invariants
* theorems (`ThmC06.v`): `C06_toListOffsetArray64`, `C06_compact_offsets64`, `C06_broadcast_tooffsets64_list`, `C06_broadcast_tooffsets64_regular`, `C06_broadcast_tooffsets64_one`, `C06_broadcast_nonmonotonic_refuted`, `C06_toRegularArray`, `C06_toRegularArray_irregular`, `C06_toRegularArray_empty_refuted`
* scope: toRegularArray needs the offsets of empty lists inside the content; C06_toRegularArray_empty_refuted shows why.

### C07 Missing-value representations are interchangeable — proved

* model: `KOption.v`, `Option.v`
* specification: `SpecOption.v`
* proof: loop invariants, bit arithmetic
* theorems (`ThmC07.v`): `C07_missing_is_none`, `C07_toIndexedOptionArray64`, `C07_toByteMaskedArray`, `C07_bytemask`, `C07_project`, `C07_project_mask`

### C08 Simplifying nested option/indexed types preserves values — proved

* model: `Option.v` simplify_optiontype
* specification: `SpecOption.v`
* proof: loop invariants
* theorems (`ThmC08.v`): `C08_simplify_optiontype`, `C08_simplify_removes_level`, `C08_three_levels_refuted`
* scope: One level per call; C08_three_levels_refuted shows deeper nesting stays.

### C09 Flattening concatenates — partial

* model: `Flatten.v`
* specification: `SpecFlatten.v`
* proof: induction on fuel and layouts
* theorems (`ThmC09.v`): `C09_flatten_axis1`, `C09_flatten_partial`, `C09_flatten_length`, `C09_out_of_range`, `C09_axis0`, `C09_negative_axis`, `C09_offsets_refuted`, `C09_fieldless_refuted`, `C09_unknown_refuted`
* scope: Axis 1 is proved for every array of lists. At deeper axes excluded: offsets of empty lists that lie beyond the content, records without fields, and parts of unknown type above the axis; each exclusion has a refutation.

### C10 num counts list lengths — partial

* model: `Num.v`
* specification: `SpecNum.v`, `SpecAxis.v`
* proof: induction on fuel and layouts
* theorems (`ThmC10.v`): `C10_num_partial`, `C10_num_axis0`, `C10_out_of_range`, `C10_negative_axis`, `C10_offset_refuted`
* scope: Union arrays are not covered. Offsets of the ListOffsetArrays above the counted lists have to start at 0; C10_offset_refuted shows that otherwise the counts come from the wrong lists.

### C11 Local index counts from zero in each list — proved

* model: `KAxis.v`, `Axis.v`
* specification: `SpecAxis.v`
* proof: induction on fuel and layouts
* theorems (`ThmC11.v`): `C11_local_index`, `C11_local_index_axis0`, `C11_out_of_range`, `C11_negative_axis`, `C11_negative_axis_refuted`

### C12 Combinations enumerates every n-tuple exactly once, in lexicographic order — proved

* model: `KCombinations.v`, `Combinations.v`
* specification: `SpecCombinations.v`
* proof: the recursive kernel equals lexicographic enumeration; counts by induction (binomials)
* theorems (`ThmC12.v`): `C12_every_tuple`, `C12_lexicographic`, `C12_once`, `C12_elements`, `C12_size`, `C12_combinations`, `C12_combinations_axis0`, `C12_n_positive`, `C12_out_of_range`, `C12_regular_refuted`
* scope: RegularArrays with 0 < size < n and no replacement are excluded; C12_regular_refuted shows that their scratch buffers overflow. The output size is computed with unbounded integers.

### C13 Padding extends with missing values and clipping truncates — partial

* model: `KPad.v`, `Pad.v`
* specification: `SpecPad.v`
* proof: induction on fuel and layouts
* theorems (`ThmC13.v`): `C13_padded_length`, `C13_padded_elements`, `C13_pad_partial`, `C13_out_of_range`, `C13_pad_axis0`, `C13_negative_axis`, `C13_unmasked_clip_refuted`, `C13_empty_refuted`, `C13_untrimmed_refuted`
* scope: Union arrays below the first level are not covered. Record fields must be as long as the record (C13_untrimmed_refuted) and, without clip, no ListArray may be reached without lists (C13_empty_refuted: it is read out of bounds). UnmaskedArray ignores clip at axis 0 (C13_unmasked_clip_refuted).

### C14 Concatenating arrays concatenates their values — partial

* model: `KMerge.v`, `Merge.v`
* specification: `SpecMerge.v`, `SpecForm.v`
* proof: induction on the total size of the arrays
* theorems (`ThmC14.v`): `C14_mergeable`, `C14_mergemany`, `C14_mergemany_succeeds`, `C14_numbers`, `C14_merge_as_union`, `C14_option_then_indexed_refuted`, `C14_untrimmed_record_refuted`, `C14_fieldless_record_refuted`, `C14_narrow_index_refuted`
* scope: Concatenation is proved for arrays of every class that are 'tidy' (record fields trimmed to the record's length, at least one field, no union nested directly in a union) with IndexedArrays and option types not mixed; numeric promotion is abstracted to three dtypes (bool, integer, real). The excluded cases are shown to go wrong in the code by the _refuted theorems.

### C15 Reducers compute the reduction of each list — partial

* model: `KReduce.v`, `Reduce.v`
* specification: `SpecReduce.v`
* proof: loop invariants over parents; induction on layouts; for axis 0 the columns of the lists as runs of the parents
* theorems (`ThmC15.v`): `C15_reduce_partial`, `C15_lists_of_numbers`, `C15_outer_axis_partial`, `C15_columns_of_numbers`, `C15_middle_axis_refuted`, `C15_outer_axis_refuted`, `C15_all_axes_refuted`, `C15_sliced_options_refuted`, `C15_records_of_lists_refuted`, `C15_regular_refuted`
* scope: Innermost axis (axis=-1 or depth-1) at any depth, and the outer axis (0 or -2) of two-level arrays in every layout, all reducers without positions, all node classes but unions; the middle and outer axes of deeper arrays are wrong in the code (refuted); mixed depths and unions not covered.

### C16 argmin/argmax return the first extremal position within the list — partial

* model: `KReduce.v`, `Reduce.v`
* specification: `SpecReduce.v`
* proof: as C15
* theorems (`ThmC16.v`): `C16_positions_partial`, `C16_outer_axis_partial`, `C16_first_smallest`, `C16_first_largest`, `C16_sliced_refuted`, `C16_indexed_refuted`, `C16_missing_lists_refuted`
* scope: Innermost axis with list offsets starting at zero, and axis 0 of lists of (possibly missing) numbers with any offsets; sliced arrays on the innermost axis, indexed arrays inside option types and axis 0 with missing lists are wrong in the code (refuted).

### C17 Sorting gives a sorted permutation of each list — partial

* model: `KSort.v`, `Sort.v`; the in-house quicksort step by step, std::sort and std::stable_sort as any function with their specification
* specification: `SpecSort.v`
* proof: loop invariants
* theorems (`ThmC17.v`): `C17_sort_partial`, `C17_argsort_partial`, `C17_lists_of_integers`, `C17_kernel`, `C17_sliced_refuted`, `C17_flat_option_refuted`, `C17_argsort_missing_refuted`, `C17_missing_lists_refuted`, `C17_records_refuted`, `C17_all_layouts_refuted`
* scope: Innermost axis (the default), lists of any depth in the three list classes, numbers possibly missing for sort; offsets starting at 0; both orders, stable or not (the quicksort below 2^48 elements per list). The remaining layouts are refuted: sliced lists, missing values at top level, missing lists, records, argsort with missing values.

### C18 Simplifying unions preserves values — partial

* model: `Merge.v` simplify_uniontype
* specification: `SpecMerge.v`
* proof: induction over the contents
* theorems (`ThmC18.v`): `C18_simplify_uniontype`, `C18_no_merge_is_identity`, `C18_all_mergeable`
* scope: Proved for unions of any depth of direct nesting allowed by the code (one level, as the code does) over tidy contents (see C14), with every element kept up to numeric promotion; exact identity without merging; contents all mergeable leave no union. The hypotheses are those of C14.

### C19 Field projection commutes with slicing — partial

* model: `Getitem.v`, `Core.v`, `Fields.v`
* specification: `SpecGetitem.v`, `SpecFields.v`
* proof: induction on layouts
* theorems (`ThmC19.v`): `C19_field`, `C19_range`, `C19_at`, `C19_carry`, `C19_field_first`, `C19_slice_partial`, `C19_deep_slice_refuted`, `C19_absent_key_refuted`, `C19_fields`, `C19_fields_field`, `C19_fields_range`, `C19_fields_carry`, `C19_fields_refused`, `C19_fields_absent_key_refuted`
* scope: Fields, and selections of several fields (C19_fields...), commute with ranges, single positions and lists of positions for all union-free arrays; single fields with whole slices for those of C20_getitem_partial. C19_deep_slice_refuted and C19_absent_key_refuted are bugs in the code; C19_fields_absent_key_refuted is the second one for selections.

### C20 Multidimensional and jagged slices select what NumPy-style semantics says — partial

* model: `KGetitem.v`, `Getitem.v`
* specification: `SpecGetitem.v`, `SpecJagged.v`
* proof: induction on slice items and layouts
* theorems (`ThmC20.v`): `C20_getitem_partial`, `C20_column`, `C20_subslices`, `C20_positions`, `C20_jagged_partial`, `C20_empty_index_refuted`, `C20_three_arrays_refuted`, `C20_records_refuted`, `C20_missing_between_arrays_refuted`, `C20_long_field_refuted`
* scope: Integers, ranges, one-dimensional index arrays, new axes, a final field, and jagged arrays of integers, over lists, options and records without unions. Refuted: empty index arrays, three index arrays after a range, several items inside records, index arrays around missing lists, record fields longer than the record array.

### C21 Filling missing values — proved

* model: `Fillna.v`
* specification: `SpecFillna.v`
* proof: induction on layouts
* theorems (`ThmC21.v`): `C21_fillna`, `C21_fillna_outer`, `C21_nested_refuted`, `C21_one_value`
* scope: fillna on every class, for arrays without an option inside another option; C21_fillna_outer covers the outermost level of all others and C21_nested_refuted shows that inner levels are left alone. Numbers may be converted to a common type (promotes).

### C22 ArrayBuilder snapshot equals the data that was appended — proved

* model: `Builder.v`
* specification: `SpecBuilder.v`
* proof: a representation invariant between nodes and the data appended so far, kept by every call
* theorems (`ThmC22.v`): `C22_snapshot_shows_data`, `C22_snapshot_at_any_time`, `C22_successful_calls_append_data`, `C22_length`
* scope: For every sequence of calls that raised no error (null, boolean, integer, real, lists, tuples, records without names), at any moment, with non-negative tuple sizes and indices and at most 122 different tuple sizes; strings, complex numbers, datetimes and append() of existing arrays are not modelled.

### C23 ArrayBuilder rejects misnested calls — partial

* model: `Builder.v`
* specification: `SpecBuilder.v`
* proof: the same invariant
* theorems (`ThmC23.v`): `C23_misnested_calls_raise`, `C23_calls_not_well_nested_raise`, `C23_well_nested_calls_succeed_partial`, `C23_without_tuples`, `C23_nested_tuples_refuted`, `C23_negative_index_refuted`, `C23_negative_size_refuted`, `C23_many_types_refuted`
* scope: Misnested calls raise in every reachable state; well nested calls succeed when each index is in the bounds of every open tuple. Refuted otherwise: the bounds of an outer tuple are applied to the inner index, negative indices and sizes and more than 127 types at one place are undefined behaviour.

### C24 Snapshots are immutable — proved

* model: `Growable.v` (a heap of blocks), `HBuilder.v` (the builder nodes with their buffers on that heap)
* specification: `SpecGrowable.v`, `SpecHistory.v`
* proof: refinement: every call, clear and snapshot in memory does what the list model of C22 does, and no written cell is written again
* theorems (`ThmC24.v`): `C24_snapshots_do_not_change`, `C24_snapshots_show_what_was_appended`, `C24_memory_and_lists`, `C24_buffer_snapshots_do_not_change`, `C24_buffer_snapshots_are_what_was_appended`, `C24_shortened_buffer_refuted`
* scope: For every history of calls, clear() and snapshot() on an ArrayBuilder in memory (nodes with their growable buffers on one heap). A history ends with the first call that raises. Nodes not modelled: as in C22.

### C25 Clearing a builder restarts it — partial

* model: `Builder.v` clear
* specification: `SpecBuilder.v`
* proof: representation invariant with remembered structure
* theorems (`ThmC25.v`): `C25_clear_restarts_partial`, `C25_cleared_length`, `C25_reals_stay`, `C25_record_refuted`, `C25_same_record_refuted`, `C25_null_after_tuple_refuted`, `C25_tuple_refuted`, `C25_open_list_refuted`
* scope: Proved for histories with any number of clears whose cleared data have no reals, tuples and records and nothing open; refuted for records, tuples and open lists.

### C26 Growable buffers never write out of bounds and keep appended data — proved

* model: `Growable.v`
* specification: `SpecGrowable.v`
* proof: invariant over programs
* theorems (`ThmC26.v`): `C26_buffers_keep_their_items`, `C26_any_factor_above_one`, `C26_unchecked_options_refuted`
* scope: For every program over any number of buffers with initial >= 1 and a resize factor above 1; refuted for initial 0 or factor 1, which the code does not reject. Sizes are counted in items and do not overflow.

### C27 AwkwardForth never reads or writes outside its stack, inputs or outputs — partial

* model: `Forth.v`, `ForthParse.v`
* specification: `SpecForthSafe.v`
* proof: the parser only produces groups of codes with operands in range (by induction on the text); an invariant of machine states ties every frame to a position between groups and every loop to its frame
* theorems (`ThmC27.v`): `C27_executions_partial`, `C27_programs_partial`, `C27_sizes_partial`, `C27_exit_in_loop_refuted`, `C27_negative_rewind_refuted`, `C27_negative_count_refuted`, `C27_call_when_full_refuted`
* scope: For every source text that compiles, every history of begin/run/step/resume/call/reset and stack assignments: no access outside the data stack, call stack, loop stack, variables, inputs, outputs or bytecode, provided the three unguarded instructions (exit while a do-loop is under way, rewind by a negative number, repeated read of a negative count) are not executed that way. For sources without these words there is no condition on the execution. Each exception is refuted with a program. Also assumed: fewer than 2^31 words in the source, recursion depth at least 1, call() with room in the call stack (otherwise refuted).

### C28 AwkwardForth pause/resume does not change the result — proved

* model: `Forth.v`
* specification: `SpecForthRun.v`
* proof: simulation
* theorems (`ThmC28.v`): `C28_pauses_change_nothing`, `C28_resuming_reaches_the_end`
* scope: For all programs (any bytecode) and inputs, both ways; the program without the pauses is the machine in which pause does nothing, and the results agree in everything but perhaps the instruction count.

### C29 AwkwardForth single-stepping reaches the same result as run — partial

* model: `Forth.v`
* specification: `SpecForthRun.v`
* proof: simulation
* theorems (`ThmC29.v`): `C29_stepping_is_running_partial`, `C29_run_is_stepped_partial`, `C29_loop_refuted`, `C29_exit_refuted`
* scope: Proved, both ways, for executions without do and exit. False with them: C29_loop_refuted (the index never advances, the program never ends) and C29_exit_refuted.

### C30 AwkwardForth errors are sticky — partial

* model: `Forth.v`
* specification: `SpecForthRun.v`
* proof: case analysis on the machine state
* theorems (`ThmC30.v`): `C30_stopped_machine_stays`, `C30_begin_forgets`, `C30_errors_sticky_partial`, `C30_errors_of_run_sticky_partial`, `C30_begin_clears`, `C30_halt_not_sticky_refuted`, `C30_is_done_blocks_call`
* scope: Proved for all programs (any bytecode), histories and errors but halt: C30_halt_not_sticky_refuted shows that after halt the next call reports not_ready.

### C31 AwkwardForth arithmetic is Forth arithmetic — partial

* model: `Forth.v`
* specification: `SpecForth.v`
* proof: case analysis per word, induction over programs
* theorems (`ThmC31.v`): `C31_programs_compute`, `C31_word_computes`, `C31_underflow_reported`, `C31_overflow_reported`, `C31_zero_divisor_reported`, `C31_overflow_undefined`, `C31_mod_of_large_numbers_refuted`, `C31_mod_of_least_refuted`, `C31_rshift_of_negative_refuted`, `C31_shift_amount_refuted`
* scope: Programs of these words compute what standard Forth says whenever every result is a number of the stack type. Refuted for: mod of numbers whose sum with the divisor overflows, the least number mod -1, rshift of a negative number (arithmetic, not logical) and shift amounts outside the width (undefined). Overflowing results are undefined in the C++.

### C32 Variable-length and n-bit reads decode what was encoded — partial

* model: `Forth.v`
* specification: `SpecForth.v`
* proof: induction over the encoded bytes
* theorems (`ThmC32.v`): `C32_varint_to_stack`, `C32_varint_to_output`, `C32_varint_covers`, `C32_varint_unique`, `C32_varint_too_big`, `C32_varint_truncated`, `C32_nbit_to_stack`, `C32_nbit_to_output`, `C32_nbit_words`, `C32_integers_to_stack`, `C32_integers_to_output`, `C32_wide_integers_to_stack_refuted`, `C32_unsigned_to_stack_refuted`, `C32_zigzag_to_wide_output_refuted`, `C32_wide_fields_refuted`, `C32_ten_bytes_refuted`
* scope: varint and zigzag (1 to 9 bytes), N-bit fields of 1 to 30 bits and fixed-size integers in both byte orders decode what was encoded, to the stack and to an output. Not so, each with a _refuted theorem: 64-bit and unsigned 32-bit integers to the stack keep 32 bits; zigzag to an int64 output keeps 32 bits on the 32-bit machine; fields of 31 bits and more are undefined; ten-byte encodings of 64-bit integers are refused. Floating-point items are opaque.

### C33 AwkwardForth control flow: do/loop bodies run the right number of times and exit leaves the word — partial

* model: `Forth.v`
* specification: `SpecForth.v`
* proof: induction over the iterations
* theorems (`ThmC33.v`): `C33_do_loop`, `C33_do_step_loop`, `C33_indices_partial`, `C33_exit_returns_partial`, `C33_wide_index_refuted`, `C33_callers_loop_refuted`, `C33_own_loop_refuted`
* scope: do...loop and do...+loop run the body for every index in order, for any bytecode, bounds, nesting and loops under way; i, j, k push indices of 32 bits (C33_wide_index_refuted beyond). exit returns from the word when no loop is under way; with a loop of the caller or of the word itself it is wrong (refuted: the caller's loop is forgotten, or the own loop stays on the loop stack, and memory is misread).

### C34 Partitioned arrays behave as the concatenation of their partitions — partial

* model: `Partition.v`
* specification: `SpecPartition.v`
* proof: refinement to the concatenation
* theorems (`ThmC34.v`): `C34_getitem_at`, `C34_getitem_range`, `C34_getitem_range_nostep`, `C34_zero_step`, `C34_repartition_partial`, `C34_wrong_length`, `C34_trailing_empty_refuted`
* scope: Elements and ranges for all partitionings, starts, stops and steps. Repartitioning for partitions of mergeable types without unions and new stops whose only partition ending at the end of the array is the last one; further empty partitions at the end are refuted (out-of-bounds read).

### C35 Virtual arrays are transparent — partial

* model: `Virtual.v`
* specification: `SpecVirtual.v`
* proof: oracle generator and adversarial cache; all request sequences
* theorems (`ThmC35.v`): `C35_same_values_partial`, `C35_inconsistent_generator_raises`, `C35_longer_than_declared_refuted`, `C35_bitmasked_refuted`, `C35_inferred_form_refuted`, `C35_union_field_refuted`
* scope: Every history of ranges, slices, index arrays, fields, carries, lengths and element accesses, for every cache behaviour, over arrays without BitMaskedArray and UnionArray inside. Generators that raise or give a short array or another form make every read raise. Refuted: longer generated arrays, BitMasked fields, inferred forms, union fields.

### C36 Row identities stay attached to their rows — partial

* model: `Identities.v`
* specification: `SpecIdentities.v`
* proof: loop invariants for the kernels, induction on layouts and on histories
* theorems (`ThmC36.v`): `C36_identities_partial`, `C36_slices_keep_identities_partial`, `C36_one_identity_refuted`, `C36_deep_copy_refuted`, `C36_masked_in_list_refuted`, `C36_regular_leftover_refuted`, `C36_offsets_beyond_refuted`, `C36_longer_field_refuted`, `C36_regular_range_refuted`
* scope: setidentities on every layout of the model: rows are labelled exactly with the ways to reach them (row of the outermost array, position in each list, fields on the way), missing only below shared rows. Any history of ranges and selections keeps the labels. Left out, each with a _refuted theorem: masked arrays inside lists, left-over rows of regular arrays, offsets outside the content, fields longer than their record, ranges of regular arrays (straight), Identities::getitem_at and deep_copy.

### C37 The type of an array tells what its values look like — partial

* model: `Types.v`
* specification: `SpecTypes.v`
* proof: induction on layouts and on types
* theorems (`ThmC37.v`): `C37_values_have_the_type`, `C37_range_keeps_type`, `C37_selection_keeps_type`, `C37_element_has_type`, `C37_equal_is_an_equivalence_partial`, `C37_equal_types_have_the_same_values_partial`, `C37_equal_refuted`, `C37_empty`, `C37_simplify_keeps_type_partial`, `C37_simplify_keeps_type_refuted`, `C37_depth_partial`, `C37_depth_refuted`, `C37_minmax_depth`
* scope: All layouts of the model, without parameters. Values, slices, elements, empty arrays and least/greatest depths are proved outright. Comparison of types is proved for records whose keys are words (refuted otherwise: the key "0" is looked up as a position). Simplifying options is proved but for UnmaskedArray of IndexedArray (refuted: the option is lost). Depth is proved where the alternatives of unions agree (refuted otherwise).

### C38 JSON shows the values of an array, and reading JSON gives the values of its documents — partial

* model: `Json.v` (with `Builder.v`)
* specification: `SpecJson.v`, `SpecBuilder.v`
* proof: induction on layouts and documents; reading by way of C22
* theorems (`ThmC38.v`): `C38_writes_the_values_partial`, `C38_writes_the_values_refuted_unsigned`, `C38_writes_the_values_refuted_nan`, `C38_reads_the_documents_partial`, `C38_reads_the_documents_refuted_uint64`, `C38_rejected_text_raises_partial`, `C38_rejected_text_raises_refuted`, `C38_key_twice_raises`, `C38_round_trip_partial`, `C38_special_numbers_come_back`, `C38_round_trip_refuted_strings`, `C38_round_trip_refuted_numbers`, `C38_round_trip_refuted_records`
* scope: All layouts of the model, texts as rapidjson's events. Writing is proved for integers in int64 range and a string given for each non-finite number (otherwise refuted). Reading is proved for documents with integers in int64 range and no strings but the three (integers from 2^63 refuted; other strings not modelled). Rejected texts raise, but for a text cut within the first token of a document (refuted). The round trip is proved for arrays without unions whose records have different keys (refuted for unions, and for equal strings).

### C39 Strided arrays of several dimensions have the elements NumPy gives them — partial

* model: `Strided.v`
* specification: `SpecStrided.v`
* proof: induction on the slice items with the byte position of every element as the invariant; for index arrays the flat position in the common shape goes along with each row; contiguous copies by induction on the dimensions
* theorems (`ThmC39.v`): `C39_item`, `C39_range`, `C39_basic_slice`, `C39_contiguous`, `C39_rows`, `C39_index_arrays_partial`, `C39_separated_refused`, `C39_nested_partial`, `C39_index_array_3d_refuted`, `C39_empty_broadcast_refuted`, `C39_nested_empty_refuted`, `C39_one_ellipsis_refuted`
* scope: Items, ranges, slices without index arrays, contiguous copies and rows are proved outright. Slices with index arrays are proved for index arrays of one or two dimensions (three are refuted: the kernel that flattens them is wrong) when no length 1 is broadcast to 0 (refuted). Nested lists are proved when the dimensions after the second are not 0 (refuted otherwise). Slices with missing values, jagged arrays and fields are not modelled.

### C40 Arrays as slices: integers, masks of booleans and missing values, in lists — partial

* model: `KAsSlice.v`, `AsSlice.v`
* specification: `SpecAsSlice.v`
* proof: induction on the slice for the positions its booleans stand for; loop invariants give the kernels; then induction on the array, as for C20, with the positions that are not missing picked first and filled back between the missing ones
* theorems (`ThmC40.v`): `C40_flat_partial`, `C40_lists_partial`, `C40_missing_lists_partial`, `C40_mask`, `C40_mask_lists`, `C40_strided_mask_refuted`, `C40_inner_missing_lists_refuted`, `C40_missing_in_both_refuted`, `C40_nested_missing_refuted`, `C40_missing_deep_lists_refuted`, `C40_empty_offsets_refuted`, `C40_no_fields_refuted`
* scope: Slices without fixed-size dimensions, records and unions. Flat slices are proved for every array; lists of any depth when only integers or booleans are missing; missing lists at the outermost level above one level of lists, for arrays not longer than the slice. Refuted: masks that are not contiguous, missing lists below the outermost level, missing lists above lists of lists, missing lists in the array together with missing positions in the slice, missing values of two kinds around each other, empty lists with offsets out of range, records without fields.

### C41 ROOT's vectors of vectors are read as the lists they are — partial

* model: `Uproot.v`
* specification: `SpecUproot.v`
* proof: byte order by the shifts and masks of the code (with the lemmas for Forth's reading words); loop invariants over the bytes read so far, for items, inner vectors and entries
* theorems (`ThmC41.v`): `C41_reads`, `C41_other_forms`, `C41_strided_refuted`, `C41_truncated_refuted`, `C41_negative_length_refuted`, `C41_no_offsets_refuted`
* scope: Well-formed contiguous data is read exactly; other forms raise. Refuted: data with a stride is read as if contiguous, truncated data is read beyond its end, negative lengths give an invalid array, no offsets at all write out of bounds.

### C42 Forms survive JSON and compare properly — partial

* model: `Forms.v`
* specification: `SpecForms.v`
* proof: induction over Forms with lemmas for looking up the members that were written; induction over JSON for definedness; case-by-case characterisation of the comparison, records by their keys
* theorems (`ThmC42.v`): `C42_round_trip_partial`, `C42_no_confusion`, `C42_reading_is_defined_partial`, `C42_generic_list_refuted`, `C42_round_trip_refuted`, `C42_units_refuted`, `C42_parameters_refuted`, `C42_width_names_refuted`, `C42_equal_is_the_same_partial`, `C42_equal_is_an_equivalence_partial`, `C42_equal_refuted`
* scope: Proper Forms come back identical; reading is defined except for the class "ListOffsetArray"; == is exactly sameness and an equivalence for records without repeated keys. Refuted: the class "ListOffsetArray" reads unassigned flags, sizes of 2^31 and other byte orders are written but refused, units of datetimes are lost, real parameters become integers and large integers cannot be written, beginnings of width names are accepted, records with repeated keys do not equal themselves. The text itself (rapidjson) is not modelled.

### C43 LayoutBuilder makes the array of the values it was given — partial

* model: `LayoutBuild.v`, `ForthParse.v`, `Forth.v`
* specification: `SpecLayout.v`
* proof: the text of each node is read to tokens and the tokens to segments of code, by induction over the Form with all names distinct; the compiled words are run against an invariant that says what each output holds and what the frames and the stack are while values are open; the snapshot of outputs that hold the columns of some values is the array of these values
* theorems (`ThmC43.v`): `C43_snapshot_partial`, `C43_list_array_refuted`, `C43_lists_in_records_refuted`, `C43_records_in_records_refuted`, `C43_strings_in_records_refuted`, `C43_wrapped_lists_refuted`, `C43_two_options_refuted`, `C43_optional_lists_refuted`, `C43_regular_in_lists_refuted`, `C43_refused_refuted`, `C43_undefined_refuted`
* scope: Proved for Forms of 64-bit integers, 64-bit floating-point numbers and booleans, lists with offsets to any depth, and records of such numbers or of such numbers and single lists, with at most 300 nodes, distinct keys that are words, and fewer than 2^31 values per level: text written, tokenized, compiled, run and read back. Refuted: lists with starts and stops cannot be made at all; lists of lists, strings, and records before lists as fields of records are refused; a mask or option around a list loses the first list; two options in a Form cannot be made; optional lists in lists are refused; regular lists in lists give an invalid array; after a refusal calls return although the machine has stopped; end_list on a record without an open list, and initial sizes below 8, are undefined. Not modelled: unions, complex and other number types, clear, append.

### C44 Uniqueness tells apart the elements of an array — partial

* model: `Unique.v`, `KSort.v`, `Sort.v`
* specification: `SpecUnique.v`
* proof: the loop that removes neighbours keeps an invariant: what it has kept is increasing, different and holds every number seen; on sorted data that makes the numbers distinct, and its length is that of the input exactly if no two are equal; indexes are followed by induction to the numbers they pick; for lists, quick_sort is a permutation of each range, and a false answer names the last pair compared
* theorems (`ThmC44.v`): `C44_unique_numbers`, `C44_unique_integers`, `C44_is_unique_partial`, `C44_lists_partial`, `C44_last_list_refuted`, `C44_later_lists_refuted`, `C44_empty_list_refuted`, `C44_nested_lists_refuted`, `C44_records_partial`, `C44_records_never_false_refuted`, `C44_records_refuted`, `C44_sliced_index_refuted`, `C44_unique_view`, `C44_strided_refuted`, `C44_claim_refuted`
* scope: Proved: unique of numbers; is_unique of numbers, also behind any number of indexes with or without missing values; lists of numbers are only reported as repeated when two of them hold the same numbers (in any order, as the library's tests have it); records of two or more fields of numbers reported as unique are different. Refuted: the last list is never compared; a repeated list is forgotten when two later lists of the same length differ; a single empty list of unknown type is reported as repeated; lists of lists read outside of their buffers; repeated records are never reported; an index that is a view loses its first elements; a strided view is read as if it were contiguous. Not modelled: strings, virtual arrays; masks and unions are refused by the code.

### C45 Converting the numbers of an array keeps everything else — partial

* model: `Astype.v`, `Strided.v`
* specification: `SpecAstype.v`
* proof: by induction over the layout with a relation between old and new elements: picking, slicing and putting together elements keeps the relation, so each class only needs its content's
* theorems (`ThmC45.v`): `C45_values_astype_partial`, `C45_refused`, `C45_negative_refuted`, `C45_unreachable_refuted`, `C45_claim_refuted`, `C45_dimensions_refuted`
* scope: Proved for every layout, with bool, all integer types and float64: structure and type are kept and every number is converted, if the buffers hold numbers that can be converted (floating-point numbers that fit the integer type, no negative numbers for bool); unsupported types are refused. Refuted: negative numbers become False; a number outside of all lists that does not fit makes the conversion undefined; with two or more dimensions only as many numbers are converted as the first dimension is long, and the result reads past its buffer. Not modelled: strings (kept by the code), float32, complex numbers, dates.

### C46 A copy holds the same elements and shares no memory — partial

* model: `Copy.v`
* specification: `SpecCopy.v`
* proof: reading an array depends only on the buffers it refers to; by induction over the layout the copy refers to new buffers only, and the original to old ones
* theorems (`ThmC46.v`): `C46_copy_partial`, `C46_slice_refuted`, `C46_claim_refuted`
* scope: Proved for every layout, if no NumpyArray in it is a contiguous slice that starts after the beginning of its buffer: the copy has the same elements, in every memory with the new buffers, and the original in every memory with the old ones. Refuted for such slices, all of them: the copy keeps the offset although its buffer starts at the slice, and reads past its end. Not modelled: several dimensions, identities, parameters.

### C47 nbytes counts every element of memory that an array uses once — partial

* model: `Nbytes.v`, `Copy.v`
* specification: `SpecNbytes.v`
* proof: invariant of the map of largest parts: one part of each buffer, none longer; nested parts of the same length have the same elements
* theorems (`ThmC47.v`): `C47_at_most`, `C47_nbytes_partial`, `C47_shared`, `C47_union_refuted`, `C47_claim_refuted`, `C47_starts_stops_refuted`, `C47_broadcast_refuted`
* scope: Proved exact for arrays without unions whose parts of the same buffer are nested, and never too much for every layout without strides of zero. Refuted for unions, whose tags and index are never counted, for strides of zero, and (as documented) for starts and stops that overlap without being nested. Not modelled: identities, several dimensions, buffers read with elements of different sizes.

### C48 A field given to an array of records is read back, and the others stay — partial

* model: `Setitem.v`
* specification: `SpecSetitem.v`
* proof: columns are joined to rows; a column in the middle is an element in the middle of every row
* theorems (`ThmC48.v`): `C48_key`, `C48_at`, `C48_refused`, `C48_read_back_partial`, `C48_others`, `C48_existing_key_refuted`, `C48_claim_refuted`, `C48_number_refuted`
* scope: Proved for names and positions: every record gets exactly the new field; wrong lengths and negative positions are refused; other fields stay. Reading back is proved for names that were not there (C48_read_back_partial) and refuted for all names that were: the old field is read. A field at position n takes the name n and hides one of that name. Not modelled: parameters, identities, caches.

### C49 The field names listed are the ones that can be used — partial

* model: `Keys.v`, `Getitem.v`
* specification: `SpecKeys.v`, `SpecGetitem.v`
* proof: induction over layouts; erasing from the end is a filter; decimal numbers are read back by std::stoi
* theorems (`ThmC49.v`): `C49_names`, `C49_union`, `C49_readable_partial`, `C49_haskey`, `C49_haskey_reads`, `C49_union_haskey`, `C49_haskey_refuted`, `C49_claim_refuted`
* scope: Proved for all arrays: the names listed are those of the type; a union lists what all its contents list; haskey is true for all that is listed or can be read, and outside unions for exactly what can be read. That listed names can be read is proved without unions above the records (C49_readable_partial). Refuted: haskey is true for every text that begins with the number of a field of a record, though it is not listed.

### C50 Positions and names of fields determine each other — partial

* model: `Fieldpos.v`, `Keys.v`, `Getitem.v`
* specification: `SpecKeys.v`, `SpecFields.v`
* proof: induction over layouts; the first place of a name; decimal numbers are read back by std::stoi
* theorems (`ThmC50.v`): `C50_numfields`, `C50_numfields_all`, `C50_key_partial`, `C50_fieldindex`, `C50_inverse`, `C50_haskey`, `C50_refused`, `C50_key_refuted`, `C50_claim_refuted`
* scope: Proved for all valid arrays of records below lists and missing values: the number of fields, the names at all positions from zero on, the positions of all names, and that they undo each other; a name has a position exactly if haskey is true; everything else refuses both. Refuted: for positions below zero key returns the number itself as a name in tuples (C50_key_refuted), so C50_key_partial is for positions from zero on.

## Bugs found

Every line is a theorem `..._refuted` of the property named; the witness is in its statement.

* C50: key(i) of tuples does not refuse positions below zero: key(-1) is the text -1, which is no field.
* C49: haskey (and array[name]) takes any text that begins with the number of a field, such as 1st, for that field, in records with names.
* C48: RecordArray.setitem_field with the name of an existing field adds a second field of that name; reading the field still gives the old values.
* C47: nbytes of an array that contains a union does not count the tags and the index of the union.
* C46: ak.copy of an array that contains a slice not starting at the beginning of its buffer keeps the offset of the slice although the new buffer starts at the slice: the copy reads past the end of its buffer.
* C45: ak.values_astype to bool makes negative numbers False; floating-point numbers outside of all lists are converted too, undefined when they do not fit; with several dimensions only the first dimension's number of items is converted and the result reads past its buffer.
* C44: is_unique never compares the last list, forgets a repeated list when two later lists of the same length differ, reports a single empty list of unknown type, reads outside of the buffers for lists of lists, never reports repeated records, skips the first elements of an index that is a view, and reads a strided view as if it were contiguous.
* C43: a LayoutBuilder cannot be made for lists with starts and stops (a space is missing in the text) nor for two options; records with lists of lists, strings, or records before lists refuse proper values; masks and options around a list lose the first list; regular lists in lists give invalid arrays; calls after a refusal return although nothing is appended; end_list on a record without begin_list and initial sizes below 8 are undefined.
* C42: Form.fromjson of the class "ListOffsetArray" reads flags nothing has assigned; sizes of 2^31, other byte orders and lists with two widths are written but refused; units of datetimes are lost; real parameters become integers and larger integers cannot be written; beginnings of width names (even the empty one) are accepted; records with a repeated key do not equal themselves.
* C41: reading ROOT's vectors of vectors checks nothing: strides are ignored, truncated data is read beyond its end, negative lengths give an invalid array, empty offsets write out of bounds.
* C01: the list range kernels overflow their loop counter for steps near 2^63.
* C39: an index array of three dimensions in a slice is flattened wrongly, leaving memory uninitialised; an empty index array before one of length 1 is refused, after it
  is accepted; an array of shape (2, 3, 0) becomes one list of three empty lists; two ellipses are accepted when there is no index array.
* C40: masks that are not contiguous lose elements; missing lists inside lists select from the wrong lists; missing values move when both the array and the slice
  have them; missing lists above lists of lists and nested options raise.
* C04: carry with an entry beyond the length reads out of bounds for NumpyArray and UnionArray (other classes raise).
* C06: broadcast_tooffsets64 accepts lists that are not monotonic; toRegularArray of empty lists with offsets outside the content.
* C08: three nested option levels are not simplified in one call.
* C09, C10: offsets that do not start at 0 make flatten and num use the wrong lists; fieldless records; unknown types.
* C11: negative axes on records of different depth.
* C12: combinations of a RegularArray with 0 < size < n overflow scratch memory.
* C13: rpad_and_clip on UnmaskedArray at axis 0 ignores clip; ListArray reached with no lists is read out of bounds.
* C14: an option array merged with an indexed array, untrimmed and fieldless records, indexes that are narrower than the total length.
* C15, C16: axes other than the innermost one of arrays with three or more levels, sliced options, records of lists, regular arrays, missing lists (positions along axis 0).
* C17: sliced lists, missing values at the top, missing lists, records, argsort with missing values.
* C19, C20: empty index arrays, three index arrays after a range, several items inside records, fields longer than their record.
* C21: missing values inside missing values stay.
* C23: `index` is checked against the bounds of an outer tuple; negative sizes and indices; more than 127 types at one place.
* C24, C26: growable buffers with a resize factor of 1 or an initial size of 0; shortened buffers.
* C25: clear leaves records, tuples and open lists in a broken state.
* C29: stepping never advances a `do` loop; C30: halt is reported as `not_ready` afterwards.
* C31: `mod` overflows for large operands; `rshift` is arithmetic.
* C32: 64-bit reads to the stack keep 32 bits; bit fields of 31 bits and more; ten-byte varints.
* C33: `exit` inside a called word drops the caller's loop; `exit` inside its own loop keeps it.
* C34: repartitioning with more than one empty partition at the end reads out of bounds.
* C27: exit in a word called from a do-loop loses the loop; a negative rewind or a negative repeated read leaves the buffer; call()
  with a full call stack writes past it.
* C35: a generated array that is longer than declared is accepted; BitMaskedArray fields raise when not cached.
* C36: one row of Identities, deep copies, masked arrays inside lists, left-over rows, ranges of regular arrays.

## Trusted base

* Coq's kernel (`coqchk` is run by the gate).
* `Print Assumptions` stands below every property theorem; the answer is "Closed under the global context" for every one of
  them: no axiom at all, neither of our own nor of the standard library, is used.  (The gate's scan of the loaded library lists the
  standard library's `ssrunder` constants; no theorem depends on them.)
* The reading of C++ into Gallina, as cited at each definition.
* Mathematical integers instead of `int64_t` in array code: lengths and offsets are assumed to be far from 2^63.  The Forth
  machine, the reducers' sums and products and the varint decoders model wrap-around explicitly.
* Only the standard library is used: no mathcomp, std++ or other library, no plugins, no functors or module types.

## Modelled, with simplifications

* All layout classes but VirtualArray inside other arrays: EmptyArray, NumpyArray (one-dimensional; with several dimensions and strides on its own in C39), ListArray, ListOffsetArray,
  RegularArray, IndexedArray, IndexedOptionArray, ByteMaskedArray, BitMaskedArray, UnmaskedArray, RecordArray, UnionArray.
* Integer widths of index buffers are dropped (ListArray32/U32/64 are one node); three number types (boolean, integer, real)
  stand for the 18 dtypes; real numbers are opaque codes, their arithmetic and comparison are parameters of the theorems.
* Parameters (strings, categoricals, behaviours) and the identities are dropped from the array methods; identities have a model of
  their own (C36).
* Recursions through carried or projected contents take a bound; running out of it is `UB`, and the theorems give a bound
  that suffices.
* std::sort and std::stable_sort enter as any function that meets their specification.
* Builder nodes are modelled twice: on lists (`Builder.v`) and with their buffers on a heap (`HBuilder.v`); C24 proves that they agree. A call that raises ends a history: what it leaves behind is not modelled.
* Forth: text input is a list of characters; line and column numbers of errors are dropped.

## Not modelled

* GPU kernels, Python bindings, JSON strings and the text of JSON (rapidjson), the parts of LayoutBuilder named under C43, `numba` extensions.
* Parameters and texts of types; ArrayType.
* Strings, complex numbers, datetimes; NumpyArray with several dimensions inside other arrays, or in operations other than those of C39.
* Several fields at once as one item of a longer slice (alone they are C19_fields), slices of union arrays, and tuples of slices in which one has missing values; arrays as slices that have fixed-size dimensions.
* ArrayBuilder's string, bytestring, complex, datetime and append calls.
* Allocation failures and threads.

## Testing the theorems

`seeded/LOG.jsonl` has one line per wrong program: the definition edited, the edit, the theorems that failed to prove.  Each
edit was made in a scratch copy of the model and the copy was rebuilt.
