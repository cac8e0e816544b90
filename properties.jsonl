{"id": "C01", "title": "Range slices follow Python slice semantics", "statement": "For any array length n and any start, stop (each possibly absent) and non-zero step, the positions selected by array[start:stop:step] are exactly those selected by Python's list slicing, in the same order, and no position outside 0..n-1 is ever selected.", "quantifier": "all lengths n >= 0, all 64-bit start/stop (or none), all non-zero steps for which length + |step| fits in 64 bits", "why_tests_cant": "start/stop/step/length interact through clamping and wrap-around; the space is a product of 64-bit integers", "anchors": ["src/cpu-kernels/kernel-utils.cpp: awkward_regularize_rangeslice", "src/libawkward/array/ListOffsetArray.cpp: getitem_range", "src/cpu-kernels/awkward_ListArray_getitem_next_range.cpp"]}
{"id": "C02", "title": "Integer indexing: right element or an error, never out of bounds", "statement": "array[i] returns element i for 0 <= i < n, element n+i for -n <= i < 0 and raises an index error for every other i; on a valid array it never touches memory outside its buffers.", "quantifier": "all valid arrays of every node type and nesting, all 64-bit i", "why_tests_cant": "arrays are unbounded trees of nodes, and the index ranges over all integers", "anchors": ["src/libawkward/array/ListOffsetArray.cpp: getitem_at, getitem_at_nowrap", "src/libawkward/array/IndexedArray.cpp: getitem_at", "src/libawkward/array/RegularArray.cpp: getitem_at"]}
{"id": "C03", "title": "Slicing a range gives the sub-list", "statement": "For every valid array, array[start:stop] is valid and its list of values is Python's values[start:stop]; the original array is unchanged.", "quantifier": "all valid arrays of any nesting, all start/stop", "why_tests_cant": "must hold for every node type composed with every other to any depth", "anchors": ["src/libawkward/array/*Array.cpp: getitem_range, getitem_range_nowrap"]}
{"id": "C04", "title": "Taking by an integer index array picks those elements", "statement": "For every valid array and every index array whose entries are in range, the result has one element per index entry, equal to the element at that position; an entry that is >= the length raises an error.", "quantifier": "all valid arrays of any nesting, all index arrays", "why_tests_cant": "unbounded index arrays with repetitions, over unbounded layouts", "anchors": ["src/libawkward/array/*Array.cpp: carry", "src/cpu-kernels/awkward_ListArray_getitem_carry.cpp"]}
{"id": "C05", "title": "A validated array is memory safe", "statement": "If validityerror reports nothing, then computing the length, reading every element recursively (to_list) and slicing never read outside any buffer and never fail.", "quantifier": "all arrays (well formed or not) of any nesting depth", "why_tests_cant": "the claim is about every corrupt array as well: tests only show some corrupt arrays being rejected", "anchors": ["src/libawkward/array/*Array.cpp: validityerror_part", "src/cpu-kernels/awkward_ListArray_validity.cpp", "src/cpu-kernels/awkward_IndexedArray_validity.cpp", "src/cpu-kernels/awkward_UnionArray_validity.cpp"]}
{"id": "C06", "title": "Changing list representation does not change values", "statement": "Converting between ListArray, ListOffsetArray and RegularArray (compaction of offsets, broadcasting to offsets, toRegularArray, toListOffsetArray64) preserves every value; toRegularArray fails exactly when the lists do not all have the same length.", "quantifier": "all valid list arrays, including gaps, overlaps, non-zero first offsets and unused tails; for toRegularArray, offsets of empty lists inside the content", "why_tests_cant": "representation freedom is infinite: same values, arbitrarily many different buffers", "anchors": ["src/libawkward/array/ListOffsetArray.cpp: toListOffsetArray64, toRegularArray, compact_offsets64, broadcast_tooffsets64", "src/libawkward/array/ListArray.cpp", "src/libawkward/array/RegularArray.cpp"]}
{"id": "C07", "title": "Missing-value representations are interchangeable", "statement": "BitMaskedArray (either bit order, either polarity), ByteMaskedArray, UnmaskedArray and IndexedOptionArray convert into each other without changing which elements are missing or the values of the others.", "quantifier": "all masks of all lengths, both polarities, both bit orders", "why_tests_cant": "bit-level index arithmetic over all lengths and orders", "anchors": ["src/libawkward/array/BitMaskedArray.cpp: toByteMaskedArray, toIndexedOptionArray64", "src/libawkward/array/ByteMaskedArray.cpp: toIndexedOptionArray64", "src/libawkward/array/UnmaskedArray.cpp", "src/cpu-kernels/awkward_BitMaskedArray_to_ByteMaskedArray.cpp"]}
{"id": "C08", "title": "Simplifying nested option/indexed types preserves values", "statement": "Merging an option-type or indexed node with an option-type or indexed content (simplify_optiontype) leaves the list of values unchanged.", "quantifier": "all valid arrays with nested option/indexed nodes", "why_tests_cant": "composition of two arbitrary index maps with missing values", "anchors": ["src/libawkward/array/IndexedArray.cpp: simplify_optiontype", "src/cpu-kernels/awkward_IndexedArray_simplify.cpp"]}
{"id": "C09", "title": "Flattening concatenates", "statement": "ak.flatten along an axis returns the concatenation of the lists at that depth in order, dropping missing lists, without losing, duplicating or reordering any element.", "quantifier": "all valid arrays of any nesting", "why_tests_cant": "every list layout, including gaps, overlaps and non-zero offsets", "anchors": ["src/libawkward/array/ListOffsetArray.cpp: offsets_and_flattened", "src/cpu-kernels/awkward_ListOffsetArray_flatten_offsets.cpp", "src/libawkward/array/IndexedArray.cpp: offsets_and_flattened"]}
{"id": "C10", "title": "num counts list lengths", "statement": "ak.num(array, axis) returns, for each list at that depth, its number of elements.", "quantifier": "all valid arrays, all axes", "why_tests_cant": "must also hold for sliced arrays whose offsets do not start at zero, at every depth", "anchors": ["src/libawkward/array/ListOffsetArray.cpp: num", "src/libawkward/array/ListArray.cpp: num", "src/libawkward/array/RegularArray.cpp: num", "src/cpu-kernels/awkward_ListArray_num.cpp"]}
{"id": "C11", "title": "Local index counts from zero in each list", "statement": "ak.local_index(array, axis) has the same list structure as the array and each list contains 0, 1, ..., length-1.", "quantifier": "all valid arrays, all axes (negative axes for arrays of uniform depth)", "why_tests_cant": "all list structures", "anchors": ["src/libawkward/array/*Array.cpp: localindex", "src/cpu-kernels/awkward_ListArray_localindex.cpp"]}
{"id": "C12", "title": "Combinations enumerates every n-tuple exactly once, in lexicographic order", "statement": "ak.combinations(array, n, replacement) gives for each list exactly the strictly (or, with replacement, weakly) increasing n-tuples of positions, each once, in lexicographic order, and the precomputed output size equals their number.", "quantifier": "all list lengths, all n >= 1, both replacement settings; RegularArrays only with size 0 or size >= n when there is no replacement", "why_tests_cant": "combinatorial enumeration over unbounded n and list length; a count mismatch is a buffer overflow", "anchors": ["src/cpu-kernels/kernel-utils.cpp: awkward_ListArray_combinations_step", "src/cpu-kernels/awkward_ListArray_combinations.cpp", "src/cpu-kernels/awkward_ListArray_combinations_length.cpp", "src/libawkward/array/ListOffsetArray.cpp: combinations"]}
{"id": "C13", "title": "Padding extends with missing values and clipping truncates", "statement": "rpad(k) gives lists with max(len,k) entries: the original values followed by missing values; rpad_and_clip(k) gives exactly k entries.", "quantifier": "all valid arrays, all targets k >= 0, all axes", "why_tests_cant": "all list structures times all targets", "anchors": ["src/libawkward/array/*Array.cpp: rpad, rpad_and_clip", "src/cpu-kernels/awkward_ListArray_rpad_axis1.cpp", "src/cpu-kernels/awkward_ListArray_rpad_and_clip_length_axis1.cpp"]}
{"id": "C14", "title": "Concatenating arrays concatenates their values", "statement": "Merging arrays yields an array whose values are the values of the first followed by those of the others, with each value unchanged up to numeric promotion.", "quantifier": "all mergeable arrays of any nesting, any number of them", "why_tests_cant": "pairs of independent unbounded layouts", "anchors": ["src/libawkward/array/*Array.cpp: mergemany, reverse_merge", "src/libawkward/Content.cpp: merging_strategy, merge_as_union"]}
{"id": "C15", "title": "Reducers compute the reduction of each list", "statement": "sum, prod, count, count_nonzero, min, max, any, all along an axis give for each group of elements the mathematical reduction over exactly the members of the group (identity for empty groups), for int64 modulo 2^64.", "quantifier": "all valid arrays, all axes, all data", "why_tests_cant": "any grouping and any number of groups, including empty ones", "anchors": ["src/libawkward/array/ListOffsetArray.cpp: reduce_next", "src/libawkward/array/NumpyArray.cpp: reduce_next", "src/cpu-kernels/awkward_reduce_sum.cpp etc."]}
{"id": "C16", "title": "argmin/argmax return the first extremal position within the list", "statement": "argmin (argmax) along an axis returns for each non-empty list the position inside that list of the first minimal (maximal) element, and missing for an empty list.", "quantifier": "all valid arrays and all data", "why_tests_cant": "ties, empty groups and offset arithmetic for every layout", "anchors": ["src/cpu-kernels/awkward_reduce_argmin.cpp", "src/cpu-kernels/awkward_reduce_argmax.cpp", "src/libawkward/array/ListOffsetArray.cpp: reduce_next"]}
{"id": "C17", "title": "Sorting gives a sorted permutation of each list", "statement": "ak.sort along the last axis returns for each list a permutation of its elements in ascending (or descending) order; ak.argsort returns positions inside the list such that taking them gives the sorted list; elements never move between lists.", "quantifier": "all lists of all lengths, both orders", "why_tests_cant": "sortedness and permutation over unbounded data", "anchors": ["src/cpu-kernels/awkward_sort.cpp", "src/cpu-kernels/awkward_argsort.cpp", "src/cpu-kernels/awkward_quick_sort.cpp", "src/cpu-kernels/awkward_ListOffsetArray_local_preparenext_64.cpp"]}
{"id": "C18", "title": "Simplifying unions preserves values", "statement": "simplify_uniontype merges mergeable or nested union contents without changing any element.", "quantifier": "all valid union arrays with any tags and indexes", "why_tests_cant": "tags and indexes are arbitrary maps", "anchors": ["src/libawkward/array/UnionArray.cpp: simplify_uniontype, project, regular_index", "src/cpu-kernels/awkward_UnionArray_simplify.cpp", "src/cpu-kernels/awkward_UnionArray_simplify_one.cpp"]}
{"id": "C19", "title": "Field projection commutes with slicing", "statement": "Taking a record field and then slicing/indexing gives the same values as slicing/indexing and then taking the field; records stay aligned.", "quantifier": "all valid arrays containing records at any depth, all field names, all slices", "why_tests_cant": "all nestings of records and lists", "anchors": ["src/libawkward/array/RecordArray.cpp: getitem_field, getitem_range_nowrap, carry", "src/libawkward/array/*Array.cpp: getitem_field"]}
{"id": "C20", "title": "Multidimensional and jagged slices select what NumPy-style semantics says", "statement": "array[:, i], array[:, start:stop:step], array[:, [i1,i2,..]] and array[jagged] select, within every inner list, the elements Python/NumPy would select; an out-of-range index in any list raises an error.", "quantifier": "all valid arrays, all slice items", "why_tests_cant": "slices compose recursively with layouts", "anchors": ["src/libawkward/array/ListArray.cpp: getitem_next, getitem_next_jagged", "src/cpu-kernels/awkward_ListArray_getitem_next_at.cpp", "src/cpu-kernels/awkward_ListArray_getitem_next_array.cpp", "src/cpu-kernels/awkward_ListArray_getitem_jagged_apply.cpp"]}
{"id": "C21", "title": "Filling missing values", "statement": "fillna(v) replaces exactly the missing elements by v and leaves all others unchanged.", "quantifier": "all arrays with no option type inside another option type, and all v", "why_tests_cant": "all masks and representations", "anchors": ["src/libawkward/array/IndexedArray.cpp: fillna", "src/libawkward/array/ByteMaskedArray.cpp: fillna", "src/cpu-kernels/awkward_UnionArray_fillna.cpp"]}
{"id": "C22", "title": "ArrayBuilder snapshot equals the data that was appended", "statement": "After any sequence of successful builder calls with all lists/tuples/records closed, the snapshot's list of values is exactly the sequence of values described by the calls (integers become reals once a real is appended at that place; unfilled record fields are missing).", "quantifier": "all call sequences of any length and nesting, with non-negative tuple sizes and indices and at most 122 different tuple sizes at one place", "why_tests_cant": "the builder is a self-modifying state machine; histories are unbounded", "anchors": ["src/libawkward/builder/*.cpp", "src/libawkward/builder/ArrayBuilder.cpp"]}
{"id": "C23", "title": "ArrayBuilder rejects misnested calls", "statement": "end_list/end_tuple/end_record/index/field raise an error whenever the innermost open structure is not of that kind, and well-nested calls never raise.", "quantifier": "all call sequences", "why_tests_cant": "depends on the whole history", "anchors": ["src/libawkward/builder/ListBuilder.cpp: endlist", "src/libawkward/builder/TupleBuilder.cpp: index, endtuple", "src/libawkward/builder/RecordBuilder.cpp: endrecord, field_check"]}
{"id": "C24", "title": "Snapshots are immutable", "statement": "A snapshot taken at any time keeps its values whatever is appended to (or cleared from) the builder later, although it shares memory with the builder.", "quantifier": "all histories of appends, reallocation, clears and snapshots", "why_tests_cant": "aliasing with any later schedule of writes", "anchors": ["src/libawkward/builder/GrowableBuffer.cpp: append, set_reserved, clear", "src/libawkward/builder/*Builder.cpp: snapshot"]}
{"id": "C25", "title": "Clearing a builder restarts it", "statement": "After clear(), a builder behaves like a builder of the same type with no data: subsequent appends yield exactly the newly appended values.", "quantifier": "all histories containing clear", "why_tests_cant": "depends on the state reached by arbitrary histories", "anchors": ["src/libawkward/builder/ArrayBuilder.cpp: clear", "src/libawkward/builder/RecordBuilder.cpp: clear", "src/libawkward/builder/TupleBuilder.cpp: clear"]}
{"id": "C26", "title": "Growable buffers never write out of bounds and keep appended data", "statement": "Appending any number of items to a growable buffer keeps them all in order and never writes past the reserved allocation.", "quantifier": "all append sequences, all initial sizes >= 1 and all resize factors > 1", "why_tests_cant": "depends on unbounded growth and on the options", "anchors": ["src/libawkward/builder/GrowableBuffer.cpp", "src/libawkward/forth/ForthOutputBuffer.cpp: maybe_resize"]}
{"id": "C27", "title": "AwkwardForth never reads or writes outside its stack, inputs or outputs", "statement": "For every source program and all inputs, running, stepping, pausing, resuming and calling words only touches memory inside the data stack, the call and loop stacks, the inputs and the outputs; otherwise an error code is reported.", "quantifier": "all programs, all inputs, all schedules of run/step/resume/call", "why_tests_cant": "programs and executions are unbounded and inputs untrusted", "anchors": ["src/libawkward/forth/ForthMachine.cpp: internal_run, parse", "src/libawkward/forth/ForthInputBuffer.cpp", "src/libawkward/forth/ForthOutputBuffer.cpp"]}
{"id": "C28", "title": "AwkwardForth pause/resume does not change the result", "statement": "Running a program to the end through any number of pauses and resumes gives the same stack, variables, input positions and outputs as the same program without the pauses.", "quantifier": "all programs with pause at any point, all inputs", "why_tests_cant": "every interleaving point of every program", "anchors": ["src/libawkward/forth/ForthMachine.cpp: internal_run CODE_PAUSE, resume"]}
{"id": "C29", "title": "AwkwardForth single-stepping reaches the same result as run", "statement": "Calling step until the program is done gives the same final state as run.", "quantifier": "all programs, all inputs", "why_tests_cant": "every program", "anchors": ["src/libawkward/forth/ForthMachine.cpp: step, internal_run(single_step)"]}
{"id": "C30", "title": "AwkwardForth errors are sticky", "statement": "Once an execution error is reported, step, resume and call change nothing and report the same error until begin/run/reset.", "quantifier": "all reachable machine states", "why_tests_cant": "all reachable states of all programs", "anchors": ["src/libawkward/forth/ForthMachine.cpp: step, resume, call, reset"]}
{"id": "C31", "title": "AwkwardForth arithmetic is Forth arithmetic", "statement": "/ and mod are floor division and modulo with the sign of the divisor, comparisons give -1/0, and stack words permute the stack as in standard Forth.", "quantifier": "all operand values of the stack type", "why_tests_cant": "64-bit operand pairs, including extreme values", "anchors": ["src/libawkward/forth/ForthMachine.cpp: CODE_DIV, CODE_MOD, CODE_DIVMOD, stack words"]}
{"id": "C32", "title": "Variable-length and n-bit reads decode what was encoded", "statement": "varint-> and zigzag-> reading decodes every encoded integer below the documented size limit, consumes exactly its bytes and fails otherwise; N-bit reading yields the bit fields in order; byte-swapped reads decode big-endian integers.", "quantifier": "all byte sequences and all bit widths", "why_tests_cant": "all encodings of all integers", "anchors": ["src/libawkward/forth/ForthMachine.cpp: READ_VARINT, READ_ZIGZAG, READ_NBIT", "src/libawkward/forth/ForthOutputBuffer.cpp: byteswap16/32/64"]}
{"id": "C33", "title": "AwkwardForth control flow: do/loop bodies run the right number of times and exit leaves the word", "statement": "start..stop loops run their body once per index in order, and exit returns from the current word leaving enclosing loops of the caller running as before.", "quantifier": "all loop bounds and all nestings of words, loops and exits", "why_tests_cant": "all nestings", "anchors": ["src/libawkward/forth/ForthMachine.cpp: CODE_DO, CODE_DO_STEP, CODE_EXIT"]}
{"id": "C34", "title": "Partitioned arrays behave as the concatenation of their partitions", "statement": "Indexing and range slicing with any step over a partitioned array gives the same elements in the same order as the concatenated array; repartitioning preserves the concatenation.", "quantifier": "all partitionings (including empty partitions), all start/stop and all steps with |step| <= 2^62", "why_tests_cant": "all partition boundaries against all slices", "anchors": ["src/libawkward/partition/PartitionedArray.cpp: getitem_at, getitem_range", "src/libawkward/partition/IrregularlyPartitionedArray.cpp"]}
{"id": "C35", "title": "Virtual arrays are transparent", "statement": "A virtual array answers every request with the same values as the generated array, whether or not its cache kept, dropped or never had the entry, and generates an array inconsistent with the declared form or length only by raising.", "quantifier": "all generators, all cache behaviours, all request sequences", "why_tests_cant": "cache eviction may happen at any time", "anchors": ["src/libawkward/array/VirtualArray.cpp: array, getitem_range_nowrap", "src/libawkward/virtual/ArrayGenerator.cpp: generate_and_check", "src/libawkward/virtual/ArrayCache.cpp"]}
{"id": "C36", "title": "Row identities stay attached to their rows", "statement": "Identities assigned to an array and its content identify for each content row the list (and position) it came from, and survive slicing.", "quantifier": "all list layouts, including overlapping lists, all histories of slices", "why_tests_cant": "all layouts, including overlapping lists", "anchors": ["src/libawkward/Identities.cpp", "src/cpu-kernels/awkward_Identities_from_ListArray.cpp", "src/cpu-kernels/awkward_Identities_from_RegularArray.cpp"]}
{"id": "C37", "title": "The type of an array tells what its values look like", "statement": "Every value of an array belongs to the type the array reports. Taking ranges, selections and elements keeps the type. Types that compare equal have the same values (up to the order of record fields), and comparison is an equivalence. The empty array made for a type has that type. Simplifying options keeps the type. The reported depths are the numbers of list levels around the values.", "quantifier": "all arrays of every layout, all types, all slices", "why_tests_cant": "types and layouts nest without bound", "anchors": ["src/libawkward/type/*.cpp: equal, empty", "src/libawkward/array/*.cpp: form, type, purelist_depth, minmax_depth", "src/libawkward/util.cpp: fieldindex, haskey"]}
{"id": "C38", "title": "JSON shows the values of an array, and reading JSON gives the values of its documents", "statement": "The JSON text written for an array is the text of its list of values: null for missing values, objects for records, objects with keys \"0\", \"1\", ... for tuples, the given strings for numbers that are not finite. Reading a text of documents gives the values these describe. A text that is not a sequence of documents, or that has an object with a key twice, raises an exception. Writing an array and reading it back gives its values.", "quantifier": "all arrays of every layout, all sequences of documents, all choices of the strings for NaN and infinities", "why_tests_cant": "documents and layouts nest without bound", "anchors": ["src/libawkward/array/*.cpp: tojson_part", "src/libawkward/array/NumpyArray.cpp: tojson_boolean, tojson_integer, tojson_real", "src/libawkward/io/json.cpp: ToJsonString, Handler, do_parse, FromJsonString"]}
{"id": "C39", "title": "Strided arrays of several dimensions have the elements NumPy gives them", "statement": "An array of several dimensions is a buffer with a shape, strides and an offset. Taking an item, a range, a slice of integers, ranges, an ellipsis, new dimensions and index arrays, or the rows at given positions gives an array of the shape NumPy defines, each of whose elements is the element of the array that NumPy defines; a slice NumPy does not define raises an exception. A contiguous copy has the same elements in row-major order. Seen as nested lists the array has the same elements. No byte outside of the buffer is read.", "quantifier": "all buffers, shapes, strides (negative and zero ones too), offsets, item sizes, slices and positions", "why_tests_cant": "shapes have any number of dimensions, and slices any number of items in any order", "anchors": ["src/libawkward/array/NumpyArray.cpp: getitem_at, getitem_range, getitem, getitem_bystrides, getitem_next, carry, contiguous, iscontiguous, toRegularArray", "src/libawkward/Slice.cpp: Slice::become_sealed, SliceArrayOf::ravel", "src/cpu-kernels/awkward_NumpyArray_contiguous_*.cpp, awkward_NumpyArray_getitem_next_*.cpp, awkward_slicearray_ravel.cpp"]}
{"id": "C40", "title": "Arrays as slices: integers, masks of booleans and missing values, in lists", "statement": "array[slice], where slice is an array of integers or booleans, flat or in lists any number of levels deep, has the elements at the given positions, counted from the end when negative, or where the booleans are true; what is missing in the slice is missing in the result, and the lists of the slice select within the lists of the array. An exception is raised exactly when a position is out of range or the lists do not fit.", "quantifier": "all arrays and all slices of integers or booleans, with and without missing values, of every layout and any depth", "why_tests_cant": "layouts, depths and the places of missing values combine without bound", "anchors": ["src/libawkward/array/*.cpp: asslice", "src/libawkward/array/ListArray.cpp: getitem_next_jagged", "src/libawkward/Content.cpp: getitem, getitem_next (SliceMissing64), getitem_next_missing, getitem_next_missing_jagged", "src/cpu-kernels/awkward_NumpyArray_getitem_boolean_*.cpp, awkward_ListOffsetArray_getitem_adjust_offsets*.cpp, awkward_IndexedArray_getitem_adjust_outindex.cpp, awkward_ListArray_getitem_jagged_*.cpp, awkward_missing_repeat.cpp"]}
{"id": "C41", "title": "ROOT's vectors of vectors are read as the lists they are", "statement": "ak._io.uproot_issue_90(form, data, byte_offsets), which reads the bytes ROOT writes for std::vector<std::vector<T>>, returns one item per entry, equal to the list of lists of numbers written there, wherever the entries stand in the data and whatever their version. A form of another type, and data that is not well-formed, raise an exception.", "quantifier": "all contents of entries, all places of entries in the data, all versions, all forms", "why_tests_cant": "numbers, lengths, positions and gaps are unbounded in combination", "anchors": ["src/libawkward/io/uproot.cpp: uproot_issue_90, uproot_issue_90_impl, byteswap"]}
{"id": "C42", "title": "Forms survive JSON and compare properly", "statement": "Form.tojson(verbose) followed by Form.fromjson gives back the same Form: class, index widths, sizes, number format, fields with their keys and order, parameters, identities and form key. Any other JSON is read as a Form or refused with an exception. Comparing Forms with == says that they are the same exactly if class, widths, sizes, formats, fields (in any order), identities, form keys and the parameters __array__ and __record__ agree, and is an equivalence.", "quantifier": "all Forms of any depth, verbose or not, and all JSON values", "why_tests_cant": "Forms and JSON values are trees of any shape and depth", "anchors": ["src/libawkward/Content.cpp: fromjson_part, Form::fromjson, Form::tojson, parameters_tojson, form_key_tojson", "src/libawkward/array/*.cpp: tojson_part, equal", "src/libawkward/Index.cpp: str2form, form2str", "src/libawkward/util.cpp: name_to_dtype, dtype_to_name, format_to_dtype, parameters_equal", "src/libawkward/io/json.cpp: copyjson"]}
{"id": "C43", "title": "LayoutBuilder makes the array of the values it was given", "statement": "A LayoutBuilder made from a Form accepts every history of calls (boolean, int64, float64, string, null, begin_list, end_list) that appends values of the Form, and snapshot() is then a valid array of that Form with exactly these values, in order. Calls that do not fit the Form throw, and nothing is lost or undefined.", "quantifier": "all Forms of any depth, all lists of values of the Form, all initial sizes and growth of the outputs", "why_tests_cant": "the Form is compiled to a program in a small language, and the program is resumed once per call: Forms, values and histories are unbounded", "anchors": ["src/libawkward/layoutbuilder/LayoutBuilder.cpp: formBuilderFromA, initialise, int64, float64, boolean, begin_list, end_list, string, snapshot", "src/libawkward/layoutbuilder/NumpyArrayBuilder.cpp", "src/libawkward/layoutbuilder/ListOffsetArrayBuilder.cpp", "src/libawkward/layoutbuilder/ListArrayBuilder.cpp", "src/libawkward/layoutbuilder/RecordArrayBuilder.cpp", "src/libawkward/layoutbuilder/IndexedArrayBuilder.cpp", "src/libawkward/layoutbuilder/RegularArrayBuilder.cpp", "src/libawkward/forth/ForthMachine.cpp: tokenize, parse, internal_run"]}
{"id": "C44", "title": "Uniqueness tells apart the elements of an array", "statement": "is_unique() says whether no two elements of an array that are not missing are equal, whatever its layout, and unique() of an array of numbers has every number exactly once, in increasing order. The answer depends on the elements only, not on the buffers behind them.", "quantifier": "all arrays of any depth and length, all values, all views of longer buffers", "why_tests_cant": "every pair of elements matters, at any position and any length; the tests use a few arrays of one shape, and the comparison loops go wrong only for particular pairs", "anchors": ["src/libawkward/array/NumpyArray.cpp: is_unique, unique, is_subrange_equal, subranges_equal, unique_data, array_unique", "src/libawkward/array/IndexedArray.cpp: is_unique, is_subrange_equal", "src/libawkward/array/ListOffsetArray.cpp: is_unique, is_subrange_equal", "src/libawkward/array/RecordArray.cpp: is_unique", "src/cpu-kernels/awkward_unique.cpp", "src/cpu-kernels/awkward_NumpyArray_subrange_equal.cpp", "src/cpu-kernels/awkward_IndexedArray_ranges_next_64.cpp", "src/cpu-kernels/awkward_IndexedArray_ranges_carry_next_64.cpp"]}
{"id": "C45", "title": "Converting the numbers of an array keeps everything else", "statement": "ak.values_astype(array, type) gives an array with the same lists, records, unions and missing values in which every number is the old one in the new type: integers keep their value if they fit (and their low bits otherwise), floating-point numbers lose their fraction, truth values say whether the number is not zero. Types that are not supported are refused. Only the numbers change in the array's type.", "quantifier": "all arrays of any depth and layout, all numbers, all target types", "why_tests_cant": "every layout class converts its content by itself, and every pair of types has its own loop: arrays, depths and values are unbounded", "anchors": ["src/libawkward/array/NumpyArray.cpp: numbers_to_type, as_type, cast_to_type", "src/libawkward/array/*.cpp: numbers_to_type", "src/cpu-kernels/awkward_NumpyArray_fill.cpp", "src/cpu-kernels/awkward_NumpyArray_fill_frombool.cpp", "src/cpu-kernels/awkward_NumpyArray_fill_tobool.cpp", "src/awkward/operations/structure.py: values_astype"]}
{"id": "C46", "title": "A copy holds the same elements and shares no memory", "statement": "ak.copy(array) (and copy.deepcopy) has the same elements as the array, and afterwards nothing that is done to the memory of either of them changes the other.", "quantifier": "all arrays of any depth and layout, all ways in which they share or cut out buffers, all later changes of memory", "why_tests_cant": "arrays refer to shared buffers at any offset and stride; sharing is a property of all later writes", "anchors": ["src/libawkward/array/NumpyArray.cpp: deep_copy", "src/libawkward/array/*.cpp: deep_copy", "src/libawkward/Index.cpp: deep_copy", "src/awkward/operations/structure.py: copy"]}
{"id": "C47", "title": "nbytes counts every element of memory that an array uses once", "statement": "array.nbytes is the number of bytes of all the index, mask and number elements that the array refers to, where memory that several parts of the array share is counted only once, if of two parts of the same buffer one contains the other; it is never more than that number.", "quantifier": "all arrays of any depth and layout, all ways in which their parts share buffers", "why_tests_cant": "the sharing patterns of buffers in a tree of arrays are unbounded", "anchors": ["src/libawkward/Content.cpp: nbytes", "src/libawkward/Index.cpp: nbytes_part", "src/libawkward/array/*.cpp: nbytes_part", "src/awkward/highlevel.py: nbytes"]}
{"id": "C48", "title": "A field given to an array of records is read back, and the others stay", "statement": "records.setitem_field(where, what) gives every record the new field, with the element of what at the same place; reading the field back gives what, all other fields are unchanged, and an array of another length is refused.", "quantifier": "all arrays of records or tuples with any fields, all names and positions, all arrays of new values", "why_tests_cant": "all combinations of names, positions, lengths and contents longer than the records", "anchors": ["src/libawkward/array/RecordArray.cpp: setitem_field, minlength", "src/libawkward/util.cpp: init_recordlookup", "src/python/content.cpp: setitem_field"]}
{"id": "C49", "title": "The field names listed are the ones that can be used", "statement": "ak.fields(array) (layout.keys()) lists the names of the fields of the outermost records, in order, numbers for tuples, and for unions those that all types have; every listed name can be read with array[name], and haskey(name) is true exactly for the listed names.", "quantifier": "all arrays of any depth and layout, all names", "why_tests_cant": "all nestings of lists, options, unions and records, all texts as names", "anchors": ["src/libawkward/util.cpp: keys, haskey, fieldindex", "src/libawkward/array/*.cpp: keys, haskey", "src/awkward/operations/describe.py: fields"]}
{"id": "C50", "title": "Positions and names of fields determine each other", "statement": "For arrays of records, layout.numfields is the number of names that layout.keys() lists, layout.key(i) is the i-th of them and an error for every i that is not a position, layout.fieldindex(name) is a position at which the name stands, and the two undo each other when the names differ; unions and arrays without records refuse both.", "quantifier": "all arrays of any depth and layout, all names and all integers", "why_tests_cant": "all nestings of lists, options and records, all numbers of fields and all positions", "anchors": ["src/libawkward/util.cpp: key, fieldindex", "src/libawkward/array/*.cpp: numfields, fieldindex, key"]}
