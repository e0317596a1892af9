{
 "claims": [
  {
   "property": "C01",
   "status": "proved",
   "theorems": [
    "C01_partition_exact"
   ],
   "note": ""
  },
  {
   "property": "C02",
   "status": "proved",
   "theorems": [
    "C02_run_exactly_once",
    "C02_all_return"
   ],
   "note": "transition system, any pool size, any sequence of calls, any schedule with spurious wakeups; sequentially consistent interleavings"
  },
  {
   "property": "C03",
   "status": "proved",
   "theorems": [
    "C03_no_deadlock",
    "C03_terminates"
   ],
   "note": ""
  },
  {
   "property": "C04",
   "status": "partial",
   "theorems": [
    "C04_destructor_terminates_refuted",
    "C04_destructor_terminates_partial"
   ],
   "note": "REFUTED as stated: the destructor notifies without taking the mutex, a worker between its predicate and its sleep is lost. The partial theorem characterises the schedules on which it completes."
  },
  {
   "property": "C05",
   "status": "proved",
   "theorems": [
    "C05_reduce_cells",
    "C05_reduce_value",
    "C05_reduce_value_noncommutative_refuted"
   ],
   "note": "for commutative reductions; the order of cells is not the order of ranges, so a non-commutative reduction is wrong (shown by the refuted theorem)"
  },
  {
   "property": "C06",
   "status": "proved",
   "theorems": [
    "C06_exec_once_per_thread",
    "C06_exec_at_most_once",
    "C06_no_deadlock"
   ],
   "note": "transition system of bgworkers.h, any number of threads, any tasks, any schedule; the constructor's handshake is not modelled"
  },
  {
   "property": "C07",
   "status": "partial",
   "theorems": [
    "C07_task_list_partial",
    "C07_task_list_history_partial",
    "C07_served_by_priority",
    "C07_only_in_passes",
    "C07_pass_completes",
    "C07_equal_priority_order_refuted"
   ],
   "note": "everything proved except the order of equal priorities, which is REFUTED: std::sort is not stable"
  },
  {
   "property": "C08",
   "status": "proved",
   "theorems": [
    "C08_fifo",
    "C08_no_overlap"
   ],
   "note": "refinement to a bounded FIFO for every protocol-conforming history; releases take at least one element"
  },
  {
   "property": "C09",
   "status": "partial",
   "theorems": [
    "C09_fifo_partial",
    "C09_fifo_refuted",
    "C09_overlap_refuted"
   ],
   "note": "REFUTED as stated: an empty buffer whose whole capacity is claimed from a non-zero index grants the claim again. The partial theorem gives FIFO behaviour for any number of producers outside that state."
  },
  {
   "property": "C10",
   "status": "proved",
   "theorems": [
    "C10_epoch_batches"
   ],
   "note": "After any history of documented calls, both layouts, any thread partition and interleaving of the extraction kernels; the epoch's batch size may be any size up to the negotiated one (the full size if training is full-batch)."
  },
  {
   "property": "C100",
   "status": "proved",
   "theorems": [
    "C100_succeeds"
   ],
   "note": "As C99. Over the activations no such theorem holds."
  },
  {
   "property": "C101",
   "status": "proved",
   "theorems": [
    "C101_sparse",
    "C101_no_memory",
    "C101_small_layer"
   ],
   "note": "Arithmetic over the real numbers. The size of the previous layer is checked by debug builds only; C101_small_layer shows that the condition is needed."
  },
  {
   "property": "C102",
   "status": "proved",
   "theorems": [
    "C102_he",
    "C102_he2",
    "C102_xavier",
    "C102_orthogonal"
   ],
   "note": "Arithmetic over the real numbers; numbers of the normal distribution are arbitrary (their distribution is not a matter of this code); LAPACK's gesvd as documented (svd_ok). The initialisers named Xavier and OrthoInit do not set biases to 0."
  },
  {
   "property": "C103",
   "status": "proved",
   "theorems": [
    "C103_serves",
    "C103_epoch"
   ],
   "note": "The transformation is any object that respects the interface documented at the top of transf_train_data.h (Tf_Spec.conforms); its number of base samples agrees with the storage (next_subset asks the storage, everything else the transformation). Samples in rows, two sets."
  },
  {
   "property": "C104",
   "status": "partial",
   "theorems": [
    "C104_walk_partial",
    "C104_walk_refuted"
   ],
   "note": "REFUTED: a remainder of exactly one sample is skipped without notice (as in C12 for stored data). The partial theorem: everything else is shown, once each."
  },
  {
   "property": "C105",
   "status": "proved",
   "theorems": [
    "C105_inference",
    "C105_train"
   ],
   "note": "Sizes are compared over unbounded integers; the largest size representable is a hypothesis where success is claimed."
  },
  {
   "property": "C106",
   "status": "partial",
   "theorems": [
    "C106_train_partial",
    "C106_inference_partial",
    "C106_refuted"
   ],
   "note": "REFUTED twice: if the transformation can not be initialised, init4inference returns an error but the object says it is initialised; if the request is refused (size not divisible, empty or incoherent data) an object that was initialised stays so. The partial theorems characterise the state after every failure."
  },
  {
   "property": "C107",
   "status": "partial",
   "theorems": [
    "C107_statistics_partial",
    "C107_statistics_refuted"
   ],
   "note": "REFUTED: with all values treated together, the measured mean is stored as an offset in passes that only scale, so that success is reported for data with another mean. The partial theorem proves everything else of the statement and that this is the only case (tdrifts); per column the statement holds."
  },
  {
   "property": "C108",
   "status": "partial",
   "theorems": [
    "C108_failure_partial",
    "C108_skipped_partial",
    "C108_failure_refuted"
   ],
   "note": "REFUTED: when the tries run out the maps of the passes made so far stay in effect; and data that has the requested statistics already is reported as a failure (as in C94). The partial theorems say exactly when failure is reported and when the values stay unchanged."
  },
  {
   "property": "C109",
   "status": "proved",
   "theorems": [
    "C109_vector",
    "C109_cells",
    "C109_others",
    "C109_squares",
    "C109_loss",
    "C109_plain",
    "C109_exact"
   ],
   "note": "Flocq's FLT formats: gradual underflow, no overflow and no NaN. The operations are taken one by one in the order of the source; the project files compile with /fp:fast, which permits the compiler to drop the compensation (the comments at smath.h:300 and 428 wish for precise semantics). The other stable losses are covered in exact arithmetic only (C57)."
  },
  {
   "property": "C11",
   "status": "proved",
   "theorems": [
    "C11_indices_stay_a_permutation",
    "C11_every_order_possible"
   ],
   "note": "Mini-batch training (otherwise there is no index vector). The generator's contract is rng(k) < k."
  },
  {
   "property": "C110",
   "status": "proved",
   "theorems": [
    "C110_serves",
    "C110_range"
   ],
   "note": "The engines and the distribution object are any functions of their state; steps of the background threads are atomic where data_buffer.h holds its mutex; the order of tasks of bgworkers.h is left open (any order). Numbers are reals."
  },
  {
   "property": "C111",
   "status": "partial",
   "theorems": [
    "C111_once_partial",
    "C111_once_refuted"
   ],
   "note": "REFUTED: with four background threads a number can be delivered twice (a consequence of C09: an empty buffer that is claimed as a whole is claimed again). The partial theorem: it holds if the portions all other threads may be working on do not fill the buffer, in particular with one background thread."
  },
  {
   "property": "C112",
   "status": "partial",
   "theorems": [
    "C112_engines",
    "C112_reproducible_partial",
    "C112_seed_refuted",
    "C112_normal_refuted"
   ],
   "note": "REFUTED twice: numbers drawn before the seeding stay in the buffers; the distribution objects of the background threads keep a number in stock even through deinit_rng(). The partial theorem: deinit_rng() and seed() give a state that depends only on the seed if no normally distributed numbers were announced; all engines are replaced in any case."
  },
  {
   "property": "C113",
   "status": "partial",
   "theorems": [
    "C113_report_refuted",
    "C113_refused_partial"
   ],
   "note": "REFUTED: _AFRand_as::init_rng returns what the base class returned, which is always true. The partial theorem: afterwards all vectors are made synchronously."
  },
  {
   "property": "C114",
   "status": "proved",
   "theorems": [
    "C114_described",
    "C114_success_only"
   ],
   "note": "rapidjson's parser is not modelled: documents are parsed values. The conversion of a number to an element is any function; numbers it is not defined for are excluded (see C118)."
  },
  {
   "property": "C115",
   "status": "proved",
   "theorems": [
    "C115_train_data",
    "C115_failure_unchanged",
    "C115_no_document"
   ],
   "note": "For enough memory; the theorem about failures covers failed allocations too. That a malformed member is reported as missing is C116."
  },
  {
   "property": "C116",
   "status": "partial",
   "theorems": [
    "C116_code_refuted",
    "C116_code_partial"
   ],
   "note": "REFUTED: _members2ErrorCode ignores the code it is given, so malformed members are reported as missing ones and the codes Invalid* never occur. The partial theorem: what the other codes tell is right."
  },
  {
   "property": "C117",
   "status": "partial",
   "theorems": [
    "C117_failure_refuted",
    "C117_failure_partial"
   ],
   "note": "REFUTED: the old elements are lost, the bias flag stays set and makes a later unbiased read biased, and after a failed allocation another read of the same file writes through a null pointer. The partial theorem says what is left after other failures; then another read is possible."
  },
  {
   "property": "C118",
   "status": "partial",
   "theorems": [
    "C118_integral_refuted",
    "C118_integral_partial"
   ],
   "note": "REFUTED: a number with a fraction violates the precondition of GetInt64()/GetUint64(), a too big one is silently reduced modulo the size of the type. The partial theorem: documents with numbers of the type are read exactly."
  },
  {
   "property": "C119",
   "status": "proved",
   "theorems": [
    "C119_settings"
   ],
   "note": "set_default() lacks its return statement (formally undefined behaviour, rejected by MSVC if instantiated); the theorem takes the effect of its statements."
  },
  {
   "property": "C12",
   "status": "partial",
   "theorems": [
    "C12_walk_partial",
    "C12_walk_refuted"
   ],
   "note": "REFUTED as stated: when dataset size mod batch size = 1 the last sample is never returned. Proved: the subsets are consecutive, in order, without repetition, and complete unless that remainder is 1."
  },
  {
   "property": "C120",
   "status": "partial",
   "theorems": [
    "C120_copy_refuted",
    "C120_copy_partial"
   ],
   "note": "REFUTED: the implicit copy constructor copies iterators into the list of the original. The partial theorem: right after the copy both agree."
  },
  {
   "property": "C121",
   "status": "partial",
   "theorems": [
    "C121_restores_refuted",
    "C121_restores_partial",
    "C121_nested"
   ],
   "note": "REFUTED: worker threads are given the priority the calling thread had, not their own; so a guard for all threads inside one for the calling thread leaves the workers raised, and even a guard that failed changes the priorities of workers. The partial theorems: it holds if the workers had the calling thread's priority, and for guards for all threads within each other. Calls that restore are assumed to succeed."
  },
  {
   "property": "C122",
   "status": "proved",
   "theorems": [
    "C122_raised",
    "C122_change"
   ],
   "note": "The Windows variant; the variant for other systems does nothing. Calls that restore are assumed to succeed."
  },
  {
   "property": "C123",
   "status": "proved",
   "theorems": [
    "C123_excludes",
    "C123_progress"
   ],
   "note": "Sequentially consistent memory: the fences and memory orders are not modelled."
  },
  {
   "property": "C124",
   "status": "partial",
   "theorems": [
    "C124_starvation_refuted"
   ],
   "note": "REFUTED, as for every lock of this kind: a thread may find the lock taken each time it looks. What holds instead is C123_progress."
  },
  {
   "property": "C125",
   "status": "partial",
   "theorems": [
    "C125_timed_refuted",
    "C125_timed_partial"
   ],
   "note": "REFUTED: the comparison with the deadline is the wrong way round, and the loop around the predicate ignores the status, so there is no time limit. Harmless for the only caller, whose predicate has its own deadline and which ignores the result (C126)."
  },
  {
   "property": "C126",
   "status": "proved",
   "theorems": [
    "C126_latency"
   ],
   "note": "The native variant of the primitives, while no stop and no exec() is requested; the task stays registered."
  },
  {
   "property": "C127",
   "status": "partial",
   "theorems": [
    "C127_round_trip_partial",
    "C127_round_trip_refuted",
    "C127_biases_refuted"
   ],
   "note": "REFUTED: whether the last column is taken for biases is decided by the name of the variable (train_x, test_x), not by what was saved. The partial theorem: it holds for any nested items whose names differ, if matrices are not empty, are stored with a sample per row, and have biases (ones) exactly when they have these names."
  },
  {
   "property": "C128",
   "status": "proved",
   "theorems": [
    "C128_saved"
   ],
   "note": "For any behaviour of the calls of Matlab's library that create arrays, add fields and put variables."
  },
  {
   "property": "C129",
   "status": "partial",
   "theorems": [
    "C129_close_refuted",
    "C129_close_partial"
   ],
   "note": "REFUTED: close() overwrites the last error, so it reports success after a failed save. The partial theorem: exactly what it does report."
  },
  {
   "property": "C13",
   "status": "proved",
   "theorems": [
    "C13_batch_sizes"
   ],
   "note": ""
  },
  {
   "property": "C130",
   "status": "partial",
   "theorems": [
    "C130_update_refuted",
    "C130_empty_refuted",
    "C130_pieces_partial"
   ],
   "note": "REFUTED: updating a field of a structure that is itself being written uses the field after destroying it; updating a variable that is an empty array of structures leaves an error set, so that all that follows is ignored. The partial theorem: without these, any sequence of nested and not to be nested structures gives the file it describes."
  },
  {
   "property": "C131",
   "status": "partial",
   "theorems": [
    "C131_signed_refuted",
    "C131_ints_partial"
   ],
   "note": "REFUTED: integers of other classes than the destination's are read through pointers to unsigned types, so negative ones become big positive ones. The partial theorem: others are converted exactly. int16 and uint16 are not supported."
  },
  {
   "property": "C132",
   "status": "proved",
   "theorems": [
    "C132_add",
    "C132_mul_add"
   ],
   "note": "Real arithmetic; the matrix is not all biases."
  },
  {
   "property": "C133",
   "status": "proved",
   "theorems": [
    "C133_mean",
    "C133_sub",
    "C133_sub_means"
   ],
   "note": "Real arithmetic."
  },
  {
   "property": "C134",
   "status": "proved",
   "theorems": [
    "C134_centred"
   ],
   "note": "Real arithmetic; the mean of no elements (0/0) is shown not to be used."
  },
  {
   "property": "C135",
   "status": "proved",
   "theorems": [
    "C135_bits",
    "C135_binary"
   ],
   "note": "Elements as bit patterns. mrwBinaryOR_mt_cw is called with more columns than its threshold per thread only, as it asserts."
  },
  {
   "property": "C136",
   "status": "partial",
   "theorems": [
    "C136_dumped_partial",
    "C136_initial_refuted",
    "C136_again_refuted",
    "C136_first_epoch_refuted"
   ],
   "note": "REFUTED: listing -1 (the error before the training), which CalcErrByEpochNum is made for, sets a flag outside of the vector of flags; an empty list is replaced for good by the last epoch of the first training; EpochNumWFirstNLastBatch does not dump a listed first epoch. The partial theorem: exactly the batches and error calculations asked for, for lists of epochs from 0 on, an empty list meaning the last epoch of this training, and with the first epoch of EpochNumWFirstNLastBatch left to its first N batches."
  },
  {
   "property": "C137",
   "status": "partial",
   "theorems": [
    "C137_contents_partial",
    "C137_switch_refuted",
    "C137_again_refuted"
   ],
   "note": "REFUTED: switched off between the begin and the end of a dumped batch the inspector leaves the file open, and the next dump aborts the program; a network that is trained again without being initialized again does not announce its layers, whose names and list entries init_nnet() has just cleared. The partial theorem: all the files of a training and their contents, the inspector not being switched while it runs and all layers announced."
  },
  {
   "property": "C138",
   "status": "partial",
   "theorems": [
    "C138_round_trip_partial",
    "C138_no_file",
    "C138_names",
    "C138_close_refuted"
   ],
   "note": "REFUTED: write_weights() takes its result before the destructor of the archive closes the file, and reports success if the closing fails. The partial theorem: whatever calls of Matlab's library fail, after a reported success and a successful closing everything is read back, if no allocation fails; without failures success is reported."
  },
  {
   "property": "C139",
   "status": "partial",
   "theorems": [
    "C139_read_partial",
    "C139_half_refuted",
    "C139_tiles_refuted"
   ],
   "note": "REFUTED: a reading that fails at a layer leaves the earlier layers with new weights; the tile count of a tiling layer is overwritten by any value of the file, and success reported. The partial theorem: for any file the result is defined, the layers are kept, weights are kept or replaced by a suitable matrix, and success means that every layer has the file's."
  },
  {
   "property": "C14",
   "status": "partial",
   "theorems": [
    "C14_confirmed_partial",
    "C14_confirmed_refuted"
   ],
   "note": "REFUTED as stated: full-batch training with a larger test set is not confirmed. Exact characterisation proved."
  },
  {
   "property": "C140",
   "status": "proved",
   "theorems": [
    "C140_restriction",
    "C140_sign",
    "C140_gradient"
   ],
   "note": "Real arithmetic; calls of restrict_dL_dZ() as it asserts: bounds on both sides of zero, or both zero."
  },
  {
   "property": "C141",
   "status": "proved",
   "theorems": [
    "C141_complement",
    "C141_difference",
    "C141_product",
    "C141_sum",
    "C141_scaled"
   ],
   "note": "Real arithmetic; samples in rows, as the callers have them (biases in a row of every column would be taken for elements); the gate is binary, as asserted."
  },
  {
   "property": "C142",
   "status": "partial",
   "theorems": [
    "C142_readable_partial",
    "C142_nanoseconds",
    "C142_readable_refuted"
   ],
   "note": "REFUTED: there is no unit bigger than the second, but the number is divided all the same, so an hour given in seconds is printed as 3.600 s. The partial theorem: the text is right exactly if the number is below 1000 for seconds, 10^6 for milliseconds, 10^9 for microseconds; always for nanoseconds, which are all the library itself uses. Real arithmetic, before the rounding to three places."
  },
  {
   "property": "C143",
   "status": "proved",
   "theorems": [
    "C143_stopwatch"
   ],
   "note": "Durations without overflow; the sum of a stopwatch's runs is assumed to fit."
  },
  {
   "property": "C144",
   "status": "partial",
   "theorems": [
    "C144_count_partial",
    "C144_strict_partial",
    "C144_rows_partial",
    "C144_extract_partial",
    "C144_count_refuted",
    "C144_overrun_refuted"
   ],
   "note": "REFUTED: vCountNonZeros() does not count NaNs; the strict version counts negative zeros (as documented) and has a counter of the size of an element, so it counts 2^32 floats as none; a negative zero, a NaN or a flushed subnormal number in a mask selects a row that was not counted, so the kernel writes behind its destination. The partial theorems: the exact counts, and that counted and selected rows agree exactly without these elements - gates are asserted to be zeros and ones."
  },
  {
   "property": "C15",
   "status": "proved",
   "theorems": [
    "C15_pool_ranges",
    "C15_extract_rows",
    "C15_extract_cols",
    "C15_extract_rows_seq",
    "C15_copy_data_skip_bias"
   ],
   "note": "Memory-level model; every interleaving of the threads' writes; element type arbitrary."
  },
  {
   "property": "C16",
   "status": "proved",
   "theorems": [
    "C16_extract_by_mask",
    "C16_fill_by_mask",
    "C16_extract_then_fill",
    "C16_fill_then_extract"
   ],
   "note": "The mask test is an abstract boolean test of the element's bit pattern."
  },
  {
   "property": "C17",
   "status": "proved",
   "theorems": [
    "C17_transpose",
    "C17_transpose_ignore_bias",
    "C17_transpose_twice"
   ],
   "note": "Both traversal orders, with and without bias handling."
  },
  {
   "property": "C18",
   "status": "proved",
   "theorems": [
    "C18_roll",
    "C18_unroll",
    "C18_unroll_after_roll",
    "C18_roll_after_unroll"
   ],
   "note": "All code paths (single-threaded, both thread-parallel ones), any partition."
  },
  {
   "property": "C19",
   "status": "proved",
   "theorems": [
    "C19_clone_cols",
    "C19_clone_col",
    "C19_zero_count_refuted"
   ],
   "note": "Positive counts, as in the statement. C19_zero_count_refuted shows that the restriction is needed."
  },
  {
   "property": "C20",
   "status": "proved",
   "theorems": [
    "C20_index_is_maximum",
    "C20_first_maximum"
   ],
   "note": "Values totally ordered by > (no NaN). Includes bounds of the temporary block and all dispatch paths."
  },
  {
   "property": "C21",
   "status": "partial",
   "theorems": [
    "C21_thread_independent_partial",
    "C21_thread_independent_refuted"
   ],
   "note": "REFUTED on ties: with equal maxima in a row the column-split version returns the maximum of the lowest thread id, and thread 0 owns the last columns. Proved for rows with a single maximum."
  },
  {
   "property": "C22",
   "status": "proved",
   "theorems": [
    "C22_stack_discipline",
    "C22_violations_abort"
   ],
   "note": "Sizes are natural numbers: overflow of the element count is not modelled."
  },
  {
   "property": "C23",
   "status": "proved",
   "theorems": [
    "C23_best_distinct",
    "C23_best_with_repetitions",
    "C23_helper_layout"
   ],
   "note": "For values on which < is a strict total order (no NaN)."
  },
  {
   "property": "C24",
   "status": "partial",
   "theorems": [
    "C24_aggregate_partial",
    "C24_aggregate_refuted"
   ],
   "note": "REFUTED as stated: a better value of a later batch is lost when the first batch has fewer than k (distinct) values or values repeat. Proved when the first batch holds k different values and, for orders with repetitions, the column has no repeated values."
  },
  {
   "property": "C25",
   "status": "proved",
   "theorems": [
    "C25_index_bijection",
    "C25_range_traversal",
    "C25_parallel_traversal",
    "C25_large_index_refuted"
   ],
   "note": "Binary64 square root modelled with Flocq; proved for matrices of up to 47453132 rows (8k+9 < 2^53). C25_large_index_refuted shows that the bound on the index is needed."
  },
  {
   "property": "C26",
   "status": "proved",
   "theorems": [
    "C26_biases_stay_one",
    "C26_failed_clone_drops_biases"
   ],
   "note": "Invariant over arbitrary operation sequences whose calls respect the asserted preconditions. A clone_to() that runs out of memory is excluded: it drops the bias flag (second theorem)."
  },
  {
   "property": "C27",
   "status": "partial",
   "theorems": [
    "C27_clone_to_no_bias_partial",
    "C27_external_destination",
    "C27_biased_destination",
    "C27_clone_to_no_bias_refuted"
   ],
   "note": "REFUTED as stated: a destination that emulates biases gets one column too many. Proved for other destinations."
  },
  {
   "property": "C28",
   "status": "proved",
   "theorems": [
    "C28_matrix_round_trip",
    "C28_train_data_round_trip",
    "C28_sequences_round_trip"
   ],
   "note": "Byte-level model. Files whose byte counts fit in 64 bits; memory suffices; opening and seeking succeed. Element conversion is a parameter."
  },
  {
   "property": "C29",
   "status": "partial",
   "theorems": [
    "C29_matrix_partial",
    "C29_train_data_partial",
    "C29_sequences_partial",
    "C29_matrix_codes_partial",
    "C29_train_data_codes_partial",
    "C29_malformed_accepted_refuted"
   ],
   "note": "REFUTED as stated: byte counts wrap modulo 2^64, a half-megabyte file announcing 2^61+65536 doubles is accepted. Proved: every accepted file whose byte counts fit in 64 bits is well-formed and its content is delivered; error codes identify the first defect (iff for matrices, for train data every defect is reported by its code). Codes of sequence files are not characterised."
  },
  {
   "property": "C30",
   "status": "proved",
   "theorems": [
    "C30_derivative",
    "C30_wherever_differentiable",
    "C30_smooth",
    "C30_kink",
    "C30_matrix",
    "C30_matrix_df"
   ],
   "note": "Over the reals; parameters accepted by the debug assertions. Kernels for all twelve activation families and their special-parameter variants; matrices for every split between threads."
  },
  {
   "property": "C31",
   "status": "proved",
   "theorems": [
    "C31_element",
    "C31_batch",
    "C31_xentropy_meaning",
    "C31_factor"
   ],
   "note": "Over the reals. The factor p/(p+tiny) is in the statement."
  },
  {
   "property": "C32",
   "status": "proved",
   "theorems": [
    "C32_softmax",
    "C32_distribution",
    "C32_shift",
    "C32_bounded",
    "C32_row_max",
    "C32_loss",
    "C32_dLdZ",
    "C32_gradient",
    "C32_gradient_any_labels"
   ],
   "note": "Memory-level model of all dispatch paths over the reals, every interleaving, temporary block of the documented size. For labels not summing to one the last theorem gives the true derivative, which differs from a - y."
  },
  {
   "property": "C33",
   "status": "proved",
   "theorems": [
    "C33_gradient"
   ],
   "note": "Over the reals, for nets of any depth of fully connected layers, identity layers, vertical and horizontal packs (nested) with any of the modelled activations and output losses, wherever the activations are differentiable; the buffers must be large enough (see C76). Element-wise output losses; softmax is C32."
  },
  {
   "property": "C34",
   "status": "partial",
   "theorems": [
    "C34_tiles_partial",
    "C34_tiles_refuted"
   ],
   "note": "REFUTED: the weight gradient of a tiled layer is divided by the number of tiles once too often. Proved: the true derivative is exactly k times what the code stores (per tiled layer the weights belong to)."
  },
  {
   "property": "C35",
   "status": "proved",
   "theorems": [
    "C35_dropout",
    "C35_alpha",
    "C35_mean",
    "C35_alpha_moments",
    "C35_backward"
   ],
   "note": "Memory level, every dispatch and interleaving; expectation as a Riemann integral over the uniform random number; alpha-dropout moments for every finite distribution with the fixed point's mean and variance; backward: activations restored, dL/dA multiplied by the derivative of the forward map."
  },
  {
   "property": "C36",
   "status": "proved",
   "theorems": [
    "C36_classical",
    "C36_nesterov"
   ],
   "note": "For every optimizer (plain SGD among them), weight-dependent gradients, schedules of learning rate and momentum; individual rates, dropout of updates and max-norm off. Over the reals, every split between threads."
  },
  {
   "property": "C37",
   "status": "proved",
   "theorems": [
    "C37_state",
    "C37_weights"
   ],
   "note": "All nine types. Matrices and powers may hold anything at the start. RMSProp and ModProp: the published recurrence started at the first gradient, whose step is the plain one."
  },
  {
   "property": "C38",
   "status": "proved",
   "theorems": [
    "C38_defined"
   ],
   "note": "For eps > 0 and decay rates in (0,1); blocked steps included; all configurations."
  },
  {
   "property": "C39",
   "status": "partial",
   "theorems": [
    "C39_rmsprop_partial",
    "C39_rprop",
    "C39_adamax",
    "C39_rmsprop_first_refuted"
   ],
   "note": "REFUTED for the first RMSProp step, which is plain gradient descent; proved for all later steps, for RProp and AdaMax."
  },
  {
   "property": "C40",
   "status": "partial",
   "theorems": [
    "C40_gains_partial",
    "C40_gains_rule",
    "C40_gains_refuted"
   ],
   "note": "REFUTED: the cap is tested before the multiplication. Proved: within (low*decr, high*incr), and the exact gain as a function of the updates."
  },
  {
   "property": "C41",
   "status": "proved",
   "theorems": [
    "C41_max_norm"
   ],
   "note": "Memory-level, all dispatch paths."
  },
  {
   "property": "C42",
   "status": "proved",
   "theorems": [
    "C42_session"
   ],
   "note": "For every environment (initialisation results, thread pool, random numbers, loss values, callbacks): the events of the session follow the plan, data included. The layers' arithmetic is abstract here (C33)."
  },
  {
   "property": "C43",
   "status": "partial",
   "theorems": [
    "C43_divergence_partial",
    "C43_nan_refuted"
   ],
   "note": "REFUTED for a loss that is not a number: training goes on. Proved: NNDiverged is returned iff a checked epoch reports a loss that is a number and at least the threshold."
  },
  {
   "property": "C44",
   "status": "proved",
   "theorems": [
    "C44_exits"
   ],
   "note": "Every failure point of the modelled calls; C++ exceptions thrown by user code are outside."
  },
  {
   "property": "C45",
   "status": "partial",
   "theorems": [
    "C45_reported_partial",
    "C45_reported_refuted"
   ],
   "note": "REFUTED: the reported loss is the sum over the batches of the batch means. Proved: exactly that, hence the mean if the set fits into one batch and n/b times the mean for n samples in batches of b."
  },
  {
   "property": "C46",
   "status": "proved",
   "theorems": [
    "C46_carve",
    "C46_needs",
    "C46_net_sizes"
   ],
   "note": "Fully connected, identity, vertical, horizontal and tile packs, nested at will; gated packs and integer overflow of sizes are outside. C46_net_sizes ties the sizes to those assumed for back-propagation (C33, C47, C76)."
  },
  {
   "property": "C47",
   "status": "proved",
   "theorems": [
    "C47_buffers"
   ],
   "note": "The buffered chain delivers exactly the gradients of a chain without buffers."
  },
  {
   "property": "C48",
   "status": "partial",
   "theorems": [
    "C48_restored_partial",
    "C48_refused",
    "C48_weights",
    "C48_reinit_refuted"
   ],
   "note": "REFUTED: for a network that has to be (re)initialised for the check, mode, batch size and optimizer state are not those found. Proved: weights that exist are never changed on any path; an initialised network is left exactly as it was; refused data change nothing. The condition on sizes excludes the failing calls of C79."
  },
  {
   "property": "C49",
   "status": "partial",
   "theorems": [
    "C49_verdict_partial",
    "C49_not_numbers",
    "C49_nan_refuted",
    "C49_inf_refuted"
   ],
   "note": "REFUTED: analytical derivatives that are NaN or infinite always pass. Proved: the check succeeds iff no pair of numbers differs too much and no layer has too many zeros; and it succeeds whenever no derivative is a number. Arithmetic over the reals with NaN and infinities."
  },
  {
   "property": "C50",
   "status": "partial",
   "theorems": [
    "C50_stride_partial",
    "C50_every",
    "C50_default",
    "C50_start0",
    "C50_start0_refuted",
    "C50_epochs_props_partial",
    "C50_epochs_props_refuted",
    "C50_history",
    "C50_history_defined",
    "C50_outside"
   ],
   "note": "REFUTED: vector_conditions with startsAt = 0 (admitted by its assertion) writes in front of the vector; epochs_props writes behind it exactly when the stride divides the distance to maxEpoch. Proved for vector_conditions with startsAt >= 1 and without startsAt, and for all histories of modifications."
  },
  {
   "property": "C51",
   "status": "proved",
   "theorems": [
    "C51_fill",
    "C51_range",
    "C51_single",
    "C51_single_range",
    "C51_ends",
    "C51_gen_i",
    "C51_gen_i_cstd"
   ],
   "note": "Over the reals, for a basic generator in [0,1] (external library). gen_i for n up to 2^31 (the code asserts n <= INT32_MAX). The asynchronous generator is not modelled (its buffer is C08/C09)."
  },
  {
   "property": "C52",
   "status": "partial",
   "theorems": [
    "C52_mt_partial",
    "C52_single_partial",
    "C52_single_refuted"
   ],
   "note": "REFUTED: rng_helper::normal_vector (AFRand, CStd) uses the length of the vector as the standard deviation. Proved correct for the multithreaded generator."
  },
  {
   "property": "C53",
   "status": "proved",
   "theorems": [
    "C53_activations",
    "C53_shapes",
    "C53_construction",
    "C53_gradients"
   ],
   "note": "Ranges outside of the incoming neurons are undefined behaviour (only asserted); 'construction succeeds' = does not abort()."
  },
  {
   "property": "C54",
   "status": "proved",
   "theorems": [
    "C54_indices",
    "C54_assembles",
    "C54_defined",
    "C54_wraps"
   ],
   "note": "At most 65535 layers; C54_wraps shows that the 16 bit indices repeat beyond."
  },
  {
   "property": "C55",
   "status": "proved",
   "theorems": [
    "C55_counts",
    "C55_reduce",
    "C55_no_clear"
   ],
   "note": "Less than 2^31 pairs; clear() must be called first, the constructor initialises nothing (C55_no_clear)."
  },
  {
   "property": "C56",
   "status": "partial",
   "theorems": [
    "C56_binary_partial",
    "C56_onehot_partial",
    "C56_counts_refuted"
   ],
   "note": "REFUTED: a set whose size leaves a remainder of one sample loses its last sample (C12), so the reported numbers cover one sample less. The partial theorems give the exact numbers over the samples shown, after any use of data object and observer, and for supplementary sets; rows with several equal maxima may count as any of them. Truth data must have the samples in rows."
  },
  {
   "property": "C57",
   "status": "proved",
   "theorems": [
    "C57_vector",
    "C57_nonzero",
    "C57_matrix",
    "C57_triangle",
    "C57_losses"
   ],
   "note": "Arithmetic over the real numbers: both summation functors are exact there; for rounding see C109."
  },
  {
   "property": "C58",
   "status": "proved",
   "theorems": [
    "C58_destructor_terminates"
   ],
   "note": ""
  },
  {
   "property": "C59",
   "status": "partial",
   "theorems": [
    "C59_exec_returns_refuted"
   ],
   "note": "REFUTED: the second lock of exec() is taken with m_bGo2Waiting already cleared, so a task that always has work keeps the shared lock forever"
  },
  {
   "property": "C60",
   "status": "partial",
   "theorems": [
    "C60_resize_partial",
    "C60_resize_refuted"
   ],
   "note": "REFUTED as stated: after a failed allocation the same request is answered with success without storage. Proved for matrices whose last allocation did not fail."
  },
  {
   "property": "C61",
   "status": "proved",
   "theorems": [
    "C61_clone_to"
   ],
   "note": ""
  },
  {
   "property": "C62",
   "status": "partial",
   "theorems": [
    "C62_strict_check",
    "C62_holey_check_partial",
    "C62_holey_check_refuted"
   ],
   "note": "Strict check proved; holey check proved for bias columns and REFUTED for bias rows."
  },
  {
   "property": "C63",
   "status": "partial",
   "theorems": [
    "C63_absorb_partial",
    "C63_absorb_refuted"
   ],
   "note": "Proved for one sample per row. REFUTED for one sample per column (rows are compared instead of batch sizes)."
  },
  {
   "property": "C64",
   "status": "partial",
   "theorems": [
    "C64_failed_inference_partial",
    "C64_failed_inference_refuted"
   ],
   "note": "REFUTED: the size member stays set after TdInitNoMemory. Exact characterisation proved."
  },
  {
   "property": "C65",
   "status": "partial",
   "theorems": [
    "C65_cache_lines_partial",
    "C65_cache_lines_refuted"
   ],
   "note": "REFUTED as stated: the storage is only 16-byte aligned, then blocks share a line. Proved for storage that starts at a cache line."
  },
  {
   "property": "C66",
   "status": "partial",
   "theorems": [
    "C66_matrix_safe_partial",
    "C66_train_data_safe_partial",
    "C66_sequences_safe_partial",
    "C66_memory_refuted"
   ],
   "note": "REFUTED as stated (heap overflow through a wrapped byte count; signed overflow of the column count). Proved for all files which announce no field of more than 2^61 elements or 2^31-1 columns, and, for sequences, no class number of 2^31 or more."
  },
  {
   "property": "C67",
   "status": "partial",
   "theorems": [
    "C67_train_data_unchanged_partial",
    "C67_matrix_refuted"
   ],
   "note": "Proved for train data, REFUTED for matrices."
  },
  {
   "property": "C68",
   "status": "partial",
   "theorems": [
    "C68_buffer_released_partial",
    "C68_buffer_released_refuted"
   ],
   "note": "REFUTED: lost when the data is truncated. Proved that this is the only path (matrices)."
  },
  {
   "property": "C69",
   "status": "partial",
   "theorems": [
    "C69_export_matrix",
    "C69_export_train_data_partial",
    "C69_export_train_data_refuted"
   ],
   "note": "Proved for matrices and for structs of exactly the four fields; REFUTED for structs with further fields (the header counts them)."
  },
  {
   "property": "C70",
   "status": "proved",
   "theorems": [
    "C70_zero_stable"
   ],
   "note": ""
  },
  {
   "property": "C71",
   "status": "partial",
   "theorems": [
    "C71_residual_partial",
    "C71_residual_refuted"
   ],
   "note": "REFUTED: the code compares a with y instead of with YBoundary, the loss jumps at a = y. Proved equal to the documented loss outside the gap between label and boundary."
  },
  {
   "property": "C72",
   "status": "partial",
   "theorems": [
    "C72_set_norm_partial",
    "C72_set_norm_refuted"
   ],
   "note": "REFUTED for a zero row (0/0); proved otherwise."
  },
  {
   "property": "C73",
   "status": "proved",
   "theorems": [
    "C73_max_norm_kept"
   ],
   "note": ""
  },
  {
   "property": "C74",
   "status": "proved",
   "theorems": [
    "C74_dropped_updates"
   ],
   "note": ""
  },
  {
   "property": "C75",
   "status": "partial",
   "theorems": [
    "C75_zero_stabilizer_refuted",
    "C38_defined"
   ],
   "note": "REFUTED for 0 with AdaMax and a zero gradient; for positive stabilizers this is C38."
  },
  {
   "property": "C76",
   "status": "partial",
   "theorems": [
    "C76_sessions_partial",
    "C76_room_partial",
    "C76_buffers_refuted"
   ],
   "note": "REFUTED for an identity layer as the lowest hidden layer. Proved: when the buffers hold the announced batch size no session ever leaves them, and back-propagation is defined exactly when they hold the current batch."
  },
  {
   "property": "C77",
   "status": "partial",
   "theorems": [
    "C77_sizes_partial",
    "C77_batch_size_refuted",
    "C77_memory_refuted",
    "C77_fprop_refuted"
   ],
   "note": "REFUTED: a second session silently trains with the batch size of the first one, or accesses memory outside of the batch buffers. Proved: after deinitialising network and training data every size is honoured, and after deinitialising only the training data if the network is initialised for smaller sizes or this batch size; with unchanged sizes see C42."
  },
  {
   "property": "C78",
   "status": "proved",
   "theorems": [
    "C78_checks"
   ],
   "note": "For networks initialised for the batches of the check, data sizes other than those of C79; the arithmetic of the layers is abstract (any functions of the events so far)."
  },
  {
   "property": "C79",
   "status": "partial",
   "theorems": [
    "C79_whole_set",
    "C79_refuted",
    "C79_other_sizes_partial"
   ],
   "note": "REFUTED: with a batch of all samples and smaller online batches a container that was never filled is used. Proved: exactly then it always fails, all other sizes give a verdict."
  },
  {
   "property": "C80",
   "status": "partial",
   "theorems": [
    "C80_scores",
    "C80_mcc_partial",
    "C80_mcc_overflow",
    "C80_mcc_refuted"
   ],
   "note": "REFUTED: the denominator of MCC overflows the 32 bit counters from 432 balanced samples on. All other scores proved; MCC proved below the overflow. Division by an empty class is NaN/infinity in the code (outside of the hypotheses)."
  },
  {
   "property": "C81",
   "status": "proved",
   "theorems": [
    "C81_lists"
   ],
   "note": ""
  },
  {
   "property": "C82",
   "status": "proved",
   "theorems": [
    "C82_sizes",
    "C82_order",
    "C82_full_batch_with_limit"
   ],
   "note": "An inadmissible value terminates the process (exception in a noexcept function)."
  },
  {
   "property": "C83",
   "status": "proved",
   "theorems": [
    "C83_seed",
    "C83_reproducible"
   ],
   "note": "The external engine is an abstract state with an initialisation function."
  },
  {
   "property": "C84",
   "status": "proved",
   "theorems": [
    "C84_for_each",
    "C84_inner_first"
   ],
   "note": ""
  },
  {
   "property": "C85",
   "status": "proved",
   "theorems": [
    "C85_wired",
    "C85_neurons"
   ],
   "note": ""
  },
  {
   "property": "C86",
   "status": "proved",
   "theorems": [
    "C86_value",
    "C86_gradient"
   ],
   "note": "Covariances need at least two variables and indices within the range of C25; L1 has no derivative at 0, where nothing is claimed."
  },
  {
   "property": "C87",
   "status": "proved",
   "theorems": [
    "C87_value",
    "C87_gradient"
   ],
   "note": "Memory for the stored derivatives of penalties computed on forward propagation and temporary memory suffice (hypotheses)."
  },
  {
   "property": "C88",
   "status": "partial",
   "theorems": [
    "C88_gradient_partial",
    "C88_gradient_refuted"
   ],
   "note": "REFUTED: penalties are added to dL/dA as they are while dL/dW is divided by the batch size, so the gradients are those of mean loss + penalties / batch size; what is reported adds the penalties undivided. The partial theorem states and proves that exactly (it also covers the value reported); the refutation shows a network whose gradient is not the derivative of the reported loss."
  },
  {
   "property": "C89",
   "status": "proved",
   "theorems": [
    "C89_forward",
    "C89_gradient",
    "C89_evaluation"
   ],
   "note": "Dropout on the top-level hidden layers (not inside packs); the random numbers are an arbitrary vector held by the dropout state; C89_gradient for networks without tiled packs (see C33 for the factor of tiles). The 1/batch size of the penalties is the finding of C88."
  },
  {
   "property": "C90",
   "status": "proved",
   "theorems": [
    "C90_forward"
   ],
   "note": "Ranges are not required to be in order; overlapping receptive fields end in abort(). Gates other than 0 and 1 are accepted by the code when not binarised, and then count as open; nothing is claimed about them."
  },
  {
   "property": "C91",
   "status": "partial",
   "theorems": [
    "C91_gradient_partial",
    "C91_gradient_refuted"
   ],
   "note": "REFUTED: an inner layer divides its dL/dW by the number of samples it was shown (its own batch size) instead of the size of the batch. The partial theorem gives the exact factor and proves everything else of the statement; the refutation shows a layer whose gradient is twice the derivative of the mean."
  },
  {
   "property": "C92",
   "status": "proved",
   "theorems": [
    "C92_affine"
   ],
   "note": "Samples in rows (the code supports no other layout here); arithmetic over the real numbers. The input batch size of the network, when the settings refer to it, is one the object serves (hypothesis [fit]). With memory or math initialisation failing inside of the call nothing is claimed about the state of the object (see C64)."
  },
  {
   "property": "C93",
   "status": "proved",
   "theorems": [
    "C93_statistics"
   ],
   "note": "Arithmetic over the real numbers. A remainder of one sample is not looked at (C12)."
  },
  {
   "property": "C94",
   "status": "partial",
   "theorems": [
    "C94_succeeds_partial",
    "C94_big_batch_partial",
    "C94_succeeds_refuted",
    "C94_big_batch_refuted"
   ],
   "note": "REFUTED twice: data that already has the requested statistics is reported as a failure; a batch size above the number of samples is reduced by the initialisation but then refused because the check uses the setting. The partial theorem shows that these are the only failures: with enough tries success is reported exactly when some group of values is out of tolerance; with one try never."
  },
  {
   "property": "C95",
   "status": "partial",
   "theorems": [
    "C95_failure_partial",
    "C95_failure_refuted"
   ],
   "note": "REFUTED: when the tries run out the train x stays as the last pass left it and the test x is not changed. The partial theorem: the test x never changes on failure; the train x has its values with enough tries, and otherwise exactly if it was within tolerance before."
  },
  {
   "property": "C96",
   "status": "proved",
   "theorems": [
    "C96_rows",
    "C96_independent",
    "C96_loss"
   ],
   "note": "Without dropout, gating and normalisation inside of the network; products of matrices as documented, arithmetic over the real numbers."
  },
  {
   "property": "C97",
   "status": "proved",
   "theorems": [
    "C97_descends",
    "C97_sgd",
    "C97_rule"
   ],
   "note": "Where an activation has a kink at a sample of the batch nothing is claimed about the direction of that step. Room for the gradient of an identity layer at the bottom is a hypothesis (C76). C97_rule connects the rule of plain descent with the model of gradient application (C36-C40). Arithmetic over the real numbers."
  },
  {
   "property": "C98",
   "status": "proved",
   "theorems": [
    "C98_reported"
   ],
   "note": "The factor when the set is evaluated in several batches is the defect shown in C45. Arithmetic over the real numbers."
  },
  {
   "property": "C99",
   "status": "proved",
   "theorems": [
    "C99_normalized"
   ],
   "note": "Layers of Net_Model (no dropout, gating or normalisation inside of the network), samples in rows, arithmetic over the real numbers. Groups with a deviation of exactly 0 count as scaled (the code can not scale them); with bBreakWhenInvalid off, groups of less than two values are not claimed. Lack of memory terminates the program (None), excluded by env_ok."
  }
 ]
}