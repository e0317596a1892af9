# Formal model of Arech/nntl in Rocq (Coq 8.16.1)

## 1. What is here

* `properties.jsonl` – the English properties (C01, C02, ...).
* `rocq/theories/` – the model and the proofs. Per area `X`:
  * `X_Model.v` – executable Gallina model of the C++ functions; every
    definition cites file and lines in `/repo`; no proofs.
  * `X_Spec.v` (when needed) – a small specification, written without the
    model's helpers.
  * `X_Proofs.v` – lemmas.
  * `X_Props.v` – only the property theorems, each closed by `exact lemma`, with
    `Print Assumptions` beneath and an `Example` showing that a concrete
    non-trivial case satisfies the hypotheses.
* `MANIFEST.json` – status of every property and the exact theorem names.
* `seeded/LOG.jsonl` – wrong-program experiments.

## 2. Modelling conventions

* Sizes, indices and counters are `nat` (the code uses signed 32/64-bit types);
  where wrap-around, negative values or out-of-range subtraction matter the model
  uses `Z` and says so.
* Memory: a matrix is a flat column-major `list A`, read and written by
  checked accessors returning `option`; an out-of-bounds access makes the whole
  computation `None` ("undefined behaviour"). Theorems about kernels prove
  `Some`, so they include memory safety. `NNTL_ASSERT` is a no-op in release
  builds, hence asserted conditions become hypotheses or `None` outcomes.
* Floating point: kernels that only move data are polymorphic in the element
  type. Arithmetic kernels are modelled over Coq's `R` (exact arithmetic;
  rounding, overflow and NaN are outside unless a property is about them, in
  which case an extended type with an explicit NaN value is used).
* Concurrency: protocols are transition systems with one atomic step per
  critical section / atomic access; theorems quantify over all interleavings.
  Memory-model effects weaker than sequential consistency are not modelled.
* Loops become structural recursion or a generic `for` combinator.

## 3. Trusted base

Coq 8.16.1's kernel (`coqc`; re-checked by `coqchk`), the reading of the C++
code documented in the comments, and the standard library's axioms listed by
`Print Assumptions` (see section 6).

## 4. Plan per property

| id | model | proof idea |
|----|-------|------------|
| C01 | `partition_count_to_workers` over `nat`/`Z`, all branches | arithmetic invariant of the offset loop; sum of sizes |
| C02 | pool protocol as a transition system (main + n workers, mutex, condvars, ranges, counter, job list) | inductive invariant, quantified over all reachable states |
| C03 | same | progress lemma + decreasing measure |
| C04 | same plus destructor | expected false: refutation by an explicit schedule ending in a stuck state |
| C05 | `_reduce` with the cache indexed by tid, `FRF` over the cache | fold over partition; additive functor |
| C06 | `BgWorkers::exec` transition system | inductive invariant |
| C07 | task list operations | invariant by induction over operations |
| C08 | `DataBuffer` as a state machine, one producer | refinement to a FIFO queue |
| C09 | same with many producers | expected false: refutation by an explicit history |
| C10, C11 | `_train_data_simple` epoch/batch bookkeeping, shuffle as swaps driven by an oracle | permutation lemmas |
| C12 | `walk_over_set`/`next_subset` | expected false for remainder 1: refutation + exact characterisation |
| C13, C14 | `init4train`, `init4inference`, `is_initialized4train` | case analysis; C14 expected false: refutation + characterisation |
| C15–C19 | memory-level kernels with checked accesses | loop invariants; permutation of disjoint writes for the threaded versions |
| C20, C21 | row-maximum kernels, sequential and thread-split | loop invariants; C21 expected false on ties |
| C22 | `_istor_*` | invariant over histories |
| C23, C24 | FindKOrdered insertion and Aggregator | sorted-insertion invariant; C24 expected false for short batches/ties |
| C25 | triangular index formula over integers (`ceil((sqrt(8k+9)-1)/2)`) | integer square-root reasoning |
| C26, C27 | smatrix state machine (shape, flags, buffer) | invariant over operation lists; C27 expected false |
| C28, C29 | byte-level reader and writer of the binary format | round trip and rejection by case analysis on parser state |
| C30–C32 | scalar functions over `R` | Coquelicot `is_derive`, sums |
| C33, C34 | layer trees over `R`: fprop, bprop with buffer switching | adjoint of the directional derivative, induction over the tree |
| C35 | dropout kernels over `R` | case analysis, integral over the uniform source as a two-point average |
| C36–C39 | optimizer recurrences over `R` as state machines | induction over the gradient history |
| C40 | ILR gains | expected false; exact bounds proved |
| C41 | row-normalisation over `R` | algebra of sums of squares |
| C42–C46 | `nnet::train` control flow as a machine emitting an event trace | trace characterisation for all option values and oracles; C43 (NaN), C45 expected false |
| C47 | buffer index alternation | induction over the layer list |
| C48, C49 | gradient check functor | state equality on all paths; C49 expected false for NaN |
| C50 | `vector_conditions`, `epochs_props` | list lemmas; `epochs_props` expected out-of-bounds |
| C51, C52 | rng vector kernels | write-set lemmas; C52 expected false |
| C53, C54 | layer packs | induction over layer trees |
| C55–C57 | evaluator, confusion matrix, sums | fold lemmas |

Properties marked "expected false" are stated as users rely on them; the code
violates them, so the deliverable is a `_refuted` theorem with a witness plus the
strongest true version.

## 5. What is modelled and what is not

Modelled (files under `nntl/` of the repository; line numbers are in the comments of
the model files):

| model | code |
|-------|------|
| `Workers_Model` | `interface/threads/workers.h`, `std.h`, `winqdu.h`: partitioning, job list, worker loop, destructor, `reduce` |
| `Bg_Model` | `interface/threads/bgworkers.h`: `exec`, task list, worker loop, destructor (not the constructor's handshake) |
| `DataBuf_Model` | `interface/rng/AsynchRng`'s `DataBuffer` |
| `Kern_Model`, `MKern_Model`, `IdxMax_Model` | data-movement kernels of `interface/math/mathn.h`, `smath.h` and their dispatch over threads |
| `Smx_Model` | `interface/math/smatrix.h`: shape, flags, storage, biases, clone/copy |
| `TData_Model` | `train_data/_train_data_simple.h`, `inmem_train_data*.h`, `_td_base.h` |
| `Istor_Model` | temporary storage of `smath.h` |
| `FindK_Model` | `FindKOrdered` and its aggregator (`mathn.h`, `utils`) |
| `Tri_Model` | triangular index mapping, binary64 |
| `Ew_Model`, `Act_Model` | elementwise kernels; activations, losses and their derivatives of `mathn.h`, `activations/*.h` (over the reals; `tiny` a parameter) |
| `Priv_Model`, `Sfm_Model` | softmax, its row-wise helpers (`mrwMax`, `softmax_parts`, `mrwSum_ip`, `mrwDivideByVec`), its loss and derivative; threads accumulating in a shared temporary block; over the reals |
| `Norm_Model` | `mrwL2NormSquared`, `mCheck_normalize_rows`, `mrwSetL2Norm` of `mathn.h`; over the reals |
| `Opt_Model` | `grad_works/grad_works.h` (`gw_init`, `pre_training_fprop`, `apply_grad`), `grad_works/ILR.h`, the optimizer, momentum, dropout-mask and individual-rate kernels of `mathn.h`; loss addendums enter through the gradient; over the reals |
| `Drop_Model` | `dropout/dropout.h`, `dropout/alpha_dropout.h`, `calc_coeffs` of `_SNN_common.h`, `make_dropout`, `make_alphaDropout` of `mathn.h`; over the reals; mask, saved activations and dL/dA as fields of one array |
| `Net_Model` | `layer/fully_connected.h`, `output.h`, `identity.h`, `pack_vertical.h`, `pack_horizontal.h`, `_lph_base.h`, `pack_tile.h` (`fprop`, `bprop`, `layer_init` memory announcements), `layers.h` 301–353 (`fprop`, `bprop`), `nnet.h` 413–470 (temporary storage), `_init_layers.h` 365, 400–434; over the reals, batches in columns, `gemm` as documented; without dropout, gating and loss addendums; every hidden layer takes part in back-propagation |
| `Train_Model` | `nnet.h` 237–676 (`train`, `_init`, `_is_initialized`, `deinit`, `_set_mode_and_batch_size`, `_calcLossAndReport`, `_report_training_progress`, divergence check, scope exits), `common_nn_data.h` 105–215, `nnet_train_opts.h`; the layers' fprop/bprop, loss function, addendum, memory, callbacks are parameters that may depend on everything that happened before; losses are reals or not-a-number (no infinities, no rounding) |
| `Mem_Model` | shared temporary memory: `nnet.h` 389–474 (`_totalTrainingMemSize`, `_processTmpStor`, `_full_init`), `layer/_init_layers.h` 362–424, `layers.h` 235–272, `layer_init`/`initMem` of `_lph_base.h` 295–386, `pack_vertical.h` 197–239, `pack_tile.h` 224–287, `fully_connected.h` 366–381, `output.h` 128–166; gated packs left out, sizes do not overflow |
| `Gc_Model` | the numeric gradient check (`nnet.h` 738–1212, `utils/gradcheck.h`, `interface/inspectors/gradcheck.h`): data selection, perturbation of one parameter through the inspector, analytical and numeric phases, evaluation of the pairs, initialisation and restoring of the network | the layers' arithmetic is an arbitrary function of the trace of events; numbers are reals with NaN and infinities; gated packs; the report texts |
| `Util_Model` | vector_conditions, epochs_props, bwlist, confusion_mtx and the batch size setters of nnet_train_opts; left out: FBetaScore, the move constructor, the STL's exceptions |
| `Rng_Model` | vector functions and gen_i of AFRand, _AFRand_mt, CStd, rng_helper::normal_vector, seed; left out: the basic generators (external), conversions of gen_vector_gtz to integers |
| `Asm_Model` | assembling a network: layer indices, incoming neurons, coverage check of horizontal packs, iteration over layers, placement of activations; left out: static assertions, overflow of neurons_count_t, placement inside _LPHO |
| `Sum_Model` | sums over vectors and matrices (plain and compensated functors, partition and reduction over threads), triangular sums of squares, batch losses; left out: rounding, SIMD |
| `Ev_Model` | binarisation, row maxima and counting kernels, both classification evaluators (initialisation over the data object, caching of the truth, counting), the training observer's accumulation; left out: printing, timing, truth data with samples in columns |
| `La_Model` | L1, L2 and DeCov loss addendums with their kernels (elementwise additions, de-meaning, covariance, triangular sums, products with the diagonal; syrk/symm as documented), regularizers of weights, penalties of activations (value, on forward propagation, on back-propagation); left out: inspector calls, init/deinit, dropping of samples |
| `Pen_Model` | networks whose top-level hidden layers are wrapped with penalties: forward, backward, calcLossAddendum; left out: dropout, penalties inside of packs, gating neurons, caching of the addendum |
| `Do_Model` | networks whose top-level hidden layers have dropout (classic, alpha) and penalties: training and evaluation forward, backward; left out: dropout inside of packs and over gated packs, changing the dropout rate at runtime, the generator of random numbers (an arbitrary vector) |
| `Gp_Model` | gated packs (LPHO with an identity gate, binarised or not): construction checks, shared storage for the inputs of the inner layers, forward, backward with the repair of bias columns; left out: inspectors, loss addendums, gated packs inside of other packs and networks |
| `Nrm_Model` | normalisation of the x data: settings, statistics (mean, deviation with or without the correction for samples), the iteration over the whole set and by column, updates of the sets, the call on the training data object including its own initialisation; left out: log output, NaN and infinities (the arithmetic is that of the reals), other statistics functors, data with samples in columns |
| `Fit_Model` | `Net_Model` inside of `Train_Model`: `nnet.h` 253–257, 313–325, 375–470, `layers.h` 230–353, `fully_connected.h` 185–211, 258–262 (weights are kept by a second initialisation), `_lph_base.h` 344–360; update rules are parameters that may depend on everything that happened before; data with samples in rows; a failed initialisation leaves no new weights |
| `Lsu_Model` | `weights_init/LsuvExt.h` 57–388 over `mtx2Normal.h` 359–563 and `nnet.h` 676–714, on networks of `Net_Model` and data of `TData_Model`; activations left in the layers and console output are not part of the state; exceptions out of noexcept functions are `None`; weights of re-initialisations are parameters |
| `Wi_Model` | `weights_init/static.h` (all initialisers), `distr_normal_naive.h`; normal numbers and answers of the generator are arbitrary; LAPACK's gesvd as documented; real arithmetic |
| `Tf_Model` | `train_data/transf_train_data.h`, `_td_base.h`, `_td_norm.h`: data made at run time by a transformation, which is any object that respects the documented interface; real arithmetic |
| `Fs_Model` | `interface/math/smath.h`, `mathn.h`: the summation functors, the sums of squares and the quadratic loss in floating-point arithmetic (every operation rounded; no overflow, no NaN, no reassociation) |
| `As_Model` | `interface/rng/afrand_as.h`: the buffers, the background threads' tasks, init, deinit, seed, the vector requests (any interleaving; DataBuf and Rng models below; the bernoulli and gtz functions of this class are those of the base class) |
| `Js_Model` | `_supp/io/jsonreader.h`: everything after rapidjson has parsed the file (rapidjson itself is not modelled) |
| `Ls_Model` | `utils/layers_settings.h`: `layer_settings`, with its list nodes and iterators, and the implicit copy |
| `Pw_Model` | `interface/threads/prioritize_workers.h`: the Windows variant of the guard and `ChangeThreadsPriorities`, over a model of the priorities the system holds |
| `Sy_Model` | `interface/threads/_sync_primitives.h`: `spin_lock`, `lock_guard_yield`, the timed waits of `win_condition_var` (the native locks themselves, fences and memory orders are not modelled); the wait of `bgworkers.h` |
| `Mf_Model` | `_supp/io/matfile.h` (saving and loading of numbers, matrices, nested structures; `save_struct_begin/end`; `close`), the conversions of `utils/matlab.h` (Matlab's library is modelled by what it documents, with calls that may fail; opening, lengths of names and leaks are not modelled) |
| `Rw_Model` | `interface/math/mathn.h`: `evAddC_ip`, `evMulCAddC_ip`; `interface/math/smath.h`: `mcwMean`, `mcwSub_ip`, `mcwDeMeanNZ`, `mrwOr` with all versions of `mrwBinaryOR` (real arithmetic, bit patterns for the or) |
| `Dp_Model` | `interface/inspectors/dumper.h` 40–657, `utils/layer_idx_keeper.h`, the notifications of `nnet.h` 237–301, 581–654; the archive is `Mf_Model`'s, the lists and epoch flags `Util_Model`'s; file names are the numbers printed into them; opening and Matlab's library always succeed; `bSplitFiles` and `bIgnoreLayersNesting` as they are set (true) |
| `Ww_Model` | `nnet.h` 162–229 (`write_weights`, `read_weights`), the serialization of layers under the options these set (`layers.h`, `fully_connected.h`, `output.h`, `pack_vertical.h`, `_lph_base.h`, `pack_tile.h`), layer names; the archive is `Mf_Model`'s |
| `Cl_Model` | `interface/math/mathn.h`: `evClamp`, `evOneCompl`, `evSubMtxMulC_ip_nb`, `evMul_ip_Anb`, `evAdd_Anb_ip`, `evMulC_ip`; the restriction of dL/dZ in `layer/output.h` (real arithmetic) |
| `Tt_Model` | `utils/chrono.h`: `duration_readable`; `utils/tictoc.h` (durations unbounded, real arithmetic, the number before rounding) |
| `Nz_Model` | `interface/math/mathn.h`: `vCountNonZeros`, `vCountNonZerosStrict`, the rows `mExtractRowsByMask`/`mFillRowsByMask` select (bit patterns of IEEE formats, both modes of denormals) |
| `Bin_Model` | `_supp/io/binfile.h`, `_supp/matlab/export_2bin.m` |

Simplifications common to all: template instantiations are represented by
parameters; logging, timing and debug-only checks are omitted; thread pools are
assumed to run every range (C02 proves it) and, in kernels, every interleaving of the
threads' writes is considered; allocation answers come from the environment.

Not modelled: NaN and rounding except where a property is about them (NaN is
excluded by the order hypotheses of `FindK` and `IdxMax`); BLAS (matrix products are
mathematical ones where they occur); file opening; rapidjson and Matlab's library (what
nntl does with them is modelled); boost's own archives and serialization of anything but weights; inspectors other than the
gradient check's and the dumping one; compile-time machinery; weak memory effects.

## 6. Print Assumptions

Generated from the output of `Print Assumptions` for every theorem of MANIFEST.json.
Every axiom below belongs to the standard library (real numbers, functional
extensionality, classical logic); no other axiom occurs.

Closed under the global context (202 theorems):

`C01_partition_exact`, `C02_run_exactly_once`, `C02_all_return`, `C03_no_deadlock`, `C03_terminates`, `C04_destructor_terminates_refuted`, `C04_destructor_terminates_partial`, `C05_reduce_cells`, `C05_reduce_value`, `C05_reduce_value_noncommutative_refuted`, `C06_exec_once_per_thread`, `C06_exec_at_most_once`, `C06_no_deadlock`, `C07_task_list_partial`, `C07_task_list_history_partial`, `C07_served_by_priority`, `C07_only_in_passes`, `C07_pass_completes`, `C07_equal_priority_order_refuted`, `C08_fifo`, `C08_no_overlap`, `C09_fifo_partial`, `C09_fifo_refuted`, `C09_overlap_refuted`, `C10_epoch_batches`, `C106_train_partial`, `C106_inference_partial`, `C11_indices_stay_a_permutation`, `C11_every_order_possible`, `C114_described`, `C114_success_only`, `C115_train_data`, `C115_failure_unchanged`, `C115_no_document`, `C116_code_refuted`, `C116_code_partial`, `C117_failure_refuted`, `C117_failure_partial`, `C118_integral_refuted`, `C118_integral_partial`, `C119_settings`, `C12_walk_partial`, `C12_walk_refuted`, `C120_copy_refuted`, `C120_copy_partial`, `C121_restores_refuted`, `C121_restores_partial`, `C121_nested`, `C122_raised`, `C122_change`, `C123_excludes`, `C123_progress`, `C124_starvation_refuted`, `C125_timed_refuted`, `C125_timed_partial`, `C126_latency`, `C127_round_trip_partial`, `C127_round_trip_refuted`, `C127_biases_refuted`, `C128_saved`, `C129_close_refuted`, `C129_close_partial`, `C13_batch_sizes`, `C130_update_refuted`, `C130_empty_refuted`, `C130_pieces_partial`, `C131_signed_refuted`, `C131_ints_partial`, `C135_bits`, `C135_binary`, `C136_dumped_partial`, `C136_initial_refuted`, `C136_again_refuted`, `C136_first_epoch_refuted`, `C137_contents_partial`, `C137_switch_refuted`, `C137_again_refuted`, `C138_round_trip_partial`, `C138_no_file`, `C138_names`, `C138_close_refuted`, `C139_read_partial`, `C139_half_refuted`, `C139_tiles_refuted`, `C14_confirmed_partial`, `C14_confirmed_refuted`, `C144_count_partial`, `C144_strict_partial`, `C144_rows_partial`, `C144_extract_partial`, `C144_count_refuted`, `C144_overrun_refuted`, `C15_pool_ranges`, `C15_extract_rows`, `C15_extract_cols`, `C15_extract_rows_seq`, `C15_copy_data_skip_bias`, `C16_extract_by_mask`, `C16_fill_by_mask`, `C16_extract_then_fill`, `C16_fill_then_extract`, `C17_transpose`, `C17_transpose_ignore_bias`, `C17_transpose_twice`, `C18_roll`, `C18_unroll`, `C18_unroll_after_roll`, `C18_roll_after_unroll`, `C19_clone_cols`, `C19_clone_col`, `C19_zero_count_refuted`, `C20_index_is_maximum`, `C20_first_maximum`, `C21_thread_independent_partial`, `C21_thread_independent_refuted`, `C22_stack_discipline`, `C22_violations_abort`, `C23_best_distinct`, `C23_best_with_repetitions`, `C23_helper_layout`, `C24_aggregate_partial`, `C24_aggregate_refuted`, `C26_biases_stay_one`, `C26_failed_clone_drops_biases`, `C27_clone_to_no_bias_partial`, `C27_external_destination`, `C27_biased_destination`, `C27_clone_to_no_bias_refuted`, `C28_matrix_round_trip`, `C28_train_data_round_trip`, `C28_sequences_round_trip`, `C29_matrix_partial`, `C29_train_data_partial`, `C29_sequences_partial`, `C29_matrix_codes_partial`, `C29_train_data_codes_partial`, `C29_malformed_accepted_refuted`, `C46_carve`, `C46_needs`, `C46_net_sizes`, `C50_stride_partial`, `C50_every`, `C50_default`, `C50_start0`, `C50_start0_refuted`, `C50_epochs_props_partial`, `C50_epochs_props_refuted`, `C50_history`, `C50_history_defined`, `C50_outside`, `C51_fill`, `C51_single`, `C51_gen_i`, `C51_gen_i_cstd`, `C53_activations`, `C53_shapes`, `C53_construction`, `C54_indices`, `C54_assembles`, `C54_defined`, `C54_wraps`, `C55_counts`, `C55_reduce`, `C55_no_clear`, `C56_binary_partial`, `C56_onehot_partial`, `C56_counts_refuted`, `C58_destructor_terminates`, `C59_exec_returns_refuted`, `C60_resize_partial`, `C60_resize_refuted`, `C61_clone_to`, `C62_strict_check`, `C62_holey_check_partial`, `C62_holey_check_refuted`, `C63_absorb_partial`, `C63_absorb_refuted`, `C64_failed_inference_partial`, `C64_failed_inference_refuted`, `C65_cache_lines_partial`, `C65_cache_lines_refuted`, `C66_matrix_safe_partial`, `C66_train_data_safe_partial`, `C66_sequences_safe_partial`, `C66_memory_refuted`, `C67_train_data_unchanged_partial`, `C67_matrix_refuted`, `C68_buffer_released_partial`, `C68_buffer_released_refuted`, `C69_export_matrix`, `C69_export_train_data_partial`, `C69_export_train_data_refuted`, `C81_lists`, `C82_sizes`, `C82_order`, `C82_full_batch_with_limit`, `C83_seed`, `C83_reproducible`, `C84_for_each`, `C84_inner_first`, `C85_wired`, `C85_neurons`

Depending on `ClassicalDedekindReals.sig_forall_dec`, `ClassicalDedekindReals.sig_not_dec`, `Classical_Prop.classic`, `FunctionalExtensionality.functional_extensionality_dep` (66 theorems):

`C100_succeeds`, `C103_serves`, `C104_walk_refuted`, `C105_inference`, `C105_train`, `C107_statistics_partial`, `C107_statistics_refuted`, `C108_failure_partial`, `C108_skipped_partial`, `C108_failure_refuted`, `C109_vector`, `C109_cells`, `C109_others`, `C109_squares`, `C109_loss`, `C109_plain`, `C25_index_bijection`, `C25_range_traversal`, `C25_parallel_traversal`, `C25_large_index_refuted`, `C30_derivative`, `C30_wherever_differentiable`, `C30_smooth`, `C30_kink`, `C30_matrix`, `C30_matrix_df`, `C31_element`, `C31_batch`, `C31_xentropy_meaning`, `C32_bounded`, `C32_loss`, `C32_gradient`, `C32_gradient_any_labels`, `C33_gradient`, `C34_tiles_partial`, `C34_tiles_refuted`, `C35_backward`, `C47_buffers`, `C53_gradients`, `C57_triangle`, `C57_losses`, `C70_zero_stable`, `C76_sessions_partial`, `C76_room_partial`, `C76_buffers_refuted`, `C86_value`, `C86_gradient`, `C87_value`, `C87_gradient`, `C88_gradient_partial`, `C88_gradient_refuted`, `C89_forward`, `C89_gradient`, `C89_evaluation`, `C90_forward`, `C91_gradient_partial`, `C91_gradient_refuted`, `C95_failure_partial`, `C95_failure_refuted`, `C96_rows`, `C96_independent`, `C96_loss`, `C97_descends`, `C97_sgd`, `C98_reported`, `C99_normalized`

Depending on `ClassicalDedekindReals.sig_forall_dec`, `FunctionalExtensionality.functional_extensionality_dep` (62 theorems):

`C101_sparse`, `C101_no_memory`, `C101_small_layer`, `C102_orthogonal`, `C109_exact`, `C110_serves`, `C110_range`, `C111_once_partial`, `C111_once_refuted`, `C112_engines`, `C112_reproducible_partial`, `C112_seed_refuted`, `C112_normal_refuted`, `C113_report_refuted`, `C113_refused_partial`, `C133_mean`, `C133_sub_means`, `C134_centred`, `C140_restriction`, `C140_sign`, `C140_gradient`, `C141_complement`, `C141_difference`, `C141_scaled`, `C142_readable_partial`, `C142_nanoseconds`, `C142_readable_refuted`, `C143_stopwatch`, `C31_factor`, `C32_row_max`, `C42_session`, `C43_divergence_partial`, `C43_nan_refuted`, `C44_exits`, `C45_reported_partial`, `C45_reported_refuted`, `C48_restored_partial`, `C48_refused`, `C48_weights`, `C48_reinit_refuted`, `C49_verdict_partial`, `C49_not_numbers`, `C49_nan_refuted`, `C49_inf_refuted`, `C51_range`, `C51_single_range`, `C51_ends`, `C52_single_refuted`, `C57_vector`, `C57_nonzero`, `C57_matrix`, `C71_residual_partial`, `C71_residual_refuted`, `C77_sizes_partial`, `C77_batch_size_refuted`, `C77_memory_refuted`, `C77_fprop_refuted`, `C78_checks`, `C79_whole_set`, `C79_refuted`, `C79_other_sizes_partial`, `C80_scores`

Depending on `ClassicalDedekindReals.sig_forall_dec`, `ClassicalDedekindReals.sig_not_dec`, `FunctionalExtensionality.functional_extensionality_dep` (41 theorems):

`C102_he`, `C102_he2`, `C102_xavier`, `C106_refuted`, `C32_softmax`, `C32_distribution`, `C32_shift`, `C32_dLdZ`, `C35_dropout`, `C35_alpha`, `C35_mean`, `C35_alpha_moments`, `C36_classical`, `C36_nesterov`, `C37_state`, `C37_weights`, `C38_defined`, `C39_rmsprop_partial`, `C39_rprop`, `C39_adamax`, `C39_rmsprop_first_refuted`, `C40_gains_partial`, `C40_gains_rule`, `C40_gains_refuted`, `C41_max_norm`, `C72_set_norm_partial`, `C72_set_norm_refuted`, `C73_max_norm_kept`, `C74_dropped_updates`, `C75_zero_stabilizer_refuted`, `C38_defined`, `C80_mcc_partial`, `C80_mcc_overflow`, `C80_mcc_refuted`, `C92_affine`, `C93_statistics`, `C94_succeeds_partial`, `C94_big_batch_partial`, `C94_succeeds_refuted`, `C94_big_batch_refuted`, `C97_rule`

Depending on `ClassicalDedekindReals.sig_forall_dec` (9 theorems):

`C103_epoch`, `C104_walk_partial`, `C132_add`, `C132_mul_add`, `C133_sub`, `C141_product`, `C141_sum`, `C52_mt_partial`, `C52_single_partial`
