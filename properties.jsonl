{"id": "C01", "title": "Parallel ranges cover the index space exactly once", "statement": "When a caller asks the thread pool to process cnt items (cnt > 1) with any requested thread count, the ranges handed to the worker threads and to the calling thread are pairwise disjoint, consecutive, non-empty, and their union is exactly [0,cnt); their sizes differ by at most one, and the calling thread always gets the last range.", "quantifier": "every item count, every pool size (including a pool with no worker threads) and every requested thread count (including invalid ones)", "why_tests_cant": "the item count, the pool size and the requested thread count are all unbounded; a test only sees a few machine-specific combinations", "anchors": ["nntl/interface/threads/workers.h: Workers::partition_count_to_workers, Workers::_run, Workers::_reduce", "nntl/interface/threads/parallel_range.h: parallel_range"]}
{"id": "C02", "title": "run() returns only after every range was processed exactly once", "statement": "For every schedule of the worker threads and the caller, when run() returns, the user functor has been called exactly once for each range of the partition, by the thread the range was given to, and no functor call of that run is still in progress; this keeps holding for any sequence of run()/reduce() calls on one pool.", "quantifier": "every interleaving of every number of threads, over every sequence of jobs of every size", "why_tests_cant": "a data race or a lost wakeup shows only under particular schedules, and the number of schedules is unbounded", "anchors": ["nntl/interface/threads/workers.h: Workers::_run, Workers::_worker, Workers::partition_count_to_workers", "nntl/interface/_i_threads.h"]}
{"id": "C03", "title": "run() cannot deadlock", "statement": "From every reachable state in which a job was submitted and the caller has not returned, some thread can take a step, and every fair execution reaches the state where the caller returns: there is a bound on the number of remaining non-waiting steps which every such step decreases.", "quantifier": "every reachable state of the pool protocol under every schedule", "why_tests_cant": "deadlock freedom is a statement about all schedules", "anchors": ["nntl/interface/threads/workers.h: Workers::_run, Workers::_worker", "nntl/interface/threads/_sync_primitives.h"]}
{"id": "C04", "title": "Destroying a thread pool terminates", "statement": "The destructor of the pool makes every worker thread leave its loop and returns, whatever the workers are doing when it is called.", "quantifier": "every schedule of the destructor and the worker threads", "why_tests_cant": "the failure needs a worker to be preempted between evaluating its wait predicate and blocking, which tests practically never hit", "anchors": ["nntl/interface/threads/workers.h: Workers::~Workers, Workers::_worker"]}
{"id": "C05", "title": "reduce() combines one partial result per range, in thread-index order", "statement": "reduce() passes to the final reduction an array whose first element is the partial result of the caller's (last) range and whose next elements are the results for ranges 1,2,... in order; for an associative and commutative combination with the functor being additive over adjacent ranges, the value returned is the value of the functor on the whole index space, for any thread count.", "quantifier": "every functor, every combination operation satisfying the stated laws, every item count and thread count", "why_tests_cant": "ranges over all functors and all partitions", "anchors": ["nntl/interface/threads/workers.h: Workers::reduce, Workers::_reduce", "nntl/interface/_i_threads.h: converter_reduce_data_t"]}
{"id": "C06", "title": "exec() on the background pool runs the functor once on every thread", "statement": "BgWorkers::exec(f) returns only after each background thread has called f exactly once with its own thread index, whatever tasks are being executed at that moment.", "quantifier": "every schedule, every number of threads, every set of registered tasks", "why_tests_cant": "a missed or doubled call happens only under specific interleavings", "anchors": ["nntl/interface/threads/bgworkers.h: BgWorkers::exec, BgWorkers::_worker"]}
{"id": "C07", "title": "Background tasks are served by priority", "statement": "After any sequence of add_task/delete_tasks calls the task list is sorted by non-increasing priority, contains exactly the registered and not deleted tasks, and tasks of equal priority keep registration order; a thread executes a task again only if every more prioritised task reported it has nothing to do.", "quantifier": "every sequence of registrations and deletions, every behaviour of the tasks", "why_tests_cant": "histories of registrations are unbounded", "anchors": ["nntl/interface/threads/bgworkers.h: BgWorkers::add_task, BgWorkers::delete_tasks, BgWorkers::_worker"]}
{"id": "C08", "title": "The asynchronous random-number buffer is a FIFO (one producer)", "statement": "With one producer and one consumer, for any sequence of acquire/release/fill operations, the data handed out by acquire_data are exactly the produced values in production order, each value is handed out at most once, and no range being filled overlaps a range handed to the consumer.", "quantifier": "every sequence of operations, every buffer size, every requested amount", "why_tests_cant": "the circular index arithmetic has many wrap-around cases depending on the whole history", "anchors": ["nntl/utils/data_buffer.h: DataBuffer::acquire_data, release_data, _as_should_work, _as_done", "nntl/interface/rng/afrand_as.h: AsynchRng"]}
{"id": "C09", "title": "The asynchronous random-number buffer is safe with several producers", "statement": "With several background threads filling the buffer at once, no two of them are ever given overlapping ranges and the buffer's state invariant is kept.", "quantifier": "every number of producers and every interleaving of claims and completions", "why_tests_cant": "the violating history needs a specific interleaving of two producers with the consumer", "anchors": ["nntl/utils/data_buffer.h: DataBuffer::_as_should_work, _as_done", "nntl/interface/threads/bgworkers.h: BgWorkers::_worker"]}
{"id": "C10", "title": "An epoch serves every training sample at most once, in full batches", "statement": "During an epoch the batches returned by on_next_batch(0..n-1) all have exactly the training batch size, contain pairwise different training samples (rows of x with the rows of y at the same position), and n = floor(train set size / batch size), so that fewer than one batch of samples is left out.", "quantifier": "every training set size, every batch size, every outcome of the shuffle, every epoch number", "why_tests_cant": "ranges over all sizes and all permutations the random generator can produce", "anchors": ["nntl/train_data/_train_data_simple.h: _train_data_simple::on_next_epoch, on_next_batch", "nntl/train_data/_td_base.h", "nntl/interface/math/mathn.h: mExtractRows"]}
{"id": "C11", "title": "Shuffling keeps the sample index vector a permutation", "statement": "After any number of epochs the vector of sample indices is a permutation of 0..N-1, whatever numbers the random generator returns within its contract.", "quantifier": "every random sequence, every number of epochs, every set size", "why_tests_cant": "the random stream is unbounded", "anchors": ["nntl/train_data/_train_data_simple.h: on_next_epoch", "nntl/interface/_i_rng.h: rng_helper"]}
{"id": "C12", "title": "Walking over a dataset returns every sample exactly once", "statement": "walk_over_set + next_subset(0..n-1) return all samples of the data set, in order, exactly once: the total amount of data returned equals dataset_samples_count(), as the interface promises to evaluators that cache the data set.", "quantifier": "every data set size and every batch size", "why_tests_cant": "the violating combinations of sizes are sparse", "anchors": ["nntl/train_data/_train_data_simple.h: walk_over_set, next_subset", "nntl/train_data/_i_train_data.h: walk_over_set contract"]}
{"id": "C13", "title": "Batch size negotiation of init4train", "statement": "After a successful init4train the maximum forward batch size and the training batch size are positive, the training size does not exceed the forward one, neither exceeds the number of available samples, zero means 'the whole set', and a failed init4train leaves the object uninitialised.", "quantifier": "every pair of requested batch sizes and every data set size", "why_tests_cant": "all integer combinations of requests and sizes", "anchors": ["nntl/train_data/_train_data_simple.h: init4train, init4inference, is_initialized4train", "nntl/train_data/_td_base.h"]}
{"id": "C14", "title": "A successful init4train is reported by is_initialized4train", "statement": "Immediately after init4train returned success, is_initialized4train with the values it produced returns true.", "quantifier": "every data set geometry and every request", "why_tests_cant": "fails only for full-batch training with a test set bigger than the train set", "anchors": ["nntl/train_data/_train_data_simple.h: init4train, is_initialized4train"]}
{"id": "C15", "title": "Row extraction gathers exactly the indexed samples", "statement": "mExtractRows(src, idx, n, dest) makes row r of dest equal to row idx[r] of src in every data column, leaves dest's bias column untouched, never reads or writes outside of either matrix when the indices are valid, and gives the same result single-threaded and split over any number of threads in any order.", "quantifier": "every matrix shape, every index vector, every thread partition", "why_tests_cant": "shapes, indices and partitions are unbounded", "anchors": ["nntl/interface/math/mathn.h: mExtractRows, _imExtractRows_seqWrite_st, mExtractRows_mt"]}
{"id": "C16", "title": "Extracting rows by mask and scattering them back are inverse", "statement": "mExtractRowsByMask collects, in order, exactly the rows whose mask element is non-zero; mFillRowsByMask writes those rows back at their places and zeros elsewhere, so that filling after extracting reproduces every masked row, and extracting after filling is the identity.", "quantifier": "every matrix shape and every mask", "why_tests_cant": "all masks of all lengths", "anchors": ["nntl/interface/math/mathn.h: mExtractRowsByMask, mFillRowsByMask"]}
{"id": "C17", "title": "Transposition", "statement": "mTranspose (sequential-read and sequential-write variants, with and without bias handling) writes src[r,c] to dest[c,r] for every element, stays in bounds, the two variants agree, and transposing twice is the identity.", "quantifier": "every matrix shape and content", "why_tests_cant": "all shapes", "anchors": ["nntl/interface/math/mathn.h: mTranspose, mTranspose_seq_read, mTranspose_seq_write"]}
{"id": "C18", "title": "Tiling roll/unroll is a lossless rearrangement", "statement": "mTilingRoll turns an m x (k*n) matrix into a (k*m) x n one whose block i of m rows is the i-th group of n columns of the source; mTilingUnroll is its exact inverse; bias columns are left intact, and the thread-parallel versions produce the same memory for every partition.", "quantifier": "every m, n, k, every content and thread partition", "why_tests_cant": "index arithmetic over unbounded shapes", "anchors": ["nntl/interface/math/smath.h: mTilingRoll, mTilingUnroll, _mTilingRoll_seqread_st, _mTilingUnroll..."]}
{"id": "C19", "title": "Cloning columns repeats each source column as specified", "statement": "mCloneCols(src, dest, spec) makes dest's columns the source columns repeated spec[0], spec[1], ... times in order, for every specification of positive counts summing to dest's width.", "quantifier": "every matrix and every column specification", "why_tests_cant": "unbounded specifications", "anchors": ["nntl/interface/math/smath.h: mCloneCols, mCloneCol"]}
{"id": "C20", "title": "Row maximum index is a maximum, and the first one single-threaded", "statement": "mrwIdxsOfMax returns for each row a column whose value is >= every other value of the row; the single-threaded version returns the first such column.", "quantifier": "every matrix of totally ordered values, every thread partition", "why_tests_cant": "all matrices, all partitions", "anchors": ["nntl/interface/math/smath.h: mrwIdxsOfMax, mrwIdxsOfMax_st, mrwIdxsOfMax_mt_cw"]}
{"id": "C21", "title": "Row maximum index does not depend on the number of threads", "statement": "mrwIdxsOfMax returns the same index whatever number of threads it uses.", "quantifier": "every matrix and every partition of its columns over threads", "why_tests_cant": "only ties spanning two thread ranges expose a difference", "anchors": ["nntl/interface/math/smath.h: mrwIdxsOfMax_mt_cw, mrwIdxsOfMax_st_cw"]}
{"id": "C22", "title": "The temporary-memory allocator hands out disjoint blocks", "statement": "For every sequence of _istor_alloc/_istor_free calls in LIFO order whose total does not exceed the preinitialised amount, blocks alive at the same time never overlap and stay inside the reserved storage, and after freeing everything the allocator is in its initial state.", "quantifier": "every sequence of allocations and frees", "why_tests_cant": "allocation histories are unbounded", "anchors": ["nntl/interface/math/smath.h: _istor_alloc, _istor_free, preinit, init"]}
{"id": "C23", "title": "FindKOrdered finds the k best values of a column", "statement": "For a column processed as one batch, mcwFindKOrdered leaves in the helper exactly the k best values of the column (distinct ones for the 'distinct' orders, k best with multiplicity otherwise) in order, with indices pointing at rows holding these values.", "quantifier": "every column and every k", "why_tests_cant": "all sequences of values, including ties", "anchors": ["nntl/interface/math/_mcwFindKOrdered_hlpr.h", "nntl/interface/math/mathn.h: mcwFindKOrdered"]}
{"id": "C24", "title": "Aggregating FindKOrdered over batches equals running it on the whole column", "statement": "Processing the column batch by batch through the Aggregator and exporting gives the same k best values as one pass over the concatenated column.", "quantifier": "every way to split a column into batches and every k", "why_tests_cant": "the deviation needs ties or batches shorter than k", "anchors": ["nntl/interface/math/_mcwFindKOrdered_hlpr.h: Aggregator"]}
{"id": "C25", "title": "Triangular index mapping is a bijection", "statement": "Linear indices of the strictly upper triangle and (row,column) pairs with row < column correspond one-to-one through sNumelTriangl/sTrianglCoordsFromIdx, so that splitting the linear index range over threads visits every pair exactly once.", "quantifier": "every n x n matrix that fits into memory (up to 47453132 rows), both triangles, every linear index, every split of the index range over threads", "why_tests_cant": "indices are unbounded; the formula uses a square root and a ceiling", "anchors": ["nntl/interface/math/smatrix.h: sNumelTriangl, sTrianglCoordsFromIdx", "nntl/interface/math/smath.h: triangular traversal"]}
{"id": "C26", "title": "Bias column invariant of matrices", "statement": "A matrix created to emulate biases keeps its last column (row, in the batch-in-row layout) equal to 1 through any sequence of resizing, deforming, data copying, zeroing and bias hiding/restoring operations of the API.", "quantifier": "every sequence of matrix operations", "why_tests_cant": "operation histories are unbounded", "anchors": ["nntl/interface/math/smatrix.h: resize, zeros, set_biases, clone_to, copy_data_skip_bias, deform_batch_size_with_biases, hide/restore_last_col"]}
{"id": "C27", "title": "clone_to_no_bias copies exactly the data columns", "statement": "m.clone_to_no_bias(dest) makes dest a matrix without bias column equal to m without its bias column, whatever state dest had before.", "quantifier": "every source matrix and every prior state of the destination", "why_tests_cant": "needs a destination that already emulates biases", "anchors": ["nntl/interface/math/smatrix.h: clone_to_no_bias"]}
{"id": "C28", "title": "Binary file round trip", "statement": "Reading a file written in the library's binary format into a matrix or a train-data object reproduces shape and content exactly, for every order of the train_x/train_y/test_x/test_y fields, and adds a bias column to x matrices only.", "quantifier": "every well-formed file", "why_tests_cant": "all shapes, contents and field orders", "anchors": ["nntl/_supp/io/binfile.h: binfile::read, _read_into, _read_td"]}
{"id": "C29", "title": "Malformed binary files are rejected", "statement": "For every byte string that is not a well-formed file of the requested kind (bad signature, wrong version, wrong number of fields, duplicate or unknown field name, unsupported element type, truncated data) read() returns an error code and never Success; the code identifies the first defect encountered.", "quantifier": "every byte string", "why_tests_cant": "the input space is all byte strings", "anchors": ["nntl/_supp/io/binfile.h: binfile::read, ErrorCode"]}
{"id": "C30", "title": "Every activation derivative is the derivative of its activation", "statement": "For each activation function (sigm, relu, leaky relu, elu, elogu, loglogu, logu, softsign, softsigm, selu and their special-parameter variants) the value computed from the activation value by its 'd' routine equals the mathematical derivative of the activation at the pre-activation, at every point except the documented kink at 0.", "quantifier": "every real pre-activation and every admissible parameter", "why_tests_cant": "a numeric check samples points; the statement is about all reals", "anchors": ["nntl/interface/math/mathn.h: sigm/dsigm, relu/drelu, leakyrelu, elu, elogu, loglogu, logu, softsign, softsigm, selu families", "nntl/activations"]}
{"id": "C31", "title": "Fused loss derivatives are the chain-rule derivatives", "statement": "For every output activation class with its loss (sigmoid or soft sigmoid with quadratic or cross-entropy loss, identity with quadratic or weighted quadratic loss, linear cross-entropy), the dL/dZ routine leaves in the buffer, for every element, the partial derivative of the loss of the batch with respect to the net input of that element; for cross-entropy and labels 0 or 1 up to the factor p/(p+tiny), p being the probability of the label and tiny the smallest normal number added under the logarithm. The reported loss is the sum over all elements, whatever the summation algorithm and the split between threads. (Excluded: the points where the residual-weighted loss jumps, C71.)", "quantifier": "every real pre-activation and every label value", "why_tests_cant": "all reals", "anchors": ["nntl/interface/math/mathn.h: dSigmQuadLoss_dZ, dSoftSigmQuadLoss_dZ, dSoftSigmXEntropyLoss_dZ, loss_quadratic, loss_xentropy", "nntl/activations/_loss_parts.h"]}
{"id": "C32", "title": "Softmax produces a probability distribution and its cross-entropy gradient is a-y", "statement": "Softmax outputs are positive and sum to one for every row; the max-shift does not change the result; and dL/dz of the softmax cross-entropy is a - y when the labels of a row sum to one.", "quantifier": "every row of reals of every length", "why_tests_cant": "all reals, all lengths", "anchors": ["nntl/interface/math/mathn.h: softmax, loss_softmax_xentropy", "nntl/activations"]}
{"id": "C33", "title": "Backpropagation computes the true gradient", "statement": "For every stack of fully connected, identity and packed (vertical, horizontal) layers, the dL/dW matrices computed by one fprop+bprop equal the partial derivatives of the mean loss over the batch with respect to every weight, at every point where the activations are differentiable.", "quantifier": "every network shape and depth, every weights, every batch", "why_tests_cant": "numeric gradient checks sample one network at a few weights", "anchors": ["nntl/layers.h: layers::fprop, layers::bprop", "nntl/layer/fully_connected.h: _lfc_fprop, _lfc_bprop", "nntl/layer/output.h: _outp_bprop", "nntl/layer/pack_vertical.h", "nntl/layer/pack_horizontal.h", "nntl/layer/identity.h", "nntl/interface/math/mathn.h: mMul_prevAct_weights_2_act, mMul_dLdZ_weights_2_dLdAPrev, mMulScaled_dLdZ_prevAct_2_dLdW"]}
{"id": "C34", "title": "A tiled layer receives the true gradient", "statement": "The dL/dW computed for the layer inside layer_pack_tile is the derivative of the mean loss over the batch with respect to the shared weights.", "quantifier": "every tile count, every inner layer", "why_tests_cant": "needs a comparison with the exact derivative; the scale factor is invisible to shape checks", "anchors": ["nntl/layer/pack_tile.h: _lpt_bprop", "nntl/layer/fully_connected.h: _lfc_bprop"]}
{"id": "C35", "title": "Inverted dropout keeps or drops each activation with the advertised scale", "statement": "After make_dropout each activation is either 0 (mask 0) or multiplied by 1/p (mask 1/p), depending on the random value being below p, and the expected value over the uniform random source equals the original activation; alpha-dropout yields a*x+b or a*alpha'+b with coefficients preserving mean and variance of a standardised input.", "quantifier": "every activation matrix and every random source", "why_tests_cant": "the random source and the values range over infinite sets", "anchors": ["nntl/interface/math/mathn.h: make_dropout, make_alphaDropout, apply_dropout_mask", "nntl/dropout"]}
{"id": "C36", "title": "Momentum and Nesterov updates follow the textbook recurrences", "statement": "For every sequence of gradients, with classical momentum the weights follow v' = mu v + g, w' = w - v'; with Nesterov momentum the weights seen by the forward pass are the look-ahead point and the sequence equals Nesterov's accelerated gradient scheme.", "quantifier": "every gradient sequence, every momentum and learning rate schedule", "why_tests_cant": "trajectories of unbounded length", "anchors": ["nntl/grad_works/grad_works.h: pre_training_fprop, apply_grad", "nntl/interface/math/mathn.h: apply_momentum, evMulC_ip_Sub_ip"]}
{"id": "C37", "title": "Adam, AdaMax, RMSProp and Nadam recurrences match their published closed forms", "statement": "After t steps the internal state equals the closed form (bias-corrected exponential moving averages) of the gradient history, and the update is the published one; beta powers are advanced exactly once per step irrespective of the number of threads.", "quantifier": "every gradient history of every length", "why_tests_cant": "induction over the history is needed", "anchors": ["nntl/interface/math/mathn.h: Adam, AdaMax, RNadam, RMSProp_Hinton, RMSProp_Graves, ModProp, RProp"]}
{"id": "C38", "title": "Optimizers never divide by zero or take the root of a negative number", "statement": "For every gradient history, the denominators and radicands of the update formulas stay positive (eps > 0), including the centred RMSProp radicand rF - rG^2 + eps.", "quantifier": "every gradient history", "why_tests_cant": "an invariant over unbounded histories", "anchors": ["nntl/interface/math/mathn.h: RMSProp_Hinton, RMSProp_Graves, Adam, AdaMax"]}
{"id": "C39", "title": "Update magnitude bounds of adaptive optimizers", "statement": "RMSProp's step is at most lr/sqrt(1-decay) in magnitude, RProp's step is lr or 0, AdaMax's moving maximum dominates every discounted past gradient, for every gradient history.", "quantifier": "every gradient history", "why_tests_cant": "unbounded histories", "anchors": ["nntl/interface/math/mathn.h: RMSProp_Hinton, RProp, AdaMax"]}
{"id": "C40", "title": "Individual learning rate gains stay within the caps", "statement": "For every history of gradients the gain of each weight stays within [capLow, capHigh] when it starts there.", "quantifier": "every gradient history, every parameter setting", "why_tests_cant": "the overshoot depends on the exact relation of gain and cap reached by the history", "anchors": ["nntl/interface/math/mathn.h: apply_ILR", "nntl/grad_works/ILR.h"]}
{"id": "C41", "title": "Max-norm regularisation bounds the row norms", "statement": "After mCheck_normalize_rows(W, maxNormSquared) every row whose squared norm exceeded the bound has squared norm exactly the bound and keeps its direction, and every other row is unchanged.", "quantifier": "every matrix and every bound", "why_tests_cant": "all reals, all shapes", "anchors": ["nntl/interface/math/mathn.h: mCheck_normalize_rows, mrwL2NormSquared"]}
{"id": "C42", "title": "train() performs exactly the planned sequence of batches", "statement": "A successful train() without early stop performs maxEpoch epochs, in each of them one fprop and one bprop per batch in batch order, always in training mode with the training batch size, and evaluates in inference mode only; the layers always know the batch size in effect.", "quantifier": "every number of epochs and batches, every reporting schedule, every failure or stop; every sequence of earlier sessions and deinitialisations with the same sizes", "why_tests_cant": "all option combinations and run lengths", "anchors": ["nntl/nnet.h: nnet::train, _set_mode_and_batch_size, _report_training_progress"]}
{"id": "C43", "title": "train() reports divergence exactly when the loss reaches the threshold", "statement": "train() returns NNDiverged iff at some epoch not later than the configured last check epoch the training loss is not below the threshold.", "quantifier": "every loss sequence (including not-a-number) and every option setting", "why_tests_cant": "all loss sequences", "anchors": ["nntl/nnet.h: train (divergence check)", "nntl/nnet_train_opts.h"]}
{"id": "C44", "title": "train() releases resources on every exit path when asked to", "statement": "With ImmediatelyDeinit set, on every exit path of train() after the parameter checks (initialisation failure, observer failure, callback stop, divergence, normal end) the training data is deinitialised exactly once, the network is left deinitialised, an observer that was initialised is deinitialised exactly once (one that failed is not) and the inspector is switched back.", "quantifier": "every exit path, every failure point", "why_tests_cant": "failure points are many and hard to trigger", "anchors": ["nntl/nnet.h: train (scope_exit blocks), deinit"]}
{"id": "C45", "title": "The reported loss does not depend on how the set is split into batches", "statement": "The loss value reported for a data set is the mean over its samples, whatever maximum forward batch size is used.", "quantifier": "every data set and every batch size", "why_tests_cant": "needs comparison across all batch sizes", "anchors": ["nntl/nnet.h: calcLossAndReport, _calcLoss4batch"]}
{"id": "C46", "title": "Shared temporary memory is carved into disjoint pieces", "statement": "The temporary buffer allocated for training has exactly the size of the pieces carved from it (two dL/dA matrices and the layer scratch area), the pieces do not overlap, and every layer's declared requirement fits.", "quantifier": "every network and every batch size", "why_tests_cant": "all networks", "anchors": ["nntl/nnet.h: _totalTrainingMemSize, _processTmpStor", "nntl/layer/_init_layers.h: layers_mem_requirements"]}
{"id": "C47", "title": "The two gradient buffers alternate consistently", "statement": "During bprop each layer receives as dL/dA the buffer in which the layer above left its dL/dAPrev, for every sequence of layers that either produce a new buffer or pass the gradient through.", "quantifier": "every stack of layers and every return value pattern", "why_tests_cant": "all stacks", "anchors": ["nntl/layers.h: bprop", "nntl/layer/pack_vertical.h: _lpv_bprop", "nntl/layer/pack_tile.h: _lpt_bprop"]}
{"id": "C48", "title": "Numeric gradient check leaves the network unchanged", "statement": "gradcheck() restores every weight it perturbs and the mode/batch size it found, on every exit path.", "quantifier": "every network, every failure point", "why_tests_cant": "all paths", "anchors": ["nntl/nnet.h: gradcheck, GradCheckFunctor"]}
{"id": "C49", "title": "Numeric gradient check rejects wrong gradients", "statement": "gradcheck() fails whenever the relative difference of the analytical and numeric derivative is above the failure threshold, including not-a-number gradients.", "quantifier": "every pair of analytical and numeric values", "why_tests_cant": "all value pairs including NaN", "anchors": ["nntl/nnet.h: GradCheckFunctor::_checkErr"]}
{"id": "C50", "title": "Epoch condition vectors answer for every epoch", "statement": "A vector of epoch conditions built with a stride is true exactly at the epochs the stride selects (and at the last one), and querying/constructing it never touches memory outside of the vector for any maxEpoch and stride >= 1.", "quantifier": "every maxEpoch, start and stride", "why_tests_cant": "all integer combinations", "anchors": ["nntl/utils/vector_conditions.h", "nntl/utils/epochs_props.h"]}
{"id": "C51", "title": "Random vectors fill every element within the requested range", "statement": "gen_vector and its multithreaded version write each of the n elements exactly once with a value in the requested range and nothing else; gen_i(n) is in [0,n).", "quantifier": "every n, every range, every thread partition, every underlying generator output", "why_tests_cant": "all sizes and generator states", "anchors": ["nntl/interface/rng/afrand.h", "nntl/interface/rng/afrand_mt.h", "nntl/interface/_i_rng.h"]}
{"id": "C52", "title": "Normally distributed vectors use the requested deviation", "statement": "normal_vector(ptr, n, mean, stdev) fills the vector with samples of a normal distribution with the given mean and standard deviation, independently of n.", "quantifier": "every n, mean and standard deviation", "why_tests_cant": "distribution parameters are not observable from a few samples", "anchors": ["nntl/interface/_i_rng.h: rng_helper::normal_vector"]}
{"id": "C53", "title": "Horizontal packs route every neuron once", "statement": "In layer_pack_horizontal the activations of the inner layers occupy consecutive disjoint column ranges covering the pack's activation matrix, construction succeeds iff the incoming ranges cover all incoming neurons, and overlapping incoming ranges have their gradients summed.", "quantifier": "every list of inner layers and ranges", "why_tests_cant": "all packs", "anchors": ["nntl/layer/_lph_base.h", "nntl/layer/pack_horizontal.h", "nntl/layer/_init_layers.h: PHLCheck"]}
{"id": "C54", "title": "Layer indices are unique and ascending", "statement": "After assembling the layers object every layer, including nested ones in packs, has a unique index, indices are assigned 0,1,2,... in pre-order, and total_layers() equals their number.", "quantifier": "every nested layer structure of at most 65535 layers (indices have 16 bits)", "why_tests_cant": "all nestings", "anchors": ["nntl/layers.h: constructor", "nntl/layer/_init_layers.h: _preinit_layers, init_layer_index"]}
{"id": "C55", "title": "Binary classification statistics are consistent", "statement": "The confusion matrix accumulates each (prediction, truth) pair in the matching cell; merging per-thread matrices equals processing all pairs in one; the totals equal the number of pairs.", "quantifier": "every sequence of pairs and every split", "why_tests_cant": "all sequences", "anchors": ["nntl/utils/confusion_mtx.h"]}
{"id": "C56", "title": "Classification evaluators count exactly the matching samples", "statement": "The number of correct classifications accumulated over the batches of a data set equals the number of samples (elements) whose binarised/argmax prediction equals the binarised/argmax truth.", "quantifier": "every data set, every batch split", "why_tests_cant": "all data sets", "anchors": ["nntl/nnet_evaluator.h", "nntl/interface/math/mathn.h: ewBinarizeBatch, vCountSameBatch, vCountSame"]}
{"id": "C57", "title": "Kahan summation is exact-arithmetic correct and thread-split sums agree", "statement": "Over the reals the compensated and the plain sum kernels both return the sum of the elements, for every split of the vector over threads.", "quantifier": "every vector and every partition", "why_tests_cant": "all vectors", "anchors": ["nntl/interface/math/smath.h: func_SUM, _reduce_vec_sum", "nntl/interface/math/mathn.h: loss_quadratic, loss_quadratic_ns"]}
{"id": "C58", "title": "Background pool destructor terminates", "statement": "~BgWorkers() always completes within a bounded number of steps of the worker threads, whatever they are doing when it starts.", "quantifier": "every schedule, every number of threads, every point at which destruction starts", "why_tests_cant": "shutdown races are not reproducible by tests", "anchors": ["nntl/interface/threads/bgworkers.h: ~BgWorkers, _worker"]}
{"id": "C59", "title": "exec() on the background pool returns whatever the tasks do", "statement": "BgWorkers::exec(f) returns even if a registered task always reports that it has more work.", "quantifier": "every schedule and every task behaviour", "why_tests_cant": "needs an adversarial schedule and a non-terminating task", "anchors": ["nntl/interface/threads/bgworkers.h: exec, disperse_locker, _worker"]}
{"id": "C60", "title": "resize() reporting success provides storage of the requested size", "statement": "When resize() returns true the matrix has the requested number of rows and columns (plus the bias one), owns storage for all of them and its bias part consists of ones; when it returns false the matrix is empty.", "quantifier": "every prior state of the matrix and every outcome of the memory allocation", "why_tests_cant": "allocation failures are not exercised by tests", "anchors": ["nntl/interface/math/smatrix.h: resize, _impl_resize, _realloc"]}
{"id": "C61", "title": "clone_to produces an equal matrix", "statement": "m.clone_to(dest) returning true leaves dest with the shape, flags and elements of m; it succeeds whenever memory suffices for a destination owning its storage, and for external storage iff the sizes match; on failure an external destination is unchanged.", "quantifier": "every source, every destination whose last allocation did not fail", "why_tests_cant": "all shapes, flags and destination states", "anchors": ["nntl/interface/math/smatrix.h: clone_to, copy_to"]}
{"id": "C62", "title": "The bias self-check detects every wrong bias", "statement": "test_biases_strict() accepts a matrix iff every element of its bias column (row) is 1, and test_biases_holey() iff every one of them is 0 or 1; neither reads outside of the matrix.", "quantifier": "every matrix, both layouts", "why_tests_cant": "all contents and layouts", "anchors": ["nntl/interface/math/smatrix.h: test_biases_strict, test_biases_holey, _isBinaryVecWLd"]}
{"id": "C63", "title": "Only coherent train data is accepted by absorb()", "statement": "absorb(trainX, trainY, testX, testY) succeeds iff all four matrices are non-empty and own their storage, the x matrices emulate biases and the y matrices do not, x and y of each set hold the same number of samples, and both sets have the same widths; on failure the object is unchanged.", "quantifier": "every quadruple of matrices, both layouts", "why_tests_cant": "all shapes, layouts and flags", "anchors": ["nntl/train_data/inmem_train_data_stor.h: absorb, absorbsion_will_succeed, replace_Y_will_succeed"]}
{"id": "C64", "title": "A failed init4inference leaves the object uninitialised", "statement": "When init4inference returns an error code, is_initialized4inference returns false until the next successful initialisation.", "quantifier": "every data set, every requested size, every outcome of the allocations", "why_tests_cant": "allocation failures are not exercised by tests", "anchors": ["nntl/train_data/_train_data_simple.h: init4inference, is_initialized4inference"]}
{"id": "C65", "title": "Blocks rounded to the cache line size do not share cache lines", "statement": "Two arrays taken one after another from the temporary storage, with element counts rounded by the cache-line rounding function, never share a cache line, so that threads writing to their own arrays do not contend.", "quantifier": "every element size, every count, every address of the storage the allocator may return", "why_tests_cant": "depends on the address the allocator returns", "anchors": ["nntl/interface/math/smath.h: _istor_round_count_to_cache_line_size, _istor_alloc"]}
{"id": "C66", "title": "Reading a data file is memory safe", "statement": "read() never accesses memory outside of the storage of the destination and never overflows a signed integer, whatever bytes the file holds.", "quantifier": "every byte string, every outcome of the allocations", "why_tests_cant": "the input space is all byte strings; the failing inputs announce more than 2^61 elements", "anchors": ["nntl/_supp/io/binfile.h: _impl_read_field_entry", "nntl/interface/math/smatrix.h: byte_size, resize, _realloc, set_biases"]}
{"id": "C67", "title": "A failed read leaves the destination as it was", "statement": "When read() returns an error code the destination object is unchanged and can be used for another read().", "quantifier": "every file, every kind of destination", "why_tests_cant": "all malformed files", "anchors": ["nntl/_supp/io/binfile.h: read, _read_into"]}
{"id": "C68", "title": "The reader's temporary buffer is always released", "statement": "The buffer allocated for element type conversion is released on every path of read().", "quantifier": "every file", "why_tests_cant": "leaks on error paths are invisible to functional tests", "anchors": ["nntl/_supp/io/binfile.h: _impl_read_field_entry"]}
{"id": "C69", "title": "The Matlab exporter writes files the reader accepts", "statement": "export_2bin applied to a matrix or to a struct holding train_x, train_y, test_x, test_y (and possibly other fields, dropped by default) writes a file which read() turns into the same data.", "quantifier": "every matrix and every struct with coherent train data", "why_tests_cant": "all shapes, field orders and extra fields; two languages", "anchors": ["nntl/_supp/matlab/export_2bin.m", "nntl/_supp/io/binfile.h"]}
{"id": "C70", "title": "The zero-stability flag of an activation is truthful", "statement": "The bFIsZeroStable flag of an activation class is set exactly when the activation maps 0 to 0.", "quantifier": "every activation class and every admissible parameter", "why_tests_cant": "all parameters", "anchors": ["nntl/activations/_i_activation.h: bFIsZeroStable", "nntl/activations"]}
{"id": "C71", "title": "The residual-weighted loss weighs exactly the excess over the boundary", "statement": "As its comment says, Loss_quadWeighted_res_FP applies the heavier penalty to a - YBoundary when y < YBoundary and a > YBoundary, and is a continuous function of the activation.", "quantifier": "every activation, label and weight", "why_tests_cant": "all reals", "anchors": ["nntl/activations/_loss_parts.h: Loss_quadWeighted_res_FP"]}
{"id": "C72", "title": "Setting row norms gives every row the requested norm", "statement": "After mrwSetL2Norm(W, normSquared) every row of W has the requested squared norm and keeps its direction.", "quantifier": "every matrix, every norm, every number of threads", "why_tests_cant": "all reals, all shapes; the failing input has a zero row", "anchors": ["nntl/interface/math/mathn.h: mrwSetL2Norm"]}
{"id": "C73", "title": "The max-norm bound holds after every training step", "statement": "With max_norm switched on, after every training step in which learning is not blocked the squared norm of every row of the weights is within the bound, for every optimizer and every combination of momentum, individual rates and dropout of updates.", "quantifier": "every configuration, every sequence of steps, every gradient", "why_tests_cant": "trajectories of unbounded length", "anchors": ["nntl/grad_works/grad_works.h: apply_grad", "nntl/interface/math/mathn.h: mCheck_normalize_rows"]}
{"id": "C74", "title": "Dropout of updates leaves exactly the dropped weights unchanged", "statement": "With a learning rate dropout (and neither Nesterov momentum nor max-norm) a step leaves a weight unchanged if its random number is not below the percentage of active ones and otherwise moves it as without the dropout; the velocity is updated for all weights.", "quantifier": "every configuration, every sequence of steps and random numbers", "why_tests_cant": "all masks and histories", "anchors": ["nntl/grad_works/grad_works.h: apply_grad, pre_training_fprop", "nntl/interface/math/mathn.h: apply_dropout_mask"]}
{"id": "C75", "title": "Every numeric stabilizer the setter admits makes the optimizer defined", "statement": "For every value admitted by numeric_stabilizer (0 <= n < 1) training never divides by zero.", "quantifier": "every admitted stabilizer, every gradient history", "why_tests_cant": "needs the gradient of a weight to stay exactly zero from the first step on", "anchors": ["nntl/grad_works/grad_works.h: numeric_stabilizer", "nntl/interface/math/mathn.h: AdaMax, Adam, RMSProp_Hinton"]}
{"id": "C76", "title": "The gradient buffers are large enough for every network and batch", "statement": "In every training session (any order of batch sizes and steps within the announced maximum) the buffers shared by the layers for dL/dA, sized at initialisation from the layers' announcements, hold every matrix the layers put into them.", "quantifier": "every network of fully connected layers, identity layers and packs; every announced batch size; every sequence of batches", "why_tests_cant": "all nestings of packs; the failing network has an identity layer as its lowest layer", "anchors": ["nntl/nnet.h: _totalTrainingMemSize, _processTmpStor", "nntl/layer/_init_layers.h: layers_mem_requirements", "nntl/layers.h: bprop", "nntl/layer/identity.h: layer_init"]}
{"id": "C77", "title": "A training session uses the sizes it asks for", "statement": "train() trains with the batch size and evaluates with the maximum forward batch size its options ask for (limited by the number of samples), also when the network or the training data object were used before with other sizes.", "quantifier": "every history of the network and the training data, every pair of sizes", "why_tests_cant": "needs two sessions with different sizes; the result is silently wrong", "anchors": ["nntl/nnet.h: train, _init, _is_initialized", "nntl/common_nn_data.h: is_initialized, init", "nntl/interface/_i_train_data.h: is_initialized4train"]}
{"id": "C78", "title": "The gradient check compares what it should", "statement": "Every comparison of gradcheck() puts the analytical derivative, taken from a backward pass of the unchanged network, beside the central difference of the losses of two forward passes on the same batch of distinct samples in which exactly one parameter differs (by plus and minus the step); when it succeeds, the requested number of distinct activations, weights and bias weights of every layer that is not ignored was compared.", "quantifier": "every network of fully connected layers, identity layers and (tiling) packs, every weights, settings, data sizes and random numbers", "why_tests_cant": "all layer nestings and picks of parameters; a check that compares the wrong pair still reports success", "anchors": ["nntl/nnet.h: gradcheck", "nntl/utils/gradcheck.h", "nntl/interface/inspectors/gradcheck.h"]}
{"id": "C79", "title": "gradcheck() handles every data set it admits", "statement": "For every data set and batch sizes that pass the checks at its start, gradcheck() returns a verdict.", "quantifier": "every number of samples, batch size and online batch size", "why_tests_cant": "needs a batch as large as the data set", "anchors": ["nntl/nnet.h: gradcheck"]}
{"id": "C80", "title": "The scores of a confusion matrix are defined and correct", "statement": "Sensitivity, specificity, precision, NPV, accuracy, Jaccard index, F1, informedness, markedness and the Matthews correlation coefficient of a confusion matrix have their textbook values for every data set whose size fits the counters.", "quantifier": "every matrix of counters with a sum below 2^31", "why_tests_cant": "all counters; the product of the marginal sums overflows for a few hundred samples", "anchors": ["nntl/utils/confusion_mtx.h: Sensitivity, MCC, F1Score, Jaccard"]}
{"id": "C81", "title": "Black and white lists of layers", "statement": "After any sequence of calls that fill the list, a layer is allowed exactly if it is listed by index or type (white list) or not listed (black list); listing in the other mode starts from an empty list.", "quantifier": "every sequence of calls, every set of layers with distinct indices", "why_tests_cant": "all call sequences, including changes of the mode", "anchors": ["nntl/utils/bwlist.h: _bwlist", "nntl/interface/inspectors/dumper.h: init_nnet, init_layer"]}
{"id": "C82", "title": "The batch size options stay consistent", "statement": "Whatever sequence of batchSize and maxFpropSize calls is accepted, both are non-negative and a non-zero limit on the forward batch is never below the batch size.", "quantifier": "every sequence of calls", "why_tests_cant": "all sequences of the two setters", "anchors": ["nntl/nnet_train_opts.h: batchSize, maxFpropSize"]}
{"id": "C83", "title": "Seeding makes the generated numbers reproducible", "statement": "seed(s) puts the engine of every thread into a state that depends on s and the thread number only, so everything generated afterwards is determined by the seed and the number of threads.", "quantifier": "every seed, every number of threads, every history before", "why_tests_cant": "all histories and thread counts; a missed engine shows only with enough elements", "anchors": ["nntl/interface/rng/afrand_mt.h: seed, reseed"]}
{"id": "C84", "title": "Iterating over the layers visits each exactly once", "statement": "for_each_layer calls the function exactly once for every layer of the network, those inside packs included, everything inside a pack before the pack; for_each_layer_down makes the same calls in the opposite order.", "quantifier": "every nested layer structure, every function", "why_tests_cant": "all nestings", "anchors": ["nntl/layers.h: for_each_layer, for_each_layer_down", "nntl/layer/_layer_base.h: call_F_for_each_layer", "nntl/layer/pack_vertical.h", "nntl/layer/_lph_base.h", "nntl/layer/pack_tile.h"]}
{"id": "C85", "title": "Every layer learns how many neurons it is connected to", "statement": "After assembling the layers object the number of incoming neurons of every layer is the number of neurons of the layer below it, the size of its range in a horizontal pack, or its share of the tiles.", "quantifier": "every nested layer structure of at most 65535 layers", "why_tests_cant": "all nestings", "anchors": ["nntl/layer/_init_layers.h: _preinit_layers", "nntl/layer/_layer_base.h: _preinit_layer", "nntl/layer/pack_tile.h: _preinit_layer"]}
{"id": "C86", "title": "Regularizers of weights add what they report", "statement": "The loss addendum of a layer's weights is the sum over the regularizers with non-zero scale of the scale times the sum of absolute values (L1), half the sum of squares (L2) or the sum of the squared off-diagonal covariances (DeCov, halved and divided by the number of variables less one), without the bias weights when the regularizer ignores them; what is added to dL/dW is the derivative of that value with respect to every weight.", "quantifier": "every set of regularizers, every size of weight matrix, all weights and gradients, every number of workers, partition and interleaving, every threshold between single- and multithreaded kernels, any content of temporary memory", "why_tests_cant": "all real matrices and all schedules; derivatives", "anchors": ["nntl/grad_works/loss_addendums.h: lossAddendum, _applyLossAddendums", "nntl/loss_addendum/L1.h", "nntl/loss_addendum/L2.h", "nntl/loss_addendum/DeCov.h", "nntl/interface/math/mathn.h: evAddScaled_ip, evAddScaledSign_ip, loss_deCov, dLoss_deCov"]}
{"id": "C87", "title": "Penalties of activations add the derivatives of what they report", "statement": "The loss addendum of a layer's activations is the sum over its enabled penalties, bias column excluded. Back-propagation adds to every element of dL/dA the derivative of every enabled penalty: at the activations seen by forward propagation for penalties computed there, at the present activations for the others; penalties with the flag for non-zero gradients leave elements that are zero by then alone.", "quantifier": "every list of penalties, batch size and layer width, all activations and gradients, every schedule and threshold, any content of temporary memory", "why_tests_cant": "all real matrices and all schedules; derivatives", "anchors": ["nntl/layer/_penalized_activations_base.h: _pab_lossAddendum, _pab_fprop, _pab_update_dLdA", "nntl/loss_addendum/_i_loss_addendum.h: scaled_addendum", "nntl/loss_addendum/L1.h", "nntl/loss_addendum/L2.h", "nntl/loss_addendum/DeCov.h", "nntl/interface/math/mathn.h: evNZAddScaled_ip, evNZAddScaledSign_ip"]}
{"id": "C88", "title": "Training with penalised activations descends the reported loss", "statement": "In a network whose hidden layers have penalties of activations, the dL/dW computed by one forward and backward pass are the partial derivatives of the loss that is reported for the batch: mean loss of the outputs plus the loss addendum of the layers.", "quantifier": "every network of nested layers with any penalties on its top-level hidden layers, every batch and weights at which activations and penalties are differentiable", "why_tests_cant": "derivatives of a whole network, all architectures", "anchors": ["nntl/layer/extender.h: _LEx::fprop, bprop, lossAddendum", "nntl/layers.h: fprop, bprop, calcLossAddendum", "nntl/layer/_penalized_activations_base.h", "nntl/nnet.h: calcLoss"]}
{"id": "C89", "title": "Dropout trains the thinned network and leaves evaluation alone", "statement": "In training mode the outputs are those of the network in which after every hidden layer with dropout each activation is kept (and scaled, or for alpha dropout mapped to its affine image) or replaced by the dropped value, according to the random numbers drawn for it; back-propagation leaves in every layer the partial derivatives, for these random numbers, of the mean loss of this thinned network plus the penalties of the activations before dropout divided by the batch size. In evaluation mode the results are those of the network without dropout and the state of dropout does not change.", "quantifier": "every network of nested layers, any dropout (none, classic, alpha, any share kept) and any penalties on each top-level hidden layer, all random numbers, every batch and weights at which activations and penalties are differentiable, every schedule of the kernels", "why_tests_cant": "derivatives of a whole network, all architectures, all random numbers", "anchors": ["nntl/layer/extender.h: _LEx::fprop, bprop", "nntl/dropout/dropout.h", "nntl/dropout/alpha_dropout.h", "nntl/layers.h: fprop, bprop", "nntl/interface/math/mathn.h: make_dropout, apply_dropout_mask, make_alphaDropout"]}
{"id": "C90", "title": "Gated packs show every inner layer only its samples", "statement": "The activations of a gated pack are the gates (binarised if asked for), their complements if asked for, and for every inner layer the activations it would compute alone for the samples whose gate is open and zeros for the others. No memory outside of the storage shared by the inner layers is used although their bias columns overlap, and the pack remains usable for the next batch.", "quantifier": "every number of gated layers (any nested layers) with non-overlapping receptive fields, every batch up to the biggest, all weights, all inputs whose gates are 0 or 1, any previous content of the buffers", "why_tests_cant": "all partitions of samples by gates, all architectures", "anchors": ["nntl/layer/pack_horizontal_optional.h: _lpho_fprop, _fprop_add_no_present_feature, _init_self", "nntl/layer/identity.h: _LIG", "nntl/layer/_lph_base.h", "nntl/layer/_pack_.h", "nntl/interface/math/mathn.h: mExtractRowsByMask, mFillRowsByMask"]}
{"id": "C91", "title": "Gated packs propagate derivatives", "statement": "Back-propagation through a gated pack hands down the derivatives with respect to every input that is not a gate, and zeros for the gates; the gradients of the weights of the inner layers are, as everywhere else, the derivatives divided by the size of the batch; a layer that was shown no samples is not changed.", "quantifier": "every number of gated layers (any nested layers) with non-overlapping receptive fields, every batch up to the biggest, all weights, inputs whose gates are 0 or 1 and at which the activations are differentiable, every optimizer", "why_tests_cant": "derivatives, all partitions of samples by gates, all architectures", "anchors": ["nntl/layer/pack_horizontal_optional.h: _lpho_bprop", "nntl/layer/_pack_.h: _trainable_partial_layer_wrapper", "nntl/layer/fully_connected.h: bprop"]}
{"id": "C92", "title": "Normalisation of data is one affine map for all sets", "statement": "normalize_data on a training data object leaves the y data, all sizes and the biases alone, replaces every x value v of the train set by a*v+b with the same a and b for the whole set, or for the whole column when columns are normalised separately, and applies the same map to the test set if it reports success and leaves the test set alone if it does not. a is positive for a positive scale; scaling or centring that is not asked for is not done. An object that was initialised for training or inference stays initialised and goes on to serve documented calls, with the new data; one that was not initialised is not afterwards.", "quantifier": "all usable data, all settings, any state of the object reached by documented calls, all schedules of the threads, success or failure of memory allocations", "why_tests_cant": "all data over the reals, all settings and histories of the object", "anchors": ["nntl/train_data/_td_base.h: normalize_data, _fix_dataX_whole, _fix_dataX_cw", "nntl/train_data/_train_data_simple.h: _fix_trainX_whole, _fix_trainX_cw", "nntl/train_data/_td_norm.h: Norm_whole, Norm_cw", "nntl/utils/mtx2Normal.h: normalize_whole, normalize_cw"]}
{"id": "C93", "title": "Normalised data has the requested statistics", "statement": "When normalize_data reports success, the standard deviation and the mean of the train x data it looked at (all values, or every column) differ from the requested ones by less than the tolerances, unless not asked for or, for the deviation, it is 0.", "quantifier": "all usable data with enough values, all settings, any state of the object reached by documented calls, all schedules of the threads", "why_tests_cant": "all data over the reals", "anchors": ["nntl/train_data/_td_base.h: normalize_data", "nntl/train_data/_td_norm.h: Norm_whole, Norm_cw", "nntl/utils/mtx2Normal.h: normalize_whole, normalize_cw, _FNorm_stats_var_mean"]}
{"id": "C94", "title": "Normalisation of usable data succeeds", "statement": "With positive tolerances and scale, enough tries (one more than the number of things asked for), enough values and no lack of memory, normalize_data reports success.", "quantifier": "all usable data, all such settings, any state of the object reached by documented calls, all schedules of the threads", "why_tests_cant": "all data over the reals; convergence of an iteration", "anchors": ["nntl/train_data/_td_base.h: normalize_data, _fix_dataX_whole, _fix_dataX_cw", "nntl/train_data/_td_norm.h: normalize_data_whole, normalize_data_cw", "nntl/utils/mtx2Normal.h: normalize_whole, normalize_cw"]}
{"id": "C95", "title": "A failed normalisation changes no data", "statement": "When normalize_data reports failure, the x data of the train and of the test set is what it was before.", "quantifier": "all usable data with enough values, all settings with positive tolerances and scale, any state of the object reached by documented calls, all schedules of the threads", "why_tests_cant": "all data over the reals", "anchors": ["nntl/train_data/_td_base.h: normalize_data", "nntl/train_data/_td_norm.h: normalize_data_whole, normalize_data_cw", "nntl/utils/mtx2Normal.h: normalize_whole, normalize_cw"]}
{"id": "C96", "title": "A sample's output does not depend on the rest of its batch", "statement": "In a forward pass every row of the output layer's activations is one fixed function of the same row of the input: the same sample gives the same output in whatever batch, at whatever position, next to whatever other samples. The loss of a batch is the mean of the losses of its samples.", "quantifier": "all networks of fully connected, identity, vertical, horizontal and tiled layers, all weights, all batches of any size", "why_tests_cant": "all networks, weights and batches; tests compare few of them", "anchors": ["nntl/layers.h: fprop", "nntl/layer/fully_connected.h: _lfc_fprop", "nntl/layer/pack_tile.h: fprop", "nntl/layer/_lph_base.h: fprop", "nntl/layer/output.h: calc_loss"]}
{"id": "C97", "title": "Training is stochastic gradient descent on the mean loss", "statement": "A call of train that runs changes the weights, starting from those the network had, by exactly one step per full batch: each epoch goes through a permutation of the training samples in consecutive batches, and at each batch every layer's weights are updated with the gradient of the mean loss of the samples of that batch at the current weights. With plain gradient descent every weight moves by minus the learning rate times its partial derivative (the k-th part of it for a layer repeated in k tiles). Evaluations and reports between the steps change no weight.", "quantifier": "all data with samples in rows, all networks of the modelled layers, all update rules, numbers of epochs, batch sizes, orders of the random generator, interleavings of the threads and any earlier life of the network", "why_tests_cant": "the whole of train(): epochs, permutations, batches, forward and backward passes, over all inputs", "anchors": ["nntl/nnet.h: train", "nntl/layers.h: fprop, bprop", "nntl/train_data/_train_data_simple.h: on_next_batch", "nntl/grad_works/grad_works.h: apply_grad"]}
{"id": "C98", "title": "Reported losses are those of the network at that moment", "statement": "Every training and test loss reported by train is computed from the network's current weights and all samples of the set: their mean loss if the set fits into one evaluation batch, and the number of batches times the mean if it is split into several equal ones.", "quantifier": "all data with samples in rows, all networks of the modelled layers, all options without loss addendums, any earlier life of the network", "why_tests_cant": "all data, networks and histories", "anchors": ["nntl/nnet.h: train, _calcLossAndReport, calcLoss", "nntl/layer/output.h: calc_loss", "nntl/layers.h: fprop"]}
{"id": "C99", "title": "Data-driven initialisation reports what it achieved", "statement": "The LSUV-like initialiser returns; it changes nothing but weights, and not those of layers it is not asked to treat. It refuses a training set of less than two samples. Otherwise it reports success exactly if it names no failed layer, and then every layer it was asked to treat has, in the network as the call leaves it, mean and deviation of its values (before or after the activation, per neuron or over the layer) over the samples looked at within the tolerances asked for; if it names a layer, that holds for all layers before that one. It leaves the training data object deinitialised.", "quantifier": "all training data, all networks of the modelled layers with any weights, all settings per layer, all weights a re-initialisation may make, any state of the data object reached by documented calls, all schedules of the threads", "why_tests_cant": "all data and networks over the reals; later layers are treated after earlier ones", "anchors": ["nntl/weights_init/LsuvExt.h: run, _processLayer, WeightsNorm_whole, WeightsNorm_cw", "nntl/utils/mtx2Normal.h: normalize_whole, normalize_cw", "nntl/nnet.h: init4fixedBatchFprop, doFixedBatchFprop"]}
{"id": "C100", "title": "Data-driven initialisation over pre-activations succeeds", "statement": "With statistics over the values before the activations, positive scales and tolerances, at least one try more than there are things asked for and at least two samples looked at, the initialiser succeeds on every network; every neuron keeps the direction of its weights: they are multiplied by one positive factor (1 if no scaling is asked for) and its bias is moved in addition (not at all if no centring is asked for), the same for all neurons unless asked to treat them one by one.", "quantifier": "all training data of two or more samples, all networks of the modelled layers with any weights, all such settings per layer", "why_tests_cant": "convergence over all data, weights and networks over the reals", "anchors": ["nntl/weights_init/LsuvExt.h: run, _processLayer, WeightsNorm_whole, WeightsNorm_cw", "nntl/utils/mtx2Normal.h: normalize_whole, normalize_cw"]}
{"id": "C101", "title": "Sparse initialisation connects each neuron to the requested number of inputs", "statement": "With a previous layer of at least K neurons, the sparse initialiser gives every neuron exactly K weights from K distinct inputs, each made of a normal number of its own times the deviation asked for; all other weights are 0 and all biases have the value asked for. Lack of memory is reported. (With a smaller previous layer it reads out of bounds.)", "quantifier": "all layer sizes, all K, all parameters, all outcomes of the random generator, any earlier content of the matrix", "why_tests_cant": "all sizes and random outcomes; distinctness of the inputs relies on the shuffle", "anchors": ["nntl/weights_init/static.h: Martens_SI::make_weights", "nntl/interface/rng/distr_normal_naive.h: gen_matrix", "nntl/interface/math/smatrix.h: fill_column_with, set, zeros"]}
{"id": "C102", "title": "Initial weights have the advertised scale", "statement": "He_Zhang and He_Zhang2 (SNNInit) set all biases to 0 and every weight to a normal number of its own times a deviation d with d^2 times the number of inputs equal to 2c^2, respectively to the parameter. Xavier puts all weights and biases into [-s, s] with s^2 (rows + columns) = 6c^2. OrthoInit reports success iff the decomposition succeeded in one of its tries; then the columns of the weight matrix (its rows, if there are fewer of them) are orthogonal with the gain as length.", "quantifier": "all layer sizes, all parameters, all outcomes of the random generator and of the decomposition, any earlier content of the matrix, all schedules of the threads", "why_tests_cant": "all sizes and random outcomes over the reals", "anchors": ["nntl/weights_init/static.h: Xavier, He_Zhang, He_Zhang2, OrthoInit", "nntl/interface/math/mathn.h: mSVD_Orthogonalize_ss", "nntl/interface/rng/distr_normal_naive.h: gen_vector"]}
{"id": "C103", "title": "Data made by a transformation is served correctly whatever happened before", "statement": "The training data object that derives its samples at run time from stored base samples serves, after every history of initialisations, epochs, walks, normalisations and resets, the samples of the transformation: in an epoch each full batch has whole families of samples (all samples derived from a base sample) of distinct base samples, in one permutation of the training set per epoch, each sample with its own label; a complete epoch returns the number of full batches and shows every sample once if the batch size divides their number. All values of a column go through one affine map, the same for every set, sample and later call, which is the identity if the data is not normalised or was reset.", "quantifier": "all transformations that respect the documented interface, all stored data, all histories of documented calls, all answers of the random generator", "why_tests_cant": "all histories of calls and all transformations", "anchors": ["nntl/train_data/transf_train_data.h: on_next_epoch, on_next_batch, walk_over_set, next_subset, reset_normalization", "nntl/train_data/_td_base.h: batchX, batchY"]}
{"id": "C104", "title": "A walk over a transformed set shows all its samples", "statement": "walk_over_set followed by as many calls of next_subset as it announced shows every sample of the set exactly once.", "quantifier": "all transformations that respect the documented interface, all sets, batch sizes and histories", "why_tests_cant": "all sizes; the remainder is treated specially", "anchors": ["nntl/train_data/transf_train_data.h: walk_over_set, next_subset"]}
{"id": "C105", "title": "Initialisation of transformed data announces sizes it can serve", "statement": "A successful initialisation returns as sizes of the batches for inference and for training what was asked for, or all samples if nothing or more than that was asked for; it succeeds whenever data, memory and transformation allow, the sizes asked for are divisible by the number of samples derived from a base sample, and batches for training do not exceed those for inference. It says mini-batches are used exactly if training batches are smaller than the training set. The object then accepts exactly the sizes up to those that are divisible by that number.", "quantifier": "all transformations, stored data, requested sizes and histories", "why_tests_cant": "all sizes", "anchors": ["nntl/train_data/transf_train_data.h: init4train, init4inference, is_initialized4train, is_initialized4inference"]}
{"id": "C106", "title": "A failed initialisation leaves transformed data uninitialised", "statement": "When init4train or init4inference of the transformed training data returns an error, the object does not report to be initialised.", "quantifier": "all transformations, stored data, requested sizes and histories", "why_tests_cant": "failure paths over all states", "anchors": ["nntl/train_data/transf_train_data.h: init4train, init4inference, is_initialized4inference"]}
{"id": "C107", "title": "Normalisation of transformed data gives the requested statistics", "statement": "Normalising transformed data shows all values from then on after positive affine maps, one for all columns or one per column as asked for, without scaling or offset if not asked for. When success is reported, the samples looked at, as they are served from then on, have mean and deviation within the tolerances asked for.", "quantifier": "all transformations that respect the documented interface, all stored data, all normalisation settings with positive scale and tolerances, all histories", "why_tests_cant": "all data over the reals; parameters are composed over passes", "anchors": ["nntl/train_data/transf_train_data.h: _fix_trainX_whole, _fix_trainX_cw, _upd_all_typed, _upd_ofs, _upd_scale", "nntl/train_data/_td_norm.h: normalize_data", "nntl/utils/mtx2Normal.h: normalize_whole, normalize_cw"]}
{"id": "C108", "title": "A failed normalisation leaves transformed data as it was", "statement": "When normalisation of transformed data reports failure, the values are served unchanged; it fails only if the requested statistics can not be reached.", "quantifier": "all transformations that respect the documented interface, all stored data, all normalisation settings with positive scale and tolerances, all histories", "why_tests_cant": "failure paths over all data", "anchors": ["nntl/train_data/_td_base.h: normalize_data", "nntl/train_data/transf_train_data.h: _fix_trainX_whole, _fix_trainX_cw", "nntl/utils/mtx2Normal.h: normalize_whole, normalize_cw"]}
{"id": "C109", "title": "The numerically stable sums lose nothing to the number of elements", "statement": "In floating-point arithmetic with rounding to nearest, the numerically stable sum of a vector (all elements, those other than a given value, or the partial sums of the threads) differs from the true sum by a few roundings of the sum of the absolute values, however many elements there are (up to the inverse of the precision), the dependence on their number being of second order; the stable sum of squares and the stable quadratic loss are within a small relative error of the true values, whatever the number of threads and wherever the work is split. The plain sum has no such bound: its error can be any number of roundings.", "quantifier": "all binary formats of at least 6 bits, all ways to break ties, all vectors and matrices of numbers of the format, all thread pools and thresholds", "why_tests_cant": "an error bound over all inputs and all roundings; examples show no bound", "anchors": ["nntl/interface/math/smath.h: func_SUM, func_SUM_squares, func_SUMNZ, _vec_sum, _vec_sum_squares, _reduce_vec_sum, ewSumSquares_ns", "nntl/interface/math/mathn.h: loss_quadratic_ns, _iloss_quadratic_st_ns"]}
{"id": "C110", "title": "The asynchronous generator serves every request", "statement": "Every request for a vector of n random numbers to the asynchronous generator gives n numbers, each made of one number that an engine drew for this purpose by the affine map the request describes (so that uniform numbers lie in the requested interval), either from the buffers the background threads fill or by the synchronous multithreaded generator; no memory outside of the buffers is touched and nothing that was never drawn is delivered. This holds through any sequence of announcements, initialisations (also failing ones), deinitialisations and reseedings.", "quantifier": "all numbers of background threads, all interleavings of their steps with each other and with the copying by the caller, all buffer sizes, requests and histories in which the object is deinitialised before it is initialised again", "why_tests_cant": "all interleavings of any number of threads", "anchors": ["nntl/interface/rng/afrand_as.h: AsynchRng::_move_data, _as_normal_distr, _as_norm, _apply_scaling, normal_vector, gen_vector_uni, init_rng, deinit_rng, seed; _AFRand_as::gen_vector, gen_vector_norm, normal_vector", "nntl/utils/data_buffer.h: DataBuffer"]}
{"id": "C111", "title": "Numbers drawn in the background are delivered at most once", "statement": "Every number a background thread draws is delivered at most once, and in the order in which the portions were put into the buffer, without gaps.", "quantifier": "all numbers of background threads, all interleavings, buffer and portion sizes, and histories of requests", "why_tests_cant": "needs a particular interleaving of several threads", "anchors": ["nntl/interface/rng/afrand_as.h: AsynchRng::_move_data, _as_normal_distr, _as_norm", "nntl/utils/data_buffer.h: _as_should_work, _as_done, acquire_data, release_data"]}
{"id": "C112", "title": "Seeding makes the asynchronous generator reproducible", "statement": "After seed(s) what the asynchronous generator delivers depends only on s and on how it is used afterwards (the schedule of the background threads included); the engines of the pool and of the background threads are all replaced, each by one of its own.", "quantifier": "all histories before the seeding, all seeds and uses afterwards", "why_tests_cant": "compares all pairs of histories", "anchors": ["nntl/interface/rng/afrand_as.h: AsynchRng::seed, _AFRand_as::seed, _construct_rngs, deinit_rng, BgThreadCtx"]}
{"id": "C113", "title": "The asynchronous generator reports a failed initialisation", "statement": "init_rng() returns false if the memory for the buffers could not be allocated.", "quantifier": "all announced sizes and histories", "why_tests_cant": "allocation failures are not exercised", "anchors": ["nntl/interface/rng/afrand_as.h: _AFRand_as::init_rng, AsynchRng::init_rng"]}
{"id": "C114", "title": "A matrix read from a JSON file is the one the file describes", "statement": "Reading a matrix from a JSON document succeeds if and only if the first member 'train_x' of the root object is a non-empty array of numbers (one column) or a non-empty array of non-empty arrays of numbers of equal length (the columns); then the matrix has these sizes, exactly the numbers of the file in their places, and, if asked for, a bias column of ones.", "quantifier": "all parsed documents with representable sizes, all empty or filled destinations, with and without biases, as long as memory suffices", "why_tests_cant": "documents of every shape and size would have to be tried", "anchors": ["nntl/_supp/io/jsonreader.h: jsonreader::read, _parse_mtx, _parse_as_mtx, _parse_as_vector, _parse_json_doc", "nntl/interface/math/smatrix.h: smatrix::resize, set"]}
{"id": "C115", "title": "Train data read from a JSON file are complete and consistent", "statement": "Reading train data succeeds if and only if the document describes the four matrices and their sizes match (as many labels as samples in either set, samples and labels of the sets alike); otherwise the error names the first of the four that is not described, or the mismatch, and the destination is unchanged.", "quantifier": "all parsed documents with representable sizes, all destinations; the part on failures for all files, including failed allocations", "why_tests_cant": "documents of every shape and size would have to be tried", "anchors": ["nntl/_supp/io/jsonreader.h: jsonreader::_parse_json_doc (train_data), _parse_mtx", "nntl/train_data/inmem_train_data_stor.h: inmem_train_data_stor::absorb"]}
{"id": "C116", "title": "The error code of the JSON reader tells what is wrong with a member", "statement": "A missing member is reported by the code No<member>, a member that is present but malformed by the code Invalid<member>.", "quantifier": "all documents", "why_tests_cant": "the tests do not look at error codes of malformed documents", "anchors": ["nntl/_supp/io/jsonreader.h: jsonreader::_members2ErrorCode, _jsonreader_errs"]}
{"id": "C117", "title": "A failed read of a JSON file leaves the matrix as it was", "statement": "If reading a matrix from a JSON file fails, the matrix is unchanged and can be read into again.", "quantifier": "all documents, destinations and failures", "why_tests_cant": "needs malformed documents and failing allocations, and a second read", "anchors": ["nntl/_supp/io/jsonreader.h: jsonreader::read, _parse_as_mtx, _parse_as_vector", "nntl/interface/math/smatrix.h: smatrix::resize, clear, will_emulate_biases"]}
{"id": "C118", "title": "Reading numbers into a matrix of integers is defined", "statement": "A JSON document read into a matrix of an integral type either gives the numbers of the document or an error.", "quantifier": "all documents, all signed and unsigned types of up to 64 bits", "why_tests_cant": "only some numbers would be tried", "anchors": ["nntl/_supp/io/jsonreader.h: jsonreader::_extract_value"]}
{"id": "C119", "title": "Every layer gets the setting last given to it", "statement": "For every sequence of constructions, add(), set_default(), for_each() and destructions of layer settings objects, get(idx) returns the setting last added for idx (as changed by for_each since then), or the current default if there is none; for_each visits the default and the setting of each configured layer exactly once; objects do not influence each other.", "quantifier": "all sequences of operations on any number of objects, all layer indices", "why_tests_cant": "all sequences of operations", "anchors": ["nntl/utils/layers_settings.h: layer_settings::add, get, get_default, set_default, for_each"]}
{"id": "C120", "title": "A copy of layer settings is independent of the original", "statement": "A copied layer settings object behaves like the original did and neither is affected by what happens to the other.", "quantifier": "all objects and sequences of operations on the copy and the original", "why_tests_cant": "needs a copy and particular later operations on both", "anchors": ["nntl/utils/layers_settings.h: layer_settings (implicit copy constructor), add, get, for_each"]}
{"id": "C121", "title": "A guard of thread priorities leaves no trace", "statement": "After a prioritize_workers guard has gone out of scope, the priority class of the process and the priorities of the calling thread and of all worker threads are what they were before; this also holds for guards within guards and for guards that could not raise the priorities.", "quantifier": "all modes, numbers of worker threads, priorities, outcomes of the raising system calls, nesting depths", "why_tests_cant": "system calls do not fail in tests, and nobody looks at the priorities afterwards", "anchors": ["nntl/interface/threads/prioritize_workers.h: prioritize_workers_win (constructor, _apply, destructor)"]}
{"id": "C122", "title": "Thread priorities are raised completely, and success is reported truly", "statement": "Within the scope of a guard whose system calls succeeded, the priority class is its mode's and so are the priorities of the calling thread and (if asked for) of all workers; a guard that failed leaves the class and the calling thread's priority alone. ChangeThreadsPriorities returns true exactly when every call succeeded, and then all workers have the requested priority; otherwise the workers before the one that failed have the calling thread's priority and the rest are untouched.", "quantifier": "all modes, numbers of worker threads, priorities, outcomes of the raising system calls", "why_tests_cant": "system calls do not fail in tests", "anchors": ["nntl/interface/threads/prioritize_workers.h: prioritize_workers_win::_apply, Funcs::ChangeThreadsPriorities"]}
{"id": "C123", "title": "The spin lock excludes and does not deadlock", "statement": "At no time do two threads hold the spin lock; variables updated by plain reads and writes under it lose no update; a thread waiting for it can always get it.", "quantifier": "all numbers of threads, all interleavings, both locking functions", "why_tests_cant": "interleavings cannot be enumerated by tests", "anchors": ["nntl/interface/threads/_sync_primitives.h: spin_lock, lock_guard_yield"]}
{"id": "C124", "title": "The spin lock does not starve a thread", "statement": "If every thread runs again and again, every thread waiting for the spin lock eventually gets it.", "quantifier": "all fair endless schedules", "why_tests_cant": "needs an adversarial schedule", "anchors": ["nntl/interface/threads/_sync_primitives.h: spin_lock::lock, lock_yield"]}
{"id": "C125", "title": "Timed waits respect their time limit", "statement": "wait_for() of the native condition variable returns the status timeout exactly when the time has expired; with a predicate it returns false when the time has expired and the predicate is still false.", "quantifier": "all times of waking, all behaviours of the predicate", "why_tests_cant": "timing is not controlled by tests, and the one caller ignores the result", "anchors": ["nntl/interface/threads/_sync_primitives.h: win_condition_var::wait_for, wait_for_shared"]}
{"id": "C126", "title": "A waiting background thread notices a task in bounded time", "statement": "A background thread that is waiting when a task is registered begins to serve it at most twice the timeout (plus the system's lateness) after the registration.", "quantifier": "all times of registration, timeouts, sequences of wake-ups", "why_tests_cant": "timing is not controlled by tests", "anchors": ["nntl/interface/threads/bgworkers.h: BgWorkers::_worker, add_task", "nntl/interface/threads/_sync_primitives.h: lockShared_waitFor_unlock, wait_for_shared"]}
{"id": "C127", "title": "What was saved to a Matlab file is what is loaded", "statement": "If items (named values, matrices, and nested named structures of them) are saved and then loaded in the same way into destinations of the same types, then the destinations get the values that were saved, with the same sizes and biases, and no error is set.", "quantifier": "all trees of items, matrices, earlier contents of the file and of the destinations", "why_tests_cant": "finitely many matrices under finitely many names", "anchors": ["nntl/_supp/io/matfile.h: _matfile::operator<<, operator>>, _save_var, _save_to_file_or_struct, _load_var", "nntl/interface/math/smatrix.h: fill_from_array_no_bias"]}
{"id": "C128", "title": "A save to a Matlab file without an error is complete", "statement": "Whichever calls of Matlab's library fail: if no error is set after a sequence of items was saved, the file holds exactly its earlier variables with those of the items added or replaced; and if no call failed, no error is set.", "quantifier": "all trees of items, files, and sets of failing calls", "why_tests_cant": "failures of the library are not provoked by tests", "anchors": ["nntl/_supp/io/matfile.h: _matfile::operator<<, _save_var, _save_to_file_or_struct"]}
{"id": "C129", "title": "close() of a Matlab file reports that something was not saved", "statement": "If an error occurred since the file was opened, or a structure was not finished, close() does not return success.", "quantifier": "all states of the archive, all sets of failing calls", "why_tests_cant": "failures of the library are not provoked by tests", "anchors": ["nntl/_supp/io/matfile.h: _matfile_base::close, _matfile_savingEx::close"]}
{"id": "C130", "title": "Structures written piece by piece arrive in the file", "statement": "Properly nested calls of save_struct_begin() and save_struct_end() with items saved between them make the file hold structures with these items: new ones, or the old ones updated if that was asked for; at the place of nesting, or beside the enclosing structure if that was asked for.", "quantifier": "all nestings, names and files", "why_tests_cant": "nested updates do not occur in the tests", "anchors": ["nntl/_supp/io/matfile.h: _matfile_savingEx::save_struct_begin, save_struct_end, _matfile::operator<<"]}
{"id": "C131", "title": "Integers of a Matlab file are read as the numbers they are", "statement": "Loading a matrix of integers of a class into a matrix of another type gives the conversion of each number.", "quantifier": "all matrices, classes of integers, destination types", "why_tests_cant": "files made by the library itself never have another class", "anchors": ["nntl/utils/matlab.h: fill_data_no_bias", "nntl/_supp/io/matfile.h: _matfile::operator>>"]}
{"id": "C132", "title": "Constants are added to the elements asked for and to no others", "statement": "Adding a constant to a matrix, or multiplying it by one and adding another, changes every element, or every element but the emulated biases if these are to be ignored, and nothing else; for samples as rows and as columns, single- and multithreaded.", "quantifier": "all matrices of either layout, with or without biases, constants, thresholds and pools of threads", "why_tests_cant": "the place of the biases depends on the layout, and the split over threads on the sizes", "anchors": ["nntl/interface/math/mathn.h: evAddC_ip, evAddC_ip_nb, evMulCAddC_ip, evMulCAddC_ip_nb", "nntl/interface/math/smatrix.h: _universal_range_BiR_aware"]}
{"id": "C133", "title": "Column means and their subtraction", "statement": "mcwMean stores the mean of every column, mcwSub_ip subtracts the j-th element of a vector from every element of column j, and together they leave every column with mean zero; neither touches anything else, whatever the number of threads and whether the sums are compensated or not.", "quantifier": "all matrices, vectors, thresholds and pools of threads", "why_tests_cant": "finitely many sizes", "anchors": ["nntl/interface/math/smath.h: mcwMean, mcwSub_ip, _processMtx_cw"]}
{"id": "C134", "title": "Centring of the elements that differ from the central point", "statement": "mcwDeMeanNZ leaves the elements equal to the central point as they are, moves all others of a column by the same amount, and then their mean is the central point; a column without such elements is unchanged.", "quantifier": "all matrices, central points, thresholds and pools of threads", "why_tests_cant": "the code says itself that it has no tests", "anchors": ["nntl/interface/math/smath.h: mcwDeMeanNZ, func_SUMNZ"]}
{"id": "C135", "title": "The row-wise or of a binary matrix", "statement": "mrwOr and all its versions give for every row of a matrix of zeros and ones a one if the row has a one and a zero otherwise (bitwise: a bit is set if it is set somewhere in the row), and touch nothing behind the result, whatever the vector and the temporary memory held before.", "quantifier": "all matrices, versions, thresholds and pools of threads", "why_tests_cant": "finitely many sizes and one pool", "anchors": ["nntl/interface/math/smath.h: mrwOr, mrwBinaryOR, mrwBinaryOR_st, mrwBinaryOR_st_rw, mrwBinaryOR_st_cw, mrwBinaryOR_mt, mrwBinaryOR_mt_rw, mrwBinaryOR_mt_cw"]}
{"id": "C136", "title": "The dumping inspector dumps what it is asked for", "statement": "In every training, whatever was trained before with the same inspector, a batch is dumped (a file of its forward and a file of its backward pass) if and only if it is asked for: the first batch of the listed epochs, the last batch of the last epoch, the first N batches, as the chosen condition says; listed epochs beyond the end stand for the last epoch, and so does an empty list. The calculation of the error is dumped for the listed epochs, including the one before the training (-1).", "quantifier": "all conditions, lists of epochs, numbers of epochs, batches and layers, reports and earlier trainings", "why_tests_cant": "dumping is only looked at by hand", "anchors": ["nntl/interface/inspectors/dumper.h: conds::EpochNum, EpochNumWLastBatch, EpochNumWFirstNLastBatch, CalcErrByEpochNum, CalcErrOnlyByEpochNum, FirstBatches, _dumper_base::train_epochBegin, train_batchBegin, train_preCalcError", "nntl/nnet.h: train"]}
{"id": "C137", "title": "What is in the files of the dumping inspector", "statement": "Every file opened by the inspector is closed again before the next one is opened. A file holds one structure for each layer that the black or white list allows, under the layer's name and with the values this layer told of during the pass, whatever the nesting of layers; layers that are not allowed leave nothing. A layer wrapped into itself has one structure. This holds for repeated trainings and if the inspector is switched off and on at any time.", "quantifier": "all networks (trees of layers), values told, lists, numbers of epochs and batches", "why_tests_cant": "unbounded nesting; the failure shows only in the next file or in the next training", "anchors": ["nntl/interface/inspectors/dumper.h: _dumper_base, _dumper", "nntl/utils/layer_idx_keeper.h: layer_idx_keeper", "nntl/utils/bwlist.h: _bwlist", "nntl/nnet.h: _init4train"]}
{"id": "C138", "title": "Weights written to a file can be read back", "statement": "After write_weights() has reported success the file holds the weights of the network. Read with read_weights() into a network of the same layers, whether its weights were initialized or not, they arrive in the layers they came from, under any nesting of packs and tiles, and the reading succeeds. Layers with different indices never share a name, whatever their custom names.", "quantifier": "all networks (trees of layers), names, weights, and failures of the library that writes the file", "why_tests_cant": "unbounded nesting of layers; failures when a file is closed are not tested", "anchors": ["nntl/nnet.h: write_weights, read_weights", "nntl/layer/fully_connected.h: save, load, set_weights, isWeightsSuitable", "nntl/layer/output.h: save, load", "nntl/layer/pack_tile.h: serialize", "nntl/layer/pack_vertical.h: serialize", "nntl/layers.h: serialize", "nntl/layer/_layer_base.h: get_layer_name", "nntl/_supp/io/matfile.h"]}
{"id": "C139", "title": "read_weights() takes all weights of a file or none", "statement": "Whatever the file contains, read_weights() is well defined, keeps the layers, and gives no layer a matrix of a wrong size. If it reports success every layer has the weights stored under its name in the file; if it reports a failure the network is as before. It changes weights only.", "quantifier": "all files (trees of named arrays of any types and sizes), networks, and memory allocations", "why_tests_cant": "arbitrary files and mismatches between a file and a network", "anchors": ["nntl/nnet.h: read_weights", "nntl/layer/fully_connected.h: load, set_weights, isWeightsSuitable", "nntl/layer/output.h: load", "nntl/layer/pack_tile.h: serialize", "nntl/_supp/io/matfile.h: imatfile"]}
{"id": "C140", "title": "Restricted derivatives of the output layer", "statement": "After restrict_dL_dZ(lo, hi) with lo < 0 < hi, and until it is called again or the restriction is dropped, every backward pass replaces each derivative of the loss by the nearest value of [lo, hi]: those inside are unchanged, no sign changes, none grows, none becomes zero. Without a restriction in force (also after bounds of zero) nothing changes. Gradients of weights are bounded by the larger bound times the largest incoming activation. All this for any number of threads.", "quantifier": "all sequences of calls, bounds, matrices, numbers of threads and interleavings", "why_tests_cant": "sequences of calls; sizes beyond the multithreading threshold", "anchors": ["nntl/layer/output.h: restrict_dL_dZ, drop_dL_dZ_restriction, _outp_bprop", "nntl/interface/math/mathn.h: evClamp, evClamp_st, evClamp_mt"]}
{"id": "C141", "title": "Elementwise operations that leave biases alone", "statement": "For matrices with a sample in each row: evOneCompl() writes one where the gate has zero and zero where it has one; evSubMtxMulC_ip_nb() replaces A by (A - M) * c, evMul_ip_Anb() by A * B and evAdd_Anb_ip() by A + B, elementwise. For matrices of any layout evMulC_ip() multiplies by a constant. None of them touches the biases of its destination or what is behind its elements, for any number of threads.", "quantifier": "all sizes, with and without biases, gates, numbers of threads and interleavings", "why_tests_cant": "sizes beyond the multithreading threshold, thread interleavings", "anchors": ["nntl/interface/math/mathn.h: evOneCompl, evOneCompl_st, _ievOneCompl_st, evOneCompl_mt, evSubMtxMulC_ip_nb, evSubMtxMulC_ip_nb_st, _ievSubMtxMulC_ip_nb_st, evSubMtxMulC_ip_nb_mt, evMul_ip_Anb, evAdd_Anb_ip, evMulC_ip, evMulC_ip_nb, _ievMulC_ip_st", "nntl/layer/pack_horizontal_optional.h: _fprop_add_no_present_feature"]}
{"id": "C142", "title": "Printed durations", "statement": "For a duration of any number of nanoseconds, microseconds, milliseconds or seconds and any positive number of repeats, duration_readable() prints a number and a unit which together are the duration divided by the repeats; the number is below 1000 if the duration is below 10^12 of its ticks per repeat.", "quantifier": "all durations, units and positive numbers of repeats", "why_tests_cant": "the wrong unit shows for long durations in units the tests do not use", "anchors": ["nntl/utils/chrono.h: duration_readable, period_3oom_bigger, period_name"]}
{"id": "C143", "title": "Stopwatch statistics", "statement": "For any sequence of stored runs and resets, a stopwatch prints the first, the shortest and the mean run since the last reset (or since its construction), and that it was never run if there are none.", "quantifier": "all sequences of stored durations and resets", "why_tests_cant": "all sequences; the first run and the smallest run depend on the order", "anchors": ["nntl/utils/tictoc.h: tictoc, reset, store, to_string"]}
{"id": "C144", "title": "Counting elements that are not zero", "statement": "For any vector of floating point numbers, vCountNonZeros() and vCountNonZerosStrict() return the number of elements different from zero, and it is the number of rows that mExtractRowsByMask() and mFillRowsByMask() take for this mask.", "quantifier": "all vectors of bit patterns of any IEEE format, with and without denormals", "why_tests_cant": "special values (negative zeros, NaNs, subnormal numbers), lengths beyond the counter", "anchors": ["nntl/interface/math/mathn.h: vCountNonZeros, vCountNonZerosStrict, _imExtractRowsByMask_st, _imFillRowsByMask_st", "nntl/layer/pack_horizontal_optional.h: _lpho_fprop", "nntl/utils/denormal_floats.h: disable_denormals"]}
