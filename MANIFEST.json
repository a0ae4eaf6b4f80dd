{
 "claims": [
  {
   "property": "C01",
   "status": "proved",
   "theorems": [
    "predict_exact",
    "predict_float",
    "predict_float32"
   ],
   "note": ""
  },
  {
   "property": "C02",
   "status": "partial",
   "theorems": [
    "predict_any_output_buffer_refuted",
    "predict_any_output_buffer_partial",
    "predict_any_output_buffer_exact"
   ],
   "note": "REFUTED: an output buffer that is not vector aligned faults in some builds; the exact theorem says for which addresses prediction works, and that it faults for all others."
  },
  {
   "property": "C03",
   "status": "proved",
   "theorems": [
    "zero_features_contribute_nothing",
    "zero_features_are_the_two_zeros"
   ],
   "note": ""
  },
  {
   "property": "C04",
   "status": "proved",
   "theorems": [
    "activation_exact",
    "activation_accurate",
    "activation_float"
   ],
   "note": ""
  },
  {
   "property": "C05",
   "status": "proved",
   "theorems": [
    "softmax_distribution"
   ],
   "note": ""
  },
  {
   "property": "C06",
   "status": "partial",
   "theorems": [
    "relu_same_everywhere_refuted",
    "relu_same_everywhere_partial",
    "relu_same_everywhere_exact"
   ],
   "note": "REFUTED for NaN; the partial theorem covers all elements that are not NaN, the exact theorem says where a NaN stays a NaN and where it becomes 0."
  },
  {
   "property": "C07",
   "status": "partial",
   "theorems": [
    "predict_batch_omp_rows",
    "predict_batch_omp_rows_float32",
    "predict_batch_blas_rows_refuted",
    "predict_batch_blas_rows_partial",
    "predict_batch_blas_is_predict_partial",
    "network_sizes"
   ],
   "note": "Proved for the OpenMP build. REFUTED for the BLAS build: the stack array is not aligned, which faults in the vectorised tanh of an AVX2 build; the partial theorems prove equality in exact arithmetic for all other networks that fit on the stack."
  },
  {
   "property": "C08",
   "status": "partial",
   "theorems": [
    "predict_batch_blas_terminates_refuted",
    "predict_batch_blas_terminates_partial",
    "predict_batch_blas_terminates_exact"
   ],
   "note": "REFUTED: a network with more outputs than N_STACK_ALLOC_FLOATS recurses for ever; the exact theorem: this happens for exactly these networks, all others end."
  },
  {
   "property": "C09",
   "status": "partial",
   "theorems": [
    "predict_batch_every_shape_refuted",
    "predict_batch_every_shape_partial",
    "predict_batch_every_shape_exact"
   ],
   "note": "REFUTED: 9 outputs in an AVX build; the exact theorem says for which addresses and numbers of outputs the batch works, and that it faults in all other cases."
  },
  {
   "property": "C10",
   "status": "proved",
   "theorems": [
    "vector_accumulate_spec",
    "vector_accumulate_unaligned_spec",
    "vector_scale_spec",
    "vector_divide_by_scalar_spec",
    "vector_saxpy_spec",
    "vector_saxpby_spec",
    "vector_square_elements_spec"
   ],
   "note": ""
  },
  {
   "property": "C11",
   "status": "proved",
   "theorems": [
    "matrix_vector_multiply_spec",
    "vector_vector_outer_spec",
    "vector_matrix_multiply_spec"
   ],
   "note": ""
  },
  {
   "property": "C12",
   "status": "proved",
   "theorems": [
    "get_parameters_layout",
    "parameter_index",
    "update_adds",
    "backprop_exact",
    "parameter_count"
   ],
   "note": ""
  },
  {
   "property": "C13",
   "status": "proved",
   "theorems": [
    "update_adds"
   ],
   "note": ""
  },
  {
   "property": "C14",
   "status": "partial",
   "theorems": [
    "undo_update_restores_refuted",
    "undo_update_restores_partial",
    "undo_update_close_partial"
   ],
   "note": "REFUTED in float32 (rounding); the first partial theorem shows that the parameters are restored in exact arithmetic. The second is about float32: for parameters and deltas up to 2^126 a parameter x is restored up to 2^-24 (|x| + (1 + 2^-24) |x + d|), and exactly if x + d is a float."
  },
  {
   "property": "C15",
   "status": "partial",
   "theorems": [
    "loss_is_metric_gradient_refuted",
    "loss_is_metric_gradient_partial"
   ],
   "note": "REFUTED for categorical_crossentropy, whose metric is divided by the number of outputs while the loss is not; the partial theorem proves all other losses and categorical_crossentropy up to this factor."
  },
  {
   "property": "C16",
   "status": "proved",
   "theorems": [
    "backprop_exact"
   ],
   "note": ""
  },
  {
   "property": "C17",
   "status": "proved",
   "theorems": [
    "backprop_function",
    "backprop_function_float32"
   ],
   "note": ""
  },
  {
   "property": "C18",
   "status": "partial",
   "theorems": [
    "backprop_every_shape_refuted",
    "backprop_every_shape_partial",
    "backprop_every_shape_exact"
   ],
   "note": "REFUTED: a vector build can use a misaligned address for layer sizes that are not multiples of the vector width; the partial theorem covers the multiples, the exact theorem says for which shapes it works, and that it faults for all others."
  },
  {
   "property": "C19",
   "status": "partial",
   "theorems": [
    "softmax_gradient_refuted",
    "backprop_exact"
   ],
   "note": "REFUTED for softmax with another loss and for softmax in a hidden layer; backprop_exact proves the gradient for the supported combinations."
  },
  {
   "property": "C20",
   "status": "proved",
   "theorems": [
    "set_loss_last_call"
   ],
   "note": ""
  },
  {
   "property": "C21",
   "status": "proved",
   "theorems": [
    "shuffle_permutes",
    "shuffle_bijective"
   ],
   "note": "shuffle_empty_refuted shows besides that n = 0 is a modulo by zero, which the property excludes."
  },
  {
   "property": "C22",
   "status": "partial",
   "theorems": [
    "valid_order_refuted",
    "valid_order_partial",
    "valid_order_single_optimizer"
   ],
   "note": "REFUTED: the static sample count is shared by all optimizers, so a second optimizer with the same count trains without a pivot array; the partial theorems cover every history without such interference, in particular each history of a single optimizer."
  },
  {
   "property": "C23",
   "status": "proved",
   "theorems": [
    "epoch_partition",
    "sgd_recurrence",
    "rmsprop_recurrence",
    "adagrad_recurrence",
    "adam_recurrence_partial",
    "batch_length"
   ],
   "note": "epoch_partition: the batches of the specification partition the sample order; the recurrence theorems: the epochs of all four optimizers end and use exactly these batches."
  },
  {
   "property": "C24",
   "status": "proved",
   "theorems": [
    "batch_gradient_mean"
   ],
   "note": ""
  },
  {
   "property": "C25",
   "status": "partial",
   "theorems": [
    "reproducible_refuted",
    "reproducible_partial",
    "reproducible_small_batch_partial",
    "reproducible_close_partial",
    "sgd_reproducible_partial",
    "rmsprop_reproducible_partial",
    "adagrad_reproducible_partial",
    "adam_reproducible_partial"
   ],
   "note": "REFUTED: one and two threads give different float32 sums for a batch of three samples. What is proved: the batch gradient is a function of the numbers and the schedule (reproducible_partial); for batches of at most two samples it is the same bit for bit in every schedule (reproducible_small_batch_partial); for larger ones two schedules differ by at most twice the rounding error of the mean (reproducible_close_partial); whole training runs with the same sample orders end with the same parameters, optimizer arrays, learning rate and counters bit for bit if the batches have at most two samples or the sums are associated in the same way, for all four optimizers."
  },
  {
   "property": "C26",
   "status": "partial",
   "theorems": [
    "batch_gradient_writes_refuted",
    "batch_gradient_padding",
    "batch_gradient_writes_partial"
   ],
   "note": "REFUTED for AVX builds with OpenMP: the reduction runs over n_param_padding > n_parameters floats; the partial theorem covers builds without OpenMP or without AVX."
  },
  {
   "property": "C27",
   "status": "proved",
   "theorems": [
    "sgd_recurrence"
   ],
   "note": ""
  },
  {
   "property": "C28",
   "status": "proved",
   "theorems": [
    "rmsprop_recurrence"
   ],
   "note": ""
  },
  {
   "property": "C29",
   "status": "proved",
   "theorems": [
    "adagrad_recurrence",
    "adagrad_steps_never_grow"
   ],
   "note": ""
  },
  {
   "property": "C30",
   "status": "partial",
   "theorems": [
    "adam_second_optimizer_refuted",
    "adam_recurrence_partial"
   ],
   "note": "REFUTED for the second Adam optimizer of a process: the bias corrections are static variables. The partial theorem with k = 0 covers the first Adam optimizer of the process, with k > 0 it says what the others do."
  },
  {
   "property": "C31",
   "status": "partial",
   "theorems": [
    "lr_decay_refuted",
    "lr_decay_partial",
    "lr_field"
   ],
   "note": "REFUTED: the decay factors are compounded; the partial theorems give the learning rate that is used, which is the documented one for d <= 0 and for the first two batches. The batches are counted modulo 2^32."
  },
  {
   "property": "C32",
   "status": "proved",
   "theorems": [
    "evaluate_mean",
    "evaluate_blas_mean_partial"
   ],
   "note": "evaluate_mean: the OpenMP build (and the build without OpenMP). The BLAS build is covered by the second theorem under the conditions under which its batch prediction works, see C07 and C08."
  },
  {
   "property": "C33",
   "status": "proved",
   "theorems": [
    "epoch_results_with_validation",
    "epoch_results_without_validation",
    "epoch_results_exact",
    "epoch_null_metrics"
   ],
   "note": "epoch_null_metrics shows that metrics == NULL, which optimizer_get_n_metrics accepts, crashes in evaluate; the constructors of the optimizers never leave it NULL."
  },
  {
   "property": "C34",
   "status": "proved",
   "theorems": [
    "mean_error_metrics",
    "categorical_accuracy_first_max",
    "binary_accuracy_fraction",
    "crossentropy_definition",
    "crossentropy_finite_float32",
    "mse_zero_float32_refuted"
   ],
   "note": "Exact arithmetic for the values; finiteness of the crossentropies in float32. mse_zero_float32_refuted shows that 'zero iff equal' cannot be claimed for float32 (underflow)."
  },
  {
   "property": "C35",
   "status": "partial",
   "theorems": [
    "early_stopping_refuted",
    "early_stopping_partial",
    "early_stopping_less_exact",
    "early_stopping_nan_first",
    "early_stopping_stays",
    "early_stopping_null"
   ],
   "note": "REFUTED: FLT_MAX is also the mark for 'no score yet', so after a score of FLT_MAX a worse score counts as an improvement when greater is better. The partial theorem covers all scores that are not NaN and not FLT_MAX (below FLT_MAX if less is better); early_stopping_less_exact covers every sequence of floats when less is better. When greater is better and the first score is NaN, no later score counts as an improvement (early_stopping_nan_first)."
  },
  {
   "property": "C36",
   "status": "partial",
   "theorems": [
    "early_stopping_independent_refuted",
    "early_stopping_independent_partial",
    "early_stopping_shared"
   ],
   "note": "REFUTED: best score and counter are function-static variables; the partial theorem covers histories in which no other early stopping callback is run. early_stopping_shared says when each of several callbacks with the same direction is stopped: the calls of all of them count."
  },
  {
   "property": "C37",
   "status": "partial",
   "theorems": [
    "checkpoint_first_refuted",
    "checkpoint_best_refuted",
    "checkpoint_best_partial",
    "checkpoint_writes_partial",
    "checkpoint_writes_less_exact",
    "checkpoint_nan_first"
   ],
   "note": "REFUTED for scores of FLT_MAX and above; the partial theorems cover all other scores that are not NaN. When less is better, checkpoint_writes_less_exact covers every float. When greater is better and the first score is NaN, no later network is saved (checkpoint_nan_first)."
  },
  {
   "property": "C38",
   "status": "partial",
   "theorems": [
    "logger_resumes_refuted",
    "logger_empty_file_refuted",
    "logger_resumes_partial",
    "logger_resumes_runs_partial",
    "logger_no_resume"
   ],
   "note": "REFUTED: with one line in the log file the new logger starts at 0 again, and an empty file is read at index -1; the partial theorems cover files with two lines or more."
  },
  {
   "property": "C39",
   "status": "partial",
   "theorems": [
    "logger_overrun_refuted",
    "logger_line_exact",
    "logger_fits_partial"
   ],
   "note": "REFUTED: three metrics and a validation set overrun the buffer; logger_line_exact says exactly when it happens, and the partial theorem covers up to four metrics, or two with a validation set."
  },
  {
   "property": "C40",
   "status": "proved",
   "theorems": [
    "npy_header_wf",
    "npy_header_total"
   ],
   "note": "npy_header_wf holds for every header that is returned; npy_header_total: every array with at most 7 positive dimensions gets one."
  },
  {
   "property": "C41",
   "status": "proved",
   "theorems": [
    "npy_round_trip",
    "npy_mmap_round_trip"
   ],
   "note": ""
  },
  {
   "property": "C42",
   "status": "partial",
   "theorems": [
    "npy_header_lengths_refuted",
    "npy_header_lengths_partial",
    "npy_header_low_byte",
    "npy_header_high_byte"
   ],
   "note": "REFUTED: the two length bytes are signed chars, so a header of 182 bytes is refused; the partial theorem covers all lengths with both bytes below 128, the other two say how the rest fails."
  },
  {
   "property": "C43",
   "status": "partial",
   "theorems": [
    "npy_empty_refuted",
    "npy_eight_refuted",
    "npy_zero_dimension_load",
    "npy_many_dimensions_load",
    "npy_round_trip"
   ],
   "note": "REFUTED for empty arrays and for 8 dimensions; npy_round_trip is the part that holds (0 to 7 positive dimensions)."
  },
  {
   "property": "C44",
   "status": "partial",
   "theorems": [
    "npy_truncated",
    "npy_mmap_truncated_refuted",
    "npy_mmap_truncated"
   ],
   "note": "Proved for npy_array_load (npy_truncated). REFUTED for npy_array_mmap; npy_mmap_truncated says what it does at each crash point."
  },
  {
   "property": "C45",
   "status": "partial",
   "theorems": [
    "npz_duplicate_refuted",
    "npz_format_refuted",
    "npz_round_trip_partial",
    "npz_long_name",
    "npz_empty_untouched"
   ],
   "note": "REFUTED: a repeated name is counted but not stored, and a % in a name is undefined behaviour when the archive is loaded. The partial theorem covers every non-empty list with distinct UTF-8 names without % of at most 80 characters."
  },
  {
   "property": "C46",
   "status": "partial",
   "theorems": [
    "compression_refuted",
    "compression_ignored"
   ],
   "note": "REFUTED: the method is set before the member exists, which fails, so that every member of every archive has the default method."
  },
  {
   "property": "C47",
   "status": "proved",
   "theorems": [
    "net_round_trip"
   ],
   "note": "For networks whose functions have been looked up by name (C56), below 178956970 layers (longest_name * n_layers is an int). Memory does not run out; libzip accepts ASCII names. Parameters are compared as bytes; equal parameters and functions give equal predictions since the prediction is a function of them (Forward.v). A function that is not registered becomes linear (net_unregistered)."
  },
  {
   "property": "C48",
   "status": "proved",
   "theorems": [
    "net_names_anywhere"
   ],
   "note": "For every archive, whoever wrote it, of arrays whose headers can be read (C42), with member names that list_load can take (C45)."
  },
  {
   "property": "C49",
   "status": "partial",
   "theorems": [
    "net_load_malformed_refuted",
    "net_load_values_refuted",
    "net_names_anywhere",
    "net_load_other_type",
    "net_load_unreadable"
   ],
   "note": "REFUTED: nine archives of readable arrays end in undefined behaviour or an assertion, and big-endian or 64 bit floats are taken for little-endian 32 bit floats. The other theorems cover well-formed files, files with an array of another type behind arrays of floats (NULL, all freed) and archives in which nothing can be read."
  },
  {
   "property": "C50",
   "status": "proved",
   "theorems": [
    "list_append_last",
    "list_prepend_first",
    "list_length_counts",
    "list_free_all",
    "list_histories",
    "list_extend_no_memory"
   ],
   "note": "For distinct arrays; the same array twice in a list is freed twice (list_same_array_twice)."
  },
  {
   "property": "C51",
   "status": "proved",
   "theorems": [
    "create_rejects",
    "create_network",
    "free_network"
   ],
   "note": "For sizes whose products are ints (see C53) and an array of at least n_layers names whose symbols are not too long (see C56); without an array of names neuralnet_create dereferences NULL (create_null_names)."
  },
  {
   "property": "C52",
   "status": "partial",
   "theorems": [
    "create_no_memory_refuted",
    "create_no_memory"
   ],
   "note": "REFUTED: if an allocation fails other than the first two and the last, fields of the layers that were never written are freed. create_no_memory says for each failure point what happens."
  },
  {
   "property": "C53",
   "status": "partial",
   "theorems": [
    "create_overflow_refuted",
    "create_overflow",
    "create_network",
    "total_params_refuted",
    "total_params_exact_partial"
   ],
   "note": "REFUTED: n_input * n_output is computed as int, so 46341 x 46341 overflows, and so does counting the parameters of 1 x 2^30. create_network (with is_net) is the part that holds: if the products are ints the blocks have the sizes that are needed."
  },
  {
   "property": "C54",
   "status": "proved",
   "theorems": [
    "initialize_sets_all"
   ],
   "note": "For every stream for which the loop of random_normal ends. xavier_exact_bound_refuted shows that the exact root is not the bound: the rounded one is."
  },
  {
   "property": "C55",
   "status": "partial",
   "theorems": [
    "random_normal_refuted",
    "random_normal_finite_partial",
    "initialize_finite_partial"
   ],
   "note": "REFUTED: two numbers in a row in the middle (97 of the 2^31 numbers) give a division by 0 and NaN, twice. The partial theorems prove finite values for all other streams, for every logf that is finite and between -64 and 0 on [2^-48, 1)."
  },
  {
   "property": "C56",
   "status": "partial",
   "theorems": [
    "registry_round_trip",
    "registry_derivative",
    "registry_lookup",
    "registry_unknown",
    "registry_foreign",
    "registry_long_symbol_refuted"
   ],
   "note": "REFUTED for symbols of more than 244 characters, which overrun the buffer for the name of the derivative; the other theorems cover every sequence of lookups that does not. Two names of one function share the record of the first (registry_alias_refuted)."
  },
  {
   "property": "C57",
   "status": "proved",
   "theorems": [
    "exp256_accurate",
    "vector_scalar_agree"
   ],
   "note": ""
  },
  {
   "property": "C58",
   "status": "proved",
   "theorems": [
    "progress_width",
    "progress_notty",
    "progress_monotone",
    "progress_unknown_width"
   ],
   "note": ""
  },
  {
   "property": "C59",
   "status": "partial",
   "theorems": [
    "metrics_own_refuted",
    "metrics_after_creation",
    "metrics_last_created",
    "metrics_own_partial"
   ],
   "note": "REFUTED: the metric is kept in a static array that every constructor overwrites, so after creating an optimizer for a network with another loss all earlier ones without metrics of their own report that loss (metrics_last_created says exactly what is reported). The partial theorem covers processes in which all networks have the same loss."
  },
  {
   "property": "C60",
   "status": "proved",
   "theorems": [
    "optimizer_new_ok",
    "optimizer_new_rejects",
    "optimizer_new_no_memory",
    "optimizer_free_all",
    "optimizer_new_free"
   ],
   "note": "For networks as in total_params_exact_partial (C53) with fewer than 2^32 parameters."
  },
  {
   "property": "C61",
   "status": "proved",
   "theorems": [
    "predict_rounding_error",
    "builds_agree",
    "relative_part_small"
   ],
   "note": "covered says what is needed of libm (satisfied by the correctly rounded functions, LibmCase.v); softmax has at most 2^20 outputs, the error of what goes into an exponential is at most 1/2. relative_part_small: (1+2^-24)^K - 1 <= 2 K 2^-24 for K <= 2^23."
  },
  {
   "property": "C62",
   "status": "partial",
   "theorems": [
    "train_rows_refuted",
    "train_no_rows",
    "train_row_wraps",
    "train_rows_partial",
    "sample_rows_refuted",
    "sample_rows_exact",
    "evaluated_none",
    "split_rows_partial",
    "split_rows_overflow",
    "predict_work_refuted",
    "predict_work_exact",
    "backprop_work_exact"
   ],
   "note": "REFUTED: with 2^31 samples or more an epoch uses none of them; rows that begin 2^32 floats or more behind the start of the training data are read from the wrong place; from 2^31 floats on evaluation and batch prediction overflow; neuralnet_predict overflows for a network that neuralnet_create accepts. The partial and exact theorems give the sizes for which everything is right."
  },
  {
   "property": "C63",
   "status": "partial",
   "theorems": [
    "kernels_blas_same_refuted",
    "matrix_vector_multiply_blas_iff",
    "vector_vector_outer_blas_iff",
    "vector_matrix_multiply_blas_same",
    "vector_kernels_blas_same"
   ],
   "note": "REFUTED: matrix_vector_multiply overwrites y with BLAS and adds to y without (except AVX-512); vector_vector_outer adds with BLAS and stores without. The iff theorems say exactly for which contents the outcomes agree; the other kernels always agree."
  },
  {
   "property": "C64",
   "status": "proved",
   "theorems": [
    "predict_blas_exact",
    "backprop_blas_exact"
   ],
   "note": "For a BLAS that is exact (cblas_exact), with the premises of C01 and C16."
  },
  {
   "property": "C65",
   "status": "proved",
   "theorems": [
    "npy_load_refuses",
    "npy_mmap_refuses"
   ],
   "note": "A mapped file of 1 to 9 bytes is read beyond its end (npy_mmap_truncated, C44)."
  },
  {
   "property": "C66",
   "status": "partial",
   "theorems": [
    "npy_load_promised_refuted",
    "npy_load_data",
    "npy_load_promised_partial"
   ],
   "note": "REFUTED: the size is computed modulo 2^64, so a file of 118 bytes is loaded as an array of 2^32 x 2^32 floats without data. npy_load_data gives the exact size for every file that is loaded (dimensions behind the first 0 are not counted); the partial theorem covers positive dimensions whose size does not wrap around."
  },
  {
   "property": "C67",
   "status": "partial",
   "theorems": [
    "exp256_whole_range_refuted",
    "exp256_float_accurate",
    "exp256_float_total"
   ],
   "note": "REFUTED above 88.377 (the result is constant, exp(88.6875) is off by a quarter) and below -87.69 (the result is 0). exp256_float_accurate covers [-87.68, 88.376], exp256_float_total every float including NaN and infinities."
  },
  {
   "property": "C68",
   "status": "proved",
   "theorems": [
    "activation_float_accurate"
   ],
   "note": "needs says what is needed of libm; softmax, softsign, softplus and exponential have bounds on the input (float_dom)."
  },
  {
   "property": "C69",
   "status": "partial",
   "theorems": [
    "nan_propagates_refuted",
    "nan_propagates_partial",
    "nan_propagates_exact",
    "nan_softmax_refuted"
   ],
   "note": "REFUTED in AVX2 and AVX-512 builds: exp256_ps(NaN) is about 2.4e38, so the sigmoid of NaN is a tiny positive number in vector registers. The partial theorem covers the other builds for all functions but relu (see C06). The exact theorem says for every build and every element what becomes of a NaN in the functions other than relu and softmax. nan_softmax_refuted: among 16 outputs of an AVX2 build the softmax of a NaN is 1."
  },
  {
   "property": "C70",
   "status": "proved",
   "theorems": [
    "loss_lookup",
    "metric_lookup",
    "loss_metric_same_name"
   ],
   "note": ""
  },
  {
   "property": "C71",
   "status": "partial",
   "theorems": [
    "npy_load_safe_refuted",
    "npy_load_safe_partial",
    "npy_mmap_safe_partial"
   ],
   "note": "REFUTED: without a closing parenthesis behind the shape, or if the text ends behind the word descr, the parser reads outside the header. The partial theorems cover every other content of a version 1 file whose header has fewer than 32768 bytes: the text of the header contains a parenthesis with something but no quote behind it; what stands elsewhere is arbitrary. What is not version 1 is in C65."
  },
  {
   "property": "C72",
   "status": "proved",
   "theorems": [
    "sgd_descends",
    "rmsprop_descends",
    "adagrad_descends",
    "adam_descends"
   ],
   "note": "The bound depends on network, batch and parameters."
  },
  {
   "property": "C73",
   "status": "proved",
   "theorems": [
    "race_free_commute",
    "predict_footprint",
    "gradient_footprint",
    "evaluate_footprint",
    "predict_batch_race_free",
    "batch_gradient_race_free",
    "evaluate_race_free",
    "adam_sections_race_free"
   ],
   "note": "Accesses are observed through the memory model: a float that an iteration reads outside of its footprint may be uninitialised or changed at any time without an effect. Each thread has its own private arrays and stack."
  },
  {
   "property": "C74",
   "status": "proved",
   "theorems": [
    "optimizer_settings",
    "sgd_from_creation",
    "rmsprop_from_creation",
    "adagrad_from_creation",
    "adam_from_creation"
   ],
   "note": "Adam with k = 0 is the first Adam optimizer of the process (see C30); exact arithmetic, premises as in C27-C30."
  },
  {
   "property": "C75",
   "status": "partial",
   "theorems": [
    "logger_start_safe_refuted",
    "logger_start_exact"
   ],
   "note": "REFUTED: a note behind the last entry makes strstr return NULL, which is used, and an empty file is read at index -1. logger_start_exact says for every text file which of these happens, or that a logger is returned."
  },
  {
   "property": "C76",
   "status": "proved",
   "theorems": [
    "earlystopping_from_settings",
    "checkpoint_from_settings",
    "logger_from_settings",
    "callbacks_memory"
   ],
   "note": "For scores as in C35 and C37 and log files as in C38."
  },
  {
   "property": "C77",
   "status": "proved",
   "theorems": [
    "numeric_functions_end",
    "epochs_end",
    "trainings_end",
    "evaluate_blas_ends",
    "epoch_needs_batch_size"
   ],
   "note": "Batch prediction with BLAS: see C08. Random initialisation (rejection loop) is not part of the claim. epoch_needs_batch_size: batch size 0, which the constructors refuse, would never end."
  },
  {
   "property": "C78",
   "status": "proved",
   "theorems": [
    "backprop_rounding_error",
    "gradients_agree",
    "gradient_sign"
   ],
   "note": "If libm is accurate where it is used, magnitudes stay in range and no unit is closer to a kink (relu, hard_sigmoid, the absolute errors) or pole than its rounding error. In the case at the end of the file the bound is below 1/10000."
  },
  {
   "property": "C79",
   "status": "proved",
   "theorems": [
    "batch_gradient_rounding_error",
    "sgd_step_rounding_error",
    "sgd_step_downhill"
   ],
   "note": "Premises as for C78 for every sample of the batch, at the point where the gradient is taken (with Nesterov momentum the rounded sum of parameters and velocity). In the case at the end of the file, momentum 1 with Nesterov's variant, the bounds are below 1/10000."
  },
  {
   "property": "C80",
   "status": "proved",
   "theorems": [
    "adagrad_step_bounded",
    "rmsprop_step_bounded"
   ],
   "note": "For parameters up to 2^125, velocities up to 2^120 and learning rates up to 2^90; up to rounding means 10 parts in 2^24 of the step, 3 of parameter and step, and 2^-60. The part about NaN needs 0 < rho (with rho = 0 an overflowed square gives 0 * infinity in the next batch)."
  },
  {
   "property": "C81",
   "status": "proved",
   "theorems": [
    "evaluate_rounding_error",
    "evaluations_agree"
   ],
   "note": "Premises as for C61 for every sample; libm's logf accurate to 4e-7 between 1e-7 and 1 for the two cross-entropies; for the accuracies no output closer to a border (1/2, -1/2, 3/2; the second largest output) than its error. In the case at the end of the file the bounds of the errors and of the binary accuracy are below 1/10000."
  },
  {
   "property": "C82",
   "status": "partial",
   "theorems": [
    "adam_same_everywhere_refuted",
    "adam_same_everywhere_partial"
   ],
   "note": "REFUTED: the vector loop computes (g*g)*(1-beta), the scalar loop ((1-beta)*g)*g. With the gradient 2^64 in the second step after a gradient of 0, the step is 0 in the vector loop and more than half of the learning rate in the scalar loop. The partial theorem is about the second moment: it is equal within the vector loop, within the scalar loop and without AVX; otherwise it differs by a few roundings if the gradient is at most 2^62 and the old moment at most 2^125. What follows from this for the length of the step is not stated."
  },
  {
   "property": "C83",
   "status": "partial",
   "theorems": [
    "stays_trainable_refuted",
    "adagrad_frozen",
    "rmsprop_frozen",
    "adagrad_stays_trainable_partial",
    "rmsprop_stays_trainable_partial"
   ],
   "note": "REFUTED: a gradient of 2^64 or more makes the accumulated square infinite, and then no number of epochs on any data moves the parameter again (adagrad_frozen; rmsprop_frozen without momentum): it keeps its value or becomes a NaN. The partial theorems bound the accumulated square after one batch whose gradient is at most 2^60, so that it stays finite."
  },
  {
   "property": "C84",
   "status": "partial",
   "theorems": [
    "npy_dump_refuted",
    "npy_dump_scalar",
    "npy_dump_partial"
   ],
   "note": "REFUTED: for an array without dimensions, which numpy.save writes for a scalar and npy_array_load accepts, shape[-1] is read (npy_dump_scalar: always). With 1 to 8 dimensions the four lines are printed; dimensions and element size are right below 2^31 (they are cast to int)."
  },
  {
   "property": "C85",
   "status": "partial",
   "theorems": [
    "mapped_free_refuted",
    "mapped_free_exact",
    "mapped_free_partial",
    "mmap_refused_clean"
   ],
   "note": "REFUTED: npy_array_free computes the length from the dimensions before the first zero, not from the file. For numpy's file of shape (3000, 0), one page long, it unmaps two pages of others as well. mapped_free_exact says for every readable file when the pages are restored; they are for the files of npy_array_save (mapped_free_partial) and when NULL is returned."
  },
  {
   "property": "C86",
   "status": "proved",
   "theorems": [
    "adam_step_bounded"
   ],
   "note": "For 0 <= beta1 <= 1 - 2^-7, 1/2 <= beta2 < 1, |lr| <= 2^30, weight decay at most 1 and every ratio A <= 64 that the means keep (keeps_ratio). Moments of 0 are in proportion and the theorem gives its own hypotheses back, so it holds for each step of a run."
  },
  {
   "property": "C87",
   "status": "partial",
   "theorems": [
    "checkpoint_own_refuted",
    "checkpoint_shared",
    "checkpoint_own_partial"
   ],
   "note": "REFUTED: the best score is a function-static variable. With one callback for the training loss and one for the greater validation loss the file of the second is never written, although both losses improve. checkpoint_shared says which files are written by several callbacks with the same direction; the partial theorem: a callback that beats the scores of the others writes as if it were alone."
  },
  {
   "property": "C88",
   "status": "proved",
   "theorems": [
    "adam_run_bounded",
    "adagrad_run_bounded",
    "rmsprop_run_bounded"
   ],
   "note": "Settings as for C80 and C86, for Adam beta1 <= beta2, and as long as the bound is at most 2^125. All epochs have the same batch size; the order of the samples may differ. In the cases at the ends of the files three epochs move no parameter by more than 72 (Adam), 3.00001 (Adagrad) and 12.04 (RMSprop with momentum 1/2) learning rates."
  },
  {
   "property": "C89",
   "status": "partial",
   "theorems": [
    "options_read_partial",
    "early_stopping_given_in_part",
    "options_rejected",
    "checkpoint_option_crashes",
    "options_refuted"
   ],
   "note": "REFUTED: the option -s stores through a NULL pointer, whatever its value (checkpoint_option_crashes). options_read_partial: all other options, for values that are numbers where numbers are expected. early_stopping_given_in_part: -e with one or two numbers. --metrics has no short form: -m is rejected."
  },
  {
   "property": "C90",
   "status": "partial",
   "theorems": [
    "early_stopping_option_refuted",
    "early_stopping_option_ignored",
    "ten_epochs"
   ],
   "note": "REFUTED: the values of -e are stored and not used. A run with -e 3,0,0 and constant results has ten epochs. early_stopping_option_ignored: no run depends on -e. ten_epochs: every run that reaches the end has exactly ten epochs, because the default patience of 10 cannot be used up."
  },
  {
   "property": "C91",
   "status": "proved",
   "theorems": [
    "trainer_checkpoints",
    "trainer_log"
   ],
   "note": "For runs that reach the end, with memory for the callbacks. Results that are NaN or not below FLT_MAX are not saved (improves_any). The log: if the file can be opened and the hours, minutes and seconds are below 100."
  },
  {
   "property": "C92",
   "status": "proved",
   "theorems": [
    "trainer_works"
   ],
   "note": "The epochs are a parameter: they succeed and return one result for each metric (C77 says that optimizer_run_epoch ends). Without a log file from an earlier run, see C38 and C75 for these. The number of parameters is below 2^32, see C53."
  },
  {
   "property": "C93",
   "status": "partial",
   "theorems": [
    "trainer_frees_refuted",
    "trainer_works"
   ],
   "note": "REFUTED: the arrays of the optimizer and the three callbacks are never freed. trainer_works says that exactly these blocks are left (the pivot array, which the epochs allocate, is not on this heap)."
  },
  {
   "property": "C94",
   "status": "partial",
   "theorems": [
    "data_files_refuted",
    "data_types_refuted",
    "checks_suffice_partial",
    "unsuitable_rejected"
   ],
   "note": "REFUTED: the type of the elements is not checked, so arrays of bytes are read out of bounds and 64 bit floats are taken for 32 bit floats; an archive with one array ends in a NULL pointer; no training samples in a division by 0; no validation samples in results that were never written. checks_suffice_partial: for matrices of 4 byte elements the checks are enough. unsuitable_rejected: files that are missing or whose numbers of columns do not fit end the program with a failed assertion."
  },
  {
   "property": "C95",
   "status": "proved",
   "theorems": [
    "npz_unnamed"
   ],
   "note": "Lists built with append and prepend always have names, so this concerns lists whose nodes a program made itself. The archive is loaded with the names given here."
  },
  {
   "property": "C96",
   "status": "proved",
   "theorems": [
    "idx_images_read"
   ],
   "note": "For files that follow the format, with enough memory and sizes that fit an int."
  },
  {
   "property": "C97",
   "status": "proved",
   "theorems": [
    "idx_labels_one_hot"
   ],
   "note": "For files that follow the format, with enough memory and labels below the number of targets; other labels: C98."
  },
  {
   "property": "C98",
   "status": "partial",
   "theorems": [
    "idx_images_refuted",
    "idx_images_exact",
    "idx_labels_refuted",
    "idx_labels_exact",
    "mnist_data_refuted",
    "mnist_data_partial"
   ],
   "note": "REFUTED: a file that ends early is not refused and bytes that were never read are used; a file of 16 bytes can claim 2^16 x 2^16 pixels; a label that is too large is written into the next row or behind the array; more labels than images, or test images of another size, make the first epoch read behind the arrays. The exact theorems say what happens for every file, mnist_data_partial that four proper files that fit together are taken and read inside of the arrays, and that a missing file is refused."
  },
  {
   "property": "C99",
   "status": "proved",
   "theorems": [
    "custom_sigmoid_value",
    "custom_sigmoid_slope",
    "custom_sigmoid_derivative"
   ],
   "note": "expf is a parameter with the accuracy of SpecLibm.v. The default constant 0.1 meets the condition (stands_for_default)."
  },
  {
   "property": "C100",
   "status": "proved",
   "theorems": [
    "example_exact",
    "example_float"
   ],
   "note": "example_exact is in exact arithmetic, example_float in binary32. Creating the network and loading the file are other claims (C45, C51, C54)."
  },
  {
   "property": "C101",
   "status": "proved",
   "theorems": [
    "example_sgd_bits"
   ],
   "note": "Parameters that are -0 can end as the zero of the other sign, therefore the condition."
  },
  {
   "property": "C102",
   "status": "proved",
   "theorems": [
    "local_evaluate_exact",
    "example_02b_results"
   ],
   "note": "In exact arithmetic, OpenMP build. For the alignment fault see C09: the stack array has no alignment attribute. The program has one output, which suits every address."
  },
  {
   "property": "C103",
   "status": "proved",
   "theorems": [
    "local_evaluate_is_evaluate",
    "local_evaluate_is_evaluate_float32"
   ],
   "note": "local_evaluate_is_evaluate is for every arithmetic with a commutative product, the second one for IEEE binary32."
  },
  {
   "property": "C104",
   "status": "partial",
   "theorems": [
    "test_sgd_momentum_refuted",
    "test_sgd_nesterov_refuted",
    "test_sgd_settings_exact",
    "test_sgd_printed",
    "string_to_bool_words"
   ],
   "note": "REFUTED: momentum and nesterov are read and printed, but only the learning rate is handed to the optimizer. test_sgd_settings_exact: the settings of the optimizer for all options. test_sgd_printed: what the program prints is what the last option of each kind says, without nesterov if the momentum is not positive. string_to_bool_words: the words for true."
  },
  {
   "property": "C105",
   "status": "partial",
   "theorems": [
    "test_sgd_accuracy_refuted",
    "test_sgd_accuracy",
    "one_output_metric"
   ],
   "note": "REFUTED: the metric is categorical_accuracy, the network has one output, so the position of the largest output is always right. test_sgd_accuracy: the program prints accuracy 1 for every network with one output and every data set with a sample."
  },
  {
   "property": "C106",
   "status": "proved",
   "theorems": [
    "example_02b_recreates"
   ],
   "note": "A network with one output, as in the program. The link between the bytes of the file and the floats in memory is the definition net_floats (SpecNetFloat.v)."
  },
  {
   "property": "C107",
   "status": "partial",
   "theorems": [
    "example_03_frees_refuted",
    "example_03_frees",
    "example_03_missing"
   ],
   "note": "REFUTED: if one of the four files cannot be read, main returns without freeing the arrays of the others. example_03_frees: with all four files and enough memory every block is freed exactly once. example_03_missing: otherwise exactly the arrays that were read are left."
  },
  {
   "property": "C108",
   "status": "partial",
   "theorems": [
    "example_02_frees_refuted",
    "example_02_leaves"
   ],
   "note": "REFUTED: the optimizer is never freed. example_02_leaves: the list and the network are freed, no other old block is touched, and exactly three new blocks are left: the structure of the optimizer, its velocity and its pivot array. The registry is empty at the start, as in the program; the floats that initialization and training write are arbitrary."
  },
  {
   "property": "C109",
   "status": "proved",
   "theorems": [
    "example_02b_frees"
   ],
   "note": "From the list that npy_array_list_load returned on. The premises about the network are those of net_round_trip (C47); a second free of a block would be a fault."
  },
  {
   "property": "C110",
   "status": "partial",
   "theorems": [
    "test_sgd_frees_refuted",
    "test_sgd_leaves"
   ],
   "note": "REFUTED: the program calls free() instead of optimizer_free(). test_sgd_leaves: the list, the network and the structure of the optimizer are freed, no other old block is touched, and exactly two new blocks are left: the velocity and the pivot array. The registry is empty at the start, as in the program; the floats that initialization and training write are arbitrary."
  },
  {
   "property": "C111",
   "status": "proved",
   "theorems": [
    "example_01_frees",
    "example_01_archive_frees"
   ],
   "note": "example_01_frees: from the list that npy_array_list_load returned on, with enough memory. example_01_archive_frees: the whole of main for every archive that the library itself has written. The number of parameters and of samples fit into an int; the floats that initialization and training write are arbitrary. A second free of a block would be a fault."
  }
 ]
}