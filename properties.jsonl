{"id": "C01", "title": "Prediction computes the documented feed-forward function in every SIMD build", "statement": "neuralnet_predict writes to the output buffer exactly the composition over layers of activation(bias + input*weight), for a correctly shaped network and a suitably aligned output buffer; the linear part is bit-for-bit the same in the scalar, SSE, AVX and AVX-512 builds (without FMA). It never reads uninitialised memory, never accesses anything out of bounds, and changes no memory other than the n_output floats of the output buffer.", "quantifier": "every number of layers, every layer size, every weight/bias/input value, every initial content of memory, every SIMD build", "why_tests_cant": "The kernels have up to three loops per operation (16-wide, 8-wide, scalar tail) whose boundaries depend on the sizes; scratch memory is hand-partitioned with padding. Tests sample a few shapes on the one ISA of the test machine.", "anchors": ["src/neuralnet.c:neuralnet_predict", "src/matrix_operations.c:vector_matrix_multiply", "src/activation.c"]}
{"id": "C02", "title": "Prediction accepts any output buffer", "statement": "neuralnet_predict succeeds for every float output buffer of n_output elements, irrespective of its alignment (the documentation states no alignment requirement).", "quantifier": "every address of the output buffer and every output layer size", "why_tests_cant": "Faults depend on address bits; tests use SIMD_ALIGNed arrays.", "anchors": ["src/neuralnet.c:neuralnet_predict", "src/matrix_operations.c:vector_matrix_multiply"]}
{"id": "C03", "title": "Zero input features contribute nothing", "statement": "In float32 arithmetic an input feature equal to +0 or -0 contributes nothing to the prediction, even if its weights are infinite or NaN, and an input feature equal to 1 contributes exactly its weights: the prediction equals the dense sum over the non-zero features in order.", "quantifier": "every float32 input vector, weight matrix and bias including infinities, NaNs and signed zeros", "why_tests_cant": "The sparse shortcuts change IEEE semantics only on special values.", "anchors": ["src/matrix_operations.c:vector_matrix_multiply"]}
{"id": "C04", "title": "Activation functions compute their mathematical definitions", "statement": "Each of the built-in activation functions transforms every element of its vector by the corresponding mathematical function (relu, sigmoid, tanh, linear, exponential, softplus, softsign, hard_sigmoid), or the vector by softmax, for all lengths and buffer alignments for which it is defined, and touches nothing beyond the n elements.", "quantifier": "every vector length, alignment and real value", "why_tests_cant": "Vector body, unaligned prologue and scalar tail are different code for the same function.", "anchors": ["src/activation.c:relu", "src/activation.c:sigmoid", "src/activation.c:tanh_act", "src/activation.c:softmax", "src/activation.c:softplus", "src/activation.c:softsign", "src/activation.c:hard_sigmoid", "src/activation.c:exponential", "src/activation.c:linear"]}
{"id": "C05", "title": "Softmax yields a probability distribution", "statement": "The softmax activation returns strictly positive values that sum to 1, preserves the order of its inputs and is invariant under adding a constant to all inputs.", "quantifier": "every non-empty real vector, every build", "why_tests_cant": "Needs all vectors; the sum goes through lanes and horizontal adds.", "anchors": ["src/activation.c:softmax", "src/activation.c:hsum256_ps_avx", "src/activation.c:hsum_ps_sse3"]}
{"id": "C06", "title": "relu treats an element the same wherever it lies in the vector", "statement": "The result of relu on an element depends only on the value of the element, not on its position, the vector length or the build.", "quantifier": "every float32 value including NaN, every position", "why_tests_cant": "Only NaN distinguishes maxps from fmaxf.", "anchors": ["src/activation.c:relu"]}
{"id": "C07", "title": "Batch prediction equals per-sample prediction", "statement": "neuralnet_predict_batch produces for every row i of the input exactly what neuralnet_predict produces for that row, in the OpenMP build for every schedule of the iterations and in the BLAS build through any number of divide-and-conquer splits.", "quantifier": "every network, number of samples, data, thread schedule and stack limit", "why_tests_cant": "Schedules and split points are not enumerable; tests use few rows.", "anchors": ["src/neuralnet_predict_batch.c:neuralnet_predict_batch"]}
{"id": "C08", "title": "Batch prediction terminates", "statement": "neuralnet_predict_batch (BLAS build) terminates for every network and every number of samples.", "quantifier": "every network width and sample count", "why_tests_cant": "Non-termination needs a network wider than the stack limit.", "anchors": ["src/neuralnet_predict_batch.c:neuralnet_predict_batch"]}
{"id": "C09", "title": "Batch prediction accepts every network shape", "statement": "In the OpenMP build neuralnet_predict_batch into an aligned output matrix causes no alignment fault for any network shape.", "quantifier": "every output size and sample count", "why_tests_cant": "Depends on output row stride modulo the register width.", "anchors": ["src/neuralnet_predict_batch.c:neuralnet_predict_batch"]}
{"id": "C10", "title": "Vector kernels compute their documented formula for every length", "statement": "vector_accumulate, vector_accumulate_unaligned, vector_scale, vector_divide_by_scalar, vector_saxpy, vector_saxpby and vector_square_elements set exactly the first n elements to the documented element-wise formula, read and write nothing else, and return bit-identical results in the scalar, AVX and AVX-512 builds.", "quantifier": "every length, every value, every build, every sufficiently aligned pair of non-overlapping buffers", "why_tests_cant": "Loop boundaries and tails at every residue class.", "anchors": ["src/matrix_operations.c"]}
{"id": "C11", "title": "Matrix kernels compute products for every shape", "statement": "matrix_vector_multiply adds (AVX-512: stores) the exact matrix-vector product and vector_vector_outer stores the outer product into a zeroed matrix, for every shape, in every build, in exact arithmetic; outside the result nothing changes.", "quantifier": "every number of rows and columns, every build", "why_tests_cant": "Reduction through lanes and three loops.", "anchors": ["src/matrix_operations.c:matrix_vector_multiply", "src/matrix_operations.c:vector_vector_outer", "src/matrix_operations.c:horizontalsum_avx"]}
{"id": "C12", "title": "Parameter vector layout is one and the same everywhere", "statement": "neuralnet_get_parameters writes exactly neuralnet_total_n_parameters floats: for each layer from input to output its biases and then its weights in row-major order; neuralnet_update and the gradient of neuralnet_backpropagation use the same order.", "quantifier": "every network", "why_tests_cant": "Index arithmetic over arbitrary layer lists.", "anchors": ["src/neuralnet.c:neuralnet_get_parameters", "src/neuralnet.c:neuralnet_update", "src/neuralnet.h:neuralnet_total_n_parameters"]}
{"id": "C13", "title": "Updating adds the delta to every parameter", "statement": "After neuralnet_update(nn, d) neuralnet_get_parameters returns, at every index, the old value plus d at this index (float addition); sizes and activations are unchanged.", "quantifier": "every network and delta vector, every build", "why_tests_cant": "All shapes.", "anchors": ["src/neuralnet.c:neuralnet_update", "src/matrix_operations.c:vector_accumulate_unaligned"]}
{"id": "C14", "title": "Undoing an update restores the parameters", "statement": "neuralnet_update(nn, d) followed by neuralnet_update(nn, -d) restores the parameters (tests/test_backpropagation.c relies on this).", "quantifier": "every network and delta", "why_tests_cant": "Rounding breaks it only on some values.", "anchors": ["src/neuralnet.c:neuralnet_update", "tests/test_backpropagation.c"]}
{"id": "C15", "title": "Loss functions are the derivatives of the metrics of the same name", "statement": "For every loss name, the vector computed by the loss function is the gradient with respect to the prediction of the metric with that name (for the crossentropies: with respect to the logits of the matching output activation).", "quantifier": "every output size, prediction and target (where the metric is differentiable)", "why_tests_cant": "Calculus over all reals.", "anchors": ["src/loss.c", "src/metrics.c"]}
{"id": "C16", "title": "Backpropagation computes the exact gradient", "statement": "In exact arithmetic neuralnet_backpropagation stores, for every parameter, the partial derivative of the loss at (input, target) with respect to that parameter, in parameter order, for every network with differentiable activations.", "quantifier": "every depth, all layer sizes, all activations other than softmax in hidden layers, all parameters, inputs and targets away from kinks", "why_tests_cant": "Numerical gradient checks have tolerance 1e-2 on one architecture.", "anchors": ["src/neuralnet.c:neuralnet_backpropagation", "src/activation.c", "src/loss.c"]}
{"id": "C17", "title": "Backpropagation is a function of network, input and target only", "statement": "neuralnet_backpropagation writes exactly the n_parameters floats of the gradient buffer; the result does not depend on the previous content of the buffer or of any scratch memory and nothing else changes.", "quantifier": "every network, previous buffer content and build, for aligned layouts", "why_tests_cant": "Kernels accumulate into (+=) and skip rows of the buffer; relies on zeroing and on hand-partitioned scratch memory.", "anchors": ["src/neuralnet.c:neuralnet_backpropagation"]}
{"id": "C18", "title": "Backpropagation works for every network shape", "statement": "neuralnet_backpropagation with an aligned gradient buffer causes no alignment fault for any network shape in the AVX builds.", "quantifier": "every list of layer sizes and activations", "why_tests_cant": "Offsets of the gradient of a layer depend on all earlier sizes.", "anchors": ["src/neuralnet.c:neuralnet_backpropagation", "src/activation.c:sigmoid_derivative", "src/activation.c:relu_derivative", "src/activation.c:tanh_act_derivative"]}
{"id": "C19", "title": "Softmax is differentiated correctly wherever it is used", "statement": "The gradient is correct for networks that use softmax in a hidden layer or with a loss other than categorical_crossentropy.", "quantifier": "every such network", "why_tests_cant": "Silent wrong numbers.", "anchors": ["src/activation.c:softmax_derivative", "src/neuralnet.c:neuralnet_set_loss"]}
{"id": "C20", "title": "Setting the loss depends only on the last call", "statement": "After any sequence of neuralnet_set_loss calls, the loss function and all layer derivatives are determined by the network and the last call if its name is known; with an unknown name the loss becomes unset.", "quantifier": "every network and every sequence of loss names", "why_tests_cant": "Histories.", "anchors": ["src/neuralnet.c:neuralnet_set_loss"]}
{"id": "C21", "title": "Shuffling permutes the sample order", "statement": "The shuffle leaves the pivot array a permutation of its previous content for every outcome of the random generator, never accesses outside of the array for n >= 1, and every permutation is produced by exactly one sequence of draws (hence uniform if draws are uniform).", "quantifier": "every length and every sequence of rand() results", "why_tests_cant": "n! permutations.", "anchors": ["src/optimizer.c:fisher_yates_shuffle"]}
{"id": "C22", "title": "Each epoch works on a valid sample order", "statement": "Before each epoch the pivot array of the optimizer holds a permutation of 0..n_train_samples-1.", "quantifier": "every history of optimizer_run_epoch calls with arbitrary sample counts on arbitrarily many optimizers", "why_tests_cant": "Function-static state couples optimizers and calls.", "anchors": ["src/optimizer.c:prepare_shuffle_pivot", "src/optimizer.c:optimizer_run_epoch"]}
{"id": "C23", "title": "An epoch uses every training sample exactly once", "statement": "The batches of one epoch partition the training samples: batch sizes are batchsize except for the last one, the number of batches is ceil(n/batchsize), every sample contributes to exactly one batch gradient, and the epoch loop terminates.", "quantifier": "every n_train_samples, batchsize > 0 and pivot", "why_tests_cant": "All residues and orders.", "anchors": ["src/optimizer.c:optimizer_calc_batch_gradient", "src/SGD.c:SGD_run_epoch"]}
{"id": "C24", "title": "Batch gradient is the mean of the sample gradients under every schedule", "statement": "optimizer_calc_batch_gradient returns the arithmetic mean of the gradients of the samples of the batch for every assignment of iterations to threads and every order in which thread results are combined (exact arithmetic).", "quantifier": "every batch, thread count, static/dynamic assignment and combination order", "why_tests_cant": "Schedules.", "anchors": ["src/optimizer.c:optimizer_calc_batch_gradient"]}
{"id": "C25", "title": "Training is reproducible bit for bit", "statement": "The float32 batch gradient does not depend on the OpenMP schedule.", "quantifier": "every schedule", "why_tests_cant": "Needs specific rounding and schedule.", "anchors": ["src/optimizer.c:optimizer_calc_batch_gradient"]}
{"id": "C26", "title": "Batch gradient writes only the gradient buffer", "statement": "optimizer_calc_batch_gradient writes only the n_parameters floats of the batch gradient array supplied by the optimizers.", "quantifier": "every network", "why_tests_cant": "Silent stack corruption that depends on the compiler's stack layout.", "anchors": ["src/optimizer.c:optimizer_calc_batch_gradient"]}
{"id": "C27", "title": "SGD follows the textbook recurrence", "statement": "For every sequence of batches SGD performs theta <- theta - lr*g, with momentum v <- mu*v - lr*g, theta <- theta + v, with Nesterov momentum v' = mu*v - lr*grad(theta+mu*v), theta <- theta + v'.", "quantifier": "every network, hyperparameters, number of batches", "why_tests_cant": "Histories of arbitrary length.", "anchors": ["src/SGD.c:SGD_run_epoch"]}
{"id": "C28", "title": "RMSprop follows its recurrence", "statement": "r <- rho*r + (1-rho)*g^2; delta = -lr*g/(eps+sqrt r); with (Nesterov) momentum v <- mu*v + delta applied as documented for SGD.", "quantifier": "every history of batches and hyperparameters", "why_tests_cant": "Histories.", "anchors": ["src/RMSprop.c:RMSprop_run_epoch"]}
{"id": "C29", "title": "Adagrad follows its recurrence", "statement": "r <- r + g^2, theta <- theta - lr*g/(eps + sqrt r); r after t batches is the sum of the squared gradients, hence the effective step sizes never grow.", "quantifier": "every history of batches", "why_tests_cant": "Histories.", "anchors": ["src/adagrad.c:adagrad_run_epoch"]}
{"id": "C30", "title": "Adam(W) follows its recurrence with correct bias correction", "statement": "The t-th update of an Adam optimizer is -lr * mhat/(sqrt(vhat)+eps) - wd*theta with mhat = m_t/(1-beta1^t), vhat = v_t/(1-beta2^t).", "quantifier": "every history of batches, any number of Adam optimizers in the process", "why_tests_cant": "Bias correction lives in function-static variables shared by all instances and never reset.", "anchors": ["src/adam.c:adam_run_epoch"]}
{"id": "C31", "title": "Learning-rate decay", "statement": "With decay d > 0 the learning rate used for the t-th batch is lr0 / (1 + d*t) (time-based decay as in Keras, which the defaults mirror).", "quantifier": "every t, lr0, decay", "why_tests_cant": "Compounding only shows from the third batch on.", "anchors": ["src/SGD.c:SGD_run_epoch", "src/adagrad.c", "src/RMSprop.c"]}
{"id": "C32", "title": "evaluate reports the mean of each metric under every schedule", "statement": "evaluate stores for each metric of the NULL terminated list the mean over all samples of the metric of the prediction (exact arithmetic), for every OpenMP schedule, and writes exactly n_metrics results.", "quantifier": "every network, data set of at least one sample, metric list, schedule", "why_tests_cant": "Schedules.", "anchors": ["src/evaluate.c:evaluate"]}
{"id": "C33", "title": "Epoch results layout", "statement": "optimizer_run_epoch writes the training metrics at 0..n_metrics-1 and, if and only if validation data is given, the validation metrics at n_metrics..2*n_metrics-1, evaluated on the network after the epoch; other entries are untouched.", "quantifier": "every optimizer, data sets", "why_tests_cant": "All combinations.", "anchors": ["src/optimizer.c:optimizer_run_epoch"]}
{"id": "C34", "title": "Metrics compute their definitions", "statement": "mean squared, absolute and absolute percentage error are non-negative and zero iff prediction equals target; categorical_accuracy is 1 iff the first maxima of prediction and target coincide; binary_accuracy is the fraction of outputs whose rounded prediction equals the rounded clipped target; crossentropies are finite for every prediction, even outside of [0,1].", "quantifier": "every n >= 1 and all vectors", "why_tests_cant": "All reals.", "anchors": ["src/metrics.c"]}
{"id": "C35", "title": "Early stopping stops exactly when patience is exhausted", "statement": "With one early stopping callback, the stop flag is set after an epoch iff at some point more than `patience` consecutive epochs brought no strict improvement of the monitored result over the best so far; once set it stays set.", "quantifier": "every sequence of epoch results, patience, direction, monitor index", "why_tests_cant": "Histories of arbitrary length.", "anchors": ["src/earlystopping.c:earlystopping_callback_run", "src/earlystopping.c:earlystopping_do_stop"]}
{"id": "C36", "title": "Early stopping callbacks are independent", "statement": "The stop flag of an early stopping callback depends only on the results this callback was run with.", "quantifier": "every interleaving of runs of several callbacks", "why_tests_cant": "Function-static state.", "anchors": ["src/earlystopping.c:earlystopping_callback_run"]}
{"id": "C37", "title": "The checkpoint file holds the best network seen", "statement": "With one model checkpoint callback (and writes that succeed) the file always holds the network at the epoch with the best monitored score so far (first among equals); it is written only on strict improvement.", "quantifier": "every sequence of epochs", "why_tests_cant": "Histories.", "anchors": ["src/modelcheckpoint.c:modelcheckpoint_callback_run"]}
{"id": "C38", "title": "Logger resumes the epoch count", "statement": "A new logger on an existing log file continues with the last logged epoch plus one.", "quantifier": "every log file written by the logger (any number of lines, any epoch numbers, metrics)", "why_tests_cant": "Depends on file sizes around the 255 byte window.", "anchors": ["src/logger.c:find_last_epoch_from_logfile", "src/logger.c:logger_callback_run"]}
{"id": "C39", "title": "Logging never overruns the line buffer", "statement": "The logger callback writes at most MAX_BUFFER characters for any number of metrics.", "quantifier": "every metric list", "why_tests_cant": "sprintf overflow happens before the assert.", "anchors": ["src/logger.c:logger_callback_run"]}
{"id": "C40", "title": ".npy header is well formed", "statement": "The header produced for an array consists of the magic, version 1.0, the little-endian length and the dictionary, is newline terminated, and its total length is a multiple of 64.", "quantifier": "every array description accepted (dictionary shorter than 108 characters)", "why_tests_cant": "All shapes.", "anchors": ["npy_array/npy_array.c:npy_array_get_header"]}
{"id": "C41", "title": ".npy save/load round trip", "statement": "npy_array_load of a file written by npy_array_save returns the same shape, type, element size, order and data bytes.", "quantifier": "every array with at most 7 positive dimensions below 2^31 and every data content", "why_tests_cant": "All arrays.", "anchors": ["npy_array/npy_array.c:npy_array_save", "npy_array/npy_array.c:_read_matrix"]}
{"id": "C42", "title": "Every valid version 1 header is readable", "statement": "A version 1.0 .npy file is loaded irrespective of the length of its header.", "quantifier": "every header length below 65536", "why_tests_cant": "Own files always have length 118.", "anchors": ["npy_array/npy_array.c:_read_matrix"]}
{"id": "C43", "title": "Empty and 8-dimensional arrays round trip", "statement": "Arrays with a zero dimension and arrays of NPY_ARRAY_MAX_DIMENSIONS dimensions are saved and loaded faithfully.", "quantifier": "every shape", "why_tests_cant": "Corner shapes.", "anchors": ["npy_array/npy_array.c:npy_array_calculate_datasize", "npy_array/npy_array.c:_read_matrix"]}
{"id": "C44", "title": "Truncated .npy files are rejected", "statement": "If writing a .npy file is cut short at any byte, npy_array_load returns NULL (and does not read uninitialised memory); likewise npy_array_mmap.", "quantifier": "every array and every crash point", "why_tests_cant": "All prefixes.", "anchors": ["npy_array/npy_array.c:_read_matrix", "npy_array/npy_array.c:read_mapped"]}
{"id": "C45", "title": ".npz save/load round trip", "statement": "npy_array_list_load of an archive written by npy_array_list_save returns the arrays in order with their names, and the return value of save is the number of arrays in the archive.", "quantifier": "every list of arrays", "why_tests_cant": "Name clashes, long names, names with format characters.", "anchors": ["npy_array/npy_array_list.c:npy_array_list_save_compressed", "npy_array/npy_array_list.c:npy_array_list_load"]}
{"id": "C46", "title": "Requested compression is applied", "statement": "npy_array_list_save_compressed stores every member with the requested compression method.", "quantifier": "every list", "why_tests_cant": "Not visible by loading.", "anchors": ["npy_array/npy_array_list.c:npy_array_list_save_compressed"]}
{"id": "C47", "title": "Network save/load round trip", "statement": "neuralnet_load of a file written by neuralnet_save yields a network with the same layer sizes, bit-identical weights and biases and the same activation functions; hence identical predictions.", "quantifier": "every network with registered activations", "why_tests_cant": "All networks.", "anchors": ["src/neuralnet.c:neuralnet_save", "src/neuralnet.c:neuralnet_load"]}
{"id": "C48", "title": "The activation name array may be stored anywhere", "statement": "neuralnet_load gives the same network wherever the array of activation names is placed among the other arrays.", "quantifier": "every network file and position", "why_tests_cant": "All positions.", "anchors": ["src/neuralnet.c:neuralnet_load", "README.md"]}
{"id": "C49", "title": "Malformed network files are rejected safely", "statement": "neuralnet_load either returns NULL or a network whose parameters come from the file, without memory errors, for every readable archive.", "quantifier": "every list of arrays in an archive", "why_tests_cant": "Heap overflows on inconsistent shapes, wrong element size, missing activations.", "anchors": ["src/neuralnet.c:neuralnet_load"]}
{"id": "C50", "title": "Linked lists of arrays", "statement": "append adds at the end, prepend at the front, length counts, and freeing a list releases every array exactly once.", "quantifier": "every list", "why_tests_cant": "All lengths.", "anchors": ["npy_array/npy_array_list.c"]}
{"id": "C51", "title": "Network creation validates its arguments", "statement": "neuralnet_create returns NULL if the number of layers or one of the sizes is below 1 and otherwise (memory available) a network whose layer i maps sizes[i] to sizes[i+1] with the named activation, linear for NULL or unknown names, and no loss.", "quantifier": "every argument", "why_tests_cant": "All arguments.", "anchors": ["src/neuralnet.c:neuralnet_create"]}
{"id": "C52", "title": "Creation survives allocation failure", "statement": "If any allocation fails, neuralnet_create returns NULL, frees what it allocated and touches nothing else.", "quantifier": "every allocation failure point", "why_tests_cant": "Crash points.", "anchors": ["src/neuralnet.c:_weights_memory_allocate", "src/neuralnet.c:_weights_memory_free"]}
{"id": "C53", "title": "Size arithmetic does not overflow", "statement": "Creating a network of accepted sizes performs no signed overflow and allocates enough memory.", "quantifier": "every pair of int sizes", "why_tests_cant": "Needs huge sizes.", "anchors": ["src/neuralnet.c:_weights_memory_allocate", "src/neuralnet.h:neuralnet_total_n_parameters"]}
{"id": "C54", "title": "Initialisation ranges", "statement": "neuralnet_initialize sets all biases to 0; Xavier weights lie in [-s, s], where s is the float that sqrtf(6/(n_in+n_out)) gives, at most 2^-22 above the exact root (relative); the method is the requested one or else determined by the activation as documented; every weight is set.", "quantifier": "every network, initializer list and rand() stream", "why_tests_cant": "All streams.", "anchors": ["src/neuralnet.c:neuralnet_initialize", "src/neuralnet.c:random_uniform"]}
{"id": "C55", "title": "Kaiming initialisation yields finite weights", "statement": "random_normal returns a finite value for every rand() stream.", "quantifier": "every stream for which it terminates", "why_tests_cant": "Probability about 1e-15 per draw.", "anchors": ["src/neuralnet.c:random_normal"]}
{"id": "C56", "title": "Activation registry round trip", "statement": "get_activation_func(get_activation_name(f)) = f for every function obtained by name, including functions loaded from shared objects, after any sequence of lookups; the derivative found belongs to the function.", "quantifier": "every sequence of lookups", "why_tests_cant": "Histories; registry is a growing global list.", "anchors": ["src/activation.c:get_activation_func", "src/activation.c:get_activation_name", "src/activation.c:get_activation_derivative"]}
{"id": "C57", "title": "SIMD exponential is accurate", "statement": "exp256_ps approximates exp within a small relative error on its whole (clamped) range, in exact arithmetic, so vectorised and scalar sigmoid/softmax/tanh agree up to this error.", "quantifier": "every real input", "why_tests_cant": "All reals.", "anchors": ["src/activation.c:exp256_ps"]}
{"id": "C58", "title": "Progress bar has constant width", "statement": "progress_ascii prints exactly w characters between the brackets for every 0 <= x <= n, n > 0, and ends the line exactly at x = n.", "quantifier": "every x, n, terminal width", "why_tests_cant": "Rounding of x/n.", "anchors": ["src/progress.c:progress_ascii"]}
{"id": "C59", "title": "An optimizer without metrics reports its own loss", "statement": "An optimizer created without metrics reports the metric of the loss of its network; an optimizer created with metrics reports these; creating further optimizers does not change what an optimizer reports.", "quantifier": "every sequence of creations", "why_tests_cant": "A static array is shared by all optimizers of the process.", "anchors": ["src/optimizer.c:optimizer_check_sanity", "src/optimizer.h:OPTIMIZER_DEFINE"]}
{"id": "C60", "title": "Optimizers own zeroed state and free it", "statement": "The constructors allocate state arrays of one float per parameter, all 0.0f, in new blocks, and leave other memory alone; a network without a loss or a batch size below 1 is refused by an assertion; no memory for the struct gives NULL, no memory for an array fails an assertion; optimizer_free frees every block of the optimizer once, with or without a sample order, and nothing else.", "quantifier": "every kind, network, batch size and failing allocation", "why_tests_cant": "All failure points.", "anchors": ["src/optimizer.h:OPTIMIZER_DEFINE", "src/optimizer.h:optimizer_free", "src/SGD.c:SGD_optimizer_init", "src/RMSprop.c:RMSprop_optimizer_init", "src/adagrad.c:adagrad_optimizer_init", "src/adam.c:adam_optimizer_init"]}
{"id": "C61", "title": "A float32 prediction is close to the exact one", "statement": "For every network with finite parameters, every finite input, every build and every libm that is accurate to a few units in the last place, if the sums of the magnitudes stay in range, the prediction is finite and differs from the exact prediction by at most ((1+2^-24)^K - 1) times the prediction of the network of magnitudes plus a term for underflow and libm, where K counts the roundings on a path; so two builds differ by at most twice that.", "quantifier": "every network, parameters, input and build", "why_tests_cant": "All floats; rounding errors accumulate over layers.", "anchors": ["src/neuralnet.c:neuralnet_predict", "src/matrix_operations.c:vector_matrix_multiply", "src/activation.c:softsign", "src/activation.c:hard_sigmoid", "src/activation.c:sigmoid", "src/activation.c:tanh_act", "src/activation.c:softmax"]}
{"id": "C62", "title": "Samples of large data sets are addressed correctly", "statement": "For every data set and network that fits in memory the integer arithmetic of training, evaluation, batch prediction and prediction is exact: every sample is used, row k is read at k * n_input, no signed overflow.", "quantifier": "every number of samples, sizes of layers, sample order and batch size", "why_tests_cant": "Needs gigabytes of data.", "anchors": ["src/optimizer.c:optimizer_calc_batch_gradient", "src/SGD.c:SGD_run_epoch", "src/evaluate.c:evaluate", "src/neuralnet_predict_batch.c:neuralnet_predict_batch", "src/neuralnet.c:neuralnet_predict"]}
{"id": "C63", "title": "The CBLAS kernels compute the same as the built-in kernels", "statement": "In exact arithmetic every kernel of matrix_operations.c has the same outcome compiled with USE_CBLAS as without, for all arguments.", "quantifier": "every size, content and memory layout, every build", "why_tests_cant": "Two builds; needs all contents of the output array.", "anchors": ["src/matrix_operations.c:matrix_vector_multiply", "src/matrix_operations.c:vector_vector_outer", "src/matrix_operations.c:vector_matrix_multiply", "src/matrix_operations.c:vector_accumulate", "src/matrix_operations.c:vector_saxpy", "src/matrix_operations.c:vector_saxpby"]}
{"id": "C64", "title": "Prediction and gradient do not depend on USE_CBLAS", "statement": "In exact arithmetic neuralnet_predict and neuralnet_backpropagation compiled with USE_CBLAS have the same outcome as without: the prediction is the feed-forward function and the gradient consists of the partial derivatives of the loss.", "quantifier": "every network, input, target and memory layout, every build", "why_tests_cant": "All networks, two builds.", "anchors": ["src/neuralnet.c:neuralnet_predict", "src/neuralnet.c:neuralnet_backpropagation", "src/matrix_operations.c:vector_matrix_multiply"]}
{"id": "C65", "title": "What is not a version 1 .npy file is refused", "statement": "npy_array_load and npy_array_mmap return NULL, without any other effect, for every file that has fewer than 10 bytes (mmap: that is empty) or that does not begin with the magic string and major version 1, whatever its other bytes are.", "quantifier": "every file content", "why_tests_cant": "All byte strings.", "anchors": ["npy_array/npy_array.c:_read_matrix", "npy_array/npy_array.c:npy_array_load", "npy_array/npy_array.c:npy_array_mmap"]}
{"id": "C66", "title": "A loaded array has the data its dimensions promise", "statement": "For every file, whatever its bytes: if npy_array_load returns an array, its data is a part of the file behind the header, and has as many bytes as the product of the dimensions times the element size.", "quantifier": "every file content", "why_tests_cant": "All byte strings; headers with huge dimensions.", "anchors": ["npy_array/npy_array.c:_read_matrix", "npy_array/npy_array.c:npy_array_calculate_datasize"]}
{"id": "C67", "title": "exp256_ps has a relative error of at most 4e-7 in float32", "statement": "With every operation rounded to float32, exp256_ps returns a finite number that is not negative for every input, and one with a relative error of at most 4e-7 wherever exp(x) is a float.", "quantifier": "every float", "why_tests_cant": "2^32 inputs in 8 lanes; worst cases are rare.", "anchors": ["src/activation.c:exp256_ps"]}
{"id": "C68", "title": "Activation functions are accurate in float32", "statement": "In every build and at every address each element that an activation function writes is finite and within a small bound of the mathematical function of the finite input: 23e-8 for sigmoid, 6e-7 for tanh, (3n+20)/2^24 for softmax of n elements, whether it was computed in vector registers or not, if libm is accurate.", "quantifier": "every finite input vector, length, address and build", "why_tests_cant": "All floats and lengths.", "anchors": ["src/activation.c:sigmoid", "src/activation.c:tanh_act", "src/activation.c:softmax", "src/activation.c:exp256_ps", "src/activation.c:relu", "src/activation.c:softplus", "src/activation.c:softsign", "src/activation.c:hard_sigmoid", "src/activation.c:exponential"]}
{"id": "C69", "title": "A NaN is passed on by the activation functions", "statement": "If element j of the input of an activation function is NaN, element j of the output is NaN, in every build.", "quantifier": "every input vector, position and build", "why_tests_cant": "Depends on position and build.", "anchors": ["src/activation.c:sigmoid", "src/activation.c:tanh_act", "src/activation.c:softmax", "src/activation.c:exp256_ps"]}
{"id": "C70", "title": "Losses and metrics are found by their names", "statement": "get_loss_func and get_metric_func find exactly the documented names, get_loss_name and get_metric_name return the long name, and each name of a loss is a name of the metric that belongs to it.", "quantifier": "every string", "why_tests_cant": "Every string that is not a name.", "anchors": ["src/loss.c:get_loss_func", "src/loss.c:get_loss_name", "src/metrics.c:get_metric_func", "src/metrics.c:get_metric_name"]}
{"id": "C71", "title": "Reading a .npy file never leaves its buffers", "statement": "Whatever the bytes of the file are, npy_array_load and npy_array_mmap never read outside the header they have allocated or mapped: they return an array, return NULL or stop at an assertion.", "quantifier": "every file content", "why_tests_cant": "All byte strings; the reads are a few bytes outside and go unnoticed.", "anchors": ["npy_array/npy_array.c:_read_matrix", "npy_array/npy_array.c:npy_array_load", "npy_array/npy_array.c:npy_array_mmap"]}
{"id": "C72", "title": "A small enough step of each optimizer lowers the loss", "statement": "In exact arithmetic: unless all partial derivatives of the mean loss of a batch are 0, there is a bound such that an epoch consisting of this batch lowers the mean loss for every learning rate below it. This holds for SGD and RMSprop without momentum or in the first step, for Adagrad, and for the first step of Adam without weight decay.", "quantifier": "every network, batch and parameter vector at which the losses are differentiable, every schedule of the threads and build", "why_tests_cant": "There is a bound for each of infinitely many networks; a wrong sign in one component may still lower the loss in a test.", "anchors": ["src/SGD.c:SGD_run_epoch", "src/RMSprop.c:RMSprop_run_epoch", "src/adagrad.c:adagrad_run_epoch", "src/adam.c:adam_run_epoch", "src/optimizer.c:optimizer_calc_batch_gradient"]}
{"id": "C73", "title": "The parallel loops and sections do not race", "statement": "Two iterations of the OpenMP loop over the rows of a batch (prediction), over the samples of a batch (gradient) or over the samples (evaluate), and the two sections of Adam, never write what the other one reads or writes; so they may run at the same time.", "quantifier": "every pair of iterations, every network, batch and build", "why_tests_cant": "Races show up rarely and depend on the schedule.", "anchors": ["src/neuralnet_predict_batch.c:neuralnet_predict_batch", "src/optimizer.c:optimizer_calc_batch_gradient", "src/evaluate.c:evaluate", "src/adam.c:adam_run_epoch", "src/neuralnet.c:neuralnet_predict"]}
{"id": "C74", "title": "A new optimizer trains with the settings it was given", "statement": "An optimizer created with any list of settings has the last value given for each setting and the documented default for the others; its state arrays are zero, and its epochs follow the documented recurrence with these values, starting from the first one.", "quantifier": "every list of settings, network, data set and number of epochs", "why_tests_cant": "All combinations of settings; a swapped field shows only in the numbers.", "anchors": ["src/SGD.c:SGD_optimizer_init", "src/RMSprop.c:RMSprop_optimizer_init", "src/adagrad.c:adagrad_optimizer_init", "src/adam.c:adam_optimizer_init", "src/SGD.h:SGD_PROPERTIES", "src/adam.h:ADAM_PROPERTIES"]}
{"id": "C75", "title": "A logger can be started on every text file", "statement": "logger_new with the name of any existing text file (no NUL characters) returns a logger; the program does not read outside its buffer or dereference NULL.", "quantifier": "every content of the file", "why_tests_cant": "All texts; a note behind the last entry is enough.", "anchors": ["src/logger.c:find_last_epoch_from_logfile"]}
{"id": "C76", "title": "A new callback works with the settings it was given", "statement": "A callback created with any list of settings has the last value given for each setting and the documented default for the others, and acts by them; without memory the constructor returns NULL and changes nothing; freeing a callback releases exactly the block of its constructor.", "quantifier": "every list of settings, sequence of results and heap", "why_tests_cant": "All combinations of settings.", "anchors": ["src/callback.h:CALLBACK_DEFINE", "src/callback.h:callback_free", "src/earlystopping.h:EARLYSTOPPING_SETTINGS", "src/modelcheckpoint.h:MODELCHECKPOINT_SETTINGS", "src/logger.h:LOGGER_SETTINGS"]}
{"id": "C77", "title": "Prediction, training and evaluation end for every data", "statement": "No loop of the activation functions, losses, metrics, of prediction, backpropagation, of the four optimizers (batch size at least 1) or of evaluate runs for ever, whatever the memory contains: NaN, infinities, arrays that are too short or wrong pointers; the calls return or fault.", "quantifier": "every memory, network, size, sample order, thread schedule and build", "why_tests_cant": "A loop that never ends for one input in 2^32 is not met by tests.", "anchors": ["src/activation.c:softmax", "src/neuralnet.c:neuralnet_predict", "src/neuralnet.c:neuralnet_backpropagation", "src/optimizer.c:optimizer_calc_batch_gradient", "src/SGD.c:SGD_run_epoch", "src/adam.c:adam_run_epoch", "src/evaluate.c:evaluate"]}
{"id": "C78", "title": "A float32 gradient is close to the exact one", "statement": "In every build neuralnet_backpropagation writes finite components, each within a stated bound of the exact partial derivative of the loss, computed from the magnitudes of parameters, input and target; so two builds differ by at most twice the bound, and a component whose exact value exceeds the bound has the right sign.", "quantifier": "every network, finite input and target, every build", "why_tests_cant": "All networks and floats; the summation order differs between builds.", "anchors": ["src/neuralnet.c:neuralnet_backpropagation", "src/activation.c", "src/loss.c", "src/matrix_operations.c:matrix_vector_multiply", "src/matrix_operations.c:vector_vector_outer"]}
{"id": "C79", "title": "A float32 step of gradient descent is close to the exact one", "statement": "With every operation rounded to float32, the batch gradient is within an explicit bound of the partial derivatives of the mean loss, whatever the schedule of the threads; the parameters, the velocity and the learning rate after one batch of SGD, with or without (Nesterov) momentum and decay, are within explicit bounds of the exact rule; and without momentum the move goes downhill whenever the exact step exceeds these bounds.", "quantifier": "every network, finite parameters, velocity, settings and batch in range, every schedule of the threads and build", "why_tests_cant": "All floats and batches; needs the exact derivatives.", "anchors": ["src/SGD.c:SGD_run_epoch", "src/optimizer.c:optimizer_calc_batch_gradient", "src/neuralnet.c:neuralnet_backpropagation", "src/neuralnet.c:neuralnet_update", "src/matrix_operations.c:vector_scale", "src/matrix_operations.c:vector_divide_by_scalar", "src/matrix_operations.c:vector_accumulate"]}
{"id": "C80", "title": "No step of Adagrad or RMSprop is longer than the learning rate allows", "statement": "With every operation rounded to float32, one batch of Adagrad moves each finite parameter by at most the learning rate, one of RMSprop by at most the learning rate over sqrt(1 - rho) (with momentum: by the velocity, which grows by at most that much), up to rounding, or makes it NaN; the accumulated squares never become negative and the learning rate never grows. If the gradient is in the range of C79, no parameter, velocity or accumulated square becomes NaN.", "quantifier": "every network, data, parameters and states (also with overflow, infinities and NaN in gradients and squares), every schedule of the threads and build", "why_tests_cant": "All floats; the square root of a huge or vanishing square is met by chance only.", "anchors": ["src/adagrad.c:adagrad_run_epoch", "src/adagrad.c:accumulate_squared_gradient", "src/adagrad.c:compute_update", "src/RMSprop.c:RMSprop_run_epoch", "src/RMSprop.c:compute_update", "src/matrix_operations.c:vector_square_elements"]}
{"id": "C81", "title": "A float32 evaluation is close to the exact one", "statement": "In every build and for every schedule of the threads, the mean of each of the seven metrics that evaluate stores is finite and within an explicit bound, computed from the magnitudes of parameters, inputs and targets, of the exact mean of this metric over the samples; so two builds or schedules differ by at most twice the bound.", "quantifier": "every network, finite parameters and samples in range, every list of metrics, every schedule of the threads and build", "why_tests_cant": "All networks and floats; the order of the sum differs from run to run.", "anchors": ["src/evaluate.c:evaluate", "src/metrics.c", "src/neuralnet.c:neuralnet_predict"]}
{"id": "C82", "title": "Adam treats a component the same wherever it lies in the vector", "statement": "Two components of the parameter vector with equal gradients and equal moments get equal second moments and equal steps from Adam, wherever they lie in the vector and in every build.", "quantifier": "every vector length, gradient, state, pair of positions and build", "why_tests_cant": "Needs equal components in the vector loop and in the scalar tail, and gradients whose square is out of range.", "anchors": ["src/adam.c:update_biased_first_moment", "src/adam.c:update_biased_second_moment", "src/adam.c:compute_update_adam"]}
{"id": "C83", "title": "A parameter stays trainable after a batch with a huge gradient", "statement": "If all data, parameters and settings are finite, then whatever batches Adagrad or RMSprop have seen, later batches with ordinary gradients still move the parameters.", "quantifier": "every sequence of epochs, data, network, schedule of the threads and build", "why_tests_cant": "Needs all continuations of a training run, and a gradient whose square overflows.", "anchors": ["src/adagrad.c:adagrad_run_epoch", "src/adagrad.c:accumulate_squared_gradient", "src/adagrad.c:compute_update", "src/RMSprop.c:RMSprop_run_epoch", "src/RMSprop.c:compute_update"]}
{"id": "C84", "title": "npy_array_dump prints every loaded array", "statement": "npy_array_dump prints the number of dimensions, every dimension, the type, the element size and the order of every array that npy_array_load returns, and reads nothing outside of the array shape.", "quantifier": "every array", "why_tests_cant": "A read in front of an array goes unnoticed; needs all shapes.", "anchors": ["npy_array/npy_array.c:npy_array_dump"]}
{"id": "C85", "title": "Freeing a mapped array restores the address space", "statement": "After npy_array_mmap and npy_array_free exactly the same pages are mapped as before, whatever file was mapped; when npy_array_mmap returns NULL nothing stays mapped.", "quantifier": "every file, address and address space", "why_tests_cant": "Pages of others that are unmapped crash later and elsewhere, depending on the layout of the address space.", "anchors": ["npy_array/npy_array.c:npy_array_mmap", "npy_array/npy_array.c:npy_array_free", "npy_array/npy_array.c:npy_array_calculate_datasize"]}
{"id": "C86", "title": "No step of Adam is longer than the learning rate allows", "statement": "With every operation rounded to float32, one batch of Adam moves each finite parameter by at most lr * A * sqrt(1 - beta2^t) / (1 - beta1^t) plus the weight decay, up to rounding, whatever the gradients are; A depends on beta1 and beta2 only (7.3 for the default settings). A parameter becomes NaN only if its second moment has overflowed. The two moments keep the proportion on which this rests, and the powers in the bias correction are the rounded products.", "quantifier": "every network, data, parameters and moments in proportion (also with overflow, infinities and NaN in the gradients), every schedule of the threads and build", "why_tests_cant": "All floats and gradient histories; the worst history is a long silence followed by a large gradient.", "anchors": ["src/adam.c:adam_run_epoch", "src/adam.c:update_biased_first_moment", "src/adam.c:update_biased_second_moment", "src/adam.c:compute_update_adam"]}
{"id": "C87", "title": "Each checkpoint callback keeps its own best network", "statement": "If several model checkpoint callbacks with different files are run in a process, each of them saves the network in exactly the epochs whose score, the one that this callback monitors, improves on all epochs before.", "quantifier": "every list of callbacks, sequence of calls and scores", "why_tests_cant": "Needs two callbacks with different scores; the effect depends on the order of their scores.", "anchors": ["src/modelcheckpoint.c:modelcheckpoint_callback_run"]}
{"id": "C88", "title": "A training run leaves each parameter within reach of its start", "statement": "With every operation rounded to float32, N batches of Adagrad, RMSprop or Adam in any number of epochs move a finite parameter x by at most f^N (|x| + N S) - |x|, whatever the data and gradients are. S is the longest step: the learning rate (Adagrad), the learning rate over sqrt(1 - rho) (RMSprop; with momentum the velocity, which stays below every V with mu V + S <= V), lr * A / sqrt(1 - beta1) (Adam), all up to rounding; f is 1 + 3 * 2^-24, for Adam times 1 + weight decay. Or the parameter becomes NaN, with Adam only if its second moment has overflowed.", "quantifier": "every network, data, sequence of epochs, parameters and moments in proportion, every schedule of the threads and build", "why_tests_cant": "All training runs of every length.", "anchors": ["src/adam.c:adam_run_epoch", "src/adam.c:update_biased_first_moment", "src/adam.c:update_biased_second_moment", "src/adam.c:compute_update_adam", "src/adagrad.c:adagrad_run_epoch", "src/adagrad.c:compute_update", "src/RMSprop.c:RMSprop_run_epoch", "src/RMSprop.c:compute_update"]}
{"id": "C89", "title": "The training program takes every option of its command line", "statement": "For every command line of the training program, with the options in any order, written in any of the four ways of getopt_long (-t x, -tx, --trainset x, --trainset=x, also abbreviated) and other words in between, each setting is the last value given for its option, and the default if it is not given. A word that is not an option, or an option without a value, ends the program with exit code 1.", "quantifier": "every command line", "why_tests_cant": "The number of command lines is unbounded; the effect of an unusual one is rarely looked at.", "anchors": ["examples/general-trainer.c:main"]}
{"id": "C90", "title": "The training program stops early when asked to", "statement": "With the option -e n,i,g the training program stops when the monitored result has not improved for n epochs; otherwise it runs ten epochs.", "quantifier": "every command line, data and network, every sequence of results", "why_tests_cant": "Whether the training stops depends on the results of all epochs.", "anchors": ["examples/general-trainer.c:main"]}
{"id": "C91", "title": "The training program saves the best network and logs every epoch", "statement": "A run of the training program saves the network to checkpoint.npz behind exactly those epochs whose validation loss is lower than in all epochs before, and appends one line for each epoch to the log file, with the number of the epoch and the values of all metrics for both sets.", "quantifier": "every run that reaches its end", "why_tests_cant": "All command lines, archives and sequences of results.", "anchors": ["examples/general-trainer.c:main"]}
{"id": "C92", "title": "The training program works on proper files", "statement": "Given a proper command line, archives of samples that fit the network, an archive of a network, a known loss and optimizer and enough memory, the training program runs ten epochs with exactly these data, this network and these settings, and ends without any illegal access.", "quantifier": "every command line, archive, number of samples and network", "why_tests_cant": "All sizes, layouts of archives and ways to write the options.", "anchors": ["examples/general-trainer.c:main"]}
{"id": "C93", "title": "The training program frees what it has allocated", "statement": "At the end of a run of the training program every block that it has allocated is freed.", "quantifier": "every run with proper files", "why_tests_cant": "A leak has no effect on the output.", "anchors": ["examples/general-trainer.c:main"]}
{"id": "C94", "title": "The training program rejects data that do not fit", "statement": "Data files that can be read but do not fit the network or the expected layout end the training program in a failed check; they never cause an access outside of the arrays.", "quantifier": "every pair of archives, every network", "why_tests_cant": "All possible archives.", "anchors": ["examples/general-trainer.c:main"]}
{"id": "C95", "title": "Arrays without a name get one in the archive", "statement": "If elements of a list have no name, saving the list stores each of them, in the archive and in the element, under the name arr_<n>.npy with its position n in the list, counted from 0; the other elements keep their names. Loading the archive gives the same arrays in the same order under these names.", "quantifier": "every list with any elements unnamed, provided that the names that result are distinct", "why_tests_cant": "All lists and all patterns of missing names.", "anchors": ["npy_array/npy_array_list.c:npy_array_list_save_compressed", "npy_array/npy_array_list.c:_new_internal_filename"]}
{"id": "C96", "title": "The idx reader returns the images of the file", "statement": "Reading an idx file of n images with r rows and c columns gives n, r * c and an array with one float for each byte of the file in the same order, the byte divided by 255 and rounded once.", "quantifier": "every number and size of images, every content", "why_tests_cant": "All files.", "anchors": ["examples/example_03.c:read_idx_features", "examples/example_03.c:read_uint_big_endian"]}
{"id": "C97", "title": "The idx reader turns labels into one-hot rows", "statement": "Reading an idx file of n labels below the number of targets gives n and an array of n rows in which the element at the label is 1 and every other one is 0.", "quantifier": "every number of labels and targets, every content", "why_tests_cant": "All files.", "anchors": ["examples/example_03.c:read_idx_labels", "examples/example_03.c:read_uint_big_endian"]}
{"id": "C98", "title": "A damaged data file is refused by the MNIST program", "statement": "Idx files that are damaged, too short or do not fit together are refused; the program never uses bytes that are not in the file and never writes or reads outside of its arrays.", "quantifier": "every four files", "why_tests_cant": "All files.", "anchors": ["examples/example_03.c:main", "examples/example_03.c:read_idx_features", "examples/example_03.c:read_idx_labels"]}
{"id": "C99", "title": "The custom activation function is a scaled sigmoid with its slope", "statement": "With a macro constant that stands for k, |k| <= 1/4, and an accurate expf, every finite element y becomes a finite float within 3e-7 of 1 / (1 + exp(-k y)), whatever its size. The derivative function multiplies by k a (1 - a) with a relative error of at most 1.3e-7 and an absolute one of at most 2^-149; this factor is the slope of the curve at the value a.", "quantifier": "every array of finite floats, every accurate expf, activations in [0, 1], incoming values up to 2^100", "why_tests_cant": "All floats and arrays.", "anchors": ["examples/custom_activation/gnubg_activation.c:scaled_sigmoid", "examples/custom_activation/gnubg_activation.c:scaled_sigmoid_derivative"]}
{"id": "C100", "title": "The first example trains by stochastic gradient descent and counts correct answers", "statement": "The first example program replaces, for each training sample in the order of the file, every parameter p by p - r g with the learning rate r and the gradient g of the loss of this sample at the current parameters. The number it prints is the number of test samples for which the output of the trained network and the target are on the same side of 0.5. Nothing but the parameters changes.", "quantifier": "every network with one output, loss, number of samples, learning rate and data", "why_tests_cant": "All data sets, sizes and learning rates.", "anchors": ["examples/example_01.c:main"]}
{"id": "C101", "title": "The first example and the SGD optimizer agree bit for bit", "statement": "The training loop of the first example ends with the same floats as one epoch of the SGD optimizer with batches of one sample, in the order of the file, without momentum and decay, whatever the threads do.", "quantifier": "every network with one output, loss and data, initial parameters other than -0, every schedule", "why_tests_cant": "All floats; differences in the last bit would go unnoticed.", "anchors": ["examples/example_01.c:main", "src/SGD.c:SGD_run_epoch"]}
{"id": "C102", "title": "The evaluation program prints mean loss and accuracy of both data sets", "statement": "The function local_evaluate of the second example stores for every metric of the list the mean of what this metric returns over the samples, and writes nothing else, if the address of its stack array and the number of outputs suit the vector registers. Otherwise it stops with an alignment fault. The program stores the means of the training set in results[0..1] and those of the test set in results[2..3].", "quantifier": "every network, data set, list of metrics, instruction set, order of the parallel iterations, stack addresses", "why_tests_cant": "All data sets, thread orders and stack addresses; an unlucky stack address may never occur in a test.", "anchors": ["examples/example_02b.c:local_evaluate", "examples/example_02b.c:main", "src/neuralnet_predict_batch.c:neuralnet_predict_batch"]}
{"id": "C103", "title": "The evaluation of the second example and evaluate() agree bit for bit", "statement": "For a network with fewer than 8 outputs that are not softmax, and for every network in an SSE build, local_evaluate leaves the memory exactly as evaluate() without OpenMP does, whatever the order of the parallel predictions and the stack addresses.", "quantifier": "every arithmetic, such network, data set, list of metrics, order, stack addresses", "why_tests_cant": "All floats and stack addresses; differences in the last bit would go unnoticed.", "anchors": ["examples/example_02b.c:local_evaluate", "src/evaluate.c:evaluate"]}
{"id": "C104", "title": "The options of the SGD example take effect", "statement": "The SGD optimizer of the example test_sgd has the learning rate, the momentum and the nesterov flag that the program read from its options and prints.", "quantifier": "every list of options and every strtof", "why_tests_cant": "All command lines; the run looks normal with the wrong settings.", "anchors": ["examples/test_sgd.c:main", "examples/test_sgd.c:string_to_bool", "src/SGD.h:SGD_PROPERTIES"]}
{"id": "C105", "title": "The accuracy of the SGD example is the fraction of correct answers", "statement": "The second result that the example test_sgd prints for a data set is the fraction of the samples whose output is on the same side of 1/2 as the target.", "quantifier": "every network with one output and every data set", "why_tests_cant": "A test would have to compare the accuracy with a count of its own for a network that errs.", "anchors": ["examples/test_sgd.c:main", "src/metrics.c:metric_categorical_accuracy"]}
{"id": "C106", "title": "The evaluation program recreates the results of the training program from the saved network", "statement": "The second example reports six numbers for the network it has trained, and saves the network. In builds that evaluate without OpenMP the evaluation program, which loads this file, reports for the metrics common to both (binary_crossentropy and binary_accuracy, training and test set) the same four floats bit for bit.", "quantifier": "every network with one output, training, data, libm, instruction set; every heap, stack addresses and order of the predictions in the second process", "why_tests_cant": "All trained networks and floats; differences in the last bit would go unnoticed.", "anchors": ["examples/example_02.c:main", "examples/example_02b.c:main", "src/neuralnet.c:neuralnet_save", "src/neuralnet.c:neuralnet_load", "src/evaluate.c:evaluate"]}
{"id": "C107", "title": "The third example frees all memory it took", "statement": "When main of example_03 returns, every block that it allocated through the readers, the network, the optimizer and its pivot array, and the logger has been freed exactly once, and no other block has been touched.", "quantifier": "every heap, registry, contents of the four files, numbers of features and samples", "why_tests_cant": "All heaps and file sets; a leak at the end of the program has no visible effect.", "anchors": ["examples/example_03.c:main", "src/optimizer.c:prepare_shuffle_pivot", "src/optimizer.c:optimizer_free", "src/neuralnet.c:neuralnet_free"]}
{"id": "C108", "title": "The second example frees all memory it took", "statement": "When main of example_02 returns, the list of arrays, the network and the optimizer have been freed: no block that the program took is left.", "quantifier": "every heap, registry, list of at least four arrays, numbers of features and samples", "why_tests_cant": "All heaps and data sets; a leak at the end of the program has no visible effect.", "anchors": ["examples/example_02.c:main", "src/neuralnet.c:neuralnet_free", "npy_array/npy_array_list.c:npy_array_list_free"]}
{"id": "C109", "title": "The evaluation program frees all memory it took", "statement": "When main of example_02b returns after it has loaded a network that neuralnet_save has written, every block of the list of arrays and of the network has been freed exactly once, and no other block has been touched.", "quantifier": "every saved network, heap, registry, list of at least four arrays", "why_tests_cant": "All networks, heaps and data sets; a leak at the end of the program has no visible effect.", "anchors": ["examples/example_02b.c:main", "src/neuralnet.c:neuralnet_load", "src/neuralnet.c:neuralnet_free", "npy_array/npy_array_list.c:npy_array_list_free"]}
{"id": "C110", "title": "The SGD example frees all memory it took", "statement": "When main of test_sgd returns, the list of arrays, the network and the optimizer with its arrays have been freed: no block that the program took is left.", "quantifier": "every heap, registry, list of at least four arrays, numbers of features and samples", "why_tests_cant": "All heaps and data sets; a leak at the end of the program has no visible effect.", "anchors": ["examples/test_sgd.c:main", "src/optimizer.c:prepare_shuffle_pivot", "src/neuralnet.c:neuralnet_free", "npy_array/npy_array_list.c:npy_array_list_free"]}
{"id": "C111", "title": "The first example frees all memory it took", "statement": "When main of example_01 returns, every block of the list of arrays and of the network has been freed exactly once, and no other block has been touched.", "quantifier": "every heap, registry, list of at least four arrays, numbers of features and samples, floats written by training", "why_tests_cant": "All heaps and data sets; a leak at the end of the program has no visible effect.", "anchors": ["examples/example_01.c:main", "src/neuralnet.c:neuralnet_create", "src/neuralnet.c:neuralnet_free", "npy_array/npy_array_list.c:npy_array_list_free"]}
