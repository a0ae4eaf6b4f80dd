#!/usr/bin/env python3
# Generates /verif/properties.jsonl (one JSON object per line).
import json, os
P = []
def p(title, statement, quantifier, why, *anchors):
    P.append(dict(id="C%02d" % (len(P)+1), title=title, statement=statement,
                  quantifier=quantifier, why_tests_cant=why, anchors=list(anchors)))

# ---------------------------------------------------------------- inference
p("Prediction computes the documented feed-forward function in every SIMD build",
  "neuralnet_predict writes to the output buffer exactly the composition over layers of activation(bias + input*weight), for a correctly shaped network and a suitably aligned output buffer; the linear part is bit-for-bit the same in the scalar, SSE, AVX and AVX-512 builds (without FMA). It never reads uninitialised memory, never accesses anything out of bounds, and changes no memory other than the n_output floats of the output buffer.",
  "every number of layers, every layer size, every weight/bias/input value, every initial content of memory, every SIMD build",
  "The kernels have up to three loops per operation (16-wide, 8-wide, scalar tail) whose boundaries depend on the sizes; scratch memory is hand-partitioned with padding. Tests sample a few shapes on the one ISA of the test machine.",
  "src/neuralnet.c:neuralnet_predict", "src/matrix_operations.c:vector_matrix_multiply", "src/activation.c")
p("Prediction accepts any output buffer",
  "neuralnet_predict succeeds for every float output buffer of n_output elements, irrespective of its alignment (the documentation states no alignment requirement).",
  "every address of the output buffer and every output layer size",
  "Faults depend on address bits; tests use SIMD_ALIGNed arrays.",
  "src/neuralnet.c:neuralnet_predict", "src/matrix_operations.c:vector_matrix_multiply")
p("Zero input features contribute nothing",
  "In float32 arithmetic an input feature equal to +0 or -0 contributes nothing to the prediction, even if its weights are infinite or NaN, and an input feature equal to 1 contributes exactly its weights: the prediction equals the dense sum over the non-zero features in order.",
  "every float32 input vector, weight matrix and bias including infinities, NaNs and signed zeros",
  "The sparse shortcuts change IEEE semantics only on special values.",
  "src/matrix_operations.c:vector_matrix_multiply")
p("Activation functions compute their mathematical definitions",
  "Each of the built-in activation functions transforms every element of its vector by the corresponding mathematical function (relu, sigmoid, tanh, linear, exponential, softplus, softsign, hard_sigmoid), or the vector by softmax, for all lengths and buffer alignments for which it is defined, and touches nothing beyond the n elements.",
  "every vector length, alignment and real value",
  "Vector body, unaligned prologue and scalar tail are different code for the same function.",
  "src/activation.c:relu", "src/activation.c:sigmoid", "src/activation.c:tanh_act", "src/activation.c:softmax", "src/activation.c:softplus", "src/activation.c:softsign", "src/activation.c:hard_sigmoid", "src/activation.c:exponential", "src/activation.c:linear")
p("Softmax yields a probability distribution",
  "The softmax activation returns strictly positive values that sum to 1, preserves the order of its inputs and is invariant under adding a constant to all inputs.",
  "every non-empty real vector, every build",
  "Needs all vectors; the sum goes through lanes and horizontal adds.",
  "src/activation.c:softmax", "src/activation.c:hsum256_ps_avx", "src/activation.c:hsum_ps_sse3")
p("relu treats an element the same wherever it lies in the vector",
  "The result of relu on an element depends only on the value of the element, not on its position, the vector length or the build.",
  "every float32 value including NaN, every position",
  "Only NaN distinguishes maxps from fmaxf.",
  "src/activation.c:relu")
p("Batch prediction equals per-sample prediction",
  "neuralnet_predict_batch produces for every row i of the input exactly what neuralnet_predict produces for that row, in the OpenMP build for every schedule of the iterations and in the BLAS build through any number of divide-and-conquer splits.",
  "every network, number of samples, data, thread schedule and stack limit",
  "Schedules and split points are not enumerable; tests use few rows.",
  "src/neuralnet_predict_batch.c:neuralnet_predict_batch")
p("Batch prediction terminates",
  "neuralnet_predict_batch (BLAS build) terminates for every network and every number of samples.",
  "every network width and sample count",
  "Non-termination needs a network wider than the stack limit.",
  "src/neuralnet_predict_batch.c:neuralnet_predict_batch")
p("Batch prediction accepts every network shape",
  "In the OpenMP build neuralnet_predict_batch into an aligned output matrix causes no alignment fault for any network shape.",
  "every output size and sample count",
  "Depends on output row stride modulo the register width.",
  "src/neuralnet_predict_batch.c:neuralnet_predict_batch")
# ---------------------------------------------------------------- vector kernels
p("Vector kernels compute their documented formula for every length",
  "vector_accumulate, vector_accumulate_unaligned, vector_scale, vector_divide_by_scalar, vector_saxpy, vector_saxpby and vector_square_elements set exactly the first n elements to the documented element-wise formula, read and write nothing else, and return bit-identical results in the scalar, AVX and AVX-512 builds.",
  "every length, every value, every build, every sufficiently aligned pair of non-overlapping buffers",
  "Loop boundaries and tails at every residue class.",
  "src/matrix_operations.c")
p("Matrix kernels compute products for every shape",
  "matrix_vector_multiply adds (AVX-512: stores) the exact matrix-vector product and vector_vector_outer stores the outer product into a zeroed matrix, for every shape, in every build, in exact arithmetic; outside the result nothing changes.",
  "every number of rows and columns, every build",
  "Reduction through lanes and three loops.",
  "src/matrix_operations.c:matrix_vector_multiply", "src/matrix_operations.c:vector_vector_outer", "src/matrix_operations.c:horizontalsum_avx")
# ---------------------------------------------------------------- parameters
p("Parameter vector layout is one and the same everywhere",
  "neuralnet_get_parameters writes exactly neuralnet_total_n_parameters floats: for each layer from input to output its biases and then its weights in row-major order; neuralnet_update and the gradient of neuralnet_backpropagation use the same order.",
  "every network",
  "Index arithmetic over arbitrary layer lists.",
  "src/neuralnet.c:neuralnet_get_parameters", "src/neuralnet.c:neuralnet_update", "src/neuralnet.h:neuralnet_total_n_parameters")
p("Updating adds the delta to every parameter",
  "After neuralnet_update(nn, d) neuralnet_get_parameters returns, at every index, the old value plus d at this index (float addition); sizes and activations are unchanged.",
  "every network and delta vector, every build",
  "All shapes.",
  "src/neuralnet.c:neuralnet_update", "src/matrix_operations.c:vector_accumulate_unaligned")
p("Undoing an update restores the parameters",
  "neuralnet_update(nn, d) followed by neuralnet_update(nn, -d) restores the parameters (tests/test_backpropagation.c relies on this).",
  "every network and delta",
  "Rounding breaks it only on some values.",
  "src/neuralnet.c:neuralnet_update", "tests/test_backpropagation.c")
# ---------------------------------------------------------------- gradient
p("Loss functions are the derivatives of the metrics of the same name",
  "For every loss name, the vector computed by the loss function is the gradient with respect to the prediction of the metric with that name (for the crossentropies: with respect to the logits of the matching output activation).",
  "every output size, prediction and target (where the metric is differentiable)",
  "Calculus over all reals.",
  "src/loss.c", "src/metrics.c")
p("Backpropagation computes the exact gradient",
  "In exact arithmetic neuralnet_backpropagation stores, for every parameter, the partial derivative of the loss at (input, target) with respect to that parameter, in parameter order, for every network with differentiable activations.",
  "every depth, all layer sizes, all activations other than softmax in hidden layers, all parameters, inputs and targets away from kinks",
  "Numerical gradient checks have tolerance 1e-2 on one architecture.",
  "src/neuralnet.c:neuralnet_backpropagation", "src/activation.c", "src/loss.c")
p("Backpropagation is a function of network, input and target only",
  "neuralnet_backpropagation writes exactly the n_parameters floats of the gradient buffer; the result does not depend on the previous content of the buffer or of any scratch memory and nothing else changes.",
  "every network, previous buffer content and build, for aligned layouts",
  "Kernels accumulate into (+=) and skip rows of the buffer; relies on zeroing and on hand-partitioned scratch memory.",
  "src/neuralnet.c:neuralnet_backpropagation")
p("Backpropagation works for every network shape",
  "neuralnet_backpropagation with an aligned gradient buffer causes no alignment fault for any network shape in the AVX builds.",
  "every list of layer sizes and activations",
  "Offsets of the gradient of a layer depend on all earlier sizes.",
  "src/neuralnet.c:neuralnet_backpropagation", "src/activation.c:sigmoid_derivative", "src/activation.c:relu_derivative", "src/activation.c:tanh_act_derivative")
p("Softmax is differentiated correctly wherever it is used",
  "The gradient is correct for networks that use softmax in a hidden layer or with a loss other than categorical_crossentropy.",
  "every such network",
  "Silent wrong numbers.",
  "src/activation.c:softmax_derivative", "src/neuralnet.c:neuralnet_set_loss")
p("Setting the loss depends only on the last call",
  "After any sequence of neuralnet_set_loss calls, the loss function and all layer derivatives are determined by the network and the last call if its name is known; with an unknown name the loss becomes unset.",
  "every network and every sequence of loss names",
  "Histories.",
  "src/neuralnet.c:neuralnet_set_loss")
# ---------------------------------------------------------------- optimizer
p("Shuffling permutes the sample order",
  "The shuffle leaves the pivot array a permutation of its previous content for every outcome of the random generator, never accesses outside of the array for n >= 1, and every permutation is produced by exactly one sequence of draws (hence uniform if draws are uniform).",
  "every length and every sequence of rand() results",
  "n! permutations.",
  "src/optimizer.c:fisher_yates_shuffle")
p("Each epoch works on a valid sample order",
  "Before each epoch the pivot array of the optimizer holds a permutation of 0..n_train_samples-1.",
  "every history of optimizer_run_epoch calls with arbitrary sample counts on arbitrarily many optimizers",
  "Function-static state couples optimizers and calls.",
  "src/optimizer.c:prepare_shuffle_pivot", "src/optimizer.c:optimizer_run_epoch")
p("An epoch uses every training sample exactly once",
  "The batches of one epoch partition the training samples: batch sizes are batchsize except for the last one, the number of batches is ceil(n/batchsize), every sample contributes to exactly one batch gradient, and the epoch loop terminates.",
  "every n_train_samples, batchsize > 0 and pivot",
  "All residues and orders.",
  "src/optimizer.c:optimizer_calc_batch_gradient", "src/SGD.c:SGD_run_epoch")
p("Batch gradient is the mean of the sample gradients under every schedule",
  "optimizer_calc_batch_gradient returns the arithmetic mean of the gradients of the samples of the batch for every assignment of iterations to threads and every order in which thread results are combined (exact arithmetic).",
  "every batch, thread count, static/dynamic assignment and combination order",
  "Schedules.",
  "src/optimizer.c:optimizer_calc_batch_gradient")
p("Training is reproducible bit for bit",
  "The float32 batch gradient does not depend on the OpenMP schedule.",
  "every schedule",
  "Needs specific rounding and schedule.",
  "src/optimizer.c:optimizer_calc_batch_gradient")
p("Batch gradient writes only the gradient buffer",
  "optimizer_calc_batch_gradient writes only the n_parameters floats of the batch gradient array supplied by the optimizers.",
  "every network",
  "Silent stack corruption that depends on the compiler's stack layout.",
  "src/optimizer.c:optimizer_calc_batch_gradient")
p("SGD follows the textbook recurrence",
  "For every sequence of batches SGD performs theta <- theta - lr*g, with momentum v <- mu*v - lr*g, theta <- theta + v, with Nesterov momentum v' = mu*v - lr*grad(theta+mu*v), theta <- theta + v'.",
  "every network, hyperparameters, number of batches",
  "Histories of arbitrary length.",
  "src/SGD.c:SGD_run_epoch")
p("RMSprop follows its recurrence",
  "r <- rho*r + (1-rho)*g^2; delta = -lr*g/(eps+sqrt r); with (Nesterov) momentum v <- mu*v + delta applied as documented for SGD.",
  "every history of batches and hyperparameters", "Histories.", "src/RMSprop.c:RMSprop_run_epoch")
p("Adagrad follows its recurrence",
  "r <- r + g^2, theta <- theta - lr*g/(eps + sqrt r); r after t batches is the sum of the squared gradients, hence the effective step sizes never grow.",
  "every history of batches", "Histories.", "src/adagrad.c:adagrad_run_epoch")
p("Adam(W) follows its recurrence with correct bias correction",
  "The t-th update of an Adam optimizer is -lr * mhat/(sqrt(vhat)+eps) - wd*theta with mhat = m_t/(1-beta1^t), vhat = v_t/(1-beta2^t).",
  "every history of batches, any number of Adam optimizers in the process",
  "Bias correction lives in function-static variables shared by all instances and never reset.",
  "src/adam.c:adam_run_epoch")
p("Learning-rate decay",
  "With decay d > 0 the learning rate used for the t-th batch is lr0 / (1 + d*t) (time-based decay as in Keras, which the defaults mirror).",
  "every t, lr0, decay", "Compounding only shows from the third batch on.", "src/SGD.c:SGD_run_epoch", "src/adagrad.c", "src/RMSprop.c")
# ---------------------------------------------------------------- evaluation
p("evaluate reports the mean of each metric under every schedule",
  "evaluate stores for each metric of the NULL terminated list the mean over all samples of the metric of the prediction (exact arithmetic), for every OpenMP schedule, and writes exactly n_metrics results.",
  "every network, data set of at least one sample, metric list, schedule", "Schedules.", "src/evaluate.c:evaluate")
p("Epoch results layout",
  "optimizer_run_epoch writes the training metrics at 0..n_metrics-1 and, if and only if validation data is given, the validation metrics at n_metrics..2*n_metrics-1, evaluated on the network after the epoch; other entries are untouched.",
  "every optimizer, data sets", "All combinations.", "src/optimizer.c:optimizer_run_epoch")
p("Metrics compute their definitions",
  "mean squared, absolute and absolute percentage error are non-negative and zero iff prediction equals target; categorical_accuracy is 1 iff the first maxima of prediction and target coincide; binary_accuracy is the fraction of outputs whose rounded prediction equals the rounded clipped target; crossentropies are finite for every prediction, even outside of [0,1].",
  "every n >= 1 and all vectors", "All reals.", "src/metrics.c")
# ---------------------------------------------------------------- callbacks
p("Early stopping stops exactly when patience is exhausted",
  "With one early stopping callback, the stop flag is set after an epoch iff at some point more than `patience` consecutive epochs brought no strict improvement of the monitored result over the best so far; once set it stays set.",
  "every sequence of epoch results, patience, direction, monitor index",
  "Histories of arbitrary length.",
  "src/earlystopping.c:earlystopping_callback_run", "src/earlystopping.c:earlystopping_do_stop")
p("Early stopping callbacks are independent",
  "The stop flag of an early stopping callback depends only on the results this callback was run with.",
  "every interleaving of runs of several callbacks", "Function-static state.", "src/earlystopping.c:earlystopping_callback_run")
p("The checkpoint file holds the best network seen",
  "With one model checkpoint callback (and writes that succeed) the file always holds the network at the epoch with the best monitored score so far (first among equals); it is written only on strict improvement.",
  "every sequence of epochs", "Histories.", "src/modelcheckpoint.c:modelcheckpoint_callback_run")
p("Logger resumes the epoch count",
  "A new logger on an existing log file continues with the last logged epoch plus one.",
  "every log file written by the logger (any number of lines, any epoch numbers, metrics)",
  "Depends on file sizes around the 255 byte window.",
  "src/logger.c:find_last_epoch_from_logfile", "src/logger.c:logger_callback_run")
p("Logging never overruns the line buffer",
  "The logger callback writes at most MAX_BUFFER characters for any number of metrics.",
  "every metric list", "sprintf overflow happens before the assert.", "src/logger.c:logger_callback_run")
# ---------------------------------------------------------------- persistence
p(".npy header is well formed",
  "The header produced for an array consists of the magic, version 1.0, the little-endian length and the dictionary, is newline terminated, and its total length is a multiple of 64.",
  "every array description accepted (dictionary shorter than 108 characters)", "All shapes.", "npy_array/npy_array.c:npy_array_get_header")
p(".npy save/load round trip",
  "npy_array_load of a file written by npy_array_save returns the same shape, type, element size, order and data bytes.",
  "every array with at most 7 positive dimensions below 2^31 and every data content", "All arrays.", "npy_array/npy_array.c:npy_array_save", "npy_array/npy_array.c:_read_matrix")
p("Every valid version 1 header is readable",
  "A version 1.0 .npy file is loaded irrespective of the length of its header.",
  "every header length below 65536", "Own files always have length 118.", "npy_array/npy_array.c:_read_matrix")
p("Empty and 8-dimensional arrays round trip",
  "Arrays with a zero dimension and arrays of NPY_ARRAY_MAX_DIMENSIONS dimensions are saved and loaded faithfully.",
  "every shape", "Corner shapes.", "npy_array/npy_array.c:npy_array_calculate_datasize", "npy_array/npy_array.c:_read_matrix")
p("Truncated .npy files are rejected",
  "If writing a .npy file is cut short at any byte, npy_array_load returns NULL (and does not read uninitialised memory); likewise npy_array_mmap.",
  "every array and every crash point", "All prefixes.", "npy_array/npy_array.c:_read_matrix", "npy_array/npy_array.c:read_mapped")
p(".npz save/load round trip",
  "npy_array_list_load of an archive written by npy_array_list_save returns the arrays in order with their names, and the return value of save is the number of arrays in the archive.",
  "every list of arrays", "Name clashes, long names, names with format characters.", "npy_array/npy_array_list.c:npy_array_list_save_compressed", "npy_array/npy_array_list.c:npy_array_list_load")
p("Requested compression is applied",
  "npy_array_list_save_compressed stores every member with the requested compression method.",
  "every list", "Not visible by loading.", "npy_array/npy_array_list.c:npy_array_list_save_compressed")
p("Network save/load round trip",
  "neuralnet_load of a file written by neuralnet_save yields a network with the same layer sizes, bit-identical weights and biases and the same activation functions; hence identical predictions.",
  "every network with registered activations", "All networks.", "src/neuralnet.c:neuralnet_save", "src/neuralnet.c:neuralnet_load")
p("The activation name array may be stored anywhere",
  "neuralnet_load gives the same network wherever the array of activation names is placed among the other arrays.",
  "every network file and position", "All positions.", "src/neuralnet.c:neuralnet_load", "README.md")
p("Malformed network files are rejected safely",
  "neuralnet_load either returns NULL or a network whose parameters come from the file, without memory errors, for every readable archive.",
  "every list of arrays in an archive", "Heap overflows on inconsistent shapes, wrong element size, missing activations.", "src/neuralnet.c:neuralnet_load")
p("Linked lists of arrays",
  "append adds at the end, prepend at the front, length counts, and freeing a list releases every array exactly once.",
  "every list", "All lengths.", "npy_array/npy_array_list.c")
# ---------------------------------------------------------------- creation
p("Network creation validates its arguments",
  "neuralnet_create returns NULL if the number of layers or one of the sizes is below 1 and otherwise (memory available) a network whose layer i maps sizes[i] to sizes[i+1] with the named activation, linear for NULL or unknown names, and no loss.",
  "every argument", "All arguments.", "src/neuralnet.c:neuralnet_create")
p("Creation survives allocation failure",
  "If any allocation fails, neuralnet_create returns NULL, frees what it allocated and touches nothing else.",
  "every allocation failure point", "Crash points.", "src/neuralnet.c:_weights_memory_allocate", "src/neuralnet.c:_weights_memory_free")
p("Size arithmetic does not overflow",
  "Creating a network of accepted sizes performs no signed overflow and allocates enough memory.",
  "every pair of int sizes", "Needs huge sizes.", "src/neuralnet.c:_weights_memory_allocate", "src/neuralnet.h:neuralnet_total_n_parameters")
p("Initialisation ranges",
  "neuralnet_initialize sets all biases to 0; Xavier weights lie in [-s, s], where s is the float that sqrtf(6/(n_in+n_out)) gives, at most 2^-22 above the exact root (relative); the method is the requested one or else determined by the activation as documented; every weight is set.",
  "every network, initializer list and rand() stream", "All streams.", "src/neuralnet.c:neuralnet_initialize", "src/neuralnet.c:random_uniform")
p("Kaiming initialisation yields finite weights",
  "random_normal returns a finite value for every rand() stream.",
  "every stream for which it terminates", "Probability about 1e-15 per draw.", "src/neuralnet.c:random_normal")
p("Activation registry round trip",
  "get_activation_func(get_activation_name(f)) = f for every function obtained by name, including functions loaded from shared objects, after any sequence of lookups; the derivative found belongs to the function.",
  "every sequence of lookups", "Histories; registry is a growing global list.", "src/activation.c:get_activation_func", "src/activation.c:get_activation_name", "src/activation.c:get_activation_derivative")
p("SIMD exponential is accurate",
  "exp256_ps approximates exp within a small relative error on its whole (clamped) range, in exact arithmetic, so vectorised and scalar sigmoid/softmax/tanh agree up to this error.",
  "every real input", "All reals.", "src/activation.c:exp256_ps")
p("Progress bar has constant width",
  "progress_ascii prints exactly w characters between the brackets for every 0 <= x <= n, n > 0, and ends the line exactly at x = n.",
  "every x, n, terminal width", "Rounding of x/n.", "src/progress.c:progress_ascii")
# ---------------------------------------------------------------- creation of optimizers
p("An optimizer without metrics reports its own loss",
  "An optimizer created without metrics reports the metric of the loss of its network; an optimizer created with metrics reports these; creating further optimizers does not change what an optimizer reports.",
  "every sequence of creations", "A static array is shared by all optimizers of the process.", "src/optimizer.c:optimizer_check_sanity", "src/optimizer.h:OPTIMIZER_DEFINE")
p("Optimizers own zeroed state and free it",
  "The constructors allocate state arrays of one float per parameter, all 0.0f, in new blocks, and leave other memory alone; a network without a loss or a batch size below 1 is refused by an assertion; no memory for the struct gives NULL, no memory for an array fails an assertion; optimizer_free frees every block of the optimizer once, with or without a sample order, and nothing else.",
  "every kind, network, batch size and failing allocation", "All failure points.", "src/optimizer.h:OPTIMIZER_DEFINE", "src/optimizer.h:optimizer_free", "src/SGD.c:SGD_optimizer_init", "src/RMSprop.c:RMSprop_optimizer_init", "src/adagrad.c:adagrad_optimizer_init", "src/adam.c:adam_optimizer_init")
# ---------------------------------------------------------------- rounding
p("A float32 prediction is close to the exact one",
  "For every network with finite parameters, every finite input, every build and every libm that is accurate to a few units in the last place, if the sums of the magnitudes stay in range, the prediction is finite and differs from the exact prediction by at most ((1+2^-24)^K - 1) times the prediction of the network of magnitudes plus a term for underflow and libm, where K counts the roundings on a path; so two builds differ by at most twice that.",
  "every network, parameters, input and build", "All floats; rounding errors accumulate over layers.", "src/neuralnet.c:neuralnet_predict", "src/matrix_operations.c:vector_matrix_multiply", "src/activation.c:softsign", "src/activation.c:hard_sigmoid", "src/activation.c:sigmoid", "src/activation.c:tanh_act", "src/activation.c:softmax")
# ---------------------------------------------------------------- integer arithmetic
p("Samples of large data sets are addressed correctly",
  "For every data set and network that fits in memory the integer arithmetic of training, evaluation, batch prediction and prediction is exact: every sample is used, row k is read at k * n_input, no signed overflow.",
  "every number of samples, sizes of layers, sample order and batch size", "Needs gigabytes of data.", "src/optimizer.c:optimizer_calc_batch_gradient", "src/SGD.c:SGD_run_epoch", "src/evaluate.c:evaluate", "src/neuralnet_predict_batch.c:neuralnet_predict_batch", "src/neuralnet.c:neuralnet_predict")
# ---------------------------------------------------------------- CBLAS build
p("The CBLAS kernels compute the same as the built-in kernels",
  "In exact arithmetic every kernel of matrix_operations.c has the same outcome compiled with USE_CBLAS as without, for all arguments.",
  "every size, content and memory layout, every build", "Two builds; needs all contents of the output array.", "src/matrix_operations.c:matrix_vector_multiply", "src/matrix_operations.c:vector_vector_outer", "src/matrix_operations.c:vector_matrix_multiply", "src/matrix_operations.c:vector_accumulate", "src/matrix_operations.c:vector_saxpy", "src/matrix_operations.c:vector_saxpby")
p("Prediction and gradient do not depend on USE_CBLAS",
  "In exact arithmetic neuralnet_predict and neuralnet_backpropagation compiled with USE_CBLAS have the same outcome as without: the prediction is the feed-forward function and the gradient consists of the partial derivatives of the loss.",
  "every network, input, target and memory layout, every build", "All networks, two builds.", "src/neuralnet.c:neuralnet_predict", "src/neuralnet.c:neuralnet_backpropagation", "src/matrix_operations.c:vector_matrix_multiply")
# ---------------------------------------------------------------- arbitrary .npy files
p("What is not a version 1 .npy file is refused",
  "npy_array_load and npy_array_mmap return NULL, without any other effect, for every file that has fewer than 10 bytes (mmap: that is empty) or that does not begin with the magic string and major version 1, whatever its other bytes are.",
  "every file content", "All byte strings.", "npy_array/npy_array.c:_read_matrix", "npy_array/npy_array.c:npy_array_load", "npy_array/npy_array.c:npy_array_mmap")
p("A loaded array has the data its dimensions promise",
  "For every file, whatever its bytes: if npy_array_load returns an array, its data is a part of the file behind the header, and has as many bytes as the product of the dimensions times the element size.",
  "every file content", "All byte strings; headers with huge dimensions.", "npy_array/npy_array.c:_read_matrix", "npy_array/npy_array.c:npy_array_calculate_datasize")
# ---------------------------------------------------------------- activations in float32
p("exp256_ps has a relative error of at most 4e-7 in float32",
  "With every operation rounded to float32, exp256_ps returns a finite number that is not negative for every input, and one with a relative error of at most 4e-7 wherever exp(x) is a float.",
  "every float", "2^32 inputs in 8 lanes; worst cases are rare.", "src/activation.c:exp256_ps")
p("Activation functions are accurate in float32",
  "In every build and at every address each element that an activation function writes is finite and within a small bound of the mathematical function of the finite input: 23e-8 for sigmoid, 6e-7 for tanh, (3n+20)/2^24 for softmax of n elements, whether it was computed in vector registers or not, if libm is accurate.",
  "every finite input vector, length, address and build", "All floats and lengths.", "src/activation.c:sigmoid", "src/activation.c:tanh_act", "src/activation.c:softmax", "src/activation.c:exp256_ps", "src/activation.c:relu", "src/activation.c:softplus", "src/activation.c:softsign", "src/activation.c:hard_sigmoid", "src/activation.c:exponential")
p("A NaN is passed on by the activation functions",
  "If element j of the input of an activation function is NaN, element j of the output is NaN, in every build.",
  "every input vector, position and build", "Depends on position and build.", "src/activation.c:sigmoid", "src/activation.c:tanh_act", "src/activation.c:softmax", "src/activation.c:exp256_ps")
p("Losses and metrics are found by their names",
  "get_loss_func and get_metric_func find exactly the documented names, get_loss_name and get_metric_name return the long name, and each name of a loss is a name of the metric that belongs to it.",
  "every string", "Every string that is not a name.", "src/loss.c:get_loss_func", "src/loss.c:get_loss_name", "src/metrics.c:get_metric_func", "src/metrics.c:get_metric_name")
# ---------------------------------------------------------------- memory safety of the header parser
p("Reading a .npy file never leaves its buffers",
  "Whatever the bytes of the file are, npy_array_load and npy_array_mmap never read outside the header they have allocated or mapped: they return an array, return NULL or stop at an assertion.",
  "every file content", "All byte strings; the reads are a few bytes outside and go unnoticed.", "npy_array/npy_array.c:_read_matrix", "npy_array/npy_array.c:npy_array_load", "npy_array/npy_array.c:npy_array_mmap")
# ---------------------------------------------------------------- descent
p("A small enough step of each optimizer lowers the loss",
  "In exact arithmetic: unless all partial derivatives of the mean loss of a batch are 0, there is a bound such that an epoch consisting of this batch lowers the mean loss for every learning rate below it. This holds for SGD and RMSprop without momentum or in the first step, for Adagrad, and for the first step of Adam without weight decay.",
  "every network, batch and parameter vector at which the losses are differentiable, every schedule of the threads and build", "There is a bound for each of infinitely many networks; a wrong sign in one component may still lower the loss in a test.", "src/SGD.c:SGD_run_epoch", "src/RMSprop.c:RMSprop_run_epoch", "src/adagrad.c:adagrad_run_epoch", "src/adam.c:adam_run_epoch", "src/optimizer.c:optimizer_calc_batch_gradient")
# ---------------------------------------------------------------- OpenMP
p("The parallel loops and sections do not race",
  "Two iterations of the OpenMP loop over the rows of a batch (prediction), over the samples of a batch (gradient) or over the samples (evaluate), and the two sections of Adam, never write what the other one reads or writes; so they may run at the same time.",
  "every pair of iterations, every network, batch and build", "Races show up rarely and depend on the schedule.", "src/neuralnet_predict_batch.c:neuralnet_predict_batch", "src/optimizer.c:optimizer_calc_batch_gradient", "src/evaluate.c:evaluate", "src/adam.c:adam_run_epoch", "src/neuralnet.c:neuralnet_predict")
# ---------------------------------------------------------------- settings
p("A new optimizer trains with the settings it was given",
  "An optimizer created with any list of settings has the last value given for each setting and the documented default for the others; its state arrays are zero, and its epochs follow the documented recurrence with these values, starting from the first one.",
  "every list of settings, network, data set and number of epochs", "All combinations of settings; a swapped field shows only in the numbers.", "src/SGD.c:SGD_optimizer_init", "src/RMSprop.c:RMSprop_optimizer_init", "src/adagrad.c:adagrad_optimizer_init", "src/adam.c:adam_optimizer_init", "src/SGD.h:SGD_PROPERTIES", "src/adam.h:ADAM_PROPERTIES")
p("A logger can be started on every text file",
  "logger_new with the name of any existing text file (no NUL characters) returns a logger; the program does not read outside its buffer or dereference NULL.",
  "every content of the file", "All texts; a note behind the last entry is enough.", "src/logger.c:find_last_epoch_from_logfile")
p("A new callback works with the settings it was given",
  "A callback created with any list of settings has the last value given for each setting and the documented default for the others, and acts by them; without memory the constructor returns NULL and changes nothing; freeing a callback releases exactly the block of its constructor.",
  "every list of settings, sequence of results and heap", "All combinations of settings.", "src/callback.h:CALLBACK_DEFINE", "src/callback.h:callback_free", "src/earlystopping.h:EARLYSTOPPING_SETTINGS", "src/modelcheckpoint.h:MODELCHECKPOINT_SETTINGS", "src/logger.h:LOGGER_SETTINGS")
# ---------------------------------------------------------------- termination
p("Prediction, training and evaluation end for every data",
  "No loop of the activation functions, losses, metrics, of prediction, backpropagation, of the four optimizers (batch size at least 1) or of evaluate runs for ever, whatever the memory contains: NaN, infinities, arrays that are too short or wrong pointers; the calls return or fault.",
  "every memory, network, size, sample order, thread schedule and build", "A loop that never ends for one input in 2^32 is not met by tests.", "src/activation.c:softmax", "src/neuralnet.c:neuralnet_predict", "src/neuralnet.c:neuralnet_backpropagation", "src/optimizer.c:optimizer_calc_batch_gradient", "src/SGD.c:SGD_run_epoch", "src/adam.c:adam_run_epoch", "src/evaluate.c:evaluate")

# ---------------------------------------------------------------- rounding errors of the gradient
p("A float32 gradient is close to the exact one",
  "In every build neuralnet_backpropagation writes finite components, each within a stated bound of the exact partial derivative of the loss, computed from the magnitudes of parameters, input and target; so two builds differ by at most twice the bound, and a component whose exact value exceeds the bound has the right sign.",
  "every network, finite input and target, every build", "All networks and floats; the summation order differs between builds.", "src/neuralnet.c:neuralnet_backpropagation", "src/activation.c", "src/loss.c", "src/matrix_operations.c:matrix_vector_multiply", "src/matrix_operations.c:vector_vector_outer")
p("A float32 step of gradient descent is close to the exact one",
  "With every operation rounded to float32, the batch gradient is within an explicit bound of the partial derivatives of the mean loss, whatever the schedule of the threads; the parameters, the velocity and the learning rate after one batch of SGD, with or without (Nesterov) momentum and decay, are within explicit bounds of the exact rule; and without momentum the move goes downhill whenever the exact step exceeds these bounds.",
  "every network, finite parameters, velocity, settings and batch in range, every schedule of the threads and build", "All floats and batches; needs the exact derivatives.", "src/SGD.c:SGD_run_epoch", "src/optimizer.c:optimizer_calc_batch_gradient", "src/neuralnet.c:neuralnet_backpropagation", "src/neuralnet.c:neuralnet_update", "src/matrix_operations.c:vector_scale", "src/matrix_operations.c:vector_divide_by_scalar", "src/matrix_operations.c:vector_accumulate")
p("No step of Adagrad or RMSprop is longer than the learning rate allows",
  "With every operation rounded to float32, one batch of Adagrad moves each finite parameter by at most the learning rate, one of RMSprop by at most the learning rate over sqrt(1 - rho) (with momentum: by the velocity, which grows by at most that much), up to rounding, or makes it NaN; the accumulated squares never become negative and the learning rate never grows. If the gradient is in the range of C79, no parameter, velocity or accumulated square becomes NaN.",
  "every network, data, parameters and states (also with overflow, infinities and NaN in gradients and squares), every schedule of the threads and build", "All floats; the square root of a huge or vanishing square is met by chance only.", "src/adagrad.c:adagrad_run_epoch", "src/adagrad.c:accumulate_squared_gradient", "src/adagrad.c:compute_update", "src/RMSprop.c:RMSprop_run_epoch", "src/RMSprop.c:compute_update", "src/matrix_operations.c:vector_square_elements")
p("A float32 evaluation is close to the exact one",
  "In every build and for every schedule of the threads, the mean of each of the seven metrics that evaluate stores is finite and within an explicit bound, computed from the magnitudes of parameters, inputs and targets, of the exact mean of this metric over the samples; so two builds or schedules differ by at most twice the bound.",
  "every network, finite parameters and samples in range, every list of metrics, every schedule of the threads and build", "All networks and floats; the order of the sum differs from run to run.", "src/evaluate.c:evaluate", "src/metrics.c", "src/neuralnet.c:neuralnet_predict")
p("Adam treats a component the same wherever it lies in the vector",
  "Two components of the parameter vector with equal gradients and equal moments get equal second moments and equal steps from Adam, wherever they lie in the vector and in every build.",
  "every vector length, gradient, state, pair of positions and build", "Needs equal components in the vector loop and in the scalar tail, and gradients whose square is out of range.", "src/adam.c:update_biased_first_moment", "src/adam.c:update_biased_second_moment", "src/adam.c:compute_update_adam")
p("A parameter stays trainable after a batch with a huge gradient",
  "If all data, parameters and settings are finite, then whatever batches Adagrad or RMSprop have seen, later batches with ordinary gradients still move the parameters.",
  "every sequence of epochs, data, network, schedule of the threads and build", "Needs all continuations of a training run, and a gradient whose square overflows.", "src/adagrad.c:adagrad_run_epoch", "src/adagrad.c:accumulate_squared_gradient", "src/adagrad.c:compute_update", "src/RMSprop.c:RMSprop_run_epoch", "src/RMSprop.c:compute_update")
p("npy_array_dump prints every loaded array",
  "npy_array_dump prints the number of dimensions, every dimension, the type, the element size and the order of every array that npy_array_load returns, and reads nothing outside of the array shape.",
  "every array", "A read in front of an array goes unnoticed; needs all shapes.", "npy_array/npy_array.c:npy_array_dump")
p("Freeing a mapped array restores the address space",
  "After npy_array_mmap and npy_array_free exactly the same pages are mapped as before, whatever file was mapped; when npy_array_mmap returns NULL nothing stays mapped.",
  "every file, address and address space", "Pages of others that are unmapped crash later and elsewhere, depending on the layout of the address space.", "npy_array/npy_array.c:npy_array_mmap", "npy_array/npy_array.c:npy_array_free", "npy_array/npy_array.c:npy_array_calculate_datasize")
p("No step of Adam is longer than the learning rate allows",
  "With every operation rounded to float32, one batch of Adam moves each finite parameter by at most lr * A * sqrt(1 - beta2^t) / (1 - beta1^t) plus the weight decay, up to rounding, whatever the gradients are; A depends on beta1 and beta2 only (7.3 for the default settings). A parameter becomes NaN only if its second moment has overflowed. The two moments keep the proportion on which this rests, and the powers in the bias correction are the rounded products.",
  "every network, data, parameters and moments in proportion (also with overflow, infinities and NaN in the gradients), every schedule of the threads and build", "All floats and gradient histories; the worst history is a long silence followed by a large gradient.", "src/adam.c:adam_run_epoch", "src/adam.c:update_biased_first_moment", "src/adam.c:update_biased_second_moment", "src/adam.c:compute_update_adam")
p("Each checkpoint callback keeps its own best network",
  "If several model checkpoint callbacks with different files are run in a process, each of them saves the network in exactly the epochs whose score, the one that this callback monitors, improves on all epochs before.",
  "every list of callbacks, sequence of calls and scores", "Needs two callbacks with different scores; the effect depends on the order of their scores.", "src/modelcheckpoint.c:modelcheckpoint_callback_run")
p("A training run leaves each parameter within reach of its start",
  "With every operation rounded to float32, N batches of Adagrad, RMSprop or Adam in any number of epochs move a finite parameter x by at most f^N (|x| + N S) - |x|, whatever the data and gradients are. S is the longest step: the learning rate (Adagrad), the learning rate over sqrt(1 - rho) (RMSprop; with momentum the velocity, which stays below every V with mu V + S <= V), lr * A / sqrt(1 - beta1) (Adam), all up to rounding; f is 1 + 3 * 2^-24, for Adam times 1 + weight decay. Or the parameter becomes NaN, with Adam only if its second moment has overflowed.",
  "every network, data, sequence of epochs, parameters and moments in proportion, every schedule of the threads and build", "All training runs of every length.", "src/adam.c:adam_run_epoch", "src/adam.c:update_biased_first_moment", "src/adam.c:update_biased_second_moment", "src/adam.c:compute_update_adam", "src/adagrad.c:adagrad_run_epoch", "src/adagrad.c:compute_update", "src/RMSprop.c:RMSprop_run_epoch", "src/RMSprop.c:compute_update")
p("The training program takes every option of its command line",
  "For every command line of the training program, with the options in any order, written in any of the four ways of getopt_long (-t x, -tx, --trainset x, --trainset=x, also abbreviated) and other words in between, each setting is the last value given for its option, and the default if it is not given. A word that is not an option, or an option without a value, ends the program with exit code 1.",
  "every command line", "The number of command lines is unbounded; the effect of an unusual one is rarely looked at.", "examples/general-trainer.c:main")
p("The training program stops early when asked to",
  "With the option -e n,i,g the training program stops when the monitored result has not improved for n epochs; otherwise it runs ten epochs.",
  "every command line, data and network, every sequence of results", "Whether the training stops depends on the results of all epochs.", "examples/general-trainer.c:main")
p("The training program saves the best network and logs every epoch",
  "A run of the training program saves the network to checkpoint.npz behind exactly those epochs whose validation loss is lower than in all epochs before, and appends one line for each epoch to the log file, with the number of the epoch and the values of all metrics for both sets.",
  "every run that reaches its end", "All command lines, archives and sequences of results.", "examples/general-trainer.c:main")
p("The training program works on proper files",
  "Given a proper command line, archives of samples that fit the network, an archive of a network, a known loss and optimizer and enough memory, the training program runs ten epochs with exactly these data, this network and these settings, and ends without any illegal access.",
  "every command line, archive, number of samples and network", "All sizes, layouts of archives and ways to write the options.", "examples/general-trainer.c:main")
p("The training program frees what it has allocated",
  "At the end of a run of the training program every block that it has allocated is freed.",
  "every run with proper files", "A leak has no effect on the output.", "examples/general-trainer.c:main")
p("The training program rejects data that do not fit",
  "Data files that can be read but do not fit the network or the expected layout end the training program in a failed check; they never cause an access outside of the arrays.",
  "every pair of archives, every network", "All possible archives.", "examples/general-trainer.c:main")
p("Arrays without a name get one in the archive",
  "If elements of a list have no name, saving the list stores each of them, in the archive and in the element, under the name arr_<n>.npy with its position n in the list, counted from 0; the other elements keep their names. Loading the archive gives the same arrays in the same order under these names.",
  "every list with any elements unnamed, provided that the names that result are distinct", "All lists and all patterns of missing names.", "npy_array/npy_array_list.c:npy_array_list_save_compressed", "npy_array/npy_array_list.c:_new_internal_filename")
p("The idx reader returns the images of the file",
  "Reading an idx file of n images with r rows and c columns gives n, r * c and an array with one float for each byte of the file in the same order, the byte divided by 255 and rounded once.",
  "every number and size of images, every content", "All files.", "examples/example_03.c:read_idx_features", "examples/example_03.c:read_uint_big_endian")
p("The idx reader turns labels into one-hot rows",
  "Reading an idx file of n labels below the number of targets gives n and an array of n rows in which the element at the label is 1 and every other one is 0.",
  "every number of labels and targets, every content", "All files.", "examples/example_03.c:read_idx_labels", "examples/example_03.c:read_uint_big_endian")
p("A damaged data file is refused by the MNIST program",
  "Idx files that are damaged, too short or do not fit together are refused; the program never uses bytes that are not in the file and never writes or reads outside of its arrays.",
  "every four files", "All files.", "examples/example_03.c:main", "examples/example_03.c:read_idx_features", "examples/example_03.c:read_idx_labels")
p("The custom activation function is a scaled sigmoid with its slope",
  "With a macro constant that stands for k, |k| <= 1/4, and an accurate expf, every finite element y becomes a finite float within 3e-7 of 1 / (1 + exp(-k y)), whatever its size. The derivative function multiplies by k a (1 - a) with a relative error of at most 1.3e-7 and an absolute one of at most 2^-149; this factor is the slope of the curve at the value a.",
  "every array of finite floats, every accurate expf, activations in [0, 1], incoming values up to 2^100", "All floats and arrays.", "examples/custom_activation/gnubg_activation.c:scaled_sigmoid", "examples/custom_activation/gnubg_activation.c:scaled_sigmoid_derivative")
p("The first example trains by stochastic gradient descent and counts correct answers",
  "The first example program replaces, for each training sample in the order of the file, every parameter p by p - r g with the learning rate r and the gradient g of the loss of this sample at the current parameters. The number it prints is the number of test samples for which the output of the trained network and the target are on the same side of 0.5. Nothing but the parameters changes.",
  "every network with one output, loss, number of samples, learning rate and data", "All data sets, sizes and learning rates.", "examples/example_01.c:main")
p("The first example and the SGD optimizer agree bit for bit",
  "The training loop of the first example ends with the same floats as one epoch of the SGD optimizer with batches of one sample, in the order of the file, without momentum and decay, whatever the threads do.",
  "every network with one output, loss and data, initial parameters other than -0, every schedule", "All floats; differences in the last bit would go unnoticed.", "examples/example_01.c:main", "src/SGD.c:SGD_run_epoch")
p("The evaluation program prints mean loss and accuracy of both data sets",
  "The function local_evaluate of the second example stores for every metric of the list the mean of what this metric returns over the samples, and writes nothing else, if the address of its stack array and the number of outputs suit the vector registers. Otherwise it stops with an alignment fault. The program stores the means of the training set in results[0..1] and those of the test set in results[2..3].",
  "every network, data set, list of metrics, instruction set, order of the parallel iterations, stack addresses", "All data sets, thread orders and stack addresses; an unlucky stack address may never occur in a test.", "examples/example_02b.c:local_evaluate", "examples/example_02b.c:main", "src/neuralnet_predict_batch.c:neuralnet_predict_batch")
p("The evaluation of the second example and evaluate() agree bit for bit",
  "For a network with fewer than 8 outputs that are not softmax, and for every network in an SSE build, local_evaluate leaves the memory exactly as evaluate() without OpenMP does, whatever the order of the parallel predictions and the stack addresses.",
  "every arithmetic, such network, data set, list of metrics, order, stack addresses", "All floats and stack addresses; differences in the last bit would go unnoticed.", "examples/example_02b.c:local_evaluate", "src/evaluate.c:evaluate")
p("The options of the SGD example take effect",
  "The SGD optimizer of the example test_sgd has the learning rate, the momentum and the nesterov flag that the program read from its options and prints.",
  "every list of options and every strtof", "All command lines; the run looks normal with the wrong settings.", "examples/test_sgd.c:main", "examples/test_sgd.c:string_to_bool", "src/SGD.h:SGD_PROPERTIES")
p("The accuracy of the SGD example is the fraction of correct answers",
  "The second result that the example test_sgd prints for a data set is the fraction of the samples whose output is on the same side of 1/2 as the target.",
  "every network with one output and every data set", "A test would have to compare the accuracy with a count of its own for a network that errs.", "examples/test_sgd.c:main", "src/metrics.c:metric_categorical_accuracy")
p("The evaluation program recreates the results of the training program from the saved network",
  "The second example reports six numbers for the network it has trained, and saves the network. In builds that evaluate without OpenMP the evaluation program, which loads this file, reports for the metrics common to both (binary_crossentropy and binary_accuracy, training and test set) the same four floats bit for bit.",
  "every network with one output, training, data, libm, instruction set; every heap, stack addresses and order of the predictions in the second process", "All trained networks and floats; differences in the last bit would go unnoticed.", "examples/example_02.c:main", "examples/example_02b.c:main", "src/neuralnet.c:neuralnet_save", "src/neuralnet.c:neuralnet_load", "src/evaluate.c:evaluate")
p("The third example frees all memory it took",
  "When main of example_03 returns, every block that it allocated through the readers, the network, the optimizer and its pivot array, and the logger has been freed exactly once, and no other block has been touched.",
  "every heap, registry, contents of the four files, numbers of features and samples", "All heaps and file sets; a leak at the end of the program has no visible effect.", "examples/example_03.c:main", "src/optimizer.c:prepare_shuffle_pivot", "src/optimizer.c:optimizer_free", "src/neuralnet.c:neuralnet_free")
p("The second example frees all memory it took",
  "When main of example_02 returns, the list of arrays, the network and the optimizer have been freed: no block that the program took is left.",
  "every heap, registry, list of at least four arrays, numbers of features and samples", "All heaps and data sets; a leak at the end of the program has no visible effect.", "examples/example_02.c:main", "src/neuralnet.c:neuralnet_free", "npy_array/npy_array_list.c:npy_array_list_free")
p("The evaluation program frees all memory it took",
  "When main of example_02b returns after it has loaded a network that neuralnet_save has written, every block of the list of arrays and of the network has been freed exactly once, and no other block has been touched.",
  "every saved network, heap, registry, list of at least four arrays", "All networks, heaps and data sets; a leak at the end of the program has no visible effect.", "examples/example_02b.c:main", "src/neuralnet.c:neuralnet_load", "src/neuralnet.c:neuralnet_free", "npy_array/npy_array_list.c:npy_array_list_free")
p("The SGD example frees all memory it took",
  "When main of test_sgd returns, the list of arrays, the network and the optimizer with its arrays have been freed: no block that the program took is left.",
  "every heap, registry, list of at least four arrays, numbers of features and samples", "All heaps and data sets; a leak at the end of the program has no visible effect.", "examples/test_sgd.c:main", "src/optimizer.c:prepare_shuffle_pivot", "src/neuralnet.c:neuralnet_free", "npy_array/npy_array_list.c:npy_array_list_free")
p("The first example frees all memory it took",
  "When main of example_01 returns, every block of the list of arrays and of the network has been freed exactly once, and no other block has been touched.",
  "every heap, registry, list of at least four arrays, numbers of features and samples, floats written by training", "All heaps and data sets; a leak at the end of the program has no visible effect.", "examples/example_01.c:main", "src/neuralnet.c:neuralnet_create", "src/neuralnet.c:neuralnet_free", "npy_array/npy_array_list.c:npy_array_list_free")
with open(os.path.join(os.path.dirname(os.path.abspath(__file__)), "..", "properties.jsonl"), "w") as f:
    for o in P: f.write(json.dumps(o) + "\n")
print(len(P))
