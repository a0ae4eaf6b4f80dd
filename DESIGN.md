# Formal model of simd_neuralnet (Rocq/Coq 8.16.1)

Source under study: `/repo` (oysteijo/simd_neuralnet), read as text, never built or run.
Properties: `properties.jsonl`. Status per property: `MANIFEST.json`. Seeded-bug log: `seeded/LOG.jsonl`.

## 1. Modelling approach

* **Numbers.** `Ops.v` defines a record `fops` of the float operations the C code uses (add, mul, div, sqrtf, expf,
  comparisons with C/NaN semantics, ...). Model code is generic in that record.
  It is instantiated with the reals (exact arithmetic; used for mathematical claims) and with IEEE binary32
  (Flocq, `BinarySingleNaN`; used for claims about NaN, signed zeros, rounding). libm functions (expf, logf, tanhf) are
  parameters (oracles) of the binary32 instance. Some theorems assume something about them, see 3.3; the others
  assume nothing about them.
* **Memory.** `Mem.v`: memory is a list of blocks; a block has a byte base address and a list of cells, each a float or
  *uninitialised*. Every load/store returns `Ok` or a distinct fault (`OutOfBounds`, `Misaligned`, `Uninit`,
  `BadPointer`, `AssertFailed`, `IntOverflow`, `BadFree`, `DivByZero`, `OutOfFuel`). Aligned SIMD accesses check the address modulo the access width.
* **Builds.** One `isa` value selects the code inside `#ifdef __AVX512F__/__AVX__/__SSE__/__AVX2__`; FMA is a flag.
* **Loops** run on fuel; exhaustion is the error `OutOfFuel` and excluded by the theorems.
* **OpenMP.** A parallel-for with reduction is an arbitrary assignment of iterations to threads, an arbitrary order of
  combination of the private copies.  A parallel-for without reduction is an arbitrary permutation of iterations
  (iterations write disjoint rows).
* **rand()** is an arbitrary stream of integers in [0, RAND_MAX].
* **Files** are byte lists; libzip is a list of (name, bytes) entries (trusted: what is added is what is read back,
  adding a duplicate name fails).
* Function-static C variables are explicit process-global state in the model.

## 2. Per property plan

| Id | Modelled | Proof idea |
|----|----------|------------|
| C01 | predict, vector_matrix_multiply, all activations at memory level | refinement: memory run = functional forward pass; induction over layers, loop lemma |
| C02 | same with arbitrary output base | `_refuted` witness + exact condition (fault otherwise) |
| C03 | vector_matrix_multiply in binary32 | equality with sparse spec, generic in ops; witness that dense sum differs |
| C04 | activation.c | pointwise spec; reals instance |
| C05 | softmax | reals |
| C06 | relu | binary32 NaN witness (`_refuted`), positive theorem without NaN |
| C07-C09 | predict_batch, both builds | permutation of rows; recursion on splits; witnesses |
| C10, C11 | matrix_operations.c at memory level | chunk-loop lemma, tails; reals for reductions |
| C12-C14 | get_parameters/update/total_n_parameters | induction over layers; binary32 witness for undo |
| C15 | loss.c/metrics.c over reals | derivative lemmas; CCE factor n refuted |
| C16 | functional backprop over reals | differentiate along an arbitrary differentiable path of parameters |
| C17-C19 | memory-level backprop | refinement, frame; misalignment witnesses |
| C20 | set_loss | history independence |
| C21-C23 | shuffle, pivot, batching | permutation invariants, bijection with draw sequences |
| C24-C26 | batch gradient | fold over arbitrary partition; witnesses; two runs in lockstep for reproducibility, addition of two numbers commutes |
| C27-C31 | four optimizers | induction over batches vs. textbook recurrences; static state witnesses |
| C32-C34 | evaluate, metrics | schedules; reals |
| C35-C37 | callbacks | state machine vs. declarative spec over the history |
| C38, C39 | logger | byte-level parse of what is printed; refutations for one-line files and long lines |
| C40-C44 | npy_array.c | byte-level round trip, all prefixes, witnesses |
| C45, C46, C50 | npy_array_list.c | list round trip; witnesses |
| C47-C49 | neuralnet_save/load | round trip over entries; out-of-bounds outcome distinct |
| C51-C53 | neuralnet_create & allocation | decision tables, malloc failure oracle |
| C54, C55 | initialize | every rand stream; binary32 NaN witness |
| C56 | activation registry with dlopen oracle | invariant over lookups |
| C57 | exp256_ps over reals | polynomial error bound |
| C58 | progress.c | integer/float rounding |
| C59, C60 | constructors of optimizers | histories of creations with a static array; failing allocation as an index |
| C63, C64 | USE_CBLAS build | kernels with BLAS routines as functions on contents; the proofs of prediction and backpropagation are generic in the kernels |
| C65, C66 | .npy reader on arbitrary bytes | inversion of the model of _read_matrix |
| C62 | integer arithmetic of the numeric code | types of the C code, offsets as results; compared with exact row numbers |
| C61 | accuracy of a float32 prediction | running error analysis over the bitwise relation of C01, Flocq error lemmas, Lipschitz constants of the activations |
| C67-C69 | exp256_ps and activations in float32 | argument reduction is exact, rounding errors of the Horner scheme, scaling by 2^n; accuracy of libm is a premise |
| C70 | names of losses and metrics | case analysis |
| C71 | .npy header parser on arbitrary bytes | splitting the text at the last quote and parenthesis |
| C72 | one step of the optimizers lowers the loss | derivative of the loss along every curve of parameters (the proof of C09), and C27-C30 |
| C73 | concurrent iterations do not race | footprints: the same run in every memory that agrees on what is read |
| C74, C76 | settings of optimizers and callbacks | last designated initializer, composed with the theorems about epochs and callbacks |
| C77 | `ends`: no memory makes the run exceed the bound of its loops | compositional over the memory monad |
| C78 | (magnitude, error) pairs through the backward pass | nearness of each float operation, dot products as trees of additions of depth at most n + 8, induction over the layers |
| C79 | batch gradient and step of gradient descent in float32 | C78 for each sample, sums of floats in any order, error pairs of C78 through the rule of C27 |
| C80 | length of a step of Adagrad and RMSprop in float32 | lower bounds (NaN, infinity or at least a) through square, sum, root and quotient |
| C81 | metrics and their means in float32 | error pairs of C78 from the outputs of C61 through each metric, sums of floats in any order |
| C82 | second moment of Adam in float32, vector loop and scalar tail | the two orders of multiplication against the exact mean; the counterexample is computed |
| C83 | overflowed squares of Adagrad and RMSprop in float32, any number of epochs | invariant of all later states; the counterexample is computed |
| C84 | text printed by npy_array_dump, (int) casts | structural, decimal text as in C38; the counterexample is computed |
| C85 | address space as a set of pages, mmap, munmap | arithmetic of page counts; the counterexample is computed |
| C86 | the Adam step in float32, arbitrary gradients | Cauchy-Schwarz keeps first moment <= A sqrt(second moment) through the rounding |
| C87 | several checkpoint callbacks | the static best score is that of the merged calls |
| C88 | whole training runs with Adagrad, RMSprop and Adam in float32 | induction over batches and epochs; the powers stay in order because rounding is monotone |
| C89, C90 | the command line of general-trainer.c for all ways to write it; the option -e | induction over the command line against getopt; invariant of the early stopping callback in the loop |
| C91 | checkpoints and log of a run | invariants of the loop, lemmas of C37, C39 and C76 for the callbacks |
| C92, C93 | runs of the program on proper files, and what they leave | composition of C45, C48, C51, C60; every block of the heap is followed to the end |
| C94 | data files that do not fit | all arrays on the heap come from the loader, whose lengths C66 gives; concrete archives |
| C95 | unnamed arrays | induction over the list with a heap that changes at its nodes only; the result is a list of C50, which is loaded by the round trip of C45 |
| C96 | idx images | induction over the bytes of the file; Flocq for the rounded quotient |
| C97 | idx labels | induction over the labels, one write into a zeroed array each |
| C98 | damaged idx files | case analysis over short reads; concrete files for the refutations |
| C99 | custom activation | rounding errors of the double products; a relative error of the argument is an absolute error of the sigmoid (mean value theorem) |
| C100 | first example program | loop invariant on the parameters; frame of the test arrays; one prediction per test sample |
| C101 | first example = SGD | a sum of one gradient divided by 1 is the gradient up to the sign of zero; such differences vanish in p + d unless p is -0 |
| C102 | evaluation program | the batch prediction fills the stack array row by row (C07, C09); then the invariant of the metric loop |
| C103 | evaluation program = evaluate | below 8 outputs no vector register depends on the address of the output; same sums in the same order |
| C104 | options of test_sgd | fold over the options; the last one of a kind counts (SpecSettings.v) |
| C105 | accuracy of test_sgd | argmax of one element; mean of ones |
| C106 | example_02 and example_02b agree | compose C33, C47 and C103; metrics are summed independently |
| C107 | example_03 frees its memory | compose the lemmas of create, optimizer_new, the logger and their destructors; missing files refute it |
| C108 | example_02 frees its memory | as C107; the optimizer is never freed, so state exactly which blocks are left |
| C109 | example_02b frees its memory | compose net_round_trip, free_network and list_free_all |
| C110 | test_sgd frees its memory | as C108; free() of the structure alone leaves its arrays |
| C111 | example_01 frees its memory | as C109 with create_network; what training writes keeps the blocks |
| C75 | logger on arbitrary text files | case analysis over strrchr, strstr and atoi |

## 3. Trusted base

### 3.1 Logic

The Coq 8.16.1 kernel and the standard library. No axioms of our own; every `Variable`/`Hypothesis` is in a section and
becomes a premise of the lemma. `Print Assumptions` stands below each property theorem. The 339 theorems of the
manifest use these axioms of the standard library and no others:

| Axiom | Used by |
|-------|---------|
| none ("Closed under the global context") | 176 theorems |
| `ClassicalDedekindReals.sig_forall_dec`, `ClassicalDedekindReals.sig_not_dec`, `FunctionalExtensionality.functional_extensionality_dep`, `Classical_Prop.classic` | 160 theorems (real numbers, Flocq, Coquelicot) |
| the first three of these | `adagrad_steps_never_grow` |
| `sig_forall_dec`, `functional_extensionality_dep` | `lr_decay_partial`, `relative_part_small` |

Flocq and Coquelicot are used for definitions and lemmas; they add no axioms.

### 3.2 Which code is modelled, and where

| Model file | C code |
|------------|--------|
| `Ops.v`, `OpsR.v`, `OpsB32.v` | float arithmetic; exact (reals) and IEEE binary32 (the percentage loss with its quotient in binary64) |
| `Mem.v` | float arrays: bounds, initialisation, alignment |
| `Kernels.v` | matrix_operations.c without USE_CBLAS |
| `Cblas.v`, `NetKernels.v` | matrix_operations.c with USE_CBLAS, and prediction and backpropagation with these kernels |
| `Activation.v` | activation.c, the numeric part |
| `Registry.v` | activation.c:76-302, lookup and shared objects |
| `Loss.v`, `Names.v` | loss.c, metrics.c |
| `Neuralnet.v` | neuralnet.c:242-292, 427-597 (predict, set_loss, backpropagation, update, get_parameters) |
| `Batch.v` | neuralnet_predict_batch.c, both versions |
| `Optimizer.v` | optimizer.c:61-99 and the epoch functions of SGD.c, RMSprop.c, adagrad.c, adam.c |
| `OptCreate.v` | optimizer.h:48-75, 126-132, optimizer.c:44-59, `*_optimizer_init` and `*_optimizer_free` |
| `OptInit.v` | the float settings: `*_PROPERTIES` in SGD.h, RMSprop.h, adagrad.h, adam.h and the copies in `*_optimizer_init`, with the zeroed arrays |
| `Pivot.v` | optimizer.c:16-41, 105-108 |
| `Evaluate.v` | evaluate.c, optimizer.c:101-133 |
| `Callbacks.v`, `Logger.v`, `Progress.v` | earlystopping.c, modelcheckpoint.c, logger.c, progress.c |
| `CbInit.v` | callback.h:51-54, 68-81 and `*_SETTINGS` in earlystopping.h, modelcheckpoint.h, logger.h |
| `Npy.v`, `NpyList.v` | npy_array.c, npy_array_list.c |
| `NpyMore.v` | npy_array.c: npy_array_dump; npy_array_mmap and npy_array_free with the address space (pages of 4096 bytes, user addresses below 2^47; the file does not change while mapped) |
| `Create.v` | neuralnet.c:59-93, 221-227, 624-686 |
| `NetFile.v` | neuralnet.c:95-215, 310-410 |
| `Init.v` | neuralnet.c:688-775 |
| `Trainer.v` | examples/general-trainer.c; the epochs, strtof, the archives on disk and malloc are parameters; getopt_long and sscanf %d are modelled after glibc |
| `Idx.v` | examples/example_03.c:17-158, 206-207 (the files of MNIST; malloc is a parameter) |
| `Example03.v` | examples/example_03.c:143-229 main and src/optimizer.c:16-32 prepare_shuffle_pivot, memory only (realloc takes a new block) |
| `Example02Mem.v` | examples/example_02.c:14-89 main and examples/example_02b.c:44-84 main, memory only (the list is already loaded; the floats that are written into the network are a parameter) |
| `TestSgdMem.v` | examples/test_sgd.c:100-184, memory only |
| `Custom.v` | examples/custom_activation/gnubg_activation.c; an array is the list of its elements |
| `Example01.v` | examples/example_01.c:39-74; printf is left out |
| `Example01Mem.v` | examples/example_01.c:13-82, memory only |
| `Example02.v` | examples/example_02b.c:13-41, 69-73, examples/example_02.c:53-55; loading the files is NpyList.v and NetFile.v, printf is left out |
| `TestSgd.v` | examples/test_sgd.c:25-98, 138-142 without the work of getopt_long and printf; the training is Optimizer.v |
| `Index32.v` | the index arithmetic of optimizer.c:86-97, evaluate.c:33-46, neuralnet_predict_batch.c:25-66, neuralnet.c:251-255, 485-489 |

Not modelled: examples/test_adagrad.c and examples/test_rmsprop.c (they include c_npy.h, which the repository does not contain); printing under VERBOSE; code under `#if 0`; the Windows
branches; the other examples, tests and build scripts. That the Gallina text says the same as the C text was checked by reading
only: the C code was never compiled or run.

### 3.3 What is assumed about the environment

These are parameters of the model or premises of theorems. A premise is visible in the statement of the theorem.

* **libm.** expf, logf, tanhf are arbitrary functions in binary32. `crossentropy_finite_float32` has the premise
  `logf_ok` (logf is finite and at most 32 in magnitude on [epsilon, 1]). `random_normal_finite_partial` and
  `initialize_finite_partial` have the premise `logf_neg` (finite and in [-64, 0] on [2^-48, 1)). A correctly working
  logf satisfies both; this is not proved of any C library. C61, C68 and C78 to C81 have the premises `accurate_exp`, `accurate_log` and
  `accurate_tanh` (`SpecLibm.v`), C81 also `accurate_log_unit` (`SpecEvalRound.v`); `LibmCase.v` and `Prop_EvalRound.v` prove them of
  the correctly rounded functions.
* **BLAS.** sgemm, sgemv, sger, saxpy and saxpby are function parameters; the theorems about the BLAS versions over the
  reals have the premises `sgemm_exact` (it returns C + A*B) and `cblas_exact` (`SpecCblas.v`). Rounding inside of BLAS is not modelled.
* **OpenMP.** Iterations are not interleaved; a thread runs its iterations in some order, thread results are combined by
  an arbitrary tree. C73 proves that two iterations never touch the same float unless both only read it; that code without
  such conflicts behaves as if it was not interleaved is the guarantee of C11 for programs without data races, which is
  trusted.
* **Addresses.** The addresses of stack arrays are parameters. Theorems that need it have the premise `aligned_base`.
  The size of the stack is unlimited.
* **Memory behind batchgrad.** The OpenMP reduction covers the padded array, which is longer than the array of the
  caller. The floats behind it are the parameter `e_over` (`alloca_over`). `batch_gradient_writes_refuted` states the
  overrun; the other training theorems hold for the model in which these floats exist.
* **malloc/realloc** succeed or fail as a parameter says. `Registry.v`: malloc succeeds.
* **rand()** is an arbitrary stream in [0, RAND_MAX] with the RAND_MAX of glibc. `srand`/`time` only choose the stream.
* **dlopen/dlsym** are two functions that do not change during a run.
* **Files.** A file is a list of bytes. fopen may fail in the logger; otherwise file operations succeed.
* **libzip** does what its documentation says (header of `NpyList.v`).
* **sprintf %5.5e** is a parameter of the logger. `logger_fits_partial` and its neighbours state what they need of it.
* **neuralnet_save** is a parameter of the checkpoint callback; the premise `content_save` says that what was saved is
  in the file.
* **Platform.** x86-64 Linux: int 32 bit, size_t 64 bit, signed char, little endian, FLT_EVAL_METHOD 0, round to
  nearest even, no -ffast-math, assert enabled.

### 3.4 Simplifications that could hide a bug

* Lengths are natural numbers in the numeric code (`Kernels.v` to `Evaluate.v`): overflow of int or unsigned sizes is not
  visible there. `Index32.v` models the same index arithmetic with the types of the C code (C62). Overflow is also modelled in `Create.v`, `Npy.v`, `NpyList.v`, `NetFile.v`, `Logger.v`, `Init.v`.
* A compiler may contract scalar or vector a*b+c to an FMA. Only the explicit FMA intrinsics are modelled.
* There is one NaN without payload.
* The exp of vector registers is a parameter `vexp` in the memory model; the theorems about exact arithmetic use
  `exp256_lane` or bound its error (C57); the theorems about float32 use it with rounded operations (C61, C67-C69).
* The progress callback inside of an epoch is ignored; messages to stdout and stderr are not modelled.
* An array of length 0 on the stack (empty metric list) is an empty block.
* `Create.v` does not track the alignment of heap blocks; the memory model of prediction takes it as a premise.
* Further simplifications are listed in the header of each model file.

### 3.5 Reading the claims

* `proved`: the statement in properties.jsonl holds for the model.
* `partial` with REFUTED in the note: the statement, or the part of it the note names, is false of the code. There is a `_refuted` theorem with
  a witness, and theorems ending in `_partial` give the strongest variant we proved. A refutation is a statement about
  the model; it was not reproduced with the compiled program.

## 4. Mutation tests

Wrong programs were made by editing one definition of the model in a copy outside of /verif; results are in
`seeded/LOG.jsonl`. When a proof script broke, it was replaced by an admission in the copy and the build continued.
A theorem counts as failed if it depends on an admitted lemma. This tells that the script no longer goes through; it
does not tell that the theorem has become false, and a theorem that shares a lemma with the edited definition is listed
even if its claim is not affected. The survivors are the informative result.
