(** Cblas.v -- the kernels of src/matrix_operations.c compiled with USE_CBLAS, and prediction and
    backpropagation with these kernels.

    The CBLAS library is not part of the repository.  A record [cblas] has one function per routine
    that is called; it gives the new content of the output array.  All arrays are row-major and all
    strides are 1, as in the calls.  What is assumed of the functions is in SpecCblas.v. *)
From Coq Require Import List Arith ZArith Bool.
From Verif Require Import Base Ops Mem Kernels Activation Loss Neuralnet NetKernels.
Import ListNotations.
Local Open Scope mem_scope.

Record cblas {FO : fops} := {
  (** sgemv trans m n alpha A lda x beta y: alpha*A*x + beta*y, or alpha*A^T*x + beta*y if trans *)
  sgemv : bool -> nat -> nat -> F -> list F -> nat -> list F -> F -> list F -> list F;
  (** sger m n alpha x y A lda: A + alpha*x*y^T *)
  sger : nat -> nat -> F -> list F -> list F -> list F -> nat -> list F;
  (** saxpy n alpha x y: alpha*x + y *)
  saxpy : nat -> F -> list F -> list F -> list F;
  (** saxpby n alpha x beta y: alpha*x + beta*y *)
  saxpby : nat -> F -> list F -> F -> list F -> list F
}.

Section Cblas.
Context {FO : fops}.
Variable c : cfg.
Variable vexp : F -> F.
Variable cb : cblas.

(** src/matrix_operations.c:39-41.  With beta = 0 the BLAS does not read y (it may be
    uninitialised); the function gets no old content. *)
Definition matrix_vector_multiply_blas (n_rows n_cols : nat) (matrix v y : ptr) : M unit :=
  a <- loadv (n_rows * n_cols) matrix ;;
  x <- loadv n_cols v ;;
  storev y (sgemv cb false n_rows n_cols f1 a n_cols x f0 []).

(** src/matrix_operations.c:80-81 *)
Definition vector_vector_outer_blas (n_rows n_cols : nat) (x y matrix : ptr) : M unit :=
  xs <- loadv n_rows x ;;
  ys <- loadv n_cols y ;;
  a <- loadv (n_rows * n_cols) matrix ;;
  storev matrix (sger cb n_rows n_cols f1 xs ys a n_cols).

(** src/matrix_operations.c:115-118 *)
Definition vector_matrix_multiply_blas (n m : nat) (weight bias input y : ptr) : M unit :=
  memcpy y bias m ;;;
  a <- loadv (n * m) weight ;;
  x <- loadv n input ;;
  y0 <- loadv m y ;;
  storev y (sgemv cb true n m f1 a m x f1 y0).

(** src/matrix_operations.c:199-200 and 228-229: the aligned and the unaligned variant are the same *)
Definition vector_accumulate_blas (n : nat) (a b : ptr) : M unit :=
  bs <- loadv n b ;; xs <- loadv n a ;; storev a (saxpy cb n f1 bs xs).
(** src/matrix_operations.c:310-311 *)
Definition vector_saxpy_blas (n : nat) (a : ptr) (alpha : F) (b : ptr) : M unit :=
  bs <- loadv n b ;; xs <- loadv n a ;; storev a (saxpy cb n alpha bs xs).
(** src/matrix_operations.c:350-351 *)
Definition vector_saxpby_blas (n : nat) (a : ptr) (alpha : F) (b : ptr) (beta : F) : M unit :=
  bs <- loadv n b ;; xs <- loadv n a ;; storev a (saxpby cb n alpha bs beta xs).

(** src/neuralnet.c:242-292 and 480-553 in this build; the activation functions and the losses
    have no BLAS variant *)
Definition predict_blas : Z -> neuralnet -> ptr -> ptr -> M unit := predict_with c vexp vector_matrix_multiply_blas.
Definition backprop_blas : Z -> neuralnet -> ptr -> ptr -> ptr -> M unit :=
  backprop_with c vexp vector_matrix_multiply_blas matrix_vector_multiply_blas vector_vector_outer_blas.

End Cblas.
