(** Batch.v -- src/neuralnet_predict_batch.c: the OpenMP version and the BLAS version *)
From Coq Require Import List Arith ZArith Bool.
From Verif Require Import Base Ops Mem Kernels Activation Loss Neuralnet.
Import ListNotations.
Local Open Scope mem_scope.

(** nn->layer[0].n_input and nn->layer[nn->n_layers-1].n_output *)
Definition in_size (nn : neuralnet) : nat := match nn_layers nn with l :: _ => n_input l | [] => 0 end.
Definition out_size (nn : neuralnet) : nat := match rev (nn_layers nn) with l :: _ => n_output l | [] => 0 end.

Section Batch.
Context {FO : fops}.
Variable c : cfg.
Variable vexp : F -> F.

(** src/neuralnet_predict_batch.c:25-26 (without USE_CBLAS): iteration i *)
Definition predict_row (wbs : nat -> Z) (nn : neuralnet) (inputs output : ptr) (i : nat) : M unit :=
  neuralnet_predict c vexp (wbs i) nn (inputs +! (i * in_size nn)) (output +! (i * out_size nn)).
(** src/neuralnet_predict_batch.c:20-27 (without USE_CBLAS): #pragma omp parallel for.
    [order] is the order in which the iterations take effect, [wbs i] the address of the work
    array in the thread that executes iteration i.  Simplification: an iteration is not
    interleaved with others; that iterations have no data race is C73. *)
Fixpoint predict_batch_omp (order : list nat) (wbs : nat -> Z) (nn : neuralnet) (inputs output : ptr) : M unit :=
  match order with
  | [] => ret tt
  | i :: r =>
      predict_row wbs nn inputs output i ;;;
      predict_batch_omp r wbs nn inputs output
  end.

(** The BLAS version, lines 44-137.
    [nstack]: N_STACK_ALLOC_FLOATS, a macro that can be set by the user (41-43).
    [sgemm m n k A B C]: cblas_sgemm with CblasRowMajor, no transposition, alpha = beta = 1 and
    leading dimensions k, n, n (external library): the new content of C. *)
Variable nstack : nat.
Variable sgemm : nat -> nat -> nat -> list F -> list F -> list F -> list F.

(** 96-98: activations[2], ..., activations[n_layers-1] *)
Fixpoint batch_ptrs (ls : list layer) (n : nat) (p : ptr) : list ptr :=
  match ls with
  | [] => []
  | l :: r => (p +! (n_output l * n) : ptr) :: batch_ptrs r n (p +! (n_output l * n))
  end.
(** 93-100: activations[1], ..., activations[n_layers] *)
Definition batch_acts (ls : list layer) (n : nat) (work out : ptr) : list ptr :=
  firstn (length ls - 1) (work :: batch_ptrs (firstn (length ls - 2) ls) n work) ++ [out].

(** 103-108 *)
Fixpoint fill_biases (ls : list layer) (acts : list ptr) (n : nat) : M unit :=
  match ls, acts with
  | [], _ => ret tt
  | l :: r, b :: rest =>
      loop1 n 0 (fun j => memcpy (b +! (j * n_output l)) (bias l) (n_output l)) ;;;
      fill_biases r rest n
  | _, _ => fail OutOfBounds
  end.

(** 115-136 *)
Fixpoint batch_forward (ls : list layer) (a : ptr) (acts : list ptr) (n : nat) : M unit :=
  match ls, acts with
  | [], _ => ret tt
  | l :: r, b :: rest =>
      va <- loadv (n * n_input l) a ;;
      vw <- loadv (n_input l * n_output l) (weight l) ;;
      vc <- loadv (n * n_output l) b ;;
      storev b (sgemm n (n_output l) (n_input l) va vw vc) ;;;
      (match l_act l with
       | Softmax => loop1 n 0 (fun j => activation_func c vexp Softmax (n_output l) (b +! (j * n_output l)))
       | g => activation_func c vexp g (n_output l * n) b
       end) ;;;
      batch_forward r b rest n
  | _, _ => fail OutOfBounds
  end.

(** [wbs n out]: the address of the stack array workmem of the call with these arguments.  It is
    declared without SIMD_ALIGN.  Sizes are unbounded integers here: the C code computes workmem_sz in int. *)
Fixpoint predict_batch_blas (fuel : nat) (wbs : nat -> ptr -> Z) (nn : neuralnet) (n : nat) (inputs output : ptr) : M unit :=
  match fuel with
  | O => fail OutOfFuel
  | S k =>
      let ls := nn_layers nn in
      if nstack <? sum_outputs ls * n then
        let half := n / 2 in
        predict_batch_blas k wbs nn half inputs output ;;;
        predict_batch_blas k wbs nn (n - half) (inputs +! (half * in_size nn)) (output +! (half * out_size nn))
      else if length ls =? 0 then fail OutOfBounds
      else
        workmem <- alloca (wbs n output) nstack ;;
        fill_biases ls (batch_acts ls n workmem output) n ;;;
        batch_forward ls inputs (batch_acts ls n workmem output) n ;;;
        freea
  end.
End Batch.
