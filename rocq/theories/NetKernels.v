(** NetKernels.v -- prediction and backpropagation for a given implementation of the three matrix
    kernels.  src/matrix_operations.c has two implementations of each of them, selected by the macro
    USE_CBLAS; src/neuralnet.c is compiled once and calls whichever is linked.  Neuralnet.v is the
    program with the built-in kernels ([predict_builtin], [backprop_builtin] below); BlasKernels.v
    has the kernels of the USE_CBLAS build. *)
From Coq Require Import List Arith ZArith Bool.
From Verif Require Import Base Ops Mem Kernels Activation Loss Neuralnet.
Import ListNotations.
Local Open Scope mem_scope.

Section NetKernels.
Context {FO : fops}.
Variable c : cfg.
Variable vexp : F -> F.

(** the prototypes of src/matrix_operations.h:12-14.
    vector_matrix_multiply( n, m, weight, bias, input, y ) *)
Variable vmm : nat -> nat -> ptr -> ptr -> ptr -> ptr -> M unit.
(** matrix_vector_multiply( n_rows, n_cols, matrix, v, y ) *)
Variable mvm : nat -> nat -> ptr -> ptr -> ptr -> M unit.
(** vector_vector_outer( n_rows, n_cols, x, y, matrix ) *)
Variable outer : nat -> nat -> ptr -> ptr -> ptr -> M unit.

(** src/neuralnet.c:280-291, 503-513 *)
Fixpoint forward_with (ls : list layer) (acts : list ptr) : M unit :=
  match ls, acts with
  | [], _ => ret tt
  | l :: r, a :: ((b :: _) as rest) =>
      vmm (n_input l) (n_output l) (weight l) (bias l) a b ;;;
      activation_func c vexp (l_act l) (n_output l) b ;;;
      forward_with r rest
  | _, _ => fail OutOfBounds
  end.

(** src/neuralnet.c:242-292 neuralnet_predict *)
Definition predict_with (wb : Z) (nn : neuralnet) (input out : ptr) : M unit :=
  let ls := nn_layers nn in
  let nl := length ls in
  if nl =? 0 then fail OutOfBounds else
  workmem <- alloca wb (sum_outputs ls + fps c * nl) ;;
  ps <- setup_activations c (firstn (nl - 2) ls) workmem ;;
  forward_with ls (firstn nl (input :: workmem :: ps) ++ [out]) ;;;
  freea.

(** src/neuralnet.c:538-552 *)
Fixpoint backward_with (ls : list layer) (acts : list ptr) (gs : list (ptr * ptr)) (k : nat) : M unit :=
  match k with
  | O => ret tt
  | S i =>
      match nth_error ls i, nth_error acts i, nth_error acts (i + 1), nth_error gs i with
      | Some l, Some a_in, Some a_out, Some (gb, gw) =>
          (if i =? length ls - 1 then ret tt
           else match nth_error ls (i + 1), nth_error gs (i + 1) with
                | Some l1, Some (gb1, _) => mvm (n_input l1) (n_output l1) (weight l1) gb1 gb
                | _, _ => fail OutOfBounds
                end) ;;;
          match l_deriv l with
          | Some d => activation_derivative_of c d (n_output l) a_out gb
          | None => fail BadPointer
          end ;;;
          outer (n_input l) (n_output l) a_in gb gw ;;;
          backward_with ls acts gs i
      | _, _, _, _ => fail OutOfBounds
      end
  end.

(** src/neuralnet.c:480-553 neuralnet_backpropagation *)
Definition backprop_with (wb : Z) (nn : neuralnet) (input target grad : ptr) : M unit :=
  let ls := nn_layers nn in
  let nl := length ls in
  if nl =? 0 then fail OutOfBounds else
  a <- is_aligned c grad ;; assertM a ;;;                                                   (* 483 *)
  workmem <- alloca wb (sum_outputs ls + n_input (hd (Build_layer 0 0 grad grad Linear None) ls) + fps c * nl) ;;
  ps <- setup_activations c (firstn (nl - 1) ls) workmem ;;
  let acts := input :: workmem :: ps in
  forward_with ls acts ;;;
  storev grad (repeat f0 (total_n_parameters nn)) ;;;                                       (* 518-519 *)
  let gs := grad_ptrs ls grad in
  match nn_loss nn, nth_error acts nl, nth_error ls (nl - 1), nth_error gs (nl - 1) with
  | Some lf, Some output, Some l, Some (gb, _) =>
      loss_func lf (n_output l) output target gb ;;;                                        (* 536 *)
      backward_with ls acts gs nl ;;;
      freea
  | None, _, _, _ => fail AssertFailed                                                      (* 535 *)
  | _, _, _, _ => fail OutOfBounds
  end.

End NetKernels.

(** With the built-in kernels these are the functions of Neuralnet.v. *)
Lemma forward_builtin {FO : fops} c vexp : forward c vexp = forward_with c vexp (vector_matrix_multiply c).
Proof. reflexivity. Qed.
Lemma predict_builtin {FO : fops} c vexp :
  neuralnet_predict c vexp = predict_with c vexp (vector_matrix_multiply c).
Proof. reflexivity. Qed.
Lemma backprop_builtin {FO : fops} c vexp :
  neuralnet_backpropagation c vexp =
  backprop_with c vexp (vector_matrix_multiply c) (matrix_vector_multiply c) (vector_vector_outer c).
Proof. reflexivity. Qed.
