(** Neuralnet.v -- memory-level model of prediction, backpropagation and parameter access,
    src/neuralnet.c:242-292, 427-597 *)
From Coq Require Import List Arith ZArith Bool.
From Verif Require Import Base Ops Mem Kernels Activation Loss.
Import ListNotations.
Local Open Scope mem_scope.

(** src/neuralnet.h:11-19 struct _layer_t.  Function pointers are the names of the built-in
    functions; [l_deriv = None] is the indeterminate pointer a layer has before
    neuralnet_set_loss. *)
Record layer : Set := {
  n_input : nat;
  n_output : nat;
  weight : ptr;
  bias : ptr;
  l_act : act;
  l_deriv : option act
}.
(** src/neuralnet.h:21-28 struct _neuralnet_t *)
Record neuralnet : Set := { nn_layers : list layer; nn_loss : option loss }.
Definition n_layers (nn : neuralnet) : nat := length (nn_layers nn).

(** src/neuralnet.h:51-58 neuralnet_total_n_parameters (no wrap-around; see Create.v) *)
Definition total_n_parameters (nn : neuralnet) : nat :=
  fold_left (fun s l => s + (n_input l + 1) * n_output l) (nn_layers nn) 0.

Section Neuralnet.
Context {FO : fops}.
Variable c : cfg.
Variable vexp : F -> F.

(** (n + fps - 1) / fps * fps, src/neuralnet.c:259-260, 496-497 *)
Definition size_w_padding (n : nat) : nat := (n + fps c - 1) / fps c * fps c.

(** src/neuralnet.c:251-253 *)
Definition sum_outputs (ls : list layer) : nat := fold_left (fun s l => s + n_output l) ls 0.

(** src/neuralnet.c:258-263, 495-500: activations[2], activations[3], ... *)
Fixpoint setup_activations (ls : list layer) (p : ptr) : M (list ptr) :=
  match ls with
  | [] => ret []
  | l :: r =>
      let q := p +! size_w_padding (n_output l) in
      a <- is_aligned c q ;; assertM a ;;;
      qs <- setup_activations r q ;; ret (q :: qs)
  end.

(** src/neuralnet.c:280-291, 503-513 *)
Fixpoint forward (ls : list layer) (acts : list ptr) : M unit :=
  match ls, acts with
  | [], _ => ret tt
  | l :: r, a :: ((b :: _) as rest) =>
      vector_matrix_multiply c (n_input l) (n_output l) (weight l) (bias l) a b ;;;
      activation_func c vexp (l_act l) (n_output l) b ;;;
      forward r rest
  | _, _ => fail OutOfBounds
  end.

(** src/neuralnet.c:242-292 neuralnet_predict.  [wb] is the address the compiler chooses for the
    stack array workmem.  With n_layers = 0 the code writes outside of activations[1].
    Stack exhaustion is not modelled. *)
Definition neuralnet_predict (wb : Z) (nn : neuralnet) (input out : ptr) : M unit :=
  let ls := nn_layers nn in
  let nl := length ls in
  if nl =? 0 then fail OutOfBounds else
  workmem <- alloca wb (sum_outputs ls + fps c * nl) ;;
  ps <- setup_activations (firstn (nl - 2) ls) workmem ;;
  forward ls (firstn nl (input :: workmem :: ps) ++ [out]) ;;;
  freea.

(** src/neuralnet.c:521-531: grad_b[i] and grad_w[i] *)
Fixpoint grad_ptrs (ls : list layer) (p : ptr) : list (ptr * ptr) :=
  match ls with
  | [] => []
  | l :: r => (p, p +! n_output l) :: grad_ptrs r (p +! n_output l +! (n_input l * n_output l))
  end.

(** src/neuralnet.c:538-552: for( layer = n_layers-1; layer >= 0; layer-- ), here with k = layer+1 *)
Fixpoint backward (ls : list layer) (acts : list ptr) (gs : list (ptr * ptr)) (k : nat) : M unit :=
  match k with
  | O => ret tt
  | S i =>
      match nth_error ls i, nth_error acts i, nth_error acts (i + 1), nth_error gs i with
      | Some l, Some a_in, Some a_out, Some (gb, gw) =>
          (if i =? length ls - 1 then ret tt
           else match nth_error ls (i + 1), nth_error gs (i + 1) with
                | Some l1, Some (gb1, _) =>
                    matrix_vector_multiply c (n_input l1) (n_output l1) (weight l1) gb1 gb
                | _, _ => fail OutOfBounds
                end) ;;;
          match l_deriv l with
          | Some d => activation_derivative_of c d (n_output l) a_out gb
          | None => fail BadPointer
          end ;;;
          vector_vector_outer c (n_input l) (n_output l) a_in gb gw ;;;
          backward ls acts gs i
      | _, _, _, _ => fail OutOfBounds
      end
  end.

(** src/neuralnet.c:480-553 neuralnet_backpropagation *)
Definition neuralnet_backpropagation (wb : Z) (nn : neuralnet) (input target grad : ptr) : M unit :=
  let ls := nn_layers nn in
  let nl := length ls in
  if nl =? 0 then fail OutOfBounds else
  a <- is_aligned c grad ;; assertM a ;;;                                                   (* 483 *)
  workmem <- alloca wb (sum_outputs ls + n_input (hd (Build_layer 0 0 grad grad Linear None) ls) + fps c * nl) ;;
  ps <- setup_activations (firstn (nl - 1) ls) workmem ;;
  let acts := input :: workmem :: ps in
  forward ls acts ;;;
  storev grad (repeat f0 (total_n_parameters nn)) ;;;                                       (* 518-519 *)
  let gs := grad_ptrs ls grad in
  match nn_loss nn, nth_error acts nl, nth_error ls (nl - 1), nth_error gs (nl - 1) with
  | Some lf, Some output, Some l, Some (gb, _) =>
      loss_func lf (n_output l) output target gb ;;;                                        (* 536 *)
      backward ls acts gs nl ;;;
      freea
  | None, _, _, _ => fail AssertFailed                                                      (* 535 *)
  | _, _, _, _ => fail OutOfBounds
  end.

(** src/neuralnet.c:563-576 neuralnet_update *)
Fixpoint update_layers (ls : list layer) (p : ptr) : M unit :=
  match ls with
  | [] => ret tt
  | l :: r =>
      vector_accumulate_unaligned c (n_output l) (bias l) p ;;;
      vector_accumulate_unaligned c (n_output l * n_input l) (weight l) (p +! n_output l) ;;;
      update_layers r (p +! n_output l +! (n_input l * n_output l))
  end.
Definition neuralnet_update (nn : neuralnet) (delta_w : ptr) : M unit := update_layers (nn_layers nn) delta_w.

(** memcpy of n floats *)
Definition memcpy (dst src : ptr) (n : nat) : M unit := xs <- loadv n src ;; storev dst xs.

(** src/neuralnet.c:586-597 neuralnet_get_parameters *)
Fixpoint get_layers (ls : list layer) (p : ptr) : M unit :=
  match ls with
  | [] => ret tt
  | l :: r =>
      memcpy p (bias l) (n_output l) ;;;
      memcpy (p +! n_output l) (weight l) (n_output l * n_input l) ;;;
      get_layers r (p +! n_output l +! (n_input l * n_output l))
  end.
Definition neuralnet_get_parameters (nn : neuralnet) (params : ptr) : M unit := get_layers (nn_layers nn) params.

End Neuralnet.

(** src/neuralnet.c:427-466 neuralnet_set_loss, with the loss already looked up by
    get_loss_func ([None]: name not found).  Returns the changed network.  The printed warnings
    are not modelled. *)
Definition set_derivs (ls : list layer) : list layer :=
  map (fun l => Build_layer (n_input l) (n_output l) (weight l) (bias l) (l_act l) (Some (l_act l))) ls.
Definition set_last_linear (ls : list layer) : list layer :=
  match rev ls with
  | [] => []
  | l :: r => rev (Build_layer (n_input l) (n_output l) (weight l) (bias l) (l_act l) (Some Linear) :: r)
  end.
Definition last_act (ls : list layer) : option act :=
  match rev ls with [] => None | l :: _ => Some (l_act l) end.
Definition neuralnet_set_loss (nn : neuralnet) (lf : option loss) : neuralnet :=
  match lf with
  | None => Build_neuralnet (nn_layers nn) None
  | Some l =>
      let ls := set_derivs (nn_layers nn) in
      let ls :=
        match l, last_act ls with
        | BCE, Some Sigmoid => set_last_linear ls
        | CCE, Some Softmax => set_last_linear ls
        | _, _ => ls
        end in
      Build_neuralnet ls (Some l)
  end.
