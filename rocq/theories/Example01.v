(** Example01.v -- the training loop and the test of examples/example_01.c, which does not use an optimizer.

    The network (created and initialised in lines 30-36) and the four arrays of the archive are in memory; see Create.v,
    Init.v and NpyList.v for these.  nn is the network with its loss set, X and Y the arrays, wb i and ob i the addresses
    that the compiler chooses for the stack arrays in iteration i.  printf is left out. *)
From Coq Require Import List Arith ZArith Bool.
From Verif Require Import Base Ops Mem Kernels Activation Loss Neuralnet.
Import ListNotations.
Local Open Scope nat_scope.
Local Open Scope mem_scope.

Section Example.
  Context {FO : fops}.
  Variable c : cfg.
  Variable vexp : F -> F.

  (** examples/example_01.c:51-52: for( j = 0; j < n_parameters; j++ ) gradient[j] *= -learning_rate *)
  Definition scale_gradient (n : nat) (gradient : ptr) (lr : F) : M unit :=
    loop1 n 0 (fun j => x <- load (gradient +! j) ;; store (gradient +! j) (fmul x (fneg lr))).

  (** lines 50-55: train_feature has been moved by n_features and train_target by 1 in each iteration before *)
  Definition train_sample (wb : nat -> Z) (nn : neuralnet) (n_features : nat) (X Y gradient : ptr) (lr : F) (i : nat) : M unit :=
    neuralnet_backpropagation c vexp (wb i) nn (X +! (i * n_features)) (Y +! (i * 1)) gradient ;;;
    scale_gradient (total_n_parameters nn) gradient lr ;;;
    neuralnet_update c nn gradient.
  (** lines 47-56; the array gradient stays until the end of main *)
  Definition train_loop (wb : nat -> Z) (nn : neuralnet) (n_features n_train : nat) (X Y gradient : ptr) (lr : F) : M unit :=
    loop1 n_train 0 (train_sample wb nn n_features X Y gradient lr).

  (** lines 68-69: output[0] > 0.5f ? 1 : 0 *)
  Definition class (x : F) : bool := flt (flit 1 2) x.
  (** lines 66-73 *)
  Definition test_sample (wb ob : nat -> Z) (nn : neuralnet) (n_features : nat) (X Y : ptr) (i : nat) (correct : Z) : M Z :=
    output <- alloca (ob i) 1 ;;
    neuralnet_predict c vexp (wb i) nn (X +! (i * n_features)) output ;;;
    y <- load output ;;
    t <- load (Y +! (i * 1)) ;;
    freea ;;;
    ret (if Bool.eqb (class y) (class t) then (correct + 1)%Z else correct).
  (** lines 60-74: correct_count *)
  Definition test_loop (wb ob : nat -> Z) (nn : neuralnet) (n_features n_test : nat) (X Y : ptr) : M Z :=
    let_pair (_, k) <- for_loop_acc (S n_test) (fun i => i <? n_test) 1 0 0%Z (test_sample wb ob nn n_features X Y) ;; ret k.

  (** lines 39-74; [gb] is the address of the array gradient *)
  Definition example_01 (gb : Z) (wb wb' ob : nat -> Z) (nn : neuralnet) (n_features n_train n_test : nat) (X Y TX TY : ptr) (lr : F) : M Z :=
    gradient <- alloca gb (total_n_parameters nn) ;;
    train_loop wb nn n_features n_train X Y gradient lr ;;;
    k <- test_loop wb' ob nn n_features n_test TX TY ;;
    freea ;;;
    ret k.
End Example.
