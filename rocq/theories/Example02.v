(** Example02.v -- examples/example_02b.c: the evaluation of a stored network with neuralnet_predict_batch; the metrics of example_02.c *)
From Coq Require Import String List Arith ZArith Bool.
From Verif Require Import Base Ops Mem Kernels Activation Loss Neuralnet Batch Optimizer Evaluate Names.
Import ListNotations.
Local Open Scope mem_scope.
Local Open Scope string_scope.

Section Example02.
Context {FO : fops}.
(** neuralnet_predict_batch( nn, n, inputs, output ) (src/neuralnet_predict_batch.c, modelled in Batch.v) *)
Variable batch : neuralnet -> nat -> ptr -> ptr -> M unit.

(** examples/example_02b.c:13-41 local_evaluate.  [pb], [lb]: the addresses of the stack arrays predictions and
    local_results.  A NULL pointer as metrics is dereferenced in line 22; Evaluate.metric_list is the loop in
    lines 22-23, add_metrics the loop 31-35 (the same as in src/evaluate.c), store_means the loop 38-40.
    Simplification: sizes are unbounded integers (the C code uses int), and an empty metric list or
    data set (a zero-length array in C, which gcc allows) is an array of no floats. *)
Definition local_evaluate (pb lb : Z) (nn : neuralnet) (samples : nat) (X Y : ptr) (metrics : metric_array) (results : ptr) : M unit :=
  match metrics with
  | None => fail BadPointer
  | Some ms =>
      match metric_list ms with
      | Fault f => fail f
      | Ok ts =>
          let n := length ts in
          let n_output := out_size nn in                                             (* 17 *)
          predictions <- alloca pb (n_output * samples) ;;                           (* 25 *)
          batch nn samples X predictions ;;;                                         (* 26 *)
          local <- alloca lb n ;;                                                    (* 28 *)
          storev local (repeat f0 n) ;;;                                             (* 29 *)
          red_iterations (fun acc i => add_metrics n_output ts 0 (predictions +! (i * n_output)) (Y +! (i * n_output)) acc)
            local (seq 0 samples) ;;;                                                (* 30-36 *)
          store_means n samples local results ;;;                                    (* 38-40 *)
          freea ;;;
          freea
      end
  end.

End Example02.

(** examples/example_02.c:53-55 .metrics, with the loss of line 39.  The program calls optimizer_run_epoch (Evaluate.v) once with them
    (line 66), prints the six results and saves the network (line 82, NetFile.v). *)
Definition metrics_02 : metric_array :=
  Some [get_metric_func (get_loss_name BCE); get_metric_func "mean_absolute_error"; get_metric_func "binary_accuracy"; None].
(** example_02b.c:69 metric_func metrics[] *)
Definition metrics_02b : metric_array :=
  Some [get_metric_func "binary_crossentropy"; get_metric_func "binary_accuracy"; None].
(** example_02b.c:71-73: results and the two calls of main.  [batch1], [batch2]: neuralnet_predict_batch with the
    thread schedules of the two calls; [pb1], [lb1], [pb2], [lb2]: the stack addresses of the two calls.
    Not modelled here: reading the two files (NpyList.v, NetFile.v), the asserts and printing. *)
Definition main_02b {FO : fops} (batch1 batch2 : neuralnet -> nat -> ptr -> ptr -> M unit) (pb1 lb1 pb2 lb2 : Z) (nn : neuralnet)
    (n_train : nat) (train_X train_Y : ptr) (n_test : nat) (test_X test_Y : ptr) (results : ptr) : M unit :=
  local_evaluate batch1 pb1 lb1 nn n_train train_X train_Y metrics_02b results ;;;
  local_evaluate batch2 pb2 lb2 nn n_test test_X test_Y metrics_02b (results +! 2).
