(** Prop_Terminate.v -- C77: prediction, training and evaluation end for every data *)
From Coq Require Import List Arith ZArith Lia Bool.
From Verif Require Import Base BaseProofs Ops Mem MemProofs Kernels Activation Loss Neuralnet Batch Optimizer Evaluate NoFuel Ex_Mem.
Import ListNotations.
Local Open Scope nat_scope.
Local Open Scope mem_scope.

(** The loops of the model count down a bound and fault with OutOfFuel when it is used up.  [never_hangs]: in no memory whatever (NaN,
    infinities, arrays that are too short, wrong pointers) does a loop in [run] exceed its bound: it returns or faults. *)
Definition never_hangs {FO : fops} {A} (run : M A) : Prop := forall m : mem, run m <> Fault OutOfFuel.

(** activation functions and their derivatives, losses, metrics, prediction (single and OpenMP batch), backpropagation, update *)
Theorem numeric_functions_end (FO : fops) (c : cfg) (vexp : F -> F) :
  (forall g n p, never_hangs (activation_func c vexp g n p)) /\
  (forall g n a p, never_hangs (activation_derivative_of c g n a p)) /\
  (forall l n p r o, never_hangs (loss_func l n p r o)) /\
  (forall t n p r, never_hangs (metric_func t n p r)) /\
  (forall wb nn x y, never_hangs (neuralnet_predict c vexp wb nn x y)) /\
  (forall order wbs nn x y, never_hangs (predict_batch_omp c vexp order wbs nn x y)) /\
  (forall wb nn x t g, never_hangs (neuralnet_backpropagation c vexp wb nn x t g)) /\
  (forall nn d, never_hangs (neuralnet_update c nn d)) /\
  (forall nn p, never_hangs (neuralnet_get_parameters nn p)) /\
  (forall s nn k X Y ms r, never_hangs (evaluate c vexp s nn k X Y ms r)).
Proof.
  repeat split; intros; intro m.
  - apply ends_activation. - apply ends_deriv. - apply ends_loss. - apply ends_metric. - apply ends_predict. - apply ends_omp.
  - apply ends_backprop. - apply ends_update. - apply ends_get. - apply ends_evaluate.
Qed.
Print Assumptions numeric_functions_end.

(** an epoch of each optimizer with a batch size of at least 1, for every number of samples, sample order and schedule: each batch takes
    at least one sample *)
Theorem epochs_end (FO : fops) (c : cfg) (vexp : F -> F) (e : env) (o : opt) (n : nat) (X Y : ptr) :
  1 <= o_batchsize o ->
  (forall s, never_hangs (sgd_epoch c vexp e o n X Y s)) /\ (forall s, never_hangs (rmsprop_epoch c vexp e o n X Y s)) /\
  (forall s, never_hangs (adagrad_epoch c vexp e o n X Y s)) /\ (forall s st, never_hangs (adam_epoch c vexp e o n X Y s st)).
Proof.
  intros HB. repeat split; intros.
  - apply ends_epoch with (o := o); auto using moves_sgd, ends_sgd_step.
  - apply ends_epoch with (o := o); auto using moves_rmsprop, ends_rmsprop_step.
  - apply ends_epoch with (o := o); auto using moves_adagrad, ends_adagrad_step.
  - apply ends_epoch with (o := o); auto using moves_adam, ends_adam_step.
Qed.
Print Assumptions epochs_end.

(** a training run of any number of epochs *)
Lemma training_ends (FO : fops) (S : Type) (epoch : env -> opt -> nat -> S -> M S) : forall h s,
  (forall e o n, In (e, o, n) h -> forall s, never_hangs (epoch e o n s)) -> never_hangs (training epoch h s).
Proof.
  induction h as [|[[e o] n] h IH]; intros s H; [intros m; discriminate|]. cbn [training]. apply ends_bind.
  - apply H. left. reflexivity.
  - intros s'. apply IH. intros e' o' n' Hi. apply H. right. exact Hi.
Qed.
Theorem trainings_end (FO : fops) (c : cfg) (vexp : F -> F) (X Y : ptr) (h : list (env * opt * nat)) :
  (forall e o n, In (e, o, n) h -> 1 <= o_batchsize o) ->
  (forall s, never_hangs (training (fun e o n => sgd_epoch c vexp e o n X Y) h s)) /\
  (forall s, never_hangs (training (fun e o n => rmsprop_epoch c vexp e o n X Y) h s)) /\
  (forall s, never_hangs (training (fun e o n => adagrad_epoch c vexp e o n X Y) h s)) /\
  (forall s st, never_hangs (training (fun e o n => adam_epoch c vexp e o n X Y s) h st)).
Proof.
  intros HB. repeat split; intros; apply training_ends; intros e o n Hi s'; destruct (epochs_end FO c vexp e o n X Y (HB e o n Hi)) as (A & B & C & D); auto.
Qed.
Print Assumptions trainings_end.

(** The assertion batchsize > 0 of the constructors (src/optimizer.h) is needed: with batch size 0 and at least one sample the epoch loop
    returns after no number of batches. *)
Theorem epoch_needs_batch_size (FO : fops) (c : cfg) (vexp : F -> F) (e : env) (o : opt) (n fuel : nat) (X Y : ptr) (m : mem) :
  o_batchsize o = 0 -> 1 <= n ->
  (forall s r, epoch_loop fuel (sgd_step c vexp e o n X Y) n 0 s m <> Ok r) /\
  (forall s r, epoch_loop fuel (rmsprop_step c vexp e o n X Y) n 0 s m <> Ok r) /\
  (forall s r, epoch_loop fuel (adagrad_step c vexp e o n X Y) n 0 s m <> Ok r) /\
  (forall s st r, epoch_loop fuel (adam_step c vexp e o n X Y s) n 0 st m <> Ok r).
Proof.
  intros HB Hn. repeat split; intros; apply endless_epoch with (o := o); auto using moves_sgd, moves_rmsprop, moves_adagrad, moves_adam; lia.
Qed.
Print Assumptions epoch_needs_batch_size.

(** evaluation in the BLAS build, for networks that fit on the stack (C08) *)
Theorem evaluate_blas_ends (FO : fops) (c : cfg) (vexp : F -> F) nstack sgemm fuel wbs s nn samples X Y ms r :
  sum_outputs (nn_layers nn) <= nstack -> samples < fuel ->
  never_hangs (evaluate_blas c vexp nstack sgemm fuel wbs s nn samples X Y ms r).
Proof. intros H1 H2. apply ends_evaluate_blas; auto. Qed.
Print Assumptions evaluate_blas_ends.

(** case: the bounds are not met trivially: one test of the condition less, and the loops do exceed the bound *)
Example hang_case :
  let c := {| cfg_isa := SSE; cfg_fma := false |} in
  let m := [@mkblock opsZ 640 (map Some [3; 1; 2]%Z)] in
  @for_loop opsZ 3 (fun i => i <? 3) 1 0 (scalar1 (fun x => x) (mkptr 0 0)) m = Fault OutOfFuel /\
  (exists m', @for_loop opsZ 4 (fun i => i <? 3) 1 0 (scalar1 (fun x => x) (mkptr 0 0)) m = Ok (3, m')) /\
  (exists m', @neuralnet_predict opsZ c (fun x => x) 64
     {| nn_layers := [Build_layer 3 1 (mkptr 0 0) (mkptr 1 0) Relu None]; nn_loss := None |} (mkptr 2 0) (mkptr 3 0)
     [@mkblock opsZ 640 (map Some [3; 1; 2]%Z); @mkblock opsZ 704 [Some 5%Z]; @mkblock opsZ 768 (map Some [1; 1; 2]%Z); @mkblock opsZ 832 [None]] = Ok (tt, m')).
Proof. split; [reflexivity|]. split; eexists; reflexivity. Qed.
