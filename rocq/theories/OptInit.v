(** OptInit.v -- the settings of the four optimizers: the macros SGD_PROPERTIES, RMSPROP_PROPERTIES, ADAGRAD_PROPERTIES,
    ADAM_PROPERTIES and OPTIMIZER_PROPERTIES with their default values (src/SGD.h, src/RMSprop.h, src/adagrad.h, src/adam.h,
    src/optimizer.h:100-114), and the functions *_optimizer_init, which copy them into the optimizer (src/SGD.c,
    src/RMSprop.c, src/adagrad.c, src/adam.c).

    The arguments of such a macro are designated initializers behind the default values; in C a later initializer of a
    member overrides an earlier one.  Here an argument is a value of an inductive type with a case per member.
    simd_malloc succeeds at a given address; failing allocations and the life time of the blocks are in OptCreate.v. *)
From Coq Require Import List Arith ZArith.
From Verif Require Import Base Ops Mem Neuralnet Batch Loss Evaluate Optimizer.
Import ListNotations.
Local Open Scope mem_scope.

Section OptInit.
Context {FO : fops}.

(** *** src/optimizer.h:101-106; progress: None is progress_ascii, the other functions have numbers *)
Record oprops := { op_batchsize : Z; op_shuffle : bool; op_metrics : metric_array; op_progress : option nat }.
Inductive oarg := O_batchsize (x : Z) | O_shuffle (x : bool) | O_metrics (x : metric_array) | O_progress (x : option nat).
Definition oset (p : oprops) (a : oarg) : oprops :=
  match a with
  | O_batchsize x => {| op_batchsize := x; op_shuffle := op_shuffle p; op_metrics := op_metrics p; op_progress := op_progress p |}
  | O_shuffle x => {| op_batchsize := op_batchsize p; op_shuffle := x; op_metrics := op_metrics p; op_progress := op_progress p |}
  | O_metrics x => {| op_batchsize := op_batchsize p; op_shuffle := op_shuffle p; op_metrics := x; op_progress := op_progress p |}
  | O_progress x => {| op_batchsize := op_batchsize p; op_shuffle := op_shuffle p; op_metrics := op_metrics p; op_progress := x |}
  end.
(** src/optimizer.h:109-114 *)
Definition optimizer_properties (args : list oarg) : oprops :=
  fold_left oset args {| op_batchsize := 32; op_shuffle := true; op_metrics := None; op_progress := None |}.
(** src/optimizer.h:64-70, the members that the epochs use *)
Definition opt_init (nn : neuralnet) (p : oprops) : opt :=
  {| o_nn := nn; o_batchsize := Z.to_nat (op_batchsize p); o_pivot := None |}.

(** simd_malloc and memset of n floats, e.g. src/SGD.c:37-39; [b]: the address.  All bits 0 is the float 0. *)
Definition array_init (b : Z) (n : nat) : M ptr :=
  p <- alloca b n ;; storev p (repeat f0 n) ;;; ret p.

(** *** src/SGD.h:8-13 *)
Record sgd_props := { sp_lr : F; sp_decay : F; sp_mu : F; sp_nesterov : bool }.
Inductive sgd_arg := SA_lr (x : F) | SA_decay (x : F) | SA_momentum (x : F) | SA_nesterov (x : bool).
Definition sgd_set (p : sgd_props) (a : sgd_arg) : sgd_props :=
  match a with
  | SA_lr x => {| sp_lr := x; sp_decay := sp_decay p; sp_mu := sp_mu p; sp_nesterov := sp_nesterov p |}
  | SA_decay x => {| sp_lr := sp_lr p; sp_decay := x; sp_mu := sp_mu p; sp_nesterov := sp_nesterov p |}
  | SA_momentum x => {| sp_lr := sp_lr p; sp_decay := sp_decay p; sp_mu := x; sp_nesterov := sp_nesterov p |}
  | SA_nesterov x => {| sp_lr := sp_lr p; sp_decay := sp_decay p; sp_mu := sp_mu p; sp_nesterov := x |}
  end.
(** src/SGD.h:14-16 *)
Definition sgd_properties (args : list sgd_arg) : sgd_props :=
  fold_left sgd_set args {| sp_lr := flit 1 100; sp_decay := f0; sp_mu := f0; sp_nesterov := false |}.
(** src/SGD.c:24-40 SGD_optimizer_init *)
Definition sgd_init (nn : neuralnet) (p : sgd_props) (b : Z) : M sgd :=
  v <- array_init b (total_n_parameters nn) ;;
  ret {| sg_lr := sp_lr p; sg_decay := sp_decay p; sg_mu := sp_mu p; sg_nesterov := sp_nesterov p; sg_t := 0; sg_v := v |}.

(** *** src/RMSprop.h:8-14 *)
Record rms_props := { rp_lr : F; rp_rho : F; rp_decay : F; rp_mu : F; rp_nesterov : bool }.
Inductive rms_arg := RA_lr (x : F) | RA_rho (x : F) | RA_decay (x : F) | RA_momentum (x : F) | RA_nesterov (x : bool).
Definition rms_set (p : rms_props) (a : rms_arg) : rms_props :=
  match a with
  | RA_lr x => {| rp_lr := x; rp_rho := rp_rho p; rp_decay := rp_decay p; rp_mu := rp_mu p; rp_nesterov := rp_nesterov p |}
  | RA_rho x => {| rp_lr := rp_lr p; rp_rho := x; rp_decay := rp_decay p; rp_mu := rp_mu p; rp_nesterov := rp_nesterov p |}
  | RA_decay x => {| rp_lr := rp_lr p; rp_rho := rp_rho p; rp_decay := x; rp_mu := rp_mu p; rp_nesterov := rp_nesterov p |}
  | RA_momentum x => {| rp_lr := rp_lr p; rp_rho := rp_rho p; rp_decay := rp_decay p; rp_mu := x; rp_nesterov := rp_nesterov p |}
  | RA_nesterov x => {| rp_lr := rp_lr p; rp_rho := rp_rho p; rp_decay := rp_decay p; rp_mu := rp_mu p; rp_nesterov := x |}
  end.
(** src/RMSprop.h:15-22 *)
Definition rms_properties (args : list rms_arg) : rms_props :=
  fold_left rms_set args {| rp_lr := flit 1 1000; rp_rho := flit 9 10; rp_decay := f0; rp_mu := f0; rp_nesterov := false |}.
(** src/RMSprop.c:32-53 RMSprop_optimizer_init; [b], [b']: the addresses of velocity and r *)
Definition rms_init (nn : neuralnet) (p : rms_props) (b b' : Z) : M rmsprop :=
  v <- array_init b (total_n_parameters nn) ;;
  r <- array_init b' (total_n_parameters nn) ;;
  ret {| rm_lr := rp_lr p; rm_decay := rp_decay p; rm_rho := rp_rho p; rm_mu := rp_mu p; rm_nesterov := rp_nesterov p;
         rm_t := 0; rm_v := v; rm_r := r |}.

(** *** src/adagrad.h:8-11 *)
Record ag_props := { gp_lr : F; gp_decay : F }.
Inductive ag_arg := GA_lr (x : F) | GA_decay (x : F).
Definition ag_set (p : ag_props) (a : ag_arg) : ag_props :=
  match a with
  | GA_lr x => {| gp_lr := x; gp_decay := gp_decay p |}
  | GA_decay x => {| gp_lr := gp_lr p; gp_decay := x |}
  end.
(** src/adagrad.h:12-14 *)
Definition ag_properties (args : list ag_arg) : ag_props := fold_left ag_set args {| gp_lr := flit 1 100; gp_decay := f0 |}.
(** src/adagrad.c:27-41 adagrad_optimizer_init *)
Definition ag_init (nn : neuralnet) (p : ag_props) (b : Z) : M adagrad :=
  r <- array_init b (total_n_parameters nn) ;;
  ret {| ag_lr := gp_lr p; ag_decay := gp_decay p; ag_t := 0; ag_r := r |}.

(** *** src/adam.h:11-16 *)
Record ad_props := { dp_lr : F; dp_beta1 : F; dp_beta2 : F; dp_wd : F }.
Inductive ad_arg := DA_lr (x : F) | DA_beta1 (x : F) | DA_beta2 (x : F) | DA_wd (x : F).
Definition ad_set (p : ad_props) (a : ad_arg) : ad_props :=
  match a with
  | DA_lr x => {| dp_lr := x; dp_beta1 := dp_beta1 p; dp_beta2 := dp_beta2 p; dp_wd := dp_wd p |}
  | DA_beta1 x => {| dp_lr := dp_lr p; dp_beta1 := x; dp_beta2 := dp_beta2 p; dp_wd := dp_wd p |}
  | DA_beta2 x => {| dp_lr := dp_lr p; dp_beta1 := dp_beta1 p; dp_beta2 := x; dp_wd := dp_wd p |}
  | DA_wd x => {| dp_lr := dp_lr p; dp_beta1 := dp_beta1 p; dp_beta2 := dp_beta2 p; dp_wd := x |}
  end.
(** src/adam.h:17-19 *)
Definition ad_properties (args : list ad_arg) : ad_props :=
  fold_left ad_set args {| dp_lr := flit 1 1000; dp_beta1 := flit 9 10; dp_beta2 := flit 999 1000; dp_wd := flit 1 10000 |}.
(** src/adam.c:30-47 adam_optimizer_init; both arrays are allocated before they are cleared; [b], [b']: the addresses
    of r and s *)
Definition ad_init (nn : neuralnet) (p : ad_props) (b b' : Z) : M adam :=
  let np := total_n_parameters nn in
  r <- alloca b np ;;
  s <- alloca b' np ;;
  storev r (repeat f0 np) ;;;
  storev s (repeat f0 np) ;;;
  ret {| ad_lr := dp_lr p; ad_beta1 := dp_beta1 p; ad_beta2 := dp_beta2 p; ad_wd := dp_wd p; ad_r := r; ad_s := s |}.
End OptInit.
