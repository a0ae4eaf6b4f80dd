(** Optimizer.v -- memory-level model of the training code: optimizer_calc_batch_gradient
    (src/optimizer.c:61-99) and the epoch functions of src/SGD.c, src/RMSprop.c, src/adagrad.c and
    src/adam.c.  The sample order (pivot) is in Pivot.v, evaluation in Evaluate.v. *)
From Coq Require Import List Arith ZArith Bool.
From Verif Require Import Base Ops Mem Kernels Activation Loss Neuralnet Batch.
Import ListNotations.
Local Open Scope mem_scope.

(** src/optimizer.h:22-33 struct _optimizer_t, the fields the epoch functions read.  pivot is NULL
    ([None]) or an array of indices. *)
Record opt : Set := { o_nn : neuralnet; o_batchsize : nat; o_pivot : option (list nat) }.

(** How OpenMP executes [parallel for reduction(+:batchgrad[0:n_param_padding])]: each thread has a
    private copy of the array (at an address chosen by the runtime) and executes some of the iterations;
    the private copies are combined pairwise in some way (a tree), the results are added to the original
    array one after the other.  [s_omp = None]: compiled without OpenMP.
    [s_grad b], [s_work b]: the addresses of the stack arrays of iteration b (grad, and workmem inside of
    neuralnet_backpropagation). *)
Inductive rtree : Set :=
| Thread (base : Z) (its : list nat)
| Comb (a b : rtree).
Record sched : Set := { s_omp : option (list rtree); s_grad : nat -> Z; s_work : nat -> Z }.

(** the iterations a thread tree executes *)
Fixpoint tree_its (t : rtree) : list nat :=
  match t with Thread _ its => its | Comb a b => tree_its a ++ tree_its b end.
(** every iteration of the loop [for b < bs] is executed exactly once (what OpenMP guarantees) is stated in
    Prop_Optimizer.v as a permutation of these. *)
Definition sched_its (s : sched) : option (list nat) :=
  match s_omp s with None => None | Some ts => Some (flat_map tree_its ts) end.

Section Optimizer.
Context {FO : fops}.
Variable c : cfg.
Variable vexp : F -> F.

(** src/optimizer.c:72-80 n_param_padding.  (The assert on it cannot fail.) *)
Definition n_param_padding (n : nat) : nat := if has_avx c then n + (16 - n mod 16) else n.

(** src/optimizer.c:89-96, one iteration with the accumulator [acc] *)
Definition grad_iteration (s : sched) (o : opt) (X Y : ptr) (i : nat) (acc : ptr) (b : nat) : M unit :=
  match o_pivot o with
  | None => fail BadPointer
  | Some pv =>
      match nth_error pv (i + b) with
      | None => fail OutOfBounds
      | Some k =>
          let np := total_n_parameters (o_nn o) in
          grad <- alloca (s_grad s b) np ;;
          neuralnet_backpropagation c vexp (s_work s b) (o_nn o) (X +! (k * in_size (o_nn o))) (Y +! (k * out_size (o_nn o))) grad ;;;
          vector_accumulate_unaligned c np acc grad ;;;
          freea
      end
  end.
Fixpoint grad_iterations (s : sched) (o : opt) (X Y : ptr) (i : nat) (acc : ptr) (bs : list nat) : M unit :=
  match bs with
  | [] => ret tt
  | b :: r => grad_iteration s o X Y i acc b ;;; grad_iterations s o X Y i acc r
  end.

(** the combination step of the reduction: a[k] += b[k] for all elements of the array section *)
Definition omp_combine (n : nat) (a b : ptr) : M unit :=
  loop1 n 0 (fun k => x <- load (a +! k) ;; y <- load (b +! k) ;; store (a +! k) (fadd x y)).

(** leaves the private copy with the result of the tree on top of the stack.  Threads are
    sequentialised: they only write their private arrays. *)
Fixpoint run_tree (s : sched) (o : opt) (X Y : ptr) (i : nat) (t : rtree) : M ptr :=
  let pad := n_param_padding (total_n_parameters (o_nn o)) in
  match t with
  | Thread b its =>
      priv <- alloca b pad ;;
      storev priv (repeat f0 pad) ;;;
      grad_iterations s o X Y i priv its ;;;
      ret priv
  | Comb t1 t2 =>
      p <- run_tree s o X Y i t1 ;;
      q <- run_tree s o X Y i t2 ;;
      omp_combine pad p q ;;;
      freea ;;;
      ret p
  end.
Fixpoint run_trees (s : sched) (o : opt) (X Y : ptr) (i : nat) (bg : ptr) (ts : list rtree) : M unit :=
  match ts with
  | [] => ret tt
  | t :: r =>
      p <- run_tree s o X Y i t ;;
      omp_combine (n_param_padding (total_n_parameters (o_nn o))) bg p ;;;
      freea ;;;
      run_trees s o X Y i bg r
  end.

(** src/optimizer.c:86-87 *)
Definition batch_size (o : opt) (n i : nat) : nat := if n - i <? o_batchsize o then n - i else o_batchsize o.

(** src/optimizer.c:61-99; returns the new value of *i *)
Definition calc_batch_gradient (s : sched) (o : opt) (n : nat) (X Y : ptr) (i : nat) (bg : ptr) : M nat :=
  let np := total_n_parameters (o_nn o) in
  let bs := batch_size o n i in
  storev bg (repeat f0 np) ;;;
  (match s_omp s with
   | None => grad_iterations s o X Y i bg (seq 0 bs)
   | Some ts => run_trees s o X Y i bg ts
   end) ;;;
  vector_divide_by_scalar c np bg (fofZ (Z.of_nat bs)) ;;;
  ret (i + bs).

(** ** epochs *)
(** Choices of the compiler and the OpenMP runtime in the batch that starts at sample i.  [e_over i]: the
    floats that lie behind the stack array batchgrad (see C26: with AVX and OpenMP the reduction runs over
    them); [] is the strict reading of the C standard, where there is nothing behind the array.
    [e_bg i], [e_tmp i]: addresses of the stack arrays batchgrad and g2 / weights.
    [e_swap i]: adam's two omp sections finish in reverse order. *)
Record env := { e_sched : nat -> sched; e_over : nat -> list F; e_bg : nat -> Z; e_tmp : nat -> Z; e_swap : nat -> bool }.

Definition alloca_over (b : Z) (n : nat) (over : list F) : M ptr := fun m =>
  Ok (mkptr (length m) 0, m ++ [mkblock b (repeat None n ++ map Some over)]).

(** for ( unsigned int i = 0; i < n_train_samples ;  ) step *)
Fixpoint epoch_loop {S : Type} (fuel : nat) (step : nat -> S -> M (nat * S)) (n i : nat) (s : S) : M S :=
  match fuel with
  | O => fail OutOfFuel
  | Datatypes.S k =>
      if i <? n then let_pair (i', s') <- step i s ;; epoch_loop k step n i' s' else ret s
  end.

(** learning_rate *= 1.0f / (1.0f + decay * (float) n_iterations), src/SGD.c:78-79, src/RMSprop.c:110-111,
    src/adagrad.c:107-108.  [t] counts the batches; n_iterations is an unsigned int, the remainder of t modulo 2^32. *)
Definition decayed (lr decay : F) (t : nat) : F :=
  if fgt decay f0 then fmul lr (fdiv f1 (fadd f1 (fmul decay (fofZ (Z.of_nat t mod 4294967296))))) else lr.

(** *** src/SGD.c *)
(** src/SGD.c:10-22 (without opt); sg_t is the number of batches so far, n_iterations its remainder modulo 2^32 *)
Record sgd := { sg_lr : F; sg_decay : F; sg_mu : F; sg_nesterov : bool; sg_t : nat; sg_v : ptr }.

(** src/SGD.c:63-95, one iteration of the loop.  The progress callback only prints. *)
Definition sgd_step (e : env) (o : opt) (n : nat) (X Y : ptr) (i : nat) (s : sgd) : M (nat * sgd) :=
  let nn := o_nn o in
  let np := total_n_parameters nn in
  (if fgt (sg_mu s) f0 then
     vector_scale c np (sg_v s) (sg_mu s) ;;;
     if sg_nesterov s then neuralnet_update c nn (sg_v s) else ret tt
   else ret tt) ;;;
  bg <- alloca_over (e_bg e i) np (e_over e i) ;;
  i' <- calc_batch_gradient (e_sched e i) o n X Y i bg ;;
  let lr := decayed (sg_lr s) (sg_decay s) (sg_t s) in
  vector_scale c np bg (fneg lr) ;;;
  (if fgt (sg_mu s) f0 then vector_accumulate c np (sg_v s) bg else ret tt) ;;;
  (if fgt (sg_mu s) f0 && negb (sg_nesterov s) then neuralnet_update c nn (sg_v s) else neuralnet_update c nn bg) ;;;
  freea ;;;
  ret (i', {| sg_lr := lr; sg_decay := sg_decay s; sg_mu := sg_mu s; sg_nesterov := sg_nesterov s;
              sg_t := sg_t s + 1; sg_v := sg_v s |}).
(** src/SGD.c:54-96 SGD_run_epoch *)
Definition sgd_epoch (e : env) (o : opt) (n : nat) (X Y : ptr) (s : sgd) : M sgd :=
  epoch_loop (S n) (sgd_step e o n X Y) n 0 s.

(** *** kernels of RMSprop.c, adagrad.c and adam.c: an 8 wide loop under #ifdef __AVX__, then a scalar loop *)
Definition two_loops (n : nat) (b8 b1 : nat -> M unit) : M unit :=
  i <- when (has_avx c) (loop_le 8 n 0 b8) 0 ;;
  loop1 n i b1.

(** src/RMSprop.c:70-86, src/adagrad.c:77-92 compute_update *)
Definition compute_update (n : nat) (d r : ptr) (lr : F) : M unit :=
  let eps := flit 1 10000000 in
  two_loops n
    (fun i => x <- loadv_al 8 (d +! i) ;; y <- loadv_al 8 (r +! i) ;;
              storev_al (d +! i) (map2 (fun x y => fmul x (fdiv (fneg lr) (fadd eps (fsqrt y)))) x y))
    (fun i => x <- load (d +! i) ;; y <- load (r +! i) ;;
              store (d +! i) (fmul x (fdiv (fneg lr) (fadd eps (fsqrt y))))).

(** src/adagrad.c:57-72 accumulate_squared_gradient *)
Definition accumulate_squared_gradient (n : nat) (r g : ptr) : M unit :=
  two_loops n
    (fun i => y <- loadv_al 8 (g +! i) ;; x <- loadv_al 8 (r +! i) ;;
              storev_al (r +! i) (map2 (fun x y => fadd x (fmul y y)) x y))
    (fun i => y <- load (g +! i) ;; x <- load (r +! i) ;; store (r +! i) (fadd x (fmul y y))).

(** src/adam.c:64-86 update_biased_first_moment *)
Definition update_biased_first_moment (n : nat) (s g : ptr) (rho : F) : M unit :=
  two_loops n
    (fun i => y <- loadv_al 8 (g +! i) ;; x <- loadv_al 8 (s +! i) ;;
              storev_al (s +! i) (map2 (fun x y => fadd (fmul x rho) (fmul y (fsub f1 rho))) x y))
    (fun i => y <- load (g +! i) ;; x <- load (s +! i) ;;
              store (s +! i) (fadd (fmul rho x) (fmul (fsub f1 rho) y))).

(** src/adam.c:93-115 update_biased_second_moment.  The vector loop computes (g*g)*(1-rho), the scalar
    loop ((1-rho)*g)*g. *)
Definition update_biased_second_moment (n : nat) (r g : ptr) (rho : F) : M unit :=
  two_loops n
    (fun i => y <- loadv_al 8 (g +! i) ;; x <- loadv_al 8 (r +! i) ;;
              storev_al (r +! i) (map2 (fun x y => fadd (fmul x rho) (fmul (fmul y y) (fsub f1 rho))) x y))
    (fun i => y <- load (g +! i) ;; x <- load (r +! i) ;;
              store (r +! i) (fadd (fmul rho x) (fmul (fmul (fsub f1 rho) y) y))).

(** src/adam.c:118-145 compute_update_adam *)
Definition compute_update_adam (n : nat) (d s r : ptr) (rho1 rho2 lr : F) : M unit :=
  let eps := flit 1 100000000 in
  let f x y := fdiv (fmul (fneg lr) (fdiv x (fsub f1 rho1))) (fadd (fsqrt (fdiv y (fsub f1 rho2))) eps) in
  two_loops n
    (fun i => x <- loadv_al 8 (s +! i) ;; y <- loadv_al 8 (r +! i) ;; storev_al (d +! i) (map2 f x y))
    (fun i => x <- load (s +! i) ;; y <- load (r +! i) ;; store (d +! i) (f x y)).

(** *** src/RMSprop.c *)
(** src/RMSprop.c:16-30 *)
Record rmsprop := { rm_lr : F; rm_decay : F; rm_rho : F; rm_mu : F; rm_nesterov : bool; rm_t : nat; rm_v : ptr; rm_r : ptr }.

(** src/RMSprop.c:97-129 *)
Definition rmsprop_step (e : env) (o : opt) (n : nat) (X Y : ptr) (i : nat) (s : rmsprop) : M (nat * rmsprop) :=
  let nn := o_nn o in
  let np := total_n_parameters nn in
  (if fgt (rm_mu s) f0 then
     vector_scale c np (rm_v s) (rm_mu s) ;;;
     if rm_nesterov s then neuralnet_update c nn (rm_v s) else ret tt
   else ret tt) ;;;
  bg <- alloca_over (e_bg e i) np (e_over e i) ;;
  i' <- calc_batch_gradient (e_sched e i) o n X Y i bg ;;
  let lr := decayed (rm_lr s) (rm_decay s) (rm_t s) in
  g2 <- alloca (e_tmp e i) np ;;
  vector_square_elements c np g2 bg ;;;
  vector_saxpby c np (rm_r s) (fsub f1 (rm_rho s)) g2 (rm_rho s) ;;;
  compute_update np bg (rm_r s) lr ;;;
  (if fgt (rm_mu s) f0 then vector_accumulate c np (rm_v s) bg else ret tt) ;;;
  (if fgt (rm_mu s) f0 && negb (rm_nesterov s) then neuralnet_update c nn (rm_v s) else neuralnet_update c nn bg) ;;;
  freea ;;;
  freea ;;;
  ret (i', {| rm_lr := lr; rm_decay := rm_decay s; rm_rho := rm_rho s; rm_mu := rm_mu s; rm_nesterov := rm_nesterov s;
              rm_t := rm_t s + 1; rm_v := rm_v s; rm_r := rm_r s |}).
(** src/RMSprop.c:88-130 RMSprop_run_epoch *)
Definition rmsprop_epoch (e : env) (o : opt) (n : nat) (X Y : ptr) (s : rmsprop) : M rmsprop :=
  epoch_loop (S n) (rmsprop_step e o n X Y) n 0 s.

(** *** src/adagrad.c *)
(** src/adagrad.c:15-25 *)
Record adagrad := { ag_lr : F; ag_decay : F; ag_t : nat; ag_r : ptr }.

(** src/adagrad.c:101-118 *)
Definition adagrad_step (e : env) (o : opt) (n : nat) (X Y : ptr) (i : nat) (s : adagrad) : M (nat * adagrad) :=
  let nn := o_nn o in
  let np := total_n_parameters nn in
  bg <- alloca_over (e_bg e i) np (e_over e i) ;;
  i' <- calc_batch_gradient (e_sched e i) o n X Y i bg ;;
  let lr := decayed (ag_lr s) (ag_decay s) (ag_t s) in
  accumulate_squared_gradient np (ag_r s) bg ;;;
  compute_update np bg (ag_r s) lr ;;;
  neuralnet_update c nn bg ;;;
  freea ;;;
  ret (i', {| ag_lr := lr; ag_decay := ag_decay s; ag_t := ag_t s + 1; ag_r := ag_r s |}).
(** src/adagrad.c:94-119 adagrad_run_epoch *)
Definition adagrad_epoch (e : env) (o : opt) (n : nat) (X Y : ptr) (s : adagrad) : M adagrad :=
  epoch_loop (S n) (adagrad_step e o n X Y) n 0 s.

(** *** src/adam.c *)
(** src/adam.c:16-28 *)
Record adam := { ad_lr : F; ad_beta1 : F; ad_beta2 : F; ad_wd : F; ad_r : ptr; ad_s : ptr }.
(** src/adam.c:158-159: beta_1_corrected and beta_2_corrected are static variables of adam_run_epoch, shared by
    all adam optimizers of the process; initially 1.0f. *)
Definition adam_static := (F * F)%type.
Definition adam_static_init : adam_static := (f1, f1).

(** src/adam.c:174 and 176, the two sections; [g]: the gradient *)
Definition adam_section1 (np : nat) (s : adam) (g : ptr) : M unit := update_biased_first_moment np (ad_s s) g (ad_beta1 s).
Definition adam_section2 (np : nat) (s : adam) (g : ptr) : M unit := update_biased_second_moment np (ad_r s) g (ad_beta2 s).

(** src/adam.c:162-188 *)
Definition adam_step (e : env) (o : opt) (n : nat) (X Y : ptr) (s : adam) (i : nat) (st : adam_static) : M (nat * adam_static) :=
  let nn := o_nn o in
  let np := total_n_parameters nn in
  g <- alloca_over (e_bg e i) np (e_over e i) ;;
  i' <- calc_batch_gradient (e_sched e i) o n X Y i g ;;
  let b1 := fmul (fst st) (ad_beta1 s) in
  let b2 := fmul (snd st) (ad_beta2 s) in
  (if e_swap e i then
     adam_section2 np s g ;;; adam_section1 np s g
   else
     adam_section1 np s g ;;; adam_section2 np s g) ;;;
  compute_update_adam np g (ad_s s) (ad_r s) b1 b2 (ad_lr s) ;;;
  (if fgt (ad_wd s) f0 then
     w <- alloca (e_tmp e i) np ;;
     neuralnet_get_parameters nn w ;;;
     vector_saxpy c np g (fneg (ad_wd s)) w ;;;
     freea
   else ret tt) ;;;
  neuralnet_update c nn g ;;;
  freea ;;;
  ret (i', (b1, b2)).
(** src/adam.c:149-189 adam_run_epoch *)
Definition adam_epoch (e : env) (o : opt) (n : nat) (X Y : ptr) (s : adam) (st : adam_static) : M adam_static :=
  epoch_loop (S n) (adam_step e o n X Y s) n 0 st.

End Optimizer.

(** A training run: epochs one after the other (the loop around optimizer_run_epoch in the examples, e.g.
    examples/general-trainer.c; shuffling changes the pivot in the opt record between epochs).  An epoch is given by the
    choices of the runtime, the optimizer record and n_train_samples. *)
Fixpoint training {FO : fops} {S : Type} (epoch : env -> opt -> nat -> S -> M S) (h : list (env * opt * nat)) (s : S) : M S :=
  match h with
  | [] => ret s
  | (e, o, n) :: r => s' <- epoch e o n s ;; training epoch r s'
  end.
