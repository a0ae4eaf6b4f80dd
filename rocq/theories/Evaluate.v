(** Evaluate.v -- src/evaluate.c and optimizer_run_epoch (src/optimizer.c:101-133) *)
From Coq Require Import List Arith ZArith Bool.
From Verif Require Import Base Ops Mem Kernels Activation Loss Neuralnet Batch Pivot Optimizer.
Import ListNotations.
Local Open Scope mem_scope.

(** metric_func metrics[]: NULL or an array of function pointers, ended by a NULL pointer *)
Definition metric_array : Set := option (list (option metric)).
(** src/evaluate.c:20-24 and src/optimizer.h:133-144 (the loop): the functions up to the first NULL; an
    array without NULL is read beyond its end.  The number of metrics is the length of the result. *)
Fixpoint metric_list (ms : list (option metric)) : res (list metric) :=
  match ms with
  | [] => Fault OutOfBounds
  | None :: _ => Ok []
  | Some t :: r => match metric_list r with Ok l => Ok (t :: l) | Fault f => Fault f end
  end.

Section Evaluate.
Context {FO : fops}.
Variable c : cfg.
Variable vexp : F -> F.

(** ** [#pragma omp parallel for reduction(+:local_results[:])] in general: [body acc i] is iteration i with
    the accumulator array acc of n floats.  As in Optimizer.v the threads are sequentialised and combined by trees. *)
Section Reduction.
Variable n : nat.
Variable body : ptr -> nat -> M unit.
Fixpoint red_iterations (acc : ptr) (its : list nat) : M unit :=
  match its with
  | [] => ret tt
  | i :: r => body acc i ;;; red_iterations acc r
  end.
Fixpoint red_tree (t : rtree) : M ptr :=
  match t with
  | Thread b its =>
      priv <- alloca b n ;;
      storev priv (repeat f0 n) ;;;
      red_iterations priv its ;;;
      ret priv
  | Comb t1 t2 =>
      p <- red_tree t1 ;;
      q <- red_tree t2 ;;
      omp_combine n p q ;;;
      freea ;;;
      ret p
  end.
Fixpoint red_trees (acc : ptr) (ts : list rtree) : M unit :=
  match ts with
  | [] => ret tt
  | t :: r =>
      p <- red_tree t ;;
      omp_combine n acc p ;;;
      freea ;;;
      red_trees acc r
  end.
(** [None]: compiled without OpenMP *)
Definition omp_for (omp : option (list rtree)) (samples : nat) (acc : ptr) : M unit :=
  match omp with None => red_iterations acc (seq 0 samples) | Some ts => red_trees acc ts end.
End Reduction.

(** Choices of compiler and runtime: threads, addresses of local_results, of y_pred and of the work array of
    neuralnet_predict in iteration i, of predictions (BLAS build) *)
Record esched := { es_omp : option (list rtree); es_local : Z; es_pred : nat -> Z; es_work : nat -> Z; es_predictions : Z }.

(** src/evaluate.c:41-45.  [j]: the position of res. *)
Fixpoint add_metrics (no : nat) (ts : list metric) (j : nat) (y_pred y : ptr) (acc : ptr) : M unit :=
  match ts with
  | [] => ret tt
  | t :: r =>
      e <- metric_func t no y_pred y ;;
      x <- load (acc +! j) ;;
      store (acc +! j) (fadd x e) ;;;
      add_metrics no r (j + 1) y_pred y acc
  end.

(** src/evaluate.c:33-46, one iteration; without USE_CBLAS *)
Definition eval_iteration (s : esched) (nn : neuralnet) (X Y : ptr) (ts : list metric) (acc : ptr) (i : nat) : M unit :=
  y_pred <- alloca (es_pred s i) (out_size nn) ;;
  neuralnet_predict c vexp (es_work s i) nn (X +! (i * in_size nn)) y_pred ;;;
  add_metrics (out_size nn) ts 0 y_pred (Y +! (i * out_size nn)) acc ;;;
  freea.

(** src/evaluate.c:48-50 *)
Definition store_means (n samples : nat) (local results : ptr) : M unit :=
  loop1 n 0 (fun i => x <- load (local +! i) ;; store (results +! i) (fdiv x (fofZ (Z.of_nat samples)))).

(** src/evaluate.c:12-51 without USE_CBLAS.  Sizes are unbounded integers (the C code uses int); an empty
    metric list (a zero-length array in C, which gcc allows) does nothing. *)
Definition evaluate (s : esched) (nn : neuralnet) (samples : nat) (X Y : ptr) (metrics : metric_array) (results : ptr) : M unit :=
  match metrics with
  | None => fail BadPointer
  | Some ms =>
      match metric_list ms with
      | Fault f => fail f
      | Ok ts =>
          let n := length ts in
          local <- alloca (es_local s) n ;;
          storev local (repeat f0 n) ;;;
          omp_for n (eval_iteration s nn X Y ts) (es_omp s) samples local ;;;
          store_means n samples local results ;;;
          freea
      end
  end.

(** src/evaluate.c:12-51 with USE_CBLAS: the prediction of all samples first, in the stack array predictions *)
Variable nstack : nat.
Variable sgemm : nat -> nat -> nat -> list F -> list F -> list F -> list F.
Definition evaluate_blas (fuel : nat) (wbs : nat -> ptr -> Z) (s : esched) (nn : neuralnet) (samples : nat) (X Y : ptr)
    (metrics : metric_array) (results : ptr) : M unit :=
  match metrics with
  | None => fail BadPointer
  | Some ms =>
      match metric_list ms with
      | Fault f => fail f
      | Ok ts =>
          let n := length ts in
          local <- alloca (es_local s) n ;;
          storev local (repeat f0 n) ;;;
          predictions <- alloca (es_predictions s) (out_size nn * samples) ;;
          storev predictions (repeat f0 (out_size nn * samples)) ;;;
          predict_batch_blas c vexp nstack sgemm fuel wbs nn samples X predictions ;;;
          omp_for n (fun acc i => add_metrics (out_size nn) ts 0 (predictions +! (i * out_size nn)) (Y +! (i * out_size nn)) acc)
            (es_omp s) samples local ;;;
          store_means n samples local results ;;;
          freea ;;;
          freea
      end
  end.

(** src/optimizer.h:133-144 *)
Definition optimizer_get_n_metrics (metrics : metric_array) : res nat :=
  match metrics with
  | None => Ok 0
  | Some ms => match metric_list ms with Ok l => Ok (length l) | Fault f => Fault f end
  end.

(** src/optimizer.c:101-122.  [run]: the function pointer self->run_epoch, called with the pivot; S is the state
    of the optimizer.  The call [k] and the process state [w] (pivots) are as in Pivot.v, the call also says how many
    training samples there are.  [eval1], [eval2]: the two calls of evaluate ([evaluate s] or [evaluate_blas ... s]). *)
Definition optimizer_run_epoch {S : Type} (eval1 eval2 : neuralnet -> nat -> ptr -> ptr -> metric_array -> ptr -> M unit)
    (k : call) (w : world) (nn : neuralnet) (metrics : metric_array)
    (run : option (option (list nat) -> M S)) (train_X train_Y : ptr)
    (n_valid : nat) (valid_X valid_Y : option ptr) (results : ptr) : M (world * S) :=
  match start_epoch k w with
  | Fault f => fail f
  | Ok w' =>
      match run with
      | None => fail AssertFailed
      | Some run_epoch =>
          s <- run_epoch (w_pivot w' (c_opt k)) ;;
          match optimizer_get_n_metrics metrics with
          | Fault f => fail f
          | Ok n_metrics =>
              eval1 nn (c_n k) train_X train_Y metrics results ;;;
              (match valid_X, valid_Y with
               | Some vX, Some vY =>
                   if 0 <? n_valid then eval2 nn n_valid vX vY metrics (results +! n_metrics) else ret tt
               | _, _ => ret tt
               end) ;;;
              ret (w', s)
          end
      end
  end.
End Evaluate.
