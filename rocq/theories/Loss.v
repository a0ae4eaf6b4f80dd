(** Loss.v -- memory-level model of src/loss.c and src/metrics.c *)
From Coq Require Import List Arith ZArith Bool.
From Verif Require Import Base Ops Mem.
Import ListNotations.
Local Open Scope mem_scope.

(** the five loss functions, src/loss.c:11-15 *)
Inductive loss : Set := MSE | MAE | MAPE | CCE | BCE.
(** the seven metric functions, src/metrics.c:12-19 *)
Inductive metric : Set := M_MSE | M_MAE | M_MAPE | M_BCE | M_CCE | M_CatAcc | M_BinAcc.

Section Loss.
Context {FO : fops}.

(** src/loss.c:64-117, body of the loop: value stored in loss[i].  In
    mean_absolute_percentage_error the argument and the result of fmax are double, so the product and the
    quotient are computed in double and the store rounds to float.  (fmax of two floats is the
    same number as fmaxf.) *)
Definition loss_elem (l : loss) (n : nat) (p r : F) : F :=
  match l with
  | MSE => fdiv (fmul (fofZ 2) (fsub p r)) (fofZ (Z.of_nat n))                                (* 67 *)
  | MAE => fdiv (if fge p r then f1 else fneg f1) (fofZ (Z.of_nat n))                         (* 73 *)
  | MAPE => fdivd (if fge p r then fofZ 100 else fneg (fofZ 100))
                  (fmaxf r (flit 1 10000000)) (fofZ (Z.of_nat n))                             (* 79 *)
  | CCE => fsub p r                                                                           (* 85 *)
  | BCE => fdiv (fsub p r) (fofZ (Z.of_nat n))                                                (* 116 *)
  end.

Definition loss_func (l : loss) (n : nat) (y_pred y_real out : ptr) : M unit :=
  loop1 n 0 (fun i =>
    p <- load (y_pred +! i) ;; r <- load (y_real +! i) ;; store (out +! i) (loss_elem l n p r)).

(** src/metrics.c:21 *)
Definition epsilon := flit 1 10000000.

(** lines 99-102, 114-117 *)
Definition clip (p : F) : F := fminf (fmaxf p epsilon) (fsub f1 epsilon).

Fixpoint acc_loop (fuel n : nat) (y_pred y_real : ptr) (i : nat) (err : F) (f : F -> F -> F -> F) : M F :=
  match fuel with
  | O => fail OutOfFuel
  | S k => if i <? n then
             p <- load (y_pred +! i) ;; r <- load (y_real +! i) ;;
             acc_loop k n y_pred y_real (i + 1) (f err p r) f
           else ret err
  end.

(** src/metrics.c:137-154 categorical_accuracy: the loop *)
Fixpoint argmax_loop (fuel n : nat) (y_pred y_real : ptr) (i : nat)
    (rmax pmax : F) (ridx pidx : nat) : M (nat * nat) :=
  match fuel with
  | O => fail OutOfFuel
  | S k =>
      if i <? n then
        r <- load (y_real +! i) ;; p <- load (y_pred +! i) ;;
        let '(rmax, ridx) := if fgt r rmax then (r, i) else (rmax, ridx) in
        let '(pmax, pidx) := if fgt p pmax then (p, i) else (pmax, pidx) in
        argmax_loop k n y_pred y_real (i + 1) rmax pmax ridx pidx
      else ret (ridx, pidx)
  end.

(** src/metrics.c:69-154.  In binary_crossentropy and categorical_crossentropy the clipped
    predictions go through a stack array; the model applies [clip] in place (simplification). *)
Definition metric_func (t : metric) (n : nat) (y_pred y_real : ptr) : M F :=
  let fn := fofZ (Z.of_nat n) in
  match t with
  | M_MSE =>                                                                                  (* 69-76 *)
      err <- acc_loop (S n) n y_pred y_real 0 f0 (fun e p r => fadd e (fmul (fsub p r) (fsub p r))) ;;
      ret (fdiv err fn)
  | M_MAE =>                                                                                  (* 78-84 *)
      err <- acc_loop (S n) n y_pred y_real 0 f0 (fun e p r => fadd e (fabs (fsub r p))) ;;
      ret (fdiv err fn)
  | M_MAPE =>                                                                                 (* 86-93 *)
      err <- acc_loop (S n) n y_pred y_real 0 f0
               (fun e p r => fadd e (fabs (fdiv (fsub r p) (fmaxf r epsilon)))) ;;
      ret (fdiv (fmul (fofZ 100) err) fn)
  | M_BCE =>                                                                                  (* 96-109 *)
      err <- acc_loop (S n) n y_pred y_real 0 f0
               (fun e p r => fadd e (fadd (fmul r (flog (clip p)))
                                          (fmul (fsub f1 r) (flog (fsub f1 (clip p)))))) ;;
      ret (fdiv (fneg err) fn)
  | M_CCE =>                                                                                  (* 111-124 *)
      err <- acc_loop (S n) n y_pred y_real 0 f0 (fun e p r => fadd e (fmul r (flog (clip p)))) ;;
      ret (fdiv (fneg err) fn)
  | M_BinAcc =>                                                                               (* 126-135 *)
      err <- acc_loop (S n) n y_pred y_real 0 f0
               (fun s p r => let real := fround (fminf (fmaxf r f0) f1) in
                             fadd s (if feq real (fround p) then f1 else f0)) ;;
      ret (fdiv err fn)
  | M_CatAcc =>                                                                               (* 137-154 *)
      r0 <- load y_real ;; p0 <- load y_pred ;;
      let_pair (ridx, pidx) <- argmax_loop (S n) n y_pred y_real 1 r0 p0 0 0 ;;
      ret (if pidx =? ridx then f1 else f0)
  end.

End Loss.
