(** Activation.v -- memory-level model of the numeric part of src/activation.c *)
From Coq Require Import List Arith ZArith Bool.
From Verif Require Import Base Ops Mem.
Import ListNotations.
Local Open Scope mem_scope.

(** The built-in activation functions, src/activation.c:51-60.  Functions loaded from shared
    objects (lines 91-177) are foreign code and only modelled in Registry.v. *)
Inductive act : Set :=
| Softplus | Softsign | Hard_sigmoid | Exponential | Linear | Relu | Softmax | Sigmoid | Tanh.

Section Activation.
Context {FO : fops}.

(** ** exp256_ps, src/activation.c:358-412, one lane.
    The constants are those of lines 339-354 (decimal literals as rationals). *)
Definition c_half := flit 1 2.
Definition c_exp_hi := flit 883762626647949 10000000000000.
Definition c_exp_lo := flit (-883762626647949) 10000000000000.
Definition c_LOG2EF := flit 144269504088896341 100000000000000000.
Definition c_C1 := flit 693359375 1000000000.
Definition c_C2 := flit (-212194440) 1000000000000.
Definition c_p0 := flit 19875691500 100000000000000.
Definition c_p1 := flit 13981999507 10000000000000.
Definition c_p2 := flit 83334519073 10000000000000.
Definition c_p3 := flit 41665795894 1000000000000.
Definition c_p4 := flit 16666665459 100000000000.
Definition c_p5 := flit 50000001201 100000000000.

Definition exp256_lane (x0 : F) : F :=
  let x1 := vmin x0 c_exp_hi in                              (* 363 *)
  let x2 := vmax x1 c_exp_lo in                              (* 364 *)
  let fx0 := fadd (fmul x2 c_LOG2EF) c_half in               (* 367-368 *)
  let tmp := ffloor fx0 in                                   (* 374 *)
  let mask := if fgt tmp fx0 then f1 else f0 in              (* 378-379 *)
  let fx := fsub tmp mask in                                 (* 380 *)
  let t := fmul fx c_C1 in                                   (* 382 *)
  let z0 := fmul fx c_C2 in                                  (* 383 *)
  let x := fsub (fsub x2 t) z0 in                            (* 384-385 *)
  let z := fmul x x in                                       (* 387 *)
  let y0 := c_p0 in                                          (* 389 *)
  let y1 := fadd (fmul y0 x) c_p1 in                         (* 390-391 *)
  let y2 := fadd (fmul y1 x) c_p2 in                         (* 392-393 *)
  let y3 := fadd (fmul y2 x) c_p3 in                         (* 394-395 *)
  let y4 := fadd (fmul y3 x) c_p4 in                         (* 396-397 *)
  let y5 := fadd (fmul y4 x) c_p5 in                         (* 398-399 *)
  let y6 := fadd (fadd (fmul y5 z) x) f1 in                  (* 400-402 *)
  fmul y6 (fpow2i fx).                                       (* 405-410 *)

(** src/activation.c:428-434 and 416-422 hsum256_ps_avx *)
Definition hsum256_ps_avx (v : list F) : F :=
  match v with
  | [v0; v1; v2; v3; v4; v5; v6; v7] =>
      let l0 := fadd v0 v4 in let l1 := fadd v1 v5 in
      let l2 := fadd v2 v6 in let l3 := fadd v3 v7 in
      fadd (fadd l0 l1) (fadd l2 l3)
  | _ => f0
  end.

Variable c : cfg.
(** The lane function used for exp in vector code.  The C code uses [exp256_lane]; theorems that
    are independent of its accuracy hold for every function. *)
Variable vexp : F -> F.

(** [for( ; !is_aligned( y+i ) && i < n; i++ ) body], lines 311, 462, 483, 501 *)
Fixpoint prologue_loop (fuel n : nat) (p : ptr) (i : nat) (body : nat -> M unit) : M nat :=
  match fuel with
  | O => fail OutOfFuel
  | S k => a <- is_aligned c (p +! i) ;;
           if negb a && (i <? n) then body i ;;; prologue_loop k n p (i + 1) body else ret i
  end.

(** two registers, [load y+i; load y+i+8; ...; store; store] *)
Definition vec2x8 (lane : F -> F) (y : ptr) (i : nat) : M unit :=
  a <- loadv_al 8 (y +! i) ;; b <- loadv_al 8 (y +! i +! 8) ;;
  storev_al (y +! i) (map lane a) ;;; storev_al (y +! i +! 8) (map lane b).

Definition scalar1 (f : F -> F) (y : ptr) (i : nat) : M unit :=
  x <- load (y +! i) ;; store (y +! i) (f x).

(** src/activation.c:305-325 relu *)
Definition relu_s (x : F) : F := fmaxf f0 x.
Definition relu_v (x : F) : F := vmax f0 x.
Definition relu (n : nat) (y : ptr) : M unit :=
  i <- when (has_avx c)
         (i <- prologue_loop (S n) n y 0 (scalar1 relu_s y) ;;
          loop_le 16 n i (vec2x8 relu_v y)) 0 ;;
  loop1 n i (scalar1 relu_s y).

(** src/activation.c:497-525 sigmoid *)
Definition sigmoid_s (x : F) : F := fdiv f1 (fadd f1 (fexp (fneg x))).
Definition sigmoid_v (x : F) : F := fdiv f1 (fadd f1 (vexp (fsub f0 x))).
Definition sigmoid (n : nat) (y : ptr) : M unit :=
  i <- when (has_avx2 c)
         (i <- prologue_loop (S n) n y 0 (scalar1 sigmoid_s y) ;;
          loop_le 16 n i (vec2x8 sigmoid_v y)) 0 ;;
  loop1 n i (scalar1 sigmoid_s y).

(** src/activation.c:539-567 tanh_act (no unaligned prologue) *)
Definition tanh_v (x : F) : F :=
  fadd (fneg f1) (fdiv (fofZ 2) (fadd f1 (vexp (fmul (fneg (fofZ 2)) x)))).
Definition tanh_act (n : nat) (y : ptr) : M unit :=
  i <- when (has_avx2 c) (loop_le 16 n 0 (vec2x8 tanh_v y)) 0 ;;
  loop1 n i (scalar1 ftanh y).

(** src/activation.c:531-534 linear *)
Definition linear (n : nat) (y : ptr) : M unit := ret tt.

(** src/activation.c:570-574 exponential *)
Definition exponential (n : nat) (y : ptr) : M unit := loop1 n 0 (scalar1 fexp y).

(** src/activation.c:576-580 softplus *)
Definition softplus_s (x : F) : F := flog (fadd (fexp x) f1).
Definition softplus (n : nat) (y : ptr) : M unit := loop1 n 0 (scalar1 softplus_s y).

(** src/activation.c:582-586 softsign *)
Definition softsign_s (x : F) : F := fdiv x (fadd (fabs x) f1).
Definition softsign (n : nat) (y : ptr) : M unit := loop1 n 0 (scalar1 softsign_s y).

(** src/activation.c:588-594 hard_sigmoid *)
Definition hard_sigmoid_s (x : F) : F :=
  if flt x (flit (-5) 2) then f0 else
  if fgt x (flit 5 2) then f1 else
  fadd (fmul (flit 1 5) x) (flit 1 2).
Definition hard_sigmoid (n : nat) (y : ptr) : M unit := loop1 n 0 (scalar1 hard_sigmoid_s y).

(** src/activation.c:437-495 softmax *)
Fixpoint softmax_max (fuel n : nat) (ar : ptr) (j : nat) (maxval : F) : M F :=   (* 450-451 *)
  match fuel with
  | O => fail OutOfFuel
  | S k => if j <? n then
             x <- load (ar +! j) ;; softmax_max k n ar (j + 1) (if fgt x maxval then x else maxval)
           else ret maxval
  end.

(** lines 463-464, 478-479: ar[j] = expf(ar[j]-maxval); sum += ar[j] *)
Definition softmax_exp1 (ar : ptr) (maxval : F) (j : nat) (sum : F) : M F :=
  x <- load (ar +! j) ;;
  let e := fexp (fsub x maxval) in
  store (ar +! j) e ;;; ret (fadd sum e).

Fixpoint softmax_prologue (fuel n : nat) (ar : ptr) (maxval : F) (j : nat) (sum : F) : M (nat * F) :=  (* 462-465 *)
  match fuel with
  | O => fail OutOfFuel
  | S k => a <- is_aligned c (ar +! j) ;;
           if negb a && (j <? n) then
             s <- softmax_exp1 ar maxval j sum ;; softmax_prologue k n ar maxval (j + 1) s
           else ret (j, sum)
  end.

Definition softmax (n : nat) (ar : ptr) : M unit :=
  max0 <- load ar ;;
  maxval <- softmax_max (S n) n ar 1 max0 ;;
  let_pair (j, sum) <-
    when (has_avx2 c)
      (let_pair (j, sum) <- softmax_prologue (S n) n ar maxval 0 f0 ;;
       let_pair (j, sum_v) <-
         for_loop_acc (S n) (fun j => j + 8 <=? n) 8 j (repeat f0 8) (fun j sum_v =>        (* 468-474 *)
           x <- loadv_al 8 (ar +! j) ;;
           let e := map (fun x => vexp (fsub x maxval)) x in
           storev_al (ar +! j) e ;;; ret (map2 fadd sum_v e)) ;;
       ret (j, fadd sum (hsum256_ps_avx sum_v))) (0, f0) ;;
  let_pair (j, sum) <- for_loop_acc (S n) (fun j => j <? n) 1 j sum (softmax_exp1 ar maxval) ;; (* 477-480 *)
  i <- when (has_avx c)
         (i <- prologue_loop (S n) n ar 0 (scalar1 (fun x => fdiv x sum) ar) ;;            (* 483-485 *)
          loop_le 8 n i (fun j => x <- loadv_al 8 (ar +! j) ;;
                                  storev_al (ar +! j) (map (fun x => fdiv x sum) x))) 0 ;; (* 487-490 *)
  loop1 n i (scalar1 (fun x => fdiv x sum) ar).                                             (* 492-494 *)

Definition activation_func (a : act) : nat -> ptr -> M unit :=
  match a with
  | Softplus => softplus | Softsign => softsign | Hard_sigmoid => hard_sigmoid
  | Exponential => exponential | Linear => linear | Relu => relu | Softmax => softmax
  | Sigmoid => sigmoid | Tanh => tanh_act
  end.

(** ** Derivatives, src/activation.c:597-732.  [activation] is the value of the activation
    function, [ar] is multiplied in place. *)
Definition dscalar1 (d : F -> F) (actv ar : ptr) (i : nat) : M unit :=
  a <- load (actv +! i) ;; x <- load (ar +! i) ;; store (ar +! i) (fmul x (d a)).
Definition dvec2x8 (d : F -> F) (actv ar : ptr) (i : nat) : M unit :=
  a0 <- loadv_al 8 (actv +! i) ;; a1 <- loadv_al 8 (actv +! i +! 8) ;;
  x0 <- loadv_al 8 (ar +! i) ;; x1 <- loadv_al 8 (ar +! i +! 8) ;;
  storev_al (ar +! i) (map2 (fun a x => fmul (d a) x) a0 x0) ;;;
  storev_al (ar +! i +! 8) (map2 (fun a x => fmul (d a) x) a1 x1).
Definition dvec_loops (d : F -> F) (n : nat) (actv ar : ptr) : M unit :=
  i <- when (has_avx c) (loop_le 16 n 0 (dvec2x8 d actv ar)) 0 ;;
  loop1 n i (dscalar1 d actv ar).

(** 597-603 *)
Definition softplus_d (a : F) : F := let x := fexp a in fdiv (fsub x f1) x.
Definition softplus_derivative (n : nat) (actv ar : ptr) : M unit := loop1 n 0 (dscalar1 softplus_d actv ar).
(** 605-612 *)
Definition softsign_d (a : F) : F :=
  let x := fdiv a (fsub f1 (fabs a)) in
  fdiv f1 (fmul (fadd f1 (fabs x)) (fadd f1 (fabs x))).
Definition softsign_derivative (n : nat) (actv ar : ptr) : M unit := loop1 n 0 (dscalar1 softsign_d actv ar).
(** 614-620 *)
Definition hard_sigmoid_d (a : F) : F :=
  if fle a f0 then f0 else if fge a f1 then f0 else flit 1 5.
Definition hard_sigmoid_derivative (n : nat) (actv ar : ptr) : M unit := loop1 n 0 (dscalar1 hard_sigmoid_d actv ar).
(** 621-625 *)
Definition exponential_derivative (n : nat) (actv ar : ptr) : M unit := loop1 n 0 (dscalar1 (fun a => a) actv ar).
(** 631-639: intentionally empty *)
Definition linear_derivative (n : nat) (actv ar : ptr) : M unit := ret tt.
Definition softmax_derivative (n : nat) (actv ar : ptr) : M unit := ret tt.
(** 644-672; the vector lanes blend 0/1 on a <= 0 *)
Definition relu_d (a : F) : F := if fle a f0 then f0 else f1.
Definition relu_derivative : nat -> ptr -> ptr -> M unit := dvec_loops relu_d.
(** 674-702 *)
Definition sigmoid_d (a : F) : F := fmul a (fsub f1 a).
Definition sigmoid_derivative : nat -> ptr -> ptr -> M unit := dvec_loops sigmoid_d.
(** 704-732 *)
Definition tanh_d (a : F) : F := fsub f1 (fmul a a).
Definition tanh_act_derivative : nat -> ptr -> ptr -> M unit := dvec_loops tanh_d.

(** src/activation.c:285-301 get_activation_derivative for the built-in functions *)
Definition activation_derivative_of (a : act) : nat -> ptr -> ptr -> M unit :=
  match a with
  | Softplus => softplus_derivative | Softsign => softsign_derivative
  | Hard_sigmoid => hard_sigmoid_derivative | Exponential => exponential_derivative
  | Linear => linear_derivative | Relu => relu_derivative | Softmax => softmax_derivative
  | Sigmoid => sigmoid_derivative | Tanh => tanh_act_derivative
  end.

End Activation.
