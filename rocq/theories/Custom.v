(** Custom.v -- the activation function of a shared object that comes with the examples,
    examples/custom_activation/gnubg_activation.c.

    s is the macro SIGMOID_SCALAR, a double constant; the operations that it takes part in are done in double.  An array is the list
    of its n elements. *)
From Coq Require Import ZArith Bool List.
From Flocq Require Import Core BinarySingleNaN.
From Verif Require Import Base Ops OpsB32.
Import ListNotations.
Local Open Scope Z_scope.

(** examples/custom_activation/gnubg_activation.c:3: 0.1, as a double *)
Definition sigmoid_scalar : b64 := binary_normalize 53 1024 prec_gt_0_64 prec_lt_emax_64 mode_NE 7205759403792794 (-56) false.

Section Custom.
  Variable lm : libm.
  Variable s : b64.
  (** line 9: the argument of expf is rounded to float *)
  Definition scaled_sigmoid1 (y : b32) : b32 :=
    Bdiv mode_NE (b32_ofZ 1) (Bplus mode_NE (b32_ofZ 1) (lm_exp lm (of_b64 (Bmult mode_NE (Bopp s) (to_b64 y))))).
  (** lines 6-10 scaled_sigmoid *)
  Definition scaled_sigmoid (y : list b32) : list b32 := map scaled_sigmoid1 y.
  (** line 15: 1.0f - a is a float operation, the products are double, the result is rounded to float *)
  Definition scaled_sigmoid_d1 (a d : b32) : b32 :=
    of_b64 (Bmult mode_NE (to_b64 d) (Bmult mode_NE (Bmult mode_NE s (to_b64 a)) (to_b64 (Bminus mode_NE (b32_ofZ 1) a)))).
  (** lines 12-16 scaled_sigmoid_derivative: d afterwards *)
  Definition scaled_sigmoid_derivative (activation d : list b32) : list b32 := map2 scaled_sigmoid_d1 activation d.
End Custom.
