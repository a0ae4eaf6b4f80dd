(** SpecActFloat.v -- how accurate an activation function is in binary32 *)
From Coq Require Import ZArith Reals.
From Flocq Require Import BinarySingleNaN.
From Verif Require Import OpsB32 Activation SpecReal SpecRound SpecLibm.
Local Open Scope R_scope.

(** what is needed of libm *)
Definition needs (lm : libm) (g : act) : Prop :=
  match g with
  | Linear | Relu | Softsign | Hard_sigmoid => True
  | Sigmoid | Softmax | Exponential => accurate_exp (lm_exp lm)
  | Tanh => accurate_tanh (lm_tanh lm)
  | Softplus => accurate_exp (lm_exp lm) /\ accurate_log (lm_log lm)
  end.
(** arguments: every finite number for relu, sigmoid, tanh, linear and hard sigmoid; the others need room for intermediate results *)
Definition float_dom (g : act) (x : R) : Prop :=
  match g with
  | Softsign => Rabs x <= 2 ^ 127
  | Softmax => Rabs x <= 2 ^ 126
  | Softplus => Rabs x <= 80
  | Exponential => x <= 88
  | _ => True
  end.
Definition float_width (g : act) (n : nat) : Prop := match g with Softmax => INR n <= 2 ^ 20 | _ => True end.
(** the error; y is the exact value, n the number of elements *)
Definition float_err (g : act) (n : nat) (y : R) : R :=
  match g with
  | Linear | Relu => 0
  | Softsign | Hard_sigmoid => 4 / 2 ^ 24
  | Sigmoid => 23 / 10 ^ 8
  | Tanh => 6 / 10 ^ 7
  | Softplus => 5 / 10 ^ 7 * (1 + y)
  | Exponential => 4 / 10 ^ 7 * y + / 10 ^ 36
  | Softmax => (3 * INR n + 20) / 2 ^ 24
  end.
