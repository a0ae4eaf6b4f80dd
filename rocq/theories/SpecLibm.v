(** SpecLibm.v -- what is assumed about the functions of libm where a theorem needs their accuracy *)
From Coq Require Import ZArith Reals.
From Flocq Require Import BinarySingleNaN.
From Verif Require Import OpsB32.
Local Open Scope R_scope.

(** f is not negative and is the exponential up to a relative error of 4e-7 (about 3.4 units in the last place) where it is far from
    overflow, up to 1e-36 where it is close to 0, and large or infinite where it overflows *)
Definition accurate_exp (f : b32 -> b32) : Prop := forall x : b32, is_finite x = true ->
  (B2R x <= 88 -> is_finite (f x) = true /\ 0 <= B2R (f x) /\ Rabs (B2R (f x) - exp (B2R x)) <= 4 / 10 ^ 7 * exp (B2R x) + / 10 ^ 36) /\
  (88 < B2R x -> f x = B754_infinity false \/ is_finite (f x) = true /\ 10 ^ 37 <= B2R (f x)).

(** f is tanh up to 6e-7 *)
Definition tanhR (x : R) : R := (exp x - exp (- x)) / (exp x + exp (- x)).
Definition accurate_tanh (f : b32 -> b32) : Prop := forall x : b32, is_finite x = true ->
  is_finite (f x) = true /\ Rabs (B2R (f x) - tanhR (B2R x)) <= 6 / 10 ^ 7.

(** f is the natural logarithm up to a relative error of 4e-7, from 1 upwards *)
Definition accurate_log (f : b32 -> b32) : Prop := forall x : b32, is_finite x = true -> 1 <= B2R x ->
  is_finite (f x) = true /\ Rabs (B2R (f x) - ln (B2R x)) <= 4 / 10 ^ 7 * ln (B2R x).
