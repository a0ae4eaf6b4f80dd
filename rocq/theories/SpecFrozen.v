(** SpecFrozen.v -- a parameter that does not move any more.  Nothing here refers to the code. *)
From Flocq Require Import BinarySingleNaN.
From Coq Require Import ZArith Reals.
From Verif Require Import OpsB32.

(** an accumulated square that has overflowed *)
Definition overflowed (r : b32) : Prop := is_nan r = true \/ r = B754_infinity false.
(** the same number as before, or a NaN *)
Definition unmoved (x y : b32) : Prop := is_nan y = true \/ (is_finite y = true /\ B2R y = B2R x).
